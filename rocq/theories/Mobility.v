(** Model of address mobility and of the tables of open sessions of one instance: src/Session.cpp (setOpen 543-556,
    makeMobilityCheck 687-709, sendMobilityCheck 711-724, onMobilityCheckReply 1443-1476, onPacketHeader 1571-1575, onChunk
    1644-1722, onPacketAfterChunks 1783-1790, onPingChunk 1996-2010, onPingReplyChunk 2012-2030, onCloseChunk and onCloseAckChunk
    2085-2116) and src/RTMFP.cpp (findOpenSessionByAddress and ByEPD 390-404, onSessionDidOpen 443-449, onSessionDidClose
    456-462, onSessionAddressDidChange 472-477, onIIKeying 655-686).  [sha] is cryptoHash256, any function here; [secret] is
    RTMFP::m_secret; the instance's age is in ticks as in Cookie.v.
    Left out: chunks that touch neither the address nor the state; the user's callbacks (they do nothing here); the sending of
    what is sent; the window between the change of state and onSessionDidClose while a session closes (see Session.v). *)
From Verif Require Import Base VLU Address FlashCert Packet Cookie.
Open Scope res_scope.

(** params.hpp 13-14, 65; packet.hpp 13-16, 29-30, 39-40, 68 *)
Definition MAX_PING_MESSAGE_LENGTH : nat := 1000.
Definition MAX_MOBILITY_LIFETIME := 120.
Definition PING_MARKING_MOBILITY := 77.
Definition CHUNK_PING := 1.
Definition CHUNK_PING_REPLY := 65.
Definition CHUNK_CLOSE := 12.
Definition CHUNK_CLOSE_ACK := 76.
Definition HEADER_MODE_STARTUP := 3.

(** One session: whether m_state is S_OPEN, m_role, m_destInterfaceID, m_destAddr, m_epd, m_mob_tx_ts and m_mob_rx_ts *)
Record peer := mkPeer { m_up : bool; m_role : Z; m_if : Z; m_addr : addr; m_epd : list Z; m_tx : Z; m_rx : Z }.
(** Session.cpp 379-380: both time stamps begin at 0 *)
Definition new_peer (role ifc : Z) (a : addr) (epd : list Z) : peer := mkPeer true role ifc a epd 0 0.

(** Address(addr): made from a socket address, so of unknown origin *)
Definition plain (a : addr) : addr := mkAddr (a_fam a) (a_ip a) (a_port a) 0.
(** Session.cpp 687-709: makeMobilityCheck; the int interfaceID becomes a uintmax_t *)
Definition make_check (sha : list Z -> list Z) (secret : list Z) (now ifc : Z) (a : addr) : list Z :=
  let dough := [PING_MARKING_MOBILITY] in
  let rv := [PING_MARKING_MOBILITY] in
  let dough := vlu_append now dough in
  let rv := vlu_append now rv in
  let dough := vlu_append (wrap64 ifc) dough in
  let dough := dough ++ addr_encode (plain a) in
  let dough := dough ++ secret in
  rv ++ sha dough.

(** What a session does that can be seen: it sends a mobility check (made in second [ts], to this interface and address), it
    sends the reply to a ping (to its own interface and address), and it moves to another address (the second in which the
    check was made is there for the theorems) *)
Inductive mout := MCheck (ts ifc : Z) (a : addr) (packet : list Z) | MReply (ifc : Z) (a : addr) (packet : list Z) | MMoved (ts ifc : Z) (a : addr).

(** A chunk in a buffer of MAX_PING_MESSAGE_LENGTH bytes; [None] when it does not fit *)
Definition ping_packet (type_ : Z) (l : list Z) : res (option (list Z)) :=
  ' sp <- pa_start_chunk (pa_init (repeat 0 MAX_PING_MESSAGE_LENGTH) 0) type_ ;;
  ' (p2, fits) <- pa_push (fst sp) l ;;
  if (fits : bool) then p3 <- pa_commit p2 ;; Ok (Some (pa_to_vector p3)) else Ok None.
(** 711-724: sendMobilityCheck; the answer of push is not looked at (a check always fits, C59) *)
Definition send_check (sha : list Z -> list Z) (secret : list Z) (now ifc : Z) (a : addr) (p : peer) : res (peer * list mout) :=
  ' sp <- pa_start_chunk (pa_init (repeat 0 MAX_PING_MESSAGE_LENGTH) 0) CHUNK_PING ;;
  ' sq <- pa_push (fst sp) (make_check sha secret now ifc a) ;;
  p3 <- pa_commit (fst sq) ;;
  Ok (mkPeer (m_up p) (m_role p) (m_if p) (m_addr p) (m_epd p) now (m_rx p), [MCheck now ifc a (pa_to_vector p3)]).
(** 1443-1458: onMobilityCheckReply *)
Definition on_check_reply (sha : list Z -> list Z) (secret : list Z) (age : Z) (chunk : list Z) (ts ifc : Z) (a : addr) (p : peer) : peer * list mout :=
  if (ts <=? m_rx p) || (wrap64 (ts + MAX_MOBILITY_LIFETIME) <? seconds_of age) then (p, [])
  else if negb (eq_bytes chunk (make_check sha secret ts ifc a)) then (p, [])
  else (mkPeer (m_up p) (m_role p) ifc a (m_epd p) (m_tx p) ts, [MMoved ts ifc a]).
(** 1996-2006: onPingChunk *)
Definition on_ping (chunk : list Z) (p : peer) : res (peer * list mout) :=
  r <- ping_packet CHUNK_PING_REPLY chunk ;;
  match r with None => Ok (p, []) | Some l => Ok (p, [MReply (m_if p) (m_addr p) l]) end.
(** 2012-2030: onPingReplyChunk *)
Definition on_ping_reply (sha : list Z -> list Z) (secret : list Z) (age : Z) (chunk : list Z) (ifc : Z) (a : addr) (p : peer) : res (peer * list mout) :=
  match chunk with
  | [] => Ok (p, [])
  | marking :: cursor =>
      if marking =? PING_MARKING_MOBILITY then
        match vlu_parse cursor with
        | UB => UB
        | Rej => Ok (p, [])
        | Ok (ts, _) => Ok (on_check_reply sha secret age chunk ts ifc a p)
        end
      else Ok (p, [])
  end.
Definition down (p : peer) : peer := mkPeer false (m_role p) (m_if p) (m_addr p) (m_epd p) (m_tx p) (m_rx p).
(** 1644-1722: onChunk; 2085-2116: a session that is open leaves that state on close and on close acknowledgement *)
Definition on_chunk (sha : list Z -> list Z) (secret : list Z) (age : Z) (mode : Z) (ifc : Z) (a : addr) (c : Z * list Z) (p : peer) : res (peer * list mout) :=
  if negb (mode =? HEADER_MODE_STARTUP) && m_up p then
    if fst c =? CHUNK_PING then on_ping (snd c) p
    else if fst c =? CHUNK_PING_REPLY then on_ping_reply sha secret age (snd c) ifc a p
    else if (fst c =? CHUNK_CLOSE) || (fst c =? CHUNK_CLOSE_ACK) then Ok (down p, [])
    else Ok (p, [])
  else Ok (p, []).
Fixpoint on_chunks (sha : list Z -> list Z) (secret : list Z) (age : Z) (mode : Z) (ifc : Z) (a : addr) (cs : list (Z * list Z)) (p : peer) : res (peer * list mout) :=
  match cs with
  | [] => Ok (p, [])
  | c :: r =>
      ' (p1, o1) <- on_chunk sha secret age mode ifc a c p ;;
      ' (p2, o2) <- on_chunks sha secret age mode ifc a r p1 ;;
      Ok (p2, o1 ++ o2)
  end.
(** 1783-1790: the check for mobility *)
Definition after_chunks (sha : list Z -> list Z) (secret : list Z) (age : Z) (ifc : Z) (a : addr) (p : peer) : res (peer * list mout) :=
  let now := seconds_of age in
  if m_up p && negb ((ifc =? m_if p) && addr_eq a (m_addr p)) && (now >? m_tx p) then send_check sha secret now ifc a p else Ok (p, []).
(** 39-90, 1571-1575: a packet, decrypted; [margin] is the front margin of the key.  A packet that is refused changes nothing here. *)
Definition on_packet (sha : list Z -> list Z) (secret : list Z) (age : Z) (ifc : Z) (a : addr) (margin : nat) (l : list Z) (p : peer) : res (peer * list mout) :=
  match parse_packet (fun flags _ _ => negb ((Z.land flags 3 =? 0) || (Z.land flags 3 =? m_role p))) l margin with
  | UB => UB
  | Rej => Ok (p, [])
  | Ok h =>
      ' (p1, o1) <- on_chunks sha secret age (Z.land (h_flags h) 3) ifc a (h_chunks h) p ;;
      ' (p2, o2) <- after_chunks sha secret age ifc a p1 ;;
      Ok (p2, o1 ++ o2)
  end.

(** ** The tables of open sessions *)

(** The instance: all sessions that were ever opened, m_openSessionsByAddress, m_openSessionsByCanonicalEPD, and what the
    sessions did (the latest last) *)
Record inst := mkInst { i_sess : list peer; i_addrs : list (addr * nat); i_epds : list (list Z * nat); i_out : list (nat * mout) }.
Definition inst0 : inst := mkInst [] [] [] [].
(** A std::map whose keys are compared by [eq] (for addresses that is equality of operator<, C39) *)
Fixpoint tfind {K} (eq : K -> K -> bool) (k : K) (t : list (K * nat)) : option nat :=
  match t with [] => None | (k', n) :: r => if eq k k' then Some n else tfind eq k r end.
Definition terase {K} (eq : K -> K -> bool) (k : K) (t : list (K * nat)) : list (K * nat) := filter (fun e => negb (eq k (fst e))) t.
Definition tset {K} (eq : K -> K -> bool) (k : K) (n : nat) (t : list (K * nat)) : list (K * nat) := (k, n) :: terase eq k t.
Definition is_n (o : option nat) (n : nat) : bool := match o with Some m => (m =? n)%nat | None => false end.
(** RTMFP.cpp 390-404 *)
Definition by_addr (i : inst) (a : addr) : option nat := tfind addr_eq a (i_addrs i).
Definition by_epd (i : inst) (e : list Z) : option nat := tfind eq_bytes e (i_epds i).
Fixpoint set_at {A} (l : list A) (n : nat) (x : A) : list A :=
  match l, n with [], _ => [] | _ :: r, O => x :: r | y :: r, S n => y :: set_at r n x end.
(** 443-449: onSessionDidOpen *)
Definition did_open (n : nat) (i : inst) : inst :=
  match nth_error (i_sess i) n with
  | None => i
  | Some p => mkInst (i_sess i) (tset addr_eq (m_addr p) n (i_addrs i)) (tset eq_bytes (m_epd p) n (i_epds i)) (i_out i)
  end.
(** 456-462: onSessionDidClose *)
Definition did_close (n : nat) (i : inst) : inst :=
  match nth_error (i_sess i) n with
  | None => i
  | Some p => mkInst (i_sess i)
                (if is_n (by_addr i (m_addr p)) n then terase addr_eq (m_addr p) (i_addrs i) else i_addrs i)
                (if is_n (by_epd i (m_epd p)) n then terase eq_bytes (m_epd p) (i_epds i) else i_epds i) (i_out i)
  end.
(** 472-477: onSessionAddressDidChange, [old] to [new] *)
Definition did_move (n : nat) (old new : addr) (t : list (addr * nat)) : list (addr * nat) :=
  tset addr_eq new n (if is_n (tfind addr_eq old t) n then terase addr_eq old t else t).
(** The moves among what a session did, in order *)
Fixpoint follow (n : nat) (old : addr) (o : list mout) (t : list (addr * nat)) : list (addr * nat) :=
  match o with
  | [] => t
  | MMoved _ _ a :: r => follow n a r (did_move n old a t)
  | _ :: r => follow n old r t
  end.
(** A session that is open leaves that state: abort, setNearclose, setFarcloseLinger *)
Definition close_peer (n : nat) (i : inst) : inst :=
  match nth_error (i_sess i) n with
  | Some p => if m_up p then did_close n (mkInst (set_at (i_sess i) n (down p)) (i_addrs i) (i_epds i) (i_out i)) else i
  | None => i
  end.
(** A new session is opened: Session.cpp 543-554 *)
Definition open_peer (p : peer) (i : inst) : inst :=
  did_open (length (i_sess i)) (mkInst (i_sess i ++ [p]) (i_addrs i) (i_epds i) (i_out i)).

Inductive mevent :=
| MInitiated (ifc : Z) (a : addr) (epd : list Z)                      (* Session.cpp 1364-1388: the responder's keying came *)
| MAccepted (ifc : Z) (a : addr) (epd : list Z) (override : bool)     (* RTMFP.cpp 655-686: an initiator's keying was verified *)
| MReused (epd : list Z)                                              (* Session.cpp 1278-1283: the far end is an open session's *)
| MPacket (n : nat) (age ifc : Z) (a : addr) (margin : nat) (l : list Z) (* a packet of session n *)
| MClosed (n : nat).                                                  (* session n is closed by this side or by a timer *)
(** One event.  [override] is the answer of doesCertOverrideSession.  The retransmission of a responder's keying (428-441)
    changes nothing here and is left out. *)
Definition mstep (sha : list Z -> list Z) (secret : list Z) (i : inst) (e : mevent) : res inst :=
  match e with
  | MInitiated ifc a epd => Ok (open_peer (new_peer 1 ifc a epd) i)
  | MAccepted ifc a epd override =>
      match by_addr i a with
      | Some n => if override then Ok (open_peer (new_peer 2 ifc a epd) (close_peer n i)) else Ok i
      | None => Ok (open_peer (new_peer 2 ifc a epd) i)
      end
  | MReused epd => match by_epd i epd with Some n => Ok (did_open n i) | None => Ok i end
  | MPacket n age ifc a margin l =>
      match nth_error (i_sess i) n with
      | None => Ok i
      | Some p =>
          ' (p', o) <- on_packet sha secret age ifc a margin l p ;;
          let i1 := mkInst (set_at (i_sess i) n p') (follow n (m_addr p) o (i_addrs i)) (i_epds i) (i_out i ++ map (pair n) o) in
          Ok (if m_up p && negb (m_up p') then did_close n i1 else i1)
      end
  | MClosed n => Ok (close_peer n i)
  end.
Fixpoint mrun (sha : list Z -> list Z) (secret : list Z) (i : inst) (l : list mevent) : res inst :=
  match l with [] => Ok i | e :: r => i1 <- mstep sha secret i e ;; mrun sha secret i1 r end.
