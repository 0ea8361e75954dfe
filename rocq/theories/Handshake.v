(** Model of the startup handshake: how an instance opens sessions as initiator and as responder (src/RTMFP.cpp 82-160, 343-470,
    508-715; src/Session.cpp 195-237, 412-443, 543-556, 740-788, 820-865, 1264-1388, 1644-1662).  The chunks are in Startup.v.
    Everything outside is given: what the network delivers, what the application asks for, when timers fire, in which order the
    tasks given to perform() are run and what the cryptography answers.  A task that the code gives to perform() is one atomic
    step here; isAuthentic and checkSignature call back within the task that calls them.  Data races between threads are not
    modelled.  Packets of open sessions, early packets and flows are not in this file; an address change is an event (see
    Mobility.v).  Session IDs are those that List::append gives, which are not in use; they are given here. *)
From Verif Require Import Base VLU Address FlashCert Cookie Packet Startup Mobility.
Open Scope res_scope.

(** ICryptoAdapter, CryptoCert and the instance's secret.  A certificate is its encoding; a signature may depend on chance. *)
Record cryp := mkCryp {
  c_sha : list Z -> list Z; c_secret : list Z;
  c_decodes : list Z -> bool;                      (* decodeCertificate answers a certificate *)
  c_authentic : list Z -> bool;                    (* isAuthentic calls back *)
  c_selected : list Z -> list Z -> bool;           (* CryptoCert::isSelectedByEPD *)
  c_canonical : list Z -> list Z;                  (* getCanonicalEPD *)
  c_overrides : list Z -> list Z -> bool;          (* doesCertOverrideSession *)
  c_mine : list Z -> bool;                         (* ICryptoAdapter::isSelectedByEPD *)
  c_cert : list Z -> list Z;                       (* getNearEncodedCertForEPD *)
  c_wins : list Z -> bool;                         (* checkNearWinsGlare *)
  c_sign : list Z -> list Z -> Z -> list Z;        (* sign for a recipient *)
  c_check : list Z -> list Z -> list Z -> bool }.  (* checkSignature calls back: certificate, text, signature *)

(** Session states (include/rtmfp/rtmfp.hpp); CLOSING is near close and far close linger *)
Inductive hstate := IHELLO_SENT | KEYING_SENT | OPEN | CLOSING | CLOSED.
Inductive hrole := INITIATOR | RESPONDER.
(** A session.  [h_asked] (the EPD of initiateToEPD), [h_own] (the component the key generated) and [h_far] (the components it
    was combined with, the latest first) are only remembered for the theorems. *)
Record ses := mkSes {
  h_state : hstate; h_role : hrole; h_rx : Z; h_epd : list Z; h_asked : list Z; h_tag : list Z; h_cands : list addr;
  h_cert : option (list Z); h_if : Z; h_addr : addr; h_cookie : list Z; h_changed : bool; h_skic : list Z; h_tx : Z;
  h_iik : option (list Z); h_rik : list Z; h_own : option (list Z); h_far : list (list Z) }.
(** What perform() was given and has not run yet *)
Inductive task :=
| TRHello (n : nat) (cookie cert : list Z) (ifc : Z) (a : addr)   (* Session.cpp 1269-1297 *)
| TSkic (n : nat) (cookie cert : list Z)                          (* 1299-1313 *)
| TStart (n : nat) (skic : option (list Z)) (chunk : list Z)      (* 1309-1312, 1338 *)
| TAbort (n : nat)                                                (* 1303, 1334 *)
| TCookie (n : nat)                                               (* 1330-1339 *)
| TRI (n : nat) (rsid : Z) (skrc text sig : list Z)               (* 1374-1378 *)
| TOpen (n : nat) (rsid : Z)                                      (* 1380-1385 *)
| TII (isid : Z) (skic text sig cert : list Z) (ifc : Z) (a : addr)      (* RTMFP.cpp 641-653 *)
| TIIRun (isid : Z) (skic skrc cert : list Z) (ifc : Z) (a : addr)       (* 655-694 *)
| TRIK (n : nat) (skrc skic cert : list Z)                        (* 696-697 *)
| TRIKSet (n : nat) (chunk : list Z).                             (* 699-702 *)
(** What can be seen from outside: packets given to the startup session, texts signed, cookies issued *)
Inductive hout :=
| HSend (bytes : list Z) (tx : Z) (ifc : Z) (a : addr)
| HSigned (recipient text : list Z)
| HCookie (age : Z) (a : addr) (cookie : list Z).
(** The instance; [g_waiting] is m_waitingPerformCount.  m_openingSessions holds the sessions in the first two states, in the
    order in which they were made. *)
Record hinst := mkH { g_sess : list ses; g_addrs : list (addr * nat); g_epds : list (list Z * nat); g_tasks : list task; g_waiting : Z; g_down : bool; g_out : list hout }.
Definition hinst0 : hinst := mkH [] [] [] [] 0 false [].

(** ** Changing parts of the state *)
Definition g_put (l : list ses) (i : hinst) : hinst := mkH l (g_addrs i) (g_epds i) (g_tasks i) (g_waiting i) (g_down i) (g_out i).
Definition g_set (n : nat) (p : ses) (i : hinst) : hinst := g_put (set_at (g_sess i) n p) i.
Definition g_tabs (ta : list (addr * nat)) (te : list (list Z * nat)) (i : hinst) : hinst := mkH (g_sess i) ta te (g_tasks i) (g_waiting i) (g_down i) (g_out i).
Definition g_wait (w : Z) (i : hinst) : hinst := mkH (g_sess i) (g_addrs i) (g_epds i) (g_tasks i) w (g_down i) (g_out i).
Definition g_stop (i : hinst) : hinst := mkH (g_sess i) (g_addrs i) (g_epds i) (g_tasks i) (g_waiting i) true (g_out i).
(** perform(); what is given last comes last *)
Definition perform (t : task) (i : hinst) : hinst := mkH (g_sess i) (g_addrs i) (g_epds i) (g_tasks i ++ [t]) (g_waiting i) (g_down i) (g_out i).
Definition g_done (k : nat) (i : hinst) : hinst := mkH (g_sess i) (g_addrs i) (g_epds i) (firstn k (g_tasks i) ++ skipn (S k) (g_tasks i)) (g_waiting i) (g_down i) (g_out i).
Definition say (o : hout) (i : hinst) : hinst := mkH (g_sess i) (g_addrs i) (g_epds i) (g_tasks i) (g_waiting i) (g_down i) (g_out i ++ [o]).

Definition h_with_state (x : hstate) (p : ses) := mkSes x (h_role p) (h_rx p) (h_epd p) (h_asked p) (h_tag p) (h_cands p) (h_cert p) (h_if p) (h_addr p) (h_cookie p) (h_changed p) (h_skic p) (h_tx p) (h_iik p) (h_rik p) (h_own p) (h_far p).
Definition h_with_cands (x : list addr) (p : ses) := mkSes (h_state p) (h_role p) (h_rx p) (h_epd p) (h_asked p) (h_tag p) x (h_cert p) (h_if p) (h_addr p) (h_cookie p) (h_changed p) (h_skic p) (h_tx p) (h_iik p) (h_rik p) (h_own p) (h_far p).
Definition h_with_iik (x : option (list Z)) (p : ses) := mkSes (h_state p) (h_role p) (h_rx p) (h_epd p) (h_asked p) (h_tag p) (h_cands p) (h_cert p) (h_if p) (h_addr p) (h_cookie p) (h_changed p) (h_skic p) (h_tx p) x (h_rik p) (h_own p) (h_far p).
Definition h_with_skic (x : list Z) (p : ses) := mkSes (h_state p) (h_role p) (h_rx p) (h_epd p) (h_asked p) (h_tag p) (h_cands p) (h_cert p) (h_if p) (h_addr p) (h_cookie p) (h_changed p) x (h_tx p) (h_iik p) (h_rik p) (h_own p) (h_far p).
Definition h_with_rik (x : list Z) (p : ses) := mkSes (h_state p) (h_role p) (h_rx p) (h_epd p) (h_asked p) (h_tag p) (h_cands p) (h_cert p) (h_if p) (h_addr p) (h_cookie p) (h_changed p) (h_skic p) (h_tx p) (h_iik p) x (h_own p) (h_far p).
Definition h_with_place (ifc : Z) (a : addr) (p : ses) := mkSes (h_state p) (h_role p) (h_rx p) (h_epd p) (h_asked p) (h_tag p) (h_cands p) (h_cert p) ifc a (h_cookie p) (h_changed p) (h_skic p) (h_tx p) (h_iik p) (h_rik p) (h_own p) (h_far p).
Definition h_with_cookie (c : list Z) (b : bool) (p : ses) := mkSes (h_state p) (h_role p) (h_rx p) (h_epd p) (h_asked p) (h_tag p) (h_cands p) (h_cert p) (h_if p) (h_addr p) c b (h_skic p) (h_tx p) (h_iik p) (h_rik p) (h_own p) (h_far p).
Definition h_with_own (x : option (list Z)) (p : ses) := mkSes (h_state p) (h_role p) (h_rx p) (h_epd p) (h_asked p) (h_tag p) (h_cands p) (h_cert p) (h_if p) (h_addr p) (h_cookie p) (h_changed p) (h_skic p) (h_tx p) (h_iik p) (h_rik p) x (h_far p).
Definition h_with_far (x : list (list Z)) (p : ses) := mkSes (h_state p) (h_role p) (h_rx p) (h_epd p) (h_asked p) (h_tag p) (h_cands p) (h_cert p) (h_if p) (h_addr p) (h_cookie p) (h_changed p) (h_skic p) (h_tx p) (h_iik p) (h_rik p) (h_own p) x.
Definition h_with_open (epd : list Z) (tx : Z) (p : ses) := mkSes OPEN (h_role p) (h_rx p) epd (h_asked p) (h_tag p) (h_cands p) (h_cert p) (h_if p) (h_addr p) (h_cookie p) (h_changed p) (h_skic p) tx (h_iik p) (h_rik p) (h_own p) (h_far p).
(** Session.cpp 1292-1296 *)
Definition h_with_keying (ifc : Z) (a : addr) (cookie cert : list Z) (p : ses) := mkSes KEYING_SENT (h_role p) (h_rx p) (h_epd p) (h_asked p) (h_tag p) (h_cands p) (Some cert) ifc a cookie (h_changed p) (h_skic p) (h_tx p) (h_iik p) (h_rik p) (h_own p) (h_far p).

(** ** Finding sessions *)
Definition state_is (s : hstate) (p : ses) : bool :=
  match s, h_state p with IHELLO_SENT, IHELLO_SENT | KEYING_SENT, KEYING_SENT | OPEN, OPEN | CLOSING, CLOSING | CLOSED, CLOSED => true | _, _ => false end.
Definition is_opening (p : ses) : bool := state_is IHELLO_SENT p || state_is KEYING_SENT p.
Fixpoint find_ses (f : nat -> ses -> bool) (k : nat) (l : list ses) : option nat :=
  match l with [] => None | p :: r => if f k p then Some k else find_ses f (S k) r end.
(** Session.cpp 427-443, RTMFP.cpp 352-361 *)
Definition opening_to (a : addr) (p : ses) : bool :=
  match h_state p with IHELLO_SENT => existsb (addr_eq a) (h_cands p) | KEYING_SENT => addr_eq a (h_addr p) | _ => false end.
Definition opening_by_addr (a : addr) (i : hinst) : option nat := find_ses (fun _ p => opening_to a p) 0 (g_sess i).
(** RTMFP.cpp 363-377 *)
Definition opening_by_epd (cr : cryp) (epd : list Z) (exclude : option nat) (i : hinst) : option nat :=
  find_ses (fun k p =>
    is_opening p
    && match exclude with None => true | Some n => state_is KEYING_SENT p && negb (k =? n)%nat end
    && (eq_bytes (h_epd p) epd || match h_cert p with Some c => c_selected cr c epd | None => false end)) 0 (g_sess i).
(** 379-388 *)
Definition opening_by_tag (tag : list Z) (i : hinst) : option nat := find_ses (fun _ p => state_is IHELLO_SENT p && eq_bytes (h_tag p) tag) 0 (g_sess i).
Definition open_by_addr (a : addr) (i : hinst) : option nat := tfind addr_eq a (g_addrs i).
Definition open_by_epd (e : list Z) (i : hinst) : option nat := tfind eq_bytes e (g_epds i).
(** The session that m_sessions has under an ID: a closed session has given its ID back *)
Definition by_rx (id : Z) (i : hinst) : option nat := find_ses (fun _ p => (h_rx p =? id) && negb (state_is CLOSED p)) 0 (g_sess i).

(** ** Callbacks of sessions *)
(** RTMFP.cpp 443-449 *)
Definition h_did_open (n : nat) (i : hinst) : hinst :=
  match nth_error (g_sess i) n with
  | None => i
  | Some p => g_tabs (tset addr_eq (h_addr p) n (g_addrs i)) (tset eq_bytes (h_epd p) n (g_epds i)) i
  end.
(** 456-470 *)
Definition h_did_close (n : nat) (i : hinst) : hinst :=
  match nth_error (g_sess i) n with
  | None => i
  | Some p => g_tabs (if is_n (open_by_addr (h_addr p) i) n then terase addr_eq (h_addr p) (g_addrs i) else g_addrs i)
                     (if is_n (open_by_epd (h_epd p) i) n then terase eq_bytes (h_epd p) (g_epds i) else g_epds i) i
  end.
(** Session.cpp 533-541: abort; the timer of IIKeying is cancelled *)
Definition h_abort (n : nat) (i : hinst) : hinst :=
  match nth_error (g_sess i) n with
  | None => i
  | Some p => if state_is CLOSED p then i else h_did_close n (g_set n (h_with_iik None (h_with_state CLOSED p)) i)
  end.
(** 558-589: setNearclose and setFarcloseLinger, of an open session *)
Definition h_close (n : nat) (i : hinst) : hinst :=
  match nth_error (g_sess i) n with
  | None => i
  | Some p => if state_is OPEN p then h_did_close n (g_set n (h_with_iik None (h_with_state CLOSING p)) i) else i
  end.
(** 543-556: setOpen *)
Definition set_open (cr : cryp) (n : nat) (tx : Z) (i : hinst) : res hinst :=
  match nth_error (g_sess i) n with
  | None => UB
  | Some p => match h_cert p with
              | None => UB
              | Some c => Ok (h_did_open n (g_set n (h_with_open (c_canonical cr c) tx p) i))
              end
  end.
(** 741-745: sendRIKeying *)
Definition send_rik (n : nat) (i : hinst) : hinst :=
  match nth_error (g_sess i) n with
  | None => i
  | Some p => if state_is OPEN p && negb (zlen (h_rik p) =? 0) then say (HSend (h_rik p) (h_tx p) (h_if p) (h_addr p)) i else i
  end.
(** 820-842: startIIKeying *)
Definition start_iik (n : nat) (chunk : list Z) (i : hinst) : hinst :=
  match nth_error (g_sess i) n with
  | None => i
  | Some p => g_set n (h_with_iik (if state_is KEYING_SENT p then Some chunk else None) p) i
  end.
(** 760-767: addCandidateAddress *)
Definition REDIRECT_THRESHOLD := 24.
Definition add_candidate (n : nat) (fromRedirect : bool) (a : addr) (i : hinst) : hinst :=
  match nth_error (g_sess i) n with
  | None => i
  | Some p => if negb (state_is IHELLO_SENT p) || (fromRedirect && (zlen (h_cands p) >=? REDIRECT_THRESHOLD)) || existsb (addr_eq a) (h_cands p) then i
              else g_set n (h_with_cands (a :: h_cands p) p) i
  end.
(** RTMFP.cpp 426-441: tryRIKeyingRetransmit *)
Definition try_rik (ifc : Z) (a : addr) (isid : Z) (skic : list Z) (i : hinst) : option hinst :=
  match open_by_addr a i with
  | None => None
  | Some n => match nth_error (g_sess i) n with
              | None => None
              | Some p => match h_role p with
                          | INITIATOR => None
                          | RESPONDER => if (ifc =? h_if p) && (isid =? h_tx p) && eq_bytes skic (h_skic p) then Some (send_rik n i) else None
                          end
              end
  end.
(** 343-350: makeSession *)
Definition new_initiator (id : Z) (epd tag : list Z) : ses := mkSes IHELLO_SENT INITIATOR id epd epd tag [] None (-1) addr_erased [] false [] 0 None [] None [].
(** 679-686; the key already has the responder's component *)
Definition new_responder (id : Z) (skic skrc cert : list Z) (ifc : Z) (a : addr) : ses := mkSes IHELLO_SENT RESPONDER id [] [] [] [] (Some cert) ifc a [] false skic 0 None [] None [skrc].
Definition used (id : Z) (i : hinst) : bool := match by_rx id i with Some _ => true | None => false end.

(** ** Chunks *)
(** RTMFP.cpp 517-551: onIHello; [mode] is 0 to ignore, 1 to send a redirect, 2 to send RHello *)
Definition on_ihello (cr : cryp) (age : Z) (epd tag : list Z) (ifc : Z) (a : addr) (mode : Z) (i : hinst) : res hinst :=
  if mode =? 0 then Ok i
  else if negb (c_mine cr epd) then Ok i
  else if mode =? 1 then o <- make_redirect tag [] ;; Ok (match o with Some c => say (HSend c 0 ifc a) i | None => i end)
  else
    let cookie := make_cookie (c_sha cr) (c_secret cr) age a in
    o <- make_rhello tag cookie (c_cert cr epd) ;;
    Ok (match o with Some c => say (HSend c 0 ifc a) (say (HCookie age a cookie) i) | None => i end).
(** 553-565, Session.cpp 1264-1270 *)
Definition on_rhello (cr : cryp) (tag cookie cert : list Z) (ifc : Z) (a : addr) (i : hinst) : hinst :=
  match opening_by_tag tag i with
  | None => i
  | Some n => match nth_error (g_sess i) n with
              | None => i
              | Some p => if negb (state_is IHELLO_SENT p) || negb (c_decodes cr cert) || negb (c_selected cr cert (h_epd p)) then i
                          else perform (TRHello n cookie cert ifc a) i
              end
  end.
(** RTMFP.cpp 704-714 *)
Definition on_redirect (tag : list Z) (addrs : list addr) (i : hinst) : hinst :=
  match opening_by_tag tag i with None => i | Some n => fold_left (fun i a => add_candidate n true a i) addrs i end.
(** 609-640: onIIKeying up to the first perform *)
Definition MAX_WAITING := 16.
Definition on_iikeying (cr : cryp) (age isid : Z) (cookie cert skic text sig : list Z) (ifc : Z) (a : addr) (i : hinst) : res hinst :=
  if g_down i then Ok i
  else
    v <- check_cookie (c_sha cr) (c_secret cr) age cookie a ;;
    match v with
    | COOKIE_BAD => Ok i
    | COOKIE_MISMATCH =>
        let newCookie := make_cookie (c_sha cr) (c_secret cr) age a in
        o <- make_cookie_change cookie newCookie ;;
        Ok (match o with Some c => say (HSend c isid ifc a) (say (HCookie age a newCookie) i) | None => i end)
    | COOKIE_OK =>
        if negb (c_decodes cr cert) then Ok i
        else match try_rik ifc a isid skic i with
             | Some i => Ok i
             | None => if g_waiting i >=? MAX_WAITING then Ok i
                       else Ok (perform (TII isid skic text sig cert ifc a) (g_wait (g_waiting i + 1) i))
             end
    end.
(** Session.cpp 195-237 and on: the chunks of a packet of the startup session; [seen] is m_seenIHelloThisPacket.  A chunk that can
    not be read is skipped. *)
Definition opt {A B} (r : res A) (none : B) (some : A -> res B) : res B := match r with Ok a => some a | Rej => Ok none | UB => UB end.
Fixpoint on_startup (cr : cryp) (age ifc : Z) (a : addr) (seen : bool) (cs : list (Z * list Z)) (i : hinst) : res hinst :=
  match cs with
  | [] => Ok i
  | (ty, c) :: r =>
      if ty =? CHUNK_IHELLO then
        if seen then on_startup cr age ifc a true r i
        else i1 <- opt (parse_ihello c) i (fun '(epd, tag) => on_ihello cr age epd tag ifc a 2 i) ;; on_startup cr age ifc a true r i1
      else if ty =? CHUNK_RHELLO then
        i1 <- opt (parse_rhello c) i (fun '(tag, cookie, cert) => Ok (on_rhello cr tag cookie cert ifc a i)) ;; on_startup cr age ifc a seen r i1
      else if ty =? CHUNK_REDIRECT then
        i1 <- opt (parse_redirect c a) i (fun '(tag, addrs) => Ok (on_redirect tag addrs i)) ;; on_startup cr age ifc a seen r i1
      else if ty =? CHUNK_IIKEYING then
        i1 <- opt (parse_iikeying c) i (fun '(isid, cookie, cert, skic, text, sig) => on_iikeying cr age isid cookie cert skic text sig ifc a i) ;; on_startup cr age ifc a seen r i1
      else on_startup cr age ifc a seen r i
  end.
(** 1361-1372: onRIKeying *)
Definition on_rikeying (n : nat) (rsid : Z) (skrc text sig : list Z) (i : hinst) : hinst :=
  match nth_error (g_sess i) n with
  | None => i
  | Some p => if negb (state_is KEYING_SENT p) then i else perform (TRI n rsid skrc (text ++ h_skic p) sig) i
  end.
(** 1316-1328: onCookieChange *)
Definition on_cookie_change (n : nat) (old new : list Z) (i : hinst) : hinst :=
  match nth_error (g_sess i) n with
  | None => i
  | Some p => if negb (state_is KEYING_SENT p) || h_changed p || negb (eq_bytes old (h_cookie p)) then i
              else perform (TCookie n) (g_set n (h_with_cookie new true p) i)
  end.
(** 1644-1671: a chunk of a packet for a session ID; [startup] is whether the packet's mode is that of startup, [fi] the session's
    m_fihelloMode *)
Definition on_session_chunk (cr : cryp) (age id : Z) (startup : bool) (fi ty : Z) (c : list Z) (i : hinst) : res hinst :=
  match by_rx id i with
  | None => Ok i
  | Some n =>
      match nth_error (g_sess i) n with
      | None => Ok i
      | Some p =>
          if state_is KEYING_SENT p then
            if negb startup then Ok i
            else if ty =? CHUNK_RIKEYING then opt (parse_rikeying c) i (fun '(rsid, skrc, text, sig) => Ok (on_rikeying n rsid skrc text sig i))
            else if ty =? CHUNK_COOKIE_CHANGE then opt (parse_cookie_change c) i (fun '(old, new) => Ok (on_cookie_change n old new i))
            else Ok i
          else if negb startup && state_is OPEN p && (ty =? CHUNK_FIHELLO) then opt (parse_fihello c) i (fun '(epd, reply, tag) => on_ihello cr age epd tag (-1) reply fi i)
          else Ok i
      end
  end.

(** ** Tasks *)
(** What is left to chance when a task runs: a key component or failure, success, an unused session ID, the signature's randomness *)
Record choice := mkChoice { ch_comp : option (list Z); ch_ok : bool; ch_id : Z; ch_nonce : Z }.
(** Session.cpp 844-865 and what follows it (1301-1312, 1332-1338) *)
Definition do_iik (cr : cryp) (n : nat) (p : ses) (cookie skic : list Z) (upd : option (list Z)) (nonce : Z) (i : hinst) : res hinst :=
  match h_cert p with
  | None => UB
  | Some cert =>
      o <- make_iikeying (h_rx p) cookie (c_cert cr []) skic (fun t => c_sign cr cert t nonce) ;;
      match o with
      | None => Ok (perform (TAbort n) i)
      | Some (text, chunk) => Ok (perform (TStart n upd chunk) (say (HSigned cert text) i))
      end
  end.
(** RTMFP.cpp 665-697: the new session, and the end of an opening session to the same address *)
Definition accept (cr : cryp) (isid : Z) (skic skrc cert : list Z) (ifc : Z) (a : addr) (ch : choice) (glare : option nat) (i : hinst) : res hinst :=
  if used (ch_id ch) i || (ch_id ch <? 1) || (ch_id ch >? U32MAX) then Ok i
  else
    let abortGlare := match glare with
                      | None => None
                      | Some g => match nth_error (g_sess i) g with
                                  | None => None
                                  | Some q => if state_is KEYING_SENT q && match h_cert q with Some c => c_overrides cr cert c | None => false end then Some g else None
                                  end
                      end in
    let n := length (g_sess i) in
    i1 <- set_open cr n isid (g_put (g_sess i ++ [new_responder (ch_id ch) skic skrc cert ifc a]) i) ;;
    let i2 := match abortGlare with Some g => h_abort g i1 | None => i1 end in
    Ok (perform (TRIK n skrc skic cert) i2).
Definition run_task (cr : cryp) (t : task) (ch : choice) (i : hinst) : res hinst :=
  match t with
  | TRHello n cookie cert ifc a =>
      match nth_error (g_sess i) n with
      | None => Ok i
      | Some p =>
          if negb (c_authentic cr cert) then Ok i
          else if negb (state_is IHELLO_SENT p) then Ok i
          else
            let canonical := c_canonical cr cert in
            let existing := match open_by_epd canonical i with
                            | None => None
                            | Some m => match nth_error (g_sess i) m with
                                        | None => None
                                        | Some q => match h_cert q with Some c => if c_selected cr c (h_epd p) then Some m else None | None => None end
                                        end
                            end in
            match existing with
            | Some m => Ok (h_abort n (h_did_open m i))
            | None => match opening_by_epd cr canonical (Some n) i with
                      | Some _ => Ok (h_abort n i)
                      | None => Ok (perform (TSkic n cookie cert) (g_set n (h_with_keying ifc a cookie cert p) i))
                      end
            end
      end
  | TSkic n cookie cert =>
      match nth_error (g_sess i) n with
      | None => Ok i
      | Some p => match ch_comp ch with
                  | None => Ok (perform (TAbort n) i)
                  | Some skic => do_iik cr n p cookie skic (Some skic) (ch_nonce ch) (g_set n (h_with_own (Some skic) p) i)
                  end
      end
  | TStart n skic chunk =>
      match nth_error (g_sess i) n with
      | None => Ok i
      | Some p => Ok (start_iik n chunk (match skic with Some k => g_set n (h_with_skic k p) i | None => i end))
      end
  | TAbort n => Ok (h_abort n i)
  | TCookie n =>
      match nth_error (g_sess i) n with
      | None => Ok i
      | Some p => do_iik cr n p (h_cookie p) (h_skic p) None (ch_nonce ch) i
      end
  | TRI n rsid skrc text sig =>
      match nth_error (g_sess i) n with
      | None => Ok i
      | Some p => match h_cert p with
                  | None => UB
                  | Some c => if negb (c_check cr c text sig) then Ok i
                              else let i := g_set n (h_with_far (skrc :: h_far p) p) i in
                                   if ch_ok ch then Ok (perform (TOpen n rsid) i) else Ok i
                  end
      end
  | TOpen n rsid =>
      match nth_error (g_sess i) n with
      | None => Ok i
      | Some p => if negb (state_is KEYING_SENT p) then Ok i else set_open cr n rsid i
      end
  | TII isid skic text sig cert ifc a =>
      let i := g_wait (g_waiting i - 1) i in
      if negb (c_authentic cr cert) then Ok i
      else if negb (c_check cr cert text sig) then Ok i
      else match ch_comp ch with
           | None => Ok i
           | Some skrc => Ok (perform (TIIRun isid skic skrc cert ifc a) i)
           end
  | TIIRun isid skic skrc cert ifc a =>
      if g_down i then Ok i
      else match try_rik ifc a isid skic i with
           | Some i => Ok i
           | None =>
               let over := match open_by_addr a i with
                           | None => Some None
                           | Some m => match nth_error (g_sess i) m with
                                       | None => Some None
                                       | Some q => match h_cert q with
                                                   | Some c => if c_overrides cr cert c then Some (Some m) else None
                                                   | None => None
                                                   end
                                       end
                           end in
               match over with
               | None => Ok i
               | Some o =>
                   let i := match o with Some m => h_abort m i | None => i end in
                   let glare := opening_by_addr a i in
                   match glare with
                   | Some _ => if c_wins cr cert then Ok i else accept cr isid skic skrc cert ifc a ch glare i
                   | None => accept cr isid skic skrc cert ifc a ch None i
                   end
               end
           end
  | TRIK n skrc skic cert =>
      match nth_error (g_sess i) n with
      | None => Ok i
      | Some p => let '(text, chunk) := make_rikeying (h_rx p) skrc skic (fun t => c_sign cr cert t (ch_nonce ch)) in
                  Ok (perform (TRIKSet n chunk) (say (HSigned cert text) i))
      end
  | TRIKSet n chunk =>
      match nth_error (g_sess i) n with
      | None => Ok i
      | Some p => Ok (send_rik n (g_set n (h_with_rik chunk p) i))
      end
  end.

(** ** Events *)
Inductive hevent :=
| EConnect (epd tag : list Z) (id : Z)                 (* openFlow, RTMFP.cpp 82-108 *)
| ECandidate (n : nat) (a : addr)                      (* addCandidateAddress by the application *)
| EIHello (n : nat) (a : addr)                         (* a timer of a candidate, Session.cpp 771-787 *)
| EIIKeying (n : nat)                                  (* the timer of startIIKeying, 832-841 *)
| EAbort (n : nat)                                     (* the ultimate timeout 422-425, interestDown 752-757, close, ... *)
| EClose (n : nat)
| EShutdown                                            (* RTMFP.cpp 110-113; the closing of sessions are separate events *)
| EMove (n : nat) (ifc : Z) (a : addr)                 (* Mobility.v *)
| EStartup (age ifc : Z) (a : addr) (cs : list (Z * list Z))
| EChunk (age id : Z) (startup : bool) (fi ty : Z) (c : list Z)
| ERun (k : nat) (ch : choice).
Definition hstep (cr : cryp) (i : hinst) (e : hevent) : res hinst :=
  match e with
  | EConnect epd tag id =>
      if g_down i then Ok i
      else match open_by_epd epd i with
           | Some _ => Ok i
           | None => match opening_by_epd cr epd None i with
                     | Some _ => Ok i
                     | None => if used id i || (id <? 1) || (id >? U32MAX) then Ok i else Ok (g_put (g_sess i ++ [new_initiator id epd tag]) i)
                     end
           end
  | ECandidate n a => Ok (add_candidate n false a i)
  | EIHello n a =>
      match nth_error (g_sess i) n with
      | None => Ok i
      | Some p => if state_is IHELLO_SENT p && existsb (addr_eq a) (h_cands p)
                  then o <- make_ihello (h_epd p) (h_tag p) ;; Ok (match o with Some c => say (HSend c 0 (-1) a) i | None => i end) else Ok i
      end
  | EIIKeying n =>
      match nth_error (g_sess i) n with
      | None => Ok i
      | Some p => match h_iik p with
                  | None => Ok i
                  | Some c => if state_is KEYING_SENT p then Ok (say (HSend c 0 (h_if p) (h_addr p)) i) else Ok (g_set n (h_with_iik None p) i)
                  end
      end
  | EAbort n => Ok (h_abort n i)
  | EClose n => Ok (h_close n i)
  | EShutdown => Ok (g_stop i)
  | EMove n ifc a =>
      match nth_error (g_sess i) n with
      | None => Ok i
      | Some p => if state_is OPEN p then Ok (g_tabs (did_move n (h_addr p) a (g_addrs i)) (g_epds i) (g_set n (h_with_place ifc a p) i)) else Ok i
      end
  | EStartup age ifc a cs => on_startup cr age ifc a false cs i
  | EChunk age id startup fi ty c => on_session_chunk cr age id startup fi ty c i
  | ERun k ch => match nth_error (g_tasks i) k with None => Ok i | Some t => run_task cr t ch (g_done k i) end
  end.
Fixpoint hrun (cr : cryp) (i : hinst) (l : list hevent) : res hinst := match l with [] => Ok i | e :: r => i1 <- hstep cr i e ;; hrun cr i1 r end.
