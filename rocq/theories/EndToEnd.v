(** A sending session and a receiving flow joined by a network: the sending flow number [fi] of SendFlow, the receiving flow of
    RecvFlow, the packets of UserData and Ack between them.
    Simplifications: a data packet carries fragments of one flow (Session.cpp 1203-1293 can put several in one); encryption is left
    out (what arrives is what was sent, see FlashKey for the channel) except for the 0xff padding it adds; the receiving session's
    dispatch of fragments to flows by flow id and the creation and acceptance of the receiving flow (Session.cpp 1898-1971) are
    left out: the receiving flow is there and accepted from the start, and is not taken down after its complete-linger time;
    acknowledgements of other flows may be anything that does not name this one; the sending session stays open. *)
From Verif Require Import Base Packet UserData RecvFlow Ack WriteReceipt SendFlow.

(** [y_hist], [y_held] and [y_mine] only record what happened: the events of the receiving flow, the receipts write() returned, and
    those of them that belong to flow [fi].  [y_net] and [y_acks]: packets sent, each with its front margin; they stay there, so
    that any of them can arrive late, several times, or never.  [y_id]: the flow id the receiver learned from the first data. *)
Record world := mkW {
  y_s : sess; y_r : rf; y_hist : list revent; y_net : list (nat * list Z); y_acks : list (nat * list Z);
  y_held : list nat; y_mine : list nat; y_id : option Z }.
Definition y_init : res world := f <- rf_init [];; Ok (mkW ss_init (with_accepted f) [] [] [] [] [] None).

Inductive yop :=
| YSend (o : sop)                                                                   (* anything at the sending session *)
| YDeliver (n : nat) (pad : nat)                                                    (* data packet number n arrives *)
| YRecv (e : revent)                                                                (* the receiving application sets its buffer sizes, or delivery is tried again *)
| YAck (buf : list Z) (margin : nat) (flags ts tse : Z) (tr : bool) (ecn : option Z) (* an acknowledgement is sent *)
| YGotAck (n : nat) (pad : nat).                                                    (* acknowledgement number n arrives *)

Definition rop_ids (o : rop) : list nat :=
  match o with
  | RNew _ _ _ => [] | RUp i | RDown i | RStart i | RExamine _ i | RAbandon i | RSetStart i _ | RSetFinish i _ | RSetRtx i _ | RHook i => [i]
  | RSetParent i p => i :: match p with None => [] | Some j => [j] end
  end.
(** The application uses only receipts that write() gave it, and acknowledgements of flow [fi] come from its receiver. *)
Definition allowed (fi : nat) (held : list nat) (s : sess) (o : sop) : bool :=
  match o with
  | SSessionClose => false
  | SReceipt r => forallb (fun i => existsb (Nat.eqb i) held) (rop_ids r)
  | SAck chunk => match ack_parse chunk with Ok k => match find_flow (k_flow k) (s_flows s) 0 with Some fj => negb (Nat.eqb fj fi) | None => true end | _ => true end
  | _ => true
  end.

(** Session.cpp 1973-2032 and 1577-1721: the user-data chunks of one packet, each handed to RecvFlow::onData. *)
Definition ev_of (u : udata) : revent := EvData (u_flags u) (u_seq u) (u_fsn u) (u_data u).
Definition always (_ _ _ : Z) : bool := true.
(** The chunks of a packet with acknowledgements: Session.cpp 1723-1733.  An exception report for the flow (type 0x5e) would be
    [SException]; it is [UB] here, and shown not to happen. *)
Fixpoint take_acks (s : sess) (cs : list (Z * list Z)) : res sess :=
  match cs with
  | [] => Ok s
  | (t, l) :: r => if t =? CHUNK_ACK_RANGES then s' <- sstep s (SAck l);; take_acks s' r else if t =? CHUNK_EXCEPTION then UB else take_acks s r
  end.
Definition quiet_event (e : revent) : bool := match e with EvTry | EvAct (ACapacity _) | EvAct (AWindow _) => true | _ => false end.

Definition ystep (fi : nat) (y : world) (o : yop) : res world :=
  let with_s s := mkW s (y_r y) (y_hist y) (y_net y) (y_acks y) (y_held y) (y_mine y) (y_id y) in
  match o with
  | YSend o =>
      if allowed fi (y_held y) (y_s y) o then
        ' (s, pk) <- (match o with
                      | SSend fj gone buf margin flags ts tse onames =>
                          ' (s, pk) <- send_packet (y_s y) fj gone buf margin flags ts tse onames;;
                          Ok (s, if Nat.eqb fj fi then match pk with Some v => [(margin, v)] | None => [] end else [])
                      | _ => s <- sstep (y_s y) o;; Ok (s, [])
                      end);;
        let fresh := length (rs_all (s_rcpts (y_s y))) in
        let '(held, mine) := match o with
                             | SWrite fj _ _ _ _ => if (w_live (wget (y_s y) fj) : bool) then (fresh :: y_held y, if Nat.eqb fj fi then fresh :: y_mine y else y_mine y) else (y_held y, y_mine y)
                             | _ => (y_held y, y_mine y)
                             end in
        Ok (mkW s (y_r y) (y_hist y) (y_net y ++ pk) (y_acks y) held mine (y_id y))
      else Rej
  | YDeliver n pad =>
      match nth_error (y_net y) n with
      | Some (margin, v) =>
          if Z.of_nat pad <? 65538 then
            p <- parse_packet always (v ++ repeat 255 pad) margin;;
            us <- ud_packet None (h_chunks p);;
            match rf_run (y_r y) (map ev_of us) with
            | Ok f => Ok (mkW (y_s y) f (y_hist y ++ map ev_of us) (y_net y) (y_acks y) (y_held y) (y_mine y) (match y_id y with Some id => Some id | None => match us with u :: _ => Some (u_flow u) | [] => None end end))
            | _ => UB
            end
          else Rej
      | None => Rej
      end
  | YRecv e =>
      if quiet_event e then
        match rf_step (y_r y) e with
        | Ok f => Ok (mkW (y_s y) f (y_hist y ++ [e]) (y_net y) (y_acks y) (y_held y) (y_mine y) (y_id y))
        | _ => UB
        end
      else Rej
  | YAck buf margin flags ts tse tr ecn =>
      match y_id y with
      | Some id =>
          if header_fits buf margin flags ts tse && (match ecn with None => true | Some c => is_byteb c end) then
            p <- pa_init_header buf margin flags ts tse;;
            ' (p', f, ok) <- assemble_ack p (y_r y) id tr ecn;;
            Ok (if (ok : bool) then mkW (y_s y) f (y_hist y ++ [EvAck]) (y_net y) (y_acks y ++ [(margin, pa_to_vector p')]) (y_held y) (y_mine y) (y_id y) else y)
          else Rej
      | None => Rej
      end
  | YGotAck n pad =>
      match nth_error (y_acks y) n with
      | Some (margin, v) =>
          if Z.of_nat pad <? 65538 then
            p <- parse_packet always (v ++ repeat 255 pad) margin;;
            s <- take_acks (y_s y) (h_chunks p);;
            Ok (with_s s)
          else Rej
      | None => Rej
      end
  end.
Fixpoint yrun (fi : nat) (y : world) (os : list yop) : res world :=
  match os with [] => Ok y | o :: r => y' <- ystep fi y o;; yrun fi y' r end.
