(** Acknowledgement chunks: their assembly in RecvFlow::assembleAck and their parsing in Session::onAckChunk and SendFlow::onAck. *)
From Verif Require Import Base VLU IndexSet LinkedList Packet UserData RecvFlow.
Open Scope res_scope.

(** packet.hpp *)
Definition CHUNK_ACK_RANGES : Z := 81.
Definition CHUNK_EXCEPTION : Z := 94.
Definition CHUNK_ECN_REPORT : Z := 236.
(** packet.hpp / long on the supported platforms *)
Definition LONG_MAX : Z := 9223372036854775807.

(** ** The receiving flow *)

(** RecvFlow.cpp 432-443: the number of 1024-byte blocks to advertise. *)
Definition advertise (f : rf) : Z :=
  let buffered := s_sum (f_buf f) in
  let bytes := if buffered >=? f_cap f then 0 else Z.min (f_cap f - buffered) (f_win f) in
  let blocks := wrap64 (bytes + 1023) / 1024 in
  if (blocks =? 0) && (f_cap f >? 0) && (f_win f >? 0) && negb (order_eqb RO_HOLD (f_order f)) then 1 else blocks.

(** 464-476: extentsDo; answers didTruncate. *)
Fixpoint ack_ranges (p : packet) (ackCursor : Z) (s : list (Z * Z)) : res (packet * bool) :=
  match s with
  | [] => Ok (p, false)
  | (from, to) :: s' =>
      if from =? 0 then ack_ranges p ackCursor s'
      else
        let holesMinusOne := wrap64 (from - ackCursor - 2) in
        let receivedMinusOne := wrap64 (to - from) in
        ' (p1, ok1) <- pa_push_vlu p holesMinusOne;;
        if negb ok1 then Ok (p1, true)
        else
          ' (p2, ok2) <- pa_push_vlu p1 receivedMinusOne;;
          if negb ok2 then Ok (p2, true) else ack_ranges p2 to s'
  end.

(** "goto fail": only the cursor is restored, m_currentChunkStart keeps its value. *)
Definition restore (p : packet) (cursor : nat) : packet := mkPacket (p_buf p) (p_margin p) cursor (p_chunk p) (p_flags p).

(** startChunk, pushes, and commitChunk when all of them fitted *)
Definition open_chunk (p : packet) (type_ : Z) (pieces : list pa_op) : res (packet * bool) :=
  ' (p1, ok) <- pa_start_chunk p type_;;
  if (ok : bool) then pa_pushes p1 pieces else Ok (p1, false).

(** RecvFlow.cpp 427-486: assembleAck.  [ecn] is the ECN report's byte when sendEcnReport (Session.cpp 923-932). *)
Definition assemble_ack (p : packet) (f : rf) (flow : Z) (truncateAllowed : bool) (ecn : option Z) : res (packet * rf * bool) :=
  let checkpoint := p_cursor p in
  let cum := csn f in
  let blocks := advertise f in
  ' (p1, ok1) <- match ecn with
                 | None => Ok (p, true)
                 | Some count => ' (q, ok) <- open_chunk p CHUNK_ECN_REPORT [OpPushByte count];;
                                 if (ok : bool) then lift_true (pa_commit q) else Ok (q, false)
                 end;;
  if negb ok1 then Ok (restore p1 checkpoint, f, false)
  else
    ' (p2, ok2) <- (if f_state f =? RF_REJECTED then
                      ' (q, ok) <- open_chunk p1 CHUNK_EXCEPTION [OpPushVLU flow; OpPushVLU (f_exc f)];;
                      if (ok : bool) then lift_true (pa_commit q) else Ok (q, false)
                    else Ok (p1, true));;
    if negb ok2 then Ok (restore p2 checkpoint, f, false)
    else
      ' (p3, ok3) <- open_chunk p2 CHUNK_ACK_RANGES [OpPushVLU flow; OpPushVLU blocks; OpPushVLU cum];;
      if negb ok3 then Ok (restore p3 checkpoint, f, false)
      else
        ' (p4, didTruncate) <- ack_ranges p3 cum (f_set f);;
        if didTruncate && negb truncateAllowed then Ok (restore p4 checkpoint, f, false)
        else p5 <- pa_commit p4;; Ok (p5, with_rwnd f blocks, true).

(** ** The sending flow *)

(** What onAckChunk and onAck read from an ack-ranges chunk: flow, buffer bytes available, cumulative ack, and the further ranges
    (in the order ackRange is called with them). *)
Record ackinfo := mkAck { k_flow : Z; k_bytes : Z; k_cum : Z; k_ranges : list (Z * Z) }.

(** SendFlow.cpp 575-596.  More iterations than bytes is [UB] here. *)
Fixpoint ack_loop (fuel : nat) (l : list Z) (ackCursor : Z) : res (list (Z * Z)) :=
  match fuel with
  | O => UB
  | S fuel' =>
      if zlen l <=? 0 then Ok []
      else
        match take_vlu l with
        | UB => UB
        | Rej => Ok []
        | Ok (holesMinusOne, l1) =>
            match take_vlu l1 with
            | UB => UB
            | Rej => Ok []
            | Ok (receivedMinusOne, l2) =>
                let cursor := wrap64 (ackCursor + 1) in
                let from := wrap64 (wrap64 (cursor + holesMinusOne) + 1) in
                let to := wrap64 (from + receivedMinusOne) in
                rs <- ack_loop fuel' l2 to;; Ok ((from, to) :: rs)
            end
        end
  end.

(** Session.cpp 2034-2067 and SendFlow.cpp 571-596; [Rej] is a return without looking for the flow. *)
Definition ack_parse (l : list Z) : res ackinfo :=
  ' (flow, l1) <- take_vlu l;;
  if flow >? LONG_MAX then Rej
  else
    ' (blocks, l2) <- take_vlu l1;;
    ' (cum, l3) <- take_vlu l2;;
    let bytes := if blocks >? U64MAX / 1024 then U64MAX else blocks * 1024 in
    rs <- ack_loop (S (length l3)) l3 cum;;
    Ok (mkAck flow bytes cum rs).
