(** Model of test/RTWebSocket.cpp, RTWebSocket.hpp: flows of messages over a connection that keeps binary messages whole and in order.
    Simplified: one SendFlow, the RecvFlow it makes at the peer and the two directions of the connection between them, which stays open;
    RTT measurement, priorities, the choice between flows (getBytesInFlight) and isWritable callbacks are left out, so that a flow may be asked to transmit,
    its expired messages be trimmed and ackIfNeeded find an acknowledgement due at any time; the application sets onMessage and onComplete when it accepts. *)
From Verif Require Import Base VLU.
Open Scope res_scope.

(** ** Messages *)
(** SendFlow::SendFlow, 627-640; [ret] is the return association *)
Definition enc_open (id : Z) (ret : option Z) (meta : list Z) : list Z :=
  (match ret with Some _ => 48 | None => 16 end) :: vlu_encode id ++ (match ret with Some r => vlu_encode r | None => [] end) ++ meta.
(** transmitOneFragment, 857-860 *)
Definition enc_data (more : bool) (id : Z) (b : list Z) : list Z := (if more then 61 else 29) :: vlu_encode id ++ b.
(** SendFlow::transmit, 776-794: the count is left out for one message *)
Definition enc_abandon (id count : Z) : list Z := 26 :: vlu_encode id ++ (if count >? 1 then vlu_encode (wrap64 (count - 1)) else []).
Definition enc_close (id : Z) : list Z := 28 :: vlu_encode id.
(** RecvFlow::sendAck, 1068-1082 *)
Definition enc_ack (id delta adv : Z) : list Z := 90 :: vlu_encode id ++ vlu_encode delta ++ vlu_encode adv.
Definition enc_closeack (id : Z) : list Z := 92 :: vlu_encode id.
(** RecvFlow::close, 978-984 *)
Definition enc_exc (id reason : Z) (desc : list Z) : list Z := 94 :: vlu_encode id ++ vlu_encode reason ++ desc.

(** RTWebSocket.hpp 21-34 *)
Inductive msg :=
| MNone | MBad | MPing (p : list Z) | MAckWindow (w : Z) | MOpen (id : Z) (ret : option Z) (meta : list Z) | MData (more : bool) (id : Z) (b : list Z)
| MAbandon (id c : Z) | MClose (id : Z) | MAck (id delta adv : Z) | MCloseAck (id : Z) | MExc (id reason : Z) (desc : list Z).
(** VLU::parse and cursor += rv, None for the answer 0; 240-244 and alike *)
Definition vlu (l : list Z) : res (option (Z * list Z)) :=
  match vlu_parse l with Ok (v, n) => Ok (Some (v, skipn n l)) | Rej => Ok None | UB => UB end.
(** onBinaryMessage and the on...Message functions it calls, 145-421: the reading of the message; MBad where they answer false whatever the flows *)
Definition parse (l : list Z) : res msg :=
  match l with
  | [] => Ok MNone
  | t :: c =>
      if t =? 1 then Ok (MPing c)
      else if t =? 65 then Ok MNone
      else if (t =? 10) || (t =? 16) || (t =? 48) || (t =? 29) || (t =? 61) || (t =? 26) || (t =? 28) || (t =? 90) || (t =? 92) || (t =? 94) then
        o <- vlu c;;
        match o with
        | None => Ok MBad
        | Some (id, c) =>
            if t =? 10 then Ok (MAckWindow (Z.max id 2800))
            else if t =? 16 then Ok (MOpen id None c)
            else if t =? 48 then o <- vlu c;; Ok (match o with None => MBad | Some (r, c) => MOpen id (Some r) c end)
            else if (t =? 29) || (t =? 61) then Ok (MData (t =? 61) id c)
            else if t =? 26 then
              match c with
              | [] => Ok (MAbandon id 0)
              | _ => o <- vlu c;; Ok (match o with None => MBad | Some (n, _) => MAbandon id n end)
              end
            else if t =? 28 then Ok (MClose id)
            else if t =? 90 then
              o <- vlu c;;
              match o with
              | None => Ok MBad
              | Some (d, c) => o <- vlu c;; Ok (match o with None => MBad | Some (a, _) => MAck id d a end)
              end
            else if t =? 92 then Ok (MCloseAck id)
            else o <- vlu c;;
              Ok (match o with Some (r, c) => MExc id r c | None => match c with [] => MExc id 0 [] | _ => MBad end end)
        end
      else Ok MNone
  end.

(** ** SendFlow *)
(** WriteMessage, 611-625: [w_gone] is m_receipt->isAbandoned() or that abandonIfNeeded would make it so *)
Record wmsg := mkW { w_bytes : list Z; w_off : Z; w_gone : bool }.
(** RTWebSocket.hpp 182-203.  The last two are for the statements only: what has been written, and of those no longer in the buffer whether they were sent whole. *)
Record sflow := mkSF { f_id : Z; f_open : bool; f_hello : option (list Z); f_buf : list wmsg; f_abandon : Z; f_closed : bool; f_exc : bool;
  f_sent : Z; f_through : Z; f_acked : Z; f_avail : Z; f_written : list (list Z); f_fate : list bool }.
(** 119-132, RTWebSocket.hpp 182-203: the initial values *)
Definition sflow0 (id : Z) (ret : option Z) (meta : list Z) : sflow := mkSF id true (Some (enc_open id ret meta)) [] 0 false false 0 65536 0 65536 [] [].
(** 642-658: write *)
Definition s_write (m : list Z) (f : sflow) : sflow :=
  if f_open f then mkSF (f_id f) true (f_hello f) (f_buf f ++ [mkW m 0 false]) (f_abandon f) (f_closed f) (f_exc f) (f_sent f) (f_through f) (f_acked f) (f_avail f) (f_written f ++ [m]) (f_fate f) else f.
(** WriteReceipt.cpp 21-43: the receipt of the nth message of the buffer is abandoned, or its deadline passes *)
Fixpoint drop_nth (n : nat) (l : list wmsg) : list wmsg :=
  match l, n with [], _ => [] | w :: r, O => mkW (w_bytes w) (w_off w) true :: r | w :: r, S n => w :: drop_nth n r end.
(** an update *)
Definition with_buf (f : sflow) (b : list wmsg) (a : Z) (fate : list bool) : sflow :=
  mkSF (f_id f) (f_open f) (f_hello f) b a (f_closed f) (f_exc f) (f_sent f) (f_through f) (f_acked f) (f_avail f) (f_written f) fate.
(** the same, of the flow *)
Definition s_drop (n : nat) (f : sflow) : sflow := with_buf f (drop_nth n (f_buf f)) (f_abandon f) (f_fate f).
(** 670-684: close *)
Definition s_close (f : sflow) : sflow :=
  mkSF (f_id f) false (f_hello f) (f_buf f) (f_abandon f) (f_closed f) (f_exc f) (f_sent f) (f_through f) (f_acked f) (f_avail f) (f_written f) (f_fate f).
(** 820-842: trimSendBuffer *)
Fixpoint trim_loop (exc : bool) (b : list wmsg) (a : Z) (fate : list bool) : list wmsg * Z * list bool :=
  match b with
  | w :: r => if exc || w_gone w then trim_loop exc r (wrap64 (a + 1)) (fate ++ [false]) else (b, a, fate)
  | [] => (b, a, fate)
  end.
(** 820-842 *)
Definition s_trim (f : sflow) : sflow := let '(b, a, fate) := trim_loop (f_exc f) (f_buf f) (f_abandon f) (f_fate f) in with_buf f b a fate.
(** 844-879: transmitOneFragment *)
Definition s_fragment (chunkSize : Z) (f : sflow) : option (list Z) * sflow :=
  match f_buf f with
  | [] => (None, f)
  | w :: r =>
      let chunk := Z.min 1048576 (Z.min chunkSize (f_through f - f_sent f)) in
      if chunk =? 0 then (None, f)
      else
        let from := w_off w in
        let to := Z.min (wrap64 (from + chunk)) (zlen (w_bytes w)) in
        let isLast := to =? zlen (w_bytes w) in
        let m := enc_data (negb isLast) (f_id f) (firstn (Z.to_nat (to - from)) (skipn (Z.to_nat from) (w_bytes w))) in
        let b := if isLast then r else mkW (w_bytes w) to (w_gone w) :: r in
        (Some m, mkSF (f_id f) (f_open f) (f_hello f) b (f_abandon f) (f_closed f) (f_exc f) (wrap64 (f_sent f + zlen m)) (f_through f) (f_acked f) (f_avail f) (f_written f)
                   (if isLast then f_fate f ++ [true] else f_fate f))
  end.
(** 763-802: transmit, at the flow's own priority; the message sent, None for the answer false *)
Definition s_transmit (chunkSize : Z) (f : sflow) : option (list Z) * sflow :=
  match f_hello f with
  | Some m => (Some m, mkSF (f_id f) (f_open f) None (f_buf f) (f_abandon f) (f_closed f) (f_exc f) (f_sent f) (f_through f) (f_acked f) (f_avail f) (f_written f) (f_fate f))
  | None =>
      let f := s_trim f in
      if f_abandon f >? 0 then (Some (enc_abandon (f_id f) (f_abandon f)), with_buf f (f_buf f) 0 (f_fate f))
      else if negb (f_open f) && (match f_buf f with [] => true | _ => false end) && negb (f_closed f) then
        (Some (enc_close (f_id f)),
         mkSF (f_id f) (f_open f) None (f_buf f) (f_abandon f) true (f_exc f) (f_sent f) (f_through f) (f_acked f) (f_avail f) (f_written f) (f_fate f))
      else if f_sent f >=? f_through f then (None, f)
      else s_fragment chunkSize f
  end.
(** 881-888: onAck *)
Definition s_ack (d a : Z) (f : sflow) : sflow :=
  let acked := wrap64 (f_acked f + d) in
  mkSF (f_id f) (f_open f) (f_hello f) (f_buf f) (f_abandon f) (f_closed f) (f_exc f) (f_sent f) (wrap64 (acked + a)) acked a (f_written f) (f_fate f).
(** 890-903: onExceptionMessage *)
Definition s_exception (f : sflow) : sflow :=
  s_trim (mkSF (f_id f) false (f_hello f) (f_buf f) (f_abandon f) (f_closed f) true (f_sent f) (f_through f) (f_acked f) (f_avail f) (f_written f) (f_fate f)).

(** ** RecvFlow *)
(** ReadMessage, 911-934 *)
Record rmsg := mkR { r_num : Z; r_frags : list (list Z); r_total : Z; r_complete : bool }.
(** RTWebSocket.hpp 248-268.  [g_ackq]: the flow is in the connection's m_ackFlows; [g_acknow]: its m_ackNow; [g_out]: the messages sent; [g_got], [g_done]: the calls of onMessage and onComplete *)
Record rflow := mkRF { g_id : Z; g_user : bool; g_open : bool; g_paused : bool; g_cap : Z; g_len : Z; g_rcvd : Z; g_thresh : Z; g_complete : bool; g_sentcomplete : bool;
  g_closeack : bool; g_next : Z; g_buf : list rmsg; g_pending : bool; g_ackq : bool; g_acknow : bool; g_out : list (list Z); g_got : list (Z * list Z); g_done : nat }.
(** 936-941 and the initial values *)
Definition rflow0 (id : Z) : rflow := mkRF id false true false 2097151 0 0 0 false false false 0 [] false false false [] [] 0.
(** updates *)
Definition with_ack (r : rflow) (q now : bool) : rflow :=
  mkRF (g_id r) (g_user r) (g_open r) (g_paused r) (g_cap r) (g_len r) (g_rcvd r) (g_thresh r) (g_complete r) (g_sentcomplete r) (g_closeack r) (g_next r) (g_buf r) (g_pending r) q now (g_out r) (g_got r) (g_done r).
(** 432-449, 1055-1058: queueAck *)
Definition queue_ack (now : bool) (r : rflow) : rflow := with_ack r true (g_acknow r || now).
Definition with_user (r : rflow) (u o : bool) : rflow :=
  mkRF (g_id r) u o (g_paused r) (g_cap r) (g_len r) (g_rcvd r) (g_thresh r) (g_complete r) (g_sentcomplete r) (g_closeack r) (g_next r) (g_buf r) (g_pending r) (g_ackq r) (g_acknow r) (g_out r) (g_got r) (g_done r).
Definition with_cap (r : rflow) (n : Z) : rflow :=
  mkRF (g_id r) (g_user r) (g_open r) (g_paused r) n (g_len r) (g_rcvd r) (g_thresh r) (g_complete r) (g_sentcomplete r) (g_closeack r) (g_next r) (g_buf r) (g_pending r) (g_ackq r) (g_acknow r) (g_out r) (g_got r) (g_done r).
Definition with_pause (r : rflow) (p : bool) : rflow :=
  mkRF (g_id r) (g_user r) (g_open r) p (g_cap r) (g_len r) (g_rcvd r) (g_thresh r) (g_complete r) (g_sentcomplete r) (g_closeack r) (g_next r) (g_buf r) (g_pending r) (g_ackq r) (g_acknow r) (g_out r) (g_got r) (g_done r).
Definition with_pending (r : rflow) (p : bool) : rflow :=
  mkRF (g_id r) (g_user r) (g_open r) (g_paused r) (g_cap r) (g_len r) (g_rcvd r) (g_thresh r) (g_complete r) (g_sentcomplete r) (g_closeack r) (g_next r) (g_buf r) p (g_ackq r) (g_acknow r) (g_out r) (g_got r) (g_done r).
Definition with_rbuf (r : rflow) (b : list rmsg) (len : Z) (got : list (Z * list Z)) : rflow :=
  mkRF (g_id r) (g_user r) (g_open r) (g_paused r) (g_cap r) len (g_rcvd r) (g_thresh r) (g_complete r) (g_sentcomplete r) (g_closeack r) (g_next r) b (g_pending r) (g_ackq r) (g_acknow r) (g_out r) got (g_done r).
Definition with_rcvd (r : rflow) (n : Z) : rflow :=
  mkRF (g_id r) (g_user r) (g_open r) (g_paused r) (g_cap r) (g_len r) n (g_thresh r) (g_complete r) (g_sentcomplete r) (g_closeack r) (g_next r) (g_buf r) (g_pending r) (g_ackq r) (g_acknow r) (g_out r) (g_got r) (g_done r).
Definition with_next (r : rflow) (n : Z) : rflow :=
  mkRF (g_id r) (g_user r) (g_open r) (g_paused r) (g_cap r) (g_len r) (g_rcvd r) (g_thresh r) (g_complete r) (g_sentcomplete r) (g_closeack r) n (g_buf r) (g_pending r) (g_ackq r) (g_acknow r) (g_out r) (g_got r) (g_done r).
Definition with_out (r : rflow) (m : list Z) : rflow :=
  mkRF (g_id r) (g_user r) (g_open r) (g_paused r) (g_cap r) (g_len r) (g_rcvd r) (g_thresh r) (g_complete r) (g_sentcomplete r) (g_closeack r) (g_next r) (g_buf r) (g_pending r) (g_ackq r) (g_acknow r) (g_out r ++ [m]) (g_got r) (g_done r).
Definition with_complete (r : rflow) (c : bool) (sc : bool) (done : nat) : rflow :=
  mkRF (g_id r) (g_user r) (g_open r) (g_paused r) (g_cap r) (g_len r) (g_rcvd r) (g_thresh r) c sc (g_closeack r) (g_next r) (g_buf r) (g_pending r) (g_ackq r) (g_acknow r) (g_out r) (g_got r) done.
(** 943-946 *)
Definition is_open (r : rflow) : bool := g_open r && g_user r.
(** 1002-1007: setBufferCapacity *)
Definition r_cap (n : Z) (r : rflow) : rflow := with_cap (if n =? g_cap r then r else queue_ack true r) n.
(** 964-988: close *)
Definition r_close (reason : Z) (desc : list Z) (r : rflow) : rflow :=
  if g_open r then
    let r := r_cap 0 (with_user r false false) in
    if g_complete r then r else with_out r (enc_exc (g_id r) reason desc)
  else r.
(** 1131-1138: queueDelivery *)
Definition queue_delivery (r : rflow) : rflow := if negb (g_pending r) && negb (g_paused r) then with_pending r true else r.
(** 1019-1029: setPaused *)
Definition r_pause (p : bool) (r : rflow) : rflow :=
  let was := g_paused r in
  let r := with_pause r p in
  if p then r else let r := queue_delivery r in if was then queue_ack true r else r.
(** 990-1000: getBufferAdvertisement *)
Definition adv (r : rflow) : Z :=
  if g_paused r then (if g_len r >? g_cap r then 0 else g_cap r - g_len r) else g_cap r.
(** 1060-1085: sendAck *)
Definition send_ack (r : rflow) : rflow :=
  if g_closeack r then r
  else
    let a := adv r in
    let r := with_out r (enc_ack (g_id r) (g_rcvd r) a) in
    let r := mkRF (g_id r) (g_user r) (g_open r) (g_paused r) (g_cap r) (g_len r) 0 (a / 2) (g_complete r) (g_sentcomplete r) (g_closeack r) (g_next r) (g_buf r) (g_pending r) (g_ackq r) (g_acknow r) (g_out r) (g_got r) (g_done r) in
    if g_complete r then
      let r := with_out r (enc_closeack (g_id r)) in
      mkRF (g_id r) (g_user r) (g_open r) (g_paused r) (g_cap r) (g_len r) (g_rcvd r) (g_thresh r) (g_complete r) (g_sentcomplete r) true (g_next r) (g_buf r) (g_pending r) (g_ackq r) (g_acknow r) (g_out r) (g_got r) (g_done r)
    else r.
(** 475-484 with m_ackNow, 451-457: sendAcks *)
Definition send_acks (r : rflow) : rflow :=
  if g_acknow r then
    let q := g_ackq r in
    let r := with_ack r q false in
    with_ack (if q then send_ack r else r) false false
  else r.
(** the last of a list: lastValue and removeLast *)
Fixpoint unsnoc {A} (l : list A) : option (list A * A) :=
  match l with
  | [] => None
  | x :: r => Some (match unsnoc r with None => ([], x) | Some (i, y) => (x :: i, y) end)
  end.
(** 920-926: addFragment *)
Definition add_fragment (more : bool) (b : list Z) (m : rmsg) : rmsg :=
  mkR (r_num m) (r_frags m ++ [b]) (wrap64 (r_total m + zlen b)) (if more then r_complete m else true).
(** 1095-1114: onData *)
Definition r_data (more : bool) (b : list Z) (chunkLength : Z) (r : rflow) : rflow :=
  let r := with_rbuf (with_rcvd r (wrap64 (g_rcvd r + chunkLength))) (g_buf r) (wrap64 (g_len r + zlen b)) (g_got r) in
  let r :=
    match unsnoc (g_buf r) with
    | Some (i, m) =>
        if r_complete m then with_next (with_rbuf r (g_buf r ++ [add_fragment more b (mkR (g_next r) [] 0 false)]) (g_len r) (g_got r)) (wrap64 (g_next r + 1))
        else with_rbuf r (i ++ [add_fragment more b m]) (g_len r) (g_got r)
    | None => with_next (with_rbuf r [add_fragment more b (mkR (g_next r) [] 0 false)] (g_len r) (g_got r)) (wrap64 (g_next r + 1))
    end in
  let r := if more then r else queue_delivery r in
  queue_ack (g_rcvd r >=? g_thresh r) r.
(** 1116-1129: onDataAbandon *)
Definition r_abandon (c : Z) (r : rflow) : rflow :=
  let count := wrap64 (c + 1) in
  let '(r, count) :=
    match unsnoc (g_buf r) with
    | Some (i, m) => if r_complete m then (r, count) else (with_rbuf r i (wrap64 (g_len r - r_total m)) (g_got r), wrap64 (count - 1))
    | None => (r, count)
    end in
  queue_ack true (with_next r (wrap64 (g_next r + count))).
(** 1087-1093: onFlowCloseMessage *)
Definition r_closed (r : rflow) : rflow := queue_ack true (queue_delivery (r_abandon 0 (with_complete r true (g_sentcomplete r) (g_done r)))).
(** what the application can call: 948-988, 1002-1029 *)
Inductive act := Accept | Pause (p : bool) | Cap (n : Z) | CloseR (reason : Z) (desc : list Z).
Definition do_act (r : rflow) (a : act) : rflow :=
  match a with
  | Accept => if g_open r then with_user r true (g_open r) else r
  | Pause p => r_pause p r
  | Cap n => r_cap n r
  | CloseR reason desc => r_close reason desc r
  end.
Definition do_acts (l : list act) (r : rflow) : rflow := fold_left do_act l r.
(** 1140-1163: deliverData's loop; [cbs]: what the application does in each onMessage *)
Fixpoint deliver_loop (fuel : nat) (cbs : list (list act)) (r : rflow) : rflow :=
  match fuel, g_buf r with
  | S fuel, m :: b =>
      if g_paused r || negb (is_open r) then r
      else if r_complete m then
        deliver_loop fuel (tl cbs) (do_acts (hd [] cbs) (with_rbuf r b (wrap64 (g_len r - r_total m)) (g_got r ++ [(r_num m, concat (r_frags m))])))
      else r
  | _, _ => r
  end.
(** 1168-1177: deliverCompleteAndClose *)
Definition complete_and_close (r : rflow) : rflow :=
  let r := if g_sentcomplete r then r else with_complete r (g_complete r) true (if is_open r then S (g_done r) else g_done r) in
  r_close 0 [] r.
(** 1140-1166: deliverData *)
Definition r_deliver (cbs : list (list act)) (r : rflow) : rflow :=
  let r := deliver_loop (length (g_buf r)) cbs (with_pending r false) in
  if g_complete r && (match g_buf r with [] => true | _ => false end) then complete_and_close r else r.
(** 260-289: onFlowOpenMessage; [assoc]: the return association is there and open *)
Definition r_opened (id : Z) (ret : option Z) (assoc : bool) (acts : list act) : rflow :=
  let r := rflow0 id in
  match ret, assoc with
  | Some _, false => r_close 0 [] r  (* with a description, which says nothing to the code *)
  | _, _ =>
      let r := do_acts acts r in
      queue_ack true (if is_open r then r else r_close 0 [] r)
  end.

(** ** The flow, the connection, the peer *)
(** [y_gone]: the SendFlow is no longer in m_sendFlows; [y_in]: the RecvFlow is in m_recvFlows; [y_bad]: an on...Message answered false.
    Messages the RecvFlow has sent are moved from g_out to y_back after each step. *)
Record sys := mkY { y_s : sflow; y_gone : bool; y_fwd : list (list Z); y_r : option rflow; y_in : bool; y_back : list (list Z); y_bad : bool }.
Definition sys0 (id : Z) (ret : option Z) (meta : list Z) : sys := mkY (sflow0 id ret meta) false [] None false [] false.
Definition settle (y : sys) : sys :=
  match y_r y with
  | None => y
  | Some r =>
      mkY (y_s y) (y_gone y) (y_fwd y)
        (Some (mkRF (g_id r) (g_user r) (g_open r) (g_paused r) (g_cap r) (g_len r) (g_rcvd r) (g_thresh r) (g_complete r) (g_sentcomplete r) (g_closeack r) (g_next r) (g_buf r) (g_pending r) (g_ackq r) (g_acknow r) [] (g_got r) (g_done r)))
        (y_in y) (y_back y ++ g_out r) (y_bad y)
  end.
Definition with_s (y : sys) (f : sflow) : sys := mkY f (y_gone y) (y_fwd y) (y_r y) (y_in y) (y_back y) (y_bad y).
Definition with_r (y : sys) (r : rflow) : sys := mkY (y_s y) (y_gone y) (y_fwd y) (Some r) (y_in y) (y_back y) (y_bad y).
Definition fail (y : sys) : sys := mkY (y_s y) (y_gone y) (y_fwd y) (y_r y) (y_in y) (y_back y) true.
(** 145-207 at the receiving end: onFlowOpenMessage 235-289, onDataMessage 291-311, onDataAbandonMessage 313-338, onFlowCloseMessage 340-354 *)
Definition on_fwd (assoc : bool) (acts : list act) (m : list Z) (y : sys) : sys :=
  match parse m with
  | Ok (MOpen id ret _) => if y_in y then fail y else mkY (y_s y) (y_gone y) (y_fwd y) (Some (r_opened id ret assoc acts)) true (y_back y) (y_bad y)
  | Ok (MData more id b) =>
      match y_r y with Some r => if y_in y && (g_id r =? id) then with_r y (r_data more b (zlen m) r) else fail y | None => fail y end
  | Ok (MAbandon id c) => match y_r y with Some r => if y_in y && (g_id r =? id) then with_r y (r_abandon c r) else fail y | None => fail y end
  | Ok (MClose id) =>
      match y_r y with
      | Some r => if y_in y && (g_id r =? id) then mkY (y_s y) (y_gone y) (y_fwd y) (Some (r_closed r)) false (y_back y) (y_bad y) else fail y
      | None => fail y
      end
  | Ok _ => y
  | _ => fail y
  end.
(** and at the sending end: onDataAckMessage 356-384, onFlowCloseAckMessage 386-396, onFlowExceptionMessage 398-421 *)
Definition on_back (m : list Z) (y : sys) : sys :=
  let known := fun id => negb (y_gone y) && (f_id (y_s y) =? id) in
  match parse m with
  | Ok (MAck id d a) => if known id then with_s y (s_ack d a (y_s y)) else fail y
  | Ok (MCloseAck id) => if known id && negb (f_open (y_s y)) then mkY (y_s y) true (y_fwd y) (y_r y) (y_in y) (y_back y) (y_bad y) else fail y
  | Ok (MExc id _ _) => if known id then with_s y (s_exception (y_s y)) else fail y
  | Ok _ => y
  | _ => fail y
  end.
Inductive op :=
| Write (m : list Z) | Drop (n : nat) | CloseS | Trim | Transmit (chunk : Z) | Receive (assoc : bool) (acts : list act) | Deliver (cbs : list (list act)) | App (a : act)
| AckNow | SendAcks | Answer.
Definition on_r (f : rflow -> rflow) (y : sys) : sys := match y_r y with Some r => with_r y (f r) | None => y end.
Definition step (y : sys) (o : op) : sys :=
  settle
    match o with
    | Write m => with_s y (s_write m (y_s y))
    | Drop n => with_s y (s_drop n (y_s y))
    | CloseS => with_s y (s_close (y_s y))
    | Trim => with_s y (s_trim (y_s y))
    | Transmit chunk =>
        let '(o, f) := s_transmit chunk (y_s y) in
        let y := with_s y f in
        match o with Some m => mkY (y_s y) (y_gone y) (y_fwd y ++ [m]) (y_r y) (y_in y) (y_back y) (y_bad y) | None => y end
    | Receive assoc acts =>
        match y_fwd y with [] => y | m :: q => on_fwd assoc acts m (mkY (y_s y) (y_gone y) q (y_r y) (y_in y) (y_back y) (y_bad y)) end
    | Deliver cbs => on_r (fun r => if g_pending r then r_deliver cbs r else r) y
    | App a => on_r (fun r => do_act r a) y
    | AckNow => on_r (fun r => with_ack r (g_ackq r) true) y
    | SendAcks => on_r send_acks y
    | Answer => match y_back y with [] => y | m :: q => on_back m (mkY (y_s y) (y_gone y) (y_fwd y) (y_r y) (y_in y) q (y_bad y)) end
    end.
Definition run (l : list op) (y : sys) : sys := fold_left step l y.
