(** C57: the end of a flow, from close() at the sender to onComplete at the receiver. *)
From Verif Require Import Base RecvFlow RecvFlowSpec WriteReceipt SendFlow EndToEnd EndToEndSpec EndToEndProofs EndToEndEnd PropEndToEnd.

(** C57: whatever the network and the sending application do, onComplete is called at most once, after the last message, never
    as an error, and only when the sender has closed the flow; by then every message was delivered but those of which the sender gave up a
    fragment. *)
Theorem C57_told_last : forall fi os y0 y e, y_init = Ok y0 -> yrun fi y0 os = Ok y -> In (OComplete e) (f_out (y_r y)) ->
  e = false /\ f_out (y_r y) = map (fun m => OMsg (fst (fst m)) (snd (fst m)) (snd m)) (msgs_of (f_out (y_r y))) ++ [OComplete false] /\ w_state (wget (y_s y) fi) <> FS_OPEN.
Proof. exact told_last. Qed.
Print Assumptions C57_told_last.
Theorem C57_told_means : forall fi os y0 y e, y_init = Ok y0 -> yrun fi y0 os = Ok y -> In (OComplete e) (f_out (y_r y)) ->
  exists ms, map (@concat Z) ms = written fi y0 os /\ Forall (fun m => m <> []) ms /\ selection (msgs_of (f_out (y_r y))) (sent ms)
    /\ forall content first count, In (content, first, count) (sent ms) -> In (content, first, count) (msgs_of (f_out (y_r y))) \/ exists i, first <= i < first + count /\ given_up (y_s y) fi i.
Proof. exact told_means. Qed.
Print Assumptions C57_told_means.
(** C57: if the flow is used reliably, everything written was delivered by then. *)
Theorem C57_told_everything : forall fi os y0 y e, y_init = Ok y0 -> yrun fi y0 os = Ok y -> reliable_run fi y0 os -> In (OComplete e) (f_out (y_r y)) -> delivered y = written fi y0 os.
Proof. exact told_everything. Qed.
Print Assumptions C57_told_everything.
(** C57: and the receiver was told by the time the closed flow has nothing left to send or to have acknowledged. *)
Theorem C57_closed_told : forall fi os y0 y, y_init = Ok y0 -> yrun fi y0 os = Ok y -> reliable_run fi y0 os -> drained (y_s y) fi -> w_state (wget (y_s y) fi) <> FS_OPEN ->
  In (OComplete false) (f_out (y_r y)).
Proof. exact closed_told. Qed.
Print Assumptions C57_closed_told.

(** The execution of C18, then the closing fragment arrives and is acknowledged; and one where the last message is still unsent at
    close(), so that it carries the mark itself, and arrives before the others. *)
Definition yx_close : list yop := yx_reliable ++ [YDeliver 4 0; yx_ack; YGotAck 2 0].
Definition yx_close2 : list yop :=
  [YSend (SOpen [9; 9] None); YSend (SBind 0 5); YSend (SWrite 0 [1; 2; 3] None None [1]); yx_send 1; YSend (SWrite 0 [4; 5] None None [2]); YSend (SClose 0 [3]); yx_send 2;
   YDeliver 1 0; yx_ack; YDeliver 0 0; yx_ack; YGotAck 0 0; YGotAck 1 0].
Definition ends (o : list out) : bool := match rev o with OComplete false :: _ => true | _ => false end.
Definition lingers (y : world) : bool := match w_state (wget (y_s y) 0), w_queue (wget (y_s y) 0) with FS_LINGER, [] => w_bound (wget (y_s y) 0) | _, _ => false end.
Example C57_case :
  forallb (fun c => match yx_run (fst c) with Ok y => list_eqb (delivered y) (fst (snd c)) && Bool.eqb (ends (f_out (y_r y))) (fst (snd (snd c))) && Bool.eqb (lingers y) (snd (snd (snd c))) | _ => false end)
    [(yx_reliable, ([[1; 2; 3]; [4; 5]; [6]], (false, false))); (firstn 23 yx_close, ([[1; 2; 3]; [4; 5]; [6]], (true, false))); (yx_close, ([[1; 2; 3]; [4; 5]; [6]], (true, true)));
     (firstn 9 yx_close2, ([], (false, false))); (firstn 10 yx_close2, ([[1; 2; 3]; [4; 5]], (true, false))); (yx_close2, ([[1; 2; 3]; [4; 5]], (true, true)))] = true
  /\ match y_init with Ok y => reliable_run 0 y yx_close /\ reliable_run 0 y yx_close2 | _ => False end.
Proof. split; [vm_compute; reflexivity|]. vm_compute. split; repeat split; try discriminate. intros i _ <-. reflexivity. Qed.

(** Without reliability the receiver may never hear of the end (trimSendQueue, SendFlow.cpp:342-362, as in C19): the last message
    carries the mark, arrives and is acknowledged; the first was abandoned and trimmed, and no forward sequence number says so. The sender is
    done, while the receiver waits for the first message for ever. *)
Definition yx_stall2 : list yop :=
  [YSend (SOpen [9; 9] None); YSend (SBind 0 5)] ++ yx_w 1 [1] ++ yx_w 2 [2] ++ yx_w 3 [3] ++ yx_w 4 [4] ++ [YSend (SWrite 0 [5] None None [5]); YSend (SClose 0 [6]); yx_send 5]
  ++ [YDeliver 1 0; yx_ack; YGotAck 0 0; YSend SNaks; YDeliver 2 0; yx_ack; YGotAck 1 0; YSend SNaks; YDeliver 3 0; yx_ack; YGotAck 2 0; YSend SNaks;
      YSend (SReceipt (RAbandon 0)); yx_send 6; YDeliver 4 0; yx_ack; YGotAck 3 0; yx_send 7].
Theorem C57_stall_refuted : exists y0 y, y_init = Ok y0 /\ yrun 0 y0 yx_stall2 = Ok y /\ drained (y_s y) 0 /\ w_state (wget (y_s y) 0) = FS_LINGER /\ f_out (y_r y) = [].
Proof.
  assert (H : match y_init with Ok y0 => match yrun 0 y0 yx_stall2 with Ok y => drained (y_s y) 0 /\ w_state (wget (y_s y) 0) = FS_LINGER /\ f_out (y_r y) = [] | _ => False end | _ => False end).
  { vm_compute. repeat split. left. reflexivity. }
  destruct y_init as [y0| |]; [|contradiction|contradiction]. exists y0. destruct (yrun 0 y0 yx_stall2) as [y| |]; [|contradiction|contradiction]. exists y. tauto.
Qed.
Print Assumptions C57_stall_refuted.
