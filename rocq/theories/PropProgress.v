(** C58: a flow can always finish. *)
From Verif Require Import Base VLU Packet RecvFlow RecvFlowSpec WriteReceipt SendFlow EndToEnd EndToEndSpec EndToEndProofs EndToEndEnd EndToEndLive PropEndToEnd PropEndOfFlow.

(** C58: no reachable state is stuck.  Whatever the network and both applications did, if the flow has its flow id and the receiving
    application's buffer size and window limit are not zero, then timers, packets and acknowledgements alone can bring the flow
    to the point where nothing waits to be sent or acknowledged; if the flow was used reliably, everything written is then
    delivered, and if it was closed, the receiver was told.  The packets' front margin (Session.cpp:1263) may be up to 10 bytes. *)
Theorem C58_can_finish : forall fi os y0 y buf margin flags ts tse, y_init = Ok y0 -> yrun fi y0 os = Ok y -> w_bound (wget (y_s y) fi) = true -> 0 < f_cap (y_r y) -> 0 < f_win (y_r y) ->
  header_fits buf margin flags ts tse = true -> (margin <= 10)%nat ->
  exists os' y', Forall (by_itself fi) os' /\ yrun fi y0 (os ++ os') = Ok y' /\ drained (y_s y') fi
    /\ (reliable_run fi y0 os -> delivered y' = written fi y0 os /\ (w_state (wget (y_s y) fi) <> FS_OPEN -> In (OComplete false) (f_out (y_r y')))).
Proof. exact can_finish. Qed.
Print Assumptions C58_can_finish.
(** C58: the same with larger margins, as long as margin, flow id and sequence numbers together take no more than 29 bytes. *)
Theorem C58_can_finish_room : forall fi os y0 y buf margin flags ts tse, y_init = Ok y0 -> yrun fi y0 os = Ok y -> w_bound (wget (y_s y) fi) = true -> 0 < f_cap (y_r y) -> 0 < f_win (y_r y) ->
  header_fits buf margin flags ts tse = true -> (forall q, 1 <= q < w_next (wget (y_s y) fi) -> Z.of_nat margin + zlen (vlu_encode (w_id (wget (y_s y) fi))) + zlen (vlu_encode q) <= 29) ->
  exists os' y', Forall (by_itself fi) os' /\ yrun fi y0 (os ++ os') = Ok y' /\ drained (y_s y') fi
    /\ (reliable_run fi y0 os -> delivered y' = written fi y0 os /\ (w_state (wget (y_s y) fi) <> FS_OPEN -> In (OComplete false) (f_out (y_r y')))).
Proof. exact can_finish_room. Qed.
Print Assumptions C58_can_finish_room.

(** The buffer was closed and is open again: the sender knows only that there is no room.  Two messages wait; the network has lost
    everything so far. *)
Definition yx_lost : list yop :=
  [YSend (SOpen [9; 9] None); YSend (SBind 0 5); YSend (SWrite 0 [1; 2; 3] None None [1]); yx_send 1; YDeliver 0 0; YRecv (EvAct (ACapacity 0)); yx_ack; YGotAck 0 0;
   YRecv (EvAct (ACapacity 5000)); YSend (SWrite 0 [4; 5] None None [2]); yx_send 2; YSend (SWrite 0 [6] None None [3]); YSend (SClose 0 [4]); yx_send 3].
Example C58_case :
  match yx_run yx_lost with
  | Ok y => (w_bound (wget (y_s y) 0) && (w_rxbuf (wget (y_s y) 0) =? 0) && (length (w_queue (wget (y_s y) 0)) =? 2)%nat && (f_cap (y_r y) =? 5000) && (0 <? f_win (y_r y)) && list_eqb (delivered y) [[1; 2; 3]] && (length (y_net y) =? 1)%nat)%bool = true
  | _ => False end
  /\ match yx_run (yx_lost ++ [yx_ack; YGotAck 1 0; YSend STimeout; YSend (SSend 0 false yx_buf 8 9 3 (-1) [1; 2]); YDeliver 1 0; yx_ack; YGotAck 2 0]) with
     | Ok y => list_eqb (delivered y) [[1; 2; 3]; [4; 5]; [6]] && ends (f_out (y_r y)) && lingers y = true | _ => False end
  /\ match y_init with Ok y => reliable_run 0 y yx_lost | _ => False end
  /\ header_fits yx_buf 8 9 3 (-1) = true.
Proof. vm_compute. repeat split; discriminate. Qed.

(** Some limit on the margin is needed: a fragment of 1161 bytes is not sent in packets of 1200 bytes with a front margin of 28. *)
Definition yx_long : list yop := [YSend (SOpen [] None); YSend (SBind 0 5); YSend (SWrite 0 (repeat 1 3000) None None [1; 2; 3])].
Theorem C58_margin_refuted : exists y0 y, y_init = Ok y0 /\ yrun 0 y0 yx_long = Ok y /\ w_queue (wget (y_s y) 0) <> [] /\ header_fits yx_buf 28 9 3 4 = true
  /\ exists s, send_packet (y_s y) 0 false yx_buf 28 9 3 4 [1; 2; 3] = Ok (s, None).
Proof.
  assert (H : match y_init with Ok y0 => match yrun 0 y0 yx_long with Ok y => w_queue (wget (y_s y) 0) <> [] /\ header_fits yx_buf 28 9 3 4 = true /\ match send_packet (y_s y) 0 false yx_buf 28 9 3 4 [1; 2; 3] with Ok (_, None) => True | _ => False end | _ => False end | _ => False end).
  { vm_compute. repeat split. discriminate. }
  destruct y_init as [y0| |]; [|contradiction|contradiction]. exists y0. destruct (yrun 0 y0 yx_long) as [y| |]; [|contradiction|contradiction]. exists y. split; [reflexivity|]. split; [reflexivity|]. destruct H as (h1 & h2 & h3). split; [exact h1|]. split; [exact h2|].
  destruct (send_packet (y_s y) 0 false yx_buf 28 9 3 4 [1; 2; 3]) as [(s, [v|])| |]; try contradiction. exists s. reflexivity.
Qed.
Print Assumptions C58_margin_refuted.
