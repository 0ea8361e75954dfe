(** C84: an RTWebSocket flow delivers what was written to it. *)
From Verif Require Import Base BaseFacts VLU RTWS RTWSSpec RTWSProofs RTWSRecv RTWSSys RTWSEnd.
Open Scope res_scope.

(** ** Messages *)
(** Each message is read as what it was made from *)
Theorem C84_messages : forall id, is_u64 id ->
  (forall ret meta, match ret with Some r => is_u64 r | None => True end -> bytes_ok meta -> parse (enc_open id ret meta) = Ok (MOpen id ret meta)) /\
  (forall more b, bytes_ok b -> parse (enc_data more id b) = Ok (MData more id b)) /\
  (forall k, 1 <= k < 2 ^ 64 -> parse (enc_abandon id k) = Ok (MAbandon id (k - 1))) /\
  parse (enc_close id) = Ok (MClose id) /\
  (forall d a, is_u64 d -> is_u64 a -> parse (enc_ack id d a) = Ok (MAck id d a)) /\
  parse (enc_closeack id) = Ok (MCloseAck id) /\
  (forall r d, is_u64 r -> bytes_ok d -> parse (enc_exc id r d) = Ok (MExc id r d)).
Proof.
  intros id H. split; [intros; apply parse_open; assumption|]. split; [intros; apply parse_data; assumption|]. split; [intros; apply parse_abandon; assumption|]. split; [apply parse_close; exact H|].
  split; [intros; apply parse_ack; assumption|]. split; [apply parse_closeack; exact H|]. intros; apply parse_exc; assumption.
Qed.
Print Assumptions C84_messages.
Example C84_messages_case : enc_data true 300 [7] = [61; 130; 44; 7] /\ parse [61; 130; 44; 7] = Ok (MData true 300 [7]) /\ parse [26; 5] = Ok (MAbandon 5 0) /\ parse [48; 5] = Ok MBad.
Proof. vm_compute. repeat split. Qed.
(** No message makes the reading go wrong *)
Theorem C84_parse_total : forall l, bytes_ok l -> exists m, parse l = Ok m.
Proof. exact parse_total. Qed.
Print Assumptions C84_parse_total.
Example C84_parse_total_case : parse [90; 129; 129] = Ok MBad /\ parse [94; 7; 1; 255] = Ok (MExc 7 1 [255]) /\ parse [] = Ok MNone.
Proof. vm_compute. repeat split. Qed.

Ltac oks := repeat first [exact Logic.I | apply Forall_nil | apply Forall_cons | progress cbn [ok_op ok_act] | progress unfold bytes_ok, is_byte, is_u64 | apply conj | (vm_compute; reflexivity) | (vm_compute; discriminate)].
(** ** The flow *)
(** an opening, two messages of which the first takes two fragments, the acknowledgements, the end *)
Definition talk : list op := [Write [1; 2; 3]; Write [4]; Transmit 2; Receive false [Accept; Cap 100]; SendAcks; Answer; Transmit 2; Receive false []; Transmit 2; Receive false []; Deliver [[]]; Transmit 9; Receive false []; Deliver []; AckNow; SendAcks; Answer].

(** What has been delivered was written: in that order, whole and under the number of its place, whatever is dropped, paused, closed or refused *)
Theorem C84_order : forall id ret meta l, is_u64 id -> match ret with Some r => is_u64 r | None => True end -> bytes_ok meta -> Forall ok_op l ->
  let y := run l (sys0 id ret meta) in few y -> forall r, y_r y = Some r -> faithful (f_written (y_s y)) (g_got r).
Proof. intros id ret meta l H1 H2 H3 H4 y F r R. exact (faithful_got id ret meta H1 H2 H3 l H4 F r R). Qed.
Print Assumptions C84_order.
Example C84_order_case : Forall ok_op talk /\ few (run talk (sys0 7 None [9])) /\
  option_map g_got (y_r (run [Write [1; 2; 3]; Write [4]; Transmit 2; Receive false [Accept; Cap 100]; Transmit 2; Drop 0; Transmit 2; Transmit 2; Receive false []; Receive false []; Receive false []; Deliver []] (sys0 7 None [9]))) = Some [(1, [4])].
Proof.
  split; [|split; [vm_compute; reflexivity|vm_compute; reflexivity]]. unfold talk.
  oks.
Qed.
(** Once all has arrived and deliveries have run, an open receiver has had every message not given up; and every message there was if none was *)
Theorem C84_all : forall id ret meta l, is_u64 id -> match ret with Some r => is_u64 r | None => True end -> bytes_ok meta -> Forall ok_op l ->
  let y := run l (sys0 id ret meta) in few y -> forall r, y_r y = Some r -> y_fwd y = [] -> f_buf (y_s y) = [] -> f_abandon (y_s y) = 0 ->
  g_open r = true -> g_paused r = false -> g_pending r = false ->
  g_got r = pick 0 (f_fate (y_s y)) (f_written (y_s y)) /\ length (f_fate (y_s y)) = length (f_written (y_s y)) /\
  (Forall keeps l -> f_exc (y_s y) = false -> g_got r = number 0 (f_written (y_s y))).
Proof.
  intros id ret meta l H1 H2 H3 H4 y F r R Q B A O P N. destruct (all_got id ret meta H1 H2 H3 l H4 F r R Q B A O P N) as [G L]. split; [exact G|]. split; [exact L|].
  intros K E. etransitivity; [exact G|]. apply pick_all; [apply (all_kept id ret meta l K E)|exact L].
Qed.
Print Assumptions C84_all.
Example C84_all_case : let y := run talk (sys0 7 None [9]) in
  option_map (fun r => (g_got r, g_open r, g_paused r, g_pending r)) (y_r y) = Some ([(0, [1; 2; 3]); (1, [4])], true, false, false) /\ (y_fwd y, f_buf (y_s y), f_abandon (y_s y), f_exc (y_s y)) = ([], [], 0, false) /\ Forall keeps talk.
Proof. vm_compute. split; [reflexivity|]. split; [reflexivity|]. repeat (constructor; [exact Logic.I|]). constructor. Qed.
(** onComplete is called once at most, and only when the sender has closed the flow and all that was not given up has been delivered *)
Theorem C84_complete : forall id ret meta l, is_u64 id -> match ret with Some r => is_u64 r | None => True end -> bytes_ok meta -> Forall ok_op l ->
  let y := run l (sys0 id ret meta) in few y -> forall r, y_r y = Some r -> (g_done r <= 1)%nat /\
  (g_done r = 1%nat -> f_open (y_s y) = false /\ f_buf (y_s y) = [] /\ g_got r = pick 0 (f_fate (y_s y)) (f_written (y_s y)) /\ length (f_fate (y_s y)) = length (f_written (y_s y))).
Proof. intros id ret meta l H1 H2 H3 H4 y F r R. exact (completed id ret meta H1 H2 H3 l H4 F r R). Qed.
Print Assumptions C84_complete.
Example C84_complete_case : let y := run (talk ++ [CloseS; Transmit 9; Receive false []; Deliver []; SendAcks; Answer; Answer]) (sys0 7 None [9]) in
  option_map (fun r => (g_got r, g_done r)) (y_r y) = Some ([(0, [1; 2; 3]); (1, [4])], 1%nat) /\ y_gone y = true /\ y_back y = [].
Proof. vm_compute. repeat split. Qed.
(** Neither end takes what the other sends for an error: every message is for a flow there is *)
Theorem C84_no_error : forall id ret meta l, is_u64 id -> match ret with Some r => is_u64 r | None => True end -> bytes_ok meta -> Forall ok_op l ->
  let y := run l (sys0 id ret meta) in few y -> y_bad y = false.
Proof. intros id ret meta l H1 H2 H3 H4 y F. exact (no_error id ret meta H1 H2 H3 l H4 F). Qed.
Print Assumptions C84_no_error.
Example C84_no_error_case : y_bad (on_back (enc_ack 8 0 0) (sys0 7 None [9])) = true /\ y_bad (run (talk ++ [App (CloseR 1 [33]); Write [5]; Transmit 9; Receive false []; Answer; Trim; Transmit 9; Receive false []]) (sys0 7 None [9])) = false.
Proof. vm_compute. repeat split. Qed.

(** ** The window *)
(** A fragment is sent only inside the window the receiver last advertised and the chunk size asked for *)
Theorem C84_window : forall id ret meta l, is_u64 id -> match ret with Some r => is_u64 r | None => True end -> bytes_ok meta -> Forall ok_op l ->
  let y := run l (sys0 id ret meta) in few y -> forall chunk m g more i b, is_u64 chunk -> s_transmit chunk (y_s y) = (Some m, g) -> parse m = Ok (MData more i b) ->
  i = id /\ f_sent (y_s y) < f_through (y_s y) /\ zlen b <= f_through (y_s y) - f_sent (y_s y) /\ zlen b <= chunk.
Proof. intros id ret meta l H1 H2 H3 H4 y F chunk m g more i b C T P. exact (within id ret meta H1 H2 H3 l H4 F chunk m g more i b C T P). Qed.
Print Assumptions C84_window.
Example C84_window_case : let f := y_s (run [Write [1; 2; 3]; Transmit 2; Receive false [Accept; Cap 2]; SendAcks; Answer] (sys0 7 None [9])) in
  f_through f - f_sent f = 2 /\ fst (s_transmit 100 f) = Some [61; 7; 1; 2] /\ fst (s_transmit 100 (snd (s_transmit 100 f))) = None.
Proof. vm_compute. repeat split. Qed.
(** When nothing is on its way all but half the window has been acknowledged, and the window is the receiver's capacity unless it is paused or at the end *)
Theorem C84_account : forall id ret meta l, is_u64 id -> match ret with Some r => is_u64 r | None => True end -> bytes_ok meta -> Forall ok_op l ->
  let y := run l (sys0 id ret meta) in few y -> forall r, quiet y r ->
  f_sent (y_s y) = wrap64 (f_acked (y_s y) + g_rcvd r) /\ 0 <= g_rcvd r /\ (g_rcvd r = 0 \/ 2 * g_rcvd r < f_avail (y_s y)) /\ f_through (y_s y) = wrap64 (f_acked (y_s y) + f_avail (y_s y)) /\
  (g_paused r = true \/ g_complete r = true \/ f_avail (y_s y) = g_cap r).
Proof. intros id ret meta l H1 H2 H3 H4 y F r Q. exact (window id ret meta H1 H2 H3 l H4 F r Q). Qed.
Print Assumptions C84_account.
Example C84_account_case : let y := run talk (sys0 7 None [9]) in (y_fwd y, y_back y, option_map g_acknow (y_r y)) = ([], [], Some false) /\ (f_sent (y_s y), f_acked (y_s y), f_through (y_s y)) = (10, 10, 110).
Proof. vm_compute. repeat split. Qed.
(** So a message waiting to be sent can be sent: the two ends never both wait, with a capacity below 2^63 *)
Theorem C84_unblocked_partial : forall id ret meta l, is_u64 id -> match ret with Some r => is_u64 r | None => True end -> bytes_ok meta -> Forall ok_op l ->
  let y := run l (sys0 id ret meta) in few y -> forall r chunk, quiet y r -> g_paused r = false -> 0 < g_cap r < 2 ^ 63 -> f_acked (y_s y) < 2 ^ 63 -> f_buf (y_s y) <> [] -> 0 < chunk ->
  fst (s_transmit chunk (y_s y)) <> None.
Proof. intros id ret meta l H1 H2 H3 H4 y F r chunk Q P C A B K. exact (unblocked id ret meta H1 H2 H3 l H4 F r chunk Q P C A B K). Qed.
Print Assumptions C84_unblocked_partial.
Example C84_unblocked_case : let y := run (talk ++ [Write [5]]) (sys0 7 None [9]) in (y_fwd y, y_back y, option_map (fun r => (g_acknow r, g_paused r, g_cap r)) (y_r y), f_acked (y_s y)) = ([], [], Some (false, false, 100), 10) /\ fst (s_transmit 1 (y_s y)) = Some [29; 7; 5].
Proof. vm_compute. repeat split. Qed.
(** A receiver that sets the capacity to SIZE_MAX, meaning no limit, stops the flow with the next acknowledgement *)
Theorem C84_capacity_refuted : ~ (forall id ret meta l, is_u64 id -> match ret with Some r => is_u64 r | None => True end -> bytes_ok meta -> Forall ok_op l ->
  let y := run l (sys0 id ret meta) in few y -> forall r chunk, quiet y r -> g_paused r = false -> 0 < g_cap r -> f_acked (y_s y) < 2 ^ 63 -> f_buf (y_s y) <> [] -> 0 < chunk -> fst (s_transmit chunk (y_s y)) <> None).
Proof.
  intros H.
  specialize (H 7 None [] [Write [1]; Transmit 9; Receive false [Accept; Cap 18446744073709551615]; SendAcks; Answer; Transmit 9; Receive false []; Deliver [[]]; AckNow; SendAcks; Answer; Write [2]]).
  eapply H; [unfold is_u64, U64MAX; lia|exact Logic.I|constructor| |vm_compute; reflexivity|split; [vm_compute; reflexivity|]; split; [vm_compute; reflexivity|]; split; [vm_compute; reflexivity|vm_compute; reflexivity]
    |vm_compute; reflexivity|vm_compute; reflexivity|vm_compute; reflexivity|vm_compute; discriminate|exact (eq_refl : 0 < 1)|vm_compute; reflexivity].
  oks.
Qed.
Print Assumptions C84_capacity_refuted.
(** The capacity does not bound what is buffered: the window is moved on for the fragments of a message that is not yet whole *)
Theorem C84_buffer_refuted : ~ (forall l, Forall ok_op l -> let y := run l (sys0 7 None []) in few y -> forall r, y_r y = Some r -> g_open r = true -> Forall (fun o => match o with Receive _ a => a = [] \/ a = [Accept; Cap 4] | App _ => False | Deliver d => d = [] | _ => True end) l ->
  f_avail (y_s y) = g_cap r -> f_exc (y_s y) = false -> g_len r <= g_cap r).
Proof.
  intros H. set (l := [Write [1; 2; 3; 4; 5; 6; 7; 8; 9]; Transmit 9; Receive false [Accept; Cap 4]; SendAcks; Answer; Transmit 9; Receive false []; SendAcks; Answer; Transmit 9; Receive false []; SendAcks; Answer]).
  assert (O : Forall ok_op l) by (unfold l; oks). assert (F : few (run l (sys0 7 None []))) by (vm_compute; reflexivity). specialize (H l O F).
  assert (K : Forall (fun o => match o with Receive _ a => a = [] \/ a = [Accept; Cap 4] | App _ => False | Deliver d => d = [] | _ => True end) l) by (unfold l; repeat (constructor; [cbn; auto|]); constructor).
  destruct (y_r (run l (sys0 7 None []))) as [r|] eqn:R; [|vm_compute in R; discriminate R]. specialize (H r eq_refl). vm_compute in R. injection R as <-. specialize (H eq_refl K eq_refl eq_refl). vm_compute in H. apply H. reflexivity.
Qed.
Print Assumptions C84_buffer_refuted.
(** A DATA_ABANDON with a great count turns the message numbers back: two messages are delivered under one number *)
Theorem C84_numbers_refuted : ~ (forall a b c, is_u64 c -> NoDup (map fst (g_got (r_deliver [] (r_data false b 0 (r_abandon c (r_data false a 0 (do_act (rflow0 7) Accept)))))))).
Proof.
  intros H. specialize (H [1] [2] (2 ^ 64 - 2) ltac:(unfold is_u64, U64MAX; lia)). vm_compute in H. inversion_clear H as [|? ? N _]. apply N. left. reflexivity.
Qed.
Print Assumptions C84_numbers_refuted.
