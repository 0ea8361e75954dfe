(** C18, C19: from the sending application to the receiving one, through a network that may do anything to packets. *)
From Verif Require Import Base RecvFlow RecvFlowSpec WriteReceipt SendFlow EndToEnd EndToEndSpec EndToEndProofs.

Definition yx_buf : list Z := repeat 7 1200.
Definition yx_send (o : Z) : yop := YSend (SSend 0 false yx_buf 8 9 3 (-1) [o]).
Definition yx_ack : yop := YAck yx_buf 4 9 (-1) 77 false (Some 2).
(** Two reliable messages in packets of their own; the second arrives first, twice, then the first; the acknowledgement comes back;
    a third message is lost once and sent again; then the flow is closed. *)
Definition yx_reliable : list yop :=
  [YSend (SOpen [9; 9] None); YSend (SBind 0 5); YSend (SWrite 0 [1; 2; 3] None None [1]); yx_send 1; YSend (SWrite 0 [4; 5] None None [2]); yx_send 2;
   YDeliver 1 3; YDeliver 1 0; YDeliver 0 15; yx_ack; YGotAck 0 2;
   YSend (SWrite 0 [6] None None [3]); yx_send 3; YSend STimeout; yx_send 4; YDeliver 3 0; yx_ack; YDeliver 2 0; YGotAck 1 0;
   YSend (SReceipt (RHook 0)); YSend (SClose 0 [4]); yx_send 5].
Definition yx_run (os : list yop) : res world := match y_init with Ok y => yrun 0 y os | Rej => Rej | UB => UB end.
Fixpoint list_eqb (a b : list (list Z)) : bool :=
  match a, b with [], [] => true | x :: a, y :: b => (if list_eq_dec Z.eq_dec x y then true else false) && list_eqb a b | _, _ => false end.

(** C18: whatever the network does (packets dropped, duplicated, delayed, reordered), nothing goes wrong at either end, whatever
    the sending application does. *)
Theorem C18_safe : forall fi os y0, y_init = Ok y0 -> yrun fi y0 os <> UB.
Proof. exact never_stuck. Qed.
Print Assumptions C18_safe.

(** C18: if the sending application uses the flow reliably, then what was delivered is always a prefix of what was written. *)
Theorem C18_prefix : forall fi os y0 y, y_init = Ok y0 -> yrun fi y0 os = Ok y -> reliable_run fi y0 os -> exists n, delivered y = firstn n (written fi y0 os).
Proof. exact prefix_delivered. Qed.
Print Assumptions C18_prefix.

(** C18: and everything written was delivered by the time the sender holds nothing any more that is to be sent or acknowledged. *)
Theorem C18_complete : forall fi os y0 y, y_init = Ok y0 -> yrun fi y0 os = Ok y -> reliable_run fi y0 os -> drained (y_s y) fi -> delivered y = written fi y0 os.
Proof. exact all_delivered. Qed.
Print Assumptions C18_complete.

(** What the receiver had after 7, 9 and 17 of these operations; everything at the end, when the closing fragment is still queued. *)
Example C18_case :
  forallb (fun c => match yx_run (firstn (fst c) yx_reliable) with Ok y => list_eqb (delivered y) (snd c) | _ => false end)
    [(7%nat, []); (8%nat, []); (9%nat, [[1; 2; 3]; [4; 5]]); (15%nat, [[1; 2; 3]; [4; 5]]); (22%nat, [[1; 2; 3]; [4; 5]; [6]])] = true
  /\ match yx_run (firstn 19 yx_reliable) with Ok y => match w_queue (wget (y_s y) 0) with [] => w_bound (wget (y_s y) 0) | _ => false end | _ => false end = true
  /\ match y_init with Ok y => reliable_run 0 y yx_reliable /\ written 0 y yx_reliable = [[1; 2; 3]; [4; 5]; [6]] | _ => False end.
Proof.
  split; [vm_compute; reflexivity|]. split; [vm_compute; reflexivity|]. vm_compute. split; [|reflexivity]. repeat split; try discriminate. intros i _ <-. reflexivity.
Qed.

(** C19: whatever messages the sender gives up, what was delivered is a selection of what was written: whole messages, in order,
    each at most once. The messages written are cut into fragments [ms]; a message is delivered exactly when all its fragments came
    and nothing before it is expected any more, in particular when its fragments came and a forward sequence number that reaches up to it
    came; a message is passed over only if the sender gave it up; if the sender holds nothing any more then every message before the first
    one given up was delivered. *)
Theorem C19_whole_in_order : forall fi os y0 y, y_init = Ok y0 -> yrun fi y0 os = Ok y ->
  selection (delivered y) (written fi y0 os)
  /\ exists ms, map (@concat Z) ms = written fi y0 os /\ Forall (fun m => m <> []) ms /\ selection (msgs_of (f_out (y_r y))) (sent ms)
     /\ (forall m, In m (sent ms) -> (In m (msgs_of (f_out (y_r y))) <-> due_in_sequence (y_hist y) m))
     /\ (forall content first count, In (content, first, count) (sent ms) -> (forall i, first <= i < first + count -> got (y_hist y) i) -> forwarded (y_hist y) (first - 1) -> In (content, first, count) (msgs_of (f_out (y_r y))))
     /\ (forall a m b m' c, sent ms = a ++ m :: b ++ m' :: c -> In m' (msgs_of (f_out (y_r y))) -> ~ In m (msgs_of (f_out (y_r y))) -> exists i, snd (fst m) <= i < snd (fst m) + snd m /\ given_up (y_s y) fi i)
     /\ (drained (y_s y) fi -> forall content first count, In (content, first, count) (sent ms) -> (forall i, 1 <= i < first + count -> ~ given_up (y_s y) fi i) -> In (content, first, count) (msgs_of (f_out (y_r y)))).
Proof. exact whole_in_order. Qed.
Print Assumptions C19_whole_in_order.

(** C19: the receiver only passes over fragments the sender gave up. *)
Theorem C19_forward_truthful : forall fi os y0 y i, y_init = Ok y0 -> yrun fi y0 os = Ok y -> 1 <= i -> covered (y_hist y) i -> got (y_hist y) i \/ given_up (y_s y) fi i.
Proof. exact forward_truthful. Qed.
Print Assumptions C19_forward_truthful.

(** The first message is lost and abandoned, the second comes with a forward sequence number reaching up to it. *)
Definition yx_abandon : list yop :=
  [YSend (SOpen [9; 9] None); YSend (SBind 0 5); YSend (SWrite 0 [1; 2; 3] None None [1]); yx_send 1; YSend (SWrite 0 [4; 5] None None [2]); yx_send 2;
   YSend (SReceipt (RAbandon 0)); YSend STimeout; YDeliver 1 3; yx_send 3; YDeliver 2 0].
Example C19_case :
  forallb (fun c => match yx_run (firstn (fst c) yx_abandon) with Ok y => list_eqb (delivered y) (snd c) | _ => false end)
    [(9%nat, []); (11%nat, [[4; 5]])] = true
  /\ match y_init with Ok y => written 0 y yx_abandon = [[1; 2; 3]; [4; 5]] | _ => False end
  /\ match yx_run yx_abandon with Ok y => covered (y_hist y) 1 /\ given_up (y_s y) 0 1 | _ => False end.
Proof.
  split; [vm_compute; reflexivity|]. split; [vm_compute; reflexivity|]. vm_compute. split; [|exists 0%nat; repeat split; repeat constructor].
  eexists. split; [right; left; reflexivity|]. right. split; discriminate.
Qed.

(** But telling the receiver may be forgotten (trimSendQueue, SendFlow.cpp:342-362): the first message is lost and abandoned while the last
    one is in flight; the queue's head is trimmed, then the last message is acknowledged. The sender holds nothing any more, the last messages
    arrived, were acknowledged and not abandoned, and yet are not delivered: no forward sequence number reaching past the first one
    was ever sent. *)
Definition yx_w (o : Z) (msg : list Z) : list yop := [YSend (SWrite 0 msg None None [o]); yx_send o].
Definition yx_stall : list yop :=
  [YSend (SOpen [9; 9] None); YSend (SBind 0 5)] ++ yx_w 1 [1] ++ yx_w 2 [2] ++ yx_w 3 [3] ++ yx_w 4 [4] ++ yx_w 5 [5]
  ++ [YDeliver 1 0; yx_ack; YGotAck 0 0; YSend SNaks; YDeliver 2 0; yx_ack; YGotAck 1 0; YSend SNaks; YDeliver 3 0; yx_ack; YGotAck 2 0; YSend SNaks;
      YSend (SReceipt (RAbandon 0)); yx_send 6; YDeliver 4 0; yx_ack; YGotAck 3 0; yx_send 7].
Theorem C19_stall_refuted : exists y0 y, y_init = Ok y0 /\ yrun 0 y0 yx_stall = Ok y /\ drained (y_s y) 0
  /\ written 0 y0 yx_stall = [[1]; [2]; [3]; [4]; [5]] /\ delivered y = [] /\ forall i, 2 <= i <= 5 -> got (y_hist y) i /\ ~ given_up (y_s y) 0 i.
Proof.
  assert (H : match y_init with Ok y0 => match yrun 0 y0 yx_stall with Ok y =>
       drained (y_s y) 0 /\ written 0 y0 yx_stall = [[1]; [2]; [3]; [4]; [5]] /\ delivered y = []
       /\ y_hist y = [EvData 128 2 0 [2]; EvAck; EvData 128 3 0 [3]; EvAck; EvData 128 4 0 [4]; EvAck; EvData 128 5 0 [5]; EvAck]
       /\ map (fun g => (g_seq g, c_aband (rget (s_rcpts (y_s y)) (g_rcpt g)))) (s_heap (y_s y)) = [(1, true); (2, false); (3, false); (4, false); (5, false)]
     | _ => False end | _ => False end).
  { vm_compute. repeat split. left. reflexivity. }
  destruct y_init as [y0| |]; [|contradiction|contradiction]. exists y0. destruct (yrun 0 y0 yx_stall) as [y| |]; [|contradiction|contradiction]. exists y. destruct H as (h1 & h2 & h3 & h4 & h5).
  split; [reflexivity|]. split; [reflexivity|]. split; [exact h1|]. split; [exact h2|]. split; [exact h3|]. intros i Hi. split.
  - rewrite h4. assert (Hs : forall a e b, carries e i -> (forall x, In x a -> ~ covers x i) -> got (a ++ e :: b) i) by (intros a e b Hc Ha; exists a, e, b; split; [reflexivity|]; split; [exact Hc|]; intros (x & Hx & Hcx); exact (Ha x Hx Hcx)).
    assert (Hcase : i = 2 \/ i = 3 \/ i = 4 \/ i = 5) by lia.
    destruct Hcase as [-> | [-> | [-> | ->]]];
      [apply (Hs []) | apply (Hs [EvData 128 2 0 [2]; EvAck]) | apply (Hs [EvData 128 2 0 [2]; EvAck; EvData 128 3 0 [3]; EvAck]) | apply (Hs [EvData 128 2 0 [2]; EvAck; EvData 128 3 0 [3]; EvAck; EvData 128 4 0 [4]; EvAck])];
      try (split; reflexivity); intros x Hx; cbn [In] in Hx; repeat (destruct Hx as [<- |Hx]; [cbn [covers]; lia|]); destruct Hx.
  - intros (n & Hn & _ & Hq & Ha). assert (Hx : In (i, true) (map (fun g => (g_seq g, c_aband (rget (s_rcpts (y_s y)) (g_rcpt g)))) (s_heap (y_s y)))).
    { apply in_map_iff. exists (gget (y_s y) n). split; [rewrite Hq, Ha; reflexivity|]. apply nth_In. exact Hn. }
    rewrite h5 in Hx. cbn [In] in Hx. repeat (destruct Hx as [Hx|Hx]; [injection Hx; lia || discriminate|]). destruct Hx.
Qed.
Print Assumptions C19_stall_refuted.
