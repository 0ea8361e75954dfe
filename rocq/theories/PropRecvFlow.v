(** C12, C13, C14, C16: the receiving side of a flow. *)
From Verif Require Import Base RecvFlow RecvFlowSpec RecvFlowAny RecvFlowMsg RecvFlowRun.
From Coq Require Import Sorted.

(** ** C12 *)
(** The sender wrote [ms].  The events are any loss, duplication and reordering of the sender's fragments, some abandoned, with
    any forward sequence numbers and any final flags, mixed with anything the application may do - from outside or from inside
    its callbacks - except asking for network order.  Then nothing fails and the messages passed to onMessage are some of the
    messages written, intact, in the order written, none twice. *)
Theorem C12_in_order : forall script ms es f0, well_formed ms -> rf_init script = Ok f0 -> Forall (conforms (fun _ => True) ms) es ->
  Forall (Forall act_not_network) script -> Forall ev_not_network es ->
  exists f, rf_run f0 es = Ok f /\ selection (msgs_of (f_out f)) (sent ms).
Proof. intros script ms es f0 Hw Hi He H1 H2. destruct (recv_safe script ms es f0 Hw Hi He) as (f & Hr & _ & _ & Hs). eauto. Qed.
Print Assumptions C12_in_order.

(** If the application accepts the flow and leaves it alone, and the final flag is only put on the last fragment, a message
    has been delivered exactly when all its fragments came and everything before its end is accounted for. *)
Theorem C12_exactly_once : forall ms es f0, well_formed ms -> rf_init [] = Ok f0 ->
  Forall (conforms (fun i => i = zlen (table ms)) ms) es -> Forall passive es ->
  exists f, rf_run f0 (EvAccept :: es) = Ok f /\ selection (msgs_of (f_out f)) (sent ms)
   /\ forall m, In m (sent ms) -> (In m (msgs_of (f_out f)) <-> due_in_sequence es m).
Proof. exact recv_exact_sequence. Qed.
Print Assumptions C12_exactly_once.

(** Three messages, the second of three fragments: fragments arrive out of order, twice, the first message's abandoned. *)
Definition demo_ms : list (list (list Z)) := [[[1; 2]]; [[3]; []; [4; 5]]; [[6]]].
Definition demo_es : list revent :=
  [EvData 32 4 0 [4; 5]; EvData 16 2 0 [3]; EvData 48 3 0 []; EvData 16 2 0 [3]; EvAck; EvData 2 1 1 []; EvData 0 1 0 [1; 2]; EvData 1 5 1 [6]].
Definition msgs_after (es : list revent) : res (list (list Z * Z * Z)) := rbind (rf_init []) (fun f0 => rbind (rf_run f0 es) (fun f => Ok (msgs_of (f_out f)))).
Example C12_case : Forall (conforms (fun i => i = zlen (table demo_ms)) demo_ms) demo_es /\ Forall passive demo_es /\ well_formed demo_ms
  /\ sent demo_ms = [([1; 2], 1, 1); ([3; 4; 5], 2, 3); ([6], 5, 1)]
  /\ msgs_after (EvAccept :: demo_es) = Ok [([3; 4; 5], 2, 3); ([6], 5, 1)]
  /\ due_in_sequence demo_es ([3; 4; 5], 2, 3).
Proof.
  assert (Hc : Forall (conforms (fun i => i = zlen (table demo_ms)) demo_ms) demo_es).
  { repeat constructor; cbn; do 2 eexists; repeat (split; [first [reflexivity | unfold U64MAX; lia | intros; reflexivity | discriminate]|]); (reflexivity || (intros H; cbn in H; congruence) || lia). }
  split; [exact Hc|]. split; [repeat constructor|]. split; [split; [repeat constructor; discriminate|vm_compute; reflexivity]|]. split; [reflexivity|]. split; [vm_compute; reflexivity|]. split.
  - intros i Hi. assert (i = 2 \/ i = 3 \/ i = 4) as [->|[->| ->]] by lia.
    + exists [EvData 32 4 0 [4; 5]]. do 2 eexists. split; [reflexivity|]. split; [cbn; lia|]. intros (e & [<-|[]] & He). cbn in He. lia.
    + exists [EvData 32 4 0 [4; 5]; EvData 16 2 0 [3]]. do 2 eexists. split; [reflexivity|]. split; [cbn; lia|]. intros (e & [<-|[<-|[]]] & He); cbn in He; lia.
    + exists []. do 2 eexists. split; [reflexivity|]. split; [cbn; lia|]. intros (e & [] & _).
  - intros i Hi. assert (i = 0 \/ i = 1 \/ i = 2 \/ i = 3 \/ i = 4) as [->|[->|[->|[->| ->]]]] by lia.
    + exists (EvData 2 1 1 []). split; [cbn; tauto|cbn; lia].
    + exists (EvData 2 1 1 []). split; [cbn; tauto|cbn; lia].
    + exists (EvData 16 2 0 [3]). split; [cbn; tauto|cbn; lia].
    + exists (EvData 48 3 0 []). split; [cbn; tauto|cbn; lia].
    + exists (EvData 32 4 0 [4; 5]). split; [cbn; tauto|cbn; lia].
Qed.

(** ** C13 *)
(** Whatever the receive orders the application chooses and whatever it does, each message delivered is one that was written,
    intact, and none is delivered twice. *)
Theorem C13_at_most_once : forall script ms es f0, well_formed ms -> rf_init script = Ok f0 -> Forall (conforms (fun _ => True) ms) es ->
  exists f, rf_run f0 es = Ok f /\ incl (msgs_of (f_out f)) (sent ms) /\ NoDup (map (fun m => snd (fst m)) (msgs_of (f_out f))).
Proof. intros script ms es f0 Hw Hi He. destruct (recv_safe script ms es f0 Hw Hi He) as (f & Hr & H1 & H2 & _). eauto. Qed.
Print Assumptions C13_at_most_once.

(** In network order a message has been delivered exactly when all its fragments have come, whatever is missing before it. *)
Theorem C13_exactly_once : forall ms es f0, well_formed ms -> rf_init [] = Ok f0 ->
  Forall (conforms (fun i => i = zlen (table ms)) ms) es -> Forall passive es ->
  exists f, rf_run f0 (EvAccept :: EvAct (AOrder RO_NETWORK) :: es) = Ok f
   /\ forall m, In m (sent ms) -> (In m (msgs_of (f_out f)) <-> due_in_network es m).
Proof. exact recv_exact_network. Qed.
Print Assumptions C13_exactly_once.
(** The last message overtakes the others. *)
Example C13_case : Forall passive [EvData 1 5 0 [6]; EvData 48 3 0 []; EvData 16 2 0 [3]; EvData 32 4 0 [4; 5]]
  /\ msgs_after ([EvAccept; EvAct (AOrder RO_NETWORK)] ++ [EvData 1 5 0 [6]; EvData 48 3 0 []; EvData 16 2 0 [3]; EvData 32 4 0 [4; 5]]) = Ok [([6], 5, 1); ([3; 4; 5], 2, 3)].
Proof. split; [repeat constructor|vm_compute; reflexivity]. Qed.

(** ** C14 *)
(** Whatever a peer sends and whatever the application does, a receiving flow has no undefined behaviour: it either goes on, or
    an exception (std::out_of_range, from List::at) leaves it.  As long as it goes on, every message it delivered consists of
    fragments that were received, in increasing order, and no fragment is used twice.
    The full statement - that no exception is thrown either - is false; see the two theorems after the next. *)
Theorem C14_any_peer_partial : forall script es f0, rf_init script = Ok f0 -> Forall sane es ->
  match rf_run f0 es with
  | Ok f => exists pss, Forall2 (made_of es) (msgs_of (f_out f)) pss /\ NoDup (map fst (concat pss))
  | Rej => True
  | UB => False
  end.
Proof. exact recv_any. Qed.
Print Assumptions C14_any_peer_partial.
(** On hold, no exception is thrown either. *)
Theorem C14_hold_no_exception : forall script es f0, rf_init script = Ok f0 -> Forall (Forall holds) script -> Forall sane es -> Forall ev_holds es ->
  exists f, rf_run f0 (EvAct (AOrder RO_HOLD) :: es) = Ok f.
Proof. exact recv_hold. Qed.
Print Assumptions C14_hold_no_exception.

(** Finding: three fragments with marks no well-behaved sender produces make the default receive order throw. *)
Theorem C14_sequence_order_refuted : exists es, Forall sane es /\ Forall passive es /\
  forall f0, rf_init [] = Ok f0 -> rf_run f0 (EvAccept :: es) = Rej.
Proof.
  exists [EvData 16 2 0 [1]; EvData 48 1 0 [2]; EvData 48 3 0 [3]]. split; [repeat constructor; cbn; unfold U64MAX; lia|]. split; [repeat constructor|].
  intros f0 Hf. vm_compute in Hf. injection Hf as <-. vm_compute. reflexivity.
Qed.
Print Assumptions C14_sequence_order_refuted.
(** Finding: likewise in network order. *)
Theorem C14_network_order_refuted : exists es, Forall sane es /\ Forall passive es /\
  forall f0, rf_init [] = Ok f0 -> rf_run f0 (EvAccept :: EvAct (AOrder RO_NETWORK) :: es) = Rej.
Proof.
  exists [EvData 32 3 0 [1]; EvData 32 4 0 [2]; EvData 16 2 0 [3]; EvData 32 5 0 [4]]. split; [repeat constructor; cbn; unfold U64MAX; lia|]. split; [repeat constructor|].
  intros f0 Hf. vm_compute in Hf. injection Hf as <-. vm_compute. reflexivity.
Qed.
Print Assumptions C14_network_order_refuted.
(** Malformed input that does get through: END of one message joined to the BEGIN of another. *)
Example C14_case : Forall sane [EvData 16 1 0 [1]; EvData 16 2 0 [2]; EvData 32 3 7 [3]]
  /\ msgs_after (EvAccept :: [EvData 16 1 0 [1]; EvData 16 2 0 [2]; EvData 32 3 7 [3]]) = Ok [([2; 3], 2, 2)].
Proof. split; [repeat constructor; cbn; unfold U64MAX; lia|vm_compute; reflexivity]. Qed.

(** ** C16 *)
(** For any history at all, getCumulativeAckSequenceNumber is the end of the contiguous run of numbers accounted for, and
    getForwardSequenceNumber is the highest forward sequence number received and does not exceed it. *)
Theorem C16_cumulative_ack : forall script es f0 f, rf_init script = Ok f0 -> Forall sane es -> rf_run f0 es = Ok f ->
  (forall i, covered es i -> contiguous_to es (csn f)) /\ (csn f = 0 \/ contiguous_to es (csn f)) /\ ~ contiguous_to es (csn f + 1)
  /\ f_fwd f = top_fsn es /\ f_fwd f <= csn f.
Proof. exact recv_csn. Qed.
Print Assumptions C16_cumulative_ack.
(** Neither ever moves backwards. *)
Theorem C16_monotone : forall script es1 es2 f0 f1 f2, rf_init script = Ok f0 -> Forall sane (es1 ++ es2) ->
  rf_run f0 es1 = Ok f1 -> rf_run f1 es2 = Ok f2 -> csn f1 <= csn f2 /\ f_fwd f1 <= f_fwd f2.
Proof. exact recv_mono. Qed.
Print Assumptions C16_monotone.
Example C16_case : Forall sane (demo_es ++ [EvData 0 9 7 [1]]) /\ exists f0 f1 f2, rf_init [] = Ok f0 /\ rf_run f0 demo_es = Ok f1
  /\ rf_run f1 [EvData 0 9 7 [1]] = Ok f2 /\ csn f1 = 5 /\ f_fwd f1 = 1 /\ csn f2 = 7 /\ f_fwd f2 = 7.
Proof.
  split; [repeat constructor; cbn; unfold U64MAX; lia|]. do 3 eexists. split; [vm_compute; reflexivity|]. split; [vm_compute; reflexivity|]. split; [vm_compute; reflexivity|].
  repeat (split; [vm_compute; reflexivity|]). vm_compute. reflexivity.
Qed.
