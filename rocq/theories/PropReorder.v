(** C22: the reorder buffer.  The owner inserts each sequence number at most once (as RecvFlow does, C13) and the clock does
    not run back; the initial value [high] of the uninitialised m_highestSeen is arbitrary.  [never]: the callback does not
    close the buffer. *)
From Verif Require Import Base BaseFacts Reorder ReorderSpec ReorderProofs.
From Coq Require Import Permutation.

(** C22.  No assertion fails, no erased iterator is used. *)
Theorem C22_defined : forall high t0 period ops, 0 <= high < U64MAX -> clock t0 ops -> Forall fits ops -> NoDup (map q_seq (inserted ops)) ->
  exists b, brun never ops (buf_init high period) = Ok b.
Proof. exact run_defined. Qed.
Print Assumptions C22_defined.

(** C22.  Every message is passed to onMessage at most once, as it was inserted. *)
Theorem C22_at_most_once : forall high t0 period ops b, 0 <= high < U64MAX -> clock t0 ops -> Forall fits ops -> NoDup (map q_seq (inserted ops)) ->
  brun never ops (buf_init high period) = Ok b -> exists rest, Permutation (inserted ops) (map fst (b_out b) ++ rest).
Proof. exact run_once. Qed.
Print Assumptions C22_at_most_once.

(** C22.  A message is flagged late exactly when one reaching further was passed before; the others are in order. *)
Theorem C22_late : forall high t0 period ops b, 0 <= high < U64MAX -> clock t0 ops -> Forall fits ops -> NoDup (map q_seq (inserted ops)) ->
  brun never ops (buf_init high period) = Ok b ->
  truthful (b_out b) /\ forall p1 m1 l1 p2 m2 p3, b_out b = p1 ++ (m1, l1) :: p2 ++ (m2, false) :: p3 -> covers_to m1 <= covers_to m2.
Proof.
  intros high t0 period ops b H C F N R. pose proof (run_late high t0 period ops b H C F N R) as T. split; [exact T|].
  intros p1 m1 l1 p2 m2 p3 E. rewrite app_comm_cons, app_assoc in E. destruct (T _ _ _ _ E) as [_ X].
  destruct (Z_lt_ge_dec (covers_to m2) (covers_to m1)) as [L|L]; [|lia]. discriminate X. exists m1, l1. split; [apply in_or_app; right; left; reflexivity|exact L].
Qed.
Print Assumptions C22_late.

(** C22.  Flushing passes everything that was inserted. *)
Theorem C22_flush : forall high t0 period ops b, 0 <= high < U64MAX -> clock t0 ops -> Forall fits ops -> NoDup (map q_seq (inserted ops)) ->
  brun never ops (buf_init high period) = Ok b ->
  forall pre t, ops = pre ++ [(t, BFlush)] -> Forall (fun e => snd e <> BClose) ops -> Permutation (inserted ops) (map fst (b_out b)).
Proof. exact run_flush. Qed.
Print Assumptions C22_flush.

(** C22.  A message beyond a gap is held back, until the owner says to go on or some message was held for a whole period. *)
Theorem C22_holds_back : forall high t0 period ops b, 0 <= high < U64MAX -> clock t0 ops -> Forall fits ops -> NoDup (map q_seq (inserted ops)) ->
  brun never ops (buf_init high period) = Ok b ->
  forall pre m l post, b_out b = pre ++ (m, l) :: post -> no_gap pre m \/ exists n, may_skip period ops (clock_end t0 ops) n /\ q_seq m <= n + 1.
Proof. exact run_gap. Qed.
Print Assumptions C22_holds_back.

(** C22.  And not longer: if the delivery timer has been run whenever it was due, a message not passed yet was inserted less
    than a reorder period ago. *)
Theorem C22_released : forall high t0 period ops b, 0 <= high < U64MAX -> clock t0 ops -> Forall fits ops -> NoDup (map q_seq (inserted ops)) ->
  brun never ops (buf_init high period) = Ok b ->
  forall m p, Forall (fun e => snd e <> BClose) ops -> In m (inserted ops) -> ~ In m (map fst (b_out b)) -> b_period b = Some p ->
  (forall t, b_timer b = Some t -> clock_end t0 ops < t) -> clock_end t0 ops < q_time m + p.
Proof. exact run_hold. Qed.
Print Assumptions C22_released.

Definition C22_ops : list (Z * bop) :=
  [(0, BInsert [1] 1 1); (1, BInsert [5] 5 2); (2, BInsert [3] 3 1); (5, BTimer); (11, BTimer); (12, BInsert [2] 2 1); (13, BInsert [9] 9 0); (14, BFlush)].
Example C22_case : clock 0 C22_ops /\ (match brun never C22_ops (buf_init 7 (Some 10)) with Ok b => map (fun e => (q_seq (fst e), snd e)) (b_out b) | _ => [] end)
  = [(1, false); (3, false); (5, false); (2, true); (9, false)]
  /\ (match brun never (firstn 4 C22_ops) (buf_init 7 (Some 10)) with Ok b => (map (fun e => q_seq (fst e)) (b_out b), b_timer b) | _ => ([], None) end) = ([1], Some 11).
Proof. split; [cbn; lia|]. vm_compute. auto. Qed.

(** Where the statement fails.  (1) m_highestSeen is not initialised: with an unlucky value, flushing makes the buffer pass
    later messages across gaps although nothing beyond message 1 had been seen. *)
Theorem C22_uninitialised_refuted : exists high b, 0 <= high < U64MAX
  /\ brun never [(0, BInsert [1] 1 1); (1, BFlush); (2, BInsert [5] 5 1)] (buf_init high None) = Ok b /\ map (fun e => q_seq (fst e)) (b_out b) = [1; 5]
  /\ exists b', brun never [(0, BInsert [1] 1 1); (1, BFlush); (2, BInsert [5] 5 1)] (buf_init 0 None) = Ok b' /\ map (fun e => q_seq (fst e)) (b_out b') = [1].
Proof. exists 1000. eexists. split; [unfold U64MAX; lia|]. split; [vm_compute; reflexivity|]. split; [reflexivity|]. eexists. split; [vm_compute; reflexivity|reflexivity]. Qed.
Print Assumptions C22_uninitialised_refuted.
(** (2) If the callback closes the buffer while queued messages are being passed, an erased iterator is used. *)
Theorem C22_close_in_callback_refuted : exists closes ops, clock 0 ops /\ Forall fits ops /\ NoDup (map q_seq (inserted ops)) /\ brun closes ops (buf_init 0 None) = UB.
Proof.
  exists (fun m => q_seq m =? 2), [(0, BInsert [2] 2 1); (1, BInsert [3] 3 1); (2, BThrough 1)].
  split; [cbn; lia|]. split; [repeat constructor; cbn; unfold U64MAX; lia|]. split; [cbn; repeat constructor; cbn; lia|]. vm_compute. auto.
Qed.
Print Assumptions C22_close_in_callback_refuted.
(** (3) A clock that runs back, or a sequence number inserted twice with different fragment counts, makes the assertion in
    tryDeliver fail. *)
Theorem C22_assertion_refuted :
  (exists ops, Forall fits ops /\ NoDup (map q_seq (inserted ops)) /\ brun never ops (buf_init 0 (Some 5)) = UB)
  /\ exists ops, Forall fits ops /\ clock 0 ops /\ brun never ops (buf_init 0 None) = UB.
Proof.
  split.
  - exists [(10, BInsert [] 3 1); (10, BInsert [] 2 1); (1, BInsert [] 9 1); (10, BInsert [] 1 1)].
    split; [repeat constructor; cbn; unfold U64MAX; lia|]. split; [cbn; repeat constructor; cbn; lia|]. vm_compute. auto.
  - exists [(0, BInsert [] 5 1); (0, BInsert [] 3 9); (0, BInsert [] 3 1); (0, BInsert [] 4 1); (0, BInsert [] 8 1); (0, BThrough 2)].
    split; [repeat constructor; cbn; unfold U64MAX; lia|]. split; [cbn; lia|]. vm_compute. auto.
Qed.
Print Assumptions C22_assertion_refuted.
