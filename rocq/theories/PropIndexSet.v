(** C08: IndexSet behaves as a mathematical set of integers. *)
From Verif Require Import Base IndexSet IndexSetSpec IndexSetProofs.
From Coq Require Import Sorted.

(** After any history of operations the set contains exactly what the mathematical set contains, and its ranges are
    sorted, non-empty, disjoint and non-adjacent. *)
Theorem C08_indexset_is_set : forall e, is_args_ok e ->
  canonical (is_eval e) /\ forall x, is_contains (is_eval e) x = true <-> is_denote e x.
Proof. exact eval_contains. Qed.
Print Assumptions C08_indexset_is_set.

(** Hence the stored ranges (what extentsDo visits) depend only on the set, not on how it was built. *)
Theorem C08_indexset_canonical : forall e e', is_args_ok e -> is_args_ok e' ->
  (forall x, is_denote e x <-> is_denote e' x) -> is_eval e = is_eval e'.
Proof. exact eval_unique. Qed.
Print Assumptions C08_indexset_canonical.

(** empty(), lowestIndex() and highestIndex(). *)
Theorem C08_indexset_extremes : forall e, is_args_ok e ->
  (is_empty (is_eval e) = true <-> (forall x, ~ is_denote e x))
  /\ (is_empty (is_eval e) = true -> is_lowest (is_eval e) = 0 /\ is_highest (is_eval e) = 0)
  /\ (is_empty (is_eval e) = false ->
        is_denote e (is_lowest (is_eval e)) /\ (forall x, is_denote e x -> is_lowest (is_eval e) <= x)
        /\ is_denote e (is_highest (is_eval e)) /\ (forall x, is_denote e x -> x <= is_highest (is_eval e))).
Proof. exact eval_extremes. Qed.
Print Assumptions C08_indexset_extremes.

(** size() is the number of members (clamped to UINTMAX_MAX) and indicesDo visits each member once in increasing order,
    provided the largest uintmax_t is not a member. *)
Theorem C08_indexset_size_iteration : forall e, is_args_ok e ->
  exists l, NoDup l /\ StronglySorted Z.lt l /\ (forall x, In x l <-> is_denote e x)
    /\ is_size (is_eval e) = Z.min (zlen l) U64MAX
    /\ (~ is_denote e U64MAX -> forall fuel, (length l < fuel)%nat -> indices_do fuel (is_eval e) = Ok l).
Proof. exact eval_size. Qed.
Print Assumptions C08_indexset_size_iteration.

(** Finding: when the largest uintmax_t is a member, indicesDo never finishes (no number of iterations suffices). *)
Theorem C08_indices_do_refuted : forall e, is_args_ok e -> is_denote e U64MAX -> forall fuel, indices_do fuel (is_eval e) = UB.
Proof. exact eval_indices_stuck. Qed.
Print Assumptions C08_indices_do_refuted.

Example C08_example :
  let e := ERemove (EAddSet (EAdd (EAdd EEmpty 3 5) 6 10) (EAdd (EAdd EEmpty 20 30) 12 12)) 8 22 in
  is_args_ok e /\ is_eval e = [(3, 7); (23, 30)] /\ is_size (is_eval e) = 13
  /\ is_eval (EAdd (EAdd (EAdd EEmpty 0 3) 5 U64MAX) 4 4) = [(0, U64MAX)]
  /\ is_eval (ERemove (EAdd EEmpty 0 U64MAX) 0 U64MAX) = [].
Proof. vm_compute. intuition congruence. Qed.

Example C08_refuted_example : is_args_ok (EAdd EEmpty U64MAX U64MAX) /\ is_denote (EAdd EEmpty U64MAX U64MAX) U64MAX.
Proof. vm_compute. intuition congruence. Qed.
