(** C72: RateTracker.  Theorems only; each is followed by a concrete case. *)
From Coq Require Import QArith.
From Verif Require Import Base Rate RateSpec RateProofs.
Open Scope Q_scope.

(** C72: whatever is called, with any window period given to the constructor, there is no division by zero and no rate below zero. *)
Theorem C72_defined : forall w os, Forall (fun o => match o with RUpdate n _ => (0 <= n)%Z | _ => True end) os ->
  exists r, rt_run (rt_new w) os = Some r /\ forall now, exists q, get_rate r now = Some q /\ 0 <= q.
Proof.
  intros w os H. destruct (run_ok os (rt_new w)) as (r & H1 & _ & H2); [split; cbn; [lia|discriminate]|assumption|]. eauto.
Qed.
Print Assumptions C72_defined.
Example C72_defined_case : exists r, rt_run (rt_new 0) [RUpdate 5 1; RUpdate 7 2; RPeriod (-3); RUpdate 9 3; RReset; RUpdate 1 1] = Some r
  /\ get_rate r 1 = Some (1000000 # 1).
Proof. eexists. split; vm_compute; reflexivity. Qed.

(** C72: an update by [n] raises the rate at that moment by exactly [n] per window period, also when it starts a new window. *)
Theorem C72_update : forall w os r n t, 0 < w -> Forall (fun o => match o with RUpdate n _ => (0 <= n)%Z | _ => True end) os ->
  rt_run (rt_new w) os = Some r -> (0 <= n)%Z -> (match r_begin r with Some b => b <= t | None => True end) ->
  exists q r' q', get_rate r t = Some q /\ rt_update r n t = Some r' /\ get_rate r' t = Some q' /\ q' == q + inject_Z n / r_period r.
Proof.
  intros w os r n t Hw Ho Hr Hn Hb. destruct (run_ok os (rt_new w)) as (r' & H1 & H2 & _); [split; cbn; [lia|discriminate]|assumption|].
  rewrite H1 in Hr. injection Hr as ->. apply update_exact; try assumption. apply (run_period os (rt_new w)); assumption.
Qed.
Print Assumptions C72_update.
Example C72_update_case : exists r r', rt_run (rt_new 2) [RUpdate 10 0; RUpdate 4 1] = Some r /\ rt_update r 6 (5 # 2) = Some r'
  /\ option_map Qred (get_rate r (5 # 2)) = Some (21 # 4) /\ option_map Qred (get_rate r' (5 # 2)) = Some (33 # 4) /\ r_begin r' <> r_begin r.
Proof. do 2 eexists. repeat split; try (vm_compute; reflexivity). vm_compute. discriminate. Qed.

(** C72: between updates the rate never rises. *)
Theorem C72_falls : forall w os r t1 t2, 0 < w -> Forall (fun o => match o with RUpdate n _ => (0 <= n)%Z | _ => True end) os ->
  rt_run (rt_new w) os = Some r -> t1 <= t2 ->
  exists q1 q2, get_rate r t1 = Some q1 /\ get_rate r t2 = Some q2 /\ q2 <= q1.
Proof.
  intros w os r t1 t2 Hw Ho Hr Ht. destruct (run_ok os (rt_new w)) as (r' & H1 & H2 & _); [split; cbn; [lia|discriminate]|assumption|].
  rewrite H1 in Hr. injection Hr as ->. apply rate_falls; try assumption. apply (run_period os (rt_new w)); assumption.
Qed.
Print Assumptions C72_falls.
Example C72_falls_case : exists r, rt_run (rt_new 2) [RUpdate 10 0; RUpdate 4 1; RUpdate 6 (5 # 2)] = Some r
  /\ map (fun t => option_map Qred (get_rate r t)) [5 # 2; 7 # 2; 9 # 2; 5 # 1; 13 # 2] = [Some (33 # 4); Some (45 # 8); Some (3 # 1); Some (9 # 4); Some 0].
Proof. eexists. split; vm_compute; reflexivity. Qed.

(** C72: the rate never stands for more than was counted in the last three window periods, and after two without updates it is zero. *)
Theorem C72_bound : forall w t0 us now, 0 < w -> timely t0 us -> Forall (fun nt => (0 <= fst nt)%Z) us -> last_update t0 us <= now ->
  exists r q, upd_run (rt_new w) us = Some r /\ get_rate r now = Some q /\ 0 <= q /\ q * w <= inject_Z (since (now - w * 3) us)
    /\ (last_update t0 us + w * 2 <= now -> q == 0).
Proof. exact rate_bound. Qed.
Print Assumptions C72_bound.
Example C72_bound_case : timely 0 [(10%Z, 0); (4%Z, 1); (6%Z, 5 # 2)] /\ since (4 - 2 * 3) [(10%Z, 0); (4%Z, 1); (6%Z, 5 # 2)] = 20%Z
  /\ since (7 - 2 * 3) [(10%Z, 0); (4%Z, 1); (6%Z, 5 # 2)] = 6%Z.
Proof. repeat split; discriminate || reflexivity. Qed.

(** C72: for a source of [n] units every [p], with a window of [k] such times, from the second window on the rate is right,
    to within [n] per window period. *)
Theorem C72_regular : forall n p k j now, (0 <= n)%Z -> 0 < p -> (1 <= k)%Z -> (Z.of_nat j >= k)%Z ->
  inject_Z (Z.of_nat j) * p <= now -> now < inject_Z (Z.of_nat (S j)) * p ->
  exists r q, upd_run (rt_new (inject_Z k * p)) (regular n p (S j)) = Some r /\ get_rate r now = Some q
    /\ inject_Z n / p <= q /\ q <= inject_Z n / p + inject_Z n / (inject_Z k * p).
Proof. exact regular_rate. Qed.
Print Assumptions C72_regular.
Example C72_regular_case : exists r, upd_run (rt_new (inject_Z 4 * (1 # 4))) (regular 100 (1 # 4) 7) = Some r
  /\ option_map Qred (get_rate r (3 # 2)) = Some (500 # 1) /\ option_map Qred (get_rate r (34 # 20)) = Some (420 # 1).
Proof. eexists. repeat split; vm_compute; reflexivity. Qed.
