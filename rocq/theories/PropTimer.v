(** C23, C24: timers. *)
From Verif Require Import Base BaseFacts Timer TimerSpec TimerProofs.
Open Scope Z_scope.

Lemma reached_ti : forall s, reached s -> TI s.
Proof. intros s (l & P & E). exact (hrun_ti l ts_init s ti_init P E). Qed.

(** An action of timer 0 that moves timer 1 earlier and cancels timer 2; the others do nothing. *)
Definition meddle (id : nat) (s : tstate) : list top := if Nat.eqb id 0 then [TSet 1 3; TCancel 2; TSchedule 4 0 true 50] else [].
Definition setup : list hop := [HCall (TSchedule 5 0 true 10); HCall (TSchedule 9 0 true 20); HCall (TSchedule 6 0 true 30); HCall (TSchedule 2 10 true 40); HFire meddle 30 100].
Lemma meddle_polite : polite meddle.
Proof. intros id s. unfold meddle. destruct (Nat.eqb_spec id 0); cbn; intros H; repeat (destruct H as [H|H]; [try discriminate|]); try contradiction. Qed.

(** Nothing undefined happens, whatever the calls and whatever the actions do, if no action puts its own timer into the list. *)
Theorem C23_safe : forall l, Forall polite_hop l -> hrun ts_init l <> UB.
Proof. intros l P. exact (hrun_safe l ts_init ti_init P). Qed.
Print Assumptions C23_safe.
Example C23_safe_ex : Forall polite_hop setup /\ match hrun ts_init setup with Ok s => (5 <=? length (ts_timers s))%nat | _ => false end = true.
Proof. split; [repeat constructor; exact meddle_polite|vm_compute; reflexivity]. Qed.

(** In any history every action called was due, at the time its timer was given last before the call, and its timer had not been
    cancelled before: rescheduling and cancelling by other actions count at once. *)
Theorem C23_punctual : forall s, reached s -> punctual (ts_log s).
Proof. intros s R. exact (ti_log s (reached_ti s R)). Qed.
Print Assumptions C23_punctual.
Example C23_punctual_ex : match hrun ts_init setup with Ok s => map (fun e => match e with EvRun i d _ => (i, d) | _ => (99%nat, 0) end) (filter (fun e => match e with EvRun _ _ _ => true | _ => false end) (rev (ts_log s))) | _ => [] end
  = [(3%nat, 2); (0%nat, 5); (1%nat, 3); (4%nat, 4)].
Proof. vm_compute. reflexivity. Qed.

(** In a pass actions are called in the order of their due times, except for timers that entered the list, or were moved in it,
    after a later one had been called. *)
Theorem C23_in_order : forall s act now fuel s', reached s -> polite act -> fire_due act now fuel s = Ok s' -> exists p, ts_log s' = p ++ ts_log s /\ in_order p.
Proof.
  intros s act now fuel s' R P E. destruct (pass_all act now fuel s (reached_ti s R) P) as [E1|(s1 & p & E1 & _ & L & O & _)]; rewrite E in E1; [discriminate|]. injection E1 as <-. exists p. split; assumption.
Qed.
Print Assumptions C23_in_order.

(** After a pass no timer in the list is due, ... *)
Theorem C23_none_left : forall s act now fuel s', reached s -> polite act -> fire_due act now fuel s = Ok s' -> forall id, In id (ts_set s') -> now < t_when (tget s' id).
Proof.
  intros s act now fuel s' R P E. destruct (pass_all act now fuel s (reached_ti s R) P) as [E1|(s1 & p & E1 & _ & _ & _ & D)]; rewrite E in E1; [discriminate|]. injection E1 as <-. exact D.
Qed.
Print Assumptions C23_none_left.
(** ... and if the list was never cleared, no timer that was scheduled and not cancelled or removed since is due. *)
Theorem C23_none_forgotten : forall l act now fuel s s', Forall polite_hop l -> Forall uncleared l -> hrun ts_init l = Ok s -> polite act -> uncleared (HFire act now fuel) -> fire_due act now fuel s = Ok s' ->
  forall id, (id < length (ts_timers s'))%nat -> t_canceled (tget s' id) = false -> t_list (tget s' id) = true -> now < t_when (tget s' id).
Proof.
  intros l act now fuel s s' P U E PA UA EF. pose proof (hrun_ti l ts_init s ti_init P E) as T. apply (filed_pass act now fuel s s' T PA UA); [|exact EF].
  apply (filed_run l ts_init s ti_init P U E). intros x X. cbn in X. lia.
Qed.
Print Assumptions C23_none_forgotten.
(** A pass ends if its actions give no timer a time that is due already. *)
Theorem C23_ends : forall s act now, reached s -> polite act -> later now act -> exists fuel s', fire_due act now fuel s = Ok s'.
Proof.
  intros s act now R P L. pose proof (reached_ti s R) as T. exists (S (Z.to_nat (backlog now s))). pose proof (pass_ends act now s L P T) as NR.
  destruct (pass_all act now (S (Z.to_nat (backlog now s))) s T P) as [E|(s' & p & E & _)]; [contradiction|]. exists s'. exact E.
Qed.
Print Assumptions C23_ends.
Example C23_pass_ex : exists s, reached s /\ polite meddle /\ match fire_due meddle 30 100 s with Ok s' => (length (ts_log s) <? length (ts_log s'))%nat | _ => false end = true /\ later 1 meddle.
Proof.
  destruct (hrun ts_init (firstn 4 setup)) as [s| |] eqn:E; try (vm_compute in E; discriminate). exists s. split; [exists (firstn 4 setup); split; [repeat constructor|exact E]|]. split; [exact meddle_polite|].
  split; [vm_compute in E; injection E as <-; vm_compute; reflexivity|]. intros id q o H. unfold meddle in H. destruct (Nat.eqb id 0); cbn in H; repeat (destruct H as [<-|H]; [cbn; lia|]); destruct H.
Qed.

(** The time to sleep is never longer than until the next timer is due, ... *)
Theorem C23_sleep : forall s now maxi, reached s -> how_long s now maxi <= maxi /\ forall id, In id (ts_set s) -> how_long s now maxi <= t_when (tget s id) - now.
Proof. intros s now maxi R. destruct (how_long_spec s now maxi (reached_ti s R)) as (A & B & _). split; assumption. Qed.
Print Assumptions C23_sleep.
(** ... and a call that makes a timer due earlier than all that were in the list tells the sleeper. *)
Theorem C23_wake : forall s o s', reached s -> tstep s o = Ok s' -> forall id, In id (ts_set s') -> (forall y, In y (ts_set s) -> t_when (tget s' id) < t_when (tget s y)) -> exists new, ts_log s' = new ++ ts_log s /\ In EvWake new.
Proof. intros s o s' R E. destruct R as (l & P & EL). exact (wake_step s o s' (hrun_ti l ts_init s ti_init P EL) (hrun_running l ts_init s ti_init P EL eq_refl) E). Qed.
Print Assumptions C23_wake.
Example C23_wake_ex : match hrun ts_init (firstn 4 setup) with
  | Ok s => match tstep s (TSet 1 1) with Ok s' => (t_when (tget s' 1) =? 1) && (how_long s 0 100 =? 2) && (how_long s' 0 100 =? 1) && match ts_log s' with EvWake :: _ => true | _ => false end | _ => false end
  | _ => false end = true.
Proof. vm_compute. reflexivity. Qed.

(** Not so for a recurring timer whose action puts it back by hand: its sort key is changed in the set. *)
Theorem C23_self_add_refuted : ~ (forall l, hrun ts_init l <> UB).
Proof. intros H. apply (H [HCall (TSchedule 5 10 true 1); HFire (fun id _ => [TAdd id]) 7 10]). vm_compute. reflexivity. Qed.
Print Assumptions C23_self_add_refuted.

(** A recurring timer fired while its action leaves it alone: its next due time is later than the last by a whole number of
    intervals; with catch-up it is not before [now] and at most one interval after it, otherwise exactly one interval later; and it
    is back in the list. *)
Theorem C24_next : forall s act now id r, reached s -> polite act -> (forall q o, In o (act id q) -> ignores id o) -> ts_set s = id :: r -> t_when (tget s id) <= now -> recurs (tget s id) = true ->
  exists s', basic_fire act now (with_set s r) id = Ok s' /\
    t_when (tget s id) < t_when (tget s' id) /\ (t_when (tget s' id) - t_when (tget s id)) mod t_recur (tget s id) = 0 /\
    (if t_catchup (tget s id) then now <= t_when (tget s' id) <= now + t_recur (tget s id) else t_when (tget s' id) = t_when (tget s id) + t_recur (tget s id)) /\
    (t_list (tget s id) = true -> In id (ts_set s')).
Proof.
  intros s act now id r R P IG ES W RC. destruct (fire_recur act now s id r (reached_ti s R) P IG ES W RC) as (s' & E & N & I). exists s'. split; [exact E|]. rewrite N.
  assert (Q : 0 < t_recur (tget s id)) by (unfold recurs in RC; apply andb_true_iff in RC; apply Z.gtb_lt, RC). destruct (next_when_spec now (tget s id) Q W) as (A & B & C). split; [exact A|]. split; [exact B|].
  split; [|exact I]. destruct (t_catchup (tget s id)); [lia|exact C].
Qed.
Print Assumptions C24_next.
Example C24_next_ex : match hrun ts_init (firstn 4 setup) with
  | Ok s => match ts_set s with id :: r => Nat.eqb id 3 && recurs (tget s id) && match basic_fire meddle 30 (with_set s r) id with Ok s' => t_when (tget s' 3) =? 32 | _ => false end | [] => false end
  | _ => false end = true.
Proof. vm_compute. reflexivity. Qed.

(** Over any history in which nobody sets its time or interval, a recurring timer keeps its phase and never goes back. *)
Theorem C24_phase : forall l1 l2 s s' id, Forall polite_hop l1 -> hrun ts_init l1 = Ok s -> Forall polite_hop l2 -> Forall (spares_hop id) l2 -> hrun s l2 = Ok s' ->
  (id < length (ts_timers s))%nat -> 0 < t_recur (tget s id) ->
  t_recur (tget s' id) = t_recur (tget s id) /\ (t_when (tget s' id) - t_when (tget s id)) mod t_recur (tget s id) = 0 /\ t_when (tget s id) <= t_when (tget s' id).
Proof.
  intros l1 l2 s s' id P1 E1 P2 S2 E2 K I. destruct (phased_run id (t_when (tget s id)) (t_recur (tget s id)) l2 s s' I (hrun_ti l1 ts_init s ti_init P1 E1) P2 S2 E2) as (_ & A & B & C).
  - split; [exact K|]. split; [reflexivity|]. rewrite Z.sub_diag. split; [apply Z.mod_0_l; lia|lia].
  - split; [exact A|]. split; [exact B|exact C].
Qed.
Print Assumptions C24_phase.
Example C24_phase_ex : match hrun ts_init (firstn 4 setup) with
  | Ok s => match hrun s [HFire meddle 30 100; HFire meddle 55 100; HFire meddle 62 100] with Ok s' => (t_when (tget s 3) =? 2) && (t_when (tget s' 3) =? 72) && (t_recur (tget s 3) =? 10) | _ => false end
  | _ => false end = true.
Proof. vm_compute. reflexivity. Qed.

(** The claim that with catch-up the next due time is after [now] does not hold: a timer late by exactly a number of intervals is
    due again at once. *)
Theorem C24_after_now_refuted : ~ (forall s id r, reached s -> ts_set s = id :: r -> t_catchup (tget s id) = true -> recurs (tget s id) = true ->
  forall now, t_when (tget s id) <= now -> exists s', basic_fire (fun _ _ => []) now (with_set s r) id = Ok s' /\ now < t_when (tget s' id)).
Proof.
  intros H. specialize (H (match hrun ts_init [HCall (TSchedule 5 10 true 1)] with Ok s => s | _ => ts_init end) 0%nat []).
  destruct H with (now := 25) as (s' & E & L); [exists [HCall (TSchedule 5 10 true 1)]; split; [repeat constructor|reflexivity]|reflexivity|reflexivity|reflexivity|cbn; lia|].
  vm_compute in E. injection E as <-. vm_compute in L. discriminate.
Qed.
Print Assumptions C24_after_now_refuted.
