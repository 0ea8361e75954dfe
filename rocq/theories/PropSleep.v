(** C87: how long the run loops sleep, and when timers fire.  src/SelectRunLoop.cpp, src/EPollRunLoop.cpp, src/RunLoop.cpp, src/Timer.cpp. *)
From Verif Require Import Base Sleep SleepSpec SleepProofs SleepMore.
From Coq Require Import Lia.

(** ** The time given to the kernel *)
(** In every state, with minSleep not negative: the timeval given to select is a proper one and within half a microsecond of what is needed (till the first timer, at most 5 s, nothing if a task waits, at least minSleep);
    epoll_wait is given not less than needed (to 0.1 ns) and at most a millisecond more, never 0 if something is needed, and 0 if nothing is. *)
Theorem C87_wait : forall c s, 0 < c_u c -> 0 <= c_min c ->
  (0 <= fst (timeval c s) /\ 0 <= snd (timeval c s) < 1000000 /\
   need c s - 5000 * c_u c < fst (timeval c s) * sec c + snd (timeval c s) * usec c <= need c s + 5000 * c_u c) /\
  (need c s - c_u c < millis c s * msec c <= need c s + msec c /\ (0 < need c s -> 1 <= millis c s) /\ (need c s = 0 -> millis c s = 0)).
Proof.
  intros c s U M. assert (N : 0 <= need c s) by (unfold need; lia). destruct (timeval_bounds c s U N) as (A & A' & A''). destruct (millis_bounds c s U N) as (B & B' & B''). auto.
Qed.
Print Assumptions C87_wait.
Definition ex_cfg (k : kind) : cfg := mkC k 1 0 None 20000.
Example C87_wait_case : let s := begin (ex_cfg Select) 0 [Sched 15000000000; Spend 30000000] in
  need (ex_cfg Select) s = 14970000000 /\ timeval (ex_cfg Select) s = (1, 497000) /\ millis (ex_cfg EPoll) s = 1497.
Proof. vm_compute. auto. Qed.
(** A timer still to come does not always make select sleep: less than half a microsecond before it, the loop spins. *)
Theorem C87_spin_refuted : exists pre, let s := begin (ex_cfg Select) 0 pre in 0 < need (ex_cfg Select) s /\ timeval (ex_cfg Select) s = (0, 0).
Proof. exists [Sched 4000]. vm_compute. auto. Qed.
Print Assumptions C87_spin_refuted.

(** ** Timers *)
(** If in each cycle what the application does takes at most [W], a timer that fires was scheduled and has neither fired nor been cancelled; it does not fire early; and it fires at most W + minSleep + the
    kernel's inexactness after it is due (or was scheduled, or run was called, whichever is last). *)
Theorem C87_on_time : forall c t0 pre ys W l1 id at_ l2, cfg_ok c -> 0 <= W -> Forall (fun y => spent y <= W) ys ->
  s_log (run c t0 pre ys) = l1 ++ Fired id at_ :: l2 ->
  exists due added, live l1 id due /\ In (Added id due added) l1 /\ due <= at_ <= Z.max (t0 + spend pre) (Z.max due added) + late c W.
Proof. intros c t0 pre ys W l1 id at_ l2 C W0 F E. destruct (ALL_run c t0 pre ys W C F W0) as [H _]. rewrite <- t_run_eq. exact (v_hist _ _ _ _ H l1 _ l2 E). Qed.
Print Assumptions C87_on_time.
Definition ex_run : list cyc :=
  [mkY 10000000 false [[Spend 700; SchedRel 20000000; DoLater]; [Cancel 2]] [[Spend 30]] [] []; mkY 99999999999 false [] [] [[SchedRel 0; Spend 5]] [Sched 1]; mkY 99999999999 false [] [] [] []].
Example C87_on_time_case : s_log (run (ex_cfg EPoll) 0 [Sched 25000000; Sched 90000000; Spend 100] ex_run) =
  [Added 1 25000000 0; Added 2 90000000 0; Woke 10000100; Added 3 30000100 10000800; Gone 2; Woke 30020830; Fired 1 30020830; Added 4 30020830 30020830; Fired 3 30020830; Fired 4 30020830; Added 5 1 30020835; Woke 30040835; Fired 5 30040835]
  /\ Forall (fun y => spent y <= 730) ex_run /\ cfg_ok (ex_cfg EPoll).
Proof. split; [vm_compute; reflexivity|]. split; [|unfold cfg_ok; cbn; lia]. unfold ex_run, spent; repeat constructor; cbn; lia. Qed.
(** The timers of the loop are those that are scheduled, have not fired and are not cancelled; and after a cycle that does not end the run none of them is due, but for those scheduled in onEveryCycle. *)
Theorem C87_all_fire : forall c t0 pre ys, cfg_ok c ->
  (forall id due, In (mkT id due) (s_timers (run c t0 pre ys)) <-> live (s_log (run c t0 pre ys)) id due) /\
  (forall y, let s' := run c t0 pre (ys ++ [y]) in y_every y = [] -> s_over s' = false -> forall id due, live (s_log s') id due -> s_cache s' < due).
Proof.
  intros c t0 pre ys C. split.
  - destruct (spent_max ys) as (W & W0 & F). destruct (ALL_run c t0 pre ys W C F W0) as [H _]. apply (v_in _ _ _ _ H).
  - intros y s' Y O id due L. destruct (spent_max (y :: ys)) as (W & W0 & F). inversion F as [|? ? Sp F']; subst. destruct (ALL_run c t0 pre ys W C F' W0) as [_ H]. unfold s', run in *. rewrite fold_left_app in *. cbn [fold_left] in *.
    set (s := fold_left (cycle c) ys (begin c t0 pre)) in *. clearbody s. destruct (s_over s) eqn:Os; [rewrite cycle_eq, Os in O; congruence|].
    destruct (TOP_cycle _ W c s y C W0 Sp Os (H eq_refl)) as [P Q]. destruct (Q O) as [_ N]. apply (v_in _ _ _ _ P) in L. exact (none_all _ _ _ _ P (N Y) _ L).
Qed.
Print Assumptions C87_all_fire.
Example C87_all_fire_case : let s := run (ex_cfg EPoll) 0 [Sched 25000000; Sched 90000000; Spend 100] (firstn 1 ex_run) in s_over s = false /\ y_every (nth 0 ex_run (mkY 0 true [] [] [] [])) = [] /\
  s_timers s = [mkT 1 25000000; mkT 3 30000100] /\ s_cache s = 10000100.
Proof. vm_compute. auto. Qed.
(** The loop does not see the time its callbacks take when it works out how long to sleep (getCurrentTime is cached until it sleeps): here nothing is done from 3 s on, the kernel is never late, and the timer due at 4 s
    fires at 7 s.  So [W] cannot be left out of C87_on_time. *)
Theorem C87_stale_refuted : exists pre ys, let c := mkC Select 1 0 None 0 in
  s_log (run c 0 pre ys) = [Added 1 (4 * sec c) 0; Woke 0; Woke (7 * sec c); Fired 1 (7 * sec c)] /\ Forall (fun y => spent y = 3 * sec c \/ spent y = 0) ys /\ s_clock (run c 0 pre (firstn 1 ys)) = 3 * sec c.
Proof.
  exists [Sched 40000000000], [mkY 0 false [[Spend 30000000000]] [] [] []; mkY 99999999999 false [] [] [] []]. split; [vm_compute; reflexivity|]. split; [|vm_compute; reflexivity].
  constructor; [left; reflexivity|]. constructor; [right; reflexivity|constructor].
Qed.
Print Assumptions C87_stale_refuted.

(** ** The end of run *)
(** Unless the stop timer is cleared, run does not go on after a wake later than runInterval; by C87_on_time that wake is at most [late c W] after it. *)
Theorem C87_stops_partial : forall c t0 pre ys d, cfg_ok c -> c_int c = Some d -> let s := run c t0 pre ys in let t1 := t0 + spend pre in
  In (Added 0 (t1 + d) t1) (s_log s) /\ (s_over s = false -> ~ In (Gone 0) (s_log s) -> s_cache s <= t1 + Z.max 0 d) /\ (forall a, In (Fired 0 a) (s_log s) -> s_over s = true).
Proof.
  intros c t0 pre ys d C D s t1. destruct (spent_max ys) as (W & W0 & F). destruct (ALL_run c t0 pre ys W C F W0) as [H T]. fold s in H, T. destruct (OV_run c t0 pre ys) as [SI0 O]. fold s in SI0, O.
  pose proof (TOP_begin t0 pre c W C W0) as (_ & _ & A). rewrite D, t_run_eq in A. fold t1 in A. apply (run_grows c t0 pre ys) in A. fold s in A. rewrite t_run_eq in *. fold t1 in H, T.
  split; [exact A|]. split.
  - intros Ov G. destruct (T Ov) as [H0 _].
    assert (L : In (mkT 0 (t1 + d)) (s_timers s)).
    { apply (v_in _ _ _ _ H0). split; [eauto|]. split; auto. intros a X. apply SI0 in X. rewrite (O Ov) in X. discriminate. }
    pose proof (v_late _ _ _ _ H0 _ _ _ L A). lia.
  - intros a X. apply SI0 in X. destruct (s_over s) eqn:Ov; auto. rewrite (O eq_refl) in X. discriminate.
Qed.
Print Assumptions C87_stops_partial.
Example C87_stops_case : let c := mkC EPoll 1 0 (Some 20000000) 0 in let y := mkY 10000000 false [] [] [] [] in
  (let s := run c 5 [] [y] in s_over s = false /\ s_cache s = 10000005 /\ s_log s = [Added 0 20000005 5; Woke 10000005]) /\ s_log (run c 5 [] [y; y; y]) = [Added 0 20000005 5; Woke 10000005; Woke 20000005; Fired 0 20000005].
Proof. vm_compute. auto. Qed.
(** clear() drops the stop timer too: run then goes on past runInterval, as long as cycles come. *)
Theorem C87_clear_refuted : exists c pre y y', cfg_ok c /\ c_int c = Some (sec c) /\ forall n, s_over (run c 0 pre (y :: repeat y' n)) = false /\ s_cache (run c 0 pre (y :: repeat y' n)) = Z.of_nat n * sec c.
Proof.
  exists (mkC Select 1 0 (Some 10000000000) 0), [], (mkY 0 false [[Clear]] [] [] []), (mkY 10000000000 false [] [] [] []). split; [unfold cfg_ok; cbn; lia|]. split; [reflexivity|]. intro n.
  unfold run. cbn [fold_left]. set (c := mkC _ _ _ _ _).
  assert (G : forall n s, s_timers s = [] -> s_laters s = O -> s_stop s = false -> s_over s = false -> s_clock s = s_cache s ->
    let s' := fold_left (cycle c) (repeat (mkY 10000000000 false [] [] [] []) n) s in s_over s' = false /\ s_cache s' = s_cache s + Z.of_nat n * sec c).
  { clear n. induction n as [|n IH]; intros s T L St O K; [cbn; split; auto; lia|]. cbn [repeat fold_left]. set (y := mkY _ _ _ _ _ _).
    assert (TO : timeout c s = 50000000000) by (unfold timeout, timeval, sleep_time, how_long; rewrite T, L; reflexivity).
    assert (E : cycle c s y = with_over (woken c s y) false).
    { rewrite cycle_eq, O, TO. cbv zeta. change (y_err y || _) with false. unfold y; cbn [y_cbs y_laters y_fire y_every]. unfold run_cbs. cbn [fold_left run_laters fire].
      unfold woken. fields. rewrite St, L. fields. rewrite St, T. cbn [fire_rest]. fields. rewrite St. unfold do_acts. cbn [fold_left]. fields. rewrite St. reflexivity. }
    rewrite E. destruct (IH (with_over (woken c s y) false)) as [A B]; try (unfold woken; fields; auto; fail). split; [exact A|].
    etransitivity; [exact B|]. unfold woken. fields. rewrite TO, K. change (waits c 50000000000 (y_wait y)) with (sec c). lia. }
  destruct (G n (cycle c (begin c 0 []) (mkY 0 false [[Clear]] [] [] []))) as [A B]; try reflexivity. auto.
Qed.
Print Assumptions C87_clear_refuted.
(** With a negative minSleep, a timer that is overdue ends the run of the select loop, unfired; the epoll loop waits without limit. *)
Theorem C87_negative_refuted : exists pre,
  (let s := run (mkC Select 1 (-20000) None 0) 0 pre [mkY 0 false [] [] [] []] in s_over s = true /\ s_stop s = false /\ s_timers s = [mkT 1 (-20000000)]) /\
  (forall w, 0 <= w -> s_log (run (mkC EPoll 1 (-20000000) None 0) 0 pre [mkY w false [] [] [] []]) = [Added 1 (-20000000) 0; Woke w; Fired 1 w]).
Proof.
  exists [Sched (-20000000)]. split; [vm_compute; auto|]. intros w W. unfold run. cbn [fold_left]. rewrite cycle_eq. set (b := begin _ _ _).
  assert (E : woken (mkC EPoll 1 (-20000000) None 0) b (mkY w false [] [] [] []) = mk w w [mkT 1 (-20000000)] 2 O false false [Added 1 (-20000000) 0; Woke w]).
  { unfold woken. change (timeout (mkC EPoll 1 (-20000000) None 0) b) with (-20000000). unfold waits. cbn [y_wait c_kind]. change (-20000000 <? 0) with true. cbv iota. rewrite Z.max_r by lia. reflexivity. }
  rewrite E. change (s_over b) with false. cbv zeta. cbn [y_err y_cbs y_laters y_fire y_every c_kind orb]. unfold run_cbs. cbn [fold_left run_laters s_stop s_laters fire s_timers fire_rest t_due s_cache].
  assert (L : -20000000 <=? w = true) by (apply Z.leb_le; lia). rewrite L. reflexivity.
Qed.
Print Assumptions C87_negative_refuted.
