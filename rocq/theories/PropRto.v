(** C29 and C55: the retransmission timeout and the base round trip time. *)
From Verif Require Import Base Rto RtoSpec RtoProofs.
From Coq Require Import QArith Lqa Lia.
Open Scope Q_scope.

(** Exact arithmetic is a rounding. *)
Lemma exact_rounding : rounding (fun x => x).
Proof.
  constructor; intros; try reflexivity; try assumption. setoid_replace (x - x) with 0 by ring. change (Qabs.Qabs 0) with 0. pose proof (Qabs.Qabs_nonneg x). lra.
Qed.

(** C29: in every state the timeout is at least the measured timeout and the minimum, and it exceeds the maximum only if it
    is the measured timeout. *)
Theorem C29_floor : forall rnd ops, rounding rnd -> let s := trun rnd ops rto_init in
  r_mrto s <= r_erto s /\ 1 # 4 <= r_erto s /\ (r_erto s <= 10 \/ r_erto s == r_mrto s) /\ 0 <= r_mrto s <= 660.
Proof.
  intros rnd ops R. cbv zeta. destruct (run_ok rnd R ops _ init_ok) as [_ _ A B C D]. split; [exact B|]. split; [exact C|]. split; [|exact A].
  destruct D as [D|D]; [left; exact D|right; lra].
Qed.
Print Assumptions C29_floor.
(** C29: with a measured timeout within the maximum, the timeout is within the maximum. *)
Theorem C29_max : forall rnd ops, rounding rnd -> let s := trun rnd ops rto_init in r_mrto s <= 10 -> r_erto s <= 10.
Proof. intros rnd ops R. cbv zeta. intros H. destruct (run_ok rnd R ops _ init_ok) as [_ _ A B C D]. destruct D; lra. Qed.
Print Assumptions C29_max.
Example C29_max_example : let s := trun (fun x => x) [THeader 1000 975 5; TSchedule 5; TFire 6 true false; TSchedule 6; TFire 7 true false] rto_init in
  Qeq_bool (r_mrto s) (1 # 2) && Qeq_bool (r_erto s) ((1 # 2) * (1414214 # 1000000) * (1414214 # 1000000)) = true.
Proof. vm_compute. reflexivity. Qed.
(** C29: the maximum does not hold in general: a round trip time of ten seconds puts the timeout above it, with any rounding. *)
Theorem C29_max_refuted : forall rnd, rounding rnd -> exists ops, MAX_ERTO < r_erto (trun rnd ops rto_init).
Proof.
  intros rnd R. exists [THeader 2600 100 0]. cbn [trun fold_left tstep].
  destruct (header_measures rnd R 2600 100 0 rto_init init_ok) as [A [B [_ [C _]]]]; [lia|cbn; lia|reflexivity|].
  pose proof (first_measure rnd 2600 100 0 rto_init ltac:(cbn; lra) ltac:(lia) ltac:(cbn; lia) ltac:(reflexivity)) as D.
  pose proof (run_ok rnd R [THeader 2600 100 0] _ init_ok) as K. cbn [trun fold_left tstep] in K. pose proof (ro_var _ K) as V. pose proof (ro_floor _ K) as W.
  set (s := header rnd 2600 100 0 rto_init) in *. clearbody s.
  change (wrap16 (2600 - 100)) with 2500%Z in D. unfold HEADER_TIMESTAMP_PERIOD in D.
  pose proof (rnd_near rnd R (4 # 1000) ltac:(lra)) as E1. unfold MAX_ERTO. set (p := rnd (4 # 1000)) in *. clearbody p.
  change (inject_Z 2500) with (2500 # 1) in D.
  pose proof (rnd_near rnd R ((2500 # 1) * p) ltac:(lra)) as E2. rewrite <- D in E2. lra.
Qed.
Print Assumptions C29_max_refuted.
(** C29: while nothing new is measured the timeout never decreases, and each timeout with something outstanding multiplies
    it by at least 1.41, until it is at least 10; this is so after 11 timeouts in a row. *)
Theorem C29_grow : forall rnd before ops, rounding rnd -> forallb (fun o => negb (is_header o)) ops = true ->
  let s := trun rnd before rto_init in let s' := trun rnd ops s in
  r_mrto s' = r_mrto s /\ r_erto s <= r_erto s'
  /\ (10 <= r_erto s' \/ qpow (141 # 100) (timeouts rnd ops s) * r_erto s <= r_erto s')
  /\ ((11 <= timeouts rnd ops s)%nat -> 10 <= r_erto s').
Proof.
  intros rnd before ops R N. cbv zeta. set (s := trun rnd before rto_init).
  assert (K : rto_ok s) by (apply run_ok; [exact R|exact init_ok]). clearbody s.
  destruct (timeouts_grow rnd R ops s K N) as [A [B C]]. split; [exact A|]. split; [exact B|]. split; [exact C|].
  intros L. destruct C as [C|C]; [exact C|]. pose proof (qpow_11 _ L) as P. pose proof (ro_min _ K) as M. unfold MINIMUM_ERTO in M.
  assert (X : 43 * r_erto s <= qpow (141 # 100) (timeouts rnd ops s) * r_erto s) by (apply Qmult_le_compat_r; lra). lra.
Qed.
Print Assumptions C29_grow.
Example C29_grow_example :
  let ops := concat (map (fun n => [TSchedule (inject_Z (20 * n)); TFire (inject_Z (20 * n + 19)) true false]) [1; 2; 3; 4; 5; 6; 7; 8; 9; 10; 11; 12]%Z) in
  forallb (fun o => negb (is_header o)) ops && (timeouts (fun x => x) ops (trun (fun x => x) [THeader 1000 999 5] rto_init) =? 12)%nat = true.
Proof. vm_compute. reflexivity. Qed.
(** C29: a new measurement makes the timeout the measured timeout (or the minimum), however often it was backed off; the
    measured timeout is srtt + 4 rttvar + 0.2 up to a microsecond. *)
Theorem C29_measured : forall rnd ops cur echo now, rounding rnd -> let s := trun rnd ops rto_init in let s' := trun rnd (ops ++ [THeader cur echo now]) rto_init in
  (0 <= echo)%Z -> echo <> r_echo s -> ((cur - echo) mod 65536 < 32768)%Z ->
  (r_erto s' = r_mrto s' /\ 1 # 4 <= r_mrto s' \/ r_erto s' = 1 # 4 /\ r_mrto s' <= 1 # 4)
  /\ 0 <= r_srtt s' /\ r_srtt s' + (4 # 1) * r_var s' + (1 # 5) - (1 # 1000000) <= r_mrto s' <= r_srtt s' + (4 # 1) * r_var s' + (1 # 5) + (1 # 1000000).
Proof.
  intros rnd ops cur echo now R. cbv zeta. intros E1 E2 L. unfold trun in *. rewrite fold_left_app. cbn [fold_left tstep].
  fold (trun rnd ops rto_init) in *. set (s := trun rnd ops rto_init) in *.
  assert (K : rto_ok s) by (apply run_ok; [exact R|exact init_ok]). clearbody s.
  destruct (header_measures rnd R cur echo now s K E1 E2 L) as [A [B [_ C]]].
  split; [|split; [exact A|exact C]]. unfold MINIMUM_ERTO in B.
  unfold qmax in B. destruct (qlt_spec (r_mrto (header rnd cur echo now s)) (1 # 4)) as [[X Y]|[X Y]]; rewrite X in B; [right|left]; split; try exact B; lra.
Qed.
Print Assumptions C29_measured.
Example C29_measured_example : let s := trun (fun x => x) [THeader 1000 975 5; TSchedule 5; TFire 6 true false; THeader 1100 1075 7] rto_init in
  Qeq_bool (r_mrto s) ((1 # 10) + 4 * (375 # 10000) + (1 # 5)) && Qeq_bool (r_erto s) (r_mrto s) = true.
Proof. vm_compute. reflexivity. Qed.
(** C29: after the alarm was (re)scheduled at [now] there is an alarm that is never late: until the timer fires at or after
    now + erto (erto as it was then), an alarm is set, to fire no later than that; timers firing before have no effect on the timeout. *)
Theorem C29_alarm : forall rnd before now ops, forallb no_schedule ops = true ->
  let s := trun rnd before rto_init in let d := rnd (now + r_erto s) in let s1 := trun rnd (before ++ [TSchedule now]) rto_init in let s' := trun rnd (before ++ [TSchedule now] ++ ops) rto_init in
  (exists f, r_alarm s' = Some f /\ f <= d /\ r_deadline s' = d /\ r_erto s' = r_erto (trun rnd (filter is_header ops) s1))
  \/ exists t op idle, In (TFire t op idle) ops /\ d <= t.
Proof.
  intros rnd before now ops N. cbv zeta. unfold trun. rewrite !fold_left_app. cbn [fold_left].
  fold (trun rnd before rto_init). set (s := trun rnd before rto_init).
  assert (K : alarm_ok s) by (apply run_alarm; intros f E; discriminate). clearbody s.
  destruct (schedule_sets rnd now s K) as [A [B C]].
  destruct (waiting rnd ops (tstep rnd (TSchedule now) s) (rnd (now + r_erto s)) A B N) as [[f [W1 [W2 [W3 W4]]]]|W]; [left|right; exact W].
  exists f. split; [exact W1|]. split; [exact W2|]. split; [exact W3|]. symmetry. exact W4.
Qed.
Print Assumptions C29_alarm.
Example C29_alarm_example : let s := trun (fun x => x) ([] ++ [TSchedule 5] ++ [THeader 1000 975 6; TFire 7 true false]) rto_init in
  forallb no_schedule [THeader 1000 975 6; TFire 7 true false] && (match r_alarm s with Some f => Qeq_bool f 8 | None => false end) = true.
Proof. vm_compute. reflexivity. Qed.

(** C55: after a measurement, the base round trip time is at most every round trip time measured in the last 150 seconds
    (since the measurements were last reset), and it is one of those of the last 210 seconds. *)
Theorem C55_base : forall start ops rtt now, forward start (ops ++ [BMeasure rtt now]) ->
  let h := measures (ops ++ [BMeasure rtt now]) in
  exists b, r_base (brun (ops ++ [BMeasure rtt now]) rto_init) = Some b
  /\ (forall r t, In (r, t) h -> now - t <= 150 -> b <= r)
  /\ exists r t, In (r, t) h /\ b == r /\ now - t <= 210.
Proof.
  intros start ops rtt now F. cbv zeta. unfold measures, brun. rewrite !fold_left_app. cbn [fold_left bstep].
  destruct (base_run ops [BMeasure rtt now] [] start rto_init (base_start start) F) as [T [B [L _]]].
  pose proof (measure_ok _ T _ rtt now B L) as M. fold (brun ops rto_init). set (s := check_base rtt now (brun ops rto_init)) in *. clearbody s.
  destruct M as [M1 M2 M3 M4 M5 M6 M7]. destruct M7 as [N [b [B1 [B2 [m [o [B3 B4]]]]]]]; [discriminate|].
  exists b. split; [exact B1|]. split.
  - intros r t I D. destruct (M5 r t I) as [X|[m' [o' [X1 [X2 _]]]]]; [lra|]. specialize (B2 _ _ X1). lra.
  - destruct (M4 m o B3) as [r [t [I [E G]]]]. exists r, t. split; [exact I|]. split; [lra|].
    destruct (r_meas s) as [|[m0 o0] l]; [contradiction|]. destruct M6 as [S1 [S2 S3]].
    destruct B3 as [B3|B3]; [injection B3 as <- <-; lra|]. specialize (S3 _ _ B3). lra.
Qed.
Print Assumptions C55_base.
Example C55_base_example : let ops := [BMeasure (1 # 10) 0; BMeasure (2 # 10) 40; BMeasure (3 # 10) 80] ++ [BMeasure (4 # 10) 200] in
  forward 0 ops /\ match r_base (brun ops rto_init) with Some b => Qeq_bool b (2 # 10) | None => false end = true.
Proof. split; [cbn; repeat split; lra|vm_compute; reflexivity]. Qed.
