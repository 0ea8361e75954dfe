(** Lemmas about the retransmission timeout. *)
From Verif Require Import Base BaseFacts Rto RtoSpec.
From Coq Require Import QArith Qabs Lqa Lia.
Open Scope Q_scope.

Lemma qlt_spec : forall a b, (qlt a b = true /\ a < b) \/ (qlt a b = false /\ b <= a).
Proof.
  intros a b. unfold qlt. destruct (Qle_bool b a) eqn:E.
  - right. split; [reflexivity|]. now apply Qle_bool_iff.
  - left. split; [reflexivity|]. apply Qnot_le_lt. intros H. apply Qle_bool_iff in H. congruence.
Qed.
Lemma qmax_spec : forall a b, a <= qmax a b /\ b <= qmax a b /\ (qmax a b = a \/ qmax a b = b).
Proof. intros a b. unfold qmax. destruct (qlt_spec a b) as [[E H]|[E H]]; rewrite E; repeat split; auto; lra. Qed.
Lemma qmin_spec : forall a b, qmin a b <= a /\ qmin a b <= b /\ (qmin a b = a \/ qmin a b = b).
Proof. intros a b. unfold qmin. destruct (qlt_spec b a) as [[E H]|[E H]]; rewrite E; repeat split; auto; lra. Qed.

Section Rounding.
Variable rnd : Q -> Q.
Hypothesis R : rounding rnd.

Lemma rnd_pos : forall x, 0 <= x -> 0 <= rnd x.
Proof. intros x H. pose proof (rd_mono _ R _ _ H) as M. rewrite (rd_zero _ R) in M. exact M. Qed.
(** the error of every operation here is below 10^-6 *)
Lemma rnd_near : forall x, - (2000) <= x <= 2000 -> x - (1 # 100000000) <= rnd x <= x + (1 # 100000000).
Proof.
  intros x [L U]. pose proof (rd_error _ R x) as E.
  assert (A : Qabs x <= 2000) by (apply Qabs_Qle_condition; lra).
  assert (B : Qabs (rnd x - x) <= (1 # 100000000)) by lra.
  apply Qabs_Qle_condition in B. lra.
Qed.
Lemma rnd_rel : forall x, 1 # 4 <= x -> x <= 2000 -> x * (99999 # 100000) <= rnd x.
Proof. intros x L U. pose proof (rnd_near x ltac:(lra)). lra. Qed.
Lemma delack_near : (19 # 100) <= DELACK_ALARM_PERIOD rnd <= (21 # 100).
Proof. pose proof (rnd_near (1 # 5) ltac:(lra)). unfold DELACK_ALARM_PERIOD. lra. Qed.
Lemma backoff_near : (14142 # 10000) <= ERTO_BACKOFF_FACTOR rnd <= (14143 # 10000).
Proof. pose proof (rnd_near (1414214 # 1000000) ltac:(lra)). unfold ERTO_BACKOFF_FACTOR. lra. Qed.
Lemma period_near : 0 <= HEADER_TIMESTAMP_PERIOD rnd <= (400001 # 100000000).
Proof. pose proof (rnd_near (4 # 1000) ltac:(lra)). unfold HEADER_TIMESTAMP_PERIOD. lra. Qed.

(** What a measurement does *)
Lemma measured_facts : forall rtt s, 0 <= rtt <= (1311 # 10) -> (r_srtt s < 0 \/ 0 <= r_srtt s <= (1315 # 10)) -> 0 <= r_var s <= 132 ->
  let s' := measured rnd rtt s in
  0 <= r_srtt s' <= (1315 # 10) /\ 0 <= r_var s' <= 132
  /\ r_mrto s' == rnd (rnd (r_srtt s' + rnd ((4 # 1) * r_var s')) + DELACK_ALARM_PERIOD rnd)
  /\ r_erto s' = qmax (r_mrto s') MINIMUM_ERTO
  /\ 0 <= r_mrto s' <= 660
  /\ r_srtt s' + (4 # 1) * r_var s' + (1 # 5) - (1 # 1000000) <= r_mrto s' <= r_srtt s' + (4 # 1) * r_var s' + (1 # 5) + (1 # 1000000).
Proof.
  intros rtt s HR HS HV. cbv zeta. unfold measured.
  assert (W : forall srtt var, 0 <= srtt <= (1315 # 10) -> 0 <= var <= 132 ->
    0 <= rnd (rnd (srtt + rnd ((4 # 1) * var)) + DELACK_ALARM_PERIOD rnd) <= 660
    /\ srtt + (4 # 1) * var + (1 # 5) - (1 # 1000000) <= rnd (rnd (srtt + rnd ((4 # 1) * var)) + DELACK_ALARM_PERIOD rnd) <= srtt + (4 # 1) * var + (1 # 5) + (1 # 1000000)).
  { intros srtt var A B. pose proof (rnd_near (1 # 5) ltac:(lra)) as D. unfold DELACK_ALARM_PERIOD.
    pose proof (rnd_near ((4 # 1) * var) ltac:(lra)) as E1.
    pose proof (rnd_near (srtt + rnd ((4 # 1) * var)) ltac:(lra)) as E2.
    pose proof (rnd_near (rnd (srtt + rnd ((4 # 1) * var)) + rnd (1 # 5)) ltac:(lra)) as E3. lra. }
  destruct (Qle_bool 0 (r_srtt s)) eqn:E.
  - apply Qle_bool_iff in E. destruct HS as [HS|HS]; [lra|].
    pose proof (rnd_near (r_srtt s - rtt) ltac:(lra)) as D1.
    set (delta := if qlt (rnd (r_srtt s - rtt)) 0 then - rnd (r_srtt s - rtt) else rnd (r_srtt s - rtt)).
    assert (D : 0 <= delta <= (1316 # 10)).
    { unfold delta. destruct (qlt_spec (rnd (r_srtt s - rtt)) 0) as [[-> H]|[-> H]]; lra. }
    clearbody delta.
    pose proof (rnd_near ((7 # 1) * r_srtt s) ltac:(lra)) as A1.
    pose proof (rnd_pos ((7 # 1) * r_srtt s) ltac:(lra)) as P1.
    pose proof (rnd_near (rnd ((7 # 1) * r_srtt s) + rtt) ltac:(lra)) as A2.
    pose proof (rnd_pos (rnd ((7 # 1) * r_srtt s) + rtt) ltac:(lra)) as P2.
    assert (Q1 : rnd (rnd ((7 # 1) * r_srtt s) + rtt) / (8 # 1) == rnd (rnd ((7 # 1) * r_srtt s) + rtt) * (1 # 8)) by (unfold Qdiv; reflexivity).
    pose proof (rnd_near (rnd (rnd ((7 # 1) * r_srtt s) + rtt) / (8 # 1)) ltac:(lra)) as A3.
    pose proof (rnd_pos (rnd (rnd ((7 # 1) * r_srtt s) + rtt) / (8 # 1)) ltac:(lra)) as P3.
    pose proof (rnd_near ((3 # 1) * r_var s) ltac:(lra)) as B1.
    pose proof (rnd_pos ((3 # 1) * r_var s) ltac:(lra)) as O1.
    pose proof (rnd_near (rnd ((3 # 1) * r_var s) + delta) ltac:(lra)) as B2.
    pose proof (rnd_pos (rnd ((3 # 1) * r_var s) + delta) ltac:(lra)) as O2.
    assert (Q2 : rnd (rnd ((3 # 1) * r_var s) + delta) / (4 # 1) == rnd (rnd ((3 # 1) * r_var s) + delta) * (1 # 4)) by (unfold Qdiv; reflexivity).
    pose proof (rnd_near (rnd (rnd ((3 # 1) * r_var s) + delta) / (4 # 1)) ltac:(lra)) as B3.
    pose proof (rnd_pos (rnd (rnd ((3 # 1) * r_var s) + delta) / (4 # 1)) ltac:(lra)) as O3.
    cbn [with_rtt r_srtt r_var r_mrto r_erto].
    pose proof (W (rnd (rnd (rnd ((7 # 1) * r_srtt s) + rtt) / (8 # 1))) (rnd (rnd (rnd ((3 # 1) * r_var s) + delta) / (4 # 1))) ltac:(lra) ltac:(lra)) as [W1 W2].
    split; [lra|]. split; [lra|]. split; [reflexivity|]. split; [reflexivity|]. split; assumption.
  - cbn [with_rtt r_srtt r_var r_mrto r_erto].
    assert (Q1 : rtt / (2 # 1) == rtt * (1 # 2)) by (unfold Qdiv; reflexivity).
    pose proof (rnd_near (rtt / (2 # 1)) ltac:(lra)) as B.
    pose proof (rnd_pos (rtt / (2 # 1)) ltac:(lra)) as O.
    pose proof (W rtt (rnd (rtt / (2 # 1))) ltac:(lra) ltac:(lra)) as [W1 W2].
    split; [lra|]. split; [lra|]. split; [reflexivity|]. split; [reflexivity|]. split; assumption.
Qed.

(** The invariant *)
Record rto_ok (s : rto) : Prop := mkRtoOk {
  ro_srtt : r_srtt s < 0 \/ 0 <= r_srtt s <= (1315 # 10);
  ro_var : 0 <= r_var s <= 132;
  ro_mrto : 0 <= r_mrto s <= 660;
  ro_floor : r_mrto s <= r_erto s;
  ro_min : MINIMUM_ERTO <= r_erto s;
  ro_max : r_erto s <= 10 \/ r_erto s <= r_mrto s }.
Lemma init_ok : rto_ok rto_init.
Proof. constructor; cbn [rto_init r_srtt r_var r_mrto r_erto]; unfold INITIAL_MRTO, INITIAL_ERTO, MINIMUM_ERTO; lra. Qed.
Lemma rtt_range : forall t, (0 <= t < 32768)%Z -> 0 <= rnd (inject_Z t * HEADER_TIMESTAMP_PERIOD rnd) <= (1311 # 10).
Proof.
  intros t [L U]. pose proof period_near as [P1 P2].
  assert (A : 0 <= inject_Z t) by (change 0 with (inject_Z 0); rewrite <- Zle_Qle; exact L).
  assert (B : inject_Z t <= 32767) by (change 32767 with (inject_Z 32767); rewrite <- Zle_Qle; lia).
  assert (C : 0 <= inject_Z t * HEADER_TIMESTAMP_PERIOD rnd) by (apply Qmult_le_0_compat; assumption).
  assert (D : inject_Z t * HEADER_TIMESTAMP_PERIOD rnd <= 32767 * (400001 # 100000000)).
  { apply Qle_trans with (32767 * HEADER_TIMESTAMP_PERIOD rnd).
    - apply Qmult_le_compat_r; assumption.
    - lra. }
  pose proof (rnd_near (inject_Z t * HEADER_TIMESTAMP_PERIOD rnd) ltac:(lra)). pose proof (rnd_pos _ C). lra.
Qed.
Lemma check_base_same : forall rtt now s, let s' := check_base rtt now s in
  r_srtt s' = r_srtt s /\ r_var s' = r_var s /\ r_mrto s' = r_mrto s /\ r_erto s' = r_erto s /\ r_echo s' = r_echo s /\ r_alarm s' = r_alarm s /\ r_deadline s' = r_deadline s.
Proof.
  intros rtt now s. cbv zeta. unfold check_base.
  destruct (match r_meas s with [] => true | (_, o) :: _ => qlt RTT_HISTORY_THRESH (now - o) end); repeat split; reflexivity.
Qed.
Lemma header_ok : forall cur echo now s, rto_ok s -> rto_ok (header rnd cur echo now s).
Proof.
  intros cur echo now s H. unfold header.
  destruct ((0 <=? echo)%Z && negb (echo =? r_echo s)%Z); [|exact H].
  destruct (Z.ltb_spec (wrap16 (cur - echo)) 32768) as [L|_]; [|destruct H; constructor; assumption].
  assert (T : (0 <= wrap16 (cur - echo) < 32768)%Z) by (split; [unfold wrap16; apply Z.mod_pos_bound; reflexivity|exact L]).
  apply rtt_range in T. set (rtt := rnd (inject_Z (wrap16 (cur - echo)) * HEADER_TIMESTAMP_PERIOD rnd)) in *. clearbody rtt.
  pose proof (measured_facts rtt (with_echo s echo) T (ro_srtt _ H) (ro_var _ H)) as M. cbv zeta in M.
  set (s1 := measured rnd rtt (with_echo s echo)) in *. clearbody s1.
  destruct (check_base_same rtt now s1) as [A [B [C [D _]]]].
  destruct M as [M1 [M2 [_ [M4 [M5 _]]]]].
  pose proof (qmax_spec (r_mrto s1) MINIMUM_ERTO) as [X1 [X2 X3]]. rewrite <- M4 in X1, X2, X3.
  constructor; rewrite ?A, ?B, ?C, ?D; try assumption; [right; lra|].
  destruct X3 as [X3|X3]; rewrite X3; [right; lra|left; unfold MINIMUM_ERTO; lra].
Qed.
Lemma backed_off : forall s, rto_ok s ->
  let e := qmax (qmin (rnd (r_erto s * ERTO_BACKOFF_FACTOR rnd)) MAX_ERTO) (r_mrto s) in
  r_mrto s <= e /\ r_erto s <= e /\ (e <= 10 \/ e <= r_mrto s) /\ (10 <= e \/ (141 # 100) * r_erto s <= e).
Proof.
  intros s H. destruct H as [H1 H2 H3 H4 H5 H6]. cbv zeta. unfold MINIMUM_ERTO, MAX_ERTO in *.
  pose proof backoff_near as [B1 B2].
  assert (E0 : r_erto s <= 660) by (destruct H6; lra).
  assert (E1 : r_erto s * (14142 # 10000) <= r_erto s * ERTO_BACKOFF_FACTOR rnd) by (rewrite (Qmult_comm (r_erto s)), (Qmult_comm (r_erto s)); apply Qmult_le_compat_r; lra).
  assert (E2 : r_erto s * ERTO_BACKOFF_FACTOR rnd <= r_erto s * (14143 # 10000)) by (rewrite (Qmult_comm (r_erto s)), (Qmult_comm (r_erto s) (_ # _)); apply Qmult_le_compat_r; lra).
  pose proof (rnd_rel (r_erto s * ERTO_BACKOFF_FACTOR rnd) ltac:(lra) ltac:(lra)) as E3.
  pose proof (qmin_spec (rnd (r_erto s * ERTO_BACKOFF_FACTOR rnd)) (10 # 1)) as [M1 [M2 M3]].
  pose proof (qmax_spec (qmin (rnd (r_erto s * ERTO_BACKOFF_FACTOR rnd)) (10 # 1)) (r_mrto s)) as [X1 [X2 X3]].
  set (b := rnd (r_erto s * ERTO_BACKOFF_FACTOR rnd)) in *. set (e := qmax (qmin b (10 # 1)) (r_mrto s)) in *. clearbody e.
  split; [exact X2|].
  destruct M3 as [M3|M3]; rewrite M3 in *.
  - split; [lra|]. split; [destruct X3 as [X3|X3]; rewrite X3; [left|right]; lra|]. right. lra.
  - split; [destruct H6; lra|]. split; [destruct X3 as [X3|X3]; rewrite X3; [left|right]; lra|]. left. lra.
Qed.
Lemma timeout_ok : forall now op idle s, rto_ok s -> rto_ok (fst (timeout rnd now op idle s)).
Proof.
  intros now op idle s H. unfold timeout.
  destruct (qlt now (r_deadline s)); [destruct H; constructor; assumption|].
  destruct op; cbn [negb]; [|destruct H; constructor; assumption].
  destruct idle; [destruct H; constructor; assumption|].
  pose proof (backed_off s H) as B. cbv zeta in B.
  cbn [fst with_rtt with_base with_alarm r_mrto r_erto r_srtt r_var].
  set (e := qmax _ _) in *. clearbody e. destruct B as [B1 [B2 [B3 B4]]].
  constructor; cbn [with_rtt r_mrto r_erto r_srtt r_var with_base with_alarm]; try apply H; try assumption.
  pose proof (ro_min _ H). lra.
Qed.
Lemma step_ok : forall o s, rto_ok s -> rto_ok (tstep rnd o s).
Proof.
  intros [cur echo now|now|now op idle] s H; cbn [tstep].
  - now apply header_ok.
  - unfold reschedule. destruct (r_alarm s); destruct H; constructor; assumption.
  - destruct (r_alarm s) as [f|]; [|exact H]. destruct (Qle_bool f now); [now apply timeout_ok|exact H].
Qed.
Lemma run_ok : forall ops s, rto_ok s -> rto_ok (trun rnd ops s).
Proof. induction ops as [|o ops IH]; intros s H; cbn [trun fold_left]; [exact H|]. apply IH, step_ok, H. Qed.

(** Consecutive timeouts *)
Definition grows (e e' : Q) := e <= e' /\ (10 <= e' \/ (141 # 100) * e <= e').
Lemma fire_grows : forall now s f, rto_ok s -> r_alarm s = Some f -> f <= now -> r_deadline s <= now ->
  let s' := tstep rnd (TFire now true false) s in grows (r_erto s) (r_erto s') /\ r_mrto s' = r_mrto s /\ r_alarm s' = None.
Proof.
  intros now s f H A F D. cbv zeta. cbn [tstep]. rewrite A.
  rewrite (proj2 (Qle_bool_iff f now) F). unfold timeout.
  destruct (qlt_spec now (r_deadline s)) as [[_ L]|[-> _]]; [lra|].
  cbn [negb fst with_rtt with_base with_alarm r_mrto r_erto r_alarm].
  destruct (backed_off s H) as [_ [B2 [_ B4]]]. split; [split; assumption|]. auto.
Qed.

Notation timeouts := (timeouts rnd).
Lemma step_grows : forall o s, rto_ok s -> is_header o = false ->
  let s' := tstep rnd o s in r_mrto s' = r_mrto s /\ if took o s then grows (r_erto s) (r_erto s') else r_erto s' = r_erto s.
Proof.
  intros [cur echo now|now|now op idle] s H N; cbv zeta; [discriminate|..]; cbn [took].
  - cbn [tstep]. unfold reschedule. destruct (r_alarm s); split; reflexivity.
  - cbn [tstep]. destruct (r_alarm s) as [f|] eqn:A; [|destruct op, idle; split; reflexivity].
    destruct (Qle_bool f now) eqn:F; [|destruct op, idle; split; reflexivity].
    unfold timeout. unfold qlt. destruct (Qle_bool (r_deadline s) now) eqn:L; cbn [negb]; [|destruct op, idle; split; reflexivity].
    destruct op; cbn [negb andb]; [|split; reflexivity].
    destruct idle; [split; reflexivity|].
    cbn [fst with_rtt with_base with_alarm r_mrto r_erto]. split; [reflexivity|].
    destruct (backed_off s H) as [_ [B2 [_ B4]]]. split; assumption.
Qed.
Lemma qpow_pos : forall n, 1 <= qpow (141 # 100) n.
Proof. induction n as [|n IH]; cbn [qpow]; lra. Qed.
Lemma timeouts_grow : forall ops s, rto_ok s -> forallb (fun o => negb (is_header o)) ops = true ->
  let s' := trun rnd ops s in
  r_mrto s' = r_mrto s /\ r_erto s <= r_erto s' /\ (10 <= r_erto s' \/ qpow (141 # 100) (timeouts ops s) * r_erto s <= r_erto s').
Proof.
  induction ops as [|o ops IH]; intros s H N; cbv zeta.
  - cbn [trun fold_left timeouts qpow]. split; [reflexivity|]. split; [lra|]. right. lra.
  - cbn [forallb] in N. apply andb_prop in N. destruct N as [N1 N2]. apply negb_true_iff in N1.
    pose proof (step_grows o s H N1) as G. cbv zeta in G.
    pose proof (IH (tstep rnd o s) (step_ok o s H) N2) as I. cbv zeta in I.
    cbn [timeouts trun fold_left]. change (fold_left (fun s o => tstep rnd o s) ops (tstep rnd o s)) with (trun rnd ops (tstep rnd o s)).
    set (s1 := tstep rnd o s) in *. clearbody s1. set (n := timeouts ops s1) in *. clearbody n.
    destruct I as [I1 [I2 I3]]. destruct G as [G1 G2]. set (s2 := trun rnd ops s1) in *. clearbody s2.
    split; [congruence|].
    pose proof (qpow_pos n) as P. destruct (took o s).
    + destruct G2 as [G2 G3]. split; [lra|]. destruct I3 as [I3|I3]; [left; exact I3|].
      destruct G3 as [G3|G3]; [left; lra|right]. cbn [Nat.add qpow].
      assert (X : qpow (141 # 100) n * ((141 # 100) * r_erto s) <= qpow (141 # 100) n * r_erto s1)
        by (rewrite !(Qmult_comm (qpow _ n)); apply Qmult_le_compat_r; lra).
      lra.
    + rewrite G2 in *. split; [exact I2|]. exact I3.
Qed.
Lemma qpow_11 : forall n, (11 <= n)%nat -> 43 <= qpow (141 # 100) n.
Proof.
  intros n L. replace n with (11 + (n - 11))%nat by lia. generalize (n - 11)%nat. clear. intros n.
  pose proof (qpow_pos n) as P. cbn [Nat.add qpow]. lra.
Qed.

(** A new measurement *)
Lemma header_measures : forall cur echo now s, rto_ok s -> (0 <= echo)%Z -> echo <> r_echo s -> (wrap16 (cur - echo) < 32768)%Z ->
  let s' := header rnd cur echo now s in
  0 <= r_srtt s' /\ r_erto s' = qmax (r_mrto s') MINIMUM_ERTO /\ r_echo s' = echo
  /\ r_srtt s' + (4 # 1) * r_var s' + (1 # 5) - (1 # 1000000) <= r_mrto s' <= r_srtt s' + (4 # 1) * r_var s' + (1 # 5) + (1 # 1000000).
Proof.
  intros cur echo now s H E1 E2 L. cbv zeta. unfold header.
  rewrite (proj2 (Z.leb_le 0 echo) E1), (proj2 (Z.eqb_neq _ _) E2). cbn [andb negb].
  rewrite (proj2 (Z.ltb_lt _ _) L).
  assert (T : (0 <= wrap16 (cur - echo) < 32768)%Z) by (split; [unfold wrap16; apply Z.mod_pos_bound; reflexivity|exact L]).
  apply rtt_range in T. set (rtt := rnd (inject_Z (wrap16 (cur - echo)) * HEADER_TIMESTAMP_PERIOD rnd)) in *. clearbody rtt.
  pose proof (measured_facts rtt (with_echo s echo) T (ro_srtt _ H) (ro_var _ H)) as M. cbv zeta in M.
  assert (X : r_echo (measured rnd rtt (with_echo s echo)) = echo).
  { unfold measured. destruct (Qle_bool 0 (r_srtt (with_echo s echo))); reflexivity. }
  set (s1 := measured rnd rtt (with_echo s echo)) in *. clearbody s1.
  destruct (check_base_same rtt now s1) as [A [B [C [D [E _]]]]]. rewrite A, B, C, D, E. tauto.
Qed.
(** The smoothed values of the first two measurements *)
Lemma first_measure : forall cur echo now s, r_srtt s < 0 -> (0 <= echo)%Z -> echo <> r_echo s -> (wrap16 (cur - echo) < 32768)%Z ->
  r_srtt (header rnd cur echo now s) = rnd (inject_Z (wrap16 (cur - echo)) * HEADER_TIMESTAMP_PERIOD rnd).
Proof.
  intros cur echo now s H E1 E2 L. unfold header.
  rewrite (proj2 (Z.leb_le 0 echo) E1), (proj2 (Z.eqb_neq _ _) E2). cbn [andb negb].
  rewrite (proj2 (Z.ltb_lt _ _) L).
  set (rtt := rnd (inject_Z (wrap16 (cur - echo)) * HEADER_TIMESTAMP_PERIOD rnd)).
  destruct (check_base_same rtt now (measured rnd rtt (with_echo s echo))) as [-> _].
  unfold measured. change (r_srtt (with_echo s echo)) with (r_srtt s).
  destruct (Qle_bool 0 (r_srtt s)) eqn:E; [apply Qle_bool_iff in E; lra|reflexivity].
Qed.

(** The alarm *)
Lemma header_alarm : forall cur echo now s, r_alarm (header rnd cur echo now s) = r_alarm s /\ r_deadline (header rnd cur echo now s) = r_deadline s.
Proof.
  intros. unfold header. destruct (_ && _); [|auto]. destruct (_ <? _)%Z; [|auto].
  set (rtt := rnd (inject_Z _ * _)). clearbody rtt.
  destruct (check_base_same rtt now (measured rnd rtt (with_echo s echo))) as [_ [_ [_ [_ [_ [-> ->]]]]]].
  unfold measured. destruct (Qle_bool 0 (r_srtt (with_echo s echo))); auto.
Qed.
Definition alarm_ok (s : rto) := forall f, r_alarm s = Some f -> f <= r_deadline s.
Lemma step_alarm : forall o s, alarm_ok s -> alarm_ok (tstep rnd o s).
Proof.
  intros [cur echo now|now|now op idle] s H f; cbn [tstep].
  - destruct (header_alarm cur echo now s) as [-> ->]. apply H.
  - unfold reschedule. destruct (r_alarm s) as [g|] eqn:A; cbn [with_alarm r_alarm r_deadline]; intros E; injection E as <-; [|lra].
    specialize (H g A). destruct (qlt_spec (rnd (now + r_erto s)) (r_deadline s)) as [[-> L]|[-> L]]; lra.
  - destruct (r_alarm s) as [g|] eqn:A; [|rewrite A; discriminate].
    destruct (Qle_bool g now); [|intros E; apply H; exact E]. unfold timeout.
    destruct (qlt now (r_deadline s)); [cbn; intros E; injection E as <-; lra|].
    destruct op; [|discriminate]. destruct idle; discriminate.
Qed.
Lemma run_alarm : forall ops s, alarm_ok s -> alarm_ok (trun rnd ops s).
Proof. induction ops as [|o ops IH]; intros s H; [exact H|]. cbn [trun fold_left]. apply IH, step_alarm, H. Qed.
Lemma waiting : forall ops s d, (exists f, r_alarm s = Some f /\ f <= d) -> r_deadline s = d -> forallb no_schedule ops = true ->
  (exists f, r_alarm (trun rnd ops s) = Some f /\ f <= d /\ r_deadline (trun rnd ops s) = d /\ r_erto (trun rnd (filter is_header ops) s) = r_erto (trun rnd ops s))
  \/ exists now op idle, In (TFire now op idle) ops /\ d <= now.
Proof.
  induction ops as [|o ops IH]; intros s d A D N; cbn [trun fold_left].
  - left. destruct A as [f [A F]]. exists f. auto.
  - cbn [forallb] in N. apply andb_prop in N. destruct N as [N1 N2].
    change (fold_left (fun s o => tstep rnd o s) ops (tstep rnd o s)) with (trun rnd ops (tstep rnd o s)).
    destruct o as [cur echo now|now|now op idle]; [|discriminate|].
    + cbn [tstep filter is_header]. destruct (header_alarm cur echo now s) as [HA HD].
      destruct (IH (header rnd cur echo now s) d) as [I|[w [a [b [I J]]]]]; [rewrite HA; exact A|rewrite HD; exact D|exact N2|left; exact I|].
      right. exists w, a, b. cbn [In]. auto.
    + destruct (Qlt_le_dec now d) as [L|L].
      * destruct A as [f [A F]]. cbn [tstep filter is_header]. rewrite A. unfold timeout.
        destruct (Qle_bool f now) eqn:E.
        -- rewrite D. destruct (qlt_spec now d) as [[-> _]|[_ X]]; [|lra]. cbn [fst].
           destruct (IH (with_alarm s (Some d) d) d) as [[g [I1 [I2 [I3 I4]]]]|[w [a [b [I J]]]]]; [exists d; split; [reflexivity|lra]|reflexivity|exact N2| |right; exists w, a, b; cbn [In]; auto].
           left. exists g. split; [exact I1|]. split; [exact I2|]. split; [exact I3|]. rewrite <- I4.
           generalize (filter is_header ops) (fun o (H : In o (filter is_header ops)) => proj2 (proj1 (filter_In _ _ _) H)). clear.
           intros l Hl.
           assert (G : forall l s s', (forall o, In o l -> is_header o = true) -> r_mrto s = r_mrto s' -> r_erto s = r_erto s' -> r_srtt s = r_srtt s' -> r_var s = r_var s' -> r_echo s = r_echo s' ->
             r_erto (trun rnd l s) = r_erto (trun rnd l s')).
           { clear. induction l as [|o l IH]; intros s s' HL E1 E2 E3 E4 E5; [exact E2|]. cbn [trun fold_left].
             destruct o as [cur echo now|now|now op idle]; try (specialize (HL _ (or_introl eq_refl)); discriminate).
             assert (X : forall t u : rto, measured rnd = measured rnd -> True) by auto.
             apply IH; [intros o Ho; apply HL; now right|..]; cbn [tstep]; unfold header; rewrite E5;
             destruct ((0 <=? echo)%Z && negb (echo =? r_echo s')%Z); try assumption;
             (destruct (wrap16 (cur - echo) <? 32768)%Z; [|assumption || reflexivity]);
             set (rtt := rnd (inject_Z _ * _)); clearbody rtt;
             destruct (check_base_same rtt now (measured rnd rtt (with_echo s echo))) as [A1 [A2 [A3 [A4 [A5 _]]]]];
             destruct (check_base_same rtt now (measured rnd rtt (with_echo s' echo))) as [B1 [B2 [B3 [B4 [B5 _]]]]];
             rewrite ?A1, ?A2, ?A3, ?A4, ?A5, ?B1, ?B2, ?B3, ?B4, ?B5;
             unfold measured; cbn [with_echo r_srtt r_var]; rewrite ?E3, ?E4; destruct (Qle_bool 0 (r_srtt s')); reflexivity. }
           apply G; auto.
        -- destruct (IH s d) as [I|[w [a [b [I J]]]]]; [exists f; auto|exact D|exact N2|left; exact I|right; exists w, a, b; cbn [In]; auto].
      * right. exists now, op, idle. split; [now left|exact L].
Qed.
Lemma schedule_sets : forall now s, alarm_ok s -> let s' := tstep rnd (TSchedule now) s in
  (exists f, r_alarm s' = Some f /\ f <= rnd (now + r_erto s)) /\ r_deadline s' = rnd (now + r_erto s) /\ r_erto s' = r_erto s.
Proof.
  intros now s H. cbv zeta. cbn [tstep]. unfold reschedule.
  destruct (r_alarm s) as [g|] eqn:A; cbn [with_alarm r_alarm r_deadline r_erto].
  - split; [|auto]. eexists. split; [reflexivity|]. specialize (H g A).
    destruct (qlt_spec (rnd (now + r_erto s)) (r_deadline s)) as [[-> L]|[-> L]]; lra.
  - split; [|auto]. eexists. split; [reflexivity|]. lra.
Qed.
End Rounding.

(** The base round trip time *)
Lemma drop_old_app : forall now l, exists d, l = d ++ drop_old now l /\ (forall m o, In (m, o) d -> (180 # 1) < now - o).
Proof.
  intros now l. induction l as [|[m o] l [d [E D]]]; cbn [drop_old].
  - exists []. split; [reflexivity|]. intros m o [].
  - destruct (qlt_spec (RTT_HISTORY_THRESH * RTT_HISTORY_CAPACITY) (now - o)) as [[-> L]|[-> L]].
    + exists ((m, o) :: d). split; [cbn [app]; f_equal; exact E|]. unfold RTT_HISTORY_THRESH, RTT_HISTORY_CAPACITY in L.
      intros m' o' [X|X]; [injection X as <- <-; lra|eauto].
    + exists []. split; [reflexivity|]. intros m' o' [].
Qed.
Lemma drop_old_first : forall now l, match drop_old now l with [] => True | (m, o) :: _ => now - o <= (180 # 1) end.
Proof.
  intros now l. induction l as [|[m o] l IH]; cbn [drop_old]; [exact I|].
  destruct (qlt_spec (RTT_HISTORY_THRESH * RTT_HISTORY_CAPACITY) (now - o)) as [[-> L]|[-> L]]; [exact IH|].
  unfold RTT_HISTORY_THRESH, RTT_HISTORY_CAPACITY in L. lra.
Qed.
Definition step_min (b : option Q) (m : Q * Q) := Some (omin b (fst m)).
Lemma fold_min : forall l b, l <> [] \/ b <> None -> exists x, fold_left step_min l b = Some x
  /\ (forall m o, In (m, o) l -> x <= m) /\ (forall y, b = Some y -> x <= y) /\ ((exists m o, In (m, o) l /\ x = m) \/ b = Some x).
Proof.
  induction l as [|[m o] l IH]; intros b H; cbn [fold_left].
  - destruct b as [y|]; [|destruct H; congruence]. exists y. split; [reflexivity|]. split; [intros m o []|]. split; [|auto].
    intros z Z. injection Z as <-. lra.
  - destruct (IH (step_min b (m, o))) as [x [E [X1 [X2 X3]]]]; [right; discriminate|]. exists x. split; [exact E|].
    unfold step_min in X2, X3. cbn [fst] in X2, X3. specialize (X2 _ eq_refl).
    assert (B : x <= m /\ (forall y, b = Some y -> x <= y)).
    { unfold omin in X2. destruct b as [y|]; [|split; [exact X2|discriminate]].
      pose proof (qmin_spec y m). split; [lra|]. intros z Z. injection Z as <-. lra. }
    split. { intros m' o' [Y|Y]; [injection Y as <- <-; tauto|eauto]. }
    split; [tauto|].
    destruct X3 as [[m' [o' [Y1 Y2]]]|X3]; [left; exists m', o'; split; [now right|exact Y2]|].
    injection X3 as X3. unfold omin in X3. destruct b as [y|]; [|left; exists m, o; split; [now left|auto]].
    destruct (qmin_spec y m) as [_ [_ [Q|Q]]]; [right; congruence|left; exists m, o; split; [now left|congruence]].
Qed.

Fixpoint falling (l : list (Q * Q)) : Prop :=
  match l with [] => True | (_, o) :: r => (forall m' o', In (m', o') r -> o' <= o) /\ falling r end.
Lemma falling_app : forall a b, falling (a ++ b) -> falling a /\ forall m o m' o', In (m, o) a -> In (m', o') b -> o' <= o.
Proof.
  induction a as [|[m o] a IH]; intros b H; [split; [exact I|intros ? ? ? ? []]|].
  cbn [app falling] in H. destruct H as [H1 H2]. destruct (IH b H2) as [I1 I2]. split.
  - cbn [falling]. split; [|exact I1]. intros m' o' X. apply (H1 m'). apply in_or_app. now left.
  - intros m1 o1 m2 o2 [X|X] Y; [injection X as <- <-; apply (H1 m2); apply in_or_app; now right|eauto].
Qed.
(** What is kept for the measurements [h], the last of which was at [T] *)
Record base_ok (h : list (Q * Q)) (T : Q) (s : rto) : Prop := mkBaseOk {
  bo_none : h = [] -> r_meas s = [];
  bo_fall : falling (r_meas s);
  bo_time : forall r t, In (r, t) h -> t <= T;
  bo_from : forall m o, In (m, o) (r_meas s) -> exists r t, In (r, t) h /\ r == m /\ o <= t;
  bo_kept : forall r t, In (r, t) h -> (150 # 1) < T - t \/ exists m o, In (m, o) (r_meas s) /\ m <= r /\ o <= t /\ t - o <= (30 # 1);
  bo_span : match r_meas s with [] => True | (_, o) :: l => o <= T /\ T - o <= (30 # 1) /\ forall m' o', In (m', o') l -> o - o' <= (180 # 1) end;
  bo_base : h <> [] -> r_meas s <> [] /\ exists b, r_base s = Some b /\ (forall m o, In (m, o) (r_meas s) -> b <= m) /\ exists m o, In (m, o) (r_meas s) /\ b == m }.
Lemma measure_ok : forall h T s rtt now, base_ok h T s -> T <= now -> base_ok ((rtt, now) :: h) now (check_base rtt now s).
Proof.
  intros h T s rtt now H L. destruct H as [H1 H2 H3 H4 H5 H6 H7]. unfold check_base.
  assert (F : (r_meas s = [] \/ exists m o l, r_meas s = (m, o) :: l /\ (30 # 1) < now - o) /\ match r_meas s with [] => true | (_, o) :: _ => qlt RTT_HISTORY_THRESH (now - o) end = true
    \/ (exists m o l, r_meas s = (m, o) :: l /\ now - o <= (30 # 1)) /\ match r_meas s with [] => true | (_, o) :: _ => qlt RTT_HISTORY_THRESH (now - o) end = false).
  { destruct (r_meas s) as [|[m o] l]; [left; auto|].
    destruct (qlt_spec RTT_HISTORY_THRESH (now - o)) as [[-> X]|[-> X]]; unfold RTT_HISTORY_THRESH in X;
    [left; split; [right; exists m, o, l|]|right; split; [exists m, o, l|]]; auto. }
  destruct F as [[_ E]|[[m [o [l [E0 X]]]] E]]; rewrite E.
  - destruct (drop_old_app now (rev ((rtt, now) :: r_meas s))) as [d [D1 D2]].
    pose proof (drop_old_first now (rev ((rtt, now) :: r_meas s))) as D3.
    set (k := drop_old now (rev ((rtt, now) :: r_meas s))) in *. clearbody k.
    assert (A : (rtt, now) :: r_meas s = rev k ++ rev d) by (rewrite <- rev_app_distr, <- D1, rev_involutive; reflexivity).
    assert (F : falling ((rtt, now) :: r_meas s)).
    { cbn [falling]. split; [|exact H2]. intros m' o' Y. destruct (H4 _ _ Y) as [r [t [Y1 [_ Y3]]]]. specialize (H3 _ _ Y1). lra. }
    pose proof F as F'. rewrite A in F'. destruct (falling_app _ _ F') as [F1 F2].
    assert (K : exists l, rev k = (rtt, now) :: l).
    { destruct (rev k) as [|p l] eqn:RK.
      - cbn [app] in A. exfalso. assert (I : In (rtt, now) d) by (apply in_rev; rewrite <- A; now left).
        specialize (D2 _ _ I). lra.
      - cbn [app] in A. injection A as -> A. exists l. reflexivity. }
    destruct K as [l K].
    assert (I : forall p, In p (rev k) -> p = (rtt, now) \/ In p (r_meas s)).
    { intros p P. assert (Q : In p ((rtt, now) :: r_meas s)) by (rewrite A; apply in_or_app; now left). destruct Q as [Q|Q]; auto. }
    destruct (fold_min (rev k) None) as [b [B1 [B2 [_ B3]]]]; [left; rewrite K; discriminate|].
    destruct B3 as [B3|B3]; [|discriminate].
    assert (B4 : omin (Some b) rtt = b).
    { cbn [omin]. unfold qmin. destruct (qlt_spec rtt b) as [[-> Y]|[-> Y]]; [|reflexivity].
      specialize (B2 rtt now). rewrite K in B2. specialize (B2 (or_introl eq_refl)). lra. }
    change (fun (b : option Q) (m : Q * Q) => Some (omin b (fst m))) with step_min. rewrite B1.
    cbn [with_base]. constructor; cbn [r_meas r_base with_base].
    + discriminate.
    + exact F1.
    + intros r t [Y|Y]; [injection Y as <- <-; lra|specialize (H3 _ _ Y); lra].
    + intros m' o' Y. destruct (I _ Y) as [Y'|Y'].
      * injection Y' as -> ->. exists rtt, now. split; [now left|]. split; [reflexivity|lra].
      * destruct (H4 _ _ Y') as [r [t [Y1 Y2]]]. exists r, t. split; [now right|exact Y2].
    + intros r t [Y|Y].
      * injection Y as <- <-. right. exists rtt, now. rewrite K. split; [now left|]. repeat split; lra.
      * destruct (H5 _ _ Y) as [Z|[m' [o' [Z1 [Z2 [Z3 Z4]]]]]]; [left; lra|].
        assert (Q : In (m', o') (rev k ++ rev d)) by (rewrite <- A; now right).
        apply in_app_or in Q. destruct Q as [Q|Q]; [right; exists m', o'; auto|].
        left. apply in_rev in Q. specialize (D2 _ _ Q). lra.
    + rewrite K. split; [lra|]. split; [lra|]. intros m' o' Y.
      destruct k as [|[mk ok] k']; [discriminate K|].
      assert (Z : ok <= o').
      { cbn [rev] in F1. cbn [rev] in K. destruct (falling_app _ _ F1) as [_ Z].
        assert (P : In (m', o') (rev k' ++ [(mk, ok)])) by (rewrite K; now right).
        apply in_app_or in P. destruct P as [P|P]; [|destruct P as [P|[]]; injection P as <- <-; lra].
        apply (Z m' o' mk ok); [exact P|now left]. }
      lra.
    + intros _. split; [rewrite K; discriminate|]. exists b. split; [rewrite B4; reflexivity|]. split; [exact B2|].
      destruct B3 as [m' [o' [Y1 Y2]]]. exists m', o'. split; [exact Y1|]. rewrite Y2. reflexivity.
  - rewrite E0 in *. clear E E0.
    assert (HN : h <> []) by (intros Z; specialize (H1 Z); discriminate).
    destruct (H7 HN) as [_ [b [B1 [B2 [mb [ob [B3 B4]]]]]]]. rewrite B1. cbn [omin].
    pose proof (qmin_spec m rtt) as [M1 [M2 M3]]. pose proof (qmin_spec b rtt) as [N1 [N2 N3]].
    destruct H6 as [S1 [S2 S3]]. cbn [falling] in H2. destruct H2 as [F1 F2].
    constructor; cbn [r_meas r_base with_base].
    + discriminate.
    + cbn [falling]. split; assumption.
    + intros r t [Y|Y]; [injection Y as <- <-; lra|specialize (H3 _ _ Y); lra].
    + intros m' o' [Y|Y].
      * injection Y as <- <-. destruct M3 as [M3|M3].
        -- destruct (H4 m o (or_introl eq_refl)) as [r [t [Y1 [Y2 Y3]]]]. exists r, t. split; [now right|]. split; [rewrite M3; exact Y2|exact Y3].
        -- exists rtt, now. split; [now left|]. split; [rewrite M3; reflexivity|lra].
      * destruct (H4 m' o' (or_intror Y)) as [r [t [Y1 Y2]]]. exists r, t. split; [now right|exact Y2].
    + intros r t [Y|Y].
      * injection Y as <- <-. right. exists (qmin m rtt), o. split; [now left|]. repeat split; lra.
      * destruct (H5 _ _ Y) as [Z|[m' [o' [Z1 [Z2 [Z3 Z4]]]]]]; [left; lra|]. right.
        destruct Z1 as [Z1|Z1]; [injection Z1 as <- <-; exists (qmin m rtt), o; split; [now left|repeat split; lra]|].
        exists m', o'. split; [now right|auto].
    + split; [lra|]. split; [lra|]. exact S3.
    + intros _. split; [discriminate|]. exists (qmin b rtt). split; [reflexivity|]. split.
      * intros m' o' [Y|Y]; [injection Y as <- <-|specialize (B2 m' o' (or_intror Y)); lra].
        specialize (B2 m o (or_introl eq_refl)). destruct M3 as [M3|M3]; rewrite M3; lra.
      * pose proof (B2 m o (or_introl eq_refl)) as BM.
        destruct N3 as [N3|N3].
        -- destruct B3 as [B3|B3]; [injection B3 as <- <-; exists (qmin m rtt), o; split; [now left|]|exists mb, ob; split; [now right|rewrite N3; exact B4]].
           destruct M3 as [M3|M3]; rewrite N3, M3 in *; lra.
        -- exists (qmin m rtt), o. split; [now left|]. destruct M3 as [M3|M3]; rewrite N3, M3 in *; lra.
Qed.
Lemma base_run : forall ops rest h T s, base_ok h T s -> forward T (ops ++ rest) ->
  exists T', base_ok (fold_left (fun h o => match o with BMeasure rtt now => (rtt, now) :: h | BReset => [] end) ops h) T' (brun ops s) /\ forward T' rest.
Proof.
  induction ops as [|o ops IH]; intros rest h T s H F; cbn [fold_left brun].
  - exists T. split; assumption.
  - change (fold_left (fun s o => bstep o s) ops (bstep o s)) with (brun ops (bstep o s)). cbn [forward app] in F.
    destruct o as [rtt now|]; cbn [bstep].
    + destruct F as [F1 F2]. exact (IH rest ((rtt, now) :: h) now _ (measure_ok h T s rtt now H F1) F2).
    + apply (IH rest [] T (with_base s [] (r_base s))); [|exact F].
      constructor; cbn [r_meas with_base]; auto; try (intros; contradiction).
      all: try exact I.
Qed.
Lemma base_start : forall T, base_ok [] T rto_init.
Proof. intros T. constructor; cbn; auto; intros; contradiction. Qed.
