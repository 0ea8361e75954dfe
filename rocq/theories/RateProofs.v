(** Proofs about RateTracker. *)
From Coq Require Import QArith Qfield Lqa.
From Verif Require Import Base Rate RateSpec.
Open Scope Q_scope.

Lemma qle_t a b : Qle_bool a b = true <-> a <= b.
Proof. apply Qle_bool_iff. Qed.
Lemma qle_f a b : Qle_bool a b = false <-> b < a.
Proof.
  split; intros H.
  - apply Qnot_le_lt. intros Hc. apply qle_t in Hc. congruence.
  - destruct (Qle_bool a b) eqn:E; [|reflexivity]. apply qle_t in E. exfalso. apply (Qlt_not_le _ _ H E).
Qed.
Lemma rt_div_pos a b : 0 < b -> rt_div a b = Some (a / b).
Proof.
  intros H. unfold rt_div. destruct (Qeq_bool b 0) eqn:E; [|reflexivity]. apply Qeq_bool_iff in E. rewrite E in H. exfalso. apply (Qlt_irrefl 0 H).
Qed.
Ltac qb := repeat match goal with
  | H : Qle_bool _ _ = true |- _ => apply qle_t in H
  | H : Qle_bool _ _ = false |- _ => apply qle_f in H
  | H : negb _ = true |- _ => apply negb_true_iff in H
  | H : negb _ = false |- _ => apply negb_false_iff in H
  end.

(** The three branches, as equations. *)
Definition rate_at (w : Q) (c : Z) (p delta : Q) : Q :=
  if Qle_bool (w * 2) delta then 0
  else if Qle_bool w delta then inject_Z c * ((w * 2 - delta) / w) / w
  else inject_Z c / w + p * (1 - delta / w).

Definition rt_ok (r : rt) : Prop := (0 <= r_count r)%Z /\ 0 <= r_prev r.

Lemma get_rate_defined r now : rt_ok r -> exists q, get_rate r now = Some q /\ 0 <= q
  /\ match r_begin r with
     | None => q = 0
     | Some b => q == rate_at (r_period r) (r_count r) (r_prev r) (if Qle_bool 0 (now - b) then now - b else 0)
     end.
Proof.
  intros (Hc & Hp). unfold get_rate. destruct (r_begin r) as [b|]; [|exists 0; repeat split; lra].
  set (delta := if Qle_bool 0 (now - b) then now - b else 0).
  assert (Hd : 0 <= delta). { unfold delta. destruct (Qle_bool 0 (now - b)) eqn:E; qb; lra. }
  unfold rate_at.
  destruct (Qle_bool (r_period r * 2) delta) eqn:E1; [exists 0; repeat split; lra|]. qb.
  assert (Hw : 0 < r_period r) by lra.
  assert (Hc' : 0 <= inject_Z (r_count r)). { change 0 with (inject_Z 0). rewrite <- Zle_Qle. exact Hc. }
  assert (Hcw : 0 <= inject_Z (r_count r) / r_period r). { apply Qle_shift_div_l; [assumption|]. lra. }
  destruct (Qle_bool (r_period r) delta) eqn:E2; qb.
  - rewrite rt_div_pos by assumption. rewrite rt_div_pos by assumption. eexists. split; [reflexivity|]. split; [|reflexivity].
    apply Qle_shift_div_l; [assumption|]. rewrite Qmult_0_l. apply Qmult_le_0_compat; [assumption|].
    apply Qle_shift_div_l; [assumption|]. lra.
  - assert (Hdw : delta / r_period r <= 1) by (apply Qle_shift_div_r; [assumption|lra]).
    assert (Hpp : 0 <= r_prev r * (1 - delta / r_period r)) by (apply Qmult_le_0_compat; lra).
    destruct (negb (Qle_bool (r_prev r) 0)) eqn:E3; qb; rewrite ?rt_div_pos by assumption.
    + eexists. split; [reflexivity|]. split; [lra|reflexivity].
    + eexists. split; [reflexivity|]. split; [lra|]. assert (Hz : r_prev r == 0) by lra. rewrite Hz. ring.
Qed.

Lemma rt_step_ok r o : (match o with RUpdate n _ => (0 <= n)%Z | _ => True end) -> rt_ok r -> exists r', rt_step r o = Some r' /\ rt_ok r'.
Proof.
  intros Hn H. pose proof H as (Hc & Hp). destruct o; cbn [rt_step].
  - unfold rt_update. destruct (match r_begin r with Some _ => _ | None => _ end); [eauto|].
    destruct (match r_begin r with Some _ => _ | None => _ end).
    + destruct (get_rate_defined r t H) as (q & -> & Hq & _). eexists. split; [reflexivity|]. split; cbn; [lia|assumption].
    + eexists. split; [reflexivity|]. split; cbn; [lia|assumption].
  - eexists. split; [reflexivity|]. split; assumption.
  - eexists. split; [reflexivity|]. split; cbn; [lia|lra].
Qed.

(** What an update does to the rate at that moment. *)
Lemma rate_at_0 w c p d : 0 < w -> d == 0 -> rate_at w c p d == inject_Z c / w + p.
Proof.
  intros Hw Hd. unfold rate_at. assert (Hn : ~ w == 0) by lra.
  destruct (Qle_bool (w * 2) d) eqn:E1; qb; [lra|]. destruct (Qle_bool w d) eqn:E2; qb; [lra|]. rewrite Hd. field. assumption.
Qed.
Lemma update_exact r n t : rt_ok r -> (0 <= n)%Z -> 0 < r_period r -> (match r_begin r with Some b => b <= t | None => True end) ->
  exists q r' q', get_rate r t = Some q /\ rt_update r n t = Some r' /\ get_rate r' t = Some q' /\ q' == q + inject_Z n / r_period r.
Proof.
  intros H Hn0 Hw Hb. destruct (get_rate_defined r t H) as (q & Hq & Hq0 & Hqe).
  assert (Hn : ~ r_period r == 0) by lra.
  unfold rt_update.
  assert (He : (match r_begin r with Some b => negb (Qle_bool 0 (t - b)) | None => false end) = false).
  { destruct (r_begin r) as [b|]; [|reflexivity]. apply negb_false_iff. apply qle_t. lra. }
  rewrite He. rewrite Hq. destruct H as (Hc & Hp).
  destruct (match r_begin r with Some b => Qle_bool (r_period r) (t - b) | None => true end) eqn:Ef.
  - set (r' := mkRt (r_period r) (Some t) (0 + n) q).
    destruct (get_rate_defined r' t) as (q' & Hq' & _ & Hqe'); [split; cbn; [lia|assumption]|].
    exists q, r', q'. repeat split; auto. cbn [r_begin r' r_period r_count r_prev] in Hqe'. rewrite Hqe'.
    rewrite rate_at_0; [cbn [Z.add]; ring|assumption|]. destruct (Qle_bool 0 (t - t)) eqn:E; qb; lra.
  - destruct (r_begin r) as [b|] eqn:Eb; [|discriminate].
    set (r' := mkRt (r_period r) (Some b) (r_count r + n) (r_prev r)).
    destruct (get_rate_defined r' t) as (q' & Hq' & _ & Hqe'); [split; cbn; [lia|assumption]|].
    exists q, r', q'. repeat split; auto. cbn [r_begin r' r_period r_count r_prev] in Hqe'. rewrite Hqe', Hqe.
    assert (Hd : (if Qle_bool 0 (t - b) then t - b else 0) = t - b) by (destruct (Qle_bool 0 (t - b)) eqn:E; [reflexivity|qb; lra]).
    rewrite Hd. unfold rate_at. qb.
    destruct (Qle_bool (r_period r * 2) (t - b)) eqn:E1; qb; [lra|]. destruct (Qle_bool (r_period r) (t - b)) eqn:E2; qb; [lra|].
    rewrite inject_Z_plus. field. assumption.
Qed.

(** Bounds. *)

Lemma since_app a x y : since a (x ++ y) = (since a x + since a y)%Z.
Proof. induction x as [|(n, t) r IH]; [reflexivity|]. cbn. rewrite IH. lia. Qed.
Lemma since_mono a b us : a <= b -> Forall (fun nt => (0 <= fst nt)%Z) us -> (since b us <= since a us)%Z.
Proof.
  intros Hab. induction us as [|(n, t) r IH]; intros H; [cbn; lia|]. inversion H; subst. specialize (IH ltac:(assumption)). cbn in *.
  destruct (Qle_bool t b) eqn:E1, (Qle_bool t a) eqn:E2; qb; try lia. lra.
Qed.
Lemma since_nonneg a us : Forall (fun nt => (0 <= fst nt)%Z) us -> (0 <= since a us)%Z.
Proof. induction us as [|(n, t) r IH]; intros H; [cbn; lia|]. inversion H; subst. specialize (IH ltac:(assumption)). cbn in *. destruct (Qle_bool t a); lia. Qed.

(* b: begin of the window, everything counted is at or after it; what the previous rate stands for is at most two windows older *)
Record RI (w t0 : Q) (us : list (Z * Q)) (t : Q) (r : rt) : Prop := mkRI {
  ri_ok : rt_ok r;
  ri_w : r_period r = w;
  ri_pos : Forall (fun nt => (0 <= fst nt)%Z) us;
  ri_none : r_begin r = None -> us = [];
  ri_le : forall b, r_begin r = Some b -> b <= t;
  ri_cnt : forall b a, r_begin r = Some b -> a < b ->
     inject_Z (r_count r) <= inject_Z (since a us)
     /\ (a + w * 2 <= b -> inject_Z (r_count r) / w + r_prev r <= inject_Z (since a us) / w) }.

Lemma RI_new w t0 : RI w t0 [] t0 (rt_new w).
Proof.
  constructor; cbn; auto; try discriminate. split; cbn; [lia|lra].
Qed.
Lemma inj_le a b : (a <= b)%Z -> inject_Z a <= inject_Z b.
Proof. intros H. rewrite <- Zle_Qle. exact H. Qed.
Lemma div_le a b w : 0 < w -> a <= b -> a / w <= b / w.
Proof. intros Hw H. unfold Qdiv. apply Qmult_le_compat_r; [assumption|]. apply Qinv_le_0_compat. lra. Qed.
Lemma decay_le c d w : 0 < w -> 0 <= c -> w <= d -> d <= w * 2 -> c * ((w * 2 - d) / w) / w <= c / w.
Proof.
  intros Hw Hc Hd Hd2. apply div_le; [assumption|].
  assert (Hx : (w * 2 - d) / w <= 1) by (apply Qle_shift_div_r; [assumption|lra]).
  assert (Hy : 0 <= (w * 2 - d) / w) by (apply Qle_shift_div_l; [assumption|lra]).
  assert (Hz : 0 <= c * (1 - (w * 2 - d) / w)) by (apply Qmult_le_0_compat; lra). lra.
Qed.

Lemma RI_step w t0 us t r n u : 0 < w -> t <= u -> (0 <= n)%Z -> RI w t0 us t r ->
  exists r', rt_update r n u = Some r' /\ RI w t0 (us ++ [(n, u)]) u r'.
Proof.
  intros Hw Htu Hn [Hok Hp Hpos Hnone Hle Hcnt]. pose proof Hok as (Hc & Hpr).
  assert (Hpos' : Forall (fun nt => (0 <= fst nt)%Z) (us ++ [(n, u)])) by (apply Forall_app; split; [assumption|constructor; [exact Hn|constructor]]).
  assert (Hsn : forall a, a < u -> since a (us ++ [(n, u)]) = (since a us + n)%Z).
  { intros a Ha. rewrite since_app. cbn. destruct (Qle_bool u a) eqn:E; qb; [lra|lia]. }
  unfold rt_update.
  assert (He : (match r_begin r with Some b => negb (Qle_bool 0 (u - b)) | None => false end) = false).
  { destruct (r_begin r) as [b|]; [|reflexivity]. specialize (Hle _ eq_refl). apply negb_false_iff. apply qle_t. lra. }
  rewrite He.
  destruct (match r_begin r with Some b => Qle_bool (r_period r) (u - b) | None => true end) eqn:Ef.
  - destruct (get_rate_defined r u Hok) as (q & -> & Hq & Hqe). eexists. split; [reflexivity|].
    constructor; cbn; try assumption; try discriminate.
    + split; cbn; [lia|assumption].
    + intros b Hb. injection Hb as <-. lra.
    + intros b a Hb Ha. injection Hb as <-. rewrite Hsn by assumption. pose proof (since_nonneg a us Hpos) as Hs0. split.
      * apply inj_le. lia.
      * intros Ha2. rewrite inject_Z_plus.
        assert (Hqb : q <= inject_Z (since a us) / w).
        { assert (Hz : 0 <= inject_Z (since a us) / w) by (apply Qle_shift_div_l; [assumption|]; rewrite Qmult_0_l; apply (inj_le 0); lia).
          destruct (r_begin r) as [b|] eqn:Eb; [|subst q; assumption]. rewrite Hqe. specialize (Hle _ eq_refl).
          destruct (Qle_bool 0 (u - b)) eqn:E0; qb; [|lra].
          unfold rate_at. rewrite Hp. destruct (Qle_bool (w * 2) (u - b)) eqn:E1; qb; [assumption|].
          rewrite Hp in Ef. rewrite (proj2 (qle_t _ _) Ef).
          destruct (Hcnt b a eq_refl ltac:(lra)) as (Hca & _).
          eapply Qle_trans; [apply decay_le; [assumption|apply (inj_le 0); assumption|assumption|lra]|]. apply div_le; assumption. }
        setoid_replace ((inject_Z (since a us) + inject_Z n) / w) with (inject_Z (since a us) / w + inject_Z n / w) by (field; lra). lra.
  - destruct (r_begin r) as [b|] eqn:Eb; [|discriminate]. eexists. split; [reflexivity|]. specialize (Hle _ eq_refl).
    constructor; cbn; try assumption; try discriminate.
    + split; cbn; [lia|assumption].
    + intros b' Hb. injection Hb as <-. lra.
    + intros b' a Hb Ha. injection Hb as <-. rewrite Hsn by lra. destruct (Hcnt b a eq_refl Ha) as (H1 & H2). rewrite !inject_Z_plus. split; [lra|].
      intros Ha2. specialize (H2 Ha2).
      setoid_replace ((inject_Z (r_count r) + inject_Z n) / w) with (inject_Z (r_count r) / w + inject_Z n / w) by (field; lra).
      setoid_replace ((inject_Z (since a us) + inject_Z n) / w) with (inject_Z (since a us) / w + inject_Z n / w) by (field; lra). lra.
Qed.

Lemma RI_run w t0 us2 : 0 < w -> forall us t r, RI w t0 us t r -> timely t us2 -> Forall (fun nt => (0 <= fst nt)%Z) us2 ->
  exists r', upd_run r us2 = Some r' /\ RI w t0 (us ++ us2) (last_update t us2) r'.
Proof.
  intros Hw. induction us2 as [|(n, u) us2 IH]; intros us t r H Ht Hp; [exists r; rewrite app_nil_r; auto|].
  destruct Ht as (Htu & Ht). inversion Hp; subst. destruct (RI_step w t0 us t r n u Hw Htu ltac:(assumption) H) as (r1 & Hr1 & H1).
  cbn [upd_run]. rewrite Hr1. destruct (IH _ _ _ H1 Ht ltac:(assumption)) as (r' & Hr' & H'). exists r'. split; [assumption|].
  rewrite <- app_assoc in H'. exact H'.
Qed.

Lemma rate_bound w t0 us now : 0 < w -> timely t0 us -> Forall (fun nt => (0 <= fst nt)%Z) us -> last_update t0 us <= now ->
  exists r q, upd_run (rt_new w) us = Some r /\ get_rate r now = Some q /\ 0 <= q /\ q * w <= inject_Z (since (now - w * 3) us)
    /\ (last_update t0 us + w * 2 <= now -> q == 0).
Proof.
  intros Hw Ht Hp Hn. destruct (RI_run w t0 us Hw [] t0 _ (RI_new w t0) Ht Hp) as (r & Hr & HR). cbn [app] in HR.
  destruct HR as [Hok Hpd Hpos Hnone Hle Hcnt].
  destruct (get_rate_defined r now Hok) as (q & Hq & Hq0 & Hqe). exists r, q. repeat split; try assumption.
  - pose proof (inj_le _ _ (since_nonneg (now - w * 3) us Hpos)) as Hs0. change (inject_Z 0) with 0 in Hs0.
    destruct (r_begin r) as [b|] eqn:Eb; [|subst q; lra]. specialize (Hle _ eq_refl). rewrite Hqe, Hpd.
    destruct (Qle_bool 0 (now - b)) eqn:E0; qb; [|lra]. unfold rate_at. destruct Hok as (Hc & Hpr). pose proof (inj_le _ _ Hc) as Hc'. change (inject_Z 0) with 0 in Hc'.
    destruct (Qle_bool (w * 2) (now - b)) eqn:E1; qb; [lra|].
    destruct (Qle_bool w (now - b)) eqn:E2; qb.
    + destruct (Hcnt b (now - w * 3) eq_refl ltac:(lra)) as (H1 & _).
      eapply Qle_trans; [apply Qmult_le_compat_r; [apply decay_le; [assumption|assumption|assumption|lra]|lra]|].
      setoid_replace (inject_Z (r_count r) / w * w) with (inject_Z (r_count r)) by (field; lra). assumption.
    + destruct (Hcnt b (now - w * 3) eq_refl ltac:(lra)) as (_ & H2). specialize (H2 ltac:(lra)).
      assert (Hd : 0 <= (now - b) / w) by (apply Qle_shift_div_l; [assumption|lra]).
      assert (Hx : 0 <= r_prev r * ((now - b) / w)) by (apply Qmult_le_0_compat; assumption).
      assert (Hy : inject_Z (r_count r) / w + r_prev r * (1 - (now - b) / w) <= inject_Z (since (now - w * 3) us) / w) by lra.
      apply (Qmult_le_compat_r _ _ w) in Hy; [|lra].
      setoid_replace (inject_Z (since (now - w * 3) us) / w * w) with (inject_Z (since (now - w * 3) us)) in Hy by (field; lra). assumption.
  - intros Hq2. destruct (r_begin r) as [b|] eqn:Eb; [|subst q; reflexivity]. specialize (Hle _ eq_refl). rewrite Hqe, Hpd.
    destruct (Qle_bool 0 (now - b)) eqn:E0; qb; [|lra]. unfold rate_at. rewrite (proj2 (qle_t (w * 2) (now - b))) by lra. reflexivity.
Qed.

(** Without updates the rate only falls. *)
Lemma rate_falls r t1 t2 : rt_ok r -> 0 < r_period r -> t1 <= t2 ->
  exists q1 q2, get_rate r t1 = Some q1 /\ get_rate r t2 = Some q2 /\ q2 <= q1.
Proof.
  intros Hok Hw Ht. destruct (get_rate_defined r t1 Hok) as (q1 & H1 & Hp1 & He1). destruct (get_rate_defined r t2 Hok) as (q2 & H2 & Hp2 & He2).
  exists q1, q2. repeat split; try assumption. destruct (r_begin r) as [b|]; [|subst; apply Qle_refl]. rewrite He1, He2.
  set (d1 := if Qle_bool 0 (t1 - b) then t1 - b else 0) in *. set (d2 := if Qle_bool 0 (t2 - b) then t2 - b else 0) in *.
  assert (Hd : 0 <= d1 /\ d1 <= d2).
  { unfold d1, d2. destruct (Qle_bool 0 (t1 - b)) eqn:E1, (Qle_bool 0 (t2 - b)) eqn:E2; qb; lra. }
  destruct Hd as (Hd1 & Hd12). clearbody d1 d2. rewrite He1 in Hp1. clear He1 He2 H1 H2 Ht.
  destruct Hok as (Hc & Hpr). pose proof (inj_le _ _ Hc) as Hc'. change (inject_Z 0) with 0 in Hc'. set (c := inject_Z (r_count r)) in *. set (w := r_period r) in *. set (p := r_prev r) in *.
  unfold rate_at in *. fold c.
  destruct (Qle_bool (w * 2) d2) eqn:E1; qb; [fold c in Hp1; assumption|].
  rewrite (proj2 (qle_f (w * 2) d1)) by lra.
  destruct (Qle_bool w d2) eqn:E2; qb.
  - destruct (Qle_bool w d1) eqn:E3; qb.
    + apply div_le; [assumption|]. rewrite !(Qmult_comm c). apply Qmult_le_compat_r; [|assumption]. apply div_le; [assumption|lra].
    + assert (Hx : c * ((w * 2 - d2) / w) / w <= c / w) by (apply decay_le; lra).
      assert (Hdw : d1 / w <= 1) by (apply Qle_shift_div_r; [assumption|lra]).
      assert (Hpp : 0 <= p * (1 - d1 / w)) by (apply Qmult_le_0_compat; lra). lra.
  - rewrite (proj2 (qle_f w d1)) by lra.
    assert (Hx : d1 / w <= d2 / w) by (apply div_le; assumption).
    assert (Hy : 0 <= p * (d2 / w - d1 / w)) by (apply Qmult_le_0_compat; lra). lra.
Qed.

Lemma run_ok os : forall r, rt_ok r -> Forall (fun o => match o with RUpdate n _ => (0 <= n)%Z | _ => True end) os ->
  exists r', rt_run r os = Some r' /\ rt_ok r' /\ forall now, exists q, get_rate r' now = Some q /\ 0 <= q.
Proof.
  induction os as [|o os IH]; intros r Hr H.
  - exists r. repeat split; try apply Hr. intros now. destruct (get_rate_defined r now Hr) as (q & H1 & H2 & _). eauto.
  - inversion H; subst. destruct (rt_step_ok r o ltac:(assumption) Hr) as (r1 & Hr1 & Hok). cbn [rt_run]. rewrite Hr1. apply IH; assumption.
Qed.
Lemma run_period os : forall r r', rt_run r os = Some r' -> 0 < r_period r -> 0 < r_period r'.
Proof.
  induction os as [|o os IH]; intros r r' H Hw; cbn in H; [injection H as <-; assumption|].
  destruct (rt_step r o) as [r1|] eqn:E; [|discriminate]. apply (IH r1); [assumption|]. destruct o; cbn in E.
  - unfold rt_update in E. destruct (match r_begin r with Some _ => _ | None => _ end); [injection E as <-; assumption|].
    destruct (match r_begin r with Some _ => _ | None => _ end); [destruct (get_rate r t); [|discriminate]|]; injection E as <-; assumption.
  - injection E as <-. cbn. destruct (Qle_bool _ w) eqn:E2; qb; lra.
  - injection E as <-. assumption.
Qed.

(** A regular source. *)
Lemma upd_app us1 us2 : forall r, upd_run r (us1 ++ us2) = match upd_run r us1 with Some r' => upd_run r' us2 | None => None end.
Proof. induction us1 as [|(n, t) us IH]; intros r; [reflexivity|]. cbn. destruct (rt_update r n t); [apply IH|reflexivity]. Qed.

Record GI (n : Z) (p : Q) (k : Z) (j : nat) (r : rt) : Prop := mkGI {
  gi_ok : rt_ok r;
  gi_w : r_period r = inject_Z k * p;
  gi_b : exists b i, (Z.of_nat j = b + i)%Z /\ (0 <= i < k)%Z /\ r_begin r = Some (inject_Z b * p) /\ r_count r = ((i + 1) * n)%Z
         /\ (b = 0 \/ (k <= b)%Z /\ r_prev r == inject_Z n / p)%Z }.

Lemma regular_run n p k : (0 <= n)%Z -> 0 < p -> (1 <= k)%Z -> forall j, exists r, upd_run (rt_new (inject_Z k * p)) (regular n p (S j)) = Some r /\ GI n p k j r.
Proof.
  intros Hn Hp Hk. assert (HkQ : 1 <= inject_Z k) by (apply (inj_le 1); assumption).
  assert (Hw : 0 < inject_Z k * p). { apply Qlt_le_trans with (1 * p); [lra|]. apply Qmult_le_compat_r; lra. }
  induction j as [|j (r & Hr & [Hok Hpd (b & i & Hj & Hi & Hb & Hc & Hpr)])].
  - eexists. split; [reflexivity|]. constructor; [split; cbn; [lia|lra]|reflexivity|].
    exists 0%Z, 0%Z. cbn [r_begin r_count r_prev rt_new]. split; [reflexivity|]. split; [lia|]. split; [reflexivity|]. split; [lia|]. left; reflexivity.
  - unfold regular in *. rewrite seq_S, map_app, upd_app, Hr. cbn [map upd_run plus].
    set (now := inject_Z (Z.of_nat (S j)) * p).
    assert (Hnow : now - inject_Z b * p == inject_Z (i + 1) * p).
    { unfold now. replace (Z.of_nat (S j)) with (b + (i + 1))%Z by lia. rewrite (inject_Z_plus b (i + 1)). ring. }
    assert (Hi1 : 1 <= inject_Z (i + 1)) by (apply (inj_le 1); lia).
    assert (Hpos : 0 <= inject_Z (i + 1) * p) by (apply Qmult_le_0_compat; lra).
    unfold rt_update. rewrite Hb, Hpd.
    assert (He : negb (Qle_bool 0 (now - inject_Z b * p)) = false) by (apply negb_false_iff, qle_t; rewrite Hnow; assumption).
    rewrite He. destruct (Qle_bool (inject_Z k * p) (now - inject_Z b * p)) eqn:Ef; qb.
    + rewrite Hnow in Ef. assert (Hik : (k <= i + 1)%Z). { rewrite Zle_Qle. apply Qmult_lt_0_le_reg_r with p; assumption. }
      assert (Hik2 : (i + 1 = k)%Z) by lia.
      destruct (get_rate_defined r now Hok) as (q & -> & Hq & Hqe). eexists. split; [reflexivity|].
      constructor; [split; cbn; [lia|assumption]|reflexivity|].
      exists (Z.of_nat (S j)), 0%Z. cbn [r_begin r_count r_prev]. repeat split; try lia.
      right. split; [destruct Hpr as [->|(? & _)]; lia|].
      rewrite Hb in Hqe. rewrite Hqe. destruct (Qle_bool 0 (now - inject_Z b * p)) eqn:E0; qb; [|rewrite Hnow in E0; lra].
      unfold rate_at. rewrite Hpd. rewrite (proj2 (qle_f _ _)) by (rewrite Hnow, Hik2; lra). rewrite (proj2 (qle_t _ _)) by (rewrite Hnow, Hik2; lra).
      rewrite Hnow, Hc, Hik2. rewrite inject_Z_mult. field. split; lra.
    + rewrite Hnow in Ef. assert (Hik : (i + 1 < k)%Z). { rewrite Zlt_Qlt. apply Qmult_lt_r with p; assumption. }
      eexists. split; [reflexivity|]. constructor; [destruct Hok; split; cbn; [lia|assumption]|reflexivity|].
      exists b, (i + 1)%Z. cbn [r_begin r_count r_prev]. repeat split; try lia; auto.
Qed.

Lemma regular_rate n p k j now : (0 <= n)%Z -> 0 < p -> (1 <= k)%Z -> (Z.of_nat j >= k)%Z ->
  inject_Z (Z.of_nat j) * p <= now -> now < inject_Z (Z.of_nat (S j)) * p ->
  exists r q, upd_run (rt_new (inject_Z k * p)) (regular n p (S j)) = Some r /\ get_rate r now = Some q
    /\ inject_Z n / p <= q /\ q <= inject_Z n / p + inject_Z n / (inject_Z k * p).
Proof.
  intros Hn Hp Hk Hjk Hn1 Hn2. assert (HkQ : 1 <= inject_Z k) by (apply (inj_le 1); assumption).
  assert (Hw : 0 < inject_Z k * p). { apply Qlt_le_trans with (1 * p); [lra|]. apply Qmult_le_compat_r; lra. }
  destruct (regular_run n p k Hn Hp Hk j) as (r & Hr & [Hok Hpd (b & i & Hj & Hi & Hb & Hc & Hpr)]).
  destruct (get_rate_defined r now Hok) as (q & Hq & Hq0 & Hqe). exists r, q. split; [assumption|]. split; [assumption|].
  rewrite Hb in Hqe. destruct Hpr as [->|(Hkb & Hpv)]; [lia|].
  set (d := now - inject_Z b * p) in *.
  assert (Hd1 : inject_Z i * p <= d). { unfold d. rewrite Hj, inject_Z_plus in Hn1. lra. }
  assert (Hd2 : d < inject_Z (i + 1) * p). { unfold d. replace (Z.of_nat (S j)) with (b + (i + 1))%Z in Hn2 by lia. rewrite (inject_Z_plus b (i+1)) in Hn2. lra. }
  assert (Hi0 : 0 <= inject_Z i * p) by (apply Qmult_le_0_compat; [apply (inj_le 0); lia|lra]).
  assert (Hik : inject_Z (i + 1) * p <= inject_Z k * p) by (apply Qmult_le_compat_r; [apply inj_le; lia|lra]).
  rewrite Hqe. rewrite (proj2 (qle_t 0 d)) by lra. unfold rate_at. rewrite Hpd.
  rewrite (proj2 (qle_f (inject_Z k * p * 2) d)) by lra. rewrite (proj2 (qle_f (inject_Z k * p) d)) by lra.
  rewrite Hpv, Hc, inject_Z_mult. set (w := inject_Z k * p) in *. rewrite inject_Z_plus in *. change (inject_Z 1) with 1 in *.
  pose proof (inj_le _ _ Hn) as Hn'. change (inject_Z 0) with 0 in Hn'. set (N := inject_Z n) in *. set (I := inject_Z i) in *.
  assert (Heq : (I + 1) * N / w + N / p * (1 - d / w) == N / p + N * ((I + 1) * p - d) / (p * w)) by (field; split; lra).
  rewrite Heq.
  assert (Hpw : 0 < p * w) by (apply Qmult_lt_0_compat; assumption).
  split.
  - assert (0 <= N * ((I + 1) * p - d) / (p * w)); [|lra]. apply Qle_shift_div_l; [assumption|]. rewrite Qmult_0_l. apply Qmult_le_0_compat; lra.
  - assert (N * ((I + 1) * p - d) / (p * w) <= N / w); [|lra]. apply Qle_shift_div_r; [assumption|].
    setoid_replace (N / w * (p * w)) with (N * p) by (field; lra).
    rewrite !(Qmult_comm N). apply Qmult_le_compat_r; [lra|assumption].
Qed.
