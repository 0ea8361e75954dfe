From Verif Require Import Base BaseFacts Congestion CongestionSpec.
From Coq Require Import Lia.
Open Scope res_scope.
Ltac Zify.zify_post_hook ::= Z.div_mod_to_equations.

Lemma wrap64_small : forall x, 0 <= x < 2 ^ 64 -> wrap64 x = x.
Proof. intros x H. unfold wrap64. apply Z.mod_small. exact H. Qed.
Lemma sub_ok : forall a b, b <= a -> sub a b = Ok (a - b).
Proof. intros a b H. unfold sub. destruct (Z.ltb_spec a b); [lia|reflexivity]. Qed.
Lemma loop_spec : forall fuel a th step inc, 0 < th -> 0 <= a -> 0 <= inc -> 0 <= step -> inc + step * (a / th) < 2 ^ 64 -> a / th < Z.of_nat fuel ->
  increase_loop fuel a th step inc = Ok (a mod th, inc + step * (a / th)).
Proof.
  induction fuel as [|fuel IH]; intros a th step inc T A I S B F; [pose proof (Z.div_pos a th A T); lia|]. cbn [increase_loop]. destruct (Z.leb_spec th a) as [L|L].
  - rewrite sub_ok by lia. cbn [rbind]. assert (D : a / th = (a - th) / th + 1) by (replace a with (a - th + 1 * th) at 1 by lia; apply Z.div_add; lia).
    assert (DM : a mod th = (a - th) mod th) by (replace a with (a - th + 1 * th) at 1 by lia; apply Z.mod_add; lia). pose proof (Z.div_pos (a - th) th ltac:(lia) T).
    unfold add. rewrite wrap64_small by nia. rewrite IH; try lia; try nia. f_equal. f_equal; [symmetry; exact DM|nia].
  - rewrite Z.div_small, Z.mod_small by lia. f_equal. f_equal. lia.
Qed.

Ltac fields := cbn [cong_init q_cwnd q_ssthresh q_accum q_remaining q_allowance q_ece q_notified with_cwnd with_ssthresh with_accum with_remaining with_allowance with_ecn].
Record inv (m : Z) (s : cong) : Prop := mkInv {
  i_cwnd : 2 * MSS <= q_cwnd s <= 2 * m + 4 * MSS;
  i_ssthresh : 3 * MSS <= q_ssthresh s <= U64MAX;
  i_accum : 0 <= q_accum s < 9600;
  i_remaining : is_u64 (q_remaining s);
  i_allowance : 0 <= q_allowance s;
  i_recovery : 0 < q_remaining s -> q_cwnd s = q_ssthresh s }.
Lemma inv_init : forall m, 0 <= m -> inv m cong_init.
Proof. intros m M. constructor; cbn [cong_init q_cwnd q_ssthresh q_accum q_remaining q_allowance]; unfold CWND_INIT, SENDER_MSS, MSS, is_u64, U64MAX; lia. Qed.

Definition cost_of (lost : Z) : Z := if lost =? 0 then 0 else add lost (add lost 1 / 2).
Lemma cost_spec : forall lost, 0 <= lost <= 2 ^ 56 -> cost_of lost = loss_cost lost /\ (cost_of lost = 0 <-> lost = 0) /\ 0 <= cost_of lost <= 2 ^ 57.
Proof.
  intros lost L. change (2 ^ 56) with 72057594037927936 in *. change (2 ^ 57) with 144115188075855872. unfold cost_of, loss_cost, add. destruct (Z.eqb_spec lost 0) as [->|N]; [cbn; lia|].
  rewrite (wrap64_small (lost + 1)) by lia. rewrite wrap64_small by lia. lia.
Qed.

(** What updateCWND does, by cases *)
Inductive outcome (t : tests) (pre out acked lost : Z) (loss naks : bool) (s s' : cong) : Prop :=
| O_recovery : acked + lost < q_remaining s -> q_cwnd s' = Z.max (q_cwnd s - Z.max 0 (loss_cost lost - q_allowance s)) (3 * MSS) \/ (loss_cost lost <= q_allowance s /\ q_cwnd s' = q_cwnd s) ->
    q_allowance s' = Z.max 0 (q_allowance s - loss_cost lost) -> outcome t pre out acked lost loss naks s s'
| O_probe : q_remaining s <= acked + lost -> loss = false -> q_ssthresh s < q_cwnd s -> 4 * MSS < q_cwnd s -> q_cwnd s' = Z.max (pre * 21 / 32) (3 * MSS) -> outcome t pre out acked lost loss naks s s'
| O_cut : forall cut, q_remaining s <= acked + lost -> loss = true \/ (t_measured t = true /\ t_delayed t = true) -> cut = Z.min (q_cwnd s) pre -> q_cwnd s' = Z.max (cut - Z.min cut (Z.max (cut / (if t_tc t || ((67200 <? pre) && t_fast t) then 8 else 2)) (loss_cost lost))) (3 * MSS) ->
    q_remaining s' = out -> outcome t pre out acked lost loss naks s s'
| O_grow : forall inc, q_remaining s <= acked + lost -> loss = false -> naks = false -> q_cwnd s * 63 / 64 < pre -> 0 <= inc <= MSS -> q_cwnd s' = Z.max (q_cwnd s + inc) (3 * MSS) -> outcome t pre out acked lost loss naks s s'
| O_decay : q_remaining s <= acked + lost -> loss = false -> naks = false -> pre + 6 * MSS < q_cwnd s -> q_cwnd s' = q_cwnd s - 1 -> outcome t pre out acked lost loss naks s s'
| O_same : q_remaining s <= acked + lost -> loss = false -> q_cwnd s' = q_cwnd s -> outcome t pre out acked lost loss naks s s'.

Lemma update_spec : forall m t pre out acked lost loss naks s, 0 <= m <= 2 ^ 56 -> 0 <= acked -> 0 <= lost -> 0 <= out -> acked + lost + out = pre -> pre <= m -> inv m s ->
  exists s', update_cwnd t pre out acked lost loss naks s = Ok s' /\ inv m s' /\ outcome t pre out acked lost loss naks s s'.
Proof.
  intros m t pre out acked lost loss naks s M A L O SUM P [I1 I2 I3 I4 I5 I6]. unfold update_cwnd. fold (cost_of lost). change (2 ^ 56) with 72057594037927936 in *. unfold is_u64, U64MAX in *.
  destruct (cost_spec lost ltac:(change (2 ^ 56) with 72057594037927936; lia)) as (CS & C0 & CB). change (2 ^ 57) with 144115188075855872 in CB. assert (AD : add acked lost = acked + lost) by (unfold add; apply wrap64_small; lia). rewrite !AD.
  unfold CWND_INIT, SENDER_MSS, CWND_DECAY_MARGIN, CWND_DECAY_SIZE, MSS, SENDER_MSS in *.
  destruct (Z.ltb_spec (acked + lost) (q_remaining s)) as [R|R].
  - specialize (I6 ltac:(lia)). rewrite sub_ok by lia. cbn [rbind]. destruct (Z.eqb_spec (cost_of lost) 0) as [E|E].
    + eexists. split; [reflexivity|]. split; [constructor; fields; unfold MSS, is_u64, U64MAX; try lia; auto|]. apply O_recovery; unfold MSS; fields; try lia.
    + cbn [q_allowance with_remaining]. destruct (Z.leb_spec (cost_of lost) (q_allowance s)) as [CA|CA].
      * rewrite sub_ok by lia. cbn [rbind]. eexists. split; [reflexivity|]. split; [constructor; fields; unfold MSS, is_u64, U64MAX; try lia; auto|]. apply O_recovery; unfold MSS; fields; try lia.
      * rewrite sub_ok by lia. cbn [rbind q_ssthresh with_allowance with_remaining]. rewrite sub_ok by lia. cbn [rbind]. eexists. split; [reflexivity|].
        assert (W : 0 <= wrap64 (q_remaining s - (acked + lost) + Z.min (q_ssthresh s) (cost_of lost - q_allowance s)) < 2 ^ 64) by (apply Z.mod_pos_bound; lia). change (2 ^ 64) with 18446744073709551616 in W.
        split; [constructor; fields; unfold MSS, is_u64, U64MAX, add; try lia|]. apply O_recovery; unfold MSS; fields; lia.
  - cbn [q_cwnd q_ssthresh q_accum with_remaining].
    match goal with |- context [if ?b then Ok (with_cwnd _ _) else _] => destruct b eqn:PB end.
    { rewrite !andb_true_iff, !negb_true_iff, !Z.ltb_lt in PB. destruct PB as (((((((P1 & P2) & P3) & P4) & P5) & P6) & P7) & P8). unfold mul. rewrite wrap64_small by lia. eexists. split; [reflexivity|].
      split; [constructor; fields; unfold MSS, is_u64, U64MAX; try lia|]. apply O_probe; unfold MSS; fields; auto; lia. }
    destruct (loss || t_measured t && t_delayed t) eqn:LB.
    { assert (SC : 0 <= Z.min (q_cwnd s) pre) by lia. set (cut := Z.min (q_cwnd s) pre) in *. set (dv := if t_tc t || ((67200 <? pre) && t_fast t) then cut / 8 else cut / 2).
      assert (DV : dv = cut / (if t_tc t || ((67200 <? pre) && t_fast t) then 8 else 2)) by (subst dv; destruct (t_tc t || _); reflexivity). rewrite sub_ok by lia. cbn [rbind]. eexists. split; [reflexivity|].
      assert (D0 : 0 <= dv) by (subst dv; destruct (t_tc t || _); lia). clearbody dv.
      split; [constructor; fields; unfold MSS, is_u64, U64MAX; try lia|]. apply (O_cut _ _ _ _ _ _ _ _ _ cut); fields; auto; [|rewrite <- DV, <- CS; unfold MSS; lia].
      rewrite orb_true_iff, andb_true_iff in LB. exact LB. }
    rewrite orb_false_iff in LB. destruct LB as (-> & _). clear PB. unfold mul at 1. rewrite wrap64_small by lia. destruct (negb naks && (q_cwnd s * 63 / 64 <? pre)) eqn:GB.
    { rewrite andb_true_iff, negb_true_iff, Z.ltb_lt in GB. destruct GB as (G1 & G2).
      match goal with |- context [rbind ?e] => assert (E : exists a i, e = Ok (a, i) /\ 0 <= a < 9600 /\ 0 <= i < 2 ^ 63) end.
      { assert (LP : forall th step, 64 <= th <= 9600 -> 0 <= step <= 96 -> exists a i, increase_loop (Datatypes.S (Z.to_nat (add (q_accum s) acked / th))) (add (q_accum s) acked) th step 0 = Ok (a, i) /\ 0 <= a < 9600 /\ 0 <= i < 2 ^ 63).
        { intros th step T ST. unfold add. rewrite wrap64_small by lia. change (2 ^ 63) with 9223372036854775808. set (x := q_accum s + acked) in *. assert (X : 0 <= x <= 72057594037937536) by lia.
          assert (XD : 0 <= x / th <= x / 64). { split; [apply Z.div_pos; lia|]. apply Z.div_le_compat_l; lia. }
          rewrite loop_spec; try lia; [|nia]. eexists _, _. split; [reflexivity|]. pose proof (Z.mod_pos_bound x th ltac:(lia)). nia. }
        destruct (t_fast t).
        - destruct (q_cwnd s <? q_ssthresh s); [exists 0, acked; repeat split; auto; lia|]. apply LP; lia.
        - destruct (t_tc t && (q_cwnd s <? q_ssthresh s)); [unfold add; rewrite wrap64_small by lia; exists 0, ((acked + 3) / 4); repeat split; auto; lia|]. apply LP; [lia|]. destruct (t_tc t); lia. }
      destruct E as (a & i & -> & EA & EI). change (2 ^ 63) with 9223372036854775808 in EI. cbn [rbind]. unfold add. cbn [q_cwnd with_accum with_remaining]. rewrite wrap64_small by lia. eexists. split; [reflexivity|].
      split; [constructor; fields; unfold MSS, is_u64, U64MAX; try lia|]. apply (O_grow _ _ _ _ _ _ _ _ _ (Z.min i 1161)); unfold MSS; fields; auto; lia. }
    unfold add. rewrite wrap64_small by lia. destruct (negb naks && (pre + 6 * 1161 <? q_cwnd s)) eqn:DB.
    { rewrite andb_true_iff, negb_true_iff, Z.ltb_lt in DB. destruct DB as (D1 & D2). rewrite sub_ok by lia. cbn [rbind]. eexists. split; [reflexivity|]. split; [constructor; fields; unfold MSS, is_u64, U64MAX; try lia|]. apply O_decay; unfold MSS; fields; auto; lia. }
    eexists. split; [reflexivity|]. split; [constructor; fields; unfold MSS, is_u64, U64MAX; try lia|]. apply O_same; auto.
Qed.

Lemma ecn_other : forall b s, q_cwnd (ecn_report b s) = q_cwnd s /\ q_ssthresh (ecn_report b s) = q_ssthresh s /\ q_accum (ecn_report b s) = q_accum s /\ q_remaining (ecn_report b s) = q_remaining s /\ q_allowance (ecn_report b s) = q_allowance s.
Proof. intros b s. unfold ecn_report. destruct (_ && _); cbn; auto. Qed.
Lemma ecns_other : forall l s, let s' := fold_left (fun s b => ecn_report b s) l s in q_cwnd s' = q_cwnd s /\ q_ssthresh s' = q_ssthresh s /\ q_accum s' = q_accum s /\ q_remaining s' = q_remaining s /\ q_allowance s' = q_allowance s.
Proof.
  induction l as [|b l IH]; intros s; cbn; [auto 6|]. destruct (ecn_other b s) as (E1 & E2 & E3 & E4 & E5). destruct (IH (ecn_report b s)) as (H1 & H2 & H3 & H4 & H5). rewrite H1, H2, H3, H4, H5. auto 6.
Qed.
Definition heard (reports : list Z) (s : cong) : cong := fold_left (fun s b => ecn_report b s) reports (with_ecn s (q_ece s) false).
Lemma heard_inv : forall m reports s, inv m s -> inv m (heard reports s).
Proof.
  intros m reports s [I1 I2 I3 I4 I5 I6]. unfold heard. destruct (ecns_other reports (with_ecn s (q_ece s) false)) as (H1 & H2 & H3 & H4 & H5). cbv zeta in *. cbn in H1, H2, H3, H4, H5. constructor; rewrite ?H1, ?H2, ?H3, ?H4, ?H5; auto.
Qed.
Lemma step_inv : forall m o s, 0 <= m <= 2 ^ 56 -> feasible m o -> inv m s -> exists s', cstep o s = Ok s' /\ inv m s'.
Proof.
  intros m o s M F I. destruct o as [t pre reports acks rest lost loss naks|open idle]; cbn [cstep].
  - fold (heard reports s). pose proof (heard_inv m reports s I) as IH. destruct acks; [|eauto]. destruct F as (F1 & F2 & F3 & _). rewrite !sub_ok by lia. cbn [rbind].
    destruct (update_spec m t pre (rest - lost) (pre - rest) lost (q_notified (heard reports s) || loss) naks _ M ltac:(lia) ltac:(lia) ltac:(lia) ltac:(lia) ltac:(lia) IH) as (s' & E & I' & _). eauto.
  - destruct I as [I1 I2 I3 I4 I5 I6]. change (2 ^ 56) with 72057594037927936 in *. unfold mul, MSS in *. rewrite wrap64_small by lia. unfold CWND_INIT, CWND_TIMEDOUT, SENDER_MSS. destruct open; cbn [negb]; [destruct idle|]; eexists; (split; [reflexivity|]); constructor; fields; unfold MSS, is_u64, U64MAX in *; try lia.
Qed.
Lemma run_inv : forall m ops s, 0 <= m <= 2 ^ 56 -> Forall (feasible m) ops -> inv m s -> exists s', crun ops s = Ok s' /\ inv m s'.
Proof.
  intros m ops. induction ops as [|o ops IH]; intros s M F I; [cbn; eauto|]. inversion F as [|? ? F1 F2]; subst. destruct (step_inv m o s M F1 I) as (s1 & E & I1). cbn [crun]. rewrite E. cbn [rbind]. apply IH; auto.
Qed.
Lemma reach : forall m ops, 0 <= m <= 2 ^ 56 -> Forall (feasible m) ops -> exists s, crun ops cong_init = Ok s /\ inv m s.
Proof. intros m ops M F. apply run_inv; auto. apply inv_init. lia. Qed.
Lemma packet_step : forall m t pre reports rest lost loss naks s, 0 <= m <= 2 ^ 56 -> feasible m (CPacket t pre reports true rest lost loss naks) -> inv m s ->
  exists s', cstep (CPacket t pre reports true rest lost loss naks) s = Ok s' /\ outcome t pre (rest - lost) (pre - rest) lost (q_notified (heard reports s) || loss) naks (heard reports s) s' /\ q_cwnd (heard reports s) = q_cwnd s /\ q_remaining (heard reports s) = q_remaining s /\ q_allowance (heard reports s) = q_allowance s.
Proof.
  intros m t pre reports rest lost loss naks s M F I. cbn [cstep]. fold (heard reports s). destruct F as (F1 & F2 & F3 & _). rewrite !sub_ok by lia. cbn [rbind].
  destruct (update_spec m t pre (rest - lost) (pre - rest) lost (q_notified (heard reports s) || loss) naks _ M ltac:(lia) ltac:(lia) ltac:(lia) ltac:(lia) ltac:(lia) (heard_inv m reports s I)) as (s' & E & I' & O). exists s'. split; [exact E|]. split; [exact O|].
  unfold heard. destruct (ecns_other reports (with_ecn s (q_ece s) false)) as (H1 & H2 & H3 & H4 & H5). cbv zeta in *. auto.
Qed.

(** Congestion counts *)
Lemma ecn_counts : forall counts high s, 0 <= high -> Forall (fun c => 0 <= c) counts -> in_step high counts -> q_ece s = high mod 256 ->
  let s' := fold_left (fun s b => ecn_report b s) (map (fun c => c mod 256) counts) s in
  q_ece s' = fold_left Z.max counts high mod 256 /\ (q_notified s' = true <-> q_notified s = true \/ exists c, In c counts /\ high < c).
Proof.
  induction counts as [|c counts IH]; intros high s H F S E; cbn [map fold_left in_step] in *; [split; [exact E|]; split; [auto|intros [X|(c & [] & _)]; exact X]|].
  destruct S as (B & S). inversion F as [|? ? C F']; subst. set (s1 := ecn_report (c mod 256) s).
  assert (H1 : q_ece s1 = Z.max high c mod 256 /\ q_notified s1 = if high <? c then true else q_notified s).
  { subst s1. unfold ecn_report. rewrite E. unfold wrap8, ECN_CE_DELTA_REORDER. destruct (Z.ltb_spec high c) as [L|L].
    - replace ((c mod 256 - high mod 256) mod 256) with (c - high) by lia. destruct (Z.eqb_spec (c - high) 0); [lia|]. destruct (Z.ltb_spec (c - high) 224); [|lia]. cbn. split; [f_equal; lia|reflexivity].
    - destruct (Z.eqb_spec ((c mod 256 - high mod 256) mod 256) 0) as [E0|E0]; cbn [negb andb]; [split; [rewrite E; f_equal; lia|reflexivity]|]. destruct (Z.ltb_spec ((c mod 256 - high mod 256) mod 256) 224) as [L2|L2]; [lia|]. split; [rewrite E; f_equal; lia|reflexivity]. }
  destruct H1 as (H1 & H2). destruct (IH (Z.max high c) s1 ltac:(lia) F' S H1) as (I1 & I2). split; [exact I1|]. rewrite I2, H2. destruct (Z.ltb_spec high c) as [L|L].
  - split; [intros _; right; exists c; cbn; auto|intros _; auto].
  - split; intros [X|(d & D1 & D2)]; auto; right; exists d; cbn.
    + split; [auto|lia].
    + split; [|lia]. destruct D1 as [->|D1]; [lia|exact D1].
Qed.

(** A whole recovery *)
Lemma packet_remaining : forall m t pre reports rest lost loss naks s s', 0 <= m <= 2 ^ 56 -> feasible m (CPacket t pre reports true rest lost loss naks) -> inv m s ->
  cstep (CPacket t pre reports true rest lost loss naks) s = Ok s' -> pre - rest + lost < q_remaining s -> inv m s' /\
  q_allowance s' = Z.max 0 (q_allowance s - loss_cost lost) /\ q_cwnd s' = (if loss_cost lost <=? q_allowance s then q_cwnd s else Z.max (q_cwnd s - (loss_cost lost - q_allowance s)) (3 * MSS)).
Proof.
  intros m t pre reports rest lost loss naks s s' M F I E R. destruct (step_inv m _ s M F I) as (s2 & E2 & I2). rewrite E2 in E. injection E as <-. split; [exact I2|].
  destruct (packet_step m t pre reports rest lost loss naks s M F I) as (s3 & E3 & O & H1 & H2 & H3). rewrite E2 in E3. injection E3 as <-. destruct I as [I1 I4 I5 I6 I7 I8]. specialize (I8 ltac:(destruct F as (? & ? & _); lia)).
  destruct O as [R1 O A|R1|cut R1|inc R1|R1|R1]; try (rewrite H2 in R1; lia). rewrite H1, H3 in *. split; [lia|]. destruct (Z.leb_spec (loss_cost lost) (q_allowance s)); lia.
Qed.

Lemma recovery_spec : forall m ops losts s s', recovering ops losts s s' -> 0 <= m <= 2 ^ 56 -> Forall (feasible m) ops -> inv m s -> 3 * MSS <= q_cwnd s ->
  inv m s' /\ q_cwnd s' = Z.max (q_cwnd s - Z.max 0 (total_cost losts - q_allowance s)) (3 * MSS) /\ q_allowance s' = Z.max 0 (q_allowance s - total_cost losts) /\ 0 <= total_cost losts.
Proof.
  induction 1 as [s|o ops acked lost losts s s1 s2 A R E H IH]; intros M F I C.
  - cbn [total_cost fold_right]. destruct I as [I1 I2 I3 I4 I5 I6]. split; [constructor; auto|]. lia.
  - inversion F as [|? ? F1 F2]; subst. destruct o as [t pre reports acks rest l loss naks|open idle]; [|discriminate]. cbn in A. destruct acks; [|discriminate]. injection A as <- <-.
    destruct (packet_remaining m t pre reports rest l loss naks s s1 M F1 I E R) as (I1 & A1 & C1). pose proof (i_allowance _ _ I) as AL. destruct F1 as (FL & _). assert (LC : 0 <= loss_cost l) by (unfold loss_cost; lia).
    destruct (IH M F2 I1) as (J1 & J2 & J3 & J4); [destruct (Z.leb_spec (loss_cost l) (q_allowance s)); lia|]. cbn [total_cost fold_right]. fold (total_cost losts). split; [exact J1|].
    rewrite J2, J3, A1, C1. destruct (Z.leb_spec (loss_cost l) (q_allowance s)); lia.
Qed.

(** Growth by bytes acknowledged *)
Lemma Ok_inj : forall (A : Type) (x y : A), Ok x = Ok y -> x = y.
Proof. intros A x y E. injection E. auto. Qed.
Lemma update_total : forall m t pre out acked lost loss naks s s', 0 <= m <= 2 ^ 56 -> 0 <= acked -> 0 <= lost -> 0 <= out -> acked + lost + out = pre -> pre <= m -> inv m s -> pre <= q_cwnd s + q_cwnd s / 2 ->
  update_cwnd t pre out acked lost loss naks s = Ok s' -> Z.max (q_cwnd s') (3 * MSS) + q_accum s' <= Z.max (q_cwnd s) (3 * MSS) + q_accum s + acked /\ 0 <= q_accum s'.
Proof.
  intros m t pre out acked lost loss naks s s' M A L O SUM P [I1 I2 I3 I4 I5 I6] PW. unfold update_cwnd. fold (cost_of lost). change (2 ^ 56) with 72057594037927936 in *. unfold is_u64, U64MAX in *.
  destruct (cost_spec lost ltac:(change (2 ^ 56) with 72057594037927936; lia)) as (CS & C0 & CB). change (2 ^ 57) with 144115188075855872 in CB. assert (AD : add acked lost = acked + lost) by (unfold add; apply wrap64_small; lia). rewrite !AD.
  unfold CWND_INIT, SENDER_MSS, CWND_DECAY_MARGIN, CWND_DECAY_SIZE, MSS, SENDER_MSS in *.
  destruct (Z.ltb_spec (acked + lost) (q_remaining s)) as [R|R].
  - specialize (I6 ltac:(lia)). rewrite sub_ok by lia. cbn [rbind]. destruct (Z.eqb_spec (cost_of lost) 0) as [E|E].
    + intros E1; apply Ok_inj in E1; rewrite <- E1; fields. lia.
    + cbn [q_allowance with_remaining]. destruct (Z.leb_spec (cost_of lost) (q_allowance s)) as [CA|CA].
      * rewrite sub_ok by lia. cbn [rbind]. intros E1; apply Ok_inj in E1; rewrite <- E1; fields. lia.
      * rewrite sub_ok by lia. cbn [rbind q_ssthresh with_allowance with_remaining]. rewrite sub_ok by lia. cbn [rbind]. intros E1; apply Ok_inj in E1; rewrite <- E1; fields. lia.
  - cbn [q_cwnd q_ssthresh q_accum with_remaining].
    match goal with |- context [if ?b then Ok (with_cwnd _ _) else _] => destruct b eqn:PB end.
    { unfold mul. rewrite wrap64_small by lia. intros E1; apply Ok_inj in E1; rewrite <- E1; fields. lia. }
    destruct (loss || t_measured t && t_delayed t) eqn:LB.
    { assert (SC : 0 <= Z.min (q_cwnd s) pre) by lia. set (cut := Z.min (q_cwnd s) pre) in *. set (dv := if t_tc t || ((67200 <? pre) && t_fast t) then cut / 8 else cut / 2).
      assert (D0 : 0 <= dv) by (subst dv; destruct (t_tc t || _); lia). clearbody dv. rewrite sub_ok by lia. cbn [rbind]. intros E1; apply Ok_inj in E1; rewrite <- E1; fields. lia. }
    clear LB PB. unfold mul at 1. rewrite wrap64_small by lia. destruct (negb naks && (q_cwnd s * 63 / 64 <? pre)) eqn:GB.
    { match goal with |- context [rbind ?e] => assert (E : exists a i, e = Ok (a, i) /\ 0 <= a < 9600 /\ 0 <= i < 2 ^ 63 /\ a + i <= q_accum s + acked) end.
      { assert (LP : forall th step, 145 <= th <= 9600 -> 0 <= step <= 96 -> exists a i, increase_loop (Datatypes.S (Z.to_nat (add (q_accum s) acked / th))) (add (q_accum s) acked) th step 0 = Ok (a, i) /\ 0 <= a < 9600 /\ 0 <= i < 2 ^ 63 /\ a + i <= q_accum s + acked).
        { intros th step T ST. unfold add. rewrite wrap64_small by lia. change (2 ^ 63) with 9223372036854775808. set (x := q_accum s + acked) in *. assert (X : 0 <= x <= 72057594037937536) by lia.
          assert (XD : 0 <= x / th <= x / 64). { split; [apply Z.div_pos; lia|]. apply Z.div_le_compat_l; lia. }
          rewrite loop_spec; try lia; [|nia]. eexists _, _. split; [reflexivity|]. pose proof (Z.mod_pos_bound x th ltac:(lia)). pose proof (Z.div_mod x th ltac:(lia)). set (q := x / th) in *. set (r := x mod th) in *. clearbody q r.
          assert (S1 : 0 <= step * q <= 96 * q) by (split; [apply Z.mul_nonneg_nonneg|apply Z.mul_le_mono_nonneg_r]; lia). assert (S2 : 96 * q <= th * q) by (apply Z.mul_le_mono_nonneg_r; lia). clear - S1 S2 H H0 X T XD. lia. }
        destruct (t_fast t).
        - destruct (q_cwnd s <? q_ssthresh s); [exists 0, acked; repeat split; auto; lia|]. apply LP; lia.
        - destruct (t_tc t && (q_cwnd s <? q_ssthresh s)); [unfold add; rewrite wrap64_small by lia; exists 0, ((acked + 3) / 4); repeat split; auto; lia|]. apply LP; [lia|]. destruct (t_tc t); lia. }
      destruct E as (a & i & -> & EA & EI & EB). change (2 ^ 63) with 9223372036854775808 in EI. cbn [rbind]. unfold add. cbn [q_cwnd with_accum with_remaining]. rewrite wrap64_small by lia. intros E1; apply Ok_inj in E1; rewrite <- E1; fields. lia. }
    unfold add. rewrite wrap64_small by lia. destruct (negb naks && (pre + 6 * 1161 <? q_cwnd s)) eqn:DB.
    { rewrite andb_true_iff, negb_true_iff, Z.ltb_lt in DB. destruct DB as (D1 & D2). rewrite sub_ok by lia. cbn [rbind]. intros E1; apply Ok_inj in E1; rewrite <- E1; fields. lia. }
    intros E1; apply Ok_inj in E1; rewrite <- E1; fields. lia.
Qed.
Lemma total_spec : forall m ops s s', 0 <= m <= 2 ^ 56 -> Forall (feasible m) ops -> inv m s -> keeps_to_window ops s -> crun ops s = Ok s' ->
  q_cwnd s' + q_accum s' <= Z.max (q_cwnd s) (3 * MSS) + q_accum s + total_acked ops /\ 0 <= q_accum s' /\ 0 <= total_acked ops.
Proof.
  intros m ops. induction ops as [|o ops IH]; intros s s' M F I K E; cbn [crun] in E; [injection E as <-; cbn; pose proof (i_accum _ _ I); lia|]. inversion F as [|? ? F1 F2]; subst. inversion K as [|? ? ? K1 K2]; subst.
  destruct (step_inv m o s M F1 I) as (s1 & E1 & I1). rewrite E1 in E. cbn [rbind] in E. specialize (K2 _ E1). specialize (IH s1 s' M F2 I1 K2 E). cbn [total_acked fold_right]. fold (total_acked ops).
  assert (ST : Z.max (q_cwnd s1) (3 * MSS) + q_accum s1 <= Z.max (q_cwnd s) (3 * MSS) + q_accum s + acked_by o /\ 0 <= acked_by o /\ 0 <= q_accum s1 /\ 0 <= q_accum s).
  { pose proof (i_accum _ _ I) as IA. pose proof (i_accum _ _ I1) as IA1. destruct o as [t pre reports acks rest lost loss naks|open idle]; cbn [cstep] in E1; cbn [acked_by].
    - fold (heard reports s) in E1. pose proof (heard_inv m reports s I) as IHd. unfold heard in *. destruct (ecns_other reports (with_ecn s (q_ece s) false)) as (H1 & H2 & H3 & H4 & H5). cbv zeta in *. fold (heard reports s) in *. cbn [q_cwnd q_accum with_ecn] in H1, H3.
      destruct acks; [|injection E1 as <-; rewrite H1, H3; lia]. destruct F1 as (F3 & F4 & F5 & _). rewrite !sub_ok in E1 by lia. cbn [rbind] in E1.
      destruct (update_total m t pre (rest - lost) (pre - rest) lost _ naks _ s1 M ltac:(lia) ltac:(lia) ltac:(lia) ltac:(lia) ltac:(lia) IHd ltac:(rewrite H1; exact K1) E1) as (U & _). rewrite H1, H3 in U. lia.
    - revert E1. unfold CWND_INIT, CWND_TIMEDOUT, SENDER_MSS, MSS. destruct open; cbn [negb]; [destruct idle|]; intros E1; apply Ok_inj in E1; rewrite <- E1; fields; lia. }
  lia.
Qed.
(** Congestion avoidance forgets no byte *)
Lemma update_avoid : forall m t pre out acked lost naks s, 0 <= m <= 2 ^ 56 -> 0 <= acked -> 0 <= lost -> 0 <= out -> acked + lost + out = pre -> pre <= m -> inv m s ->
  q_remaining s <= acked + lost -> t_measured t = false -> naks = false -> q_cwnd s * 63 / 64 < pre -> q_ssthresh s <= q_cwnd s ->
  exists s' n, update_cwnd t pre out acked lost false naks s = Ok s' /\ q_accum s + acked = n * per_step (t_fast t) (q_cwnd s) + q_accum s' /\ 0 <= q_accum s' < per_step (t_fast t) (q_cwnd s)
  /\ q_cwnd s' = Z.max (q_cwnd s + Z.min (n * step_of (t_fast t) (t_tc t)) MSS) (3 * MSS).
Proof.
  intros m t pre out acked lost naks s M A L O SUM P [I1 I2 I3 I4 I5 I6] R TM -> W SS. unfold update_cwnd. fold (cost_of lost). change (2 ^ 56) with 72057594037927936 in *. unfold is_u64, U64MAX in *.
  assert (AD : add acked lost = acked + lost) by (unfold add; apply wrap64_small; lia). rewrite !AD. destruct (Z.ltb_spec (acked + lost) (q_remaining s)) as [X|_]; [lia|]. cbn [q_cwnd q_ssthresh q_accum with_remaining]. rewrite TM. cbn [andb orb negb].
  unfold mul at 1. unfold MSS in *. rewrite wrap64_small by lia. destruct (Z.ltb_spec (q_cwnd s * 63 / 64) pre) as [_|X]; [|lia]. destruct (Z.ltb_spec (q_cwnd s) (q_ssthresh s)) as [X|_]; [lia|].
  unfold per_step, step_of, CWND_INIT, SENDER_MSS.
  assert (LP : forall th step, 64 <= th <= 9600 -> 0 <= step <= 96 -> exists s' n, (' (accum, inc) <- increase_loop (Datatypes.S (Z.to_nat (add (q_accum s) acked / th))) (add (q_accum s) acked) th step 0;;
      Ok (with_cwnd (with_accum (with_remaining s 0) accum) (Z.max (add (q_cwnd (with_accum (with_remaining s 0) accum)) (Z.min inc 1161)) (3 * 1161)))) = Ok s'
      /\ q_accum s + acked = n * th + q_accum s' /\ 0 <= q_accum s' < th /\ q_cwnd s' = Z.max (q_cwnd s + Z.min (n * step) 1161) (3 * 1161)).
  { intros th step T ST. assert (AA : add (q_accum s) acked = q_accum s + acked) by (unfold add; apply wrap64_small; lia). rewrite AA. set (x := q_accum s + acked) in *. assert (X : 0 <= x <= 72057594037937536) by lia.
    assert (XD : 0 <= x / th <= x / 64). { split; [apply Z.div_pos; lia|]. apply Z.div_le_compat_l; lia. }
    rewrite loop_spec; try lia; [|nia]. cbn [rbind]. eexists _, (x / th). split; [reflexivity|]. fields. pose proof (Z.mod_pos_bound x th ltac:(lia)). pose proof (Z.div_mod x th ltac:(lia)).
    split; [lia|]. split; [lia|]. unfold add. rewrite wrap64_small by nia. f_equal. f_equal. f_equal. lia. }
  destruct (t_fast t); [apply LP; lia|]. rewrite andb_false_r. apply LP; [lia|]. destruct (t_tc t); lia.
Qed.
