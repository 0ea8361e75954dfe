(** Proofs about the session's alarms that the property file quotes. *)
From Verif Require Import Base BaseFacts Alive AliveSpec AliveProofs AliveLive AliveHist.

Lemma in_order_app t a b : in_order t (a ++ b) <-> in_order t a /\ in_order (last_time t a) b.
Proof.
  revert t. induction a as [|(t', e) r IH]; intros t; [cbn; tauto|].
  cbn [app in_order last_time fold_left fst]. rewrite IH. tauto.
Qed.

Lemma dead_only E t0 r resp rl kp il m x es t e :
  0 <= r <= x -> 0 <= m <= E -> x <= E ->
  in_order t0 es -> last_time t0 es <= t -> Forall (measured E) (map snd es) -> Forall (slow r) (map snd es) ->
  let s := arun (open_session t0 resp rl kp il m x) es in
  a_end s = None -> a_end (astep s t e) = Some Dead ->
  e = ATimeout /\ (a_out s = true \/ a_kout s = true)
  /\ exists l, a_rlim s = Some l /\ MIN_PERIOD <= l /\ t0 + l <= t
     /\ (forall t' e', In (t', e') es -> answer e' -> t' + l <= t)
     /\ (forall t', In (t', AData) es -> t' + r <= t).
Proof.
  intros Hr Hm Hx Hord Hlt Hme Hsl s Ho Hd.
  pose proof (HO_run t0 r E es [] t0 _ Hord Hsl Hme ltac:(lia) (HO_open t0 r resp rl kp il m x ltac:(lia) ltac:(lia))) as HH.
  fold s in HH. destruct (HH Ho) as [Hl H0 He Ha Ht Hdt Hf Hmm]. cbn [app] in *.
  assert (Hmin : forall l, a_rlim s = Some l -> MIN_PERIOD <= l).
  { clear - s. subst s.
    assert (Hi : forall es s0, (forall l, a_rlim s0 = Some l -> MIN_PERIOD <= l) -> forall l, a_rlim (arun s0 es) = Some l -> MIN_PERIOD <= l).
    { clear. induction es as [|(t', e) es IH]; intros s0 H0; [exact H0|]. cbn [arun]. apply IH. clear IH es.
      unfold astep. destruct (a_end s0); [exact H0|].
      destruct e; cbn; try exact H0.
      - destruct (a_tmo s0); [|exact H0]. destruct (_ <=? _); [|exact H0].
        unfold on_timeout. destruct (_ <? _); [exact H0|]. cbn. destruct (negb _ && negb _); [exact H0|].
        destruct (reached _ _); [exact H0|]. destruct (a_kout s0); exact H0.
      - destruct (a_ktimer s0); [|exact H0]. destruct (reached _ _); [|exact H0].
        unfold on_keepalive. destruct (reached _ _); exact H0.
      - destruct (a_itimer s0); [|exact H0]. destruct (reached _ _); [|exact H0].
        unfold on_idle. destruct (negb _); [exact H0|]. destruct (Nat.eqb _ _); exact H0.
      - intros k. destruct l; cbn; intros H; brk. lia. }
    apply Hi. cbn. intros l. destruct rl; cbn; intros H; brk. lia. }
  unfold astep in Hd. rewrite Ho in Hd.
  destruct e; cbn in Hd; try congruence.
  - destruct (a_tmo s) as [w|]; [|congruence]. destruct (w <=? t); [|congruence].
    unfold on_timeout in Hd. destruct (t <? a_tdead s) eqn:Ed; [cbn in Hd; congruence|]. zb.
    cbv zeta in Hd. cbn [a_out a_kout w_tmo a_epoch a_rlim] in Hd.
    destruct (negb (a_out s) && negb (a_kout s)) eqn:Eo; [cbn in Hd; congruence|].
    destruct (reached t (eadd (a_epoch s) (a_rlim s))) eqn:Er.
    + split; [reflexivity|]. split. { destruct (a_out s), (a_kout s); auto. }
      destruct (a_epoch s) as [y|] eqn:Ey; [|discriminate]. destruct (a_rlim s) as [l|] eqn:El; [|discriminate].
      cbn in Er. zb. destruct (Ha _ eq_refl) as (Hy & Hans). exists l. split; [reflexivity|]. split; [auto|]. split; [lia|]. split.
      * intros t' e' Hin Hae. specialize (Hans _ _ Hin Hae). lia.
      * intros t' Hin. specialize (Hdt _ Hin). lia.
    + cbn [a_kout w_out w_tmo] in Hd. destruct (a_kout s); cbn in Hd; congruence.
  - destruct (a_ktimer s) as [w|]; [|congruence]. destruct (reached t w); [|congruence].
    unfold on_keepalive in Hd. destruct (reached _ _); cbn in Hd; congruence.
  - destruct (a_itimer s) as [w|]; [|congruence]. destruct (reached t w); [|congruence].
    unfold on_idle in Hd. destruct (negb _); [cbn in Hd; congruence|]. destruct (Nat.eqb _ _); cbn in Hd; congruence.
Qed.

Lemma ping_only E t0 resp rl kp il m x es t e :
  0 <= m <= E -> 0 <= x <= E ->
  in_order t0 es -> last_time t0 es <= t -> Forall (measured E) (map snd es) ->
  let s := arun (open_session t0 resp rl kp il m x) es in
  a_end s = None -> a_kout s = false -> a_kout (astep s t e) = true ->
  e = AKeepalive /\ exists k, a_kper s = Some k /\ t0 + k <= t
     /\ (forall t' e', In (t', e') es -> traffic e' -> t' + k <= t)
     /\ a_tmo (astep s t e) <> None.
Proof.
  intros Hm Hx Hord Hlt Hme s Ho Hk Hk'.
  assert (Hsl : Forall (slow 0) (map snd es)).
  { eapply Forall_impl; [|exact Hme]. intros [] H; cbn in *; try exact I. lia. }
  pose proof (HO_run t0 0 E es [] t0 _ Hord Hsl Hme ltac:(lia) (HO_open t0 0 resp rl kp il m x ltac:(lia) ltac:(lia))) as HH.
  fold s in HH. destruct (HH Ho) as [Hl H0 He Ha (Ht1 & Ht2) Hdt Hf Hmm]. cbn [app] in *.
  unfold astep in *. rewrite Ho in *.
  destruct e; cbn in Hk'; try congruence.
  - destruct (a_tmo s) as [w|]; [|congruence]. destruct (w <=? t); [|congruence].
    unfold on_timeout in Hk'. destruct (t <? a_tdead s) eqn:Ed; [cbn in Hk'; congruence|]. zb.
    cbv zeta in Hk'. cbn [a_out a_kout w_tmo a_epoch a_rlim] in Hk'.
    destruct (negb (a_out s) && negb (a_kout s)) eqn:Eo; [cbn in Hk'; congruence|].
    destruct (reached t (eadd (a_epoch s) (a_rlim s))) eqn:Er; [cbn in Hk'; congruence|].
    cbn [a_kout w_out w_tmo] in Hk'. rewrite Hk in Hk'. cbn in Hk'. congruence.
  - split; [reflexivity|]. destruct (a_ktimer s) as [w|]; [|congruence]. destruct (reached t w); [|congruence].
    unfold on_keepalive in *. destruct (reached t (eadd _ _)) eqn:Er; [|cbn in Hk'; congruence].
    destruct (a_kper s) as [k|] eqn:Ek; [|discriminate]. cbn in Er. zb. exists k. split; [reflexivity|].
    assert (Hb : a_klast s + k <= t) by (destruct (a_resp s); lia).
    split; [lia|]. split; [|cbn; discriminate].
    intros t' e' Hin Htr. specialize (Ht2 _ _ Hin Htr). lia.
  - destruct (a_itimer s) as [w|]; [|congruence]. destruct (reached t w); [|congruence].
    unfold on_idle in Hk'. destruct (negb _); [cbn in Hk'; congruence|]. destruct (Nat.eqb _ _); cbn in Hk'; congruence.
Qed.

Lemma idle_only E t0 resp rl kp il m x es t e :
  0 <= m <= E -> 0 <= x <= E ->
  in_order t0 es -> last_time t0 es <= t -> Forall (measured E) (map snd es) ->
  let s := arun (open_session t0 resp rl kp il m x) es in
  a_end s = None -> a_end (astep s t e) = Some Idle ->
  e = AIdle /\ a_flows s = 0%nat /\ exists l, a_ilim s = Some l /\ t0 + l <= t
     /\ forall t' e', In (t', e') es -> flow_change e' -> t' + l <= t.
Proof.
  intros Hm Hx Hord Hlt Hme s Ho Hd.
  assert (Hsl : Forall (slow 0) (map snd es)).
  { eapply Forall_impl; [|exact Hme]. intros [] H; cbn in *; try exact I. lia. }
  pose proof (HO_run t0 0 E es [] t0 _ Hord Hsl Hme ltac:(lia) (HO_open t0 0 resp rl kp il m x ltac:(lia) ltac:(lia))) as HH.
  fold s in HH. destruct (HH Ho) as [Hl H0 He Ha Ht Hdt (Hf1 & Hf2) Hmm]. cbn [app] in *.
  unfold astep in *. rewrite Ho in *.
  destruct e; cbn in Hd; try congruence.
  - destruct (a_tmo s) as [w|]; [|congruence]. destruct (w <=? t); [|congruence].
    unfold on_timeout in Hd. destruct (t <? a_tdead s) eqn:Ed; [cbn in Hd; congruence|]. zb.
    cbv zeta in Hd. cbn [a_out a_kout w_tmo a_epoch a_rlim] in Hd.
    destruct (negb (a_out s) && negb (a_kout s)) eqn:Eo; [cbn in Hd; congruence|].
    destruct (reached t (eadd (a_epoch s) (a_rlim s))) eqn:Er; [cbn in Hd; congruence|].
    cbn [a_kout w_out w_tmo] in Hd. destruct (a_kout s); cbn in Hd; congruence.
  - destruct (a_ktimer s) as [w|]; [|congruence]. destruct (reached t w); [|congruence].
    unfold on_keepalive in Hd. destruct (reached _ _); cbn in Hd; congruence.
  - split; [reflexivity|]. destruct (a_itimer s) as [w|]; [|congruence]. destruct (reached t w); [|congruence].
    unfold on_idle in Hd. destruct (reached t (eadd _ _)) eqn:Er; cbn [negb] in Hd; [|cbn in Hd; congruence].
    destruct (Nat.eqb (a_flows s) 0) eqn:Ef; [|cbn in Hd; congruence]. apply Nat.eqb_eq in Ef. split; [assumption|].
    destruct (a_ilim s) as [l|] eqn:El; [|discriminate]. cbn in Er. zb. exists l. split; [reflexivity|]. split; [lia|].
    intros t' e' Hin Hfc. specialize (Hf2 Ef _ _ Hin Hfc). lia.
Qed.

Lemma detected E D t00 resp rl kp il m x pre es k l :
  0 <= m <= E -> 0 <= x <= E -> 0 <= D ->
  in_order t00 (pre ++ es) -> Forall (measured E) (map snd (pre ++ es)) ->
  let s := arun (open_session t00 resp rl kp il m x) pre in
  let t0 := last_time t00 pre in
  a_end s = None -> a_kper s = Some k -> a_rlim s = Some l -> watched s ->
  Forall quiet (map snd es) -> punctual D s es ->
  a_end (arun s es) = None ->
  last_time t0 es <= t0 + k + l + 4 * E + 5 * D
  \/ exists t', In (t', AData) es /\ last_time t0 es <= t' + 2 * E + 2 * D.
Proof.
  intros Hm Hx HD Hord Hme s t0 Ho Hk Hl Hw Hq Hp Hend.
  apply in_order_app in Hord as (Ho1 & Ho2). rewrite map_app in Hme. apply Forall_app in Hme as (Hm1 & Hm2).
  pose proof (AB_run E pre t00 _ Hm1 Ho1 (AB_open E t00 resp rl kp il m x Hm Hx)) as HA. fold s in HA. fold t0 in HA, Ho2.
  assert (Hk0 : 0 <= k) by (destruct (HA Ho) as (_ & _ & _ & _ & _ & _ & _ & _ & _ & _ & _ & H & _); eauto).
  assert (Hl0 : 0 <= l) by (destruct (HA Ho) as (_ & _ & _ & _ & _ & _ & _ & _ & _ & _ & _ & _ & H & _); eauto).
  assert (HE : 0 <= E) by lia.
  pose proof (SI_start E D k l t0 HE HD Hk0 Hl0 s HA Ho Hk Hl Hw) as HS.
  destruct (detect E D k l t0 HE HD Hk0 Hl0 es t0 s None ltac:(lia) Ho2 HS Ho Hp Hq Hm2) as [H|(x' & [H|H] & Hb)].
  - discriminate.
  - unfold upper. lia.
  - exact Hend.
  - left. lia.
  - discriminate.
  - right. eauto.
Qed.

(** Idle sessions close. *)
Definition no_bind (e : aev) : Prop := match e with ABind | ASetIdle _ => False | _ => True end.
Lemma idle_run E D t0 l (HD : 0 <= D) es : forall t s, t0 <= t -> in_order t es -> Forall (measured E) (map snd es) -> Forall no_bind (map snd es) -> punctual D s es ->
  AB E t s -> a_end s = None -> a_ilim s = Some l -> a_flows s = 0%nat -> (forall e, In e (map snd es) -> e <> AUnbind) ->
  a_ilast s <= t0 -> (forall w, a_itimer s = Some (Some w) -> w <= t0 + l) -> t <= t0 + l + D ->
  a_end (arun s es) = None -> last_time t es <= t0 + l + D.
Proof.
  induction es as [|(t', e) r IH]; intros t s Ht Hord Hm Hn Hp HA Ho Hl Hf Hu Hi Hw Hb Hend; [exact Hb|].
  destruct Hord as (Hle & Hord). cbn in Hp. destruct Hp as (Hdue & Hp).
  cbn [map snd] in Hm, Hn. inversion Hm; inversion Hn; subst. cbn [arun] in Hend.
  assert (Ho' : a_end (astep s t' e) = None).
  { destruct (a_end (astep s t' e)) eqn:He; [|reflexivity]. rewrite arun_ended in Hend by (rewrite He; discriminate). congruence. }
  assert (Ht' : t' <= t0 + l + D).
  { destruct (HA Ho) as (_ & _ & _ & _ & _ & _ & _ & _ & _ & _ & (x & Hx & Hb') & _). destruct x as [w|]; [|congruence].
    destruct Hdue as (_ & _ & Hd & _). specialize (Hd _ Hx). specialize (Hw _ Hx). lia. }
  cbn [last_time fold_left fst].
  assert (Hinv : a_ilim (astep s t' e) = Some l /\ a_flows (astep s t' e) = 0%nat /\ a_ilast (astep s t' e) <= t0
                 /\ (forall w, a_itimer (astep s t' e) = Some (Some w) -> w <= t0 + l)).
  { unfold astep in *. rewrite Ho in *. destruct e; cbn; auto; try contradiction.
    - destruct (a_tmo s); [|auto]. destruct (_ <=? _); [|auto].
      unfold on_timeout in *. destruct (_ <? _); [cbn; auto|]. cbn in *. destruct (negb _ && negb _); [cbn; auto|].
      destruct (reached _ _); [discriminate|]. destruct (a_kout s); cbn; auto.
    - destruct (a_ktimer s); [|auto]. destruct (reached _ _); [|auto].
      unfold on_keepalive. destruct (reached _ _); cbn; auto.
    - destruct (a_itimer s) eqn:Ei; [|rewrite Ei; auto]. destruct (reached _ _); [|rewrite Ei; auto].
      unfold on_idle in *. rewrite Hl, Hf in *. cbn [eadd] in *. destruct (reached t' (Some (a_ilast s + l))); cbn [negb Nat.eqb] in *; [discriminate|].
      cbn. repeat split; auto. intros w Hw'. injection Hw' as <-. lia.
    - exfalso. apply (Hu AUnbind); [left; reflexivity|reflexivity].
    - discriminate. }
  destruct Hinv as (I1 & I2 & I3 & I4).
  eapply IH; try eassumption; try lia.
  - apply AB_step; [assumption|]. eapply AB_later; eauto.
  - intros e' Hin. apply Hu. right. exact Hin.
Qed.
Lemma idle_closes E D t00 resp rl kp il m x pre es l :
  0 <= m <= E -> 0 <= x <= E -> 0 <= D ->
  in_order t00 (pre ++ es) -> Forall (measured E) (map snd (pre ++ es)) ->
  let s := arun (open_session t00 resp rl kp il m x) pre in
  let t0 := last_time t00 pre in
  a_end s = None -> a_ilim s = Some l -> a_flows s = 0%nat ->
  Forall (fun e => ~ flow_change e /\ forall i, e <> ASetIdle i) (map snd es) -> punctual D s es ->
  a_end (arun s es) = None ->
  last_time t0 es <= t0 + l + D.
Proof.
  intros Hm Hx HD Hord Hme s t0 Ho Hl Hf Hn Hp Hend.
  apply in_order_app in Hord as (Ho1 & Ho2). rewrite map_app in Hme. apply Forall_app in Hme as (Hm1 & Hm2).
  pose proof (AB_run E pre t00 _ Hm1 Ho1 (AB_open E t00 resp rl kp il m x Hm Hx)) as HA. fold s in HA. fold t0 in HA, Ho2.
  destruct (HA Ho) as (_ & _ & _ & _ & _ & _ & _ & Hil & _ & _ & (x' & Hx' & Hb) & _ & _ & Hl0). specialize (Hl0 _ Hl).
  eapply (idle_run E D t0 l HD es t0 s); try eassumption; try lia.
  - eapply Forall_impl; [|exact Hn]. intros [] H; cbn in *; try exact I; [destruct H as (_ & H); exact (H _ eq_refl)|tauto].
  - intros e Hin ->. rewrite Forall_forall in Hn. destruct (Hn _ Hin) as (H & _). apply H. exact I.
  - intros w Hw. rewrite Hx' in Hw. injection Hw as ->. destruct Hb as [|(l' & Hl' & ?)]; [lia|]. rewrite Hl in Hl'. injection Hl' as <-. lia.
Qed.
