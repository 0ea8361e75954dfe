(** A peer that has gone silent is noticed. *)
From Verif Require Import Base BaseFacts Alive AliveSpec AliveProofs.

Section Silent.
  Variables (E D k L t0 : Z).
  Hypotheses (HE : 0 <= E) (HD : 0 <= D) (Hk : 0 <= k) (HL : 0 <= L).
  Let X0 := t0 + 2 * E + 3 * D + k.
  Let M := X0 + L.
  Definition upper (ld : option Z) : Z := Z.max M (match ld with Some x => x | None => t0 end).

  Inductive phase (s : al) (ld : option Z) : Prop :=
  | PA e w : a_out s || a_kout s = true -> a_epoch s = Some e -> a_tmo s = Some w -> w <= a_tdead s ->
             a_tdead s <= upper ld + E + (match a_ktimer s with Some _ => 0 | None => E + D end) -> phase s ld
  | PB w : a_out s = true -> a_kout s = false -> a_epoch s = None -> a_tmo s = Some w -> w <= a_tdead s -> a_tdead s <= t0 + E -> ld = None -> phase s ld
  | PR r : a_out s = false -> a_kout s = false -> a_ready s = Some r -> r <= M -> (a_epoch s = None -> r <= t0 + E + D) -> a_tmo s = None -> phase s ld
  | PC w : a_out s = false -> a_kout s = false -> a_tmo s = Some w -> w <= a_tdead s -> a_tdead s <= t0 + E -> ld = None -> phase s ld
  | PD w : a_out s = false -> a_kout s = false -> a_tmo s = None -> a_ktimer s = Some (Some w) -> ld = None -> phase s ld.

  Record SI (t : Z) (s : al) (ld : option Z) : Prop := mkSI {
    si_ab : AB E t s;
    si_kper : a_kper s = Some k;
    si_rlim : a_rlim s = Some L;
    si_ka : a_kout s = false -> ld = None -> a_klast s <= t0 /\ forall w, a_ktimer s = Some (Some w) -> w <= t0 + E + D + k + E;
    si_room : a_room s = false -> ld = None;
    si_epoch : forall e, a_epoch s = Some e -> e <= X0;
    si_listen : a_ktimer s <> None \/ a_room s = true \/ a_kout s = true;
    si_phase : phase s ld }.

  Lemma SI_start s : AB E t0 s -> a_end s = None -> a_kper s = Some k -> a_rlim s = Some L -> a_ktimer s <> None \/ a_room s = true -> SI t0 s None.
  Proof.
    intros HA Ho Hkp Hrl Hl.
    destruct (HA Ho) as (H1 & H2 & H3 & H4 & H5 & H6 & H7 & H8 & H9 & H10 & H11 & H12 & H13 & H14).
    constructor; try assumption; try reflexivity.
    - intros _ _. split; [assumption|]. intros w Hw. specialize (H6 _ Hw). cbn in H6.
      destruct H6 as [|(k' & Hk' & ?)]; [lia|]. rewrite Hkp in Hk'. injection Hk' as <-. lia.
    - intros e He. specialize (H5 _ He). unfold X0. lia.
    - tauto.
    - assert (HM : t0 + E <= upper None + E) by (unfold upper, M, X0; lia).
      destruct (a_kout s) eqn:Ek.
      + destruct (H4 eq_refl) as (Ht & He). destruct (a_tmo s) as [w|] eqn:Et; [|contradiction]. destruct (a_epoch s) as [e|] eqn:Ee; [|contradiction].
        destruct (H2 _ eq_refl). eapply PA; eauto. { rewrite Ek. apply orb_true_r. } destruct (a_ktimer s); lia.
      + destruct (a_out s) eqn:Eo.
        * specialize (H3 eq_refl). destruct (a_tmo s) as [w|] eqn:Et; [|contradiction]. destruct (H2 _ eq_refl).
          destruct (a_epoch s) as [e|] eqn:Ee.
          -- eapply PA; eauto. { rewrite Eo. reflexivity. } destruct (a_ktimer s); lia.
          -- eapply PB; eauto.
        * destruct (a_tmo s) as [w|] eqn:Et. { destruct (H2 _ eq_refl). eapply PC; eauto. }
          destruct (a_ktimer s) as [[w|]|] eqn:Ekt.
          -- eapply PD; eauto.
          -- specialize (H6 _ eq_refl). cbn in H6. congruence.
          -- destruct (a_ready s) as [r|] eqn:Er.
             ++ specialize (H10 _ eq_refl). eapply PR; eauto; unfold M, X0; intros; lia.
             ++ exfalso. destruct H9 as [H|[H|[H|H]]]; try congruence. destruct Hl as [Hl|Hl]; congruence.
  Qed.

  (* every event finds some alarm that is due soon *)
  Lemma SI_time t s ld now : SI t s ld -> due D now s -> now <= upper ld + 2 * E + 2 * D.
  Proof.
    intros HS (Hd1 & Hd2 & Hd3 & Hd4). destruct (si_phase _ _ _ HS).
    - specialize (Hd1 _ H1). destruct (a_ktimer s); lia.
    - specialize (Hd1 _ H2). unfold upper, M, X0. lia.
    - specialize (Hd4 _ H1). unfold upper. lia.
    - specialize (Hd1 _ H1). unfold upper, M, X0. lia.
    - specialize (Hd2 _ H2). destruct (si_ka _ _ _ HS H0 H3) as (_ & Hw). specialize (Hw _ H2). unfold upper, M, X0. lia.
  Qed.
  (* as long as no data has been sent and the epoch is not yet set, the time is early *)
  Lemma SI_epoch_time t s ld now : SI t s ld -> due D now s -> a_epoch s = None -> now <= X0.
  Proof.
    intros HS (Hd1 & Hd2 & Hd3 & Hd4) Hn. destruct (si_phase _ _ _ HS).
    - congruence.
    - specialize (Hd1 _ H2). unfold X0. lia.
    - specialize (Hd4 _ H1). specialize (H3 Hn). unfold X0. lia.
    - specialize (Hd1 _ H1). unfold X0. lia.
    - specialize (Hd2 _ H2). destruct (si_ka _ _ _ HS H0 H3) as (_ & Hw). specialize (Hw _ H2). unfold X0. lia.
  Qed.

  Definition ld_next (now : Z) (e : aev) (ld : option Z) : option Z := match e with AData => Some now | _ => ld end.

  Lemma SI_step t s ld now e : t0 <= t -> t <= now -> SI t s ld -> a_end s = None -> due D now s -> quiet e -> measured E e ->
    (forall x, ld = Some x -> x <= now) ->
    a_end (astep s now e) = None -> SI now (astep s now e) (ld_next now e ld).
  Proof.
    intros Ht0 Hle HS Ho Hdue Hq Hme Hld Ho'.
    pose proof (AB_step E now s e Hme (AB_later _ _ _ _ Hle (si_ab _ _ _ HS))) as HAB.
    pose proof (SI_time _ _ _ _ HS Hdue) as Htime.
    pose proof (SI_epoch_time _ _ _ _ HS Hdue) as Hepo.
    destruct (si_ab _ _ _ HS Ho) as (H1 & H2 & H3 & H4 & H5 & H6 & H7 & H8 & H9 & H10 & H11 & H12 & H13 & H14).
    destruct HS as [_ Skp Srl Ska Sroom Sep Slis Sph].
    destruct Hdue as (Hd1 & Hd2 & Hd3 & Hd4).
    assert (Hmin : match a_epoch s with Some e => Z.min e now | None => now end <= X0).
    { destruct (a_epoch s) as [e0|] eqn:Ee; [specialize (Sep _ eq_refl); lia|auto]. }
    unfold astep in *. rewrite Ho in *.
    destruct e; cbn [quiet] in Hq; try contradiction; cbn [ld_next].
    - (* data *)
      constructor; try assumption; cbn.
      + intros _ H; discriminate.
      + discriminate.
      + intros e He. injection He as <-. exact Hmin.
      + right; left; reflexivity.
      + eapply PA; cbn; try reflexivity.
        * destruct (a_tmo s) as [w|] eqn:Et; [|lia]. destruct (H2 _ eq_refl). destruct (_ <? _) eqn:Eb; zb; lia.
        * unfold upper. destruct (a_ktimer s); lia.
    - (* timeout *)
      destruct (a_tmo s) as [w|] eqn:Et; [|constructor; assumption].
      destruct (w <=? now) eqn:Ew; [|constructor; try assumption]. zb.
      specialize (Hd1 _ eq_refl).
      unfold on_timeout in *. destruct (now <? a_tdead s) eqn:Ed; zb.
      { constructor; try assumption. destruct Sph; try congruence.
        - eapply PA; cbn; eauto; try lia.
        - eapply PB; cbn; eauto; lia.
        - eapply PC; cbn; eauto; lia. }
      cbv zeta in *. cbn [a_out a_kout w_tmo a_epoch a_rlim] in *.
      destruct (negb (a_out s) && negb (a_kout s)) eqn:Eo.
      { zb. destruct Sph; try congruence.
        - rewrite H, H0 in *. discriminate.
        - constructor; try assumption; cbn; auto.
          + intros _ _. split; [apply Ska; assumption|]. intros w1 Hw1. injection Hw1 as <-. lia.
          + intros; discriminate.
          + left; discriminate.
          + eapply PD; cbn; eauto. }
      destruct (reached now (eadd (a_epoch s) (a_rlim s))) eqn:Er; [discriminate Ho'|].
      assert (HM : forall e, a_epoch s = Some e -> now < M).
      { intros e He. rewrite He, Srl in Er. cbn in Er. zb. specialize (Sep _ He). unfold M. lia. }
      destruct (a_kout s) eqn:Ek; cbn [a_kout w_out w_tmo] in *; rewrite ?Ek in *.
      + (* ping again *)
        destruct (H4 eq_refl) as (_ & Hen). destruct (a_epoch s) as [e|] eqn:Ee; [|contradiction]. specialize (HM _ eq_refl).
        constructor; try assumption; cbn; auto.
        * discriminate.
        * intros x Hx. injection Hx as <-. exact Hmin.
        * eapply PA; cbn; rewrite ?Ee; try reflexivity. unfold upper. destruct (a_ktimer s); lia.
      + destruct (a_out s) eqn:Eout; [|discriminate Eo].
        constructor; try assumption; cbn.
        * intros _. apply Ska. reflexivity.
        * destruct Slis as [?|[?|?]]; [auto|auto|discriminate].
        * destruct (a_room s) eqn:Eroom.
          -- eapply PR; cbn; try reflexivity; auto.
             ++ destruct (a_epoch s) as [e|] eqn:Ee; [specialize (HM _ eq_refl); lia|].
                destruct Sph; try congruence. unfold M, X0. lia.
             ++ intros Hn. destruct Sph; try congruence. lia.
          -- destruct Slis as [Hkt|[Hx|Hx]]; try congruence.
             destruct (a_ktimer s) as [[w1|]|] eqn:Ekt.
             ++ eapply PD; cbn; eauto.
             ++ specialize (H6 _ eq_refl). cbn in H6. congruence.
             ++ contradiction.
    - (* keepalive *)
      destruct (a_ktimer s) as [w|] eqn:Ekt; [|constructor; try assumption; rewrite ?Ekt; assumption].
      destruct (reached now w) eqn:Ew; [|constructor; try assumption; rewrite ?Ekt; assumption].
      unfold on_keepalive in *. rewrite Skp in *. cbn [eadd] in *.
      destruct (reached now (Some _)) eqn:Er.
      + (* ping *)
        constructor; try assumption; try reflexivity; cbn.
        * discriminate.
        * intros e He. injection He as <-. exact Hmin.
        * auto.
        * eapply PA; cbn; try reflexivity.
          -- apply orb_true_r.
          -- destruct (a_tmo s) as [w1|] eqn:Et; [|lia]. destruct (H2 _ eq_refl). destruct (_ <? _) eqn:Eb; zb; lia.
          -- assert (now <= upper ld + E + D); [|lia].
             destruct Sph; try rewrite Ekt in *; unfold upper, M, X0 in *; try (specialize (Hd1 _ ltac:(eassumption)); lia).
             ++ specialize (Hd4 _ ltac:(eassumption)). lia.
             ++ match goal with H : Some w = Some (Some _) |- _ => injection H as -> end. specialize (Hd2 _ eq_refl). destruct (Ska ltac:(assumption) ltac:(assumption)) as (_ & Hw). specialize (Hw _ eq_refl). lia.
      + constructor; try assumption; try reflexivity; cbn.
        * intros Hko Hn. destruct (Ska Hko Hn) as (Hka & _). split; [assumption|]. intros w1 Hw1. injection Hw1 as <-. destruct (a_resp s); lia.
        * left; discriminate.
        * destruct Sph.
          -- eapply PA; cbn; eauto. rewrite Ekt in *. assumption.
          -- eapply PB; cbn; eauto.
          -- eapply PR; cbn; eauto.
          -- eapply PC; cbn; eauto.
          -- eapply PD; cbn; eauto.
    - (* idle *)
      destruct (a_itimer s) as [w|] eqn:Et; [|constructor; assumption].
      destruct (reached now w) eqn:Ew; [|constructor; assumption].
      unfold on_idle in *. destruct (negb _) eqn:Er.
      + constructor; try assumption. destruct Sph; [eapply PA|eapply PB|eapply PR|eapply PC|eapply PD]; cbn; eauto.
      + destruct (Nat.eqb _ _); [discriminate Ho'|].
        constructor; try assumption. destruct Sph; [eapply PA|eapply PB|eapply PR|eapply PC|eapply PD]; cbn; eauto.
    - constructor; try assumption. destruct Sph; [eapply PA|eapply PB|eapply PR|eapply PC|eapply PD]; cbn; eauto.
    - constructor; try assumption. destruct Sph; [eapply PA|eapply PB|eapply PR|eapply PC|eapply PD]; cbn; eauto.
    - constructor; try assumption. destruct Sph; [eapply PA|eapply PB|eapply PR|eapply PC|eapply PD]; cbn; eauto.
    - discriminate Ho'.
  Qed.

  Lemma arun_ended es : forall s, a_end s <> None -> arun s es = s.
  Proof.
    induction es as [|(t, e) r IH]; intros s H; [reflexivity|]. cbn.
    assert (Hs : astep s t e = s) by (unfold astep; destruct (a_end s); [reflexivity|contradiction]). rewrite Hs. apply IH. assumption.
  Qed.

  Lemma detect es : forall t s ld,
    t0 <= t -> in_order t es -> SI t s ld -> a_end s = None -> punctual D s es -> Forall quiet (map snd es) -> Forall (measured E) (map snd es) ->
    (forall x, ld = Some x -> x <= t) -> t <= upper ld + 2 * E + 2 * D -> a_end (arun s es) = None ->
    last_time t es <= M + 2 * E + 2 * D \/ exists x, (ld = Some x \/ In (x, AData) es) /\ last_time t es <= x + 2 * E + 2 * D.
  Proof.
    induction es as [|(t', e) r IH]; intros t s ld Ht0 Hord HS Ho Hp Hq Hm Hld Hb Hend.
    - cbn [last_time fold_left]. unfold upper in Hb. destruct ld as [x|].
      + destruct (Z.max_spec M x) as [(_ & Hx)|(_ & Hx)]; rewrite Hx in Hb; [right; exists x; auto|auto].
      + left. unfold M, X0 in *. lia.
    - cbn in Hord, Hp. destruct Hord as (Hle & Hord), Hp as (Hdue & Hp). cbn in Hq, Hm. inversion Hq; inversion Hm; subst.
      cbn [arun] in Hend.
      assert (Ho' : a_end (astep s t' e) = None).
      { destruct (a_end (astep s t' e)) eqn:He; [|reflexivity]. rewrite arun_ended in Hend by (rewrite He; discriminate). congruence. }
      assert (Hld' : forall x, ld = Some x -> x <= t') by (intros x Hx; specialize (Hld _ Hx); lia).
      pose proof (SI_step t s ld t' e Ht0 Hle HS Ho Hdue ltac:(assumption) ltac:(assumption) Hld' Ho') as HS'.
      assert (Hld2 : forall x, ld_next t' e ld = Some x -> x <= t').
      { destruct e; cbn; try assumption. intros x Hx. injection Hx as <-. lia. }
      assert (Hb2 : t' <= upper (ld_next t' e ld) + 2 * E + 2 * D).
      { pose proof (SI_time _ _ _ _ HS Hdue). destruct e; cbn [ld_next]; try assumption. unfold upper. lia. }
      destruct (IH t' _ _ ltac:(lia) Hord HS' Ho' Hp ltac:(assumption) ltac:(assumption) Hld2 Hb2 Hend) as [|(x & Hx & Hx2)].
      + left. exact H.
      + right. exists x. cbn [last_time fold_left fst]. split; [|exact Hx2].
        destruct Hx as [Hx|Hx]; [|right; right; assumption].
        destruct e; cbn in Hx; auto. injection Hx as <-. right; left. reflexivity.
  Qed.
End Silent.
