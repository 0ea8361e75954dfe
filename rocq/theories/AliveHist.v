(** What the fields of the session say about its past. *)
From Verif Require Import Base BaseFacts Alive AliveSpec AliveProofs.

(* r: lower bound of the retransmission timeout *)
Record HI (t0 r : Z) (hist : list (Z * aev)) (t : Z) (s : al) : Prop := mkHI {
  hi_le : forall t' e, In (t', e) hist -> t' <= t;
  hi_0 : t0 <= t;
  hi_erto : r <= a_erto s;
  hi_ans : forall x, a_epoch s = Some x -> t0 <= x /\ forall t' e, In (t', e) hist -> answer e -> t' <= x;
  hi_tr : t0 <= a_klast s /\ forall t' e, In (t', e) hist -> traffic e -> t' <= a_klast s;
  hi_data : forall t', In (t', AData) hist -> t' + r <= a_tdead s;
  hi_fl : t0 <= a_ilast s /\ ((a_flows s = 0)%nat -> forall t' e, In (t', e) hist -> flow_change e -> t' <= a_ilast s);
  hi_mrto : 0 <= a_mrto s }.

Definition HO (t0 r : Z) hist t s := a_end s = None -> HI t0 r hist t s.

Lemma in_snoc {A} (x y : A) l : In x (l ++ [y]) -> In x l \/ x = y.
Proof. rewrite in_app_iff. cbn. intuition. Qed.

Lemma HO_open t0 r resp rl kp il m x : r <= x -> 0 <= m -> HO t0 r [] t0 (open_session t0 resp rl kp il m x).
Proof. intros Hx Hm _. constructor; cbn; intros; try lia; try contradiction; try discriminate; (split; [lia|]); intros; contradiction. Qed.

Ltac old := intros; match goal with H : In _ (_ ++ [_]) |- _ => apply in_snoc in H as [H|H]; [|injection H as -> ->] end.

Lemma HO_step t0 r hist t s now e E : t <= now -> slow r e -> measured E e -> 0 <= r ->
  HO t0 r hist t s -> HO t0 r (hist ++ [(now, e)]) now (astep s now e).
Proof.
  intros Hle Hsl Hme Hr H Ho.
  assert (Hs : a_end s = None). { unfold astep in Ho. destruct (a_end s) eqn:Es; [congruence|reflexivity]. }
  destruct (H Hs) as [Hl H0 He Ha (Ht1 & Ht2) Hd (Hf1 & Hf2) Hm].
  assert (Hle' : forall t' e', In (t', e') (hist ++ [(now, e)]) -> t' <= now).
  { intros t' e' Hin. apply in_snoc in Hin as [Hin|Hin]; [specialize (Hl _ _ Hin); lia|injection Hin as -> ->; lia]. }
  assert (Hold : forall t' e', In (t', e') (hist ++ [(now, e)]) -> In (t', e') hist \/ (t' = now /\ e' = e)).
  { intros t' e' Hin. apply in_snoc in Hin as [Hin|Hin]; [auto|injection Hin as -> ->; auto]. }
  (* facts when nothing but unrelated fields changes *)
  assert (Hkeep : forall s', a_erto s' = a_erto s -> a_mrto s' = a_mrto s -> (a_epoch s' = a_epoch s \/ a_epoch s' = None \/ a_epoch s' = Some (match a_epoch s with Some x => Z.min x now | None => now end)) ->
     (a_klast s' = a_klast s \/ a_klast s' = now) -> (a_tdead s' = a_tdead s \/ a_tdead s' = now + a_erto s) -> a_ilast s' = a_ilast s -> (a_flows s' = a_flows s) ->
     ~ answer e -> ~ flow_change e -> (traffic e -> a_klast s' = now) -> (e = AData -> a_tdead s' = now + a_erto s) ->
     HI t0 r (hist ++ [(now, e)]) now s').
  { intros s' E1 E2 E3 E4 E5 E6 E7 N1 N2 T1 T2. constructor; try rewrite E1; try rewrite E2; try assumption; try lia.
    - intros x Hx. assert (Hcase : a_epoch s = Some x \/ (t0 <= x /\ x = now) \/ exists y, a_epoch s = Some y /\ x = Z.min y now).
      { destruct E3 as [E3|[E3|E3]]; rewrite E3 in Hx; [auto|discriminate|]. destruct (a_epoch s) as [y|] eqn:Ey; injection Hx as <-; [right; right; eauto|right; left; lia]. }
      destruct Hcase as [Hx'|[(Hx1 & ->)|(y & Hy & ->)]].
      + destruct (Ha _ Hx'). split; [assumption|]. intros t' e' Hin Hans. destruct (Hold _ _ Hin) as [Hin'|(-> & ->)]; [eauto|contradiction].
      + split; [assumption|]. intros; eauto.
      + destruct (Ha _ Hy) as (Ha1 & Ha2). split; [lia|]. intros t' e' Hin Hans. destruct (Hold _ _ Hin) as [Hin'|(-> & ->)]; [|contradiction].
        specialize (Ha2 _ _ Hin' Hans). specialize (Hl _ _ Hin'). lia.
    - split; [destruct E4 as [->| ->]; lia|]. intros t' e' Hin Htr. destruct (Hold _ _ Hin) as [Hin'|(-> & ->)].
      + destruct E4 as [->| ->]; [eauto|]. specialize (Hl _ _ Hin'). lia.
      + rewrite T1 by assumption. lia.
    - intros t' Hin. destruct (Hold _ _ Hin) as [Hin'|(-> & <-)].
      + destruct E5 as [->| ->]; [eauto|]. specialize (Hl _ _ Hin'). lia.
      + rewrite T2 by reflexivity. lia.
    - rewrite E6, E7. split; [assumption|]. intros Hz t' e' Hin Hfc. destruct (Hold _ _ Hin) as [Hin'|(-> & ->)]; [eauto|contradiction]. }
  unfold astep in *. rewrite Hs in *.
  destruct e; cbn [slow measured] in *.
  - apply Hkeep; cbn; auto; try tauto; try discriminate.
  - apply Hkeep; cbn; auto; try tauto; try discriminate.
  - constructor; cbn; try assumption; try lia.
    + intros x Hx. injection Hx as <-. split; [lia|]. intros; eauto.
    + split; [assumption|]. intros t' e' Hin Htr. destruct (Hold _ _ Hin) as [Hin'|(-> & ->)]; [eauto|contradiction].
    + intros t' Hin. destruct (Hold _ _ Hin) as [Hin'|(-> & ?)]; [specialize (Hl _ _ Hin'); lia|discriminate].
    + split; [assumption|]. intros Hz t' e' Hin Hfc. destruct (Hold _ _ Hin) as [Hin'|(-> & ->)]; [eauto|contradiction].
  - constructor; cbn; try assumption; try lia.
    + intros; discriminate.
    + split; [assumption|]. intros t' e' Hin Htr. destruct (Hold _ _ Hin) as [Hin'|(-> & ->)]; [eauto|contradiction].
    + intros t' Hin. destruct (Hold _ _ Hin) as [Hin'|(-> & ?)]; [eauto|discriminate].
    + split; [assumption|]. intros Hz t' e' Hin Hfc. destruct (Hold _ _ Hin) as [Hin'|(-> & ->)]; [eauto|contradiction].
  - apply Hkeep; cbn; auto; try tauto; try discriminate.
  - destruct (a_tmo s) as [w|]; [|apply Hkeep; cbn; auto; try tauto; try discriminate].
    destruct (w <=? now); [|apply Hkeep; cbn; auto; try tauto; try discriminate].
    unfold on_timeout in *. destruct (now <? a_tdead s); [apply Hkeep; cbn; auto; try tauto; try discriminate|].
    cbv zeta in *. cbn [a_out a_kout w_tmo a_epoch a_rlim] in *.
    destruct (negb (a_out s) && negb (a_kout s)); [apply Hkeep; cbn; auto; try tauto; try discriminate|].
    destruct (reached _ _); [discriminate Ho|].
    cbn [a_kout w_out w_tmo] in *. destruct (a_kout s); apply Hkeep; cbn; auto; try tauto; try discriminate.
  - destruct (a_ktimer s) as [w|]; [|apply Hkeep; cbn; auto; try tauto; try discriminate].
    destruct (reached now w); [|apply Hkeep; cbn; auto; try tauto; try discriminate].
    unfold on_keepalive in *. destruct (reached _ _); apply Hkeep; cbn; auto; try tauto; try discriminate.
  - destruct (a_itimer s) as [w|]; [|apply Hkeep; cbn; auto; try tauto; try discriminate].
    destruct (reached now w); [|apply Hkeep; cbn; auto; try tauto; try discriminate].
    unfold on_idle in *. destruct (negb _); [apply Hkeep; cbn; auto; try tauto; try discriminate|].
    destruct (Nat.eqb _ _); [discriminate Ho|]. apply Hkeep; cbn; auto; try tauto; try discriminate.
  - apply Hkeep; cbn; auto; try tauto; try discriminate.
  - apply Hkeep; cbn; auto; try tauto; try discriminate.
  - apply Hkeep; cbn; auto; try tauto; try discriminate.
  - constructor; cbn; try assumption; try lia.
    + intros x Hx. destruct (Ha _ Hx). split; [assumption|]. intros t' e' Hin Htr. destruct (Hold _ _ Hin) as [Hin'|(-> & ->)]; [eauto|contradiction].
    + split; [assumption|]. intros t' e' Hin Htr. destruct (Hold _ _ Hin) as [Hin'|(-> & ->)]; [eauto|contradiction].
    + intros t' Hin. destruct (Hold _ _ Hin) as [Hin'|(-> & ?)]; [eauto|discriminate].
    + split; [assumption|]. intros Hz t' e' Hin Hfc. destruct (Hold _ _ Hin) as [Hin'|(-> & ->)]; [eauto|contradiction].
  - constructor; cbn; try assumption; try lia.
    + intros x Hx. destruct (Ha _ Hx). split; [assumption|]. intros t' e' Hin Htr. destruct (Hold _ _ Hin) as [Hin'|(-> & ->)]; [eauto|contradiction].
    + split; [assumption|]. intros t' e' Hin Htr. destruct (Hold _ _ Hin) as [Hin'|(-> & ->)]; [eauto|contradiction].
    + intros t' Hin. destruct (Hold _ _ Hin) as [Hin'|(-> & ?)]; [eauto|discriminate].
  - constructor; cbn; try assumption; try lia.
    + intros x Hx. destruct (Ha _ Hx). split; [assumption|]. intros t' e' Hin Htr. destruct (Hold _ _ Hin) as [Hin'|(-> & ->)]; [eauto|contradiction].
    + split; [assumption|]. intros t' e' Hin Htr. destruct (Hold _ _ Hin) as [Hin'|(-> & ->)]; [eauto|contradiction].
    + intros t' Hin. destruct (Hold _ _ Hin) as [Hin'|(-> & ?)]; [eauto|discriminate].
    + split; [lia|]. intros; eauto.
  - discriminate Ho.
Qed.

Lemma HO_run t0 r E es : forall hist t s, in_order t es -> Forall (slow r) (map snd es) -> Forall (measured E) (map snd es) -> 0 <= r ->
  HO t0 r hist t s -> HO t0 r (hist ++ es) (last_time t es) (arun s es).
Proof.
  induction es as [|(t', e) es IH]; intros hist t s Ho Hs Hm Hr H.
  - rewrite app_nil_r. exact H.
  - destruct Ho as (Hle & Ho). cbn [map snd] in Hs, Hm. inversion Hs; inversion Hm; subst.
    replace (hist ++ (t', e) :: es) with ((hist ++ [(t', e)]) ++ es) by (rewrite <- app_assoc; reflexivity).
    cbn [arun last_time fold_left fst]. apply IH; try assumption.
    eapply HO_step; eassumption.
Qed.
