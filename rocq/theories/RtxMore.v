(** More lemmas for PropRtx.v. *)
From Verif Require Import Base Rtx RtxSpec RtxProofs.
From Coq Require Import Lia.

(** ** IIKeying *)
Record KEY (u : Z) (s : st) : Prop := {
  k_gen : forall g t, In (EStart g t) (log s) -> 1 <= g <= gen s;
  k_nn : 0 <= gen s;
  k_cur : 0 < gen s -> exists t, In (EStart (gen s) t) (log s);
  k_one : forall g t t', In (EStart g t) (log s) -> In (EStart g t') (log s) -> t = t';
  k_new : forall g, gen s < g -> key_times g (log s) = [];
  k_seq : forall g t, In (EStart g t) (log s) -> seq_ok u t (clock s) (key_times g (log s));
  k_tm : forall t x, In (EStart (gen s) t) (log s) -> key s = Some x -> tm_ok u t (key_times (gen s) (log s)) x;
  k_has : key s <> None -> 0 < gen s;
  k_on : state s = SKeying -> 0 < gen s -> key s <> None;
  k_hello : state s = SHello -> gen s = 0
}.
Lemma KEY_keep : forall u s s', (key s' = key s \/ key s' = None /\ state s' <> SKeying) -> gen s' = gen s -> clock s <= clock s' -> (state s' = SHello -> state s = SHello) -> (state s' = SKeying -> state s = SKeying \/ gen s = 0) ->
  (forall a, key_times a (log s') = key_times a (log s)) -> (forall a t, In (EStart a t) (log s') <-> In (EStart a t) (log s)) -> KEY u s -> KEY u s'.
Proof.
  intros u s s' E1 E2 E3 E4 E5 E6 E7 [A B C D E F G H I J]. split.
  - intros g t X. apply E7 in X. rewrite E2. eauto.
  - lia.
  - rewrite E2. intro X. destruct (C X) as [t Y]. exists t. now apply E7.
  - intros g t t' X Y. apply E7 in X, Y. eauto.
  - intros g X. rewrite E6. apply E. lia.
  - intros g t X. apply E7 in X. rewrite E6. eapply seq_later; eauto.
  - intros t x X Y. rewrite E2 in X. apply E7 in X. rewrite E2, E6. destruct E1 as [E1|[E1 _]]; rewrite E1 in Y; [eauto|discriminate].
  - rewrite E2. intro X. destruct E1 as [E1|[E1 _]]; [rewrite E1 in X; auto|congruence].
  - rewrite E2. intros X Y. destruct E1 as [E1|[E1 Z]]; [rewrite E1|congruence]. destruct (E5 X); [auto|lia].
  - rewrite E2. auto.
Qed.
Ltac ek := ev; try (right; split; [reflexivity|discriminate]).
Lemma KEY_abort : forall u s, KEY u s -> KEY u (abort s).
Proof. intros u s H. unfold abort. destruct (state s) eqn:E; auto; apply (KEY_keep u s); ek. Qed.
Lemma KEY_start : forall u s, KEY u s -> KEY u (start_key s).
Proof.
  intros u s [A B C D E F G H I J]. unfold start_key. fields. destruct (state s) eqn:S.
  2:{ split; fields.
    - intros g t X. apply in_snoc in X. destruct X as [X|X]; [specialize (A g t X); lia|]. injection X. intros. lia.
    - lia.
    - intros _. exists (clock s). apply in_snoc. auto.
    - intros g t t' X Y. apply in_snoc in X, Y. destruct X as [X|X], Y as [Y|Y]; [eauto| | |].
      + injection Y. intros. apply A in X. lia.
      + injection X. intros. apply A in Y. lia.
      + congruence.
    - intros g X. rewrite kt_snoc, app_nil_r. apply E. lia.
    - intros g t X. rewrite kt_snoc, app_nil_r. apply in_snoc in X. destruct X as [X|X]; [eauto|]. injection X. intros -> ->. rewrite E by lia. intros n x Y. destruct n; discriminate.
    - intros t x X Y. rewrite kt_snoc, app_nil_r. rewrite E by lia. apply in_snoc in X. destruct X as [X|X]; [apply A in X; lia|]. injection X. injection Y. intros. subst. split; fields; [reflexivity|]. unfold total, last_or. cbn [length last Z.of_nat]. lia.
    - lia.
    - discriminate.
    - congruence. }
  all: split; fields; auto; try congruence; intros; discriminate.
Qed.
Lemma KEY_fire : forall u s, 0 < u -> KEY u s -> KEY u (fire_key u s).
Proof.
  intros u s U H0. unfold fire_key. destruct (key s) as [t|] eqn:K; auto. destruct (w t <=? clock s) eqn:W; auto. apply Z.leb_le in W. destruct H0 as [A B C D E F G H I J].
  assert (G0 : 0 < gen s) by (apply H; congruence). destruct (C G0) as [t0 I0].
  destruct (state s) eqn:S.
  2:{ destruct (send_ok u t0 (clock s) (key_times (gen s) (log s)) t U (F _ _ I0) (G _ _ I0 K) W) as (SO & t' & AG & TO).
    unfold IIKEYING_INITIAL_RTX, IIKEYING_BACKOFF_INTERVAL. rewrite AG. split; fields.
    - intros g x X. apply in_snoc in X. destruct X as [X|X]; [eauto|discriminate].
    - lia.
    - intros _. exists t0. apply in_snoc. auto.
    - intros g x x' X Y. apply in_snoc in X, Y. destruct X as [X|X]; [|discriminate]. destruct Y as [Y|Y]; [|discriminate]. eauto.
    - intros g X. rewrite kt_snoc. replace (gen s =? g) with false by (symmetry; apply Z.eqb_neq; lia). rewrite app_nil_r. auto.
    - intros g x X. apply in_snoc in X. destruct X as [X|X]; [|discriminate]. rewrite kt_snoc. destruct (gen s =? g) eqn:Eg; [|rewrite app_nil_r; eauto]. apply Z.eqb_eq in Eg. subst g. rewrite (D _ _ _ X I0). exact SO.
    - intros x y X Y. apply in_snoc in X. destruct X as [X|X]; [|discriminate]. injection Y. intro Y'. subst y. rewrite kt_snoc, Z.eqb_refl. rewrite (D _ _ _ X I0). exact TO.
    - lia.
    - discriminate.
    - congruence. }
  all: split; fields; auto; try congruence; intros; discriminate.
Qed.
Lemma KEY_step : forall u s o, 0 < u -> KEY u s -> KEY u (step u s o).
Proof.
  intros u s o U H. destruct o; cbn [step].
  - apply (KEY_keep u s); ev. tauto.
  - unfold add_address. destruct (state s) eqn:S; auto. destruct (lookup a (hello s)); auto. match goal with |- KEY u (if ?b then _ else _) => destruct b end; auto. apply (KEY_keep u s); ev.
  - unfold fire_hello. destruct (lookup a (hello s)) as [[t|]|]; auto. destruct (w t <=? clock s); auto. destruct (state s) eqn:S; apply (KEY_keep u s); ev; tauto.
  - destruct (state s) eqn:S; auto. apply (KEY_keep u s); ev. right. now apply (k_hello u).
  - now apply KEY_start.
  - now apply KEY_fire.
  - destruct (state s) eqn:S; auto; apply (KEY_keep u s); ev.
  - destruct (state s) eqn:S; auto. apply (KEY_keep u s); unfold set_near; ek.
  - unfold fire_near. destruct (near s) as [[t lim]|]; auto. destruct (w t <=? clock s); auto.
    assert (KEY u (with_near (abort s) None)) by (apply (KEY_keep u (abort s)); [ev..|]; try tauto; now apply KEY_abort).
    destruct (state s) eqn:S; auto. destruct (lim <=? clock s); auto. apply (KEY_keep u s); ev.
  - destruct (state s) eqn:S; auto. apply (KEY_keep u s); unfold set_far; ek.
  - unfold fire_far. destruct (far s); auto. destruct (z <=? clock s); auto. apply (KEY_keep u (abort s)); [ev..|]; try tauto; now apply KEY_abort.
  - unfold fire_ult. destruct (ult s); auto. destruct (z <=? clock s); auto.
    assert (KEY u (with_ult (abort s) None)) by (apply (KEY_keep u (abort s)); [ev..|]; try tauto; now apply KEY_abort).
    destruct (state s) eqn:S; auto; apply (KEY_keep u s); ev; tauto.
  - now apply KEY_abort.
Qed.

(** ** Closing *)
Record CLO (u : Z) (s : st) : Prop := {
  c_ph : ph (state s) (log s);
  c_none : (forall t, ~ In (ENear t) (log s)) -> near s = None /\ close_times (log s) = [];
  c_one : forall t t', In (ENear t) (log s) -> In (ENear t') (log s) -> t = t';
  c_seq : forall t, In (ENear t) (log s) -> t <= clock s /\ forall n x, nth_error (close_times (log s)) n = Some x -> t + 5000000 * u * Z.of_nat n <= x < t + 90000000 * u;
  c_tm : forall t x lim, In (ENear t) (log s) -> near s = Some (x, lim) -> lim = t + 90000000 * u /\ iv x = 5000000 * u /\ t + 5000000 * u * zlen (close_times (log s)) <= w x < t + 95000000 * u;
  c_on : state s = SNear -> near s <> None;
  c_far : state s = SFar -> far s <> None;
  c_fone : forall t t', In (EFar t) (log s) -> In (EFar t') (log s) -> t = t';
  c_ftm : forall t x, In (EFar t) (log s) -> far s = Some x -> x = t + 19000000 * u;
  c_ult : state s = SHello \/ state s = SKeying -> ult s = Some (95000000 * u)
}.
Lemma has_near : forall l, has isN l = false <-> forall t, ~ In (ENear t) l.
Proof.
  intro l. split.
  - intros H t I. assert (has isN l = true) by (apply existsb_exists; exists (ENear t); auto). congruence.
  - intro H. destruct (has isN l) eqn:E; auto. apply existsb_exists in E. destruct E as (e & I & X). destruct e; try discriminate. exfalso. eapply H; eauto.
Qed.
Lemma has_far : forall l, has isF l = false -> forall t, ~ In (EFar t) l.
Proof. intros l H t I. assert (has isF l = true) by (apply existsb_exists; exists (EFar t); auto). congruence. Qed.
Lemma CLO_keep : forall u s s', ph (state s') (log s') -> near s' = near s -> far s' = far s -> clock s <= clock s' ->
  (state s' = SNear -> state s = SNear) -> (state s' = SFar -> state s = SFar) -> (state s' = SHello \/ state s' = SKeying -> (state s = SHello \/ state s = SKeying) /\ ult s' = ult s) ->
  close_times (log s') = close_times (log s) -> (forall t, In (ENear t) (log s') <-> In (ENear t) (log s)) -> (forall t, In (EFar t) (log s') <-> In (EFar t) (log s)) -> CLO u s -> CLO u s'.
Proof.
  intros u s s' P E1 E2 E3 E4 E5 E6 E7 E8 E9 [A B C D E F G H I J]. split; auto.
  - intro N. rewrite E1, E7. apply B. intros t X. apply (N t). now apply E8.
  - intros t t' X Y. apply E8 in X, Y. auto.
  - intros t X. apply E8 in X. rewrite E7. destruct (D t X). split; [lia|auto].
  - intros t x lim X Y. apply E8 in X. rewrite E1 in Y. rewrite E7. eauto.
  - intro X. rewrite E1. auto.
  - intro X. rewrite E2. auto.
  - intros t t' X Y. apply E9 in X, Y. auto.
  - intros t x X Y. apply E9 in X. rewrite E2 in Y. eauto.
  - intro X. destruct (E6 X) as [Y Z]. rewrite Z. auto.
Qed.
Lemma ph_abort : forall s, ph (state s) (log s) -> ph (state (abort s)) (log (abort s)).
Proof. intros s H. exact (ph_step 1 s Abort H). Qed.
Lemma CLO_abort : forall u s, CLO u s -> CLO u (abort s).
Proof.
  intros u s H. pose proof (ph_abort s (c_ph u s H)) as P. revert P. unfold abort. destruct (state s) eqn:E; auto; intro P; apply (CLO_keep u s); auto; ev; try (destruct H0; discriminate).
Qed.
(** dropping the timers of a session that is closed *)
Lemma CLO_drop : forall u s s', state s = SClosed -> state s' = SClosed -> log s' = log s -> clock s' = clock s -> (near s' = near s \/ near s' = None) -> (far s' = far s \/ far s' = None) -> CLO u s -> CLO u s'.
Proof.
  intros u s s' S S' L T N Fa [A B C D E F G H I J]. split; rewrite ?S', ?L, ?T; auto; try discriminate; try (intros [X|X]; discriminate).
  - rewrite S in A. exact A.
  - intro X. destruct (B X) as [Y Z]. split; auto. destruct N as [N|N]; congruence.
  - intros t x lim X Y. destruct N as [N|N]; rewrite N in Y; [eauto|discriminate].
  - intros t x X Y. destruct Fa as [N'|N']; rewrite N' in Y; [eauto|discriminate].
Qed.
Lemma abort_closed : forall s, state (abort s) = SClosed.
Proof. intro s. unfold abort. destruct (state s) eqn:E; auto. Qed.
Lemma CLO_step : forall u s o, 0 < u -> CLO u s -> CLO u (step u s o).
Proof.
  intros u s o U H. pose proof (ph_step u s o (c_ph u s H)) as P. destruct o; cbn [step] in *.
  - apply (CLO_keep u s); auto; ev; tauto.
  - revert P. unfold add_address. destruct (state s) eqn:S; auto. destruct (lookup a (hello s)); auto. match goal with |- context [if ?b then _ else _] => destruct b end; auto. intro P. apply (CLO_keep u s); auto; ev.
  - revert P. unfold fire_hello. destruct (lookup a (hello s)) as [[t|]|]; auto. destruct (w t <=? clock s); auto. destruct (state s) eqn:S; intro P; apply (CLO_keep u s); auto; ev; tauto.
  - revert P. destruct (state s) eqn:S; auto. intro P. apply (CLO_keep u s); auto; ev.
  - revert P. unfold start_key. fields. destruct (state s) eqn:S; intro P; apply (CLO_keep u s); auto; ev; tauto.
  - revert P. unfold fire_key. destruct (key s); auto. destruct (w t <=? clock s); auto. destruct (state s) eqn:S; intro P; apply (CLO_keep u s); auto; ev; tauto.
  - revert P. destruct (state s) eqn:S; auto; intro P; apply (CLO_keep u s); auto; ev; destruct H0; discriminate.
  - destruct (state s) eqn:S; auto. unfold set_near in *. destruct H as [A B C D E F G H I J]. rewrite S in A. destruct A as (A1 & A2 & A3 & A4). pose proof (proj1 (has_near _) A2) as N. destruct (B N) as [B1 B2].
    split; fields; auto; try discriminate; try (intros [X|X]; discriminate).
    + intro X. exfalso. apply (X (clock s)). apply in_snoc. auto.
    + intros t t' X Y. apply in_snoc in X, Y. destruct X as [X|X]; [exfalso; eapply N; eauto|]. destruct Y as [Y|Y]; [exfalso; eapply N; eauto|]. congruence.
    + intros t X. apply in_snoc in X. destruct X as [X|X]; [exfalso; eapply N; eauto|]. injection X. intros ->. split; [lia|]. rewrite ct_snoc, B2. intros n x Y. destruct n; discriminate.
    + intros t x lim X Y. apply in_snoc in X. destruct X as [X|X]; [exfalso; eapply N; eauto|]. injection X. injection Y. intros. subst. rewrite ct_snoc, B2. unfold NEARCLOSE_PERIOD, NEARCLOSE_RTX_PERIOD, S1, zlen. fields. cbn [app length Z.of_nat]. rewrite Z.mul_0_r. lia.
    + intros t t' X Y. apply in_snoc in X, Y. destruct X as [X|X]; [|discriminate]. destruct Y as [Y|Y]; [|discriminate]. eauto.
    + intros t x X Y. apply in_snoc in X. destruct X as [X|X]; [eauto|discriminate].
  - revert P. unfold fire_near. destruct (near s) as [[t lim]|] eqn:N; auto. destruct (w t <=? clock s) eqn:W; auto. apply Z.leb_le in W.
    assert (K : CLO u (with_near (abort s) None)) by (apply (CLO_drop u (abort s)); fields; auto using abort_closed, CLO_abort).
    destruct (state s) eqn:S; auto. destruct (lim <=? clock s) eqn:L; auto. apply Z.leb_gt in L. intro P.
    destruct H as [A B C D E F G H I J].
    assert (X : exists t0, In (ENear t0) (log s)).
    { destruct (has isN (log s)) eqn:X; [|destruct (B (proj1 (has_near _) X)); congruence]. apply existsb_exists in X. destruct X as (e & X & Y). destruct e; try discriminate. eauto. }
    destruct X as [t0 I0]. destruct (E t0 t lim I0 N) as (E1 & E2 & E3).
    destruct (again_on (clock s) t) as [t' AG]; [lia|]. rewrite AG in *. destruct (again_some _ _ _ AG W) as (G1 & G2 & G3 & G4).
    split; fields; auto; try discriminate.
    + intro X. exfalso. apply (X t0). apply in_snoc. auto.
    + intros x y X Y. apply in_snoc in X, Y. destruct X as [X|X]; [|discriminate]. destruct Y as [Y|Y]; [|discriminate]. eauto.
    + intros x X. apply in_snoc in X. destruct X as [X|X]; [|discriminate]. rewrite (C _ _ X I0). destruct (D t0 I0) as [D1 D2]. split; auto. rewrite ct_snoc. intros n y Y. apply nth_snoc in Y. destruct Y as [Y|[-> ->]]; [auto|]. unfold zlen in E3. lia.
    + intros x y lim' X Y. apply in_snoc in X. destruct X as [X|X]; [|discriminate]. injection Y. intros. subst y lim'. rewrite (C _ _ X I0). split; [auto|]. split; [lia|]. rewrite ct_snoc. unfold zlen in *. rewrite app_length. cbn [length]. lia.
    + intros x y X Y. apply in_snoc in X, Y. destruct X as [X|X]; [|discriminate]. destruct Y as [Y|Y]; [|discriminate]. eauto.
    + intros x y X Y. apply in_snoc in X. destruct X as [X|X]; [eauto|discriminate].
  - destruct (state s) eqn:S; auto. unfold set_far in *. destruct H as [A B C D E F G H I J]. rewrite S in A. destruct A as (A1 & A2 & A3 & A4). pose proof (has_far _ A3) as N.
    split; fields; auto; try discriminate; try (intros [X|X]; discriminate).
    + intro X. rewrite ct_snoc, app_nil_r. apply B. intros t Y. apply (X t). apply in_snoc. auto.
    + intros x y X Y. apply in_snoc in X, Y. destruct X as [X|X]; [|discriminate]. destruct Y as [Y|Y]; [|discriminate]. eauto.
    + intros x X. apply in_snoc in X. destruct X as [X|X]; [|discriminate]. rewrite ct_snoc, app_nil_r. auto.
    + intros x y lim X Y. apply in_snoc in X. destruct X as [X|X]; [|discriminate]. rewrite ct_snoc, app_nil_r. eauto.
    + intros t t' X Y. apply in_snoc in X, Y. destruct X as [X|X]; [exfalso; eapply N; eauto|]. destruct Y as [Y|Y]; [exfalso; eapply N; eauto|]. congruence.
    + intros t x X Y. apply in_snoc in X. destruct X as [X|X]; [exfalso; eapply N; eauto|]. injection X. injection Y. intros. subst. unfold FARCLOSE_LINGER_PERIOD, S1. lia.
  - revert P. unfold fire_far. destruct (far s) eqn:N; auto. destruct (z <=? clock s) eqn:W; auto. intros _. apply (CLO_drop u (abort s)); fields; auto using abort_closed, CLO_abort.
  - revert P. unfold fire_ult. destruct (ult s) eqn:N; auto. destruct (z <=? clock s) eqn:W; auto.
    assert (K : CLO u (with_ult (abort s) None)) by (apply (CLO_drop u (abort s)); fields; auto using abort_closed, CLO_abort).
    destruct (state s) eqn:S; auto; intro P; apply (CLO_keep u s); auto; ev; try tauto; rewrite S in *; destruct H0; discriminate.
  - now apply CLO_abort.
Qed.
Lemma run_all : forall u l, 0 < u -> HEL u (run u l) /\ KEY u (run u l) /\ CLO u (run u l).
Proof.
  intros u l U. unfold run. assert (H : HEL u (st0 u) /\ KEY u (st0 u) /\ CLO u (st0 u)).
  { split; [|split].
    - split; cbn; try tauto; try congruence. intro a. split; [congruence|intros (? & ? & [])].
    - split; cbn; try tauto; try congruence; try lia. 
    - split; try (cbn; tauto); try (cbn; congruence). intros _. unfold st0, ULTIMATE_SESSION_TIMEOUT, S1. cbn [ult]. f_equal. lia. }
  revert H. generalize (st0 u). induction l as [|o l IH]; intros s (A & B & C); cbn [fold_left]; auto. apply IH. auto using HEL_step, KEY_step, CLO_step.
Qed.

(** ** The past of each event *)
Definition pasts (l : list event) : Prop := forall l1 e l2, l = l1 ++ e :: l2 -> past_ok l1 e.
Lemma pasts_snoc : forall l e, pasts l -> past_ok l e -> pasts (l ++ [e]).
Proof.
  intros l e H P l1 x l2 E. destruct l2 as [|y l2] using rev_ind.
  - apply app_inj_tail in E. destruct E. subst. exact P.
  - change (l1 ++ x :: l2 ++ [y]) with (l1 ++ (x :: l2) ++ [y]) in E. rewrite app_assoc in E. apply app_inj_tail in E. destruct E as [E _]. apply (H l1 x l2). now rewrite E.
Qed.
Lemma pasts_abort : forall s, ph (state s) (log s) -> pasts (log s) -> pasts (log (abort s)).
Proof. intros s P H. unfold abort. destruct (state s) eqn:S; auto; fields; apply pasts_snoc; auto; cbn [ph past_ok] in *; tauto. Qed.
Lemma pasts_step : forall u s o, HEL u s -> KEY u s -> ph (state s) (log s) -> pasts (log s) -> pasts (log (step u s o)).
Proof.
  intros u s o HH HK P H. destruct o; cbn [step].
  - exact H.
  - unfold add_address. destruct (state s) eqn:S; auto. destruct (lookup a (hello s)) eqn:L; auto. match goal with |- context [if ?b then _ else _] => destruct b end; auto. fields. apply pasts_snoc; auto. cbn [ph past_ok] in *. split; [|tauto].
    intros t d I. apply (proj2 (h_known u s HH a)); eauto.
  - unfold fire_hello. destruct (lookup a (hello s)) as [[t|]|] eqn:L; auto. destruct (w t <=? clock s); auto. destruct (state s) eqn:S; auto. fields. apply pasts_snoc; auto. cbn [ph past_ok] in *. split; [|tauto]. apply (h_known u s HH a). congruence.
  - destruct (state s) eqn:S; auto. fields. apply pasts_snoc; auto; cbn [ph past_ok] in *; tauto.
  - unfold start_key. fields. destruct (state s) eqn:S; auto. fields. apply pasts_snoc; auto; cbn [ph past_ok] in *; tauto.
  - unfold fire_key. destruct (key s) eqn:K; auto. destruct (w t <=? clock s); auto. destruct (state s) eqn:S; auto. fields. apply pasts_snoc; auto. cbn [ph past_ok] in *. split; [|tauto].
    destruct (k_cur u s HK) as [t0 I0]; [apply (k_has u s HK); congruence|]. exists t0. split; auto. intros g t' I. apply (k_gen u s HK) in I. lia.
  - destruct (state s) eqn:S; auto; fields; apply pasts_snoc; auto; cbn [ph past_ok] in *; tauto.
  - destruct (state s) eqn:S; auto. unfold set_near. fields. apply pasts_snoc; auto; cbn [ph past_ok] in *; tauto.
  - unfold fire_near. destruct (near s) as [[t lim]|]; auto. destruct (w t <=? clock s); auto. pose proof (pasts_abort s P H) as K. destruct (state s) eqn:S; auto. destruct (lim <=? clock s); auto. fields. apply pasts_snoc; auto; cbn [ph past_ok] in *; tauto.
  - destruct (state s) eqn:S; auto. unfold set_far. fields. apply pasts_snoc; auto; cbn [ph past_ok] in *; tauto.
  - unfold fire_far. destruct (far s); auto. destruct (z <=? clock s); auto. now apply pasts_abort.
  - unfold fire_ult. destruct (ult s); auto. destruct (z <=? clock s); auto. pose proof (pasts_abort s P H) as K. destruct (state s) eqn:S; auto.
  - now apply pasts_abort.
Qed.
Lemma run_pasts : forall u l, 0 < u -> pasts (log (run u l)).
Proof.
  intros u l U. induction l as [|o l IH] using rev_ind; [intros l1 e l2 E; destruct l1; discriminate|].
  destruct (run_all u l U) as (A & B & C). unfold run in *. rewrite fold_left_app. cbn [fold_left]. apply pasts_step; auto. apply (c_ph u _ C).
Qed.

(** ** Timers that are on time *)
Lemma due_hello : forall a t s, lookup a (hello s) = Some (Some t) -> In (w t) (due s).
Proof.
  intros a t s H. unfold due. apply in_app_iff. left. unfold lookup in H. destruct (find (fun x => fst x =? a) (hello s)) as [[x y]|] eqn:F; [|discriminate]. cbn in H. injection H. intros ->. apply find_some in F.
  apply in_flat_map. exists (x, Some t). split; [tauto|]. cbn. auto.
Qed.
Lemma due_key : forall t s, key s = Some t -> In (w t) (due s).
Proof. intros t s H. unfold due. rewrite H, !in_app_iff. cbn. auto 8. Qed.
Lemma due_near : forall t lim s, near s = Some (t, lim) -> In (w t) (due s).
Proof. intros t lim s H. unfold due. rewrite H, !in_app_iff. cbn. auto 8. Qed.
Lemma due_far : forall t s, far s = Some t -> In t (due s).
Proof. intros t s H. unfold due. rewrite H, !in_app_iff. cbn. auto 8. Qed.
Lemma due_ult : forall t s, ult s = Some t -> In t (due s).
Proof. intros t s H. unfold due. rewrite H, !in_app_iff. cbn. auto 8. Qed.
Lemma prompt_at : forall L s t, prompt L s -> In t (due s) -> clock s <= t + L.
Proof. intros L s t H I. unfold prompt in H. rewrite Forall_forall in H. auto. Qed.
(** a sequence is as short as the time there was for it *)
Lemma seq_len : forall u t0 now ts n, 0 < u -> seq_ok u t0 now ts -> now < t0 + total u n -> (length ts <= n)%nat.
Proof.
  intros u t0 now ts n U H T. destruct (Nat.le_gt_cases (length ts) n) as [L|L]; auto. destruct (nth_error ts n) eqn:E; [|apply nth_error_None in E; lia]. apply H in E. lia.
Qed.
(** nothing happens before time 0 *)
Definition from0 (s : st) : Prop := 0 <= clock s /\ Forall (fun e => match e with EAdd _ t _ | EStart _ t => 0 <= t | _ => True end) (log s).
Lemma from0_step : forall u s o, from0 s -> from0 (step u s o).
Proof.
  intros u [c st0 h k g n f ul l] o [H F]. fields.
  destruct o; cbn [step]; unfold add_address, fire_hello, start_key, fire_key, set_near, fire_near, set_far, fire_far, fire_ult, abort; fields; dig; fields; split; fields; try lia; auto; apply Forall_app; split; auto; repeat constructor; auto.
Qed.
Lemma run_from0 : forall u l, from0 (run u l).
Proof. intros u l. unfold run. assert (H : from0 (st0 u)) by (split; [cbn; lia|constructor]). revert H. generalize (st0 u). induction l as [|o l IH]; intros s H; cbn [fold_left]; auto using from0_step. Qed.
(** ** How many addresses are tried *)
Definition adds (l : list event) : nat := length (filter (fun e => match e with EAdd _ _ _ => true | _ => false end) l).
Definition direct (l : list op) : nat := length (filter (fun o => match o with Add _ _ false => true | _ => false end) l).
Lemma update_len : forall a t l, length (update a t l) = length l.
Proof. induction l as [|x l IH]; cbn; auto. destruct (fst x =? a); cbn; auto. Qed.
Lemma adds_snoc : forall l e, adds (l ++ [e]) = (adds l + match e with EAdd _ _ _ => 1 | _ => 0 end)%nat.
Proof. intros. unfold adds. rewrite filter_app, app_length. destruct e; reflexivity. Qed.
Lemma adds_len : forall u s o, adds (log s) = length (hello s) -> adds (log (step u s o)) = length (hello (step u s o)).
Proof.
  intros u [c st0 h k g n f ul l] o H. fields.
  destruct o; cbn [step]; unfold add_address, fire_hello, start_key, fire_key, set_near, fire_near, set_far, fire_far, fire_ult, abort; fields; dig; fields; rewrite ?adds_snoc, ?update_len, ?app_length; cbn [length]; lia.
Qed.
Lemma hello_len : forall u s o, (length (hello (step u s o)) <= Nat.max 24 (length (hello s)) \/ (exists a d, o = Add a d false) /\ length (hello (step u s o)) <= S (length (hello s)))%nat.
Proof.
  intros u [c st0 h k g n f ul l] o.
  destruct o; cbn [step]; unfold add_address, fire_hello, start_key, fire_key, set_near, fire_near, set_far, fire_far, fire_ult, abort; fields; dig; fields; rewrite ?update_len, ?app_length; cbn [length]; try (left; lia).
  destruct redirect; [left|right; split; [eauto|lia]]. cbn [andb] in *. match goal with X : (_ <=? _) = false |- _ => apply Z.leb_gt in X; unfold zlen, REDIRECT_THRESHOLD in X end. lia.
Qed.
Lemma run_adds : forall u l, (adds (log (run u l)) = length (hello (run u l)) /\ adds (log (run u l)) <= 24 + direct l)%nat.
Proof.
  intros u l. induction l as [|o l [A B]] using rev_ind; [cbn; lia|]. unfold run in *. rewrite fold_left_app. cbn [fold_left]. pose proof (adds_len u _ o A) as C. split; auto. rewrite C. unfold direct in *. rewrite filter_app, app_length.
  destruct (hello_len u (fold_left (step u) l (st0 u)) o) as [D|[(a & d & ->) D]]; cbn [filter length]; lia.
Qed.
Definition quiet (s : st) : Prop := match state s with SNear | SFar | SClosed => key s = None | _ => True end.
Lemma quiet_step : forall u s o, quiet s -> quiet (step u s o).
Proof.
  intros u [c st0 h k g n f ul l] o H. unfold quiet in *. fields.
  destruct o; cbn [step]; unfold add_address, fire_hello, start_key, fire_key, set_near, fire_near, set_far, fire_far, fire_ult, abort; fields; dig; fields; subst; try discriminate; auto; congruence.
Qed.
Lemma run_quiet : forall u l, quiet (run u l).
Proof. intros u l. unfold run. assert (H : quiet (st0 u)) by exact Logic.I. revert H. generalize (st0 u). induction l as [|o l IH]; intros s H; cbn [fold_left]; auto using quiet_step. Qed.
