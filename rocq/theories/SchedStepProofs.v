(** Every step of Sched keeps the invariant. *)
From Verif Require Import Base Interface Sched SchedSpec SchedProofs.
From Coq Require Import Lia.
Open Scope res_scope.

(** *** The application *)
Lemma hole_f_idem : forall w H f, INV w (hole_f (hole_f H f) f) -> INV w (hole_f H f).
Proof. intros w H f I. eapply INV_weaken; [exact I|hle]. Qed.
Lemma INV_items : forall w H i n, INV w H -> ((0 < n)%nat -> exists x, w_ifc w i = Some x /\ In 0%nat (i_q x PRI_IMMEDIATE)) -> INV (set_items w i n) H.
Proof. intros w H i n I K. dinv I. constructor; auto. intros j. cbn. destruct (Nat.eqb_spec j i) as [->|]; auto. Qed.
Lemma close_fine : forall w H s, INV w H -> INV (close_sess w s) H.
Proof.
  intros w H s I. dinv I. unfold close_sess. set (x := w_ss w s).
  assert (B : forall f s', sf_sess (unbind s (w_sf w f)) = Some s' -> sf_sess (w_sf w f) = Some s' /\ s' <> s).
  { intros f s'. unfold unbind. destruct (sf_sess (w_sf w f)) as [s0|] eqn:E; [|congruence]. destruct (Nat.eqb_spec s0 s) as [->|]; cbn; [discriminate|]. rewrite E. intros X; inversion X; subst; auto. }
  assert (B' : forall f s', sf_sess (w_sf w f) = Some s' -> s' <> s -> unbind s (w_sf w f) = w_sf w f).
  { intros f s' E N. unfold unbind. rewrite E. destruct (Nat.eqb_spec s' s); [contradiction|reflexivity]. }
  constructor; cbn [w_ifc w_ss w_sf w_rf w_items w_log set_ss].
  - exact v_if0.
  - exact v_items0.
  - intros f s' E. apply B in E. destruct E as (E & N). destruct (Nat.eqb_spec s' s); [contradiction|]. eauto.
  - intros r s' E. destruct (Nat.eqb_spec s' s); [cbn; discriminate|]. eauto.
  - intros f. unfold unbind. destruct (sf_sess (w_sf w f)); [destruct (_ =? _)%nat|]; cbn; apply v_pri0.
  - intros s' E. destruct (Nat.eqb_spec s' s); [reflexivity|]. auto.
  - intros s' E. destruct (Nat.eqb_spec s' s) as [X|N]; [cbn in E; discriminate|]. specialize (v_sess0 s' E). dsok v_sess0. constructor; auto.
    + intros f A. apply B in A. destruct A as (A & _). rewrite (B' f s' A N). intros C D. exact (k_ready0 f A C D).
    + intros e A. destruct (k_out0 e A) as (C & D). split; [|exact D]. rewrite (B' _ s' C N). exact C.
    + intros p f A. unfold unbind. destruct (k_live0 p f A) as [X|(X & Y & Z)]; rewrite X; [|right; auto]. destruct (Nat.eqb_spec s' s); [contradiction|left; exact X].
Qed.
Lemma ustep_fine : forall w H u, INV w H -> fine (~ no_pri u) (fun w' => INV w' H) (ustep w u).
Proof.
  intros w H u I. destruct u as [f n|f p|r now|i|f s|f|r s|s i|s]; cbn [ustep].
  - destruct (sf_done (w_sf w f)) eqn:DN; [exact I|]. cbv zeta. assert (I1 : INV (set_sf w f (with_unsent (w_sf w f) (sf_unsent (w_sf w f) + n))) (hole_f H f)).
    { apply INV_set_sf; [exact I|auto|intros s; apply (v_bound _ _ I)|apply (v_pri _ _ I)|congruence]. }
    destruct (sf_sess (w_sf (set_sf _ _ _) f)) as [s|] eqn:E.
    + destruct (is_open _ s) eqn:O.
      * eapply fine_imp; [apply sched_flow_fine; exact I1|intros X; congruence|intros a (X & _); exact X].
      * exfalso. apply (not_open _ _ O). exact (v_bound _ _ I1 f s E).
    + cbn [fine]. apply INV_fill_f with (f := f); [exact I1|]. intros s (X & _). congruence.
  - cbv zeta. destruct (Nat.leb_spec NUM_PRIORITIES p) as [|Hp]; [exact Logic.I|]. destruct (Nat.eqb p _); [exact I|].
    eapply fine_imp; [apply sched_flow_fine with (H := H)|tauto|intros a (X & _); exact X].
    apply INV_set_sf; [exact I|auto|intros s; apply (v_bound _ _ I)|exact Hp|cbn; auto].
  - apply rf_schedule_ack_fine. exact I.
  - eapply fine_bind; [apply w_sched_fine with (H := H); [exact I|unfold PRI_IMMEDIATE, NUM_PRIORITIES; lia]|]. intros (w', b) (I' & P & B). cbn [fst snd] in *. cbn. destruct b; [|exact I'].
    apply INV_items; [exact I'|]. intros _. destruct (proj1 B eq_refl) as (x & E). unfold w_sched in *.
    destruct P as (_ & _ & _ & _ & _ & _ & _ & _ & _ & P). apply P. exists x. exact E.
  - cbv zeta. destruct (sf_sess (w_sf w f)) as [s'|] eqn:E; [exact I|]. destruct (sf_done (w_sf w f)) eqn:DN; [exact I|]. destruct (is_open w s) eqn:O; [|exact Logic.I]. apply is_open_iff in O.
    eapply fine_imp; [apply sched_flow_fine with (H := H)| |intros a (X & _); exact X].
    + apply INV_set_sf; [exact I|congruence|cbn; intros s' X; inversion X; subst; exact O|apply (v_pri _ _ I)|congruence].
    + cbn. rewrite Nat.eqb_refl. discriminate.
  - cbv zeta. destruct (sf_sess (w_sf w f)) as [s0|] eqn:ES.
    2:{ cbn [fine]. apply INV_fill_f with (f := f); [apply INV_set_sf; [exact I|congruence|cbn; discriminate|apply (v_pri _ _ I)|cbn; auto]|]. intros s (X & _). revert X. cbn. rewrite Nat.eqb_refl. discriminate. }
    destruct (_ && _)%bool eqn:E; [|exact Logic.I]. cbn [fine]. apply Bool.andb_true_iff in E. destruct E as (E1 & E2). apply Nat.eqb_eq in E1. apply Nat.eqb_eq in E2.
    pose proof I as I0. dinv I. constructor; auto.
    + intros g s. cbn. destruct (Nat.eqb_spec g f); cbn; [discriminate|eauto].
    + intros g. cbn. destruct (Nat.eqb_spec g f); cbn; auto.
    + intros s O. unfold set_sf in *. cbn [w_sf w_ss w_rf] in *. specialize (v_sess0 s O). dsok v_sess0. constructor; auto.
      * intros g. destruct (Nat.eqb_spec g f); cbn; [discriminate|auto].
      * intros e A. destruct (k_out0 e A) as (C & D). split; [|exact D]. destruct (Nat.eqb_spec (fst e) f) as [F|]; [|exact C]. exfalso. unfold out_of in E2. rewrite F in C. rewrite C in E2.
        unfold flying in E2. rewrite map_length in E2. destruct (filter _ _) eqn:G in E2; [|discriminate]. assert (X : In e []) by (rewrite <- G; apply filter_In; split; [exact A|apply Nat.eqb_eq; exact F]). destruct X.
      * intros q g A. destruct (Nat.eqb_spec g f); [right; auto|exact (k_live0 q g A)].
  - destruct (rf_sess (w_rf w r)) eqn:E; [exact Logic.I|]. destruct (is_open w s) eqn:O; [|exact Logic.I]. apply is_open_iff in O. cbn [fine]. dinv I. constructor; auto.
    + intros r' s'. cbn. destruct (Nat.eqb_spec r' r); cbn; [intros X; inversion X; subst; congruence|eauto].
    + intros s' O'. specialize (v_sess0 s' O'). dsok v_sess0. constructor; auto. intros r'. unfold set_rf. cbn [w_rf]. rewrite k_ackq0. destruct (Nat.eqb_spec r' r) as [->|]; [|tauto]. rewrite E. cbn. split; intros (X & Y); discriminate.
  - destruct (ss_state (w_ss w s)) eqn:E; try exact Logic.I. destruct (w_ifc w i) as [x|] eqn:Ei; [|exact Logic.I]. cbn [fine]. dinv I. constructor; auto.
    + intros f s' X. cbn. destruct (Nat.eqb_spec s' s); [reflexivity|eauto].
    + intros r s' X. cbn. destruct (Nat.eqb_spec s' s); [discriminate|eauto].
    + intros s' X. cbn in X |- *. destruct (Nat.eqb_spec s' s); [reflexivity|auto].
    + intros s'. unfold set_ss. cbn [w_ss w_sf w_rf]. destruct (Nat.eqb_spec s' s) as [->|]; [|auto]. intros _. constructor; cbn; try (intros; congruence); try (intros; exfalso; lia).
      * intros r. split; [intros []|]. intros (X & _). exfalso. exact (v_rbound0 r s X E).
      * constructor.
      * intros f X. rewrite (v_bound0 f s X) in E. discriminate.
      * lia.
      * exists x. exact Ei.
  - destruct (ss_state (w_ss w s)); try exact I. cbn [fine]. apply close_fine. exact I.
Qed.

(** *** Packets and timers *)
Lemma INV_out : forall w H s out' l, INV w H -> (forall e, In e out' -> In e (ss_out (w_ss w s))) -> (forall f, ~ In f l -> flying out' f = flying (ss_out (w_ss w s)) f) ->
  INV (set_ss w s (ss_with_out (w_ss w s) out')) (hole_fs (hole_rs H s NUM_PRIORITIES) l).
Proof.
  intros w H s out' l I A B. assert (E : ss_out (w_ss w s) = [] -> out' = []) by (intros E; rewrite E in A; destruct out' as [|e o]; [reflexivity|destruct (A e (or_introl eq_refl))]).
  apply INV_set_ss; [eapply INV_weaken; [exact I|hle]|reflexivity|intros X; apply E; apply (v_over _ _ I); exact X|]. intros O. pose proof (v_sess _ _ I s O) as K. dsok K. constructor; auto.
  - intros f C D F. destruct (in_dec Nat.eq_dec f l) as [J|J]; [right; right; exact J|]. cbn [ss_out ss_with_out] in F. rewrite (B f J) in F. destruct (k_ready0 f C D F) as [M|M]; [left; exact M|right; left; exact M].
  - intros p C. right. right. right. right. split; [reflexivity|]. exact (k_pri0 p C).
Qed.
Lemma unmarked_in : forall l m e, In e (unmarked l m) -> In e l.
Proof. induction l as [|a l IH]; intros m e; cbn; [tauto|]. destruct m as [|[] m]; cbn; [tauto|intros X; right; eauto|intros [X|X]; eauto]. Qed.
Lemma marked_in : forall l m e, In e (marked l m) -> In e l.
Proof. induction l as [|a l IH]; intros m e; cbn; [tauto|]. destruct m as [|[] m]; cbn; [tauto|intros [X|X]; eauto|intros X; right; eauto]. Qed.
Lemma unmarked_flying : forall l m f, ~ In f (map fst (marked l m)) -> flying (unmarked l m) f = flying l f.
Proof.
  induction l as [|a l IH]; intros m f; cbn; [reflexivity|]. destruct m as [|[] m]; [reflexivity| |]; intros N; unfold flying in *; cbn.
  - cbn in N. destruct (Nat.eqb_spec (fst a) f) as [E|]; [tauto|]. apply IH. tauto.
  - destruct (Nat.eqb (fst a) f); cbn; rewrite IH by exact N; reflexivity.
Qed.
Lemma same_set_sf : forall w f x, sf_sess x = sf_sess (w_sf w f) -> same w (set_sf w f x).
Proof. intros w f x A. constructor; cbn; auto; [|split; intros K; exact K]. intros g. destruct (Nat.eqb_spec g f); subst; auto. Qed.
Lemma lose_fine : forall l w H, INV w (hole_fs H (map fst l)) -> (forall e, In e l -> sf_sess (w_sf w (fst e)) <> None) ->
  fine False (fun w' => INV w' H /\ same w w') (lose w l).
Proof.
  induction l as [|(f, n) l IH]; intros w H I N; cbn [lose].
  - cbn. split; [|apply same_refl]. eapply INV_weaken; [exact I|hle].
  - set (w1 := set_sf w f (with_unsent (w_sf w f) (S (sf_unsent (w_sf w f))))).
    assert (M1 : same w w1) by (apply same_set_sf; reflexivity).
    assert (NF : sf_sess (w_sf w f) <> None) by (apply (N (f, n)); left; reflexivity).
    apply fine_bind with (P := fun w' => INV w' (hole_fs H (map fst l)) /\ same w w').
    + eapply fine_imp; [apply sched_flow_fine with (H := hole_fs H (map fst l))| |].
      * apply INV_weaken with (H := hole_f (hole_fs H (map fst ((f, n) :: l))) f); [|cbn [map fst]; repeat split; cbn; intros; intuition].
        apply INV_set_sf; [exact I|auto|intros s; apply (v_bound _ _ I)|apply (v_pri _ _ I)|congruence].
      * rewrite (m_sess _ _ M1). exact NF.
      * intros a (X & Y). split; [exact X|]. exact (same_trans _ _ _ M1 (kept_same _ _ Y)).
    + cbn beta. intros w' (I' & M'). eapply fine_imp; [apply (IH w' H I')|tauto|].
      * intros e J. rewrite (m_sess _ _ M'). apply N. right. exact J.
      * intros a (X & Y). split; [exact X|]. exact (same_trans _ _ _ M' Y).
Qed.
Definition pk (s : nat) (a : bool) : holes := if a then hole_rs none s NUM_PRIORITIES else none.
Lemma kstep_fine : forall s w a k, INV w (pk s a) -> fine (~ no_pri_chunk k) (fun r => INV (fst r) (pk s (snd r))) (kstep s w a k).
Proof.
  intros s w a k I. destruct k as [f rx m u|f n|i|u]; cbn [kstep].
  - destruct (is_open w s) eqn:O; [|exact I]. apply is_open_iff in O. destruct (sf_sess (w_sf w f)) as [s'|] eqn:E; [|exact I]. destruct (Nat.eqb_spec s' s) as [->|]; [|exact Logic.I].
    destruct (forallb _ _) eqn:FB; [|exact Logic.I]. cbv zeta.
    set (w1 := set_sf w f (SFl (Some s) (sf_pri (w_sf w f)) (sf_unsent (w_sf w f) - u) rx (sf_exc (w_sf w f)) (sf_done (w_sf w f)))).
    assert (I1 : INV w1 (hole_f (pk s a) f)). { apply INV_set_sf; [exact I|intros s' X; rewrite E in X; exact X|cbn; intros s' X; inversion X; subst; exact O|apply (v_pri _ _ I)|congruence]. }
    pose proof (INV_out w1 _ s (unmarked (ss_out (w_ss w1 s)) m) (map fst (marked (ss_out (w_ss w1 s)) m)) I1 (unmarked_in _ _) (unmarked_flying _ _)) as I2.
    set (w2 := set_ss w1 s (ss_with_out (w_ss w1 s) (unmarked (ss_out (w_ss w1 s)) m))) in *.
    assert (I3 : INV w2 (hole_f (pk s true) f)).
    { eapply INV_weaken; [exact I2|]. rewrite forallb_forall in FB. assert (Y : forall g, In g (map fst (marked (ss_out (w_ss w1 s)) m)) -> g = f). { intros g X. apply in_map_iff in X. destruct X as (e & <- & X). apply FB in X. apply Nat.eqb_eq in X. exact X. }
      destruct a; repeat split; cbn; intros; try tauto; destruct H as [[X|X]|X]; auto; destruct X. }
    apply fine_bind with (P := fun w' => INV w' (pk s true)).
    + eapply fine_imp; [apply sched_flow_fine; exact I3| |intros w' (X & _); exact X]. cbn. rewrite Nat.eqb_refl. discriminate.
    + intros w' X. exact X.
  - destruct (sf_sess (w_sf w f)) as [s'|] eqn:E; [|exact I]. destruct (Nat.eqb_spec s' s) as [->|]; [|exact Logic.I]. cbv zeta.
    set (w1 := set_sf w f (SFl (Some s) (sf_pri (w_sf w f)) (sf_unsent (w_sf w f)) (sf_rx (w_sf w f)) true (sf_done (w_sf w f)))).
    assert (I1 : INV w1 (pk s a)).
    { assert (I1 : INV w1 (hole_f (pk s a) f)) by (apply INV_set_sf; [exact I|intros s' X; rewrite E in X; exact X|cbn; intros s' X; apply (v_bound _ _ I f s'); rewrite E; exact X|apply (v_pri _ _ I)|congruence]).
      apply INV_fill_f with (f := f); [exact I1|]. intros s' (A & B & C). cbn in A, B, C |- *. rewrite Nat.eqb_refl in *. cbn in *.
      destruct (k_ready _ _ _ _ _ _ _ (v_sess _ _ I s' (v_bound _ _ I f s' (eq_trans E A))) f (eq_trans E A) B C) as [X|X]; [exact X|destruct a; destruct X]. }
    apply fine_bind with (P := fun w' => INV w' (pk s a)).
    + destruct (Nat.eqb n 0); [exact I1|]. eapply fine_imp; [apply ustep_fine; exact I1|cbn; tauto|auto].
    + intros w' X. exact X.
  - destruct (is_open w s) eqn:O; [|exact I]. apply is_open_iff in O. destruct (w_ifc w i) as [x|] eqn:E; [|exact Logic.I].
    assert (I1 : INV (set_ss w s (ss_with_dest (w_ss w s) i)) (hole_rs (pk s a) s NUM_PRIORITIES)).
    { apply INV_set_ss; [eapply INV_weaken; [exact I|hle]|reflexivity|intros X; cbn in X; congruence|]. intros _. pose proof (v_sess _ _ I s O) as K. dsok K. constructor; auto.
      - intros p A. right. right. right. right. split; [reflexivity|]. exact (k_pri0 p A).
      - exists x. exact E. }
    apply fine_bind with (P := fun w' => INV w' (pk s a)).
    + eapply fine_imp; [apply resched_fine with (H := pk s a) (ub := False); [lia|exact I1|]|tauto|intros w' (X & _); exact X]. intros _. rewrite set_ss_eq. cbn. exists x. exact E.
    + intros w' X. exact X.
  - apply fine_bind with (P := fun w' => INV w' (pk s a)); [|intros w' X; exact X]. apply ustep_fine. exact I.
Qed.
Lemma ksteps_fine : forall s l w a, INV w (pk s a) -> fine (~ Forall no_pri_chunk l) (fun r => INV (fst r) (pk s (snd r))) (ksteps s w a l).
Proof.
  intros s. induction l as [|k l IH]; intros w a I; cbn [ksteps]; [exact I|].
  eapply fine_bind; [eapply fine_imp; [apply (kstep_fine s w a k I)| |intros r X; exact X]|].
  - intros X Y. inversion Y; subst. contradiction.
  - intros (w', a') X. cbn in X. eapply fine_imp; [apply IH; exact X| |auto]. intros Y Z. inversion Z; subst. contradiction.
Qed.
Lemma after_fine : forall w s seen a m c, INV w (pk s a) -> fine False (fun w' => INV w' none) (after_chunks w s seen a m c).
Proof.
  intros w s seen a m c I. unfold after_chunks. cbv zeta. set (x := w_ss w s).
  set (w1 := set_ss w s (ss_with_acks x (ss_acknow x) (ss_delack x) (ss_ackq x) (ss_rxp x + (if seen then 1 else 0)))).
  assert (I1 : INV w1 (hole_x (pk s a) s)).
  { apply INV_set_ss; [eapply INV_weaken; [exact I|hle]|reflexivity|intros X; cbn in X |- *; apply (v_over _ _ I); exact X|]. intros O. pose proof (v_sess _ _ I s O) as K. dsok K. constructor; auto.
    - intros X. destruct (k_one0 X); [auto|right; right; reflexivity].
    - intros _. right. right. reflexivity. }
  apply fine_bind with (P := fun w' => INV w' (pk s a)).
  { destruct (Nat.leb_spec OBLIGATORY_ACK_AFTER (ss_rxp (w_ss w1 s))) as [L|L].
    - eapply fine_imp; [apply (ack_now_fine w1 (pk s a) s False I1)|tauto|intros w' (X & _); exact X].
    - cbn [fine]. destruct (is_open w1 s) eqn:O.
      + apply is_open_iff in O. apply INV_fill_x with (s := s); [exact I1| |unfold OBLIGATORY_ACK_AFTER in L; lia].
        subst w1. rewrite set_ss_eq. cbn. intros X. unfold is_open in O. rewrite set_ss_eq in O. destruct (k_one _ _ _ _ _ _ _ (v_sess _ _ I s O) X) as [Y|Y]; [exact Y|destruct a; destruct Y].
      + eapply INV_unhole_closed; [exact I1|apply not_open; exact O]. }
  clear I I1 w1 x w. intros w I. destruct a; [|exact I].
  set (x := w_ss w s). set (w1 := set_ss w s (ss_with_timers x (ss_timeout x) false)).
  assert (I1 : INV w1 (pk s true)).
  { apply INV_set_ss; [exact I|reflexivity|intros X; cbn in X |- *; apply (v_over _ _ I); exact X|]. intros O. pose proof (v_sess _ _ I s O) as K. dsok K. constructor; auto.
    intros p A. right. right. right. right. split; [reflexivity|]. exact (k_pri0 p A). }
  assert (EO : ss_out (w_ss w1 s) = ss_out x) by (subst w1; rewrite set_ss_eq; reflexivity). rewrite <- EO.
  pose proof (INV_out w1 _ s (unmarked (ss_out (w_ss w1 s)) m) (map fst (marked (ss_out (w_ss w1 s)) m)) I1 (unmarked_in _ _) (unmarked_flying _ _)) as I2.
  set (w2 := set_ss w1 s (ss_with_out (w_ss w1 s) (unmarked (ss_out (w_ss w1 s)) m))) in *.
  apply fine_bind with (P := fun w' => INV w' (pk s true)).
  - eapply fine_imp; [apply lose_fine with (H := pk s true)|tauto|intros w' (X & _); exact X].
    + eapply INV_weaken; [exact I2|]. repeat split; cbn; intros; tauto.
    + intros e J. apply marked_in in J. destruct (is_open w1 s) eqn:O.
      * apply is_open_iff in O. destruct (k_out _ _ _ _ _ _ _ (v_sess _ _ I1 s O) e J) as (X & _). cbn. cbn in X. rewrite X. discriminate.
      * rewrite (v_over _ _ I1 s (not_open _ _ O)) in J. destruct J.
  - clear. intros w I. destruct (Nat.eqb_spec c 0) as [|C]; [exact Logic.I|].
    assert (I1 : INV (set_ss w s (ss_with_cwnd (w_ss w s) c)) (hole_rs none s NUM_PRIORITIES)).
    { apply INV_set_ss; [exact I|reflexivity|intros X; apply (v_over _ _ I); exact X|]. intros O. pose proof (v_sess _ _ I s O) as K. dsok K. constructor; auto. cbn. lia. }
    apply fine_bind with (P := fun w' => INV w' none).
    + eapply fine_imp; [apply resched_fine with (H := none) (ub := False); [lia|exact I1|]|tauto|intros w' (X & _); exact X].
      rewrite set_ss_eq. intros O. exact (k_dest _ _ _ _ _ _ _ (v_sess _ _ I s O)).
    + clear. intros w I. cbn [fine]. apply INV_set_ss; [exact I|reflexivity|intros X; apply (v_over _ _ I); exact X|]. intros O. pose proof (v_sess _ _ I s O) as K. dsok K. constructor; auto.
Qed.
Lemma timeout_fine : forall w s limit ka c, INV w none -> fine False (fun w' => INV w' none) (wstep w (WTimeout s limit ka c)).
Proof.
  intros w s limit ka c I. cbn [wstep]. cbv zeta. set (x := w_ss w s). destruct (ss_timeout x) eqn:T; [|exact Logic.I].
  set (w1 := set_ss w s (ss_with_timers x false (ss_burst x))).
  destruct (is_open w1 s) eqn:O.
  2:{ cbn [fine]. apply INV_set_ss; [exact I|reflexivity|intros X; apply (v_over _ _ I); exact X|]. intros X. exfalso. apply (not_open _ _ O). subst w1. rewrite set_ss_eq. exact X. }
  apply is_open_iff in O. assert (O0 : ss_state x = SOpen) by (subst w1; rewrite set_ss_eq in O; exact O). pose proof (v_sess _ _ I s O0) as K. fold x in K.
  destruct (_ && _)%bool eqn:E.
  - apply Bool.andb_true_iff in E. destruct E as (E & _). destruct (Nat.eqb_spec c 0) as [|C]; [exact Logic.I|]. cbn [fine].
    assert (I1 : INV w1 none).
    { apply INV_set_ss; [exact I|reflexivity|intros X; cbn in X; congruence|]. intros _. dsok K. constructor; auto. cbn. intros X. destruct (ss_out x); congruence. }
    apply INV_set_ss; [exact I1|reflexivity|intros X; apply (v_over _ _ I1); exact X|]. intros X. pose proof (v_sess _ _ I1 s X) as K1. dsok K1. constructor; auto. cbn. lia.
  - destruct limit.
    + cbn [fine]. assert (CE : close_sess w1 s = World (w_ifc w) (w_ss (close_sess w1 s)) (fun f => unbind s (w_sf w f)) (w_rf w) (w_items w) (w_log w)) by reflexivity.
      pose proof (close_fine w none s I) as J. dinv J. constructor; auto.
      * intros f s' X. pose proof (v_bound0 f s' X) as Y. revert Y. cbn. destruct (Nat.eqb_spec s' s); auto.
      * intros r s' X. pose proof (v_rbound0 r s' X) as Y. revert Y. cbn. destruct (Nat.eqb_spec s' s); auto.
      * intros s' X. cbn in X |- *. pose proof (v_over0 s') as Y. cbn in Y. destruct (Nat.eqb_spec s' s); [reflexivity|auto].
      * intros s' X. pose proof (v_sess0 s') as Y. unfold close_sess in X, Y |- *. subst w1. unfold set_ss in X, Y |- *. cbn [w_ss w_sf w_rf w_ifc] in X, Y |- *. destruct (Nat.eqb_spec s' s) as [EQ|N]; [discriminate X|]. apply Y. exact X.
    + assert (I2 : INV (set_ss w1 s (ss_with_out (w_ss w1 s) [])) (hole_fs (pk s true) (map fst (ss_out x)))).
      { assert (X : INV (set_ss w s (ss_with_out (w_ss w s) [])) (hole_fs (hole_rs none s NUM_PRIORITIES) (map fst (ss_out x)))).
        { apply INV_out; [exact I|intros e []|]. intros f N. fold x. clear -N. induction (ss_out x) as [|e l IH]; [reflexivity|]. unfold flying in *. cbn in N |- *. destruct (Nat.eqb_spec (fst e) f); [tauto|]. apply IH. tauto. }
        pose proof (INV_set_ss _ _ s (ss_with_out (w_ss w1 s) []) X) as Y.
        dinv X. constructor; auto.
        - intros f s' A. pose proof (v_bound0 f s' A) as B. revert B. cbn. rewrite Nat.eqb_refl. destruct (Nat.eqb_spec s' s) as [EQ|]; subst; auto.
        - intros r s' A. pose proof (v_rbound0 r s' A) as B. revert B. cbn. rewrite Nat.eqb_refl. destruct (Nat.eqb_spec s' s) as [EQ|]; subst; auto.
        - intros s' A. cbn in A |- *. destruct (Nat.eqb_spec s' s) as [EQ|]; [reflexivity|]. apply (v_over _ _ I). exact A.
        - intros s' A. pose proof (v_sess0 s') as B. subst w1. unfold set_ss in A, B |- *. cbn [w_ss w_sf w_rf w_ifc] in A, B |- *. destruct (Nat.eqb_spec s' s) as [EQ|N].
          + subst s'. assert (B' := B O0). clear -B'. dsok B'. rewrite Nat.eqb_refl. constructor; auto; cbn; congruence.
          + apply B. exact A. }
      apply fine_bind with (P := fun w' => INV w' (pk s true)).
      * eapply fine_imp; [apply lose_fine with (H := pk s true); [exact I2|]|tauto|intros w' (X & _); exact X].
        intros e J. destruct (k_out _ _ _ _ _ _ _ K e J) as (X & _). cbn. rewrite X. discriminate.
      * clear. intros w I. destruct (Nat.eqb_spec c 0) as [|C]; [exact Logic.I|].
        assert (I1 : INV (set_ss w s (ss_with_cwnd (w_ss w s) c)) (hole_rs none s NUM_PRIORITIES)).
        { apply INV_set_ss; [exact I|reflexivity|intros X; apply (v_over _ _ I); exact X|]. intros O. pose proof (v_sess _ _ I s O) as K. dsok K. constructor; auto. cbn. lia. }
        eapply fine_imp; [apply resched_fine with (H := none) (ub := False); [lia|exact I1|]|tauto|intros w' (X & _); exact X].
        rewrite set_ss_eq. intros O. exact (k_dest _ _ _ _ _ _ _ (v_sess _ _ I s O)).
Qed.
