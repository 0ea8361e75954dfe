(** Proofs for Sched: an interface becomes writable; runs. *)
From Verif Require Import Base Interface Sched SchedSpec SchedProofs SchedStepProofs.
Open Scope res_scope.
Ltac spl := repeat match goal with |- _ /\ _ => split end.

Lemma INV_log : forall w H l, INV w H -> INV (wlog w l) H.
Proof. intros w H l I. dinv I. constructor; auto. Qed.
Lemma flying_app : forall a b f, flying (a ++ b) f = flying a f ++ flying b f.
Proof. intros. unfold flying. rewrite filter_app, map_app. reflexivity. Qed.
Lemma flying_other : forall f g l, g <> f -> flying (map (fun n : nat => (f, n)) l) g = [].
Proof. intros f g l N. induction l as [|a l IH]; [reflexivity|]. unfold flying in *. cbn. destruct (Nat.eqb_spec f g); [congruence|exact IH]. Qed.
Lemma sum_zero : forall l, (0 < sum l)%nat -> l <> [].
Proof. intros [|a l]; cbn; [lia|discriminate]. Qed.

Lemma assemble_fine : forall w s f p a, INV w none -> ss_state (w_ss w s) = SOpen -> In f (ss_ready (w_ss w s) p) -> a_cb a = [] ->
  fine False (fun r => INV (fst r) none /\ w_ifc (fst r) = w_ifc w /\ w_items (fst r) = w_items w /\ w_rf (fst r) = w_rf w /\
     ss_state (w_ss (fst r) s) = SOpen /\ ss_acknow (w_ss (fst r) s) = ss_acknow (w_ss w s) /\ ss_ready (w_ss (fst r) s) = ss_ready (w_ss w s) /\ 
     (snd r = true -> ss_out (w_ss (fst r) s) <> []) /\
     (snd r = false -> sf_pri (w_sf (fst r) f) = p -> ~ can_send (fst r) s f)) (assemble w s f p a).
Proof.
  intros w s f p a I O J CB. unfold assemble. destruct (Nat.eqb_spec p (sf_pri (w_sf w f))) as [P|P]; cbn [negb].
  2:{ cbn. spl; auto; congruence. }
  destruct (maybe_ready w f) eqn:M; cbn [negb].
  2:{ cbn. spl; auto; try discriminate. intros _ _ C. apply can_send_ready in C. congruence. }
  assert (ES : sf_sess (w_sf w f) = Some s).
  { destruct (k_live _ _ _ _ _ _ _ (v_sess _ _ I s O) p f J) as [X|(X & Y & Z)]; [exact X|]. exfalso. unfold maybe_ready, out_of in M. rewrite X, Z in M. cbn in M. discriminate. }
  cbv zeta. rewrite CB. cbn [ursteps rbind]. set (u := Nat.max _ _). set (w1 := set_sf w f (with_unsent (w_sf w f) u)).
  assert (I1 : INV w1 none).
  { apply INV_fill_f with (f := f); [apply INV_set_sf; [exact I|auto|intros s'; apply (v_bound _ _ I)|apply (v_pri _ _ I)|congruence]|].
    intros s' (X & _). revert X. cbn. rewrite Nat.eqb_refl. cbn. rewrite ES. intros X. inversion X; subst s'. rewrite <- P. exact J. }
  assert (E1 : sf_sess (w_sf w1 f) = Some s) by (subst w1; cbn; rewrite Nat.eqb_refl; exact ES). rewrite E1, Nat.eqb_refl.
  assert (O1 : is_open w1 s = true) by (apply is_open_iff; exact O). rewrite O1. cbn [andb].
  destruct (window_open w1 f && _)%bool eqn:WO.
  2:{ cbn [fine fst snd]. spl; auto; try discriminate. intros _ _ (X & Y & Z). unfold window_open, out_of in WO. rewrite E1 in WO.
      apply Nat.ltb_lt in Y. apply Nat.ltb_lt in Z. rewrite Y, Z in WO. discriminate. }
  destruct (_ && _ && _)%bool eqn:SZ; [|exact Logic.I]. apply Bool.andb_true_iff in SZ. destruct SZ as (SZ & SZ3). apply Bool.andb_true_iff in SZ. destruct SZ as (SZ1 & SZ2). apply Nat.ltb_lt in SZ1.
  set (w2 := set_sf w1 f (with_unsent (w_sf w1 f) (sf_unsent (w_sf w1 f) - length (a_sizes a)))).
  assert (P1 : sf_pri (w_sf w1 f) = p) by (subst w1; cbn; rewrite Nat.eqb_refl; symmetry; exact P).
  assert (I2 : INV w2 none).
  { apply INV_fill_f with (f := f); [apply INV_set_sf; [exact I1|auto|intros s'; apply (v_bound _ _ I1)|apply (v_pri _ _ I1)|congruence]|].
    intros s' (X & _). revert X. cbn [w2 set_sf w_sf w_ss]. rewrite Nat.eqb_refl. cbn [with_unsent sf_sess sf_pri]. rewrite E1. intros X. inversion X; subst s'. rewrite P1. exact J. }
  assert (E2 : sf_sess (w_sf w2 f) = Some s) by (subst w2; cbn [set_sf w_sf]; rewrite Nat.eqb_refl; exact E1).
  assert (P2 : sf_pri (w_sf w2 f) = p) by (subst w2; cbn [set_sf w_sf]; rewrite Nat.eqb_refl; exact P1).
  cbn [fine fst snd]. set (y := w_ss w2 s). assert (Ey : y = w_ss w s) by reflexivity.
  set (z := ss_with_timers (ss_with_out y (ss_out y ++ map (fun n => (f, n)) (a_sizes a))) true (ss_burst (ss_with_out y (ss_out y ++ map (fun n => (f, n)) (a_sizes a))))).
  assert (NE : ss_out z <> []). { cbn. intros X. apply app_eq_nil in X. destruct X as (_ & X). destruct (a_sizes a); [cbn in SZ1; lia|discriminate X]. }
  spl; try (cbn; rewrite Nat.eqb_refl); auto; try discriminate.
  apply INV_log. apply INV_set_ss; [exact I2|reflexivity|intros X; contradiction X|]. intros _. pose proof (v_sess _ _ I2 s O) as K. dsok K. constructor; auto.
  - intros g A B C. destruct (Nat.eq_dec g f) as [->|N]; [left; rewrite P2; exact J|]. unfold z in C. cbn [ss_out ss_with_timers ss_with_out] in C. rewrite flying_app, flying_other, app_nil_r in C by exact N. exact (k_ready0 g A B C).
  - intros e A. cbn [z ss_out ss_with_timers ss_with_out] in A. apply in_app_or in A. destruct A as [A|A]; [exact (k_out0 e A)|]. apply in_map_iff in A. destruct A as (n & <- & A). split; [exact E2|]. rewrite forallb_forall in SZ3. apply SZ3 in A. apply Nat.ltb_lt in A. exact A.
Qed.
Definition calm_att (a : attempt) : Prop := a_cb a = [].
Lemma pick_fine : forall l w s p, INV w none -> ss_state (w_ss w s) = SOpen -> Forall calm_att l ->
  fine False (fun r => INV (fst r) none /\ w_ifc (fst r) = w_ifc w /\ w_items (fst r) = w_items w /\ w_rf (fst r) = w_rf w /\ ss_state (w_ss (fst r) s) = SOpen /\ ss_acknow (w_ss (fst r) s) = ss_acknow (w_ss w s) /\
    (snd r = false -> ss_ready (w_ss (fst r) s) p = [])) (pick w s p l).
Proof.
  induction l as [|a l IH]; intros w s p I O C; cbn [pick]; destruct (ss_ready (w_ss w s) p) as [|f q] eqn:E.
  1,3: cbn; spl; auto. { exact Logic.I. }
  inversion C as [|? ? C1 C2]; subst.
  eapply fine_bind; [apply (assemble_fine w s f p a I O); [rewrite E; left; reflexivity|exact C1]|].
  intros (w1, sent) (I1 & A1 & A2 & A3 & A4 & A5 & A6 & A7 & A8). cbn [fst snd] in *. cbv zeta. destruct sent.
  - cbn [fine fst snd]. rewrite A6, E. cbn [tl firstn]. spl; try (cbn; rewrite ?Nat.eqb_refl); auto; try discriminate.
    apply INV_set_ss; [exact I1|reflexivity|intros X; contradiction|]. intros _. pose proof (v_sess _ _ I1 s A4) as K. dsok K. rewrite A6 in *.
    assert (EQ : forall g, In g (q ++ [f]) <-> In g (ss_ready (w_ss w s) p)) by (intros g; rewrite E, in_app_iff; cbn; tauto).
    constructor; try assumption; cbn [ss_ready ss_with_ready ss_out]; rewrite ?A6.
    + intros g X Y Z. destruct (Nat.eqb_spec (sf_pri (w_sf w1 g)) p) as [G|G]; [|exact (k_ready0 g X Y Z)]. destruct (k_ready0 g X Y Z) as [W|W]; [left; apply EQ; rewrite G in W; exact W|right; exact W].
    + intros q0 _. right. left. exact (A7 eq_refl).
    + intros q0. destruct (Nat.eqb_spec q0 p) as [G|G]; [|apply k_pri0]. intros _. subst. apply k_pri0. rewrite E. discriminate.
    + intros q0 g. destruct (Nat.eqb_spec q0 p) as [G|G]; [|apply k_live0]. rewrite EQ. apply k_live0.
  - set (w2 := set_ss w1 s (ss_with_ready (w_ss w1 s) p (tl (ss_ready (w_ss w1 s) p)))).
    assert (I2 : INV w2 none).
    { apply INV_set_ss; [exact I1|reflexivity|intros X; contradiction|]. intros _. pose proof (v_sess _ _ I1 s A4) as K. dsok K. rewrite A6 in *. rewrite E. cbn [tl].
      constructor; try assumption; cbn [ss_ready ss_with_ready ss_out]; rewrite ?A6.
      - intros g X Y Z. destruct (Nat.eqb_spec (sf_pri (w_sf w1 g)) p) as [G|G]; [|exact (k_ready0 g X Y Z)]. destruct (k_ready0 g X Y Z) as [W|W]; [|right; exact W].
        rewrite G, E in W. destruct W as [W|W]; [|left; exact W]. subst g. exfalso. apply (A8 eq_refl G). split; [exact X|split; [exact Y|exact Z]].
      - intros q0. destruct (Nat.eqb_spec q0 p) as [G|G]; [|apply k_sched0]. intros _. subst. apply k_sched0. rewrite E. discriminate.
      - intros q0. destruct (Nat.eqb_spec q0 p) as [G|G]; [|apply k_pri0]. intros _. subst. apply k_pri0. rewrite E. discriminate.
      - intros q0 g. destruct (Nat.eqb_spec q0 p) as [G|G]; [|apply k_live0]. intros X. apply (k_live0 p). rewrite E. right. exact X. }
    assert (O2 : ss_state (w_ss w2 s) = SOpen) by (subst w2; rewrite set_ss_eq; exact A4).
    eapply fine_imp; [apply (IH w2 s p I2 O2 C2)|tauto|]. intros (w', b) (B1 & B2 & B3 & B4 & B5 & B6 & B7). cbn [fst snd] in *. subst w2. cbn [set_ss w_ifc w_items w_rf w_ss] in *. rewrite Nat.eqb_refl in B6. cbn in B6.
    spl; auto; congruence.
Qed.

Definition released (w : world) (i n p : nat) : Prop :=
  match n with
  | O => p = PRI_IMMEDIATE -> w_items w i = 0%nat
  | S s => ss_state (w_ss w s) = SOpen ->
      (exists j x, j <> i /\ w_ifc w j = Some x /\ In (S s) (i_q x p)) \/
      ((p = PRI_IMMEDIATE -> ss_acknow (w_ss w s) = false) /\ (ss_ready (w_ss w s) p = [] \/ ss_out (w_ss w s) <> [] \/ ss_burst (w_ss w s) = true))
  end.
Lemma sess_writable_fine : forall w i s p o, INV w none -> (p < NUM_PRIORITIES)%nat -> calm_offer o ->
  fine False (fun r => INV (fst r) none /\ w_ifc (fst r) i = w_ifc w i /\ (snd r = false -> released (fst r) i (S s) p)) (sess_writable w i s p o).
Proof.
  intros w i s p o I Hp C. unfold sess_writable. destruct (Nat.eqb_spec i (ss_dest (w_ss w s))) as [D|D]; cbn [negb].
  2:{ eapply fine_bind; [apply w_sched_fine with (H := none); [exact I|exact Hp]|]. intros (w', b) (I' & P & B). cbn [fst snd fine] in *. destruct P as (P1 & P2 & P3 & P4 & P5 & P6 & P7 & P8 & P9 & P10).
      split; [exact I'|split; [apply P9; exact D|]]. intros _ O. rewrite P1 in O. left. destruct (P10 (k_dest _ _ _ _ _ _ _ (v_sess _ _ I s O))) as (x & X & Y). exists (ss_dest (w_ss w s)), x. auto. }
  destruct (is_open w s) eqn:O; cbn [negb]; [apply is_open_iff in O|].
  2:{ cbn. split; [exact I|split; [reflexivity|]]. intros _ X. exfalso. exact (not_open _ _ O X). }
  eapply fine_bind; [apply send_acks_fine; [exact I|exact O]|]. intros (w1, didack) (I1 & A1 & A2 & A3 & (now & del & q & rxp & A4 & A5) & _). cbn [fst snd] in *.
  assert (O1 : ss_state (w_ss w1 s) = SOpen) by (destruct A4 as [A4|A4]; [rewrite A4, set_ss_eq|rewrite A4]; exact O).
  pose proof (v_sess _ _ I1 s O1) as K1.
  apply fine_bind with (P := fun r => INV (fst r) none /\ w_ifc (fst r) = w_ifc w1 /\ ss_state (w_ss (fst r) s) = SOpen /\ (didack = false -> snd r = false -> released (fst r) i (S s) p)).
  - destruct didack; cbn [negb andb]; [cbn; spl; auto; discriminate|]. specialize (A5 eq_refl eq_refl).
    destruct (Nat.ltb_spec (sum (map snd (ss_out (w_ss w1 s)))) (ss_cwnd (w_ss w1 s))) as [W|W].
    2:{ cbn. spl; auto. intros _ _ _. right. split; [auto|]. right. left. intros X. rewrite X in W. cbn in W. pose proof (k_cwnd _ _ _ _ _ _ _ K1). lia. }
    destruct (o_burst o).
    + eapply fine_imp; [apply (pick_fine (o_atts o) w1 s p I1 O1 C)|tauto|]. intros (w', b) (B1 & B2 & B3 & B4 & B5 & B6 & B7). cbn [fst snd] in *. spl; auto. intros _ X _. right. split; [intros _; congruence|]. left. auto.
    + cbn [fine fst snd]. spl; auto.
      * apply INV_set_ss; [exact I1|reflexivity|intros X; contradiction|]. intros _. dsok K1. constructor; auto.
      * cbn. rewrite Nat.eqb_refl. exact O1.
      * intros _ _ _. right. rewrite set_ss_eq. cbn. split; [auto|right; right; reflexivity].
  - intros (w2, sent) (I2 & B1 & B2 & B3). cbn [fst snd] in *. destruct (negb didack && negb sent)%bool eqn:E.
    + cbn [fine fst snd]. split; [exact I2|split; [congruence|]]. intros _. apply Bool.andb_true_iff in E. destruct E as (E1 & E2). apply Bool.negb_true_iff in E1. apply Bool.negb_true_iff in E2. auto.
    + eapply fine_bind; [apply send_acks_fine; [exact I2|exact B2]|]. intros (w3, b) (I3 & C1 & _). cbn [fst snd fine] in *. split; [exact I3|split; [congruence|discriminate]].
Qed.
Lemma isess_writable_fine : forall w i n p o, INV w none -> (p < NUM_PRIORITIES)%nat -> calm_offer o -> has_if w i -> 
  fine False (fun r => INV (fst r) none /\ w_ifc (fst r) i = w_ifc w i /\ (snd r = false -> released (fst r) i n p)) (isess_writable w i n p o).
Proof.
  intros w i [|s] p o I Hp C HI; cbn [isess_writable]; [|apply sess_writable_fine; assumption].
  unfold startup_writable. destruct (w_items w i) as [|k] eqn:E.
  - cbn. spl; auto.
  - cbn [fine fst snd]. split; [|split; [reflexivity|discriminate]]. apply INV_log. apply INV_items; [exact I|]. intros _. apply (v_items _ _ I). lia.
Qed.
Lemma INV_dequeue : forall w i x n l p, INV w none -> w_ifc w i = Some x -> i_q x p = n :: l -> (p < NUM_PRIORITIES)%nat -> released w i n p -> INV (set_ifc w i (set_q x p l)) none.
Proof.
  intros w i x n l p I E Q Hp R.
  assert (QQ : forall m q, queued w m q -> m <> n \/ q <> p -> queued (set_ifc w i (set_q x p l)) m q).
  { intros m q (j & y & A & B) N. destruct (Nat.eq_dec j i) as [->|NE].
    - rewrite E in A. inversion A; subst y. exists i, (set_q x p l). cbn. rewrite Nat.eqb_refl. split; [reflexivity|]. destruct (Nat.eqb_spec q p) as [EQ|]; [|exact B]. subst q. rewrite Q in B. destruct B as [B|B]; [destruct N; congruence|exact B].
    - exists j, y. cbn. destruct (Nat.eqb_spec j i); [contradiction|]. auto. }
  assert (DD : forall j, has_if w j -> has_if (set_ifc w i (set_q x p l)) j).
  { intros j (y & A). unfold has_if. cbn. destruct (Nat.eqb_spec j i); eauto. }
  pose proof I as I0. dinv I. constructor; auto.
  - intros j y A S q Hq. cbn in A. destruct (Nat.eqb_spec j i) as [EQ|N]; [|eauto]. inversion A; subst y. cbn in S. pose proof (v_if0 i x E S p Hp) as X. congruence.
  - intros j A. destruct (v_items0 j A) as (y & B & D). unfold set_ifc in A |- *. cbn [w_items w_ifc] in A |- *. destruct (Nat.eqb_spec j i) as [EQ|N]; [subst j|eauto]. rewrite E in B. inversion B; subst y. exists (set_q x p l). split; [reflexivity|]. cbn [i_q set_q].
    destruct (Nat.eqb_spec PRI_IMMEDIATE p) as [EQ|N]; [|exact D]. rewrite EQ in D. rewrite Q in D. destruct D as [D|D]; [|exact D]. subst n. cbn in R. symmetry in EQ. specialize (R EQ). lia.
  - intros s O. specialize (v_sess0 s O). cbn [w_ss set_ifc] in O. dsok v_sess0. constructor; auto.
    + intros A. left. destruct (k_asked0 A) as [B|B]; [|destruct B]. destruct (Nat.eq_dec (S s) n) as [EQ|N]; [|apply QQ; auto]. destruct (Nat.eq_dec PRI_IMMEDIATE p) as [EP|N]; [|apply QQ; auto].
      subst n. destruct (R O) as [(j & y & X & Y & Z)|(X & _)]; [|symmetry in EP; specialize (X EP); cbn [w_ss set_ifc] in A; congruence]. exists j, y. rewrite EP. cbn. destruct (Nat.eqb_spec j i); [contradiction|]. auto.
    + intros q A. destruct (k_sched0 q A) as [B|B]; [|right; exact B]. destruct (Nat.eq_dec (S s) n) as [EQ|N]; [|left; apply QQ; auto]. destruct (Nat.eq_dec q p) as [EP|N]; [|left; apply QQ; auto].
      subst n q. destruct (R O) as [(j & y & X & Y & Z)|(_ & [X|[X|X]])].
      * left. exists j, y. cbn. destruct (Nat.eqb_spec j i); [contradiction|]. auto.
      * contradiction.
      * right. left. exact X.
      * right. right. left. exact X.
Qed.
Lemma INV_rotate : forall w H i x n l p, INV w H -> w_ifc w i = Some x -> i_q x p = n :: l -> (p < NUM_PRIORITIES)%nat -> INV (set_ifc w i (set_q x p (l ++ [n]))) H.
Proof.
  intros w H i x n l p I E Q Hp.
  assert (QQ : forall m q, In m (i_q x q) -> In m (i_q (set_q x p (l ++ [n])) q)).
  { intros m q. cbn. destruct (Nat.eqb_spec q p) as [EQ|]; [|auto]. subst q. rewrite Q. intros [A|A]; apply in_or_app; [right; left; exact A|left; exact A]. }
  dinv I. constructor; auto.
  - intros j y A S q Hq. cbn in A. destruct (Nat.eqb_spec j i) as [EQ|N]; [|eauto]. inversion A; subst y. cbn in S. pose proof (v_if0 i x E S p Hp) as X. congruence.
  - intros j A. destruct (v_items0 j A) as (y & B & D). unfold set_ifc in A |- *. cbn [w_items w_ifc] in A |- *. destruct (Nat.eqb_spec j i) as [EQ|N]; [subst j|eauto]. rewrite E in B. inversion B; subst y. exists (set_q x p (l ++ [n])). split; [reflexivity|]. apply QQ. exact D.
  - intros s O. eapply SOK_mono; [apply v_sess0; exact O| | |apply hle_refl].
    + intros q (j & y & A & B). destruct (Nat.eq_dec j i) as [->|NE].
      * rewrite E in A. inversion A; subst y. exists i, (set_q x p (l ++ [n])). unfold set_ifc. cbn [w_ifc]. rewrite Nat.eqb_refl. split; [reflexivity|]. apply QQ. exact B.
      * exists j, y. cbn. destruct (Nat.eqb_spec j i); [contradiction|]. auto.
    + intros j (y & A). unfold has_if. cbn. destruct (Nat.eqb_spec j i); eauto.
Qed.
Lemma wserve_fine : forall os w i p x, INV w none -> w_ifc w i = Some x -> (p < NUM_PRIORITIES)%nat -> Forall calm_offer os ->
  fine False (fun r => let '(w', b, os') := r in INV w' none /\ Forall calm_offer os' /\ exists x', w_ifc w' i = Some x' /\ (b = false -> i_q x' p = [] /\ forall q, q <> p -> i_q x' q = i_q x q)) (wserve w i p os).
Proof.
  induction os as [|o os IH]; intros w i p x I E Hp C; cbn [wserve]; rewrite E; destruct (i_q x p) as [|n l] eqn:Q.
  1,3: cbn; split; [exact I|split; [assumption|]]; exists x; auto. { exact Logic.I. }
  inversion C as [|? ? C1 C2]; subst.
  eapply fine_bind; [apply (isess_writable_fine w i n p o I Hp C1); exists x; exact E|]. intros (w1, b) (I1 & A1 & A2). cbn [fst snd] in *. rewrite E in A1. rewrite A1, Q. cbn [tl]. destruct b.
  - cbn [fine]. split; [apply INV_rotate; assumption|split; [exact C2|]]. exists (set_q x p (l ++ [n])). cbn. rewrite Nat.eqb_refl. split; [reflexivity|discriminate].
  - set (w2 := set_ifc w1 i (set_q x p l)). assert (I2 : INV w2 none) by (apply INV_dequeue with (n := n); auto).
    assert (E2 : w_ifc w2 i = Some (set_q x p l)) by (subst w2; cbn; rewrite Nat.eqb_refl; reflexivity).
    eapply fine_imp; [apply (IH w2 i p _ I2 E2 Hp C2)|tauto|]. intros ((w', b), os') (B1 & B2 & x' & B3 & B4). split; [exact B1|split; [exact B2|]]. exists x'. split; [exact B3|]. intros X. destruct (B4 X) as (Y & Z). split; [exact Y|].
    intros q N. rewrite (Z q N). cbn. destruct (Nat.eqb_spec q p); [contradiction|reflexivity].
Qed.
Lemma wlevels_fine : forall p w i x os, INV w none -> w_ifc w i = Some x -> (p < NUM_PRIORITIES)%nat -> (forall q, (p < q)%nat -> (q < NUM_PRIORITIES)%nat -> i_q x q = []) -> Forall calm_offer os ->
  fine False (fun r => INV (fst r) none) (wlevels w i p os).
Proof.
  induction p as [|p IH]; intros w i x os I E Hp Z C; cbn [wlevels].
  - eapply fine_bind; [apply (wserve_fine os w i 0 x I E Hp C)|]. intros ((w', b), os') (I' & C' & x' & E' & B). destruct b; [exact I'|]. destruct (B eq_refl) as (B1 & B2). rewrite E'. cbn [fine fst].
    assert (Z' : forall q, (q < NUM_PRIORITIES)%nat -> i_q x' q = []). { intros q Hq. destruct (Nat.eq_dec q 0) as [->|N]; [exact B1|]. rewrite (B2 q N). apply Z; lia. }
    clear -I' E' Z'. dinv I'. constructor; auto.
    + intros j y A S q Hq. cbn in A. destruct (Nat.eqb_spec j i) as [EQ|N]; [|eauto]. inversion A; subst y. cbn. auto.
    + intros j A. destruct (v_items0 j A) as (y & B & D). cbn. destruct (Nat.eqb_spec j i) as [EQ|N]; [|eauto]. subst j. rewrite E' in B. inversion B; subst y. eexists. split; [reflexivity|]. exact D.
    + intros s O. eapply SOK_mono; [apply v_sess0; exact O| | |apply hle_refl].
      * intros q (j & y & A & B). destruct (Nat.eq_dec j i) as [->|NE].
        -- rewrite E' in A. inversion A; subst y. exists i. eexists. cbn. rewrite Nat.eqb_refl. split; [reflexivity|]. exact B.
        -- exists j, y. cbn. destruct (Nat.eqb_spec j i); [contradiction|]. auto.
      * intros j (y & A). unfold has_if. cbn. destruct (Nat.eqb_spec j i); eauto.
  - eapply fine_bind; [apply (wserve_fine os w i (S p) x I E Hp C)|]. intros ((w', b), os') (I' & C' & x' & E' & B). destruct b; [exact I'|]. destruct (B eq_refl) as (B1 & B2).
    apply (IH w' i x' os' I' E'); [lia| |exact C']. intros q H1 H2. destruct (Nat.eq_dec q (S p)) as [->|N]; [exact B1|]. rewrite (B2 q N). apply Z; lia.
Qed.

(** *** Runs *)
Lemma wstep_fine : forall w o, INV w none -> calm_wop o -> fine (~ no_pri_wop o) (fun w' => INV w' none) (wstep w o).
Proof.
  intros w o I C. destruct o as [i|u|s|s limit ka c|s|s l seen m c|i os].
  - cbn [wstep]. destruct (w_ifc w i) eqn:E; [exact Logic.I|]. cbn [fine]. dinv I. constructor; auto.
    + intros j x A S p Hp. cbn in A. destruct (Nat.eqb_spec j i) as [EQ|N]; [inversion A; reflexivity|eauto].
    + intros j A. destruct (v_items0 j A) as (y & B & D). cbn. destruct (Nat.eqb_spec j i) as [EQ|N]; [subst; congruence|eauto].
    + intros s O. eapply SOK_mono; [apply v_sess0; exact O| | |apply hle_refl].
      * intros q (j & y & A & B). exists j, y. cbn. destruct (Nat.eqb_spec j i); [subst; congruence|]. auto.
      * intros j (y & A). unfold has_if. cbn. destruct (Nat.eqb_spec j i); eauto.
  - cbn [wstep]. apply ustep_fine. exact I.
  - cbn [wstep]. destruct (ss_delack _); [|exact Logic.I]. eapply fine_imp; [apply (ack_now_fine w none s False)|tauto|intros w' (X & _); exact X]. eapply INV_weaken; [exact I|hle].
  - eapply fine_imp; [apply (timeout_fine w s limit ka c I)|tauto|auto].
  - cbn [wstep]. cbv zeta. destruct (ss_burst (w_ss w s)) eqn:B; [|exact Logic.I].
    assert (I1 : INV (set_ss w s (ss_with_timers (w_ss w s) (ss_timeout (w_ss w s)) false)) (hole_rs none s NUM_PRIORITIES)).
    { apply INV_set_ss; [eapply INV_weaken; [exact I|hle]|reflexivity|intros X; apply (v_over _ _ I); exact X|]. intros O. pose proof (v_sess _ _ I s O) as K. dsok K. constructor; auto.
      intros p A. right. right. right. right. split; [reflexivity|]. exact (k_pri0 p A). }
    eapply fine_imp; [apply resched_fine with (H := none) (ub := False); [lia|exact I1|]|tauto|intros w' (X & _); exact X].
    rewrite set_ss_eq. intros O. exact (k_dest _ _ _ _ _ _ _ (v_sess _ _ I s O)).
  - cbn [wstep]. eapply fine_bind; [apply (ksteps_fine s l w false I)|]. intros (w', a) X. cbn [fst snd] in X. eapply fine_imp; [apply (after_fine w' s seen a m c X)|tauto|auto].
  - cbn [wstep]. destruct (w_ifc w i) as [x|] eqn:E; [|exact Logic.I]. destruct (i_sched x); [|exact Logic.I].
    apply fine_bind with (P := fun r => INV (fst r) none); [|intros (w', b) X; exact X]. eapply fine_imp; [apply (wlevels_fine (NUM_PRIORITIES - 1) w i x os I E)|tauto|auto].
    + unfold NUM_PRIORITIES; lia.
    + intros q A B. lia.
    + exact C.
Qed.
Lemma wrun_fine : forall l w, INV w none -> Forall calm_wop l -> fine (~ Forall no_pri_wop l) (fun w' => INV w' none) (wrun w l).
Proof.
  induction l as [|o l IH]; intros w I C; cbn [wrun]; [exact I|]. inversion C as [|? ? C1 C2]; subst.
  eapply fine_bind; [eapply fine_imp; [apply (wstep_fine w o I C1)| |intros r X; exact X]|].
  - intros X Y. inversion Y; subst. contradiction.
  - intros w' X. eapply fine_imp; [apply (IH w' X C2)| |auto]. intros Y Z. inversion Z; subst. contradiction.
Qed.
Lemma INV_init : forall pri rx, (forall f, (pri f < NUM_PRIORITIES)%nat) -> INV (w_init pri rx) none.
Proof. intros pri rx P. constructor; cbn; try discriminate; auto; try (intros; lia). Qed.
