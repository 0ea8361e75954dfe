(** Lemmas about Sched. *)
From Verif Require Import Base Interface Sched SchedSpec.
From Coq Require Import Lia.
Open Scope res_scope.

(** *** Outcomes *)
Definition fine {A} (ub : Prop) (P : A -> Prop) (r : res A) : Prop := match r with Ok a => P a | Rej => True | UB => ub end.
Lemma fine_bind : forall A B ub (P : A -> Prop) (Q : B -> Prop) r (k : A -> res B), fine ub P r -> (forall a, P a -> fine ub Q (k a)) -> fine ub Q (rbind r k).
Proof. intros A B ub P Q [a| |] k H K; cbn in *; auto. Qed.
Lemma fine_imp : forall A ub (ub' : Prop) (P Q : A -> Prop) r, fine ub P r -> (ub -> ub') -> (forall a, P a -> Q a) -> fine ub' Q r.
Proof. intros A ub ub' P Q [a| |]; cbn; auto. Qed.

(** *** The invariant, with holes *)
Record holes := Holes { h_a : nat -> Prop; h_r : nat -> nat -> Prop; h_f : nat -> Prop; h_x : nat -> Prop }.
Definition none : holes := Holes (fun _ => False) (fun _ _ => False) (fun _ => False) (fun _ => False).
Definition hle (H K : holes) : Prop := (forall s, h_a H s -> h_a K s) /\ (forall s p, h_r H s p -> h_r K s p) /\ (forall f, h_f H f -> h_f K f) /\ (forall s, h_x H s -> h_x K s).
Lemma hle_refl : forall H, hle H H. Proof. intros; repeat split; auto. Qed.
Definition queued (w : world) (n p : nat) : Prop := exists i x, w_ifc w i = Some x /\ In n (i_q x p).
Record SOK (Q : nat -> nat -> Prop) (D : nat -> Prop) (sf : nat -> sfl) (rf : nat -> rfl) (H : holes) (s : nat) (x : sess) : Prop := {
  k_ackq : forall r, In r (ss_ackq x) <-> rf_sess (rf r) = Some s /\ rf_owes (rf r) = true;
  k_nodup : NoDup (ss_ackq x);
  k_pending : ss_ackq x <> [] -> ss_acknow x = true \/ ss_delack x = true;
  k_one : ss_acknow x = true -> ss_delack x = false \/ h_x H s;
  k_asked : ss_acknow x = true -> Q (S s) PRI_IMMEDIATE \/ h_a H s;
  k_two : (2 <= ss_rxp x)%nat -> ss_acknow x = true \/ h_x H s;
  k_ready : forall f, sf_sess (sf f) = Some s -> (0 < sf_unsent (sf f))%nat -> (sum (flying (ss_out x) f) < sf_rx (sf f))%nat -> In f (ss_ready x (sf_pri (sf f))) \/ h_f H f;
  k_sched : forall p, ss_ready x p <> [] -> Q (S s) p \/ ss_out x <> [] \/ ss_burst x = true \/ h_r H s p;
  k_pri : forall p, ss_ready x p <> [] -> (p < NUM_PRIORITIES)%nat;
  k_timeout : ss_out x <> [] -> ss_timeout x = true;
  k_cwnd : (0 < ss_cwnd x)%nat;
  k_out : forall e, In e (ss_out x) -> sf_sess (sf (fst e)) = Some s /\ (0 < snd e)%nat;
  k_dest : D (ss_dest x);
  k_live : forall p f, In f (ss_ready x p) -> sf_sess (sf f) = Some s \/ (sf_sess (sf f) = None /\ sf_done (sf f) = true /\ sf_unsent (sf f) = 0%nat)
}.
Definition has_if (w : world) (i : nat) : Prop := exists x, w_ifc w i = Some x.
Record INV (w : world) (H : holes) : Prop := {
  v_if : forall i x, w_ifc w i = Some x -> i_sched x = false -> forall p, (p < NUM_PRIORITIES)%nat -> i_q x p = [];
  v_items : forall i, (0 < w_items w i)%nat -> exists x, w_ifc w i = Some x /\ In 0%nat (i_q x PRI_IMMEDIATE);
  v_bound : forall f s, sf_sess (w_sf w f) = Some s -> ss_state (w_ss w s) = SOpen;
  v_rbound : forall r s, rf_sess (w_rf w r) = Some s -> ss_state (w_ss w s) <> SNew;
  v_pri : forall f, (sf_pri (w_sf w f) < NUM_PRIORITIES)%nat;
  v_over : forall s, ss_state (w_ss w s) <> SOpen -> ss_out (w_ss w s) = [];
  v_sess : forall s, ss_state (w_ss w s) = SOpen -> SOK (queued w) (has_if w) (w_sf w) (w_rf w) H s (w_ss w s)
}.

Ltac dinv I := destruct I as [v_if0 v_items0 v_bound0 v_rbound0 v_pri0 v_over0 v_sess0].
Ltac dsok K := destruct K as [k_ackq0 k_nodup0 k_pending0 k_one0 k_asked0 k_two0 k_ready0 k_sched0 k_pri0 k_timeout0 k_cwnd0 k_out0 k_dest0 k_live0].
Lemma SOK_mono : forall (Q Q' : nat -> nat -> Prop) (D D' : nat -> Prop) sf rf H H' s x, SOK Q D sf rf H s x ->
  (forall p, Q (S s) p -> Q' (S s) p) -> (forall i, D i -> D' i) -> hle H H' -> SOK Q' D' sf rf H' s x.
Proof.
  intros Q Q' D D' sf rf H H' s x [] HQ HD (L1 & L2 & L3 & L4). constructor; auto.
  - intros E. destruct (k_one0 E); auto.
  - intros E. destruct (k_asked0 E); auto.
  - intros E. destruct (k_two0 E); auto.
  - intros f A B C. destruct (k_ready0 f A B C); auto.
  - intros p E. destruct (k_sched0 p E) as [A|[A|[A|A]]]; auto.
Qed.
Lemma INV_weaken : forall w H H', INV w H -> hle H H' -> INV w H'.
Proof. intros w H H' [] L. constructor; auto. intros s E. eapply SOK_mono; eauto. Qed.

(** *** One session changes *)
Lemma set_ss_eq : forall w s x, w_ss (set_ss w s x) s = x. Proof. intros. cbn. rewrite Nat.eqb_refl. reflexivity. Qed.
Lemma INV_set_ss : forall w H s x, INV w H -> ss_state x = ss_state (w_ss w s) -> (ss_state x <> SOpen -> ss_out x = []) ->
  (ss_state x = SOpen -> SOK (queued w) (has_if w) (w_sf w) (w_rf w) H s x) -> INV (set_ss w s x) H.
Proof.
  intros w H s x [] ES EO K. constructor; auto.
  - intros f s' E. cbn. destruct (Nat.eqb_spec s' s) as [->|]; [rewrite ES|]; eapply v_bound0; exact E.
  - intros r s' E. cbn. destruct (Nat.eqb_spec s' s) as [->|]; [rewrite ES|]; eapply v_rbound0; exact E.
  - intros s' E. unfold set_ss in E |- *. cbn [w_ss] in E |- *. destruct (Nat.eqb_spec s' s) as [EQ|N]; auto.
  - intros s' E. unfold set_ss in E |- *. cbn [w_ss w_sf w_rf w_ifc] in E |- *. destruct (Nat.eqb_spec s' s) as [EQ|N]; [subst s'; apply K; exact E|apply v_sess0; exact E].
Qed.

(** *** scheduleWrite *)
Lemma existsb_In : forall n l, existsb (Nat.eqb n) l = true <-> In n l.
Proof. intros. rewrite existsb_exists. split; [intros (x & A & B); apply Nat.eqb_eq in B; subst; exact A|intros; exists n; split; [assumption|apply Nat.eqb_refl]]. Qed.
Definition sched_post (w : world) (i n p : nat) (w' : world) : Prop :=
  w_ss w' = w_ss w /\ w_sf w' = w_sf w /\ w_rf w' = w_rf w /\ w_items w' = w_items w /\ w_log w' = w_log w /\
  (forall m q, queued w m q -> queued w' m q) /\ (forall j, has_if w j <-> has_if w' j) /\ (has_if w i -> queued w' n p) /\
  (forall j, j <> i -> w_ifc w' j = w_ifc w j) /\ (has_if w i -> exists x, w_ifc w' i = Some x /\ In n (i_q x p)).
Lemma w_sched_fine : forall w H i n p ub, INV w H -> (p < NUM_PRIORITIES)%nat -> fine ub (fun r => INV (fst r) H /\ sched_post w i n p (fst r) /\ (snd r = true <-> has_if w i)) (w_sched w i n p).
Proof.
  intros w H i n p ub I Hp. unfold w_sched. destruct (w_ifc w i) as [x|] eqn:Ei.
  2:{ cbn. split; [exact I|]. split. { repeat split; auto; intros (y & E); congruence. } split; [discriminate|intros (y & E); congruence]. }
  unfold schedule_write. rewrite (proj2 (Nat.ltb_lt _ _) Hp). cbn [i_q note]. cbn [rbind].
  set (x' := if existsb (Nat.eqb n) (i_q x p) then note x (Wanted n p) else if i_sched (set_q (note x (Wanted n p)) p (i_q x p ++ [n])) then set_q (note x (Wanted n p)) p (i_q x p ++ [n]) else Ifc (i_q (set_q (note x (Wanted n p)) p (i_q x p ++ [n]))) true (i_log (set_q (note x (Wanted n p)) p (i_q x p ++ [n])) ++ [Notify])).
  assert (Q1 : forall m q, In m (i_q x q) -> In m (i_q x' q)).
  { intros m q A. subst x'. destruct (existsb _ _); [exact A|]. cbn [i_sched set_q note]. destruct (i_sched x); cbn; destruct (Nat.eqb_spec q p) as [->|]; auto; apply in_or_app; auto. }
  assert (Q2 : In n (i_q x' p)).
  { subst x'. destruct (existsb (Nat.eqb n) (i_q x p)) eqn:B; [apply existsb_In in B; exact B|]. cbn [i_sched set_q note]. destruct (i_sched x); cbn; rewrite Nat.eqb_refl; apply in_or_app; right; left; reflexivity. }
  assert (Q3 : i_sched x' = false -> forall q, (q < NUM_PRIORITIES)%nat -> i_q x' q = []).
  { subst x'. destruct (existsb (Nat.eqb n) (i_q x p)) eqn:B; cbn; [intros E q; exact (v_if _ _ I i x Ei E q)|]. destruct (i_sched x) eqn:S; cbn; congruence. }
  assert (P : sched_post w i n p (set_ifc w i x')).
  { repeat split.
    - intros m q (j & y & A & B). destruct (Nat.eq_dec j i) as [->|N].
      + exists i, x'. cbn. rewrite Nat.eqb_refl. split; [reflexivity|]. apply Q1. rewrite Ei in A. inversion A; subst; exact B.
      + exists j, y. cbn. destruct (Nat.eqb_spec j i); [contradiction|]. split; assumption.
    - intros (y & E). unfold has_if. cbn. destruct (Nat.eqb_spec j i); eauto.
    - intros (y & E). unfold has_if. cbn in E. destruct (Nat.eqb_spec j i) as [->|]; eauto.
    - intros _. exists i, x'. cbn. rewrite Nat.eqb_refl. split; [reflexivity|exact Q2].
    - intros j N. cbn. destruct (Nat.eqb_spec j i); [contradiction|reflexivity].
    - intros _. exists x'. cbn. rewrite Nat.eqb_refl. split; [reflexivity|exact Q2]. }
  cbn. split; [|split; [exact P|split; [intros _; exists x; exact Ei|reflexivity]]].
  destruct I. destruct P as (_ & _ & _ & _ & _ & P & PH & _). constructor; auto.
  - intros j y E S. cbn in E. destruct (Nat.eqb_spec j i) as [->|]; [inversion E; subst; apply Q3; exact S|eauto].
  - intros j E. destruct (v_items0 j E) as (y & A & B). cbn. destruct (Nat.eqb_spec j i) as [->|]; [|eauto]. exists x'. split; [reflexivity|]. apply Q1. rewrite Ei in A. inversion A; subst; exact B.
  - intros s E. eapply SOK_mono; [apply v_sess0; exact E| |intros j; apply PH|apply hle_refl]. intros q A. apply P. exact A.
Qed.

(** *** Filling holes *)
Definition fill_r (H : holes) (s p : nat) : holes := Holes (h_a H) (fun s' p' => h_r H s' p' /\ ~ (s' = s /\ p' = p)) (h_f H) (h_x H).
Definition hole_r (H : holes) (s p : nat) : holes := Holes (h_a H) (fun s' p' => h_r H s' p' \/ (s' = s /\ p' = p)) (h_f H) (h_x H).
Definition hole_rs (H : holes) (s n : nat) : holes := Holes (h_a H) (fun s' p' => h_r H s' p' \/ (s' = s /\ (p' < n)%nat)) (h_f H) (h_x H).
Definition hole_f (H : holes) (f : nat) : holes := Holes (h_a H) (h_r H) (fun f' => h_f H f' \/ f' = f) (h_x H).
Definition hole_fs (H : holes) (l : list nat) : holes := Holes (h_a H) (h_r H) (fun f' => h_f H f' \/ In f' l) (h_x H).
Definition hole_a (H : holes) (s : nat) : holes := Holes (fun s' => h_a H s' \/ s' = s) (h_r H) (h_f H) (h_x H).
Definition hole_x (H : holes) (s : nat) : holes := Holes (h_a H) (h_r H) (h_f H) (fun s' => h_x H s' \/ s' = s).
Ltac hle := repeat split; cbn; intros; tauto.

Lemma INV_fill_r : forall w H s p, INV w (hole_r H s p) -> (ss_ready (w_ss w s) p <> [] -> ss_state (w_ss w s) = SOpen -> queued w (S s) p) -> INV w H.
Proof.
  intros w H s p [] Q. constructor; auto. intros s' E. specialize (v_sess0 s' E). destruct v_sess0. constructor; auto. intros q A.
  destruct (k_sched0 q A) as [B|[B|[B|[B|[-> ->]]]]]; auto.
Qed.
Lemma INV_fill_f : forall w H f, INV w (hole_f H f) ->
  (forall s, can_send w s f -> In f (ss_ready (w_ss w s) (sf_pri (w_sf w f)))) -> INV w H.
Proof.
  intros w H f [] Q. constructor; auto. intros s E. specialize (v_sess0 s E). destruct v_sess0. constructor; auto. intros g A B C.
  destruct (k_ready0 g A B C) as [D|[D| ->]]; auto. left. apply Q. split; [|split]; assumption.
Qed.

(** *** Flows *)
Lemma flying_sum : forall l f, sum (flying l f) = 0%nat \/ (0 < length (flying l f))%nat.
Proof. intros l f. destruct (flying l f); cbn; [left; reflexivity|right; lia]. Qed.
Lemma can_send_ready : forall w s f, can_send w s f -> maybe_ready w f = true.
Proof.
  intros w s f (A & B & C). unfold maybe_ready, window_open, out_of. rewrite A. apply Nat.ltb_lt in B. apply Nat.ltb_lt in C. rewrite B, C.
  destruct (sf_exc _); reflexivity.
Qed.
(** same sessions, flows and everything, apart from what is scheduled *)
Record kept (w w' : world) : Prop := {
  q_state : forall s, ss_state (w_ss w' s) = ss_state (w_ss w s);
  q_dest : forall s, ss_dest (w_ss w' s) = ss_dest (w_ss w s);
  q_acks : forall s, ss_ackq (w_ss w' s) = ss_ackq (w_ss w s) /\ ss_acknow (w_ss w' s) = ss_acknow (w_ss w s) /\ ss_delack (w_ss w' s) = ss_delack (w_ss w s);
  q_sf : w_sf w' = w_sf w;
  q_rf : w_rf w' = w_rf w;
  q_out : forall s, ss_out (w_ss w' s) = ss_out (w_ss w s);
  q_if : forall i, has_if w i <-> has_if w' i;
  q_log : w_log w' = w_log w
}.
Lemma kept_refl : forall w, kept w w. Proof. intros; constructor; auto; tauto. Qed.
Lemma kept_trans : forall a b c, kept a b -> kept b c -> kept a c.
Proof.
  intros a b c A B. constructor; intros.
  - rewrite (q_state _ _ B). apply (q_state _ _ A).
  - rewrite (q_dest _ _ B). apply (q_dest _ _ A).
  - destruct (q_acks _ _ A s) as (X & Y & Z), (q_acks _ _ B s) as (X' & Y' & Z'). rewrite X', Y', Z'. auto.
  - rewrite (q_sf _ _ B). apply (q_sf _ _ A).
  - rewrite (q_rf _ _ B). apply (q_rf _ _ A).
  - rewrite (q_out _ _ B). apply (q_out _ _ A).
  - rewrite (q_if _ _ A). apply (q_if _ _ B).
  - rewrite (q_log _ _ B). apply (q_log _ _ A).
Qed.
Lemma kept_sched : forall w i n p w', sched_post w i n p w' -> kept w w'.
Proof. intros w i n p w' (A & B & C & D & E & F & G & K). constructor; intros; rewrite ?A; auto. Qed.
Lemma sched_flow_on_fine : forall w H s f p, INV w (hole_f H f) -> ss_state (w_ss w s) = SOpen -> sf_sess (w_sf w f) = Some s -> p = sf_pri (w_sf w f) ->
  fine False (fun w' => INV w' H /\ kept w w') (sched_flow_on w s f p).
Proof.
  intros w H s f p I HO HS ->. pose proof (v_pri _ _ I f) as Hp. unfold sched_flow_on. cbv zeta. destruct (existsb _ _) eqn:B.
  - cbn. split; [|apply kept_refl]. apply INV_fill_f with (f := f); [exact I|]. intros s' (A & _). rewrite HS in A. inversion A; subst. apply existsb_In. exact B.
  - rewrite (proj2 (Nat.ltb_lt _ _) Hp). set (p := sf_pri (w_sf w f)) in *. set (x := w_ss w s) in *.
    assert (I1 : INV (set_ss w s (ss_with_ready x p (ss_ready x p ++ [f]))) (hole_r (hole_f H f) s p)).
    { apply INV_set_ss; [eapply INV_weaken; [exact I|hle]|reflexivity|intros X; cbn in X; congruence|]. intros _. destruct (v_sess _ _ I s HO). constructor; auto.
      - intros g A C D. cbn. destruct (Nat.eqb_spec (sf_pri (w_sf w g)) p) as [E|E].
        + destruct (k_ready0 g A C D) as [M|[M|M]]; [left; apply in_or_app; left; fold x; rewrite <- E; exact M|right; left; exact M|left; subst; apply in_or_app; right; left; reflexivity].
        + destruct (k_ready0 g A C D) as [M|M]; [left; exact M|right; exact M].
      - intros q. cbn. destruct (Nat.eqb_spec q p) as [->|]; intros A; [right; right; right; right; auto|]. destruct (k_sched0 q A) as [M|[M|[M|M]]]; auto.
      - intros q. cbn. destruct (Nat.eqb_spec q p) as [->|]; intros A; [exact Hp|]. auto.
      - intros q g. cbn. destruct (Nat.eqb_spec q p) as [EQ|]; [|apply k_live0]. intros A. apply in_app_or in A. destruct A as [A|[A|[]]]; [exact (k_live0 p g A)|subst; left; exact HS]. }
    eapply fine_bind; [apply w_sched_fine; [exact I1|exact Hp]|]. intros (w', b). cbn [fst snd]. intros (I' & P & _).
    cbn. split.
    + apply INV_fill_f with (f := f).
      * apply INV_fill_r with (s := s) (p := p); [exact I'|]. intros _ _. destruct P as (_ & _ & _ & _ & _ & _ & _ & P & _). apply P. apply (k_dest _ _ _ _ _ _ _ (v_sess _ _ I s HO)).
      * intros s' (A & _). destruct P as (P1 & P2 & _). rewrite P2 in *. cbn [w_sf set_ss] in *. rewrite HS in A. inversion A; subst s'. rewrite P1, set_ss_eq. cbn. fold p. rewrite Nat.eqb_refl. apply in_or_app. right. left. reflexivity.
    + eapply kept_trans; [|eapply kept_sched; exact P]. constructor; cbn; auto; intros; try (destruct (Nat.eqb_spec s0 s) as [->|]; reflexivity); try (split; intros K; exact K).
      destruct (Nat.eqb_spec s0 s) as [->|]; cbn; auto.
Qed.
Lemma sched_flow_fine : forall w H f, INV w (hole_f H f) -> fine (sf_sess (w_sf w f) = None) (fun w' => INV w' H /\ kept w w') (sched_flow w f).
Proof.
  intros w H f I. unfold sched_flow. destruct (maybe_ready w f) eqn:M.
  - destruct (sf_sess (w_sf w f)) as [s|] eqn:E; [|reflexivity]. eapply fine_imp; [apply sched_flow_on_fine; eauto|tauto|auto].
    eapply v_bound; eauto.
  - cbn. split; [|apply kept_refl]. apply INV_fill_f with (f := f); [exact I|]. intros s C. apply can_send_ready in C. congruence.
Qed.
Lemma INV_set_sf : forall w H f x, INV w H -> (forall s, sf_sess (w_sf w f) = Some s -> sf_sess x = Some s) -> (forall s, sf_sess x = Some s -> ss_state (w_ss w s) = SOpen) ->
  (sf_pri x < NUM_PRIORITIES)%nat -> (sf_sess (w_sf w f) = None -> sf_done (w_sf w f) = true -> sf_sess x = None /\ sf_done x = true /\ (sf_unsent (w_sf w f) = 0%nat -> sf_unsent x = 0%nat)) -> INV (set_sf w f x) (hole_f H f).
Proof.
  intros w H f x I A B C Z. apply INV_weaken with (H' := hole_f H f) in I; [|hle]. destruct I. constructor; auto.
  - intros g s E. cbn in E |- *. destruct (Nat.eqb_spec g f); eauto.
  - intros g. cbn. destruct (Nat.eqb_spec g f); auto.
  - intros s E. specialize (v_sess0 s E). destruct v_sess0. constructor; auto.
    + intros g. unfold set_sf. cbn [w_sf]. destruct (Nat.eqb_spec g f) as [->|]; [intros; right; right; reflexivity|apply k_ready0].
    + intros e D. cbn. destruct (k_out0 e D) as (E1 & E2). split; [|exact E2]. destruct (Nat.eqb_spec (fst e) f) as [F|]; [rewrite F in *; auto|exact E1].
    + intros q g J. unfold set_sf. cbn [w_sf]. destruct (Nat.eqb_spec g f) as [EQ|]; [subst g|exact (k_live0 q g J)]. destruct (k_live0 q f J) as [X|(X & Y & U)]; [left; auto|right]. destruct (Z X Y) as (Z1 & Z2 & Z3). auto.
Qed.
Lemma resched_fine : forall n w H s ub, (n <= NUM_PRIORITIES)%nat -> INV w (hole_rs H s n) -> (ss_state (w_ss w s) = SOpen -> has_if w (ss_dest (w_ss w s))) ->
  fine ub (fun w' => INV w' H /\ w_ss w' = w_ss w /\ w_sf w' = w_sf w /\ kept w w') (resched w s n).
Proof.
  induction n as [|n IH]; intros w H s ub Hn I D; cbn [resched].
  - cbn. split; [eapply INV_weaken; [exact I|]|split; [reflexivity|split; [reflexivity|apply kept_refl]]]. repeat split; cbn; intros; auto. destruct H0 as [|(_ & X)]; [assumption|lia].
  - assert (I' : INV w (hole_r (hole_rs H s n) s n)).
    { eapply INV_weaken; [exact I|]. repeat split; cbn; intros; auto. destruct H0 as [X|(X & Y)]; [auto|]. subst. destruct (Nat.eq_dec p n); [auto|left; right; split; [reflexivity|lia]]. }
    destruct (ss_ready (w_ss w s) n) eqn:E.
    + cbn [rbind]. apply IH; [lia| |exact D]. apply INV_fill_r with (s := s) (p := n); [exact I'|]. intros X; congruence.
    + eapply fine_bind.
      { eapply fine_bind; [apply w_sched_fine with (H := hole_r (hole_rs H s n) s n) (n := S s) (p := n) (i := ss_dest (w_ss w s)); [exact I'|lia]|].
        intros (w', b) (I1 & P & _). cbn in I1, P |- *.
        instantiate (1 := fun w' => INV w' (hole_rs H s n) /\ w_ss w' = w_ss w /\ w_sf w' = w_sf w /\ kept w w').
        pose proof P as P0. destruct P as (P1 & P2 & P3 & P4 & P5 & P6 & P7 & P8 & P9).
        split; [|split; [exact P1|split; [exact P2|]]].
        - apply INV_fill_r with (s := s) (p := n); [exact I1|]. rewrite P1. intros _ O. apply P8. apply D. exact O.
        - eapply kept_sched. exact P0. }
      cbn beta. intros w' (I1 & P1 & P2 & P3). eapply fine_imp; [apply (IH w' H s ub); [lia|exact I1|]|auto|].
      * rewrite P1. intros O. apply (q_if _ _ P3). auto.
      * cbn beta. intros a (A1 & A2 & A3 & A4). split; [exact A1|split; [congruence|split; [congruence|exact (kept_trans _ _ _ P3 A4)]]].
Qed.

(** *** Acknowledgements *)
Record same (w w' : world) : Prop := {
  m_state : forall s, ss_state (w_ss w' s) = ss_state (w_ss w s);
  m_dest : forall s, ss_dest (w_ss w' s) = ss_dest (w_ss w s);
  m_sess : forall f, sf_sess (w_sf w' f) = sf_sess (w_sf w f);
  m_rf : w_rf w' = w_rf w;
  m_out : forall s, ss_out (w_ss w' s) = ss_out (w_ss w s);
  m_if : forall i, has_if w i <-> has_if w' i
}.
Lemma same_refl : forall w, same w w. Proof. intros; constructor; auto; tauto. Qed.
Lemma same_trans : forall a b c, same a b -> same b c -> same a c.
Proof.
  intros a b c A B. constructor; intros.
  - rewrite (m_state _ _ B). apply (m_state _ _ A).
  - rewrite (m_dest _ _ B). apply (m_dest _ _ A).
  - rewrite (m_sess _ _ B). apply (m_sess _ _ A).
  - rewrite (m_rf _ _ B). apply (m_rf _ _ A).
  - rewrite (m_out _ _ B). apply (m_out _ _ A).
  - rewrite (m_if _ _ A). apply (m_if _ _ B).
Qed.
Lemma kept_same : forall w w', kept w w' -> same w w'.
Proof. intros w w' []. constructor; auto. intros; rewrite q_sf0; reflexivity. Qed.
Lemma same_set_ss : forall w s x, ss_state x = ss_state (w_ss w s) -> ss_dest x = ss_dest (w_ss w s) -> ss_out x = ss_out (w_ss w s) -> same w (set_ss w s x).
Proof. intros w s x A B C. constructor; cbn; auto; intros; try (destruct (Nat.eqb_spec s0 s); subst; auto); split; intros K; exact K. Qed.
Lemma is_open_iff : forall w s, is_open w s = true <-> ss_state (w_ss w s) = SOpen.
Proof. intros. unfold is_open. destruct (ss_state (w_ss w s)); split; congruence. Qed.
Lemma not_open : forall w s, is_open w s = false -> ss_state (w_ss w s) <> SOpen.
Proof. intros w s A B. apply is_open_iff in B. congruence. Qed.
Lemma INV_unhole_closed : forall w H s, INV w (hole_x H s) -> ss_state (w_ss w s) <> SOpen -> INV w H.
Proof.
  intros w H s [] N. constructor; auto. intros s' E. specialize (v_sess0 s' E). destruct v_sess0. constructor; auto.
  - intros A. destruct (k_one0 A) as [B|[B| ->]]; auto; try contradiction.
  - intros A. destruct (k_two0 A) as [B|[B| ->]]; auto; try contradiction.
Qed.
Lemma INV_fill_a : forall w H s, INV w (hole_a H s) -> queued w (S s) PRI_IMMEDIATE -> INV w H.
Proof.
  intros w H s [] Q. constructor; auto. intros s' E. specialize (v_sess0 s' E). destruct v_sess0. constructor; auto.
  intros A. destruct (k_asked0 A) as [B|[B| ->]]; auto.
Qed.
Lemma INV_fill_x : forall w H s, INV w (hole_x H s) -> (ss_acknow (w_ss w s) = true -> ss_delack (w_ss w s) = false) -> ((2 <= ss_rxp (w_ss w s))%nat -> ss_acknow (w_ss w s) = true) -> INV w H.
Proof.
  intros w H s [] A B. constructor; auto. intros s' E. specialize (v_sess0 s' E). destruct v_sess0. constructor; auto.
  - intros C. destruct (k_one0 C) as [D|[D| ->]]; auto.
  - intros C. destruct (k_two0 C) as [D|[D| ->]]; auto.
Qed.
Lemma ack_now_fine : forall w H s ub, INV w (hole_x H s) -> fine ub (fun w' => INV w' H /\ same w w' /\ w_log w' = w_log w /\ (is_open w s = true -> ss_acknow (w_ss w' s) = true)) (ack_now w s).
Proof.
  intros w H s ub I. unfold ack_now. destruct (is_open w s) eqn:O.
  2:{ cbn. split; [eapply INV_unhole_closed; [exact I|apply not_open; exact O]|]. split; [apply same_refl|]. split; [reflexivity|congruence]. }
  apply is_open_iff in O.
  apply fine_bind with (P := fun w' => INV w' (hole_x H s) /\ same w w' /\ w_log w' = w_log w /\ ss_acknow (w_ss w' s) = true).
  - destruct (ss_acknow (w_ss w s)) eqn:A; [cbn; split; [exact I|split; [apply same_refl|auto]]|]. cbv zeta. set (x := w_ss w s) in *.
    eapply fine_bind.
    + apply w_sched_fine with (H := hole_a (hole_x H s) s); [|unfold PRI_IMMEDIATE, NUM_PRIORITIES; lia].
      apply INV_set_ss; [eapply INV_weaken; [exact I|hle]|reflexivity|intros X; cbn in X; congruence|]. intros _. destruct (v_sess _ _ I s O). constructor; auto.
      * intros _. right. cbn. auto.
      * intros _. right. cbn. auto.
    + intros (w', b) (I' & P & _). cbn [fst snd] in I', P. cbn. split; [|split; [|split]].
      * apply INV_fill_a with (s := s); [exact I'|]. destruct P as (_ & _ & _ & _ & _ & _ & _ & P & _). apply P. apply (k_dest _ _ _ _ _ _ _ (v_sess _ _ I s O)).
      * eapply same_trans; [|apply kept_same; eapply kept_sched; exact P]. apply same_set_ss; reflexivity.
      * destruct P as (_ & _ & _ & _ & P & _). rewrite P. reflexivity.
      * destruct P as (P & _). rewrite P, set_ss_eq. reflexivity.
  - cbn beta. intros w' (I' & M & L & A). cbv zeta. cbn.
    assert (O' : ss_state (w_ss w' s) = SOpen) by (rewrite (m_state _ _ M); exact O).
    split; [|split; [|split; [exact L|intros _; rewrite Nat.eqb_refl; exact A]]].
    + apply INV_fill_x with (s := s); [|rewrite set_ss_eq; reflexivity|rewrite set_ss_eq; intros _; exact A].
      apply INV_set_ss; [exact I'|reflexivity|intros X; cbn in X; congruence|]. intros _. destruct (v_sess _ _ I' s O'). constructor; auto.
    + eapply same_trans; [exact M|]. apply same_set_ss; reflexivity.
Qed.
Lemma NoDup_snoc : forall (A : Type) (l : list A) a, NoDup l -> ~ In a l -> NoDup (l ++ [a]).
Proof. induction l as [|b l IH]; cbn; intros a N H; [constructor; [intros []|constructor]|]. inversion N; subst. constructor; [rewrite in_app_iff; cbn; intros [X|[X|[]]]; [contradiction|subst; tauto]|apply IH; tauto]. Qed.
Lemma rf_schedule_ack_fine : forall w H r now ub, INV w H -> fine ub (fun w' => INV w' H) (rf_schedule_ack w r now).
Proof.
  intros w H r now ub I. unfold rf_schedule_ack. destruct (rf_sess (w_rf w r)) as [s|] eqn:E; [|exact Logic.I].
  apply fine_bind with (P := fun w' => INV w' H /\ same w w').
  - destruct now; [|cbn; split; [exact I|apply same_refl]]. assert (I1 : INV w (hole_x H s)) by (eapply INV_weaken; [exact I|hle]).
    pose proof (ack_now_fine w H s ub I1) as X. destruct (ack_now w s); cbn in X |- *; tauto.
  - cbn beta. clear I. intros w' (I & M). assert (E' : rf_sess (w_rf w' r) = Some s) by (rewrite (m_rf _ _ M); exact E). clear M E w. rename w' into w.
    destruct (rf_owes (w_rf w r)) eqn:O; [exact I|]. cbn [fine]. unfold schedule_ack.
    assert (U : forall s' x, s' <> s -> SOK (queued w) (has_if w) (w_sf w) (w_rf w) H s' x -> SOK (queued w) (has_if w) (w_sf w) (fun j => if (j =? r)%nat then RFl (rf_sess (w_rf w r)) true else w_rf w j) H s' x).
    { intros s' x N []. constructor; auto. intros r'. rewrite k_ackq0. destruct (Nat.eqb_spec r' r) as [->|]; cbn; rewrite ?E'; [|tauto]. split; intros (A & B); [congruence|inversion A; congruence]. }
    assert (IO : is_open (set_rf w r (RFl (rf_sess (w_rf w r)) true)) s = is_open w s) by reflexivity. rewrite IO. destruct (is_open w s) eqn:B.
    + apply is_open_iff in B. pose proof I as I0. destruct I. constructor; auto.
      * intros f s' A. cbn. destruct (Nat.eqb_spec s' s) as [->|]; [exact B|eauto].
      * intros r' s'. cbn. intros A. destruct (Nat.eqb_spec s' s) as [->|]; [cbn; rewrite B; discriminate|]. destruct (Nat.eqb_spec r' r) as [->|]; cbn in A; eauto.
      * intros s'. cbn. destruct (Nat.eqb_spec s' s) as [->|]; cbn; auto.
      * intros s'. unfold set_ss, set_rf. cbn [w_ss w_sf w_rf w_ifc]. destruct (Nat.eqb_spec s' s) as [->|N]; [|intros A; apply U; [exact N|auto]].
        intros _. specialize (v_sess0 s B). destruct v_sess0. constructor; auto; cbn.
        -- intros r'. rewrite in_app_iff, k_ackq0. cbn. destruct (Nat.eqb_spec r' r) as [->|N]; cbn; [rewrite E'; tauto|]. split; [intros [A|[A|[]]]; [exact A|congruence]|tauto].
        -- apply NoDup_snoc; [exact k_nodup0|]. rewrite k_ackq0. intros (_ & A). congruence.
        -- intros _. destruct (ss_acknow (w_ss w s)); [auto|right; apply Bool.orb_true_r].
        -- intros A. rewrite A. destruct (k_one0 A) as [C|C]; [left; rewrite C; reflexivity|auto].
    + apply not_open in B. destruct I. constructor; auto.
      * intros r' s'. cbn. intros A. destruct (Nat.eqb_spec r' r) as [->|]; cbn in A; eauto.
      * intros s' A. cbn in A. unfold set_rf. cbn [w_ss w_sf w_rf w_ifc]. apply U; [intros ->; contradiction|auto].
Qed.

Lemma acked_all_spec : forall l w, w_ifc (acked_all w l) = w_ifc w /\ w_ss (acked_all w l) = w_ss w /\ w_sf (acked_all w l) = w_sf w /\ w_items (acked_all w l) = w_items w /\
  w_log (acked_all w l) = w_log w ++ map Acked l /\
  (forall r, rf_sess (w_rf (acked_all w l) r) = rf_sess (w_rf w r)) /\ (forall r, ~ In r l -> w_rf (acked_all w l) r = w_rf w r) /\ (forall r, In r l -> rf_owes (w_rf (acked_all w l) r) = false).
Proof.
  induction l as [|a l IH]; intros w; cbn [acked_all].
  - cbn. rewrite app_nil_r. repeat split; auto. tauto.
  - destruct (IH (wlog (set_rf w a (RFl (rf_sess (w_rf w a)) false)) [Acked a])) as (A & B & C & D & E & F & G & K). rewrite A, B, C, D, E. cbn. rewrite <- app_assoc. repeat split; auto.
    + intros r. rewrite F. cbn. destruct (Nat.eqb_spec r a) as [->|]; reflexivity.
    + intros r N. rewrite G by tauto. cbn. destruct (Nat.eqb_spec r a) as [->|]; [tauto|reflexivity].
    + intros r [->|M]; [|auto]. destruct (in_dec Nat.eq_dec r l) as [J|J]; [auto|]. rewrite G by exact J. cbn. rewrite Nat.eqb_refl. reflexivity.
Qed.
Lemma send_acks_fine : forall w H s oblig fit ub, INV w H -> ss_state (w_ss w s) = SOpen ->
  fine ub (fun a => INV (fst a) H /\ w_ifc (fst a) = w_ifc w /\ w_sf (fst a) = w_sf w /\ w_items (fst a) = w_items w /\
             (exists now del q rxp, (w_ss (fst a) = w_ss (set_ss w s (ss_with_acks (w_ss w s) now del q rxp)) \/ fst a = w) /\
                                   (oblig = true -> snd a = false -> ss_acknow (w_ss (fst a) s) = false)) /\
             (oblig = true -> ss_acknow (w_ss w s) = true -> forall r q, ss_ackq (w_ss w s) = r :: q -> snd a = true /\ In (Acked r) (skipn (length (w_log w)) (w_log (fst a))) /\ rf_owes (w_rf (fst a) r) = false)) (send_acks w s oblig fit).
Proof.
  intros w H s oblig fit ub I O. unfold send_acks. cbv zeta. set (x := w_ss w s) in *.
  destruct (oblig && negb (ss_acknow x))%bool eqn:E1.
  { cbn. apply Bool.andb_true_iff in E1. destruct E1 as (E1 & E2). apply Bool.negb_true_iff in E2. split; [exact I|]. repeat split; auto.
    - exists false, false, [], 0%nat. split; [right; reflexivity|]. intros _ _. exact E2.
    - congruence. - congruence. - congruence. }
  destruct (oblig && (fit =? 0)%nat && negb _)%bool eqn:E2; [exact Logic.I|].
  set (k := Nat.min fit (length (ss_ackq x))). destruct (acked_all_spec (firstn k (ss_ackq x)) w) as (A & B & C & D & E & F & G & K).
  set (w1 := acked_all w (firstn k (ss_ackq x))) in *. cbn [fine fst snd].
  set (dn := match skipn k (ss_ackq x) with [] => true | _ => false end).
  set (y := ss_with_acks x (ss_acknow x && negb dn) (ss_delack x && negb dn) (skipn k (ss_ackq x)) (if dn then 0%nat else ss_rxp x)).
  pose proof (v_sess _ _ I s O) as SK.
  assert (Hin : forall r, In r (firstn k (ss_ackq x)) -> rf_sess (w_rf w r) = Some s).
  { intros r J. apply (k_ackq _ _ _ _ _ _ _ SK). fold x. rewrite <- (firstn_skipn k (ss_ackq x)). apply in_or_app. auto. }
  assert (ND : NoDup (firstn k (ss_ackq x) ++ skipn k (ss_ackq x))) by (rewrite firstn_skipn; exact (k_nodup _ _ _ _ _ _ _ SK)).
  assert (DN : dn = true <-> skipn k (ss_ackq x) = []) by (subst dn; destruct (skipn k (ss_ackq x)); split; congruence).
  split; [|split; [cbn; rewrite A; reflexivity|split; [cbn; rewrite C; reflexivity|split; [cbn; rewrite D; reflexivity|split]]]].
  - assert (QQ : queued (set_ss w1 s y) = queued w) by (unfold queued; cbn; rewrite A; reflexivity).
    assert (DD : has_if (set_ss w1 s y) = has_if w) by (unfold has_if; cbn; rewrite A; reflexivity).
    pose proof I as I0. destruct I0. constructor.
    + cbn. rewrite A. auto.
    + cbn. rewrite A, D. auto.
    + cbn. rewrite B, C. intros f s' X. destruct (Nat.eqb_spec s' s) as [->|]; [exact O|exact (v_bound0 f s' X)].
    + cbn. rewrite B. intros r s' X. rewrite F in X. destruct (Nat.eqb_spec s' s) as [->|]; [cbn; fold x in O; rewrite O; discriminate|exact (v_rbound0 r s' X)].
    + cbn. rewrite C. auto.
    + cbn. rewrite B. intros s'. destruct (Nat.eqb_spec s' s) as [->|]; [exact (v_over0 s)|exact (v_over0 s')].
    + intros s'. rewrite QQ, DD. unfold set_ss. cbn [w_ss w_sf w_rf]. rewrite B, C. destruct (Nat.eqb_spec s' s) as [->|N].
      * intros _. destruct SK. constructor; auto; cbn.
        -- intros r. rewrite F. destruct (in_dec Nat.eq_dec r (firstn k (ss_ackq x))) as [J|J].
           ++ rewrite (K r J). split; [|intros (_ & X); discriminate]. intros X. exfalso. clear -ND J X. induction (firstn k (ss_ackq x)) as [|a l IH]; [contradiction|]. cbn in ND. inversion ND; subst. destruct J as [->|J]; [apply H1; apply in_or_app; auto|auto].
           ++ rewrite (G r J). rewrite <- k_ackq0. fold x. rewrite <- (firstn_skipn k (ss_ackq x)) at 2. rewrite in_app_iff. tauto.
        -- clear -ND. induction (firstn k (ss_ackq x)) as [|a l IH]; [exact ND|]. cbn in ND. inversion ND; auto.
        -- intros X. assert (Y : dn = false) by (destruct dn; [exfalso; apply X; apply DN; reflexivity|reflexivity]). rewrite Y. cbn. rewrite !Bool.andb_true_r. apply k_pending0. fold x. intros Z. rewrite Z in X. destruct k; cbn in X; congruence.
        -- destruct dn; cbn; rewrite ?Bool.andb_false_r, ?Bool.andb_true_r; [discriminate|exact k_one0].
        -- destruct dn; cbn; rewrite ?Bool.andb_false_r, ?Bool.andb_true_r; [discriminate|exact k_asked0].
        -- destruct dn; cbn; rewrite ?Bool.andb_false_r, ?Bool.andb_true_r; [lia|exact k_two0].
      * intros X. specialize (v_sess0 s' X). destruct v_sess0. constructor; auto. intros r. rewrite F. destruct (in_dec Nat.eq_dec r (firstn k (ss_ackq x))) as [J|J].
        -- rewrite k_ackq0, (Hin r J). split; intros (Y & _); congruence.
        -- rewrite (G r J). apply k_ackq0.
  - exists (ss_acknow x && negb dn)%bool, (ss_delack x && negb dn)%bool, (skipn k (ss_ackq x)), (if dn then 0%nat else ss_rxp x). split; [left; cbn; rewrite B; reflexivity|].
    intros -> Z. cbn. rewrite Nat.eqb_refl. cbn. apply Nat.ltb_ge in Z. cbn in E1, E2. apply Bool.negb_false_iff in E1. rewrite E1. cbn.
    assert (Q0 : ss_ackq x = []). { destruct (ss_ackq x) as [|a q]; [reflexivity|]. cbn in E2. subst k. destruct fit; [discriminate|cbn in Z; lia]. }
    assert (dn = true) by (apply DN; rewrite Q0; destruct k; reflexivity). rewrite H0. reflexivity.
  - intros -> NW r q Q0. cbn [fst snd]. rewrite Q0 in E2. cbn in E2. rewrite Bool.andb_true_r in E2. apply Nat.eqb_neq in E2.
    assert (K1 : (0 < k)%nat) by (subst k; rewrite Q0; cbn; lia). split; [apply Nat.ltb_lt; exact K1|]. assert (J : In r (firstn k (ss_ackq x))) by (rewrite Q0; destruct k; [lia|left; reflexivity]).
    split; [|apply K; exact J]. cbn. rewrite E, skipn_app, skipn_all, Nat.sub_diag. cbn. apply in_map. exact J.
Qed.
