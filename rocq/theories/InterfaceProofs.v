From Verif Require Import Base BaseFacts Interface InterfaceSpec.
Open Scope res_scope.

Lemma nth_eqb : forall s l, existsb (Nat.eqb s) l = true <-> In s l.
Proof. intros s l. rewrite existsb_exists. split; [intros (y & Y & E); apply Nat.eqb_eq in E; subst; exact Y|intros H; exists s; split; [exact H|apply Nat.eqb_refl]]. Qed.
Lemma wants_app : forall s p l1 l2 w, wants s p (l1 ++ l2) w = wants s p l2 (wants s p l1 w).
Proof. intros s p. induction l1 as [|[s' p' b|s' p'|] r IH]; intros l2 w; cbn [app wants]; try reflexivity; apply IH. Qed.
Lemma offered_app : forall p l1 l2, offered p (l1 ++ l2) = offered p l1 ++ offered p l2.
Proof. intros p. induction l1 as [|[s' p' b|s' p'|] r IH]; intros l2; cbn [app offered]; try reflexivity; try apply IH. destruct (Nat.eqb p' p); cbn; rewrite IH; reflexivity. Qed.

(** One elementary event: an arrival in a queue, or an offer to the head of one. *)
Inductive ev1 (x x' : ifc) : Prop :=
| e_want : forall s p l, (p < NUM_PRIORITIES)%nat -> i_log x' = i_log x ++ Wanted s p :: l -> (l = [] \/ l = [Notify]) ->
    (forall p', i_q x' p' = if Nat.eqb p' p then (if existsb (Nat.eqb s) (i_q x p) then i_q x p else i_q x p ++ [s]) else i_q x p') ->
    i_sched x' = (i_sched x || negb (existsb (Nat.eqb s) (i_q x p)))%bool -> ev1 x x'
| e_offer : forall s p b r, i_q x p = s :: r -> i_log x' = i_log x ++ [Asked s p b] -> i_sched x' = i_sched x ->
    (forall p', i_q x' p' = if Nat.eqb p' p then (if b then r ++ [s] else r) else i_q x p') -> ev1 x x'
| e_sleep : i_sched x' = false -> i_log x' = i_log x -> i_q x' = i_q x -> ev1 x x'.
Inductive evs : ifc -> ifc -> Prop :=
| evs_nil : forall x, evs x x
| evs_cons : forall x y z, ev1 x y -> evs y z -> evs x z.
Lemma evs_trans : forall x y z, evs x y -> evs y z -> evs x z.
Proof. intros x y z A B. induction A; [exact B|]. econstructor; eauto. Qed.
Lemma evs_one : forall x y, ev1 x y -> evs x y.
Proof. intros x y A. econstructor; [exact A|constructor]. Qed.
Lemma want_ev1 : forall x s p x', schedule_write x s p = Ok x' -> ev1 x x'.
Proof.
  intros x s p x' E. unfold schedule_write in E. destruct (Nat.ltb_spec p NUM_PRIORITIES) as [L|]; [|discriminate]. cbn [note i_q] in E. injection E as <-.
  destruct (existsb (Nat.eqb s) (i_q x p)) eqn:EX.
  - apply (e_want x _ s p []); cbn; auto; [|rewrite EX, orb_false_r; reflexivity]. intros p'. rewrite EX. destruct (Nat.eqb_spec p' p) as [->|]; reflexivity.
  - cbn [set_q i_sched note]. destruct (i_sched x) eqn:ES.
    + apply (e_want x _ s p []); cbn; auto; [|rewrite ES; reflexivity]. intros p'. rewrite EX. reflexivity.
    + apply (e_want x _ s p [Notify]); cbn; auto; [rewrite <- app_assoc; reflexivity| |rewrite ES, EX; reflexivity]. intros p'. rewrite EX. reflexivity.
Qed.
Lemma want_evs : forall w x x', schedule_all x w = Ok x' -> evs x x'.
Proof.
  induction w as [|[s p] w IH]; intros x x' E; cbn [schedule_all] in E; [injection E as <-; constructor|]. destruct (schedule_write x s p) as [x1| |] eqn:E1; try discriminate.
  econstructor; [exact (want_ev1 _ _ _ _ E1)|exact (IH _ _ E)].
Qed.
Lemma want_head : forall w x x' p s r, schedule_all x w = Ok x' -> i_q x p = s :: r -> exists n, i_q x' p = s :: r ++ n.
Proof.
  induction w as [|[s0 p0] w IH]; intros x x' p s r E H; cbn [schedule_all] in E; [injection E as <-; exists []; rewrite app_nil_r; exact H|].
  destruct (schedule_write x s0 p0) as [x1| |] eqn:E1; try discriminate. cbn [rbind] in E.
  assert (exists n, i_q x1 p = s :: r ++ n) as (n & H1).
  { destruct (want_ev1 _ _ _ _ E1) as [s1 p1 l _ _ _ Q _|s1 p1 b r1 Hq _ _ Q|_ _ Q].
    - specialize (Q p). destruct (Nat.eqb_spec p p1) as [<-|]; [|exists []; rewrite app_nil_r; congruence]. destruct (existsb (Nat.eqb s1) (i_q x p)); [exists []; rewrite app_nil_r; congruence|]. exists [s1]. rewrite Q, H. reflexivity.
    - unfold schedule_write in E1. destruct (p0 <? NUM_PRIORITIES)%nat; [|discriminate]. cbn [note i_q i_sched set_q i_log] in E1. destruct (existsb (Nat.eqb s0) (i_q x p0)) eqn:EX; [injection E1 as <-|destruct (i_sched x); injection E1 as <-]; cbn [i_q note set_q] in Q |- *.
      + exists []. rewrite app_nil_r. exact H.
      + destruct (Nat.eqb_spec p p0) as [->|]; [exists [s0]; rewrite H; reflexivity|exists []; rewrite app_nil_r; exact H].
      + destruct (Nat.eqb_spec p p0) as [->|]; [exists [s0]; rewrite H; reflexivity|exists []; rewrite app_nil_r; exact H].
    - exists []. rewrite app_nil_r, Q. exact H. }
  destruct (IH _ _ _ _ _ E H1) as (n' & H2). exists (n ++ n'). rewrite app_assoc. exact H2.
Qed.
Lemma offer_ev1 : forall x p s r b, i_q x p = s :: r -> ev1 x (set_q (note x (Asked s p b)) p (if b then tl (i_q (note x (Asked s p b)) p) ++ [s] else tl (i_q (note x (Asked s p b)) p))).
Proof. intros x p s r b H. apply (e_offer x _ s p b r); [exact H|reflexivity|reflexivity|]. intros p'. cbn [set_q note i_q]. rewrite H. cbn [tl]. destruct (Nat.eqb p' p), b; reflexivity. Qed.
Lemma serve_evs : forall ans x p b x' rest, serve x p ans = Ok (b, x', rest) -> evs x x' /\ (b = false -> i_q x' p = []).
Proof.
  induction ans as [|[w a] ans IH]; intros x p b x' rest E; cbn [serve] in E; destruct (i_q x p) as [|s r] eqn:EQ; try discriminate; try (injection E as <- <- <-; split; [constructor|intros _; exact EQ]).
  destruct (schedule_all x w) as [x1| |] eqn:E1; try discriminate. cbn [rbind] in E. destruct (want_head _ _ _ _ _ _ E1 EQ) as (n & H1). pose proof (offer_ev1 x1 p s _ a H1) as O. destruct a.
  - injection E as <- <- <-. split; [|discriminate]. eapply evs_trans; [exact (want_evs _ _ _ E1)|]. exact (evs_one _ _ O).
  - destruct (IH _ _ _ _ _ E) as [A B]. split; [|exact B]. eapply evs_trans; [exact (want_evs _ _ _ E1)|]. econstructor; [exact O|exact A].
Qed.
Lemma levels_evs : forall p x ans b x', levels x p ans = Ok (b, x') -> evs x x'.
Proof.
  induction p as [|p IH]; intros x ans b x' E; cbn [levels] in E; destruct (serve x _ ans) as [[[b1 x1] rest]| |] eqn:E1; try discriminate; cbn [rbind] in E; destruct (serve_evs _ _ _ _ _ _ E1) as [A _]; destruct b1;
    try (injection E as <- <-; exact A).
  - injection E as <- <-. eapply evs_trans; [exact A|]. apply evs_one, e_sleep; reflexivity.
  - eapply evs_trans; [exact A|exact (IH _ _ _ _ E)].
Qed.
Lemma step_evs : forall x o x', istep x o = Ok x' -> evs x x'.
Proof.
  intros x [s p|ans] x' E; cbn [istep] in E; [exact (evs_one _ _ (want_ev1 _ _ _ _ E))|]. destruct (i_sched x); [|discriminate]. destruct (on_writable x ans) as [[b x1]| |] eqn:E1; try discriminate. injection E as <-. exact (levels_evs _ _ _ _ _ E1).
Qed.
Lemma run_evs : forall l x x', irun x l = Ok x' -> evs x x'.
Proof.
  induction l as [|o l IH]; intros x x' E; cbn [irun] in E; [injection E as <-; constructor|]. destruct (istep x o) as [x1| |] eqn:E1; try discriminate. eapply evs_trans; [exact (step_evs _ _ _ E1)|exact (IH _ _ E)].
Qed.
(** no session is in a queue twice *)
Definition clean (x : ifc) : Prop := forall p, NoDup (i_q x p).
Lemma nodup_app1 : forall (l : list nat) s, NoDup l -> ~ In s l -> NoDup (l ++ [s]).
Proof. intros l s N H. apply NoDup_rev in N. rewrite <- (rev_involutive (l ++ [s])). apply NoDup_rev. rewrite rev_app_distr. cbn. constructor; [rewrite <- in_rev; exact H|exact N]. Qed.
Lemma ev1_clean : forall x y, ev1 x y -> clean x -> clean y.
Proof.
  intros x y [s p l _ _ _ Q _|s p b r H _ _ Q|_ _ Q] C p'; rewrite Q; [| |exact (C p')].
  - destruct (Nat.eqb_spec p' p) as [->|]; [|exact (C p')]. destruct (existsb (Nat.eqb s) (i_q x p)) eqn:EX; [exact (C p)|]. apply nodup_app1; [exact (C p)|]. intros I. apply nth_eqb in I. congruence.
  - destruct (Nat.eqb_spec p' p) as [->|]; [|exact (C p')]. pose proof (C p) as N. rewrite H in N. inversion N; subst. destruct b; [apply nodup_app1; assumption|assumption].
Qed.
Lemma evs_clean : forall x y, evs x y -> clean x -> clean y.
Proof. intros x y E C. induction E as [x|x y z E _ IH]; [exact C|]. apply IH. exact (ev1_clean _ _ E C). Qed.
Lemma init_clean : clean ifc_init.
Proof. intros p. constructor. Qed.

(** first come, first offered *)
Lemma ev1_since : forall x y, ev1 x y -> exists l, since x y l.
Proof. intros x y [s p l _ L _ _ _|s p b r _ L _ _|_ L _]; eexists; [exact L|exact L|unfold since; rewrite L, app_nil_r; reflexivity]. Qed.
Lemma since_trans : forall x y z l1 l2, since x y l1 -> since y z l2 -> since x z (l1 ++ l2).
Proof. unfold since. intros x y z l1 l2 A B. rewrite B, A, app_assoc. reflexivity. Qed.
Lemma evs_since : forall x y, evs x y -> exists l, since x y l.
Proof. intros x y E. induction E as [x|x y z E _ (l & S1)]; [exists []; unfold since; rewrite app_nil_r; reflexivity|]. destruct (ev1_since _ _ E) as (l0 & S0). exists (l0 ++ l). exact (since_trans _ _ _ _ _ S0 S1). Qed.
Lemma evs_fifo : forall x y, evs x y -> forall p u t v, i_q x p = u ++ t :: v -> exists l, since x y l /\
  (prefix (u ++ [t]) (offered p l) \/ exists u' v', u = offered p l ++ u' /\ i_q y p = u' ++ t :: v').
Proof.
  intros x y E. induction E as [x|x y z E EZ IH]; intros p u t v H.
  - exists []. split; [unfold since; rewrite app_nil_r; reflexivity|]. right. exists u, v. split; [reflexivity|exact H].
  - assert (K : forall l0, since x y l0 -> (exists u', u = offered p l0 ++ u' /\ exists v', i_q y p = u' ++ t :: v') -> exists l, since x z l /\ (prefix (u ++ [t]) (offered p l) \/ exists u' v', u = offered p l ++ u' /\ i_q z p = u' ++ t :: v')).
    { intros l0 S0 (u' & -> & v' & H1). destruct (IH p u' t v' H1) as (l & S1 & D). exists (l0 ++ l). split; [exact (since_trans _ _ _ _ _ S0 S1)|]. rewrite offered_app. destruct D as [(q & D)|(u2 & v2 & -> & D)].
      - left. exists q. rewrite D, !app_assoc. reflexivity.
      - right. exists u2, v2. split; [rewrite app_assoc; reflexivity|exact D]. }
    destruct E as [s p1 l _ L N Q _|s p1 b r Hq L _ Q|_ L Q].
    + apply (K (Wanted s p1 :: l) L). exists u. split; [destruct N as [-> | ->]; reflexivity|]. rewrite Q. destruct (Nat.eqb_spec p p1) as [->|]; [|exists v; exact H]. destruct (existsb _ _); [exists v; exact H|]. exists (v ++ [s]). rewrite H, <- app_assoc. reflexivity.
    + destruct (Nat.eqb_spec p1 p) as [->|NE].
      * destruct u as [|a u].
        -- cbn in H. rewrite H in Hq. injection Hq as <- <-. destruct (evs_since _ _ EZ) as (l2 & S2). exists ([Asked t p b] ++ l2). split; [exact (since_trans _ _ _ _ _ L S2)|]. left. exists (offered p l2). cbn [app offered]. rewrite Nat.eqb_refl. reflexivity.
        -- cbn in H. rewrite H in Hq. injection Hq as <- <-. apply (K _ L). exists u. cbn [offered]. rewrite Nat.eqb_refl. split; [reflexivity|]. rewrite Q, Nat.eqb_refl. destruct b; [exists (v ++ [a]); rewrite <- app_assoc; reflexivity|exists v; reflexivity].
      * apply (K _ L). exists u. cbn [offered]. replace (p1 =? p)%nat with false by (symmetry; apply Nat.eqb_neq; exact NE). split; [reflexivity|]. rewrite Q. replace (p =? p1)%nat with false by (symmetry; apply Nat.eqb_neq; congruence). exists v. exact H.
    + apply (K []); [unfold since; rewrite L, app_nil_r; reflexivity|]. exists u. split; [reflexivity|]. exists v. rewrite Q. exact H.
Qed.

(** higher priorities first *)
Lemma since_unique : forall x y l1 l2, since x y l1 -> since x y l2 -> l1 = l2.
Proof. unfold since. intros x y l1 l2 A B. rewrite A in B. apply app_inv_head in B. exact B. Qed.
Lemma want_waits : forall w x x', schedule_all x w = Ok x' -> (forall p s, In s (i_q x p) -> In s (i_q x' p)) /\ exists l, since x x' l /\ forall s p b, ~ In (Asked s p b) l.
Proof.
  induction w as [|[s0 p0] w IH]; intros x x' E; cbn [schedule_all] in E; [injection E as <-; split; [auto|]; exists []; split; [unfold since; rewrite app_nil_r; reflexivity|intros ? ? ? []]|].
  destruct (schedule_write x s0 p0) as [x1| |] eqn:E1; try discriminate. cbn [rbind] in E. destruct (IH _ _ E) as (A & l & S1 & N).
  assert (B : (forall p s, In s (i_q x p) -> In s (i_q x1 p)) /\ exists l, since x x1 l /\ forall s p b, ~ In (Asked s p b) l).
  { clear - E1. unfold schedule_write in E1. destruct (p0 <? NUM_PRIORITIES)%nat; [|discriminate]. cbn [note i_q i_sched set_q i_log] in E1.
    destruct (existsb (Nat.eqb s0) (i_q x p0)) eqn:EX; [injection E1 as <-|destruct (i_sched x); injection E1 as <-]; (split; [intros p s I; cbn [i_q note set_q]|]).
    - exact I.
    - exists [Wanted s0 p0]. split; [reflexivity|]. intros s p b [H|[]]. discriminate.
    - destruct (Nat.eqb_spec p p0) as [->|]; [apply in_or_app; left; exact I|exact I].
    - exists [Wanted s0 p0]. split; [reflexivity|]. intros s p b [H|[]]. discriminate.
    - destruct (Nat.eqb_spec p p0) as [->|]; [apply in_or_app; left; exact I|exact I].
    - exists [Wanted s0 p0; Notify]. split; [unfold since; cbn; rewrite <- app_assoc; reflexivity|]. intros s p b [H|[H|[]]]; discriminate. }
  destruct B as (B & l0 & S0 & N0). split; [intros p s I; apply A, B, I|]. exists (l0 ++ l). split; [exact (since_trans _ _ _ _ _ S0 S1)|]. intros s p b I. apply in_app_or in I. destruct I as [I|I]; [exact (N0 _ _ _ I)|exact (N _ _ _ I)].
Qed.
Lemma serve_says : forall ans x p b x' rest, serve x p ans = Ok (b, x', rest) -> exists l, since x x' l /\
  (forall s p' c, In (Asked s p' c) l -> p' = p /\ (c = true -> b = true)) /\
  (b = false -> forall s, In s (i_q x p) -> In (Asked s p false) l) /\
  (forall s p', p' <> p -> In s (i_q x p') -> In s (i_q x' p')) /\
  (b = true -> exists l0 s, l = l0 ++ [Asked s p true] /\ (forall s' p' c, In (Asked s' p' c) l0 -> c = false)).
Proof.
  induction ans as [|[w a] ans IH]; intros x p b x' rest E; cbn [serve] in E; destruct (i_q x p) as [|s r] eqn:EQ; try discriminate;
    try (injection E as <- <- <-; exists []; split; [unfold since; rewrite app_nil_r; reflexivity|]; split; [intros ? ? ? []|]; split; [intros _ ? []|]; split; [auto|discriminate]).
  destruct (schedule_all x w) as [x1| |] eqn:E1; try discriminate. cbn [rbind] in E. destruct (want_waits _ _ _ E1) as (W & l0 & S0 & N0). destruct (want_head _ _ _ _ _ _ E1 EQ) as (n & H1). destruct a.
  - injection E as <- <- <-. exists (l0 ++ [Asked s p true]). split; [apply (since_trans _ x1 _ _ _ S0); reflexivity|].
    split. { intros s1 p1 c I. apply in_app_or in I. destruct I as [I|[I|[]]]; [destruct (N0 _ _ _ I)|]. injection I as <- <- <-. auto. }
    split; [discriminate|]. split. { intros s1 p1 NE I. cbn [set_q note i_q]. replace (p1 =? p)%nat with false by (symmetry; apply Nat.eqb_neq; exact NE). apply W, I. }
    intros _. exists l0, s. split; [reflexivity|]. intros s1 p1 c I. destruct (N0 _ _ _ I).
  - destruct (IH _ _ _ _ _ E) as (l & S1 & A & B & C & D). exists ((l0 ++ [Asked s p false]) ++ l).
    split. { eapply since_trans; [|exact S1]. apply (since_trans _ x1 _ _ _ S0). reflexivity. }
    split. { intros s1 p1 c I. apply in_app_or in I. destruct I as [I|I]; [|exact (A _ _ _ I)]. apply in_app_or in I. destruct I as [I|[I|[]]]; [destruct (N0 _ _ _ I)|]. injection I as <- <- <-. split; [reflexivity|discriminate]. }
    split. { intros Eb s1 I. apply in_or_app. destruct (Nat.eq_dec s1 s) as [->|NE]; [left; apply in_or_app; right; left; reflexivity|]. right. apply (B Eb). cbn [set_q note i_q]. rewrite Nat.eqb_refl, H1. cbn [tl]. destruct I as [I|I]; [congruence|]. apply in_or_app. left. exact I. }
    split. { intros s1 p1 NE I. apply C; [exact NE|]. cbn [set_q note i_q]. replace (p1 =? p)%nat with false by (symmetry; apply Nat.eqb_neq; exact NE). apply W, I. }
    intros Eb. destruct (D Eb) as (l1 & s1 & -> & F). exists ((l0 ++ [Asked s p false]) ++ l1), s1. split; [rewrite app_assoc; reflexivity|]. intros s2 p2 c I. apply in_app_or in I. destruct I as [I|I]; [|exact (F _ _ _ I)].
    apply in_app_or in I. destruct I as [I|[I|[]]]; [destruct (N0 _ _ _ I)|]. injection I as <- <- <-. reflexivity.
Qed.
Lemma levels_says : forall k x ans b x', levels x k ans = Ok (b, x') -> exists l, since x x' l /\
  (forall s p c, In (Asked s p c) l -> (p <= k)%nat) /\
  (forall s p c, In (Asked s p c) l -> forall s' p', (p < p' <= k)%nat -> In s' (i_q x p') -> In (Asked s' p' false) l) /\
  (b = false -> (forall s p c, In (Asked s p c) l -> c = false) /\ i_sched x' = false /\ forall s p, (p <= k)%nat -> In s (i_q x p) -> In (Asked s p false) l) /\
  (b = true -> exists l0 s p, l = l0 ++ [Asked s p true] /\ (forall s' p' c, In (Asked s' p' c) l0 -> c = false)).
Proof.
  induction k as [|k IH]; intros x ans b x' E; cbn [levels] in E; destruct (serve x _ ans) as [[[b1 x1] rest]| |] eqn:E1; try discriminate; cbn [rbind] in E; destruct (serve_says _ _ _ _ _ _ E1) as (l & S1 & A & B & C & D); destruct b1.
  - injection E as <- <-. exists l. split; [exact S1|]. split; [intros s p c I; destruct (A _ _ _ I); lia|]. split; [intros s p c I s' p' L; lia|]. split; [discriminate|]. intros _. destruct (D eq_refl) as (l0 & s & -> & F). eauto.
  - injection E as <- <-. exists l. split; [exact S1|]. split; [intros s p c I; destruct (A _ _ _ I); lia|]. split; [intros s p c I s' p' L; lia|]. split; [|discriminate]. intros _. split; [intros s p c I; destruct c; [destruct (A _ _ _ I) as [_ G]; discriminate G; reflexivity|reflexivity]|]. split; [reflexivity|]. intros s p L I. assert (p = 0)%nat as -> by lia. exact (B eq_refl s I).
  - injection E as <- <-. exists l. split; [exact S1|]. split; [intros s p c I; destruct (A _ _ _ I); lia|]. split; [intros s p c I s' p' L; destruct (A _ _ _ I); lia|]. split; [discriminate|]. intros _. destruct (D eq_refl) as (l0 & s & -> & F). eauto.
  - destruct (IH _ _ _ _ E) as (l2 & S2 & A2 & B2 & C2 & D2). exists (l ++ l2). split; [exact (since_trans _ _ _ _ _ S1 S2)|].
    split. { intros s p c I. apply in_app_or in I. destruct I as [I|I]; [destruct (A _ _ _ I); lia|]. specialize (A2 _ _ _ I). lia. }
    split. { intros s p c I s' p' L I'. destruct (Nat.eq_dec p' (S k)) as [->|NE]; [apply in_or_app; left; exact (B eq_refl s' I')|]. apply in_app_or in I. destruct I as [I|I]; [destruct (A _ _ _ I); lia|]. apply in_or_app. right. apply (B2 _ _ _ I); [lia|]. apply C; [exact NE|exact I']. }
    split. { intros Eb. destruct (C2 Eb) as (F & G & H). split; [|split; [exact G|]].
      - intros s p c I. apply in_app_or in I. destruct I as [I|I]; [|exact (F _ _ _ I)]. destruct c; [destruct (A _ _ _ I) as [_ K]; discriminate K; reflexivity|reflexivity].
      - intros s p L I. apply in_or_app. destruct (Nat.eq_dec p (S k)) as [->|NE]; [left; exact (B eq_refl s I)|right]. apply H; [lia|]. apply C; [exact NE|exact I]. }
    intros Eb. destruct (D2 Eb) as (l0 & s & p & -> & F). exists (l ++ l0), s, p. split; [rewrite app_assoc; reflexivity|]. intros s' p' c I. apply in_app_or in I. destruct I as [I|I]; [|exact (F _ _ _ I)]. destruct c; [destruct (A _ _ _ I) as [_ K]; discriminate K; reflexivity|reflexivity].
Qed.

(** requests are neither lost nor made up, and the interface is watched while there are any *)
Definition faithful (x : ifc) : Prop := (forall s p, In s (i_q x p) <-> wants s p (i_log x) false = true) /\ (forall p, (NUM_PRIORITIES <= p)%nat -> i_q x p = []).
Lemma init_faithful : faithful ifc_init.
Proof. split; [intros s p; cbn; split; [intros []|discriminate]|reflexivity]. Qed.
Lemma ev1_faithful : forall x y, ev1 x y -> clean x -> faithful x -> faithful y.
Proof.
  intros x y [s p l L0 L N Q _|s p b r H L _ Q|_ L Q] C [F1 F2]; (split; [intros s1 p1; rewrite Q, L|intros p1 L1; rewrite Q]).
  - rewrite wants_app. assert (EW : forall w, wants s1 p1 (Wanted s p :: l) w = if (s =? s1)%nat && (p =? p1)%nat then true else w) by (intros w; destruct N as [-> | ->]; reflexivity). rewrite EW. clear EW.
    destruct (Nat.eqb_spec p1 p) as [->|NE].
    + rewrite Nat.eqb_refl, andb_true_r. destruct (existsb (Nat.eqb s) (i_q x p)) eqn:EX.
      * destruct (Nat.eqb_spec s s1) as [->|]; [|apply F1]. apply nth_eqb in EX. tauto.
      * rewrite in_app_iff. cbn. destruct (Nat.eqb_spec s s1) as [->|]; [tauto|]. rewrite F1. intuition congruence.
    + replace (p =? p1)%nat with false by (symmetry; apply Nat.eqb_neq; congruence). rewrite andb_false_r. apply F1.
  - destruct (Nat.eqb_spec p1 p) as [->|]; [lia|]. exact (F2 p1 L1).
  - rewrite wants_app. cbn [wants]. destruct (Nat.eqb_spec p1 p) as [->|NE].
    + rewrite Nat.eqb_refl, andb_true_r. pose proof (C p) as ND. rewrite H in ND. inversion ND; subst. specialize (F1 s1 p). rewrite H in F1. cbn in F1. destruct (Nat.eqb_spec s s1) as [->|NE].
      * destruct b; [rewrite in_app_iff; cbn; tauto|]. split; [intros I; contradiction|discriminate].
      * destruct b; [rewrite in_app_iff; cbn; intuition congruence|intuition congruence].
    + replace (p =? p1)%nat with false by (symmetry; apply Nat.eqb_neq; congruence). rewrite andb_false_r. apply F1.
  - destruct (Nat.eqb_spec p1 p) as [->|]; [|exact (F2 p1 L1)]. rewrite (F2 p L1) in H. discriminate.
  - apply F1.
  - exact (F2 p1 L1).
Qed.
Lemma evs_faithful : forall x y, evs x y -> clean x -> faithful x -> faithful y.
Proof. intros x y E C F. induction E as [x|x y z E _ IH]; [exact F|]. apply IH; [exact (ev1_clean _ _ E C)|exact (ev1_faithful _ _ E C F)]. Qed.
Definition watched (x : ifc) : Prop := i_sched x = false -> forall p, i_q x p = [].
Lemma serve_calm : forall ans x p x' rest b, calm ans -> serve x p ans = Ok (b, x', rest) -> calm rest /\ (b = true \/ (i_q x' p = [] /\ forall p', p' <> p -> i_q x' p' = i_q x p')) /\ (b = true -> i_sched x = true -> i_sched x' = true).
Proof.
  induction ans as [|[w a] ans IH]; intros x p x' rest b C E; cbn [serve] in E; destruct (i_q x p) as [|s r] eqn:EQ; try discriminate; try (injection E as <- <- <-; split; [exact C|]; split; [right; auto|discriminate]).
  inversion C as [|? ? C1 C2]; subst. destruct (schedule_all x w) as [x1| |] eqn:E1; try discriminate. cbn [rbind] in E. destruct a.
  - injection E as <- <- <-. split; [exact C2|]. split; [left; reflexivity|]. intros _ S. clear - E1 S. cbn. revert x x1 E1 S. induction w as [|[s0 p0] w IH]; intros x x1 E1 S; cbn [schedule_all] in E1; [injection E1 as <-; exact S|].
    destruct (schedule_write x s0 p0) as [x2| |] eqn:E2; try discriminate. apply (IH x2 x1 E1). unfold schedule_write in E2. destruct (p0 <? NUM_PRIORITIES)%nat; [|discriminate]. cbn [note i_q i_sched set_q] in E2. rewrite S in E2. destruct (existsb _ _); injection E2 as <-; exact S.
  - cbn in C1. rewrite (C1 eq_refl) in E1. injection E1 as <-. destruct (IH _ _ _ _ _ C2 E) as (D1 & D2 & D3). split; [exact D1|]. split; [|exact D3]. destruct D2 as [D|[D D2]]; [left; exact D|right]. split; [exact D|]. intros p' NE. rewrite (D2 p' NE). cbn [set_q note i_q]. replace (p' =? p)%nat with false by (symmetry; apply Nat.eqb_neq; exact NE). reflexivity.
Qed.
Lemma levels_calm : forall k x ans b x', calm ans -> (forall p, (k < p)%nat -> i_q x p = []) -> i_sched x = true -> levels x k ans = Ok (b, x') -> watched x'.
Proof.
  induction k as [|k IH]; intros x ans b x' C H S E; cbn [levels] in E; destruct (serve x _ ans) as [[[b1 x1] rest]| |] eqn:E1; try discriminate; cbn [rbind] in E; destruct (serve_calm _ _ _ _ _ _ C E1) as (C1 & D & G); destruct b1; try (injection E as <- <-; intros S1; rewrite (G eq_refl S) in S1; discriminate).
  - injection E as <- <-. intros _ p. cbn. destruct D as [D|[D D2]]; [discriminate|]. destruct p as [|p]; [exact D|]. rewrite D2 by discriminate. apply H. lia.
  - destruct D as [D|[D D2]]; [discriminate|]. assert (S1 : i_sched x1 = true).
    { clear - E1 C S. revert x C E1 S. induction ans as [|[w a] ans IH]; intros x C E1 S; cbn [serve] in E1; destruct (i_q x (Datatypes.S k)) as [|s r]; try discriminate; try (injection E1 as <- <-; exact S).
      inversion C as [|? ? Ca Cb]; subst. destruct (schedule_all x w) as [x2| |] eqn:E2; try discriminate. cbn [rbind] in E1. destruct a; [discriminate|]. cbn in Ca. rewrite (Ca eq_refl) in E2. injection E2 as <-. exact (IH _ Cb E1 S). }
    apply (IH x1 rest b x' C1); [|exact S1|exact E]. intros p L. destruct (Nat.eq_dec p (Datatypes.S k)) as [->|NE]; [exact D|]. rewrite D2 by exact NE. apply H. lia.
Qed.
Lemma run_watched : forall l x x', Forall calm_op l -> faithful x -> clean x -> watched x -> irun x l = Ok x' -> watched x'.
Proof.
  induction l as [|o l IH]; intros x x' C F N W E; cbn [irun] in E; [injection E as <-; exact W|]. inversion C; subst. destruct (istep x o) as [x1| |] eqn:E1; try discriminate. cbn [rbind] in E. pose proof (step_evs _ _ _ E1) as EV.
  apply (IH x1 x'); [assumption|exact (evs_faithful _ _ EV N F)|exact (evs_clean _ _ EV N)| |exact E]. destruct o as [s p|ans]; cbn [istep] in E1.
  - clear - E1 W. unfold schedule_write in E1. destruct (p <? NUM_PRIORITIES)%nat; [|discriminate]. cbn [note i_q i_sched set_q i_log] in E1. destruct (existsb (Nat.eqb s) (i_q x p)) eqn:EX; [injection E1 as <-|destruct (i_sched x) eqn:ES; injection E1 as <-]; intros S; cbn in S |- *; try congruence. exact (W S).
  - destruct (i_sched x) eqn:ES; [|discriminate]. destruct (on_writable x ans) as [[b x2]| |] eqn:E2; try discriminate. injection E1 as <-. unfold on_writable in E2. refine (levels_calm _ _ _ _ _ H1 _ ES E2). intros p L. apply (proj2 F). unfold NUM_PRIORITIES in *. lia.
Qed.
(** each opportunity ends *)
Definition upto (x : ifc) (k : nat) : nat := fold_right (fun p n => (length (i_q x p) + n)%nat) 0%nat (seq 0 (S k)).
Lemma fold_app : forall (f : nat -> nat) l1 l2, fold_right (fun p n => (f p + n)%nat) 0%nat (l1 ++ l2) = (fold_right (fun p n => (f p + n)%nat) 0%nat l1 + fold_right (fun p n => (f p + n)%nat) 0%nat l2)%nat.
Proof. intros f. induction l1 as [|a l1 IH]; intros l2; cbn; [reflexivity|]. rewrite IH. lia. Qed.
Lemma upto_S : forall x k, upto x (S k) = (upto x k + length (i_q x (S k)))%nat.
Proof. intros x k. unfold upto. rewrite (seq_S (S k) 0), (fold_app (fun p => length (i_q x p))). cbn [fold_right Nat.add]. lia. Qed.
Lemma upto_ext : forall x y k, (forall p, (p <= k)%nat -> i_q x p = i_q y p) -> upto x k = upto y k.
Proof. intros x y. induction k as [|k IH]; intros H; [unfold upto; cbn; rewrite H by lia; reflexivity|]. rewrite !upto_S, IH, H by (auto; lia). reflexivity. Qed.
Lemma want_ok : forall w x, Forall (fun y => (snd y < NUM_PRIORITIES)%nat) w -> exists x1, schedule_all x w = Ok x1.
Proof.
  induction w as [|[s p] w IH]; intros x F; cbn [schedule_all]; [eauto|]. inversion F as [|? ? F1 F2]; subst. cbn in F1. unfold schedule_write. rewrite (proj2 (Nat.ltb_lt _ _) F1). cbn [rbind]. apply IH, F2.
Qed.
Lemma serve_ends : forall ans x p, calm ans -> in_range ans -> (length (i_q x p) <= length ans)%nat -> exists b x' rest, serve x p ans = Ok (b, x', rest) /\ (b = false -> (length rest + length (i_q x p) = length ans)%nat) /\ in_range rest.
Proof.
  induction ans as [|[w a] ans IH]; intros x p C R L; cbn [serve].
  - destruct (i_q x p) as [|s r] eqn:EQ; [|cbn in L; lia]. exists false, x, []. split; [reflexivity|]. split; [reflexivity|exact R].
  - destruct (i_q x p) as [|s r] eqn:EQ; [exists false, x, ((w, a) :: ans); split; [reflexivity|]; split; [cbn; intros; lia|exact R]|]. inversion C as [|? ? C1 C2]; subst. inversion R as [|? ? R1 R2]; subst. cbn [fst snd] in *.
    destruct (want_ok w x R1) as (x1 & E1). rewrite E1. cbn [rbind]. destruct a.
    + exists true. eexists. exists ans. split; [reflexivity|]. split; [discriminate|exact R2].
    + rewrite (C1 eq_refl) in E1. injection E1 as <-. destruct (IH (set_q (note x (Asked s p false)) p (tl (i_q (note x (Asked s p false)) p))) p C2 R2) as (b & x' & rest & E & LE & RR).
      * cbn [set_q note i_q]. rewrite Nat.eqb_refl, EQ. cbn in L |- *. lia.
      * exists b, x', rest. split; [exact E|]. split; [|exact RR]. intros Eb. specialize (LE Eb). cbn [set_q note i_q] in LE. rewrite Nat.eqb_refl, EQ in LE. cbn in LE |- *. lia.
Qed.
Lemma levels_ends : forall k x ans, calm ans -> in_range ans -> (upto x k <= length ans)%nat -> exists b x', levels x k ans = Ok (b, x').
Proof.
  induction k as [|k IH]; intros x ans C R L; cbn [levels].
  - destruct (serve_ends ans x 0 C R) as (b & x1 & rest & E & _). { unfold upto in L. cbn in L. lia. } rewrite E. cbn [rbind]. destruct b; eauto.
  - rewrite upto_S in L. destruct (serve_ends ans x (S k) C R) as (b & x1 & rest & E & LE & RR); [lia|]. rewrite E. cbn [rbind]. destruct b; [eauto|]. destruct (serve_calm _ _ _ _ _ _ C E) as (C1 & [D|[D D2]] & _); [discriminate|].
    apply IH; [exact C1|exact RR|]. rewrite (upto_ext x1 x k) by (intros p Lp; apply D2; lia). specialize (LE eq_refl). lia.
Qed.
