(** Lemmas for PropRtx.v. *)
From Verif Require Import Base Rtx RtxSpec.
From Coq Require Import Lia.

Ltac fields := cbn [abort_timers say with_state with_hello with_key with_near with_far with_ult clock state hello key gen near far ult log w iv] in *.

(** ** Timers that recur *)
Lemma again_some : forall now t t', again now t = Some t' -> w t <= now -> iv t' = iv t /\ 0 < iv t /\ w t + iv t <= w t' <= now + iv t.
Proof.
  intros now t t' E D. unfold again in E. destruct (0 <? iv t) eqn:P; [|discriminate]. apply Z.ltb_lt in P. injection E. intro X. subst t'. fields. split; auto. split; auto.
  destruct (w t <? now) eqn:L; [apply Z.ltb_lt in L|apply Z.ltb_ge in L; lia]. unfold ceil_div.
  pose proof (Z.div_mod (now - w t + iv t - 1) (iv t) ltac:(lia)) as DM. pose proof (Z.mod_pos_bound (now - w t + iv t - 1) (iv t) P) as MB. set (q := (now - w t + iv t - 1) / iv t) in *.
  assert (1 <= q) by (unfold q; apply Z.div_le_lower_bound; lia). nia.
Qed.
Lemma again_on : forall now t, 0 < iv t -> exists t', again now t = Some t'.
Proof. intros now t P. unfold again. apply Z.ltb_lt in P. rewrite P. eauto. Qed.

(** ** Lists *)
Lemma in_snoc : forall (l : list event) e x, In x (l ++ [e]) <-> In x l \/ x = e.
Proof. intros. rewrite in_app_iff. cbn. intuition. Qed.
Lemma has_snoc : forall (p : event -> bool) l e, has p (l ++ [e]) = has p l || p e.
Proof. intros. rewrite existsb_app. cbn. now rewrite orb_false_r. Qed.
Lemma nth_snoc : forall (l : list Z) x n t, nth_error (l ++ [x]) n = Some t -> nth_error l n = Some t \/ (n = length l /\ t = x).
Proof.
  intros l x n t H. destruct (Nat.lt_ge_cases n (length l)) as [L|L]; [rewrite nth_error_app1 in H by lia; auto|]. rewrite nth_error_app2 in H by lia.
  destruct (n - length l)%nat eqn:E; [cbn in H; injection H; intros; right; split; [lia|auto]|]. cbn in H. destruct n0; discriminate.
Qed.
Lemma lookup_snoc : forall a b t l, lookup b (l ++ [(a, t)]) = match lookup b l with Some x => Some x | None => if a =? b then Some t else None end.
Proof. unfold lookup. induction l as [|[x y] l IH]; cbn; [destruct (a =? b); reflexivity|]. destruct (x =? b); cbn; auto. Qed.
Lemma lookup_update : forall a b t l, lookup b (update a t l) = if b =? a then match lookup a l with Some _ => Some t | None => None end else lookup b l.
Proof.
  unfold lookup. induction l as [|[x y] l IH]; cbn; [destruct (b =? a); reflexivity|]. destruct (x =? a) eqn:E; cbn.
  - apply Z.eqb_eq in E. subst x. rewrite (Z.eqb_sym a b). destruct (b =? a); reflexivity.
  - destruct (x =? b) eqn:E'; cbn; [|exact IH]. apply Z.eqb_eq in E'. subst b. rewrite E. reflexivity.
Qed.
Lemma ht_snoc : forall a l e, hello_times a (l ++ [e]) = hello_times a l ++ match e with EHello a' t => if a' =? a then [t] else [] | _ => [] end.
Proof. intros. unfold hello_times. rewrite flat_map_app. cbn. now rewrite app_nil_r. Qed.
Lemma kt_snoc : forall a l e, key_times a (l ++ [e]) = key_times a l ++ match e with EKey a' t => if a' =? a then [t] else [] | _ => [] end.
Proof. intros. unfold key_times. rewrite flat_map_app. cbn. now rewrite app_nil_r. Qed.
Lemma ct_snoc : forall l e, close_times (l ++ [e]) = close_times l ++ match e with EClose t => [t] | _ => [] end.
Proof. intros. unfold close_times. rewrite flat_map_app. cbn. now rewrite app_nil_r. Qed.

(** ** A sequence of transmissions from [t0] on, and its timer *)
Definition seq_ok (u t0 now : Z) (ts : list Z) : Prop := forall n t, nth_error ts n = Some t -> t0 + total u n <= t <= now.
Definition last_or (t0 : Z) (ts : list Z) : Z := last ts t0.
Definition tm_ok (u t0 : Z) (ts : list Z) (t : timer) : Prop :=
  iv t = (match ts with [] => 0 | _ => gap u (length ts - 1) end) /\ t0 + total u (length ts) <= w t <= last_or t0 ts + iv t.
Lemma total_S : forall u n, total u (S n) = total u n + gap u n.
Proof. intros. unfold total, gap. rewrite Nat2Z.inj_succ. nia. Qed.
Lemma seq_later : forall u t0 now now' ts, now <= now' -> seq_ok u t0 now ts -> seq_ok u t0 now' ts.
Proof. intros u t0 now now' ts L H n t E. specialize (H n t E). lia. Qed.
Lemma send_ok : forall u t0 now ts t, 0 < u -> seq_ok u t0 now ts -> tm_ok u t0 ts t -> w t <= now ->
  seq_ok u t0 now (ts ++ [now]) /\ exists t', again now (mkT (w t) (backoff (S1 u) (1500000 * u) (iv t))) = Some t' /\ tm_ok u t0 (ts ++ [now]) t'.
Proof.
  intros u t0 now ts t U H [I W] D. split.
  - intros n x E. apply nth_snoc in E. destruct E as [E|[-> ->]]; [auto|lia].
  - assert (G : backoff (S1 u) (1500000 * u) (iv t) = gap u (length ts)).
    { unfold backoff, S1. rewrite I. destruct ts as [|x ts]; [replace (0 <? 1000000 * u) with true by (symmetry; apply Z.ltb_lt; lia); unfold gap; cbn; lia|].
      replace (gap u (length (x :: ts) - 1) <? 1000000 * u) with false by (symmetry; apply Z.ltb_ge; unfold gap; nia). unfold gap. cbn [length]. rewrite Nat2Z.inj_succ. replace (S (length ts) - 1)%nat with (length ts) by lia. lia. }
    assert (P : 0 < gap u (length ts)) by (unfold gap; nia).
    destruct (again_on now (mkT (w t) (backoff (S1 u) (1500000 * u) (iv t)))) as [t' A]; [fields; lia|]. exists t'. split; auto. destruct (again_some _ _ _ A D) as (B & C & E & F). fields.
    split.
    + rewrite B, G. destruct ts; cbn [app]; rewrite ?app_length; cbn [length]; [reflexivity|]. rewrite app_length. cbn [length]. f_equal. lia.
    + rewrite app_length. cbn [length]. rewrite Nat.add_1_r, total_S. unfold last_or. rewrite last_last. lia.
Qed.

(** ** What the state says about the past *)
Definition ph (s : sstate) (l : list event) : Prop :=
  match s with
  | SHello => has isR l = false /\ has isO l = false /\ has isN l = false /\ has isF l = false /\ has isA l = false
  | SKeying => has isR l = true /\ has isO l = false /\ has isN l = false /\ has isF l = false /\ has isA l = false
  | SOpen => has isO l = true /\ has isN l = false /\ has isF l = false /\ has isA l = false
  | SNear => has isO l = true /\ has isN l = true /\ has isF l = false /\ has isA l = false
  | SFar => has isO l = true /\ has isF l = true /\ has isN l = false /\ has isA l = false
  | SClosed => has isA l = true
  end.
Ltac dig := repeat match goal with |- context [match ?x with _ => _ end] => destruct x eqn:? end.
Ltac flags := rewrite ?has_snoc; cbn [isR isO isN isF isA]; rewrite ?orb_false_r, ?orb_true_r; intuition congruence.
Lemma ph_step : forall u s o, ph (state s) (log s) -> ph (state (step u s o)) (log (step u s o)).
Proof.
  intros u s o H. destruct s as [c st0 h k g n f ul l]. fields.
  destruct o; cbn [step]; unfold add_address, fire_hello, start_key, fire_key, set_near, fire_near, set_far, fire_far, fire_ult, abort; fields; dig; subst; fields; cbn [ph] in *; try exact H; try discriminate; flags.
Qed.

(** ** Addresses *)
Record HEL (u : Z) (s : st) : Prop := {
  h_known : forall a, lookup a (hello s) <> None <-> exists t d, In (EAdd a t d) (log s);
  h_one : forall a t d t' d', In (EAdd a t d) (log s) -> In (EAdd a t' d') (log s) -> t = t' /\ d = d';
  h_none : forall a, lookup a (hello s) = None -> hello_times a (log s) = [];
  h_seq : forall a t d, In (EAdd a t d) (log s) -> seq_ok u (t + d) (clock s) (hello_times a (log s));
  h_tm : forall a t d x, In (EAdd a t d) (log s) -> lookup a (hello s) = Some (Some x) -> tm_ok u (t + d) (hello_times a (log s)) x;
  h_on : forall a, state s = SHello -> lookup a (hello s) <> Some None
}.
Lemma HEL_keep : forall u s s', hello s' = hello s -> clock s <= clock s' -> (state s' = SHello -> state s = SHello) ->
  (forall a, hello_times a (log s') = hello_times a (log s)) -> (forall a t d, In (EAdd a t d) (log s') <-> In (EAdd a t d) (log s)) -> HEL u s -> HEL u s'.
Proof.
  intros u s s' E1 E2 E3 E4 E5 [A B C D E F]. split.
  - intro a. rewrite E1, A. split; intros (t & d & X); exists t, d; apply E5; auto.
  - intros a t d t' d' X Y. apply E5 in X, Y. eauto.
  - intro a. rewrite E1, E4. auto.
  - intros a t d X. apply E5 in X. rewrite E4. eapply seq_later; eauto.
  - intros a t d x X. apply E5 in X. rewrite E1, E4. eauto.
  - intros a X. rewrite E1. auto.
Qed.
Ltac ev := fields; intros; rewrite ?ht_snoc, ?kt_snoc, ?ct_snoc, ?app_nil_r; rewrite ?in_snoc; auto; try lia; try (split; [intros [?|?]; [auto|discriminate]|auto]); try congruence.
Lemma HEL_abort : forall u s, HEL u s -> HEL u (abort s).
Proof. intros u s H. unfold abort. destruct (state s) eqn:E; auto; apply (HEL_keep u s); ev. Qed.
Lemma HEL_add : forall u a d r s, HEL u s -> HEL u (add_address a d r s).
Proof.
  intros u a d r s H. unfold add_address. destruct (state s) eqn:S; auto. destruct (lookup a (hello s)) eqn:L; auto. match goal with |- HEL u (if ?b then _ else _) => destruct b end; auto.
  destruct H as [A B C D E F].
  assert (N : forall t' d', ~ In (EAdd a t' d') (log s)) by (intros t' d' X; apply (proj2 (A a)); eauto).
  split; fields.
  - intro b. rewrite lookup_snoc. split.
    + intro X. destruct (lookup b (hello s)) eqn:Lb.
      * destruct (proj1 (A b)) as (t & d' & Y); [congruence|]. exists t, d'. apply in_snoc. auto.
      * destruct (a =? b) eqn:Eb; [|congruence]. apply Z.eqb_eq in Eb. subst b. exists (clock s), d. apply in_snoc. auto.
    + intros (t & d' & X). apply in_snoc in X. destruct X as [X|X].
      * destruct (lookup b (hello s)) eqn:Lb; [discriminate|]. exfalso. apply (proj2 (A b)); eauto.
      * injection X. intros. subst. rewrite L, Z.eqb_refl. discriminate.
  - intros b t d1 t' d1' X Y. apply in_snoc in X, Y. destruct X as [X|X], Y as [Y|Y]; [eauto| | |].
    + injection Y. intros. subst. exfalso. eapply N; eauto.
    + injection X. intros. subst. exfalso. eapply N; eauto.
    + injection X. injection Y. intros. subst. auto.
  - intro b. rewrite lookup_snoc, ht_snoc, app_nil_r. destruct (lookup b (hello s)) eqn:Lb; [discriminate|]. auto.
  - intros b t d' X. rewrite ht_snoc, app_nil_r. apply in_snoc in X. destruct X as [X|X]; [eauto|]. injection X. intros. subst. rewrite (C a L). intros n x Y. destruct n; discriminate.
  - intros b t d' x X. rewrite ht_snoc, app_nil_r, lookup_snoc. apply in_snoc in X. destruct X as [X|X].
    + destruct (lookup b (hello s)) eqn:Lb; [intro Y; rewrite Y in Lb; eauto|]. exfalso. apply (proj2 (A b)); eauto.
    + injection X. intros -> -> ->. rewrite L, Z.eqb_refl. intro Y. injection Y. intro Y'. subst x. rewrite (C a L). split; fields; [reflexivity|]. unfold total, last_or. cbn [length last Z.of_nat]. lia.
  - intros b _. rewrite lookup_snoc. destruct (lookup b (hello s)) eqn:Lb; [rewrite <- Lb; auto|]. destruct (a =? b); discriminate.
Qed.
Lemma HEL_fire : forall u a s, 0 < u -> HEL u s -> HEL u (fire_hello u a s).
Proof.
  intros u a s U H. unfold fire_hello. destruct (lookup a (hello s)) as [[t|]|] eqn:L; auto. destruct (w t <=? clock s) eqn:W; auto. apply Z.leb_le in W.
  assert (Off : state s <> SHello -> HEL u (with_hello s (update a None (hello s)))).
  { intro NS. destruct H as [A B C D E F]. split; fields.
    - intro b. rewrite <- A, lookup_update. destruct (b =? a) eqn:Eb; [|tauto]. apply Z.eqb_eq in Eb. subst b. rewrite L. split; discriminate.
    - eauto.
    - intro b. rewrite lookup_update. destruct (b =? a) eqn:Eb; [rewrite L; discriminate|auto].
    - eauto.
    - intros b t1 d x X. rewrite lookup_update. destruct (b =? a) eqn:Eb; [rewrite L; discriminate|eauto].
    - intros b X. congruence. }
  destruct (state s) eqn:S; try (apply Off; discriminate). clear Off.
  destruct H as [A B C D E F].
  destruct (proj1 (A a)) as (ta & da & Ia); [congruence|].
  destruct (send_ok u (ta + da) (clock s) (hello_times a (log s)) t U (D _ _ _ Ia) (E _ _ _ _ Ia L) W) as (SO & t' & AG & TO).
  unfold IHELLO_INITIAL_RTX, IHELLO_BACKOFF_INTERVAL. rewrite AG.
  split; fields.
  - intro b. rewrite lookup_update. split.
    + intro X. destruct (proj1 (A b)) as (t1 & d1 & Y).
      * destruct (b =? a) eqn:Eb; [apply Z.eqb_eq in Eb; subst b; congruence|auto].
      * exists t1, d1. apply in_snoc. auto.
    + intros (t1 & d1 & X). apply in_snoc in X. destruct X as [X|X]; [|discriminate]. destruct (b =? a) eqn:Eb; [rewrite L; discriminate|]. apply A. eauto.
  - intros b t1 d1 t2 d2 X Y. apply in_snoc in X, Y. destruct X as [X|X]; [|discriminate]. destruct Y as [Y|Y]; [|discriminate]. eauto.
  - intro b. rewrite lookup_update, ht_snoc. destruct (b =? a) eqn:Eb; [rewrite L; discriminate|]. rewrite (Z.eqb_sym a b), Eb, app_nil_r. auto.
  - intros b t1 d1 X. apply in_snoc in X. destruct X as [X|X]; [|discriminate]. rewrite ht_snoc. destruct (a =? b) eqn:Eb; [|rewrite app_nil_r; eauto]. apply Z.eqb_eq in Eb. subst b. destruct (B _ _ _ _ _ X Ia). subst. exact SO.
  - intros b t1 d1 x X. apply in_snoc in X. destruct X as [X|X]; [|discriminate]. rewrite ht_snoc, lookup_update, (Z.eqb_sym a b). destruct (b =? a) eqn:Eb; [|rewrite app_nil_r; eauto].
    apply Z.eqb_eq in Eb. subst b. rewrite L. intro Y. injection Y. intros. subst x. destruct (B _ _ _ _ _ X Ia). subst. exact TO.
  - intros b _. rewrite lookup_update. destruct (b =? a); [rewrite L; discriminate|auto].
Qed.
Lemma HEL_step : forall u s o, 0 < u -> HEL u s -> HEL u (step u s o).
Proof.
  intros u s o U H. destruct o; cbn [step].
  - apply (HEL_keep u s); ev. tauto.
  - now apply HEL_add.
  - now apply HEL_fire.
  - destruct (state s) eqn:S; auto. apply (HEL_keep u s); ev.
  - unfold start_key. fields. destruct (state s) eqn:S; apply (HEL_keep u s); ev; tauto.
  - unfold fire_key. destruct (key s); auto. destruct (w t <=? clock s); auto. destruct (state s) eqn:S; apply (HEL_keep u s); ev; tauto.
  - destruct (state s) eqn:S; auto; apply (HEL_keep u s); ev.
  - destruct (state s) eqn:S; auto. apply (HEL_keep u s); unfold set_near; ev.
  - unfold fire_near. destruct (near s) as [[t lim]|]; auto. destruct (w t <=? clock s); auto.
    assert (HEL u (with_near (abort s) None)) by (apply (HEL_keep u (abort s)); [ev..|]; try tauto; now apply HEL_abort).
    destruct (state s) eqn:S; auto. destruct (lim <=? clock s); auto. apply (HEL_keep u s); ev.
  - destruct (state s) eqn:S; auto. apply (HEL_keep u s); unfold set_far; ev.
  - unfold fire_far. destruct (far s); auto. destruct (z <=? clock s); auto. apply (HEL_keep u (abort s)); [ev..|]; try tauto; now apply HEL_abort.
  - unfold fire_ult. destruct (ult s); auto. destruct (z <=? clock s); auto. destruct (state s) eqn:S; [apply (HEL_keep u (abort s)); [ev..|]; try tauto; now apply HEL_abort|apply (HEL_keep u (abort s)); [ev..|]; try tauto; now apply HEL_abort| | | |]; apply (HEL_keep u s); ev; tauto.
  - now apply HEL_abort.
Qed.
