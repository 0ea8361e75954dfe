From Verif Require Import Base BaseFacts TC TCSpec TCProofs FlowSync FlowSyncSpec.
Ltac Zify.zify_post_hook ::= Z.div_mod_to_equations.

Lemma get_set : forall b id l k, bar_get (bar_set b id l) k = if k =? id then l else bar_get b k.
Proof.
  induction b as [|[q x] r IH]; intros id l k; cbn [bar_set bar_get].
  - rewrite (Z.eqb_sym k id). reflexivity.
  - destruct (Z.eqb_spec q id) as [E|E]; cbn [bar_get].
    + destruct (Z.eqb_spec q k), (Z.eqb_spec k id); try lia; reflexivity.
    + destruct (Z.eqb_spec q k) as [F|F]; [destruct (Z.eqb_spec k id); [lia|reflexivity]|apply IH].
Qed.
Lemma get_del : forall b id k, bar_get (bar_del b id) k = if k =? id then [] else bar_get b k.
Proof.
  induction b as [|[q x] r IH]; intros id k; cbn [bar_del filter bar_get fst].
  - destruct (k =? id); reflexivity.
  - destruct (Z.eqb_spec q id) as [E|E]; cbn [negb].
    + fold (bar_del r id). rewrite IH. destruct (Z.eqb_spec k id), (Z.eqb_spec q k); try lia; reflexivity.
    + cbn [bar_get]. fold (bar_del r id). rewrite IH. destruct (Z.eqb_spec q k) as [F|F]; [destruct (Z.eqb_spec k id); [lia|reflexivity]|reflexivity].
Qed.
Lemma get_in : forall b id f, In f (bar_get b id) -> exists l, In (id, l) b /\ In f l.
Proof.
  induction b as [|[q x] r IH]; intros id f H; cbn [bar_get] in H; [destruct H|].
  destruct (Z.eqb_spec q id) as [E|E].
  - exists x. subst q. split; [left; reflexivity|exact H].
  - destruct (IH id f H) as (l & A & B). exists l. split; [right; exact A|exact B].
Qed.
Lemma ro_dec : forall a b : rorder, {a = b} + {a <> b}.
Proof. decide equality. Qed.
Lemma of_dec : forall a b : option nat, {a = b} + {a <> b}.
Proof. decide equality. apply Nat.eq_dec. Qed.
Lemma ro_eqb_iff : forall a b, ro_eqb a b = true <-> a = b.
Proof. intros [] []; cbn; split; congruence. Qed.
Lemma ro_eqb_no : forall a b, ro_eqb a b = false <-> a <> b.
Proof. intros [] []; cbn; split; congruence. Qed.

(** releasing a list of flows *)
Lemma fold_release : forall l s, let s' := fold_left release_one l s in
  fs_bars s' = fs_bars s /\ fs_next s' = fs_next s
  /\ (forall g, In (Some g) l -> fs_ord s g = RO_HOLD -> fs_ord s' g = RO_SEQ /\ In g (fs_woken s'))
  /\ (forall g, ~ (In (Some g) l /\ fs_ord s g = RO_HOLD) -> fs_ord s' g = fs_ord s g)
  /\ (forall g, In g (fs_woken s) -> In g (fs_woken s')).
Proof.
  induction l as [|a l IH]; intros s; cbn [fold_left].
  - split; [reflexivity|split; [reflexivity|split; [intros g []|split; [reflexivity|auto]]]].
  - specialize (IH (release_one s a)). cbv zeta in IH. destruct IH as (B & N & R & K & M).
    assert (X : fs_bars (release_one s a) = fs_bars s /\ fs_next (release_one s a) = fs_next s).
    { destruct a as [g|]; cbn [release_one]; [destruct (ro_eqb _ _)|]; split; reflexivity. }
    destruct X as [X1 X2]. split; [congruence|split; [congruence|split; [|split]]].
    + intros g Hin HH. destruct (of_dec a (Some g)) as [->|NE].
      * cbn [release_one] in R, K, M. assert (E : ro_eqb (fs_ord s g) RO_HOLD = true) by (apply ro_eqb_iff; exact HH).
        rewrite E in *. cbn [release_one] in *. rewrite E. split.
        -- rewrite K; [cbn; rewrite Nat.eqb_refl; reflexivity|]. cbn. rewrite Nat.eqb_refl. intros [_ ?]. discriminate.
        -- apply M. cbn. rewrite E. cbn. apply in_or_app. right. left. reflexivity.
      * destruct Hin as [->|Hin]; [congruence|]. apply R; [exact Hin|].
        destruct a as [h|]; cbn [release_one]; [|exact HH]. destruct (ro_eqb (fs_ord s h) RO_HOLD); [|exact HH]. cbn.
        destruct (Nat.eqb_spec g h) as [->|]; [congruence|exact HH].
    + intros g Hn. assert (O : fs_ord (release_one s a) g = fs_ord s g).
      { destruct a as [h|]; cbn [release_one]; [|reflexivity]. destruct (ro_eqb (fs_ord s h) RO_HOLD) eqn:E; [|reflexivity]. cbn.
        destruct (Nat.eqb_spec g h) as [->|]; [|reflexivity]. exfalso. apply Hn. split; [left; reflexivity|apply ro_eqb_iff; exact E]. }
      rewrite K; [exact O|]. rewrite O. intros [P Q]. apply Hn. split; [right; exact P|exact Q].
    + intros g Hg. apply M. destruct a as [h|]; cbn [release_one]; [|exact Hg]. destruct (ro_eqb (fs_ord s h) RO_HOLD); [|exact Hg].
      cbn. destruct (andb _ _); [apply in_or_app; left|]; exact Hg.
Qed.
Lemma dtor_spec : forall l s, let s' := barrier_dtor s l in
  fs_bars s' = fs_bars s /\ fs_next s' = fs_next s
  /\ (forall g, In (Some g) l -> fs_ord s g = RO_HOLD -> fs_ord s' g = RO_SEQ /\ In g (fs_woken s'))
  /\ (forall g, ~ (In (Some g) l /\ fs_ord s g = RO_HOLD) -> fs_ord s' g = fs_ord s g)
  /\ (forall g, In g (fs_woken s) -> In g (fs_woken s')).
Proof.
  intros l s. pose proof (fold_release (rev l) s) as H. cbv zeta in *. unfold barrier_dtor.
  destruct H as (A & B & C & D & E). split; [exact A|split; [exact B|split; [|split; [|exact E]]]].
  - intros g P Q. apply C; [apply in_rev; rewrite rev_involutive; exact P|exact Q].
  - intros g P. apply D. intros [Q R]. apply P. split; [apply in_rev; exact Q|exact R].
Qed.

(** the map follows [wstep] *)
Definition follows (W : waits) (s : fsync) : Prop := forall id, bar_get (fs_bars s) id = W id.

Lemma reset_spec : forall W s id, follows W s -> let s' := fs_reset s id in
  follows (upd W id []) s'
  /\ (forall g, waits_at W g id -> fs_ord s g = RO_HOLD -> fs_ord s' g = RO_SEQ /\ In g (fs_woken s'))
  /\ (forall g, ~ (waits_at W g id /\ fs_ord s g = RO_HOLD) -> fs_ord s' g = fs_ord s g).
Proof.
  intros W s id F. unfold fs_reset. pose proof (dtor_spec (bar_get (fs_bars s) id) (set_bars s (bar_del (fs_bars s) id))) as H.
  cbv zeta in *. destruct H as (A & B & C & D & E). unfold waits_at. rewrite <- F. split; [|split; [exact C|exact D]].
  intros k. rewrite A. cbn [set_bars fs_bars]. rewrite get_del. unfold upd. rewrite F. reflexivity.
Qed.
Lemma follows_set : forall W s id l, follows W s -> follows (upd W id l) (set_bars s (bar_set (fs_bars s) id l)).
Proof. intros W s id l F k. cbn [set_bars fs_bars]. rewrite get_set. unfold upd. rewrite F. reflexivity. Qed.
Lemma follows_ext : forall W W' s, (forall k, W k = W' k) -> follows W s -> follows W' s.
Proof. intros W W' s E F k. rewrite F. apply E. Qed.

Lemma sync_done : forall W s id n f, follows W s -> completes W id n = true -> let s' := fst (fs_sync s id n f) in
  snd (fs_sync s id n f) = true
  /\ follows (upd W id []) s'
  /\ (forall g, waits_at W g id -> fs_ord s g = RO_HOLD -> fs_ord s' g = RO_SEQ /\ In g (fs_woken s'))
  /\ (forall g, ~ (waits_at W g id /\ fs_ord s g = RO_HOLD) -> fs_ord s' g = fs_ord s g).
Proof.
  intros W s id n f F C. unfold fs_sync. cbv zeta. unfold completes in C. pose proof (F id) as Fi. rewrite !Fi, !C. cbn [fst snd]. split; [reflexivity|].
  assert (F1 : follows W (set_bars s (bar_set (fs_bars s) id (W id)))).
  { apply (follows_ext (upd W id (W id))); [|apply follows_set; exact F]. intros k. unfold upd. destruct (Z.eqb_spec k id) as [->|]; reflexivity. }
  exact (reset_spec W _ id F1).
Qed.
Lemma sync_waits : forall W s id n f, follows W s -> completes W id n = false -> let s' := fst (fs_sync s id n f) in
  snd (fs_sync s id n f) = false
  /\ follows (upd W id (W id ++ [f])) s'
  /\ (forall g, f = Some g -> fs_ord s g = RO_SEQ -> fs_ord s' g = RO_HOLD)
  /\ (forall g, ~ (f = Some g /\ fs_ord s g = RO_SEQ) -> fs_ord s' g = fs_ord s g).
Proof.
  intros W s id n f F C. unfold fs_sync. cbv zeta. unfold completes in C. pose proof (F id) as Fi. rewrite !Fi, !C. cbn [fst snd]. split; [reflexivity|].
  assert (F1 : follows W (set_bars s (bar_set (fs_bars s) id (W id)))).
  { apply (follows_ext (upd W id (W id))); [|apply follows_set; exact F]. intros k. unfold upd. destruct (Z.eqb_spec k id) as [->|]; reflexivity. }
  pose proof (follows_set W _ id (W id ++ [f]) F1) as F2.
  set (s2 := set_bars _ (bar_set (fs_bars (set_bars s (bar_set (fs_bars s) id (W id)))) id (W id ++ [f]))) in *.
  assert (O : fs_ord s2 = fs_ord s) by reflexivity.
  destruct f as [h|].
  - rewrite O. destruct (ro_eqb (fs_ord s h) RO_SEQ) eqn:E.
    + split; [exact F2|]. split.
      * intros g Eg _. injection Eg as <-. cbn. rewrite Nat.eqb_refl. reflexivity.
      * intros g Hn. cbn. destruct (Nat.eqb_spec g h) as [->|]; [|reflexivity]. exfalso. apply Hn. split; [reflexivity|apply ro_eqb_iff; exact E].
    + split; [exact F2|]. split; [|intros; rewrite O; reflexivity]. intros g Eg H. injection Eg as <-. apply ro_eqb_no in E. congruence.
  - split; [exact F2|]. split; [intros g Eg; discriminate|intros; rewrite O; reflexivity].
Qed.

Lemma step_follows : forall W s o, follows W s -> follows (wstep W o) (fst (fstep s o)).
Proof.
  intros W s [id n f|id|f o] F; cbn [fstep wstep fst].
  - destruct (completes W id n) eqn:C.
    + apply (sync_done W s id n f F C).
    + apply (sync_waits W s id n f F C).
  - apply (reset_spec W s id F).
  - exact F.
Qed.
Lemma run_follows : forall os W s, follows W s -> follows (fold_left wstep os W) (fst (frun s os)).
Proof. induction os as [|o os IH]; intros W s F; cbn [frun fold_left fst]; [exact F|]. apply IH, step_follows, F. Qed.
Lemma follows_init : forall ord, follows nobody (fs_init ord).
Proof. intros ord id. reflexivity. Qed.
Lemma frun_app : forall a b s, fst (frun s (a ++ b)) = fst (frun (fst (frun s a)) b).
Proof. induction a as [|o a IH]; intros b s; cbn [app frun fst]; [reflexivity|apply IH]. Qed.

(** release, whatever was done before *)
Lemma sync_release : forall ord os id n f, let s := fst (frun (fs_init ord) os) in let r := fs_sync s id n f in
  completes (wrun os) id n = true ->
  snd r = true /\ wrun (os ++ [FSync id n f]) id = []
  /\ (forall g, waits_at (wrun os) g id -> fs_ord (fst r) g <> RO_HOLD)
  /\ (forall g, waits_at (wrun os) g id -> fs_ord s g = RO_HOLD -> fs_ord (fst r) g = RO_SEQ /\ In g (fs_woken (fst r)))
  /\ (forall g, ~ waits_at (wrun os) g id -> fs_ord (fst r) g = fs_ord s g).
Proof.
  intros ord os id n f s r C. pose proof (run_follows os nobody (fs_init ord) (follows_init ord)) as F.
  fold (wrun os) in F. destruct (sync_done (wrun os) s id n f F C) as (A & B & D & E). split; [exact A|]. split; [|split; [|split; [exact D|]]].
  - unfold wrun. rewrite fold_left_app. cbn [fold_left wstep]. fold (wrun os). rewrite C. unfold upd. rewrite Z.eqb_refl. reflexivity.
  - intros g Hg. destruct (ro_dec (fs_ord s g) RO_HOLD) as [H|H].
    + destruct (D g Hg H) as [X _]. fold r in X. rewrite X. discriminate.
    + fold r in E. rewrite E; [exact H|]. intros [_ X]. exact (H X).
  - intros g Hg. apply E. intros [X _]. exact (Hg X).
Qed.

(** under the discipline *)
Record tidy (W : waits) (s : fsync) : Prop := {
  td_follows : follows W s;
  td_hold : forall f, fs_ord s f = RO_HOLD -> exists id, waits_at W f id;
  td_wait : forall f id, waits_at W f id -> fs_ord s f <> RO_SEQ;
  td_once : forall f id id', fs_ord s f = RO_HOLD -> waits_at W f id -> waits_at W f id' -> id = id' }.

Lemma tidy_init : forall ord, (forall f, ord f <> RO_HOLD) -> tidy nobody (fs_init ord).
Proof.
  intros ord H. constructor; [apply follows_init| | |].
  - intros f E. destruct (H f E).
  - intros f id [].
  - intros f id id' E. destruct (H f E).
Qed.
Lemma waits_upd : forall W f id l k, waits_at (upd W id l) f k <-> (k = id /\ In (Some f) l) \/ (k <> id /\ waits_at W f k).
Proof. intros W f id l k. unfold waits_at, upd. destruct (Z.eqb_spec k id) as [->|]; intuition congruence. Qed.

Lemma tidy_empty : forall W s s' id, tidy W s -> follows (upd W id []) s' ->
  (forall g, waits_at W g id -> fs_ord s g = RO_HOLD -> fs_ord s' g = RO_SEQ /\ In g (fs_woken s')) ->
  (forall g, ~ (waits_at W g id /\ fs_ord s g = RO_HOLD) -> fs_ord s' g = fs_ord s g) -> tidy (upd W id []) s'.
Proof.
  intros W s s' id T F R K.
  assert (HH : forall g, fs_ord s' g = RO_HOLD -> fs_ord s g = RO_HOLD /\ ~ waits_at W g id).
  { intros g E. destruct (in_dec of_dec (Some g) (W id)) as [I|I].
    - destruct (ro_dec (fs_ord s g) RO_HOLD) as [H|H].
      + destruct (R g I H). congruence.
      + rewrite K in E; [congruence|]. intros [_ X]. exact (H X).
    - rewrite K in E; [split; [exact E|exact I]|]. intros [X _]. exact (I X). }
  constructor; [exact F| | |].
  - intros f E. destruct (HH f E) as [A B]. destruct (td_hold W s T f A) as [k Hk]. exists k. apply waits_upd. right. split; [|exact Hk]. intros ->. exact (B Hk).
  - intros f k Hk. apply waits_upd in Hk. destruct Hk as [[_ []]|[Nk Hk]]. rewrite K; [exact (td_wait W s T f k Hk)|].
    intros [A B]. exact (Nk (eq_sym (td_once W s T f id k B A Hk))).
  - intros f k k' E Hk Hk'. destruct (HH f E) as [A B]. apply waits_upd in Hk, Hk'. destruct Hk as [[_ []]|[_ Hk]]. destruct Hk' as [[_ []]|[_ Hk']].
    exact (td_once W s T f k k' A Hk Hk').
Qed.
Lemma tidy_step : forall W s o, tidy W s -> polite W (fs_ord s) o -> tidy (wstep W o) (fst (fstep s o)).
Proof.
  intros W s o T P. pose proof (td_follows W s T) as F. destruct o as [id n f|id|f o].
  - cbn [fstep wstep fst]. destruct (completes W id n) eqn:C.
    + destruct (sync_done W s id n f F C) as (_ & A & R & K). exact (tidy_empty W s _ id T A R K).
    + destruct (sync_waits W s id n f F C) as (_ & A & R & K). cbn [polite] in P.
      set (s' := fst (fs_sync s id n f)) in *.
      assert (HH : forall g, fs_ord s' g = RO_HOLD -> fs_ord s g = RO_HOLD \/ (f = Some g /\ fs_ord s g = RO_SEQ)).
      { intros g E. destruct (of_dec f (Some g)) as [Eg|Eg].
        - destruct (ro_dec (fs_ord s g) RO_SEQ) as [H|H]; [right; auto|]. rewrite K in E; [left; exact E|]. intros [_ X]. exact (H X).
        - rewrite K in E; [left; exact E|]. intros [X _]. exact (Eg X). }
      constructor; [exact A| | |].
      * intros g E. destruct (HH g E) as [H|[-> H]].
        -- destruct (td_hold W s T g H) as [k Hk]. exists k. apply waits_upd. destruct (Z.eq_dec k id) as [->|N]; [left|right; auto]. split; [reflexivity|]. apply in_or_app. left. exact Hk.
        -- exists id. apply waits_upd. left. split; [reflexivity|]. apply in_or_app. right. left. reflexivity.
      * intros g k Hk E. destruct (of_dec f (Some g)) as [Eg|Eg].
        -- destruct (ro_dec (fs_ord s g) RO_SEQ) as [H|H]; [rewrite (R g Eg H) in E; discriminate|].
           rewrite K in E; [exact (H E)|]. intros [_ X]. exact (H X).
        -- rewrite K in E; [|intros [X _]; exact (Eg X)]. apply waits_upd in Hk. destruct Hk as [[-> Hk]|[_ Hk]].
           ++ apply in_app_or in Hk. destruct Hk as [Hk|[Hk|[]]]; [|exact (Eg Hk)]. exact (td_wait W s T g id Hk E).
           ++ exact (td_wait W s T g k Hk E).
      * intros g k k' E Hk Hk'. apply waits_upd in Hk, Hk'.
        assert (Y : forall q, (q = id /\ In (Some g) (W id ++ [f])) \/ (q <> id /\ waits_at W g q) -> waits_at W g q \/ (q = id /\ f = Some g)).
        { intros q [[-> X]|[_ X]]; [|left; exact X]. apply in_app_or in X. destruct X as [X|[X|[]]]; [left; exact X|right; auto]. }
        destruct (HH g E) as [H|[Eg H]].
        -- assert (Ng : f <> Some g) by (intros ->; exact (P H)).
           destruct (Y k Hk) as [X|[_ X]]; [|congruence]. destruct (Y k' Hk') as [X'|[_ X']]; [|congruence]. exact (td_once W s T g k k' H X X').
        -- destruct (Y k Hk) as [X|[X _]]; [destruct (td_wait W s T g k X H)|]. destruct (Y k' Hk') as [X'|[X' _]]; [destruct (td_wait W s T g k' X' H)|]. congruence.
  - cbn [fstep wstep fst]. destruct (reset_spec W s id F) as (A & R & K). exact (tidy_empty W s _ id T A R K).
  - cbn [fstep wstep fst]. destruct P as [P Q].
    assert (O : forall g, fs_ord (set_order s f o) g = if Nat.eqb g f then o else fs_ord s g) by reflexivity.
    constructor; [exact F| | |].
    + intros g E. rewrite O in E. destruct (Nat.eqb_spec g f); [congruence|]. exact (td_hold W s T g E).
    + intros g k Hk E. rewrite O in E. destruct (Nat.eqb_spec g f) as [->|]; [exact (Q k Hk)|exact (td_wait W s T g k Hk E)].
    + intros g k k' E. rewrite O in E. destruct (Nat.eqb_spec g f); [congruence|]. exact (td_once W s T g k k' E).
Qed.
Lemma tidy_run : forall os W s, tidy W s -> polite_run W s os -> tidy (fold_left wstep os W) (fst (frun s os)).
Proof.
  induction os as [|o os IH]; intros W s T P; cbn [frun fold_left fst]; [exact T|]. destruct P as [P Q].
  apply IH; [apply tidy_step; assumption|exact Q].
Qed.

Lemma sync_held : forall ord os, (forall f, ord f <> RO_HOLD) -> polite_run nobody (fs_init ord) os ->
  let s := fst (frun (fs_init ord) os) in
  (forall f, fs_ord s f = RO_HOLD -> exists id, waits_at (wrun os) f id /\ forall id', waits_at (wrun os) f id' -> id' = id)
  /\ (forall f id, waits_at (wrun os) f id -> fs_ord s f = RO_HOLD \/ fs_ord s f = RO_NET).
Proof.
  intros ord os H P s. pose proof (tidy_run os nobody _ (tidy_init ord H) P) as T. fold (wrun os) in T. fold s in T. split.
  - intros f E. destruct (td_hold _ _ T f E) as [id W]. exists id. split; [exact W|]. intros id' W'. exact (td_once _ _ T f id' id E W' W).
  - intros f id W. pose proof (td_wait _ _ T f id W). destruct (fs_ord s f); tauto.
Qed.

(** who waits at [id] is untouched by what happens elsewhere *)
Lemma tidy_elsewhere : forall W s o id f, tidy W s -> polite W (fs_ord s) o -> elsewhere id o ->
  wstep W o id = W id /\ (waits_at W f id -> fs_ord (fst (fstep s o)) f = fs_ord s f).
Proof.
  intros W s o id f T P E. pose proof (td_follows W s T) as F.
  assert (U : forall k l, k <> id -> upd W k l id = W id). { intros k l N. unfold upd. destruct (Z.eqb_spec id k); [congruence|reflexivity]. }
  destruct o as [k n g|k|g o]; cbn [elsewhere] in E; cbn [fstep wstep fst].
  - split; [apply U; exact E|]. intros Wf. destruct (completes W k n) eqn:C.
    + destruct (sync_done W s k n g F C) as (_ & _ & _ & K). apply K. intros [A B]. exact (E (td_once W s T f k id B A Wf)).
    + destruct (sync_waits W s k n g F C) as (_ & _ & _ & K). apply K. intros [A B]. exact (td_wait W s T f id Wf B).
  - split; [apply U; exact E|]. intros Wf. destruct (reset_spec W s k F) as (_ & _ & K). apply K. intros [A B]. exact (E (td_once W s T f k id B A Wf)).
  - split; [reflexivity|]. intros Wf. destruct P as [_ Q]. cbn. destruct (Nat.eqb_spec f g) as [->|]; [destruct (Q id Wf)|reflexivity].
Qed.
Lemma isolated_run : forall os W s id f, tidy W s -> polite_run W s os -> Forall (elsewhere id) os ->
  fold_left wstep os W id = W id /\ (waits_at W f id -> fs_ord (fst (frun s os)) f = fs_ord s f).
Proof.
  induction os as [|o os IH]; intros W s id f T P E; cbn [frun fold_left fst]; [auto|]. destruct P as [P Q]. apply Forall_cons_iff in E. destruct E as [E E'].
  destruct (tidy_elsewhere W s o id f T P E) as [A B]. destruct (IH (wstep W o) (fst (fstep s o)) id f (tidy_step W s o T P) Q E') as [C D].
  split; [congruence|]. intros Wf. rewrite D; [exact (B Wf)|]. unfold waits_at. rewrite A. exact Wf.
Qed.
Lemma polite_app : forall a b W s, polite_run W s (a ++ b) -> polite_run W s a /\ polite_run (fold_left wstep a W) (fst (frun s a)) b.
Proof.
  induction a as [|o a IH]; intros b W s P; cbn [app polite_run frun fold_left fst] in *; [auto|]. destruct P as [P Q]. destruct (IH b _ _ Q) as [A B]. auto.
Qed.
Lemma sync_isolated : forall ord os os' id, (forall f, ord f <> RO_HOLD) -> polite_run nobody (fs_init ord) (os ++ os') -> Forall (elsewhere id) os' ->
  wrun (os ++ os') id = wrun os id
  /\ forall f, waits_at (wrun os) f id -> fs_ord (fst (frun (fs_init ord) (os ++ os'))) f = fs_ord (fst (frun (fs_init ord) os)) f.
Proof.
  intros ord os os' id H P E. apply polite_app in P. destruct P as [P Q]. pose proof (tidy_run os nobody _ (tidy_init ord H) P) as T.
  split.
  - unfold wrun. rewrite fold_left_app. apply (isolated_run os' _ _ id O T Q E).
  - intros f. rewrite frun_app. apply (isolated_run os' _ _ id f T Q E).
Qed.

(** a flow held stays held until its barrier completes or is reset *)
Lemma keeps_run : forall os W s id f, tidy W s -> polite_run W s os -> keeps id W os -> waits_at W f id -> fs_ord s f = RO_HOLD ->
  waits_at (fold_left wstep os W) f id /\ fs_ord (fst (frun s os)) f = RO_HOLD.
Proof.
  induction os as [|o os IH]; intros W s id f T P KK Wf E; cbn [frun fold_left fst]; [auto|]. destruct P as [P Q]. destruct KK as [K K'].
  apply IH; [apply tidy_step; assumption|exact Q|exact K'| |].
  - destruct o as [k n g|k|g o]; cbn [wstep]; [|apply waits_upd; right; split; [congruence|exact Wf]|exact Wf].
    apply waits_upd. destruct (Z.eq_dec id k) as [->|N]; [left; split; [reflexivity|]|right; auto]. rewrite (K eq_refl). apply in_or_app. left. exact Wf.
  - assert (D : elsewhere id o \/ exists n g, o = FSync id n g /\ completes W id n = false).
    { destruct o as [k n g|k|g o]; cbn [elsewhere]; [|left; exact K|left; exact I]. destruct (Z.eq_dec k id) as [->|N]; [right|left; exact N]. exists n, g. auto. }
    destruct D as [D|(n & g & -> & C)].
    + rewrite (proj2 (tidy_elsewhere W s o id f T P D) Wf). exact E.
    + cbn [fstep fst]. destruct (sync_waits W s id n g (td_follows W s T) C) as (_ & _ & _ & KK). rewrite KK; [exact E|]. intros [_ X]. congruence.
Qed.
Lemma sync_holds : forall ord os os' id n f, (forall g, ord g <> RO_HOLD) ->
  polite_run nobody (fs_init ord) (os ++ FSync id n (Some f) :: os') ->
  fs_ord (fst (frun (fs_init ord) os)) f = RO_SEQ -> keeps id (wrun os) (FSync id n (Some f) :: os') ->
  fs_ord (fst (frun (fs_init ord) (os ++ FSync id n (Some f) :: os'))) f = RO_HOLD.
Proof.
  intros ord os os' id n f H P E [K K']. apply polite_app in P. destruct P as [P Q]. pose proof (tidy_run os nobody _ (tidy_init ord H) P) as T.
  fold (wrun os) in T, Q. rewrite frun_app. cbn [frun fst]. destruct Q as [Q Q']. specialize (K eq_refl).
  destruct (sync_waits (wrun os) _ id n (Some f) (td_follows _ _ T) K) as (_ & _ & R & _).
  apply (keeps_run os' (wstep (wrun os) (FSync id n (Some f))) _ id f (tidy_step _ _ _ T Q) Q' K').
  - cbn [wstep]. rewrite K. apply waits_upd. left. split; [reflexivity|]. apply in_or_app. right. left. reflexivity.
  - cbn [fstep fst]. apply R; [reflexivity|exact E].
Qed.

(** destroying the manager *)
Lemma destroy_fold : forall l s, let s' := fold_left (fun (s : fsync) (e : Z * list (option nat)) => barrier_dtor s (snd e)) l s in
  (forall g, fs_ord s' g = RO_HOLD -> fs_ord s g = RO_HOLD /\ forall id x, In (id, x) l -> ~ In (Some g) x)
  /\ (forall g, fs_ord s g = RO_NET -> fs_ord s' g = RO_NET).
Proof.
  induction l as [|[k y] l IH]; intros s; cbn [fold_left].
  - split; [|auto]. intros g E. split; [exact E|]. intros id x [].
  - destruct (IH (barrier_dtor s (snd (k, y)))) as [A B]. cbn [snd] in *. destruct (dtor_spec y s) as (_ & _ & R & K & _). split.
    + intros g E. destruct (A g E) as [A1 A2]. destruct (in_dec of_dec (Some g) y) as [I|I].
      * destruct (ro_dec (fs_ord s g) RO_HOLD) as [H|H]; [destruct (R g I H); congruence|]. rewrite K in A1; [congruence|]. intros [_ X]. exact (H X).
      * rewrite K in A1; [|intros [X _]; exact (I X)]. split; [exact A1|]. intros id x [X|X]; [injection X as <- <-; exact I|exact (A2 id x X)].
    + intros g E. apply B. rewrite K; [exact E|]. intros [_ X]. congruence.
Qed.
Lemma sync_destroy : forall ord os, (forall f, ord f <> RO_HOLD) -> polite_run nobody (fs_init ord) os ->
  forall f, fs_ord (fs_destroy (fst (frun (fs_init ord) os))) f <> RO_HOLD.
Proof.
  intros ord os H P f E. pose proof (tidy_run os nobody _ (tidy_init ord H) P) as T. unfold fs_destroy in E.
  destruct (destroy_fold (fs_bars (fst (frun (fs_init ord) os))) (set_bars (fst (frun (fs_init ord) os)) [])) as [A _].
  destruct (A f E) as [E0 N]. cbn [set_bars fs_ord] in E0. destruct (td_hold _ _ T f E0) as [id W]. unfold waits_at in W.
  rewrite <- (td_follows _ _ T id) in W. destruct (get_in _ _ _ W) as (x & I & J). exact (N id x I J).
Qed.

(** counting *)
Lemma count_run : forall os W s id n k, 1 <= n -> follows W s -> Forall (announces id n) os -> zlen (W id) = Z.of_nat k mod n ->
  forall j b, nth_error (answers id (snd (frun s os))) j = Some b -> b = ((Z.of_nat (k + j) + 1) mod n =? 0).
Proof.
  induction os as [|o os IH]; intros W s id n k N F A L j b H; cbn [frun snd answers] in H; [destruct j; discriminate|].
  apply Forall_cons_iff in A. destruct A as [A A']. pose proof (step_follows W s o F) as F'.
  destruct o as [q c f|q|f o]; cbn [announces] in A.
  - cbn [fstep snd answers] in H. destruct (Z.eqb_spec q id) as [->|NE].
    + rewrite (A eq_refl) in *. clear A.
      assert (C : completes W id n = ((Z.of_nat k + 1) mod n =? 0)).
      { unfold completes. rewrite L. pose proof (Z.mod_pos_bound (Z.of_nat k) n ltac:(lia)).
        rewrite Zplus_mod. destruct (Z.eq_dec n 1) as [->|].
        - rewrite !Z.mod_1_r. reflexivity.
        - rewrite (Z.mod_small 1 n) by lia. destruct (Z.leb_spec n (Z.of_nat k mod n + 1)).
          + replace (Z.of_nat k mod n + 1) with n by lia. rewrite Z_mod_same_full. reflexivity.
          + rewrite Z.mod_small by lia. symmetry. apply Z.eqb_neq. lia. }
      assert (Sn : snd (fs_sync s id n f) = completes W id n).
      { destruct (completes W id n) eqn:E; [apply (sync_done W s id n f F E)|apply (sync_waits W s id n f F E)]. }
      rewrite Sn, C in H. destruct j as [|j].
      * cbn in H. injection H as <-. rewrite Nat.add_0_r. reflexivity.
      * cbn [nth_error] in H. replace (k + S j)%nat with (S k + j)%nat by lia.
        refine (IH _ _ id n (S k) N F' A' _ j b H). cbn [wstep]. rewrite C. unfold upd. rewrite Z.eqb_refl.
        replace (Z.of_nat (S k)) with (Z.of_nat k + 1) by lia. destruct (Z.eqb_spec ((Z.of_nat k + 1) mod n) 0) as [E|E]; [rewrite E; reflexivity|].
        rewrite zlen_app, L. unfold zlen at 1. cbn [length]. pose proof (Z.mod_pos_bound (Z.of_nat k) n ltac:(lia)).
        rewrite Zplus_mod in E. rewrite (Zplus_mod (Z.of_nat k)). destruct (Z.eq_dec n 1) as [->|]; [rewrite !Z.mod_1_r in E; congruence|].
        rewrite (Z.mod_small 1 n) in * by lia. destruct (Z.eq_dec (Z.of_nat k mod n + 1) n) as [E2|E2]; [rewrite E2, Z_mod_same_full in E; congruence|].
        symmetry. apply Z.mod_small. lia.
    + refine (IH _ _ id n k N F' A' _ j b H). cbn [wstep]. unfold upd. destruct (Z.eqb_spec id q); [congruence|exact L].
  - cbn [fstep snd answers] in H. refine (IH _ _ id n k N F' A' _ j b H). cbn [wstep]. unfold upd. destruct (Z.eqb_spec id q); [congruence|exact L].
  - cbn [fstep snd answers] in H. exact (IH _ _ id n k N F' A' L j b H).
Qed.
Lemma sync_counts : forall ord os id n, 1 <= n -> Forall (announces id n) os -> every_nth n (answers id (snd (frun (fs_init ord) os))).
Proof.
  intros ord os id n N A k b H. refine (count_run os nobody (fs_init ord) id n 0 N (follows_init ord) A _ k b H).
  reflexivity || (symmetry; apply Z.mod_0_l; lia).
Qed.

(** ** messages *)
Lemma lor4 : forall a b c d, is_byte a -> is_byte b -> is_byte c -> is_byte d ->
  Z.lor (Z.lor (Z.lor (Z.shiftl a 24) (Z.shiftl b 16)) (Z.shiftl c 8)) d = 16777216 * a + 65536 * b + 256 * c + d.
Proof.
  intros a b c d A B C D. unfold is_byte, U8MAX in *.
  assert (X : forall x y n, 0 <= n -> 0 <= y < 2 ^ n -> Z.lor (Z.shiftl x n) y = x * 2 ^ n + y).
  { intros x y n N Y. rewrite <- (Z.shiftl_mul_pow2 x n N). rewrite <- Z.lxor_lor.
    - rewrite <- Z.add_nocarry_lxor; [reflexivity|]. apply Z.bits_inj'. intros m M. rewrite Z.land_spec, Z.bits_0.
      destruct (Z.ltb_spec m n); [rewrite Z.shiftl_spec_low by lia; reflexivity|]. rewrite andb_comm.
      replace (Z.testbit y m) with false; [reflexivity|]. symmetry. destruct (Z.eq_dec y 0) as [->|]; [apply Z.bits_0|].
      apply Z.bits_above_log2; [lia|]. apply Z.lt_le_trans with n; [|lia]. apply Z.log2_lt_pow2; lia.
    - apply Z.bits_inj'. intros m M. rewrite Z.land_spec, Z.bits_0.
      destruct (Z.ltb_spec m n); [rewrite Z.shiftl_spec_low by lia; reflexivity|]. rewrite andb_comm.
      replace (Z.testbit y m) with false; [reflexivity|]. symmetry. destruct (Z.eq_dec y 0) as [->|]; [apply Z.bits_0|].
      apply Z.bits_above_log2; [lia|]. apply Z.lt_le_trans with n; [|lia]. apply Z.log2_lt_pow2; lia. }
  replace (Z.shiftl a 24) with (Z.shiftl (Z.shiftl a 8) 16) by (rewrite Z.shiftl_shiftl by lia; reflexivity).
  replace (Z.shiftl b 16) with (Z.shiftl b 16) by reflexivity.
  rewrite <- Z.shiftl_lor. rewrite (X a b 8) by (cbn; lia).
  replace (Z.shiftl (a * 2 ^ 8 + b) 16) with (Z.shiftl (Z.shiftl (a * 2 ^ 8 + b) 8) 8) by (rewrite Z.shiftl_shiftl by lia; reflexivity).
  rewrite <- Z.shiftl_lor. rewrite (X _ c 8) by (cbn; lia). rewrite (X _ d 8) by (cbn; lia).
  change (2 ^ 8) with 256. ring.
Qed.
Lemma int_be_spec : forall a b c d, is_byte a -> is_byte b -> is_byte c -> is_byte d ->
  int_be a b c d = to_i32 (16777216 * a + 65536 * b + 256 * c + d).
Proof.
  intros a b c d A B C D. unfold int_be. rewrite lor4 by assumption. f_equal. unfold wrap32, U32MAX, is_byte, U8MAX in *. 
  apply Z.mod_small. lia.
Qed.
Definition sx (v : Z) : Z := if v <? 2 ^ 31 then v else v + (2 ^ 64 - 2 ^ 32).
Lemma be32_of : forall a b c d, is_byte a -> is_byte b -> is_byte c -> is_byte d -> be32 (16777216 * a + 65536 * b + 256 * c + d) = [a; b; c; d].
Proof.
  intros a b c d A B C D. unfold is_byte, U8MAX in *. unfold be32. change (2 ^ 24) with 16777216. change (2 ^ 16) with 65536. change (2 ^ 8) with 256.
  f_equal; [lia|]. f_equal; [lia|]. f_equal; [lia|]. f_equal. lia.
Qed.
Lemma be32_bytes : forall v, is_u32 v -> exists a b c d, be32 v = [a; b; c; d] /\ is_byte a /\ is_byte b /\ is_byte c /\ is_byte d /\ v = 16777216 * a + 65536 * b + 256 * c + d.
Proof.
  intros v H. unfold is_u32, U32MAX in H. unfold be32. change (2 ^ 24) with 16777216. change (2 ^ 16) with 65536. change (2 ^ 8) with 256.
  do 4 eexists. split; [reflexivity|]. unfold is_byte, U8MAX. repeat split; lia.
Qed.
Lemma payload_be : forall a b c d e f g h rest, Forall is_byte [a; b; c; d; e; f; g; h] ->
  sync_payload (a :: b :: c :: d :: e :: f :: g :: h :: rest)
  = Ok (16777216 * a + 65536 * b + 256 * c + d, sx (16777216 * e + 65536 * f + 256 * g + h), 8%nat).
Proof.
  intros a b c d e f g h rest H. rewrite !Forall_cons_iff in H. destruct H as (A & B & C & D & E & F & G & HH & _). unfold sync_payload.
  replace (zlen _ <? 8) with false by (symmetry; apply Z.ltb_ge; rewrite !zlen_cons; pose proof (zlen_nonneg _ rest); lia).
  cbn [rd nth_error rbind]. rewrite !int_be_spec by assumption. unfold is_byte, U8MAX in *.
  remember (16777216 * a + 65536 * b + 256 * c + d) as v eqn:Ev. remember (16777216 * e + 65536 * f + 256 * g + h) as w eqn:Ew.
  f_equal. f_equal. f_equal.
  - unfold to_i32, wrap32, U32MAX. destruct (Z.gtb_spec v 2147483647); lia.
  - unfold sx, to_i32, wrap64, U64MAX. change (2 ^ 31) with 2147483648. change (2 ^ 64) with 18446744073709551616. change (2 ^ 32) with 4294967296.
    destruct (Z.gtb_spec w 2147483647), (Z.ltb_spec w 2147483648); lia.
Qed.
Lemma sync_exact : forall l, bytes_ok l -> sync_parse l <> UB /\ forall id n k,
  sync_parse l = Ok (id, n, k) <-> exists ts cnt rest, l = 4 :: ts ++ 0 :: 34 :: be32 id ++ be32 cnt ++ rest /\ length ts = 4%nat
     /\ is_u32 id /\ is_u32 cnt /\ n = sx cnt /\ k = 15%nat.
Proof.
  intros l B.
  assert (X : sync_parse l = Rej \/ exists a b c d e f g h t1 t2 t3 t4 rest, l = 4 :: t1 :: t2 :: t3 :: t4 :: 0 :: 34 :: a :: b :: c :: d :: e :: f :: g :: h :: rest
     /\ Forall is_byte [a; b; c; d; e; f; g; h] /\ sync_parse l = Ok (16777216 * a + 65536 * b + 256 * c + d, sx (16777216 * e + 65536 * f + 256 * g + h), 15%nat)).
  { unfold sync_parse. destruct (Z.ltb_spec (zlen l) 15) as [L|L]; [left; reflexivity|].
    do 15 (destruct l as [|? l]; [cbn in L; lia|]). cbn [rd nth_error rbind skipn].
    destruct (Z.eqb_spec 4 z) as [<-|]; cbn [negb]; [|left; reflexivity].
    change (Z.land (Z.shiftr 34 8) 255) with 0. change (Z.land 34 255) with 34.
    destruct (Z.eqb_spec 0 z4) as [<-|]; cbn [negb]; [|left; reflexivity].
    destruct (Z.eqb_spec 34 z5) as [<-|]; cbn [negb]; [|left; reflexivity].
    right. assert (FB : Forall is_byte [z6; z7; z8; z9; z10; z11; z12; z13]).
    { unfold bytes_ok in B. rewrite !Forall_cons_iff in B. rewrite !Forall_cons_iff. assert (Forall is_byte (@nil Z)) by constructor. tauto. }
    exists z6, z7, z8, z9, z10, z11, z12, z13, z0, z1, z2, z3, l. split; [reflexivity|]. split; [exact FB|].
    rewrite payload_be by exact FB. reflexivity. }
  split.
  - destruct X as [->|(a & b & c & d & e & f & g & h & t1 & t2 & t3 & t4 & rest & _ & _ & ->)]; discriminate.
  - intros id n k. split.
    + intros H. destruct X as [X|(a & b & c & d & e & f & g & h & t1 & t2 & t3 & t4 & rest & -> & FB & X)]; [congruence|].
      rewrite X in H. apply Ok_inj in H. rewrite !Forall_cons_iff in FB. destruct FB as (A1 & A2 & A3 & A4 & A5 & A6 & A7 & A8 & _).
      pose proof (be32_of a b c d A1 A2 A3 A4) as E1. pose proof (be32_of e f g h A5 A6 A7 A8) as E2.
      assert (U1 : is_u32 (16777216 * a + 65536 * b + 256 * c + d)) by (unfold is_u32, U32MAX, is_byte, U8MAX in *; lia).
      assert (U2 : is_u32 (16777216 * e + 65536 * f + 256 * g + h)) by (unfold is_u32, U32MAX, is_byte, U8MAX in *; lia).
      remember (16777216 * a + 65536 * b + 256 * c + d) as v. remember (16777216 * e + 65536 * f + 256 * g + h) as w.
      injection H as <- <- <-. exists [t1; t2; t3; t4], w, rest. rewrite E1, E2. repeat split; auto; apply U1 || apply U2.
    + intros (ts & cnt & rest & El & Lt & U1 & U2 & -> & ->).
      destruct ts as [|t1 [|t2 [|t3 [|t4 [|? ?]]]]]; try discriminate Lt.
      destruct (be32_bytes id U1) as (a & b & c & d & E1 & A1 & A2 & A3 & A4 & V1). destruct (be32_bytes cnt U2) as (e & f & g & h & E2 & A5 & A6 & A7 & A8 & V2).
      rewrite E1, E2 in El. cbn [app] in El. subst l. unfold sync_parse.
      replace (zlen _ <? 15) with false by (symmetry; apply Z.ltb_ge; rewrite !zlen_cons; pose proof (zlen_nonneg _ rest); lia).
      cbn [rd nth_error rbind skipn]. change (Z.land (Z.shiftr 34 8) 255) with 0. change (Z.land 34 255) with 34. rewrite !Z.eqb_refl. cbn [negb].
      rewrite payload_be by (rewrite !Forall_cons_iff; repeat split; try assumption; try apply A1; try apply A2; try apply A3; try apply A4; try apply A5; try apply A6; try apply A7; try apply A8; constructor).
      rewrite <- V1, <- V2. reflexivity.
Qed.
Lemma sync_message_wire : forall id n, is_u32 id -> 0 <= n -> sync_message id n = 4 :: [0; 0; 0; 0] ++ 0 :: 34 :: be32 id ++ be32 (n mod 2 ^ 32).
Proof.
  intros id n U N. unfold sync_message. 
  assert (E : [Z.land (Z.shiftr n 24) 255; Z.land (Z.shiftr n 16) 255; Z.land (Z.shiftr n 8) 255; Z.land n 255] = be32 (n mod 2 ^ 32)).
  { unfold be32. rewrite !land_255. rewrite !Z.shiftr_div_pow2 by lia. change (2 ^ 24) with 16777216. change (2 ^ 16) with 65536. change (2 ^ 8) with 256. change (2 ^ 32) with 4294967296.
    f_equal; [lia|]. f_equal; [lia|]. f_equal; [lia|]. f_equal. lia. }
  rewrite <- E, <- (land255_bytes id U). unfold tc_message. reflexivity.
Qed.
Lemma be32_ok : forall v, is_u32 v -> bytes_ok (be32 v).
Proof.
  intros v H. destruct (be32_bytes v H) as (a & b & c & d & -> & A & B & C & D & _). repeat constructor; try apply A; try apply B; try apply C; try apply D.
Qed.
Lemma sync_roundtrip : forall id n rest, is_u32 id -> 0 <= n < 2 ^ 31 -> bytes_ok rest -> sync_parse (sync_message id n ++ rest) = Ok (id, n, 15%nat).
Proof.
  intros id n rest U N B. change (2 ^ 31) with 2147483648 in N. rewrite sync_message_wire by (try assumption; lia).
  rewrite Z.mod_small by (change (2 ^ 32) with 4294967296; lia).
  assert (U2 : is_u32 n) by (unfold is_u32, U32MAX; lia).
  apply sync_exact.
  - change (bytes_ok ([4; 0; 0; 0; 0; 0; 34] ++ (be32 id ++ be32 n) ++ rest)) || idtac.
    cbn [app]. repeat (constructor; [unfold is_byte, U8MAX; lia|]). apply bytes_ok_app. split; [apply bytes_ok_app; split; apply be32_ok; assumption|exact B].
  - exists [0; 0; 0; 0], n, rest. split; [cbn [app]; rewrite <- app_assoc; reflexivity|]. split; [reflexivity|]. split; [exact U|]. split; [exact U2|]. split; [|reflexivity].
    unfold sx. change (2 ^ 31) with 2147483648. destruct (Z.ltb_spec n 2147483648); [reflexivity|lia].
Qed.
Lemma sync_big : forall id n rest, is_u32 id -> 2 ^ 31 <= n < 2 ^ 32 -> bytes_ok rest ->
  sync_parse (sync_message id n ++ rest) = Ok (id, n + (2 ^ 64 - 2 ^ 32), 15%nat).
Proof.
  intros id n rest U N B. change (2 ^ 31) with 2147483648 in N. change (2 ^ 32) with 4294967296 in N. rewrite sync_message_wire by (try assumption; lia).
  rewrite Z.mod_small by (change (2 ^ 32) with 4294967296; lia).
  assert (U2 : is_u32 n) by (unfold is_u32, U32MAX; lia).
  apply sync_exact.
  - cbn [app]. repeat (constructor; [unfold is_byte, U8MAX; lia|]). apply bytes_ok_app. split; [apply bytes_ok_app; split; apply be32_ok; assumption|exact B].
  - exists [0; 0; 0; 0], n, rest. split; [cbn [app]; rewrite <- app_assoc; reflexivity|]. split; [reflexivity|]. split; [exact U|]. split; [exact U2|]. split; [|reflexivity].
    unfold sx. change (2 ^ 31) with 2147483648. destruct (Z.ltb_spec n 2147483648); [lia|reflexivity].
Qed.
Lemma makes_nth : forall cs s i n, is_u32 (fs_next s) -> nth_error cs i = Some n ->
  nth_error (fs_makes s cs) i = Some (sync_message ((fs_next s + Z.of_nat i) mod 2 ^ 32) n).
Proof.
  induction cs as [|c cs IH]; intros s i n U H; [destruct i; discriminate|]. destruct i as [|i]; cbn [nth_error] in H; cbn [fs_makes nth_error fs_make fst snd].
  - injection H as <-. rewrite Z.add_0_r, Z.mod_small; [reflexivity|]. unfold is_u32, U32MAX in U. change (2 ^ 32) with 4294967296. lia.
  - rewrite (IH _ i n); [|cbn [fs_next]; unfold is_u32, wrap32, U32MAX in *; lia|exact H]. cbn [fs_next]. do 2 f_equal. unfold wrap32, U32MAX. change (2 ^ 32) with 4294967296. lia.
Qed.
Lemma makes_fresh : forall cs s i j ni nj, is_u32 (fs_next s) -> (i < j)%nat -> Z.of_nat j - Z.of_nat i < 2 ^ 32 ->
  nth_error cs i = Some ni -> nth_error cs j = Some nj -> 0 <= ni < 2 ^ 31 -> 0 <= nj < 2 ^ 31 ->
  exists mi mj id id', nth_error (fs_makes s cs) i = Some mi /\ nth_error (fs_makes s cs) j = Some mj
    /\ sync_parse mi = Ok (id, ni, 15%nat) /\ sync_parse mj = Ok (id', nj, 15%nat) /\ id <> id'.
Proof.
  intros cs s i j ni nj U IJ D Hi Hj Ni Nj. rewrite (makes_nth cs s i ni U Hi), (makes_nth cs s j nj U Hj).
  assert (V : forall x, is_u32 (x mod 2 ^ 32)). { intros x. unfold is_u32, U32MAX. change (2 ^ 32) with 4294967296. lia. }
  assert (N0 : bytes_ok []) by constructor.
  do 4 eexists. split; [reflexivity|]. split; [reflexivity|].
  pose proof (sync_roundtrip _ ni [] (V (fs_next s + Z.of_nat i)) Ni N0) as A. pose proof (sync_roundtrip _ nj [] (V (fs_next s + Z.of_nat j)) Nj N0) as B.
  rewrite app_nil_r in A, B. split; [exact A|]. split; [exact B|]. change (2 ^ 32) with 4294967296 in *. lia.
Qed.
