From Coq Require Import Sorting.Sorted.
From Verif Require Import Base BaseFacts Timer TimerSpec.
Ltac Zify.zify_post_hook ::= Z.div_mod_to_equations.
Open Scope res_scope.

(** ** Lists *)
Lemma set_nth_length : forall A (l : list A) n x, length (set_nth l n x) = length l.
Proof. induction l as [|a l IH]; intros [|n] x; cbn; try reflexivity. rewrite IH. reflexivity. Qed.
Lemma set_nth_same : forall A (l : list A) n x d, (n < length l)%nat -> nth n (set_nth l n x) d = x.
Proof. induction l as [|a l IH]; intros [|n] x d H; cbn in *; try lia; [reflexivity|]. apply IH. lia. Qed.
Lemma set_nth_other : forall A (l : list A) n m x d, n <> m -> nth m (set_nth l n x) d = nth m l d.
Proof. induction l as [|a l IH]; intros [|n] [|m] x d H; cbn; try reflexivity; try lia. apply IH. lia. Qed.
Definition len (s : tstate) : nat := length (ts_timers s).
Lemma tget_same : forall s id t, (id < len s)%nat -> tget (tset s id t) id = t.
Proof. intros s id t H. apply set_nth_same, H. Qed.
Lemma tget_other : forall s id x t, x <> id -> tget (tset s id t) x = tget s x.
Proof. intros s id x t H. apply set_nth_other. intros E. apply H. symmetry. exact E. Qed.
Lemma tget_logged : forall s e x, tget (logged s e) x = tget s x.
Proof. reflexivity. Qed.
Lemma tget_set : forall s l x, tget (with_set s l) x = tget s x.
Proof. reflexivity. Qed.
Lemma len_tset : forall s id t, len (tset s id t) = len s.
Proof. intros. apply set_nth_length. Qed.
Lemma tget_keep : forall s id t (P : timer -> Prop), P t -> forall x, P (tget s x) -> P (tget (tset s id t) x).
Proof.
  intros s id t P Pt x Px. destruct (Nat.eq_dec x id) as [->|N]; [|rewrite tget_other by exact N; exact Px].
  destruct (Nat.lt_ge_cases id (len s)) as [L|L]; [rewrite tget_same by exact L; exact Pt|]. unfold tget, tset. cbn [ts_timers]. rewrite nth_overflow by (rewrite set_nth_length; exact L).
  unfold tget in Px. rewrite nth_overflow in Px by exact L. exact Px.
Qed.

(** ** The order *)
Definition key (t : timer) : Z * Z := (t_when t, t_addr t).
Lemma tless_key : forall a b a' b', key a = key a' -> key b = key b' -> tless a b = tless a' b'.
Proof. intros a b a' b' H K. unfold key in *. injection H as H1 H2. injection K as K1 K2. unfold tless. rewrite H1, H2, K1, K2. reflexivity. Qed.
Lemma tless_spec : forall a b, tless a b = true <-> t_when a < t_when b \/ (t_when a = t_when b /\ t_addr a < t_addr b).
Proof. intros a b. unfold tless. destruct (Z.eqb_spec (t_when a) (t_when b)); rewrite Z.ltb_lt; lia. Qed.
Lemma tless_irrefl : forall a, tless a a = false.
Proof. intros a. destruct (tless a a) eqn:E; [|reflexivity]. apply tless_spec in E. lia. Qed.
Lemma tless_trans : forall a b c, tless a b = true -> tless b c = true -> tless a c = true.
Proof. intros a b c. rewrite !tless_spec. lia. Qed.
Lemma tless_tri : forall a b, tless a b = false -> tless b a = false -> t_addr a = t_addr b.
Proof. intros a b H K. apply not_true_iff_false in H. apply not_true_iff_false in K. rewrite tless_spec in H, K. lia. Qed.
Definition sorted (s : tstate) (l : list nat) : Prop := StronglySorted (fun a b => tless (tget s a) (tget s b) = true) l.
Lemma sorted_ext : forall s s' l, (forall x, In x l -> key (tget s x) = key (tget s' x)) -> sorted s l -> sorted s' l.
Proof.
  intros s s' l H S. induction S as [|a l S IH F]; [constructor|]. constructor; [apply IH; intros x X; apply H; right; exact X|].
  rewrite Forall_forall in *. intros x X. rewrite <- (tless_key (tget s a) (tget s x)); [exact (F x X)|apply H; left; reflexivity|apply H; right; exact X].
Qed.
Lemma sorted_filter : forall s f l, sorted s l -> sorted s (filter f l).
Proof.
  intros s f l S. induction S as [|a l S IH F]; [constructor|]. cbn [filter]. destruct (f a); [|exact IH]. constructor; [exact IH|]. rewrite Forall_forall in *.
  intros x X. apply filter_In in X. apply F, X.
Qed.
Lemma sorted_notin : forall s a l, sorted s (a :: l) -> ~ In a l.
Proof. intros s a l S I. inversion S as [|? ? ? F]; subst. rewrite Forall_forall in F. specialize (F a I). rewrite tless_irrefl in F. discriminate. Qed.

Record TI (s : tstate) : Prop := {
  ti_addr : forall a b, (a < len s)%nat -> (b < len s)%nat -> t_addr (tget s a) = t_addr (tget s b) -> a = b;
  ti_known : forall x, In x (ts_set s) -> (x < len s)%nat;
  ti_sorted : sorted s (ts_set s);
  ti_list : forall x, In x (ts_set s) -> t_list (tget s x) = true \/ t_canceled (tget s x) = true;
  ti_time : forall x, (x < len s)%nat -> last_time (ts_log s) x = Some (t_when (tget s x));
  ti_cancel : forall x, In (EvCancel x) (ts_log s) -> (x < len s)%nat /\ t_canceled (tget s x) = true;
  ti_log : punctual (ts_log s)
}.
Lemma ti_init : TI ts_init.
Proof. constructor; cbn; try (intros; lia); try (intros; contradiction); [constructor|]. intros l2 id due now l1 H. destruct l2; discriminate. Qed.

Lemma ti_tset : forall s id t, TI s -> key t = key (tget s id) -> (t_canceled (tget s id) = true -> t_canceled t = true) ->
  (In id (ts_set s) -> t_list t = true \/ t_canceled t = true) -> TI (tset s id t).
Proof.
  intros s id t T K C L. assert (E : forall x, key (tget (tset s id t) x) = key (tget s x)).
  { intros x. destruct (Nat.eq_dec x id) as [->|N]; [|rewrite tget_other by exact N; reflexivity]. apply (tget_keep s id t (fun u => key u = key (tget s id))); [exact K|reflexivity]. }
  assert (EW : forall x, t_when (tget (tset s id t) x) = t_when (tget s x)) by (intros x; specialize (E x); unfold key in E; injection E; auto).
  assert (EA : forall x, t_addr (tget (tset s id t) x) = t_addr (tget s x)) by (intros x; specialize (E x); unfold key in E; injection E; auto).
  constructor; rewrite ?len_tset; cbn [ts_set ts_log tset].
  - intros a b A B. rewrite !EA. exact (ti_addr s T a b A B).
  - exact (ti_known s T).
  - apply (sorted_ext s); [intros x _; symmetry; apply E|exact (ti_sorted s T)].
  - intros x X. destruct (Nat.eq_dec x id) as [->|N]; [|rewrite tget_other by exact N; exact (ti_list s T x X)]. rewrite tget_same by exact (ti_known s T id X). exact (L X).
  - intros x X. rewrite EW. exact (ti_time s T x X).
  - intros x X. destruct (ti_cancel s T x X) as [X1 X2]. split; [exact X1|]. destruct (Nat.eq_dec x id) as [->|N]; [|rewrite tget_other by exact N; exact X2]. rewrite tget_same by exact X1. apply C, X2.
  - exact (ti_log s T).
Qed.
Lemma punctual_other : forall log e, punctual log -> (forall id due now, e <> EvRun id due now) -> punctual (e :: log).
Proof. intros log e P N l2 id due now l1 H. destruct l2 as [|x l2]; cbn in H; [injection H as H _; destruct (N _ _ _ H)|]. injection H as _ H. exact (P _ _ _ _ _ H). Qed.
Lemma ti_quiet : forall s e, TI s -> (match e with EvAdd _ => True | EvWake => True | _ => False end) -> TI (logged s e).
Proof.
  intros s e T Q. destruct e; try contradiction; (destruct T as [A B C D E F G]; constructor; cbn; [exact A|exact B|exact C|exact D|exact E| |apply punctual_other; [exact G|discriminate]];
    intros x [X|X]; [discriminate|exact (F x X)]).
Qed.
Lemma ti_evcancel : forall s id, TI s -> (id < len s)%nat -> t_canceled (tget s id) = true -> TI (logged s (EvCancel id)).
Proof.
  intros s id T K C0. destruct T as [A B C D E F G]; constructor; cbn; [exact A|exact B|exact C|exact D|exact E| |apply punctual_other; [exact G|discriminate]].
  intros x [X|X]; [injection X as <-; split; assumption|exact (F x X)].
Qed.
Lemma ti_run : forall s id now, TI s -> (id < len s)%nat -> t_when (tget s id) <= now -> t_canceled (tget s id) = false -> TI (logged s (EvRun id (t_when (tget s id)) now)).
Proof.
  intros s id now T K W C0. pose proof T as T0. destruct T as [A B C D E F G]; constructor; cbn; [exact A|exact B|exact C|exact D|exact E| |].
  - intros x [X|X]; [discriminate|exact (F x X)].
  - intros l2 i due n l1 H. destruct l2 as [|x l2]; cbn in H.
    + injection H as <- <- <- <-. split; [exact W|]. split; [exact (E id K)|]. intros X. destruct (F id X) as [_ X2]. congruence.
    + injection H as _ H. exact (G _ _ _ _ _ H).
Qed.
Lemma ti_running : forall s b, TI s -> TI (with_running s b).
Proof. intros s b T. destruct T as [A B C D E F G]; constructor; assumption. Qed.
Lemma ti_sub : forall s l, TI s -> sorted s l -> (forall x, In x l -> In x (ts_set s)) -> TI (with_set s l).
Proof.
  intros s l T S I. destruct T as [A B C D E F G]; constructor; cbn; [exact A| |exact S| |exact E|exact F|exact G].
  - intros x X. apply B, I, X.
  - intros x X. apply D, I, X.
Qed.
Lemma insert_in : forall s id l x, (forall a b, In a (id :: l) -> In b (id :: l) -> t_addr (tget s a) = t_addr (tget s b) -> a = b) -> In x (insert s id l) <-> x = id \/ In x l.
Proof.
  intros s id l x. induction l as [|y l IH]; intros U; cbn [insert].
  - cbn. intuition congruence.
  - destruct (tless (tget s id) (tget s y)) eqn:E1; [cbn; intuition congruence|]. destruct (tless (tget s y) (tget s id)) eqn:E2.
    + cbn [In]. rewrite IH; [intuition congruence|]. intros a b A B. apply U; cbn in *; tauto.
    + assert (id = y). { apply U; [left; reflexivity|right; left; reflexivity|]. apply tless_tri; assumption. } subst y. cbn. intuition congruence.
Qed.
Lemma insert_sorted : forall s id l, (forall a b, In a (id :: l) -> In b (id :: l) -> t_addr (tget s a) = t_addr (tget s b) -> a = b) -> sorted s l -> sorted s (insert s id l).
Proof.
  intros s id l. induction l as [|y l IH]; intros U S; cbn [insert]; [constructor; constructor|]. inversion S as [|? ? S' F]; subst.
  destruct (tless (tget s id) (tget s y)) eqn:E1.
  - constructor; [exact S|]. constructor; [exact E1|]. rewrite Forall_forall in *. intros z Z. exact (tless_trans _ _ _ E1 (F z Z)).
  - destruct (tless (tget s y) (tget s id)) eqn:E2; [|exact S]. assert (U' : forall a b, In a (id :: l) -> In b (id :: l) -> t_addr (tget s a) = t_addr (tget s b) -> a = b).
    { intros a b A B. apply U; cbn in *; tauto. }
    constructor; [apply IH; assumption|]. rewrite Forall_forall in *. intros z Z. apply insert_in in Z; [|exact U']. destruct Z as [->|Z]; [exact E2|exact (F z Z)].
Qed.

(** ** What the calls do *)
Lemma ti_uniq : forall s id, TI s -> (id < len s)%nat -> forall a b, In a (id :: ts_set s) -> In b (id :: ts_set s) -> t_addr (tget s a) = t_addr (tget s b) -> a = b.
Proof. intros s id T K a b A B. apply (ti_addr s T); [destruct A as [<-|A]|destruct B as [<-|B]]; try exact K; apply (ti_known s T); assumption. Qed.
Lemma add_ti : forall s id, TI s -> (id < len s)%nat -> TI (add_timer s id).
Proof.
  intros s id T K. unfold add_timer. set (s1 := tset s id (with_list (tget s id) true)).
  assert (T1 : TI s1) by (apply ti_tset; [exact T|reflexivity|auto|intros _; left; reflexivity]).
  assert (K1 : (id < len s1)%nat) by (unfold s1; rewrite len_tset; exact K).
  assert (T2 : TI (logged (with_set s1 (insert s1 id (ts_set s1))) (EvAdd id))).
  { apply ti_quiet; [|exact I]. pose proof (ti_uniq s1 id T1 K1) as U. pose proof (insert_sorted s1 id _ U (ti_sorted s1 T1)) as S. destruct T1 as [A B C D E F G]. constructor; cbn [ts_set with_set ts_log]; [exact A| |exact S| |exact E|exact F|exact G].
    - intros x X. apply insert_in in X; [|exact U]. destruct X as [->|X]; [exact K1|exact (B x X)].
    - intros x X. apply insert_in in X; [|exact U]. destruct X as [->|X]; [left; rewrite tget_set; unfold s1; rewrite tget_same by exact K; reflexivity|exact (D x X)]. }
  destruct (_ && _); [apply ti_quiet; [exact T2|exact I]|exact T2].
Qed.
Record added (s s' : tstate) (id : nat) : Prop := {
  ad_len : len s' = len s;
  ad_run : ts_running s' = ts_running s;
  ad_id : tget s' id = with_list (tget s id) true;
  ad_other : forall x, x <> id -> tget s' x = tget s x;
  ad_set : forall x, In x (ts_set s') <-> x = id \/ In x (ts_set s);
  ad_log : ts_log s' = EvAdd id :: ts_log s \/ ts_log s' = EvWake :: EvAdd id :: ts_log s;
  ad_wake : ts_running s = false -> (forall x, In x (ts_set s) -> t_when (tget s id) < t_when (tget s x)) -> In EvWake (firstn 1 (ts_log s'))
}.
Lemma add_eff : forall s id, TI s -> (id < len s)%nat -> added s (add_timer s id) id.
Proof.
  intros s id T K. unfold add_timer. set (s1 := tset s id (with_list (tget s id) true)).
  assert (T1 : TI s1) by (apply ti_tset; [exact T|reflexivity|auto|intros _; left; reflexivity]).
  assert (K1 : (id < len s1)%nat) by (unfold s1; rewrite len_tset; exact K). pose proof (ti_uniq s1 id T1 K1) as U.
  set (s2 := logged (with_set s1 (insert s1 id (ts_set s1))) (EvAdd id)). set (early := match ts_set s with [] => true | _ :: _ => _ end).
  assert (B : len s2 = len s /\ ts_running s2 = ts_running s /\ tget s2 id = with_list (tget s id) true /\ (forall x, x <> id -> tget s2 x = tget s x) /\ (forall x, In x (ts_set s2) <-> x = id \/ In x (ts_set s)) /\ ts_log s2 = EvAdd id :: ts_log s).
  { split; [unfold s2, s1; cbn; apply set_nth_length|]. split; [reflexivity|]. split; [unfold s2, s1; rewrite tget_logged, tget_set; apply tget_same, K|]. split.
    - intros x N. unfold s2, s1. rewrite tget_logged, tget_set. apply tget_other, N.
    - split; [|reflexivity]. intros x. unfold s2. cbn [ts_set logged with_set]. rewrite insert_in by exact U. reflexivity. }
  destruct B as (B1 & B2 & B3 & B4 & B5 & B6).
  assert (W : ts_running s = false -> (forall x, In x (ts_set s) -> t_when (tget s id) < t_when (tget s x)) -> early && negb (ts_running s2) = true).
  { intros R A. rewrite B2, R. unfold early. destruct (ts_set s) as [|x r] eqn:ES; [reflexivity|]. cbn [negb]. rewrite andb_true_r. apply Z.ltb_lt, A. left. reflexivity. }
  destruct (early && negb (ts_running s2)) eqn:EW; constructor; cbn [ts_log ts_set ts_running logged]; try assumption.
  - right. rewrite B6. reflexivity.
  - intros _ _. left. reflexivity.
  - left. exact B6.
  - intros R A. specialize (W R A). discriminate.
Qed.
Lemma erase_in : forall s id x, TI s -> (id < len s)%nat -> In x (erase s id (ts_set s)) <-> In x (ts_set s) /\ x <> id.
Proof.
  intros s id x T K. unfold erase. rewrite filter_In. split; intros [X Y]; (split; [exact X|]).
  - intros ->. rewrite tless_irrefl in Y. discriminate.
  - destruct (tless (tget s id) (tget s x)) eqn:E1; [reflexivity|]. destruct (tless (tget s x) (tget s id)) eqn:E2; [reflexivity|]. exfalso. apply Y. symmetry.
    apply (ti_addr s T); [exact K|exact (ti_known s T x X)|apply tless_tri; assumption].
Qed.
Record removed (s s' : tstate) (id : nat) : Prop := {
  rm_len : len s' = len s;
  rm_run : ts_running s' = ts_running s;
  rm_id : tget s' id = with_list (tget s id) false;
  rm_other : forall x, x <> id -> tget s' x = tget s x;
  rm_set : forall x, In x (ts_set s') <-> In x (ts_set s) /\ x <> id;
  rm_log : ts_log s' = ts_log s
}.
Lemma remove_eff : forall s id, TI s -> (id < len s)%nat -> TI (remove_timer s id) /\ removed s (remove_timer s id) id.
Proof.
  intros s id T K. unfold remove_timer. set (s1 := tset s id (with_list (tget s id) false)).
  assert (E : forall x, key (tget s1 x) = key (tget s x)).
  { intros x. destruct (Nat.eq_dec x id) as [->|N]; [unfold s1; rewrite tget_same by exact K; reflexivity|unfold s1; rewrite tget_other by exact N; reflexivity]. }
  assert (EE : erase s1 id (ts_set s1) = erase s id (ts_set s)).
  { unfold erase. cbn [s1 ts_set tset]. apply filter_ext. intros x. rewrite (tless_key (tget s1 id) (tget s1 x) (tget s id) (tget s x)), (tless_key (tget s1 x) (tget s1 id) (tget s x) (tget s id)); auto. }
  rewrite EE.
  assert (TE : TI (with_set s (erase s id (ts_set s)))). { apply ti_sub; [exact T|apply sorted_filter, T|]. intros x X. apply erase_in in X; [apply X|exact T|exact K]. }
  split.
  - change (TI (tset (with_set s (erase s id (ts_set s))) id (with_list (tget s id) false))). apply ti_tset; [exact TE|reflexivity|auto|].
    cbn [ts_set with_set]. intros X. apply erase_in in X; [|exact T|exact K]. destruct X as [_ X]. congruence.
  - constructor; cbn [ts_set with_set ts_log ts_running]; [unfold s1; cbn; apply set_nth_length|reflexivity|rewrite tget_set; apply tget_same, K| | |reflexivity].
    + intros x N. rewrite tget_set. apply tget_other, N.
    + intros x. apply erase_in; assumption.
Qed.
Record timed (s s' : tstate) (id : nat) (w : Z) : Prop := {
  pw_len : len s' = len s;
  pw_run : ts_running s' = ts_running s;
  pw_id : tget s' id = with_when (tget s id) w;
  pw_other : forall x, x <> id -> tget s' x = tget s x;
  pw_set : ts_set s' = ts_set s;
  pw_log : ts_log s' = EvTime id w :: ts_log s
}.
Lemma put_when_ok : forall s id w, ~ In id (ts_set s) -> put_when s id w = Ok (logged (tset s id (with_when (tget s id) w)) (EvTime id w)).
Proof.
  intros s id w N. unfold put_when. destruct (existsb (Nat.eqb id) (ts_set s)) eqn:E; [|reflexivity]. apply existsb_exists in E. destruct E as (x & X & E). apply Nat.eqb_eq in E. subst x. contradiction.
Qed.
Lemma put_eff : forall s id w s', TI s -> (id < len s)%nat -> put_when s id w = Ok s' -> ~ In id (ts_set s) /\ TI s' /\ timed s s' id w.
Proof.
  intros s id w s' T K H. unfold put_when in H. destruct (existsb (Nat.eqb id) (ts_set s)) eqn:E; [discriminate|]. injection H as <-.
  assert (N : ~ In id (ts_set s)). { intros X. assert (Y : existsb (Nat.eqb id) (ts_set s) = true) by (apply existsb_exists; exists id; split; [exact X|apply Nat.eqb_refl]). congruence. }
  split; [exact N|]. split.
  - set (s1 := tset s id (with_when (tget s id) w)).
    assert (EO : forall x, x <> id -> tget s1 x = tget s x) by (intros x X; unfold s1; apply tget_other, X). assert (EI : tget s1 id = with_when (tget s id) w) by (unfold s1; apply tget_same, K).
    constructor; unfold len in *; cbn [ts_timers ts_set ts_log logged]; rewrite ?tget_logged; fold (len s1); unfold s1; rewrite ?len_tset; fold s1; cbn [ts_timers ts_set ts_log tset].
    + intros a b A B AB. change (t_addr (tget s1 a) = t_addr (tget s1 b)) in AB. apply (ti_addr s T a b A B).
      destruct (Nat.eq_dec a id) as [->|Na]; destruct (Nat.eq_dec b id) as [->|Nb]; rewrite ?EI, ?(EO a), ?(EO b) in AB by assumption; exact AB.
    + exact (ti_known s T).
    + apply (sorted_ext s); [|exact (ti_sorted s T)]. intros x X. change (key (tget s x) = key (tget s1 x)). rewrite EO; [reflexivity|]. intros ->. contradiction.
    + intros x X. change (t_list (tget s1 x) = true \/ t_canceled (tget s1 x) = true). rewrite EO; [exact (ti_list s T x X)|]. intros ->. contradiction.
    + intros x X. change (last_time (EvTime id w :: ts_log s) x = Some (t_when (tget s1 x))). cbn [last_time]. destruct (Nat.eqb_spec id x) as [<-|Nx]; [rewrite EI; reflexivity|].
      rewrite EO by auto. exact (ti_time s T x X).
    + intros x [X|X]; [discriminate|]. destruct (ti_cancel s T x X) as [X1 X2]. split; [exact X1|]. change (t_canceled (tget s1 x) = true).
      destruct (Nat.eq_dec x id) as [->|Nx]; [rewrite EI; exact X2|rewrite EO by exact Nx; exact X2].
    + apply punctual_other; [exact (ti_log s T)|discriminate].
  - constructor; [cbn; apply set_nth_length|reflexivity|rewrite tget_logged; apply tget_same, K| |reflexivity|reflexivity]. intros x X. rewrite tget_logged. apply tget_other, X.
Qed.
Record canceled_eff (s s' : tstate) (id : nat) : Prop := {
  ca_len : len s' = len s;
  ca_run : ts_running s' = ts_running s;
  ca_id : tget s' id = with_list (with_canceled (tget s id)) false;
  ca_other : forall x, x <> id -> tget s' x = tget s x;
  ca_set : forall x, x <> id -> In x (ts_set s') <-> In x (ts_set s);
  ca_sub : forall x, In x (ts_set s') -> In x (ts_set s);
  ca_log : ts_log s' = EvCancel id :: ts_log s
}.
Lemma cancel_eff : forall s id, TI s -> (id < len s)%nat -> TI (cancel s id) /\ canceled_eff s (cancel s id) id.
Proof.
  intros s id T K. unfold cancel. set (s1 := logged (tset s id (with_canceled (tget s id))) (EvCancel id)).
  assert (K1 : (id < len s1)%nat) by (unfold s1; unfold len; cbn; rewrite set_nth_length; exact K).
  assert (I1 : tget s1 id = with_canceled (tget s id)) by (unfold s1; rewrite tget_logged; apply tget_same, K).
  assert (O1 : forall x, x <> id -> tget s1 x = tget s x) by (intros x N; unfold s1; rewrite tget_logged; apply tget_other, N).
  assert (T1 : TI s1).
  { unfold s1. apply ti_evcancel; [apply ti_tset; [exact T|reflexivity|reflexivity|intros _; right; reflexivity]|rewrite len_tset; exact K|rewrite tget_same by exact K; reflexivity]. }
  rewrite I1. cbn [t_list with_canceled]. destruct (t_list (tget s id)) eqn:EL.
  - destruct (remove_eff s1 id T1 K1) as [T2 R2]. remember (remove_timer s1 id) as s2 eqn:E2; clear E2.
    assert (K2 : (id < len s2)%nat) by (rewrite (rm_len _ _ _ R2); exact K1). split.
    + apply ti_tset; [exact T2|reflexivity|auto|]. intros X. apply (rm_set _ _ _ R2) in X. destruct X as [_ X]. congruence.
    + constructor.
      * rewrite len_tset, (rm_len _ _ _ R2). unfold s1, len. cbn. apply set_nth_length.
      * cbn [ts_running tset]. rewrite (rm_run _ _ _ R2). reflexivity.
      * rewrite tget_same by exact K2. rewrite (rm_id _ _ _ R2), I1. reflexivity.
      * intros x N. rewrite tget_other by exact N. rewrite (rm_other _ _ _ R2) by exact N. apply O1, N.
      * intros x N. cbn. rewrite (rm_set _ _ _ R2). cbn. tauto.
      * intros x. cbn. rewrite (rm_set _ _ _ R2). cbn. tauto.
      * cbn. rewrite (rm_log _ _ _ R2). reflexivity.
  - split.
    + apply ti_tset; [exact T1|reflexivity|auto|]. intros _. right. rewrite I1. reflexivity.
    + constructor.
      * rewrite len_tset. unfold s1, len. cbn. apply set_nth_length.
      * reflexivity.
      * rewrite tget_same by exact K1. rewrite I1. reflexivity.
      * intros x N. rewrite tget_other by exact N. apply O1, N.
      * reflexivity.
      * auto.
      * reflexivity.
Qed.
Record set_eff (s s' : tstate) (id : nat) (w : Z) : Prop := {
  sn_len : len s' = len s;
  sn_run : ts_running s' = ts_running s;
  sn_id : tget s' id = with_resched (with_when (tget s id) w) true;
  sn_other : forall x, x <> id -> tget s' x = tget s x;
  sn_set : forall x, x <> id -> In x (ts_set s') <-> In x (ts_set s);
  sn_in : In id (ts_set s') <-> t_list (tget s id) = true;
  sn_log : (In id (ts_set s') /\ ts_log s' = EvAdd id :: EvTime id w :: ts_log s) \/ (In id (ts_set s') /\ ts_log s' = EvWake :: EvAdd id :: EvTime id w :: ts_log s) \/ (~ In id (ts_set s') /\ ts_log s' = EvTime id w :: ts_log s);
  sn_wake : ts_running s = false -> In id (ts_set s') -> (forall x, In x (ts_set s) -> x <> id -> w < t_when (tget s x)) -> In EvWake (firstn 1 (ts_log s'))
}.
Lemma set_next_eff : forall s id w, TI s -> (id < len s)%nat -> t_canceled (tget s id) = false -> exists s', set_next s id w = Ok s' /\ TI s' /\ set_eff s s' id w.
Proof.
  intros s id w T K C. unfold set_next. rewrite C. destruct (t_list (tget s id)) eqn:EL.
  - destruct (remove_eff s id T K) as [T1 R1]. remember (remove_timer s id) as s1 eqn:E1; clear E1.
    assert (N1 : ~ In id (ts_set s1)) by (rewrite (rm_set _ _ _ R1); tauto). assert (K1 : (id < len s1)%nat) by (rewrite (rm_len _ _ _ R1); exact K).
    pose proof (put_when_ok s1 id w N1) as E2. destruct (put_eff s1 id w _ T1 K1 E2) as (_ & T2 & P2). rewrite E2. cbn [rbind]. remember (logged (tset _ _ _) _) as s2 eqn:ES2; clear ES2 E2.
    assert (K2 : (id < len s2)%nat) by (rewrite (pw_len _ _ _ _ P2); exact K1). pose proof (add_ti s2 id T2 K2) as T3. pose proof (add_eff s2 id T2 K2) as A3. remember (add_timer s2 id) as s3 eqn:E3; clear E3.
    assert (K3 : (id < len s3)%nat) by (rewrite (ad_len _ _ _ A3); exact K2). eexists. split; [reflexivity|]. split.
    + apply ti_tset; [exact T3|reflexivity|auto|]. intros X. exact (ti_list s3 T3 id X).
    + assert (W2 : t_when (tget s2 id) = w) by (rewrite (pw_id _ _ _ _ P2); reflexivity).
      constructor; cbn [ts_set ts_log ts_running tset].
      * rewrite len_tset, (ad_len _ _ _ A3), (pw_len _ _ _ _ P2), (rm_len _ _ _ R1). reflexivity.
      * rewrite (ad_run _ _ _ A3), (pw_run _ _ _ _ P2), (rm_run _ _ _ R1). reflexivity.
      * rewrite tget_same by exact K3. rewrite (ad_id _ _ _ A3), (pw_id _ _ _ _ P2), (rm_id _ _ _ R1). unfold with_resched, with_list, with_when. cbn. rewrite EL. reflexivity.
      * intros x N. rewrite tget_other by exact N. rewrite (ad_other _ _ _ A3), (pw_other _ _ _ _ P2), (rm_other _ _ _ R1) by exact N. reflexivity.
      * intros x N. rewrite (ad_set _ _ _ A3), (pw_set _ _ _ _ P2), (rm_set _ _ _ R1). tauto.
      * rewrite (ad_set _ _ _ A3). rewrite EL. tauto.
      * assert (I3 : In id (ts_set s3)) by (apply (ad_set _ _ _ A3); left; reflexivity). destruct (ad_log _ _ _ A3) as [L|L]; rewrite L, (pw_log _ _ _ _ P2), (rm_log _ _ _ R1); [left|right; left]; split; auto.
      * intros R _ A. apply (ad_wake _ _ _ A3); [rewrite (pw_run _ _ _ _ P2), (rm_run _ _ _ R1); exact R|]. intros x X. rewrite (pw_set _ _ _ _ P2) in X. apply (rm_set _ _ _ R1) in X. destruct X as [X N].
        rewrite W2, (pw_other _ _ _ _ P2), (rm_other _ _ _ R1) by exact N. apply A; assumption.
  - assert (N : ~ In id (ts_set s)) by (intros X; destruct (ti_list s T id X); congruence).
    pose proof (put_when_ok s id w N) as E2. destruct (put_eff s id w _ T K E2) as (_ & T2 & P2). rewrite E2. cbn [rbind]. remember (logged (tset _ _ _) _) as s2 eqn:ES2; clear ES2 E2.
    assert (K2 : (id < len s2)%nat) by (rewrite (pw_len _ _ _ _ P2); exact K). eexists. split; [reflexivity|]. split.
    + apply ti_tset; [exact T2|reflexivity|auto|]. intros X. exact (ti_list s2 T2 id X).
    + constructor; cbn [ts_set ts_log ts_running tset].
      * rewrite len_tset, (pw_len _ _ _ _ P2). reflexivity.
      * rewrite (pw_run _ _ _ _ P2). reflexivity.
      * rewrite tget_same by exact K2. rewrite (pw_id _ _ _ _ P2). reflexivity.
      * intros x Nx. rewrite tget_other by exact Nx. rewrite (pw_other _ _ _ _ P2) by exact Nx. reflexivity.
      * intros x Nx. rewrite (pw_set _ _ _ _ P2). reflexivity.
      * rewrite (pw_set _ _ _ _ P2), EL. split; [contradiction|discriminate].
      * right. right. rewrite (pw_set _ _ _ _ P2), (pw_log _ _ _ _ P2). auto.
      * intros _ X. rewrite (pw_set _ _ _ _ P2) in X. contradiction.
Qed.

(** ** One call *)
Record new_eff (s s' : tstate) (w i : Z) (c : bool) (a : Z) : Prop := {
  ne_len : len s' = S (len s);
  ne_run : ts_running s' = ts_running s;
  ne_id : tget s' (len s) = Timer w (clip i) true false false c a;
  ne_other : forall x, x <> len s -> tget s' x = tget s x;
  ne_set : forall x, In x (ts_set s') <-> x = len s \/ In x (ts_set s);
  ne_log : ts_log s' = EvAdd (len s) :: EvTime (len s) w :: ts_log s \/ ts_log s' = EvWake :: EvAdd (len s) :: EvTime (len s) w :: ts_log s;
  ne_wake : ts_running s = false -> (forall x, In x (ts_set s) -> w < t_when (tget s x)) -> In EvWake (firstn 1 (ts_log s'))
}.
Inductive teff (s : tstate) : top -> tstate -> Prop :=
| te_same : forall o, teff s o s
| te_new : forall w i c a s', new_eff s s' w i c a -> teff s (TSchedule w i c a) s'
| te_set : forall id w s', (id < len s)%nat -> t_canceled (tget s id) = false -> set_eff s s' id w -> teff s (TSet id w) s'
| te_recur : forall id i, (id < len s)%nat -> teff s (TRecur id i) (tset s id (with_recur (tget s id) (clip i)))
| te_cancel : forall id s', (id < len s)%nat -> canceled_eff s s' id -> teff s (TCancel id) s'
| te_add : forall id s', (id < len s)%nat -> added s s' id -> teff s (TAdd id) s'
| te_rem : forall id s', (id < len s)%nat -> removed s s' id -> teff s (TRemove id) s'
| te_clear : teff s TClear (with_set s []).
Lemma known_iff : forall s id, known s id = true -> (id < len s)%nat.
Proof. intros s id H. apply Nat.ltb_lt, H. Qed.
Lemma ti_append : forall s w i c a, TI s -> (forall x, (x < len s)%nat -> t_addr (tget s x) <> a) -> ~ In (EvCancel (len s)) (ts_log s) ->
  TI (TState (ts_timers s ++ [Timer w i false false false c a]) (ts_set s) (ts_running s) (EvTime (len s) w :: ts_log s)).
Proof.
  intros s w i c a T A NC. set (s1 := TState _ _ _ _).
  assert (L : len s1 = S (len s)) by (unfold s1, len; cbn; rewrite app_length; cbn; lia).
  assert (O : forall x, (x < len s)%nat -> tget s1 x = tget s x) by (intros x X; unfold tget, s1; cbn; apply app_nth1, X).
  assert (N : tget s1 (len s) = Timer w i false false false c a) by (unfold tget, s1, len; cbn; rewrite app_nth2 by lia; rewrite Nat.sub_diag; reflexivity).
  constructor.
  - intros x y X Y E. rewrite L in X, Y. destruct (Nat.eq_dec x (len s)) as [->|Nx]; destruct (Nat.eq_dec y (len s)) as [->|Ny]; [reflexivity| | |].
    + rewrite N, O in E by lia. cbn in E. destruct (A y ltac:(lia) (eq_sym E)).
    + rewrite N, O in E by lia. cbn in E. destruct (A x ltac:(lia) E).
    + rewrite !O in E by lia. apply (ti_addr s T); [lia|lia|exact E].
  - intros x X. rewrite L. pose proof (ti_known s T x X). lia.
  - apply (sorted_ext s); [|exact (ti_sorted s T)]. intros x X. rewrite O by exact (ti_known s T x X). reflexivity.
  - intros x X. rewrite O by exact (ti_known s T x X). exact (ti_list s T x X).
  - intros x X. rewrite L in X. cbn [ts_log s1 last_time]. destruct (Nat.eqb_spec (len s) x) as [<-|Nx]; [rewrite N; reflexivity|]. rewrite O by lia. apply (ti_time s T). lia.
  - intros x [X|X]; [discriminate|]. destruct (ti_cancel s T x X) as [X1 X2]. rewrite L, O by exact X1. split; [lia|exact X2].
  - apply punctual_other; [exact (ti_log s T)|discriminate].
Qed.
Lemma tstep_eff : forall s o, TI s -> exists s', tstep s o = Ok s' /\ TI s' /\ teff s o s'.
Proof.
  intros s o T. destruct o as [w i c a|id w|id i|id|id|id|]; cbn [tstep].
  - destruct (existsb _ _) eqn:E; [exists s; split; [reflexivity|]; split; [exact T|constructor]|].
    assert (A : forall x, (x < len s)%nat -> t_addr (tget s x) <> a).
    { intros x X H. assert (Y : existsb (fun t => t_addr t =? a) (ts_timers s) = true); [|congruence]. apply existsb_exists. exists (tget s x). split; [apply nth_In, X|apply Z.eqb_eq, H]. }
    assert (NC : ~ In (EvCancel (len s)) (ts_log s)) by (intros X; destruct (ti_cancel s T _ X); lia).
    pose proof (ti_append s w (clip i) c a T A NC) as T1. fold (len s). set (s1 := TState _ _ _ _) in *.
    assert (L : len s1 = S (len s)) by (unfold s1, len; cbn; rewrite app_length; cbn; lia).
    assert (O : forall x, x <> len s -> tget s1 x = tget s x).
    { intros x X. unfold tget, s1; cbn. destruct (Nat.lt_ge_cases x (len s)) as [H|H]; [apply app_nth1, H|]. rewrite !nth_overflow; [reflexivity|exact H|rewrite app_length; cbn; unfold len in *; lia]. }
    assert (N : tget s1 (len s) = Timer w (clip i) false false false c a) by (unfold tget, s1, len; cbn; rewrite app_nth2 by lia; rewrite Nat.sub_diag; reflexivity).
    assert (K : (len s < len s1)%nat) by lia. exists (add_timer s1 (len s)). split; [reflexivity|]. split; [apply add_ti; assumption|]. apply te_new.
    pose proof (add_eff s1 (len s) T1 K) as AE. constructor.
    + rewrite (ad_len _ _ _ AE), L. reflexivity.
    + rewrite (ad_run _ _ _ AE). reflexivity.
    + rewrite (ad_id _ _ _ AE), N. reflexivity.
    + intros x X. rewrite (ad_other _ _ _ AE) by exact X. apply O, X.
    + exact (ad_set _ _ _ AE).
    + exact (ad_log _ _ _ AE).
    + intros R H. apply (ad_wake _ _ _ AE); [exact R|]. intros x X. rewrite N. cbn [t_when]. rewrite O; [apply H, X|]. intros ->. pose proof (ti_known s T _ X). lia.
  - destruct (known s id) eqn:EK; [|exists s; split; [reflexivity|]; split; [exact T|constructor]]. apply known_iff in EK. destruct (t_canceled (tget s id)) eqn:EC.
    + exists s. split; [unfold set_next; rewrite EC; reflexivity|]. split; [exact T|constructor].
    + destruct (set_next_eff s id w T EK EC) as (s' & E & T' & F). exists s'. split; [exact E|]. split; [exact T'|]. apply te_set; assumption.
  - destruct (known s id) eqn:EK; [|exists s; split; [reflexivity|]; split; [exact T|constructor]]. apply known_iff in EK. eexists. split; [reflexivity|]. split; [|apply te_recur, EK].
    apply ti_tset; [exact T|reflexivity|auto|]. intros X. exact (ti_list s T id X).
  - destruct (known s id) eqn:EK; [|exists s; split; [reflexivity|]; split; [exact T|constructor]]. apply known_iff in EK. destruct (cancel_eff s id T EK) as [T' F]. eexists. split; [reflexivity|]. split; [exact T'|apply te_cancel; assumption].
  - destruct (known s id) eqn:EK; [|exists s; split; [reflexivity|]; split; [exact T|constructor]]. apply known_iff in EK. eexists. split; [reflexivity|]. split; [apply add_ti; assumption|apply te_add; [assumption|apply add_eff; assumption]].
  - destruct (known s id) eqn:EK; [|exists s; split; [reflexivity|]; split; [exact T|constructor]]. apply known_iff in EK. destruct (remove_eff s id T EK) as [T' F]. eexists. split; [reflexivity|]. split; [exact T'|apply te_rem; assumption].
  - eexists. split; [reflexivity|]. split; [|constructor]. apply ti_sub; [exact T|constructor|intros x []].
Qed.
(** what one call may change *)
Record moved (s s' : tstate) (new : list tevent) : Prop := {
  mv_log : ts_log s' = new ++ ts_log s;
  mv_norun : forall id due now, ~ In (EvRun id due now) new;
  mv_len : (len s <= len s')%nat;
  mv_running : ts_running s' = ts_running s;
  mv_set : forall x, In x (ts_set s') -> (In x (ts_set s) /\ t_when (tget s' x) = t_when (tget s x)) \/ In (EvAdd x) new;
  mv_cancel : forall x, (x < len s)%nat -> t_canceled (tget s x) = true -> t_canceled (tget s' x) = true;
  mv_catch : forall x, (x < len s)%nat -> t_catchup (tget s' x) = t_catchup (tget s x);
  mv_resched : forall x, (x < len s)%nat -> t_resched (tget s x) = true -> t_resched (tget s' x) = true
}.
Ltac inlist := cbn; repeat match goal with |- _ \/ _ => first [left; reflexivity|right] end; try reflexivity.
Lemma teff_moved : forall s o s', TI s -> teff s o s' -> exists new, moved s s' new.
Proof.
  intros s o s' T H.
  assert (NR : forall l, (forall e, In e l -> match e with EvRun _ _ _ => False | _ => True end) -> forall id due now, ~ In (EvRun id due now) l) by (intros l P id due now X; exact (P _ X)).
  destruct H as [o|w i c a s' F|id w s' K C F|id i K|id s' K F|id s' K F|id s' K F|].
  - exists []. constructor; auto.
  - destruct F as [F1 F2 F3 F4 F5 F6 F7].
    assert (exists new, ts_log s' = new ++ ts_log s /\ (forall e, In e new -> match e with EvRun _ _ _ => False | _ => True end) /\ In (EvAdd (len s)) new) as (new & N1 & N2 & N3).
    { destruct F6 as [F6|F6]; [exists [EvAdd (len s); EvTime (len s) w]|exists [EvWake; EvAdd (len s); EvTime (len s) w]]; (split; [exact F6|]; split; [|cbn; tauto]); cbn; intros e E; repeat destruct E as [<-|E]; try exact I; destruct E. }
    exists new. constructor; auto; try lia; try (intros x X; rewrite F4 by lia; auto).
    intros x X. apply F5 in X. destruct X as [->|X]; [right; exact N3|]. left. split; [exact X|]. rewrite F4; [reflexivity|]. pose proof (ti_known s T x X). lia.
  - destruct F as [F1 F2 F3 F4 F5 F6 F7 F8].
    assert (exists new, ts_log s' = new ++ ts_log s /\ (forall e, In e new -> match e with EvRun _ _ _ => False | _ => True end) /\ (In id (ts_set s') -> In (EvAdd id) new)) as (new & N1 & N2 & N3).
    { destruct F7 as [[F9 F7]|[[F9 F7]|[F9 F7]]]; [exists [EvAdd id; EvTime id w]|exists [EvWake; EvAdd id; EvTime id w]|exists [EvTime id w]]; (split; [exact F7|]; split; [|cbn; tauto]); cbn; intros e E; repeat destruct E as [<-|E]; try exact I; destruct E. }
    exists new. constructor; auto; try lia.
    + intros x X. destruct (Nat.eq_dec x id) as [->|N]; [right; apply N3, X|]. left. rewrite F4 by exact N. split; [apply F5; assumption|reflexivity].
    + intros x X H. destruct (Nat.eq_dec x id) as [->|N]; [rewrite F3; exact H|rewrite F4 by exact N; exact H].
    + intros x X. destruct (Nat.eq_dec x id) as [->|N]; [rewrite F3; reflexivity|rewrite F4 by exact N; reflexivity].
    + intros x X H. destruct (Nat.eq_dec x id) as [->|N]; [rewrite F3; reflexivity|rewrite F4 by exact N; exact H].
  - exists []. assert (E : forall x, tget (tset s id (with_recur (tget s id) (clip i))) x = (if Nat.eqb x id then with_recur (tget s id) (clip i) else tget s x)).
    { intros x. destruct (Nat.eqb_spec x id) as [->|N]; [apply tget_same, K|apply tget_other, N]. }
    constructor; auto; try (rewrite len_tset; lia); intros x X; rewrite E; destruct (Nat.eqb_spec x id) as [->|N]; auto.
  - destruct F as [F1 F2 F3 F4 F5 F6 F7]. exists [EvCancel id]. constructor; auto; try lia.
    + apply NR. intros e [<-|[]]. exact I.
    + intros x X. left. split; [apply F6, X|]. destruct (Nat.eq_dec x id) as [->|N]; [rewrite F3; reflexivity|rewrite F4 by exact N; reflexivity].
    + intros x X H. destruct (Nat.eq_dec x id) as [->|N]; [rewrite F3; reflexivity|rewrite F4 by exact N; exact H].
    + intros x X. destruct (Nat.eq_dec x id) as [->|N]; [rewrite F3; reflexivity|rewrite F4 by exact N; reflexivity].
    + intros x X H. destruct (Nat.eq_dec x id) as [->|N]; [rewrite F3; exact H|rewrite F4 by exact N; exact H].
  - destruct F as [F1 F2 F3 F4 F5 F6 F7].
    assert (exists new, ts_log s' = new ++ ts_log s /\ (forall e, In e new -> match e with EvRun _ _ _ => False | _ => True end) /\ In (EvAdd id) new) as (new & N1 & N2 & N3).
    { destruct F6 as [F6|F6]; [exists [EvAdd id]|exists [EvWake; EvAdd id]]; (split; [exact F6|]; split; [|cbn; tauto]); cbn; intros e E; repeat destruct E as [<-|E]; try exact I; destruct E. }
    exists new. constructor; auto; try lia.
    + intros x X. destruct (Nat.eq_dec x id) as [->|N]; [right; exact N3|]. left. rewrite F4 by exact N. apply F5 in X. destruct X as [X|X]; [contradiction|]. auto.
    + intros x X H. destruct (Nat.eq_dec x id) as [->|N]; [rewrite F3; exact H|rewrite F4 by exact N; exact H].
    + intros x X. destruct (Nat.eq_dec x id) as [->|N]; [rewrite F3; reflexivity|rewrite F4 by exact N; reflexivity].
    + intros x X H. destruct (Nat.eq_dec x id) as [->|N]; [rewrite F3; exact H|rewrite F4 by exact N; exact H].
  - destruct F as [F1 F2 F3 F4 F5 F6]. exists []. constructor; auto; try lia.
    + intros x X. apply F5 in X. destruct X as [X N]. left. rewrite F4 by exact N. auto.
    + intros x X H. destruct (Nat.eq_dec x id) as [->|N]; [rewrite F3; exact H|rewrite F4 by exact N; exact H].
    + intros x X. destruct (Nat.eq_dec x id) as [->|N]; [rewrite F3; reflexivity|rewrite F4 by exact N; reflexivity].
    + intros x X H. destruct (Nat.eq_dec x id) as [->|N]; [rewrite F3; exact H|rewrite F4 by exact N; exact H].
  - exists []. constructor; auto.
Qed.
Lemma moved_trans : forall s1 s2 s3 n1 n2, moved s1 s2 n1 -> moved s2 s3 n2 -> moved s1 s3 (n2 ++ n1).
Proof.
  intros s1 s2 s3 n1 n2 A B. pose proof (mv_len _ _ _ A) as LA. constructor.
  - rewrite (mv_log _ _ _ B), (mv_log _ _ _ A), app_assoc. reflexivity.
  - intros id due now X. apply in_app_or in X. destruct X as [X|X]; [exact (mv_norun _ _ _ B _ _ _ X)|exact (mv_norun _ _ _ A _ _ _ X)].
  - pose proof (mv_len _ _ _ B). lia.
  - rewrite (mv_running _ _ _ B). apply (mv_running _ _ _ A).
  - intros x X. destruct (mv_set _ _ _ B x X) as [[X1 X2]|X1]; [|right; apply in_or_app; left; exact X1].
    destruct (mv_set _ _ _ A x X1) as [[X3 X4]|X3]; [left; split; [exact X3|congruence]|right; apply in_or_app; right; exact X3].
  - intros x X C. apply (mv_cancel _ _ _ B); [lia|]. apply (mv_cancel _ _ _ A); assumption.
  - intros x X. rewrite (mv_catch _ _ _ B) by lia. apply (mv_catch _ _ _ A); lia.
  - intros x X C. apply (mv_resched _ _ _ B); [lia|]. apply (mv_resched _ _ _ A); assumption.
Qed.
Lemma moved_refl : forall s, moved s s [].
Proof. intros s. constructor; auto. Qed.
(** any number of calls *)
Lemma tsteps_moved : forall l s, TI s -> exists s' new, tsteps s l = Ok s' /\ TI s' /\ moved s s' new.
Proof.
  induction l as [|o l IH]; intros s T; cbn [tsteps]; [exists s, []; split; [reflexivity|]; split; [exact T|apply moved_refl]|].
  destruct (tstep_eff s o T) as (s1 & E1 & T1 & F1). rewrite E1. cbn [rbind]. destruct (teff_moved s o s1 T F1) as (n1 & M1). destruct (IH s1 T1) as (s2 & n2 & E2 & T2 & M2).
  exists s2, (n2 ++ n1). split; [exact E2|]. split; [exact T2|]. eapply moved_trans; eassumption.
Qed.
(** invariants of single calls carry over *)
Lemma tsteps_inv : forall (P : tstate -> Prop) (Q : top -> Prop), (forall s o s', TI s -> teff s o s' -> Q o -> P s -> P s') ->
  forall l s s', TI s -> tsteps s l = Ok s' -> (forall o, In o l -> Q o) -> P s -> P s'.
Proof.
  intros P Q H l. induction l as [|o l IH]; intros s s' T E QL PS; cbn [tsteps] in E; [injection E as <-; exact PS|].
  destruct (tstep_eff s o T) as (s1 & E1 & T1 & F1). rewrite E1 in E. cbn [rbind] in E. apply (IH s1 s' T1 E); [intros o' O; apply QL; right; exact O|].
  apply (H s o s1 T F1); [apply QL; left; reflexivity|exact PS].
Qed.
(** a timer out of the list gets back in only with a new time or by hand *)
Lemma absent_step : forall id s o s', TI s -> teff s o s' -> o <> TAdd id ->
  (id < len s)%nat /\ (In id (ts_set s) -> t_resched (tget s id) = true) -> (id < len s')%nat /\ (In id (ts_set s') -> t_resched (tget s' id) = true).
Proof.
  intros id s o s' T F N [K A]. destruct (teff_moved s o s' T F) as (new & M). split; [pose proof (mv_len _ _ _ M); lia|]. intros X.
  destruct F as [o|w i c a s' F|i w s' K' C F|i j K'|i s' K' F|i s' K' F|i s' K' F|].
  - exact (A X).
  - apply (ne_set _ _ _ _ _ _ F) in X. destruct X as [->|X]; [lia|]. rewrite (ne_other _ _ _ _ _ _ F) by lia. exact (A X).
  - destruct (Nat.eq_dec id i) as [->|E]; [rewrite (sn_id _ _ _ _ F); reflexivity|]. rewrite (sn_other _ _ _ _ F) by exact E. apply A. apply (sn_set _ _ _ _ F); assumption.
  - apply (mv_resched _ _ _ M); [exact K|]. apply A, X.
  - apply (mv_resched _ _ _ M); [exact K|]. apply A. apply (ca_sub _ _ _ F), X.
  - apply (mv_resched _ _ _ M); [exact K|]. apply A. apply (ad_set _ _ _ F) in X. destruct X as [->|X]; [congruence|exact X].
  - apply (mv_resched _ _ _ M); [exact K|]. apply A. apply (rm_set _ _ _ F), X.
  - destruct X.
Qed.

(** ** Firing one timer *)
Lemma moved_put : forall s s' id w, ~ In id (ts_set s) -> (id < len s)%nat -> timed s s' id w -> moved s s' [EvTime id w].
Proof.
  intros s s' id w N K F. destruct F as [F1 F2 F3 F4 F5 F6]. constructor; auto; try lia.
  - intros i d n [X|[]]. discriminate.
  - intros x X. rewrite F5 in X. left. split; [exact X|]. rewrite F4; [reflexivity|]. intros ->. contradiction.
  - intros x X H. destruct (Nat.eq_dec x id) as [->|E]; [rewrite F3; exact H|rewrite F4 by exact E; exact H].
  - intros x X. destruct (Nat.eq_dec x id) as [->|E]; [rewrite F3; reflexivity|rewrite F4 by exact E; reflexivity].
  - intros x X H. destruct (Nat.eq_dec x id) as [->|E]; [rewrite F3; exact H|rewrite F4 by exact E; exact H].
Qed.
Lemma moved_unlist : forall s id, (id < len s)%nat -> moved s (tset s id (with_list (tget s id) false)) [].
Proof.
  intros s id K. assert (E : forall x, tget (tset s id (with_list (tget s id) false)) x = (if Nat.eqb x id then with_list (tget s id) false else tget s x)).
  { intros x. destruct (Nat.eqb_spec x id) as [->|N]; [apply tget_same, K|apply tget_other, N]. }
  constructor; auto; try (rewrite len_tset; lia); intros x X; rewrite E; destruct (Nat.eqb_spec x id) as [->|N]; auto.
Qed.
(** a timer not in the set may have its list pointer cleared *)
Lemma ti_unlist : forall s id, TI s -> ~ In id (ts_set s) \/ t_canceled (tget s id) = true -> TI (tset s id (with_list (tget s id) false)).
Proof. intros s id T H. apply ti_tset; [exact T|reflexivity|auto|]. intros X. destruct H as [H|H]; [contradiction|right; exact H]. Qed.

Definition started (s : tstate) (id : nat) (now : Z) : tstate := logged (tset s id (with_resched (tget s id) false)) (EvRun id (t_when (tget s id)) now).
Lemma started_ti : forall s id now, TI s -> (id < len s)%nat -> t_when (tget s id) <= now -> t_canceled (tget s id) = false -> TI (started s id now).
Proof.
  intros s id now T K W C. unfold started. set (s0 := tset s id (with_resched (tget s id) false)).
  assert (E : tget s0 id = with_resched (tget s id) false) by (unfold s0; apply tget_same, K).
  assert (T0 : TI s0) by (apply ti_tset; [exact T|reflexivity|auto|intros X; exact (ti_list s T id X)]).
  replace (t_when (tget s id)) with (t_when (tget s0 id)) by (rewrite E; reflexivity). apply ti_run; [exact T0|unfold s0; rewrite len_tset; exact K|rewrite E; exact W|rewrite E; exact C].
Qed.
Lemma started_get : forall s id now, (id < len s)%nat -> tget (started s id now) id = with_resched (tget s id) false.
Proof. intros. unfold started. rewrite tget_logged. apply tget_same. assumption. Qed.
Lemma started_other : forall s id now x, x <> id -> tget (started s id now) x = tget s x.
Proof. intros. unfold started. rewrite tget_logged. apply tget_other. assumption. Qed.
(** the ways the firing of a timer ends *)
Inductive ending (now : Z) (id : nat) (s2 : tstate) : tstate -> Prop :=
| en_resched : t_resched (tget s2 id) = true -> ending now id s2 s2
| en_recur : forall s3, t_resched (tget s2 id) = false -> recurs (tget s2 id) = true -> ~ In id (ts_set s2) -> timed s2 s3 id (next_when now (tget s2 id)) -> t_list (tget s2 id) = false -> ending now id s2 s3
| en_again : forall s3 s4, t_resched (tget s2 id) = false -> recurs (tget s2 id) = true -> ~ In id (ts_set s2) -> timed s2 s3 id (next_when now (tget s2 id)) -> t_list (tget s2 id) = true -> added s3 s4 id -> ending now id s2 s4
| en_over : forall s4, t_resched (tget s2 id) = false -> recurs (tget s2 id) = false -> canceled_eff (tset s2 id (with_list (tget s2 id) false)) s4 id -> ending now id s2 s4.
Lemma fire_eff : forall act now s id, TI s -> (id < len s)%nat -> ~ In id (ts_set s) -> t_when (tget s id) <= now -> polite act ->
  exists s', basic_fire act now s id = Ok s' /\ TI s' /\
    ((t_canceled (tget s id) = true /\ s' = s) \/
     (t_canceled (tget s id) = false /\ exists s2 n2 new, TI s2 /\ tsteps (started s id now) (act id (started s id now)) = Ok s2 /\ moved (started s id now) s2 n2 /\ ending now id s2 s' /\ moved (started s id now) s' new)).
Proof.
  intros act now s id T K N W P. unfold basic_fire. destruct (t_canceled (tget s id)) eqn:EC; [exists s; split; [reflexivity|]; split; [exact T|left; auto]|].
  fold (started s id now). pose proof (started_ti s id now T K W EC) as T1. set (s1 := started s id now) in *. destruct (tsteps_moved (act id s1) s1 T1) as (s2 & n2 & E2 & T2 & M2). rewrite E2. cbn [rbind].
  assert (L1 : len s1 = len s) by (unfold s1, started, len; cbn; apply set_nth_length).
  assert (K2 : (id < len s2)%nat) by (pose proof (mv_len _ _ _ M2); lia).
  assert (AB : (id < len s2)%nat /\ (In id (ts_set s2) -> t_resched (tget s2 id) = true)).
  { apply (tsteps_inv (fun q => (id < len q)%nat /\ (In id (ts_set q) -> t_resched (tget q id) = true)) (fun o => o <> TAdd id)) with (l := act id s1) (s := s1); [intros q o q' Tq Fq Nq; apply absent_step with (o := o); assumption|exact T1|exact E2| |].
    - intros o O ->. exact (P id s1 O).
    - split; [lia|]. intros X. contradiction. }
  destruct AB as [_ AB]. destruct (t_resched (tget s2 id)) eqn:ER.
  - rewrite orb_true_r. exists s2. split; [reflexivity|]. split; [exact T2|]. right. split; [reflexivity|]. exists s2, n2, n2. split; [exact T2|]. split; [reflexivity|]. split; [exact M2|]. split; [apply en_resched, ER|exact M2].
  - rewrite orb_false_r. assert (N2 : ~ In id (ts_set s2)) by (intros X; specialize (AB X); discriminate). destruct (recurs (tget s2 id)) eqn:EQ.
    + pose proof (put_when_ok s2 id (next_when now (tget s2 id)) N2) as E3. destruct (put_eff _ _ _ _ T2 K2 E3) as (_ & T3 & P3). rewrite E3. cbn [rbind]. remember (logged (tset s2 _ _) _) as s3 eqn:ES3. clear ES3.
      pose proof (moved_put s2 s3 id _ N2 K2 P3) as M3. assert (K3 : (id < len s3)%nat) by (rewrite (pw_len _ _ _ _ P3); exact K2).
      assert (L3 : t_list (tget s3 id) = t_list (tget s2 id)) by (rewrite (pw_id _ _ _ _ P3); reflexivity). rewrite L3. destruct (t_list (tget s2 id)) eqn:EL.
      * pose proof (add_ti s3 id T3 K3) as T4. pose proof (add_eff s3 id T3 K3) as A4. exists (add_timer s3 id). split; [reflexivity|]. split; [exact T4|]. right. split; [reflexivity|].
        destruct (teff_moved s3 (TAdd id) (add_timer s3 id) T3 (te_add _ _ _ K3 A4)) as (n4 & M4). exists s2, n2. eexists. split; [exact T2|]. split; [reflexivity|]. split; [exact M2|]. split; [eapply en_again; eassumption|].
        eapply moved_trans; [|exact M4]. eapply moved_trans; [exact M2|exact M3].
      * exists s3. split; [reflexivity|]. split; [exact T3|]. right. split; [reflexivity|]. exists s2, n2. eexists. split; [exact T2|]. split; [reflexivity|]. split; [exact M2|]. split; [eapply en_recur; eassumption|]. eapply moved_trans; [exact M2|exact M3].
    + set (s3 := tset s2 id (with_list (tget s2 id) false)). assert (T3 : TI s3) by (apply ti_unlist; [exact T2|left; exact N2]). assert (K3 : (id < len s3)%nat) by (unfold s3; rewrite len_tset; exact K2).
      destruct (cancel_eff s3 id T3 K3) as [T4 C4]. exists (cancel s3 id). split; [reflexivity|]. split; [exact T4|]. right. split; [reflexivity|].
      destruct (teff_moved s3 (TCancel id) (cancel s3 id) T3 (te_cancel _ _ _ K3 C4)) as (n4 & M4). exists s2, n2. eexists. split; [exact T2|]. split; [reflexivity|]. split; [exact M2|]. split; [eapply en_over; eassumption|].
      eapply moved_trans; [|exact M4]. eapply moved_trans; [exact M2|apply moved_unlist, K2].
Qed.

(** ** A pass *)
Lemma ti_pop : forall s id r, TI s -> ts_set s = id :: r -> TI (with_set s r) /\ (id < len s)%nat /\ ~ In id r /\ (forall x, In x r -> t_when (tget s id) <= t_when (tget s x)).
Proof.
  intros s id r T E. pose proof (ti_sorted s T) as S. rewrite E in S. split; [|split; [|split]].
  - apply ti_sub; [exact T|inversion S; assumption|]. intros x X. rewrite E. right. exact X.
  - apply (ti_known s T). rewrite E. left. reflexivity.
  - exact (sorted_notin s id r S).
  - intros x X. inversion S as [|? ? ? F]; subst. rewrite Forall_forall in F. specialize (F x X). apply tless_spec in F. lia.
Qed.
(** induction over the turns of the loop *)
Lemma fire_loop_ind : forall act now (P : tstate -> Prop), polite act ->
  (forall s id r s', TI s -> P s -> ts_set s = id :: r -> t_when (tget s id) <= now -> basic_fire act now (with_set s r) id = Ok s' -> TI s' -> P s') ->
  forall fuel s, TI s -> P s -> (fire_loop act now fuel s = Rej \/ exists s', fire_loop act now fuel s = Ok s' /\ TI s' /\ P s' /\ forall x, In x (ts_set s') -> now < t_when (tget s' x)).
Proof.
  intros act now P PO H. induction fuel as [|k IH]; intros s T PS; cbn [fire_loop]; [left; reflexivity|].
  destruct (ts_set s) as [|id r] eqn:E; [right; exists s; split; [reflexivity|]; split; [exact T|]; split; [exact PS|]; rewrite E; intros x []|].
  destruct (ti_pop s id r T E) as (T1 & K & N & M). destruct (Z.leb_spec (t_when (tget s id)) now) as [W|W].
  - destruct (fire_eff act now (with_set s r) id T1 K N W PO) as (s' & Ef & T' & _). rewrite Ef. cbn [rbind]. apply IH; [exact T'|]. exact (H s id r s' T PS E W Ef T').
  - right. exists s. split; [reflexivity|]. split; [exact T|]. split; [exact PS|]. rewrite E. intros x [<-|X]; [exact W|]. specialize (M x X). lia.
Qed.
Definition ordered (old : list tevent) (s : tstate) : Prop := exists p, ts_log s = p ++ old /\ in_order p /\
  forall l2 a da na l1, p = l2 ++ EvRun a da na :: l1 -> forall x, In x (ts_set s) -> t_when (tget s x) < da -> In (EvAdd x) l2.
Lemma cut_new : forall new e l2 (a : tevent) l1 p, ~ In a new -> new ++ e :: p = l2 ++ a :: l1 -> (l2 = new /\ a = e /\ l1 = p) \/ (exists l2', l2 = new ++ e :: l2' /\ p = l2' ++ a :: l1).
Proof.
  induction new as [|n new IH]; intros e l2 a l1 p N E; cbn [app] in E.
  - destruct l2 as [|x l2]; cbn [app] in E; injection E as -> E; [left; auto|right; exists l2; auto].
  - destruct l2 as [|x l2]; cbn [app] in E; injection E as -> E; [destruct N; left; reflexivity|]. destruct (IH e l2 a l1 p) as [(-> & H)|(l2' & -> & H)]; [intros X; apply N; right; exact X|exact E|left; auto|right; exists l2'; auto].
Qed.
Lemma ordered_turn : forall act now old s id r s', polite act -> TI s -> ordered old s -> ts_set s = id :: r -> t_when (tget s id) <= now -> basic_fire act now (with_set s r) id = Ok s' -> ordered old s'.
Proof.
  intros act now old s id r s' PO T (p & EL & IO & SO) ES W EB. destruct (ti_pop s id r T ES) as (T1 & K & N & M).
  destruct (fire_eff act now (with_set s r) id T1 K N W PO) as (s0 & Ef & T' & D). rewrite Ef in EB. apply (f_equal (fun x => match x with Ok y => y | _ => s0 end)) in EB. subst s0.
  destruct D as [[C ->]|(C & s2 & n2 & new & _ & _ & _ & _ & MV)].
  - exists p. split; [exact EL|]. split; [exact IO|]. intros l2 a da na l1 E x X. cbn in X. apply (SO l2 a da na l1 E). rewrite ES. right. exact X.
  - set (d := t_when (tget s id)) in *. exists (new ++ EvRun id d now :: p). split; [rewrite (mv_log _ _ _ MV); cbn; rewrite EL, <- app_assoc; reflexivity|].
    assert (STEP : forall x, In x (ts_set s') -> (In x r /\ t_when (tget s' x) = t_when (tget s x)) \/ In (EvAdd x) new).
    { intros x X. destruct (mv_set _ _ _ MV x X) as [[X1 X2]|X1]; [left|right; exact X1]. cbn in X1. split; [exact X1|]. rewrite X2. rewrite started_other; [reflexivity|]. intros ->. contradiction. }
    split.
    + intros l3 b db nb l2 a da na l1 E L. destruct (cut_new _ _ _ _ _ _ (mv_norun _ _ _ MV _ _ _) E) as [(-> & Eb & El)|(l3' & -> & El)].
      * injection Eb as -> -> ->. apply (SO l2 a da na l1 (eq_sym El)); [rewrite ES; left; reflexivity|exact L].
      * exact (IO _ _ _ _ _ _ _ _ _ El L).
    + intros l2 a da na l1 E x X L. destruct (cut_new _ _ _ _ _ _ (mv_norun _ _ _ MV _ _ _) E) as [(-> & Eb & El)|(l2' & -> & El)].
      * injection Eb as -> -> ->. destruct (STEP x X) as [[X1 X2]|X1]; [specialize (M x X1); lia|exact X1].
      * destruct (STEP x X) as [[X1 X2]|X1]; [|apply in_or_app; left; exact X1]. apply in_or_app. right. right. apply (SO _ _ _ _ _ El); [rewrite ES; right; exact X1|lia].
Qed.
Lemma pass_all : forall act now fuel s, TI s -> polite act ->
  fire_due act now fuel s = Rej \/ exists s' p, fire_due act now fuel s = Ok s' /\ TI s' /\ ts_log s' = p ++ ts_log s /\ in_order p /\ (forall x, In x (ts_set s') -> now < t_when (tget s' x)).
Proof.
  intros act now fuel s T PO. unfold fire_due. destruct (fire_loop_ind act now (ordered (ts_log s)) PO) with (fuel := fuel) (s := with_running s true) as [E|(s' & E & T' & (p & L & O & _) & D)].
  - intros q id r q' Tq Oq Eq Wq Bq _. eapply ordered_turn; eassumption.
  - apply ti_running, T.
  - exists []. split; [reflexivity|]. split; [intros l3 b db nb l2 a da na l1 X; destruct l3; discriminate|intros l2 a da na l1 X; destruct l2; discriminate].
  - left. rewrite E. reflexivity.
  - right. exists (with_running s' false), p. rewrite E. split; [reflexivity|]. split; [apply ti_running, T'|]. split; [exact L|]. split; [exact O|exact D].
Qed.
Lemma hstep_ti : forall s h s', TI s -> polite_hop h -> hstep s h = Ok s' -> TI s'.
Proof.
  intros s h s' T P E. destruct h as [o|act now fuel]; cbn [hstep] in E.
  - destruct (tstep_eff s o T) as (s1 & E1 & T1 & _). rewrite E in E1. injection E1 as ->. exact T1.
  - destruct (pass_all act now fuel s T P) as [E1|(s1 & p & E1 & T1 & _)]; rewrite E in E1; [discriminate|injection E1 as ->; exact T1].
Qed.
Lemma hrun_ti : forall l s s', TI s -> Forall polite_hop l -> hrun s l = Ok s' -> TI s'.
Proof.
  induction l as [|h l IH]; intros s s' T P E; cbn [hrun] in E; [injection E as <-; exact T|]. inversion P; subst. destruct (hstep s h) as [s1| |] eqn:E1; try discriminate. cbn [rbind] in E.
  apply (IH s1); [eapply hstep_ti; eassumption|assumption|exact E].
Qed.
Lemma hrun_safe : forall l s, TI s -> Forall polite_hop l -> hrun s l <> UB.
Proof.
  induction l as [|h l IH]; intros s T P; cbn [hrun]; [discriminate|]. inversion P; subst. destruct (hstep s h) as [s1| |] eqn:E1; cbn [rbind]; [apply IH; [eapply hstep_ti; eassumption|assumption]|discriminate|].
  destruct h as [o|act now fuel]; cbn [hstep] in E1.
  - destruct (tstep_eff s o T) as (s1 & E2 & _). congruence.
  - destruct (pass_all act now fuel s T H1) as [E2|(s1 & p & E2 & _)]; congruence.
Qed.

(** ** Every timer that belongs to the list is in it *)
Definition filed (e : option nat) (s : tstate) : Prop :=
  forall x, (x < len s)%nat -> t_canceled (tget s x) = false -> t_list (tget s x) = true -> In x (ts_set s) \/ (e = Some x /\ t_resched (tget s x) = false).
Lemma filed_step : forall e s o s', TI s -> teff s o s' -> o <> TClear -> filed e s -> filed e s'.
Proof.
  intros e s o s' T F N A x K NX L. destruct F as [o|w i c a s' F|i w s' K' C F|i j K'|i s' K' F|i s' K' F|i s' K' F|].
  - exact (A x K NX L).
  - destruct (Nat.eq_dec x (len s)) as [->|E]; [left; apply (ne_set _ _ _ _ _ _ F); left; reflexivity|]. rewrite (ne_len _ _ _ _ _ _ F) in K. rewrite (ne_other _ _ _ _ _ _ F) in * by exact E.
    destruct (A x ltac:(lia) NX L) as [X|X]; [left; apply (ne_set _ _ _ _ _ _ F); right; exact X|right; exact X].
  - rewrite (sn_len _ _ _ _ F) in K. destruct (Nat.eq_dec x i) as [->|E].
    + rewrite (sn_id _ _ _ _ F) in L. left. apply (sn_in _ _ _ _ F). exact L.
    + rewrite (sn_other _ _ _ _ F) in * by exact E. destruct (A x K NX L) as [X|X]; [left; apply (sn_set _ _ _ _ F); assumption|right; exact X].
  - rewrite len_tset in K. destruct (Nat.eq_dec x i) as [->|E]; [rewrite tget_same in * by exact K; exact (A i K NX L)|rewrite tget_other in * by exact E; exact (A x K NX L)].
  - rewrite (ca_len _ _ _ F) in K. destruct (Nat.eq_dec x i) as [->|E]; [rewrite (ca_id _ _ _ F) in L; discriminate|]. rewrite (ca_other _ _ _ F) in * by exact E.
    destruct (A x K NX L) as [X|X]; [left; apply (ca_set _ _ _ F); assumption|right; exact X].
  - rewrite (ad_len _ _ _ F) in K. destruct (Nat.eq_dec x i) as [->|E]; [left; apply (ad_set _ _ _ F); left; reflexivity|]. rewrite (ad_other _ _ _ F) in * by exact E.
    destruct (A x K NX L) as [X|X]; [left; apply (ad_set _ _ _ F); right; exact X|right; exact X].
  - rewrite (rm_len _ _ _ F) in K. destruct (Nat.eq_dec x i) as [->|E]; [rewrite (rm_id _ _ _ F) in L; discriminate|]. rewrite (rm_other _ _ _ F) in * by exact E.
    destruct (A x K NX L) as [X|X]; [left; apply (rm_set _ _ _ F); split; assumption|right; exact X].
  - congruence.
Qed.
Lemma fire_invert : forall act now s id r s', polite act -> TI s -> ts_set s = id :: r -> t_when (tget s id) <= now -> basic_fire act now (with_set s r) id = Ok s' ->
  TI (with_set s r) /\ (id < len s)%nat /\ ~ In id r /\
    ((t_canceled (tget s id) = true /\ s' = with_set s r) \/
     (t_canceled (tget s id) = false /\ exists s2 n2 new, let s1 := started (with_set s r) id now in TI s1 /\ TI s2 /\ tsteps s1 (act id s1) = Ok s2 /\ moved s1 s2 n2 /\ ending now id s2 s' /\ moved s1 s' new)).
Proof.
  intros act now s id r s' PO T ES W EB. destruct (ti_pop s id r T ES) as (T1 & K & N & M). split; [exact T1|]. split; [exact K|]. split; [exact N|].
  destruct (fire_eff act now (with_set s r) id T1 K N W PO) as (s0 & Ef & T' & D). rewrite Ef in EB. apply (f_equal (fun x => match x with Ok y => y | _ => s0 end)) in EB. subst s0.
  destruct D as [D|(C & s2 & n2 & new & D)]; [left; exact D|right]. split; [exact C|]. exists s2, n2, new. split; [apply started_ti; assumption|exact D].
Qed.
Lemma filed_turn : forall act now s id r s', polite act -> (forall i q, ~ In TClear (act i q)) -> TI s -> filed None s ->
  ts_set s = id :: r -> t_when (tget s id) <= now -> basic_fire act now (with_set s r) id = Ok s' -> filed None s'.
Proof.
  intros act now s id r s' PO NC T A ES W EB. destruct (fire_invert act now s id r s' PO T ES W EB) as (T1 & K & N & [[C ->]|(C & s2 & n2 & new & T1' & T2 & E2 & M2 & EN & _)]).
  { intros x X NX L. left. destruct (A x X NX L) as [Y|[Y _]]; [|discriminate]. rewrite ES in Y. destruct Y as [->|Y]; [rewrite tget_set in NX; congruence|exact Y]. }
  set (s1 := started (with_set s r) id now) in *. assert (L1 : len s1 = len s) by (unfold s1, started, len; cbn; apply set_nth_length).
  assert (A2 : filed (Some id) s2).
  { apply (tsteps_inv (filed (Some id)) (fun o => o <> TClear)) with (l := act id s1) (s := s1); [intros q o q' Tq Fq Nq; apply filed_step with (o := o); assumption|exact T1'|exact E2|intros o O ->; exact (NC id s1 O)|].
    intros x X NX L. rewrite L1 in X. destruct (Nat.eq_dec x id) as [->|E]; [right; split; [reflexivity|]; unfold s1; rewrite started_get by exact K; reflexivity|].
    unfold s1 in L, NX. rewrite started_other in L, NX by exact E. destruct (A x X NX L) as [Y|[Y _]]; [|discriminate]. left. rewrite ES in Y. destruct Y as [->|Y]; [congruence|exact Y]. }
  assert (OUT : forall x, (x < len s2)%nat -> x <> id -> t_canceled (tget s2 x) = false -> t_list (tget s2 x) = true -> In x (ts_set s2)).
  { intros x X E NX L. destruct (A2 x X NX L) as [Y|[Y _]]; [exact Y|congruence]. }
  intros x X NX L. left. destruct EN as [R|s3 R Q NI P LL|s3 s4 R Q NI P LL AD|s4 R Q CE].
  - destruct (A2 x X NX L) as [Y|[Y1 Y2]]; [exact Y|]. injection Y1 as ->. congruence.
  - rewrite (pw_len _ _ _ _ P) in X. rewrite (pw_set _ _ _ _ P). destruct (Nat.eq_dec x id) as [->|E]; [rewrite (pw_id _ _ _ _ P) in L; cbn in L; congruence|]. rewrite (pw_other _ _ _ _ P) in L, NX by exact E. apply OUT; assumption.
  - rewrite (ad_len _ _ _ AD), (pw_len _ _ _ _ P) in X. apply (ad_set _ _ _ AD). destruct (Nat.eq_dec x id) as [->|E]; [left; reflexivity|right]. rewrite (ad_other _ _ _ AD), (pw_other _ _ _ _ P) in L, NX by exact E. rewrite (pw_set _ _ _ _ P). apply OUT; assumption.
  - destruct (Nat.eq_dec x id) as [->|E]; [rewrite (ca_id _ _ _ CE) in L; discriminate|]. rewrite (ca_len _ _ _ CE), len_tset in X. rewrite (ca_other _ _ _ CE), tget_other in L, NX by exact E. apply (ca_set _ _ _ CE); [exact E|]. cbn. apply OUT; assumption.
Qed.
Lemma filed_run : forall l s s', TI s -> Forall polite_hop l -> Forall uncleared l -> hrun s l = Ok s' -> filed None s -> filed None s'.
Proof.
  induction l as [|h l IH]; intros s s' T P U E A; cbn [hrun] in E; [injection E as <-; exact A|]. inversion P; subst. inversion U; subst. destruct (hstep s h) as [s1| |] eqn:E1; try discriminate. cbn [rbind] in E.
  apply (IH s1 s'); [eapply hstep_ti; eassumption|assumption|assumption|exact E|]. destruct h as [o|act now fuel]; cbn [hstep] in E1.
  - destruct (tstep_eff s o T) as (q & E2 & _ & F). rewrite E1 in E2. injection E2 as <-. eapply filed_step; eassumption.
  - unfold fire_due in E1. destruct (fire_loop_ind act now (filed None) H1) with (fuel := fuel) (s := with_running s true) as [E2|(q & E2 & _ & D & _)].
    + intros q id r q' Tq Aq Eq Wq Bq _. eapply filed_turn; eassumption.
    + apply ti_running, T.
    + exact A.
    + rewrite E2 in E1. discriminate.
    + rewrite E2 in E1. cbn [rbind] in E1. injection E1 as <-. exact D.
Qed.
Lemma filed_pass : forall act now fuel s s', TI s -> polite act -> (forall i q, ~ In TClear (act i q)) -> filed None s -> fire_due act now fuel s = Ok s' ->
  forall x, (x < len s')%nat -> t_canceled (tget s' x) = false -> t_list (tget s' x) = true -> now < t_when (tget s' x).
Proof.
  intros act now fuel s s' T P NC A E x K C L. assert (A' : filed None s').
  { apply (filed_run [HFire act now fuel] s s' T); [repeat constructor; exact P|repeat constructor; exact NC|cbn [hrun hstep]; rewrite E; reflexivity|exact A]. }
  destruct (pass_all act now fuel s T P) as [E1|(s1 & p & E1 & _ & _ & _ & D)]; rewrite E in E1; [discriminate|]. injection E1 as <-. destruct (A' x K C L) as [X|[X _]]; [exact (D x X)|discriminate].
Qed.

(** ** The phase of a recurring timer *)
Lemma next_when_spec : forall now t, 0 < t_recur t -> t_when t <= now ->
  t_when t < next_when now t /\ (next_when now t - t_when t) mod t_recur t = 0 /\
  (if t_catchup t then now <= next_when now t < now + t_recur t \/ next_when now t = now + t_recur t else next_when now t = t_when t + t_recur t).
Proof.
  intros now t R W. unfold next_when. destruct (Z.gtb_spec now (t_when t)) as [G|G]; cbn [andb].
  - destruct (t_catchup t).
    + set (d := now - t_when t) in *. assert (D : 0 < d) by (unfold d; lia). set (q := - (- d / t_recur t)).
      assert (Q : d <= q * t_recur t < d + t_recur t). { unfold q. pose proof (Z.div_mod (- d) (t_recur t) ltac:(lia)). pose proof (Z.mod_pos_bound (- d) (t_recur t) R). nia. }
      split; [lia|]. split; [replace (t_when t + q * t_recur t - t_when t) with (q * t_recur t) by lia; apply Z.mod_mul; lia|]. left. unfold d in Q. lia.
    + split; [lia|]. split; [|reflexivity]. replace (t_when t + t_recur t - t_when t) with (1 * t_recur t) by lia. apply Z.mod_mul. lia.
  - assert (t_when t = now) by lia. split; [lia|]. split; [replace (t_when t + t_recur t - t_when t) with (1 * t_recur t) by lia; apply Z.mod_mul; lia|]. destruct (t_catchup t); [right; lia|reflexivity].
Qed.
Definition phased (id : nat) (w i : Z) (s : tstate) : Prop := (id < len s)%nat /\ t_recur (tget s id) = i /\ (t_when (tget s id) - w) mod i = 0 /\ w <= t_when (tget s id).
Lemma phased_step : forall id w i s o s', TI s -> teff s o s' -> spares id o -> phased id w i s -> phased id w i s'.
Proof.
  intros id w i s o s' T F S (K & R & M & G). destruct F as [o|w' i' c a s' F|j w' s' K' C F|j i' K'|j s' K' F|j s' K' F|j s' K' F|]; unfold phased.
  - auto.
  - rewrite (ne_len _ _ _ _ _ _ F), (ne_other _ _ _ _ _ _ F) by lia. split; [lia|auto].
  - cbn in S. rewrite (sn_len _ _ _ _ F), (sn_other _ _ _ _ F) by congruence. auto.
  - cbn in S. rewrite len_tset, tget_other by congruence. auto.
  - rewrite (ca_len _ _ _ F). destruct (Nat.eq_dec id j) as [->|E]; [rewrite (ca_id _ _ _ F); auto|rewrite (ca_other _ _ _ F) by exact E; auto].
  - rewrite (ad_len _ _ _ F). destruct (Nat.eq_dec id j) as [->|E]; [rewrite (ad_id _ _ _ F); auto|rewrite (ad_other _ _ _ F) by exact E; auto].
  - rewrite (rm_len _ _ _ F). destruct (Nat.eq_dec id j) as [->|E]; [rewrite (rm_id _ _ _ F); auto|rewrite (rm_other _ _ _ F) by exact E; auto].
  - auto.
Qed.
Lemma phased_put : forall id w i now s s' j, 0 < i -> phased id w i s -> recurs (tget s j) = true -> t_when (tget s j) <= now -> timed s s' j (next_when now (tget s j)) -> phased id w i s'.
Proof.
  intros id w i now s s' j I (K & R & M & G) Q W P. unfold phased. rewrite (pw_len _ _ _ _ P). split; [exact K|]. destruct (Nat.eq_dec id j) as [->|E]; [|rewrite (pw_other _ _ _ _ P) by exact E; auto].
  rewrite (pw_id _ _ _ _ P). cbn [t_recur t_when with_when]. unfold recurs in Q. apply andb_true_iff in Q. destruct Q as [Q _]. apply Z.gtb_lt in Q.
  destruct (next_when_spec now (tget s j) Q W) as (S1 & S2 & _). rewrite R in S2. split; [exact R|]. split; [|lia].
  replace (next_when now (tget s j) - w) with ((next_when now (tget s j) - t_when (tget s j)) + (t_when (tget s j) - w)) by lia. rewrite Z.add_mod, S2, M by lia. reflexivity.
Qed.
(** during the calls of an action, its timer's time only changes together with the rescheduled flag *)
Definition held (id : nat) (w : Z) (s : tstate) : Prop := (id < len s)%nat /\ (t_resched (tget s id) = true \/ t_when (tget s id) = w).
Lemma held_step : forall id w s o s', TI s -> teff s o s' -> True -> held id w s -> held id w s'.
Proof.
  intros id w s o s' T F _ (K & R). destruct F as [o|w' i' c a s' F|j w' s' K' C F|j i' K'|j s' K' F|j s' K' F|j s' K' F|]; unfold held.
  - auto.
  - rewrite (ne_len _ _ _ _ _ _ F), (ne_other _ _ _ _ _ _ F) by lia. split; [lia|auto].
  - rewrite (sn_len _ _ _ _ F). destruct (Nat.eq_dec id j) as [->|E]; [rewrite (sn_id _ _ _ _ F); auto|rewrite (sn_other _ _ _ _ F) by exact E; auto].
  - rewrite len_tset. destruct (Nat.eq_dec id j) as [->|E]; [rewrite tget_same by exact K; auto|rewrite tget_other by congruence; auto].
  - rewrite (ca_len _ _ _ F). destruct (Nat.eq_dec id j) as [->|E]; [rewrite (ca_id _ _ _ F); auto|rewrite (ca_other _ _ _ F) by exact E; auto].
  - rewrite (ad_len _ _ _ F). destruct (Nat.eq_dec id j) as [->|E]; [rewrite (ad_id _ _ _ F); auto|rewrite (ad_other _ _ _ F) by exact E; auto].
  - rewrite (rm_len _ _ _ F). destruct (Nat.eq_dec id j) as [->|E]; [rewrite (rm_id _ _ _ F); auto|rewrite (rm_other _ _ _ F) by exact E; auto].
  - auto.
Qed.
Lemma held_fire : forall act now s id r s2, TI (started (with_set s r) id now) -> (id < len s)%nat -> tsteps (started (with_set s r) id now) (act id (started (with_set s r) id now)) = Ok s2 -> held id (t_when (tget s id)) s2.
Proof.
  intros act now s id r s2 T K E. apply (tsteps_inv (held id (t_when (tget s id))) (fun _ => True)) with (l := act id (started (with_set s r) id now)) (s := started (with_set s r) id now).
  - intros q o q' Tq Fq. apply (held_step id _ q o q' Tq Fq).
  - exact T.
  - exact E.
  - auto.
  - split; [unfold started, len; cbn; rewrite set_nth_length; exact K|]. right. rewrite started_get by exact K. reflexivity.
Qed.
Lemma phased_turn : forall act now id0 w i s id r s', 0 < i -> polite act -> (forall j q o, In o (act j q) -> spares id0 o) -> TI s -> phased id0 w i s ->
  ts_set s = id :: r -> t_when (tget s id) <= now -> basic_fire act now (with_set s r) id = Ok s' -> phased id0 w i s'.
Proof.
  intros act now id0 w i s id r s' I PO SP T A ES W EB. destruct (fire_invert act now s id r s' PO T ES W EB) as (T1 & K & N & [[C ->]|(C & s2 & n2 & new & T1' & T2 & E2 & M2 & EN & _)]); [exact A|].
  pose proof (held_fire act now s id r s2 T1' K E2) as (K2 & HD). set (s1 := started (with_set s r) id now) in *. assert (L1 : len s1 = len s) by (unfold s1, started, len; cbn; apply set_nth_length).
  assert (A2 : phased id0 w i s2).
  { apply (tsteps_inv (phased id0 w i) (spares id0)) with (l := act id s1) (s := s1); [intros q o q' Tq Fq Nq; apply phased_step with (o := o); assumption|exact T1'|exact E2|intros o O; exact (SP id s1 o O)|].
    destruct A as (A1 & A2 & A3 & A4). unfold phased. rewrite L1. split; [exact A1|]. destruct (Nat.eq_dec id0 id) as [->|E]; [unfold s1; rewrite started_get by exact K; auto|unfold s1; rewrite started_other by exact E; auto]. }
  assert (WW : t_resched (tget s2 id) = false -> t_when (tget s2 id) <= now) by (intros R; destruct HD as [HD|HD]; [congruence|rewrite HD; exact W]).
  destruct EN as [R|s3 R Q NI P LL|s3 s4 R Q NI P LL AD|s4 R Q CE].
  - exact A2.
  - eapply phased_put; [exact I|exact A2|exact Q|exact (WW R)|exact P].
  - pose proof (phased_put id0 w i now s2 s3 id I A2 Q (WW R) P) as (B1 & B2 & B3 & B4). unfold phased. rewrite (ad_len _ _ _ AD).
    destruct (Nat.eq_dec id0 id) as [->|E]; [rewrite (ad_id _ _ _ AD); auto|rewrite (ad_other _ _ _ AD) by exact E; auto].
  - destruct A2 as (B1 & B2 & B3 & B4). unfold phased. rewrite (ca_len _ _ _ CE), len_tset.
    destruct (Nat.eq_dec id0 id) as [->|E]; [rewrite (ca_id _ _ _ CE), tget_same by exact B1; auto|rewrite (ca_other _ _ _ CE), tget_other by exact E; auto].
Qed.
Lemma phased_run : forall id w i l s s', 0 < i -> TI s -> Forall polite_hop l -> Forall (spares_hop id) l -> hrun s l = Ok s' -> phased id w i s -> phased id w i s'.
Proof.
  intros id w i. induction l as [|h l IH]; intros s s' I T P U E A; cbn [hrun] in E; [injection E as <-; exact A|]. inversion P; subst. inversion U; subst. destruct (hstep s h) as [s1| |] eqn:E1; try discriminate. cbn [rbind] in E.
  apply (IH s1 s'); [exact I|eapply hstep_ti; eassumption|assumption|assumption|exact E|]. destruct h as [o|act now fuel]; cbn [hstep] in E1.
  - destruct (tstep_eff s o T) as (q & E2 & _ & F). rewrite E1 in E2. injection E2 as <-. eapply phased_step; eassumption.
  - unfold fire_due in E1. destruct (fire_loop_ind act now (phased id w i) H1) with (fuel := fuel) (s := with_running s true) as [E2|(q & E2 & _ & D & _)].
    + intros q j r q' Tq Aq Eq Wq Bq _. eapply phased_turn; eassumption.
    + apply ti_running, T.
    + exact A.
    + rewrite E2 in E1. discriminate.
    + rewrite E2 in E1. cbn [rbind] in E1. injection E1 as <-. exact D.
Qed.

(** ** One firing of a recurring timer whose action leaves it alone *)
Lemma ignore_step : forall id t s o s', TI s -> teff s o s' -> ignores id o -> (id < len s)%nat /\ tget s id = t -> (id < len s')%nat /\ tget s' id = t.
Proof.
  intros id t s o s' T F S (K & R). destruct F as [o|w' i' c a s' F|j w' s' K' C F|j i' K'|j s' K' F|j s' K' F|j s' K' F|]; cbn in S.
  - auto.
  - rewrite (ne_len _ _ _ _ _ _ F), (ne_other _ _ _ _ _ _ F) by lia. split; [lia|auto].
  - rewrite (sn_len _ _ _ _ F), (sn_other _ _ _ _ F) by congruence. auto.
  - rewrite len_tset, tget_other by congruence. auto.
  - rewrite (ca_len _ _ _ F), (ca_other _ _ _ F) by congruence. auto.
  - rewrite (ad_len _ _ _ F), (ad_other _ _ _ F) by congruence. auto.
  - rewrite (rm_len _ _ _ F), (rm_other _ _ _ F) by congruence. auto.
  - contradiction.
Qed.
Lemma fire_recur : forall act now s id r, TI s -> polite act -> (forall q o, In o (act id q) -> ignores id o) -> ts_set s = id :: r -> t_when (tget s id) <= now -> recurs (tget s id) = true ->
  exists s', basic_fire act now (with_set s r) id = Ok s' /\ t_when (tget s' id) = next_when now (tget s id) /\ (t_list (tget s id) = true -> In id (ts_set s')).
Proof.
  intros act now s id r T PO IG ES W RC. destruct (ti_pop s id r T ES) as (T1 & K & N & M).
  destruct (fire_eff act now (with_set s r) id T1 K N W PO) as (s' & Ef & T' & D). exists s'. split; [exact Ef|].
  pose proof RC as RC0. unfold recurs in RC. apply andb_true_iff in RC. destruct RC as [R1 R2].
  destruct D as [[C _]|(C & s2 & n2 & new & T2 & E2 & M2 & EN & _)]; [rewrite tget_set in C; rewrite C in R2; discriminate|].
  assert (T1' : TI (started (with_set s r) id now)) by (apply started_ti; assumption).
  set (s1 := started (with_set s r) id now) in *.
  assert (G : (id < len s2)%nat /\ tget s2 id = with_resched (tget s id) false).
  { apply (tsteps_inv (fun q => (id < len q)%nat /\ tget q id = with_resched (tget s id) false) (ignores id)) with (l := act id s1) (s := s1).
    - intros q o q' Tq Fq Nq. apply ignore_step with (o := o); assumption.
    - exact T1'.
    - exact E2.
    - intros o O. exact (IG s1 o O).
    - split; [unfold s1, started, len; cbn; rewrite set_nth_length; exact K|]. unfold s1. rewrite started_get by exact K. reflexivity. }
  destruct G as [K2 G]. destruct EN as [R|s3 R Q NI P LL|s3 s4 R Q NI P LL AD|s4 R Q CE].
  - rewrite G in R. discriminate.
  - rewrite (pw_id _ _ _ _ P), G in *. split; [reflexivity|]. cbn in LL. intros X. congruence.
  - rewrite (ad_id _ _ _ AD), (pw_id _ _ _ _ P), G. split; [reflexivity|]. intros _. apply (ad_set _ _ _ AD). left. reflexivity.
  - rewrite G in Q. unfold recurs in *. cbn in Q. rewrite R1, R2 in Q. discriminate.
Qed.

(** ** A pass ends *)
Definition late (now w : Z) : Z := Z.max 0 (now - w + 1).
Definition sumf (f : nat -> Z) (l : list nat) : Z := fold_right (fun x n => f x + n) 0 l.
Lemma sumf_nonneg : forall f l, (forall x, 0 <= f x) -> 0 <= sumf f l.
Proof. intros f l H. induction l as [|x l IH]; cbn; [lia|]. specialize (H x). unfold sumf in IH. lia. Qed.
Lemma sumf_split : forall f l x, In x l -> exists l1 l2, l = l1 ++ x :: l2 /\ sumf f l = f x + sumf f (l1 ++ l2).
Proof.
  intros f l x H. destruct (in_split x l H) as (l1 & l2 & ->). exists l1, l2. split; [reflexivity|]. clear H. induction l1 as [|y l1 IH]; [reflexivity|]. cbn [app sumf fold_right]. unfold sumf in IH. rewrite IH. lia.
Qed.
Lemma sumf_le : forall f g l' l, NoDup l' -> (forall x, 0 <= g x) -> (forall x, In x l' -> 0 < f x -> In x l /\ f x <= g x) -> (forall x, 0 <= f x) -> sumf f l' <= sumf g l.
Proof.
  intros f g. induction l' as [|x l' IH]; intros l N G H F; [apply sumf_nonneg, G|]. inversion N; subst. cbn [sumf fold_right]. destruct (Z.eq_dec (f x) 0) as [Z0|NZ].
  - rewrite Z0. apply IH; [assumption|exact G| |exact F]. intros y Y. apply H. right. exact Y.
  - destruct (H x (or_introl eq_refl)) as [X1 X2]; [specialize (F x); lia|]. destruct (sumf_split g l x X1) as (l1 & l2 & -> & ->).
    assert (sumf f l' <= sumf g (l1 ++ l2)); [|unfold sumf in *; lia]. apply IH; [assumption|exact G| |exact F]. intros y Y P. destruct (H y (or_intror Y) P) as [Y1 Y2]. split; [|exact Y2].
    apply in_app_or in Y1. apply in_or_app. destruct Y1 as [Y1|[->|Y1]]; [left; exact Y1|contradiction|right; exact Y1].
Qed.
Lemma sorted_nodup : forall s l, sorted s l -> NoDup l.
Proof. intros s l S. induction S as [|a l S IH F]; constructor; [|exact IH]. intros X. rewrite Forall_forall in F. specialize (F a X). rewrite tless_irrefl in F. discriminate. Qed.
Definition backlog (now : Z) (s : tstate) : Z := sumf (fun x => late now (t_when (tget s x))) (ts_set s).
Definition later_op (now : Z) (o : top) : Prop := match o with TSchedule w _ _ _ => now < w | TSet _ w => now < w | TAdd _ => False | _ => True end.
Lemma later_step : forall now r w0 s o s', TI s -> teff s o s' -> later_op now o ->
  (forall x, In x (ts_set s) -> t_when (tget s x) <= now -> In x r /\ t_when (tget s x) = w0 x) -> (forall x, In x (ts_set s') -> t_when (tget s' x) <= now -> In x r /\ t_when (tget s' x) = w0 x).
Proof.
  intros now r w0 s o s' T F L A x X W. destruct F as [o|w' i' c a s' F|j w' s' K' C F|j i' K'|j s' K' F|j s' K' F|j s' K' F|]; cbn in L.
  - exact (A x X W).
  - apply (ne_set _ _ _ _ _ _ F) in X. destruct X as [->|X]; [rewrite (ne_id _ _ _ _ _ _ F) in W; cbn in W; lia|]. pose proof (ti_known s T x X). rewrite (ne_other _ _ _ _ _ _ F) in * by lia. exact (A x X W).
  - destruct (Nat.eq_dec x j) as [->|E]; [rewrite (sn_id _ _ _ _ F) in W; cbn in W; lia|]. rewrite (sn_other _ _ _ _ F) in * by exact E. apply (sn_set _ _ _ _ F) in X; [|exact E]. exact (A x X W).
  - cbn in X. destruct (Nat.eq_dec x j) as [->|E]; [rewrite tget_same in * by exact K'; exact (A j X W)|rewrite tget_other in * by exact E; exact (A x X W)].
  - apply (ca_sub _ _ _ F) in X. destruct (Nat.eq_dec x j) as [->|E]; [rewrite (ca_id _ _ _ F) in *; exact (A j X W)|rewrite (ca_other _ _ _ F) in * by exact E; exact (A x X W)].
  - contradiction.
  - apply (rm_set _ _ _ F) in X. destruct X as [X E]. rewrite (rm_other _ _ _ F) in * by exact E. exact (A x X W).
  - destruct X.
Qed.
Lemma backlog_turn : forall act now s id r s', later now act -> polite act -> TI s -> ts_set s = id :: r -> t_when (tget s id) <= now -> basic_fire act now (with_set s r) id = Ok s' -> TI s' -> backlog now s' < backlog now s.
Proof.
  intros act now s id r s' LA PO T ES W EB T'. destruct (fire_invert act now s id r s' PO T ES W EB) as (T1 & K & N & D).
  assert (LN : forall w, 0 <= late now w) by (intros w; unfold late; lia).
  assert (BS : backlog now s = late now (t_when (tget s id)) + sumf (fun x => late now (t_when (tget s x))) r) by (unfold backlog; rewrite ES; reflexivity).
  destruct D as [[C ->]|(C & s2 & n2 & new & T1' & T2 & E2 & M2 & EN & _)].
  - rewrite BS. unfold backlog. cbn [ts_set with_set]. unfold late at 2. change (sumf (fun x => late now (t_when (tget (with_set s r) x))) r) with (sumf (fun x => late now (t_when (tget s x))) r). lia.
  - pose proof (held_fire act now s id r s2 T1' K E2) as (K2 & HD). set (s1 := started (with_set s r) id now) in *.
    assert (A2 : forall x, In x (ts_set s2) -> t_when (tget s2 x) <= now -> In x r /\ t_when (tget s2 x) = t_when (tget s x)).
    { apply (tsteps_inv (fun q => forall x, In x (ts_set q) -> t_when (tget q x) <= now -> In x r /\ t_when (tget q x) = t_when (tget s x)) (later_op now)) with (l := act id s1) (s := s1).
      - intros q o q' Tq Fq Lq. apply later_step with (o := o); assumption.
      - exact T1'.
      - exact E2.
      - intros o O. exact (LA id s1 o O).
      - intros x X _. cbn in X. split; [exact X|]. unfold s1. rewrite started_other; [reflexivity|]. intros ->. contradiction. }
    set (g := fun x => if Nat.eqb x id then late now (t_when (tget s id)) - 1 else late now (t_when (tget s x))).
    assert (G : forall x, 0 <= g x) by (intros x; unfold g; destruct (Nat.eqb x id); [unfold late; lia|apply LN]).
    assert (SG : sumf g (id :: r) = late now (t_when (tget s id)) - 1 + sumf (fun x => late now (t_when (tget s x))) r).
    { cbn [sumf fold_right]. unfold g at 1. rewrite Nat.eqb_refl. f_equal. clear - N. induction r as [|y r IH]; [reflexivity|]. cbn [fold_right sumf]. unfold g at 1.
      destruct (Nat.eqb_spec y id) as [->|]; [destruct N; left; reflexivity|]. f_equal. apply IH. intros X. apply N. right. exact X. }
    assert (LE : backlog now s' <= sumf g (id :: r)).
    { unfold backlog. apply sumf_le; [exact (sorted_nodup s' _ (ti_sorted s' T'))|exact G| |intros x; apply LN]. intros x X P. assert (WX : t_when (tget s' x) <= now) by (unfold late in P; lia).
      assert (KEEP : x <> id -> In x (ts_set s2) -> t_when (tget s' x) = t_when (tget s2 x) -> In x (id :: r) /\ late now (t_when (tget s' x)) <= g x).
      { intros E X2 EW. rewrite EW in *. destruct (A2 x X2 WX) as [A3 A4]. split; [right; exact A3|]. unfold g. destruct (Nat.eqb_spec x id); [contradiction|]. rewrite A4. lia. }
      destruct EN as [R|s3 R Q NI Pw LL|s3 s4 R Q NI Pw LL AD|s4 R Q CE].
      - destruct (A2 x X WX) as [A3 A4]. apply KEEP; [|exact X|reflexivity]. intros ->. contradiction.
      - rewrite (pw_set _ _ _ _ Pw) in X. assert (E : x <> id) by (intros ->; contradiction). apply KEEP; [exact E|exact X|rewrite (pw_other _ _ _ _ Pw) by exact E; reflexivity].
      - destruct (Nat.eq_dec x id) as [->|E].
        + split; [left; reflexivity|]. unfold g. rewrite Nat.eqb_refl. rewrite (ad_id _ _ _ AD), (pw_id _ _ _ _ Pw) in *. cbn [t_when with_list with_when] in *.
          destruct HD as [HD|HD]; [congruence|]. assert (Q' : 0 < t_recur (tget s2 id)) by (unfold recurs in Q; apply andb_true_iff in Q; apply Z.gtb_lt, Q).
          destruct (next_when_spec now (tget s2 id) Q' ltac:(lia)) as (S1 & _). rewrite HD in S1. unfold late. lia.
        + apply (ad_set _ _ _ AD) in X. destruct X as [X|X]; [contradiction|]. rewrite (pw_set _ _ _ _ Pw) in X. apply KEEP; [exact E|exact X|]. rewrite (ad_other _ _ _ AD), (pw_other _ _ _ _ Pw) by exact E. reflexivity.
      - apply (ca_sub _ _ _ CE) in X. cbn in X. destruct (Nat.eq_dec x id) as [->|E].
        + rewrite (ca_id _ _ _ CE), tget_same in WX by exact K2. cbn in WX. destruct (A2 id X WX) as [A3 _]. contradiction.
        + apply KEEP; [exact E|exact X|]. rewrite (ca_other _ _ _ CE), tget_other by exact E. reflexivity. }
    lia.
Qed.
Lemma pass_ends : forall act now s, later now act -> polite act -> TI s -> fire_due act now (S (Z.to_nat (backlog now s))) s <> Rej.
Proof.
  intros act now s LA PO T. unfold fire_due. assert (TR : TI (with_running s true)) by (apply ti_running, T). change (backlog now s) with (backlog now (with_running s true)). revert TR. generalize (with_running s true). clear s T. intros s T.
  assert (H : forall fuel s, TI s -> (Z.to_nat (backlog now s) < fuel)%nat -> fire_loop act now fuel s <> Rej).
  { clear s T. induction fuel as [|k IH]; intros s T L; [lia|]. cbn [fire_loop]. destruct (ts_set s) as [|id r] eqn:E; [discriminate|]. destruct (ti_pop s id r T E) as (T1 & K & N & M). destruct (Z.leb_spec (t_when (tget s id)) now) as [W|W]; [|discriminate].
    destruct (fire_eff act now (with_set s r) id T1 K N W PO) as (s' & Ef & T' & _). rewrite Ef. cbn [rbind]. apply IH; [exact T'|]. pose proof (backlog_turn act now s id r s' LA PO T E W Ef T').
    assert (0 <= backlog now s') by (apply sumf_nonneg; intros x; unfold late; lia). lia. }
  specialize (H (S (Z.to_nat (backlog now s))) s T (le_n _)). destruct (fire_loop act now _ s) as [s'| |]; cbn [rbind]; congruence.
Qed.

(** ** Waking the sleeper *)
Lemma how_long_spec : forall s now maxi, TI s -> how_long s now maxi <= maxi /\ (forall x, In x (ts_set s) -> how_long s now maxi <= t_when (tget s x) - now) /\
  (how_long s now maxi = maxi \/ exists x, In x (ts_set s) /\ how_long s now maxi = t_when (tget s x) - now).
Proof.
  intros s now maxi T. unfold how_long. destruct (ts_set s) as [|id r] eqn:E; [split; [lia|]; split; [intros x []|left; reflexivity]|]. destruct (ti_pop s id r T E) as (_ & _ & _ & M).
  split; [lia|]. split; [intros x [<-|X]; [lia|specialize (M x X); lia]|]. destruct (Z.min_spec maxi (t_when (tget s id) - now)) as [[_ ->]|[_ ->]]; [left; reflexivity|right; exists id; split; [left; reflexivity|reflexivity]].
Qed.
Lemma wake_step : forall s o s', TI s -> ts_running s = false -> tstep s o = Ok s' -> forall x, In x (ts_set s') -> (forall y, In y (ts_set s) -> t_when (tget s' x) < t_when (tget s y)) -> exists new, ts_log s' = new ++ ts_log s /\ In EvWake new.
Proof.
  intros s o s' T R E x X A. destruct (tstep_eff s o T) as (q & E2 & _ & F). rewrite E in E2. injection E2 as <-.
  assert (SAME : In x (ts_set s) -> t_when (tget s' x) = t_when (tget s x) -> False) by (intros X1 X2; specialize (A x X1); lia).
  assert (W1 : forall l e0 log, ts_log s' = l -> In EvWake (firstn 1 l) -> l = e0 :: log -> e0 = EvWake) by (intros l e0 log _ H ->; cbn in H; destruct H as [H|[]]; exact H).
  destruct F as [o|w i c a s' F|j w s' K' C F|j i' K'|j s' K' F|j s' K' F|j s' K' F|].
  - destruct (SAME X eq_refl).
  - apply (ne_set _ _ _ _ _ _ F) in X. destruct X as [->|X]; [|destruct (SAME X); rewrite (ne_other _ _ _ _ _ _ F); [reflexivity|pose proof (ti_known s T x X); lia]].
    rewrite (ne_id _ _ _ _ _ _ F) in A. pose proof (ne_wake _ _ _ _ _ _ F R A) as HW. destruct (ne_log _ _ _ _ _ _ F) as [L|L]; rewrite L in *; [destruct HW as [HW|[]]; discriminate|].
    exists [EvWake; EvAdd (len s); EvTime (len s) w]. split; [reflexivity|left; reflexivity].
  - destruct (Nat.eq_dec x j) as [->|N].
    + rewrite (sn_id _ _ _ _ F) in A. pose proof (sn_wake _ _ _ _ F R X (fun y Y _ => A y Y)) as HW. destruct (sn_log _ _ _ _ F) as [[_ L]|[[_ L]|[L0 L]]]; rewrite L in *; [destruct HW as [HW|[]]; discriminate| |contradiction].
      exists [EvWake; EvAdd j; EvTime j w]. split; [reflexivity|left; reflexivity].
    + destruct SAME; [apply (sn_set _ _ _ _ F); assumption|rewrite (sn_other _ _ _ _ F) by exact N; reflexivity].
  - destruct SAME; [exact X|]. destruct (Nat.eq_dec x j) as [->|N]; [rewrite tget_same by exact K'; reflexivity|rewrite tget_other by exact N; reflexivity].
  - destruct SAME; [apply (ca_sub _ _ _ F), X|]. destruct (Nat.eq_dec x j) as [->|N]; [rewrite (ca_id _ _ _ F); reflexivity|rewrite (ca_other _ _ _ F) by exact N; reflexivity].
  - destruct (Nat.eq_dec x j) as [->|N].
    + rewrite (ad_id _ _ _ F) in A. pose proof (ad_wake _ _ _ F R A) as HW. destruct (ad_log _ _ _ F) as [L|L]; rewrite L in *; [destruct HW as [HW|[]]; discriminate|].
      exists [EvWake; EvAdd j]. split; [reflexivity|left; reflexivity].
    + apply (ad_set _ _ _ F) in X. destruct X as [X|X]; [contradiction|]. destruct SAME; [exact X|rewrite (ad_other _ _ _ F) by exact N; reflexivity].
  - apply (rm_set _ _ _ F) in X. destruct X as [X N]. destruct SAME; [exact X|rewrite (rm_other _ _ _ F) by exact N; reflexivity].
  - destruct X.
Qed.
Lemma hrun_running : forall l s s', TI s -> Forall polite_hop l -> hrun s l = Ok s' -> ts_running s = false -> ts_running s' = false.
Proof.
  induction l as [|h l IH]; intros s s' T P E R; cbn [hrun] in E; [injection E as <-; exact R|]. inversion P; subst. destruct (hstep s h) as [s1| |] eqn:E1; try discriminate. cbn [rbind] in E.
  apply (IH s1 s'); [eapply hstep_ti; eassumption|assumption|exact E|]. destruct h as [o|act now fuel]; cbn [hstep] in E1.
  - destruct (tstep_eff s o T) as (q & E2 & _ & F). rewrite E1 in E2. injection E2 as <-. destruct (teff_moved s o s1 T F) as (new & M). rewrite (mv_running _ _ _ M). exact R.
  - unfold fire_due in E1. destruct (fire_loop act now fuel (with_running s true)); try discriminate. cbn in E1. injection E1 as <-. reflexivity.
Qed.
