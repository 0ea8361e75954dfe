(** Lemmas for PropSleep.v. *)
From Verif Require Import Base Sleep SleepSpec.
From Coq Require Import Lia Sorted.

Ltac fields := cbn [say with_timers with_clock with_laters with_stop with_over cache_time s_clock s_cache s_timers s_next s_laters s_stop s_over s_log t_id t_due] in *.

(** ** Sleeping times *)
Lemma need_sleep : forall c s, sleep_time c s = need c s.
Proof.
  intros. unfold sleep_time, need, how_long. destruct (s_laters s); [destruct (s_timers s) as [|t q]|]; cbv zeta;
    (match goal with |- context [?a <? ?b] => destruct (a <? b) eqn:E; [apply Z.ltb_lt in E|apply Z.ltb_ge in E] end); lia.
Qed.
Lemma quot_bounds : forall a b, 0 <= a -> 0 < b -> 0 <= Z.quot a b /\ Z.quot a b * b <= a < Z.quot a b * b + b.
Proof. intros a b A B. rewrite Z.quot_div_nonneg by lia. pose proof (Z.div_mod a b ltac:(lia)). pose proof (Z.mod_pos_bound a b B). split; [apply Z.div_pos; lia|nia]. Qed.
Lemma timeval_bounds : forall c s, 0 < c_u c -> 0 <= need c s -> let n := need c s in
  0 <= fst (timeval c s) /\ 0 <= snd (timeval c s) < 1000000 /\
  (let t := fst (timeval c s) * sec c + snd (timeval c s) * usec c in n - 5000 * c_u c < t <= n + 5000 * c_u c).
Proof.
  intros c s U N n. unfold timeval. cbv zeta. rewrite need_sleep. fold n. cbn [fst snd]. unfold sec, usec in *.
  destruct (quot_bounds (n + 5000 * c_u c) (10000000000 * c_u c)) as [A B]; [lia|lia|]. set (q := Z.quot _ _) in *. clearbody q.
  destruct (quot_bounds (n + 5000 * c_u c - q * (10000000000 * c_u c)) (10000 * c_u c)) as [A' B']; [lia|lia|]. set (r := Z.quot _ _) in *. clearbody r.
  split; [auto|]. split; [split; [auto|nia]|lia].
Qed.
Lemma millis_bounds : forall c s, 0 < c_u c -> 0 <= need c s -> let n := need c s in
  0 <= millis c s /\ n - c_u c < millis c s * msec c <= n + msec c /\ (0 < n -> 1 <= millis c s) /\ (n = 0 -> millis c s = 0).
Proof.
  intros c s U N n. unfold millis. cbv zeta. rewrite need_sleep. fold n. unfold msec in *. destruct (0 <? n) eqn:P.
  - apply Z.ltb_lt in P. destruct (n + 9999999 * c_u c <? 10000000 * c_u c) eqn:Q.
    + apply Z.ltb_lt in Q. rewrite Z.quot_same by lia. repeat split; lia.
    + apply Z.ltb_ge in Q. destruct (quot_bounds (n + 9999999 * c_u c) (10000000 * c_u c)) as [A B]; [lia|lia|]. set (q := Z.quot _ _) in *. clearbody q. repeat split; lia.
  - apply Z.ltb_ge in P. fold n in N. assert (n = 0) by lia. clearbody n. subst n. rewrite Z.quot_0_l by lia. rewrite Z.mul_0_l. lia.
Qed.
Lemma timeout_bounds : forall c s, cfg_ok c -> 0 <= timeout c s <= need c s + slack c.
Proof.
  intros c s (U & M & _). assert (N : 0 <= need c s) by (unfold need; lia). unfold timeout, slack. destruct (c_kind c).
  - destruct (timeval_bounds c s U N) as (A & B & C). cbv zeta in C. split; [|lia]. unfold sec, usec in *. nia.
  - destruct (millis_bounds c s U N) as (A & B & _). unfold msec in *. split; [|lia]. nia.
Qed.

(** ** Order *)
Definition le_t (a b : timer) : Prop := t_due a <= t_due b.
Lemma insert_in : forall t l x, In x (insert t l) <-> x = t \/ In x l.
Proof. induction l as [|y l IH]; cbn; intro x; [intuition|]. destruct (_ <? _); cbn; [intuition|]. rewrite IH. intuition. Qed.
Lemma insert_sorted : forall t l, StronglySorted le_t l -> StronglySorted le_t (insert t l).
Proof.
  induction l as [|y l IH]; cbn; intro S; [repeat constructor|]. inversion S as [|? ? Sl Fl]; subst. destruct (t_due t <? t_due y) eqn:E.
  - apply Z.ltb_lt in E. constructor; auto. constructor; [unfold le_t; lia|]. rewrite Forall_forall in *. intros x X. specialize (Fl x X). unfold le_t in *. lia.
  - apply Z.ltb_ge in E. constructor; auto. rewrite Forall_forall in *. intros x X. apply insert_in in X. destruct X; subst; auto.
Qed.
Lemma insert_ids : forall t l, NoDup (map t_id l) -> ~ In (t_id t) (map t_id l) -> NoDup (map t_id (insert t l)).
Proof.
  induction l as [|y l IH]; cbn; intros N X; [constructor; auto; constructor|]. inversion N; subst. destruct (_ <? _); cbn; [constructor; auto|]. constructor; [|apply IH; auto].
  intro Y. apply in_map_iff in Y. destruct Y as (z & E & Z0). apply insert_in in Z0. destruct Z0; [subst; auto|]. apply H1. apply in_map_iff. eauto.
Qed.
Lemma filter_sorted : forall f l, StronglySorted le_t l -> StronglySorted le_t (filter f l).
Proof.
  induction l as [|y l IH]; cbn; intro S; [constructor|]. inversion S as [|? ? Sl Fl]; subst. destruct (f y); auto. constructor; auto. rewrite Forall_forall in *. intros x X. apply filter_In in X. apply Fl. tauto.
Qed.
Lemma filter_ids : forall f l, NoDup (map t_id l) -> NoDup (map t_id (filter f l)).
Proof.
  induction l as [|y l IH]; cbn; intro N; auto. inversion N; subst. destruct (f y); cbn; auto. constructor; auto. intro X. apply in_map_iff in X. destruct X as (z & E & Z0). apply filter_In in Z0. apply H1, in_map_iff. exists z. tauto.
Qed.

(** ** What is kept: [t1] when run was called, [B] how late at most *)
Definition past_ok (t1 B : Z) (l : list event) (e : event) : Prop :=
  match e with
  | Added id _ _ => forall due at_, ~ In (Added id due at_) l
  | Fired id at_ => exists due added, live l id due /\ In (Added id due added) l /\ due <= at_ <= Z.max t1 (Z.max due added) + B
  | Gone id => exists due, live l id due
  | Woke _ => True
  end.
Definition Hist (t1 B : Z) (l : list event) : Prop := forall l1 e l2, l = l1 ++ e :: l2 -> past_ok t1 B l1 e.
Lemma in_snoc : forall (l : list event) e x, In x (l ++ [e]) <-> In x l \/ x = e.
Proof. intros. rewrite in_app_iff. cbn. intuition. Qed.
Lemma Hist_snoc : forall t1 B l e, Hist t1 B l -> past_ok t1 B l e -> Hist t1 B (l ++ [e]).
Proof.
  intros t1 B l e H P l1 x l2 E. destruct l2 as [|y l2] using rev_ind.
  - apply app_inj_tail in E. destruct E. subst. auto.
  - clear IHl2. rewrite app_comm_cons, app_assoc in E. apply app_inj_tail in E. destruct E. subst. eapply H. reflexivity.
Qed.

Record INV (t1 B L : Z) (s : st) : Prop := {
  v_sort : StronglySorted le_t (s_timers s);
  v_ids : NoDup (map t_id (s_timers s));
  v_next : forall id due a, In (Added id due a) (s_log s) -> id < s_next s;
  v_one : 1 <= s_next s;
  v_was : forall id, (exists a, In (Fired id a) (s_log s)) \/ In (Gone id) (s_log s) -> exists due a, In (Added id due a) (s_log s);
  v_uniq : forall id d a d' a', In (Added id d a) (s_log s) -> In (Added id d' a') (s_log s) -> d = d' /\ a = a';
  v_in : forall id due, In (mkT id due) (s_timers s) <-> live (s_log s) id due;
  v_late : forall id due a, In (mkT id due) (s_timers s) -> In (Added id due a) (s_log s) -> s_cache s <= Z.max t1 (Z.max due a) + L;
  v_lb : 0 <= L <= B;
  v_clk : s_cache s <= s_clock s;
  v_hist : Hist t1 B (s_log s)
}.
(** what depends only on these *)
Lemma INV_same : forall t1 B L s s', s_timers s' = s_timers s -> s_next s' = s_next s -> s_log s' = s_log s -> s_cache s' = s_cache s -> s_clock s <= s_clock s' -> INV t1 B L s -> INV t1 B L s'.
Proof. intros t1 B L s s' T N Lg C K []. constructor; rewrite ?T, ?N, ?Lg, ?C; auto. lia. Qed.
Lemma live_other : forall l e id due, match e with Added i _ _ | Fired i _ | Gone i => i <> id | Woke _ => True end -> (live (l ++ [e]) id due <-> live l id due).
Proof.
  intros l e id due E. unfold live. split.
  - intros ((a & A) & F & G). split; [|split].
    + apply in_snoc in A. destruct A as [A|<-]; [eauto|congruence].
    + intros a' X. apply (F a'). apply in_snoc. auto.
    + intro X. apply G. apply in_snoc. auto.
  - intros ((a & A) & F & G). split; [|split].
    + exists a. apply in_snoc. auto.
    + intros a' X. apply in_snoc in X. destruct X as [X|<-]; [now apply (F a')|congruence].
    + intro X. apply in_snoc in X. destruct X as [X|<-]; [now apply G|congruence].
Qed.
Lemma INV_schedule : forall t1 B L s id due n, (forall d a, ~ In (Added id d a) (s_log s)) -> id < n -> s_next s <= n -> INV t1 B L s ->
  let s1 := schedule id due s in INV t1 B L (mk (s_clock s1) (s_cache s1) (s_timers s1) n (s_laters s1) (s_stop s1) (s_over s1) (s_log s1)).
Proof.
  intros t1 B L s id due n F I N [] s1. unfold s1, schedule. fields.
  assert (NI : forall d, ~ In (mkT id d) (s_timers s)) by (intros d X; apply v_in0 in X; destruct X as ((a & A) & _); eapply F; eauto).
  constructor; fields.
  - now apply insert_sorted.
  - apply insert_ids; auto. fields. intro X. apply in_map_iff in X. destruct X as ([i d] & E & X). cbn in E. subst. now apply (NI d).
  - intros i d a X. apply in_snoc in X. destruct X as [X|X]; [apply v_next0 in X; lia|injection X; intros; subst; auto].
  - lia.
  - intros i X. assert (Y : (exists a, In (Fired i a) (s_log s)) \/ In (Gone i) (s_log s)).
    { destruct X as [(a & X)|X]; apply in_snoc in X; destruct X as [X|X]; try discriminate; eauto. }
    destruct (v_was0 i Y) as (d & a & A). exists d, a. apply in_snoc. auto.
  - intros i d a d' a' X Y. apply in_snoc in X. apply in_snoc in Y. destruct X as [X|X], Y as [Y|Y]; [eauto| | |].
    + injection Y; intros; subst. exfalso. eapply F; eauto.
    + injection X; intros; subst. exfalso. eapply F; eauto.
    + injection X; injection Y; intros; subst. auto.
  - intros i d. rewrite insert_in. destruct (Z.eq_dec id i) as [<-|Ne].
    + split.
      * intros [X|X]; [injection X; intros; subst|exfalso; eapply NI; eauto]. split; [eexists; apply in_snoc; right; reflexivity|].
        assert (Z0 : ~ ((exists a, In (Fired id a) (s_log s)) \/ In (Gone id) (s_log s))) by (intro Y; destruct (v_was0 id Y) as (d & a & A); eapply F; eauto).
        split; [intros a Y|intro Y]; apply in_snoc in Y; destruct Y as [Y|Y]; try discriminate; apply Z0; eauto.
      * intros ((a & A) & _). apply in_snoc in A. destruct A as [A|A]; [exfalso; eapply F; eauto|injection A; intros; subst; auto].
    + rewrite live_other by exact Ne. rewrite <- v_in0. split; [intros [X|X]; [injection X; intros; congruence|auto]|auto].
  - intros i d a X Y. apply insert_in in X. apply in_snoc in Y. destruct Y as [Y|Y].
    + destruct X as [X|X]; [injection X; intros; subst; exfalso; eapply F; eauto|eauto].
    + injection Y; intros; subst. lia.
  - auto.
  - auto.
  - apply Hist_snoc; auto.
Qed.
Lemma INV_remove : forall t1 B L s i d tl e, In (mkT i d) (s_timers s) -> (forall x, In x tl <-> In x (s_timers s) /\ t_id x <> i) -> StronglySorted le_t tl -> NoDup (map t_id tl) ->
  e = Gone i \/ (e = Fired i (s_cache s) /\ d <= s_cache s) -> INV t1 B L s -> INV t1 B L (say e (with_timers s tl)).
Proof.
  intros t1 B L s i d tl e T TL S N E [].
  assert (LV : live (s_log s) i d) by now apply v_in0.
  assert (NA : forall x y z, e <> Added x y z) by (intros; destruct E as [->|[-> _]]; discriminate).
  assert (NAD : forall x y z, In (Added x y z) (s_log s ++ [e]) -> In (Added x y z) (s_log s)) by (intros x y z X; apply in_snoc in X; destruct X as [X|X]; [auto|exfalso; eapply NA; eauto]).
  constructor; fields; auto.
  - intros id due a X. apply NAD in X. eauto.
  - intros id X. assert (Y : id = i \/ (exists a, In (Fired id a) (s_log s)) \/ In (Gone id) (s_log s)).
    { destruct X as [(a & X)|X]; apply in_snoc in X; destruct X as [X|X]; eauto; destruct E as [->|[-> _]]; try discriminate; injection X; auto. }
    destruct Y as [->|Y]; [destruct LV as ((a & A) & _); exists d, a; apply in_snoc; auto|]. destruct (v_was0 id Y) as (d' & a & A). exists d', a. apply in_snoc. auto.
  - intros id x a x' a' X Y. apply NAD in X. apply NAD in Y. eauto.
  - intros id due. rewrite TL. fields. destruct (Z.eq_dec i id) as [<-|Ne].
    + split; [intros [_ X]; congruence|]. intros (_ & F & G). exfalso. destruct E as [->|[-> _]]; [apply G|eapply F]; apply in_snoc; right; reflexivity.
    + rewrite live_other by (destruct E as [->|[-> _]]; exact Ne). rewrite <- v_in0. intuition.
  - intros id due a X Y. apply TL in X. apply NAD in Y. eapply v_late0; [apply X|exact Y].
  - apply Hist_snoc; auto. destruct E as [->|[-> Du]]; cbn [past_ok]; [eauto|]. destruct LV as ((a & A) & FG). exists d, a. split; [split; eauto|]. split; auto. split; auto. specialize (v_late0 i d a T A). lia.
Qed.
Lemma head_gone : forall t q x, NoDup (map t_id (t :: q)) -> (In x q <-> In x (t :: q) /\ t_id x <> t_id t).
Proof.
  intros t q x N. inversion N; subst. cbn. split.
  - intro X. split; auto. intro E. apply H1. rewrite <- E. now apply in_map.
  - intros [[->|X] E]; [congruence|auto].
Qed.
Lemma INV_pop : forall t1 B L s t q e, s_timers s = t :: q -> e = Gone (t_id t) \/ (e = Fired (t_id t) (s_cache s) /\ t_due t <= s_cache s) -> INV t1 B L s -> INV t1 B L (say e (with_timers s q)).
Proof.
  intros t1 B L s [i d] q e T E H. pose proof (v_sort _ _ _ _ H) as S. pose proof (v_ids _ _ _ _ H) as N. rewrite T in *. fields.
  apply (INV_remove t1 B L s i d q e); auto; [rewrite T; cbn; auto|intro x; rewrite T; apply (head_gone (mkT i d)); auto|now inversion S|now inversion N].
Qed.
Lemma INV_clear : forall t1 B L l s, s_timers s = l -> INV t1 B L s -> INV t1 B L (clear_timers l s).
Proof. induction l as [|t q IH]; cbn [clear_timers]; intros s T H; auto. apply IH; auto. apply (INV_pop t1 B L s t q); auto. Qed.
Lemma INV_act : forall t1 B L s a, INV t1 B L s -> INV t1 B L (do_act s a).
Proof.
  intros t1 B L s a H.
  assert (F : forall d a, ~ In (Added (s_next s) d a) (s_log s)) by (intros d x X; apply (v_next _ _ _ _ H) in X; lia).
  destruct a; cbn [do_act].
  - apply INV_schedule; auto; cbn; lia.
  - apply INV_schedule; auto; cbn; lia.
  - destruct ((1 <=? id) && _) eqn:E; auto. apply andb_true_iff in E. destruct E as [_ E]. apply existsb_exists in E. destruct E as ([i d] & I & E). fields. apply Z.eqb_eq in E. subst i.
    apply (INV_remove t1 B L s id d); auto.
    + intro x. rewrite filter_In, negb_true_iff, Z.eqb_neq. tauto.
    + apply filter_sorted, (v_sort _ _ _ _ H).
    + apply filter_ids, (v_ids _ _ _ _ H).
  - apply (INV_same t1 B L s); auto. cbn. lia.
  - apply (INV_same t1 B L s); auto. cbn. lia.
  - apply (INV_same t1 B L (clear_timers (s_timers s) s)); auto; [cbn; lia|now apply INV_clear].
  - apply (INV_same t1 B L s); auto. cbn. lia.
Qed.
Lemma INV_acts : forall t1 B L l s, INV t1 B L s -> INV t1 B L (do_acts l s).
Proof. unfold do_acts. induction l as [|a l IH]; cbn; auto. intros. apply IH; auto. now apply INV_act. Qed.

(** ** Passing of time *)
Definition adv (s s' : st) (n : Z) : Prop := s_cache s' = s_cache s /\ s_clock s <= s_clock s' <= s_clock s + n.
Lemma adv_refl : forall s s', s_cache s' = s_cache s -> s_clock s' = s_clock s -> adv s s' 0.
Proof. unfold adv. intros. lia. Qed.
Lemma adv_trans : forall a b d n m, adv a b n -> adv b d m -> adv a d (n + m).
Proof. unfold adv. intros. intuition; try congruence; lia. Qed.
Lemma adv_le : forall a b n m, adv a b n -> n <= m -> adv a b m.
Proof. unfold adv. intros. intuition; lia. Qed.
Lemma clear_adv : forall l s, adv s (clear_timers l s) 0.
Proof. induction l as [|t q IH]; intro s; cbn [clear_timers]; [now apply adv_refl|]. specialize (IH (say (Gone (t_id t)) (with_timers s q))). unfold adv in *. fields. lia. Qed.
Lemma spend1_nn : forall a, 0 <= spend1 a.
Proof. destruct a; cbn; lia. Qed.
Lemma spend_nn : forall l, 0 <= spend l.
Proof. induction l as [|a l IH]; cbn; [lia|]. pose proof (spend1_nn a). fold (spend l). lia. Qed.
Lemma spends_nn : forall l, 0 <= spends l.
Proof. induction l as [|a l IH]; cbn; [lia|]. pose proof (spend_nn a). fold (spends l). lia. Qed.
Lemma act_adv : forall s a, adv s (do_act s a) (spend1 a).
Proof.
  intros s a. destruct a; cbn [do_act spend1]; try (apply adv_refl; reflexivity).
  - destruct (_ && _); apply adv_refl; reflexivity.
  - pose proof (clear_adv (s_timers s) s). unfold adv in *. fields. lia.
  - unfold adv. fields. lia.
Qed.
Lemma acts_adv : forall l s, adv s (do_acts l s) (spend l).
Proof. unfold do_acts. induction l as [|a l IH]; intro s; cbn [fold_left]; [now apply adv_refl|]. cbn [spend fold_right]. fold (spend l). eapply adv_trans; [apply act_adv|apply IH]. Qed.
Lemma cbs_adv : forall l s, adv s (run_cbs l s) (spends l).
Proof.
  unfold run_cbs. induction l as [|a l IH]; intro s; cbn [fold_left]; [now apply adv_refl|]. cbn [spends fold_right]. fold (spends l). eapply adv_trans; [|apply IH].
  destruct (s_stop s); [eapply adv_le; [now apply adv_refl|apply spend_nn]|apply acts_adv].
Qed.
Lemma laters_adv : forall l s, adv s (run_laters l s) (spends l).
Proof.
  induction l as [|a l IH]; intro s; cbn [run_laters]; destruct (s_stop s); try (now apply adv_refl); try (destruct (s_laters s); now apply adv_refl).
  - eapply adv_le; [now apply adv_refl|apply spends_nn].
  - destruct (s_laters s) as [|n]; [eapply adv_le; [now apply adv_refl|apply spends_nn]|]. cbn [spends fold_right]. fold (spends l). eapply adv_trans; [|apply IH]. pose proof (acts_adv a (with_laters s n)). exact H.
Qed.
Lemma one_adv : forall t q a s, adv s (fire_one t q a s) (spend a).
Proof. intros. unfold fire_one. cbv zeta. destruct (_ =? _); [eapply adv_le; [now apply adv_refl|apply spend_nn]|]. exact (acts_adv a (say (Fired (t_id t) (s_cache s)) (with_timers s q))). Qed.
Lemma rest_adv : forall l s, adv s (fire_rest l s) 0.
Proof.
  induction l as [|t q IH]; intro s; cbn [fire_rest]; [now apply adv_refl|]. destruct (_ <=? _); [|now apply adv_refl].
  replace 0 with (0 + 0) by lia. eapply adv_trans; [|apply IH]. exact (one_adv t q [] s).
Qed.
Lemma fire_adv : forall l s, adv s (fire l s) (spends l).
Proof.
  induction l as [|a l IH]; intro s; cbn [fire]; [apply rest_adv|]. destruct (s_timers s) as [|t q]; [eapply adv_le; [now apply adv_refl|apply (spends_nn (a :: l))]|].
  destruct (_ <=? _); [|eapply adv_le; [now apply adv_refl|apply (spends_nn (a :: l))]]. cbn [spends fold_right]. fold (spends l). eapply adv_trans; [apply one_adv|apply IH].
Qed.

(** ** The phases keep the invariant *)
Lemma INV_cbs : forall t1 B L l s, INV t1 B L s -> INV t1 B L (run_cbs l s).
Proof. unfold run_cbs. induction l as [|a l IH]; cbn [fold_left]; auto. intros. apply IH. destruct (s_stop s); auto. now apply INV_acts. Qed.
Lemma INV_laters : forall t1 B L l s, INV t1 B L s -> INV t1 B L (run_laters l s).
Proof.
  induction l as [|a l IH]; intros s H; cbn [run_laters]; destruct (s_stop s); auto; destruct (s_laters s) as [|n]; auto.
  - apply (INV_same t1 B L s); auto. cbn. lia.
  - apply IH, INV_acts, (INV_same t1 B L s); auto. cbn. lia.
Qed.
Lemma INV_one : forall t1 B L t q a s, s_timers s = t :: q -> t_due t <= s_cache s -> INV t1 B L s -> INV t1 B L (fire_one t q a s).
Proof.
  intros t1 B L t q a s T D H. unfold fire_one. cbv zeta. assert (P : INV t1 B L (say (Fired (t_id t) (s_cache s)) (with_timers s q))) by (apply (INV_pop t1 B L s t q); auto).
  destruct (_ =? _); [|now apply INV_acts]. eapply INV_same; [| | | | |exact P]; auto. cbn. lia.
Qed.
Definition none_due (s : st) : Prop := match s_timers s with [] => True | t :: _ => s_cache s < t_due t end.
Lemma rest_one : forall t q s, s_timers (fire_one t q [] s) = q /\ s_cache (fire_one t q [] s) = s_cache s.
Proof. intros. unfold fire_one. cbv zeta. destruct (_ =? _); auto. Qed.
Lemma INV_rest : forall t1 B L l s, s_timers s = l -> INV t1 B L s -> INV t1 B L (fire_rest l s) /\ none_due (fire_rest l s).
Proof.
  induction l as [|t q IH]; intros s T H; cbn [fire_rest]; [split; auto; unfold none_due; now rewrite T|].
  destruct (t_due t <=? s_cache s) eqn:E; [apply Z.leb_le in E|apply Z.leb_gt in E; split; auto; unfold none_due; now rewrite T].
  apply IH; [apply rest_one|now apply INV_one].
Qed.
Lemma INV_fire : forall t1 B L l s, INV t1 B L s -> INV t1 B L (fire l s) /\ none_due (fire l s).
Proof.
  induction l as [|a l IH]; intros s H; cbn [fire]; [now apply INV_rest|]. destruct (s_timers s) as [|t q] eqn:T; [split; auto; unfold none_due; now rewrite T|].
  destruct (t_due t <=? s_cache s) eqn:E; [apply Z.leb_le in E|apply Z.leb_gt in E; split; auto; unfold none_due; now rewrite T]. apply IH. now apply INV_one.
Qed.
Lemma none_all : forall t1 B L s, INV t1 B L s -> none_due s -> forall t, In t (s_timers s) -> s_cache s < t_due t.
Proof.
  intros t1 B L s H N t I. pose proof (v_sort _ _ _ _ H) as S. unfold none_due in N. destruct (s_timers s) as [|x q]; [destruct I|]. destruct I as [<-|I]; auto.
  inversion S as [|? ? Sl F]; subst. rewrite Forall_forall in F. specialize (F t I). unfold le_t in F. lia.
Qed.
Lemma INV_late : forall t1 B L L' s, 0 <= L' <= B -> (forall id due a, In (mkT id due) (s_timers s) -> In (Added id due a) (s_log s) -> s_cache s <= Z.max t1 (Z.max due a) + L') -> INV t1 B L s -> INV t1 B L' s.
Proof. intros t1 B L L' s H F []. constructor; auto. Qed.
Lemma INV_woke : forall t1 B L L' s t, s_clock s <= t -> 0 <= L' <= B -> (forall id due a, In (mkT id due) (s_timers s) -> In (Added id due a) (s_log s) -> t <= Z.max t1 (Z.max due a) + L') -> INV t1 B L s ->
  INV t1 B L' (cache_time (say (Woke t) (with_clock s t))).
Proof.
  intros t1 B L L' s t K LB F [].
  assert (IN : forall e, In e (s_log s ++ [Woke t]) -> e = Woke t \/ In e (s_log s)) by (intros e X; apply in_snoc in X; tauto).
  constructor; fields; auto.
  - intros id due a X. apply IN in X. destruct X; [discriminate|eauto].
  - intros id X. assert (Y : (exists a, In (Fired id a) (s_log s)) \/ In (Gone id) (s_log s)) by (destruct X as [(a & X)|X]; apply IN in X; destruct X; try discriminate; eauto).
    destruct (v_was0 id Y) as (d & a & A). exists d, a. apply in_snoc. auto.
  - intros id d a d' a' X Y. apply IN in X. apply IN in Y. destruct X, Y; try discriminate. eauto.
  - intros id due. rewrite live_other by exact Logic.I. auto.
  - intros id due a X Y. apply IN in Y. destruct Y; [discriminate|eauto].
  - lia.
  - apply Hist_snoc; auto. exact Logic.I.
Qed.
