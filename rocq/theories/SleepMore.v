(** More lemmas for PropSleep.v. *)
From Verif Require Import Base Sleep SleepSpec SleepProofs.
From Coq Require Import Lia Sorted.

Lemma slack_nn : forall c, cfg_ok c -> 0 <= slack c.
Proof. intros c (U & _). unfold slack, msec. destruct (c_kind c); lia. Qed.

(** ** One cycle *)
Definition TOP (t1 B W : Z) (s : st) : Prop := INV t1 B 0 s /\ s_clock s <= s_cache s + W.
Lemma need_le : forall t1 B L c s id due, cfg_ok c -> INV t1 B L s -> In (mkT id due) (s_timers s) -> need c s <= Z.max (c_min c) (due - s_cache s).
Proof.
  intros t1 B L c s id due (U & M & _) H I. pose proof (v_sort _ _ _ _ H) as S. unfold need. destruct (s_laters s); [|lia]. destruct (s_timers s) as [|t q]; [destruct I|].
  assert (D : t_due t <= due) by (destruct I as [->|I]; [cbn; lia|]; inversion S as [|? ? Sl F]; subst; rewrite Forall_forall in F; exact (F _ I)). lia.
Qed.
Definition woken (c : cfg) (s : st) (y : cyc) : st :=
  let t := s_clock s + waits c (timeout c s) (y_wait y) in cache_time (say (Woke t) (with_clock s t)).
Lemma TOP_woken : forall t1 W c s y, cfg_ok c -> 0 <= W -> let B := late c W in TOP t1 B W s -> INV t1 B B (woken c s y).
Proof.
  intros t1 W c s y C W0 B [H K]. pose proof (slack_nn c C) as S. pose proof (timeout_bounds c s C) as [T0 T1]. destruct C as (U & M & La). assert (B0 : 0 <= B) by (unfold B, late; lia).
  assert (Wt : 0 <= waits c (timeout c s) (y_wait y) <= timeout c s + c_lat c) by (unfold waits; destruct (timeout c s <? 0) eqn:E; [apply Z.ltb_lt in E; lia|lia]).
  unfold woken. cbv zeta. apply (INV_woke t1 B 0 B); auto; try lia.
  intros id due a I A. pose proof (need_le t1 B 0 c s id due ltac:(unfold cfg_ok; auto) H I) as N. pose proof (v_late _ _ _ _ H id due a I A). pose proof (v_clk _ _ _ _ H). unfold B, late. lia.
Qed.
Lemma cycle_eq : forall c s y, cycle c s y =
  if s_over s then s
  else let s1 := woken c s y in
       if y_err y || match c_kind c with Select => timeout c s <? 0 | EPoll => false end then with_over s1 true
       else let s2 := run_laters (y_laters y) (run_cbs (y_cbs y) s1) in let s3 := if s_stop s2 then s2 else fire (y_fire y) s2 in let s4 := if s_stop s3 then s3 else do_acts (y_every y) s3 in with_over s4 (s_stop s4).
Proof. reflexivity. Qed.
Lemma INV_over : forall t1 B L s b, INV t1 B L s -> INV t1 B L (with_over s b).
Proof. intros. apply (INV_same t1 B L s); auto. cbn. lia. Qed.
Lemma INV_up : forall t1 B s, 0 <= B -> INV t1 B 0 s -> INV t1 B B s.
Proof. intros t1 B s B0 H. apply (INV_late t1 B 0); auto; [lia|]. intros id due a I A. pose proof (v_late _ _ _ _ H id due a I A). lia. Qed.
(** acts that stop the loop leave it stopped *)
Lemma clear_stop : forall l s, s_stop (clear_timers l s) = s_stop s.
Proof. induction l as [|t q IH]; intro s; cbn [clear_timers]; auto. now rewrite IH. Qed.
Lemma act_stop : forall s a, s_stop s = true -> s_stop (do_act s a) = true.
Proof. intros s a H. destruct a; cbn [do_act]; auto; [destruct (_ && _); auto|cbn; now rewrite clear_stop]. Qed.
Lemma acts_stop : forall l s, s_stop s = true -> s_stop (do_acts l s) = true.
Proof. unfold do_acts. induction l as [|a l IH]; cbn; auto. intros. apply IH. now apply act_stop. Qed.
Lemma TOP_cycle : forall t1 W c s y, cfg_ok c -> 0 <= W -> spent y <= W -> s_over s = false -> let B := late c W in TOP t1 B W s ->
  INV t1 B B (cycle c s y) /\ (s_over (cycle c s y) = false -> TOP t1 B W (cycle c s y) /\ (y_every y = [] -> none_due (cycle c s y))).
Proof.
  intros t1 W c s y C W0 Sp O B T. pose proof (TOP_woken t1 W c s y C W0 T) as H1. fold B in H1. rewrite cycle_eq, O. cbv zeta. set (s1 := woken c s y) in *.
  assert (K1 : s_clock s1 = s_cache s1) by reflexivity. clearbody s1.
  assert (B0 : 0 <= B) by (destruct (v_lb _ _ _ _ H1); lia).
  destruct (y_err y || _); [split; [now apply INV_over|cbn; discriminate]|].
  pose proof (INV_laters t1 B B (y_laters y) _ (INV_cbs t1 B B (y_cbs y) s1 H1)) as H2.
  pose proof (adv_trans _ _ _ _ _ (cbs_adv (y_cbs y) s1) (laters_adv (y_laters y) (run_cbs (y_cbs y) s1))) as A2.
  set (s2 := run_laters (y_laters y) (run_cbs (y_cbs y) s1)) in *. clearbody s2. destruct (s_stop s2) eqn:S2.
  { rewrite S2. split; [now apply INV_over|cbn; congruence]. }
  destruct (INV_fire t1 B B (y_fire y) s2 H2) as [H3 N3]. pose proof (adv_trans _ _ _ _ _ A2 (fire_adv (y_fire y) s2)) as A3. set (s3 := fire (y_fire y) s2) in *. clearbody s3.
  destruct (s_stop s3) eqn:S3. { split; [now apply INV_over|cbn; congruence]. }
  assert (H30 : INV t1 B 0 s3) by (apply (INV_late t1 B B); auto; [lia|]; intros id due a I _; pose proof (none_all _ _ _ _ H3 N3 _ I) as X; cbn in X; lia).
  pose proof (INV_acts t1 B 0 (y_every y) s3 H30) as H4. pose proof (adv_trans _ _ _ _ _ A3 (acts_adv (y_every y) s3)) as A4.
  split; [now apply INV_over, INV_up|]. intros _. split.
  - split; [now apply INV_over|]. fields. unfold spent in Sp. destruct A4 as [E A4]. rewrite E. lia.
  - intro Y. rewrite Y. exact N3.
Qed.

(** ** Before and at the start *)
Lemma INV_cache : forall t1 B s, s_clock s <= t1 -> INV t1 B 0 s -> INV t1 B 0 (cache_time s).
Proof. intros t1 B s K []. constructor; fields; auto; [intros; lia|lia]. Qed.
Definition pre_acts (l : list act) (s : st) : st := fold_left (fun s a => cache_time (do_act s a)) l s.
Lemma pre_mono : forall l s, s_clock s <= s_clock (pre_acts l s).
Proof. unfold pre_acts. induction l as [|a l IH]; intro s; cbn [fold_left]; [lia|]. pose proof (act_adv s a) as [_ A]. pose proof (IH (cache_time (do_act s a))) as X. fields. lia. Qed.
Lemma INV_pre : forall t1 B l s, INV t1 B 0 s -> s_clock (pre_acts l s) <= t1 -> INV t1 B 0 (pre_acts l s).
Proof.
  induction l as [|a l IH]; intros s H K; auto. unfold pre_acts in *. cbn [fold_left] in *. apply IH; auto. apply INV_cache; [|now apply INV_act].
  pose proof (pre_mono l (cache_time (do_act s a))) as X. unfold pre_acts in X. fields. lia.
Qed.
Definition POS (s : st) : Prop := 1 <= s_next s /\ forall id d a, In (Added id d a) (s_log s) -> 1 <= id.
Lemma POS_clear : forall l s, POS s -> POS (clear_timers l s).
Proof. induction l as [|t q IH]; intros s H; cbn [clear_timers]; auto. apply IH. destruct H as [A B]. split; auto. intros id d a X. fields. apply in_snoc in X. destruct X as [X|X]; [eauto|discriminate]. Qed.
Lemma POS_act : forall s a, POS s -> POS (do_act s a).
Proof.
  intros s a [A B].
  assert (S : forall due, POS (sched_next due s)).
  { intro due. split; [cbn; lia|]. intros id d x X. cbn in X. apply in_snoc in X. destruct X as [X|X]; [eauto|injection X; intros; subst; auto]. }
  destruct a; cbn [do_act]; auto; try (split; auto; fail).
  - destruct (_ && _); [|split; auto]. split; auto. intros i d x X. fields. apply in_snoc in X. destruct X as [X|X]; [eauto|discriminate].
  - destruct (POS_clear (s_timers s) s (conj A B)) as [A' B']. split; auto.
Qed.
Lemma POS_pre : forall l s, POS s -> POS (pre_acts l s).
Proof. unfold pre_acts. induction l as [|a l IH]; intros s H; cbn [fold_left]; auto. apply IH. destruct (POS_act s a H). split; auto. Qed.
Definition s0 (t0 : Z) : st := mk t0 t0 [] 1 O false false [].
Definition t_run (t0 : Z) (pre : list act) : Z := s_clock (pre_acts pre (s0 t0)).
Lemma pre_over : forall l s, s_over (pre_acts l s) = s_over s.
Proof.
  assert (Cl : forall l s, s_over (clear_timers l s) = s_over s) by (induction l as [|t q IH]; intro s; cbn [clear_timers]; auto; now rewrite IH).
  unfold pre_acts. induction l as [|a l IH]; intro s; cbn [fold_left]; auto. rewrite IH. destruct a; cbn [do_act]; auto; [cbn; destruct (_ && _); auto|]. cbn. apply Cl.
Qed.
Lemma TOP_begin : forall t0 pre c W, cfg_ok c -> 0 <= W -> TOP (t_run t0 pre) (late c W) W (begin c t0 pre) /\ s_over (begin c t0 pre) = false /\
  match c_int c with Some d => In (Added 0 (t_run t0 pre + d) (t_run t0 pre)) (s_log (begin c t0 pre)) | None => True end.
Proof.
  intros t0 pre c W C W0. pose proof (slack_nn c C) as S. assert (B0 : 0 <= late c W) by (destruct C as (U & M & La); unfold late; lia).
  unfold begin. fold (s0 t0). fold (pre_acts pre (s0 t0)). set (t1 := t_run t0 pre). assert (T1 : s_clock (pre_acts pre (s0 t0)) = t1) by reflexivity.
  assert (H : INV t1 (late c W) 0 (pre_acts pre (s0 t0))).
  { apply INV_pre; [|lia]. constructor; unfold s0; fields; try (intros; contradiction); try lia; try constructor.
    - intros id [(a & [])|[]].
    - intros [].
    - intros ((a & []) & _).
    - intros l1 e l2 E. destruct l1; discriminate. }
  destruct (POS_pre pre (s0 t0)) as [P1 P2]; [split; [cbn; lia|intros id d a []]|]. pose proof (pre_over pre (s0 t0)) as Ov. cbn in Ov. set (s := pre_acts pre (s0 t0)) in *. clearbody s.
  assert (H' : INV t1 (late c W) 0 (with_stop s false)) by (apply (INV_same t1 (late c W) 0 s); auto; cbn; lia).
  unfold enter. cbv zeta. destruct (c_int c) as [d|].
  - assert (F : forall x a, ~ In (Added 0 x a) (s_log (with_stop s false))) by (intros x a X; fields; apply P2 in X; lia).
    pose proof (INV_schedule t1 (late c W) 0 (with_stop s false) 0 (s_clock (with_stop s false) + d) (s_next s) F ltac:(lia) ltac:(cbn; lia) H') as H2. cbv zeta in H2.
    split; [|split; [exact Ov|]].
    + split; [|cbn; lia]. apply INV_cache; [cbn; lia|]. exact H2.
    + unfold schedule. fields. rewrite T1. apply in_snoc. auto.
  - split; [|split; [exact Ov|exact Logic.I]]. split; [|cbn; lia]. apply INV_cache; [cbn; lia|exact H'].
Qed.
Definition ALL (t1 B W : Z) (s : st) : Prop := INV t1 B B s /\ (s_over s = false -> TOP t1 B W s).
Lemma ALL_run : forall c t0 pre ys W, cfg_ok c -> Forall (fun y => spent y <= W) ys -> 0 <= W -> ALL (t_run t0 pre) (late c W) W (run c t0 pre ys).
Proof.
  intros c t0 pre ys W C F W0. unfold run. pose proof (TOP_begin t0 pre c W C W0) as (T & O & _). set (t1 := t_run t0 pre) in *.
  assert (A : ALL t1 (late c W) W (begin c t0 pre)). { split; auto. apply INV_up; [|apply T]. destruct (v_lb _ _ _ _ (proj1 T)). lia. }
  clear T O. revert A. generalize (begin c t0 pre). induction F as [|y ys Sp F IH]; intros s A; cbn [fold_left]; auto. apply IH. destruct A as [A A']. destruct (s_over s) eqn:O.
  - rewrite cycle_eq, O. split; auto. congruence.
  - destruct (TOP_cycle t1 W c s y C W0 Sp O (A' eq_refl)) as [P Q]. split; auto. intro X. now apply Q.
Qed.

(** ** The stop timer *)
Definition SI (s : st) : Prop := (forall a, In (Fired 0 a) (s_log s) -> s_stop s = true).
Definition logged (s s' : st) : Prop := forall id a, In (Fired id a) (s_log s') -> In (Fired id a) (s_log s).
Lemma clear_logged : forall l s, logged s (clear_timers l s).
Proof. induction l as [|t q IH]; intros s id a; cbn [clear_timers]; auto. intro X. apply IH in X. fields. apply in_snoc in X. destruct X as [X|X]; [auto|discriminate]. Qed.
Lemma act_logged : forall s a, logged s (do_act s a).
Proof.
  intros s a id x. destruct a; cbn [do_act]; auto.
  - cbn. intro X. apply in_snoc in X. destruct X as [X|X]; [auto|discriminate].
  - cbn. intro X. apply in_snoc in X. destruct X as [X|X]; [auto|discriminate].
  - destruct (_ && _); auto. cbn. intro X. apply in_snoc in X. destruct X as [X|X]; [auto|discriminate].
  - cbn. apply clear_logged.
Qed.
Lemma SI_act : forall s a, SI s -> SI (do_act s a).
Proof. intros s a H x X. apply act_logged in X. apply act_stop. eauto. Qed.
Lemma SI_acts : forall l s, SI s -> SI (do_acts l s).
Proof. unfold do_acts. induction l as [|a l IH]; cbn; auto. intros. apply IH. now apply SI_act. Qed.
Lemma SI_one : forall t q a s, SI s -> SI (fire_one t q a s).
Proof.
  intros t q a s H. unfold fire_one. cbv zeta. destruct (t_id t =? 0) eqn:E; [intros x _; reflexivity|]. apply SI_acts. intros x X. fields. apply in_snoc in X. destruct X as [X|X]; [eauto|].
  injection X. intros _ Y. rewrite <- Y in E. discriminate.
Qed.
Lemma SI_rest : forall l s, SI s -> SI (fire_rest l s).
Proof. induction l as [|t q IH]; intros s H; cbn [fire_rest]; auto. destruct (_ <=? _); auto. apply IH. now apply SI_one. Qed.
Lemma SI_fire : forall l s, SI s -> SI (fire l s).
Proof. induction l as [|a l IH]; intros s H; cbn [fire]; [now apply SI_rest|]. destruct (s_timers s); auto. destruct (_ <=? _); auto. apply IH. now apply SI_one. Qed.
Lemma SI_cbs : forall l s, SI s -> SI (run_cbs l s).
Proof. unfold run_cbs. induction l as [|a l IH]; cbn [fold_left]; auto. intros. apply IH. destruct (s_stop s); auto. now apply SI_acts. Qed.
Lemma SI_laters : forall l s, SI s -> SI (run_laters l s).
Proof. induction l as [|a l IH]; intros s H; cbn [run_laters]; destruct (s_stop s); auto; destruct (s_laters s) as [|n]; auto. apply IH, SI_acts. exact H. Qed.
Definition OV (s : st) : Prop := SI s /\ (s_over s = false -> s_stop s = false).
Lemma OV_cycle : forall c s y, OV s -> OV (cycle c s y).
Proof.
  intros c s y [H K]. rewrite cycle_eq. destruct (s_over s) eqn:O; [split; auto; congruence|]. cbv zeta.
  assert (H1 : SI (woken c s y)). { intros a X. unfold woken in X. fields. apply in_snoc in X. destruct X as [X|X]; [|discriminate]. unfold woken. fields. eauto. }
  destruct (y_err y || _); [split; [exact H1|cbn; discriminate]|].
  pose proof (SI_laters (y_laters y) _ (SI_cbs (y_cbs y) _ H1)) as H2. set (s2 := run_laters _ _) in *. clearbody s2.
  assert (H3 : SI (if s_stop s2 then s2 else fire (y_fire y) s2)) by (destruct (s_stop s2); auto; now apply SI_fire). set (s3 := if s_stop s2 then s2 else fire (y_fire y) s2) in *. clearbody s3.
  assert (H4 : SI (if s_stop s3 then s3 else do_acts (y_every y) s3)) by (destruct (s_stop s3); auto; now apply SI_acts). set (s4 := if s_stop s3 then s3 else do_acts (y_every y) s3) in *. clearbody s4.
  split; [exact H4|]. cbn. auto.
Qed.
Lemma pre_logged : forall l s, logged s (pre_acts l s).
Proof. unfold pre_acts. induction l as [|a l IH]; intros s id x X; cbn [fold_left] in *; auto. apply IH in X. fields. now apply act_logged in X. Qed.
Lemma OV_begin : forall c t0 pre, OV (begin c t0 pre).
Proof.
  intros c t0 pre. unfold begin. fold (s0 t0). fold (pre_acts pre (s0 t0)). split; [|intros _; unfold enter; cbv zeta; destruct (c_int c); reflexivity].
  intros a X. exfalso. assert (Y : In (Fired 0 a) (s_log (pre_acts pre (s0 t0)))).
  { unfold enter in X. cbv zeta in X. destruct (c_int c); [|exact X]. unfold schedule in X. fields. apply in_snoc in X. destruct X as [X|X]; [exact X|discriminate]. }
  apply pre_logged in Y. destruct Y.
Qed.
Lemma OV_run : forall c t0 pre ys, OV (run c t0 pre ys).
Proof. intros. unfold run. generalize (OV_begin c t0 pre). generalize (begin c t0 pre). induction ys as [|y ys IH]; intros s H; cbn [fold_left]; auto. apply IH. now apply OV_cycle. Qed.
(** nothing leaves the log *)
Definition grows (s s' : st) : Prop := forall e, In e (s_log s) -> In e (s_log s').
Lemma clear_grows : forall l s, grows s (clear_timers l s).
Proof. induction l as [|t q IH]; intros s e X; cbn [clear_timers]; auto. apply IH. fields. apply in_snoc. auto. Qed.
Lemma act_grows : forall s a, grows s (do_act s a).
Proof. intros s a e X. destruct a; cbn [do_act]; auto; try (cbn; apply in_snoc; auto; fail); [destruct (_ && _); auto; cbn; apply in_snoc; auto|cbn; now apply clear_grows]. Qed.
Lemma acts_grows : forall l s, grows s (do_acts l s).
Proof. unfold do_acts. induction l as [|a l IH]; intros s e X; cbn; auto. apply IH. now apply act_grows. Qed.
Lemma one_grows : forall t q a s, grows s (fire_one t q a s).
Proof. intros t q a s e X. unfold fire_one. cbv zeta. assert (Y : In e (s_log (say (Fired (t_id t) (s_cache s)) (with_timers s q)))) by (fields; apply in_snoc; auto). destruct (_ =? _); [exact Y|now apply acts_grows]. Qed.
Lemma rest_grows : forall l s, grows s (fire_rest l s).
Proof. induction l as [|t q IH]; intros s e X; cbn [fire_rest]; auto. destruct (_ <=? _); auto. apply IH. now apply one_grows. Qed.
Lemma fire_grows : forall l s, grows s (fire l s).
Proof. induction l as [|a l IH]; intros s e X; cbn [fire]; [now apply rest_grows|]. destruct (s_timers s); auto. destruct (_ <=? _); auto. apply IH. now apply one_grows. Qed.
Lemma cbs_grows : forall l s, grows s (run_cbs l s).
Proof. unfold run_cbs. induction l as [|a l IH]; intros s e X; cbn [fold_left]; auto. apply IH. destruct (s_stop s); auto. now apply acts_grows. Qed.
Lemma laters_grows : forall l s, grows s (run_laters l s).
Proof. induction l as [|a l IH]; intros s e X; cbn [run_laters]; destruct (s_stop s); auto; destruct (s_laters s) as [|n]; auto. apply IH, acts_grows. exact X. Qed.
Lemma cycle_grows : forall c s y, grows s (cycle c s y).
Proof.
  intros c s y e X. rewrite cycle_eq. destruct (s_over s); auto. cbv zeta. assert (X1 : In e (s_log (woken c s y))) by (unfold woken; fields; apply in_snoc; auto).
  destruct (y_err y || _); [exact X1|]. assert (X2 : In e (s_log (run_laters (y_laters y) (run_cbs (y_cbs y) (woken c s y))))) by (apply laters_grows, cbs_grows; exact X1).
  set (s2 := run_laters _ _) in *. clearbody s2. assert (X3 : In e (s_log (if s_stop s2 then s2 else fire (y_fire y) s2))) by (destruct (s_stop s2); auto; now apply fire_grows).
  set (s3 := if s_stop s2 then s2 else fire (y_fire y) s2) in *. clearbody s3. fields. destruct (s_stop s3); auto. now apply acts_grows.
Qed.
Lemma run_grows : forall c t0 pre ys, grows (begin c t0 pre) (run c t0 pre ys).
Proof. intros c t0 pre ys. unfold run. generalize (begin c t0 pre). induction ys as [|y ys IH]; intros s e X; cbn [fold_left]; auto. apply IH. now apply cycle_grows. Qed.

(** ** When run is called *)
Lemma clear_clock : forall l s, s_clock (clear_timers l s) = s_clock s.
Proof. induction l as [|t q IH]; intro s; cbn [clear_timers]; auto. now rewrite IH. Qed.
Lemma pre_clock : forall l s, s_clock (pre_acts l s) = s_clock s + spend l.
Proof.
  unfold pre_acts. induction l as [|a l IH]; intro s; cbn [fold_left spend fold_right]; [lia|]. fold (spend l). rewrite IH. fields.
  assert (E : s_clock (do_act s a) = s_clock s + spend1 a) by (destruct a; cbn [do_act spend1]; try (cbn; lia); [destruct (_ && _); cbn; lia|cbn; rewrite clear_clock; lia]). lia.
Qed.
Lemma t_run_eq : forall t0 pre, t_run t0 pre = t0 + spend pre.
Proof. intros. unfold t_run. now rewrite pre_clock. Qed.
Lemma spent_max : forall ys, exists W, 0 <= W /\ Forall (fun y => spent y <= W) ys.
Proof.
  induction ys as [|y ys (W & W0 & F)]; [exists 0; split; [lia|constructor]|]. exists (Z.max W (spent y)). split; [lia|]. constructor; [lia|]. eapply Forall_impl; [|exact F]. cbn. intros. lia.
Qed.
