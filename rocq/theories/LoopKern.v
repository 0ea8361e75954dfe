(** Lemmas about the run loop: what holds all the time; stopping, tasks and epoll's interest list. *)
From Coq Require Import Sorting.Sorted.
From Verif Require Import Base BaseFacts Loop LoopSpec LoopProofs LoopRun LoopCycle.

(** ** What the calls keep and the loop's own events keep holds all the time. *)
Section Pres.
Variable P : lp -> Prop.
Hypothesis Hcall : forall s c, linv s -> P s -> P (call s c).
Hypothesis Hpoll : forall s r, l_stop s = false -> P s -> P (k_log s (Poll r)).
Hypothesis Hact : forall s id, l_stop s = false -> P s -> P (k_log s (Act id)).
Hypothesis Hlater : forall s k r, linv s -> l_stop s = false -> l_later s = k :: r -> P s -> P (k_log (k_later s r (l_nlater s)) (Later k)).
Hypothesis Hfire : forall s, P s -> P (k_log s Fire).
Hypothesis Hevery : forall s, l_stop s = false -> P s -> P (k_log s Every).
Definition LP (s : lp) : Prop := linv s /\ P s.

Lemma calls_pres : forall cs s, LP s -> LP (calls s cs).
Proof.
  induction cs as [|c cs IH]; intros s [I H]; cbn; [split; auto|]. apply IH. split; [|auto]. destruct (call_steps s c I) as [d S]. apply S.
Qed.
Lemma callback_pres : forall s o s' o', LP s -> callback s o = (s', o') -> LP s'.
Proof. intros s o s' o' L H. unfold callback in H. destruct o; injection H as <- <-; [exact L|apply calls_pres; exact L]. Qed.
Lemma run_items_pres : forall q s o s' o', LP s -> run_items q s o = (s', o') -> LP s'.
Proof.
  induction q as [|[id|] q IH]; intros s o s' o' L H; cbn [run_items] in H; [injection H as <- <-; exact L| |eauto].
  destruct (negb _ && negb (l_stop s)) eqn:Q; [|eauto]. apply andb_prop in Q. destruct Q as [_ Q]. apply Bool.negb_true_iff in Q.
  destruct (callback (k_log s (Act id)) o) as [s1 o1] eqn:CB. eapply IH; [|exact H]. eapply callback_pres; [|exact CB].
  destruct L as [I L]. split; [apply linv_log; auto; congruence|auto].
Qed.
Lemma linv_later : forall s k r, linv s -> l_later s = k :: r -> linv (k_log (k_later s r (l_nlater s)) (Later k)).
Proof.
  intros s k r [D R N U OO ND LS LB LA LF] E. rewrite E in *. constructor; cbn [k_log k_later l_log l_dead l_reg l_next l_later l_nlater]; auto.
  - intro i. rewrite in_app_iff, D. cbn. intuition discriminate.
  - intros c fd i. rewrite R. unfold stands. rewrite !in_app_iff. cbn. intuition discriminate.
  - intros i fd c H. apply in_app_iff in H. destruct H as [H|[H|[]]]; [eauto|discriminate].
  - intros i H. apply in_app_iff in H. destruct H as [H|[H|[]]]; [eauto|discriminate].
  - intros i f1 c1 f2 c2 HA HB. apply in_app_iff in HA, HB. destruct HA as [HA|[HA|[]]]; [|discriminate]. destruct HB as [HB|[HB|[]]]; [|discriminate]. eauto.
  - rewrite laters_app. cbn. rewrite <- app_assoc. exact LS.
  - rewrite laters_app. cbn. rewrite <- app_assoc. exact LB.
  - intro j. rewrite in_app_iff, <- LA. cbn. intuition discriminate.
  - intros j H. apply in_app_iff in H. destruct H as [H|[H|[]]]; [|discriminate]. destruct (LF j H) as [[<-|X]|X].
    + right. left. apply in_or_app. right. left. reflexivity.
    + auto.
    + right. apply fate_mono. auto.
Qed.
Lemma run_laters_pres : forall n s o s' o', LP s -> run_laters n s o = (s', o') -> LP s'.
Proof.
  induction n as [|n IH]; intros s o s' o' L H; cbn [run_laters] in H; [injection H as <- <-; exact L|].
  destruct (l_stop s) eqn:Q; [injection H as <- <-; exact L|]. destruct (l_later s) as [|k r] eqn:E; [injection H as <- <-; exact L|].
  destruct (callback (k_log (k_later s r (l_nlater s)) (Later k)) o) as [s1 o1] eqn:CB. eapply IH; [|exact H]. eapply callback_pres; [|exact CB].
  destruct L as [I L]. split; [apply linv_later; auto|auto].
Qed.
Lemma run_timers_pres : forall n s o s' o', LP s -> run_timers n s o = (s', o') -> LP s'.
Proof.
  induction n as [|n IH]; intros s o s' o' L H; cbn [run_timers] in H; [injection H as <- <-; exact L|].
  destruct (callback (k_log s Fire) o) as [s1 o1] eqn:CB. eapply IH; [|exact H]. eapply callback_pres; [|exact CB].
  destruct L as [I L]. split; [apply linv_log; auto; congruence|auto].
Qed.
Lemma cycle_pres : forall ep every s ready due o s' o' b, LP s -> l_stop s = false -> cycle ep every s ready due o = (s', o', b) -> LP s'.
Proof.
  intros ep every s ready due o s' o' b L ST H. unfold cycle in H. destruct (negb ep && bad_fd s); [injection H as <- _ _; exact L|]. cbv zeta in H.
  destruct (run_items _ _ o) as [s1 o1] eqn:E1. apply run_items_pres in E1; [|destruct L as [I L]; split; [apply linv_log; auto; congruence|auto]].
  destruct (run_laters _ s1 o1) as [s2 o2] eqn:E2. apply run_laters_pres in E2; [|exact E1].
  destruct (if l_stop s2 then (s2, o2) else run_timers due s2 o2) as [s3 o3] eqn:E3.
  assert (L3 : LP s3) by (destruct (l_stop s2); [injection E3 as <- <-; exact E2|eapply run_timers_pres; eauto]).
  destruct (every && negb (l_stop s3)) eqn:Q; [|injection H as <- _ _; exact L3]. apply andb_prop in Q. destruct Q as [_ Q]. apply Bool.negb_true_iff in Q.
  destruct (callback (k_log s3 Every) o3) as [s4 o4] eqn:CB. injection H as <- _ _. eapply callback_pres; [|exact CB].
  destruct L3 as [I3 L3]. split; [apply linv_log; auto; congruence|auto].
Qed.
Lemma loop_pres : forall ep every ins s o, LP s -> l_stop s = false -> LP (loop ep every s ins o).
Proof.
  intros ep every. induction ins as [|[ready due] ins IH]; intros s o L ST; cbn [loop]; [exact L|].
  destruct (cycle ep every s ready due o) as [[s1 o1] b] eqn:C. assert (L1 := cycle_pres _ _ _ _ _ _ _ _ _ L ST C).
  destruct b; cbn [orb]; [exact L1|]. destruct (l_stop s1) eqn:Q; [exact L1|]. apply IH; auto.
Qed.
Hypothesis Hstart : forall s, P s -> P (k_stop s false).
Hypothesis Hnew : P lp_new.
Lemma life_pres : forall ep every segs, LP (life ep every segs).
Proof.
  intros ep every segs. unfold life. assert (F : LP lp_new) by (split; [apply linv_new|exact Hnew]). revert F. generalize lp_new.
  induction segs as [|x segs IH]; intros s F; cbn; [exact F|]. apply IH. unfold run_loop. apply loop_pres; [|reflexivity].
  destruct (calls_pres (fst (fst x)) s F) as [I L]. split; [|auto]. destruct I. constructor; assumption.
Qed.
End Pres.

(** ** Stopping. *)
Definition stop_inv (p : list lev) (s : lp) : Prop := exists r, l_log s = p ++ r /\ (l_stop s = true <-> In Stopped r) /\ stops_ok r.
Lemma stops_add : forall r x, stops_ok r -> (runs x = false \/ ~ In Stopped r) -> stops_ok (r ++ [x]).
Proof.
  intros r x K H a b E y Hy. apply app_one_cons in E. destruct E as [(-> & _ & _)|(b' & -> & E)]; [destruct Hy|].
  apply in_app_iff in Hy. destruct Hy as [Hy|[<-|[]]]; [eapply K; eauto|]. destruct H as [H|H]; [exact H|]. exfalso. apply H. rewrite E. apply in_or_app. right. left. reflexivity.
Qed.
Lemma stop_inv_log : forall p s x, stop_inv p s -> x <> Stopped -> (runs x = false \/ l_stop s = false) -> stop_inv p (k_log s x).
Proof.
  intros p s x (r & E & T & K) HX H. exists (r ++ [x]). cbn [k_log l_log l_stop]. spl.
  - rewrite E, <- app_assoc. reflexivity.
  - rewrite T, in_app_iff. cbn. split; [auto|]. intros [Q|[Q|[]]]; [auto|congruence].
  - apply stops_add; auto. destruct H as [H|H]; [auto|]. right. intro Q. apply T in Q. congruence.
Qed.
Lemma stop_inv_steps : forall p s s' d, stop_inv p s -> steps s s' d -> stop_inv p s'.
Proof.
  intros p s s' d (r & E & T & K) (_ & E' & Q & T' & _). exists (r ++ d). spl.
  - rewrite E', E, <- app_assoc. reflexivity.
  - rewrite T', T, in_app_iff. tauto.
  - clear - K Q. revert r K. induction d as [|x d IH]; intros r K; [rewrite app_nil_r; exact K|]. cbn in Q. apply andb_prop in Q. destruct Q as [Q1 Q2].
    replace (r ++ x :: d) with ((r ++ [x]) ++ d) by (rewrite <- app_assoc; reflexivity). apply IH; auto. apply stops_add; auto. left. destruct x; try discriminate; reflexivity.
Qed.
Lemma run_stops : forall ep every s ins o, linv s -> exists r, l_log (run_loop ep every s ins o) = l_log s ++ r /\ stops_ok r /\
  (l_stop (run_loop ep every s ins o) = true <-> In Stopped r).
Proof.
  intros ep every s ins o I. assert (X : LP (stop_inv (l_log s)) (run_loop ep every s ins o)).
  { unfold run_loop. apply loop_pres.
    - intros s0 c I0 H. destruct (call_steps s0 c I0) as [d S]. eapply stop_inv_steps; eauto.
    - intros. apply stop_inv_log; auto. congruence.
    - intros. apply stop_inv_log; auto. congruence.
    - intros s0 k r I0 ST E H. apply stop_inv_log with (s := k_later s0 r (l_nlater s0)); [exact H|congruence|right; exact ST].
    - intros. apply stop_inv_log; auto. congruence.
    - intros. apply stop_inv_log; auto. congruence.
    - split; [destruct I; constructor; assumption|]. exists []. cbn. rewrite app_nil_r. spl; auto; [split; [discriminate|tauto]|].
      intros a b E. destruct a; discriminate.
    - reflexivity. }
  destruct X as [_ (r & E & T & K)]. exists r. auto.
Qed.

(** ** Tasks. *)
Definition task_inv (s : lp) : Prop := asked_of (l_log s) = seq 0 (l_nlater s) /\ (forall past k rest, l_log s = past ++ Later k :: rest -> In (Asked k) past).
Lemma asked_app : forall a b, asked_of (a ++ b) = asked_of a ++ asked_of b.
Proof. intros. apply flat_map_app. Qed.
Lemma lt_other : forall l x, (forall past k rest, l = past ++ Later k :: rest -> In (Asked k) past) -> (forall k, x <> Later k) ->
  forall past k rest, l ++ [x] = past ++ Later k :: rest -> In (Asked k) past.
Proof. intros l x H Hx past k rest E. apply app_one_cons in E. destruct E as [(_ & _ & E)|(r & _ & E)]; [exfalso; eapply Hx; eauto|eauto]. Qed.
Lemma task_log : forall s x, task_inv s -> (forall k, x <> Later k) -> (forall k, x <> Asked k) -> task_inv (k_log s x).
Proof.
  intros s x [A B] H1 H2. split; cbn [k_log l_log l_nlater].
  - rewrite asked_app, A. destruct x; cbn; rewrite ?app_nil_r; try reflexivity. exfalso. eapply H2; reflexivity.
  - apply lt_other; auto.
Qed.
Lemma task_same : forall s s', l_log s' = l_log s -> l_nlater s' = l_nlater s -> task_inv s -> task_inv s'.
Proof. intros s s' E1 E2 [A B]. split; rewrite E1, ?E2; auto. Qed.
Lemma task_unregister : forall s fd c, task_inv s -> task_inv (unregister s fd c).
Proof.
  intros s fd c H. destruct (unregister_shape s fd c) as [[-> _]|(id & k & _ & ->)]; [exact H|].
  apply (task_same (k_log (k_reg s (filter (fun x => negb (is_item c fd x)) (l_reg s)) (id :: l_dead s) (l_next s)) (Unreg id))); [reflexivity|reflexivity|].
  apply task_log; [|congruence|congruence]. apply (task_same s); auto.
Qed.
Lemma task_call : forall s c, linv s -> task_inv s -> task_inv (call s c).
Proof.
  intros s c I H. destruct c; cbn [call].
  - unfold register. destruct (fd <? 0); [exact H|]. cbv zeta. assert (H1 := task_unregister s fd c H). destruct act; cbn [negb]; [|exact H1].
    set (s1 := unregister s fd c) in *. fold (reg_core s1 fd c).
    assert (H2 : task_inv (reg_core s1 fd c)) by (unfold reg_core; apply task_log; [apply (task_same s1); auto|congruence|congruence]).
    destruct (negb _).
    + destruct (epoll_mod_shape (reg_core s1 fd c) fd (poll_events fd (l_reg (reg_core s1 fd c)))) as [k ->]. exact H2.
    + destruct (epoll_add_shape (reg_core s1 fd c) fd (poll_events fd (l_reg (reg_core s1 fd c)))) as [k ->]. exact H2.
  - apply task_unregister; exact H.
  - unfold unregister_all. repeat apply task_unregister. exact H.
  - destruct H as [A B]. split; cbn [k_log k_later l_log l_nlater].
    + rewrite asked_app, A. cbn. rewrite <- (seq_S (l_nlater s) 0) at 1. reflexivity.
    + apply lt_other; [exact B|congruence].
  - apply task_log; [exact H|congruence|congruence].
  - unfold clear_loop. cbv zeta. set (s0 := k_log _ _). assert (H0 : task_inv s0) by (apply task_log; [exact H|congruence|congruence]).
    clearbody s0. generalize (l_reg s0). intro r. revert s0 H0. induction r as [|x r IH]; intros s0 H0; cbn; [exact H0|]. apply IH. apply task_unregister. exact H0.
  - apply task_log; [exact H|congruence|congruence].
  - apply task_log; [exact H|congruence|congruence].
Qed.
Lemma life_tasks : forall ep every segs, tasks_ok (l_log (life ep every segs)).
Proof.
  intros ep every segs. assert (X : LP task_inv (life ep every segs)).
  { apply life_pres.
    - exact task_call.
    - intros. apply task_log; auto; congruence.
    - intros. apply task_log; auto; congruence.
    - intros s k r I ST E [A B]. split; cbn [k_log k_later l_log l_nlater].
      + rewrite asked_app, A. cbn. apply app_nil_r.
      + intros past j rest Q. apply app_one_cons in Q. destruct Q as [(_ & <- & Q)|(r' & _ & Q)]; [|eauto]. injection Q as <-.
        apply (li_asked _ I). assert (F := li_bound _ I). rewrite E, Forall_forall in F. apply F. apply in_or_app. right. left. reflexivity.
    - intros. apply task_log; auto; congruence.
    - intros. apply task_log; auto; congruence.
    - intros s H. exact H.
    - split; [reflexivity|]. intros past k rest E. destruct past; discriminate. }
  destruct X as [I [A B]]. split; [|split; [|exact B]].
  - rewrite A at 1. f_equal. rewrite A, seq_length. reflexivity.
  - eapply sorted_prefix. apply li_sorted. exact I.
Qed.
