(** Lemmas about the run loop: what calls, actions, tasks and cycles do to what happened. *)
From Coq Require Import Sorting.Sorted.
From Verif Require Import Base BaseFacts Loop LoopSpec.
Ltac spl := repeat match goal with |- _ /\ _ => split end.

Lemma cond_eqb_eq : forall a b, cond_eqb a b = true <-> a = b.
Proof. intros [] []; cbn; split; congruence. Qed.

Lemma is_item_eq : forall c fd x, is_item c fd x = true <-> fst x = (c, fd).
Proof.
  intros c fd [[c' fd'] id]. unfold is_item. cbn. rewrite Bool.andb_true_iff, cond_eqb_eq, Z.eqb_eq.
  split; [intros [-> ->]; reflexivity | intro E; injection E as -> ->; auto].
Qed.

Lemma find_item_in : forall c fd r id, find_item c fd r = Some id -> In (c, fd, id) r.
Proof.
  intros c fd r id H. unfold find_item in H. destruct (find (is_item c fd) r) as [[[c' fd'] i]|] eqn:F; cbn in H; [|discriminate].
  apply find_some in F. destruct F as [F1 F2]. apply is_item_eq in F2. cbn in F2. injection F2 as -> ->. injection H as ->. exact F1.
Qed.
Lemma find_item_none : forall c fd r, find_item c fd r = None -> forall id, ~ In (c, fd, id) r.
Proof.
  intros c fd r H id HI. unfold find_item in H. destruct (find (is_item c fd) r) eqn:F; cbn in H; [discriminate|].
  assert (X := find_none _ _ F _ HI). assert (Y : is_item c fd (c, fd, id) = true) by (apply is_item_eq; reflexivity). congruence.
Qed.
Lemma nodup_fst_eq : forall A B (l : list (A * B)) a b b', NoDup (map fst l) -> In (a, b) l -> In (a, b') l -> b = b'.
Proof.
  induction l as [|[x y] l IH]; intros a b b' N H H'; [destruct H|]. cbn in N. inversion N as [|? ? N1 N2]; subst.
  destruct H as [H|H]; destruct H' as [H'|H'].
  - congruence.
  - injection H as -> ->. exfalso. apply N1. apply in_map_iff. exists (a, b'). auto.
  - injection H' as -> ->. exfalso. apply N1. apply in_map_iff. exists (a, b). auto.
  - eauto.
Qed.
Lemma find_item_some : forall c fd r id, NoDup (map fst r) -> In (c, fd, id) r -> find_item c fd r = Some id.
Proof.
  intros c fd r id N HI. destruct (find_item c fd r) as [i|] eqn:F.
  - apply find_item_in in F. f_equal. eapply nodup_fst_eq; eauto.
  - exfalso. eapply find_item_none; eauto.
Qed.

(** ** The invariant. *)
Lemma fate_mono : forall l d k, fate l k -> fate (l ++ d) k.
Proof.
  intros l d k [H|(x & y & -> & H)]; [left; apply in_or_app; auto|]. right. exists x, (y ++ d). rewrite <- app_assoc. split; [reflexivity|]. apply in_or_app. auto.
Qed.
Record linv (s : lp) : Prop := {
  li_dead : forall id, In id (l_dead s) <-> In (Unreg id) (l_log s);
  li_reg : forall c fd id, In (c, fd, id) (l_reg s) <-> stands (l_log s) id fd c;
  li_next : forall id fd c, In (Reg id fd c) (l_log s) -> (id < l_next s)%nat;
  li_unnext : forall id, In (Unreg id) (l_log s) -> (id < l_next s)%nat;
  li_one : forall id fd c fd' c', In (Reg id fd c) (l_log s) -> In (Reg id fd' c') (l_log s) -> fd = fd' /\ c = c';
  li_nodup : NoDup (map fst (l_reg s));
  li_sorted : StronglySorted lt (laters_of (l_log s) ++ l_later s);
  li_bound : Forall (fun k => (k < l_nlater s)%nat) (laters_of (l_log s) ++ l_later s);
  li_asked : forall k, In (Asked k) (l_log s) <-> (k < l_nlater s)%nat;
  li_fate : forall k, In (Asked k) (l_log s) -> In k (l_later s) \/ fate (l_log s) k }.

Definition quiet (x : lev) : bool := match x with Reg _ _ _ | Unreg _ | Stopped | Cleared | Asked _ | Opened _ | Closed _ => true | _ => false end.

(** What the application's calls do. *)
Definition steps (s s' : lp) (d : list lev) : Prop :=
  linv s' /\ l_log s' = l_log s ++ d /\ forallb quiet d = true /\ (l_stop s' = true <-> l_stop s = true \/ In Stopped d) /\
  (In Cleared d \/ exists e, l_later s' = l_later s ++ e).

Lemma steps_refl : forall s, linv s -> steps s s [].
Proof. intros s I. unfold steps. spl; auto; [rewrite app_nil_r; reflexivity | cbn; tauto | right; exists []; rewrite app_nil_r; reflexivity]. Qed.
Lemma steps_trans : forall s s1 s2 d1 d2, steps s s1 d1 -> steps s1 s2 d2 -> steps s s2 (d1 ++ d2).
Proof.
  intros s s1 s2 d1 d2 (A1 & A2 & A3 & A4 & A5) (B1 & B2 & B3 & B4 & B5). unfold steps. spl.
  - exact B1.
  - rewrite B2, A2, app_assoc. reflexivity.
  - rewrite forallb_app, A3, B3. reflexivity.
  - rewrite B4, A4, in_app_iff. tauto.
  - destruct A5 as [A5|[n A5]]; [left; apply in_or_app; auto|]. destruct B5 as [B5|[m B5]]; [left; apply in_or_app; auto|].
    right. exists (n ++ m). rewrite B5, A5, app_assoc. reflexivity.
Qed.

(** The interest list is not part of the invariant. *)
Lemma linv_kern : forall s k f, linv s -> linv (k_kern s k f).
Proof. intros s k f []. constructor; assumption. Qed.
Lemma steps_kern : forall s s' d k f, steps s s' d -> steps s (k_kern s' k f) d.
Proof. intros s s' d k f (A & B). split; [apply linv_kern; exact A | exact B]. Qed.
Lemma epoll_add_shape : forall s fd m, exists k, epoll_add s fd m = k_kern s k (l_files s).
Proof. intros. unfold epoll_add. destruct (_ && _); [eexists; reflexivity | exists (l_kern s); destruct s; reflexivity]. Qed.
Lemma epoll_mod_shape : forall s fd m, exists k, epoll_mod s fd m = k_kern s k (l_files s).
Proof. intros. unfold epoll_mod. destruct (kern_has _ _); [eexists; reflexivity | exists (l_kern s); destruct s; reflexivity]. Qed.
Lemma k_kern_kern : forall s k f, k_kern s k f = k_kern (k_kern s (l_kern s) (l_files s)) k f.
Proof. reflexivity. Qed.

Lemma laters_app : forall a b, laters_of (a ++ b) = laters_of a ++ laters_of b.
Proof. intros. unfold laters_of. apply flat_map_app. Qed.
Lemma laters_quiet : forall d, forallb quiet d = true -> laters_of d = [].
Proof. induction d as [|x d IH]; intro H; [reflexivity|]. cbn in H. apply andb_prop in H. destruct H as [H1 H2]. destruct x; try discriminate; cbn; auto. Qed.

Lemma nodup_filter_fst : forall A B (f : A * B -> bool) l, NoDup (map fst l) -> NoDup (map fst (filter f l)).
Proof.
  induction l as [|x l IH]; intro N; cbn; [constructor|]. cbn in N. inversion N as [|? ? N1 N2]; subst.
  destruct (f x); cbn; auto. constructor; auto. intro H. apply N1. apply in_map_iff in H. destruct H as (y & E & HI). apply filter_In in HI.
  apply in_map_iff. exists y. tauto.
Qed.

Definition unreg_core (s : lp) (fd : Z) (c : cond) (id : nat) : lp :=
  k_log (k_reg s (filter (fun x => negb (is_item c fd x)) (l_reg s)) (id :: l_dead s) (l_next s)) (Unreg id).
Lemma unregister_shape : forall s fd c, unregister s fd c = s /\ find_item c fd (l_reg s) = None \/
  exists id k, find_item c fd (l_reg s) = Some id /\ unregister s fd c = k_kern (unreg_core s fd c id) k (l_files s).
Proof.
  intros s fd c. unfold unregister. destruct (find_item c fd (l_reg s)) as [id|] eqn:F; [|auto]. right. exists id. cbv zeta.
  fold (unreg_core s fd c id). destruct (poll_events fd (l_reg (unreg_core s fd c id))) eqn:P.
  - eexists. split; [reflexivity|]. reflexivity.
  - destruct (epoll_mod_shape (unreg_core s fd c id) fd (c0 :: l)) as [k E]. exists k. split; [reflexivity|]. exact E.
Qed.

Lemma unreg_core_steps : forall s fd c id, linv s -> find_item c fd (l_reg s) = Some id -> steps s (unreg_core s fd c id) [Unreg id].
Proof.
  intros s fd c id I F. assert (HI := find_item_in _ _ _ _ F). destruct I as [D R N U O ND LS LB LA LF].
  assert (Hst := proj1 (R _ _ _) HI). destruct Hst as [HR HU].
  unfold steps, unreg_core. cbn [k_log k_reg l_log l_stop l_later l_reg]. spl; auto.
  2: { cbn. intuition discriminate. }
  2: { right. exists []. rewrite app_nil_r. reflexivity. }
  constructor; cbn [k_log k_reg l_log l_stop l_later l_reg l_dead l_next l_nlater].
  - intro i. rewrite in_app_iff. cbn. rewrite D. split; [intros [->|H]; auto | intros [H|[H|[]]]; auto; injection H as ->; auto].
  - intros c' fd' i. rewrite filter_In. unfold stands. rewrite !in_app_iff. cbn. rewrite R. unfold stands.
    rewrite Bool.negb_true_iff. split.
    + intros [[H1 H2] H3]. split; [auto|]. intros [H|[H|[]]]; [auto|]. injection H as ->. destruct (O _ _ _ _ _ H1 HR) as [-> ->].
      assert (X : is_item c fd (c, fd, i) = true) by (apply is_item_eq; reflexivity). congruence.
    + intros [[H1|[H1|[]]] H2]; [|discriminate]. split; [split; auto|].
      destruct (is_item c fd (c', fd', i)) eqn:Q; [|reflexivity]. apply is_item_eq in Q. cbn in Q. injection Q as -> ->.
      exfalso. apply H2. right. left. f_equal. assert (X : In (c, fd, i) (l_reg s)) by (apply R; split; auto).
      eapply nodup_fst_eq; eauto.
  - intros i fd' c' H. apply in_app_iff in H. cbn in H. destruct H as [H|[H|[]]]; [eauto|discriminate].
  - intros i H. apply in_app_iff in H. cbn in H. destruct H as [H|[H|[]]]; [eauto|]. injection H as ->. eauto.
  - intros i f1 c1 f2 c2 H1 H2. apply in_app_iff in H1, H2. cbn in H1, H2.
    destruct H1 as [H1|[H1|[]]]; [|discriminate]. destruct H2 as [H2|[H2|[]]]; [|discriminate]. eauto.
  - apply nodup_filter_fst. exact ND.
  - rewrite laters_app. cbn. rewrite app_nil_r. exact LS.
  - rewrite laters_app. cbn. rewrite app_nil_r. exact LB.
  - intro k. rewrite in_app_iff, <- LA. cbn. intuition discriminate.
  - intros k H. apply in_app_iff in H. destruct H as [H|[H|[]]]; [|discriminate]. destruct (LF k H); [auto|right; apply fate_mono; auto].
Qed.

Lemma unregister_steps : forall s fd c, linv s -> exists d, steps s (unregister s fd c) d.
Proof.
  intros s fd c I. destruct (unregister_shape s fd c) as [[-> _]|(id & k & F & ->)].
  - exists []. apply steps_refl. exact I.
  - exists [Unreg id]. apply steps_kern. apply unreg_core_steps; auto.
Qed.
Lemma unregister_gone : forall s fd c, linv s -> find_item c fd (l_reg (unregister s fd c)) = None.
Proof.
  intros s fd c I. destruct (unregister_shape s fd c) as [[-> F]|(id & k & F & ->)]; [exact F|].
  clear F. unfold unreg_core. cbn [k_kern l_reg k_log k_reg]. destruct (find_item c fd _) eqn:Q; [|reflexivity].
  apply find_item_in in Q. apply filter_In in Q. destruct Q as [_ Q]. apply Bool.negb_true_iff in Q.
  assert (X : is_item c fd (c, fd, n) = true) by (apply is_item_eq; reflexivity). congruence.
Qed.

Lemma NoDup_app_one : forall A (l : list A) x, NoDup l -> ~ In x l -> NoDup (l ++ [x]).
Proof.
  induction l as [|y l IH]; intros x N H; cbn; [constructor; auto; constructor|]. inversion N as [|? ? N1 N2]; subst. constructor.
  - rewrite in_app_iff. intros [Q|[Q|[]]]; [auto|]. subst. apply H. left. reflexivity.
  - apply IH; auto. intro Q. apply H. right. exact Q.
Qed.
Definition reg_core (s : lp) (fd : Z) (c : cond) : lp := k_log (k_reg s (l_reg s ++ [(c, fd, l_next s)]) (l_dead s) (S (l_next s))) (Reg (l_next s) fd c).
Lemma reg_core_steps : forall s fd c, linv s -> find_item c fd (l_reg s) = None -> steps s (reg_core s fd c) [Reg (l_next s) fd c].
Proof.
  intros s fd c I F. assert (HI := find_item_none _ _ _ F). destruct I as [D R N U O ND LS LB LA LF].
  unfold steps, reg_core. cbn [k_log k_reg l_log l_stop l_later l_reg]. spl; auto.
  2: { cbn. intuition discriminate. }
  2: { right. exists []. rewrite app_nil_r. reflexivity. }
  constructor; cbn [k_log k_reg l_log l_stop l_later l_reg l_dead l_next l_nlater].
  - intro i. rewrite in_app_iff. cbn. rewrite D. intuition discriminate.
  - intros c' fd' i. unfold stands. rewrite !in_app_iff. cbn. rewrite R. unfold stands. split.
    + intros [[H1 H2]|[H|[]]]; [split; auto; intros [H|[H|[]]]; [auto|discriminate]|]. injection H as <- <- <-. split; [auto|].
      intros [H|[H|[]]]; [|discriminate]. apply U in H. lia.
    + intros [[H1|[H1|[]]] H2].
      * left. split; auto.
      * injection H1 as -> -> ->. auto.
  - intros i fd' c' H. apply in_app_iff in H. cbn in H. destruct H as [H|[H|[]]]; [apply N in H; lia | injection H as <- _ _; lia].
  - intros i H. apply in_app_iff in H. cbn in H. destruct H as [H|[H|[]]]; [apply U in H; lia | discriminate].
  - intros i f1 c1 f2 c2 H1 H2. apply in_app_iff in H1, H2. cbn in H1, H2.
    destruct H1 as [H1|[H1|[]]]; destruct H2 as [H2|[H2|[]]].
    + eauto.
    + injection H2 as <- <- <-. apply N in H1. lia.
    + injection H1 as <- <- <-. apply N in H2. lia.
    + split; congruence.
  - rewrite map_app. cbn. apply NoDup_app_one; [exact ND|]. intro H. apply in_map_iff in H. destruct H as ([x i] & E & HI'). cbn in E. subst x. eapply HI; eauto.
  - rewrite laters_app. cbn. rewrite app_nil_r. exact LS.
  - rewrite laters_app. cbn. rewrite app_nil_r. exact LB.
  - intro k. rewrite in_app_iff, <- LA. cbn. intuition discriminate.
  - intros k H. apply in_app_iff in H. destruct H as [H|[H|[]]]; [|discriminate]. destruct (LF k H); [auto|right; apply fate_mono; auto].
Qed.

Lemma register_steps : forall s fd c act, linv s -> exists d, steps s (register s fd c act) d.
Proof.
  intros s fd c act I. unfold register. destruct (fd <? 0); [exists []; apply steps_refl; exact I|]. cbv zeta.
  destruct (unregister_steps s fd c I) as [d1 S1]. destruct act; cbn [negb]; [|exists d1; exact S1].
  assert (I1 := proj1 S1). assert (G := unregister_gone s fd c I). set (s1 := unregister s fd c) in *.
  assert (S2 := reg_core_steps s1 fd c I1 G). fold (reg_core s1 fd c).
  exists (d1 ++ [Reg (l_next s1) fd c]).
  destruct (negb (length (poll_events fd (l_reg s1)) =? 0)%nat).
  - destruct (epoll_mod_shape (reg_core s1 fd c) fd (poll_events fd (l_reg (reg_core s1 fd c)))) as [k ->]. apply steps_kern. eapply steps_trans; eauto.
  - destruct (epoll_add_shape (reg_core s1 fd c) fd (poll_events fd (l_reg (reg_core s1 fd c)))) as [k ->]. apply steps_kern. eapply steps_trans; eauto.
Qed.

Lemma unregister_all_steps : forall s fd, linv s -> exists d, steps s (unregister_all s fd) d.
Proof.
  intros s fd I. unfold unregister_all.
  destruct (unregister_steps s fd RD I) as [d1 S1]. destruct (unregister_steps _ fd WR (proj1 S1)) as [d2 S2].
  destruct (unregister_steps _ fd EX (proj1 S2)) as [d3 S3]. eexists. eapply steps_trans; [eapply steps_trans; eauto|eauto].
Qed.

Lemma sorted_prefix : forall (a b : list nat), StronglySorted lt (a ++ b) -> StronglySorted lt a.
Proof.
  induction a as [|x a IH]; intros b H; [constructor|]. inversion H as [|? ? H1 H2]; subst. constructor; [eauto|].
  apply Forall_app in H2. tauto.
Qed.
Lemma sorted_snoc : forall (a : list nat) x, StronglySorted lt a -> Forall (fun k => (k < x)%nat) a -> StronglySorted lt (a ++ [x]).
Proof.
  induction a as [|y a IH]; intros x S F; cbn; [constructor; constructor|]. inversion S as [|? ? S1 S2]; subst. inversion F as [|? ? F1 F2]; subst.
  constructor; [auto|]. apply Forall_app. split; auto.
Qed.

(** An event that is neither a registration nor a task. *)
Lemma linv_log : forall s x, linv s -> (forall id fd c, x <> Reg id fd c) -> (forall id, x <> Unreg id) -> (forall k, x <> Later k) -> (forall k, x <> Asked k) -> linv (k_log s x).
Proof.
  intros s x [D R N U O ND LS LB LA LF] H1 H2 H3 H4.
  assert (E : laters_of (l_log s ++ [x]) = laters_of (l_log s)).
  { rewrite laters_app. destruct x; cbn; rewrite ?app_nil_r; try reflexivity. exfalso. eapply H3; reflexivity. }
  constructor; cbn [k_log l_log l_dead l_reg l_next l_later l_nlater].
  - intro i. rewrite in_app_iff, D. cbn. split; [auto|]. intros [H|[H|[]]]; [auto|]. exfalso. eapply H2; eauto.
  - intros c fd i. rewrite R. unfold stands. rewrite !in_app_iff. cbn. split.
    + intros [A B]. split; [auto|]. intros [H|[H|[]]]; [auto|]. eapply H2; eauto.
    + intros [[A|[A|[]]] B]; [split; auto|]. exfalso. eapply H1; eauto.
  - intros i fd c H. apply in_app_iff in H. destruct H as [H|[H|[]]]; [eauto|]. exfalso. eapply H1; eauto.
  - intros i H. apply in_app_iff in H. destruct H as [H|[H|[]]]; [eauto|]. exfalso. eapply H2; eauto.
  - intros i f1 c1 f2 c2 A B. apply in_app_iff in A, B. destruct A as [A|[A|[]]]; [|exfalso; eapply H1; eauto].
    destruct B as [B|[B|[]]]; [|exfalso; eapply H1; eauto]. eauto.
  - exact ND.
  - rewrite E. exact LS.
  - rewrite E. exact LB.
  - intro k. rewrite in_app_iff, <- LA. cbn. split; [|auto]. intros [H|[H|[]]]; [auto|]. exfalso. eapply H4; eauto.
  - intros k H. apply in_app_iff in H. destruct H as [H|[H|[]]]; [|exfalso; eapply H4; eauto]. destruct (LF k H); [auto|right; apply fate_mono; auto].
Qed.

Lemma clear_steps : forall s, linv s -> exists d, steps s (clear_loop s) d.
Proof.
  intros s I. unfold clear_loop.
  set (s0 := k_log (k_later s [] (l_nlater s)) Cleared).
  assert (S0 : steps s s0 [Cleared]).
  { unfold steps. subst s0. cbn [k_log k_later l_log l_stop l_later]. spl; auto.
    2: { cbn. intuition discriminate. }
    2: { left. left. reflexivity. }
    destruct I as [D R N U O ND LS LB LA LF]. constructor; cbn [k_log k_later l_log l_dead l_reg l_next l_later l_nlater]; auto.
    - intro i. rewrite in_app_iff, D. cbn. intuition discriminate.
    - intros c fd i. rewrite R. unfold stands. rewrite !in_app_iff. cbn. intuition discriminate.
    - intros i fd c H. apply in_app_iff in H. destruct H as [H|[H|[]]]; [eauto|discriminate].
    - intros i H. apply in_app_iff in H. destruct H as [H|[H|[]]]; [eauto|discriminate].
    - intros i f1 c1 f2 c2 A B. apply in_app_iff in A, B. destruct A as [A|[A|[]]]; [|discriminate]. destruct B as [B|[B|[]]]; [|discriminate]. eauto.
    - rewrite laters_app. cbn. rewrite !app_nil_r. eapply sorted_prefix; eauto.
    - rewrite laters_app. cbn. rewrite !app_nil_r. apply Forall_app in LB. tauto.
    - intro k. rewrite in_app_iff, <- LA. cbn. intuition discriminate.
    - intros k H. right. apply in_app_iff in H. destruct H as [H|[H|[]]]; [|discriminate]. right.
      apply in_split in H. destruct H as (x & y & H). exists x, (y ++ [Cleared]). rewrite H, <- app_assoc. split; [reflexivity|]. apply in_or_app. right. left. reflexivity. }
  cbv zeta. generalize (l_reg s0). intro r.
  cut (forall s1 d1, steps s s1 d1 -> exists d, steps s (fold_left (fun s x => unregister s (snd (fst x)) (fst (fst x))) r s1) d).
  { intro K. eapply K. exact S0. }
  clear. induction r as [|x r IH]; intros s1 d1 S1; cbn; [eauto|].
  destruct (unregister_steps s1 (snd (fst x)) (fst (fst x)) (proj1 S1)) as [d2 S2]. eapply IH. eapply steps_trans; eauto.
Qed.

Lemma call_steps : forall s c, linv s -> exists d, steps s (call s c) d.
Proof.
  intros s c I. destruct c; cbn [call].
  - apply register_steps; exact I.
  - apply unregister_steps; exact I.
  - apply unregister_all_steps; exact I.
  - exists [Asked (l_nlater s)]. unfold steps. cbn [k_log k_later l_log l_stop l_later]. spl; auto.
    2: { cbn. intuition discriminate. }
    2: { right. eexists. reflexivity. }
    destruct I as [D R N U O ND LS LB LA LF]. constructor; cbn [k_log k_later l_log l_dead l_reg l_next l_later l_nlater]; auto.
    + intro i. rewrite in_app_iff, D. cbn. intuition discriminate.
    + intros c fd i. rewrite R. unfold stands. rewrite !in_app_iff. cbn. intuition discriminate.
    + intros i fd c H. apply in_app_iff in H. destruct H as [H|[H|[]]]; [eauto|discriminate].
    + intros i H. apply in_app_iff in H. destruct H as [H|[H|[]]]; [eauto|discriminate].
    + intros i f1 c1 f2 c2 A B. apply in_app_iff in A, B. destruct A as [A|[A|[]]]; [|discriminate]. destruct B as [B|[B|[]]]; [|discriminate]. eauto.
    + rewrite laters_app. cbn. rewrite app_nil_r, app_assoc. apply sorted_snoc; auto.
    + rewrite laters_app. cbn. rewrite app_nil_r, app_assoc. apply Forall_app. split; [|constructor; [lia|constructor]].
      eapply Forall_impl; [|exact LB]. cbn. intros; lia.
    + intro k. rewrite in_app_iff, LA. cbn. split; [intros [H|[H|[]]]; [lia|injection H as <-; lia]|].
      intro H. destruct (Nat.eq_dec k (l_nlater s)) as [->|]; [auto|]. left. lia.
    + intros k H. apply in_app_iff in H. destruct H as [H|[H|[]]].
      * destruct (LF k H) as [X|X]; [left; apply in_or_app; auto|right; apply fate_mono; auto].
      * injection H as <-. left. apply in_or_app. right. left. reflexivity.
  - exists [Stopped]. unfold steps. cbn [k_log k_stop l_log l_stop l_later]. spl; auto.
    + apply linv_log; [|congruence|congruence|congruence|congruence]. destruct I. constructor; assumption.
    + cbn. tauto.
    + right. exists []. rewrite app_nil_r. reflexivity.
  - apply clear_steps; exact I.
  - exists [Opened fd]. unfold steps. cbn [k_log k_kern l_log l_stop l_later]. spl; auto.
    + apply linv_log; [|congruence|congruence|congruence|congruence]. apply linv_kern. exact I.
    + cbn. intuition discriminate.
    + right. exists []. rewrite app_nil_r. reflexivity.
  - exists [Closed fd]. unfold steps. cbn [k_log k_kern l_log l_stop l_later]. spl; auto.
    + apply linv_log; [|congruence|congruence|congruence|congruence]. apply linv_kern. exact I.
    + cbn. intuition discriminate.
    + right. exists []. rewrite app_nil_r. reflexivity.
Qed.
Lemma calls_steps : forall cs s, linv s -> exists d, steps s (calls s cs) d.
Proof.
  induction cs as [|c cs IH]; intros s I; cbn; [exists []; apply steps_refl; exact I|].
  destruct (call_steps s c I) as [d1 S1]. destruct (IH _ (proj1 S1)) as [d2 S2]. exists (d1 ++ d2). eapply steps_trans; eauto.
Qed.
Lemma callback_steps : forall s o s' o', linv s -> callback s o = (s', o') -> exists d, steps s s' d.
Proof.
  intros s o s' o' I H. unfold callback in H. destruct o as [|cs o]; injection H as <- <-; [exists []; apply steps_refl; exact I|apply calls_steps; exact I].
Qed.
Lemma linv_new : linv lp_new.
Proof. constructor; cbn; unfold stands; cbn; try tauto; try constructor; try tauto; lia. Qed.
