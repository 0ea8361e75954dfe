(** Lemmas about the run loop: epoll's interest list. *)
From Verif Require Import Base BaseFacts Loop LoopSpec LoopProofs LoopRun LoopCycle LoopKern.

Definition has_item (c : cond) (fd : Z) (r : list (cond * Z * nat)) : Prop := exists id, In (c, fd, id) r.
Lemma find_item_has : forall c fd r, (match find_item c fd r with Some _ => true | None => false end) = true <-> has_item c fd r.
Proof.
  intros. destruct (find_item c fd r) eqn:F.
  - split; [|auto]. intros _. exists n. apply find_item_in. exact F.
  - split; [discriminate|]. intros [id H]. exfalso. eapply find_item_none; eauto.
Qed.
Lemma pe_in : forall c fd r, In c (poll_events fd r) <-> has_item c fd r.
Proof.
  intros. unfold poll_events. rewrite filter_In, find_item_has. split; [tauto|]. intro H. split; [|auto]. destruct c; cbn; auto.
Qed.
Lemma pe_ext : forall fd r r', (forall c, has_item c fd r <-> has_item c fd r') -> poll_events fd r = poll_events fd r'.
Proof.
  intros fd r r' H. unfold poll_events. apply filter_ext. intro c. apply Bool.eq_iff_eq_true. rewrite !find_item_has. apply H.
Qed.
Lemma pe_drop : forall c fd fd' r, fd' <> fd -> poll_events fd' (filter (fun x => negb (is_item c fd x)) r) = poll_events fd' r.
Proof.
  intros c fd fd' r N. apply pe_ext. intro c'. unfold has_item. split; intros [id H]; exists id; [apply filter_In in H; tauto|].
  apply filter_In. split; [auto|]. apply Bool.negb_true_iff. destruct (is_item c fd (c', fd', id)) eqn:Q; [|reflexivity]. apply is_item_eq in Q. cbn in Q. congruence.
Qed.
Lemma pe_add : forall c fd id fd' r, fd' <> fd -> poll_events fd' (r ++ [(c, fd, id)]) = poll_events fd' r.
Proof.
  intros c fd id fd' r N. apply pe_ext. intro c'. unfold has_item. split; intros [i H]; exists i.
  - apply in_app_iff in H. destruct H as [H|[H|[]]]; [auto|congruence].
  - apply in_or_app. auto.
Qed.

(** ** The interest list as a map. *)
Definition kok (r : list (cond * Z * nat)) (k : list (Z * list cond)) : Prop :=
  NoDup (map fst k) /\ forall fd m, In (fd, m) k -> m = poll_events fd r /\ m <> [].
Definition kall (r : list (cond * Z * nat)) (k : list (Z * list cond)) : Prop := forall fd, poll_events fd r <> [] -> kern_has fd k = true.
Lemma kern_has_in : forall fd k, kern_has fd k = true <-> exists m, In (fd, m) k.
Proof.
  intros. unfold kern_has. rewrite existsb_exists. split.
  - intros ([f m] & H & E). apply Z.eqb_eq in E. cbn in E. subst. eauto.
  - intros (m & H). exists (fd, m). split; [auto|]. apply Z.eqb_refl.
Qed.
Lemma kern_drop_in : forall fd k f m, In (f, m) (kern_drop fd k) <-> In (f, m) k /\ f <> fd.
Proof. intros. unfold kern_drop. rewrite filter_In, Bool.negb_true_iff. cbn. rewrite Z.eqb_neq. reflexivity. Qed.
Lemma kern_drop_nodup : forall fd k, NoDup (map fst k) -> NoDup (map fst (kern_drop fd k)) /\ ~ In fd (map fst (kern_drop fd k)).
Proof.
  intros fd k N. split; [apply nodup_filter_fst; exact N|]. intro H. apply in_map_iff in H. destruct H as ([f m] & E & H). cbn in E. subst f. apply kern_drop_in in H. tauto.
Qed.

Definition elsewhere fd (r r' : list (cond * Z * nat)) : Prop := forall f, f <> fd -> poll_events f r' = poll_events f r.
Lemma kok_del : forall r r' k fd, kok r k -> elsewhere fd r r' -> kok r' (kern_drop fd k).
Proof.
  intros r r' k fd [N K] E. split; [apply kern_drop_nodup; exact N|]. intros f m H. apply kern_drop_in in H. destruct H as [H NF]. rewrite (E f NF). apply K. exact H.
Qed.
Lemma kok_set : forall r r' k fd, kok r k -> elsewhere fd r r' -> poll_events fd r' <> [] -> kok r' ((fd, poll_events fd r') :: kern_drop fd k).
Proof.
  intros r r' k fd K E P. assert (K' := kok_del r r' k fd K E). destruct K as [N K], K' as [N' K']. split.
  - cbn. constructor; [apply kern_drop_nodup; exact N|exact N'].
  - intros f m [H|H]; [injection H as <- <-; auto|apply K'; exact H].
Qed.
Lemma kern_drop_none : forall fd k, kern_has fd k = false -> kern_drop fd k = k.
Proof.
  intros fd k H. unfold kern_drop. induction k as [|[f m] k IH]; [reflexivity|]. cbn in H |- *. apply Bool.orb_false_iff in H. destruct H as [H1 H2].
  rewrite H1. cbn. f_equal. apply IH. exact H2.
Qed.
Lemma kok_absent : forall r r' k fd, kok r k -> elsewhere fd r r' -> kern_has fd k = false -> kok r' k.
Proof. intros r r' k fd K E H. rewrite <- (kern_drop_none fd k H). eapply kok_del; eauto. Qed.
Lemma kall_del : forall r r' k fd, kall r k -> elsewhere fd r r' -> poll_events fd r' = [] -> kall r' (kern_drop fd k).
Proof.
  intros r r' k fd A E P f H. assert (NF : f <> fd) by congruence. rewrite (E f NF) in H. apply A in H. apply kern_has_in in H. destruct H as [m H].
  apply kern_has_in. exists m. apply kern_drop_in. auto.
Qed.
Lemma kall_set : forall r r' k fd m, kall r k -> elsewhere fd r r' -> kall r' ((fd, m) :: kern_drop fd k).
Proof.
  intros r r' k fd m A E f H. apply kern_has_in. destruct (Z.eq_dec f fd) as [->|NF]; [exists m; left; reflexivity|].
  rewrite (E f NF) in H. apply A in H. apply kern_has_in in H. destruct H as [m' H]. exists m'. right. apply kern_drop_in. auto.
Qed.

(** ** Open descriptors. *)
Lemma open_snoc : forall l x fd, open_at (l ++ [x]) fd <-> x = Opened fd \/ (open_at l fd /\ x <> Closed fd).
Proof.
  intros l x fd. split.
  - intros (a & b & E & N). apply app_one_cons in E. destruct E as [(_ & _ & E)|(b' & -> & E)]; [auto|]. right. split.
    + exists a, b'. split; [exact E|]. intro H. apply N. apply in_or_app. auto.
    + intros ->. apply N. apply in_or_app. right. left. reflexivity.
  - intros [->|[(a & b & -> & N) H]].
    + exists l, []. auto.
    + exists a, (b ++ [x]). rewrite <- app_assoc. split; [reflexivity|]. intro Q. apply in_app_iff in Q. destruct Q as [Q|[Q|[]]]; auto.
Qed.
Lemma proper_app : forall a b, proper (a ++ b) -> proper a.
Proof.
  intros a b [P1 P2]. split.
  - intros past id fd c rest E. apply (P1 past id fd c (rest ++ b)). rewrite E, <- app_assoc. reflexivity.
  - intros past fd rest E. apply (P2 past fd (rest ++ b)). rewrite E, <- app_assoc. reflexivity.
Qed.

(** What holds all the time. *)
Definition winv (s : lp) : Prop :=
  kok (l_reg s) (l_kern s) /\ (forall fd, In fd (l_files s) <-> open_at (l_log s) fd) /\
  (proper (l_log s) -> kall (l_reg s) (l_kern s) /\ forall c fd id, In (c, fd, id) (l_reg s) -> In fd (l_files s)).

Lemma winv_log : forall s x, winv s -> (forall fd, x <> Opened fd) -> (forall fd, x <> Closed fd) -> winv (k_log s x).
Proof.
  intros s x (K & F & P) H1 H2. split; [exact K|]. split; cbn [k_log l_log l_files l_reg l_kern].
  - intro fd. rewrite F, open_snoc. split; [intro H; right; split; auto|]. intros [H|[H _]]; [exfalso; eapply H1; eauto|auto].
  - intro H. apply P. eapply proper_app; eauto.
Qed.

Lemma winv_unregister : forall s fd c, linv s -> winv s -> winv (unregister s fd c).
Proof.
  intros s fd c I W. unfold unregister. destruct (find_item c fd (l_reg s)) as [id|] eqn:F; [|exact W]. cbv zeta.
  set (r' := filter (fun x => negb (is_item c fd x)) (l_reg s)).
  assert (E : elsewhere fd (l_reg s) r') by (intros f NF; apply pe_drop; exact NF).
  assert (PF : poll_events fd (l_reg s) <> []).
  { intro Q. assert (X : In c (poll_events fd (l_reg s))) by (apply pe_in; exists id; apply find_item_in; exact F). rewrite Q in X. destruct X. }
  destruct W as (K & FI & P).
  assert (FI' : forall f, In f (l_files s) <-> open_at (l_log s ++ [Unreg id]) f).
  { intro f. rewrite FI, open_snoc. split; [intro; right; split; [auto|congruence]|]. intros [H|[H _]]; [discriminate|auto]. }
  assert (P' : proper (l_log s ++ [Unreg id]) -> kall (l_reg s) (l_kern s) /\ forall c0 f i, In (c0, f, i) r' -> In f (l_files s)).
  { intro H. apply proper_app in H. destruct (P H) as [P1 P2]. split; [exact P1|]. intros c0 f i HI. apply filter_In in HI. eapply P2. apply HI. }
  cbn [k_log k_reg l_reg]. fold r'. destruct (poll_events fd r') as [|c0 m] eqn:PE.
  - unfold epoll_del. cbn [k_log k_reg k_kern l_kern l_files]. split; [|split]; cbn [k_log k_reg k_kern l_kern l_files l_reg l_log].
    + eapply kok_del; eauto.
    + exact FI'.
    + intro H. destruct (P' H) as [P1 P2]. split; [|exact P2]. eapply kall_del; eauto.
  - rewrite <- PE. unfold epoll_mod. cbn [k_log k_reg k_kern l_kern l_files]. destruct (kern_has fd (l_kern s)) eqn:HK.
    + split; [|split]; cbn [k_log k_reg k_kern l_kern l_files l_reg l_log].
      * eapply kok_set; eauto. rewrite PE. discriminate.
      * exact FI'.
      * intro H. destruct (P' H) as [P1 P2]. split; [|exact P2]. eapply kall_set; eauto.
    + split; [|split]; cbn [k_log k_reg k_kern l_kern l_files l_reg l_log].
      * eapply kok_absent; eauto.
      * exact FI'.
      * intro H. destruct (P' H) as [P1 P2]. exfalso. specialize (P1 fd PF). congruence.
Qed.

Lemma winv_register : forall s fd c act, linv s -> winv s -> winv (register s fd c act).
Proof.
  intros s fd c act I W. unfold register. destruct (fd <? 0); [exact W|]. cbv zeta.
  assert (W1 := winv_unregister s fd c I W). destruct act; cbn [negb]; [|exact W1].
  assert (I1 : linv (unregister s fd c)) by (destruct (unregister_steps s fd c I) as [d S]; apply S).
  set (s1 := unregister s fd c) in *. clearbody s1.
  set (r' := l_reg s1 ++ [(c, fd, l_next s1)]).
  assert (E : elsewhere fd (l_reg s1) r') by (intros f NF; apply pe_add; exact NF).
  assert (PE : poll_events fd r' <> []).
  { intro Q. assert (X : In c (poll_events fd r')) by (apply pe_in; exists (l_next s1); apply in_or_app; right; left; reflexivity). rewrite Q in X. destruct X. }
  destruct W1 as (K & FI & P).
  set (l' := l_log s1 ++ [Reg (l_next s1) fd c]).
  assert (FI' : forall f, In f (l_files s1) <-> open_at l' f).
  { intro f. unfold l'. rewrite FI, open_snoc. split; [intro; right; split; [auto|congruence]|]. intros [H|[H _]]; [discriminate|auto]. }
  assert (P' : proper l' -> In fd (l_files s1) /\ kall (l_reg s1) (l_kern s1) /\ forall c0 f i, In (c0, f, i) r' -> In f (l_files s1)).
  { intro H. assert (H0 := proper_app _ _ H). destruct (P H0) as [P1 P2].
    assert (HO : In fd (l_files s1)) by (apply FI; apply (proj1 H (l_log s1) (l_next s1) fd c []); reflexivity).
    split; [exact HO|]. split; [exact P1|]. intros c0 f i HI. apply in_app_iff in HI. destruct HI as [HI|[HI|[]]]; [eauto|]. injection HI as _ <- _. exact HO. }
  cbn [k_log k_reg l_reg]. fold r'.
  destruct (poll_events fd (l_reg s1)) as [|c0 m] eqn:PB; cbn [length Nat.eqb negb].
  - assert (NK : kern_has fd (l_kern s1) = false).
    { destruct (kern_has fd (l_kern s1)) eqn:Q; [|reflexivity]. apply kern_has_in in Q. destruct Q as [m Q]. destruct (proj2 K fd m Q) as [A B]. congruence. }
    unfold epoll_add. cbn [k_log k_reg k_kern l_kern l_files]. rewrite NK. cbn [negb]. rewrite Bool.andb_true_r.
    destruct (existsb (Z.eqb fd) (l_files s1)) eqn:EX; (split; [|split]); cbn [k_log k_reg k_kern l_kern l_files l_reg l_log]; fold r' l'.
    + rewrite <- (kern_drop_none fd (l_kern s1) NK). eapply kok_set; eauto.
    + exact FI'.
    + intro H. destruct (P' H) as (P0 & P1 & P2). split; [|exact P2]. rewrite <- (kern_drop_none fd (l_kern s1) NK). eapply kall_set; eauto.
    + eapply kok_absent; eauto.
    + exact FI'.
    + intro H. destruct (P' H) as (P0 & P1 & P2). exfalso. assert (X : existsb (Z.eqb fd) (l_files s1) = true) by (apply existsb_exists; exists fd; split; [exact P0|apply Z.eqb_refl]). congruence.
  - assert (PF : poll_events fd (l_reg s1) <> []) by (rewrite PB; discriminate).
    unfold epoll_mod. cbn [k_log k_reg k_kern l_kern l_files]. destruct (kern_has fd (l_kern s1)) eqn:HK; (split; [|split]); cbn [k_log k_reg k_kern l_kern l_files l_reg l_log]; fold r' l'.
    + eapply kok_set; eauto.
    + exact FI'.
    + intro H. destruct (P' H) as (P0 & P1 & P2). split; [|exact P2]. eapply kall_set; eauto.
    + eapply kok_absent; eauto.
    + exact FI'.
    + intro H. destruct (P' H) as (P0 & P1 & P2). exfalso. specialize (P1 fd PF). congruence.
Qed.

Lemma winv_same : forall s s', l_reg s' = l_reg s -> l_kern s' = l_kern s -> l_files s' = l_files s -> l_log s' = l_log s -> winv s -> winv s'.
Proof. intros s s' E1 E2 E3 E4 W. unfold winv in *. rewrite E1, E2, E3, E4. exact W. Qed.

Lemma unregister_linv : forall s fd c, linv s -> linv (unregister s fd c).
Proof. intros s fd c I. destruct (unregister_steps s fd c I) as [d S]. apply S. Qed.

Lemma winv_call : forall s c, linv s -> winv s -> winv (call s c).
Proof.
  intros s c I W. destruct c; cbn [call].
  - apply winv_register; auto.
  - apply winv_unregister; auto.
  - unfold unregister_all. apply winv_unregister; [repeat apply unregister_linv; exact I|]. apply winv_unregister; [apply unregister_linv; exact I|]. apply winv_unregister; auto.
  - apply winv_log; [|congruence|congruence]. apply (winv_same s); auto.
  - apply winv_log; [|congruence|congruence]. apply (winv_same s); auto.
  - unfold clear_loop. cbv zeta. set (s0 := k_log _ _).
    assert (W0 : winv s0) by (apply winv_log; [apply (winv_same s); auto|congruence|congruence]).
    assert (I0 : linv s0).
    { destruct I as [D R N U O ND LS LB LA LF]. constructor; cbn [s0 k_log k_later l_log l_dead l_reg l_next l_later l_nlater]; auto.
      - intro i. rewrite in_app_iff, D. cbn. intuition discriminate.
      - intros c fd i. rewrite R. unfold stands. rewrite !in_app_iff. cbn. intuition discriminate.
      - intros i fd c H. apply in_app_iff in H. destruct H as [H|[H|[]]]; [eauto|discriminate].
      - intros i H. apply in_app_iff in H. destruct H as [H|[H|[]]]; [eauto|discriminate].
      - intros i f1 c1 f2 c2 A B. apply in_app_iff in A, B. destruct A as [A|[A|[]]]; [|discriminate]. destruct B as [B|[B|[]]]; [|discriminate]. eauto.
      - rewrite laters_app. cbn. rewrite !app_nil_r. eapply sorted_prefix; eauto.
      - rewrite laters_app. cbn. rewrite !app_nil_r. apply Forall_app in LB. tauto.
      - intro k. rewrite in_app_iff, <- LA. cbn. intuition discriminate.
      - intros k H. right. apply in_app_iff in H. destruct H as [H|[H|[]]]; [|discriminate]. right.
        apply in_split in H. destruct H as (x & y & H). exists x, (y ++ [Cleared]). rewrite H, <- app_assoc. split; [reflexivity|]. apply in_or_app. right. left. reflexivity. }
    clearbody s0. generalize (l_reg s0). intro r. revert s0 W0 I0. induction r as [|x r IH]; intros s0 W0 I0; cbn; [exact W0|].
    apply IH; [apply winv_unregister; auto|apply unregister_linv; auto].
  - destruct W as (K & FI & P). split; [exact K|]. split; cbn [k_log k_kern l_kern l_files l_reg l_log].
    + intro f. rewrite open_snoc. cbn. rewrite filter_In, Bool.negb_true_iff, Z.eqb_neq, FI. split.
      * intros [->|[H N]]; [auto|]. right. split; [auto|congruence].
      * intros [H|[H N]]; [injection H as ->; auto|]. destruct (Z.eq_dec f fd); auto.
    + intro H. destruct (P (proper_app _ _ H)) as [P1 P2]. split; [exact P1|]. intros c f i HI. destruct (Z.eq_dec f fd) as [->|NF]; [left; reflexivity|].
      right. apply filter_In. split; [eauto|]. apply Bool.negb_true_iff, Z.eqb_neq. exact NF.
  - destruct W as (K & FI & P). split; [|split]; cbn [k_log k_kern l_kern l_files l_reg l_log].
    + eapply kok_del; eauto. intros f NF. reflexivity.
    + intro f. rewrite open_snoc, filter_In, Bool.negb_true_iff, Z.eqb_neq, FI. split.
      * intros [H N]. right. split; [auto|congruence].
      * intros [H|[H N]]; [discriminate|]. split; [auto|congruence].
    + intro H. destruct (P (proper_app _ _ H)) as [P1 P2].
      assert (Q : forall c i, ~ In (c, fd, i) (l_reg s)).
      { intros c i HI. apply (li_reg _ I) in HI. exact (proj2 H (l_log s) fd [] eq_refl i c HI). }
      split.
      * eapply kall_del; [exact P1|intros f NF; reflexivity|]. destruct (poll_events fd (l_reg s)) as [|c m] eqn:PE; [reflexivity|].
        exfalso. assert (X : In c (poll_events fd (l_reg s))) by (rewrite PE; left; reflexivity). apply pe_in in X. destruct X as [i X]. eapply Q; eauto.
      * intros c f i HI. apply filter_In. split; [eauto|]. apply Bool.negb_true_iff, Z.eqb_neq. intros ->. eapply Q; eauto.
Qed.

Lemma winv_new : winv lp_new.
Proof.
  split; [split; [constructor|intros fd m []]|]. split.
  - intro fd. cbn. split; [tauto|]. intros (a & b & E & _). destruct a; discriminate.
  - intros _. split; [intros fd H; exfalso; apply H; reflexivity|intros c fd id []].
Qed.

Lemma life_winv : forall ep every segs, LP winv (life ep every segs).
Proof.
  intros. apply life_pres.
  - exact winv_call.
  - intros. apply winv_log; auto; congruence.
  - intros. apply winv_log; auto; congruence.
  - intros s k r I ST E W. apply winv_log; [apply (winv_same s); auto|congruence|congruence].
  - intros. apply winv_log; auto; congruence.
  - intros. apply winv_log; auto; congruence.
  - intros s W. exact W.
  - apply winv_new.
Qed.

Lemma wanted_item : forall s fd c, linv s -> (wanted (l_log s) fd c <-> has_item c fd (l_reg s)).
Proof. intros s fd c I. unfold wanted, has_item. split; intros [id H]; exists id; apply (li_reg _ I); exact H. Qed.
Lemma life_watched_only : forall ep every segs, watched_only (life ep every segs).
Proof.
  intros ep every segs. destruct (life_winv ep every segs) as [I ((N & K) & _)]. split; [exact N|]. intros fd m H. destruct (K fd m H) as [E NE]. split.
  - destruct m as [|c m]; [congruence|]. exists c. left. reflexivity.
  - intro c. rewrite E, pe_in, wanted_item; [reflexivity|exact I].
Qed.
Lemma life_watched_all : forall ep every segs, proper (l_log (life ep every segs)) -> watched_all (life ep every segs).
Proof.
  intros ep every segs H. destruct (life_winv ep every segs) as [I ((N & K) & _ & P)]. destruct (P H) as [P1 _]. intros fd c Hw.
  apply wanted_item in Hw; [|exact I]. apply pe_in in Hw. assert (X : kern_has fd (l_kern (life ep every segs)) = true) by (apply P1; intro Q; rewrite Q in Hw; destruct Hw).
  apply kern_has_in in X. destruct X as [m X]. exists m. split; [exact X|]. destruct (K fd m X) as [-> _]. exact Hw.
Qed.
(** With open descriptors, select does not fail. *)
Lemma life_select : forall ep every segs, proper (l_log (life ep every segs)) -> bad_fd (life ep every segs) = false.
Proof.
  intros ep every segs H. destruct (life_winv ep every segs) as [I (_ & _ & P)]. destruct (P H) as [_ P2].
  unfold bad_fd. destruct (existsb _ _) eqn:Q; [|reflexivity]. apply existsb_exists in Q. destruct Q as ([[c fd] id] & HI & Q). apply Bool.negb_true_iff in Q. cbn in Q.
  exfalso. assert (X : existsb (Z.eqb fd) (l_files (life ep every segs)) = true) by (apply existsb_exists; exists fd; split; [eauto|apply Z.eqb_refl]). congruence.
Qed.
