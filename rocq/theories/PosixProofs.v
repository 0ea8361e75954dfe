(** Lemmas for PropPosix.v. *)
From Verif Require Import Base Posix PosixSpec.
From Coq Require Import Lia.

Lemma look_app : forall A (l1 l2 : list (Z * A)) fd, look fd (l1 ++ l2) = match look fd l1 with Some x => Some x | None => look fd l2 end.
Proof. induction l1 as [|[f x] l IH]; intros; cbn; auto. destruct (f =? fd); auto. Qed.
Lemma look_filter : forall A (g : Z -> bool) (l : list (Z * A)) fd, look fd (filter (fun p => g (fst p)) l) = if g fd then look fd l else None.
Proof.
  induction l as [|[f x] l IH]; intros; cbn; [destruct (g fd); auto|].
  destruct (g f) eqn:G; cbn.
  - destruct (f =? fd) eqn:E; [apply Z.eqb_eq in E; subst; now rewrite G|apply IH].
  - destruct (f =? fd) eqn:E; [apply Z.eqb_eq in E; subst; rewrite IH; now rewrite G|apply IH].
Qed.
Lemma look_forget : forall A (l : list (Z * A)) f fd, look fd (forget f l) = if fd =? f then None else look fd l.
Proof. intros. unfold forget. rewrite (look_filter _ (fun x => negb (x =? f))). now destruct (fd =? f). Qed.
Lemma look_in : forall A (l : list (Z * A)) fd x, look fd l = Some x -> In (fd, x) l.
Proof. induction l as [|[f y] l IH]; cbn; intros; [discriminate|]. destruct (f =? fd) eqn:E; [apply Z.eqb_eq in E; subst; injection H as ->; auto|right; auto]. Qed.
Lemma look_none : forall A (l : list (Z * A)) fd, look fd l = None <-> ~ In fd (map fst l).
Proof.
  induction l as [|[f y] l IH]; cbn; intros; [tauto|].
  destruct (f =? fd) eqn:E; [apply Z.eqb_eq in E; subst; split; [discriminate|tauto]|].
  apply Z.eqb_neq in E. rewrite IH. tauto.
Qed.
Lemma set_queue_fst : forall l fd q, map fst (set_queue fd q l) = map fst l.
Proof. induction l as [|[f x] l IH]; intros; cbn; auto. destruct (f =? fd); cbn; auto. now rewrite IH. Qed.
Definition requeue (q : list (list Z)) (x : ksock) : ksock := mkK (k_sock x) (k_mine x) (k_fam x) q.
Lemma look_set_queue : forall l fd q fd', look fd' (set_queue fd q l) = if fd' =? fd then option_map (requeue q) (look fd l) else look fd' l.
Proof.
  induction l as [|[f x] l IH]; intros; cbn; [now destruct (fd' =? fd)|].
  destruct (f =? fd) eqn:E; cbn.
  - apply Z.eqb_eq in E. subst. destruct (fd =? fd') eqn:F.
    + apply Z.eqb_eq in F. subst. now rewrite Z.eqb_refl.
    + rewrite Z.eqb_sym, F. auto.
  - destruct (f =? fd') eqn:F.
    + apply Z.eqb_eq in F. subst. rewrite E. auto.
    + apply IH.
Qed.
Lemma nodup_filter_fst : forall A (g : Z * A -> bool) l, NoDup (map fst l) -> NoDup (map fst (filter g l)).
Proof.
  induction l as [|[f x] l IH]; cbn; intros; auto. inversion H; subst.
  destruct (g (f, x)); cbn; auto. constructor; auto.
  intro Hi. apply H2. apply in_map_iff in Hi. destruct Hi as [p [E Hi]]. apply filter_In in Hi. apply in_map_iff. exists p. tauto.
Qed.
Lemma filter_id : forall A (g : A -> bool) l, Forall (fun x => g x = true) l -> filter g l = l.
Proof. induction 1; cbn; auto. now rewrite H, IHForall. Qed.
Lemma filter_nil : forall A (g : A -> bool) l, Forall (fun x => g x = false) l -> filter g l = [].
Proof. induction 1; cbn; auto. now rewrite H. Qed.
Lemma filter_filter : forall A (f g : A -> bool) l, filter f (filter g l) = filter (fun x => g x && f x) l.
Proof. induction l as [|x l IH]; cbn; auto. destruct (g x) eqn:G; cbn; [destruct (f x); now rewrite IH|auto]. Qed.
Lemma NoDup_snoc : forall A (l : list A) x, NoDup l -> ~ In x l -> NoDup (l ++ [x]).
Proof.
  induction l as [|y l IH]; cbn; intros; [constructor; auto; constructor|].
  inversion H; subst. constructor; [rewrite in_app_iff; cbn; intuition|apply IH; intuition].
Qed.

(** ** The invariant *)
Record INV (s : pa) : Prop := {
  n_tab : NoDup (map fst (k_tab s));
  n_ids : Forall (fun i => 0 < i_id i < p_next s) (p_ifs s);
  n_idd : NoDup (map i_id (p_ifs s));
  n_fds : NoDup (map i_fd (p_ifs s));
  n_own : forall i, In i (p_ifs s) -> exists q, look (i_fd i) (k_tab s) = Some (mkK (i_sock i) true (i_fam i) q);
  n_mine : forall fd x, look fd (k_tab s) = Some x -> k_mine x = true -> In fd (map i_fd (p_ifs s));
  n_read : l_read s = map (fun i => (i_fd i, i_id i)) (p_ifs s);
  n_write : Forall (fun p => In (fst p) (map i_fd (p_ifs s))) (l_write s);
  n_log : forall i, In i (p_ifs s) -> In (EvIf (i_id i) (i_sock i) (i_fam i)) (p_log s);
  n_sock : forall fd x, look fd (k_tab s) = Some x -> 0 < k_sock x < k_next s;
  n_one : forall fd fd' x y, look fd (k_tab s) = Some x -> look fd' (k_tab s) = Some y -> k_sock x = k_sock y -> fd = fd';
  n_made : Forall (fun p => 0 < fst p < p_next s /\ 0 < snd p < k_next s) (mades (p_log s));
  n_mid : NoDup (map fst (mades (p_log s)));
  n_msk : NoDup (map snd (mades (p_log s)));
  n_pos : 0 < p_next s /\ 0 < k_next s
}.

Lemma mades_app : forall a b, mades (a ++ b) = mades a ++ mades b.
Proof. intros. apply flat_map_app. Qed.
Definition plain (e : event) : Prop := match e with EvIf _ _ _ => False | _ => True end.
Lemma INV_say : forall s e, plain e -> INV s -> INV (say e s).
Proof.
  intros s e P H. destruct H.
  assert (M : mades (p_log (say e s)) = mades (p_log s)) by (cbn [p_log say]; rewrite mades_app; destruct e; cbn in *; try tauto; now rewrite app_nil_r).
  constructor; rewrite ?M; auto.
  intros i Hi. cbn [p_log say]. apply in_or_app. left. auto.
Qed.
Lemma INV_tasks : forall s t, INV s -> INV (with_tasks s t).
Proof. intros s t []; constructor; auto. Qed.
Lemma INV_queue : forall s fd q, INV s -> INV (with_tab s (set_queue fd q (k_tab s))).
Proof.
  intros s fd q H. destruct H.
  assert (L : forall f x, look f (set_queue fd q (k_tab s)) = Some x -> exists y, look f (k_tab s) = Some y /\ k_sock x = k_sock y /\ k_mine x = k_mine y).
  { intros f x. rewrite look_set_queue. destruct (f =? fd) eqn:E; [|eauto].
    apply Z.eqb_eq in E. subst. destruct (look fd (k_tab s)) as [y|]; cbn; [|discriminate]. intro Q. injection Q as <-. exists y. auto. }
  constructor; cbn [with_tab k_tab p_ifs p_next l_read l_write p_log k_next]; auto.
  - now rewrite set_queue_fst.
  - intros i Hi. destruct (n_own0 i Hi) as [q' E]. rewrite look_set_queue.
    destruct (i_fd i =? fd) eqn:F; [|eauto]. apply Z.eqb_eq in F. subst. rewrite E. cbn. eexists. reflexivity.
  - intros f x Hx Hm. destruct (L f x Hx) as (y & Hy & _ & M). apply (n_mine0 f y); auto. congruence.
  - intros f x Hx. destruct (L f x Hx) as (y & Hy & K & _). rewrite K. eauto.
  - intros f f' x x' Hx Hx' E. destruct (L f x Hx) as (y & Hy & K & _). destruct (L f' x' Hx') as (y' & Hy' & K' & _). apply (n_one0 f f' y y'); auto. congruence.
Qed.
Lemma INV_write : forall s w, Forall (fun p => In (fst p) (map i_fd (p_ifs s))) w -> INV s -> INV (with_write s w).
Proof. intros s w W []; constructor; auto. Qed.
Lemma find_if_in : forall l id i, find_if id l = Some i -> In i l /\ i_id i = id.
Proof. induction l as [|j l IH]; cbn; intros; [discriminate|]. destruct (i_id j =? id) eqn:E; [injection H as ->; apply Z.eqb_eq in E; auto|]. destruct (IH _ _ H). auto. Qed.
Lemma find_if_has : forall l i, NoDup (map i_id l) -> In i l -> find_if (i_id i) l = Some i.
Proof.
  induction l as [|j l IH]; cbn; intros; [tauto|]. inversion H; subst. destruct H0 as [->|Hi]; [now rewrite Z.eqb_refl|].
  destruct (i_id j =? i_id i) eqn:E; [|auto]. apply Z.eqb_eq in E. exfalso. apply H3. rewrite E. now apply in_map.
Qed.

Lemma fd_free : forall s fd, INV s -> look fd (k_tab s) = None -> ~ In fd (map i_fd (p_ifs s)).
Proof. intros s fd H L Hi. apply in_map_iff in Hi. destruct Hi as (i & <- & Hi). destruct (n_own s H i Hi) as [q E]. congruence. Qed.
Lemma INV_add : forall s fam fd b, INV s -> INV (add_udp fam fd b s).
Proof.
  intros s fam fd b H. unfold add_udp. destruct (look fd (k_tab s)) eqn:L; auto. destruct b; auto. cbv zeta.
  pose proof (fd_free s fd H L) as Fr. destruct H.
  assert (RD : forget fd (l_read s) = l_read s).
  { unfold forget. apply filter_id. rewrite n_read0. apply Forall_forall. intros p Hp. apply in_map_iff in Hp. destruct Hp as (i & <- & Hi). cbn.
    apply negb_true_iff, Z.eqb_neq. intro F. apply Fr. rewrite <- F. now apply in_map. }
  assert (LK : forall f, look f (k_tab s ++ [(fd, mkK (k_next s) true fam [])]) = if f =? fd then Some (mkK (k_next s) true fam []) else look f (k_tab s)).
  { intro f. rewrite look_app. cbn. rewrite (Z.eqb_sym fd f). destruct (f =? fd) eqn:E; [apply Z.eqb_eq in E; subst; now rewrite L|]. now destruct (look f (k_tab s)). }
  constructor; cbn [say k_tab p_ifs p_next l_read l_write p_log k_next].
  - rewrite map_app. cbn. apply NoDup_snoc; auto. now apply look_none.
  - apply Forall_app. split; [eapply Forall_impl; [|exact n_ids0]; cbn; intros; lia|constructor; [cbn; lia|constructor]].
  - rewrite map_app. cbn. apply NoDup_snoc; auto. intro Hi. apply in_map_iff in Hi. destruct Hi as (i & E & Hi). rewrite Forall_forall in n_ids0. specialize (n_ids0 i Hi). lia.
  - rewrite map_app. cbn. apply NoDup_snoc; auto.
  - intros i Hi. rewrite LK. apply in_app_or in Hi. destruct Hi as [Hi|[<-|[]]].
    + destruct (n_own0 i Hi) as [q E]. destruct (i_fd i =? fd) eqn:F; [apply Z.eqb_eq in F; exfalso; apply Fr; rewrite <- F; now apply in_map|]. eauto.
    + cbn. rewrite Z.eqb_refl. eauto.
  - intros f x. rewrite LK, map_app, in_app_iff. destruct (f =? fd) eqn:E; [apply Z.eqb_eq in E; subst; cbn; auto|]. intros. left. eauto.
  - rewrite RD, n_read0, map_app. reflexivity.
  - eapply Forall_impl; [|exact n_write0]. intros p Hp. rewrite map_app, in_app_iff. auto.
  - intros i Hi. apply in_app_or in Hi. apply in_or_app. destruct Hi as [Hi|[<-|[]]]; [left; auto|right; left; reflexivity].
  - intros f x. rewrite LK. destruct (f =? fd); [intro Q; injection Q as <-; cbn; lia|]. intro Hx. specialize (n_sock0 f x Hx). lia.
  - intros f f' x y. rewrite !LK. destruct (f =? fd) eqn:E; destruct (f' =? fd) eqn:E'.
    + apply Z.eqb_eq in E, E'. congruence.
    + intros Q Hy K. injection Q as <-. cbn in K. specialize (n_sock0 f' y Hy). lia.
    + intros Hx Q K. injection Q as <-. cbn in K. specialize (n_sock0 f x Hx). lia.
    + eauto.
  - rewrite mades_app. apply Forall_app. split; [eapply Forall_impl; [|exact n_made0]; cbn; intros; lia|cbn; constructor; [cbn; lia|constructor]].
  - rewrite mades_app, map_app. cbn. apply NoDup_snoc; auto. intro Hi. apply in_map_iff in Hi. destruct Hi as (p & E & Hi). rewrite Forall_forall in n_made0. specialize (n_made0 p Hi). lia.
  - rewrite mades_app, map_app. cbn. apply NoDup_snoc; auto. intro Hi. apply in_map_iff in Hi. destruct Hi as (p & E & Hi). rewrite Forall_forall in n_made0. specialize (n_made0 p Hi). lia.
  - lia.
Qed.

(** ** close *)
Definition kept (l : list pif) (fd : Z) : bool := negb (existsb (fun i => i_fd i =? fd) l).
Definition purge {A} (l : list pif) (t : list (Z * A)) : list (Z * A) := filter (fun p => kept l (fst p)) t.
Lemma purge_cons : forall A i l (t : list (Z * A)), purge l (forget (i_fd i) t) = purge (i :: l) t.
Proof.
  intros. unfold purge, forget. rewrite filter_filter. apply filter_ext. intros [f x]. unfold kept. cbn. rewrite (Z.eqb_sym f). destruct (i_fd i =? f); auto.
Qed.
Lemma close_loop_eq : forall l s, p_ifs s = l ->
  close_loop l s = mkP (p_open s) [] (p_next s) (purge l (l_read s)) (purge l (l_write s)) (l_tasks s) (purge l (k_tab s)) (k_next s) (p_log s).
Proof.
  induction l as [|i l IH]; intros s E.
  - cbn [close_loop]. assert (P : forall A (t : list (Z * A)), purge [] t = t) by (intros; unfold purge; apply filter_id, Forall_forall; reflexivity).
    rewrite !P. destruct s; cbn in *; now subst.
  - cbn [close_loop]. rewrite IH by reflexivity. cbn [p_open p_next l_read l_write l_tasks k_tab k_next p_log]. now rewrite !purge_cons.
Qed.
Lemma kept_false : forall l fd, kept l fd = false <-> In fd (map i_fd l).
Proof.
  intros. unfold kept. rewrite negb_false_iff, existsb_exists, in_map_iff. split; intros (i & A & B); exists i; [apply Z.eqb_eq in B; auto|subst; split; auto; now apply Z.eqb_refl].
Qed.
Lemma purge_all : forall A l (t : list (Z * A)), Forall (fun p => In (fst p) (map i_fd l)) t -> purge l t = [].
Proof. intros. unfold purge. apply filter_nil. eapply Forall_impl; [|exact H]. intros. now apply kept_false. Qed.
Lemma p_close_eq : forall s, INV s -> p_close s = mkP false [] (p_next s) [] [] (l_tasks s) (purge (p_ifs s) (k_tab s)) (k_next s) (p_log s).
Proof.
  intros s H. unfold p_close. rewrite close_loop_eq by reflexivity. cbn [p_open p_next l_read l_write l_tasks k_tab k_next p_log].
  rewrite (purge_all _ _ (l_write s)) by apply (n_write s H). rewrite (purge_all _ _ (l_read s)); auto.
  rewrite (n_read s H). apply Forall_forall. intros p Hp. apply in_map_iff in Hp. destruct Hp as (i & <- & Hi). cbn. now apply in_map.
Qed.
Lemma look_purge : forall A l (t : list (Z * A)) fd, look fd (purge l t) = if kept l fd then look fd t else None.
Proof. intros. apply (look_filter _ (kept l)). Qed.
Lemma INV_close : forall s, INV s -> INV (p_close s).
Proof.
  intros s H. rewrite p_close_eq by auto. destruct H.
  assert (L : forall f x, look f (purge (p_ifs s) (k_tab s)) = Some x -> look f (k_tab s) = Some x /\ kept (p_ifs s) f = true).
  { intros f x. rewrite look_purge. destruct (kept (p_ifs s) f); [auto|discriminate]. }
  constructor; cbn [k_tab p_ifs p_next l_read l_write p_log k_next map]; auto; try solve [constructor]; try (intros i []; fail).
  - now apply nodup_filter_fst.
  - intros f x Hx M. apply L in Hx. destruct Hx as [Hx K]. specialize (n_mine0 f x Hx M). apply kept_false in n_mine0. congruence.
  - intros f x Hx. apply L in Hx. apply (n_sock0 f x). tauto.
  - intros f f' x y Hx Hy. apply L in Hx, Hy. apply (n_one0 f f' x y); tauto.
Qed.

(** ** Calls and steps keep it *)
Lemma write_packet_say : forall id fam b tos r1 r2 s, INV s ->
  (fst (write_packet id fam b tos r1 r2 s) = false /\ snd (write_packet id fam b tos r1 r2 s) = s) \/
  (fst (write_packet id fam b tos r1 r2 s) = true /\ exists k t, In (EvIf id k fam) (p_log s) /\ (t = tos \/ t = 0) /\ snd (write_packet id fam b tos r1 r2 s) = say (EvSent id k fam b t) s).
Proof.
  intros id fam b tos r1 r2 s H. unfold write_packet. destruct (find_if id (p_ifs s)) as [i|] eqn:F; [|left; auto].
  apply find_if_in in F. destruct F as [Hi <-].
  destruct (fam =? i_fam i) eqn:E; cbn [negb]; [|left; auto]. apply Z.eqb_eq in E. subst fam.
  destruct (n_own s H i Hi) as [q L]. rewrite L. cbv zeta. cbn [k_sock k_fam]. pose proof (n_log s H i Hi) as M.
  assert (G : forall t, t = tos \/ t = 0 -> fst (true, say (EvSent (i_id i) (i_sock i) (i_fam i) b t) s) = true /\
    (exists k t', In (EvIf (i_id i) k (i_fam i)) (p_log s) /\ (t' = tos \/ t' = 0) /\ snd (true, say (EvSent (i_id i) (i_sock i) (i_fam i) b t) s) = say (EvSent (i_id i) k (i_fam i) b t') s)).
  { intros t Ht. split; auto. exists (i_sock i), t. auto. }
  destruct r1; [right; apply G; auto| |left; auto].
  destruct (tos =? 0); [left; auto|]. destruct r2; [right; apply G; auto|left; auto|left; auto].
Qed.
Lemma INV_call : forall s c, INV s -> INV (do_call s c).
Proof.
  intros s c H. destruct c; cbn [do_call].
  - now apply INV_add.
  - now apply INV_close.
  - unfold notify. destruct (find_if id (p_ifs s)) as [i|] eqn:F; cbn [snd]; auto. apply find_if_in in F. destruct F as [Hi _].
    apply INV_write; auto. apply Forall_app. split.
    + apply Forall_forall. intros p Hp. apply filter_In in Hp. pose proof (n_write s H) as W. rewrite Forall_forall in W. apply W. tauto.
    + constructor; [|constructor]. cbn. now apply in_map.
  - destruct (write_packet_say id fam b tos r1 r2 s H) as [[_ ->]|(_ & k & t & _ & _ & ->)]; auto. apply INV_say; auto. exact Logic.I.
  - unfold perform. apply INV_say; [exact Logic.I|]. now apply INV_tasks.
  - destruct (look fd (k_tab s)) eqn:L; auto. destruct H.
    assert (LK : forall f, look f (k_tab s ++ [(fd, mkK (k_next s) false fam [])]) = if f =? fd then Some (mkK (k_next s) false fam []) else look f (k_tab s)).
    { intro f. rewrite look_app. cbn. rewrite (Z.eqb_sym fd f). destruct (f =? fd) eqn:E; [apply Z.eqb_eq in E; subst; now rewrite L|]. now destruct (look f (k_tab s)). }
    constructor; cbn [k_tab p_ifs p_next l_read l_write p_log k_next]; auto.
    + rewrite map_app. cbn. apply NoDup_snoc; auto. now apply look_none.
    + intros i Hi. rewrite LK. destruct (n_own0 i Hi) as [q E]. destruct (i_fd i =? fd) eqn:F; [apply Z.eqb_eq in F; congruence|]. eauto.
    + intros f x. rewrite LK. destruct (f =? fd) eqn:E; [intro Q; injection Q as <-; discriminate|]. eauto.
    + intros f x. rewrite LK. destruct (f =? fd); [intro Q; injection Q as <-; cbn; lia|]. intro Hx. specialize (n_sock0 f x Hx). lia.
    + intros f f' x y. rewrite !LK. destruct (f =? fd) eqn:E; destruct (f' =? fd) eqn:E'.
      * apply Z.eqb_eq in E, E'. congruence.
      * intros Q Hy K. injection Q as <-. cbn in K. specialize (n_sock0 f' y Hy). lia.
      * intros Hx Q K. injection Q as <-. cbn in K. specialize (n_sock0 f x Hx). lia.
      * eauto.
    + eapply Forall_impl; [|exact n_made0]; cbn; intros; lia.
    + lia.
  - destruct (look fd (k_tab s)) as [x|] eqn:L; auto. destruct (k_mine x) eqn:M; auto. destruct H.
    assert (LK : forall f y, look f (forget fd (k_tab s)) = Some y -> look f (k_tab s) = Some y).
    { intros f y. rewrite look_forget. destruct (f =? fd); [discriminate|auto]. }
    constructor; cbn [with_tab k_tab p_ifs p_next l_read l_write p_log k_next]; auto.
    + now apply nodup_filter_fst.
    + intros i Hi. rewrite look_forget. destruct (n_own0 i Hi) as [q E]. destruct (i_fd i =? fd) eqn:F; [|eauto].
      apply Z.eqb_eq in F. subst. rewrite E in L. injection L as <-. discriminate.
    + eauto.
    + eauto.
    + intros f f' a y Ha Hy. apply LK in Ha, Hy. eauto.
  - destruct (look fd (k_tab s)); auto. apply INV_say; [exact Logic.I|]. now apply INV_queue.
Qed.
Lemma INV_calls : forall l s, INV s -> INV (do_calls l s).
Proof. unfold do_calls. induction l as [|c l IH]; cbn; auto. intros. apply IH. now apply INV_call. Qed.
Lemma INV_recv : forall n fd id cbs s, INV s -> INV (recv_loop n fd id cbs s).
Proof.
  induction n as [|n IH]; cbn [recv_loop]; intros; auto. destruct (look fd (k_tab s)) as [x|]; auto. destruct (k_queue x) as [|b q]; auto.
  apply IH, INV_calls, INV_say; [exact Logic.I|]. now apply INV_queue.
Qed.
Lemma INV_wloop : forall n fd cb ans s, INV s -> INV (write_loop n fd cb ans s).
Proof.
  induction n as [|n IH]; cbn [write_loop]; intros; auto. destruct (hd ([], false) ans) as [cs more]. cbv zeta.
  assert (K : INV (do_calls cs (say (EvWritable cb) s))) by (apply INV_calls, INV_say; [exact Logic.I|auto]).
  destruct more; [now apply IH|]. apply INV_write; auto.
  apply Forall_forall. intros p Hp. apply filter_In in Hp. pose proof (n_write _ K) as W. rewrite Forall_forall in W. apply W. tauto.
Qed.
Lemma INV_step : forall s o, INV s -> INV (step s o).
Proof.
  intros s o H. destruct o; cbn [step].
  - now apply INV_call.
  - destruct (look fd (l_read s)); auto. now apply INV_recv.
  - destruct (look fd (l_write s)); auto. now apply INV_wloop.
  - destruct (l_tasks s) as [|t r]; auto. cbv zeta. destruct (p_open (with_tasks s r)); [|now apply INV_tasks].
    apply INV_calls, INV_say; [exact Logic.I|]. now apply INV_tasks.
Qed.
Lemma INV_0 : INV pa0.
Proof. constructor; cbn; intros; try discriminate; try tauto; try constructor; try lia; try contradiction. Qed.
Lemma INV_run : forall l s, INV s -> INV (run l s).
Proof. unfold run. induction l as [|o l IH]; cbn; auto. intros. apply IH. now apply INV_step. Qed.

(** ** What the log gains *)
Definition ext (P : event -> Prop) (s s' : pa) : Prop := exists l, p_log s' = p_log s ++ l /\ Forall P l.
Lemma ext_refl : forall P s s', p_log s' = p_log s -> ext P s s'.
Proof. intros. exists []. rewrite app_nil_r. auto. Qed.
Lemma ext_trans : forall P a b c, ext P a b -> ext P b c -> ext P a c.
Proof. intros P a b c (l & E & F) (l' & E' & F'). exists (l ++ l'). rewrite E', E, app_assoc. split; auto. apply Forall_app; auto. Qed.
Lemma ext_say : forall (P : event -> Prop) e s s', P e -> p_log s' = p_log s ++ [e] -> ext P s s'.
Proof. intros. exists [e]. auto. Qed.
(** calls log no packet, task or call of onwritable *)
Definition call_ev (e : event) : Prop := match e with EvIf _ _ _ | EvSent _ _ _ _ _ | EvAsk _ | EvArrive _ _ => True | _ => False end.
Lemma call_log : forall s c, INV s -> ext call_ev s (do_call s c).
Proof.
  intros s c H. destruct c; cbn [do_call].
  - unfold add_udp. destruct (look fd (k_tab s)); [now apply ext_refl|]. destruct bound; [|now apply ext_refl]. eapply ext_say; [|reflexivity]. exact Logic.I.
  - rewrite p_close_eq by auto. now apply ext_refl.
  - unfold notify. destruct (find_if id (p_ifs s)); now apply ext_refl.
  - destruct (write_packet_say id fam b tos r1 r2 s H) as [[_ ->]|(_ & k & t & _ & _ & ->)]; [now apply ext_refl|]. eapply ext_say; [|reflexivity]. exact Logic.I.
  - eapply ext_say; [|reflexivity]. exact Logic.I.
  - destruct (look fd (k_tab s)); now apply ext_refl.
  - destruct (look fd (k_tab s)) as [x|]; [destruct (k_mine x)|]; now apply ext_refl.
  - destruct (look fd (k_tab s)) as [x|]; [|now apply ext_refl]. eapply ext_say; [|reflexivity]. exact Logic.I.
Qed.
Lemma calls_log : forall l s, INV s -> ext call_ev s (do_calls l s).
Proof.
  unfold do_calls. induction l as [|c l IH]; cbn; intros; [now apply ext_refl|].
  eapply ext_trans; [now apply call_log|]. apply IH. now apply INV_call.
Qed.

(** ** Packets in order *)
Record ORD (s : pa) : Prop := {
  o_one : forall k, exists rest, map cut (reached k (p_log s)) = given k (p_log s) ++ rest /\ (forall fd x, look fd (k_tab s) = Some x -> k_sock x = k -> rest = map cut (k_queue x));
  o_new : forall k, k_next s <= k -> reached k (p_log s) = [] /\ given k (p_log s) = []
}.
Lemma reached_app : forall k a b, reached k (a ++ b) = reached k a ++ reached k b.
Proof. intros. apply flat_map_app. Qed.
Lemma given_app : forall k a b, given k (a ++ b) = given k a ++ given k b.
Proof. intros. apply flat_map_app. Qed.
Lemma call_ev_quiet : forall l, Forall call_ev l -> tasks l = [] /\ writables l = [].
Proof. induction 1 as [|e l He Hl (A & B)]; auto. unfold tasks, writables in *. destruct e; cbn in *; tauto. Qed.
Definition comes (c : call) : bool := match c with Came _ _ => true | _ => false end.
Lemma comes_log : forall s c, INV s -> comes c = false -> ext (fun e => forall k, reached k [e] = [] /\ given k [e] = []) s (do_call s c).
Proof.
  intros s c H C. destruct c; cbn [do_call]; try discriminate.
  - unfold add_udp. destruct (look fd (k_tab s)); [now apply ext_refl|]. destruct bound; [|now apply ext_refl]. eapply ext_say; [|reflexivity]. cbn. auto.
  - rewrite p_close_eq by auto. now apply ext_refl.
  - unfold notify. destruct (find_if id (p_ifs s)); now apply ext_refl.
  - destruct (write_packet_say id fam b tos r1 r2 s H) as [[_ ->]|(_ & k & t & _ & _ & ->)]; [now apply ext_refl|]. eapply ext_say; [|reflexivity]. cbn. auto.
  - eapply ext_say; [|reflexivity]. cbn. auto.
  - destruct (look fd (k_tab s)); now apply ext_refl.
  - destruct (look fd (k_tab s)) as [x|]; [destruct (k_mine x)|]; now apply ext_refl.
Qed.
Lemma ORD_0 : ORD pa0.
Proof. constructor; cbn; intros; [exists []; split; auto; discriminate|auto]. Qed.
(** the table changes by closing, or by opening an empty socket with a new number *)
Definition tabs (s s' : pa) : Prop :=
  k_next s <= k_next s' /\ (forall fd x, look fd (k_tab s') = Some x -> look fd (k_tab s) = Some x \/ (k_next s <= k_sock x /\ k_queue x = [])).
Lemma call_tabs : forall s c, INV s -> comes c = false -> tabs s (do_call s c).
Proof.
  intros s c H C. destruct c; cbn [do_call]; try discriminate.
  - unfold add_udp. destruct (look fd (k_tab s)) eqn:L; [split; [lia|auto]|]. destruct bound; [|split; [lia|auto]]. split; cbn [say k_next k_tab]; [lia|].
    intros f x. rewrite look_app. destruct (look f (k_tab s)); [auto|]. cbn. destruct (fd =? f); [|discriminate]. intro Q. injection Q as <-. cbn. right. split; [lia|auto].
  - rewrite p_close_eq by auto. split; cbn [k_next k_tab]; [lia|]. intros f x. rewrite look_purge. destruct (kept (p_ifs s) f); [auto|discriminate].
  - unfold notify. destruct (find_if id (p_ifs s)); split; cbn; auto; lia.
  - destruct (write_packet_say id fam b tos r1 r2 s H) as [[_ ->]|(_ & k & t & _ & _ & ->)]; split; cbn [say k_next k_tab]; auto; lia.
  - split; cbn; auto; lia.
  - destruct (look fd (k_tab s)) eqn:L; [split; [lia|auto]|]. split; cbn [k_next k_tab]; [lia|].
    intros f x. rewrite look_app. destruct (look f (k_tab s)); [auto|]. cbn. destruct (fd =? f); [|discriminate]. intro Q. injection Q as <-. cbn. right. split; [lia|auto].
  - destruct (look fd (k_tab s)) as [x|] eqn:L; [destruct (k_mine x)|]; [split; [lia|auto]| |split; [lia|auto]].
    split; cbn [with_tab k_next k_tab]; [lia|]. intros f y. rewrite look_forget. destruct (f =? fd); [discriminate|auto].
Qed.
Lemma ORD_keep : forall s s', ORD s -> tabs s s' -> ext (fun e => forall k, reached k [e] = [] /\ given k [e] = []) s s' -> ORD s'.
Proof.
  intros s s' O (Nx & T) (l & E & F).
  assert (Q : forall k, reached k l = [] /\ given k l = []).
  { intro k. clear E. induction F as [|e l He F (A & B)]; auto. change (e :: l) with ([e] ++ l). rewrite reached_app, given_app, A, B. destruct (He k) as [-> ->]. auto. }
  destruct O as [O1 O2]. constructor.
  - intro k. rewrite E, reached_app, given_app. destruct (Q k) as [-> ->]. rewrite !app_nil_r.
    destruct (O1 k) as (rest & R & L). exists rest. split; auto.
    intros fd x Hx K. destruct (T fd x Hx) as [Hx'|[Nw Qe]]; [eauto|].
    destruct (O2 k) as [Rk Gk]; [lia|]. rewrite Rk, Gk in R. cbn in R. rewrite Qe. cbn. auto.
  - intros k Hk. rewrite E, reached_app, given_app. destruct (Q k) as [-> ->]. rewrite !app_nil_r. apply O2. lia.
Qed.
Lemma ORD_call : forall s c, INV s -> ORD s -> ORD (do_call s c).
Proof.
  intros s c H O. destruct (comes c) eqn:C; [|eapply ORD_keep; [exact O|now apply call_tabs|now apply comes_log]].
  destruct c; try discriminate. cbn [do_call].
  - destruct (look fd (k_tab s)) as [x|] eqn:L; auto. destruct O as [O1 O2]. constructor; cbn [say with_tab p_log k_tab k_next].
    + intro k. rewrite reached_app, given_app. cbn [reached given flat_map]. rewrite !app_nil_r. destruct (O1 k) as (rest & R & Lk). rewrite map_app, R.
      destruct (k_sock x =? k) eqn:E.
      * apply Z.eqb_eq in E. exists (rest ++ [cut b]). split; [now rewrite app_assoc|].
        intros f y. rewrite look_set_queue. destruct (f =? fd) eqn:F.
        -- rewrite L. cbn. intros W _. injection W as <-. cbn. rewrite map_app. cbn. now rewrite (Lk fd x L E).
        -- intros Hy K. apply Z.eqb_neq in F. exfalso. apply F. apply (n_one s H f fd y x); auto. congruence.
      * exists rest. split; [cbn; now rewrite app_nil_r|]. intros f y. rewrite look_set_queue. destruct (f =? fd) eqn:F; [|eauto].
        rewrite L. cbn. intros W K. injection W as <-. cbn in K. apply Z.eqb_neq in E. contradiction.
    + intros k Hk. pose proof (n_sock s H fd x L). rewrite reached_app, given_app. cbn [reached given flat_map].
      replace (k_sock x =? k) with false by (symmetry; apply Z.eqb_neq; lia). cbn. rewrite !app_nil_r. auto.
Qed.
Lemma ORD_calls : forall l s, INV s -> ORD s -> ORD (do_calls l s).
Proof. unfold do_calls. induction l as [|c l IH]; cbn; auto. intros. apply IH; [now apply INV_call|now apply ORD_call]. Qed.
Lemma ORD_packet : forall s fd x b q id, INV s -> ORD s -> look fd (k_tab s) = Some x -> k_queue x = b :: q ->
  ORD (say (EvPacket id (k_sock x) (cut b)) (with_tab s (set_queue fd q (k_tab s)))).
Proof.
  intros s fd x b q id H [O1 O2] L Q. constructor; cbn [say with_tab p_log k_tab k_next].
  - intro k. rewrite reached_app, given_app. cbn [reached given flat_map]. rewrite app_nil_r, app_nil_r.
    destruct (O1 k) as (rest & R & Lk). destruct (k_sock x =? k) eqn:E.
    + apply Z.eqb_eq in E. pose proof (Lk fd x L E) as Rq. rewrite Q in Rq. cbn [map] in Rq. subst rest. exists (map cut q). split; [rewrite R, <- app_assoc; reflexivity|].
      intros f y. rewrite look_set_queue. destruct (f =? fd) eqn:F.
      * rewrite L. cbn. intros W _. injection W as <-. reflexivity.
      * intros Hy K. apply Z.eqb_neq in F. exfalso. apply F. apply (n_one s H f fd y x); auto. congruence.
    + exists rest. split; [now rewrite app_nil_r|]. intros f y. rewrite look_set_queue. destruct (f =? fd) eqn:F; [|eauto].
      rewrite L. cbn. intros W K. injection W as <-. cbn in K. apply Z.eqb_neq in E. contradiction.
  - intros k Hk. pose proof (n_sock s H fd x L). rewrite reached_app, given_app. cbn [reached given flat_map].
    replace (k_sock x =? k) with false by (symmetry; apply Z.eqb_neq; lia). cbn. rewrite !app_nil_r. auto.
Qed.
Lemma ORD_recv : forall n fd id cbs s, INV s -> ORD s -> ORD (recv_loop n fd id cbs s).
Proof.
  induction n as [|n IH]; cbn [recv_loop]; intros fd id cbs s H O; auto. destruct (look fd (k_tab s)) as [x|] eqn:L; auto. destruct (k_queue x) as [|b q] eqn:Q; auto.
  assert (K : INV (say (EvPacket id (k_sock x) (cut b)) (with_tab s (set_queue fd q (k_tab s))))) by (apply INV_say; [exact Logic.I|]; now apply INV_queue).
  apply IH; [now apply INV_calls|]. apply ORD_calls; auto. apply ORD_packet; auto.
Qed.
Lemma tabs_refl : forall s s', k_tab s' = k_tab s -> k_next s' = k_next s -> tabs s s'.
Proof. intros s s' E F. split; [lia|]. intros. rewrite <- E. auto. Qed.
Lemma ORD_wloop : forall n fd cb ans s, INV s -> ORD s -> ORD (write_loop n fd cb ans s).
Proof.
  induction n as [|n IH]; cbn [write_loop]; intros fd cb ans s H O; auto. destruct (hd ([], false) ans) as [cs more]. cbv zeta.
  assert (K : INV (say (EvWritable cb) s)) by (apply INV_say; [exact Logic.I|auto]).
  assert (K' : ORD (do_calls cs (say (EvWritable cb) s))).
  { apply ORD_calls; auto. eapply ORD_keep; [exact O|now apply tabs_refl|]. eapply ext_say; [|reflexivity]. cbn. auto. }
  destruct more; [apply IH; auto; now apply INV_calls|]. eapply ORD_keep; [exact K'|now apply tabs_refl|now apply ext_refl].
Qed.
Lemma ORD_step : forall s o, INV s -> ORD s -> ORD (step s o).
Proof.
  intros s o H O. destruct o; cbn [step].
  - now apply ORD_call.
  - destruct (look fd (l_read s)); auto. now apply ORD_recv.
  - destruct (look fd (l_write s)); auto. now apply ORD_wloop.
  - destruct (l_tasks s) as [|t r]; auto. cbv zeta.
    assert (O' : ORD (with_tasks s r)) by (eapply ORD_keep; [exact O|now apply tabs_refl|now apply ext_refl]).
    destruct (p_open (with_tasks s r)); auto.
    apply ORD_calls; [apply INV_say; [exact Logic.I|now apply INV_tasks]|]. eapply ORD_keep; [exact O'|now apply tabs_refl|]. eapply ext_say; [|reflexivity]. cbn. auto.
Qed.
Lemma ORD_run : forall l s, INV s -> ORD s -> ORD (run l s).
Proof. unfold run. induction l as [|o l IH]; cbn; auto. intros. apply IH; [now apply INV_step|now apply ORD_step]. Qed.
