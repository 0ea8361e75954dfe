(** Lemmas about the run loop: what a cycle and a run achieve. *)
From Coq Require Import Sorting.Sorted.
From Verif Require Import Base BaseFacts Loop LoopSpec LoopProofs LoopRun.

(** ** The queues. *)
Lemma somes_app : forall a b, somes (a ++ b) = somes a ++ somes b.
Proof. intros. apply flat_map_app. Qed.
Lemma has_cond_in : forall c cs, has_cond c cs = true <-> In c cs.
Proof.
  intros. unfold has_cond. rewrite existsb_exists. split; [intros (x & H & E); apply cond_eqb_eq in E; subst; auto|].
  intro H. exists c. split; [auto|]. apply cond_eqb_eq. reflexivity.
Qed.
Lemma is_ready_in : forall ready fd c, is_ready ready fd c = true <-> exists evs, In (fd, evs) ready /\ In c evs.
Proof.
  intros. unfold is_ready. rewrite existsb_exists. split.
  - intros ([f evs] & H & E). apply andb_prop in E. cbn in E. destruct E as [E1 E2]. apply Z.eqb_eq in E1. subst f. exists evs. split; [auto|]. apply has_cond_in. exact E2.
  - intros (evs & H & E). exists (fd, evs). split; [auto|]. cbn [fst snd]. rewrite Z.eqb_refl. apply has_cond_in in E. rewrite E. reflexivity.
Qed.

Definition lqueue (ep : bool) (s : lp) ready := if ep then epoll_queue s ready else select_queue s ready.
Lemma somes_map : forall (l : list (cond * Z * nat)), somes (map (fun x => Some (snd x)) l) = map snd l.
Proof. induction l as [|x l IH]; cbn; [reflexivity|]. fold (somes (map (fun x => Some (snd x)) l)). rewrite IH. reflexivity. Qed.

Lemma lqueue_in : forall ep s ready c id, linv s ->
  (In id (somes (lqueue ep s ready c)) <-> exists fd evs, In (c, fd, id) (l_reg s) /\ In (fd, evs) ready /\ In c evs).
Proof.
  intros ep s ready c id I. destruct ep; cbn [lqueue].
  - unfold epoll_queue, somes. rewrite in_flat_map. split.
    + intros ([i|] & H & HI); [|destruct HI]. destruct HI as [->|[]]. apply in_flat_map in H. destruct H as ([fd evs] & Hr & H).
      cbn [fst snd] in H. destruct (has_cond c evs) eqn:Q; [|destruct H]. apply has_cond_in in Q. destruct H as [H|[]]. apply find_item_in in H. eauto.
    + intros (fd & evs & H1 & H2 & H3). exists (Some id). split; [|left; reflexivity]. apply in_flat_map. exists (fd, evs). split; [auto|]. cbn [fst snd].
      apply has_cond_in in H3. rewrite H3. left. apply find_item_some; [apply li_nodup; auto|auto].
  - unfold select_queue. rewrite somes_map, in_map_iff. split.
    + intros ([[c' fd] i] & E & H). cbn in E. subst i. apply filter_In in H. destruct H as [H Q]. cbn in Q. apply andb_prop in Q. destruct Q as [Q1 Q2].
      apply cond_eqb_eq in Q1. subst c'. apply is_ready_in in Q2. destruct Q2 as (evs & A & B). eauto.
    + intros (fd & evs & H1 & H2 & H3). exists (c, fd, id). split; [reflexivity|]. apply filter_In. split; [auto|]. cbn.
      replace (cond_eqb c c) with true by (destruct c; reflexivity). apply is_ready_in. eauto.
Qed.

Lemma reg_id_eq : forall s c fd c' fd' id, linv s -> In (c, fd, id) (l_reg s) -> In (c', fd', id) (l_reg s) -> c = c' /\ fd = fd'.
Proof.
  intros s c fd c' fd' id I H H'. apply (li_reg _ I) in H, H'. destruct H as [H _], H' as [H' _]. destruct (li_one _ I _ _ _ _ _ H H'). auto.
Qed.

Lemma nodup_map_inj : forall A B (f : A -> B) l, (forall x y, In x l -> In y l -> f x = f y -> x = y) -> NoDup l -> NoDup (map f l).
Proof.
  induction l as [|x l IH]; intros H N; cbn; [constructor|]. inversion N as [|? ? N1 N2]; subst. constructor.
  - intro Q. apply in_map_iff in Q. destruct Q as (y & E & HI). assert (y = x) by (apply H; cbn; auto). subst. auto.
  - apply IH; auto. intros; apply H; cbn; auto.
Qed.
Lemma lqueue_nodup : forall ep s ready c, linv s -> NoDup (map fst ready) -> NoDup (somes (lqueue ep s ready c)).
Proof.
  intros ep s ready c I. destruct ep; cbn [lqueue].
  - induction ready as [|[fd evs] ready IH]; intro N; [constructor|]. cbn in N. inversion N as [|? ? N1 N2]; subst.
    unfold epoll_queue. cbn [flat_map fst snd]. fold (epoll_queue s ready c). rewrite somes_app. destruct (has_cond c evs); [|cbn; auto].
    destruct (find_item c fd (l_reg s)) as [i|] eqn:F; cbn; [|auto]. constructor; [|auto].
    intro H. assert (K := proj1 (lqueue_in true s ready c i I) H). destruct K as (fd' & evs' & K1 & K2 & _).
    apply find_item_in in F. destruct (reg_id_eq _ _ _ _ _ _ I F K1) as [_ ->]. apply N1. apply in_map_iff. exists (fd', evs'). auto.
  - intros _. unfold select_queue. rewrite somes_map. apply nodup_map_inj.
    + intros [[c1 f1] i1] [[c2 f2] i2] H1 H2 E. cbn in E. subst i2. apply filter_In in H1, H2. destruct H1 as [H1 _], H2 as [H2 _].
      destruct (reg_id_eq _ _ _ _ _ _ I H1 H2) as [-> ->]. reflexivity.
    + apply NoDup_filter. eapply NoDup_map_inv. apply li_nodup. exact I.
Qed.

Lemma nodup_app : forall A (a b : list A), NoDup a -> NoDup b -> (forall x, In x a -> ~ In x b) -> NoDup (a ++ b).
Proof.
  induction a as [|x a IH]; intros b Na Nb H; cbn; [auto|]. inversion Na as [|? ? N1 N2]; subst. constructor.
  - rewrite in_app_iff. intros [Q|Q]; [auto|]. eapply H; cbn; eauto.
  - apply IH; auto. intros; apply H; cbn; auto.
Qed.
Lemma sorted_app : forall (R : nat -> nat -> Prop) a b, StronglySorted R a -> StronglySorted R b -> (forall x y, In x a -> In y b -> R x y) -> StronglySorted R (a ++ b).
Proof.
  induction a as [|x a IH]; intros b Sa Sb H; cbn; [auto|]. inversion Sa as [|? ? S1 S2]; subst. constructor.
  - apply IH; auto. intros; apply H; cbn; auto.
  - apply Forall_app. split; [auto|]. apply Forall_forall. intros; apply H; cbn; auto.
Qed.
Lemma sorted_all : forall (R : nat -> nat -> Prop) a, (forall x y, In x a -> In y a -> R x y) -> StronglySorted R a.
Proof.
  induction a as [|x a IH]; intro H; constructor; [apply IH; intros; apply H; cbn; auto|]. apply Forall_forall. intros; apply H; cbn; auto.
Qed.

Definition cqueue ep s ready := lqueue ep s ready EX ++ lqueue ep s ready RD ++ lqueue ep s ready WR.
Lemma cqueue_in : forall ep s ready id, linv s ->
  (In id (somes (cqueue ep s ready)) <-> exists c fd evs, In (c, fd, id) (l_reg s) /\ In (fd, evs) ready /\ In c evs).
Proof.
  intros ep s ready id I. unfold cqueue. rewrite !somes_app, !in_app_iff, !lqueue_in by exact I. split.
  - intros [H|[H|H]]; [exists EX|exists RD|exists WR]; exact H.
  - intros ([] & H); auto.
Qed.
Lemma lqueue_le : forall ep s ready c c' i j, linv s -> (rank c <= rank c')%nat -> In i (somes (lqueue ep s ready c)) -> In j (somes (lqueue ep s ready c')) -> le_id (l_log s) i j.
Proof.
  intros ep s ready c c' i j I R Hi Hj fi ci fj cj Ri Rj. apply lqueue_in in Hi, Hj; auto.
  destruct Hi as (f1 & e1 & Hi & _), Hj as (f2 & e2 & Hj & _). apply (li_reg _ I) in Hi, Hj. destruct Hi as [Hi _], Hj as [Hj _].
  destruct (li_one _ I _ _ _ _ _ Ri Hi) as [_ ->]. destruct (li_one _ I _ _ _ _ _ Rj Hj) as [_ ->]. exact R.
Qed.
Lemma lqueue_disjoint : forall ep s ready c c' i, linv s -> c <> c' -> In i (somes (lqueue ep s ready c)) -> ~ In i (somes (lqueue ep s ready c')).
Proof.
  intros ep s ready c c' i I R Hi Hj. apply lqueue_in in Hi, Hj; auto.
  destruct Hi as (f1 & e1 & Hi & _), Hj as (f2 & e2 & Hj & _). destruct (reg_id_eq _ _ _ _ _ _ I Hi Hj). auto.
Qed.
Lemma cqueue_nodup : forall ep s ready, linv s -> NoDup (map fst ready) -> NoDup (somes (cqueue ep s ready)).
Proof.
  intros ep s ready I N. unfold cqueue. rewrite !somes_app. apply nodup_app; [apply lqueue_nodup; auto| |].
  - apply nodup_app; [apply lqueue_nodup; auto|apply lqueue_nodup; auto|]. intros x. apply lqueue_disjoint; auto. congruence.
  - intros x H Q. apply in_app_iff in Q. destruct Q as [Q|Q]; revert Q; eapply lqueue_disjoint; eauto; congruence.
Qed.
Lemma cqueue_sorted : forall ep s ready, linv s -> StronglySorted (le_id (l_log s)) (somes (cqueue ep s ready)).
Proof.
  intros ep s ready I. unfold cqueue. rewrite !somes_app. apply sorted_app; [| |].
  - apply sorted_all. intros. eapply lqueue_le with (c := EX) (c' := EX); eauto.
  - apply sorted_app; [apply sorted_all; intros; eapply lqueue_le with (c := RD) (c' := RD); eauto|apply sorted_all; intros; eapply lqueue_le with (c := WR) (c' := WR); eauto|].
    intros. eapply lqueue_le with (c := RD) (c' := WR); eauto. cbn. lia.
  - intros x y H Q. apply in_app_iff in Q. destruct Q as [Q|Q]; [eapply lqueue_le with (c := EX) (c' := RD); eauto; cbn; lia|eapply lqueue_le with (c := EX) (c' := WR); eauto; cbn; lia].
Qed.

(** ** The tasks. *)
Definition is_later (c : lcall) : bool := match c with CLater => true | _ => false end.
Lemma unregister_later : forall s fd c, l_later (unregister s fd c) = l_later s.
Proof. intros s fd c. destruct (unregister_shape s fd c) as [[-> _]|(id & k & _ & ->)]; reflexivity. Qed.
Lemma register_later : forall s fd c act, l_later (register s fd c act) = l_later s.
Proof.
  intros s fd c act. unfold register. destruct (fd <? 0); [reflexivity|]. cbv zeta. destruct act; cbn [negb]; [|apply unregister_later].
  fold (reg_core (unregister s fd c) fd c).
  destruct (negb _).
  - destruct (epoll_mod_shape (reg_core (unregister s fd c) fd c) fd (poll_events fd (l_reg (reg_core (unregister s fd c) fd c)))) as [k ->]. cbn. apply unregister_later.
  - destruct (epoll_add_shape (reg_core (unregister s fd c) fd c) fd (poll_events fd (l_reg (reg_core (unregister s fd c) fd c)))) as [k ->]. cbn. apply unregister_later.
Qed.
Lemma clear_later : forall s, l_later (clear_loop s) = [].
Proof.
  intro s. unfold clear_loop. cbv zeta. set (s0 := k_log _ _). assert (E : l_later s0 = []) by reflexivity. clearbody s0.
  generalize (l_reg s0). intro r. revert s0 E. induction r as [|x r IH]; intros s0 E; cbn; [exact E|]. apply IH. rewrite unregister_later. exact E.
Qed.
Lemma call_later : forall s c, (length (l_later (call s c)) <= length (l_later s) + (if is_later c then 1 else 0))%nat.
Proof.
  intros s c. destruct c; cbn [call is_later].
  - rewrite register_later. lia.
  - rewrite unregister_later. lia.
  - unfold unregister_all. rewrite !unregister_later. lia.
  - cbn. rewrite app_length. cbn. lia.
  - cbn. lia.
  - rewrite clear_later. cbn. lia.
  - cbn. lia.
  - cbn. lia.
Qed.
Lemma calls_later : forall cs s, (length (l_later (calls s cs)) <= length (l_later s) + length (filter is_later cs))%nat.
Proof.
  induction cs as [|c cs IH]; intro s; cbn; [lia|]. specialize (IH (call s c)). assert (X := call_later s c). unfold calls in IH. destruct (is_later c); cbn; lia.
Qed.
Lemma callback_later : forall s o s' o', callback s o = (s', o') -> (length (l_later s') + count_laters o' <= length (l_later s) + count_laters o)%nat.
Proof.
  intros s o s' o' H. unfold callback in H. destruct o as [|cs o]; injection H as <- <-; [lia|]. assert (X := calls_later cs s).
  change (count_laters (cs :: o)) with (length (filter is_later cs) + count_laters o)%nat. lia.
Qed.

Definition later_event (x : lev) : bool := match x with Later _ => true | _ => quiet x end.
Lemma good_later : forall s k r, good s -> l_later s = k :: r -> good (k_log (k_later s r (l_nlater s)) (Later k)).
Proof.
  intros s k r (I & A & O) E. split; [|cbn [k_log k_later l_log]; split; [apply acts_ok_other; auto; congruence|apply order_ok_other; auto; congruence]].
  destruct I as [D R N U OO ND LS LB LA LF]. rewrite E in *. constructor; cbn [k_log k_later l_log l_dead l_reg l_next l_later l_nlater]; auto.
  - intro i. rewrite in_app_iff, D. cbn. intuition discriminate.
  - intros c fd i. rewrite R. unfold stands. rewrite !in_app_iff. cbn. intuition discriminate.
  - intros i fd c H. apply in_app_iff in H. destruct H as [H|[H|[]]]; [eauto|discriminate].
  - intros i H. apply in_app_iff in H. destruct H as [H|[H|[]]]; [eauto|discriminate].
  - intros i f1 c1 f2 c2 HA HB. apply in_app_iff in HA, HB. destruct HA as [HA|[HA|[]]]; [|discriminate]. destruct HB as [HB|[HB|[]]]; [|discriminate]. eauto.
  - rewrite laters_app. cbn. rewrite <- app_assoc. exact LS.
  - rewrite laters_app. cbn. rewrite <- app_assoc. exact LB.
  - intro j. rewrite in_app_iff, <- LA. cbn. intuition discriminate.
  - intros j H. apply in_app_iff in H. destruct H as [H|[H|[]]]; [|discriminate]. destruct (LF j H) as [[<-|X]|X].
    + right. left. apply in_or_app. right. left. reflexivity.
    + auto.
    + right. apply fate_mono. auto.
Qed.
Lemma run_laters_ok : forall n s o s' o' a ready d, good s -> in_cycle s a ready d -> (length (l_later s) + count_laters o <= n)%nat ->
  run_laters n s o = (s', o') ->
  exists e, good s' /\ in_cycle s' a ready (d ++ e) /\ forallb later_event e = true /\ (l_stop s = true -> e = []) /\ (l_stop s' = true \/ l_later s' = []).
Proof.
  induction n as [|n IH]; intros s o s' o' a ready d G C L H; cbn [run_laters] in H.
  - injection H as <- <-. exists []. rewrite app_nil_r. spl; auto. right. destruct (l_later s); [reflexivity|cbn in L; lia].
  - destruct (l_stop s) eqn:ST; [injection H as <- <-; exists []; rewrite app_nil_r; spl; auto|].
    destruct (l_later s) as [|k r] eqn:E; [injection H as <- <-; exists []; rewrite app_nil_r; spl; auto|].
    destruct (callback (k_log (k_later s r (l_nlater s)) (Later k)) o) as [s1 o1] eqn:CB.
    assert (GA := good_later s k r G E).
    destruct (callback_steps _ _ _ _ (proj1 GA) CB) as [e1 S1]. assert (X := callback_later _ _ _ _ CB). cbn [k_log k_later l_later] in X.
    assert (C1 : in_cycle s1 a ready ((d ++ [Later k]) ++ e1)).
    { eapply in_cycle_steps; [|exact S1]. apply in_cycle_log; [exact C|congruence|congruence]. }
    destruct (IH s1 o1 s' o' a ready ((d ++ [Later k]) ++ e1)) as (e & E1 & E2 & E3 & E4 & E5); auto.
    { eapply good_steps; eauto. }
    { cbn in L. lia. }
    exists (Later k :: e1 ++ e). spl; auto.
    + replace (d ++ Later k :: e1 ++ e) with (((d ++ [Later k]) ++ e1) ++ e) by (rewrite <- !app_assoc; reflexivity). exact E2.
    + cbn. rewrite forallb_app, E3, Bool.andb_true_r. destruct S1 as (_ & _ & Q & _). rewrite forallb_forall in Q |- *. intros x Hx. specialize (Q x Hx).
      destruct x; try discriminate; reflexivity.
    + congruence.
Qed.
Lemma run_timers_ok : forall n s o s' o' a ready d, good s -> in_cycle s a ready d -> run_timers n s o = (s', o') ->
  exists e, good s' /\ in_cycle s' a ready (d ++ e).
Proof.
  induction n as [|n IH]; intros s o s' o' a ready d G C H; cbn [run_timers] in H.
  - injection H as <- <-. exists []. rewrite app_nil_r. auto.
  - destruct (callback (k_log s Fire) o) as [s1 o1] eqn:CB.
    assert (GA : good (k_log s Fire)) by (apply good_log; auto; congruence).
    destruct (callback_steps _ _ _ _ (proj1 GA) CB) as [e1 S1].
    assert (C1 : in_cycle s1 a ready ((d ++ [Fire]) ++ e1)).
    { eapply in_cycle_steps; [|exact S1]. apply in_cycle_log; [exact C|congruence|congruence]. }
    destruct (IH s1 o1 s' o' a ready ((d ++ [Fire]) ++ e1)) as (e & E1 & E2); auto; [eapply good_steps; eauto|].
    exists (Fire :: e1 ++ e). split; [exact E1|].
    replace (d ++ Fire :: e1 ++ e) with (((d ++ [Fire]) ++ e1) ++ e) by (rewrite <- !app_assoc; reflexivity). exact E2.
Qed.

(** ** One cycle. *)
Lemma cycle_ok : forall ep every s ready due o s' o', good s -> l_stop s = false -> NoDup (map fst ready) ->
  cycle ep every s ready due o = (s', o', false) ->
  exists e, good s' /\ in_cycle s' (l_log s) ready e /\
    (~ In Stopped e ->
     (forall id fd c evs, stands (l_log s) id fd c -> In (fd, evs) ready -> In c evs -> In (Act id) e \/ In (Unreg id) e) /\
     (forall k, In (Asked k) (l_log s) -> fate (l_log s') k)).
Proof.
  intros ep every s ready due o s' o' G ST N H. unfold cycle in H. destruct (negb ep && bad_fd s); [discriminate|]. cbv zeta in H.
  assert (I := proj1 G).
  change ((if ep then epoll_queue s ready else select_queue s ready) EX ++ (if ep then epoll_queue s ready else select_queue s ready) RD ++
          (if ep then epoll_queue s ready else select_queue s ready) WR) with (cqueue ep s ready) in H.
  assert (G0 : good (k_log s (Poll ready))) by (apply good_log; auto; congruence).
  assert (C0 : in_cycle (k_log s (Poll ready)) (l_log s) ready []).
  { split; [reflexivity|]. split; [cbn; tauto|]. cbn. rewrite ST. split; [discriminate|tauto]. }
  destruct (run_items (cqueue ep s ready) (k_log s (Poll ready)) o) as [s1 o1] eqn:E1.
  destruct (run_items_ok (cqueue ep s ready) (k_log s (Poll ready)) o s1 o1 (l_log s) ready [] G0 C0) as (e1 & G1 & C1 & _ & _ & _ & K1).
  { intros id Hid. apply cqueue_in in Hid; auto. destruct Hid as (c & fd & evs & A & B & D). apply (li_reg _ I) in A. destruct A as [A _]. exists fd, c, evs. auto. }
  { apply cqueue_nodup; auto. }
  { apply cqueue_sorted; auto. }
  { cbn. tauto. }
  { cbn. tauto. }
  { cbn. tauto. }
  { exact E1. }
  cbn [app] in C1.
  destruct (run_laters (length (l_later s1) + count_laters o1) s1 o1) as [s2 o2] eqn:E2.
  destruct (run_laters_ok _ _ _ _ _ (l_log s) ready e1 G1 C1 (le_n _) E2) as (e2 & G2 & C2 & _ & _ & K2).
  assert (T : exists e3, good s' /\ in_cycle s' (l_log s) ready ((e1 ++ e2) ++ e3)).
  { destruct (l_stop s2) eqn:S2.
    - rewrite S2 in H. cbn [negb] in H. rewrite Bool.andb_false_r in H. injection H as <- <-. exists []. rewrite app_nil_r. auto.
    - destruct (run_timers due s2 o2) as [s3 o3] eqn:E3. destruct (run_timers_ok _ _ _ _ _ _ _ _ G2 C2 E3) as (e3 & G3 & C3).
      destruct (every && negb (l_stop s3)); [|injection H as <- <-; eauto].
      destruct (callback (k_log s3 Every) o3) as [s4 o4] eqn:CB. injection H as <- <-.
      assert (GA : good (k_log s3 Every)) by (apply good_log; auto; congruence).
      destruct (callback_steps _ _ _ _ (proj1 GA) CB) as [e4 S4]. exists (e3 ++ [Every] ++ e4). split; [eapply good_steps; eauto|].
      replace ((e1 ++ e2) ++ e3 ++ [Every] ++ e4) with ((((e1 ++ e2) ++ e3) ++ [Every]) ++ e4) by (rewrite <- !app_assoc; reflexivity).
      eapply in_cycle_steps; [|exact S4]. apply in_cycle_log; [exact C3|congruence|congruence]. }
  destruct T as (e3 & G' & C'). exists ((e1 ++ e2) ++ e3). split; [exact G'|]. split; [exact C'|]. intro NS.
  assert (NS2 : l_stop s2 = false).
  { destruct (l_stop s2) eqn:Q; [|reflexivity]. exfalso. apply NS. apply in_or_app. left. apply (proj1 (proj2 (proj2 C2))). exact Q. }
  assert (NS1 : l_stop s1 = false).
  { destruct (l_stop s1) eqn:Q; [|reflexivity]. exfalso. apply NS. apply in_or_app. left. apply in_or_app. left. apply (proj1 (proj2 (proj2 C1))). exact Q. }
  split.
  - intros id fd c evs HS HR HC. assert (Hq : In id (somes (cqueue ep s ready))).
    { apply cqueue_in; auto. exists c, fd, evs. split; [apply (li_reg _ I); exact HS|auto]. }
    destruct (K1 NS1 id Hq) as [X|X].
    + left. apply in_or_app. left. apply in_or_app. left. exact X.
    + right. apply in_or_app. left. apply in_or_app. left. destruct C1 as (Cl & _). rewrite Cl in X. apply in_app_iff in X.
      destruct X as [X|[X|X]]; [exfalso; apply (proj2 HS); exact X|discriminate|exact X].
  - intros k Hk. destruct C' as (Cl & _). rewrite Cl. destruct C2 as (Cl2 & _).
    assert (X : fate (l_log s2) k).
    { destruct K2 as [K2|K2]; [congruence|]. assert (Y : In (Asked k) (l_log s2)) by (rewrite Cl2; apply in_or_app; auto).
      destruct (li_fate _ (proj1 G2) k Y) as [Z|Z]; [rewrite K2 in Z; destruct Z|exact Z]. }
    rewrite Cl2 in X. apply fate_mono with (d := e3) in X. rewrite <- app_assoc in X. exact X.
Qed.

(** ** Splitting a history at its polls. *)
Lemma split_after : forall l ready e d rest, l ++ Poll ready :: e = d ++ rest -> (forall r, ~ In (Poll r) d) ->
  exists rest', rest = rest' ++ Poll ready :: e /\ l = d ++ rest'.
Proof.
  intros l ready e d. revert l. induction d as [|x d IH]; intros l rest E H; cbn in E.
  - exists l. auto.
  - destruct l as [|y l]; cbn in E; injection E as E0 E; [exfalso; apply (H ready); left; auto|]. subst y.
    destruct (IH l rest E) as (rest' & A & B); [intros r Hr; apply (H r); right; exact Hr|]. exists rest'. split; [exact A|]. cbn. rewrite B. reflexivity.
Qed.
Lemma split_polls : forall l ready e a r d rest, l ++ Poll ready :: e = a ++ Poll r :: d ++ rest -> (forall r, ~ In (Poll r) e) -> (forall r, ~ In (Poll r) d) ->
  (rest = [] \/ exists r t, rest = Poll r :: t) ->
  (a = l /\ r = ready /\ d = e /\ rest = []) \/ (exists rest', rest = rest' ++ Poll ready :: e /\ l = a ++ Poll r :: d ++ rest').
Proof.
  induction l as [|x l IH]; intros ready e a r d rest E He Hd HR.
  - left. destruct a as [|y a]; cbn in E.
    + injection E as <- E. destruct HR as [->|(r' & t & ->)].
      * rewrite app_nil_r in E. auto.
      * exfalso. apply (He r'). rewrite E. apply in_or_app. right. left. reflexivity.
    + injection E as <- E. exfalso. apply (He r). rewrite E. apply in_or_app. right. left. reflexivity.
  - destruct a as [|y a]; cbn in E; injection E as -> E.
    + right. destruct (split_after _ _ _ _ _ E Hd) as (rest' & A & B). exists rest'. split; [exact A|]. cbn. rewrite B. reflexivity.
    + destruct (IH _ _ _ _ _ _ E He Hd HR) as [(-> & -> & -> & ->)|(rest' & A & B)]; [left; auto|]. right. exists rest'. split; [exact A|]. cbn. rewrite B. reflexivity.
Qed.

Lemma cycles_add : forall l ready e, cycles_ok l -> (forall r, ~ In (Poll r) e) ->
  (~ In Stopped e ->
     (forall id fd c evs, stands l id fd c -> In (fd, evs) ready -> In c evs -> In (Act id) e \/ In (Unreg id) e) /\
     (forall k, In (Asked k) l -> fate (l ++ Poll ready :: e) k)) ->
  cycles_ok (l ++ Poll ready :: e).
Proof.
  intros l ready e K P H a r d rest E HR Hd HS. destruct (split_polls _ _ _ _ _ _ _ E P Hd HR) as [(-> & -> & -> & ->)|(rest' & A & B)]; [auto|].
  apply (K a r d rest' B); auto. destruct rest' as [|x rest']; [auto|]. right. destruct HR as [HR|(r' & t & HR)]; [rewrite HR in A; discriminate|].
  rewrite HR in A. cbn in A. injection A as <- _. eauto.
Qed.
(** Later events that are no polls only add to the last cycle. *)
Lemma cycles_quiet : forall l x, cycles_ok l -> (forall r, x <> Poll r) -> cycles_ok (l ++ [x]).
Proof.
  intros l x K P a r d rest E HR Hd HS. destruct HR as [->|(r' & t & ->)].
  - rewrite app_nil_r in E. destruct d as [|y d] using rev_ind.
    + apply app_inj_tail in E. destruct E as [_ E]. exfalso. eapply P; eauto.
    + clear IHd. rewrite app_comm_cons, app_assoc in E. apply app_inj_tail in E. destruct E as [E ->].
      destruct (K a r d [] ) as [K1 K2]; auto.
      { rewrite app_nil_r. exact E. }
      { intros r' Hr. apply (Hd r'). apply in_or_app. auto. }
      { intro Hs. apply HS. apply in_or_app. auto. }
      split.
      * intros id fd c evs A B C. destruct (K1 id fd c evs A B C); [left|right]; apply in_or_app; auto.
      * intros k Hk. specialize (K2 k Hk). apply fate_mono with (d := [y]) in K2. rewrite <- app_assoc in K2. exact K2.
  - rewrite app_comm_cons, app_assoc in E. apply app_one_cons in E. destruct E as [(_ & _ & E)|(t' & -> & E)]; [exfalso; eapply P; eauto|].
    eapply (K a r d (Poll r' :: t')); eauto. rewrite E, <- app_assoc. reflexivity.
Qed.
Lemma cycles_steps : forall s s' d, steps s s' d -> cycles_ok (l_log s) -> cycles_ok (l_log s').
Proof.
  intros s s' d (_ & E & Q & _) K. rewrite E. clear E. revert K. generalize (l_log s). induction d as [|x d IH]; intros l K; [rewrite app_nil_r; exact K|].
  cbn in Q. apply andb_prop in Q. destruct Q as [Q1 Q2]. replace (l ++ x :: d) with ((l ++ [x]) ++ d) by (rewrite <- app_assoc; reflexivity).
  apply IH; auto. apply cycles_quiet; auto. intros r ->. discriminate.
Qed.

(** ** A run, and a life. *)
Definition fine (s : lp) : Prop := good s /\ cycles_ok (l_log s).
Lemma loop_fine : forall ep every ins s o, fine s -> l_stop s = false -> reports_ok ins -> fine (loop ep every s ins o).
Proof.
  intros ep every. induction ins as [|[ready due] ins IH]; intros s o F ST R; cbn [loop]; [exact F|].
  destruct (cycle ep every s ready due o) as [[s1 o1] []] eqn:C.
  - cbn [orb]. unfold cycle in C. destruct (negb ep && bad_fd s); [injection C as <- _; exact F|]. exfalso. revert C. cbv zeta.
    repeat match goal with |- context [let '(_, _) := ?x in _] => destruct x end. discriminate.
  - cbn [orb]. destruct F as [G K]. destruct (cycle_ok _ _ _ _ _ _ _ _ G ST (R _ _ (or_introl eq_refl)) C) as (e & G1 & (C1 & C2 & C3) & C4).
    assert (F1 : fine s1).
    { split; [exact G1|]. rewrite C1. apply cycles_add; auto. intro HS. specialize (C4 HS). rewrite C1 in C4. exact C4. }
    destruct (l_stop s1) eqn:S1; [exact F1|]. apply IH; auto. intros a b Hab. apply (R a b). right. exact Hab.
Qed.

Lemma k_stop_fine : forall s b, fine s -> fine (k_stop s b).
Proof. intros s b (([] & A & O) & K). split; [|exact K]. split; [|split; [exact A|exact O]]. constructor; assumption. Qed.
Lemma calls_fine : forall cs s, fine s -> fine (calls s cs).
Proof.
  intros cs s [G K]. destruct (calls_steps cs s (proj1 G)) as [d S]. split; [eapply good_steps; eauto|eapply cycles_steps; eauto].
Qed.
Lemma new_fine : fine lp_new.
Proof.
  split; [split; [apply linv_new|split]|].
  - intros past id rest E. destruct past; discriminate.
  - intros past i mid j rest fi ci fj cj E. destruct past; discriminate.
  - intros a ready d rest E. destruct a; discriminate.
Qed.
Definition lreports (segs : list (list lcall * list (list (Z * list cond) * nat) * list (list lcall))) : Prop := forall x, In x segs -> reports_ok (snd (fst x)).
Lemma life_fine : forall ep every segs, lreports segs -> fine (life ep every segs).
Proof.
  intros ep every segs. unfold life. assert (F := new_fine). revert F. generalize lp_new. induction segs as [|x segs IH]; intros s F R; cbn; [exact F|].
  apply IH; [|intros y Hy; apply R; right; exact Hy]. unfold run_loop. apply loop_fine; [apply k_stop_fine, calls_fine; exact F|reflexivity|apply R; left; reflexivity].
Qed.
