From Verif Require Import Base BaseFacts LinkedList LinkedListSpec.
From Coq Require Import Permutation.
Ltac Zify.zify_post_hook ::= Z.div_mod_to_equations.

(** ** Rings: circular doubly linked sequences *)
Definition rot (l : list Z) : list Z := match l with [] => [] | a :: r => r ++ [a] end.
Definition ring (nx pv : Z -> Z) (l : list Z) : Prop := map nx l = rot l /\ map pv (rot l) = l.

Lemma ring_rot1 : forall nx pv a l, ring nx pv (a :: l) -> ring nx pv (l ++ [a]).
Proof.
  intros nx pv a l [H1 H2]. cbn [rot] in *. unfold ring. destruct l as [|b l].
  - cbn [app rot] in *. auto.
  - cbn [map app] in H1, H2. injection H1 as H1a H1b. injection H2 as H2a H2b. cbn [app rot].
    change (nx b :: map nx l) with (map nx (b :: l)) in H1b.
    split.
    + change (map nx (b :: l ++ [a])) with (map nx ((b :: l) ++ [a])). rewrite map_app, H1b. cbn [map]. rewrite H1a. reflexivity.
    + rewrite map_app, H2b. cbn [map]. rewrite H2a. reflexivity.
Qed.

Lemma ring_rotate : forall l1 l2 nx pv, ring nx pv (l1 ++ l2) -> ring nx pv (l2 ++ l1).
Proof.
  induction l1 as [|a l1 IH]; intros l2 nx pv H.
  - rewrite app_nil_r. exact H.
  - cbn [app] in H. apply ring_rot1 in H. rewrite <- app_assoc in H. apply IH in H. rewrite <- app_assoc in H. exact H.
Qed.

Lemma map_fupd_notin : forall {A} (f : Z -> A) i x l, ~ In i l -> map (fupd f i x) l = map f l.
Proof.
  intros A f i x l. induction l as [|a l IH]; intros H; [reflexivity|]. cbn [map In] in *. f_equal.
  - unfold fupd. destruct (Z.eqb_spec a i); [subst; tauto|reflexivity].
  - apply IH. tauto.
Qed.
Lemma fupd_same : forall {A} (f : Z -> A) i x, fupd f i x i = x.
Proof. intros. unfold fupd. rewrite Z.eqb_refl. reflexivity. Qed.
Lemma fupd_other : forall {A} (f : Z -> A) i x j, j <> i -> fupd f i x j = f j.
Proof. intros. unfold fupd. destruct (Z.eqb_spec j i); [congruence|reflexivity]. Qed.

Lemma ring_ext : forall nx pv nx' pv' l, ring nx pv l -> (forall x, In x l -> nx' x = nx x /\ pv' x = pv x) -> ring nx' pv' l.
Proof.
  intros nx pv nx' pv' l [H1 H2] He. split.
  - rewrite <- H1. apply map_ext_in. intros; apply He; assumption.
  - rewrite <- H2 at 2. apply map_ext_in. intros x Hx. apply He. destruct l; [exact Hx|].
    cbn [rot] in Hx. apply in_app_or in Hx. cbn [In] in *. tauto.
Qed.

(** The two ends of a ring. *)
Lemma ring_ends : forall nx pv x l, ring nx pv (x :: l) ->
  exists a b, nx x = b /\ pv x = a /\ nx a = x /\ pv b = x
    /\ ((l = [] /\ a = x /\ b = x) \/ (exists l', l = l' ++ [a]) /\ (exists l', l = b :: l')).
Proof.
  intros nx pv x l H. destruct l as [|b l].
  - destruct H as [H1 H2]. cbn in *. injection H1 as H1. injection H2 as H2. exists x, x. auto 10.
  - destruct (@exists_last _ (b :: l)) as (l' & a & El); [discriminate|]. exists a, b.
    destruct H as [H1 H2]. cbn [rot] in *. 
    assert (nx x = b) by (cbn in H1; congruence).
    assert (pv b = x) by (cbn in H2; congruence).
    rewrite El in H1, H2. rewrite map_app in H2. cbn [map] in *.
    rewrite map_app in H1, H2. cbn [map] in *.
    assert (Hn : nx a = x).
    { rewrite app_comm_cons in H1. apply app_inj_tail in H1. tauto. }
    assert (Hp : pv x = a).
    { rewrite app_comm_cons in H2. apply app_inj_tail in H2. tauto. }
    repeat split; auto. right. split; eauto.
Qed.

Lemma ring_unlink : forall nx pv x l, NoDup (x :: l) -> ring nx pv (x :: l) ->
  ring (fupd nx (pv x) (nx x)) (fupd pv (nx x) (pv x)) l.
Proof.
  intros nx pv x l Hnd H. destruct l as [|b l]; [split; reflexivity|].
  destruct (@exists_last _ (b :: l)) as (l' & a & El); [discriminate|].
  destruct (ring_ends _ _ _ _ H) as (a' & b' & Hnx & Hpx & Hna & Hpb & [(E & _)|((m & Em) & (m' & Em'))]); [discriminate|].
  rewrite El in Em. apply app_inj_tail in Em. destruct Em as [<- <-]. injection Em' as <- <-.
  rewrite Hnx, Hpx. destruct H as [H1 H2]. cbn [rot] in H1, H2.
  change (map nx (x :: b :: l)) with (nx x :: map nx (b :: l)) in H1. rewrite Hnx in H1. injection H1 as H1.
  apply NoDup_cons_iff in Hnd. destruct Hnd as [Hx Hnd']. unfold ring. cbn [rot]. split.
  - change (nx b :: map nx l) with (map nx (b :: l)) in H1. rewrite El in *. rewrite map_app in *. cbn [map] in *. rewrite fupd_same.
    assert (Hla : ~ In a l') by (apply NoDup_remove_2 in Hnd'; rewrite app_nil_r in Hnd'; exact Hnd').
    rewrite map_fupd_notin by exact Hla. rewrite Hna in H1. apply app_inj_tail in H1.
    destruct H1 as [H1 _]. rewrite H1. reflexivity.
  - rewrite map_app. cbn [map]. rewrite fupd_same.
    apply NoDup_cons_iff in Hnd'. destruct Hnd' as [Hlb _].
    rewrite map_fupd_notin by exact Hlb.
    change ((b :: l) ++ [x]) with (b :: l ++ [x]) in H2. cbn [map] in H2. rewrite Hpb in H2. injection H2 as H2.
    rewrite map_app in H2. cbn [map] in H2. rewrite Hpx in H2. exact H2.
Qed.

Lemma ring_link_before : forall nx pv x b l, NoDup (x :: b :: l) -> ring nx pv (b :: l) ->
  ring (fupd (fupd nx x b) (pv b) x) (fupd (fupd pv x (pv b)) b x) (x :: b :: l).
Proof.
  intros nx pv x b l Hnd H. inversion Hnd as [|? ? Hx Hnd']; subst.
  destruct (ring_ends _ _ _ _ H) as (a & b' & Hnb & Hpb & Hna & Hpb' & Hends).
  rewrite Hpb in *. assert (Ha : In a (b :: l)).
  { destruct Hends as [(-> & -> & _)|((m & ->) & _)]; [left; reflexivity|right; apply in_or_app; right; left; reflexivity]. }
  assert (Hax : x <> a) by (intros ->; tauto). assert (Hbx : x <> b) by (intros ->; apply Hx; left; reflexivity).
  destruct H as [H1 H2]. unfold ring. cbn [rot] in *. split.
  - assert (Ex : fupd (fupd nx x b) a x x = b) by (rewrite fupd_other, fupd_same by congruence; reflexivity).
    change (map (fupd (fupd nx x b) a x) (x :: b :: l)) with (fupd (fupd nx x b) a x x :: map (fupd (fupd nx x b) a x) (b :: l)).
    rewrite Ex. destruct (@exists_last _ (b :: l)) as (l' & a' & El); [discriminate|]. 
    assert (a' = a).
    { destruct Hends as [(-> & -> & _)|((m & ->) & _)].
      - destruct l' as [|? [|? ?]]; try discriminate. cbn in El. congruence.
      - rewrite app_comm_cons in El. apply app_inj_tail in El. destruct El; congruence. }
    subst a'. rewrite El in *. rewrite map_app. cbn [map]. rewrite fupd_same.
    assert (Hla : ~ In a l') by (apply NoDup_remove_2 in Hnd'; rewrite app_nil_r in Hnd'; exact Hnd').
    assert (Hlx : ~ In x l') by (intros Hin; apply Hx; apply in_or_app; auto).
    rewrite map_fupd_notin, map_fupd_notin by assumption. rewrite map_app in H1. cbn [map] in H1. apply app_inj_tail in H1.
    destruct H1 as [H1 _]. rewrite H1. cbn [app]. f_equal. rewrite <- El. reflexivity.
  - cbn [app]. assert (Eb : fupd (fupd pv x a) b x b = x) by apply fupd_same.
    cbn [map]. rewrite Eb. f_equal. rewrite map_app in *. cbn [map] in *.
    assert (Hlb : ~ In b l) by (inversion Hnd'; assumption). assert (Hlx : ~ In x l) by (intros Hin; apply Hx; right; assumption).
    rewrite map_fupd_notin, map_fupd_notin by assumption. rewrite fupd_other, fupd_same by congruence.
    rewrite Hpb in H2. exact H2.
Qed.

Lemma ring_link_after : forall nx pv x a l, NoDup (a :: x :: l) -> ring nx pv (a :: l) ->
  ring (fupd (fupd nx x (nx a)) a x) (fupd (fupd pv x a) (nx a) x) (a :: x :: l).
Proof.
  intros nx pv x a l Hnd H.
  (* link after a = link before the successor of a *)
  destruct (ring_ends _ _ _ _ H) as (p & b & Hna & Hpa & Hnp & Hpb & Hends). rewrite Hna.
  assert (Hax : a <> x) by (inversion Hnd as [|? ? Hx _]; subst; intros ->; apply Hx; left; reflexivity).
  assert (Hxl : ~ In x l) by (inversion Hnd as [|? ? _ H']; subst; inversion H'; assumption).
  destruct Hends as [(-> & -> & ->)|((m & Em) & (m' & ->))].
  - clear -Hax. unfold ring. cbn [rot map app]. repeat (rewrite fupd_same || rewrite fupd_other by congruence). auto.
  - assert (Hr : ring nx pv (b :: m' ++ [a])) by (apply (ring_rotate [a] (b :: m')); exact H).
    assert (Hnd2 : NoDup (x :: b :: m' ++ [a])).
    { eapply Permutation_NoDup; [|exact Hnd]. change (a :: x :: b :: m') with ([a] ++ (x :: b :: m')).
      eapply perm_trans; [apply Permutation_app_comm|]. cbn [app]. reflexivity. }
    pose proof (ring_link_before nx pv x b (m' ++ [a]) Hnd2 Hr) as HR. rewrite Hpb in HR.
    apply (ring_rotate (x :: b :: m') [a]) in HR. cbn [app] in HR. exact HR.
Qed.

(** ** State level *)
Section State.
Variable T : Type.
Notation lst := (lst T).

Definition lk (s : lst) (nx pv : Z -> Z) : lst := mkLst (l_n s) nx pv (l_val s) (l_use s) (l_size s) (l_blank s).
Definition sring (s : lst) (l : list Z) : Prop := ring (l_nxt s) (l_prv s) l.
Definition inrange (s : lst) (l : list Z) : Prop := forall y, In y l -> 0 <= y < l_n s.

Lemma inb_true : forall (s : lst) i, 0 <= i < l_n s -> inb s i = true.
Proof. intros s i H. unfold inb. lia. Qed.
Lemma inb_lk : forall s nx pv i, inb (lk s nx pv) i = inb s i.
Proof. reflexivity. Qed.

Lemma ring_in_next : forall nx pv x l, ring nx pv l -> In x l -> In (nx x) l /\ In (pv x) l.
Proof.
  intros nx pv x l H Hin. apply in_split in Hin. destruct Hin as (l1 & l2 & ->).
  apply ring_rotate in H. cbn [app] in H.
  destruct (ring_ends _ _ _ _ H) as (a & b & -> & -> & _ & _ & Hends).
  assert (Hp : forall y, In y (x :: l2 ++ l1) -> In y (l1 ++ x :: l2)).
  { intros y Hy. apply in_or_app. cbn [In] in *. rewrite in_app_iff in Hy. tauto. }
  destruct Hends as [(_ & -> & ->)|((m & E) & (m' & E'))].
  - split; apply Hp; left; reflexivity.
  - split; apply Hp; right; [rewrite E'; left; reflexivity|rewrite E; apply in_or_app; right; left; reflexivity].
Qed.

Ltac bnd := repeat (match goal with |- context [(0 <=? ?a) && (?a <? ?n)] =>
    replace ((0 <=? a) && (a <? n)) with true by lia end; cbn [l_n l_nxt l_prv l_val l_use l_size l_blank]).

Lemma unlink_eq : forall (s : lst) x, 0 <= x < l_n s -> 0 <= l_prv s x < l_n s -> 0 <= l_nxt s x < l_n s ->
  unlink_node s x = Ok (lk s (fupd (l_nxt s) (l_prv s x) (l_nxt s x)) (fupd (l_prv s) (l_nxt s x) (l_prv s x))).
Proof.
  intros s x Hx Hp Hn. unfold unlink_node, gprv, gnxt, snxt, sprv, rbind, inb. cbn [l_n l_nxt l_prv l_val l_use l_size l_blank].
  assert (E : fupd (l_nxt s) (l_prv s x) (l_nxt s x) x = l_nxt s x) by (unfold fupd; destruct (x =? l_prv s x); reflexivity).
  bnd. rewrite E. bnd. reflexivity.
Qed.

Lemma link_before_eq : forall (s : lst) x b, 0 <= x < l_n s -> 0 <= b < l_n s -> 0 <= l_prv s b < l_n s ->
  link_before s x b = Ok (lk s (fupd (fupd (l_nxt s) x b) (l_prv s b) x) (fupd (fupd (l_prv s) x (l_prv s b)) b x)).
Proof.
  intros s x b Hx Hb Hp. unfold link_before, gprv, gnxt, snxt, sprv, rbind, inb. cbn [l_n l_nxt l_prv l_val l_use l_size l_blank].
  assert (E : fupd (l_prv s) x (l_prv s b) b = l_prv s b).
  { unfold fupd. destruct (Z.eqb_spec b x); [subst|]; reflexivity. }
  bnd. rewrite E. bnd. reflexivity.
Qed.

Lemma link_after_eq : forall (s : lst) x a, 0 <= x < l_n s -> 0 <= a < l_n s -> 0 <= l_nxt s a < l_n s ->
  link_after s x a = Ok (lk s (fupd (fupd (l_nxt s) x (l_nxt s a)) a x) (fupd (fupd (l_prv s) x a) (l_nxt s a) x)).
Proof.
  intros s x a Hx Ha Hn. unfold link_after, gprv, gnxt, snxt, sprv, rbind, inb. cbn [l_n l_nxt l_prv l_val l_use l_size l_blank].
  assert (E : fupd (l_nxt s) x (l_nxt s a) a = l_nxt s a).
  { unfold fupd. destruct (Z.eqb_spec a x); [subst|]; reflexivity. }
  bnd. rewrite E. bnd. reflexivity.
Qed.

Definition disj (A B : list Z) : Prop := forall y, In y A -> In y B -> False.

Lemma unlink_spec : forall (s : lst) x l, sring s (x :: l) -> NoDup (x :: l) -> inrange s (x :: l) ->
  exists nx pv, unlink_node s x = Ok (lk s nx pv) /\ ring nx pv l
    /\ forall B, disj B (x :: l) -> sring s B -> ring nx pv B.
Proof.
  intros s x l Hr Hnd Hin. destruct (ring_in_next _ _ x _ Hr (or_introl eq_refl)) as [Hn Hp].
  eexists _, _. split; [apply unlink_eq; apply Hin; [left; reflexivity|exact Hp|exact Hn]|].
  split; [apply ring_unlink; assumption|].
  intros B Hd HB. eapply ring_ext; [exact HB|]. intros y Hy.
  split; apply fupd_other; intros ->; eapply Hd; eauto.
Qed.

Lemma link_before_spec : forall (s : lst) x b l, sring s (b :: l) -> NoDup (x :: b :: l) -> inrange s (x :: b :: l) ->
  exists nx pv, link_before s x b = Ok (lk s nx pv) /\ ring nx pv (x :: b :: l)
    /\ forall B, disj B (x :: b :: l) -> sring s B -> ring nx pv B.
Proof.
  intros s x b l Hr Hnd Hin. destruct (ring_in_next _ _ b _ Hr (or_introl eq_refl)) as [Hn Hp].
  eexists _, _. split; [apply link_before_eq; apply Hin; [left; reflexivity|right; left; reflexivity|right; exact Hp]|].
  split; [apply ring_link_before; assumption|].
  intros B Hd HB. eapply ring_ext; [exact HB|]. intros y Hy.
  split; rewrite !fupd_other; auto; intros ->; eapply Hd; eauto; cbn [In]; tauto.
Qed.

Lemma link_after_spec : forall (s : lst) x a l, sring s (a :: l) -> NoDup (a :: x :: l) -> inrange s (a :: x :: l) ->
  exists nx pv, link_after s x a = Ok (lk s nx pv) /\ ring nx pv (a :: x :: l)
    /\ forall B, disj B (a :: x :: l) -> sring s B -> ring nx pv B.
Proof.
  intros s x a l Hr Hnd Hin. destruct (ring_in_next _ _ a _ Hr (or_introl eq_refl)) as [Hn Hp].
  assert (Hn' : In (l_nxt s a) (a :: x :: l)) by (cbn [In] in *; tauto).
  eexists _, _. split; [apply link_after_eq; apply Hin; [right; left; reflexivity|left; reflexivity|exact Hn']|].
  split; [apply ring_link_after; assumption|].
  intros B Hd HB. eapply ring_ext; [exact HB|]. intros y Hy.
  split; rewrite !fupd_other; auto; intros ->; eapply Hd; eauto; cbn [In]; tauto.
Qed.

(** ** initNewNodes *)
Fixpoint zseq (start : Z) (k : nat) : list Z := match k with O => [] | S k' => start :: zseq (start + 1) k' end.
Lemma in_zseq : forall k start x, In x (zseq start k) <-> start <= x < start + Z.of_nat k.
Proof. induction k as [|k IH]; intros start x; cbn [zseq In]; [lia|]. rewrite IH. lia. Qed.
Lemma zseq_length : forall k start, length (zseq start k) = k.
Proof. induction k; intros; cbn; auto. Qed.
Lemma zseq_nodup : forall k start, NoDup (zseq start k).
Proof. induction k as [|k IH]; intros start; cbn [zseq]; constructor; [rewrite in_zseq; lia|apply IH]. Qed.
Lemma zseq_snoc : forall k start, zseq start (S k) = zseq start k ++ [start + Z.of_nat k].
Proof.
  induction k as [|k IH]; intros start; [cbn; f_equal; lia|].
  change (zseq start (S (S k))) with (start :: zseq (start + 1) (S k)). rewrite IH. cbn [zseq app]. f_equal. f_equal. f_equal. lia.
Qed.
Lemma map_succ_zseq : forall k start, map (fun j => j + 1) (zseq start k) = zseq (start + 1) k.
Proof. induction k as [|k IH]; intros start; cbn [zseq map]; [reflexivity|]. rewrite IH. reflexivity. Qed.

Lemma init_loop_spec : forall k (s : lst) i, 0 <= i -> i + Z.of_nat k <= l_n s ->
  exists s', init_loop k s i = Ok s' /\ l_n s' = l_n s /\ l_size s' = l_size s /\ l_blank s' = l_blank s
    /\ (forall j, l_nxt s' j = if (i <=? j) && (j <? i + Z.of_nat k) then j + 1 else l_nxt s j)
    /\ (forall j, l_prv s' j = if (i <=? j) && (j <? i + Z.of_nat k) then j - 1 else l_prv s j)
    /\ (forall j, l_val s' j = if (i <=? j) && (j <? i + Z.of_nat k) then l_blank s else l_val s j)
    /\ (forall j, l_use s' j = if (i <=? j) && (j <? i + Z.of_nat k) then false else l_use s j).
Proof.
  induction k as [|k IH]; intros s i Hi Hk; cbn [init_loop].
  - exists s. split; [reflexivity|]. repeat split; intros j; destruct ((i <=? j) && (j <? i + Z.of_nat 0)) eqn:E; try reflexivity; lia.
  - unfold sprv, snxt, sval, suse, rbind, inb. cbn [l_n l_nxt l_prv l_val l_use l_size l_blank].
    repeat (replace ((0 <=? i) && (i <? l_n s)) with true by lia; cbn [l_n l_nxt l_prv l_val l_use l_size l_blank]).
    match goal with |- context [init_loop k ?s1 (i + 1)] => destruct (IH s1 (i + 1) ltac:(lia)) as (s' & He & Hn & Hs & Hb & H1 & H2 & H3 & H4) end.
    { cbn [l_n]. lia. }
    cbn [l_n l_nxt l_prv l_val l_use l_size l_blank] in *.
    exists s'. rewrite He. split; [reflexivity|]. split; [exact Hn|]. split; [exact Hs|]. split; [exact Hb|].
    assert (Ht : forall (A : Type) (f g : Z -> A) (h : Z -> A) (v : A),
       (forall j, f j = if (i + 1 <=? j) && (j <? i + 1 + Z.of_nat k) then h j else fupd g i v j) -> h i = v ->
       forall j, f j = if (i <=? j) && (j <? i + Z.of_nat (S k)) then h j else g j).
    { intros A f g h v H Hv j. rewrite H. unfold fupd.
      destruct (Z.eqb_spec j i).
      - subst j. replace ((i + 1 <=? i) && (i <? i + 1 + Z.of_nat k)) with false by lia.
        replace ((i <=? i) && (i <? i + Z.of_nat (S k))) with true by lia. auto.
      - replace ((i <=? j) && (j <? i + Z.of_nat (S k))) with ((i + 1 <=? j) && (j <? i + 1 + Z.of_nat k)) by lia. reflexivity. }
    split; [eapply Ht; [exact H1|reflexivity]|]. split; [eapply Ht; [exact H2|reflexivity]|].
    split; [eapply (Ht _ _ _ (fun _ => l_blank s)); [exact H3|reflexivity]|].
    eapply (Ht _ _ _ (fun _ => false)); [exact H4|reflexivity].
Qed.

(** New nodes from [start] to the end of the vector become the free list, if it was empty. *)
Lemma init_new_nodes_spec : forall (s : lst) start, 2 <= start < l_n s -> l_nxt s 1 = 1 -> l_prv s 1 = 1 ->
  exists s', init_new_nodes s start = Ok s' /\ l_n s' = l_n s /\ l_size s' = l_size s /\ l_blank s' = l_blank s
    /\ sring s' (1 :: zseq start (Z.to_nat (l_n s - start)))
    /\ (forall j, j < start -> j <> 1 -> l_nxt s' j = l_nxt s j /\ l_prv s' j = l_prv s j)
    /\ (forall j, j < start -> l_val s' j = l_val s j /\ l_use s' j = l_use s j)
    /\ (forall j, start <= j < l_n s -> l_val s' j = l_blank s /\ l_use s' j = false).
Proof.
  intros s start Hst Hn1 Hp1. unfold init_new_nodes.
  destruct (init_loop_spec (Z.to_nat (l_n s - start)) s start ltac:(lia) ltac:(lia)) as (s1 & He & Hn & Hs & Hb & H1 & H2 & H3 & H4).
  rewrite He. cbn [rbind]. replace (Z.max start (l_n s)) with (l_n s) by lia.
  replace (start + Z.of_nat (Z.to_nat (l_n s - start))) with (l_n s) in * by lia.
  assert (Hp1' : l_prv s1 1 = 1) by (rewrite H2; replace ((start <=? 1) && (1 <? l_n s)) with false by lia; exact Hp1).
  assert (E : fupd (l_prv s1) start 1 1 = 1) by (rewrite fupd_other by lia; exact Hp1').
  unfold gprv, sprv, snxt, inb, rbind. cbn [l_n l_nxt l_prv l_val l_use l_size l_blank]. rewrite Hn.
  rewrite Hp1'. bnd. rewrite E.
  eexists. split; [reflexivity|]. cbn [l_n l_nxt l_prv l_val l_use l_size l_blank].
  split; [reflexivity|]. split; [exact Hs|]. split; [exact Hb|]. split; [|split; [|split]].
  - unfold sring, ring. cbn [l_n l_nxt l_prv l_val l_use l_size l_blank rot].
    set (k := Z.to_nat (l_n s - start)). destruct k as [|k'] eqn:Ek; [lia|].
    set (nx := fupd (fupd (l_nxt s1) (l_n s - 1) 1) 1 start). set (pv := fupd (fupd (l_prv s1) start 1) 1 (l_n s - 1)).
    assert (Hlast : start + Z.of_nat k' = l_n s - 1) by lia.
    split.
    + cbn [map]. rewrite zseq_snoc, map_app. cbn [map]. rewrite Hlast.
      assert (N1 : nx 1 = start) by apply fupd_same.
      assert (Nl : nx (l_n s - 1) = 1) by (unfold nx; rewrite fupd_other by lia; apply fupd_same).
      rewrite N1, Nl. rewrite (map_ext_in nx (fun j => j + 1)).
      * rewrite map_succ_zseq, app_comm_cons. f_equal. rewrite <- Hlast, <- zseq_snoc. reflexivity.
      * intros j Hj. apply in_zseq in Hj. unfold nx. rewrite !fupd_other by lia. rewrite H1.
        replace ((start <=? j) && (j <? l_n s)) with true by lia. reflexivity.
    + assert (P1 : pv 1 = l_n s - 1) by apply fupd_same.
      assert (Ps : pv start = 1) by (unfold pv; rewrite fupd_other by lia; apply fupd_same).
      rewrite map_app. cbn [map]. rewrite P1. cbn [zseq map]. rewrite Ps.
      rewrite (map_ext_in pv (fun j => j - 1)).
      * cbn [app]. f_equal. rewrite <- map_succ_zseq, map_map. rewrite (map_ext _ (fun j => j)) by (intros; lia). rewrite map_id.
        rewrite <- Hlast. rewrite <- zseq_snoc. cbn [zseq]. rewrite <- map_succ_zseq. reflexivity.
      * intros j Hj. apply in_zseq in Hj. unfold pv. rewrite !fupd_other by lia. rewrite H2.
        replace ((start <=? j) && (j <? l_n s)) with true by lia. reflexivity.
  - intros j Hj Hj1. rewrite !fupd_other by lia. rewrite H1, H2.
    replace ((start <=? j) && (j <? l_n s)) with false by lia. auto.
  - intros j Hj. rewrite H3, H4. replace ((start <=? j) && (j <? l_n s)) with false by lia. auto.
  - intros j Hj. rewrite H3, H4. replace ((start <=? j) && (j <? l_n s)) with true by lia. auto.
Qed.

(** ** The invariant *)
Record inv (s : lst) (seq free : list Z) : Prop := mkInv {
  inv_seq : sring s (0 :: seq);
  inv_free : sring s (1 :: free);
  inv_nodup : NoDup ((0 :: seq) ++ 1 :: free);
  inv_range : forall x, In x ((0 :: seq) ++ 1 :: free) <-> 0 <= x < l_n s;
  inv_use : forall x, 0 <= x < l_n s -> (l_use s x = true <-> In x (0 :: seq));
  inv_size : l_size s = zlen seq;
  inv_blank : forall x, In x free -> l_val s x = l_blank s
}.

Lemma nodup_app : forall (A B : list Z), NoDup (A ++ B) <-> NoDup A /\ NoDup B /\ disj A B.
Proof.
  induction A as [|a A IH]; intros B; cbn [app].
  - split; [intros H; split; [constructor|split; [exact H|intros y []]]|intros (_ & H & _); exact H].
  - rewrite !NoDup_cons_iff, IH, in_app_iff. unfold disj. cbn [In]. split.
    + intros (H1 & H2 & H3 & H4). split; [tauto|]. split; [exact H3|]. intros y [<-|Hy] HyB; [tauto|eauto].
    + intros ((H1 & H2) & H3 & H4). split; [intros [H|H]; [tauto|eauto]|]. split; [exact H2|]. split; [exact H3|]. eauto.
Qed.

Lemma inv_facts : forall s seq free, inv s seq free ->
  NoDup (0 :: seq) /\ NoDup (1 :: free) /\ disj (0 :: seq) (1 :: free) /\ 2 <= l_n s
  /\ inrange s (0 :: seq) /\ inrange s (1 :: free).
Proof.
  intros s seq free H. destruct (proj1 (nodup_app _ _) (inv_nodup _ _ _ H)) as (H1 & H2 & H3).
  pose proof (inv_range _ _ _ H) as Hr. split; [exact H1|]. split; [exact H2|]. split; [exact H3|].
  split; [|split].
  - assert (0 <= 1 < l_n s) by (apply Hr; apply in_or_app; right; left; reflexivity). lia.
  - intros y Hy. apply Hr. apply in_or_app. auto.
  - intros y Hy. apply Hr. apply in_or_app. auto.
Qed.

Lemma lst_init_ok : forall blank : T, exists s free, lst_init blank = Ok s /\ inv s [] free /\ l_blank s = blank.
Proof.
  intros blank. unfold lst_init. unfold sprv, snxt, suse, sval, inb, rbind. cbn [l_n l_nxt l_prv l_val l_use l_size l_blank].
  repeat (match goal with |- context [(0 <=? ?a) && (?a <? 16)] => change ((0 <=? a) && (a <? 16)) with true end;
          cbv beta iota; cbn [l_n l_nxt l_prv l_val l_use l_size l_blank]).
  match goal with |- context [init_new_nodes ?s 2] =>
    destruct (init_new_nodes_spec s 2 ltac:(cbn; lia) eq_refl eq_refl) as (s' & He & Hn & Hs & Hb & Hr & H1 & H2 & H3) end.
  rewrite He. cbn [l_n l_nxt l_prv l_val l_use l_size l_blank] in *.
  exists s', (zseq 2 14). split; [reflexivity|]. split; [|exact Hb].
  change (Z.to_nat (16 - 2)) with 14%nat in Hr.
  constructor.
  - destruct (H1 0 ltac:(lia) ltac:(lia)) as [E1 E2]. unfold sring, ring. cbn [map rot app]. rewrite E1, E2. reflexivity || (split; reflexivity).
  - exact Hr.
  - cbn [app]. constructor; [|constructor; [|apply zseq_nodup]].
    + intros [E|E]; [lia|]. apply in_zseq in E. lia.
    + intros E. apply in_zseq in E. lia.
  - intros x. cbn [app In]. rewrite in_zseq, Hn. lia.
  - intros x Hx. rewrite Hn in Hx. cbn [In]. destruct (Z_lt_le_dec x 2) as [Hx2|Hx2].
    + destruct (H2 x Hx2) as [_ ->]. unfold fupd. destruct (Z.eqb_spec x 1), (Z.eqb_spec x 0); split; intros; try lia; try discriminate; auto.
    + destruct (H3 x ltac:(lia)) as [_ ->]. split; [discriminate|]. intros [E|[]]. lia.
  - exact Hs.
  - intros x Hx. apply in_zseq in Hx. rewrite Hb. apply H3. lia.
Qed.

Lemma grow_ok : forall s seq, inv s seq [] -> exists s' free, grow_free_list s = Ok s' /\ free <> [] /\ inv s' seq free
  /\ l_blank s' = l_blank s /\ (forall x, In x seq -> l_val s' x = l_val s x).
Proof.
  intros s seq H. destruct (inv_facts _ _ _ H) as (N1 & N2 & D & Hn2 & R1 & R2). unfold grow_free_list.
  pose proof (inv_free _ _ _ H) as Hf. destruct Hf as [Hf1 Hf2]. cbn in Hf1, Hf2. injection Hf1 as Hf1. injection Hf2 as Hf2.
  destruct (init_new_nodes_spec (resize s (l_n s + 16)) (l_n s) ltac:(cbn; lia) Hf1 Hf2) as (s' & He & Hn & Hs & Hb & Hr & H1 & H2 & H3).
  cbn [resize l_n l_nxt l_prv l_val l_use l_size l_blank] in *.
  replace (Z.to_nat (l_n s + 16 - l_n s)) with 16%nat in Hr by lia.
  exists s', (zseq (l_n s) 16). split; [exact He|]. split; [cbn [zseq]; discriminate|]. split; [|split; [exact Hb|]].
  - constructor.
    + eapply ring_ext; [apply (inv_seq _ _ _ H)|]. intros x Hx. apply H1; [apply R1 in Hx; lia|].
      intros ->. eapply D; [exact Hx|left; reflexivity].
    + exact Hr.
    + apply nodup_app. split; [exact N1|]. split.
      * constructor; [rewrite in_zseq; lia|apply zseq_nodup].
      * intros y Hy [E|E]; [subst; eapply D; [exact Hy|left; reflexivity]|]. apply in_zseq in E. apply R1 in Hy. lia.
    + intros x. rewrite Hn. pose proof (inv_range _ _ _ H x) as Hrg. rewrite in_app_iff in *. 
      change (In x (1 :: zseq (l_n s) 16)) with (1 = x \/ In x (zseq (l_n s) 16)). rewrite in_zseq. cbn [In] in *.
      split; [intros [?|[?|?]]; [| |lia]; assert (0 <= x < l_n s) by tauto; lia|].
      intros Hx. destruct (Z_lt_le_dec x (l_n s)); [assert (0 <= x < l_n s) by lia; tauto|right; right; lia].
    + intros x Hx. rewrite Hn in Hx. destruct (Z_lt_le_dec x (l_n s)) as [Hlt|Hge].
      * destruct (H2 x Hlt) as [_ ->]. apply (inv_use _ _ _ H). lia.
      * destruct (H3 x ltac:(lia)) as [_ ->]. split; [discriminate|]. intros Hin. apply R1 in Hin. lia.
    + rewrite Hs. apply (inv_size _ _ _ H).
    + intros x Hx. apply in_zseq in Hx. rewrite Hb. apply H3. lia.
  - intros x Hx. apply H2. assert (Hx' : In x (0 :: seq)) by (right; exact Hx). apply R1 in Hx'. lia.
Qed.

Lemma has_ok : forall s seq free n, inv s seq free -> exists b, has s n = Ok b /\ (b = true <-> In n seq).
Proof.
  intros s seq free n H. destruct (inv_facts _ _ _ H) as (N1 & N2 & D & Hn2 & R1 & R2).
  apply NoDup_cons_iff in N1. destruct N1 as [N0 N1]. unfold has, guse, inb.
  destruct ((n >? 0) && (n <? l_n s)) eqn:E.
  - replace ((0 <=? n) && (n <? l_n s)) with true by lia. eexists. split; [reflexivity|].
    rewrite (inv_use _ _ _ H) by lia. cbn [In]. split; [intros [Hz|Hin]; [lia|exact Hin]|auto].
  - exists false. split; [reflexivity|]. split; [discriminate|]. intros Hin.
    assert (n <> 0) by (intros ->; tauto). assert (Hin' : In n (0 :: seq)) by (right; exact Hin). apply R1 in Hin'. lia.
Qed.

Lemma is_using_ok : forall s seq free n, inv s seq free -> exists b, is_using s n = Ok b /\ (b = true <-> In n (0 :: seq)).
Proof.
  intros s seq free n H. unfold is_using. destruct (Z.eqb_spec n 0) as [->|Hn].
  - exists true. cbn [In]. tauto.
  - destruct (has_ok s seq free n H) as (b & E & Hb). exists b. split; [exact E|]. rewrite Hb. cbn [In]. split; [auto|intros [?|?]; [lia|assumption]].
Qed.

(** Permuting the ring of live nodes, with new links. *)
Lemma inv_relink : forall s seq free nx pv seq', inv s seq free -> ring nx pv (0 :: seq') -> ring nx pv (1 :: free) ->
  Permutation seq seq' -> inv (lk s nx pv) seq' free.
Proof.
  intros s seq free nx pv seq' H H1 H2 HP.
  assert (HP0 : Permutation (0 :: seq) (0 :: seq')) by (constructor; exact HP).
  constructor; cbn [lk l_n l_nxt l_prv l_val l_use l_size l_blank].
  - exact H1.
  - exact H2.
  - eapply Permutation_NoDup; [|apply (inv_nodup _ _ _ H)]. apply Permutation_app_tail, HP0.
  - intros x. rewrite <- (inv_range _ _ _ H x). split; apply Permutation_in;
      [apply Permutation_app_tail, Permutation_sym, HP0|apply Permutation_app_tail, HP0].
  - intros x Hx. rewrite (inv_use _ _ _ H x Hx). split; apply Permutation_in; [exact HP0|apply Permutation_sym, HP0].
  - rewrite (inv_size _ _ _ H). unfold zlen. rewrite (Permutation_length HP). reflexivity.
  - apply (inv_blank _ _ _ H).
Qed.

Lemma lk_lk : forall s nx pv nx' pv', lk (lk s nx pv) nx' pv' = lk s nx' pv'.
Proof. reflexivity. Qed.

Lemma disj_sub : forall A A' B, disj A B -> (forall x, In x A' -> In x A) -> disj A' B.
Proof. unfold disj. eauto. Qed.
Lemma disj_sym : forall A B, disj A B -> disj B A.
Proof. unfold disj. eauto. Qed.

(** Taking a live element out of its ring and putting it back elsewhere. *)
Lemma unlink_live : forall s seq free l1 x l2, inv s seq free -> 0 :: seq = l1 ++ x :: l2 ->
  exists nx pv, unlink_node s x = Ok (lk s nx pv) /\ ring nx pv (l2 ++ l1) /\ ring nx pv (1 :: free)
     /\ NoDup (x :: l2 ++ l1) /\ inrange s (x :: l2 ++ l1) /\ disj (1 :: free) (x :: l2 ++ l1).
Proof.
  intros s seq free l1 x l2 H E. destruct (inv_facts _ _ _ H) as (N1 & N2 & D & Hn2 & R1 & R2).
  assert (HP : Permutation (0 :: seq) (x :: l2 ++ l1)).
  { rewrite E. eapply perm_trans; [apply Permutation_app_comm|]. reflexivity. }
  assert (Hr : sring s (x :: l2 ++ l1)).
  { pose proof (inv_seq _ _ _ H) as Hr. rewrite E in Hr. apply ring_rotate in Hr. exact Hr. }
  assert (Hnd : NoDup (x :: l2 ++ l1)) by (eapply Permutation_NoDup; eauto).
  assert (Hin : inrange s (x :: l2 ++ l1)).
  { intros y Hy. apply R1. eapply Permutation_in; [apply Permutation_sym, HP|exact Hy]. }
  assert (Hd : disj (1 :: free) (x :: l2 ++ l1)).
  { apply disj_sym. eapply disj_sub; [exact D|]. intros y Hy. eapply Permutation_in; [apply Permutation_sym, HP|exact Hy]. }
  destruct (unlink_spec s x (l2 ++ l1) Hr Hnd Hin) as (nx & pv & He & Hring & HB).
  exists nx, pv. split; [exact He|]. split; [exact Hring|]. split; [apply HB; [exact Hd|apply (inv_free _ _ _ H)]|]. auto.
Qed.

Lemma move_spec : forall s seq free l1 x l2, inv s seq free -> seq = l1 ++ x :: l2 ->
  (exists s1 nx pv, unlink_node s x = Ok s1 /\ link_after s1 x 0 = Ok (lk s nx pv) /\ inv (lk s nx pv) (x :: l1 ++ l2) free)
  /\ (exists s1 nx pv, unlink_node s x = Ok s1 /\ link_before s1 x 0 = Ok (lk s nx pv) /\ inv (lk s nx pv) (l1 ++ l2 ++ [x]) free)
  /\ (exists s1 nx pv, unlink_node s 0 = Ok s1 /\ link_before s1 0 x = Ok (lk s nx pv) /\ inv (lk s nx pv) (x :: l2 ++ l1) free)
  /\ (exists s1 nx pv, unlink_node s 0 = Ok s1 /\ link_after s1 0 x = Ok (lk s nx pv) /\ inv (lk s nx pv) (l2 ++ l1 ++ [x]) free).
Proof.
  intros s seq free l1 x l2 H E.
  assert (E0 : 0 :: seq = (0 :: l1) ++ x :: l2) by (rewrite E; reflexivity).
  destruct (unlink_live s seq free (0 :: l1) x l2 H E0) as (nx & pv & He & Hr & Hf & Hnd & Hin & Hd).
  assert (Hr' : ring nx pv (0 :: l1 ++ l2)) by (apply (ring_rotate l2 (0 :: l1)) in Hr; exact Hr).
  assert (HPa : Permutation (x :: l2 ++ 0 :: l1) (0 :: x :: l1 ++ l2)).
  { eapply perm_trans; [apply perm_skip; apply Permutation_app_comm|]. cbn [app]. apply perm_swap. }
  assert (Hsw : forall Q, Permutation (x :: l2 ++ 0 :: l1) Q -> NoDup Q /\ inrange s Q /\ disj (1 :: free) Q).
  { intros Q HQ. split; [eapply Permutation_NoDup; eauto|]. split; [intros y Hy; apply Hin; eapply Permutation_in; [apply Permutation_sym, HQ|exact Hy]|].
    intros y Hy1 Hy2. eapply Hd; [exact Hy1|]. eapply Permutation_in; [apply Permutation_sym, HQ|exact Hy2]. }
  split; [|split; [|split]].
  - destruct (Hsw _ HPa) as (Ha & Hb & Hc).
    destruct (link_after_spec (lk s nx pv) x 0 (l1 ++ l2) Hr' Ha Hb) as (nx' & pv' & He' & Hr2 & HB).
    eexists _, nx', pv'. split; [exact He|]. split; [exact He'|]. eapply inv_relink; [exact H|exact Hr2|apply HB; [exact Hc|exact Hf]|].
    rewrite E. apply Permutation_sym, Permutation_middle.
  - assert (HPb : Permutation (x :: l2 ++ 0 :: l1) (x :: 0 :: l1 ++ l2)) by (eapply perm_trans; [exact HPa|apply perm_swap]).
    destruct (Hsw _ HPb) as (Ha & Hb & Hc).
    destruct (link_before_spec (lk s nx pv) x 0 (l1 ++ l2) Hr' Ha Hb) as (nx' & pv' & He' & Hr2 & HB).
    eexists _, nx', pv'. split; [exact He|]. split; [exact He'|]. eapply inv_relink; [exact H| |apply HB; [exact Hc|exact Hf]|].
    + apply (ring_rotate [x] (0 :: l1 ++ l2)) in Hr2. cbn [app] in Hr2. rewrite <- app_assoc in Hr2. exact Hr2.
    + rewrite E. eapply perm_trans; [apply Permutation_sym, Permutation_middle|]. rewrite app_assoc. apply Permutation_cons_append.
  - destruct (unlink_live s seq free [] 0 seq H eq_refl) as (nx0 & pv0 & He0 & Hr0 & Hf0 & Hnd0 & Hin0 & Hd0).
    rewrite app_nil_r in *. rewrite E in Hr0.
    assert (Hrx : ring nx0 pv0 (x :: l2 ++ l1)) by (apply (ring_rotate l1 (x :: l2)) in Hr0; exact Hr0).
    assert (HPc : Permutation (0 :: seq) (0 :: x :: l2 ++ l1)).
    { apply perm_skip. rewrite E. apply (Permutation_app_comm l1 (x :: l2)). }
    assert (Ha : NoDup (0 :: x :: l2 ++ l1)) by (eapply Permutation_NoDup; eauto).
    assert (Hb : inrange s (0 :: x :: l2 ++ l1)) by (intros y Hy; apply Hin0; eapply Permutation_in; [apply Permutation_sym, HPc|exact Hy]).
    assert (Hc : disj (1 :: free) (0 :: x :: l2 ++ l1)).
    { intros y Hy1 Hy2. eapply Hd0; [exact Hy1|]. eapply Permutation_in; [apply Permutation_sym, HPc|exact Hy2]. }
    destruct (link_before_spec (lk s nx0 pv0) 0 x (l2 ++ l1) Hrx Ha Hb) as (nx' & pv' & He' & Hr2 & HB).
    eexists _, nx', pv'. split; [exact He0|]. split; [exact He'|]. eapply inv_relink; [exact H|exact Hr2|apply HB; [exact Hc|exact Hf0]|].
    rewrite E. apply (Permutation_app_comm l1 (x :: l2)).
  - destruct (unlink_live s seq free [] 0 seq H eq_refl) as (nx0 & pv0 & He0 & Hr0 & Hf0 & Hnd0 & Hin0 & Hd0).
    rewrite app_nil_r in *. rewrite E in Hr0.
    assert (Hrx : ring nx0 pv0 (x :: l2 ++ l1)) by (apply (ring_rotate l1 (x :: l2)) in Hr0; exact Hr0).
    assert (HPc : Permutation (0 :: seq) (x :: 0 :: l2 ++ l1)).
    { eapply perm_trans; [|apply perm_swap]. apply perm_skip. rewrite E. apply (Permutation_app_comm l1 (x :: l2)). }
    assert (Ha : NoDup (x :: 0 :: l2 ++ l1)) by (eapply Permutation_NoDup; eauto).
    assert (Hb : inrange s (x :: 0 :: l2 ++ l1)) by (intros y Hy; apply Hin0; eapply Permutation_in; [apply Permutation_sym, HPc|exact Hy]).
    assert (Hc : disj (1 :: free) (x :: 0 :: l2 ++ l1)).
    { intros y Hy1 Hy2. eapply Hd0; [exact Hy1|]. eapply Permutation_in; [apply Permutation_sym, HPc|exact Hy2]. }
    destruct (link_after_spec (lk s nx0 pv0) 0 x (l2 ++ l1) Hrx Ha Hb) as (nx' & pv' & He' & Hr2 & HB).
    eexists _, nx', pv'. split; [exact He0|]. split; [exact He'|]. eapply inv_relink; [exact H| |apply HB; [exact Hc|exact Hf0]|].
    + apply (ring_rotate [x] (0 :: l2 ++ l1)) in Hr2. cbn [app] in Hr2. rewrite <- app_assoc in Hr2. exact Hr2.
    + rewrite E. eapply perm_trans; [apply (Permutation_app_comm l1 (x :: l2))|]. cbn [app]. rewrite app_assoc. apply Permutation_cons_append.
Qed.

Lemma remove_ok : forall s seq free l1 x l2, inv s seq free -> seq = l1 ++ x :: l2 ->
  exists s', remove s x = Ok (s', true) /\ inv s' (l1 ++ l2) (free ++ [x]) /\ l_blank s' = l_blank s
    /\ forall y, In y (l1 ++ l2) -> l_val s' y = l_val s y.
Proof.
  intros s seq free l1 x l2 H E. unfold remove.
  assert (Hxin : In x seq) by (rewrite E; apply in_or_app; right; left; reflexivity).
  destruct (has_ok s seq free x H) as (b & Eb & Hb). rewrite Eb. cbn [rbind].
  replace b with true by (symmetry; apply Hb, Hxin). cbn [negb].
  assert (E0 : 0 :: seq = (0 :: l1) ++ x :: l2) by (rewrite E; reflexivity).
  destruct (inv_facts _ _ _ H) as (N1 & N2 & D & Hn2 & R1 & R2).
  destruct (unlink_live s seq free (0 :: l1) x l2 H E0) as (nx & pv & He & Hr & Hf & Hnd & Hin & Hd). rewrite He. cbn [rbind].
  assert (Hx : 0 <= x < l_n s) by (apply Hin; left; reflexivity).
  assert (Hxf : ~ In x (1 :: free)) by (intros Hxf; eapply Hd; [exact Hxf|left; reflexivity]).
  assert (Hr' : ring nx pv (0 :: l1 ++ l2)) by (apply (ring_rotate l2 (0 :: l1)) in Hr; exact Hr).
  unfold suse, inb. cbn [lk set_size l_n l_nxt l_prv l_val l_use l_size l_blank]. bnd. cbn [rbind].
  match goal with |- context [link_before ?s0 x 1] => set (s3 := s0) end.
  assert (Hnx : NoDup (x :: 1 :: free)) by (constructor; assumption).
  assert (Hix : inrange s3 (x :: 1 :: free)) by (intros y [<-|Hy]; [exact Hx|apply R2, Hy]).
  destruct (link_before_spec s3 x 1 free Hf Hnx Hix) as (nx' & pv' & He' & Hr2 & HB). rewrite He'. cbn [rbind].
  unfold sval, inb. cbn [lk l_n l_nxt l_prv l_val l_use l_size l_blank s3]. bnd. cbn [rbind].
  eexists. split; [reflexivity|]. 
  assert (Hd' : disj (0 :: l1 ++ l2) (x :: 1 :: free)).
  { intros y Hy1 [<-|Hy2].
    - apply NoDup_cons_iff in Hnd. apply (proj1 Hnd). apply in_or_app. cbn [In] in *. rewrite in_app_iff in Hy1. tauto.
    - eapply D; [|exact Hy2]. rewrite E. cbn [In] in *. rewrite in_app_iff in *. cbn [In]. tauto. }
  assert (Hperm : Permutation ((0 :: seq) ++ 1 :: free) ((0 :: l1 ++ l2) ++ 1 :: free ++ [x])).
  { rewrite E. cbn [app]. apply perm_skip. rewrite <- !app_assoc. apply Permutation_app_head. cbn [app].
    eapply perm_trans; [apply Permutation_cons_append|]. rewrite <- !app_assoc. reflexivity. }
  split; [|split].
  - constructor; unfold sring; cbn [l_n l_nxt l_prv l_val l_use l_size l_blank].
    + apply HB; [exact Hd'|exact Hr'].
    + apply (ring_rotate [x] (1 :: free)) in Hr2. exact Hr2.
    + eapply Permutation_NoDup; [exact Hperm|apply (inv_nodup _ _ _ H)].
    + intros y. rewrite <- (inv_range _ _ _ H y). split; apply Permutation_in; [apply Permutation_sym, Hperm|exact Hperm].
    + intros y Hy. unfold fupd. destruct (Z.eqb_spec y x) as [->|Hyx].
      * split; [discriminate|]. intros Hin'. exfalso. eapply Hd'; [exact Hin'|left; reflexivity].
      * rewrite (inv_use _ _ _ H y Hy), E. cbn [In]. rewrite !in_app_iff. cbn [In]. intuition congruence.
    + rewrite (inv_size _ _ _ H), E. rewrite !zlen_app, zlen_cons. lia.
    + intros y Hy. unfold fupd. destruct (Z.eqb_spec y x) as [->|Hyx]; [reflexivity|].
      apply (inv_blank _ _ _ H). apply in_app_or in Hy. destruct Hy as [Hy|[Hy|[]]]; [exact Hy|congruence].
  - reflexivity.
  - intros y Hy. cbn [l_val]. apply fupd_other. intros ->. eapply Hd'; [right; exact Hy|left; reflexivity].
Qed.

(** Adding next to a position of the ring 0 :: seq. *)
Lemma basic_add_ok : forall s seq free l1 n l2 after, inv s seq free -> 0 :: seq = l1 ++ n :: l2 ->
  exists s' free' m seq', basic_add s n after = Ok (s', m) /\ ~ In m (0 :: seq) /\ 1 < m
    /\ inv s' seq' free' /\ l_blank s' = l_blank s /\ l_val s' m = l_blank s
    /\ (if after then 0 :: seq' = l1 ++ n :: m :: l2
        else match l1 with [] => seq' = seq ++ [m] | _ => 0 :: seq' = l1 ++ m :: n :: l2 end)
    /\ forall y, In y seq -> l_val s' y = l_val s y.
Proof.
  intros s seq free l1 n l2 after H E. unfold basic_add.
  assert (Hnin : In n (0 :: seq)) by (rewrite E; apply in_or_app; right; left; reflexivity).
  destruct (is_using_ok s seq free n H) as (u & Eu & Hu). rewrite Eu. cbn [rbind].
  replace u with true by (symmetry; apply Hu, Hnin). cbn [negb].
  (* make sure there is a free node *)
  assert (Hfree : exists s1 f fr, (e <- free_list_empty s;; if (e : bool) then grow_free_list s else Ok s)%res = Ok s1
     /\ inv s1 seq (f :: fr) /\ l_blank s1 = l_blank s /\ forall y, In y seq -> l_val s1 y = l_val s y).
  { destruct (inv_facts _ _ _ H) as (N1 & N2 & D & Hn2 & R1 & R2). unfold free_list_empty, gnxt, inb. bnd. cbn [rbind].
    destruct free as [|f fr].
    - destruct (inv_free _ _ _ H) as [Hf1 _]. cbn in Hf1. injection Hf1 as Hf1. rewrite Hf1. cbn [Z.eqb Pos.eqb].
      destruct (grow_ok s seq H) as (s1 & free' & Eg & Hne & Hi & Hbl & Hv). destruct free' as [|f fr]; [congruence|].
      exists s1, f, fr. auto.
    - destruct (ring_ends _ _ _ _ (inv_free _ _ _ H)) as (a & b & Hn1 & _ & _ & _ & [(Ec & _)|(_ & (l' & El))]); [discriminate|].
      injection El as Ef El. rewrite Hn1, <- Ef.
      destruct (Z.eqb_spec f 1) as [->|Hf1]; [apply NoDup_cons_iff in N2; destruct N2 as [N2 _]; exfalso; apply N2; left; reflexivity|].
      exists s, f, fr. auto. }
  destruct Hfree as (s1 & f & fr & Ef & H1 & Hbl & Hval).
  destruct (free_list_empty s) as [e| |]; cbn [rbind] in *; try discriminate. rewrite Ef. cbn [rbind]. clear H Eu Hu Ef e u.
  destruct (inv_facts _ _ _ H1) as (N1 & N2 & D & Hn2 & R1 & R2).
  assert (Hrv : gnxt s1 1 = Ok f).
  { unfold gnxt, inb. bnd. destruct (ring_ends _ _ _ _ (inv_free _ _ _ H1)) as (a & b & Hn1 & _ & _ & _ & [(Ec & _)|(_ & (l' & El))]); [discriminate|].
    congruence. }
  rewrite Hrv. cbn [rbind].
  assert (Hfr : sring s1 (f :: fr ++ [1])).
  { pose proof (inv_free _ _ _ H1) as Hf. apply (ring_rotate [1] (f :: fr)) in Hf. exact Hf. }
  assert (HPf : Permutation (1 :: f :: fr) (f :: fr ++ [1])) by (apply (Permutation_app_comm [1] (f :: fr))).
  assert (Hndf : NoDup (f :: fr ++ [1])) by (eapply Permutation_NoDup; eauto).
  assert (Hinf : inrange s1 (f :: fr ++ [1])) by (intros y Hy; apply R2; eapply Permutation_in; [apply Permutation_sym, HPf|exact Hy]).
  destruct (unlink_spec s1 f (fr ++ [1]) Hfr Hndf Hinf) as (nx & pv & He & Hr & HB). rewrite He. cbn [rbind].
  assert (Hdf : disj (0 :: seq) (f :: fr ++ [1])).
  { intros y Hy1 Hy2. eapply D; [exact Hy1|]. eapply Permutation_in; [apply Permutation_sym, HPf|exact Hy2]. }
  assert (Hs2 : ring nx pv (0 :: seq)) by (apply HB; [exact Hdf|apply (inv_seq _ _ _ H1)]).
  assert (Hf2 : ring nx pv (1 :: fr)) by (apply ring_rotate in Hr; exact Hr).
  assert (Hfb : 0 <= f < l_n s1) by (apply Hinf; left; reflexivity).
  assert (Hf0 : ~ In f (0 :: seq)) by (intros Hin; eapply Hdf; [exact Hin|left; reflexivity]).
  assert (Hf1 : f <> 1) by (intros ->; apply NoDup_cons_iff in N2; apply (proj1 N2); left; reflexivity).
  assert (Hffr : ~ In f fr) by (apply NoDup_cons_iff in N2; destruct N2 as [_ N2]; apply NoDup_cons_iff in N2; tauto).
  unfold suse, inb. cbn [lk l_n l_nxt l_prv l_val l_use l_size l_blank]. bnd. cbn [rbind].
  match goal with |- context [link_after ?s0 f n] => set (s3 := s0) end.
  assert (Hrn : sring s3 (n :: l2 ++ l1)).
  { unfold sring, s3. cbn [l_nxt l_prv]. rewrite E in Hs2. apply ring_rotate in Hs2. exact Hs2. }
  assert (HPs : Permutation (0 :: seq) (n :: l2 ++ l1)) by (rewrite E; apply (Permutation_app_comm l1 (n :: l2))).
  assert (Hnf : ~ In f (n :: l2 ++ l1)) by (intros Hin; apply Hf0; eapply Permutation_in; [apply Permutation_sym, HPs|exact Hin]).
  assert (Hnn : NoDup (n :: l2 ++ l1)) by (eapply Permutation_NoDup; [exact HPs|exact N1]).
  assert (Hir : forall Q, Permutation (f :: n :: l2 ++ l1) Q -> NoDup Q /\ inrange s3 Q /\ disj (1 :: fr) Q).
  { intros Q HQ. split; [eapply Permutation_NoDup; [exact HQ|constructor; assumption]|]. split.
    - intros y Hy. apply (Permutation_in _ (Permutation_sym HQ)) in Hy. destruct Hy as [<-|Hy]; [exact Hfb|].
      unfold s3. cbn [l_n]. apply R1. eapply Permutation_in; [apply Permutation_sym, HPs|exact Hy].
    - intros y Hy1 Hy2. apply (Permutation_in _ (Permutation_sym HQ)) in Hy2. destruct Hy2 as [<-|Hy2].
      + cbn [In] in Hy1. intuition congruence.
      + eapply D; [eapply Permutation_in; [apply Permutation_sym, HPs|exact Hy2]|]. cbn [In] in *. tauto. }
  (* common conclusion *)
  assert (Hconc : forall nx' pv' seq', ring nx' pv' (0 :: seq') -> ring nx' pv' (1 :: fr) -> Permutation (0 :: seq') (f :: 0 :: seq) ->
     inv (set_size (lk s3 nx' pv') (l_size s1 + 1)) seq' fr).
  { intros nx' pv' seq' Ha Hb HP.
    assert (HPp : Permutation ((0 :: seq) ++ 1 :: f :: fr) ((0 :: seq') ++ 1 :: fr)).
    { apply Permutation_sym. eapply perm_trans; [apply Permutation_app_tail, HP|]. cbn [app].
      eapply perm_trans; [apply perm_swap|]. apply perm_skip.
      eapply perm_trans; [apply Permutation_middle|]. apply Permutation_app_head. apply perm_swap. }
    constructor; unfold sring; cbn [set_size lk s3 l_n l_nxt l_prv l_val l_use l_size l_blank].
    - exact Ha.
    - exact Hb.
    - eapply Permutation_NoDup; [exact HPp|apply (inv_nodup _ _ _ H1)].
    - intros x. rewrite <- (inv_range _ _ _ H1 x). split; apply Permutation_in; [apply Permutation_sym, HPp|exact HPp].
    - intros x Hx. unfold fupd. destruct (Z.eqb_spec x f) as [->|Hxf].
      + split; [|reflexivity]. intros _. eapply Permutation_in; [apply Permutation_sym, HP|left; reflexivity].
      + rewrite (inv_use _ _ _ H1 x Hx). split; intros Hin.
        * eapply Permutation_in; [apply Permutation_sym, HP|right; exact Hin].
        * apply (Permutation_in _ HP) in Hin. destruct Hin as [Hin|Hin]; [congruence|exact Hin].
    - rewrite (inv_size _ _ _ H1). apply Permutation_length in HP. cbn [length] in HP. unfold zlen. lia.
    - intros x Hx. apply (inv_blank _ _ _ H1). right. exact Hx. }
  assert (Hvf : l_val s1 f = l_blank s) by (rewrite <- Hbl; apply (inv_blank _ _ _ H1); left; reflexivity).
  assert (Hm : 1 < f).
  { assert (f <> 0) by (intros ->; apply Hf0; left; reflexivity). lia. }
  destruct after.
  - assert (HPa : Permutation (f :: n :: l2 ++ l1) (n :: f :: l2 ++ l1)) by apply perm_swap.
    destruct (Hir _ HPa) as (Ha & Hb & Hc).
    destruct (link_after_spec s3 f n (l2 ++ l1) Hrn Ha Hb) as (nx' & pv' & He' & Hr2 & HB2). rewrite He'. cbn [rbind].
    assert (Hr3 : ring nx' pv' (l1 ++ n :: f :: l2)) by (apply (ring_rotate (n :: f :: l2) l1); exact Hr2).
    destruct l1 as [|z l1].
    + cbn [app] in *. injection E as <- E.
      eexists _, fr, f, (f :: l2). split; [reflexivity|]. split; [exact Hf0|]. split; [exact Hm|].
      split; [apply Hconc; [exact Hr3|apply HB2; [exact Hc|exact Hf2]|rewrite E; apply perm_swap]|]. auto.
    + cbn [app] in *. injection E as <- E.
      eexists _, fr, f, (l1 ++ n :: f :: l2). split; [reflexivity|]. split; [exact Hf0|]. split; [exact Hm|].
      split; [apply Hconc; [exact Hr3|apply HB2; [exact Hc|exact Hf2]|]|].
      { rewrite E. change (n :: f :: l2) with ([n] ++ f :: l2). rewrite app_assoc. rewrite app_comm_cons.
        eapply perm_trans; [apply Permutation_sym, Permutation_middle|]. cbn [app]. rewrite <- app_assoc. reflexivity. }
      auto.
  - destruct (Hir _ (Permutation_refl _)) as (Ha & Hb & Hc).
    destruct (link_before_spec s3 f n (l2 ++ l1) Hrn Ha Hb) as (nx' & pv' & He' & Hr2 & HB2). rewrite He'. cbn [rbind].
    destruct l1 as [|z l1].
    + cbn [app] in *. injection E as <- E. rewrite app_nil_r in Hr2.
      assert (Hr3 : ring nx' pv' (0 :: l2 ++ [f])) by (apply (ring_rotate [f] (0 :: l2)) in Hr2; exact Hr2).
      eexists _, fr, f, (seq ++ [f]). split; [reflexivity|]. split; [exact Hf0|]. split; [exact Hm|].
      split; [apply Hconc; [rewrite E; exact Hr3|apply HB2; [exact Hc|exact Hf2]|]|].
      { apply Permutation_sym. apply (Permutation_cons_append (0 :: seq) f). }
      auto.
    + cbn [app] in *. injection E as <- E.
      assert (Hr3 : ring nx' pv' ((0 :: l1) ++ f :: n :: l2)) by (apply (ring_rotate (f :: n :: l2) (0 :: l1)); exact Hr2).
      eexists _, fr, f, (l1 ++ f :: n :: l2). split; [reflexivity|]. split; [exact Hf0|]. split; [exact Hm|].
      split; [apply Hconc; [exact Hr3|apply HB2; [exact Hc|exact Hf2]|]|].
      { rewrite E. rewrite app_comm_cons. eapply perm_trans; [apply Permutation_sym, Permutation_middle|]. reflexivity. }
      auto.
Qed.

(** ** Refinement to a sequence of named values *)
Definition L (s : lst) (a : list (Z * T)) : Prop :=
  (exists free, inv s (map fst a) free) /\ (forall n v, In (n, v) a -> l_val s n = v).

Lemma L_init : forall blank : T, exists s, lst_init blank = Ok s /\ L s [] /\ l_blank s = blank.
Proof.
  intros blank. destruct (lst_init_ok blank) as (s & free & He & Hi & Hb). exists s. split; [exact He|]. split; [|exact Hb].
  split; [exists free; exact Hi|intros n v []].
Qed.

Lemma L_names_ok : forall s a, L s a -> names_ok a.
Proof.
  intros s a ((free & H) & _). destruct (inv_facts _ _ _ H) as (N1 & _ & _ & _ & R1 & _). apply NoDup_cons_iff in N1.
  split; [tauto|]. apply Forall_forall. intros n Hn. assert (0 <> n) by (intros <-; tauto).
  assert (Hn' : In n (0 :: map fst a)) by (right; exact Hn). apply R1 in Hn'. lia.
Qed.

Lemma live_split : forall n (a : list (Z * T)), live n a -> exists a1 v a2, a = a1 ++ (n, v) :: a2.
Proof.
  intros n a H. unfold live in H. apply in_map_iff in H. destruct H as ((m & v) & <- & Hin).
  apply in_split in Hin. destruct Hin as (a1 & a2 & ->). cbn [fst]. eauto.
Qed.

Lemma L_has : forall s a n, L s a -> exists b, has s n = Ok b /\ (b = true <-> live n a).
Proof. intros s a n ((free & H) & _). apply (has_ok _ _ _ n H). Qed.

Lemma L_val : forall s a n v, L s a -> In (n, v) a -> at_ s n = Ok v.
Proof.
  intros s a n v HL Hin. pose proof HL as ((free & H) & Hv). unfold at_.
  destruct (L_has s a n HL) as (b & -> & Hb).
  assert (Hl : live n a) by (apply in_map_iff; exists (n, v); auto).
  replace b with true by (symmetry; apply Hb, Hl). cbn [rbind]. unfold gval, inb.
  destruct (inv_facts _ _ _ H) as (_ & _ & _ & _ & R1 & _). assert (0 <= n < l_n s) by (apply R1; right; exact Hl).
  bnd. rewrite (Hv n v Hin). reflexivity.
Qed.

Lemma L_set_at : forall s a n v, L s a ->
  (~ live n a /\ set_at s n v = Rej)
  \/ (exists a1 w a2 s', a = a1 ++ (n, w) :: a2 /\ set_at s n v = Ok s' /\ L s' (a1 ++ (n, v) :: a2) /\ l_blank s' = l_blank s).
Proof.
  intros s a n v HL. pose proof HL as ((free & H) & Hv). unfold set_at.
  destruct (L_has s a n HL) as (b & -> & Hb). destruct b; cbn [rbind].
  - right. assert (Hl : live n a) by (apply Hb; reflexivity). destruct (live_split n a Hl) as (a1 & w & a2 & E).
    destruct (inv_facts _ _ _ H) as (N1 & _ & _ & _ & R1 & _). assert (0 <= n < l_n s) by (apply R1; right; exact Hl).
    unfold sval, inb. bnd. exists a1, w, a2. eexists. split; [exact E|]. split; [reflexivity|]. split; [|reflexivity].
    subst a. rewrite map_app in *. cbn [map fst] in *. split.
    + exists free. rewrite map_app. cbn [map fst]. destruct H as [X1 X2 X3 X4 X5 X6 X7]. constructor; auto.
      intros x Hx. cbn [l_val l_blank]. rewrite fupd_other; [apply X7, Hx|]. intros ->.
      apply nodup_app in X3. destruct X3 as (_ & _ & D). eapply (D n); [right; apply in_or_app; right; left; reflexivity|right; exact Hx].
    + intros m u Hin. cbn [l_val]. unfold fupd. destruct (Z.eqb_spec m n) as [->|Hmn].
      * apply NoDup_cons_iff in N1. destruct N1 as [_ N1]. apply NoDup_remove_2 in N1.
        apply in_app_or in Hin. destruct Hin as [Hin|[Hin|Hin]]; [|congruence|]; exfalso; apply N1; apply in_or_app; [left|right];
          apply in_map_iff; exists (n, u); auto.
      * apply Hv. apply in_app_or in Hin. apply in_or_app. destruct Hin as [Hin|[Hin|Hin]]; [auto|congruence|right; right; exact Hin].
  - left. split; [|reflexivity]. intros Hl. apply Hb in Hl. discriminate.
Qed.

Lemma map_fst_split : forall (a : list (Z * T)) l1 n l2, map fst a = l1 ++ n :: l2 ->
  exists a1 v a2, a = a1 ++ (n, v) :: a2 /\ map fst a1 = l1 /\ map fst a2 = l2.
Proof.
  intros a l1 n l2 E. apply map_eq_app in E. destruct E as (a1 & a2 & -> & E1 & E2).
  apply map_eq_cons in E2. destruct E2 as ((m & v) & a3 & -> & E2 & E3). cbn [fst] in E2. subst m. exists a1, v, a3. auto.
Qed.

Lemma names_notin : forall (a1 a2 : list (Z * T)) n v m u, NoDup (map fst (a1 ++ (n, v) :: a2)) -> In (m, u) (a1 ++ a2) -> m <> n.
Proof.
  intros a1 a2 n v m u Hnd Hin ->. rewrite map_app in Hnd. cbn [map fst] in Hnd. apply NoDup_remove_2 in Hnd. apply Hnd.
  rewrite <- map_app. apply in_map_iff. exists (n, u). auto.
Qed.

(** Insertion, with the value the node gets. *)
Lemma L_basic_add : forall s a n after, L s a ->
  (n <> 0 /\ ~ live n a /\ basic_add s n after = Ok (s, -1))
  \/ exists s' m a', basic_add s n after = Ok (s', m) /\ fresh m a /\ 1 < m /\ inserted after n (m, l_blank s) a a' /\ L s' a'
       /\ l_blank s' = l_blank s.
Proof.
  intros s a n after HL. pose proof HL as ((free & H) & Hv).
  destruct (in_dec Z.eq_dec n (0 :: map fst a)) as [Hin|Hnin].
  - right. apply in_split in Hin. destruct Hin as (l1 & l2 & E).
    destruct (basic_add_ok s (map fst a) free l1 n l2 after H E) as (s' & free' & m & seq' & He & Hm & Hm1 & Hi & Hbl & Hbm & Hseq & Hval).
    assert (Hfr : fresh m a) by (split; [lia|intros Hl; apply Hm; right; exact Hl]).
    assert (Hkeep : forall k u, In (k, u) a -> l_val s' k = u).
    { intros k u Hk. rewrite Hval; [apply Hv, Hk|]. apply in_map_iff. exists (k, u). auto. }
    destruct after.
    + destruct l1 as [|z l1].
      * cbn [app] in *. injection E as <- E. injection Hseq as Hseq.
        exists s', m, ((m, l_blank s) :: a). split; [exact He|]. split; [exact Hfr|]. split; [exact Hm1|].
        split; [left; auto|]. split; [|exact Hbl]. split.
        -- exists free'. cbn [map fst]. rewrite E, <- Hseq. exact Hi.
        -- intros k u [Hk|Hk]; [injection Hk as <- <-; exact Hbm|apply Hkeep, Hk].
      * cbn [app] in *. injection E as <- E. injection Hseq as Hseq.
        destruct (map_fst_split a l1 n l2 E) as (a1 & v & a2 & -> & E1 & E2).
        exists s', m, (a1 ++ (n, v) :: (m, l_blank s) :: a2). split; [exact He|]. split; [exact Hfr|]. split; [exact Hm1|].
        split; [right; eauto 10|]. split; [|exact Hbl]. split.
        -- exists free'. rewrite map_app. cbn [map fst]. rewrite E1, E2, <- Hseq. exact Hi.
        -- intros k u Hk. apply in_app_or in Hk. cbn [In] in Hk.
           destruct Hk as [Hk|[Hk|[Hk|Hk]]]; try (injection Hk as <- <-; exact Hbm); apply Hkeep; apply in_or_app; cbn [In]; tauto.
    + destruct l1 as [|z l1].
      * cbn [app] in *. injection E as <- E.
        exists s', m, (a ++ [(m, l_blank s)]). split; [exact He|]. split; [exact Hfr|]. split; [exact Hm1|].
        split; [left; auto|]. split; [|exact Hbl]. split.
        -- exists free'. rewrite map_app. cbn [map fst]. rewrite <- Hseq. exact Hi.
        -- intros k u Hk. apply in_app_or in Hk. destruct Hk as [Hk|[Hk|[]]]; [apply Hkeep, Hk|injection Hk as <- <-; exact Hbm].
      * cbn [app] in *. injection E as <- E. injection Hseq as Hseq.
        destruct (map_fst_split a l1 n l2 E) as (a1 & v & a2 & -> & E1 & E2).
        exists s', m, (a1 ++ (m, l_blank s) :: (n, v) :: a2). split; [exact He|]. split; [exact Hfr|]. split; [exact Hm1|].
        split; [right; eauto 10|]. split; [|exact Hbl]. split.
        -- exists free'. rewrite map_app. cbn [map fst]. rewrite E1, E2, <- Hseq. exact Hi.
        -- intros k u Hk. apply in_app_or in Hk. cbn [In] in Hk.
           destruct Hk as [Hk|[Hk|[Hk|Hk]]]; try (injection Hk as <- <-; exact Hbm); apply Hkeep; apply in_or_app; cbn [In]; tauto.
  - left. cbn [In] in Hnin. split; [intros ->; tauto|]. split; [unfold live; tauto|].
    unfold basic_add. destruct (is_using_ok s _ free n H) as (u & -> & Hu). cbn [rbind].
    destruct u; [exfalso; apply Hnin; apply Hu; reflexivity|reflexivity].
Qed.

Lemma L_add_value : forall s a n v after, L s a ->
  (n <> 0 /\ ~ live n a /\ add_value s v n after = Rej)
  \/ exists s' m a', add_value s v n after = Ok (s', m) /\ fresh m a /\ inserted after n (m, v) a a' /\ L s' a'
       /\ l_blank s' = l_blank s.
Proof.
  intros s a n v after HL. unfold add_value.
  destruct (L_basic_add s a n after HL) as [(Hn & Hl & ->)|(s1 & m & a1 & -> & Hfr & Hm1 & Hins & HL1 & Hb1)]; cbn [rbind].
  - left. split; [exact Hn|]. split; [exact Hl|]. unfold set_at, has. reflexivity.
  - right. destruct (L_set_at s1 a1 m v HL1) as [(Hnl & _)|(b1 & w & b2 & s2 & E & He & HL2 & Hb2)].
    { exfalso. apply Hnl. unfold live. destruct after; cbn [inserted] in Hins;
      destruct Hins as [(_ & ->)|(x1 & y & x2 & _ & ->)]; rewrite ?map_app; cbn [map fst]; rewrite ?in_app_iff; cbn [In]; auto. }
    rewrite He. cbn [rbind]. exists s2, m, (b1 ++ (m, v) :: b2). split; [reflexivity|]. split; [exact Hfr|]. split; [|split; [exact HL2|congruence]].
    (* the only (m, _) in a1 is the inserted one *)
    assert (Hu : forall c1 c2 w', c1 ++ (m, w') :: c2 = b1 ++ (m, w) :: b2 -> c1 = b1 /\ c2 = b2).
    { intros c1 c2 w' Ec. pose proof (L_names_ok _ _ HL1) as [Hnd _]. rewrite E in Hnd. clear -Ec Hnd. revert b1 Ec Hnd.
      induction c1 as [|x c1 IH]; intros [|y b1] Ec Hnd; cbn [app] in *.
      - injection Ec as _ ->. auto.
      - injection Ec as Ey Ec. exfalso. subst y. cbn [map fst] in Hnd. apply NoDup_cons_iff in Hnd. apply (proj1 Hnd).
        rewrite map_app. cbn [map fst]. apply in_or_app. right. left. reflexivity.
      - injection Ec as Ex Ec. exfalso. subst x. cbn [map fst] in Hnd. apply NoDup_cons_iff in Hnd. apply (proj1 Hnd).
        rewrite <- Ec. rewrite map_app. cbn [map fst]. apply in_or_app. right. left. reflexivity.
      - injection Ec as -> Ec. cbn [map] in Hnd. apply NoDup_cons_iff in Hnd. destruct (IH b1 Ec (proj2 Hnd)) as [-> ->]. auto. }
    destruct after; cbn [inserted] in *.
    + destruct Hins as [(-> & E2)|(x1 & y & x2 & -> & E2)]; rewrite E in E2.
      * left. destruct (Hu [] a (l_blank s) (eq_sym E2)) as [<- <-]. auto.
      * right. destruct (Hu (x1 ++ [(n, y)]) x2 (l_blank s)) as [<- <-]; [rewrite <- app_assoc; symmetry; exact E2|].
        rewrite <- app_assoc. eauto 10.
    + destruct Hins as [(-> & E2)|(x1 & y & x2 & -> & E2)]; rewrite E in E2.
      * left. destruct (Hu a [] (l_blank s) (eq_sym E2)) as [<- <-]. auto.
      * right. destruct (Hu x1 ((n, y) :: x2) (l_blank s) (eq_sym E2)) as [<- <-]. eauto 10.
Qed.

Lemma L_lk : forall s nx pv a a', (exists free, inv (lk s nx pv) (map fst a') free) ->
  (forall n v, In (n, v) a -> l_val s n = v) -> (forall x, In x a' -> In x a) -> L (lk s nx pv) a'.
Proof. intros s nx pv a a' Hi Hv Hin. split; [exact Hi|]. intros n v H. cbn [lk l_val]. apply Hv, Hin, H. Qed.

Lemma L_moves : forall s a n, L s a -> 
  forall f k, (forall a1 v a2, a = a1 ++ (n, v) :: a2 -> exists s1 nx pv, k = Ok s1 /\ s1 = lk s nx pv
      /\ L s1 (f a1 (n, v) a2)) ->
  exists s' r a', guarded s n k = Ok (s', r) /\ moved n f (Some (RBool r)) a a' /\ L s' a' /\ l_blank s' = l_blank s.
Proof.
  intros s a n HL f k Hk. unfold guarded, moved. destruct (Z.eqb_spec n 0) as [->|Hn].
  - exists s, true, a. split; [reflexivity|]. split; [left; auto|]. auto.
  - destruct (L_has s a n HL) as (b & -> & Hb). cbn [rbind]. destruct b; cbn [negb].
    + assert (Hl : live n a) by (apply Hb; reflexivity). destruct (live_split n a Hl) as (a1 & v & a2 & E).
      destruct (Hk a1 v a2 E) as (s1 & nx & pv & -> & E1 & HL1). cbn [rbind].
      exists s1, true, (f a1 (n, v) a2). split; [reflexivity|]. split; [right; right; eauto 10|]. split; [exact HL1|subst s1; reflexivity].
    + exists s, false, a. split; [reflexivity|]. split; [right; left|auto].
      split; [exact Hn|]. split; [|auto]. intros Hl. apply Hb in Hl. discriminate.
Qed.

Lemma L_move_all : forall s a n, L s a ->
  (exists s' r a', move_to_head s n = Ok (s', r) /\ moved n (fun a1 x a2 => x :: a1 ++ a2) (Some (RBool r)) a a' /\ L s' a' /\ l_blank s' = l_blank s)
  /\ (exists s' r a', move_to_tail s n = Ok (s', r) /\ moved n (fun a1 x a2 => a1 ++ a2 ++ [x]) (Some (RBool r)) a a' /\ L s' a' /\ l_blank s' = l_blank s)
  /\ (exists s' r a', rotate_to_head s n = Ok (s', r) /\ moved n (fun a1 x a2 => x :: a2 ++ a1) (Some (RBool r)) a a' /\ L s' a' /\ l_blank s' = l_blank s)
  /\ (exists s' r a', rotate_to_tail s n = Ok (s', r) /\ moved n (fun a1 x a2 => a2 ++ a1 ++ [x]) (Some (RBool r)) a a' /\ L s' a' /\ l_blank s' = l_blank s).
Proof.
  intros s a n HL. pose proof HL as ((free & H) & Hv).
  assert (Hm : forall a1 v a2, a = a1 ++ (n, v) :: a2 -> map fst a = map fst a1 ++ n :: map fst a2).
  { intros a1 v a2 ->. rewrite map_app. reflexivity. }
  assert (Hin : forall a1 v a2 x, a = a1 ++ (n, v) :: a2 -> x = (n, v) \/ In x a1 \/ In x a2 -> In x a).
  { intros a1 v a2 x -> Hx. rewrite in_app_iff. cbn [In]. intuition congruence. }
  unfold move_to_head, move_to_tail, rotate_to_head, rotate_to_tail.
  split; [|split; [|split]]; apply (L_moves s a n HL); intros a1 v a2 E;
    destruct (move_spec s _ free _ n _ H (Hm a1 v a2 E)) as (M1 & M2 & M3 & M4).
  - destruct M1 as (s1 & nx & pv & -> & E2 & Hi). cbn [rbind]. eexists _, nx, pv. split; [exact E2|]. split; [reflexivity|].
    apply (L_lk s nx pv a); [exists free; cbn [map fst]; rewrite map_app; exact Hi|exact Hv|].
    intros x Hx. apply (Hin a1 v a2 x E). cbn [In] in Hx. rewrite in_app_iff in Hx. intuition congruence.
  - destruct M2 as (s1 & nx & pv & -> & E2 & Hi). cbn [rbind]. eexists _, nx, pv. split; [exact E2|]. split; [reflexivity|].
    apply (L_lk s nx pv a); [exists free; rewrite !map_app; exact Hi|exact Hv|].
    intros x Hx. apply (Hin a1 v a2 x E). rewrite !in_app_iff in Hx. cbn [In] in Hx. intuition congruence.
  - destruct M3 as (s1 & nx & pv & -> & E2 & Hi). cbn [rbind]. eexists _, nx, pv. split; [exact E2|]. split; [reflexivity|].
    apply (L_lk s nx pv a); [exists free; cbn [map fst]; rewrite map_app; exact Hi|exact Hv|].
    intros x Hx. apply (Hin a1 v a2 x E). cbn [In] in Hx. rewrite in_app_iff in Hx. intuition congruence.
  - destruct M4 as (s1 & nx & pv & -> & E2 & Hi). cbn [rbind]. eexists _, nx, pv. split; [exact E2|]. split; [reflexivity|].
    apply (L_lk s nx pv a); [exists free; rewrite !map_app; exact Hi|exact Hv|].
    intros x Hx. apply (Hin a1 v a2 x E). rewrite !in_app_iff in Hx. cbn [In] in Hx. intuition congruence.
Qed.

Lemma L_remove : forall s a n, L s a ->
  (~ live n a /\ remove s n = Ok (s, false))
  \/ exists a1 v a2 s', a = a1 ++ (n, v) :: a2 /\ remove s n = Ok (s', true) /\ L s' (a1 ++ a2) /\ l_blank s' = l_blank s /\ l_n s' = l_n s.
Proof.
  intros s a n HL. pose proof HL as ((free & H) & Hv). destruct (L_has s a n HL) as (b & Eb & Hb). destruct b.
  - right. destruct (live_split n a (proj1 Hb eq_refl)) as (a1 & v & a2 & E).
    assert (Hm : map fst a = map fst a1 ++ n :: map fst a2) by (rewrite E, map_app; reflexivity).
    destruct (remove_ok s _ free _ n _ H Hm) as (s' & He & Hi & Hbl & Hval).
    exists a1, v, a2, s'. split; [exact E|]. split; [exact He|]. split; [split|split; [exact Hbl|]].
    + exists (free ++ [n]). rewrite map_app. exact Hi.
    + intros m u Hin. rewrite Hval; [apply Hv; rewrite E; rewrite in_app_iff in *; cbn [In]; tauto|].
      rewrite <- map_app. apply in_map_iff. exists (m, u). auto.
    + clear -He. unfold remove in He. destruct (has s n) as [[] | |]; cbn [rbind negb] in He; try discriminate.
      assert (Hul : forall (s1 s2 : lst) x, unlink_node s1 x = Ok s2 -> l_n s2 = l_n s1).
      { intros s1 s2 x. unfold unlink_node, gprv, gnxt, snxt, sprv, rbind. intros Hx.
        repeat match type of Hx with context [if inb ?a ?b then _ else _] => destruct (inb a b); try discriminate end.
        injection Hx as <-. reflexivity. }
      assert (Hlb : forall (s1 s2 : lst) x y, link_before s1 x y = Ok s2 -> l_n s2 = l_n s1).
      { intros s1 s2 x y. unfold link_before, gprv, gnxt, snxt, sprv, rbind. intros Hx.
        repeat match type of Hx with context [if inb ?a ?b then _ else _] => destruct (inb a b); try discriminate end.
        injection Hx as <-. reflexivity. }
      destruct (unlink_node s n) as [s1| |] eqn:E1; cbn [rbind] in He; try discriminate. apply Hul in E1.
      unfold suse in He. destruct (inb _ _); cbn [rbind] in He; try discriminate.
      match type of He with context [link_before ?x ?y ?z] => destruct (link_before x y z) as [s2| |] eqn:E2 end; cbn [rbind] in He; try discriminate.
      apply Hlb in E2. cbn [l_n set_size] in E2. unfold sval in He. destruct (inb _ _); cbn [rbind] in He; try discriminate.
      injection He as <-. cbn [l_n]. congruence.
  - left. split; [intros Hl; apply Hb in Hl; discriminate|]. unfold remove. rewrite Eb. reflexivity.
Qed.

Lemma L_next : forall s a l1 x l2, L s a -> 0 :: map fst a ++ [0] = l1 ++ x :: l2 -> 
  (forall y l2', l2 = y :: l2' -> next s x = Ok y).
Proof.
  intros s a l1 x l2 HL E y l2' ->. pose proof HL as ((free & H) & Hv).
  destruct (inv_facts _ _ _ H) as (N1 & _ & _ & _ & R1 & _).
  assert (Hin : In x (0 :: map fst a)).
  { destruct (@exists_last _ (y :: l2')) as (r & z & Er); [discriminate|]. rewrite Er in E.
    change (0 :: map fst a ++ [0]) with ((0 :: map fst a) ++ [0]) in E.
    rewrite app_comm_cons, app_assoc in E. apply app_inj_tail in E. destruct E as [E _]. rewrite E. apply in_or_app. right. left. reflexivity. }
  unfold next. destruct (is_using_ok s _ free x H) as (u & -> & Hu). cbn [rbind]. rewrite (proj2 Hu Hin).
  unfold gnxt, inb. apply R1 in Hin. bnd. f_equal.
  destruct (inv_seq _ _ _ H) as [Hn _]. cbn [rot] in Hn.
  assert (Hgen : forall (f : Z -> Z) k r l1 x y l2', map f (k :: r) = r ++ [0] -> k :: r ++ [0] = l1 ++ x :: y :: l2' -> f x = y).
  { clear. intros f k r. revert k. induction r as [|c r IH]; intros k l1 x y l2' Hm E.
    - cbn in *. destruct l1 as [|z [|w l1]]; cbn in E; [injection E as <- <- _; congruence|injection E; discriminate|].
      injection E as _ _ E. destruct l1; discriminate.
    - destruct l1 as [|z l1]; cbn [app] in E.
      + injection E as <- <- _. cbn in Hm. congruence.
      + injection E as _ E. cbn [map] in Hm. injection Hm as _ Hm. eapply IH; [|exact E]. cbn [map]. exact Hm. }
  eapply Hgen; [exact Hn|exact E].
Qed.

Lemma L_prev : forall s a l1 x l2, L s a -> 0 :: map fst a ++ [0] = l1 ++ x :: l2 -> 
  (forall y l1', l1 = l1' ++ [y] -> prev s x = Ok y).
Proof.
  intros s a l1 x l2 HL E y l1' ->. pose proof HL as ((free & H) & Hv).
  destruct (inv_facts _ _ _ H) as (N1 & _ & _ & _ & R1 & _).
  assert (Ex : map fst a ++ [0] = tl (l1' ++ [y]) ++ x :: l2).
  { destruct l1' as [|z l1']; cbn [app tl] in *; injection E as _ E; exact E. }
  assert (Hin : In x (0 :: map fst a)).
  { assert (Hx : In x (map fst a ++ [0])) by (rewrite Ex; apply in_or_app; right; left; reflexivity).
    apply in_app_or in Hx. cbn [In] in *. tauto. }
  unfold prev. destruct (is_using_ok s _ free x H) as (u & -> & Hu). cbn [rbind]. rewrite (proj2 Hu Hin).
  unfold gprv, inb. apply R1 in Hin. bnd. f_equal.
  destruct (inv_seq _ _ _ H) as [_ Hp]. cbn [rot] in Hp.
  assert (Hgen : forall (f : Z -> Z) r k l1' x y l2, map f (r ++ [0]) = k :: r -> k :: r ++ [0] = (l1' ++ [y]) ++ x :: l2 -> f x = y).
  { clear. intros f r. induction r as [|c r IH]; intros k l1' x y l2 Hm E; rewrite <- app_assoc in E.
    - cbn in *. destruct l1' as [|z [|w l1]]; cbn in E; [injection E as <- <- _; congruence|injection E; discriminate|].
      injection E as _ _ E. destruct l1; discriminate.
    - destruct l1' as [|z l1']; cbn [app] in E.
      + injection E as <- <- _. cbn in Hm. congruence.
      + injection E as _ E. cbn [map app] in Hm. injection Hm as _ Hm. apply (IH c l1' x y l2 Hm). rewrite <- app_assoc. exact E. }
  eapply Hgen; [exact Hp|exact E].
Qed.

Lemma L_first : forall s a, L s a -> first s = Ok (match a with [] => 0 | (n, _) :: _ => n end).
Proof.
  intros s a HL. unfold first. destruct a as [|(n, v) a].
  - apply (L_next s [] [] 0 [0] HL eq_refl 0 []). reflexivity.
  - eapply (L_next s _ [] 0 _ HL eq_refl). reflexivity.
Qed.

Lemma L_last : forall s a, L s a -> last_ s = Ok (match rev a with [] => 0 | (n, _) :: _ => n end).
Proof.
  intros s a HL. unfold last_. destruct (rev a) as [|(n, v) r] eqn:E; apply (f_equal (@rev _)) in E; rewrite rev_involutive in E; cbn [rev] in E; subst a.
  - apply (L_prev s [] [0] 0 [] HL eq_refl 0 []). reflexivity.
  - apply (L_prev s _ (0 :: map fst (rev r ++ [(n, v)])) 0 [] HL eq_refl n (0 :: map fst (rev r))).
    rewrite map_app. reflexivity.
Qed.

Lemma L_length : forall s a, L s a -> (Z.of_nat (length a) + 2 <= l_n s) /\ l_size s = zlen a.
Proof.
  intros s a ((free & H) & _). split.
  - assert (Hlen : (length ((0%Z :: map fst a) ++ 1%Z :: free) <= length (zseq 0 (Z.to_nat (l_n s))))%nat).
    { apply NoDup_incl_length; [apply (inv_nodup _ _ _ H)|]. intros x Hx. apply (inv_range _ _ _ H) in Hx. apply in_zseq. lia. }
    rewrite zseq_length, app_length in Hlen. cbn [length] in Hlen. rewrite map_length in Hlen. lia.
  - rewrite (inv_size _ _ _ H). unfold zlen. rewrite map_length. reflexivity.
Qed.

Lemma L_walk_next : forall s a, L s a -> forall a2 a1 fuel, a = a1 ++ a2 -> (length a2 < fuel)%nat ->
  walk next fuel s (match a2 with [] => 0 | (n, _) :: _ => n end) = Ok a2.
Proof.
  intros s a HL. induction a2 as [|(n, v) a2 IH]; intros a1 fuel E Hf; (destruct fuel as [|fuel]; [lia|]); cbn [walk].
  - reflexivity.
  - pose proof (L_names_ok s a HL) as [_ Hpos]. rewrite E, map_app in Hpos. apply Forall_app in Hpos. destruct Hpos as [_ Hpos].
    inversion Hpos as [|? ? Hn _]; subst. cbn [fst] in Hn. replace (n >? 0) with true by lia.
    rewrite (L_val s _ n v HL) by (apply in_or_app; right; left; reflexivity). cbn [rbind].
    rewrite (L_next s _ (0 :: map fst a1) n (map fst a2 ++ [0]) HL) with
      (y := match a2 with [] => 0 | (m, _) :: _ => m end) (l2' := match a2 with [] => [] | _ :: r => map fst r ++ [0] end).
    + cbn [rbind]. rewrite (IH (a1 ++ [(n, v)]) fuel); [reflexivity|rewrite <- app_assoc; reflexivity|cbn [length] in Hf; lia].
    + rewrite map_app. cbn [map fst app]. rewrite <- app_assoc. reflexivity.
    + destruct a2 as [|(m, w) a2]; reflexivity.
Qed.

Lemma L_walk_prev : forall s a, L s a -> forall a1 a2 fuel, a = rev a1 ++ a2 -> (length a1 < fuel)%nat ->
  walk prev fuel s (match a1 with [] => 0 | (n, _) :: _ => n end) = Ok a1.
Proof.
  intros s a HL. induction a1 as [|(n, v) a1 IH]; intros a2 fuel E Hf; (destruct fuel as [|fuel]; [lia|]); cbn [walk].
  - reflexivity.
  - cbn [rev] in E. pose proof (L_names_ok s a HL) as [_ Hpos]. rewrite E, !map_app in Hpos. cbn [map fst] in Hpos.
    rewrite !Forall_app in Hpos. destruct Hpos as [[_ Hpos] _]. inversion Hpos as [|? ? Hn _]; subst. replace (n >? 0) with true by lia.
    rewrite (L_val s _ n v HL) by (rewrite !in_app_iff; cbn [In]; tauto). cbn [rbind].
    rewrite (L_prev s _ (0 :: map fst (rev a1)) n (map fst a2 ++ [0]) HL) with
      (y := match a1 with [] => 0 | (m, _) :: _ => m end)
      (l1' := match a1 with [] => [] | _ :: r => 0 :: map fst (rev r) end).
    + cbn [rbind]. rewrite (IH ((n, v) :: a2) fuel); [reflexivity|rewrite <- app_assoc; reflexivity|cbn [length] in Hf; lia].
    + rewrite !map_app. cbn [map fst app]. rewrite <- !app_assoc. reflexivity.
    + destruct a1 as [|(m, w) a1]; [reflexivity|]. cbn [rev]. rewrite map_app. reflexivity.
Qed.

Lemma L_values : forall s a, L s a -> values s = Ok a /\ values_backward s = Ok (rev a).
Proof.
  intros s a HL. destruct (L_length s a HL) as [Hlen _]. unfold values, values_backward.
  rewrite (L_first s a HL), (L_last s a HL). cbn [rbind]. split.
  - apply (L_walk_next s a HL a []); [reflexivity|]. lia.
  - apply (L_walk_prev s a HL (rev a) []); [rewrite rev_involutive, app_nil_r; reflexivity|]. rewrite rev_length. lia.
Qed.

Lemma L_find : forall eqb s a v, L s a -> find eqb s v = Ok (find_first eqb a v).
Proof.
  intros eqb s a v HL. destruct (L_length s a HL) as [Hlen _]. unfold find. rewrite (L_first s a HL). cbn [rbind].
  assert (Hgen : forall a2 a1 fuel, a = a1 ++ a2 -> (length a2 < fuel)%nat ->
     find_loop eqb v fuel s (match a2 with [] => 0 | (n, _) :: _ => n end) = Ok (find_first eqb a2 v)).
  { induction a2 as [|(n, w) a2 IH]; intros a1 fuel E Hf; (destruct fuel as [|fuel]; [lia|]); cbn [find_loop find_first].
    - reflexivity.
    - pose proof (L_names_ok s a HL) as [_ Hpos]. rewrite E, map_app in Hpos. apply Forall_app in Hpos. destruct Hpos as [_ Hpos].
      inversion Hpos as [|? ? Hn _]; subst. cbn [fst] in Hn. replace (n >? 0) with true by lia.
      rewrite (L_val s _ n w HL) by (apply in_or_app; right; left; reflexivity). cbn [rbind].
      destruct (eqb w v); [reflexivity|].
      rewrite (L_next s _ (0 :: map fst a1) n (map fst a2 ++ [0]) HL) with
        (y := match a2 with [] => 0 | (m, _) :: _ => m end) (l2' := match a2 with [] => [] | _ :: r => map fst r ++ [0] end).
      + cbn [rbind]. apply (IH (a1 ++ [(n, w)]) fuel); [rewrite <- app_assoc; reflexivity|cbn [length] in Hf; lia].
      + rewrite map_app. cbn [map fst app]. rewrite <- app_assoc. reflexivity.
      + destruct a2 as [|(m, u) a2]; reflexivity. }
  apply (Hgen a []); [reflexivity|lia].
Qed.

Lemma L_remove_first : forall s a, L s a ->
  (a = [] /\ remove_first s = Ok (s, false))
  \/ exists x a' s', a = x :: a' /\ remove_first s = Ok (s', true) /\ L s' a' /\ l_blank s' = l_blank s /\ l_n s' = l_n s.
Proof.
  intros s a HL. unfold remove_first. rewrite (L_first s a HL). cbn [rbind]. destruct a as [|(n, v) a].
  - left. split; [reflexivity|]. destruct (L_remove s [] 0 HL) as [(_ & E)|(a1 & v & a2 & s' & E & _)]; [exact E|]. destruct a1; discriminate.
  - right. pose proof (L_names_ok s _ HL) as [Hnd _].
    destruct (L_remove s _ n HL) as [(Hl & _)|(a1 & w & a2 & s' & E & He & HL' & Hbl & Hnn)]; [exfalso; apply Hl; left; reflexivity|].
    destruct a1 as [|y a1]; cbn [app] in *.
    + injection E as _ ->. eexists _, a2, s'. split; [reflexivity|]. auto.
    + injection E as <- E. exfalso. cbn [map fst] in Hnd. apply NoDup_cons_iff in Hnd. apply (proj1 Hnd). rewrite E, map_app.
      cbn [map fst]. apply in_or_app. right. left. reflexivity.
Qed.

Lemma L_remove_last : forall s a, L s a ->
  (a = [] /\ remove_last s = Ok (s, false))
  \/ exists x a' s', a = a' ++ [x] /\ remove_last s = Ok (s', true) /\ L s' a' /\ l_blank s' = l_blank s.
Proof.
  intros s a HL. unfold remove_last. rewrite (L_last s a HL). cbn [rbind].
  destruct (rev a) as [|(n, v) r] eqn:Er; apply (f_equal (@rev _)) in Er; rewrite rev_involutive in Er; cbn [rev] in Er; subst a.
  - left. split; [reflexivity|]. destruct (L_remove s [] 0 HL) as [(_ & E)|(a1 & v & a2 & s' & E & _)]; [exact E|]. destruct a1; discriminate.
  - right. pose proof (L_names_ok s _ HL) as [Hnd _].
    destruct (L_remove s _ n HL) as [(Hl & _)|(a1 & w & a2 & s' & E & He & HL' & Hbl & _)].
    { exfalso. apply Hl. unfold live. rewrite map_app. apply in_or_app. right. left. reflexivity. }
    destruct a2 as [|y a2].
    + apply app_inj_tail in E. destruct E as [E E']. injection E' as <-. subst a1. rewrite app_nil_r in HL'.
      eexists _, (rev r), s'. split; [reflexivity|]. auto.
    + exfalso. rewrite E, map_app in Hnd. cbn [map fst] in Hnd.
      destruct (@exists_last _ (y :: a2)) as (q & z & Eq); [discriminate|].
      change (fst y :: map fst a2) with (map fst (y :: a2)) in Hnd. rewrite Eq in E, Hnd.
      rewrite app_comm_cons, app_assoc in E. apply app_inj_tail in E. destruct E as [_ <-].
      rewrite map_app in Hnd. cbn [map fst] in Hnd. apply NoDup_remove_2 in Hnd. apply Hnd. rewrite !in_app_iff. cbn [In]. tauto.
Qed.

Lemma L_clear : forall a fuel s, L s a -> (length a < fuel)%nat -> exists s', clear_loop fuel s = Ok s' /\ L s' [] /\ l_blank s' = l_blank s.
Proof.
  induction a as [|x a IH]; intros fuel s HL Hf; (destruct fuel as [|fuel]; [lia|]); cbn [clear_loop].
  - destruct (L_remove_first s [] HL) as [(_ & ->)|(y & a' & s' & E & _)]; [|discriminate]. cbn [rbind]. exists s. auto.
  - destruct (L_remove_first s _ HL) as [(E & _)|(y & a' & s' & E & -> & HL' & Hbl & Hn)]; [discriminate|]. injection E as <- <-. cbn [rbind].
    destruct (IH fuel s' HL' ltac:(cbn [length] in Hf; lia)) as (s'' & E & HL'' & Hb). exists s''. split; [exact E|]. split; [exact HL''|congruence].
Qed.

Lemma L_append_all : forall vs s a, L s a -> exists s' ms, append_all s (map (fun v => (0, v)) vs) = Ok s'
  /\ length ms = length vs /\ L s' (a ++ combine ms vs) /\ l_blank s' = l_blank s.
Proof.
  induction vs as [|v vs IH]; intros s a HL; cbn [map append_all].
  - exists s, []. cbn [combine]. rewrite app_nil_r. auto.
  - destruct (L_add_value s a 0 v false HL) as [(H & _)|(s1 & m & a1 & -> & Hfr & Hins & HL1 & Hb1)]; [lia|]. cbn [rbind].
    assert (a1 = a ++ [(m, v)]).
    { cbn [inserted] in Hins. destruct Hins as [(_ & ->)|(x1 & y & x2 & E & _)]; [reflexivity|].
      exfalso. pose proof (L_names_ok s a HL) as [_ Hp]. rewrite E, map_app in Hp. apply Forall_app in Hp. destruct Hp as [_ Hp].
      inversion Hp; subst. cbn [fst] in *. lia. }
    subst a1. destruct (IH s1 _ HL1) as (s2 & ms & E & Hl & HL2 & Hb2).
    exists s2, (m :: ms). split; [exact E|]. split; [cbn [length]; lia|]. split; [|congruence].
    cbn [combine]. rewrite <- app_assoc in HL2. exact HL2.
Qed.

Lemma L_inserted_sentinel : forall s a x a' after, L s a -> inserted after 0 x a a' -> a' = if (after : bool) then x :: a else a ++ [x].
Proof.
  intros s a x a' after HL Hins.
  assert (Hno : forall a1 v a2, a = a1 ++ (0, v) :: a2 -> False).
  { intros a1 v a2 E. pose proof (L_names_ok s a HL) as [_ Hp]. rewrite E, map_app in Hp. apply Forall_app in Hp. destruct Hp as [_ Hp].
    inversion Hp; subst. cbn [fst] in *. lia. }
  destruct after; cbn [inserted] in Hins; destruct Hins as [(_ & ->)|(a1 & v & a2 & E & _)]; auto; exfalso; eauto.
Qed.

Lemma lstep_refines : forall s a o, L s a ->
  match lstep s o with
  | Ok (s', r) => exists a', lspec (l_blank s) o (Some r) a a' /\ L s' a' /\ l_blank s' = l_blank s
  | Rej => lspec (l_blank s) o None a a
  | UB => False
  end.
Proof.
  intros s a o HL. destruct (L_move_all s a 0 HL) as (_ & _ & _ & _).
  destruct o as [n|n|v n|v n|v|v|n|n|n|n|n| | | |n v|vs]; cbn [lstep lspec]; unfold ret_name, ret_bool, ret_unit.
  - destruct (L_basic_add s a n true HL) as [(Hn & Hl & ->)|(s' & m & a' & -> & Hfr & _ & Hins & HL' & Hb)]; cbn [rbind].
    + exists a. split; [right; auto|auto].
    + exists a'. split; [left; eauto|auto].
  - destruct (L_basic_add s a n false HL) as [(Hn & Hl & ->)|(s' & m & a' & -> & Hfr & _ & Hins & HL' & Hb)]; cbn [rbind].
    + exists a. split; [right; auto|auto].
    + exists a'. split; [left; eauto|auto].
  - destruct (L_add_value s a n v true HL) as [(Hn & Hl & ->)|(s' & m & a' & -> & Hfr & Hins & HL' & Hb)]; cbn [rbind].
    + right; auto.
    + exists a'. split; [left; eauto|auto].
  - destruct (L_add_value s a n v false HL) as [(Hn & Hl & ->)|(s' & m & a' & -> & Hfr & Hins & HL' & Hb)]; cbn [rbind].
    + right; auto.
    + exists a'. split; [left; eauto|auto].
  - destruct (L_add_value s a 0 v false HL) as [(Hn & _)|(s' & m & a' & -> & Hfr & Hins & HL' & Hb)]; [lia|]; cbn [rbind].
    exists a'. split; [|auto]. exists m. split; [reflexivity|]. split; [exact Hfr|]. apply (L_inserted_sentinel s a _ a' false HL Hins).
  - destruct (L_add_value s a 0 v true HL) as [(Hn & _)|(s' & m & a' & -> & Hfr & Hins & HL' & Hb)]; [lia|]; cbn [rbind].
    exists a'. split; [|auto]. exists m. split; [reflexivity|]. split; [exact Hfr|]. apply (L_inserted_sentinel s a _ a' true HL Hins).
  - destruct (L_move_all s a n HL) as (_ & _ & (s' & r & a' & -> & H) & _). cbn [rbind]. exists a'. exact H.
  - destruct (L_move_all s a n HL) as (_ & _ & _ & (s' & r & a' & -> & H)). cbn [rbind]. exists a'. exact H.
  - destruct (L_move_all s a n HL) as ((s' & r & a' & -> & H) & _). cbn [rbind]. exists a'. exact H.
  - destruct (L_move_all s a n HL) as (_ & (s' & r & a' & -> & H) & _). cbn [rbind]. exists a'. exact H.
  - destruct (L_remove s a n HL) as [(Hl & ->)|(a1 & v & a2 & s' & E & -> & HL' & Hb & _)]; cbn [rbind].
    + exists a. split; [left; auto|auto].
    + exists (a1 ++ a2). split; [right; eauto 10|auto].
  - destruct (L_remove_first s a HL) as [(-> & ->)|(x & a' & s' & -> & -> & HL' & Hb & _)]; cbn [rbind].
    + exists []. split; [left; auto|auto].
    + exists a'. split; [right; eauto|auto].
  - destruct (L_remove_last s a HL) as [(-> & ->)|(x & a' & s' & -> & -> & HL' & Hb)]; cbn [rbind].
    + exists []. split; [left; auto|auto].
    + exists a'. split; [right; eauto|auto].
  - destruct (L_length s a HL) as [Hlen _]. unfold clear.
    destruct (L_clear a (Z.to_nat (l_n s)) s HL ltac:(lia)) as (s' & -> & HL' & Hb). cbn [rbind]. exists []. auto.
  - destruct (L_set_at s a n v HL) as [(Hl & ->)|(a1 & w & a2 & s' & -> & -> & HL' & Hb)]; cbn [rbind].
    + left. auto.
    + eexists. split; [right; eauto 10|auto].
  - destruct (L_append_all vs s a HL) as (s' & ms & -> & Hl & HL' & Hb). cbn [rbind]. eexists. split; [split; [reflexivity|eauto]|auto].
Qed.

Lemma lrun_refines : forall os s a, L s a -> exists s' rs a', lrun s os = Ok (s', rs) /\ lspec_run (l_blank s) a os rs a' /\ L s' a'.
Proof.
  induction os as [|o os IH]; intros s a HL; cbn [lrun].
  - exists s, [], a. split; [reflexivity|]. split; [constructor|exact HL].
  - pose proof (lstep_refines s a o HL) as Hs. destruct (lstep s o) as [[s1 r]| |]; [| |contradiction].
    + destruct Hs as (a1 & Hsp & HL1 & Hb). destruct (IH s1 a1 HL1) as (s2 & rs & a2 & -> & Hr & HL2). cbn [rbind].
      eexists _, _, a2. split; [reflexivity|]. split; [|exact HL2]. econstructor; [exact Hsp|eapply L_names_ok; exact HL1|rewrite <- Hb; exact Hr].
    + destruct (IH s a HL) as (s2 & rs & a2 & -> & Hr & HL2). cbn [rbind].
      eexists _, _, a2. split; [reflexivity|]. split; [|exact HL2]. econstructor; [exact Hs|eapply L_names_ok; exact HL|exact Hr].
Qed.

Lemma reachable_L : forall (blank : T) (s : lst), reachable blank s -> exists a, L s a.
Proof.
  intros blank s (s0 & os & rs & Hi & Hr). destruct (L_init blank) as (s0' & Hi' & HL & _).
  rewrite Hi in Hi'. injection Hi' as <-. destruct (lrun_refines os s0 [] HL) as (s' & rs' & a' & Hr' & _ & HL').
  rewrite Hr in Hr'. injection Hr' as <- _. eauto.
Qed.

Lemma L_at_in : forall s a n v, L s a -> at_ s n = Ok v -> In (n, v) a.
Proof.
  intros s a n v HL Hat. pose proof Hat as Hat'. unfold at_ in Hat'. destruct (L_has s a n HL) as (b & Eb & Hb). rewrite Eb in Hat'.
  destruct b; cbn [rbind] in Hat'; [|discriminate].
  destruct (live_split n a (proj1 Hb eq_refl)) as (a1 & w & a2 & E).
  assert (Hin : In (n, w) a) by (rewrite E; apply in_or_app; right; left; reflexivity).
  rewrite (L_val s a n w HL Hin) in Hat. injection Hat as <-. exact Hin.
Qed.

Lemma moved_keeps : forall n f r (a a' : list (Z * T)) x, moved n f r a a' ->
  (forall a1 y a2, x = y \/ In x a1 \/ In x a2 -> In x (f a1 y a2)) -> In x a -> In x a'.
Proof.
  intros n f r a a' x H Hf Hin. destruct H as [(_ & _ & ->)|[(_ & _ & _ & ->)|(a1 & v & a2 & -> & _ & ->)]]; auto.
  apply Hf. apply in_app_or in Hin. cbn [In] in Hin. intuition congruence.
Qed.

Lemma stable_step : forall (blank : T) (s : lst) (o : lop T) (s' : lst) r n v, reachable blank s -> at_ s n = Ok v -> lstep s o = Ok (s', r) ->
  ~ touches o n s -> at_ s' n = Ok v.
Proof.
  intros blank s o s' r n v Hre Hat Hst Hk. destruct (reachable_L blank s Hre) as (a & HL).
  pose proof (L_at_in s a n v HL Hat) as Hin. pose proof (lstep_refines s a o HL) as Hs. rewrite Hst in Hs.
  destruct Hs as (a' & Hsp & HL' & _). apply (L_val s' a' n v HL').
  destruct o as [m|m|u m|u m|u|u|m|m|m|m|m| | | |m u|vs]; cbn [lspec touches] in *.
  - destruct Hsp as [(k & _ & _ & Hins)|(_ & _ & _ & ->)]; [|exact Hin]. cbn [inserted] in Hins.
    destruct Hins as [(_ & ->)|(a1 & w & a2 & -> & ->)]; [right; exact Hin|]. apply in_app_or in Hin. apply in_or_app. cbn [In] in *. tauto.
  - destruct Hsp as [(k & _ & _ & Hins)|(_ & _ & _ & ->)]; [|exact Hin]. cbn [inserted] in Hins.
    destruct Hins as [(_ & ->)|(a1 & w & a2 & -> & ->)]; [apply in_or_app; left; exact Hin|]. apply in_app_or in Hin. apply in_or_app. cbn [In] in *. tauto.
  - destruct Hsp as [(k & _ & _ & Hins)|(_ & _ & _ & ->)]; [|exact Hin]. cbn [inserted] in Hins.
    destruct Hins as [(_ & ->)|(a1 & w & a2 & -> & ->)]; [right; exact Hin|]. apply in_app_or in Hin. apply in_or_app. cbn [In] in *. tauto.
  - destruct Hsp as [(k & _ & _ & Hins)|(_ & _ & _ & ->)]; [|exact Hin]. cbn [inserted] in Hins.
    destruct Hins as [(_ & ->)|(a1 & w & a2 & -> & ->)]; [apply in_or_app; left; exact Hin|]. apply in_app_or in Hin. apply in_or_app. cbn [In] in *. tauto.
  - destruct Hsp as (k & _ & _ & ->). apply in_or_app. left. exact Hin.
  - destruct Hsp as (k & _ & _ & ->). right. exact Hin.
  - eapply moved_keeps; [exact Hsp| |exact Hin]. intros a1 y a2 Hy. cbn [In]. rewrite in_app_iff. intuition congruence.
  - eapply moved_keeps; [exact Hsp| |exact Hin]. intros a1 y a2 Hy. rewrite !in_app_iff. cbn [In]. intuition congruence.
  - eapply moved_keeps; [exact Hsp| |exact Hin]. intros a1 y a2 Hy. cbn [In]. rewrite in_app_iff. intuition congruence.
  - eapply moved_keeps; [exact Hsp| |exact Hin]. intros a1 y a2 Hy. rewrite !in_app_iff. cbn [In]. intuition congruence.
  - destruct Hsp as [(_ & _ & ->)|(a1 & w & a2 & -> & _ & ->)]; [exact Hin|]. rewrite in_app_iff in *. cbn [In] in Hin.
    destruct Hin as [|[E|]]; [auto|injection E as -> _; congruence|auto].
  - destruct Hsp as [(-> & _ & ->)|(x & -> & _)]; [exact Hin|]. destruct Hin as [->|Hin]; [|exact Hin].
    exfalso. apply Hk. apply (L_first s _ HL).
  - destruct Hsp as [(-> & _ & ->)|(x & -> & _)]; [exact Hin|]. apply in_app_or in Hin. destruct Hin as [Hin|[->|[]]]; [exact Hin|].
    exfalso. apply Hk. rewrite (L_last s _ HL). rewrite rev_app_distr. reflexivity.
  - tauto.
  - destruct Hsp as [(_ & _ & ->)|(a1 & w & a2 & -> & _ & ->)]; [exact Hin|]. rewrite in_app_iff in *. cbn [In] in *.
    destruct Hin as [|[E|]]; [auto|injection E as -> _; congruence|auto].
  - destruct Hsp as (_ & ms & _ & ->). apply in_or_app. left. exact Hin.
Qed.

(** ** The whole client session *)
Lemma lookup_in : forall (a : list (Z * T)) n, (forall v, lookup a n = Some v -> In (n, v) a) /\ (lookup a n = None -> ~ live n a).
Proof.
  induction a as [|(m, w) a IH]; intros n; cbn [lookup]; unfold live; cbn [map fst In].
  - split; [discriminate|tauto].
  - destruct (Z.eqb_spec m n) as [->|Hm].
    + split; [intros v E; injection E as ->; left; reflexivity|discriminate].
    + destruct (IH n) as [H1 H2]. split; [intros v E; right; apply H1, E|]. intros E [H|H]; [congruence|apply (H2 E), H].
Qed.

Lemma session_ok : forall (eqb : T -> T -> bool) blank os, exists s0 s rs a,
  lst_init blank = Ok s0 /\ lrun s0 os = Ok (s, rs) /\ lspec_run blank [] os rs a /\ names_ok a
  /\ values s = Ok a /\ values_backward s = Ok (rev a) /\ size s = zlen a
  /\ empty s = Ok (match a with [] => true | _ => false end)
  /\ first s = Ok (match a with [] => 0 | (n, _) :: _ => n end) /\ last_ s = Ok (match rev a with [] => 0 | (n, _) :: _ => n end)
  /\ (forall n, has s n = Ok (match lookup a n with Some _ => true | None => false end))
  /\ (forall n, at_ s n = match lookup a n with Some v => Ok v | None => Rej end)
  /\ (forall v, find eqb s v = Ok (find_first eqb a v)).
Proof.
  intros eqb blank os. destruct (L_init blank) as (s0 & Hi & HL0 & Hb). destruct (lrun_refines os s0 [] HL0) as (s & rs & a & Hr & Hsp & HL).
  rewrite Hb in Hsp. exists s0, s, rs, a. split; [exact Hi|]. split; [exact Hr|]. split; [exact Hsp|]. split; [eapply L_names_ok; exact HL|].
  destruct (L_values s a HL) as [-> ->]. split; [reflexivity|]. split; [reflexivity|]. split; [apply (L_length s a HL)|].
  rewrite (L_first s a HL), (L_last s a HL). split.
  { pose proof (L_first s a HL) as Hf. unfold first, next, is_using in Hf. change (0 =? 0) with true in Hf. cbn [rbind] in Hf.
    unfold empty. rewrite Hf. cbn [rbind]. f_equal. destruct a as [|(n, v) a]; [reflexivity|].
    pose proof (L_names_ok s _ HL) as [_ Hp]. inversion Hp; subst. cbn [fst] in *. apply Z.eqb_neq. lia. }
  split; [reflexivity|]. split; [reflexivity|]. split; [|split].
  - intros n. destruct (L_has s a n HL) as (b & -> & Hb'). f_equal. destruct (lookup_in a n) as [H1 H2].
    destruct (lookup a n) as [v|].
    + apply Hb'. apply in_map_iff. exists (n, v). split; [reflexivity|]. apply H1. reflexivity.
    + destruct b; [|reflexivity]. exfalso. apply H2; [reflexivity|]. apply Hb'. reflexivity.
  - intros n. destruct (lookup_in a n) as [H1 H2]. destruct (lookup a n) as [v|].
    + apply (L_val s a n v HL). apply H1. reflexivity.
    + unfold at_. destruct (L_has s a n HL) as (b & -> & Hb'). destruct b; [|reflexivity]. exfalso. apply H2; [reflexivity|]. apply Hb'. reflexivity.
  - intros v. apply L_find, HL.
Qed.

(** ** SumList *)
Section Sum.
Variable size_f : T -> Z.
Definition SL (s : sumlist T) (a : list (Z * T)) : Prop := L (s_list s) a /\ s_sum s = wrap64 (total size_f a).

Lemma total_app : forall a b : list (Z * T), total size_f (a ++ b) = total size_f a + total size_f b.
Proof. induction a as [|x a IH]; intros b; cbn [app total fold_right]; [reflexivity|]. unfold total in *. cbn [fold_right]. rewrite IH. lia. Qed.
Lemma total_cons : forall x (a : list (Z * T)), total size_f (x :: a) = size_f (snd x) + total size_f a.
Proof. reflexivity. Qed.
Lemma total_perm : forall a b : list (Z * T), Permutation a b -> total size_f a = total size_f b.
Proof. intros a b H. induction H; rewrite ?total_cons in *; lia. Qed.

Lemma SL_remove : forall s a n, SL s a ->
  (~ live n a /\ sum_remove size_f s n = Ok (s, false))
  \/ exists a1 v a2 s', a = a1 ++ (n, v) :: a2 /\ sum_remove size_f s n = Ok (s', true) /\ SL s' (a1 ++ a2) /\ l_blank (s_list s') = l_blank (s_list s)
       /\ l_n (s_list s') = l_n (s_list s).
Proof.
  intros s a n (HL & Hs). unfold sum_remove.
  destruct (L_remove _ a n HL) as [(Hl & E)|(a1 & v & a2 & l' & Ea & E & HL' & Hb & Hn)].
  - left. split; [exact Hl|]. destruct (L_has _ a n HL) as (b & -> & Hb). cbn [rbind]. destruct b; [exfalso; apply Hl, Hb; reflexivity|reflexivity].
  - right. destruct (L_has _ a n HL) as (b & -> & Hbb). cbn [rbind].
    assert (Hlv : live n a) by (rewrite Ea; unfold live; rewrite map_app; apply in_or_app; right; left; reflexivity).
    rewrite (proj2 Hbb Hlv). cbn [negb]. rewrite (L_val _ a n v HL) by (rewrite Ea; apply in_or_app; right; left; reflexivity).
    cbn [rbind]. rewrite E. cbn [rbind]. eexists a1, v, a2, _. split; [exact Ea|]. split; [reflexivity|]. split; [split; [exact HL'|]|auto].
    cbn [s_sum]. rewrite Hs, Ea, !total_app, total_cons. cbn [snd]. unfold wrap64. lia.
Qed.

Lemma SL_add : forall s a n (v : T) after, SL s a ->
  (n <> 0 /\ ~ live n a /\ sum_add_value size_f s v n after = Rej)
  \/ exists s' m a', sum_add_value size_f s v n after = Ok (s', m) /\ fresh m a /\ inserted after n (m, v) a a' /\ SL s' a'
       /\ l_blank (s_list s') = l_blank (s_list s).
Proof.
  intros s a n v after (HL & Hs). unfold sum_add_value.
  destruct (L_add_value _ a n v after HL) as [(Hn & Hl & ->)|(l' & m & a' & -> & Hfr & Hins & HL' & Hb)]; cbn [rbind].
  - left. auto.
  - right. eexists _, m, a'. split; [reflexivity|]. split; [exact Hfr|]. split; [exact Hins|]. split; [split; [exact HL'|]|exact Hb].
    cbn [s_sum]. rewrite Hs. assert (Ht : total size_f a' = total size_f a + size_f v).
    { destruct after; cbn [inserted] in Hins; destruct Hins as [(_ & ->)|(a1 & w & a2 & -> & ->)];
      rewrite ?total_app, ?total_cons, ?total_app, ?total_cons; cbn [snd total fold_right]; unfold total; cbn [fold_right]; lia. }
    rewrite Ht. unfold wrap64. lia.
Qed.

Lemma SL_remove_first : forall s a, SL s a ->
  (a = [] /\ sum_remove_first size_f s = Ok (s, false))
  \/ exists x a' s', a = x :: a' /\ sum_remove_first size_f s = Ok (s', true) /\ SL s' a' /\ l_blank (s_list s') = l_blank (s_list s)
      /\ l_n (s_list s') = l_n (s_list s).
Proof.
  intros s a HS. pose proof HS as (HL & _). unfold sum_remove_first. rewrite (L_first _ a HL). cbn [rbind].
  destruct a as [|(n, v) a].
  - left. split; [reflexivity|]. destruct (SL_remove s [] 0 HS) as [(_ & E)|(a1 & v & a2 & s' & E & _)]; [exact E|]. destruct a1; discriminate.
  - right. destruct (SL_remove s _ n HS) as [(Hl & _)|(a1 & w & a2 & s' & E & He & HS' & Hb & Hn)]; [exfalso; apply Hl; left; reflexivity|].
    pose proof (L_names_ok _ _ HL) as [Hnd _]. destruct a1 as [|y a1]; cbn [app] in *.
    + injection E as _ ->. eexists _, a2, s'. split; [reflexivity|]. auto.
    + injection E as <- E. exfalso. cbn [map fst] in Hnd. apply NoDup_cons_iff in Hnd. apply (proj1 Hnd). rewrite E, map_app.
      cbn [map fst]. apply in_or_app. right. left. reflexivity.
Qed.

Lemma SL_remove_last : forall s a, SL s a ->
  (a = [] /\ sum_remove_last size_f s = Ok (s, false))
  \/ exists x a' s', a = a' ++ [x] /\ sum_remove_last size_f s = Ok (s', true) /\ SL s' a' /\ l_blank (s_list s') = l_blank (s_list s).
Proof.
  intros s a HS. pose proof HS as (HL & _). unfold sum_remove_last. rewrite (L_last _ a HL). cbn [rbind].
  destruct (rev a) as [|(n, v) r] eqn:Er; apply (f_equal (@rev _)) in Er; rewrite rev_involutive in Er; cbn [rev] in Er; subst a.
  - left. split; [reflexivity|]. destruct (SL_remove s [] 0 HS) as [(_ & E)|(a1 & v & a2 & s' & E & _)]; [exact E|]. destruct a1; discriminate.
  - right. pose proof (L_names_ok _ _ HL) as [Hnd _].
    destruct (SL_remove s _ n HS) as [(Hl & _)|(a1 & w & a2 & s' & E & He & HL' & Hbl & _)].
    { exfalso. apply Hl. unfold live. rewrite map_app. apply in_or_app. right. left. reflexivity. }
    destruct a2 as [|y a2].
    + apply app_inj_tail in E. destruct E as [E E']. injection E' as <-. subst a1. rewrite app_nil_r in HL'.
      eexists _, (rev r), s'. split; [reflexivity|]. auto.
    + exfalso. rewrite E, map_app in Hnd. cbn [map fst] in Hnd.
      destruct (@exists_last _ (y :: a2)) as (q & z & Eq); [discriminate|].
      change (fst y :: map fst a2) with (map fst (y :: a2)) in Hnd. rewrite Eq in E, Hnd.
      rewrite app_comm_cons, app_assoc in E. apply app_inj_tail in E. destruct E as [_ <-].
      rewrite map_app in Hnd. cbn [map fst] in Hnd. apply NoDup_remove_2 in Hnd. apply Hnd. rewrite !in_app_iff. cbn [In]. tauto.
Qed.

Lemma SL_clear : forall a fuel s, SL s a -> (length a < fuel)%nat ->
  exists s', sum_clear_loop size_f fuel s = Ok s' /\ SL s' [] /\ l_blank (s_list s') = l_blank (s_list s).
Proof.
  induction a as [|x a IH]; intros fuel s HL Hf; (destruct fuel as [|fuel]; [lia|]); cbn [sum_clear_loop].
  - destruct (SL_remove_first s [] HL) as [(_ & ->)|(y & a' & s' & E & _)]; [|discriminate]. cbn [rbind]. exists s. auto.
  - destruct (SL_remove_first s _ HL) as [(E & _)|(y & a' & s' & E & -> & HL' & Hbl & Hn)]; [discriminate|]. injection E as <- <-. cbn [rbind].
    destruct (IH fuel s' HL' ltac:(cbn [length] in Hf; lia)) as (s'' & E & HL'' & Hb). exists s''. split; [exact E|]. split; [exact HL''|congruence].
Qed.

Lemma SL_append_all : forall vs s a, SL s a -> exists s' ms, sum_append_all size_f s vs = Ok s'
  /\ length ms = length vs /\ SL s' (a ++ combine ms vs) /\ l_blank (s_list s') = l_blank (s_list s).
Proof.
  induction vs as [|v vs IH]; intros s a HS; cbn [sum_append_all].
  - exists s, []. cbn [combine]. rewrite app_nil_r. auto.
  - destruct (SL_add s a 0 v false HS) as [(H & _)|(s1 & m & a1 & -> & Hfr & Hins & HL1 & Hb1)]; [lia|]. cbn [rbind].
    apply (L_inserted_sentinel (s_list s) a _ a1 false (proj1 HS)) in Hins. cbv iota in Hins.
    subst a1. destruct (IH s1 _ HL1) as (s2 & ms & E & Hl & HL2 & Hb2).
    exists s2, (m :: ms). split; [exact E|]. split; [cbn [length]; lia|]. split; [|congruence].
    cbn [combine]. rewrite <- app_assoc in HL2. exact HL2.
Qed.

Lemma moved_total : forall n f r (a a' : list (Z * T)), moved n f r a a' ->
  (forall a1 y a2, Permutation (a1 ++ y :: a2) (f a1 y a2)) -> total size_f a' = total size_f a.
Proof.
  intros n f r a a' H Hf. destruct H as [(_ & _ & ->)|[(_ & _ & _ & ->)|(a1 & v & a2 & -> & _ & ->)]]; auto.
  symmetry. apply total_perm, Hf.
Qed.

Lemma sum_step_refines : forall s a o, SL s a -> sum_op o ->
  match sum_step size_f s o with
  | Ok (s', r) => exists a', lspec (l_blank (s_list s)) o (Some r) a a' /\ SL s' a' /\ l_blank (s_list s') = l_blank (s_list s)
  | Rej => lspec (l_blank (s_list s)) o None a a
  | UB => False
  end.
Proof.
  intros s a o HS Ho. pose proof HS as (HL & Hsum).
  assert (Hlift : forall a', total size_f a' = total size_f a -> forall l, L l a' -> SL (mkSum l (s_sum s)) a').
  { intros a' Ht l Hl. split; [exact Hl|]. cbn [s_sum]. rewrite Hsum, Ht. reflexivity. }
  destruct o as [n|n|v n|v n|v|v|n|n|n|n|n| | | |n v|vs]; cbn [sum_op] in Ho; try contradiction; cbn [sum_step lspec lstep];
    unfold lifted, sum_ret_name, sum_ret_bool, ret_bool.
  - destruct (SL_add s a n v true HS) as [(Hn & Hl & ->)|(s' & m & a' & -> & Hfr & Hins & HL' & Hb)]; cbn [rbind].
    + right; auto.
    + exists a'. split; [left; eauto|auto].
  - destruct (SL_add s a n v false HS) as [(Hn & Hl & ->)|(s' & m & a' & -> & Hfr & Hins & HL' & Hb)]; cbn [rbind].
    + right; auto.
    + exists a'. split; [left; eauto|auto].
  - destruct (SL_add s a 0 v false HS) as [(Hn & _)|(s' & m & a' & -> & Hfr & Hins & HL' & Hb)]; [lia|]; cbn [rbind].
    exists a'. split; [|auto]. exists m. split; [reflexivity|]. split; [exact Hfr|]. apply (L_inserted_sentinel (s_list s) a _ a' false HL Hins).
  - destruct (SL_add s a 0 v true HS) as [(Hn & _)|(s' & m & a' & -> & Hfr & Hins & HL' & Hb)]; [lia|]; cbn [rbind].
    exists a'. split; [|auto]. exists m. split; [reflexivity|]. split; [exact Hfr|]. apply (L_inserted_sentinel (s_list s) a _ a' true HL Hins).
  - destruct (L_move_all _ a n HL) as (_ & _ & (s' & r & a' & -> & Hm & HL' & Hb) & _). cbn [rbind].
    exists a'. split; [exact Hm|]. split; [|exact Hb]. apply Hlift; [|exact HL']. eapply moved_total; [exact Hm|].
    intros a1 y a2. apply (Permutation_app_comm a1 (y :: a2)).
  - destruct (L_move_all _ a n HL) as (_ & _ & _ & (s' & r & a' & -> & Hm & HL' & Hb)). cbn [rbind].
    exists a'. split; [exact Hm|]. split; [|exact Hb]. apply Hlift; [|exact HL']. eapply moved_total; [exact Hm|].
    intros a1 y a2. eapply perm_trans; [apply (Permutation_app_comm a1 (y :: a2))|]. cbn [app]. rewrite app_assoc. apply Permutation_cons_append.
  - destruct (L_move_all _ a n HL) as ((s' & r & a' & -> & Hm & HL' & Hb) & _). cbn [rbind].
    exists a'. split; [exact Hm|]. split; [|exact Hb]. apply Hlift; [|exact HL']. eapply moved_total; [exact Hm|].
    intros a1 y a2. apply Permutation_sym, Permutation_middle.
  - destruct (L_move_all _ a n HL) as (_ & (s' & r & a' & -> & Hm & HL' & Hb) & _). cbn [rbind].
    exists a'. split; [exact Hm|]. split; [|exact Hb]. apply Hlift; [|exact HL']. eapply moved_total; [exact Hm|].
    intros a1 y a2. eapply perm_trans; [apply Permutation_sym, Permutation_middle|]. rewrite app_assoc. apply Permutation_cons_append.
  - destruct (SL_remove s a n HS) as [(Hl & ->)|(a1 & v & a2 & s' & E & -> & HL' & Hb & _)]; cbn [rbind].
    + exists a. split; [left; auto|auto].
    + exists (a1 ++ a2). split; [right; eauto 10|auto].
  - destruct (SL_remove_first s a HS) as [(-> & ->)|(x & a' & s' & -> & -> & HL' & Hb & _)]; cbn [rbind].
    + exists []. split; [left; auto|auto].
    + exists a'. split; [right; eauto|auto].
  - destruct (SL_remove_last s a HS) as [(-> & ->)|(x & a' & s' & -> & -> & HL' & Hb)]; cbn [rbind].
    + exists []. split; [left; auto|auto].
    + exists a'. split; [right; eauto|auto].
  - destruct (L_length _ a HL) as [Hlen _]. unfold sum_clear.
    destruct (SL_clear a (Z.to_nat (l_n (s_list s))) s HS ltac:(lia)) as (s' & -> & HL' & Hb). cbn [rbind]. exists []. auto.
  - destruct (SL_append_all vs s a HS) as (s' & ms & -> & Hl & HL' & Hb). cbn [rbind]. eexists. split; [split; [reflexivity|eauto]|auto].
Qed.

Lemma sum_run_refines : forall os s a, SL s a -> Forall sum_op os ->
  exists s' rs a', sum_run size_f s os = Ok (s', rs) /\ lspec_run (l_blank (s_list s)) a os rs a' /\ SL s' a'.
Proof.
  induction os as [|o os IH]; intros s a HL Ho; cbn [sum_run].
  - exists s, [], a. split; [reflexivity|]. split; [constructor|exact HL].
  - inversion Ho as [|? ? Ho1 Hos]; subst. pose proof (sum_step_refines s a o HL Ho1) as Hs. destruct (sum_step size_f s o) as [[s1 r]| |]; [| |contradiction].
    + destruct Hs as (a1 & Hsp & HL1 & Hb). destruct (IH s1 a1 HL1 Hos) as (s2 & rs & a2 & -> & Hr & HL2). cbn [rbind].
      eexists _, _, a2. split; [reflexivity|]. split; [|exact HL2]. econstructor; [exact Hsp|eapply L_names_ok; exact (proj1 HL1)|rewrite <- Hb; exact Hr].
    + destruct (IH s a HL Hos) as (s2 & rs & a2 & -> & Hr & HL2). cbn [rbind].
      eexists _, _, a2. split; [reflexivity|]. split; [|exact HL2]. econstructor; [exact Hs|eapply L_names_ok; exact (proj1 HL)|exact Hr].
Qed.

Lemma total_nonneg : forall a : list (Z * T), (forall v, 0 <= size_f v) -> 0 <= total size_f a.
Proof. intros a H. induction a as [|x a IH]; [cbn; lia|]. rewrite total_cons. specialize (H (snd x)). lia. Qed.

Lemma sum_session_ok : forall blank os, Forall sum_op os -> exists s0 s rs a,
  sum_init blank = Ok s0 /\ sum_run size_f s0 os = Ok (s, rs) /\ lspec_run blank [] os rs a
  /\ values (s_list s) = Ok a /\ s_sum s = total size_f a mod 18446744073709551616
  /\ ((forall v, 0 <= size_f v) -> total size_f a < 18446744073709551616 -> s_sum s = total size_f a).
Proof.
  intros blank os Ho. destruct (L_init blank) as (l0 & Hi & HL0 & Hb). unfold sum_init. rewrite Hi. cbn [rbind].
  assert (HS0 : SL (mkSum l0 0) []) by (split; [exact HL0|reflexivity]).
  destruct (sum_run_refines os _ [] HS0 Ho) as (s & rs & a & Hr & Hsp & (HL & Hsum)). cbn [s_list] in Hsp. rewrite Hb in Hsp.
  eexists _, s, rs, a. split; [reflexivity|]. split; [exact Hr|]. split; [exact Hsp|].
  split; [apply (L_values _ _ HL)|]. split; [exact Hsum|]. intros Hp Hlt. rewrite Hsum. unfold wrap64. apply Z.mod_small.
  split; [apply total_nonneg, Hp|exact Hlt].
Qed.
End Sum.
End State.

(** ** Replacing a value by another of the same size (a write through a pointer held in a SumList) *)
Definition upd {T} (a : list (Z * T)) (n : Z) (v : T) : list (Z * T) := map (fun p => if fst p =? n then (n, v) else p) a.
Lemma upd_names : forall T (a : list (Z * T)) n v, map fst (upd a n v) = map fst a.
Proof.
  intros T a n v. unfold upd. rewrite map_map. apply map_ext. intros (m, w). cbn [fst]. destruct (Z.eqb_spec m n); cbn [fst]; congruence.
Qed.
Lemma upd_in : forall T (a : list (Z * T)) n v m w, In (m, w) (upd a n v) <-> (m = n /\ w = v /\ In n (map fst a)) \/ (m <> n /\ In (m, w) a).
Proof.
  intros T a n v m w. unfold upd. rewrite in_map_iff. split.
  - intros ((k, u) & E & Hin). cbn [fst] in E. destruct (Z.eqb_spec k n) as [->|Hk].
    + injection E as <- <-. left. split; [reflexivity|]. split; [reflexivity|]. apply in_map_iff. exists (n, u). auto.
    + injection E as <- <-. right. auto.
  - intros [(-> & -> & Hin)|(Hm & Hin)].
    + apply in_map_iff in Hin. destruct Hin as ((k, u) & <- & Hin). exists (k, u). cbn [fst]. rewrite Z.eqb_refl. auto.
    + exists (m, w). cbn [fst]. destruct (Z.eqb_spec m n); [congruence|auto].
Qed.
Lemma upd_split : forall T (a1 a2 : list (Z * T)) n w v, NoDup (map fst (a1 ++ (n, w) :: a2)) -> upd (a1 ++ (n, w) :: a2) n v = a1 ++ (n, v) :: a2.
Proof.
  intros T a1 a2 n w v Hnd. rewrite map_app in Hnd. cbn [map fst] in Hnd. apply NoDup_remove_2 in Hnd.
  assert (Hid : forall a : list (Z * T), ~ In n (map fst a) -> upd a n v = a).
  { intros a. induction a as [|(m, u) a IH]; intros Hni; [reflexivity|]. cbn [upd map fst]. cbn [map fst In] in Hni.
    destruct (Z.eqb_spec m n) as [->|Hm]; [tauto|]. f_equal. apply IH. tauto. }
  unfold upd at 1. rewrite map_app. cbn [map fst]. rewrite Z.eqb_refl. fold (upd a1 n v). fold (upd a2 n v).
  rewrite !Hid; [reflexivity| |]; rewrite in_app_iff in Hnd; tauto.
Qed.
Lemma SL_upd : forall T (size_f : T -> Z) s a n g g', SL T size_f s a -> In (n, g) a -> size_f g' = size_f g ->
  exists l, set_at (s_list s) n g' = Ok l /\ SL T size_f (mkSum l (s_sum s)) (upd a n g').
Proof.
  intros T size_f s a n g g' (HL & Hs) Hin Hsz.
  pose proof (L_names_ok _ _ _ HL) as [Hnd _].
  destruct (L_set_at T (s_list s) a n g' HL) as [(Hl & _)|(a1 & w & a2 & l & E & Hset & HL' & _)].
  - exfalso. apply Hl. apply in_map_iff. exists (n, g). auto.
  - exists l. split; [exact Hset|]. subst a. rewrite (upd_split _ a1 a2 n w g') by exact Hnd. split; [exact HL'|]. cbn [s_sum]. rewrite Hs.
    assert (w = g) as ->.
    { apply in_app_or in Hin. destruct Hin as [Hin|[E|Hin]]; [| |].
      - exfalso. rewrite map_app in Hnd. cbn [map fst] in Hnd. apply NoDup_remove_2 in Hnd. apply Hnd. apply in_or_app. left.
        apply in_map_iff. exists (n, g). auto.
      - congruence.
      - exfalso. rewrite map_app in Hnd. cbn [map fst] in Hnd. apply NoDup_remove_2 in Hnd. apply Hnd. apply in_or_app. right.
        apply in_map_iff. exists (n, g). auto. }
    rewrite !total_app, !total_cons. cbn [snd]. rewrite Hsz. reflexivity.
Qed.
