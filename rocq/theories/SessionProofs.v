From Verif Require Import Base BaseFacts Session SessionSpec.
From Coq Require Import Lia Arith.

Lemma set_nth_length : forall (A : Type) (l : list A) i x, length (set_nth l i x) = length l.
Proof. induction l as [|y l IH]; intros [|i] x; cbn; auto. Qed.
Lemma set_nth_nth : forall (A : Type) (l : list A) i j x d, nth j (set_nth l i x) d = if ((j =? i) && (i <? length l))%nat then x else nth j l d.
Proof.
  induction l as [|y l IH]; intros [|i] [|j] x d; cbn; try reflexivity; try (rewrite ?andb_false_r; reflexivity). rewrite IH. reflexivity.
Qed.
Lemma sget_sset : forall w i j x, sget (sset w i x) j = if ((j =? i) && (i <? length (v_sf w)))%nat then x else sget w j.
Proof. intros. apply set_nth_nth. Qed.
Lemma rget_rset : forall w i j x, rget (rset w i x) j = if ((j =? i) && (i <? length (v_rf w)))%nat then x else rget w j.
Proof. intros. apply set_nth_nth. Qed.
Lemma sget_over : forall w i, (length (v_sf w) <= i)%nat -> sget w i = sf0.
Proof. intros w i L. apply nth_overflow, L. Qed.
Lemma sget_app : forall w x j, sget (with_sfs w (v_sf w ++ [x])) j = if (j =? length (v_sf w))%nat then x else sget w j.
Proof.
  intros w x j. unfold sget. cbn [v_sf with_sfs]. destruct (Nat.eqb_spec j (length (v_sf w))) as [->|N]; [rewrite app_nth2, Nat.sub_diag by lia; reflexivity|].
  destruct (Nat.lt_ge_cases j (length (v_sf w))) as [L|L]; [apply app_nth1, L|]. rewrite !nth_overflow; auto. rewrite app_length. cbn. lia.
Qed.
Lemma rget_app : forall w l x j, rget (with_rfs (with_recvs w l) (v_rf w ++ [x])) j = if (j =? length (v_rf w))%nat then x else rget w j.
Proof.
  intros w l x j. unfold rget. cbn [v_rf with_rfs]. destruct (Nat.eqb_spec j (length (v_rf w))) as [->|N]; [rewrite app_nth2, Nat.sub_diag by lia; reflexivity|].
  destruct (Nat.lt_ge_cases j (length (v_rf w))) as [L|L]; [apply app_nth1, L|]. rewrite !nth_overflow; auto. rewrite app_length. cbn. lia.
Qed.
Lemma in_without : forall i j l, In j (without i l) <-> In j l /\ j <> i.
Proof. intros. unfold without. rewrite filter_In. destruct (Nat.eqb_spec j i) as [->|N]; cbn; intuition congruence. Qed.
Lemma has_in : forall i l, has i l = true <-> In i l.
Proof. intros. unfold has. rewrite existsb_exists. split; [intros (x & H & E); apply Nat.eqb_eq in E as ->; exact H|intros H; exists i; split; [exact H|apply Nat.eqb_refl]]. Qed.
Lemma find_recv_in : forall k l g, find_recv k l = Some g -> In g (map snd l).
Proof. intros k l g. induction l as [|(k' & g') l IH]; cbn; [discriminate|]. destruct (k =? k'); [intros E; injection E as ->; auto|auto]. Qed.
Lemma drop_key_in : forall k l g x, find_recv k l = Some g -> In x (map snd l) -> In x (map snd (drop_key k l)) \/ x = g.
Proof.
  intros k l g x. induction l as [|(k' & g') l IH]; cbn; [contradiction|]. rewrite (Z.eqb_sym k' k). destruct (k =? k'); intros E I; [injection E as ->; intuition|]. cbn. destruct I as [->|I]; [auto|]. destruct (IH E I); auto.
Qed.
Lemma drop_key_length : forall k l g, find_recv k l = Some g -> length l = S (length (drop_key k l)).
Proof. intros k l g. induction l as [|(k' & g') l IH]; cbn; [discriminate|]. rewrite (Z.eqb_sym k' k). destruct (k =? k'); [reflexivity|]. intros E. cbn. rewrite <- IH by exact E. reflexivity. Qed.

(** ** What is left to be done about closing *)
Definition is_op (f : frame) : bool := match f with KChunks _ | KMoved _ | KAbort => true | _ => false end.
Definition structural (f : frame) : bool :=
  match f with KSendLoop | KAssert _ | KRecvLoop | KAborted _ | KErase _ _ | KTold _ | KWaiting _ => true | f => is_op f end.
Definition late (w : world) : Prop := (4 <= rank (v_state w))%nat.
Inductive phase (w : world) : list frame -> Prop :=
| ph_idle : (late w -> v_recvs w = []) -> phase w []
| ph_send : forall r, late w -> phase w (closing r)
| ph_assert : forall i r, late w -> phase w (KAssert i :: closing r)
| ph_recv : forall r, late w -> phase w [KRecvLoop; KTold r]
| ph_aborted : forall k g r, late w -> find_recv k (v_recvs w) = Some g -> phase w [KAborted g; KErase k g; KRecvLoop; KTold r]
| ph_erase : forall k g r, late w -> find_recv k (v_recvs w) = Some g -> g_st (rget w g) = 3%nat -> phase w [KErase k g; KRecvLoop; KTold r]
| ph_told : forall r, late w -> v_recvs w = [] -> phase w [KTold r]
| ph_wait : forall l, late w -> v_recvs w = [] -> phase w [KWaiting l].
Definition shape (w : world) (l : list frame) : Prop := exists cl ops, filter structural l = cl ++ ops /\ forallb is_op ops = true /\ phase w cl.
Definition told_left (r : bool) (l : list frame) : nat := length (filter (fun f => match f with KTold r' => Bool.eqb r' r | _ => false end) l).

Record inv (e : option nat) (w : world) : Prop := mkInv {
  i_sends : forall i, In i (v_sends w) <-> f_bound (sget w i) = true;
  i_bound : forall i, f_bound (sget w i) = true -> (f_st (sget w i) < 3)%nat;
  i_waiting : forall i, In i (v_waiting w) -> (i < length (v_sf w))%nat /\ f_bound (sget w i) = false /\ (f_st (sget w i) = 0%nat \/ In (KCloseRest i) (v_stack w));
  i_assert : forall pre i post, v_stack w = pre ++ KAssert i :: post -> In i (v_sends w) -> e = Some i \/ In (KClose i) pre;
  i_low : forall i, In (KAssert i) (v_stack w) -> (i < length (v_sf w))%nat;
  i_shape : shape w (v_stack w);
  i_indexed : v_indexed w = true -> v_state w = S_OPEN \/ (late w /\ exists r, In (KTold r) (v_stack w));
  i_opening : v_opening w = true -> v_state w = S_IHELLO_SENT \/ v_state w = S_KEYING_SENT \/ (late w /\ exists r, In (KTold r) (v_stack w));
  i_told : forall r, (told r (v_log w) + told_left r (v_stack w) = entered r (v_log w))%nat;
  i_life : life (v_log w) (v_state w);
  i_recv : forall g, In g (map snd (v_recvs w)) \/ g_base (rget w g) = false \/ g_st (rget w g) = 3%nat }.

(** ** The elementary changes *)
Inductive mv : world -> world -> Prop :=
| mv_sf : forall w i x, f_bound x = f_bound (sget w i) -> (f_st x = f_st (sget w i) \/ (In i (v_sends w) /\ (f_st x < 3)%nat)) -> mv w (sset w i x)
| mv_unbind : forall w i x, f_bound (sget w i) = true -> f_bound x = false -> mv w (with_sends (sset w i x) (without i (v_sends w)))
| mv_shut : forall w i x, f_bound (sget w i) = false -> f_bound x = false -> In (KCloseRest i) (v_stack w) \/ ~ In i (v_waiting w) -> mv w (sset w i x)
| mv_bind : forall w i x, (i < length (v_sf w))%nat -> f_bound x = true -> (f_st x < 3)%nat -> f_st (sget w i) = f_st x -> ~ In (KAssert i) (v_stack w) ->
    mv w (with_waiting (with_sends (sset w i x) (v_sends w ++ [i])) (without i (v_waiting w)))
| mv_new : forall w o, mv w (with_sfs w (v_sf w ++ [new_sf o]))
| mv_wait : forall w i, (i < length (v_sf w))%nat -> f_bound (sget w i) = false -> f_st (sget w i) = 0%nat -> mv w (with_waiting w (v_waiting w ++ [i]))
| mv_unwait : forall w i, mv w (with_waiting w (without i (v_waiting w)))
| mv_interest : forall w x, mv w (with_interest w x)
| mv_rf : forall w g x, (g_base x = true -> g_base (rget w g) = true) -> (g_st (rget w g) = 3%nat -> g_st x = 3%nat) -> mv w (rset w g x)
| mv_newrf : forall w k x, v_state w = S_OPEN -> mv w (with_rfs (with_recvs w ((k, length (v_rf w)) :: v_recvs w)) (v_rf w ++ [x]))
| mv_push : forall w f, structural f = false -> mv w (push w [f])
| mv_close : forall w s r, allowed (v_state w) s -> (s = S_CLOSED /\ r = true \/ (s = S_NEARCLOSE \/ s = S_FARCLOSE_LINGER) /\ r = false) ->
    (rank (v_state w) < 4)%nat \/ forallb is_op (filter structural (v_stack w)) = true -> mv w (push (with_state w s) (closing r))
| mv_pos : forall w, mv w (next_pos w)
| mv_call : forall w c, mv w (with_log w (EvCall c))
| mv_hello : forall w i r, v_state w = S_UNKNOWN -> v_stack w = [] -> v_indexed w = i -> mv w (with_index (with_state w S_IHELLO_SENT) true i r)
| mv_keying : forall w, v_state w = S_IHELLO_SENT -> v_stack w = [] -> mv w (with_state w S_KEYING_SENT)
| mv_open : forall w r, v_state w = S_UNKNOWN \/ v_state w = S_KEYING_SENT -> v_stack w = [] -> mv w (with_index (with_state w S_OPEN) false true r).
Inductive mvs : world -> world -> Prop :=
| mvs_0 : forall w, mvs w w
| mvs_S : forall w w1 w2, mv w w1 -> mvs w1 w2 -> mvs w w2.

Lemma phase_same : forall w w' l, (late w' <-> late w) -> v_recvs w' = v_recvs w -> (forall g, g_st (rget w g) = 3%nat -> g_st (rget w' g) = 3%nat) -> phase w l -> phase w' l.
Proof. intros w w' l L R G P. destruct P; constructor; try rewrite R; try (apply L; assumption); auto. intros X. apply H, L, X. Qed.
Lemma shape_same : forall w w' l, (late w' <-> late w) -> v_recvs w' = v_recvs w -> (forall g, g_st (rget w g) = 3%nat -> g_st (rget w' g) = 3%nat) -> shape w l -> shape w' l.
Proof. intros w w' l L R G (cl & ops & E & F & P). exists cl, ops. split; [exact E|]. split; [exact F|]. eapply phase_same; eauto. Qed.
Lemma shape_push : forall w f l, structural f = false -> shape w l -> shape w (f :: l).
Proof. intros w f l N (cl & ops & E & F & P). exists cl, ops. cbn. rewrite N. auto. Qed.
Lemma early_ops : forall w l, shape w l -> (rank (v_state w) < 4)%nat -> forallb is_op (filter structural l) = true.
Proof. intros w l (cl & ops & E & F & P) R. rewrite E. destruct P; unfold late in *; try lia. exact F. Qed.
Lemma op_not_assert : forall l i, forallb is_op (filter structural l) = true -> ~ In (KAssert i) l.
Proof. intros l i F I. rewrite forallb_forall in F. specialize (F (KAssert i)). rewrite filter_In in F. cbn in F. intuition congruence. Qed.
Lemma told_left_app : forall r a b, told_left r (a ++ b) = (told_left r a + told_left r b)%nat.
Proof. intros. unfold told_left. rewrite filter_app, app_length. reflexivity. Qed.
Lemma push_assert : forall f stack pre i post, f :: stack = pre ++ KAssert i :: post -> structural f = false -> exists pre', pre = f :: pre' /\ stack = pre' ++ KAssert i :: post.
Proof. intros f stack [|x pre] i post E N; cbn in E; injection E as -> E; [discriminate|]. eauto. Qed.
Lemma entered_state : forall r a b l, entered r (EvState a b :: l) = (entered r l + match b with S_CLOSED => if r then 1 else 0 | S_NEARCLOSE | S_FARCLOSE_LINGER => if r then 0 else 1 | _ => 0 end)%nat.
Proof. intros r a b l. unfold entered. cbn [filter]. destruct b, r; cbn [negb length]; lia. Qed.

Ltac red_world t := eval cbn [v_state v_interest v_opening v_indexed v_reg v_sends v_waiting v_recvs v_sf v_rf v_stack v_pos v_log with_state with_interest with_index with_sends with_waiting with_recvs with_sfs with_rfs push popped with_log next_pos sset rset app closing] in t.
Ltac fields := match goal with |- inv _ ?w' =>
  let q0 := fresh "q" in let a := red_world (v_state w') in assert (q0 : v_state w' = a) by reflexivity;
  let q1 := fresh "q" in let a := red_world (v_sends w') in assert (q1 : v_sends w' = a) by reflexivity;
  let q2 := fresh "q" in let a := red_world (v_waiting w') in assert (q2 : v_waiting w' = a) by reflexivity;
  let q3 := fresh "q" in let a := red_world (v_recvs w') in assert (q3 : v_recvs w' = a) by reflexivity;
  let q4 := fresh "q" in let a := red_world (v_stack w') in assert (q4 : v_stack w' = a) by reflexivity;
  let q5 := fresh "q" in let a := red_world (v_log w') in assert (q5 : v_log w' = a) by reflexivity;
  let q6 := fresh "q" in let a := red_world (v_sf w') in assert (q6 : v_sf w' = a) by reflexivity;
  let q7 := fresh "q" in let a := red_world (v_opening w') in assert (q7 : v_opening w' = a) by reflexivity;
  let q8 := fresh "q" in let a := red_world (v_indexed w') in assert (q8 : v_indexed w' = a) by reflexivity;
  constructor; unfold late; rewrite ?q0, ?q1, ?q2, ?q3, ?q4, ?q5, ?q6, ?q7, ?q8; clear q0 q1 q2 q3 q4 q5 q6 q7 q8; rewrite ?set_nth_length; auto; try solve [eapply shape_same; [| | |eassumption]; [reflexivity|reflexivity|intros g X; exact X]] end.
Lemma sset_same : forall w i x j, f_bound x = f_bound (sget w i) -> f_bound (sget (sset w i x) j) = f_bound (sget w j).
Proof. intros w i x j B. rewrite sget_sset. destruct (Nat.eqb_spec j i) as [->|N]; cbn [andb]; [destruct (i <? length (v_sf w))%nat; auto|reflexivity]. Qed.

Lemma mv_inv : forall e w w', inv e w -> mv w w' -> inv e w'.
Proof.
  intros e w w' [I1 I2 I3 I4 IL I5 I6 I7 I8 I9 I10] M. destruct M.
  - (* sf *)
    fields.
    + intros j. rewrite sset_same by assumption. apply I1.
    + intros j. rewrite sset_same by assumption. intros B. rewrite sget_sset. destruct (Nat.eqb_spec j i) as [->|N]; cbn [andb]; [|auto]. destruct (i <? length (v_sf w))%nat; [|auto]. destruct H0 as [->|(_ & L)]; auto.
    + intros j W. destruct (I3 j W) as (L & B & D). split; [exact L|]. rewrite sset_same by assumption. split; [exact B|]. rewrite sget_sset. destruct (Nat.eqb_spec j i) as [->|N]; cbn [andb]; [|auto]. destruct (i <? length (v_sf w))%nat; [|auto]. destruct H0 as [->|(S0 & _)]; auto. apply I1 in S0. congruence.
  - (* unbind *)
    assert (LI : (i <? length (v_sf w))%nat = true) by (apply Nat.ltb_lt; destruct (Nat.lt_ge_cases i (length (v_sf w))) as [X|X]; auto; rewrite sget_over in H by exact X; discriminate).
    assert (G : forall j, sget (with_sends (sset w i x) (without i (v_sends w))) j = if (j =? i)%nat then x else sget w j) by (intros j; change (sget (with_sends ?a _) j) with (sget a j); rewrite sget_sset, LI, andb_true_r; reflexivity).
    fields.
    + intros j. rewrite G, in_without. destruct (Nat.eqb_spec j i) as [->|N]; [rewrite H0; intuition congruence|]. rewrite I1. intuition.
    + intros j. rewrite G. destruct (Nat.eqb_spec j i) as [->|N]; [congruence|auto].
    + intros j W. destruct (I3 j W) as (L & B & D). split; [exact L|]. rewrite G. destruct (Nat.eqb_spec j i) as [->|N]; [congruence|auto].
    + intros pre j post E. rewrite in_without. intros (X & _). eauto.
  - (* shut *)
    fields.
    + intros j. rewrite sset_same by congruence. apply I1.
    + intros j. rewrite sset_same by congruence. intros B. rewrite sget_sset. destruct (Nat.eqb_spec j i) as [->|N]; cbn [andb]; [congruence|auto].
    + intros j W. destruct (I3 j W) as (L & B & D). split; [exact L|]. rewrite sset_same by congruence. split; [exact B|]. rewrite sget_sset. destruct (Nat.eqb_spec j i) as [->|N]; cbn [andb]; auto. destruct H1; [auto|contradiction].
  - (* bind *)
    assert (LI : (i <? length (v_sf w))%nat = true) by (apply Nat.ltb_lt, H).
    assert (G : forall j, sget (with_waiting (with_sends (sset w i x) (v_sends w ++ [i])) (without i (v_waiting w))) j = if (j =? i)%nat then x else sget w j) by (intros j; change (sget (with_waiting (with_sends ?a _) _) j) with (sget a j); rewrite sget_sset, LI, andb_true_r; reflexivity).
    fields.
    + intros j. rewrite G, in_app_iff. cbn. destruct (Nat.eqb_spec j i) as [->|N]; [intuition|]. rewrite I1. intuition congruence.
    + intros j. rewrite G. destruct (Nat.eqb_spec j i) as [->|N]; auto.
    + intros j W. apply in_without in W as (W & N). destruct (I3 j W) as (L & B & D). rewrite G. destruct (Nat.eqb_spec j i) as [->|_]; [congruence|auto].
    + intros pre j post E. rewrite in_app_iff. cbn. intros [X|[<-|[]]]; [eauto|]. contradiction H3. rewrite E. apply in_elt.
  - (* new *)
    fields.
    + intros j. rewrite sget_app. destruct (Nat.eqb_spec j (length (v_sf w))) as [->|N]; [|apply I1]. rewrite I1, sget_over by lia. reflexivity.
    + intros j. rewrite sget_app. destruct (Nat.eqb_spec j (length (v_sf w))) as [->|N]; [discriminate|apply I2].
    + intros j W. destruct (I3 j W) as (L & B & D). rewrite sget_app, app_length. destruct (Nat.eqb_spec j (length (v_sf w))) as [->|N]; [lia|]. split; [lia|auto].
    + intros j X. apply IL in X. rewrite app_length. lia.
  - (* wait *)
    fields. intros j. rewrite in_app_iff. cbn [In]. intros [W|[<-|[]]]; [exact (I3 j W)|]. auto.
  - fields. intros j W. apply in_without in W as (W & _). exact (I3 j W).
  - fields.
  - (* rf *)
    assert (G : forall j, g_st (rget w j) = 3%nat -> g_st (rget (rset w g x) j) = 3%nat) by (intros j X; rewrite rget_rset; destruct (Nat.eqb_spec j g) as [->|N]; cbn [andb]; [destruct (g <? length (v_rf w))%nat; auto|auto]).
    fields.
    + eapply shape_same; [| |exact G|exact I5]; [reflexivity|reflexivity].
    + intros j. destruct (I10 j) as [X|[X|X]]; [auto| |auto]. right. left. rewrite rget_rset. destruct (Nat.eqb_spec j g) as [->|N]; cbn [andb]; [|auto]. destruct (g <? length (v_rf w))%nat; [|auto]. destruct (g_base x); [|reflexivity]. rewrite H in X; congruence.
  - (* new receiving flow *)
    fields.
    + destruct I5 as (cl & ops & E & F & P). exists cl, ops. split; [exact E|]. split; [exact F|]. assert (NL : ~ late w) by (unfold late; rewrite H; cbn; lia). destruct P; try contradiction. constructor. intros X. contradiction.
    + intros g. rewrite rget_app. cbn. destruct (Nat.eqb_spec g (length (v_rf w))) as [->|N]; [auto|]. destruct (I10 g) as [X|[X|X]]; auto.
  - (* push *)
    fields.
    + intros j W. destruct (I3 j W) as (L & B & D). split; [exact L|]. split; [exact B|]. destruct D; [auto|right; right; assumption].
    + intros pre i post E X. destruct (push_assert _ _ _ _ _ E H) as (pre' & -> & E'). destruct (I4 _ _ _ E' X); [auto|right; right; assumption].
    + intros i [->|X]; [discriminate|auto].
    + apply shape_push; [exact H|]. eapply shape_same; [| | |exact I5]; [reflexivity|reflexivity|auto].
    + intros X. destruct (I6 X) as [Y|(Y & r & Z)]; [auto|right; split; [exact Y|exists r; right; exact Z]].
    + intros X. destruct (I7 X) as [Y|[Y|(Y & r & Z)]]; [auto|auto|right; right; split; [exact Y|exists r; right; exact Z]].
    + intros r. specialize (I8 r). change (f :: v_stack w) with ([f] ++ v_stack w). rewrite told_left_app. replace (told_left r [f]) with 0%nat; [exact I8|]. destruct f; try reflexivity; discriminate.
  - (* close *)
    assert (OPS : forallb is_op (filter structural (v_stack w)) = true) by (destruct H1 as [X|X]; [eapply early_ops; eauto|exact X]).
    assert (LT : (4 <= rank s)%nat) by (destruct H0 as [(-> & _)|([-> | ->] & _)]; cbn; lia).
    fields.
    + intros j W. destruct (I3 j W) as (L & B & D). split; [exact L|]. split; [exact B|]. destruct D; [auto|right; do 3 right; assumption].
    + intros pre i post E X. exfalso. apply (op_not_assert _ i OPS). destruct pre as [|a [|b [|c pre]]]; cbn in E; try discriminate. injection E as _ _ _ ->. apply in_elt.
    + intros i [X|[X|[X|X]]]; try discriminate. auto.
    + exists (closing r), (filter structural (v_stack w)). split; [reflexivity|]. split; [exact OPS|]. constructor. exact LT.
    + intros X. right. split; [exact LT|]. exists r. cbn. auto.
    + intros X. right. right. split; [exact LT|]. exists r. cbn. auto.
    + intros q. specialize (I8 q). change (KSendLoop :: KRecvLoop :: KTold r :: v_stack w) with (closing r ++ v_stack w). rewrite told_left_app, entered_state. unfold told at 1. cbn [filter]. fold (told q (v_log w)).
      destruct H0 as [(-> & ->)|([-> | ->] & ->)]; destruct q; cbn; lia.
    + constructor; assumption.
  - fields.
  - fields. constructor; assumption.
  - (* hello *)
    assert (NL : ~ late w) by (unfold late; rewrite H; cbn; lia).
    fields.
    + rewrite H0 in *. exists [], []. split; [reflexivity|]. split; [reflexivity|]. constructor. unfold late. cbn. lia.
    + intros X. rewrite <- H1 in X. destruct (I6 X) as [Y|(Y & _)]; [congruence|contradiction].
    + constructor; [assumption|]. rewrite H. exact Logic.I.
  - (* keying *)
    assert (NL : ~ late w) by (unfold late; rewrite H; cbn; lia).
    fields.
    + rewrite H0 in *. exists [], []. split; [reflexivity|]. split; [reflexivity|]. constructor. unfold late. cbn. lia.
    + intros X. destruct (I6 X) as [Y|(Y & _)]; [congruence|contradiction].
    + constructor; [assumption|]. rewrite H. exact Logic.I.
  - (* open *)
    assert (NL : ~ late w) by (unfold late; destruct H as [-> | ->]; cbn; lia).
    fields.
    + rewrite H0 in *. exists [], []. split; [reflexivity|]. split; [reflexivity|]. constructor. unfold late. cbn. lia.
    + discriminate.
    + constructor; [assumption|]. destruct H as [-> | ->]; exact Logic.I.
Qed.
Lemma mvs_inv : forall e w w', inv e w -> mvs w w' -> inv e w'.
Proof. intros e w w' I M. induction M; auto. apply IHM. eapply mv_inv; eauto. Qed.
Lemma mvs_trans : forall a b c, mvs a b -> mvs b c -> mvs a c.
Proof. intros a b c M. induction M; auto. intros N. econstructor; eauto. Qed.
Lemma mvs_1 : forall a b, mv a b -> mvs a b.
Proof. intros a b M. econstructor; [exact M|constructor]. Qed.

(** ** Functions as changes *)
Lemma push_mvs : forall l w, forallb (fun f => negb (structural f)) l = true -> mvs w (push w l).
Proof.
  induction l as [|f l IH]; intros w F; [destruct w; constructor|]. cbn in F. apply andb_prop in F as (F1 & F2). apply negb_true_iff in F1. apply (mvs_trans _ (push w l)); [apply IH, F2|]. apply mvs_1. exact (mv_push (push w l) f F1).
Qed.
Definition calm (w : world) : Prop := forallb is_op (filter structural (v_stack w)) = true.
Lemma abort_mvs : forall w, (rank (v_state w) < 4)%nat \/ calm w -> mvs w (abort w).
Proof.
  intros w C. unfold abort. destruct (v_state w) eqn:E; try constructor 1; apply mvs_1; apply mv_close; auto; rewrite E; try exact Logic.I; cbn; try (left; lia); destruct C as [C|C]; auto; cbn in C; try lia; right; exact C.
Qed.
Lemma close_mvs : forall o w, calm w \/ o = true -> mvs w (close o w).
Proof.
  intros o w C. unfold close. destruct (v_state w) eqn:E; try (apply abort_mvs; rewrite E; cbn; left; lia); try (constructor 1).
  - destruct o; [|apply abort_mvs; rewrite E; cbn; left; lia]. apply mvs_1. apply mv_close; rewrite ?E; cbn; auto.
  - destruct o; [constructor|]. apply abort_mvs. destruct C; [auto|discriminate].
  - destruct o; [constructor|]. apply abort_mvs. destruct C; [auto|discriminate].
Qed.
Lemma down_mvs : forall w, mvs w (interest_down w).
Proof.
  intros w. unfold interest_down. eapply mvs_S; [apply mv_interest|]. cbn [v_state v_interest with_interest]. destruct (v_state w) eqn:E; try constructor 1. destruct (_ =? 0); [|constructor]. apply abort_mvs. left. cbn [v_state with_interest]. rewrite E. cbn. lia.
Qed.
Lemma down_facts : forall w, v_sends (interest_down w) = v_sends w /\ v_sf (interest_down w) = v_sf w /\ v_rf (interest_down w) = v_rf w /\ v_recvs (interest_down w) = v_recvs w /\ (v_state w <> S_IHELLO_SENT -> v_stack (interest_down w) = v_stack w /\ v_state (interest_down w) = v_state w /\ v_log (interest_down w) = v_log w).
Proof.
  intros w. unfold interest_down, abort. cbn [v_state v_interest with_interest]. destruct (v_state w) eqn:E; cbn; auto 8. destruct (_ =? 0); cbn; rewrite ?E; cbn; auto 8; repeat split; auto; congruence.
Qed.
Lemma goto_mvs : forall i w, f_bound (sget w i) = true \/ In (KCloseRest i) (v_stack w) -> mvs w (goto_closed i w).
Proof.
  intros i w C. unfold goto_closed. destruct (_ <? _)%nat; [|constructor]. set (x := mkSf _ 3 false _ _ _ _ _ _ _).
  destruct (f_bound (sget w i)) eqn:B; (eapply mvs_S; [|destruct (f_opening (sget w i)); [apply down_mvs|constructor]]).
  - apply (mv_unbind w i x B eq_refl).
  - apply (mv_shut w i x B eq_refl). destruct C; [discriminate|auto].
Qed.
Lemma goto_sends : forall i w, v_sends (goto_closed i w) = if (f_st (sget w i) <? 3)%nat && f_bound (sget w i) then without i (v_sends w) else v_sends w.
Proof.
  intros i w. unfold goto_closed. destruct (_ <? _)%nat; [|reflexivity]. cbn [andb]. destruct (f_bound (sget w i)), (f_opening (sget w i)); cbn zeta; rewrite ?(proj1 (down_facts _)); reflexivity.
Qed.
Lemma close_send_mvs : forall i w, (f_bound (sget w i) = true -> In i (v_sends w)) -> mvs w (close_send i w).
Proof.
  intros i w I. unfold close_send. cbv zeta. set (f := sget w i). set (x := mkSf false (f_st f) _ _ _ _ _ _ _ _).
  eapply mvs_S; [apply (mv_push w (KCloseRest i) eq_refl)|]. eapply mvs_S; [apply (mv_sf _ i x); [reflexivity|left; reflexivity]|]. set (w1 := sset (push w [KCloseRest i]) i x).
  assert (K : In (KCloseRest i) (v_stack w1)) by (left; reflexivity).
  destruct (f_st f =? 0)%nat eqn:E0.
  - destruct (f_bound f && _ && _) eqn:B; [|apply goto_mvs; auto]. apply andb_prop in B as (B & _). apply andb_prop in B as (B & _). apply Nat.eqb_eq in E0.
    assert (G : sget w1 i = x).
    { unfold w1. rewrite sget_sset, Nat.eqb_refl. destruct (Nat.ltb_spec i (length (v_sf (push w [KCloseRest i])))) as [L|L]; [reflexivity|]. exfalso. unfold f in B. cbn in L. rewrite sget_over in B by exact L. discriminate. }
    apply mvs_1. apply (mv_sf w1 i); [rewrite G; reflexivity|right]. split; [|cbn; lia]. apply I. exact B.
  - destruct (f_bound f && _); [apply goto_mvs; auto|constructor].
Qed.
Lemma close_send_sends : forall i w, (f_bound (sget w i) = true -> (f_st (sget w i) < 3)%nat) -> (In i (v_sends w) -> f_bound (sget w i) = true) -> v_state w <> S_OPEN -> ~ In i (v_sends (close_send i w)).
Proof.
  intros i w B I NO. unfold close_send. cbv zeta. set (f := sget w i) in *. set (x := mkSf false (f_st f) _ _ _ _ _ _ _ _). set (w1 := sset (push w [KCloseRest i]) i x).
  assert (O : is_open (v_state w1) = false) by (cbn; destruct (v_state w); auto; congruence). rewrite O.
  assert (G : f_bound f = true -> sget w1 i = x).
  { intros FB. unfold w1. rewrite sget_sset, Nat.eqb_refl. destruct (Nat.ltb_spec i (length (v_sf (push w [KCloseRest i])))) as [L|L]; [reflexivity|]. exfalso. unfold f in FB. cbn in L. rewrite sget_over in FB by exact L. discriminate. }
  assert (D : f_bound f = true -> ~ In i (v_sends (goto_closed i w1))).
  { intros FB. rewrite goto_sends, (G FB). cbn [f_st f_bound x]. rewrite FB. specialize (B FB). destruct (Nat.ltb_spec (f_st f) 3); [|lia]. cbn [andb]. rewrite in_without. tauto. }
  assert (N : f_bound f = false -> ~ In i (v_sends w)) by (intros FB X; apply I in X; congruence).
  rewrite andb_false_r. cbn [andb negb]. rewrite andb_true_r. destruct (f_bound f) eqn:FB.
  - destruct (f_st f =? 0)%nat; auto.
  - destruct (f_st f =? 0)%nat; [|apply N; reflexivity]. rewrite goto_sends. intros X. apply N; [reflexivity|]. destruct (_ && _); [apply in_without in X as (X & _)|]; exact X.
Qed.
Lemma exception_mvs : forall i w, mvs w (exception_report i w).
Proof.
  intros i w. unfold exception_report. set (x := mkSf _ _ _ _ _ _ _ _ _ _). eapply mvs_S; [apply (mv_sf w i x); [|left]; reflexivity|]. apply push_mvs. destruct (f_exc _); reflexivity.
Qed.
Lemma session_closed_mvs : forall i w, mvs w (flow_session_closed i w).
Proof. intros i w. unfold flow_session_closed. destruct (_ || _); [apply exception_mvs|constructor]. Qed.
Lemma close_recv_mv : forall g w, mv w (close_recv g w).
Proof. intros g w. apply mv_rf; cbn; [discriminate|]. intros ->. reflexivity. Qed.
Lemma bind_mvs : forall i w, (i < length (v_sf w))%nat -> (f_st (sget w i) < 3)%nat -> ~ In (KAssert i) (v_stack w) -> mvs w (bind_flow i w).
Proof.
  intros i w L S N. unfold bind_flow. set (x := mkSf _ _ true _ _ _ _ _ _ _). eapply mvs_S; [apply (mv_bind w i x); auto|].
  destruct (f_opening (sget w i)); [|constructor]. eapply mvs_trans; [apply down_mvs|]. apply mvs_1, mv_sf; [reflexivity|left; reflexivity].
Qed.
Lemma bind_open : forall i w, v_state w = S_OPEN -> v_state (bind_flow i w) = S_OPEN /\ v_stack (bind_flow i w) = v_stack w /\ length (v_sf (bind_flow i w)) = length (v_sf w) /\ forall j, f_st (sget (bind_flow i w) j) = f_st (sget w j).
Proof.
  intros i w O. unfold bind_flow. set (x := mkSf _ _ true _ _ _ _ _ _ _). set (w2 := with_waiting _ _). assert (O2 : v_state w2 = S_OPEN) by exact O.
  assert (G : forall j, f_st (sget w2 j) = f_st (sget w j)) by (intros j; change (sget w2 j) with (sget (sset w i x) j); rewrite sget_sset; destruct (Nat.eqb_spec j i) as [->|]; cbn [andb]; [destruct (i <? length (v_sf w))%nat|]; reflexivity).
  assert (L : length (v_sf w2) = length (v_sf w)) by (apply set_nth_length).
  destruct (f_opening (sget w i)); [|auto]. destruct (down_facts w2) as (_ & D2 & _ & _ & D5). destruct D5 as (D5 & D6 & _); [congruence|]. cbv zeta. cbn [v_state v_stack sset with_sfs]. rewrite D5, D6. split; [exact O2|]. split; [reflexivity|].
  split; [cbn [v_sf sset with_sfs]; rewrite set_nth_length, D2; exact L|]. assert (DG : forall j, sget (interest_down w2) j = sget w2 j) by (intros j; unfold sget; rewrite D2; reflexivity). intros j. rewrite sget_sset, !DG, D2. destruct (Nat.eqb_spec j i) as [->|]; cbn [andb]; [destruct (i <? length (v_sf w2))%nat|]; cbn [f_st]; auto.
Qed.
Lemma set_open_mvs : forall w, inv None w -> v_state w = S_UNKNOWN \/ v_state w = S_KEYING_SENT -> v_stack w = [] -> mvs w (set_open w).
Proof.
  intros w I ST K. unfold set_open. set (w1 := with_index _ _ _ _). eapply mvs_S; [exact (mv_open w (v_reg w) ST K)|]. fold w1.
  assert (H : forall l w1, v_state w1 = S_OPEN -> v_stack w1 = [] -> Forall (fun i => (i < length (v_sf w1))%nat /\ (f_st (sget w1 i) < 3)%nat) l -> mvs w1 (fold_left (fun w i => if f_bound (sget w i) then w else bind_flow i w) l w1)).
  { clear. induction l as [|i l IH]; intros w O K F; [constructor|]. inversion F as [|? ? (F1 & F2) F3]; subst. cbn [fold_left]. destruct (f_bound (sget w i)); [apply IH; auto|].
    destruct (bind_open i w O) as (B1 & B2 & B3 & B4). apply (mvs_trans _ (bind_flow i w)); [apply bind_mvs; auto; rewrite K; auto|]. apply IH; [exact B1|congruence|]. eapply Forall_impl; [|exact F3]. intros j. cbv beta. rewrite B3, B4. auto. }
  apply H; [reflexivity|exact K|]. apply Forall_forall. intros i W. destruct (i_waiting _ _ I i W) as (L & _ & [D|D]); [|rewrite K in D; contradiction]. split; [exact L|]. change (sget w1 i) with (sget w i). lia.
Qed.
Lemma new_bound_mvs : forall e w, inv e w -> mvs w (bind_flow (length (v_sf w)) (with_sfs w (v_sf w ++ [new_sf false]))).
Proof.
  intros e w I. eapply mvs_S; [apply (mv_new w false)|]. apply bind_mvs; cbn [v_sf v_stack with_sfs].
  - rewrite app_length. cbn. lia.
  - rewrite sget_app, Nat.eqb_refl. cbn. lia.
  - intros X. apply (i_low _ _ I) in X. lia.
Qed.
Lemma open_flow_mvs : forall e w, inv e w -> mvs w (open_flow w).
Proof.
  intros e w I. unfold open_flow. destruct (v_indexed w); [eapply new_bound_mvs; eauto|]. destruct (v_opening w); [|constructor].
  eapply mvs_S; [apply (mv_new w true)|]. eapply mvs_S; [apply (mv_wait _ (length (v_sf w)))|apply mvs_1, mv_interest]; rewrite ?sget_app, ?Nat.eqb_refl; auto. cbn. rewrite app_length. cbn. lia.
Qed.
Lemma user_mvs : forall e c w, inv e w -> mvs w (user c w).
Proof.
  intros e c w I. destruct c; cbn [user]; try (apply mvs_1; apply mv_sf; [reflexivity|left; reflexivity]); try (apply mvs_1; apply mv_rf; auto; fail).
  - eapply open_flow_mvs; eauto.
  - destruct (_ && _); [eapply new_bound_mvs; eauto|constructor].
  - apply close_mvs; auto.
  - apply push_mvs. reflexivity.
  - destruct (f_base _); [|constructor]. apply mvs_1; apply mv_sf; [reflexivity|left; reflexivity].
  - apply mvs_1, close_recv_mv.
Qed.
Lemma chunk_mvs : forall c w, inv None w -> calm w -> mvs w (on_chunk c w).
Proof.
  intros c w I C. destruct c as [k assoc reject n done merged|i|i empty| | |]; cbn [on_chunk].
  - destruct (is_open (v_state w)) eqn:O; [|constructor]. assert (ST : v_state w = S_OPEN) by (destruct (v_state w); auto; discriminate). destruct (find_recv k (v_recvs w)) as [g|] eqn:F; [apply push_mvs; destruct reject; reflexivity|].
    cbv zeta. set (x := mkRf _ _ _ _ _ _ _ _ _). eapply mvs_S; [apply (mv_newrf w k x ST)|]. match goal with |- mvs _ (let '(_, _) := ?e in _) => destruct e as (known & must) end. apply push_mvs; rewrite forallb_app; cbn; repeat match goal with |- context [if ?b then _ else _] => destruct b end; reflexivity.
  - destruct (_ && _); [apply exception_mvs|constructor].
  - destruct (_ && _) eqn:A; [|constructor]. cbv zeta. destruct ((f_st (sget w i) =? 1)%nat && empty); [|constructor]. apply andb_prop in A as (_ & A). apply has_in in A. apply mvs_1, mv_sf; [reflexivity|right]. split; [exact A|cbn; lia].
  - destruct (is_open (v_state w)) eqn:O; [|constructor]. apply mvs_1, mv_close; auto. destruct (v_state w); try discriminate. exact Logic.I.
  - destruct (v_state w); try constructor 1; apply abort_mvs; auto.
  - destruct (is_open (v_state w)); [|constructor]. apply push_mvs. reflexivity.
Qed.

(** ** Steps *)
Lemma inv_restack : forall e e' w st, inv e w -> shape w st -> (forall i, In i (v_waiting w) -> In (KCloseRest i) (v_stack w) -> In (KCloseRest i) st) ->
  (forall pre i post, st = pre ++ KAssert i :: post -> In i (v_sends w) -> e' = Some i \/ In (KClose i) pre) -> (forall i, In (KAssert i) st -> (i < length (v_sf w))%nat) ->
  (forall r, told_left r st = told_left r (v_stack w)) -> ((exists r, In (KTold r) (v_stack w)) -> exists r, In (KTold r) st) -> inv e' (popped w st).
Proof.
  intros e e' w st [I1 I2 I3 I4 IL I5 I6 I7 I8 I9 I10] S W A L T K. constructor; cbn [v_sends v_waiting v_state v_stack v_recvs v_sf v_log v_indexed v_opening popped]; auto.
  - intros i X. destruct (I3 i X) as (Y1 & Y2 & [Y3|Y3]); split; auto.
  - eapply shape_same; [| | |exact S]; [reflexivity|reflexivity|auto].
  - intros X. destruct (I6 X) as [Y|(Y & Z)]; auto.
  - intros X. destruct (I7 X) as [Y|[Y|(Y & Z)]]; auto.
  - intros r. rewrite T. apply I8.
Qed.
Lemma shape_pop : forall w f rest, structural f = false -> shape w (f :: rest) -> shape w rest.
Proof. intros w f rest N (cl & ops & E & F & P). cbn in E. rewrite N in E. exists cl, ops. auto. Qed.
Lemma told_left_cons : forall r f rest, told_left r (f :: rest) = (told_left r [f] + told_left r rest)%nat.
Proof. intros. apply (told_left_app r [f] rest). Qed.
Lemma pop_inv : forall w f rest, inv None w -> v_stack w = f :: rest -> structural f = false -> (forall i, f = KCloseRest i -> ~ In i (v_waiting w)) ->
  inv (match f with KClose i => Some i | _ => None end) (popped w rest).
Proof.
  intros w f rest I E N C. pose proof I as [I1 I2 I3 I4 IL I5 I6 I7 I8 I9 I10]. rewrite E in *. apply (inv_restack None); auto; rewrite ?E.
  - eapply shape_pop; eauto.
  - intros i W [X|X]; [|exact X]. exfalso. eapply C; eauto.
  - intros pre i post EP X. destruct (I4 (f :: pre) i post) as [Y|[Y|Y]]; [rewrite EP; reflexivity|exact X|discriminate| |auto]. subst f. auto.
  - intros i X. apply IL. right. exact X.
  - intros r. rewrite told_left_cons. destruct f; try reflexivity; discriminate.
  - intros (r & [X|X]); [subst f; discriminate|eauto].
Qed.
Lemma inv_none : forall i w, inv (Some i) w -> (In i (v_sends w) -> (rank (v_state w) < 4)%nat) -> inv None w.
Proof.
  intros i w [I1 I2 I3 I4 IL I5 I6 I7 I8 I9 I10] N. constructor; auto. intros pre j post E X. destruct (I4 pre j post E X) as [Y|Y]; [|auto]. injection Y as <-. exfalso.
  apply (op_not_assert (v_stack w) i); [eapply early_ops; eauto|]. rewrite E. apply in_elt.
Qed.
Lemma op_pop : forall w f rest l, inv None w -> v_stack w = f :: rest -> is_op f = true -> forallb is_op l = true -> inv None (popped w (l ++ rest)) /\ forallb is_op (filter structural (l ++ rest)) = true.
Proof.
  intros w f rest l I E O L. pose proof I as [I1 I2 I3 I4 IL I5 I6 I7 I8 I9 I10]. rewrite E in *.
  assert (OP : forallb is_op (filter structural rest) = true /\ phase w []).
  { destruct I5 as (cl & ops & EF & F & P). cbn in EF. assert (SF : structural f = true) by (destruct f; try discriminate; reflexivity). rewrite SF in EF.
    destruct P; cbn in EF; try (injection EF as -> EF; discriminate). split; [|constructor; assumption]. subst ops. cbn in F. apply andb_prop in F as (_ & F). exact F. }
  destruct OP as (OP & P). assert (FL : filter structural l = l).
  { clear - L. induction l as [|x l IH]; [reflexivity|]. cbn in *. apply andb_prop in L as (L1 & L2). rewrite IH by exact L2. destruct x; try discriminate; reflexivity. }
  assert (OL : forallb is_op (filter structural (l ++ rest)) = true) by (rewrite filter_app, forallb_app, FL, L; exact OP).
  assert (TL : forall r, told_left r l = 0%nat). { intros r. clear - L. induction l as [|x l IH]; [reflexivity|]. cbn in L. apply andb_prop in L as (L1 & L2). rewrite told_left_cons, IH by exact L2. destruct x; try discriminate; reflexivity. }
  split; [|exact OL]. apply (inv_restack None); auto; rewrite ?E.
  - exists [], (filter structural (l ++ rest)). auto.
  - intros i W [X|X]; [subst f; discriminate|]. apply in_or_app. auto.
  - intros pre i post EP X. exfalso. apply (op_not_assert _ i OL). rewrite EP. apply in_elt.
  - intros i X. exfalso. eapply op_not_assert; eauto.
  - intros r. rewrite told_left_app, TL, told_left_cons. destruct f; try discriminate; reflexivity.
  - intros (r & [X|X]); [subst f; discriminate|]. exists r. apply in_or_app. auto.
Qed.
Lemma push_popped : forall w l rest, push (popped w rest) l = popped w (l ++ rest).
Proof. reflexivity. Qed.

Lemma close_tail : forall w cl ops rest, forallb is_op ops = true -> filter structural rest = cl ++ ops -> phase w cl -> shape w rest.
Proof. intros w cl ops rest F E P. exists cl, ops. auto. Qed.
Lemma no_assert : forall (w : world) rest ops (cl : list frame), forallb is_op ops = true -> (forall i, ~ In (KAssert i) cl) -> filter structural rest = cl ++ ops -> forall i, ~ In (KAssert i) rest.
Proof.
  intros _ rest ops cl F C E i X. assert (Y : In (KAssert i) (filter structural rest)) by (rewrite filter_In; auto). rewrite E in Y. apply in_app_or in Y as [Y|Y]; [eapply C; eauto|]. rewrite forallb_forall in F. apply F in Y. discriminate.
Qed.
(** the frame on top and what is below, when it is one of those of closing *)
Lemma top_phase : forall w f rest, shape w (f :: rest) -> structural f = true -> is_op f = false ->
  exists cl ops, phase w (f :: cl) /\ filter structural rest = cl ++ ops /\ forallb is_op ops = true.
Proof.
  intros w f rest (cl & ops & E & F & P) S N. cbn in E. rewrite S in E. destruct cl as [|x cl].
  - cbn in E. subst ops. cbn in F. rewrite N in F. discriminate.
  - cbn in E. injection E as <- E. exists cl, ops. auto.
Qed.

Section Step.
Variable env : nat -> list ucall * bool.
Lemma step_inv : forall w0, inv None w0 -> v_stack w0 <> [] -> exists w1, wstep env w0 = Ok w1 /\ inv None w1.
Proof.
  intros w0 I NE. pose proof I as [I1 I2 I3 I4 IL I5 I6 I7 I8 I9 I10]. unfold wstep. destruct (v_stack w0) as [|f rest] eqn:E; [congruence|]. clear NE. set (w := popped w0 rest).
  assert (PI : structural f = false -> (forall i, f <> KCloseRest i) -> (forall i, f <> KClose i) -> inv None w).
  { intros N C1 C2. pose proof (pop_inv w0 f rest I E N) as P. destruct f; try (apply P; intros j X; discriminate); try discriminate; [exfalso; eapply C2; reflexivity|exfalso; eapply C1; reflexivity]. }
  destruct f as [l|c|i|i|g error|i|g must|g n done merged|g done|g|sends recvs| |i| |g|k g|release|l|l|l|].
  - (* script *) specialize (PI eq_refl ltac:(discriminate) ltac:(discriminate)). destruct l as [|c l]; [eauto|]. eexists; split; [reflexivity|]. pose proof (mv_inv _ _ _ PI (mv_push w (KScript l) eq_refl)) as J. eapply mvs_inv; [exact J|]. eapply user_mvs; eauto.
  - (* call *) specialize (PI eq_refl ltac:(discriminate) ltac:(discriminate)). eexists; split; [reflexivity|]. eapply mvs_inv; [exact PI|]. eapply mvs_S; [apply mv_pos|]. eapply mvs_S; [apply (mv_push _ (KScript (fst (env (v_pos w)))) eq_refl)|]. apply mvs_1, mv_call.
  - (* close *) eexists; split; [reflexivity|]. pose proof (pop_inv w0 (KClose i) rest I E eq_refl ltac:(discriminate)) as J. cbv beta iota in J. fold w in J.
    assert (M : mvs w (close_send i w)) by (apply close_send_mvs; intros B; apply (i_sends _ _ J); exact B). apply (inv_none i); [eapply mvs_inv; eauto|]. intros X.
    destruct (Nat.lt_ge_cases (rank (v_state (close_send i w))) 4) as [L|L]; [exact L|]. exfalso. revert X. apply close_send_sends; [apply J|apply J|].
    intros O. clear - L O J. unfold close_send in L. cbv zeta in L. remember (sset (push w [KCloseRest i]) i _) as w1 eqn:EW in L. assert (O1 : v_state w1 = S_OPEN) by (subst; exact O).
    assert (G : v_state (goto_closed i w1) = S_OPEN). { unfold goto_closed. destruct (_ <? _)%nat; [|exact O1]. destruct (f_bound (sget w1 i)), (f_opening (sget w1 i)); try exact O1; match goal with |- v_state (interest_down ?x) = _ => destruct (down_facts x) as (_ & _ & _ & _ & D); destruct D as (_ & -> & _); [change (v_state x) with (v_state w1); congruence|exact O1] end. }
    destruct (f_st _ =? 0)%nat; [destruct (_ && _ && _)|destruct (_ && _)]; rewrite ?G in L; try (change (v_state (sset w1 i ?x)) with (v_state w1) in L); rewrite ?O1 in L; cbn in L; lia.
  - (* the rest of close *) eexists; split; [reflexivity|].
    assert (J : inv None (with_waiting w (without i (v_waiting w)))).
    { assert (J0 : inv None (with_waiting w0 (without i (v_waiting w0)))) by (eapply mv_inv; [exact I|apply mv_unwait]). pose proof (pop_inv _ (KCloseRest i) rest J0 E eq_refl) as P. cbv beta iota in P. apply P. intros j X. injection X as <-. cbn. rewrite in_without. tauto. }
    unfold close_rest. cbv zeta. destruct (_ =? 3)%nat; [|exact J]. eapply mv_inv; [exact J|]. set (x := mkSf _ _ _ _ _ _ _ _ _ _). exact (mv_sf (with_waiting w (without i (v_waiting w))) i x eq_refl (or_introl eq_refl)).
  - specialize (PI eq_refl ltac:(discriminate) ltac:(discriminate)). eexists; split; [reflexivity|]. pose proof (mv_inv _ _ _ PI (close_recv_mv g w)) as J. cbv zeta. destruct (_ && _); [|exact J]. eapply mv_inv; [exact J|]. apply (mv_push _ (KCall (CbComplete g error)) eq_refl).
  - specialize (PI eq_refl ltac:(discriminate) ltac:(discriminate)). cbv zeta. destruct (_ && _); [|eauto]. eexists; split; [reflexivity|]. eapply mvs_inv; [exact PI|]. set (x := mkSf _ _ _ _ _ _ _ _ _ _). eapply mvs_S; [apply (mv_sf w i x eq_refl (or_introl eq_refl))|]. apply push_mvs. reflexivity.
  - specialize (PI eq_refl ltac:(discriminate) ltac:(discriminate)). eexists; split; [reflexivity|]. destruct (_ || _); [|exact PI]. eapply mv_inv; [exact PI|]. apply (mv_push _ (KRecvClose g true) eq_refl).
  - specialize (PI eq_refl ltac:(discriminate) ltac:(discriminate)). eexists; split; [reflexivity|]. eapply mvs_inv; [exact PI|]. cbv zeta. set (f := rget w g). set (f1 := if (g_st f =? 0)%nat then _ else f). assert (F1 : g_base f1 = g_base f /\ g_st f1 = g_st f) by (subst f1; destruct (_ =? 0)%nat; auto). clearbody f1.
    match goal with |- mvs _ (push (rset _ _ ?x) _) => eapply mvs_S; [apply (mv_rf w g x)|apply push_mvs; destruct merged; reflexivity] end.
    + destruct F1 as (F1 & F2). destruct (_ && _); cbn [g_base]; rewrite F1; auto.
    + destruct F1 as (F1 & F2). fold f. intros X. rewrite F2, X. cbn [Nat.ltb Nat.leb]. rewrite andb_false_r. congruence.
  - specialize (PI eq_refl ltac:(discriminate) ltac:(discriminate)). cbv zeta. destruct (_ && _ && _).
    + eexists; split; [reflexivity|]. eapply mvs_inv; [exact PI|]. set (x := mkRf _ _ _ _ _ _ _ _ _). eapply mvs_S; [apply (mv_rf w g x); auto|]. apply push_mvs. rewrite forallb_app. destruct (g_msg _); reflexivity.
    + destruct (_ && _); eexists; (split; [reflexivity|]); [|exact PI]. eapply mv_inv; [exact PI|]. apply (mv_push _ (KRecvClose g false) eq_refl).
  - specialize (PI eq_refl ltac:(discriminate) ltac:(discriminate)). eexists; split; [reflexivity|]. cbv zeta. destruct (_ && _); [|exact PI]. eapply mv_inv; [exact PI|]. apply (mv_push _ (KCall (CbMerge g)) eq_refl).
  - specialize (PI eq_refl ltac:(discriminate) ltac:(discriminate)). destruct sends as [|i l]; [destruct recvs as [|g r]; [eauto|]|]; eexists; (split; [reflexivity|]); (eapply mvs_inv; [exact PI|]); apply push_mvs; rewrite forallb_app; match goal with |- context [if ?b then _ else _] => destruct b end; reflexivity.
  - (* send loop *) clear PI. destruct (top_phase w0 _ rest I5 eq_refl eq_refl) as (cl & ops & P & EF & F). inversion P; subst.
    assert (NA : forall i, ~ In (KAssert i) rest) by (apply (no_assert w0 rest ops [KRecvLoop; KTold r]); auto; intros i [X|[X|[]]]; discriminate).
    change (v_sends w) with (v_sends w0). destruct (v_sends w0) as [|i l] eqn:ES.
    + eexists; split; [reflexivity|]. apply (inv_restack None); auto; rewrite ?E.
      * apply (close_tail _ [KRecvLoop; KTold r] ops); auto. constructor. assumption.
      * intros i _ [X|X]; [discriminate|exact X].
      * intros pre i post EP X. rewrite ES in X. contradiction.
      * intros i X. exfalso. eapply NA; eauto.
      * intros q. reflexivity.
      * intros (q & [X|X]); [discriminate|eauto].
    + eexists; split; [reflexivity|]. assert (BI : f_bound (sget w0 i) = true) by (apply I1; rewrite ?ES; left; reflexivity).
      assert (J : inv (Some i) (popped w0 (KAssert i :: KSendLoop :: rest))).
      { apply (inv_restack None); auto; rewrite ?E.
        - apply (close_tail _ (KAssert i :: closing r) ops); auto; [cbn; rewrite EF; reflexivity|constructor; assumption].
        - intros j _ [X|X]; [discriminate|right; right; exact X].
        - intros pre j post EP X. destruct pre as [|a [|b pre]]; cbn in EP; [injection EP as -> _; auto|injection EP as _ EP; discriminate|]. injection EP as _ _ EP. exfalso. apply (NA j). rewrite EP. apply in_elt.
        - intros j [X|[X|X]]; [injection X as <-|discriminate|exfalso; eapply NA; eauto]. destruct (Nat.lt_ge_cases i (length (v_sf w0))) as [L|L]; auto. rewrite sget_over in BI by exact L. discriminate.
        - intros q. reflexivity.
        - intros (q & [X|X]); [discriminate|exists q; right; right; exact X]. }
      change (push w [KAssert i; KSendLoop]) with (popped w0 (KAssert i :: KSendLoop :: rest)). remember (popped w0 (KAssert i :: KSendLoop :: rest)) as w2 eqn:E2.
      unfold flow_session_closed. assert (B2 : f_bound (sget w2 i) = true) by (subst; exact BI). rewrite B2. cbn [orb].
      pose proof (mvs_inv _ _ _ J (exception_mvs i w2)) as J2. destruct J2 as [A1 A2 A3 A4 AL A5 A6 A7 A8 A9 A10]. constructor; auto.
      intros pre j post EP X. destruct (A4 pre j post EP X) as [Y|Y]; [|auto]. injection Y as <-. right. unfold exception_report in EP. cbn [push v_stack app] in EP. destruct pre as [|a pre]; cbn in EP; [discriminate|]. injection EP as <- _. left. reflexivity.
  - (* assertion *) clear PI. destruct (top_phase w0 _ rest I5 eq_refl eq_refl) as (cl & ops & P & EF & F). inversion P; subst.
    assert (NA : forall i, ~ In (KAssert i) rest) by (apply (no_assert w0 rest ops (closing r)); auto; intros j [X|[X|[X|[]]]]; discriminate).
    change (v_sends w) with (v_sends w0). destruct (has i (v_sends w0)) eqn:H.
    + exfalso. apply has_in in H. destruct (I4 [] i rest eq_refl H) as [X|[]]. discriminate.
    + eexists; split; [reflexivity|]. apply (inv_restack None); auto; rewrite ?E.
      * apply (close_tail _ (closing r) ops); auto. constructor. assumption.
      * intros j _ [X|X]; [discriminate|exact X].
      * intros pre j post EP X. exfalso. apply (NA j). rewrite EP. apply in_elt.
      * intros j X. exfalso. eapply NA; eauto.
      * intros q. reflexivity.
      * intros (q & [X|X]); [discriminate|eauto].
  - (* receive loop *) clear PI. destruct (top_phase w0 _ rest I5 eq_refl eq_refl) as (cl & ops & P & EF & F). inversion P; subst.
    assert (NA : forall i, ~ In (KAssert i) rest) by (apply (no_assert w0 rest ops [KTold r]); auto; intros i [X|[]]; discriminate).
    change (v_recvs w) with (v_recvs w0). destruct (v_recvs w0) as [|(k & g) l] eqn:ER.
    + eexists; split; [reflexivity|]. apply (inv_restack None); auto; rewrite ?E.
      * apply (close_tail _ [KTold r] ops); auto. constructor; assumption.
      * intros i _ [X|X]; [discriminate|exact X].
      * intros pre i post EP X. exfalso. apply (NA i). rewrite EP. apply in_elt.
      * intros i X. exfalso. eapply NA; eauto.
      * intros q. reflexivity.
      * intros (q & [X|X]); [discriminate|eauto].
    + eexists; split; [reflexivity|]. change (push w [KRecvClose g true; KAborted g; KErase k g; KRecvLoop]) with (popped w0 (KRecvClose g true :: KAborted g :: KErase k g :: KRecvLoop :: rest)).
      assert (NB : forall i, ~ In (KAssert i) (KRecvClose g true :: KAborted g :: KErase k g :: KRecvLoop :: rest)) by (intros i [X|[X|[X|[X|X]]]]; try discriminate; eapply NA; eauto).
      apply (inv_restack None); auto; rewrite ?E.
      * apply (close_tail _ [KAborted g; KErase k g; KRecvLoop; KTold r] ops); auto; [cbn; rewrite EF; reflexivity|]. constructor; [assumption|]. rewrite ER. cbn. rewrite Z.eqb_refl. reflexivity.
      * intros i _ [X|X]; [discriminate|do 4 right; exact X].
      * intros pre i post EP X. exfalso. apply (NB i). rewrite EP. apply in_elt.
      * intros i X. exfalso. eapply NB; eauto.
      * intros q. reflexivity.
      * intros (q & [X|X]); [discriminate|exists q; do 4 right; exact X].
  - (* aborted *) clear PI. destruct (top_phase w0 _ rest I5 eq_refl eq_refl) as (cl & ops & P & EF & F). inversion P; subst.
    assert (NA : forall i, ~ In (KAssert i) rest) by (apply (no_assert w0 rest ops [KErase k g; KRecvLoop; KTold r]); auto; intros i [X|[X|[X|[]]]]; discriminate).
    eexists; split; [reflexivity|]. set (x := mkRf _ _ _ _ _ _ _ _ _). pose proof (mv_inv _ _ _ I (mv_rf w0 g x (fun H => H) (fun _ => eq_refl))) as J.
    change (rset w g x) with (popped (rset w0 g x) rest). apply (inv_restack None _ _ rest J); cbn [rset with_rfs v_stack v_sends v_sf]; rewrite ?E; auto.
    + apply (close_tail _ [KErase k g; KRecvLoop; KTold r] ops); auto. constructor; auto. rewrite rget_rset, Nat.eqb_refl. destruct (Nat.ltb_spec g (length (v_rf w0))) as [L|L]; [reflexivity|]. unfold rget. rewrite nth_overflow by exact L. reflexivity.
    + intros i _ [X|X]; [discriminate|exact X].
    + intros pre i post EP X. exfalso. apply (NA i). rewrite EP. apply in_elt.
    + intros i X. exfalso. eapply NA; eauto.
    + intros (q & [X|X]); [discriminate|eauto].
  - (* erase *) clear PI. destruct (top_phase w0 _ rest I5 eq_refl eq_refl) as (cl & ops & P & EF & F). inversion P; subst. rename H2 into LT, H3 into FR, H4 into G3.
    assert (NA : forall i, ~ In (KAssert i) rest) by (apply (no_assert w0 rest ops [KRecvLoop; KTold r]); auto; intros i [X|[X|[]]]; discriminate).
    change (v_recvs w) with (v_recvs w0). rewrite FR, Nat.eqb_refl. eexists; split; [reflexivity|].
    assert (J : inv None (popped w0 rest)).
    { apply (inv_restack None); auto; rewrite ?E.
      - apply (close_tail _ [KRecvLoop; KTold r] ops); auto. constructor. assumption.
      - intros i _ [X|X]; [discriminate|exact X].
      - intros pre i post EP X. exfalso. apply (NA i). rewrite EP. apply in_elt.
      - intros i X. exfalso. eapply NA; eauto.
      - intros q. reflexivity.
      - intros (q & [X|X]); [discriminate|eauto]. }
    fold w in J. destruct J as [A1 A2 A3 A4 AL A5 A6 A7 A8 A9 A10]. constructor; auto.
    + apply (close_tail _ [KRecvLoop; KTold r] ops); auto. constructor. assumption.
    + intros j. change (rget (with_recvs w ?x) j) with (rget w j). destruct (A10 j) as [X|X]; [|auto]. cbn [v_recvs with_recvs]. destruct (drop_key_in k _ g j FR X) as [Y|Y]; [auto|]. subst j. right. right. exact G3.
  - (* told *) clear PI. destruct (top_phase w0 _ rest I5 eq_refl eq_refl) as (cl & ops & P & EF & F). inversion P; subst. cbn in EF.
    assert (NA : forall i, ~ In (KAssert i) rest) by (apply (no_assert w0 rest ops []); auto).
    eexists; split; [reflexivity|]. constructor; cbn [v_sends v_waiting v_state v_stack v_recvs v_sf v_log v_indexed v_opening push with_log with_index popped w app]; auto.
    + intros i X. destruct (I3 i X) as (Y1 & Y2 & Y3). split; [exact Y1|]. split; [exact Y2|]. destruct Y3 as [Y3|[Y3|Y3]]; [auto|discriminate|right; right; exact Y3].
    + intros pre i post EP X. exfalso. destruct pre as [|a pre]; cbn in EP; [discriminate|]. injection EP as _ EP. apply (NA i). rewrite EP. apply in_elt.
    + intros i [X|X]; [discriminate|]. exfalso. eapply NA; eauto.
    + apply (close_tail _ [KWaiting (v_waiting w0)] ops); auto; [cbn; rewrite EF; reflexivity|]. constructor; assumption.
    + discriminate.
    + discriminate.
    + intros q. specialize (I8 q). rewrite told_left_cons in *. change (told_left q [KWaiting (v_waiting w0)]) with 0%nat. unfold told, entered, told_left in *. cbn [filter] in *. destruct (Bool.eqb release q); cbn [length] in *; lia.
    + constructor. exact I9.
  - (* waiting *) clear PI. destruct (top_phase w0 _ rest I5 eq_refl eq_refl) as (cl & ops & P & EF & F). inversion P; subst. cbn in EF.
    assert (NA : forall i, ~ In (KAssert i) rest) by (apply (no_assert w0 rest ops []); auto).
    assert (J : forall l', inv None (popped w0 ((match l with [] => [] | _ => [KWaiting l'] end) ++ rest))).
    { intros l'. assert (NB : forall i, ~ In (KAssert i) ((match l with [] => [] | _ => [KWaiting l'] end) ++ rest)) by (intros i X; apply in_app_or in X as [X|X]; [destruct l; [contradiction|]; destruct X as [X|[]]; discriminate|eapply NA; eauto]).
      apply (inv_restack None); auto; rewrite ?E.
      - destruct l; cbn [app]; [apply (close_tail _ [] ops); auto; constructor; auto|]. apply (close_tail _ [KWaiting l'] ops); auto; [cbn; rewrite EF; reflexivity|]. constructor; assumption.
      - intros i _ [X|X]; [discriminate|]. apply in_or_app. auto.
      - intros pre i post EP X. exfalso. apply (NB i). rewrite EP. apply in_elt.
      - intros i X. exfalso. eapply NB; eauto.
      - intros q. destruct l; reflexivity.
      - intros (q & [X|X]); [discriminate|]. exists q. apply in_or_app. auto. }
    destruct l as [|i l]; [eexists; split; [reflexivity|exact (J [])]|]. eexists; split; [reflexivity|]. specialize (J l). cbn [app] in J. change (push w [KWaiting l]) with (popped w0 (KWaiting l :: rest)). cbv zeta. destruct (has i _); [|exact J]. eapply mvs_inv; [exact J|]. apply session_closed_mvs.
  - (* chunks *) clear PI. destruct l as [|c l]; eexists; (split; [reflexivity|]).
    + destruct (op_pop w0 _ rest [] I E eq_refl eq_refl) as (J & _). exact J.
    + destruct (op_pop w0 _ rest [KChunks l] I E eq_refl eq_refl) as (J & C). eapply mvs_inv; [exact J|]. apply (chunk_mvs c (push w [KChunks l]) J C).
  - (* moved *) clear PI. destruct l as [|i l].
    + eexists; split; [reflexivity|]. destruct (op_pop w0 _ rest [] I E eq_refl eq_refl) as (J & _). exact J.
    + destruct (op_pop w0 _ rest [KMoved l] I E eq_refl eq_refl) as (J & C). change (push w [KMoved l]) with (popped w0 ([KMoved l] ++ rest)). remember (popped w0 ([KMoved l] ++ rest)) as w2 eqn:E2. cbv zeta. destruct (_ && _); eexists; (split; [reflexivity|]); [|exact J].
      eapply mvs_inv; [exact J|]. set (x := mkSf _ _ _ _ _ _ _ _ _ _). eapply mvs_S; [apply (mv_sf w2 i x eq_refl (or_introl eq_refl))|]. eapply mvs_S; [apply (mv_unwait (sset w2 i x) i)|]. apply down_mvs.
  - (* abort *) clear PI. eexists; split; [reflexivity|]. destruct (op_pop w0 _ rest [] I E eq_refl eq_refl) as (J & C). eapply mvs_inv; [exact J|]. apply abort_mvs. right. exact C.
Qed.
End Step.

(** ** Operations and runs *)
Lemma ops_inv : forall w l, inv None w -> v_stack w = [] -> forallb is_op l = true -> inv None (push w l).
Proof.
  intros w l I K L. pose proof I as [I1 I2 I3 I4 IL I5 I6 I7 I8 I9 I10]. change (push w l) with (popped w (l ++ v_stack w)). rewrite K, app_nil_r.
  assert (FL : filter structural l = l). { clear - L. induction l as [|x l IH]; [reflexivity|]. cbn in *. apply andb_prop in L as (L1 & L2). rewrite IH by exact L2. destruct x; try discriminate; reflexivity. }
  assert (NA : forall i, ~ In (KAssert i) l) by (intros i; apply op_not_assert; rewrite FL; exact L).
  apply (inv_restack None); auto; rewrite ?K.
  - apply (close_tail _ [] l); auto. destruct I5 as (cl & ops & E & F & P). rewrite K in E. destruct cl; [exact P|discriminate].
  - intros i _ [].
  - intros pre i post EP X. exfalso. apply (NA i). rewrite EP. apply in_elt.
  - intros i X. exfalso. eapply NA; eauto.
  - intros r. clear - L. induction l as [|x l IH]; [reflexivity|]. cbn in L. apply andb_prop in L as (L1 & L2). specialize (IH L2). rewrite told_left_cons, IH. destruct x; try discriminate; reflexivity.
  - intros (q & []).
Qed.
Lemma op_inv : forall o w, inv None w -> v_stack w = [] -> inv None (do_op o w).
Proof.
  intros o w I K. assert (C : calm w) by (unfold calm; rewrite K; reflexivity).
  destruct o as [|existing moved| | |l|l| |orderly| | |i|g done|i|k]; cbn [do_op].
  - destruct (v_state w) eqn:S; try exact I. eapply mv_inv; [exact I|]. apply mv_hello; auto.
  - destruct (v_state w) eqn:S; try exact I. destruct existing; [apply ops_inv; auto|]. eapply mv_inv; [exact I|]. apply mv_keying; auto.
  - destruct (v_state w) eqn:S; try exact I. eapply mvs_inv; [exact I|]. apply set_open_mvs; auto.
  - destruct (v_state w) eqn:S; try exact I. eapply mvs_inv; [exact I|]. apply set_open_mvs; auto.
  - eapply mv_inv; [exact I|]. apply (mv_push w (KScript l) eq_refl).
  - apply ops_inv; auto.
  - eapply mvs_inv; [exact I|]. apply abort_mvs; auto.
  - eapply mvs_inv; [exact I|]. apply close_mvs; auto.
  - destruct (_ && _); [|exact I]. eapply mvs_inv; [exact I|]. apply close_mvs; auto.
  - destruct (is_open _); [|exact I]. eapply mvs_inv; [exact I|]. apply close_mvs; auto.
  - eapply mv_inv; [exact I|]. apply (mv_push w (KWritable i) eq_refl).
  - eapply mv_inv; [exact I|]. match goal with |- mv _ (push _ [?f]) => apply (mv_push w f eq_refl) end.
  - destruct (f_st (sget w i) =? 2)%nat eqn:E2; [|exact I]. apply Nat.eqb_eq in E2. destruct (f_bound (sget w i)) eqn:B; [eapply mvs_inv; [exact I|]; apply goto_mvs; auto|].
    (* lingering, but not bound any more *)
    eapply mvs_inv; [exact I|]. unfold goto_closed. rewrite E2, B. cbn [Nat.ltb Nat.leb]. set (x := mkSf _ 3 false _ _ _ _ _ _ _).
    eapply mvs_S; [apply (mv_shut w i x B eq_refl); right; intros W; destruct (i_waiting _ _ I i W) as (_ & _ & [X|X]); [congruence|rewrite K in X; contradiction]|]. destruct (f_opening _); [apply down_mvs|constructor].
  - destruct (find_recv k (v_recvs w)) as [g|] eqn:F; [|exact I]. cbv zeta. destruct (_ =? 2)%nat; [|exact I]. set (x := mkRf _ _ _ _ _ _ _ _ _).
    pose proof (mv_inv _ _ _ I (mv_rf w g x (fun H => H) (fun _ => eq_refl))) as J. pose proof J as [A1 A2 A3 A4 AL A5 A6 A7 A8 A9 A10]. constructor; auto.
    + destruct A5 as (cl & ops & E & FO & P). change (v_stack (rset w g x)) with (v_stack w) in E. rewrite K in E. cbn in E. destruct cl; [|discriminate]. exists [], ops. split; [cbn; rewrite K; exact E|]. split; [exact FO|]. constructor. inversion P. intros L. specialize (H L). cbn [v_recvs rset with_rfs with_recvs] in *. rewrite H. reflexivity.
    + intros j. change (rget (with_recvs ?a _) j) with (rget a j). destruct (A10 j) as [X|X]; [|auto]. cbn [v_recvs with_recvs]. destruct (drop_key_in k _ g j F X) as [Y|Y]; [auto|]. subst j. right. right. rewrite rget_rset, Nat.eqb_refl. destruct (Nat.ltb_spec g (length (v_rf w))) as [L|L]; [reflexivity|]. unfold rget. rewrite nth_overflow by exact L. reflexivity.
Qed.
