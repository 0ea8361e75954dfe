From Coq Require Import QArith Qround Lqa.
From Verif Require Import Base BaseFacts TCConn TCConnSpec.
From Coq Require Import Lia Arith.
Open Scope Z_scope.

Lemma Ok_inj : forall (A : Type) (a b : A), Ok a = Ok b -> a = b.
Proof. intros A a b E. injection E. auto. Qed.
Lemma set_nth_length : forall (A : Type) (l : list A) i x, length (set_nth l i x) = length l.
Proof. induction l as [|y l IH]; intros [|i] x; cbn; auto. Qed.
Lemma set_nth_nth : forall (A : Type) (l : list A) i j x d, nth j (set_nth l i x) d = if ((j =? i) && (i <? length l))%nat then x else nth j l d.
Proof. induction l as [|y l IH]; intros [|i] [|j] x d; cbn; try reflexivity; try (rewrite ?andb_false_r; reflexivity). rewrite IH. reflexivity. Qed.
Lemma get_put : forall c i j x, get (put c i x) j = if ((j =? i) && (i <? length (t_str c)))%nat then x else get c j.
Proof. intros. apply set_nth_nth. Qed.
Lemma get_over : forall c i, (length (t_str c) <= i)%nat -> get c i = str0.
Proof. intros. apply nth_overflow. assumption. Qed.
Lemma erase_in : forall (A : Type) k (l : list (Z * A)) e, In e (erase k l) <-> In e l /\ fst e <> k.
Proof. intros. unfold erase. rewrite filter_In, negb_true_iff, Z.eqb_neq. tauto. Qed.
Lemma find_in : forall (A : Type) k (l : list (Z * A)) a, find k l = Some a -> In (k, a) l.
Proof. induction l as [|(k' & b) l IH]; intros a; cbn; [discriminate|]. destruct (Z.eqb_spec k k') as [->|N]; [intros E; injection E as ->; auto|auto]. Qed.
Lemma find_none : forall (A : Type) k (l : list (Z * A)) a, find k l = None -> ~ In (k, a) l.
Proof. induction l as [|(k' & b) l IH]; intros a; cbn; [tauto|]. destruct (Z.eqb_spec k k') as [->|N]; [discriminate|]. intros E [X|X]; [congruence|]. eapply IH; eauto. Qed.
Lemma find_some : forall (A : Type) k (l : list (Z * A)) a, In (k, a) l -> find k l <> None.
Proof. intros A k l a H E. eapply find_none; eauto. Qed.

(** ** Transactions *)
Fixpoint ascending (lo : Z) (l : list (Z * tx)) : Prop := match l with [] => True | e :: r => lo <= fst e /\ ascending (fst e + 1) r end.
Definition below (hi : Z) (l : list (Z * tx)) : Prop := Forall (fun e => fst e < hi) l.
Lemma asc_weaken : forall l a b, a <= b -> ascending b l -> ascending a l.
Proof. intros [|e l] a b L; cbn; [auto|]. intros (H & R). split; [lia|exact R]. Qed.
Lemma asc_low : forall l a e, ascending a l -> In e l -> a <= fst e.
Proof. induction l as [|x l IH]; intros a e A []; cbn in A; destruct A as (A1 & A2); [subst; exact A1|]. specialize (IH _ _ A2 H). lia. Qed.
Lemma asc_app : forall l a hi t, ascending a l -> below hi l -> a <= hi -> ascending a (l ++ [(hi, t)]).
Proof. induction l as [|x l IH]; intros a hi t A B L; cbn in *; [split; [exact L|exact Logic.I]|]. inversion B; subst. destruct A as (A1 & A2). split; [exact A1|]. apply IH; auto. lia. Qed.
Lemma asc_filter : forall f l a, ascending a l -> ascending a (filter f l).
Proof. induction l as [|x l IH]; intros a A; cbn in *; [exact Logic.I|]. destruct A as (A1 & A2). destruct (f x); cbn; [split; auto|]. apply (asc_weaken _ a (fst x + 1)); [lia|auto]. Qed.
Definition cnt (tid : Z) (l : list (Z * tx)) : nat := length (filter (fun e => (fst e =? tid) && has_handler (snd e)) l).
Lemma cnt_app : forall tid a b, cnt tid (a ++ b) = (cnt tid a + cnt tid b)%nat.
Proof. intros. unfold cnt. rewrite filter_app, app_length. reflexivity. Qed.
Lemma cnt_none : forall tid l, (forall e, In e l -> fst e <> tid) -> cnt tid l = 0%nat.
Proof. intros tid l. induction l as [|x l IH]; intros H; [reflexivity|]. unfold cnt in *. cbn. destruct (Z.eqb_spec (fst x) tid) as [E|N]; [exfalso; eapply H; [left; reflexivity|exact E]|]. cbn. apply IH. intros e I. apply H. right. exact I. Qed.
Lemma cnt_cons : forall tid e l, cnt tid (e :: l) = ((if ((fst e =? tid)%Z && has_handler (snd e))%bool then 1 else 0) + cnt tid l)%nat.
Proof. intros. unfold cnt. cbn. destruct (_ && _); reflexivity. Qed.
(** taking out the element with a key *)
Lemma cnt_erase : forall l a k t tid, ascending a l -> find k l = Some t -> cnt tid l = ((if ((k =? tid)%Z && has_handler t)%bool then 1 else 0) + cnt tid (erase k l))%nat.
Proof.
  induction l as [|(k' & t') l IH]; intros a k t tid A F; [discriminate|]. cbn in A, F. destruct A as (A1 & A2). unfold erase. cbn [filter fst]. destruct (Z.eqb_spec k k') as [->|N].
  - injection F as ->. rewrite Z.eqb_refl. cbn [negb]. rewrite cnt_cons. cbn [fst snd]. f_equal. f_equal. clear - A2. assert (H : forall e, In e l -> fst e <> k') by (intros e I; pose proof (asc_low _ _ _ A2 I); lia). clear A2.
    induction l as [|x l IH]; [reflexivity|]. cbn. destruct (Z.eqb_spec (fst x) k') as [E|_]; [exfalso; eapply H; [left; reflexivity|exact E]|]. cbn. f_equal. apply IH. intros e I. apply H. right. exact I.
  - destruct (Z.eqb_spec k' k); [congruence|]. cbn [negb]. rewrite !cnt_cons. specialize (IH _ _ _ tid A2 F). unfold erase in IH. rewrite IH. lia.
Qed.
(** the loop over the transactions *)
Lemma after_split : forall l a k t, ascending a l -> find k l = Some t -> filter (fun e => k <=? fst e) l = (k, t) :: filter (fun e => k <? fst e) l.
Proof.
  induction l as [|(k' & t') l IH]; intros a k t A F; [discriminate|]. cbn [filter fst] in *. cbn in A, F. destruct A as (A1 & A2). destruct (Z.eqb_spec k k') as [->|N].
  - injection F as ->. destruct (Z.leb_spec k' k'); [|lia]. destruct (Z.ltb_spec k' k'); [lia|]. f_equal. clear - A2. assert (H : forall e, In e l -> k' < fst e) by (intros e I; pose proof (asc_low _ _ _ A2 I); lia). clear A2.
    induction l as [|x l IH]; [reflexivity|]. cbn. specialize (H x (or_introl eq_refl)) as Hx. destruct (Z.leb_spec k' (fst x)); [|lia]. destruct (Z.ltb_spec k' (fst x)); [|lia]. f_equal. apply IH. intros e I. apply H. right. exact I.
  - pose proof (asc_low _ _ _ A2 (find_in _ _ _ _ F)) as L. cbn in L. destruct (Z.leb_spec k k'); [lia|]. destruct (Z.ltb_spec k k'); [lia|]. eapply IH; eauto.
Qed.
Definition pend_at (k : option Z) (l : list (Z * tx)) : list (Z * tx) := match k with None => [] | Some k => filter (fun e => k <=? fst e) l end.
Lemma first_pend : forall l a, ascending a l -> pend_at (first_key l) l = l.
Proof.
  intros [|e l] a A; [reflexivity|]. cbn in A |- *. rewrite Z.leb_refl. destruct A as (_ & A). f_equal. assert (H : forall x, In x l -> fst e < fst x) by (intros x I; pose proof (asc_low _ _ _ A I); lia). clear A.
  induction l as [|x l IH]; [reflexivity|]. cbn. specialize (H x (or_introl eq_refl)) as Hx. destruct (Z.leb_spec (fst e) (fst x)); [|lia]. f_equal. apply IH. intros y I. apply H. right. exact I.
Qed.
Lemma after_pend : forall l a k, ascending a l -> pend_at (key_after k l) l = filter (fun e => k <? fst e) l.
Proof.
  intros l a k A. unfold key_after. destruct (filter (fun e => k <? fst e) l) as [|(k' & t) r] eqn:E; [reflexivity|]. cbn [pend_at fst].
  revert a A E. induction l as [|(k2 & t2) l IH]; intros a A E; [discriminate|]. cbn [filter fst] in *. cbn in A. destruct A as (A1 & A2). destruct (Z.ltb_spec k k2) as [L|L].
  - injection E as -> -> E. rewrite Z.leb_refl. f_equal. rewrite <- E. assert (H : forall x, In x l -> k' < fst x) by (intros x I; pose proof (asc_low _ _ _ A2 I); lia). clear - H L.
    induction l as [|x l IH]; [reflexivity|]. cbn. specialize (H x (or_introl eq_refl)) as Hx. destruct (Z.leb_spec k' (fst x)); [|lia]. destruct (Z.ltb_spec k (fst x)); [|lia]. f_equal. apply IH. intros y I. apply H. right. exact I.
  - assert (In (k', t) (filter (fun e => k <? fst e) l)) by (rewrite E; left; reflexivity). apply filter_In in H as (H1 & H2). pose proof (asc_low _ _ _ A2 H1). cbn in *. apply Z.ltb_lt in H2. destruct (Z.leb_spec k' k2); [lia|]. eapply IH; eauto.
Qed.
Lemma key_found : forall k l tid, key_after k l = Some tid -> find tid l <> None.
Proof. intros k l tid E. unfold key_after in E. destruct (filter _ l) as [|(k' & t) r] eqn:F; [discriminate|]. injection E as <-. assert (H : In (k', t) (filter (fun e => k <? fst e) l)) by (rewrite F; left; reflexivity). apply filter_In in H as (H & _). eapply find_some; eauto. Qed.
Lemma first_found : forall l tid, first_key l = Some tid -> find tid l <> None.
Proof. intros [|(k & t) l] tid E; [discriminate|]. injection E as <-. cbn. rewrite Z.eqb_refl. discriminate. Qed.

(** ** The invariant *)
Definition structural (f : frame) : bool := match f with KClose2 | KTxAt _ | KTxNext _ | KClear | KStreams | KAssert | KOnClose _ => true | _ => false end.
Definition tail (b : bool) : list frame := [KClear; KStreams; KAssert; KOnClose b].
Inductive phase (d : bool) (c : conn) : list frame -> Prop :=
| ph_open : t_open c = true -> phase d c []
| ph_done : t_open c = false -> t_txs c = [] -> t_streams c = [] -> phase d c []
| ph_1 : t_open c = false -> phase d c [KClose2]
| ph_2 : forall k b, t_open c = false -> (forall tid, k = Some tid -> find tid (t_txs c) <> None) -> phase d c (KTxAt k :: tail b)
| ph_3 : forall k b, t_open c = false -> find k (t_txs c) <> None -> phase d c (KTxNext k :: tail b)
| ph_4 : forall b, t_open c = false -> phase d c (tail b)
| ph_5 : forall b, t_open c = false -> t_txs c = [] -> phase d c [KStreams; KAssert; KOnClose b]
| ph_6 : forall b, t_open c = false -> t_txs c = [] -> (d = true -> t_streams c = []) -> phase d c [KAssert; KOnClose b]
| ph_7 : forall b, t_open c = false -> t_txs c = [] -> t_streams c = [] -> phase d c [KOnClose b].
(** what is still to be handled *)
Definition pend (l : list frame) (txs : list (Z * tx)) : list (Z * tx) :=
  match l with
  | [] | KClose2 :: _ => txs
  | KTxAt k :: _ => pend_at k txs
  | KTxNext k :: _ => filter (fun e => k <? fst e) txs
  | _ => []
  end.
Definition closing c : list frame := filter structural (t_stack c).
Record streams_ok (c : conn) : Prop := mkSI {
  so_map : forall id i, In (id, i) (t_streams c) -> id <> 0 /\ s_id (get c i) = id /\ (i < length (t_str c))%nat;
  so_tx : forall tid i, In (tid, TxStream i) (t_txs c) -> (i < length (t_str c))%nat /\ s_id (get c i) = 0;
  so_one : forall a b i, In (a, TxStream i) (t_txs c) -> In (b, TxStream i) (t_txs c) -> a = b }.
Record inv (d : bool) (c : conn) : Prop := mkInv {
  j_phase : phase d c (closing c);
  j_asc : ascending 1 (t_txs c); j_below : below (t_next c) (t_txs c); j_next : 1 <= t_next c;
  j_count : forall tid, (handled tid (t_log c) + cnt tid (pend (closing c) (t_txs c)) = registered tid (t_log c))%nat;
  j_reg : forall tid, (registered tid (t_log c) <= if (tid <? t_next c)%Z then 1 else 0)%nat;
  j_str : d = true -> streams_ok c }.

(** changes that leave the transactions alone *)
Record mild (c c1 : conn) : Prop := mkMild {
  m_open : t_open c1 = t_open c; m_txs : t_txs c1 = t_txs c; m_next : t_next c1 = t_next c; m_closing : closing c1 = closing c;
  m_streams : t_streams c = [] -> t_streams c1 = [];
  m_handled : forall tid, handled tid (t_log c1) = handled tid (t_log c); m_reg : forall tid, registered tid (t_log c1) = registered tid (t_log c) }.
Lemma phase_same : forall d c c1 l, t_open c1 = t_open c -> t_txs c1 = t_txs c -> (t_streams c = [] -> t_streams c1 = []) -> phase d c l -> phase d c1 l.
Proof. intros d c c1 l O T S P. destruct P; rewrite <- ?O in *; rewrite <- ?T in *; try (constructor; auto; fail). Qed.
Lemma mild_inv : forall d c c1, inv d c -> mild c c1 -> (d = true -> streams_ok c1) -> inv d c1.
Proof.
  intros d c c1 [I1 I2 I3 I4 I5 I6 I7] [M1 M2 M3 M4 M5 M6 M7] S. constructor; rewrite ?M2, ?M3, ?M4; auto.
  - eapply phase_same; eauto.
  - intros tid. rewrite M6, M7. apply I5.
  - intros tid. rewrite M7. apply I6.
Qed.
Lemma mild_trans : forall a b c, mild a b -> mild b c -> mild a c.
Proof. intros a b c [A1 A2 A3 A4 A5 A6 A7] [B1 B2 B3 B4 B5 B6 B7]. constructor; try congruence; auto. Qed.
Lemma mild_push : forall l c, forallb (fun f => negb (structural f)) l = true -> mild c (push c l).
Proof.
  intros l c F. constructor; auto. unfold closing, push. cbn. rewrite filter_app. assert (E : filter structural l = []); [|rewrite E; reflexivity]. induction l as [|f l IH]; [reflexivity|]. cbn in *. apply andb_prop in F as (F1 & F2). apply negb_true_iff in F1. rewrite F1. auto.
Qed.
Lemma so_push : forall l c, streams_ok c -> streams_ok (push c l).
Proof. intros l c [A B C]. constructor; auto. Qed.
(** changes to a stream that leave its ID alone *)
Lemma put_mild : forall c i x, mild c (put c i x).
Proof. intros. constructor; auto. Qed.
Lemma so_put : forall c i x, streams_ok c -> s_id x = s_id (get c i) -> streams_ok (put c i x).
Proof.
  intros c i x [A B C] E. assert (G : forall j, s_id (get (put c i x) j) = s_id (get c j)) by (intros j; rewrite get_put; destruct (Nat.eqb_spec j i) as [->|]; cbn [andb]; [destruct (_ <? _)%nat; auto|auto]).
  constructor; auto.
  - intros id j H. rewrite G. cbn [put with_strs t_str]. rewrite set_nth_length. apply A. exact H.
  - intros tid j H. rewrite G. cbn [put with_strs t_str]. rewrite set_nth_length. eapply B; exact H.
Qed.
Lemma delete_mild : forall id c, mild c (conn_delete id c).
Proof. intros. constructor; auto. cbn. intros ->. reflexivity. Qed.
Lemma so_delete : forall id c, streams_ok c -> streams_ok (conn_delete id c).
Proof. intros id c [A B C]. constructor; auto. cbn. intros k i H. apply erase_in in H as (H & _). apply A. exact H. Qed.
Lemma stream_delete_mild : forall i c, mild c (stream_delete i c).
Proof. intros i c. unfold stream_delete. cbv zeta. destruct (_ =? 0); [apply put_mild|]. eapply mild_trans; [apply delete_mild|apply put_mild]. Qed.
Lemma so_stream_delete : forall i c, streams_ok c -> streams_ok (stream_delete i c).
Proof.
  intros i c S. pose proof S as [A B C]. unfold stream_delete. cbv zeta. destruct (Z.eqb_spec (s_id (get c i)) 0) as [E|N]; [apply so_put; auto; cbn; auto|].
  set (x := mkStr false 0 false false false false false). set (c1 := conn_delete (s_id (get c i)) c). assert (G : forall j, get (put c1 i x) j = if ((j =? i) && (i <? length (t_str c)))%nat then x else get c j) by (intros; apply (get_put c1)).
  constructor; auto.
  - intros id j H. cbn [put with_strs t_streams c1 conn_delete with_streams] in H. apply erase_in in H as (H & H2). destruct (A _ _ H) as (A1 & A2 & A3). cbn in H2. rewrite G. cbn [put with_strs t_str c1 conn_delete with_streams]. rewrite set_nth_length.
    destruct (Nat.eqb_spec j i) as [->|]; cbn [andb]; [congruence|auto].
  - intros tid j H. destruct (B _ _ H) as (B1 & B2). rewrite G. cbn [put with_strs t_str c1 conn_delete with_streams]. rewrite set_nth_length. split; [exact B1|]. destruct (_ && _); auto.
Qed.
Lemma stream_delete_inv : forall d i c, inv d c -> inv d (stream_delete i c).
Proof. intros d i c I. eapply mild_inv; [exact I|apply stream_delete_mild|]. intros D. apply so_stream_delete. apply I. exact D. Qed.
Lemma push_inv : forall d l c, inv d c -> forallb (fun f => negb (structural f)) l = true -> inv d (push c l).
Proof. intros d l c I F. eapply mild_inv; [exact I|apply mild_push, F|]. intros D. apply so_push. apply I. exact D. Qed.
Lemma phase_open : forall d c l, phase d c l -> t_open c = true -> l = [].
Proof. intros d c l P O. destruct P; congruence. Qed.
Lemma close_inv : forall d c, inv d c -> inv d (basic_close c).
Proof.
  intros d c I. unfold basic_close. destruct (t_open c) eqn:O; [|exact I]. pose proof I as [I1 I2 I3 I4 I5 I6 I7]. pose proof (phase_open _ _ _ I1 O) as E.
  assert (CL : closing (push (with_open c false) (status_call c ++ [KClose2])) = [KClose2]).
  { unfold closing in *. cbn [push with_open with_stack t_stack]. rewrite !filter_app, E. unfold status_call. destruct (t_onstatus c); reflexivity. }
  constructor; rewrite ?CL; auto; [constructor; reflexivity| |].
  - intros tid. cbn [pend push with_open with_stack t_txs t_log]. specialize (I5 tid). rewrite E in I5. exact I5.
  - intros D. destruct (I7 D) as [A B C]. constructor; auto.
Qed.
Lemma transact_inv : forall d t ok c, inv d c -> t_open c = true -> (d = true -> forall i, t = TxStream i -> (i < length (t_str c))%nat /\ s_id (get c i) = 0 /\ forall tid, ~ In (tid, TxStream i) (t_txs c)) -> inv d (transact t ok c).
Proof.
  intros d t ok c I O T. pose proof I as [I1 I2 I3 I4 I5 I6 I7]. pose proof (phase_open _ _ _ I1 O) as E. unfold transact. cbv zeta. destruct ok.
  - assert (R0 : registered (t_next c) (t_log c) = 0%nat) by (specialize (I6 (t_next c)); destruct (Z.ltb_spec (t_next c) (t_next c)); lia).
    assert (H : inv d (with_txs (with_next c (t_next c + 1)) (t_txs c ++ [(t_next c, t)])) \/ has_handler t = true).
    { destruct (has_handler t) eqn:HH; [auto|]. left. constructor; cbn [with_txs with_next t_txs t_next t_log t_open t_streams]; auto.
      - change (closing (with_txs (with_next c (t_next c + 1)) (t_txs c ++ [(t_next c, t)]))) with (closing c). rewrite E. apply ph_open. exact O.
      - apply asc_app; auto. 
      - unfold below in *. apply Forall_app. split; [eapply Forall_impl; [|exact I3]; cbv beta; intros; lia|]. repeat constructor. cbn. lia.
      - lia.
      - intros tid. change (closing (with_txs (with_next c (t_next c + 1)) (t_txs c ++ [(t_next c, t)]))) with (closing c). specialize (I5 tid). rewrite E in *. cbn [pend] in *. rewrite cnt_app, cnt_cons. cbn [fst snd]. rewrite HH, andb_false_r. change (cnt tid []) with 0%nat. lia.
      - intros tid. specialize (I6 tid). destruct (Z.ltb_spec tid (t_next c)), (Z.ltb_spec tid (t_next c + 1)); lia.
      - intros D. destruct (I7 D) as [A B C]. assert (NS : forall i, t <> TxStream i) by (intros i X; subst; discriminate). constructor; auto.
        + intros tid i H. cbn in H. apply in_app_or in H as [H|[H|[]]]; [eapply B; eauto|injection H as _ X; exfalso; eapply NS; eauto].
        + intros a b i H1 H2. cbn in H1, H2. apply in_app_or in H1 as [H1|[H1|[]]]; [|injection H1 as _ X; exfalso; eapply NS; eauto]. apply in_app_or in H2 as [H2|[H2|[]]]; [|injection H2 as _ X; exfalso; eapply NS; eauto]. eapply C; eauto. }
    destruct (has_handler t) eqn:HH; [|destruct H as [H|H]; [exact H|discriminate]]. clear H. constructor; cbn [with_log with_txs with_next t_txs t_next t_log t_open t_streams]; auto.
    + match goal with |- phase _ _ (closing ?x) => change (closing x) with (closing c) end. rewrite E. apply ph_open. exact O.
    + apply asc_app; auto.
    + unfold below in *. apply Forall_app. split; [eapply Forall_impl; [|exact I3]; cbv beta; intros; lia|]. repeat constructor. cbn. lia.
    + lia.
    + intros tid. match goal with |- context [closing ?x] => change (closing x) with (closing c) end. specialize (I5 tid). rewrite E in *. cbn [pend] in *. rewrite cnt_app, cnt_cons. cbn [fst snd]. rewrite HH, andb_true_r. change (cnt tid []) with 0%nat. unfold registered, handled in *. cbn [filter]. destruct (t_next c =? tid); cbn [length]; lia.
    + intros tid. specialize (I6 tid). unfold registered in *. cbn [filter]. destruct (Z.eqb_spec (t_next c) tid) as [X|N]; cbn [length]; [rewrite <- X in *; rewrite R0|]; destruct (Z.ltb_spec tid (t_next c)), (Z.ltb_spec tid (t_next c + 1)); try lia; destruct (Z.ltb_spec (t_next c) (t_next c + 1)); lia.
    + intros D. destruct (I7 D) as [A B C]. constructor; auto.
      * intros tid i H. cbn in H. apply in_app_or in H as [H|[H|[]]]; [eapply B; eauto|]. injection H as _ X. destruct (T D i X) as (T1 & T2 & _). auto.
      * intros a b i H1 H2. cbn in H1, H2. apply in_app_or in H1 as [H1|[H1|[]]]; apply in_app_or in H2 as [H2|[H2|[]]]; [eapply C; eauto| | |congruence].
        -- injection H2 as _ X. destruct (T D i X) as (_ & _ & T3). exfalso. eapply T3; eauto.
        -- injection H1 as _ X. destruct (T D i X) as (_ & _ & T3). exfalso. eapply T3; eauto.
  - constructor; cbn [with_next t_txs t_next t_log t_open t_streams]; auto.
    + match goal with |- phase _ _ (closing ?x) => change (closing x) with (closing c) end. rewrite E. apply ph_open. exact O.
    + unfold below in *. eapply Forall_impl; [|exact I3]. cbv beta. intros; lia.
    + lia.
    + intros tid. specialize (I6 tid). destruct (Z.ltb_spec tid (t_next c)), (Z.ltb_spec tid (t_next c + 1)); lia.
    + intros D. destruct (I7 D) as [A B C]. constructor; auto.
Qed.

Lemma pop_mild : forall c k rest, t_stack c = k :: rest -> structural k = false -> mild c (with_stack c rest).
Proof. intros c k rest E F. constructor; auto. unfold closing. rewrite E. cbn. rewrite F. reflexivity. Qed.
Lemma pop_inv : forall d c k rest, t_stack c = k :: rest -> structural k = false -> inv d c -> inv d (with_stack c rest).
Proof. intros d c k rest E F I. eapply mild_inv; [exact I|eapply pop_mild; eauto|]. intros D. destruct (j_str _ _ I D) as [A B C]. constructor; auto. Qed.
Lemma cbs_inv : forall d c a b x e, inv d c -> inv d (with_cbs c a b x e).
Proof. intros d c a b x e I. eapply mild_inv; [exact I|constructor; auto|]. intros D. destruct (j_str _ _ I D) as [A B C]. constructor; auto. Qed.
Lemma tc_inv : forall d c x, inv d c -> inv d (with_tc c x).
Proof. intros d c x I. eapply mild_inv; [exact I|constructor; auto|]. intros D. destruct (j_str _ _ I D) as [A B C]. constructor; auto. Qed.
Lemma user_inv : forall d u c, inv d c -> inv d (user u c).
Proof.
  intros d u c I. destruct u as [|h ok|h ok|ok|i|a b x e|i a b x e f]; cbn [user].
  - apply close_inv, I.
  - destruct (t_open c) eqn:O; cbn [andb]; [|exact I]. destruct (_ =? _); [|exact I]. apply transact_inv; auto. discriminate.
  - destruct (t_open c) eqn:O; cbn [andb]; [|exact I]. destruct (negb _); [|exact I]. apply transact_inv; auto. discriminate.
  - destruct (t_open c) eqn:O; [|exact I].
    assert (I' : inv d (with_strs c (t_str c ++ [mkStr true 0 false false false false false]))).
    { eapply mild_inv; [exact I|constructor; auto|]. intros D. destruct (j_str _ _ I D) as [A B C].
      assert (G : forall j, (j < length (t_str c))%nat -> get (with_strs c (t_str c ++ [mkStr true 0 false false false false false])) j = get c j) by (intros; apply app_nth1; assumption).
      constructor; auto.
      - intros id i H. destruct (A _ _ H) as (A1 & A2 & A3). rewrite G by exact A3. cbn [with_strs t_str]. rewrite app_length. repeat split; auto. lia.
      - intros tid i H. destruct (B _ _ H) as (B1 & B2). rewrite G by exact B1. cbn [with_strs t_str]. rewrite app_length. split; auto. lia. }
    apply transact_inv; auto. intros D i X. injection X as <-. cbn [with_strs t_str]. rewrite app_length. cbn [length]. split; [lia|]. split; [unfold get; cbn [with_strs t_str]; rewrite app_nth2, Nat.sub_diag by lia; reflexivity|].
    intros tid H. cbn in H. destruct (j_str _ _ I D) as [A B C]. destruct (B _ _ H) as (B1 & _). lia.
  - apply stream_delete_inv, I.
  - apply cbs_inv, I.
  - eapply mild_inv; [exact I|apply put_mild|]. intros D. apply so_put; [apply (j_str _ _ I D)|reflexivity].
Qed.

Lemma open_inv : forall d c c1, inv d c -> t_open c = true -> t_open c1 = true -> t_txs c1 = t_txs c -> t_next c1 = t_next c -> t_log c1 = t_log c -> closing c1 = closing c -> (d = true -> streams_ok c1) -> inv d c1.
Proof.
  intros d c c1 [I1 I2 I3 I4 I5 I6 I7] O O1 T N L S H. pose proof (phase_open _ _ _ I1 O) as E. constructor; rewrite ?T, ?N, ?L, ?S; auto. rewrite E. apply ph_open. exact O1.
Qed.
Lemma good_id : forall c a id, good_answer c a = Some id -> match a with ANum q => ~ (0 < q /\ q < 1)%Q | AOther => True end -> id <> 0.
Proof.
  intros c [q|] id; cbn; [|discriminate]. destruct (Qle_bool q 0) eqn:E; cbn [negb andb]; [discriminate|]. destruct (Qle_bool q (inject_Z U32MAX)); [|discriminate]. destruct (find (Qfloor q) (t_streams c)); [discriminate|]. intros X N. injection X as <-.
  assert (0 < q)%Q by (apply Qnot_le_lt; intros X; apply Qle_bool_iff in X; congruence). assert (1 <= q)%Q by (apply Qnot_lt_le; tauto). apply Qfloor_resp_le in H0. change (Qfloor 1) with 1 in H0. lia.
Qed.
Lemma handle_inv : forall d tid t success a c, inv d (if has_handler t then with_log c (EvHandled tid success) else c) ->
  (success = true -> t_open c = true) ->
  (success = true -> d = true -> match a with ANum q => ~ (0 < q /\ q < 1)%Q | AOther => True end /\ forall i, t = TxStream i -> (i < length (t_str c))%nat /\ s_id (get c i) = 0 /\ forall tid, ~ In (tid, TxStream i) (t_txs c)) ->
  inv d (handle tid t success a c).
Proof.
  intros d tid t success a c I O S. destruct t as [h|h|i]; cbn [handle has_handler] in *.
  - apply push_inv; [apply tc_inv, I|]. destruct h, success; reflexivity.
  - destruct h; [|exact I]. apply push_inv; [exact I|reflexivity].
  - cbv zeta. remember (with_log c (EvHandled tid success)) as c1 eqn:Ec. destruct success; [|apply close_inv, stream_delete_inv, I].
    destruct (good_answer c1 a) as [id|] eqn:G; [|apply close_inv, stream_delete_inv, I].
    assert (O1 : t_open c1 = true) by (subst c1; apply O; reflexivity).
    assert (N : find id (t_streams c1) = None).
    { destruct a as [q|]; cbn in G; [|discriminate]. destruct (_ && _); [|discriminate]. destruct (find (Qfloor q) (t_streams c1)) eqn:F; [discriminate|]. injection G as <-. exact F. }
    change (get (with_streams c1 ((id, i) :: t_streams c1)) i) with (get c1 i). destruct (s_open (get c1 i)) eqn:So.
    + apply push_inv; [|destruct (s_onopen _); reflexivity]. eapply open_inv; [exact I|exact O1|exact O1|reflexivity..|]. intros D. destruct (S eq_refl D) as (S1 & S2). destruct (S2 i eq_refl) as (S3 & S4 & S5). destruct (j_str _ _ I D) as [A B C].
      assert (L : length (t_str c1) = length (t_str c)) by (subst c1; reflexivity). assert (Gc : forall j, get c1 j = get c j) by (subst c1; reflexivity). assert (Tc : t_txs c1 = t_txs c) by (subst c1; reflexivity).
      remember (mkStr true id false (s_onstatus (get c1 i)) (s_ondata (get c1 i)) (s_onaudio (get c1 i)) (s_onvideo (get c1 i))) as x eqn:Ex.
      assert (Gp : forall j, get (put (with_streams c1 ((id, i) :: t_streams c1)) i x) j = if (j =? i)%nat then x else get c1 j).
      { intros j. rewrite get_put. cbn [with_streams t_str]. destruct (Nat.ltb_spec i (length (t_str c1))); [|lia]. rewrite andb_true_r. reflexivity. }
      pose proof (good_id _ _ _ G S1) as N0'. constructor.
      * intros id' j H. rewrite Gp. cbn [put with_strs with_streams t_str t_streams] in *. rewrite set_nth_length. destruct H as [H|H].
        -- injection H as <- <-. rewrite Nat.eqb_refl. split; [exact N0'|]. split; [subst x; reflexivity|lia].
        -- destruct (A _ _ H) as (A1 & A2 & A3). destruct (Nat.eqb_spec j i) as [->|]; [rewrite Gc in A2; congruence|auto].
      * intros tid' j H. cbn [put with_strs with_streams t_txs] in H. rewrite Gp. cbn [put with_strs with_streams t_str]. rewrite set_nth_length. destruct (B _ _ H) as (B1 & B2). split; [exact B1|]. destruct (Nat.eqb_spec j i) as [->|]; [|exact B2]. exfalso. rewrite Tc in H. eapply S5; eauto.
      * exact C.
    + eapply open_inv; [exact I|exact O1|exact O1|reflexivity..|]. intros D. destruct (j_str _ _ I D) as [A B C]. constructor; auto.
      intros id' j H. cbn in H. rewrite Z.eqb_refl in H. cbn in H. fold (@erase nat id (t_streams c1)) in H. apply erase_in in H as (H & _). apply A. exact H.
Qed.
(** ** Steps *)
Lemma phase_head : forall d c k l, phase d c (k :: l) -> t_open c = false.
Proof. intros d c k l P. inversion P; auto. Qed.
Lemma folds : forall l c, (forall e, In e (t_streams (fold_left (fun c (e : Z * nat) => stream_delete (snd e) c) l c)) -> In e (t_streams c)).
Proof.
  induction l as [|x l IH]; intros c e H; cbn in *; [exact H|]. apply IH in H. unfold stream_delete in H. cbv zeta in H. destruct (_ =? 0); cbn in H; [exact H|]. apply erase_in in H. apply H.
Qed.
Lemma folds_mild : forall l c, mild c (fold_left (fun c (e : Z * nat) => stream_delete (snd e) c) l c).
Proof. induction l as [|x l IH]; intros c; cbn [fold_left]; [constructor; auto|]. eapply mild_trans; [apply stream_delete_mild|apply IH]. Qed.
Lemma folds_ok : forall l c, streams_ok c -> streams_ok (fold_left (fun c (e : Z * nat) => stream_delete (snd e) c) l c).
Proof. induction l as [|x l IH]; intros c S; cbn [fold_left]; [exact S|]. apply IH, so_stream_delete, S. Qed.
Lemma folds_gone : forall l c, streams_ok c -> forall e, In e l -> ~ In e (t_streams (fold_left (fun c (e : Z * nat) => stream_delete (snd e) c) l c)).
Proof.
  induction l as [|x l IH]; intros c S e []; cbn [fold_left].
  - subst x. intros H. apply folds in H. pose proof (so_stream_delete (snd e) c S) as S'. destruct e as (id & i). cbn [snd] in *. destruct (so_map _ S' _ _ H) as (A1 & A2 & A3). apply A1. rewrite <- A2.
    unfold stream_delete in *. cbv zeta in *. destruct (s_id (get c i) =? 0) eqn:Z; rewrite get_put, Nat.eqb_refl in *; cbn [andb] in *; cbn [put with_strs t_str conn_delete with_streams] in A3; rewrite set_nth_length in A3.
    + destruct (Nat.ltb_spec i (length (t_str c))); [reflexivity|lia].
    + cbn [conn_delete with_streams t_str] in *. destruct (Nat.ltb_spec i (length (t_str c))); [reflexivity|lia].
  - apply IH; [apply so_stream_delete, S|exact H].
Qed.
Ltac clo E := match goal with |- context [closing ?x] => let H := fresh in assert (H : closing x = _) by (unfold closing in *; rewrite E in *; cbn in *; reflexivity); rewrite H; clear H end.
Lemma step_inv : forall env d c c1, inv d c -> wstep env c = Ok c1 -> inv d c1.
Proof.
  intros env d c0 c1 I W. unfold wstep in W. destruct (t_stack c0) as [|k rest] eqn:Es; [discriminate|]. cbv zeta in W. remember (with_stack c0 rest) as c eqn:Ec.
  destruct (structural k) eqn:SK.
  2: { assert (Ic : inv d c) by (subst c; eapply pop_inv; eauto). clear Ec I Es. destruct k as [[|u l]|b| | | |o|k| | | |b|i id]; try discriminate; apply Ok_inj in W; subst c1.
       - exact Ic.
       - apply user_inv, push_inv; auto.
       - eapply mild_inv; [apply (push_inv d [KScript (env (t_pos c))] (next_pos c))|constructor; auto|].
         + eapply mild_inv; [exact Ic|constructor; auto|]. intros D. destruct (j_str _ _ Ic D) as [A B C]. constructor; auto.
         + reflexivity.
         + intros D. destruct (j_str _ _ Ic D) as [A B C]. constructor; auto.
       - apply push_inv; auto. unfold status_call. destruct (t_onstatus c); reflexivity.
       - apply close_inv, Ic.
       - destruct (s_open _); [exact Ic|]. eapply mild_inv; [exact Ic|apply delete_mild|]. intros D. apply so_delete, (j_str _ _ Ic D). }
  pose proof I as [I1 I2 I3 I4 I5 I6 I7].
  assert (CL : closing c0 = k :: closing c) by (subst c; unfold closing; rewrite Es; cbn; rewrite SK; reflexivity). rewrite CL in *.
  assert (F : t_open c = t_open c0 /\ t_txs c = t_txs c0 /\ t_next c = t_next c0 /\ t_log c = t_log c0 /\ t_streams c = t_streams c0 /\ t_str c = t_str c0) by (subst c; repeat split; reflexivity).
  destruct F as (F1 & F2 & F3 & F4 & F5 & F6). rewrite <- F2, <- F3, <- F4 in *.
  assert (So : d = true -> streams_ok c) by (intros D; destruct (I7 D) as [A B C]; subst c; constructor; auto). clear I7.
  assert (P : phase d c (k :: closing c)) by (apply (phase_same d c0); auto; congruence). pose proof (phase_head _ _ _ _ P) as O. clear I1.
  assert (NIL : forall l, phase d c (k :: l) -> closing c = l -> True) by auto. clear NIL.
  clear Ec CL Es F1 F2 F3 F4 F5 F6.
  inversion P as [| |H1 Hk|o b H1 H2 Hk|o b H1 H2 Hk|b H1 Hk|b H1 H2 Hk|b H1 H2 H3 Hk|b H1 H2 H3 Hk]; clear P; subst k; match goal with H : _ = closing c |- _ => symmetry in H; rename H into CL end.
  - (* KClose2 *) apply Ok_inj in W. subst c1. assert (E : closing (push (with_cbs c false false false false) (KTxAt (first_key (t_txs c)) :: tail (t_onclose c))) = KTxAt (first_key (t_txs c)) :: tail (t_onclose c)) by (unfold closing in *; cbn; rewrite CL; reflexivity).
    fold (tail (t_onclose c)). constructor; rewrite ?E; auto.
    + apply ph_2; auto. intros tid X. apply first_found. exact X.
    + intros tid. cbn [pend push with_cbs with_stack t_txs t_log] in *. rewrite (first_pend _ _ I2). apply I5.
    + intros D. destruct (So D) as [A B C]. constructor; auto.
  - (* KTxAt *) destruct o as [tid|].
    + destruct (find tid (t_txs c)) as [t|] eqn:Ft; [|discriminate]. apply Ok_inj in W. subst c1.
      assert (Hf : forall x, inv d (if has_handler t then with_log (push c [KTxNext tid]) (EvHandled tid x) else push c [KTxNext tid])).
      { intros x. assert (E : closing (push c [KTxNext tid]) = KTxNext tid :: tail b) by (unfold closing in *; cbn; rewrite CL; reflexivity).
        assert (Cn : forall tid', cnt tid' (pend_at (Some tid) (t_txs c)) = ((if ((tid =? tid')%Z && has_handler t)%bool then 1 else 0) + cnt tid' (filter (fun e => (tid <? fst e)%Z) (t_txs c)))%nat) by (intros tid'; cbn [pend_at]; rewrite (after_split _ _ _ _ I2 Ft), cnt_cons; reflexivity).
        destruct (has_handler t) eqn:HH; constructor; try (match goal with |- context [closing (with_log ?y ?z)] => change (closing (with_log y z)) with (closing y) end); rewrite ?E; auto.
        - apply ph_3; [exact O|]. cbn. rewrite Ft. discriminate.
        - intros tid'. specialize (I5 tid'). cbn [pend push with_stack with_log t_txs t_log] in *. rewrite Cn, andb_true_r in I5. unfold handled, registered in *. cbn [filter]. destruct (tid =? tid'); cbn [length]; lia.
        - intros D. destruct (So D) as [A B C]. constructor; auto.
        - apply ph_3; [exact O|]. cbn. rewrite Ft. discriminate.
        - intros tid'. specialize (I5 tid'). cbn [pend push with_stack t_txs t_log] in *. rewrite Cn, andb_false_r in I5. exact I5.
        - intros D. destruct (So D) as [A B C]. constructor; auto. }
      apply handle_inv; [apply Hf|discriminate|discriminate].
    + apply Ok_inj in W. subst c1. constructor; rewrite ?CL; auto. apply ph_4. exact O.
  - (* KTxNext *) destruct (find o (t_txs c)) as [t|] eqn:Ft; [|discriminate]. apply Ok_inj in W. subst c1.
    assert (E : closing (push c [KTxAt (key_after o (t_txs c))]) = KTxAt (key_after o (t_txs c)) :: tail b) by (unfold closing in *; cbn; rewrite CL; reflexivity).
    constructor; rewrite ?E; auto.
    + apply ph_2; [exact O|]. intros tid X. eapply key_found; eauto.
    + intros tid. specialize (I5 tid). cbn [pend push with_stack t_txs t_log] in *. rewrite (after_pend _ _ _ I2). exact I5.
    + intros D. destruct (So D) as [A B C]. constructor; auto.
  - (* KClear *) apply Ok_inj in W. subst c1. assert (E : closing (with_txs c []) = [KStreams; KAssert; KOnClose b]) by (unfold closing in *; cbn; rewrite CL; reflexivity).
    constructor; rewrite ?E; auto.
    + apply ph_5; auto.
    + exact Logic.I.
    + constructor.
    + intros D. destruct (So D) as [A B C]. constructor; [exact A|intros ? ? []|intros ? ? ? []].
  - (* KStreams *) apply Ok_inj in W. subst c1. pose proof (folds_mild (t_streams c) c) as M. destruct M as [M1 M2 M3 M4 M5 M6 M7].
    constructor; rewrite ?M2, ?M3, ?M4, ?CL; auto.
    + apply ph_6; [congruence|congruence|]. intros D. specialize (So D). pose proof (folds_gone (t_streams c) c So) as Gn. pose proof (folds (t_streams c) c) as Fs.
      destruct (t_streams (fold_left _ _ _)) as [|e r]; [reflexivity|]. exfalso. apply (Gn e); [apply Fs; left; reflexivity|left; reflexivity].
    + intros tid. rewrite M6, M7. specialize (I5 tid). exact I5.
    + intros tid. rewrite M7. apply I6.
    + intros D. apply folds_ok, So, D.
  - (* KAssert *) destruct (t_streams c) eqn:Se; [|discriminate]. apply Ok_inj in W. subst c1. constructor; rewrite ?CL; auto. apply ph_7; auto.
  - (* KOnClose *) apply Ok_inj in W. subst c1. assert (H : inv d c).
    { constructor; rewrite ?CL; auto.
      - apply ph_done; auto.
      - intros tid. specialize (I5 tid). cbn [pend] in *. rewrite H2. exact I5. }
    destruct b; [apply push_inv; auto|exact H].
Qed.
Lemma init_inv : forall d, inv d c_init.
Proof. intros d. constructor; cbn; auto; try lia; try (constructor; fail). - apply ph_open. reflexivity. - intros _. constructor; cbn; intros; contradiction. Qed.
Definition kind_ok (d : bool) (o : wop) : Prop := d = true -> decent o.
Lemma msg_inv : forall d m c, inv d c -> t_stack c = [] -> kind_ok d (OMsg m) -> inv d (on_msg m c).
Proof.
  intros d m c I Es K. destruct m as [|success q a| | |id|id kd]; cbn [on_msg].
  - apply close_inv, I.
  - destruct (find_tx q (t_txs c)) as [(tid & t)|] eqn:F; [|exact I].
    assert (Ft : find tid (t_txs c) = Some t).
    { destruct q as [z| |]; cbn in F; [destruct (find z (t_txs c)) eqn:X; [|discriminate]; injection F as <- <-; exact X|discriminate|]. destruct (t_txs c) as [|e l]; [discriminate|]. injection F as ->. cbn. rewrite Z.eqb_refl. reflexivity. }
    pose proof I as [I1 I2 I3 I4 I5 I6 I7]. assert (CL : closing c = []) by (unfold closing; rewrite Es; reflexivity). rewrite CL in *.
    assert (O : t_open c = true) by (inversion I1; subst; auto; match goal with H : t_txs c = [] |- _ => rewrite H in Ft; discriminate end).
    assert (Er : forall x, In x (erase tid (t_txs c)) -> In x (t_txs c)) by (intros x H; apply erase_in in H; apply H).
    apply handle_inv.
    + assert (Cn : forall tid', cnt tid' (t_txs c) = ((if ((tid =? tid')%Z && has_handler t)%bool then 1 else 0) + cnt tid' (erase tid (t_txs c)))%nat) by (intros tid'; eapply cnt_erase; eauto).
      assert (Bl : below (t_next c) (erase tid (t_txs c))) by (unfold below in *; rewrite Forall_forall in *; intros x H; apply I3, Er, H).
      assert (St : d = true -> streams_ok (with_txs c (erase tid (t_txs c)))) by (intros D; destruct (I7 D) as [A B C]; constructor; auto; cbn; [intros tid' i H; eapply B, Er; exact H|intros x y i H H'; eapply C; apply Er; eauto]).
      destruct (has_handler t) eqn:HH; constructor; try (match goal with |- context [closing ?y] => change (closing y) with (closing c) end); rewrite ?CL; auto; try (apply ph_open; exact O); try (apply asc_filter; exact I2).
      * intros tid'. specialize (I5 tid'). cbn [pend with_txs with_log t_txs t_log] in *. rewrite Cn, andb_true_r in I5. unfold handled, registered in *. cbn [filter]. destruct (tid =? tid'); cbn [length]; lia.
      * intros D. destruct (St D) as [A B C]. constructor; auto.
      * intros tid'. specialize (I5 tid'). cbn [pend with_txs t_txs t_log] in *. rewrite Cn, andb_false_r in I5. exact I5.
    + intros _. exact O.
    + intros Hs D. subst success. split; [exact (K D)|]. intros i ->. destruct (I7 D) as [A B C]. pose proof (find_in _ _ _ _ Ft) as Hi. destruct (B _ _ Hi) as (B1 & B2). split; [exact B1|]. split; [exact B2|].
      intros tid' H. cbn in H. apply erase_in in H as (H & Hn). apply Hn. cbn. eapply C; eauto.
  - apply push_inv; auto. unfold status_call. destruct (t_onstatus c); reflexivity.
  - destruct (t_oncmd c); [apply push_inv; auto|exact I].
  - destruct (find _ _); [|exact I]. destruct (s_onstatus _); [apply push_inv; auto|exact I].
  - destruct (find _ _) as [i|]; [|exact I]. cbv zeta. destruct kd as [|[|kd]]; [destruct (s_ondata _)|destruct (s_onaudio _)|destruct (s_onvideo _)]; try exact I; apply push_inv; auto.
Qed.
Lemma op_inv : forall d o c, inv d c -> t_stack c = [] -> kind_ok d o -> inv d (do_op o c).
Proof.
  intros d [|m| |l] c I Es K; cbn [do_op].
  - assert (I' : inv d (with_trans c true)) by (eapply mild_inv; [exact I|constructor; auto|]; intros D; destruct (j_str _ _ I D) as [A B C]; constructor; auto).
    cbv zeta. destruct (_ && _); [apply push_inv; auto|exact I'].
  - apply msg_inv; auto.
  - apply close_inv, I.
  - apply push_inv; auto.
Qed.
Lemma reach_inv : forall d env (kind : wop -> Prop) c, (forall o, kind o -> kind_ok d o) -> reachable env kind c -> inv d c.
Proof. intros d env kind c K R. unfold reachable in R. induction R; [apply init_inv|apply op_inv; auto|eapply step_inv; eauto]. Qed.
(** ** Handlers are called once *)
Lemma any_ok : forall (o : wop), any o -> kind_ok false o.
Proof. intros o _ D. discriminate. Qed.
Lemma decent_ok : forall o, decent o -> kind_ok true o.
Proof. intros o H _. exact H. Qed.
Lemma once : forall env c tid, reachable env any c -> (handled tid (t_log c) <= registered tid (t_log c) <= 1)%nat /\ (finished c -> handled tid (t_log c) = registered tid (t_log c)).
Proof.
  intros env c tid R. pose proof (reach_inv false _ _ _ any_ok R) as [I1 I2 I3 I4 I5 I6 I7]. specialize (I5 tid). specialize (I6 tid). split; [destruct (_ <? _); lia|]. intros (O & Es).
  assert (CL : closing c = []) by (unfold closing; rewrite Es; reflexivity). rewrite CL in *. inversion I1; [congruence|]. cbn [pend] in I5. rewrite H0 in I5. cbn in I5. lia.
Qed.
Lemma done : forall d c, inv d c -> finished c -> t_txs c = [] /\ t_streams c = [].
Proof. intros d c [I1 _ _ _ _ _ _] (O & Es). assert (CL : closing c = []) by (unfold closing; rewrite Es; reflexivity). rewrite CL in *. inversion I1; [congruence|auto]. Qed.
(** a handler that is registered and not yet called, with nothing left to be done, is there to be called *)
Lemma waiting : forall env c tid, reachable env any c -> t_stack c = [] -> (handled tid (t_log c) < registered tid (t_log c))%nat -> exists t, find tid (t_txs c) = Some t /\ has_handler t = true.
Proof.
  intros env c tid R Es L. pose proof (reach_inv false _ _ _ any_ok R) as [I1 I2 I3 I4 I5 I6 I7]. assert (CL : closing c = []) by (unfold closing; rewrite Es; reflexivity). rewrite CL in *. specialize (I5 tid). cbn [pend] in I5.
  clear - L I5 I2. generalize dependent 1. intros a I2. revert a I2 I5. generalize (t_txs c). induction l as [|(k & t) l IH]; intros a A H; [cbn in H; lia|]. rewrite cnt_cons in H. cbn [fst snd] in H. cbn in A. destruct A as (A1 & A2). cbn [find]. destruct (Z.eqb_spec k tid) as [->|N].
  - rewrite Z.eqb_refl. exists t. split; [reflexivity|]. destruct (has_handler t); [reflexivity|]. exfalso. cbn [andb] in H. rewrite cnt_none in H; [lia|]. intros e E. pose proof (asc_low _ _ _ A2 E). lia.
  - destruct (Z.eqb_spec tid k); [congruence|]. cbn [andb] in H. eapply IH; eauto.
Qed.
Lemma handled_more : forall c, t_log (basic_close c) = t_log c.
Proof. intros c. unfold basic_close. destruct (t_open c); reflexivity. Qed.
Lemma deleted_log : forall i c, t_log (stream_delete i c) = t_log c.
Proof. intros i c. unfold stream_delete. cbv zeta. destruct (_ =? 0); reflexivity. Qed.
Lemma handle_log : forall tid t success a c, has_handler t = true -> t_log (handle tid t success a c) = EvHandled tid success :: t_log c.
Proof.
  intros tid [h|h|i] success a c H; cbn [handle]; [reflexivity|cbn in H; rewrite H; reflexivity|]. cbv zeta. destruct (if success then _ else _) as [id|].
  - destruct (s_open _); reflexivity.
  - rewrite handled_more, deleted_log. reflexivity.
Qed.
Lemma response : forall env c tid success a, reachable env any c -> t_stack c = [] -> (handled tid (t_log c) < registered tid (t_log c))%nat ->
  t_log (do_op (OMsg (MResponse success (DNum tid) a)) c) = EvHandled tid success :: t_log c.
Proof. intros env c tid success a R Es L. destruct (waiting _ _ _ R Es L) as (t & F & H). cbn [do_op on_msg find_tx]. rewrite F. rewrite handle_log by exact H. reflexivity. Qed.
(** numbers not in use, used up, or not whole *)
Lemma unknown : forall c q success a, (forall tid, q = DNum tid -> forall t, ~ In (tid, t) (t_txs c)) -> q <> DNaN -> do_op (OMsg (MResponse success q a)) c = c.
Proof. intros c [z| |] success a H N; cbn; [|reflexivity|congruence]. destruct (find z (t_txs c)) as [t|] eqn:F; [|reflexivity]. exfalso. eapply H; [reflexivity|]. apply find_in. exact F. Qed.

(** ** Nothing is called after close *)
Definition harmless (f : frame) : Prop := match f with KScript l => forall a b d e, ~ In (TSetConn a b d e) l | _ => False end.
Record silent (l0 : list event) (c : conn) : Prop := mkSilent {
  si_open : t_open c = false; si_txs : t_txs c = []; si_str : t_streams c = []; si_unset : unset c; si_stack : Forall harmless (t_stack c); si_log : t_log c = l0 }.
Lemma silent_op : forall l0 o c, silent l0 c -> t_stack c = [] -> hands_off o -> silent l0 (do_op o c).
Proof.
  intros l0 o c I Es H. pose proof I as [I1 I2 I3 (U1 & U2 & U3 & U4) I5 I6]. destruct o as [|m| |l]; cbn [do_op].
  - cbn. rewrite I1. cbn. constructor; auto. repeat split; auto.
  - destruct m as [|s q a| | |id|id k]; cbn [on_msg].
    + unfold basic_close. rewrite I1. exact I.
    + rewrite I2. replace (find_tx q []) with (@None (Z * tx)) by (destruct q; reflexivity). exact I.
    + unfold status_call. rewrite U3. constructor; auto. repeat split; auto.
    + rewrite U4. exact I.
    + rewrite I3. exact I.
    + rewrite I3. exact I.
  - unfold basic_close. rewrite I1. exact I.
  - constructor; auto; [repeat split; auto|]. cbn. rewrite Es. repeat constructor. exact H.
Qed.
Lemma silent_user : forall l0 u c, silent l0 c -> (forall a b d e, u <> TSetConn a b d e) -> silent l0 (user u c).
Proof.
  intros l0 u c I H. pose proof I as [I1 I2 I3 (U1 & U2 & U3 & U4) I5 I6]. destruct u as [|h ok|h ok|ok|i|a b x e|i a b x e f]; cbn [user]; try (unfold basic_close); rewrite ?I1; try exact I.
  - unfold stream_delete. cbv zeta. destruct (_ =? 0); constructor; cbn; auto; try (repeat split; auto; fail). rewrite I3. reflexivity.
  - exfalso. eapply H; reflexivity.
  - constructor; cbn; auto. repeat split; auto.
Qed.
Lemma silent_step : forall env l0 c c1, silent l0 c -> wstep env c = Ok c1 -> silent l0 c1.
Proof.
  intros env l0 c c1 I W. pose proof I as [I1 I2 I3 U I5 I6]. unfold wstep in W. destruct (t_stack c) as [|k rest] eqn:Es; [discriminate|]. inversion I5 as [|? ? Hk Hr]; subst. destruct k as [l| | | | | | | | | | |]; try contradiction. cbn in Hk. destruct l as [|u l]; apply Ok_inj in W; subst c1.
  - constructor; auto.
  - apply silent_user; [|intros a b d e ->; eapply Hk; left; reflexivity]. constructor; auto. cbn. constructor; [|exact Hr]. intros a b d e H. eapply Hk. right. exact H.
Qed.
Lemma quiet : forall env c, reachable env any c -> finished c -> unset c -> forall c1, later env hands_off c c1 -> t_log c1 = t_log c.
Proof.
  intros env c R F U c1 L. assert (S : silent (t_log c) c1).
  { induction L; [|eapply silent_op; eauto|eapply silent_step; eauto]. destruct (done _ _ (reach_inv false _ _ _ any_ok R) F) as (D1 & D2). destruct F as (F1 & F2). constructor; auto. rewrite F2. constructor. }
  apply S.
Qed.

(** ** Closing completes *)
Lemma inv_safe : forall env c, inv true c -> wstep env c <> UB.
Proof.
  intros env c [I1 I2 I3 I4 I5 I6 I7] W. unfold wstep in W. destruct (t_stack c) as [|k rest] eqn:Es; [discriminate|]. cbv zeta in W. unfold closing in *. rewrite Es in *. cbn [filter] in *.
  destruct k as [[|u l]|b| | | |[tid|]|k| | | |b|i id]; try discriminate; cbn [structural] in *.
  - inversion I1; subst. cbn in W. match goal with H : forall t, Some tid = Some t -> _ |- _ => specialize (H tid eq_refl) end. destruct (find tid (t_txs c)); [discriminate|congruence].
  - inversion I1; subst. cbn in W. destruct (find k (t_txs c)); [discriminate|congruence].
  - inversion I1; subst. cbn in W. match goal with H : true = true -> t_streams c = [] |- _ => rewrite (H eq_refl) in W end. discriminate.
Qed.
Lemma safe : forall env c, reachable env decent c -> wstep env c <> UB.
Proof. intros env c R. apply inv_safe. eapply reach_inv; [|exact R]. apply decent_ok. Qed.
Definition runs env (c : conn) (P : conn -> Prop) : Prop := exists n c1, steps env n c c1 /\ inv true c1 /\ P c1.
Lemma runs_now : forall env c (P : conn -> Prop), inv true c -> P c -> runs env c P.
Proof. intros env c P I H. exists 0%nat, c. split; [apply steps_0|auto]. Qed.
Lemma steps_app : forall env n c c1, steps env n c c1 -> forall m c2, steps env m c1 c2 -> steps env (n + m) c c2.
Proof. intros env n c c1 S. induction S; intros m c3 S2; [exact S2|]. econstructor; eauto. Qed.
Lemma runs_then : forall env c (P Q : conn -> Prop), runs env c P -> (forall c1, inv true c1 -> P c1 -> runs env c1 Q) -> runs env c Q.
Proof. intros env c P Q (n & c1 & S & I & H) K. destruct (K c1 I H) as (m & c2 & S2 & I2 & H2). exists (n + m)%nat, c2. split; [eapply steps_app; eauto|auto]. Qed.
Lemma runs_step : forall env c c1 (P : conn -> Prop), inv true c -> wstep env c = Ok c1 -> (inv true c1 -> runs env c1 P) -> runs env c P.
Proof. intros env c c1 P I W K. destruct (K (step_inv _ _ _ _ I W)) as (n & c2 & St & H). exists (S n), c2. split; [econstructor; eauto|exact H]. Qed.
(** what a closed connection has left, and its transactions *)
Definition shut (rest : list frame) (txs : list (Z * tx)) (c : conn) : Prop := t_open c = false /\ t_stack c = rest /\ t_txs c = txs.
Lemma user_shut : forall u c, t_open c = false -> t_open (user u c) = false /\ t_stack (user u c) = t_stack c /\ t_txs (user u c) = t_txs c.
Proof.
  intros u c O. destruct u as [|h ok|h ok|ok|i|a b x e|i a b x e f]; cbn [user]; try (unfold basic_close); rewrite ?O; auto.
  unfold stream_delete. cbv zeta. destruct (_ =? 0); auto.
Qed.
Lemma script_shut : forall env l c rest txs, inv true c -> shut (KScript l :: rest) txs c -> runs env c (shut rest txs).
Proof.
  intros env l. induction l as [|u l IH]; intros c rest txs I (O & Es & T).
  - eapply runs_step; [exact I|unfold wstep; rewrite Es; reflexivity|]. intros I1. apply runs_now; [exact I1|]. repeat split; auto.
  - eapply runs_step; [exact I|unfold wstep; rewrite Es; reflexivity|]. intros I1. destruct (user_shut u (push (with_stack c rest) [KScript l]) O) as (A1 & A2 & A3). apply IH; [exact I1|]. repeat split; [exact A1|rewrite A2; reflexivity|rewrite A3; exact T].
Qed.
Lemma call_shut : forall env b c rest txs, inv true c -> shut (KCall b :: rest) txs c -> runs env c (shut rest txs).
Proof. intros env b c rest txs I (O & Es & T). eapply runs_step; [exact I|unfold wstep; rewrite Es; reflexivity|]. intros I1. eapply script_shut; [exact I1|]. repeat split; auto. Qed.
Lemma calls_shut : forall env l c rest txs, (forall f, In f l -> exists b, f = KCall b) -> inv true c -> shut (l ++ rest) txs c -> runs env c (shut rest txs).
Proof.
  intros env l. induction l as [|f l IH]; intros c rest txs F I S; [apply runs_now; auto|]. destruct (F f (or_introl eq_refl)) as (b & ->). eapply runs_then; [eapply call_shut; [exact I|exact S]|]. intros c1 I1 S1. apply IH; auto. intros f H. apply F. right. exact H.
Qed.
Lemma status_calls : forall c f, In f (status_call c) -> exists b, f = KCall b.
Proof. intros c f H. unfold status_call in H. destruct (t_onstatus c); [|contradiction]. destruct H as [<-|[]]. eauto. Qed.
Lemma frame_shut : forall env f c rest txs, structural f = false -> inv true c -> shut (f :: rest) txs c -> runs env c (shut rest txs).
Proof.
  intros env f c rest txs F I S. pose proof S as (O & Es & T). destruct f as [l|b| | | |o|k| | | |b|i id]; try discriminate.
  - eapply script_shut; eauto.
  - eapply call_shut; eauto.
  - eapply runs_step; [exact I|unfold wstep; rewrite Es; reflexivity|]. intros I1. apply (calls_shut env (status_call (with_stack c rest))); [apply status_calls|exact I1|]. repeat split; auto.
  - eapply runs_step; [exact I|unfold wstep; rewrite Es; reflexivity|]. intros I1. apply runs_now; [exact I1|]. unfold basic_close. cbn. rewrite O. repeat split; auto.
  - eapply runs_step; [exact I|unfold wstep; rewrite Es; reflexivity|]. intros I1. apply runs_now; [exact I1|]. destruct (s_open _); repeat split; auto.
Qed.
Lemma frames_shut : forall env l c rest txs, forallb (fun f => negb (structural f)) l = true -> inv true c -> shut (l ++ rest) txs c -> runs env c (shut rest txs).
Proof.
  intros env l. induction l as [|f l IH]; intros c rest txs F I S; [apply runs_now; auto|]. cbn in F. apply andb_prop in F as (F1 & F2). apply negb_true_iff in F1. eapply runs_then; [eapply frame_shut; [exact F1|exact I|exact S]|]. intros c1 I1 S1. apply IH; auto.
Qed.
Lemma handle_shut : forall tid t a c, t_open c = false -> exists l, forallb (fun f => negb (structural f)) l = true /\ shut (l ++ t_stack c) (t_txs c) (handle tid t false a c).
Proof.
  intros tid [h|h|i] a c O; cbn [handle].
  - exists ((if h then [KCall (CbHandler tid false)] else []) ++ [KStatus] ++ [KClose]). split; [destruct h; reflexivity|]. repeat split; auto. 
  - destruct h; [exists [KCall (CbHandler tid false)]|exists []]; (split; [reflexivity|repeat split; auto]).
  - exists []. split; [reflexivity|]. cbv zeta. unfold basic_close, stream_delete. cbv zeta. destruct (_ =? 0); cbn; rewrite O; repeat split; auto.
Qed.
Lemma loop_shut : forall env n k c rest txs, (length (pend_at k txs) <= n)%nat -> inv true c -> shut (KTxAt k :: rest) txs c -> runs env c (shut rest txs).
Proof.
  intros env n. induction n as [|n IH]; intros k c rest txs L I S; pose proof S as (O & Es & T); pose proof (inv_safe env c I) as NU; unfold wstep in NU; rewrite Es in NU; cbv zeta in NU; destruct k as [tid|].
  - exfalso. change (t_txs (with_stack c rest)) with (t_txs c) in NU. destruct (find tid (t_txs c)) as [t|] eqn:F; [|congruence]. rewrite T in F. pose proof (after_split txs 1 tid t) as A. rewrite <- T in A at 1. specialize (A (j_asc _ _ I) F). cbn [pend_at] in L. rewrite A in L. cbn in L. lia.
  - eapply runs_step; [exact I|unfold wstep; rewrite Es; reflexivity|]. intros I1. apply runs_now; [exact I1|]. repeat split; auto.
  - change (t_txs (with_stack c rest)) with (t_txs c) in NU. destruct (find tid (t_txs c)) as [t|] eqn:F; [|congruence]. clear NU.
    eapply runs_step; [exact I|unfold wstep; rewrite Es; cbv zeta; change (t_txs (with_stack c rest)) with (t_txs c); rewrite F; reflexivity|]. intros I1.
    destruct (handle_shut tid t AOther (push (with_stack c rest) [KTxNext tid]) O) as (l & Hl & Sl). eapply runs_then; [eapply frames_shut; [exact Hl|exact I1|exact Sl]|]. intros c2 I2 (O2 & Es2 & T2). cbn in Es2, T2.
    eapply runs_step; [exact I2|unfold wstep; rewrite Es2; cbv zeta; change (t_txs (with_stack c2 rest)) with (t_txs c2); rewrite T2, F; reflexivity|]. intros I3. apply (IH (key_after tid (t_txs c))); [|exact I3|repeat split; [exact O2|rewrite <- T; exact T2]].
    rewrite T in F. rewrite T. pose proof (j_asc _ _ I) as A. rewrite T in A. rewrite (after_pend _ _ tid A). cbn [pend_at] in L. rewrite (after_split _ _ _ _ A F) in L. cbn in L. lia.
  - eapply runs_step; [exact I|unfold wstep; rewrite Es; reflexivity|]. intros I1. apply runs_now; [exact I1|]. repeat split; auto.
Qed.
Definition gone (rest : list frame) (c : conn) : Prop := t_open c = false /\ t_stack c = rest.
Lemma any_shut : forall env f c rest, inv true c -> gone (f :: rest) c -> runs env c (gone rest).
Proof.
  assert (W : forall rest txs c, shut rest txs c -> gone rest c) by (intros rest txs c (A & B & _); split; assumption).
  assert (Weak : forall env c rest txs, runs env c (shut rest txs) -> runs env c (gone rest)) by (intros env c rest txs (n & c1 & A & B & C); exists n, c1; eauto).
  assert (At : forall env k c rest, inv true c -> gone (KTxAt k :: rest) c -> runs env c (gone rest)).
  { intros env k c rest I (O & Es). eapply Weak. apply (loop_shut env _ k c rest (t_txs c) (le_n _) I). repeat split; auto. }
  assert (Tl : forall env c b rest, inv true c -> gone (KOnClose b :: rest) c -> runs env c (gone rest)).
  { intros env c b rest I (O & Es). eapply runs_step; [exact I|unfold wstep; rewrite Es; reflexivity|]. intros I1. destruct b; [|apply runs_now; [exact I1|split; auto]]. eapply Weak. eapply call_shut; [exact I1|]. repeat split; auto. }
  assert (As : forall env c rest, inv true c -> gone (KAssert :: rest) c -> runs env c (gone rest)).
  { intros env c rest I (O & Es). pose proof (inv_safe env c I) as NU. unfold wstep in NU. rewrite Es in NU. cbv zeta in NU. change (t_streams (with_stack c rest)) with (t_streams c) in NU. destruct (t_streams c) eqn:St; [|congruence].
    eapply runs_step; [exact I|unfold wstep; rewrite Es; cbv zeta; change (t_streams (with_stack c rest)) with (t_streams c); rewrite St; reflexivity|]. intros I1. apply runs_now; [exact I1|]. split; auto. }
  assert (Ss : forall env c rest, inv true c -> gone (KStreams :: rest) c -> runs env c (gone rest)).
  { intros env c rest I (O & Es). eapply runs_step; [exact I|unfold wstep; rewrite Es; reflexivity|]. intros I1. apply runs_now; [exact I1|]. split; [rewrite (m_open _ _ (folds_mild _ _)); exact O|].
    assert (K : forall l x, t_stack (fold_left (fun c (e : Z * nat) => stream_delete (snd e) c) l x) = t_stack x) by (induction l as [|e l IH]; intros x; cbn [fold_left]; [reflexivity|]; rewrite IH; unfold stream_delete; cbv zeta; destruct (_ =? 0); reflexivity).
    rewrite K. reflexivity. }
  intros env f c rest I G. pose proof G as (O & Es). destruct (structural f) eqn:SF; [|eapply Weak; eapply frame_shut; [exact SF|exact I|]; repeat split; auto].
  destruct f as [l|b| | | |o|k| | | |b|i id]; try discriminate; eauto.
  - eapply runs_step; [exact I|unfold wstep; rewrite Es; reflexivity|]. intros I1.
    eapply runs_then; [eapply At; [exact I1|split; [exact O|reflexivity]]|]. intros c2 I2 (O2 & Es2). cbn in Es2. eapply runs_step; [exact I2|unfold wstep; rewrite Es2; reflexivity|]. intros I3.
    eapply runs_then; [eapply Ss; [exact I3|split; [exact O2|reflexivity]]|]. intros c4 I4 G4. eapply runs_then; [eapply As; [exact I4|exact G4]|]. intros c5 I5 G5. eapply Tl; [exact I5|exact G5].
  - pose proof (inv_safe env c I) as NU. unfold wstep in NU. rewrite Es in NU. cbv zeta in NU. change (t_txs (with_stack c rest)) with (t_txs c) in NU. destruct (find k (t_txs c)) eqn:F; [|congruence].
    eapply runs_step; [exact I|unfold wstep; rewrite Es; cbv zeta; change (t_txs (with_stack c rest)) with (t_txs c); rewrite F; reflexivity|]. intros I1. eapply At; [exact I1|]. split; [exact O|reflexivity].
  - eapply runs_step; [exact I|unfold wstep; rewrite Es; reflexivity|]. intros I1. apply runs_now; [exact I1|]. split; auto.
Qed.
Lemma all_shut : forall env l c, inv true c -> gone l c -> runs env c (gone []).
Proof. intros env l. induction l as [|f l IH]; intros c I G; [apply runs_now; auto|]. eapply runs_then; [eapply any_shut; eauto|]. intros c1 I1 G1. apply IH; auto. Qed.
(** with the connection still open *)
Definition left_with (rest : list frame) (c : conn) : Prop := t_stack c = rest /\ (t_open c = false -> True).
Lemma user_open : forall u c, t_open c = true -> (t_open (user u c) = true /\ t_stack (user u c) = t_stack c) \/ t_open (user u c) = false.
Proof.
  intros u c O. destruct u as [|h ok|h ok|ok|i|a b x e|i a b x e f]; cbn [user].
  - right. unfold basic_close. rewrite O. reflexivity.
  - left. destruct (_ && _); [|auto]. unfold transact. cbv zeta. destruct ok; [destruct (has_handler _)|]; auto.
  - left. destruct (_ && _); [|auto]. unfold transact. cbv zeta. destruct ok; [destruct (has_handler _)|]; auto.
  - left. rewrite O. unfold transact. cbv zeta. destruct ok; [destruct (has_handler _)|]; auto.
  - left. unfold stream_delete. cbv zeta. destruct (_ =? 0); auto.
  - left. auto.
  - left. auto.
Qed.
Definition empty (c : conn) : Prop := t_stack c = [].
Lemma gone_empty : forall env c, inv true c -> t_open c = false -> runs env c empty.
Proof. intros env c I O. destruct (all_shut env (t_stack c) c I (conj O eq_refl)) as (n & c1 & A & B & C & D). exists n, c1. auto. Qed.
Lemma script_open : forall env l c rest, (forall c', inv true c' -> t_stack c' = rest -> runs env c' empty) -> inv true c -> t_stack c = KScript l :: rest -> runs env c empty.
Proof.
  intros env l. induction l as [|u l IH]; intros c rest K I Es.
  - eapply runs_step; [exact I|unfold wstep; rewrite Es; reflexivity|]. intros I1. apply K; auto.
  - destruct (t_open c) eqn:O; [|apply gone_empty; auto]. eapply runs_step; [exact I|unfold wstep; rewrite Es; reflexivity|]. intros I1.
    destruct (user_open u (push (with_stack c rest) [KScript l]) O) as [(A & B)|A]; [|apply gone_empty; auto]. eapply IH; [exact K|exact I1|]. rewrite B. reflexivity.
Qed.
Lemma call_open : forall env b c rest, (forall c', inv true c' -> t_stack c' = rest -> runs env c' empty) -> inv true c -> t_stack c = KCall b :: rest -> runs env c empty.
Proof. intros env b c rest K I Es. eapply runs_step; [exact I|unfold wstep; rewrite Es; reflexivity|]. intros I1. eapply script_open; [exact K|exact I1|reflexivity]. Qed.
Lemma completes : forall env l c, inv true c -> t_stack c = l -> runs env c empty.
Proof.
  intros env l. induction l as [|f l IH]; intros c I Es; [apply runs_now; auto|]. destruct (t_open c) eqn:O; [|apply gone_empty; auto].
  pose proof (phase_open _ _ _ (j_phase _ _ I) O) as CL. unfold closing in CL. rewrite Es in CL. cbn in CL.
  destruct f as [s|b| | | |o|k| | | |b|i id]; try discriminate.
  - eapply script_open; eauto.
  - eapply call_open; eauto.
  - eapply runs_step; [exact I|unfold wstep; rewrite Es; reflexivity|]. intros I1. unfold status_call in *. destruct (t_onstatus (with_stack c l)); [|apply IH; auto]. eapply call_open; [exact IH|exact I1|reflexivity].
  - eapply runs_step; [exact I|unfold wstep; rewrite Es; reflexivity|]. intros I1. apply gone_empty; auto. unfold basic_close. cbn. rewrite O. reflexivity.
  - eapply runs_step; [exact I|unfold wstep; rewrite Es; reflexivity|]. intros I1. apply IH; auto. destruct (s_open _); reflexivity.
Qed.
Lemma empties : forall env c, reachable env decent c -> exists n c1, steps env n c c1 /\ t_stack c1 = [].
Proof. intros env c R. destruct (completes env _ c (reach_inv true _ _ _ decent_ok R) eq_refl) as (n & c1 & S & _ & H). exists n, c1. auto. Qed.
(** a response to a number without a handler does nothing, nor one to a number that is not whole *)
Lemma ignored : forall env c q success a, reachable env any c -> t_stack c = [] -> q <> DNaN -> (forall tid, q = DNum tid -> handled tid (t_log c) = registered tid (t_log c)) ->
  let c1 := do_op (OMsg (MResponse success q a)) c in t_log c1 = t_log c /\ t_stack c1 = [] /\ t_open c1 = t_open c /\ t_streams c1 = t_streams c /\ t_str c1 = t_str c.
Proof.
  intros env c q success a R Es N H c1. subst c1. cbn [do_op on_msg]. destruct q as [z| |]; cbn [find_tx]; [|auto|congruence]. destruct (find z (t_txs c)) as [t|] eqn:F; [|auto]. specialize (H z eq_refl).
  pose proof (reach_inv false _ _ _ any_ok R) as [I1 I2 I3 I4 I5 I6 I7]. assert (CL : closing c = []) by (unfold closing; rewrite Es; reflexivity). rewrite CL in *. specialize (I5 z). cbn [pend] in I5. rewrite (cnt_erase _ _ _ _ z I2 F), Z.eqb_refl in I5.
  destruct t as [h|[|]|i]; cbn [has_handler andb] in I5; try lia. cbn [handle]. auto.
Qed.
(** ** Running *)
Open Scope res_scope.
Fixpoint drain (env : nat -> list ucall) (n : nat) (c : conn) : res conn :=
  match n with O => Ok c | S n => match t_stack c with [] => Ok c | _ => c1 <- wstep env c ;; drain env n c1 end end.
Fixpoint acts (env : nat -> list ucall) (ops : list wop) (c : conn) : res conn :=
  match ops with [] => Ok c | o :: r => match t_stack c with [] => c1 <- drain env 50 (do_op o c) ;; acts env r c1 | _ => Rej end end.
Close Scope res_scope.
Lemma drain_later : forall env kind n c0 c c1, later env kind c0 c -> drain env n c = Ok c1 -> later env kind c0 c1.
Proof.
  intros env kind n. induction n as [|n IH]; intros c0 c c1 L D; cbn in D; [apply Ok_inj in D; subst; exact L|]. destruct (t_stack c); [apply Ok_inj in D; subst; exact L|].
  destruct (wstep env c) as [c2| |] eqn:W; try discriminate. cbn in D. eapply IH; [|exact D]. eapply later_step; eauto.
Qed.
Lemma acts_later : forall env (kind : wop -> Prop) ops c0 c c1, Forall kind ops -> later env kind c0 c -> acts env ops c = Ok c1 -> later env kind c0 c1.
Proof.
  intros env kind ops. induction ops as [|o r IH]; intros c0 c c1 F L D; cbn [acts] in D; [apply Ok_inj in D; subst; exact L|]. destruct (t_stack c) eqn:E; [|discriminate]. inversion F; subst.
  destruct (drain env 50 (do_op o c)) as [c2| |] eqn:W; try discriminate. cbn in D. eapply IH; [assumption| |exact D]. eapply drain_later; [|exact W]. apply later_op; auto.
Qed.
