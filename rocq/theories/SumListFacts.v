(** Facts about a SumList of fragments seen as a sequence of (name, fragment) pairs; used by the RecvFlow and SendFlow proofs. *)
From Verif Require Import Base BaseFacts LinkedList LinkedListSpec LinkedListProofs.
From Coq Require Import Sorted Permutation.
Ltac Zify.zify_post_hook ::= Z.div_mod_to_equations.

Section Buf.
Variable T : Type.
Variable size_f : T -> Z.
Notation SL := (SL T size_f).

Definition fname (a : list (Z * T)) : Z := match a with [] => 0 | (n, _) :: _ => n end.
Definition lname (a : list (Z * T)) : Z := match rev a with [] => 0 | (n, _) :: _ => n end.

Lemma lname_snoc : forall a n g, lname (a ++ [(n, g)]) = n.
Proof. intros. unfold lname. rewrite rev_app_distr. reflexivity. Qed.

Lemma SL_init : forall blank, exists b, sum_init blank = Ok b /\ SL b [].
Proof.
  intros blank. destruct (L_init T blank) as (l & E & HL & _). exists (mkSum l 0). unfold sum_init. rewrite E. cbn [rbind]. split; [reflexivity|].
  split; [exact HL|reflexivity].
Qed.
Lemma SL_nodup : forall b a, SL b a -> NoDup (map fst a).
Proof. intros b a (HL & _). apply (L_names_ok _ _ _ HL). Qed.
Lemma SL_pos : forall b a n g, SL b a -> In (n, g) a -> 0 < n.
Proof.
  intros b a n g (HL & _) Hin. destruct (L_names_ok _ _ _ HL) as [_ Hp]. rewrite Forall_forall in Hp. apply Hp.
  apply in_map_iff. exists (n, g). auto.
Qed.
Lemma SL_unique : forall b a n g g', SL b a -> In (n, g) a -> In (n, g') a -> g = g'.
Proof.
  intros b a n g g' HS H1 H2. pose proof (SL_nodup _ _ HS) as Hnd. clear HS. induction a as [|(m, k) a IH]; [destruct H1|].
  cbn [map fst] in Hnd. apply NoDup_cons_iff in Hnd. destruct Hnd as [Hni Hnd].
  destruct H1 as [E1|H1], H2 as [E2|H2].
  - congruence.
  - injection E1 as -> _. exfalso. apply Hni. apply in_map_iff. exists (n, g'). auto.
  - injection E2 as -> _. exfalso. apply Hni. apply in_map_iff. exists (n, g). auto.
  - auto.
Qed.
Lemma fname_zero : forall b a, SL b a -> fname a = 0 -> a = [].
Proof. intros b [|(n, g) a] HS E; [reflexivity|]. cbn [fname] in E. pose proof (SL_pos b _ n g HS (or_introl eq_refl)). lia. Qed.

Lemma SL_at : forall b a n g, SL b a -> In (n, g) a -> at_ (s_list b) n = Ok g.
Proof. intros b a n g (HL & _) Hin. eapply L_val; eauto. Qed.
Lemma SL_at_dead : forall b a n, SL b a -> ~ In n (map fst a) -> at_ (s_list b) n = Rej.
Proof.
  intros b a n (HL & _) Hni. unfold at_. destruct (L_has _ _ a n HL) as (x & -> & Hx). cbn [rbind]. destruct x; [|reflexivity].
  exfalso. apply Hni, Hx. reflexivity.
Qed.
Lemma SL_at_cases : forall b a n, SL b a -> (exists g, In (n, g) a /\ at_ (s_list b) n = Ok g) \/ (~ In n (map fst a) /\ at_ (s_list b) n = Rej).
Proof.
  intros b a n HS. destruct (in_dec Z.eq_dec n (map fst a)) as [Hin|Hni].
  - left. apply in_map_iff in Hin. destruct Hin as ((m, g) & <- & Hin). exists g. split; [exact Hin|]. eapply SL_at; eauto.
  - right. split; [exact Hni|]. eapply SL_at_dead; eauto.
Qed.
Lemma SL_first : forall b a, SL b a -> first (s_list b) = Ok (fname a).
Proof. intros b a (HL & _). apply L_first, HL. Qed.
Lemma SL_last : forall b a, SL b a -> last_ (s_list b) = Ok (lname a).
Proof. intros b a (HL & _). apply L_last, HL. Qed.
Lemma SL_size : forall b a, SL b a -> size (s_list b) = zlen a.
Proof. intros b a (HL & _). apply (L_length _ _ _ HL). Qed.
Lemma SL_fuel : forall b a, SL b a -> (length a + 2 <= Z.to_nat (l_n (s_list b)))%nat.
Proof. intros b a (HL & _). destruct (L_length _ _ _ HL) as [H _]. lia. Qed.
Lemma SL_empty : forall b a, SL b a -> empty (s_list b) = Ok (match a with [] => true | _ => false end).
Proof.
  intros b a HS. pose proof (SL_first b a HS) as Hf. unfold first, next, is_using in Hf. change (0 =? 0) with true in Hf. cbn [rbind] in Hf.
  unfold empty. rewrite Hf. cbn [rbind]. f_equal. destruct a as [|(n, g) a]; [reflexivity|]. cbn [fname].
  pose proof (SL_pos b _ n g HS (or_introl eq_refl)). lia.
Qed.
Lemma SL_next : forall b a1 n g a2, SL b (a1 ++ (n, g) :: a2) -> next (s_list b) n = Ok (fname a2).
Proof.
  intros b a1 n g a2 (HL & _).
  assert (E : 0 :: map fst (a1 ++ (n, g) :: a2) ++ [0] = (0 :: map fst a1) ++ n :: (map fst a2 ++ [0])).
  { rewrite map_app. cbn [map fst]. cbn [app]. rewrite <- app_assoc. reflexivity. }
  destruct a2 as [|(m, k) a2]; cbn [fname].
  - eapply (L_next _ _ _ _ _ _ HL E). reflexivity.
  - eapply (L_next _ _ _ _ _ _ HL E). reflexivity.
Qed.
Lemma SL_prev : forall b a1 n g a2, SL b (a1 ++ (n, g) :: a2) -> prev (s_list b) n = Ok (lname a1).
Proof.
  intros b a1 n g a2 (HL & _).
  assert (E : 0 :: map fst (a1 ++ (n, g) :: a2) ++ [0] = (0 :: map fst a1) ++ n :: (map fst a2 ++ [0])).
  { rewrite map_app. cbn [map fst]. cbn [app]. rewrite <- app_assoc. reflexivity. }
  unfold lname. destruct (rev a1) as [|(m, k) r] eqn:Er; apply (f_equal (@rev _)) in Er; rewrite rev_involutive in Er; cbn [rev] in Er; subst a1.
  - eapply (L_prev _ _ _ _ _ _ HL E 0 []). reflexivity.
  - eapply (L_prev _ _ _ _ _ _ HL E m (0 :: map fst (rev r))). rewrite map_app. reflexivity.
Qed.

Lemma split_unique : forall (a1 a2 b1 b2 : list (Z * T)) n v w, NoDup (map fst (a1 ++ (n, v) :: a2)) ->
  a1 ++ (n, v) :: a2 = b1 ++ (n, w) :: b2 -> a1 = b1 /\ v = w /\ a2 = b2.
Proof.
  induction a1 as [|(m, u) a1 IH]; intros a2 b1 b2 n v w Hnd E; cbn [app] in *.
  - destruct b1 as [|(m', u') b1]; cbn [app] in E; [injection E as <- <-; auto|]. injection E as <- <- E. exfalso.
    cbn [map fst] in Hnd. apply NoDup_cons_iff in Hnd. apply (proj1 Hnd). rewrite E, map_app. apply in_or_app. right. left. reflexivity.
  - cbn [map fst] in Hnd. apply NoDup_cons_iff in Hnd. destruct Hnd as [Hni Hnd].
    destruct b1 as [|(m', u') b1]; cbn [app] in E; injection E as <- <- E.
    + exfalso. apply Hni. rewrite map_app. apply in_or_app. right. left. reflexivity.
    + destruct (IH a2 b1 b2 n v w Hnd E) as (-> & -> & ->). auto.
Qed.

(** insertion after the last element of [a1] *)
Lemma SL_insert : forall b a1 a2 g, SL b (a1 ++ a2) -> exists b' m, sum_add_value size_f b g (lname a1) true = Ok (b', m)
  /\ 0 < m /\ ~ In m (map fst (a1 ++ a2)) /\ SL b' (a1 ++ (m, g) :: a2).
Proof.
  intros b a1 a2 g HS. pose proof (SL_nodup _ _ HS) as Hnd.
  destruct (SL_add T size_f b _ (lname a1) g true HS) as [(Hn & Hl & _)|(b' & m & a' & He & (Hm & Hfr) & Hins & HS' & _)].
  - exfalso. apply Hl. unfold lname in *. destruct (rev a1) as [|(m, k) r] eqn:Er; [lia|].
    apply (f_equal (@rev _)) in Er. rewrite rev_involutive in Er. cbn [rev] in Er. subst a1. unfold live.
    rewrite !map_app. cbn [map fst]. rewrite !in_app_iff. cbn [In]. tauto.
  - exists b', m. split; [exact He|]. split; [exact Hm|]. split; [exact Hfr|]. replace (a1 ++ (m, g) :: a2) with a'; [exact HS'|].
    unfold lname in Hins. destruct (rev a1) as [|(k, u) r] eqn:Er; apply (f_equal (@rev _)) in Er; rewrite rev_involutive in Er; cbn [rev] in Er; subst a1.
    + cbn [inserted] in Hins. destruct Hins as [(_ & ->)|(b1 & v & b2 & E & _)]; [reflexivity|]. exfalso.
      assert (Hin : In (0, v) ([] ++ a2)) by (rewrite E; apply in_or_app; right; left; reflexivity). pose proof (SL_pos _ _ _ _ HS Hin). lia.
    + cbn [inserted] in Hins. destruct Hins as [(E & _)|(b1 & v & b2 & E & ->)].
      * exfalso. assert (Hin : In (k, u) ((rev r ++ [(k, u)]) ++ a2)) by (rewrite !in_app_iff; cbn [In]; tauto).
        pose proof (SL_pos _ _ _ _ HS Hin). lia.
      * rewrite <- app_assoc in *. cbn [app] in *. apply split_unique in E; [|exact Hnd]. destruct E as (-> & -> & ->). reflexivity.
Qed.

(** append is addBefore the sentinel *)
Lemma SL_append : forall b a g, SL b a -> exists b' m, sum_add_value size_f b g 0 false = Ok (b', m)
  /\ 0 < m /\ ~ In m (map fst a) /\ SL b' (a ++ [(m, g)]).
Proof.
  intros b a g HS. destruct (SL_add T size_f b a 0 g false HS) as [(H & _)|(b' & m & a' & He & (Hm & Hfr) & Hins & HS' & _)]; [lia|].
  exists b', m. split; [exact He|]. split; [exact Hm|]. split; [exact Hfr|].
  pose proof (L_inserted_sentinel T (s_list b) a (m, g) a' false (proj1 HS) Hins) as ->. exact HS'.
Qed.

Lemma SL_remove_at : forall b a1 n g a2, SL b (a1 ++ (n, g) :: a2) -> exists b', sum_remove size_f b n = Ok (b', true)
  /\ SL b' (a1 ++ a2) /\ l_n (s_list b') = l_n (s_list b).
Proof.
  intros b a1 n g a2 HS. pose proof (SL_nodup _ _ HS) as Hnd.
  destruct (SL_remove T size_f b _ n HS) as [(Hl & _)|(b1 & v & b2 & s' & E & He & HS' & _ & Hn)].
  - exfalso. apply Hl. unfold live. rewrite map_app. apply in_or_app. right. left. reflexivity.
  - apply split_unique in E; [|exact Hnd]. destruct E as (-> & -> & ->). exists s'. auto.
Qed.
Lemma SL_remove_dead : forall b a n, SL b a -> ~ In n (map fst a) -> sum_remove size_f b n = Ok (b, false).
Proof.
  intros b a n HS Hni. destruct (SL_remove T size_f b a n HS) as [(_ & E)|(b1 & v & b2 & s' & E & _)]; [exact E|].
  exfalso. apply Hni. rewrite E, map_app. apply in_or_app. right. left. reflexivity.
Qed.
Lemma SL_sum_clear : forall b a, SL b a -> exists b', sum_clear size_f b = Ok b' /\ SL b' [].
Proof.
  intros b a HS. destruct (SL_clear T size_f a (Z.to_nat (l_n (s_list b))) b HS) as (b' & E & HS' & _).
  - pose proof (SL_fuel b a HS). lia.
  - exists b'. auto.
Qed.
End Buf.
Arguments fname {T}. Arguments lname {T}.
