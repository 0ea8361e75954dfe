From Verif Require Import Base BaseFacts WriteReceipt WriteReceiptSpec.
Ltac Zify.zify_post_hook ::= Z.div_mod_to_equations.

Lemma lset_nth_length : forall A (l : list A) i x, length (lset_nth l i x) = length l.
Proof. induction l; intros [|i] x; cbn [lset_nth length]; auto. Qed.
Lemma nth_lset_same : forall A (l : list A) i x d, (i < length l)%nat -> nth i (lset_nth l i x) d = x.
Proof. induction l; intros [|i] x d H; cbn [lset_nth length nth] in *; try lia; auto. apply IHl. lia. Qed.
Lemma nth_lset_other : forall A (l : list A) i j x d, i <> j -> nth j (lset_nth l i x) d = nth j l d.
Proof. induction l; intros [|i] [|j] x d H; cbn [lset_nth nth]; auto; try congruence. Qed.
Lemma lset_nth_out : forall A (l : list A) i x, (length l <= i)%nat -> lset_nth l i x = l.
Proof. induction l; intros [|i] x H; cbn [lset_nth length] in *; auto; try lia. f_equal. apply IHl. lia. Qed.

Lemma fair_app : forall h o, fair (h ++ [o]) -> fair h /\ fair_op h (at_end h) o.
Proof.
  intros h o H. split.
  - intros h1 p h2 E. apply (H h1 p (h2 ++ [o])). rewrite E, <- app_assoc. reflexivity.
  - apply (H h o []). reflexivity.
Qed.

Lemma ups_app : forall h o i, ups (h ++ [o]) i = ups h i + match o with RUp j => if Nat.eqb j i then 1 else 0 | _ => 0 end.
Proof. intros. unfold ups, zlen. rewrite filter_app, app_length. destruct o; cbn [filter length]; try lia. destruct (Nat.eqb _ _); cbn [length]; lia. Qed.
Lemma downs_app : forall h o i, downs (h ++ [o]) i = downs h i + match o with RDown j => if Nat.eqb j i then 1 else 0 | _ => 0 end.
Proof. intros. unfold downs, zlen. rewrite filter_app, app_length. destruct o; cbn [filter length]; try lia. destruct (Nat.eqb _ _); cbn [length]; lia. Qed.
Lemma news_app : forall h o, news (h ++ [o]) = (news h + match o with RNew _ _ _ => 1 | _ => 0 end)%nat.
Proof. intros. unfold news. rewrite filter_app, app_length. destruct o; reflexivity. Qed.
Lemma at_end_app : forall h o, at_end (h ++ [o]) = rstep (at_end h) o.
Proof. intros. unfold at_end, rrun. rewrite fold_left_app. reflexivity. Qed.

Lemma rstep_length : forall s o, length (rs_all (rstep s o)) = (length (rs_all s) + match o with RNew _ _ _ => 1 | _ => 0 end)%nat.
Proof.
  intros s o. assert (Hf : forall i c b, length (rs_all (r_finish s i c b)) = length (rs_all s)) by (intros; unfold r_finish; cbn [rs_all]; apply lset_nth_length).
  assert (Ha : forall i, length (rs_all (r_abandon s i)) = length (rs_all s)) by (intros; unfold r_abandon; destruct (_ && _); [apply Hf|reflexivity]).
  destruct o; cbn [rstep]; unfold r_new, r_up, r_down, r_start, r_needed, r_set_start, r_set_finish, r_set_rtx, r_set_parent, r_set_hook, rset;
    cbn [rs_all]; rewrite ?lset_nth_length, ?app_length; cbn [length]; try lia.
  - destruct (_ =? 0); [rewrite Hf; lia|cbn [rs_all]; rewrite lset_nth_length; lia].
  - destruct (c_aband _); [lia|]. destruct (_ || _); [rewrite Ha; lia|lia].
  - rewrite Ha. lia.
Qed.

(** What is true of receipt [i] after a fair history. *)
Definition calls_in (l : list (nat * bool)) (i : nat) := filter (fun p => Nat.eqb (fst p) i) l.
Definition RI (h : list rop) (s : rstate) (i : nat) : Prop :=
  let c := rget s i in
  c_use c = ups h i - downs h i /\ 0 <= downs h i <= ups h i /\ ups h i <= U64MAX
  /\ (c_aband c = true -> 0 < ups h i)
  /\ (c_hook c = true -> In (RHook i) h /\ calls_in (rs_log s) i = [] /\ c_aband c = false)
  /\ (c_hook c = false -> In (RHook i) h -> calls_in (rs_log s) i = [(i, c_aband c)] /\ (c_aband c = false -> downs h i = ups h i /\ 0 < ups h i))
  /\ (~ In (RHook i) h -> c_hook c = false /\ calls_in (rs_log s) i = []).

Lemma calls_in_app : forall l j b i, calls_in (l ++ [(j, b)]) i = calls_in l i ++ (if Nat.eqb j i then [(j, b)] else []).
Proof. intros. unfold calls_in. rewrite filter_app. cbn [filter fst]. destruct (Nat.eqb j i); reflexivity. Qed.

(** Steps that leave use count, abandonment, callback and log of every receipt alone. *)
Definition same_core (c c' : rcpt) : Prop := c_use c = c_use c' /\ c_aband c = c_aband c' /\ c_hook c = c_hook c'.
Lemma RI_ext : forall h s h' s' i, RI h s i -> ups h' i = ups h i -> downs h' i = downs h i -> (In (RHook i) h' <-> In (RHook i) h) ->
  same_core (rget s i) (rget s' i) -> calls_in (rs_log s') i = calls_in (rs_log s) i -> RI h' s' i.
Proof.
  intros h s h' s' i (A & B & C & D & E & F & G) Hu Hd Hh (S1 & S2 & S3) Hc. unfold RI. rewrite Hu, Hd, Hc, Hh, <- S1, <- S2, <- S3. repeat (split; [assumption|]); assumption.
Qed.

Lemma rget_rset : forall s j c i, rget (rset s j c) i = if Nat.eqb j i then (if Nat.ltb j (length (rs_all s)) then c else rget s i) else rget s i.
Proof.
  intros. unfold rget, rset. cbn [rs_all]. destruct (Nat.eqb_spec j i).
  - subst. destruct (Nat.ltb_spec i (length (rs_all s))).
    + apply nth_lset_same. assumption.
    + rewrite lset_nth_out by assumption. reflexivity.
  - apply nth_lset_other. assumption.
Qed.
Lemma rset_core : forall s j c i, same_core (rget s j) c -> same_core (rget s i) (rget (rset s j c) i).
Proof.
  intros s j c i H. rewrite rget_rset. destruct (Nat.eqb_spec j i); [subst|repeat split].
  destruct (Nat.ltb _ _); [exact H|repeat split].
Qed.

Lemma rget_finish : forall s j c b i, rget (r_finish s j c b) i =
  if Nat.eqb j i && Nat.ltb j (length (rs_all s)) then mkRcpt (c_start c) (c_finish c) (c_rtx c) None (c_origin c) (c_started c) (c_aband c) (c_use c) false else rget s i.
Proof.
  intros. unfold r_finish. unfold rget. cbn [rs_all]. destruct (Nat.eqb_spec j i); cbn [andb].
  - subst. destruct (Nat.ltb_spec i (length (rs_all s))).
    + apply nth_lset_same. assumption.
    + rewrite lset_nth_out by assumption. reflexivity.
  - apply nth_lset_other. assumption.
Qed.
Lemma rget_out : forall s i, (length (rs_all s) <= i)%nat -> rget s i = c_none.
Proof. intros. apply nth_overflow. assumption. Qed.

Lemma calls_finish : forall s j c b i, calls_in (rs_log (r_finish s j c b)) i = calls_in (rs_log s) i ++ (if c_hook c && Nat.eqb j i then [(j, b)] else []).
Proof.
  intros. unfold r_finish. cbn [rs_log]. destruct (c_hook c); cbn [andb]; [apply calls_in_app|rewrite app_nil_r; reflexivity].
Qed.

Lemma in_snoc : forall (o x : rop) h, In x (h ++ [o]) <-> In x h \/ o = x.
Proof. intros. rewrite in_app_iff. cbn [In]. tauto. Qed.

Lemma RI_abandon : forall h s j i, RI h s j -> RI h s i -> RI h (r_abandon s j) i.
Proof.
  intros h s j i Hj H. unfold r_abandon. set (c := rget s j).
  destruct (negb (c_use c =? 0) && negb (c_aband c)) eqn:E; [|exact H].
  apply andb_prop in E. destruct E as [E1 E2]. apply negb_true_iff in E1, E2.
  destruct (Nat.eqb_spec j i) as [->|Hne].
  - clear Hj. destruct (Nat.ltb_spec i (length (rs_all s))) as [Hl|Hl].
    2:{ exfalso. unfold c in E1. rewrite rget_out in E1 by assumption. discriminate. }
    unfold RI in *. rewrite rget_finish, calls_finish. rewrite Nat.eqb_refl, (proj2 (Nat.ltb_lt _ _) Hl), andb_true_r. cbn [andb c_use c_aband c_hook c_start c_finish].
    fold c in H. destruct H as (A & B & C & D & E & F & G).
    split; [exact A|]. split; [exact B|]. split; [exact C|]. split; [lia|]. split; [discriminate|].
    destruct (c_hook c) eqn:Eh.
    + destruct (E eq_refl) as (I1 & I2 & I3). rewrite I2. cbn [app]. split; [intros _ _; split; [reflexivity|discriminate]|]. intros X. contradiction.
    + rewrite app_nil_r. split; [|intros X; split; [reflexivity|apply G, X]].
      intros _ X. destruct (F eq_refl X) as (_ & Y). specialize (Y E2). lia.
  - apply (RI_ext h s); try reflexivity; auto.
    + rewrite rget_finish. destruct (Nat.eqb_spec j i); [contradiction|]. repeat split.
    + rewrite calls_finish. destruct (Nat.eqb_spec j i); [contradiction|]. rewrite andb_false_r, app_nil_r. reflexivity.
Qed.

Lemma RI_step : forall h s o, length (rs_all s) = news h -> (forall i, RI h s i) -> fair_op h s o -> forall i, RI (h ++ [o]) (rstep s o) i.
Proof.
  intros h s o Hlen HI Ho i. pose proof (HI i) as Hi.
  assert (Hin : forall o', (forall k, o' <> RHook k) -> (In (RHook i) (h ++ [o']) <-> In (RHook i) h)).
  { intros o' Hk. rewrite in_snoc. split; [|tauto]. intros [X|X]; [exact X|]. destruct (Hk i X). }
  assert (Hset : forall j c, same_core (rget s j) c -> (forall k, o <> RHook k) -> (forall k, o <> RUp k) -> (forall k, o <> RDown k) -> RI (h ++ [o]) (rset s j c) i).
  { intros j c Hc H1 H2 H3. apply (RI_ext h s); auto.
    - rewrite ups_app. destruct o; try lia. destruct (H2 i0); reflexivity.
    - rewrite downs_app. destruct o; try lia. destruct (H3 i0); reflexivity.
    - apply rset_core, Hc. }
  assert (Hab : forall j s', (forall k, RI h s' k) -> (forall k, o <> RHook k) -> (forall k, o <> RUp k) -> (forall k, o <> RDown k) -> RI (h ++ [o]) (r_abandon s' j) i).
  { intros j s' Hs' H1 H2 H3. apply (RI_ext h (r_abandon s' j)); auto.
    - apply RI_abandon; apply Hs'.
    - rewrite ups_app. destruct o; try lia. destruct (H2 i0); reflexivity.
    - rewrite downs_app. destruct o; try lia. destruct (H3 i0); reflexivity.
    - repeat split. }
  destruct o as [og sw fw|j|j|j|now j|j|j t|j t|j b|j p|j]; cbn [rstep]; try (apply Hset; [repeat split|discriminate..]).
  - (* new *) apply (RI_ext h s); auto.
    + rewrite ups_app; lia. + rewrite downs_app; lia. + apply Hin; discriminate.
    + unfold r_new, rget. cbn [rs_all]. destruct (Nat.lt_ge_cases i (length (rs_all s))) as [Hl|Hl].
      * rewrite app_nth1 by assumption. repeat split.
      * rewrite (nth_overflow (rs_all s)) by assumption. destruct (Nat.eq_dec i (length (rs_all s))) as [->|Hne].
        -- rewrite nth_middle. repeat split.
        -- rewrite nth_overflow by (rewrite app_length; cbn [length]; lia). repeat split.
  - (* up *) cbn [fair_op] in Ho. destruct Ho as (Hn & Hu & Hd). unfold r_up. destruct (Nat.eqb_spec j i) as [->|Hne].
    + unfold RI in *. rewrite rget_rset, Nat.eqb_refl. rewrite Hlen. rewrite (proj2 (Nat.ltb_lt _ _) Hn).
      rewrite ups_app, downs_app, Nat.eqb_refl. cbn [c_use c_aband c_hook rset rs_log].
      destruct Hi as (A & B & C & D & E & F & G). unfold U64MAX in *.
      assert (Hw : wrap64 (c_use (rget s i) + 1) = c_use (rget s i) + 1) by (unfold wrap64; rewrite Z.mod_small; lia).
      rewrite Hw. split; [lia|]. split; [lia|]. split; [lia|]. split; [intros X; specialize (D X); lia|].
      rewrite !Hin by discriminate. split; [exact E|]. split.
      * intros X Y. destruct (F X Y) as (P & Q). split; [exact P|]. intros Z0. destruct (Q Z0). exfalso. apply Hd. lia.
      * exact G.
    + apply (RI_ext h s); auto.
      * rewrite ups_app. destruct (Nat.eqb_spec j i); [contradiction|lia]. * rewrite downs_app. lia. * apply Hin; discriminate.
      * rewrite rget_rset. destruct (Nat.eqb_spec j i); [contradiction|]. repeat split.
  - (* down *) cbn [fair_op] in Ho. unfold r_down. set (c := rget s j).
    assert (Hj := HI j). destruct Hj as (Aj & Bj & Cj & _). fold c in Aj.
    assert (Hw : wrap64 (c_use c - 1) = c_use c - 1) by (unfold wrap64, U64MAX in *; rewrite Z.mod_small; lia).
    cbn [c_use]. rewrite Hw.
    destruct (Nat.ltb_spec j (length (rs_all s))) as [Hl|Hl].
    2:{ exfalso. unfold c in Aj. rewrite rget_out in Aj by assumption. cbn [c_none c_use] in Aj. lia. }
    destruct (Nat.eqb_spec j i) as [->|Hne].
    + unfold RI in *. fold c in Hi. destruct Hi as (A & B & C & D & E & F & G).
      rewrite !ups_app, !downs_app, Nat.eqb_refl. rewrite !Hin by discriminate.
      destruct (Z.eqb_spec (c_use c - 1) 0) as [E0|E0].
      * rewrite rget_finish, calls_finish. rewrite Nat.eqb_refl, (proj2 (Nat.ltb_lt _ _) Hl), andb_true_r. cbn [andb c_use c_aband c_hook c_start c_finish].
        split; [lia|]. split; [lia|]. split; [lia|]. split; [intros X; specialize (D X); lia|]. split; [discriminate|].
        destruct (c_hook c) eqn:Eh.
        -- destruct (E eq_refl) as (I1 & I2 & I3). rewrite I2, I3. cbn [app]. split; [intros _ _; split; [reflexivity|lia]|]. intros X. contradiction.
        -- rewrite app_nil_r. split; [|intros X; split; [reflexivity|apply G, X]].
           intros _ X. destruct (F eq_refl X) as (P & Y). split; [exact P|]. intros Z0. specialize (Y Z0). lia.
      * rewrite rget_rset, Nat.eqb_refl, (proj2 (Nat.ltb_lt _ _) Hl). cbn [c_use c_aband c_hook rset rs_log].
        split; [lia|]. split; [lia|]. split; [lia|]. split; [intros X; specialize (D X); lia|]. split; [exact E|]. split; [|exact G].
        intros X Y. destruct (F X Y) as (P & Q). split; [exact P|]. intros Z0. destruct (Q Z0). lia.
    + apply (RI_ext h s); auto.
      * rewrite ups_app. lia. * rewrite downs_app. destruct (Nat.eqb_spec j i); [contradiction|lia]. * apply Hin; discriminate.
      * destruct (c_use c - 1 =? 0).
        -- rewrite rget_finish. destruct (Nat.eqb_spec j i); [contradiction|]. repeat split.
        -- rewrite rget_rset. destruct (Nat.eqb_spec j i); [contradiction|]. repeat split.
      * destruct (c_use c - 1 =? 0); [|reflexivity].
        rewrite calls_finish. destruct (Nat.eqb_spec j i); [contradiction|]. rewrite andb_false_r, app_nil_r. reflexivity.
  - (* examine *) unfold r_needed. assert (Hs : RI (h ++ [RExamine now j]) s i).
    { apply (RI_ext h s); auto. rewrite ups_app; lia. rewrite downs_app; lia. apply Hin; discriminate. repeat split. }
    destruct (c_aband _); [exact Hs|]. destruct (_ || _); [|exact Hs]. apply Hab; try discriminate. exact HI.
  - (* abandon *) apply Hab; try discriminate. exact HI.
  - (* hook *) cbn [fair_op] in Ho. destruct Ho as (Hn & Hno & Hna).  unfold r_set_hook. destruct (Nat.eqb_spec j i) as [->|Hne].
    + unfold RI in *. rewrite rget_rset, Nat.eqb_refl. rewrite Hlen. rewrite (proj2 (Nat.ltb_lt _ _) Hn).
      rewrite ups_app, downs_app. cbn [c_use c_aband c_hook rset rs_log].
      destruct Hi as (A & B & C & D & E & F & G). split; [lia|]. split; [lia|]. split; [lia|]. split; [intros X; specialize (D X); lia|].
      split; [|split; [discriminate|]].
      * intros _. split; [rewrite in_snoc; auto|]. split; [apply G, Hno|exact Hna].
      * rewrite in_snoc. tauto.
    + apply (RI_ext h s); auto.
      * rewrite ups_app. lia. * rewrite downs_app. lia.
      * rewrite in_snoc. split; [|tauto]. intros [X|X]; [exact X|]. congruence.
      * rewrite rget_rset. destruct (Nat.eqb_spec j i); [contradiction|]. repeat split.
Qed.

Lemma RI_init : forall i, RI [] rs_init i.
Proof.
  intros i. unfold RI, rs_init, rget. cbn [rs_all rs_log].
  replace (nth i (@nil rcpt) c_none) with c_none by (destruct i; reflexivity). cbn [c_use c_aband c_hook c_none ups downs].
  unfold ups, downs, calls_in, U64MAX, zlen. cbn. repeat split; try lia; try discriminate; try contradiction.
Qed.
Lemma RI_run : forall h, fair h -> length (rs_all (at_end h)) = news h /\ forall i, RI h (at_end h) i.
Proof.
  induction h as [|o h IH] using rev_ind; intros Hf.
  { split; [reflexivity|]. exact RI_init. }
  apply fair_app in Hf. destruct Hf as [Hf Ho]. destruct (IH Hf) as [Hlen HI]. clear IH.
  split. { rewrite at_end_app, rstep_length, news_app, Hlen. reflexivity. }
  rewrite at_end_app. apply RI_step; assumption.
Qed.

(** ** Exactly once *)
(** The fate of abandonment and callback in one step. *)
Lemma rget_abandon : forall s j i, exists c, rget (r_abandon s j) i = c /\ c_use c = c_use (rget s i) /\
  ((c = rget s i) \/ (i = j /\ c_aband (rget s i) = false /\ c_use (rget s i) <> 0 /\ c_aband c = true /\ c_hook c = false)).
Proof.
  intros s j i. eexists. split; [reflexivity|]. unfold r_abandon. destruct (_ && _) eqn:E; [|auto].
  apply andb_prop in E. destruct E as [E1 E2]. apply negb_true_iff in E1, E2. rewrite rget_finish.
  destruct (Nat.eqb_spec j i); cbn [andb]; [|auto]. subst. destruct (Nat.ltb _ _); cbn [c_use c_aband c_hook]; [|auto].
  split; [reflexivity|]. right. repeat (split; [first [reflexivity|assumption|lia]|]). reflexivity.
Qed.

Lemma step_facts : forall s o i, let c := rget s i in let c' := rget (rstep s o) i in
  (c_aband c = true -> c_aband c' = true)
  /\ (c_aband c = false -> c_aband c' = true -> c_use c <> 0 /\ (o = RAbandon i \/ exists now, o = RExamine now i))
  /\ (c_hook c' = true -> o = RHook i \/ c_hook c = true).
Proof.
  intros s o i c c'.
  assert (Hset : forall j x, c_aband (rget s j) = c_aband x -> (c_hook x = true -> o = RHook i \/ j <> i \/ c_hook (rget s i) = true) ->
     rstep s o = rset s j x -> (c_aband c = true -> c_aband c' = true)
  /\ (c_aband c = false -> c_aband c' = true -> c_use c <> 0 /\ (o = RAbandon i \/ exists now, o = RExamine now i)) /\ (c_hook c' = true -> o = RHook i \/ c_hook c = true)).
  { intros j x Ha Hh E. unfold c, c'. rewrite E, rget_rset. destruct (Nat.eqb_spec j i); [subst j|split; [auto|split; [congruence|auto]]].
    destruct (Nat.ltb _ _); [|split; [auto|split; [congruence|auto]]]. rewrite <- Ha. split; [auto|]. split; [congruence|].
    intros X. destruct (Hh X) as [Y|[Y|Y]]; tauto. }
  assert (Hab : forall j, (o = RAbandon j \/ exists now, o = RExamine now j) -> rstep s o = r_abandon s j -> (c_aband c = true -> c_aband c' = true)
  /\ (c_aband c = false -> c_aband c' = true -> c_use c <> 0 /\ (o = RAbandon i \/ exists now, o = RExamine now i)) /\ (c_hook c' = true -> o = RHook i \/ c_hook c = true)).
  { intros j Hj E. unfold c, c'. rewrite E. destruct (rget_abandon s j i) as (x & Ex & Hu & [->|(-> & A & B & C & D)]); rewrite Ex.
    - split; [auto|split; [congruence|auto]].
    - split; [auto|split; [auto|congruence]]. }
  destruct o as [og sw fw|j|j|j|now j|j|j t|j t|j b|j p|j];
    try (eapply Hset; [|intros X|reflexivity]; [reflexivity|cbn [c_hook] in X; destruct (Nat.eqb_spec j i); [subst; auto|auto]]).
  - unfold c, c'. cbn [rstep]. unfold r_new, rget. cbn [rs_all]. destruct (Nat.lt_ge_cases i (length (rs_all s))) as [Hl|Hl].
    + rewrite app_nth1 by assumption. split; [auto|split; [congruence|auto]].
    + rewrite (nth_overflow (rs_all s)) by assumption. destruct (Nat.eq_dec i (length (rs_all s))) as [->|Hne].
      * rewrite nth_middle. cbn. split; [discriminate|split; [discriminate|discriminate]].
      * rewrite nth_overflow by (rewrite app_length; cbn [length]; lia). cbn. split; [discriminate|split; [discriminate|discriminate]].
  - unfold c, c'. cbn [rstep]. unfold r_down. cbn [c_use]. destruct (_ =? 0).
    + rewrite rget_finish. destruct (Nat.eqb_spec j i); cbn [andb]; [subst|split; [auto|split; [congruence|auto]]].
      destruct (Nat.ltb _ _); cbn [c_aband c_hook c_use]; split; auto; split; auto; congruence.
    + rewrite rget_rset. destruct (Nat.eqb_spec j i); [subst|split; [auto|split; [congruence|auto]]].
      destruct (Nat.ltb _ _); cbn [c_aband c_hook c_use]; split; auto; split; auto; congruence.
  - cbn [rstep] in *. unfold r_needed in *. destruct (c_aband (rget s j)) eqn:Ea.
    { unfold c, c'. split; [auto|split; [congruence|auto]]. }
    destruct (_ || _).
    + apply (Hab j); [right; eauto|reflexivity].
    + unfold c, c'. split; [auto|split; [congruence|auto]].
  - apply (Hab j); [left; reflexivity|reflexivity].
Qed.

Lemma fair_prefix : forall h1 h2, fair (h1 ++ h2) -> fair h1.
Proof. intros h1 h2 H a o b E. apply (H a o (b ++ h2)). rewrite E, <- app_assoc. reflexivity. Qed.

Lemma aband_stays : forall h2 h1 i, c_aband (rget (at_end h1) i) = true -> c_aband (rget (at_end (h1 ++ h2)) i) = true.
Proof.
  induction h2 as [|o h2 IH] using rev_ind; intros h1 i H; [rewrite app_nil_r; exact H|].
  rewrite app_assoc, at_end_app. apply step_facts. apply IH, H.
Qed.

Lemma delivered_stays : forall h2 h1 i, fair (h1 ++ h2) -> delivered h1 i -> delivered (h1 ++ h2) i.
Proof.
  induction h2 as [|o h2 IH] using rev_ind; intros h1 i Hf H; [rewrite app_nil_r; exact H|].
  rewrite app_assoc in *. apply fair_app in Hf. destruct Hf as [Hf Ho]. specialize (IH h1 i Hf H). destruct IH as (A & B & C).
  destruct (RI_run _ Hf) as [_ HI]. destruct (HI i) as (U & _).
  unfold delivered. rewrite ups_app, downs_app, at_end_app.
  assert (Hup : match o with RUp j => if Nat.eqb j i then 1 else 0 | _ => 0 end = 0).
  { destruct o; try reflexivity. destruct (Nat.eqb_spec i0 i); [subst|reflexivity]. cbn [fair_op] in Ho. exfalso. apply Ho. lia. }
  assert (Hdn : match o with RDown j => if Nat.eqb j i then 1 else 0 | _ => 0 end = 0).
  { destruct o; try reflexivity. destruct (Nat.eqb_spec i0 i); [subst|reflexivity]. cbn [fair_op] in Ho. lia. }
  rewrite Hup, Hdn. split; [lia|]. split; [lia|].
  destruct (c_aband (rget (rstep (at_end (h1 ++ h2)) o) i)) eqn:E; [|reflexivity].
  apply step_facts in E; [|exact C]. destruct E as [E _]. lia.
Qed.

Lemma hook_exact : forall h2 h1 i, fair (h1 ++ RHook i :: h2) -> ~ (0 < ups h1 i /\ downs h1 i = ups h1 i) ->
  let h := h1 ++ RHook i :: h2 in
  0 < ups h i -> r_is_finished (rget (at_end h) i) = true -> calls h i = [(i, c_aband (rget (at_end h) i))].
Proof.
  intros h2 h1 i Hf Hn.
  assert (Q : c_hook (rget (at_end (h1 ++ RHook i :: h2)) i) = true -> ~ (0 < ups (h1 ++ RHook i :: h2) i /\ downs (h1 ++ RHook i :: h2) i = ups (h1 ++ RHook i :: h2) i)).
  { induction h2 as [|o h2 IH] using rev_ind.
    - rewrite ups_app, downs_app. intros _ X. apply Hn. lia.
    - change (h1 ++ RHook i :: h2 ++ [o]) with (h1 ++ (RHook i :: h2) ++ [o]) in *. rewrite app_assoc in *.
      apply fair_app in Hf. destruct Hf as [Hf Ho]. specialize (IH Hf). set (h := h1 ++ RHook i :: h2) in *.
      destruct (RI_run _ Hf) as [Hl HI]. destruct (HI i) as (U & B & C & _).
      rewrite ups_app, downs_app, at_end_app. intros Hh.
      pose proof (proj2 (proj2 (step_facts (at_end h) o i)) Hh) as [->|Hh'].
      { cbn [fair_op] in Ho. exfalso. apply Ho. unfold h. apply in_app_iff. right. left. reflexivity. }
      specialize (IH Hh'). intros [X Y].
      destruct o as [og sw fw|j|j|j|now j|j|j t|j t|j b|j p|j]; try (apply IH; lia).
      + destruct (Nat.eqb j i); lia.
      + destruct (Nat.eqb_spec j i); [subst j|apply IH; lia]. cbn [rstep] in Hh. unfold r_down in Hh. cbn [c_use] in Hh.
        replace (wrap64 (c_use (rget (at_end h) i) - 1)) with 0 in Hh by (unfold wrap64; rewrite Z.mod_small; unfold U64MAX in *; lia).
        cbn [Z.eqb] in Hh. rewrite rget_finish, Nat.eqb_refl in Hh. destruct (Nat.ltb_spec i (length (rs_all (at_end h)))); cbn [andb c_hook] in Hh; [discriminate|].
        rewrite rget_out in U by assumption. cbn [c_none c_use] in U. lia. }
  intros h Hu Hfin. fold h in Q. destruct (RI_run _ Hf) as [_ HI]. destruct (HI i) as (U & B & C & D & E & F & G). fold h in U, B, C, D, E, F, G.
  unfold calls. change (filter (fun p => Nat.eqb (fst p) i) (rs_log (at_end h))) with (calls_in (rs_log (at_end h)) i).
  destruct (c_hook (rget (at_end h) i)) eqn:Eh.
  - exfalso. destruct (E eq_refl) as (_ & _ & Ea). apply (Q eq_refl). unfold r_is_finished in Hfin. rewrite Ea, orb_false_r in Hfin. lia.
  - apply F; [reflexivity|]. unfold h. apply in_app_iff. right. left. reflexivity.
Qed.

Lemma rop_dec : forall a b : rop, {a = b} + {a <> b}.
Proof. repeat decide equality. Defined.
Lemma calls_once : forall h i, fair h ->
  (length (calls h i) <= 1)%nat
  /\ (forall b, In (i, b) (rs_log (at_end h)) -> b = c_aband (rget (at_end h) i))
  /\ (In (i, false) (rs_log (at_end h)) -> delivered h i).
Proof.
  intros h i Hf. destruct (RI_run _ Hf) as [_ HI]. destruct (HI i) as (U & B & C & D & E & F & G).
  assert (Hc : calls h i = calls_in (rs_log (at_end h)) i) by reflexivity.
  assert (Hin : forall b, In (i, b) (rs_log (at_end h)) -> In (i, b) (calls h i)).
  { intros b Hb. unfold calls. apply filter_In. split; [exact Hb|]. cbn [fst]. apply Nat.eqb_refl. }
  assert (Hcase : calls h i = [] \/ (calls h i = [(i, c_aband (rget (at_end h) i))] /\ (c_aband (rget (at_end h) i) = false -> downs h i = ups h i /\ 0 < ups h i))).
  { rewrite Hc. destruct (c_hook (rget (at_end h) i)) eqn:Eh; [left; apply E; reflexivity|].
    destruct (in_dec rop_dec (RHook i) h) as [X|X].
    - right. apply F; auto.
    - left. apply G, X. }
  destruct Hcase as [Hz|[Hz Hd]]; rewrite Hz in *.
  - split; [cbn; lia|]. split; [intros b Hb; destruct (Hin b Hb)|intros Hb; destruct (Hin _ Hb)].
  - split; [cbn; lia|]. split.
    + intros b Hb. destruct (Hin b Hb) as [X|[]]. congruence.
    + intros Hb. destruct (Hin _ Hb) as [X|[]]. injection X as X. destruct (Hd X). unfold delivered. auto.
Qed.

(** ** Chains *)
Lemma chrun_app : forall h o, chrun (h ++ [o]) = chstep (chrun h) o.
Proof. intros. unfold chrun. rewrite fold_left_app. reflexivity. Qed.
Lemma rops_app : forall h o, rops (h ++ [o]) = rops h ++ match o with CR o => [o] | _ => [] end.
Proof. intros. unfold rops. rewrite flat_map_app. cbn [flat_map]. rewrite app_nil_r. reflexivity. Qed.
Lemma fair_chain_app : forall h o, fair_chain (h ++ [o]) -> fair_chain h /\ fair_chop h o.
Proof.
  intros h o H. split.
  - intros h1 p h2 E. apply (H h1 p (h2 ++ [o])). rewrite E, <- app_assoc. reflexivity.
  - apply (H h o []). reflexivity.
Qed.
Definition lst_of (h : list chop) := snd (fold_left link_step h ([], None)).
Lemma links_app : forall h o, links (h ++ [o]) = fst (link_step (links h, lst_of h) o) /\ lst_of (h ++ [o]) = snd (link_step (links h, lst_of h) o).
Proof.
  intros. unfold links, lst_of. rewrite fold_left_app. cbn [fold_left]. destruct (fold_left link_step h ([], None)). split; reflexivity.
Qed.

Lemma chain_trim_last : forall s ch, last (chain_trim s ch) = last ch /\ (ch <> [] -> chain_trim s ch <> []) /\ (ch = [] -> chain_trim s ch = []).
Proof.
  intros s. induction ch as [|i ch IH]; [repeat split; auto|]. destruct ch as [|j ch]; [repeat split; auto; discriminate|].
  cbn [chain_trim]. destruct (r_is_finished (rget s i)).
  - destruct IH as (A & B & C). split; [exact A|]. split; [intros _; apply B; discriminate|discriminate].
  - repeat split; auto; discriminate.
Qed.
Lemma rev_hd_last : forall (ch : list nat), ch <> [] -> exists r, rev ch = last ch O :: r.
Proof.
  intros ch H. destruct (exists_last H) as (l & x & ->). rewrite rev_app_distr, last_last. eexists. reflexivity.
Qed.
Lemma last_snoc_any : forall (ch : list nat) i d, last (ch ++ [i]) d = i.
Proof. intros. apply last_last. Qed.

(** Fields other than the parent and the deadlines survive appending and expiring. *)
Lemma expire_facts : forall ch s a b, let s' := fst (chain_expire s ch a b) in
  length (rs_all s') = length (rs_all s) /\ rs_log s' = rs_log s /\
  forall i, same_core (rget s i) (rget s' i) /\ c_parent (rget s' i) = c_parent (rget s i).
Proof.
  intros ch s a b. unfold chain_expire. cbn [fst]. revert s. induction ch as [|x ch IH]; intros s; cbn [fold_left].
  { repeat split. }
  set (s1 := r_set_finish _ _ _). destruct (IH s1) as (A & B & C). clear IH.
  split; [rewrite A; unfold s1, r_set_finish, r_set_start, rset; cbn [rs_all]; rewrite !lset_nth_length; reflexivity|].
  split; [rewrite B; reflexivity|]. intros i. destruct (C i) as (D & E).
  assert (X : same_core (rget s i) (rget s1 i) /\ c_parent (rget s1 i) = c_parent (rget s i)).
  { assert (K : forall s0 j y, same_core (rget s0 j) y -> c_parent y = c_parent (rget s0 j) ->
       same_core (rget s0 i) (rget (rset s0 j y) i) /\ c_parent (rget (rset s0 j y) i) = c_parent (rget s0 i)).
    { intros s0 j y Hc Hq. split; [apply rset_core, Hc|]. rewrite rget_rset. destruct (Nat.eqb_spec j i); [subst|reflexivity]. destruct (Nat.ltb _ _); auto. }
    set (s0 := r_set_start s x (earlier (c_start (rget s x)) a)) in s1.
    assert (X0 : same_core (rget s i) (rget s0 i) /\ c_parent (rget s0 i) = c_parent (rget s i)) by (apply K; [repeat split|reflexivity]).
    assert (X1 : same_core (rget s0 i) (rget s1 i) /\ c_parent (rget s1 i) = c_parent (rget s0 i)) by (apply K; [repeat split|reflexivity]).
    destruct X0 as ((P1 & P2 & P3) & P4), X1 as ((Q1 & Q2 & Q3) & Q4). repeat split; congruence. }
  destruct X as ((X1 & X2 & X3) & X4). destruct D as (D1 & D2 & D3). repeat split; congruence.
Qed.
Lemma append_facts : forall s ch i, let s' := fst (chain_append s ch (Some i)) in
  length (rs_all s') = length (rs_all s) /\ rs_log s' = rs_log s /\
  (forall k, same_core (rget s k) (rget s' k) /\ (k <> i -> c_parent (rget s' k) = c_parent (rget s k)))
  /\ (ch = [] -> s' = s) /\ (ch <> [] -> (i < length (rs_all s))%nat -> c_parent (rget s' i) = Some (last ch O)).
Proof.
  intros s ch i. unfold chain_append. cbn [fst]. destruct ch as [|x ch'] eqn:Ec.
  { cbn [rev]. repeat split; congruence. }
  rewrite <- Ec in *. assert (Hne : ch <> []) by (rewrite Ec; discriminate). clear x ch' Ec.
  destruct (rev_hd_last ch Hne) as (r & ->). unfold r_set_parent. split; [unfold rset; cbn [rs_all]; apply lset_nth_length|].
  split; [reflexivity|]. split; [|split; [congruence|]].
  - intros k. split; [apply rset_core; repeat split|]. intros Hk. rewrite rget_rset. destruct (Nat.eqb_spec i k); [congruence|reflexivity].
  - intros _ Hl. rewrite rget_rset, Nat.eqb_refl, (proj2 (Nat.ltb_lt _ _) Hl). reflexivity.
Qed.

(** Chain invariant. *)
Definition CI (h : list chop) (s : rstate) (ch : list nat) : Prop :=
  length (rs_all s) = news (rops h) /\ (forall i, RI (rops h) s i)
  /\ (lst_of h = None -> ch = []) /\ (forall l, lst_of h = Some l -> ch <> [] /\ last ch O = l)
  /\ (forall l, lst_of h = Some l -> In (CApp l) h)
  /\ (forall a b, In (a, b) (links h) -> In (CApp a) h /\ In (CApp b) h)
  /\ (forall a b, In (a, b) (links h) -> c_parent (rget s b) = Some a \/ (c_aband (rget s b) = true \/ is_released h b))
  /\ (forall b p, c_parent (rget s b) = Some p -> In (p, b) (links h)).

Lemma finish_parent : forall s j c b i, c_parent (rget (r_finish s j c b) i) = if Nat.eqb j i && Nat.ltb j (length (rs_all s)) then None else c_parent (rget s i).
Proof. intros. rewrite rget_finish. destruct (_ && _); reflexivity. Qed.
Lemma step_parent : forall s o i, (forall j p, o <> RSetParent j p) ->
  c_parent (rget (rstep s o) i) = c_parent (rget s i)
  \/ (c_parent (rget (rstep s o) i) = None /\ (c_aband (rget (rstep s o) i) = true \/ o = RDown i /\ wrap64 (c_use (rget s i) - 1) = 0)).
Proof.
  intros s o i Hp.
  assert (Hset : forall j x, c_parent (rget s j) = c_parent x -> c_parent (rget (rset s j x) i) = c_parent (rget s i)).
  { intros j x E. rewrite rget_rset. destruct (Nat.eqb_spec j i); [subst|reflexivity]. destruct (Nat.ltb _ _); congruence. }
  assert (Hab : forall j, c_parent (rget (r_abandon s j) i) = c_parent (rget s i) \/ (c_parent (rget (r_abandon s j) i) = None /\ c_aband (rget (r_abandon s j) i) = true)).
  { intros j. unfold r_abandon. destruct (_ && _); [|auto]. rewrite rget_finish. destruct (_ && _); cbn; auto. }
  destruct o as [og sw fw|j|j|j|now j|j|j t|j t|j b|j p|j]; cbn [rstep]; try (left; apply Hset; reflexivity).
  - left. unfold r_new, rget. cbn [rs_all]. destruct (Nat.lt_ge_cases i (length (rs_all s))) as [Hl|Hl].
    + rewrite app_nth1 by assumption. reflexivity.
    + rewrite (nth_overflow (rs_all s)) by assumption. destruct (Nat.eq_dec i (length (rs_all s))) as [->|Hne].
      * rewrite nth_middle. reflexivity.
      * rewrite nth_overflow by (rewrite app_length; cbn [length]; lia). reflexivity.
  - unfold r_down. cbn [c_use]. destruct (Z.eqb_spec (wrap64 (c_use (rget s j) - 1)) 0) as [E|E]; [|left; apply Hset; reflexivity].
    rewrite rget_finish. destruct (Nat.eqb_spec j i); cbn [andb]; [subst|auto]. destruct (Nat.ltb _ _); cbn; auto.
  - unfold r_needed. destruct (c_aband (rget s j)) eqn:Ea; [auto|]. destruct (_ || _); [|auto]. destruct (Hab j) as [X|[X Y]]; auto.
  - destruct (Hab j) as [X|[X Y]]; auto.
  - destruct (Hp j p eq_refl).
Qed.

Lemma CI_run : forall h, fair_chain h -> CI h (fst (chrun h)) (snd (chrun h)).
Proof.
  induction h as [|o h IH] using rev_ind; intros Hf.
  { unfold CI, chrun, lst_of, links. cbn [fold_left fst snd]. split; [reflexivity|]. split; [exact RI_init|]. split; [auto|].
    split; [discriminate|]. split; [discriminate|]. split; [intros a b []|]. split; [intros a b []|].
    intros b p. unfold rs_init, rget. cbn [rs_all]. destruct b; discriminate. }
  apply fair_chain_app in Hf. destruct Hf as [Hf Ho]. specialize (IH Hf). rewrite chrun_app. destruct (chrun h) as [s ch] eqn:Ec. cbn [fst snd] in IH.
  destruct IH as (Hlen & HI & Hn & Hl & Hin & Hin2 & Hpar & Hpar2).
  destruct (links_app h o) as [Ek Et]. unfold CI. rewrite Ek, Et, rops_app.
  assert (Hold : forall x, In x h -> In x (h ++ [o])) by (intros; apply in_app_iff; auto).
  assert (Hrel : forall i, is_released h i -> is_released (h ++ [o]) i).
  { intros i (A & B). unfold is_released. rewrite rops_app. destruct o as [o|j|a b]; [|rewrite app_nil_r; split; assumption..].
    rewrite ups_app, downs_app. assert (Ho' : fair_op (rops h) s o) by (destruct o; cbn [fair_chop] in Ho; rewrite ?Ec in Ho; cbn [fst] in Ho; tauto).
    destruct o; try lia.
    - destruct (Nat.eqb_spec i0 i); [subst|lia]. cbn [fair_op] in Ho'. exfalso. apply Ho'. lia.
    - destruct (Nat.eqb_spec i0 i); [subst|lia]. cbn [fair_op] in Ho'. lia. }
  destruct o as [o|i|a b]; cbn [chstep fst snd link_step].
  - assert (Ho' : fair_op (rops h) s o) by (destruct o; cbn [fair_chop] in Ho; rewrite ?Ec in Ho; cbn [fst] in Ho; tauto).
    assert (Hnp : forall j p, o <> RSetParent j p) by (intros j p ->; exact Ho).
    split; [rewrite rstep_length, news_app, Hlen; reflexivity|]. split; [apply RI_step; assumption|].
    split; [exact Hn|]. split; [exact Hl|]. split; [auto|]. split; [intros x y Hxy; destruct (Hin2 x y Hxy); auto|]. split.
    + intros x y Hxy. destruct (Hpar x y Hxy) as [X|[X|X]].
      * destruct (step_parent s o y Hnp) as [Y|[Y [Z0|[-> Z0]]]]; [left; congruence|auto|].
        right. right. unfold is_released. rewrite rops_app, ups_app, downs_app, Nat.eqb_refl.
        destruct (HI y) as (U & B & C & _). cbn [fair_op] in Ho'. unfold wrap64 in Z0. rewrite Z.mod_small in Z0 by (unfold U64MAX in *; lia). lia.
      * right. left. apply step_facts, X.
      * right. right. apply Hrel, X.
    + intros y p Hy. destruct (step_parent s o y Hnp) as [Y|[Y _]]; [apply Hpar2; congruence|congruence].
  - cbn [fair_chop] in Ho. destruct Ho as [Hno Hex]. rewrite app_nil_r.
    destruct (chain_append s ch (Some i)) as [s' ch'] eqn:Ea. cbn [fst snd].
    destruct (append_facts s ch i) as (A & B & C & D & E). rewrite Ea in A, B, C, D, E. cbn [fst] in *.
    assert (Ech : ch' = chain_trim s' (ch ++ [i])) by (unfold chain_append in Ea; injection Ea as <- <-; reflexivity).
    destruct (chain_trim_last s' (ch ++ [i])) as (T1 & T2 & _). rewrite <- Ech in *.
    assert (Hne : ch ++ [i] <> []) by (destruct ch; discriminate).
    split; [congruence|]. split; [intros k; apply (RI_ext (rops h) s); try reflexivity; auto; [apply C|rewrite B; reflexivity]|].
    split; [discriminate|]. split; [intros l Hl'; injection Hl' as <-; split; [apply T2, Hne|rewrite T1; apply last_snoc_any]|].
    split; [intros l Hl'; injection Hl' as <-; apply in_app_iff; right; left; reflexivity|].
    assert (Hib : forall x y, In (x, y) (links h) -> y <> i) by (intros x y Hxy ->; apply Hno, (Hin2 x i Hxy)).
    assert (Hold2 : forall x y, In (x, y) (links h) -> c_parent (rget s' y) = Some x \/ c_aband (rget s' y) = true \/ is_released (h ++ [CApp i]) y).
    { intros x y Hxy. destruct (C y) as ((_ & Ca & _) & Cp). rewrite (Cp (Hib x y Hxy)), <- Ca. destruct (Hpar x y Hxy) as [X|[X|X]]; auto. }
    destruct (lst_of h) as [l|] eqn:El; cbn [fst].
    + destruct (Hl l eq_refl) as [Hc1 Hc2]. split; [|split].
      * intros x y Hxy. apply in_app_iff in Hxy. destruct Hxy as [Hxy|[Hxy|[]]]; [destruct (Hin2 x y Hxy); auto|].
        injection Hxy as <- <-. split; [apply Hold, Hin; reflexivity|apply in_app_iff; right; left; reflexivity].
      * intros x y Hxy. apply in_app_iff in Hxy. destruct Hxy as [Hxy|[Hxy|[]]]; [apply Hold2, Hxy|].
        injection Hxy as <- <-. left. rewrite E by (auto; lia). congruence.
      * intros y p Hy. apply in_app_iff. destruct (Nat.eq_dec y i) as [->|Hne'].
        -- right. left. rewrite E in Hy by (auto; lia). congruence.
        -- left. apply Hpar2. rewrite (proj2 (C y) Hne') in Hy. exact Hy.
    + specialize (Hn eq_refl). rewrite (D Hn) in *. split; [|split].
      * intros x y Hxy. destruct (Hin2 x y Hxy); auto.
      * exact Hold2.
      * exact Hpar2.
  - rewrite app_nil_r. destruct (expire_facts ch s a b) as (A & B & C). cbn [chain_expire fst snd] in *. 
    split; [congruence|]. split; [intros k; apply (RI_ext (rops h) s); try reflexivity; auto; [apply C|rewrite B; reflexivity]|].
    split; [reflexivity|]. split; [discriminate|]. split; [discriminate|]. split; [intros x y Hxy; destruct (Hin2 x y Hxy); auto|]. split.
    + intros x y Hxy. destruct (C y) as ((_ & Ca & _) & Cp). rewrite Cp, <- Ca. destruct (Hpar x y Hxy) as [X|[X|X]]; auto.
    + intros y p Hy. apply Hpar2. rewrite (proj2 (C y)) in Hy. exact Hy.
Qed.

Lemma links_rexam : forall h o, links (h ++ [CR o]) = links h.
Proof. intros. apply (links_app h (CR o)). Qed.
Lemma path_rexam : forall h o l a, path h a l -> path (h ++ [CR o]) a l.
Proof. intros h o. induction l; intros x H; cbn [path] in *; [exact I|]. rewrite links_rexam. destruct H; auto. Qed.
Lemma fair_chain_exam : forall h now i, fair_chain h -> fair_chain (h ++ [CR (RExamine now i)]).
Proof.
  intros h now i H h1 o h2 E. destruct h2 as [|x h2] using rev_ind.
  - apply app_inj_tail in E. destruct E as [-> <-]. exact I.
  - clear IHh2. rewrite app_comm_cons, app_assoc in E. apply app_inj_tail in E. destruct E as [-> _]. apply (H h1 o h2). reflexivity.
Qed.

Lemma chain_transitive : forall l h a now, fair_chain h -> path h a l -> c_aband (rget (fst (chrun h)) a) = true ->
  (forall b, In b l -> ups (rops h) b > 0 /\ (c_aband (rget (fst (chrun h)) b) = true \/ ~ is_released h b)) ->
  forall b, In b l -> c_aband (rget (fst (chrun (h ++ map (fun i => CR (RExamine now i)) l))) b) = true.
Proof.
  assert (Hstay : forall l h now b, c_aband (rget (fst (chrun h)) b) = true -> c_aband (rget (fst (chrun (h ++ map (fun i => CR (RExamine now i)) l))) b) = true).
  { induction l as [|x l IH] using rev_ind; intros h now b H; [cbn [map]; rewrite app_nil_r; exact H|].
    rewrite map_app, app_assoc. cbn [map]. rewrite chrun_app. specialize (IH h now b H). destruct (chrun _) as [s ch]. cbn [chstep fst] in *. 
    change (r_needed s now x) with (rstep s (RExamine now x)). apply step_facts, IH. }
  induction l as [|x l IH]; intros h a now Hf Hp Ha Hall b Hb; [destruct Hb|].
  cbn [path] in Hp. destruct Hp as [Hax Hp]. cbn [map].
  replace (h ++ CR (RExamine now x) :: map (fun i => CR (RExamine now i)) l) with ((h ++ [CR (RExamine now x)]) ++ map (fun i => CR (RExamine now i)) l) by (rewrite <- app_assoc; reflexivity).
  pose proof (CI_run h Hf) as HCI. destruct (chrun h) as [s ch] eqn:Ec. cbn [fst snd] in *.
  destruct HCI as (Hlen & HI & _ & _ & _ & _ & Hpar & _).
  assert (Hx : c_aband (rget (fst (chrun (h ++ [CR (RExamine now x)]))) x) = true).
  { rewrite chrun_app, Ec. cbn [chstep fst rstep]. unfold r_needed. destruct (c_aband (rget s x)) eqn:Ex; [exact Ex|].
    destruct (Hall x (or_introl eq_refl)) as [Hu [X|Hnr]]; [congruence|].
    destruct (Hpar a x Hax) as [Y|[Y|Y]]; [|congruence|contradiction]. rewrite Y, Ha, orb_true_r.
    destruct (HI x) as (U & B & C & _). unfold r_abandon. rewrite Ex.
    assert (Hne : c_use (rget s x) <> 0) by (unfold is_released in Hnr; lia).
    destruct (Z.eqb_spec (c_use (rget s x)) 0); [contradiction|]. cbn [negb andb]. rewrite rget_finish, Nat.eqb_refl.
    destruct (Nat.ltb_spec x (length (rs_all s))); [reflexivity|]. rewrite rget_out in Hne by assumption. cbn in Hne. lia. }
  destruct Hb as [<-|Hb].
  - apply Hstay, Hx.
  - apply (IH (h ++ [CR (RExamine now x)]) x now); auto.
    + apply fair_chain_exam, Hf. + apply path_rexam, Hp.
    + intros y Hy. destruct (Hall y (or_intror Hy)) as [Hu Hy2]. rewrite rops_app. rewrite ups_app. split; [lia|].
      destruct Hy2 as [Y|Y].
      * left. rewrite chrun_app, Ec. cbn [chstep fst]. apply step_facts, Y.
      * right. intros (P & Q). apply Y. rewrite rops_app, ups_app in P. rewrite rops_app, ups_app, downs_app in Q. split; lia.
Qed.

Lemma chain_only_earlier : forall h o b, fair_chain (h ++ [CR o]) ->
  c_aband (rget (fst (chrun h)) b) = false -> c_aband (rget (fst (chrun (h ++ [CR o]))) b) = true ->
  o = RAbandon b \/ exists now, o = RExamine now b /\
    (passed now (c_finish (rget (fst (chrun h)) b)) = true \/ passed now (c_start (rget (fst (chrun h)) b)) = true
     \/ exists a, In (a, b) (links h) /\ c_aband (rget (fst (chrun h)) a) = true).
Proof.
  intros h o b Hf H1 H2. apply fair_chain_app in Hf. destruct Hf as [Hf Ho]. pose proof (CI_run h Hf) as HCI.
  rewrite chrun_app in H2. destruct (chrun h) as [s ch]. cbn [fst snd chstep] in *.
  destruct (proj1 (proj2 (step_facts s o b)) H1 H2) as [_ [->|[now ->]]]; [auto|]. right. exists now. split; [reflexivity|].
  cbn [rstep] in H2. unfold r_needed in H2. rewrite H1 in H2.
  destruct (passed now (c_finish (rget s b))) eqn:E1; [auto|]. destruct (passed now (c_start (rget s b))) eqn:E2; [auto|].
  cbn [orb] in H2. rewrite andb_false_r in H2. cbn [orb] in H2. destruct (c_parent (rget s b)) as [p|] eqn:Ep; [|congruence].
  destruct (c_aband (rget s p)) eqn:Ea; [|congruence]. right. right. exists p. split; [|exact Ea].
  destruct HCI as (_ & _ & _ & _ & _ & _ & _ & Hp2). apply Hp2, Ep.
Qed.

Lemma links_forward : forall h a b, fair_chain h -> In (a, b) (links h) -> exists h1 h2, h = h1 ++ CApp b :: h2 /\ In (CApp a) h1.
Proof.
  induction h as [|o h IH] using rev_ind; intros a b Hf H; [destruct H|].
  apply fair_chain_app in Hf. destruct Hf as [Hf Ho]. destruct (links_app h o) as [E _]. rewrite E in H.
  assert (Hold : In (a, b) (links h) -> exists h1 h2, h ++ [o] = h1 ++ CApp b :: h2 /\ In (CApp a) h1).
  { intros X. destruct (IH a b Hf X) as (h1 & h2 & -> & Y). exists h1, (h2 ++ [o]). rewrite <- app_assoc. auto. }
  destruct o as [o|i|x y]; cbn [link_step fst snd] in H; [apply Hold, H| |apply Hold, H].
  destruct (lst_of h) as [l|] eqn:El; [|apply Hold, H]. apply in_app_iff in H. destruct H as [H|[H|[]]]; [apply Hold, H|].
  injection H as <- <-. exists h, []. split; [reflexivity|]. pose proof (CI_run h Hf) as (_ & _ & _ & _ & Hin & _). apply Hin, El.
Qed.

(** ** expire *)
Lemma passed_earlier : forall now a b, passed now (earlier a b) = passed now a || passed now b.
Proof.
  intros now [a|] [b|]; cbn; rewrite ?orb_false_r; try reflexivity.
  rewrite !Z.gtb_ltb. destruct (Z.ltb_spec (Z.min a b) now), (Z.ltb_spec a now), (Z.ltb_spec b now); cbn; try reflexivity; lia.
Qed.
Lemma earlier_idem : forall a b, earlier (earlier a b) b = earlier a b.
Proof. intros [a|] [b|]; cbn; try reflexivity; f_equal; lia. Qed.
Definition expired (c : rcpt) (a b : option Z) : rcpt :=
  mkRcpt (earlier (c_start c) a) (earlier (c_finish c) b) (c_rtx c) (c_parent c) (c_origin c) (c_started c) (c_aband c) (c_use c) (c_hook c).
Lemma rget_rset_if : forall s i j c, rget (rset s i c) j = if Nat.eqb i j && (i <? length (rs_all s))%nat then c else rget s j.
Proof.
  intros s i j c. unfold rget, rset. cbn. generalize (rs_all s). intros l. revert i j. induction l as [|x r IH]; intros [|i] [|j]; cbn; try reflexivity.
  - rewrite andb_false_r. reflexivity.
  - rewrite IH. reflexivity.
Qed.
Lemma lset_nth_len : forall {A} (l : list A) i x, length (lset_nth l i x) = length l.
Proof. induction l as [|y r IH]; intros [|i] x; cbn; auto. Qed.
Definition exp1 (a b : option Z) (s : rstate) (i : nat) : rstate :=
  r_set_finish (r_set_start s i (earlier (c_start (rget s i)) a)) i (earlier (c_finish (rget s i)) b).
Lemma exp1_get : forall a b s i j, rget (exp1 a b s i) j = if Nat.eqb i j && (i <? length (rs_all s))%nat then expired (rget s i) a b else rget s j.
Proof.
  intros. unfold exp1, r_set_finish, r_set_start. rewrite !rget_rset_if. cbn [rs_all rset]. rewrite lset_nth_len, Nat.eqb_refl.
  destruct (Nat.eqb_spec i j) as [<-|N]; cbn [andb]; [|reflexivity]. destruct (i <? length (rs_all s))%nat; reflexivity.
Qed.
Lemma exp1_len : forall a b s i, length (rs_all (exp1 a b s i)) = length (rs_all s).
Proof. intros. unfold exp1, r_set_finish, r_set_start. cbn. rewrite !lset_nth_len. reflexivity. Qed.
Lemma exp_fold : forall ch a b s j, rget (fold_left (exp1 a b) ch s) j = (if existsb (Nat.eqb j) ch && (j <? length (rs_all s))%nat then expired (rget s j) a b else rget s j)
  /\ rs_log (fold_left (exp1 a b) ch s) = rs_log s /\ length (rs_all (fold_left (exp1 a b) ch s)) = length (rs_all s).
Proof.
  induction ch as [|i ch IH]; intros a b s j; cbn [fold_left existsb]; [auto|].
  destruct (IH a b (exp1 a b s i) j) as (X & Y & W). rewrite X, Y, W, !exp1_len. split; [|auto].
  rewrite exp1_get, (Nat.eqb_sym j i). destruct (Nat.eqb_spec i j) as [<-|N]; cbn [andb orb]; [|reflexivity].
  destruct (i <? length (rs_all s))%nat; [|rewrite !andb_false_r; reflexivity]. rewrite andb_true_r. destruct (existsb (Nat.eqb i) ch); [|reflexivity].
  unfold expired. cbn. rewrite !earlier_idem. reflexivity.
Qed.
Lemma chain_expires : forall h a b i, let x := chrun h in let y := chrun (h ++ [CExp a b]) in
  snd y = [] /\ rs_log (fst y) = rs_log (fst x)
  /\ (~ In i (snd x) -> rget (fst y) i = rget (fst x) i)
  /\ (In i (snd x) -> (i < length (rs_all (fst x)))%nat -> let c := rget (fst x) i in let c' := rget (fst y) i in
      (forall now, passed now (c_start c') = passed now (c_start c) || passed now a)
      /\ (forall now, passed now (c_finish c') = passed now (c_finish c) || passed now b)
      /\ c_rtx c' = c_rtx c /\ c_parent c' = c_parent c /\ c_origin c' = c_origin c /\ c_started c' = c_started c /\ c_aband c' = c_aband c
      /\ c_use c' = c_use c /\ c_hook c' = c_hook c).
Proof.
  intros h a b i x y. subst x y. unfold chrun. rewrite fold_left_app. cbn [fold_left]. destruct (fold_left chstep h (rs_init, [])) as [s ch]. cbn [chstep].
  change (chain_expire s ch a b) with (fold_left (exp1 a b) ch s, @nil nat). cbn [fst snd].
  destruct (exp_fold ch a b s i) as (X & Y & W). split; [reflexivity|]. split; [exact Y|]. split.
  - intros N. rewrite X. replace (existsb (Nat.eqb i) ch) with false; [reflexivity|]. symmetry. apply not_true_iff_false. intros E. apply existsb_exists in E.
    destruct E as (k & K & E). apply Nat.eqb_eq in E. subst k. contradiction.
  - intros I L. rewrite X. replace (existsb (Nat.eqb i) ch) with true by (symmetry; apply existsb_exists; exists i; rewrite Nat.eqb_refl; auto).
    destruct (Nat.ltb_spec i (length (rs_all s))); [|lia]. cbn. repeat split; intros; apply passed_earlier.
Qed.
