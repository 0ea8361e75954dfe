From Verif Require Import Base BaseFacts IndexSet IndexSetSpec.
From Coq Require Import Sorted.
Ltac Zify.zify_post_hook ::= Z.div_mod_to_equations.

Definition member (s : iset) (x : Z) : Prop := exists r, In r s /\ r_start r <= x <= r_end r.

Lemma member_nil : forall x, member [] x <-> False.
Proof. intros; split; [intros (r & [] & _)|tauto]. Qed.
Lemma member_cons : forall a b s x, member ((a, b) :: s) x <-> a <= x <= b \/ member s x.
Proof.
  intros. unfold member. split.
  - intros (r & [<-|Hin] & H); [left; exact H|right; exists r; auto].
  - intros [H|(r & Hin & H)]; [exists (a, b)|exists r]; cbn; auto.
Qed.

Lemma is_contains_member : forall s x, is_contains s x = true <-> member s x.
Proof.
  intros s x. unfold is_contains.
  induction s as [|[a b] s IH]; cbn [ranges_do].
  - rewrite member_nil. cbn. split; [discriminate|tauto].
  - rewrite member_cons. unfold range_contains at 1. cbn [r_start r_end fst snd].
    destruct ((x >=? a) && (x <=? b)) eqn:E; cbn [negb].
    + split; intros _; [left; lia|reflexivity].
    + rewrite IH. split; [auto|]. intros [H|H]; [lia|exact H].
Qed.

Lemma canonical_weaken : forall s lo lo', lo' <= lo -> canonical_from lo s -> canonical_from lo' s.
Proof. destruct s as [|[a b] s]; cbn [canonical_from]; intros; [trivial|]. intuition lia. Qed.

Lemma canonical_member_bounds : forall s lo x, canonical_from lo s -> member s x -> lo <= x <= U64MAX.
Proof.
  induction s as [|[a b] s IH]; intros lo x Hc Hm; [apply member_nil in Hm; tauto|].
  cbn [canonical_from] in Hc. destruct Hc as (H1 & H2 & H3).
  apply member_cons in Hm. destruct Hm as [Hm|Hm]; [lia|].
  specialize (IH _ _ H3 Hm). lia.
Qed.

Lemma contiguous_spec : forall a b from to, is_u64 from -> is_u64 to -> 0 <= a <= b -> b <= U64MAX -> from <= to ->
  contiguous (a, b) from to = true <-> from <= b + 1 /\ a <= to + 1.
Proof.
  intros a b from to Hf Ht Ha Hb Hle. unfold contiguous, intersects, is_u64, U64MAX, wrap64 in *. cbn [r_start r_end fst snd].
  destruct (from >? 0) eqn:E1.
  - destruct (to <? (to + 1) mod 18446744073709551616) eqn:E2.
    + rewrite Z.mod_small by lia. lia.
    + assert (to = 18446744073709551615) by lia. lia.
  - destruct (to <? (to + 1) mod 18446744073709551616) eqn:E2.
    + rewrite Z.mod_small by lia. lia.
    + assert (to = 18446744073709551615) by lia. lia.
Qed.

Lemma extend_spec : forall a b from to, from <= to ->
  extend (a, b) from to = (Z.min a from, Z.max b to).
Proof.
  intros a b from to H. unfold extend. cbn [r_start r_end fst snd].
  destruct (from <=? to) eqn:E; [|lia]. tup.
  - destruct (from <? a) eqn:E1; lia.
  - destruct (to >? b) eqn:E1; lia.
Qed.

Lemma merge_loop_ok : forall rest a b lo l2,
  canonical_from l2 rest -> 0 <= lo <= a -> a <= b -> b <= U64MAX -> a <= l2 -> 0 <= l2 ->
  canonical_from lo (merge_loop (a, b) rest)
  /\ forall x, member (merge_loop (a, b) rest) x <-> a <= x <= b \/ member rest x.
Proof.
  induction rest as [|[c d] rest IH]; intros a b lo l2 Hc Hlo Hab Hb Hl2 Hl20; cbn [merge_loop].
  - split; [cbn [canonical_from]; intuition lia|]. intros x. apply member_cons.
  - cbn [canonical_from] in Hc. destruct Hc as (H1 & H2 & H3). cbn [r_start r_end fst snd].
    pose proof (contiguous_spec a b c d) as Hcs. unfold is_u64 in Hcs.
    specialize (Hcs ltac:(lia) ltac:(lia) ltac:(lia) ltac:(lia) ltac:(lia)).
    destruct (contiguous (a, b) c d).
    + rewrite extend_spec by lia. pose proof (proj1 Hcs eq_refl) as [Hx Hy].
      destruct (IH (Z.min a c) (Z.max b d) lo (d + 2)) as [IHc IHm]; try lia; [exact H3|].
      split; [exact IHc|]. intros x. rewrite IHm, member_cons. split; [|intuition lia].
      intros [H|H]; [lia|auto].
    + assert (~ (c <= b + 1 /\ a <= d + 1)) by (intros C; apply Hcs in C; discriminate).
      split; [cbn [canonical_from]; intuition lia|]. intros x. rewrite !member_cons. tauto.
Qed.

Lemma add_loop_ok : forall s lo from to, canonical_from lo s -> 0 <= lo -> is_u64 from -> is_u64 to -> from <= to ->
  canonical_from (Z.min lo from) (add_loop s from to)
  /\ forall x, member (add_loop s from to) x <-> member s x \/ from <= x <= to.
Proof.
  induction s as [|[a b] s IH]; intros lo from to Hc Hlo Hf Ht Hle; cbn [add_loop].
  - unfold is_u64 in *. split; [cbn [canonical_from]; intuition lia|].
    intros x. rewrite member_cons. tauto.
  - cbn [canonical_from] in Hc. destruct Hc as (H1 & H2 & H3). unfold is_u64 in *.
    pose proof (contiguous_spec a b from to Hf Ht ltac:(lia) ltac:(lia) Hle) as Hcs.
    destruct (contiguous (a, b) from to).
    + rewrite extend_spec by lia. pose proof (proj1 Hcs eq_refl) as [Hx Hy].
      destruct (merge_loop_ok s (Z.min a from) (Z.max b to) (Z.min lo from) (b + 2)) as [Hmc Hmm]; try lia; [exact H3|].
      split; [exact Hmc|]. intros x. rewrite Hmm, member_cons. split; [|intuition lia].
      intros [H|H]; [lia|auto].
    + assert (Hn : ~ (from <= b + 1 /\ a <= to + 1)) by (intros C; apply Hcs in C; discriminate).
      cbn [r_start fst]. destruct (a >? to) eqn:E.
      * split; [cbn [canonical_from]; intuition lia|]. intros x. rewrite !member_cons. tauto.
      * destruct (IH (b + 2) from to H3 ltac:(lia) Hf Ht Hle) as [IHc IHm].
        split.
        -- cbn [canonical_from]. split; [lia|]. split; [lia|]. eapply canonical_weaken; [|exact IHc]. lia.
        -- intros x. rewrite !member_cons, IHm. tauto.
Qed.

Lemma is_add_ok : forall s from to, canonical s -> is_u64 from -> is_u64 to ->
  canonical (is_add s from to) /\ forall x, member (is_add s from to) x <-> member s x \/ from <= x <= to.
Proof.
  intros s from to Hc Hf Ht. unfold is_add. destruct (to <? from) eqn:E.
  - split; [exact Hc|]. intros x. split; [auto|]. intros [H|H]; [exact H|lia].
  - destruct (add_loop_ok s 0 from to Hc ltac:(lia) Hf Ht ltac:(lia)) as [H1 H2]. split; [|exact H2].
    unfold canonical. eapply canonical_weaken; [|exact H1]. unfold is_u64 in Hf. lia.
Qed.

Lemma remove_loop_ok : forall s lo from to, canonical_from lo s -> 0 <= lo -> is_u64 from -> is_u64 to -> from <= to ->
  canonical_from lo (remove_loop s from to)
  /\ forall x, member (remove_loop s from to) x <-> member s x /\ ~ (from <= x <= to).
Proof.
  induction s as [|[a b] s IH]; intros lo from to Hc Hlo Hf Ht Hle; cbn [remove_loop].
  - split; [exact I|]. intros x. rewrite member_nil. tauto.
  - assert (Hbound := canonical_member_bounds s). cbn [canonical_from] in Hc. destruct Hc as (H1 & H2 & H3).
    specialize (Hbound (b + 2)).
    destruct (IH (b + 2) from to H3 ltac:(lia) Hf Ht Hle) as [IHc IHm]. clear IH.
    unfold intersects. cbn [r_start r_end fst snd]. unfold is_u64, U64MAX in *.
    destruct (to <? a) eqn:E1; [|destruct (negb ((from <=? b) && (to >=? a))) eqn:E2;
      [|destruct (a <? from) eqn:E3; destruct (to <? b) eqn:E4]].
    + split; [cbn [canonical_from]; unfold U64MAX; intuition lia|]. intros x. rewrite !member_cons.
      specialize (Hbound x H3). split; [|tauto]. intros [H|H]; (split; [tauto|]); [lia|specialize (Hbound H); lia].
    + split; [cbn [canonical_from]; unfold U64MAX; intuition lia|]. intros x. rewrite !member_cons, IHm.
      assert (a <= x <= b -> ~ from <= x <= to) by lia. tauto.
    + unfold wrap64. rewrite !Z.mod_small by lia.
      split; [cbn [canonical_from]; unfold U64MAX; intuition lia|]. intros x. rewrite !member_cons.
      specialize (Hbound x H3). split.
      * intros [H|[H|H]]; [split; [left|]; lia|split; [left|]; lia|]. specialize (Hbound H). split; [auto|lia].
      * intros [[H|H] Hn]; [|auto]. lia.
    + unfold wrap64. rewrite !Z.mod_small by lia. split.
      * cbn [canonical_from]. unfold U64MAX. split; [lia|]. split; [lia|]. eapply canonical_weaken; [|exact IHc]. lia.
      * intros x. rewrite !member_cons, IHm. specialize (Hbound x H3). split.
        -- intros [H|H]; [split; [left|]; lia|tauto].
        -- intros [[H|H] Hn]; [left; lia|tauto].
    + unfold wrap64. rewrite !Z.mod_small by lia.
      split; [cbn [canonical_from]; unfold U64MAX; intuition lia|]. intros x. rewrite !member_cons.
      specialize (Hbound x H3). split.
      * intros [H|H]; [split; [left|]; lia|]. specialize (Hbound H). split; [auto|lia].
      * intros [[H|H] Hn]; [|auto]. lia.
    + split.
      * eapply canonical_weaken; [|exact IHc]. lia.
      * intros x. rewrite !member_cons, IHm. split; [tauto|]. intros [[H|H] Hn]; [lia|tauto].
Qed.

Lemma is_remove_ok : forall s from to, canonical s -> is_u64 from -> is_u64 to ->
  canonical (is_remove s from to) /\ forall x, member (is_remove s from to) x <-> member s x /\ ~ from <= x <= to.
Proof.
  intros s from to Hc Hf Ht. unfold is_remove. destruct (to <? from) eqn:E.
  - split; [exact Hc|]. intros x. split; [|tauto]. intros H; split; [exact H|lia].
  - apply remove_loop_ok; auto; lia.
Qed.

Lemma canonical_ranges : forall s lo a b, canonical_from lo s -> 0 <= lo -> In (a, b) s ->
  is_u64 a /\ is_u64 b /\ lo <= a <= b.
Proof.
  induction s as [|[c d] s IH]; intros lo a b Hc Hlo Hin; [destruct Hin|].
  cbn [canonical_from] in Hc. destruct Hc as (H1 & H2 & H3). unfold is_u64.
  destruct Hin as [Heq|Hin]; [injection Heq as <- <-; lia|].
  specialize (IH _ _ _ H3 ltac:(lia) Hin). unfold is_u64 in IH. lia.
Qed.

Lemma is_add_set_ok_gen : forall other s, canonical s ->
  (forall a b, In (a, b) other -> is_u64 a /\ is_u64 b) ->
  canonical (is_add_set s other) /\ forall x, member (is_add_set s other) x <-> member s x \/ member other x.
Proof.
  unfold is_add_set. induction other as [|[a b] other IH]; intros s Hc Ho; cbn [fold_left].
  - split; [exact Hc|]. intros x. rewrite member_nil. tauto.
  - destruct (Ho a b (or_introl eq_refl)) as [Ha Hb]. cbn [r_start r_end fst snd].
    destruct (is_add_ok s a b Hc Ha Hb) as [H1 H2].
    destruct (IH _ H1 (fun a b H => Ho a b (or_intror H))) as [H3 H4]. split; [exact H3|].
    intros x. rewrite H4, H2, member_cons. tauto.
Qed.
Lemma is_add_set_ok : forall other s, canonical s -> canonical other ->
  canonical (is_add_set s other) /\ forall x, member (is_add_set s other) x <-> member s x \/ member other x.
Proof.
  intros other s Hc Ho. apply is_add_set_ok_gen; [exact Hc|]. intros a b Hin.
  destruct (canonical_ranges other 0 a b Ho ltac:(lia) Hin) as (H1 & H2 & _). auto.
Qed.

Lemma is_remove_set_ok : forall other s, canonical s -> canonical other ->
  canonical (is_remove_set s other) /\ forall x, member (is_remove_set s other) x <-> member s x /\ ~ member other x.
Proof.
  intros other s Hc Ho.
  assert (Hr : forall a b, In (a, b) other -> is_u64 a /\ is_u64 b).
  { intros a b Hin. destruct (canonical_ranges other 0 a b Ho ltac:(lia) Hin) as (H1 & H2 & _). auto. }
  clear Ho. revert s Hc. unfold is_remove_set.
  induction other as [|[a b] other IH]; intros s Hc; cbn [fold_left].
  - split; [exact Hc|]. intros x. rewrite member_nil. tauto.
  - destruct (Hr a b (or_introl eq_refl)) as [Ha Hb]. cbn [r_start r_end fst snd].
    destruct (is_remove_ok s a b Hc Ha Hb) as [H1 H2].
    destruct (IH (fun a b H => Hr a b (or_intror H)) _ H1) as [H3 H4]. split; [exact H3|].
    intros x. rewrite H4, H2, member_cons. tauto.
Qed.

Theorem is_eval_ok : forall e, is_args_ok e ->
  canonical (is_eval e) /\ forall x, member (is_eval e) x <-> is_denote e x.
Proof.
  induction e as [|e IH f t|e IH f t|e IH e' IH'|e IH e' IH'|e IH|e IH]; cbn [is_args_ok is_eval is_denote]; intros Ha.
  - split; [exact I|]. apply member_nil.
  - destruct Ha as (Ha & Hf & Ht). destruct (IH Ha) as [Hc Hm]. destruct (is_add_ok _ f t Hc Hf Ht) as [H1 H2].
    split; [exact H1|]. intros x. rewrite H2, Hm. tauto.
  - destruct Ha as (Ha & Hf & Ht). destruct (IH Ha) as [Hc Hm]. destruct (is_remove_ok _ f t Hc Hf Ht) as [H1 H2].
    split; [exact H1|]. intros x. rewrite H2, Hm. tauto.
  - destruct Ha as (Ha & Ha'). destruct (IH Ha) as [Hc Hm]. destruct (IH' Ha') as [Hc' Hm'].
    destruct (is_add_set_ok _ _ Hc Hc') as [H1 H2].
    split; [exact H1|]. intros x. rewrite H2, Hm, Hm'. tauto.
  - destruct Ha as (Ha & Ha'). destruct (IH Ha) as [Hc Hm]. destruct (IH' Ha') as [Hc' Hm'].
    destruct (is_remove_set_ok _ _ Hc Hc') as [H1 H2].
    split; [exact H1|]. intros x. rewrite H2, Hm, Hm'. tauto.
  - split; [exact I|]. apply member_nil.
  - auto.
Qed.

(** ** Canonical lists are determined by their members *)
Lemma canonical_unique : forall s t lo, canonical_from lo s -> canonical_from lo t ->
  (forall x, member s x <-> member t x) -> s = t.
Proof.
  induction s as [|[a b] s IH]; intros t lo Hs Ht Heq; destruct t as [|[c d] t].
  - reflexivity.
  - exfalso. cbn [canonical_from] in Ht. apply (member_nil c). apply Heq. apply member_cons. left. lia.
  - exfalso. cbn [canonical_from] in Hs. apply (member_nil a). apply Heq. apply member_cons. left. lia.
  - cbn [canonical_from] in Hs, Ht. destruct Hs as (S1 & S2 & S3), Ht as (T1 & T2 & T3).
    pose proof (fun x H => canonical_member_bounds s _ x S3 H) as Bs.
    pose proof (fun x H => canonical_member_bounds t _ x T3 H) as Bt.
    assert (Hm : forall x, (a <= x <= b \/ member s x) <-> (c <= x <= d \/ member t x)).
    { intros x. rewrite <- !member_cons. apply Heq. }
    assert (a = c).
    { destruct (proj1 (Hm a)) as [H|H]; [left; lia| |apply Bt in H];
      destruct (proj2 (Hm c)) as [H'|H']; try (left; lia); try (apply Bs in H'); lia. }
    subst c.
    assert (b = d).
    { destruct (Z.lt_trichotomy b d) as [L|[E|L]]; [|exact E|].
      - destruct (proj2 (Hm (b + 1))) as [H|H]; [left; lia|lia|apply Bs in H; lia].
      - destruct (proj1 (Hm (d + 1))) as [H|H]; [left; lia|lia|apply Bt in H; lia]. }
    subst d. f_equal. apply (IH t (b + 2) S3 T3).
    intros x. specialize (Hm x). split; intros H.
    + destruct (proj1 Hm (or_intror H)) as [H'|H']; [apply Bs in H; lia|exact H'].
    + destruct (proj2 Hm (or_intror H)) as [H'|H']; [apply Bt in H; lia|exact H'].
Qed.

(** ** Accessors *)
Lemma is_lowest_ok : forall s, canonical s -> s <> [] ->
  member s (is_lowest s) /\ forall x, member s x -> is_lowest s <= x.
Proof.
  intros [|[a b] s] Hc Hne; [congruence|]. unfold is_lowest, canonical in *. cbn [is_empty is_first_range r_start fst].
  cbn [canonical_from] in Hc. destruct Hc as (H1 & H2 & H3). split; [apply member_cons; left; lia|].
  intros x Hm. apply member_cons in Hm. destruct Hm as [Hm|Hm]; [lia|].
  pose proof (canonical_member_bounds s _ x H3 Hm). lia.
Qed.

Lemma last_cons2 : forall A (x y : A) l d, last (x :: y :: l) d = last (y :: l) d.
Proof. reflexivity. Qed.

Lemma is_highest_ok : forall s, canonical s -> s <> [] ->
  member s (is_highest s) /\ forall x, member s x -> x <= is_highest s.
Proof.
  intros s Hc Hne. unfold canonical in Hc. revert Hc Hne. generalize 0 at 1 as lo.
  unfold is_highest, is_last_range.
  induction s as [|[a b] s IH]; intros lo Hc Hne; [congruence|].
  cbn [is_empty]. cbn [canonical_from] in Hc. destruct Hc as (H1 & H2 & H3).
  destruct s as [|[c d] s].
  - cbn [last r_end snd]. split; [apply member_cons; left; lia|].
    intros x Hm. apply member_cons in Hm. destruct Hm as [Hm|Hm]; [lia|]. apply member_nil in Hm. tauto.
  - rewrite last_cons2. destruct (IH (b + 2) H3 ltac:(discriminate)) as [IH1 IH2]. cbn [is_empty] in IH1, IH2.
    split; [apply member_cons; right; exact IH1|].
    intros x Hm. apply member_cons in Hm. destruct Hm as [Hm|Hm]; [|apply IH2, Hm].
    cbn [canonical_from] in H3.
    eapply Z.le_trans; [|apply (IH2 c), member_cons; left; lia]. lia.
Qed.

(** ** Size and iteration *)

(** The indices of one range / of a set, in order. *)
Definition range_list (r : range) : list Z :=
  map (fun n => r_start r + Z.of_nat n) (seq 0 (Z.to_nat (r_end r - r_start r + 1))).
Definition index_list (s : iset) : list Z := flat_map range_list s.

Lemma range_list_in : forall a b x, In x (range_list (a, b)) <-> a <= x <= b.
Proof.
  intros a b x. unfold range_list. cbn [r_start r_end fst snd]. rewrite in_map_iff. split.
  - intros (n & <- & Hn). apply in_seq in Hn. lia.
  - intros H. exists (Z.to_nat (x - a)). split; [lia|]. apply in_seq. lia.
Qed.

Lemma index_list_in : forall s x, In x (index_list s) <-> member s x.
Proof.
  intros s x. unfold index_list. rewrite in_flat_map. unfold member. split.
  - intros ([a b] & Hin & Hx). apply range_list_in in Hx. exists (a, b). auto.
  - intros ([a b] & Hin & Hx). exists (a, b). split; [exact Hin|]. apply range_list_in. exact Hx.
Qed.

Lemma strongly_sorted_app : forall (l1 l2 : list Z), StronglySorted Z.lt l1 -> StronglySorted Z.lt l2 ->
  (forall x y, In x l1 -> In y l2 -> x < y) -> StronglySorted Z.lt (l1 ++ l2).
Proof.
  induction 1 as [|x l H IH Hf]; intros H2 Hxy; cbn [app]; [exact H2|].
  constructor.
  - apply IH; auto. intros; apply Hxy; cbn; auto.
  - apply Forall_app. split; [exact Hf|]. apply Forall_forall. intros y Hy. apply Hxy; cbn; auto.
Qed.

Lemma range_list_sorted : forall a b, StronglySorted Z.lt (range_list (a, b)).
Proof.
  intros a b. unfold range_list. cbn [r_start r_end fst snd].
  generalize (Z.to_nat (b - a + 1)) as n. intros n. generalize 0%nat as k.
  induction n as [|n IH]; intros k; cbn [seq map]; constructor; [apply IH|].
  apply Forall_forall. intros y Hy. apply in_map_iff in Hy. destruct Hy as (m & <- & Hm). apply in_seq in Hm. lia.
Qed.

Lemma index_list_sorted : forall s lo, canonical_from lo s -> StronglySorted Z.lt (index_list s).
Proof.
  induction s as [|[a b] s IH]; intros lo Hc; cbn [index_list flat_map]; [constructor|].
  cbn [canonical_from] in Hc. destruct Hc as (H1 & H2 & H3).
  apply strongly_sorted_app; [apply range_list_sorted|eapply IH, H3|].
  intros x y Hx Hy. apply range_list_in in Hx. apply index_list_in in Hy.
  pose proof (canonical_member_bounds s _ y H3 Hy). lia.
Qed.

Lemma range_list_length : forall a b, a <= b -> zlen (range_list (a, b)) = b - a + 1.
Proof. intros. unfold zlen, range_list. cbn [r_start r_end fst snd]. rewrite map_length, seq_length. lia. Qed.

Lemma index_list_length_le : forall s lo, canonical_from lo s -> lo <= U64MAX + 1 -> zlen (index_list s) <= U64MAX + 1 - lo.
Proof.
  induction s as [|[a b] s IH]; intros lo Hc Hlo; cbn [index_list flat_map].
  - rewrite zlen_nil. lia.
  - cbn [canonical_from] in Hc. destruct Hc as (H1 & H2 & H3). fold (index_list s).
    rewrite zlen_app, range_list_length by lia.
    destruct s as [|[c d] s].
    + cbn [index_list flat_map]. rewrite zlen_nil. lia.
    + cbn [canonical_from] in H3. specialize (IH (b + 2) ltac:(cbn [canonical_from]; exact H3) ltac:(lia)). lia.
Qed.

Lemma is_size_fold : forall s lo acc, canonical_from lo s -> 0 <= lo -> 0 <= acc -> acc + zlen (index_list s) <= U64MAX ->
  fold_left (fun rv r => wrap64 (rv + range_size r)) s acc = acc + zlen (index_list s).
Proof.
  induction s as [|[a b] s IH]; intros lo acc Hc Hlo Hacc Hsum; cbn [fold_left index_list flat_map].
  - rewrite zlen_nil. lia.
  - fold (index_list s). cbn [index_list flat_map] in Hsum. fold (index_list s) in Hsum.
    cbn [canonical_from] in Hc. destruct Hc as (H1 & H2 & H3).
    rewrite zlen_app, range_list_length in * by lia. pose proof (zlen_nonneg _ (index_list s)).
    assert (Hrs : range_size (a, b) = b - a + 1).
    { unfold range_size. cbn [r_start r_end fst snd]. unfold wrap64, U64MAX in *.
      rewrite !(Z.mod_small) by lia. destruct (Z.eqb_spec (b - a + 1) 0); lia. }
    rewrite Hrs. unfold wrap64 at 2. unfold U64MAX in *. rewrite Z.mod_small by lia.
    rewrite (IH (b + 2)); unfold U64MAX; auto; lia.
Qed.

Lemma is_size_ok : forall s, canonical s -> is_size s = Z.min (zlen (index_list s)) U64MAX.
Proof.
  intros s Hc. unfold is_size. pose proof (index_list_length_le s 0 Hc ltac:(unfold U64MAX; lia)) as Hle.
  destruct (Z.le_gt_cases (zlen (index_list s)) U64MAX) as [L|G].
  - rewrite (is_size_fold s 0 0); auto; lia.
  - assert (Hfull : zlen (index_list s) = U64MAX + 1) by lia.
    rewrite Hfull. change (Z.min (U64MAX + 1) U64MAX) with U64MAX.
    destruct s as [|[a b] s]; [cbn [index_list flat_map] in Hfull; rewrite zlen_nil in Hfull; unfold U64MAX in Hfull; lia|].
    unfold canonical in Hc. cbn [canonical_from] in Hc. destruct Hc as (H1 & H2 & H3).
    cbn [index_list flat_map] in Hfull. fold (index_list s) in Hfull. rewrite zlen_app, range_list_length in Hfull by lia.
    destruct s as [|[c d] s].
    + cbn [index_list flat_map] in Hfull. rewrite zlen_nil in Hfull.
      assert (a = 0) by lia. assert (b = U64MAX) by lia. subst. reflexivity.
    + exfalso. cbn [canonical_from] in H3.
      pose proof (index_list_length_le ((c, d) :: s) (b + 2) ltac:(cbn [canonical_from]; exact H3) ltac:(lia)). lia.
Qed.

Lemma index_loop_ok : forall n fuel i to, Z.of_nat n = to + 1 - i -> 0 <= i -> to < U64MAX -> (n < fuel)%nat ->
  index_loop fuel i to = Ok (map (fun k => i + Z.of_nat k) (seq 0 n)).
Proof.
  induction n as [|n IH]; intros fuel i to Hn Hi Hto Hf; destruct fuel as [|fuel]; try lia; cbn [index_loop].
  - destruct (Z.leb_spec i to); [lia|]. reflexivity.
  - destruct (Z.leb_spec i to); [|lia]. unfold wrap64, U64MAX in *. rewrite Z.mod_small by lia.
    rewrite (IH fuel (i + 1) to) by (unfold U64MAX; lia). cbn [seq map]. f_equal. f_equal; [lia|].
    rewrite <- seq_shift, map_map. apply map_ext. intros; lia.
Qed.

Lemma indices_do_ok : forall s lo fuel, canonical_from lo s -> 0 <= lo -> ~ member s U64MAX ->
  (length (index_list s) < fuel)%nat -> indices_do fuel s = Ok (index_list s).
Proof.
  induction s as [|[a b] s IH]; intros lo fuel Hc Hlo Hm Hf; cbn [indices_do]; [reflexivity|].
  cbn [canonical_from] in Hc. destruct Hc as (H1 & H2 & H3).
  cbn [index_list flat_map] in *. fold (index_list s) in *.
  rewrite member_cons in Hm. rewrite app_length in Hf.
  pose proof (range_list_length a b ltac:(lia)) as Hlen. unfold zlen in Hlen.
  cbn [r_start r_end fst snd]. rewrite (index_loop_ok (Z.to_nat (b - a + 1))); try lia.
  rewrite (IH (b + 2) fuel H3); try lia; [|tauto]. reflexivity.
Qed.

(** A range that ends at the largest uintmax_t makes the loop run for ever. *)
Lemma index_loop_stuck : forall fuel i, is_u64 i -> index_loop fuel i U64MAX = UB.
Proof.
  induction fuel as [|fuel IH]; intros i Hi; cbn [index_loop]; [reflexivity|].
  unfold is_u64 in Hi. destruct (Z.leb_spec i U64MAX); [|lia].
  rewrite IH; [reflexivity|]. unfold is_u64, wrap64, U64MAX. lia.
Qed.

Lemma indices_do_stuck : forall s lo fuel, canonical_from lo s -> 0 <= lo -> member s U64MAX -> indices_do fuel s = UB.
Proof.
  induction s as [|[a b] s IH]; intros lo fuel Hc Hlo Hm; [apply member_nil in Hm; tauto|].
  cbn [canonical_from] in Hc. destruct Hc as (H1 & H2 & H3). apply member_cons in Hm.
  cbn [indices_do]. cbn [r_start r_end fst snd]. destruct Hm as [Hm|Hm].
  - assert (b = U64MAX) by lia. subst b. rewrite index_loop_stuck by (unfold is_u64; lia). reflexivity.
  - rewrite (IH (b + 2) fuel H3 ltac:(lia) Hm). destruct (index_loop fuel a b); reflexivity.
Qed.

Lemma sorted_nodup : forall l, StronglySorted Z.lt l -> NoDup l.
Proof.
  induction 1 as [|x l H IH Hf]; constructor; [|exact IH].
  intros Hin. rewrite Forall_forall in Hf. specialize (Hf x Hin). lia.
Qed.

Lemma eval_contains : forall e, is_args_ok e ->
  canonical (is_eval e) /\ forall x, is_contains (is_eval e) x = true <-> is_denote e x.
Proof.
  intros e He. destruct (is_eval_ok e He) as [Hc Hm]. split; [exact Hc|].
  intros x. rewrite is_contains_member. apply Hm.
Qed.

Lemma eval_unique : forall e e', is_args_ok e -> is_args_ok e' ->
  (forall x, is_denote e x <-> is_denote e' x) -> is_eval e = is_eval e'.
Proof.
  intros e e' He He' Heq. destruct (is_eval_ok e He) as [Hc Hm]. destruct (is_eval_ok e' He') as [Hc' Hm'].
  apply (canonical_unique _ _ 0 Hc Hc'). intros x. rewrite Hm, Hm'. apply Heq.
Qed.

Lemma eval_extremes : forall e, is_args_ok e ->
  (is_empty (is_eval e) = true <-> (forall x, ~ is_denote e x))
  /\ (is_empty (is_eval e) = true -> is_lowest (is_eval e) = 0 /\ is_highest (is_eval e) = 0)
  /\ (is_empty (is_eval e) = false ->
        is_denote e (is_lowest (is_eval e)) /\ (forall x, is_denote e x -> is_lowest (is_eval e) <= x)
        /\ is_denote e (is_highest (is_eval e)) /\ (forall x, is_denote e x -> x <= is_highest (is_eval e))).
Proof.
  intros e He. destruct (is_eval_ok e He) as [Hc Hm]. split; [|split].
  - destruct (is_eval e) as [|[a b] s]; cbn [is_empty].
    + split; [|reflexivity]. intros _ x Hx. apply Hm in Hx. apply member_nil in Hx. tauto.
    + split; [discriminate|]. intros H. exfalso. apply (H a). apply Hm. apply member_cons. left.
      unfold canonical in Hc. cbn [canonical_from] in Hc. lia.
  - unfold is_lowest, is_highest. intros ->. auto.
  - intros Hne. assert (Hn : is_eval e <> []) by (intros E; rewrite E in Hne; discriminate).
    destruct (is_lowest_ok _ Hc Hn) as [H1 H2]. destruct (is_highest_ok _ Hc Hn) as [H3 H4].
    split; [apply Hm, H1|]. split; [intros x Hx; apply H2, Hm, Hx|].
    split; [apply Hm, H3|]. intros x Hx; apply H4, Hm, Hx.
Qed.

Lemma eval_size : forall e, is_args_ok e ->
  exists l, NoDup l /\ StronglySorted Z.lt l /\ (forall x, In x l <-> is_denote e x)
    /\ is_size (is_eval e) = Z.min (zlen l) U64MAX
    /\ (~ is_denote e U64MAX -> forall fuel, (length l < fuel)%nat -> indices_do fuel (is_eval e) = Ok l).
Proof.
  intros e He. destruct (is_eval_ok e He) as [Hc Hm]. exists (index_list (is_eval e)).
  pose proof (index_list_sorted _ 0 Hc) as Hs.
  split; [apply sorted_nodup, Hs|]. split; [exact Hs|]. split.
  { intros x. rewrite index_list_in. apply Hm. }
  split; [apply is_size_ok, Hc|]. intros Hmax fuel Hf. apply (indices_do_ok _ 0); auto; try lia.
  rewrite Hm. exact Hmax.
Qed.

Lemma eval_indices_stuck : forall e, is_args_ok e -> is_denote e U64MAX -> forall fuel, indices_do fuel (is_eval e) = UB.
Proof.
  intros e He Hx fuel. destruct (is_eval_ok e He) as [Hc Hm].
  apply (indices_do_stuck _ 0); auto; try lia. apply Hm, Hx.
Qed.
