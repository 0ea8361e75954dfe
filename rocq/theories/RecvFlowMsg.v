(** Receiving flows facing a well-behaved sender. *)
From Verif Require Import Base BaseFacts IndexSet IndexSetSpec IndexSetProofs LinkedList LinkedListSpec LinkedListProofs SumListFacts RecvFlow RecvFlowSpec RecvFlowProofs RecvFlowAny.
From Coq Require Import Sorted Permutation.
Ltac Zify.zify_post_hook ::= Z.div_mod_to_equations.

Definition has (a : alist) (i : Z) : Prop := In i (seqs a).
Lemma has_dec : forall a i, has a i \/ ~ has a i.
Proof. intros a i. destruct (in_dec Z.eq_dec i (seqs a)); [left|right]; assumption. Qed.
Lemma has_app : forall a b i, has (a ++ b) i <-> has a i \/ has b i.
Proof. intros. unfold has. rewrite seqs_app, in_app_iff. reflexivity. Qed.
Lemma has_in : forall a n g, In (n, g) a -> has a (g_seq g).
Proof. intros a n g H. apply in_seqs. eauto. Qed.
Lemma has_ex : forall a i, has a i -> exists n g, In (n, g) a /\ g_seq g = i.
Proof. intros a i H. apply in_seqs in H. exact H. Qed.
Definition sorted (a : alist) : Prop := StronglySorted Z.lt (seqs a).
Lemma sorted_unique : forall a n g m k, sorted a -> In (n, g) a -> In (m, k) a -> g_seq g = g_seq k -> n = m /\ g = k.
Proof.
  induction a as [|(p, q) a IH]; intros n g m k Hs H1 H2 E; [destruct H1|]. unfold sorted in Hs. cbn [seqs map snd] in Hs. inversion Hs as [|? ? Hs' Hf]; subst.
  rewrite Forall_forall in Hf. destruct H1 as [H1|H1], H2 as [H2|H2].
  - split; congruence.
  - injection H1 as -> ->. exfalso. specialize (Hf (g_seq k) (has_in _ _ _ H2)). lia.
  - injection H2 as -> ->. exfalso. specialize (Hf (g_seq g) (has_in _ _ _ H1)). lia.
  - eapply IH; eauto.
Qed.

Lemma NoDup_app_snoc : forall A (l : list A) x, NoDup l -> ~ In x l -> NoDup (l ++ [x]).
Proof.
  intros A l x H Hn. apply Permutation_NoDup with (l := x :: l); [apply Permutation_cons_append|constructor; assumption].
Qed.

Fixpoint zs (k : nat) (x : Z) : list Z := match k with O => [] | S k' => x :: zs k' (x + 1) end.
Definition span (x y : Z) : list Z := zs (Z.to_nat (y - x + 1)) x.
Lemma span_step : forall x y, x <= y -> span x y = x :: span (x + 1) y.
Proof.
  intros x y H. unfold span. replace (Z.to_nat (y - x + 1)) with (S (Z.to_nat (y - (x + 1) + 1))) by lia. reflexivity.
Qed.
Lemma span_nil : forall x y, y < x -> span x y = [].
Proof. intros x y H. unfold span. replace (Z.to_nat (y - x + 1)) with 0%nat by lia. reflexivity. Qed.
Lemma zs_in : forall k x i, In i (zs k x) <-> x <= i < x + Z.of_nat k.
Proof.
  induction k as [|k IH]; intros x i; cbn [zs In]; [lia|]. rewrite IH. lia.
Qed.
Lemma span_in : forall x y i, In i (span x y) <-> x <= i <= y.
Proof. intros x y i. unfold span. rewrite zs_in. lia. Qed.
Lemma zs_length : forall k x, length (zs k x) = k.
Proof. induction k as [|k IH]; intros x; cbn [zs length]; [reflexivity|]. rewrite IH. reflexivity. Qed.
Lemma span_len : forall x y, x <= y + 1 -> zlen (span x y) = y - x + 1.
Proof. intros x y H. unfold zlen, span. rewrite zs_length. lia. Qed.

(** ** The cumulative sequence number *)
Lemma csn_facts : forall h f, SI h f -> Forall sane h -> (forall i, 1 <= i <= csn f -> covered h i) /\ ~ covered h (csn f + 1) /\ 0 <= csn f <= U64MAX
  /\ ((exists i, covered h i) -> covered h 0 -> covered h (csn f)).
Proof.
  intros h f (H1 & H2 & H3) Hs. unfold csn.
  assert (H0 : forall i, covered h i -> covered h 0).
  { intros i (e & Hin & Hc). exists e. split; [exact Hin|]. rewrite Forall_forall in Hs. specialize (Hs e Hin). destruct e; try contradiction. cbn in *. unfold is_u64 in Hs. lia. }
  destruct (f_set f) as [|(p, q) s] eqn:Es.
  - cbn [is_first_range r_end snd]. split; [intros; lia|]. split; [|split; [unfold U64MAX; lia|]].
    + intros H. apply H2 in H. apply member_nil in H. exact H.
    + intros _ H. exact H.
  - cbn [is_first_range r_end snd]. destruct H1 as (Hpq & Hq & Hrest).
    assert (Hp0 : p = 0).
    { assert (Hc0 : covered h 0) by (apply (H0 p); apply H2, member_cons; left; lia). apply H2, member_cons in Hc0. destruct Hc0 as [H|H]; [lia|].
      pose proof (canonical_member_bounds s (q + 2) 0 Hrest H). lia. }
    subst p. split; [|split; [|split]].
    + intros i Hi. apply H2, member_cons. left. lia.
    + intros H. apply H2, member_cons in H. destruct H as [H|H]; [lia|]. pose proof (canonical_member_bounds s (q + 2) _ Hrest H). lia.
    + lia.
    + intros _ _. apply H2, member_cons. left. lia.
Qed.
Lemma csn_mono : forall h e f f', SI h f -> SI (h ++ [e]) f' -> Forall sane h -> sane e -> csn f <= csn f'.
Proof.
  intros h e f f' HS HS' Hh He. destruct (csn_facts h f HS Hh) as (A1 & A2 & A3 & _). destruct (csn_facts _ f' HS') as (B1 & B2 & B3 & _); [apply Forall_app; auto|].
  destruct (Z.le_gt_cases (csn f) (csn f')) as [H|H]; [exact H|]. exfalso. apply B2. apply covered_snoc. left. apply A1. lia.
Qed.

Section Msg.
(** Which fragments end a message, and the payload of each. *)
Variable E : Z -> bool.
Variable dat : Z -> list Z.

Definition Bg (i : Z) : bool := (i =? 1) || E (i - 1).
Definition fraof (i : Z) : Z := if Bg i then (if E i then FRA_WHOLE else FRA_BEGIN) else (if E i then FRA_END else FRA_MIDDLE).
Definition ismsg (x y : Z) : Prop := 1 <= x <= y /\ Bg x = true /\ E y = true /\ (forall i, x <= i < y -> E i = false).
Definition conf (a : alist) : Prop := forall n g, In (n, g) a -> 1 <= g_seq g < U64MAX /\ g_fra g = fraof (g_seq g) /\ g_data g = dat (g_seq g).
Definition bytes_of (x y : Z) : list Z := concat (map dat (span x y)).
Definition rend (p : Z * Z) : list Z * Z * Z := (bytes_of (fst p) (snd p), fst p, snd p - fst p + 1).

Lemma fraof_whole : forall i, fraof i = FRA_WHOLE <-> Bg i = true /\ E i = true.
Proof. intros i. unfold fraof. destruct (Bg i), (E i); cbv; intuition discriminate. Qed.
Lemma fraof_begin : forall i, fraof i = FRA_BEGIN <-> Bg i = true /\ E i = false.
Proof. intros i. unfold fraof. destruct (Bg i), (E i); cbv; intuition discriminate. Qed.
Lemma fraof_end : forall i, fraof i = FRA_END <-> Bg i = false /\ E i = true.
Proof. intros i. unfold fraof. destruct (Bg i), (E i); cbv; intuition discriminate. Qed.
Lemma Bg_false : forall i, i <> 1 -> E (i - 1) = false -> Bg i = false.
Proof. intros i H1 H2. unfold Bg. rewrite H2. replace (i =? 1) with false by lia. reflexivity. Qed.
Lemma Bg_next : forall i, E (i - 1) = true -> Bg i = true.
Proof. intros i H. unfold Bg. rewrite H. apply orb_true_r. Qed.

Lemma ismsg_unique : forall x y u v i, ismsg x y -> ismsg u v -> x <= i <= y -> u <= i <= v -> x = u /\ y = v.
Proof.
  intros x y u v i ((H1 & H2) & H3 & H4 & H5) ((G1 & G2) & G3 & G4 & G5) Hi Hi'.
  assert (Hb : forall p q r, 1 <= p -> p < q <= r -> Bg q = true -> (forall j, p <= j < r -> E j = false) -> False).
  { intros p q r Hp Hq Hbq Hno. unfold Bg in Hbq. rewrite (Hno (q - 1)) in Hbq by lia. destruct (Z.eqb_spec q 1); [lia|discriminate]. }
  assert (x = u). { destruct (Z.lt_trichotomy x u) as [H|[H|H]]; [exfalso; apply (Hb x u y); auto; lia|exact H|exfalso; apply (Hb u x v); auto; lia]. }
  split; [assumption|]. subst u. destruct (Z.lt_trichotomy y v) as [H|[H|H]]; [|exact H|].
  - rewrite (G5 y) in H4 by lia. discriminate.
  - rewrite (H5 v) in G4 by lia. discriminate.
Qed.

(** ** Runs *)
Definition run (a : alist) (x y : Z) : Prop :=
  x <= y /\ (forall i, x <= i <= y -> has a i) /\ (forall i, x <= i < y -> E i = false) /\ (E y = true \/ ~ has a (y + 1)) /\ (Bg x = true \/ ~ has a (x - 1)).
Definition LINKgt (t : Z) (a : alist) : Prop :=
  forall n g m k, In (n, g) a -> In (m, k) a -> t < g_seq g -> run a (g_seq g) (g_seq k) -> g_end g = m /\ g_start k = n.

Lemma run_down : forall a i, (forall j, has a j -> 1 <= j) -> has a i ->
  exists x, x <= i /\ (forall j, x <= j <= i -> has a j) /\ (forall j, x <= j < i -> E j = false) /\ (Bg x = true \/ ~ has a (x - 1)).
Proof.
  intros a i Hpos. assert (Hn : exists k, i < Z.of_nat k) by (exists (Z.to_nat (Z.max 0 i + 1)); lia). destruct Hn as (k & Hk). revert i Hk.
  induction k as [|k IH]; intros i Hk Hi; [specialize (Hpos i Hi); lia|].
  destruct (Bg i) eqn:Eb.
  - exists i. split; [lia|]. split; [intros j Hj; replace j with i by lia; exact Hi|]. split; [intros; lia|auto].
  - destruct (has_dec a (i - 1)) as [Hp|Hp].
    + destruct (IH (i - 1) ltac:(lia) Hp) as (x & H1 & H2 & H3 & H4). exists x. split; [lia|]. split; [|split; [|exact H4]].
      * intros j Hj. destruct (Z.eq_dec j i) as [->|]; [exact Hi|apply H2; lia].
      * intros j Hj. destruct (Z.eq_dec j (i - 1)) as [->|]; [|apply H3; lia]. unfold Bg in Eb. apply orb_false_iff in Eb. apply Eb.
    + exists i. split; [lia|]. split; [intros j Hj; replace j with i by lia; exact Hi|]. split; [intros; lia|auto].
Qed.
Lemma run_up : forall a i, has a i ->
  exists y, i <= y /\ (forall j, i <= j <= y -> has a j) /\ (forall j, i <= j < y -> E j = false) /\ (E y = true \/ ~ has a (y + 1)).
Proof.
  intros a i. assert (Hmax : exists M, forall j, has a j -> j <= M).
  { unfold has. induction (seqs a) as [|z l (M & HM)]; [exists 0; intros j []|]. exists (Z.max z M). intros j [<-|Hj]; [lia|specialize (HM j Hj); lia]. }
  destruct Hmax as (M & HM). assert (Hn : exists k, M - i < Z.of_nat k) by (exists (Z.to_nat (Z.max 0 (M - i) + 1)); lia). destruct Hn as (k & Hk). revert i Hk.
  induction k as [|k IH]; intros i Hk Hi; [specialize (HM i Hi); lia|].
  destruct (E i) eqn:Ei.
  - exists i. split; [lia|]. split; [intros j Hj; replace j with i by lia; exact Hi|]. split; [intros; lia|auto].
  - destruct (has_dec a (i + 1)) as [Hp|Hp].
    + destruct (IH (i + 1) ltac:(lia) Hp) as (y & H1 & H2 & H3 & H4). exists y. split; [lia|]. split; [|split; [|exact H4]].
      * intros j Hj. destruct (Z.eq_dec j i) as [->|]; [exact Hi|apply H2; lia].
      * intros j Hj. destruct (Z.eq_dec j i) as [->|]; [exact Ei|apply H3; lia].
    + exists i. split; [lia|]. split; [intros j Hj; replace j with i by lia; exact Hi|]. split; [intros; lia|auto].
Qed.
Lemma run_exists : forall a i, (forall j, has a j -> 1 <= j) -> has a i -> exists x y, x <= i <= y /\ run a x y.
Proof.
  intros a i Hpos Hi. destruct (run_down a i Hpos Hi) as (x & H1 & H2 & H3 & H4). destruct (run_up a i Hi) as (y & G1 & G2 & G3 & G4).
  exists x, y. split; [lia|]. split; [lia|]. split; [|split; [|split; [exact G4|exact H4]]].
  - intros j Hj. destruct (Z.le_gt_cases j i); [apply H2; lia|apply G2; lia].
  - intros j Hj. destruct (Z.lt_ge_cases j i); [apply H3; lia|apply G3; lia].
Qed.
Lemma run_unique : forall a x y u v i, (forall j, has a j -> 1 <= j) -> run a x y -> run a u v -> x <= i <= y -> u <= i <= v -> x = u /\ y = v.
Proof.
  intros a x y u v i Hpos (H1 & H2 & H3 & H4 & H5) (G1 & G2 & G3 & G4 & G5) Hi Hi'.
  assert (HB : forall p q r s, p < r -> r <= i -> i <= q -> i <= s -> (forall j, p <= j <= q -> has a j) -> (forall j, p <= j < q -> E j = false) -> (Bg r = true \/ ~ has a (r - 1)) -> False).
  { intros p q r s Hpr Hri Hiq His Hh Hno [Hb|Hb].
    - unfold Bg in Hb. rewrite (Hno (r - 1)) in Hb by lia. pose proof (Hpos p (Hh p ltac:(lia))). destruct (Z.eqb_spec r 1); [lia|discriminate].
    - apply Hb, Hh. lia. }
  assert (HE : forall p q s, p <= i -> i <= q -> q < s -> (forall j, p <= j <= s -> has a j) -> (forall j, p <= j < s -> E j = false) -> (E q = true \/ ~ has a (q + 1)) -> False).
  { intros p q s Hpi Hiq Hqs Hh Hno [Hb|Hb].
    - rewrite (Hno q) in Hb by lia. discriminate.
    - apply Hb, Hh. lia. }
  split.
  - destruct (Z.lt_trichotomy x u) as [H|[H|H]]; [exfalso; apply (HB x y u v); auto; lia|exact H|exfalso; apply (HB u v x y); auto; lia].
  - destruct (Z.lt_trichotomy y v) as [H|[H|H]]; [exfalso; apply (HE u y v); auto; lia|exact H|exfalso; apply (HE x v y); auto; lia].
Qed.
Lemma conf_pos : forall a, conf a -> forall j, has a j -> 1 <= j < U64MAX.
Proof. intros a Hc j Hj. apply has_ex in Hj. destruct Hj as (n & g & Hin & <-). apply (Hc n g Hin). Qed.
Lemma conf_keys : forall a b, keys a = keys b -> conf a -> conf b.
Proof.
  intros a b Hk Hc n g Hin. destruct (keys_in b a n g (eq_sym Hk) Hin) as (g' & Hin' & E1 & E2 & E3). rewrite <- E1, <- E2, <- E3. apply (Hc n g' Hin').
Qed.

(** ** Inserting a fragment of the sender's *)
Lemma insert_wf : forall b a n flags data, SLf b a -> sorted a -> conf a -> LINKgt 0 a -> ~ has a n -> 1 <= n < U64MAX -> Z.land flags FRA_MASK = fraof n -> data = dat n ->
  exists b' hint a', insert_fragment b n flags data = Ok (b', hint) /\ SLf b' a' /\ sorted a' /\ conf a' /\ LINKgt 0 a'
  /\ (forall i, has a' i <-> i = n \/ has a i)
  /\ exists X Y st g, run a' X Y /\ X <= n <= Y /\ In (st, g) a' /\ g_seq g = X /\ hint = (if Bg X && E Y then st else -1).
Proof.
  intros b a n flags data HS Hso Hcf HL Hni Hn Hfl ->.
  pose proof (insert_any b a n flags (dat n) HS Hni Hso) as Hany.
  destruct (insert_detail b a n flags (dat n) HS) as (a1 & a2 & m & -> & Hm & Hmi & Hlt & Hge & Hwhole & Hpart).
  rewrite Hfl in *. set (fra := fraof n) in *. set (G := fun s e => mkFrag n s e fra (dat n)).
  assert (Hpos : forall j, has (a1 ++ a2) j -> 1 <= j) by (intros j Hj; pose proof (conf_pos _ Hcf j Hj); lia).
  assert (Hhas0 : forall s e i, has (a1 ++ (m, G s e) :: a2) i <-> i = n \/ has (a1 ++ a2) i).
  { intros s e i. rewrite !has_app. unfold has. cbn [seqs map snd G g_seq In]. intuition congruence. }
  assert (Hcf0 : forall s e, conf (a1 ++ (m, G s e) :: a2)).
  { intros s e k g Hin. apply in_app_or in Hin. destruct Hin as [Hin|[Eq|Hin]].
    - apply (Hcf k g). apply in_or_app. auto.
    - injection Eq as <- <-. cbn [G g_seq g_fra g_data]. split; [exact Hn|]. split; reflexivity.
    - apply (Hcf k g). apply in_or_app. auto. }
  assert (Hkey : forall s e s' e', keys (a1 ++ (m, G s e) :: a2) = keys (a1 ++ (m, G s' e') :: a2)) by (intros; unfold keys; rewrite !map_app; reflexivity).
  assert (Hso0 : forall a' s e, keys a' = keys (a1 ++ (m, G s e) :: a2) -> sorted a').
  { intros a' s e Hk. unfold sorted. rewrite (keys_seqs _ _ Hk). clear - Hso Hlt Hge Hni. unfold sorted, has in *. rewrite seqs_app in *.
    destruct (sorted_app_inv _ _ Hso) as (S1 & S2 & S3).
    assert (H1 : forall x, In x (seqs a1) -> x < n).
    { destruct a1 as [|(k, g) a1' _] using rev_ind; [intros ? []|]. pose proof (Hlt a1' k g eq_refl) as Hg. rewrite seqs_app in *.
      destruct (sorted_app_inv _ _ S1) as (_ & _ & S1'). intros x Hx. apply in_app_or in Hx. destruct Hx as [Hx|[<-|[]]]; [|exact Hg].
      specialize (S1' x (g_seq g) Hx (or_introl eq_refl)). lia. }
    assert (H2 : forall y, In y (seqs a2) -> n < y).
    { intros y Hy. assert (n <> y) by (intros ->; apply Hni; apply in_or_app; auto). apply in_seqs in Hy. destruct Hy as (k & g & Hin & Eg). specialize (Hge k g Hin). lia. }
    apply strongly_sorted_app; [exact S1| |].
    - cbn [seqs map snd G g_seq]. constructor; [exact S2|]. apply Forall_forall. exact H2.
    - intros x y Hx [<-|Hy]; [apply H1, Hx|]. specialize (H1 x Hx). specialize (H2 y Hy). lia. }
  (* runs of the old list *)
  assert (Hold : forall a', (forall i, has a' i <-> i = n \/ has (a1 ++ a2) i) -> forall u v, run a' u v -> ~ (u <= n <= v) -> run (a1 ++ a2) u v).
  { intros a' Hh u v (R1 & R2 & R3 & R4 & R5) Hout. split; [exact R1|]. split; [|split; [exact R3|split]].
    - intros i Hi. destruct (proj1 (Hh i) (R2 i Hi)) as [->|H]; [contradiction|exact H].
    - destruct R4 as [R4|R4]; [auto|]. right. intros H. apply R4, Hh. auto.
    - destruct R5 as [R5|R5]; [auto|]. right. intros H. apply R5, Hh. auto. }
  destruct (Z.eq_dec fra FRA_WHOLE) as [Hw|Hw].
  { destruct (Hwhole Hw) as (b' & Ei & HS'). pose proof (proj1 (fraof_whole n) Hw) as (HwB & HwE).
    exists b', m, (a1 ++ (m, G m m) :: a2). split; [exact Ei|]. split; [exact HS'|]. split; [apply (Hso0 _ m m eq_refl)|]. split; [apply Hcf0|].
    assert (Hrn : run (a1 ++ (m, G m m) :: a2) n n).
    { split; [lia|]. split; [intros i Hi; apply Hhas0; left; lia|]. split; [intros; lia|auto]. }
    assert (Hpos' : forall j, has (a1 ++ (m, G m m) :: a2) j -> 1 <= j) by (intros j Hj; apply Hhas0 in Hj; destruct Hj as [->|Hj]; [lia|auto]).
    assert (Hin0 : In (m, G m m) (a1 ++ (m, G m m) :: a2)) by (apply in_or_app; right; left; reflexivity).
    split; [|split; [apply Hhas0|]].
    - intros k1 g1 k2 g2 H1 H2 _ Hr. assert (Hdec : g_seq g1 <= n <= g_seq g2 \/ ~ (g_seq g1 <= n <= g_seq g2)) by lia. destruct Hdec as [Hi|Ho].
      + destruct (run_unique _ _ _ _ _ n Hpos' Hr Hrn Hi ltac:(lia)) as (E1 & E2).
        destruct (sorted_unique _ k1 g1 m (G m m) (Hso0 _ m m eq_refl) H1 Hin0) as (-> & ->); [exact E1|].
        destruct (sorted_unique _ k2 g2 m (G m m) (Hso0 _ m m eq_refl) H2 Hin0) as (-> & ->); [exact E2|]. split; reflexivity.
      + pose proof (Hold _ (Hhas0 m m) _ _ Hr Ho) as Hr'. destruct Hr as (Hle & _).
        assert (Hino : forall k g, In (k, g) (a1 ++ (m, G m m) :: a2) -> g_seq g <> n -> In (k, g) (a1 ++ a2)).
        { intros k g Hin Hne. rewrite in_app_iff in *. destruct Hin as [Hin|[Eq|Hin]]; auto. injection Eq as <- <-. exfalso. apply Hne. reflexivity. }
        apply HL; auto; [apply Hino; [exact H1|lia]|apply Hino; [exact H2|lia]|].
        pose proof (Hpos (g_seq g1)) as Hp. destruct Hr' as (_ & Hr' & _). specialize (Hp (Hr' (g_seq g1) ltac:(lia))). lia.
    - exists n, n, m, (G m m). split; [exact Hrn|]. split; [lia|]. split; [exact Hin0|]. split; [reflexivity|]. rewrite HwB, HwE. reflexivity. }
  specialize (Hpart Hw). cbv zeta in Hpart.
  (* the fragment before *)
  assert (HP : exists st X, match prev_joins fra n a1 with Some g => g_start g | None => m end = st
     /\ ((st = m /\ X = n /\ (Bg n = true \/ ~ has (a1 ++ a2) (n - 1)))
         \/ (exists sg, st <> m /\ In (st, sg) (a1 ++ a2) /\ g_seq sg = X /\ run (a1 ++ a2) X (n - 1) /\ E (n - 1) = false /\ Bg n = false))).
  { unfold prev_joins. destruct (Z.eqb_spec fra FRA_BEGIN) as [Hb|Hb].
    - apply fraof_begin in Hb. exists m, n. split; [reflexivity|]. left. intuition.
    - assert (HnB : Bg n = false). { destruct (Bg n) eqn:Eb; [|reflexivity]. exfalso. destruct (E n) eqn:Ee; [apply Hw, fraof_whole|apply Hb, fraof_begin]; auto. }
      assert (HnE : E (n - 1) = false) by (unfold Bg in HnB; apply orb_false_iff in HnB; apply HnB).
      assert (Hn1 : n <> 1) by (intros ->; discriminate).
      replace (wrap64 (n - 1)) with (n - 1) by (unfold wrap64; change U64MAX with 18446744073709551615 in Hn; rewrite Z.mod_small; lia).
      destruct a1 as [|(pk, pg) a1' _] using rev_ind.
      + cbn [rev]. exists m, n. split; [reflexivity|]. left. split; [reflexivity|]. split; [reflexivity|]. right. cbn [app]. intros Hh. apply has_ex in Hh.
        destruct Hh as (k & g & Hin & Eg). specialize (Hge k g Hin). lia.
      + rewrite rev_app_distr. cbn [rev app]. destruct (Z.eqb_spec (g_seq pg) (n - 1)) as [Ep|Ep].
        * assert (Hinp : In (pk, pg) ((a1' ++ [(pk, pg)]) ++ a2)) by (apply in_or_app; left; apply in_or_app; right; left; reflexivity).
          destruct (run_exists _ (n - 1) Hpos) as (x & y & Hxy & Hr); [rewrite <- Ep; eapply has_in; exact Hinp|].
          assert (y = n - 1). { destruct (Z.eq_dec y (n - 1)); [assumption|]. exfalso. apply Hni. destruct Hr as (_ & Hr & _). apply Hr. lia. }
          subst y. assert (Hhx : has ((a1' ++ [(pk, pg)]) ++ a2) x) by (apply Hr; lia). apply has_ex in Hhx. destruct Hhx as (xn & xg & Hinx & Exg).
          destruct (HL xn xg pk pg Hinx Hinp) as (L1 & L2); [rewrite Exg; pose proof (Hpos x (proj1 (proj2 Hr) x ltac:(lia))); lia|rewrite Exg, Ep; exact Hr|].
          exists xn, x. split; [exact L2|]. right. exists xg. split; [|auto 10]. intros ->. apply Hmi. apply in_map_iff. exists (m, xg). auto.
        * exists m, n. split; [reflexivity|]. left. split; [reflexivity|]. split; [reflexivity|]. right. intros Hh. apply has_ex in Hh.
          destruct Hh as (k & g & Hin & Eg). apply in_app_or in Hin. destruct Hin as [Hin|Hin]; [|specialize (Hge k g Hin); lia].
          pose proof (Hlt a1' pk pg eq_refl) as Hl. apply in_app_or in Hin. destruct Hin as [Hin|[Eq|[]]]; [|injection Eq as <- <-; lia].
          unfold sorted in Hso. rewrite !seqs_app in Hso. destruct (sorted_app_inv _ _ Hso) as (S1 & _). destruct (sorted_app_inv _ _ S1) as (_ & _ & S3).
          specialize (S3 (g_seq g) (g_seq pg) (has_in _ _ _ Hin) (or_introl eq_refl)). lia. }
  (* the fragment after *)
  assert (HN : exists en Y, match next_joins fra n a2 with Some g => g_end g | None => m end = en
     /\ ((en = m /\ Y = n /\ (E n = true \/ ~ has (a1 ++ a2) (n + 1)))
         \/ (exists eg, en <> m /\ In (en, eg) (a1 ++ a2) /\ g_seq eg = Y /\ run (a1 ++ a2) (n + 1) Y /\ E n = false))).
  { unfold next_joins. destruct (Z.eqb_spec fra FRA_END) as [Hb|Hb].
    - apply fraof_end in Hb. exists m, n. split; [reflexivity|]. left. intuition.
    - assert (HnE : E n = false). { destruct (E n) eqn:Ee; [|reflexivity]. exfalso. destruct (Bg n) eqn:Eb; [apply Hw, fraof_whole|apply Hb, fraof_end]; auto. }
      replace (wrap64 (n + 1)) with (n + 1) by (unfold wrap64; change U64MAX with 18446744073709551615 in Hn; rewrite Z.mod_small; lia).
      destruct a2 as [|(pk, pg) a2'].
      + exists m, n. split; [reflexivity|]. left. split; [reflexivity|]. split; [reflexivity|]. right. rewrite app_nil_r. intros Hh.
        destruct a1 as [|(qk, qg) a1' _] using rev_ind; [destruct Hh|]. pose proof (Hlt a1' qk qg eq_refl) as Hl. apply has_ex in Hh. destruct Hh as (k & g & Hin & Eg).
        apply in_app_or in Hin. destruct Hin as [Hin|[Eq|[]]]; [|injection Eq as <- <-; lia]. rewrite app_nil_r in Hso. unfold sorted in Hso. rewrite seqs_app in Hso.
        destruct (sorted_app_inv _ _ Hso) as (_ & _ & S3). specialize (S3 (g_seq g) (g_seq qg) (has_in _ _ _ Hin) (or_introl eq_refl)). lia.
      + destruct (Z.eqb_spec (g_seq pg) (n + 1)) as [Ep|Ep].
        * assert (Hinp : In (pk, pg) (a1 ++ (pk, pg) :: a2')) by (apply in_or_app; right; left; reflexivity).
          destruct (run_exists _ (n + 1) Hpos) as (x & y & Hxy & Hr); [rewrite <- Ep; eapply has_in; exact Hinp|].
          assert (x = n + 1). { destruct (Z.eq_dec x (n + 1)); [assumption|]. exfalso. apply Hni. destruct Hr as (_ & Hr & _). apply Hr. lia. }
          subst x. assert (Hhx : has (a1 ++ (pk, pg) :: a2') y) by (apply Hr; lia). apply has_ex in Hhx. destruct Hhx as (xn & xg & Hinx & Exg).
          destruct (HL pk pg xn xg Hinp Hinx) as (L1 & L2); [lia|rewrite Exg, Ep; exact Hr|].
          exists xn, y. split; [exact L1|]. right. exists xg. split; [|auto 10]. intros ->. apply Hmi. apply in_map_iff. exists (m, xg). auto.
        * exists m, n. split; [reflexivity|]. left. split; [reflexivity|]. split; [reflexivity|]. right. intros Hh. apply has_ex in Hh.
          destruct Hh as (k & g & Hin & Eg).
          assert (Hgk : n <= g_seq pg) by (apply (Hge pk); left; reflexivity).
          assert (g_seq pg <> n) by (intros En; apply Hni; rewrite <- En; apply (has_in _ pk); apply in_or_app; right; left; reflexivity).
          unfold sorted in Hso. rewrite !seqs_app in Hso. cbn [seqs map snd] in Hso. fold (seqs a2') in Hso. destruct (sorted_app_inv _ _ Hso) as (_ & S2 & S3).
          inversion S2 as [|? ? _ Hf]; subst. rewrite Forall_forall in Hf. apply in_app_or in Hin. destruct Hin as [Hin|[Eq|Hin]].
          -- destruct a1 as [|(qk, qg) a1' _] using rev_ind; [destruct Hin|]. pose proof (Hlt a1' qk qg eq_refl) as Hl.
             apply in_app_or in Hin. destruct Hin as [Hin|[Eq|[]]]; [|injection Eq as <- <-; lia]. rewrite seqs_app in Hso. destruct (sorted_app_inv _ _ Hso) as (S1' & _).
             destruct (sorted_app_inv _ _ S1') as (_ & _ & S4). specialize (S4 (g_seq g) (g_seq qg) (has_in _ _ _ Hin) (or_introl eq_refl)). lia.
          -- injection Eq as <- <-. lia.
          -- specialize (Hf (g_seq g) (has_in _ _ _ Hin)). lia. }
  destruct HP as (st & X & Est & HP). destruct HN as (en & Y & Een & HN). rewrite Est, Een in Hpart.
  set (a3 := a1 ++ (m, G st en) :: a2) in *. destruct Hpart as (_ & Hpart).
  assert (HXn : X <= n) by (destruct HP as [(_ & -> & _)|(sg & _ & _ & _ & (Hr & _) & _)]; lia).
  assert (HYn : n <= Y) by (destruct HN as [(_ & -> & _)|(eg & _ & _ & _ & (Hr & _) & _)]; lia).
  assert (Hin3 : forall k g, In (k, g) (a1 ++ a2) -> In (k, g) a3). { intros k g Hin. unfold a3. rewrite in_app_iff in *. cbn [In]. tauto. }
  assert (Hin3i : forall k g, In (k, g) a3 -> (k = m /\ g = G st en) \/ In (k, g) (a1 ++ a2)).
  { intros k g Hin. unfold a3 in Hin. rewrite in_app_iff in *. cbn [In] in Hin. destruct Hin as [?|[Eq|?]]; auto. injection Eq as <- <-. auto. }
  assert (Hinm : In (m, G st en) a3) by (unfold a3; apply in_or_app; right; left; reflexivity).
  assert (Hnd3 : NoDup (map fst a3)).
  { unfold a3. rewrite map_app. cbn [map fst]. apply NoDup_Add with (a := m) (l := map fst a1 ++ map fst a2); [apply Add_app|].
    rewrite <- map_app. split; [apply (SL_nodup _ _ _ _ HS)|exact Hmi]. }
  (* the two updates *)
  assert (E4 : exists a4 hb, ((st = m /\ a4 = a3 /\ hb = (fra =? FRA_BEGIN)) \/ (exists sg, st <> m /\ In (st, sg) a3 /\ a4 = upd a3 st (set_end sg en) /\ hb = (g_fra sg =? FRA_BEGIN)))
    /\ keys a4 = keys a3 /\ hb = Bg X /\ (forall k g, In (k, g) a4 -> (k = st -> g_end g = en) /\ (k <> st -> In (k, g) a3) /\ exists g0, In (k, g0) a3 /\ g_seq g0 = g_seq g /\ g_start g0 = g_start g)
    /\ (exists g, In (st, g) a4 /\ g_seq g = X) /\ (forall k g, In (k, g) a3 -> k <> st -> In (k, g) a4)).
  { destruct HP as [(-> & -> & HP)|(sg & Hst & Hin & HX & Hr & HE & HB)].
    - exists a3, (fra =? FRA_BEGIN). split; [left; auto|]. split; [reflexivity|]. split; [|split; [|split]].
      + destruct (Z.eqb_spec fra FRA_BEGIN) as [Hb|Hb]; [apply fraof_begin in Hb; symmetry; apply Hb|].
        destruct (Bg n) eqn:Eb; [|reflexivity]. exfalso. destruct (E n) eqn:Ee; [apply Hw, fraof_whole|apply Hb, fraof_begin]; auto.
      + intros k g Hin. split; [|split; [auto|eauto 10]]. intros ->. destruct (Hin3i _ _ Hin) as [(_ & ->)|H]; [reflexivity|].
        exfalso. apply Hmi. apply in_map_iff. exists (m, g). auto.
      + exists (G m en). split; [exact Hinm|reflexivity].
      + auto.
    - exists (upd a3 st (set_end sg en)), (g_fra sg =? FRA_BEGIN). split; [right; eauto 10|]. split; [apply (keys_upd a3 st sg); auto|]. split; [|split; [|split]].
      + destruct (Hcf st sg Hin) as (_ & Ef & _). rewrite Ef, HX. assert (HEX : E X = false) by (destruct Hr as (? & _ & Hr & _); destruct (Z.eq_dec X (n - 1)) as [->|]; [exact HE|apply Hr; lia]).
        unfold fraof. rewrite HEX. destruct (Bg X); reflexivity.
      + intros k g Hk. apply upd_in in Hk. destruct Hk as [(-> & -> & _)|(Hne & Hk)].
        * split; [reflexivity|]. split; [congruence|]. exists sg. auto.
        * split; [congruence|]. split; [auto|eauto 10].
      + exists (set_end sg en). split; [|exact HX]. apply upd_in. left. split; [reflexivity|]. split; [reflexivity|]. apply in_map_iff. exists (st, sg). auto.
      + intros k g Hk Hne. apply upd_in. auto. }
  destruct E4 as (a4 & hb & H4 & Hk4 & Hhb & H4i & (g4 & Hin4 & Hg4) & H4o). destruct (Hpart a4 hb H4) as (_ & Hok).
  assert (Hne : st <> m -> en <> st).
  { intros Hst Eq. destruct HP as [(? & _)|(sg & _ & Hin & HX & Hr & _)]; [contradiction|]. destruct HN as [(? & _)|(eg & _ & Hin' & HY & Hr' & _)]; [congruence|].
    rewrite Eq in Hin'. pose proof (SL_unique _ _ _ _ _ _ _ HS Hin Hin') as Eg. subst eg. destruct Hr as (? & _). destruct Hr' as (? & _). lia. }
  assert (E5 : exists a5 he, ((en = m /\ a5 = a4 /\ he = (fra =? FRA_END)) \/ (exists eg, en <> m /\ In (en, eg) a4 /\ a5 = upd a4 en (set_start eg st) /\ he = (g_fra eg =? FRA_END)))
    /\ keys a5 = keys a4 /\ he = E Y
    /\ (forall k g, In (k, g) a5 -> (k = en -> g_start g = st) /\ (k <> en -> In (k, g) a4) /\ exists g0, In (k, g0) a4 /\ g_seq g0 = g_seq g /\ g_end g0 = g_end g)
    /\ (exists g, In (en, g) a5 /\ g_seq g = Y) /\ (exists g, In (st, g) a5 /\ g_seq g = X)).
  { destruct HN as [(-> & -> & HN)|(eg & Hen & Hin & HY & Hr & HE)].
    - exists a4, (fra =? FRA_END). split; [left; auto|]. split; [reflexivity|]. split; [|split; [|split]].
      + destruct (Z.eqb_spec fra FRA_END) as [Hb|Hb]; [apply fraof_end in Hb; symmetry; apply Hb|].
        destruct (E n) eqn:Ee; [|reflexivity]. exfalso. destruct (Bg n) eqn:Eb; [apply Hw, fraof_whole|apply Hb, fraof_end]; auto.
      + intros k g Hk. split; [|split; [auto|eauto 10]]. intros ->. destruct (H4i _ _ Hk) as (_ & _ & g0 & Hk0 & _ & Es). rewrite <- Es.
        destruct (Hin3i _ _ Hk0) as [(_ & ->)|H]; [reflexivity|]. exfalso. apply Hmi. apply in_map_iff. exists (m, g0). auto.
      + destruct (Z.eq_dec st m) as [->|Hst]; [exists g4; split; [exact Hin4|]|exists (G st m); split; [apply H4o; auto|reflexivity]].
        destruct HP as [(_ & HX & _)|(? & ? & _)]; [congruence|contradiction].
      + eauto.
    - assert (Hst : en <> st). { destruct (Z.eq_dec st m) as [->|Hst]; [exact Hen|apply Hne, Hst]. }
      assert (Hin4' : In (en, eg) a4) by (apply H4o; auto).
      exists (upd a4 en (set_start eg st)), (g_fra eg =? FRA_END). split; [right; exists eg; auto|].
      split; [apply (keys_upd a4 en eg); auto; rewrite (keys_names _ _ Hk4); exact Hnd3|]. split; [|split; [|split]].
      + destruct (Hcf en eg Hin) as (_ & Ef & _). rewrite Ef, HY.
        assert (HBY : Bg Y = false). { destruct Hr as (? & _ & Hr & _). apply Bg_false; [lia|]. destruct (Z.eq_dec Y (n + 1)) as [->|]; [replace (n + 1 - 1) with n by lia; exact HE|apply Hr; lia]. }
        unfold fraof. rewrite HBY. destruct (E Y); reflexivity.
      + intros k g Hk. apply upd_in in Hk. destruct Hk as [(-> & -> & _)|(Hne' & Hk)].
        * split; [reflexivity|]. split; [congruence|]. exists eg. auto.
        * split; [congruence|]. split; [auto|eauto 10].
      + exists (set_start eg st). split; [|exact HY]. apply upd_in. left. split; [reflexivity|]. split; [reflexivity|]. apply in_map_iff. exists (en, eg). auto.
      + exists g4. split; [|exact Hg4]. apply upd_in. right. split; [congruence|exact Hin4]. }
  destruct E5 as (a5 & he & H5 & Hk5 & Hhe & H5i & (gy & Hiny & Hgy) & (gx & Hinx & Hgx)). destruct (Hok a5 he H5) as (b' & Ei & HS').
  assert (Hkk : keys a5 = keys a3) by congruence.
  assert (Hso5 : sorted a5) by (apply (Hso0 a5 st en); exact Hkk).
  assert (Hh5 : forall i, has a5 i <-> i = n \/ has (a1 ++ a2) i). { intros i. unfold has at 1. rewrite (keys_seqs _ _ Hkk). apply (Hhas0 st en). }
  assert (Hcf5 : conf a5) by (apply (conf_keys a3); [auto|apply Hcf0]).
  assert (Hpos5 : forall j, has a5 j -> 1 <= j) by (intros j Hj; apply Hh5 in Hj; destruct Hj as [->|Hj]; [lia|auto]).
  assert (Hrun : run a5 X Y).
  { split; [lia|]. split; [|split; [|split]].
    - intros i Hi. apply Hh5. destruct (Z.lt_trichotomy i n) as [H|[H|H]]; [right|left; exact H|right].
      + destruct HP as [(_ & -> & _)|(sg & _ & _ & _ & (_ & Hr & _) & _)]; [lia|apply Hr; lia].
      + destruct HN as [(_ & -> & _)|(eg & _ & _ & _ & (_ & Hr & _) & _)]; [lia|apply Hr; lia].
    - intros i Hi. destruct (Z.lt_trichotomy i n) as [H|[H|H]].
      + destruct HP as [(_ & -> & _)|(sg & _ & _ & _ & (_ & _ & Hr & _) & HE & _)]; [lia|]. destruct (Z.eq_dec i (n - 1)) as [->|]; [exact HE|apply Hr; lia].
      + subst i. destruct HN as [(_ & -> & _)|(eg & _ & _ & _ & _ & HE)]; [lia|exact HE].
      + destruct HN as [(_ & -> & _)|(eg & _ & _ & _ & (_ & _ & Hr & _) & HE)]; [lia|]. apply Hr. lia.
    - destruct HN as [(_ & -> & HN)|(eg & _ & _ & _ & (_ & _ & _ & Hr & _) & HE)].
      + destruct HN as [HN|HN]; [auto|]. right. intros H. apply Hh5 in H. destruct H as [H|H]; [lia|contradiction].
      + destruct Hr as [Hr|Hr]; [auto|]. right. intros H. apply Hh5 in H. destruct H as [H|H]; [lia|contradiction].
    - destruct HP as [(_ & -> & HP)|(sg & _ & _ & _ & (_ & _ & _ & _ & Hr) & HE & HB)].
      + destruct HP as [HP|HP]; [auto|]. right. intros H. apply Hh5 in H. destruct H as [H|H]; [lia|contradiction].
      + destruct Hr as [Hr|Hr]; [auto|]. right. intros H. apply Hh5 in H. destruct H as [H|H]; [lia|contradiction]. }
  exists b', (if hb && he then st else -1), a5. split; [exact Ei|]. split; [exact HS'|]. split; [exact Hso5|]. split; [exact Hcf5|]. split; [|split; [exact Hh5|]].
  2:{ exists X, Y, st, gx. rewrite Hhb, Hhe. auto 10. }
  intros k1 g1 k2 g2 H1 H2 Hgt Hr. assert (Hdec : g_seq g1 <= n <= g_seq g2 \/ ~ (g_seq g1 <= n <= g_seq g2)) by lia. destruct Hdec as [Hi|Ho].
  - destruct (run_unique _ _ _ _ _ n Hpos5 Hr Hrun Hi ltac:(lia)) as (E1 & E2).
    destruct (sorted_unique _ k1 g1 st gx Hso5 H1 Hinx) as (-> & ->); [congruence|].
    destruct (sorted_unique _ k2 g2 en gy Hso5 H2 Hiny) as (-> & ->); [congruence|]. split.
    + destruct (H5i _ _ Hinx) as (_ & _ & g0 & Hg0 & _ & <-). apply (H4i _ _ Hg0). reflexivity.
    + apply (H5i _ _ Hiny). reflexivity.
  - pose proof (Hold _ Hh5 _ _ Hr Ho) as Hr'.
    assert (Hstn : k1 <> st).
    { intros ->. destruct (sorted_unique _ st g1 st gx Hso5 H1 Hinx) as (_ & ->).
      - assert (Hnd5 : NoDup (map fst a5)) by apply (SL_nodup _ _ _ _ HS'). pose proof (SL_unique _ _ _ _ _ _ _ HS' H1 Hinx). congruence.
      - rewrite Hgx in Hr. destruct (run_unique _ _ _ _ _ X Hpos5 Hr Hrun) as (_ & E2); [destruct Hr; lia|lia|]. rewrite Hgx, E2 in Ho. lia. }
    assert (Henn : k2 <> en).
    { intros ->. pose proof (SL_unique _ _ _ _ _ _ _ HS' H2 Hiny) as Eg. subst gy.
      rewrite Hgy in Hr. destruct (run_unique _ _ _ _ _ Y Hpos5 Hr Hrun) as (E1 & _); [destruct Hr; lia|lia|]. rewrite Hgy, E1 in Ho. lia. }
    assert (Hnot_m : forall k g, In (k, g) a5 -> g_seq g <> n -> k <> m).
    { intros k g Hk Hne' ->. destruct (keys_in _ _ _ _ Hkk Hk) as (g' & Hk' & Es & _). destruct (Hin3i _ _ Hk') as [(_ & ->)|Hx]; [apply Hne'; rewrite <- Es; reflexivity|].
      apply Hmi. apply in_map_iff. exists (m, g'). auto. }
    assert (Hne1 : g_seq g1 <> n) by (destruct Hr; lia). assert (Hne2 : g_seq g2 <> n) by (destruct Hr; lia).
    destruct (H5i _ _ H1) as (_ & _ & p & Hp & Ep1 & Ep2). destruct (H4i _ _ Hp) as (_ & Hp' & _). specialize (Hp' Hstn).
    destruct (Hin3i _ _ Hp') as [(Ek & _)|Hp'']; [exfalso; exact (Hnot_m _ _ H1 Hne1 Ek)|].
    destruct (H5i _ _ H2) as (_ & Hq & _). specialize (Hq Henn). destruct (H4i _ _ Hq) as (_ & _ & q & Hq' & Eq1 & Eq2).
    destruct (Hin3i _ _ Hq') as [(Ek & _)|Hq'']; [exfalso; exact (Hnot_m _ _ H2 Hne2 Ek)|].
    rewrite <- Ep2, <- Eq2. apply (HL k1 p k2 q Hp'' Hq''); [lia|]. rewrite Ep1, Eq1. exact Hr'.
Qed.

(** ** Delivering a message *)
Lemma sorted_app : forall a b, sorted (a ++ b) -> sorted a /\ sorted b /\ (forall i j, has a i -> has b j -> i < j).
Proof. intros a b H. unfold sorted in H. rewrite seqs_app in H. apply sorted_app_inv in H. exact H. Qed.
Lemma sorted_cons : forall n g a, sorted ((n, g) :: a) -> sorted a /\ (forall i, has a i -> g_seq g < i).
Proof.
  intros n g a H. unfold sorted in H. cbn [seqs map snd] in H. inversion H as [|? ? H1 H2]; subst. split; [exact H1|]. rewrite Forall_forall in H2. exact H2.
Qed.
Lemma conf_app : forall a b, conf (a ++ b) -> conf a /\ conf b.
Proof. intros a b H. split; intros n g Hin; apply (H n g); apply in_or_app; auto. Qed.

Lemma run_prefix : forall k l n g, sorted ((n, g) :: l) -> conf ((n, g) :: l) -> let x := g_seq g in let y := x + Z.of_nat k in
  (forall i, x <= i <= y -> has ((n, g) :: l) i) -> (forall i, x <= i < y -> E i = false) -> E y = true ->
  exists r rest, (n, g) :: l = ((n, g) :: r) ++ rest /\ seqs ((n, g) :: r) = span x y /\ payload ((n, g) :: r) = bytes_of x y
    /\ (fraof x <> FRA_WHOLE -> upto_end ((n, g) :: l) = Some ((n, g) :: r, rest)) /\ (forall i, has rest i -> y < i).
Proof.
  induction k as [|k IH]; intros l n g Hso Hcf x y Hh Hno HE.
  - assert (Exy : y = x) by (unfold y; lia). exists [], l. split; [reflexivity|]. destruct (Hcf n g (or_introl eq_refl)) as (_ & Ef & Ed). split; [|split; [|split]].
    + rewrite Exy, span_step, span_nil by lia. reflexivity.
    + unfold bytes_of. rewrite Exy, span_step, span_nil by lia. rewrite payload_cons. cbn [map concat]. rewrite Ed. reflexivity.
    + intros Hw. cbn [upto_end]. rewrite Ef. fold x. rewrite Exy in HE. unfold fraof in *. rewrite HE in *. destruct (Bg x); [contradiction|]. reflexivity.
    + rewrite Exy. apply (sorted_cons n g l Hso).
  - destruct (sorted_cons n g l Hso) as (Hsl & Hgt). assert (Hx1 : has l (x + 1)).
    { assert (H : has ((n, g) :: l) (x + 1)) by (apply Hh; unfold y; lia). destruct H as [H|H]; [cbn [snd] in H; unfold x in H; lia|exact H]. }
    destruct l as [|(n', g') l']; [destruct Hx1|].
    assert (Hg' : g_seq g' = x + 1).
    { pose proof (Hgt (g_seq g') (or_introl eq_refl)) as H1. destruct Hx1 as [H|H]; [exact H|]. apply (sorted_cons n' g' l' Hsl) in H. unfold x in *. lia. }
    destruct (Hcf n g (or_introl eq_refl)) as (Hxr & Ef & Ed).
    destruct (IH l' n' g' Hsl) as (r & rest & E1 & E2 & E3 & E4 & E5).
    + intros p q Hpq. apply (Hcf p q). right. exact Hpq.
    + rewrite Hg'. intros i Hi. assert (H : has ((n, g) :: (n', g') :: l') i) by (apply Hh; unfold y; lia). destruct H as [H|H]; [cbn [snd] in H; unfold x in *; lia|exact H].
    + rewrite Hg'. intros i Hi. apply Hno. unfold y. lia.
    + rewrite Hg'. replace (x + 1 + Z.of_nat k) with y by (unfold y; lia). exact HE.
    + rewrite Hg' in *. replace (x + 1 + Z.of_nat k) with y in * by (unfold y; lia).
      exists ((n', g') :: r), rest. split; [cbn [app] in *; rewrite E1; reflexivity|]. split; [|split; [|split; [|exact E5]]].
      * rewrite (span_step x y) by (unfold y; lia). rewrite <- E2. reflexivity.
      * unfold bytes_of. rewrite (span_step x y) by (unfold y; lia). cbn [map concat]. fold (bytes_of (x + 1) y). rewrite <- E3, payload_cons, Ed. reflexivity.
      * intros Hw. cbn [upto_end]. rewrite Ef. fold x. assert (HEx : E x = false) by (apply Hno; unfold y; lia).
        assert (Hne : fraof x <> FRA_END) by (intros H; apply fraof_end in H; destruct H; congruence). replace (fraof x =? FRA_END) with false by lia.
        assert (Hw' : fraof (x + 1) <> FRA_WHOLE).
        { intros H. apply fraof_whole in H. destruct H as (H & _). unfold Bg in H. replace (x + 1 - 1) with x in H by lia. rewrite HEx in H.
          change (g_seq g) with x in Hxr. destruct (Z.eqb_spec (x + 1) 1); [lia|discriminate]. }
        specialize (E4 Hw'). cbn [upto_end] in E4. rewrite E4. reflexivity.
Qed.

(** Taking one whole message out of the buffer. *)
Definition message_at (a1 r a2 : alist) (x y : Z) : Prop := seqs r = span x y /\ (forall i, has a1 i -> i < x) /\ (forall i, has a2 i -> y < i) /\ payload r = bytes_of x y.

Lemma deliver_wf : forall f a n g y, SLf (f_buf f) a -> sorted a -> conf a -> In (n, g) a -> Bg (g_seq g) = true -> run a (g_seq g) y -> E y = true -> f_hooks f = true ->
  exists f' a1 r a2 a', deliver f n = Ok f' /\ a = a1 ++ r ++ a2 /\ message_at a1 r a2 (g_seq g) y /\ SLf (f_buf f') a' /\ acted f f' (a1 ++ a2) a' /\ core f' = core f
    /\ f_out f' = f_out f ++ [OMsg (bytes_of (g_seq g) y) (g_seq g) (y - g_seq g + 1)] /\ f_script f' = tl (f_script f) /\ f_order f' = order_after (f_order f) (hd [] (f_script f)).
Proof.
  intros f a n g y HS Hso Hcf Hin HB Hr HE Hk. apply in_split in Hin. destruct Hin as (a1 & l & ->). set (x := g_seq g) in *.
  destruct (sorted_app _ _ Hso) as (S1 & S2 & S3). destruct (conf_app _ _ Hcf) as (_ & Hcf2).
  assert (Hlt : forall i, has a1 i -> i < x) by (intros i Hi; apply S3; [exact Hi|left; reflexivity]).
  destruct Hr as (Hxy & Hh & Hno & _).
  destruct (run_prefix (Z.to_nat (y - x)) l n g S2 Hcf2) as (r & rest & E1 & E2 & E3 & E4 & E5).
  - fold x. intros i Hi. assert (Hi' : has (a1 ++ (n, g) :: l) i) by (apply Hh; lia). apply has_app in Hi'. destruct Hi' as [Hi'|Hi']; [|exact Hi'].
    specialize (Hlt i Hi'). lia.
  - fold x. intros i Hi. apply Hno. lia.
  - fold x. replace (x + Z.of_nat (Z.to_nat (y - x))) with y by lia. exact HE.
  - fold x in E1, E2, E3, E4, E5. replace (x + Z.of_nat (Z.to_nat (y - x))) with y in * by lia.
    assert (Hma : message_at a1 ((n, g) :: r) rest x y) by (split; [exact E2|split; [exact Hlt|split; [exact E5|exact E3]]]).
    destruct (Hcf2 n g (or_introl eq_refl)) as (Hpos & Ef & Ed). fold x in Hpos, Ef, Ed.
    assert (Hz : zlen ((n, g) :: r) = y - x + 1).
    { rewrite <- (span_len x y) by lia. rewrite <- E2. unfold zlen, seqs. rewrite map_length. reflexivity. }
    destruct (Z.eq_dec (fraof x) FRA_WHOLE) as [Hw|Hw].
    + assert (y = x). { apply fraof_whole in Hw. destruct (Z.eq_dec y x); [assumption|]. rewrite (Hno x) in Hw by lia. destruct Hw. discriminate. }
      subst y. assert (r = []). { rewrite zlen_cons in Hz. destruct r; [reflexivity|]. rewrite zlen_cons in Hz. pose proof (zlen_nonneg _ r). lia. }
      subst r. cbn [app] in E1. injection E1 as E1. subst rest. rewrite <- Ef in Hw.
      destruct (deliver_whole f a1 n g l HS Hw) as (f' & a' & Ed' & HS' & Ha & Hc & Hd). unfold delivered in Hd. rewrite Hk in Hd. destruct Hd as (Ho & Hs & Hor).
      exists f', a1, [(n, g)], l, a'. split; [exact Ed'|]. split; [reflexivity|]. split; [exact Hma|]. split; [exact HS'|]. split; [exact Ha|]. split; [exact Hc|].
      split; [|auto]. rewrite Ho. rewrite <- E3. rewrite payload_cons. change (payload []) with (@nil Z). rewrite app_nil_r. replace (x - x + 1) with 1 by lia. reflexivity.
    + assert (Hw' : g_fra g <> FRA_WHOLE) by congruence. pose proof (deliver_multi f a1 n g l HS Hw') as Hd. rewrite (E4 Hw) in Hd.
      destruct Hd as (f' & a' & Ed' & HS' & Ha & Hc & Hd). unfold delivered in Hd. rewrite Hk in Hd. destruct Hd as (Ho & Hs & Hor).
      exists f', a1, ((n, g) :: r), rest, a'. split; [exact Ed'|]. split; [rewrite E1; reflexivity|]. split; [exact Hma|]. split; [exact HS'|]. split; [exact Ha|]. split; [exact Hc|].
      split; [|auto]. rewrite Ho, E3, Hz. reflexivity.
Qed.

Lemma span_has : forall r x y, seqs r = span x y -> forall i, has r i <-> x <= i <= y.
Proof. intros r x y Hs i. unfold has. rewrite Hs. apply span_in. Qed.
Lemma link_cut : forall a1 r a2 x y, conf (a1 ++ r ++ a2) -> LINKgt 0 (a1 ++ r ++ a2) -> message_at a1 r a2 x y -> ismsg x y -> LINKgt 0 (a1 ++ a2).
Proof.
  intros a1 r a2 x y Hcf HL (Hs & Hlt & Hgt & _) (Hxy & HB & HE & Hno) n g m k H1 H2 Hg Hr.
  assert (Hsub : forall p q, In (p, q) (a1 ++ a2) -> In (p, q) (a1 ++ r ++ a2)) by (intros p q Hin; rewrite !in_app_iff in *; tauto).
  apply HL; auto. destruct Hr as (R1 & R2 & R3 & R4 & R5).
  assert (Hb : forall i, has (a1 ++ r ++ a2) i <-> has (a1 ++ a2) i \/ x <= i <= y) by (intros i; rewrite !has_app, (span_has r x y Hs); tauto).
  assert (Hout : forall i, has (a1 ++ a2) i -> i < x \/ y < i) by (intros i Hi; apply has_app in Hi; destruct Hi; auto).
  split; [exact R1|]. split; [intros i Hi; apply Hb; left; apply R2, Hi|]. split; [exact R3|]. split.
  - destruct R4 as [R4|R4]; [auto|]. destruct (E (g_seq k)) eqn:Ek; [auto|]. right. rewrite Hb. intros [H|H]; [contradiction|].
    pose proof (Hout (g_seq k) (R2 (g_seq k) ltac:(lia))) as Ho.
    assert (Hx : x = g_seq k + 1) by lia. unfold Bg in HB. rewrite Hx in HB. replace (g_seq k + 1 - 1) with (g_seq k) in HB by lia. rewrite Ek in HB.
    destruct (Hcf m k (Hsub _ _ H2)) as (Hp & _). destruct (Z.eqb_spec (g_seq k + 1) 1); [lia|discriminate].
  - destruct R5 as [R5|R5]; [auto|]. destruct (Bg (g_seq g)) eqn:Eg; [auto|]. right. rewrite Hb. intros [H|H]; [contradiction|].
    pose proof (Hout (g_seq g) (R2 (g_seq g) ltac:(lia))) as Ho. assert (Hx : g_seq g - 1 = y) by lia.
    rewrite (Bg_next (g_seq g)) in Eg; [discriminate|]. rewrite Hx. exact HE.
Qed.

(** ** The invariant *)
Definition Dok (h : list revent) (a : alist) (D : list (Z * Z)) : Prop :=
  (forall x y, In (x, y) D -> ismsg x y /\ forall i, x <= i <= y -> got h i /\ ~ has a i) /\ NoDup D.
Definition delv (D : list (Z * Z)) (i : Z) : Prop := exists x y, In (x, y) D /\ x <= i <= y.
Definition dead (h : list revent) (i : Z) : Prop := exists x y j, ismsg x y /\ x <= i <= y /\ x <= j <= y /\ covered h j /\ ~ got h j.
Definition K (h : list revent) (a : alist) (D : list (Z * Z)) : Prop := forall i, got h i -> has a i \/ delv D i \/ dead h i.
Definition OI (c : Z) (a : alist) (D : list (Z * Z)) : Prop :=
  StronglySorted (fun p q => snd p < fst q) D /\ forall x y, In (x, y) D -> y <= c /\ forall i, has a i -> y < i.
(** No whole message is waiting. *)
Definition NW (a : alist) : Prop := forall x y, ismsg x y -> ~ (forall i, x <= i <= y -> has a i).
Definition BIt (t : Z) (h : list revent) (f : rf) (a : alist) (D : list (Z * Z)) : Prop :=
  SLf (f_buf f) a /\ sorted a /\ conf a /\ (forall i, has a i -> got h i) /\ LINKgt t a /\ Dok h a D /\ msgs_of (f_out f) = map rend D /\ OPENH f.
Definition NN (f : rf) : Prop := f_order f <> RO_NETWORK /\ Forall (Forall act_not_network) (f_script f).
(** What the application leaves alone. *)
Definition QT (f f' : rf) : Prop := f_script f = [] -> f_script f' = [] /\ f_order f' = f_order f /\ f_baseopen f' = f_baseopen f /\ f_state f' = f_state f /\ f_hooks f' = f_hooks f.
(** Why the delivery loop stopped. *)
Definition stopped (f : rf) (a : alist) (c : Z) : Prop :=
  f_order f = RO_HOLD \/ is_open f = false \/ a = [] \/
  exists n g a', a = (n, g) :: a' /\ (c < g_seq g \/ (Bg (g_seq g) = true /\ exists y, run a (g_seq g) y /\ E y = false /\ c <= y)).

Lemma covered_dec : forall h i, covered h i \/ ~ covered h i.
Proof.
  induction h as [|e h IH]; intros i.
  - right. intros (x & [] & _).
  - destruct (IH i) as [(x & Hin & Hc)|Hn]; [left; exists x; split; [right; exact Hin|exact Hc]|].
    assert (Hd : covers e i \/ ~ covers e i) by (destruct e; cbn; try tauto; lia). destruct Hd as [Hd|Hd].
    + left. exists e. split; [left; reflexivity|exact Hd].
    + right. intros (x & [<-|Hin] & Hc); [contradiction|]. apply Hn. exists x. auto.
Qed.
Lemma got_snoc : forall h e i, got (h ++ [e]) i <-> got h i \/ (carries e i /\ ~ covered h i).
Proof.
  intros h e i. split.
  - intros (h1 & x & h2 & Eq & Hc & Hn). destruct h2 as [|y h2' _] using rev_ind.
    + apply app_inj_tail in Eq. destruct Eq as (-> & ->). auto.
    + left. exists h1, x, h2'. split; [|auto]. change (x :: h2' ++ [y]) with ((x :: h2') ++ [y]) in Eq. rewrite app_assoc in Eq. apply app_inj_tail in Eq. apply Eq.
  - intros [(h1 & x & h2 & -> & Hc & Hn)|(Hc & Hn)].
    + exists h1, x, (h2 ++ [e]). split; [rewrite <- app_assoc; reflexivity|auto].
    + exists h, e, []. auto.
Qed.
Lemma got_dec : forall h i, got h i \/ ~ got h i.
Proof.
  intros h i. induction h as [|e h IH] using rev_ind.
  - right. intros (h1 & x & h2 & Eq & _). destruct h1; discriminate.
  - destruct IH as [H|H]; [left; apply got_snoc; auto|].
    assert (Hd : carries e i \/ ~ carries e i).
    { destruct e as [|fl sq fs d| | | | |]; cbn; try tauto. destruct (Z.eq_dec sq i), (Z.eq_dec (Z.land fl 2) 0); tauto. }
    destruct Hd as [Hd|Hd], (covered_dec h i) as [Hc|Hc].
    + right. rewrite got_snoc. tauto.
    + left. apply got_snoc. auto.
    + right. rewrite got_snoc. tauto.
    + right. rewrite got_snoc. tauto.
Qed.
Lemma got_covered : forall h i, got h i -> covered h i.
Proof.
  intros h i (h1 & e & h2 & -> & Hc & _). exists e. split; [apply in_or_app; right; left; reflexivity|]. destruct e; cbn in *; try tauto. lia.
Qed.

(** ** One delivery *)
Definition NoClose (f f' : rf) : Prop := f_baseopen f' = true -> f_baseopen f = true.
Lemma order_after_nn : forall l o, o <> RO_NETWORK -> Forall act_not_network l -> order_after o l <> RO_NETWORK.
Proof.
  induction l as [|x l IH]; intros o Ho Hl; [exact Ho|]. inversion Hl; subst. unfold order_after in *. cbn [fold_left]. apply IH; [|assumption].
  destruct x as [|o'| |]; auto. intros ->. apply H1. reflexivity.
Qed.
Lemma NN_callback : forall f f', NN f -> f_script f' = tl (f_script f) -> f_order f' = order_after (f_order f) (hd [] (f_script f)) -> NN f'.
Proof.
  intros f f' (H1 & H2) Hs Ho. unfold NN. rewrite Hs, Ho. destruct H2 as [|l s Hl Hsn]; cbn [hd tl]; split; auto. apply order_after_nn; assumption.
Qed.

Lemma step_deliver : forall t h f a D n g y, BIt t h f a D -> In (n, g) a -> (forall i, has a i -> t < i) -> Bg (g_seq g) = true -> run a (g_seq g) y -> E y = true -> f_hooks f = true ->
  let x := g_seq g in
  exists f' a', deliver f n = Ok f' /\ BIt 0 h f' a' (D ++ [(x, y)]) /\ core f' = core f /\ (length a' < length a)%nat
  /\ NoClose f f' /\ QT f f' /\ (NN f -> NN f')
  /\ (K h a D -> f_baseopen f' = true -> K h a' (D ++ [(x, y)]))
  /\ (forall c, OI c a D -> y <= c -> (forall i, has a i -> x <= i) -> OI c a' (D ++ [(x, y)]))
  /\ (forall i, has a' i -> has a i) /\ (f_baseopen f' = true -> forall i, has a' i <-> has a i /\ ~ (x <= i <= y)).
Proof.
  intros t h f a D n g y (HS & Hso & Hcf & Hgot & HL & HD & Hm & Hop) Hin Ht HB Hr HE Hk x.
  destruct (deliver_wf f a n g y HS Hso Hcf Hin HB Hr HE Hk) as (f' & a1 & r & a2 & a' & Ed & Ea & Hma & HS' & Hac & Hc & Ho & Hs & Hor). fold x in Ed, Hma, Ho, Hr.
  assert (Hmsg : ismsg x y). { destruct Hr as (Hxy & _ & Hno & _). split; [|auto]. destruct (Hcf n g Hin) as (Hp & _). fold x in Hp. lia. }
  assert (HL0 : LINKgt 0 a). { intros p q p' q' H1 H2 _ Hrr. apply HL; auto. apply Ht. eapply has_in; exact H1. }
  pose proof Hma as (Hspan & Hlt & Hgt & _). pose proof (span_has r x y Hspan) as Hrh.
  assert (Hcut : forall i, has (a1 ++ a2) i <-> has a i /\ ~ (x <= i <= y)).
  { intros i. rewrite Ea, !has_app, Hrh. split.
    - intros [H|H]; [specialize (Hlt i H)|specialize (Hgt i H)]; split; auto; lia.
    - intros ([H|[H|H]] & Hn); auto. contradiction. }
  assert (Hsub : forall i, has a' i -> has (a1 ++ a2) i) by (destruct Hac as [(-> & _)|(-> & _)]; [auto|intros i []]).
  assert (HDn : Dok h (a1 ++ a2) (D ++ [(x, y)])).
  { destruct HD as (HD1 & HD2). split.
    - intros u v Huv. apply in_app_or in Huv. destruct Huv as [Huv|[Eq|[]]].
      + destruct (HD1 u v Huv) as (H1 & H2). split; [exact H1|]. intros i Hi. destruct (H2 i Hi) as (H3 & H4). split; [exact H3|]. rewrite Hcut. tauto.
      + injection Eq as <- <-. split; [exact Hmsg|]. intros i Hi. split; [apply Hgot; apply Hr; exact Hi|]. rewrite Hcut. tauto.
    - apply NoDup_app_snoc; [exact HD2|]. intros Hdup. destruct (HD1 x y Hdup) as (_ & H2). destruct Hmsg as (Hxy & _). apply (H2 x ltac:(lia)). apply (has_in a n g Hin). }
  exists f', a'. split; [exact Ed|]. split; [|split; [exact Hc|split; [|split; [|split; [|split; [|split; [|split; [|split]]]]]]]].
  - split; [exact HS'|].
    assert (Hsorted' : sorted (a1 ++ a2)).
    { rewrite Ea in Hso. destruct (sorted_app _ _ Hso) as (S1 & S2 & S3). destruct (sorted_app _ _ S2) as (T1 & T2 & T3).
      unfold sorted. rewrite seqs_app. apply strongly_sorted_app; auto. intros i j Hi Hj. apply S3; [exact Hi|apply has_app; auto]. }
    assert (Hconf' : conf (a1 ++ a2)). { intros p q Hpq. apply (Hcf p q). rewrite Ea. rewrite !in_app_iff in *. tauto. }
    assert (Hlink' : LINKgt 0 (a1 ++ a2)) by (rewrite Ea in Hcf, HL0; apply (link_cut a1 r a2 x y Hcf HL0 Hma Hmsg)).
    split; [destruct Hac as [(-> & _)|(-> & _)]; [exact Hsorted'|constructor]|].
    split; [destruct Hac as [(-> & _)|(-> & _)]; [exact Hconf'|intros p q []]|].
    split; [intros i Hi; apply Hgot; apply Hcut; auto|].
    split; [destruct Hac as [(-> & _)|(-> & _)]; [exact Hlink'|intros p q p' q' []]|].
    split; [destruct HDn as (H1 & H2); split; [|exact H2]; intros u v Huv; destruct (H1 u v Huv) as (H3 & H4); split; [exact H3|]; intros i Hi; destruct (H4 i Hi); auto|].
    split.
    + rewrite Ho. unfold msgs_of. rewrite flat_map_app, map_app. cbn [flat_map map app]. f_equal. exact Hm.
    + unfold OPENH in *. destruct Hac as [(_ & -> & -> & _)|(_ & -> & _)]; [exact Hop|discriminate].
  - rewrite Ea, !app_length. assert (0 < length r)%nat.
    { assert (Hz : zlen r = y - x + 1). { rewrite <- (span_len x y) by (destruct Hmsg; lia). rewrite <- Hspan. unfold zlen, seqs. rewrite map_length. reflexivity. }
      unfold zlen in Hz. destruct Hmsg. lia. }
    destruct Hac as [(-> & _)|(-> & _)]; [rewrite app_length; lia|cbn [length]; lia].
  - unfold NoClose. destruct Hac as [(_ & -> & _)|(_ & -> & _)]; [auto|discriminate].
  - intros Hq. rewrite Hs, Hor, Hq. cbn [tl hd]. split; [reflexivity|]. split; [reflexivity|].
    unfold deliver in Ed. clear - Ed Hq Hac Hk Hc HS Hin Hr Hor Hs Ho.
    destruct Hac as [(_ & H1 & H2 & H3)|(_ & H1 & H2 & H3)]; [auto|].
    exfalso. assert (Hcb : forall f0 o f1, f_script f0 = [] -> callback f0 o = Ok f1 -> f_hooks f1 = f_hooks f0).
    { intros f0 o f1 Hq0 Hcb. unfold callback in Hcb. rewrite Hq0 in Hcb. cbn in Hcb. injection Hcb as <-. reflexivity. }
    set (f0 := if f_prev_rwnd f <? 2 then with_ack f true else f) in *.
    assert (Hk0 : f_hooks f0 = true) by (unfold f0; destruct (f_prev_rwnd f <? 2); exact Hk).
    assert (Hq0 : f_script f0 = []) by (unfold f0; destruct (f_prev_rwnd f <? 2); exact Hq).
    destruct (b_at (f_buf f0) n) as [g0| |]; cbn [rbind] in Ed; try discriminate. destruct (g_fra g0 =? FRA_WHOLE).
    + rewrite Hk0 in Ed. destruct (callback f0 (OMsg (g_data g0) (g_seq g0) 1)) as [f1| |] eqn:Ec; cbn [rbind] in Ed; try discriminate.
      destruct (sum_remove frag_size (f_buf f1) n) as [(b, z)| |]; cbn [rbind] in Ed; try discriminate. injection Ed as <-. cbn in H2.
      rewrite (Hcb _ _ _ Hq0 Ec) in H2. congruence.
    + cbv zeta in Ed. destruct (measure _ _ _ _ _) as [(ln, ct)| |]; cbn [rbind] in Ed; try discriminate.
      destruct (collect _ _ _ _ _) as [(b, dt)| |]; cbn [rbind] in Ed; try discriminate. change (f_hooks (with_buf f0 b)) with (f_hooks f0) in Ed. rewrite Hk0 in Ed.
      rewrite (Hcb _ _ _ (Hq0 : f_script (with_buf f0 b) = []) Ed) in H2. cbn in H2. congruence.
  - intros Hnn. eapply NN_callback; eauto.
  - intros HK Hopen i Hi. destruct Hac as [(-> & _)|(_ & Hf & _)]; [|congruence]. destruct (HK i Hi) as [H|[H|H]]; [|right; left|auto].
    + assert (Hdec : x <= i <= y \/ ~ (x <= i <= y)) by lia. destruct Hdec as [Hd|Hd].
      * right. left. exists x, y. split; [apply in_or_app; right; left; reflexivity|exact Hd].
      * left. apply Hcut. auto.
    + destruct H as (u & v & Huv & Hi'). exists u, v. split; [apply in_or_app; auto|exact Hi'].
  - intros c (HO1 & HO2) Hyc Hmin. split.
    + assert (Hlast : forall u v, In (u, v) D -> v < x). { intros u v Huv. destruct (HO2 u v Huv) as (_ & H). apply H. apply (has_in a n g Hin). }
      clear - HO1 Hlast. induction HO1 as [|(p, q) D Hs IH Hf]; cbn [app]; [constructor; constructor|]. constructor; [apply IH; intros; eapply Hlast; right; eauto|].
      apply Forall_app. split; [exact Hf|]. constructor; [|constructor]. cbn [fst snd]. apply (Hlast p q). left. reflexivity.
    + intros u v Huv. apply in_app_or in Huv. destruct Huv as [Huv|[Eq|[]]].
      * destruct (HO2 u v Huv) as (H1 & H2). split; [exact H1|]. intros i Hi. apply H2, Hcut, Hsub, Hi.
      * injection Eq as <- <-. split; [exact Hyc|]. intros i Hi. apply Hsub, Hcut in Hi. destruct Hi as (Hi & Hni). specialize (Hmin i Hi). lia.
  - intros i Hi. apply Hsub, Hcut in Hi. apply Hi.
  - intros Hopen i. destruct Hac as [(-> & _)|(_ & Hf & _)]; [apply Hcut|congruence].
Qed.

(** ** The delivery loop *)
Lemma QT_refl : forall f, QT f f.
Proof. intros f H. auto 10. Qed.
Lemma QT_trans : forall f1 f2 f3, QT f1 f2 -> QT f2 f3 -> QT f1 f3.
Proof. intros f1 f2 f3 H1 H2 H. destruct (H1 H) as (A1 & A2 & A3 & A4 & A5). destruct (H2 A1) as (B1 & B2 & B3 & B4 & B5). repeat split; congruence. Qed.

Section Loop.
Variable h : list revent.
Variable c : Z.
Hypothesis Hc1 : forall i, 1 <= i <= c -> covered h i.
Hypothesis Hc2 : ~ covered h (c + 1).
Hypothesis Htot : forall i, got h i -> exists u v, ismsg u v /\ u <= i <= v.

Lemma run_below : forall a x y, conf a -> (forall i, has a i -> got h i) -> run a x y -> x <= c -> y <= c.
Proof.
  intros a x y Hcf Hgot (_ & Hr & _) Hx. destruct (Z.le_gt_cases y c) as [H|H]; [exact H|]. exfalso. apply Hc2. apply got_covered, Hgot, Hr. lia.
Qed.
(** An element whose message lost a fragment is dead. *)
Lemma dead_if : forall a D i j, K h a D -> Dok h a D -> got h i -> has a i -> covered h j -> ~ has a j -> (forall u v, ismsg u v -> u <= i <= v -> u <= j <= v) -> dead h i.
Proof.
  intros a D i j HK HD Hgi Hi Hj Hnj Hsame. destruct (Htot i Hgi) as (u & v & Hm & Hiu). pose proof (Hsame u v Hm Hiu) as Hju.
  destruct (got_dec h j) as [Hgj|Hgj]; [|exists u, v, j; auto]. destruct (HK j Hgj) as [H|[H|H]]; [contradiction| |].
  - exfalso. destruct H as (p & q & Hpq & Hjp). destruct (proj1 HD p q Hpq) as (Hm' & Hall). destruct (ismsg_unique p q u v j Hm' Hm Hjp Hju) as (-> & ->).
    apply (Hall i Hiu). exact Hi.
  - destruct H as (p & q & k & Hm' & Hjp & Hk & Hck & Hgk). destruct (ismsg_unique p q u v j Hm' Hm Hjp Hju) as (-> & ->). exists u, v, k. auto.
Qed.

Lemma loop_wf : forall fuel f a D t, (length a < fuel)%nat -> BIt t h f a D ->
  (forall i, has a i -> i <= t -> Bg i = false /\ i <= c) -> (t <= 0 \/ E t = true \/ ~ has a (t + 1)) ->
  ((forall i, has a i -> t < i) \/ (f_order f <> RO_HOLD /\ is_open f = true)) ->
  exists f' a' D', delivery_loop fuel f c = Ok f' /\ BIt 0 h f' a' D' /\ core f' = core f /\ NoClose f f' /\ QT f f' /\ (NN f -> NN f')
  /\ (K h a D -> f_baseopen f' = f_baseopen f -> K h a' D') /\ (OI c a D -> OI c a' D') /\ (NW a -> NW a') /\ stopped f' a' c.
Proof.
  induction fuel as [|fuel IH]; intros f a D t Hf HI Hst Hte Hen; [lia|]. cbn [delivery_loop].
  pose proof HI as (HS & Hso & Hcf & Hgot & HL & HD & Hm & Hop).
  assert (Hexit : (forall i, has a i -> t < i) -> BIt 0 h f a D).
  { intros Hgt. split; [exact HS|]. split; [exact Hso|]. split; [exact Hcf|]. split; [exact Hgot|]. split; [|auto]. intros n g m k H1 H2 _ Hr. apply HL; auto. apply Hgt, (has_in _ _ _ H1). }
  assert (Hstay : (forall i, has a i -> t < i) -> stopped f a c ->
    exists f' a' D', Ok f = Ok f' /\ BIt 0 h f' a' D' /\ core f' = core f /\ NoClose f f' /\ QT f f' /\ (NN f -> NN f')
      /\ (K h a D -> f_baseopen f' = f_baseopen f -> K h a' D') /\ (OI c a D -> OI c a' D') /\ (NW a -> NW a') /\ stopped f' a' c).
  { intros Hgt Hstop. exists f, a, D. split; [reflexivity|]. split; [apply Hexit, Hgt|]. split; [reflexivity|]. split; [intros Hx; exact Hx|]. split; [apply QT_refl|]. auto 10. }
  destruct (negb (order_eqb (f_order f) RO_HOLD) && is_open f && negb (size (s_list (f_buf f)) =? 0)) eqn:Ec.
  2:{ rewrite (SL_size _ _ _ _ HS) in Ec. destruct a as [|(n, g) a'].
      - apply Hstay; [intros i []|]. right. right. left. reflexivity.
      - rewrite zlen_cons in Ec. pose proof (zlen_nonneg _ a') as Hzn. replace (1 + zlen a' =? 0) with false in Ec by lia. rewrite andb_true_r in Ec.
        apply andb_false_iff in Ec. destruct Ec as [Ec|Ec].
        + assert (Ho : f_order f = RO_HOLD) by (destruct (f_order f); [discriminate|discriminate|reflexivity]). apply Hstay; [|left; exact Ho].
          destruct Hen as [H|(H & _)]; [exact H|contradiction].
        + apply Hstay; [|right; left; exact Ec]. destruct Hen as [H'|(_ & H')]; [exact H'|congruence]. }
  apply andb_prop in Ec. destruct Ec as (Ec & Esz). apply andb_prop in Ec. destruct Ec as (Eo & Eop).
  assert (Eo' : f_order f <> RO_HOLD) by (intros Hx; rewrite Hx in Eo; discriminate).
  rewrite (SL_size _ _ _ _ HS) in Esz. rewrite (SL_first _ _ _ _ HS). cbn [rbind].
  destruct a as [|(n, g) a]; [discriminate|]. cbn [fname]. unfold b_at. rewrite (SL_at _ _ _ _ n g HS) by (left; reflexivity). cbn [rbind].
  assert (Hhk : f_hooks f = true). { apply Hop. unfold is_open in Eop. apply andb_prop in Eop. apply Eop. }
  assert (Hbo : f_baseopen f = true) by (unfold is_open in Eop; apply andb_prop in Eop; apply Eop).
  set (x := g_seq g). destruct (sorted_cons n g a Hso) as (Hso' & Hhead). fold x in Hhead.
  assert (Hmin : forall i, has ((n, g) :: a) i -> x <= i). { intros i [Hi|Hi]; [cbn [snd] in Hi; unfold x; lia|]. specialize (Hhead i Hi). lia. }
  assert (Hinh : In (n, g) ((n, g) :: a)) by (left; reflexivity).
  assert (Hx : has ((n, g) :: a) x) by (left; reflexivity).
  destruct (Hcf n g Hinh) as (Hxr & Efra & Edat). fold x in Hxr, Efra, Edat.
  assert (Hpos : forall j, has ((n, g) :: a) j -> 1 <= j) by (intros j Hj; pose proof (conf_pos _ Hcf j Hj); lia).
  destruct (Z.gtb_spec x c) as [Hxc|Hxc].
  { apply Hstay.
    - intros i Hi. destruct (Z.le_gt_cases i t) as [H|H]; [|lia]. destruct (Hst i Hi H) as (_ & Hic). specialize (Hmin i Hi). lia.
    - right. right. right. exists n, g, a. split; [reflexivity|]. left. exact Hxc. }
  destruct (run_exists _ x Hpos Hx) as (x' & y & Hxy & Hrun).
  assert (x' = x) by (pose proof (Hmin x' (proj1 (proj2 Hrun) x' ltac:(lia))); lia). subst x'.
  pose proof (run_below _ _ _ Hcf Hgot Hrun Hxc) as Hyc.
  (* delivering the head *)
  assert (Hdel : Bg x = true -> E y = true -> exists f' a' D', rbind (deliver f n) (fun f1 => delivery_loop fuel f1 c) = Ok f' /\ BIt 0 h f' a' D' /\ core f' = core f /\ NoClose f f' /\ QT f f' /\ (NN f -> NN f')
      /\ (K h ((n, g) :: a) D -> f_baseopen f' = f_baseopen f -> K h a' D') /\ (OI c ((n, g) :: a) D -> OI c a' D') /\ (NW ((n, g) :: a) -> NW a') /\ stopped f' a' c).
  { intros HB HE.
    assert (Hgt : forall i, has ((n, g) :: a) i -> t < i).
    { assert (Htx : t < x). { destruct (Z.le_gt_cases x t) as [H|H]; [|lia]. destruct (Hst x Hx H) as (H1 & _). congruence. } intros i Hi. specialize (Hmin i Hi). lia. }
    destruct (step_deliver t h f ((n, g) :: a) D n g y HI Hinh Hgt HB Hrun HE Hhk) as (f1 & a1 & -> & HI1 & Hc & Hlen & Hnc & Hqt & Hnn & HK & HO & Hsub & Hsub2). cbn [rbind]. cbn [length] in Hf, Hlen.
    destruct (IH f1 a1 (D ++ [(x, y)]) 0) as (f' & a' & D' & Hl & HI' & Hc' & Hnc' & Hqt' & Hnn' & HK' & HO' & HN' & Hstop).
    - lia.
    - exact HI1.
    - intros i Hi Hi0. pose proof (Hpos i (Hsub i Hi)). lia.
    - left. lia.
    - left. intros i Hi. pose proof (Hpos i (Hsub i Hi)). lia.
    - exists f', a', D'. split; [exact Hl|]. split; [exact HI'|]. split; [congruence|]. split; [intros H; apply Hnc, Hnc', H|]. split; [eapply QT_trans; eauto|].
      split; [auto|]. split; [intros H1 H2; rewrite Hbo in H2; pose proof (Hnc' H2) as H3; apply HK'; [apply HK; [exact H1|exact H3]|congruence]|]. split; [intros H; apply HO'; apply (HO c H Hyc Hmin)|].
      split; [|exact Hstop]. intros HN. apply HN'. intros u v Huv Hall. apply (HN u v Huv). intros i Hi. apply Hsub, Hall, Hi. }
  (* dropping the head *)
  assert (Hrem : (K h ((n, g) :: a) D -> dead h x) -> (x <= t \/ t < x) -> Bg x = false \/ E y = false -> exists f' a' D', rbind (sum_remove frag_size (f_buf f) n) (fun '(b, _) => delivery_loop fuel (with_buf f b) c) = Ok f' /\ BIt 0 h f' a' D' /\ core f' = core f /\ NoClose f f' /\ QT f f' /\ (NN f -> NN f')
      /\ (K h ((n, g) :: a) D -> f_baseopen f' = f_baseopen f -> K h a' D') /\ (OI c ((n, g) :: a) D -> OI c a' D') /\ (NW ((n, g) :: a) -> NW a') /\ stopped f' a' c).
  { intros Hdead Htx Hinc. destruct (SL_remove_at _ _ _ [] n g a HS) as (b & -> & HS' & _). cbn [rbind]. cbn [length] in Hf.
    set (t' := if x <=? t then t else y).
    assert (Hsub : forall i, has a i -> has ((n, g) :: a) i) by (intros i Hi; right; exact Hi).
    assert (Ht' : forall i, has a i -> i <= t' -> Bg i = false /\ i <= c).
    { intros i Hi Hit. unfold t' in Hit. destruct (Z.leb_spec x t); [apply Hst; auto|]. specialize (Hhead i Hi). split; [|lia]. apply Bg_false; [lia|].
      destruct Hrun as (_ & _ & Hno & _). apply Hno. lia. }
    assert (Hte' : E t' = true \/ ~ has ((n, g) :: a) (t' + 1)). { unfold t'. destruct (Z.leb_spec x t); [destruct Hte as [Hte|Hte]; [lia|exact Hte]|]. apply Hrun. }
    assert (HL' : LINKgt t' a).
    { intros p q p' q' H1 H2 Hgt Hr. pose proof (Hhead (g_seq q) (has_in _ _ _ H1)) as Hgx. apply HL; [right; exact H1|right; exact H2| |].
      - unfold t' in Hgt. destruct (Z.leb_spec x t); lia.
      - destruct Hr as (R1 & R2 & R3 & R4 & R5). split; [exact R1|]. split; [intros i Hi; right; apply R2, Hi|]. split; [exact R3|]. split.
        + destruct R4 as [R4|R4]; [auto|]. right. intros [H|H]; [|contradiction]. cbn [snd] in H. unfold x in Hgx. lia.
        + destruct R5 as [R5|R5]; [auto|]. destruct (has_dec ((n, g) :: a) (g_seq q - 1)) as [[H|H]|H]; [|contradiction|auto].
          cbn [snd] in H. fold x in H. assert (Htq : t' = x).
          { unfold t' in *. destruct (Z.leb_spec x t); [lia|]. destruct Hrun as (Hxy' & _). lia. }
          destruct Hte' as [Hte'|Hte']; [left; apply Bg_next; rewrite Htq in Hte'; replace (g_seq q - 1) with x by lia; exact Hte'|].
          exfalso. apply Hte'. right. replace (t' + 1) with (g_seq q) by lia. apply (has_in _ _ _ H1). }
    destruct (IH (with_buf f b) a D t') as (f' & a' & D' & Hl & HI' & Hc' & Hnc' & Hqt' & Hnn' & HK' & HO' & HN' & Hstop).
    - lia.
    - split; [exact HS'|]. split; [exact Hso'|]. split; [intros p q Hpq; apply (Hcf p q); right; exact Hpq|]. split; [auto|]. split; [exact HL'|]. split; [|auto].
      destruct HD as (HD1 & HD2). split; [|exact HD2]. intros u v Huv. destruct (HD1 u v Huv) as (H1 & H2). split; [exact H1|]. intros i Hi. destruct (H2 i Hi). auto.
    - exact Ht'.
    - right. destruct Hte' as [H|H]; [left; exact H|right]. intros H'. apply H, Hsub, H'.
    - right. split; [exact Eo'|exact Eop].
    - exists f', a', D'. split; [exact Hl|]. split; [exact HI'|]. split; [exact Hc'|]. split; [exact Hnc'|]. split; [exact Hqt'|]. split; [exact Hnn'|]. split; [|split; [|split; [|exact Hstop]]].
      + intros HK. apply HK'. intros i Hi. destruct (HK i Hi) as [[H|H]|[H|H]]; auto. cbn [snd] in H. fold x in H. subst i. auto.
      + intros (HO1 & HO2). apply HO'. split; [exact HO1|]. intros u v Huv. destruct (HO2 u v Huv) as (H1 & H2). split; [exact H1|]. auto.
      + intros HN. apply HN'. intros u v Huv Hall. apply (HN u v Huv). auto. }
  destruct (Z.eqb_spec (g_fra g) FRA_WHOLE) as [Hw|Hw].
  { rewrite Efra in Hw. apply fraof_whole in Hw. apply Hdel; [apply Hw|]. destruct (Z.eq_dec y x) as [->|]; [apply Hw|]. destruct Hrun as (_ & _ & Hno & _). rewrite (Hno x) in Hw by lia. destruct Hw. discriminate. }
  destruct (Z.eqb_spec (g_fra g) FRA_BEGIN) as [Hb|Hb]; cbn [negb].
  - rewrite Efra in Hb. apply fraof_begin in Hb. destruct Hb as (HB & HEx).
    assert (Htx : t < x). { destruct (Z.le_gt_cases x t) as [H|H]; [|lia]. destruct (Hst x Hx H) as (H1 & _). congruence. }
    assert (Hhy : has ((n, g) :: a) y) by (apply Hrun; lia). apply has_ex in Hhy. destruct Hhy as (m & k & Hink & Eky).
    destruct (HL n g m k Hinh Hink) as (Hend & _); [exact Htx|fold x; rewrite Eky; exact Hrun|]. rewrite Hend. rewrite (SL_at _ _ _ _ m k HS Hink). cbn [rbind].
    destruct (Hcf m k Hink) as (_ & Ekf & _). rewrite Eky in *. destruct (Z.eqb_spec (g_fra k) FRA_END) as [He|He].
    + rewrite Ekf in He. apply fraof_end in He. apply Hdel; [exact HB|apply He].
    + assert (HEy : E y = false).
      { destruct (E y) eqn:Ey; [|reflexivity]. exfalso. apply He. rewrite Ekf. apply fraof_end. split; [|exact Ey]. destruct (Z.eq_dec y x) as [->|]; [congruence|].
        apply Bg_false; [lia|]. destruct Hrun as (_ & _ & Hno & _). apply Hno. lia. }
      destruct (Z.ltb_spec y c) as [Hlt|Hge].
      * apply Hrem; [|lia|auto]. intros HK. apply (dead_if _ D x (y + 1) HK HD (Hgot x Hx) Hx); [apply Hc1; lia| |].
        -- destruct Hrun as (_ & _ & _ & [H|H] & _); [congruence|exact H].
        -- intros u v (Huv & _ & HEv & _) Hux. split; [lia|]. destruct (Z.le_gt_cases (y + 1) v) as [H|H]; [exact H|]. exfalso.
           destruct Hrun as (_ & _ & Hno & _). destruct (Z.eq_dec v y) as [->|]; [congruence|]. rewrite (Hno v) in HEv by lia. discriminate.
      * apply Hstay; [intros i Hi; specialize (Hmin i Hi); lia|]. right. right. right. exists n, g, a. split; [reflexivity|]. right. split; [exact HB|]. exists y. auto.
  - assert (HB : Bg x = false). { destruct (Bg x) eqn:Eb; [|reflexivity]. exfalso. destruct (E x) eqn:Ex; [apply Hw|apply Hb]; rewrite Efra; [apply fraof_whole|apply fraof_begin]; auto. }
    apply Hrem; [|lia|auto]. intros HK. assert (Hx1 : x <> 1) by (intros H; rewrite H in HB; discriminate).
    apply (dead_if _ D x (x - 1) HK HD (Hgot x Hx) Hx); [apply Hc1; lia| |].
    + intros H. specialize (Hmin _ H). lia.
    + intros u v (Huv & HBu & _) Hux. split; [|lia]. destruct (Z.eq_dec u x) as [->|]; [congruence|lia].
Qed.
End Loop.

(** ** tryDelivery *)
Definition stuck (a : alist) (c : Z) : Prop :=
  a = [] \/ exists n g a', a = (n, g) :: a' /\ (c < g_seq g \/ (Bg (g_seq g) = true /\ exists y, run a (g_seq g) y /\ E y = false /\ c <= y)).

Lemma callback_quiet : forall f o, f_script f = [] -> callback f o = Ok (with_out f [] (f_out f ++ [o])).
Proof. intros f o H. unfold callback. rewrite H. reflexivity. Qed.

Lemma try_wf : forall h f a D hint, (forall i, 1 <= i <= csn f -> covered h i) -> ~ covered h (csn f + 1) -> (forall i, got h i -> exists u v, ismsg u v /\ u <= i <= v) ->
  BIt 0 h f a D -> (hint > 0 -> exists g y, In (hint, g) a /\ Bg (g_seq g) = true /\ run a (g_seq g) y /\ E y = true) ->
  exists f' a' D', try_delivery f hint = Ok f' /\ BIt 0 h f' a' D' /\ core f' = core f /\ (NN f -> NN f') /\ (NN f -> OI (csn f) a D -> OI (csn f) a' D')
   /\ (is_open f = false -> a = [] -> a' = [])
   /\ (f_script f = [] -> f_script f' = [] /\ f_order f' = f_order f /\ (K h a D -> K h a' D')
       /\ ((f_baseopen f' = f_baseopen f /\ f_state f' = f_state f) \/ (a' = [] /\ f_finseen f = true /\ f_fin f <= csn f /\ f_baseopen f' = false))
       /\ (is_open f = true -> f_order f <> RO_HOLD -> stuck a' (csn f))
       /\ (is_open f = true -> f_order f = RO_NETWORK -> (forall u v, ismsg u v -> (forall i, u <= i <= v -> has a i) -> exists g, In (hint, g) a /\ g_seq g = u) -> NW a')).
Proof.
  intros h f a D hint Hc1 Hc2 Htot HI Hhint. unfold try_delivery. set (c := csn f) in *.
  (* the hinted message *)
  assert (H1 : exists f1 a1 D1, (if (hint >? 0) && order_eqb (f_order f) RO_NETWORK && is_open f then deliver f hint else Ok f) = Ok f1
    /\ BIt 0 h f1 a1 D1 /\ core f1 = core f /\ QT f f1 /\ (is_open f = false -> f1 = f /\ a1 = a) /\ (NN f -> NN f1 /\ a1 = a /\ D1 = D) /\ (f_script f = [] -> K h a D -> K h a1 D1)
    /\ (f_script f = [] -> is_open f = true -> f_order f = RO_NETWORK -> (forall u v, ismsg u v -> (forall i, u <= i <= v -> has a i) -> exists g, In (hint, g) a /\ g_seq g = u) -> NW a1)).
  { destruct ((hint >? 0) && order_eqb (f_order f) RO_NETWORK && is_open f) eqn:Ec.
    - apply andb_prop in Ec. destruct Ec as (Ec & Eop). apply andb_prop in Ec. destruct Ec as (Eh & Eo).
      assert (Hbo : f_baseopen f = true) by (unfold is_open in Eop; apply andb_prop in Eop; apply Eop).
      assert (Hhk : f_hooks f = true) by (apply HI; exact Hbo).
      destruct Hhint as (g & y & Hin & HB & Hr & HE); [lia|].
      assert (Hgt : forall i, has a i -> 0 < i). { intros i Hi. destruct HI as (_ & _ & Hcf & _). pose proof (conf_pos _ Hcf i Hi). lia. }
      destruct (step_deliver 0 h f a D hint g y HI Hin Hgt HB Hr HE Hhk) as (f1 & a1 & Ed & HI1 & Hc & _ & _ & Hqt & _ & HK & _ & Hsub & Hsub2).
      exists f1, a1, (D ++ [(g_seq g, y)]). split; [exact Ed|]. split; [exact HI1|]. split; [exact Hc|]. split; [exact Hqt|]. split; [congruence|]. split; [|split].
      + intros (Hn & _). exfalso. apply Hn. destruct (f_order f); [discriminate|reflexivity|discriminate].
      + intros Hq Hk. destruct (Hqt Hq) as (_ & _ & Hb & _). apply HK; [exact Hk|congruence].
      + intros Hq _ _ Hall u v Huv Hin1. destruct (Hqt Hq) as (_ & _ & Hb & _).
        destruct (Hall u v Huv) as (g' & Hin' & Eg); [intros i Hi; apply Hsub, Hin1, Hi|].
        assert (g' = g) by (destruct HI as (HS & _); apply (SL_unique _ _ _ _ _ _ _ HS Hin' Hin)). subst g'.
        assert (Hu : has a1 u) by (apply Hin1; destruct Huv; lia). apply Hsub2 in Hu; [|congruence]. apply (proj2 Hu). rewrite <- Eg. destruct Hr. lia.
    - exists f, a, D. split; [reflexivity|]. split; [exact HI|]. split; [reflexivity|]. split; [apply QT_refl|]. split; [auto|]. split; [auto|]. split; [auto|].
      intros Hq Hop Ho Hall u v Huv Hin1. destruct (Hall u v Huv Hin1) as (g & Hin & _). rewrite Hop, Ho in Ec. cbn [order_eqb] in Ec. rewrite !andb_true_r in Ec.
      destruct HI as (HS & _). pose proof (SL_pos _ _ _ _ _ _ HS Hin). lia. }
  destruct H1 as (f1 & a1 & D1 & -> & HI1 & Hcr1 & Hqt1 & Hno1 & Hnn1 & HK1 & HN1). cbn [rbind]. cbv zeta.
  assert (Hcsn : csn f1 = c) by (unfold csn, c; rewrite (core_set _ _ Hcr1); reflexivity). rewrite Hcsn.
  destruct (loop_wf h c Hc1 Hc2 Htot (Z.to_nat (l_n (s_list (f_buf f1)))) f1 a1 D1 0) as (f2 & a2 & D2 & El & HI2 & Hcr2 & Hnc2 & Hqt2 & Hnn2 & HK2 & HO2 & HN2 & Hstop).
  { destruct HI1 as (HS & _). pose proof (SL_fuel _ _ _ _ HS). lia. }
  { exact HI1. }
  { intros i Hi Hi0. destruct HI1 as (_ & _ & Hcf & _). pose proof (conf_pos _ Hcf i Hi). lia. }
  { left. lia. }
  { left. intros i Hi. destruct HI1 as (_ & _ & Hcf & _). pose proof (conf_pos _ Hcf i Hi). lia. }
  assert (Hno : is_open f = false -> a = [] -> a2 = []).
  { intros Hop Ha. destruct (Hno1 Hop) as (-> & ->). subst a. destruct (Z.to_nat (l_n (s_list (f_buf f)))) as [|fu]; [discriminate El|].
    cbn [delivery_loop] in El. rewrite Hop, andb_false_r in El. cbn [andb] in El. injection El as <-.
    pose proof (SL_size _ _ _ _ (proj1 HI2)) as S1. rewrite (SL_size _ _ _ _ (proj1 HI1)) in S1. destruct a2; [reflexivity|unfold zlen in S1; cbn [length] in S1; lia]. }
  rewrite El. cbn [rbind]. rewrite (SL_empty _ _ _ _ (proj1 HI2)). cbn [rbind].
  assert (Hcr : core f2 = core f) by congruence. pose proof (QT_trans _ _ _ Hqt1 Hqt2) as Hqt.
  assert (Hfs : f_finseen f2 = f_finseen f) by (unfold core in Hcr; congruence). assert (Hfn : f_fin f2 = f_fin f) by (unfold core in Hcr; congruence).
  assert (Hacc : f_accepted f2 = f_accepted f) by (unfold core in Hcr; congruence).
  assert (HKK : f_script f = [] -> K h a D -> K h a2 D2).
  { intros Hq Hk. apply HK2; [apply HK1; auto|]. destruct (Hqt1 Hq) as (Hq1 & _). apply (Hqt2 Hq1). }
  assert (Hstk : f_script f = [] -> is_open f = true -> f_order f <> RO_HOLD -> stuck a2 c).
  { intros Hq Hop Ho. destruct (Hqt Hq) as (_ & Ho2 & Hb2 & _). destruct Hstop as [H|[H|[H|H]]]; [congruence| |left; exact H|right; exact H].
    unfold is_open in *. rewrite Hb2, Hacc in H. congruence. }
  assert (HNW : f_script f = [] -> is_open f = true -> f_order f = RO_NETWORK -> (forall u v, ismsg u v -> (forall i, u <= i <= v -> has a i) -> exists g, In (hint, g) a /\ g_seq g = u) -> NW a2) by (intros; apply HN2, HN1; auto).
  destruct (f_finseen f2 && (f_fin f2 <=? c) && match a2 with [] => true | _ :: _ => false end) eqn:Efin.
  - apply andb_prop in Efin. destruct Efin as (Efin & Ea2). apply andb_prop in Efin. destruct Efin as (Efs & Efc). destruct a2 as [|? ?]; [|discriminate].
    destruct HI2 as (HS2 & _ & _ & _ & _ & HD2 & Hm2 & _).
    unfold close_and_notify. destruct (close_ok f2 [] HS2) as (f3 & -> & HS3 & Hcr3 & Hb3 & Hh3 & Ho3 & Hs3 & Hor3 & Hst3). cbn [rbind].
    assert (Hfin : exists f4, (if is_open f2 && f_hooks f2 then callback f3 (OComplete false) else Ok f3) = Ok f4 /\ SLf (f_buf f4) [] /\ core f4 = core f3 /\ f_baseopen f4 = false
       /\ msgs_of (f_out f4) = msgs_of (f_out f3) /\ (NN f3 -> NN f4) /\ (f_script f3 = [] -> f_script f4 = [] /\ f_order f4 = f_order f3)).
    { destruct (is_open f2 && f_hooks f2).
      - destruct (callback_ok f3 [] (OComplete false) HS3) as (f4 & a4 & E4 & HS4 & Ha & Hc4 & Ho4 & Hs4 & Hor4). exists f4. split; [exact E4|].
        assert (a4 = [] /\ f_baseopen f4 = false) as (-> & Hb4) by (destruct Ha as [(-> & -> & _)|(-> & -> & _)]; auto).
        split; [exact HS4|]. split; [exact Hc4|]. split; [exact Hb4|]. split; [rewrite Ho4; unfold msgs_of; rewrite flat_map_app; cbn; apply app_nil_r|]. split.
        + intros Hn. eapply NN_callback; eauto.
        + intros Hq. rewrite Hs4, Hor4, Hq. auto.
      - exists f3. split; [reflexivity|]. auto 10. }
    destruct Hfin as (f4 & -> & HS4 & Hcr4 & Hb4 & Hm4 & Hnn4 & Hq4). exists f4, [], D2. split; [reflexivity|]. split; [|split; [congruence|split; [|split; [|split; [auto|]]]]].
    + split; [exact HS4|]. split; [constructor|]. split; [intros p q []|]. split; [intros i []|]. split; [intros p q p' q' []|]. split; [exact HD2|]. split; [congruence|].
      intros Hx. congruence.
    + intros Hnn. apply Hnn4. destruct (Hnn1 Hnn) as (Hn & _). specialize (Hnn2 Hn). unfold NN in *. rewrite Hor3, Hs3. exact Hnn2.
    + intros Hnn HO. destruct (Hnn1 Hnn) as (_ & -> & ->). apply HO2, HO.
    + intros Hq. destruct (Hqt Hq) as (Q1 & Q2 & Q3 & Q4 & Q5). destruct Hq4 as (Q6 & Q7); [congruence|]. split; [exact Q6|]. split; [congruence|]. split; [auto|].
      split; [right; rewrite <- Hfs, <- Hfn; split; [reflexivity|split; [exact Efs|split; [lia|exact Hb4]]]|]. split; [auto|auto].
  - exists f2, a2, D2. split; [reflexivity|]. split; [exact HI2|]. split; [exact Hcr|]. split; [intros Hn; apply Hnn2, Hnn1, Hn|]. split; [|split; [auto|]].
    + intros Hnn HO. destruct (Hnn1 Hnn) as (_ & -> & ->). apply HO2, HO.
    + intros Hq. destruct (Hqt Hq) as (Q1 & Q2 & Q3 & Q4 & Q5). split; [exact Q1|]. split; [exact Q2|]. split; [auto|]. split; [left; auto|]. auto.
Qed.

(** ** Histories *)
Variable N : Z.
Hypothesis HN : N < U64MAX.
Hypothesis Htotal : forall i, 1 <= i <= N -> exists u v, ismsg u v /\ u <= i <= v.

Definition cev (e : revent) : Prop :=
  match e with
  | EvData flags seq fsn data => 1 <= seq <= N /\ Z.land flags FRA_MASK = fraof seq /\ is_u64 fsn /\ (Z.land flags 2 = 0 -> data = dat seq)
  | _ => True
  end.
Lemma cev_sane : forall e, cev e -> sane e.
Proof. clear Htotal. intros [|fl sq fs d| | | | |]; cbn; auto. intros (H1 & _ & H2 & _). unfold is_u64 in *. lia. Qed.
Lemma got_range : forall h i, Forall cev h -> got h i -> 1 <= i <= N.
Proof.
  intros h i Hh (h1 & e & h2 & -> & Hc & _). apply Forall_app in Hh. destruct Hh as (_ & Hh). inversion Hh as [|? ? He]; subst.
  destruct e; try contradiction. destruct Hc as (<- & _). apply He.
Qed.
Lemma got_total : forall h, Forall cev h -> forall i, got h i -> exists u v, ismsg u v /\ u <= i <= v.
Proof. intros h Hh i Hi. apply Htotal. eapply got_range; eauto. Qed.

(** Invariant kept by every event of a well-behaved sender. *)
Definition WI (h : list revent) (f : rf) (a : alist) (D : list (Z * Z)) : Prop := BIt 0 h f a D /\ SI h f.
Lemma Dok_mono : forall h h' a D, Dok h a D -> (forall i, got h i -> got h' i) -> Dok h' a D.
Proof. intros h h' a D (H1 & H2) Hg. split; [|exact H2]. intros x y Hxy. destruct (H1 x y Hxy) as (H3 & H4). split; [exact H3|]. intros i Hi. destruct (H4 i Hi). auto. Qed.
Lemma BIt_mono : forall h h' f a D, BIt 0 h f a D -> (forall i, got h i -> got h' i) -> BIt 0 h' f a D.
Proof. intros h h' f a D (H1 & H2 & H3 & H4 & H5 & H6 & H7) Hg. split; [exact H1|]. split; [exact H2|]. split; [exact H3|]. split; [auto|]. split; [exact H5|]. split; [eapply Dok_mono; eauto|exact H7]. Qed.
Lemma BIt_ext : forall h f f' a D, BIt 0 h f a D -> f_buf f' = f_buf f -> f_out f' = f_out f -> f_baseopen f' = f_baseopen f -> f_hooks f' = f_hooks f -> BIt 0 h f' a D.
Proof. intros h f f' a D (H1 & H2 & H3 & H4 & H5 & H6 & H7 & H8) E1 E2 E3 E4. unfold BIt, OPENH in *. rewrite E1, E2, E3, E4. auto 10. Qed.
Lemma got_mono : forall h e i, got h i -> got (h ++ [e]) i.
Proof. intros h e i H. apply got_snoc. auto. Qed.
Lemma dead_mono : forall h e i, dead h i -> dead (h ++ [e]) i.
Proof.
  intros h e i (x & y & j & H1 & H2 & H3 & H4 & H5). exists x, y, j. split; [exact H1|]. split; [exact H2|]. split; [exact H3|]. split; [apply covered_snoc; auto|].
  rewrite got_snoc. tauto.
Qed.

Definition FI (h : list revent) (f : rf) : Prop := f_finseen f = true -> covered h (f_fin f) /\ 1 <= f_fin f.

Lemma contains_covered : forall h f i, SI h f -> is_contains (f_set f) i = true <-> covered h i.
Proof. intros h f i (_ & H & _). rewrite is_contains_member. apply H. Qed.
Lemma OI_le : forall c c' a D, OI c a D -> c <= c' -> OI c' a D.
Proof. intros c c' a D (H1 & H2) Hc. split; [exact H1|]. intros x y Hxy. destruct (H2 x y Hxy). split; [lia|assumption]. Qed.
Lemma one_range : forall h f i, SI h f -> is_count_ranges (f_set f) = 1%nat -> covered h i -> i <= csn f.
Proof.
  intros h f i (_ & H & _) H1 Hi. unfold csn. apply H in Hi. destruct (f_set f) as [|(p, q) [|? ?]]; try discriminate H1.
  apply member_cons in Hi. cbn. destruct Hi as [Hi|Hi]; [lia|apply member_nil in Hi; contradiction].
Qed.

Lemma on_data_wf : forall h f a D flags seq fsn data, WI h f a D -> Forall cev h -> cev (EvData flags seq fsn data) ->
  let h' := h ++ [EvData flags seq fsn data] in
  exists f' a' D', on_data f flags seq fsn data = Ok f' /\ WI h' f' a' D' /\ (NN f -> NN f') /\ (NN f -> OI (csn f) a D -> OI (csn f') a' D')
  /\ (is_open f = false -> a = [] -> covered h seq -> a' = [])
  /\ (f_script f = [] -> f_script f' = [] /\ f_order f' = f_order f /\ f_accepted f' = f_accepted f
      /\ (f_finseen f' = true -> f_finseen f = true /\ f_fin f' = f_fin f \/ Z.land flags 1 <> 0 /\ f_fin f' = seq)
      /\ (f_state f = RF_OPEN \/ covered h seq -> K h a D -> K h' a' D')
      /\ (FI h f -> FI h' f' /\ ((f_baseopen f' = f_baseopen f /\ f_state f' = f_state f) \/
             (f_finseen f' = true /\ f_fin f' <= csn f' /\ (f_baseopen f' = f_baseopen f \/ a' = []))))
      /\ (is_open f = true -> f_order f <> RO_HOLD -> stuck a' (csn f'))
      /\ (is_open f = true -> f_order f = RO_NETWORK -> NW a -> NW a')).
Proof.
  intros h f a D flags seq fsn data (HB & HSI) Hh He h'. pose proof He as (Hseq & Hfra & Hfsn & Hdat). rewrite on_data_eq. cbv zeta.
  assert (Hh' : Forall cev h') by (apply Forall_app; auto).
  assert (Hs : Forall sane h) by (eapply Forall_impl; [apply cev_sane|exact Hh]). assert (Hs' : Forall sane h') by (eapply Forall_impl; [apply cev_sane|exact Hh']).
  assert (HSI3 : SI h' (noted f flags seq fsn)) by (apply SI_data; auto; unfold is_u64; lia).
  destruct (noted_fields f flags seq fsn) as (E1 & E2 & E3 & E4 & E5 & E6 & E7 & E8 & E9 & E10 & E11 & E12). cbv zeta in *. set (f3 := noted f flags seq fsn) in *.
  set (fresh := negb (is_contains (f_set f) seq)) in *. set (abn := negb (Z.land flags FLAG_ABN =? 0)).
  assert (Hfresh : fresh = true <-> ~ covered h seq).
  { unfold fresh. rewrite <- (contains_covered h f seq HSI). destruct (is_contains (f_set f) seq); cbn; intuition congruence. }
  destruct (csn_facts h f HSI Hs) as (A1 & A2 & A3 & _). destruct (csn_facts h' f3 HSI3 Hs') as (B1 & B2 & B3 & _).
  assert (Hmono : csn f <= csn f3) by (eapply csn_mono; [exact HSI|exact HSI3|exact Hs|apply cev_sane, He]).
  assert (Hgot : forall i, got h' i <-> got h i \/ (i = seq /\ abn = false /\ fresh = true)).
  { intros i. unfold h'. rewrite got_snoc. cbn [carries]. rewrite Hfresh. unfold abn, FLAG_ABN. destruct (Z.eqb_spec (Z.land flags 2) 0); cbn [negb]; intuition (subst; auto; try congruence). }
  (* inserting *)
  assert (HP : exists f4 hint a4, (if fresh && negb abn && (f_state f3 =? RF_OPEN) then rbind (insert_fragment (f_buf f3) seq flags data) (fun '(b, h) => Ok (with_buf f3 b, h)) else Ok (f3, -1)) = Ok (f4, hint)
     /\ BIt 0 h' f4 a4 D /\ core f4 = core f3 /\ f_state f4 = f_state f3 /\ f_order f4 = f_order f3 /\ f_script f4 = f_script f3 /\ f_baseopen f4 = f_baseopen f3
     /\ (hint > 0 -> exists g y, In (hint, g) a4 /\ Bg (g_seq g) = true /\ run a4 (g_seq g) y /\ E y = true)
     /\ (OI (csn f) a D -> OI (csn f) a4 D) /\ (covered h seq -> a4 = a) /\ (f_state f = RF_OPEN \/ covered h seq -> K h a D -> K h' a4 D)
     /\ (NW a -> forall u v, ismsg u v -> (forall i, u <= i <= v -> has a4 i) -> exists g, In (hint, g) a4 /\ g_seq g = u)).
  { assert (HB3 : BIt 0 h' f3 a D). { apply BIt_ext with (f := f); auto. eapply BIt_mono; [exact HB|]. intros i Hi. apply Hgot. auto. }
    assert (HK0 : forall a', (forall i, has a i -> has a' i) -> (forall i, i = seq -> abn = false -> fresh = true -> has a' i) -> K h a D -> K h' a' D).
    { intros a' Ha1 Ha2 HK i Hi. apply Hgot in Hi. destruct Hi as [Hi|(Hi & Hi2 & Hi3)]; [|left; apply Ha2; auto].
      destruct (HK i Hi) as [H|[H|H]]; [left; auto|auto|]. right. right.
      destruct H as (x & y & j & J1 & J2 & J3 & J4 & J5). exists x, y, j. split; [exact J1|]. split; [exact J2|]. split; [exact J3|]. split; [apply covered_snoc; auto|].
      intros Hg. apply Hgot in Hg. destruct Hg as [Hg|(-> & _ & Hg)]; [auto|]. apply Hfresh in Hg. auto. }
    destruct (fresh && negb abn && (f_state f3 =? RF_OPEN)) eqn:Ec.
    - apply andb_prop in Ec. destruct Ec as (Ec & Est). apply andb_prop in Ec. destruct Ec as (Efr & Eab). apply negb_true_iff in Eab.
      assert (Hnc : ~ covered h seq) by (apply Hfresh; exact Efr).
      assert (Hna : ~ has a seq). { intros Hi. apply Hnc, got_covered, HB, Hi. }
      destruct HB3 as (S1 & S2 & S3 & S4 & S5 & S6 & S7 & S8).
      destruct (insert_wf (f_buf f3) a seq flags data S1 S2 S3 S5 Hna) as (b' & hint & a4 & Ei & T1 & T2 & T3 & T4 & T5 & X & Y & st & g & R1 & R2 & R3 & R4 & R5);
        [lia|exact Hfra|apply Hdat; unfold abn, FLAG_ABN in Eab; lia|].
      rewrite Ei. cbn [rbind]. exists (with_buf f3 b'), hint, a4. split; [reflexivity|]. split.
      { split; [exact T1|]. split; [exact T2|]. split; [exact T3|]. split; [intros i Hi; apply T5 in Hi; destruct Hi as [->|Hi]; [apply Hgot; auto|auto]|]. split; [exact T4|].
        split; [|split; [exact S7|exact S8]]. destruct S6 as (S6 & S6'). split; [|exact S6']. intros x y Hxy. destruct (S6 x y Hxy) as (U1 & U2). split; [exact U1|].
        intros i Hi. destruct (U2 i Hi) as (U3 & U4). split; [exact U3|]. rewrite T5. intros [->|Hc]; [|auto]. destruct HB as (_ & _ & _ & _ & _ & (HD & _) & _). apply Hnc, got_covered, (HD x y Hxy), Hi. }
      repeat (split; [reflexivity|]). split; [|split; [|split; [|split]]].
      + intros Hpos. destruct (Bg X && E Y) eqn:EXY; [|lia]. apply andb_prop in EXY. destruct EXY. subst hint X. exists g, Y. auto.
      + intros (O1 & O2). split; [exact O1|]. intros x y Hxy. destruct (O2 x y Hxy) as (O3 & O4). split; [exact O3|]. intros i Hi. apply T5 in Hi. destruct Hi as [->|Hi]; [|auto].
        destruct (Z.le_gt_cases seq (csn f)); [|lia]. exfalso. apply Hnc, A1. lia.
      + intros Hc. contradiction.
      + intros _. apply HK0; [intros i Hi; apply T5; auto|intros i -> _ _; apply T5; auto].
      + intros Hnw u v Huv Hall. assert (Hin : u <= seq <= v).
        { destruct (Z.le_gt_cases u seq), (Z.le_gt_cases seq v); try lia; exfalso; apply (Hnw u v Huv); intros i Hi; specialize (Hall i Hi); apply T5 in Hall; destruct Hall as [->|Hall]; auto; lia. }
        destruct Huv as (V1 & V2 & V3 & V4). assert (Hrun : run a4 u v) by (split; [lia|]; auto 10).
        assert (Hpos : forall j, has a4 j -> 1 <= j) by (intros j Hj; pose proof (conf_pos _ T3 j Hj); lia).
        destruct (run_unique a4 X Y u v seq Hpos R1 Hrun R2 Hin) as (-> & ->). rewrite V2, V3 in R5. cbn in R5. subst hint. exists g. auto.
    - exists f3, (-1), a. split; [reflexivity|]. split; [exact HB3|]. repeat (split; [reflexivity|]). split; [intros; lia|]. split; [auto|]. split; [auto|]. split.
      + intros Hor. apply HK0; auto. intros i Hi Hab Hfr. exfalso. rewrite Hab, Hfr in Ec. cbn [negb andb] in Ec. rewrite E4 in Ec.
        destruct Hor as [Ho|Ho]; [rewrite Ho in Ec; discriminate|apply Hfresh in Hfr; contradiction].
      + intros Hnw u v Huv Hall. exfalso. apply (Hnw u v Huv Hall). }
  destruct HP as (f4 & hint & a4 & -> & HB4 & C4 & P1 & P2 & P3 & P4 & Hhint & HOI4 & Hsm & HK4 & HNW4). cbn [rbind].
  set (lingers := f_finseen f4 && (f_state f4 <? RF_COMPLETE_LINGER) && (is_count_ranges (f_set f4) =? 1)%nat).
  set (f5 := if lingers then with_state f4 RF_COMPLETE_LINGER else f4).
  assert (HB5 : BIt 0 h' f5 a4 D) by (unfold f5; destruct lingers; exact HB4).
  assert (C5 : core f5 = core f3) by (unfold f5; destruct lingers; exact C4).
  assert (Q5 : f_order f5 = f_order f /\ f_script f5 = f_script f /\ f_baseopen f5 = f_baseopen f) by (unfold f5; destruct lingers; cbn; rewrite P2, P3, P4; auto).
  destruct Q5 as (Q51 & Q52 & Q53).
  assert (Hcsn5 : csn f5 = csn f3) by (unfold csn; rewrite (core_set _ _ C5); reflexivity).
  assert (Hop5 : is_open f5 = is_open f). { unfold is_open. rewrite Q53. unfold core in C5. congruence. }
  assert (Hnn5 : NN f5 <-> NN f) by (unfold NN; rewrite Q51, Q52; tauto).
  destruct (try_wf h' f5 a4 D hint) as (f6 & a6 & D6 & Et & HB6 & C6 & HNN6 & HOI6 & Hno6 & Hq6); [rewrite Hcsn5; exact B1|rewrite Hcsn5; exact B2|apply got_total; exact Hh'|exact HB5|exact Hhint|].
  rewrite Et. cbn [rbind]. rewrite Hcsn5 in *.
  assert (C63 : core f6 = core f3) by congruence.
  set (cond := _ && f_hooks f6).
  assert (H7 : exists f7 a7, (if cond then callback f6 OMerge else Ok f6) = Ok f7 /\ BIt 0 h' f7 a7 D6 /\ core f7 = core f3 /\ (NN f6 -> NN f7) /\ (a7 = a6 \/ a7 = [])
     /\ (f_script f6 = [] -> a7 = a6 /\ f_script f7 = [] /\ f_order f7 = f_order f6 /\ f_baseopen f7 = f_baseopen f6 /\ f_state f7 = f_state f6)).
  { destruct cond.
    - destruct HB6 as (U1 & U2 & U3 & U4 & U5 & U6 & U7 & U8). destruct (callback_ok f6 a6 OMerge U1) as (f7 & a7 & Ec & HS7 & Ha & C7 & Ho7 & Hs7 & Hor7).
      exists f7, a7. split; [exact Ec|].
      assert (Haa : a7 = a6 \/ a7 = []) by (destruct Ha as [(-> & _)|(-> & _)]; auto).
      split; [|split; [congruence|split; [intros Hn; eapply NN_callback; eauto|split; [exact Haa|]]]].
      + split; [exact HS7|]. split; [destruct Haa as [->| ->]; [exact U2|constructor]|]. split; [destruct Haa as [->| ->]; [exact U3|intros p q []]|].
        split; [destruct Haa as [->| ->]; [exact U4|intros i []]|]. split; [destruct Haa as [->| ->]; [exact U5|intros p q p' q' []]|].
        split; [destruct Haa as [->| ->]; [exact U6|destruct U6 as (U6 & U6'); split; [|exact U6']; intros x y Hxy; destruct (U6 x y Hxy) as (V1 & V2); split; [exact V1|]; intros i Hi; split; [apply V2, Hi|intros []]]|].
        split; [rewrite Ho7; unfold msgs_of; rewrite flat_map_app; cbn; rewrite app_nil_r; exact U7|].
        destruct Ha as [(_ & W1 & W2 & _)|(_ & W1 & W2 & _)]; unfold OPENH; rewrite W1, W2; [exact U8|auto].
      + intros Hq. rewrite (callback_quiet f6 OMerge Hq) in Ec. injection Ec as <-. split; [|cbn; auto].
        pose proof (SL_size _ _ _ _ HS7) as Z1. destruct Haa as [->| ->]; [reflexivity|].
        cbn [with_out f_buf] in Z1. rewrite (SL_size _ _ _ _ U1) in Z1. destruct a6; [reflexivity|unfold zlen in Z1; cbn [length] in Z1; lia].
    - exists f6, a6. split; [reflexivity|]. split; [exact HB6|]. split; [exact C63|]. split; [auto|]. split; [auto|]. intros Hq. auto. }
  destruct H7 as (f7 & a7 & -> & HB7 & C7 & HNN7 & Ha7 & Hq7). cbn [rbind].
  eexists. exists a7, D6. split; [reflexivity|]. set (ack := (_ || negb (f_state f7 =? RF_OPEN))).
  assert (Hcsn7 : csn (with_ack f7 ack) = csn f3) by (unfold csn; cbn [with_ack f_set]; rewrite (core_set _ _ C7); reflexivity).
  split; [split; [exact HB7|apply (SI_same h' f3); [exact HSI3|exact C7]]|]. split; [intros Hn; apply HNN7, HNN6, Hnn5, Hn|]. rewrite Hcsn7. split; [|split].
  - intros Hn HO. assert (HO6 : OI (csn f3) a6 D6). { apply HOI6; [apply Hnn5, Hn|]. apply OI_le with (c := csn f); [apply HOI4, HO|exact Hmono]. }
    destruct Ha7 as [->| ->]; [exact HO6|]. destruct HO6 as (O1 & O2). split; [exact O1|]. intros x y Hxy. split; [apply (O2 x y Hxy)|intros i []].
  - intros Hop Ha Hcov. assert (a6 = []) by (apply Hno6; [congruence|rewrite (Hsm Hcov); exact Ha]). destruct Ha7; congruence.
  - intros Hq. destruct Hq6 as (K1 & K2 & K3 & K4 & K5 & K6); [congruence|]. destruct (Hq7 K1) as (-> & L1 & L2 & L3 & L4).
    cbn [with_ack f_script f_order f_accepted f_finseen f_fin f_baseopen f_state].
    assert (Hfs : f_finseen f7 = f_finseen f3 /\ f_fin f7 = f_fin f3 /\ f_accepted f7 = f_accepted f3) by (unfold core in C7; injection C7; auto).
    destruct Hfs as (M1 & M2 & M3). assert (Hfs5 : f_finseen f5 = f_finseen f3 /\ f_fin f5 = f_fin f3) by (unfold core in C5; injection C5; auto). destruct Hfs5 as (M4 & M5).
    assert (Hfin : f_finseen f7 = true -> f_finseen f = true /\ f_fin f7 = f_fin f \/ Z.land flags 1 <> 0 /\ f_fin f7 = seq).
    { rewrite M1, M2, E11, E12. intros Hf. destruct (f_finseen f) eqn:Efs; cbn [negb orb] in *; rewrite ?andb_false_r, ?andb_true_r in *; [auto|].
      right. rewrite Hf. apply andb_prop in Hf. destruct Hf as (_ & Hf). unfold FLAG_FIN in Hf. split; [|reflexivity]. intros Hz. rewrite Hz in Hf. discriminate. }
    split; [exact L1|]. split; [congruence|]. split; [congruence|]. split; [exact Hfin|]. split; [intros Ho Hk; apply K3, HK4; auto|]. split; [|split].
    + intros HFI. assert (HFI' : FI h' (with_ack f7 ack)).
      { intros Hf. cbn [with_ack f_finseen f_fin] in *. destruct (Hfin Hf) as [(F1 & ->)|(F1 & ->)]; [destruct (HFI F1); split; [apply covered_snoc; auto|assumption]|].
        split; [|lia]. apply covered_snoc. right. cbn. auto. }
      split; [exact HFI'|]. destruct K4 as [(N1 & N2)|(N1 & N2 & N3 & N4)].
      * destruct lingers eqn:El.
        -- right. apply andb_prop in El. destruct El as (El & El3). apply andb_prop in El. destruct El as (El1 & _).
           assert (Hf7 : f_finseen f7 = true). { rewrite M1. change (f_finseen f3) with (snd (fst (core f3))). rewrite <- C4. exact El1. }
           split; [exact Hf7|]. split; [|left; congruence]. destruct (HFI' Hf7) as (F1 & _). cbn [with_ack f_fin] in F1.
           apply (one_range h'); [exact HSI3| |exact F1]. rewrite <- (core_set _ _ C4). apply Nat.eqb_eq, El3.
        -- left. split; [congruence|]. unfold f5 in N2. congruence.
      * right. split; [congruence|]. split; [congruence|]. auto.
    + intros Hop Ho. apply K5; congruence.
    + intros Hop Ho Hnw. apply K6; [congruence|congruence|]. apply HNW4, Hnw.
Qed.
End Msg.
