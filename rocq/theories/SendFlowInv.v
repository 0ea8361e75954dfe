(** Sending flow: the remaining steps keep the invariant. *)
From Verif Require Import Base BaseFacts VLU VLUSpec VLUProofs Packet PacketSpec PacketProofs UserData UserDataSpec UserDataProofs Ack RecvFlowSpec WriteReceipt WriteReceiptSpec WriteReceiptProofs SendFlow SendFlowSpec SendFlowProofs.
From Coq Require Permutation.
Ltac Zify.zify_post_hook ::= Z.div_mod_to_equations.

Lemma names_inj : forall (l : list (Z * nat)) x a b, NoDup (map fst l) -> In (x, a) l -> In (x, b) l -> a = b.
Proof.
  induction l as [|[y c] l IHl]; intros x a b Hd Ha Hb; [destruct Ha|]. cbn [map fst] in Hd. apply NoDup_cons_iff in Hd. destruct Hd as (Hd1 & Hd2).
  destruct Ha as [Ha|Ha], Hb as [Hb|Hb]; try congruence; [injection Ha as -> ->|injection Hb as -> ->|eauto]; exfalso; apply Hd1; apply in_map_iff; [exists (x, b)|exists (x, a)]; auto.
Qed.
Lemma ids_inj : forall (l : list (Z * nat)) x a b, NoDup (map snd l) -> In (a, x) l -> In (b, x) l -> a = b.
Proof.
  induction l as [|[c y] l IHl]; intros x a b Hd Ha Hb; [destruct Ha|]. cbn [map snd] in Hd. apply NoDup_cons_iff in Hd. destruct Hd as (Hd1 & Hd2).
  destruct Ha as [Ha|Ha], Hb as [Hb|Hb]; try congruence; [injection Ha as -> ->|injection Hb as -> ->|eauto]; exfalso; apply Hd1; apply in_map_iff; [exists (b, x)|exists (a, x)]; auto.
Qed.

(** A fragment of queue [fi] is replaced in the heap, its flow's m_outstanding_bytes and m_last_send_queue_name are changed. *)
Lemma full_touch : forall s s' fi nm id g' last', Full s -> In (nm, id) (w_queue (wget s fi)) ->
  length (s_heap s') = length (s_heap s) ->
  (forall i, gget s' i = if Nat.eqb i id then g' else gget s i) ->
  g_owner g' = fi -> g_data g' = g_data (gget s id) -> frag_ok g' ->
  (forall fj, fj <> fi -> wget s' fj = wget s fj) ->
  wget s' fi = with_last (with_outb (wget s fi) (wrap64 (w_out (wget s fi) - flyval s id + (if g_fly g' then g_size g' else 0)))) last' ->
  (g_fly g' = true -> w_bound (wget s fi) = true) ->
  (* the outstanding list follows *)
  (forall o i, In (o, i) (s_outl s') <-> (i <> id /\ In (o, i) (s_outl s)) \/ (i = id /\ g_fly g' = true /\ o = g_oname g')) ->
  (g_fly g' = true -> 0 < g_oname g') ->
  NoDup (map fst (s_outl s')) -> s_osum s' = wrap64 (sumof (oval s') (s_outl s')) ->
  (forall pre n i suf, w_queue (wget s fi) = pre ++ (n, i) :: suf -> n = last' -> (if Nat.eqb i id then g_fly g' else g_fly (gget s i)) = true -> Forall (fun e => (if Nat.eqb (snd e) id then g_fly g' else g_fly (gget s (snd e))) = true) pre) ->
  Full s'.
Proof.
  intros s s' fi nm id g' last' H Hi Eh Eg Go Gd Gk Ew Ef Gb Eo Gp Ond Osum Hlast.
  pose proof (fu_fi _ H) as F. destruct (fi_ids _ _ (F fi) nm id Hi) as (I1 & I2 & I3 & I4).
  assert (Eq : forall fj, w_queue (wget s' fj) = w_queue (wget s fj)) by (intros fj; destruct (Nat.eq_dec fj fi) as [->|N]; [rewrite Ef; reflexivity|rewrite Ew by assumption; reflexivity]).
  assert (Eother : forall fj n i, fj <> fi -> In (n, i) (w_queue (wget s fj)) -> i <> id).
  { intros fj n i N Hn ->. destruct (fi_ids _ _ (F fj) n id Hn) as (_ & J & _). congruence. }
  assert (Eqv : forall i, qval s' i = qval s i) by (intros i; unfold qval, size_queue; rewrite Eg; destruct (Nat.eqb_spec i id) as [->|]; [rewrite Gd|]; reflexivity).
  assert (Efv : forall i, i <> id -> flyval s' i = flyval s i) by (intros i N; unfold flyval; rewrite Eg; destruct (Nat.eqb_spec i id); [congruence|reflexivity]).
  assert (Efi : flyval s' id = if g_fly g' then g_size g' else 0) by (unfold flyval; rewrite Eg, Nat.eqb_refl; reflexivity).
  constructor; [intros fj| | | |].
  - constructor; rewrite ?Eq.
    + intros n i Hn. destruct (fi_ids _ _ (F fj) n i Hn) as (g1 & g2 & g3 & g4). rewrite Eh. split; [assumption|].
      rewrite Eg. destruct (Nat.eqb_spec i id) as [->|Ni].
      * assert (fj = fi) as -> by congruence. split; [congruence|]. split; [assumption|]. intros Hf. split; [apply Eo; auto|rewrite Ef; apply Gb; assumption].
      * split; [assumption|]. split; [assumption|]. intros Hf. destruct (g4 Hf) as (g5 & g6). split; [apply Eo; left; auto|]. destruct (Nat.eq_dec fj fi) as [->|N]; [rewrite Ef; exact g6|rewrite Ew by assumption; exact g6].
    + apply (fi_nd _ _ (F _)).
    + apply (fi_ndi _ _ (F _)).
    + destruct (Nat.eq_dec fj fi) as [->|N].
      * rewrite Ef. cbn [w_out with_last with_outb]. rewrite (sumof_change (flyval s) (flyval s') nm id) by (auto; apply (fi_ndi _ _ (F fi))).
        rewrite Efi, (fi_out _ _ (F fi)). unfold wrap64. lia.
      * rewrite Ew by assumption. rewrite (sumof_ext (flyval s') (flyval s)) by (intros n i Hn; apply Efv; eauto). apply (fi_out _ _ (F fj)).
    + destruct (Nat.eq_dec fj fi) as [->|N]; [rewrite Ef|rewrite Ew by assumption]; rewrite (sumof_ext (qval s') (qval s)) by (intros; apply Eqv); apply (fi_sum _ _ (F _)).
    + intros pre n i suf Hs Hl Hf. destruct (Nat.eq_dec fj fi) as [->|N].
      * rewrite Ef in Hl. cbn in Hl. rewrite Eg in Hf.
        assert (Hf' : (if Nat.eqb i id then g_fly g' else g_fly (gget s i)) = true) by (destruct (Nat.eqb i id); assumption).
        pose proof (Hlast _ _ _ _ Hs Hl Hf') as Ha. eapply Forall_impl; [|exact Ha]. intros e He. cbn beta in He. rewrite Eg. destruct (Nat.eqb (snd e) id); assumption.
      * rewrite Ew in Hl by assumption. assert (Hin : In (n, i) (w_queue (wget s fj))) by (rewrite Hs; apply in_app_iff; right; left; reflexivity).
        rewrite Eg in Hf. pose proof (Eother fj n i N Hin) as Ni. destruct (Nat.eqb_spec i id); [congruence|].
        pose proof (fi_last _ _ (F fj) _ _ _ _ Hs Hl Hf) as Ha. apply Forall_forall. intros [n' i'] He. rewrite Forall_forall in Ha. specialize (Ha _ He). cbn [snd] in *.
        rewrite Eg. assert (i' <> id) by (apply (Eother fj n' i' N); rewrite Hs; apply in_app_iff; left; assumption). destruct (Nat.eqb_spec i' id); [congruence|assumption].
    + destruct (Nat.eq_dec fj fi) as [->|N]; [rewrite Ef|rewrite Ew by assumption]; apply (fi_live _ _ (F _)).
    + destruct (Nat.eq_dec fj fi) as [->|N]; [rewrite Ef|rewrite Ew by assumption]; apply (fi_ling _ _ (F _)).
    + destruct (Nat.eq_dec fj fi) as [->|N]; [rewrite Ef|rewrite Ew by assumption]; apply (fi_opts _ _ (F _)).
    + destruct (Nat.eq_dec fj fi) as [->|N]; [rewrite Ef|rewrite Ew by assumption]; apply (fi_id _ _ (F _)).
    + destruct (Nat.eq_dec fj fi) as [->|N]; [rewrite Ef|rewrite Ew by assumption]; apply (fi_next _ _ (F _)).
  - intros o i Ho. rewrite Eh, Eg. apply Eo in Ho. destruct Ho as [(Ni & Ho)|(-> & Hf & ->)].
    + destruct (Nat.eqb_spec i id); [congruence|]. destruct (fu_o _ H o i Ho) as (g1 & g2 & g3 & g4 & n' & g5). do 4 (split; [assumption|]). exists n'. rewrite Eq. exact g5.
    + rewrite Nat.eqb_refl. split; [auto|]. split; [assumption|]. split; [assumption|]. split; [reflexivity|]. exists nm. rewrite Go, Eq. assumption.
  - assumption.
  - assumption.
  - intros i Hl. rewrite Eh in Hl. rewrite Eg. destruct (Nat.eqb i id); [assumption|apply (fu_frag _ H); assumption].
Qed.

Lemma sumof_nonmem : forall f f' (l : list (Z * nat)) id, (forall nm, ~ In (nm, id) l) -> (forall i, i <> id -> f' i = f i) -> sumof f' l = sumof f l.
Proof. intros f f' l id Hn Hf. apply sumof_ext. intros nm i Hi. apply Hf. intros ->. exact (Hn nm Hi). Qed.

Lemma full_sent : forall s fi pre nm id suf o fsn fr abn size, Full s -> w_bound (wget s fi) = true ->
  w_queue (wget s fi) = pre ++ (nm, id) :: suf -> Forall (fun e => g_fly (gget s (snd e)) = true) pre -> g_fly (gget s id) = false ->
  usable o (s_outl s) = true -> 0 <= size <= 1200 -> Full (mark_sent s fi nm id o fsn fr abn size).
Proof.
  intros s fi pre nm id suf o fsn fr abn size H Hb Hq Hpre Hf Hu Hsz. pose proof (fu_fi _ H) as F.
  assert (Hi : In (nm, id) (w_queue (wget s fi))) by (rewrite Hq; apply in_app_iff; right; left; reflexivity).
  pose proof (queue_len _ _ _ _ Hi) as Hl. destruct (fi_ids _ _ (F fi) nm id Hi) as (I1 & I2 & I3 & I4).
  apply usable_spec in Hu. destruct Hu as (Hu1 & Hu2).
  set (g' := mkFrag (g_owner (gget s id)) (g_seq (gget s id)) (g_fra (gget s id)) abn 0 true true size (s_tsn s) o (g_data (gget s id)) (g_rcpt (gget s id))).
  assert (Hno : forall n, ~ In (n, id) (s_outl s)) by (intros n Hn; destruct (fu_o _ H n id Hn) as (_ & _ & g3 & _); congruence).
  assert (Eg : forall i, gget (mark_sent s fi nm id o fsn fr abn size) i = if Nat.eqb i id then g' else gget s i).
  { intros i. unfold mark_sent. cbn zeta. fold g'.
    match goal with |- gget (set_wire (wset (set_out ?x _ _) _ _) _) i = _ => change (gget x i = if Nat.eqb i id then g' else gget s i) end.
    destruct (Nat.eqb_spec i id) as [->|N]; [apply gget_gset_same; exact I1|rewrite gget_gset_other by congruence; reflexivity]. }
  apply (full_touch s _ fi nm id g' nm); auto.
  - unfold mark_sent. cbn zeta. cbn [s_heap set_wire wset set_flows set_out gset set_heap]. apply lset_nth_length.
  - destruct (fu_frag _ H id I1) as (k1 & k2 & k3 & k4). repeat split; cbn; try lia; try assumption; try apply k4.
  - intros fj N. unfold mark_sent. cbn zeta.
    match goal with |- wget (set_wire (wset ?x _ _) _) fj = _ => change (wget (wset x fi (with_last (with_outb (wget s fi) (wrap64 (w_out (wget s fi) + size))) nm)) fj = wget s fj) end.
    rewrite wget_wset_other by congruence. reflexivity.
  - unfold mark_sent. cbn zeta.
    match goal with |- wget (set_wire (wset ?x _ _) _) fi = _ => change (wget (wset x fi (with_last (with_outb (wget s fi) (wrap64 (w_out (wget s fi) + size))) nm)) fi = with_last (with_outb (wget s fi) (wrap64 (w_out (wget s fi) - flyval s id + size))) nm) end.
    rewrite wget_wset_same by exact Hl. unfold flyval. rewrite Hf, Z.sub_0_r. reflexivity.
  - intros o' i. change (s_outl (mark_sent s fi nm id o fsn fr abn size)) with (s_outl s ++ [(o, id)]). rewrite in_app_iff. cbn [In g' g_fly g_oname]. split.
    + intros [Hn|[Hn|[]]]; [left; split; [intros ->; exact (Hno _ Hn)|assumption]|injection Hn as <- <-; right; auto].
    + intros [(_ & Hn)|(-> & _ & ->)]; auto.
  - change (s_outl (mark_sent s fi nm id o fsn fr abn size)) with (s_outl s ++ [(o, id)]). rewrite map_app. cbn [map fst].
    apply (Permutation.Permutation_NoDup (l := o :: map fst (s_outl s))); [apply Permutation.Permutation_cons_append|]. constructor; [assumption|apply (fu_ond _ H)].
  - change (s_outl (mark_sent s fi nm id o fsn fr abn size)) with (s_outl s ++ [(o, id)]). change (s_osum (mark_sent s fi nm id o fsn fr abn size)) with (wrap64 (s_osum s + size)).
    rewrite sumof_app. cbn [sumof snd]. rewrite (sumof_nonmem (oval s) (oval (mark_sent s fi nm id o fsn fr abn size)) _ id); [|assumption|intros i N; unfold oval; rewrite Eg; destruct (Nat.eqb_spec i id); congruence].
    unfold oval at 2. rewrite Eg, Nat.eqb_refl. cbn [g' g_size]. rewrite (fu_osum _ H), Z.add_0_r. apply wrap_add.
  - intros pre' n i suf' Hs -> _.
    assert (pre' = pre /\ i = id) as (-> & ->).
    { rewrite Hq in Hs. pose proof (fi_nd _ _ (F fi)) as Hd. rewrite Hq in Hd. clear - Hs Hd. revert pre' Hs Hd. induction pre as [|x pre IH]; intros [|y pre'] Hs Hd; cbn [app map] in *.
      - injection Hs as <- <-. auto.
      - injection Hs as <- ->. cbn [fst] in Hd. apply NoDup_cons_iff in Hd. exfalso. apply (proj1 Hd). rewrite map_app. apply in_app_iff. right. left. reflexivity.
      - injection Hs as -> <-. cbn [fst] in Hd. apply NoDup_cons_iff in Hd. exfalso. apply (proj1 Hd). rewrite map_app. apply in_app_iff. right. left. reflexivity.
      - injection Hs as -> Hs. apply NoDup_cons_iff in Hd. destruct (IH pre' Hs (proj2 Hd)) as (-> & ->). auto. }
    eapply Forall_impl; [|exact Hpre]. intros e He. destruct (Nat.eqb (snd e) id); [reflexivity|assumption].
Qed.

Lemma full_lose : forall s o id nak, Full s -> In (o, id) (s_outl s) -> Full (lose_one s o id nak).
Proof.
  intros s o id nak H Ho. pose proof (fu_fi _ H) as F. destruct (fu_o _ H o id Ho) as (O1 & O2 & O3 & O4 & nm & O5).
  set (fi := g_owner (gget s id)) in *. pose proof (queue_len _ _ _ _ O5) as Hl.
  set (g' := mkFrag fi (g_seq (gget s id)) (g_fra (gget s id)) (g_sentab (gget s id)) nak false (g_ever (gget s id)) (g_size (gget s id)) (g_tsn (gget s id)) (-1) (g_data (gget s id)) (g_rcpt (gget s id))).
  assert (Eg : forall i, gget (lose_one s o id nak) i = if Nat.eqb i id then g' else gget s i).
  { intros i. unfold lose_one, lose. cbn zeta. fold fi. fold g'.
    match goal with |- gget (set_out (wset ?x _ _) _ _) i = _ => change (gget x i = if Nat.eqb i id then g' else gget s i) end.
    destruct (Nat.eqb_spec i id) as [->|N]; [apply gget_gset_same; exact O2|rewrite gget_gset_other by congruence; reflexivity]. }
  assert (Eo : forall n i, In (n, i) (drop o (s_outl s)) <-> i <> id /\ In (n, i) (s_outl s)).
  { intros n i. rewrite drop_in. cbn [fst]. split; intros (h1 & h2); split; auto.
    - intros ->. destruct (fu_o _ H n id h1) as (_ & _ & _ & h3 & _). congruence.
    - intros ->. apply h1. exact (names_inj _ _ _ _ (fu_ond _ H) h2 Ho). }
  change (s_outl (lose_one s o id nak)) with (drop o (s_outl s)) in *.
  apply (full_touch s _ fi nm id g' 0); auto; try (cbn; congruence).
  - unfold lose_one, lose. cbn zeta. cbn [s_heap set_wire wset set_flows set_out gset set_heap]. apply lset_nth_length.
  - destruct (fu_frag _ H id O2) as (k1 & k2 & k3 & k4). repeat split; cbn; try lia; try assumption; try apply k4.
  - intros fj N. unfold lose_one, lose. cbn zeta. fold fi.
    match goal with |- wget (set_out (wset ?x _ ?w) _ _) fj = _ => change (wget (wset x fi w) fj = wget s fj) end.
    rewrite wget_wset_other by congruence. reflexivity.
  - unfold lose_one, lose. cbn zeta. fold fi.
    match goal with |- wget (set_out (wset ?x _ ?w) _ _) fi = _ => change (wget (wset x fi w) fi = with_last (with_outb (wget s fi) (wrap64 (w_out (wget s fi) - flyval s id + 0))) 0) end.
    rewrite wget_wset_same by exact Hl. unfold flyval. rewrite O3, Z.add_0_r. reflexivity.
  - intros n i. change (s_outl (lose_one s o id nak)) with (drop o (s_outl s)). rewrite Eo. cbn [g' g_fly]. intuition congruence.
  - change (s_outl (lose_one s o id nak)) with (drop o (s_outl s)). apply drop_nodup. apply (fu_ond _ H).
  - change (s_outl (lose_one s o id nak)) with (drop o (s_outl s)). change (s_osum (lose_one s o id nak)) with (wrap64 (s_osum s - g_size (gget s id))).
    rewrite (sumof_nonmem (oval s) (oval (lose_one s o id nak)) _ id); [|intros n Hn; apply Eo in Hn; tauto|intros i N; unfold oval; rewrite Eg; destruct (Nat.eqb_spec i id); congruence].
    rewrite (sumof_drop _ _ id) by (auto; apply (fu_ond _ H)). rewrite (fu_osum _ H). apply wrap_sub.
  - intros pre n i suf Hs ->. assert (Hin : In (0, i) (w_queue (wget s fi))) by (rewrite Hs; apply in_app_iff; right; left; reflexivity).
    destruct (fi_ids _ _ (F fi) 0 i Hin) as (_ & _ & J & _). lia.
Qed.

(** Fragments change only in fields the invariant does not look at. *)
Definition same_frag (g g' : sfrag) : Prop :=
  g_owner g' = g_owner g /\ g_fly g' = g_fly g /\ g_size g' = g_size g /\ g_oname g' = g_oname g /\ g_data g' = g_data g /\ g_fra g' = g_fra g /\ g_seq g' = g_seq g.
Lemma full_same : forall s s', Full s -> length (s_heap s') = length (s_heap s) -> (forall i, same_frag (gget s i) (gget s' i)) ->
  s_outl s' = s_outl s -> s_osum s' = s_osum s -> s_flows s' = s_flows s -> Full s'.
Proof.
  intros s s' H Eh Eg E1 E2 E3. pose proof (fu_fi _ H) as F.
  assert (Ew : forall fi, wget s' fi = wget s fi) by (intros; unfold wget; rewrite E3; reflexivity).
  assert (Ef : forall i, g_fly (gget s' i) = g_fly (gget s i)) by (intros i; destruct (Eg i) as (_ & e & _); exact e).
  constructor; rewrite ?Eh, ?E1, ?E2; [intros fi| | | |].
  - destruct (F fi) as [f1 f2 f3 f4 f5 f6 f7 f8 f9 f10 f11]. constructor; rewrite ?Ew, ?Eh, ?E1; auto.
    + intros nm id Hi. destruct (Eg id) as (e1 & e2 & e3 & e4 & _). rewrite e1, e2, e4. apply f1. assumption.
    + rewrite f4. f_equal. apply sumof_ext. intros nm i _. unfold flyval. destruct (Eg i) as (_ & e2 & e3 & _). rewrite e2, e3. reflexivity.
    + rewrite f5. f_equal. apply sumof_ext. intros nm i _. unfold qval, size_queue. destruct (Eg i) as (_ & _ & _ & _ & e & _). rewrite e. reflexivity.
    + intros pre nm id suf Hs Hl Hf. rewrite Ef in Hf. eapply Forall_impl; [|eapply f6; eauto]. intros e. cbn beta. rewrite Ef. auto.
  - intros o id Hi. destruct (Eg id) as (e1 & e2 & e3 & e4 & _). rewrite e1, e2, e4, Ew. apply (fu_o _ H). assumption.
  - apply (fu_ond _ H).
  - rewrite (fu_osum _ H). f_equal. apply sumof_ext. intros nm i _. unfold oval. destruct (Eg i) as (_ & _ & e & _). congruence.
  - intros i Hi. destruct (Eg i) as (_ & _ & e3 & _ & e5 & e6 & e7). unfold frag_ok. rewrite e3, e5, e6, e7. apply (fu_frag _ H). assumption.
Qed.
Lemma full_nak : forall s id nak, Full s -> Full (set_nak s id nak).
Proof.
  intros s id nak H. apply (full_same s); auto.
  - apply lset_nth_length.
  - intros i. unfold set_nak. cbn zeta. rewrite gget_gset. destruct (Nat.eqb_spec id i) as [->|]; cbn [andb]; [|repeat split]. destruct (_ <? _)%nat; repeat split.
Qed.

Lemma nth_app_new : forall A (l : list A) x d, nth (length l) (l ++ [x]) d = x.
Proof. intros. rewrite app_nth2 by lia. rewrite Nat.sub_diag. reflexivity. Qed.

Lemma full_add : forall s fi rc nm fr s', Full s -> (fi < length (s_flows s))%nat -> w_state (wget s fi) = FS_OPEN ->
  In (fst fr) [0; 16; 32; 48] -> bytes_ok (snd fr) -> add_frag s fi rc nm fr = Ok s' -> Full s'.
Proof.
  intros s fi rc nm fr s' H Hl Hst Hfr Hby He. unfold add_frag in He. cbn zeta in He. destruct (usable nm (w_queue (wget s fi))) eqn:Eu; [|discriminate]. destruct (Z.ltb_spec (w_next (wget s fi)) U64MAX) as [Hnx|]; [|discriminate]. cbn [andb] in He.
  apply usable_spec in Eu. destruct Eu as (U1 & U2). pose proof (fu_fi _ H) as F.
  set (g := mkFrag fi (w_next (wget s fi)) (fst fr) false 0 false false 0 0 (-1) (snd fr) rc) in *.
  set (w' := with_tab _ _) in He. injection He as <-. set (s' := set_rcpts _ _).
  assert (Ef : wget s' fi = w') by (unfold s'; change (wget (wset (set_heap s (s_heap s ++ [g])) fi w') fi = w'); apply wget_wset_same; exact Hl).
  assert (Ew : forall fj, fj <> fi -> wget s' fj = wget s fj) by (intros fj N; unfold s'; change (wget (wset (set_heap s (s_heap s ++ [g])) fi w') fj = wget s fj); rewrite wget_wset_other by congruence; reflexivity).
  assert (Eh : s_heap s' = s_heap s ++ [g]) by reflexivity.
  assert (Eg : forall i, (i < length (s_heap s))%nat -> gget s' i = gget s i) by (intros i Hi; unfold gget; rewrite Eh; apply app_nth1; exact Hi).
  assert (En : gget s' (length (s_heap s)) = g) by (unfold gget; rewrite Eh; apply nth_app_new).
  assert (Hlt : forall fj n i, In (n, i) (w_queue (wget s fj)) -> (i < length (s_heap s))%nat) by (intros fj n i Hn; apply (fi_ids _ _ (F fj) n i Hn)).
  assert (Hsum : forall v v' fj, (forall i, (i < length (s_heap s))%nat -> v' i = v i) -> sumof v' (w_queue (wget s fj)) = sumof v (w_queue (wget s fj))).
  { intros v v' fj Hv. apply sumof_ext. intros n i Hn. apply Hv. eauto. }
  constructor; [intros fj| | | |].
  - destruct (Nat.eq_dec fj fi) as [->|N].
    + constructor; rewrite ?Ef; cbn [w' w_queue w_out w_qsum w_last w_live w_state w_opts w_id w_bound w_next with_tab with_next with_queue].
      * intros n i Hn. rewrite Eh, app_length. cbn [length]. apply in_app_iff in Hn. destruct Hn as [Hn|[Hn|[]]].
        -- destruct (fi_ids _ _ (F fi) n i Hn) as (g1 & g2 & g3 & g4). rewrite Eg by assumption. split; [lia|]. auto.
        -- injection Hn as <- <-. rewrite En. cbn. split; [lia|]. split; [reflexivity|]. split; [assumption|discriminate].
      * rewrite map_app. cbn [map fst]. apply (Permutation.Permutation_NoDup (l := nm :: map fst (w_queue (wget s fi)))); [apply Permutation.Permutation_cons_append|]. constructor; [assumption|apply (fi_nd _ _ (F fi))].
      * rewrite map_app. cbn [map snd]. apply (Permutation.Permutation_NoDup (l := length (s_heap s) :: map snd (w_queue (wget s fi)))); [apply Permutation.Permutation_cons_append|]. constructor; [|apply (fi_ndi _ _ (F fi))].
        rewrite in_map_iff. intros ([n i] & E & Hn). cbn [snd] in E. subst i. pose proof (Hlt fi n _ Hn). lia.
      * rewrite sumof_app. cbn [sumof snd]. rewrite (Hsum (flyval s)) by (intros i Hi; unfold flyval; rewrite Eg by assumption; reflexivity).
        unfold flyval at 2. rewrite En. cbn [g g_fly]. rewrite !Z.add_0_r. apply (fi_out _ _ (F fi)).
      * rewrite sumof_app. cbn [sumof snd]. rewrite (Hsum (qval s)) by (intros i Hi; unfold qval; rewrite Eg by assumption; reflexivity).
        unfold qval at 2. rewrite En. rewrite Z.add_0_r. rewrite (fi_sum _ _ (F fi)). apply wrap_add.
      * intros pre n i suf Hs Hn Hf.
        destruct (list_eq_dec (fun a b : Z * nat => ltac:(decide equality; [apply Nat.eq_dec|apply Z.eq_dec])) suf []) as [->|Hne].
        -- apply app_inj_tail in Hs. destruct Hs as (_ & Hs). injection Hs as <- <-. rewrite En in Hf. discriminate.
        -- destruct (exists_last Hne) as (suf' & x & ->). change (pre ++ (n, i) :: suf' ++ [x]) with (pre ++ ((n, i) :: suf') ++ [x]) in Hs. rewrite app_assoc in Hs. apply app_inj_tail in Hs. destruct Hs as (Hs & _).
           assert (Hin : In (n, i) (w_queue (wget s fi))) by (rewrite Hs; apply in_app_iff; right; left; reflexivity).
           rewrite Eg in Hf by eauto. pose proof (fi_last _ _ (F fi) _ _ _ _ Hs Hn Hf) as Ha. rewrite Forall_forall in *. intros [n' i'] Hx. cbn [snd]. rewrite Eg; [exact (Ha _ Hx)|]. apply (Hlt fi n'). rewrite Hs. apply in_app_iff. left. exact Hx.
      * auto.
      * intros Hx. rewrite Hst in Hx. discriminate.
      * apply (fi_opts _ _ (F fi)).
      * apply (fi_id _ _ (F fi)).
      * destruct (fi_next _ _ (F fi)) as (n1 & _). split; [unfold wrap64, U64MAX in *; lia|]. unfold wrap64, U64MAX in *. lia.
    + destruct (F fj) as [f1 f2 f3 f4 f5 f6 f7 f8 f9 f10 f11]. constructor; rewrite ?Ew by assumption; auto.
      * intros n i Hn. destruct (f1 n i Hn) as (g1 & g2 & g3 & g4). rewrite Eh, app_length. rewrite Eg by assumption. split; [cbn; lia|]. auto.
      * rewrite f4. f_equal. symmetry. apply Hsum. intros i Hi; unfold flyval; rewrite Eg by assumption; reflexivity.
      * rewrite f5. f_equal. symmetry. apply Hsum. intros i Hi; unfold qval; rewrite Eg by assumption; reflexivity.
      * intros pre n i suf Hs Hn Hf. assert (Hin : forall n' i', In (n', i') (pre ++ (n, i) :: suf) -> (i' < length (s_heap s))%nat) by (intros n' i' Hx; apply (Hlt fj n'); rewrite Hs; exact Hx).
        rewrite Eg in Hf by (apply (Hin n); apply in_app_iff; right; left; reflexivity). pose proof (f6 _ _ _ _ Hs Hn Hf) as Ha. rewrite Forall_forall in *. intros [n' i'] Hx. cbn [snd]. rewrite Eg; [exact (Ha _ Hx)|]. apply (Hin n'). apply in_app_iff. left. exact Hx.
  - intros o i Ho. destruct (fu_o _ H o i Ho) as (g1 & g2 & g3 & g4 & n & g5). rewrite Eg by assumption. rewrite Eh, app_length. split; [assumption|]. split; [cbn; lia|]. split; [assumption|]. split; [assumption|].
    exists n. destruct (Nat.eq_dec (g_owner (gget s i)) fi) as [E|N]; [rewrite E in *; rewrite Ef; cbn [w' w_queue with_tab with_next with_queue]; apply in_app_iff; left; exact g5|rewrite Ew by assumption; exact g5].
  - apply (fu_ond _ H).
  - change (s_osum s') with (s_osum s). change (s_outl s') with (s_outl s). rewrite (fu_osum _ H). f_equal. apply sumof_ext. intros n i Hn. unfold oval. destruct (fu_o _ H n i Hn) as (_ & g2 & _). rewrite Eg by assumption. reflexivity.
  - intros i Hi. rewrite Eh, app_length in Hi. cbn [length] in Hi. destruct (Nat.eq_dec i (length (s_heap s))) as [->|N]; [|rewrite Eg by lia; apply (fu_frag _ H); lia].
    rewrite En. destruct (fi_next _ _ (F fi)) as (n1 & _). repeat split; cbn; try lia; try assumption.
Qed.

Lemma full_open : forall s opts, Full s -> zlen opts <= 528 -> bytes_ok opts -> Full (set_flows s (s_flows s ++ [f_new opts])).
Proof.
  intros s opts H Ho Hb. pose proof (fu_fi _ H) as F. set (s' := set_flows _ _).
  assert (Ew : forall fj, fj <> length (s_flows s) -> wget s' fj = wget s fj).
  { intros fj N. unfold wget, s'. cbn [s_flows set_flows]. destruct (Nat.lt_ge_cases fj (length (s_flows s))) as [Hl|Hl]; [apply app_nth1; exact Hl|]. rewrite !nth_overflow; [reflexivity|exact Hl|rewrite app_length; cbn; lia]. }
  assert (Ef : wget s' (length (s_flows s)) = f_new opts) by (unfold wget, s'; cbn [s_flows set_flows]; apply nth_app_new).
  assert (Eg : forall i, gget s' i = gget s i) by reflexivity.
  constructor; [intros fj| | | |].
  - destruct (Nat.eq_dec fj (length (s_flows s))) as [->|N].
    + constructor; rewrite ?Ef; cbn; try tauto; try constructor; try congruence. intros [|] ? ? ?; discriminate. unfold U64MAX; lia.
    + destruct (F fj) as [f1 f2 f3 f4 f5 f6 f7 f8 f9 f10 f11]. constructor; rewrite ?Ew by assumption; auto.
  - intros o i Hi. destruct (fu_o _ H o i Hi) as (g1 & g2 & g3 & g4 & n & g5). do 4 (split; [assumption|]). exists n. change (gget s' i) with (gget s i).
    rewrite Ew; [exact g5|]. apply queue_len in g5. lia.
  - apply (fu_ond _ H).
  - apply (fu_osum _ H).
  - apply (fu_frag _ H).
Qed.

Lemma full_clear : forall s fi, Full s -> w_bound (wget s fi) = false -> w_state (wget s fi) <> FS_OPEN -> Full (wset s fi (with_queue (wget s fi) [] 0)).
Proof.
  intros s fi H Hb Hst. destruct (Nat.lt_ge_cases fi (length (s_flows s))) as [Hl|Hl].
  2: { unfold wset. rewrite lset_nth_out by assumption. apply (full_ext s); auto. }
  pose proof (fu_fi _ H) as F.
  assert (Hno : forall nm id, In (nm, id) (w_queue (wget s fi)) -> g_fly (gget s id) = false).
  { intros nm id Hi. destruct (fi_ids _ _ (F fi) nm id Hi) as (_ & _ & _ & g). destruct (g_fly (gget s id)); [destruct (g eq_refl); congruence|reflexivity]. }
  assert (H0 : w_out (wget s fi) = 0).
  { rewrite (fi_out _ _ (F fi)). rewrite (sumof_ext (flyval s) (fun _ => 0)); [|intros nm i Hi; unfold flyval; rewrite (Hno nm i Hi); reflexivity]. replace (sumof (fun _ => 0) (w_queue (wget s fi))) with 0; [reflexivity|]. clear. generalize (w_queue (wget s fi)) as l. induction l; cbn [sumof]; lia. }
  constructor; [intros fj| | | |].
  - destruct (Nat.eq_dec fi fj) as [<-|N].
    2: { destruct (F fj). constructor; rewrite ?wget_wset_other by assumption; assumption. }
    destruct (F fi) as [f1 f2 f3 f4 f5 f6 f7 f8 f9 f10 f11]. constructor; rewrite ?wget_wset_same by assumption; cbn; auto; try constructor; try tauto.
    intros [|] ? ? ?; discriminate.
  - intros o i Hi. destruct (fu_o _ H o i Hi) as (g1 & g2 & g3 & g4 & n & g5). do 4 (split; [assumption|]). exists n. change (gget (wset s fi (with_queue (wget s fi) [] 0)) i) with (gget s i).
    rewrite wget_wset_other; [exact g5|]. intros E. rewrite <- E in g5. rewrite (Hno n i g5) in g3. discriminate.
  - exact (fu_ond _ H).
  - exact (fu_osum _ H).
  - exact (fu_frag _ H).
Qed.

Lemma full_msgs : forall s fi m, Full s -> Full (wset s fi (with_msgs (wget s fi) m)).
Proof.
  intros s fi m H. destruct (Nat.lt_ge_cases fi (length (s_flows s))) as [Hl|Hl].
  2: { unfold wset. rewrite lset_nth_out by assumption. apply (full_ext s); auto. }
  pose proof (fu_fi _ H) as F. constructor; [intros fj| | | |].
  - destruct (Nat.eq_dec fi fj) as [<-|N].
    2: { destruct (F fj). constructor; rewrite ?wget_wset_other by assumption; assumption. }
    destruct (F fi) as [f1 f2 f3 f4 f5 f6 f7 f8 f9 f10 f11]. constructor; rewrite ?wget_wset_same by assumption; assumption.
  - intros o i Hi. destruct (fu_o _ H o i Hi) as (g1 & g2 & g3 & g4 & n & g5). do 4 (split; [assumption|]). exists n. change (gget (wset s fi (with_msgs (wget s fi) m)) i) with (gget s i).
    rewrite wget_wset. destruct (_ && _) eqn:E; [|exact g5]. apply andb_prop in E. destruct E as (E & _). apply Nat.eqb_eq in E. cbn [w_queue with_msgs]. rewrite E. exact g5.
  - exact (fu_ond _ H).
  - exact (fu_osum _ H).
  - exact (fu_frag _ H).
Qed.
Lemma prim_full : forall A B s s', prim A B s s' -> Full s -> Full s'.
Proof.
  intros A B s s' P H. destruct P.
  - apply (full_ext s); auto.
  - eapply full_add; eauto.
  - apply full_msgs; auto.
  - eapply full_sent; eauto. lia.
  - apply full_unqueue; auto. rewrite H0. left. reflexivity.
  - apply full_unqueue; auto.
  - apply full_ackf; auto.
  - apply full_lose; auto.
  - apply full_nak; auto.
  - apply full_flow; auto.
  - apply full_clear; auto.
  - apply full_open; auto.
  - apply (full_ext s); auto.
  - apply (full_ext s); auto.
Qed.
Lemma prims_full : forall A B s s', prims A B s s' -> Full s -> Full s'.
Proof. induction 1; auto. intros. apply IHprims. eapply prim_full; eauto. Qed.
