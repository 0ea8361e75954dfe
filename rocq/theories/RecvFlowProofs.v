(** Proofs about receiving flows. *)
From Verif Require Import Base BaseFacts IndexSet IndexSetSpec IndexSetProofs LinkedList LinkedListSpec LinkedListProofs SumListFacts RecvFlow RecvFlowSpec.
From Coq Require Import Sorted Permutation.
Ltac Zify.zify_post_hook ::= Z.div_mod_to_equations.

Notation buf := (sumlist frag) (only parsing).
Notation alist := (list (Z * frag)) (only parsing).
Notation SLf := (SL frag frag_size).
Definition seqs (a : alist) : list Z := map (fun p => g_seq (snd p)) a.

(** ** Buffer operations, whatever the fragments are *)
Lemma seqs_app : forall a b, seqs (a ++ b) = seqs a ++ seqs b.
Proof. intros. apply map_app. Qed.
Lemma in_seqs : forall (a : alist) i, In i (seqs a) <-> exists n g, In (n, g) a /\ g_seq g = i.
Proof.
  intros a i. unfold seqs. rewrite in_map_iff. split.
  - intros ((n, g) & E & Hin). exists n, g. auto.
  - intros (n & g & Hin & E). exists (n, g). auto.
Qed.

Lemma find_place_ok : forall b a, SLf b a -> forall seq ra1 a2 fuel, a = rev ra1 ++ a2 -> (length ra1 < fuel)%nat ->
  exists b1 b2, rev ra1 = b1 ++ b2 /\ find_place fuel b seq (lname (rev ra1)) = Ok (lname b1)
    /\ (forall b0 n g, b1 = b0 ++ [(n, g)] -> g_seq g < seq) /\ (forall n g, In (n, g) b2 -> seq <= g_seq g).
Proof.
  intros b a HS seq. induction ra1 as [|(n, g) ra1 IH]; intros a2 fuel E Hf; (destruct fuel as [|fuel]; [lia|]); cbn [find_place rev].
  - exists [], []. split; [reflexivity|]. split; [reflexivity|]. split; [|intros ? ? []]. intros b0 n g H. destruct b0; discriminate.
  - rewrite lname_snoc. cbn [rev] in E. rewrite <- app_assoc in E. cbn [app] in E.
    assert (Hin : In (n, g) a) by (rewrite E; apply in_or_app; right; left; reflexivity).
    pose proof (SL_pos _ _ _ _ _ _ HS Hin) as Hp. replace (n >? 0) with true by lia.
    unfold b_at. rewrite (SL_at _ _ _ _ _ _ HS Hin). cbn [rbind]. destruct (Z.ltb_spec (g_seq g) seq) as [Hlt|Hge].
    + exists (rev ra1 ++ [(n, g)]), []. split; [rewrite app_nil_r; reflexivity|]. rewrite lname_snoc. split; [reflexivity|]. split; [|intros ? ? []].
      intros b0 n' g' Eq. apply app_inj_tail in Eq. destruct Eq as [_ Eq]. injection Eq as <- <-. exact Hlt.
    + rewrite E in HS. rewrite (SL_prev _ _ _ _ _ _ _ HS). cbn [rbind]. rewrite <- E in HS.
      destruct (IH ((n, g) :: a2) fuel E) as (b1 & b2 & E1 & Ef & H1 & H2); [cbn [length] in Hf; lia|].
      exists b1, (b2 ++ [(n, g)]). split; [rewrite E1, app_assoc; reflexivity|]. split; [exact Ef|]. split; [exact H1|].
      intros n' g' Hin'. apply in_app_or in Hin'. destruct Hin' as [Hin'|[Eq|[]]]; [eauto|]. injection Eq as <- <-. exact Hge.
Qed.

Lemma b_put_ok : forall b a n g g', SLf b a -> In (n, g) a -> zlen (g_data g') = zlen (g_data g) ->
  exists b', b_put b n g' = Ok b' /\ SLf b' (upd a n g').
Proof.
  intros b a n g g' HS Hin Hsz. destruct (SL_upd frag frag_size b a n g g' HS Hin) as (l & E & HS').
  - unfold frag_size. lia.
  - eexists. unfold b_put. rewrite E. cbn [rbind]. split; [reflexivity|exact HS'].
Qed.

(** The fragments from the head of the list to the first END. *)
Fixpoint upto_end (a : alist) : option (alist * alist) :=
  match a with
  | [] => None
  | (n, g) :: r => if g_fra g =? FRA_END then Some ([(n, g)], r)
                   else match upto_end r with Some (s, t) => Some ((n, g) :: s, t) | None => None end
  end.
Lemma upto_end_app : forall a r rest, upto_end a = Some (r, rest) -> a = r ++ rest.
Proof.
  induction a as [|(n, g) a IH]; intros r rest H; cbn [upto_end] in H; [discriminate|].
  destruct (g_fra g =? FRA_END); [injection H as <- <-; reflexivity|].
  destruct (upto_end a) as [(s, t)|]; [|discriminate]. injection H as <- <-. cbn [app]. f_equal. apply IH. reflexivity.
Qed.
Definition payload (a : alist) : list Z := concat (map (fun p => g_data (snd p)) a).
Lemma payload_cons : forall n g a, payload ((n, g) :: a) = g_data g ++ payload a.
Proof. reflexivity. Qed.

Lemma measure_ok : forall b a2 a1 fuel len count, SLf b (a1 ++ a2) -> (length a2 < fuel)%nat ->
  measure fuel b (fname a2) len count =
  match upto_end a2 with Some (r, _) => Ok (len + zlen (payload r), count + zlen r) | None => Rej end.
Proof.
  intros b. induction a2 as [|(n, g) a2 IH]; intros a1 fuel len count HS Hf; (destruct fuel as [|fuel]; [lia|]); cbn [measure fname upto_end].
  - unfold b_at. rewrite (SL_at_dead _ _ _ _ 0 HS); [reflexivity|]. intros Hin. apply in_map_iff in Hin. destruct Hin as ((m, k) & E & Hin).
    cbn [fst] in E. subst m. pose proof (SL_pos _ _ _ _ _ _ HS Hin). lia.
  - unfold b_at. rewrite (SL_at _ _ _ _ n g HS) by (apply in_or_app; right; left; reflexivity). cbn [rbind].
    destruct (g_fra g =? FRA_END).
    + do 2 f_equal. unfold payload. cbn [map concat snd]. rewrite app_nil_r. reflexivity.
    + rewrite (SL_next _ _ _ _ _ _ _ HS). cbn [rbind]. rewrite (IH (a1 ++ [(n, g)]) fuel).
      * destruct (upto_end a2) as [(r, t)|]; [|reflexivity]. rewrite payload_cons. unfold zlen. rewrite app_length. cbn [length]. do 2 f_equal; lia.
      * rewrite <- app_assoc. exact HS.
      * cbn [length] in Hf. lia.
Qed.

Lemma collect_ok : forall r a2 rest, upto_end a2 = Some (r, rest) -> forall b a1 fuel len buf, SLf b (a1 ++ a2) -> (length a2 < fuel)%nat ->
  zlen buf + zlen (payload r) <= len ->
  exists b', collect fuel b (fname a2) len buf = Ok (b', buf ++ payload r) /\ SLf b' (a1 ++ rest).
Proof.
  induction r as [|(n, g) r IH]; intros a2 rest He b a1 fuel len bf HS Hf Hlen.
  - exfalso. destruct a2 as [|(m, k) a2]; cbn [upto_end] in He; [discriminate|]. destruct (g_fra k =? FRA_END); [discriminate|].
    destruct (upto_end a2) as [(s, t)|]; discriminate.
  - destruct fuel as [|fuel]; [lia|]. destruct a2 as [|(m, k) a2]; cbn [upto_end] in He; [discriminate|]. cbn [collect fname].
    rewrite (SL_next _ _ _ _ _ _ _ HS). cbn [rbind]. unfold b_at.
    rewrite (SL_at _ _ _ _ m k HS) by (apply in_or_app; right; left; reflexivity). cbn [rbind].
    destruct (SL_remove_at _ _ _ _ _ _ _ HS) as (b1 & Eb & HS1 & _).
    destruct (Z.eqb_spec (g_fra k) FRA_END) as [Hend|Hend].
    + injection He as <- <- <- <-. rewrite payload_cons in *. change (payload []) with (@nil Z) in *. rewrite app_nil_r in *.
      replace (zlen bf + zlen (g_data k) >? len) with false by lia. rewrite Eb. cbn [rbind]. eauto.
    + destruct (upto_end a2) as [(s, t)|] eqn:Hu; [|discriminate]. injection He as <- <- <- <-. rewrite payload_cons in *.
      assert (Hz : zlen (g_data k ++ payload s) = zlen (g_data k) + zlen (payload s)) by (unfold zlen; rewrite app_length; lia).
      rewrite Hz in Hlen. pose proof (zlen_nonneg _ (payload s)).
      replace (zlen bf + zlen (g_data k) >? len) with false by lia. rewrite Eb. cbn [rbind].
      destruct (IH a2 t Hu b1 a1 fuel len (bf ++ g_data k) HS1) as (b' & E & HS'); [cbn [length] in Hf; lia| |].
      { unfold zlen in *. rewrite app_length. lia. }
      exists b'. rewrite E, app_assoc. auto.
Qed.

(** ** What the application's actions can change *)
Definition core (f : rf) := (f_set f, f_fwd f, f_fin f, f_finseen f, f_accepted f).

Definition order_after (o : order) (l : list act) : order :=
  fold_left (fun o a => match a with AOrder o' => o' | _ => o end) l o.

Lemma close_ok : forall f a, SLf (f_buf f) a -> exists f', close f = Ok f' /\ SLf (f_buf f') [] /\ core f' = core f
  /\ f_baseopen f' = false /\ f_hooks f' = false /\ f_out f' = f_out f /\ f_script f' = f_script f /\ f_order f' = f_order f
  /\ f_state f' = (if f_state f =? RF_OPEN then RF_REJECTED else f_state f).
Proof.
  intros f a HS. unfold close. destruct (f_state f =? RF_OPEN) eqn:Es.
  - change (f_buf (with_ack (with_state f RF_REJECTED) true)) with (f_buf f). destruct (SL_sum_clear _ _ _ _ HS) as (b & E & HS'). rewrite E.
    cbn [rbind]. eexists. split; [reflexivity|]. cbn. split; [exact HS'|]. repeat (split; [reflexivity|]). reflexivity.
  - destruct (SL_sum_clear _ _ _ _ HS) as (b & E & HS'). rewrite E. cbn [rbind]. eexists. split; [reflexivity|]. cbn. split; [exact HS'|].
    repeat (split; [reflexivity|]). reflexivity.
Qed.

Definition acted (f f' : rf) (a a' : alist) : Prop :=
  (a' = a /\ f_baseopen f' = f_baseopen f /\ f_hooks f' = f_hooks f /\ f_state f' = f_state f) \/
  (a' = [] /\ f_baseopen f' = false /\ f_hooks f' = false /\ f_state f' <> RF_OPEN).

Lemma do_act_ok : forall f a x, SLf (f_buf f) a -> exists f' a', do_act f x = Ok f' /\ SLf (f_buf f') a' /\ acted f f' a a' /\ core f' = core f
  /\ f_out f' = f_out f /\ f_script f' = f_script f /\ f_order f' = order_after (f_order f) [x]
  /\ ((forall r, x <> AClose r) -> a' = a /\ f_baseopen f' = f_baseopen f /\ f_hooks f' = f_hooks f /\ f_state f' = f_state f).
Proof.
  intros f a x HS. destruct x as [r|o|n|n]; cbn [do_act].
  - destruct (close_ok (with_exc f r) a HS) as (f' & E & HS' & Hc & Hb & Hh & Ho & Hs & Hor & Hst). exists f', [].
    split; [exact E|]. split; [exact HS'|]. split.
    { right. split; [reflexivity|]. split; [exact Hb|]. split; [exact Hh|]. rewrite Hst.
      destruct (Z.eqb_spec (f_state (with_exc f r)) RF_OPEN); [discriminate|assumption]. }
    repeat (split; [assumption|]). intros H. exfalso. apply (H r). reflexivity.
  - exists (with_order f o), a. split; [reflexivity|]. split; [exact HS|]. split; [left; auto|]. auto 10.
  - exists (with_ack (with_cap f n) true), a. split; [reflexivity|]. split; [exact HS|]. split; [left; auto|]. auto 10.
  - exists (with_ack (with_win f n) true), a. split; [reflexivity|]. split; [exact HS|]. split; [left; auto|]. auto 10.
Qed.

Lemma acted_trans : forall f1 f2 f3 a1 a2 a3, acted f1 f2 a1 a2 -> acted f2 f3 a2 a3 -> acted f1 f3 a1 a3.
Proof.
  intros f1 f2 f3 a1 a2 a3 [(H1 & H2 & H3 & H4)|(H1 & H2 & H3 & H4)] [(G1 & G2 & G3 & G4)|(G1 & G2 & G3 & G4)].
  - left. repeat split; congruence.
  - right. auto.
  - right. repeat split; congruence.
  - right. auto.
Qed.
Lemma do_acts_ok : forall l f a, SLf (f_buf f) a -> exists f' a', do_acts f l = Ok f' /\ SLf (f_buf f') a' /\ acted f f' a a' /\ core f' = core f
  /\ f_out f' = f_out f /\ f_script f' = f_script f /\ f_order f' = order_after (f_order f) l.
Proof.
  induction l as [|x l IH]; intros f a HS; cbn [do_acts].
  - exists f, a. split; [reflexivity|]. split; [exact HS|]. split; [left; auto|]. auto.
  - destruct (do_act_ok f a x HS) as (f1 & a1 & -> & HS1 & Ha1 & Hc1 & Ho1 & Hs1 & Hr1 & _). cbn [rbind].
    destruct (IH f1 a1 HS1) as (f2 & a2 & E & HS2 & Ha2 & Hc2 & Ho2 & Hs2 & Hr2).
    exists f2, a2. split; [exact E|]. split; [exact HS2|]. split; [eapply acted_trans; eauto|].
    split; [congruence|]. split; [congruence|]. split; [congruence|]. rewrite Hr2, Hr1. reflexivity.
Qed.
Lemma callback_ok : forall f a o, SLf (f_buf f) a -> exists f' a', callback f o = Ok f' /\ SLf (f_buf f') a' /\ acted f f' a a' /\ core f' = core f
  /\ f_out f' = f_out f ++ [o] /\ f_script f' = tl (f_script f) /\ f_order f' = order_after (f_order f) (hd [] (f_script f)).
Proof.
  intros f a o HS. unfold callback. destruct (do_acts_ok (hd [] (f_script f)) (with_out f (tl (f_script f)) (f_out f ++ [o])) a HS)
    as (f' & a' & E & HS' & Ha & Hc & Ho & Hs & Hr). exists f', a'. auto 10.
Qed.

(** ** deliverMessage, whatever the fragments are *)
Definition delivered (f f' : rf) (d : list Z) (s c : Z) : Prop :=
  if f_hooks f then f_out f' = f_out f ++ [OMsg d s c] /\ f_script f' = tl (f_script f) /\ f_order f' = order_after (f_order f) (hd [] (f_script f))
  else f_out f' = f_out f /\ f_script f' = f_script f /\ f_order f' = f_order f.

Lemma with_ack_if : forall f (c : bool), exists f0, (if c then with_ack f true else f) = f0 /\ f_buf f0 = f_buf f /\ core f0 = core f
  /\ f_hooks f0 = f_hooks f /\ f_out f0 = f_out f /\ f_script f0 = f_script f /\ f_order f0 = f_order f /\ f_baseopen f0 = f_baseopen f /\ f_state f0 = f_state f.
Proof. intros f [|]; eexists; split; try reflexivity; auto 10. Qed.

Lemma deliver_whole : forall f a1 n g a2, SLf (f_buf f) (a1 ++ (n, g) :: a2) -> g_fra g = FRA_WHOLE ->
  exists f' a', deliver f n = Ok f' /\ SLf (f_buf f') a' /\ acted f f' (a1 ++ a2) a' /\ core f' = core f /\ delivered f f' (g_data g) (g_seq g) 1.
Proof.
  intros f a1 n g a2 HS Hfra. unfold deliver.
  destruct (with_ack_if f (f_prev_rwnd f <? 2)) as (f0 & -> & Hb & Hc & Hh & Ho & Hs & Hr & Hbo & Hst). rewrite Hb.
  unfold b_at. rewrite (SL_at _ _ _ _ n g HS) by (apply in_or_app; right; left; reflexivity). cbn [rbind]. rewrite Hfra. change (FRA_WHOLE =? FRA_WHOLE) with true. cbv iota.
  unfold delivered. rewrite <- Hh. rewrite <- Hb in HS. destruct (f_hooks f0) eqn:Eh.
  - destruct (callback_ok f0 _ (OMsg (g_data g) (g_seq g) 1) HS) as (f1 & a' & -> & HS1 & Ha & Hc1 & Ho1 & Hs1 & Hr1). cbn [rbind].
    destruct Ha as [(-> & Hbo1 & Hh1 & Hst1)|(-> & Hbo1 & Hh1 & Hst1)].
    + destruct (SL_remove_at _ _ _ _ _ _ _ HS1) as (b & -> & HS2 & _). cbn [rbind]. exists (with_buf f1 b), (a1 ++ a2). split; [reflexivity|].
      split; [exact HS2|]. split; [left; cbn; repeat split; congruence|]. split; [change (core (with_buf f1 b)) with (core f1); congruence|]. cbn. repeat split; congruence.
    + rewrite (SL_remove_dead _ _ _ _ n HS1) by (intros []). cbn [rbind]. exists (with_buf f1 (f_buf f1)), []. split; [reflexivity|].
      split; [exact HS1|]. split; [right; auto|]. split; [change (core (with_buf f1 (f_buf f1))) with (core f1); congruence|]. cbn. repeat split; congruence.
  - cbn [rbind]. destruct (SL_remove_at _ _ _ _ _ _ _ HS) as (b & -> & HS2 & _). cbn [rbind]. exists (with_buf f0 b), (a1 ++ a2). split; [reflexivity|].
    split; [exact HS2|]. split; [left; cbn; repeat split; congruence|]. split; [change (core (with_buf f0 b)) with (core f0); congruence|]. cbn. repeat split; congruence.
Qed.

Lemma deliver_multi : forall f a1 n g a2, SLf (f_buf f) (a1 ++ (n, g) :: a2) -> g_fra g <> FRA_WHOLE ->
  match upto_end ((n, g) :: a2) with
  | Some (r, rest) => exists f' a', deliver f n = Ok f' /\ SLf (f_buf f') a' /\ acted f f' (a1 ++ rest) a' /\ core f' = core f
                      /\ delivered f f' (payload r) (g_seq g) (zlen r)
  | None => deliver f n = Rej
  end.
Proof.
  intros f a1 n g a2 HS Hfra. unfold deliver.
  destruct (with_ack_if f (f_prev_rwnd f <? 2)) as (f0 & -> & Hb & Hc & Hh & Ho & Hs & Hr & Hbo & Hst). rewrite Hb.
  unfold b_at. rewrite (SL_at _ _ _ _ n g HS) by (apply in_or_app; right; left; reflexivity). cbn [rbind].
  replace (g_fra g =? FRA_WHOLE) with false by lia. cbv zeta.
  pose proof (SL_fuel _ _ _ _ HS) as Hfuel. rewrite app_length in Hfuel.
  pose proof (measure_ok (f_buf f) ((n, g) :: a2) a1 (Z.to_nat (l_n (s_list (f_buf f)))) 0 0 HS ltac:(lia)) as Hm. cbn [fname] in Hm. rewrite Hm.
  destruct (upto_end ((n, g) :: a2)) as [(r, rest)|] eqn:Hu; [|reflexivity]. cbn [rbind].
  destruct (collect_ok r _ rest Hu (f_buf f) a1 (Z.to_nat (l_n (s_list (f_buf f)))) (0 + zlen (payload r)) [] HS ltac:(lia)) as (b & Ec & HS1).
  { change (zlen []) with 0. lia. }
  cbn [fname] in Ec. rewrite Ec. cbn [rbind app]. replace (0 + zlen (payload r) - zlen (payload r)) with 0 by lia. change (Z.to_nat 0) with 0%nat. cbn [repeat].
  rewrite app_nil_r. replace (0 + zlen r) with (zlen r) by lia.
  change (f_hooks (with_buf f0 b)) with (f_hooks f0). unfold delivered. rewrite <- Hh. destruct (f_hooks f0) eqn:Eh.
  - destruct (callback_ok (with_buf f0 b) (a1 ++ rest) (OMsg (payload r) (g_seq g) (zlen r)) HS1) as (f1 & a' & -> & HS2 & Ha & Hc1 & Ho1 & Hs1 & Hr1).
    cbn in Ho1, Hs1, Hr1. exists f1, a'. split; [reflexivity|]. split; [exact HS2|]. split; [|split; [unfold core in *; cbn in Hc1; congruence|repeat split; congruence]].
    destruct Ha as [(-> & Hbo1 & Hh1 & Hst1)|(-> & Hbo1 & Hh1 & Hst1)]; cbn in *; [left|right]; repeat split; congruence.
  - exists (with_buf f0 b), (a1 ++ rest). split; [reflexivity|]. split; [exact HS1|]. split; [left; cbn; repeat split; congruence|].
    split; [unfold core in *; cbn; congruence|]. cbn. repeat split; congruence.
Qed.

(** ** insertFragment, whatever the fragments are *)
Definition key (p : Z * frag) := (fst p, g_seq (snd p), g_fra (snd p), g_data (snd p)).
Definition keys (a : alist) := map key a.

Lemma keys_names : forall a b, keys a = keys b -> map fst a = map fst b.
Proof.
  induction a as [|(n, g) a IH]; intros [|(m, k) b] E; try discriminate; [reflexivity|]. unfold keys in E. cbn [map] in E. injection E as E1 _ _ _ E2.
  cbn [map fst]. f_equal; auto.
Qed.
Lemma keys_seqs : forall a b, keys a = keys b -> seqs a = seqs b.
Proof.
  induction a as [|(n, g) a IH]; intros [|(m, k) b] E; try discriminate; [reflexivity|]. unfold keys in E. cbn [map] in E. injection E as _ E1 _ _ E2.
  unfold seqs. cbn [map snd]. f_equal; [exact E1|apply IH; exact E2].
Qed.
Lemma keys_in : forall a b n g, keys a = keys b -> In (n, g) a -> exists g', In (n, g') b /\ g_seq g' = g_seq g /\ g_fra g' = g_fra g /\ g_data g' = g_data g.
Proof.
  induction a as [|(m, k) a IH]; intros [|(m', k') b] n g E Hin; try discriminate; [destruct Hin|].
  unfold keys in E. cbn [map] in E. injection E as E1 E2 E3 E4 E5. destruct Hin as [Eq|Hin].
  - injection Eq as <- <-. exists k'. cbn [fst snd] in *. subst m'. split; [left; reflexivity|auto].
  - destruct (IH b n g E5 Hin) as (g' & H & H'). exists g'. split; [right; exact H|exact H'].
Qed.
Lemma keys_upd : forall (a : alist) n g g', NoDup (map fst a) -> In (n, g) a -> g_seq g' = g_seq g -> g_fra g' = g_fra g -> g_data g' = g_data g ->
  keys (upd a n g') = keys a.
Proof.
  intros a n g g' Hnd Hin H1 H2 H3. unfold keys, upd. rewrite map_map. apply map_ext_in. intros (m, k) Hk. cbn [fst].
  destruct (Z.eqb_spec m n) as [->|Hm]; [|reflexivity].
  assert (k = g) as ->; [|unfold key; cbn [fst snd]; congruence].
  clear - Hnd Hin Hk. induction a as [|(m, x) a IH]; [destruct Hin|]. cbn [map fst] in Hnd. apply NoDup_cons_iff in Hnd. destruct Hnd as [Hn Hd].
  destruct Hin as [E|Hin], Hk as [E'|Hk].
  - congruence.
  - exfalso. apply Hn. apply in_map_iff. exists (n, k). split; [|exact Hk]. cbn. congruence.
  - exfalso. apply Hn. apply in_map_iff. exists (n, g). split; [|exact Hin]. cbn. congruence.
  - auto.
Qed.

Definition prev_joins (fra n : Z) (a1 : alist) : option frag :=
  if fra =? FRA_BEGIN then None else
  match rev a1 with (_, g) :: _ => if g_seq g =? wrap64 (n - 1) then Some g else None | [] => None end.
Definition next_joins (fra n : Z) (a2 : alist) : option frag :=
  if fra =? FRA_END then None else
  match a2 with (_, g) :: _ => if g_seq g =? wrap64 (n + 1) then Some g else None | [] => None end.

Lemma insert_detail : forall b a n flags data, SLf b a ->
  let fra := Z.land flags FRA_MASK in
  exists a1 a2 m, a = a1 ++ a2 /\ 0 < m /\ ~ In m (map fst a)
  /\ (forall b0 k g, a1 = b0 ++ [(k, g)] -> g_seq g < n) /\ (forall k g, In (k, g) a2 -> n <= g_seq g)
  /\ (fra = FRA_WHOLE -> exists b', insert_fragment b n flags data = Ok (b', m) /\ SLf b' (a1 ++ (m, mkFrag n m m fra data) :: a2))
  /\ (fra <> FRA_WHOLE ->
      let st := match prev_joins fra n a1 with Some g => g_start g | None => m end in
      let en := match next_joins fra n a2 with Some g => g_end g | None => m end in
      let a3 := a1 ++ (m, mkFrag n st en fra data) :: a2 in
      (st <> m -> ~ In st (map fst a) -> insert_fragment b n flags data = Rej)
      /\ (forall a4 hb, (st = m /\ a4 = a3 /\ hb = (fra =? FRA_BEGIN)) \/ (exists sg, st <> m /\ In (st, sg) a3 /\ a4 = upd a3 st (set_end sg en) /\ hb = (g_fra sg =? FRA_BEGIN)) ->
          (en <> m -> ~ In en (map fst a) -> insert_fragment b n flags data = Rej)
          /\ (forall a5 he, (en = m /\ a5 = a4 /\ he = (fra =? FRA_END)) \/ (exists eg, en <> m /\ In (en, eg) a4 /\ a5 = upd a4 en (set_start eg st) /\ he = (g_fra eg =? FRA_END)) ->
              exists b', insert_fragment b n flags data = Ok (b', if hb && he then st else -1) /\ SLf b' a5))).
Proof.
  intros b a n flags data HS fra. remember (insert_fragment b n flags data) as X eqn:EX. unfold insert_fragment in EX. cbv zeta in EX. fold fra in EX. rewrite (SL_last _ _ _ _ HS) in EX. cbn [rbind] in EX.
  pose proof (SL_fuel _ _ _ _ HS) as Hfuel.
  destruct (find_place_ok b a HS n (rev a) [] (Z.to_nat (l_n (s_list b)))) as (a1 & a2 & Ea & Ef & Hlt & Hge).
  { rewrite rev_involutive, app_nil_r. reflexivity. }
  { rewrite rev_length. lia. }
  rewrite rev_involutive in Ea, Ef. rewrite Ef in EX. cbn [rbind] in EX. subst a.
  destruct (SL_insert _ _ b a1 a2 (mkFrag n (-1) (-1) fra data) HS) as (b0 & m & Eb & Hm & Hni & HS0). rewrite Eb in EX. cbn [rbind] in EX.
  exists a1, a2, m. split; [reflexivity|]. split; [exact Hm|]. split; [exact Hni|]. split; [exact Hlt|]. split; [exact Hge|].
  assert (Hin0 : forall g, In (m, g) (a1 ++ (m, g) :: a2)) by (intros g; apply in_or_app; right; left; reflexivity).
  unfold b_at at 1 in EX. rewrite (SL_at _ _ _ _ _ _ HS0 (Hin0 _)) in EX. cbn [rbind] in EX. unfold set_start, set_end in EX. cbn [g_seq g_start g_end g_fra g_data] in EX.
  assert (Hput : forall b' G G', SLf b' (a1 ++ (m, G) :: a2) -> zlen (g_data G') = zlen (g_data G) ->
    exists b'', b_put b' m G' = Ok b'' /\ SLf b'' (a1 ++ (m, G') :: a2)).
  { intros b' G G' HSb Hz. destruct (b_put_ok b' _ m G G' HSb (Hin0 _) Hz) as (b'' & E1 & E2). exists b''. split; [exact E1|].
    rewrite upd_split in E2; [exact E2|]. apply (SL_nodup _ _ _ _ HSb). }
  destruct (Hput b0 _ (mkFrag n m m fra data) HS0 eq_refl) as (b1 & Eb1 & HS1). rewrite Eb1 in EX. cbn [rbind] in EX.
  split.
  { intros Hw. rewrite Hw in EX. change (FRA_WHOLE =? FRA_WHOLE) with true in EX. cbv iota in EX. exists b1. rewrite Hw in *. auto. }
  intros Hw. replace (fra =? FRA_WHOLE) with false in EX by lia.
  set (st := match prev_joins fra n a1 with Some g => g_start g | None => m end). set (en := match next_joins fra n a2 with Some g => g_end g | None => m end).
  set (a3 := a1 ++ (m, mkFrag n st en fra data) :: a2).
  assert (E2 : exists b2, (if negb (fra =? FRA_BEGIN) then
             rbind (prev (s_list b1) m) (fun p => if p >? 0 then
               rbind (b_at b1 p) (fun pg =>
               if g_seq pg =? wrap64 (n - 1) then rbind (b_at b1 m) (fun g => b_put b1 m {| g_seq := g_seq g; g_start := g_start pg; g_end := g_end g; g_fra := g_fra g; g_data := g_data g |}) else Ok b1)
             else Ok b1) else Ok b1) = Ok b2 /\ SLf b2 (a1 ++ (m, mkFrag n st m fra data) :: a2)).
  { unfold st, prev_joins. destruct (fra =? FRA_BEGIN); [exists b1; auto|]. cbn [negb].
    rewrite (SL_prev _ _ _ _ _ _ _ HS1). cbn [rbind]. destruct a1 as [|(pn, pg) a1' _] using rev_ind.
    - cbn [lname rev]. change (0 >? 0) with false. cbv iota. exists b1. auto.
    - rewrite lname_snoc. rewrite rev_app_distr. cbn [rev app].
      assert (Hin : In (pn, pg) ((a1' ++ [(pn, pg)]) ++ (m, mkFrag n m m fra data) :: a2)) by (apply in_or_app; left; apply in_or_app; right; left; reflexivity).
      pose proof (SL_pos _ _ _ _ _ _ HS1 Hin). replace (pn >? 0) with true by lia. unfold b_at. rewrite (SL_at _ _ _ _ _ _ HS1 Hin). cbn [rbind].
      destruct (g_seq pg =? wrap64 (n - 1)); [|exists b1; auto].
      rewrite (SL_at _ _ _ _ _ _ HS1 (Hin0 _)). cbn [rbind g_seq g_start g_end g_fra g_data]. apply (Hput b1 _ _ HS1). reflexivity. }
  destruct E2 as (b2 & Eb2 & HS2). rewrite Eb2 in EX. cbn [rbind] in EX.
  assert (E3 : exists b3, (if negb (fra =? FRA_END) then
             rbind (next (s_list b2) m) (fun p => if p >? 0 then
               rbind (b_at b2 p) (fun pg =>
               if g_seq pg =? wrap64 (n + 1) then rbind (b_at b2 m) (fun g => b_put b2 m {| g_seq := g_seq g; g_start := g_start g; g_end := g_end pg; g_fra := g_fra g; g_data := g_data g |}) else Ok b2)
             else Ok b2) else Ok b2) = Ok b3 /\ SLf b3 a3).
  { unfold a3, en, next_joins. destruct (fra =? FRA_END); [exists b2; auto|]. cbn [negb].
    rewrite (SL_next _ _ _ _ _ _ _ HS2). cbn [rbind]. destruct a2 as [|(pn, pg) a2'].
    - cbn [fname]. change (0 >? 0) with false. cbv iota. exists b2. auto.
    - cbn [fname].
      assert (Hin : In (pn, pg) (a1 ++ (m, mkFrag n st m fra data) :: (pn, pg) :: a2')) by (apply in_or_app; right; right; left; reflexivity).
      pose proof (SL_pos _ _ _ _ _ _ HS2 Hin). replace (pn >? 0) with true by lia. unfold b_at. rewrite (SL_at _ _ _ _ _ _ HS2 Hin). cbn [rbind].
      destruct (g_seq pg =? wrap64 (n + 1)); [|exists b2; auto].
      rewrite (SL_at _ _ _ _ _ _ HS2 (Hin0 _)). cbn [rbind g_seq g_start g_end g_fra g_data]. apply (Hput b2 _ _ HS2). reflexivity. }
  destruct E3 as (b3 & Eb3 & HS3). rewrite Eb3 in EX. cbn [rbind] in EX. unfold b_at in EX. rewrite (SL_at _ _ _ _ m _ HS3 (Hin0 _)) in EX. cbn [rbind g_seq g_start g_end g_fra g_data] in EX.
  assert (Hn3 : forall x, x <> m -> ~ In x (map fst (a1 ++ a2)) -> ~ In x (map fst a3)).
  { intros x Hx Hnx Hin. unfold a3 in Hin. rewrite map_app in *. cbn [map fst] in Hin. rewrite in_app_iff in *. cbn [In] in Hin. intuition congruence. }
  split.
  { intros Hst Hdead. replace (st =? m) with false in EX by lia. cbn [negb] in EX. rewrite (SL_at_dead _ _ _ _ st HS3) in EX by auto. exact EX. }
  intros a4 hb H4.
  assert (E4 : exists b4, (if negb (st =? m) then
             rbind (at_ (s_list b3) st) (fun sg =>
             rbind (b_put b3 st {| g_seq := g_seq sg; g_start := g_start sg; g_end := en; g_fra := g_fra sg; g_data := g_data sg |}) (fun b' =>
             Ok (b', g_fra sg =? FRA_BEGIN))) else Ok (b3, fra =? FRA_BEGIN)) = Ok (b4, hb) /\ SLf b4 a4 /\ In (m, mkFrag n st en fra data) a4
             /\ map fst a4 = map fst a3).
  { destruct H4 as [(Hst & -> & ->)|(sg & Hst & Hin & -> & ->)].
    - replace (st =? m) with true by lia. exists b3. cbn [negb]. split; [reflexivity|]. split; [exact HS3|]. split; [apply Hin0|reflexivity].
    - replace (st =? m) with false by lia. cbn [negb]. rewrite (SL_at _ _ _ _ st sg HS3 Hin). cbn [rbind].
      destruct (b_put_ok b3 a3 st sg (set_end sg en) HS3 Hin eq_refl) as (b4 & Ep & HS4). unfold set_end in Ep. rewrite Ep. cbn [rbind].
      exists b4. split; [reflexivity|]. split; [exact HS4|]. split; [|apply upd_names]. apply upd_in. right. split; [congruence|apply Hin0]. }
  destruct E4 as (b4 & Eb4 & HS4 & Hin4 & Hnames). rewrite Eb4 in EX. cbn [rbind] in EX. rewrite (SL_at _ _ _ _ m _ HS4 Hin4) in EX. cbn [rbind g_seq g_start g_end g_fra g_data] in EX.
  split.
  { intros Hen Hdead. replace (en =? m) with false in EX by lia. cbn [negb] in EX. rewrite (SL_at_dead _ _ _ _ en HS4) in EX; [exact EX|]. rewrite Hnames. auto. }
  intros a5 he H5.
  destruct H5 as [(Hen & -> & ->)|(eg & Hen & Hin & -> & ->)].
  - replace (en =? m) with true in EX by lia. cbn [negb rbind] in EX. rewrite (SL_at _ _ _ _ m _ HS4 Hin4) in EX. cbn [rbind g_start] in EX. eauto.
  - replace (en =? m) with false in EX by lia. cbn [negb] in EX. rewrite (SL_at _ _ _ _ en eg HS4 Hin) in EX. cbn [rbind] in EX.
    destruct (b_put_ok b4 a4 en eg (set_start eg st) HS4 Hin eq_refl) as (b5 & Ep & HS5). unfold set_start in Ep. rewrite Ep in EX. cbn [rbind] in EX.
    assert (Hin5 : In (m, mkFrag n st en fra data) (upd a4 en (set_start eg st))) by (apply upd_in; right; split; [congruence|exact Hin4]).
    rewrite (SL_at _ _ _ _ m _ HS5 Hin5) in EX. cbn [rbind g_start] in EX. eauto.
Qed.
