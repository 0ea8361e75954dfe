(** Receiving flows facing any peer at all. *)
From Verif Require Import Base BaseFacts IndexSet IndexSetSpec IndexSetProofs LinkedList LinkedListSpec LinkedListProofs SumListFacts RecvFlow RecvFlowSpec RecvFlowProofs.
From Coq Require Import Sorted Permutation.
Ltac Zify.zify_post_hook ::= Z.div_mod_to_equations.

Lemma sorted_app_inv : forall l1 l2, StronglySorted Z.lt (l1 ++ l2) -> StronglySorted Z.lt l1 /\ StronglySorted Z.lt l2 /\ (forall x y, In x l1 -> In y l2 -> x < y).
Proof.
  induction l1 as [|x l1 IH]; intros l2 H; cbn [app] in H.
  - split; [constructor|]. split; [exact H|]. intros ? ? [].
  - inversion H as [|? ? H1 H2]; subst. destruct (IH _ H1) as (I1 & I2 & I3). rewrite Forall_forall in H2.
    split; [constructor; [exact I1|apply Forall_forall; intros y Hy; apply H2, in_or_app; auto]|]. split; [exact I2|].
    intros y z [<-|Hy] Hz; [apply H2, in_or_app; auto|eauto].
Qed.

Lemma NoDup_app_r : forall A (l1 l2 : list A), NoDup (l1 ++ l2) -> NoDup l2.
Proof. induction l1 as [|x l1 IH]; intros l2 H; [exact H|]. cbn [app] in H. apply NoDup_cons_iff in H. apply IH, H. Qed.

Definition good {A : Type} (hold : bool) (P : A -> Prop) (x : res A) : Prop := match x with Ok y => P y | Rej => hold = false | UB => False end.
Lemma good_bind : forall A B hold (P : A -> Prop) (Q : B -> Prop) x (k : A -> res B), good hold P x -> (forall y, P y -> good hold Q (k y)) -> good hold Q (rbind x k).
Proof. intros A B hold P Q [y| |] k H Hk; cbn in *; auto. Qed.

(** ** Inserting *)
Definition LIVE (a : alist) : Prop := forall n g, In (n, g) a -> In (g_start g) (map fst a) /\ In (g_end g) (map fst a).

Lemma LIVE_put : forall a a' n g, LIVE a -> map fst a' = map fst a -> (forall m k, In (m, k) a' -> (m = n /\ k = g) \/ In (m, k) a) ->
  In (g_start g) (map fst a) -> In (g_end g) (map fst a) -> LIVE a'.
Proof.
  intros a a' n g HL Hn Hin H1 H2 m k Hmk. rewrite Hn. destruct (Hin m k Hmk) as [(-> & ->)|H]; [auto|]. eapply HL; eauto.
Qed.
Lemma LIVE_upd : forall a n g, LIVE a -> In (g_start g) (map fst a) -> In (g_end g) (map fst a) -> LIVE (upd a n g).
Proof.
  intros a n g HL H1 H2. apply (LIVE_put a _ n g HL (upd_names _ _ _ _)); auto. intros m k Hin. apply upd_in in Hin.
  destruct Hin as [(-> & -> & _)|(_ & Hin)]; auto.
Qed.

Lemma insert_any : forall b a n flags data, SLf b a -> ~ In n (seqs a) -> StronglySorted Z.lt (seqs a) ->
  match insert_fragment b n flags data with
  | UB => False
  | Rej => ~ LIVE a
  | Ok (b', h) => exists a1 a2 m a', a = a1 ++ a2 /\ SLf b' a' /\ keys a' = keys (a1 ++ (m, mkFrag n m m (Z.land flags FRA_MASK) data) :: a2)
                  /\ StronglySorted Z.lt (seqs a') /\ (LIVE a -> LIVE a')
  end.
Proof.
  intros b a n flags data HS Hni Hso.
  destruct (insert_detail b a n flags data HS) as (a1 & a2 & m & -> & Hm & Hmi & Hlt & Hge & Hwhole & Hpart).
  set (fra := Z.land flags FRA_MASK) in *.
  set (G := fun s e => mkFrag n s e fra data).
  assert (Hso' : forall s e, StronglySorted Z.lt (seqs (a1 ++ (m, G s e) :: a2))).
  { intros s e. rewrite seqs_app in *. destruct (sorted_app_inv _ _ Hso) as (S1 & S2 & S3).
    assert (H1 : forall x, In x (seqs a1) -> x < n).
    { destruct a1 as [|(k, g) a1' _] using rev_ind; [intros ? []|]. pose proof (Hlt a1' k g eq_refl) as Hg. rewrite seqs_app in *.
      destruct (sorted_app_inv _ _ S1) as (_ & _ & S1'). intros x Hx. apply in_app_or in Hx. destruct Hx as [Hx|[<-|[]]]; [|exact Hg].
      specialize (S1' x (g_seq g) Hx (or_introl eq_refl)). lia. }
    assert (H2 : forall y, In y (seqs a2) -> n < y).
    { intros y Hy. assert (n <> y) by (intros ->; apply Hni; apply in_or_app; auto). apply in_seqs in Hy. destruct Hy as (k & g & Hin & Eg). specialize (Hge k g Hin). lia. }
    apply strongly_sorted_app; [exact S1| |].
    - cbn [seqs map snd G g_seq]. constructor; [exact S2|]. apply Forall_forall. exact H2.
    - intros x y Hx [<-|Hy]; [apply H1, Hx|]. specialize (H1 x Hx). specialize (H2 y Hy). lia. }
  assert (Hkey : forall s e s' e', keys (a1 ++ (m, G s e) :: a2) = keys (a1 ++ (m, G s' e') :: a2)) by (intros; unfold keys; rewrite !map_app; reflexivity).
  assert (HL0 : forall s e, LIVE (a1 ++ a2) -> (s = m \/ In s (map fst (a1 ++ a2))) -> (e = m \/ In e (map fst (a1 ++ a2))) -> LIVE (a1 ++ (m, G s e) :: a2)).
  { assert (Hsub : forall x g, x = m \/ In x (map fst (a1 ++ a2)) -> In x (map fst (a1 ++ (m, g) :: a2))).
    { intros x g Hx. rewrite map_app in *. cbn [map fst]. rewrite in_app_iff in *. cbn [In]. intuition congruence. }
    intros s e HL Hs He k g Hin. apply in_app_or in Hin. destruct Hin as [Hin|[Eq|Hin]].
    - destruct (HL k g) as (H1 & H2); [apply in_or_app; auto|]. split; apply Hsub; auto.
    - injection Eq as <- <-. cbn [G g_start g_end]. split; apply Hsub; auto.
    - destruct (HL k g) as (H1 & H2); [apply in_or_app; auto|]. split; apply Hsub; auto. }
  destruct (Z.eq_dec fra FRA_WHOLE) as [Hw|Hw].
  { destruct (Hwhole Hw) as (b' & E & HS'). rewrite E. exists a1, a2, m, (a1 ++ (m, G m m) :: a2). split; [reflexivity|]. split; [exact HS'|].
    split; [apply Hkey|]. split; [apply Hso'|]. intros HL. apply HL0; auto. }
  specialize (Hpart Hw). cbv zeta in Hpart.
  set (st := match prev_joins fra n a1 with Some g => g_start g | None => m end) in *.
  set (en := match next_joins fra n a2 with Some g => g_end g | None => m end) in *.
  set (a3 := a1 ++ (m, G st en) :: a2) in *. destruct Hpart as (Hdead & Hpart).
  assert (Hstl : LIVE (a1 ++ a2) -> st = m \/ In st (map fst (a1 ++ a2))).
  { intros HL. unfold st, prev_joins. destruct (fra =? FRA_BEGIN); [auto|]. destruct (rev a1) as [|(k, g) r] eqn:Er; [auto|].
    destruct (g_seq g =? wrap64 (n - 1)); [|auto]. right. apply (HL k g). apply in_or_app. left. apply in_rev. rewrite Er. left. reflexivity. }
  assert (Henl : LIVE (a1 ++ a2) -> en = m \/ In en (map fst (a1 ++ a2))).
  { intros HL. unfold en, next_joins. destruct (fra =? FRA_END); [auto|]. destruct a2 as [|(k, g) r]; [auto|].
    destruct (g_seq g =? wrap64 (n + 1)); [|auto]. right. apply (HL k g). apply in_or_app. right. left. reflexivity. }
  assert (Hnd3 : forall s e, NoDup (map fst (a1 ++ (m, G s e) :: a2))).
  { intros s e. rewrite map_app. cbn [map fst]. apply NoDup_Add with (a := m) (l := map fst a1 ++ map fst a2); [apply Add_app|].
    rewrite <- map_app. split; [apply (SL_nodup _ _ _ _ HS)|exact Hmi]. }
  assert (Hn3 : forall s e x, In x (map fst (a1 ++ (m, G s e) :: a2)) <-> x = m \/ In x (map fst (a1 ++ a2))).
  { intros s e x. rewrite !map_app. cbn [map fst]. rewrite !in_app_iff. cbn [In]. intuition congruence. }
  assert (Hcase : forall x, (x = m \/ In x (map fst (a1 ++ a2))) \/ (x <> m /\ ~ In x (map fst (a1 ++ a2)))).
  { intros x. destruct (Z.eq_dec x m); [auto|]. destruct (in_dec Z.eq_dec x (map fst (a1 ++ a2))); auto. }
  destruct (Hcase st) as [Hst|(Hst & Hst')].
  2:{ rewrite (Hdead Hst Hst'). intros HL. destruct (Hstl HL); contradiction. }
  assert (E4 : exists a4 hb, ((st = m /\ a4 = a3 /\ hb = (fra =? FRA_BEGIN)) \/ (exists sg, st <> m /\ In (st, sg) a3 /\ a4 = upd a3 st (set_end sg en) /\ hb = (g_fra sg =? FRA_BEGIN)))
    /\ keys a4 = keys a3 /\ (LIVE (a1 ++ a2) -> LIVE a4)).
  { destruct (Z.eq_dec st m) as [E|E].
    - exists a3, (fra =? FRA_BEGIN). split; [left; auto|]. split; [reflexivity|]. intros HL. apply HL0; auto.
    - assert (Hin : In st (map fst a3)) by (apply Hn3; auto). apply in_map_iff in Hin. destruct Hin as ((k, sg) & Ek & Hin). cbn [fst] in Ek. subst k.
      exists (upd a3 st (set_end sg en)), (g_fra sg =? FRA_BEGIN). split; [right; eauto 10|]. split; [apply (keys_upd a3 st sg); auto; apply Hnd3|].
      intros HL. assert (HL3 : LIVE a3) by (apply HL0; auto). apply LIVE_upd; [exact HL3| |]; cbn [set_end g_start g_end].
      + apply (HL3 st sg Hin).
      + apply Hn3. auto. }
  destruct E4 as (a4 & hb & H4 & Hk4 & HL4). destruct (Hpart a4 hb H4) as (Hdead2 & Hok).
  destruct (Hcase en) as [Hen|(Hen & Hen')].
  2:{ rewrite (Hdead2 Hen Hen'). intros HL. destruct (Henl HL); contradiction. }
  assert (E5 : exists a5 he, ((en = m /\ a5 = a4 /\ he = (fra =? FRA_END)) \/ (exists eg, en <> m /\ In (en, eg) a4 /\ a5 = upd a4 en (set_start eg st) /\ he = (g_fra eg =? FRA_END)))
    /\ keys a5 = keys a4 /\ (LIVE (a1 ++ a2) -> LIVE a5)).
  { destruct (Z.eq_dec en m) as [E|E].
    - exists a4, (fra =? FRA_END). split; [left; auto|]. split; [reflexivity|]. exact HL4.
    - pose proof (keys_names _ _ Hk4) as Hnm.
      assert (Hin : In en (map fst a4)) by (rewrite Hnm; apply Hn3; auto). apply in_map_iff in Hin. destruct Hin as ((k, eg) & Ek & Hin). cbn [fst] in Ek. subst k.
      exists (upd a4 en (set_start eg st)), (g_fra eg =? FRA_END). split; [right; eauto 10|]. split; [apply (keys_upd a4 en eg); auto; rewrite Hnm; apply Hnd3|].
      intros HL. specialize (HL4 HL). apply LIVE_upd; [exact HL4| |]; cbn [set_start g_start g_end].
      + rewrite Hnm. apply Hn3. auto.
      + apply (HL4 en eg Hin). }
  destruct E5 as (a5 & he & H5 & Hk5 & HL5). destruct (Hok a5 he H5) as (b' & -> & HS').
  exists a1, a2, m, a5. split; [reflexivity|]. split; [exact HS'|]. rewrite Hk5, Hk4. split; [apply Hkey|]. split; [|exact HL5].
  rewrite (keys_seqs a5 a3) by congruence. apply Hso'.
Qed.

(** ** The invariant *)
Definition G0 (h : list revent) (s : list (Z * Z)) (a : alist) (pss : list (list (Z * list Z))) : Prop :=
  StronglySorted Z.lt (seqs a)
  /\ (forall n g, In (n, g) a -> exists flags fsn, In (EvData flags (g_seq g) fsn (g_data g)) h /\ Z.land flags 2 = 0)
  /\ (forall i, In i (seqs a ++ map fst (concat pss)) -> member s i)
  /\ NoDup (seqs a ++ map fst (concat pss)).
Definition pieces (r : alist) : list (Z * list Z) := map (fun p => (g_seq (snd p), g_data (snd p))) r.
Lemma pieces_fst : forall r, map fst (pieces r) = seqs r.
Proof. intros r. unfold pieces, seqs. rewrite map_map. reflexivity. Qed.
Lemma pieces_snd : forall r, concat (map snd (pieces r)) = payload r.
Proof. intros r. unfold pieces, payload. rewrite map_map. reflexivity. Qed.

Lemma G0_cut : forall h s a1 r a2 pss, G0 h s (a1 ++ r ++ a2) pss -> G0 h s (a1 ++ a2) pss.
Proof.
  intros h s a1 r a2 pss (H1 & H2 & H3 & H4). rewrite !seqs_app in *. split; [|split; [|split]].
  - rewrite seqs_app. destruct (sorted_app_inv _ _ H1) as (S1 & S2 & S3). destruct (sorted_app_inv _ _ S2) as (T1 & T2 & T3).
    apply strongly_sorted_app; auto. intros x y Hx Hy. apply S3; [exact Hx|apply in_or_app; auto].
  - intros n g Hin. apply (H2 n g). rewrite !in_app_iff in *. tauto.
  - intros i Hi. apply H3. rewrite seqs_app in Hi. rewrite !in_app_iff in *. tauto.
  - rewrite seqs_app. apply (Permutation_NoDup (l := (seqs a1 ++ seqs r ++ seqs a2) ++ map fst (concat pss))
      (l' := seqs r ++ ((seqs a1 ++ seqs a2) ++ map fst (concat pss)))) in H4.
    + apply NoDup_app_r in H4. exact H4.
    + rewrite !app_assoc. apply Permutation_app_tail. apply Permutation_app_tail. apply Permutation_app_comm.
Qed.
Lemma G0_use : forall h s a1 r a2 pss, G0 h s (a1 ++ r ++ a2) pss -> G0 h s (a1 ++ a2) (pss ++ [pieces r]).
Proof.
  intros h s a1 r a2 pss H. pose proof (G0_cut _ _ _ _ _ _ H) as (C1 & C2 & C3 & C4). destruct H as (H1 & H2 & H3 & H4). split; [exact C1|]. split; [exact C2|].
  rewrite concat_app, map_app. cbn [concat]. rewrite app_nil_r, pieces_fst. rewrite !seqs_app in *. split.
  - intros i Hi. apply H3. rewrite !in_app_iff in *. tauto.
  - eapply Permutation_NoDup; [|exact H4]. rewrite <- !app_assoc. apply Permutation_app_head. rewrite Permutation_app_comm.
    rewrite <- !app_assoc. reflexivity.
Qed.
Lemma G0_nil : forall h s a pss, G0 h s a pss -> G0 h s [] pss.
Proof. intros h s a pss H. apply (G0_cut h s [] a [] pss). cbn [app]. rewrite app_nil_r. exact H. Qed.
Lemma G0_made : forall h s a1 r a2 pss, G0 h s (a1 ++ r ++ a2) pss -> r <> [] -> forall n g r', r = (n, g) :: r' -> made_of h (payload r, g_seq g, zlen r) (pieces r).
Proof.
  intros h s a1 r a2 pss (H1 & H2 & _) Hr n g r' E. split; [destruct r; [congruence|discriminate]|]. split; [|split].
  - rewrite pieces_snd. rewrite E. cbn [pieces map hd fst snd]. unfold zlen. cbn [length]. rewrite map_length. reflexivity.
  - rewrite pieces_fst. rewrite !seqs_app in H1. destruct (sorted_app_inv _ _ H1) as (_ & S2 & _). apply (sorted_app_inv _ _ S2).
  - intros s' d Hin. unfold pieces in Hin. apply in_map_iff in Hin. destruct Hin as ((k, x) & Eq & Hin). cbn [snd] in Eq. injection Eq as <- <-.
    apply (H2 k x). apply in_or_app. right. apply in_or_app. auto.
Qed.

Definition HOLDS (hold : bool) (f : rf) (a : alist) : Prop := hold = true -> f_order f = RO_HOLD /\ LIVE a /\ Forall (Forall holds) (f_script f).
Definition OPENH (f : rf) : Prop := f_baseopen f = true -> f_hooks f = true.
Definition GI (hold : bool) (h : list revent) (f : rf) (a : alist) (pss : list (list (Z * list Z))) : Prop :=
  SLf (f_buf f) a /\ G0 h (f_set f) a pss /\ Forall2 (made_of h) (msgs_of (f_out f)) pss /\ HOLDS hold f a /\ OPENH f.

Lemma core_set : forall f f', core f' = core f -> f_set f' = f_set f.
Proof. intros f f' H. unfold core in H. congruence. Qed.
Lemma order_after_hold : forall l, Forall holds l -> order_after RO_HOLD l = RO_HOLD.
Proof.
  induction 1 as [|x l Hx Hl IH]; [reflexivity|]. unfold order_after in *. cbn [fold_left]. destruct x as [|o| |]; try exact IH.
  rewrite (Hx o eq_refl). exact IH.
Qed.
Lemma LIVE_nil : LIVE [].
Proof. intros n g []. Qed.

Lemma GI_acted : forall hold h f f' a a' pss, GI hold h f a pss -> SLf (f_buf f') a' -> acted f f' a a' -> core f' = core f ->
  msgs_of (f_out f') = msgs_of (f_out f) ->
  (hold = true -> f_order f = RO_HOLD -> Forall (Forall holds) (f_script f) -> f_order f' = RO_HOLD /\ Forall (Forall holds) (f_script f')) -> GI hold h f' a' pss.
Proof.
  intros hold h f f' a a' pss (HS & H0 & Hm & Hh & Hop) HS' Ha Hc Ho Hk. rewrite <- (core_set _ _ Hc) in H0.
  split; [exact HS'|]. split; [|split; [rewrite Ho; exact Hm|split]].
  - destruct Ha as [(-> & _)|(-> & _)]; [exact H0|eapply G0_nil; exact H0].
  - intros E. destruct (Hh E) as (K1 & K2 & K3). destruct (Hk E K1 K3) as (K4 & K5). split; [exact K4|]. split; [|exact K5].
    destruct Ha as [(-> & _)|(-> & _)]; [exact K2|apply LIVE_nil].
  - unfold OPENH in *. destruct Ha as [(_ & -> & -> & _)|(_ & -> & _)]; [exact Hop|discriminate].
Qed.
Lemma Forall_hd_tl : forall s, Forall (Forall holds) s -> Forall holds (hd [] s) /\ Forall (Forall holds) (tl s).
Proof. intros s H. destruct H; cbn; auto. Qed.

Lemma callback_any : forall hold h f a pss o, GI hold h f a pss -> (forall d s c, o <> OMsg d s c) ->
  good hold (fun f' => core f' = core f /\ exists a', GI hold h f' a' pss) (callback f o).
Proof.
  intros hold h f a pss o HG Ho. destruct (callback_ok f a o (proj1 HG)) as (f' & a' & -> & HS' & Ha & Hc & Hout & Hs & Hr). cbn [good]. split; [exact Hc|]. exists a'.
  eapply GI_acted; eauto.
  - rewrite Hout. unfold msgs_of. rewrite flat_map_app. destruct o as [d s c| |]; [exfalso; eapply Ho; reflexivity| |]; cbn [flat_map]; rewrite !app_nil_r; reflexivity.
  - intros _ Hor Hsc. destruct (Forall_hd_tl _ Hsc) as (K1 & K2). rewrite Hr, Hor, Hs. split; [apply order_after_hold, K1|exact K2].
Qed.
Lemma close_any : forall hold h f a pss, GI hold h f a pss -> good hold (fun f' => core f' = core f /\ exists a', GI hold h f' a' pss) (close f).
Proof.
  intros hold h f a pss (HS & H0 & Hm & Hh & Hop). destruct (close_ok f a HS) as (f' & -> & HS' & Hc & Hb & Hhk & Ho & Hs & Hr & Hst). cbn [good]. split; [exact Hc|].
  exists []. split; [exact HS'|]. rewrite (core_set _ _ Hc). split; [eapply G0_nil; exact H0|]. rewrite Ho. split; [exact Hm|]. split; [|intros E; congruence].
  intros E. destruct (Hh E) as (K1 & K2 & K3). rewrite Hr, Hs. split; [exact K1|]. split; [apply LIVE_nil|exact K3].
Qed.
Lemma close_and_notify_any : forall hold h f a pss e, GI hold h f a pss -> good hold (fun f' => core f' = core f /\ exists a', GI hold h f' a' pss) (close_and_notify f e).
Proof.
  intros hold h f a pss e HG. unfold close_and_notify. eapply good_bind; [apply (close_any hold h f a pss HG)|].
  intros f1 (Hc & a1 & HG1). destruct (is_open f && f_hooks f).
  - pose proof (callback_any hold h f1 a1 pss (OComplete e) HG1 ltac:(discriminate)) as H. destruct (callback f1 (OComplete e)); cbn in *; auto.
    destruct H as (Hc' & H). split; [congruence|exact H].
  - cbn. split; [exact Hc|eauto].
Qed.

Lemma deliver_any : forall h f a pss n, GI false h f a pss -> f_hooks f = true ->
  good false (fun f' => core f' = core f /\ exists a' pss', GI false h f' a' pss' /\ (length a' < length a)%nat) (deliver f n).
Proof.
  intros h f a pss n (HS & H0 & Hm & Hh & Hop) Hk. destruct (SL_at_cases _ _ _ _ n HS) as [(g & Hin & Eat)|(Hd & Eat)].
  2:{ unfold deliver. replace (f_buf (if f_prev_rwnd f <? 2 then with_ack f true else f)) with (f_buf f) by (destruct (f_prev_rwnd f <? 2); reflexivity).
      unfold b_at. rewrite Eat. reflexivity. }
  apply in_split in Hin. destruct Hin as (a1 & a2 & ->).
  assert (Hgen : forall r rest f' a', (n, g) :: a2 = r ++ rest -> (exists r', r = (n, g) :: r') -> SLf (f_buf f') a' -> acted f f' (a1 ++ rest) a' -> core f' = core f ->
    delivered f f' (payload r) (g_seq g) (zlen r) -> core f' = core f /\ exists a' pss', GI false h f' a' pss' /\ (length a' < length (a1 ++ (n, g) :: a2))%nat).
  { intros r rest f' a' Er (r' & Er') HS' Ha Hc Hd. split; [exact Hc|]. unfold delivered in Hd. rewrite Hk in Hd. destruct Hd as (Hout & _). rewrite Er in H0.
    exists a', (pss ++ [pieces r]). pose proof (G0_use _ _ _ _ _ _ H0) as HU.
    assert (HG : G0 h (f_set f') a' (pss ++ [pieces r])).
    { rewrite (core_set _ _ Hc). destruct Ha as [(-> & _)|(-> & _)]; [exact HU|eapply G0_nil; exact HU]. }
    split; [split; [exact HS'|split; [exact HG|split; [|split]]]|].
    - rewrite Hout. unfold msgs_of. rewrite flat_map_app. apply Forall2_app; [exact Hm|]. cbn [flat_map app]. constructor; [|constructor].
      eapply (G0_made h _ a1 r rest pss H0); [rewrite Er'; discriminate|exact Er'].
    - discriminate.
    - unfold OPENH in *. destruct Ha as [(_ & -> & -> & _)|(_ & -> & _)]; [exact Hop|discriminate].
    - rewrite Er, app_length, app_length. rewrite Er'. cbn [length]. destruct Ha as [(-> & _)|(-> & _)]; [rewrite app_length; lia|cbn [length]; lia]. }
  destruct (Z.eq_dec (g_fra g) FRA_WHOLE) as [Hw|Hw].
  - destruct (deliver_whole f a1 n g a2 HS Hw) as (f' & a' & -> & HS' & Ha & Hc & Hd). cbn [good].
    apply (Hgen [(n, g)] a2 f' a' eq_refl); eauto. rewrite payload_cons. change (payload []) with (@nil Z). rewrite app_nil_r. exact Hd.
  - pose proof (deliver_multi f a1 n g a2 HS Hw) as Hd. destruct (upto_end ((n, g) :: a2)) as [(r, rest)|] eqn:Hu; [|rewrite Hd; reflexivity].
    destruct Hd as (f' & a' & -> & HS' & Ha & Hc & Hd). cbn [good]. apply (Hgen r rest f' a'); auto.
    + apply upto_end_app, Hu.
    + cbn [upto_end] in Hu. destruct (g_fra g =? FRA_END); [injection Hu as <- <-; eauto|]. destruct (upto_end a2) as [(s, t)|]; [|discriminate].
      injection Hu as <- <-. eauto.
Qed.

Lemma good_imp : forall A hold (P Q : A -> Prop) x, good hold P x -> (forall y, P y -> Q y) -> good hold Q x.
Proof. intros A hold P Q [y| |]; cbn; auto. Qed.
Lemma GI_buf : forall h f a1 n g a2 b pss, GI false h f (a1 ++ (n, g) :: a2) pss -> SLf b (a1 ++ a2) -> GI false h (with_buf f b) (a1 ++ a2) pss.
Proof.
  intros h f a1 n g a2 b pss (HS & H0 & Hm & Hh & Hop) HS'. split; [exact HS'|]. split; [|split; [exact Hm|split; [discriminate|exact Hop]]].
  apply (G0_cut h _ a1 [(n, g)] a2 pss H0).
Qed.
Lemma loop_any : forall hold h c fuel f a pss, GI hold h f a pss -> (length a < fuel)%nat ->
  good hold (fun f' => core f' = core f /\ exists a' pss', GI hold h f' a' pss') (delivery_loop fuel f c).
Proof.
  intros hold h c. induction fuel as [|fuel IH]; intros f a pss HG Hf; [lia|]. cbn [delivery_loop].
  destruct (negb (order_eqb (f_order f) RO_HOLD) && is_open f && negb (size (s_list (f_buf f)) =? 0)) eqn:Ec; [|cbn; eauto].
  apply andb_prop in Ec. destruct Ec as (Ec & Esz). apply andb_prop in Ec. destruct Ec as (Eo & Eop).
  assert (hold = false) as ->.
  { destruct hold; [|reflexivity]. destruct HG as (_ & _ & _ & Hh & _). destruct (Hh eq_refl) as (E & _). rewrite E in Eo. discriminate. }
  pose proof (proj1 HG) as HS. rewrite (SL_size _ _ _ _ HS) in Esz. rewrite (SL_first _ _ _ _ HS). cbn [rbind].
  destruct a as [|(n, g) a]; [discriminate|]. cbn [fname]. unfold b_at. rewrite (SL_at _ _ _ _ n g HS) by (left; reflexivity). cbn [rbind].
  assert (Hhk : f_hooks f = true). { apply HG. unfold is_open in Eop. apply andb_prop in Eop. apply Eop. }
  assert (Hdel : good false (fun f' => core f' = core f /\ exists a' pss', GI false h f' a' pss') (rbind (deliver f n) (fun f1 => delivery_loop fuel f1 c))).
  { eapply good_bind; [apply (deliver_any h f _ pss n HG Hhk)|]. intros f1 (Hc & a' & pss' & HG' & Hlen). cbn [length] in Hf, Hlen.
    eapply good_imp; [apply (IH f1 a' pss' HG'); lia|]. intros f2 (Hc2 & H2). split; [congruence|exact H2]. }
  assert (Hrem : good false (fun f' => core f' = core f /\ exists a' pss', GI false h f' a' pss') (rbind (sum_remove frag_size (f_buf f) n) (fun '(b, _) => delivery_loop fuel (with_buf f b) c))).
  { destruct (SL_remove_at _ _ _ [] n g a HS) as (b & -> & HS' & _). cbn [rbind]. cbn [length] in Hf.
    apply (IH (with_buf f b) a pss (GI_buf h f [] n g a b pss HG HS')). lia. }
  destruct (g_seq g >? c); [cbn; eauto|]. destruct (g_fra g =? FRA_WHOLE); [exact Hdel|]. destruct (negb (g_fra g =? FRA_BEGIN)); [exact Hrem|].
  destruct (SL_at_cases _ _ _ _ (g_end g) HS) as [(eg & _ & ->)|(_ & ->)]; cbn [rbind]; [|reflexivity].
  destruct (g_fra eg =? FRA_END); [exact Hdel|]. destruct (g_seq eg <? c); [exact Hrem|]. cbn. eauto.
Qed.

Lemma try_delivery_any : forall hold h f a pss n, GI hold h f a pss -> good hold (fun f' => core f' = core f /\ exists a' pss', GI hold h f' a' pss') (try_delivery f n).
Proof.
  intros hold h f a pss n HG. unfold try_delivery.
  apply good_bind with (P := fun f' => core f' = core f /\ exists a' pss', GI hold h f' a' pss').
  { destruct ((n >? 0) && order_eqb (f_order f) RO_NETWORK && is_open f) eqn:Ec; [|cbn; eauto].
    apply andb_prop in Ec. destruct Ec as (Ec & Eop). apply andb_prop in Ec. destruct Ec as (_ & Eo).
    assert (hold = false) as ->.
    { destruct hold; [|reflexivity]. destruct HG as (_ & _ & _ & Hh & _). destruct (Hh eq_refl) as (E & _). rewrite E in Eo. discriminate. }
    eapply good_imp; [apply (deliver_any h f a pss n HG)|].
    - apply HG. unfold is_open in Eop. apply andb_prop in Eop. apply Eop.
    - intros f' (Hc & a' & pss' & H & _). eauto. }
  intros f1 (Hc1 & a1 & pss1 & HG1). cbv zeta.
  apply good_bind with (P := fun f' => core f' = core f /\ exists a' pss', GI hold h f' a' pss').
  { eapply good_imp; [apply (loop_any hold h (csn f1) _ f1 a1 pss1 HG1)|].
    - pose proof (SL_fuel _ _ _ _ (proj1 HG1)). lia.
    - intros f' (Hc & H). split; [congruence|exact H]. }
  intros f2 (Hc2 & a2 & pss2 & HG2). rewrite (SL_empty _ _ _ _ (proj1 HG2)). cbn [rbind].
  destruct (f_finseen f2 && (f_fin f2 <=? csn f1) && match a2 with [] => true | _ :: _ => false end); [|cbn; eauto].
  eapply good_imp; [apply (close_and_notify_any hold h f2 a2 pss2 false HG2)|]. intros f3 (Hc3 & H). split; [congruence|].
  destruct H as (a' & H). eauto.
Qed.

(** ** What the set of received sequence numbers holds *)
Definition SI (h : list revent) (f : rf) : Prop :=
  canonical (f_set f) /\ (forall i, member (f_set f) i <-> covered h i) /\ f_fwd f = top_fsn h.

Lemma covered_snoc : forall h e i, covered (h ++ [e]) i <-> covered h i \/ covers e i.
Proof.
  intros h e i. unfold covered. split.
  - intros (x & Hin & Hc). apply in_app_or in Hin. destruct Hin as [Hin|[<-|[]]]; [left; eauto|auto].
  - intros [(x & Hin & Hc)|Hc]; [exists x|exists e]; split; auto; apply in_or_app; cbn; auto.
Qed.
Lemma top_fsn_snoc : forall h e, top_fsn (h ++ [e]) = match e with EvData _ _ fsn _ => Z.max (top_fsn h) (Z.max fsn 0) | _ => Z.max (top_fsn h) 0 end.
Proof.
  intros h e. induction h as [|x h IH]; cbn [app top_fsn fold_right].
  - destruct e; lia.
  - fold (top_fsn (h ++ [e])). fold (top_fsn h). rewrite IH. destruct x, e; lia.
Qed.
Lemma top_fsn_nonneg : forall h, 0 <= top_fsn h.
Proof. induction h as [|x h IH]; cbn [top_fsn fold_right]; [lia|]. fold (top_fsn h). destruct x; lia. Qed.
Lemma covered_nonneg : forall h i, Forall sane h -> covered h i -> 0 <= i <= U64MAX.
Proof.
  intros h i Hs (e & Hin & Hc). rewrite Forall_forall in Hs. specialize (Hs e Hin). destruct e; try contradiction. cbn [sane covers] in *. unfold is_u64 in *. lia.
Qed.
Lemma SI_other : forall h f f' e, SI h f -> core f' = core f -> (forall i, ~ covers e i) -> SI (h ++ [e]) f'.
Proof.
  intros h f f' e (H1 & H2 & H3) Hc He. unfold core in Hc. injection Hc as E1 E2 _ _ _. unfold SI. rewrite E1, E2. split; [exact H1|]. split.
  - intros i. rewrite H2, covered_snoc. specialize (He i). tauto.
  - rewrite H3, top_fsn_snoc. pose proof (top_fsn_nonneg h). destruct e as [|fl sq fs d| | | | |]; try lia. exfalso. apply (He sq). cbn. auto.
Qed.
Lemma SI_same : forall h f f', SI h f -> core f' = core f -> SI h f'.
Proof. intros h f f' (H1 & H2 & H3) Hc. unfold core in Hc. injection Hc as E1 E2 _ _ _. unfold SI. rewrite E1, E2. auto. Qed.

(** The part of on_data before anything is delivered. *)
Definition noted (f : rf) (flags seq fsn : Z) : rf :=
  let newfin := negb (is_contains (f_set f) seq) && negb (Z.land flags FLAG_FIN =? 0) && negb (f_finseen f) in
  let f1 := if newfin then with_final f seq else f in
  let f2 := if fsn >? f_fwd f1 then with_fwd f1 fsn else f1 in
  with_set f2 (is_add (is_add (f_set f2) 0 fsn) seq seq).
Lemma noted_fields : forall f flags seq fsn, let f' := noted f flags seq fsn in
  f_set f' = is_add (is_add (f_set f) 0 fsn) seq seq /\ f_fwd f' = Z.max fsn (f_fwd f) /\ f_buf f' = f_buf f /\ f_state f' = f_state f
  /\ f_accepted f' = f_accepted f /\ f_baseopen f' = f_baseopen f /\ f_order f' = f_order f /\ f_hooks f' = f_hooks f /\ f_script f' = f_script f /\ f_out f' = f_out f
  /\ f_finseen f' = (f_finseen f || (negb (is_contains (f_set f) seq) && negb (Z.land flags FLAG_FIN =? 0)))
  /\ f_fin f' = (if negb (is_contains (f_set f) seq) && negb (Z.land flags FLAG_FIN =? 0) && negb (f_finseen f) then seq else f_fin f).
Proof.
  intros f flags seq fsn f'. unfold f', noted. set (nf := negb (is_contains (f_set f) seq) && negb (Z.land flags FLAG_FIN =? 0)).
  destruct (f_finseen f) eqn:Efs, nf; cbn [negb andb orb]; cbv zeta; cbn [f_fwd with_final];
    (destruct (Z.gtb_spec fsn (f_fwd f)); cbn; rewrite ?Efs; repeat (split; [first [reflexivity | lia]|]); reflexivity).
Qed.
Lemma SI_data : forall h f flags seq fsn data, SI h f -> is_u64 seq -> is_u64 fsn ->
  SI (h ++ [EvData flags seq fsn data]) (noted f flags seq fsn).
Proof.
  intros h f flags seq fsn data (H1 & H2 & H3) Hseq Hfsn. destruct (noted_fields f flags seq fsn) as (E1 & E2 & _). cbv zeta in *. unfold SI. rewrite E1, E2.
  destruct (is_add_ok (f_set f) 0 fsn H1) as (C1 & M1); [unfold is_u64, U64MAX; lia|exact Hfsn|]. destruct (is_add_ok _ seq seq C1 Hseq Hseq) as (C2 & M2).
  split; [exact C2|]. split.
  - intros i. rewrite M2, M1, H2, covered_snoc. cbn [covers]. split; intros; intuition lia.
  - rewrite H3, top_fsn_snoc. unfold is_u64 in Hfsn. pose proof (top_fsn_nonneg h). lia.
Qed.
Lemma G0_mono : forall h h' s s' a pss, G0 h s a pss -> incl h h' -> (forall i, member s i -> member s' i) -> G0 h' s' a pss.
Proof.
  intros h h' s s' a pss (H1 & H2 & H3 & H4) Hi Hm. split; [exact H1|]. split; [|split; [auto|exact H4]].
  intros n g Hin. destruct (H2 n g Hin) as (fl & fs & H & Hf). exists fl, fs. split; [apply Hi, H|exact Hf].
Qed.
Lemma made_mono : forall h h' ms pss, Forall2 (made_of h) ms pss -> incl h h' -> Forall2 (made_of h') ms pss.
Proof.
  intros h h' ms pss H Hi. induction H as [|m ps ms pss (H1 & H2 & H3 & H4) _ IH]; constructor; [|exact IH]. split; [exact H1|]. split; [exact H2|]. split; [exact H3|].
  intros s d Hin. destruct (H4 s d Hin) as (fl & fs & H & Hf). exists fl, fs. split; [apply Hi, H|exact Hf].
Qed.
Lemma GI_mono : forall hold h h' f a pss, GI hold h f a pss -> incl h h' -> GI hold h' f a pss.
Proof.
  intros hold h h' f a pss (HS & H0 & Hm & Hh & Hop) Hi. split; [exact HS|]. split; [eapply G0_mono; eauto|]. split; [eapply made_mono; eauto|auto].
Qed.

(** on_data cut in two. *)
Lemma on_data_eq : forall f flags seq fsn data, on_data f flags seq fsn data =
  let fresh := negb (is_contains (f_set f) seq) in
  let abandoned := negb (Z.land flags FLAG_ABN =? 0) in
  let f3 := noted f flags seq fsn in
  rbind (if fresh && negb abandoned && (f_state f3 =? RF_OPEN) then rbind (insert_fragment (f_buf f3) seq flags data) (fun '(b, h) => Ok (with_buf f3 b, h)) else Ok (f3, -1))
   (fun '(f4, hint) =>
    let lingers := f_finseen f4 && (f_state f4 <? RF_COMPLETE_LINGER) && Nat.eqb (is_count_ranges (f_set f4)) 1 in
    rbind (try_delivery (if lingers then with_state f4 RF_COMPLETE_LINGER else f4) hint) (fun f6 =>
    let pre := is_count_ranges (f_set f) in let post := is_count_ranges (f_set f3) in
    rbind (if negb (Nat.eqb pre post) && Nat.ltb post pre && order_eqb (f_order f6) RO_NETWORK && (f_state f6 =? RF_OPEN)
            && (csn f <? csn f6) && f_hooks f6 then callback f6 OMerge else Ok f6) (fun f7 =>
    Ok (with_ack f7 ((f_prev_rwnd f <? 2) || abandoned || negb (Nat.eqb pre 1) || negb fresh || (fresh && negb (Z.land flags FLAG_FIN =? 0) && negb (f_finseen f)) || lingers || negb (Nat.eqb pre post) || negb (f_state f7 =? RF_OPEN)))))).
Proof.
  intros f flags seq fsn data. unfold on_data. cbv zeta. unfold noted. cbv zeta.
  assert (E : forall (c : bool) (d : bool), csn (if d then with_fwd (if c then with_final f seq else f) fsn else (if c then with_final f seq else f)) = csn f) by (intros [] []; reflexivity).
  rewrite E. reflexivity.
Qed.

Lemma GI_state : forall hold h f a pss s, GI hold h f a pss -> GI hold h (with_state f s) a pss.
Proof. intros. exact H. Qed.
Lemma on_data_any : forall hold h f a pss flags seq fsn data, GI hold h f a pss -> SI h f -> is_u64 seq -> is_u64 fsn ->
  good hold (fun f' => SI (h ++ [EvData flags seq fsn data]) f' /\ exists a' pss', GI hold (h ++ [EvData flags seq fsn data]) f' a' pss')
    (on_data f flags seq fsn data).
Proof.
  intros hold h f a pss flags seq fsn data HG HSI Hseq Hfsn. rewrite on_data_eq. cbv zeta. set (h' := h ++ [EvData flags seq fsn data]).
  pose proof (SI_data h f flags seq fsn data HSI Hseq Hfsn) as HSI3. fold h' in HSI3.
  destruct (noted_fields f flags seq fsn) as (E1 & E2 & E3 & E4 & E5 & E6 & E7 & E8 & E9 & E10 & _). cbv zeta in *. set (f3 := noted f flags seq fsn) in *.
  assert (HG3 : GI hold h' f3 a pss).
  { destruct HG as (HS & H0 & Hm & Hh & Hop). split; [rewrite E3; exact HS|]. split.
    - eapply G0_mono; [exact H0|apply incl_appl, incl_refl|]. intros i Hi. apply HSI3. unfold h'. rewrite covered_snoc. left. apply HSI, Hi.
    - rewrite E10. split; [eapply made_mono; [exact Hm|apply incl_appl, incl_refl]|]. split; [intros E; rewrite E7, E9; apply Hh, E|]. unfold OPENH. rewrite E6, E8. exact Hop. }
  apply good_bind with (P := fun p => core (fst p) = core f3 /\ exists a' pss', GI hold h' (fst p) a' pss').
  { destruct (negb (is_contains (f_set f) seq) && negb (negb (Z.land flags FLAG_ABN =? 0)) && (f_state f3 =? RF_OPEN)) eqn:Ec; [|cbn; eauto].
    apply andb_prop in Ec. destruct Ec as (Ec & _). apply andb_prop in Ec. destruct Ec as (Ef & Ea).
    assert (Hni : ~ member (f_set f) seq). { intros Hin. apply is_contains_member in Hin. rewrite Hin in Ef. discriminate. }
    assert (Hns : forall i, In i (seqs a ++ map fst (concat pss)) -> i <> seq). { intros i Hi ->. apply Hni. apply (proj1 (proj2 HG)). exact Hi. }
    pose proof HG3 as (HS3 & H03 & Hm3 & Hh3 & Hop3).
    assert (Hnia : ~ In seq (seqs a)). { intros Hi. apply (Hns seq); [apply in_or_app; auto|reflexivity]. }
    pose proof (insert_any (f_buf f3) a seq flags data HS3 Hnia (proj1 H03)) as Hins.
    destruct (insert_fragment (f_buf f3) seq flags data) as [(b, hint)| |]; cbn [rbind good fst].
    - split; [reflexivity|]. destruct Hins as (a1 & a2 & m & a' & -> & HS' & Hk & Hso & HL). exists a', pss. split; [exact HS'|]. split; [|split; [exact Hm3|split; [|exact Hop3]]].
      + pose proof (keys_seqs _ _ Hk) as Hseqs. split; [exact Hso|]. split; [|split].
        * intros n g Hin. destruct (keys_in _ _ n g Hk Hin) as (g' & Hin' & K1 & _ & K3). rewrite <- K1, <- K3. apply in_app_or in Hin'. destruct Hin' as [Hin'|[Eq|Hin']].
          -- apply (proj1 (proj2 H03) n g'). apply in_or_app. auto.
          -- injection Eq as <- <-. cbn [g_seq g_data]. exists flags, fsn. split; [apply in_or_app; right; left; reflexivity|].
             unfold FLAG_ABN in Ea. destruct (Z.eqb_spec (Z.land flags 2) 0); [assumption|discriminate].
          -- apply (proj1 (proj2 H03) n g'). apply in_or_app. auto.
        * cbn [with_buf f_set]. intros i Hi. rewrite Hseqs in Hi. rewrite seqs_app in Hi. cbn [seqs map snd g_seq] in Hi.
          assert (Hi' : i = seq \/ In i (seqs (a1 ++ a2) ++ map fst (concat pss))). { rewrite seqs_app. rewrite !in_app_iff in *. cbn [In] in Hi. unfold seqs in *. intuition auto. }
          destruct Hi' as [->|Hi']; [|apply (proj1 (proj2 (proj2 H03))); exact Hi']. apply HSI3. unfold h'. apply covered_snoc. right. cbn. auto.
        * rewrite Hseqs, seqs_app. cbn [seqs map snd g_seq]. destruct H03 as (_ & _ & _ & Hnd). rewrite seqs_app in *.
          apply Permutation_NoDup with (l := seq :: (seqs a1 ++ seqs a2) ++ map fst (concat pss)).
          -- rewrite <- !app_assoc. cbn [app]. apply Permutation_middle.
          -- constructor; [|exact Hnd]. intros Hi. apply (Hns seq); [exact Hi|reflexivity].
      + intros E. destruct (Hh3 E) as (K1 & K2 & K3). split; [exact K1|]. split; [apply HL, K2|exact K3].
    - destruct hold; [|reflexivity]. exfalso. apply Hins. apply Hh3. reflexivity.
    - exact Hins. }
  intros (f4, hint) (Hc4 & a4 & pss4 & HG4). cbn [fst] in *.
  set (lingers := f_finseen f4 && (f_state f4 <? RF_COMPLETE_LINGER) && (is_count_ranges (f_set f4) =? 1)%nat).
  assert (HG5 : GI hold h' (if lingers then with_state f4 RF_COMPLETE_LINGER else f4) a4 pss4) by (destruct lingers; exact HG4).
  assert (Hc5 : core (if lingers then with_state f4 RF_COMPLETE_LINGER else f4) = core f4) by (destruct lingers; reflexivity).
  eapply good_bind; [apply (try_delivery_any hold h' _ a4 pss4 hint HG5)|]. intros f6 (Hc6 & a6 & pss6 & HG6). rewrite Hc5, Hc4 in Hc6.
  apply good_bind with (P := fun f' => core f' = core f3 /\ exists a' pss', GI hold h' f' a' pss').
  - destruct (_ && f_hooks f6); [|cbn; eauto]. eapply good_imp; [apply (callback_any hold h' f6 a6 pss6 OMerge HG6 ltac:(discriminate))|].
    intros f' (Hc & a' & H). split; [congruence|eauto].
  - intros f7 (Hc7 & a7 & pss7 & HG7). cbn [good]. split; [apply (SI_same h' f3); [exact HSI3|exact Hc7]|]. exists a7, pss7. exact HG7.
Qed.

Lemma rf_step_any : forall hold h f a pss e, GI hold h f a pss -> SI h f -> sane e -> (hold = true -> ev_holds e) ->
  good hold (fun f' => SI (h ++ [e]) f' /\ exists a' pss', GI hold (h ++ [e]) f' a' pss') (rf_step f e).
Proof.
  intros hold h f a pss e HG HSI He Hhe.
  assert (HG' : GI hold (h ++ [e]) f a pss) by (eapply GI_mono; [exact HG|apply incl_appl, incl_refl]).
  assert (Hsi : forall f', core f' = core f -> (forall i, ~ covers e i) -> SI (h ++ [e]) f') by (intros; eapply SI_other; eauto).
  destruct e as [|flags seq fsn data| |x| | |]; cbn [rf_step].
  - cbn [good]. split; [|exists a, pss; exact HG']. destruct HSI as (H1 & H2 & H3). split; [exact H1|]. split.
    + intros i. cbn. rewrite H2, covered_snoc. cbn. tauto.
    + rewrite top_fsn_snoc. cbn. pose proof (top_fsn_nonneg h). lia.
  - destruct He. apply on_data_any with (a := a) (pss := pss); auto.
  - eapply good_imp; [apply (try_delivery_any hold _ f a pss (-1) HG')|]. intros f' (Hc & H). split; [apply Hsi; auto|exact H].
  - destruct (do_act_ok f a x (proj1 HG)) as (f' & a' & -> & HS' & Ha & Hc & Ho & Hs & Hr & _). cbn [good]. split; [apply Hsi; auto|]. exists a', pss.
    eapply GI_acted; eauto; [congruence|]. intros E Hor Hsc. rewrite Hr, Hor, Hs. split; [apply order_after_hold; constructor; [apply Hhe, E|constructor]|exact Hsc].
  - cbn [good]. split; [apply Hsi; auto|]. exists a, pss. exact HG'.
  - cbn [good]. split; [apply Hsi; [destruct (f_state f <? RF_CLOSED); reflexivity|auto]|]. exists a, pss. destruct (f_state f <? RF_CLOSED); exact HG'.
  - unfold abort. eapply good_bind; [apply (close_and_notify_any hold _ f a pss true HG')|]. intros f' (Hc & a' & H). cbn [good]. split; [apply Hsi; auto|].
    exists a', pss. exact H.
Qed.

Lemma rf_run_any : forall hold es h f a pss, GI hold h f a pss -> SI h f -> Forall sane es -> (hold = true -> Forall ev_holds es) ->
  good hold (fun f' => SI (h ++ es) f' /\ exists a' pss', GI hold (h ++ es) f' a' pss') (rf_run f es).
Proof.
  intros hold. induction es as [|e es IH]; intros h f a pss HG HSI Hs Hh; cbn [rf_run].
  - cbn [good]. rewrite app_nil_r. eauto.
  - inversion Hs; subst. eapply good_bind.
    + apply (rf_step_any hold h f a pss e); auto. intros E. specialize (Hh E). inversion Hh; assumption.
    + intros f1 (HSI1 & a1 & pss1 & HG1). specialize (IH (h ++ [e]) f1 a1 pss1 HG1 HSI1). rewrite <- app_assoc in IH. apply IH; auto.
      intros E. specialize (Hh E). inversion Hh; assumption.
Qed.

Lemma rf_init_ok : forall script, exists f, rf_init script = Ok f /\ SLf (f_buf f) [] /\ f_set f = [] /\ f_fwd f = 0 /\ f_finseen f = false /\ f_state f = RF_OPEN
  /\ f_accepted f = false /\ f_baseopen f = true /\ f_order f = RO_SEQUENCE /\ f_hooks f = true /\ f_script f = script /\ f_out f = [].
Proof.
  intros script. unfold rf_init. destruct (SL_init frag frag_size frag_blank) as (b & Eb & HS). rewrite Eb. cbn [rbind]. eexists. split; [reflexivity|]. cbn.
  split; [exact HS|]. repeat (split; [reflexivity|]). reflexivity.
Qed.
Lemma rf_init_any : forall script, exists f, rf_init script = Ok f /\ GI false [] f [] [] /\ SI [] f
  /\ (Forall (Forall holds) script -> GI true [] (with_order f RO_HOLD) [] [] /\ SI [] (with_order f RO_HOLD)).
Proof.
  intros script. destruct (rf_init_ok script) as (f & E & HS & E1 & E2 & _ & _ & _ & E3 & E4 & E5 & E6 & E7). exists f. split; [exact E|].
  assert (H0 : G0 [] (f_set f) [] []). { split; [constructor|]. split; [intros ? ? []|]. split; [intros ? []|constructor]. }
  assert (HSI : SI [] f).
  { unfold SI. rewrite E1, E2. split; [exact I|]. split; [|reflexivity]. intros i. rewrite member_nil. split; [tauto|]. intros (x & [] & _). }
  split; [|split; [exact HSI|]].
  - split; [exact HS|]. split; [exact H0|]. rewrite E7. split; [constructor|]. split; [discriminate|]. intros _. exact E5.
  - intros Hs. split; [|exact HSI]. split; [exact HS|]. split; [exact H0|]. cbn. rewrite E7. split; [constructor|]. split; [|intros _; exact E5].
    intros _. cbn. rewrite E6. split; [reflexivity|]. split; [apply LIVE_nil|exact Hs].
Qed.
