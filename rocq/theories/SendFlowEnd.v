(** Sending flow: the fragment that ends the flow. *)
From Coq Require Import Sorted.
From Verif Require Import Base BaseFacts VLU VLUSpec VLUProofs Packet PacketSpec PacketProofs UserData UserDataSpec UserDataProofs Ack AckSpec AckProofs RecvFlowSpec WriteReceipt WriteReceiptSpec WriteReceiptProofs SendFlow SendFlowSpec SendFlowProofs SendFlowInv SendFlowSteps SendFlowRun SendFlowTrack.
Ltac Zify.zify_post_hook ::= Z.div_mod_to_equations.

(** Everything sent was marked as sent, and what is sent with the final number says so. *)
Definition FW (s : sess) : Prop := forall x, In x (s_wire s) ->
  g_ever (gget s (x_frag x)) = true /\ (g_seq (gget s (x_frag x)) = w_final (wget s (x_flow x)) -> Z.land (fr_flags (x_frame x)) 1 <> 0).

Lemma prim_ever : forall A B s s' id, prim A B s s' -> Full s -> (id < length (s_heap s))%nat -> g_ever (gget s id) = true -> g_ever (gget s' id) = true.
Proof.
  intros A B s s' i P HF Hi He. destruct P; try exact He.
  - pose proof (fi_next _ _ (fu_fi _ HF fi)) as (Hn & _). destruct (add_one s fi rc nm fr s' H ltac:(lia) H5) as (M & _). rewrite (mo_old _ _ _ _ _ _ M i Hi). exact He.
  - rewrite mark_sent_gget, gget_gset. destruct (Nat.eqb_spec id i) as [->|]; [|exact He]. destruct (Nat.ltb _ _); [reflexivity|exact He].
  - change (gget (lose_one s nm id nak) i) with (gget (gset s id (mkFrag (g_owner (gget s id)) (g_seq (gget s id)) (g_fra (gget s id)) (g_sentab (gget s id)) nak false (g_ever (gget s id)) (g_size (gget s id)) (g_tsn (gget s id)) (-1) (g_data (gget s id)) (g_rcpt (gget s id)))) i).
    rewrite gget_gset. destruct (Nat.eqb_spec id i) as [->|]; [|exact He]. destruct (Nat.ltb _ _); exact He.
  - unfold set_nak. cbv zeta. rewrite gget_gset. destruct (Nat.eqb_spec id i) as [->|]; [|exact He]. destruct (Nat.ltb _ _); exact He.
Qed.
(** The final number is set once, to that of a fragment never sent. *)
Lemma prim_final : forall A B s s' fj, prim A B s s' -> Full s -> (fj < length (s_flows s))%nat -> w_final (wget s' fj) = w_final (wget s fj)
  \/ (s_wire s' = s_wire s /\ exists nm id, In (nm, id) (w_queue (wget s fj)) /\ g_ever (gget s id) = false /\ g_seq (gget s id) = w_final (wget s' fj)).
Proof.
  intros A B s s' fj P HF Hl.
  assert (U : forall s0 fi nm id, w_final (wget (unqueue s0 fi nm id) fj) = w_final (wget s0 fj)).
  { intros. unfold unqueue. cbn zeta. change (wget (set_rcpts ?x ?y) fj) with (wget x fj). rewrite wget_wset. destruct (Nat.eqb_spec fi fj) as [->|]; [|reflexivity]. destruct (Nat.ltb _ _); reflexivity. }
  destruct P; try (left; reflexivity).
  - left. destruct (add_frag_flow _ _ _ _ _ _ fj H5) as (q & n & x & t & ->). reflexivity.
  - left. rewrite wget_wset. destruct (Nat.eqb_spec fi fj) as [->|]; [|reflexivity]. destruct (Nat.ltb _ _); reflexivity.
  - left. destruct (mark_sent_flow s fi nm id o fsn fr abn size fj) as (n & l & ->). reflexivity.
  - left. apply U.
  - left. apply U.
  - left. rewrite U. unfold forget. cbn zeta. rewrite wget_wset. destruct (Nat.eqb_spec fi fj) as [->|]; [|reflexivity]. destruct (Nat.ltb _ _); reflexivity.
  - left. unfold lose_one. cbn zeta. change (wget (set_out ?x ?y ?z) fj) with (wget x fj). destruct (lose_flow s id nak fj) as (n & l & ->). reflexivity.
  - rewrite wget_wset. destruct (Nat.eqb_spec fi fj) as [->|]; [|auto]. destruct (Nat.ltb _ _); [|auto]. cbn [andb]. destruct (fu_final _ _ _ H) as [e|(_ & _ & _ & e & nm & id & h1 & h2 & h3)]; [auto|].
    right. split; [reflexivity|]. exists nm, id. split; [exact h1|]. split; [exact h2|congruence].
  - left. rewrite wget_wset. destruct (Nat.eqb_spec fi fj) as [->|]; [|reflexivity]. destruct (Nat.ltb _ _); reflexivity.
  - left. rewrite wget_open. destruct (Nat.eqb_spec fj (length (s_flows s))); [lia|reflexivity].
Qed.
Lemma prim_fw : forall A B s s', prim A B s s' -> Full s -> TI s -> FW s -> FW s'.
Proof.
  intros A B s s' P HF T H x Hx.
  assert (Old : In x (s_wire s) -> g_ever (gget s' (x_frag x)) = true /\ (g_seq (gget s' (x_frag x)) = w_final (wget s' (x_flow x)) -> Z.land (fr_flags (x_frame x)) 1 <> 0)).
  { intros Hin. destruct (H x Hin) as (h1 & h2). pose proof (ti_wire _ T x Hin) as W. pose proof (wo_frag _ _ W) as Hf. split; [eapply prim_ever; eauto|].
    destruct (prim_core _ _ _ _ (x_frag x) P HF Hf) as (_ & Hc). apply core_eq in Hc. destruct Hc as (_ & -> & _).
    destruct (ti_frag _ T _ Hf) as (Ho & _). rewrite (wo_owner _ _ W) in Ho.
    destruct (prim_final _ _ _ _ (x_flow x) P HF Ho) as [-> | (_ & nm & id & f1 & f2 & f3)]; [exact h2|].
    intros E. exfalso. destruct (queue_frag _ _ _ _ HF f1) as (i1 & i2). assert (x_frag x = id) by (apply (ti_uniq _ T); auto; [rewrite (wo_owner _ _ W); auto|congruence]). subst id. congruence. }
  destruct (prim_wire _ _ _ _ P) as [E|(fi & pre & nm & id & suf & o & fsn & fr & abn & size & h1 & h2 & h3 & h4 & h5 & h6 & h7 & E)]; [rewrite E in Hx; auto|].
  assert (Hx' := Hx). rewrite E, mark_wire in Hx'. apply in_app_iff in Hx'. destruct Hx' as [Hin|[<-|[]]]; [auto|]. cbn [x_frag x_flow x_frame].
  assert (Hq : In (nm, id) (w_queue (wget s fi))) by (rewrite h3; apply in_or_app; right; left; reflexivity). destruct (queue_frag _ _ _ _ HF Hq) as (i1 & i2).
  rewrite E. split; [rewrite mark_sent_gget, gget_gset_same by exact i1; reflexivity|].
  destruct (mark_sent_same s fi nm id o fsn fr abn size id) as (-> & _). destruct (mark_sent_flow s fi nm id o fsn fr abn size fi) as (n & l & ->). cbn [w_final with_last with_outb]. intros Es. rewrite h7. cbn [fr_flags]. rewrite Es, Z.eqb_refl.
  destruct (fu_frag _ HF id i1) as (_ & Hfra & _). cbn [In] in Hfra. destruct Hfra as [<-|[<-|[<-|[<-|[]]]]], abn; discriminate.
Qed.
Lemma prims_fw : forall A B s s', prims A B s s' -> Full s -> TI s -> FW s -> FW s'.
Proof. induction 1; intros; auto. apply IHprims; [eapply prim_full; eauto|eapply prim_ti; eauto|eapply prim_fw; eauto]. Qed.

(** The newest fragment waits until it is accounted for. *)
Definition QL (s : sess) (fi : nat) (R : Z -> Prop) : Prop :=
  w_bound (wget s fi) = true \/ w_state (wget s fi) = FS_OPEN -> 1 < w_next (wget s fi) -> queued s fi (w_next (wget s fi) - 1) \/ R (w_next (wget s fi) - 1).
Lemma sorted_not_last : forall (a : Z) l z, StronglySorted Z.lt (a :: l) -> l <> [] -> (forall y, In y (a :: l) -> y <= z) -> a < z.
Proof. intros a [|b l] z H Hn Hz; [congruence|]. inversion H as [|? ? _ h]; subst. inversion h; subst. specialize (Hz b (or_intror (or_introl eq_refl))). lia. Qed.
Lemma prim_left_last : forall A B s s' fj e, prim A B s s' -> Full s -> TI s -> In e (w_queue (wget s fj)) -> g_seq (gget s (snd e)) = w_next (wget s fj) - 1 ->
  In e (w_queue (wget s' fj)) \/ A fj (g_seq (gget s (snd e))) \/ (w_bound (wget s' fj) = false /\ w_state (wget s' fj) <> FS_OPEN).
Proof.
  intros A B s s' fj e P HF T He Hs. destruct P.
  - left. exact He.
  - left. pose proof (fi_next _ _ (fu_fi _ HF fi)) as (Hn & _). destruct (add_one s fi rc nm fr s' H ltac:(lia) H5) as (M & _). destruct (Nat.eq_dec fj fi) as [->|N]; [rewrite (mo_queue _ _ _ _ _ _ M); apply in_or_app; auto|rewrite (mo_other _ _ _ _ _ _ M fj N); exact He].
  - left. rewrite wget_wset. destruct (Nat.eqb_spec fi fj) as [->|]; [|exact He]. destruct (Nat.ltb _ _); exact He.
  - left. destruct (mark_sent_flow s fi nm id o fsn fr abn size fj) as (n & l & ->). exact He.
  - rewrite unqueue_queue. destruct (Nat.eqb_spec fi fj) as [->|]; [|auto]. assert (Hin : In (nm, id) (w_queue (wget s fj))) by (rewrite H; left; reflexivity). destruct (drop_left s fj nm id e HF Hin He) as [h|h]; [auto|]. exfalso. subst e. cbn [snd] in Hs.
    pose proof (ti_sorted _ T fj) as Hd. unfold seqs in Hd. rewrite H in Hd. cbn [map snd] in Hd. apply sorted_not_last with (z := w_next (wget s fj) - 1) in Hd; [lia|destruct rest; [congruence|discriminate]|].
    intros y Hy. apply (in_map_iff (fun e => g_seq (gget s (snd e))) ((nm, id) :: rest)) in Hy. destruct Hy as ((n, i) & <- & Hy). rewrite <- H in Hy. destruct (queue_frag _ _ _ _ HF Hy) as (j1 & j2). destruct (ti_frag _ T i j1) as (_ & j3 & _). rewrite j2 in j3. rewrite (ti_next _ T). cbn [snd]. lia.
  - rewrite unqueue_queue. destruct (Nat.eqb_spec fi fj) as [->|]; [|auto]. destruct (drop_left s fj nm id e HF) as [h|h]; auto. subst e. auto.
  - rewrite unqueue_queue, forget_queue. destruct (Nat.eqb_spec fi fj) as [->|]; [|auto]. destruct (drop_left s fj nm id e HF) as [h|h]; auto. subst e. auto.
  - left. unfold lose_one. cbn zeta. change (wget (set_out ?x ?y ?z) fj) with (wget x fj). destruct (lose_flow s id nak fj) as (n & l & ->). exact He.
  - left. exact He.
  - left. rewrite wget_wset. destruct (Nat.eqb_spec fi fj) as [->|]; [|exact He]. destruct (Nat.ltb _ _); [|exact He]. cbn [andb]. rewrite (fu_queue _ _ _ H). exact He.
  - rewrite wget_wset. destruct (Nat.eqb_spec fi fj) as [->|]; [|auto]. destruct (Nat.ltb _ _); [|auto]. cbn. auto.
  - left. rewrite wget_open. pose proof (queue_len s fj (fst e) (snd e)) as Hq. rewrite <- surjective_pairing in Hq. specialize (Hq He). destruct (Nat.eqb_spec fj (length (s_flows s))); [lia|exact He].
  - left. exact He.
  - left. exact He.
Qed.
Lemma prim_ql : forall A B s s' fi (R : Z -> Prop), prim A B s s' -> Full s -> TI s -> (forall i, 1 <= i -> A fi i -> R i) -> QL s fi R -> QL s' fi R.
Proof.
  intros A B s s' fi R P HF T HA k1 Hb Hi.
  destruct (Nat.eq_dec fi (length (s_flows s))) as [E|Nfi].
  { destruct (prim_frame _ _ _ _ P) as [[(fj & rc & nm & fr & i1 & i2 & i3 & _ & i4)|(opts & Hu & ->)]|F].
    - pose proof (fi_next _ _ (fu_fi _ HF fj)) as (Hn & _). destruct (add_one s fj rc nm fr s' i1 ltac:(lia) i4) as (M & _). rewrite (mo_other _ _ _ _ _ _ M fi) in Hi by lia. rewrite (wget_out s fi) in Hi by lia. cbn in Hi. lia.
    - rewrite wget_open, E, Nat.eqb_refl in Hi. cbn in Hi. lia.
    - destruct (fm_flow _ _ F fi) as (e & _). rewrite e, wget_out in Hi by lia. cbn in Hi. lia. }
  assert (Hb' : w_bound (wget s fi) = true \/ w_state (wget s fi) = FS_OPEN).
  { destruct Hb as [Hb|Hb]; [eapply prim_bound; eauto|]. right. destruct (prim_frame _ _ _ _ P) as [[(fj & rc & nm & fr & i1 & i2 & i3 & _ & i4)|(opts & Hu & ->)]|F].
    - pose proof (fi_next _ _ (fu_fi _ HF fj)) as (Hn & _). destruct (add_one s fj rc nm fr s' i1 ltac:(lia) i4) as (M & _). destruct (Nat.eq_dec fi fj) as [->|N]; [exact i2|]. rewrite (mo_other _ _ _ _ _ _ M fi N) in Hb. exact Hb.
    - rewrite wget_open in Hb. destruct (Nat.eqb_spec fi (length (s_flows s))); [contradiction|exact Hb].
    - destruct (fm_flow _ _ F fi) as (_ & _ & _ & _ & e & _). auto. }
  assert (Keep : w_next (wget s' fi) = w_next (wget s fi) -> queued s' fi (w_next (wget s' fi) - 1) \/ R (w_next (wget s' fi) - 1)).
  { intros En. rewrite En in *. destruct (k1 Hb' Hi) as [(nm & id & h1 & h2)|h]; [|auto]. destruct (queue_frag _ _ _ _ HF h1) as (h3 & h4). destruct (prim_core _ _ _ _ id P HF h3) as (h5 & h6). apply core_eq in h6. destruct h6 as (c1 & c2 & _).
    destruct (prim_left_last A B s s' fi (nm, id) P HF T h1 h2) as [h|[h|(e1 & e2)]]; cbn [snd] in *.
    - left. exists nm, id. split; [exact h|congruence].
    - right. apply HA; [lia|congruence].
    - destruct Hb; congruence. }
  destruct (prim_frame _ _ _ _ P) as [[(fj & rc & nm & fr & i1 & i2 & i3 & _ & i4)|(opts & Hu & E)]|F].
  - pose proof (fi_next _ _ (fu_fi _ HF fj)) as (Hn & _). destruct (add_one s fj rc nm fr s' i1 ltac:(lia) i4) as (M & _). destruct (Nat.eq_dec fi fj) as [->|N]; [|apply Keep; rewrite (mo_other _ _ _ _ _ _ M fi N); reflexivity].
    left. exists nm, (length (s_heap s)). rewrite (mo_queue _ _ _ _ _ _ M), (mo_new _ _ _ _ _ _ M), (mo_next _ _ _ _ _ _ M). split; [apply in_or_app; right; left; reflexivity|cbn; lia].
  - apply Keep. rewrite E, wget_open. destruct (Nat.eqb_spec fi (length (s_flows s))); [contradiction|reflexivity].
  - apply Keep. apply (fm_flow _ _ F fi).
Qed.
Lemma prims_ql : forall A B s s' fi (R : Z -> Prop), prims A B s s' -> Full s -> TI s -> (forall i, 1 <= i -> A fi i -> R i) -> QL s fi R -> QL s' fi R.
Proof. induction 1; intros; auto. apply IHprims; auto; [eapply prim_full; eauto|eapply prim_ti; eauto|eapply prim_ql; eauto]. Qed.
