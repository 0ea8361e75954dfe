(** RecvFlow with a well-behaved sender: whole runs. *)
From Verif Require Import Base BaseFacts IndexSet IndexSetSpec IndexSetProofs LinkedList LinkedListSpec LinkedListProofs SumListFacts RecvFlow RecvFlowSpec RecvFlowProofs RecvFlowAny RecvFlowMsg.
From Coq Require Import Sorted Permutation.
Ltac Zify.zify_post_hook ::= Z.div_mod_to_equations.

Lemma covered_zero : forall h i, Forall sane h -> covered h i -> covered h 0.
Proof.
  intros h i Hs (e & Hin & Hc). exists e. split; [exact Hin|]. rewrite Forall_forall in Hs. specialize (Hs e Hin). destruct e; try contradiction. cbn in *. unfold is_u64 in Hs. lia.
Qed.

Lemma WI_init : forall E dat f, SLf (f_buf f) [] -> f_set f = [] -> f_fwd f = 0 -> f_hooks f = true -> f_out f = [] -> WI E dat [] f [] [].
Proof.
  intros E dat f HS E1 E2 E3 E4. split.
  - split; [exact HS|]. split; [constructor|]. split; [intros p q []|]. split; [intros i []|]. split; [intros p q p' q' []|]. split; [split; [intros x y []|constructor]|]. rewrite E4. split; [reflexivity|]. intros _. exact E3.
  - unfold SI. rewrite E1, E2. split; [exact I|]. split; [|reflexivity]. intros i. rewrite member_nil. split; [tauto|]. intros (x & [] & _).
Qed.
Lemma OI_init : forall c, OI c [] [].
Proof. intros c. split; [constructor|]. intros x y []. Qed.

Lemma NW_nil : forall E, NW E [].
Proof. intros E x y ((H & H') & _) Hall. apply (Hall x). lia. Qed.
Section Run.
Variable E : Z -> bool.
Variable dat : Z -> list Z.
Variable N : Z.
Hypothesis HN : N < U64MAX.
Hypothesis Htotal : forall i, 1 <= i <= N -> exists u v, ismsg E u v /\ u <= i <= v.

Notation WI := (WI E dat).
Notation BI := (BIt E dat 0).
Notation cev := (cev E dat N).

Lemma BI_cut : forall h f f' a D, BI h f a D -> SLf (f_buf f') [] -> msgs_of (f_out f') = msgs_of (f_out f) -> OPENH f' -> BI h f' [] D.
Proof.
  intros h f f' a D (H1 & H2 & H3 & H4 & H5 & (H6 & H6') & H7 & H8) HS Hm Hop. split; [exact HS|]. split; [constructor|]. split; [intros p q []|]. split; [intros i []|].
  split; [intros p q p' q' []|]. split; [|split; [congruence|exact Hop]]. split; [|exact H6']. intros x y Hxy. destruct (H6 x y Hxy) as (V1 & V2). split; [exact V1|].
  intros i Hi. split; [apply V2, Hi|intros []].
Qed.
Lemma BI_acted : forall h f f' a a' D, BI h f a D -> SLf (f_buf f') a' -> acted f f' a a' -> msgs_of (f_out f') = msgs_of (f_out f) -> BI h f' a' D.
Proof.
  intros h f f' a a' D HB HS [(-> & W1 & W2 & _)|(-> & W1 & W2 & _)] Hm.
  - destruct HB as (H1 & H2 & H3 & H4 & H5 & H6 & H7 & H8). unfold BIt, OPENH in *. rewrite W1, W2, Hm. auto 10.
  - eapply BI_cut; eauto. intros Hx. congruence.
Qed.
Lemma OI_nil : forall c a D, OI c a D -> OI c [] D.
Proof. intros c a D (H1 & H2). split; [exact H1|]. intros x y Hxy. split; [apply (H2 x y Hxy)|intros i []]. Qed.
Lemma core_csn : forall f f', core f' = core f -> csn f' = csn f.
Proof. intros f f' H. unfold csn. rewrite (core_set _ _ H). reflexivity. Qed.

Lemma close_and_notify_wf : forall h f a D e, BI h f a D -> exists f', close_and_notify f e = Ok f' /\ BI h f' [] D /\ core f' = core f /\ (NN f -> NN f').
Proof.
  intros h f a D e HB. unfold close_and_notify. destruct (close_ok f a (proj1 HB)) as (f3 & -> & HS3 & Hcr3 & Hb3 & Hh3 & Ho3 & Hs3 & Hor3 & _). cbn [rbind].
  assert (HB3 : BI h f3 [] D) by (eapply BI_cut; eauto; [congruence|intros Hx; congruence]).
  assert (Hn3 : NN f -> NN f3) by (unfold NN; rewrite Hor3, Hs3; auto).
  destruct (is_open f && f_hooks f); [|exists f3; auto].
  destruct (callback_ok f3 [] (OComplete e) HS3) as (f4 & a4 & E4 & HS4 & Ha & Hc4 & Ho4 & Hs4 & Hor4). exists f4. split; [exact E4|].
  assert (Hm4 : msgs_of (f_out f4) = msgs_of (f_out f3)) by (rewrite Ho4; unfold msgs_of; rewrite flat_map_app; cbn; apply app_nil_r).
  assert (a4 = []) by (destruct Ha as [(-> & _)|(-> & _)]; reflexivity). subst a4.
  split; [eapply BI_acted; eauto|]. split; [congruence|]. intros Hn. apply (NN_callback f3); auto.
Qed.

Lemma step_safe : forall h f a D e, WI h f a D -> Forall cev h -> cev e ->
  exists f' a' D', rf_step f e = Ok f' /\ WI (h ++ [e]) f' a' D' /\ (NN f -> ev_not_network e -> NN f' /\ (OI (csn f) a D -> OI (csn f') a' D')).
Proof.
  intros h f a D e (HB & HSI) Hh He.
  assert (HBm : BI (h ++ [e]) f a D) by (eapply BIt_mono; [exact HB|intros i Hi; apply got_snoc; auto]).
  assert (Hsi : forall f', core f' = core f -> (forall i, ~ covers e i) -> SI (h ++ [e]) f') by (intros; eapply SI_other; eauto).
  assert (Hs : Forall sane h) by (exact (Forall_impl _ (cev_sane E dat N HN) Hh)).
  destruct e as [|flags seq fsn data| |x| | |]; cbn [rf_step].
  - exists (with_accepted f), a, D. split; [reflexivity|]. split; [split; [exact HBm|]|].
    + destruct HSI as (H1 & H2 & H3). split; [exact H1|]. split; [intros i; cbn; rewrite H2, covered_snoc; cbn; tauto|]. rewrite top_fsn_snoc. cbn. pose proof (top_fsn_nonneg h). lia.
    + intros Hn _. split; [exact Hn|]. auto.
  - destruct (on_data_wf E dat N HN Htotal h f a D flags seq fsn data (conj HB HSI) Hh He) as (f' & a' & D' & Eq & HW & Hn & HO & _).
    exists f', a', D'. split; [exact Eq|]. split; [exact HW|]. intros Hnn _. auto.
  - assert (Hse : SI (h ++ [EvTry]) f) by (apply Hsi; [reflexivity|auto]).
    destruct (csn_facts _ f Hse) as (B1 & B2 & _ & _); [apply Forall_app; repeat constructor; exact Hs|].
    destruct (try_wf E dat _ f a D (-1) B1 B2) as (f' & a' & D' & Eq & HB' & C' & Hn & HO & _); [eapply got_total; [exact Htotal|]; apply Forall_app; split; [exact Hh|repeat constructor]|exact HBm|lia|].
    exists f', a', D'. split; [exact Eq|]. split; [split; [exact HB'|apply Hsi; auto]|]. intros Hnn _. rewrite (core_csn _ _ C'). auto.
  - destruct (do_act_ok f a x (proj1 HB)) as (f' & a' & -> & HS' & Ha & Hc & Ho & Hsc & Hr & _). exists f', a', D. split; [reflexivity|].
    split; [split; [eapply BI_acted; eauto; congruence|apply Hsi; auto]|]. intros (Hn1 & Hn2) Hx. split; [split; [rewrite Hr; apply order_after_nn; auto|rewrite Hsc; exact Hn2]|].
    rewrite (core_csn _ _ Hc). intros HO. destruct Ha as [(-> & _)|(-> & _)]; [exact HO|eapply OI_nil, HO].
  - exists (with_rwnd f (advertise_blocks f)), a, D. split; [reflexivity|]. split; [split; [exact HBm|apply Hsi; [reflexivity|auto]]|]. intros Hn _. auto.
  - exists (if f_state f <? RF_CLOSED then with_state f RF_CLOSED else f), a, D. split; [reflexivity|]. destruct (f_state f <? RF_CLOSED).
    + split; [split; [exact HBm|apply Hsi; [reflexivity|auto]]|]. intros Hn _. auto.
    + split; [split; [exact HBm|apply Hsi; [reflexivity|auto]]|]. intros Hn _. auto.
  - unfold abort. destruct (close_and_notify_wf _ f a D true HBm) as (f' & -> & HB' & Hc & Hn). cbn [rbind]. exists (with_state f' RF_CLOSED), [], D. split; [reflexivity|].
    split; [split; [exact HB'|apply Hsi; [exact Hc|auto]]|]. intros Hnn _. split; [apply Hn; exact Hnn|]. change (csn (with_state f' RF_CLOSED)) with (csn f'). rewrite (core_csn _ _ Hc). apply OI_nil.
Qed.

Lemma run_safe : forall es h f a D, WI h f a D -> Forall cev h -> Forall cev es ->
  exists f' a' D', rf_run f es = Ok f' /\ WI (h ++ es) f' a' D' /\ (NN f -> Forall ev_not_network es -> NN f' /\ (OI (csn f) a D -> OI (csn f') a' D')).
Proof.
  induction es as [|e es IH]; intros h f a D HW Hh Hes; cbn [rf_run].
  - exists f, a, D. rewrite app_nil_r. auto.
  - inversion Hes; subst. destruct (step_safe h f a D e HW Hh) as (f1 & a1 & D1 & -> & HW1 & Hn1); [assumption|]. cbn [rbind].
    destruct (IH (h ++ [e]) f1 a1 D1 HW1) as (f2 & a2 & D2 & E2 & HW2 & Hn2); [apply Forall_app; auto|assumption|]. rewrite <- app_assoc in HW2.
    exists f2, a2, D2. split; [exact E2|]. split; [exact HW2|]. intros Hn Hnn. inversion Hnn; subst. destruct Hn1 as (Hn3 & HO1); auto. destruct Hn2 as (Hn4 & HO2); auto.
Qed.

(** ** Exactly what is delivered, when the application leaves the flow alone *)
Definition allcov (h : list revent) : Prop := forall i, 1 <= i <= N -> covered h i.
Definition XI (o : order) (h : list revent) (f : rf) (a : alist) (D : list (Z * Z)) : Prop :=
  WI h f a D /\ FI h f /\ K E h a D /\ f_script f = [] /\ f_accepted f = true /\ f_order f = o /\ (f_finseen f = true -> f_fin f = N)
  /\ (f_baseopen f = true \/ (allcov h /\ a = [])) /\ (f_state f = RF_OPEN \/ allcov h) /\ stuck E a (csn f)
  /\ (o = RO_SEQUENCE -> OI (csn f) a D) /\ (o = RO_NETWORK -> NW E a).
Definition fin_last (e : revent) : Prop := match e with EvData flags seq _ _ => Z.land flags 1 <> 0 -> seq = N | _ => True end.

Lemma allcov_mono : forall h e, allcov h -> allcov (h ++ [e]).
Proof. intros h e H i Hi. apply covered_snoc. auto. Qed.
Lemma K_other : forall h e a D, K E h a D -> (forall i, ~ covers e i) -> (forall i, ~ carries e i) -> K E (h ++ [e]) a D.
Proof.
  intros h e a D HK Hc Hr i Hi. apply got_snoc in Hi. destruct Hi as [Hi|(Hi & _)]; [|exfalso; eapply Hr; eauto].
  destruct (HK i Hi) as [H|[H|H]]; auto. right. right. destruct H as (x & y & j & J1 & J2 & J3 & J4 & J5). exists x, y, j. split; [exact J1|]. split; [exact J2|]. split; [exact J3|].
  split; [apply covered_snoc; auto|]. rewrite got_snoc. intros [H|(H & _)]; [auto|eapply Hr; eauto].
Qed.
Lemma XI_quiet : forall o h f f' a D e, XI o h f a D -> f_set f' = f_set f -> f_fwd f' = f_fwd f -> f_fin f' = f_fin f -> f_finseen f' = f_finseen f -> f_accepted f' = f_accepted f ->
  f_buf f' = f_buf f -> f_out f' = f_out f -> f_script f' = f_script f -> f_order f' = f_order f -> f_baseopen f' = f_baseopen f -> f_hooks f' = f_hooks f -> f_state f' = f_state f ->
  (forall i, ~ covers e i) -> (forall i, ~ carries e i) -> XI o (h ++ [e]) f' a D.
Proof.
  intros o h f f' a D e ((HB & HSI) & H1 & H2 & H3 & H4 & H5 & H6 & H7 & H8 & H9 & H10 & H11) E1 E2 E3 E4 E5 E6 E7 E8 E9 E10 E11 E12 Hcv Hcr.
  assert (Hcs : csn f' = csn f) by (unfold csn; rewrite E1; reflexivity).
  unfold XI. rewrite Hcs, E3, E4, E5, E8, E9, E10, E12. split; [|split; [|split; [|split; [exact H3|split; [exact H4|split; [exact H5|split; [exact H6|split; [|split; [|auto]]]]]]]]].
  - split; [apply BIt_ext with (f := f); auto; eapply BIt_mono; [exact HB|intros i Hi; apply got_snoc; auto]|]. eapply SI_other; eauto. unfold core. congruence.
  - intros Hf. rewrite E4 in Hf. destruct (H1 Hf). rewrite E3. split; [apply covered_snoc; auto|assumption].
  - apply K_other; auto.
  - destruct H7 as [H7|(H7 & H7')]; [auto|]. right. split; [apply allcov_mono, H7|exact H7'].
  - destruct H8 as [H8|H8]; [auto|right; apply allcov_mono, H8].
Qed.

Lemma step_exact : forall o h f a D e, o <> RO_HOLD -> XI o h f a D -> Forall cev h -> cev e -> fin_last e -> passive e ->
  exists f' a' D', rf_step f e = Ok f' /\ XI o (h ++ [e]) f' a' D'.
Proof.
  intros o h f a D e Hno HX Hh He Hfl Hp. pose proof HX as ((HB & HSI) & HFI & HK & Hsc & Hacc & Hor & Hfin & Hbo & Hst & Hstk & HOI & HNW).
  assert (Hs : Forall sane h) by (exact (Forall_impl _ (cev_sane E dat N HN) Hh)).
  assert (Hnn : o = RO_SEQUENCE -> NN f) by (intros ->; split; [rewrite Hor; discriminate|rewrite Hsc; constructor]).
  destruct e as [|flags seq fsn data| |x| | |]; try contradiction; cbn [rf_step].
  - destruct (on_data_wf E dat N HN Htotal h f a D flags seq fsn data (conj HB HSI) Hh He) as (f' & a' & D' & Eq & HW & Hn & HO & Hclosed & Hq).
    destruct (Hq Hsc) as (Q1 & Q2 & Q3 & Q4 & Q5 & Q6 & Q7 & Q8). clear Hq. exists f', a', D'. split; [exact Eq|]. set (h' := h ++ [EvData flags seq fsn data]) in *.
    destruct (Q6 HFI) as (HFI' & Hch).
    assert (Hseq : 1 <= seq <= N) by apply He.
    assert (Hs' : Forall sane h') by (apply Forall_app; split; [exact Hs|repeat constructor; apply (cev_sane _ _ _ HN _ He)]).
    destruct (csn_facts h' f' (proj2 HW) Hs') as (B1 & B2 & B3 & _).
    assert (Hfin' : f_finseen f' = true -> f_fin f' = N). { intros Hf. destruct (Q4 Hf) as [(F1 & ->)|(F1 & ->)]; [auto|apply Hfl, F1]. }
    assert (Hclose : is_open f = true \/ (allcov h /\ a = [] /\ is_open f = false)).
    { unfold is_open. rewrite Hacc, andb_true_r. destruct (f_baseopen f); [auto|]. destruct Hbo as [Hbo|(Hbo1 & Hbo2)]; [discriminate|auto]. }
    assert (Hac' : f_finseen f' = true -> f_fin f' <= csn f' -> allcov h'). { intros F1 F2 i Hi. apply B1. rewrite (Hfin' F1) in F2. lia. }
    split; [exact HW|]. split; [exact HFI'|]. split; [apply Q5; [destruct Hst as [Hst|Hst]; [auto|right; apply Hst; exact Hseq]|exact HK]|].
    split; [exact Q1|]. split; [congruence|]. split; [congruence|]. split; [exact Hfin'|]. split; [|split; [|split; [|split]]].
    + destruct Hclose as [Hop|(Hop1 & Hop2 & Hop3)]; [|right; split; [apply allcov_mono, Hop1|apply Hclosed; auto]].
      assert (Hb : f_baseopen f = true) by (unfold is_open in Hop; apply andb_prop in Hop; apply Hop).
      destruct Hch as [(C1 & _)|(C1 & C2 & [C3|C3])]; [left; congruence|left; congruence|]. right. auto.
    + destruct Hch as [(_ & C2)|(C1 & C2 & _)]; [|right; auto]. rewrite C2. destruct Hst as [Hst|Hst]; [auto|right; apply allcov_mono, Hst].
    + destruct Hclose as [Hop|(Hop1 & Hop2 & Hop3)]; [apply Q7; congruence|]. left. apply Hclosed; auto.
    + intros ->. apply HO; auto.
    + intros ->. destruct Hclose as [Hop|(Hop1 & Hop2 & Hop3)]; [apply Q8; auto|]. rewrite Hclosed; auto. apply NW_nil.
  - assert (Hse : SI (h ++ [EvTry]) f) by (eapply SI_other; eauto).
    assert (Hs' : Forall sane (h ++ [EvTry])) by (apply Forall_app; split; [exact Hs|repeat constructor]).
    destruct (csn_facts _ f Hse Hs') as (B1 & B2 & _ & _).
    destruct (XI_quiet o h f f a D EvTry HX) as ((HBm & _) & HFI' & HK' & _ & _ & _ & _ & Hbo' & Hst' & _); auto.
    destruct (try_wf E dat _ f a D (-1) B1 B2) as (f' & a' & D' & Eq & HB' & C' & Hn & HO & Hclosed & Hq); [eapply got_total; [exact Htotal|]; apply Forall_app; split; [exact Hh|repeat constructor]|exact HBm|lia|].
    destruct (Hq Hsc) as (Q1 & Q2 & Q3 & Q4 & Q5 & Q6). exists f', a', D'. split; [exact Eq|].
    assert (Hcs : csn f' = csn f) by (apply core_csn, C'). assert (Hcc : f_fin f' = f_fin f /\ f_finseen f' = f_finseen f /\ f_accepted f' = f_accepted f) by (unfold core in C'; injection C'; auto).
    destruct Hcc as (C1 & C2 & C3). assert (Hclose : is_open f = true \/ (allcov h /\ a = [] /\ is_open f = false)).
    { unfold is_open. rewrite Hacc, andb_true_r. destruct (f_baseopen f); [auto|]. destruct Hbo as [Hbo|(Hbo1 & Hbo2)]; [discriminate|auto]. }
    assert (Hac' : f_finseen f = true -> f_fin f <= csn f -> allcov (h ++ [EvTry])). { intros F1 F2 i Hi. apply B1. rewrite (Hfin F1) in F2. lia. }
    unfold XI. rewrite Hcs, C1, C2. split; [split; [exact HB'|eapply SI_other; eauto]|]. split; [unfold FI; rewrite C1, C2; exact HFI'|]. split; [apply Q3, HK'|].
    split; [exact Q1|]. split; [congruence|]. split; [congruence|]. split; [exact Hfin|]. split; [|split; [|split; [|split]]].
    + destruct Hclose as [Hop|(Hop1 & Hop2 & Hop3)]; [|right; split; [apply allcov_mono, Hop1|apply Hclosed; auto]].
      destruct Q4 as [(D1 & _)|(D1 & D2 & D3 & _)]; [|auto]. left. rewrite D1. unfold is_open in Hop. apply andb_prop in Hop. apply Hop.
    + destruct Q4 as [(_ & D1)|(D1 & D2 & D3 & _)]; [rewrite D1; exact Hst'|auto].
    + destruct Hclose as [Hop|(Hop1 & Hop2 & Hop3)]; [apply Q5; congruence|]. left. apply Hclosed; auto.
    + intros ->. apply HO; auto.
    + intros ->. destruct Hclose as [Hop|(Hop1 & Hop2 & Hop3)]; [|rewrite Hclosed; auto; apply NW_nil]. apply Q6; auto. intros u v Huv Hall. exfalso. apply (HNW eq_refl u v Huv Hall).
  - destruct x as [r|o'|n|n]; try contradiction; eexists; exists a, D; (split; [reflexivity|]); apply XI_quiet with (f := f); auto.
  - eexists. exists a, D. split; [reflexivity|]. apply XI_quiet with (f := f); auto.
Qed.

Lemma run_exact : forall o es h f a D, o <> RO_HOLD -> XI o h f a D -> Forall cev h -> Forall cev es -> Forall fin_last es -> Forall passive es ->
  exists f' a' D', rf_run f es = Ok f' /\ XI o (h ++ es) f' a' D'.
Proof.
  intros o. induction es as [|e es IH]; intros h f a D Ho HX Hh H1 H2 H3; cbn [rf_run].
  - exists f, a, D. rewrite app_nil_r. auto.
  - inversion H1; inversion H2; inversion H3; subst. destruct (step_exact o h f a D e) as (f1 & a1 & D1 & -> & HX1); auto. cbn [rbind].
    destruct (IH (h ++ [e]) f1 a1 D1) as (f2 & a2 & D2 & E2 & HX2); auto; [apply Forall_app; auto|]. rewrite <- app_assoc in HX2. exists f2, a2, D2. auto.
Qed.

Lemma XI_sequence : forall h f a D, XI RO_SEQUENCE h f a D -> Forall sane h -> forall x y, ismsg E x y ->
  In (x, y) D <-> (forall i, x <= i <= y -> got h i) /\ contiguous_to h y.
Proof.
  intros h f a D ((HB & HSI) & _ & HK & _ & _ & _ & _ & _ & _ & Hstk & HOI & _) Hs x y Hm. specialize (HOI eq_refl).
  destruct (csn_facts h f HSI Hs) as (A1 & A2 & A3 & _). destruct HB as (H1 & H2 & H3 & H4 & H5 & (H6 & H6') & H7 & H8). pose proof Hm as ((M0 & M1) & M2 & M3 & M4). split.
  - intros Hin. split; [intros i Hi; apply (H6 x y Hin), Hi|]. destruct HOI as (_ & HOI). destruct (HOI x y Hin) as (Hy & _). intros i Hi.
    destruct (Z.eq_dec i 0) as [->|]; [|apply A1; lia]. apply (covered_zero h y); [exact Hs|apply A1; lia].
  - intros (Hg & Hct). assert (Hy : y <= csn f). { destruct (Z.le_gt_cases y (csn f)); [assumption|]. exfalso. apply A2, Hct. lia. }
    destruct (HK x (Hg x ltac:(lia))) as [Hx|[Hx|Hx]].
    + exfalso. destruct Hstk as [->|(n & g & a' & -> & Hst)]; [exact Hx|].
      assert (Hle : g_seq g <= x). { unfold has in Hx. cbn [seqs map snd In] in Hx. destruct Hx as [Hx|Hx]; [lia|]. unfold sorted in H2. cbn [seqs map snd] in H2. inversion H2 as [|? ? ? Hf]; subst. rewrite Forall_forall in Hf. specialize (Hf x Hx). lia. }
      destruct Hst as [Hst|(Hb & y' & (R1 & R2 & R3 & R4 & R5) & Ey & Hcy)]; [lia|].
      assert (x <= y') by lia.
      assert (x = g_seq g). { destruct (Z.eq_dec x (g_seq g)); [assumption|]. exfalso. unfold Bg in M2. rewrite (R3 (x - 1)) in M2 by lia. pose proof (conf_pos E dat _ H3 (g_seq g) (or_introl eq_refl)). destruct (Z.eqb_spec x 1); [lia|discriminate]. }
      destruct (Z.eq_dec y y') as [->|]; [congruence|]. rewrite (R3 y) in M3 by lia. discriminate.
    + destruct Hx as (u & v & Huv & Hi). destruct (ismsg_unique E dat u v x y x (proj1 (H6 u v Huv)) Hm Hi ltac:(lia)) as (-> & ->). exact Huv.
    + exfalso. destruct Hx as (u & v & j & J1 & J2 & J3 & J4 & J5). destruct (ismsg_unique E dat u v x y x J1 Hm J2 ltac:(lia)) as (-> & ->). apply J5, Hg, J3.
Qed.
Lemma all_or_not : forall (a : alist) x y, (forall i, x <= i <= y -> has a i) \/ exists i, x <= i <= y /\ ~ has a i.
Proof.
  intros a x y. assert (H : forall k, (forall i, x <= i < x + Z.of_nat k -> has a i) \/ exists i, x <= i < x + Z.of_nat k /\ ~ has a i).
  { induction k as [|k IH]; [left; intros; lia|]. destruct IH as [IH|(i & Hi & Hn)]; [|right; exists i; split; [lia|exact Hn]].
    destruct (has_dec a (x + Z.of_nat k)) as [H|H]; [left|right; exists (x + Z.of_nat k); split; [lia|exact H]]. intros i Hi. destruct (Z.eq_dec i (x + Z.of_nat k)) as [->|]; [exact H|apply IH; lia]. }
  destruct (H (Z.to_nat (y - x + 1))) as [H1|(i & Hi & Hn)]; [left; intros i Hi; apply H1; lia|right; exists i; split; [lia|exact Hn]].
Qed.
Lemma XI_network : forall h f a D, XI RO_NETWORK h f a D -> forall x y, ismsg E x y ->
  In (x, y) D <-> (forall i, x <= i <= y -> got h i).
Proof.
  intros h f a D ((HB & HSI) & _ & HK & _ & _ & _ & _ & _ & _ & _ & _ & HNW) x y Hm. specialize (HNW eq_refl).
  destruct HB as (H1 & H2 & H3 & H4 & H5 & (H6 & H6') & H7 & H8). split.
  - intros Hin i Hi. apply (H6 x y Hin), Hi.
  - intros Hg. destruct (all_or_not a x y) as [Hall|(i & Hi & Hn)]; [exfalso; apply (HNW x y Hm Hall)|].
    destruct (HK i (Hg i Hi)) as [Hx|[Hx|Hx]]; [contradiction| |].
    + destruct Hx as (u & v & Huv & Hi'). destruct (ismsg_unique E dat u v x y i (proj1 (H6 u v Huv)) Hm Hi' Hi) as (-> & ->). exact Huv.
    + exfalso. destruct Hx as (u & v & j & J1 & J2 & J3 & J4 & J5). destruct (ismsg_unique E dat u v x y i J1 Hm J2 Hi) as (-> & ->). apply J5, Hg, J3.
Qed.

End Run.

(** ** From a list of messages to numbered fragments *)
Section Table.
Variable ms : list (list (list Z)).
Hypothesis Hne : Forall (fun m => m <> []) ms.
Definition Eof (i : Z) : bool := match nth_frag ms i with Some (fra, _) => (fra =? 0) || (fra =? 32) | None => false end.
Definition dof (i : Z) : list Z := match nth_frag ms i with Some (_, d) => d | None => [] end.
Definition Nof : Z := zlen (table ms).
End Table.

Lemma later_marks_len : forall m, length (later_marks m) = length m.
Proof. induction m as [|d [|d' m] IH]; cbn [later_marks length] in *; lia. Qed.
Lemma marks_len : forall m, length (marks m) = length m.
Proof. intros [|d [|d' m]]; cbn [marks length]; try reflexivity. rewrite later_marks_len. reflexivity. Qed.
Lemma later_marks_nth : forall m k, (k < length m)%nat -> nth_error (later_marks m) k = Some (if (S k =? length m)%nat then 32 else 48, nth k m []).
Proof.
  induction m as [|d m IH]; intros k Hk; [cbn in Hk; lia|]. destruct m as [|d' m].
  - cbn in Hk. replace k with 0%nat by lia. reflexivity.
  - destruct k as [|k]; [reflexivity|]. change (later_marks (d :: d' :: m)) with ((48, d) :: later_marks (d' :: m)). cbn [nth_error nth]. rewrite IH by (cbn in *; lia). reflexivity.
Qed.
Lemma marks_nth : forall m k, (k < length m)%nat -> nth_error (marks m) k =
  Some (if (k =? 0)%nat then (if (length m =? 1)%nat then 0 else 16) else (if (S k =? length m)%nat then 32 else 48), nth k m []).
Proof.
  intros [|d [|d' m]] k Hk; [cbn in Hk; lia|cbn in Hk; replace k with 0%nat by lia; reflexivity|].
  destruct k as [|k]; [reflexivity|]. change (marks (d :: d' :: m)) with ((16, d) :: later_marks (d' :: m)). cbn [nth_error nth]. rewrite later_marks_nth by (cbn in *; lia). reflexivity.
Qed.
Lemma table_app : forall p q, table (p ++ q) = table p ++ table q.
Proof. intros. apply flat_map_app. Qed.
Lemma zlen_app' : forall A (p q : list A), zlen (p ++ q) = zlen p + zlen q.
Proof. intros. unfold zlen. rewrite app_length. lia. Qed.
Lemma table_cons_len : forall m r, zlen (table (m :: r)) = zlen m + zlen (table r).
Proof. intros m r. change (table (m :: r)) with (marks m ++ table r). rewrite zlen_app'. unfold zlen at 1. rewrite marks_len. reflexivity. Qed.
Lemma frag_at : forall pre m r k, (k < length m)%nat -> nth_frag (pre ++ m :: r) (zlen (table pre) + 1 + Z.of_nat k) =
  Some (if (k =? 0)%nat then (if (length m =? 1)%nat then 0 else 16) else (if (S k =? length m)%nat then 32 else 48), nth k m []).
Proof.
  intros pre m r k Hk. unfold nth_frag. pose proof (zlen_nonneg _ (table pre)). replace (1 <=? zlen (table pre) + 1 + Z.of_nat k) with true by lia.
  rewrite table_app. rewrite nth_error_app2 by (unfold zlen in *; lia). replace (Z.to_nat (zlen (table pre) + 1 + Z.of_nat k - 1) - length (table pre))%nat with k by (unfold zlen in *; lia).
  change (table (m :: r)) with (marks m ++ table r). rewrite nth_error_app1 by (rewrite marks_len; exact Hk). apply marks_nth, Hk.
Qed.
Lemma E_at : forall pre m r k, (k < length m)%nat -> Eof (pre ++ m :: r) (zlen (table pre) + 1 + Z.of_nat k) = (S k =? length m)%nat.
Proof.
  intros pre m r k Hk. unfold Eof. rewrite frag_at by exact Hk. destruct (Nat.eqb_spec k 0) as [->|]; [destruct (Nat.eqb_spec (length m) 1), (Nat.eqb_spec 1 (length m)); try reflexivity; lia|].
  destruct (S k =? length m)%nat; reflexivity.
Qed.
Lemma E_zero : forall ms, Eof ms 0 = false.
Proof. reflexivity. Qed.

(** First and last fragment of each message. *)
Fixpoint intervals (first : Z) (ms : list (list (list Z))) : list (Z * Z) :=
  match ms with [] => [] | m :: r => (first, first + zlen m - 1) :: intervals (first + zlen m) r end.

Lemma interval_msg : forall pre m r, Forall (fun m => m <> []) (pre ++ m :: r) ->
  ismsg (Eof (pre ++ m :: r)) (zlen (table pre) + 1) (zlen (table pre) + 1 + zlen m - 1) /\
  rend (dof (pre ++ m :: r)) (zlen (table pre) + 1, zlen (table pre) + 1 + zlen m - 1) = (concat m, zlen (table pre) + 1, zlen m).
Proof.
  intros pre m r Hne. pose proof Hne as Hne'. apply Forall_app in Hne'. destruct Hne' as (Hp & Hm). inversion Hm as [|? ? Hm1]; subst. set (x := zlen (table pre) + 1).
  pose proof (zlen_nonneg _ (table pre)). assert (Hl : 1 <= zlen m) by (destruct m; [congruence|unfold zlen; cbn [length]; lia]). split.
  - split; [unfold x; lia|]. split; [|split].
    + unfold Bg. destruct pre as [|m' pre' _] using rev_ind; [reflexivity|]. apply orb_true_iff. right. rewrite <- app_assoc. cbn [app].
      assert (m' <> []) by (apply Forall_app in Hp; destruct Hp as (_ & Hp); inversion Hp; assumption).
      assert (Hl' : (1 <= length m')%nat) by (destruct m'; [congruence|cbn; lia]).
      replace (x - 1) with (zlen (table pre') + 1 + Z.of_nat (length m' - 1)). 
      * rewrite E_at by lia. apply Nat.eqb_eq. lia.
      * unfold x. rewrite table_app, zlen_app'. rewrite (table_cons_len m' []). change (zlen (table [])) with 0. unfold zlen at 3. lia.
    + replace (x + zlen m - 1) with (zlen (table pre) + 1 + Z.of_nat (length m - 1)) by (unfold x, zlen in *; lia). rewrite E_at by (unfold zlen in *; lia). apply Nat.eqb_eq. unfold zlen in *. lia.
    + intros i Hi. replace i with (zlen (table pre) + 1 + Z.of_nat (Z.to_nat (i - x))) by (unfold x; lia). rewrite E_at by (unfold x, zlen in *; lia). apply Nat.eqb_neq. unfold x, zlen in *. lia.
  - unfold rend. cbn [fst snd]. f_equal; [f_equal|lia]. unfold bytes_of. f_equal. unfold span. replace (Z.to_nat (x + zlen m - 1 - x + 1)) with (length m) by (unfold zlen in *; lia).
    assert (Hgen : forall k j, (k + j = length m)%nat -> map (dof (pre ++ m :: r)) (zs k (x + Z.of_nat j)) = skipn j m).
    { induction k as [|k IH]; intros j Hj; cbn [zs map]; [rewrite skipn_all2 by lia; reflexivity|].
      replace (x + Z.of_nat j + 1) with (x + Z.of_nat (S j)) by lia. rewrite IH by lia. unfold dof, x. rewrite frag_at by lia.
      rewrite <- (firstn_skipn j m) at 1. rewrite app_nth2; rewrite firstn_length_le by lia; [|lia]. replace (j - j)%nat with 0%nat by lia.
      assert (Hs : length (skipn j m) = S k) by (rewrite skipn_length; lia). destruct (skipn j m) as [|d l] eqn:Es; [discriminate|]. cbn [nth]. f_equal.
      clear -Es. revert m Es. induction j as [|j IHj]; intros [|c m] Es; try discriminate; [injection Es as _ <-; reflexivity|]. exact (IHj m Es). }
    specialize (Hgen (length m) 0%nat ltac:(lia)). rewrite Z.add_0_r in Hgen. rewrite Hgen. reflexivity.
Qed.

Lemma intervals_from : forall r pre all, all = pre ++ r -> Forall (fun m => m <> []) all ->
  Forall (fun p => ismsg (Eof all) (fst p) (snd p) /\ zlen (table pre) + 1 <= fst p /\ snd p <= zlen (table all)) (intervals (zlen (table pre) + 1) r)
  /\ sent_from (zlen (table pre) + 1) r = map (rend (dof all)) (intervals (zlen (table pre) + 1) r)
  /\ StronglySorted (fun p q => snd p < fst q) (intervals (zlen (table pre) + 1) r)
  /\ (forall i, zlen (table pre) + 1 <= i <= zlen (table all) -> exists u v, In (u, v) (intervals (zlen (table pre) + 1) r) /\ u <= i <= v).
Proof.
  induction r as [|m r IH]; intros pre all -> Hne.
  - cbn. split; [constructor|]. split; [reflexivity|]. split; [constructor|]. intros i Hi. rewrite app_nil_r in Hi. lia.
  - destruct (interval_msg pre m r Hne) as (H1 & H2).
    assert (E1 : zlen (table pre) + 1 + zlen m = zlen (table (pre ++ [m])) + 1).
    { rewrite table_app, zlen_app', (table_cons_len m []). change (zlen (table [])) with 0. lia. }
    destruct (IH (pre ++ [m]) (pre ++ m :: r)) as (G1 & G2 & G3 & G4); [rewrite <- app_assoc; reflexivity|exact Hne|].
    assert (Hm : 1 <= zlen m). { apply Forall_app in Hne. destruct Hne as (_ & Hne). inversion Hne as [|? ? Hx]; subst. destruct m; [congruence|unfold zlen; cbn [length]; lia]. }
    assert (Hall : zlen (table (pre ++ m :: r)) = zlen (table pre) + zlen m + zlen (table r)) by (rewrite table_app, zlen_app', table_cons_len; lia).
    pose proof (zlen_nonneg _ (table r)). cbn [intervals sent_from map]. rewrite E1. split; [|split; [|split]].
    + constructor; [cbn [fst snd]; split; [rewrite <- E1; exact H1|lia]|]. eapply Forall_impl; [|exact G1]. cbn beta. intros (u, v) (I1 & I2 & I3). split; [exact I1|]. lia.
    + rewrite E1 in H2. rewrite H2, G2. reflexivity.
    + constructor; [exact G3|]. eapply Forall_impl; [|exact G1]. cbn beta. intros (u, v) (_ & I2 & _). cbn [fst snd] in *. lia.
    + intros i Hi. destruct (Z.le_gt_cases i (zlen (table (pre ++ [m])))) as [Hl|Hl].
      * eexists. eexists. split; [left; reflexivity|lia].
      * destruct (G4 i ltac:(lia)) as (u & v & Hin & Huv). exists u, v. split; [right; exact Hin|exact Huv].
Qed.

Lemma table_facts : forall ms, Forall (fun m => m <> []) ms ->
  (forall x y, ismsg (Eof ms) x y <-> In (x, y) (intervals 1 ms))
  /\ sent ms = map (rend (dof ms)) (intervals 1 ms) /\ StronglySorted (fun p q => snd p < fst q) (intervals 1 ms)
  /\ (forall i, 1 <= i <= Nof ms -> exists u v, ismsg (Eof ms) u v /\ u <= i <= v).
Proof.
  intros ms Hne. destruct (intervals_from ms [] ms eq_refl Hne) as (G1 & G2 & G3 & G4). change (zlen (table []) + 1) with 1 in *. rewrite Forall_forall in G1.
  split; [|split; [exact G2|split; [exact G3|]]].
  - intros x y. split; [|intros H; apply (G1 (x, y) H)]. intros Hm. pose proof Hm as (M1 & M2 & M3 & M4).
    assert (Hy : y <= Nof ms).
    { unfold Eof, nth_frag in M3. destruct (1 <=? y); [|discriminate]. destruct (nth_error (table ms) (Z.to_nat (y - 1))) as [q|] eqn:En; [|discriminate].
      assert (Hl : (Z.to_nat (y - 1) < length (table ms))%nat) by (apply nth_error_Some; congruence). unfold Nof, zlen. lia. }
    destruct (G4 y ltac:(unfold Nof in *; lia)) as (u & v & Hin & Huv). destruct (G1 (u, v) Hin) as (Hm' & _). cbn [fst snd] in Hm'.
    destruct (ismsg_unique (Eof ms) (dof ms) x y u v y Hm Hm' ltac:(lia) Huv) as (-> & ->). exact Hin.
  - intros i Hi. destruct (G4 i Hi) as (u & v & Hin & Huv). exists u, v. split; [apply (G1 (u, v) Hin)|exact Huv].
Qed.
Lemma frag_fraof : forall ms i fra d, Forall (fun m => m <> []) ms -> nth_frag ms i = Some (fra, d) -> fraof (Eof ms) i = fra /\ dof ms i = d /\ 1 <= i <= Nof ms.
Proof.
  intros ms i fra d Hne Hf. assert (Hi : 1 <= i <= Nof ms).
  { unfold nth_frag in Hf. destruct (Z.leb_spec 1 i); [|discriminate]. assert (Hl : (Z.to_nat (i - 1) < length (table ms))%nat) by (apply nth_error_Some; congruence). unfold Nof, zlen. lia. }
  split; [|split; [unfold dof; rewrite Hf; reflexivity|exact Hi]].
  assert (Hex : exists pre m r k, ms = pre ++ m :: r /\ (k < length m)%nat /\ i = zlen (table pre) + 1 + Z.of_nat k).
  { assert (Hgen : forall r pre, ms = pre ++ r -> zlen (table pre) < i -> exists pre m r k, ms = pre ++ m :: r /\ (k < length m)%nat /\ i = zlen (table pre) + 1 + Z.of_nat k).
    { induction r as [|m r IH]; intros pre Eq Hp; [rewrite app_nil_r in Eq; subst pre; unfold Nof in Hi; lia|].
      destruct (Z.le_gt_cases i (zlen (table pre) + zlen m)) as [Hl|Hl].
      - exists pre, m, r, (Z.to_nat (i - zlen (table pre) - 1)). split; [exact Eq|]. unfold zlen in *. lia.
      - apply (IH (pre ++ [m])); [rewrite <- app_assoc; exact Eq|]. rewrite table_app, zlen_app', (table_cons_len m []). change (zlen (table [])) with 0. lia. }
    apply (Hgen ms []); [reflexivity|]. change (zlen (table [])) with 0. lia. }
  destruct Hex as (pre & m & r & k & -> & Hk & ->). rewrite frag_at in Hf by exact Hk. injection Hf as <- _.
  destruct (interval_msg pre m r Hne) as ((_ & HB & _ & HE) & _).
  unfold fraof. rewrite E_at by exact Hk. destruct (Nat.eqb_spec k 0) as [->|Hk0].
  - rewrite Z.add_0_r, HB. destruct (Nat.eqb_spec 1 (length m)), (Nat.eqb_spec (length m) 1); try lia; reflexivity.
  - assert (Hb : Bg (Eof (pre ++ m :: r)) (zlen (table pre) + 1 + Z.of_nat k) = false).
    { apply Bg_false; [exact (fun _ => [])|pose proof (zlen_nonneg _ (table pre)); lia|]. apply HE. unfold zlen in *. lia. }
    rewrite Hb. change (match length m with 0%nat => false | S m' => (k =? m')%nat end) with (S k =? length m)%nat. destruct (S k =? length m)%nat; reflexivity.
Qed.

Lemma conforms_cev : forall fin ms e, Forall (fun m => m <> []) ms -> conforms fin ms e -> cev (Eof ms) (dof ms) (Nof ms) e.
Proof.
  intros fin ms [|fl sq fs d| | | | |] Hne; cbn; auto. intros (fra & d' & Hf & Hfl & Hfs & Hd & _). destruct (frag_fraof ms sq fra d' Hne Hf) as (F1 & F2 & F3).
  split; [exact F3|]. split; [unfold FRA_MASK; congruence|]. split; [exact Hfs|]. intros Ha. rewrite F2. auto.
Qed.
Lemma conforms_fin : forall ms e, conforms (fun i => i = zlen (table ms)) ms e -> fin_last (Nof ms) e.
Proof. intros ms [|fl sq fs d| | | | |]; cbn; auto. intros (fra & d' & _ & _ & _ & _ & H). exact H. Qed.

(** ** Picking messages out of the list of those sent *)
Lemma selection_of_sorted : forall (I D : list (Z * Z)), StronglySorted (fun p q => snd p < fst q) I -> StronglySorted (fun p q => snd p < fst q) D ->
  (forall p, In p I -> fst p <= snd p) -> incl D I -> selection D I.
Proof.
  induction I as [|i I IH]; intros D HI HD Hle Hinc.
  - destruct D as [|d D]; [constructor|]. exfalso. apply (Hinc d). left. reflexivity.
  - inversion HI as [|? ? HI' HfI]; subst. rewrite Forall_forall in HfI. destruct D as [|d D].
    + constructor. apply IH; auto; [intros p Hp; apply Hle; right; exact Hp|intros p []].
    + inversion HD as [|? ? HD' HfD]; subst. rewrite Forall_forall in HfD. pose proof (Hle i (or_introl eq_refl)) as Hi. pose proof (Hle d (Hinc d (or_introl eq_refl))) as Hd.
      destruct (Hinc d (or_introl eq_refl)) as [<-|Hin].
      * apply sel_take. apply IH; auto; [intros p Hp; apply Hle; right; exact Hp|]. intros p Hp. destruct (Hinc p (or_intror Hp)) as [<-|H]; [|exact H]. specialize (HfD i Hp). lia.
      * apply sel_skip. apply IH; auto; [intros p Hp; apply Hle; right; exact Hp|]. intros p Hp. destruct (Hinc p Hp) as [<-|H]; [|exact H].
        specialize (HfI d Hin). destruct Hp as [->|Hp]; [lia|specialize (HfD i Hp); lia].
Qed.
Lemma selection_map : forall A B (f : A -> B) l k, selection l k -> selection (map f l) (map f k).
Proof. intros A B f l k H. induction H; cbn; constructor; assumption. Qed.

Lemma accept_init : forall script, exists f, rf_init script = Ok f /\ SLf (f_buf f) [] /\ f_set f = [] /\ f_fwd f = 0 /\ f_finseen f = false /\ f_state f = RF_OPEN
  /\ f_baseopen f = true /\ f_order f = RO_SEQUENCE /\ f_hooks f = true /\ f_script f = script /\ f_out f = [].
Proof. intros script. destruct (rf_init_ok script) as (f & H). exists f. tauto. Qed.


Lemma in_sent : forall ms m, Forall (fun m => m <> []) ms -> In m (sent ms) <-> exists x y, ismsg (Eof ms) x y /\ m = rend (dof ms) (x, y).
Proof.
  intros ms m Hne. destruct (table_facts ms Hne) as (T1 & T2 & _). rewrite T2, in_map_iff. split.
  - intros ((x, y) & <- & Hin). exists x, y. split; [apply T1, Hin|reflexivity].
  - intros (x & y & Hm & ->). exists (x, y). split; [reflexivity|apply T1, Hm].
Qed.

Lemma recv_safe : forall script ms es f0, well_formed ms -> rf_init script = Ok f0 -> Forall (conforms (fun _ => True) ms) es ->
  exists f, rf_run f0 es = Ok f /\ incl (msgs_of (f_out f)) (sent ms) /\ NoDup (map (fun m => snd (fst m)) (msgs_of (f_out f)))
   /\ (Forall (Forall act_not_network) script -> Forall ev_not_network es -> selection (msgs_of (f_out f)) (sent ms)).
Proof.
  intros script ms es f0 (Hne & HN) Hi Hes. destruct (table_facts ms Hne) as (T1 & T2 & T3 & T4).
  destruct (accept_init script) as (f & Ef & A1 & A2 & A3 & A4 & A5 & A6 & A7 & A8 & A9 & A10). rewrite Hi in Ef. injection Ef as <-.
  assert (Hc : Forall (cev (Eof ms) (dof ms) (Nof ms)) es) by (eapply Forall_impl; [|exact Hes]; intros e; apply conforms_cev; exact Hne).
  assert (HW0 : WI (Eof ms) (dof ms) [] f0 [] []) by (eapply WI_init; eauto).
  destruct (run_safe (Eof ms) (dof ms) (Nof ms) HN T4 es [] f0 [] [] HW0 (Forall_nil _) Hc) as (f' & a' & D' & Er & (HB & _) & Hnn).
  exists f'. split; [exact Er|]. destruct HB as (_ & _ & _ & _ & _ & (HD & Hnd) & Hm & _). rewrite Hm.
  assert (Hinc : incl D' (intervals 1 ms)) by (intros (x, y) Hxy; apply T1, (HD x y Hxy)).
  split; [rewrite T2; intros m Hmm; apply in_map_iff in Hmm; destruct Hmm as (p & <- & Hp); apply in_map; auto|]. split.
  - rewrite map_map. cbn [rend fst snd]. clear Hm Hinc Hnn Er. induction D' as [|(x, y) D' IH]; [constructor|]. apply NoDup_cons_iff in Hnd. destruct Hnd as (Hn1 & Hn2). cbn [map fst]. constructor.
    + intros Hin. apply in_map_iff in Hin. destruct Hin as ((u, v) & Eq & Hin). cbn [fst] in Eq. subst u. apply Hn1.
      destruct (HD x y (or_introl eq_refl)) as (M1 & _). destruct (HD x v (or_intror Hin)) as (M2 & _).
      destruct (ismsg_unique _ (dof ms) x y x v x M1 M2) as (_ & ->); [destruct M1; lia|destruct M2; lia|exact Hin].
    + apply IH; [|exact Hn2]. intros u v Huv. apply HD. right. exact Huv.
  - intros Hs He. destruct Hnn as (_ & HO); [split; [rewrite A7; discriminate|rewrite A9; exact Hs]|exact He|]. destruct (HO (OI_init _)) as (HO1 & _).
    rewrite T2. apply selection_map. apply selection_of_sorted; auto. intros (x, y) Hp. apply T1 in Hp. destruct Hp. cbn. lia.
Qed.

Lemma XI_init : forall ms f o, well_formed ms -> SLf (f_buf f) [] -> f_set f = [] -> f_fwd f = 0 -> f_hooks f = true -> f_out f = [] -> f_script f = [] -> f_accepted f = true -> f_order f = o ->
  f_finseen f = false -> f_baseopen f = true -> f_state f = RF_OPEN -> XI (Eof ms) (dof ms) (Nof ms) o [] f [] [].
Proof.
  intros ms f o Hw H1 H2 H3 H4 H5 H6 H7 H8 H9 H10 H11. split; [apply WI_init; auto|]. split; [intros Hx; congruence|]. split; [intros i (h1 & e & h2 & Eq & _); destruct h1; discriminate|].
  split; [exact H6|]. split; [exact H7|]. split; [exact H8|]. split; [congruence|]. split; [auto|]. split; [auto|]. split; [left; reflexivity|]. split; [intros _; apply OI_init|intros _; apply NW_nil].
Qed.
Lemma recv_exact_sequence : forall ms es f0, well_formed ms -> rf_init [] = Ok f0 -> Forall (conforms (fun i => i = zlen (table ms)) ms) es -> Forall passive es ->
  exists f, rf_run f0 (EvAccept :: es) = Ok f /\ selection (msgs_of (f_out f)) (sent ms)
   /\ forall m, In m (sent ms) -> (In m (msgs_of (f_out f)) <-> due_in_sequence es m).
Proof.
  intros ms es f0 (Hne & HN) Hi Hes Hp. destruct (table_facts ms Hne) as (T1 & T2 & T3 & T4).
  destruct (accept_init []) as (f & Ef & A1 & A2 & A3 & A4 & A5 & A6 & A7 & A8 & A9 & A10). rewrite Hi in Ef. injection Ef as <-.
  assert (Hc : Forall (cev (Eof ms) (dof ms) (Nof ms)) es) by (eapply Forall_impl; [|exact Hes]; intros e; apply conforms_cev; exact Hne).
  assert (Hf : Forall (fin_last (Nof ms)) es) by (eapply Forall_impl; [|exact Hes]; intros e; apply conforms_fin).
  destruct (run_exact (Eof ms) (dof ms) (Nof ms) HN T4 RO_SEQUENCE es [] (with_accepted f0) [] []) as (f' & a' & D' & Er & HX); auto; [discriminate|apply XI_init; auto; split; auto|].
  exists f'. cbn [rf_run rf_step rbind]. split; [exact Er|]. cbn [app] in HX.
  assert (Hs : Forall sane es) by exact (Forall_impl _ (cev_sane (Eof ms) (dof ms) (Nof ms) HN) Hc).
  assert (Hexact : forall x y, ismsg (Eof ms) x y -> In (x, y) D' <-> (forall i, x <= i <= y -> got es i) /\ contiguous_to es y) by (eapply XI_sequence; eauto). destruct HX as ((HB & _) & _ & _ & _ & _ & _ & _ & _ & _ & _ & HO & _). destruct (HO eq_refl) as (HO1 & _).
  destruct HB as (_ & _ & _ & _ & _ & (HD & Hnd) & Hm & _). rewrite Hm.
  assert (Hinc : incl D' (intervals 1 ms)) by (intros (x, y) Hxy; apply T1, (HD x y Hxy)).
  split; [rewrite T2; apply selection_map; apply selection_of_sorted; auto; intros (x, y) Hq; apply T1 in Hq; destruct Hq; cbn; lia|].
  intros m Hms. apply (in_sent ms m Hne) in Hms. destruct Hms as (x & y & Hxy & ->). pose proof Hxy as ((X1 & X2) & _). change (due_in_sequence es (rend (dof ms) (x, y))) with ((forall i, x <= i < x + (y - x + 1) -> got es i) /\ contiguous_to es (x + (y - x + 1) - 1)).
  replace (x + (y - x + 1) - 1) with y by lia. rewrite in_map_iff. split.
  - intros ((u, v) & Eq & Hin). unfold rend in Eq. cbn [fst snd] in Eq. injection Eq as Eq1 Eq2 Eq3. assert (u = x) by lia. assert (v = y) by lia. subst. apply (Hexact x y Hxy) in Hin.
    destruct Hin as (G1 & G2). split; [intros i Hi'; apply G1; lia|exact G2].
  - intros (G1 & G2). exists (x, y). split; [reflexivity|]. apply (Hexact x y Hxy). split; [intros i Hi'; apply G1; lia|exact G2].
Qed.

Lemma recv_exact_network : forall ms es f0, well_formed ms -> rf_init [] = Ok f0 -> Forall (conforms (fun i => i = zlen (table ms)) ms) es -> Forall passive es ->
  exists f, rf_run f0 (EvAccept :: EvAct (AOrder RO_NETWORK) :: es) = Ok f
   /\ forall m, In m (sent ms) -> (In m (msgs_of (f_out f)) <-> due_in_network es m).
Proof.
  intros ms es f0 (Hne & HN) Hi Hes Hp. destruct (table_facts ms Hne) as (T1 & T2 & T3 & T4).
  destruct (accept_init []) as (f & Ef & A1 & A2 & A3 & A4 & A5 & A6 & A7 & A8 & A9 & A10). rewrite Hi in Ef. injection Ef as <-.
  assert (Hc : Forall (cev (Eof ms) (dof ms) (Nof ms)) es) by (eapply Forall_impl; [|exact Hes]; intros e; apply conforms_cev; exact Hne).
  assert (Hf : Forall (fin_last (Nof ms)) es) by (eapply Forall_impl; [|exact Hes]; intros e; apply conforms_fin).
  destruct (run_exact (Eof ms) (dof ms) (Nof ms) HN T4 RO_NETWORK es [] (with_order (with_accepted f0) RO_NETWORK) [] []) as (f' & a' & D' & Er & HX); auto; [discriminate|apply XI_init; auto; split; auto|].
  exists f'. cbn [rf_run rf_step rbind do_act]. split; [exact Er|]. cbn [app] in HX.
  assert (Hexact : forall x y, ismsg (Eof ms) x y -> In (x, y) D' <-> (forall i, x <= i <= y -> got es i)) by (eapply XI_network; eauto). destruct HX as ((HB & _) & _).
  destruct HB as (_ & _ & _ & _ & _ & (HD & Hnd) & Hm & _). rewrite Hm.
  intros m Hms. apply (in_sent ms m Hne) in Hms. destruct Hms as (x & y & Hxy & ->). pose proof Hxy as ((X1 & X2) & _). change (due_in_network es (rend (dof ms) (x, y))) with (forall i, x <= i < x + (y - x + 1) -> got es i).
  rewrite in_map_iff. split.
  - intros ((u, v) & Eq & Hin). unfold rend in Eq. cbn [fst snd] in Eq. injection Eq as Eq1 Eq2 Eq3. assert (u = x) by lia. assert (v = y) by lia. subst. pose proof (proj1 (Hexact x y Hxy) Hin) as G1. intros i Hi'. apply G1. lia.
  - intros G1. exists (x, y). split; [reflexivity|]. apply (Hexact x y Hxy). intros i Hi'. apply G1. lia.
Qed.

(** ** Any peer at all *)
Lemma recv_any : forall script es f0, rf_init script = Ok f0 -> Forall sane es ->
  match rf_run f0 es with
  | Ok f => exists pss, Forall2 (made_of es) (msgs_of (f_out f)) pss /\ NoDup (map fst (concat pss))
  | Rej => True
  | UB => False
  end.
Proof.
  intros script es f0 Hi Hes. destruct (rf_init_any script) as (f & Ef & HG & HS & _). rewrite Hi in Ef. injection Ef as <-.
  pose proof (rf_run_any false es [] f0 [] [] HG HS Hes ltac:(discriminate)) as H. destruct (rf_run f0 es) as [f| |]; [|exact I|exact H].
  destruct H as (_ & a & pss & _ & (_ & _ & _ & Hnd) & Hm & _). exists pss. split; [exact Hm|]. apply NoDup_app_r in Hnd. exact Hnd.
Qed.
Lemma recv_hold : forall script es f0, rf_init script = Ok f0 -> Forall (Forall holds) script -> Forall sane es -> Forall ev_holds es ->
  exists f, rf_run f0 (EvAct (AOrder RO_HOLD) :: es) = Ok f.
Proof.
  intros script es f0 Hi Hsc Hes Hh. destruct (rf_init_any script) as (f & Ef & _ & _ & HG). rewrite Hi in Ef. injection Ef as <-. destruct (HG Hsc) as (HG1 & HG2).
  pose proof (rf_run_any true es [] _ [] [] HG1 HG2 Hes (fun _ => Hh)) as H. cbn [rf_run rf_step do_act rbind]. destruct (rf_run (with_order f0 RO_HOLD) es) as [f| |]; [eauto|discriminate H|contradiction].
Qed.

Lemma run_app : forall es1 es2 f, rf_run f (es1 ++ es2) = rbind (rf_run f es1) (fun f1 => rf_run f1 es2).
Proof. induction es1 as [|e es1 IH]; intros es2 f; cbn [app rf_run rbind]; [reflexivity|]. destruct (rf_step f e); cbn [rbind]; auto. Qed.
Lemma run_SI : forall script es f0 f, rf_init script = Ok f0 -> Forall sane es -> rf_run f0 es = Ok f -> SI es f.
Proof.
  intros script es f0 f Hi Hes Hr. destruct (rf_init_any script) as (f1 & Ef & HG & HS & _). rewrite Hi in Ef. injection Ef as <-.
  pose proof (rf_run_any false es [] f0 [] [] HG HS Hes ltac:(discriminate)) as H. rewrite Hr in H. destruct H as (H & _). exact H.
Qed.
Lemma top_fsn_covered : forall h, Forall sane h -> 0 < top_fsn h -> forall i, 0 <= i <= top_fsn h -> covered h i.
Proof.
  induction h as [|e h IH]; intros Hs Ht i Hi; [cbn in Ht; lia|]. inversion Hs as [|? ? He Hs']; subst.
  assert (Hrec : 0 < top_fsn h -> 0 <= i <= top_fsn h -> covered (e :: h) i).
  { intros H1 H2. destruct (IH Hs' H1 i H2) as (x & Hx & Hc). exists x. split; [right; exact Hx|exact Hc]. }
  destruct e as [|fl sq fs d| | | | |]; cbn [top_fsn fold_right] in Ht, Hi; fold (top_fsn h) in Ht, Hi; auto.
  destruct (Z.le_gt_cases i fs); [exists (EvData fl sq fs d); split; [left; reflexivity|right; lia]|]. apply Hrec; lia.
Qed.
Lemma recv_csn : forall script es f0 f, rf_init script = Ok f0 -> Forall sane es -> rf_run f0 es = Ok f ->
  (forall i, covered es i -> contiguous_to es (csn f)) /\ (csn f = 0 \/ contiguous_to es (csn f)) /\ ~ contiguous_to es (csn f + 1) /\ f_fwd f = top_fsn es /\ f_fwd f <= csn f.
Proof.
  intros script es f0 f Hi Hes Hr. pose proof (run_SI script es f0 f Hi Hes Hr) as HS. destruct (csn_facts es f HS Hes) as (A1 & A2 & A3 & _).
  assert (Hc : forall i, covered es i -> contiguous_to es (csn f)).
  { intros i Hc j Hj. destruct (Z.eq_dec j 0) as [->|]; [eapply covered_zero; eauto|apply A1; lia]. }
  split; [exact Hc|]. split; [|split; [|split]].
  - destruct (Z.eq_dec (csn f) 0); [auto|]. right. apply (Hc (csn f)), A1. lia.
  - intros H. apply A2, H. lia.
  - apply HS.
  - destruct HS as (_ & _ & ->). destruct (Z.le_gt_cases (top_fsn es) (csn f)); [assumption|]. exfalso. apply A2. apply top_fsn_covered; [exact Hes|lia|lia].
Qed.
Lemma recv_mono : forall script es1 es2 f0 f1 f2, rf_init script = Ok f0 -> Forall sane (es1 ++ es2) -> rf_run f0 es1 = Ok f1 -> rf_run f1 es2 = Ok f2 ->
  csn f1 <= csn f2 /\ f_fwd f1 <= f_fwd f2.
Proof.
  intros script es1 es2 f0 f1 f2 Hi Hes H1 H2. pose proof Hes as Hes'. apply Forall_app in Hes'. destruct Hes' as (Hs1 & Hs2).
  assert (H12 : rf_run f0 (es1 ++ es2) = Ok f2) by (rewrite run_app, H1; exact H2).
  pose proof (run_SI script es1 f0 f1 Hi Hs1 H1) as S1. pose proof (run_SI script _ f0 f2 Hi Hes H12) as S2.
  destruct (csn_facts es1 f1 S1 Hs1) as (A1 & A2 & A3 & _). destruct (csn_facts _ f2 S2 Hes) as (B1 & B2 & B3 & _). split.
  - destruct (Z.le_gt_cases (csn f1) (csn f2)) as [H|H]; [exact H|]. exfalso. apply B2. destruct (A1 (csn f2 + 1) ltac:(lia)) as (e & Hin & Hc). exists e. split; [apply in_or_app; auto|exact Hc].
  - destruct S1 as (_ & _ & ->). destruct S2 as (_ & _ & ->). clear. induction es1 as [|e es1 IH]; cbn [app top_fsn fold_right]; [apply top_fsn_nonneg|]. fold (top_fsn es1) (top_fsn (es1 ++ es2)). destruct e; lia.
Qed.
