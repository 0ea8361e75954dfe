(** A receiving flow whose application leaves it alone never rejects a well-behaved sender. *)
From Verif Require Import Base BaseFacts IndexSet IndexSetSpec IndexSetProofs LinkedList LinkedListSpec LinkedListProofs SumListFacts RecvFlow RecvFlowSpec RecvFlowProofs RecvFlowAny RecvFlowMsg RecvFlowRun Ack AckSpec AckProofs.
Ltac Zify.zify_post_hook ::= Z.div_mod_to_equations.

Lemma Ok_inj : forall A (x y : A), Ok x = Ok y -> x = y.
Proof. intros A x y H. injection H. auto. Qed.
Record keep (f f' : rf) : Prop := {
  kp_script : f_script f' = []; kp_exc : f_exc f' = f_exc f; kp_state : f_state f' = f_state f; kp_set : f_set f' = f_set f;
  kp_seen : f_finseen f' = f_finseen f; kp_fin : f_fin f' = f_fin f; kp_fwd : f_fwd f' = f_fwd f }.
Lemma keep_refl : forall f, f_script f = [] -> keep f f.
Proof. intros f H. constructor; auto. Qed.
Lemma keep_trans : forall f g h, keep f g -> keep g h -> keep f h.
Proof. intros f g h [a1 a2 a3 a4 a5 a6 a7] [b1 b2 b3 b4 b5 b6 b7]. constructor; congruence. Qed.
Lemma keep_callback : forall f o f', f_script f = [] -> callback f o = Ok f' -> keep f f'.
Proof. intros f o f' H E. unfold callback in E. rewrite H in E. cbn in E. injection E as <-. constructor; reflexivity. Qed.
Ltac step_of E := match type of E with rbind ?x _ = Ok _ => let X := fresh "X" in let r := fresh "r" in destruct x as [r| |] eqn:X; cbn [rbind] in E; try discriminate E end.
Lemma keep_deliver : forall f n f', f_script f = [] -> deliver f n = Ok f' -> keep f f'.
Proof.
  intros f n f' H E. unfold deliver in E. cbv zeta in E. set (f0 := if f_prev_rwnd f <? 2 then with_ack f true else f) in *.
  assert (K0 : keep f f0) by (unfold f0; destruct (_ <? _); constructor; auto). clearbody f0. step_of E. destruct (_ =? _).
  - step_of E. assert (K1 : keep f0 r0). { destruct (f_hooks f0); [eapply keep_callback; [apply K0|eassumption]|injection X0 as <-; apply keep_refl, K0]. }
    step_of E. destruct r1. injection E as <-. eapply keep_trans; [exact K0|]. eapply keep_trans; [exact K1|]. constructor; try reflexivity. apply K1.
  - step_of E. destruct r0. step_of E. destruct r0.
    assert (K1 : keep f0 (with_buf f0 s)) by (constructor; try reflexivity; apply K0). eapply keep_trans; [exact K0|]. eapply keep_trans; [exact K1|].
    destruct (f_hooks (with_buf f0 s)); [eapply keep_callback; [apply K1|exact E]|injection E as <-; apply keep_refl, K1].
Qed.
Lemma keep_loop : forall fuel f c f', f_script f = [] -> delivery_loop fuel f c = Ok f' -> keep f f'.
Proof.
  induction fuel as [|fuel IH]; intros f c f' H E; cbn [delivery_loop] in E; [discriminate|].
  match type of E with (if ?b then _ else _) = _ => destruct b; [|injection E as <-; apply keep_refl, H] end.
  step_of E. step_of E. destruct (_ >? _); [injection E as <-; apply keep_refl, H|]. 
  assert (KD : forall n, (f1 <- deliver f n;; delivery_loop fuel f1 c) = Ok f' -> keep f f').
  { intros n E'. step_of E'. pose proof (keep_deliver _ _ _ H X1) as K1. eapply keep_trans; [exact K1|]. eapply IH; [apply K1|exact E']. }
  assert (KR : forall n, (' (b, _) <- sum_remove frag_size (f_buf f) n;; delivery_loop fuel (with_buf f b) c) = Ok f' -> keep f f').
  { intros n E'. step_of E'. destruct r1. assert (K1 : keep f (with_buf f s)) by (constructor; try reflexivity; exact H). eapply keep_trans; [exact K1|]. eapply IH; [exact H|exact E']. }
  destruct (_ =? FRA_WHOLE); [eapply KD, E|]. destruct (negb _); [eapply KR, E|]. step_of E. destruct (_ =? FRA_END); [eapply KD, E|]. destruct (_ <? _); [eapply KR, E|]. injection E as <-. apply keep_refl, H.
Qed.
(** Once the final fragment is accounted for the flow is no longer open. *)
Definition ended (f : rf) : Prop := f_finseen f = true -> f_fin f <= csn f -> f_state f <> RF_OPEN.
Lemma keep_csn : forall f f', keep f f' -> csn f' = csn f.
Proof. intros f f' K. unfold csn. rewrite (kp_set _ _ K). reflexivity. Qed.
Lemma keep_ended : forall f f', keep f f' -> ended f -> ended f'.
Proof. intros f f' K H. unfold ended. rewrite (keep_csn _ _ K), (kp_seen _ _ K), (kp_fin _ _ K), (kp_state _ _ K). exact H. Qed.
Lemma keep_try : forall f hint f', f_script f = [] -> ended f -> try_delivery f hint = Ok f' -> keep f f'.
Proof.
  intros f hint f' H He E. unfold try_delivery in E. step_of E.
  assert (K1 : keep f r). { match type of X with (if ?b then _ else _) = _ => destruct b end; [eapply keep_deliver; eauto|injection X as <-; apply keep_refl, H]. }
  cbv zeta in E. step_of E. assert (K2 : keep r r0) by (eapply keep_loop; [apply K1|eassumption]). pose proof (keep_trans _ _ _ K1 K2) as K3. step_of E.
  destruct (f_finseen r0 && (f_fin r0 <=? csn r) && r1) eqn:Ec; [|injection E as <-; exact K3]. rewrite !andb_true_iff in Ec. destruct Ec as ((e1 & e2) & _).
  pose proof (keep_ended _ _ K3 He) as He3. unfold ended in He3. rewrite (keep_csn _ _ K2) in He3. specialize (He3 e1 ltac:(lia)).
  eapply keep_trans; [exact K3|]. unfold close_and_notify in E. cbv zeta in E. unfold close in E. destruct (Z.eqb_spec (f_state r0) RF_OPEN); [contradiction|]. cbv zeta in E.
  destruct (sum_clear frag_size (f_buf r0)) as [b| |]; cbn [rbind] in E; try discriminate.
  assert (K4 : keep r0 (with_closed (with_buf r0 b))) by (constructor; try reflexivity; apply K3). eapply keep_trans; [exact K4|].
  match type of E with (if ?c then _ else _) = _ => destruct c end; [eapply keep_callback; [apply K4|exact E]|injection E as <-; apply keep_refl, K4].
Qed.

Definition J (N : Z) (h : list revent) (f : rf) : Prop :=
  SI h f /\ f_script f = [] /\ f_exc f = 0 /\ f_state f <> RF_REJECTED /\ (f_finseen f = true -> f_fin f = N) /\ ended f.
(** What a well-behaved sender numbers goes up to [N]. *)
Definition upto (N : Z) (e : revent) : Prop :=
  match e with EvData flags seq fsn _ => 1 <= seq <= N /\ 0 <= fsn <= U64MAX /\ (Z.land flags 1 <> 0 -> seq = N) | _ => True end.

Lemma one_range : forall N h f, N < U64MAX -> SI h f -> Forall (upto N) h -> (exists e, In e h /\ exists i, covers e i) -> N <= csn f -> is_count_ranges (f_set f) = 1%nat.
Proof.
  intros N h f HN HS Hu (e & He & i & Hi) Hc.
  assert (Hs : Forall sane h). { eapply Forall_impl; [|exact Hu]. intros x Hx. destruct x; cbn in *; auto. unfold is_u64, U64MAX in *. lia. }
  destruct (set_shape h f HS Hs) as (_ & [E0|(q & s & E0 & E1 & Hcan)]).
  - exfalso. destruct HS as (_ & Hm & _). assert (member (f_set f) i) by (apply Hm; exists e; auto). rewrite E0 in H. apply member_nil in H. exact H.
  - rewrite E0. unfold is_count_ranges. destruct s as [|(a, b) s]; [reflexivity|]. exfalso. destruct Hcan as (c1 & c2 & _).
    assert (Hcov : covered h a). { destruct HS as (_ & Hm & _). apply Hm. rewrite E0. exists (a, b). split; [right; left; reflexivity|]. cbn [r_start r_end fst snd]. lia. }
    destruct Hcov as (x & Hx & Hxa). rewrite Forall_forall in Hu. specialize (Hu x Hx). destruct x as [|fl sq fs d| | | | |]; try contradiction. cbn in Hu, Hxa. destruct Hxa as [->|Hxa]; [lia|].
    destruct (csn_facts h f HS Hs) as (_ & Hn & Hr & _). apply Hn. exists (EvData fl sq fs d). split; [exact Hx|]. right. lia.
Qed.

Lemma J_step : forall N h f e f', N < U64MAX -> J N h f -> Forall (upto N) h -> upto N e -> passive e -> rf_step f e = Ok f' -> J N (h ++ [e]) f'.
Proof.
  intros N h f e f' HN (HS & Hsc & Hex & Hst & Hfin & Hen) Hu He Hp E.
  assert (Quiet : forall g, keep f g -> (forall i, ~ covers e i) -> J N (h ++ [e]) g).
  { intros g Kg Hc. split; [|split; [apply Kg|split; [rewrite (kp_exc _ _ Kg); exact Hex|split; [rewrite (kp_state _ _ Kg); exact Hst|split; [rewrite (kp_seen _ _ Kg), (kp_fin _ _ Kg); exact Hfin|eapply keep_ended; eauto]]]]].
    destruct HS as (S1 & S2 & S3). split; [rewrite (kp_set _ _ Kg); exact S1|]. split.
    - intros i. rewrite (kp_set _ _ Kg), S2, covered_snoc. specialize (Hc i). tauto.
    - rewrite (kp_fwd _ _ Kg), S3, top_fsn_snoc. pose proof (top_fsn_nonneg h). destruct e as [|fl sq fs d| | | | |]; try lia. exfalso. apply (Hc sq). cbn. auto. }
  destruct e as [|flags seq fsn data| |x| | |]; try contradiction; cbn [rf_step] in E.
  - clear Quiet. assert (Hsi : SI (h ++ [EvData flags seq fsn data]) (noted f flags seq fsn)) by (apply SI_data; [exact HS| |]; cbn in He; unfold is_u64, U64MAX in *; lia).
    unfold on_data in E. cbv zeta in E. unfold noted in Hsi. cbv zeta in Hsi.
    set (f1 := if negb (is_contains (f_set f) seq) && negb (Z.land flags FLAG_FIN =? 0) && negb (f_finseen f) then with_final f seq else f) in *.
    set (f3 := with_set _ _) in *. assert (H1 : f_script f1 = [] /\ f_exc f1 = 0 /\ f_state f1 = f_state f /\ (f_finseen f1 = true -> f_fin f1 = N)).
    { unfold f1. match goal with |- context [if ?b then with_final f seq else f] => destruct b eqn:Eb end; cbn; [|auto]. repeat split; auto. intros _. rewrite !andb_true_iff in Eb. destruct Eb as ((_ & e2) & _).
      cbn in He. apply He. destruct (Z.eqb_spec (Z.land flags FLAG_FIN) 0) as [|n]; [discriminate|]. exact n. }
    assert (H3 : f_script f3 = [] /\ f_exc f3 = 0 /\ f_state f3 = f_state f /\ (f_finseen f3 = true -> f_fin f3 = N)).
    { unfold f3. destruct (fsn >? f_fwd f1); cbn; exact H1. }
    clearbody f3. clear H1. step_of E. destruct r as (f4, hint).
    assert (H4 : f_script f4 = [] /\ f_exc f4 = 0 /\ f_state f4 = f_state f /\ (f_finseen f4 = true -> f_fin f4 = N) /\ f_set f4 = f_set f3 /\ f_fwd f4 = f_fwd f3).
    { match type of X with (if ?b then _ else _) = _ => destruct b end; [|injection X as <- _; tauto]. destruct (insert_fragment (f_buf f3) seq flags data) as [(b, hh)| |]; cbn [rbind] in X; try discriminate. injection X as <- _. cbn. tauto. }
    clear H3 X. set (f5 := if f_finseen f4 && (f_state f4 <? RF_COMPLETE_LINGER) && Nat.eqb (is_count_ranges (f_set f4)) 1 then with_state f4 RF_COMPLETE_LINGER else f4) in *.
    destruct H4 as (h1 & h2 & h3 & h4 & h5 & h6).
    assert (Hsi4 : SI (h ++ [EvData flags seq fsn data]) f4). { destruct Hsi as (S1 & S2 & S3). split; [rewrite h5; exact S1|]. split; [intros i; rewrite h5; apply S2|rewrite h6; exact S3]. }
    assert (H5 : f_script f5 = [] /\ f_exc f5 = 0 /\ f_state f5 <> RF_REJECTED /\ (f_finseen f5 = true -> f_fin f5 = N) /\ ended f5 /\ SI (h ++ [EvData flags seq fsn data]) f5).
    { assert (Hone : f_finseen f4 = true -> f_fin f4 <= csn f4 -> is_count_ranges (f_set f4) = 1%nat).
      { intros a1 a2. apply (one_range N (h ++ [EvData flags seq fsn data]) f4 HN Hsi4); [apply Forall_app; split; [exact Hu|constructor; [exact He|constructor]]| |rewrite <- (h4 a1); exact a2].
        eexists. split; [apply in_or_app; right; left; reflexivity|]. exists seq. left. reflexivity. }
      unfold f5. destruct (f_finseen f4 && (f_state f4 <? RF_COMPLETE_LINGER) && Nat.eqb (is_count_ranges (f_set f4)) 1) eqn:El.
      - split; [exact h1|]. split; [exact h2|]. split; [discriminate|]. split; [exact h4|]. split; [intros _ _; discriminate|exact Hsi4].
      - split; [exact h1|]. split; [exact h2|]. split; [rewrite h3; exact Hst|]. split; [exact h4|]. split; [|exact Hsi4]. intros a1 a2. specialize (Hone a1 a2). rewrite a1, Hone in El. cbn in El. rewrite andb_true_r in El. intros a3. rewrite a3 in El. discriminate. }
    clearbody f5. clear h1 h2 h3 h4 h5 h6 Hsi Hsi4. destruct H5 as (h1 & h2 & h3 & h4 & h5 & h6). step_of E. pose proof (keep_try _ _ _ h1 h5 X) as K6.
    step_of E. assert (K7 : keep r r0).
    { match type of X0 with (if ?b then _ else _) = _ => destruct b end; [eapply keep_callback; [apply K6|exact X0]|injection X0 as <-; apply keep_refl, K6]. }
    pose proof (keep_trans _ _ _ K6 K7) as K. injection E as <-.
    match goal with |- J N _ ?g => assert (Kg : keep f5 g) by (destruct K as [k1 k2 k3 k4 k5 k6 k7]; constructor; assumption) end.
    split; [|split; [apply Kg|split; [rewrite (kp_exc _ _ Kg); exact h2|split; [rewrite (kp_state _ _ Kg); exact h3|split; [rewrite (kp_seen _ _ Kg), (kp_fin _ _ Kg); exact h4|eapply keep_ended; eauto]]]]].
    destruct h6 as (S1 & S2 & S3). split; [rewrite (kp_set _ _ Kg); exact S1|]. split; [intros i; rewrite (kp_set _ _ Kg); apply S2|rewrite (kp_fwd _ _ Kg); exact S3].
  - apply Quiet; [eapply keep_try; eauto|auto].
  - destruct x as [r|o'|n|n]; try contradiction; injection E as <-; apply Quiet; auto; constructor; auto.
  - injection E as <-. apply Quiet; auto. constructor; auto.
Qed.

Lemma exc_init : forall f0, rf_init [] = Ok f0 -> f_exc f0 = 0.
Proof.
  intros f0. unfold rf_init. generalize (sum_init frag_blank). intros r. destruct r; cbn [rbind]; intros H; try discriminate. apply Ok_inj in H. subst f0. reflexivity.
Qed.
Lemma J_init : forall N f0, rf_init [] = Ok f0 -> J N [] (with_accepted f0).
Proof.
  intros N f0 Hi. pose proof (exc_init f0 Hi) as Hex. destruct (accept_init []) as (f1 & Ef & A1 & A2 & A3 & A4 & A5 & A6 & A7 & A8 & A9 & A10). rewrite Hi in Ef. apply Ok_inj in Ef. subst f1. clear Hi. unfold J, ended.
  cbn [f_script f_exc f_state f_finseen f_fin with_accepted]. rewrite A9, Hex, A5, A4. split; [|split; [reflexivity|split; [reflexivity|split; [discriminate|split; [discriminate|intros h; discriminate]]]]].
  unfold SI. cbn [f_set f_fwd with_accepted]. rewrite A2, A3. split; [exact Logic.I|]. split; [|reflexivity]. intros i. rewrite member_nil. split; [tauto|]. intros (x & [] & _).
Qed.
Lemma J_run : forall N es h g f, N < U64MAX -> J N h g -> Forall (upto N) h -> Forall (upto N) es -> Forall passive es -> rf_run g es = Ok f -> J N (h ++ es) f.
Proof.
  intros N. induction es as [|e es IH]; intros h g f HN Jg Hh Hu Hp Hr; cbn [rf_run] in Hr; [apply Ok_inj in Hr; subst g; rewrite app_nil_r; exact Jg|]. inversion Hu; inversion Hp; subst.
  destruct (rf_step g e) as [g'| |] eqn:Eg; cbn [rbind] in Hr; try discriminate. replace (h ++ e :: es) with ((h ++ [e]) ++ es) by (rewrite <- app_assoc; reflexivity). apply (IH _ g' f HN); auto.
  - eapply J_step; eauto.
  - apply Forall_app. split; [exact Hh|constructor; [assumption|constructor]].
Qed.
Lemma never_rejects : forall ms es f0 f, well_formed ms -> rf_init [] = Ok f0 -> Forall (conforms (fun i => i = zlen (table ms)) ms) es -> Forall passive es ->
  rf_run f0 (EvAccept :: es) = Ok f -> f_state f <> RF_REJECTED /\ f_exc f = 0.
Proof.
  intros ms es f0 f (Hne & HN) Hi Hes Hp Hr. cbn [rf_run rf_step rbind] in Hr.
  assert (Hu : Forall (upto (zlen (table ms))) es).
  { eapply Forall_impl; [|exact Hes]. intros e He. destruct e as [|fl sq fs d| | | | |]; cbn; auto. destruct He as (fra & dd & e1 & _ & e3 & _ & e5). split; [|auto].
    unfold nth_frag in e1. destruct (Z.leb_spec 1 sq); [|discriminate]. assert (nth_error (table ms) (Z.to_nat (sq - 1)) <> None) by congruence. apply nth_error_Some in H0. unfold zlen. lia. }
  pose proof (J_init (zlen (table ms)) f0 Hi) as J0.
  destruct (J_run _ es [] _ f HN J0 (Forall_nil _) Hu Hp Hr) as (_ & _ & h2 & h3 & _). auto.
Qed.
