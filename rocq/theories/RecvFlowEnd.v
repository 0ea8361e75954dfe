(** RecvFlow with a well-behaved sender: when the application is told that the flow is complete. *)
From Verif Require Import Base BaseFacts IndexSet IndexSetSpec IndexSetProofs LinkedList LinkedListSpec LinkedListProofs SumListFacts RecvFlow RecvFlowSpec RecvFlowProofs RecvFlowAny RecvFlowMsg RecvFlowRun RecvFlowPeer.
Ltac Zify.zify_post_hook ::= Z.div_mod_to_equations.

Definition is_msg (o : out) : Prop := match o with OMsg _ _ _ => True | _ => False end.
Record grow (f f' : rf) : Prop := {
  gr_script : f_script f' = []; gr_order : f_order f' = f_order f; gr_acc : f_accepted f' = f_accepted f; gr_base : f_baseopen f' = f_baseopen f; gr_hooks : f_hooks f' = f_hooks f;
  gr_seen : f_finseen f' = f_finseen f; gr_out : exists l, f_out f' = f_out f ++ l /\ Forall is_msg l }.
Lemma grow_refl : forall f, f_script f = [] -> grow f f.
Proof. intros f H. constructor; auto. exists []. rewrite app_nil_r. split; [reflexivity|constructor]. Qed.
Lemma grow_trans : forall f g h, grow f g -> grow g h -> grow f h.
Proof.
  intros f g h [a1 a2 a3 a4 a5 a6 (l & a7 & a8)] [b1 b2 b3 b4 b5 b6 (m & b7 & b8)]. constructor; try congruence. exists (l ++ m). rewrite b7, a7, app_assoc. split; [reflexivity|apply Forall_app; auto].
Qed.
Lemma grow_same : forall f f', f_script f' = [] -> f_order f' = f_order f -> f_accepted f' = f_accepted f -> f_baseopen f' = f_baseopen f -> f_hooks f' = f_hooks f -> f_finseen f' = f_finseen f -> f_out f' = f_out f -> grow f f'.
Proof. intros. constructor; auto. exists []. rewrite app_nil_r. split; [assumption|constructor]. Qed.
Lemma grow_callback : forall f d s c f', f_script f = [] -> callback f (OMsg d s c) = Ok f' -> grow f f'.
Proof. intros f d s c f' H E. unfold callback in E. rewrite H in E. cbn in E. injection E as <-. constructor; try reflexivity. exists [OMsg d s c]. split; [reflexivity|repeat constructor]. Qed.
Lemma grow_deliver : forall f n f', f_script f = [] -> deliver f n = Ok f' -> grow f f'.
Proof.
  intros f n f' H E. unfold deliver in E. cbv zeta in E. set (f0 := if f_prev_rwnd f <? 2 then with_ack f true else f) in *.
  assert (K0 : grow f f0) by (unfold f0; destruct (_ <? _); apply grow_same; auto). clearbody f0. step_of E. destruct (_ =? _).
  - step_of E. assert (K1 : grow f0 r0). { destruct (f_hooks f0); [eapply grow_callback; [apply K0|eassumption]|injection X0 as <-; apply grow_refl, K0]. }
    step_of E. destruct r1. injection E as <-. eapply grow_trans; [exact K0|]. eapply grow_trans; [exact K1|]. apply grow_same; try reflexivity. apply K1.
  - step_of E. destruct r0. step_of E. destruct r0.
    assert (K1 : grow f0 (with_buf f0 s)) by (apply grow_same; try reflexivity; apply K0). eapply grow_trans; [exact K0|]. eapply grow_trans; [exact K1|].
    destruct (f_hooks (with_buf f0 s)); [eapply grow_callback; [apply K1|exact E]|injection E as <-; apply grow_refl, K1].
Qed.
Lemma grow_loop : forall fuel f c f', f_script f = [] -> delivery_loop fuel f c = Ok f' -> grow f f'.
Proof.
  induction fuel as [|fuel IH]; intros f c f' H E; cbn [delivery_loop] in E; [discriminate|].
  match type of E with (if ?b then _ else _) = _ => destruct b; [|injection E as <-; apply grow_refl, H] end.
  step_of E. step_of E. destruct (_ >? _); [injection E as <-; apply grow_refl, H|].
  assert (KD : forall n, (f1 <- deliver f n;; delivery_loop fuel f1 c) = Ok f' -> grow f f').
  { intros n E'. step_of E'. pose proof (grow_deliver _ _ _ H X1) as K1. eapply grow_trans; [exact K1|]. eapply IH; [apply K1|exact E']. }
  assert (KR : forall n, (' (b, _) <- sum_remove frag_size (f_buf f) n;; delivery_loop fuel (with_buf f b) c) = Ok f' -> grow f f').
  { intros n E'. step_of E'. destruct r1. assert (K1 : grow f (with_buf f s)) by (apply grow_same; try reflexivity; exact H). eapply grow_trans; [exact K1|]. eapply IH; [exact H|exact E']. }
  destruct (_ =? FRA_WHOLE); [eapply KD, E|]. destruct (negb _); [eapply KR, E|]. step_of E. destruct (_ =? FRA_END); [eapply KD, E|]. destruct (_ <? _); [eapply KR, E|]. injection E as <-. apply grow_refl, H.
Qed.
Lemma loop_closed : forall fuel f c f', is_open f = false -> delivery_loop fuel f c = Ok f' -> f' = f.
Proof. intros [|fuel] f c f' H E; cbn [delivery_loop] in E; [discriminate|]. rewrite H, andb_false_r in E. cbn [andb] in E. injection E as <-. reflexivity. Qed.

(** Open, and only messages so far; or completed, with nothing after. *)
Definition EO (f : rf) : Prop := f_script f = [] /\ f_order f = RO_SEQUENCE /\ f_accepted f = true
  /\ ((f_baseopen f = true /\ f_hooks f = true /\ Forall is_msg (f_out f))
      \/ (f_baseopen f = false /\ f_hooks f = false /\ f_finseen f = true /\ exists l, f_out f = l ++ [OComplete false] /\ Forall is_msg l)).
(** Nothing is left to come and nothing is held back. *)
Definition Over (f : rf) : Prop := f_finseen f = true /\ f_fin f <= csn f /\ empty (s_list (f_buf f)) = Ok true.

Lemma eo_try : forall f hint f', EO f -> ended f -> try_delivery f hint = Ok f' -> EO f' /\ (Over f' -> f_baseopen f' = false) /\ f_finseen f' = f_finseen f.
Proof.
  intros f hint f' (H1 & H2 & H3 & H4) He E. pose proof (keep_try _ _ _ H1 He E) as Kt. unfold try_delivery in E. rewrite H2 in E. cbn [order_eqb] in E. rewrite andb_false_r in E. cbn [andb rbind] in E. cbv zeta in E. step_of E.
  pose proof (grow_loop _ _ _ _ H1 X) as G. pose proof (keep_loop _ _ _ _ H1 X) as Kp. step_of E. destruct (f_finseen r && (f_fin r <=? csn f) && r0) eqn:Ec.
  - rewrite !andb_true_iff in Ec. destruct Ec as ((e1 & e2) & _). destruct H4 as [(h1 & h2 & h3)|(h1 & h2 & h3 & l & h4 & h5)].
    + unfold close_and_notify in E. cbv zeta in E. assert (Ho : is_open r = true) by (unfold is_open; rewrite (gr_base _ _ G), (gr_acc _ _ G), h1, H3; reflexivity). rewrite Ho, (gr_hooks _ _ G), h2 in E. cbn [andb] in E.
      step_of E. unfold close in X1. cbv zeta in X1. step_of X1. injection X1 as <-. set (g := if f_state r =? RF_OPEN then with_ack (with_state r RF_REJECTED) true else r) in *.
      assert (Gg : f_script g = [] /\ f_order g = f_order r /\ f_accepted g = f_accepted r /\ f_finseen g = f_finseen r /\ f_out g = f_out r) by (unfold g; destruct (_ =? _); cbn; repeat split; try reflexivity; apply (gr_script _ _ G)).
      clearbody g. destruct Gg as (g1 & g2 & g3 & g4 & g5). unfold callback in E. cbn [f_script f_out with_closed with_buf] in E. rewrite g1 in E. cbn in E. injection E as <-.
      split; [|split; [intros _; reflexivity|cbn; rewrite g4; apply (gr_seen _ _ G)]]. unfold EO. cbn. rewrite g2, g3, g4, g5. split; [reflexivity|]. split; [rewrite (gr_order _ _ G); exact H2|]. split; [rewrite (gr_acc _ _ G); exact H3|]. right.
      split; [reflexivity|]. split; [reflexivity|]. split; [exact e1|]. destruct (gr_out _ _ G) as (l & -> & hl). exists (f_out f ++ l). split; [reflexivity|]. apply Forall_app. auto.
    + unfold close_and_notify in E. cbv zeta in E. assert (r = f) by (eapply loop_closed; [|exact X]; unfold is_open; rewrite h1; reflexivity). subst r. assert (Ho : is_open f = false) by (unfold is_open; rewrite h1; reflexivity). rewrite Ho in E. cbn [andb] in E.
      step_of E. injection E as <-. unfold close in X1. cbv zeta in X1. step_of X1. injection X1 as <-. set (g := if f_state f =? RF_OPEN then with_ack (with_state f RF_REJECTED) true else f) in *.
      assert (Gg : f_script g = [] /\ f_order g = f_order f /\ f_accepted g = f_accepted f /\ f_finseen g = f_finseen f /\ f_out g = f_out f) by (unfold g; destruct (_ =? _); cbn; repeat split; try reflexivity; exact H1).
      clearbody g. destruct Gg as (g1 & g2 & g3 & g4 & g5). split; [|split; [intros _; reflexivity|cbn; exact g4]]. unfold EO. cbn. rewrite g1, g2, g3, g4, g5. split; [reflexivity|]. split; [exact H2|]. split; [exact H3|]. right.
      split; [reflexivity|]. split; [reflexivity|]. split; [exact h3|]. exists l. auto.
  - injection E as <-. split; [|split; [|apply (gr_seen _ _ G)]].
    + destruct G as [a1 a2 a3 a4 a5 a6 (l & a7 & a8)]. unfold EO. rewrite a2, a3, a4, a5, a6. split; [exact a1|]. split; [exact H2|]. split; [exact H3|]. destruct H4 as [(h1 & h2 & h3)|(h1 & h2 & h3 & m & h4 & h5)].
      * left. split; [exact h1|]. split; [exact h2|]. rewrite a7. apply Forall_app. auto.
      * right. assert (r = f) by (eapply loop_closed; [|exact X]; unfold is_open; rewrite h1; reflexivity). subst r. split; [exact h1|]. split; [exact h2|]. split; [exact h3|]. exists m. auto.
    + intros (o1 & o2 & o3). exfalso. rewrite X0 in o3. injection o3 as ->. rewrite (keep_csn _ _ Kp) in o2. rewrite o1 in Ec. cbn [andb] in Ec. rewrite andb_true_r in Ec. lia.
Qed.

(** A sender that marks its last fragment whenever it sends it. *)
Definition tail_marked (N : Z) (e : revent) : Prop := match e with EvData flags seq fsn _ => fsn <= seq <= N /\ (seq = N -> Z.land flags 1 <> 0) | _ => True end.
Definition Z3 (N : Z) (h : list revent) (f : rf) : Prop := EO f /\ (Over f -> f_baseopen f = false) /\ (Forall (tail_marked N) h -> covered h N -> f_finseen f = true)
  /\ (f_finseen f = true -> exists flags seq fsn data, In (EvData flags seq fsn data) h /\ Z.land flags 1 <> 0).

Lemma z3_step : forall N h f e f', N < U64MAX -> J N h f -> Forall (upto N) h -> upto N e -> passive e -> Z3 N h f -> rf_step f e = Ok f' -> Z3 N (h ++ [e]) f'.
Proof.
  intros N h f e f' HN (HS & Hsc & Hex & Hst & Hfin & Hen) Hu He Hp (Z1 & Z2 & Z3' & Z4) E.
  assert (Z5 : f_finseen f = true -> exists flags seq fsn data, In (EvData flags seq fsn data) (h ++ [e]) /\ Z.land flags 1 <> 0) by (intros Hz; destruct (Z4 Hz) as (q1 & q2 & q3 & q4 & q5 & q6); exists q1, q2, q3, q4; split; [apply in_or_app; auto|exact q6]).
  assert (Quiet : (forall i, ~ covers e i) -> forall g, f_finseen g = f_finseen f -> Forall (tail_marked N) (h ++ [e]) -> covered (h ++ [e]) N -> f_finseen g = true).
  { intros Hc g Hg Ht Hcov. rewrite Hg. apply Forall_app in Ht. apply Z3'; [apply Ht|]. apply covered_snoc in Hcov. destruct Hcov as [Hcov|Hcov]; [exact Hcov|destruct (Hc _ Hcov)]. }
  destruct e as [|flags seq fsn data| |x| | |]; try contradiction; cbn [rf_step] in E.
  - clear Quiet. assert (Hsi : SI (h ++ [EvData flags seq fsn data]) (noted f flags seq fsn)) by (apply SI_data; [exact HS| |]; cbn in He; unfold is_u64, U64MAX in *; lia).
    unfold on_data in E. cbv zeta in E. unfold noted in Hsi. cbv zeta in Hsi.
    set (f1 := if negb (is_contains (f_set f) seq) && negb (Z.land flags FLAG_FIN =? 0) && negb (f_finseen f) then with_final f seq else f) in *.
    set (f3 := with_set _ _) in *.
    assert (H1 : EO f1 /\ (f_finseen f1 = true -> f_fin f1 = N) /\ (f_finseen f = true -> f_finseen f1 = true) /\ (is_contains (f_set f) seq = false -> Z.land flags 1 <> 0 -> f_finseen f1 = true) /\ (f_finseen f1 = true -> f_finseen f = true \/ Z.land flags 1 <> 0)).
    { unfold f1. match goal with |- context [if ?b then with_final f seq else f] => destruct b eqn:Eb end.
      - rewrite !andb_true_iff in Eb. destruct Eb as ((_ & e2) & e3). split; [|split; [|split; [reflexivity|split; [reflexivity|right; unfold FLAG_FIN in e2; intros c0; rewrite c0 in e2; discriminate]]]].
        + destruct Z1 as (a1 & a2 & a3 & a4). split; [exact a1|]. split; [exact a2|]. split; [exact a3|]. destruct a4 as [a4|(b1 & b2 & b3 & b4)]; [left; exact a4|right]. split; [exact b1|]. split; [exact b2|]. split; [reflexivity|exact b4].
        + intros _. cbn. apply He. destruct (Z.eqb_spec (Z.land flags FLAG_FIN) 0) as [|n]; [discriminate|]. exact n.
      - split; [exact Z1|]. split; [exact Hfin|]. split; [auto|]. split; [|auto]. intros a1 a2. rewrite a1 in Eb. cbn [negb andb] in Eb. unfold FLAG_FIN in Eb. destruct (Z.eqb_spec (Z.land flags 1) 0); [contradiction|]. cbn [negb andb] in Eb. apply negb_false_iff in Eb. exact Eb. }
    assert (H3 : EO f3 /\ (f_finseen f3 = true -> f_fin f3 = N) /\ f_finseen f3 = f_finseen f1).
    { unfold f3. destruct (fsn >? f_fwd f1); (split; [apply H1|split; [apply H1|reflexivity]]). }
    destruct H1 as (_ & _ & Hm1 & Hm2 & Hm3). clearbody f3. step_of E. destruct r as (f4, hint).
    assert (H4 : EO f4 /\ (f_finseen f4 = true -> f_fin f4 = N) /\ f_finseen f4 = f_finseen f1 /\ f_set f4 = f_set f3 /\ f_fwd f4 = f_fwd f3).
    { match type of X with (if ?b then _ else _) = _ => destruct b end; [|injection X as <- _; tauto]. destruct (insert_fragment (f_buf f3) seq flags data) as [(b, hh)| |]; cbn [rbind] in X; try discriminate. injection X as <- _. cbn. tauto. }
    clear H3 X. set (f5 := if f_finseen f4 && (f_state f4 <? RF_COMPLETE_LINGER) && Nat.eqb (is_count_ranges (f_set f4)) 1 then with_state f4 RF_COMPLETE_LINGER else f4) in *.
    destruct H4 as (h1 & h4 & h2 & h5 & h6).
    assert (Hsi4 : SI (h ++ [EvData flags seq fsn data]) f4). { destruct Hsi as (S1 & S2 & S3). split; [rewrite h5; exact S1|]. split; [intros i; rewrite h5; apply S2|rewrite h6; exact S3]. }
    assert (H5 : EO f5 /\ f_finseen f5 = f_finseen f1 /\ ended f5).
    { assert (Hone : f_finseen f4 = true -> f_fin f4 <= csn f4 -> is_count_ranges (f_set f4) = 1%nat).
      { intros a1 a2. apply (one_range N (h ++ [EvData flags seq fsn data]) f4 HN Hsi4); [apply Forall_app; split; [exact Hu|constructor; [exact He|constructor]]| |rewrite <- (h4 a1); exact a2].
        eexists. split; [apply in_or_app; right; left; reflexivity|]. exists seq. left. reflexivity. }
      unfold f5. destruct (f_finseen f4 && (f_state f4 <? RF_COMPLETE_LINGER) && Nat.eqb (is_count_ranges (f_set f4)) 1) eqn:El.
      - split; [exact h1|]. split; [exact h2|]. intros _ _; discriminate.
      - split; [exact h1|]. split; [exact h2|]. intros a1 a2. specialize (Hone a1 a2). rewrite a1, Hone in El. cbn in El. rewrite andb_true_r in El. intros a3. rewrite a3 in El. discriminate. }
    clearbody f5. clear h1 h2 h4 h5 h6 Hsi Hsi4. destruct H5 as (h1 & h2 & h3). step_of E. destruct (eo_try _ _ _ h1 h3 X) as (t1 & t2 & t3).
    step_of E. assert (r0 = r) as ->. { destruct t1 as (_ & o2 & _). rewrite o2 in X0. cbn [order_eqb] in X0. rewrite !andb_false_r in X0. cbn [andb] in X0. injection X0 as <-. reflexivity. }
    injection E as <-. split; [exact t1|]. split; [exact t2|]. split; [|cbn; rewrite t3, h2; intros Hz; destruct (Hm3 Hz) as [Hz1|Hz1]; [exact (Z5 Hz1)|exists flags, seq, fsn, data; split; [apply in_or_app; right; left; reflexivity|exact Hz1]]]. intros Ht Hc. cbn. rewrite t3, h2. apply Forall_app in Ht. destruct Ht as (Ht & Ht2). inversion Ht2 as [|? ? Ht3 _]; subst. cbn in Ht3. cbn in He.
    destruct (is_contains (f_set f) N) eqn:EN; [apply Hm1, Z3'; auto; apply (proj1 (proj2 HS)), is_contains_member, EN|]; assert (Hd : ~ covered h N) by (intros Hd; apply (proj1 (proj2 HS)), is_contains_member in Hd; congruence). apply covered_snoc in Hc. destruct Hc as [Hc|Hc]; [contradiction|]. assert (seq = N) by (cbn in Hc; lia). apply Hm2; [subst seq; exact EN|apply Ht3; exact H].
  - destruct (eo_try _ _ _ Z1 Hen E) as (t1 & t2 & t3). split; [exact t1|]. split; [exact t2|]. split; [apply Quiet; auto|rewrite t3; exact Z5].
  - destruct x as [r|o'|n|n]; try contradiction; injection E as <-; (split; [exact Z1|split; [exact Z2|split; [apply Quiet; auto|exact Z5]]]).
  - injection E as <-. split; [exact Z1|split; [exact Z2|split; [apply Quiet; auto|exact Z5]]].
Qed.

Lemma z3_init : forall N f0, rf_init [] = Ok f0 -> Z3 N [] (with_accepted f0).
Proof.
  intros N f0 Hi. destruct (accept_init []) as (f1 & Ef & A1 & A2 & A3 & A4 & A5 & A6 & A7 & A8 & A9 & A10). rewrite Hi in Ef. apply Ok_inj in Ef. subst f1. clear Hi. unfold Z3, EO, Over.
  cbn [f_script f_order f_accepted f_baseopen f_hooks f_out f_finseen with_accepted]. rewrite A9, A7, A6, A8, A4, A10. split; [|split; [intros (h & _); discriminate|split; [intros _ (e & [] & _)|discriminate]]].
  split; [reflexivity|]. split; [reflexivity|]. split; [reflexivity|]. left. split; [reflexivity|]. split; [reflexivity|constructor].
Qed.
Lemma z3_run : forall N es h g f, N < U64MAX -> J N h g -> Z3 N h g -> Forall (upto N) h -> Forall (upto N) es -> Forall passive es -> rf_run g es = Ok f -> Z3 N (h ++ es) f.
Proof.
  intros N. induction es as [|e es IH]; intros h g f HN Jg Zg Hh Hu Hp Hr; cbn [rf_run] in Hr; [apply Ok_inj in Hr; subst g; rewrite app_nil_r; exact Zg|]. inversion Hu; inversion Hp; subst.
  destruct (rf_step g e) as [g'| |] eqn:Eg; cbn [rbind] in Hr; try discriminate. replace (h ++ e :: es) with ((h ++ [e]) ++ es) by (rewrite <- app_assoc; reflexivity). apply (IH _ g' f HN); auto.
  - eapply J_step; eauto.
  - eapply z3_step; eauto.
  - apply Forall_app. split; [exact Hh|constructor; [assumption|constructor]].
Qed.
Lemma conforms_upto : forall (fin : Z -> Prop) ms e, (forall i, fin i -> i = zlen (table ms)) -> conforms fin ms e -> upto (zlen (table ms)) e.
Proof.
  intros fin ms e Hf He. destruct e as [|fl sq fs d| | | | |]; cbn; auto. destruct He as (fra & dd & e1 & _ & e3 & _ & e5). split; [|auto].
  unfold nth_frag in e1. destruct (Z.leb_spec 1 sq); [|discriminate]. assert (nth_error (table ms) (Z.to_nat (sq - 1)) <> None) by congruence. apply nth_error_Some in H0. unfold zlen. lia.
Qed.
Lemma end_last : forall ms y, Eof ms y = true -> y <= Nof ms.
Proof.
  intros ms y H. unfold Eof, nth_frag in H. destruct (1 <=? y); [|discriminate]. destruct (nth_error (table ms) (Z.to_nat (y - 1))) as [q|] eqn:En; [|discriminate].
  assert (Hl : (Z.to_nat (y - 1) < length (table ms))%nat) by (apply nth_error_Some; congruence). unfold Nof, zlen. lia.
Qed.

(** The application is told that the flow is complete once, last, and only when everything is accounted for; and it is told as soon as that is so. *)
Lemma recv_end : forall ms es f0 f, well_formed ms -> rf_init [] = Ok f0 -> Forall (conforms (fun i => i = zlen (table ms)) ms) es -> Forall passive es -> rf_run f0 (EvAccept :: es) = Ok f ->
  ((Forall is_msg (f_out f) \/ exists l, f_out f = l ++ [OComplete false] /\ Forall is_msg l /\ (forall i, 1 <= i <= zlen (table ms) -> covered es i)
      /\ exists flags seq fsn data, In (EvData flags seq fsn data) es /\ Z.land flags 1 <> 0))
  /\ (Forall (tail_marked (zlen (table ms))) es -> 1 <= zlen (table ms) -> (forall i, 1 <= i <= zlen (table ms) -> covered es i) -> exists l, f_out f = l ++ [OComplete false]).
Proof.
  intros ms es f0 f (Hne & HN) Hi Hes Hp Hr. destruct (table_facts ms Hne) as (T1 & T2 & T3 & T4).
  assert (Hu : Forall (upto (zlen (table ms))) es) by (eapply Forall_impl; [|exact Hes]; intros e; apply conforms_upto; auto).
  cbn [rf_run rf_step rbind] in Hr. pose proof (z3_run _ es [] _ f HN (J_init _ f0 Hi) (z3_init _ f0 Hi) (Forall_nil _) Hu Hp Hr) as (Z1 & Z2 & Z3' & Z4). pose proof (J_run _ es [] _ f HN (J_init _ f0 Hi) (Forall_nil _) Hu Hp Hr) as (HS & _).
  cbn [app] in *.
  destruct (accept_init []) as (f1 & Ef & A1 & A2 & A3 & A4 & A5 & A6 & A7 & A8 & A9 & A10). rewrite Hi in Ef. apply Ok_inj in Ef. subst f1.
  assert (Hc : Forall (cev (Eof ms) (dof ms) (Nof ms)) es) by (eapply Forall_impl; [|exact Hes]; intros e; apply conforms_cev; exact Hne).
  assert (Hf : Forall (fin_last (Nof ms)) es) by (eapply Forall_impl; [|exact Hes]; intros e; apply conforms_fin).
  destruct (run_exact (Eof ms) (dof ms) (Nof ms) HN T4 RO_SEQUENCE es [] (with_accepted f0) [] []) as (f' & a' & D' & Er & HX); auto; [discriminate|apply XI_init; auto; split; auto|].
  rewrite Hr in Er. apply Ok_inj in Er. subst f'. cbn [app] in HX. destruct HX as (HW & _ & HK & _ & _ & _ & Xfin & Xopen & _ & Xst & _).
  assert (Hs : Forall sane es) by exact (Forall_impl _ (cev_sane (Eof ms) (dof ms) (Nof ms) HN) Hc).
  destruct Z1 as (_ & _ & _ & Z1). split.
  - destruct Z1 as [(_ & _ & Z1)|(b1 & _ & b3 & l & b4 & b5)]; [left; exact Z1|right]. exists l. split; [exact b4|]. split; [exact b5|]. split; [|exact (Z4 b3)]. destruct Xopen as [Xo|(Xo & _)]; [congruence|exact Xo].
  - intros Ht HN1 Hall. destruct Z1 as [(b1 & _ & _)|(b1 & _ & _ & l & b4 & _)]; [|exists l; exact b4]. exfalso.
    enough (f_baseopen f = false) by congruence. apply Z2. assert (Hfs : f_finseen f = true) by (apply Z3'; [exact Ht|apply Hall; lia]).
    destruct (csn_facts es f HS Hs) as (_ & Hn & Hrg & _).
    assert (Hcs : zlen (table ms) <= csn f). { destruct (Z.lt_ge_cases (csn f) (zlen (table ms))) as [Hlt|Hge]; [|exact Hge]. exfalso. apply Hn. apply Hall. lia. }
    split; [exact Hfs|]. split; [rewrite (Xfin Hfs); exact Hcs|].
    destruct HW as ((B1 & _ & _ & B4 & _) & _).
    assert (Hrange : forall i, has a' i -> 1 <= i <= Nof ms) by (intros i h; exact (got_range (Eof ms) (dof ms) (Nof ms) es i Hc (B4 i h))).
    assert (a' = []) as ->.
    { destruct Xst as [Xst|(n & g & a1 & -> & Xst)]; [exact Xst|exfalso]. destruct Xst as [Xst|(_ & y & (r1 & r2 & _) & Ey & Xst)].
      - assert (has ((n, g) :: a1) (g_seq g)) by (left; reflexivity). specialize (Hrange _ H). unfold Nof in Hrange. lia.
      - assert (Hy : has ((n, g) :: a1) y) by (apply r2; lia). specialize (Hrange y Hy). unfold Nof in Hrange. assert (y = zlen (table ms)) by lia. subst y.
        destruct (T4 (zlen (table ms)) ltac:(unfold Nof; lia)) as (u & v & (_ & _ & M3 & _) & Huv). pose proof (end_last ms v M3) as Hv. unfold Nof in Hv. assert (v = zlen (table ms)) by lia. congruence. }
    rewrite (SL_empty _ _ _ _ B1). reflexivity.
Qed.
