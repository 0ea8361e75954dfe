(** Proofs about RTWebSocket flows: both ends and what is between them. *)
From Verif Require Import Base BaseFacts VLU VLUSpec VLUProofs RTWS RTWSSpec RTWSProofs RTWSRecv.
Open Scope res_scope.

Lemma sees_same : forall f f' st, sees f st -> f_hello f' = f_hello f -> f_closed f' = f_closed f -> (forall v, SV f v -> SV f' v) -> sees f' st.
Proof.
  intros f f' st H E C S. unfold sees in *. rewrite E, C. destruct (f_hello f).
  - destruct H as (H1 & H2 & H3). auto.
  - destruct H as (v & H1 & H2). exists v. auto.
Qed.
Lemma vstep_end : forall ms v, v_end v = true -> fold_left vstep ms (VLive v) <> VErr -> ms = [].
Proof.
  intros [|m ms] v E H; [reflexivity|]. exfalso. apply H. cbn [fold_left]. replace (vstep (VLive v) m) with VErr; [apply vstep_err|].
  destruct m; cbn; rewrite ?E; reflexivity.
Qed.
Lemma sees_err : forall f, sees f VErr -> False.
Proof. intros f H. unfold sees in H. destruct (f_hello f); [destruct H; discriminate|destruct H as (v & H & _); discriminate]. Qed.

Section Y.
Variables (id : Z) (ret : option Z) (meta : list Z).
Hypothesis Hid : is_u64 id.
Hypothesis Hret : match ret with Some r => is_u64 r | None => True end.
Hypothesis Hmeta : bytes_ok meta.
Let enc := encf id ret meta.
Definition sizes (ms : list fm) : Z := fold_right (fun m a => size id ret meta m + a) 0 ms.
Lemma sizes_app : forall a b, sizes (a ++ b) = sizes a + sizes b.
Proof. induction a as [|m a IH]; intros b; [reflexivity|]. cbn [List.app sizes fold_right]. fold (sizes (a ++ b)). fold (sizes a). rewrite IH. lia. Qed.

Definition link (q : bool) (y : sys) (ms : list fm) (X : Z) (st : vst) : Prop :=
  match y_r y with
  | None => y_in y = false /\ y_back y = [] /\ y_gone y = false /\ X = 0 /\ f_avail (y_s y) = 65536 /\ fold_left vstep ms VNew = st
  | Some r => exists v pre, y_in y = negb (v_end v) /\ y_back y = map (encb id) pre /\ Forall bok pre /\ RI id true (y_gone y) pre (f_avail (y_s y)) X v r /\ PD r /\ (q = true -> g_out r = []) /\
      fold_left vstep ms (VLive v) = st
  end.
Record INV (q : bool) (y : sys) : Prop := {
  i_bad : y_bad y = false;
  i_id : f_id (y_s y) = id;
  i_hello : f_hello (y_s y) = None \/ f_hello (y_s y) = Some (enc_open id ret meta);
  i_u : is_u64 (f_sent (y_s y)) /\ is_u64 (f_acked (y_s y)) /\ is_u64 (f_avail (y_s y));
  i_through : f_through (y_s y) = wrap64 (f_acked (y_s y) + f_avail (y_s y));
  i_rest : exists ms X st, y_fwd y = map enc ms /\ Forall fok ms /\ sees (y_s y) st /\ wrap64 (f_acked (y_s y) + X + sizes ms) = f_sent (y_s y) /\ link q y ms X st }.

Lemma init_inv : INV true (sys0 id ret meta).
Proof.
  split; cbn; auto; [unfold is_u64, U64MAX; lia|]. exists [], 0, VNew. cbn. repeat split; auto; try discriminate; cbn; auto; try lia; try (exists []; auto; fail).
  all: try (intros n x E; discriminate E).
Qed.

(** the messages of the receiver go to the connection *)
Lemma settle_inv : forall y, INV false y -> INV true (settle y).
Proof.
  intros y [I1 I2 I3 I4 I5 (ms & X & st & A1 & A2 & A3 & A4 & A5)]. unfold settle, link in *. destruct (y_r y) as [r|] eqn:R.
  - destruct A5 as (v & pre & B1 & B2 & B3 & B4 & B5 & _ & B6). split; cbn; auto. exists ms, X, st. unfold link. cbn. repeat (split; [assumption|]).
    destruct B4 as [H1 H2 H3 H4 H5 H6 H7 H8 H9 H10 (outs & O1 & O2 & O3 & O4 & O5 & O6 & O7)].
    exists v, (pre ++ outs). rewrite map_app, <- B2, <- O1. split; [exact B1|]. split; [reflexivity|]. split; [apply Forall_app; auto|].
    split; [|split; [exact B5|auto]]. split; cbn; auto. exists []. rewrite app_nil_r. cbn. auto 10.
  - split; auto. exists ms, X, st. unfold link. rewrite R. auto 10.
Qed.
Lemma weaken : forall y, INV true y -> INV false y.
Proof.
  intros y [I1 I2 I3 I4 I5 (ms & X & st & A1 & A2 & A3 & A4 & A5)]. split; auto. exists ms, X, st. repeat (split; [assumption|]). unfold link in *. destruct (y_r y); [|exact A5].
  destruct A5 as (v & pre & B1 & B2 & B3 & B4 & B5 & _ & B6). exists v, pre. repeat (split; [assumption|]). split; [discriminate|exact B6].
Qed.
(** the sender alone *)
Lemma s_inv : forall q y f, INV q y -> f_id f = f_id (y_s y) -> f_hello f = f_hello (y_s y) -> f_closed f = f_closed (y_s y) -> f_sent f = f_sent (y_s y) -> f_acked f = f_acked (y_s y) -> f_avail f = f_avail (y_s y) -> f_through f = f_through (y_s y) ->
  (forall v, SV (y_s y) v -> SV f v) -> INV q (with_s y f).
Proof.
  intros q y f [I1 I2 I3 I4 I5 (ms & X & st & A1 & A2 & A3 & A4 & A5)] E1 E2 E3 E4 E5 E6 E7 S. split; cbn; rewrite ?E1, ?E2, ?E4, ?E5, ?E6, ?E7; auto.
  exists ms, X, st. repeat (split; [assumption|]). split; [apply (sees_same (y_s y)); auto|]. split; [exact A4|]. unfold link in *. cbn. rewrite E6. exact A5.
Qed.
(** the receiver alone *)
Lemma r_inv : forall y g, INV true y -> (forall gone pre dflt X v r, RI id true gone pre dflt X v r -> PD r -> RI id true gone pre dflt X v (g r) /\ PD (g r)) -> INV false (on_r g y).
Proof.
  intros y g I0 G. unfold on_r. destruct (y_r y) as [r|] eqn:R; [|apply weaken; exact I0]. destruct I0 as [I1 I2 I3 I4 I5 (ms & X & st & A1 & A2 & A3 & A4 & A5)]. split; cbn; auto.
  exists ms, X, st. repeat (split; [assumption|]). unfold link in *. rewrite R in A5. cbn. destruct A5 as (v & pre & B1 & B2 & B3 & B4 & B5 & _ & B6). destruct (G _ _ _ _ _ _ B4 B5) as [G1 G2].
  exists v, pre. repeat (split; [assumption|]). split; [discriminate|exact B6].
Qed.
Lemma wr3 : forall a b c, wrap64 (wrap64 (a + b) + c) = wrap64 (a + b + c).
Proof. intros. apply wrap_add_l. Qed.
Lemma transmit_inv : forall y chunk, INV true y -> few y -> is_u64 chunk -> INV false (let '(o, f) := s_transmit chunk (y_s y) in let y := with_s y f in match o with Some m => mkY (y_s y) (y_gone y) (y_fwd y ++ [m]) (y_r y) (y_in y) (y_back y) (y_bad y) | None => y end).
Proof.
  intros y chunk I0 F C. pose proof I0 as [I1 I2 I3 I4 I5 (ms & X & st & A1 & A2 & A3 & A4 & A5)]. destruct (s_transmit chunk (y_s y)) as [o f] eqn:T. cbv zeta.
  assert (W : zlen (f_written (y_s y)) < 2 ^ 64) by (unfold few in F; lia).
  (* one more message *)
  assert (P : forall t st', o = Some (enc t) -> fok t -> kept (y_s y) f -> f_hello f = None -> sees f st' -> vstep st t = st' -> f_sent f = wrap64 (f_sent (y_s y) + size id ret meta t) ->
    INV false (mkY f (y_gone y) (y_fwd y ++ [enc t]) (y_r y) (y_in y) (y_back y) (y_bad y))).
  { intros t st' _ FT (K1 & K2 & K3 & K4 & K5 & K6 & K7) HN S' VS ST. split; cbn; auto; rewrite ?K1, ?K4, ?K5, ?K6, ?HN, ?ST; auto.
    { split; [apply u64_wrap|apply I4]. }
    exists (ms ++ [t]), X, st'. split; [rewrite A1, map_app; reflexivity|]. split; [apply Forall_app; auto|]. split; [exact S'|].
    split; [rewrite sizes_app, <- A4, wrap_add_l; cbn [sizes fold_right]; f_equal; lia|]. unfold link in *. cbn. rewrite K6. destruct (y_r y).
    - destruct A5 as (v & pre & B1 & B2 & B3 & B4 & B5 & _ & B6). exists v, pre. repeat (split; [assumption|]). split; [discriminate|]. rewrite fold_left_app, B6. exact VS.
    - destruct A5 as (B1 & B2 & B3 & B4 & B5 & B6). repeat (split; [assumption|]). rewrite fold_left_app, B6. exact VS. }
  unfold sees in A3. destruct (f_hello (y_s y)) as [h|] eqn:H.
  - destruct I3 as [I3|I3]; [discriminate I3|]. injection I3 as ->. destruct A3 as (-> & S0 & CL). unfold s_transmit in T. rewrite H in T. injection T as <- <-. cbn [with_s y_s y_gone y_fwd y_r y_in y_back y_bad].
    apply (P FOpen (VLive v0)); try reflexivity; cbn; auto.
    + unfold kept. cbn. auto 10.
    + exists v0. split; [reflexivity|]. apply (sv_same (y_s y)); cbn; auto.
    + rewrite Z.add_0_r. symmetry. unfold wrap64. apply Z.mod_small. unfold is_u64, U64MAX in I4. lia.
  - destruct A3 as (v & -> & S0). destruct (transmit_sv id ret meta _ v chunk o f S0 I2 H W C (proj1 I4) T) as (HN & K & Q). destruct o as [m|].
    + destruct Q as (t & v' & -> & FT & VS & S' & ST). cbn [with_s y_s y_gone y_fwd y_r y_in y_back y_bad]. apply (P t (VLive v')); auto. unfold sees. rewrite HN. exists v'. auto.
    + destruct Q as (S' & ST). apply weaken. destruct K as (K1 & K2 & K3 & K4 & K5 & K6 & K7).
      split; cbn; rewrite ?K1, ?K4, ?K5, ?K6, ?ST, ?HN; auto. exists ms, X, (VLive v). repeat (split; [assumption|]). split; [unfold sees; rewrite HN; exists v; auto|]. split; [exact A4|]. unfold link in *. cbn. rewrite K6. exact A5.
Qed.
Lemma receive_inv : forall y assoc acts m q, INV true y -> Forall ok_act acts -> y_fwd y = m :: q -> INV false (on_fwd assoc acts m (mkY (y_s y) (y_gone y) q (y_r y) (y_in y) (y_back y) (y_bad y))).
Proof.
  intros y assoc acts m q [I1 I2 I3 I4 I5 (ms & X & st & A1 & A2 & A3 & A4 & A5)] FA E. rewrite E in A1. destruct ms as [|t ms]; [discriminate A1|]. injection A1 as -> ->. inversion_clear A2 as [|? ? FT A2'].
  assert (NE : st <> VErr) by (intros ->; exact (sees_err _ A3)). cbn [sizes fold_right] in A4. fold (sizes ms) in A4. unfold link in A5. unfold on_fwd, enc.
  destruct (y_r y) as [r|] eqn:R; cbn [y_r y_in].
  - destruct A5 as (v & pre & B1 & B2 & B3 & B4 & B5 & B6 & B7). cbn [fold_left] in B7.
    assert (NV : vstep (VLive v) t <> VErr) by (intros Q; rewrite Q, vstep_err in B7; congruence).
    destruct t as [|more b|k|]; cbn [encf] in *; cbn [vstep] in NV, B7; [contradiction| | |]; (destruct (v_end v) eqn:VE; [contradiction|]); cbn [negb] in B1.
    + rewrite parse_data by assumption. rewrite B1, (ri_id _ _ _ _ _ _ _ _ B4), Z.eqb_refl. cbn [andb with_r].
      split; cbn [y_r y_in y_back y_gone y_s y_fwd y_bad with_s with_r s_ack f_avail f_id f_hello f_sent f_acked f_through]; auto. exists ms, (wrap64 (X + zlen (enc_data more id b))), st. split; [reflexivity|]. split; [exact A2'|]. split; [exact A3|].
      split; [rewrite <- A4; cbn [size encf]; rewrite <- Z.add_assoc, (Z.add_comm (wrap64 _)), Z.add_assoc, wrap_add_r; f_equal; lia|].
      unfold link. cbn [y_r y_in y_back y_gone y_s y_fwd y_bad with_s with_r s_ack f_avail f_id f_hello f_sent f_acked f_through]. exists (vdata more b v), pre. assert (VE' : v_end (vdata more b v) = false) by (unfold vdata; destruct (v_part v) as [[? ?]|]; destruct more; exact VE). rewrite VE'. cbn [negb].
      split; [first [reflexivity|exact B1]|]. split; [exact B2|]. split; [exact B3|]. split; [apply data_ri; [exact B4|exact VE|apply zlen_nonneg]|]. split; [apply data_pd; [exact B5|rewrite (ri_end _ _ _ _ _ _ _ _ B4); exact VE]|]. split; [discriminate|exact B7].
    + rewrite parse_abandon by assumption. rewrite B1, (ri_id _ _ _ _ _ _ _ _ B4), Z.eqb_refl. cbn [andb with_r].
      assert (C0 : g_complete r = false) by (rewrite (ri_end _ _ _ _ _ _ _ _ B4); exact VE).
      split; cbn [y_r y_in y_back y_gone y_s y_fwd y_bad with_s with_r s_ack f_avail f_id f_hello f_sent f_acked f_through]; auto. exists ms, X, st. split; [reflexivity|]. split; [exact A2'|]. split; [exact A3|]. split; [rewrite <- A4; cbn [size]; f_equal; lia|].
      unfold link. cbn [y_r y_in y_back y_gone y_s y_fwd y_bad with_s with_r s_ack f_avail f_id f_hello f_sent f_acked f_through]. exists (vabandon k v), pre. change (v_end (vabandon k v)) with (v_end v). rewrite VE. cbn [negb].
      split; [first [reflexivity|exact B1]|]. split; [exact B2|]. split; [exact B3|]. split; [apply abandon_ri; [exact B4|apply (ri_endpart _ _ _ _ _ _ _ _ B4)|exact FT|left; apply (done_0 _ _ _ _ _ _ _ _ B4 C0)]|]. split; [apply abandon_pd; assumption|]. split; [discriminate|exact B7].
    + rewrite parse_close by assumption. rewrite B1, (ri_id _ _ _ _ _ _ _ _ B4), Z.eqb_refl. cbn [andb].
      split; cbn [y_r y_in y_back y_gone y_s y_fwd y_bad with_s with_r s_ack f_avail f_id f_hello f_sent f_acked f_through]; auto. exists ms, X, st. split; [reflexivity|]. split; [exact A2'|]. split; [exact A3|]. split; [rewrite <- A4; cbn [size]; f_equal; lia|].
      unfold link. cbn [y_r y_in y_back y_gone y_s y_fwd y_bad with_s with_r s_ack f_avail f_id f_hello f_sent f_acked f_through]. exists (vclose v), pre. split; [reflexivity|]. split; [exact B2|]. split; [exact B3|]. split; [apply closed_ri; assumption|]. split; [apply closed_pd|]. split; [discriminate|exact B7].
  - destruct A5 as (B1 & B2 & B3 & -> & B5 & B6). cbn [fold_left] in B6.
    assert (NV : vstep VNew t <> VErr) by (intros Q; rewrite Q, vstep_err in B6; congruence). destruct t; try contradiction. cbn [encf vstep] in *.
    rewrite parse_open by assumption. rewrite B1. split; cbn [y_r y_in y_back y_gone y_s y_fwd y_bad with_s with_r s_ack f_avail f_id f_hello f_sent f_acked f_through]; auto. exists ms, 0, st. split; [reflexivity|]. split; [exact A2'|]. split; [exact A3|]. split; [rewrite <- A4; cbn [size]; f_equal; lia|].
    unfold link. cbn [y_r y_in y_back y_gone y_s y_fwd y_bad with_s with_r s_ack f_avail f_id f_hello f_sent f_acked f_through]. exists v0, []. rewrite B2, B3, B5. destruct (opened_ri id ret assoc acts FA) as [O1 O2]. split; [reflexivity|]. split; [reflexivity|]. split; [constructor|]. split; [exact O1|]. split; [exact O2|]. split; [discriminate|exact B6].
Qed.
Lemma exception_fields : forall f, let g := s_exception f in f_id g = f_id f /\ f_hello g = f_hello f /\ f_closed g = f_closed f /\ f_sent g = f_sent f /\ f_through g = f_through f /\ f_acked g = f_acked f /\ f_avail g = f_avail f /\ f_written g = f_written f.
Proof. intros f. unfold s_exception. cbv zeta. match goal with |- context [s_trim ?x] => destruct (trim_fields x) as (T1 & T2 & T3 & T4 & T5 & T6 & T7 & T8 & T9 & T10) end. rewrite T1, T3, T4, T6, T7, T8, T9, T10. cbn. auto 10. Qed.
Lemma answer_inv : forall y m q, INV true y -> few y -> y_back y = m :: q -> INV false (on_back m (mkY (y_s y) (y_gone y) (y_fwd y) (y_r y) (y_in y) q (y_bad y))).
Proof.
  intros y m q [I1 I2 I3 I4 I5 (ms & X & st & A1 & A2 & A3 & A4 & A5)] F E. unfold link in A5.
  destruct (y_r y) as [r|] eqn:R; [|destruct A5 as (_ & B2 & _); congruence].
  destruct A5 as (v & pre & B1 & B2 & B3 & B4 & B5 & B6 & B7). rewrite E in B2. destruct pre as [|t pre]; [discriminate B2|]. injection B2 as -> ->. inversion_clear B3 as [|? ? BT B3'].
  pose proof B4 as B4'. destruct B4' as [H1 H2 H3 H4 H5 H6 H7 H8 H9 H10 (outs & O1 & O2 & O3 & O4 & O5 & O6 & O7)].
  assert (outs = []) as -> by (rewrite (B6 eq_refl) in O1; destruct outs; [reflexivity|discriminate O1]). rewrite app_nil_r in *.
  assert (G : y_gone y = false). { unfold bars in O3. destruct (g_closeack r); [|apply O3]. destruct (y_gone y); [discriminate O3|reflexivity]. }
  unfold on_back. rewrite G, ?I2. cbn [y_gone y_s negb andb].
  destruct t as [d a|reason desc|]; cbn [encb] in *.
  - destruct BT as [BD BA]. rewrite parse_ack by assumption. rewrite I2, Z.eqb_refl. cbn [andb with_s].
    split; cbn [y_r y_in y_back y_gone y_s y_fwd y_bad with_s with_r s_ack f_avail f_id f_hello f_sent f_acked f_through]; auto.
    { split; [apply I4|]. split; [apply u64_wrap|exact BA]. }
    exists ms, (wrap64 (sumd pre + g_rcvd r)), st. split; [exact A1|]. split; [exact A2|].
    split; [apply (sees_same (y_s y)); auto; intros; apply ack_sv; assumption|].
    split. { rewrite <- A4, <- O4. cbn [sumd]. unfold wrap64. rewrite <- (Zplus_mod_idemp_l (_ mod _ + _ mod _)), <- Zplus_mod, Zplus_mod_idemp_l. rewrite <- (Zplus_mod_idemp_l (f_acked _ + _ mod _)), Zplus_mod_idemp_r, Zplus_mod_idemp_l. f_equal. lia. }
    unfold link. cbn [y_r y_in y_back y_gone y_s y_fwd y_bad with_s with_r s_ack f_avail f_id f_hello f_sent f_acked f_through]. exists v, pre. split; [exact B1|]. split; [reflexivity|]. split; [exact B3'|]. split; [|split; [exact B5|split; [discriminate|exact B7]]].
    split; auto. exists []. rewrite app_nil_r. split; [exact O1|]. split; [constructor|]. split.
    { rewrite G in O3. unfold bars in *. destruct (g_closeack r); [destruct O3 as (l' & L1 & L2); destruct l' as [|z l']; [discriminate L1|]; injection L1 as _ L1; inversion_clear L2; exists l'; auto|destruct O3 as [_ L]; inversion_clear L; auto]. }
    split; [reflexivity|]. split; [exact O5|]. split; [exact O6|exact O7].
  - destruct BT as [BD BA]. rewrite parse_exc by assumption. rewrite I2, Z.eqb_refl. cbn [andb with_s].
    destruct (exception_fields (y_s y)) as (E1 & E2 & E3 & E4 & E5 & E6 & E7 & E8).
    split; cbn [y_r y_in y_back y_gone y_s y_fwd y_bad with_s with_r s_ack f_avail f_id f_hello f_sent f_acked f_through]; rewrite ?E1, ?E2, ?E4, ?E5, ?E6, ?E7; auto. exists ms, X, st. split; [exact A1|]. split; [exact A2|].
    split; [apply (sees_same (y_s y)); auto; intros; apply exception_sv; [assumption|unfold few in F; lia]|]. split; [exact A4|].
    unfold link. cbn [y_r y_in y_back y_gone y_s y_fwd y_bad with_s with_r s_ack f_avail f_id f_hello f_sent f_acked f_through]. rewrite E7. exists v, pre. split; [exact B1|]. split; [reflexivity|]. split; [exact B3'|]. split; [|split; [exact B5|split; [discriminate|exact B7]]].
    split; auto. exists []. rewrite app_nil_r. split; [exact O1|]. split; [constructor|]. split.
    { rewrite G in O3. unfold bars in *. destruct (g_closeack r); [destruct O3 as (l' & L1 & L2); destruct l' as [|z l']; [discriminate L1|]; injection L1 as _ L1; inversion_clear L2; exists l'; auto|destruct O3 as [_ L]; inversion_clear L; auto]. }
    split; [exact O4|]. split; [exact O5|]. split; [exact O6|exact O7].
  - rewrite parse_closeack by assumption. rewrite I2, Z.eqb_refl. cbn [andb].
    assert (CA : g_closeack r = true /\ pre = []).
    { unfold bars in O3. rewrite G in O3. destruct (g_closeack r); [split; [reflexivity|]|destruct O3 as [_ L]; inversion_clear L; congruence].
      destruct O3 as (l' & L1 & L2). destruct l' as [|z l']; [injection L1 as ->; reflexivity|]. injection L1 as <- _. inversion_clear L2. congruence. }
    destruct CA as [CA ->].
    destruct (H9 CA) as [CC R0]. assert (VE : v_end v = true) by congruence.
    assert (NE : st <> VErr) by (intros ->; exact (sees_err _ A3)).
    assert (ms = []) as -> by (apply (vstep_end ms v VE); congruence). cbn [fold_left] in B7. subst st.
    assert (FO : f_open (y_s y) = false).
    { unfold sees in A3. destruct (f_hello (y_s y)); [destruct A3; discriminate|]. destruct A3 as (v' & EV & S). injection EV as <-. apply (sv_closed _ _ S). rewrite <- (sv_end _ _ S). exact VE. }
    rewrite FO. cbn [negb]. split; cbn [y_r y_in y_back y_gone y_s y_fwd y_bad with_s with_r s_ack f_avail f_id f_hello f_sent f_acked f_through]; auto. exists [], X, (VLive v). split; [exact A1|]. split; [constructor|]. split; [exact A3|]. split; [exact A4|].
    unfold link. cbn [y_r y_in y_back y_gone y_s y_fwd y_bad with_s with_r s_ack f_avail f_id f_hello f_sent f_acked f_through]. exists v, []. split; [exact B1|]. split; [reflexivity|]. split; [constructor|]. split; [|split; [exact B5|split; [discriminate|reflexivity]]].
    split; auto. exists []. split; [exact O1|]. split; [constructor|]. split; [unfold bars; rewrite CA; reflexivity|]. split; [exact O4|]. split; [exact O5|]. split; [exact O6|exact O7].
Qed.
Lemma step_inv : forall y o, INV true y -> ok_op o -> few y -> INV true (step y o).
Proof.
  intros y o I0 OK F. assert (W : zlen (f_written (y_s y)) < 2 ^ 64) by (unfold few in F; lia). unfold step. apply settle_inv.
  destruct o as [m|n| | |chunk|assoc acts|cbs|a| | |].
  - apply weaken, s_inv; auto; try (unfold s_write; destruct (f_open (y_s y)); reflexivity). intros v S. apply write_sv; [exact S|apply OK|apply OK].
  - apply weaken, s_inv; auto. intros v S. apply drop_sv. exact S.
  - apply weaken, s_inv; auto. intros v S. apply close_sv. exact S.
  - destruct (trim_fields (y_s y)) as (T1 & T2 & T3 & T4 & T5 & T6 & T7 & T8 & T9 & T10). apply weaken, s_inv; auto. intros v S. apply trim_sv; assumption.
  - apply transmit_inv; assumption.
  - destruct (y_fwd y) as [|m q] eqn:E; [apply weaken; exact I0|]. apply receive_inv; assumption.
  - apply r_inv; [exact I0|]. intros. destruct (g_pending r); [|auto]. apply deliver_ri; [reflexivity|assumption|exact OK].
  - apply r_inv; [exact I0|]. intros. split; [apply act_ri; assumption|apply act_pd; assumption].
  - apply r_inv; [exact I0|]. intros gone pre dflt X v r H P. split; [apply acknow_ri; assumption|apply (same_pd r _ P); cbn; auto].
  - apply r_inv; [exact I0|]. intros. split; [apply send_acks_ri; assumption|apply send_acks_pd; assumption].
  - destruct (y_back y) as [|m q] eqn:E; [apply weaken; exact I0|]. apply answer_inv; assumption.
Qed.
Lemma fragment_written : forall c f, f_written (snd (s_fragment c f)) = f_written f.
Proof. intros c f. unfold s_fragment. destruct (f_buf f); [reflexivity|]. cbv zeta. destruct (_ =? 0); reflexivity. Qed.
Lemma transmit_written : forall c f, f_written (snd (s_transmit c f)) = f_written f.
Proof.
  intros c f. unfold s_transmit. destruct (f_hello f); [reflexivity|]. cbv zeta. destruct (trim_fields f) as (T1 & T2 & T3 & T4 & T5 & T6 & T7 & T8 & T9 & T10).
  destruct (_ >? 0); [exact T10|]. destruct (_ && negb _); [exact T10|]. destruct (_ >=? _); [exact T10|]. rewrite fragment_written. exact T10.
Qed.
Lemma settle_s : forall y, y_s (settle y) = y_s y.
Proof. intros y. unfold settle. destruct (y_r y); reflexivity. Qed.
Lemma written_grows : forall y o, zlen (f_written (y_s y)) <= zlen (f_written (y_s (step y o))).
Proof.
  intros y o. unfold step. rewrite settle_s. destruct o as [m|n| | |chunk|assoc acts|cbs|a| | |]; cbn [with_s y_s]; try lia; try (unfold on_r; destruct (y_r y); cbn; lia).
  - unfold s_write. destruct (f_open (y_s y)); cbn; [|lia]. rewrite zlen_app. pose proof (zlen_nonneg _ [m]). lia.
  - destruct (trim_fields (y_s y)) as (T1 & T2 & T3 & T4 & T5 & T6 & T7 & T8 & T9 & T10). rewrite T10. lia.
  - pose proof (transmit_written chunk (y_s y)) as T. destruct (s_transmit chunk (y_s y)) as [[x|] f]; cbn in *; rewrite T; lia.
  - destruct (y_fwd y); [lia|]. unfold on_fwd. repeat match goal with |- context [match ?x with _ => _ end] => destruct x; cbn; try lia end.
  - destruct (y_back y); [lia|]. unfold on_back. cbv zeta. destruct (exception_fields (y_s y)) as (E1 & E2 & E3 & E4 & E5 & E6 & E7 & E8). destruct (parse l) as [[]| |]; cbn; try lia; match goal with |- context [if ?x then _ else _] => destruct x end; cbn; try lia; rewrite E8; lia.
Qed.
Lemma run_few : forall l y, few (run l y) -> few y.
Proof. induction l as [|o l IH]; intros y H; [exact H|]. specialize (IH (step y o) H). unfold few in *. pose proof (written_grows y o). lia. Qed.
Lemma run_inv : forall l y, INV true y -> Forall ok_op l -> few (run l y) -> INV true (run l y).
Proof.
  induction l as [|o l IH]; intros y I0 F W; [exact I0|]. inversion_clear F. change (run (o :: l) y) with (run l (step y o)) in *. apply IH; [|assumption|exact W].
  apply step_inv; [exact I0|assumption|]. pose proof (run_few l _ W) as W'. unfold few in *. pose proof (written_grows y o). lia.
Qed.
Lemma reach : forall l, Forall ok_op l -> few (run l (sys0 id ret meta)) -> INV true (run l (sys0 id ret meta)).
Proof. intros l F W. apply run_inv; [apply init_inv|exact F|exact W]. Qed.
End Y.
