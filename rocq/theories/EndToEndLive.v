(** A bound flow can always get everything across. *)
From Verif Require Import Base BaseFacts VLU VLUSpec VLUProofs Packet PacketSpec PacketProofs UserData UserDataSpec UserDataProofs IndexSet IndexSetSpec IndexSetProofs LinkedList LinkedListSpec LinkedListProofs SumListFacts RecvFlow RecvFlowSpec RecvFlowAny RecvFlowMsg RecvFlowRun RecvFlowPeer RecvFlowEnd Ack AckSpec AckProofs WriteReceipt SendFlow SendFlowSpec SendFlowProofs SendFlowInv SendFlowSteps SendFlowRun SendFlowTrack SendFlowOps SendFlowRel SendFlowEnd SendFlowLive EndToEnd EndToEndSpec EndToEndProofs EndToEndEnd.
Ltac Zify.zify_post_hook ::= Z.div_mod_to_equations.
Open Scope res_scope.

(** ** The receiver's settings *)
Record sets (f f' : rf) : Prop := { st_script : f_script f' = []; st_cap : f_cap f' = f_cap f; st_win : f_win f' = f_win f; st_order : f_order f' = f_order f }.
Lemma sets_refl : forall f, f_script f = [] -> sets f f.
Proof. intros. constructor; auto. Qed.
Lemma sets_trans : forall f g h, sets f g -> sets g h -> sets f h.
Proof. intros f g h [a1 a2 a3 a4] [b1 b2 b3 b4]. constructor; congruence. Qed.
Lemma sets_callback : forall f o f', f_script f = [] -> callback f o = Ok f' -> sets f f'.
Proof. intros f o f' H E. unfold callback in E. rewrite H in E. cbn in E. injection E as <-. constructor; reflexivity. Qed.
Lemma sets_deliver : forall f n f', f_script f = [] -> deliver f n = Ok f' -> sets f f'.
Proof.
  intros f n f' H E. unfold deliver in E. cbv zeta in E. set (f0 := if f_prev_rwnd f <? 2 then RecvFlow.with_ack f true else f) in *.
  assert (K0 : sets f f0) by (unfold f0; destruct (_ <? _); constructor; auto). clearbody f0. step_of E. destruct (_ =? _).
  - step_of E. assert (K1 : sets f0 r0). { destruct (f_hooks f0); [eapply sets_callback; [apply K0|eassumption]|injection X0 as <-; apply sets_refl, K0]. }
    step_of E. destruct r1. injection E as <-. eapply sets_trans; [exact K0|]. eapply sets_trans; [exact K1|]. constructor; try reflexivity. apply K1.
  - step_of E. destruct r0. step_of E. destruct r0.
    assert (K1 : sets f0 (RecvFlow.with_buf f0 s)) by (constructor; try reflexivity; apply K0). eapply sets_trans; [exact K0|]. eapply sets_trans; [exact K1|].
    destruct (f_hooks (RecvFlow.with_buf f0 s)); [eapply sets_callback; [apply K1|exact E]|injection E as <-; apply sets_refl, K1].
Qed.
Lemma sets_loop : forall fuel f c f', f_script f = [] -> delivery_loop fuel f c = Ok f' -> sets f f'.
Proof.
  induction fuel as [|fuel IH]; intros f c f' H E; cbn [delivery_loop] in E; [discriminate|].
  match type of E with (if ?b then _ else _) = _ => destruct b; [|injection E as <-; apply sets_refl, H] end.
  step_of E. step_of E. destruct (_ >? _); [injection E as <-; apply sets_refl, H|].
  assert (KD : forall n, (f1 <- deliver f n;; delivery_loop fuel f1 c) = Ok f' -> sets f f').
  { intros n E'. step_of E'. pose proof (sets_deliver _ _ _ H X1) as K1. eapply sets_trans; [exact K1|]. eapply IH; [apply K1|exact E']. }
  assert (KR : forall n, (' (b, _) <- sum_remove frag_size (f_buf f) n;; delivery_loop fuel (RecvFlow.with_buf f b) c) = Ok f' -> sets f f').
  { intros n E'. step_of E'. destruct r1. assert (K1 : sets f (RecvFlow.with_buf f s)) by (constructor; try reflexivity; exact H). eapply sets_trans; [exact K1|]. eapply IH; [exact H|exact E']. }
  destruct (_ =? FRA_WHOLE); [eapply KD, E|]. destruct (negb _); [eapply KR, E|]. step_of E. destruct (_ =? FRA_END); [eapply KD, E|]. destruct (_ <? _); [eapply KR, E|]. injection E as <-. apply sets_refl, H.
Qed.
Lemma sets_try : forall f hint f', f_script f = [] -> try_delivery f hint = Ok f' -> sets f f'.
Proof.
  intros f hint f' H E. unfold try_delivery in E. step_of E.
  assert (K1 : sets f r). { match type of X with (if ?b then _ else _) = _ => destruct b end; [eapply sets_deliver; eauto|injection X as <-; apply sets_refl, H]. }
  cbv zeta in E. step_of E. assert (K2 : sets r r0) by (eapply sets_loop; [apply K1|eassumption]). pose proof (sets_trans _ _ _ K1 K2) as K3. step_of E.
  match type of E with (if ?b then _ else _) = _ => destruct b; [|injection E as <-; exact K3] end.
  eapply sets_trans; [exact K3|]. unfold close_and_notify in E. cbv zeta in E. unfold close in E. set (g := if f_state r0 =? RF_OPEN then _ else _) in *.
  assert (K4 : sets r0 g) by (unfold g; destruct (_ =? _); constructor; try reflexivity; apply K3). cbv zeta in E. clearbody g. destruct (sum_clear frag_size (f_buf g)) as [b| |]; cbn [rbind] in E; try discriminate.
  assert (K5 : sets g (RecvFlow.with_closed (RecvFlow.with_buf g b))) by (constructor; try reflexivity; apply K4). eapply sets_trans; [exact K4|]. eapply sets_trans; [exact K5|].
  match type of E with (if ?c then _ else _) = _ => destruct c end; [eapply sets_callback; [apply K5|exact E]|injection E as <-; apply sets_refl, K5].
Qed.
Lemma sets_data : forall f flags seq fsn data f', f_script f = [] -> on_data f flags seq fsn data = Ok f' -> sets f f'.
Proof.
  intros f flags seq fsn data f' H E. unfold on_data in E. cbv zeta in E. set (f1 := if negb (is_contains (f_set f) seq) && _ && _ then RecvFlow.with_final f seq else f) in *.
  assert (K1 : sets f f1) by (unfold f1; destruct (_ && _); constructor; auto). clearbody f1. set (f2 := if fsn >? f_fwd f1 then RecvFlow.with_fwd f1 fsn else f1) in *.
  assert (K2 : sets f f2) by (eapply sets_trans; [exact K1|]; unfold f2; destruct (_ >? _); constructor; try reflexivity; apply K1). clearbody f2. set (f3 := RecvFlow.with_set f2 _) in *.
  assert (K3 : sets f f3) by (eapply sets_trans; [exact K2|]; constructor; try reflexivity; apply K2). clearbody f3. step_of E. destruct r as (f4, hint).
  assert (K4 : sets f f4).
  { eapply sets_trans; [exact K3|]. match type of X with (if ?b then _ else _) = _ => destruct b end; [|injection X as <- _; apply sets_refl, K3]. destruct (insert_fragment (f_buf f3) seq flags data) as [(b, hh)| |]; cbn [rbind] in X; try discriminate. injection X as <- _. constructor; try reflexivity; apply K3. }
  clear X. set (f5 := if f_finseen f4 && (f_state f4 <? RF_COMPLETE_LINGER) && Nat.eqb (is_count_ranges (f_set f4)) 1 then RecvFlow.with_state f4 RF_COMPLETE_LINGER else f4) in *.
  assert (K5 : sets f f5) by (eapply sets_trans; [exact K4|]; unfold f5; destruct (_ && _ && _); constructor; try reflexivity; apply K4). clearbody f5.
  step_of E. assert (K6 : sets f r) by (eapply sets_trans; [exact K5|]; eapply sets_try; [apply K5|eassumption]).
  step_of E. assert (K7 : sets f r0) by (eapply sets_trans; [exact K6|]; match type of X0 with (if ?b then _ else _) = _ => destruct b end; [eapply sets_callback; [apply K6|exact X0]|injection X0 as <-; apply sets_refl, K6]).
  injection E as <-. destruct K7 as [k1 k2 k3 k4]. constructor; assumption.
Qed.
Lemma sets_events : forall us f f', f_script f = [] -> rf_run f (map ev_of us) = Ok f' -> sets f f'.
Proof.
  induction us as [|u us IH]; intros f f' H E; cbn [map rf_run] in E; [injection E as <-; apply sets_refl, H|]. destruct (rf_step f (ev_of u)) as [g| |] eqn:X; cbn [rbind] in E; try discriminate.
  apply sets_data in X; [|exact H]. eapply sets_trans; [exact X|]. eapply IH; [apply X|exact E].
Qed.
Lemma plain_run : forall es f f' o, Forall passive es -> f_script f = [] -> f_order f = o -> rf_run f es = Ok f' -> f_script f' = [] /\ f_order f' = o.
Proof.
  induction es as [|e es IH]; intros f f' o Hp Hs Ho E; cbn [rf_run] in E; [injection E as <-; auto|]. inversion Hp as [|? ? p1 p2]. subst. destruct (rf_step f e) as [g| |] eqn:X; cbn [rbind] in E; try discriminate.
  assert (G : f_script g = [] /\ f_order g = f_order f).
  { destruct e as [|fl sq fs d| |a| | |]; try contradiction; cbn [rf_step] in X.
    - apply sets_data in X; [|exact Hs]. split; apply X.
    - apply sets_try in X; [|exact Hs]. split; apply X.
    - destruct a; try contradiction; injection X as <-; cbn; auto.
    - injection X as <-. cbn. auto. }
  destruct G as (G1 & G2). eapply (IH g); eauto.
Qed.
Lemma recv_plain : forall h r, Forall passive h -> (exists f0, rf_init [] = Ok f0 /\ rf_run f0 (EvAccept :: h) = Ok r) -> f_script r = [] /\ f_order r = RO_SEQUENCE.
Proof.
  intros h r Hp (f0 & i1 & i2). destruct (accept_init []) as (f1 & j1 & j2). rewrite i1 in j1. apply Ok_inj in j1. subst f1. destruct j2 as (_ & _ & _ & _ & _ & _ & o & _ & sc & _). cbn [rf_run rf_step rbind] in i2. eapply plain_run; [exact Hp| | |exact i2]; [exact sc|exact o].
Qed.
Lemma advertise_pos : forall f, 0 < f_cap f -> 0 < f_win f -> f_order f = RO_SEQUENCE -> 1 <= advertise f.
Proof.
  intros f H1 H2 H3. unfold advertise. rewrite H3. cbv zeta. set (bl := wrap64 _ / 1024). assert (0 <= bl) by (apply Z.div_pos; [unfold wrap64; apply Z.mod_pos_bound; lia|lia]).
  destruct (Z.eqb_spec bl 0); cbn [andb]; [|lia]. rewrite !Z.gtb_ltb. destruct (Z.ltb_spec 0 (f_cap f)); [|lia]. destruct (Z.ltb_spec 0 (f_win f)); [|lia]. cbn. lia.
Qed.

(** ** An acknowledgement fits an empty packet *)
Lemma open_chunk_fits : forall p cap done fg t pieces, R p (mkA cap done None fg) -> Forall is_piece pieces -> zlen done + 3 + zlen (pieces_bytes pieces) <= cap -> exists p', open_chunk p t pieces = Ok (p', true).
Proof.
  intros p cap done fg t pieces HR Hp Hfit. unfold open_chunk. destruct (R_start p _ t HR) as (p1 & E & HR1). rewrite E. cbn [rbind]. cbn [a_step] in *.
  assert (Hb : a_bytes (mkA cap done None fg) = done) by (unfold a_bytes; cbn [a_done a_open]; apply app_nil_r). rewrite Hb in *. cbn [a_cap a_flag] in *. pose proof (zlen_nonneg _ (pieces_bytes pieces)).
  destruct (Z.leb_spec (zlen done + 3) cap); [|lia]. cbn [fst snd] in *.
  assert (Hb1 : zlen (a_bytes (mkA cap done (Some (t, [])) fg)) = zlen done + 3) by (unfold a_bytes; cbn [a_done a_open]; rewrite zlen_app; reflexivity).
  destruct (R_pushes pieces p1 _ HR1 Hp) as (p2 & [(_ & E2 & _)|(Hno & E2 & _)]); rewrite E2; exists p2; [reflexivity|]. rewrite Hb1 in Hno. cbn [a_cap] in Hno. lia.
Qed.
Lemma ack_fits : forall p done fg f flow p' f' ok, R p (mkA 1200 done None fg) -> zlen done <= 1100 -> is_u64 flow -> 0 <= csn f <= U64MAX -> f_state f <> RF_REJECTED -> assemble_ack p f flow true None = Ok (p', f', ok) -> ok = true.
Proof.
  intros p done fg f flow p' f' ok HR Hd Hf Hc Hst E. unfold assemble_ack in E. cbv zeta in E. cbn [rbind negb] in E. destruct (Z.eqb_spec (f_state f) RF_REJECTED); [contradiction|]. cbn [rbind negb] in E.
  assert (Hps : Forall is_piece [OpPushVLU flow; OpPushVLU (advertise f); OpPushVLU (csn f)]) by (repeat constructor; try apply Hf; try apply advertise_u64; apply Hc).
  destruct (open_chunk_fits p 1200 done fg CHUNK_ACK_RANGES _ HR Hps) as (p3 & E3).
  { cbn [pieces_bytes flat_map piece_bytes]. rewrite !zlen_app. change (zlen (@nil Z)) with 0. pose proof (vlu_len flow 10 Hf ltac:(lia) ltac:(unfold is_u64, U64MAX in *; lia)). pose proof (advertise_u64 f) as Ha. pose proof (vlu_len (advertise f) 10 Ha ltac:(lia) ltac:(unfold is_u64, U64MAX in *; lia)). pose proof (vlu_len (csn f) 10 Hc ltac:(lia) ltac:(unfold is_u64, U64MAX in *; lia)). lia. }
  rewrite E3 in E. cbn [rbind negb] in E. destruct (ack_ranges p3 (csn f) (f_set f)) as [(p4, tr)| |]; cbn [rbind] in E; try discriminate. rewrite andb_false_r in E. destruct (pa_commit p4); cbn [rbind] in E; try discriminate. congruence.
Qed.

(** ** What a packet of flow [fi] says *)
Definition says (id : Z) (ws : list wchunk) (p : nat * list Z) : Prop :=
  forall k pp us, Z.of_nat k < 65538 -> parse_packet always (snd p ++ repeat 255 k) (fst p) = Ok pp -> ud_packet None (h_chunks pp) = Ok us ->
  Forall (fun u => u_flow u = id) us /\ forall x, In x ws -> exists u, In u us /\ u_seq u = fr_seq (x_frame x) /\ u_fsn u = x_fsn x.
Lemma sent_says : forall A B s fi gone buf margin flags ts tse onames s' v, Full s -> TI s -> w_bound (wget s fi) = true -> send_packet s fi gone buf margin flags ts tse onames = Ok (s', Some v) ->
  prims A B s s' -> exists ws, s_wire s' = s_wire s ++ ws /\ says (w_id (wget s fi)) ws (margin, v).
Proof.
  intros A B s fi gone buf margin flags ts tse onames s' v HF T Hb E P. pose proof (packet_prims A B s fi gone buf margin flags ts tse onames HF) as H. rewrite E in H.
  destruct H as (_ & ws & fsn & W1 & W2 & W3 & W4 & W5 & _). exists ws. split; [exact W1|]. destruct ws as [|x0 ws0] eqn:Ews; [discriminate|]. rewrite <- Ews in *. assert (W3' : v = firstn margin buf ++ header_bytes flags ts tse ++ chunks_bytes (ud_list (w_id (wget s fi)) fsn (if gone then [] else w_opts (wget s fi)) true 0 (map x_frame ws))) by (rewrite Ews in *; congruence). subst v.
  assert (Hne : ws <> []) by (rewrite Ews; discriminate). assert (Hx0 : In x0 ws) by (rewrite Ews; left; reflexivity). clear Ews.
  pose proof (prims_full _ _ _ _ P HF) as HF'. pose proof (prims_ti _ _ _ _ P HF T) as T'. destruct (header_fits_inv _ _ _ _ _ W4) as (Hz & Hm & Hf & Ht & Hte).
  assert (Hin : forall x, In x ws -> In x (s_wire s')) by (intros x Hx; rewrite W1; apply in_or_app; auto). rewrite Forall_forall in W2.
  assert (Hfo : forall x, In x ws -> frame_ok fsn (x_frame x) /\ is_u64 fsn).
  { intros x Hx. destruct (ti_wire _ T' x (Hin x Hx)) as [w1 w2 (abn & fin & w3 & _) w6]. destruct (fu_frag _ HF' _ w1) as (_ & g1 & g2 & g3). destruct (W2 x Hx) as (_ & <-). rewrite w3. unfold frame_ok. cbn [fr_flags fr_seq fr_data].
    unfold is_u64 in *. split; [|lia]. split; [exists (SendFlow.g_fra (gget s' (x_frag x))), (flag abn 2), (flag fin 1); split; [exact g1|]; split; [destruct abn; cbn; auto|]; split; [destruct fin; cbn; auto|reflexivity]|]. split; [exact g3|]. split; [lia|exact g2]. }
  destruct (Hfo x0 Hx0) as (_ & Hfsn). assert (Hfr : Forall (frame_ok fsn) (map x_frame ws)) by (rewrite Forall_forall; intros f Hi; apply in_map_iff in Hi; destruct Hi as (x & <- & Hi); apply Hfo, Hi).
  assert (Hu : exists u, sup_ok u /\ (if gone then [] else w_opts (wget s fi)) = sup_bytes u) by (destruct gone; [exists None; split; [exact Logic.I|reflexivity]|apply (ti_opts _ T)]).
  destruct Hu as (u & Hu & Eu). rewrite Eu in *. pose proof (fi_id _ _ (fu_fi _ HF fi) Hb) as Hid. assert (Hid' : is_u64 (w_id (wget s fi))) by (unfold is_u64, U64MAX, LONG_MAX in *; lia).
  set (cs := ud_list (w_id (wget s fi)) fsn (sup_bytes u) true 0 (map x_frame ws)) in *. pose proof (ud_list_ok (map x_frame ws) _ fsn u true 0 Hid' Hfsn Hu Hfr) as HH. fold cs in HH.
  assert (Hok : Forall chunk_ok cs).
  { rewrite Forall_forall in *. intros c Hc. destruct (HH c Hc). split; [|split]; auto. pose proof (chunks_fit _ _ Hc). cbv beta iota in W5. rewrite !zlen_app in W5. pose proof (zlen_nonneg _ (header_bytes flags ts tse)). pose proof (zlen_nonneg _ (firstn margin buf)). lia. }
  intros k pp us Hk E1 E2. cbn [fst snd] in E1. rewrite <- !app_assoc in E1. pose proof (parse_packet_roundtrip always (firstn margin buf) flags ts tse cs k Hf Ht Hte Hok Hk eq_refl) as Hp. cbv zeta in Hp.
  rewrite firstn_length_le in Hp by lia. assert (Ep : pp = _) by (apply Ok_inj; rewrite <- E1; exact Hp). subst pp. cbn [h_chunks] in E2.
  assert (Eus : us = received_all (w_id (wget s fi)) fsn u (map x_frame ws)) by (apply Ok_inj; rewrite <- E2; apply (ud_packet_list (map x_frame ws) _ fsn u true 0 None); auto; discriminate).
  subst us. destruct ws as [|x1 ws]; [congruence|]. cbn [map received_all]. split.
  - constructor; [reflexivity|]. rewrite Forall_forall. intros uu Hi. apply in_map_iff in Hi. destruct Hi as (f & <- & Hi). reflexivity.
  - intros x [<- | Hx]; [exists (received (w_id (wget s fi)) fsn u (x_frame x1)); split; [left; reflexivity|]; split; [reflexivity|]; cbn; symmetry; apply W2; left; reflexivity|].
    exists (received (w_id (wget s fi)) fsn None (x_frame x)). split; [right; apply in_map, in_map, Hx|]. split; [reflexivity|]. cbn. symmetry. apply W2. right. exact Hx.
Qed.

(** ** The acknowledgement the receiver can send now *)
Lemma header_short : forall flags ts tse, zlen (header_bytes flags ts tse) <= 5.
Proof. intros. unfold header_bytes. destruct (ts >=? 0), (tse >=? 0); cbn; lia. Qed.
Lemma ack_now : forall s fi held h r buf margin flags ts tse id, YS s fi held h -> (exists f0, rf_init [] = Ok f0 /\ rf_run f0 (EvAccept :: h) = Ok r) -> Forall passive h -> Forall (from s fi) h ->
  header_fits buf margin flags ts tse = true -> Z.of_nat margin <= 1000 -> 0 < id <= LONG_MAX ->
  exists p0 p r' pp pl ka, pa_init_header buf margin flags ts tse = Ok p0 /\ assemble_ack p0 r id true None = Ok (p, r', true) /\ rf_step r EvAck = Ok r'
    /\ parse_packet always (pa_to_vector p ++ repeat 255 0) margin = Ok pp /\ h_chunks pp = [(81, pl)] /\ bytes_ok pl /\ ack_parse pl = Ok ka /\ fits_ack (EvAccept :: h) r id true ka.
Proof.
  intros s fi held h r buf margin flags ts tse id H (f0 & i1 & i2) Hp Hf Hh Hm Hid.
  destruct (conf s fi held h (ys_full _ _ _ _ H) (ys_ti _ _ _ _ H) (ys_mi _ _ _ _ H) Hf) as (ms & ms' & _ & _ & _ & _ & c1 & c2 & c3).
  destruct (never_rejects ms' h f0 r c1 i1 c2 Hp i2) as (n1 & n2). destruct (header_fits_inv _ _ _ _ _ Hh) as (hz & hm & hf & ht & hte).
  assert (Hs : Forall sane (EvAccept :: h)) by (constructor; [exact Logic.I|exact c3]).
  assert (Hid' : is_u64 id) by (unfold is_u64, U64MAX, LONG_MAX in *; lia).
  destruct (ack_truthful_bytes buf margin flags ts tse [] [] (EvAccept :: h) f0 r id true None hf ht hte hm ltac:(lia) (Forall_nil _) i1 Hs i2) as (p0 & p1 & bs & p2 & f' & ok & a1 & a2 & a3 & a4); auto.
  - lia.
  - rewrite n2. unfold is_u64, U64MAX. lia.
  - cbn in a2. apply Ok_inj in a2. injection a2 as <- <-. destruct (R_init_header buf margin flags ts tse hf ltac:(unfold U64MAX; lia) hm) as (p & He & HR). rewrite a1 in He. apply Ok_inj in He. subst p. rewrite hz in HR.
    destruct (set_shape (EvAccept :: h) r (run_SI _ _ _ _ i1 Hs i2) Hs) as (Hc & _).
    assert (ok = true). { eapply ack_fits; [exact HR| |exact Hid'|exact Hc|exact n1|exact a3]. rewrite zlen_app. unfold zlen at 1. rewrite firstn_length_le by lia. pose proof (header_short flags ts tse). lia. }
    subst ok. destruct (a4 always 0%nat ltac:(cbn; lia) eq_refl) as (pp & pl & ka & b1 & b2 & b3 & b4 & b5).
    exists p0, p2, f', pp, pl, ka. split; [exact a1|]. split; [exact a3|]. split; [eapply ack_flow; exact a3|]. split; [exact b1|]. split; [|split; [exact b3|]; split; [exact b4|exact b5]].
    rewrite b2. cbn [PacketSpec.added app]. unfold ack_before. unfold RF_REJECTED in n1. destruct (Z.eqb_spec (f_state r) 1); [contradiction|]. reflexivity.
Qed.

(** ** The invariant *)
Record YL (fi : nat) (y : world) : Prop := {
  yl_e : YE fi y; yl_lt : LT (y_s y); yl_ids : IDS (y_s y);
  yl_rx : y_id y = None -> (fi < length (s_flows (y_s y)))%nat -> 0 < w_rxbuf (wget (y_s y) fi);
  yl_acks : y_id y = None -> y_acks y = [];
  yl_bound : w_bound (wget (y_s y) fi) = true -> Forall (says (w_id (wget (y_s y) fi)) []) (y_net y) /\ forall i, y_id y = Some i -> i = w_id (wget (y_s y) fi);
  yl_new : w_bound (wget (y_s y) fi) = false -> w_state (wget (y_s y) fi) = FS_OPEN \/ (length (s_flows (y_s y)) <= fi)%nat -> y_net y = [] /\ y_id y = None }.

Lemma says_nil : forall id ws p, says id ws p -> says id [] p.
Proof. intros id ws p H k pp us h1 h2 h3. split; [apply (H k pp us h1 h2 h3)|]. intros x []. Qed.
Lemma send_part_net : forall fi s o s' pk A B, Full s -> TI s -> sstep s o = Ok s' -> prims A B s s' -> send_part fi s o = Ok (s', pk) -> (w_bound (wget s fi) = false -> pk = []) /\ Forall (says (w_id (wget s fi)) []) pk.
Proof.
  intros fi s o s' pk A B HF T Es P E. assert (Plain : rbind (sstep s o) (fun s' => Ok (s', @nil (nat * list Z))) = Ok (s', pk) -> (w_bound (wget s fi) = false -> pk = []) /\ Forall (says (w_id (wget s fi)) []) pk).
  { rewrite Es. cbn [rbind]. intros X. apply Ok_inj in X. injection X as <-. auto. }
  destruct o; try exact (Plain E). clear Plain. cbn [send_part] in E. destruct (send_packet s fi0 gone buf margin flags ts tse onames) as [(s1, pk1)| |] eqn:E1; cbn [rbind] in E; try discriminate. apply Ok_inj in E. injection E as -> <-.
  destruct (Nat.eqb_spec fi0 fi) as [-> | N]; [|auto]. destruct (w_bound (wget s fi)) eqn:Hb; [|unfold send_packet in E1; rewrite Hb, andb_false_r in E1; discriminate]. split; [discriminate|].
  destruct pk1 as [v|]; [|constructor]. constructor; [|constructor]. destruct (sent_says A B s fi gone buf margin flags ts tse onames s' v HF T Hb E1 P) as (ws & _ & Hs). eapply says_nil, Hs.
Qed.

Lemma yl_step : forall fi y o y', YL fi y -> ystep fi y o = Ok y' -> YL fi y'.
Proof.
  intros fi y o y' H E. pose proof (ye_step fi y o y' (yl_e _ _ H) E) as HE'. pose proof (ye_yi _ _ (yl_e _ _ H)) as HI. pose proof (yi_s _ _ HI) as HS. pose proof (ys_full _ _ _ _ HS) as HF. pose proof (ys_ti _ _ _ _ HS) as HT.
  destruct (ystep_prims fi y o y' HI E) as (A & B & P & _ & _). assert (HL : LT (y_s y')) by (eapply prims_lt; [exact P|exact HF|apply (yl_lt _ _ H)]).
  destruct H as [_ _ hid hrx hak hb hn]. destruct o as [o|n pad|e|buf margin flags ts tse tr ecn|n pad]; cbn [ystep] in E.
  - destruct (allowed fi (y_held y) (y_s y) o) eqn:Ea; [|discriminate]. rewrite who_holds in E. fold (send_part fi (y_s y) o) in E. pose proof (send_part_step fi _ o _ _ HS Ea) as S. destruct (send_part fi (y_s y) o) as [(s', pk)| |] eqn:Ep; cbn [rbind] in E; try discriminate.
    apply Ok_inj in E. subst y'. cbn [y_s] in *. destruct S as (Es & _ & _ & _). destruct (send_part_net fi (y_s y) o s' pk A B HF HT Es P Ep) as (N1 & N2).
    assert (Hno : o <> SSessionClose) by (intros ->; discriminate Ea). pose proof (ids_step _ _ _ Es Hno hid) as HID.
    assert (D : (exists md a, o = SOpen md a) \/ (exists fj id, o = SBind fj id) \/ match o with SOpen _ _ | SBind _ _ | SSessionClose => False | _ => True end) by (destruct o; eauto; congruence).
    destruct D as [(md & a & ->)|[(fj & id & ->)|D]].
    + cbn [send_part] in Ep. rewrite Es in Ep. cbn [rbind] in Ep. apply Ok_inj in Ep. injection Ep as <-. rewrite app_nil_r in *. cbn [sstep] in Es. destruct (_ && _); [|discriminate]. apply Ok_inj in Es.
      assert (W : wget s' fi = if (fi =? length (s_flows (y_s y)))%nat then f_new (startup_options md a) else wget (y_s y) fi) by (rewrite <- Es; apply wget_open).
      assert (W2 : length (s_flows s') = S (length (s_flows (y_s y)))) by (rewrite <- Es; cbn [s_flows set_flows]; rewrite app_length; cbn; lia). clear Es.
      destruct (Nat.eqb_spec fi (length (s_flows (y_s y)))).
      * assert (Hne : y_net y = [] /\ y_id y = None). { apply hn; [|right; lia]. destruct (w_bound (wget (y_s y) fi)) eqn:q; [|reflexivity]. pose proof (flow_there _ _ (or_intror (or_introl q))); lia. } destruct Hne as (h1 & h2).
        constructor; cbn [y_s y_net y_acks y_id]; rewrite ?W; auto; try discriminate; intros; cbn; unfold INITIAL_BUFFER; lia.
      * constructor; cbn [y_s y_net y_acks y_id]; rewrite ?W; auto; [intros; apply hrx; [assumption|lia]|]. intros h1 [h2|h2]; apply hn; auto. right. lia.
    + cbn [send_part] in Ep. rewrite Es in Ep. cbn [rbind] in Ep. apply Ok_inj in Ep. injection Ep as <-. rewrite app_nil_r in *. apply bind_facts in Es. destruct Es as (b1 & b2 & b3 & Es & b5).
      assert (W : wget s' fi = if (fj =? fi)%nat && (fj <? length (s_flows (y_s y)))%nat then with_bound (wget (y_s y) fj) id else wget (y_s y) fi) by (rewrite Es; apply wget_wset).
      assert (W2 : length (s_flows s') = length (s_flows (y_s y))) by (rewrite Es; apply flows_wset).
      destruct (Nat.ltb_spec fj (length (s_flows (y_s y)))); [|lia]. rewrite andb_true_r in W. destruct (Nat.eqb_spec fj fi) as [-> | N].
      * destruct (hn b2 (or_introl b1)) as (h1 & h2). constructor; cbn [y_s y_net y_acks y_id]; rewrite ?W, ?W2; auto; try discriminate; rewrite h1, h2; split; [constructor|discriminate].
      * constructor; cbn [y_s y_net y_acks y_id]; rewrite ?W, ?W2; auto.
    + pose proof (calm_step _ _ _ Es D) as (C1 & C2). specialize (C2 fi).
      assert (Hna : ~ gets_ack (y_s y) o fi). { destruct o; try (intros []; fail). intros (k & k1 & k2). cbn [allowed] in Ea. rewrite k1, k2, Nat.eqb_refl in Ea. discriminate. }
      destruct C2 as [c1 c2 c3 _]. constructor; cbn [y_s y_net y_acks y_id]; auto.
      * intros h1 h2. rewrite (c3 Hna). apply hrx; [exact h1|lia].
      * intros h1. destruct (c1 h1) as (h2 & ->). destruct (hb h2) as (h3 & h4). split; [apply Forall_app; auto|exact h4].
      * intros h1 h2. assert (Hb0 : w_bound (wget (y_s y) fi) = false). { destruct h2 as [h2|h2]; [destruct (c2 h2) as (_ & <-); exact h1|]. destruct (w_bound (wget (y_s y) fi)) eqn:q; [|reflexivity]. pose proof (flow_there _ _ (or_intror (or_introl q))); lia. }
        rewrite (N1 Hb0), app_nil_r. apply hn; [exact Hb0|]. destruct h2 as [h2|h2]; [left; apply (c2 h2)|right; lia].
  - destruct (nth_error (y_net y) n) as [(margin, v)|] eqn:En; [|discriminate]. destruct (Z.ltb_spec (Z.of_nat pad) 65538) as [Hk|]; [|discriminate]. apply nth_error_In in En.
    destruct (parse_packet always (v ++ repeat 255 pad) margin) as [pp| |] eqn:e1; cbn [rbind] in E; try discriminate. destruct (ud_packet None (h_chunks pp)) as [us| |] eqn:e2; cbn [rbind] in E; try discriminate. destruct (rf_run (y_r y) (map ev_of us)) as [f| |] eqn:e3; try discriminate. apply Ok_inj in E. subst y'. cbn [y_s y_net y_acks y_id] in *.
    constructor; cbn [y_s y_net y_acks y_id]; auto.
    + intros h1. apply hrx. destruct (y_id y); [discriminate|reflexivity].
    + intros h1. apply hak. destruct (y_id y); [discriminate|reflexivity].
    + intros h1. destruct (hb h1) as (h2 & h3). split; [exact h2|]. intros i. destruct (y_id y) as [j|]; [apply h3|]. rewrite Forall_forall in h2. destruct (h2 _ En pad pp us Hk e1 e2) as (h4 & _). destruct us as [|u us]; [discriminate|]. intros hi. inversion hi. subst i. apply (Forall_inv h4).
    + intros h1 h2. destruct (hn h1 h2) as (h3 & _). rewrite h3 in En. destruct En.
  - destruct (quiet_event e); [|discriminate]. destruct (rf_step (y_r y) e); try discriminate. apply Ok_inj in E. subst y'. cbn [y_s] in *. constructor; cbn [y_s y_net y_acks y_id]; auto.
  - destruct (y_id y) as [id|] eqn:Ei; [|discriminate]. destruct (_ && _); [|discriminate]. destruct (pa_init_header _ _ _ _ _); cbn [rbind] in E; try discriminate. destruct (assemble_ack _ _ _ _ _) as [((p', f), ok)| |]; cbn [rbind] in E; try discriminate. apply Ok_inj in E. subst y'.
    destruct ok; [|constructor; rewrite ?Ei; auto]. cbn [y_s] in *. constructor; cbn [y_s y_net y_acks y_id]; rewrite ?Ei; auto; discriminate.
  - destruct (nth_error (y_acks y) n) as [(margin, v)|] eqn:En; [|discriminate]. assert (Hi : y_id y <> None) by (intros h1; rewrite (hak h1) in En; destruct n; discriminate). destruct (Z.ltb_spec (Z.of_nat pad) 65538) as [Hk|]; [|discriminate]. apply nth_error_In in En.
    pose proof (yi_acks _ _ HI) as ha. rewrite Forall_forall in ha. destruct (ha _ En pad Hk) as (pp & pre & pl & ka & e1 & e2 & e3 & e4 & e5 & e6). cbn [fst snd] in e1. rewrite e1 in E. cbn [rbind] in E. rewrite e2, take_last in E by exact e3. destruct (sstep (y_s y) (SAck pl)) as [s'| |] eqn:Es; cbn [rbind] in E; try discriminate. apply Ok_inj in E. subst y'. cbn [y_s] in *.
    pose proof (calm_step _ _ _ Es Logic.I) as (C1 & C2). specialize (C2 fi). destruct C2 as [c1 c2 _ _]. constructor; cbn [y_s y_net y_acks y_id]; auto.
    + eapply ids_step; [exact Es|discriminate|exact hid].
    + intros h1. contradiction.
    + intros h1. destruct (c1 h1) as (h2 & ->). apply hb, h2.
    + intros h1 h2. apply hn; [destruct h2 as [h2|h2]; [destruct (c2 h2) as (_ & <-); exact h1|]|destruct h2 as [h2|h2]; [left; apply (c2 h2)|right; lia]]. destruct (w_bound (wget (y_s y) fi)) eqn:q; [|reflexivity]. pose proof (flow_there _ _ (or_intror (or_introl q))); lia.
Qed.
Lemma yl_run : forall fi os y y', YL fi y -> yrun fi y os = Ok y' -> YL fi y'.
Proof. intros fi. induction os as [|o os IH]; intros y y' H E; cbn [yrun] in E; [apply Ok_inj in E; subst; exact H|]. destruct (ystep fi y o) as [y1| |] eqn:X; cbn [rbind] in E; try discriminate. eapply IH; [eapply yl_step; eauto|exact E]. Qed.
Lemma yl_init : forall fi y, y_init = Ok y -> YL fi y.
Proof.
  intros fi y H. pose proof (ye_init fi y H) as HE. apply y_init_shape in H. destruct H as (f0 & _ & ->). assert (W : wget ss_init fi = w_none) by (destruct fi; reflexivity). constructor; cbn [y_s y_net y_acks y_id]; rewrite ?W; auto; try discriminate.
  - apply lt_init.
  - apply ids_init.
  - cbn. lia.
Qed.

(** ** Rounds *)
Record kept (fi : nat) (y y' : world) : Prop := {
  kt_open : w_state (wget (y_s y') fi) = FS_OPEN -> w_state (wget (y_s y) fi) = FS_OPEN;
  kt_bound : w_bound (wget (y_s y') fi) = true; kt_id : w_id (wget (y_s y') fi) = w_id (wget (y_s y) fi); kt_next : w_next (wget (y_s y') fi) = w_next (wget (y_s y) fi);
  kt_cap : f_cap (y_r y') = f_cap (y_r y); kt_win : f_win (y_r y') = f_win (y_r y) }.
Lemma kept_trans : forall fi a b c, kept fi a b -> kept fi b c -> kept fi a c.
Proof. intros fi a b c [] []. constructor; try congruence. auto. Qed.
Lemma yrun_app : forall fi a b y y1 y2, yrun fi y a = Ok y1 -> yrun fi y1 b = Ok y2 -> yrun fi y (a ++ b) = Ok y2.
Proof. intros fi. induction a as [|o a IH]; intros b y y1 y2 H1 H2; cbn [yrun app] in *; [apply Ok_inj in H1; subst; exact H2|]. destruct (ystep fi y o); cbn [rbind] in *; try discriminate. eapply IH; eauto. Qed.
Lemma calm_kept : forall E s s' fi, calm True E s s' -> w_bound (wget s fi) = true -> w_bound (wget s' fi) = true /\ w_id (wget s' fi) = w_id (wget s fi) /\ w_next (wget s' fi) = w_next (wget s fi) /\ (w_state (wget s' fi) = FS_OPEN -> w_state (wget s fi) = FS_OPEN).
Proof. intros E s s' fi (_ & C) H. specialize (C fi). destruct (cw_keep _ _ _ _ C Logic.I) as (h1 & h2). assert (h3 : w_bound (wget s' fi) = true) by congruence. destruct (cw_bound _ _ _ _ C h3). split; [auto|]. split; [auto|]. split; [auto|]. intros h. apply (cw_open _ _ _ _ C h). Qed.

Lemma ack_round : forall fi y buf margin flags ts tse id, YL fi y -> w_bound (wget (y_s y) fi) = true -> y_id y = Some id -> header_fits buf margin flags ts tse = true -> Z.of_nat margin <= 1000 ->
  0 < f_cap (y_r y) -> 0 < f_win (y_r y) ->
  exists y', yrun fi y [YAck buf margin flags ts tse true None; YGotAck (length (y_acks y)) 0] = Ok y' /\ kept fi y y' /\ y_id y' = Some id
    /\ (length (w_queue (wget (y_s y') fi)) <= length (w_queue (wget (y_s y) fi)))%nat /\ (w_queue (wget (y_s y) fi) <> [] -> 0 < w_rxbuf (wget (y_s y') fi))
    /\ forall nm n q, w_queue (wget (y_s y) fi) = (nm, n) :: q -> 0 <= g_seq (gget (y_s y) n) <= csn (y_r y) -> (length (w_queue (wget (y_s y') fi)) <= length q)%nat.
Proof.
  intros fi y buf margin flags ts tse id H Hb Hi Hh Hm Hc Hw. pose proof (ye_yi _ _ (yl_e _ _ H)) as HI. pose proof (yi_s _ _ HI) as HS.
  assert (Eid : id = w_id (wget (y_s y) fi)) by (apply (yl_bound _ _ H Hb), Hi).
  destruct (ack_now _ fi _ _ _ buf margin flags ts tse id HS (yi_r _ _ HI) (yi_passive _ _ HI) (yi_from _ _ HI) Hh Hm (yi_id _ _ HI _ Hi)) as (p0 & p & r' & pp & pl & ka & a1 & a2 & a3 & a4 & a5 & a6 & a7 & a8).
  destruct a8 as (k1 & k2 & k3 & _). destruct (recv_plain _ _ (yi_passive _ _ HI) (yi_r _ _ HI)) as (_ & Ho). pose proof (advertise_pos _ Hc Hw Ho) as Hadv.
  destruct (ack_goes (y_s y) fi pl ka (ys_full _ _ _ _ HS) (ys_cu _ _ _ _ HS) (yl_ids _ _ H) Hb a6 a7 ltac:(congruence)) as (s' & g1 & g2 & g3 & g4 & g5). destruct (calm_kept _ _ _ _ g4 Hb) as (q1 & q2 & q3 & q4).
  cbn [yrun ystep]. rewrite Hi, Hh. cbn [andb]. rewrite a1. cbn [rbind]. rewrite a2. cbn [rbind yrun ystep y_acks]. rewrite nth_error_app2, Nat.sub_diag by lia. cbn [nth_error]. change (Z.of_nat 0 <? 65538) with true. cbv iota. rewrite a4. cbn [rbind]. rewrite a5. rewrite (take_last [] _ pl (Forall_nil _) : take_acks _ [(81, pl)] = _). cbn [y_s]. rewrite g1. cbn [rbind yrun].
  eexists. split; [reflexivity|]. cbn [y_s y_r y_id]. split; [|split; [reflexivity|]; split; [exact g2|]; split].
  - cbn [rf_step] in a3. apply Ok_inj in a3. subst r'. constructor; cbn [y_s y_r]; auto.
  - intros hq. rewrite (g3 hq), k2. unfold U64MAX. lia.
  - intros nm n q e hr. apply (g5 nm n q e). rewrite k3. exact hr.
Qed.

Lemma data_round : forall fi y gone buf margin flags ts tse, YL fi y -> w_bound (wget (y_s y) fi) = true -> w_queue (wget (y_s y) fi) <> [] -> 0 < w_rxbuf (wget (y_s y) fi) ->
  header_fits buf margin flags ts tse = true -> (forall q, 1 <= q < w_next (wget (y_s y) fi) -> Z.of_nat margin + zlen (vlu_encode (w_id (wget (y_s y) fi))) + zlen (vlu_encode q) <= 29) ->
  exists y' names, yrun fi y [YSend STimeout; YSend (SSend fi gone buf margin flags ts tse names); YDeliver (length (y_net y)) 0] = Ok y' /\ kept fi y y' /\ (exists id, y_id y' = Some id)
    /\ exists nm n q, w_queue (wget (y_s y') fi) = (nm, n) :: q /\ (length q < length (w_queue (wget (y_s y) fi)))%nat /\ 0 <= g_seq (gget (y_s y') n) <= csn (y_r y').
Proof.
  intros fi y gone buf margin flags ts tse H Hb Hq Hrx Hh Hroom. set (o1 := YSend STimeout). pose proof (yi_s _ _ (ye_yi _ _ (yl_e _ _ H))) as HS.
  destruct (timeout_goes (y_s y) (ys_open _ _ _ _ HS)) as (s1 & t1 & t2 & t3 & t4). destruct (calm_kept _ _ _ _ t4 Hb) as (b1 & b2 & b3 & b4).
  assert (Y1 : exists y1, ystep fi y o1 = Ok y1 /\ y_s y1 = s1 /\ y_net y1 = y_net y /\ y_r y1 = y_r y).
  { unfold o1. cbn [ystep allowed]. rewrite t1. cbn [rbind]. eexists. split; [reflexivity|]. cbn [y_s y_net y_r]. rewrite app_nil_r. auto. }
  destruct Y1 as (y1 & Y1 & Y2 & Y3 & Y4). pose proof (yl_step fi y o1 y1 H Y1) as H1. pose proof (yi_s _ _ (ye_yi _ _ (yl_e _ _ H1))) as HS1. rewrite Y2 in HS1.
  set (names := map Z.of_nat (seq 1 (length (w_queue (wget s1 fi))))).
  assert (Hnd : NoDup names) by (apply FinFun.Injective_map_NoDup; [intros a b; apply Nat2Z.inj|apply seq_NoDup]).
  assert (Hpos : Forall (fun o => 0 < o) names) by (rewrite Forall_forall; intros x hx; apply in_map_iff in hx; destruct hx as (k & <- & hk); apply in_seq in hk; lia).
  assert (Hlen : (length (w_queue (wget s1 fi)) <= length names)%nat) by (unfold names; rewrite map_length, seq_length; lia).
  assert (Hrx1 : w_rxbuf (wget s1 fi) = w_rxbuf (wget (y_s y) fi)) by (apply (cw_rx _ _ _ _ (proj2 t4 fi)); auto).
  destruct (send_goes s1 fi gone buf margin flags ts tse names (ys_full _ _ _ _ HS1) (ys_ti _ _ _ _ HS1)) as (s2 & v & nm & n & q & x & ws & e1 & e2 & e3 & e4 & e5 & e6 & e7); auto.
  { rewrite <- Y2. apply (yl_lt _ _ H1). } { apply (ys_open _ _ _ _ HS1). } { rewrite t3. exact Hq. } { lia. } { rewrite b2, b3. exact Hroom. }
  set (o2 := YSend (SSend fi gone buf margin flags ts tse names)).
  assert (Z1 : exists y2, ystep fi y1 o2 = Ok y2 /\ y_s y2 = s2 /\ y_net y2 = y_net y ++ [(margin, v)] /\ y_r y2 = y_r y).
  { unfold o2. cbn [ystep allowed]. rewrite Y2, e1. cbn [rbind]. rewrite Nat.eqb_refl. eexists. split; [reflexivity|]. cbn [y_s y_net y_r]. rewrite Y3. auto. }
  destruct Z1 as (y2 & Z1 & Z2 & Z3 & Z4). pose proof (yl_step fi y1 o2 y2 H1 Z1) as H2. pose proof (ye_yi _ _ (yl_e _ _ H2)) as HI2.
  destruct (ystep_prims fi y1 o2 y2 (ye_yi _ _ (yl_e _ _ H1)) Z1) as (A & B & P & _ & _). rewrite Y2, Z2 in P.
  destruct (sent_says A B s1 fi gone buf margin flags ts tse names s2 v (ys_full _ _ _ _ HS1) (ys_ti _ _ _ _ HS1) b1 e1 P) as (ws' & W1 & W2). rewrite e4 in W1. apply app_inv_head in W1. subst ws'.
  pose proof (yi_net _ _ HI2) as Hn. rewrite Forall_forall in Hn. specialize (Hn (margin, v)). rewrite Z3 in Hn. destruct (Hn ltac:(apply in_or_app; right; left; reflexivity) 0%nat ltac:(cbn; lia)) as (pp & us & u1 & u2 & u3). clear Hn.
  destruct (W2 0%nat pp us ltac:(cbn; lia) u1 u2) as (_ & W3). destruct (W3 x ltac:(left; reflexivity)) as (u & v1 & v2 & v3). cbn [fst snd] in u1.
  assert (Hcp : calm True (fun _ => False) s1 s2) by (eapply calm_packet; exact e1). destruct (calm_kept _ _ _ _ Hcp b1) as (c1 & c2 & c3 & c4).
  pose proof (yi_step fi y2 (YDeliver (length (y_net y)) 0) HI2) as Y5. destruct (recv_plain _ _ (yi_passive _ _ HI2) (yi_r _ _ HI2)) as (Hscr & _).
  assert (D : exists y3 f, ystep fi y2 (YDeliver (length (y_net y)) 0) = Ok y3 /\ y_s y3 = s2 /\ rf_run (y_r y2) (map ev_of us) = Ok f /\ y_r y3 = f /\ y_hist y3 = y_hist y2 ++ map ev_of us /\ exists id, y_id y3 = Some id).
  { cbn [ystep] in *. rewrite Z3, nth_error_app2, Nat.sub_diag in * by lia. cbn [nth_error] in *. change (Z.of_nat 0 <? 65538) with true in *. cbv iota in *. rewrite u1 in *. cbn [rbind] in *. rewrite u2 in *. cbn [rbind] in *. destruct (rf_run (y_r y2) (map ev_of us)) as [f| |]; try (exfalso; exact Y5). eexists. exists f. split; [reflexivity|].
    cbn [y_s y_r y_hist y_id]. split; [exact Z2|]. split; [reflexivity|]. split; [reflexivity|]. split; [reflexivity|]. destruct (y_id y2) as [id|]; [eauto|]. destruct us as [|u0 us]; [destruct v1|eauto]. }
  destruct D as (y3 & f & D1 & D2 & D3 & D4 & D5 & D6). rewrite D1 in Y5. rename Y5 into HI3. exists y3, names. split.
  { cbn [yrun]. fold o1. rewrite Y1. cbn [rbind]. fold o2. rewrite Z1. cbn [rbind]. rewrite D1. reflexivity. }
  pose proof (sets_events us _ _ Hscr D3) as SS. split.
  { constructor; rewrite ?D2, ?D4; try congruence; [auto|rewrite (st_cap _ _ SS), Z4; reflexivity|rewrite (st_win _ _ SS), Z4; reflexivity]. }
  split; [exact D6|]. exists nm, n, q. rewrite D2. split; [exact e2|]. split; [rewrite t3 in e3; cbn in e3; lia|]. split; [lia|].
  destruct (yi_r _ _ HI3) as (f0 & i1 & i2). pose proof (yi_s _ _ HI3) as HS3. destruct (conf _ fi _ _ (ys_full _ _ _ _ HS3) (ys_ti _ _ _ _ HS3) (ys_mi _ _ _ _ HS3) (yi_from _ _ HI3)) as (_ & _ & _ & _ & _ & _ & _ & _ & c5).
  destruct (recv_csn _ _ _ _ i1 (Forall_cons EvAccept (Logic.I : sane EvAccept) c5) i2) as (_ & _ & Hnc & _). apply Z.nlt_ge. intros hlt. apply Hnc. intros i hi. exists (ev_of u). split.
  - right. rewrite D5. apply in_or_app. right. apply in_map, v1.
  - cbn [covers ev_of]. lia.
Qed.

Lemma live : forall n fi y (gone : bool) buf margin flags ts tse, (length (w_queue (wget (y_s y) fi)) <= n)%nat -> YL fi y -> w_bound (wget (y_s y) fi) = true -> 0 < f_cap (y_r y) -> 0 < f_win (y_r y) ->
  header_fits buf margin flags ts tse = true -> (forall q, 1 <= q < w_next (wget (y_s y) fi) -> Z.of_nat margin + zlen (vlu_encode (w_id (wget (y_s y) fi))) + zlen (vlu_encode q) <= 29) ->
  exists os y', Forall (by_itself fi) os /\ yrun fi y os = Ok y' /\ kept fi y y' /\ w_queue (wget (y_s y') fi) = [].
Proof.
  induction n as [|n IH]; intros fi y gone buf margin flags ts tse Hl H Hb Hc Hw Hh Hroom.
  { exists [], y. split; [constructor|]. split; [reflexivity|]. split; [constructor; auto|]. destruct (w_queue (wget (y_s y) fi)); [reflexivity|cbn in Hl; lia]. }
  destruct (w_queue (wget (y_s y) fi)) as [|i0 q0] eqn:Eq. { exists [], y. split; [constructor|]. split; [reflexivity|]. split; [constructor; auto|exact Eq]. }
  assert (Hq : w_queue (wget (y_s y) fi) <> []) by (rewrite Eq; discriminate). rewrite <- Eq in *. clear i0 q0 Eq.
  assert (Hm : Z.of_nat margin <= 1000).
  { destruct (fi_next _ _ (fu_fi _ (ys_full _ _ _ _ (yi_s _ _ (ye_yi _ _ (yl_e _ _ H)))) fi)) as (x1 & x2). specialize (Hroom 1). pose proof (zlen_nonneg _ (vlu_encode (w_id (wget (y_s y) fi)))). pose proof (zlen_nonneg _ (vlu_encode 1)).
    assert (w_next (wget (y_s y) fi) <> 1) by (intros e; apply Hq, x2, e). lia. }
  assert (S0 : exists os y1, Forall (by_itself fi) os /\ yrun fi y os = Ok y1 /\ kept fi y y1 /\ (length (w_queue (wget (y_s y1) fi)) <= length (w_queue (wget (y_s y) fi)))%nat /\ 0 < w_rxbuf (wget (y_s y1) fi)).
  { destruct (y_id y) as [id|] eqn:Ei.
    - destruct (ack_round fi y buf margin flags ts tse id H Hb Ei Hh Hm Hc Hw) as (y1 & r1 & r2 & _ & r3 & r4 & _). eexists. exists y1. split; [|split; [exact r1|]; split; [exact r2|]; split; [exact r3|apply r4, Hq]]. repeat constructor.
    - exists [], y. split; [constructor|]. split; [reflexivity|]. split; [constructor; auto|]. split; [lia|]. apply (yl_rx _ _ H Ei). apply flow_there. auto. }
  destruct S0 as (os1 & y1 & s1 & s2 & s3 & s4 & s5). pose proof (yl_run fi os1 y y1 H s2) as H1. destruct s3 as [j0 j1 j2 j3 j4 j5].
  destruct (w_queue (wget (y_s y1) fi)) as [|i1 q1] eqn:Eq1. { exists os1, y1. split; [exact s1|]. split; [exact s2|]. split; [constructor; auto|exact Eq1]. }
  rewrite <- Eq1 in s4. assert (Hq1 : w_queue (wget (y_s y1) fi) <> []) by (rewrite Eq1; discriminate). clear i1 q1 Eq1.
  destruct (data_round fi y1 gone buf margin flags ts tse H1 j1 Hq1 s5 Hh) as (y2 & names & d1 & d2 & (id & d3) & nm & m & q & d4 & d5 & d6). { rewrite j2, j3. exact Hroom. }
  pose proof (yl_run fi _ _ _ H1 d1) as H2. destruct d2 as [l0 l1 l2 l3 l4 l5].
  destruct (ack_round fi y2 buf margin flags ts tse id H2 l1 d3 Hh Hm ltac:(congruence) ltac:(congruence)) as (y3 & r1 & r2 & _ & _ & _ & r5). specialize (r5 nm m q d4 d6). pose proof (yl_run fi _ _ _ H2 r1) as H3. destruct r2 as [m0 m1 m2 m3 m4 m5].
  destruct (IH fi y3 gone buf margin flags ts tse ltac:(lia) H3 m1 ltac:(congruence) ltac:(congruence) Hh) as (os4 & y4 & z1 & z2 & z3 & z4). { rewrite m2, m3, l2, l3, j2, j3. exact Hroom. }
  eexists (os1 ++ _ ++ _ ++ os4), y4. split; [|split; [eapply yrun_app; [exact s2|]; eapply yrun_app; [exact d1|]; eapply yrun_app; [exact r1|exact z2]|split; [|exact z4]]].
  - apply Forall_app. split; [exact s1|]. apply Forall_app. split; [repeat constructor|]. apply Forall_app. split; [repeat constructor|exact z1].
  - eapply kept_trans; [constructor; [exact j0|exact j1|exact j2|exact j3|exact j4|exact j5]|]. eapply kept_trans; [constructor; [exact l0|exact l1|exact l2|exact l3|exact l4|exact l5]|]. eapply kept_trans; [constructor; [exact m0|exact m1|exact m2|exact m3|exact m4|exact m5]|exact z3].
Qed.

(** ** From any reachable state *)
Lemma by_itself_reliable : forall fi os y, Forall (by_itself fi) os -> reliable_run fi y os.
Proof.
  intros fi. induction os as [|o os IH]; intros y H; cbn [reliable_run]; [exact Logic.I|]. inversion H as [|? ? h1 h2]. subst. split; [|destruct (ystep fi y o); auto]. destruct o as [o| | | |]; try exact Logic.I. destruct o; try exact Logic.I; exfalso; exact h1.
Qed.
Lemma by_itself_written : forall fi os y, Forall (by_itself fi) os -> written fi y os = [].
Proof.
  intros fi. induction os as [|o os IH]; intros y H; cbn [written]; [reflexivity|]. inversion H as [|? ? h1 h2]. subst. assert (E : accepted fi y o = []) by (destruct o as [o| | | |]; try reflexivity; destruct o; try reflexivity; exfalso; exact h1). rewrite E. destruct (ystep fi y o); cbn; auto.
Qed.
Lemma reliable_app : forall fi a b y y1, yrun fi y a = Ok y1 -> reliable_run fi y a -> reliable_run fi y1 b -> reliable_run fi y (a ++ b).
Proof.
  intros fi. induction a as [|o a IH]; intros b y y1 E H1 H2; cbn [yrun reliable_run app] in *; [apply Ok_inj in E; subst; exact H2|]. destruct (ystep fi y o); cbn [rbind] in *; try discriminate. split; [apply H1|]. eapply IH; [exact E|apply H1|exact H2].
Qed.
Lemma written_app : forall fi a b y y1, yrun fi y a = Ok y1 -> written fi y (a ++ b) = written fi y a ++ written fi y1 b.
Proof.
  intros fi. induction a as [|o a IH]; intros b y y1 E; cbn [yrun written app] in *; [apply Ok_inj in E; subst; reflexivity|]. destruct (ystep fi y o); cbn [rbind] in *; try discriminate. rewrite (IH b _ _ E), app_assoc. reflexivity.
Qed.
Theorem can_finish_room : forall fi os y0 y buf margin flags ts tse, y_init = Ok y0 -> yrun fi y0 os = Ok y -> w_bound (wget (y_s y) fi) = true -> 0 < f_cap (y_r y) -> 0 < f_win (y_r y) ->
  header_fits buf margin flags ts tse = true -> (forall q, 1 <= q < w_next (wget (y_s y) fi) -> Z.of_nat margin + zlen (vlu_encode (w_id (wget (y_s y) fi))) + zlen (vlu_encode q) <= 29) ->
  exists os' y', Forall (by_itself fi) os' /\ yrun fi y0 (os ++ os') = Ok y' /\ drained (y_s y') fi
    /\ (reliable_run fi y0 os -> delivered y' = written fi y0 os /\ (w_state (wget (y_s y) fi) <> FS_OPEN -> In (OComplete false) (f_out (y_r y')))).
Proof.
  intros fi os y0 y buf margin flags ts tse H0 H Hb Hc Hw Hh Hroom. pose proof (yl_run fi os y0 y (yl_init fi y0 H0) H) as HL.
  destruct (live _ fi y false buf margin flags ts tse (Nat.le_refl _) HL Hb Hc Hw Hh Hroom) as (os' & y' & a1 & a2 & a3 & a4). exists os', y'. pose proof (yrun_app fi os os' y0 y y' H a2) as E.
  assert (D : drained (y_s y') fi) by (split; [left; apply (kt_bound _ _ _ a3)|exact a4]). split; [exact a1|]. split; [exact E|]. split; [exact D|].
  intros R. pose proof (reliable_app fi os os' y0 y H R (by_itself_reliable fi os' y a1)) as R'. split.
  - rewrite (all_delivered fi _ y0 y' H0 E R' D), (written_app fi os os' y0 y H), (by_itself_written fi os' y a1). apply app_nil_r.
  - intros hs. apply (closed_told fi _ y0 y' H0 E R' D). intros h. apply hs, (kt_open _ _ _ a3 h).
Qed.
Theorem can_finish : forall fi os y0 y buf margin flags ts tse, y_init = Ok y0 -> yrun fi y0 os = Ok y -> w_bound (wget (y_s y) fi) = true -> 0 < f_cap (y_r y) -> 0 < f_win (y_r y) ->
  header_fits buf margin flags ts tse = true -> (margin <= 10)%nat ->
  exists os' y', Forall (by_itself fi) os' /\ yrun fi y0 (os ++ os') = Ok y' /\ drained (y_s y') fi
    /\ (reliable_run fi y0 os -> delivered y' = written fi y0 os /\ (w_state (wget (y_s y) fi) <> FS_OPEN -> In (OComplete false) (f_out (y_r y')))).
Proof.
  intros fi os y0 y buf margin flags ts tse H0 H Hb Hc Hw Hh Hm. apply (can_finish_room fi os y0 y buf margin flags ts tse); auto.
  pose proof (ys_full _ _ _ _ (yi_s _ _ (run_invariant fi os y0 y H0 H))) as HF. pose proof (fi_id _ _ (fu_fi _ HF fi) Hb) as Hid. destruct (fi_next _ _ (fu_fi _ HF fi)) as (Hn & _).
  intros q Hq. pose proof (vlu_len (w_id (wget (y_s y) fi)) 9 ltac:(unfold is_u64, U64MAX, LONG_MAX in *; lia) ltac:(lia) ltac:(unfold LONG_MAX in *; lia)). pose proof (vlu_len q 10 ltac:(unfold is_u64, U64MAX in *; lia) ltac:(lia) ltac:(unfold U64MAX in *; lia)). lia.
Qed.
