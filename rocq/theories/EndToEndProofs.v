(** A sending flow and a receiving flow joined by a bad network. *)
From Verif Require Import Base BaseFacts VLU VLUSpec VLUProofs Packet PacketSpec PacketProofs UserData UserDataSpec UserDataProofs IndexSet IndexSetSpec RecvFlow RecvFlowSpec RecvFlowAny RecvFlowMsg RecvFlowRun RecvFlowPeer Ack AckSpec AckProofs WriteReceipt SendFlow SendFlowSpec SendFlowProofs SendFlowInv SendFlowSteps SendFlowRun SendFlowTrack SendFlowOps SendFlowRel EndToEnd EndToEndSpec.
Ltac Zify.zify_post_hook ::= Z.div_mod_to_equations.

(** ** Lists *)
Lemma sel_in : forall A (l k : list A), selection l k -> incl l k.
Proof. induction 1; intros z Hz; [exact Hz|right; apply IHselection, Hz|]. destruct Hz as [<- | Hz]; [left; reflexivity|right; apply IHselection, Hz]. Qed.
Lemma sel_last : forall A (c : A) k l, selection l (k ++ [c]) -> ~ In c l -> selection l k.
Proof.
  intros A c. induction k as [|x k IH]; intros l H Hn; cbn [app] in H; inversion H; subst.
  - inversion H2; subst. constructor.
  - exfalso. apply Hn. left. reflexivity.
  - constructor. apply IH; assumption.
  - apply sel_take. apply IH; [assumption|]. intros h. apply Hn. right. exact h.
Qed.
Lemma sel_map : forall A B (f : A -> B) l k, selection l k -> selection (map f l) (map f k).
Proof. induction 1; cbn [map]; constructor; assumption. Qed.
Lemma sel_prefix : forall A (k l : list A), selection l k -> NoDup k -> (forall a m b m' c, k = a ++ m :: b ++ m' :: c -> In m' l -> In m l) -> l = firstn (length l) k.
Proof.
  induction k as [|x k IH]; intros l H Hn Hd; inversion H; subst; [reflexivity| |].
  - (* x is skipped: nothing follows *) apply NoDup_cons_iff in Hn. destruct Hn as (Hx & Hn). destruct l as [|m' l]; [reflexivity|]. exfalso. assert (Hm : In m' k) by (apply (sel_in _ _ _ H2); left; reflexivity).
    apply in_split in Hm. destruct Hm as (b & c & ->). apply Hx. apply (sel_in _ _ _ H2). apply (Hd [] x b m' c); [reflexivity|left; reflexivity].
  - apply NoDup_cons_iff in Hn. destruct Hn as (Hx & Hn). cbn [length firstn]. f_equal. apply IH; auto. intros a m b m' c E Hin. destruct (Hd (x :: a) m b m' c) as [h|h]; [cbn [app]; rewrite E; reflexivity|right; exact Hin| |exact h].
    exfalso. subst m. apply Hx. rewrite E. apply in_or_app. right. left. reflexivity.
Qed.
Lemma sel_all : forall A (k l : list A), selection l k -> NoDup k -> incl k l -> l = k.
Proof.
  intros A k l H Hn Hi. induction H; [reflexivity| |]; apply NoDup_cons_iff in Hn; destruct Hn as (Hx & Hn).
  - exfalso. apply Hx. apply (sel_in _ _ _ H). apply Hi. left. reflexivity.
  - f_equal. apply IHselection; [exact Hn|]. intros z Hz. destruct (Hi z (or_intror Hz)) as [<- | h]; [contradiction|exact h].
Qed.

(** ** Messages and their numbers *)
Lemma zlen_table_cons : forall m ms, zlen (table (m :: ms)) = zlen m + zlen (table ms).
Proof. intros. unfold table. cbn [flat_map]. rewrite zlen_app, zlen_marks. reflexivity. Qed.
Lemma sent_from_app : forall a b x, sent_from x (a ++ b) = sent_from x a ++ sent_from (x + zlen (table a)) b.
Proof.
  induction a as [|m a IH]; intros b x; cbn [app sent_from]; [cbn; rewrite Z.add_0_r; reflexivity|]. rewrite IH, zlen_table_cons. do 3 f_equal. lia.
Qed.
Lemma sent_range : forall ms x c first count, Forall (fun m => m <> []) ms -> In (c, first, count) (sent_from x ms) -> x <= first /\ 1 <= count /\ first + count <= x + zlen (table ms).
Proof.
  induction ms as [|m ms IH]; intros x c first count Hne H; [destruct H|]. inversion Hne; subst. rewrite zlen_table_cons. assert (Hm : 1 <= zlen m) by (destruct m; [congruence|rewrite zlen_cons; pose proof (zlen_nonneg _ m); lia]).
  pose proof (zlen_nonneg _ (table ms)). destruct H as [H | H]; [injection H as <- <- <-; lia|]. destruct (IH _ _ _ _ H3 H) as (? & ? & ?). lia.
Qed.
Lemma sent_nodup : forall ms x, Forall (fun m => m <> []) ms -> NoDup (sent_from x ms).
Proof.
  induction ms as [|m ms IH]; intros x Hne; cbn [sent_from]; constructor; inversion Hne; subst; [|apply IH; assumption]. intros h. apply sent_range in h; [|assumption].
  assert (1 <= zlen m) by (destruct m; [congruence|rewrite zlen_cons; pose proof (zlen_nonneg _ m); lia]). lia.
Qed.
Lemma sent_content : forall ms x, map (fun m => fst (fst m)) (sent_from x ms) = map (@concat Z) ms.
Proof. induction ms as [|m ms IH]; intros x; cbn [sent_from map fst]; [reflexivity|]. rewrite IH. reflexivity. Qed.
Lemma sent_order : forall ms x a m b m' c, Forall (fun m => m <> []) ms -> sent_from x ms = a ++ m :: b ++ m' :: c -> snd (fst m) + snd m <= snd (fst m').
Proof.
  induction ms as [|m0 ms IH]; intros x a m b m' c Hne E; cbn [sent_from] in E; [destruct a; discriminate|]. inversion Hne; subst. destruct a as [|a0 a]; cbn [app] in E.
  - injection E as <- E. cbn [fst snd]. assert (Hi : In m' (sent_from (x + zlen m0) ms)) by (rewrite E; apply in_or_app; right; left; reflexivity). destruct m' as ((c', f'), n'). apply sent_range in Hi; [|assumption]. cbn. lia.
  - injection E as _ E. eapply IH; eauto.
Qed.

(** ** Runs of the receiver *)
Lemma rf_run_app : forall a b f, rf_run f (a ++ b) = match rf_run f a with Ok g => rf_run g b | Rej => Rej | UB => UB end.
Proof. induction a as [|e a IH]; intros b f; cbn [app rf_run]; [reflexivity|]. destruct (rf_step f e); cbn [rbind]; auto. Qed.
Lemma advertise_same : forall f, advertise f = advertise_blocks f.
Proof. intros f. unfold advertise, advertise_blocks. destruct (f_order f); reflexivity. Qed.
Lemma ack_flow : forall p f id tr ecn p' f', assemble_ack p f id tr ecn = Ok (p', f', true) -> rf_step f EvAck = Ok f'.
Proof.
  intros p f id tr ecn p' f' H. unfold assemble_ack in H. cbn zeta in H.
  repeat match type of H with
    | rbind ?x _ = _ => let E := fresh "E" in destruct x eqn:E; cbn [rbind] in H; try discriminate
    | (let '(_, _) := ?x in _) = _ => destruct x
    | (if ?b then _ else _) = _ => destruct b; try discriminate
    end.
  cbn [rf_step]. rewrite <- advertise_same. apply Ok_inj in H. injection H as _ <-. reflexivity.
Qed.
Lemma cov_dec : forall h i, covered h i \/ ~ covered h i.
Proof. exact (covered_dec (fun _ => true) (fun _ => [])). Qed.
Lemma got_cov : forall h i, got h i -> covered h i.
Proof. exact (got_covered (fun _ => true) (fun _ => [])). Qed.
Lemma covered_app : forall a b i, covered a i -> covered (a ++ b) i.
Proof. intros a b i (e & H & Hc). exists e. split; [apply in_or_app; auto|exact Hc]. Qed.

(** ** What travels *)
(** The event is a fragment that flow [fi] sent. *)
Definition from (s : sess) (fi : nat) (e : revent) : Prop :=
  match e with
  | EvData flags seq fsn data => exists x, In x (s_wire s) /\ x_flow x = fi /\ seq = fr_seq (x_frame x) /\ fsn = x_fsn x
      /\ (flags = fr_flags (x_frame x) \/ flags = fr_flags (x_frame x) + 128) /\ data = (if Z.odd (fr_flags (x_frame x) / 2) then [] else fr_data (x_frame x))
  | _ => True
  end.
Lemma from_more : forall s s' fi e, incl (s_wire s) (s_wire s') -> from s fi e -> from s' fi e.
Proof. intros s s' fi e H. destruct e; cbn; auto. intros (x & h1 & h2). exists x. split; [apply H, h1|exact h2]. Qed.
Lemma prims_wire : forall A B s s', prims A B s s' -> incl (s_wire s) (s_wire s').
Proof.
  induction 1; [apply incl_refl|]. eapply incl_tran; [|exact IHprims]. destruct (prim_wire _ _ _ _ H) as [-> | (fi & pre & nm & id & suf & o & fsn & fr & abn & size & Hs)]; [apply incl_refl|].
  decompose [and] Hs. subst. rewrite mark_wire. apply incl_appl, incl_refl.
Qed.
Lemma flag_bits : forall fra abn fin more, In fra [0; 16; 32; 48] -> more = 0 \/ more = 128 -> let f := fra + flag abn 2 + flag fin 1 in
  Z.land (f + more) 48 = fra /\ (Z.land (f + more) 2 = 0 <-> abn = false) /\ (Z.land (f + more) 1 <> 0 -> fin = true) /\ Z.odd (f / 2) = abn.
Proof.
  intros fra abn fin more H [-> | ->]; cbn [In] in H; decompose [or] H; subst; try contradiction; destruct abn, fin; cbn; (split; [reflexivity|]); (split; [split; congruence|]); split; try reflexivity; congruence.
Qed.
(** What such an event says. *)
Lemma from_facts : forall s fi flags seq fsn data, Full s -> TI s -> from s fi (EvData flags seq fsn data) ->
  exists x fra d, In x (s_wire s) /\ x_flow x = fi /\ fsn = x_fsn x /\ seq = g_seq (gget s (x_frag x)) /\ (x_frag x < length (s_heap s))%nat /\ g_owner (gget s (x_frag x)) = fi
    /\ 1 <= seq <= zlen (w_tab (wget s fi)) /\ nth_error (w_tab (wget s fi)) (Z.to_nat (seq - 1)) = Some (fra, d) /\ Z.land flags 48 = fra /\ 0 <= fsn <= seq /\ is_u64 seq
    /\ (Z.land flags 2 = 0 -> data = d) /\ (Z.land flags 1 <> 0 -> seq = zlen (w_tab (wget s fi))) /\ (Z.land flags 2 <> 0 -> Ab s fi seq) /\ (Z.land flags 2 = 0 <-> Z.land (fr_flags (x_frame x)) 2 = 0).
Proof.
  intros s fi flags seq fsn data HF T (x & h1 & <- & h3 & h4 & h5 & h6). destruct (ti_wire _ T x h1) as [w1 w2 (abn & fin & w3 & w4 & w5) w6]. rewrite w3 in *. cbn [fr_seq fr_flags fr_data] in *.
  destruct (fu_frag _ HF _ w1) as (_ & g1 & g2 & g3). destruct (ti_frag _ T _ w1) as (t1 & t2 & t3 & t4). rewrite w2 in *.
  assert (Hm : exists more, (more = 0 \/ more = 128) /\ flags = g_fra (gget s (x_frag x)) + flag abn 2 + flag fin 1 + more) by (destruct h5; [exists 0|exists 128]; split; auto; lia).
  destruct Hm as (more & Hm & ->). destruct (flag_bits _ abn fin more g1 Hm) as (b1 & b2 & b3 & b4). destruct (flag_bits _ abn fin 0 g1 (or_introl eq_refl)) as (_ & b5 & _). cbv zeta in *. rewrite Z.add_0_r in b5. rewrite b4 in h6.
  exists x, (g_fra (gget s (x_frag x))), (g_data (gget s (x_frag x))). subst fsn seq. split; [exact h1|]. split; [reflexivity|]. split; [reflexivity|]. split; [reflexivity|]. split; [exact w1|]. split; [exact w2|]. split; [exact t2|]. split; [exact t3|]. split; [exact b1|]. split; [exact w6|]. split; [exact g3|].
  split; [intros H; apply b2 in H; rewrite H in h6; exact h6|]. split; [intros H; apply w5, b3, H|]. split; [|rewrite w3; cbn [fr_flags]; rewrite b2, b5; tauto].
  intros H. exists (x_frag x). split; [exact w1|]. split; [exact w2|]. split; [reflexivity|]. apply w4. destruct abn; [reflexivity|tauto].
Qed.

(** The messages behind the fragments; [cl]: the closing fragment was made. *)
Definition closing (s : sess) (fi : nat) (held : list nat) (ms ms' : list (list (list Z))) : Prop :=
  (ms' = ms /\ forall id, (id < length (s_heap s))%nat -> g_owner (gget s id) = fi -> In (g_rcpt (gget s id)) held) \/ (ms' = ms ++ [[[]]] /\ exists id rc t, cls s fi id rc t /\ ~ In rc held).
Lemma conf : forall s fi held h, Full s -> TI s -> MI s fi held -> Forall (from s fi) h ->
  exists ms ms', map (@concat Z) ms = w_msgs (wget s fi) /\ Forall (fun m => m <> []) ms /\ closing s fi held ms ms' /\ table ms' = w_tab (wget s fi) /\ well_formed ms'
    /\ Forall (conforms (fun i => i = zlen (table ms')) ms') h /\ Forall sane h.
Proof.
  intros s fi held h HF T [m1 (ms & e1 & e2 & e3)] Hh.
  assert (Hn : zlen (w_tab (wget s fi)) < U64MAX) by (pose proof (ti_next _ T fi); destruct (fi_next _ _ (fu_fi _ HF fi)); lia).
  assert (Hx : exists ms', closing s fi held ms ms' /\ table ms' = w_tab (wget s fi) /\ Forall (fun m => m <> []) ms').
  { destruct e3 as [(e3 & e6)|(id & rc & t & e3 & e4 & e5)]; [exists ms; split; [left; split; [reflexivity|exact e6]|]; auto|]. exists (ms ++ [[[]]]). split; [right; eauto 6|]. split; [unfold table; rewrite flat_map_app; exact (eq_sym e3)|].
    apply Forall_app. split; [exact e2|]. constructor; [discriminate|constructor]. }
  destruct Hx as (ms' & x1 & x2 & x3). exists ms, ms'. split; [exact e1|]. split; [exact e2|]. split; [exact x1|]. split; [exact x2|]. split; [split; [exact x3|rewrite x2; exact Hn]|].
  split; (eapply Forall_impl; [|exact Hh]); intros e He; destruct e as [|flags seq fsn data| | | | |]; cbn; auto; destruct (from_facts s fi flags seq fsn data HF T He) as (x & fra & d & f1 & f2 & f3 & f4 & f5 & f6 & f7 & f8 & f9 & f10 & f11 & f12 & f13 & _).
  - exists fra, d. unfold nth_frag. rewrite x2. destruct (Z.leb_spec 1 seq); [|lia]. split; [exact f8|]. split; [exact f9|]. split; [unfold is_u64 in f11; lia|]. auto.
  - unfold is_u64 in *. lia.
Qed.

(** A data packet of flow [fi]. *)
Definition good_data (s : sess) (fi : nat) (p : nat * list Z) : Prop :=
  forall k, Z.of_nat k < 65538 -> exists pp us, parse_packet always (snd p ++ repeat 255 k) (fst p) = Ok pp /\ ud_packet None (h_chunks pp) = Ok us
    /\ Forall (fun u => from s fi (ev_of u) /\ 0 < u_flow u <= LONG_MAX) us.
(** An acknowledgement that says only what is so. *)
Definition good_ack (h : list revent) (p : nat * list Z) : Prop :=
  forall k, Z.of_nat k < 65538 -> exists pp pre pl ka, parse_packet always (snd p ++ repeat 255 k) (fst p) = Ok pp /\ h_chunks pp = pre ++ [(81, pl)]
    /\ Forall (fun c => fst c <> 81 /\ fst c <> 94) pre /\ bytes_ok pl /\ ack_parse pl = Ok ka /\ forall i, 1 <= i -> acked ka i -> covered h i.

Lemma header_fits_inv : forall buf margin flags ts tse, header_fits buf margin flags ts tse = true -> zlen buf = 1200 /\ (margin + 5 <= length buf)%nat /\ is_byte flags /\ ts <= 65535 /\ tse <= 65535.
Proof.
  intros buf margin flags ts tse H. unfold header_fits, MAX_SESSION_PACKET_LENGTH, is_byteb in H. rewrite !andb_true_iff in H. destruct H as ((((h1 & h2) & (h3 & h3')) & h4) & h5). apply Nat.leb_le in h2. unfold is_byte. lia.
Qed.
Lemma sent_good : forall A B s fi gone buf margin flags ts tse onames s' v, Full s -> TI s -> w_bound (wget s fi) = true -> send_packet s fi gone buf margin flags ts tse onames = Ok (s', Some v) ->
  prims A B s s' -> good_data s' fi (margin, v).
Proof.
  intros A B s fi gone buf margin flags ts tse onames s' v HF T Hb E P. pose proof (packet_prims A B s fi gone buf margin flags ts tse onames HF) as H. rewrite E in H.
  destruct H as (_ & ws & fsn & W1 & W2 & W3 & W4 & W5 & _). destruct ws as [|x0 ws0] eqn:Ews; [discriminate|]. rewrite <- Ews in *. assert (W3' : v = firstn margin buf ++ header_bytes flags ts tse ++ chunks_bytes (ud_list (w_id (wget s fi)) fsn (if gone then [] else w_opts (wget s fi)) true 0 (map x_frame ws))) by (rewrite Ews in *; congruence). subst v.
  assert (Hne : ws <> []) by (rewrite Ews; discriminate). assert (Hx0 : In x0 ws) by (rewrite Ews; left; reflexivity). clear Ews.
  pose proof (prims_full _ _ _ _ P HF) as HF'. pose proof (prims_ti _ _ _ _ P HF T) as T'. destruct (header_fits_inv _ _ _ _ _ W4) as (Hz & Hm & Hf & Ht & Hte).
  assert (Hin : forall x, In x ws -> In x (s_wire s')) by (intros x Hx; rewrite W1; apply in_or_app; auto). rewrite Forall_forall in W2.
  assert (Hfo : forall x, In x ws -> frame_ok fsn (x_frame x) /\ is_u64 fsn).
  { intros x Hx. destruct (ti_wire _ T' x (Hin x Hx)) as [w1 w2 (abn & fin & w3 & _) w6]. destruct (fu_frag _ HF' _ w1) as (_ & g1 & g2 & g3). destruct (W2 x Hx) as (_ & <-). rewrite w3. unfold frame_ok. cbn [fr_flags fr_seq fr_data].
    unfold is_u64 in *. split; [|lia]. split; [exists (g_fra (gget s' (x_frag x))), (flag abn 2), (flag fin 1); split; [exact g1|]; split; [destruct abn; cbn; auto|]; split; [destruct fin; cbn; auto|reflexivity]|]. split; [exact g3|]. split; [lia|exact g2]. }
  destruct (Hfo x0 Hx0) as (_ & Hfsn). assert (Hfr : Forall (frame_ok fsn) (map x_frame ws)) by (rewrite Forall_forall; intros f Hi; apply in_map_iff in Hi; destruct Hi as (x & <- & Hi); apply Hfo, Hi).
  assert (Hu : exists u, sup_ok u /\ (if gone then [] else w_opts (wget s fi)) = sup_bytes u) by (destruct gone; [exists None; split; [exact Logic.I|reflexivity]|apply (ti_opts _ T)]).
  destruct Hu as (u & Hu & Eu). rewrite Eu in *. pose proof (fi_id _ _ (fu_fi _ HF fi) Hb) as Hid. assert (Hid' : is_u64 (w_id (wget s fi))) by (unfold is_u64, U64MAX, LONG_MAX in *; lia).
  set (cs := ud_list (w_id (wget s fi)) fsn (sup_bytes u) true 0 (map x_frame ws)) in *. pose proof (ud_list_ok (map x_frame ws) _ fsn u true 0 Hid' Hfsn Hu Hfr) as HH. fold cs in HH.
  assert (Hok : Forall chunk_ok cs).
  { rewrite Forall_forall in *. intros c Hc. destruct (HH c Hc). split; [|split]; auto. pose proof (chunks_fit _ _ Hc). cbv beta iota in W5. rewrite !zlen_app in W5. pose proof (zlen_nonneg _ (header_bytes flags ts tse)). pose proof (zlen_nonneg _ (firstn margin buf)). lia. }
  intros k Hk. cbn [fst snd]. rewrite <- !app_assoc. pose proof (parse_packet_roundtrip always (firstn margin buf) flags ts tse cs k Hf Ht Hte Hok Hk eq_refl) as Hp. cbv zeta in Hp.
  rewrite firstn_length_le in Hp by lia. eexists. exists (received_all (w_id (wget s fi)) fsn u (map x_frame ws)). split; [exact Hp|]. cbn [h_chunks]. split; [apply (ud_packet_list (map x_frame ws) _ fsn u true 0 None); auto; discriminate|].
  assert (Hr : forall x uu, In x ws -> from s' fi (ev_of (received (w_id (wget s fi)) fsn uu (x_frame x)))).
  { intros x uu Hx. cbn. destruct (W2 x Hx) as (<- & <-). exists x. split; [apply Hin, Hx|]. split; [reflexivity|]. split; [reflexivity|]. split; [reflexivity|]. split; [destruct uu; [right; reflexivity|left; lia]|reflexivity]. }
  destruct ws as [|x1 ws]; [congruence|]. cbn [map received_all]. constructor; [split; [apply Hr; left; reflexivity|exact Hid]|]. rewrite Forall_forall. intros uu Hi. apply in_map_iff in Hi. destruct Hi as (f & <- & Hi). apply in_map_iff in Hi. destruct Hi as (x & <- & Hi).
  split; [apply Hr; right; exact Hi|exact Hid].
Qed.

(** ** The invariant *)
Record YS (s : sess) (fi : nat) (held : list nat) (h : list revent) : Prop := {
  ys_full : Full s; ys_ti : TI s; ys_cu : closed_unbound s; ys_open : s_open s = true; ys_mi : MI s fi held; ys_k : K s fi (covered h);
  ys_got : forall i, 1 <= i -> covered h i -> got h i \/ Ab s fi i }.
Lemma ys_step : forall s o s' fi held h, YS s fi held h -> fair held o -> (forall i, 1 <= i -> A_op s o fi i -> covered h i) -> sstep s o = Ok s' ->
  YS s' fi (held_after s o held) h /\ prims (A_op s o) (B_op s o) s s'.
Proof.
  intros s o s' fi held h [f t c op m k g] Hf HA E. pose proof (step_open s o f c op) as St. rewrite E in St. destruct St as [(op' & P)|(-> & _)]; [|destruct Hf]. split; [|exact P].
  constructor; [exact (prims_full _ _ _ _ P f)|exact (prims_ti _ _ _ _ P f t)|exact (prims_cb _ _ _ _ P c)|exact op'|exact (mi_step _ _ _ _ _ f t c op Hf E m)|exact (prims_k _ _ _ _ _ _ P f t HA k)|].
  intros i Hi Hc. destruct (g i Hi Hc); [left; assumption|right; eapply prims_ab; eauto].
Qed.
(** Another event reaches the receiver. *)
Lemma ys_event : forall s fi held h e, YS s fi held h -> from s fi e -> YS s fi held (h ++ [e]).
Proof.
  intros s fi held h e [f t c op m k g] He. constructor; auto; [apply (k_weaken _ _ _ _ (fun i H => covered_app h [e] i H) k)|].
  intros i Hi Hc. destruct (cov_dec h i) as [Hh|Hh]; [destruct (g i Hi Hh); [left; apply got_snoc; auto|auto]|]. apply covered_snoc in Hc. destruct Hc as [Hc|Hc]; [contradiction|].
  destruct e as [|flags seq fsn data| | | | |]; try (exfalso; exact Hc). destruct (from_facts s fi flags seq fsn data f t He) as (x & fra & d & f1 & f2 & f3 & f4 & f5 & f6 & f7 & f8 & f9 & f10 & f11 & f12 & f13 & f14 & f15).
  cbn in Hc. destruct (Z.eq_dec i seq) as [-> | N].
  - destruct (Z.eq_dec (Z.land flags 2) 0) as [Ez|Ez]; [left; apply got_snoc; right; split; [split; auto|exact Hh]|right; exact (f14 Ez)].
  - subst fsn. destruct (k_wire _ _ _ k x f1 f2 i ltac:(lia)) as [H|H]; [contradiction|auto].
Qed.
Lemma ys_events : forall es s fi held h, YS s fi held h -> Forall (from s fi) es -> YS s fi held (h ++ es).
Proof.
  induction es as [|e es IH]; intros s fi held h H He; [rewrite app_nil_r; exact H|]. inversion He; subst. replace (h ++ e :: es) with ((h ++ [e]) ++ es) by (rewrite <- app_assoc; reflexivity). apply IH; auto. apply ys_event; auto.
Qed.

Record YI (fi : nat) (y : world) : Prop := {
  yi_s : YS (y_s y) fi (y_held y) (y_hist y);
  yi_r : exists f0, rf_init [] = Ok f0 /\ rf_run f0 (EvAccept :: y_hist y) = Ok (y_r y);
  yi_passive : Forall passive (y_hist y);
  yi_from : Forall (from (y_s y) fi) (y_hist y);
  yi_id : forall id, y_id y = Some id -> 0 < id <= LONG_MAX;
  yi_net : Forall (good_data (y_s y) fi) (y_net y);
  yi_acks : Forall (good_ack (y_hist y)) (y_acks y) }.

Lemma good_data_more : forall s s' fi p, incl (s_wire s) (s_wire s') -> good_data s fi p -> good_data s' fi p.
Proof.
  intros s s' fi p Hi H k Hk. destruct (H k Hk) as (pp & us & h1 & h2 & h3). exists pp, us. split; [exact h1|]. split; [exact h2|]. eapply Forall_impl; [|exact h3]. intros u (a & b). split; [eapply from_more; eauto|exact b].
Qed.
Lemma good_ack_more : forall h es p, good_ack h p -> good_ack (h ++ es) p.
Proof.
  intros h es p H k Hk. destruct (H k Hk) as (pp & pre & pl & ka & h1 & h2 & h3 & h4 & h5 & h6). exists pp, pre, pl, ka. split; [exact h1|]. split; [exact h2|]. split; [exact h3|]. split; [exact h4|]. split; [exact h5|]. intros i Hi Ha. apply covered_app. auto.
Qed.

(** Events the receiver takes. *)
Lemma recv_goes : forall s fi held h r es, YS s fi held h -> (exists f0, rf_init [] = Ok f0 /\ rf_run f0 (EvAccept :: h) = Ok r) -> Forall passive (h ++ es) -> Forall (from s fi) (h ++ es) ->
  exists r', rf_run r es = Ok r' /\ exists f0, rf_init [] = Ok f0 /\ rf_run f0 (EvAccept :: h ++ es) = Ok r'.
Proof.
  intros s fi held h r es H (f0 & i1 & i2) Hp Hf. destruct (conf s fi held (h ++ es) (ys_full _ _ _ _ H) (ys_ti _ _ _ _ H) (ys_mi _ _ _ _ H) Hf) as (ms & ms' & _ & _ & _ & _ & c1 & c2 & _).
  destruct (recv_exact_sequence ms' (h ++ es) f0 c1 i1 c2 Hp) as (r' & Er & _). exists r'. split; [|eauto]. change (EvAccept :: h ++ es) with ((EvAccept :: h) ++ es) in Er. rewrite rf_run_app, i2 in Er. exact Er.
Qed.

Lemma ack_made : forall s fi held h r buf margin flags ts tse id tr ecn, YS s fi held h -> (exists f0, rf_init [] = Ok f0 /\ rf_run f0 (EvAccept :: h) = Ok r) -> Forall passive h -> Forall (from s fi) h ->
  header_fits buf margin flags ts tse = true -> match ecn with None => True | Some c => is_byte c end -> 0 < id <= LONG_MAX ->
  exists p0 p r' ok, pa_init_header buf margin flags ts tse = Ok p0 /\ assemble_ack p0 r id tr ecn = Ok (p, r', ok) /\ (ok = true -> rf_step r EvAck = Ok r' /\ good_ack h (margin, pa_to_vector p)).
Proof.
  intros s fi held h r buf margin flags ts tse id tr ecn H (f0 & i1 & i2) Hp Hf Hh He Hid.
  destruct (conf s fi held h (ys_full _ _ _ _ H) (ys_ti _ _ _ _ H) (ys_mi _ _ _ _ H) Hf) as (ms & ms' & _ & _ & _ & _ & c1 & c2 & c3).
  destruct (never_rejects ms' h f0 r c1 i1 c2 Hp i2) as (n1 & n2). destruct (header_fits_inv _ _ _ _ _ Hh) as (hz & hm & hf & ht & hte).
  destruct (ack_truthful_bytes buf margin flags ts tse [] [] (EvAccept :: h) f0 r id tr ecn hf ht hte hm ltac:(lia) (Forall_nil _) i1 (Forall_cons EvAccept Logic.I c3) i2) as (p0 & p1 & bs & p2 & f' & ok & a1 & a2 & a3 & a4); auto.
  - unfold is_u64, U64MAX, LONG_MAX in *. lia.
  - lia.
  - rewrite n2. unfold is_u64, U64MAX. lia.
  - cbn in a2. apply Ok_inj in a2. injection a2 as <- <-. exists p0, p2, f', ok. split; [exact a1|]. split; [exact a3|]. intros ->. split; [eapply ack_flow; exact a3|]. intros k Hk. destruct (a4 always k Hk eq_refl) as (pp & pl & ka & b1 & b2 & b3 & b4 & b5).
    cbn [PacketSpec.added app] in b2. exists pp, (ack_before r id ecn), pl, ka. split; [exact b1|]. split; [exact b2|]. split.
    + unfold ack_before. unfold RF_REJECTED in n1. destruct (Z.eqb_spec (f_state r) 1); [contradiction|]. rewrite app_nil_r. destruct ecn; constructor; [cbn; lia|constructor].
    + split; [exact b3|]. split; [exact b4|]. intros i Hi Ha. destruct b5 as (_ & _ & _ & N & b5 & _). apply (b5 i Hi) in Ha. destruct Ha as ((e & [<- | hin] & hc) & _); [destruct hc|]. exists e. auto.
Qed.
Lemma take_last : forall pre s pl, Forall (fun c => fst c <> 81 /\ fst c <> 94) pre -> take_acks s (pre ++ [(81, pl)]) = sstep s (SAck pl).
Proof.
  induction pre as [|(t, l) pre IH]; intros s pl H; cbn [app take_acks].
  - change (81 =? CHUNK_ACK_RANGES) with true. cbv iota. destruct (sstep s (SAck pl)); reflexivity.
  - inversion H; subst. cbn [fst] in *. unfold CHUNK_ACK_RANGES, CHUNK_EXCEPTION. destruct (Z.eqb_spec t 81); [tauto|]. destruct (Z.eqb_spec t 94); [tauto|]. apply IH. assumption.
Qed.

(** ** Steps *)
Lemma allowed_fair : forall fi held s o, allowed fi held s o = true -> fair held o.
Proof.
  intros fi held s o H. destruct o; cbn in *; auto; try discriminate. intros i Hi. rewrite forallb_forall in H.
  match type of H with forall x, In x ?l -> _ => assert (Hi' : In i l) by exact Hi end. specialize (H i Hi'). apply existsb_exists in H. destruct H as (j & Hj & E). apply Nat.eqb_eq in E. subst j. exact Hj.
Qed.
Lemma allowed_ack : forall fi held s o i, allowed fi held s o = true -> ~ A_op s o fi i.
Proof.
  intros fi held s o i H. destruct o; cbn in *; auto. intros (k & e1 & e2 & _). rewrite e1, e2, Nat.eqb_refl in H. discriminate.
Qed.
Lemma who_holds : forall fi s o held mine,
  match o with
  | SWrite fj _ _ _ _ => if (w_live (wget s fj) : bool) then (length (rs_all (s_rcpts s)) :: held, if Nat.eqb fj fi then length (rs_all (s_rcpts s)) :: mine else mine) else (held, mine)
  | _ => (held, mine) end = (held_after s o held, mine_after fi s o mine).
Proof. intros fi s o held mine. destruct o; try reflexivity. cbn [held_after mine_after]. destruct (w_live (wget s fi0)), (Nat.eqb fi0 fi); reflexivity. Qed.
(** A step of the sending session, and the packets of [fi] it sends. *)
Definition send_part (fi : nat) (s : sess) (o : sop) : res (sess * list (nat * list Z)) :=
  match o with
  | SSend fj gone buf margin flags ts tse onames =>
      ' (s, pk) <- send_packet s fj gone buf margin flags ts tse onames;;
      Ok (s, if Nat.eqb fj fi then match pk with Some v => [(margin, v)] | None => [] end else [])
  | _ => s <- sstep s o;; Ok (s, [])
  end.
Lemma send_part_step : forall fi s o held h, YS s fi held h -> allowed fi held s o = true ->
  match send_part fi s o with
  | Ok (s', pk) => sstep s o = Ok s' /\ YS s' fi (held_after s o held) h /\ incl (s_wire s) (s_wire s') /\ Forall (good_data s' fi) pk
  | Rej => True | UB => False end.
Proof.
  intros fi s o held h H Ha. pose proof (ys_full _ _ _ _ H) as HF. pose proof (step_open s o HF (ys_cu _ _ _ _ H) (ys_open _ _ _ _ H)) as St.
  pose proof (allowed_fair _ _ _ _ Ha) as Hf. assert (HA : forall i, 1 <= i -> A_op s o fi i -> covered h i) by (intros i _ h1; destruct (allowed_ack _ _ _ _ i Ha h1)).
  assert (Plain : match rbind (sstep s o) (fun s' => Ok (s', @nil (nat * list Z))) with
    | Ok (s', pk) => sstep s o = Ok s' /\ YS s' fi (held_after s o held) h /\ incl (s_wire s) (s_wire s') /\ Forall (good_data s' fi) pk | Rej => True | UB => False end).
  { destruct (sstep s o) as [s'| |] eqn:E; cbn [rbind]; auto. destruct (ys_step s o s' fi held h H Hf HA E) as (H' & P). split; [reflexivity|]. split; [exact H'|]. split; [eapply prims_wire; exact P|constructor]. }
  destruct o; try exact Plain. clear Plain. cbn [send_part]. cbn [sstep] in St. unfold do_send in St.
  destruct (send_packet s fi0 gone buf margin flags ts tse onames) as [(s', pk)| |] eqn:E; cbn [rbind] in *; auto.
  assert (Es : sstep s (SSend fi0 gone buf margin flags ts tse onames) = Ok s') by (cbn [sstep]; unfold do_send; rewrite E; reflexivity).
  destruct (ys_step s _ s' fi held h H Hf HA Es) as (H' & P). split; [exact Es|]. split; [exact H'|]. split; [eapply prims_wire; exact P|].
  destruct (Nat.eqb_spec fi0 fi) as [-> | N]; [|constructor]. destruct pk as [v|]; [|constructor]. constructor; [|constructor].
  eapply sent_good; [exact HF|exact (ys_ti _ _ _ _ H)| |exact E|exact P]. unfold send_packet in E. destruct (w_bound (wget s fi)); [reflexivity|]. rewrite andb_false_r in E. discriminate.
Qed.

Lemma y_init_shape : forall y, y_init = Ok y -> exists f0, rf_init [] = Ok f0 /\ y = mkW ss_init (with_accepted f0) [] [] [] [] [] None.
Proof.
  intros y. unfold y_init. generalize (rf_init []). intros [f0| |] H; cbn [rbind] in H; try discriminate. exists f0. split; [reflexivity|]. apply Ok_inj in H. symmetry. exact H.
Qed.
Lemma yi_init : forall fi y, y_init = Ok y -> YI fi y.
Proof.
  intros fi y H. destruct (y_init_shape y H) as (f0 & E & ->). clear H. constructor; cbn [y_s y_r y_hist y_net y_acks y_held y_id].
  - constructor; [exact full_init|exact ti_init| |reflexivity|apply mi_init| |].
    + intros fj. assert (wget ss_init fj = w_none) as -> by (destruct fj; reflexivity). reflexivity.
    + constructor; [|intros x []]. assert (wget ss_init fi = w_none) as -> by (destruct fi; reflexivity). cbn. intros _ i Hi. lia.
    + intros i _ (e & [] & _).
  - exists f0. split; [exact E|reflexivity].
  - constructor.
  - constructor.
  - discriminate.
  - constructor.
  - constructor.
Qed.
Lemma passive_ev : forall us, Forall passive (map ev_of us).
Proof. intros us. rewrite Forall_forall. intros e H. apply in_map_iff in H. destruct H as (u & <- & _). exact Logic.I. Qed.
Lemma more_net : forall s s' fi l, incl (s_wire s) (s_wire s') -> Forall (good_data s fi) l -> Forall (good_data s' fi) l.
Proof. intros s s' fi l Hi H. eapply Forall_impl; [|exact H]. intros p. apply good_data_more, Hi. Qed.
Lemma more_acks : forall h es l, Forall (good_ack h) l -> Forall (good_ack (h ++ es)) l.
Proof. intros h es l H. eapply Forall_impl; [|exact H]. intros p. apply good_ack_more. Qed.

Lemma yi_step : forall fi y o, YI fi y -> match ystep fi y o with Ok y' => YI fi y' | Rej => True | UB => False end.
Proof.
  intros fi y o H. destruct H as [hs hr hp hf hid hn ha]. destruct o as [o|n pad|e|buf margin flags ts tse tr ecn|n pad]; cbn [ystep].
  - destruct (allowed fi (y_held y) (y_s y) o) eqn:Ea; [|exact Logic.I]. rewrite who_holds. fold (send_part fi (y_s y) o). pose proof (send_part_step fi _ o _ _ hs Ea) as S. destruct (send_part fi (y_s y) o) as [(s', pk)| |]; cbn [rbind]; auto.
    destruct S as (_ & S1 & S2 & S3). constructor; cbn [y_s y_r y_hist y_net y_acks y_held y_id]; auto.
    + eapply Forall_impl; [|exact hf]. intros e. apply from_more, S2.
    + apply Forall_app. split; [eapply more_net; eauto|exact S3].
  - destruct (nth_error (y_net y) n) as [(margin, v)|] eqn:En; [|exact Logic.I]. destruct (Z.ltb_spec (Z.of_nat pad) 65538) as [Hk|]; [|exact Logic.I]. apply nth_error_In in En. rewrite Forall_forall in hn. destruct (hn _ En pad Hk) as (pp & us & e1 & e2 & e3).
    cbn [fst snd] in e1. rewrite e1. cbn [rbind]. rewrite e2. cbn [rbind].
    assert (Hev : Forall (from (y_s y) fi) (map ev_of us)) by (rewrite Forall_forall; intros e He; apply in_map_iff in He; destruct He as (u & <- & Hu); rewrite Forall_forall in e3; apply e3, Hu).
    destruct (recv_goes _ fi _ _ _ (map ev_of us) hs hr) as (r' & Er & hr'); [apply Forall_app; split; [exact hp|apply passive_ev]|apply Forall_app; auto|]. rewrite Er.
    constructor; cbn [y_s y_r y_hist y_net y_acks y_held y_id]; [apply ys_events; auto|exact hr'|apply Forall_app; split; [exact hp|apply passive_ev]|apply Forall_app; auto| |rewrite Forall_forall; exact hn|apply more_acks, ha].
    intros id Hi. destruct (y_id y) as [id0|]; [apply hid, Hi|]. destruct us as [|u us]; [discriminate|]. injection Hi as <-. inversion e3; subst. apply H1.
  - destruct (quiet_event e) eqn:Eq; [|exact Logic.I]. assert (Hpe : passive e) by (destruct e as [| | |[]| | |]; try discriminate; exact Logic.I). assert (Hfe : from (y_s y) fi e) by (destruct e; try discriminate; exact Logic.I).
    destruct (recv_goes _ fi _ _ _ [e] hs hr) as (r' & Er & hr'); [apply Forall_app; auto|apply Forall_app; auto|]. cbn [rf_run] in Er. destruct (rf_step (y_r y) e) as [r1| |]; cbn [rbind] in Er; try discriminate. apply Ok_inj in Er. subst r1.
    constructor; cbn [y_s y_r y_hist y_net y_acks y_held y_id]; [apply ys_event; auto|exact hr'|apply Forall_app; auto|apply Forall_app; auto|exact hid|exact hn|apply more_acks, ha].
  - destruct (y_id y) as [id|] eqn:Ei; [|exact Logic.I]. destruct (header_fits buf margin flags ts tse) eqn:Eh; [|exact Logic.I]. cbn [andb]. match goal with |- match (if ?b then _ else _) with _ => _ end => destruct b eqn:Eb end; [|exact Logic.I].
    assert (He : match ecn with None => True | Some c => is_byte c end) by (destruct ecn; [unfold is_byteb in Eb; unfold is_byte; lia|exact Logic.I]).
    destruct (ack_made _ fi _ _ _ buf margin flags ts tse id tr ecn hs hr hp hf Eh He (hid _ eq_refl)) as (p0 & p & r' & ok & a1 & a2 & a3). rewrite a1. cbn [rbind]. rewrite a2. cbn [rbind].
    destruct ok; [|constructor; rewrite ?Ei; auto]. destruct (a3 eq_refl) as (a4 & a5).
    constructor; cbn [y_s y_r y_hist y_net y_acks y_held y_id]; [apply ys_event; [exact hs|exact Logic.I]| |apply Forall_app; split; [exact hp|constructor; [exact Logic.I|constructor]]|apply Forall_app; split; [exact hf|constructor; [exact Logic.I|constructor]]|exact hid|exact hn|].
    + destruct hr as (f0 & i1 & i2). exists f0. split; [exact i1|]. change (EvAccept :: y_hist y ++ [EvAck]) with ((EvAccept :: y_hist y) ++ [EvAck]). rewrite rf_run_app, i2. cbn [rf_run]. rewrite a4. reflexivity.
    + apply Forall_app. split; [apply more_acks, ha|]. constructor; [apply good_ack_more, a5|constructor].
  - destruct (nth_error (y_acks y) n) as [(margin, v)|] eqn:En; [|exact Logic.I]. destruct (Z.ltb_spec (Z.of_nat pad) 65538) as [Hk|]; [|exact Logic.I]. apply nth_error_In in En. rewrite Forall_forall in ha. destruct (ha _ En pad Hk) as (pp & pre & pl & ka & e1 & e2 & e3 & e4 & e5 & e6).
    cbn [fst snd] in e1. rewrite e1. cbn [rbind]. rewrite e2, take_last by exact e3. pose proof (step_open (y_s y) (SAck pl) (ys_full _ _ _ _ hs) (ys_cu _ _ _ _ hs) (ys_open _ _ _ _ hs)) as St. destruct (sstep (y_s y) (SAck pl)) as [s'| |] eqn:Es; cbn [rbind]; auto.
    destruct (ys_step (y_s y) (SAck pl) s' fi (y_held y) (y_hist y) hs Logic.I) as (H' & P); [|exact Es|].
    + intros i Hi (k & k1 & _ & k3). rewrite e5 in k1. apply Ok_inj in k1. subst k. auto.
    + constructor; cbn [y_s y_r y_hist y_net y_acks y_held y_id]; auto.
      * eapply Forall_impl; [|exact hf]. intros e. apply from_more. eapply prims_wire; exact P.
      * eapply more_net; [eapply prims_wire; exact P|exact hn].
      * rewrite Forall_forall. exact ha.
Qed.
Lemma yi_run : forall fi os y, YI fi y -> match yrun fi y os with Ok y' => YI fi y' | Rej => True | UB => False end.
Proof.
  intros fi. induction os as [|o os IH]; intros y H; cbn [yrun]; [exact H|]. pose proof (yi_step fi y o H) as S. destruct (ystep fi y o); cbn [rbind]; auto. apply IH, S.
Qed.

(** ** What is written *)
Definition new_msg (fi : nat) (s : sess) (o : sop) : list (list Z) := match o with SWrite fj msg _ _ _ => if Nat.eqb fj fi && w_live (wget s fj) then [msg] else [] | _ => [] end.
Lemma add_frags_msgs : forall frs names s fi rc s' fj, add_frags s fi rc names frs = Ok s' -> w_msgs (wget s' fj) = w_msgs (wget s fj).
Proof.
  induction frs as [|fr frs IH]; intros names s fi rc s' fj E; cbn [add_frags] in E; [apply Ok_inj in E; subst; reflexivity|]. destruct names as [|nm names]; [discriminate|].
  destruct (add_frag s fi rc nm fr) as [s1| |] eqn:E1; cbn [rbind] in E; try discriminate. rewrite (IH _ _ _ _ _ fj E). destruct (add_frag_flow _ _ _ _ _ _ fj E1) as (q & n & x & t & ->). reflexivity.
Qed.
Lemma exception_msgs : forall s fj names s' fi, Full s -> TI s -> s_open s = true -> (fj < length (s_flows s))%nat -> on_exception s fj names = Ok s' -> w_msgs (wget s' fi) = w_msgs (wget s fi).
Proof.
  intros s fj names s' fi HF T Ho Hl He. unfold on_exception in He. set (s0 := wset s fj (with_exc (wget s fj))) in *.
  assert (P0 : prim (fun _ _ => False) (fun _ => False) s s0) by (apply pr_flow; constructor; cbn; auto).
  pose proof (prim_full _ _ _ _ P0 HF) as HF0. pose proof (prim_ti _ _ _ _ HF T P0) as T0. destruct (prim_msgs _ _ _ _ fi P0 (fun n h => h)) as (a0 & _).
  destruct (do_close s0 fj names) as [s1| |] eqn:E1; cbn [rbind] in He; try discriminate. apply Ok_inj in He.
  assert (Hl0 : (fj < length (s_flows s0))%nat) by (unfold s0; rewrite flows_wset; exact Hl). destruct (close_eff s0 fj names s1 HF0 T0 Ho Hl0 E1) as (h1 & _).
  pose proof (abandon_prims (fun _ _ => False) (fun o => exists i, o = RAbandon i) (fun e => g_rcpt (gget s1 (snd e))) (w_queue (wget s1 fj)) s1 (fun e _ => ex_intro _ _ eq_refl)) as P2. cbv beta in P2. rewrite He in P2.
  assert (Nu : forall n, ~ (exists i, RUp n = RAbandon i)) by (intros n (i & h); discriminate). destruct (prims_msgs _ _ _ _ fi P2 Nu) as (a1 & _). rewrite a1, h1. exact a0.
Qed.
Lemma step_msgs : forall s o s' fi, Full s -> TI s -> closed_unbound s -> s_open s = true -> o <> SSessionClose -> sstep s o = Ok s' -> w_msgs (wget s' fi) = w_msgs (wget s fi) ++ new_msg fi s o.
Proof.
  intros s o s' fi HF T C Ho Hn He. pose proof (step_open s o HF C Ho) as St. rewrite He in St. destruct St as [(_ & P)|(-> & _)]; [|congruence].
  assert (Quiet : (forall n, ~ B_op s o (RUp n)) -> w_msgs (wget s' fi) = w_msgs (wget s fi)) by (intros Nu; apply (prims_msgs _ _ _ _ fi P Nu)).
  destruct o; cbn [new_msg]; try (rewrite app_nil_r; apply Quiet; cbn; intros; tauto).
  - cbn [sstep] in He. destruct (bytes_okb msg); [|discriminate]. unfold do_write in He. destruct (w_live (wget s fi0)) eqn:Ev; [|apply Ok_inj in He; subst s'; rewrite andb_false_r, app_nil_r; reflexivity]. rewrite andb_true_r.
    unfold basic_write in He. cbv zeta in He. match type of He with rbind ?x _ = _ => destruct x as [frs| |]; cbn [rbind] in He; try discriminate end. apply add_frags_msgs with (fj := fi) in He. rewrite He. change (wget (set_rcpts ?x ?r) fi) with (wget x fi).
    pose proof (flow_there s fi0 (or_introl Ev)) as Hl. destruct (Nat.eqb_spec fi0 fi) as [-> | N]; [rewrite wget_wset_same by exact Hl; reflexivity|]. rewrite wget_wset_other by congruence. rewrite app_nil_r. reflexivity.
  - rewrite app_nil_r. cbn [sstep] in He. destruct (Nat.ltb_spec fi0 (length (s_flows s))) as [Hl|]; [|discriminate]. destruct (close_eff s fi0 _ s' HF T Ho Hl He) as (h1 & _). apply h1.
  - rewrite app_nil_r. cbn [sstep] in He. unfold do_exception in He. destruct (find_flow id (s_flows s) 0) as [fj|] eqn:Ef; [|apply Ok_inj in He; subst s'; reflexivity]. pose proof (find_flow_bound _ _ _ _ Ef) as (Hl & _). eapply exception_msgs; eauto. lia.
  - rewrite app_nil_r. cbn [sstep] in He. destruct (Nat.ltb_spec fi0 (length (s_flows s))) as [Hl|]; [|discriminate]. unfold do_open_failed in He. destruct (w_bound (wget s fi0)) eqn:Eb; [discriminate|]. unfold on_session_close in He.
    pose proof (exception_prims (fun _ _ => False) (Bexc s fi0 []) s fi0 [] HF Ho Hl (fun o h => h)) as H. destruct (on_exception s fi0 []) as [s1| |] eqn:E1; cbn [rbind] in He; try discriminate. apply Ok_inj in He.
    destruct H as (P1 & _ & H). destruct (H Eb) as (b1 & b2). assert (P2 : prim (fun _ _ => False) (fun _ => False) s1 s') by (rewrite <- He; apply pr_clear; assumption).
    destruct (prim_msgs _ _ _ _ fi P2 (fun n h => h)) as (-> & _). eapply exception_msgs; eauto.
  - rewrite app_nil_r. apply Quiet. intros n (<- & h). discriminate.
Qed.
Lemma yi_msgs_step : forall fi y o y', YI fi y -> ystep fi y o = Ok y' -> w_msgs (wget (y_s y') fi) = w_msgs (wget (y_s y) fi) ++ accepted fi y o.
Proof.
  intros fi y o y' H E. pose proof (yi_s _ _ H) as S. destruct o as [o|n pad|e|buf margin flags ts tse tr ecn|n pad]; cbn [ystep accepted] in *.
  - destruct (allowed fi (y_held y) (y_s y) o) eqn:Ea; [|discriminate]. rewrite who_holds in E. fold (send_part fi (y_s y) o) in E. pose proof (send_part_step fi _ o _ _ S Ea) as P. destruct (send_part fi (y_s y) o) as [(s', pk)| |]; cbn [rbind] in E; try discriminate.
    apply Ok_inj in E. subst y'. cbn [y_s]. destruct P as (P & _). change (match o with SWrite fj msg _ _ _ => _ | _ => _ end) with (new_msg fi (y_s y) o). apply step_msgs; [exact (ys_full _ _ _ _ S)|exact (ys_ti _ _ _ _ S)|exact (ys_cu _ _ _ _ S)|exact (ys_open _ _ _ _ S)| |exact P].
    intros ->. discriminate.
  - rewrite app_nil_r. destruct (nth_error (y_net y) n) as [(margin, v)|]; [|discriminate]. destruct (_ <? _); [|discriminate]. destruct (parse_packet _ _ _); cbn [rbind] in E; try discriminate. destruct (ud_packet _ _); cbn [rbind] in E; try discriminate. destruct (rf_run _ _); try discriminate. apply Ok_inj in E. subst y'. reflexivity.
  - rewrite app_nil_r. destruct (quiet_event e); [|discriminate]. destruct (rf_step _ _); try discriminate. apply Ok_inj in E. subst y'. reflexivity.
  - rewrite app_nil_r. destruct (y_id y); [|discriminate]. destruct (_ && _); [|discriminate]. destruct (pa_init_header _ _ _ _ _); cbn [rbind] in E; try discriminate. destruct (assemble_ack _ _ _ _ _) as [((p, f), ok)| |]; cbn [rbind] in E; try discriminate. apply Ok_inj in E. subst y'. destruct ok; reflexivity.
  - rewrite app_nil_r. destruct (nth_error (y_acks y) n) as [(margin, v)|] eqn:En; [|discriminate]. destruct (Z.ltb_spec (Z.of_nat pad) 65538) as [Hk|]; [|discriminate]. apply nth_error_In in En. pose proof (yi_acks _ _ H) as ha. rewrite Forall_forall in ha. destruct (ha _ En pad Hk) as (pp & pre & pl & ka & e1 & e2 & e3 & e4 & e5 & e6).
    cbn [fst snd] in e1. rewrite e1 in E. cbn [rbind] in E. rewrite e2, take_last in E by exact e3. destruct (sstep (y_s y) (SAck pl)) as [s'| |] eqn:Es; cbn [rbind] in E; try discriminate. apply Ok_inj in E. subst y'. cbn [y_s].
    rewrite (step_msgs (y_s y) (SAck pl) s' fi (ys_full _ _ _ _ S) (ys_ti _ _ _ _ S) (ys_cu _ _ _ _ S) (ys_open _ _ _ _ S)); [apply app_nil_r|discriminate|exact Es].
Qed.
Lemma yi_msgs : forall fi os y y', YI fi y -> yrun fi y os = Ok y' -> w_msgs (wget (y_s y') fi) = w_msgs (wget (y_s y) fi) ++ written fi y os.
Proof.
  intros fi. induction os as [|o os IH]; intros y y' H E; cbn [yrun written] in *; [apply Ok_inj in E; subst; symmetry; apply app_nil_r|]. pose proof (yi_step fi y o H) as S. destruct (ystep fi y o) as [y1| |] eqn:E1; cbn [rbind] in E; try discriminate.
  rewrite (IH y1 y' S E), (yi_msgs_step fi y o y1 H E1), <- app_assoc. reflexivity.
Qed.

(** ** What is delivered *)
Lemma never_got_closing : forall s fi h id rc t, Full s -> TI s -> Forall (from s fi) h -> cls s fi id rc t -> ~ got h (zlen (w_tab (wget s fi))).
Proof.
  intros s fi h id rc t HF T Hf Hc (h1 & e & h2 & -> & Hcar & _). apply Forall_app in Hf. destruct Hf as (_ & Hf). inversion Hf; subst. destruct e as [|flags seq fsn data| | | | |]; try (exfalso; exact Hcar). destruct Hcar as (-> & Hz).
  destruct (from_facts s fi _ _ _ _ HF T H1) as (x & fra & d & f1 & f2 & f3 & f4 & f5 & f6 & _ & _ & _ & _ & _ & _ & _ & _ & f15). apply f15 in Hz. revert Hz. apply (cl_wire _ _ _ _ _ Hc x f1). apply (ti_uniq _ T); [exact f5|exact (cl_id _ _ _ _ _ Hc)| |].
  - rewrite f6. symmetry. exact (cl_owner _ _ _ _ _ Hc).
  - rewrite <- f4. symmetry. exact (cl_seq _ _ _ _ _ Hc).
Qed.
Lemma outcome : forall fi y, YI fi y -> exists ms, map (@concat Z) ms = w_msgs (wget (y_s y) fi) /\ Forall (fun m => m <> []) ms
  /\ selection (msgs_of (f_out (y_r y))) (sent ms) /\ (forall m, In m (sent ms) -> (In m (msgs_of (f_out (y_r y))) <-> due_in_sequence (y_hist y) m))
  /\ ((zlen (w_tab (wget (y_s y) fi)) = zlen (table ms) /\ forall id, (id < length (s_heap (y_s y)))%nat -> g_owner (gget (y_s y) id) = fi -> In (g_rcpt (gget (y_s y) id)) (y_held y)) \/ (zlen (w_tab (wget (y_s y) fi)) = zlen (table ms) + 1 /\ exists id rc t, cls (y_s y) fi id rc t /\ ~ In rc (y_held y)))
  /\ Forall sane (y_hist y).
Proof.
  intros fi y [S (f0 & i1 & i2) hp hf _ _ _]. pose proof (ys_full _ _ _ _ S) as HF. pose proof (ys_ti _ _ _ _ S) as T.
  destruct (conf _ fi _ _ HF T (ys_mi _ _ _ _ S) hf) as (ms & ms' & c1 & c2 & c3 & c4 & c5 & c6 & c7). destruct (recv_exact_sequence ms' (y_hist y) f0 c5 i1 c6 hp) as (f & Ef & d1 & d2). rewrite i2 in Ef. apply Ok_inj in Ef. subst f.
  exists ms. split; [exact c1|]. split; [exact c2|]. destruct c3 as [(-> & Hall) | (-> & id & rc & t & Hc & Hn)].
  - split; [exact d1|]. split; [exact d2|]. split; [left; split; [rewrite <- c4; reflexivity|exact Hall]|exact c7].
  - assert (Et : zlen (w_tab (wget (y_s y) fi)) = zlen (table ms) + 1) by (rewrite <- c4; unfold table; rewrite flat_map_app, zlen_app; reflexivity).
    unfold sent in *. rewrite sent_from_app in *. cbn [sent_from] in *. split; [|split; [|split; [right; eauto 7|exact c7]]].
    + apply sel_last in d1; [exact d1|]. intros Hi. apply d2 in Hi; [|apply in_or_app; right; left; reflexivity]. destruct Hi as (Hg & _). apply (never_got_closing _ fi _ id rc t HF T hf Hc). apply Hg. rewrite Et. change (zlen [@nil Z]) with 1. lia.
    + intros m Hm. apply d2. apply in_or_app. left. exact Hm.
Qed.

(** ** Any use *)
Lemma run_invariant : forall fi os y0 y, y_init = Ok y0 -> yrun fi y0 os = Ok y -> YI fi y.
Proof. intros fi os y0 y H0 E. pose proof (yi_run fi os y0 (yi_init fi y0 H0)) as H. rewrite E in H. exact H. Qed.
Lemma run_written : forall fi os y0 y, y_init = Ok y0 -> yrun fi y0 os = Ok y -> w_msgs (wget (y_s y) fi) = written fi y0 os.
Proof.
  intros fi os y0 y H0 E. rewrite (yi_msgs fi os y0 y (yi_init fi y0 H0) E). destruct (y_init_shape y0 H0) as (f0 & _ & ->). cbn [y_s]. assert (wget ss_init fi = w_none) as -> by (destruct fi; reflexivity). reflexivity.
Qed.
Theorem never_stuck : forall fi os y0, y_init = Ok y0 -> yrun fi y0 os <> UB.
Proof. intros fi os y0 H0 E. pose proof (yi_run fi os y0 (yi_init fi y0 H0)) as H. rewrite E in H. exact H. Qed.
Theorem whole_in_order : forall fi os y0 y, y_init = Ok y0 -> yrun fi y0 os = Ok y ->
  selection (delivered y) (written fi y0 os)
  /\ exists ms, map (@concat Z) ms = written fi y0 os /\ Forall (fun m => m <> []) ms /\ selection (msgs_of (f_out (y_r y))) (sent ms)
     /\ (forall m, In m (sent ms) -> (In m (msgs_of (f_out (y_r y))) <-> due_in_sequence (y_hist y) m))
     /\ (forall content first count, In (content, first, count) (sent ms) -> (forall i, first <= i < first + count -> got (y_hist y) i) -> forwarded (y_hist y) (first - 1) -> In (content, first, count) (msgs_of (f_out (y_r y))))
     /\ (forall a m b m' c, sent ms = a ++ m :: b ++ m' :: c -> In m' (msgs_of (f_out (y_r y))) -> ~ In m (msgs_of (f_out (y_r y))) -> exists i, snd (fst m) <= i < snd (fst m) + snd m /\ given_up (y_s y) fi i)
     /\ (drained (y_s y) fi -> forall content first count, In (content, first, count) (sent ms) -> (forall i, 1 <= i < first + count -> ~ given_up (y_s y) fi i) -> In (content, first, count) (msgs_of (f_out (y_r y)))).
Proof.
  intros fi os y0 y H0 E. pose proof (run_invariant fi os y0 y H0 E) as Y. pose proof (run_written fi os y0 y H0 E) as W. pose proof (yi_s _ _ Y) as S. destruct (outcome fi y Y) as (ms & o1 & o2 & o3 & o4 & o5 & o6). rewrite W in o1.
  assert (Hcov : forall content first count, In (content, first, count) (sent ms) -> 1 <= first /\ 1 <= count /\ first + count <= 1 + zlen (table ms)) by (intros; apply (sent_range ms 1 content first count o2); assumption).
  split. { unfold delivered. rewrite <- o1, <- (sent_content ms 1). apply sel_map. exact o3. }
  exists ms. split; [exact o1|]. split; [exact o2|]. split; [exact o3|]. split; [exact o4|]. split; [|split].
  - intros content first count Hm Hg (flags & seq & fsn & data & Hin & Hle). apply o4; [exact Hm|]. split; [exact Hg|]. intros i Hi. destruct (Z.lt_ge_cases i first) as [Hlt|Hge]; [exists (EvData flags seq fsn data); split; [exact Hin|right; lia]|apply got_cov, Hg; lia].
  - intros a ((c0, f0), n0) b ((c1, f1), n1) c Es Hin Hnot. cbn [fst snd]. pose proof (sent_order ms 1 a _ b _ c o2 Es) as Ho. cbn [fst snd] in Ho.
    assert (Hm : In (c0, f0, n0) (sent ms)) by (rewrite Es; apply in_or_app; right; left; reflexivity). assert (Hm' : In (c1, f1, n1) (sent ms)) by (rewrite Es; apply in_or_app; right; right; apply in_or_app; right; left; reflexivity).
    apply o4 in Hin; [|exact Hm']. destruct Hin as (_ & Hcon). destruct (Hcov _ _ _ Hm) as (r1 & r2 & r3). destruct (Hcov _ _ _ Hm') as (r1' & r2' & r3').
    assert (Hx : (forall i, f0 <= i < f0 + n0 -> got (y_hist y) i) \/ exists i, f0 <= i < f0 + n0 /\ given_up (y_s y) fi i).
    { clear - S Hcon r1 r2 Ho r2' r1'. assert (Hn : n0 = Z.of_nat (Z.to_nat n0)) by lia. assert (Hle : Z.of_nat (Z.to_nat n0) <= n0) by lia. remember (Z.to_nat n0) as k eqn:Ek. rewrite Hn in *. clear Hn Ek n0.
      assert (Hk : f0 + Z.of_nat k <= f1) by lia. clear r2 Ho Hle. induction k as [|k IH]; [left; intros i Hi; lia|]. destruct IH as [IH|(i & Hi & Ha)]; [lia| |right; exists i; split; [lia|exact Ha]].
      destruct (ys_got _ _ _ _ S (f0 + Z.of_nat k)) as [Hg|Ha]; [lia|apply Hcon; lia| |right; exists (f0 + Z.of_nat k); split; [lia|exact Ha]]. left. intros i Hi. destruct (Z.eq_dec i (f0 + Z.of_nat k)) as [->|]; [exact Hg|apply IH; lia]. }
    destruct Hx as [Hx|Hx]; [|exact Hx]. exfalso. apply Hnot. apply o4; [exact Hm|]. split; [exact Hx|]. intros i Hi. apply Hcon. lia.
  - intros (D1 & D2) content first count Hm Hno. apply o4; [exact Hm|]. destruct (Hcov _ _ _ Hm) as (r1 & r2 & r3).
    assert (Hc : forall i, 1 <= i < first + count -> covered (y_hist y) i).
    { intros i Hi. destruct (k_queue _ _ _ (ys_k _ _ _ _ S) D1 i) as [(nm & id & Hq & _)|[Hc|Ha]]; [|rewrite D2 in Hq; destruct Hq|exact Hc|destruct (Hno i Hi Ha)]. rewrite (ti_next _ (ys_ti _ _ _ _ S)). destruct o5 as [(o5 & _)|(o5 & _)]; rewrite o5; lia. }
    split.
    + intros i Hi. destruct (ys_got _ _ _ _ S i ltac:(lia) (Hc i ltac:(lia))) as [Hg|Ha]; [exact Hg|destruct (Hno i ltac:(lia) Ha)].
    + intros i Hi. destruct (Z.eq_dec i 0) as [->|]; [apply (covered_zero _ 1 o6); apply Hc; lia|apply Hc; lia].
Qed.
(** A forward sequence number passes over nothing that is still wanted. *)
Theorem forward_truthful : forall fi os y0 y i, y_init = Ok y0 -> yrun fi y0 os = Ok y -> 1 <= i -> covered (y_hist y) i -> got (y_hist y) i \/ given_up (y_s y) fi i.
Proof. intros fi os y0 y i H0 E Hi Hc. exact (ys_got _ _ _ _ (yi_s _ _ (run_invariant fi os y0 y H0 E)) i Hi Hc). Qed.

(** ** Reliable use *)
Lemma reliable_step : forall fi y o y', YI fi y -> keeps_reliable fi y o -> ystep fi y o = Ok y' -> RI (y_s y) fi (y_held y) (y_mine y) -> RI (y_s y') fi (y_held y') (y_mine y').
Proof.
  intros fi y o y' H Hr E R. pose proof (yi_s _ _ H) as S. pose proof (ys_full _ _ _ _ S) as HF. pose proof (ys_ti _ _ _ _ S) as T. pose proof (ys_cu _ _ _ _ S) as C. pose proof (ys_open _ _ _ _ S) as Ho.
  destruct o as [o|n pad|e|buf margin flags ts tse tr ecn|n pad]; cbn [ystep] in *.
  - destruct (allowed fi (y_held y) (y_s y) o) eqn:Ea; [|discriminate]. rewrite who_holds in E. fold (send_part fi (y_s y) o) in E. pose proof (send_part_step fi _ o _ _ S Ea) as P. destruct (send_part fi (y_s y) o) as [(s', pk)| |]; cbn [rbind] in E; try discriminate.
    apply Ok_inj in E. subst y'. cbn [y_s y_held y_mine]. destruct P as (P & _). apply (ri_step _ _ _ _ _ _ HF T C Ho (allowed_fair _ _ _ _ Ea)); [|exact P|exact R].
    destruct o; cbn in *; auto. intros i Hi Ht. apply (Hr i Hi). destruct o; cbn in *; congruence.
  - destruct (nth_error (y_net y) n) as [(margin, v)|]; [|discriminate]. destruct (_ <? _); [|discriminate]. destruct (parse_packet _ _ _); cbn [rbind] in E; try discriminate. destruct (ud_packet _ _); cbn [rbind] in E; try discriminate. destruct (rf_run _ _); try discriminate. apply Ok_inj in E. subst y'. exact R.
  - destruct (quiet_event e); [|discriminate]. destruct (rf_step _ _); try discriminate. apply Ok_inj in E. subst y'. exact R.
  - destruct (y_id y); [|discriminate]. destruct (_ && _); [|discriminate]. destruct (pa_init_header _ _ _ _ _); cbn [rbind] in E; try discriminate. destruct (assemble_ack _ _ _ _ _) as [((p, f), ok)| |]; cbn [rbind] in E; try discriminate. apply Ok_inj in E. subst y'. destruct ok; exact R.
  - destruct (nth_error (y_acks y) n) as [(margin, v)|] eqn:En; [|discriminate]. destruct (Z.ltb_spec (Z.of_nat pad) 65538) as [Hk|]; [|discriminate]. apply nth_error_In in En. pose proof (yi_acks _ _ H) as ha. rewrite Forall_forall in ha. destruct (ha _ En pad Hk) as (pp & pre & pl & ka & e1 & e2 & e3 & e4 & e5 & e6).
    cbn [fst snd] in e1. rewrite e1 in E. cbn [rbind] in E. rewrite e2, take_last in E by exact e3. destruct (sstep (y_s y) (SAck pl)) as [s'| |] eqn:Es; cbn [rbind] in E; try discriminate. apply Ok_inj in E. subst y'. cbn [y_s y_held y_mine].
    exact (ri_step (y_s y) (SAck pl) s' fi (y_held y) (y_mine y) HF T C Ho Logic.I Logic.I Es R).
Qed.
Lemma reliable_inv : forall fi os y y', YI fi y -> RI (y_s y) fi (y_held y) (y_mine y) -> reliable_run fi y os -> yrun fi y os = Ok y' -> RI (y_s y') fi (y_held y') (y_mine y').
Proof.
  intros fi. induction os as [|o os IH]; intros y y' H R Hr E; cbn [yrun reliable_run] in *; [apply Ok_inj in E; subst; exact R|]. destruct Hr as (h1 & h2). pose proof (yi_step fi y o H) as S. destruct (ystep fi y o) as [y1| |] eqn:E1; cbn [rbind] in E; try discriminate.
  apply (IH y1 y' S); [exact (reliable_step fi y o y1 H h1 E1 R)|exact h2|exact E].
Qed.
Lemma reliable_keeps : forall fi os y0 y ms, y_init = Ok y0 -> yrun fi y0 os = Ok y -> reliable_run fi y0 os ->
  ((zlen (w_tab (wget (y_s y) fi)) = zlen (table ms) /\ forall id, (id < length (s_heap (y_s y)))%nat -> g_owner (gget (y_s y) id) = fi -> In (g_rcpt (gget (y_s y) id)) (y_held y))
    \/ (zlen (w_tab (wget (y_s y) fi)) = zlen (table ms) + 1 /\ exists id rc t, cls (y_s y) fi id rc t /\ ~ In rc (y_held y))) ->
  forall i, i <= zlen (table ms) -> ~ given_up (y_s y) fi i.
Proof.
  intros fi os y0 y ms H0 E Hr Ht i Hi Ha. pose proof (yi_init fi y0 H0) as Y0.
  assert (R0 : RI (y_s y0) fi (y_held y0) (y_mine y0)) by (destruct (y_init_shape y0 H0) as (f0 & _ & ->); apply ri_init).
  destruct (ri_ab _ _ _ _ i (reliable_inv fi os y0 y Y0 R0 Hr E) Ha) as (id & rc & t & Hc & Hn & Ei). destruct Ht as [(Ht & Hall)|(Ht & _)]; [|lia].
  apply Hn. rewrite <- (cl_rcpt _ _ _ _ _ Hc). apply Hall; [exact (cl_id _ _ _ _ _ Hc)|exact (cl_owner _ _ _ _ _ Hc)].
Qed.
Theorem prefix_delivered : forall fi os y0 y, y_init = Ok y0 -> yrun fi y0 os = Ok y -> reliable_run fi y0 os -> exists n, delivered y = firstn n (written fi y0 os).
Proof.
  intros fi os y0 y H0 E Hr. pose proof (run_invariant fi os y0 y H0 E) as Y. pose proof (run_written fi os y0 y H0 E) as W. pose proof (yi_s _ _ Y) as S. destruct (outcome fi y Y) as (ms & o1 & o2 & o3 & o4 & o5 & o6). rewrite W in o1.
  pose proof (reliable_keeps fi os y0 y ms H0 E Hr o5) as Hno. exists (length (msgs_of (f_out (y_r y)))). unfold delivered. rewrite <- o1, <- (sent_content ms 1), firstn_map. f_equal. apply sel_prefix; [exact o3|apply sent_nodup; exact o2|].
  intros a ((c0, f0), n0) b ((c1, f1), n1) c Es Hin. pose proof (sent_order ms 1 a _ b _ c o2 Es) as Ho. cbn [fst snd] in Ho.
  assert (Hm : In (c0, f0, n0) (sent ms)) by (unfold sent; rewrite Es; apply in_or_app; right; left; reflexivity). assert (Hm' : In (c1, f1, n1) (sent ms)) by (unfold sent; rewrite Es; apply in_or_app; right; right; apply in_or_app; right; left; reflexivity).
  apply o4 in Hin; [|exact Hm']. destruct Hin as (_ & Hcon). destruct (sent_range ms 1 _ _ _ o2 Hm) as (r1 & r2 & r3). destruct (sent_range ms 1 _ _ _ o2 Hm') as (r1' & r2' & r3').
  apply o4; [exact Hm|]. split; [|intros i Hi; apply Hcon; lia]. intros i Hi. destruct (ys_got _ _ _ _ S i ltac:(lia) (Hcon i ltac:(lia))) as [Hg|Ha]; [exact Hg|]. destruct (Hno i ltac:(lia) Ha).
Qed.
Theorem all_delivered : forall fi os y0 y, y_init = Ok y0 -> yrun fi y0 os = Ok y -> reliable_run fi y0 os -> drained (y_s y) fi -> delivered y = written fi y0 os.
Proof.
  intros fi os y0 y H0 E Hr D. pose proof (run_invariant fi os y0 y H0 E) as Y. pose proof (run_written fi os y0 y H0 E) as W. pose proof (yi_s _ _ Y) as S. destruct (outcome fi y Y) as (ms & o1 & o2 & o3 & o4 & o5 & o6). rewrite W in o1.
  pose proof (reliable_keeps fi os y0 y ms H0 E Hr o5) as Hno. destruct D as (D1 & D2).
  assert (Hc : forall i, 1 <= i <= zlen (table ms) -> covered (y_hist y) i).
  { intros i Hi. destruct (k_queue _ _ _ (ys_k _ _ _ _ S) D1 i) as [(nm & id & Hq & _)|[Hc|Ha]]; [|rewrite D2 in Hq; destruct Hq|exact Hc|destruct (Hno i ltac:(lia) Ha)]. rewrite (ti_next _ (ys_ti _ _ _ _ S)). destruct o5 as [(o5 & _)|(o5 & _)]; rewrite o5; lia. }
  unfold delivered. rewrite <- o1, <- (sent_content ms 1). f_equal. apply sel_all; [exact o3|apply sent_nodup; exact o2|]. intros ((c0, f0), n0) Hm. destruct (sent_range ms 1 _ _ _ o2 Hm) as (r1 & r2 & r3). apply o4; [exact Hm|]. split.
  - intros i Hi. destruct (ys_got _ _ _ _ S i ltac:(lia) (Hc i ltac:(lia))) as [Hg|Ha]; [exact Hg|destruct (Hno i ltac:(lia) Ha)].
  - intros i Hi. destruct (Z.eq_dec i 0) as [->|]; [apply (covered_zero _ 1 o6); apply Hc; lia|apply Hc; lia].
Qed.
