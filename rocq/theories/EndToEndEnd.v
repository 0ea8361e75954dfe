(** The end of a flow, from close() at one end to onComplete at the other. *)
From Verif Require Import Base BaseFacts VLU VLUSpec VLUProofs Packet PacketSpec PacketProofs UserData UserDataSpec UserDataProofs IndexSet IndexSetSpec RecvFlow RecvFlowSpec RecvFlowAny RecvFlowMsg RecvFlowRun RecvFlowPeer RecvFlowEnd Ack AckSpec AckProofs WriteReceipt SendFlow SendFlowSpec SendFlowProofs SendFlowInv SendFlowSteps SendFlowRun SendFlowTrack SendFlowOps SendFlowRel SendFlowEnd EndToEnd EndToEndSpec EndToEndProofs.
Ltac Zify.zify_post_hook ::= Z.div_mod_to_equations.

(** A flow that was closed orderly has a last number. *)
Definition FC (s : sess) : Prop := forall fi, w_state (wget s fi) = FS_CLOSING \/ w_state (wget s fi) = FS_LINGER -> w_final (wget s fi) = w_next (wget s fi) - 1 /\ 1 < w_next (wget s fi).
Lemma prim_fc : forall A B s s', prim A B s s' -> Full s -> FC s -> FC s'.
Proof.
  intros A B s s' P HF H fj Hs. set (tri := fun w => (w_state w, w_final w, w_next w)).
  assert (Same : tri (wget s' fj) = tri (wget s fj) -> w_final (wget s' fj) = w_next (wget s' fj) - 1 /\ 1 < w_next (wget s' fj)).
  { unfold tri. intros E. injection E as e1 e2 e3. rewrite e1 in Hs. rewrite e2, e3. apply H, Hs. }
  assert (U : forall s0 fi nm id, tri (wget (unqueue s0 fi nm id) fj) = tri (wget s0 fj)).
  { intros. unfold unqueue. cbn zeta. change (wget (set_rcpts ?x ?y) fj) with (wget x fj). rewrite wget_wset. destruct (Nat.eqb_spec fi fj) as [->|]; [|reflexivity]. destruct (Nat.ltb _ _); reflexivity. }
  destruct P; try (apply Same; reflexivity).
  - destruct (add_frag_flow _ _ _ _ _ _ fj H6) as (q & n & x & t & E). destruct (Nat.eq_dec fi fj) as [->|N]; [|].
    + rewrite E in Hs. cbn in Hs. rewrite H1 in Hs. destruct Hs; discriminate.
    + apply Same. pose proof (fi_next _ _ (fu_fi _ HF fi)) as (Hn & _). destruct (add_one s fi rc nm fr s' H0 ltac:(lia) H6) as (M & _). rewrite (mo_other _ _ _ _ _ _ M fj) by congruence. reflexivity.
  - apply Same. rewrite wget_wset. destruct (Nat.eqb_spec fi fj) as [->|]; [|reflexivity]. destruct (Nat.ltb _ _); reflexivity.
  - apply Same. destruct (mark_sent_flow s fi nm id o fsn fr abn size fj) as (n & l & ->). reflexivity.
  - apply Same, U.
  - apply Same, U.
  - apply Same. rewrite U. unfold forget. cbn zeta. rewrite wget_wset. destruct (Nat.eqb_spec fi fj) as [->|]; [|reflexivity]. destruct (Nat.ltb _ _); reflexivity.
  - apply Same. unfold lose_one. cbn zeta. change (wget (set_out ?x ?y ?z) fj) with (wget x fj). destruct (lose_flow s id nak fj) as (n & l & ->). reflexivity.
  - rewrite wget_wset in Hs, Same |- *. destruct (Nat.eqb_spec fi fj) as [->|]; [|apply Same; reflexivity]. destruct (Nat.ltb_spec fj (length (s_flows s))); [|apply Same; reflexivity]. cbn [andb] in *.
    destruct (fu_state _ _ _ H0) as [e|[(_ & e & e1 & e2 & e3)|[(e & e1 & _)|(_ & e)]]].
    + apply Same. unfold tri. rewrite e, (fu_next _ _ _ H0). destruct (fu_final _ _ _ H0) as [-> | (_ & f1 & f2 & _)]; [reflexivity|]. congruence.
    + rewrite e2, (fu_next _ _ _ H0). pose proof (fi_next _ _ (fu_fi _ HF fj)) as (n1 & n2). assert (1 < w_next (wget s fj)) by (destruct (Z.lt_ge_cases 1 (w_next (wget s fj))); [assumption|exfalso; apply e3, n2; lia]). unfold wrap64, U64MAX in *. lia.
    + destruct (fu_final _ _ _ H0) as [f | (_ & f1 & _)]; [|congruence]. rewrite f, (fu_next _ _ _ H0). apply H. left. exact e.
    + destruct Hs; congruence.
  - apply Same. rewrite wget_wset. destruct (Nat.eqb_spec fi fj) as [->|]; [|reflexivity]. destruct (Nat.ltb _ _); reflexivity.
  - rewrite wget_open in *. destruct (Nat.eqb_spec fj (length (s_flows s))); [cbn in Hs; destruct Hs; discriminate|]. apply Same. reflexivity.
Qed.
Lemma prims_fc : forall A B s s', prims A B s s' -> Full s -> FC s -> FC s'.
Proof. induction 1; intros; auto. apply IHprims; [eapply prim_full; eauto|eapply prim_fc; eauto]. Qed.

(** ** Along an execution *)
Lemma ystep_prims : forall fi y o y', YI fi y -> ystep fi y o = Ok y' ->
  exists A B, prims A B (y_s y) (y_s y') /\ (forall i, 1 <= i -> A fi i -> covered (y_hist y) i) /\ exists es, y_hist y' = y_hist y ++ es.
Proof.
  intros fi y o y' H E. pose proof (yi_s _ _ H) as S.
  assert (Idle : y_s y' = y_s y -> (exists es, y_hist y' = y_hist y ++ es) -> exists A B, prims A B (y_s y) (y_s y') /\ (forall i, 1 <= i -> A fi i -> covered (y_hist y) i) /\ exists es, y_hist y' = y_hist y ++ es).
  { intros e1 e2. exists (fun _ _ => False), (fun _ => False). rewrite e1. split; [constructor|]. split; [intros i _ []|exact e2]. }
  assert (Nil : exists es, y_hist y = y_hist y ++ es) by (exists []; symmetry; apply app_nil_r).
  destruct o as [o|n pad|e|buf margin flags ts tse tr ecn|n pad]; cbn [ystep] in E.
  - destruct (allowed fi (y_held y) (y_s y) o) eqn:Ea; [|discriminate]. rewrite who_holds in E. fold (send_part fi (y_s y) o) in E. pose proof (send_part_step fi _ o _ _ S Ea) as P. destruct (send_part fi (y_s y) o) as [(s', pk)| |]; cbn [rbind] in E; try discriminate.
    apply Ok_inj in E. subst y'. cbn [y_s y_hist]. destruct P as (P & _). assert (HA : forall i, 1 <= i -> A_op (y_s y) o fi i -> covered (y_hist y) i) by (intros i _ h1; destruct (allowed_ack _ _ _ _ i Ea h1)).
    destruct (ys_step _ o s' fi _ _ S (allowed_fair _ _ _ _ Ea) HA P) as (_ & P'). exists (A_op (y_s y) o), (B_op (y_s y) o). split; [exact P'|]. split; [exact HA|exact Nil].
  - destruct (nth_error (y_net y) n) as [(margin, v)|]; [|discriminate]. destruct (_ <? _); [|discriminate]. destruct (parse_packet _ _ _); cbn [rbind] in E; try discriminate. destruct (ud_packet _ _); cbn [rbind] in E; try discriminate. destruct (rf_run _ _); try discriminate. apply Ok_inj in E. subst y'. apply Idle; [reflexivity|]. eexists. reflexivity.
  - destruct (quiet_event e); [|discriminate]. destruct (rf_step _ _); try discriminate. apply Ok_inj in E. subst y'. apply Idle; [reflexivity|]. eexists. reflexivity.
  - destruct (y_id y); [|discriminate]. destruct (_ && _); [|discriminate]. destruct (pa_init_header _ _ _ _ _); cbn [rbind] in E; try discriminate. destruct (assemble_ack _ _ _ _ _) as [((p, f), ok)| |]; cbn [rbind] in E; try discriminate. apply Ok_inj in E. subst y'. destruct ok; (apply Idle; [reflexivity|]); [eexists; reflexivity|exact Nil].
  - destruct (nth_error (y_acks y) n) as [(margin, v)|] eqn:En; [|discriminate]. destruct (Z.ltb_spec (Z.of_nat pad) 65538) as [Hk|]; [|discriminate]. apply nth_error_In in En. pose proof (yi_acks _ _ H) as ha. rewrite Forall_forall in ha. destruct (ha _ En pad Hk) as (pp & pre & pl & ka & e1 & e2 & e3 & e4 & e5 & e6).
    cbn [fst snd] in e1. rewrite e1 in E. cbn [rbind] in E. rewrite e2, take_last in E by exact e3. destruct (sstep (y_s y) (SAck pl)) as [s'| |] eqn:Es; cbn [rbind] in E; try discriminate. apply Ok_inj in E. subst y'. cbn [y_s y_hist].
    assert (HA : forall i, 1 <= i -> A_op (y_s y) (SAck pl) fi i -> covered (y_hist y) i) by (intros i Hi (k & k1 & _ & k3); rewrite e5 in k1; apply Ok_inj in k1; subst k; auto).
    destruct (ys_step (y_s y) (SAck pl) s' fi (y_held y) (y_hist y) S Logic.I HA Es) as (_ & P). exists (A_op (y_s y) (SAck pl)), (B_op (y_s y) (SAck pl)). split; [exact P|]. split; [exact HA|exact Nil].
Qed.

Record YE (fi : nat) (y : world) : Prop := {
  ye_yi : YI fi y; ye_fw : FW (y_s y); ye_fc : FC (y_s y); ye_ql : QL (y_s y) fi (covered (y_hist y)) }.
Lemma ye_step : forall fi y o y', YE fi y -> ystep fi y o = Ok y' -> YE fi y'.
Proof.
  intros fi y o y' [H1 H2 H3 H4] E. pose proof (yi_s _ _ H1) as S. destruct (ystep_prims fi y o y' H1 E) as (A & B & P & HA & es & Eh). pose proof (ys_full _ _ _ _ S) as HF. pose proof (ys_ti _ _ _ _ S) as T. constructor.
  - pose proof (yi_step fi y o H1) as K. rewrite E in K. exact K.
  - eapply prims_fw; eauto.
  - eapply prims_fc; eauto.
  - pose proof (prims_ql _ _ _ _ fi _ P HF T HA H4) as Q. intros a b. destruct (Q a b) as [q|q]; [left; exact q|right]. rewrite Eh. apply covered_app. exact q.
Qed.
Lemma ye_run : forall fi os y y', YE fi y -> yrun fi y os = Ok y' -> YE fi y'.
Proof.
  intros fi. induction os as [|o os IH]; intros y y' H E; cbn [yrun] in E; [apply Ok_inj in E; subst; exact H|]. destruct (ystep fi y o) as [y1| |] eqn:E1; cbn [rbind] in E; try discriminate. apply (IH y1 y'); [eapply ye_step; eauto|exact E].
Qed.
Lemma ye_init : forall fi y, y_init = Ok y -> YE fi y.
Proof.
  intros fi y H. pose proof (yi_init fi y H) as Y. destruct (y_init_shape y H) as (f0 & E & ->). clear H. constructor; [exact Y| | |]; cbn [y_s y_hist].
  - intros x [].
  - intros fj Hs. assert (wget ss_init fj = w_none) as Ew by (destruct fj; reflexivity). rewrite Ew in Hs. cbn in Hs. destruct Hs; discriminate.
  - intros _ Hn. assert (wget ss_init fi = w_none) as Ew by (destruct fi; reflexivity). rewrite Ew in Hn. cbn in Hn. lia.
Qed.

Lemma reachable : forall fi os y0 y, y_init = Ok y0 -> yrun fi y0 os = Ok y -> YE fi y.
Proof. intros fi os y0 y H0 E. exact (ye_run fi os y0 y (ye_init fi y0 H0) E). Qed.
Lemma all_covered : forall fi y ms, YI fi y -> zlen (w_tab (wget (y_s y) fi)) = zlen (table ms) \/ zlen (w_tab (wget (y_s y) fi)) = zlen (table ms) + 1 ->
  drained (y_s y) fi -> (forall i, i <= zlen (table ms) -> ~ given_up (y_s y) fi i) -> forall i, 1 <= i <= zlen (table ms) -> covered (y_hist y) i.
Proof.
  intros fi y ms Y Ht (D1 & D2) Hno i Hi. pose proof (yi_s _ _ Y) as S. destruct (k_queue _ _ _ (ys_k _ _ _ _ S) D1 i) as [(nm & id & Hq & _)|[Hc|Ha]]; [|rewrite D2 in Hq; destruct Hq|exact Hc|destruct (Hno i ltac:(lia) Ha)].
  rewrite (ti_next _ (ys_ti _ _ _ _ S)). lia.
Qed.

(** What the receiving application hears of the end. *)
Lemma end_shape : forall fi y, YE fi y ->
  Forall is_msg (f_out (y_r y)) \/ ((exists l, f_out (y_r y) = l ++ [OComplete false] /\ Forall is_msg l) /\ w_state (wget (y_s y) fi) <> FS_OPEN /\ forall i, 1 <= i <= zlen (w_tab (wget (y_s y) fi)) -> covered (y_hist y) i).
Proof.
  intros fi y [[S (f0 & i1 & i2) hp hf _ _ _] FW1 FC1 QL1]. pose proof (ys_full _ _ _ _ S) as HF. pose proof (ys_ti _ _ _ _ S) as T.
  destruct (conf _ fi _ _ HF T (ys_mi _ _ _ _ S) hf) as (ms & ms' & c1 & c2 & c3 & c4 & c5 & c6 & c7). destruct (recv_end ms' (y_hist y) f0 (y_r y) c5 i1 c6 hp i2) as ([R|(l & R1 & R2 & R3 & fl & sq & fs & d & R4 & R5)] & _); [left; exact R|right].
  split; [exists l; auto|]. rewrite c4 in R3. split; [|exact R3]. rewrite Forall_forall in hf. specialize (hf _ R4).
  destruct hf as (x & x1 & x2 & x3 & x4 & x5 & x6). destruct (ti_wire _ T x x1) as [w1 w2 (abn & fin & w3 & w4 & w5) w6]. rewrite w3, x2 in *. cbn [fr_flags] in x5. destruct (fu_frag _ HF _ w1) as (_ & g1 & _).
  apply w5. destruct fin; [reflexivity|exfalso; apply R5]. cbn [In] in g1. destruct x5 as [-> | ->], g1 as [<-|[<-|[<-|[<-|[]]]]], abn; reflexivity.
Qed.
Lemma told_shape : forall fi y e, YE fi y -> In (OComplete e) (f_out (y_r y)) ->
  e = false /\ (exists l, f_out (y_r y) = l ++ [OComplete false] /\ Forall is_msg l) /\ w_state (wget (y_s y) fi) <> FS_OPEN /\ forall i, 1 <= i <= zlen (w_tab (wget (y_s y) fi)) -> covered (y_hist y) i.
Proof.
  intros fi y e Y Hin. destruct (end_shape fi y Y) as [H|((l & H1 & H2) & H3 & H4)]; [rewrite Forall_forall in H; destruct (H _ Hin)|]. split; [|eauto]. rewrite H1 in Hin. apply in_app_iff in Hin. destruct Hin as [Hin|[Hin|[]]]; [rewrite Forall_forall in H2; destruct (H2 _ Hin)|congruence].
Qed.
Theorem told_last : forall fi os y0 y e, y_init = Ok y0 -> yrun fi y0 os = Ok y -> In (OComplete e) (f_out (y_r y)) ->
  e = false /\ f_out (y_r y) = map (fun m => OMsg (fst (fst m)) (snd (fst m)) (snd m)) (msgs_of (f_out (y_r y))) ++ [OComplete false] /\ w_state (wget (y_s y) fi) <> FS_OPEN.
Proof.
  intros fi os y0 y e H0 E Hin. destruct (told_shape fi y e (reachable fi os y0 y H0 E) Hin) as (h1 & (l & h2 & h3) & h4 & _). split; [exact h1|]. split; [|exact h4]. rewrite h2. f_equal. clear - h3. unfold msgs_of. rewrite flat_map_app. cbn [flat_map app]. rewrite app_nil_r.
  induction h3 as [|o l Ho _ IH]; [reflexivity|]. destruct o; try contradiction. cbn [flat_map app map fst snd]. f_equal. exact IH.
Qed.
Theorem told_means : forall fi os y0 y e, y_init = Ok y0 -> yrun fi y0 os = Ok y -> In (OComplete e) (f_out (y_r y)) ->
  exists ms, map (@concat Z) ms = written fi y0 os /\ Forall (fun m => m <> []) ms /\ selection (msgs_of (f_out (y_r y))) (sent ms)
    /\ forall content first count, In (content, first, count) (sent ms) -> In (content, first, count) (msgs_of (f_out (y_r y))) \/ exists i, first <= i < first + count /\ given_up (y_s y) fi i.
Proof.
  intros fi os y0 y e H0 E Hin. destruct (told_shape fi y e (reachable fi os y0 y H0 E) Hin) as (_ & _ & _ & Hall).
  pose proof (run_invariant fi os y0 y H0 E) as Y. pose proof (run_written fi os y0 y H0 E) as W. pose proof (yi_s _ _ Y) as S. destruct (outcome fi y Y) as (ms & o1 & o2 & o3 & o4 & o5 & o6). rewrite W in o1.
  exists ms. split; [exact o1|]. split; [exact o2|]. split; [exact o3|]. intros content first count Hm. destruct (sent_range ms 1 _ _ _ o2 Hm) as (r1 & r2 & r3).
  assert (Hc : forall i, 1 <= i < first + count -> covered (y_hist y) i) by (intros i Hi; apply Hall; destruct o5 as [(o5 & _)|(o5 & _)]; rewrite o5; lia).
  assert (Hx : (forall i, first <= i < first + count -> got (y_hist y) i) \/ exists i, first <= i < first + count /\ given_up (y_s y) fi i).
  { clear - S Hc r1 r2. assert (Hn : count = Z.of_nat (Z.to_nat count)) by lia. remember (Z.to_nat count) as k eqn:Ek. rewrite Hn in *. clear Hn Ek r2 count. induction k as [|k IH]; [left; intros i Hi; lia|].
    destruct IH as [IH|(i & Hi & Ha)]; [intros i Hi; apply Hc; lia| |right; exists i; split; [lia|exact Ha]].
    destruct (ys_got _ _ _ _ S (first + Z.of_nat k)) as [Hg|Ha]; [lia|apply Hc; lia| |right; exists (first + Z.of_nat k); split; [lia|exact Ha]]. left. intros i Hi. destruct (Z.eq_dec i (first + Z.of_nat k)) as [->|]; [exact Hg|apply IH; lia]. }
  destruct Hx as [Hx|Hx]; [left|right; exact Hx]. apply o4; [exact Hm|]. split; [exact Hx|]. intros i Hi. destruct (Z.eq_dec i 0) as [->|]; [apply (covered_zero _ 1 o6); apply Hc; lia|apply Hc; lia].
Qed.
Theorem told_everything : forall fi os y0 y e, y_init = Ok y0 -> yrun fi y0 os = Ok y -> reliable_run fi y0 os -> In (OComplete e) (f_out (y_r y)) -> delivered y = written fi y0 os.
Proof.
  intros fi os y0 y e H0 E Hr Hin. destruct (told_shape fi y e (reachable fi os y0 y H0 E) Hin) as (_ & _ & _ & Hall).
  pose proof (run_invariant fi os y0 y H0 E) as Y. pose proof (run_written fi os y0 y H0 E) as W. pose proof (yi_s _ _ Y) as S. destruct (outcome fi y Y) as (ms & o1 & o2 & o3 & o4 & o5 & o6). rewrite W in o1.
  pose proof (reliable_keeps fi os y0 y ms H0 E Hr o5) as Hno.
  assert (Hc : forall i, 1 <= i <= zlen (table ms) -> covered (y_hist y) i) by (intros i Hi; apply Hall; destruct o5 as [(o5 & _)|(o5 & _)]; rewrite o5; lia).
  unfold delivered. rewrite <- o1, <- (sent_content ms 1). f_equal. apply sel_all; [exact o3|apply sent_nodup; exact o2|]. intros ((c0, f0), n0) Hm. destruct (sent_range ms 1 _ _ _ o2 Hm) as (r1 & r2 & r3). apply o4; [exact Hm|]. split.
  - intros i Hi. destruct (ys_got _ _ _ _ S i ltac:(lia) (Hc i ltac:(lia))) as [Hg|Ha]; [exact Hg|destruct (Hno i ltac:(lia) Ha)].
  - intros i Hi. destruct (Z.eq_dec i 0) as [->|]; [apply (covered_zero _ 1 o6); apply Hc; lia|apply Hc; lia].
Qed.
Theorem closed_told : forall fi os y0 y, y_init = Ok y0 -> yrun fi y0 os = Ok y -> reliable_run fi y0 os -> drained (y_s y) fi -> w_state (wget (y_s y) fi) <> FS_OPEN ->
  In (OComplete false) (f_out (y_r y)).
Proof.
  intros fi os y0 y H0 E Hr D Hst. pose proof (reachable fi os y0 y H0 E) as [Y FW1 FC1 QL1]. pose proof Y as [S (f0 & i1 & i2) hp hf _ _ _]. pose proof (ys_full _ _ _ _ S) as HF. pose proof (ys_ti _ _ _ _ S) as T.
  destruct (conf _ fi _ _ HF T (ys_mi _ _ _ _ S) hf) as (ms & ms' & c1 & c2 & c3 & c4 & c5 & c6 & c7). destruct (recv_end ms' (y_hist y) f0 (y_r y) c5 i1 c6 hp i2) as (_ & R).
  assert (Hb : w_bound (wget (y_s y) fi) = true) by (destruct D as ([D|D] & _); [exact D|congruence]).
  assert (Hcl : w_state (wget (y_s y) fi) = FS_CLOSING \/ w_state (wget (y_s y) fi) = FS_LINGER).
  { destruct (w_state (wget (y_s y) fi)) eqn:Es; auto; [congruence|]. pose proof (ys_cu _ _ _ _ S fi Es). congruence. }
  destruct (FC1 fi Hcl) as (Ff & Fn). pose proof (ti_next _ T fi) as Tn.
  assert (Hlast : covered (y_hist y) (w_next (wget (y_s y) fi) - 1)). { destruct (QL1 (or_introl Hb) Fn) as [(nm & id & Hq & _)|Hc]; [|exact Hc]. destruct D as (_ & D2). rewrite D2 in Hq. destruct Hq. }
  assert (Hx : exists l, f_out (y_r y) = l ++ [OComplete false]).
  { rewrite c4 in R. apply R; [|lia|].
    - eapply Forall_impl; [|exact hf]. intros e He. destruct e as [|flags seq fsn data| | | | |]; cbn; auto. destruct (from_facts _ fi flags seq fsn data HF T He) as (x & fra & d & f1 & f2 & f3 & f4 & f5 & f6 & f7 & f8 & f9 & f10 & _).
      split; [lia|]. intros Es. destruct He as (x' & x1 & x2 & x3 & x4 & x5 & x6). destruct (FW1 x' x1) as (_ & F2). destruct (ti_wire _ T x' x1) as [w1 w2 (abn & fin & w3 & w4 & w5) w6]. rewrite w3, x2 in *. cbn [fr_flags fr_seq] in *.
      assert (Hfl : Z.land (g_fra (gget (y_s y) (x_frag x')) + flag abn 2 + flag fin 1) 1 <> 0) by (apply F2; lia). destruct (fu_frag _ HF _ w1) as (_ & g1 & _). revert Hfl. cbn [In] in g1. destruct x5 as [-> | ->], g1 as [<-|[<-|[<-|[<-|[]]]]], abn, fin; cbn; auto; lia.
    - assert (Ht : ms' = ms /\ zlen (w_tab (wget (y_s y) fi)) = zlen (table ms) \/ zlen (w_tab (wget (y_s y) fi)) = zlen (table ms) + 1).
      { destruct c3 as [(-> & _)|(-> & _)]; [left; rewrite c4; auto|right]. rewrite <- c4. unfold table. rewrite flat_map_app, zlen_app. reflexivity. }
      assert (Ht' : zlen (w_tab (wget (y_s y) fi)) = zlen (table ms) \/ zlen (w_tab (wget (y_s y) fi)) = zlen (table ms) + 1) by tauto.
      assert (Hno : forall i, i <= zlen (table ms) -> ~ given_up (y_s y) fi i).
      { apply (reliable_keeps fi os y0 y ms H0 E Hr). destruct c3 as [(-> & Hall)|(-> & id & rc & t & Hc & Hn)]; [left; rewrite c4; auto|right]. split; [rewrite <- c4; unfold table; rewrite flat_map_app, zlen_app; reflexivity|eauto]. }
      intros i Hi. destruct (Z.eq_dec i (w_next (wget (y_s y) fi) - 1)) as [->|N]; [exact Hlast|]. apply (all_covered fi y ms Y Ht' D Hno). lia. }
  destruct Hx as (l & ->). apply in_or_app. right. left. reflexivity.
Qed.
