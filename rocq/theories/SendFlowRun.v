(** Executions of a sending session. *)
From Coq Require Permutation.
From Verif Require Import Base BaseFacts VLU VLUSpec VLUProofs Packet PacketSpec PacketProofs UserData UserDataSpec UserDataProofs Ack AckSpec AckProofs RecvFlowSpec WriteReceipt WriteReceiptSpec WriteReceiptProofs SendFlow SendFlowSpec SendFlowProofs SendFlowInv SendFlowSteps.
Ltac Zify.zify_post_hook ::= Z.div_mod_to_equations.

(** What an operation may acknowledge, and do to receipts. *)
Definition A_op (s : sess) (o : sop) (fi : nat) (i : Z) : Prop :=
  match o with SAck chunk => exists k, ack_parse chunk = Ok k /\ find_flow (k_flow k) (s_flows s) 0 = Some fi /\ acked k i | _ => False end.
Definition B_op (s : sess) (o : sop) (r : rop) : Prop :=
  match o with
  | SWrite _ _ sw fw _ => (exists now, r = RNew now sw fw) \/ r = RUp (length (rs_all (s_rcpts s)))
  | SClose _ _ => Bclose (length (rs_all (s_rcpts s))) r
  | SException id names => exists fi, find_flow id (s_flows s) 0 = Some fi /\ Bexc s fi names r
  | SOpenFailed fi => w_bound (wget s fi) = false /\ Bexc s fi [] r
  | SReceipt r' => r = r' /\ app_rop r' = true
  | _ => False
  end.

(** After the session is closed. *)
Record Dead (s : sess) : Prop := {
  de_open : s_open s = false;
  de_bound : forall fi, w_bound (wget s fi) = false;
  de_opts : forall fi, zlen (w_opts (wget s fi)) <= 528 }.

Lemma vlu_len : forall v n, is_u64 v -> 1 <= n -> v < 128 ^ n -> zlen (vlu_encode v) <= n.
Proof.
  intros v n H Hn Hv. destruct (vlu_encode_spec v H) as (_ & _ & h3 & [h4|h4] & _); [unfold zlen; lia|].
  assert (128 ^ (zlen (vlu_encode v) - 1) < 128 ^ n) by lia. apply Z.pow_lt_mono_r_iff in H0; lia.
Qed.
Lemma startup_len : forall m a, bytes_ok m -> zlen m <= 512 -> match a with None => True | Some id => is_u64 id end -> zlen (startup_options m a) <= 528.
Proof.
  intros m a Hm Hl Ha. unfold startup_options, option_append_end, option_append_vlu, option_append, vlu_append, OPT_METADATA, OPT_RETURN_ASSOCIATION.
  change (vlu_encode 0) with [0]. change (zlen [0]) with 1. pose proof (zlen_nonneg _ m).
  assert (H2 : zlen (vlu_encode (1 + zlen m)) <= 2) by (apply vlu_len; [unfold is_u64, U64MAX|..]; lia).
  destruct a as [id|].
  - change (vlu_encode 10) with [10]. change (zlen [10]) with 1. pose proof (vlu_encode_spec id Ha) as (_ & _ & h3 & _).
    assert (H3 : zlen (vlu_encode (1 + zlen (vlu_encode id))) <= 1) by (apply vlu_len; unfold is_u64, U64MAX, zlen; lia).
    rewrite !zlen_app. change (zlen [0]) with 1. change (zlen [10]) with 1. unfold zlen in *. cbn [length app] in *. lia.
  - rewrite !zlen_app. change (zlen [0]) with 1. unfold zlen in *. cbn [length app] in *. lia.
Qed.

(** ** One operation of an open session *)
Lemma find_flow_bound : forall id fs n fi, find_flow id fs n = Some fi -> (n <= fi < n + length fs)%nat /\ w_bound (nth (fi - n) fs w_none) = true.
Proof.
  induction fs as [|w fs IH]; intros n fi H; [discriminate|]. cbn [find_flow] in H. destruct (w_bound w && (w_id w =? id)) eqn:E.
  - injection H as <-. rewrite Nat.sub_diag. apply andb_prop in E. cbn [length nth]. split; [lia|apply E].
  - destruct (IH (S n) fi H) as (h1 & h2). cbn [length]. split; [lia|]. replace (fi - n)%nat with (S (fi - S n)) by lia. exact h2.
Qed.
Lemma flow_there : forall s fi, w_live (wget s fi) = true \/ w_bound (wget s fi) = true \/ w_state (wget s fi) <> FS_CLOSED -> (fi < length (s_flows s))%nat.
Proof. intros s fi H. destruct (Nat.lt_ge_cases fi (length (s_flows s))) as [|Hl]; [assumption|]. rewrite wget_out in H by exact Hl. cbn in H. intuition congruence. Qed.

Lemma goto_bound : forall w, (w_state w = FS_CLOSED -> w_bound w = false) -> w_bound (goto_closed w) = false.
Proof. intros w H. unfold goto_closed. destruct (w_state w); cbn; auto. Qed.
Lemma goto_opts : forall w, w_opts (goto_closed w) = w_opts w.
Proof. intros w. unfold goto_closed. destruct (w_state w); reflexivity. Qed.
Lemma goto_queue : forall w, w_queue (goto_closed w) = w_queue w.
Proof. intros w. unfold goto_closed. destruct (w_state w); reflexivity. Qed.

(** A flow that is closed is not bound: closing the session unbinds everything. *)
Definition closed_unbound (s : sess) : Prop := forall fi, w_state (wget s fi) = FS_CLOSED -> w_bound (wget s fi) = false.

Lemma add_frag_flow : forall s fi rc nm fr s' fj, add_frag s fi rc nm fr = Ok s' -> exists q n x t, wget s' fj = with_tab (with_next (with_queue (wget s fj) q n) x) t.
Proof.
  intros s fi rc nm fr s' fj He. assert (K : forall w, exists q n x t, w = with_tab (with_next (with_queue w q n) x) t) by (intros []; do 4 eexists; reflexivity).
  unfold add_frag in He. cbn zeta in He. destruct (_ && _); [|discriminate]. set (w' := with_tab _ _) in He. injection He as <-. 
  match goal with |- context [wset ?x fi w'] => change (exists q n x0 t, wget (wset x fi w') fj = with_tab (with_next (with_queue (wget s fj) q n) x0) t) end.
  rewrite wget_wset. destruct (Nat.eqb_spec fi fj); [subst fj|apply K]. destruct (Nat.ltb _ _); [|apply K]. cbn [andb]. unfold w'. do 4 eexists. reflexivity.
Qed.
Lemma lose_flow : forall s id nak fj, exists n l, wget (lose s id nak) fj = with_last (with_outb (wget s fj) n) l.
Proof.
  intros. assert (K : forall w, exists n l, w = with_last (with_outb w n) l) by (intros []; do 2 eexists; reflexivity).
  unfold lose. cbn zeta. rewrite wget_wset. destruct (Nat.eqb_spec (g_owner (gget s id)) fj); [subst fj|apply K]. destruct (Nat.ltb _ _); [|apply K]. cbn [andb]. do 2 eexists. reflexivity.
Qed.
Lemma prim_cb : forall A B s s', prim A B s s' -> closed_unbound s -> closed_unbound s'.
Proof.
  intros A B s s' P C fj. destruct P; try exact (C fj).
  - destruct (add_frag_flow _ _ _ _ _ _ fj H5) as (q & n & x & t & E). rewrite E. exact (C fj).
  - rewrite wget_wset. destruct (Nat.eqb_spec fi fj); [subst fj|exact (C fj)]. destruct (Nat.ltb _ _); exact (C fi).
  - destruct (mark_sent_flow s fi nm id o fsn fr abn size fj) as (n & l & E). rewrite E. exact (C fj).
  - unfold unqueue. cbn zeta. change (wget (set_rcpts ?x ?y) fj) with (wget x fj). rewrite wget_wset. destruct (Nat.eqb_spec fi fj); [subst fj|exact (C fj)]. destruct (Nat.ltb _ _); exact (C fi).
  - unfold unqueue. cbn zeta. change (wget (set_rcpts ?x ?y) fj) with (wget x fj). rewrite wget_wset. destruct (Nat.eqb_spec fi fj); [subst fj|exact (C fj)]. destruct (Nat.ltb _ _); exact (C fi).
  - assert (C1 : closed_unbound (forget s fi (gget s id))).
    { intros fk. unfold forget. cbn zeta. rewrite wget_wset. destruct (Nat.eqb_spec fi fk); [subst fk|exact (C fk)]. destruct (Nat.ltb _ _); exact (C fi). }
    unfold unqueue. cbn zeta. change (wget (set_rcpts ?x ?y) fj) with (wget x fj). rewrite wget_wset. destruct (Nat.eqb_spec fi fj); [subst fj|exact (C1 fj)]. destruct (Nat.ltb _ _); exact (C1 fi).
  - unfold lose_one. cbn zeta. change (wget (set_out ?x ?y ?z) fj) with (wget x fj). destruct (lose_flow s id nak fj) as (n & l & E). rewrite E. exact (C fj).
  - rewrite wget_wset. destruct (Nat.eqb_spec fi fj); [subst fj|exact (C fj)]. destruct (Nat.ltb _ _); [|exact (C fi)]. cbn [andb]. intros Hs. destruct (fu_cb _ _ _ H Hs) as [h|(h1 & ->)]; [exact h|exact (C fi h1)].
  - rewrite wget_wset. destruct (Nat.eqb_spec fi fj); [subst fj|exact (C fj)]. destruct (Nat.ltb _ _); exact (C fi).
  - unfold wget. cbn [s_flows set_flows]. destruct (Nat.lt_ge_cases fj (length (s_flows s))) as [Hl|Hl]; [rewrite app_nth1 by exact Hl; exact (C fj)|].
    rewrite app_nth2 by exact Hl. destruct (fj - length (s_flows s))%nat as [|[|n]]; cbn; [discriminate|reflexivity|reflexivity].
Qed.
Lemma prims_cb : forall A B s s', prims A B s s' -> closed_unbound s -> closed_unbound s'.
Proof. induction 1; auto. intros. apply IHprims. eapply prim_cb; eauto. Qed.

(** ** Closing the session *)
Lemma abandon_keeps : forall f (q : list (Z * nat)) rs, length (rs_all (fold_left (fun rs e => r_abandon rs (f e)) q rs)) = length (rs_all rs).
Proof.
  induction q as [|e q IH]; intros rs; [reflexivity|]. cbn [fold_left]. rewrite IH. pose proof (rstep_length rs (RAbandon (f e))) as H. cbn [rstep] in H. lia.
Qed.
Definition opts_ok (s : sess) : Prop := forall fi, zlen (w_opts (wget s fi)) <= 528.

(** With the session closed, closing a flow never fails and unbinds it. *)
Lemma close_dead : forall s fi names, s_open s = false -> (fi < length (s_flows s))%nat -> closed_unbound s -> opts_ok s -> exists s', do_close s fi names = Ok s' /\
  s_open s' = false /\ closed_unbound s' /\ opts_ok s' /\ w_bound (wget s' fi) = false /\ length (s_flows s') = length (s_flows s)
  /\ (forall fj, w_bound (wget s fj) = false -> w_bound (wget s' fj) = false).
Proof.
  intros s fi names Ho Hl C O. unfold do_close. cbv zeta. set (s1 := wset s fi (with_dead (wget s fi))).
  assert (E1 : wget s1 fi = with_dead (wget s fi)) by (apply wget_wset_same; exact Hl).
  assert (Eo : forall fj, fj <> fi -> wget s1 fj = wget s fj) by (intros fj N; apply wget_wset_other; congruence).
  assert (Hl1 : (fi < length (s_flows s1))%nat) by (unfold s1; rewrite flows_wset; exact Hl).
  assert (Ho1 : s_open s1 = false) by exact Ho.
  assert (C1 : closed_unbound s1) by (intros fj; destruct (Nat.eq_dec fj fi) as [->|N]; [rewrite E1; exact (C fi)|rewrite Eo by exact N; exact (C fj)]).
  assert (O1 : opts_ok s1) by (intros fj; destruct (Nat.eq_dec fj fi) as [->|N]; [rewrite E1; exact (O fi)|rewrite Eo by exact N; exact (O fj)]).
  assert (B1 : forall fj, w_bound (wget s fj) = false -> w_bound (wget s1 fj) = false) by (intros fj; destruct (Nat.eq_dec fj fi) as [->|N]; [rewrite E1; auto|rewrite Eo by exact N; auto]).
  assert (Hlen : length (s_flows s1) = length (s_flows s)) by apply flows_wset.
  clearbody s1.
  assert (G : forall s2, length (s_flows s2) = length (s_flows s1) -> s_open s2 = false -> closed_unbound s2 -> opts_ok s2 -> (forall fj, w_bound (wget s fj) = false -> w_bound (wget s2 fj) = false) ->
    exists s', Ok (if w_bound (wget s2 fi) && negb (s_open s2) then wset s2 fi (goto_closed (wget s2 fi)) else s2) = Ok s' /\
    s_open s' = false /\ closed_unbound s' /\ opts_ok s' /\ w_bound (wget s' fi) = false /\ length (s_flows s') = length (s_flows s) /\ (forall fj, w_bound (wget s fj) = false -> w_bound (wget s' fj) = false)).
  { intros s2 L2 h1 h2 h3 h4. rewrite h1. cbn [negb]. rewrite andb_true_r. destruct (w_bound (wget s2 fi)) eqn:Eb.
    - eexists. split; [reflexivity|]. set (s3 := wset s2 fi _).
      assert (E3 : wget s3 fi = goto_closed (wget s2 fi)) by (apply wget_wset_same; lia).
      assert (E4 : forall fj, fj <> fi -> wget s3 fj = wget s2 fj) by (intros fj N; apply wget_wset_other; congruence).
      split; [exact h1|]. split.
      { intros fj. destruct (Nat.eq_dec fj fi) as [->|N]; [rewrite E3; intros _; apply goto_bound; exact (h2 fi)|rewrite E4 by exact N; exact (h2 fj)]. }
      split. { intros fj. destruct (Nat.eq_dec fj fi) as [->|N]; [rewrite E3, goto_opts; exact (h3 fi)|rewrite E4 by exact N; exact (h3 fj)]. }
      split. { rewrite E3. apply goto_bound. exact (h2 fi). }
      split. { unfold s3. rewrite flows_wset. congruence. }
      intros fj Hb. destruct (Nat.eq_dec fj fi) as [->|N]; [rewrite E3; apply goto_bound; exact (h2 fi)|rewrite E4 by exact N; auto].
    - eexists. split; [reflexivity|]. repeat (split; auto). congruence. }
  rewrite Ho1, andb_false_r. cbn [andb].
  destruct (w_state (wget s1 fi)) eqn:Est; cbn [rbind]; try (apply G; auto; fail).
  set (s2 := wset s1 fi (goto_closed (wget s1 fi))).
  assert (E3 : wget s2 fi = goto_closed (wget s1 fi)) by (apply wget_wset_same; exact Hl1).
  assert (E4 : forall fj, fj <> fi -> wget s2 fj = wget s1 fj) by (intros fj N; apply wget_wset_other; congruence).
  apply G; auto.
  - apply flows_wset.
  - intros fj. destruct (Nat.eq_dec fj fi) as [->|N]; [rewrite E3; intros _; apply goto_bound; exact (C1 fi)|rewrite E4 by exact N; exact (C1 fj)].
  - intros fj. destruct (Nat.eq_dec fj fi) as [->|N]; [rewrite E3, goto_opts; exact (O1 fi)|rewrite E4 by exact N; exact (O1 fj)].
  - intros fj Hb. destruct (Nat.eq_dec fj fi) as [->|N]; [rewrite E3; apply goto_bound; exact (C1 fi)|rewrite E4 by exact N; auto].
Qed.

Record SD (s : sess) : Prop := { sd_open : s_open s = false; sd_cu : closed_unbound s; sd_opts : opts_ok s }.
Lemma session_close_dead : forall s fi, SD s -> (fi < length (s_flows s))%nat -> exists s', on_session_close s fi = Ok s' /\ SD s' /\ w_bound (wget s' fi) = false
  /\ length (s_flows s') = length (s_flows s) /\ (forall fj, w_bound (wget s fj) = false -> w_bound (wget s' fj) = false).
Proof.
  intros s fi [Ho C O] Hl. unfold on_session_close, on_exception. set (s0 := wset s fi (with_exc (wget s fi))).
  assert (E1 : wget s0 fi = with_exc (wget s fi)) by (apply wget_wset_same; exact Hl).
  assert (Eo : forall fj, fj <> fi -> wget s0 fj = wget s fj) by (intros fj N; apply wget_wset_other; congruence).
  destruct (close_dead s0 fi []) as (s1 & E & h1 & h2 & h3 & h4 & h5 & h6).
  - exact Ho.
  - unfold s0. rewrite flows_wset. exact Hl.
  - intros fj; destruct (Nat.eq_dec fj fi) as [->|N]; [rewrite E1; exact (C fi)|rewrite Eo by exact N; exact (C fj)].
  - intros fj; destruct (Nat.eq_dec fj fi) as [->|N]; [rewrite E1; exact (O fi)|rewrite Eo by exact N; exact (O fj)].
  - rewrite E. cbn [rbind]. eexists. split; [reflexivity|]. set (s2 := wset _ fi _).
    assert (L1 : (fi < length (s_flows s1))%nat) by (rewrite h5; unfold s0; rewrite flows_wset; exact Hl).
    assert (E3 : wget s2 fi = with_queue (wget s1 fi) [] 0) by (apply wget_wset_same; exact L1).
    assert (E4 : forall fj, fj <> fi -> wget s2 fj = wget s1 fj) by (intros fj N; unfold s2; rewrite wget_wset_other by congruence; reflexivity).
    split; [constructor; [exact h1| |]|].
    + intros fj; destruct (Nat.eq_dec fj fi) as [->|N]; [rewrite E3; exact (h2 fi)|rewrite E4 by exact N; exact (h2 fj)].
    + intros fj; destruct (Nat.eq_dec fj fi) as [->|N]; [rewrite E3; exact (h3 fi)|rewrite E4 by exact N; exact (h3 fj)].
    + split; [rewrite E3; exact h4|]. split; [unfold s2; rewrite flows_wset; change (length (s_flows s1) = length (s_flows s)); rewrite h5; apply flows_wset|].
      intros fj Hb. assert (w_bound (wget s0 fj) = false) by (destruct (Nat.eq_dec fj fi) as [->|N]; [rewrite E1; exact Hb|rewrite Eo by exact N; exact Hb]).
      destruct (Nat.eq_dec fj fi) as [->|N]; [rewrite E3; exact h4|rewrite E4 by exact N; auto].
Qed.
Lemma close_flows_dead : forall fis s, SD s -> Forall (fun fi => (fi < length (s_flows s))%nat) fis -> exists s', close_flows s fis = Ok s' /\ SD s' /\ length (s_flows s') = length (s_flows s)
  /\ (forall fj, w_bound (wget s fj) = false -> w_bound (wget s' fj) = false) /\ Forall (fun fi => w_bound (wget s' fi) = false) fis.
Proof.
  induction fis as [|fi fis IH]; intros s D Hl; cbn [close_flows].
  - exists s. auto.
  - inversion Hl as [|? ? Hl1 Hl2]; subst.
    assert (exists s1, (if w_bound (wget s fi) then on_session_close s fi else Ok s) = Ok s1 /\ SD s1 /\ w_bound (wget s1 fi) = false /\ length (s_flows s1) = length (s_flows s)
       /\ (forall fj, w_bound (wget s fj) = false -> w_bound (wget s1 fj) = false)) as (s1 & E1 & D1 & b1 & l1 & k1).
    { destruct (w_bound (wget s fi)) eqn:Eb; [apply session_close_dead; assumption|]. exists s. auto 8. }
    rewrite E1. cbn [rbind]. destruct (IH s1 D1) as (s2 & E2 & D2 & l2 & k2 & a2); [rewrite Forall_forall in *; intros x Hx; rewrite l1; auto|].
    rewrite E2. exists s2. split; [reflexivity|]. split; [exact D2|]. split; [congruence|]. split; [auto|]. constructor; [auto|exact a2].
Qed.

Lemma full_opts : forall s, Full s -> opts_ok s.
Proof. intros s HF fi. apply (fi_opts _ _ (fu_fi _ HF fi)). Qed.

Lemma session_close_step : forall s, Full s -> closed_unbound s -> match do_session_close s with Ok s' => Dead s' | Rej => True | UB => False end.
Proof.
  intros s HF C. unfold do_session_close. destruct (s_open s); [|exact I].
  destruct (close_flows_dead (seq 0 (length (s_flows s))) (set_closed s)) as (s1 & E & D & l & k & a).
  - constructor; [reflexivity|exact C|exact (full_opts s HF)].
  - apply Forall_forall. intros x Hx. apply in_seq in Hx. cbn. lia.
  - rewrite E. cbn [rbind]. destruct D as [d1 d2 d3]. constructor; [exact d1| |exact d3].
    intros fi. destruct (Nat.lt_ge_cases fi (length (s_flows s))) as [Hl|Hl].
    + rewrite Forall_forall in a. apply (a fi). apply in_seq. lia.
    + change (w_bound (wget s1 fi) = false). rewrite wget_out by (rewrite l; exact Hl). reflexivity.
Qed.

Theorem step_open : forall s o, Full s -> closed_unbound s -> s_open s = true ->
  match sstep s o with
  | Ok s' => (s_open s' = true /\ prims (A_op s o) (B_op s o) s s') \/ (o = SSessionClose /\ Dead s')
  | Rej => True
  | UB => False
  end.
Proof.
  intros s o HF C Ho.
  assert (K : forall (r : res sess), match r with Ok s' => prims (A_op s o) (B_op s o) s s' | Rej => True | UB => False end ->
     match r with Ok s' => (s_open s' = true /\ prims (A_op s o) (B_op s o) s s') \/ (o = SSessionClose /\ Dead s') | Rej => True | UB => False end).
  { intros [s'| |] H; auto. left. split; [rewrite (prims_open _ _ _ _ H); exact Ho|exact H]. }
  destruct o; cbn [sstep]; try (lazymatch goal with |- context [do_session_close] => fail | _ => first [apply K|apply (K (Ok _))] end).
  - destruct (_ && _ && _) eqn:E; [|exact I]. rewrite !andb_true_iff in E. destruct E as ((e1 & e2) & e3). apply Forall_is_bytes in e2. unfold MAX_METADATA_LENGTH in e1.
    assert (Ha : match assoc with None => True | Some id => is_u64 id end) by (destruct assoc; [unfold is_u64, U64MAX in *; lia|exact I]).
    apply prims_one, pr_open; [apply startup_len; auto; lia|apply startup_facts; auto; lia|].
    exists (Some (metadata, assoc)). split; [split; [exact e2|split; [lia|exact Ha]]|reflexivity].
  - unfold do_bind. destruct (w_state (wget s fi)) eqn:Est; auto. destruct (_ && _) eqn:E; auto. rewrite !andb_true_iff in E. destruct E as ((((e1 & e2) & e3) & e4) & e5).
    apply negb_true_iff in e1. apply prims_one, pr_flow. constructor; cbn; auto; [|congruence].
    right. left. repeat split; auto; lia.
  - destruct (bytes_okb msg) eqn:Eb; [|exact I]. apply Forall_is_bytes in Eb. unfold do_write. destruct (w_live (wget s fi)) eqn:Ev; [|constructor].
    set (s1 := wset s fi (with_msgs (wget s fi) (w_msgs (wget s fi) ++ [msg]))). pose proof (flow_there s fi (or_introl Ev)) as Hl.
    assert (P0 : prim (A_op s (SWrite fi msg sw fw names)) (B_op s (SWrite fi msg sw fw names)) s s1) by (apply pr_msg; [exact Ev|right; reflexivity]).
    pose proof (prim_full _ _ _ _ P0 HF) as HF1. assert (E1 : wget s1 fi = with_msgs (wget s fi) (w_msgs (wget s fi) ++ [msg])) by (apply wget_wset_same; exact Hl).
    pose proof (basic_write_prims (A_op s (SWrite fi msg sw fw names)) (B_op s (SWrite fi msg sw fw names)) s1 fi msg sw fw names HF1) as H.
    unfold s1 in H at 1. rewrite flows_wset, E1 in H. specialize (H Hl (fi_live _ _ (fu_fi _ HF fi) Ev) Eb (fun now => or_introl (ex_intro _ now eq_refl)) (or_intror eq_refl)).
    destruct (basic_write s1 fi msg sw fw names); auto. econstructor; [exact P0|apply H].
  - destruct (Nat.ltb_spec fi (length (s_flows s))) as [Hl|]; [|exact I].
    pose proof (close_prims (A_op s (SClose fi names)) (B_op s (SClose fi names)) s fi names HF Ho Hl (fun o H => H)) as H. destruct (do_close s fi names); auto. apply H.
  - unfold do_trim. apply trim_prims; auto.
  - pose proof (send_prims (A_op s (SSend fi gone buf margin flags ts tse onames)) (B_op s (SSend fi gone buf margin flags ts tse onames)) s fi gone buf margin flags ts tse onames HF) as H. destruct (do_send s fi gone buf margin flags ts tse onames); auto. apply H.
  - destruct (bytes_okb chunk) eqn:Eb; [|exact I]. apply Forall_is_bytes in Eb. unfold do_ack. pose proof (ack_parse_safe chunk Eb) as Hs. destruct (ack_parse chunk) as [k| |] eqn:Ek; [|constructor|exact Hs].
    destruct (find_flow (k_flow k) (s_flows s) 0) as [fi|] eqn:Ef; [|constructor].
    pose proof (on_ack_prims (A_op s (SAck chunk)) (B_op s (SAck chunk)) s fi k HF) as H.
    assert (HA : forall i, acked k i -> A_op s (SAck chunk) fi i) by (intros i Hi; exists k; auto). specialize (H HA). destruct (on_ack s fi k); auto; destruct H.
  - unfold do_naks. rewrite Ho. apply nak_prims; auto; [apply incl_refl|apply (fu_ond _ HF)].
  - unfold do_timeout. rewrite Ho. apply timeout_prims. exact HF.
  - unfold do_exception. destruct (find_flow id (s_flows s) 0) as [fi|] eqn:Ef; [|constructor]. pose proof (find_flow_bound _ _ _ _ Ef) as (Hl & _).
    pose proof (exception_prims (A_op s (SException id names)) (B_op s (SException id names)) s fi names HF Ho ltac:(lia) (fun o H => ex_intro _ fi (conj Ef H))) as H. destruct (on_exception s fi names); auto. apply H.
  - pose proof (session_close_step s HF C) as H. destruct (do_session_close s); auto.
  - destruct (Nat.ltb_spec fi (length (s_flows s))) as [Hl|]; [|exact I]. unfold do_open_failed. destruct (w_bound (wget s fi)) eqn:Eb; [exact I|]. unfold on_session_close.
    pose proof (exception_prims (A_op s (SOpenFailed fi)) (B_op s (SOpenFailed fi)) s fi [] HF Ho Hl (fun o H => conj Eb H)) as H. destruct (on_exception s fi []) as [s1| |]; cbn [rbind]; auto.
    destruct H as (P & _ & H). destruct (H Eb) as (b1 & b2). eapply prims_trans; [exact P|]. apply prims_one, pr_clear; assumption.
  - destruct (w_state (wget s fi)) eqn:Est; auto. apply prims_one, pr_flow.
    assert (Hv : w_live (wget s fi) = false) by (destruct (w_live (wget s fi)) eqn:Ev; [|reflexivity]; pose proof (fi_live _ _ (fu_fi _ HF fi) Ev); congruence).
    assert (Hq : w_queue (wget s fi) = []) by (apply (fi_ling _ _ (fu_fi _ HF fi)); exact Est).
    unfold goto_closed. rewrite Est. constructor; cbn; auto.
    + rewrite Hv. discriminate.
    + right. right. split; [reflexivity|]. intros nm id Hi. rewrite Hq in Hi. destruct Hi.
  - destruct (app_rop o) eqn:Ea; [|exact I]. apply prims_one. constructor. left. split; [split; [reflexivity|exact Ea]|]. destruct o; try exact I; discriminate.
  - destruct (Z.leb_spec (s_now s) t); [|exact I]. apply prims_one. constructor. lia.
Qed.

Lemma dead_same : forall s s', Dead s -> s_open s' = s_open s -> (forall fj, w_bound (wget s' fj) = w_bound (wget s fj) /\ w_opts (wget s' fj) = w_opts (wget s fj)) -> Dead s'.
Proof. intros s s' [a b c] E H. constructor; [congruence| |]; intros fj; destruct (H fj) as (h1 & h2); [rewrite h1|rewrite h2]; auto. Qed.
Lemma dead_sd : forall s, Dead s -> SD s.
Proof. intros s [a b c]. constructor; [exact a| |exact c]. intros fi _. apply b. Qed.
Lemma sd_dead : forall s s', Dead s -> SD s' -> (forall fj, w_bound (wget s fj) = false -> w_bound (wget s' fj) = false) -> Dead s'.
Proof. intros s s' D [a b c] H. constructor; auto. intros fi. apply H, (de_bound _ D). Qed.

Lemma add_frags_dead : forall frs names s fi rc, Dead s -> match add_frags s fi rc names frs with Ok s' => Dead s' | Rej => True | UB => False end.
Proof.
  induction frs as [|fr frs IH]; intros names s fi rc D; cbn [add_frags]; [exact D|]. destruct names as [|nm names]; [exact I|].
  destruct (add_frag s fi rc nm fr) as [s1| |] eqn:E; cbn [rbind]; [|exact I|unfold add_frag in E; cbn zeta in E; destruct (_ && _); discriminate].
  apply IH. apply (dead_same s); auto.
  - unfold add_frag in E; cbn zeta in E; destruct (_ && _); [|discriminate]. injection E as <-. reflexivity.
  - intros fj. destruct (add_frag_flow _ _ _ _ _ _ fj E) as (q & n & x & t & Ef). rewrite Ef. auto.
Qed.

Theorem step_dead : forall s o, Dead s -> match sstep s o with Ok s' => Dead s' | Rej => True | UB => False end.
Proof.
  intros s o D. pose proof (de_open _ D) as Ho.
  assert (Nf : forall id fi, find_flow id (s_flows s) 0 = Some fi -> False).
  { intros id fi Ef. apply find_flow_bound in Ef. destruct Ef as (_ & Ef). rewrite Nat.sub_0_r in Ef. pose proof (de_bound _ D fi). unfold wget in H. congruence. }
  destruct o; cbn [sstep].
  - destruct (_ && _ && _) eqn:E; [|exact I]. rewrite !andb_true_iff in E. destruct E as ((e1 & e2) & e3). apply Forall_is_bytes in e2. unfold MAX_METADATA_LENGTH in e1.
    assert (Ha : match assoc with None => True | Some id => is_u64 id end) by (destruct assoc; [unfold is_u64, U64MAX in *; lia|exact I]).
    pose proof (startup_len metadata assoc e2 ltac:(lia) Ha) as Hs.
    constructor; [exact Ho| |]; intros fj; unfold wget; cbn [s_flows set_flows]; (destruct (Nat.lt_ge_cases fj (length (s_flows s))) as [Hl|Hl]; [rewrite app_nth1 by exact Hl; apply D|]);
      rewrite app_nth2 by exact Hl; destruct (fj - length (s_flows s))%nat as [|[|n]]; cbn; auto; try (unfold zlen; cbn; lia).
  - unfold do_bind. destruct (w_state (wget s fi)); auto. rewrite Ho, andb_false_r. exact I.
  - destruct (bytes_okb msg); [|exact I]. unfold do_write. destruct (w_live (wget s fi)); [|exact D]. unfold basic_write. cbn zeta.
    match goal with |- context [wset s fi ?w] => remember (wset s fi w) as s1 eqn:E1 end.
    assert (D1 : Dead s1).
    { apply (dead_same s); auto; [rewrite E1; reflexivity|]. intros fj. rewrite E1, wget_wset. destruct (Nat.eqb_spec fi fj) as [->|]; [|cbn [andb]; auto]. destruct (Nat.ltb _ _); cbn [andb]; auto. }
    destruct (fragment_spec (zlen (w_opts (wget s1 fi))) msg) as (ps & _ & Efr). { pose proof (zlen_nonneg _ (w_opts (wget s1 fi))). pose proof (de_opts _ D1 fi). lia. }
    rewrite Efr. cbn [rbind]. apply add_frags_dead. apply (dead_same s1); auto.
  - destruct (Nat.ltb_spec fi (length (s_flows s))) as [Hl|]; [|exact I]. destruct (dead_sd _ D) as [d1 d2 d3]. destruct (close_dead s fi names d1 Hl d2 d3) as (s' & E & h1 & h2 & h3 & h4 & h5 & h6). rewrite E.
    apply (sd_dead s); [exact D|constructor; auto|exact h6].
  - apply (dead_same s); auto.
    + apply (trim_rest (w_queue (wget s fi)) s fi).
    + intros fj. destruct (trim_keeps (w_queue (wget s fi)) s fi fj) as (q & n & E). unfold do_trim. rewrite E. auto.
  - unfold do_send, send_packet. rewrite Ho. exact I.
  - destruct (bytes_okb chunk) eqn:Eb; [|exact I]. apply Forall_is_bytes in Eb. unfold do_ack. pose proof (ack_parse_safe chunk Eb) as Hs. destruct (ack_parse chunk) as [k| |]; [|exact D|exact Hs].
    destruct (find_flow (k_flow k) (s_flows s) 0) as [fi|] eqn:Ef; [|exact D]. destruct (Nf _ _ Ef).
  - unfold do_naks. rewrite Ho. exact I.
  - unfold do_timeout. rewrite Ho. exact I.
  - unfold do_exception. destruct (find_flow id (s_flows s) 0) as [fi|] eqn:Ef; [|exact D]. destruct (Nf _ _ Ef).
  - unfold do_session_close. rewrite Ho. exact I.
  - destruct (Nat.ltb_spec fi (length (s_flows s))) as [Hl|]; [|exact I]. unfold do_open_failed. destruct (w_bound (wget s fi)); [exact I|].
    destruct (session_close_dead s fi (dead_sd _ D) Hl) as (s' & E & D' & _ & _ & k). rewrite E. apply (sd_dead s); auto.
  - destruct (w_state (wget s fi)) eqn:Est; auto. constructor; [exact Ho| |]; intros fj; rewrite wget_wset; destruct (Nat.eqb_spec fi fj) as [->|]; cbn [andb]; try apply D; destruct (Nat.ltb _ _); try apply D.
    + apply goto_bound. intros _. apply D.
    + rewrite goto_opts. apply D.
  - destruct (app_rop o); [|exact I]. apply (dead_same s); auto.
  - destruct (s_now s <=? t); [|exact I]. apply (dead_same s); auto.
Qed.

(** ** Executions *)
Definition good (s : sess) : Prop := (s_open s = true /\ Full s /\ closed_unbound s) \/ Dead s.
Lemma good_init : good ss_init.
Proof. left. split; [reflexivity|]. split; [exact full_init|]. intros [|fi]; reflexivity. Qed.
Lemma good_step : forall s o, good s -> match sstep s o with Ok s' => good s' | Rej => True | UB => False end.
Proof.
  intros s o [(Ho & HF & C)|D].
  - pose proof (step_open s o HF C Ho) as H. destruct (sstep s o) as [s'| |]; auto. destruct H as [(h1 & P)|(_ & D)]; [|right; exact D].
    left. split; [exact h1|]. split; [eapply prims_full; eauto|eapply prims_cb; eauto].
  - pose proof (step_dead s o D) as H. destruct (sstep s o); auto. right. exact H.
Qed.
Theorem good_run : forall os s, good s -> match srun s os with Ok s' => good s' | Rej => True | UB => False end.
Proof.
  induction os as [|o os IH]; intros s G; cbn [srun]; [exact G|]. pose proof (good_step s o G) as H. destruct (sstep s o); cbn [rbind]; auto. apply IH. exact H.
Qed.
Lemma srun_app : forall a b s, srun s (a ++ b) = match srun s a with Ok s' => srun s' b | Rej => Rej | UB => UB end.
Proof. induction a as [|o a IH]; intros b s; [reflexivity|]. cbn [app srun]. destruct (sstep s o); cbn [rbind]; auto. Qed.
Lemma reach_full : forall os s, srun ss_init os = Ok s -> s_open s = true -> Full s.
Proof.
  intros os s E Ho. pose proof (good_run os ss_init good_init) as H. rewrite E in H. destruct H as [(_ & H & _)|D]; [exact H|]. rewrite (de_open _ D) in Ho. discriminate.
Qed.
Theorem send_safe : forall os, srun ss_init os <> UB.
Proof. intros os E. pose proof (good_run os ss_init good_init) as H. rewrite E in H. exact H. Qed.

(** ** C11 *)
Lemma zlen_marks : forall ps, zlen (marks ps) = zlen ps.
Proof. intros. unfold zlen. rewrite marks_length. reflexivity. Qed.
Theorem write_split : forall os s fi msg sw fw names s', srun ss_init os = Ok s -> s_open s = true -> w_live (wget s fi) = true ->
  sstep s (SWrite fi msg sw fw names) = Ok s' ->
  exists pieces new, cut (1161 - zlen (w_opts (wget s fi))) msg pieces
    /\ w_queue (wget s' fi) = w_queue (wget s fi) ++ new
    /\ map (shown s') new = numbered (w_next (wget s fi)) (marks pieces)
    /\ w_next (wget s' fi) = w_next (wget s fi) + zlen pieces /\ w_next (wget s' fi) <= U64MAX
    /\ (forall e, In e (w_queue (wget s fi)) -> shown s' e = shown s e).
Proof.
  intros os s fi msg sw fw names s' Er Ho Hv E. pose proof (reach_full os s Er Ho) as HF. cbn [sstep] in E. destruct (bytes_okb msg) eqn:Eb; [|discriminate]. apply Forall_is_bytes in Eb.
  unfold do_write in E. rewrite Hv in E. pose proof (flow_there s fi (or_introl Hv)) as Hl.
  set (s0 := wset s fi (with_msgs (wget s fi) (w_msgs (wget s fi) ++ [msg]))) in *.
  assert (Ew0 : wget s0 fi = with_msgs (wget s fi) (w_msgs (wget s fi) ++ [msg])) by (apply wget_wset_same; exact Hl).
  assert (P0 : prim (fun _ _ => False) (fun _ => True) s s0) by (apply pr_msg; auto). pose proof (prim_full _ _ _ _ P0 HF) as HF0.
  pose proof (basic_write_prims (fun _ _ => False) (fun _ => True) s0 fi msg sw fw names HF0) as H. unfold s0 in H at 1. rewrite flows_wset, Ew0 in H.
  specialize (H Hl (fi_live _ _ (fu_fi _ HF fi) Hv) Eb (fun _ => I) I).
  rewrite E in H. destruct H as (P1 & ps & new & s1 & Hc & E1 & Ha). pose proof (prs_cons _ _ _ _ _ P0 P1) as P. exists ps, new. split; [exact Hc|].
  assert (Ew : wget s1 fi = with_msgs (wget s fi) (w_msgs (wget s fi) ++ [msg])) by (rewrite E1; exact Ew0).
  pose proof (ad_queue _ _ _ _ _ _ Ha) as h1. pose proof (ad_shown _ _ _ _ _ _ Ha) as h2. pose proof (ad_next _ _ _ _ _ _ Ha) as h3. rewrite Ew in h1, h2, h3. cbn [w_queue w_next with_msgs] in h1, h2, h3.
  split; [exact h1|]. split; [exact h2|]. split; [rewrite h3, zlen_marks; reflexivity|]. pose proof (prims_full _ _ _ _ P HF) as HF'. split; [apply (fi_next _ _ (fu_fi _ HF' fi))|].
  intros [nm id] Hi. destruct (fi_ids _ _ (fu_fi _ HF fi) nm id Hi) as (Hid & _). unfold shown. cbn [snd]. rewrite (ad_old _ _ _ _ _ _ Ha) by (rewrite E1; exact Hid). rewrite E1. reflexivity.
Qed.

Lemma cut_count : forall most msg ps, cut most msg ps -> zlen ps <= Z.max 1 (zlen msg).
Proof.
  intros most msg ps (_ & Hc & _ & Hn & He). destruct msg as [|b msg]; [rewrite He by reflexivity; unfold zlen; cbn; lia|].
  specialize (Hn ltac:(discriminate)). rewrite <- Hc. clear - Hn. induction Hn as [|p ps Hp Hn IH]; [unfold zlen; cbn; lia|].
  cbn [concat]. rewrite zlen_cons, zlen_app. assert (1 <= zlen p) by (destruct p; [congruence|rewrite zlen_cons; pose proof (zlen_nonneg _ p); lia]).
  destruct ps; [unfold zlen in *; cbn in *; lia|]. inversion Hn; subst. rewrite zlen_cons in *. cbn [concat] in *. rewrite zlen_app in *. assert (1 <= zlen l) by (destruct l; [congruence|rewrite zlen_cons; pose proof (zlen_nonneg _ l); lia]). pose proof (zlen_nonneg _ (concat ps)). lia.
Qed.
Lemma add_frags_goes : forall frs names s fi rc, (fi < length (s_flows s))%nat -> (length frs <= length names)%nat -> NoDup names ->
  (forall nm, In nm names -> 0 < nm /\ ~ In nm (map fst (w_queue (wget s fi)))) -> 0 <= w_next (wget s fi) -> w_next (wget s fi) + zlen frs <= U64MAX -> exists s', add_frags s fi rc names frs = Ok s'.
Proof.
  induction frs as [|fr frs IH]; intros names s fi rc Hl Hn Hd Hu H0 Hx; cbn [add_frags]; [eexists; reflexivity|].
  destruct names as [|nm names]; [cbn in Hn; lia|]. apply NoDup_cons_iff in Hd. destruct Hd as (Hd1 & Hd2). rewrite zlen_cons in Hx. pose proof (zlen_nonneg _ frs).
  destruct (add_frag s fi rc nm fr) as [s1| |] eqn:E.
  - cbn [rbind]. destruct (add_frag_facts s fi rc nm fr s1 Hl H0 E) as (Ha & _). pose proof (ad_next _ _ _ _ _ _ Ha) as Hnx. unfold zlen in Hnx at 1. cbn [length] in Hnx.
    apply IH.
    + rewrite (ad_len _ _ _ _ _ _ Ha). exact Hl.
    + cbn in Hn. lia.
    + exact Hd2.
    + intros n Hi. destruct (Hu n (or_intror Hi)) as (u1 & u2). split; [exact u1|]. rewrite (ad_queue _ _ _ _ _ _ Ha), map_app, in_app_iff. cbn. intros [h|[<-|[]]]; [exact (u2 h)|exact (Hd1 Hi)].
    + lia.
    + lia.
  - exfalso. unfold add_frag in E. cbn zeta in E. destruct (Hu nm (or_introl eq_refl)) as (u1 & u2). assert (usable nm (w_queue (wget s fi)) = true) as Hus by (apply usable_spec; auto). rewrite Hus in E.
    destruct (Z.ltb_spec (w_next (wget s fi)) U64MAX); [discriminate|lia].
  - exfalso. unfold add_frag in E. cbn zeta in E. destruct (_ && _); discriminate.
Qed.
(** Writing goes through whenever the queue finds names and the sequence numbers suffice. *)
Theorem write_goes : forall os s fi msg sw fw names, srun ss_init os = Ok s -> s_open s = true -> bytes_ok msg -> zlen msg < zlen names -> NoDup names ->
  (forall nm, In nm names -> 0 < nm /\ ~ In nm (map fst (w_queue (wget s fi)))) -> w_next (wget s fi) + zlen msg < U64MAX -> exists s', sstep s (SWrite fi msg sw fw names) = Ok s'.
Proof.
  intros os s fi msg sw fw names Er Ho Hb Hn Hd Hu Hx. pose proof (reach_full os s Er Ho) as HF. cbn [sstep].
  assert (bytes_okb msg = true) as ->. { unfold bytes_okb. apply forallb_forall. intros x Hx'. unfold bytes_ok in Hb. rewrite Forall_forall in Hb. specialize (Hb x Hx'). unfold is_byteb, is_byte in *. lia. }
  unfold do_write. destruct (w_live (wget s fi)) eqn:Hv; [|eexists; reflexivity]. unfold basic_write. cbv zeta. pose proof (flow_there s fi (or_introl Hv)) as Hl.
  destruct (fi_opts _ _ (fu_fi _ HF fi)) as (Hop & _). rewrite (wget_wset_same s fi) by exact Hl. cbn [w_opts with_msgs].
  destruct (fragment_spec (zlen (w_opts (wget s fi))) msg) as (ps & Hcut & Efr); [pose proof (zlen_nonneg _ (w_opts (wget s fi))); lia|]. rewrite Efr. cbn [rbind].
  pose proof (cut_count _ _ _ Hcut) as Hc. pose proof (zlen_nonneg _ msg). 
  match goal with |- context [set_rcpts ?x ?y] => set (s2 := set_rcpts x y) end.
  assert (Ew : wget s2 fi = with_msgs (wget s fi) (w_msgs (wget s fi) ++ [msg])) by (apply wget_wset_same; exact Hl).
  destruct (fi_next _ _ (fu_fi _ HF fi)) as (Hnx & _).
  apply add_frags_goes; rewrite ?Ew; cbn [w_queue w_next with_msgs]; auto.
  - change (s_flows s2) with (s_flows (wset s fi (with_msgs (wget s fi) (w_msgs (wget s fi) ++ [msg])))). rewrite flows_wset. exact Hl.
  - rewrite marks_length. unfold zlen in *. lia.
  - lia.
  - rewrite zlen_marks. lia.
Qed.

(** ** C17 *)
Lemma total_held : forall s (q : list (Z * nat)), total (map (fun g => zlen (g_data g) + 64) (map (fun e => gget s (snd e)) q)) = sumof (qval s) q.
Proof. induction q as [|e q IH]; [reflexivity|]. cbn [map total fold_right sumof]. fold (total (map (fun g => zlen (g_data g) + 64) (map (fun e => gget s (snd e)) q))). rewrite IH. reflexivity. Qed.
Lemma total_fly : forall s (q : list (Z * nat)), total (map g_size (filter g_fly (map (fun e => gget s (snd e)) q))) = sumof (flyval s) q.
Proof.
  induction q as [|e q IH]; [reflexivity|]. cbn [map filter sumof]. unfold flyval at 1. destruct (g_fly (gget s (snd e))); [|rewrite IH; lia].
  cbn [map total fold_right]. fold (total (map g_size (filter g_fly (map (fun e => gget s (snd e)) q)))). rewrite IH. reflexivity.
Qed.
Lemma fly_bounds : forall s (q : list (Z * nat)), (forall nm id, In (nm, id) q -> 0 <= g_size (gget s id) <= 1200) -> 0 <= sumof (flyval s) q <= 1200 * zlen q.
Proof.
  induction q as [|[nm id] q IH]; intros H; [unfold zlen; cbn; lia|]. cbn [sumof snd]. rewrite zlen_cons. specialize (H nm id (or_introl eq_refl)) as H1.
  assert (H2 : forall nm id, In (nm, id) q -> 0 <= g_size (gget s id) <= 1200) by (intros; eapply H; right; eauto). specialize (IH H2). unfold flyval at 1 3. destruct (g_fly (gget s id)); lia.
Qed.
(** The counters, exactly, up to the size of the machine's integers. *)
Theorem accounts : forall os s fi, srun ss_init os = Ok s -> s_open s = true ->
  w_out (wget s fi) = wrap64 (in_flight_bytes s fi) /\ w_qsum (wget s fi) = wrap64 (held_bytes s fi)
  /\ 0 <= in_flight_bytes s fi <= 1200 * zlen (w_queue (wget s fi)) /\ 0 <= held_bytes s fi.
Proof.
  intros os s fi Er Ho. pose proof (reach_full os s Er Ho) as HF. pose proof (fu_fi _ HF fi) as F. unfold in_flight_bytes, held_bytes, held. rewrite total_held, total_fly.
  split; [apply (fi_out _ _ F)|]. split; [apply (fi_sum _ _ F)|]. split.
  - apply fly_bounds. intros nm id Hi. destruct (fi_ids _ _ F nm id Hi) as (Hid & _). apply (fu_frag _ HF id Hid).
  - induction (w_queue (wget s fi)) as [|e q IH]; cbn [sumof]; [lia|]. unfold qval at 1, size_queue, FRAGMENT_SIZE_BIAS. pose proof (zlen_nonneg _ (g_data (gget s (snd e)))). lia.
Qed.

Lemma outl_ids : forall s, Full s -> NoDup (map snd (s_outl s)).
Proof.
  intros s HF. assert (H : forall l, incl l (s_outl s) -> NoDup (map fst l) -> NoDup (map snd l)).
  { induction l as [|[o id] l IH]; intros Hi Hd; [constructor|]. cbn [map fst snd] in *. apply NoDup_cons_iff in Hd. destruct Hd as (d1 & d2). constructor; [|apply IH; [intros x Hx; apply Hi; right; exact Hx|exact d2]].
    intros Hin. apply in_map_iff in Hin. destruct Hin as ([o' id'] & E & Hin). cbn [snd] in E. subst id'. apply d1. apply in_map_iff. exists (o', id). split; [|exact Hin]. cbn [fst].
    destruct (fu_o _ HF o id) as (_ & _ & _ & e1 & _); [apply Hi; left; reflexivity|]. destruct (fu_o _ HF o' id) as (_ & _ & _ & e2 & _); [apply Hi; right; exact Hin|]. congruence. }
  apply H; [apply incl_refl|apply (fu_ond _ HF)].
Qed.
Definition flying (s : sess) (fi : nat) : list nat := filter (fun id => g_fly (gget s id)) (map snd (w_queue (wget s fi))).
Lemma flying_in : forall s fi id, In id (flying s fi) <-> (exists nm, In (nm, id) (w_queue (wget s fi))) /\ g_fly (gget s id) = true.
Proof.
  intros. unfold flying. rewrite filter_In, in_map_iff. split; intros (H1 & H2); split; auto.
  - destruct H1 as ([nm i] & E & H). cbn in E. subst i. eauto.
  - destruct H1 as (nm & H). exists (nm, id). auto.
Qed.
Lemma flying_sum : forall s fi, total (map (fun id => g_size (gget s id)) (flying s fi)) = in_flight_bytes s fi.
Proof.
  intros. unfold flying, in_flight_bytes, held. induction (w_queue (wget s fi)) as [|e q IH]; [reflexivity|]. cbn [map filter]. destruct (g_fly (gget s (snd e))); cbn [map total fold_right]; [f_equal|]; exact IH.
Qed.
Lemma total_app : forall a b, total (a ++ b) = total a + total b.
Proof. induction a as [|x a IH]; intros b; [reflexivity|]. cbn [app total fold_right]. fold (total (a ++ b)). fold (total a). rewrite IH. lia. Qed.
Lemma total_perm : forall a b, Permutation.Permutation a b -> total a = total b.
Proof. induction 1; cbn [total fold_right] in *; try lia. all: unfold total in *; lia. Qed.
Lemma nodup_flat : forall (f : nat -> list nat) l, NoDup l -> (forall i, NoDup (f i)) -> (forall i j x, In x (f i) -> In x (f j) -> i = j) -> NoDup (flat_map f l).
Proof.
  intros f l Hd Hf Hj. induction Hd as [|i l Hi Hd IH]; [constructor|]. cbn [flat_map].
  assert (K : forall a b : list nat, NoDup a -> NoDup b -> (forall x, In x a -> In x b -> False) -> NoDup (a ++ b)).
  { induction a as [|x a IHa]; intros b Ha Hb Hx; [exact Hb|]. apply NoDup_cons_iff in Ha. destruct Ha as (h1 & h2). cbn [app]. constructor.
    - rewrite in_app_iff. intros [h|h]; [exact (h1 h)|exact (Hx x (or_introl eq_refl) h)].
    - apply IHa; auto. intros y Hy. apply Hx. right. exact Hy. }
  apply K; auto. intros x Hx1 Hx2. apply in_flat_map in Hx2. destruct Hx2 as (j & j1 & j2). rewrite (Hj i j x Hx1 j2) in Hi. exact (Hi j1).
Qed.
Theorem session_accounts : forall os s, srun ss_init os = Ok s -> s_open s = true -> s_osum s = wrap64 (session_bytes s).
Proof.
  intros os s Er Ho. pose proof (reach_full os s Er Ho) as HF. rewrite (fu_osum _ HF). f_equal. unfold session_bytes.
  assert (E1 : sumof (oval s) (s_outl s) = total (map (fun id => g_size (gget s id)) (map snd (s_outl s)))).
  { induction (s_outl s) as [|e l IH]; [reflexivity|]. cbn [sumof map total fold_right]. rewrite IH. reflexivity. }
  assert (E2 : forall l, total (map (in_flight_bytes s) l) = total (map (fun id => g_size (gget s id)) (flat_map (flying s) l))).
  { induction l as [|i l IH]; [reflexivity|]. cbn [map flat_map]. rewrite map_app, total_app, flying_sum. cbn [total fold_right]. unfold total in *. lia. }
  rewrite E1, E2. apply total_perm. apply Permutation.Permutation_map. apply Permutation.NoDup_Permutation.
  - apply outl_ids. exact HF.
  - apply nodup_flat; [apply seq_NoDup| |].
    + intros i. unfold flying. apply NoDup_filter. apply (fi_ndi _ _ (fu_fi _ HF i)).
    + intros i j x Hi Hj. apply flying_in in Hi. apply flying_in in Hj. destruct Hi as ((n1 & H1) & _). destruct Hj as ((n2 & H2) & _).
      destruct (fi_ids _ _ (fu_fi _ HF i) n1 x H1) as (_ & e1 & _). destruct (fi_ids _ _ (fu_fi _ HF j) n2 x H2) as (_ & e2 & _). congruence.
  - intros id. rewrite in_flat_map, in_map_iff. split.
    + intros ([o i] & E & Hi). cbn in E. subst i. destruct (fu_o _ HF o id Hi) as (_ & _ & Hf & _ & nm & Hn). exists (g_owner (gget s id)). split; [|apply flying_in; eauto].
      apply in_seq. pose proof (queue_len _ _ _ _ Hn). lia.
    + intros (fi & _ & Hi). apply flying_in in Hi. destruct Hi as ((nm & Hi) & Hf). destruct (fi_ids _ _ (fu_fi _ HF fi) nm id Hi) as (_ & _ & _ & H4). destruct (H4 Hf) as (H5 & _). exists (g_oname (gget s id), id). auto.
Qed.

(** Whatever a packet carries, everything queued before it is in flight. *)
Theorem send_in_order : forall os s fi gone buf margin flags ts tse onames s', srun ss_init os = Ok s -> s_open s = true ->
  sstep s (SSend fi gone buf margin flags ts tse onames) = Ok s' -> exists ws, s_wire s' = s_wire s ++ ws /\
  Forall (fun x => x_flow x = fi /\ exists a nm b, w_queue (wget s' fi) = a ++ (nm, x_frag x) :: b /\ Forall (fun e => g_fly (gget s' (snd e)) = true) (a ++ [(nm, x_frag x)])) ws.
Proof.
  intros os s fi gone buf margin flags ts tse onames s' Er Ho E. pose proof (reach_full os s Er Ho) as HF. cbn [sstep] in E.
  pose proof (send_prims (fun _ _ => False) (fun _ => False) s fi gone buf margin flags ts tse onames HF) as H. rewrite E in H. destruct H as (_ & ws & W1 & W2 & pre & rest & W3 & W4 & W5).
  exists ws. split; [exact W1|]. rewrite Forall_forall in *. intros x Hx. split; [auto|]. specialize (W5 x Hx). apply in_map_iff in W5. destruct W5 as ([nm id] & Eid & Hi). cbn in Eid. subst id.
  apply in_split in Hi. destruct Hi as (a & b & ->). exists a, nm, (b ++ rest). rewrite W3, <- app_assoc. split; [reflexivity|]. apply Forall_forall. intros e He. apply W4. apply in_app_iff in He. apply in_or_app. cbn [In] in *. tauto.
Qed.
