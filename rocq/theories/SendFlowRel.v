(** Sending flow: messages whose receipts are left alone are never given up. *)
From Coq Require Import Sorted.
From Verif Require Import Base BaseFacts VLU VLUSpec VLUProofs Packet PacketSpec PacketProofs UserData UserDataSpec UserDataProofs Ack AckSpec AckProofs RecvFlowSpec WriteReceipt WriteReceiptSpec WriteReceiptProofs SendFlow SendFlowSpec SendFlowProofs SendFlowInv SendFlowSteps SendFlowRun SendFlowTrack SendFlowOps.
Ltac Zify.zify_post_hook ::= Z.div_mod_to_equations.

(** A receipt with no deadline and no parent, whose message is to be retransmitted, not given up so far. *)
Definition relc (c : rcpt) : Prop := c_aband c = false /\ c_rtx c = true /\ c_start c = None /\ c_finish c = None /\ c_parent c = None.
Definition rop_target (o : rop) : option nat :=
  match o with
  | RNew _ _ _ => None | RUp i | RDown i | RStart i | RExamine _ i | RAbandon i | RSetStart i _ | RSetFinish i _ | RSetRtx i _ | RHook i | RSetParent i _ => Some i
  end.
(** The operations that may be done to such a receipt. *)
Definition tame (o : rop) (r : nat) : Prop := rop_target o = Some r -> match o with RHook _ | RUp _ => True | _ => False end.

Lemma rstep_relc : forall rs o r, (r < length (rs_all rs))%nat -> relc (rget rs r) ->
  (rop_target o = Some r -> match o with RHook _ | RUp _ | RDown _ | RStart _ | RExamine _ _ => True | _ => False end) -> relc (rget (rstep rs o) r).
Proof.
  intros rs o r Hl (h1 & h2 & h3 & h4 & h5) Ht. destruct (rstep_keeps rs o r Hl) as (k1 & k2 & k3 & k4 & _). destruct (step_facts rs o r) as (_ & k5 & _). unfold relc.
  assert (Hex : forall now, o = RExamine now r -> rstep rs o = rs).
  { intros now ->. cbn [rstep]. unfold r_needed. rewrite h1, h3, h4, h5. cbn. destruct (c_started (rget rs r)); reflexivity. }
  split; [|split; [|split; [|split]]].
  - destruct (c_aband (rget (rstep rs o) r)) eqn:E; [|reflexivity]. destruct (step_facts rs o r) as (_ & k6 & _); destruct (k6 h1 E) as (_ & [-> |(now & Eo)]); [destruct (Ht eq_refl)|]. rewrite (Hex _ Eo), h1 in E. discriminate.
  - destruct k3 as [->|(b & ->)]; [exact h2|destruct (Ht eq_refl)].
  - destruct k2 as [->|(b & ->)]; [exact h3|destruct (Ht eq_refl)].
  - destruct k1 as [->|(b & ->)]; [exact h4|destruct (Ht eq_refl)].
  - destruct k4 as [->|[->|(b & ->)]]; [exact h5|reflexivity|destruct (Ht eq_refl)].
Qed.
Lemma prim_relc : forall A (B : rop -> Prop) s s' r, prim A B s s' -> Full s -> (r < length (rs_all (s_rcpts s)))%nat -> (forall o, B o -> tame o r) -> relc (rget (s_rcpts s) r) -> relc (rget (s_rcpts s') r).
Proof.
  intros A B s s' r P HF Hl HB Hr. destruct (prim_rcpts _ _ _ _ P HF) as [->|(o & -> & Ht)]; [exact Hr|]. apply rstep_relc; auto. intros E.
  destruct Ht as [(h & _)|[(now & i & ->)|[(i & -> & h)|[(i & ->)|(fi & nm & id & -> & _)]]]]; auto.
  - specialize (HB o h E). destruct o; auto.
  - cbn in E. injection E as ->. destruct Hr as (_ & h2 & _). congruence.
Qed.
Lemma prims_relc : forall A (B : rop -> Prop) s s' r, prims A B s s' -> Full s -> (r < length (rs_all (s_rcpts s)))%nat -> (forall o, B o -> tame o r) -> relc (rget (s_rcpts s) r) -> relc (rget (s_rcpts s') r).
Proof.
  induction 1; intros HF Hl HB Hr; [assumption|]. apply IHprims; auto.
  - eapply prim_full; eauto.
  - pose proof (prim_rlen _ _ _ _ H HF). lia.
  - eapply prim_relc; eauto.
Qed.

(** Operations that make no fragment. *)
Lemma quiet_heap : forall A (B : rop -> Prop) s s', prims A B s s' -> (forall n, ~ B (RUp n)) -> length (s_heap s') = length (s_heap s) /\ forall id, core (gget s' id) = core (gget s id).
Proof.
  induction 1; intros HB; [auto|]. destruct (IHprims HB) as (h1 & h2). destruct (prim_frame _ _ _ _ H) as [[(fi & rc & nm & fr & _ & _ & _ & h & _)|(opts & _ & ->)]|F].
  - destruct (HB _ h).
  - auto.
  - split; [rewrite h1; apply (fm_heap _ _ F)|]. intros id. rewrite h2. apply (fm_core _ _ F).
Qed.
Lemma add_frags_relc : forall frs names s fi rc s', (fi < length (s_flows s))%nat -> 0 <= w_next (wget s fi) -> add_frags s fi rc names frs = Ok s' ->
  forall r, (r < length (rs_all (s_rcpts s)))%nat -> relc (rget (s_rcpts s) r) -> relc (rget (s_rcpts s') r).
Proof.
  induction frs as [|fr frs IH]; intros names s fi rc s' Hl Hn He r Hr Hc; cbn [add_frags] in He.
  - assert (s = s') by (destruct names; apply Ok_inj in He; exact He). subst. exact Hc.
  - destruct names as [|nm names]; [discriminate|]. destruct (add_frag s fi rc nm fr) as [s1| |] eqn:E1; cbn [rbind] in He; try discriminate.
    destruct (add_one s fi rc nm fr s1 Hl Hn E1) as (M & _). apply (IH names s1 fi rc s'); auto.
    + rewrite (mo_flows _ _ _ _ _ _ M). exact Hl.
    + rewrite (mo_next _ _ _ _ _ _ M). lia.
    + rewrite (mo_rcpts _ _ _ _ _ _ M), rstep_length. lia.
    + rewrite (mo_rcpts _ _ _ _ _ _ M). apply rstep_relc; auto.
Qed.
Lemma write_eff : forall s fi msg sw fw names s', Full s -> w_live (wget s fi) = true -> do_write s fi msg sw fw names = Ok s' ->
  (forall id, (length (s_heap s) <= id < length (s_heap s'))%nat -> g_owner (gget s' id) = fi /\ g_rcpt (gget s' id) = length (rs_all (s_rcpts s)))
  /\ (sw = None -> fw = None -> relc (rget (s_rcpts s') (length (rs_all (s_rcpts s))))).
Proof.
  intros s fi msg sw fw names s' HF Hv He. unfold do_write in He. rewrite Hv in He. pose proof (flow_there s fi (or_introl Hv)) as Hl.
  set (s1 := wset s fi (with_msgs (wget s fi) (w_msgs (wget s fi) ++ [msg]))) in *. unfold basic_write in He. cbv zeta in He.
  assert (E1 : wget s1 fi = with_msgs (wget s fi) (w_msgs (wget s fi) ++ [msg])) by (apply wget_wset_same; exact Hl).
  destruct (fragment (zlen (w_opts (wget s1 fi))) msg) as [frs| |]; cbn [rbind] in He; try discriminate.
  set (s2 := set_rcpts s1 (r_new (s_rcpts s1) (s_now s1) sw fw)) in *.
  assert (Hl2 : (fi < length (s_flows s2))%nat) by (change (s_flows s2) with (s_flows s1); unfold s1; rewrite flows_wset; exact Hl).
  pose proof (fi_next _ _ (fu_fi _ HF fi)) as (Hn & _). assert (Hn2 : 0 <= w_next (wget s2 fi)) by (change (wget s2 fi) with (wget s1 fi); rewrite E1; cbn [w_next with_msgs]; lia).
  split; [exact (add_frags_heap frs names s2 fi _ s' Hl2 Hn2 He)|]. intros -> ->.
  assert (El : length (rs_all (s_rcpts s2)) = S (length (rs_all (s_rcpts s)))) by (unfold s2; cbn; rewrite app_length; cbn; lia).
  apply (add_frags_relc frs names s2 fi _ s' Hl2 Hn2 He); [rewrite El; lia|]. unfold s2, rget. cbn [s_rcpts set_rcpts r_new rs_all]. change (s_rcpts s1) with (s_rcpts s). rewrite nth_app_new. unfold relc. cbn. auto.
Qed.

(** ** A flow used reliably *)
(** Its messages are written without deadlines, the application leaves their receipts alone except for onFinished, and the
    peer does not reject the flow. *)
Definition reliable (fi : nat) (mine : list nat) (s : sess) (o : sop) : Prop :=
  match o with
  | SWrite fj _ sw fw _ => fj = fi -> sw = None /\ fw = None
  | SReceipt r => forall i, In i mine -> rop_target r = Some i -> r = RHook i
  | SException id _ => find_flow id (s_flows s) 0 <> Some fi
  | SOpenFailed fj => fj <> fi
  | _ => True
  end.
Definition mine_after (fi : nat) (s : sess) (o : sop) (mine : list nat) : list nat :=
  match o with SWrite fj _ _ _ _ => if (Nat.eqb fj fi && w_live (wget s fj) : bool) then length (rs_all (s_rcpts s)) :: mine else mine | _ => mine end.
Record RI (s : sess) (fi : nat) (held mine : list nat) : Prop := {
  ri_held : incl mine held;
  ri_len : forall r, In r held -> (r < length (rs_all (s_rcpts s)))%nat;
  ri_ok : forall r, In r mine -> relc (rget (s_rcpts s) r);
  ri_own : forall id, (id < length (s_heap s))%nat -> In (g_rcpt (gget s id)) mine -> g_owner (gget s id) = fi;
  ri_all : forall id, (id < length (s_heap s))%nat -> g_owner (gget s id) = fi -> In (g_rcpt (gget s id)) mine \/ exists rc t, cls s fi id rc t /\ ~ In rc held }.
Lemma ri_init : forall fi, RI ss_init fi [] [].
Proof. intros fi. constructor; [intros r []|intros r []|intros r []|intros id Hid; cbn in Hid; lia|intros id Hid; cbn in Hid; lia]. Qed.

(** What only the queue's closing fragment can be. *)
Lemma ri_ab : forall s fi held mine i, RI s fi held mine -> Ab s fi i -> exists id rc t, cls s fi id rc t /\ ~ In rc held /\ i = zlen (w_tab (wget s fi)).
Proof.
  intros s fi held mine i H (id & h1 & h2 & h3 & h4). destruct (ri_all _ _ _ _ H id h1 h2) as [Hm|(rc & t & Hc & Hn)].
  - destruct (ri_ok _ _ _ _ H _ Hm) as (e & _). congruence.
  - exists id, rc, t. split; [exact Hc|]. split; [exact Hn|]. rewrite <- h3. exact (cl_seq _ _ _ _ _ Hc).
Qed.

(** Steps after which every new fragment is a closing one or belongs to another flow and to a new receipt. *)
Lemma ri_prims : forall A (B : rop -> Prop) s s' fi held mine, prims A B s s' -> Full s -> TI s -> (forall r, In r mine -> forall o, B o -> tame o r) -> (forall rc, (rc < length (rs_all (s_rcpts s)))%nat -> ~ B (RUp rc)) ->
  (forall rc t, ~ In rc held -> ~ B (RSetFinish rc t)) ->
  (forall id, (length (s_heap s) <= id < length (s_heap s'))%nat -> (length (rs_all (s_rcpts s)) <= g_rcpt (gget s' id))%nat /\ (g_owner (gget s' id) = fi -> exists t, cls s' fi id (g_rcpt (gget s' id)) t)) ->
  RI s fi held mine -> RI s' fi held mine.
Proof.
  intros A B s s' fi held mine P HF T HT HU HB Hnew [h1 h2 h3 h4 h5]. destruct (prims_core _ _ _ _ P HF) as (c1 & c2). pose proof (prims_rlen _ _ _ _ P HF) as Hlen. constructor.
  - exact h1.
  - intros r Hr. specialize (h2 r Hr). lia.
  - intros r Hr. apply (prims_relc _ _ _ _ r P HF); auto.
  - intros id Hid Hm. destruct (Nat.lt_ge_cases id (length (s_heap s))) as [Hl|Hl].
    + destruct (core_eq _ _ (c2 id Hl)) as (e1 & _ & _ & _ & e5). rewrite e1. rewrite e5 in Hm. auto.
    + exfalso. destruct (Hnew id (conj Hl Hid)) as (e & _). specialize (h2 _ (h1 _ Hm)). lia.
  - intros id Hid Ho. destruct (Nat.lt_ge_cases id (length (s_heap s))) as [Hl|Hl].
    + destruct (core_eq _ _ (c2 id Hl)) as (e1 & _ & _ & _ & e5). rewrite e1 in Ho. rewrite e5. destruct (h5 id Hl Ho) as [?|(rc & t & Hc & Hn)]; [auto|right]. exists rc, t. split; [|exact Hn].
      eapply prims_cls; eauto. apply HU. exact (cl_rc _ _ _ _ _ Hc).
    + right. destruct (Hnew id (conj Hl Hid)) as (e & e'). destruct (e' Ho) as (t & Hc). exists (g_rcpt (gget s' id)), t. split; [exact Hc|]. intros Hi. specialize (h2 _ Hi). lia.
Qed.
Lemma ri_close : forall s fi fj names s' held mine, Full s -> TI s -> s_open s = true -> (fj < length (s_flows s))%nat -> do_close s fj names = Ok s' -> RI s fi held mine -> RI s' fi held mine.
Proof.
  intros s fi fj names s' held mine HF T Ho Hl He Hr. destruct (close_eff s fj names s' HF T Ho Hl He) as (_ & _ & _ & Hnew).
  pose proof (close_prims (fun _ _ => False) (Bclose (length (rs_all (s_rcpts s)))) s fj names HF Ho Hl (fun o h => h)) as P. rewrite He in P. destruct P as (P & _).
  apply (ri_prims _ _ s s' fi held mine P HF T); auto.
  - intros r Hm o [(now & ->)| ->] E; cbn in *; [discriminate|exact Logic.I].
  - intros rc Hr' [(now & h)|h]; [discriminate|]. injection h as ->. lia.
  - intros rc t _ [(now & h)|h]; discriminate.
  - intros id Hid. pose proof (Hnew id Hid) as Hc. split.
    + rewrite (cl_rcpt _ _ _ _ _ Hc). lia.
    + intros Ho'. exists (s_now s - 1). rewrite (cl_rcpt _ _ _ _ _ Hc). pose proof (cl_owner _ _ _ _ _ Hc) as e. rewrite Ho' in e. rewrite e. exact Hc.
Qed.
Lemma ri_exception : forall s fi fj names s' held mine, Full s -> TI s -> s_open s = true -> (fj < length (s_flows s))%nat -> fj <> fi -> on_exception s fj names = Ok s' -> RI s fi held mine -> RI s' fi held mine.
Proof.
  intros s fi fj names s' held mine HF T Ho Hl N He Hr. unfold on_exception in He. set (s0 := wset s fj (with_exc (wget s fj))) in *.
  assert (P0 : prim (fun _ _ => False) (fun _ => False) s s0) by (apply pr_flow; constructor; cbn; auto).
  pose proof (prim_full _ _ _ _ P0 HF) as HF0. pose proof (prim_ti _ _ _ _ HF T P0) as T0.
  assert (M0 : RI s0 fi held mine).
  { apply (ri_prims _ _ s s0 fi held mine (prims_one _ _ _ _ P0) HF T); try contradiction; auto. intros id Hid. cbn in Hid. lia. }
  destruct (do_close s0 fj names) as [s1| |] eqn:E1; cbn [rbind] in He; try discriminate. apply Ok_inj in He.
  assert (Hl0 : (fj < length (s_flows s0))%nat) by (unfold s0; rewrite flows_wset; exact Hl).
  pose proof (ri_close s0 fi fj names s1 held mine HF0 T0 Ho Hl0 E1 M0) as M1.
  pose proof (close_prims (fun _ _ => False) (Bclose (length (rs_all (s_rcpts s0)))) s0 fj names HF0 Ho Hl0 (fun o h => h)) as P. rewrite E1 in P. destruct P as (P & _).
  pose proof (prims_full _ _ _ _ P HF0) as HF1. pose proof (prims_ti _ _ _ _ P HF0 T0) as T1.
  pose proof (abandon_prims (fun _ _ => False) (fun o => exists e, In e (w_queue (wget s1 fj)) /\ o = RAbandon (g_rcpt (gget s1 (snd e)))) (fun e => g_rcpt (gget s1 (snd e))) (w_queue (wget s1 fj)) s1
    (fun e h => ex_intro _ e (conj h eq_refl))) as P2. cbv beta in P2. rewrite He in P2.
  assert (Nu : forall n, ~ (exists e, In e (w_queue (wget s1 fj)) /\ RUp n = RAbandon (g_rcpt (gget s1 (snd e))))) by (intros n (i & _ & h); discriminate).
  destruct (quiet_heap _ _ _ _ P2 Nu) as (q1 & q2). apply (ri_prims _ _ s1 s' fi held mine P2 HF1 T1); auto.
  - intros r Hm o ((nm & id) & Hin & ->) E. cbn [rop_target snd] in E. injection E as E. destruct (fi_ids _ _ (fu_fi _ HF1 fj) nm id Hin) as (i1 & i2 & _). rewrite <- E in Hm. pose proof (ri_own _ _ _ _ M1 id i1 Hm). congruence.
  - intros rc t _ (e & _ & h). discriminate.
  - intros id Hid. lia.
Qed.

Lemma ri_step : forall s o s' fi held mine, Full s -> TI s -> closed_unbound s -> s_open s = true -> fair held o -> reliable fi mine s o -> sstep s o = Ok s' -> RI s fi held mine -> RI s' fi (held_after s o held) (mine_after fi s o mine).
Proof.
  intros s o s' fi held mine HF T C Ho Hfair Hrel He Hm. pose proof (step_open s o HF C Ho) as St. rewrite He in St. destruct St as [(_ & P)|(-> & _)]; [|destruct Hfair].
  assert (Quiet : (forall n, ~ B_op s o (RUp n)) -> (forall rc t, ~ In rc held -> ~ B_op s o (RSetFinish rc t)) -> (forall r, In r mine -> forall o', B_op s o o' -> tame o' r) -> RI s' fi held mine).
  { intros Nu Ns Nt. destruct (quiet_heap _ _ _ _ P Nu) as (a1 & a2). apply (ri_prims _ _ s s' fi held mine P HF T); auto. intros id Hid. lia. }
  destruct o; cbn [held_after mine_after]; try (apply Quiet; cbn; intros; tauto).
  - (* write *) clear Quiet. pose proof He as He'. cbn [sstep] in He. destruct (bytes_okb msg) eqn:Eb; [|discriminate].
    destruct (w_live (wget s fi0)) eqn:Ev; [|unfold do_write in He; rewrite Ev in He; apply Ok_inj in He; subst s'; rewrite andb_false_r; exact Hm]. rewrite andb_true_r.
    destruct (write_eff s fi0 msg sw fw names s' HF Ev He) as (w1 & w2). destruct (prims_core _ _ _ _ P HF) as (c1 & c2). pose proof (prims_rlen _ _ _ _ P HF) as Hlen.
    assert (Hlen' : (length (rs_all (s_rcpts s)) < length (rs_all (s_rcpts s')))%nat).
    { pose proof (mi_step s (SWrite fi0 msg sw fw names) s' fi held HF T C Ho Hfair He') as HM. cbn [held_after] in HM. rewrite Ev in HM.
      assert (X : forall held, MI s fi held \/ True) by auto. clear X.
      pose proof (basic_write_prims (fun _ _ => False) (fun _ => True) (wset s fi0 (with_msgs (wget s fi0) (w_msgs (wget s fi0) ++ [msg]))) fi0 msg sw fw names) as H.
      pose proof (flow_there s fi0 (or_introl Ev)) as Hl. assert (P0 : prim (fun _ _ => False) (B_op s (SWrite fi0 msg sw fw names)) s (wset s fi0 (with_msgs (wget s fi0) (w_msgs (wget s fi0) ++ [msg])))) by (apply pr_msg; [exact Ev|right; reflexivity]).
      apply Forall_is_bytes in Eb. unfold do_write in He. rewrite Ev in He. rewrite He in H. rewrite flows_wset, wget_wset_same in H by exact Hl.
      destruct (H (prim_full _ _ _ _ P0 HF) Hl (fi_live _ _ (fu_fi _ HF fi0) Ev) Eb (fun _ => Logic.I) Logic.I) as (_ & ps & new & sm & _ & Esm & Had). rewrite (ad_rlen _ _ _ _ _ _ Had), Esm. cbn. rewrite app_length. cbn. lia. }
    assert (HU : forall rc, (rc < length (rs_all (s_rcpts s)))%nat -> ~ B_op s (SWrite fi0 msg sw fw names) (RUp rc)) by (intros rc Hr [(now & h)|h]; [discriminate|injection h as ->; lia]).
    assert (HB : forall rc t, ~ In rc held -> ~ B_op s (SWrite fi0 msg sw fw names) (RSetFinish rc t)) by (intros rc t _ [(now & h)|h]; discriminate).
    assert (HT : forall r, In r mine -> forall o, B_op s (SWrite fi0 msg sw fw names) o -> tame o r) by (intros r _ o [(now & ->)| ->] E; cbn in *; [discriminate|exact Logic.I]).
    destruct Hm as [h1 h2 h3 h4 h5]. destruct (Nat.eqb_spec fi0 fi) as [->|N].
    + destruct (Hrel eq_refl) as (-> & ->). specialize (w2 eq_refl eq_refl). constructor.
      * intros r [<-|Hr]; [left; reflexivity|right; auto].
      * intros r [<-|Hr]; [exact Hlen'|specialize (h2 r Hr); lia].
      * intros r [<-|Hr]; [exact w2|]. apply (prims_relc _ _ _ _ r P HF); auto.
      * intros id Hid Hi. destruct (Nat.lt_ge_cases id (length (s_heap s))) as [Hl|Hl]; [|apply (w1 id (conj Hl Hid))].
        destruct (core_eq _ _ (c2 id Hl)) as (e1 & _ & _ & _ & e5). rewrite e1. rewrite e5 in Hi. apply h4; [exact Hl|]. destruct Hi as [Hi|Hi]; [exfalso|exact Hi].
        destruct (ti_frag _ T id Hl) as (_ & _ & _ & h). lia.
      * intros id Hid Hi. destruct (Nat.lt_ge_cases id (length (s_heap s))) as [Hl|Hl]; [|left; left; symmetry; apply (w1 id (conj Hl Hid))].
        destruct (core_eq _ _ (c2 id Hl)) as (e1 & _ & _ & _ & e5). rewrite e1 in Hi. rewrite e5. destruct (h5 id Hl Hi) as [?|(rc & t & Hc & Hn)]; [left; right; assumption|right]. exists rc, t.
        pose proof (cl_rc _ _ _ _ _ Hc) as Hrc. split; [eapply prims_cls; eauto|]. intros [<-|Hx]; [lia|auto].
    + constructor.
      * intros r Hr. right. auto.
      * intros r [<-|Hr]; [exact Hlen'|specialize (h2 r Hr); lia].
      * intros r Hr. apply (prims_relc _ _ _ _ r P HF); auto.
      * intros id Hid Hi. destruct (Nat.lt_ge_cases id (length (s_heap s))) as [Hl|Hl].
        -- destruct (core_eq _ _ (c2 id Hl)) as (e1 & _ & _ & _ & e5). rewrite e1. rewrite e5 in Hi. auto.
        -- exfalso. destruct (w1 id (conj Hl Hid)) as (_ & e). rewrite e in Hi. specialize (h2 _ (h1 _ Hi)). lia.
      * intros id Hid Hi. destruct (Nat.lt_ge_cases id (length (s_heap s))) as [Hl|Hl]; [|destruct (w1 id (conj Hl Hid)); congruence].
        destruct (core_eq _ _ (c2 id Hl)) as (e1 & _ & _ & _ & e5). rewrite e1 in Hi. rewrite e5. destruct (h5 id Hl Hi) as [?|(rc & t & Hc & Hn)]; [auto|right]. exists rc, t.
        pose proof (cl_rc _ _ _ _ _ Hc) as Hrc. split; [eapply prims_cls; eauto|]. intros [<-|Hx]; [lia|auto].
  - cbn [sstep] in He. destruct (Nat.ltb_spec fi0 (length (s_flows s))) as [Hl|]; [|discriminate]. eapply ri_close; eauto.
  - cbn [sstep] in He. unfold do_exception in He. destruct (find_flow id (s_flows s) 0) as [fj|] eqn:Ef; [|apply Ok_inj in He; subst s'; exact Hm]. pose proof (find_flow_bound _ _ _ _ Ef) as (Hl & _). eapply (ri_exception s fi fj names s'); eauto; [lia|].
    cbn in Hrel. rewrite Ef in Hrel. congruence.
  - cbn [sstep] in He. destruct (Nat.ltb_spec fi0 (length (s_flows s))) as [Hl|]; [|discriminate]. unfold do_open_failed in He. destruct (w_bound (wget s fi0)) eqn:Eb; [discriminate|]. unfold on_session_close in He.
    pose proof (exception_prims (fun _ _ => False) (Bexc s fi0 []) s fi0 [] HF Ho Hl (fun o h => h)) as H. destruct (on_exception s fi0 []) as [s1| |] eqn:E1; cbn [rbind] in He; try discriminate. apply Ok_inj in He.
    pose proof (ri_exception s fi fi0 [] s1 held mine HF T Ho Hl Hrel E1 Hm) as M1. destruct H as (P1 & _ & H). destruct (H Eb) as (b1 & b2).
    pose proof (prims_full _ _ _ _ P1 HF) as HF1. pose proof (prims_ti _ _ _ _ P1 HF T) as T1.
    assert (P2 : prim (fun _ _ => False) (fun _ => False) s1 s') by (rewrite <- He; apply pr_clear; assumption).
    destruct (quiet_heap _ _ _ _ (prims_one _ _ _ _ P2) (fun n h => h)) as (a1 & a2). apply (ri_prims _ _ s1 s' fi held mine (prims_one _ _ _ _ P2) HF1 T1); try contradiction; auto. intros id Hid. lia.
  - (* receipts *) apply Quiet.
    + intros n (<- & h). discriminate.
    + intros rc t Hn (<- & h). apply Hn. cbn in Hfair. apply Hfair. left. reflexivity.
    + intros r Hr o' (<- & h) E. rewrite (Hrel r Hr E). exact Logic.I.
Qed.
