(** Sending flow: the fragments made are those of the messages written, and at most one empty one when the flow is closed. *)
From Coq Require Import Sorted.
From Verif Require Import Base BaseFacts VLU VLUSpec VLUProofs Packet PacketSpec PacketProofs UserData UserDataSpec UserDataProofs Ack AckSpec AckProofs RecvFlowSpec WriteReceipt WriteReceiptSpec WriteReceiptProofs SendFlow SendFlowSpec SendFlowProofs SendFlowInv SendFlowSteps SendFlowRun SendFlowTrack.
Ltac Zify.zify_post_hook ::= Z.div_mod_to_equations.

Lemma wset_msgs : forall s fi w fj, w_msgs w = w_msgs (wget s fi) -> w_tab w = w_tab (wget s fi) -> w_msgs (wget (wset s fi w) fj) = w_msgs (wget s fj) /\ w_tab (wget (wset s fi w) fj) = w_tab (wget s fj).
Proof. intros s fi w fj E1 E2. rewrite wget_wset. destruct (Nat.eqb_spec fi fj) as [->|]; [|auto]. destruct (Nat.ltb _ _); auto. Qed.
Lemma prim_msgs : forall A (B : rop -> Prop) s s' fj, prim A B s s' -> (forall n, ~ B (RUp n)) -> w_msgs (wget s' fj) = w_msgs (wget s fj) /\ w_tab (wget s' fj) = w_tab (wget s fj).
Proof.
  intros A B s s' fj P HB. destruct P; auto.
  - exfalso. eapply HB; eauto.
  - exfalso. eapply HB; eauto.
  - destruct (mark_sent_flow s fi nm id o fsn fr abn size fj) as (n & l & ->). auto.
  - unfold unqueue. cbn zeta. change (wget (set_rcpts ?x ?y) fj) with (wget x fj). apply wset_msgs; reflexivity.
  - unfold unqueue. cbn zeta. change (wget (set_rcpts ?x ?y) fj) with (wget x fj). apply wset_msgs; reflexivity.
  - unfold unqueue. cbn zeta. change (wget (set_rcpts ?x ?y) fj) with (wget x fj). destruct (wset_msgs (forget s fi (gget s id)) fi (with_queue (wget (forget s fi (gget s id)) fi) (drop nm (w_queue (wget (forget s fi (gget s id)) fi)))
         (wrap64 (w_qsum (wget (forget s fi (gget s id)) fi) - size_queue (gget (forget s fi (gget s id)) id)))) fj eq_refl eq_refl) as (-> & ->).
    unfold forget. cbn zeta. match goal with |- context [wset ?x fi ?w] => destruct (wset_msgs x fi w fj eq_refl eq_refl) as (-> & ->) end. auto.
  - unfold lose_one. cbn zeta. change (wget (set_out ?x ?y ?z) fj) with (wget x fj). destruct (lose_flow s id nak fj) as (n & l & ->). auto.
  - apply wset_msgs; [exact (fu_msgs _ _ _ H)|exact (fu_tab _ _ _ H)].
  - apply wset_msgs; reflexivity.
  - rewrite wget_open. destruct (Nat.eqb_spec fj (length (s_flows s))) as [->|]; [|auto]. rewrite (wget_out s) by lia. auto.
Qed.
Lemma prims_msgs : forall A (B : rop -> Prop) s s' fj, prims A B s s' -> (forall n, ~ B (RUp n)) -> w_msgs (wget s' fj) = w_msgs (wget s fj) /\ w_tab (wget s' fj) = w_tab (wget s fj).
Proof. induction 1; intros; [auto|]. destruct (IHprims H1) as (-> & ->). eapply prim_msgs; eauto. Qed.

(** ** Closing *)
Lemma close_eff : forall s fi names s', Full s -> TI s -> s_open s = true -> (fi < length (s_flows s))%nat -> do_close s fi names = Ok s' ->
  (forall fj, w_msgs (wget s' fj) = w_msgs (wget s fj)) /\ (forall fj, fj <> fi -> w_tab (wget s' fj) = w_tab (wget s fj)) /\
  (w_tab (wget s' fi) = w_tab (wget s fi) \/
   (w_state (wget s fi) = FS_OPEN /\ w_tab (wget s' fi) = w_tab (wget s fi) ++ [(0, [])] /\ exists id, cls s' fi id (length (rs_all (s_rcpts s))) (s_now s - 1)))
  /\ (forall id, (length (s_heap s) <= id < length (s_heap s'))%nat -> cls s' fi id (length (rs_all (s_rcpts s))) (s_now s - 1)).
Proof.
  intros s fi names s' HF T Ho Hl He.
  assert (Same : forall x w, (forall fj, w_msgs (wget x fj) = w_msgs (wget s fj) /\ w_tab (wget x fj) = w_tab (wget s fj)) -> w_msgs w = w_msgs (wget x fi) -> w_tab w = w_tab (wget x fi) ->
     forall fj, w_msgs (wget (wset x fi w) fj) = w_msgs (wget s fj) /\ w_tab (wget (wset x fi w) fj) = w_tab (wget s fj)).
  { intros x w H e1 e2 fj. destruct (wset_msgs x fi w fj e1 e2) as (-> & ->). apply H. }
  assert (Done : length (s_heap s') = length (s_heap s) -> (forall fj, w_msgs (wget s' fj) = w_msgs (wget s fj) /\ w_tab (wget s' fj) = w_tab (wget s fj)) ->
    (forall fj, w_msgs (wget s' fj) = w_msgs (wget s fj)) /\ (forall fj, fj <> fi -> w_tab (wget s' fj) = w_tab (wget s fj)) /\
  (w_tab (wget s' fi) = w_tab (wget s fi) \/
   (w_state (wget s fi) = FS_OPEN /\ w_tab (wget s' fi) = w_tab (wget s fi) ++ [(0, [])] /\ exists id, cls s' fi id (length (rs_all (s_rcpts s))) (s_now s - 1)))
  /\ (forall id, (length (s_heap s) <= id < length (s_heap s'))%nat -> cls s' fi id (length (rs_all (s_rcpts s))) (s_now s - 1))).
  { intros Hh H. split; [intros fj; apply H|]. split; [intros fj _; apply H|]. split; [left; apply H|]. intros id Hid. lia. }
  unfold do_close in He. cbv zeta in He. set (s1 := wset s fi (with_dead (wget s fi))) in *.
  assert (E1 : wget s1 fi = with_dead (wget s fi)) by (apply wget_wset_same; exact Hl).
  assert (S1 : forall fj, w_msgs (wget s1 fj) = w_msgs (wget s fj) /\ w_tab (wget s1 fj) = w_tab (wget s fj)) by (intros fj; apply wset_msgs; reflexivity).
  assert (End : forall s2, s_open s2 = true -> Ok (if w_bound (wget s2 fi) && negb (s_open s2) then wset s2 fi (goto_closed (wget s2 fi)) else s2) = Ok s' -> s' = s2).
  { intros s2 h1 h2. rewrite h1, andb_false_r in h2. apply Ok_inj in h2. auto. }
  destruct (w_state (wget s1 fi)) eqn:Est; cbn [rbind] in He.
  2-4: apply End in He; [subst s'; apply Done; [reflexivity|exact S1]|exact Ho].
  destruct (w_bound (wget s1 fi) && s_open s1 && (w_next (wget s1 fi) >? 1)) eqn:Eb.
  2: { cbn [rbind] in He. apply End in He; [|exact Ho]. subst s'. apply Done; [reflexivity|]. apply Same; auto; unfold goto_closed; rewrite Est; reflexivity. }
  destruct (match last_id (w_queue (wget s1 fi)) with None => true | Some id => g_ever (gget s1 id) || negb (g_seq (gget s1 id) =? wrap64 (w_next (wget s1 fi) - 1)) end) eqn:En.
  2: { cbn [rbind] in He. destruct (last_id (w_queue (wget s1 fi))) as [id|]; [|discriminate]. cbn [rbind] in He. apply End in He; [|exact Ho]. subst s'. apply Done; [reflexivity|]. apply Same; auto. }
  unfold basic_write in He. cbv zeta in He. destruct (fi_opts _ _ (fu_fi _ HF fi)) as (Hop & _).
  destruct (fragment_spec (zlen (w_opts (wget s1 fi))) []) as (ps & Hcut & Efr). { rewrite E1. cbn [w_opts with_dead]. pose proof (zlen_nonneg _ (w_opts (wget s fi))). lia. }
  destruct Hcut as (_ & _ & _ & _ & Hc). rewrite (Hc eq_refl) in Efr. cbn [marks] in Efr. rewrite Efr in He. cbn [rbind add_frags] in He. destruct names as [|nm names]; [discriminate|].
  set (s1' := set_rcpts s1 (r_new (s_rcpts s1) (s_now s1) (Some (-1)) (Some (-1)))) in *.
  destruct (add_frag s1' fi (length (rs_all (s_rcpts s1))) nm (0, [])) as [s3| |] eqn:E3; cbn [rbind] in He; try discriminate.
  assert (Hl1 : (fi < length (s_flows s1'))%nat) by (change (s_flows s1') with (s_flows s1); unfold s1; rewrite flows_wset; exact Hl).
  assert (Ew : wget s1' fi = with_dead (wget s fi)) by exact E1.
  pose proof (fi_next _ _ (fu_fi _ HF fi)) as (Hn & _).
  destruct (add_one s1' fi (length (rs_all (s_rcpts s1))) nm (0, []) s3 Hl1) as (M & Hx); [rewrite Ew; cbn [w_next with_dead]; lia|exact E3|].
  pose proof (mo_queue _ _ _ _ _ _ M) as Mq. rewrite Mq, last_id_app in He. apply End in He.
  2: { unfold add_frag in E3. cbv zeta in E3. match type of E3 with (if ?b then _ else _) = _ => destruct b; [|discriminate] end. apply Ok_inj in E3. rewrite <- E3. exact Ho. }
  assert (Hl3 : (fi < length (s_flows s3))%nat) by (rewrite (mo_flows _ _ _ _ _ _ M); exact Hl1).
  set (w3 := with_state (with_final (wget s3 fi) (g_seq (gget s3 (length (s_heap s1'))))) FS_CLOSING) in *.
  assert (Ef : wget s' fi = w3) by (rewrite He; apply wget_wset_same; exact Hl3).
  assert (Eo : forall fj, fj <> fi -> wget s' fj = wget s fj).
  { intros fj N. rewrite He, wget_wset_other by congruence. rewrite (mo_other _ _ _ _ _ _ M fj N). change (wget s1' fj) with (wget s1 fj). apply wget_wset_other. congruence. }
  assert (Et : w_tab (wget s' fi) = w_tab (wget s fi) ++ [(0, [])]) by (rewrite Ef; unfold w3; cbn [w_tab with_state with_final]; rewrite (mo_tab _ _ _ _ _ _ M), Ew; reflexivity).
  split. { intros fj. destruct (Nat.eq_dec fj fi) as [->|N]; [|rewrite Eo by exact N; reflexivity]. rewrite Ef. unfold w3. cbn [w_msgs with_state with_final]. destruct (mo_flow _ _ _ _ _ _ M) as (_ & _ & _ & _ & ->). rewrite Ew. reflexivity. }
  split. { intros fj N. rewrite Eo by exact N. reflexivity. }
  match goal with |- (_ \/ _) /\ ?Q => cut (cls s' fi (length (s_heap s)) (length (rs_all (s_rcpts s))) (s_now s - 1) /\ length (s_heap s') = S (length (s_heap s))) end.
  { intros (Hcl & Hlen). split; [right; split; [rewrite E1 in Est; exact Est|]; split; [exact Et|]; eauto|]. intros id Hid. replace id with (length (s_heap s)) by lia. exact Hcl. }
  change (length (s_heap s1')) with (length (s_heap s)) in *. change (length (rs_all (s_rcpts s1))) with (length (rs_all (s_rcpts s))) in *.
  pose proof (mo_new _ _ _ _ _ _ M) as Mn. pose proof (mo_len _ _ _ _ _ _ M) as Ml. change (length (s_heap s1')) with (length (s_heap s)) in Mn, Ml.
  assert (Gn : gget s' (length (s_heap s)) = mkFrag fi (w_next (wget s1' fi)) 0 false 0 false false 0 0 (-1) [] (length (rs_all (s_rcpts s)))) by (rewrite He; exact Mn).
  assert (Rc : s_rcpts s' = rstep (r_new (s_rcpts s) (s_now s) (Some (-1)) (Some (-1))) (RUp (length (rs_all (s_rcpts s))))) by (rewrite He; exact (mo_rcpts _ _ _ _ _ _ M)).
  assert (Rg : rget (s_rcpts s') (length (rs_all (s_rcpts s))) = mkRcpt (Some (s_now s + -1)) (Some (s_now s + -1)) true None (s_now s) false false 1 false).
  { rewrite Rc. cbn [rstep]. unfold r_up. cbv zeta. rewrite rget_rset, Nat.eqb_refl. cbn [r_new rs_all]. rewrite app_length. cbn [length].
    destruct (Nat.ltb_spec (length (rs_all (s_rcpts s))) (length (rs_all (s_rcpts s)) + 1)); [|lia]. unfold rget, r_new. cbn [rs_all]. rewrite nth_app_new. reflexivity. }
  assert (Hh : length (s_heap s') = S (length (s_heap s))) by (rewrite He; exact Ml).
  assert (Hold : forall j, (j < length (s_heap s))%nat -> gget s' j = gget s j) by (intros j Hj; rewrite He; exact (mo_old _ _ _ _ _ _ M j Hj)).
  assert (Hwire : s_wire s' = s_wire s) by (rewrite He; exact (proj1 (mo_rest _ _ _ _ _ _ M))).
  assert (Hnow : s_now s' = s_now s) by (rewrite He; exact (proj2 (mo_rest _ _ _ _ _ _ M))).
  split; [|exact Hh]. constructor.
  - rewrite Hh. lia.
  - rewrite Gn. reflexivity.
  - rewrite Gn, Et, zlen_app, Ew. cbn [g_seq w_next with_dead]. rewrite (ti_next _ T). change (zlen [(0, @nil Z)]) with 1. lia.
  - rewrite Ef. discriminate.
  - rewrite Gn. reflexivity.
  - intros j Hj Ej. rewrite Hh in Hj. destruct (Nat.eq_dec j (length (s_heap s))) as [|N]; [assumption|]. exfalso. rewrite Hold in Ej by lia. destruct (ti_frag _ T j ltac:(lia)) as (_ & _ & _ & h). lia.
  - rewrite Rc, rstep_length. cbn [r_new rs_all]. rewrite app_length. cbn [length]. lia.
  - rewrite Rg, Hnow. cbn [c_finish]. split; [f_equal; lia|lia].
  - intros n _. rewrite Rg. reflexivity.
  - intros x Hx' Ex. exfalso. rewrite Hwire in Hx'. pose proof (wo_frag _ _ (ti_wire _ T x Hx')). lia.
Qed.

Lemma prims_core : forall A B s s', prims A B s s' -> Full s -> (length (s_heap s) <= length (s_heap s'))%nat /\ forall id, (id < length (s_heap s))%nat -> core (gget s' id) = core (gget s id).
Proof.
  induction 1; intros HF; [auto|]. destruct (IHprims (prim_full _ _ _ _ H HF)) as (h1 & h2). destruct (prim_frame _ _ _ _ H) as [[(fj & rc & nm & fr & i1 & i2 & i3 & _ & i4)|(opts & _ & ->)]|F].
  - pose proof (fi_next _ _ (fu_fi _ HF fj)) as (Hn & _). destruct (add_one s1 fj rc nm fr s2 i1 ltac:(lia) i4) as (M & _). rewrite (mo_len _ _ _ _ _ _ M) in *. split; [lia|]. intros id Hid. rewrite h2 by lia. rewrite (mo_old _ _ _ _ _ _ M id Hid). reflexivity.
  - auto.
  - rewrite (fm_heap _ _ F) in *. split; [exact h1|]. intros id Hid. rewrite h2 by exact Hid. apply (fm_core _ _ F).
Qed.

(** ** Writing *)
Lemma add_frags_heap : forall frs names s fi rc s', (fi < length (s_flows s))%nat -> 0 <= w_next (wget s fi) -> add_frags s fi rc names frs = Ok s' ->
  forall id, (length (s_heap s) <= id < length (s_heap s'))%nat -> g_owner (gget s' id) = fi /\ g_rcpt (gget s' id) = rc.
Proof.
  induction frs as [|fr frs IH]; intros names s fi rc s' Hl Hn He id Hid; cbn [add_frags] in He.
  - assert (s = s') by (destruct names; apply Ok_inj in He; exact He). subst. lia.
  - destruct names as [|nm names]; [discriminate|]. destruct (add_frag s fi rc nm fr) as [s1| |] eqn:E1; cbn [rbind] in He; try discriminate.
    destruct (add_one s fi rc nm fr s1 Hl Hn E1) as (M & _). assert (Hl1 : (fi < length (s_flows s1))%nat) by (rewrite (mo_flows _ _ _ _ _ _ M); exact Hl).
    assert (Hn1 : 0 <= w_next (wget s1 fi)) by (rewrite (mo_next _ _ _ _ _ _ M); lia).
    destruct (Nat.eq_dec id (length (s_heap s))) as [->|N]; [|apply (IH names s1 fi rc s' Hl1 Hn1 He); rewrite (mo_len _ _ _ _ _ _ M); lia].
    clear IH. assert (G : g_owner (gget s1 (length (s_heap s))) = fi /\ g_rcpt (gget s1 (length (s_heap s))) = rc) by (rewrite (mo_new _ _ _ _ _ _ M); auto).
    assert (Hin : (length (s_heap s) < length (s_heap s1))%nat) by (rewrite (mo_len _ _ _ _ _ _ M); lia). clear M E1 Hid Hl Hn. remember (length (s_heap s)) as k eqn:Ek. clear Ek s.
    revert names s1 Hl1 Hn1 He G Hin. induction frs as [|fr' frs IH]; intros names s1 Hl1 Hn1 He G Hin; cbn [add_frags] in He.
    + assert (s1 = s') by (destruct names; apply Ok_inj in He; exact He). subst. exact G.
    + destruct names as [|nm' names]; [discriminate|]. destruct (add_frag s1 fi rc nm' fr') as [s2| |] eqn:E2; cbn [rbind] in He; try discriminate. destruct (add_one s1 fi rc nm' fr' s2 Hl1 Hn1 E2) as (M & _). apply (IH names s2); auto.
      * rewrite (mo_flows _ _ _ _ _ _ M). exact Hl1.
      * rewrite (mo_next _ _ _ _ _ _ M). lia.
      * rewrite (mo_old _ _ _ _ _ _ M) by exact Hin. exact G.
      * rewrite (mo_len _ _ _ _ _ _ M). lia.
Qed.
(** A flow's fragments are as many as before as long as its table is. *)
Lemma prims_new : forall A B s s' fi, prims A B s s' -> Full s -> zlen (w_tab (wget s fi)) <= zlen (w_tab (wget s' fi))
  /\ (zlen (w_tab (wget s' fi)) = zlen (w_tab (wget s fi)) -> forall id, (length (s_heap s) <= id < length (s_heap s'))%nat -> g_owner (gget s' id) <> fi).
Proof.
  induction 1; intros HF; [split; [lia|intros _ id Hid; lia]|]. pose proof (prim_full _ _ _ _ H HF) as HF2. destruct (IHprims HF2) as (h1 & h2).
  destruct (prim_frame _ _ _ _ H) as [[(fj & rc & nm & fr & i1 & i2 & i3 & _ & i4)|(opts & Hu & ->)]|F].
  - pose proof (fi_next _ _ (fu_fi _ HF fj)) as (Hn & _). destruct (add_one s1 fj rc nm fr s2 i1 ltac:(lia) i4) as (M & _). pose proof (mo_len _ _ _ _ _ _ M) as Ml. destruct (Nat.eq_dec fi fj) as [->|N].
    + rewrite (mo_tab _ _ _ _ _ _ M), zlen_app in *. change (zlen [fr]) with 1 in *. split; [lia|]. intros E. lia.
    + rewrite (mo_other _ _ _ _ _ _ M fi N) in *. split; [exact h1|]. intros E id Hid. destruct (Nat.eq_dec id (length (s_heap s1))) as [->|N2]; [|apply h2; [exact E|lia]].
      destruct (prims_core _ _ _ _ H0 HF2) as (_ & Hc). assert (Ec := Hc (length (s_heap s1)) ltac:(lia)). apply core_eq in Ec. destruct Ec as (-> & _). rewrite (mo_new _ _ _ _ _ _ M). cbn. congruence.
  - assert (Et : w_tab (wget (set_flows s1 (s_flows s1 ++ [f_new opts])) fi) = w_tab (wget s1 fi)).
    { rewrite wget_open. destruct (Nat.eqb_spec fi (length (s_flows s1))) as [->|]; [|reflexivity]. unfold wget. rewrite nth_overflow by lia. reflexivity. }
    rewrite Et in *. split; [exact h1|exact h2].
  - destruct (fm_flow _ _ F fi) as (_ & Et & _). rewrite Et in *. rewrite (fm_heap _ _ F) in *. split; [exact h1|exact h2].
Qed.

(** ** What the application holds *)
Definition rop_ids (o : rop) : list nat :=
  match o with
  | RNew _ _ _ => [] | RUp i | RDown i | RStart i | RExamine _ i | RAbandon i | RSetStart i _ | RSetFinish i _ | RSetRtx i _ | RHook i => [i]
  | RSetParent i p => i :: match p with None => [] | Some j => [j] end
  end.
(** The application uses only receipts that write() gave it. *)
Definition fair (held : list nat) (o : sop) : Prop :=
  match o with SSessionClose => False | SReceipt r => incl (rop_ids r) held | _ => True end.
Definition held_after (s : sess) (o : sop) (held : list nat) : list nat :=
  match o with SWrite fj _ _ _ _ => if (w_live (wget s fj) : bool) then length (rs_all (s_rcpts s)) :: held else held | _ => held end.

(** ** The messages *)
Record MI (s : sess) (fi : nat) (held : list nat) : Prop := {
  mi_held : forall r, In r held -> (r < length (rs_all (s_rcpts s)))%nat;
  mi_tab : exists ms, map (@concat Z) ms = w_msgs (wget s fi) /\ Forall (fun m => m <> []) ms /\
    ((w_tab (wget s fi) = table ms /\ forall id, (id < length (s_heap s))%nat -> g_owner (gget s id) = fi -> In (g_rcpt (gget s id)) held)
      \/ exists id rc t, w_tab (wget s fi) = table ms ++ [(0, [])] /\ cls s fi id rc t /\ ~ In rc held) }.
Lemma mi_init : forall fi, MI ss_init fi [].
Proof. intros fi. constructor; [intros r []|]. exists []. assert (wget ss_init fi = w_none) as -> by (destruct fi; reflexivity). cbn. split; [reflexivity|]. split; [constructor|]. left. split; [reflexivity|]. intros id Hid. lia. Qed.
Lemma mi_prims : forall A (B : rop -> Prop) s s' fi held, prims A B s s' -> Full s -> TI s -> (forall rc, (rc < length (rs_all (s_rcpts s)))%nat -> ~ B (RUp rc)) -> (forall rc t, ~ In rc held -> ~ B (RSetFinish rc t)) ->
  w_msgs (wget s' fi) = w_msgs (wget s fi) -> w_tab (wget s' fi) = w_tab (wget s fi) -> MI s fi held -> MI s' fi held.
Proof.
  intros A B s s' fi held P HF T HU HB Em Et [h1 (ms & e1 & e2 & e3)]. constructor.
  - intros r Hr. pose proof (prims_rlen _ _ _ _ P HF). specialize (h1 r Hr). lia.
  - exists ms. rewrite Em, Et. split; [exact e1|]. split; [exact e2|]. destruct e3 as [(e3 & e6)|(id & rc & t & e3 & e4 & e5)]; [|right].
    { left. split; [exact e3|]. intros id Hid Ho. destruct (Nat.lt_ge_cases id (length (s_heap s))) as [Hlt|Hge].
      - destruct (prims_core _ _ _ _ P HF) as (_ & Hc). specialize (Hc id Hlt). apply core_eq in Hc. destruct Hc as (c1 & _ & _ & _ & c5). rewrite c5. apply e6; [exact Hlt|congruence].
      - destruct (prims_new _ _ _ _ fi P HF) as (_ & Hnew). exfalso. apply (Hnew ltac:(rewrite Et; reflexivity) id ltac:(lia) Ho). } exists id, rc, t. split; [exact e3|]. split; [|exact e5].
    eapply prims_cls; eauto. apply HU. exact (cl_rc _ _ _ _ _ e4).
Qed.
Lemma mi_more : forall s fi held n, (n < length (rs_all (s_rcpts s)))%nat -> MI s fi held -> (forall id rc t, cls s fi id rc t -> ~ In rc held -> rc <> n) -> MI s fi (n :: held).
Proof.
  intros s fi held n Hn [h1 (ms & e1 & e2 & e3)] H. constructor; [intros r [<-|Hr]; auto|]. exists ms. split; [exact e1|]. split; [exact e2|]. destruct e3 as [(e3 & e6)|(id & rc & t & e3 & e4 & e5)]; [left; split; [exact e3|]; intros id Hid Ho; right; exact (e6 id Hid Ho)|right].
  exists id, rc, t. split; [exact e3|]. split; [exact e4|]. intros [<-|Hr]; [exact (H _ _ _ e4 e5 eq_refl)|exact (e5 Hr)].
Qed.
Lemma mi_close : forall s fi fj names s' held, Full s -> TI s -> s_open s = true -> (fj < length (s_flows s))%nat -> do_close s fj names = Ok s' -> MI s fi held -> MI s' fi held.
Proof.
  intros s fi fj names s' held HF T Ho Hl He Hm. destruct (close_eff s fj names s' HF T Ho Hl He) as (h1 & h2 & h3 & _).
  pose proof (close_prims (fun _ _ => False) (Bclose (length (rs_all (s_rcpts s)))) s fj names HF Ho Hl (fun o h => h)) as P. rewrite He in P. destruct P as (P & _).
  assert (Easy : w_tab (wget s' fi) = w_tab (wget s fi) -> MI s' fi held).
  { intros Et. apply (mi_prims _ _ s s' fi held P HF T); auto.
    - intros rc Hr [(now & h)|h]; [discriminate|]. injection h as ->. lia.
    - intros rc t _ [(now & h)|h]; discriminate. }
  destruct (Nat.eq_dec fi fj) as [->|N]; [|apply Easy; apply h2; exact N]. destruct h3 as [h3|(h3 & h4 & id & h5)]; [apply Easy; exact h3|].
  destruct Hm as [m1 (ms & e1 & e2 & e3)]. constructor.
  - intros r Hr. pose proof (prims_rlen _ _ _ _ P HF). specialize (m1 r Hr). lia.
  - exists ms. rewrite h1, h4. split; [exact e1|]. split; [exact e2|]. destruct e3 as [(e3 & _)|(? & ? & ? & _ & e4 & _)]; [|destruct (cl_state _ _ _ _ _ e4 h3)].
    right. exists id, (length (rs_all (s_rcpts s))), (s_now s - 1). rewrite e3. split; [reflexivity|]. split; [exact h5|]. intros Hi. specialize (m1 _ Hi). lia.
Qed.
Lemma mi_exception : forall s fi fj names s' held, Full s -> TI s -> s_open s = true -> (fj < length (s_flows s))%nat -> on_exception s fj names = Ok s' -> MI s fi held -> MI s' fi held.
Proof.
  intros s fi fj names s' held HF T Ho Hl He Hm. unfold on_exception in He. set (s0 := wset s fj (with_exc (wget s fj))) in *.
  assert (P0 : prim (fun _ _ => False) (fun _ => False) s s0) by (apply pr_flow; constructor; cbn; auto).
  pose proof (prim_full _ _ _ _ P0 HF) as HF0. pose proof (prim_ti _ _ _ _ HF T P0) as T0.
  assert (M0 : MI s0 fi held).
  { destruct (prim_msgs _ _ _ _ fi P0 (fun n h => h)) as (a1 & a2). apply (mi_prims _ _ s s0 fi held (prims_one _ _ _ _ P0) HF T); auto. }
  destruct (do_close s0 fj names) as [s1| |] eqn:E1; cbn [rbind] in He; try discriminate. apply Ok_inj in He.
  assert (Hl0 : (fj < length (s_flows s0))%nat) by (unfold s0; rewrite flows_wset; exact Hl).
  pose proof (mi_close s0 fi fj names s1 held HF0 T0 Ho Hl0 E1 M0) as M1.
  pose proof (close_prims (fun _ _ => False) (Bclose (length (rs_all (s_rcpts s0)))) s0 fj names HF0 Ho Hl0 (fun o h => h)) as P. rewrite E1 in P. destruct P as (P & _).
  pose proof (prims_full _ _ _ _ P HF0) as HF1. pose proof (prims_ti _ _ _ _ P HF0 T0) as T1.
  pose proof (abandon_prims (fun _ _ => False) (fun o => exists i, o = RAbandon i) (fun e => g_rcpt (gget s1 (snd e))) (w_queue (wget s1 fj)) s1 (fun e _ => ex_intro _ _ eq_refl)) as P2. cbv beta in P2. rewrite He in P2.
  assert (Nu : forall n, ~ (exists i, RUp n = RAbandon i)) by (intros n (i & h); discriminate).
  destruct (prims_msgs _ _ _ _ fi P2 Nu) as (a1 & a2). apply (mi_prims _ _ s1 s' fi held P2 HF1 T1); auto. intros rc t _ (i & h). discriminate.
Qed.

Lemma mi_step : forall s o s' fi held, Full s -> TI s -> closed_unbound s -> s_open s = true -> fair held o -> sstep s o = Ok s' -> MI s fi held -> MI s' fi (held_after s o held).
Proof.
  intros s o s' fi held HF T C Ho Hfair He Hm. pose proof (step_open s o HF C Ho) as St. rewrite He in St. destruct St as [(_ & P)|(-> & _)]; [|destruct Hfair].
  assert (Quiet : (forall n, ~ B_op s o (RUp n)) -> (forall rc t, ~ In rc held -> ~ B_op s o (RSetFinish rc t)) -> MI s' fi held).
  { intros Nu Ns. destruct (prims_msgs _ _ _ _ fi P Nu) as (a1 & a2). apply (mi_prims _ _ s s' fi held P HF T); auto. }
  destruct o; cbn [held_after]; try (apply Quiet; cbn; intros; tauto).
  - (* write *) clear Quiet. cbn [sstep] in He. destruct (bytes_okb msg) eqn:Eb; [|discriminate]. apply Forall_is_bytes in Eb. unfold do_write in He. destruct (w_live (wget s fi0)) eqn:Ev; [|apply Ok_inj in He; subst s'; exact Hm].
    set (s1 := wset s fi0 (with_msgs (wget s fi0) (w_msgs (wget s fi0) ++ [msg]))) in *. pose proof (flow_there s fi0 (or_introl Ev)) as Hl.
    assert (P0 : prim (fun _ _ => False) (B_op s (SWrite fi0 msg sw fw names)) s s1) by (apply pr_msg; [exact Ev|right; reflexivity]).
    pose proof (prim_full _ _ _ _ P0 HF) as HF1. assert (E1 : wget s1 fi0 = with_msgs (wget s fi0) (w_msgs (wget s fi0) ++ [msg])) by (apply wget_wset_same; exact Hl).
    pose proof (fi_live _ _ (fu_fi _ HF fi0) Ev) as Hst.
    pose proof (basic_write_prims (fun _ _ => False) (B_op s (SWrite fi0 msg sw fw names)) s1 fi0 msg sw fw names HF1) as H.
    unfold s1 in H at 1. rewrite flows_wset, E1 in H. specialize (H Hl Hst Eb (fun now => or_introl (ex_intro _ now eq_refl)) (or_intror eq_refl)). rewrite He in H.
    destruct H as (_ & ps & new & sm & (Hne & Hc & _) & Esm & Had).
    assert (Hlen : (length (rs_all (s_rcpts s)) < length (rs_all (s_rcpts s')))%nat).
    { rewrite (ad_rlen _ _ _ _ _ _ Had), Esm. cbn. rewrite app_length. cbn. lia. }
    assert (HU : forall rc, (rc < length (rs_all (s_rcpts s)))%nat -> ~ B_op s (SWrite fi0 msg sw fw names) (RUp rc)) by (intros rc Hr [(now & h)|h]; [discriminate|injection h as ->; lia]).
    assert (HB : forall rc t, ~ In rc held -> ~ B_op s (SWrite fi0 msg sw fw names) (RSetFinish rc t)) by (intros rc t _ [(now & h)|h]; discriminate).
    destruct (Nat.eq_dec fi fi0) as [->|N].
    + destruct Hm as [m1 (ms & e1 & e2 & e3)]. constructor; [intros r [<-|Hr]; [exact Hlen|specialize (m1 r Hr); lia]|].
      exists (ms ++ [ps]). rewrite (ad_tab _ _ _ _ _ _ Had). destruct (ad_flow _ _ _ _ _ _ Had) as (q & n & nx & t & Ef). rewrite Ef, Esm. change (wget (set_rcpts s1 ?y) fi0) with (wget s1 fi0). rewrite E1. cbn [w_msgs w_tab with_tab with_next with_queue with_msgs].
      rewrite map_app, <- e1. cbn [map]. rewrite Hc. split; [reflexivity|]. split; [apply Forall_app; split; [exact e2|constructor; [exact Hne|constructor]]|].
      destruct e3 as [(e3 & e6)|(? & ? & ? & _ & e4 & _)]; [|destruct (cl_state _ _ _ _ _ e4 Hst)]. left. split.
      2: { intros id Hid Hown. destruct (Nat.lt_ge_cases id (length (s_heap s))) as [Hlt|Hge].
        - destruct (prims_core _ _ _ _ P HF) as (_ & Hcore). specialize (Hcore id Hlt). apply core_eq in Hcore. destruct Hcore as (c1 & _ & _ & _ & c5). rewrite c5. right. apply e6; [exact Hlt|congruence].
        - left. unfold basic_write in He. cbv zeta in He. match type of He with rbind ?x _ = _ => destruct x as [frs| |]; cbn [rbind] in He; try discriminate end. symmetry. eapply add_frags_heap; [| |exact He|change (s_heap (set_rcpts ?a ?b)) with (s_heap a); change (s_heap s1) with (s_heap s); lia].
          + change (s_flows (set_rcpts ?a ?b)) with (s_flows a). unfold s1. rewrite flows_wset. exact Hl.
          + change (wget (set_rcpts ?a ?b) fi0) with (wget a fi0). rewrite E1. cbn [w_next with_msgs]. destruct (fi_next _ _ (fu_fi _ HF fi0)). lia. }
      unfold table. rewrite flat_map_app. fold (table ms). rewrite <- e3. cbn [flat_map]. rewrite app_nil_r. reflexivity.
    + assert (Ew : wget s' fi = wget s fi).
      { rewrite (ad_other _ _ _ _ _ _ Had fi N), Esm. change (wget (set_rcpts s1 ?y) fi) with (wget s1 fi). apply wget_wset_other. congruence. }
      assert (M' : MI s' fi held) by (apply (mi_prims _ _ s s' fi held P HF T); auto; rewrite Ew; reflexivity).
      (* the new receipt is not that of a closing fragment *)
      destruct Hm as [m1 (ms & e1 & e2 & e3)]. constructor; [intros r [<-|Hr]; [exact Hlen|specialize (m1 r Hr); lia]|]. exists ms. rewrite Ew. split; [exact e1|]. split; [exact e2|].
      destruct e3 as [(e3 & e6)|(id & rc & t & e3 & e4 & e5)]; [|right].
      { left. split; [exact e3|]. intros id Hid Hown. right. destruct (Nat.lt_ge_cases id (length (s_heap s))) as [Hlt|Hge].
        - destruct (prims_core _ _ _ _ P HF) as (_ & Hcore). specialize (Hcore id Hlt). apply core_eq in Hcore. destruct Hcore as (c1 & _ & _ & _ & c5). rewrite c5. apply e6; [exact Hlt|congruence].
        - destruct (prims_new _ _ _ _ fi P HF) as (_ & Hnew). exfalso. apply (Hnew ltac:(rewrite Ew; reflexivity) id ltac:(lia) Hown). }
      exists id, rc, t. split; [exact e3|]. pose proof (cl_rc _ _ _ _ _ e4) as Hrc. split; [eapply prims_cls; eauto|]. intros [h|h]; [lia|exact (e5 h)].
  - cbn [sstep] in He. destruct (Nat.ltb_spec fi0 (length (s_flows s))) as [Hl|]; [|discriminate]. eapply mi_close; eauto.
  - cbn [sstep] in He. unfold do_exception in He. destruct (find_flow id (s_flows s) 0) as [fj|] eqn:Ef; [|apply Ok_inj in He; subst s'; exact Hm]. pose proof (find_flow_bound _ _ _ _ Ef) as (Hl & _). eapply mi_exception; eauto. lia.
  - cbn [sstep] in He. destruct (Nat.ltb_spec fi0 (length (s_flows s))) as [Hl|]; [|discriminate]. unfold do_open_failed in He. destruct (w_bound (wget s fi0)) eqn:Eb; [discriminate|]. unfold on_session_close in He.
    pose proof (exception_prims (fun _ _ => False) (Bexc s fi0 []) s fi0 [] HF Ho Hl (fun o h => h)) as H. destruct (on_exception s fi0 []) as [s1| |] eqn:E1; cbn [rbind] in He; try discriminate. apply Ok_inj in He.
    pose proof (mi_exception s fi fi0 [] s1 held HF T Ho Hl E1 Hm) as M1. destruct H as (P1 & _ & H). destruct (H Eb) as (b1 & b2).
    pose proof (prims_full _ _ _ _ P1 HF) as HF1. pose proof (prims_ti _ _ _ _ P1 HF T) as T1.
    assert (P2 : prim (fun _ _ => False) (fun _ => False) s1 s') by (rewrite <- He; apply pr_clear; assumption).
    destruct (prim_msgs _ _ _ _ fi P2 (fun n h => h)) as (a1 & a2). apply (mi_prims _ _ s1 s' fi held (prims_one _ _ _ _ P2) HF1 T1); auto.
  - (* receipts *) apply Quiet.
    + intros n (<- & h). discriminate.
    + intros rc t Hn (<- & h). apply Hn. cbn in Hfair. apply Hfair. left. reflexivity.
Qed.
