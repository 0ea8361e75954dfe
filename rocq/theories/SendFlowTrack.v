(** Sending flow: what the fragments, the queue and the chunks sent have to do with each other, over any steps. *)
From Coq Require Import Sorted.
From Verif Require Import Base BaseFacts VLU VLUSpec VLUProofs Packet PacketSpec PacketProofs UserData UserDataSpec UserDataProofs Ack AckSpec AckProofs RecvFlowSpec WriteReceipt WriteReceiptSpec WriteReceiptProofs SendFlow SendFlowSpec SendFlowProofs SendFlowInv SendFlowSteps SendFlowRun.
Ltac Zify.zify_post_hook ::= Z.div_mod_to_equations.

Lemma Ok_inj : forall (A : Type) (a b : A), Ok a = Ok b -> a = b.
Proof. congruence. Qed.

Definition core (g : sfrag) : nat * Z * Z * list Z * nat := (g_owner g, g_seq g, g_fra g, g_data g, g_rcpt g).
Lemma core_eq : forall g g', core g' = core g -> g_owner g' = g_owner g /\ g_seq g' = g_seq g /\ g_fra g' = g_fra g /\ g_data g' = g_data g /\ g_rcpt g' = g_rcpt g.
Proof. intros g g' H. unfold core in H. injection H as -> -> -> -> ->. auto. Qed.

(** What one operation leaves alone in a receipt. *)
Lemma rstep_keeps : forall rs o i, (i < length (rs_all rs))%nat -> let c := rget rs i in let c' := rget (rstep rs o) i in
  (c_finish c' = c_finish c \/ exists t, o = RSetFinish i t) /\ (c_start c' = c_start c \/ exists t, o = RSetStart i t)
  /\ (c_rtx c' = c_rtx c \/ exists b, o = RSetRtx i b) /\ (c_parent c' = c_parent c \/ c_parent c' = None \/ exists p, o = RSetParent i p)
  /\ (c_use c' = c_use c \/ o = RUp i \/ o = RDown i).
Proof.
  intros rs o i Hl c c'.
  assert (Hset : forall j x, rstep rs o = rset rs j x -> (j = i -> (c_finish x = c_finish c \/ exists t, o = RSetFinish i t) /\ (c_start x = c_start c \/ exists t, o = RSetStart i t)
     /\ (c_rtx x = c_rtx c \/ exists b, o = RSetRtx i b) /\ (c_parent x = c_parent c \/ c_parent x = None \/ exists p, o = RSetParent i p) /\ (c_use x = c_use c \/ o = RUp i \/ o = RDown i)) ->
     (c_finish c' = c_finish c \/ exists t, o = RSetFinish i t) /\ (c_start c' = c_start c \/ exists t, o = RSetStart i t)
     /\ (c_rtx c' = c_rtx c \/ exists b, o = RSetRtx i b) /\ (c_parent c' = c_parent c \/ c_parent c' = None \/ exists p, o = RSetParent i p) /\ (c_use c' = c_use c \/ o = RUp i \/ o = RDown i)).
  { intros j x E H. unfold c', c in *. rewrite E, rget_rset. destruct (Nat.eqb_spec j i) as [->|N]; [|auto 10]. destruct (Nat.ltb_spec i (length (rs_all rs))); [|lia]. apply H. reflexivity. }
  assert (Hfin : forall j x b, rstep rs o = r_finish rs j x b -> (j = i -> c_finish x = c_finish c /\ c_start x = c_start c /\ c_rtx x = c_rtx c /\ (c_use x = c_use c \/ o = RDown i)) ->
     (c_finish c' = c_finish c \/ exists t, o = RSetFinish i t) /\ (c_start c' = c_start c \/ exists t, o = RSetStart i t)
     /\ (c_rtx c' = c_rtx c \/ exists b, o = RSetRtx i b) /\ (c_parent c' = c_parent c \/ c_parent c' = None \/ exists p, o = RSetParent i p) /\ (c_use c' = c_use c \/ o = RUp i \/ o = RDown i)).
  { intros j x b E H. unfold c', c in *. rewrite E, rget_finish. destruct (Nat.eqb_spec j i) as [->|N]; [|auto 10]. destruct (Nat.ltb_spec i (length (rs_all rs))); [|lia].
    cbn [andb c_finish c_start c_rtx c_parent c_use]. destruct (H eq_refl) as (h1 & h2 & h3 & h4). intuition. }
  assert (Habn : forall j, rstep rs o = r_abandon rs j -> (c_finish c' = c_finish c \/ exists t, o = RSetFinish i t) /\ (c_start c' = c_start c \/ exists t, o = RSetStart i t)
     /\ (c_rtx c' = c_rtx c \/ exists b, o = RSetRtx i b) /\ (c_parent c' = c_parent c \/ c_parent c' = None \/ exists p, o = RSetParent i p) /\ (c_use c' = c_use c \/ o = RUp i \/ o = RDown i)).
  { intros j E. unfold r_abandon in E. cbv zeta in E. destruct (_ && _).
    - eapply Hfin; [exact E|]. intros ->. auto.
    - unfold c', c. rewrite E. auto 10. }
  assert (Hid : rstep rs o = rs -> (c_finish c' = c_finish c \/ exists t, o = RSetFinish i t) /\ (c_start c' = c_start c \/ exists t, o = RSetStart i t)
     /\ (c_rtx c' = c_rtx c \/ exists b, o = RSetRtx i b) /\ (c_parent c' = c_parent c \/ c_parent c' = None \/ exists p, o = RSetParent i p) /\ (c_use c' = c_use c \/ o = RUp i \/ o = RDown i)).
  { intros E. unfold c', c. rewrite E. auto 10. }
  destruct o as [og sw fw|j|j|j|now j|j|j t|j t|j b|j p|j]; cbn [rstep] in *.
  - unfold c', c, rget, r_new. cbn [rs_all]. rewrite app_nth1 by exact Hl. auto 10.
  - eapply Hset; [reflexivity|]. intros ->. cbn. auto 10.
  - unfold r_down in *. cbv zeta in *. cbn [c_use] in *. destruct (_ =? 0).
    + eapply Hfin; [reflexivity|]. intros ->. cbn. auto 10.
    + eapply Hset; [reflexivity|]. intros ->. cbn. auto 10.
  - eapply Hset; [reflexivity|]. intros ->. cbn. auto 10.
  - unfold r_needed in *. cbv zeta in *. destruct (c_aband (rget rs j)); [apply Hid; reflexivity|]. destruct (_ || _); [apply (Habn j); reflexivity|apply Hid; reflexivity].
  - apply (Habn j). reflexivity.
  - eapply Hset; [reflexivity|]. intros ->. cbn. repeat split; eauto.
  - eapply Hset; [reflexivity|]. intros ->. cbn. repeat split; eauto.
  - eapply Hset; [reflexivity|]. intros ->. cbn. repeat split; eauto.
  - eapply Hset; [reflexivity|]. intros ->. cbn. repeat split; eauto.
  - eapply Hset; [reflexivity|]. intros ->. cbn. auto 10.
Qed.
Lemma rstep_aband : forall rs o i, c_aband (rget rs i) = true -> c_aband (rget (rstep rs o) i) = true.
Proof. intros rs o i. apply step_facts. Qed.
Lemma rstep_len : forall rs o, (length (rs_all rs) <= length (rs_all (rstep rs o)))%nat.
Proof. intros. rewrite rstep_length. lia. Qed.

(** ** Steps that make no fragment and no flow *)
Record frame_ (s s' : sess) : Prop := {
  fm_heap : length (s_heap s') = length (s_heap s);
  fm_core : forall id, core (gget s' id) = core (gget s id);
  fm_flows : length (s_flows s') = length (s_flows s);
  fm_flow : forall fj, w_next (wget s' fj) = w_next (wget s fj) /\ w_tab (wget s' fj) = w_tab (wget s fj) /\ (w_opts (wget s' fj) = w_opts (wget s fj) \/ w_opts (wget s' fj) = [])
    /\ (exists p, w_queue (wget s' fj) = filter p (w_queue (wget s fj)))
    /\ (w_state (wget s' fj) = FS_OPEN -> w_state (wget s fj) = FS_OPEN)
    /\ (w_final (wget s' fj) = w_final (wget s fj) \/ (w_state (wget s' fj) <> FS_OPEN /\ w_final (wget s' fj) = wrap64 (w_next (wget s fj) - 1)));
  fm_rlen : (length (rs_all (s_rcpts s)) <= length (rs_all (s_rcpts s')))%nat;
  fm_aband : forall i, c_aband (rget (s_rcpts s) i) = true -> c_aband (rget (s_rcpts s') i) = true;
  fm_now : s_now s <= s_now s' }.
Definition makes (A : nat -> Z -> Prop) (B : rop -> Prop) (s s' : sess) : Prop :=
  (exists fi rc nm fr, (fi < length (s_flows s))%nat /\ w_state (wget s fi) = FS_OPEN /\ S rc = length (rs_all (s_rcpts s)) /\ B (RUp rc) /\ add_frag s fi rc nm fr = Ok s')
  \/ (exists opts, (exists u, sup_ok u /\ opts = sup_bytes u) /\ s' = set_flows s (s_flows s ++ [f_new opts])).
Lemma filter_all : forall A (l : list A), filter (fun _ => true) l = l.
Proof. induction l; cbn; congruence. Qed.
Definition fl_ok (w w' : sflow) : Prop :=
  w_next w' = w_next w /\ w_tab w' = w_tab w /\ (w_opts w' = w_opts w \/ w_opts w' = []) /\ (exists p, w_queue w' = filter p (w_queue w))
    /\ (w_state w' = FS_OPEN -> w_state w = FS_OPEN) /\ (w_final w' = w_final w \/ (w_state w' <> FS_OPEN /\ w_final w' = wrap64 (w_next w - 1))).
Lemma fl_refl : forall w, fl_ok w w.
Proof. intros w. unfold fl_ok. repeat split; auto. exists (fun _ => true). rewrite filter_all. reflexivity. Qed.
Lemma fl_wset : forall s s' fi w', (forall fj, wget s' fj = wget (wset s fi w') fj) -> fl_ok (wget s fi) w' -> forall fj, fl_ok (wget s fj) (wget s' fj).
Proof.
  intros s s' fi w' E H fj. rewrite E, wget_wset. destruct (Nat.eqb_spec fi fj) as [->|]; cbn [andb]; [|apply fl_refl]. destruct (Nat.ltb _ _); [exact H|apply fl_refl].
Qed.
Lemma fl_last : forall w n l, fl_ok w (with_last (with_outb w n) l).
Proof. intros w n l. unfold fl_ok. cbn. repeat split; auto. exists (fun _ => true). rewrite filter_all. reflexivity. Qed.
Lemma fl_queue : forall w nm n m, fl_ok w (with_queue (with_outb w m) (drop nm (w_queue w)) n).
Proof. intros w nm n m. unfold fl_ok. cbn. repeat split; auto. eexists. reflexivity. Qed.
Lemma prim_frame : forall A B s s', prim A B s s' -> makes A B s s' \/ frame_ s s'.
Proof.
  intros A B s s' P. pose proof (fun o => rstep_len (s_rcpts s) o) as Rl. pose proof (fun o => rstep_aband (s_rcpts s) o) as Ra.
  destruct P.
  - right. constructor; [reflexivity|reflexivity|reflexivity|intros fj; apply fl_refl|exact (Rl o)|exact (Ra o)|apply Z.le_refl].
  - left. left. exists fi, rc, nm, fr. auto.
  - right. constructor; [reflexivity|reflexivity|apply flows_wset| |reflexivity|auto|apply Z.le_refl]. apply (fl_wset s _ fi (with_msgs (wget s fi) (w_msgs (wget s fi) ++ [msg]))); [reflexivity|].
    unfold fl_ok. cbn. repeat split; auto. exists (fun _ => true). rewrite filter_all. reflexivity.
  - right. constructor; [exact (heap_gset s id _)| | | |exact (Rl (RStart (g_rcpt (gget s id))))|exact (Ra (RStart (g_rcpt (gget s id))))|apply Z.le_refl].
    + intros i. destruct (mark_sent_same s fi nm id o fsn fr abn size i) as (h1 & h2 & h3 & h4 & h5 & _). unfold core. rewrite h1, h2, h3, h4, h5. reflexivity.
    + unfold mark_sent. cbn zeta. change (s_flows (set_wire ?x ?y)) with (s_flows x). rewrite flows_wset. reflexivity.
    + intros fj. destruct (mark_sent_flow s fi nm id o fsn fr abn size fj) as (n & l & E). rewrite E. apply fl_last.
  - right. constructor; [reflexivity|reflexivity|exact (flows_wset s fi _)| |exact (Rl (RDown (g_rcpt (gget s id))))|exact (Ra (RDown (g_rcpt (gget s id))))|apply Z.le_refl].
    apply (fl_wset s _ fi (with_queue (wget s fi) (drop nm (w_queue (wget s fi))) (wrap64 (w_qsum (wget s fi) - size_queue (gget s id))))); [reflexivity|].
    unfold fl_ok. cbn. repeat split; auto. eexists. reflexivity.
  - right. constructor; [reflexivity|reflexivity|exact (flows_wset s fi _)| |exact (Rl (RDown (g_rcpt (gget s id))))|exact (Ra (RDown (g_rcpt (gget s id))))|apply Z.le_refl].
    apply (fl_wset s _ fi (with_queue (wget s fi) (drop nm (w_queue (wget s fi))) (wrap64 (w_qsum (wget s fi) - size_queue (gget s id))))); [reflexivity|].
    unfold fl_ok. cbn. repeat split; auto. eexists. reflexivity.
  - right. pose proof (queue_len _ _ _ _ H) as Hl. constructor; [reflexivity|reflexivity| | |exact (Rl (RDown (g_rcpt (gget s id))))|exact (Ra (RDown (g_rcpt (gget s id))))|apply Z.le_refl].
    + unfold unqueue. cbn zeta. change (s_flows (set_rcpts ?x ?y)) with (s_flows x). rewrite flows_wset. unfold forget. rewrite flows_wset. reflexivity.
    + intros fj. unfold unqueue. cbn zeta. change (wget (set_rcpts ?x ?y) fj) with (wget x fj).
      assert (Ew : forall fk, wget (forget s fi (gget s id)) fk = if (fi =? fk)%nat then with_outb (wget s fi) (wrap64 (w_out (wget s fi) - g_size (gget s id))) else wget s fk).
      { intros fk. unfold forget. cbn zeta. rewrite wget_wset. destruct (Nat.eqb_spec fi fk); [|reflexivity]. cbn [andb]. change (s_flows (set_out ?x ?y ?z)) with (s_flows x). destruct (Nat.ltb_spec fi (length (s_flows (set_maxtsn s (Z.max (s_maxtsn s) (g_tsn (gget s id))))))) as [|Hx]; [reflexivity|]. cbn in Hx. lia. }
      rewrite wget_wset. destruct (Nat.eqb_spec fi fj) as [<-|N].
      * cbn [andb]. destruct (Nat.ltb _ _); rewrite !Ew, Nat.eqb_refl; [cbn [w_queue with_outb]; apply fl_queue|]. unfold fl_ok. cbn. repeat split; auto. exists (fun _ => true). rewrite filter_all. reflexivity.
      * cbn [andb]. rewrite Ew. destruct (Nat.eqb_spec fi fj); [contradiction|]. apply fl_refl.
  - right. constructor; [exact (heap_gset s id _)| | | |reflexivity|auto|apply Z.le_refl].
    + intros i. change (gget (lose_one s nm id nak) i) with (gget (gset s id (mkFrag (g_owner (gget s id)) (g_seq (gget s id)) (g_fra (gget s id)) (g_sentab (gget s id)) nak false (g_ever (gget s id)) (g_size (gget s id)) (g_tsn (gget s id)) (-1) (g_data (gget s id)) (g_rcpt (gget s id)))) i).
      rewrite gget_gset. destruct (Nat.eqb_spec id i) as [->|]; [|reflexivity]. destruct (Nat.ltb _ _); reflexivity.
    + unfold lose_one, lose. cbn zeta. change (s_flows (set_out ?x ?y ?z)) with (s_flows x). rewrite flows_wset. reflexivity.
    + intros fj. unfold lose_one. cbn zeta. change (wget (set_out ?x ?y ?z) fj) with (wget x fj). destruct (lose_flow s id nak fj) as (n & l & E). rewrite E. apply fl_last.
  - right. constructor; [exact (heap_gset s id _)| |reflexivity|intros fj; apply fl_refl|reflexivity|auto|apply Z.le_refl].
    intros i. unfold set_nak. cbn zeta. rewrite gget_gset. destruct (Nat.eqb_spec id i) as [->|]; [|reflexivity]. destruct (Nat.ltb _ _); reflexivity.
  - right. constructor; [reflexivity|reflexivity|apply flows_wset| |reflexivity|auto|apply Z.le_refl].
    apply (fl_wset s _ fi w'); [reflexivity|]. destruct H. unfold fl_ok. split; [assumption|]. split; [assumption|]. split; [assumption|]. split; [exists (fun _ => true); rewrite filter_all; exact fu_queue|]. split.
    + intros E. destruct fu_state as [e|[(_ & e & _)|[(_ & e & _)|(_ & e)]]]; congruence.
    + destruct fu_final as [e|(_ & _ & e1 & e2 & _)]; [auto|right]. split; [congruence|exact e2].
  - right. constructor; [reflexivity|reflexivity|apply flows_wset| |reflexivity|auto|apply Z.le_refl].
    apply (fl_wset s _ fi (with_queue (wget s fi) [] 0)); [reflexivity|]. unfold fl_ok. cbn. repeat split; auto. exists (fun _ => false). generalize (w_queue (wget s fi)). induction l; auto.
  - left. right. exists opts. auto.
  - right. constructor; [reflexivity|reflexivity|reflexivity|intros fj; apply fl_refl|reflexivity|auto|apply Z.le_refl].
  - right. constructor; [reflexivity|reflexivity|reflexivity|intros fj; apply fl_refl|reflexivity|auto|exact H].
Qed.

(** ** A new fragment *)
Record made_one (s s' : sess) (fi rc : nat) (nm : Z) (fr : Z * list Z) : Prop := {
  mo_heap : s_heap s' = s_heap s ++ [mkFrag fi (w_next (wget s fi)) (fst fr) false 0 false false 0 0 (-1) (snd fr) rc];
  mo_queue : w_queue (wget s' fi) = w_queue (wget s fi) ++ [(nm, length (s_heap s))];
  mo_next : w_next (wget s' fi) = w_next (wget s fi) + 1;
  mo_tab : w_tab (wget s' fi) = w_tab (wget s fi) ++ [fr];
  mo_flow : w_state (wget s' fi) = w_state (wget s fi) /\ w_final (wget s' fi) = w_final (wget s fi) /\ w_opts (wget s' fi) = w_opts (wget s fi) /\ w_bound (wget s' fi) = w_bound (wget s fi) /\ w_msgs (wget s' fi) = w_msgs (wget s fi);
  mo_other : forall fj, fj <> fi -> wget s' fj = wget s fj;
  mo_flows : length (s_flows s') = length (s_flows s);
  mo_rcpts : s_rcpts s' = rstep (s_rcpts s) (RUp rc);
  mo_rest : s_wire s' = s_wire s /\ s_now s' = s_now s;
  mo_name : usable nm (w_queue (wget s fi)) = true }.
Lemma add_one : forall s fi rc nm fr s', (fi < length (s_flows s))%nat -> 0 <= w_next (wget s fi) -> add_frag s fi rc nm fr = Ok s' -> made_one s s' fi rc nm fr /\ w_next (wget s fi) < U64MAX.
Proof.
  intros s fi rc nm fr s' Hl H0 He. destruct (add_frag_facts s fi rc nm fr s' Hl H0 He) as (Ad & Hnx). split; [|exact Hnx].
  unfold add_frag in He. cbn zeta in He. destruct (usable nm (w_queue (wget s fi))) eqn:Eu; [|discriminate]. destruct (_ <? _); [|discriminate]. cbn [andb] in He. apply Ok_inj in He.
  constructor; auto.
  - rewrite <- He. reflexivity.
  - exact (ad_queue _ _ _ _ _ _ Ad).
  - exact (ad_next _ _ _ _ _ _ Ad).
  - exact (ad_tab _ _ _ _ _ _ Ad).
  - destruct (ad_flow _ _ _ _ _ _ Ad) as (q & n & nx & t & ->). cbn. auto.
  - exact (ad_other _ _ _ _ _ _ Ad).
  - exact (ad_len _ _ _ _ _ _ Ad).
  - rewrite <- He. reflexivity.
  - rewrite <- He. auto.
Qed.
Lemma mo_old : forall s s' fi rc nm fr, made_one s s' fi rc nm fr -> forall i, (i < length (s_heap s))%nat -> gget s' i = gget s i.
Proof. intros s s' fi rc nm fr M i Hi. unfold gget. rewrite (mo_heap _ _ _ _ _ _ M). apply app_nth1. exact Hi. Qed.
Lemma mo_new : forall s s' fi rc nm fr, made_one s s' fi rc nm fr -> gget s' (length (s_heap s)) = mkFrag fi (w_next (wget s fi)) (fst fr) false 0 false false 0 0 (-1) (snd fr) rc.
Proof. intros s s' fi rc nm fr M. unfold gget. rewrite (mo_heap _ _ _ _ _ _ M). apply nth_app_new. Qed.
Lemma mo_len : forall s s' fi rc nm fr, made_one s s' fi rc nm fr -> length (s_heap s') = S (length (s_heap s)).
Proof. intros s s' fi rc nm fr M. rewrite (mo_heap _ _ _ _ _ _ M), app_length. cbn. lia. Qed.

(** ** What every fragment and every chunk sent is *)
Definition seqs (s : sess) (q : list (Z * nat)) : list Z := map (fun e => g_seq (gget s (snd e))) q.
Record wire_ok (s : sess) (x : wchunk) : Prop := {
  wo_frag : (x_frag x < length (s_heap s))%nat;
  wo_owner : g_owner (gget s (x_frag x)) = x_flow x;
  wo_frame : exists abn fin : bool, x_frame x = mkFrame (g_fra (gget s (x_frag x)) + flag abn 2 + flag fin 1) (g_seq (gget s (x_frag x))) (g_data (gget s (x_frag x)))
    /\ (abn = true -> c_aband (rget (s_rcpts s) (g_rcpt (gget s (x_frag x)))) = true)
    /\ (fin = true -> w_state (wget s (x_flow x)) <> FS_OPEN /\ g_seq (gget s (x_frag x)) = zlen (w_tab (wget s (x_flow x))));
  wo_fsn : 0 <= x_fsn x <= g_seq (gget s (x_frag x)) }.
Record TI (s : sess) : Prop := {
  ti_next : forall fi, w_next (wget s fi) = 1 + zlen (w_tab (wget s fi));
  ti_frag : forall id, (id < length (s_heap s))%nat -> (g_owner (gget s id) < length (s_flows s))%nat /\ 1 <= g_seq (gget s id) <= zlen (w_tab (wget s (g_owner (gget s id))))
    /\ nth_error (w_tab (wget s (g_owner (gget s id)))) (Z.to_nat (g_seq (gget s id) - 1)) = Some (g_fra (gget s id), g_data (gget s id))
    /\ (g_rcpt (gget s id) < length (rs_all (s_rcpts s)))%nat;
  ti_uniq : forall i j, (i < length (s_heap s))%nat -> (j < length (s_heap s))%nat -> g_owner (gget s i) = g_owner (gget s j) -> g_seq (gget s i) = g_seq (gget s j) -> i = j;
  ti_sorted : forall fi, StronglySorted Z.lt (seqs s (w_queue (wget s fi)));
  ti_wire : forall x, In x (s_wire s) -> wire_ok s x;
  ti_final : forall fi, w_final (wget s fi) = 0 \/ (w_state (wget s fi) <> FS_OPEN /\ w_final (wget s fi) = zlen (w_tab (wget s fi)));
  ti_opts : forall fi, exists u, sup_ok u /\ w_opts (wget s fi) = sup_bytes u }.

Lemma ti_init : TI ss_init.
Proof.
  assert (Hw : forall fi, wget ss_init fi = w_none) by (intros [|fi]; reflexivity).
  constructor; intros *; rewrite ?Hw; cbn; intros; try lia; try tauto; auto; try constructor. exists None. cbn. auto.
Qed.

Lemma sorted_filter : forall A (f : A -> Z) p (l : list A), StronglySorted Z.lt (map f l) -> StronglySorted Z.lt (map f (filter p l)).
Proof.
  induction l as [|a l IH]; intros H; [constructor|]. cbn [map filter] in *. inversion H as [|? ? h1 h2]; subst. destruct (p a); [|auto]. cbn [map]. constructor; [auto|].
  rewrite Forall_forall in *. intros y Hy. apply h2. apply in_map_iff in Hy. destruct Hy as (e & <- & He). apply filter_In in He. apply in_map. apply He.
Qed.
Lemma seqs_core : forall s s' q, (forall id, core (gget s' id) = core (gget s id)) -> seqs s' q = seqs s q.
Proof. intros s s' q H. unfold seqs. apply map_ext. intros e. apply (core_eq _ _ (H (snd e))). Qed.

Lemma wire_frame : forall s s' x, frame_ s s' -> wire_ok s x -> wire_ok s' x.
Proof.
  intros s s' x F [h1 h2 h3 h4]. destruct (core_eq _ _ (fm_core _ _ F (x_frag x))) as (c1 & c2 & c3 & c4 & c5).
  constructor; rewrite ?c1, ?c2, ?c3, ?c4, ?c5; auto.
  - rewrite (fm_heap _ _ F). exact h1.
  - destruct h3 as (abn & fin & e1 & e2 & e3). exists abn, fin. split; [exact e1|]. split; [intros E; apply (fm_aband _ _ F); auto|].
    intros E. destruct (e3 E) as (e4 & e5). destruct (fm_flow _ _ F (x_flow x)) as (_ & Et & _ & _ & Es & _). rewrite Et. split; [intros E6; apply e4; auto|exact e5].
Qed.
Lemma ti_frame : forall s s', Full s -> TI s -> frame_ s s' -> (forall x, In x (s_wire s') -> wire_ok s' x) -> TI s'.
Proof.
  intros s s' HF T F Hw. constructor.
  - intros fi. destruct (fm_flow _ _ F fi) as (-> & -> & _). apply (ti_next _ T).
  - intros id Hl. rewrite (fm_heap _ _ F) in Hl. destruct (core_eq _ _ (fm_core _ _ F id)) as (-> & -> & -> & -> & ->). destruct (ti_frag _ T id Hl) as (h1 & h2 & h3 & h4).
    destruct (fm_flow _ _ F (g_owner (gget s id))) as (_ & -> & _). rewrite (fm_flows _ _ F). pose proof (fm_rlen _ _ F). repeat split; auto; try lia.
  - intros i j. rewrite (fm_heap _ _ F). destruct (core_eq _ _ (fm_core _ _ F i)) as (-> & -> & _). destruct (core_eq _ _ (fm_core _ _ F j)) as (-> & -> & _). apply (ti_uniq _ T).
  - intros fi. rewrite (seqs_core s s') by apply (fm_core _ _ F). destruct (fm_flow _ _ F fi) as (_ & _ & _ & (p & ->) & _). apply sorted_filter. apply (ti_sorted _ T).
  - exact Hw.
  - intros fi. pose proof (fi_next _ _ (fu_fi _ HF fi)) as (Hn & _). pose proof (ti_next _ T fi) as En. pose proof (zlen_nonneg _ (w_tab (wget s fi))).
    destruct (fm_flow _ _ F fi) as (_ & Et & _ & _ & Es & [->|(h1 & ->)]); rewrite Et.
    + destruct (ti_final _ T fi) as [h|(h1 & h2)]; [auto|right]. split; auto.
    + right. split; [exact h1|]. unfold wrap64, U64MAX in *. lia.
  - intros fi. destruct (fm_flow _ _ F fi) as (_ & _ & [-> | ->] & _); [apply (ti_opts _ T)|exists None; cbn; auto].
Qed.

Lemma queue_frag : forall s fi nm id, Full s -> In (nm, id) (w_queue (wget s fi)) -> (id < length (s_heap s))%nat /\ g_owner (gget s id) = fi.
Proof. intros s fi nm id HF H. destruct (fi_ids _ _ (fu_fi _ HF fi) nm id H) as (h1 & h2 & _). auto. Qed.

Lemma ti_made : forall s s' fi rc nm fr, Full s -> TI s -> made_one s s' fi rc nm fr -> (fi < length (s_flows s))%nat -> w_state (wget s fi) = FS_OPEN -> (rc < length (rs_all (s_rcpts s)))%nat -> TI s'.
Proof.
  intros s s' fi rc nm fr HF T M Hl Hst Hrc. pose proof (mo_old _ _ _ _ _ _ M) as Old. pose proof (mo_new _ _ _ _ _ _ M) as New. pose proof (mo_len _ _ _ _ _ _ M) as Len.
  assert (Tab : forall fj, exists t, w_tab (wget s' fj) = w_tab (wget s fj) ++ t) by (intros fj; destruct (Nat.eq_dec fj fi) as [->|N]; [rewrite (mo_tab _ _ _ _ _ _ M); eauto|rewrite (mo_other _ _ _ _ _ _ M fj N); exists []; rewrite app_nil_r; reflexivity]).
  assert (Rl : length (rs_all (s_rcpts s')) = length (rs_all (s_rcpts s))) by (rewrite (mo_rcpts _ _ _ _ _ _ M), rstep_length; lia).
  constructor.
  - intros fj. destruct (Nat.eq_dec fj fi) as [->|N].
    + rewrite (mo_next _ _ _ _ _ _ M), (mo_tab _ _ _ _ _ _ M), zlen_app, (ti_next _ T fi). change (zlen [fr]) with 1. lia.
    + rewrite (mo_other _ _ _ _ _ _ M fj N). apply (ti_next _ T).
  - intros id Hid. rewrite Len in Hid. rewrite (mo_flows _ _ _ _ _ _ M), Rl. destruct (Nat.eq_dec id (length (s_heap s))) as [->|N].
    + rewrite New. cbn [g_owner g_seq g_fra g_data g_rcpt]. rewrite (mo_tab _ _ _ _ _ _ M), zlen_app, (ti_next _ T fi). change (zlen [fr]) with 1. pose proof (zlen_nonneg _ (w_tab (wget s fi))).
      split; [exact Hl|]. split; [lia|]. split; [|exact Hrc].
      replace (Z.to_nat (1 + zlen (w_tab (wget s fi)) - 1)) with (length (w_tab (wget s fi))) by (unfold zlen; lia). rewrite nth_error_app2, Nat.sub_diag by lia. destruct fr; reflexivity.
    + rewrite Old by lia. destruct (ti_frag _ T id) as (h1 & h2 & h3 & h4); [lia|]. split; [exact h1|]. destruct (Tab (g_owner (gget s id))) as (t & ->). rewrite zlen_app. pose proof (zlen_nonneg _ t).
      split; [lia|]. split; [|exact h4]. rewrite nth_error_app1; [exact h3|]. apply nth_error_Some. congruence.
  - assert (U : forall i, (i < length (s_heap s))%nat -> g_owner (gget s i) = fi -> g_seq (gget s i) <> w_next (wget s fi)).
    { intros i Hi E1 E2. destruct (ti_frag _ T i Hi) as (_ & h2 & _). rewrite E1 in h2. rewrite (ti_next _ T) in E2. lia. }
    intros i j Hi Hj E1 E2. rewrite Len in Hi, Hj. destruct (Nat.eq_dec i (length (s_heap s))) as [->|Ni]; destruct (Nat.eq_dec j (length (s_heap s))) as [->|Nj]; auto.
    + rewrite New in E1, E2. rewrite (Old j) in E1, E2 by lia. cbn in E1, E2. destruct (U j); auto; lia.
    + rewrite New in E1, E2. rewrite (Old i) in E1, E2 by lia. cbn in E1, E2. destruct (U i); auto; lia.
    + rewrite (Old i), (Old j) in E1, E2 by lia. apply (ti_uniq _ T); auto; lia.
  - intros fj. assert (Es : forall fk, seqs s' (w_queue (wget s fk)) = seqs s (w_queue (wget s fk))).
    { intros fk. unfold seqs. apply map_ext_in. intros (n, id) He. rewrite Old; [reflexivity|]. exact (proj1 (queue_frag s fk n id HF He)). }
    destruct (Nat.eq_dec fj fi) as [->|N].
    + rewrite (mo_queue _ _ _ _ _ _ M). unfold seqs. rewrite map_app. fold (seqs s' (w_queue (wget s fi))). rewrite Es. cbn [map snd]. rewrite New. cbn [g_seq].
      assert (Hlt : Forall (fun z => z < w_next (wget s fi)) (seqs s (w_queue (wget s fi)))).
      { apply Forall_forall. intros z Hz. apply in_map_iff in Hz. destruct Hz as ((n, id) & <- & He). destruct (queue_frag s fi n id HF He) as (h1 & h2). destruct (ti_frag _ T id h1) as (_ & h3 & _). rewrite h2 in h3. rewrite (ti_next _ T). cbn [snd]. lia. }
      generalize (ti_sorted _ T fi) Hlt. generalize (seqs s (w_queue (wget s fi))). induction l as [|z l IH]; intros h1 h2; [repeat constructor|].
      inversion h1; subst. inversion h2; subst. cbn [app]. constructor; [auto|]. apply Forall_app. split; [assumption|constructor; [assumption|constructor]].
    + rewrite (mo_other _ _ _ _ _ _ M fj N), Es. apply (ti_sorted _ T).
  - intros x Hx. rewrite (proj1 (mo_rest _ _ _ _ _ _ M)) in Hx. destruct (ti_wire _ T x Hx) as [h1 h2 h3 h4]. constructor; rewrite ?(Old _ h1); [lia|exact h2| |exact h4].
    destruct h3 as (abn & fin & e1 & e2 & e3). exists abn, fin. split; [exact e1|]. split; [intros E; rewrite (mo_rcpts _ _ _ _ _ _ M); apply rstep_aband; auto|].
    intros E. destruct (e3 E) as (e4 & e5). destruct (Nat.eq_dec (x_flow x) fi) as [E6|N]; [rewrite E6 in e4; contradiction|]. rewrite (mo_other _ _ _ _ _ _ M _ N). auto.
  - intros fj. destruct (Nat.eq_dec fj fi) as [->|N].
    + destruct (mo_flow _ _ _ _ _ _ M) as (-> & -> & _). destruct (ti_final _ T fi) as [h|(h & _)]; [auto|contradiction].
    + rewrite (mo_other _ _ _ _ _ _ M fj N). apply (ti_final _ T).
  - intros fj. destruct (Nat.eq_dec fj fi) as [->|N]; [destruct (mo_flow _ _ _ _ _ _ M) as (_ & _ & -> & _)|rewrite (mo_other _ _ _ _ _ _ M fj N)]; apply (ti_opts _ T).
Qed.
Lemma wget_open : forall s opts fj, wget (set_flows s (s_flows s ++ [f_new opts])) fj = if Nat.eqb fj (length (s_flows s)) then f_new opts else wget s fj.
Proof.
  intros. unfold wget. cbn [s_flows set_flows]. destruct (Nat.eqb_spec fj (length (s_flows s))) as [->|N]; [apply nth_app_new|].
  destruct (Nat.lt_ge_cases fj (length (s_flows s))); [apply app_nth1; assumption|]. rewrite app_nth2, !nth_overflow by (cbn [length]; lia). reflexivity.
Qed.
Lemma ti_open : forall s opts, Full s -> TI s -> (exists u, sup_ok u /\ opts = sup_bytes u) -> TI (set_flows s (s_flows s ++ [f_new opts])).
Proof.
  intros s opts HF T Hu. set (s' := set_flows s (s_flows s ++ [f_new opts])).
  assert (E : forall fj, fj <> length (s_flows s) -> wget s' fj = wget s fj) by (intros fj N; unfold s'; rewrite wget_open; destruct (Nat.eqb_spec fj (length (s_flows s))); [contradiction|reflexivity]).
  assert (E0 : wget s' (length (s_flows s)) = f_new opts) by (unfold s'; rewrite wget_open, Nat.eqb_refl; reflexivity).
  assert (El : length (s_flows s') = S (length (s_flows s))) by (cbn; rewrite app_length; cbn; lia).
  constructor.
  - intros fj. destruct (Nat.eq_dec fj (length (s_flows s))) as [->|N]; [rewrite E0; reflexivity|rewrite E by exact N; apply (ti_next _ T)].
  - intros id Hid. change (gget s' id) with (gget s id). destruct (ti_frag _ T id Hid) as (h1 & h2 & h3 & h4). rewrite El. rewrite E by lia. repeat split; auto; lia.
  - exact (ti_uniq _ T).
  - intros fj. destruct (Nat.eq_dec fj (length (s_flows s))) as [->|N]; [rewrite E0; constructor|rewrite E by exact N; exact (ti_sorted _ T fj)].
  - intros x Hx. destruct (ti_wire _ T x Hx) as [h1 h2 h3 h4]. constructor; auto. change (gget s' (x_frag x)) with (gget s (x_frag x)). rewrite E; [exact h3|]. destruct (ti_frag _ T _ h1) as (h & _). lia.
  - intros fj. destruct (Nat.eq_dec fj (length (s_flows s))) as [->|N]; [rewrite E0; auto|rewrite E by exact N; apply (ti_final _ T)].
  - intros fj. destruct (Nat.eq_dec fj (length (s_flows s))) as [->|N]; [rewrite E0; exact Hu|rewrite E by exact N; apply (ti_opts _ T)].
Qed.

(** Only sending adds to the wire. *)
Definition sends (s s' : sess) : Prop := exists fi pre nm id suf o fsn fr abn size, s_open s = true /\ w_bound (wget s fi) = true /\
    w_queue (wget s fi) = pre ++ (nm, id) :: suf /\ fsn_from s fi fsn /\ abn = c_aband (rget (s_rcpts s) (g_rcpt (gget s id))) /\
    (let c := rget (s_rcpts s) (g_rcpt (gget s id)) in passed (s_now s) (c_finish c) = true -> c_use c <> 0 -> c_aband c = true) /\
    fr = mkFrame (g_fra (gget s id) + flag abn 2 + flag (g_seq (gget s id) =? w_final (wget s fi)) 1) (g_seq (gget s id)) (g_data (gget s id)) /\
    s' = mark_sent s fi nm id o fsn fr abn size.
Lemma prim_wire : forall A B s s', prim A B s s' -> s_wire s' = s_wire s \/ sends s s'.
Proof.
  intros A B s s' P. destruct P; try (left; reflexivity).
  - left. unfold add_frag in H5. cbv zeta in H5. destruct (_ && _); [|discriminate]. apply Ok_inj in H5. rewrite <- H5. reflexivity.
  - right. exists fi, pre, nm, id, suf, o, fsn, fr, abn, size. auto 10.
Qed.
Lemma sorted_head : forall (a : Z) l z, StronglySorted Z.lt (a :: l) -> In z (a :: l) -> a <= z.
Proof. intros a l z H [->|Hz]; [lia|]. inversion H as [|? ? _ h]; subst. rewrite Forall_forall in h. specialize (h z Hz). lia. Qed.
Lemma fsn_le : forall s fi fsn pre nm id suf, Full s -> TI s -> fsn_from s fi fsn -> w_queue (wget s fi) = pre ++ (nm, id) :: suf -> 0 <= fsn <= g_seq (gget s id).
Proof.
  intros s fi fsn pre nm id suf HF T (nm0 & id0 & q & E & Hf) Eq.
  assert (H1 : In (nm, id) (w_queue (wget s fi))) by (rewrite Eq; apply in_or_app; right; left; reflexivity).
  assert (H0 : In (nm0, id0) (w_queue (wget s fi))) by (rewrite E; left; reflexivity).
  pose proof (ti_sorted _ T fi) as Hs. unfold seqs in Hs. rewrite E in Hs. cbn [map snd] in Hs.
  assert (Hle : g_seq (gget s id0) <= g_seq (gget s id)).
  { eapply sorted_head; [exact Hs|]. rewrite E in H1. destruct H1 as [e|H1]; [injection e as -> ->; left; reflexivity|right; apply in_map_iff; exists (nm, id); auto]. }
  destruct (queue_frag _ _ _ _ HF H0) as (h1 & h2). destruct (ti_frag _ T _ h1) as (_ & h3 & _). rewrite h2 in h3. pose proof (ti_next _ T fi) as En. pose proof (fi_next _ _ (fu_fi _ HF fi)) as (Hn & _).
  destruct Hf as [->|(-> & _)]; unfold wrap64, U64MAX in *; lia.
Qed.
Lemma mark_wire : forall s fi nm id o fsn fr abn size, s_wire (mark_sent s fi nm id o fsn fr abn size) = s_wire s ++ [mkWire fi id fsn fr size].
Proof. reflexivity. Qed.
Lemma prim_ti : forall A B s s', Full s -> TI s -> prim A B s s' -> TI s'.
Proof.
  intros A B s s' HF T P. pose proof (prim_wire _ _ _ _ P) as Pw. destruct (prim_frame _ _ _ _ P) as [[(fi & rc & nm & fr & h1 & h2 & h3 & _ & h4)|(opts & Hu & ->)]|F].
  - pose proof (fi_next _ _ (fu_fi _ HF fi)) as (Hn & _). destruct (add_one s fi rc nm fr s' h1 ltac:(lia) h4) as (M & _). eapply ti_made; eauto. lia.
  - apply ti_open; auto.
  - apply (ti_frame s); auto. intros x Hx. destruct Pw as [E|(fi & pre & nm & id & suf & o & fsn & fr & abn & size & h1 & h2 & h3 & h4 & h5 & h6 & h7 & ->)].
    + rewrite E in Hx. apply (wire_frame s); auto. apply (ti_wire _ T). exact Hx.
    + rewrite mark_wire in Hx. apply in_app_iff in Hx. destruct Hx as [Hx|[<-|[]]]; [apply (wire_frame s); auto; apply (ti_wire _ T); exact Hx|]. apply (wire_frame s); [exact F|].
      assert (Hq : In (nm, id) (w_queue (wget s fi))) by (rewrite h3; apply in_or_app; right; left; reflexivity). destruct (queue_frag _ _ _ _ HF Hq) as (i1 & i2).
      constructor; cbn [x_frag x_flow x_frame x_fsn]; auto; [|eapply fsn_le; eauto]. exists abn, (g_seq (gget s id) =? w_final (wget s fi)). split; [exact h7|]. split; [congruence|].
      intros E. apply Z.eqb_eq in E. destruct (ti_frag _ T id i1) as (_ & i3 & _). destruct (ti_final _ T fi) as [e|(e1 & e2)]; [lia|]. split; [exact e1|congruence].
Qed.
Lemma prims_ti : forall A B s s', prims A B s s' -> Full s -> TI s -> TI s'.
Proof. induction 1; intros; auto. apply IHprims; [eapply prim_full; eauto|eapply prim_ti; eauto]. Qed.

(** ** What is no longer queued was acknowledged or given up *)
Definition Ab (s : sess) (fi : nat) (i : Z) : Prop :=
  exists id, (id < length (s_heap s))%nat /\ g_owner (gget s id) = fi /\ g_seq (gget s id) = i /\ c_aband (rget (s_rcpts s) (g_rcpt (gget s id))) = true.
Definition queued (s : sess) (fi : nat) (i : Z) : Prop := exists nm id, In (nm, id) (w_queue (wget s fi)) /\ g_seq (gget s id) = i.
Record K (s : sess) (fi : nat) (R : Z -> Prop) : Prop := {
  k_queue : w_bound (wget s fi) = true \/ w_state (wget s fi) = FS_OPEN -> forall i, 1 <= i < w_next (wget s fi) -> queued s fi i \/ R i \/ Ab s fi i;
  k_wire : forall x, In x (s_wire s) -> x_flow x = fi -> forall i, 1 <= i <= x_fsn x -> R i \/ Ab s fi i }.

Lemma prim_ab : forall A B s s' fi i, prim A B s s' -> Full s -> Ab s fi i -> Ab s' fi i.
Proof.
  intros A B s s' fi i P HF (id & h1 & h2 & h3 & h4). exists id. destruct (prim_frame _ _ _ _ P) as [[(fj & rc & nm & fr & i1 & i2 & i3 & _ & i4)|(opts & Hu & ->)]|F].
  - pose proof (fi_next _ _ (fu_fi _ HF fj)) as (Hn & _). destruct (add_one s fj rc nm fr s' i1 ltac:(lia) i4) as (M & _). rewrite (mo_len _ _ _ _ _ _ M), (mo_old _ _ _ _ _ _ M id h1), (mo_rcpts _ _ _ _ _ _ M).
    repeat split; auto. apply rstep_aband. exact h4.
  - auto.
  - destruct (core_eq _ _ (fm_core _ _ F id)) as (-> & -> & _ & _ & ->). rewrite (fm_heap _ _ F). repeat split; auto. apply (fm_aband _ _ F). exact h4.
Qed.
Lemma prims_ab : forall A B s s' fi i, prims A B s s' -> Full s -> Ab s fi i -> Ab s' fi i.
Proof. induction 1; intros; auto. apply IHprims; [eapply prim_full; eauto|eapply prim_ab; eauto]. Qed.
Lemma prim_core : forall A B s s' id, prim A B s s' -> Full s -> (id < length (s_heap s))%nat -> (id < length (s_heap s'))%nat /\ core (gget s' id) = core (gget s id).
Proof.
  intros A B s s' id P HF Hi. destruct (prim_frame _ _ _ _ P) as [[(fj & rc & nm & fr & i1 & i2 & i3 & _ & i4)|(opts & Hu & ->)]|F].
  - pose proof (fi_next _ _ (fu_fi _ HF fj)) as (Hn & _). destruct (add_one s fj rc nm fr s' i1 ltac:(lia) i4) as (M & _). rewrite (mo_len _ _ _ _ _ _ M), (mo_old _ _ _ _ _ _ M id Hi). split; [lia|reflexivity].
  - auto.
  - rewrite (fm_heap _ _ F). split; [exact Hi|apply (fm_core _ _ F)].
Qed.

Lemma name_once : forall (q : list (Z * nat)) nm i j, NoDup (map fst q) -> In (nm, i) q -> In (nm, j) q -> i = j.
Proof.
  induction q as [|(n, k) q IH]; intros nm i j Hd Hi Hj; [destruct Hi|]. cbn in Hd. inversion Hd; subst.
  assert (forall x, In (nm, x) q -> In nm (map fst q)) by (intros x Hx; apply in_map_iff; exists (nm, x); auto).
  destruct Hi as [e1|Hi]; destruct Hj as [e2|Hj]; try congruence; eauto.
  - injection e1 as -> ->. exfalso. eauto.
  - injection e2 as -> ->. exfalso. eauto.
Qed.
Definition left_ok (A : nat -> Z -> Prop) (s s' : sess) (fj : nat) (e : Z * nat) : Prop :=
  In e (w_queue (wget s' fj)) \/ A fj (g_seq (gget s (snd e))) \/ c_aband (rget (s_rcpts s) (g_rcpt (gget s (snd e)))) = true \/ (w_bound (wget s' fj) = false /\ w_state (wget s' fj) <> FS_OPEN).
Lemma drop_left : forall s fi nm id e, Full s -> In (nm, id) (w_queue (wget s fi)) -> In e (w_queue (wget s fi)) -> In e (drop nm (w_queue (wget s fi))) \/ e = (nm, id).
Proof.
  intros s fi nm id (n, i) HF H He. destruct (Z.eq_dec n nm) as [->|N]; [right; f_equal; eapply name_once; eauto; apply (fi_nd _ _ (fu_fi _ HF fi))|left; apply drop_in; auto].
Qed.
Lemma unqueue_queue : forall s fi nm id fj, w_queue (wget (unqueue s fi nm id) fj) = if Nat.eqb fi fj then drop nm (w_queue (wget s fj)) else w_queue (wget s fj).
Proof.
  intros. unfold unqueue. cbn zeta. change (wget (set_rcpts ?x ?y) fj) with (wget x fj). rewrite wget_wset. destruct (Nat.eqb_spec fi fj) as [->|]; [|reflexivity]. cbn [andb].
  destruct (Nat.ltb_spec fj (length (s_flows s))); [reflexivity|]. rewrite wget_out by lia. reflexivity.
Qed.
Lemma forget_queue : forall s fi g fj, w_queue (wget (forget s fi g) fj) = w_queue (wget s fj).
Proof. intros. unfold forget. cbn zeta. rewrite wget_wset. destruct (Nat.eqb_spec fi fj) as [->|]; [|reflexivity]. destruct (Nat.ltb _ _); reflexivity. Qed.
Lemma prim_left : forall A B s s' fj e, prim A B s s' -> Full s -> In e (w_queue (wget s fj)) -> left_ok A s s' fj e.
Proof.
  intros A B s s' fj e P HF He. unfold left_ok. destruct P; try (left; exact He).
  - left. destruct (Nat.eq_dec fj fi) as [->|N].
    + pose proof (fi_next _ _ (fu_fi _ HF fi)) as (Hn & _). destruct (add_one s fi rc nm fr s' H ltac:(lia) H5) as (M & _). rewrite (mo_queue _ _ _ _ _ _ M). apply in_or_app. auto.
    + pose proof (fi_next _ _ (fu_fi _ HF fi)) as (Hn & _). destruct (add_one s fi rc nm fr s' H ltac:(lia) H5) as (M & _). rewrite (mo_other _ _ _ _ _ _ M fj N). exact He.
  - left. rewrite wget_wset. destruct (Nat.eqb_spec fi fj) as [->|]; [|exact He]. destruct (Nat.ltb _ _); exact He.
  - left. destruct (mark_sent_flow s fi nm id o fsn fr abn size fj) as (n & l & ->). exact He.
  - rewrite unqueue_queue. destruct (Nat.eqb_spec fi fj) as [->|]; [|auto]. destruct (drop_left s fj nm id e HF) as [h|h]; auto; [rewrite H; left; reflexivity|]. subst e. auto.
  - rewrite unqueue_queue. destruct (Nat.eqb_spec fi fj) as [->|]; [|auto]. destruct (drop_left s fj nm id e HF) as [h|h]; auto. subst e. auto.
  - rewrite unqueue_queue, forget_queue. destruct (Nat.eqb_spec fi fj) as [->|]; [|auto]. destruct (drop_left s fj nm id e HF) as [h|h]; auto. subst e. auto.
  - left. unfold lose_one. cbn zeta. change (wget (set_out ?x ?y ?z) fj) with (wget x fj). destruct (lose_flow s id nak fj) as (n & l & ->). exact He.
  - left. rewrite wget_wset. destruct (Nat.eqb_spec fi fj) as [->|]; [|exact He]. destruct (Nat.ltb _ _); [|exact He]. cbn [andb]. rewrite (fu_queue _ _ _ H). exact He.
  - rewrite wget_wset. destruct (Nat.eqb_spec fi fj) as [->|]; [|auto]. destruct (Nat.ltb _ _); [|auto]. cbn. auto.
  - left. rewrite wget_open. pose proof (queue_len s fj (fst e) (snd e)) as Hq. rewrite <- surjective_pairing in Hq. specialize (Hq He). destruct (Nat.eqb_spec fj (length (s_flows s))); [lia|exact He].
Qed.
Lemma prim_bound : forall A B s s' fj, prim A B s s' -> Full s -> fj <> length (s_flows s) -> w_bound (wget s' fj) = true -> w_bound (wget s fj) = true \/ w_state (wget s fj) = FS_OPEN.
Proof.
  intros A B s s' fj P HF Hfj Hb. destruct P; try (left; exact Hb).
  - left. destruct (add_frag_flow _ _ _ _ _ _ fj H5) as (q & n & x & t & E). rewrite E in Hb. exact Hb.
  - left. rewrite wget_wset in Hb. destruct (Nat.eqb_spec fi fj) as [->|]; [|exact Hb]. destruct (Nat.ltb _ _); exact Hb.
  - left. destruct (mark_sent_flow s fi nm id o fsn fr abn size fj) as (n & l & E). rewrite E in Hb. exact Hb.
  - left. unfold unqueue in Hb. cbn zeta in Hb. change (wget (set_rcpts ?x ?y) fj) with (wget x fj) in Hb. rewrite wget_wset in Hb. destruct (Nat.eqb_spec fi fj) as [->|]; [|exact Hb]. destruct (Nat.ltb _ _); exact Hb.
  - left. unfold unqueue in Hb. cbn zeta in Hb. change (wget (set_rcpts ?x ?y) fj) with (wget x fj) in Hb. rewrite wget_wset in Hb. destruct (Nat.eqb_spec fi fj) as [->|]; [|exact Hb]. destruct (Nat.ltb _ _); exact Hb.
  - left. assert (Ef : forall fk, w_bound (wget (forget s fi (gget s id)) fk) = w_bound (wget s fk)).
    { intros fk. unfold forget. cbn zeta. rewrite wget_wset. destruct (Nat.eqb_spec fi fk) as [->|]; [|reflexivity]. destruct (Nat.ltb _ _); reflexivity. }
    rewrite <- Ef. unfold unqueue in Hb. cbn zeta in Hb. change (wget (set_rcpts ?x ?y) fj) with (wget x fj) in Hb. rewrite wget_wset in Hb. destruct (Nat.eqb_spec fi fj) as [->|]; [|exact Hb]. destruct (Nat.ltb _ _); exact Hb.
  - left. unfold lose_one in Hb. cbn zeta in Hb. change (wget (set_out ?x ?y ?z) fj) with (wget x fj) in Hb. destruct (lose_flow s id nak fj) as (n & l & E). rewrite E in Hb. exact Hb.
  - rewrite wget_wset in Hb. destruct (Nat.eqb_spec fi fj) as [->|]; [|auto]. destruct (Nat.ltb _ _); [|auto]. cbn [andb] in Hb. destruct (fu_bound _ _ _ H) as [(e & _)|[(_ & _ & _ & e)|(e & _)]]; [left; congruence|auto|congruence].
  - left. rewrite wget_wset in Hb. destruct (Nat.eqb_spec fi fj) as [->|]; [|exact Hb]. destruct (Nat.ltb _ _); exact Hb.
  - left. rewrite wget_open in Hb. destruct (Nat.eqb_spec fj (length (s_flows s))); [contradiction|exact Hb].
Qed.

Lemma prim_k : forall A B s s' fi (R : Z -> Prop), prim A B s s' -> Full s -> TI s -> (forall i, 1 <= i -> A fi i -> R i) -> K s fi R -> K s' fi R.
Proof.
  intros A B s s' fi R P HF T HA [k1 k2].
  assert (Hab : forall i, R i \/ Ab s fi i -> R i \/ Ab s' fi i) by (intros i [h|h]; [auto|right; eapply prim_ab; eauto]).
  assert (Hq : w_bound (wget s' fi) = true \/ w_state (wget s' fi) = FS_OPEN -> forall i, queued s fi i \/ R i \/ Ab s fi i -> queued s' fi i \/ R i \/ Ab s' fi i).
  { intros Hb i [(nm & id & h1 & h2)|h]; [|right; auto]. destruct (queue_frag _ _ _ _ HF h1) as (h3 & h4). destruct (prim_core _ _ _ _ id P HF h3) as (h5 & h6). apply core_eq in h6. destruct h6 as (c1 & c2 & _).
    destruct (prim_left A B s s' fi (nm, id) P HF h1) as [h|[h|[h|(e1 & e2)]]]; cbn [snd] in *.
    - left. exists nm, id. split; [exact h|congruence].
    - right. left. apply HA; [|congruence]. destruct (ti_frag _ T id h3) as (_ & h7 & _). lia.
    - right. right. eapply prim_ab; eauto. exists id. auto.
    - destruct Hb; congruence. }
  constructor.
  - intros Hb i Hi. destruct (Nat.eq_dec fi (length (s_flows s))) as [E|Nfi].
    { destruct (prim_frame _ _ _ _ P) as [[(fj & rc & nm & fr & i1 & i2 & i3 & _ & i4)|(opts & Hu & ->)]|F].
      - pose proof (fi_next _ _ (fu_fi _ HF fj)) as (Hn & _). destruct (add_one s fj rc nm fr s' i1 ltac:(lia) i4) as (M & _). rewrite (mo_other _ _ _ _ _ _ M fi) in Hi by lia. rewrite (wget_out s fi) in Hi by lia. cbn in Hi. lia.
      - rewrite wget_open, E, Nat.eqb_refl in Hi. cbn in Hi. lia.
      - destruct (fm_flow _ _ F fi) as (e & _). rewrite e, wget_out in Hi by lia. cbn in Hi. lia. }
    assert (Hb' : w_bound (wget s fi) = true \/ w_state (wget s fi) = FS_OPEN).
    { destruct Hb as [Hb|Hb]; [eapply prim_bound; eauto|]. right. destruct (prim_frame _ _ _ _ P) as [[(fj & rc & nm & fr & i1 & i2 & i3 & _ & i4)|(opts & Hu & ->)]|F].
      - pose proof (fi_next _ _ (fu_fi _ HF fj)) as (Hn & _). destruct (add_one s fj rc nm fr s' i1 ltac:(lia) i4) as (M & _). destruct (Nat.eq_dec fi fj) as [->|N]; [exact i2|]. rewrite (mo_other _ _ _ _ _ _ M fi N) in Hb. exact Hb.
      - rewrite wget_open in Hb. destruct (Nat.eqb_spec fi (length (s_flows s))); [contradiction|exact Hb].
      - destruct (fm_flow _ _ F fi) as (_ & _ & _ & _ & e & _). auto. }
    destruct (prim_frame _ _ _ _ P) as [[(fj & rc & nm & fr & i1 & i2 & i3 & _ & i4)|(opts & Hu & E)]|F].
    + pose proof (fi_next _ _ (fu_fi _ HF fj)) as (Hn & _). destruct (add_one s fj rc nm fr s' i1 ltac:(lia) i4) as (M & _). destruct (Nat.eq_dec fi fj) as [->|N].
      * rewrite (mo_next _ _ _ _ _ _ M) in Hi. destruct (Z.eq_dec i (w_next (wget s fj))) as [->|N]; [|apply Hq; auto; apply k1; auto; lia].
        left. exists nm, (length (s_heap s)). rewrite (mo_queue _ _ _ _ _ _ M), (mo_new _ _ _ _ _ _ M). split; [apply in_or_app; right; left; reflexivity|reflexivity].
      * rewrite (mo_other _ _ _ _ _ _ M fi N) in Hi. apply Hq; auto.
    + apply Hq; auto. apply k1; auto. rewrite E, wget_open in Hi. destruct (Nat.eqb_spec fi (length (s_flows s))); [contradiction|exact Hi].
    + destruct (fm_flow _ _ F fi) as (e & _). rewrite e in Hi. apply Hq; auto.
  - intros x Hx Ex i Hi. destruct (prim_wire _ _ _ _ P) as [E|(fj & pre & nm & id & suf & o & fsn & fr & abn & size & h1 & h2 & h3 & h4 & h5 & h6 & h7 & E)].
    + rewrite E in Hx. apply Hab. eapply k2; eauto.
    + rewrite E, mark_wire in Hx. apply in_app_iff in Hx. destruct Hx as [Hx|[<-|[]]]; [apply Hab; eapply k2; eauto|]. cbn [x_flow x_fsn] in *. subst fj. apply Hab.
      destruct h4 as (nm0 & id0 & q & Eq & Hf). assert (H0 : In (nm0, id0) (w_queue (wget s fi))) by (rewrite Eq; left; reflexivity). destruct (queue_frag _ _ _ _ HF H0) as (j1 & j2). destruct (ti_frag _ T _ j1) as (_ & j3 & _).
      rewrite j2 in j3. pose proof (ti_next _ T fi) as En. pose proof (fi_next _ _ (fu_fi _ HF fi)) as (Hn & _).
      assert (Hlow : forall k, 1 <= k < g_seq (gget s id0) -> R k \/ Ab s fi k).
      { intros k Hk. destruct (k1 (or_introl h2) k ltac:(lia)) as [(n & j & q1 & q2)|h]; [|exact h]. exfalso. pose proof (ti_sorted _ T fi) as Hs. unfold seqs in Hs. rewrite Eq in Hs. cbn [map snd] in Hs.
        assert (g_seq (gget s id0) <= k) by (apply (sorted_head _ _ k Hs); rewrite Eq in q1; destruct q1 as [e|q1]; [injection e as -> ->; left; exact q2|right; apply in_map_iff; exists (n, j); auto]). lia. }
      destruct Hf as [e|(e & ea)].
      * apply Hlow. unfold wrap64, U64MAX in *. lia.
      * destruct (Z.eq_dec i (g_seq (gget s id0))) as [->|]; [right; exists id0; auto|apply Hlow; lia].
Qed.
Lemma prims_k : forall A B s s' fi (R : Z -> Prop), prims A B s s' -> Full s -> TI s -> (forall i, 1 <= i -> A fi i -> R i) -> K s fi R -> K s' fi R.
Proof. induction 1; intros; auto. apply IHprims; auto; [eapply prim_full; eauto|eapply prim_ti; eauto|eapply prim_k; eauto]. Qed.
Lemma k_weaken : forall s fi (R R' : Z -> Prop), (forall i, R i -> R' i) -> K s fi R -> K s fi R'.
Proof. intros s fi R R' H [k1 k2]. constructor; intros; [destruct (k1 H0 i H1) as [|[|]]|destruct (k2 x H0 H1 i H2)]; auto. Qed.

(** ** The empty fragment that only carries FIN *)
Lemma id_once : forall (q : list (Z * nat)) n m i, NoDup (map snd q) -> In (n, i) q -> In (m, i) q -> n = m.
Proof.
  induction q as [|(a, k) q IH]; intros n m i Hd Hi Hj; [destruct Hi|]. cbn in Hd. inversion Hd; subst.
  assert (forall x, In (x, i) q -> In i (map snd q)) by (intros x Hx; apply in_map_iff; exists (x, i); auto).
  destruct Hi as [e1|Hi]; destruct Hj as [e2|Hj]; try congruence; eauto.
  - injection e1 as -> ->. exfalso. eauto.
  - injection e2 as -> ->. exfalso. eauto.
Qed.
Lemma unqueue_gone : forall s fi nm id nm', Full s -> In (nm, id) (w_queue (wget s fi)) -> ~ In (nm', id) (w_queue (wget (unqueue s fi nm id) fi)).
Proof.
  intros s fi nm id nm' HF H Hi. rewrite unqueue_queue, Nat.eqb_refl in Hi. apply drop_in in Hi. destruct Hi as (h1 & h2). cbn in h2. apply h2. eapply id_once; eauto. apply (fi_ndi _ _ (fu_fi _ HF fi)).
Qed.
Definition touches (B : rop -> Prop) (s s' : sess) (o : rop) : Prop :=
  (B o /\ (forall i, o <> RDown i)) \/ (exists now i, o = RExamine now i) \/ (exists i, o = RAbandon i /\ c_rtx (rget (s_rcpts s) i) = false) \/ (exists i, o = RStart i)
  \/ (exists fi nm id, o = RDown (g_rcpt (gget s id)) /\ In (nm, id) (w_queue (wget s fi)) /\ forall nm', ~ In (nm', id) (w_queue (wget s' fi))).
Lemma prim_rcpts : forall A B s s', prim A B s s' -> Full s -> s_rcpts s' = s_rcpts s \/ exists o, s_rcpts s' = rstep (s_rcpts s) o /\ touches B s s' o.
Proof.
  intros A B s s' P HF. unfold touches. destruct P; try (left; reflexivity).
  - right. exists o. split; [reflexivity|]. destruct H as [(h1 & h2)|h]; [left; split; [exact h1|intros i ->; exact h2]|]. destruct o; try tauto; [right; left; eauto|right; right; left; eauto].
  - right. pose proof (fi_next _ _ (fu_fi _ HF fi)) as (Hn & _). destruct (add_one s fi rc nm fr s' H ltac:(lia) H5) as (M & _). exists (RUp rc). split; [exact (mo_rcpts _ _ _ _ _ _ M)|]. left. split; [exact H4|discriminate].
  - right. exists (RStart (g_rcpt (gget s id))). split; [reflexivity|]. right. right. right. left. eauto.
  - right. exists (RDown (g_rcpt (gget s id))). split; [reflexivity|]. right. right. right. right. exists fi, nm, id. assert (Hi : In (nm, id) (w_queue (wget s fi))) by (rewrite H; left; reflexivity). split; [reflexivity|]. split; [exact Hi|]. intros nm'. apply unqueue_gone; auto.
  - right. exists (RDown (g_rcpt (gget s id))). split; [reflexivity|]. right. right. right. right. exists fi, nm, id. split; [reflexivity|]. split; [exact H|]. intros nm'. apply unqueue_gone; auto.
  - right. exists (RDown (g_rcpt (gget s id))). split; [reflexivity|]. right. right. right. right. exists fi, nm, id. split; [reflexivity|]. split; [exact H|]. intros nm' Hi.
    rewrite unqueue_queue, forget_queue, Nat.eqb_refl in Hi. apply drop_in in Hi. destruct Hi as (h1 & h2). cbn in h2. apply h2. eapply id_once; eauto. apply (fi_ndi _ _ (fu_fi _ HF fi)).
Qed.
Lemma prim_closed : forall A B s s' fi, prim A B s s' -> Full s -> (fi < length (s_flows s))%nat -> w_state (wget s fi) <> FS_OPEN -> (fi < length (s_flows s'))%nat /\ w_state (wget s' fi) <> FS_OPEN /\ w_tab (wget s' fi) = w_tab (wget s fi).
Proof.
  intros A B s s' fi P HF Hl Hst. destruct (prim_frame _ _ _ _ P) as [[(fj & rc & nm & fr & i1 & i2 & i3 & _ & i4)|(opts & Hu & ->)]|F].
  - pose proof (fi_next _ _ (fu_fi _ HF fj)) as (Hn & _). destruct (add_one s fj rc nm fr s' i1 ltac:(lia) i4) as (M & _). rewrite (mo_flows _ _ _ _ _ _ M), (mo_other _ _ _ _ _ _ M fi) by congruence. auto.
  - rewrite wget_open. destruct (Nat.eqb_spec fi (length (s_flows s))); [lia|]. cbn. rewrite app_length. cbn. split; [lia|auto].
  - destruct (fm_flow _ _ F fi) as (_ & e1 & _ & _ & e2 & _). rewrite (fm_flows _ _ F). split; [exact Hl|]. split; [intros E; apply Hst, e2, E|exact e1].
Qed.
Lemma prims_closed : forall A B s s' fi, prims A B s s' -> Full s -> (fi < length (s_flows s))%nat -> w_state (wget s fi) <> FS_OPEN -> (fi < length (s_flows s'))%nat /\ w_state (wget s' fi) <> FS_OPEN /\ w_tab (wget s' fi) = w_tab (wget s fi).
Proof.
  induction 1; intros HF Hl Hst; auto. destruct (prim_closed _ _ _ _ fi H HF Hl Hst) as (h1 & h2 & h3). rewrite <- h3. apply IHprims; auto. eapply prim_full; eauto.
Qed.
Lemma prim_queue : forall A B s s' fi e, prim A B s s' -> Full s -> w_state (wget s fi) <> FS_OPEN -> In e (w_queue (wget s' fi)) -> In e (w_queue (wget s fi)).
Proof.
  intros A B s s' fi e P HF Hst He. destruct (prim_frame _ _ _ _ P) as [[(fj & rc & nm & fr & i1 & i2 & i3 & _ & i4)|(opts & Hu & ->)]|F].
  - pose proof (fi_next _ _ (fu_fi _ HF fj)) as (Hn & _). destruct (add_one s fj rc nm fr s' i1 ltac:(lia) i4) as (M & _). rewrite (mo_other _ _ _ _ _ _ M fi) in He by congruence. exact He.
  - rewrite wget_open in He. destruct (Nat.eqb_spec fi (length (s_flows s))); [destruct He|exact He].
  - destruct (fm_flow _ _ F fi) as (_ & _ & _ & (p & E) & _). rewrite E in He. apply filter_In in He. apply He.
Qed.
Record cls (s : sess) (fi id rc : nat) (t : Z) : Prop := {
  cl_id : (id < length (s_heap s))%nat;
  cl_owner : g_owner (gget s id) = fi;
  cl_seq : g_seq (gget s id) = zlen (w_tab (wget s fi));
  cl_state : w_state (wget s fi) <> FS_OPEN;
  cl_rcpt : g_rcpt (gget s id) = rc;
  cl_only : forall j, (j < length (s_heap s))%nat -> g_rcpt (gget s j) = rc -> j = id;
  cl_rc : (rc < length (rs_all (s_rcpts s)))%nat;
  cl_finish : c_finish (rget (s_rcpts s) rc) = Some t /\ t < s_now s;
  cl_use : forall nm, In (nm, id) (w_queue (wget s fi)) -> c_use (rget (s_rcpts s) rc) = 1;
  cl_wire : forall x, In x (s_wire s) -> x_frag x = id -> Z.land (fr_flags (x_frame x)) 2 <> 0 }.
Lemma abn_bit : forall fra fin, In fra [0; 16; 32; 48] -> Z.land (fra + flag true 2 + flag fin 1) 2 <> 0.
Proof. intros fra fin H. cbn [In] in H. destruct fin; intuition (subst; cbn; discriminate). Qed.
Lemma prim_rop_keeps : forall A (B : rop -> Prop) s s' rc, prim A B s s' -> Full s -> (rc < length (rs_all (s_rcpts s)))%nat -> (forall t, ~ B (RSetFinish rc t)) -> c_finish (rget (s_rcpts s') rc) = c_finish (rget (s_rcpts s) rc).
Proof.
  intros A B s s' rc P HF Hl HB. destruct (prim_rcpts _ _ _ _ P HF) as [->|(o & -> & Ht)]; [reflexivity|]. destruct (rstep_keeps (s_rcpts s) o rc Hl) as ([h|(t & ->)] & _); [exact h|]. exfalso.
  destruct Ht as [(h & _)|[(? & ? & h)|[(? & h & _)|[(? & h)|(? & ? & ? & h & _)]]]]; try discriminate. exact (HB t h).
Qed.
Lemma prim_now : forall A B s s', prim A B s s' -> s_now s <= s_now s'.
Proof.
  intros A B s s' P. destruct (prim_frame _ _ _ _ P) as [[(fj & rc & nm & fr & i1 & i2 & i3 & _ & i4)|(opts & Hu & ->)]|F]; [|apply Z.le_refl|apply (fm_now _ _ F)].
  unfold add_frag in i4. cbv zeta in i4. destruct (_ && _); [|discriminate]. apply Ok_inj in i4. rewrite <- i4. apply Z.le_refl.
Qed.
Lemma prim_rlen : forall A B s s', prim A B s s' -> Full s -> (length (rs_all (s_rcpts s)) <= length (rs_all (s_rcpts s')))%nat.
Proof. intros A B s s' P HF. destruct (prim_rcpts _ _ _ _ P HF) as [->|(o & -> & _)]; [lia|apply rstep_len]. Qed.
Lemma prims_rlen : forall A B s s', prims A B s s' -> Full s -> (length (rs_all (s_rcpts s)) <= length (rs_all (s_rcpts s')))%nat.
Proof. induction 1; intros; [lia|]. pose proof (prim_rlen _ _ _ _ H H1). pose proof (IHprims (prim_full _ _ _ _ H H1)). lia. Qed.

Lemma prim_cls : forall A (B : rop -> Prop) s s' fi id rc t, prim A B s s' -> Full s -> TI s -> ~ B (RUp rc) -> (forall t, ~ B (RSetFinish rc t)) -> cls s fi id rc t -> cls s' fi id rc t.
Proof.
  intros A B s s' fi id rc t P HF T HU HB [c1 c2 c3 c4 c5 c6 c7 c8 c9 c10].
  assert (Hfl : (fi < length (s_flows s))%nat) by (rewrite <- c2; apply (ti_frag _ T id c1)).
  destruct (prim_core _ _ _ _ id P HF c1) as (d1 & d2). apply core_eq in d2. destruct d2 as (e1 & e2 & e3 & e4 & e5).
  destruct (prim_closed _ _ _ _ fi P HF Hfl c4) as (f1 & f2 & f3).
  constructor; rewrite ?e1, ?e2, ?e5; auto.
  - rewrite f3. exact c3.
  - intros j Hj Ej. destruct (Nat.lt_ge_cases j (length (s_heap s))) as [Hj'|Hj'].
    + destruct (prim_core _ _ _ _ j P HF Hj') as (_ & d3). apply core_eq in d3. apply c6; auto. destruct d3 as (_ & _ & _ & _ & d3). congruence.
    + exfalso. destruct (prim_frame _ _ _ _ P) as [[(fj & rc' & nm & fr & i1 & i2 & i3 & i5 & i4)|(opts & Hu & ->)]|F].
      * pose proof (fi_next _ _ (fu_fi _ HF fj)) as (Hn & _). destruct (add_one s fj rc' nm fr s' i1 ltac:(lia) i4) as (M & _). pose proof (mo_len _ _ _ _ _ _ M).
        assert (j = length (s_heap s)) as -> by lia. rewrite (mo_new _ _ _ _ _ _ M) in Ej. cbn in Ej. subst rc'. exact (HU i5).
      * cbn in Hj. lia.
      * rewrite (fm_heap _ _ F) in Hj. lia.
  - pose proof (prim_rlen _ _ _ _ P HF). lia.
  - rewrite (prim_rop_keeps _ _ _ _ rc P HF c7 HB). pose proof (prim_now _ _ _ _ P). split; [apply c8|]. destruct c8. lia.
  - intros nm Hq. pose proof (prim_queue _ _ _ _ fi (nm, id) P HF c4 Hq) as Hq0. specialize (c9 nm Hq0). destruct (prim_rcpts _ _ _ _ P HF) as [->|(o & -> & Ht)]; [exact c9|].
    destruct (rstep_keeps (s_rcpts s) o rc c7) as (_ & _ & _ & _ & [h|[h|h]]); [congruence| |]; subst o; exfalso.
    + destruct Ht as [(h & _)|[(? & ? & h)|[(? & h & _)|[(? & h)|(? & ? & ? & h & _)]]]]; try discriminate. exact (HU h).
    + destruct Ht as [(_ & h)|[(? & ? & h)|[(? & h & _)|[(? & h)|(fj & n & j & h & h1 & h2)]]]]; try discriminate; [exact (h rc eq_refl)|]. injection h as h.
      destruct (queue_frag _ _ _ _ HF h1) as (h3 & h4). assert (j = id) by (apply c6; auto). subst j. apply (h2 nm). replace fj with fi by congruence. exact Hq.
  - intros x Hx Ex. destruct (prim_wire _ _ _ _ P) as [E|(fj & pre & nm & j & suf & o & fsn & fr & abn & size & h1 & h2 & h3 & h4 & h5 & h6 & h7 & E)].
    + rewrite E in Hx. auto.
    + rewrite E, mark_wire in Hx. apply in_app_iff in Hx. destruct Hx as [Hx|[<-|[]]]; [auto|]. cbn [x_frag x_frame] in *. subst j. rewrite h7. cbn [fr_flags].
      assert (Hq : In (nm, id) (w_queue (wget s fj))) by (rewrite h3; apply in_or_app; right; left; reflexivity). destruct (queue_frag _ _ _ _ HF Hq) as (i1 & i2). assert (Efj : fj = fi) by congruence. rewrite Efj in Hq.
      assert (abn = true) as ->. { rewrite h5, c5. cbv zeta in h6. rewrite c5 in h6. destruct c8 as (c8 & c8'). apply h6; [rewrite c8; cbn; lia|rewrite (c9 nm Hq); discriminate]. }
      apply abn_bit. apply (fu_frag _ HF id c1).
Qed.
Lemma prims_cls : forall A (B : rop -> Prop) s s' fi id rc t, prims A B s s' -> Full s -> TI s -> ~ B (RUp rc) -> (forall t, ~ B (RSetFinish rc t)) -> cls s fi id rc t -> cls s' fi id rc t.
Proof. induction 1; intros; auto. apply IHprims; auto; [eapply prim_full; eauto|eapply prim_ti; eauto|eapply prim_cls; eauto]. Qed.
