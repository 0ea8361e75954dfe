(** Sending flow: what is needed for the flow to get on. *)
From Coq Require Import Sorted.
From Verif Require Import Base BaseFacts VLU VLUSpec VLUProofs Packet PacketSpec PacketProofs UserData UserDataSpec UserDataProofs Ack AckSpec AckProofs RecvFlowSpec WriteReceipt WriteReceiptSpec WriteReceiptProofs SendFlow SendFlowSpec SendFlowProofs SendFlowInv SendFlowSteps SendFlowRun SendFlowTrack.
Ltac Zify.zify_post_hook ::= Z.div_mod_to_equations.
Open Scope res_scope.

(** ** Every fragment fits an empty packet *)
Definition LT (s : sess) : Prop := forall fi fr, In fr (w_tab (wget s fi)) -> zlen (snd fr) + zlen (w_opts (wget s fi)) <= 1161.
Lemma prim_lt : forall A B s s', prim A B s s' -> Full s -> LT s -> LT s'.
Proof.
  intros A B s s' P HF H fj. set (tri := fun w => (w_tab w, w_opts w)).
  assert (Same : tri (wget s' fj) = tri (wget s fj) -> forall fr, In fr (w_tab (wget s' fj)) -> zlen (snd fr) + zlen (w_opts (wget s' fj)) <= 1161).
  { unfold tri. intros E. injection E as e1 e2. rewrite e1, e2. apply H. }
  assert (U : forall s0 fi nm id, tri (wget (unqueue s0 fi nm id) fj) = tri (wget s0 fj)).
  { intros. unfold unqueue. cbn zeta. change (wget (set_rcpts ?x ?y) fj) with (wget x fj). rewrite wget_wset. destruct (Nat.eqb_spec fi fj) as [->|]; [|reflexivity]. destruct (Nat.ltb _ _); reflexivity. }
  destruct P; try (apply Same; reflexivity).
  - pose proof (fi_next _ _ (fu_fi _ HF fi)) as (Hn & _). destruct (add_one s fi rc nm fr s' H0 ltac:(lia) H6) as (M & _). destruct (Nat.eq_dec fi fj) as [->|N].
    + destruct (mo_flow _ _ _ _ _ _ M) as (_ & _ & e & _). rewrite (mo_tab _ _ _ _ _ _ M), e. intros f Hf. apply in_app_or in Hf. destruct Hf as [Hf|[<- |[]]]; [apply H, Hf|exact H7].
    + apply Same. rewrite (mo_other _ _ _ _ _ _ M fj) by congruence. reflexivity.
  - apply Same. rewrite wget_wset. destruct (Nat.eqb_spec fi fj) as [->|]; [|reflexivity]. destruct (Nat.ltb _ _); reflexivity.
  - apply Same. destruct (mark_sent_flow s fi nm id o fsn fr abn size fj) as (n & l & ->). reflexivity.
  - apply Same, U.
  - apply Same, U.
  - apply Same. rewrite U. unfold forget. cbn zeta. rewrite wget_wset. destruct (Nat.eqb_spec fi fj) as [->|]; [|reflexivity]. destruct (Nat.ltb _ _); reflexivity.
  - apply Same. unfold lose_one. cbn zeta. change (wget (set_out ?x ?y ?z) fj) with (wget x fj). destruct (lose_flow s id nak fj) as (n & l & ->). reflexivity.
  - rewrite wget_wset in Same |- *. destruct (Nat.eqb_spec fi fj) as [->|]; [|apply Same; reflexivity]. destruct (Nat.ltb_spec fj (length (s_flows s))); [|apply Same; reflexivity]. cbn [andb] in *.
    intros fr Hf. rewrite (fu_tab _ _ _ H0) in Hf. specialize (H fj fr Hf). destruct (fu_opts _ _ _ H0) as [-> | ->]; [exact H|]. pose proof (zlen_nonneg _ (w_opts (wget s fj))). change (zlen (@nil Z)) with 0. lia.
  - apply Same. rewrite wget_wset. destruct (Nat.eqb_spec fi fj) as [->|]; [|reflexivity]. destruct (Nat.ltb _ _); reflexivity.
  - rewrite wget_open in *. destruct (Nat.eqb_spec fj (length (s_flows s))); [intros fr []|]. apply Same. reflexivity.
Qed.
Lemma prims_lt : forall A B s s', prims A B s s' -> Full s -> LT s -> LT s'.
Proof. induction 1; intros; auto. apply IHprims; [eapply prim_full; eauto|eapply prim_lt; eauto]. Qed.
Lemma lt_init : LT ss_init.
Proof. intros [|fi] fr []. Qed.

(** ** Flow ids and windows change only when a flow is bound or acknowledged *)
Record calmw (kp rx : Prop) (w w' : sflow) : Prop := {
  cw_bound : w_bound w' = true -> w_bound w = true /\ w_id w' = w_id w;
  cw_open : w_state w' = FS_OPEN -> w_state w = FS_OPEN /\ w_bound w' = w_bound w;
  cw_rx : rx -> w_rxbuf w' = w_rxbuf w;
  cw_keep : kp -> w_bound w' = w_bound w /\ w_next w' = w_next w }.
Lemma calmw_refl : forall kp rx w, calmw kp rx w w.
Proof. constructor; auto. Qed.
Lemma calmw_trans : forall kp rx w1 w2 w3, calmw kp rx w1 w2 -> calmw kp rx w2 w3 -> calmw kp rx w1 w3.
Proof.
  intros kp rx w1 w2 w3 [a1 a2 a3 a4] [b1 b2 b3 b4]. constructor.
  - intros h. destruct (b1 h) as (c1 & c2). destruct (a1 c1) as (d1 & d2). split; congruence.
  - intros h. destruct (b2 h) as (c1 & c2). destruct (a2 c1) as (d1 & d2). split; congruence.
  - intros h. rewrite b3, a3; auto.
  - intros h. destruct (a4 h), (b4 h). split; congruence.
Qed.
Definition calm (kp : Prop) (E : nat -> Prop) (s s' : sess) : Prop := length (s_flows s') = length (s_flows s) /\ forall fj, calmw kp (~ E fj) (wget s fj) (wget s' fj).
Lemma calm_refl : forall kp E s, calm kp E s s.
Proof. intros. split; [reflexivity|]. intros. apply calmw_refl. Qed.
Lemma calm_trans : forall kp E s1 s2 s3, calm kp E s1 s2 -> calm kp E s2 s3 -> calm kp E s1 s3.
Proof. intros kp E s1 s2 s3 (a1 & a2) (b1 & b2). split; [congruence|]. intros fj. eapply calmw_trans; eauto. Qed.
Lemma calm_flows : forall kp E s s', s_flows s' = s_flows s -> calm kp E s s'.
Proof. intros kp E s s' e. split; [rewrite e; reflexivity|]. intros fj. unfold wget. rewrite e. apply calmw_refl. Qed.
Lemma calm_wset : forall kp (E : nat -> Prop) s fi w', calmw kp (~ E fi) (wget s fi) w' -> calm kp E s (wset s fi w').
Proof.
  intros kp E s fi w' H. split; [apply flows_wset|]. intros fj. rewrite wget_wset. destruct (Nat.eqb_spec fi fj) as [->|]; [|apply calmw_refl]. destruct (Nat.ltb _ _); [exact H|apply calmw_refl].
Qed.
Ltac calm_same := constructor; cbn; auto; try tauto.

Lemma calm_add_frag : forall E s fi rc nm fr s', add_frag s fi rc nm fr = Ok s' -> calm False E s s'.
Proof.
  intros E s fi rc nm fr s' H. unfold add_frag in H. cbn zeta in H. destruct (_ && _); [|discriminate]. apply Ok_inj in H. subst s'.
  apply (calm_wset False E (set_heap s _)). calm_same.
Qed.
Lemma calm_add_frags : forall E frs names s fi rc s', add_frags s fi rc names frs = Ok s' -> calm False E s s'.
Proof.
  intros E. induction frs as [|fr frs IH]; intros names s fi rc s' H; cbn [add_frags] in H; [apply Ok_inj in H; subst; apply calm_refl|]. destruct names as [|nm names]; [discriminate|].
  destruct (add_frag s fi rc nm fr) as [s1| |] eqn:E1; cbn [rbind] in H; try discriminate. eapply calm_trans; [eapply calm_add_frag; exact E1|eapply IH; exact H].
Qed.
Lemma calm_basic : forall E s fi msg sw fw names s', basic_write s fi msg sw fw names = Ok s' -> calm False E s s'.
Proof.
  intros E s fi msg sw fw names s' H. unfold basic_write in H. cbn zeta in H. destruct (fragment _ _) as [frs| |]; cbn [rbind] in H; try discriminate. eapply calm_trans; [|eapply calm_add_frags; exact H]. apply calm_flows. reflexivity.
Qed.
Lemma calm_write : forall E s fi msg sw fw names s', do_write s fi msg sw fw names = Ok s' -> calm False E s s'.
Proof.
  intros E s fi msg sw fw names s' H. unfold do_write in H. destruct (w_live _); [|apply Ok_inj in H; subst; apply calm_refl]. eapply calm_trans; [|eapply calm_basic; exact H]. apply calm_wset. calm_same.
Qed.
Lemma calm_goto : forall rx w, calmw False rx w (goto_closed w).
Proof. intros rx w. unfold goto_closed. destruct (w_state w) eqn:e; [| | |apply calmw_refl]; cbn zeta; constructor; cbn; auto; first [discriminate|tauto]. Qed.
Lemma calm_close : forall E s fi names s', do_close s fi names = Ok s' -> calm False E s s'.
Proof.
  intros E s fi names s' H. unfold do_close in H. cbn zeta in H. set (s1 := wset s fi (with_dead (wget s fi))) in *.
  assert (C1 : calm False E s s1) by (apply calm_wset; calm_same).
  eapply calm_trans; [exact C1|]. match type of H with rbind ?x _ = _ => destruct x as [s2| |] eqn:X; cbn [rbind] in H; try discriminate end.
  assert (C2 : calm False E s1 s2).
  { destruct (w_state (wget s1 fi)); try (apply Ok_inj in X; subst; apply calm_refl). destruct (_ && _).
    - match type of X with rbind ?x _ = _ => destruct x as [s3| |] eqn:X3; cbn [rbind] in X; try discriminate end.
      assert (C3 : calm False E s1 s3) by (destruct (match last_id _ with None => _ | Some _ => _ end); [eapply calm_basic; exact X3|apply Ok_inj in X3; subst; apply calm_refl]).
      match type of X with match ?x with _ => _ end = _ => destruct x; [|discriminate] end. apply Ok_inj in X. subst s2. eapply calm_trans; [exact C3|]. apply calm_wset. constructor; cbn; auto; first [discriminate|tauto].
    - apply Ok_inj in X. subst s2. apply calm_wset, calm_goto. }
  eapply calm_trans; [exact C2|]. apply Ok_inj in H. subst s'. clear X. destruct (w_bound (wget s2 fi) && negb (s_open s2)); [apply calm_wset, calm_goto|apply calm_refl].
Qed.
Lemma calm_unqueue : forall kp E s fi nm id, calm kp E s (unqueue s fi nm id).
Proof. intros. unfold unqueue. cbn zeta. eapply calm_trans; [|apply calm_flows; reflexivity]. apply calm_wset. calm_same. Qed.
Lemma calm_trim : forall kp E q s fi, calm kp E s (trim_loop s fi q).
Proof.
  intros kp E. induction q as [|[nm id] q IH]; intros s fi; cbn [trim_loop]; [apply calm_refl|]. destruct q as [|e q]; [apply calm_refl|]. destruct (g_fly _); [apply calm_refl|].
  destruct (c_aband _); [|apply calm_flows; reflexivity]. eapply calm_trans; [|apply IH]. eapply calm_trans; [|apply calm_unqueue]. apply calm_flows. reflexivity.
Qed.
Lemma calm_mark : forall kp E s fi nm id o fsn fr abn size, calm kp E s (mark_sent s fi nm id o fsn fr abn size).
Proof.
  intros. unfold mark_sent. cbn zeta. set (s2 := set_out _ _ _). eapply calm_trans; [apply (calm_flows kp E s s2); reflexivity|].
  eapply calm_trans; [|apply calm_flows; reflexivity]. apply calm_wset.
  change (wget s2 fi) with (wget s fi). calm_same.
Qed.
Lemma calm_send_loop : forall kp E todo s fi fsn first prev p onames s' p' f', send_loop s fi fsn first prev p onames todo = Ok (s', p', f') -> calm kp E s s'.
Proof.
  intros kp E. induction todo as [|[nm id] todo IH]; intros s fi fsn first prev p onames s' p' f' H; cbn [send_loop] in H; [apply Ok_inj in H; injection H as -> _ _; apply calm_refl|].
  destruct (_ >=? _); [apply Ok_inj in H; injection H as -> _ _; apply calm_refl|]. destruct (g_fly _); [eapply IH; exact H|]. cbn zeta in H.
  set (s1 := set_rcpts s _) in *. assert (C1 : calm kp E s s1) by (apply calm_flows; reflexivity).
  destruct (pa_try_chunk _ _ _) as [(p1, ok)| |]; cbn [rbind] in H; try discriminate. destruct ok.
  - destruct onames as [|o os]; [discriminate|]. destruct (usable _ _); [|discriminate]. eapply calm_trans; [exact C1|]. eapply calm_trans; [apply calm_mark|eapply IH; exact H].
  - assert (e : s' = s1) by congruence. subst s'. exact C1.
Qed.
Lemma calm_assemble : forall kp E s fi gone p onames s' p' b, assemble_data s fi gone p onames = Ok (s', p', b) -> calm kp E s s'.
Proof.
  intros kp E s fi gone p onames s' p' b H. unfold assemble_data in H. destruct (maybe_ready _); [|assert (e : s' = s) by congruence; subst; apply calm_refl]. cbn zeta in H.
  destruct (w_queue _) as [|[nm id] q]; [discriminate|]. destruct (find_fsn (do_trim s fi) id) as (s2, fsn) eqn:Ef.
  assert (C2 : calm kp E (do_trim s fi) s2) by (unfold find_fsn in Ef; cbn zeta in Ef; injection Ef as <- _; destruct (g_fly _); [apply calm_refl|apply calm_flows; reflexivity]).
  eapply calm_trans; [apply calm_trim|]. fold (do_trim s fi). eapply calm_trans; [exact C2|]. destruct (send_loop _ _ _ _ _ _ _ _) as [((s4, p4), f4)| |] eqn:El; cbn [rbind] in H; try discriminate. assert (e : s' = s4) by congruence. subst s'.
  eapply calm_trans; [|eapply calm_send_loop; exact El]. destruct gone; [apply calm_wset; calm_same|apply calm_refl].
Qed.
Lemma calm_packet : forall kp E s fi gone buf margin flags ts tse onames s' pk, send_packet s fi gone buf margin flags ts tse onames = Ok (s', pk) -> calm kp E s s'.
Proof.
  intros kp E s fi gone buf margin flags ts tse onames s' pk H. unfold send_packet in H. destruct (_ && _); [|discriminate]. destruct (pa_init_header _ _ _ _ _); cbn [rbind] in H; try discriminate.
  destruct (assemble_data _ _ _ _ _) as [((s1, p1), sent)| |] eqn:Ea; cbn [rbind] in H; try discriminate. apply calm_assemble with (kp := kp) (E := E) in Ea. destruct sent; [|assert (e : s' = s1) by congruence; subst; exact Ea].
  assert (e : s' = set_tsn s1 (wrap64 (s_tsn s1 + 1))) by congruence. subst s'. eapply calm_trans; [exact Ea|apply calm_flows; reflexivity].
Qed.
Lemma calm_ack_range : forall kp E todo s fi from to s' rem, ack_range s fi from to todo = Ok (s', rem) -> calm kp E s s'.
Proof.
  intros kp E. induction todo as [|[nm id] todo IH]; intros s fi from to s' rem H; cbn [ack_range] in H; [apply Ok_inj in H; injection H as -> _; apply calm_refl|].
  destruct (_ <? _); [eapply IH; exact H|]. destruct (_ >? _); [assert (e : s' = s) by congruence; subst; apply calm_refl|].
  match type of H with rbind ?x _ = _ => destruct x as [s1| |] eqn:X; cbn [rbind] in H; try discriminate end.
  assert (C1 : calm kp E s s1).
  { destruct (g_fly _); [|apply Ok_inj in X; subst; apply calm_refl]. destruct (has_name _ _); [|discriminate]. cbn zeta in X. apply Ok_inj in X. subst s1.
    set (s2 := set_out _ _ _). eapply calm_trans; [apply (calm_flows kp E s s2); reflexivity|]. apply calm_wset. change (wget s2 fi) with (wget s fi). calm_same. }
  eapply calm_trans; [exact C1|]. eapply calm_trans; [apply calm_unqueue|eapply IH; exact H].
Qed.
Lemma calm_ack_all : forall kp E ranges s fi todo s', ack_all s fi todo ranges = Ok s' -> calm kp E s s'.
Proof.
  intros kp E. induction ranges as [|[a b] ranges IH]; intros s fi todo s' H; cbn [ack_all] in H; [apply Ok_inj in H; subst; apply calm_refl|].
  destruct (ack_range _ _ _ _ _) as [(s1, rem)| |] eqn:X; cbn [rbind] in H; try discriminate. eapply calm_trans; [eapply calm_ack_range; exact X|eapply IH; exact H].
Qed.
Lemma calm_on_ack : forall kp (E : nat -> Prop) s fi k s', E fi -> on_ack s fi k = Ok s' -> calm kp E s s'.
Proof.
  intros kp E s fi k s' He H. unfold on_ack in H.
  assert (G : forall st, (rbind (ack_all (wset s fi (with_rxbuf (with_opts (wget s fi) []) (k_bytes k))) fi (w_queue (wget (wset s fi (with_rxbuf (with_opts (wget s fi) []) (k_bytes k))) fi)) ((0, k_cum k) :: k_ranges k))
      (fun s2 => Ok (match st, w_queue (wget s2 fi) with FS_CLOSING, [] => wset s2 fi (with_state (wget s2 fi) FS_LINGER) | _, _ => s2 end))) = Ok s' -> calm kp E s s').
  { intros st X. set (s1 := wset s fi _) in *. assert (C1 : calm kp E s s1) by (apply calm_wset; constructor; cbn; auto; tauto).
    destruct (ack_all _ _ _ _) as [s2| |] eqn:Ea; cbn [rbind] in X; try discriminate. apply calm_ack_all with (kp := kp) (E := E) in Ea. apply Ok_inj in X. subst s'. eapply calm_trans; [exact C1|]. eapply calm_trans; [exact Ea|].
    destruct st; try apply calm_refl. destruct (w_queue _); [|apply calm_refl]. apply calm_wset. constructor; cbn; auto; first [discriminate|tauto]. }
  destruct (w_state (wget s fi)) eqn:e; try (apply Ok_inj in H; subst; apply calm_refl).
  - exact (G FS_OPEN H).
  - exact (G FS_CLOSING H).
Qed.
Lemma calm_lose : forall kp E s id nak, calm kp E s (lose s id nak).
Proof. intros. unfold lose. cbn zeta. set (s2 := gset _ _ _). eapply calm_trans; [apply (calm_flows kp E s s2); reflexivity|]. apply calm_wset. change (wget s2 ?x) with (wget s x). calm_same. Qed.
Lemma calm_naks : forall kp E todo s, calm kp E s (nak_scan s todo).
Proof.
  intros kp E. induction todo as [|[nm id] todo IH]; intros s; cbn [nak_scan]; [apply calm_refl|]. destruct (_ >? _); [apply calm_refl|]. cbn zeta. destruct (_ >=? _); (eapply calm_trans; [|apply IH]); [|apply calm_flows; reflexivity].
  eapply calm_trans; [apply calm_lose|apply calm_flows; reflexivity].
Qed.
Lemma calm_lose_all : forall kp E (l : list (Z * nat)) s, calm kp E s (fold_left (fun s e => lose s (snd e) (g_nak (gget s (snd e)))) l s).
Proof. intros kp E. induction l as [|e l IH]; intros s; cbn [fold_left]; [apply calm_refl|]. eapply calm_trans; [apply calm_lose|apply IH]. Qed.
Lemma calm_exception : forall E s fi names s', on_exception s fi names = Ok s' -> calm False E s s'.
Proof.
  intros E s fi names s' H. unfold on_exception in H. destruct (do_close _ _ _) as [s1| |] eqn:X; cbn [rbind] in H; try discriminate. apply Ok_inj in H. subst s'.
  eapply calm_trans; [apply (calm_wset False E s fi (with_exc (wget s fi))); calm_same|]. eapply calm_trans; [apply (calm_close E _ _ _ _ X)|]. apply calm_flows. reflexivity.
Qed.

(** What an operation may do to the ids and windows. *)
Definition gets_ack (s : sess) (o : sop) (fi : nat) : Prop :=
  match o with SAck chunk => exists k, ack_parse chunk = Ok k /\ find_flow (k_flow k) (s_flows s) 0 = Some fi | _ => False end.
Lemma calm_step : forall s o s', sstep s o = Ok s' -> match o with SOpen _ _ | SBind _ _ | SSessionClose => False | _ => True end -> calm False (gets_ack s o) s s'.
Proof.
  intros s o s' H Hn. destruct o; try (exfalso; exact Hn); cbn [sstep] in H.
  - destruct (bytes_okb _); [|discriminate]. eapply calm_write; exact H.
  - destruct (Nat.ltb _ _); [|discriminate]. eapply calm_close; exact H.
  - apply Ok_inj in H. subst s'. apply calm_trim.
  - unfold do_send in H. destruct (send_packet _ _ _ _ _ _ _ _ _) as [(s1, pk)| |] eqn:X; cbn [rbind] in H; try discriminate. apply Ok_inj in H. subst s'. eapply calm_packet; exact X.
  - destruct (bytes_okb _); [|discriminate]. unfold do_ack in H. destruct (ack_parse chunk) as [k| |] eqn:X; try discriminate; [|apply Ok_inj in H; subst; apply calm_refl].
    destruct (find_flow _ _ _) as [fi|] eqn:Y; [|apply Ok_inj in H; subst; apply calm_refl]. apply (calm_on_ack False _ s fi k); [exists k; auto|exact H].
  - unfold do_naks in H. destruct (s_open s); [|discriminate]. apply Ok_inj in H. subst s'. apply calm_naks.
  - unfold do_timeout in H. destruct (s_open s); [|discriminate]. apply Ok_inj in H. subst s'. eapply calm_trans; [apply calm_lose_all|apply calm_flows; reflexivity].
  - unfold do_exception in H. destruct (find_flow _ _ _); [|apply Ok_inj in H; subst; apply calm_refl]. eapply calm_exception; exact H.
  - destruct (Nat.ltb _ _); [|discriminate]. unfold do_open_failed in H. destruct (w_bound _); [discriminate|]. unfold on_session_close in H. destruct (on_exception _ _ _) as [s1| |] eqn:X; cbn [rbind] in H; try discriminate. apply Ok_inj in H. subst s'.
    eapply calm_trans; [eapply calm_exception; exact X|]. apply calm_wset. calm_same.
  - destruct (w_state _); try discriminate. apply Ok_inj in H. subst s'. apply calm_wset, calm_goto.
  - destruct (app_rop _); [|discriminate]. apply Ok_inj in H. subst s'. apply calm_flows. reflexivity.
  - destruct (_ <=? _); [|discriminate]. apply Ok_inj in H. subst s'. apply calm_flows. reflexivity.
Qed.

(** No two flows have the same id. *)
Definition IDS (s : sess) : Prop := forall fi fj, w_bound (wget s fi) = true -> w_bound (wget s fj) = true -> w_id (wget s fi) = w_id (wget s fj) -> fi = fj.
Lemma ids_calm : forall kp E s s', calm kp E s s' -> IDS s -> IDS s'.
Proof. intros kp E s s' (_ & C) H fi fj h1 h2 h3. destruct (cw_bound _ _ _ _ (C fi) h1) as (a1 & a2). destruct (cw_bound _ _ _ _ (C fj) h2) as (b1 & b2). apply H; congruence. Qed.
Lemma bind_facts : forall s fi id s', sstep s (SBind fi id) = Ok s' -> w_state (wget s fi) = FS_OPEN /\ w_bound (wget s fi) = false /\ (fi < length (s_flows s))%nat /\ s' = wset s fi (with_bound (wget s fi) id)
  /\ forall fj, w_bound (wget s fj) = true -> w_id (wget s fj) <> id.
Proof.
  intros s fi id s' H. cbn [sstep] in H. unfold do_bind in H. cbn zeta in H. destruct (w_state (wget s fi)) eqn:e; try discriminate. match type of H with (if ?b then _ else _) = _ => destruct b eqn:eb; [|discriminate] end.
  apply Ok_inj in H. subst s'. repeat rewrite Bool.andb_true_iff in eb. destruct eb as ((((b1 & b2) & b3) & b4) & b5). apply Bool.negb_true_iff in b1, b5. split; [reflexivity|]. split; [exact b1|].
  split. { destruct (Nat.lt_ge_cases fi (length (s_flows s))); [assumption|]. rewrite wget_out in e by assumption. discriminate. }
  split; [reflexivity|]. intros fj hb he. assert (X : existsb (fun w' => w_bound w' && (w_id w' =? id)) (s_flows s) = true); [|congruence].
  apply existsb_exists. exists (wget s fj). split; [|rewrite hb, he, Z.eqb_refl; reflexivity]. unfold wget. apply nth_In. destruct (Nat.lt_ge_cases fj (length (s_flows s))); [assumption|]. rewrite wget_out in hb by assumption. discriminate.
Qed.
Lemma ids_step : forall s o s', sstep s o = Ok s' -> o <> SSessionClose -> IDS s -> IDS s'.
Proof.
  intros s o s' H Hn HI. assert (D : (exists md a, o = SOpen md a) \/ (exists fi id, o = SBind fi id) \/ match o with SOpen _ _ | SBind _ _ | SSessionClose => False | _ => True end) by (destruct o; eauto; congruence).
  destruct D as [(md & a & ->)|[(fi & id & ->)|D]]; [| |eapply ids_calm; [apply calm_step; [exact H|exact D]|exact HI]].
  - cbn [sstep] in H. destruct (_ && _); [|discriminate]. apply Ok_inj in H. subst s'. intros i j. rewrite !wget_open. destruct (Nat.eqb_spec i (length (s_flows s))); [intros h; discriminate h|]. destruct (Nat.eqb_spec j (length (s_flows s))); [intros _ h; discriminate h|]. apply HI.
  - apply bind_facts in H. destruct H as (a1 & a2 & a3 & -> & a5). intros i j. rewrite !wget_wset. destruct (Nat.ltb_spec fi (length (s_flows s))); [|lia]. rewrite !Bool.andb_true_r. destruct (Nat.eqb_spec fi i); destruct (Nat.eqb_spec fi j); subst; cbn; auto.
    + intros _ h1 h2. exfalso. eapply a5; eauto.
    + intros h1 _ h2. exfalso. eapply a5; eauto.
Qed.
Lemma ids_init : IDS ss_init.
Proof. intros [|i] [|j] h; discriminate h. Qed.
Lemma find_flow_id : forall s fi, IDS s -> w_bound (wget s fi) = true -> find_flow (w_id (wget s fi)) (s_flows s) 0 = Some fi.
Proof.
  intros s fi HI Hb. assert (Hl : (fi < length (s_flows s))%nat) by (apply flow_there; auto).
  assert (G : forall fs n, (forall j, (j < length fs)%nat -> w_bound (nth j fs w_none) = true -> w_id (nth j fs w_none) = w_id (wget s fi) -> (n + j = fi)%nat) -> (n <= fi < n + length fs)%nat ->
    nth (fi - n) fs w_none = wget s fi -> find_flow (w_id (wget s fi)) fs n = Some fi).
  { induction fs as [|w fs IH]; intros n Hj Hr Hn; [cbn in Hr; lia|]. cbn [find_flow]. destruct (w_bound w && (w_id w =? w_id (wget s fi))) eqn:eb.
    - apply Bool.andb_true_iff in eb. destruct eb as (b1 & b2). apply Z.eqb_eq in b2. f_equal. specialize (Hj 0%nat). cbn in Hj. specialize (Hj ltac:(lia) b1 b2). lia.
    - destruct (Nat.eq_dec fi n) as [e|e].
      + subst n. rewrite Nat.sub_diag in Hn. cbn in Hn. subst w. rewrite Hb, Z.eqb_refl in eb. discriminate.
      + apply IH; [|cbn in Hr; lia|].
        * intros j h1 h2 h3. specialize (Hj (S j)). cbn in Hj. specialize (Hj ltac:(lia) h2 h3). lia.
        * replace (fi - n)%nat with (S (fi - S n)) in Hn by lia. exact Hn. }
  apply G; [|lia|rewrite Nat.sub_0_r; reflexivity]. intros j h1 h2 h3. apply HI; auto.
Qed.

(** ** After a timeout nothing is in flight *)
Lemma lose_all_queue : forall (l : list (Z * nat)) s fj, w_queue (wget (fold_left (fun s e => lose s (snd e) (g_nak (gget s (snd e)))) l s) fj) = w_queue (wget s fj).
Proof. induction l as [|e l IH]; intros s fj; cbn [fold_left]; [reflexivity|]. rewrite IH. destruct (lose_flow s (snd e) (g_nak (gget s (snd e))) fj) as (n & m & ->). reflexivity. Qed.
Lemma timeout_goes : forall s, s_open s = true -> exists s', sstep s STimeout = Ok s' /\ s_outl s' = [] /\ (forall fj, w_queue (wget s' fj) = w_queue (wget s fj)) /\ calm True (fun _ => False) s s'.
Proof.
  intros s Ho. cbn [sstep]. unfold do_timeout. rewrite Ho. eexists. split; [reflexivity|]. split; [reflexivity|]. split; [intros fj; apply lose_all_queue|].
  eapply calm_trans; [apply calm_lose_all|apply calm_flows; reflexivity].
Qed.
Lemma nothing_out : forall s fi, Full s -> s_outl s = [] -> w_out (wget s fi) = 0 /\ forall nm id, In (nm, id) (w_queue (wget s fi)) -> g_fly (gget s id) = false.
Proof.
  intros s fi HF Ho. pose proof (fu_fi _ HF fi) as F. assert (N : forall nm id, In (nm, id) (w_queue (wget s fi)) -> g_fly (gget s id) = false).
  { intros nm id H. destruct (fi_ids _ _ F nm id H) as (_ & _ & _ & h). destruct (g_fly (gget s id)); [|reflexivity]. destruct (h eq_refl) as (h1 & _). rewrite Ho in h1. destruct h1. }
  split; [|exact N]. rewrite (fi_out _ _ F). assert (Z : sumof (flyval s) (w_queue (wget s fi)) = 0); [|rewrite Z; reflexivity]. induction (w_queue (wget s fi)) as [|(nm, id) q IH]; [reflexivity|]. cbn [sumof]. rewrite IH by (intros; eapply N; right; eauto).
  unfold flyval. cbn [snd]. rewrite (N nm id) by (left; reflexivity). reflexivity.
Qed.

(** ** A packet can be sent *)
Definition plain_frag (g : sfrag) : Prop := In (g_fra g) [0; 16; 32; 48] /\ bytes_ok (g_data g) /\ is_u64 (g_seq g).
Lemma send_loop_goes : forall todo s fi fsn first prev p onames done fg, is_u64 (w_id (wget s fi)) -> bytes_ok (w_opts (wget s fi)) -> is_u64 fsn ->
  Forall (fun e => plain_frag (gget s (snd e))) todo -> R p (mkA 1200 done None fg) -> NoDup onames -> Forall (fun o => 0 < o /\ ~ In o (map fst (s_outl s))) onames -> (length todo <= length onames)%nat ->
  exists s' p' f', send_loop s fi fsn first prev p onames todo = Ok (s', p', f') /\ exists ws, s_wire s' = s_wire s ++ ws.
Proof.
  induction todo as [|[nm id] todo IH]; intros s fi fsn first prev p onames done fg Hi Hop Hf Hall HR Hnd Hn Hl; cbn [send_loop]; [repeat eexists; symmetry; apply app_nil_r|].
  inversion Hall as [|? ? Hp Hall']. subst. cbn [snd] in Hp. cbn [length] in Hl.
  destruct (_ >=? _); [repeat eexists; symmetry; apply app_nil_r|]. destruct (g_fly (gget s id)); [apply (IH _ _ _ _ _ _ _ done fg); auto; lia|]. cbn zeta. set (s1 := set_rcpts s _). set (fr := mkFrame _ _ _).
  assert (Hps : Forall is_piece (snd (ud_chunk (w_id (wget s fi)) fsn (w_opts (wget s fi)) first prev fr))) by (destruct Hp as (h1 & h2 & h3); apply chunk_pieces; auto; apply flags_fl12; exact h1).
  set (c := ud_chunk (w_id (wget s fi)) fsn (w_opts (wget s fi)) first prev fr) in *.
  destruct (R_try_chunk p 1200 done fg (fst c) (snd c) HR Hps) as (p1 & [(Hfit & E & HR1)|(Hno & E & HR1)]); rewrite E; cbn [rbind]; [|repeat eexists; symmetry; apply app_nil_r].
  destruct onames as [|o onames]; [cbn in Hl; lia|]. inversion Hn as [|? ? (n1 & n2) Hn']. subst. inversion Hnd as [|? ? d1 d2]. subst.
  assert (Eu : usable o (s_outl s1) = true) by (apply usable_spec; auto). rewrite Eu.
  set (abn := c_aband _). set (size := wrap64 _). set (s2 := mark_sent s1 fi nm id o fsn fr abn size).
  destruct (mark_sent_flow s1 fi nm id o fsn fr abn size fi) as (a & b & Ef). fold s2 in Ef. change (wget s1 fi) with (wget s fi) in Ef.
  destruct (IH s2 fi fsn false (g_seq (gget s id)) p1 onames (done ++ chunk_bytes (fst c) (pieces_bytes (snd c))) fg) as (s' & p' & f' & e1 & ws & e2).
  - rewrite Ef. exact Hi.
  - rewrite Ef. exact Hop.
  - exact Hf.
  - eapply Forall_impl; [|exact Hall']. intros e (h1 & h2 & h3). destruct (mark_sent_same s1 fi nm id o fsn fr abn size (snd e)) as (m1 & _ & m2 & m3 & _). unfold plain_frag, s2. rewrite m1, m2, m3. split; [|split]; assumption.
  - exact HR1.
  - exact d2.
  - rewrite Forall_forall in *. intros o' Ho'. split; [apply Hn', Ho'|]. change (s_outl s2) with (s_outl s ++ [(o, id)]). rewrite map_app, in_app_iff. intros [h|[h|[]]]; [apply (Hn' _ Ho'), h|cbn in h; subst; auto].
  - cbn in Hl. lia.
  - exists s', p', f'. split; [exact e1|]. exists (mkWire fi id fsn fr size :: ws). rewrite e2. change (s_wire s2) with (s_wire s ++ [mkWire fi id fsn fr size]). rewrite <- app_assoc. reflexivity.
Qed.
(** The fragment at the front goes if it fits. *)
Lemma send_loop_head : forall todo nm id s fi fsn p onames done fg, is_u64 (w_id (wget s fi)) -> bytes_ok (w_opts (wget s fi)) -> is_u64 fsn ->
  Forall (fun e => plain_frag (gget s (snd e))) ((nm, id) :: todo) -> R p (mkA 1200 done None fg) -> NoDup onames -> Forall (fun o => 0 < o /\ ~ In o (map fst (s_outl s))) onames -> (length ((nm, id) :: todo) <= length onames)%nat ->
  w_out (wget s fi) < w_rxbuf (wget s fi) -> g_fly (gget s id) = false -> 0 <= g_seq (gget s id) - fsn <= 1 ->
  zlen done + zlen (vlu_encode (w_id (wget s fi))) + zlen (vlu_encode (g_seq (gget s id))) + zlen (w_opts (wget s fi)) + zlen (g_data (gget s id)) + 5 <= 1200 ->
  exists s' p' f' x ws, send_loop s fi fsn true 0 p onames ((nm, id) :: todo) = Ok (s', p', f') /\ s_wire s' = s_wire s ++ x :: ws /\ fr_seq (x_frame x) = g_seq (gget s id).
Proof.
  intros todo nm id s fi fsn p onames done fg Hi Hop Hf Hall HR Hnd Hn Hl Hw Hfly Hq Hroom. cbn [send_loop]. inversion Hall as [|? ? Hp Hall']. subst. cbn [snd] in Hp. cbn [length] in Hl.
  destruct (Z.geb_spec (w_out (wget s fi)) (w_rxbuf (wget s fi))); [lia|]. rewrite Hfly. cbn zeta. set (s1 := set_rcpts s _). set (fr := mkFrame _ _ _).
  assert (Hps : Forall is_piece (snd (ud_chunk (w_id (wget s fi)) fsn (w_opts (wget s fi)) true 0 fr))) by (destruct Hp as (h1 & h2 & h3); apply chunk_pieces; auto; apply flags_fl12; exact h1).
  assert (Hsz : zlen (pieces_bytes (snd (ud_chunk (w_id (wget s fi)) fsn (w_opts (wget s fi)) true 0 fr))) <= 2 + zlen (vlu_encode (w_id (wget s fi))) + zlen (vlu_encode (g_seq (gget s id))) + zlen (w_opts (wget s fi)) + zlen (g_data (gget s id))).
  { unfold ud_chunk. cbn [negb andb snd fst]. cbn [Z.eqb Pos.eqb CHUNK_USERDATA]. change (fr_seq fr) with (g_seq (gget s id)). change (fr_data fr) with (g_data (gget s id)). destruct Hp as (h1 & h2 & h3).
    assert (Hd : wrap64 (g_seq (gget s id) - fsn) = g_seq (gget s id) - fsn) by (unfold wrap64; apply Z.mod_small; lia). rewrite Hd.
    assert (Hl1 : zlen (vlu_encode (g_seq (gget s id) - fsn)) <= 1) by (apply vlu_len; unfold is_u64, U64MAX; lia).
    unfold pieces_bytes. rewrite !flat_map_app, !zlen_app. cbn [flat_map piece_bytes app]. rewrite ?zlen_app, ?app_nil_r. change (zlen (@nil Z)) with 0. change (zlen [Z.lor (if negb (zlen (w_opts (wget s fi)) =? 0) then FLAG_OPT else 0) (fr_flags fr)]) with 1.
    pose proof (zlen_nonneg _ (w_opts (wget s fi))). pose proof (zlen_nonneg _ (g_data (gget s id))). destruct (negb (zlen (w_opts (wget s fi)) =? 0)); destruct (fr_abandoned fr); cbn [flat_map piece_bytes]; rewrite ?app_nil_r; change (zlen (@nil Z)) with 0; lia. }
  set (c := ud_chunk (w_id (wget s fi)) fsn (w_opts (wget s fi)) true 0 fr) in *.
  destruct (R_try_chunk p 1200 done fg (fst c) (snd c) HR Hps) as (p1 & [(Hfit & E & HR1)|(Hno & E & HR1)]); rewrite E; cbn [rbind]; [|exfalso; lia].
  destruct onames as [|o onames]; [cbn in Hl; lia|]. inversion Hn as [|? ? (n1 & n2) Hn']. subst. inversion Hnd as [|? ? d1 d2]. subst.
  assert (Eu : usable o (s_outl s1) = true) by (apply usable_spec; auto). rewrite Eu.
  set (abn := c_aband _). set (size := wrap64 _). set (s2 := mark_sent s1 fi nm id o fsn fr abn size).
  destruct (mark_sent_flow s1 fi nm id o fsn fr abn size fi) as (a & b & Ef). fold s2 in Ef. change (wget s1 fi) with (wget s fi) in Ef.
  destruct (send_loop_goes todo s2 fi fsn false (g_seq (gget s id)) p1 onames (done ++ chunk_bytes (fst c) (pieces_bytes (snd c))) fg) as (s' & p' & f' & e1 & ws & e2).
  - rewrite Ef. exact Hi.
  - rewrite Ef. exact Hop.
  - exact Hf.
  - eapply Forall_impl; [|exact Hall']. intros e (h1 & h2 & h3). destruct (mark_sent_same s1 fi nm id o fsn fr abn size (snd e)) as (m1 & _ & m2 & m3 & _). unfold plain_frag, s2. rewrite m1, m2, m3. split; [|split]; assumption.
  - exact HR1.
  - exact d2.
  - rewrite Forall_forall in *. intros o' Ho'. split; [apply Hn', Ho'|]. change (s_outl s2) with (s_outl s ++ [(o, id)]). rewrite map_app, in_app_iff. intros [h|[h|[]]]; [apply (Hn' _ Ho'), h|cbn in h; subst; auto].
  - cbn in Hl. lia.
  - exists s', p', f', (mkWire fi id fsn fr size), ws. split; [exact e1|]. rewrite e2. change (s_wire s2) with (s_wire s ++ [mkWire fi id fsn fr size]). rewrite <- app_assoc. split; reflexivity.
Qed.

Lemma send_loop_same : forall todo s fi fsn first prev p onames s' p' f' fj, send_loop s fi fsn first prev p onames todo = Ok (s', p', f') ->
  w_queue (wget s' fj) = w_queue (wget s fj) /\ forall i, g_seq (gget s' i) = g_seq (gget s i).
Proof.
  induction todo as [|[nm id] todo IH]; intros s fi fsn first prev p onames s' p' f' fj H; cbn [send_loop] in H; [apply Ok_inj in H; injection H as -> _ _; auto|].
  destruct (_ >=? _); [apply Ok_inj in H; injection H as -> _ _; auto|]. destruct (g_fly _); [eapply IH; exact H|]. cbn zeta in H. set (s1 := set_rcpts s _) in *.
  destruct (pa_try_chunk _ _ _) as [(p1, ok)| |]; cbn [rbind] in H; try discriminate. destruct ok; [|assert (e : s' = s1) by congruence; subst s'; auto].
  destruct onames as [|o os]; [discriminate|]. destruct (usable _ _); [|discriminate]. apply (IH _ _ _ _ _ _ _ _ _ _ fj) in H. destruct H as (h1 & h2). split.
  - rewrite h1. match goal with |- w_queue (wget (mark_sent ?a ?b ?c ?d ?e ?f ?g ?h ?i) fj) = _ => destruct (mark_sent_flow a b c d e f g h i fj) as (n & l & ->) end. reflexivity.
  - intros i. rewrite h2. match goal with |- g_seq (gget (mark_sent ?a ?b ?c ?d ?e ?f ?g ?h ?j) i) = _ => destruct (mark_sent_same a b c d e f g h j i) as (m & _) end. exact m.
Qed.
Lemma trim_shorter : forall q s fi, (length (w_queue (wget (trim_loop s fi q) fi)) <= length (w_queue (wget s fi)))%nat.
Proof.
  assert (D : forall nm (q : list (Z * nat)), (length (drop nm q) <= length q)%nat) by (intros nm q; unfold drop; induction q as [|e q IH]; cbn; [lia|]; destruct (negb _); cbn; lia).
  induction q as [|[nm id] q IH]; intros s fi; cbn [trim_loop]; [lia|]. destruct q as [|e q]; [lia|]. destruct (g_fly _); [lia|]. cbn zeta. destruct (c_aband _); [|reflexivity].
  etransitivity; [apply IH|]. unfold unqueue. cbn zeta. change (wget (set_rcpts ?x ?y) fi) with (wget x fi). rewrite wget_wset. destruct (_ && _); [cbn; apply D|reflexivity].
Qed.

Lemma send_goes : forall s fi gone buf margin flags ts tse onames, Full s -> TI s -> LT s -> s_open s = true -> w_bound (wget s fi) = true -> s_outl s = [] -> w_queue (wget s fi) <> [] -> 0 < w_rxbuf (wget s fi) ->
  header_fits buf margin flags ts tse = true -> (forall q, 1 <= q < w_next (wget s fi) -> Z.of_nat margin + zlen (vlu_encode (w_id (wget s fi))) + zlen (vlu_encode q) <= 29) ->
  NoDup onames -> Forall (fun o => 0 < o) onames -> (length (w_queue (wget s fi)) <= length onames)%nat ->
  exists s' v nm id q x ws, send_packet s fi gone buf margin flags ts tse onames = Ok (s', Some v) /\ w_queue (wget s' fi) = (nm, id) :: q /\ (length ((nm, id) :: q) <= length (w_queue (wget s fi)))%nat
    /\ s_wire s' = s_wire s ++ x :: ws /\ fr_seq (x_frame x) = g_seq (gget s' id) /\ g_seq (gget s' id) - 1 <= x_fsn x /\ 1 <= g_seq (gget s' id) < w_next (wget s fi).
Proof.
  intros s fi gone buf margin flags ts tse onames HF HT HL Ho Hb Hout Hq Hrx Hh Hroom Hnd Hpos Hlen.
  pose proof (packet_prims (fun _ _ => False) (fun _ => False) s fi gone buf margin flags ts tse onames HF) as PP.
  assert (Hhd : zlen buf = 1200 /\ (margin + 5 <= length buf)%nat /\ is_byte flags).
  { unfold header_fits in Hh. repeat rewrite Bool.andb_true_iff in Hh. destruct Hh as ((((h1 & h2) & h3) & _) & _). apply Z.eqb_eq in h1. apply Nat.leb_le in h2. split; [exact h1|]. split; [exact h2|]. unfold is_byteb in h3. unfold is_byte. lia. }
  destruct Hhd as (Hz & Hm & Hfl). destruct (R_init_header buf margin flags ts tse Hfl ltac:(unfold U64MAX; lia) Hm) as (p0 & Ep & HR). rewrite Hz in HR.
  destruct (nothing_out s fi HF Hout) as (Hout0 & Hfly). set (s1 := do_trim s fi).
  assert (HT1 : prims (fun _ _ => False) (fun _ => False) s s1) by (apply trim_prims; auto). pose proof (prims_full _ _ _ _ HT1 HF) as HF1. pose proof (prims_ti _ _ _ _ HT1 HF HT) as TI1. pose proof (prims_lt _ _ _ _ HT1 HF HL) as LT1.
  destruct (trim_rest (w_queue (wget s fi)) s fi) as (r1 & r2 & r3 & _ & _ & r6 & _). fold (do_trim s fi) in r1, r2, r3, r6. fold s1 in r1, r2, r3, r6.
  destruct (trim_keeps (w_queue (wget s fi)) s fi fi) as (q' & n & Ek). fold (do_trim s fi) in Ek. fold s1 in Ek.
  assert (Hne : w_queue (wget s1 fi) <> []) by (apply trim_nonempty; auto; apply (fi_nd _ _ (fu_fi _ HF fi))).
  assert (Hsh : (length (w_queue (wget s1 fi)) <= length (w_queue (wget s fi)))%nat) by apply trim_shorter.
  destruct (w_queue (wget s1 fi)) as [|[nm id] q] eqn:Eq; [congruence|]. clear Hne.
  pose proof (find_fsn_prims (fun _ _ => False) (fun _ => False) s1 fi nm id q Eq) as FP. destruct (find_fsn s1 id) as (s2, fsn) eqn:Ef. destruct FP as (P2 & Hfsn & rs & Es2).
  pose proof (prims_full _ _ _ _ P2 HF1) as HF2. pose proof (prims_ti _ _ _ _ P2 HF1 TI1) as TI2. pose proof (prims_lt _ _ _ _ P2 HF1 LT1) as LT2.
  assert (Hw2 : wget s2 fi = wget s1 fi) by (subst s2; reflexivity). assert (Hg2 : forall i, gget s2 i = gget s i) by (intros i; subst s2; unfold gget; cbn [s_heap set_rcpts]; rewrite r2; reflexivity).
  assert (Hout2 : s_outl s2 = []) by (subst s2; cbn; rewrite r3; exact Hout). assert (Hq2 : w_queue (wget s2 fi) = (nm, id) :: q) by (rewrite Hw2; exact Eq).
  destruct (nothing_out s2 fi HF2 Hout2) as (Hout20 & Hfly2). destruct (scan_start_ok s2 fi HF2) as (pre & Hpre & Hpf).
  assert (Hstart : scan_start s2 (wget s2 fi) = (nm, id) :: q).
  { destruct pre as [|e pre]; [rewrite Hq2 in Hpre; cbn in Hpre; congruence|]. exfalso. pose proof (Forall_inv Hpf) as h1. assert (hin : In e (w_queue (wget s2 fi))) by (rewrite Hpre; left; reflexivity). destruct e as (nm', id'). cbn [snd] in h1. rewrite (Hfly2 _ _ hin) in h1. discriminate. }
  set (s3 := if gone then wset s2 fi (with_opts (wget s2 fi) []) else s2).
  assert (Hlf : (fi < length (s_flows s2))%nat) by (apply flow_there; right; left; rewrite Hw2, Ek; exact Hb).
  assert (Hw3 : wget s3 fi = with_opts (wget s2 fi) (w_opts (wget s3 fi)) /\ (w_opts (wget s3 fi) = [] \/ w_opts (wget s3 fi) = w_opts (wget s2 fi))).
  { unfold s3. destruct gone; [rewrite wget_wset_same by exact Hlf; split; [reflexivity|left; reflexivity]|]. split; [destruct (wget s2 fi); reflexivity|right; reflexivity]. }
  destruct Hw3 as (Hw3 & Hopt). assert (Hg3 : forall i, gget s3 i = gget s i) by (intros i; rewrite <- Hg2; unfold s3; destruct gone; reflexivity).
  assert (Hin2 : In (nm, id) (w_queue (wget s2 fi))) by (rewrite Hq2; left; reflexivity). pose proof (fu_fi _ HF2 fi) as F2. destruct (fi_ids _ _ F2 nm id Hin2) as (I1 & I2 & _).
  destruct (ti_frag _ TI2 id I1) as (_ & t2 & t3 & _). rewrite I2 in t2, t3. rewrite Hg2 in t2, t3. pose proof (ti_next _ TI2 fi) as Hnx.
  assert (Hnx' : w_next (wget s2 fi) = w_next (wget s fi)) by (rewrite Hw2, Ek; reflexivity). assert (Hid' : w_id (wget s2 fi) = w_id (wget s fi)) by (rewrite Hw2, Ek; reflexivity). assert (Hbd' : w_bound (wget s2 fi) = true) by (rewrite Hw2, Ek; exact Hb).
  assert (Hrange : 1 <= g_seq (gget s id) < w_next (wget s fi)) by lia.
  assert (Hfsnr : 0 <= g_seq (gget s id) - fsn <= 1 /\ is_u64 fsn).
  { assert (Hu : is_u64 (g_seq (gget s id))) by (destruct (fu_frag _ HF2 id I1) as (_ & _ & _ & h); rewrite Hg2 in h; exact h). destruct Hfsn as (nm' & id' & qq & h1 & h2). rewrite Hq2 in h1. injection h1 as <- <- <-. rewrite Hg2 in h2. unfold is_u64, U64MAX, wrap64 in *. destruct h2 as [->|(-> & _)]; [rewrite Z.mod_small by lia|]; lia. }
  destruct Hfsnr as (Hfr & Hfu). assert (Hdat : zlen (g_data (gget s id)) + zlen (w_opts (wget s2 fi)) <= 1161) by (apply nth_error_In in t3; apply (LT2 fi _ t3)).
  assert (Hdone : zlen (firstn margin buf ++ header_bytes flags ts tse) <= Z.of_nat margin + 5).
  { rewrite zlen_app. unfold zlen at 1. rewrite firstn_length_le by lia. unfold header_bytes. unfold zlen. cbn [length]. rewrite app_length. destruct (ts >=? 0), (tse >=? 0); cbn; lia. }
  destruct (send_loop_head q nm id s3 fi fsn p0 onames (firstn margin buf ++ header_bytes flags ts tse) (Some margin)) as (s4 & p4 & f4 & x & ws & L1 & L2 & L3).
  - rewrite Hw3. cbn. pose proof (fi_id _ _ F2 Hbd') as h. unfold is_u64, U64MAX, LONG_MAX in *. lia.
  - destruct Hopt as [-> | ->]; [constructor|apply (fi_opts _ _ F2)].
  - exact Hfu.
  - rewrite Forall_forall. intros (nm', id') hin. cbn [snd]. rewrite <- Hq2 in hin. destruct (fi_ids _ _ F2 _ _ hin) as (J1 & _). destruct (fu_frag _ HF2 _ J1) as (_ & j2 & j3 & j4). rewrite Hg2 in j2, j3, j4. rewrite Hg3. split; [|split]; assumption.
  - exact HR.
  - exact Hnd.
  - assert (e : s_outl s3 = []) by (unfold s3; destruct gone; exact Hout2). rewrite e. eapply Forall_impl; [|exact Hpos]. cbn. auto.
  - cbn [length] in *. lia.
  - rewrite Hw3. cbn [w_out w_rxbuf with_opts]. rewrite Hout20. rewrite Hw2, Ek. exact Hrx.
  - rewrite Hg3. eapply Hfly2 in Hin2. rewrite Hg2 in Hin2. exact Hin2.
  - rewrite Hg3. exact Hfr.
  - specialize (Hroom _ Hrange). rewrite Hg3. replace (w_id (wget s3 fi)) with (w_id (wget s fi)) by (rewrite Hw3; cbn; congruence). pose proof (zlen_nonneg _ (w_opts (wget s2 fi))). destruct Hopt as [-> | ->]; change (zlen (@nil Z)) with 0; lia.
  - assert (Es3 : s_wire s3 = s_wire s) by (unfold s3; destruct gone; subst s2; cbn; exact r6). rewrite Es3 in L2. rewrite Hg3 in L3.
    assert (Hmr : maybe_ready (wget s fi) = true).
    { unfold maybe_ready. rewrite Hout0. destruct (w_queue (wget s fi)); [congruence|]. cbn. apply Bool.orb_true_iff. right. lia. }
    assert (Ea : assemble_data s fi gone p0 onames = Ok (s4, p4, negb f4)).
    { unfold assemble_data. rewrite Hmr. cbv zeta. fold s1. rewrite Eq, Ef, Hstart. fold s3. rewrite L1. reflexivity. }
    assert (Esp : send_packet s fi gone buf margin flags ts tse onames = Ok (if negb f4 then (set_tsn s4 (wrap64 (s_tsn s4 + 1)), Some (pa_to_vector p4)) else (s4, None))).
    { unfold send_packet. rewrite Ho, Hb, Hh. cbn [andb]. rewrite Ep. cbn [rbind]. rewrite Ea. reflexivity. }
    destruct (send_loop_same _ _ _ _ _ _ _ _ _ _ _ fi L1) as (q1 & q2).
    rewrite Esp in PP. assert (Hf4 : f4 = false).
    { destruct f4; [|reflexivity]. cbn [negb] in PP. destruct PP as (_ & ws' & fsn' & W1 & _ & W3 & _). rewrite L2 in W1. apply app_inv_head in W1. subst ws'. discriminate W3. }
    subst f4. cbn [negb] in *. destruct PP as (_ & ws' & fsn' & W1 & W2 & W3 & _). change (s_wire (set_tsn s4 _)) with (s_wire s4) in W1. pose proof W1 as W1'. rewrite L2 in W1'. apply app_inv_head in W1'. subst ws'.
    exists (set_tsn s4 (wrap64 (s_tsn s4 + 1))), (pa_to_vector p4), nm, id, q, x, ws. split; [exact Esp|]. change (wget (set_tsn s4 _) fi) with (wget s4 fi). change (gget (set_tsn s4 _) id) with (gget s4 id). rewrite q2, Hg3, q1.
    split; [rewrite Hw3; cbn; rewrite Hq2; reflexivity|]. split; [exact Hsh|]. split; [exact L2|]. split; [exact L3|]. split; [|exact Hrange].
    assert (Hx : x_fsn x = fsn).
    { assert (G : forall todo0 s0 first0 prev0 pp on0 sa pa fa, send_loop s0 fi fsn first0 prev0 pp on0 todo0 = Ok (sa, pa, fa) -> exists ws0, s_wire sa = s_wire s0 ++ ws0 /\ Forall (fun x => x_fsn x = fsn) ws0).
      { clear. induction todo0 as [|[nm0 id0] todo0 IH]; intros s0 first0 prev0 pp on0 sa pa fa H; cbn [send_loop] in H; [apply Ok_inj in H; injection H as -> _ _; exists []; rewrite app_nil_r; auto|].
        destruct (_ >=? _); [apply Ok_inj in H; injection H as -> _ _; exists []; rewrite app_nil_r; auto|]. destruct (g_fly _); [eapply IH; exact H|]. cbn zeta in H. set (s1 := set_rcpts s0 _) in *.
        destruct (pa_try_chunk _ _ _) as [(p1, ok)| |]; cbn [rbind] in H; try discriminate. destruct ok; [|assert (e : sa = s1) by congruence; subst sa; exists []; rewrite app_nil_r; auto].
        destruct on0 as [|o os]; [discriminate|]. destruct (usable _ _); [|discriminate]. apply IH in H. destruct H as (ws0 & h1 & h2).
        match type of h1 with _ = s_wire (mark_sent _ ?b _ ?d _ ?f ?g _ ?i) ++ _ => exists (mkWire b d f g i :: ws0) end. split; [rewrite h1; cbn [s_wire mark_sent set_wire]; rewrite <- app_assoc; reflexivity|constructor; [reflexivity|exact h2]]. }
      destruct (G _ _ _ _ _ _ _ _ _ L1) as (ws0 & g1 & g2). rewrite L2, Es3 in g1. apply app_inv_head in g1. subst ws0. inversion g2. assumption. }
    lia.
Qed.

(** ** An acknowledgement takes the front of the queue *)
Lemma ack_range_shorter : forall todo s fi from to s' rem, ack_range s fi from to todo = Ok (s', rem) -> (length (w_queue (wget s' fi)) <= length (w_queue (wget s fi)))%nat.
Proof.
  assert (D : forall nm (q : list (Z * nat)), (length (drop nm q) <= length q)%nat) by (intros nm q; unfold drop; induction q as [|e q IH]; cbn; [lia|]; destruct (negb _); cbn; lia).
  induction todo as [|[nm id] todo IH]; intros s fi from to s' rem H; cbn [ack_range] in H; [apply Ok_inj in H; injection H as -> _; lia|].
  destruct (_ <? _); [eapply IH; exact H|]. destruct (_ >? _); [assert (e : s' = s) by congruence; subst; lia|].
  match type of H with rbind ?x _ = _ => destruct x as [s1| |] eqn:X; cbn [rbind] in H; try discriminate end.
  assert (C1 : w_queue (wget s1 fi) = w_queue (wget s fi)).
  { destruct (g_fly _); [|apply Ok_inj in X; subst; reflexivity]. destruct (has_name _ _); [|discriminate]. cbn zeta in X. apply Ok_inj in X. subst s1. rewrite wget_wset. destruct (_ && _); reflexivity. }
  apply IH in H. etransitivity; [exact H|]. rewrite <- C1. unfold unqueue. cbn zeta. change (wget (set_rcpts ?x ?y) fi) with (wget x fi). rewrite wget_wset. destruct (_ && _); [cbn; apply D|lia].
Qed.
Lemma ack_all_shorter : forall ranges s fi todo s', ack_all s fi todo ranges = Ok s' -> (length (w_queue (wget s' fi)) <= length (w_queue (wget s fi)))%nat.
Proof.
  induction ranges as [|[a b] ranges IH]; intros s fi todo s' H; cbn [ack_all] in H; [apply Ok_inj in H; subst; lia|].
  destruct (ack_range _ _ _ _ _) as [(s1, rem)| |] eqn:X; cbn [rbind] in H; try discriminate. apply ack_range_shorter in X. apply IH in H. lia.
Qed.
Lemma ack_goes : forall s fi pl k, Full s -> closed_unbound s -> IDS s -> w_bound (wget s fi) = true -> bytes_ok pl -> ack_parse pl = Ok k -> k_flow k = w_id (wget s fi) ->
  exists s', sstep s (SAck pl) = Ok s' /\ (length (w_queue (wget s' fi)) <= length (w_queue (wget s fi)))%nat /\ (w_queue (wget s fi) <> [] -> w_rxbuf (wget s' fi) = k_bytes k) /\ calm True (eq fi) s s'
   /\ forall nm id q, w_queue (wget s fi) = (nm, id) :: q -> 0 <= g_seq (gget s id) <= k_cum k -> (length (w_queue (wget s' fi)) <= length q)%nat.
Proof.
  intros s fi pl k HF Hc HI Hb Hpl Hk Hkf. cbn [sstep]. assert (E0 : bytes_okb pl = true) by (unfold bytes_okb; apply forallb_forall; intros x hx; unfold bytes_ok in Hpl; rewrite Forall_forall in Hpl; specialize (Hpl x hx); unfold is_byteb; unfold is_byte in Hpl; lia).
  rewrite E0. unfold do_ack. rewrite Hk, Hkf, (find_flow_id s fi HI Hb). pose proof (on_ack_prims (fun _ _ => True) (fun _ => False) s fi k HF (fun _ _ => Logic.I)) as P. destruct (on_ack s fi k) as [s'| |] eqn:E; try (exfalso; exact P).
  exists s'. split; [reflexivity|]. assert (Hcalm : calm True (eq fi) s s') by (apply (calm_on_ack True (eq fi) s fi k s' eq_refl E)).
  assert (Hl : (fi < length (s_flows s))%nat) by (apply flow_there; auto). unfold on_ack in E.
  assert (G : forall st, (rbind (ack_all (wset s fi (with_rxbuf (with_opts (wget s fi) []) (k_bytes k))) fi (w_queue (wget (wset s fi (with_rxbuf (with_opts (wget s fi) []) (k_bytes k))) fi)) ((0, k_cum k) :: k_ranges k))
      (fun s2 => Ok (match st, w_queue (wget s2 fi) with FS_CLOSING, [] => wset s2 fi (with_state (wget s2 fi) FS_LINGER) | _, _ => s2 end))) = Ok s' ->
     (length (w_queue (wget s' fi)) <= length (w_queue (wget s fi)))%nat /\ w_rxbuf (wget s' fi) = k_bytes k /\ forall nm id q, w_queue (wget s fi) = (nm, id) :: q -> 0 <= g_seq (gget s id) <= k_cum k -> (length (w_queue (wget s' fi)) <= length q)%nat).
  { intros st X. set (s1 := wset s fi _) in *. assert (Ew : wget s1 fi = with_rxbuf (with_opts (wget s fi) []) (k_bytes k)) by (apply wget_wset_same; exact Hl).
    assert (P1 : prims (fun _ _ => True) (fun _ => False) s s1) by (apply prims_one; unfold s1; apply pr_flow; constructor; cbn; auto).
    pose proof (prims_full _ _ _ _ P1 HF) as HF1. assert (Hqq : w_queue (wget s1 fi) = w_queue (wget s fi)) by (rewrite Ew; reflexivity).
    pose proof (ack_all_prims (fun _ _ => True) (fun _ => False) ((0, k_cum k) :: k_ranges k) s1 fi (w_queue (wget s1 fi)) HF1 (incl_refl _) (fi_nd _ _ (fu_fi _ HF1 fi)) (fun _ _ _ _ _ => Logic.I)) as AP.
    destruct (ack_all _ _ _ _) as [s2| |] eqn:Ea; cbn [rbind] in X; try discriminate. destruct AP as (_ & q' & n' & m' & Eq').
    apply Ok_inj in X. assert (Es' : w_queue (wget s' fi) = w_queue (wget s2 fi) /\ w_rxbuf (wget s' fi) = w_rxbuf (wget s2 fi)).
    { subst s'. destruct st; auto. destruct (w_queue (wget s2 fi)) eqn:Eqq; [|rewrite Eqq; auto]. rewrite wget_wset. destruct (_ && _); cbn; rewrite ?Eqq; auto. }
    destruct Es' as (e1 & e2). rewrite e1, e2. split; [apply ack_all_shorter in Ea; rewrite Hqq in Ea; exact Ea|]. split; [rewrite Eq'; cbn [w_rxbuf with_queue with_outb]; rewrite Ew; reflexivity|].
    intros nm id q Hq Hs. cbn [ack_all] in Ea. rewrite Hqq, Hq in Ea. cbn [ack_range] in Ea. change (gget s1 id) with (gget s id) in Ea. destruct (Z.ltb_spec (g_seq (gget s id)) 0); [lia|]. rewrite Z.gtb_ltb in Ea. destruct (Z.ltb_spec (k_cum k) (g_seq (gget s id))); [lia|].
    match type of Ea with rbind (rbind ?x _) _ = _ => destruct x as [s3| |] eqn:X3; cbn [rbind] in Ea; try discriminate end.
    assert (C1 : w_queue (wget s3 fi) = (nm, id) :: q /\ (fi < length (s_flows s3))%nat).
    { assert (Hl1 : (fi < length (s_flows s1))%nat) by (unfold s1; rewrite flows_wset; exact Hl). destruct (g_fly _); [|apply Ok_inj in X3; subst s3; rewrite Hqq; split; [exact Hq|exact Hl1]]. destruct (has_name _ _); [|discriminate]. cbn zeta in X3. apply Ok_inj in X3. subst s3. split; [|rewrite flows_wset; exact Hl1].
      rewrite wget_wset_same by exact Hl1. cbn [w_queue with_outb]. rewrite Hqq. exact Hq. }
    destruct C1 as (C1 & C2). destruct (ack_range _ _ _ _ _) as [(s4, rem)| |] eqn:X4; cbn [rbind] in Ea; try discriminate. apply ack_range_shorter in X4. apply ack_all_shorter in Ea.
    assert (C3 : w_queue (wget (unqueue s3 fi nm id) fi) = drop nm ((nm, id) :: q)) by (unfold unqueue; cbn zeta; change (wget (set_rcpts ?x ?y) fi) with (wget x fi); rewrite wget_wset_same by exact C2; cbn; rewrite C1; reflexivity).
    rewrite C3 in X4. assert (C4 : (length (drop nm ((nm, id) :: q)) <= length q)%nat).
    { assert (D : forall nm (q : list (Z * nat)), (length (drop nm q) <= length q)%nat) by (intros nm0 q0; unfold drop; induction q0 as [|e q0 IH]; cbn; [lia|]; destruct (negb _); cbn; lia). specialize (D nm q). unfold drop in *. cbn [filter fst]. rewrite Z.eqb_refl. cbn. exact D. }
    lia. }
  destruct (w_state (wget s fi)) eqn:e.
  - destruct (G FS_OPEN E) as (g1 & g2 & g3). auto.
  - destruct (G FS_CLOSING E) as (g1 & g2 & g3). auto.
  - pose proof (fi_ling _ _ (fu_fi _ HF fi) e) as Hq. apply Ok_inj in E. subst s'. rewrite Hq. split; [auto|]. split; [congruence|]. split; [exact Hcalm|]. intros; discriminate.
  - rewrite (Hc fi e) in Hb. discriminate.
Qed.
