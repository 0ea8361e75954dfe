From Verif Require Import Base BaseFacts Session SessionSpec SessionProofs.
From Coq Require Import Lia Arith.

(** * Runs of the session *)
Lemma inv_init : inv None w_init.
Proof.
  constructor; cbn; try contradiction; try discriminate.
  - intros i. destruct i; cbn; intuition discriminate.
  - intros i. destruct i; cbn; discriminate.
  - exists [], []. split; [reflexivity|]. split; [reflexivity|]. constructor. reflexivity.
  - intros r. reflexivity.
  - constructor.
  - intros g. right. right. unfold rget. cbn. destruct g; reflexivity.
Qed.
Section Env.
Variable env : nat -> list ucall * bool.
Lemma wstep_inv : forall w w1, inv None w -> wstep env w = Ok w1 -> inv None w1.
Proof.
  intros w w1 I E. assert (NE : v_stack w <> []) by (intros X; unfold wstep in E; rewrite X in E; discriminate). destruct (step_inv env w I NE) as (w2 & E2 & I2). rewrite E2 in E. injection E as <-. exact I2.
Qed.
Lemma later_inv : forall w w1, inv None w -> later env w w1 -> inv None w1.
Proof. intros w w1 I L. induction L; auto. - apply op_inv; auto. - eapply wstep_inv; eauto. Qed.
Lemma reach_inv : forall w, reachable env w -> inv None w.
Proof. intros w R. eapply later_inv; [exact inv_init|exact R]. Qed.
Lemma session_states : forall w, reachable env w -> life (v_log w) (v_state w).
Proof. intros w R. apply (i_life _ _ (reach_inv w R)). Qed.
Lemma session_safe : forall w, reachable env w -> v_stack w <> [] -> exists w1, wstep env w = Ok w1.
Proof. intros w R N. destruct (step_inv env w (reach_inv w R) N) as (w1 & E & _). eauto. Qed.
Lemma life_entered : forall l s, life l s -> entered true l = (match s with S_CLOSED => 1 | _ => 0 end)%nat /\ (entered false l <= 1)%nat /\ ((rank s < 4)%nat -> entered false l = 0%nat) /\ (s = S_NEARCLOSE \/ s = S_FARCLOSE_LINGER -> entered false l = 1%nat).
Proof.
  intros l s L. induction L as [|a b l L (I1 & I2 & I3 & I4) A|c l s L I0|r l s L I0].
  - split; [reflexivity|]. split; [cbn; lia|]. split; [reflexivity|]. intros [X|X]; discriminate.
  - rewrite !entered_state. rewrite I1. destruct a, b; cbn in A; try contradiction; cbn [rank] in *; try (rewrite (I3 ltac:(lia)));
      (split; [reflexivity|]); (split; [lia|]); (split; [intros; lia|]); intros [X|X]; try discriminate; reflexivity.
  - exact I0.
  - exact I0.
Qed.
Lemma session_told : forall w, reachable env w -> v_stack w = [] ->
  told true (v_log w) = (match v_state w with S_CLOSED => 1 | _ => 0 end)%nat /\
  (told false (v_log w) <= 1)%nat /\ (v_state w = S_NEARCLOSE \/ v_state w = S_FARCLOSE_LINGER -> told false (v_log w) = 1%nat) /\ ((rank (v_state w) < 4)%nat -> told false (v_log w) = 0%nat).
Proof.
  intros w R K. pose proof (reach_inv w R) as I. destruct (life_entered _ _ (i_life _ _ I)) as (E1 & E2 & E3 & E4).
  pose proof (i_told _ _ I true) as T1. pose proof (i_told _ _ I false) as T2. rewrite K in *. change (told_left ?r []) with 0%nat in *. rewrite Nat.add_0_r in *. rewrite T1, T2. auto.
Qed.
Lemma session_told_once : forall w, reachable env w -> (told true (v_log w) <= 1)%nat /\ (told false (v_log w) <= 1)%nat /\ (In (EvTold true) (v_log w) -> v_state w = S_CLOSED).
Proof.
  intros w R. pose proof (reach_inv w R) as I. destruct (life_entered _ _ (i_life _ _ I)) as (E1 & E2 & _). pose proof (i_told _ _ I true) as T1. pose proof (i_told _ _ I false) as T2.
  assert (D : (match v_state w with S_CLOSED => 1 | _ => 0 end <= 1)%nat) by (destruct (v_state w); lia). split; [lia|]. split; [lia|]. intros X.
  assert (1 <= told true (v_log w))%nat. { clear - X. unfold told. induction (v_log w) as [|e l IH]; [contradiction|]. destruct X as [->|X]; cbn; [lia|]. specialize (IH X). destruct e; cbn; try destruct release; cbn; lia. }
  destruct (v_state w); auto; lia.
Qed.

(** ** After the end *)
Section Quiet.
Variable w0 : world.
Definition old (g : nat) : Prop := g_base (rget w0 g) = true /\ g_st (rget w0 g) = 3%nat.
Definition quiet_frame (f : frame) : Prop :=
  match f with
  | KScript _ | KClose _ | KCloseRest _ | KWritable _ | KDeliver _ _ | KChunks _ => True
  | KRecvClose _ e => e = false
  | KCall (CbMessage g) | KCall (CbComplete g false) => old g
  | _ => False
  end.
Definition quiet_event (e : event) : Prop := match e with EvCall (CbMessage g) | EvCall (CbComplete g false) => old g | _ => False end.
Record quiet (w : world) : Prop := mkQuiet {
  q_state : v_state w = S_CLOSED; q_recvs : v_recvs w = []; q_index : v_indexed w = false; q_opening : v_opening w = false;
  q_base : forall g, g_base (rget w g) = true -> old g;
  q_stack : Forall quiet_frame (v_stack w);
  q_log : exists l, v_log w = l ++ v_log w0 /\ Forall quiet_event l }.

Lemma quiet_sset : forall w i x, quiet w -> quiet (sset w i x).
Proof. intros w i x [Q1 Q2 Q3 Q4 Q5 Q6 Q7]. constructor; auto. Qed.
Lemma quiet_sends : forall w x, quiet w -> quiet (with_sends w x).
Proof. intros w x [Q1 Q2 Q3 Q4 Q5 Q6 Q7]. constructor; auto. Qed.
Lemma quiet_waiting : forall w x, quiet w -> quiet (with_waiting w x).
Proof. intros w x [Q1 Q2 Q3 Q4 Q5 Q6 Q7]. constructor; auto. Qed.
Lemma quiet_push : forall w l, quiet w -> Forall quiet_frame l -> quiet (push w l).
Proof. intros w l [Q1 Q2 Q3 Q4 Q5 Q6 Q7] F. constructor; auto. cbn. apply Forall_app. auto. Qed.
Lemma quiet_popped : forall w f rest, quiet w -> v_stack w = f :: rest -> quiet (popped w rest) /\ quiet_frame f.
Proof. intros w f rest [Q1 Q2 Q3 Q4 Q5 Q6 Q7] E. rewrite E in Q6. inversion Q6; subst. split; [constructor|]; auto. Qed.
Lemma quiet_rset : forall w g x, quiet w -> (g_base x = true -> g_base (rget w g) = true) -> quiet (rset w g x).
Proof.
  intros w g x [Q1 Q2 Q3 Q4 Q5 Q6 Q7] B. constructor; auto. intros j. rewrite rget_rset. destruct (Nat.eqb_spec j g) as [->|N]; cbn [andb]; [|auto]. destruct (_ <? _)%nat; auto.
Qed.
Lemma quiet_down : forall w, quiet w -> quiet (interest_down w).
Proof. intros w Q. pose proof Q as [Q1 Q2 Q3 Q4 Q5 Q6 Q7]. unfold interest_down. cbn [v_state with_interest]. rewrite Q1. constructor; auto. Qed.
Lemma quiet_goto : forall w i, quiet w -> quiet (goto_closed i w).
Proof.
  intros w i Q. unfold goto_closed. destruct (_ <? _)%nat; [|exact Q]. cbv zeta. destruct (f_opening _), (f_bound _); try apply quiet_down; try apply quiet_sends; apply quiet_sset; exact Q.
Qed.
Lemma quiet_close : forall w i, quiet w -> quiet (close_send i w).
Proof.
  intros w i Q. unfold close_send. cbv zeta. assert (P : quiet (push w [KCloseRest i])) by (apply quiet_push; auto; repeat constructor). destruct (_ =? 0)%nat.
  - destruct (_ && _ && _); [|apply quiet_goto]; repeat apply quiet_sset; exact P.
  - destruct (_ && _); [apply quiet_goto|]; apply quiet_sset; exact P.
Qed.
Lemma quiet_user : forall w c, quiet w -> quiet (user c w).
Proof.
  intros w c Q. pose proof Q as [Q1 Q2 Q3 Q4 Q5 Q6 Q7]. destruct c; cbn [user]; try (apply quiet_sset; exact Q); try (apply quiet_rset; [exact Q|cbn; auto]).
  - unfold open_flow. rewrite Q3, Q4. exact Q.
  - rewrite Q1, andb_false_r. exact Q.
  - unfold close. rewrite Q1. exact Q.
  - apply quiet_push; auto; repeat constructor.
  - destruct (f_base _); [apply quiet_sset|]; exact Q.
  - discriminate.
Qed.
Lemma quiet_step : forall w w1, quiet w -> wstep env w = Ok w1 -> quiet w1.
Proof.
  intros w w1 Q0 E. unfold wstep in E. destruct (v_stack w) as [|f rest] eqn:K; [discriminate|]. destruct (quiet_popped _ _ _ Q0 K) as (Q & F). remember (popped w rest) as w2. clear Heqw2 K Q0 w. rename w2 into w. pose proof Q as [Q1 Q2 Q3 Q4 Q5 Q6 Q7].
  destruct f as [l|c|i|i|g error|i|g must|g n done merged|g done|g|sends recvs| |i| |g|k g|release|l|l|l|]; cbn in F; try contradiction.
  - destruct l as [|c l]; injection E as <-; [exact Q|]. apply quiet_user. apply quiet_push; auto; repeat constructor.
  - injection E as <-. constructor; auto.
    + cbn. constructor; [exact Logic.I|exact Q6].
    + destruct Q7 as (l & L1 & L2). exists (EvCall c :: l). split; [cbn; rewrite L1; reflexivity|]. constructor; [|exact L2]. destruct c as [| | | | |g [|]| |]; try contradiction; exact F.
  - injection E as <-. apply quiet_close, Q.
  - injection E as <-. unfold close_rest. cbv zeta. destruct (_ =? 3)%nat; apply quiet_waiting; [apply quiet_sset|]; exact Q.
  - injection E as <-. subst error. assert (R : quiet (close_recv g w)) by (apply quiet_rset; [exact Q|discriminate]). destruct (recv_open _ && _) eqn:O; [|exact R]. apply andb_prop in O as (O & _). apply andb_prop in O as (O & _). apply quiet_push; [exact R|]. repeat constructor. apply Q5. exact O. apply Q5. exact O.
  - rewrite Q1 in E. cbn [is_open] in E. rewrite andb_false_r in E. cbn [andb] in E. injection E as <-. exact Q.
  - cbv zeta in E. destruct (negb _ && recv_open _ && _) eqn:O.
    + injection E as <-. apply andb_prop in O as (O & _). apply andb_prop in O as (_ & O). apply andb_prop in O as (O & _). apply quiet_push; [apply quiet_rset; auto|]. apply Forall_app. split; [|repeat constructor]. destruct (g_msg _); repeat constructor; apply Q5; exact O.
    + destruct (done && _); injection E as <-; [|exact Q]. apply quiet_push; [exact Q|]. repeat constructor.
  - destruct l as [|c l]; injection E as <-; [exact Q|]. assert (P : quiet (push w [KChunks l])) by (apply quiet_push; auto; repeat constructor). pose proof P as [P1 _ _ _ _ _ _]. unfold on_chunk. rewrite P1. cbn [is_open andb]. destruct c; exact P.
Qed.
Lemma quiet_op : forall w o, quiet w -> quiet (do_op o w).
Proof.
  intros w o Q. pose proof Q as [Q1 Q2 Q3 Q4 Q5 Q6 Q7]. destruct o; cbn [do_op]; unfold abort, close; rewrite ?Q1; cbn [is_open andb]; try exact Q; try (apply quiet_push; [exact Q|repeat constructor]).
  - destruct (_ =? 2)%nat; [apply quiet_goto|]; exact Q.
  - rewrite Q2. exact Q.
Qed.
End Quiet.
Lemma session_quiet : forall w w1, reachable env w -> finished w -> later env w w1 ->
  v_state w1 = S_CLOSED /\ exists l, v_log w1 = l ++ v_log w /\ Forall (quiet_event w) l.
Proof.
  intros w w1 R (S & K) L. pose proof (reach_inv w R) as I. assert (Q : quiet w w1).
  { induction L.
    - assert (LT : late w) by (unfold late; rewrite S; cbn; lia).
      assert (RV : v_recvs w = []). { destruct (i_shape _ _ I) as (cl & ops & E & _ & P). rewrite K in E. destruct cl; [|discriminate]. inversion P. auto. }
      constructor; auto.
      + destruct (v_indexed w) eqn:X; auto. destruct (i_indexed _ _ I X) as [Y|(_ & r & Y)]; [congruence|rewrite K in Y; contradiction].
      + destruct (v_opening w) eqn:X; auto. destruct (i_opening _ _ I X) as [Y|[Y|(_ & r & Y)]]; try congruence. rewrite K in Y; contradiction.
      + intros g B. split; [exact B|]. destruct (i_recv _ _ I g) as [X|[X|X]]; [rewrite RV in X; contradiction|congruence|exact X].
      + rewrite K. constructor.
      + exists []. auto.
    - apply quiet_op; auto.
    - eapply quiet_step; eauto. }
  destruct Q as [Q1 _ _ _ _ _ Q7]. auto.
Qed.

(** ** Closing comes to an end *)
Lemma steps_inv : forall n w w1, inv None w -> steps env n w w1 -> inv None w1.
Proof. intros n w w1 I S. induction S; auto. apply IHS. eapply wstep_inv; eauto. Qed.
Lemma steps_app : forall n m w w1 w2, steps env n w w1 -> steps env m w1 w2 -> steps env (n + m) w w2.
Proof. intros n m w w1 w2 S. induction S; cbn; auto. intros T. econstructor; eauto. Qed.
Lemma steps_1 : forall w w1, wstep env w = Ok w1 -> steps env 1 w w1.
Proof. intros. econstructor; [eassumption|constructor]. Qed.
Record kept (w w1 : world) : Prop := mkKept {
  k_state : v_state w1 = v_state w; k_recvs : v_recvs w1 = v_recvs w;
  k_sub : exists p, v_sends w1 = filter p (v_sends w);
  k_log : exists l, v_log w1 = l ++ v_log w }.
Lemma kept_same : forall w w1, v_state w1 = v_state w -> v_recvs w1 = v_recvs w -> v_sends w1 = v_sends w -> v_log w1 = v_log w -> kept w w1.
Proof. intros w w1 A B C D. constructor; auto; [|exists []; exact D]. exists (fun _ => true). rewrite C. clear. induction (v_sends w) as [|x l IH]; cbn; [reflexivity|]. f_equal. exact IH. Qed.
Lemma filter_filter : forall (A : Type) (p q : A -> bool) l, filter p (filter q l) = filter (fun x => q x && p x) l.
Proof. induction l as [|x l IH]; cbn; [reflexivity|]. destruct (q x); cbn; [destruct (p x); cbn|]; congruence. Qed.
Lemma k_sends : forall w w1, kept w w1 -> forall i, In i (v_sends w1) -> In i (v_sends w).
Proof. intros w w1 K i. destruct (k_sub _ _ K) as (p & ->). rewrite filter_In. tauto. Qed.
Lemma filter_less : forall (A : Type) (p : A -> bool) i l, In i l -> ~ In i (filter p l) -> (length (filter p l) < length l)%nat.
Proof.
  intros A p i l. assert (LE : forall l, (length (filter p l) <= length l)%nat) by (induction l0 as [|y l0 IH]; cbn; [lia|destruct (p y); cbn; lia]).
  induction l as [|x l IH]; [contradiction|]. intros [->|X] N; cbn in *.
  - destruct (p i); [exfalso; apply N; left; reflexivity|]. specialize (LE l). lia.
  - destruct (p x); cbn; [|specialize (LE l); lia]. apply -> Nat.succ_lt_mono. apply IH; auto. intros Y. apply N. right. exact Y.
Qed.
Lemma kept_trans : forall a b c, kept a b -> kept b c -> kept a c.
Proof.
  intros a b c [A1 A2 (p & A4) (l & A5)] [B1 B2 (q & B4) (m & B5)]. constructor; try congruence; [exists (fun x => p x && q x); rewrite B4, A4, filter_filter; reflexivity|]. exists (m ++ l). rewrite B5, A5, app_assoc. reflexivity.
Qed.
Definition goes (w : world) (rest : list frame) (P : world -> Prop) : Prop := exists n w1, steps env n w w1 /\ v_stack w1 = rest /\ kept w w1 /\ P w1.
Definition any (w : world) : Prop := True.
Lemma goes_step : forall w w1 rest P, wstep env w = Ok w1 -> kept w w1 -> goes w1 rest P -> goes w rest P.
Proof. intros w w1 rest P E K (n & w2 & T & R & K2 & H). exists (S n), w2. split; [econstructor; eauto|]. split; [exact R|]. split; [eapply kept_trans; eauto|exact H]. Qed.
Lemma goes_then : forall w mid rest P Q, goes w mid P -> (forall w1, inv None w1 -> v_stack w1 = mid -> kept w w1 -> P w1 -> goes w1 rest Q) -> inv None w -> goes w rest Q.
Proof.
  intros w mid rest P Q (n & w1 & S & R & K & H) T I. destruct (T w1 (steps_inv _ _ _ I S) R K H) as (m & w2 & S2 & R2 & K2 & H2). exists (n + m)%nat, w2. split; [eapply steps_app; eauto|]. split; [exact R2|]. split; [eapply kept_trans; eauto|exact H2].
Qed.
Lemma goes_done : forall w (P : world -> Prop), P w -> goes w (v_stack w) P.
Proof. intros w P H. exists 0%nat, w. split; [constructor|]. split; [reflexivity|]. split; [apply kept_same; reflexivity|exact H]. Qed.
Lemma goes_weaken : forall w rest (P Q : world -> Prop), goes w rest P -> (forall w1, kept w w1 -> P w1 -> Q w1) -> goes w rest Q.
Proof. intros w rest P Q (n & w1 & S & R & K & H) T. exists n, w1. auto. Qed.

Lemma down_late : forall w, late w -> interest_down w = with_interest w (v_interest w - 1).
Proof. intros w L. unfold interest_down. cbn [v_state with_interest]. unfold late in L. destruct (v_state w); cbn in L; try lia; reflexivity. Qed.
Lemma goto_kept : forall i w, late w -> kept w (goto_closed i w) /\ v_stack (goto_closed i w) = v_stack w.
Proof.
  intros i w L. assert (SE := goto_sends i w). assert (F : v_state (goto_closed i w) = v_state w /\ v_recvs (goto_closed i w) = v_recvs w /\ v_log (goto_closed i w) = v_log w /\ v_stack (goto_closed i w) = v_stack w).
  { unfold goto_closed. destruct (_ <? _)%nat; [|auto]. cbv zeta. destruct (f_bound _), (f_opening _); rewrite ?down_late by exact L; auto. }
  destruct F as (F1 & F2 & F3 & F4). split; [|exact F4]. destruct (_ && _); [|apply kept_same; auto]. constructor; auto; [|exists []; exact F3]. eexists. exact SE.
Qed.
Lemma late_open : forall w, late w -> is_open (v_state w) = false.
Proof. intros w L. unfold late in L. destruct (v_state w); cbn in *; auto; lia. Qed.
Lemma late_kept : forall w w1, late w -> kept w w1 -> late w1.
Proof. intros w w1 L K. unfold late. rewrite (k_state _ _ K). exact L. Qed.
Lemma close_kept : forall i w, late w -> kept w (close_send i w) /\ v_stack (close_send i w) = KCloseRest i :: v_stack w.
Proof.
  intros i w L. unfold close_send. cbv zeta. set (x := mkSf false _ _ _ _ _ _ _ _ _). set (w1 := sset (push w [KCloseRest i]) i x). change (v_state w1) with (v_state w). rewrite (late_open w L). rewrite andb_false_r. cbn [andb negb]. rewrite andb_true_r.
  assert (K : kept w w1) by (apply kept_same; reflexivity). destruct (goto_kept i w1 L) as (G1 & G2). destruct (_ =? 0)%nat; [|destruct (f_bound _)]; (split; [|first [exact G2|reflexivity]]); try exact K; eapply kept_trans; eauto.
Qed.
Lemma goes_close : forall i w rest, inv None w -> late w -> v_stack w = KClose i :: rest -> goes w rest (fun w1 => ~ In i (v_sends w1)).
Proof.
  intros i w rest I L K. destruct (close_kept i (popped w rest) L) as (C1 & C2). set (w1 := close_send i (popped w rest)) in *.
  eapply (goes_step w w1); [unfold wstep; rewrite K; reflexivity|eapply kept_trans; [|exact C1]; apply kept_same; reflexivity|].
  eapply (goes_step w1 (close_rest i (popped w1 rest))); [unfold wstep; rewrite C2; reflexivity|unfold close_rest; cbv zeta; destruct (_ =? 3)%nat; apply kept_same; reflexivity|].
  assert (N : ~ In i (v_sends w1)) by (apply close_send_sends; [apply I|apply I|]; intros X; unfold late in L; cbn in X; rewrite X in L; cbn in L; lia).
  set (w2 := close_rest i (popped w1 rest)). assert (K2 : v_stack w2 = rest) by (unfold w2, close_rest; cbv zeta; destruct (_ =? 3)%nat; reflexivity). rewrite <- K2 at 1. apply goes_done.
  unfold w2, close_rest. cbv zeta. destruct (_ =? 3)%nat; exact N.
Qed.
Lemma goes_script : forall l w rest, ~ In UOpen l -> inv None w -> late w -> v_stack w = KScript l :: rest -> goes w rest any.
Proof.
  induction l as [|c l IH]; intros w rest N I L K.
  - eapply (goes_step w (popped w rest)); [unfold wstep; rewrite K; reflexivity|apply kept_same; reflexivity|]. apply (goes_done (popped w rest)). exact Logic.I.
  - set (w1 := push (popped w rest) [KScript l]). assert (E : wstep env w = Ok (user c w1)) by (unfold wstep; rewrite K; reflexivity).
    assert (J : inv None (user c w1)) by (eapply wstep_inv; eauto). assert (NL : ~ In UOpen l) by (intros X; apply N; right; exact X).
    assert (H : (kept w (user c w1) /\ v_stack (user c w1) = KScript l :: rest) \/ exists i, user c w1 = push w1 [KClose i]).
    { assert (OP : is_open (v_state w1) = false) by (apply late_open; exact L). destruct c; cbn [user]; try (left; split; [apply kept_same; reflexivity|reflexivity]).
      - exfalso. apply N. left. reflexivity.
      - rewrite OP, andb_false_r. left; split; [apply kept_same; reflexivity|reflexivity].
      - left. unfold close. change (v_state w1) with (v_state w). unfold late in L. destruct (v_state w) eqn:S; cbn in L; try lia; (split; [apply kept_same; cbn; congruence|reflexivity]).
      - right. eauto.
      - left. destruct (f_base _); (split; [apply kept_same; reflexivity|reflexivity]). }
    destruct H as [(H1 & H2)|(i & H)].
    + eapply goes_step; [exact E|exact H1|]. apply IH; auto. eapply late_kept; eauto.
    + rewrite H in *. eapply goes_step; [exact E|apply kept_same; reflexivity|]. eapply goes_then; [apply (goes_close i (push w1 [KClose i]) (KScript l :: rest)); auto; exact L| |exact J]. intros w2 J2 K2 KK _. apply IH; auto. eapply late_kept; [|exact KK]. exact L.
Qed.
Hypothesis none : opens_none env.
Lemma goes_call : forall c w rest, inv None w -> late w -> v_stack w = KCall c :: rest -> goes w rest any.
Proof.
  intros c w rest I L K. set (w1 := with_log (push (next_pos (popped w rest)) [KScript (fst (env (v_pos w)))]) (EvCall c)).
  assert (E : wstep env w = Ok w1) by (unfold wstep; rewrite K; reflexivity). eapply goes_step; [exact E| |].
  - constructor; auto; [apply (k_sub w w), kept_same; reflexivity|]. exists [EvCall c]. reflexivity.
  - apply (goes_script (fst (env (v_pos w)))); [apply none|eapply wstep_inv; eauto|exact L|reflexivity].
Qed.
Lemma goes_report : forall i b w rest, inv None w -> late w -> v_stack w = KClose i :: (if (b : bool) then [KCall (CbException i)] else []) ++ rest -> goes w rest (fun w1 => ~ In i (v_sends w1)).
Proof.
  intros i b w rest I L K. eapply goes_then; [apply goes_close; eauto| |exact I]. intros w1 J K1 KK N. destruct b; cbn [app] in K1.
  - eapply goes_weaken; [eapply goes_call; eauto; eapply late_kept; eauto|]. intros w2 K2 _ X. apply N. apply (k_sends _ _ K2), X.
  - rewrite <- K1. apply goes_done. exact N.
Qed.
Lemma goes_recv : forall g e w rest, inv None w -> late w -> v_stack w = KRecvClose g e :: rest -> goes w rest any.
Proof.
  intros g e w rest I L K. set (w1 := close_recv g (popped w rest)). set (b := recv_open (rget (popped w rest) g) && g_comp (rget (popped w rest) g)). assert (E : wstep env w = Ok (if b then push w1 [KCall (CbComplete g e)] else w1)) by (unfold wstep; rewrite K; reflexivity).
  pose proof (wstep_inv _ _ I E) as J. destruct b.
  - eapply goes_step; [exact E|apply kept_same; reflexivity|]. eapply goes_call; [exact J|exact L|reflexivity].
  - eapply goes_step; [exact E|apply kept_same; reflexivity|]. apply (goes_done w1). exact Logic.I.
Qed.
Lemma goes_sends : forall m w rest, (length (v_sends w) <= m)%nat -> inv None w -> late w -> v_stack w = KSendLoop :: rest -> goes w rest (fun w1 => v_sends w1 = []).
Proof.
  induction m as [|m IH]; intros w rest M I L K; destruct (v_sends w) as [|i l] eqn:S.
  1,3: eapply (goes_step w (popped w rest)); [unfold wstep; rewrite K; cbn [popped v_sends]; rewrite S; reflexivity|apply kept_same; reflexivity|]; apply (goes_done (popped w rest)); exact S.
  - cbn in M. lia.
  - set (w1 := push (popped w rest) [KAssert i; KSendLoop]). assert (B : f_bound (sget w i) = true) by (apply I; rewrite S; left; reflexivity).
    assert (E : wstep env w = Ok (exception_report i w1)). { unfold wstep. rewrite K. cbn [popped v_sends]. rewrite S. unfold flow_session_closed. change (sget (push (popped w rest) [KAssert i; KSendLoop]) i) with (sget w i). rewrite B. reflexivity. }
    pose proof (wstep_inv _ _ I E) as J. eapply goes_step; [exact E|apply kept_same; reflexivity|]. eapply goes_then; [eapply (goes_report i (f_exc (sget w i)) _ (KAssert i :: KSendLoop :: rest)); [exact J|exact L|reflexivity]| |exact J].
    intros w2 J2 K2 KK N. assert (L2 : late w2) by (eapply late_kept; [|exact KK]; exact L).
    assert (E2 : wstep env w2 = Ok (popped w2 (KSendLoop :: rest))). { unfold wstep. rewrite K2. cbn [popped v_sends]. destruct (has i (v_sends w2)) eqn:H; [apply has_in in H; contradiction|reflexivity]. }
    eapply goes_step; [exact E2|apply kept_same; reflexivity|]. apply IH; [|eapply wstep_inv; eauto|exact L2|reflexivity].
    cbn [popped v_sends]. destruct (k_sub _ _ KK) as (p & P). change (v_sends (exception_report i w1)) with (v_sends w) in P. rewrite S in P. assert (length (filter p (i :: l)) < length (i :: l))%nat by (apply (filter_less _ p i); [left; reflexivity|rewrite <- P; exact N]). rewrite P. cbn [length] in *. lia.
Qed.

Definition goes2 (w : world) (rest : list frame) (P : world -> Prop) : Prop := exists n w1, steps env n w w1 /\ v_stack w1 = rest /\ v_state w1 = v_state w /\ (exists p, v_sends w1 = filter p (v_sends w)) /\ (exists l, v_log w1 = l ++ v_log w) /\ P w1.
Lemma goes_recvs : forall m w rest, (length (v_recvs w) <= m)%nat -> inv None w -> late w -> v_stack w = KRecvLoop :: rest -> v_sends w = [] -> goes2 w rest (fun w1 => v_recvs w1 = [] /\ v_sends w1 = []).
Proof.
  induction m as [|m IH]; intros w rest M I L K S0; destruct (v_recvs w) as [|(k & g) l] eqn:S.
  1,3: exists 1%nat, (popped w rest); split; [apply steps_1; unfold wstep; rewrite K; cbn [popped v_recvs]; rewrite S; reflexivity|]; split; [reflexivity|]; split; [reflexivity|]; split; [exists (fun _ => true); cbn [popped v_sends]; rewrite S0; reflexivity|]; split; [exists []; reflexivity|auto].
  - cbn in M. lia.
  - set (w1 := push (popped w rest) [KRecvClose g true; KAborted g; KErase k g; KRecvLoop]). assert (E : wstep env w = Ok w1) by (unfold wstep; rewrite K; cbn [popped v_recvs]; rewrite S; reflexivity).
    pose proof (wstep_inv _ _ I E) as J. destruct (goes_recv g true w1 (KAborted g :: KErase k g :: KRecvLoop :: rest) J L eq_refl) as (n & w2 & S2 & K2 & KK & _).
    pose proof (steps_inv _ _ _ J S2) as J2. destruct KK as [KA KB (p & KC) (lg & KD)]. change (v_state w1) with (v_state w) in KA. change (v_recvs w1) with (v_recvs w) in KB. change (v_sends w1) with (v_sends w) in KC. change (v_log w1) with (v_log w) in KD. rewrite S0 in KC. cbn in KC.
    assert (E3 : exists w3, wstep env w2 = Ok w3 /\ v_stack w3 = KErase k g :: KRecvLoop :: rest /\ v_state w3 = v_state w2 /\ v_recvs w3 = v_recvs w2 /\ v_sends w3 = v_sends w2 /\ v_log w3 = v_log w2) by (unfold wstep; rewrite K2; eexists; split; [reflexivity|]; auto 8).
    destruct E3 as (w3 & E3 & F1 & F2 & F3 & F4 & F5). pose proof (wstep_inv _ _ J2 E3) as J3.
    assert (E4 : exists w4, wstep env w3 = Ok w4 /\ v_stack w4 = KRecvLoop :: rest /\ v_state w4 = v_state w3 /\ v_recvs w4 = l /\ v_sends w4 = v_sends w3 /\ v_log w4 = v_log w3).
    { unfold wstep. rewrite F1. cbn [popped v_recvs]. rewrite F3, KB, S. cbn [find_recv]. rewrite Z.eqb_refl, Nat.eqb_refl. eexists; split; [reflexivity|]. cbn [with_recvs popped v_stack v_state v_recvs v_sends v_log drop_key fst]. rewrite Z.eqb_refl. auto 8. }
    destruct E4 as (w4 & E4 & G1 & G2 & G3 & G4 & G5). pose proof (wstep_inv _ _ J3 E4) as J4.
    destruct (IH w4 rest) as (n5 & w5 & S5 & H1 & H2 & H3 & (l5 & H4) & H5); auto; [rewrite G3; cbn in M; lia|unfold late; rewrite G2, F2, KA; exact L|congruence|].
    clear S. exists (S (n + S (S n5)))%nat, w5. split; [econstructor; [exact E|]; eapply steps_app; [exact S2|]; econstructor; [exact E3|]; econstructor; [exact E4|exact S5]|]. split; [exact H1|]. split; [congruence|]. destruct H5 as (H5 & H6). split; [exists (fun _ => true); rewrite S0, H6; reflexivity|]. split; [|auto]. exists (l5 ++ lg). rewrite H4, G5, F5, KD, app_assoc. reflexivity.
Qed.
Lemma goes_waiting : forall l w rest, inv None w -> late w -> v_stack w = KWaiting l :: rest -> goes w rest any.
Proof.
  induction l as [|i l IH]; intros w rest I L K.
  - eapply (goes_step w (popped w rest)); [unfold wstep; rewrite K; reflexivity|apply kept_same; reflexivity|]. apply (goes_done (popped w rest)). exact Logic.I.
  - set (w1 := push (popped w rest) [KWaiting l]). assert (E : wstep env w = Ok (if has i (v_waiting w1) then flow_session_closed i w1 else w1)) by (unfold wstep; rewrite K; reflexivity).
    pose proof (wstep_inv _ _ I E) as J. unfold flow_session_closed in *. destruct (has i (v_waiting w1)); [destruct (_ || _)|].
    + eapply goes_step; [exact E|apply kept_same; reflexivity|]. eapply goes_then; [eapply (goes_report i (f_exc (sget w1 i)) _ (KWaiting l :: rest)); [exact J|exact L|reflexivity]| |exact J]. intros w2 J2 K2 KK _. apply IH; auto. eapply late_kept; [|exact KK]. exact L.
    + eapply goes_step; [exact E|apply kept_same; reflexivity|]. apply IH; auto.
    + eapply goes_step; [exact E|apply kept_same; reflexivity|]. apply IH; auto.
Qed.
Lemma session_closes : forall w r rest, reachable env w -> v_stack w = closing r ++ rest ->
  exists n w1 l, steps env n w w1 /\ v_stack w1 = rest /\ v_state w1 = v_state w /\ v_sends w1 = [] /\ v_recvs w1 = [] /\ v_log w1 = l ++ v_log w /\ In (EvTold r) l.
Proof.
  intros w r rest R K. pose proof (reach_inv w R) as I. assert (L : late w). { destruct (i_shape _ _ I) as (cl & ops & E & F & P). rewrite K in E. cbn in E. inversion P; subst; auto; cbn in E; try discriminate. subst ops. discriminate. }
  destruct (goes_sends _ w ([KRecvLoop; KTold r] ++ rest) (le_n _) I L K) as (n1 & w1 & S1 & K1 & KK1 & N1). pose proof (steps_inv _ _ _ I S1) as I1. assert (L1 : late w1) by (eapply late_kept; eauto).
  destruct (goes_recvs _ w1 ([KTold r] ++ rest) (le_n _) I1 L1 K1 N1) as (n2 & w2 & S2 & K2 & A2 & _ & (l2 & B2) & C2 & D2). pose proof (steps_inv _ _ _ I1 S2) as I2.
  assert (E3 : exists w3, wstep env w2 = Ok w3 /\ v_stack w3 = KWaiting (v_waiting w2) :: rest /\ v_state w3 = v_state w2 /\ v_recvs w3 = v_recvs w2 /\ v_sends w3 = v_sends w2 /\ v_log w3 = EvTold r :: v_log w2) by (unfold wstep; rewrite K2; eexists; split; [reflexivity|]; auto 8).
  destruct E3 as (w3 & E3 & F1 & F2 & F3 & F4 & F5). pose proof (wstep_inv _ _ I2 E3) as I3. assert (L3 : late w3) by (unfold late; rewrite F2, A2; exact L1).
  destruct (goes_waiting _ w3 rest I3 L3 F1) as (n4 & w4 & S4 & K4 & KK4 & _). destruct (k_sub _ _ KK4) as (p4 & P4). destruct (k_log _ _ KK4) as (l4 & Q4). destruct (k_log _ _ KK1) as (l1 & Q1).
  exists (n1 + (n2 + S n4))%nat, w4, (l4 ++ EvTold r :: l2 ++ l1). split; [eapply steps_app; [exact S1|]; eapply steps_app; [exact S2|]; econstructor; eauto|]. split; [exact K4|]. split; [rewrite (k_state _ _ KK4), F2, A2; apply (k_state _ _ KK1)|]. split; [rewrite P4, F4, D2; reflexivity|]. split; [rewrite (k_recvs _ _ KK4), F3; exact C2|].
  split; [rewrite Q4, F5, B2, Q1; rewrite <- app_assoc; cbn [app]; rewrite <- app_assoc; reflexivity|]. apply in_elt.
Qed.
End Env.

(** ** Runs by computation *)
Fixpoint run (env : nat -> list ucall * bool) (n : nat) (w : world) : world :=
  match n with O => w | S n => match wstep env w with Ok w1 => run env n w1 | _ => w end end.
Lemma run_later : forall env n w0 w, later env w0 w -> later env w0 (run env n w).
Proof. intros env. induction n as [|n IH]; intros w0 w L; cbn [run]; [exact L|]. destruct (wstep env w) as [w1| |] eqn:E; auto. apply IH. eapply later_step; eauto. Qed.
(** Operations one after the other, each with all that follows from it *)
Definition act (env : nat -> list ucall * bool) (n : nat) (w : world) (o : wop) : world := match v_stack w with [] => run env n (do_op o w) | _ => w end.
Lemma act_later : forall env n w0 w o, later env w0 w -> later env w0 (act env n w o).
Proof. intros env n w0 w o L. unfold act. destruct (v_stack w) eqn:K; [|exact L]. apply run_later. apply later_op; auto. Qed.
Definition acts (env : nat -> list ucall * bool) (n : nat) (l : list wop) (w : world) : world := fold_left (act env n) l w.
Lemma acts_later : forall env n l w0 w, later env w0 w -> later env w0 (acts env n l w).
Proof. intros env n. induction l as [|o l IH]; intros w0 w L; cbn; [exact L|]. apply IH, act_later, L. Qed.

(** ** A callback that opens another flow: closing never comes to an end *)
Definition opener (n : nat) : list ucall * bool := ([UOpen; USetSend (S n) true false false false], false).
Definition busy (n : nat) (w : world) : Prop :=
  v_state w = S_CLOSED /\ v_indexed w = true /\ v_stack w = closing true /\ v_sends w = [n] /\ length (v_sf w) = S n /\ sget w n = mkSf true 0 true false true false false false false false /\ v_pos w = n /\ told true (v_log w) = 0%nat.
Ltac wcbn := cbn [v_state v_interest v_opening v_indexed v_reg v_sends v_waiting v_recvs v_sf v_rf v_stack v_pos v_log with_state with_interest with_index with_sends with_waiting with_recvs with_sfs with_rfs push popped with_log next_pos app closing
  f_base f_st f_bound f_opening f_exc f_wr f_recv f_far f_notify f_sent fst opener orb andb negb is_open Nat.eqb Nat.ltb Nat.leb new_sf user].
Lemma busy_next : forall n w, busy n w -> exists w1, steps opener 8 w w1 /\ busy (S n) w1.
Proof.
  intros n w (B1 & B2 & B3 & B4 & B5 & B6 & B7 & B8). destruct w as [st it op ix rg sn wt rv fs gs sk ps lg]. unfold sget in B6. cbn [v_state v_indexed v_stack v_sends v_sf v_pos v_log] in *. subst st ix sk sn ps.
  assert (G1 : forall l (x : sf), length l = S n -> nth n (set_nth l n x) sf0 = x) by (intros l x E; rewrite set_nth_nth, Nat.eqb_refl, E; destruct (Nat.ltb_spec n (S n)); [reflexivity|lia]).
  assert (W0 : without n [n] = []) by (cbn; rewrite Nat.eqb_refl; reflexivity).
  assert (NN : has n [S n] = false) by (unfold has; cbn [existsb]; destruct (Nat.eqb_spec (S n) n); [lia|reflexivity]).
  assert (N1 : forall l (x : sf), length l = S n -> nth (S n) (l ++ [x]) sf0 = x) by (intros l x E; rewrite app_nth2, E, Nat.sub_diag by lia; reflexivity).
  eexists. split.
  - eapply steps_S. { unfold wstep. wcbn. unfold flow_session_closed, exception_report, sget, sset. wcbn. rewrite B6. wcbn. reflexivity. }
    eapply steps_S. { unfold wstep. wcbn. unfold close_send, goto_closed, sget, sset. wcbn. repeat (rewrite G1 by (rewrite ?set_nth_length; exact B5); wcbn). rewrite W0. reflexivity. }
    eapply steps_S. { unfold wstep. wcbn. unfold close_rest, sget, sset. wcbn. repeat (rewrite G1 by (rewrite ?set_nth_length; exact B5); wcbn). reflexivity. }
    eapply steps_S. { unfold wstep. wcbn. reflexivity. }
    eapply steps_S. { unfold wstep. wcbn. unfold open_flow, bind_flow, sget, sset. wcbn. rewrite !set_nth_length, B5. rewrite N1 by (rewrite ?set_nth_length; exact B5). wcbn. reflexivity. }
    eapply steps_S. { unfold wstep. wcbn. reflexivity. }
    eapply steps_S. { unfold wstep. unfold sset. wcbn. reflexivity. }
    eapply steps_S. { unfold wstep. unfold sset. wcbn. rewrite NN. reflexivity. }
    constructor.
  - unfold busy, sget, sset. wcbn. split; [reflexivity|]. split; [reflexivity|]. split; [reflexivity|]. split; [reflexivity|].
    split; [rewrite ?set_nth_length, ?app_length, ?set_nth_length, B5; cbn; lia|]. split; [|split; [reflexivity|exact B8]].
    rewrite !set_nth_nth, ?set_nth_length, ?app_length, ?set_nth_length, B5. cbn [length]. rewrite Nat.eqb_refl. destruct (Nat.ltb_spec (S n) (S n + 1)); [|lia]. cbn [andb]. reflexivity.
Qed.
Lemma busy_forever : forall k n w, busy n w -> exists m w1, (k <= m)%nat /\ steps opener m w w1 /\ told true (v_log w1) = 0%nat /\ v_stack w1 <> [].
Proof.
  assert (T : forall m n w, busy n w -> exists w1, steps opener (8 * m) w w1 /\ busy (m + n) w1).
  { induction m as [|m IH]; intros n w B; [exists w; split; [constructor|exact B]|]. destruct (busy_next n w B) as (w1 & S1 & B1). destruct (IH _ _ B1) as (w2 & S2 & B2). exists w2. split; [replace (8 * S m)%nat with (8 + 8 * m)%nat by lia; eapply steps_app; eauto|]. replace (S m + n)%nat with (m + S n)%nat by lia. exact B2. }
  intros k n w B. destruct (T k n w B) as (w2 & S2 & B2). exists (8 * k)%nat, w2. split; [lia|]. split; [exact S2|]. destruct B2 as (_ & _ & K & _ & _ & _ & _ & T0). split; [exact T0|]. rewrite K. discriminate.
Qed.
