(** Proofs for Sched: what the properties say. *)
From Verif Require Import Base Interface Sched SchedSpec SchedProofs SchedStepProofs SchedServeProofs.
Open Scope res_scope.

Lemma run_INV : forall pri rx l w, (forall f, (pri f < NUM_PRIORITIES)%nat) -> Forall calm_wop l -> wrun (w_init pri rx) l = Ok w -> INV w none.
Proof. intros pri rx l w P C E. pose proof (wrun_fine l _ (INV_init pri rx P) C) as X. rewrite E in X. exact X. Qed.
Lemma queued_asked : forall w n p, INV w none -> (p < NUM_PRIORITIES)%nat -> queued w n p -> asked_at w n p.
Proof.
  intros w n p I Hp (i & x & A & B). exists i, x. split; [exact A|split; [exact B|]]. destruct (i_sched x) eqn:E; [reflexivity|]. rewrite (v_if _ _ I i x A E p Hp) in B. destruct B.
Qed.
Lemma five : (PRI_IMMEDIATE < NUM_PRIORITIES)%nat. Proof. unfold PRI_IMMEDIATE, NUM_PRIORITIES. lia. Qed.
Lemma now_asked : forall w s, INV w none -> ss_state (w_ss w s) = SOpen -> ss_acknow (w_ss w s) = true -> asked_at w (S s) PRI_IMMEDIATE.
Proof. intros w s I O A. apply queued_asked; [exact I|exact five|]. destruct (k_asked _ _ _ _ _ _ _ (v_sess _ _ I s O) A) as [X|[]]. exact X. Qed.
Lemma owed : forall pri rx l w s r, (forall f, (pri f < NUM_PRIORITIES)%nat) -> Forall calm_wop l -> wrun (w_init pri rx) l = Ok w -> ss_state (w_ss w s) = SOpen ->
  (In r (ss_ackq (w_ss w s)) <-> owes w s r) /\ NoDup (ss_ackq (w_ss w s)) /\
  (owes w s r -> (ss_delack (w_ss w s) = true /\ ss_acknow (w_ss w s) = false) \/ (ss_delack (w_ss w s) = false /\ ss_acknow (w_ss w s) = true /\ asked_at w (S s) PRI_IMMEDIATE)).
Proof.
  intros pri rx l w s r P C E O. pose proof (run_INV _ _ _ _ P C E) as I. pose proof (v_sess _ _ I s O) as K. split; [exact (k_ackq _ _ _ _ _ _ _ K r)|]. split; [exact (k_nodup _ _ _ _ _ _ _ K)|].
  intros W. apply (k_ackq _ _ _ _ _ _ _ K r) in W. destruct (ss_acknow (w_ss w s)) eqn:A.
  - right. destruct (k_one _ _ _ _ _ _ _ K A) as [X|[]]. split; [exact X|split; [reflexivity|]]. apply now_asked; assumption.
  - left. split; [|reflexivity]. destruct (k_pending _ _ _ _ _ _ _ K) as [X|X]; [intros X; rewrite X in W; destruct W|congruence|exact X].
Qed.
Lemma two : forall pri rx l w s, (forall f, (pri f < NUM_PRIORITIES)%nat) -> Forall calm_wop l -> wrun (w_init pri rx) l = Ok w -> ss_state (w_ss w s) = SOpen ->
  (2 <= ss_rxp (w_ss w s))%nat -> asked_at w (S s) PRI_IMMEDIATE.
Proof.
  intros pri rx l w s P C E O T. pose proof (run_INV _ _ _ _ P C E) as I. apply now_asked; [exact I|exact O|]. destruct (k_two _ _ _ _ _ _ _ (v_sess _ _ I s O) T) as [X|[]]. exact X.
Qed.
Lemma alarm : forall pri rx l w w' s, (forall f, (pri f < NUM_PRIORITIES)%nat) -> Forall calm_wop l -> wrun (w_init pri rx) l = Ok w -> ss_state (w_ss w s) = SOpen ->
  wstep w (WDelack s) = Ok w' -> asked_at w' (S s) PRI_IMMEDIATE /\ forall r, owes w s r -> owes w' s r.
Proof.
  intros pri rx l w w' s P C E O S. pose proof (run_INV _ _ _ _ P C E) as I. cbn [wstep] in S. destruct (ss_delack (w_ss w s)); [|discriminate].
  assert (I1 : INV w (hole_x none s)) by (eapply INV_weaken; [exact I|hle]). pose proof (ack_now_fine w none s False I1) as X. rewrite S in X. destruct X as (X1 & X2 & X3 & X4).
  split.
  - apply now_asked; [exact X1|rewrite (m_state _ _ X2); exact O|apply X4; apply is_open_iff; exact O].
  - intros r. unfold owes. rewrite (m_rf _ _ X2). auto.
Qed.
Lemma served : forall pri rx l w w' b s p o r q, (forall f, (pri f < NUM_PRIORITIES)%nat) -> Forall calm_wop l -> wrun (w_init pri rx) l = Ok w -> ss_state (w_ss w s) = SOpen ->
  ss_acknow (w_ss w s) = true -> ss_ackq (w_ss w s) = r :: q -> sess_writable w (ss_dest (w_ss w s)) s p o = Ok (w', b) ->
  b = true /\ ~ owes w' s r /\ (exists new, w_log w' = w_log w ++ new /\ In (Acked r) new) /\ (length (ss_ackq (w_ss w' s)) < length (ss_ackq (w_ss w s)))%nat.
Proof.
  intros pri rx l w w' b s p o r q P C E O A Q X. pose proof (run_INV _ _ _ _ P C E) as I. unfold sess_writable in X. rewrite Nat.eqb_refl in X. cbn [negb] in X. rewrite (proj2 (is_open_iff w s) O) in X. cbn [negb] in X.
  unfold send_acks at 1 in X. cbv zeta in X. rewrite A, Q in X. cbn [negb andb] in X. destruct (Nat.eqb_spec (o_fit1 o) 0) as [|F]; cbn [rbind] in X; [discriminate|]. cbn [andb] in X.
  set (k := Nat.min (o_fit1 o) (length (r :: q))) in *. assert (K : (0 < k)%nat) by (subst k; cbn; lia). rewrite (proj2 (Nat.ltb_lt 0 k) K) in X. cbn [negb andb rbind] in X.
  destruct (acked_all_spec (firstn k (r :: q)) w) as (B1 & B2 & B3 & B4 & B5 & B6 & B7 & B8). set (w1 := acked_all w (firstn k (r :: q))) in *.
  unfold send_acks in X. cbn [andb] in X. cbv zeta in X. rewrite set_ss_eq in X. cbn [ss_ackq ss_with_acks] in X.
  set (q1 := skipn k (r :: q)) in *. set (w2 := set_ss w1 s _) in X.
  destruct (acked_all_spec (firstn (Nat.min (o_fit2 o) (length q1)) q1) w2) as (D1 & D2 & D3 & D4 & D5 & D6 & D7 & D8). cbn [rbind] in X. injection X as <- <-. split; [reflexivity|].
  assert (J : In r (firstn k (r :: q))) by (destruct k; [lia|left; reflexivity]).
  split; [|split].
  - intros (_ & Z). cbn [w_rf set_ss] in Z. destruct (in_dec Nat.eq_dec r (firstn (Nat.min (o_fit2 o) (length q1)) q1)) as [M|M]; [rewrite (D8 r M) in Z; discriminate|]. rewrite (D7 r M) in Z. subst w2. cbn [w_rf set_ss] in Z. rewrite (B8 r J) in Z. discriminate.
  - cbn [w_log set_ss]. rewrite D5. subst w2. cbn [w_log set_ss]. rewrite B5, <- app_assoc. eexists. split; [reflexivity|]. apply in_or_app. left. apply in_map. exact J.
  - cbn [w_ss set_ss]. rewrite Nat.eqb_refl. cbn [ss_ackq ss_with_acks]. rewrite skipn_length. assert (LQ : length q1 = (length (r :: q) - k)%nat) by (subst q1; apply skipn_length). rewrite Q. cbn [length] in *. lia.
Qed.

(** *** Data *)
Lemma ready_asked : forall w s p, INV w none -> ss_state (w_ss w s) = SOpen -> ss_ready (w_ss w s) p <> [] -> asked_at w (S s) p \/ (ss_out (w_ss w s) <> [] /\ ss_timeout (w_ss w s) = true) \/ ss_burst (w_ss w s) = true.
Proof.
  intros w s p I O N. pose proof (v_sess _ _ I s O) as K. destruct (k_sched _ _ _ _ _ _ _ K p N) as [X|[X|[X|[]]]].
  - left. apply queued_asked; [exact I|exact (k_pri _ _ _ _ _ _ _ K p N)|exact X].
  - right. left. split; [exact X|exact (k_timeout _ _ _ _ _ _ _ K X)].
  - right. right. exact X.
Qed.
Lemma ready : forall pri rx l w s f, (forall f, (pri f < NUM_PRIORITIES)%nat) -> Forall calm_wop l -> wrun (w_init pri rx) l = Ok w -> can_send w s f ->
  In f (ss_ready (w_ss w s) (sf_pri (w_sf w f))) /\
  (asked_at w (S s) (sf_pri (w_sf w f)) \/ (ss_out (w_ss w s) <> [] /\ ss_timeout (w_ss w s) = true) \/ ss_burst (w_ss w s) = true).
Proof.
  intros pri rx l w s f P C E (A1 & A2 & A3). pose proof (run_INV _ _ _ _ P C E) as I. pose proof (v_bound _ _ I f s A1) as O.
  destruct (k_ready _ _ _ _ _ _ _ (v_sess _ _ I s O) f A1 A2 A3) as [J|[]]. split; [exact J|]. apply ready_asked; [exact I|exact O|]. intros X. rewrite X in J. destruct J.
Qed.
Lemma items : forall pri rx l w i, (forall f, (pri f < NUM_PRIORITIES)%nat) -> Forall calm_wop l -> wrun (w_init pri rx) l = Ok w -> (0 < w_items w i)%nat ->
  exists x, w_ifc w i = Some x /\ In 0%nat (i_q x PRI_IMMEDIATE) /\ i_sched x = true.
Proof.
  intros pri rx l w i P C E N. pose proof (run_INV _ _ _ _ P C E) as I. destruct (v_items _ _ I i N) as (x & A & B). exists x. split; [exact A|split; [exact B|]]. destruct (i_sched x) eqn:S; [reflexivity|].
  rewrite (v_if _ _ I i x A S _ five) in B. destruct B.
Qed.
Lemma w_sched_ss : forall w i n p w' b, w_sched w i n p = Ok (w', b) -> w_ss w' = w_ss w.
Proof. intros w i n p w' b. unfold w_sched. destruct (w_ifc w i); [|congruence]. destruct (schedule_write _ _ _); cbn; try discriminate. intros X; inversion X; reflexivity. Qed.
Lemma sched_flow_out : forall w f w' s, sched_flow w f = Ok w' -> ss_out (w_ss w' s) = ss_out (w_ss w s).
Proof.
  intros w f w' s. unfold sched_flow, sched_flow_on. destruct (maybe_ready w f); [|congruence]. destruct (sf_sess _) as [t|]; [|discriminate]. cbv zeta. destruct (existsb _ _); [congruence|]. destruct (_ <? _)%nat; [|discriminate].
  destruct (w_sched _ _ _ _) as [(w1, b)| |] eqn:E; cbn; try discriminate. intros X; inversion X; subst. apply w_sched_ss in E. rewrite E. cbn. destruct (Nat.eqb_spec s t); subst; reflexivity.
Qed.
Lemma lose_out : forall l w w' s, lose w l = Ok w' -> ss_out (w_ss w' s) = ss_out (w_ss w s).
Proof.
  induction l as [|(f, n) l IH]; intros w w' s; cbn [lose]; [congruence|]. destruct (sched_flow _ f) as [w1| |] eqn:E; cbn [rbind]; try discriminate. intros X. rewrite (IH _ _ _ X). rewrite (sched_flow_out _ _ _ s E). reflexivity.
Qed.
Lemma resched_ss : forall n w s w', resched w s n = Ok w' -> w_ss w' = w_ss w.
Proof.
  induction n as [|n IH]; intros w s w'; cbn [resched]; [congruence|]. destruct (ss_ready (w_ss w s) n); cbn [rbind]; [apply IH|]. destruct (w_sched _ _ _ _) as [(w1, b)| |] eqn:E; cbn [rbind]; try discriminate. apply w_sched_ss in E. intros X. rewrite (IH _ _ _ X). exact E.
Qed.
Lemma step_INV : forall pri rx l w o w', (forall f, (pri f < NUM_PRIORITIES)%nat) -> Forall calm_wop l -> wrun (w_init pri rx) l = Ok w -> calm_wop o -> wstep w o = Ok w' -> INV w' none.
Proof. intros pri rx l w o w' P C E CO S. pose proof (wstep_fine w o (run_INV _ _ _ _ P C E) CO) as X. rewrite S in X. exact X. Qed.
Lemma timeout : forall pri rx l w w' s ka c f, (forall f, (pri f < NUM_PRIORITIES)%nat) -> Forall calm_wop l -> wrun (w_init pri rx) l = Ok w -> ss_state (w_ss w s) = SOpen ->
  ss_out (w_ss w s) <> [] -> wstep w (WTimeout s false ka c) = Ok w' -> can_send w' s f -> asked_at w' (S s) (sf_pri (w_sf w' f)) \/ ss_burst (w_ss w' s) = true.
Proof.
  intros pri rx l w w' s ka c f P C E O N S (A1 & A2 & A3). pose proof (step_INV _ _ _ _ (WTimeout s false ka c) _ P C E Logic.I S) as I'. pose proof (v_bound _ _ I' f s A1) as O'.
  assert (EO : ss_out (w_ss w' s) = []).
  { cbn [wstep] in S. cbv zeta in S. destruct (ss_timeout (w_ss w s)); [|discriminate]. unfold is_open in S. rewrite set_ss_eq in S. cbn [ss_state ss_with_timers] in S. rewrite O in S. destruct (ss_out (w_ss w s)) as [|e out] eqn:EO; [congruence|]. cbn [andb] in S.
    destruct (lose _ _) as [w1| |] eqn:L in S; cbn [rbind] in S; try discriminate. destruct (c =? 0)%nat; [discriminate|]. apply resched_ss in S. rewrite S, set_ss_eq. cbn [ss_out ss_with_cwnd]. rewrite (lose_out _ _ _ s L), set_ss_eq. reflexivity. }
  destruct (k_ready _ _ _ _ _ _ _ (v_sess _ _ I' s O') f A1 A2 A3) as [J|[]].
  destruct (ready_asked w' s (sf_pri (w_sf w' f)) I' O') as [X|[(X & _)|X]]; [intros X; rewrite X in J; destruct J|left; exact X|congruence|right; exact X].
Qed.
Lemma burst : forall pri rx l w w' s f, (forall f, (pri f < NUM_PRIORITIES)%nat) -> Forall calm_wop l -> wrun (w_init pri rx) l = Ok w ->
  wstep w (WBurst s) = Ok w' -> can_send w' s f -> asked_at w' (S s) (sf_pri (w_sf w' f)) \/ (ss_out (w_ss w' s) <> [] /\ ss_timeout (w_ss w' s) = true).
Proof.
  intros pri rx l w w' s f P C E S (A1 & A2 & A3). pose proof (step_INV _ _ _ _ (WBurst s) _ P C E Logic.I S) as I'. pose proof (v_bound _ _ I' f s A1) as O'.
  destruct (k_ready _ _ _ _ _ _ _ (v_sess _ _ I' s O') f A1 A2 A3) as [J|[]].
  destruct (ready_asked w' s (sf_pri (w_sf w' f)) I' O') as [X|[X|X]]; [intros X; rewrite X in J; destruct J|left; exact X|right; exact X|].
  cbn [wstep] in S. cbv zeta in S. destruct (ss_burst (w_ss w s)); [|discriminate]. apply resched_ss in S. rewrite S, set_ss_eq in X. discriminate X.
Qed.
Lemma no_ub : forall pri rx l, (forall f, (pri f < NUM_PRIORITIES)%nat) -> Forall calm_wop l -> Forall no_pri_wop l -> wrun (w_init pri rx) l <> UB.
Proof. intros pri rx l P C N E. pose proof (wrun_fine l _ (INV_init pri rx P) C) as X. rewrite E in X. cbn in X. contradiction. Qed.
Lemma pri_safe : forall pri rx l w f p, (forall f, (pri f < NUM_PRIORITIES)%nat) -> Forall calm_wop l -> wrun (w_init pri rx) l = Ok w ->
  sf_sess (w_sf w f) <> None \/ sf_unsent (w_sf w f) = 0%nat -> wstep w (WUser (UPri f p)) <> UB.
Proof.
  intros pri rx l w f p P C E D. pose proof (run_INV _ _ _ _ P C E) as I. cbn [wstep ustep]. cbv zeta. destruct (Nat.leb_spec NUM_PRIORITIES p) as [|Hp]; [discriminate|]. destruct (_ =? _)%nat; [discriminate|].
  set (w1 := set_sf w f _). assert (I1 : INV w1 (hole_f none f)) by (apply INV_set_sf; [exact I|auto|intros s; apply (v_bound _ _ I)|exact Hp|cbn; auto]).
  intros X. pose proof (sched_flow_fine w1 none f I1) as Y. rewrite X in Y. cbn in Y. rewrite Nat.eqb_refl in Y. cbn in Y. destruct D as [D|D]; [contradiction|].
  revert X. unfold sched_flow, maybe_ready, out_of. subst w1. cbn [w_sf set_sf]. rewrite Nat.eqb_refl. cbn [sf_unsent sf_sess sf_exc]. rewrite Y, D. cbn. discriminate.
Qed.

(** *** Acks that wait for ever *)
Record stranded (w : world) (log : list sev) : Prop := {
  t_ifc : forall i x, w_ifc w i = Some x -> i_sched x = false;
  t_state : ss_state (w_ss w 0) = SOpen;
  t_now : ss_acknow (w_ss w 0) = true;
  t_del : ss_delack (w_ss w 0) = false;
  t_owes : w_rf w 0%nat = RFl (Some 0%nat) true;
  t_log : w_log w = log
}.
Lemma stranded_ack_now : forall w log, stranded w log -> exists w', ack_now w 0 = Ok w' /\ stranded w' log.
Proof.
  intros w log T. unfold ack_now, is_open. rewrite (t_state _ _ T), (t_now _ _ T). cbn [rbind]. eexists. split; [reflexivity|]. destruct T. constructor; cbn; auto.
Qed.
Lemma stranded_ack : forall w log now, stranded w log -> exists w', rf_schedule_ack w 0 now = Ok w' /\ stranded w' log.
Proof.
  intros w log now T. unfold rf_schedule_ack. rewrite (t_owes _ _ T). cbn [rf_sess].
  assert (X : exists w', (if now then ack_now w 0 else Ok w) = Ok w' /\ stranded w' log) by (destruct now; [apply stranded_ack_now; exact T|exists w; auto]).
  destruct X as (w' & -> & T'). cbn [rbind]. rewrite (t_owes _ _ T'). cbn [rf_owes]. eauto.
Qed.
Lemma stranded_ksteps : forall l w log, Forall (fun k => exists now, k = KUser (UAck 0 now)) l -> stranded w log -> exists w', ksteps 0 w false l = Ok (w', false) /\ stranded w' log.
Proof.
  induction l as [|k l IH]; intros w log F T; cbn [ksteps]; [eauto|]. inversion F as [|? ? (now & ->) F']; subst. cbn [kstep ustep].
  destruct (stranded_ack w log now T) as (w1 & -> & T1). cbn [rbind]. apply IH; assumption.
Qed.
Lemma stranded_step : forall w log o, stranded w log -> data_packet o -> match wstep w o with Ok w' => stranded w' log | Rej => True | UB => False end.
Proof.
  intros w log o T D. destruct o as [i|u|s|s limit ka c|s|s l seen m c|i os]; try contradiction; destruct s; try contradiction; cbn [wstep].
  - rewrite (t_del _ _ T). exact Logic.I.
  - destruct (stranded_ksteps l w log D T) as (w1 & -> & T1). cbn [rbind]. unfold after_chunks. cbv zeta.
    set (w2 := set_ss w1 0 _). assert (T2 : stranded w2 log) by (destruct T1; constructor; cbn; auto).
    assert (X : exists w', (if (OBLIGATORY_ACK_AFTER <=? ss_rxp (w_ss w2 0))%nat then ack_now w2 0 else Ok w2) = Ok w' /\ stranded w' log) by (destruct (_ <=? _)%nat; [apply stranded_ack_now; exact T2|eauto]).
    destruct X as (w3 & -> & T3). cbn [rbind]. exact T3.
Qed.
Lemma stranded_run : forall l w log, stranded w log -> Forall data_packet l -> match wrun w l with Ok w' => stranded w' log | Rej => True | UB => False end.
Proof.
  induction l as [|o l IH]; intros w log T F; cbn [wrun]; [exact T|]. inversion F; subst. pose proof (stranded_step w log o T H1) as X. destruct (wstep w o); cbn [rbind]; [apply IH; assumption|exact X|exact X].
Qed.
