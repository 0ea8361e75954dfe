(** The statements of C68 and C69, from the invariants. *)
From Coq Require Import Permutation Sorted.
From Verif Require Import Base BaseFacts VLU Address AddressSpec AddressProofs Redir RedirSrv RedirSpec RedirProofs RedirRunProofs RedirSrvProofs.
Open Scope res_scope.

Section P.
Variable hmac : list Z -> list Z -> list Z.
Hypothesis MAC : mac_ok hmac.

Lemma reach : forall es c, history es -> run hmac cli_new es = Ok c -> exists t, INV hmac t c.
Proof. intros es c H R. destruct (history_fine hmac MAC es H) as [c' [t [E I]]]. exists t. congruence. Qed.

Lemma settings_kept : forall es c, history es -> run hmac cli_new es = Ok c -> c_status c = CONNECTED -> exists f, c_send c = Some f /\ f_ses f = (c_ka c, c_rl c, c_fi c).
Proof.
  intros es c H R E. destruct (reach es c H R) as [t I]. pose proof (I_shape _ _ _ I) as SH. unfold SHAPE in SH. rewrite E in SH. destruct SH as [f [EF _]]. exists f. split; [exact EF|].
  apply (I_view _ _ _ I E f EF).
Qed.
Lemma view : forall es c f pw fp far, history es -> run hmac cli_new es = Ok c -> c_status c = CONNECTED -> c_send c = Some f ->
  creds_good pw (f_creds f) -> pw = [] \/ f_pre f = 0%nat ->
  exists s act, conn_run hmac pw (scl_new pw fp (f_nonce f) far, false) (f_out f) = Ok (s, act) /\ served s /\ agrees c s act.
Proof. intros es c f pw fp far H R E EF CG PRE. destruct (reach es c H R) as [t I]. apply (I_view _ _ _ I E f EF); assumption. Qed.

Lemma life : forall es c, history es -> run hmac cli_new es = Ok c ->
  (c_send c <> None <-> c_status c = CONNECTING \/ c_status c = CONNECTED)
  /\ (c_rtimer c <> None <-> c_status c = DISCONNECTED \/ c_status c = DISCONNECTED_BAD_AUTH)
  /\ (c_recv c = true -> c_send c <> None) /\ (c_attempts c = [] <-> c_status c = IDLE \/ (c_status c = CLOSED /\ c_attempts c = []))
  /\ spaced (c_attempts c)
  /\ forall w, c_rtimer c = Some w -> exists a r, c_attempts c = a :: r /\ a + 5 * SECOND <= w.
Proof.
  intros es c H R. destruct (reach es c H R) as [t I]. pose proof (I_shape _ _ _ I) as SH. pose proof (I_life _ _ _ I) as L. unfold SHAPE in SH. unfold LIFE in L.
  spl; [| | exact (I_recv _ _ _ I) | | exact (I_spaced _ _ _ I) |].
  - destruct (c_status c); try (rewrite SH; split; [congruence | intros [?|?]; discriminate]); destruct SH as [f [-> _]]; split; auto; discriminate.
  - destruct (c_status c); try (destruct L as [-> _]; split; [congruence | intros [?|?]; discriminate]); try (destruct L as [w [a [r [-> _]]]]; split; auto; discriminate).
  - destruct (c_status c); try (destruct L as [_ L]; split; [intros; try contradiction; auto | intros [?|[? ?]]; try discriminate; assumption]).
    + destruct L as [w [a [r [_ [-> _]]]]]. split; [discriminate | intros [?|[? ?]]; discriminate].
    + destruct L as [w [a [r [_ [-> _]]]]]. split; [discriminate | intros [?|[? ?]]; discriminate].
  - intros w E. destruct (c_status c); try (destruct L as [L _]; congruence); try congruence; destruct L as [w' [a [r [E1 [E2 E3]]]]]; exists a, r; split; auto; unfold RECONNECT_LIMIT in E3; assert (w = w') by congruence; subst; exact E3.
Qed.

Lemma closed_step : forall t t' c e c', INV hmac t c -> t <= t' -> event_ok e -> c_status c = CLOSED -> step hmac c t' e = Ok c' -> c_status c' = CLOSED /\ c_attempts c' = c_attempts c.
Proof.
  intros t t' c e c' I T OK E ST. pose proof (I_shape _ _ _ I) as SH. pose proof (I_life _ _ _ I) as L. unfold SHAPE in SH. unfold LIFE in L. rewrite E in SH, L.
  assert (RC : c_recv c = false) by (destruct (c_recv c) eqn:RC; [exfalso; apply (I_recv _ _ _ I RC); exact SH | reflexivity]).
  assert (CALL : forall o, op_ok o -> call c t' o = Ok c' -> c_status c' = CLOSED /\ c_attempts c' = c_attempts c).
  { intros o OO EC. destruct (call_fine c t' o (I_shape _ _ _ I) (I_fields _ _ _ I) OO ltac:(left; congruence)) as [c1 [E1 [_ [_ [[FA FS] _]]]]]. assert (c1 = c') by congruence. subst c1. split; [|exact FA]. destruct FS as [[FS _]|[FS _]]; congruence. }
  destruct e as [o opened cb|nonce cb|reason cb|m|bytes cb|opened cb|]; cbn [step] in ST; cbn [event_ok] in OK.
  - destruct OK as [OO _]. destruct o; try (apply (CALL _ OO); exact ST). rewrite E in ST. cbn [status_eqb] in ST. injection ST as <-. auto.
  - rewrite SH in ST. injection ST as <-. auto.
  - rewrite SH in ST. injection ST as <-. auto.
  - rewrite SH in ST. injection ST as <-. auto.
  - rewrite RC in ST. injection ST as <-. auto.
  - rewrite L in ST. injection ST as <-. auto.
  - destruct (c_ltimer c) as [w|]; [|injection ST as <-; auto]. destruct (w <=? t'); [|injection ST as <-; auto]. cbv zeta in ST.
    destruct (c_changed (w_load c (c_load c) (c_interval c) (c_changed c) None)); [|injection ST as <-; auto].
    unfold schedule_send_load, send_load, is_connected, w_load in ST. cbn in ST. rewrite E in ST. cbn in ST. injection ST as <-. cbn. auto.
Qed.
Lemma closed_run : forall es t c c', INV hmac t c -> timed t es -> Forall (fun te => event_ok (snd te)) es -> c_status c = CLOSED -> run hmac c es = Ok c' ->
  c_status c' = CLOSED /\ c_attempts c' = c_attempts c /\ exists t', INV hmac t' c'.
Proof.
  induction es as [|[t' e] es IH]; intros t c c' I T OK E R; cbn [run timed] in *.
  - injection R as <-. spl; auto. eauto.
  - destruct T as [T T']. inversion OK; subst. cbn [snd] in *. destruct (step_fine hmac MAC t t' c e I T ltac:(assumption)) as [c1 [E1 I1]]. rewrite E1 in R. cbn [rbind] in R.
    destruct (closed_step t t' c e c1 I T ltac:(assumption) E E1) as [S1 A1]. destruct (IH t' c1 c' I1 T' ltac:(assumption) S1 R) as [S2 [A2 X]]. spl; auto. congruence.
Qed.
Lemma run_split : forall a b c, run hmac c (a ++ b) = rbind (run hmac c a) (fun c => run hmac c b).
Proof. induction a as [|[t e] a IH]; intros b c; cbn [app run rbind]; [reflexivity|]. destruct (step hmac c t e); cbn [rbind]; auto. Qed.
Lemma run_time : forall es t c, INV hmac t c -> timed t es -> Forall (fun te => event_ok (snd te)) es ->
  forall c', run hmac c es = Ok c' -> exists t', INV hmac t' c' /\ forall r, timed t (es ++ r) -> timed t' r.
Proof.
  induction es as [|[t' e] es IH]; intros t c I T OK c' R; cbn [run timed app] in *.
  - injection R as <-. eauto.
  - destruct T as [T T']. inversion OK; subst. cbn [snd] in *. destruct (step_fine hmac MAC t t' c e I T ltac:(assumption)) as [c1 [E1 I1]]. rewrite E1 in R. cbn [rbind] in R.
    destruct (IH t' c1 I1 T' ltac:(assumption) c' R) as [t2 [I2 H]]. exists t2. split; [exact I2|]. intros r [_ X]. auto.
Qed.
Lemma timed_app : forall a b t, timed t (a ++ b) -> timed t a.
Proof. induction a as [|[t' e] a IH]; intros b t H; cbn [app timed] in *; [exact I|]. destruct H. split; eauto. Qed.
Lemma closed_final : forall a b c c', history (a ++ b) -> run hmac cli_new a = Ok c -> c_status c = CLOSED -> run hmac cli_new (a ++ b) = Ok c' ->
  c_status c' = CLOSED /\ c_send c' = None /\ c_rtimer c' = None /\ c_attempts c' = c_attempts c.
Proof.
  intros a b c c' [T OK] R E R'. rewrite run_split, R in R'. cbn [rbind] in R'. apply Forall_app in OK. destruct OK as [OKA OKB].
  destruct (run_time a 0 cli_new (inv_new hmac) (timed_app _ _ _ T) OKA c R) as [t [I H]]. destruct (closed_run b t c c' I (H b T) OKB E R') as [S [A [t' I']]].
  pose proof (I_shape _ _ _ I') as SH. pose proof (I_life _ _ _ I') as L. unfold SHAPE in SH. unfold LIFE in L. rewrite S in SH, L. auto.
Qed.

Lemma paused_quiet : forall es c o now c' f', history es -> run hmac cli_new es = Ok c -> op_ok o -> c_status c = CONNECTED -> c_paused c = true -> o <> OSetPaused false ->
  call c now o = Ok c' -> c_send c' = Some f' -> exists f ms, c_send c = Some f /\ f_out f' = f_out f ++ ms /\ Forall (fun m => hd 0 m <> CMD_SETTINGS) ms.
Proof.
  intros es c o now c' f' H R OO E PA NP EC EF. destruct (reach es c H R) as [t I].
  destruct (call_fine c now o (I_shape _ _ _ I) (I_fields _ _ _ I) OO ltac:(left; congruence)) as [c1 [E1 [SH [_ [[_ FS] W]]]]]. assert (c1 = c') by congruence. subst c1.
  assert (S' : c_status c' = CONNECTED).
  { destruct FS as [[FS _]|[FS _]]; [congruence|]. unfold SHAPE in SH. rewrite FS in SH. congruence. }
  assert (PA' : c_paused c' = true).
  { destruct o; cbn [call] in EC; cbv zeta in EC; try (injection EC as <-; (first [exact PA | reflexivity])).
    - rewrite E in EC. injection EC as <-. (first [exact PA | reflexivity]).
    - unfold with_send, w_ses, w_send in EC. destruct (is_connected _); [cbn in EC; destruct (c_send c); [|discriminate]|]; injection EC as <-; (first [exact PA | reflexivity]).
    - unfold with_send, w_ses, w_send in EC. destruct (is_connected _); [cbn in EC; destruct (c_send c); [|discriminate]|]; injection EC as <-; (first [exact PA | reflexivity]).
    - unfold send_settings, send_draining, write_msg, with_send, w_active, w_send in EC. cbn [c_status c_active c_paused c_send] in EC. rewrite PA in EC. cbn [negb] in EC. rewrite andb_false_r in EC.
      destruct (negb (Bool.eqb b (c_active c))); [|injection EC as <-; (first [exact PA | reflexivity])]. cbn [rbind] in EC. cbn [c_active c_send] in EC.
      destruct (is_connected _ && negb b); [destruct (c_send c); [|discriminate]|]; injection EC as <-; (first [exact PA | reflexivity]).
    - destruct b; [|congruence]. cbn in EC. injection EC as <-. reflexivity.
    - unfold schedule_send_load, send_load, write_msg, with_send, w_load, w_send in EC. destruct (negb _); [|injection EC as <-; (first [exact PA | reflexivity])]. cbn in EC.
      destruct (c_ltimer c); [injection EC as <-; (first [exact PA | reflexivity])|]. unfold is_connected in EC. cbn in EC. destruct (status_eqb _ _); [destruct (c_send c); [|discriminate]|]; cbn in EC; injection EC as <-; (first [exact PA | reflexivity]).
    - unfold w_raddrs, w_send in EC. cbn in EC. destruct (c_send c); injection EC as <-; (first [exact PA | reflexivity]).
    - unfold w_fi, w_send in EC. cbn in EC. destruct (c_send c); injection EC as <-; (first [exact PA | reflexivity]).
    - unfold send_settings, write_msg, with_send, w_adv, w_send in EC. cbn [c_status c_active c_paused c_send] in EC. rewrite PA in EC. cbn [negb] in EC. rewrite andb_false_r in EC. destruct (negb _); injection EC as <-; (first [exact PA | reflexivity]).
    - unfold send_settings, w_addrs in EC. cbn [c_paused] in EC. rewrite PA in EC. cbn [negb] in EC. rewrite andb_false_r in EC. injection EC as <-. (first [exact PA | reflexivity]).
    - unfold send_settings, w_addrs in EC. cbn [c_paused] in EC. rewrite PA in EC. cbn [negb] in EC. rewrite andb_false_r in EC. injection EC as <-. (first [exact PA | reflexivity]).
    - unfold send_settings, w_addrs in EC. cbn [c_paused] in EC. rewrite PA in EC. cbn [negb] in EC. rewrite andb_false_r in EC. injection EC as <-. (first [exact PA | reflexivity]).
    - unfold write_msg, with_send, w_send in EC. destruct (is_connected c); [destruct (c_send c); [|discriminate]|]; injection EC as <-; (first [exact PA | reflexivity]). }
  destruct (W S' f' EF) as [_ [f [ms [H1 [H2 [_ [_ [_ [_ [_ H3]]]]]]]]]]. exists f, ms. auto.
Qed.

Lemma return_flow : forall es c t m c', history es -> run hmac cli_new es = Ok c -> step hmac c t (ERecvFlow m) = Ok c' ->
  (c_recv c' = true <-> c_recv c = true \/ (c_send c <> None /\ names_redirector m)).
Proof.
  intros es c t m c' H R ST. cbn [step] in ST. destruct (c_send c) as [f|] eqn:EF.
  - injection ST as <-. unfold on_recv_flow, w_recv. destruct (c_recv c) eqn:RC; cbn [orb]; [rewrite RC; tauto|]. destruct (check_metadata m) eqn:CM; cbn [negb].
    + cbn. apply check_metadata_spec in CM. split; [intros _; right; split; [discriminate | exact CM] | auto].
    + rewrite RC. split; [discriminate|]. intros [?|[_ X]]; [discriminate|]. apply check_metadata_spec in X. congruence.
  - injection ST as <-. split; [auto|]. intros [?|[? _]]; [assumption | congruence].
Qed.

Lemma reflexive_taken : forall c t a, real_addr a -> c_recv c = true ->
  exists c', step hmac c t (EMessage (CMD_REFLEXIVE_ADDR_REPORT :: addr_encode a) []) = Ok c' /\ c_refl c' = a /\ c_reflok c' = true.
Proof.
  intros c t a [A1 A2] RC. cbn [step]. rewrite RC. unfold on_message. change (CMD_REFLEXIVE_ADDR_REPORT =? CMD_REFLEXIVE_ADDR_REPORT) with true. cbv iota.
  pose proof (encode_roundtrip (c_refl c) a [] A1 A2 ltac:(constructor)) as D. rewrite app_nil_r in D. rewrite D.
  unfold callback. destruct (c_cb _); cbn [calls]; eexists; split; [reflexivity | cbn; auto | reflexivity | cbn; auto].
Qed.

(** ** Client and server together *)
Lemma end_to_end : forall es c f pw before fp far rest v0 v,
  history es -> run hmac cli_new es = Ok c -> c_status c = CONNECTED -> c_send c = Some f ->
  creds_good pw (f_creds f) -> pw = [] \/ f_pre f = 0%nat ->
  Forall sevent_ok (before ++ VConnect fp (f_nonce f) far :: rest) ->
  srv_run hmac pw srv_new before = Ok v0 -> srv_run hmac pw srv_new (before ++ VConnect fp (f_nonce f) far :: rest) = Ok v ->
  let i := length (v_cls v0) in
  Forall (undisturbed i) rest -> messages_to i rest = f_out f ->
  exists s, nth_error (v_cls v) i = Some s /\ served s /\ agrees c s (is_active v i).
Proof.
  intros es c f pw before fp far rest v0 v H R E EF CG PRE OK R0 RV i UN MS.
  apply Forall_app in OK. destruct OK as [OKB OKR]. inversion OKR as [|? ? OKC OKS]; subst.
  assert (SPL : forall a b w, srv_run hmac pw w (a ++ b) = rbind (srv_run hmac pw w a) (fun w => srv_run hmac pw w b)).
  { induction a as [|e a IH]; intros b w; cbn [app srv_run rbind]; [reflexivity|]. destruct (srv_step hmac pw w e); cbn [rbind]; auto. }
  rewrite SPL, R0 in RV. cbn [rbind srv_run srv_step] in RV.
  pose proof (srv_run_inv hmac pw before v0 OKB R0) as S0.
  destruct (srv_step_fine hmac pw v0 _ S0 OKC) as [v1 [E1 S1]]. cbn [srv_step] in E1. injection E1 as <-.
  assert (N : nth_error (v_cls v0 ++ [scl_new pw fp (f_nonce f) far]) i = Some (scl_new pw fp (f_nonce f) far)) by (unfold i; rewrite nth_error_app2, Nat.sub_diag by lia; reflexivity).
  assert (NA : is_active (mkSrv (v_cls v0 ++ [scl_new pw fp (f_nonce f) far]) (v_active v0) (v_peers v0)) i = false).
  { destruct (is_active _ i) eqn:IA; [|reflexivity]. exfalso. unfold is_active in IA. cbn [v_active] in IA. apply existsb_exists in IA. destruct IA as [x [I X]]. apply Nat.eqb_eq in X. subst x.
    destruct (V_act _ S0 _ I) as [s [EN _]]. assert (nth_error (v_cls v0) i <> None) by congruence. apply nth_error_Some in H0. unfold i in H0. lia. }
  destruct (project hmac pw rest _ v i _ S1 OKS UN N RV) as [s [N' C]]. rewrite NA, MS in C.
  destruct (view es c f pw fp far H R E EF CG PRE) as [s' [act [C' [SV AG]]]]. rewrite C in C'. injection C' as E1 E2. subst s' act. exists s. auto.
Qed.
End P.
