(** Proofs about every run of the redirector client. *)
From Verif Require Import Base BaseFacts VLU VLUSpec VLUProofs Address AddressSpec AddressProofs Redir RedirSrv RedirSpec RedirProofs.
Open Scope res_scope.

Lemma on_msg_nonce : forall hmac pw s m s' e, on_msg hmac pw s m = Ok (s', e) -> s_nonce s' = s_nonce s.
Proof.
  intros hmac pw s m s' e E.
  assert (EN : forall s, s_nonce (ensure_return s) = s_nonce s).
  { intros s0. unfold ensure_return, send_reflexive, v_send. destruct (s_recv s0 && negb (s_send s0)); [|reflexivity]. reflexivity. }
  destruct m as [|cmd r]; cbn [on_msg] in E; [injection E as <- <-; reflexivity|].
  destruct (negb (s_auth s) && negb (cmd =? CMD_SIMPLE_AUTH)).
  { unfold delay_close in E. injection E as <- <-. destruct (s_recv s); reflexivity. }
  destruct (cmd =? CMD_SIMPLE_AUTH).
  { unfold on_simple_auth in E. destruct (Nat.ltb (length r) 32); [injection E as <- <-; reflexivity|].
    destruct (lookup (skipn 32 r) pw); [|injection E as <- <-; reflexivity].
    destruct (memcmp (hmac l (s_nonce s)) (firstn 32 r) =? 0); [injection E as <- <-; reflexivity|].
    unfold delay_close in E. injection E as <- <-. destruct (s_recv s); reflexivity. }
  destruct (cmd =? CMD_SETTINGS).
  { unfold on_settings in E. destruct (settings_loop (S (length r)) r false []) as [[[refl addrs]|]| |]; cbn [rbind] in E; try discriminate; injection E as <- <-; [|reflexivity].
    rewrite EN. reflexivity. }
  destruct (cmd =? CMD_DRAINING); [injection E as <- <-; apply EN|].
  destruct (cmd =? CMD_LOAD_FACTOR).
  { unfold on_load_factor in E. destruct (vlu_parse r) as [[v n]| |]; try discriminate; injection E as <- <-; [|reflexivity]. rewrite EN. reflexivity. }
  destruct (cmd =? CMD_USER_DATA); injection E as <- <-; [apply EN | reflexivity].
Qed.
Lemma conn_msg_nonce : forall hmac pw s act m s' act', conn_msg hmac pw (s, act) m = Ok (s', act') -> s_nonce s' = s_nonce s.
Proof.
  intros hmac pw s act m s' act' E. unfold conn_msg in E. destruct (s_recv s && negb (s_held s)); [|injection E as <- <-; reflexivity].
  destruct (on_msg hmac pw s m) as [[s1 e]| |] eqn:EM; cbn [rbind] in E; try discriminate.
  apply on_msg_nonce in EM. destruct e; injection E as <- <-; exact EM.
Qed.
Lemma conn_run_nonce : forall hmac pw ms s act s' act', conn_run hmac pw (s, act) ms = Ok (s', act') -> s_nonce s' = s_nonce s.
Proof.
  induction ms as [|m ms IH]; intros s act s' act' E; cbn [conn_run] in E; [injection E as <- <-; reflexivity|].
  destruct (conn_msg hmac pw (s, act) m) as [[s1 a1]| |] eqn:EM; cbn [rbind] in E; try discriminate.
  apply conn_msg_nonce in EM. apply IH in E. congruence.
Qed.

(** ** Invariants *)
Definition SHAPE (c : cli) : Prop :=
  match c_status c with
  | CONNECTING => exists f, c_send c = Some f /\ f_notify f = true /\ f_out f = []
  | CONNECTED => exists f, c_send c = Some f /\ f_notify f = false
  | _ => c_send c = None
  end.
Record FIELDS (c : cli) : Prop := {
  F_addrs : Forall real_addr (c_addrs c);
  F_load : is_u64 (c_load c);
  F_cb : c_status c = CLOSED -> c_cb c = false;
  F_timer : c_status c <> CLOSED -> c_changed c = true -> c_ltimer c <> None }.
Definition FRAME (c c' : cli) : Prop :=
  c_attempts c' = c_attempts c
  /\ ((c_status c' = c_status c /\ c_rtimer c' = c_rtimer c /\ c_cb c' = c_cb c /\ c_recv c' = c_recv c)
      \/ (c_status c' = CLOSED /\ c_rtimer c' = None /\ c_recv c' = false)).
Definition ses_of (c : cli) : Z * Z * Z := (c_ka c, c_rl c, c_fi c).
(** Between the two states of a connection: what was written keeps the connection served, and agreement. *)
Definition KEEPS (c c' : cli) (ms : list (list Z)) : Prop :=
  forall hmac pw s act, served s ->
    exists s' act', conn_run hmac pw (s, act) ms = Ok (s', act') /\ served s' /\ (agrees c s act -> agrees c' s' act').
Definition WRITES (c c' : cli) : Prop :=
  c_status c' = CONNECTED -> forall f', c_send c' = Some f' ->
  c_status c = CONNECTED /\ exists f ms, c_send c = Some f /\ f_out f' = f_out f ++ ms
    /\ f_nonce f' = f_nonce f /\ f_pre f' = f_pre f /\ f_creds f' = f_creds f
    /\ (f_ses f = ses_of c -> f_ses f' = ses_of c') /\ KEEPS c c' ms
    /\ (c_paused c = true -> c_paused c' = true -> Forall (fun m => hd 0 m <> CMD_SETTINGS) ms).
Definition GOOD (c c' : cli) : Prop := SHAPE c' /\ FIELDS c' /\ FRAME c c' /\ WRITES c c'.

Lemma set_insert_real : forall a l, real_addr a -> Forall real_addr l -> Forall real_addr (set_insert a l).
Proof.
  induction l as [|b l IH]; intros R F; cbn [set_insert]; [constructor; [exact R|constructor]|].
  inversion F; subst. destruct (addr_lt a b); [constructor; assumption|]. destruct (addr_lt b a); [|assumption]. constructor; auto.
Qed.
Lemma Forall_filter : forall A (P : A -> Prop) f l, Forall P l -> Forall P (filter f l).
Proof. intros A P f l F. rewrite Forall_forall in *. intros x I. apply filter_In in I. apply F, I. Qed.

Lemma keeps_nil : forall c c', (forall s act, agrees c s act -> agrees c' s act) -> KEEPS c c' [].
Proof. intros c c' H hmac pw s act S. exists s, act. cbn [conn_run]. auto. Qed.
Lemma keeps_settings : forall c c', Forall real_addr (c_addrs c') ->
  (c_load c' = c_load c /\ c_changed c' = c_changed c /\ c_ltimer c' = c_ltimer c) -> c_active c' = true -> KEEPS c c' [settings_msg c'].
Proof.
  intros c c' F [L [CH LT]] AC hmac pw s act S. destruct (settings_received hmac pw c' s act S F) as [s' [E [S' [A [R LD]]]]].
  cbn [conn_run]. rewrite E. cbn [rbind]. exists s', true. spl; [reflexivity | exact S' |].
  intros [_ [_ G]]. unfold agrees. rewrite A, R, LD, L, CH, LT, AC. spl; auto; discriminate.
Qed.
Lemma settings_hd : forall c, Forall real_addr (c_addrs c) -> hd 0 (settings_msg c) = CMD_SETTINGS.
Proof. intros c F. unfold settings_msg. rewrite (options_append_app _ _ (settings_options_ok c F)). reflexivity. Qed.

Ltac dcli c := destruct c as [st ac pa fi ad ld iv ch lt ra ads rf rk rl ka au se rc rt mr cb at_].

Lemma call_fine : forall c now o, SHAPE c -> FIELDS c -> op_ok o -> c_status c <> IDLE \/ o <> OConnect ->
  exists c', call c now o = Ok c' /\ GOOD c c'.
Proof.
  intros c now o SH FI OK NI.
  destruct (status_eqb (c_status c) CONNECTED) eqn:CN.
  - (* connected *)
    assert (ST : c_status c = CONNECTED) by (destruct (c_status c); try discriminate; reflexivity).
    unfold SHAPE in SH. rewrite ST in SH. destruct SH as [f [ES EN]].
    destruct FI as [FA FL FC FT]. dcli c. cbn in ST, ES, FA, FL, FC, FT. subst st se.
    assert (CLOSE : exists c', call (mkCli CONNECTED ac pa fi ad ld iv ch lt ra ads rf rk rl ka au (Some f) rc rt mr cb at_) now OClose = Ok c' /\ GOOD (mkCli CONNECTED ac pa fi ad ld iv ch lt ra ads rf rk rl ka au (Some f) rc rt mr cb at_) c').
    { eexists. split; [reflexivity|]. unfold GOOD. spl.
      - reflexivity.
      - constructor; cbn; auto; intros N; congruence.
      - split; [reflexivity|]. right. spl; reflexivity.
      - intros E. discriminate. }
    assert (ALL : forall c' ms f', c_status c' = CONNECTED -> c_send c' = Some f' -> f_notify f' = false -> f_out f' = f_out f ++ ms ->
      f_nonce f' = f_nonce f -> f_pre f' = f_pre f -> f_creds f' = f_creds f ->
      c_attempts c' = at_ -> c_rtimer c' = rt -> c_cb c' = cb -> c_recv c' = rc ->
      FIELDS c' ->
      (f_ses f = (ka, rl, fi) -> f_ses f' = ses_of c') ->
      KEEPS (mkCli CONNECTED ac pa fi ad ld iv ch lt ra ads rf rk rl ka au (Some f) rc rt mr cb at_) c' ms ->
      (pa = true -> c_paused c' = true -> Forall (fun m => hd 0 m <> CMD_SETTINGS) ms) ->
      GOOD (mkCli CONNECTED ac pa fi ad ld iv ch lt ra ads rf rk rl ka au (Some f) rc rt mr cb at_) c').
    { intros c' ms f' E1 E2 E3 E4 E5 E6 E7 E8 E9 E10 E10' E11 E12 E13 E14. unfold GOOD. spl.
      - unfold SHAPE. rewrite E1. eauto.
      - exact E11.
      - split; [exact E8|]. left. auto.
      - intros _ f'' EF. rewrite E2 in EF. injection EF as <-. split; [reflexivity|]. exists f, ms. spl; auto. }
    destruct f as [fn nt out cd ses pre crd]. cbn in EN. subst nt.
    destruct ses as [[ska srl] sfi].
    destruct o; cbn in OK.
    + (* connect *) eexists. split; [reflexivity|]. eapply ALL with (ms := []); cbn; try reflexivity; auto using app_nil_r.
      * constructor; cbn; auto.
      * apply keeps_nil. auto.
    + exact CLOSE.
    + eexists. split; [reflexivity|]. eapply ALL with (ms := []); cbn; try reflexivity; auto using app_nil_r.
      * constructor; cbn; auto.
      * unfold ses_of. cbn. intros E. injection E as -> -> ->. reflexivity.
      * apply keeps_nil. auto.
    + eexists. split; [reflexivity|]. eapply ALL with (ms := []); cbn; try reflexivity; auto using app_nil_r.
      * constructor; cbn; auto.
      * unfold ses_of. cbn. intros E. injection E as -> -> ->. reflexivity.
      * apply keeps_nil. auto.
    + (* setActive *)
      destruct (Bool.eqb b ac) eqn:EB.
      * apply Bool.eqb_prop in EB. subst b.
        eexists. split; [cbn [call]; cbn [c_active]; rewrite Bool.eqb_reflx; cbn [negb]; reflexivity|]. eapply ALL with (ms := []); cbn; try reflexivity; auto using app_nil_r.
        { constructor; cbn; auto. }
        { apply keeps_nil. auto. }
      * destruct b.
        { destruct pa.
          - eexists. split; [cbn [call c_active]; rewrite EB; reflexivity|]. eapply ALL with (ms := []); cbn; try reflexivity; auto using app_nil_r.
            + constructor; cbn; auto.
            + apply keeps_nil. intros s act [_ [_ G]]. unfold agrees. cbn in *. spl; auto; discriminate.
          - eexists. split; [cbn [call c_active]; rewrite EB; reflexivity|]. eapply ALL with (ms := [_]); cbn; try reflexivity; auto.
            + constructor; cbn; auto.
            + eapply (keeps_settings _ (mkCli CONNECTED true false fi ad ld iv ch lt ra ads rf rk rl ka au _ rc rt mr cb at_)); cbn; auto.
            + discriminate. }
        { eexists. split; [cbn [call c_active]; rewrite EB; reflexivity|]. eapply ALL with (ms := [_]); cbn; try reflexivity; auto.
          - constructor; cbn; auto.
          - intros hmac pw s act S. destruct (draining_received hmac pw s act S) as [s' [E [S' [A [R LD]]]]]. cbn [conn_run]. rewrite E. cbn [rbind].
            exists s', false. spl; auto. intros [_ [_ G]]. unfold agrees. cbn in *. rewrite LD. spl; auto; discriminate.
          - intros _ _. constructor; [cbn; unfold CMD_DRAINING, CMD_SETTINGS; lia | constructor]. }
    + (* setPaused *)
      destruct b.
      * eexists. split; [reflexivity|]. eapply ALL with (ms := []); cbn; try reflexivity; auto using app_nil_r.
        { constructor; cbn; auto. }
        { apply keeps_nil. intros s act [_ G]. unfold agrees. cbn in *. split; [discriminate|exact G]. }
      * destruct ac.
        { eexists. split; [reflexivity|]. eapply ALL with (ms := [_]); cbn; try reflexivity; auto.
          - constructor; cbn; auto.
          - eapply (keeps_settings _ (mkCli CONNECTED true false fi ad ld iv ch lt ra ads rf rk rl ka au _ rc rt mr cb at_)); cbn; auto.
          - discriminate. }
        { eexists. split; [reflexivity|]. eapply ALL with (ms := []); cbn; try reflexivity; auto using app_nil_r.
          - constructor; cbn; auto.
          - apply keeps_nil. intros s act [_ G]. unfold agrees. cbn in *. split; [discriminate|exact G]. }
    + (* setLoadFactor *)
      destruct (n =? ld) eqn:EL.
      * apply Z.eqb_eq in EL. subst n. eexists. split; [cbn [call c_load]; rewrite Z.eqb_refl; reflexivity|]. eapply ALL with (ms := []); cbn; try reflexivity; auto using app_nil_r.
        { constructor; cbn; auto. }
        { apply keeps_nil. auto. }
      * destruct lt as [w|].
        { eexists. split; [cbn [call c_load]; rewrite EL; reflexivity|]. eapply ALL with (ms := []); cbn; try reflexivity; auto using app_nil_r.
          - constructor; cbn; auto; try congruence.
          - apply keeps_nil. intros s act [G1 [G2 _]]. unfold agrees. cbn in *. spl; auto. right. split; [reflexivity|discriminate]. }
        { eexists. split; [cbn [call c_load]; rewrite EL; reflexivity|]. eapply ALL with (ms := [vlu_append n [CMD_LOAD_FACTOR]]); [reflexivity..| | | |]; cbn [f_ses].
          - constructor; cbn; auto; discriminate.
          - auto.
          - intros hmac pw s act S. destruct (load_received hmac pw s act n S OK) as [s' [E [S' [A [R LD]]]]]. cbn [conn_run]. rewrite E. cbn [rbind].
            exists s', act. spl; auto. intros [G1 [G2 _]]. unfold agrees. cbn in *. rewrite A, R, LD. spl; auto.
          - intros _ _. constructor; [cbn; unfold CMD_LOAD_FACTOR, CMD_SETTINGS; lia | constructor]. }
    + (* update interval *)
      eexists. split; [reflexivity|]. eapply ALL with (ms := []); cbn; try reflexivity; auto using app_nil_r.
      * constructor; cbn; auto. intros _ CH. destruct lt; [discriminate|]. apply FT; [discriminate|exact CH].
      * apply keeps_nil. intros s act [G1 [G2 G3]]. unfold agrees. cbn in *. spl; auto. destruct G3 as [G3|[G3 G4]]; [auto|]. right. split; [exact G3|]. destruct lt; [discriminate|congruence].
    + (* redirector address *)
      eexists. split; [reflexivity|]. eapply ALL with (ms := []); cbn; try reflexivity; auto using app_nil_r.
      * constructor; cbn; auto.
      * apply keeps_nil. auto.
    + eexists. split; [reflexivity|]. eapply ALL with (ms := []); cbn; try reflexivity; auto using app_nil_r.
      * constructor; cbn; auto.
      * apply keeps_nil. auto.
    + eexists. split; [reflexivity|]. eapply ALL with (ms := []); cbn; try reflexivity; auto using app_nil_r.
      * constructor; cbn; auto.
      * unfold ses_of. cbn. intros E. injection E as -> -> ->. reflexivity.
      * apply keeps_nil. auto.
    + (* advertise reflexive *)
      destruct (Bool.eqb b ad) eqn:EB.
      * apply Bool.eqb_prop in EB. subst b.
        eexists. split; [cbn [call c_adv]; rewrite Bool.eqb_reflx; reflexivity|]. eapply ALL with (ms := []); cbn; try reflexivity; auto using app_nil_r.
        { constructor; cbn; auto. }
        { apply keeps_nil. auto. }
      * destruct ac, pa.
        { eexists. split; [cbn [call c_adv]; rewrite EB; reflexivity|]. eapply ALL with (ms := []); cbn; try reflexivity; auto using app_nil_r.
          - constructor; cbn; auto.
          - apply keeps_nil. intros s act [_ G]. unfold agrees. cbn in *. split; [discriminate|exact G]. }
        { eexists. split; [cbn [call c_adv]; rewrite EB; reflexivity|]. eapply ALL with (ms := [_]); cbn; try reflexivity; auto.
          - constructor; cbn; auto.
          - eapply (keeps_settings _ (mkCli CONNECTED true false fi b ld iv ch lt ra ads rf rk rl ka au _ rc rt mr cb at_)); cbn; auto.
          - discriminate. }
        { eexists. split; [cbn [call c_adv]; rewrite EB; reflexivity|]. eapply ALL with (ms := []); cbn; try reflexivity; auto using app_nil_r.
          - constructor; cbn; auto.
          - apply keeps_nil. intros s act [_ G]. unfold agrees. cbn in *. split; [discriminate|exact G]. }
        { eexists. split; [cbn [call c_adv]; rewrite EB; reflexivity|]. eapply ALL with (ms := []); cbn; try reflexivity; auto using app_nil_r.
          - constructor; cbn; auto.
          - apply keeps_nil. intros s act [_ G]. unfold agrees. cbn in *. split; [discriminate|exact G]. }
    + (* add *)
      assert (FA' := set_insert_real a ads OK FA).
      destruct ac, pa.
      { eexists. split; [reflexivity|]. eapply ALL with (ms := []); cbn; try reflexivity; auto using app_nil_r.
        - constructor; cbn; auto.
        - apply keeps_nil. intros s act [_ G]. unfold agrees. cbn in *. split; [discriminate|exact G]. }
      { eexists. split; [reflexivity|]. eapply ALL with (ms := [_]); cbn; try reflexivity; auto.
        - constructor; cbn; auto.
        - eapply (keeps_settings _ (mkCli CONNECTED true false fi ad ld iv ch lt ra _ rf rk rl ka au _ rc rt mr cb at_)); cbn; auto.
        - discriminate. }
      { eexists. split; [reflexivity|]. eapply ALL with (ms := []); cbn; try reflexivity; auto using app_nil_r.
        - constructor; cbn; auto.
        - apply keeps_nil. intros s act [_ G]. unfold agrees. cbn in *. split; [discriminate|exact G]. }
      { eexists. split; [reflexivity|]. eapply ALL with (ms := []); cbn; try reflexivity; auto using app_nil_r.
        - constructor; cbn; auto.
        - apply keeps_nil. intros s act [_ G]. unfold agrees. cbn in *. split; [discriminate|exact G]. }
    + (* remove *)
      assert (FA' : Forall real_addr (set_erase a ads)) by (apply Forall_filter; assumption).
      destruct ac, pa.
      { eexists. split; [reflexivity|]. eapply ALL with (ms := []); cbn; try reflexivity; auto using app_nil_r.
        - constructor; cbn; auto.
        - apply keeps_nil. intros s act [_ G]. unfold agrees. cbn in *. split; [discriminate|exact G]. }
      { eexists. split; [reflexivity|]. eapply ALL with (ms := [_]); cbn; try reflexivity; auto.
        - constructor; cbn; auto.
        - eapply (keeps_settings _ (mkCli CONNECTED true false fi ad ld iv ch lt ra _ rf rk rl ka au _ rc rt mr cb at_)); cbn; auto.
        - discriminate. }
      { eexists. split; [reflexivity|]. eapply ALL with (ms := []); cbn; try reflexivity; auto using app_nil_r.
        - constructor; cbn; auto.
        - apply keeps_nil. intros s act [_ G]. unfold agrees. cbn in *. split; [discriminate|exact G]. }
      { eexists. split; [reflexivity|]. eapply ALL with (ms := []); cbn; try reflexivity; auto using app_nil_r.
        - constructor; cbn; auto.
        - apply keeps_nil. intros s act [_ G]. unfold agrees. cbn in *. split; [discriminate|exact G]. }
    + (* clear *)
      destruct ac, pa.
      { eexists. split; [reflexivity|]. eapply ALL with (ms := []); cbn; try reflexivity; auto using app_nil_r.
        - constructor; cbn; auto.
        - apply keeps_nil. intros s act [_ G]. unfold agrees. cbn in *. split; [discriminate|exact G]. }
      { eexists. split; [reflexivity|]. eapply ALL with (ms := [_]); cbn; try reflexivity; auto.
        - constructor; cbn; auto.
        - eapply (keeps_settings _ (mkCli CONNECTED true false fi ad ld iv ch lt ra [] rf rk rl ka au _ rc rt mr cb at_)); cbn; auto.
        - discriminate. }
      { eexists. split; [reflexivity|]. eapply ALL with (ms := []); cbn; try reflexivity; auto using app_nil_r.
        - constructor; cbn; auto.
        - apply keeps_nil. intros s act [_ G]. unfold agrees. cbn in *. split; [discriminate|exact G]. }
      { eexists. split; [reflexivity|]. eapply ALL with (ms := []); cbn; try reflexivity; auto using app_nil_r.
        - constructor; cbn; auto.
        - apply keeps_nil. intros s act [_ G]. unfold agrees. cbn in *. split; [discriminate|exact G]. }
    + (* user data *)
      eexists. split; [reflexivity|]. eapply ALL with (ms := [_]); cbn; try reflexivity; auto.
      * constructor; cbn; auto.
      * intros hmac pw s act S. destruct (user_data_received hmac pw s act d S) as [s' [E [S' [A [R LD]]]]]. cbn [conn_run]. rewrite E. cbn [rbind].
        exists s', act. spl; auto. intros [G1 [G2 G3]]. unfold agrees. cbn in *. rewrite A, R, LD. auto.
      * intros _ _. constructor; [cbn; unfold CMD_USER_DATA, CMD_SETTINGS; lia | constructor].
    + eexists. split; [reflexivity|]. eapply ALL with (ms := []); cbn; try reflexivity; auto using app_nil_r.
      * constructor; cbn; auto.
      * apply keeps_nil. auto.
  - (* not connected *)
    assert (ST : c_status c <> CONNECTED) by (intros E; rewrite E in CN; discriminate).
    destruct FI as [FA FL FC FT].
    assert (ALL : forall c', c_status c' = c_status c -> c_attempts c' = c_attempts c -> c_rtimer c' = c_rtimer c -> c_cb c' = c_cb c -> c_recv c' = c_recv c ->
      Forall real_addr (c_addrs c') -> is_u64 (c_load c') -> (c_status c <> CLOSED -> c_changed c' = true -> c_ltimer c' <> None) ->
      SHAPE c' -> GOOD c c').
    { intros c' E1 E2 E3 E4 E4' E5 E6 E7 E8. unfold GOOD. spl.
      - exact E8.
      - constructor; try assumption. + rewrite E1, E4. exact FC. + rewrite E1. exact E7.
      - split; [exact E2|]. left. auto.
      - intros E. congruence. }
    dcli c. cbn in ST, CN, FA, FL, FC, FT. unfold SHAPE in SH. cbn in SH.
    assert (FILT : forall a, Forall real_addr (set_erase a ads)) by (intros a; apply Forall_filter; assumption).
    assert (CLOSE : exists c', call (mkCli st ac pa fi ad ld iv ch lt ra ads rf rk rl ka au se rc rt mr cb at_) now OClose = Ok c' /\ GOOD (mkCli st ac pa fi ad ld iv ch lt ra ads rf rk rl ka au se rc rt mr cb at_) c').
    { eexists. split; [reflexivity|]. unfold GOOD. spl.
      - reflexivity.
      - constructor; cbn; auto; intros N; congruence.
      - split; [reflexivity|]. right. spl; reflexivity.
      - intros E. discriminate. }
    destruct o; cbn in OK;
      try exact CLOSE;
      unfold call, send_settings, send_draining, schedule_send_load, send_load, is_connected; cbn [c_status w_status w_active w_paused w_fi w_adv w_load w_raddrs w_addrs w_ses w_auth w_minre c_load c_active c_adv c_send c_ltimer];
      rewrite ?CN; cbn [andb rbind].
    + destruct st; try (eexists; split; [reflexivity|]; apply ALL; cbn; auto; unfold SHAPE; cbn; auto; fail). destruct NI as [NI|NI]; contradiction NI; reflexivity.
    + eexists; split; [reflexivity|]; apply ALL; cbn; auto.
    + eexists; split; [reflexivity|]; apply ALL; cbn; auto.
    + destruct (negb (Bool.eqb b ac)); (eexists; split; [cbn [rbind c_status w_active]; rewrite ?CN; cbn [andb]; reflexivity|]; apply ALL; cbn; auto).
    + destruct (negb b); (eexists; split; [reflexivity|]; apply ALL; cbn; auto).
    + destruct (negb (n =? ld)) eqn:EN.
      * destruct lt; (eexists; split; [cbn [rbind c_ltimer]; rewrite ?CN; cbn [rbind]; reflexivity|]; apply ALL; cbn; auto; discriminate).
      * eexists; split; [reflexivity|]; apply ALL; cbn; auto.
    + eexists; split; [reflexivity|]; apply ALL; cbn; auto. intros N C1. specialize (FT N C1). destruct lt; congruence.
    + destruct se as [f|].
      * eexists; split; [reflexivity|]; apply ALL; cbn; auto. unfold SHAPE. cbn. destruct st; try discriminate.
        -- destruct SH as [f' [EF [E1 E2]]]. injection EF as <-. eexists. split; [reflexivity|]. destruct f; cbn in *. auto.
      * eexists; split; [reflexivity|]; apply ALL; cbn; auto.
    + eexists; split; [reflexivity|]; apply ALL; cbn; auto.
    + destruct se as [f|].
      * eexists; split; [reflexivity|]; apply ALL; cbn; auto. unfold SHAPE. cbn. destruct st; try discriminate.
        -- destruct SH as [f' [EF [E1 E2]]]. injection EF as <-. eexists. split; [reflexivity|]. destruct f as [? ? ? ? [[? ?] ?] ? ?]; cbn in *. auto.
      * eexists; split; [reflexivity|]; apply ALL; cbn; auto.
    + destruct (negb (Bool.eqb b ad)); (eexists; split; [reflexivity|]; apply ALL; cbn; auto).
    + eexists; split; [reflexivity|]; apply ALL; cbn; auto. apply set_insert_real; assumption.
    + eexists; split; [reflexivity|]; apply ALL; cbn; auto. apply FILT.
    + eexists; split; [reflexivity|]; apply ALL; cbn; auto.
    + eexists; split; [reflexivity|]; apply ALL; cbn; auto.
    + eexists; split; [reflexivity|]; apply ALL; cbn; auto.
Qed.

(** ** Sequences of calls *)
Definition WRITES0 (c c' : cli) : Prop :=
  c_status c' = CONNECTED -> forall f', c_send c' = Some f' ->
  c_status c = CONNECTED /\ exists f ms, c_send c = Some f /\ f_out f' = f_out f ++ ms
    /\ f_nonce f' = f_nonce f /\ f_pre f' = f_pre f /\ f_creds f' = f_creds f
    /\ (f_ses f = ses_of c -> f_ses f' = ses_of c') /\ KEEPS c c' ms.
Definition CHAIN (c c' : cli) : Prop := SHAPE c' /\ FIELDS c' /\ FRAME c c' /\ WRITES0 c c'.

Lemma good_chain : forall c c', GOOD c c' -> CHAIN c c'.
Proof.
  intros c c' [A [B [C W]]]. unfold CHAIN. spl; try assumption.
  intros E f' EF. destruct (W E f' EF) as [H [f [ms [H1 [H2 [H3 [H4 [H5 [H6 [H7 _]]]]]]]]]]. split; [exact H|]. exists f, ms. auto 10.
Qed.
Lemma chain_refl : forall c, SHAPE c -> FIELDS c -> CHAIN c c.
Proof.
  intros c S F. unfold CHAIN. spl; try assumption.
  - split; [reflexivity|]. left. auto.
  - intros E f' EF. split; [exact E|]. exists f', []. rewrite app_nil_r. spl; auto. apply keeps_nil. auto.
Qed.
Lemma chain_trans : forall a b c, CHAIN a b -> CHAIN b c -> CHAIN a c.
Proof.
  intros a b c [A1 [A2 [[A3 A4] A5]]] [B1 [B2 [[B3 B4] B5]]]. unfold CHAIN. spl; try assumption.
  - split; [congruence|]. destruct B4 as [[S1 [R1 [C1 V1]]]|B4]; [|right; exact B4].
    destruct A4 as [[S2 [R2 [C2 V2]]]|[S2 [R2 V2]]]; [left; spl; congruence|]. right. spl; congruence.
  - intros E f' EF. destruct (B5 E f' EF) as [EB [f1 [m2 [H1 [H2 [H3 [H4 [H5 [H6 H7]]]]]]]]].
    destruct (A5 EB f1 H1) as [EA [f0 [m1 [G1 [G2 [G3 [G4 [G5 [G6 G7]]]]]]]]]. split; [exact EA|]. exists f0, (m1 ++ m2).
    spl; try congruence; auto.
    + rewrite H2, G2, app_assoc. reflexivity.
    + intros hmac pw s act S. destruct (G7 hmac pw s act S) as [s1 [a1 [E1 [S1 P1]]]]. destruct (H7 hmac pw s1 a1 S1) as [s2 [a2 [E2 [S2 P2]]]].
      exists s2, a2. rewrite conn_run_app, E1. cbn [rbind]. auto.
Qed.
Lemma calls_fine : forall os c now, SHAPE c -> FIELDS c -> Forall op_ok os -> c_status c <> IDLE ->
  exists c', calls c now os = Ok c' /\ CHAIN c c'.
Proof.
  induction os as [|o os IH]; intros c now SH FI OK NI; cbn [calls].
  - exists c. split; [reflexivity|]. apply chain_refl; assumption.
  - inversion OK; subst. destruct (call_fine c now o SH FI ltac:(assumption) (or_introl NI)) as [c1 [E1 G1]]. rewrite E1. cbn [rbind].
    apply good_chain in G1. assert (G := G1). destruct G as [S1 [F1 [[_ FR] _]]].
    assert (NI1 : c_status c1 <> IDLE) by (destruct FR as [[-> _]|[-> _]]; [exact NI | discriminate]).
    destruct (IH c1 now S1 F1 ltac:(assumption) NI1) as [c2 [E2 G2]]. exists c2. split; [exact E2|]. eapply chain_trans; eassumption.
Qed.
Lemma callback_fine : forall c now cb, SHAPE c -> FIELDS c -> Forall op_ok cb -> c_status c <> IDLE ->
  exists c', callback c now cb = Ok c' /\ CHAIN c c'.
Proof.
  intros c now cb SH FI OK NI. unfold callback. destruct (c_cb c).
  - apply calls_fine; assumption.
  - exists c. split; [reflexivity|]. apply chain_refl; assumption.
Qed.

(** ** Every run *)
Definition LIFE (c : cli) : Prop :=
  match c_status c with
  | IDLE => c_rtimer c = None /\ c_attempts c = []
  | CONNECTING | CONNECTED => c_rtimer c = None /\ c_attempts c <> []
  | DISCONNECTED | DISCONNECTED_BAD_AUTH => exists w a r, c_rtimer c = Some w /\ c_attempts c = a :: r /\ a + RECONNECT_LIMIT <= w
  | CLOSED => c_rtimer c = None
  end.
Section Run.
Variable hmac : list Z -> list Z -> list Z.
Hypothesis MAC : mac_ok hmac.

Definition VIEW (c : cli) : Prop :=
  c_status c = CONNECTED -> forall f, c_send c = Some f ->
  f_ses f = ses_of c /\
  forall pw fp far, creds_good pw (f_creds f) -> (pw = [] \/ f_pre f = 0%nat) ->
    exists s act, conn_run hmac pw (scl_new pw fp (f_nonce f) far, false) (f_out f) = Ok (s, act) /\ served s /\ agrees c s act.
Record INV (t : Z) (c : cli) : Prop := {
  I_shape : SHAPE c; I_fields : FIELDS c; I_life : LIFE c; I_spaced : spaced (c_attempts c);
  I_past : Forall (fun a => a <= t) (c_attempts c); I_view : VIEW c; I_recv : c_recv c = true -> c_send c <> None }.

Lemma inv_chain : forall t c c', INV t c -> CHAIN c c' -> INV t c'.
Proof.
  intros t c c' [S F L SP PA V R] [S' [F' [[AT FR] W]]]. constructor; try assumption.
  - unfold LIFE in *. rewrite AT. destruct FR as [[-> [-> _]]|[-> [-> _]]]; [exact L | reflexivity].
  - rewrite AT. exact SP.
  - rewrite AT. exact PA.
  - intros E f' EF. destruct (W E f' EF) as [EC [f [ms [H1 [H2 [H3 [H4 [H5 [H6 H7]]]]]]]]].
    destruct (V EC f H1) as [V1 V2]. split; [apply H6; exact V1|].
    intros pw fp far CG PR. rewrite H5 in CG. rewrite H4 in PR. destruct (V2 pw fp far CG PR) as [s [act [E1 [SV AG]]]].
    destruct (H7 hmac pw s act SV) as [s' [act' [E2 [SV' AG']]]]. exists s', act'. rewrite H2, H3, conn_run_app, E1. cbn [rbind]. auto.
  - intros RV. unfold SHAPE in S, S'. destruct FR as [[E [_ [_ ER]]]|[_ [_ ER]]]; [|congruence]. rewrite ER in RV. specialize (R RV). rewrite E in S'.
    destruct (c_status c); try contradiction.
    + destruct S' as [f [-> _]]. discriminate.
    + destruct S' as [f [-> _]]. discriminate.
Qed.
Lemma inv_later : forall t t' c, INV t c -> t <= t' -> INV t' c.
Proof. intros t t' c [S F L SP PA V R] LE. constructor; try assumption. eapply Forall_impl; [|exact PA]. cbn. lia. Qed.

Lemma exception_fine : forall t c reason cb, FIELDS c -> spaced (c_attempts c) -> Forall (fun a => a <= t) (c_attempts c) ->
  c_attempts c <> [] -> c_status c <> CLOSED -> Forall op_ok cb ->
  exists c', on_exception c t reason cb = Ok c' /\ INV t c'.
Proof.
  intros t c reason cb FI SP PA NE NC OK. unfold on_exception, set_status.
  set (c1 := w_status (close_flows c) (if EXCEPTION_BAD_AUTH =? reason then DISCONNECTED_BAD_AUTH else DISCONNECTED)).
  assert (ST1 : c_status c1 = DISCONNECTED \/ c_status c1 = DISCONNECTED_BAD_AUTH) by (unfold c1; destruct (EXCEPTION_BAD_AUTH =? reason); cbn; auto).
  assert (SH1 : SHAPE c1) by (unfold SHAPE; destruct ST1 as [-> | ->]; reflexivity).
  assert (FI1 : FIELDS c1).
  { destruct FI as [A B C D]. constructor; try assumption; [destruct ST1 as [-> | ->]; discriminate | intros _; apply D; exact NC]. }
  destruct (callback_fine c1 t cb SH1 FI1 OK ltac:(destruct ST1 as [-> | ->]; discriminate)) as [c2 [E2 [S2 [F2 [[AT FR] W]]]]].
  rewrite E2. cbn [rbind]. change (c_attempts c1) with (c_attempts c) in AT.
  destruct (c_attempts c) as [|a r] eqn:EA; [congruence|].
  assert (SETS : c_status c2 <> CLOSED -> c_status c2 = DISCONNECTED \/ c_status c2 = DISCONNECTED_BAD_AUTH).
  { intros N. destruct FR as [[-> _]|[E _]]; [exact ST1 | congruence]. }
  assert (FIN : c_status c2 <> CLOSED -> INV t (w_rtimer c2 (Some (match c_attempts c2 with t0 :: _ => t0 | [] => 0 end + Z.max (c_minre c2) RECONNECT_LIMIT)))).
  { intros N. destruct (SETS N) as [ES|ES].
    - assert (RC : c_recv c2 = false) by (destruct FR as [[_ [_ [_ ER]]]|[_ [_ ER]]]; rewrite ER; reflexivity).
      constructor; cbn [c_attempts w_rtimer].
      + unfold SHAPE in *. cbn [w_rtimer c_status c_send]. rewrite ES in S2 |- *. exact S2.
      + destruct F2 as [A B C D]. constructor; assumption.
      + unfold LIFE. cbn [w_rtimer c_status c_rtimer c_attempts]. rewrite ES, AT. do 3 eexists. spl; try reflexivity. lia.
      + rewrite AT. exact SP.
      + rewrite AT. exact PA.
      + intros E. cbn in E. congruence.
      + cbn. congruence.
    - assert (RC : c_recv c2 = false) by (destruct FR as [[_ [_ [_ ER]]]|[_ [_ ER]]]; rewrite ER; reflexivity).
      constructor; cbn [c_attempts w_rtimer].
      + unfold SHAPE in *. cbn [w_rtimer c_status c_send]. rewrite ES in S2 |- *. exact S2.
      + destruct F2 as [A B C D]. constructor; assumption.
      + unfold LIFE. cbn [w_rtimer c_status c_rtimer c_attempts]. rewrite ES, AT. do 3 eexists. spl; try reflexivity. lia.
      + rewrite AT. exact SP.
      + rewrite AT. exact PA.
      + intros E. cbn in E. congruence.
      + cbn. congruence. }
  destruct (status_eqb (c_status c2) CLOSED) eqn:EC.
  - assert (ES : c_status c2 = CLOSED) by (destruct (c_status c2); try discriminate; reflexivity). rewrite ES.
    exists c2. split; [reflexivity|]. constructor; try assumption.
    + unfold LIFE. rewrite ES. destruct FR as [[E [R _]]|[_ [R _]]]; [|exact R]. rewrite ES in E. destruct ST1; congruence.
    + rewrite AT. exact SP.
    + rewrite AT. exact PA.
    + intros E. congruence.
    + intros RV. destruct FR as [[_ [_ [_ ER]]]|[_ [_ ER]]]; rewrite ER in RV; discriminate.
  - assert (N : c_status c2 <> CLOSED) by (intros E; rewrite E in EC; discriminate).
    eexists. split; [|exact (FIN N)]. destruct (SETS N) as [-> | ->]; reflexivity.
Qed.

Lemma connect_fine : forall t c opened cb, FIELDS c -> spaced (t :: c_attempts c) -> Forall (fun a => a <= t) (c_attempts c) ->
  c_status c <> CLOSED -> c_send c = None -> c_rtimer c = None -> Forall op_ok cb ->
  exists c', do_connect c t opened cb = Ok c' /\ INV t c'.
Proof.
  intros t c opened cb FI SP PA NC NS RT OK. unfold do_connect.
  set (c1 := w_attempts c (t :: c_attempts c)). assert (PA1 : Forall (fun a => a <= t) (c_attempts c1)) by (constructor; [lia | exact PA]).
  destruct opened.
  - unfold set_status. set (c2 := w_status (w_send c1 (Some (mkSf [] true [] (c_raddrs c1) (0, 0, 0) 0 []))) CONNECTING).
    assert (I2 : INV t c2).
    { constructor; try assumption.
      - unfold SHAPE. cbn. eexists. spl; reflexivity.
      - destruct FI as [A B C D]. constructor; cbn; auto; discriminate.
      - unfold LIFE. cbn. split; [exact RT | discriminate].
      - intros E. discriminate.
      - cbn. discriminate. }
    destruct (callback_fine c2 t cb (I_shape _ _ I2) (I_fields _ _ I2) OK ltac:(discriminate)) as [c3 [E3 C3]].
    exists c3. split; [exact E3|]. eapply inv_chain; eassumption.
  - apply exception_fine; try assumption.
    + destruct FI as [A B C D]. constructor; assumption.
    + discriminate.
Qed.

Lemma served_new : forall pw fp nonce far, s_recv (scl_new pw fp nonce far) = true /\ s_held (scl_new pw fp nonce far) = false
  /\ (pw = [] -> s_auth (scl_new pw fp nonce far) = true).
Proof. intros pw fp nonce far. unfold scl_new. cbn. spl; auto. intros ->. reflexivity. Qed.


Lemma announce_fine : forall t c f, c_status c = CONNECTED -> c_send c = Some f -> f_notify f = false -> FIELDS c -> c_rtimer c = None ->
  spaced (c_attempts c) -> Forall (fun a => a <= t) (c_attempts c) -> c_attempts c <> [] ->
  (forall s act, served s -> exists s' act', conn_run hmac [] (s, act) (f_out f) = Ok (s', act') /\ served s') ->
  exists c', (c <- with_send c (fun f => f_with_ses f (c_ka c, c_rl c, c_fi c));;
              c <- send_auth hmac c;; c <- send_settings c;; c <- send_draining c;; send_load c) = Ok c' /\ INV t c'.
Proof.
  intros t c f ST ES EN FI RT SP PA NE PRE. destruct FI as [FA FL FC FT]. dcli c. cbn in ST, ES, FA, FL, FC, FT, RT, SP, PA, NE. subst st se rt.
  destruct f as [fn nt out cd ses pre crd]. cbn in EN, PRE. subst nt.
  set (auths := map (auth_msg hmac fn) au).
  set (sets := if ac then if pa then [] else [settings_msg (mkCli CONNECTED ac pa fi ad ld iv ch lt ra ads rf rk rl ka au (Some (mkSf fn false (out ++ auths) cd (ka, rl, fi) (length out) au)) rc None mr cb at_)] else [[CMD_DRAINING]]).
  set (all := ((out ++ auths) ++ sets) ++ [vlu_append ld [CMD_LOAD_FACTOR]]).
  exists (mkCli CONNECTED ac pa fi ad ld iv false lt ra ads rf rk rl ka au (Some (mkSf fn false all cd (ka, rl, fi) (length out) au)) rc None mr cb at_).
  split.
  { unfold all, sets, auths. destruct ac, pa; rewrite ?app_nil_r; reflexivity. }
  constructor; cbn; auto.
  - unfold SHAPE. cbn. eexists. split; reflexivity.
  - constructor; cbn; auto; discriminate.
  - intros _ f' EF. injection EF as <-. cbn [f_ses f_creds f_pre f_nonce f_out]. split; [reflexivity|].
    intros pw fp far [CG1 CG2] PR. destruct (served_new pw fp fn far) as [N1 [N2 N3]].
    (* before the authentication *)
    assert (B : exists s0 act0, conn_run hmac pw (scl_new pw fp fn far, false) out = Ok (s0, act0) /\ s_recv s0 = true /\ s_held s0 = false /\ (pw = [] -> s_auth s0 = true)).
    { destruct PR as [-> | PR].
      - destruct (PRE (scl_new [] fp fn far) false) as [s0 [a0 [E0 [R0 [H0 A0]]]]]; [unfold served; auto|]. exists s0, a0. auto.
      - apply length_zero_iff_nil in PR. subst out. exists (scl_new pw fp fn far), false. cbn [conn_run]. auto. }
    destruct B as [s0 [act0 [E0 [R0 [H0 A0]]]]]. pose proof (conn_run_nonce _ _ _ _ _ _ _ E0) as NN. cbn [scl_new s_nonce] in NN.
    destruct (auth_received hmac MAC pw au s0 act0 CG1 R0 H0) as [s1 [E1 [R1 [H1 [AD1 [RF1 [LD1 [NO1 AU1]]]]]]]].
    rewrite NN in E1. fold auths in E1.
    assert (SV1 : served s1).
    { unfold served. spl; try assumption. apply AU1. destruct CG2 as [-> | CG2]; [left; auto | right; exact CG2]. }
    (* the settings *)
    assert (B : exists s2 act2, conn_run hmac pw (s1, act0) sets = Ok (s2, act2) /\ served s2 /\
       (ac = true -> pa = false -> act2 = true /\ s_addrs s2 = ads /\ s_refl s2 = ad) /\ (ac = false -> act2 = false)).
    { unfold sets. destruct ac; [destruct pa|].
      - exists s1, act0. cbn [conn_run]. spl; auto; discriminate.
      - match goal with |- context [settings_msg ?C] => set (cc := C) end.
        destruct (settings_received hmac pw cc s1 act0 SV1 FA) as [s2 [E2 [S2 [A2 [R2 L2]]]]]. exists s2, true. cbn [conn_run]. rewrite E2. cbn [rbind]. spl; auto; discriminate.
      - destruct (draining_received hmac pw s1 act0 SV1) as [s2 [E2 [S2 [A2 [R2 L2]]]]]. exists s2, false. cbn [conn_run]. rewrite E2. cbn [rbind]. spl; auto; discriminate. }
    destruct B as [s2 [act2 [E2 [SV2 [G1 G2]]]]].
    destruct (load_received hmac pw s2 act2 ld SV2 FL) as [s3 [E3 [SV3 [A3 [R3 L3]]]]].
    exists s3, act2. spl; [|exact SV3|].
    + unfold all. rewrite !conn_run_app, E0. cbn [rbind]. rewrite E1. cbn [rbind]. rewrite E2. cbn [rbind conn_run]. rewrite E3. reflexivity.
    + unfold agrees. cbn. rewrite A3, R3, L3. spl; auto.
  - discriminate.
Qed.

Lemma step_fine : forall t t' c e, INV t c -> t <= t' -> event_ok e -> exists c', step hmac c t' e = Ok c' /\ INV t' c'.
Proof.
  intros t t' c e I0 LE OK. assert (I1 := inv_later _ t' _ I0 LE). clear I0. assert (I := I1). destruct I as [S F L SP PA V RV].
  assert (SAME : exists c', Ok c = Ok c' /\ INV t' c') by (exists c; auto).
  destruct e as [o opened cb|nonce cb|reason cb|metadata|bytes cb|opened cb|]; cbn in OK.
  - (* call *)
    destruct OK as [OO OC].
    assert (GEN : o <> OConnect -> exists c', call c t' o = Ok c' /\ INV t' c').
    { intros N. destruct (call_fine c t' o S F OO (or_intror N)) as [c1 [E G]]. exists c1. split; [exact E|]. eapply inv_chain; [exact I1 | apply good_chain; exact G]. }
    destruct o; cbn [step]; try (apply GEN; discriminate).
    destruct (status_eqb (c_status c) IDLE) eqn:EI; [|exact SAME].
    assert (ES : c_status c = IDLE) by (destruct (c_status c); try discriminate; reflexivity).
    unfold LIFE in L. rewrite ES in L. destruct L as [RT AT]. unfold SHAPE in S. rewrite ES in S.
    apply connect_fine; try assumption. + rewrite AT. cbn. auto. + rewrite ES. discriminate.
  - (* writable *)
    destruct OK as [_ OC]. cbn [step]. destruct (c_send c) as [f|] eqn:EF; [|exact SAME]. destruct (f_notify f) eqn:EN; [|exact SAME].
    assert (ES : c_status c = CONNECTING /\ f_out f = []).
    { unfold SHAPE in S. rewrite EF in S. destruct (c_status c); try discriminate.
      - destruct S as [f0 [E1 [E2 E3]]]. injection E1 as <-. auto.
      - destruct S as [f0 [E1 E2]]. injection E1 as <-. congruence. }
    destruct ES as [ES EO]. unfold LIFE in L. rewrite ES in L. destruct L as [RT NE].
    unfold on_connected, set_status.
    set (c1 := w_status (w_send c (Some (mkSf nonce false (f_out f) (f_cands f) (f_ses f) (f_pre f) (f_creds f)))) CONNECTED).
    assert (S1 : SHAPE c1) by (unfold SHAPE; cbn; eexists; split; reflexivity).
    assert (F1 : FIELDS c1). { destruct F as [A B C D]. constructor; cbn; auto; [discriminate | intros _; apply D; rewrite ES; discriminate]. }
    destruct (callback_fine c1 t' cb S1 F1 OC ltac:(discriminate)) as [c2 [E2 [S2 [F2 [[AT FR] W]]]]]. rewrite E2. cbn [rbind].
    change (c_attempts c1) with (c_attempts c) in AT. unfold is_connected.
    destruct FR as [[ST [RT2 [CB RC2]]]|[ST [RT2 RC2]]].
    + change (c_status c1) with CONNECTED in ST. rewrite ST. cbn [status_eqb].
      unfold SHAPE in S2. rewrite ST in S2. destruct S2 as [f2 [EF2 EN2]].
      destruct (W ST f2 EF2) as [_ [f1 [ms [H1 [H2 [H3 [H4 [H5 [H6 H7]]]]]]]]]. cbn in H1. injection H1 as <-. cbn [f_out] in H2. rewrite EO in H2. cbn [app] in H2.
      apply announce_fine with (f := f2); try assumption.
      * rewrite RT2. exact RT.
      * rewrite AT. exact SP.
      * rewrite AT. exact PA.
      * rewrite AT. exact NE.
      * intros s act SV. rewrite H2. destruct (H7 hmac [] s act SV) as [s' [act' [EE [SS _]]]]. eauto.
    + rewrite ST. cbn [status_eqb]. exists c2. split; [reflexivity|]. constructor; try assumption.
      * unfold LIFE. rewrite ST. exact RT2.
      * rewrite AT. exact SP.
      * rewrite AT. exact PA.
      * intros E. congruence.
      * congruence.
  - (* exception *)
    cbn [step]. destruct (c_send c) as [f|] eqn:EF; [|exact SAME].
    unfold SHAPE in S. unfold LIFE in L. apply exception_fine; try assumption; destruct (c_status c); try congruence; try discriminate; try (apply L).
  - (* return flow *)
    cbn [step]. destruct (c_send c) as [f|] eqn:EF; [|exact SAME]. unfold on_recv_flow. destruct (c_recv c || negb (check_metadata metadata)); [exact SAME|].
    eexists. split; [reflexivity|]. constructor; cbn; auto; [destruct F as [A B C D]; constructor; cbn; auto | congruence].
  - (* message *)
    destruct OK as [OB OC]. cbn [step]. destruct (c_recv c); [|exact SAME]. unfold on_message. destruct bytes as [|cmd cursor]; [exact SAME|].
    specialize (RV eq_refl).
    assert (NI : c_status c <> IDLE) by (intros E; unfold SHAPE in S; rewrite E in S; contradiction).
    assert (CBK : forall c1, INV t' c1 -> c_status c1 = c_status c -> exists c', callback c1 t' cb = Ok c' /\ INV t' c').
    { intros c1 J E. destruct (callback_fine c1 t' cb (I_shape _ _ J) (I_fields _ _ J) OC ltac:(congruence)) as [c2 [E2 C2]].
      exists c2. split; [exact E2|]. eapply inv_chain; eassumption. }
    assert (REFL : forall a ok, INV t' (w_refl c a ok)).
    { intros a ok. constructor; cbn; auto. destruct F as [A B C D]. constructor; cbn; auto. }
    inversion OB; subst.
    destruct (cmd =? CMD_REFLEXIVE_ADDR_REPORT).
    + destruct (decode_exact (c_refl c) cursor ltac:(assumption)) as [ND _].
      destruct (addr_decode (c_refl c) cursor) as [[a n]| |]; [|eauto|congruence]. apply CBK; [apply REFL | reflexivity].
    + destruct (cmd =? CMD_USER_DATA); [apply CBK; auto | exact SAME].
  - (* reconnect *)
    cbn [step]. destruct (c_rtimer c) as [w|] eqn:ER; [|exact SAME]. destruct (Z.leb_spec w t') as [LW|LW]; [|exact SAME].
    assert (D : exists a r, c_attempts c = a :: r /\ a + RECONNECT_LIMIT <= w /\ c_send c = None /\ c_status c <> CLOSED).
    { unfold LIFE in L. unfold SHAPE in S. destruct (c_status c); try (destruct L; congruence); try congruence.
      - destruct L as [w0 [a [r [E1 [E2 E3]]]]]. assert (w0 = w) by congruence. subst w0. exists a, r. spl; auto. discriminate.
      - destruct L as [w0 [a [r [E1 [E2 E3]]]]]. assert (w0 = w) by congruence. subst w0. exists a, r. spl; auto. discriminate. }
    destruct D as [a [r [EA [LA [NS NC]]]]]. apply connect_fine; cbn; auto.
    + destruct F as [A B C D]. constructor; cbn; auto.
    + split; [|exact SP]. rewrite EA. unfold RECONNECT_LIMIT, SECOND in *. lia.
  - (* load timer *)
    cbn [step]. destruct (c_ltimer c) as [w|] eqn:EL; [|exact SAME]. destruct (Z.leb_spec w t') as [LW|LW]; [|exact SAME].
    cbn [c_changed w_load]. destruct (c_changed c) eqn:EC.
    + (* as if the load factor had just been set *)
      unfold schedule_send_load. cbn [c_ltimer w_load]. unfold send_load, is_connected. cbn [c_status w_load].
      destruct (status_eqb (c_status c) CONNECTED) eqn:EQ.
      * assert (ST : c_status c = CONNECTED) by (destruct (c_status c); try discriminate; reflexivity).
        unfold SHAPE in S. rewrite ST in S. destruct S as [f [EF EN]].
        unfold write_msg, with_send. cbn [c_send w_load]. rewrite EF. cbn [rbind w_send w_load c_load c_interval c_ltimer c_changed].
        eexists. split; [reflexivity|]. unfold LIFE in L. rewrite ST in L. destruct F as [A B C D].
        constructor; cbn; auto; try discriminate.
        -- unfold SHAPE. cbn. rewrite ST. eexists. split; [reflexivity|]. exact EN.
        -- constructor; cbn; auto; discriminate.
        -- unfold LIFE. cbn. rewrite ST. exact L.
        -- intros E f' EF'. cbn in EF'. injection EF' as <-. cbn [f_write f_ses f_creds f_pre f_nonce f_out].
           destruct (V ST f EF) as [V1 V2]. split; [exact V1|]. intros pw fp far CG PR. destruct (V2 pw fp far CG PR) as [s [act [E1 [SV [G1 [G2 G3]]]]]].
           destruct (load_received hmac pw s act (c_load c) SV B) as [s' [E' [SV' [A' [R' L']]]]]. exists s', act.
           rewrite conn_run_app, E1. cbn [rbind conn_run]. match goal with |- context [conn_msg hmac pw (s, act) ?m] => change m with (vlu_append (c_load c) [CMD_LOAD_FACTOR]) end. rewrite E'. cbn [rbind]. spl; auto. unfold agrees. cbn. rewrite A', R', L'. spl; auto.
      * cbn [rbind w_load c_load c_interval c_ltimer c_changed]. eexists. split; [reflexivity|]. destruct F as [A B C D].
        constructor; cbn; auto.
        -- constructor; cbn; auto; discriminate.
        -- intros E. cbn in E. rewrite E in EQ. discriminate.
    + eexists. split; [reflexivity|]. destruct F as [A B C D]. constructor; cbn; auto.
      * constructor; cbn; auto. intros _ E. congruence.
      * intros E f EF. destruct (V E f EF) as [V1 V2]. split; [exact V1|]. intros pw fp far CG PR. destruct (V2 pw fp far CG PR) as [s [act [E1 [SV [G1 [G2 G3]]]]]].
        exists s, act. spl; auto. unfold agrees. cbn. spl; auto. destruct G3 as [G3|[G3 _]]; [auto|congruence].
Qed.

Lemma run_fine : forall es t c, INV t c -> timed t es -> Forall (fun te => event_ok (snd te)) es -> exists c' t', run hmac c es = Ok c' /\ INV t' c'.
Proof.
  induction es as [|[t' e] es IH]; intros t c I TI OK; cbn [run]; [exists c, t; auto|].
  destruct TI as [LE TI]. inversion OK; subst. destruct (step_fine t t' c e I LE ltac:(assumption)) as [c1 [E1 I1]]. rewrite E1. cbn [rbind]. eapply IH; eassumption.
Qed.
Lemma inv_new : INV 0 cli_new.
Proof.
  constructor.
  - reflexivity.
  - constructor; cbn; auto; try discriminate. unfold is_u64, U64MAX. lia.
  - split; reflexivity.
  - exact I.
  - constructor.
  - intros E. discriminate.
  - discriminate.
Qed.
Lemma history_fine : forall es, history es -> exists c t, run hmac cli_new es = Ok c /\ INV t c.
Proof. intros es [T O]. apply run_fine with (t := 0); auto using inv_new. Qed.
End Run.
