(** Proofs about the redirector client and one connection as the server sees it. *)
From Verif Require Import Base BaseFacts VLU VLUSpec VLUProofs Address AddressSpec AddressProofs Redir RedirSrv RedirSpec.
Open Scope res_scope.

Ltac spl := repeat match goal with |- _ /\ _ => split end.

(** ** Byte strings *)
Lemma bytes_eqb_eq : forall a b, bytes_eqb a b = true <-> a = b.
Proof.
  induction a as [|x a IH]; intros [|y b]; cbn [bytes_eqb]; try (split; intros H; congruence).
  rewrite andb_true_iff, Z.eqb_eq, IH. split; [intros [-> ->]; reflexivity | intros H; injection H; auto].
Qed.
Lemma check_metadata_spec : forall m, check_metadata m = true <-> names_redirector m.
Proof.
  intros m. unfold names_redirector. change (text _) with signature.
  assert (LS : length signature = 37%nat) by reflexivity. unfold check_metadata.
  destruct (Nat.leb_spec 38 (length m)) as [L|L].
  - rewrite Z.eqb_eq, memcmp_eq by (rewrite app_length, firstn_length; cbn [length]; lia).
    split.
    + intros E. right. exists (skipn 38 m). rewrite <- (firstn_skipn 38 m) at 1. rewrite <- E, <- app_assoc. reflexivity.
    + intros [->|[r ->]]; [rewrite LS in L; lia|].
      replace (signature ++ 0 :: r) with ((signature ++ [0]) ++ r) by (rewrite <- app_assoc; reflexivity).
      change 38%nat with (length (signature ++ [0])). rewrite firstn_app_exact. reflexivity.
  - destruct (Nat.ltb_spec (length m) (38 - 1)) as [M|M].
    + split; [discriminate|]. intros [->|[r ->]]; [rewrite LS in M | rewrite app_length, LS in M; cbn [length] in M]; lia.
    + rewrite Z.eqb_eq, memcmp_eq by (rewrite firstn_length; lia).
      rewrite firstn_all2 by lia. split.
      * intros ->. left. reflexivity.
      * intros [->|[r ->]]; [reflexivity|]. rewrite app_length, LS in L. cbn [length] in L. lia.
Qed.

(** ** What the server makes of the client's messages *)
Section Conn.
Variable hmac : list Z -> list Z -> list Z.
Hypothesis MAC : mac_ok hmac.
Variable pw : list (list Z * list Z).

Notation conn_run := (conn_run hmac pw).
Notation conn_msg := (conn_msg hmac pw).

Lemma conn_run_app : forall a sa b, conn_run sa (a ++ b) = rbind (conn_run sa a) (fun sa => conn_run sa b).
Proof.
  induction a as [|m a IH]; intros sa b; cbn [app RedirSrv.conn_run rbind]; [reflexivity|].
  destruct (conn_msg sa m) as [sa'| |]; cbn [rbind]; [apply IH | reflexivity | reflexivity].
Qed.

Lemma settings_loop_ok : forall os fuel refl addrs,
  Forall option_ok os -> (length (options_append os []) < fuel)%nat ->
  Forall (fun o => fst o = SETTINGS_OPT_INCLUDE_REFLEXIVE \/ (fst o = SETTINGS_OPT_ADD_ADDRESS /\ exists a, real_addr a /\ snd o = addr_encode a)) os ->
  exists r l, settings_loop fuel (options_append os []) refl addrs = Ok (Some (r, addrs ++ l))
    /\ (r = refl || existsb (fun o => fst o =? SETTINGS_OPT_INCLUDE_REFLEXIVE) os)
    /\ map addr_encode l = map snd (filter (fun o => fst o =? SETTINGS_OPT_ADD_ADDRESS) os)
    /\ Forall real_addr l.
Proof.
  induction os as [|[ty v] os IH]; intros fuel refl addrs OK FU SH.
  - destruct fuel as [|fuel]; [cbn in FU; lia|]. cbn [options_append settings_loop]. exists refl, []. rewrite app_nil_r.
    spl; [reflexivity | cbn [existsb]; rewrite orb_false_r; reflexivity | reflexivity | constructor].
  - inversion OK as [|? ? O1 OR]; subst. inversion SH as [|? ? S1 SR]; subst. cbn [fst snd] in *.
    assert (OKv := O1). destruct O1 as [UT [BV LV]]. cbn [fst snd] in *.
    destruct (option_append_wire ty v [] UT ltac:(unfold U64MAX in *; lia)) as [w [EW [OW WL]]].
    rewrite app_nil_l in EW.
    assert (BO : bytes_ok (options_append os [])) by (apply options_append_bytes_ok; [assumption | constructor]).
    assert (EQ : options_append ((ty, v) :: os) [] = w ++ options_append os []).
    { cbn [options_append]. rewrite EW. apply options_append_app. assumption. }
    rewrite EQ in *. destruct fuel as [|fuel]; [lia|].
    assert (PW : option_parse (w ++ options_append os []) = Ok (ty, Some v, length w)).
    { apply option_parse_wire with (1 := OW); try assumption. unfold U64MAX in *. lia. }
    assert (W1 : (1 <= length w)%nat).
    { destruct OW as [ty v L T CL CT _ _]. pose proof (complete_vlu_length _ CL). rewrite app_length. lia. }
    cbn [settings_loop]. destruct (w ++ options_append os []) as [|b0 l0] eqn:EB.
    { apply (f_equal (@length Z)) in EB. rewrite app_length in EB. cbn [length] in EB. lia. }
    rewrite <- EB in *. rewrite PW.
    assert (SK : skipn (length w) (w ++ options_append os []) = options_append os []).
    { rewrite skipn_app, skipn_all, Nat.sub_diag. reflexivity. }
    rewrite SK. rewrite app_length in FU.
    destruct S1 as [S1|[S1 [a [RA SV]]]]; subst ty.
    + cbn [Z.eqb]. change (SETTINGS_OPT_INCLUDE_REFLEXIVE =? SETTINGS_OPT_INCLUDE_REFLEXIVE) with true. cbv iota.
      destruct (IH fuel true addrs OR ltac:(lia) SR) as [r [l [E [R [M F]]]]]. exists r, l.
      cbn [existsb filter fst]. spl; [exact E | | exact M | exact F].
      rewrite R. change (SETTINGS_OPT_INCLUDE_REFLEXIVE =? SETTINGS_OPT_INCLUDE_REFLEXIVE) with true. cbn [orb]. rewrite orb_true_r. reflexivity.
    + change (SETTINGS_OPT_ADD_ADDRESS =? SETTINGS_OPT_INCLUDE_REFLEXIVE) with false.
      change (SETTINGS_OPT_ADD_ADDRESS =? SETTINGS_OPT_ADD_ADDRESS) with true. cbv iota. subst v.
      assert (DA := encode_roundtrip addr_erased a [] (proj1 RA) (proj2 RA) ltac:(constructor)). rewrite app_nil_r in DA. rewrite DA.
      destruct (IH fuel refl (addrs ++ [a]) OR ltac:(lia) SR) as [r [l [E [R [M F]]]]]. exists r, (a :: l).
      rewrite <- app_assoc in E. cbn [app] in E.
      cbn [existsb filter fst map snd]. change (SETTINGS_OPT_ADD_ADDRESS =? SETTINGS_OPT_INCLUDE_REFLEXIVE) with false.
      change (SETTINGS_OPT_ADD_ADDRESS =? SETTINGS_OPT_ADD_ADDRESS) with true. cbn [orb map snd].
      spl; [exact E | exact R | rewrite M; reflexivity | constructor; assumption].
Qed.

Lemma enc_inj : forall a b, real_addr a -> real_addr b -> addr_encode a = addr_encode b -> a = b.
Proof.
  intros a b [A1 A2] [B1 B2] E.
  pose proof (encode_roundtrip addr_erased a [] A1 A2 ltac:(constructor)) as DA.
  pose proof (encode_roundtrip addr_erased b [] B1 B2 ltac:(constructor)) as DB.
  rewrite E in DA. rewrite DA in DB. injection DB. auto.
Qed.
Lemma enc_map_inj : forall l l', Forall real_addr l -> Forall real_addr l' -> map addr_encode l = map addr_encode l' -> l = l'.
Proof.
  induction l as [|a l IH]; intros [|b l'] F F' E; try discriminate; [reflexivity|].
  inversion F; inversion F'; subst. cbn [map] in E. injection E as E1 E2. f_equal; [apply enc_inj | apply IH]; assumption.
Qed.

Lemma real_option : forall a, real_addr a -> option_ok (SETTINGS_OPT_ADD_ADDRESS, addr_encode a).
Proof.
  intros a [A1 A2]. destruct (encode_wire a A1 A2) as [f [[p0 [p1 [E [B0 [B1 _]]]]] [BF _]]]. split; [|split]; cbn [fst snd].
  - unfold is_u64, SETTINGS_OPT_ADD_ADDRESS, U64MAX. lia.
  - rewrite E. constructor; [exact BF|]. apply bytes_ok_app. split; [apply A1|]. constructor; [exact B0|]. constructor; [exact B1|constructor].
  - rewrite E. rewrite zlen_cons, zlen_app, !zlen_cons, zlen_nil. unfold zlen.
    destruct (fam_cases a A1) as [[H _]|[[_ H]|[_ H]]]; [congruence | rewrite H; unfold U64MAX; lia | rewrite H; unfold U64MAX; lia].
Qed.

Lemma settings_options_ok : forall c, Forall real_addr (c_addrs c) -> Forall option_ok (settings_options c).
Proof.
  intros c F. unfold settings_options. apply Forall_app. split.
  - destruct (c_adv c); constructor; [|constructor]. split; [|split]; cbn [fst snd]; [unfold is_u64, SETTINGS_OPT_INCLUDE_REFLEXIVE, U64MAX; lia | constructor | unfold U64MAX, zlen; cbn; lia].
  - apply Forall_map. eapply Forall_impl; [|exact F]. intros a R. apply real_option. exact R.
Qed.

Lemma served_ensure : forall s, served s -> served (ensure_return s) /\ s_addrs (ensure_return s) = s_addrs s
  /\ s_refl (ensure_return s) = s_refl s /\ s_load (ensure_return s) = s_load s.
Proof.
  intros s [R [H A]]. unfold ensure_return, send_reflexive, v_send, served. rewrite R. destruct (s_send s) eqn:ES; cbn; auto.
Qed.

Lemma settings_received : forall c s act, served s -> Forall real_addr (c_addrs c) ->
  exists s', conn_msg (s, act) (settings_msg c) = Ok (s', true) /\ served s'
    /\ s_addrs s' = c_addrs c /\ s_refl s' = c_adv c /\ s_load s' = s_load s.
Proof.
  intros c s act S F. assert (S0 := S). destruct S as [R [H A]].
  assert (OO := settings_options_ok c F).
  unfold settings_msg. rewrite (options_append_app _ _ OO). cbn [app].
  unfold RedirSrv.conn_msg. rewrite R, H. cbn [negb andb on_msg]. rewrite A. cbn [negb andb].
  change (CMD_SETTINGS =? CMD_SIMPLE_AUTH) with false. change (CMD_SETTINGS =? CMD_SETTINGS) with true. cbv iota.
  unfold on_settings.
  destruct (settings_loop_ok (settings_options c) (S (length (options_append (settings_options c) []))) false [] OO ltac:(lia)) as [r [l [E [RR [M FL]]]]].
  { unfold settings_options. apply Forall_app. split.
    - destruct (c_adv c); constructor; [|constructor]. cbn [fst]. auto.
    - apply Forall_map. eapply Forall_impl; [|exact F]. intros a RA. cbn [fst snd]. right. split; [reflexivity|]. exists a. auto. }
  rewrite E. cbn [rbind app].
  assert (EL : l = c_addrs c).
  { apply enc_map_inj; [assumption|assumption|]. rewrite M. unfold settings_options. rewrite filter_app, map_app.
    assert (F1 : filter (fun o : Z * list Z => fst o =? SETTINGS_OPT_ADD_ADDRESS) (if c_adv c then [(SETTINGS_OPT_INCLUDE_REFLEXIVE, [])] else []) = []) by (destruct (c_adv c); reflexivity).
    rewrite F1. cbn [map app]. clear. induction (c_addrs c) as [|a l IH]; [reflexivity|]. cbn [map filter fst].
    change (SETTINGS_OPT_ADD_ADDRESS =? SETTINGS_OPT_ADD_ADDRESS) with true. cbv iota. cbn [map snd]. rewrite IH. reflexivity. }
  assert (ER : r = c_adv c).
  { rewrite RR. unfold settings_options. rewrite existsb_app.
    assert (F1 : existsb (fun o : Z * list Z => fst o =? SETTINGS_OPT_INCLUDE_REFLEXIVE) (map (fun a => (SETTINGS_OPT_ADD_ADDRESS, addr_encode a)) (c_addrs c)) = false).
    { clear. induction (c_addrs c) as [|a l IH]; [reflexivity|]. cbn [map existsb fst]. rewrite IH. reflexivity. }
    rewrite F1. destruct (c_adv c); reflexivity. }
  clear RR. subst l r.
  assert (SV : served (v_set s (c_adv c) (c_addrs c))) by (unfold served, v_set; cbn; auto).
  destruct (served_ensure _ SV) as [S1 [S2 [S3 S4]]]. eexists. split; [reflexivity|]. spl; [exact S1 | rewrite S2; reflexivity | rewrite S3; reflexivity | rewrite S4; reflexivity].
Qed.

Lemma draining_received : forall s act, served s -> exists s', conn_msg (s, act) [CMD_DRAINING] = Ok (s', false) /\ served s'
  /\ s_addrs s' = s_addrs s /\ s_refl s' = s_refl s /\ s_load s' = s_load s.
Proof.
  intros s act S. assert (S0 := S). destruct S as [R [H A]]. unfold RedirSrv.conn_msg. rewrite R, H. cbn [negb andb on_msg]. rewrite A. cbn [negb andb].
  change (CMD_DRAINING =? CMD_SIMPLE_AUTH) with false. change (CMD_DRAINING =? CMD_SETTINGS) with false. change (CMD_DRAINING =? CMD_DRAINING) with true. cbv iota. cbn [rbind].
  destruct (served_ensure _ S0) as [S1 [S2 [S3 S4]]]. eexists. split; [reflexivity|]. auto.
Qed.

Lemma user_data_received : forall s act d, served s -> exists s', conn_msg (s, act) (CMD_USER_DATA :: d) = Ok (s', act) /\ served s'
  /\ s_addrs s' = s_addrs s /\ s_refl s' = s_refl s /\ s_load s' = s_load s.
Proof.
  intros s act d S. assert (S0 := S). destruct S as [R [H A]]. unfold RedirSrv.conn_msg. rewrite R, H. cbn [negb andb on_msg]. rewrite A. cbn [negb andb].
  change (CMD_USER_DATA =? CMD_SIMPLE_AUTH) with false. change (CMD_USER_DATA =? CMD_SETTINGS) with false. change (CMD_USER_DATA =? CMD_DRAINING) with false.
  change (CMD_USER_DATA =? CMD_LOAD_FACTOR) with false. change (CMD_USER_DATA =? CMD_USER_DATA) with true. cbv iota. cbn [rbind].
  destruct (served_ensure _ S0) as [S1 [S2 [S3 S4]]]. eexists. split; [reflexivity|]. auto.
Qed.

Lemma load_received : forall s act n, served s -> is_u64 n -> exists s', conn_msg (s, act) (vlu_append n [CMD_LOAD_FACTOR]) = Ok (s', act) /\ served s'
  /\ s_addrs s' = s_addrs s /\ s_refl s' = s_refl s /\ s_load s' = n.
Proof.
  intros s act n S U. assert (S0 := S). destruct S as [R [H A]]. unfold vlu_append. cbn [app]. unfold RedirSrv.conn_msg. rewrite R, H. cbn [negb andb on_msg]. rewrite A. cbn [negb andb].
  change (CMD_LOAD_FACTOR =? CMD_SIMPLE_AUTH) with false. change (CMD_LOAD_FACTOR =? CMD_SETTINGS) with false. change (CMD_LOAD_FACTOR =? CMD_DRAINING) with false.
  change (CMD_LOAD_FACTOR =? CMD_LOAD_FACTOR) with true. cbv iota. unfold on_load_factor.
  pose proof (vlu_roundtrip n [] U ltac:(constructor)) as V. rewrite app_nil_r in V. rewrite V. cbn [rbind].
  assert (SV : served (v_load s n)) by (unfold served, v_load; cbn; auto).
  destruct (served_ensure _ SV) as [S1 [S2 [S3 S4]]]. eexists. split; [reflexivity|]. spl; [exact S1 | rewrite S2; reflexivity | rewrite S3; reflexivity | rewrite S4; reflexivity].
Qed.

Lemma memcmp_refl : forall l, memcmp l l = 0.
Proof. intros l. apply memcmp_eq; reflexivity. Qed.

(** Good keys never put the connection on hold, and a known one authenticates. *)
Lemma auth_received : forall creds s act,
  (forall k p q, In (k, p) creds -> knows pw k q -> q = p) -> s_recv s = true -> s_held s = false ->
  exists s', conn_run (s, act) (map (auth_msg hmac (s_nonce s)) creds) = Ok (s', act)
    /\ s_recv s' = true /\ s_held s' = false /\ s_addrs s' = s_addrs s /\ s_refl s' = s_refl s /\ s_load s' = s_load s /\ s_nonce s' = s_nonce s
    /\ (s_auth s = true \/ (exists k p, In (k, p) creds /\ knows pw k p) -> s_auth s' = true).
Proof.
  induction creds as [|[k p] creds IH]; intros s act G R H.
  - exists s. cbn [map RedirSrv.conn_run]. spl; try reflexivity; try assumption. intros [A|[k [p [[] _]]]]. exact A.
  - cbn [map RedirSrv.conn_run].
    assert (E : exists s1, conn_msg (s, act) (auth_msg hmac (s_nonce s) (k, p)) = Ok (s1, act) /\ s_recv s1 = true /\ s_held s1 = false
      /\ s_addrs s1 = s_addrs s /\ s_refl s1 = s_refl s /\ s_load s1 = s_load s /\ s_nonce s1 = s_nonce s
      /\ (s_auth s = true \/ knows pw k p -> s_auth s1 = true)).
    { unfold auth_msg. cbn [fst snd]. unfold RedirSrv.conn_msg. rewrite R, H. cbn [negb andb on_msg].
      change (CMD_SIMPLE_AUTH =? CMD_SIMPLE_AUTH) with true. cbn [negb]. rewrite andb_false_r. cbn [rbind].
      unfold on_simple_auth. pose proof (MAC p (s_nonce s)) as LM. rewrite app_length, LM.
      replace (Nat.ltb (32 + length k) 32) with false by (symmetry; apply Nat.ltb_ge; lia).
      replace (skipn 32 (hmac p (s_nonce s) ++ k)) with k by (rewrite <- LM, skipn_app_exact; reflexivity).
      replace (firstn 32 (hmac p (s_nonce s) ++ k)) with (hmac p (s_nonce s)) by (rewrite <- LM, firstn_app_exact; reflexivity).
      destruct (lookup k pw) as [q|] eqn:EK.
      - assert (q = p) by (apply (G k p q); [left; reflexivity | exact EK]). subst q.
        rewrite memcmp_refl. change (0 =? 0) with true. cbv iota. cbn [rbind].
        eexists. split; [reflexivity|]. unfold v_auth. cbn. auto 10.
      - cbn [rbind]. exists s. spl; try reflexivity; try assumption. intros [A|A]; [exact A|]. unfold knows in A. congruence. }
    destruct E as [s1 [E [R1 [H1 [A1 [F1 [L1 [N1 K1]]]]]]]]. rewrite E. cbn [rbind].
    destruct (IH s1 act ltac:(intros; eapply G; [right; eassumption | eassumption]) R1 H1) as [s2 [E2 [R2 [H2 [A2 [F2 [L2 [N2 K2]]]]]]]].
    rewrite N1 in E2. rewrite E2. exists s2. spl; try reflexivity; try assumption; try congruence.
    intros [A|[k' [p' [[EQ|IN] KN]]]]; apply K2.
    + left. apply K1. left. exact A.
    + left. apply K1. right. injection EQ as -> ->. exact KN.
    + right. eauto.
Qed.
End Conn.
