From Verif Require Import Base BaseFacts VLU VLUSpec VLUProofs Address AddressSpec AddressProofs FlashCert FlashCertProofs Cookie.
Ltac Zify.zify_post_hook ::= Z.div_mod_to_equations.

Section S.
Variable sha : list Z -> list Z.
Hypothesis sha_len : forall l, length (sha l) = 32%nat.
Variable secret : list Z.

Lemma firstn_app_n : forall n (a b : list Z), length a = n -> firstn n (a ++ b) = a.
Proof. intros n a b <-. apply firstn_app_exact. Qed.
Lemma skipn_app_n : forall n (a b : list Z), length a = n -> skipn n (a ++ b) = b.
Proof. intros n a b <-. apply skipn_app_exact. Qed.

(** The cookie as three fields *)
Lemma check_fields : forall age raw h1 h2 a, complete_vlu raw -> bytes_ok h1 -> bytes_ok h2 -> length h1 = 32%nat -> length h2 = 32%nat ->
  check_cookie sha secret age (raw ++ h1 ++ h2) a =
  let s := Z.min (groups_value raw) U64MAX in
  if (s >? seconds_of age) || (seconds_of age - s >? MAX_COOKIE_LIFETIME) then Ok COOKIE_BAD
  else if negb (eq_bytes h1 (sha (secret ++ raw))) then Ok COOKIE_BAD
  else if negb (eq_bytes h2 (sha ((secret ++ raw) ++ addr_encode a))) then Ok COOKIE_MISMATCH else Ok COOKIE_OK.
Proof.
  intros age raw h1 h2 a C B1 B2 L1 L2. unfold check_cookie. rewrite vlu_parse_complete by (auto; apply bytes_ok_app; auto).
  rewrite !app_length, L1, L2. replace (Nat.eqb (length raw + (32 + 32)) (length raw + 32 + 32)) with true by (symmetry; apply Nat.eqb_eq; lia). cbn [negb].
  rewrite firstn_app_exact, skipn_app_exact, (firstn_app_n 32 h1 h2 L1).
  replace (skipn (length raw + 32) (raw ++ h1 ++ h2)) with h2 by (rewrite app_assoc; symmetry; apply skipn_app_n; rewrite app_length, L1; reflexivity).
  rewrite <- L2, firstn_all. reflexivity.
Qed.
Lemma make_fields : forall age a, make_cookie sha secret age a = vlu_encode (seconds_of age) ++ sha (secret ++ vlu_encode (seconds_of age)) ++ sha ((secret ++ vlu_encode (seconds_of age)) ++ addr_encode a).
Proof. intros. unfold make_cookie, vlu_append. cbn [app]. rewrite <- !app_assoc. reflexivity. Qed.

Hypothesis sha_bytes : forall l, bytes_ok (sha l).

Lemma check_made : forall age age' a a', is_u64 (seconds_of age) ->
  check_cookie sha secret age' (make_cookie sha secret age a) a' =
  if (seconds_of age >? seconds_of age') || (seconds_of age' - seconds_of age >? MAX_COOKIE_LIFETIME) then Ok COOKIE_BAD
  else if negb (eq_bytes (sha ((secret ++ vlu_encode (seconds_of age)) ++ addr_encode a)) (sha ((secret ++ vlu_encode (seconds_of age)) ++ addr_encode a'))) then Ok COOKIE_MISMATCH else Ok COOKIE_OK.
Proof.
  intros age age' a a' U. rewrite make_fields. destruct (vlu_encode_spec _ U) as (C & G & _). rewrite check_fields by auto. cbv zeta. rewrite G.
  replace (Z.min (seconds_of age) U64MAX) with (seconds_of age) by (unfold is_u64 in U; lia).
  replace (eq_bytes (sha (secret ++ vlu_encode (seconds_of age))) (sha (secret ++ vlu_encode (seconds_of age)))) with true by (symmetry; apply eq_bytes_iff; reflexivity). reflexivity.
Qed.
(** Whatever is not called bad has the form of a cookie. *)
Lemma check_shape : forall age c a v, bytes_ok c -> is_u64 (seconds_of age) -> seconds_of age < U64MAX -> check_cookie sha secret age c a = Ok v -> v <> COOKIE_BAD ->
  exists raw h2, c = raw ++ sha (secret ++ raw) ++ h2 /\ length h2 = 32%nat /\ complete_vlu raw /\ groups_value raw <= seconds_of age <= groups_value raw + MAX_COOKIE_LIFETIME
  /\ (v = COOKIE_OK <-> h2 = sha ((secret ++ raw) ++ addr_encode a)) .
Proof.
  intros age c a v B U U' K N. destruct (vlu_parse_spec c B) as [(_ & E)|(raw & rest & -> & C & E)]; [unfold check_cookie in K; rewrite E in K; injection K as <-; contradiction|].
  assert (LR : length rest = 64%nat).
  { unfold check_cookie in K. rewrite E, app_length in K. destruct (Nat.eqb_spec (length raw + length rest) (length raw + 32 + 32)) as [L|L]; cbn [negb] in K; [lia|injection K as <-; contradiction]. }
  apply bytes_ok_app in B as (_ & B). rewrite <- (firstn_skipn 32 rest) in *. apply bytes_ok_app in B as (B1 & B2).
  assert (L1 : length (firstn 32 rest) = 32%nat) by (rewrite app_length, firstn_length, skipn_length in LR; rewrite firstn_length; lia).
  assert (L2 : length (skipn 32 rest) = 32%nat) by (rewrite app_length in LR; lia).
  set (h1 := firstn 32 rest) in *. set (h2 := skipn 32 rest) in *. rewrite check_fields in K by assumption. cbv zeta in K.
  destruct ((Z.min (groups_value raw) U64MAX >? seconds_of age) || (seconds_of age - Z.min (groups_value raw) U64MAX >? MAX_COOKIE_LIFETIME)) eqn:T; [injection K as <-; contradiction|].
  destruct (eq_bytes h1 (sha (secret ++ raw))) eqn:E1; cbn [negb] in K; [|injection K as <-; contradiction]. apply eq_bytes_iff in E1.
  exists raw, h2. split; [rewrite <- E1; reflexivity|]. split; [exact L2|]. split; [exact C|]. split.
  - apply orb_false_iff in T. destruct T as (T1 & T2). rewrite Z.gtb_ltb in T1, T2. apply Z.ltb_ge in T1, T2. lia.
  - destruct (eq_bytes h2 (sha ((secret ++ raw) ++ addr_encode a))) eqn:E2; cbn [negb] in K; injection K as <-.
    + apply eq_bytes_iff in E2. split; auto.
    + split; [discriminate|]. intros X. apply eq_bytes_iff in X. congruence.
Qed.
Lemma check_no_UB : forall age c a, bytes_ok c -> exists v, check_cookie sha secret age c a = Ok v.
Proof.
  intros age c a B. unfold check_cookie. destruct (vlu_parse_spec c B) as [(_ & ->)|(raw & rest & _ & _ & ->)]; [eauto|].
  repeat match goal with |- context [if ?b then _ else _] => destruct b; eauto end.
Qed.
End S.

(** Addresses made from socket addresses have different encodings. *)
Lemma encode_inj : forall a b, addr_ok a -> addr_ok b -> a_origin a = 0 -> a_origin b = 0 -> addr_encode a = addr_encode b -> same_addr a b.
Proof.
  intros a b A B OA OB E.
  assert (Z0 : forall x, addr_ok x -> a_fam x = 0 -> addr_encode x = []) by (intros x X F; unfold addr_encode, ip_length; rewrite F; reflexivity).
  assert (NZ : forall x, addr_ok x -> a_fam x <> 0 -> addr_encode x <> []) by (intros x X F E'; destruct (encode_wire x X F) as (f & (p0 & p1 & W & _) & _); rewrite E' in W; discriminate).
  destruct (Z.eq_dec (a_fam a) 0) as [FA|FA], (Z.eq_dec (a_fam b) 0) as [FB|FB].
  - destruct (fam_cases a A) as [(F & I & P)|[(F & _)|(F & _)]], (fam_cases b B) as [(F' & I' & P')|[(F' & _)|(F' & _)]]; try lia. repeat split; congruence.
  - exfalso. apply (NZ b B FB). rewrite <- E. apply Z0; assumption.
  - exfalso. apply (NZ a A FA). rewrite E. apply Z0; assumption.
  - pose proof (encode_roundtrip addr_erased a [] A FA ltac:(constructor)) as RA. pose proof (encode_roundtrip addr_erased b [] B FB ltac:(constructor)) as RB.
    rewrite E, RB in RA. apply Ok_inj in RA. injection RA as ->. repeat split.
Qed.
