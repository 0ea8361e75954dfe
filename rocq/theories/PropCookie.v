(** C31: handshake cookies.  [sha] answers 32 bytes; beyond that nothing is assumed of it except what each theorem says. *)
From Verif Require Import Base BaseFacts VLU VLUSpec VLUProofs Address AddressSpec AddressProofs FlashCert Cookie CookieProofs.
Ltac Zify.zify_post_hook ::= Z.div_mod_to_equations.

Definition hash32 (sha : list Z -> list Z) : Prop := forall l, bytes_ok (sha l) /\ length (sha l) = 32%nat.
(** A time at which the age in whole seconds fits uintmax_t. *)
Definition age_ok (age : Z) : Prop := 0 <= age /\ age / 1000000 < U64MAX.

(** C31.  Accepted, for the address it was made for, for 95 seconds. *)
Theorem C31_fresh : forall sha secret age age' a, hash32 sha -> age_ok age -> age <= age' <= age + 95 * 1000000 ->
  check_cookie sha secret age' (make_cookie sha secret age a) a = Ok COOKIE_OK.
Proof.
  intros sha secret age age' a H (A1 & A2) R. rewrite (check_made sha (fun l => proj2 (H l)) secret (fun l => proj1 (H l))) by (unfold seconds_of, TICKS, is_u64; lia).
  replace (eq_bytes _ _) with true by (symmetry; apply FlashCertProofs.eq_bytes_iff; reflexivity). unfold seconds_of, TICKS, MAX_COOKIE_LIFETIME.
  replace (age / 1000000 >? age' / 1000000) with false by (symmetry; rewrite Z.gtb_ltb; apply Z.ltb_ge; lia).
  replace (age' / 1000000 - age / 1000000 >? 95) with false by (symmetry; rewrite Z.gtb_ltb; apply Z.ltb_ge; lia). reflexivity.
Qed.
Print Assumptions C31_fresh.

(** C31.  Refused, for any address, from 96 seconds on, and before it was made (in an earlier second). *)
Theorem C31_stale : forall sha secret age age' a a', hash32 sha -> age_ok age -> age + 96 * 1000000 <= age' \/ age' + 1000000 <= age ->
  check_cookie sha secret age' (make_cookie sha secret age a) a' = Ok COOKIE_BAD.
Proof.
  intros sha secret age age' a a' H (A1 & A2) R. rewrite (check_made sha (fun l => proj2 (H l)) secret (fun l => proj1 (H l))) by (unfold seconds_of, TICKS, is_u64; lia).
  unfold seconds_of, TICKS, MAX_COOKIE_LIFETIME. destruct (Z.gtb_spec (age / 1000000) (age' / 1000000)); [reflexivity|]. destruct (Z.gtb_spec (age' / 1000000 - age / 1000000) 95); [reflexivity|lia].
Qed.
Print Assumptions C31_stale.

(** C31.  While fresh, presented from another address it is reported as a mismatch, if the two hashes do not collide. *)
Theorem C31_mismatch : forall sha secret age age' a a', hash32 sha -> age_ok age -> age <= age' <= age + 95 * 1000000 ->
  addr_ok a -> addr_ok a' -> a_origin a = 0 -> a_origin a' = 0 -> ~ same_addr a a' ->
  (forall x y, x <> y -> x = secret ++ vlu_encode (age / 1000000) ++ addr_encode a -> y = secret ++ vlu_encode (age / 1000000) ++ addr_encode a' -> sha x <> sha y) ->
  check_cookie sha secret age' (make_cookie sha secret age a) a' = Ok COOKIE_MISMATCH.
Proof.
  intros sha secret age age' a a' H (A1 & A2) R K K' O O' N COL. rewrite (check_made sha (fun l => proj2 (H l)) secret (fun l => proj1 (H l))) by (unfold seconds_of, TICKS, is_u64; lia).
  destruct (eq_bytes (sha ((secret ++ vlu_encode (seconds_of age)) ++ addr_encode a)) (sha ((secret ++ vlu_encode (seconds_of age)) ++ addr_encode a'))) eqn:E.
  - exfalso. apply FlashCertProofs.eq_bytes_iff in E. rewrite <- !app_assoc in E. unfold seconds_of, TICKS in E. refine (COL _ _ _ eq_refl eq_refl E). intros X. apply N, encode_inj; auto.
    apply app_inv_head in X. apply app_inv_head in X. exact X.
  - unfold seconds_of, TICKS, MAX_COOKIE_LIFETIME.
    replace (age / 1000000 >? age' / 1000000) with false by (symmetry; rewrite Z.gtb_ltb; apply Z.ltb_ge; lia).
    replace (age' / 1000000 - age / 1000000 >? 95) with false by (symmetry; rewrite Z.gtb_ltb; apply Z.ltb_ge; lia). reflexivity.
Qed.
Print Assumptions C31_mismatch.

(** C31.  Only cookies this instance made are accepted.  [made] is the cookies made so far.  The assumption on the hash is that
    it can not be forged: if the last 32 bytes of [c] are the hash of the text that begins with the secret and goes on with
    the first field of [c] and the address, that text was hashed to make a cookie. *)
Definition hashed (secret : list Z) (made : list (Z * addr)) (x : list Z) : Prop :=
  exists age a, In (age, a) made /\ (x = secret ++ vlu_encode (age / 1000000) \/ x = secret ++ vlu_encode (age / 1000000) ++ addr_encode a).
Definition not_forged (sha : list Z -> list Z) (secret : list Z) (made : list (Z * addr)) (a : addr) (c : list Z) : Prop :=
  forall raw h1, complete_vlu raw -> length h1 = 32%nat -> c = raw ++ h1 ++ sha (secret ++ raw ++ addr_encode a) -> hashed secret made (secret ++ raw ++ addr_encode a).
Theorem C31_unforgeable : forall sha secret made c age a, hash32 sha -> bytes_ok c -> age_ok age -> Forall (fun m => age_ok (fst m)) made ->
  addr_ok a -> a_fam a <> 0 -> a_origin a = 0 -> Forall (fun m => addr_ok (snd m) /\ a_origin (snd m) = 0) made ->
  not_forged sha secret made a c ->
  check_cookie sha secret age c a = Ok COOKIE_OK ->
  exists age0 a0, In (age0, a0) made /\ same_addr a a0 /\ c = make_cookie sha secret age0 a0 /\ age0 / 1000000 <= age / 1000000 <= age0 / 1000000 + 95.
Proof.
  intros sha secret made c age a H B (A1 & A2) FA AO AF OO FO KN CK.
  destruct (check_shape sha (fun l => proj2 (H l)) secret (fun l => proj1 (H l)) age c a COOKIE_OK B) as (raw & h2 & E & L2 & C & R & V); auto; [unfold seconds_of, TICKS, is_u64; lia|discriminate|].
  destruct V as (V & _). specialize (V eq_refl). subst h2. rewrite <- app_assoc in E.
  destruct (KN raw (sha (secret ++ raw)) C (proj2 (H _)) E) as (age0 & a0 & I & X).
  rewrite Forall_forall in FA, FO. destruct (FA _ I) as (G1 & G2). destruct (FO _ I) as (AO0 & OO0). cbn [fst snd] in *.
  assert (U : is_u64 (age0 / 1000000)) by (unfold is_u64; lia). destruct (vlu_encode_spec _ U) as (C0 & GV & _).
  destruct X as [X|X]; apply app_inv_head in X.
  - exfalso. rewrite <- (app_nil_r (vlu_encode _)) in X. destruct (complete_vlu_prefix_unique raw C _ _ _ C0 X) as (_ & Y). destruct (encode_wire a AO AF) as (f & (p0 & p1 & W & _) & _). rewrite Y in W. discriminate.
  - destruct (complete_vlu_prefix_unique raw C _ _ _ C0 X) as (-> & Y). exists age0, a0. split; [exact I|]. split; [apply encode_inj; auto|]. split.
    + rewrite make_fields. unfold seconds_of, TICKS. rewrite <- !app_assoc, <- Y. exact E.
    + rewrite GV in R. unfold seconds_of, TICKS, MAX_COOKIE_LIFETIME in R. exact R.
Qed.
Print Assumptions C31_unforgeable.

(** The assumption holds of every cookie that was made. *)
Lemma C31_made_not_forged : forall sha secret made age a, age_ok age -> In (age, a) made -> not_forged sha secret made a (make_cookie sha secret age a).
Proof.
  intros sha secret made age a (A1 & A2) I raw h1 C L E. exists age, a. split; [exact I|]. right. f_equal. rewrite make_fields in E.
  assert (U : is_u64 (seconds_of age)) by (unfold is_u64, seconds_of, TICKS; lia). destruct (vlu_encode_spec _ U) as (C0 & _). destruct (complete_vlu_prefix_unique _ C0 raw _ _ C E) as (<- & _). reflexivity.
Qed.

(** C31.  checkCookie is defined for all bytes. *)
Theorem C31_defined : forall sha secret age c a, bytes_ok c -> exists v, check_cookie sha secret age c a = Ok v.
Proof. exact check_no_UB. Qed.
Print Assumptions C31_defined.

(** A stand-in hash for the example, and a cookie. *)
Definition C31_sha (l : list Z) : list Z := map (fun i => (fold_left (fun h b => (h * 31 + b) mod 65521) l (Z.of_nat i)) mod 256) (seq 1 32).
Lemma C31_sha_ok : hash32 C31_sha.
Proof.
  intros l. unfold C31_sha. split; [|rewrite map_length, seq_length; reflexivity]. apply Forall_map, Forall_forall. intros x _. unfold is_byte. apply Z.mod_pos_bound. lia.
Qed.
Definition C31_v4 : addr := mkAddr AF_INET [192; 0; 2; 1] 1935 0.
Definition C31_v4b : addr := mkAddr AF_INET [192; 0; 2; 2] 1935 0.
Example C31_case : let c := make_cookie C31_sha [1; 2; 3] 5500000 C31_v4 in
  (length c, firstn 1 c) = (65%nat, [5])
  /\ check_cookie C31_sha [1; 2; 3] 100900000 c C31_v4 = Ok COOKIE_OK /\ check_cookie C31_sha [1; 2; 3] 101500000 c C31_v4 = Ok COOKIE_BAD
  /\ check_cookie C31_sha [1; 2; 3] 6000000 c C31_v4b = Ok COOKIE_MISMATCH /\ check_cookie C31_sha [1; 2; 4] 6000000 c C31_v4 = Ok COOKIE_BAD
  /\ check_cookie C31_sha [1; 2; 3] 6000000 (4 :: tl c) C31_v4 = Ok COOKIE_BAD.
Proof. vm_compute. repeat split. Qed.
