(** C89: the Diffie-Hellman, AES and HMAC contexts made with OpenSSL. *)
From Verif Require Import Base FlashKeySpec Ossl OsslSpec OsslProofs OsslMore.
From Coq Require Import Lia.

(** a small group, for examples: modulo the prime 2^61 - 1, exponents of 8 bits *)
Definition toy : group := mkG 99 [3] (be 8 (2 ^ 61 - 1)) 8.

(** Where two ends with the same group both accept the other's public key, they compute the same secret: the generator to both exponents, as its bytes. *)
Theorem C89_agree : forall G a b x y, 1 <= g_bits G -> 0 < value (g_modulus G) ->
  shared (Some (dh_of G a)) (d_pub (dh_of G b)) = Some x -> shared (Some (dh_of G b)) (d_pub (dh_of G a)) = Some y ->
  x = y /\ value x = value (g_g G) ^ (d_e (dh_of G a) * d_e (dh_of G b)) mod value (g_modulus G).
Proof.
  intros G a b x y B M X Y. rewrite <- bin_value in M. apply dh_secret in X; auto. apply dh_secret in Y; auto. subst x y. rewrite (Z.mul_comm (d_e (dh_of G a))). split; [reflexivity|]. rewrite <- !bin_value. apply bn2bin_ok. apply Z.mod_pos_bound. exact M.
Qed.
Print Assumptions C89_agree.
Example C89_agree_ex : exists x, x <> [] /\ shared (Some (dh_of toy 5)) (d_pub (dh_of toy 77)) = Some x /\ shared (Some (dh_of toy 77)) (d_pub (dh_of toy 5)) = Some x /\ 1 <= g_bits toy /\ 0 < value (g_modulus toy).
Proof. eexists. split; [|split; [vm_compute; reflexivity|split; [vm_compute; reflexivity|vm_compute; split; [discriminate|reflexivity]]]]. discriminate. Qed.

(** The groups are 16, 14 and 2, in this order, with the generator and the moduli of RFC 3526 and RFC 7296; a context is initialised once, with one of them. *)
Theorem C89_groups :
  supported = [16; 14; 2] /\
  (forall c id r, snd (dh_init c id r) = true <-> c = None /\ In id [16; 14; 2]) /\
  (forall c id r, snd (dh_init c id r) = false -> fst (dh_init c id r) = c) /\
  (forall id r d, dh_init None id r = (Some d, true) -> exists bits c len, In (id, bits, c, len) [(16, 4096, 240904, 480); (14, 2048, 124476, 320); (2, 1024, 129093, 224)] /\
    d_g d = 2 /\ d_m d = rfc bits c /\ 2 ^ (len - 1) <= d_e d < 2 ^ len).
Proof.
  assert (F : forall id, find_group id <> None <-> In id [16; 14; 2]).
  { intro id. unfold find_group, modp_groups. cbn [find g_id In]. destruct (id =? 16) eqn:A; [split; [left; lia|discriminate]|]. destruct (id =? 14) eqn:B; [split; [right; left; lia|discriminate]|]. destruct (id =? 2) eqn:C; [split; [right; right; left; lia|discriminate]|]. split; [congruence|intros; lia]. }
  split; [reflexivity|]. split; [|split].
  - intros c id r. destruct c as [d|]; cbn [dh_init snd]; [split; [discriminate|intros [X _]; discriminate]|]. rewrite <- F. destruct (find_group id); cbn [snd]; split; intro X; try discriminate; try reflexivity; [split; congruence|destruct X; congruence].
  - intros c id r. destruct c as [d|]; cbn [dh_init fst snd]; auto. destruct (find_group id); cbn [fst snd]; [discriminate|auto].
  - intros id r d H. cbn [dh_init] in H. destruct (find_group id) as [G|] eqn:E; [|discriminate]. injection H. intro X. subst d. unfold find_group in E. apply find_some in E. destruct E as [I J]. apply Z.eqb_eq in J. subst id.
    assert (E4 : bin2bn MODP_4096 = rfc 4096 240904) by (vm_compute; reflexivity). assert (E2 : bin2bn MODP_2048 = rfc 2048 124476) by (vm_compute; reflexivity). assert (E1 : bin2bn MODP_1024 = rfc 1024 129093) by (vm_compute; reflexivity).
    destruct I as [I|[I|[I|[]]]]; subst G.
    + exists 4096, 240904, 480. split; [left; reflexivity|]. rewrite d_g_of, d_m_of. cbn [g_g g_modulus]. split; [reflexivity|]. split; [exact E4|]. apply (dh_exponent (mkG _ _ _ _)). cbn [g_bits]. lia.
    + exists 2048, 124476, 320. split; [right; left; reflexivity|]. rewrite d_g_of, d_m_of. cbn [g_g g_modulus]. split; [reflexivity|]. split; [exact E2|]. apply (dh_exponent (mkG _ _ _ _)). cbn [g_bits]. lia.
    + exists 1024, 129093, 224. split; [right; right; left; reflexivity|]. rewrite d_g_of, d_m_of. cbn [g_g g_modulus]. split; [reflexivity|]. split; [exact E1|]. apply (dh_exponent (mkG _ _ _ _)). cbn [g_bits]. lia.
Qed.
Print Assumptions C89_groups.
Example C89_groups_ex : snd (dh_init None 14 12345) = true /\ snd (dh_init None 15 12345) = false /\ snd (dh_init (Some (dh_of toy 1)) 14 12345) = false.
Proof. split; [reflexivity|]. split; reflexivity. Qed.

(** The public key is the generator to the exponent, as bytes without leading zeros, not empty and no longer than the modulus. *)
Theorem C89_public : forall id r d, dh_init None id r = (Some d, true) ->
  value (d_pub d) = 2 ^ d_e d mod d_m d /\ bytes_ok (d_pub d) /\ hd 0 (d_pub d) <> 0 /\ (length (d_pub d) <= 512)%nat /\ (id = 14 -> (length (d_pub d) <= 256)%nat) /\ (id = 2 -> (length (d_pub d) <= 128)%nat).
Proof.
  intros id r d H. cbn [dh_init] in H. destruct (find_group id) as [G|] eqn:E; [|discriminate]. injection H. intro X. subst d. unfold find_group in E. apply find_some in E. destruct E as [I J]. apply Z.eqb_eq in J. subst id.
  destruct (groups_ok G I) as (A1 & A2 & A3 & A4 & A5 & A7 & A6). clear I H. pose proof (dh_exponent G r A2) as [Er _]. assert (P : 0 <= d_e (dh_of G r)) by (eapply Z.le_trans; [|exact Er]; apply Z.pow_nonneg; discriminate). clear Er.
  rewrite d_pub_of, d_m_of, A1. generalize dependent (d_e (dh_of G r)). intros e P. generalize dependent (bin2bn (g_modulus G)). intros m A3 A4 A5 A7 A6.
  assert (M : 0 < m) by (eapply Z.lt_trans; [|exact A3]; reflexivity). destruct (modp_ok 2 e m M P) as (V & B & L). pose proof (pow2_mod e m P A3 A4) as NZ. pose proof (Z.mod_pos_bound (2 ^ e) m M) as R.
  rewrite <- bin_value, V, L. split; [reflexivity|]. split; [exact B|]. split; [|split; [|split]].
  - unfold modp. rewrite mod_exp_ok by assumption. apply bn2bin_hd. apply Z.le_neq. split; [apply R|congruence].
  - exact (num_bytes_lt _ m 512 R A5).
  - intro X. exact (num_bytes_lt _ m 256 R (A7 X)).
  - intro X. exact (num_bytes_lt _ m 128 R (A6 X)).
Qed.
Print Assumptions C89_public.
Example C89_public_ex : exists d, dh_init None 2 12345 = (Some d, true) /\ dh_init None 16 0 = (Some (dh_of (mkG 16 [2] MODP_4096 480) 0), true).
Proof. eexists. split; reflexivity. Qed.

(** A public key is accepted exactly if its number is from 2^24 to the modulus less 2^24, and has at least 16 ones and 16 zeros,
    where zeros before the first one are counted within its most significant byte but those after the last one in that byte are not. *)
Theorem C89_validate : forall d other, bytes_ok other -> let v := value other in
  shared (Some d) other <> None <-> 2 ^ 24 <= v <= d_m d - 2 ^ 24 /\ 16 <= ones v /\ 16 <= zeros v + lead (top other) - trail (top other).
Proof.
  intros d other B v. unfold v. rewrite <- bin_value. rewrite <- (validate_ok (d_m d) other B). cbn [shared]. cbv zeta. destruct (validate (d_m d) (bin2bn other) other); split; congruence.
Qed.
Print Assumptions C89_validate.
Example C89_validate_ex : shared (Some (dh_of toy 5)) [0x12; 0x34; 0x56; 0x78; 0x9A; 0xBC] <> None /\ shared (Some (dh_of toy 5)) [0xFF; 0xFF] = None /\ shared (Some (dh_of toy 5)) [0x1F; 0xFF; 0xFF; 0xFF; 0xFF; 0; 0; 0] = None /\ shared (Some (dh_of toy 5)) [0x20; 0; 0x12; 0x34; 0x56; 0x78; 0x9A; 0xBC] = None.
Proof. vm_compute. repeat split; discriminate. Qed.

(** So 23 zeros after the first one are enough and 9 are needed ... *)
Theorem C89_zeros_partial : forall d other, bytes_ok other -> let v := value other in 2 ^ 24 <= v <= d_m d - 2 ^ 24 -> 16 <= ones v ->
  (23 <= zeros v -> shared (Some d) other <> None) /\ (shared (Some d) other <> None -> 9 <= zeros v).
Proof.
  intros d other B v R O. pose proof (C89_validate d other B) as V. cbv zeta in V. fold v in V. assert (P : 0 < bin2bn other) by (rewrite bin_value; fold v; lia). destruct (top_ok other B P) as [T N]. pose proof (lead_trail (top other) T N). split; intro X; [apply V|apply V in X]; lia.
Qed.
Print Assumptions C89_zeros_partial.
Example C89_zeros_partial_ex : let v := value [0x12; 0x34; 0x56; 0x78; 0x9A; 0xBC] in 2 ^ 24 <= v <= 2 ^ 61 - 1 - 2 ^ 24 /\ 16 <= ones v /\ 23 <= zeros v.
Proof. vm_compute. repeat split; discriminate. Qed.
(** ... but that 16 zeros after the first one are needed, or enough, is refuted: one key has 9 and is accepted, another has 16 and is not. *)
Theorem C89_zeros_refuted : ~ (forall d other, bytes_ok other -> shared (Some d) other <> None -> 16 <= zeros (value other)) /\
  ~ (forall d other, bytes_ok other -> let v := value other in 2 ^ 24 <= v <= d_m d - 2 ^ 24 -> 16 <= ones v -> 16 <= zeros v -> shared (Some d) other <> None).
Proof.
  split; intro H.
  - assert (B : bytes_ok [1; 0; 0xFE; 0xFF; 0xFF]) by (repeat constructor; discriminate). assert (N : shared (Some (dh_of toy 5)) [1; 0; 0xFE; 0xFF; 0xFF] <> None) by (vm_compute; discriminate). specialize (H _ _ B N). vm_compute in H. apply H. reflexivity.
  - assert (B : bytes_ok [0x80; 0; 0xFE; 0xFF; 0xFF]) by (repeat constructor; discriminate). apply (H (dh_of toy 5) _ B); vm_compute; try reflexivity; try (split; discriminate); discriminate.
Qed.
Print Assumptions C89_zeros_refuted.

(** Leading zero bytes in a public key make no difference. *)
Theorem C89_padding : forall c k other, shared c (repeat 0 k ++ other) = shared c other.
Proof. intros c k other. destruct c as [d|]; [|reflexivity]. cbn [shared]. cbv zeta. unfold validate. rewrite bin_zeros, count_zeros. reflexivity. Qed.
Print Assumptions C89_padding.
Example C89_padding_ex : shared (Some (dh_of toy 5)) (repeat 0 3 ++ [0x12; 0x34; 0x56; 0x78; 0x9A; 0xBC]) <> None.
Proof. vm_compute. discriminate. Qed.

(** An AES context, whatever was done with it before, encrypts or decrypts whole blocks as CBC does, and refuses anything else; it takes one key of 16 bytes. *)
Theorem C89_cbc : forall E D key enc c, block_cipher E D -> aes_init None key enc = (Some c, true) -> forall calls iv, block iv ->
  let c' := fold_left (fun c x => fst (crypt_cbc E D c (fst x) (snd x))) calls c in
  length key = 16%nat /\
  (forall bs, Forall block bs -> snd (crypt_cbc E D c' iv (concat bs)) = Some (concat (if enc then cbc_enc (E key) iv bs else cbc_dec (D key) iv bs))) /\
  (forall src, (length src mod 16 <> 0)%nat -> snd (crypt_cbc E D c' iv src) = None) /\ (forall k e, aes_init (Some c') k e = (Some c', false)).
Proof.
  intros E D key enc c BC I calls iv V c'. unfold aes_init in I. destruct (length key =? 16)%nat eqn:L; cbn [negb] in I; [|discriminate]. apply Nat.eqb_eq in L. injection I. intro X. subst c.
  assert (K : v_key c' = key /\ v_enc c' = enc).
  { unfold c'. set (c := mkE _ _ _ _). assert (K : v_key c = key /\ v_enc c = enc) by (split; reflexivity). revert K. generalize c. clear -BC. intro c. revert c. induction calls as [|x q IH]; intros c K; cbn [fold_left]; auto. apply IH. destruct (crypt_keep E D BC c (fst x) (snd x)) as [Q1 Q2]. rewrite Q1, Q2. exact K. }
  destruct K as [K1 K2]. split; auto. split; [|split; [|reflexivity]].
  - intros bs F. rewrite (crypt_blocks E D BC c' iv bs F V). rewrite K1, K2. reflexivity.
  - intros src O. apply (crypt_odd E D BC); auto. apply V.
Qed.
Print Assumptions C89_cbc.
(** a block cipher for the examples: reversal of the block, and the key added *)
Definition toyE (k b : list Z) : list Z := rev (map (fun i => (nth i b 0 + nth 0 k 0) mod 256) (seq 0 16)).
Definition toyD (k b : list Z) : list Z := map (fun i => (nth (15 - i) b 0 - nth 0 k 0) mod 256) (seq 0 16).
Example C89_cbc_ex : block_cipher toyE toyD /\ (let iv := repeat 0 16 in let key := map Z.of_nat (seq 7 16) in
  exists c x, aes_init None key true = (Some c, true) /\ snd (crypt_cbc toyE toyD (fst (crypt_cbc toyE toyD c iv [1; 2; 3])) iv (map Z.of_nat (seq 0 32))) = Some x /\ block iv).
Proof.
  split.
  - split; [|split].
    + intros k b. split; [unfold toyE; rewrite rev_length, map_length; reflexivity|]. apply Forall_rev. apply Forall_forall. intros x X. apply in_map_iff in X. destruct X as (i & <- & _). apply Z.mod_pos_bound. lia.
    + intros k b. split; [unfold toyD; rewrite map_length; reflexivity|]. apply Forall_forall. intros x X. apply in_map_iff in X. destruct X as (i & <- & _). apply Z.mod_pos_bound. lia.
    + intros k b [L B]. do 16 (destruct b as [|? b]; [discriminate|]). destruct b; [|discriminate]. repeat match goal with H : bytes_ok (_ :: _) |- _ => inversion H; clear H; subst | H : Forall is_byte (_ :: _) |- _ => inversion H; clear H; subst end. unfold toyD, toyE. cbn -[Z.modulo Z.add Z.sub nth]. set (q := nth 0 k 0). cbn [nth].
      repeat match goal with H : is_byte ?z |- _ => let X := fresh in assert (X : ((z + q) mod 256 - q) mod 256 = z) by (rewrite Zminus_mod_idemp_l; replace (z + q - q) with z by lia; apply Z.mod_small; exact H); rewrite X; clear X; clear H end. reflexivity.
  - eexists. eexists. split; [reflexivity|]. split; [vm_compute; reflexivity|]. split; [reflexivity|]. repeat constructor; discriminate.
Qed.

(** What the session keys (C32-C34) ask of the cryptographic functions holds of these contexts: of CBC over any block cipher, and of Diffie-Hellman. *)
Definition zero_iv : list Z := repeat 0 16.
Definition aes (E D : list Z -> list Z -> list Z) (enc : bool) (key l : list Z) : list Z := match snd (crypt_cbc E D (mkE key enc zero_iv []) zero_iv l) with Some x => x | None => repeat 0 (length l) end.
Theorem C89_cipher : forall E D, block_cipher E D -> cipher_ok (aes E D true) (aes E D false).
Proof.
  intros E D BC. assert (Z16 : block zero_iv) by (split; [reflexivity|repeat constructor; discriminate]). assert (G : forall e key l, length (aes E D e key l) = length l /\ bytes_ok (aes E D e key l)).
  { intros e key l. unfold aes. destruct (snd (crypt_cbc E D (mkE key e zero_iv []) zero_iv l)) eqn:X; [apply (crypt_bytes E D BC) in X; tauto|]. split; [apply repeat_length|]. apply Forall_forall. intros x I. apply repeat_spec in I. subst. unfold is_byte. lia. }
  split; [auto|]. split; [auto|]. intros key l B M. destruct (split_blocks l B M) as (bs & F & ->). unfold aes at 2. rewrite (crypt_blocks E D BC _ _ bs F Z16). cbn [v_enc v_key]. unfold aes. rewrite (crypt_blocks E D BC _ _ _ (cbc_blocks E D BC bs key zero_iv) Z16). cbn [v_enc v_key]. now rewrite (cbc_inv E D BC).
Qed.
Print Assumptions C89_cipher.
Example C89_cipher_ex : aes toyE toyD false [3] (aes toyE toyD true [3] (map Z.of_nat (seq 0 48))) = map Z.of_nat (seq 0 48) /\ aes toyE toyD true [3] (map Z.of_nat (seq 0 48)) <> map Z.of_nat (seq 0 48).
Proof. vm_compute. split; [reflexivity|discriminate]. Qed.
Definition dh_pub (g r : Z) : list Z := match find_group g with Some G => d_pub (dh_of G r) | None => [] end.
Definition dh_sec (g r : Z) (other : list Z) : option (list Z) := shared (fst (dh_init None g r)) other.
Theorem C89_dh : dh_ok dh_pub dh_sec.
Proof.
  split.
  - intros g p. unfold dh_pub. destruct (find_group g) as [G|] eqn:E; [|split; [constructor|cbn; lia]]. destruct (C89_public g p (dh_of G p)) as (_ & A & _ & B & _); [cbn [dh_init]; rewrite E; reflexivity|]. split; auto. unfold zlen. lia.
  - intros g p q x y. unfold dh_pub, dh_sec. cbn [dh_init]. destruct (find_group g) as [G|] eqn:E; cbn [fst]; [|discriminate]. intros X Y. unfold find_group in E. apply find_some in E. destruct E as [I _].
    destruct (groups_ok G I) as (_ & A1 & A2 & _). rewrite bin_value in A2. apply (Z.lt_trans 0 1) in A2; [|reflexivity]. exact (proj1 (C89_agree G p q x y A1 A2 X Y)).
Qed.
Print Assumptions C89_dh.

(** An HMAC context computes the HMAC of each message with its key, whatever it computed before. *)
Theorem C89_hmac : forall H evp key c msgs msg, mac_init evp None key = (Some c, true) ->
  snd (compute H (fold_left (fun c m => fst (compute H c m)) msgs c) msg) = H key msg.
Proof.
  intros H evp key c msgs msg I. injection I. intro X. subst c. assert (K : forall l c, m_key c = key /\ (m_dirty c = true \/ m_data c = []) -> let c' := fold_left (fun c m => fst (compute H c m)) l c in m_key c' = key /\ (m_dirty c' = true \/ m_data c' = [])).
  { induction l as [|m l IH]; intros c P; cbn [fold_left]; auto. apply IH. unfold compute. cbn [fst m_key m_dirty]. destruct (m_dirty c); cbn [m_key]; tauto. }
  destruct (K msgs (mkM key [] evp) ltac:(auto)) as [A B]. cbv zeta in A, B. set (c' := fold_left _ _ _) in *. unfold compute. cbn [snd]. destruct (m_dirty c') eqn:Y; cbn [m_key m_data]; rewrite A; [reflexivity|]. destruct B as [B|B]; [discriminate|]. rewrite B. reflexivity.
Qed.
Print Assumptions C89_hmac.
Example C89_hmac_ex : exists c, mac_init false None [1; 2] = (Some c, true) /\ snd (compute (fun k m => k ++ m) (fst (compute (fun k m => k ++ m) c [3])) [4]) = [1; 2; 4].
Proof. eexists. split; reflexivity. Qed.
