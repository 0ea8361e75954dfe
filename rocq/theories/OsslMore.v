(** More lemmas for PropOssl.v. *)
From Verif Require Import Base Ossl OsslSpec OsslProofs.
From Coq Require Import Lia.

(** ** Bytes *)
Lemma lxor_byte : forall a b, is_byte a -> is_byte b -> is_byte (Z.lxor a b).
Proof.
  intros a b A B. unfold is_byte in *. split; [apply Z.lxor_nonneg; lia|]. destruct (Z.eq_dec (Z.lxor a b) 0) as [->|N]; [lia|]. assert (0 <= Z.lxor a b) by (apply Z.lxor_nonneg; lia). change 256 with (2 ^ 8). apply Z.log2_lt_pow2; [lia|].
  pose proof (Z.log2_lxor a b ltac:(lia) ltac:(lia)). assert (Z.log2 a < 8) by (destruct (Z.eq_dec a 0) as [->|]; [reflexivity|apply Z.log2_lt_pow2; lia]). assert (Z.log2 b < 8) by (destruct (Z.eq_dec b 0) as [->|]; [reflexivity|apply Z.log2_lt_pow2; lia]). lia.
Qed.
Definition bxor (a b : list Z) : list Z := map (fun x => Z.lxor (fst x) (snd x)) (combine a b).
Lemma xor_bxor : forall a b, bytes_ok a -> bytes_ok b -> xor a b = bxor a b /\ bytes_ok (bxor a b).
Proof.
  intros a b A. revert b. induction A as [|x a X A IH]; intros b B; [split; [reflexivity|constructor]|]. destruct B as [|y b Y B]; [split; [reflexivity|constructor]|]. destruct (IH b B) as [P Q]. pose proof (lxor_byte x y X Y) as L.
  split; [|constructor; auto]. unfold xor, bxor in *. cbn [combine map fst snd]. rewrite P. f_equal. unfold wrap8, is_byte in *. apply Z.mod_small. lia.
Qed.
Lemma xor_len : forall a b, length (xor a b) = Nat.min (length a) (length b).
Proof. intros. unfold xor. rewrite map_length, combine_length. reflexivity. Qed.
Lemma xor_ok : forall a b, bytes_ok (xor a b).
Proof. intros a b. unfold xor. apply Forall_forall. intros x X. apply in_map_iff in X. destruct X as (p & <- & _). unfold is_byte, wrap8. apply Z.mod_pos_bound. lia. Qed.
Lemma bxor_len : forall a b, length (bxor a b) = Nat.min (length a) (length b).
Proof. intros. unfold bxor. rewrite map_length, combine_length. reflexivity. Qed.
Lemma bxor_twice : forall a b, length a = length b -> bxor (bxor a b) b = a.
Proof. induction a as [|x a IH]; intros [|y b] L; cbn in *; try lia; auto. f_equal; [rewrite Z.lxor_assoc, Z.lxor_nilpotent; apply Z.lxor_0_r|]. apply IH. lia. Qed.

(** ** CBC *)
Section Cbc.
Variables E D : list Z -> list Z -> list Z.
Hypothesis BC : block_cipher E D.
Lemma firstn_block : forall p q, block p -> firstn 16 (p ++ q) = p /\ skipn 16 (p ++ q) = q.
Proof. intros p q [L _]. rewrite firstn_app, skipn_app, L, Nat.sub_diag, firstn_O, app_nil_r, <- L, firstn_all, skipn_all. auto. Qed.
(** what a context that encrypts, or decrypts, makes of whole blocks *)
Lemma blocks_ok : forall bs c r, Forall block bs -> block (v_iv c) ->
  snd (blocks E D (length bs) c (concat bs ++ r)) = concat (if v_enc c then cbc_enc (E (v_key c)) (v_iv c) bs else cbc_dec (D (v_key c)) (v_iv c) bs).
Proof.
  destruct BC as (BE & BD & _). intros bs. induction bs as [|p bs IH]; intros c r F V; [cbn; destruct (v_enc c); auto|]. inversion F as [|? ? P F']; subst. cbn [length concat blocks]. rewrite <- app_assoc. destruct (firstn_block p (concat bs ++ r) P) as [-> ->].
  pose proof (proj1 (xor_bxor p (v_iv c) (proj2 P) (proj2 V))) as X1. pose proof (proj1 (xor_bxor (D (v_key c) p) (v_iv c) (proj2 (BD _ _)) (proj2 V))) as X2.
  set (c' := mkE _ _ _ _). specialize (IH c' r F'). assert (V' : block (v_iv c')) by (unfold c'; cbn [v_iv]; destruct (v_enc c); auto). specialize (IH V'). destruct (blocks E D (length bs) c' (concat bs ++ r)) as [c2 q]. cbn [fst snd] in *. unfold c' in IH. cbn [v_key v_enc v_iv] in IH.
  rewrite IH. destruct (v_enc c); cbn [cbc_enc cbc_dec concat]; rewrite ?X1, ?X2; reflexivity.
Qed.
Lemma blocks_keep : forall n c l, v_key (fst (blocks E D n c l)) = v_key c /\ v_enc (fst (blocks E D n c l)) = v_enc c /\ (bytes_ok (snd (blocks E D n c l))).
Proof.
  destruct BC as (BE & BD & _). induction n as [|n IH]; intros c l; cbn [blocks]; [repeat split; constructor|]. match goal with |- context [blocks E D n ?c' ?l'] => specialize (IH c' l'); destruct (blocks E D n c' l') as [c2 q] end. cbn [fst snd v_key v_enc] in *. destruct IH as (A & B & C). split; auto. split; auto.
  apply Forall_app. split; auto. destruct (v_enc c); [apply BE|apply xor_ok].
Qed.
Lemma blocks_len : forall n c l, length (v_iv c) = 16%nat -> (n * 16 <= length l)%nat -> length (snd (blocks E D n c l)) = (n * 16)%nat.
Proof.
  destruct BC as (BE & BD & _). induction n as [|n IH]; intros c l V L; cbn [blocks]; [reflexivity|]. match goal with |- context [blocks E D n ?c' ?l'] => assert (IH' := IH c' l'); destruct (blocks E D n c' l') as [c2 q] end. cbn [fst snd v_iv] in *. rewrite app_length, IH'; clear IH'.
  - destruct (v_enc c); [rewrite (proj1 (BE _ _)); lia|]. rewrite xor_len, (proj1 (BD _ _)), V. cbn. lia.
  - destruct (v_enc c); [exact (proj1 (BE _ _))|]. rewrite firstn_length. lia.
  - rewrite skipn_length. lia.
Qed.
Lemma crypt_keep : forall c iv src, v_key (fst (crypt_cbc E D c iv src)) = v_key c /\ v_enc (fst (crypt_cbc E D c iv src)) = v_enc c.
Proof.
  intros c iv src. unfold crypt_cbc, update. cbn [v_rest app v_key v_enc v_iv]. match goal with |- context [blocks E D ?n ?c' ?l'] => pose proof (blocks_keep n c' l') as H; destruct (blocks E D n c' l') as [c2 q] end. cbn [fst snd v_key v_enc] in *. tauto.
Qed.
Lemma crypt_bytes : forall c iv src o, snd (crypt_cbc E D c iv src) = Some o -> bytes_ok o /\ length o = length src.
Proof.
  intros c iv src o. unfold crypt_cbc, update. cbn [v_rest app v_key v_enc v_iv]. match goal with |- context [blocks E D ?n ?c' ?l'] => pose proof (blocks_keep n c' l') as H; destruct (blocks E D n c' l') as [c2 q] end. cbn [fst snd v_key v_enc] in *.
  destruct (length q =? length src)%nat eqn:L; [|discriminate]. apply Nat.eqb_eq in L. intro X. injection X. intro. subst. tauto.
Qed.
Lemma concat_len : forall bs, Forall block bs -> length (concat bs) = (length bs * 16)%nat.
Proof. intros bs F. induction F as [|b bs [B _] F IH]; [reflexivity|]. cbn [concat length]. rewrite app_length. lia. Qed.
Lemma crypt_blocks : forall c iv bs, Forall block bs -> block iv -> snd (crypt_cbc E D c iv (concat bs)) = Some (concat (if v_enc c then cbc_enc (E (v_key c)) iv bs else cbc_dec (D (v_key c)) iv bs)).
Proof.
  intros c iv bs F V. pose proof (concat_len bs F) as L.
  unfold crypt_cbc, update. cbn [v_rest app v_key v_enc v_iv]. rewrite L, Nat.div_mul by lia. pose proof (blocks_ok bs (mkE (v_key c) (v_enc c) iv []) [] F V) as H. pose proof (blocks_len (length bs) (mkE (v_key c) (v_enc c) iv []) (concat bs) (proj1 V) ltac:(lia)) as N. rewrite app_nil_r in H.
  destruct (blocks E D (length bs) _ (concat bs)) as [c2 q]. cbn [fst snd v_key v_enc v_iv] in *. rewrite N, Nat.eqb_refl. f_equal. exact H.
Qed.
Lemma crypt_odd : forall c iv src, length iv = 16%nat -> (length src mod 16 <> 0)%nat -> snd (crypt_cbc E D c iv src) = None.
Proof.
  intros c iv src V O. unfold crypt_cbc, update. cbn [v_rest app v_key v_enc v_iv]. pose proof (Nat.div_mod (length src) 16 ltac:(lia)) as DM. pose proof (blocks_len (length src / 16) (mkE (v_key c) (v_enc c) iv []) src V ltac:(lia)) as N.
  destruct (blocks E D (length src / 16) _ src) as [c2 q]. cbn [fst snd v_key v_enc v_iv] in *. rewrite N. replace (length src / 16 * 16 =? length src)%nat with false; auto. symmetry. apply Nat.eqb_neq. lia.
Qed.
Lemma cbc_inv : forall bs k iv, Forall block bs -> block iv -> cbc_dec (D k) iv (cbc_enc (E k) iv bs) = bs.
Proof.
  destruct BC as (BE & BD & I). induction bs as [|p bs IH]; intros k iv F V; [reflexivity|]. inversion F as [|? ? P F']; subst. cbn [cbc_enc cbc_dec]. rewrite (IH k _ F' (BE _ _)). f_equal. fold (bxor p iv). rewrite I.
  - apply bxor_twice. rewrite (proj1 P), (proj1 V). reflexivity.
  - split; [rewrite bxor_len, (proj1 P), (proj1 V); reflexivity|]. apply xor_bxor; [apply P|apply V].
Qed.
Lemma cbc_blocks : forall bs k iv, Forall block (cbc_enc (E k) iv bs).
Proof. destruct BC as (BE & _). induction bs as [|p bs IH]; intros k iv; cbn [cbc_enc]; constructor; auto. Qed.
Lemma split_blocks : forall l, bytes_ok l -> zlen l mod 16 = 0 -> exists bs, Forall block bs /\ l = concat bs.
Proof.
  assert (G : forall n l, length l = (n * 16)%nat -> bytes_ok l -> exists bs, Forall block bs /\ l = concat bs).
  { induction n as [|n IH]; intros l L B; [exists []; split; [constructor|destruct l; [reflexivity|cbn in L; lia]]|]. destruct (IH (skipn 16 l)) as (bs & F & X); [rewrite skipn_length; lia| |].
    - rewrite <- (firstn_skipn 16 l) in B. now apply Forall_app in B.
    - exists (firstn 16 l :: bs). split; [|cbn [concat]; rewrite <- X; symmetry; apply firstn_skipn]. constructor; auto. split; [rewrite firstn_length; lia|]. rewrite <- (firstn_skipn 16 l) in B. now apply Forall_app in B. }
  intros l B M. apply (G (length l / 16)%nat); auto. unfold zlen in M. pose proof (Nat.div_mod (length l) 16 ltac:(lia)). assert (Z.of_nat (length l mod 16) = 0) by (rewrite Nat2Z.inj_mod; exact M). lia.
Qed.
End Cbc.

(** ** Diffie-Hellman *)
Lemma modp_ok : forall b e m, 0 < m -> 0 <= e -> bin2bn (modp b e m) = b ^ e mod m /\ bytes_ok (modp b e m) /\ (length (modp b e m) = num_bytes (b ^ e mod m)).
Proof. intros b e m M P. unfold modp. rewrite mod_exp_ok by auto. pose proof (Z.mod_pos_bound (b ^ e) m M). destruct (bn2bin_ok (b ^ e mod m)) as [A B]; [lia|]. repeat split; auto. unfold bn2bin. apply be_bytes. Qed.
Lemma dh_exponent : forall G r, 1 <= g_bits G -> 2 ^ (g_bits G - 1) <= d_e (dh_of G r) < 2 ^ g_bits G.
Proof. intros G r B. exact (bn_rand_range (g_bits G) r B). Qed.
Lemma dh_secret : forall G r s x, 1 <= g_bits G -> 0 < bin2bn (g_modulus G) -> shared (Some (dh_of G r)) (d_pub (dh_of G s)) = Some x ->
  x = bn2bin (bin2bn (g_g G) ^ (d_e (dh_of G s) * d_e (dh_of G r)) mod bin2bn (g_modulus G)).
Proof.
  intros G r s x B M H. pose proof (dh_exponent G r B) as Er. pose proof (dh_exponent G s B) as Es. assert (0 < 2 ^ (g_bits G - 1)) by (apply Z.pow_pos_nonneg; lia). unfold shared in H.
  change (d_m (dh_of G r)) with (bin2bn (g_modulus G)) in H. change (d_pub (dh_of G s)) with (modp (bin2bn (g_g G)) (d_e (dh_of G s)) (bin2bn (g_modulus G))) in H. destruct (modp_ok (bin2bn (g_g G)) (d_e (dh_of G s)) (bin2bn (g_modulus G)) M ltac:(lia)) as [V _].
  generalize dependent (d_e (dh_of G r)). generalize dependent (d_e (dh_of G s)). intros es Es V er H Er. generalize dependent (bin2bn (g_modulus G)). intros m M V H.
  rewrite V in H. match type of H with (if ?b then _ else _) = _ => destruct b end; [|discriminate]. injection H. intro X. rewrite <- X. unfold modp. rewrite mod_exp_ok by lia. rewrite pow_mod_l by lia. rewrite Z.pow_mul_r by lia. reflexivity.
Qed.
Lemma be_hd : forall k n, 256 ^ Z.of_nat k <= n < 256 ^ Z.of_nat (S k) -> hd 0 (be (S k) n) <> 0.
Proof.
  induction k as [|k IH]; intros n R.
  - change (256 ^ Z.of_nat 0) with 1 in R. change (256 ^ Z.of_nat 1) with 256 in R. cbn [be app hd]. rewrite Z.mod_small; lia.
  - change (be (S (S k)) n) with (be (S k) (n / 256) ++ [n mod 256]). assert (X : hd 0 (be (S k) (n / 256)) <> 0).
    { apply IH. rewrite (Nat2Z.inj_succ (S k)), Z.pow_succ_r in R by lia. rewrite (Nat2Z.inj_succ k), Z.pow_succ_r in * by lia. split; [apply Z.div_le_lower_bound; lia|apply Z.div_lt_upper_bound; lia]. }
    pose proof (proj2 (be_bytes (S k) (n / 256))) as L. destruct (be (S k) (n / 256)); [discriminate|]. exact X.
Qed.
Lemma bn2bin_hd : forall n, 0 < n -> hd 0 (bn2bin n) <> 0.
Proof. intros n P. pose proof (num_bytes_ok n P) as R. unfold bn2bin. assert (S : exists k, num_bytes n = S k) by (unfold num_bytes; replace (n <=? 0) with false by (symmetry; apply Z.leb_gt; lia); eauto). destruct S as [k E]. rewrite E in *. apply be_hd. replace (S k - 1)%nat with k in R by lia. exact R. Qed.
Lemma lead_trail : forall b, is_byte b -> b <> 0 -> 0 <= lead b <= 7 /\ 0 <= trail b <= 7.
Proof.
  intros b B N. apply in_bytes in B. assert (H : forallb (fun b => (b =? 0) || (0 <=? lead b) && (lead b <=? 7) && (0 <=? trail b) && (trail b <=? 7)) bytes256 = true) by (vm_compute; reflexivity).
  rewrite forallb_forall in H. specialize (H b B). lia.
Qed.
Lemma top_ok : forall l, bytes_ok l -> 0 < bin2bn l -> is_byte (top l) /\ top l <> 0.
Proof.
  intros l B. induction B as [|x l Hx B IH]; intro P; [cbn in P; lia|]. cbn [top]. destruct (x =? 0) eqn:E; [apply Z.eqb_eq in E; subst x; exact (IH P)|]. apply Z.eqb_neq in E. auto.
Qed.
Lemma validate_ok : forall m l, bytes_ok l -> let v := bin2bn l in
  validate m v l = true <-> 2 ^ 24 <= v <= m - 2 ^ 24 /\ 16 <= ones v /\ 16 <= zeros v + lead (top l) - trail (top l).
Proof.
  intros m l B v. pose proof (bin_range l B) as R. fold v in R. destruct (count_ok l B) as [C0 C1]. fold v in C0, C1. unfold validate. change TWO_TO_24TH with (2 ^ 24). destruct (Z.eq_dec v 0) as [Z0|Z0].
  - rewrite Z0. split; [|lia]. change (0 <? 2 ^ 24) with true. cbn. discriminate.
  - rewrite C1 by lia. cbn [fst snd]. change (2 ^ 24) with 16777216. rewrite !andb_true_iff, !negb_true_iff, !Z.ltb_ge. lia.
Qed.
Lemma d_m_of : forall G r, d_m (dh_of G r) = bin2bn (g_modulus G).
Proof. reflexivity. Qed.
Lemma d_g_of : forall G r, d_g (dh_of G r) = bin2bn (g_g G).
Proof. reflexivity. Qed.
Lemma d_pub_of : forall G r, d_pub (dh_of G r) = modp (bin2bn (g_g G)) (d_e (dh_of G r)) (bin2bn (g_modulus G)).
Proof. reflexivity. Qed.
Lemma groups_ok : forall G, In G modp_groups -> bin2bn (g_g G) = 2 /\ 1 <= g_bits G /\ 1 < bin2bn (g_modulus G) /\ bin2bn (g_modulus G) mod 2 = 1 /\ bin2bn (g_modulus G) < 256 ^ Z.of_nat 512 /\ (g_id G = 14 -> bin2bn (g_modulus G) < 256 ^ Z.of_nat 256) /\ (g_id G = 2 -> bin2bn (g_modulus G) < 256 ^ Z.of_nat 128).
Proof.
  assert (H : forallb (fun G => let m := bin2bn (g_modulus G) in (bin2bn (g_g G) =? 2) && (1 <=? g_bits G) && (1 <? m) && (m mod 2 =? 1) && (m <? 256 ^ Z.of_nat 512) && (negb (g_id G =? 14) || (m <? 256 ^ Z.of_nat 256)) && (negb (g_id G =? 2) || (m <? 256 ^ Z.of_nat 128))) modp_groups = true) by (vm_compute; reflexivity).
  intros G I. rewrite forallb_forall in H. specialize (H G I). cbv zeta in H. clear I. set (m := bin2bn (g_modulus G)) in *. clearbody m. rewrite !andb_true_iff, !orb_true_iff, !negb_true_iff, !Z.eqb_neq, !Z.eqb_eq, !Z.ltb_lt, Z.leb_le in H. tauto.
Qed.
Lemma num_bytes_lt : forall n m k, 0 <= n < m -> m < 256 ^ Z.of_nat k -> (num_bytes n <= k)%nat.
Proof. intros n m k R L. apply num_bytes_le. split; [apply R|]. eapply Z.lt_trans; [apply R|exact L]. Qed.
