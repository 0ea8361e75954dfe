(** Lemmas for PropOssl.v. *)
From Verif Require Import Base Ossl OsslSpec.
From Coq Require Import Lia.

(** ** Numbers as bytes *)
Lemma bin_snoc : forall l b, bin2bn (l ++ [b]) = bin2bn l * 256 + b.
Proof. intros. unfold bin2bn. rewrite fold_left_app. reflexivity. Qed.
Lemma bin_app : forall l a, fold_left (fun a b => a * 256 + b) l a = a * 256 ^ zlen l + bin2bn l.
Proof.
  intros l a. induction l as [|b l IH] using rev_ind; [cbn; lia|]. rewrite fold_left_app. cbn [fold_left]. rewrite IH, bin_snoc. unfold zlen. rewrite app_length. cbn [length]. rewrite Nat2Z.inj_add. change (Z.of_nat 1) with 1. rewrite Z.pow_add_r by lia. lia.
Qed.
Lemma bin_value : forall l, bin2bn l = value l.
Proof. induction l as [|b l IH]; [reflexivity|]. unfold bin2bn. cbn [fold_left value]. rewrite bin_app, IH. cbn. lia. Qed.
Lemma bin_range : forall l, bytes_ok l -> 0 <= bin2bn l < 256 ^ zlen l.
Proof.
  intros l. induction l as [|b l IH] using rev_ind; intro B; [cbn; lia|]. apply Forall_app in B. destruct B as [B C]. inversion C as [|? ? Hb ?]; subst. unfold is_byte in Hb. rewrite bin_snoc. specialize (IH B). unfold zlen in *. rewrite app_length. cbn [length]. rewrite Nat2Z.inj_add. change (Z.of_nat 1) with 1. rewrite Z.pow_add_r by lia. lia.
Qed.
Lemma bin_zeros : forall k l, bin2bn (repeat 0 k ++ l) = bin2bn l.
Proof. intros k l. induction k as [|k IH]; [reflexivity|]. exact IH. Qed.
Lemma be_bytes : forall k n, bytes_ok (be k n) /\ length (be k n) = k.
Proof. induction k as [|k IH]; intro n; cbn [be]; [split; [constructor|reflexivity]|]. destruct (IH (n / 256)) as [A B]. split; [apply Forall_app; split; auto; repeat constructor; apply Z.mod_pos_bound; lia|]. rewrite app_length, B. cbn. lia. Qed.
Lemma be_value : forall k n, 0 <= n < 256 ^ Z.of_nat k -> bin2bn (be k n) = n.
Proof.
  induction k as [|k IH]; intros n R; cbn [be]; [cbn in *; lia|]. rewrite bin_snoc, IH; [pose proof (Z.div_mod n 256); lia|].
  rewrite Nat2Z.inj_succ, Z.pow_succ_r in R by lia. split; [apply Z.div_pos; lia|apply Z.div_lt_upper_bound; lia].
Qed.
Lemma num_bytes_ok : forall n, 0 < n -> 256 ^ Z.of_nat (num_bytes n - 1) <= n < 256 ^ Z.of_nat (num_bytes n).
Proof.
  intros n P. unfold num_bytes. replace (n <=? 0) with false by (symmetry; apply Z.leb_gt; lia). pose proof (Z.log2_nonneg n) as L. pose proof (Z.log2_spec n P) as [S1 S2].
  replace (S (Z.to_nat (Z.log2 n / 8)) - 1)%nat with (Z.to_nat (Z.log2 n / 8)) by lia. rewrite Nat2Z.inj_succ, Z2Nat.id by (apply Z.div_pos; lia). change 256 with (2 ^ 8). rewrite <- !Z.pow_mul_r by (pose proof (Z.div_pos (Z.log2 n) 8); lia).
  pose proof (Z.div_mod (Z.log2 n) 8 ltac:(lia)). pose proof (Z.mod_pos_bound (Z.log2 n) 8 ltac:(lia)). split.
  - eapply Z.le_trans; [|exact S1]. apply Z.pow_le_mono_r; lia.
  - eapply Z.lt_le_trans; [exact S2|]. apply Z.pow_le_mono_r; lia.
Qed.
Lemma bn2bin_ok : forall n, 0 <= n -> bin2bn (bn2bin n) = n /\ bytes_ok (bn2bin n).
Proof.
  intros n P. unfold bn2bin. split; [|apply be_bytes]. destruct (Z.eq_dec n 0); [subst; reflexivity|]. apply be_value. pose proof (num_bytes_ok n ltac:(lia)). lia.
Qed.
Lemma num_bytes_le : forall n k, 0 <= n < 256 ^ Z.of_nat k -> (num_bytes n <= k)%nat.
Proof.
  intros n k R. destruct (Nat.le_gt_cases (num_bytes n) k) as [L|L]; auto. destruct (Z.eq_dec n 0) as [->|N]; [cbn in L; lia|]. pose proof (num_bytes_ok n ltac:(lia)) as [A _].
  assert (256 ^ Z.of_nat k <= 256 ^ Z.of_nat (num_bytes n - 1)) by (apply Z.pow_le_mono_r; lia). lia.
Qed.
(** ** Modular exponentiation *)
Lemma mod_exp_ok : forall b e m, 0 < m -> 0 <= e -> mod_exp b e m = b ^ e mod m.
Proof.
  intros b e m M P. destruct e as [|e|e]; [reflexivity| |lia]. cbn [mod_exp]. clear P. induction e as [e IH|e IH|]; cbn [mod_exp_pos].
  - rewrite IH. replace (Z.pos e~1) with (Z.pos e + Z.pos e + 1) by lia. rewrite !Z.pow_add_r by lia. rewrite Z.pow_1_r, <- Z.mul_mod by lia. rewrite Z.mul_mod_idemp_l by lia. reflexivity.
  - rewrite IH. replace (Z.pos e~0) with (Z.pos e + Z.pos e) by lia. rewrite !Z.pow_add_r by lia. rewrite <- Z.mul_mod by lia. reflexivity.
  - now rewrite Z.pow_1_r.
Qed.
Lemma pow_mod_l : forall b e m, 0 < m -> 0 <= e -> (b mod m) ^ e mod m = b ^ e mod m.
Proof.
  intros b e m M P. pattern e. apply natlike_ind; auto. intros x X IH. rewrite !Z.pow_succ_r by lia. rewrite Z.mul_mod, IH, Z.mod_mod by lia. now rewrite <- Z.mul_mod by lia.
Qed.
Lemma bn_rand_range : forall bits r, 1 <= bits -> 2 ^ (bits - 1) <= bn_rand bits r < 2 ^ bits.
Proof.
  intros bits r B. unfold bn_rand. pose proof (Z.mod_pos_bound r (2 ^ (bits - 1)) ltac:(apply Z.pow_pos_nonneg; lia)). replace (2 ^ bits) with (2 * 2 ^ (bits - 1)) by (rewrite <- Z.pow_succ_r by lia; f_equal; lia). lia.
Qed.
(** an odd modulus does not divide a power of two *)
Lemma pow2_mod : forall e m, 0 <= e -> 1 < m -> m mod 2 = 1 -> 2 ^ e mod m <> 0.
Proof.
  intros e m P M O. revert e P. apply (Zlt_0_ind (fun e => 2 ^ e mod m <> 0)). intros e IH P X. destruct (Z.eq_dec e 0) as [->|N]; [rewrite Z.mod_small in X; cbn in *; lia|].
  apply (IH (e - 1)); [lia..|]. apply Z.mod_divide in X; [|lia]. apply Z.mod_divide; [lia|]. replace e with (Z.succ (e - 1)) in X by lia. rewrite Z.pow_succ_r in X by lia. apply Z.gauss in X; auto.
  rewrite Z.gcd_comm, <- Z.gcd_mod by lia. rewrite O. reflexivity.
Qed.

(** ** Counting bits *)
Lemma ones_dbl : forall n c, 0 <= n -> 0 <= c <= 1 -> ones (2 * n + c) = ones n + c.
Proof. intros n c P C. assert (c = 0 \/ c = 1) as [->| ->] by lia; destruct n as [|p|p]; try reflexivity; try lia; cbn; lia. Qed.
Lemma zeros_dbl : forall n c, 0 < n -> 0 <= c <= 1 -> zeros (2 * n + c) = zeros n + 1 - c.
Proof. intros n c P C. assert (c = 0 \/ c = 1) as [->| ->] by lia; destruct n as [|p|p]; try lia; cbn; lia. Qed.
Lemma bits_pow : forall k n b, 0 <= n -> 0 <= b < 2 ^ Z.of_nat k -> ones (2 ^ Z.of_nat k * n + b) = ones n + ones b /\ (0 < n -> zeros (2 ^ Z.of_nat k * n + b) = zeros n + Z.of_nat k - ones b).
Proof.
  induction k as [|k IH]; intros n b P R.
  - change (2 ^ Z.of_nat 0) with 1 in *. assert (b = 0) by lia. subst b. replace (1 * n + 0) with n by lia. change (ones 0) with 0. cbn [Z.of_nat]. lia.
  - rewrite Nat2Z.inj_succ, Z.pow_succ_r in * by lia. set (K := 2 ^ Z.of_nat k) in *. pose proof (Z.div_mod b 2 ltac:(lia)) as DM. pose proof (Z.mod_pos_bound b 2 ltac:(lia)) as MB. set (q := b / 2) in *. set (c := b mod 2) in *.
    destruct (IH n q P ltac:(lia)) as [A B]. assert (0 <= K * n) by nia. replace (2 * K * n + b) with (2 * (K * n + q) + c) by lia. split.
    + rewrite ones_dbl by lia. rewrite DM, ones_dbl by lia. lia.
    + intro N. assert (0 < K) by (unfold K; apply Z.pow_pos_nonneg; lia). rewrite zeros_dbl by nia. rewrite (B N). rewrite DM, ones_dbl by lia. lia.
Qed.
Definition bytes256 : list Z := map Z.of_nat (seq 0 256).
Lemma in_bytes : forall b, is_byte b -> In b bytes256.
Proof. intros b B. unfold is_byte in B. apply in_map_iff. exists (Z.to_nat b). split; [lia|]. apply in_seq. lia. Qed.
Lemma count_shift : forall k b n0 n1, 0 < n1 -> count_byte k b (n0, n1) = (n0 + fst (count_byte k b (0, 1)), n1 + snd (count_byte k b (0, 1)) - 1).
Proof.
  assert (G : forall k b a0 a1 n0 n1, 0 < a1 -> 0 < n1 -> fst (count_byte k b (n0, n1)) - n0 = fst (count_byte k b (a0, a1)) - a0 /\ snd (count_byte k b (n0, n1)) - n1 = snd (count_byte k b (a0, a1)) - a1).
  { induction k as [|k IH]; intros b a0 a1 n0 n1 P Q; cbn [count_byte fst snd]; [lia|]. destruct (Z.land b 1 =? 1).
    - destruct (IH (Z.shiftr b 1) a0 (a1 + 1) n0 (n1 + 1)); lia.
    - replace (n1 =? 0) with false by (symmetry; apply Z.eqb_neq; lia). replace (a1 =? 0) with false by (symmetry; apply Z.eqb_neq; lia). destruct (IH (Z.shiftr b 1) (a0 + 1) a1 (n0 + 1) n1); lia. }
  intros k b n0 n1 P. destruct (G k b 0 1 n0 n1); [lia..|]. destruct (count_byte k b (n0, n1)). cbn [fst snd] in *. f_equal; lia.
Qed.
Lemma byte_after : forall b, is_byte b -> count_byte 8 b (0, 1) = (8 - ones b, 1 + ones b).
Proof.
  intros b B. apply in_bytes in B. revert b B. apply Forall_forall. assert (H : forallb (fun b => (fst (count_byte 8 b (0, 1)) =? 8 - ones b) && (snd (count_byte 8 b (0, 1)) =? 1 + ones b)) bytes256 = true) by (vm_compute; reflexivity).
  apply Forall_forall. intros b I. rewrite forallb_forall in H. specialize (H b I). apply andb_true_iff in H. destruct H as [X Y]. apply Z.eqb_eq in X, Y. destruct (count_byte 8 b (0, 1)). cbn [fst snd] in *. congruence.
Qed.
Lemma byte_first : forall b, is_byte b -> b <> 0 -> count_byte 8 b (0, 0) = (zeros b + lead b - trail b, ones b).
Proof.
  intros b B NZ. apply in_bytes in B. assert (H : forallb (fun b => (b =? 0) || (fst (count_byte 8 b (0, 0)) =? zeros b + lead b - trail b) && (snd (count_byte 8 b (0, 0)) =? ones b)) bytes256 = true) by (vm_compute; reflexivity).
  rewrite forallb_forall in H. specialize (H b B). apply orb_true_iff in H. destruct H as [H|H]; [apply Z.eqb_eq in H; lia|]. apply andb_true_iff in H. destruct H as [X Y]. apply Z.eqb_eq in X, Y. destruct (count_byte 8 b (0, 0)). cbn [fst snd] in *. congruence.
Qed.
Lemma ones_pos : forall n, 0 < n -> 0 < ones n.
Proof. intros [|p|p] P; try lia. cbn. clear P. induction p; cbn; lia. Qed.
Lemma top_snoc : forall l b, bytes_ok l -> top (l ++ [b]) = if bin2bn l =? 0 then b else top l.
Proof.
  intros l b B. induction B as [|x l Hx B IH]; [cbn; destruct (b =? 0) eqn:E; auto; apply Z.eqb_eq in E; auto|]. cbn [app top]. unfold is_byte in Hx. pose proof (bin_range l B) as R. rewrite bin_value. cbn [value]. rewrite <- bin_value.
  assert (0 < 256 ^ zlen l) by (apply Z.pow_pos_nonneg; unfold zlen; lia).
  destruct (x =? 0) eqn:E; [apply Z.eqb_eq in E; subst x; exact IH|]. apply Z.eqb_neq in E. replace (x * 256 ^ zlen l + bin2bn l =? 0) with false; auto. symmetry. apply Z.eqb_neq. nia.
Qed.
Lemma count_ok : forall l, bytes_ok l -> let v := bin2bn l in (v = 0 -> count_bits l = (0, 0)) /\ (0 < v -> count_bits l = (zeros v + lead (top l) - trail (top l), ones v)).
Proof.
  intros l. induction l as [|b l IH] using rev_ind; intro B; [split; [reflexivity|cbn; lia]|]. apply Forall_app in B. destruct B as [B C]. inversion C as [|? ? Hb ?]; subst. specialize (IH B). cbv zeta in *. pose proof (bin_range l B) as R.
  rewrite bin_snoc. unfold count_bits in *. rewrite fold_left_app. cbn [fold_left]. rewrite (top_snoc l b B). pose proof Hb as Hb'. unfold is_byte in Hb'. destruct (Z.eq_dec (bin2bn l) 0) as [Z0|Z0].
  - rewrite Z0. rewrite (proj1 IH Z0). cbn [Z.eqb]. rewrite Z.mul_0_l, Z.add_0_l. split; [intros ->; reflexivity|]. intro P. apply byte_first; auto. lia.
  - replace (bin2bn l =? 0) with false by (symmetry; apply Z.eqb_neq; auto). split; [lia|]. intros _. rewrite (proj2 IH) by lia. rewrite count_shift by (apply ones_pos; lia). rewrite byte_after by auto. cbn [fst snd].
    destruct (bits_pow 8 (bin2bn l) b ltac:(lia) ltac:(cbn; lia)) as [X Y]. change (2 ^ Z.of_nat 8) with 256 in *. rewrite (Z.mul_comm (bin2bn l) 256), X, Y by lia. f_equal; change (Z.of_nat 8) with 8; lia.
Qed.
Lemma count_zeros : forall k l, count_bits (repeat 0 k ++ l) = count_bits l.
Proof. intros k l. induction k as [|k IH]; [reflexivity|]. exact IH. Qed.
