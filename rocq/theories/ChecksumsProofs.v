From Verif Require Import Base BaseFacts Checksums ChecksumsSpec.
Ltac Zify.zify_post_hook ::= Z.div_mod_to_equations.

(** ** One bit at a time *)
Definition PLE : Z := 3988292384.
Definition PBE : Z := 79764919.
Definition le1 (crc : Z) (b : bool) : Z := Z.lxor (Z.shiftr crc 1) (if xorb b (Z.testbit crc 0) then PLE else 0).
Definition be1 (crc : Z) (b : bool) : Z := Z.lxor (wrap32 (Z.shiftl crc 1)) (if xorb b (Z.testbit crc 31) then PBE else 0).

Lemma land_pow2_eqb : forall x n, 0 <= n -> (Z.land x (2 ^ n) =? 0) = negb (Z.testbit x n).
Proof.
  intros x n Hn. destruct (Z.testbit x n) eqn:E; cbn.
  - apply Z.eqb_neq. intros X. apply (f_equal (fun z => Z.testbit z n)) in X. rewrite Z.land_spec, Z.pow2_bits_true, E, Z.bits_0 in X by lia. discriminate.
  - apply Z.eqb_eq. apply Z.bits_inj'. intros i Hi. rewrite Z.land_spec, Z.bits_0, Z.pow2_bits_eqb by lia.
    destruct (Z.eqb_spec n i) as [<-|]; [rewrite E; reflexivity|apply andb_false_r].
Qed.
Lemma le_bits_step : forall n crc c, crc_le_bits n crc c = fold_left le1 (map (fun i => Z.testbit c (Z.of_nat i)) (seq 0 n)) crc.
Proof.
  induction n as [|n IH]; intros crc c; [reflexivity|]. cbn [crc_le_bits seq map fold_left].
  change 1 with (2 ^ 0) at 1. rewrite land_pow2_eqb by lia. rewrite Z.lxor_spec. rewrite IH.
  rewrite <- seq_shift, map_map. f_equal.
  - apply map_ext. intros i. rewrite Z.shiftr_spec by lia. f_equal. lia.
  - unfold le1. rewrite <- (Bool.xorb_comm). change (Z.of_nat 0) with 0. rewrite (Bool.xorb_comm (Z.testbit crc 0)). destruct (xorb _ _); cbn; [reflexivity|rewrite Z.lxor_0_r; reflexivity].
Qed.
Lemma wrap32_bit : forall x i, 0 <= i -> Z.testbit (wrap32 x) i = (i <? 32) && Z.testbit x i.
Proof.
  intros x i Hi. unfold wrap32. change 4294967296 with (2 ^ 32). destruct (Z.ltb_spec i 32); cbn [andb].
  - apply Z.mod_pow2_bits_low. lia.
  - apply Z.mod_pow2_bits_high. lia.
Qed.
Lemma wrap8_bit : forall x i, 0 <= i -> Z.testbit (wrap8 x) i = (i <? 8) && Z.testbit x i.
Proof.
  intros x i Hi. unfold wrap8. change 256 with (2 ^ 8). destruct (Z.ltb_spec i 8); cbn [andb].
  - apply Z.mod_pow2_bits_low. lia.
  - apply Z.mod_pow2_bits_high. lia.
Qed.
Lemma be_bits_step : forall n crc c, (n <= 8)%nat -> crc_be_bits n crc c = fold_left be1 (map (fun i => Z.testbit c (7 - Z.of_nat i)) (seq 0 n)) crc.
Proof.
  induction n as [|n IH]; intros crc c L; [reflexivity|]. cbn [crc_be_bits seq map fold_left].
  change 128 with (2 ^ 7). rewrite land_pow2_eqb by lia. rewrite Z.lxor_spec, Z.shiftr_spec by lia. rewrite IH by lia.
  rewrite <- seq_shift, map_map. f_equal.
  - apply map_ext_in. intros i Hi. apply in_seq in Hi. rewrite wrap8_bit by lia. rewrite Z.shiftl_spec by lia.
    destruct (Z.ltb_spec (7 - Z.of_nat i) 8); [|lia]. cbn [andb]. f_equal. lia.
  - unfold be1. change (7 - Z.of_nat 0) with 7. change (7 + 24) with 31. destruct (xorb _ _); cbn [negb]; [reflexivity|rewrite Z.lxor_0_r; reflexivity].
Qed.
Lemma le_from_bits : forall buf crc, crc32_le_from crc buf = fold_left le1 (le_bits buf) crc.
Proof.
  induction buf as [|b r IH]; intros crc; [reflexivity|]. unfold crc32_le_from in *. cbn [fold_left le_bits flat_map]. fold (le_bits r).
  rewrite fold_left_app, IH, le_bits_step. reflexivity.
Qed.
Lemma be_from_bits : forall buf crc, crc32_be_from crc buf = fold_left be1 (be_bits buf) crc.
Proof.
  induction buf as [|b r IH]; intros crc; [reflexivity|]. unfold crc32_be_from in *. cbn [fold_left be_bits flat_map]. fold (be_bits r).
  rewrite fold_left_app, IH, be_bits_step by lia. reflexivity.
Qed.

(** ** Ranges *)
Lemma u32_bits : forall x, 0 <= x -> (x <= U32MAX <-> forall i, 32 <= i -> Z.testbit x i = false).
Proof.
  intros x Hx. split.
  - intros H i Hi. destruct (Z.eq_dec x 0) as [->|]; [apply Z.bits_0|]. apply Z.bits_above_log2; [lia|].
    assert (Z.log2 x < 32); [|lia]. apply Z.log2_lt_pow2; [lia|]. change (2 ^ 32) with 4294967296. unfold U32MAX in H. lia.
  - intros H. assert (E : x = x mod 2 ^ 32).
    { apply Z.bits_inj'. intros i Hi. destruct (Z.ltb_spec i 32); [rewrite Z.mod_pow2_bits_low by lia; reflexivity|].
      rewrite Z.mod_pow2_bits_high by lia. apply H. lia. }
    pose proof (Z.mod_pos_bound x (2 ^ 32) ltac:(reflexivity)). rewrite <- E in *. change (2 ^ 32) with 4294967296 in *. unfold U32MAX. lia.
Qed.
Lemma u32_lxor : forall a b, is_u32 a -> is_u32 b -> is_u32 (Z.lxor a b).
Proof.
  intros a b [A1 A2] [B1 B2]. unfold is_u32. assert (0 <= Z.lxor a b) by (apply Z.lxor_nonneg; lia). split; [assumption|].
  apply u32_bits; [assumption|]. intros i Hi. rewrite Z.lxor_spec. rewrite (proj1 (u32_bits a A1) A2 i Hi), (proj1 (u32_bits b B1) B2 i Hi). reflexivity.
Qed.
Lemma le1_range : forall a b, is_u32 a -> is_u32 (le1 a b).
Proof.
  intros a b H. unfold le1. apply u32_lxor; [rewrite Z.shiftr_div_pow2 by lia; change (2 ^ 1) with 2; unfold is_u32, U32MAX in *; lia|].
  destruct (xorb _ _); unfold is_u32, U32MAX, PLE; lia.
Qed.
Lemma be1_range : forall a b, is_u32 (be1 a b).
Proof.
  intros a b. unfold be1. apply u32_lxor; [unfold is_u32, U32MAX, wrap32; lia|]. destruct (xorb _ _); unfold is_u32, U32MAX, PBE; lia.
Qed.
Lemma le_range : forall l a, is_u32 a -> is_u32 (fold_left le1 l a).
Proof. induction l; intros a0 H; cbn; [exact H|]. apply IHl, le1_range, H. Qed.
Lemma be_range : forall l a, is_u32 a -> is_u32 (fold_left be1 l a).
Proof. induction l; intros a0 H; cbn; [exact H|]. apply IHl, be1_range. Qed.

(** ** Seen from the other end *)
Lemma le1_bit : forall a b i, 0 <= i -> Z.testbit (le1 a b) i = xorb (Z.testbit a (i + 1)) (xorb b (Z.testbit a 0) && Z.testbit PLE i).
Proof.
  intros a b i Hi. unfold le1. rewrite Z.lxor_spec, Z.shiftr_spec by lia. f_equal. destruct (xorb _ _); cbn; [reflexivity|apply Z.bits_0].
Qed.
Lemma be1_bit : forall a b i, 0 <= i < 32 -> Z.testbit (be1 a b) i = xorb (if i =? 0 then false else Z.testbit a (i - 1)) (xorb b (Z.testbit a 31) && Z.testbit PBE i).
Proof.
  intros a b i Hi. unfold be1. rewrite Z.lxor_spec, wrap32_bit by lia. destruct (Z.ltb_spec i 32); [|lia]. cbn [andb]. f_equal.
  - destruct (Z.eqb_spec i 0) as [->|]; [rewrite Z.shiftl_spec_low by lia; reflexivity|]. rewrite Z.shiftl_spec by lia. reflexivity.
  - destruct (xorb _ _); cbn; [reflexivity|apply Z.bits_0].
Qed.
Lemma poly_mirrored : mirrored PLE PBE.
Proof.
  intros i Hi. apply eqb_prop.
  assert (H : forallb (fun n => Bool.eqb (Z.testbit PLE (Z.of_nat n)) (Z.testbit PBE (31 - Z.of_nat n))) (seq 0 32) = true) by (vm_compute; reflexivity).
  rewrite forallb_forall in H. specialize (H (Z.to_nat i)). rewrite Z2Nat.id in H by lia. apply H, in_seq. lia.
Qed.
Lemma mirror_step : forall a b x, is_u32 a -> mirrored a b -> mirrored (le1 a x) (be1 b x).
Proof.
  intros a b x [Ha1 Ha2] M i Hi. rewrite le1_bit, be1_bit by lia. rewrite (M 0) by lia. change (31 - 0) with 31.
  rewrite <- (poly_mirrored i Hi). f_equal. destruct (Z.eqb_spec (31 - i) 0).
  - apply (proj1 (u32_bits a Ha1) Ha2). lia.
  - rewrite M by lia. f_equal. lia.
Qed.
Lemma mirror_run : forall l a b, is_u32 a -> mirrored a b -> mirrored (fold_left le1 l a) (fold_left be1 l b).
Proof. induction l as [|x l IH]; intros a b Ha M; [exact M|]. cbn. apply IH; [apply le1_range, Ha|apply mirror_step; assumption]. Qed.
Lemma mirrored_fun : forall a a' b, is_u32 a -> is_u32 a' -> mirrored a b -> mirrored a' b -> a = a'.
Proof.
  intros a a' b [A1 A2] [B1 B2] M M'. apply Z.bits_inj'. intros i Hi. destruct (Z.ltb_spec i 32).
  - rewrite M, M' by lia. reflexivity.
  - rewrite (proj1 (u32_bits a A1) A2), (proj1 (u32_bits a' B1) B2) by lia. reflexivity.
Qed.
Lemma mirrored_sym : forall a b, mirrored a b -> mirrored b a.
Proof. intros a b M i Hi. rewrite (M (31 - i)) by lia. f_equal. lia. Qed.

(** ** Division *)
Lemma zlen_map : forall A B (f : A -> B) l, zlen (map f l) = zlen l.
Proof. intros. unfold zlen. rewrite map_length. reflexivity. Qed.
Fixpoint tops (l : list bool) (a : Z) : list bool := match l with [] => [] | b :: r => xorb b (Z.testbit a 31) :: tops r (be1 a b) end.
Lemma tops_len : forall l a, zlen (tops l a) = zlen l.
Proof. induction l as [|b r IH]; intros a; [reflexivity|]. cbn [tops]. rewrite !zlen_cons, IH. reflexivity. Qed.
Lemma be1_sum : forall a b, is_u32 a -> be1 a b = Z.lxor (Z.lxor (Z.shiftl a 1) (if b then 2 ^ 32 else 0)) (if xorb b (Z.testbit a 31) then CRC_POLY else 0).
Proof.
  intros a b [A1 A2]. apply Z.bits_inj'. intros i Hi.
  assert (E : CRC_POLY = Z.lxor (2 ^ 32) PBE) by (vm_compute; reflexivity).
  assert (D : Z.testbit (if xorb b (Z.testbit a 31) then CRC_POLY else 0) i = xorb (xorb b (Z.testbit a 31) && (i =? 32)) (xorb b (Z.testbit a 31) && Z.testbit PBE i)).
  { destruct (xorb b _); [|cbn; apply Z.bits_0]. rewrite E, Z.lxor_spec. cbn [andb]. f_equal. rewrite Z.pow2_bits_eqb by lia. apply Z.eqb_sym. }
  rewrite !Z.lxor_spec, D. clear D.
  assert (D : Z.testbit (if b then 2 ^ 32 else 0) i = b && (i =? 32)).
  { destruct b; [rewrite Z.pow2_bits_eqb by lia; cbn [andb]; apply Z.eqb_sym|apply Z.bits_0]. }
  rewrite D. unfold be1. rewrite Z.lxor_spec, wrap32_bit by lia.
  replace (Z.testbit (if xorb b (Z.testbit a 31) then PBE else 0) i) with (xorb b (Z.testbit a 31) && Z.testbit PBE i) by (destruct (xorb b _); [reflexivity|cbn; symmetry; apply Z.bits_0]).
  assert (S : Z.testbit (Z.shiftl a 1) i = if i =? 0 then false else Z.testbit a (i - 1)).
  { destruct (Z.eqb_spec i 0) as [->|]; [rewrite Z.shiftl_spec_low by lia; reflexivity|rewrite Z.shiftl_spec by lia; reflexivity]. }
  rewrite S. clear D S. destruct (Z.ltb_spec i 32).
  - destruct (Z.eqb_spec i 32); [lia|]. cbn [andb]. rewrite !andb_false_r, !xorb_false_r, !xorb_false_l. reflexivity.
  - rewrite (proj1 (u32_bits PBE ltac:(unfold PBE; lia)) ltac:(unfold PBE, U32MAX; lia) i) by lia. rewrite andb_false_r, !xorb_false_r. cbn [andb].
    destruct (Z.eqb_spec i 0); [lia|]. destruct (Z.eqb_spec i 32) as [->|].
    + change (32 - 1) with 31. rewrite !andb_true_r. destruct (Z.testbit a 31), b; reflexivity.
    + rewrite !andb_false_r, !xorb_false_r. symmetry. apply (proj1 (u32_bits a A1) A2). lia.
Qed.
Lemma lxor_swap : forall a b c, Z.lxor (Z.lxor a b) c = Z.lxor (Z.lxor a c) b.
Proof. intros. rewrite !Z.lxor_assoc, (Z.lxor_comm b). reflexivity. Qed.
Lemma be_divides : forall l a, is_u32 a ->
  Z.lxor (Z.shiftl a (zlen l)) (Z.shiftl (poly l) 32) = Z.lxor (pmul_bits (tops l a) CRC_POLY) (fold_left be1 l a).
Proof.
  induction l as [|b r IH]; intros a Ha.
  - change (zlen (@nil bool)) with 0. cbn [tops pmul_bits fold_left poly]. rewrite Z.shiftl_0_r. unfold poly. cbn. rewrite Z.lxor_0_r. reflexivity.
  - cbn [fold_left tops]. cbn [pmul_bits]. rewrite tops_len.
    assert (P0 : 0 <= zlen r) by apply zlen_nonneg.
    specialize (IH (be1 a b) (be1_range a b)).
    rewrite Z.lxor_assoc, <- IH. clear IH. unfold poly. cbn [pmul_bits]. fold (poly r). rewrite zlen_cons.
    rewrite Z.shiftl_lxor.
    rewrite (be1_sum a b Ha) at 1. rewrite !Z.shiftl_lxor. rewrite Z.shiftl_shiftl by lia.
    replace (Z.shiftl (if b then Z.shiftl 1 (zlen r) else 0) 32) with (Z.shiftl (if b then 2 ^ 32 else 0) (zlen r)).
    2: { destruct b; [|rewrite !Z.shiftl_0_l; reflexivity]. change (2 ^ 32) with (Z.shiftl 1 32). rewrite !Z.shiftl_shiftl by lia. f_equal. lia. }
    set (t := xorb b (Z.testbit a 31)).
    replace (if t then Z.shiftl CRC_POLY (zlen r) else 0) with (Z.shiftl (if t then CRC_POLY else 0) (zlen r)) by (destruct t; [reflexivity|apply Z.shiftl_0_l]).
    generalize (Z.shiftl (if t then CRC_POLY else 0) (zlen r)). intros T. generalize (Z.shiftl (if b then 2 ^ 32 else 0) (zlen r)). intros B.
    generalize (Z.shiftl (poly r) 32). intros R. generalize (Z.shiftl a (1 + zlen r)). intros A.
    apply Z.bits_inj'. intros i Hi. rewrite !Z.lxor_spec. destruct (Z.testbit A i), (Z.testbit B i), (Z.testbit T i), (Z.testbit R i); reflexivity.
Qed.
Lemma be_remainder : forall buf init, is_u32 init ->
  remainder (Z.lxor (Z.shiftl init (8 * zlen buf)) (Z.shiftl (poly (be_bits buf)) 32)) (crc32_be_from init buf).
Proof.
  intros buf init H. rewrite be_from_bits. split; [pose proof (be_range (be_bits buf) init H) as [X Y]; unfold U32MAX in Y; change (2 ^ 32) with 4294967296; lia|].
  exists (tops (be_bits buf) init). rewrite <- be_divides by exact H. do 2 f_equal.
  unfold be_bits. induction buf as [|b r IH]; [reflexivity|]. cbn [flat_map]. rewrite zlen_app, <- IH, zlen_cons. change (zlen (msb_first b)) with 8. lia.
Qed.
Lemma le_remainder : forall buf init init', is_u32 init -> is_u32 init' -> mirrored init init' ->
  exists r, mirrored (crc32_le_from init buf) r /\ remainder (Z.lxor (Z.shiftl init' (8 * zlen buf)) (Z.shiftl (poly (le_bits buf)) 32)) r.
Proof.
  intros buf init init' H H' M. exists (fold_left be1 (le_bits buf) init'). rewrite le_from_bits. split; [apply mirror_run; assumption|].
  split; [pose proof (be_range (le_bits buf) init' H') as [X Y]; unfold U32MAX in Y; change (2 ^ 32) with 4294967296; lia|].
  exists (tops (le_bits buf) init'). rewrite <- be_divides by exact H'. do 2 f_equal.
  unfold le_bits. induction buf as [|b r IH]; [reflexivity|]. cbn [flat_map]. rewrite zlen_app, <- IH, zlen_cons. change (zlen (rev (msb_first b))) with 8. lia.
Qed.

(** The remainder is unique. *)
Lemma pmul_pad : forall k q p, pmul_bits (repeat false k ++ q) p = pmul_bits q p.
Proof. induction k as [|k IH]; intros q p; [reflexivity|]. cbn [repeat app pmul_bits]. rewrite Z.lxor_0_l. apply IH. Qed.
Fixpoint xorl (a b : list bool) : list bool := match a, b with x :: a, y :: b => xorb x y :: xorl a b | _, _ => [] end.
Lemma xorl_len : forall a b, length a = length b -> zlen (xorl a b) = zlen a.
Proof. induction a as [|x a IH]; intros [|y b] L; cbn [length xorl] in *; try discriminate; [reflexivity|]. injection L as L. rewrite !zlen_cons, IH by exact L. reflexivity. Qed.
Lemma pmul_xor : forall a b p, length a = length b -> Z.lxor (pmul_bits a p) (pmul_bits b p) = pmul_bits (xorl a b) p.
Proof.
  induction a as [|x a IH]; intros [|y b] p L; cbn in L; try discriminate; [reflexivity|]. injection L as L. cbn [xorl pmul_bits].
  rewrite <- IH, xorl_len by exact L. replace (zlen b) with (zlen a) by (unfold zlen; lia).
  generalize (pmul_bits a p), (pmul_bits b p), (Z.shiftl p (zlen a)). intros A B P. apply Z.bits_inj'. intros i Hi.
  destruct x, y; cbn [xorb]; rewrite !Z.lxor_spec, ?Z.bits_0; destruct (Z.testbit A i), (Z.testbit B i), (Z.testbit P i); reflexivity.
Qed.
Lemma crc_poly_bit : forall i, 32 <= i -> Z.testbit CRC_POLY i = (i =? 32).
Proof.
  intros i Hi. destruct (Z.eqb_spec i 32) as [->|]; [vm_compute; reflexivity|]. apply Z.bits_above_log2; [vm_compute; discriminate|].
  change (Z.log2 CRC_POLY) with 32. lia.
Qed.
Lemma pmul_high : forall q i, zlen q + 32 <= i -> Z.testbit (pmul_bits q CRC_POLY) i = false.
Proof.
  induction q as [|b r IH]; intros i Hi; [apply Z.bits_0|]. rewrite zlen_cons in Hi. pose proof (zlen_nonneg _ r). cbn [pmul_bits].
  rewrite Z.lxor_spec, IH by lia. rewrite xorb_false_r. destruct b; [|apply Z.bits_0]. rewrite Z.shiftl_spec by lia. rewrite crc_poly_bit by lia.
  apply Z.eqb_neq. lia.
Qed.
Lemma pmul_small : forall q, (forall i, 32 <= i -> Z.testbit (pmul_bits q CRC_POLY) i = false) -> pmul_bits q CRC_POLY = 0.
Proof.
  induction q as [|b r IH]; intros H; [reflexivity|]. cbn [pmul_bits] in *. pose proof (zlen_nonneg _ r). destruct b.
  - specialize (H (zlen r + 32) ltac:(lia)). rewrite Z.lxor_spec, pmul_high, Z.shiftl_spec, crc_poly_bit in H by lia.
    replace (zlen r + 32 - zlen r) with 32 in H by lia. discriminate.
  - rewrite Z.lxor_0_l in *. apply IH. intros i Hi. specialize (H i Hi). rewrite ?Z.lxor_0_l in H. exact H.
Qed.
Lemma remainder_unique : forall a r r', remainder a r -> remainder a r' -> r = r'.
Proof.
  intros a r r' ([R1 R2] & q & E) ([S1 S2] & q' & E').
  set (k := length q). set (k' := length q').
  rewrite <- (pmul_pad k' q) in E. rewrite <- (pmul_pad k q') in E'.
  assert (X : pmul_bits (xorl (repeat false k' ++ q) (repeat false k ++ q')) CRC_POLY = Z.lxor r r').
  { rewrite <- pmul_xor by (rewrite !app_length, !repeat_length; unfold k, k'; lia).
    rewrite E in E'. set (A := pmul_bits _ _) in *. set (B := pmul_bits (repeat false k ++ q') _) in *. clearbody A B.
    apply Z.bits_inj'. intros i Hi. apply (f_equal (fun z => Z.testbit z i)) in E'. rewrite !Z.lxor_spec in *.
    destruct (Z.testbit A i), (Z.testbit B i), (Z.testbit r i), (Z.testbit r' i); cbn in *; congruence. }
  assert (Z0 : Z.lxor r r' = 0); [|apply Z.lxor_eq; exact Z0].
  rewrite <- X. apply pmul_small. intros i Hi. rewrite X, Z.lxor_spec.
  change (2 ^ 32) with 4294967296 in *.
  rewrite (proj1 (u32_bits r R1) ltac:(unfold U32MAX; lia) i Hi), (proj1 (u32_bits r' S1) ltac:(unfold U32MAX; lia) i Hi). reflexivity.
Qed.

(** ** Bursts *)
Lemma le1_inj : forall a a' b, is_u32 a -> is_u32 a' -> le1 a b = le1 a' b -> a = a'.
Proof.
  intros a a' b [A1 A2] [B1 B2] E.
  assert (T : forall i, 0 <= i -> Z.testbit (le1 a b) i = Z.testbit (le1 a' b) i) by (intros; rewrite E; reflexivity).
  assert (T0 : Z.testbit a 0 = Z.testbit a' 0).
  { specialize (T 31 ltac:(lia)). rewrite !le1_bit in T by lia. change (31 + 1) with 32 in T.
    rewrite (proj1 (u32_bits a A1) A2 32 ltac:(lia)), (proj1 (u32_bits a' B1) B2 32 ltac:(lia)) in T.
    change (Z.testbit PLE 31) with true in T. rewrite !andb_true_r in T. destruct b, (Z.testbit a 0), (Z.testbit a' 0); cbn in T; congruence. }
  apply Z.bits_inj'. intros i Hi. destruct (Z.eq_dec i 0) as [->|]; [exact T0|].
  specialize (T (i - 1) ltac:(lia)). rewrite !le1_bit in T by lia. replace (i - 1 + 1) with i in T by lia. rewrite T0 in T.
  destruct (Z.testbit a i), (Z.testbit a' i), (xorb b (Z.testbit a' 0) && Z.testbit PLE (i - 1)); cbn in T; congruence.
Qed.
Lemma le_inj : forall l a a', is_u32 a -> is_u32 a' -> fold_left le1 l a = fold_left le1 l a' -> a = a'.
Proof.
  induction l as [|b l IH]; intros a a' H H' E; [exact E|]. cbn in E. apply IH in E; [|apply le1_range; assumption|apply le1_range; assumption].
  apply le1_inj in E; assumption.
Qed.
Fixpoint lval (l : list bool) : Z := match l with [] => 0 | b :: r => Z.b2z b + 2 * lval r end.
Lemma lval_range : forall l, 0 <= lval l < 2 ^ zlen l.
Proof.
  induction l as [|b r IH]; [cbn; lia|]. cbn [lval]. rewrite zlen_cons, Z.pow_add_r by (pose proof (zlen_nonneg _ r); lia).
  change (2 ^ 1) with 2. destruct b; cbn [Z.b2z]; lia.
Qed.
Lemma lval_inj : forall a b, length a = length b -> lval a = lval b -> a = b.
Proof.
  induction a as [|x a IH]; intros [|y b] L E; cbn [length] in L; try discriminate; [reflexivity|]. injection L as L. cbn [lval] in E.
  assert (X : x = y /\ lval a = lval b) by (destruct x, y; cbn [Z.b2z] in E; split; try reflexivity; lia).
  destruct X as [-> X]. f_equal. apply IH; assumption.
Qed.
Lemma lval_bit0 : forall b v, Z.testbit (Z.b2z b + 2 * v) 0 = b.
Proof. intros. rewrite Z.add_comm. apply Z.testbit_0_r. Qed.
Lemma lval_bitS : forall b v i, 0 <= i -> Z.testbit (Z.b2z b + 2 * v) (i + 1) = Z.testbit v i.
Proof. intros. rewrite Z.add_comm, Z.add_1_r. apply Z.testbit_succ_r. lia. Qed.
Lemma le1_fold : forall a b v, le1 (Z.lxor a (Z.b2z b + 2 * v)) false = Z.lxor (le1 a b) v.
Proof.
  intros a b v. apply Z.bits_inj'. intros i Hi. rewrite le1_bit by lia. rewrite !Z.lxor_spec, le1_bit by lia. rewrite lval_bit0, lval_bitS by lia.
  destruct (Z.testbit a (i + 1)), (Z.testbit v i), (Z.testbit a 0), b, (Z.testbit PLE i); reflexivity.
Qed.
Lemma le_zeros : forall l a, fold_left le1 l a = fold_left le1 (repeat false (length l)) (Z.lxor a (lval l)).
Proof.
  induction l as [|b r IH]; intros a; [cbn; rewrite Z.lxor_0_r; reflexivity|]. cbn [fold_left length repeat lval]. rewrite IH, le1_fold. reflexivity.
Qed.
Lemma le_burst : forall p x y q a, is_u32 a -> length x = length y -> (length x <= 32)%nat -> x <> y ->
  fold_left le1 (p ++ x ++ q) a <> fold_left le1 (p ++ y ++ q) a.
Proof.
  intros p x y q a Ha L L32 N E. rewrite !fold_left_app in E.
  pose proof (le_range p a Ha) as Hs. set (s := fold_left le1 p a) in *. clearbody s.
  apply le_inj in E; [|apply le_range; assumption|apply le_range; assumption].
  rewrite (le_zeros x), (le_zeros y), <- L in E.
  assert (R : forall l, (length l <= 32)%nat -> is_u32 (lval l)).
  { intros l K. pose proof (lval_range l) as B. assert (2 ^ zlen l <= 2 ^ 32) by (apply Z.pow_le_mono_r; unfold zlen; lia).
    change (2 ^ 32) with 4294967296 in *. unfold is_u32, U32MAX. lia. }
  apply le_inj in E; [|apply u32_lxor; [assumption|apply R; lia]|apply u32_lxor; [assumption|apply R; lia]].
  apply N, lval_inj; [exact L|]. apply (f_equal (Z.lxor s)) in E. rewrite <- !Z.lxor_assoc, Z.lxor_nilpotent, !Z.lxor_0_l in E. exact E.
Qed.
Definition mirror (a : Z) : Z := lval (map (fun i => Z.testbit a (31 - Z.of_nat i)) (seq 0 32)).
Lemma lval_bit : forall l i, Z.testbit (lval l) (Z.of_nat i) = nth i l false.
Proof.
  induction l as [|b r IH]; intros i; [destruct i; apply Z.bits_0|]. cbn [lval]. destruct i as [|i]; [apply lval_bit0|].
  rewrite Nat2Z.inj_succ, <- Z.add_1_r, lval_bitS by lia. apply IH.
Qed.
Lemma mirror_ok : forall a, mirrored (mirror a) a /\ is_u32 (mirror a).
Proof.
  intros a. unfold mirror. split.
  - intros i Hi. rewrite <- (Z2Nat.id i) at 1 by lia. rewrite lval_bit.
    rewrite (nth_indep _ false ((fun i : nat => Z.testbit a (31 - Z.of_nat i)) 0%nat)) by (rewrite map_length, seq_length; lia). rewrite (map_nth (fun i : nat => Z.testbit a (31 - Z.of_nat i))), seq_nth by lia. f_equal. lia.
  - pose proof (lval_range (map (fun i => Z.testbit a (31 - Z.of_nat i)) (seq 0 32))) as R. rewrite zlen_map in R. change (zlen (seq 0 32)) with 32 in R.
    change (2 ^ 32) with 4294967296 in R. unfold is_u32, U32MAX. lia.
Qed.
Lemma be_burst : forall p x y q a, is_u32 a -> length x = length y -> (length x <= 32)%nat -> x <> y ->
  fold_left be1 (p ++ x ++ q) a <> fold_left be1 (p ++ y ++ q) a.
Proof.
  intros p x y q a Ha L L32 N E. destruct (mirror_ok a) as [M U].
  apply (le_burst p x y q (mirror a) U L L32 N).
  apply (mirrored_fun _ _ (fold_left be1 (p ++ x ++ q) a)); [apply le_range, U|apply le_range, U|apply mirror_run; assumption|].
  rewrite E. apply mirror_run; assumption.
Qed.

(** ** Internet checksum *)
Lemma total_bound : forall n buf, (length buf <= n)%nat -> bytes_ok buf -> 0 <= total (words buf) /\ 2 * total (words buf) <= 65535 * (zlen buf + 1)
  /\ (zlen buf mod 2 = 0 -> 2 * total (words buf) <= 65535 * zlen buf).
Proof.
  induction n as [|n IH]; intros buf L H; (destruct buf as [|a [|b r]]; cbn [length] in L; [cbn; lia|try lia|try lia]).
  - inversion H; subst. unfold is_byte in *. change (total (words [a])) with (a + 0). change (zlen [a]) with 1. lia.
  - inversion H as [|? ? Ha H1]; subst. inversion H1 as [|? ? Hb H2]; subst. unfold is_byte in *. cbn [words]. unfold total in *. cbn [fold_right].
    destruct (IH r ltac:(lia) H2) as (A & B & C). rewrite !zlen_cons in *. split; [lia|]. split; [lia|]. intros E. specialize (C ltac:(lia)). lia.
Qed.
Lemma loop_total : forall n buf s, (length buf <= n)%nat -> bytes_ok buf -> 0 <= s -> s + total (words buf) <= U32MAX -> cksum_loop buf s = s + total (words buf).
Proof.
  induction n as [|n IH]; intros buf s L H Hs B; (destruct buf as [|a [|b r]]; cbn [length] in L; [cbn; lia|try lia|try lia]).
  - inversion H; subst. unfold is_byte in *. change (total (words [a])) with (a + 0) in *. cbn [cksum_loop]. unfold wrap32, U32MAX in *. lia.
  - inversion H as [|? ? Ha H1]; subst. inversion H1 as [|? ? Hb H2]; subst. unfold is_byte in *. cbn [words cksum_loop] in *.
    change (total (256 * a + b :: words r)) with (256 * a + b + total (words r)) in *.
    destruct (total_bound (length r) r (le_n _) H2) as (T & _ & _).
    rewrite shiftl_8. replace (wrap32 (wrap32 (s + a * 256) + b)) with (s + 256 * a + b) by (unfold wrap32, U32MAX in *; lia).
    rewrite IH; try lia; try assumption.
Qed.
Lemma cksum_fold : forall T, 0 <= T <= U32MAX ->
  let sum1 := wrap32 (Z.shiftr T 16 + Z.land T 65535) in wrap16 (Z.lnot (wrap32 (sum1 + Z.shiftr sum1 16))) = 65535 - (if T =? 0 then 0 else (T - 1) mod 65535 + 1).
Proof.
  intros T H sum1. subst sum1. replace (Z.land T 65535) with (T mod 2 ^ 16) by (change 65535 with (Z.ones 16); rewrite Z.land_ones by lia; reflexivity). rewrite !Z.shiftr_div_pow2 by lia. change (2 ^ 16) with 65536.
  unfold U32MAX in H. unfold Z.lnot. set (h := T / 65536). set (l := T mod 65536).
  assert (E : T = 65536 * h + l /\ 0 <= l < 65536 /\ 0 <= h <= 65535) by (subst h l; lia). clearbody h l. destruct E as (E & Hl & Hh).
  replace (wrap32 (h + l)) with (h + l) by (unfold wrap32; lia).
  destruct (Z.ltb_spec (h + l) 65536).
  - replace ((h + l) / 65536) with 0 by lia. replace (wrap32 (h + l + 0)) with (h + l) by (unfold wrap32; lia).
    replace (wrap16 (Z.pred (- (h + l)))) with (65535 - (h + l)) by (unfold wrap16; lia).
    destruct (Z.eqb_spec T 0); [lia|]. replace (T - 1) with (h + l - 1 + h * 65535) by lia. rewrite Z_mod_plus_full, Z.mod_small by lia. lia.
  - replace ((h + l) / 65536) with 1 by lia. replace (wrap32 (h + l + 1)) with (h + l + 1) by (unfold wrap32; lia).
    replace (wrap16 (Z.pred (- (h + l + 1)))) with (65535 - (h + l - 65535)) by (unfold wrap16; lia).
    destruct (Z.eqb_spec T 0); [lia|]. replace (T - 1) with (h + l - 65535 - 1 + (h + 1) * 65535) by lia. rewrite Z_mod_plus_full, Z.mod_small by lia. lia.
Qed.
Lemma cksum_value : forall buf, bytes_ok buf -> zlen buf <= 131074 -> in_cksum buf = 65535 - oc_sum (words buf).
Proof.
  intros buf H L. destruct (total_bound (length buf) buf (le_n _) H) as (A & B & C).
  assert (U : total (words buf) <= U32MAX).
  { unfold U32MAX. destruct (Z.eq_dec (zlen buf mod 2) 0) as [E|E]; [specialize (C E); lia|]. lia. }
  unfold in_cksum. rewrite (loop_total (length buf)) by (try lia; try assumption; auto). rewrite Z.add_0_l. rewrite cksum_fold by lia. reflexivity.
Qed.
Lemma words_app : forall n a b, (length a <= n)%nat -> Nat.Even (length a) -> words (a ++ b) = words a ++ words b.
Proof.
  induction n as [|n IH]; intros a b L E; (destruct a as [|x [|y r]]; cbn [length] in *; [reflexivity|try lia|try lia]).
  - destruct E as (k & E). lia.
  - cbn [app words]. f_equal. apply IH; [lia|]. destruct E as (k & E). exists (k - 1)%nat. lia.
Qed.
Lemma total_app : forall a b, total (a ++ b) = total a + total b.
Proof. induction a as [|x a IH]; intros b; [reflexivity|]. change (total ((x :: a) ++ b)) with (x + total (a ++ b)). rewrite IH. cbn. unfold total. lia. Qed.
Lemma cksum_range : forall buf, 0 <= in_cksum buf <= 65535.
Proof. intros. unfold in_cksum. cbn zeta. unfold wrap16. lia. Qed.
Lemma cksum_verify : forall buf, bytes_ok buf -> Nat.Even (length buf) -> zlen buf <= 131072 ->
  in_cksum (buf ++ [in_cksum buf / 256; in_cksum buf mod 256]) = 0.
Proof.
  intros buf H E L. pose proof (cksum_range buf) as R. destruct (total_bound (length buf) buf (le_n _) H) as (A & _).
  rewrite cksum_value.
  - unfold oc_sum. rewrite (words_app (length buf)) by (auto). rewrite total_app. cbn [words]. change (total [256 * (in_cksum buf / 256) + in_cksum buf mod 256]) with (256 * (in_cksum buf / 256) + in_cksum buf mod 256 + 0).
    replace (256 * (in_cksum buf / 256) + in_cksum buf mod 256 + 0) with (in_cksum buf) by lia.
    rewrite cksum_value by (try assumption; lia). unfold oc_sum. set (T := total (words buf)) in *. clearbody T.
    destruct (Z.eqb_spec T 0) as [->|N]; [reflexivity|]. set (m := (T - 1) mod 65535). set (q := (T - 1) / 65535).
    assert (X : T - 1 = 65535 * q + m /\ 0 <= m < 65535 /\ 0 <= q) by (subst m q; lia). clearbody m q.
    destruct (Z.eqb_spec (T + (65535 - (m + 1))) 0); [lia|]. replace (T + (65535 - (m + 1)) - 1) with (65534 + q * 65535) by lia.
    rewrite Z_mod_plus_full. reflexivity.
  - apply bytes_ok_app. split; [exact H|]. repeat constructor; unfold is_byte; lia.
  - rewrite zlen_app. change (zlen [in_cksum buf / 256; in_cksum buf mod 256]) with 2. lia.
Qed.
Lemma cksum_eq : forall buf buf', bytes_ok buf -> bytes_ok buf' -> zlen buf <= 131074 -> zlen buf' <= 131074 ->
  (in_cksum buf = in_cksum buf' <-> (total (words buf) - total (words buf')) mod 65535 = 0 /\ (total (words buf) = 0 <-> total (words buf') = 0)).
Proof.
  intros b b' H H' L L'. rewrite !cksum_value by assumption.
  destruct (total_bound (length b) b (le_n _) H) as (A & _), (total_bound (length b') b' (le_n _) H') as (A' & _). unfold oc_sum.
  set (T := total (words b)) in *. set (T' := total (words b')) in *. clearbody T T'.
  destruct (Z.eqb_spec T 0), (Z.eqb_spec T' 0); lia.
Qed.
Lemma cksum_word : forall p a b a' b' q, bytes_ok (p ++ [a; b] ++ q) -> bytes_ok [a'; b'] -> Nat.Even (length p) -> zlen (p ++ [a; b] ++ q) <= 131074 ->
  in_cksum (p ++ [a; b] ++ q) = in_cksum (p ++ [a'; b'] ++ q) ->
  (a, b) = (a', b') \/ (256 * a + b = 0 /\ 256 * a' + b' = 65535) \/ (256 * a + b = 65535 /\ 256 * a' + b' = 0).
Proof.
  intros p a b a' b' q H H' E L X.
  assert (H2 : bytes_ok (p ++ [a'; b'] ++ q)).
  { apply bytes_ok_app in H. destruct H as [Hp H]. apply bytes_ok_app in H. apply bytes_ok_app. split; [exact Hp|]. apply bytes_ok_app. tauto. }
  apply cksum_eq in X; try assumption; [|rewrite !zlen_app in *; change (zlen [a'; b']) with 2; change (zlen [a; b]) with 2 in L; lia].
  destruct X as [X _]. cbn [app] in X. rewrite !(words_app (length p)) in X by auto. rewrite !total_app in X. cbn [words] in X.
  unfold total in X. cbn [fold_right] in X. fold (total (words q)) in X. fold (total (words p)) in X.
  apply bytes_ok_app in H. destruct H as [_ H]. inversion H as [|? ? A1 A2]; subst. inversion A2; subst. inversion H' as [|? ? A3 A4]; subst. inversion A4; subst.
  unfold is_byte in *. replace (total (words p) + (256 * a + b + total (words q)) - (total (words p) + (256 * a' + b' + total (words q)))) with (256 * a + b - (256 * a' + b')) in X by lia.
  assert (C : 256 * a + b = 256 * a' + b' \/ 256 * a + b - (256 * a' + b') = 65535 \/ 256 * a + b - (256 * a' + b') = - 65535) by lia.
  destruct C as [C|[C|C]]; [left; f_equal; lia|right; right; lia|right; left; lia].
Qed.
