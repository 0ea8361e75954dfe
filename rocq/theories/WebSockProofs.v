(** Proofs about base64 and the frames of the WebSocket server. *)
From Verif Require Import Base BaseFacts WebSock WebSockSpec.
Open Scope res_scope.

(** base64 *)
Lemma sym_spec : forall v, 0 <= v < 64 -> exists c, sym v = Ok c /\ symbol v c.
Proof.
  intros v H. unfold sym.
  assert (C : 0 <= v < 26 \/ 26 <= v < 52 \/ 52 <= v < 62 \/ v = 62 \/ v = 63) by lia.
  assert (A : forall k, (k < 64)%nat -> nth_error alphabet k = Some (nth k alphabet 0)) by (intros k K; apply nth_error_nth'; exact K).
  rewrite A by lia.
  exists (nth (Z.to_nat v) alphabet 0). split; [reflexivity|].
  assert (E : v = Z.of_nat (Z.to_nat v)) by lia. rewrite E at 1. generalize dependent (Z.to_nat v). clear A. intros n E. subst v.
  assert (N : (n < 64)%nat) by lia. clear C H.
  do 64 (destruct n as [|n]; [vm_compute; first [exact sym_plus | exact sym_slash | match goal with |- symbol ?v _ => first [exact (sym_upper v ltac:(lia)) | exact (sym_lower v ltac:(lia)) | exact (sym_digit v ltac:(lia))] end]|]). lia.
Qed.
Lemma symbol_value : forall v c, symbol v c -> 0 <= v < 64 /\ c <> 61.
Proof. intros v c H. destruct H; lia. Qed.
Lemma symbol_unique : forall v w c, symbol v c -> symbol w c -> v = w.
Proof. intros v w c H K. inversion H; inversion K; lia. Qed.
Lemma symbol_fun : forall v a b, symbol v a -> symbol v b -> a = b.
Proof. intros v a b H K. inversion H; inversion K; lia. Qed.

Lemma land_pow : forall x k, 0 <= k -> Z.land x (2 ^ k - 1) = x mod 2 ^ k.
Proof. intros. rewrite <- Z.land_ones by lia. f_equal. rewrite Z.ones_equiv. lia. Qed.

Lemma base64enc_spec : forall l, bytes_ok l -> exists t, base64enc l = Ok t /\ base64 l t.
Proof.
  assert (H : forall n l, (length l <= n)%nat -> bytes_ok l -> exists t, base64enc l = Ok t /\ base64 l t).
  2: { intros l. apply (H (length l) l). lia. }
  induction n as [|n IH]; intros l L B.
  - destruct l; [exists []; split; [reflexivity|constructor]|cbn in L; lia].
  - destruct l as [|x l]; [exists []; split; [reflexivity|constructor]|].
    inversion B as [|? ? Bx B1]; subst. unfold is_byte in Bx.
    change 3 with (2 ^ 2 - 1) in *.
    destruct (sym_spec (Z.shiftr x 2)) as (a & Ea & Sa). { rewrite Z.shiftr_div_pow2 by lia. change (2 ^ 2) with 4. split; [apply Z.div_pos; lia|apply Z.div_lt_upper_bound; lia]. }
    assert (X3 : Z.shiftl (Z.land x 3) 4 = x mod 4 * 16). { change 3 with (2 ^ 2 - 1). rewrite land_pow by lia. rewrite Z.shiftl_mul_pow2 by lia. reflexivity. }
    assert (X4 : 0 <= x mod 4 < 4) by (apply Z.mod_pos_bound; lia).
    assert (XE : x = 4 * Z.shiftr x 2 + x mod 4). { rewrite Z.shiftr_div_pow2 by lia. change (2 ^ 2) with 4. apply Z.div_mod. lia. }
    destruct l as [|y l].
    + destruct (sym_spec (x mod 4 * 16)) as (c & Ec & Sc); [lia|].
      exists [a; c; 61; 61]. split; [cbn [base64enc rbind]; rewrite Ea, X3; cbn [rbind]; rewrite Ec; reflexivity|].
      apply (b64_one x _ _ a c Sa Sc). lia.
    + inversion B1 as [|? ? By B2]; subst. unfold is_byte in By.
      assert (Y4 : Z.shiftr y 4 = y / 16) by (rewrite Z.shiftr_div_pow2 by lia; reflexivity).
      assert (Yb : 0 <= y / 16 < 16). { split; [apply Z.div_pos; lia|apply Z.div_lt_upper_bound; lia]. }
      assert (Y15 : Z.shiftl (Z.land y 15) 2 = y mod 16 * 4). { change 15 with (2 ^ 4 - 1). rewrite land_pow by lia. rewrite Z.shiftl_mul_pow2 by lia. reflexivity. }
      assert (Ym : 0 <= y mod 16 < 16) by (apply Z.mod_pos_bound; lia).
      assert (YE : y = 16 * (y / 16) + y mod 16) by (apply Z.div_mod; lia).
      assert (W1 : wrap8 (x mod 4 * 16 + y / 16) = x mod 4 * 16 + y / 16) by (unfold wrap8; apply Z.mod_small; lia).
      destruct (sym_spec (x mod 4 * 16 + y / 16)) as (c & Ec & Sc); [lia|].
      destruct l as [|z l].
      * destruct (sym_spec (y mod 16 * 4)) as (d & Ed & Sd); [lia|].
        exists [a; c; d; 61]. split; [cbn [base64enc rbind]; rewrite Ea, X3, Y4, W1; cbn [rbind]; rewrite Ec; cbn [rbind]; rewrite Y15, Ed; reflexivity|].
        apply (b64_two x y _ _ _ a c d Sa Sc Sd). lia.
      * inversion B2 as [|? ? Bz B3]; subst. unfold is_byte in Bz.
        assert (Z6 : Z.shiftr z 6 = z / 64) by (rewrite Z.shiftr_div_pow2 by lia; reflexivity).
        assert (Zb : 0 <= z / 64 < 4). { split; [apply Z.div_pos; lia|apply Z.div_lt_upper_bound; lia]. }
        assert (Z63 : Z.land z 63 = z mod 64). { change 63 with (2 ^ 6 - 1). rewrite land_pow by lia. reflexivity. }
        assert (Zm : 0 <= z mod 64 < 64) by (apply Z.mod_pos_bound; lia).
        assert (ZE : z = 64 * (z / 64) + z mod 64) by (apply Z.div_mod; lia).
        assert (W2 : wrap8 (y mod 16 * 4 + z / 64) = y mod 16 * 4 + z / 64) by (unfold wrap8; apply Z.mod_small; lia).
        destruct (sym_spec (y mod 16 * 4 + z / 64)) as (d & Ed & Sd); [lia|].
        destruct (sym_spec (z mod 64)) as (e & Ee & Se); [lia|].
        destruct (IH l) as (t & Et & St); [cbn in L; lia|assumption|].
        exists (a :: c :: d :: e :: t). split.
        -- cbn [base64enc rbind]. rewrite Ea, X3, Y4, W1. cbn [rbind]. rewrite Ec. cbn [rbind]. rewrite Y15, Z6, W2, Ed. cbn [rbind]. rewrite Z63, Ee. cbn [rbind]. rewrite Et. reflexivity.
        -- apply (b64_three x y z _ _ _ _ a c d e l t Sa Sc Sd Se); [lia|exact St].
Qed.

(** Only one list of bytes has a base64 text, and only one text is it. *)
Lemma base64_unique : forall l t, base64 l t -> bytes_ok l -> forall l' , base64 l' t -> bytes_ok l' -> l = l'.
Proof.
  induction 1; intros B l' K B'; inversion K; subst; try reflexivity;
    repeat match goal with H : symbol ?v 61 |- _ => apply symbol_value in H; lia end;
    repeat match goal with H : symbol ?v ?c, H' : symbol ?w ?c |- _ => first [constr_eq v w; fail 1 | pose proof (symbol_unique _ _ _ H H'); subst w; clear H'] end;
    repeat match goal with H : bytes_ok (_ :: _) |- _ => inversion H; subst; clear H end; unfold is_byte in *;
    repeat match goal with H : Forall _ (_ :: _) |- _ => inversion H; subst; clear H end; unfold is_byte in *.
  - assert (x = x0 /\ y = y0 /\ z = z0) as (-> & -> & ->) by lia. do 3 f_equal. apply IHbase64; assumption.
  - assert (x = x0 /\ y = y0) as (-> & ->) by lia. reflexivity.
  - assert (x = x0) as -> by lia. reflexivity.
Qed.

(** Frames *)
Lemma rd_ok : forall b i, 0 <= i < zlen b -> rd b i = Ok (nth (Z.to_nat i) b 0).
Proof. intros b i H. unfold rd. replace ((0 <=? i) && (i <? zlen b)) with true; [reflexivity|]. lia. Qed.
Lemma rd_app : forall a x t, rd (a ++ x :: t) (zlen a) = Ok x.
Proof.
  intros. rewrite rd_ok. 2: { rewrite zlen_app. pose proof (zlen_nonneg _ a). pose proof (zlen_nonneg _ t). unfold zlen in *. cbn [length]. lia. }
  unfold zlen. rewrite Nat2Z.id, app_nth2 by lia. rewrite Nat.sub_diag. reflexivity.
Qed.
Lemma zlen_cons1 : forall (x : Z) a, zlen (a ++ [x]) = zlen a + 1.
Proof. intros. rewrite zlen_app. reflexivity. Qed.
Lemma copy_app : forall p a t, copy (length p) (a ++ p ++ t) (zlen a) = Ok p.
Proof.
  induction p as [|x p IH]; intros a t; [reflexivity|]. cbn [length copy app]. rewrite rd_app. cbn [rbind].
  rewrite <- zlen_cons1 with (x := x). change (a ++ x :: p ++ t) with (a ++ [x] ++ p ++ t). rewrite app_assoc, IH. reflexivity.
Qed.
Lemma be_read_app : forall w n l a t acc, (forall x, 0 <= x < 256 ^ Z.of_nat n -> w x = x) -> bytes_ok l -> 0 <= acc ->
  acc * 256 ^ Z.of_nat (length l) + 256 ^ Z.of_nat (length l) <= 256 ^ Z.of_nat n ->
  be_read w (length l) (a ++ l ++ t) (zlen a) acc = Ok (fold_left (fun a x => a * 256 + x) l acc).
Proof.
  intros w n. induction l as [|x l IH]; intros a t acc W B A H; [reflexivity|]. cbn [length be_read app fold_left]. rewrite rd_app. cbn [rbind].
  inversion B as [|? ? Bx B1]; subst. unfold is_byte in Bx.
  cbn [length] in H. rewrite Nat2Z.inj_succ in H. rewrite Z.pow_succ_r in H by lia.
  assert (P : 1 <= 256 ^ Z.of_nat (length l)) by (assert (0 < 256 ^ Z.of_nat (length l)) by (apply Z.pow_pos_nonneg; lia); lia).
  rewrite Z.shiftl_mul_pow2 by lia. change (2 ^ 8) with 256.
  rewrite (W (acc * 256)) by nia. rewrite (W (acc * 256 + x)) by nia.
  rewrite <- zlen_cons1 with (x := x). change (a ++ x :: l ++ t) with (a ++ [x] ++ l ++ t). rewrite app_assoc. apply IH; try assumption; nia.
Qed.
Lemma be_read64 : forall l a t, bytes_ok l -> (length l <= 8)%nat -> be_read wrap64 (length l) (a ++ l ++ t) (zlen a) 0 = Ok (big l).
Proof.
  intros. unfold big. apply (be_read_app wrap64 8); auto; try lia.
  - intros x Hx. unfold wrap64. apply Z.mod_small. change (256 ^ Z.of_nat 8) with 18446744073709551616 in Hx. lia.
  - assert (256 ^ Z.of_nat (length l) <= 256 ^ Z.of_nat 8) by (apply Z.pow_le_mono_r; lia). lia.
Qed.
Lemma be_read32 : forall l a t, bytes_ok l -> length l = 4%nat -> be_read wrap32 4 (a ++ l ++ t) (zlen a) 0 = Ok (big l).
Proof.
  intros l a t B L. unfold big. rewrite <- L. apply (be_read_app wrap32 4); auto; try lia.
  - intros x Hx. unfold wrap32. apply Z.mod_small. change (256 ^ Z.of_nat 4) with 4294967296 in Hx. lia.
  - rewrite L. lia.
Qed.

(** a byte taken apart *)
Definition byte_parts (b : Z) : bool :=
  (b =? (if negb (Z.land b 128 =? 0) then 128 else 0) + Z.land (Z.shiftr b 4) 7 * 16 + Z.land b 15)
  && (b =? (if negb (Z.land b 128 =? 0) then 1 else 0) * 128 + Z.land b 127).
Lemma byte_parts_all : forallb byte_parts (map Z.of_nat (seq 0 256)) = true.
Proof. vm_compute. reflexivity. Qed.
Lemma byte_split : forall b, is_byte b ->
  b = (if negb (Z.land b 128 =? 0) then 128 else 0) + Z.land (Z.shiftr b 4) 7 * 16 + Z.land b 15 /\
  b = (if negb (Z.land b 128 =? 0) then 1 else 0) * 128 + Z.land b 127 /\ 0 <= Z.land (Z.shiftr b 4) 7 <= 7 /\ 0 <= Z.land b 15 <= 15 /\ 0 <= Z.land b 127 <= 127.
Proof.
  intros b B. unfold is_byte in B. pose proof byte_parts_all as A. rewrite forallb_forall in A. specialize (A b).
  assert (I : In b (map Z.of_nat (seq 0 256))). { apply in_map_iff. exists (Z.to_nat b). split; [lia|]. apply in_seq. lia. }
  specialize (A I). unfold byte_parts in A. apply andb_true_iff in A. destruct A as [A1 A2]. apply Z.eqb_eq in A1, A2.
  split; [exact A1|]. split; [exact A2|].
  change 7 with (2 ^ 3 - 1) at 2. change 15 with (2 ^ 4 - 1) at 2. change 127 with (2 ^ 7 - 1) at 2.
  change (Z.land (Z.shiftr b 4) 7) with (Z.land (Z.shiftr b 4) (2 ^ 3 - 1)). change (Z.land b 15) with (Z.land b (2 ^ 4 - 1)). change (Z.land b 127) with (Z.land b (2 ^ 7 - 1)).
  rewrite !land_pow by lia. pose proof (Z.mod_pos_bound (Z.shiftr b 4) (2 ^ 3) ltac:(lia)). pose proof (Z.mod_pos_bound b (2 ^ 4) ltac:(lia)). pose proof (Z.mod_pos_bound b (2 ^ 7) ltac:(lia)). lia.
Qed.
Definition first_parts (t : bool * Z * Z) : bool :=
  let '(fin, rsv, op) := t in let b := (if (fin : bool) then 128 else 0) + rsv * 16 + op in
  Bool.eqb (negb (Z.land b 128 =? 0)) fin && (Z.land b 15 =? op).
Lemma first_parts_all : forallb first_parts (list_prod (list_prod [true; false] (map Z.of_nat (seq 0 8))) (map Z.of_nat (seq 0 16))) = true.
Proof. vm_compute. reflexivity. Qed.
Lemma first_join : forall (fin : bool) rsv op, 0 <= rsv <= 7 -> 0 <= op <= 15 -> let b := (if fin then 128 else 0) + rsv * 16 + op in
  negb (Z.land b 128 =? 0) = fin /\ Z.land b 15 = op.
Proof.
  intros fin rsv op R O b. pose proof first_parts_all as A. rewrite forallb_forall in A. specialize (A (fin, rsv, op)).
  assert (I : In (fin, rsv, op) (list_prod (list_prod [true; false] (map Z.of_nat (seq 0 8))) (map Z.of_nat (seq 0 16)))).
  { apply in_prod; [apply in_prod; [destruct fin; cbn; auto|]|]; apply in_map_iff; [exists (Z.to_nat rsv)|exists (Z.to_nat op)]; (split; [lia|]); apply in_seq; lia. }
  specialize (A I). unfold first_parts in A. apply andb_true_iff in A. destruct A as [A1 A2]. apply Z.eqb_eq in A2. apply Bool.eqb_prop in A1. auto.
Qed.
Definition second_parts (t : bool * Z) : bool :=
  let '(m, n) := t in let b := (if (m : bool) then 1 else 0) * 128 + n in Bool.eqb (negb (Z.land b 128 =? 0)) m && (Z.land b 127 =? n).
Lemma second_parts_all : forallb second_parts (list_prod [true; false] (map Z.of_nat (seq 0 128))) = true.
Proof. vm_compute. reflexivity. Qed.
Lemma second_join : forall (m : bool) n, 0 <= n <= 127 -> let b := (if m then 1 else 0) * 128 + n in negb (Z.land b 128 =? 0) = m /\ Z.land b 127 = n.
Proof.
  intros m n N b. pose proof second_parts_all as A. rewrite forallb_forall in A. specialize (A (m, n)).
  assert (I : In (m, n) (list_prod [true; false] (map Z.of_nat (seq 0 128)))).
  { apply in_prod; [destruct m; cbn; auto|]; apply in_map_iff; exists (Z.to_nat n); (split; [lia|]); apply in_seq; lia. }
  specialize (A I). unfold second_parts in A. apply andb_true_iff in A. destruct A as [A1 A2]. apply Z.eqb_eq in A2. apply Bool.eqb_prop in A1. auto.
Qed.

(** the masking key *)
Lemma key_byte : forall k, bytes_ok k -> length k = 4%nat -> forall m, (m < 4)%nat -> Z.land (Z.shiftr (big k) (24 - 8 * Z.of_nat m)) 255 = nth m k 0.
Proof.
  intros k B L m M. destruct k as [|a [|b [|c [|d [|e k]]]]]; try (cbn in L; lia). repeat match goal with H : bytes_ok (_ :: _) |- _ => inversion H; subst; clear H | H : Forall _ (_ :: _) |- _ => inversion H; subst; clear H end.
  unfold is_byte in *. change 255 with (2 ^ 8 - 1). rewrite land_pow by lia. rewrite Z.shiftr_div_pow2 by lia. unfold big. cbn [fold_left].
  destruct m as [|[|[|[|m]]]]; [| | | |lia]; cbn [nth].
  - change (2 ^ (24 - 8 * Z.of_nat 0)) with 16777216. change (2 ^ 8) with 256. Z.div_mod_to_equations. lia.
  - change (2 ^ (24 - 8 * Z.of_nat 1)) with 65536. change (2 ^ 8) with 256. Z.div_mod_to_equations. lia.
  - change (2 ^ (24 - 8 * Z.of_nat 2)) with 256. change (2 ^ 8) with 256. Z.div_mod_to_equations. lia.
  - change (2 ^ (24 - 8 * Z.of_nat 3)) with 1. change (2 ^ 8) with 256. Z.div_mod_to_equations. lia.
Qed.
Lemma unmask_app : forall k, bytes_ok k -> length k = 4%nat -> forall d a t m, (m < 4)%nat ->
  exists r, unmask (length d) (a ++ d ++ t) (zlen a) (big k) (24 - 8 * Z.of_nat m) = Ok r /\ length r = length d /\
    forall i, (i < length d)%nat -> nth i r 0 = Z.lxor (nth i d 0) (nth ((i + m) mod 4) k 0).
Proof.
  intros k B L. induction d as [|x d IH]; intros a t m M; [exists []; split; [reflexivity|split; [reflexivity|]]; cbn; intros; lia|].
  cbn [length unmask app]. rewrite rd_app. cbn [rbind].
  rewrite <- zlen_cons1 with (x := x). change (a ++ x :: d ++ t) with (a ++ [x] ++ d ++ t). rewrite app_assoc.
  set (m' := if Nat.eqb m 3 then 0%nat else S m).
  assert (M' : (m' < 4)%nat) by (unfold m'; destruct (Nat.eqb_spec m 3); lia).
  replace (if 24 - 8 * Z.of_nat m - 8 <? 0 then 24 else 24 - 8 * Z.of_nat m - 8) with (24 - 8 * Z.of_nat m').
  2: { unfold m'. destruct (Nat.eqb_spec m 3); destruct (Z.ltb_spec (24 - 8 * Z.of_nat m - 8) 0); lia. }
  destruct (IH (a ++ [x]) t m' M') as (r & E & Lr & N). rewrite E. cbn [rbind]. rewrite key_byte by assumption.
  exists (Z.lxor x (nth m k 0) :: r). split; [reflexivity|]. split; [cbn [length]; lia|]. intros [|i] I.
  - cbn [nth Nat.add]. rewrite Nat.mod_small by lia. reflexivity.
  - cbn [nth]. rewrite N by lia. f_equal. f_equal.
    unfold m'. destruct (Nat.eqb_spec m 3) as [->|Q].
    + replace (S i + 3)%nat with (i + 0 + 1 * 4)%nat by lia. rewrite Nat.mod_add by lia. reflexivity.
    + f_equal. lia.
Qed.
Lemma lxor_back : forall a b, Z.lxor (Z.lxor a b) b = a.
Proof. intros. rewrite Z.lxor_assoc, Z.lxor_nilpotent, Z.lxor_0_r. reflexivity. Qed.
Lemma unmask_masked : forall k p d a t, bytes_ok k -> length k = 4%nat -> length d = length p ->
  (forall i, (i < length d)%nat -> nth i d 0 = Z.lxor (nth i p 0) (nth (i mod 4) k 0)) ->
  unmask (length p) (a ++ d ++ t) (zlen a) (big k) 24 = Ok p.
Proof.
  intros k p d a t B L Ld N. destruct (unmask_app k B L d a t 0 ltac:(lia)) as (r & E & Lr & Nr). rewrite <- Ld. change (24 - 8 * Z.of_nat 0) with 24 in E. rewrite E. f_equal.
  apply nth_ext with (d := 0) (d' := 0); [lia|]. intros i I. rewrite Nr by lia. rewrite N by lia. rewrite Nat.add_0_r. apply lxor_back.
Qed.
