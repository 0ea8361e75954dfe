From Verif Require Import Base BaseFacts VLU VLUSpec.
Ltac Zify.zify_post_hook ::= Z.div_mod_to_equations.

(** ** Facts about the specification *)

Lemma groups_value_from_app : forall a b acc,
  groups_value_from acc (a ++ b) = groups_value_from (groups_value_from acc a) b.
Proof. induction a; intros; cbn [app groups_value_from]; auto. Qed.

Lemma groups_value_from_lin : forall l acc,
  groups_value_from acc l = acc * 128 ^ zlen l + groups_value_from 0 l.
Proof.
  induction l as [|b l IH]; intros acc; cbn [groups_value_from].
  - rewrite zlen_nil. lia.
  - rewrite IH, (IH (0 * 128 + b mod 128)), zlen_cons.
    rewrite Z.pow_add_r by (pose proof (zlen_nonneg _ l); lia). lia.
Qed.

Lemma groups_value_from_ge : forall l acc, 0 <= acc -> acc <= groups_value_from acc l.
Proof.
  induction l as [|b l IH]; intros acc H; cbn [groups_value_from]; [lia|].
  assert (Hm := Z.mod_pos_bound b 128 ltac:(lia)).
  specialize (IH (acc * 128 + b mod 128) ltac:(lia)). lia.
Qed.

Lemma groups_value_nonneg : forall l, 0 <= groups_value l.
Proof. intros. apply groups_value_from_ge. lia. Qed.

Lemma groups_value_bound : forall l, groups_value l < 128 ^ zlen l.
Proof.
  unfold groups_value.
  induction l as [|b l IH]; cbn [groups_value_from].
  - rewrite zlen_nil. lia.
  - rewrite groups_value_from_lin, zlen_cons.
    rewrite Z.pow_add_r by (pose proof (zlen_nonneg _ l); lia).
    assert (Hm := Z.mod_pos_bound b 128 ltac:(lia)).
    assert (0 < 128 ^ zlen l) by (apply Z.pow_pos_nonneg; [lia|apply zlen_nonneg]).
    nia.
Qed.

Lemma complete_vlu_bytes : forall l, complete_vlu l -> bytes_ok l.
Proof.
  induction 1; constructor; auto; unfold is_byte in *; lia.
Qed.

Lemma complete_vlu_length : forall l, complete_vlu l -> (1 <= length l)%nat.
Proof. destruct 1; cbn [length]; lia. Qed.

Lemma split_vlu : forall l, bytes_ok l ->
  unterminated l \/ exists pre rest, l = pre ++ rest /\ complete_vlu pre.
Proof.
  induction l as [|b l IH]; intros H; [left; constructor|].
  inversion H as [|? ? Hb Hl]; subst. unfold is_byte in Hb.
  destruct (Z_lt_dec b 128).
  - right. exists [b], l. split; [reflexivity|]. constructor. lia.
  - destruct (IH Hl) as [Hu|(pre & rest & -> & Hc)].
    + left. constructor; [lia|exact Hu].
    + right. exists (b :: pre), rest. split; [reflexivity|]. constructor; [lia|exact Hc].
Qed.

(** ** encode *)

(** What the loop produces, as a function of the value: groups of [v], continuation bit on all but the last. *)
Lemma encode_loop_spec : forall room v rv acc,
  0 <= v < 128 ^ Z.of_nat room -> (1 <= room)%nat ->
  exists l, encode_loop room v rv acc = Ok (l ++ acc)
    /\ groups_value l = v
    /\ (1 <= length l <= room)%nat
    /\ (v < 128 ^ zlen l)
    /\ (length l = 1%nat \/ 128 ^ (zlen l - 1) <= v)
    /\ (rv = 0%nat -> complete_vlu l)
    /\ (rv <> 0%nat -> unterminated l).
Proof.
  induction room as [|room IH]; intros v rv acc Hv Hr; [lia|].
  cbn [encode_loop]. rewrite land_127, shiftr_7.
  set (b := Z.lor (v mod 128) (if Nat.eqb rv 0 then 0 else 128)).
  assert (Hmod : 0 <= v mod 128 < 128) by lia.
  assert (Hb : b = v mod 128 + (if Nat.eqb rv 0 then 0 else 128)).
  { unfold b. destruct (Nat.eqb rv 0); [rewrite Z.lor_0_r; lia|apply lor_128; lia]. }
  assert (Hbm : b mod 128 = v mod 128).
  { rewrite Hb. destruct (Nat.eqb rv 0); lia. }
  destruct (Z.eqb_spec (v / 128) 0) as [E|E].
  - exists [b]. repeat split.
    + unfold groups_value; cbn [groups_value_from]. rewrite Hbm. lia.
    + cbn [length]; lia.
    + cbn [length]; lia.
    + change (zlen [b]) with 1. lia.
    + left; reflexivity.
    + intros ->. constructor. rewrite Hb. cbn [Nat.eqb]. lia.
    + intros Hn. constructor; [|constructor]. rewrite Hb.
      destruct (Nat.eqb_spec rv 0); lia.
  - assert (Hroom : (1 <= room)%nat).
    { destruct room; [|lia]. change (128 ^ Z.of_nat 1) with 128 in Hv. lia. }
    assert (Hv' : 0 <= v / 128 < 128 ^ Z.of_nat room).
    { replace (Z.of_nat (S room)) with (1 + Z.of_nat room) in Hv by lia.
      rewrite Z.pow_add_r in Hv by lia. change (128 ^ 1) with 128 in Hv. lia. }
    destruct (IH (v / 128) (S rv) (b :: acc) Hv' Hroom) as (l & He & Hg & Hlen & Hlt & Hge & _ & Hun).
    exists (l ++ [b]). rewrite He, <- app_assoc. cbn [app].
    assert (Hz : zlen (l ++ [b]) = 1 + zlen l) by (rewrite zlen_app; change (zlen [b]) with 1; lia).
    assert (Hzp : 1 <= zlen l) by (unfold zlen; lia).
    assert (Hpow : 128 ^ (1 + zlen l) = 128 * 128 ^ zlen l) by (rewrite Z.pow_add_r by lia; reflexivity).
    split; [reflexivity|]. repeat split.
    + unfold groups_value in *. rewrite groups_value_from_app, Hg. cbn [groups_value_from]. rewrite Hbm. lia.
    + rewrite app_length; cbn [length]; lia.
    + rewrite app_length; cbn [length]; lia.
    + rewrite Hz, Hpow. lia.
    + right. rewrite Hz. replace (1 + zlen l - 1) with (1 + (zlen l - 1)) by lia.
      rewrite Z.pow_add_r by lia. change (128 ^ 1) with 128.
      destruct Hge as [Hone|Hge]; [|lia].
      assert (zlen l = 1) by (unfold zlen; lia). replace (zlen l - 1) with 0 by lia. change (128 ^ 0) with 1. lia.
    + intros ->. specialize (Hun ltac:(lia)).
      assert (Hlast : complete_vlu [b]) by (constructor; rewrite Hb; cbn [Nat.eqb]; lia).
      clear - Hun Hlast. induction Hun; cbn [app]; [exact Hlast|constructor; assumption].
    + intros Hn. specialize (Hun ltac:(lia)). apply Forall_app. split; [exact Hun|].
      constructor; [|constructor]. rewrite Hb. destruct (Nat.eqb_spec rv 0); lia.
Qed.

Lemma vlu_encode_raw_ok : forall v, is_u64 v -> vlu_encode_raw v = Ok (vlu_encode v).
Proof.
  intros v Hv. unfold vlu_encode, vlu_encode_raw.
  destruct (encode_loop_spec MAX_VLU_SIZE v 0 []) as (l & He & _).
  - unfold is_u64, U64MAX in Hv. change (128 ^ Z.of_nat MAX_VLU_SIZE) with 1180591620717411303424. lia.
  - unfold MAX_VLU_SIZE; lia.
  - rewrite He. reflexivity.
Qed.

Lemma vlu_encode_spec : forall v, is_u64 v ->
  complete_vlu (vlu_encode v) /\ groups_value (vlu_encode v) = v
  /\ (1 <= length (vlu_encode v) <= 10)%nat
  /\ (length (vlu_encode v) = 1%nat \/ 128 ^ (zlen (vlu_encode v) - 1) <= v)
  /\ v < 128 ^ zlen (vlu_encode v).
Proof.
  intros v Hv. unfold vlu_encode, vlu_encode_raw.
  destruct (encode_loop_spec MAX_VLU_SIZE v 0 []) as (l & He & Hg & Hlen & Hlt & Hge & Hc & _).
  - unfold is_u64, U64MAX in Hv. change (128 ^ Z.of_nat MAX_VLU_SIZE) with 1180591620717411303424. lia.
  - unfold MAX_VLU_SIZE; lia.
  - rewrite He, app_nil_r. unfold MAX_VLU_SIZE in Hlen. auto.
Qed.

Lemma vlu_encode_bytes : forall v, is_u64 v -> bytes_ok (vlu_encode v).
Proof. intros v Hv. apply complete_vlu_bytes, vlu_encode_spec, Hv. Qed.

(** ** parse *)

Lemma land_127_byte : forall b, 0 <= b -> Z.land b 127 = b mod 128.
Proof. intros; apply land_127. Qed.

(** State of the loop after reading the groups so far: value is the wrapped true value and [saturated] says whether the
    true value is out of range. *)
Definition loop_inv (value : Z) (saturated : bool) (true_value : Z) : Prop :=
  value = true_value mod 18446744073709551616 /\ 0 <= true_value /\
  (saturated = true <-> 18446744073709551616 <= true_value).

Lemma loop_inv_step : forall value sat tv b, loop_inv value sat tv ->
  loop_inv (wrap64 (wrap64 (Z.shiftl value 7) + Z.land b 127))
           (if value >? U64MAX / 128 then true else sat) (tv * 128 + b mod 128).
Proof.
  intros value sat tv b (Hv & Htv & Hs). rewrite shiftl_7, land_127.
  assert (Hm := Z.mod_pos_bound b 128 ltac:(lia)). unfold wrap64. split; [|split].
  - subst value. rewrite Z.add_mod_idemp_l by lia.
    rewrite <- (Z.add_mod_idemp_l (tv mod _ * 128)) by lia. rewrite Z.mul_mod_idemp_l by lia.
    rewrite Z.add_mod_idemp_l by lia. reflexivity.
  - lia.
  - change (U64MAX / 128) with 144115188075855871.
    destruct (value >? 144115188075855871) eqn:E; split; intros H; try reflexivity.
    + lia.
    + apply Hs in H. lia.
    + apply Hs. subst value. lia.
Qed.

Lemma vlu_parse_loop_spec : forall (suffix : list Z) fuel m src limit value rv sat tv,
  (forall i, (i < length suffix)%nat -> m (src + i)%nat = nth_error suffix i) ->
  limit = (src + length suffix)%nat ->
  (length suffix < fuel)%nat -> bytes_ok suffix -> loop_inv value sat tv ->
  (unterminated suffix /\ exists v s, vlu_parse_loop fuel m src limit value rv sat = Ok (limit, v, (rv + length suffix)%nat, s))
  \/ (exists pre rest v s, suffix = pre ++ rest /\ complete_vlu pre /\
        vlu_parse_loop fuel m src limit value rv sat = Ok ((src + length pre - 1)%nat, v, (rv + length pre)%nat, s)
        /\ loop_inv v s (groups_value_from tv pre)).
Proof.
  induction suffix as [|b suffix IH]; intros fuel m src limit value rv sat tv Hm Hlim Hf Hok Hinv.
  - left. split; [constructor|]. destruct fuel; [cbn [length] in Hf; lia|]. cbn [vlu_parse_loop length] in *.
    destruct (Nat.ltb_spec src limit); [lia|]. exists value, sat. tup.
  - destruct fuel as [|fuel]; [lia|]. cbn [vlu_parse_loop]. cbn [length] in *.
    destruct (Nat.ltb_spec src limit); [|lia].
    pose proof (Hm 0%nat ltac:(lia)) as Hm0. rewrite Nat.add_0_r in Hm0. cbn [nth_error] in Hm0. rewrite Hm0.
    inversion Hok as [|? ? Hb Hl]; subst.
    rewrite byte_land_128 by assumption. unfold is_byte in Hb.
    pose proof (loop_inv_step value sat tv b Hinv) as Hstep.
    destruct (Z.ltb_spec b 128) as [Hlt|Hge].
    + right. exists [b], suffix. eexists _, _. split; [reflexivity|]. split; [constructor; lia|]. split.
      * cbn [length]. replace (src + 1 - 1)%nat with src by lia. replace (rv + 1)%nat with (S rv) by lia. reflexivity.
      * cbn [groups_value_from]. exact Hstep.
    + assert (Hm' : forall i, (i < length suffix)%nat -> m (S src + i)%nat = nth_error suffix i).
      { intros i Hi. specialize (Hm (S i) ltac:(lia)). cbn [nth_error] in Hm.
        rewrite <- Hm. f_equal. lia. }
      destruct (IH fuel m (S src) (src + S (length suffix))%nat _ (S rv) _ _ Hm' ltac:(lia) ltac:(lia) Hl Hstep)
        as [(Hu & v & s & He)|(pre & rest & v & s & -> & Hc & He & Hi)].
      * left. split; [constructor; [lia|exact Hu]|]. exists v, s. rewrite He. tup.
      * right. exists (b :: pre), rest, v, s. split; [reflexivity|]. split; [constructor; [lia|exact Hc]|]. split.
        -- rewrite He. pose proof (complete_vlu_length _ Hc). cbn [length]. tup.
        -- cbn [groups_value_from]. exact Hi.
Qed.

Lemma vlu_parse_mem_spec : forall m src limit (l : list Z) saturate,
  (forall i, (i < length l)%nat -> m (src + i)%nat = nth_error l i) ->
  limit = (src + length l)%nat -> bytes_ok l ->
  (unterminated l /\ vlu_parse_mem m src limit saturate = Rej)
  \/ (exists pre rest, l = pre ++ rest /\ complete_vlu pre /\
       vlu_parse_mem m src limit saturate =
         Ok (if saturate then Z.min (groups_value pre) U64MAX else groups_value pre mod 18446744073709551616, length pre)).
Proof.
  intros m src limit l saturate Hm Hlim Hok. unfold vlu_parse_mem.
  assert (H0 : loop_inv 0 false 0) by (split; [reflexivity|]; split; [lia|]; split; [discriminate|lia]).
  destruct (vlu_parse_loop_spec l (S (limit - src)) m src limit 0 0 false 0 Hm Hlim ltac:(lia) Hok H0)
    as [(Hu & v & s & He)|(pre & rest & v & s & -> & Hc & He & Hi)]; rewrite He.
  - left. split; [exact Hu|]. rewrite Nat.leb_refl. reflexivity.
  - right. exists pre, rest. split; [reflexivity|]. split; [exact Hc|].
    pose proof (complete_vlu_length _ Hc). rewrite app_length in Hlim.
    destruct (Nat.leb_spec limit (src + length pre - 1)); [lia|].
    destruct Hi as (Hv & Hnn & Hs). fold (groups_value pre) in *. f_equal. f_equal.
    unfold U64MAX. destruct s, saturate; cbn [andb].
    + pose proof (proj1 Hs eq_refl). lia.
    + exact Hv.
    + assert (~ 18446744073709551616 <= groups_value pre) by (intros C; apply Hs in C; discriminate).
      rewrite Hv, Z.mod_small by lia. lia.
    + exact Hv.
Qed.

Lemma vlu_parse_spec : forall l, bytes_ok l ->
  (unterminated l /\ vlu_parse l = Rej)
  \/ (exists pre rest, l = pre ++ rest /\ complete_vlu pre /\
       vlu_parse l = Ok (Z.min (groups_value pre) U64MAX, length pre)).
Proof.
  intros l Hok. exact (vlu_parse_mem_spec (mem_of l) 0 (length l) l true (fun i _ => eq_refl) eq_refl Hok).
Qed.

Lemma complete_vlu_not_unterminated : forall pre rest, complete_vlu pre -> ~ unterminated (pre ++ rest).
Proof.
  induction 1; intros Hu; inversion Hu; subst; [lia|auto].
Qed.

Lemma complete_vlu_prefix_unique : forall a, complete_vlu a -> forall b ra rb, complete_vlu b ->
  a ++ ra = b ++ rb -> a = b /\ ra = rb.
Proof.
  induction 1 as [x Hx|x l Hx Hl IH]; intros b ra rb Hb Heq; destruct Hb as [y Hy|y l' Hy Hl'];
    cbn [app] in Heq; inversion Heq; subst; try lia.
  - auto.
  - destruct (IH _ _ _ Hl' H1) as [-> ->]. auto.
Qed.

Lemma vlu_parse_complete : forall pre rest, complete_vlu pre -> bytes_ok rest ->
  vlu_parse (pre ++ rest) = Ok (Z.min (groups_value pre) U64MAX, length pre).
Proof.
  intros pre rest Hc Hr.
  destruct (vlu_parse_spec (pre ++ rest)) as [(Hu & _)|(p & r & Heq & Hc' & He)].
  - apply bytes_ok_app; split; [apply complete_vlu_bytes|]; assumption.
  - exfalso. eapply complete_vlu_not_unterminated; eauto.
  - destruct (complete_vlu_prefix_unique _ Hc _ _ _ Hc' Heq) as [-> ->]. exact He.
Qed.

Lemma vlu_roundtrip : forall v rest, is_u64 v -> bytes_ok rest ->
  vlu_parse (vlu_encode v ++ rest) = Ok (v, length (vlu_encode v)).
Proof.
  intros v rest Hv Hr. destruct (vlu_encode_spec v Hv) as (Hc & Hg & _).
  rewrite vlu_parse_complete by assumption. rewrite Hg. unfold is_u64, U64MAX in *. tup.
Qed.

Lemma vlu_encode_minimal : forall v l n, is_u64 v -> v < U64MAX -> bytes_ok l ->
  vlu_parse l = Ok (v, n) -> (length (vlu_encode v) <= n)%nat.
Proof.
  intros v l n Hv Hlt Hok Hp.
  destruct (vlu_parse_spec l Hok) as [(_ & He)|(p & r & Heq & Hc & He)]; rewrite He in Hp; [discriminate|].
  injection Hp as Hv' Hn. pose proof (groups_value_bound p) as Hb.
  destruct (vlu_encode_spec v Hv) as (_ & _ & Hlen & Hge & _).
  pose proof (complete_vlu_length _ Hc).
  destruct Hge as [H1|Hge]; [lia|].
  assert (Hlt2 : 128 ^ (zlen (vlu_encode v) - 1) < 128 ^ zlen p) by (unfold U64MAX in *; lia).
  apply Z.pow_lt_mono_r_iff in Hlt2; [unfold zlen in Hlt2; lia|lia|apply zlen_nonneg].
Qed.

(** ** fields and options *)

Lemma vlu_parse_field_spec : forall l, bytes_ok l ->
  match vlu_parse_field l with
  | Ok (payload, n) => exists L rest, l = L ++ payload ++ rest /\ complete_vlu L
      /\ Z.min (groups_value L) U64MAX = zlen payload /\ n = (length L + length payload)%nat
  | Rej => unterminated l \/ exists L rest, l = L ++ rest /\ complete_vlu L /\ zlen rest < Z.min (groups_value L) U64MAX
  | UB => False
  end.
Proof.
  intros l Hok. unfold vlu_parse_field.
  destruct (vlu_parse_spec l Hok) as [(Hu & He)|(L & rest & -> & Hc & He)]; rewrite He; [left; exact Hu|].
  rewrite skipn_app_exact. pose proof (groups_value_nonneg L).
  destruct (Z.min (groups_value L) U64MAX >? zlen rest) eqn:E1.
  - right. exists L, rest. split; [reflexivity|]. split; [exact Hc|lia].
  - destruct (zlen rest <? Z.min (groups_value L) U64MAX) eqn:E2; [lia|].
    set (n := Z.min (groups_value L) U64MAX) in *.
    assert (Hn : 0 <= n <= zlen rest) by (unfold U64MAX in *; lia).
    assert (Hl : length (firstn (Z.to_nat n) rest) = Z.to_nat n).
    { rewrite firstn_length. unfold zlen in Hn. lia. }
    exists L, (skipn (Z.to_nat n) rest). rewrite firstn_skipn. split; [reflexivity|]. split; [exact Hc|].
    rewrite Hl. split; [|reflexivity]. unfold zlen. rewrite Hl. lia.
Qed.

Lemma vlu_parse_field_complete : forall L payload rest,
  complete_vlu L -> groups_value L = zlen payload -> zlen payload <= U64MAX -> bytes_ok payload -> bytes_ok rest ->
  vlu_parse_field (L ++ payload ++ rest) = Ok (payload, (length L + length payload)%nat).
Proof.
  intros L payload rest Hc Hg Hmax Hp Hr. unfold vlu_parse_field.
  rewrite vlu_parse_complete by (try apply bytes_ok_app; auto).
  rewrite skipn_app_exact, Hg, zlen_app. pose proof (zlen_nonneg _ rest).
  rewrite Z.min_l by assumption.
  destruct (zlen payload >? zlen payload + zlen rest) eqn:E1; [lia|].
  destruct (zlen payload + zlen rest <? zlen payload) eqn:E2; [lia|].
  replace (Z.to_nat (zlen payload)) with (length payload) by (unfold zlen; lia).
  rewrite firstn_app_exact. reflexivity.
Qed.

Lemma option_parse_wire : forall ty v w rest,
  option_wire ty v w -> is_u64 ty -> zlen w <= U64MAX -> bytes_ok v -> bytes_ok rest ->
  option_parse (w ++ rest) = Ok (ty, Some v, length w).
Proof.
  intros ty v w rest Hw Hty Hmax Hv Hr. destruct Hw as [ty v L T HL HT HgL HgT].
  unfold option_parse. rewrite <- app_assoc, <- app_assoc.
  replace (L ++ T ++ v ++ rest) with (L ++ (T ++ v) ++ rest) by (rewrite <- app_assoc; reflexivity).
  pose proof (complete_vlu_bytes _ HT) as HTb.
  rewrite !zlen_app in Hmax. pose proof (zlen_nonneg _ L). pose proof (zlen_nonneg _ v). pose proof (zlen_nonneg _ T).
  rewrite vlu_parse_field_complete; auto; try (rewrite zlen_app; lia); [|apply bytes_ok_app; auto].
  pose proof (complete_vlu_length _ HT).
  rewrite app_length. destruct (Nat.eqb_spec (length T + length v) 0); [lia|].
  rewrite vlu_parse_complete by assumption. rewrite skipn_app_exact, HgT.
  unfold is_u64 in Hty. rewrite Z.min_l by lia. rewrite !app_length. reflexivity.
Qed.

Lemma option_append_wire : forall ty v dst, is_u64 ty -> zlen v <= U64MAX - 10 ->
  exists w, option_append ty v dst = dst ++ w /\ option_wire ty v w /\ (zlen w <= zlen v + 20).
Proof.
  intros ty v dst Hty Hlen. unfold option_append.
  destruct (vlu_encode_spec ty Hty) as (HcT & HgT & HlT & _).
  assert (Hu : is_u64 (zlen (vlu_encode ty) + zlen v)).
  { unfold is_u64. pose proof (zlen_nonneg _ v). unfold zlen at 1. unfold zlen at 2. unfold zlen in *. lia. }
  destruct (vlu_encode_spec _ Hu) as (HcL & HgL & HlL & _).
  eexists. rewrite <- !app_assoc. split; [reflexivity|]. split; [constructor; auto|].
  rewrite !zlen_app. unfold zlen in *. lia.
Qed.

Lemma vlu_encode_0 : vlu_encode 0 = [0].
Proof. reflexivity. Qed.

Lemma option_parse_end : forall rest, bytes_ok rest -> option_parse (vlu_encode 0 ++ rest) = Ok (0, None, 1%nat).
Proof.
  intros rest Hr. unfold option_parse. rewrite vlu_encode_0.
  change ([0] ++ rest) with ([0] ++ [] ++ rest).
  rewrite vlu_parse_field_complete; auto; try (constructor); try lia; try reflexivity; try discriminate.
Qed.

Lemma option_parse_bounds : forall l ty v n, bytes_ok l -> option_parse l = Ok (ty, v, n) ->
  (1 <= n <= length l)%nat /\ is_u64 ty /\
  exists L p rest, l = L ++ p ++ rest /\ complete_vlu L /\ Z.min (groups_value L) U64MAX = zlen p
     /\ n = (length L + length p)%nat
     /\ match v with
        | None => p = [] /\ ty = 0
        | Some val => exists T, complete_vlu T /\ p = T ++ val /\ ty = Z.min (groups_value T) U64MAX
        end.
Proof.
  intros l ty v n Hok H. unfold option_parse in H. pose proof (vlu_parse_field_spec l Hok) as Hf.
  destruct (vlu_parse_field l) as [[p c]| |]; [|discriminate|discriminate].
  destruct Hf as (L & rest & Hl & Hc & Hg & Hn).
  assert (Hpok : bytes_ok p).
  { subst l. apply bytes_ok_app in Hok. destruct Hok as [_ Hok]. apply bytes_ok_app in Hok. tauto. }
  pose proof (complete_vlu_length _ Hc).
  assert (Hlen : length l = (length L + (length p + length rest))%nat) by (subst l; rewrite !app_length; reflexivity).
  destruct (Nat.eqb_spec (length p) 0) as [Ep|Ep].
  - injection H as <- <- <-. split; [lia|]. split; [unfold is_u64, U64MAX; lia|].
    exists L, p, rest. repeat split; auto. apply length_zero_iff_nil, Ep.
  - destruct (vlu_parse_spec p Hpok) as [(_ & He)|(T & val & Hp & HcT & He)]; rewrite He in H; [discriminate|].
    injection H as <- <- <-. split; [lia|].
    pose proof (groups_value_nonneg T). split; [unfold is_u64, U64MAX; lia|].
    exists L, p, rest. repeat split; auto. exists T. repeat split; auto.
    subst p. rewrite skipn_app_exact. reflexivity.
Qed.

Lemma option_parse_no_UB : forall l, bytes_ok l -> option_parse l <> UB.
Proof.
  intros l Hok H. unfold option_parse in H. pose proof (vlu_parse_field_spec l Hok) as Hf.
  destruct (vlu_parse_field l) as [[p c]| |]; [|discriminate|contradiction].
  destruct Hf as (L & rest & -> & _).
  destruct (Nat.eqb (length p) 0); [discriminate|].
  apply bytes_ok_app in Hok. destruct Hok as [_ Hok]. apply bytes_ok_app in Hok.
  destruct (vlu_parse_spec p ltac:(tauto)) as [(_ & He)|(T & val & Hp & HcT & He)]; rewrite He in H; discriminate.
Qed.

Lemma options_append_app : forall os dst, Forall option_ok os ->
  options_append os dst = dst ++ options_append os [].
Proof.
  induction os as [|[ty v] os IH]; intros dst H; cbn [options_append]; [rewrite app_nil_r; reflexivity|].
  inversion H as [|? ? Ho Hos]; subst. destruct Ho as (Ht & Hb & Hl). cbn [fst snd] in *.
  rewrite IH by assumption. rewrite (IH (option_append ty v [])) by assumption.
  destruct (option_append_wire ty v dst) as (w & Hw & _); [auto|lia|].
  unfold option_append in *. rewrite <- !app_assoc. reflexivity.
Qed.

Lemma option_bytes_ok : forall ty v dst, is_u64 ty -> bytes_ok v -> zlen v <= U64MAX - 20 -> bytes_ok dst ->
  bytes_ok (option_append ty v dst).
Proof.
  intros ty v dst Ht Hv Hl Hd. unfold option_append.
  destruct (vlu_encode_spec ty Ht) as (_ & _ & HlT & _).
  assert (is_u64 (zlen (vlu_encode ty) + zlen v)).
  { unfold is_u64. pose proof (zlen_nonneg _ v). unfold zlen in *. lia. }
  repeat (apply bytes_ok_app; split); auto using vlu_encode_bytes.
Qed.

Lemma options_append_bytes_ok : forall os dst, Forall option_ok os -> bytes_ok dst -> bytes_ok (options_append os dst).
Proof.
  induction os as [|[ty v] os IH]; intros dst H Hd; cbn [options_append]; auto.
  inversion H as [|? ? Ho Hos]; subst. destruct Ho as (Ht & Hb & Hl). cbn [fst snd] in *.
  apply IH; auto. apply option_bytes_ok; auto.
Qed.

Lemma option_list_parse_roundtrip : forall os fuel rest tail,
  Forall option_ok os -> bytes_ok tail -> bytes_ok rest ->
  (tail = [] /\ rest = [] \/ tail = vlu_encode 0 ++ rest) ->
  (length (options_append os [] ++ tail) < fuel)%nat ->
  option_list_parse fuel (options_append os [] ++ tail) = Ok (os, rest).
Proof.
  induction os as [|[ty v] os IH]; intros fuel rest tail Hos Ht Hr Htail Hf; cbn [options_append].
  - cbn [app] in *. destruct fuel as [|fuel]; [lia|].
    destruct Htail as [[-> ->]| ->]; [reflexivity|].
    cbn [option_list_parse]. rewrite option_parse_end by assumption. rewrite vlu_encode_0. reflexivity.
  - inversion Hos as [|? ? Ho Hos']; subst. pose proof Ho as (Hty & Hb & Hl). cbn [fst snd] in *.
    cbn [options_append] in *.
    destruct (option_append_wire ty v []) as (w & Hw & Hwire & Hwl); [auto|lia|]. cbn [app] in Hw.
    rewrite options_append_app in Hf |- * by assumption. rewrite Hw in Hf |- *. rewrite <- app_assoc in Hf |- *.
    destruct fuel as [|fuel]; [lia|]. cbn [option_list_parse].
    pose proof (option_parse_wire ty v w (options_append os [] ++ tail) Hwire Hty ltac:(lia) Hb) as Hp.
    specialize (Hp ltac:(apply bytes_ok_app; split; [apply options_append_bytes_ok; [assumption|constructor]|assumption])).
    assert (Hwne : (1 <= length w)%nat).
    { destruct Hwire as [? ? L T HL HT ? ?]. rewrite app_length. pose proof (complete_vlu_length _ HL). lia. }
    destruct (w ++ options_append os [] ++ tail) as [|x xs] eqn:Ew.
    { apply (f_equal (@length Z)) in Ew. rewrite app_length in Ew. cbn [length] in Ew. lia. }
    rewrite Hp, <- Ew. rewrite skipn_app_exact.
    rewrite (IH fuel rest tail); auto.
    rewrite <- Ew in Hf. rewrite app_length in Hf. lia.
Qed.

Lemma options_roundtrip : forall os dst_tail rest,
  Forall option_ok os -> bytes_ok rest ->
  (dst_tail = [] /\ rest = [] \/ dst_tail = vlu_encode 0 ++ rest) ->
  options_parse (options_append os [] ++ dst_tail) = Ok (os, rest).
Proof.
  intros os tail rest Hos Hr Ht. unfold options_parse. apply option_list_parse_roundtrip; [assumption| |assumption|assumption|lia]. 
  destruct Ht as [[-> _]| ->]; [constructor|].
  apply bytes_ok_app. split; [apply vlu_encode_bytes; unfold is_u64, U64MAX; lia|exact Hr].
Qed.

Lemma option_list_parse_no_UB : forall fuel l, bytes_ok l -> (length l < fuel)%nat -> option_list_parse fuel l <> UB.
Proof.
  induction fuel as [|fuel IH]; intros l Hok Hf; [lia|].
  cbn [option_list_parse]. destruct l as [|x xs]; [discriminate|].
  destruct (option_parse (x :: xs)) as [[[ty [v|]] n]| |] eqn:E; try discriminate.
  - pose proof (option_parse_bounds _ _ _ _ Hok E) as (Hn & _).
    specialize (IH (skipn n (x :: xs))).
    destruct (option_list_parse fuel (skipn n (x :: xs))) as [[os rest]| |]; try discriminate.
    intros _. apply IH; [apply bytes_ok_skipn, Hok|rewrite skipn_length; lia|reflexivity].
  - intros _. exact (option_parse_no_UB _ Hok E).
Qed.

Lemma option_okb_ok : forall os, forallb option_okb os = true -> Forall option_ok os.
Proof.
  intros os H. apply Forall_forall. intros o Ho. rewrite forallb_forall in H. specialize (H o Ho).
  unfold option_okb in H. rewrite !andb_true_iff in H. destruct H as [[[H1 H2] H3] H4].
  split; [unfold is_u64; lia|]. split; [apply bytes_okb_ok, H3|lia].
Qed.
