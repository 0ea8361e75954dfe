From Verif Require Import Base BaseFacts VLU VLUSpec VLUProofs Packet PacketSpec.
Ltac Zify.zify_post_hook ::= Z.div_mod_to_equations.

(** ** stores *)
Fixpoint lset (l : list Z) (i : nat) (b : Z) : list Z :=
  match l, i with [], _ => [] | _ :: r, O => b :: r | x :: r, S i' => x :: lset r i' b end.

Lemma store_ok : forall l i b, (i < length l)%nat -> store l i b = Ok (lset l i b).
Proof.
  induction l as [|x l IH]; intros [|i] b H; cbn [length] in H; try lia; cbn [store lset]; [reflexivity|].
  rewrite IH by lia. reflexivity.
Qed.
Lemma lset_length : forall l i b, length (lset l i b) = length l.
Proof. induction l; intros [|i] b; cbn [lset length]; auto. Qed.
Lemma lset_app1 : forall l r i b, (i < length l)%nat -> lset (l ++ r) i b = lset l i b ++ r.
Proof.
  induction l as [|x l IH]; intros r [|i] b H; cbn [length] in H; try lia; cbn [app lset]; [reflexivity|].
  rewrite IH by lia. reflexivity.
Qed.
Lemma lset_app2 : forall l r i b, lset (l ++ r) (length l + i) b = l ++ lset r i b.
Proof. induction l as [|x l IH]; intros r i b; cbn [app length lset Nat.add]; [reflexivity|]. rewrite IH. reflexivity. Qed.

(** Split the buffer at the cursor. *)
Lemma put_ok : forall pre rest b m c f, rest <> [] ->
  exists rest', put (mkPacket (pre ++ rest) m (length pre) c f) b
     = Ok (mkPacket ((pre ++ [b]) ++ rest') m (length (pre ++ [b])) c f) /\ length rest = S (length rest').
Proof.
  intros pre rest b m c f Hne. destruct rest as [|x rest]; [congruence|].
  exists rest. unfold put. cbn [p_buf p_cursor p_margin p_chunk p_flags].
  rewrite store_ok by (rewrite app_length; cbn [length]; lia).
  split; [|reflexivity].
  replace (length pre) with (length pre + 0)%nat at 1 by lia. rewrite lset_app2. cbn [lset].
  rewrite <- app_assoc. rewrite app_length. cbn [length app].
  replace (length pre + 1)%nat with (S (length pre)) by lia. reflexivity.
Qed.

Lemma put_all_ok : forall l pre rest m c f, (length l <= length rest)%nat ->
  exists rest', put_all (mkPacket (pre ++ rest) m (length pre) c f) l
     = Ok (mkPacket ((pre ++ l) ++ rest') m (length (pre ++ l)) c f) /\ (length rest = length l + length rest')%nat.
Proof.
  induction l as [|b l IH]; intros pre rest m c f H; cbn [put_all].
  - exists rest. rewrite app_nil_r. split; [reflexivity|]. cbn [length]; lia.
  - cbn [length] in H. destruct (put_ok pre rest b m c f) as (r1 & He & Hl).
    { destruct rest; [cbn [length] in H; lia|discriminate]. }
    rewrite He. destruct (IH (pre ++ [b]) r1 m c f ltac:(lia)) as (r2 & He2 & Hl2).
    exists r2. rewrite He2. split; [|cbn [length]; lia].
    rewrite <- (app_assoc pre [b] l). reflexivity.
Qed.

(** ** Refinement relation *)
Definition R (p : packet) (a : apacket) : Prop :=
  exists rest, p_buf p = a_bytes a ++ rest /\ p_cursor p = length (a_bytes a)
  /\ zlen (p_buf p) = a_cap a /\ a_cap a <= U64MAX
  /\ p_chunk p = match a_open a with None => None | Some _ => Some (length (a_done a) + 3)%nat end
  /\ p_flags p = a_flag a
  /\ match a_flag a with None => True | Some i => (i < length (a_done a))%nat end.

Lemma R_vector : forall p a, R p a -> pa_to_vector p = a_bytes a.
Proof.
  intros p a (rest & Hb & Hc & _). unfold pa_to_vector. rewrite Hb, Hc. apply firstn_app_exact.
Qed.

Lemma R_remaining : forall p a, R p a -> pa_remaining p = a_cap a - zlen (a_bytes a) /\ 0 <= a_cap a - zlen (a_bytes a).
Proof.
  intros p a (rest & Hb & Hc & Hcap & Hmax & _). unfold pa_remaining. rewrite Hcap, Hc.
  assert (Hle : 0 <= a_cap a - zlen (a_bytes a)).
  { rewrite <- Hcap, Hb, zlen_app. pose proof (zlen_nonneg _ rest). lia. }
  split; [|exact Hle]. unfold wrap64. fold (zlen (a_bytes a)).
  pose proof (zlen_nonneg _ (a_bytes a)). unfold U64MAX in Hmax. rewrite Z.mod_small; lia.
Qed.

Lemma a_bytes_append : forall a l, a_bytes (a_append a l) = a_bytes a ++ l.
Proof.
  intros a l. unfold a_append, a_bytes. destruct (a_open a) as [[t pl]|]; cbn [a_done a_open].
  - rewrite <- !app_assoc. reflexivity.
  - rewrite !app_nil_r. reflexivity.
Qed.

Lemma R_append : forall p a l, R p a -> zlen (a_bytes a) + zlen l <= a_cap a ->
  exists p', put_all p l = Ok p' /\ R p' (a_append a l).
Proof.
  intros [buf m cur ch fl] a l (rest & Hb & Hc & Hcap & Hmax & Hch & Hfl & Hfi) Hfit.
  cbn [p_buf p_cursor p_margin p_chunk p_flags] in *. subst buf cur.
  rewrite zlen_app in Hcap.
  destruct (put_all_ok l (a_bytes a) rest m ch fl) as (rest' & He & Hlen).
  { unfold zlen in *. lia. }
  eexists. split; [exact He|]. exists rest'. cbn [p_buf p_cursor p_margin p_chunk p_flags].
  rewrite a_bytes_append. split; [reflexivity|]. split; [reflexivity|].
  assert (Hcap' : a_cap (a_append a l) = a_cap a) by (unfold a_append; destruct (a_open a) as [[? ?]|]; reflexivity).
  rewrite Hcap'. split; [rewrite !zlen_app; unfold zlen in *; lia|]. split; [exact Hmax|].
  unfold a_append. destruct (a_open a) as [[t pl]|]; cbn [a_open a_done a_flag]; auto.
  split; [exact Hch|]. split; [exact Hfl|]. destruct (a_flag a); [rewrite app_length; lia|exact I].
Qed.

Lemma R_push : forall p a l, R p a ->
  exists p', pa_push p l = Ok (p', snd (a_try a l)) /\ R p' (fst (a_try a l)).
Proof.
  intros p a l HR. destruct (R_remaining p a HR) as [Hrem Hle]. unfold pa_push, a_try. rewrite Hrem.
  destruct (Z.ltb_spec (a_cap a - zlen (a_bytes a)) (zlen l)); destruct (Z.leb_spec (zlen (a_bytes a) + zlen l) (a_cap a)); try lia; cbn [fst snd].
  - exists p. auto.
  - destruct (R_append p a l HR ltac:(lia)) as (p' & He & HR'). exists p'. rewrite He. auto.
Qed.

Lemma R_push_vlu : forall p a v, R p a -> is_u64 v ->
  exists p', pa_push_vlu p v = Ok (p', snd (a_try a (vlu_encode v))) /\ R p' (fst (a_try a (vlu_encode v))).
Proof.
  intros p a v HR Hv. unfold pa_push_vlu. rewrite vlu_encode_raw_ok by exact Hv. apply R_push, HR.
Qed.

Lemma a_append_cap : forall a l, a_cap (a_append a l) = a_cap a.
Proof. intros. unfold a_append. destruct (a_open a) as [[? ?]|]; reflexivity. Qed.
Lemma a_append_append : forall a l l', a_append (a_append a l) l' = a_append a (l ++ l').
Proof.
  intros. unfold a_append. destruct (a_open a) as [[? ?]|]; cbn [a_open a_done a_cap a_flag]; rewrite <- app_assoc; reflexivity.
Qed.

Lemma R_restore_cursor : forall p p1 a l, R p a -> R p1 (a_append a l) ->
  R (mkPacket (p_buf p1) (p_margin p1) (p_cursor p) (p_chunk p1) (p_flags p1)) a.
Proof.
  intros p [buf m cur ch fl] a l (rest0 & _ & Hcur & _ & _ & Hch0 & _ & Hfi0) (rest & Hb & Hc & Hcap & Hmax & Hch & Hfl & Hfi).
  cbn [p_buf p_cursor p_margin p_chunk p_flags] in *. rewrite a_bytes_append in *. rewrite a_append_cap in *.
  exists (l ++ rest). cbn [p_buf p_cursor p_margin p_chunk p_flags].
  split; [rewrite app_assoc; exact Hb|]. split; [exact Hcur|]. split; [exact Hcap|]. split; [exact Hmax|].
  unfold a_append in Hch, Hfl. destruct (a_open a) as [[t pl]|] eqn:Eo; cbn [a_open a_done a_flag] in *; auto.
Qed.

Lemma R_push_field : forall p a l, R p a -> zlen l <= U64MAX ->
  exists p', pa_push_field p l = Ok (p', snd (a_try a (vlu_encode (zlen l) ++ l)))
    /\ R p' (fst (a_try a (vlu_encode (zlen l) ++ l))).
Proof.
  intros p a l HR Hl. unfold pa_push_field.
  assert (Hu : is_u64 (zlen l)) by (unfold is_u64; pose proof (zlen_nonneg _ l); lia).
  destruct (R_push_vlu p a (zlen l) HR Hu) as (p1 & He1 & HR1). rewrite He1.
  unfold a_try in *. rewrite zlen_app. pose proof (zlen_nonneg _ l). pose proof (zlen_nonneg _ (vlu_encode (zlen l))).
  destruct (Z.leb_spec (zlen (a_bytes a) + zlen (vlu_encode (zlen l))) (a_cap a)) as [Hf|Hf]; cbn [fst snd] in *.
  - destruct (R_push p1 _ l HR1) as (p2 & He2 & HR2). rewrite He2.
    unfold a_try in *. rewrite a_bytes_append, a_append_cap, zlen_app in *.
    destruct (Z.leb_spec (zlen (a_bytes a) + (zlen (vlu_encode (zlen l)) + zlen l)) (a_cap a)) as [Hg|Hg];
    destruct (Z.leb_spec (zlen (a_bytes a) + zlen (vlu_encode (zlen l)) + zlen l) (a_cap a)) as [Hg'|Hg']; try lia; cbn [fst snd] in *.
    + exists p2. rewrite a_append_append in HR2. auto.
    + eexists. split; [reflexivity|]. eapply R_restore_cursor; eauto.
  - destruct (Z.leb_spec (zlen (a_bytes a) + (zlen (vlu_encode (zlen l)) + zlen l)) (a_cap a)); [lia|]. cbn [fst snd].
    eexists. split; [reflexivity|]. destruct p1 as [b1 m1 c1 ch1 f1]. cbn [p_buf p_cursor p_margin p_chunk p_flags].
    destruct HR1 as (r1 & G1 & G2 & G3). destruct HR as (r0 & G1' & G2' & G3').
    exists r1. cbn [p_buf p_cursor p_margin p_chunk p_flags] in *. auto.
Qed.

Lemma a_done_le_bytes : forall a, (length (a_done a) <= length (a_bytes a))%nat.
Proof. intros. unfold a_bytes. rewrite app_length. lia. Qed.

Lemma R_start : forall p a t, R p a ->
  exists p', pa_start_chunk p t = Ok (p', snd (a_step a (OpStart t))) /\ R p' (fst (a_step a (OpStart t))).
Proof.
  intros p a t HR. destruct (R_remaining p a HR) as [Hrem Hle]. unfold pa_start_chunk. rewrite Hrem. cbn [a_step].
  destruct (Z.ltb_spec (a_cap a - zlen (a_bytes a)) 3); destruct (Z.leb_spec (zlen (a_bytes a) + 3) (a_cap a)); try lia; cbn [fst snd].
  - exists p. auto.
  - destruct p as [buf m cur ch fl]. destruct HR as (rest & Hb & Hc & Hcap & Hmax & Hch & Hfl & Hfi).
    cbn [p_buf p_cursor p_margin p_chunk p_flags] in *. subst buf cur.
    rewrite zlen_app in Hcap.
    destruct (put_all_ok [t; 0; 0] (a_bytes a) rest m ch fl) as (rest' & He & Hlen).
    { unfold zlen in *. cbn [length]. lia. }
    rewrite He. cbn [p_buf p_cursor p_margin p_chunk p_flags]. eexists. split; [reflexivity|].
    exists rest'. cbn [p_buf p_cursor p_margin p_chunk p_flags].
    assert (Hnb : a_bytes (mkA (a_cap a) (a_bytes a) (Some (t, [])) (a_flag a)) = a_bytes a ++ [t; 0; 0]) by reflexivity.
    rewrite Hnb. cbn [a_done a_open a_cap a_flag].
    split; [reflexivity|]. split; [reflexivity|].
    split; [rewrite !zlen_app; unfold zlen in *; cbn [length] in *; lia|].
    split; [exact Hmax|]. split; [rewrite app_length; cbn [length]; f_equal; lia|].
    split; [exact Hfl|]. pose proof (a_done_le_bytes a). destruct (a_flag a); [lia|exact I].
Qed.

Lemma lset_two : forall pre t pl rest b1 b2,
  lset (lset (pre ++ [t; 0; 0] ++ pl ++ rest) (length pre + 1) b1) (length pre + 2) b2
  = pre ++ [t; b1; b2] ++ pl ++ rest.
Proof. intros. rewrite lset_app2, lset_app2. reflexivity. Qed.

Lemma be16_code : forall n, 0 <= n < 18446744073709551616 ->
  [Z.land (Z.shiftr (wrap64 n) 8) 255; Z.land (wrap64 n) 255] = be16 n.
Proof.
  intros n Hn. unfold be16, wrap64. rewrite (Z.mod_small n 18446744073709551616) by lia.
  rewrite shiftr_8, !land_255. reflexivity.
Qed.

Lemma R_commit : forall p a, R p a -> a_open a <> None ->
  exists p', pa_commit p = Ok p' /\ R p' (fst (a_step a OpCommit)).
Proof.
  intros [buf m cur ch fl] a (rest & Hb & Hc & Hcap & Hmax & Hch & Hfl & Hfi) Hopen.
  cbn [p_buf p_cursor p_margin p_chunk p_flags] in *. unfold pa_commit. cbn [p_buf p_cursor p_margin p_chunk p_flags].
  cbn [a_step]. destruct (a_open a) as [[t pl]|] eqn:Eo; [|congruence]. rewrite Hch.
  destruct (Nat.ltb_spec (length (a_done a) + 3) 2); [lia|].
  assert (Hbytes : a_bytes a = a_done a ++ [t; 0; 0] ++ pl) by (unfold a_bytes; rewrite Eo; reflexivity).
  assert (Hlen : length (a_bytes a) = (length (a_done a) + 3 + length pl)%nat).
  { rewrite Hbytes, !app_length. cbn [length]. lia. }
  assert (Hbuflen : (length buf = length (a_done a) + 3 + length pl + length rest)%nat).
  { rewrite Hb, app_length, Hlen. lia. }
  rewrite store_ok by lia. rewrite store_ok by (rewrite lset_length; lia).
  replace (Z.of_nat cur - Z.of_nat (length (a_done a) + 3)) with (zlen pl) by (unfold zlen; lia).
  assert (Hpl : 0 <= zlen pl < 18446744073709551616) by (unfold zlen, U64MAX in *; lia).
  pose proof (be16_code (zlen pl) Hpl) as Hbe. injection Hbe as Hbe1 Hbe2. rewrite Hbe1, Hbe2. clear Hbe1 Hbe2.
  replace (length (a_done a) + 3 - 2)%nat with (length (a_done a) + 1)%nat by lia.
  replace (length (a_done a) + 3 - 1)%nat with (length (a_done a) + 2)%nat by lia.
  eexists. split; [reflexivity|]. cbn [fst].
  exists rest. cbn [p_buf p_cursor p_margin p_chunk p_flags]. unfold a_bytes. cbn [a_done a_open a_cap a_flag].
  rewrite Hb, Hbytes, <- !app_assoc, lset_two. unfold chunk_bytes, be16. cbn [app].
  split; [reflexivity|]. rewrite app_nil_r.
  split; [rewrite Hc, Hlen, app_length; cbn [length]; lia|].
  split; [rewrite <- Hcap, Hb, Hbytes; unfold zlen; rewrite !app_length; cbn [length app]; rewrite ?app_length; lia|].
  split; [exact Hmax|]. split; [reflexivity|]. split; [exact Hfl|].
  destruct (a_flag a); [rewrite app_length; lia|exact I].
Qed.

Lemma R_rollback : forall p a, R p a -> exists p', pa_rollback p = Ok p' /\ R p' (fst (a_step a OpRollback)).
Proof.
  intros [buf m cur ch fl] a HR. pose proof HR as (rest & Hb & Hc & Hcap & Hmax & Hch & Hfl & Hfi).
  cbn [p_buf p_cursor p_margin p_chunk p_flags] in *. unfold pa_rollback. cbn [p_buf p_cursor p_margin p_chunk p_flags].
  cbn [a_step fst]. rewrite Hch. destruct (a_open a) as [[t pl]|] eqn:Eo.
  - destruct (Nat.ltb_spec (length (a_done a) + 3) 3); [lia|]. eexists. split; [reflexivity|].
    assert (Hbytes : a_bytes a = a_done a ++ [t; 0; 0] ++ pl) by (unfold a_bytes; rewrite Eo; reflexivity).
    exists (([t; 0; 0] ++ pl) ++ rest). cbn [p_buf p_cursor p_margin p_chunk p_flags]. unfold a_bytes. cbn [a_done a_open a_cap a_flag].
    rewrite app_nil_r. split; [rewrite Hb, Hbytes, <- !app_assoc; reflexivity|].
    split; [lia|]. auto.
  - eexists. split; [reflexivity|]. destruct a as [cap done op fg]. cbn [a_cap a_done a_open a_flag] in *. subst op. rewrite <- Hch. exact HR.
Qed.

Lemma or_at_app : forall l r i m, (i < length l)%nat -> or_at (l ++ r) i m = or_at l i m ++ r.
Proof.
  induction l as [|x l IH]; intros r [|i] m H; cbn [length] in H; try lia; cbn [app or_at]; [reflexivity|].
  rewrite IH by lia. reflexivity.
Qed.
Lemma or_at_length : forall l i m, length (or_at l i m) = length l.
Proof. induction l; intros [|i] m; cbn [or_at length]; auto. Qed.
Lemma or_at_lset : forall l i m x, nth_error l i = Some x -> lset l i (Z.lor x m) = or_at l i m.
Proof.
  induction l as [|y l IH]; intros [|i] m x H; cbn [nth_error] in H; try discriminate; cbn [lset or_at].
  - injection H as ->. reflexivity.
  - f_equal. apply IH, H.
Qed.

Lemma R_set_tc : forall p a, R p a -> a_flag a <> None -> exists p', pa_set_tc p = Ok p' /\ R p' (fst (a_step a OpSetTC)).
Proof.
  intros [buf m cur ch fl] a (rest & Hb & Hc & Hcap & Hmax & Hch & Hfl & Hfi) Hf.
  cbn [p_buf p_cursor p_margin p_chunk p_flags] in *. unfold pa_set_tc. cbn [p_buf p_cursor p_margin p_chunk p_flags].
  cbn [a_step]. rewrite Hfl. destruct (a_flag a) as [i|] eqn:Ef; [|congruence].
  assert (Hi : (i < length buf)%nat) by (rewrite Hb, app_length; pose proof (a_done_le_bytes a); lia).
  destruct (nth_error buf i) as [x|] eqn:En; [|apply nth_error_None in En; lia].
  rewrite store_ok by exact Hi. eexists. split; [reflexivity|]. cbn [fst].
  rewrite (or_at_lset _ _ _ _ En). exists rest. cbn [p_buf p_cursor p_margin p_chunk p_flags].
  unfold a_bytes in *. cbn [a_done a_open a_cap a_flag] in *.
  rewrite Hb, <- app_assoc. rewrite or_at_app by lia. split; [rewrite <- app_assoc; reflexivity|].
  split; [rewrite Hc, !app_length, or_at_length; reflexivity|].
  split; [rewrite <- Hcap, Hb; unfold zlen; rewrite !app_length, or_at_length; lia|].
  split; [exact Hmax|]. split; [rewrite or_at_length; exact Hch|]. split; [reflexivity|]. rewrite or_at_length. exact Hfi.
Qed.

Lemma R_step : forall p a o, R p a -> op_allowed a o ->
  exists p', pa_step p o = Ok (p', snd (a_step a o)) /\ R p' (fst (a_step a o)).
Proof.
  intros p a o HR Ho. destruct o as [t|b|l|v|l| | |]; cbn [pa_step op_allowed] in *.
  - apply R_start, HR.
  - cbn [a_step]. destruct (R_push p a [b] HR) as (p' & He & HR'). exists p'. split; [|exact HR'].
    unfold pa_push_byte. unfold pa_push in He. change (zlen [b]) with 1 in He. cbn [put_all] in He.
    destruct (pa_remaining p <? 1); [exact He|]. destruct (put p b); exact He.
  - apply R_push, HR.
  - apply R_push_vlu; assumption.
  - apply R_push_field; assumption.
  - destruct (R_commit p a HR Ho) as (p' & He & HR'). exists p'. rewrite He. cbn [lift_true]. split; [|exact HR'].
    cbn [a_step]. destruct (a_open a) as [[t pl]|]; reflexivity.
  - destruct (R_rollback p a HR) as (p' & He & HR'). exists p'. rewrite He. auto.
  - destruct (R_set_tc p a HR Ho) as (p' & He & HR'). exists p'. rewrite He. cbn [lift_true]. split; [|exact HR'].
    cbn [a_step]. destruct (a_flag a); reflexivity.
Qed.

Lemma R_run : forall os p a, R p a -> ops_allowed a os ->
  exists p', pa_run p os = Ok (p', snd (a_run a os)) /\ R p' (fst (a_run a os)).
Proof.
  induction os as [|o os IH]; intros p a HR Ha; cbn [pa_run a_run].
  - exists p. auto.
  - destruct Ha as [Ho Ha]. destruct (R_step p a o HR Ho) as (p1 & He & HR1). rewrite He.
    destruct (a_step a o) as [a1 b]. cbn [fst snd] in *.
    destruct (IH p1 a1 HR1 Ha) as (p2 & He2 & HR2). rewrite He2.
    destruct (a_run a1 os) as [a2 bs]. cbn [fst snd] in *. exists p2. auto.
Qed.

(** ** init *)
Lemma R_init : forall buf m, (m <= length buf)%nat -> zlen buf <= U64MAX ->
  R (pa_init buf m) (mkA (zlen buf) (firstn m buf) None None).
Proof.
  intros buf m Hm Hmax. exists (skipn m buf). unfold pa_init, a_bytes. cbn [p_buf p_cursor p_margin p_chunk p_flags a_done a_open a_cap a_flag].
  rewrite app_nil_r, firstn_skipn, firstn_length. split; [reflexivity|]. split; [lia|]. auto.
Qed.

Lemma land_flags : forall f, is_byte f ->
  Z.land f (Z.lxor 255 (Z.lor 8 4)) = Z.land f 243
  /\ Z.lor (Z.land f 243) 8 = Z.land f 243 + 8 /\ Z.lor (Z.land f 243) 4 = Z.land f 243 + 4
  /\ Z.lor (Z.land f 243 + 8) 4 = Z.land f 243 + 8 + 4.
Proof.
  intros f Hf. split; [reflexivity|].
  assert (H := byte_sweep (fun f => (Z.lor (Z.land f 243) 8 =? Z.land f 243 + 8) && (Z.lor (Z.land f 243) 4 =? Z.land f 243 + 4)
     && (Z.lor (Z.land f 243 + 8) 4 =? Z.land f 243 + 8 + 4)) ltac:(vm_compute; reflexivity) f Hf). cbv beta in H. lia.
Qed.

Lemma be16_code' : forall n, 0 <= n -> [Z.land (Z.shiftr n 8) 255; Z.land n 255] = be16 n.
Proof. intros n Hn. unfold be16. rewrite shiftr_8, !land_255. reflexivity. Qed.

Lemma header_code : forall flags ts tse, is_byte flags ->
  let f0 := Z.land flags (Z.lxor 255 (Z.lor 8 4)) in
  let f1 := if ts >=? 0 then Z.lor f0 8 else f0 in
  (if tse >=? 0 then Z.lor f1 4 else f1) = header_flags flags ts tse.
Proof.
  intros flags ts tse Hf f0 f1. destruct (land_flags flags Hf) as (E0 & E1 & E2 & E3).
  unfold header_flags, f1, f0. rewrite E0.
  destruct (ts >=? 0), (tse >=? 0); rewrite ?E1, ?E2, ?E3; lia.
Qed.

Lemma R_set_flag : forall p a i, R p a -> (i < length (a_done a))%nat -> a_open a = None ->
  R (mkPacket (p_buf p) (p_margin p) (p_cursor p) (p_chunk p) (Some i)) (mkA (a_cap a) (a_done a) None (Some i)).
Proof.
  intros [buf m cur ch fl] a i (rest & Hb & Hc & Hcap & Hmax & Hch & Hfl & Hfi) Hi Ho.
  cbn [p_buf p_cursor p_margin p_chunk p_flags] in *. exists rest.
  unfold a_bytes in *. rewrite Ho in *. cbn [p_buf p_cursor p_margin p_chunk p_flags a_done a_open a_cap a_flag]. auto 8.
Qed.

Lemma R_init_header : forall buf m flags ts tse, is_byte flags -> zlen buf <= U64MAX -> (m + 5 <= length buf)%nat ->
  exists p, pa_init_header buf m flags ts tse = Ok p
    /\ R p (mkA (zlen buf) (firstn m buf ++ header_bytes flags ts tse) None (Some m)).
Proof.
  intros buf m flags ts tse Hf Hmax Hm. unfold pa_init_header.
  pose proof (header_code flags ts tse Hf) as Hcode. cbv zeta in Hcode. rewrite Hcode. clear Hcode.
  pose proof (R_init buf m ltac:(lia) Hmax) as HR0.
  assert (Hfn : length (firstn m buf) = m) by (rewrite firstn_length; lia).
  set (a0 := mkA (zlen buf) (firstn m buf) None None) in *.
  assert (Hb0 : a_bytes a0 = firstn m buf) by (unfold a_bytes, a0; cbn [a_done a_open]; apply app_nil_r).
  destruct (R_append _ a0 [header_flags flags ts tse] HR0) as (p1 & He1 & HR1).
  { rewrite Hb0. unfold zlen, a0. cbn [a_cap length]. unfold zlen. lia. }
  cbn [put_all] in He1. destruct (put (pa_init buf m) (header_flags flags ts tse)) as [p1'| |]; try discriminate.
  injection He1 as ->.
  assert (HR1' := R_set_flag p1 _ m HR1). unfold a_append, a0 in HR1'. cbn [a_open a_cap a_done a_flag] in HR1'.
  specialize (HR1' ltac:(rewrite app_length, Hfn; cbn [length]; lia) eq_refl).
  change (p_cursor (pa_init buf m)) with m.
  set (p1f := mkPacket (p_buf p1) (p_margin p1) (p_cursor p1) (p_chunk p1) (Some m)) in *.
  set (a1 := mkA (zlen buf) (firstn m buf ++ [header_flags flags ts tse]) None (Some m)) in *.
  assert (Hpart : forall x px ax dn k, R px ax -> ax = mkA (zlen buf) dn None (Some m) ->
     (length dn = k)%nat -> (k + 2 <= length buf)%nat ->
     exists py, (if x >=? 0 then put_all px [Z.land (Z.shiftr x 8) 255; Z.land x 255] else Ok px) = Ok py
       /\ R py (mkA (zlen buf) (dn ++ if x >=? 0 then be16 x else []) None (Some m))).
  { intros x px ax dn k HRx -> Hk Hkl. destruct (x >=? 0) eqn:Ex.
    - rewrite be16_code' by lia. destruct (R_append px _ (be16 x) HRx) as (py & Hey & HRy).
      { unfold a_bytes. cbn [a_done a_open a_cap]. rewrite app_nil_r. unfold zlen, be16. cbn [length]. lia. }
      exists py. auto.
    - exists px. rewrite app_nil_r. auto. }
  destruct (Hpart ts p1f a1 (firstn m buf ++ [header_flags flags ts tse]) (m + 1)%nat HR1' eq_refl) as (p2 & He2 & HR2).
  { rewrite app_length, Hfn. reflexivity. }
  { lia. }
  rewrite He2.
  destruct (Hpart tse p2 _ _ (m + 1 + (if ts >=? 0 then 2 else 0))%nat HR2 eq_refl) as (p3 & He3 & HR3).
  { rewrite !app_length, Hfn. destruct (ts >=? 0); reflexivity. }
  { destruct (ts >=? 0); lia. }
  exists p3. split; [exact He3|]. unfold header_bytes. rewrite <- !app_assoc in HR3. exact HR3.
Qed.

(** ** Whole chunks *)
Lemma is_piece_step : forall a o, is_piece o -> op_allowed a o /\ a_step a o = a_try a (piece_bytes o).
Proof.
  intros a o Ho. destruct o; cbn [is_piece op_allowed a_step piece_bytes] in *; try tauto.
Qed.

Lemma pieces_bytes_cons : forall o os, pieces_bytes (o :: os) = piece_bytes o ++ pieces_bytes os.
Proof. reflexivity. Qed.

Lemma R_pushes : forall pieces p a, R p a -> Forall is_piece pieces ->
  exists p', (zlen (a_bytes a) + zlen (pieces_bytes pieces) <= a_cap a /\ pa_pushes p pieces = Ok (p', true)
      /\ R p' (a_append a (pieces_bytes pieces)))
   \/ (zlen (a_bytes a) + zlen (pieces_bytes pieces) > a_cap a /\ pa_pushes p pieces = Ok (p', false)
      /\ exists l, R p' (a_append a l)).
Proof.
  induction pieces as [|o pieces IH]; intros p a HR Hp; cbn [pa_pushes].
  - exists p. left. destruct (R_remaining p a HR). change (zlen (pieces_bytes [])) with 0. split; [lia|]. split; [reflexivity|].
    unfold a_append. destruct a as [c d [[t pl]|] fg]; cbn [a_open a_cap a_done a_flag pieces_bytes flat_map]; rewrite app_nil_r; exact HR.
  - inversion Hp as [|? ? Ho Hos]; subst. destruct (is_piece_step a o Ho) as [Hal Hst].
    destruct (R_step p a o HR Hal) as (p1 & He & HR1). rewrite He, Hst in *. rewrite pieces_bytes_cons, zlen_app.
    pose proof (zlen_nonneg _ (piece_bytes o)). pose proof (zlen_nonneg _ (pieces_bytes pieces)).
    unfold a_try in *. destruct (Z.leb_spec (zlen (a_bytes a) + zlen (piece_bytes o)) (a_cap a)) as [Hf|Hf]; cbn [fst snd] in *.
    + destruct (IH p1 _ HR1 Hos) as (p2 & [(Hfit & He2 & HR2)|(Hnf & He2 & l & HR2)]);
        rewrite a_bytes_append, a_append_cap, zlen_app in *; rewrite a_append_append in HR2.
      * exists p2. left. split; [lia|]. auto.
      * exists p2. right. split; [lia|]. split; [exact He2|]. eexists; exact HR2.
    + exists p1. right. split; [lia|]. split; [reflexivity|]. exists [].
      unfold a_append. destruct a as [c d [[t pl]|] fg]; cbn [a_open a_cap a_done a_flag] in *; rewrite app_nil_r; exact HR1.
Qed.

(** One attempt adds the whole chunk or nothing. *)
Lemma R_try_chunk : forall p cap done fg t pieces, R p (mkA cap done None fg) -> Forall is_piece pieces ->
  exists p', (zlen done + 3 + zlen (pieces_bytes pieces) <= cap /\ pa_try_chunk p t pieces = Ok (p', true)
       /\ R p' (mkA cap (done ++ chunk_bytes t (pieces_bytes pieces)) None fg))
   \/ (zlen done + 3 + zlen (pieces_bytes pieces) > cap /\ pa_try_chunk p t pieces = Ok (p', false)
       /\ R p' (mkA cap done None fg)).
Proof.
  intros p cap done fg t pieces HR Hp. unfold pa_try_chunk.
  destruct (R_start p _ t HR) as (p1 & He1 & HR1). rewrite He1. cbn [a_step] in *.
  assert (Hb : a_bytes (mkA cap done None fg) = done) by (unfold a_bytes; cbn [a_done a_open]; apply app_nil_r).
  rewrite Hb in *. cbn [a_cap a_flag] in *. pose proof (zlen_nonneg _ (pieces_bytes pieces)).
  destruct (Z.leb_spec (zlen done + 3) cap) as [Hf|Hf]; cbn [fst snd] in *.
  - set (a1 := mkA cap done (Some (t, [])) fg) in *.
    assert (Hb1 : zlen (a_bytes a1) = zlen done + 3) by (unfold a_bytes, a1; cbn [a_done a_open]; rewrite zlen_app; reflexivity).
    destruct (R_pushes pieces p1 a1 HR1 Hp) as (p2 & [(Hfit & He2 & HR2)|(Hnf & He2 & l & HR2)]); rewrite He2, Hb1 in *;
      cbn [a_cap a1] in *.
    + unfold a_append, a1 in HR2. cbn [a_open a_cap a_done a_flag app] in HR2.
      destruct (R_commit p2 _ HR2 ltac:(cbn; discriminate)) as (p3 & He3 & HR3). rewrite He3.
      exists p3. left. split; [lia|]. split; [reflexivity|]. exact HR3.
    + unfold a_append, a1 in HR2. cbn [a_open a_cap a_done a_flag app] in HR2.
      destruct (R_rollback p2 _ HR2) as (p3 & He3 & HR3). rewrite He3.
      exists p3. right. split; [lia|]. split; [reflexivity|]. exact HR3.
  - exists p1. right. split; [lia|]. auto.
Qed.

Lemma zlen_chunk_bytes : forall t pl, zlen (chunk_bytes t pl) = 3 + zlen pl.
Proof. intros. unfold chunk_bytes, be16. cbn [app]. rewrite !zlen_cons. lia. Qed.

Lemma R_try_chunks : forall cs p cap done fg, R p (mkA cap done None fg) ->
  Forall (fun c => Forall is_piece (snd c)) cs ->
  exists p', pa_try_chunks p cs = Ok (p', greedy cap (zlen done) cs)
    /\ R p' (mkA cap (done ++ chunks_bytes (added cs (greedy cap (zlen done) cs))) None fg).
Proof.
  induction cs as [|[t pieces] cs IH]; intros p cap done fg HR Hcs; cbn [pa_try_chunks greedy].
  - exists p. cbn [added chunks_bytes flat_map]. rewrite app_nil_r. auto.
  - inversion Hcs as [|? ? Hc Hcs']; subst. cbn [snd] in Hc.
    destruct (R_try_chunk p cap done fg t pieces HR Hc) as (p1 & [(Hfit & He & HR1)|(Hfit & He & HR1)]); rewrite He;
    destruct (IH p1 _ _ _ HR1 Hcs') as (p2 & He2 & HR2); rewrite He2; exists p2.
    + destruct (Z.leb_spec (zlen done + 3 + zlen (pieces_bytes pieces)) cap); [|lia].
      rewrite zlen_app, zlen_chunk_bytes, Z.add_assoc in *. split; [reflexivity|].
      cbn [added]. rewrite <- app_assoc in HR2. exact HR2.
    + destruct (Z.leb_spec (zlen done + 3 + zlen (pieces_bytes pieces)) cap); [lia|]. split; [reflexivity|]. exact HR2.
Qed.

(** ** Parsing *)
Lemma rd2_cons : forall a b r, rd2 (a :: b :: r) = Ok (a * 256 + b, r).
Proof. intros. unfold rd2. cbn [rd]. rewrite shiftl_8. reflexivity. Qed.

Lemma chunk_loop_defined : forall fuel cur, (length cur < fuel)%nat -> bytes_ok cur ->
  exists cs, chunk_loop fuel cur = Ok cs.
Proof.
  induction fuel as [|fuel IH]; intros cur Hf Hok; [lia|]. cbn [chunk_loop].
  destruct (zlen cur >=? 3) eqn:E; [|eexists; reflexivity].
  destruct cur as [|a [|b [|c cur]]]; [exfalso; cbn in E; discriminate|exfalso; cbn in E; discriminate|exfalso; cbn in E; discriminate|].
  cbn [rd]. rewrite rd2_cons. inversion Hok as [|? ? _ H1]; subst. inversion H1 as [|? ? Hb H2]; subst. inversion H2 as [|? ? Hc H3]; subst.
  unfold is_byte in *.
  destruct (b * 256 + c >? zlen cur) eqn:E1; [eexists; reflexivity|].
  destruct (zlen cur <? b * 256 + c) eqn:E2; [lia|].
  destruct (IH (skipn (Z.to_nat (b * 256 + c)) cur)) as (cs & Hcs).
  - rewrite skipn_length. cbn [length] in Hf. lia.
  - apply bytes_ok_skipn, H3.
  - rewrite Hcs. eexists; reflexivity.
Qed.

Lemma chunk_loop_inside : forall fuel cur cs, bytes_ok cur -> chunk_loop fuel cur = Ok cs -> chunks_inside cs cur.
Proof.
  induction fuel as [|fuel IH]; intros cur cs Hok H; [discriminate|]. cbn [chunk_loop] in H.
  destruct (zlen cur >=? 3) eqn:E; [|injection H as <-; exact I].
  destruct cur as [|a [|b [|c cur]]]; [exfalso; cbn in E; discriminate|exfalso; cbn in E; discriminate|exfalso; cbn in E; discriminate|].
  cbn [rd] in H. rewrite rd2_cons in H. inversion Hok as [|? ? _ H1]; subst. inversion H1 as [|? ? Hb H2]; subst. inversion H2 as [|? ? Hc H3]; subst.
  unfold is_byte in *.
  destruct (b * 256 + c >? zlen cur) eqn:E1; [injection H as <-; exact I|].
  destruct (zlen cur <? b * 256 + c) eqn:E2; [lia|].
  destruct (chunk_loop fuel (skipn (Z.to_nat (b * 256 + c)) cur)) as [cs'| |] eqn:Er; try discriminate.
  injection H as <-. cbn [chunks_inside]. exists b, c, (skipn (Z.to_nat (b * 256 + c)) cur).
  rewrite firstn_skipn. split; [reflexivity|]. split.
  - unfold zlen in *. rewrite firstn_length. lia.
  - eapply IH; [apply bytes_ok_skipn, H3|exact Er].
Qed.

Lemma chunk_loop_padding : forall fuel n, (n < fuel)%nat -> Z.of_nat n < 65538 -> chunk_loop fuel (repeat 255 n) = Ok [].
Proof.
  intros [|fuel] n Hf Hn; [lia|]. cbn [chunk_loop].
  destruct (zlen (repeat 255 n) >=? 3) eqn:E; [|reflexivity].
  unfold zlen in E. rewrite repeat_length in E.
  destruct n as [|[|[|n]]]; try lia. cbn [repeat rd]. rewrite rd2_cons.
  unfold zlen at 1. rewrite repeat_length.
  destruct (255 * 256 + 255 >? Z.of_nat n) eqn:E1; [reflexivity|lia].
Qed.

Lemma chunk_loop_roundtrip : forall cs fuel n, Forall chunk_ok cs ->
  (length (chunks_bytes cs ++ repeat 255%Z n) < fuel)%nat -> Z.of_nat n < 65538 ->
  chunk_loop fuel (chunks_bytes cs ++ repeat 255 n) = Ok cs.
Proof.
  induction cs as [|[t pl] cs IH]; intros fuel n Hcs Hf Hn.
  - cbn [chunks_bytes flat_map app] in *. apply chunk_loop_padding; [|exact Hn]. rewrite repeat_length in Hf. exact Hf.
  - inversion Hcs as [|? ? Hc Hcs']; subst. destruct Hc as (Ht & Hpl & Hlen). cbn [fst snd] in *.
    destruct fuel as [|fuel]; [lia|].
    change (chunks_bytes ((t, pl) :: cs)) with (chunk_bytes t pl ++ chunks_bytes cs) in *.
    unfold chunk_bytes, be16 in *. cbn [app] in *. rewrite <- !app_assoc in *. cbn [length] in Hf.
    set (tail := chunks_bytes cs ++ repeat 255 n) in *.
    cbn [chunk_loop].
    destruct (zlen (t :: (zlen pl / 256) mod 256 :: zlen pl mod 256 :: pl ++ tail) >=? 3) eqn:E.
    2:{ rewrite !zlen_cons in E. pose proof (zlen_nonneg _ (pl ++ tail)). lia. }
    cbn [rd]. rewrite rd2_cons. pose proof (zlen_nonneg _ pl).
    replace ((zlen pl / 256) mod 256 * 256 + zlen pl mod 256) with (zlen pl) by lia.
    rewrite zlen_app. pose proof (zlen_nonneg _ tail).
    destruct (zlen pl >? zlen pl + zlen tail) eqn:E1; [lia|].
    destruct (zlen pl + zlen tail <? zlen pl) eqn:E2; [lia|].
    replace (Z.to_nat (zlen pl)) with (length pl) by (unfold zlen; lia).
    rewrite skipn_app_exact, firstn_app_exact.
    unfold tail. rewrite IH; auto. rewrite app_length in Hf. unfold tail in Hf. lia.
Qed.

Lemma header_flag_bits : forall flags ts tse, is_byte flags ->
  (Z.land (header_flags flags ts tse) 8 =? 0) = negb (ts >=? 0) /\ (Z.land (header_flags flags ts tse) 4 =? 0) = negb (tse >=? 0).
Proof.
  intros flags ts tse Hf. unfold header_flags.
  assert (H := byte_sweep (fun f =>
     forallb (fun x => forallb (fun y =>
        Bool.eqb (Z.land (Z.land f 243 + (if (x : bool) then 8 else 0) + (if (y : bool) then 4 else 0)) 8 =? 0) (negb x)
        && Bool.eqb (Z.land (Z.land f 243 + (if x then 8 else 0) + (if y then 4 else 0)) 4 =? 0) (negb y)) [true; false]) [true; false])
     ltac:(vm_compute; reflexivity) flags Hf). cbv beta in H.
  destruct (ts >=? 0), (tse >=? 0); cbn [forallb] in H; rewrite !andb_true_iff in H; split; apply eqb_prop; intuition.
Qed.

Lemma parse_packet_roundtrip : forall accept margin flags ts tse cs n,
  is_byte flags -> ts <= 65535 -> tse <= 65535 -> Forall chunk_ok cs -> Z.of_nat n < 65538 ->
  let ts' := if ts >=? 0 then ts else -1 in
  let tse' := if tse >=? 0 then tse else -1 in
  accept (header_flags flags ts tse) ts' tse' = true ->
  parse_packet accept (margin ++ header_bytes flags ts tse ++ chunks_bytes cs ++ repeat 255 n) (length margin)
  = Ok (mkParsed (header_flags flags ts tse) ts' tse' cs).
Proof.
  intros accept margin flags ts tse cs n Hf Hts Htse Hcs Hn ts' tse' Hacc. unfold parse_packet.
  rewrite app_length. cbn [header_bytes app length].
  match goal with |- context [Nat.leb ?a ?b] => destruct (Nat.leb_spec a b); [lia|] end.
  rewrite skipn_app_exact. cbn [rd].
  destruct (header_flag_bits flags ts tse Hf) as [H8 H4]. rewrite H8, H4.
  set (body := chunks_bytes cs ++ repeat 255 n).
  assert (Hbe : forall x r, 0 <= x <= 65535 -> rd2 (be16 x ++ r) = Ok (x, r)).
  { intros x r Hx. unfold be16. cbn [app]. rewrite rd2_cons. tup. }
  assert (Hlen : forall x r, zlen (be16 x ++ r) <? 2 = false).
  { intros x r. unfold be16. cbn [app]. rewrite !zlen_cons. pose proof (zlen_nonneg _ r). lia. }
  unfold ts', tse' in *. rewrite <- !app_assoc.
  destruct (ts >=? 0) eqn:Ets; destruct (tse >=? 0) eqn:Etse; cbn [negb app] in *;
    rewrite ?Hlen, ?Hbe by lia; rewrite ?Hlen, ?Hbe by lia; rewrite Hacc; unfold body;
    rewrite chunk_loop_roundtrip by (auto; lia); reflexivity.
Qed.

Lemma pieces_bytes_ok : forall ps, Forall is_piece ps -> bytes_ok (pieces_bytes ps).
Proof.
  induction ps as [|o ps IH]; intros H; [constructor|]. inversion H as [|? ? Ho Hos]; subst.
  rewrite pieces_bytes_cons. apply bytes_ok_app. split; [|apply IH, Hos].
  destruct o; cbn [is_piece piece_bytes] in *; try tauto.
  - constructor; [exact Ho|constructor].
  - apply vlu_encode_bytes, Ho.
  - apply bytes_ok_app. split; [|apply Ho]. apply vlu_encode_bytes. unfold is_u64. pose proof (zlen_nonneg _ l). tauto.
Qed.

Lemma greedy_chunks_ok : forall cs cap used,
  Forall (fun c => is_byte (fst c) /\ Forall is_piece (snd c)) cs -> 0 <= used -> cap <= 65535 ->
  Forall chunk_ok (added cs (greedy cap used cs)).
Proof.
  induction cs as [|[t pieces] cs IH]; intros cap used H Hu Hc; cbn [greedy added]; [constructor|].
  inversion H as [|? ? [Ht Hp] Hcs]; subst. cbn [fst snd] in *. pose proof (zlen_nonneg _ (pieces_bytes pieces)).
  destruct (Z.leb_spec (used + 3 + zlen (pieces_bytes pieces)) cap); cbn [added].
  - constructor; [|apply IH; auto; lia]. unfold chunk_ok. cbn [fst snd]. split; [exact Ht|]. split; [apply pieces_bytes_ok, Hp|lia].
  - apply IH; auto.
Qed.

Lemma assembled_reparses : forall buf margin flags ts tse cs,
  is_byte flags -> ts <= 65535 -> tse <= 65535 -> (margin + 5 <= length buf)%nat -> zlen buf <= 65535 ->
  Forall (fun c => is_byte (fst c) /\ Forall is_piece (snd c)) cs ->
  exists p p' bs, pa_init_header buf margin flags ts tse = Ok p /\ pa_try_chunks p cs = Ok (p', bs)
    /\ bs = greedy (zlen buf) (Z.of_nat margin + zlen (header_bytes flags ts tse)) cs
    /\ zlen (pa_to_vector p') <= zlen buf
    /\ forall accept n, Z.of_nat n < 65538 ->
       let ts' := if ts >=? 0 then ts else -1 in
       let tse' := if tse >=? 0 then tse else -1 in
       accept (header_flags flags ts tse) ts' tse' = true ->
       parse_packet accept (pa_to_vector p' ++ repeat 255 n) margin
       = Ok (mkParsed (header_flags flags ts tse) ts' tse' (added cs bs)).
Proof.
  intros buf margin flags ts tse cs Hf Hts Htse Hm Hbuf Hcs.
  destruct (R_init_header buf margin flags ts tse Hf ltac:(unfold U64MAX; lia) Hm) as (p & He & HR).
  assert (Hcs' : Forall (fun c => Forall is_piece (snd c)) cs) by (eapply Forall_impl; [|exact Hcs]; cbv beta; tauto).
  destruct (R_try_chunks cs p _ _ _ HR Hcs') as (p' & He' & HR').
  assert (Hfn : length (firstn margin buf) = margin) by (rewrite firstn_length; lia).
  assert (Hz : zlen (firstn margin buf ++ header_bytes flags ts tse) = Z.of_nat margin + zlen (header_bytes flags ts tse)).
  { rewrite zlen_app. unfold zlen at 1. rewrite Hfn. reflexivity. }
  rewrite Hz in *. eexists p, p', _. split; [exact He|]. split; [exact He'|]. split; [reflexivity|].
  rewrite (R_vector _ _ HR'). destruct (R_remaining _ _ HR') as [_ Hle]. cbn [a_cap] in Hle. split; [lia|].
  unfold a_bytes. cbn [a_done a_open]. rewrite app_nil_r. cbv zeta. intros accept n Hn Hacc.
  rewrite <- !app_assoc.
  set (bs := greedy _ _ _).
  pose proof (fun H => parse_packet_roundtrip accept (firstn margin buf) flags ts tse (added cs bs) n Hf Hts Htse H Hn Hacc) as Hrt.
  cbv zeta in Hrt. rewrite Hfn in Hrt. apply Hrt.
  apply greedy_chunks_ok; [exact Hcs| |lia]. pose proof (zlen_nonneg _ (header_bytes flags ts tse)). lia.
Qed.

Lemma R_header_run : forall buf margin flags ts tse os,
  is_byte flags -> zlen buf <= U64MAX -> (margin + 5 <= length buf)%nat ->
  let a := mkA (zlen buf) (firstn margin buf ++ header_bytes flags ts tse) None (Some margin) in
  ops_allowed a os ->
  exists p p', pa_init_header buf margin flags ts tse = Ok p
    /\ pa_run p os = Ok (p', snd (a_run a os))
    /\ pa_to_vector p' = a_bytes (fst (a_run a os))
    /\ zlen (p_buf p') = zlen buf /\ pa_remaining p' = zlen buf - zlen (a_bytes (fst (a_run a os))) /\ 0 <= pa_remaining p'.
Proof.
  intros buf margin flags ts tse os Hf Hmax Hm a Ha.
  destruct (R_init_header buf margin flags ts tse Hf Hmax Hm) as (p & He & HR).
  destruct (R_run os p _ HR Ha) as (p' & He' & HR'). exists p, p'. split; [exact He|]. split; [exact He'|].
  split; [apply R_vector, HR'|].
  assert (Hcap : forall os a, a_cap (fst (a_run a os)) = a_cap a).
  { clear. induction os as [|o os IH]; intros a; [reflexivity|]. cbn [a_run].
    specialize (IH (fst (a_step a o))). destruct (a_step a o) as [a1 b] eqn:E. cbn [fst] in IH.
    destruct (a_run a1 os) as [a2 bs]. cbn [fst] in *. rewrite IH.
    apply (f_equal fst) in E. cbn [fst] in E. subst a1.
    destruct o; cbn [a_step]; unfold a_try;
    repeat match goal with
      | |- context [if ?c then _ else _] => destruct c
      | |- context [match a_open a with _ => _ end] => destruct (a_open a) as [[? ?]|]
      | |- context [match a_flag a with _ => _ end] => destruct (a_flag a)
      end; cbn [fst a_cap]; rewrite ?a_append_cap; reflexivity. }
  specialize (Hcap os a). destruct (R_remaining _ _ HR') as [Hr Hle]. rewrite Hr. fold a in Hr, Hle |- *. rewrite Hcap in *.
  destruct HR' as (rest & _ & _ & Hc & _). fold a in Hc. rewrite Hcap in Hc. cbn [a_cap] in *. auto.
Qed.

Lemma R_plain_run : forall buf margin os,
  zlen buf <= U64MAX -> (margin <= length buf)%nat ->
  let a := mkA (zlen buf) (firstn margin buf) None None in
  ops_allowed a os ->
  exists p', pa_run (pa_init buf margin) os = Ok (p', snd (a_run a os))
    /\ pa_to_vector p' = a_bytes (fst (a_run a os)).
Proof.
  intros buf margin os Hmax Hm a Ha.
  destruct (R_run os _ _ (R_init buf margin Hm Hmax) Ha) as (p' & He' & HR'). exists p'. split; [exact He'|].
  apply R_vector, HR'.
Qed.

Lemma parse_packet_defined : forall accept l margin, bytes_ok l -> parse_packet accept l margin <> UB.
Proof.
  intros accept l margin Hok. unfold parse_packet.
  destruct (Nat.leb_spec (length l) margin) as [H|H]; [discriminate|].
  pose proof (bytes_ok_skipn margin l Hok) as Hs.
  destruct (skipn margin l) as [|flags c0] eqn:E.
  { apply (f_equal (@length Z)) in E. rewrite skipn_length in E. cbn [length] in E. lia. }
  cbn [rd]. inversion Hs as [|? ? _ Hc0]; subst.
  assert (Hpart : forall fl c, bytes_ok c ->
    (exists x c', (if Z.land flags fl =? 0 then Ok (-1, c) else if zlen c <? 2 then Rej else rd2 c) = Ok (x, c') /\ bytes_ok c')
    \/ (if Z.land flags fl =? 0 then Ok (-1, c) else if zlen c <? 2 then Rej else rd2 c) = Rej).
  { intros fl c Hc. destruct (Z.land flags fl =? 0); [left; eexists _, _; eauto|].
    destruct (zlen c <? 2) eqn:E2; [right; reflexivity|].
    destruct c as [|a [|b c]]; [exfalso; cbn in E2; discriminate|exfalso; cbn in E2; discriminate|].
    left. rewrite rd2_cons. eexists _, _. split; [reflexivity|]. inversion Hc as [|? ? _ Hc1]; subst. inversion Hc1; assumption. }
  destruct (Hpart 8 c0 Hc0) as [(ts & c1 & -> & Hc1)| ->]; [|discriminate].
  destruct (Hpart 4 c1 Hc1) as [(tse & c2 & -> & Hc2)| ->]; [|discriminate].
  destruct (accept flags ts tse); [|discriminate].
  destruct (chunk_loop_defined (S (length c2)) c2 ltac:(lia) Hc2) as (cs & ->). discriminate.
Qed.

Lemma parse_packet_inside : forall accept l margin p, bytes_ok l -> parse_packet accept l margin = Ok p ->
  (margin < length l)%nat /\ accept (h_flags p) (h_ts p) (h_tse p) = true /\
  exists hdr body, skipn margin l = (h_flags p :: hdr) ++ body /\ chunks_inside (h_chunks p) body.
Proof.
  intros accept l margin p Hok Hp. unfold parse_packet in Hp.
  destruct (Nat.leb_spec (length l) margin) as [H|H]; [discriminate|]. split; [exact H|].
  pose proof (bytes_ok_skipn margin l Hok) as Hs.
  destruct (skipn margin l) as [|flags c0] eqn:E; [discriminate|].
  cbn [rd] in Hp. inversion Hs as [|? ? _ Hc0]; subst.
  assert (Hpart : forall fl c x c', bytes_ok c ->
    (if Z.land flags fl =? 0 then Ok (-1, c) else if zlen c <? 2 then Rej else rd2 c) = Ok (x, c') ->
    bytes_ok c' /\ exists h, c = h ++ c').
  { intros fl c x c' Hc Hx. destruct (Z.land flags fl =? 0).
    - injection Hx as <- <-. split; [exact Hc|]. exists []. reflexivity.
    - destruct (zlen c <? 2) eqn:E2; [discriminate|].
      destruct c as [|a [|b c]]; [discriminate|discriminate|].
      rewrite rd2_cons in Hx. injection Hx as <- <-. inversion Hc as [|? ? _ Hc1]; subst. inversion Hc1; subst.
      split; [assumption|]. exists [a; b]. reflexivity. }
  destruct (if Z.land flags 8 =? 0 then Ok (-1, c0) else if zlen c0 <? 2 then Rej else rd2 c0) as [[ts c1]| |] eqn:E1; try discriminate.
  destruct (Hpart 8 c0 ts c1 Hc0 E1) as (Hc1 & h1 & Hh1).
  destruct (if Z.land flags 4 =? 0 then Ok (-1, c1) else if zlen c1 <? 2 then Rej else rd2 c1) as [[tse c2]| |] eqn:E2; try discriminate.
  destruct (Hpart 4 c1 tse c2 Hc1 E2) as (Hc2 & h2 & Hh2).
  destruct (accept flags ts tse) eqn:Ea; [|discriminate].
  destruct (chunk_loop (S (length c2)) c2) as [cs| |] eqn:Ec; try discriminate. injection Hp as <-.
  cbn [h_flags h_ts h_tse h_chunks]. split; [exact Ea|]. exists (h1 ++ h2), c2.
  split; [cbn [app]; rewrite <- app_assoc, Hh1, Hh2; reflexivity|]. eapply chunk_loop_inside; eauto.
Qed.

(** ** Scrambling *)
Lemma xor_bytes_length : forall a b, length a = length b -> length (xor_bytes a b) = length a.
Proof. induction a; intros [|y b] H; cbn [length xor_bytes] in *; try lia. rewrite IHa; lia. Qed.
Lemma xor_bytes_assoc_cancel : forall a b c, length a = length b -> length b = length c ->
  xor_bytes (xor_bytes (xor_bytes (xor_bytes a b) c) b) c = a.
Proof.
  induction a as [|x a IH]; intros [|y b] [|z c] H1 H2; cbn [length xor_bytes] in *; try lia; [reflexivity|].
  rewrite IH by lia. f_equal.
  replace (Z.lxor (Z.lxor (Z.lxor (Z.lxor x y) z) y) z) with (Z.lxor x (Z.lxor (Z.lxor y y) (Z.lxor z z))).
  - rewrite !Z.lxor_nilpotent. cbn. apply Z.lxor_0_r.
  - apply Z.bits_inj'. intros n Hn. rewrite !Z.lxor_spec.
    destruct (Z.testbit x n), (Z.testbit y n), (Z.testbit z n); reflexivity.
Qed.

Lemma zpad_length : forall n l, length (zpad n l) = n.
Proof. intros. unfold zpad. rewrite firstn_length, app_length, repeat_length. lia. Qed.

Lemma zpad_firstn : forall n l, zpad n (firstn n l) = zpad n l.
Proof.
  intros n l. unfold zpad. rewrite !firstn_app, firstn_firstn, Nat.min_id. f_equal.
  rewrite firstn_length. destruct (Nat.le_ge_cases n (length l)).
  - replace (n - Nat.min n (length l))%nat with 0%nat by lia. replace (n - length l)%nat with 0%nat by lia. reflexivity.
  - replace (Nat.min n (length l)) with (length l) by lia. reflexivity.
Qed.

Lemma zpad_skip : forall k n l s, length s = k -> skipn k (zpad (k + n) (s ++ l)) = zpad n l.
Proof.
  intros k n l s Hs. unfold zpad. rewrite <- app_assoc. rewrite firstn_app.
  rewrite (firstn_all2 s) by lia. rewrite skipn_app, Hs.
  rewrite (skipn_all2 s) by lia. rewrite Nat.sub_diag, skipn_O. cbn [app].
  replace (k + n - k)%nat with n by lia.
  rewrite !firstn_app. f_equal. rewrite repeat_length || idtac.
  assert (Hr : forall m j, (j <= m)%nat -> firstn j (repeat 0 m) = repeat 0 j).
  { induction m as [|m IHm]; intros [|j] Hj; cbn [repeat firstn]; try lia; auto. rewrite IHm by lia. reflexivity. }
  rewrite !Hr by lia. reflexivity.
Qed.

Lemma zpad_head : forall k n l s, length s = k -> firstn k (zpad (k + n) (s ++ l)) = s.
Proof.
  intros k n l s Hs. unfold zpad. rewrite <- app_assoc. rewrite firstn_firstn.
  replace (Nat.min k (k + n)) with k by lia. subst k. apply firstn_app_exact.
Qed.

Lemma scramble_roundtrip : forall sid dst, length sid = 4%nat -> unscramble (scramble sid dst) = Ok (sid, dst).
Proof.
  intros sid dst Hs. unfold scramble, unscramble.
  rewrite (zpad_firstn 8 dst). set (w := zpad 8 dst).
  assert (Hw : length w = 8%nat) by apply zpad_length.
  assert (Hw1 : length (firstn 4 w) = 4%nat) by (rewrite firstn_length; lia).
  assert (Hw2 : length (skipn 4 w) = 4%nat) by (rewrite skipn_length; lia).
  set (e := xor_bytes (xor_bytes sid (firstn 4 w)) (skipn 4 w)).
  assert (He : length e = 4%nat) by (unfold e; rewrite !xor_bytes_length by (rewrite ?xor_bytes_length; lia); lia).
  destruct (zlen (e ++ dst) <? 4) eqn:E.
  { rewrite zlen_app in E. unfold zlen in E. lia. }
  rewrite zpad_firstn. change 12%nat with (4 + 8)%nat.
  rewrite (zpad_head 4 8 dst e He), (zpad_skip 4 8 dst e He). fold w.
  assert (Hsk : forall l : list Z, skipn 8 l = skipn 4 (skipn 4 l)).
  { intros l. do 4 (destruct l as [|? l]; [reflexivity|]). reflexivity. }
  rewrite Hsk, (zpad_skip 4 8 dst e He). fold w.
  replace (skipn 4 (e ++ dst)) with dst by (rewrite <- He, skipn_app_exact; reflexivity).
  unfold e. rewrite xor_bytes_assoc_cancel by lia. reflexivity.
Qed.
