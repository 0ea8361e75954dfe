From Verif Require Import Base BaseFacts VLU VLUSpec VLUProofs TC TCSpec.
Ltac Zify.zify_post_hook ::= Z.div_mod_to_equations.

Lemma Ok_inj : forall {A} (a b : A), Ok a = Ok b -> a = b.
Proof. intros A a b H. injection H. auto. Qed.
(** ** Timestamps *)
Lemma timestamps : forall l r a b, stands_for l a -> stands_for r b -> - 2 ^ 31 < a - b < 2 ^ 31 ->
  timestamp_gt l r = (a >? b) /\ timestamp_lt l r = (a <? b) /\ timestamp_diff l r = a - b.
Proof.
  intros l r a b -> ->. change (2 ^ 32) with 4294967296. change (2 ^ 31) with 2147483648. intros H.
  unfold timestamp_lt, timestamp_diff, timestamp_gt, to_i32, wrap32.
  assert (E : forall x y, (x mod 4294967296 - y mod 4294967296) mod 4294967296 = (x - y) mod 4294967296) by (intros; rewrite <- Zminus_mod; reflexivity).
  rewrite !E. destruct (Z.gtb_spec a b).
  - replace ((b - a) mod 4294967296) with (b - a + 4294967296) by lia. replace ((a - b) mod 4294967296) with (a - b) by lia.
    destruct (Z.gtb_spec (b - a + 4294967296) 2147483647); [|lia]. destruct (Z.gtb_spec (a - b) 2147483647); [lia|]. destruct (Z.ltb_spec a b); [lia|]. auto.
  - destruct (Z.eq_dec a b) as [<-|N].
    + replace (a - a) with 0 by lia. cbn. rewrite Z.ltb_irrefl. auto.
    + replace ((b - a) mod 4294967296) with (b - a) by lia. replace ((a - b) mod 4294967296) with (a - b + 4294967296) by lia.
      destruct (Z.gtb_spec (b - a) 2147483647); [lia|]. destruct (Z.gtb_spec (a - b + 4294967296) 2147483647); [|lia].
      destruct (Z.ltb_spec a b); [|lia]. repeat split; lia.
Qed.
Lemma stands_for_near : forall l r, is_u32 l -> is_u32 r -> exists a b, stands_for l a /\ stands_for r b /\ - 2 ^ 31 <= a - b < 2 ^ 31.
Proof.
  intros l r H H'. unfold is_u32, U32MAX, stands_for in *. change (2 ^ 32) with 4294967296. change (2 ^ 31) with 2147483648.
  exists (r + (if (l - r) mod 4294967296 >? 2147483647 then (l - r) mod 4294967296 - 4294967296 else (l - r) mod 4294967296)), r.
  destruct (Z.gtb_spec ((l - r) mod 4294967296) 2147483647); repeat split; lia.
Qed.
Lemma trichotomy : forall l r, is_u32 l -> is_u32 r -> (l - r) mod 2 ^ 32 <> 2 ^ 31 ->
  (timestamp_lt l r = true /\ timestamp_gt l r = false /\ l <> r) \/ (timestamp_lt l r = false /\ timestamp_gt l r = true /\ l <> r)
  \/ (timestamp_lt l r = false /\ timestamp_gt l r = false /\ l = r).
Proof.
  intros l r H H' N. unfold is_u32, U32MAX, timestamp_lt, timestamp_gt, wrap32 in *. change (2 ^ 32) with 4294967296 in *. change (2 ^ 31) with 2147483648 in *.
  destruct (Z.gtb_spec ((r - l) mod 4294967296) 2147483647), (Z.gtb_spec ((l - r) mod 4294967296) 2147483647); lia.
Qed.

(** ** Metadata *)
Lemma land_4 : forall b, is_byte b -> (Z.land b 4 =? 0) = negb (Z.testbit b 2).
Proof. intros b H. apply eqb_prop. apply (byte_sweep (fun b => Bool.eqb (Z.land b 4 =? 0) (negb (Z.testbit b 2)))); [vm_compute; reflexivity|exact H]. Qed.
Lemma land_1 : forall b, is_byte b -> (Z.land b 1 =? 1) = Z.odd b.
Proof. intros b H. apply eqb_prop. apply (byte_sweep (fun b => Bool.eqb (Z.land b 1 =? 1) (Z.odd b))); [vm_compute; reflexivity|exact H]. Qed.
Lemma tcmeta_exact : forall l, bytes_ok l -> forall sid net n,
  tcmeta_parse l = Ok (sid, net, n) <-> exists f L rest, l = 84 :: 67 :: f :: L ++ rest /\ Z.testbit f 2 = true /\ complete_vlu L /\ groups_value L <= U32MAX
     /\ sid = groups_value L /\ net = Z.odd f /\ n = (3 + length L)%nat.
Proof.
  intros l H sid net n. unfold tcmeta_parse. split.
  - destruct l as [|a [|b [|f [|x l]]]]; try discriminate.
    destruct (Z.ltb_spec (zlen (a :: b :: f :: x :: l)) 4); [discriminate|]. cbn [rd nth_error rbind skipn].
    destruct (Z.eqb_spec a 84) as [->|]; [|discriminate]. destruct (Z.eqb_spec b 67) as [->|]; [|discriminate]. cbn [negb].
    inversion H as [|? ? _ H1]; subst. inversion H1 as [|? ? _ H2]; subst. inversion H2 as [|? ? Hf H3]; subst.
    rewrite land_4, land_1 by exact Hf. destruct (Z.testbit f 2) eqn:Ef; [|discriminate]. cbn [negb].
    destruct (vlu_parse_spec (x :: l) H3) as [(_ & ->)|(pre & rest & E & C & ->)]; [discriminate|]. cbn [rbind].
    destruct (Z.gtb_spec (Z.min (groups_value pre) U64MAX) U32MAX); [discriminate|]. intros X. injection X as <- <- <-.
    exists f, pre, rest. rewrite E. unfold U64MAX, U32MAX in *. repeat split; try assumption; try lia.
  - intros (f & L & rest & -> & Ef & C & B & -> & -> & ->).
    inversion H as [|? ? _ H1]; subst. inversion H1 as [|? ? _ H2]; subst. inversion H2 as [|? ? Hf H3]; subst.
    pose proof (complete_vlu_length L C) as CL.
    destruct (Z.ltb_spec (zlen (84 :: 67 :: f :: L ++ rest)) 4) as [X|_]; [rewrite !zlen_cons, zlen_app in X; unfold zlen in X; lia|].
    cbn [rd nth_error rbind skipn]. cbn [Z.eqb Pos.eqb negb]. rewrite land_4, land_1, Ef by exact Hf. cbn [negb].
    apply bytes_ok_app in H3. rewrite vlu_parse_complete by tauto. cbn [rbind].
    unfold U64MAX, U32MAX in *. destruct (Z.gtb_spec (Z.min (groups_value L) 18446744073709551615) 4294967295); [lia|].
    rewrite Z.min_l by lia. reflexivity.
Qed.
Lemma tcmeta_defined : forall l, bytes_ok l -> tcmeta_parse l <> UB.
Proof.
  intros l H. unfold tcmeta_parse. destruct l as [|a [|b [|f [|x l]]]]; try discriminate.
  destruct (_ <? 4); [discriminate|]. cbn [rd nth_error rbind skipn]. destruct (negb (a =? 84)); [discriminate|]. destruct (negb (b =? 67)); [discriminate|].
  destruct (_ =? 0); [discriminate|]. inversion H as [|? ? _ H1]; subst. inversion H1 as [|? ? _ H2]; subst. inversion H2 as [|? ? Hf H3]; subst.
  destruct (vlu_parse_spec (x :: l) H3) as [(_ & ->)|(pre & rest & E & C & ->)]; [discriminate|]. cbn [rbind]. destruct (_ >? _); discriminate.
Qed.
Lemma tcmeta_roundtrip : forall sid net rest, is_u32 sid -> bytes_ok rest ->
  tcmeta_parse (tcmeta_encode sid net ++ rest) = Ok (sid, net, length (tcmeta_encode sid net)).
Proof.
  intros sid net rest H Hr. unfold tcmeta_encode, vlu_append. unfold is_u32, U32MAX in H.
  assert (U : is_u64 sid) by (unfold is_u64, U64MAX; lia). destruct (vlu_encode_spec sid U) as (C & G & _). pose proof (vlu_encode_bytes sid U) as B.
  assert (F : is_byte (Z.lor 4 (if net then 1 else 0))) by (destruct net; vm_compute; split; congruence).
  apply tcmeta_exact.
  - apply bytes_ok_app. split; [|exact Hr]. apply bytes_ok_app. split; [|exact B]. repeat constructor; unfold is_byte in *; lia.
  - exists (Z.lor 4 (if net then 1 else 0)), (vlu_encode sid), rest. split; [rewrite <- app_assoc; reflexivity|]. split; [destruct net; reflexivity|].
    split; [exact C|]. rewrite G. split; [unfold U32MAX; lia|]. split; [reflexivity|]. split; [destruct net; reflexivity|]. rewrite app_length. reflexivity.
Qed.

(** ** Messages *)
Lemma land255_bytes : forall ts, is_u32 ts ->
  [Z.land (Z.shiftr ts 24) 255; Z.land (Z.shiftr ts 16) 255; Z.land (Z.shiftr ts 8) 255; Z.land ts 255] = be32 ts.
Proof.
  intros ts H. unfold is_u32, U32MAX in H. unfold be32. rewrite !land_255. rewrite !Z.shiftr_div_pow2 by lia.
  change (2 ^ 24) with 16777216. change (2 ^ 16) with 65536. change (2 ^ 8) with 256. replace ((ts / 16777216) mod 256) with (ts / 16777216) by lia. reflexivity.
Qed.
Lemma header_exact : forall l, bytes_ok l -> forall ty ts n,
  tc_header l = Ok (ty, ts, n) <-> exists msg, l = ty :: be32 ts ++ msg /\ is_u32 ts /\ n = 5%nat.
Proof.
  intros l H ty ts n. unfold tc_header. split.
  - destruct l as [|a [|b [|c [|d [|e l]]]]]; try discriminate. destruct (_ <? 5); [discriminate|]. cbn [rd nth_error rbind].
    inversion H as [|? ? Ha H1]; subst. inversion H1 as [|? ? Hb H2]; subst. inversion H2 as [|? ? Hc H3]; subst. inversion H3 as [|? ? Hd H4]; subst. inversion H4 as [|? ? He H5]; subst.
    unfold is_byte in *. intros X.
    assert (E : wrap32 (wrap32 (Z.shiftl (wrap32 (wrap32 (Z.shiftl (wrap32 (wrap32 (Z.shiftl b 8) + c)) 8) + d)) 8) + e) = 16777216 * b + 65536 * c + 256 * d + e).
    { rewrite !shiftl_8. unfold wrap32.
      rewrite (Z.mod_small (b * 256)) by lia. rewrite (Z.mod_small (b * 256 + c)) by lia. rewrite (Z.mod_small ((b * 256 + c) * 256)) by lia.
      rewrite (Z.mod_small ((b * 256 + c) * 256 + d)) by lia. rewrite (Z.mod_small (((b * 256 + c) * 256 + d) * 256)) by lia. rewrite Z.mod_small by lia. lia. }
    rewrite E in X. remember (16777216 * b + 65536 * c + 256 * d + e) as T eqn:ET. clear E. injection X as <- <- <-. exists l. split; [|split; [unfold is_u32, U32MAX; lia|reflexivity]]. unfold be32. change (2 ^ 24) with 16777216. change (2 ^ 16) with 65536. change (2 ^ 8) with 256.
    replace (T / 16777216) with b by lia. replace ((T / 65536) mod 256) with c by lia. replace ((T / 256) mod 256) with d by lia. replace (T mod 256) with e by lia. reflexivity.
  - intros (msg & -> & U & ->). unfold is_u32, U32MAX in U. unfold be32. cbn [app rd nth_error rbind].
    destruct (Z.ltb_spec (zlen (ty :: ts / 2 ^ 24 :: ts / 2 ^ 16 mod 256 :: ts / 2 ^ 8 mod 256 :: ts mod 256 :: msg)) 5) as [X|_].
    { rewrite !zlen_cons in X. pose proof (zlen_nonneg _ msg). lia. }
    do 3 f_equal. change (2 ^ 24) with 16777216. change (2 ^ 16) with 65536. change (2 ^ 8) with 256. rewrite !shiftl_8.
    set (b := ts / 16777216). set (c := (ts / 65536) mod 256). set (d := (ts / 256) mod 256). set (e := ts mod 256).
    assert (E : ts = 16777216 * b + 65536 * c + 256 * d + e /\ 0 <= b < 256 /\ 0 <= c < 256 /\ 0 <= d < 256 /\ 0 <= e < 256) by (subst b c d e; lia).
    clearbody b c d e. destruct E as (E & Hb & Hc & Hd & He). unfold wrap32.
    rewrite (Z.mod_small (b * 256)) by lia. rewrite (Z.mod_small (b * 256 + c)) by lia. rewrite (Z.mod_small ((b * 256 + c) * 256)) by lia.
    rewrite (Z.mod_small ((b * 256 + c) * 256 + d)) by lia. rewrite (Z.mod_small (((b * 256 + c) * 256 + d) * 256)) by lia. rewrite Z.mod_small by lia. lia.
Qed.
Lemma header_defined : forall l, tc_header l <> UB.
Proof.
  intros l. unfold tc_header. destruct l as [|a [|b [|c [|d [|e l]]]]]; try discriminate. destruct (_ <? 5); discriminate.
Qed.
Lemma message_roundtrip : forall ty ts msg, is_byte ty -> is_u32 ts -> bytes_ok msg ->
  tc_header (tc_message ty ts msg) = Ok (ty, ts, 5%nat) /\ skipn 5 (tc_message ty ts msg) = msg.
Proof.
  intros ty ts msg H U B. split; [|reflexivity]. unfold tc_message.
  change ([ty; Z.land (Z.shiftr ts 24) 255; Z.land (Z.shiftr ts 16) 255; Z.land (Z.shiftr ts 8) 255; Z.land ts 255] ++ msg)
    with (ty :: [Z.land (Z.shiftr ts 24) 255; Z.land (Z.shiftr ts 16) 255; Z.land (Z.shiftr ts 8) 255; Z.land ts 255] ++ msg).
  rewrite land255_bytes by exact U. apply header_exact; [|exists msg; auto]. constructor; [exact H|]. apply bytes_ok_app. split; [|exact B].
  unfold is_u32, U32MAX in U. unfold be32. change (2 ^ 24) with 16777216. change (2 ^ 16) with 65536. change (2 ^ 8) with 256. repeat constructor; unfold is_byte; lia.
Qed.

(** ** Payloads *)
Ltac rdl l := destruct l as [|?a [|?b [|?c [|?d [|?e ?l]]]]];
  unfold audio_special, audio_codec, audio_init, audio_end, audio_multichannel, audio_multitrack, audio_enhanced,
    video_keyframe, video_codec, video_init, video_special, video_metadata, video_multitrack, video_enhanced, fourcc;
  repeat match goal with |- context [zlen (?x :: ?r) ?op ?n] => idtac end.
Lemma payload_defined : forall l, exists v1 v2 v3 v4 v5 v6 v7 a1 a2 a3 a4 a5 a6 a7,
  video_enhanced l = Ok v1 /\ video_metadata l = Ok v2 /\ video_multitrack l = Ok v3 /\ video_special l = Ok v4 /\ video_init l = Ok v5 /\ video_keyframe l = Ok v6 /\ video_codec l = Ok v7
  /\ audio_enhanced l = Ok a1 /\ audio_multichannel l = Ok a2 /\ audio_multitrack l = Ok a3 /\ audio_init l = Ok a4 /\ audio_end l = Ok a5 /\ audio_special l = Ok a6 /\ audio_codec l = Ok a7.
Proof.
  assert (K : forall {A} (x : res A), x <> UB -> x <> Rej -> exists v, x = Ok v) by (intros A [v| |] X Y; [eauto|contradiction|contradiction]).
  assert (LN : forall (a b c d e : Z) l, zlen (a :: b :: c :: d :: e :: l) >=? 5 = true /\ zlen (a :: b :: c :: d :: e :: l) =? 0 = false
            /\ zlen (a :: b :: c :: d :: e :: l) <? 2 = false /\ zlen (a :: b :: c :: d :: e :: l) >? 1 = true).
  { intros. rewrite !zlen_cons. pose proof (zlen_nonneg _ l). repeat split; lia. }
  assert (VE : forall l, exists v, video_enhanced l = Ok v /\ (v = true -> 5 <= zlen l)).
  { intros l. unfold video_enhanced. destruct (Z.geb_spec (zlen l) 5); [|eexists; split; [reflexivity|discriminate]].
    destruct l as [|a l]; [cbn in *; lia|]. cbn. eexists; split; [reflexivity|auto]. }
  assert (AE : forall l, exists v, audio_enhanced l = Ok v /\ (v = true -> 5 <= zlen l)).
  { intros l. unfold audio_enhanced. destruct (Z.geb_spec (zlen l) 5); [|eexists; split; [reflexivity|discriminate]].
    destruct l as [|a l]; [cbn in *; lia|]. cbn. eexists; split; [reflexivity|auto]. }
  assert (R0 : forall l, 1 <= zlen l -> exists v, rd l 0 = Ok v) by (intros [|a l] X; [cbn in X; lia|cbn; eauto]).
  assert (R1 : forall l, 2 <= zlen l -> exists v, rd l 1 = Ok v) by (intros [|a [|b l]] X; [cbn in X; lia|cbn in X; lia|cbn; eauto]).
  assert (F : forall l, 5 <= zlen l -> exists v, fourcc l = Ok v) by (intros [|a [|b [|c [|d [|e l]]]]] X; try (cbn in X; lia); cbn; eauto).
  intros l. destruct (VE l) as (ve & E & EL), (AE l) as (ae & E' & EL'). pose proof (zlen_nonneg _ l) as LP.
  assert (M : exists v, video_metadata l = Ok v).
  { unfold video_metadata. rewrite E. cbn [rbind]. destruct ve; [|eauto]. destruct (R0 l ltac:(specialize (EL eq_refl); lia)) as (v & ->). cbn. eauto. }
  assert (MT : exists v, video_multitrack l = Ok v).
  { unfold video_multitrack. rewrite E. cbn [rbind]. destruct ve; [|eauto]. destruct (R0 l ltac:(specialize (EL eq_refl); lia)) as (v & ->). cbn. eauto. }
  destruct M as (v2 & M), MT as (v3 & MT).
  assert (S : exists v, video_special l = Ok v).
  { unfold video_special. destruct (Z.eqb_spec (zlen l) 0); [eauto|]. destruct (Z.ltb_spec (zlen l) 2); [eauto|]. rewrite E. cbn [rbind].
    destruct (R0 l ltac:(lia)) as (v & ->). cbn [rbind]. destruct ve; [rewrite MT; cbn [rbind]; destruct v3; eauto|]. destruct (R1 l ltac:(lia)) as (w & ->). cbn. eauto. }
  destruct S as (v4 & S).
  assert (I : exists v, video_init l = Ok v).
  { unfold video_init. rewrite E. cbn [rbind]. destruct ve; [destruct (R0 l ltac:(specialize (EL eq_refl); lia)) as (v & ->); cbn; eauto|].
    destruct (Z.gtb_spec (zlen l) 1); [|eauto]. destruct (R0 l ltac:(lia)) as (v & ->). destruct (R1 l ltac:(lia)) as (w & ->). cbn [rbind]. destruct (_ =? _); eauto. }
  destruct I as (v5 & I).
  assert (KF : exists v, video_keyframe l = Ok v).
  { unfold video_keyframe. destruct (Z.eqb_spec (zlen l) 0); [eauto|]. destruct (R0 l ltac:(lia)) as (v & ->). cbn [rbind]. destruct (_ =? _); [|eauto]. rewrite S. cbn. eauto. }
  destruct KF as (v6 & KF).
  assert (VC : exists v, video_codec l = Ok v).
  { unfold video_codec. rewrite E. cbn [rbind]. destruct ve; [rewrite MT; cbn [rbind]; destruct v3; [eauto|apply F; auto]|].
    destruct (Z.eqb_spec (zlen l) 0); [eauto|]. destruct (R0 l ltac:(lia)) as (v & ->). cbn. eauto. }
  destruct VC as (v7 & VC).
  assert (C2 : exists v, audio_multichannel l = Ok v).
  { unfold audio_multichannel. rewrite E'. cbn [rbind]. destruct ae; [|eauto]. destruct (R0 l ltac:(specialize (EL' eq_refl); lia)) as (v & ->). cbn. eauto. }
  assert (C3 : exists v, audio_multitrack l = Ok v).
  { unfold audio_multitrack. rewrite E'. cbn [rbind]. destruct ae; [|eauto]. destruct (R0 l ltac:(specialize (EL' eq_refl); lia)) as (v & ->). cbn. eauto. }
  destruct C2 as (a2 & C2), C3 as (a3 & C3).
  assert (C4 : exists v, audio_init l = Ok v).
  { unfold audio_init. rewrite E'. cbn [rbind]. destruct ae; [destruct (R0 l ltac:(specialize (EL' eq_refl); lia)) as (v & ->); cbn; eauto|].
    destruct (Z.gtb_spec (zlen l) 1); [|eauto]. destruct (R0 l ltac:(lia)) as (v & ->). destruct (R1 l ltac:(lia)) as (w & ->). cbn [rbind]. destruct (_ =? _); eauto. }
  assert (C5 : exists v, audio_end l = Ok v).
  { unfold audio_end. destruct (Z.eqb_spec (zlen l) 0); [eauto|]. destruct (R0 l ltac:(lia)) as (v & ->). cbn. eauto. }
  destruct C4 as (a4 & C4), C5 as (a5 & C5).
  assert (C6 : exists v, audio_special l = Ok v).
  { unfold audio_special. rewrite C5. cbn [rbind]. destruct a5; [eauto|]. rewrite C4. cbn [rbind]. destruct a4; eauto. }
  assert (C7 : exists v, audio_codec l = Ok v).
  { unfold audio_codec. rewrite E'. cbn [rbind]. destruct ae; [rewrite C3; cbn [rbind]; destruct a3; [eauto|apply F; auto]|].
    destruct (Z.eqb_spec (zlen l) 0); [eauto|]. destruct (R0 l ltac:(lia)) as (v & ->). cbn. eauto. }
  destruct C6 as (a6 & C6), C7 as (a7 & C7). exists ve, v2, v3, v4, v5, v6, v7, ae, a2, a3, a4, a5, a6, a7. repeat split; assumption.
Qed.
Lemma init_special : forall l, (video_init l = Ok true -> video_special l = Ok true /\ video_keyframe l = Ok false) /\ (audio_init l = Ok true -> audio_special l = Ok true).
Proof.
  intros l. split.
  - intros H. assert (S : video_special l = Ok true).
    { unfold video_init in H. destruct (video_enhanced l) as [ve| |] eqn:E; cbn [rbind] in H; try discriminate. destruct ve.
      - destruct l as [|a [|b l]]; try (vm_compute in E; discriminate). unfold video_special, video_multitrack. rewrite E. cbn [rbind rd nth_error] in *.
        destruct (Z.eqb_spec (zlen (a :: b :: l)) 0); [reflexivity|]. destruct (Z.ltb_spec (zlen (a :: b :: l)) 2) as [X|_]; [rewrite !zlen_cons in X; pose proof (zlen_nonneg _ l); lia|].
        apply Ok_inj in H. destruct (Z.eqb_spec 0 (Z.land a 15)) as [X|X]; [rewrite <- X; reflexivity|]. destruct (Z.eqb_spec 5 (Z.land a 15)) as [Y|Y]; [rewrite <- Y; reflexivity|discriminate].
      - destruct (Z.gtb_spec (zlen l) 1); [|discriminate]. destruct l as [|a [|b l]]; [cbn in *; lia|cbn in *; lia|]. cbn [rd nth_error rbind] in H.
        destruct (Z.eqb_spec 7 (Z.land a 15)) as [X|X]; [|discriminate]. cbn [rbind] in H. apply Ok_inj in H. unfold video_special. rewrite E. cbn [rbind rd nth_error].
        destruct (Z.eqb_spec (zlen (a :: b :: l)) 0); [reflexivity|]. destruct (Z.ltb_spec (zlen (a :: b :: l)) 2); [lia|].
        rewrite <- X. destruct (Z.eqb_spec 0 b) as [<-|]; [reflexivity|discriminate]. }
    split; [exact S|]. unfold video_keyframe. destruct (Z.eqb_spec (zlen l) 0); [reflexivity|]. destruct l as [|a l]; [cbn in *; lia|]. cbn [rd nth_error rbind].
    rewrite S. cbn [rbind negb]. destruct (_ =? _); reflexivity.
  - intros H. unfold audio_special. destruct (payload_defined l) as (v1 & v2 & v3 & v4 & v5 & v6 & v7 & a1 & a2 & a3 & a4 & a5 & a6 & a7 & D).
    destruct D as (_ & _ & _ & _ & _ & _ & _ & _ & _ & _ & D4 & D5 & _ & _). rewrite D5, H. cbn [rbind]. destruct a5; reflexivity.
Qed.
Lemma eos_codec : forall codec, is_u32 codec -> codec > 15 \/ codec = 7 ->
  video_codec (video_eos codec) = Ok codec /\ video_special (video_eos codec) = Ok true /\ video_init (video_eos codec) = Ok false /\ video_keyframe (video_eos codec) = Ok false.
Proof.
  intros codec U [H| ->]; [|vm_compute; auto].
  assert (E : video_eos codec = 146 :: be32 codec).
  { unfold video_eos. destruct (Z.gtb_spec codec 15); [|lia]. rewrite <- land255_bytes by exact U. reflexivity. }
  rewrite E. unfold be32. clear E.
  assert (P : forall b c d e, video_codec [146; b; c; d; e] = Ok (wrap32 (Z.shiftl b 24 + Z.shiftl c 16 + Z.shiftl d 8 + e)) /\ video_special [146; b; c; d; e] = Ok true
     /\ video_init [146; b; c; d; e] = Ok false /\ video_keyframe [146; b; c; d; e] = Ok false) by (intros; repeat split).
  destruct (P (codec / 2 ^ 24) (codec / 2 ^ 16 mod 256) (codec / 2 ^ 8 mod 256) (codec mod 256)) as (P1 & P2 & P3 & P4).
  split; [|auto]. rewrite P1. f_equal. clear P P1 P2 P3 P4 H. unfold is_u32, U32MAX in U.
  rewrite !Z.shiftl_mul_pow2 by lia. change (2 ^ 24) with 16777216. change (2 ^ 16) with 65536. change (2 ^ 8) with 256. unfold wrap32. lia.
Qed.
