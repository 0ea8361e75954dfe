(** C61: the chunks of the startup handshake.  The wire grammar is in StartupSpec.v; [sized] says that the bytes are bytes and that
    there are fewer than 2^64 of them. *)
From Verif Require Import Base BaseFacts VLU VLUSpec VLUProofs Address AddressSpec AddressProofs Packet PacketSpec PacketProofs Startup StartupSpec StartupProofs.
Ltac Zify.zify_post_hook ::= Z.div_mod_to_equations.

(** C61.  Every chunk is read exactly as the grammar says: accepted with these parts if and only if it consists of them. *)
Theorem C61_ihello_exact : forall c epd tag, sized c -> (parse_ihello c = Ok (epd, tag) <-> ihello_wire epd tag c).
Proof. exact ihello_iff. Qed.
Print Assumptions C61_ihello_exact.
Theorem C61_fihello_exact : forall c epd a tag, sized c -> (parse_fihello c = Ok (epd, a, tag) <-> fihello_wire epd a tag c).
Proof. exact fihello_iff. Qed.
Print Assumptions C61_fihello_exact.
Theorem C61_rhello_exact : forall c tag cookie cert, sized c -> (parse_rhello c = Ok (tag, cookie, cert) <-> rhello_wire tag cookie cert c).
Proof. exact rhello_iff. Qed.
Print Assumptions C61_rhello_exact.
Theorem C61_cookie_change_exact : forall c o n, sized c -> (parse_cookie_change c = Ok (o, n) <-> ihello_wire o n c).
Proof. exact cookie_change_iff. Qed.
Print Assumptions C61_cookie_change_exact.
(** A redirect that names no address means the address it came from, as observed. *)
Theorem C61_redirect_exact : forall c from tag addrs, sized c ->
  (parse_redirect c from = Ok (tag, addrs) <-> exists l, redirect_wire tag l c /\ (l = [] /\ addrs = [mkAddr (a_fam from) (a_ip from) (a_port from) 2] \/ l <> [] /\ addrs = l)).
Proof.
  intros c from tag addrs S. rewrite (redirect_iff c from tag addrs S). split; intros (l & W & H); exists l; (split; [exact W|]).
  - destruct l; [left; auto|right; split; [discriminate|exact H]].
  - destruct H as [(-> & H)|(N & H)]; [exact H|]. destruct l; [congruence|exact H].
Qed.
Print Assumptions C61_redirect_exact.
(** The text that is checked is the whole of the chunk before the signature. *)
Theorem C61_iikeying_exact : forall c isid cookie cert skic signed sig, sized c ->
  (parse_iikeying c = Ok (isid, cookie, cert, skic, signed, sig) <-> ii_signed_wire isid cookie cert skic signed /\ c = signed ++ sig).
Proof. exact iikeying_iff. Qed.
Print Assumptions C61_iikeying_exact.
Theorem C61_rikeying_exact : forall c rsid skrc signed sig, sized c ->
  (parse_rikeying c = Ok (rsid, skrc, signed, sig) <-> ri_signed_wire rsid skrc signed /\ c = signed ++ sig).
Proof. exact rikeying_iff. Qed.
Print Assumptions C61_rikeying_exact.

Example C61_exact_example :
  parse_ihello [2; 7; 8; 1; 1] = Ok ([7; 8], [1; 1]) /\ parse_ihello [3; 7; 8] = Rej /\ parse_ihello [128; 2; 7; 8] = Ok ([7; 8], [])
  /\ parse_fihello [1; 7; 2; 10; 0; 0; 1; 7; 143; 5] = Ok ([7], mkAddr AF_INET [10; 0; 0; 1] 1935 2, [5])
  /\ parse_rhello [1; 4; 2; 5; 6; 9] = Ok ([4], [5; 6], [9])
  /\ parse_redirect [1; 4] (mkAddr AF_INET [10; 0; 0; 1] 1935 0) = Ok ([4], [mkAddr AF_INET [10; 0; 0; 1] 1935 2])
  /\ parse_redirect [1; 4; 1; 10; 0; 0; 2; 0; 80] (mkAddr AF_INET [10; 0; 0; 1] 1935 0) = Ok ([4], [mkAddr AF_INET [10; 0; 0; 2] 80 1])
  /\ parse_iikeying [1; 0; 0; 0; 1; 2; 1; 3; 1; 4; 9; 9] = Ok (1, [2], [3], [4], [1; 0; 0; 0; 1; 2; 1; 3; 1; 4], [9; 9])
  /\ parse_rikeying [1; 2; 0; 0; 1; 5; 9] = Ok (513, [5], [1; 2; 0; 0; 1; 5], [9]) /\ parse_rikeying [1; 2; 0] = Rej.
Proof. vm_compute. repeat split. Qed.

(** C61.  Whatever the bytes of a chunk, no byte outside it is read. *)
Theorem C61_read_safe : forall c from, bytes_ok c ->
  parse_ihello c <> UB /\ parse_rhello c <> UB /\ parse_redirect c from <> UB /\ parse_iikeying c <> UB /\ parse_rikeying c <> UB /\ parse_cookie_change c <> UB /\ parse_fihello c <> UB.
Proof. exact startup_def. Qed.
Print Assumptions C61_read_safe.

(** C61.  What is written is a chunk of the right type whose contents are the given parts in the grammar; it is written if and only
    if there is room for it in the 4256 bytes of a startup packet. *)
Theorem C61_ihello_made : forall epd tag, sized epd -> sized tag ->
  exists w, ihello_wire epd tag w /\ make_ihello epd tag = Ok (if 3 + zlen w <=? 4256 then Some (chunk_bytes 48 w) else None).
Proof. intros epd tag S1 S2. exists (field epd ++ tag). split; [exists (field epd); split; [apply field_enc'; exact S1|reflexivity]|apply make_ihello_ok; assumption]. Qed.
Print Assumptions C61_ihello_made.
Theorem C61_rhello_made : forall tag cookie cert, sized tag -> sized cookie -> sized cert ->
  exists w, rhello_wire tag cookie cert w /\ make_rhello tag cookie cert = Ok (if 3 + zlen w <=? 4256 then Some (chunk_bytes 112 w) else None).
Proof. intros tag cookie cert S1 S2 S3. exists (field tag ++ field cookie ++ cert). split; [exists (field tag), (field cookie); repeat (split; [apply field_enc'; assumption|]); reflexivity|apply make_rhello_ok; assumption]. Qed.
Print Assumptions C61_rhello_made.
Theorem C61_redirect_made : forall tag addrs, sized tag -> Forall addr_ok addrs -> Forall (fun a => a_fam a <> 0) addrs ->
  exists w, redirect_wire tag addrs w /\ make_redirect tag addrs = Ok (if 3 + zlen w <=? 4256 then Some (chunk_bytes 113 w) else None).
Proof. intros tag addrs S A N. exists (field tag ++ addrs_text addrs). split; [exists (field tag), (addrs_text addrs); split; [apply field_enc'; exact S|split; [apply addrs_enc; assumption|reflexivity]]|apply make_redirect_ok; assumption]. Qed.
Print Assumptions C61_redirect_made.
Theorem C61_cookie_change_made : forall o n, sized o -> sized n ->
  exists w, ihello_wire o n w /\ make_cookie_change o n = Ok (if 3 + zlen w <=? 4256 then Some (chunk_bytes 121 w) else None).
Proof. intros o n S1 S2. exists (field o ++ n). split; [exists (field o); split; [apply field_enc'; exact S1|reflexivity]|apply make_cookie_change_ok; assumption]. Qed.
Print Assumptions C61_cookie_change_made.
(** The initiator signs the whole text before the signature. *)
Theorem C61_iikeying_made : forall isid cookie cert skic sign, is_u32 isid -> sized cookie -> sized cert -> sized skic -> (forall l, bytes_ok l -> bytes_ok (sign l)) ->
  exists t, ii_signed_wire isid cookie cert skic t
    /\ make_iikeying isid cookie cert skic sign = Ok (if 3 + zlen t + zlen (sign t) <=? 4256 then Some (t, chunk_bytes 56 (t ++ sign t)) else None).
Proof. intros isid cookie cert skic sign U S1 S2 S3 B. exists (ii_text isid cookie cert skic). split; [apply ii_enc; assumption|apply make_iikeying_ok; assumption]. Qed.
Print Assumptions C61_iikeying_made.
(** The responder signs its text followed by the initiator's component, which is not repeated in the chunk. *)
Theorem C61_rikeying_made : forall rsid skrc skic sign, is_u32 rsid -> sized skrc ->
  exists t, ri_signed_wire rsid skrc t /\ make_rikeying rsid skrc skic sign = (t ++ skic, chunk_bytes 120 (t ++ sign (t ++ skic))).
Proof. intros rsid skrc skic sign U S. exists (ri_text rsid skrc). split; [apply ri_enc; assumption|apply make_rikeying_ok; assumption]. Qed.
Print Assumptions C61_rikeying_made.

Example C61_made_example :
  make_ihello [7; 8] [1; 1] = Ok (Some [48; 0; 5; 2; 7; 8; 1; 1])
  /\ make_rhello [4] [5; 6] [9] = Ok (Some [112; 0; 6; 1; 4; 2; 5; 6; 9])
  /\ make_redirect [4] [mkAddr AF_INET [10; 0; 0; 2] 80 1] = Ok (Some [113; 0; 9; 1; 4; 1; 10; 0; 0; 2; 0; 80])
  /\ make_cookie_change [1; 2] [3] = Ok (Some [121; 0; 4; 2; 1; 2; 3])
  /\ make_iikeying 1 [2] [3] [4] (fun l => [zlen l]) = Ok (Some ([1; 0; 0; 0; 1; 2; 1; 3; 1; 4], [56; 0; 11; 1; 0; 0; 0; 1; 2; 1; 3; 1; 4; 10]))
  /\ make_rikeying 513 [5] [4] (fun l => [zlen l]) = ([1; 2; 0; 0; 1; 5; 4], [120; 0; 7; 1; 2; 0; 0; 1; 5; 7])
  /\ make_ihello (repeat 7 4252) [] = Ok None.
Proof. vm_compute. repeat split. Qed.

(** C61.  So the far end reads what was written, and checks the signature over what was signed. *)
Theorem C61_iikeying_agrees : forall isid cookie cert skic sign t c, is_u32 isid -> sized cookie -> sized cert -> sized skic -> (forall l, bytes_ok l -> bytes_ok (sign l)) ->
  make_iikeying isid cookie cert skic sign = Ok (Some (t, c)) ->
  exists w, c = chunk_bytes 56 w /\ sized w /\ parse_iikeying w = Ok (isid, cookie, cert, skic, t, sign t).
Proof.
  intros isid cookie cert skic sign t c U S1 S2 S3 B M. destruct (C61_iikeying_made isid cookie cert skic sign U S1 S2 S3 B) as (t' & W & E). rewrite E in M. destruct (Z.leb_spec (3 + zlen t' + zlen (sign t')) 4256) as [L|L]; [|discriminate].
  apply Ok_inj in M. assert (t' = t /\ chunk_bytes 56 (t' ++ sign t') = c) as (-> & <-) by (split; congruence). exists (t ++ sign t). split; [reflexivity|].
  assert (BT : bytes_ok t). { destruct W as (i & f & g & h & I & F & G & H & ->). destruct (id_le32_eq _ _ I) as (-> & _). apply bytes_ok_app. split; [apply le32_bytes|]. apply bytes_ok_app. split; [apply (field_bytes cookie); [apply S1|exact F]|]. apply bytes_ok_app. split; [apply (field_bytes cert); [apply S2|exact G]|apply (field_bytes skic); [apply S3|exact H]]. }
  assert (SZ : sized (t ++ sign t)) by (apply sized_app; split; [exact BT|]; split; [apply B; exact BT|unfold U64MAX; lia]). split; [exact SZ|]. apply iikeying_iff; [exact SZ|]. auto.
Qed.
Print Assumptions C61_iikeying_agrees.
Theorem C61_rikeying_agrees : forall rsid skrc skic sign t c, is_u32 rsid -> sized skrc -> bytes_ok skic -> (forall l, bytes_ok l -> bytes_ok (sign l)) ->
  make_rikeying rsid skrc skic sign = (t, c) -> zlen c < U64MAX ->
  exists w t0, c = chunk_bytes 120 w /\ parse_rikeying w = Ok (rsid, skrc, t0, sign (t0 ++ skic)) /\ t = t0 ++ skic.
Proof.
  intros rsid skrc skic sign t c U S1 BK B M L. destruct (C61_rikeying_made rsid skrc skic sign U S1) as (t0 & W & E). rewrite E in M. assert (t = t0 ++ skic /\ c = chunk_bytes 120 (t0 ++ sign (t0 ++ skic))) as (-> & ->) by (split; congruence).
  exists (t0 ++ sign (t0 ++ skic)), t0. split; [reflexivity|]. split; [|reflexivity]. assert (BT : bytes_ok t0). { destruct W as (i & f & I & F & ->). destruct (id_le32_eq _ _ I) as (-> & _). apply bytes_ok_app. split; [apply le32_bytes|apply (field_bytes skrc); [apply S1|exact F]]. }
  apply rikeying_iff; [|auto]. assert (BS : bytes_ok (sign (t0 ++ skic))) by (apply B; apply bytes_ok_app; auto). split; [apply bytes_ok_app; auto|]. unfold chunk_bytes, zlen in *. cbn [length be16 app] in L. lia.
Qed.
Print Assumptions C61_rikeying_agrees.

(** C61.  A signed text has one reading: no other initiator's or responder's parts give the same text. *)
Theorem C61_ii_text_once : forall i1 c1 ce1 s1 i2 c2 ce2 s2 w, sized w -> ii_signed_wire i1 c1 ce1 s1 w -> ii_signed_wire i2 c2 ce2 s2 w ->
  i1 = i2 /\ c1 = c2 /\ ce1 = ce2 /\ s1 = s2.
Proof. exact ii_unique. Qed.
Print Assumptions C61_ii_text_once.
Theorem C61_ri_text_once : forall r1 k1 t1 s1 r2 k2 t2 s2, sized (t1 ++ s1) -> ri_signed_wire r1 k1 t1 -> ri_signed_wire r2 k2 t2 -> t1 ++ s1 = t2 ++ s2 ->
  r1 = r2 /\ k1 = k2 /\ s1 = s2.
Proof. exact ri_unique. Qed.
Print Assumptions C61_ri_text_once.
Example C61_once_example : ii_signed_wire 1 [2] [3] [4] [1; 0; 0; 0; 1; 2; 1; 3; 1; 4] /\ ri_signed_wire 513 [5] [1; 2; 0; 0; 1; 5] /\ sized [1; 0; 0; 0; 1; 2; 1; 3; 1; 4].
Proof.
  assert (S : forall x, 0 <= x < 128 -> sized [x]) by (intros x H; split; [apply Forall_cons; [unfold is_byte, U8MAX; lia|apply Forall_nil]|reflexivity]).
  split; [apply (ii_enc 1 [2] [3] [4]); try (apply S; lia); unfold is_u32, U32MAX; lia|]. split; [apply (ri_enc 513 [5]); [unfold is_u32, U32MAX; lia|apply S; lia]|].
  split; [apply bytes_okb_ok; reflexivity|reflexivity].
Qed.

(** C61.  The packet in which chunks go out parses back to them, whatever padding the cipher adds. *)
Theorem C61_packet : forall buf m mode ts tse cs pk accept n, is_byte mode -> zlen buf <= U64MAX -> (m + 5 <= length buf)%nat -> ts <= 65535 -> tse <= 65535 -> Forall chunk_ok cs ->
  startup_packet buf m mode ts tse (chunks_bytes cs) = Ok (Some pk) -> Z.of_nat n < 65538 ->
  accept (header_flags mode ts tse) (if ts >=? 0 then ts else -1) (if tse >=? 0 then tse else -1) = true ->
  zlen pk <= zlen buf /\ parse_packet accept (pk ++ repeat 255 n) m = Ok (mkParsed (header_flags mode ts tse) (if ts >=? 0 then ts else -1) (if tse >=? 0 then tse else -1) cs).
Proof.
  intros buf m mode ts tse cs pk accept n B L M T1 T2 C E N A. rewrite startup_packet_ok in E by assumption. destruct (Z.leb_spec (Z.of_nat m + zlen (header_bytes mode ts tse) + zlen (chunks_bytes cs)) (zlen buf)) as [LE|LE]; [|discriminate].
  apply Ok_inj in E. assert (E' : pk = firstn m buf ++ header_bytes mode ts tse ++ chunks_bytes cs) by congruence. subst pk. assert (LM : length (firstn m buf) = m) by (rewrite firstn_length; lia). split.
  - rewrite !zlen_app. unfold zlen at 1. rewrite LM. lia.
  - rewrite <- !app_assoc. rewrite <- LM at 2. apply parse_packet_roundtrip; assumption.
Qed.
Print Assumptions C61_packet.
Example C61_packet_example : startup_packet (repeat 0 20) 2 3 100 (-1) (chunks_bytes [(48, [2; 7; 8; 1; 1])]) = Ok (Some [0; 0; 11; 0; 100; 48; 0; 5; 2; 7; 8; 1; 1]) /\ startup_packet (repeat 0 12) 2 3 100 (-1) (chunks_bytes [(48, [2; 7; 8; 1; 1])]) = Ok None.
Proof. vm_compute. auto. Qed.

(** C61.  An initiator's hello with a tag of 16 bytes is sent for every endpoint discriminator of up to 4230 bytes, with the default
    key's front margin of 2 bytes. *)
Theorem C61_ihello_sent : forall epd tag buf ts, sized epd -> sized tag -> zlen epd <= 4230 -> zlen tag = 16 -> length buf = 4256%nat -> ts <= 65535 ->
  exists c pk, make_ihello epd tag = Ok (Some c) /\ startup_packet buf 2 3 ts (-1) c = Ok (Some pk).
Proof.
  intros epd tag buf ts S1 S2 L1 L2 LB LT. rewrite (make_ihello_ok epd tag S1 S2). pose proof (zlen_nonneg _ epd) as NN.
  assert (V : zlen (vlu_encode (zlen epd)) <= 2).
  { destruct (vlu_encode_spec (zlen epd)) as (_ & _ & _ & V & _). { unfold is_u64, U64MAX. lia. } destruct V as [V|V]; [unfold zlen at 1; rewrite V; lia|]. destruct (Z_le_gt_dec (zlen (vlu_encode (zlen epd))) 2) as [|G]; [assumption|].
    assert (128 ^ 2 <= 128 ^ (zlen (vlu_encode (zlen epd)) - 1)) by (apply Z.pow_le_mono_r; lia). change (128 ^ 2) with 16384 in *. lia. }
  assert (LW : zlen (field epd ++ tag) <= 4248) by (unfold field; rewrite !zlen_app; lia). unfold fits. destruct (Z.leb_spec (3 + zlen (field epd ++ tag)) 4256); [|lia].
  assert (LC : zlen (chunk_bytes CHUNK_IHELLO (field epd ++ tag)) = 3 + zlen (field epd ++ tag)) by (unfold chunk_bytes, zlen; cbn [length be16 app]; lia).
  exists (chunk_bytes CHUNK_IHELLO (field epd ++ tag)). eexists. split; [reflexivity|]. replace (chunk_bytes CHUNK_IHELLO (field epd ++ tag)) with (chunks_bytes [(CHUNK_IHELLO, field epd ++ tag)]) by (unfold chunks_bytes; cbn [flat_map fst snd]; apply app_nil_r).
  rewrite startup_packet_ok; [|unfold is_byte, U8MAX; lia|unfold zlen, U64MAX; rewrite LB; lia|rewrite LB; lia].
  assert (LH : zlen (header_bytes 3 ts (-1)) <= 3) by (unfold header_bytes; change (-1 >=? 0) with false; destruct (ts >=? 0); cbn; lia).
  unfold chunks_bytes. cbn [flat_map fst snd]. rewrite app_nil_r, LC. assert (ZB : zlen buf = 4256) by (unfold zlen; rewrite LB; reflexivity). rewrite ZB.
  destruct (Z.leb_spec (Z.of_nat 2 + zlen (header_bytes 3 ts (-1)) + (3 + zlen (field epd ++ tag))) 4256); [|lia]. reflexivity.
Qed.
Print Assumptions C61_ihello_sent.
(** C61, refuted: not for every discriminator within MAX_OPEN_EPD_LENGTH (params.hpp 26: 4256 - 3 - 16 - 5 - 1), which moreover
    nothing enforces: with a longer one the flow waits for a session although nothing is ever sent. *)
Theorem C61_ihello_sent_refuted : ~ forall epd tag buf ts, sized epd -> sized tag -> zlen epd <= 4231 -> zlen tag = 16 -> length buf = 4256%nat -> 0 <= ts <= 65535 ->
  exists c pk, make_ihello epd tag = Ok (Some c) /\ startup_packet buf 2 3 ts (-1) c = Ok (Some pk).
Proof.
  intros H. destruct (H (repeat 65 4231) (repeat 0 16) (repeat 0 4256) 0) as (c & pk & E1 & E2).
  - split; [apply bytes_okb_ok; vm_compute; reflexivity|vm_compute; reflexivity].
  - split; [apply bytes_okb_ok; vm_compute; reflexivity|vm_compute; reflexivity].
  - vm_compute. discriminate.
  - reflexivity.
  - apply repeat_length.
  - lia.
  - assert (X : (match make_ihello (repeat 65 4231) (repeat 0 16) with Ok (Some c) => startup_packet (repeat 0 4256) 2 3 0 (-1) c | _ => Rej end) = Ok None) by (vm_compute; reflexivity).
    rewrite E1, E2 in X. discriminate.
Qed.
Print Assumptions C61_ihello_sent_refuted.
