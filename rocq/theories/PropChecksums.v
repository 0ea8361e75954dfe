(** C44: checksums. *)
From Verif Require Import Base BaseFacts Checksums ChecksumsSpec ChecksumsProofs.

(** C44.  crc32_be is the remainder of dividing the message, preceded by the register's start value and followed by 32 zero
    bits, by the CRC-32 polynomial; crc32_le is the same seen from the other end.  (The remainder is unique.) *)
Theorem C44_crc_be_remainder : forall buf init r, is_u32 init ->
  (remainder (Z.lxor (Z.shiftl init (8 * zlen buf)) (Z.shiftl (poly (be_bits buf)) 32)) r <-> r = crc32_be_from init buf).
Proof.
  intros buf init r H. pose proof (be_remainder buf init H) as E. split; [intros X; exact (remainder_unique _ _ _ X E)|intros ->; exact E].
Qed.
Print Assumptions C44_crc_be_remainder.
Theorem C44_crc_le_remainder : forall buf init init' r, is_u32 init -> is_u32 init' -> mirrored init init' ->
  remainder (Z.lxor (Z.shiftl init' (8 * zlen buf)) (Z.shiftl (poly (le_bits buf)) 32)) r -> mirrored (crc32_le_from init buf) r.
Proof.
  intros buf init init' r H H' M R. destruct (le_remainder buf init init' H H' M) as (r' & A & B). rewrite (remainder_unique _ _ _ R B). exact A.
Qed.
Print Assumptions C44_crc_le_remainder.

(** C44.  The computation over a concatenation continues the computation over its first part. *)
Theorem C44_crc_concat : forall init a b,
  crc32_le_from init (a ++ b) = crc32_le_from (crc32_le_from init a) b
  /\ crc32_be_from init (a ++ b) = crc32_be_from (crc32_be_from init a) b
  /\ crc32_le (a ++ b) = crc32_le_from (crc32_le a) b /\ crc32_be (a ++ b) = crc32_be_from (crc32_be a) b.
Proof. intros. unfold crc32_le, crc32_be, crc32_le_from, crc32_be_from. rewrite !fold_left_app. auto. Qed.
Print Assumptions C44_crc_concat.

(** C44.  Any corruption confined to 32 consecutive bits (in the order the bits are processed), so any single bit, changes
    the CRC. *)
Theorem C44_crc_burst : forall init buf buf' p x y q, is_u32 init -> (length x <= 32)%nat -> length x = length y -> x <> y ->
  (be_bits buf = p ++ x ++ q -> be_bits buf' = p ++ y ++ q -> crc32_be_from init buf <> crc32_be_from init buf')
  /\ (le_bits buf = p ++ x ++ q -> le_bits buf' = p ++ y ++ q -> crc32_le_from init buf <> crc32_le_from init buf').
Proof.
  intros init buf buf' p x y q H L E N. split; intros A B; rewrite ?be_from_bits, ?le_from_bits, A, B; [apply be_burst|apply le_burst]; assumption.
Qed.
Print Assumptions C44_crc_burst.
Example C44_crc_case : Z.lxor (crc32_le [49; 50; 51; 52; 53; 54; 55; 56; 57]) U32MAX = 3421780262   (* 0xCBF43926 *)
  /\ Z.lxor (crc32_be [49; 50; 51; 52; 53; 54; 55; 56; 57]) U32MAX = 4236843288                        (* 0xFC891918 *)
  /\ be_bits [49; 50] = firstn 11 (be_bits [49; 50]) ++ [true] ++ [false; false; true; false]
  /\ be_bits [49; 34] = firstn 11 (be_bits [49; 50]) ++ [false] ++ [false; false; true; false].
Proof. vm_compute. auto. Qed.

(** C44.  in_cksum is the complement of the ones' complement sum of the buffer's 16-bit words, for buffers of up to 131074
    bytes; a buffer of even length followed by its checksum has checksum zero. *)
Theorem C44_cksum_value : forall buf, bytes_ok buf -> zlen buf <= 131074 -> in_cksum buf = 65535 - oc_sum (words buf).
Proof. exact cksum_value. Qed.
Print Assumptions C44_cksum_value.
Theorem C44_cksum_verify : forall buf, bytes_ok buf -> Nat.Even (length buf) -> zlen buf <= 131072 ->
  in_cksum (buf ++ [in_cksum buf / 256; in_cksum buf mod 256]) = 0.
Proof. exact cksum_verify. Qed.
Print Assumptions C44_cksum_verify.

(** C44.  Replacing one aligned 16-bit word changes the checksum, unless the word is the same or 0 and 65535 are exchanged
    (the same residue modulo 65535). *)
Theorem C44_cksum_detects : forall p a b a' b' q, bytes_ok (p ++ [a; b] ++ q) -> bytes_ok [a'; b'] -> Nat.Even (length p) -> zlen (p ++ [a; b] ++ q) <= 131074 ->
  in_cksum (p ++ [a; b] ++ q) = in_cksum (p ++ [a'; b'] ++ q) ->
  (a, b) = (a', b') \/ (256 * a + b = 0 /\ 256 * a' + b' = 65535) \/ (256 * a + b = 65535 /\ 256 * a' + b' = 0).
Proof. exact cksum_word. Qed.
Print Assumptions C44_cksum_detects.
Example C44_cksum_case : let buf := [0; 1; 242; 3; 244; 245; 246; 247] in in_cksum buf = 8717 /\ oc_sum (words buf) = 56818
  /\ in_cksum (buf ++ [34; 13]) = 0 /\ in_cksum [0; 1; 242; 4; 244; 245; 246; 247] <> in_cksum buf.
Proof. vm_compute. repeat split; congruence. Qed.

(** Findings: the last byte of a buffer of odd length counts as a low byte, where RFC 1071 has a high byte; and beyond 131074
    bytes the 32-bit sum loses a carry. *)
Theorem C44_cksum_odd_refuted : exists buf, bytes_ok buf /\ in_cksum buf <> 65535 - oc_sum (rfc_words buf).
Proof. exists [1]. split; [repeat constructor; unfold is_byte; lia|vm_compute; congruence]. Qed.
Print Assumptions C44_cksum_odd_refuted.
Theorem C44_cksum_long_refuted : exists buf, bytes_ok buf /\ zlen buf = 131076 /\ in_cksum buf <> 65535 - oc_sum (words buf).
Proof.
  exists (repeat 255 (Z.to_nat 131076)). split; [|split].
  - apply Forall_forall. intros x H. apply repeat_spec in H. subst x. unfold is_byte. lia.
  - unfold zlen. rewrite repeat_length. lia.
  - vm_compute. congruence.
Qed.
Print Assumptions C44_cksum_long_refuted.
