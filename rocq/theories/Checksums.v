(** Model of src/Checksums.cpp: crc32_le, crc32_be, in_cksum. *)
From Verif Require Import Base.

(** Checksums.cpp 8-26: the inner loop over [j], then the loop over the buffer *)
Fixpoint crc_le_bits (n : nat) (crc c : Z) : Z :=
  match n with
  | O => crc
  | S n' =>
      let bit := Z.land (Z.lxor c crc) 1 in
      let crc1 := Z.shiftr crc 1 in
      crc_le_bits n' (if bit =? 0 then crc1 else Z.lxor crc1 3988292384) (Z.shiftr c 1)
  end.
Definition crc32_le_from (crc : Z) (buf : list Z) : Z := fold_left (crc_le_bits 8) buf crc.
(** 28-31; ~0L converts to 0xffffffff *)
Definition crc32_le (buf : list Z) : Z := crc32_le_from U32MAX buf.

(** 33-51 *)
Fixpoint crc_be_bits (n : nat) (crc c : Z) : Z :=
  match n with
  | O => crc
  | S n' =>
      let bit := Z.land (Z.lxor c (Z.shiftr crc 24)) 128 in
      let crc1 := wrap32 (Z.shiftl crc 1) in
      crc_be_bits n' (if bit =? 0 then crc1 else Z.lxor crc1 79764919) (wrap8 (Z.shiftl c 1))
  end.
Definition crc32_be_from (crc : Z) (buf : list Z) : Z := fold_left (crc_be_bits 8) buf crc.
(** 53-56 *)
Definition crc32_be (buf : list Z) : Z := crc32_be_from U32MAX buf.

(** 61-98: in_cksum; the summing loop and the odd byte (74-84), then the folding (92-95) *)
Fixpoint cksum_loop (w : list Z) (sum : Z) {struct w} : Z :=
  match w with
  | a :: b :: r => cksum_loop r (wrap32 (wrap32 (sum + Z.shiftl a 8) + b))
  | [a] => wrap32 (sum + a)
  | [] => sum
  end.
Definition in_cksum (buf : list Z) : Z :=
  let sum := cksum_loop buf 0 in
  let sum1 := wrap32 (Z.shiftr sum 16 + Z.land sum 65535) in
  let sum2 := wrap32 (sum1 + Z.shiftr sum1 16) in
  wrap16 (Z.lnot sum2).
