(** CRC-32 as division of polynomials over GF(2), and the Internet checksum as a ones' complement sum. *)
From Verif Require Import Base.

(** ** CRC *)
(** A polynomial over GF(2) is a natural number: bit i is the coefficient of x^i.  Addition is xor; product: *)
Fixpoint pmul_bits (q : list bool) (p : Z) : Z :=   (* [q]: coefficients, highest first *)
  match q with [] => 0 | b :: r => Z.lxor (if b then Z.shiftl p (zlen r) else 0) (pmul_bits r p) end.
(** The polynomial with these coefficients. *)
Definition poly (q : list bool) : Z := pmul_bits q 1.

(** x^32+x^26+x^23+x^22+x^16+x^12+x^11+x^10+x^8+x^7+x^5+x^4+x^2+x+1 *)
Definition CRC_POLY : Z := 2^32 + 2^26 + 2^23 + 2^22 + 2^16 + 2^12 + 2^11 + 2^10 + 2^8 + 2^7 + 2^5 + 2^4 + 2^2 + 2 + 1.

(** [remainder a r]: [r] is the remainder of [a] divided by the polynomial. *)
Definition remainder (a r : Z) : Prop := 0 <= r < 2 ^ 32 /\ exists q, a = Z.lxor (pmul_bits q CRC_POLY) r.

(** The bits of a byte, most significant first, and those of a buffer in the two bit orders. *)
Definition msb_first (b : Z) : list bool := map (fun i => Z.testbit b i) [7; 6; 5; 4; 3; 2; 1; 0].
Definition be_bits (buf : list Z) : list bool := flat_map msb_first buf.
Definition le_bits (buf : list Z) : list bool := flat_map (fun b => rev (msb_first b)) buf.

(** The register seen from the other end. *)
Definition mirrored (a b : Z) : Prop := forall i, 0 <= i < 32 -> Z.testbit a i = Z.testbit b (31 - i).

(** ** Internet checksum *)
(** The 16-bit words, most significant byte first; a last odd byte counts as the low byte of a word (RFC 1071 has it as the
    high byte). *)
Fixpoint words (buf : list Z) : list Z :=
  match buf with a :: b :: r => 256 * a + b :: words r | [a] => [a] | [] => [] end.
Fixpoint rfc_words (buf : list Z) : list Z :=
  match buf with a :: b :: r => 256 * a + b :: rfc_words r | [a] => [256 * a] | [] => [] end.
Definition total (l : list Z) : Z := fold_right Z.add 0 l.
(** The ones' complement sum: the residue modulo 65535, where a sum that is a positive multiple of 65535 gives 65535. *)
Definition oc_sum (l : list Z) : Z := if total l =? 0 then 0 else (total l - 1) mod 65535 + 1.
