(** Specification vocabulary for variable length unsigned integers, written without reference to the code. *)
From Verif Require Import Base.

(** Value of a string of 7-bit groups, most significant first; the top bit of each byte is not part of the value. *)
Fixpoint groups_value_from (acc : Z) (l : list Z) : Z :=
  match l with [] => acc | b :: r => groups_value_from (acc * 128 + b mod 128) r end.
Definition groups_value (l : list Z) : Z := groups_value_from 0 l.

(** [l] is a complete VLU: every byte but the last has its top bit set, the last does not. *)
Inductive complete_vlu : list Z -> Prop :=
| cv_last : forall b, 0 <= b < 128 -> complete_vlu [b]
| cv_more : forall b l, 128 <= b < 256 -> complete_vlu l -> complete_vlu (b :: l).

(** No byte of [l] ends a VLU. *)
Definition unterminated (l : list Z) : Prop := Forall (fun b => 128 <= b < 256) l.

(** An option list on the wire, as the protocol describes it: length-prefixed (type, value) pairs. [L] and [T] are any
    complete VLUs with the right values. *)
Inductive option_wire : Z -> list Z -> list Z -> Prop :=
| ow : forall ty v L T,
    complete_vlu L -> complete_vlu T ->
    groups_value L = zlen T + zlen v -> groups_value T = ty ->
    option_wire ty v (L ++ T ++ v).

(** An option that fits: 64-bit type, byte-valued contents, total length representable in a size_t. *)
Definition option_ok (o : Z * list Z) : Prop := is_u64 (fst o) /\ bytes_ok (snd o) /\ zlen (snd o) <= U64MAX - 20.
Definition option_okb (o : Z * list Z) : bool :=
  (0 <=? fst o) && (fst o <=? U64MAX) && bytes_okb (snd o) && (zlen (snd o) <=? U64MAX - 20).
