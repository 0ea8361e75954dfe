(** What Diffie-Hellman, AES-CBC and HMAC contexts should do. *)
From Verif Require Import Base Ossl.

(** the bits of a number: ones, and zeros after the first one *)
Fixpoint pones (p : positive) : Z := match p with xH => 1 | xO p => pones p | xI p => pones p + 1 end.
Fixpoint pzeros (p : positive) : Z := match p with xH => 0 | xO p => pzeros p + 1 | xI p => pzeros p end.
Definition ones (n : Z) : Z := match n with Zpos p => pones p | _ => 0 end.
Definition zeros (n : Z) : Z := match n with Zpos p => pzeros p | _ => 0 end.
(** the zeros before the first one of a byte, and after the last *)
Definition lead (b : Z) : Z := 7 - Z.log2 b.
Fixpoint ptrail (p : positive) : Z := match p with xO p => ptrail p + 1 | _ => 0 end.
Definition trail (b : Z) : Z := match b with Zpos p => ptrail p | _ => 0 end.
(** the most significant byte that is not zero *)
Fixpoint top (l : list Z) : Z := match l with [] => 0 | b :: q => if b =? 0 then top q else b end.
(** a number as bytes *)
Fixpoint value (l : list Z) : Z := match l with [] => 0 | b :: q => b * 256 ^ zlen q + value q end.

(** CBC as in the textbooks, over blocks *)
Fixpoint cbc_enc (E : list Z -> list Z) (iv : list Z) (bs : list (list Z)) : list (list Z) :=
  match bs with [] => [] | p :: q => let c := E (map (fun x => Z.lxor (fst x) (snd x)) (combine p iv)) in c :: cbc_enc E c q end.
Fixpoint cbc_dec (D : list Z -> list Z) (iv : list Z) (bs : list (list Z)) : list (list Z) :=
  match bs with [] => [] | c :: q => map (fun x => Z.lxor (fst x) (snd x)) (combine (D c) iv) :: cbc_dec D c q end.
Definition block (b : list Z) : Prop := length b = 16%nat /\ bytes_ok b.
(** a block cipher *)
Definition block_cipher (E D : list Z -> list Z -> list Z) : Prop :=
  (forall k b, block (E k b)) /\ (forall k b, block (D k b)) /\ forall k b, block b -> D k (E k b) = b.
(** [2^k] times pi, by Machin's formula, with 64 bits more than are kept; [n] is enough terms *)
Fixpoint arctan (n : nat) (x2 t i : Z) : Z := match n with O => 0 | S n => t / i - arctan n x2 (t / x2) (i + 2) end.
Definition pi (k : Z) : Z :=
  let one := 2 ^ (k + 64) in let n := Z.to_nat ((k + 64) / 4) in (16 * arctan n 25 (one / 5) 1 - 4 * arctan n 57121 (one / 239) 1) / 2 ^ 64.
(** RFC 7296 B.2, RFC 3526 3 and 5 *)
Definition rfc (bits c : Z) : Z := 2 ^ bits - 2 ^ (bits - 64) - 1 + 2 ^ 64 * (pi (bits - 130) + c).
