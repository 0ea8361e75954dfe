(** What hexadecimal text is. *)
From Verif Require Import Base.
From Coq Require String Ascii. Import String Ascii.

Definition chars (s : string) : list Z := map (fun a => Z.of_nat (nat_of_ascii a)) (list_ascii_of_string s).

(** [digit_is d v]: the character [d] is a hexadecimal digit, of either case, with value [v]. *)
Definition digit_is (d v : Z) : Prop :=
  exists n, v = Z.of_nat n /\ (n < 16)%nat /\ (nth_error (chars "0123456789abcdef") n = Some d \/ nth_error (chars "0123456789ABCDEF") n = Some d).
(** Space, tab, line feed, vertical tab, form feed, carriage return. *)
Definition white (d : Z) : Prop := In d [32; 9; 10; 11; 12; 13].

(** [hextext t bs]: the text [t] consists of two-digit groups and optional white space between groups, and denotes [bs]. *)
Inductive hextext : list Z -> list Z -> Prop :=
| ht_end : hextext [] []
| ht_white : forall d t bs, white d -> hextext t bs -> hextext (d :: t) bs
| ht_byte : forall a b x y t bs, digit_is a x -> digit_is b y -> hextext t bs -> hextext (a :: b :: t) (16 * x + y :: bs).
