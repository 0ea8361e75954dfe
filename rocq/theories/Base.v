(** Common definitions: bytes, machine words, outcomes.  Standard library only. *)
From Coq Require Export ZArith List Lia Bool Arith.
From Coq Require Export ZifyBool ZifyNat.
Export ListNotations.
Open Scope Z_scope.

(** Outcome of a modelled C++ operation.  [Rej] is a normal "answers 0 / false / failure" result;
    [UB] stands for undefined behaviour, an uncaught exception or a failed assertion. *)
Inductive res (A : Type) : Type :=
| Ok (a : A)
| Rej
| UB.
Arguments Ok {A} a.
Arguments Rej {A}.
Arguments UB {A}.

Definition rbind {A B} (x : res A) (f : A -> res B) : res B :=
  match x with Ok a => f a | Rej => Rej | UB => UB end.

Definition U8MAX : Z := 255.
Definition U16MAX : Z := 65535.
Definition U32MAX : Z := 4294967295.
Definition U64MAX : Z := 18446744073709551615.

Definition is_byte (b : Z) : Prop := 0 <= b < 256.
Definition is_u16 (x : Z) : Prop := 0 <= x <= U16MAX.
Definition is_u32 (x : Z) : Prop := 0 <= x <= U32MAX.
Definition is_u64 (x : Z) : Prop := 0 <= x <= U64MAX.
Definition bytes_ok (l : list Z) : Prop := Forall is_byte l.

(** unsigned wrap-around *)
Definition wrap8 (x : Z) : Z := x mod 256.
Definition wrap16 (x : Z) : Z := x mod 65536.
Definition wrap32 (x : Z) : Z := x mod 4294967296.
Definition wrap64 (x : Z) : Z := x mod 18446744073709551616.

Definition zlen {A} (l : list A) : Z := Z.of_nat (length l).

(** decidable forms, for examples *)
Definition is_byteb (b : Z) : bool := (0 <=? b) && (b <? 256).
Definition bytes_okb (l : list Z) : bool := forallb is_byteb l.

Declare Scope res_scope.
Delimit Scope res_scope with res.
Notation "x <- e ;; k" := (rbind e (fun x => k)) (at level 100, e at next level, right associativity, only parsing) : res_scope.
Notation "' p <- e ;; k" := (rbind e (fun p => k)) (at level 100, p pattern, e at next level, right associativity, only parsing) : res_scope.
