(** Specification vocabulary for reference counting: who holds an object. *)
From Verif Require Import Base Retainer.

Definition tally {A} (f : A -> bool) (l : list A) : Z := fold_right (fun x n => (if f x then 1 else 0) + n) 0 l.
(** The handles that exist and point to the object, plus the references held outside handles. *)
Definition holders (s : heap) (o : nat) : Z :=
  tally (fun c => ce_live c && match ce_ptr c with Some p => Nat.eqb p o | None => false end) (cells s) + tally (Nat.eqb o) (outs s).
