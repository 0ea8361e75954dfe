(** Mathematical meaning of index-set histories. *)
From Verif Require Import Base IndexSet.

(** The set an operation history denotes, as a predicate on integers. *)
Fixpoint is_denote (e : is_expr) (x : Z) : Prop :=
  match e with
  | EEmpty => False
  | EAdd e f t => is_denote e x \/ f <= x <= t
  | ERemove e f t => is_denote e x /\ ~ (f <= x <= t)
  | EAddSet e e' => is_denote e x \/ is_denote e' x
  | ERemoveSet e e' => is_denote e x /\ ~ is_denote e' x
  | EClear _ => False
  | ECopy e => is_denote e x
  end.

(** All arguments are uintmax_t values. *)
Fixpoint is_args_ok (e : is_expr) : Prop :=
  match e with
  | EEmpty => True
  | EAdd e f t => is_args_ok e /\ is_u64 f /\ is_u64 t
  | ERemove e f t => is_args_ok e /\ is_u64 f /\ is_u64 t
  | EAddSet e e' => is_args_ok e /\ is_args_ok e'
  | ERemoveSet e e' => is_args_ok e /\ is_args_ok e'
  | EClear e => is_args_ok e
  | ECopy e => is_args_ok e
  end.

(** A range list is canonical when ranges are non-empty, in order, and separated by at least one missing index. *)
Fixpoint canonical_from (lo : Z) (s : iset) : Prop :=
  match s with
  | [] => True
  | (a, b) :: s' => lo <= a <= b /\ b <= U64MAX /\ canonical_from (b + 2) s'
  end.
Definition canonical (s : iset) : Prop := canonical_from 0 s.
