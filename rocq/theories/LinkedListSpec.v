(** What a list with stable names is: a sequence of (name, value) pairs with distinct names. *)
From Verif Require Import Base LinkedList.

Section Spec.
Variable T : Type.
Notation alist := (list (Z * T)).

Definition live (n : Z) (a : alist) : Prop := In n (map fst a).
(** A name an insertion may answer. *)
Definition fresh (n : Z) (a : alist) : Prop := 0 < n /\ ~ live n a.

(** [x] goes right after (before) element [n]; 0 stands for the position before the first and after the last element. *)
Definition inserted (after : bool) (n : Z) (x : Z * T) (a a' : alist) : Prop :=
  if after then (n = 0 /\ a' = x :: a) \/ exists a1 v a2, a = a1 ++ (n, v) :: a2 /\ a' = a1 ++ (n, v) :: x :: a2
  else (n = 0 /\ a' = a ++ [x]) \/ exists a1 v a2, a = a1 ++ (n, v) :: a2 /\ a' = a1 ++ x :: (n, v) :: a2.

(** Effect of moving or rotating: 0 does nothing and answers true, an unknown name does nothing and answers false. *)
Definition moved (n : Z) (f : alist -> Z * T -> alist -> alist) (r : option lret) (a a' : alist) : Prop :=
  (n = 0 /\ r = Some (RBool true) /\ a' = a)
  \/ (n <> 0 /\ ~ live n a /\ r = Some (RBool false) /\ a' = a)
  \/ (exists a1 v a2, a = a1 ++ (n, v) :: a2 /\ r = Some (RBool true) /\ a' = f a1 (n, v) a2).

(** [r = None] when the call throws. *)
Definition lspec (blank : T) (o : lop T) (r : option lret) (a a' : alist) : Prop :=
  match o with
  | AddAfterN n => (exists m, r = Some (RName m) /\ fresh m a /\ inserted true n (m, blank) a a')
                   \/ (n <> 0 /\ ~ live n a /\ r = Some (RName (-1)) /\ a' = a)
  | AddBeforeN n => (exists m, r = Some (RName m) /\ fresh m a /\ inserted false n (m, blank) a a')
                   \/ (n <> 0 /\ ~ live n a /\ r = Some (RName (-1)) /\ a' = a)
  | AddAfter v n => (exists m, r = Some (RName m) /\ fresh m a /\ inserted true n (m, v) a a')
                   \/ (n <> 0 /\ ~ live n a /\ r = None /\ a' = a)
  | AddBefore v n => (exists m, r = Some (RName m) /\ fresh m a /\ inserted false n (m, v) a a')
                   \/ (n <> 0 /\ ~ live n a /\ r = None /\ a' = a)
  | Append v => exists m, r = Some (RName m) /\ fresh m a /\ a' = a ++ [(m, v)]
  | Prepend v => exists m, r = Some (RName m) /\ fresh m a /\ a' = (m, v) :: a
  | RotateToHead n => moved n (fun a1 x a2 => x :: a2 ++ a1) r a a'
  | RotateToTail n => moved n (fun a1 x a2 => a2 ++ a1 ++ [x]) r a a'
  | MoveToHead n => moved n (fun a1 x a2 => x :: a1 ++ a2) r a a'
  | MoveToTail n => moved n (fun a1 x a2 => a1 ++ a2 ++ [x]) r a a'
  | Remove n => (~ live n a /\ r = Some (RBool false) /\ a' = a)
                \/ exists a1 v a2, a = a1 ++ (n, v) :: a2 /\ r = Some (RBool true) /\ a' = a1 ++ a2
  | RemoveFirst => (a = [] /\ r = Some (RBool false) /\ a' = []) \/ (exists x, a = x :: a' /\ r = Some (RBool true))
  | RemoveLast => (a = [] /\ r = Some (RBool false) /\ a' = []) \/ (exists x, a = a' ++ [x] /\ r = Some (RBool true))
  | Clear => r = Some RUnit /\ a' = []
  | SetAt n v => (~ live n a /\ r = None /\ a' = a)
                 \/ exists a1 w a2, a = a1 ++ (n, w) :: a2 /\ r = Some RUnit /\ a' = a1 ++ (n, v) :: a2
  | AppendAll vs => r = Some RUnit /\ exists ms, length ms = length vs /\ a' = a ++ combine ms vs
  end.

(** Distinct positive names. *)
Definition names_ok (a : alist) : Prop := NoDup (map fst a) /\ Forall (fun n => 0 < n) (map fst a).

Inductive lspec_run (blank : T) : alist -> list (lop T) -> list (option lret) -> alist -> Prop :=
| lspec_nil : forall a, lspec_run blank a [] [] a
| lspec_cons : forall a o r a' os rs a'', lspec blank o r a a' -> names_ok a' -> lspec_run blank a' os rs a'' ->
    lspec_run blank a (o :: os) (r :: rs) a''.

(** Calls that take element [n] out of the list or change its value. *)
Definition touches (o : lop T) (n : Z) (s : lst T) : Prop :=
  match o with
  | Remove m => m = n
  | SetAt m _ => m = n
  | RemoveFirst => first s = Ok n
  | RemoveLast => last_ s = Ok n
  | Clear => True
  | _ => False
  end.
(** States reachable by a client. *)
Definition reachable (blank : T) (s : lst T) : Prop :=
  exists s0 os rs, lst_init blank = Ok s0 /\ lrun s0 os = Ok (s, rs).

Fixpoint lookup (a : alist) (n : Z) : option T :=
  match a with [] => None | (m, v) :: r => if m =? n then Some v else lookup r n end.
Fixpoint find_first (eqb : T -> T -> bool) (a : alist) (v : T) : Z :=
  match a with [] => 0 | (m, w) :: r => if eqb w v then m else find_first eqb r v end.

(** Sum of sizes, modulo 2^64. *)
Definition total (size_f : T -> Z) (a : alist) : Z := fold_right (fun x s => size_f (snd x) + s) 0 a.
(** Calls that keep SumList's books: everything except the valueless insertions and assignment through at(). *)
Definition sum_op (o : lop T) : Prop :=
  match o with AddAfterN _ | AddBeforeN _ | SetAt _ _ => False | _ => True end.
End Spec.
Arguments live {T}. Arguments fresh {T}. Arguments inserted {T}. Arguments moved {T}. Arguments lspec {T}.
Arguments names_ok {T}. Arguments lspec_run {T}. Arguments lookup {T}. Arguments find_first {T}. Arguments total {T}. Arguments sum_op {T}.
Arguments touches {T}. Arguments reachable {T}.
