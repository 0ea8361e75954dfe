(** Model of List<T> and SumList<T> (include/rtmfp/List.hpp).

    The node vector is its size and one function per field; every m_nodes[i] goes through a checked access that gives
    [UB] when i is not an index of the vector.  [Rej] stands for the std::out_of_range thrown by at(); it is thrown
    before anything is changed.  Simplified: names are unbounded integers instead of long, m_size is not reduced modulo
    2^64 (the vector could not be that long), values are passed by value (a value argument that refers into the same
    list is not modelled). *)
From Verif Require Import Base.
Open Scope res_scope.

Section LinkedList.
Variable T : Type.

(** List.hpp 86-95 *)
Record lst := mkLst {
  l_n : Z;              (* m_nodes.size() *)
  l_nxt : Z -> Z;       (* m_nodes[i].m_next *)
  l_prv : Z -> Z;       (* m_nodes[i].m_prev *)
  l_val : Z -> T;       (* m_nodes[i].m_val *)
  l_use : Z -> bool;    (* m_nodes[i].m_inUse *)
  l_size : Z;           (* m_size *)
  l_blank : T           (* m_blank *)
}.

Definition fupd {A} (f : Z -> A) (i : Z) (x : A) : Z -> A := fun j => if j =? i then x else f j.

(** m_nodes[i] field reads and writes *)
Definition inb (s : lst) (i : Z) : bool := (0 <=? i) && (i <? l_n s).
Definition gnxt (s : lst) (i : Z) : res Z := if inb s i then Ok (l_nxt s i) else UB.
Definition gprv (s : lst) (i : Z) : res Z := if inb s i then Ok (l_prv s i) else UB.
Definition gval (s : lst) (i : Z) : res T := if inb s i then Ok (l_val s i) else UB.
Definition guse (s : lst) (i : Z) : res bool := if inb s i then Ok (l_use s i) else UB.
Definition snxt (s : lst) (i x : Z) : res lst :=
  if inb s i then Ok (mkLst (l_n s) (fupd (l_nxt s) i x) (l_prv s) (l_val s) (l_use s) (l_size s) (l_blank s)) else UB.
Definition sprv (s : lst) (i x : Z) : res lst :=
  if inb s i then Ok (mkLst (l_n s) (l_nxt s) (fupd (l_prv s) i x) (l_val s) (l_use s) (l_size s) (l_blank s)) else UB.
Definition sval (s : lst) (i : Z) (x : T) : res lst :=
  if inb s i then Ok (mkLst (l_n s) (l_nxt s) (l_prv s) (fupd (l_val s) i x) (l_use s) (l_size s) (l_blank s)) else UB.
Definition suse (s : lst) (i : Z) (x : bool) : res lst :=
  if inb s i then Ok (mkLst (l_n s) (l_nxt s) (l_prv s) (l_val s) (fupd (l_use s) i x) (l_size s) (l_blank s)) else UB.
Definition set_size (s : lst) (x : Z) : lst := mkLst (l_n s) (l_nxt s) (l_prv s) (l_val s) (l_use s) x (l_blank s).
(** m_nodes.resize: the fields of new nodes are whatever; initNewNodes sets them all. *)
Definition resize (s : lst) (n : Z) : lst := mkLst n (l_nxt s) (l_prv s) (l_val s) (l_use s) (l_size s) (l_blank s).

(** List.hpp 369-375: the loop of initNewNodes, [k] iterations from [i]. *)
Fixpoint init_loop (k : nat) (s : lst) (i : Z) : res lst :=
  match k with
  | O => Ok s
  | S k' =>
      s1 <- sprv s i (i - 1);;
      s2 <- snxt s1 i (i + 1);;
      s3 <- sval s2 i (l_blank s);;
      s4 <- suse s3 i false;;
      init_loop k' s4 (i + 1)
  end.

(** List.hpp 365-381 *)
Definition init_new_nodes (s : lst) (start : Z) : res lst :=
  s1 <- init_loop (Z.to_nat (l_n s - start)) s start;;
  let i := Z.max start (l_n s) in
  p <- gprv s1 1;;
  s2 <- sprv s1 start p;;
  s3 <- snxt s2 (i - 1) 1;;
  p' <- gprv s3 1;;
  s4 <- snxt s3 p' start;;
  sprv s4 1 (i - 1).

(** List.hpp 115-121, 350-363 (constructor and init) *)
Definition lst_init (blank : T) : res lst :=
  let s0 := mkLst 16 (fun _ => 0) (fun _ => 0) (fun _ => blank) (fun _ => false) 0 blank in
  s1 <- sprv s0 0 0;;
  s2 <- snxt s1 0 0;;
  s3 <- suse s2 0 true;;
  s4 <- sprv s3 1 1;;
  s5 <- snxt s4 1 1;;
  s6 <- suse s5 1 false;;
  s7 <- sval s6 1 blank;;
  s8 <- sval s7 0 blank;;
  init_new_nodes s8 2.

(** List.hpp 383-388 *)
Definition grow_free_list (s : lst) : res lst := init_new_nodes (resize s (l_n s + 16)) (l_n s).

(** List.hpp 390-393 *)
Definition free_list_empty (s : lst) : res bool := x <- gnxt s 1;; Ok (x =? 1).

(** List.hpp 395-399 *)
Definition unlink_node (s : lst) (name : Z) : res lst :=
  p <- gprv s name;; x <- gnxt s name;; s1 <- snxt s p x;;
  x' <- gnxt s1 name;; p' <- gprv s1 name;; sprv s1 x' p'.

(** List.hpp 401-407 *)
Definition link_before (s : lst) (name before : Z) : res lst :=
  s1 <- snxt s name before;;
  p <- gprv s1 before;;
  s2 <- sprv s1 name p;;
  p' <- gprv s2 before;;
  s3 <- snxt s2 p' name;;
  sprv s3 before name.

(** List.hpp 409-415 *)
Definition link_after (s : lst) (name after : Z) : res lst :=
  x <- gnxt s after;;
  s1 <- snxt s name x;;
  s2 <- sprv s1 name after;;
  x' <- gnxt s2 after;;
  s3 <- sprv s2 x' name;;
  snxt s3 after name.

(** List.hpp 143-146 *)
Definition has (s : lst) (name : Z) : res bool :=
  if (name >? 0) && (name <? l_n s) then guse s name else Ok false.
(** List.hpp 167-170 *)
Definition is_using (s : lst) (name : Z) : res bool := if name =? 0 then Ok true else has s name.
(** List.hpp 123-131 *)
Definition empty (s : lst) : res bool := x <- gnxt s 0;; Ok (x =? 0).
Definition size (s : lst) : Z := l_size s.
(** List.hpp 133-156 *)
Definition next (s : lst) (name : Z) : res Z := u <- is_using s name;; if (u : bool) then gnxt s name else Ok (-1).
Definition prev (s : lst) (name : Z) : res Z := u <- is_using s name;; if (u : bool) then gprv s name else Ok (-1).
Definition first (s : lst) : res Z := next s 0.
Definition last_ (s : lst) : res Z := prev s 0.
(** List.hpp 172-194: at() throws for a name that is not in the list *)
Definition at_ (s : lst) (name : Z) : res T := h <- has s name;; if (h : bool) then gval s name else Rej.
(** at(name) = val *)
Definition set_at (s : lst) (name : Z) (v : T) : res lst := h <- has s name;; if (h : bool) then sval s name v else Rej.

(** List.hpp 417-437; answers -1 and changes nothing when [name] is not in use *)
Definition basic_add (s : lst) (name : Z) (after : bool) : res (lst * Z) :=
  u <- is_using s name;;
  if negb u then Ok (s, -1)
  else
    e <- free_list_empty s;;
    s1 <- (if (e : bool) then grow_free_list s else Ok s);;
    rv <- gnxt s1 1;;
    s2 <- unlink_node s1 rv;;
    s3 <- suse s2 rv true;;
    s4 <- (if after then link_after s3 rv name else link_before s3 rv name);;
    Ok (set_size s4 (l_size s4 + 1), rv).

(** List.hpp 439-444 *)
Definition add_value (s : lst) (v : T) (name : Z) (after : bool) : res (lst * Z) :=
  ' (s1, rv) <- basic_add s name after;;
  s2 <- set_at s1 rv v;;
  Ok (s2, rv).

(** List.hpp 246-296: rotations and moves *)
Definition guarded (s : lst) (name : Z) (k : res lst) : res (lst * bool) :=
  if name =? 0 then Ok (s, true)
  else h <- has s name;; if negb h then Ok (s, false) else s' <- k;; Ok (s', true).
Definition rotate_to_head (s : lst) (name : Z) : res (lst * bool) :=
  guarded s name (s1 <- unlink_node s 0;; link_before s1 0 name).
Definition rotate_to_tail (s : lst) (name : Z) : res (lst * bool) :=
  guarded s name (s1 <- unlink_node s 0;; link_after s1 0 name).
Definition move_to_head (s : lst) (name : Z) : res (lst * bool) :=
  guarded s name (s1 <- unlink_node s name;; link_after s1 name 0).
Definition move_to_tail (s : lst) (name : Z) : res (lst * bool) :=
  guarded s name (s1 <- unlink_node s name;; link_before s1 name 0).

(** List.hpp 298-310 *)
Definition remove (s : lst) (name : Z) : res (lst * bool) :=
  h <- has s name;;
  if negb h then Ok (s, false)
  else
    s1 <- unlink_node s name;;
    let s2 := set_size s1 (l_size s1 - 1) in
    s3 <- suse s2 name false;;
    s4 <- link_before s3 name 1;;
    s5 <- sval s4 name (l_blank s4);;
    Ok (s5, true).

(** List.hpp 312-320 *)
Definition remove_first (s : lst) : res (lst * bool) := n <- first s;; remove s n.
Definition remove_last (s : lst) : res (lst * bool) := n <- last_ s;; remove s n.
(** List.hpp 322-325; the loop runs at most once per node, more is [UB] here *)
Fixpoint clear_loop (fuel : nat) (s : lst) : res lst :=
  match fuel with
  | O => UB
  | S fuel' => ' (s', b) <- remove_first s;; if (b : bool) then clear_loop fuel' s' else Ok s'
  end.
Definition clear (s : lst) : res lst := clear_loop (Z.to_nat (l_n s)) s.

(** List.hpp 333-339 (valuesDo, and the loops of find and appendValuesFrom): for(name = first(); name > SENTINEL;
    name = next(name)).  Answers the names and values visited, in order; a loop longer than the vector is [UB] here. *)
Fixpoint walk (step : lst -> Z -> res Z) (fuel : nat) (s : lst) (name : Z) : res (list (Z * T)) :=
  match fuel with
  | O => UB
  | S fuel' =>
      if name >? 0 then
        v <- at_ s name;;
        n <- step s name;;
        r <- walk step fuel' s n;;
        Ok ((name, v) :: r)
      else Ok []
  end.
Definition values (s : lst) : res (list (Z * T)) := n <- first s;; walk next (Z.to_nat (l_n s)) s n.
(** the same with last() and prev() *)
Definition values_backward (s : lst) : res (list (Z * T)) := n <- last_ s;; walk prev (Z.to_nat (l_n s)) s n.

(** List.hpp 158-165 *)
Fixpoint find_loop (eqb : T -> T -> bool) (v : T) (fuel : nat) (s : lst) (name : Z) : res Z :=
  match fuel with
  | O => UB
  | S fuel' =>
      if name >? 0 then
        x <- at_ s name;;
        if eqb x v then Ok name else n <- next s name;; find_loop eqb v fuel' s n
      else Ok 0
  end.
Definition find (eqb : T -> T -> bool) (s : lst) (v : T) : res Z := n <- first s;; find_loop eqb v (Z.to_nat (l_n s)) s n.

(** List.hpp 327-331, [other] a different list *)
Fixpoint append_all (s : lst) (vs : list (Z * T)) : res lst :=
  match vs with [] => Ok s | (_, v) :: r => ' (s1, _) <- add_value s v 0 false;; append_all s1 r end.
Definition append_values_from (s other : lst) : res lst := vs <- values other;; append_all s vs.

(** The calls a client can make. *)
Inductive lop :=
| AddAfterN (name : Z) | AddBeforeN (name : Z)
| AddAfter (v : T) (name : Z) | AddBefore (v : T) (name : Z) | Append (v : T) | Prepend (v : T)
| RotateToHead (name : Z) | RotateToTail (name : Z) | MoveToHead (name : Z) | MoveToTail (name : Z)
| Remove (name : Z) | RemoveFirst | RemoveLast | Clear
| SetAt (name : Z) (v : T) | AppendAll (vs : list T).
(** What they answer. *)
Inductive lret := RName (n : Z) | RBool (b : bool) | RUnit.

Definition ret_name (x : res (lst * Z)) : res (lst * lret) := ' (s, n) <- x;; Ok (s, RName n).
Definition ret_bool (x : res (lst * bool)) : res (lst * lret) := ' (s, b) <- x;; Ok (s, RBool b).
Definition ret_unit (x : res lst) : res (lst * lret) := s <- x;; Ok (s, RUnit).

(** List.hpp 216-244 for the additions *)
Definition lstep (s : lst) (o : lop) : res (lst * lret) :=
  match o with
  | AddAfterN name => ret_name (basic_add s name true)
  | AddBeforeN name => ret_name (basic_add s name false)
  | AddAfter v name => ret_name (add_value s v name true)
  | AddBefore v name => ret_name (add_value s v name false)
  | Append v => ret_name (add_value s v 0 false)
  | Prepend v => ret_name (add_value s v 0 true)
  | RotateToHead name => ret_bool (rotate_to_head s name)
  | RotateToTail name => ret_bool (rotate_to_tail s name)
  | MoveToHead name => ret_bool (move_to_head s name)
  | MoveToTail name => ret_bool (move_to_tail s name)
  | Remove name => ret_bool (remove s name)
  | RemoveFirst => ret_bool (remove_first s)
  | RemoveLast => ret_bool (remove_last s)
  | Clear => ret_unit (clear s)
  | SetAt name v => ret_unit (set_at s name v)
  | AppendAll vs => ret_unit (append_all s (map (fun v => (0, v)) vs))
  end.

(** A client session: a call that throws leaves the list as it was. *)
Fixpoint lrun (s : lst) (os : list lop) : res (lst * list (option lret)) :=
  match os with
  | [] => Ok (s, [])
  | o :: r =>
      match lstep s o with
      | Ok (s', x) => ' (s'', xs) <- lrun s' r;; Ok (s'', Some x :: xs)
      | Rej => ' (s'', xs) <- lrun s r;; Ok (s'', None :: xs)
      | UB => UB
      end
  end.

(** ** SumList (List.hpp 98-111, 446-474); size_t arithmetic wraps. *)
Section SumList.
Variable size_f : T -> Z.

Record sumlist := mkSum { s_list : lst; s_sum : Z }.

Definition sum_init (blank : T) : res sumlist := l <- lst_init blank;; Ok (mkSum l 0).
(** 455-462 *)
Definition sum_remove (s : sumlist) (name : Z) : res (sumlist * bool) :=
  h <- has (s_list s) name;;
  if negb h then Ok (s, false)
  else
    v <- at_ (s_list s) name;;
    ' (l, b) <- remove (s_list s) name;;
    Ok (mkSum l (wrap64 (s_sum s - wrap64 (size_f v))), b).
(** 469-474 *)
Definition sum_add_value (s : sumlist) (v : T) (name : Z) (after : bool) : res (sumlist * Z) :=
  ' (l, rv) <- add_value (s_list s) v name after;;
  Ok (mkSum l (wrap64 (s_sum s + wrap64 (size_f v))), rv).

Definition sum_remove_first (s : sumlist) : res (sumlist * bool) := n <- first (s_list s);; sum_remove s n.
Definition sum_remove_last (s : sumlist) : res (sumlist * bool) := n <- last_ (s_list s);; sum_remove s n.
(** 322-325 with the overridden remove *)
Fixpoint sum_clear_loop (fuel : nat) (s : sumlist) : res sumlist :=
  match fuel with
  | O => UB
  | S fuel' => ' (s', b) <- sum_remove_first s;; if (b : bool) then sum_clear_loop fuel' s' else Ok s'
  end.
Definition sum_clear (s : sumlist) : res sumlist := sum_clear_loop (Z.to_nat (l_n (s_list s))) s.
Fixpoint sum_append_all (s : sumlist) (vs : list T) : res sumlist :=
  match vs with [] => Ok s | v :: r => ' (s1, _) <- sum_add_value s v 0 false;; sum_append_all s1 r end.

Definition sum_ret_name (x : res (sumlist * Z)) : res (sumlist * lret) := ' (s, n) <- x;; Ok (s, RName n).
Definition sum_ret_bool (x : res (sumlist * bool)) : res (sumlist * lret) := ' (s, b) <- x;; Ok (s, RBool b).
(** calls that SumList does not override *)
Definition lifted (s : sumlist) (x : res (lst * lret)) : res (sumlist * lret) := ' (l, r) <- x;; Ok (mkSum l (s_sum s), r).

Definition sum_step (s : sumlist) (o : lop) : res (sumlist * lret) :=
  match o with
  | AddAfter v name => sum_ret_name (sum_add_value s v name true)
  | AddBefore v name => sum_ret_name (sum_add_value s v name false)
  | Append v => sum_ret_name (sum_add_value s v 0 false)
  | Prepend v => sum_ret_name (sum_add_value s v 0 true)
  | Remove name => sum_ret_bool (sum_remove s name)
  | RemoveFirst => sum_ret_bool (sum_remove_first s)
  | RemoveLast => sum_ret_bool (sum_remove_last s)
  | Clear => s' <- sum_clear s;; Ok (s', RUnit)
  | AppendAll vs => s' <- sum_append_all s vs;; Ok (s', RUnit)
  | _ => lifted s (lstep (s_list s) o)
  end.

Fixpoint sum_run (s : sumlist) (os : list lop) : res (sumlist * list (option lret)) :=
  match os with
  | [] => Ok (s, [])
  | o :: r =>
      match sum_step s o with
      | Ok (s', x) => ' (s'', xs) <- sum_run s' r;; Ok (s'', Some x :: xs)
      | Rej => ' (s'', xs) <- sum_run s r;; Ok (s'', None :: xs)
      | UB => UB
      end
  end.
End SumList.
End LinkedList.

Arguments mkLst {T}. Arguments l_n {T}. Arguments l_nxt {T}. Arguments l_prv {T}. Arguments l_val {T}. Arguments l_use {T}.
Arguments l_size {T}. Arguments l_blank {T}. Arguments inb {T}. Arguments gnxt {T}. Arguments gprv {T}. Arguments gval {T}.
Arguments guse {T}. Arguments snxt {T}. Arguments sprv {T}. Arguments sval {T}. Arguments suse {T}. Arguments set_size {T}.
Arguments resize {T}. Arguments init_loop {T}. Arguments init_new_nodes {T}. Arguments lst_init {T}. Arguments grow_free_list {T}.
Arguments free_list_empty {T}. Arguments unlink_node {T}. Arguments link_before {T}. Arguments link_after {T}. Arguments has {T}.
Arguments is_using {T}. Arguments empty {T}. Arguments size {T}. Arguments next {T}. Arguments prev {T}. Arguments first {T}.
Arguments last_ {T}. Arguments at_ {T}. Arguments set_at {T}. Arguments basic_add {T}. Arguments add_value {T}. Arguments guarded {T}.
Arguments rotate_to_head {T}. Arguments rotate_to_tail {T}. Arguments move_to_head {T}. Arguments move_to_tail {T}. Arguments remove {T}.
Arguments remove_first {T}. Arguments remove_last {T}. Arguments clear_loop {T}. Arguments clear {T}. Arguments walk {T}.
Arguments values {T}. Arguments values_backward {T}. Arguments find_loop {T}. Arguments find {T}. Arguments append_all {T}.
Arguments append_values_from {T}. Arguments AddAfterN {T}. Arguments AddBeforeN {T}. Arguments AddAfter {T}. Arguments AddBefore {T}.
Arguments Append {T}. Arguments Prepend {T}. Arguments RotateToHead {T}. Arguments RotateToTail {T}. Arguments MoveToHead {T}.
Arguments MoveToTail {T}. Arguments Remove {T}. Arguments RemoveFirst {T}. Arguments RemoveLast {T}. Arguments Clear {T}.
Arguments SetAt {T}. Arguments AppendAll {T}. Arguments lstep {T}. Arguments lrun {T}. Arguments ret_name {T}. Arguments ret_bool {T}.
Arguments ret_unit {T}. Arguments mkSum {T}. Arguments s_list {T}. Arguments s_sum {T}. Arguments sum_init {T}. Arguments sum_remove {T}.
Arguments sum_add_value {T}. Arguments sum_remove_first {T}. Arguments sum_remove_last {T}. Arguments sum_clear_loop {T}.
Arguments sum_clear {T}. Arguments sum_append_all {T}. Arguments sum_ret_name {T}. Arguments sum_ret_bool {T}. Arguments lifted {T}.
Arguments sum_step {T}. Arguments sum_run {T}.
