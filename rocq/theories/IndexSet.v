(** Model of src/IndexSet.cpp: a set of uintmax_t kept as an ordered list of ranges. *)
From Verif Require Import Base.

(** IndexSet.hpp 14-35: struct Range { start, end }. *)
Notation range := (Z * Z)%type (only parsing).
Definition r_start (r : range) : Z := fst r.
Definition r_end (r : range) : Z := snd r.

(** IndexSet.cpp 20-29: Range::size. *)
Definition range_size (r : range) : Z :=
  let rv := wrap64 (wrap64 (r_end r - r_start r) + 1) in
  if Z.eqb rv 0 then wrap64 (rv - 1) else rv.

(** IndexSet.cpp 31-34: Range::intersects. *)
Definition intersects (r : range) (from to : Z) : bool := (from <=? r_end r) && (to >=? r_start r).

(** IndexSet.cpp 41-49: Range::contiguousWith. *)
Definition contiguous (r : range) (from to : Z) : bool :=
  let from' := if from >? 0 then from - 1 else from in
  let to' := if to <? wrap64 (to + 1) then wrap64 (to + 1) else to in
  intersects r from' to'.

(** IndexSet.cpp 56-64: Range::contains. *)
Definition range_contains (r : range) (i : Z) : bool := (i >=? r_start r) && (i <=? r_end r).

(** IndexSet.cpp 71-81: Range::extend. *)
Definition extend (r : range) (from to : Z) : range :=
  if from <=? to then
    (if from <? r_start r then from else r_start r, if to >? r_end r then to else r_end r)
  else r.

Notation iset := (list (Z * Z)) (only parsing).

(** IndexSet.cpp 137-145: rangesDo; the callback's answers decide whether to go on. *)
Fixpoint ranges_do (f : range -> bool) (s : iset) : bool :=
  match s with [] => true | r :: s' => if f r then ranges_do f s' else false end.

(** IndexSet.cpp 95-100: size. *)
Definition is_size (s : iset) : Z := fold_left (fun rv r => wrap64 (rv + range_size r)) s 0.
(** IndexSet.cpp 102-110 *)
Definition is_count_ranges (s : iset) : nat := length s.
Definition is_empty (s : iset) : bool := match s with [] => true | _ => false end.
(** IndexSet.cpp 112-115: contains. *)
Definition is_contains (s : iset) (i : Z) : bool := negb (ranges_do (fun r => negb (range_contains r i)) s).
(** IndexSet.cpp 127-135: firstRange, lastRange ((0,0) when empty). *)
Definition is_first_range (s : iset) : range := match s with [] => (0, 0) | r :: _ => r end.
Definition is_last_range (s : iset) : range := last s (0, 0).
(** IndexSet.cpp 117-125: lowestIndex, highestIndex. *)
Definition is_lowest (s : iset) : Z := if is_empty s then 0 else r_start (is_first_range s).
Definition is_highest (s : iset) : Z := if is_empty s then 0 else r_end (is_last_range s).

(** IndexSet.cpp 176-187: the merge loop of add. *)
Fixpoint merge_loop (cur : range) (rest : iset) : iset :=
  match rest with
  | [] => [cur]
  | m :: rest' =>
      if contiguous cur (r_start m) (r_end m) then merge_loop (extend cur (r_start m) (r_end m)) rest'
      else cur :: m :: rest'
  end.

(** IndexSet.cpp 169-202: the loop of add. *)
Fixpoint add_loop (s : iset) (from to : Z) : iset :=
  match s with
  | [] => [(from, to)]
  | each :: s' =>
      if contiguous each from to then merge_loop (extend each from to) s'
      else if r_start each >? to then (from, to) :: each :: s'
      else each :: add_loop s' from to
  end.

(** IndexSet.cpp 164-203: add(from, to); add(i) is add(i, i) (205-208). *)
Definition is_add (s : iset) (from to : Z) : iset := if to <? from then s else add_loop s from to.

(** IndexSet.cpp 220-261: the loop of remove. *)
Fixpoint remove_loop (s : iset) (from to : Z) : iset :=
  match s with
  | [] => []
  | each :: s' =>
      if to <? r_start each then each :: s'
      else if negb (intersects each from to) then each :: remove_loop s' from to
      else if r_start each <? from then
        if to <? r_end each then (r_start each, wrap64 (from - 1)) :: (wrap64 (to + 1), r_end each) :: s'
        else (r_start each, wrap64 (from - 1)) :: remove_loop s' from to
      else if to <? r_end each then (wrap64 (to + 1), r_end each) :: s'
      else remove_loop s' from to
  end.

(** IndexSet.cpp 215-262: remove(from, to). *)
Definition is_remove (s : iset) (from to : Z) : iset := if to <? from then s else remove_loop s from to.

(** IndexSet.cpp 210-213, 269-272: add(set), remove(set), for two different objects. *)
Definition is_add_set (s other : iset) : iset := fold_left (fun s r => is_add s (r_start r) (r_end r)) other s.
Definition is_remove_set (s other : iset) : iset := fold_left (fun s r => is_remove s (r_start r) (r_end r)) other s.

(** IndexSet.cpp 152-162: indicesDo with a callback that always answers true; the indices it is called with.  [fuel]
    bounds the number of loop tests; running out is [UB] (still looping). *)
Fixpoint index_loop (fuel : nat) (i to : Z) : res (list Z) :=
  match fuel with
  | O => UB
  | S fuel' =>
      if i <=? to then
        match index_loop fuel' (wrap64 (i + 1)) to with Ok l => Ok (i :: l) | Rej => Rej | UB => UB end
      else Ok []
  end.
Fixpoint indices_do (fuel : nat) (s : iset) : res (list Z) :=
  match s with
  | [] => Ok []
  | r :: s' =>
      match index_loop fuel (r_start r) (r_end r), indices_do fuel s' with
      | Ok a, Ok b => Ok (a ++ b)
      | _, _ => UB
      end
  end.

(** A history of operations on index sets, as an expression. *)
Inductive is_expr : Type :=
| EEmpty
| EAdd (e : is_expr) (from to : Z)
| ERemove (e : is_expr) (from to : Z)
| EAddSet (e e' : is_expr)
| ERemoveSet (e e' : is_expr)
| EClear (e : is_expr)
| ECopy (e : is_expr).

(** IndexSet.cpp 90-93 (copy), 274-277 (clear) and the operations above. *)
Fixpoint is_eval (e : is_expr) : iset :=
  match e with
  | EEmpty => []
  | EAdd e f t => is_add (is_eval e) f t
  | ERemove e f t => is_remove (is_eval e) f t
  | EAddSet e e' => is_add_set (is_eval e) (is_eval e')
  | ERemoveSet e e' => is_remove_set (is_eval e) (is_eval e')
  | EClear _ => []
  | ECopy e => is_eval e
  end.
