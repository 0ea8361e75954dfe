(** Specification vocabulary for AMF0 values. *)
From Verif Require Import Base AMF.

(** Keys in the order of the map, none twice. *)
Inductive less : list Z -> list Z -> Prop :=
| less_nil : forall y b, less [] (y :: b)
| less_head : forall x a y b, x < y -> less (x :: a) (y :: b)
| less_tail : forall x a b, less a b -> less (x :: a) (x :: b).
Inductive ascending : list (list Z) -> Prop :=
| asc_nil : ascending []
| asc_cons : forall k r, Forall (less k) r -> ascending r -> ascending (k :: r).

(** A value a program can make: keys and class names below 2^16 bytes (putValueAtKey and the constructor see to it), strings
    below 2^32 bytes, arrays below 2^32 members. *)
Definition str_ok (n : Z) (s : list Z) : Prop := bytes_ok s /\ zlen s < n.
Inductive value_ok : amf -> Prop :=
| ok_num : forall u, is_u64 u -> value_ok (ANum u)
| ok_bool : forall b, value_ok (ABool b)
| ok_str : forall s, str_ok (2 ^ 32) s -> value_ok (AStr s)
| ok_obj : forall m, ascending (map fst m) -> (forall k o, In (k, o) m -> str_ok (2 ^ 16) k) -> (forall k x, In (k, Some x) m -> value_ok x) -> value_ok (AObj m)
| ok_typed : forall c m, str_ok (2 ^ 16) c -> ascending (map fst m) -> (forall k o, In (k, o) m -> str_ok (2 ^ 16) k) -> (forall k x, In (k, Some x) m -> value_ok x) -> value_ok (ATyped c m)
| ok_ecma : forall m, ascending (map fst m) -> (forall k o, In (k, o) m -> str_ok (2 ^ 16) k) -> (forall k x, In (k, Some x) m -> value_ok x) -> value_ok (AEcma m)
| ok_null : value_ok ANull
| ok_undef : value_ok AUndef
| ok_arr : forall l, zlen l < 2 ^ 32 -> (forall x, In (Some x) l -> value_ok x) -> value_ok (AArr l).

(** How deep a value nests below itself; an empty pointer stands for Undefined. *)
Fixpoint height (v : amf) : nat :=
  let opt := fun o => match o with Some x => S (height x) | None => 1%nat end in
  match v with
  | AObj m => fold_right (fun p n => Nat.max (opt (snd p)) n) 0%nat m
  | ATyped _ m => fold_right (fun p n => Nat.max (opt (snd p)) n) 0%nat m
  | AEcma m => fold_right (fun p n => Nat.max (opt (snd p)) n) 0%nat m
  | AArr l => fold_right (fun o n => Nat.max (opt o) n) 0%nat l
  | _ => 0%nat
  end.
(** The value with Undefined in place of empty pointers. *)
Fixpoint filled (v : amf) : amf :=
  let opt := fun o => Some (match o with Some x => filled x | None => AUndef end) in
  match v with
  | AObj m => AObj (map (fun p => (fst p, opt (snd p))) m)
  | ATyped c m => ATyped c (map (fun p => (fst p, opt (snd p))) m)
  | AEcma m => AEcma (map (fun p => (fst p, opt (snd p))) m)
  | AArr l => AArr (map opt l)
  | x => x
  end.
