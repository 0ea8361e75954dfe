(** Model of include/rtmfp/Retainer.hpp and src/Object.cpp: reference-counted objects and the handles that hold them.
    Objects have member handles, which their destructor destroys (so a release can release further objects).  Handles are
    cells of a store.  Left out: other things a destructor may do, and an overflow of the count. *)
From Verif Require Import Base.
Open Scope res_scope.

(** Retainer.hpp 91: m_ptr; [ce_live] is false before construction and after destruction *)
Record cell := mkCell { ce_live : bool; ce_ptr : option nat }.
(** Object.cpp 12: m_refcount; [ob_mem] the member handles; [ob_dead] after deletion *)
Record obj := mkObj { ob_rc : Z; ob_dead : bool; ob_mem : list nat }.
(** [outs]: the references that user code holds without a handle *)
Record heap := mkHeap { cells : list cell; objs : list obj; outs : list nat }.

Fixpoint lset {A} (n : nat) (x : A) (l : list A) : list A :=
  match l, n with [] , _ => [] | _ :: r, O => x :: r | y :: r, S n => y :: lset n x r end.
Fixpoint remove_one (o : nat) (l : list nat) : list nat := match l with [] => [] | x :: r => if Nat.eqb o x then r else x :: remove_one o r end.
Definition set_cell (s : heap) (h : nat) (c : cell) : heap := mkHeap (lset h c (cells s)) (objs s) (outs s).
Definition set_obj (s : heap) (o : nat) (x : obj) : heap := mkHeap (cells s) (lset o x (objs s)) (outs s).
Definition set_outs (s : heap) (l : list nat) : heap := mkHeap (cells s) (objs s) l.

(** What remains to be done by destructors that are running *)
Inductive todo := TDestroy (h : nat) | TRelease (o : nat).
(** Object.cpp 31-39 (release, deleting at 0), Retainer.hpp 26 (~Retainer), 78 (_release); using a dead object or handle is
    [UB].  The destructor of an object destroys its members. *)
Fixpoint drain (fuel : nat) (s : heap) (w : list todo) : res heap :=
  match fuel with
  | O => UB
  | S fuel' =>
      match w with
      | [] => Ok s
      | TDestroy h :: w' =>
          match nth_error (cells s) h with
          | Some (mkCell true p) =>
              drain fuel' (set_cell s h (mkCell false None)) (match p with Some o => TRelease o :: w' | None => w' end)
          | _ => UB
          end
      | TRelease o :: w' =>
          match nth_error (objs s) o with
          | Some (mkObj rc false mem) =>
              if rc <=? 0 then UB
              else if rc - 1 =? 0 then drain fuel' (set_obj s o (mkObj 0 true mem)) (map TDestroy mem ++ w')
              else drain fuel' (set_obj s o (mkObj (rc - 1) false mem)) w'
          | _ => UB
          end
      end
  end.
Definition run_todo (s : heap) (w : list todo) : res heap := drain (S (2 * length (cells s) + length w)) s w.
(** Retainer.hpp 78: _release *)
Definition release (s : heap) (p : option nat) : res heap := match p with Some o => run_todo s [TRelease o] | None => Ok s end.
(** Retainer.hpp 77: _retain, Object.cpp 22-29 *)
Definition retain (s : heap) (p : option nat) : res heap :=
  match p with
  | None => Ok s
  | Some o => match nth_error (objs s) o with Some (mkObj rc false mem) => Ok (set_obj s o (mkObj (rc + 1) false mem)) | _ => UB end
  end.

(** A live handle's pointer; [Rej] if the program names a handle that does not exist *)
Definition get (s : heap) (h : nat) : res (option nat) :=
  match nth_error (cells s) h with Some (mkCell true p) => Ok p | _ => Rej end.
(** A place for a new handle *)
Definition fresh (s : heap) (h : nat) : res unit := match nth_error (cells s) h with Some (mkCell false _) => Ok tt | _ => Rej end.
Definition put (s : heap) (h : nat) (p : option nat) : heap := set_cell s h (mkCell true p).
Definition alive (s : heap) (o : nat) : bool := match nth_error (objs s) o with Some (mkObj _ false _) => true | _ => false end.
Definition owned (s : heap) : list nat := flat_map (fun x => if ob_dead x then [] else ob_mem x) (objs s).
Definition peq (a b : option nat) : bool := match a, b with None, None => true | Some x, Some y => Nat.eqb x y | _, _ => false end.

(** Retainer.hpp 80-89: basicAssign *)
Definition basic_assign (s : heap) (h : nat) (newval : option nat) : res heap :=
  p <- get s h;;
  if peq p newval then Ok s
  else
    let s1 := put s h newval in
    s2 <- retain s1 newval;;
    release s2 p.

(** What a program can do.  [Rej]: the program is wrong (it names a handle or object that does not exist, or gives up a
    reference it does not have). *)
Inductive rop :=
| RNewObject (members : nat)      (* new T(): the creator has the first reference (Object.cpp 12) *)
| ROutRetain (o : nat) | ROutRelease (o : nat) (* o->retain(), o->release() *)
| RNewHandles (n : nat)           (* make room for local handles *)
| RNull (h : nat)                 (* 28-29 *)
| RFrom (h o : nat)               (* 30-31: Retainer(ptr), Retainer(ptr, true) *)
| RClaim (h o : nat)              (* 31: Retainer(ptr, false) *)
| RCopy (h g : nat)               (* 32, 35 *)
| RMove (h g : nat)               (* 33, 36 *)
| RAssign (h g : nat)             (* 38-39 *)
| RMoveAssign (h g : nat)         (* 41-57 *)
| RSwap (h g : nat)               (* 59-64 *)
| RReset (h : nat)                (* 70 *)
| RDestroy (h : nat).             (* 26, a local handle *)
Definition rstep (s : heap) (op : rop) : res heap :=
  match op with
  | RNewObject k =>
      let n := length (cells s) in
      Ok (mkHeap (cells s ++ repeat (mkCell true None) k) (objs s ++ [mkObj 1 false (seq n k)]) (length (objs s) :: outs s))
  | ROutRetain o => if alive s o then s' <- retain s (Some o);; Ok (set_outs s' (o :: outs s')) else Rej
  | ROutRelease o =>
      if existsb (Nat.eqb o) (outs s) then release (set_outs s (remove_one o (outs s))) (Some o) else Rej
  | RNewHandles n => Ok (mkHeap (cells s ++ repeat (mkCell false None) n) (objs s) (outs s))
  | RNull h => _ <- fresh s h;; Ok (put s h None)
  | RFrom h o => _ <- fresh s h;; if alive s o then retain (put s h (Some o)) (Some o) else Rej
  | RClaim h o => _ <- fresh s h;; if existsb (Nat.eqb o) (outs s) then Ok (put (set_outs s (remove_one o (outs s))) h (Some o)) else Rej
  | RCopy h g => _ <- fresh s h;; p <- get s g;; retain (put s h p) p
  | RMove h g => _ <- fresh s h;; p <- get s g;; Ok (put (put s h p) g None)
  | RAssign h g => p <- get s g;; basic_assign s h p
  | RMoveAssign h g =>
      tmp <- get s h;; p <- get s g;;
      release (put (put s h p) g None) tmp
  | RSwap h g => tmp <- get s h;; p <- get s g;; Ok (put (put s h p) g tmp)
  | RReset h => basic_assign s h None
  | RDestroy h => _ <- get s h;; if existsb (Nat.eqb h) (owned s) then Rej else run_todo s [TDestroy h]
  end.
Fixpoint rrun (ops : list rop) (s : heap) : res heap := match ops with [] => Ok s | o :: r => s' <- rstep s o;; rrun r s' end.
Definition heap_init : heap := mkHeap [] [] [].
