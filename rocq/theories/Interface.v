(** Model of Interface (src/Interface.cpp): sharing transmission opportunities among sessions.

    Sessions are numbers.  m_sessions[pri] is a plain list (List itself is modelled in LinkedList.v).  What a session does when it is
    offered the interface (ISession::onInterfaceWritable) is not fixed: each call answers true (it sent something) or false, and
    may call scheduleWrite for any sessions and priorities meanwhile; the answers are arguments of [on_writable]. *)
From Verif Require Import Base.
Open Scope res_scope.

Inductive iev :=
| Asked (s p : nat) (b : bool)  (* onInterfaceWritable was called and answered b *)
| Wanted (s p : nat)            (* scheduleWrite was called *)
| Notify.                       (* notifyWhenInterfaceWritable was called *)
Record ifc := Ifc {
  i_q : nat -> list nat;   (* m_sessions, by priority *)
  i_sched : bool;          (* m_writeScheduled *)
  i_log : list iev         (* what happened, oldest first *)
}.
Definition NUM_PRIORITIES : nat := 8. (* include/rtmfp/Priority.hpp:10-14 *)
(** src/Interface.cpp:9-14 *)
Definition ifc_init : ifc := Ifc (fun _ => []) false [].
Definition set_q (x : ifc) (p : nat) (l : list nat) : ifc := Ifc (fun p' => if Nat.eqb p' p then l else i_q x p') (i_sched x) (i_log x).
Definition note (x : ifc) (e : iev) : ifc := Ifc (i_q x) (i_sched x) (i_log x ++ [e]).

(** src/Interface.cpp:39-53; a priority out of range indexes outside the array *)
Definition schedule_write (x : ifc) (s p : nat) : res ifc :=
  if Nat.ltb p NUM_PRIORITIES then
    let x := note x (Wanted s p) in
    Ok (if existsb (Nat.eqb s) (i_q x p) then x
        else let x := set_q x p (i_q x p ++ [s]) in
             if i_sched x then x else Ifc (i_q x) true (i_log x ++ [Notify]))
  else UB.
Fixpoint schedule_all (x : ifc) (l : list (nat * nat)) : res ifc :=
  match l with [] => Ok x | (s, p) :: r => x <- schedule_write x s p ;; schedule_all x r end.

(** What one call of onInterfaceWritable does: its scheduleWrite calls, then its answer. *)
Definition answer := (list (nat * nat) * bool)%type.
(** src/Interface.cpp:23-32, the inner loop.  [Rej]: more calls than answers were given. *)
Fixpoint serve (x : ifc) (p : nat) (ans : list answer) : res (bool * ifc * list answer) :=
  match i_q x p with
  | [] => Ok (false, x, ans)
  | s :: _ =>
      match ans with
      | [] => Rej
      | (w, b) :: ans =>
          x <- schedule_all x w ;;
          let x := note x (Asked s p b) in
          if (b : bool) then Ok (true, set_q x p (tl (i_q x p) ++ [s]), ans)
          else serve (set_q x p (tl (i_q x p))) p ans
      end
  end.
(** src/Interface.cpp:18-36, the outer loop from priority p down *)
Fixpoint levels (x : ifc) (p : nat) (ans : list answer) : res (bool * ifc) :=
  ' (b, x, ans) <- serve x p ans ;;
  if (b : bool) then Ok (true, x)
  else match p with
       | O => Ok (false, Ifc (i_q x) false (i_log x))
       | S k => levels x k ans
       end.
(** src/Interface.cpp:16-37 *)
Definition on_writable (x : ifc) (ans : list answer) : res (bool * ifc) := levels x (NUM_PRIORITIES - 1) ans.

Inductive iop := ISchedule (s p : nat) | IWritable (ans : list answer).
(** The platform calls onWritable only while it was asked to. *)
Definition istep (x : ifc) (o : iop) : res ifc :=
  match o with
  | ISchedule s p => schedule_write x s p
  | IWritable ans => if i_sched x then ' (_, x) <- on_writable x ans ;; Ok x else Rej
  end.
Fixpoint irun (x : ifc) (l : list iop) : res ifc := match l with [] => Ok x | o :: r => x <- istep x o ;; irun x r end.
