(** Model of Performer (src/Performer.cpp): any number of threads calling perform, and the run loop's thread.

    Every access to shared data is one step: the atomic flags, the pipe, the queue (a step under m_mutex), the completion of an
    item (a step under its own mutex and condition).  Steps of different threads interleave in any order.  Writing to the pipe
    always succeeds (the pipe is not full).  A task that calls perform without waiting does so like one more thread; one that
    calls perform and waits, on the run loop's thread, empties the queue first ([MSync]).  close is called on the run loop's
    thread; after it the pipe is gone.  Exceptions from tasks are left out. *)
From Verif Require Import Base.

(** where a thread is in perform (85-117) *)
Inductive pst :=
| PIdle
| PPush (wait : bool)              (* 98-102: about to push its item *)
| PLoad (item : nat) (wait : bool) (* 104: about to look at m_signaled *)
| PSet (item : nat) (wait : bool)  (* 107 *)
| PWrite (item : nat) (wait : bool)(* 108 *)
| PWait (item : nat).              (* 111-116 *)
(** the run loop's thread: waiting for the pipe, in onSignaled (119-125) between clearing the flag and reading, or in nested
    calls of fireItems (127-144) and of tasks *)
Inductive frame := FPop | FTask (item : nat).
Inductive mst := MPoll | MRead | MStack (l : list frame).
Record perf := Perf {
  p_items : list nat;      (* m_items, items named in the order they are pushed *)
  p_signaled : bool;
  p_closed : bool;
  p_bytes : nat;           (* in the pipe *)
  p_main : mst;
  p_threads : list pst;
  p_pushed : list nat;     (* items pushed so far, in order *)
  p_started : list nat;    (* items whose task was started, in order *)
  p_done : list nat        (* items completed *)
}.
Definition perf_init (n : nat) : perf := Perf [] false false 0 MPoll (repeat PIdle n) [] [] [].
Fixpoint put {A} (l : list A) (n : nat) (x : A) : list A := match l, n with [], _ => [] | _ :: r, O => x :: r | a :: r, S k => a :: put r k x end.
Definition thread (s : perf) (t : nat) : pst := nth t (p_threads s) PIdle.
Definition with_thread (s : perf) (t : nat) (p : pst) : perf :=
  Perf (p_items s) (p_signaled s) (p_closed s) (p_bytes s) (p_main s) (put (p_threads s) t p) (p_pushed s) (p_started s) (p_done s).
Definition with_main (s : perf) (m : mst) : perf :=
  Perf (p_items s) (p_signaled s) (p_closed s) (p_bytes s) m (p_threads s) (p_pushed s) (p_started s) (p_done s).
Definition with_signaled (s : perf) (b : bool) : perf :=
  Perf (p_items s) b (p_closed s) (p_bytes s) (p_main s) (p_threads s) (p_pushed s) (p_started s) (p_done s).
Definition with_bytes (s : perf) (n : nat) : perf :=
  Perf (p_items s) (p_signaled s) (p_closed s) n (p_main s) (p_threads s) (p_pushed s) (p_started s) (p_done s).
Definition after (item : nat) (wait : bool) : pst := if wait then PWait item else PIdle.

(** 85-117: one step of a thread in perform; [None] when it has to wait *)
Definition thread_step (s : perf) (t : nat) : option perf :=
  match thread s t with
  | PIdle => None
  | PPush w =>
      let x := length (p_pushed s) in
      Some (with_thread (Perf (p_items s ++ [x]) (p_signaled s) (p_closed s) (p_bytes s) (p_main s) (p_threads s) (p_pushed s ++ [x]) (p_started s) (p_done s)) t (PLoad x w))
  | PLoad x w => Some (with_thread s t (if p_signaled s then after x w else PSet x w))
  | PSet x w => Some (with_thread (with_signaled s true) t (PWrite x w))
  | PWrite x w => Some (with_thread (if p_closed s then s else with_bytes s (S (p_bytes s))) t (after x w))
  | PWait x => if existsb (Nat.eqb x) (p_done s) then Some (with_thread s t PIdle) else None
  end.
(** 119-144, and 31-41 (Item::fire): one step of the run loop's thread *)
Definition main_step (s : perf) : option perf :=
  match p_main s with
  | MPoll => if p_closed s then None else match p_bytes s with O => None | S _ => Some (with_main (with_signaled s false) MRead) end
  | MRead => match p_bytes s with O => None | S k => Some (with_main (with_bytes s k) (MStack [FPop])) end
  | MStack [] => Some (with_main s MPoll)
  | MStack (FPop :: r) =>
      match p_items s with
      | [] => Some (with_main s (match r with [] => MPoll | _ => MStack r end))
      | x :: items =>
          if p_closed s then Some (Perf items (p_signaled s) true (p_bytes s) (p_main s) (p_threads s) (p_pushed s) (p_started s) (p_done s))
          else Some (Perf items (p_signaled s) false (p_bytes s) (MStack (FTask x :: FPop :: r)) (p_threads s) (p_pushed s) (p_started s ++ [x]) (p_done s))
      end
  | MStack (FTask x :: r) => Some (Perf (p_items s) (p_signaled s) (p_closed s) (p_bytes s) (match r with [] => MPoll | _ => MStack r end) (p_threads s) (p_pushed s) (p_started s) (x :: p_done s))
  end.
Inductive pop :=
| PCall (t : nat) (wait : bool) (* a thread calls perform: 87-88 *)
| PStep (t : nat)
| MStep
| MSync                         (* 90-96: perform and wait on the run loop's thread, from a task or anything else it runs *)
| MClose.                       (* 69-83 *)
Definition pstep (s : perf) (o : pop) : option perf :=
  match o with
  | PCall t w => match thread s t with PIdle => if p_closed s then Some s else Some (with_thread s t (PPush w)) | _ => None end
  | PStep t => thread_step s t
  | MStep => main_step s
  | MSync => if p_closed s then Some s else match p_main s with MPoll => Some (with_main s (MStack [FPop])) | MStack (FTask x :: r) => Some (with_main s (MStack (FPop :: FTask x :: r))) | _ => None end
  | MClose =>
      let c := fun st => Perf (p_items s) (p_signaled s) true 0 (MStack st) (p_threads s) (p_pushed s) (p_started s) (p_done s) in
      if p_closed s then Some s else match p_main s with MPoll => Some (c [FPop]) | MStack (FTask x :: r) => Some (c (FPop :: FTask x :: r)) | _ => None end
  end.
Fixpoint prun (s : perf) (l : list pop) : option perf := match l with [] => Some s | o :: r => match pstep s o with Some s' => prun s' r | None => None end end.
