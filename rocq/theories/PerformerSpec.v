(** Specification vocabulary for Performer. *)
From Verif Require Import Base Performer.

(** What can happen before close, with [n] threads. *)
Definition reaches (n : nat) (s : perf) : Prop := exists l, Forall (fun o => o <> MClose) l /\ prun (perf_init n) l = Some s.
(** A step of work under way: nobody calls anything new. *)
Inductive goes (s s' : perf) : Prop :=
| goes_thread : forall t, pstep s (PStep t) = Some s' -> goes s s'
| goes_main : pstep s MStep = Some s' -> goes s s'.
Definition stuck (s : perf) : Prop := forall s', ~ goes s s'.
(** A thread that is going to write to the pipe. *)
Definition will_write (s : perf) : Prop :=
  exists t x w, thread s t = PWrite x w \/ thread s t = PSet x w \/ (thread s t = PLoad x w /\ p_signaled s = false).
