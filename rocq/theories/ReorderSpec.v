(** Specification vocabulary for the reorder buffer. *)
From Verif Require Import Base Reorder.
From Coq Require Import Permutation.

(** The messages inserted by a history of timed calls, and the last sequence number a message covers. *)
Definition inserted (ops : list (Z * bop)) : list rmsg :=
  flat_map (fun e => match snd e with BInsert d s c => [mkRmsg d s c (fst e)] | _ => [] end) ops.
Definition covers_to (m : rmsg) : Z := if q_count m =? 0 then q_seq m else q_seq m + q_count m - 1.
(** Sequence numbers stay below 2^64 - 1 and the clock never runs back. *)
Definition fits (e : Z * bop) : Prop :=
  match snd e with
  | BInsert _ s c => 0 <= s /\ 0 <= c /\ s + c <= U64MAX - 1
  | BThrough n => 0 <= n < U64MAX
  | _ => True
  end.
Fixpoint clock (from : Z) (ops : list (Z * bop)) : Prop := match ops with [] => True | (now, _) :: r => from <= now /\ clock now r end.
Fixpoint clock_end (from : Z) (ops : list (Z * bop)) : Z := match ops with [] => from | (now, _) :: r => clock_end now r end.

(** A message is flagged late exactly when one that reaches further was passed before it. *)
Definition truthful (out : list (rmsg * bool)) : Prop := forall pre m late post, out = pre ++ (m, late) :: post ->
  (late = true <-> exists m' l', In (m', l') pre /\ covers_to m < covers_to m').
(** Passing [m] after [pre] skips no gap: it starts right after what was passed, or before. *)
Definition no_gap (pre : list (rmsg * bool)) (m : rmsg) : Prop := q_seq m <= 1 \/ exists m' l', In (m', l') pre /\ q_seq m <= covers_to m' + 1.
(** The reorder periods in force during a history, and the reasons to go on past a gap up to [n]: the owner said so, or a
    message was held for a whole period. *)
Definition in_force (period : option Z) (ops : list (Z * bop)) (q : Z) : Prop :=
  exists p, q = Z.max p 0 /\ (period = Some p \/ exists t, In (t, BPeriod (Some p)) ops).
Definition may_skip (period : option Z) (ops : list (Z * bop)) (now n : Z) : Prop :=
  (exists t, In (t, BThrough n) ops) \/ (exists t, In (t, BFlush) ops)
  \/ exists m q, In m (inserted ops) /\ in_force period ops q /\ q_time m + q <= now /\ n = covers_to m.
