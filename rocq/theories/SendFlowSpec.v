(** What a sending flow's fragments and counters should be. *)
From Verif Require Import Base RecvFlowSpec SendFlow WriteReceipt.

(** ** Fragmentation (C11) *)
(** Number, fragment-control mark and data of a queued fragment. *)
Definition shown (s : sess) (e : Z * nat) : Z * (Z * list Z) := let g := gget s (snd e) in (g_seq g, (g_fra g, g_data g)).
(** Consecutive numbers. *)
Fixpoint numbered (first : Z) (l : list (Z * list Z)) : list (Z * (Z * list Z)) :=
  match l with [] => [] | x :: r => (first, x) :: numbered (wrap64 (first + 1)) r end.
(** [pieces] is a way to cut [msg] up, no piece longer than [most], and none empty unless the message is. *)
Definition cut (most : Z) (msg : list Z) (pieces : list (list Z)) : Prop :=
  pieces <> [] /\ concat pieces = msg /\ Forall (fun p => zlen p <= most) pieces /\ (msg <> [] -> Forall (fun p => p <> []) pieces) /\ (msg = [] -> pieces = [[]]).

(** ** Accounting (C17) *)
Definition total (l : list Z) : Z := fold_right Z.add 0 l.
(** The fragments the flow still holds. *)
Definition held (s : sess) (fi : nat) : list sfrag := map (fun e => gget s (snd e)) (w_queue (wget s fi)).
Definition in_flight_bytes (s : sess) (fi : nat) : Z := total (map g_size (filter g_fly (held s fi))).
Definition held_bytes (s : sess) (fi : nat) : Z := total (map (fun g => zlen (g_data g) + 64) (held s fi)).
Definition session_bytes (s : sess) : Z := total (map (in_flight_bytes s) (seq 0 (length (s_flows s)))).
