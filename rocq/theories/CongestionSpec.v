(** Specification vocabulary for the congestion window. *)
From Verif Require Import Base Congestion.

(** The smallest window is two maximal fragments, and three except after a timeout. *)
Definition MSS := 1161.
(** What can happen to a session that never has more than [m] bytes outstanding: acknowledgements and losses only take away
    from what is outstanding. *)
Definition feasible (m : Z) (o : cop) : Prop :=
  match o with
  | CPacket _ pre reports _ rest lost _ _ => 0 <= lost <= rest /\ rest <= pre /\ pre <= m /\ bytes_ok reports
  | CTimeout _ _ => True
  end.
(** A loss counts one and a half times, rounded up. *)
Definition loss_cost (lost : Z) : Z := (3 * lost + 1) / 2.
(** Congestion counts reported modulo 256: those not more than 32 behind and less than 224 ahead of the highest so far. *)
Fixpoint in_step (high : Z) (counts : list Z) : Prop :=
  match counts with [] => True | c :: r => high - 32 <= c < high + 224 /\ in_step (Z.max high c) r end.

(** Packets with acknowledgements that all fall into one recovery, and what they report lost. *)
Definition acks_of (o : cop) : option (Z * Z) := match o with CPacket _ pre _ true rest lost _ _ => Some (pre - rest, lost) | _ => None end.
Inductive recovering : list cop -> list Z -> cong -> cong -> Prop :=
| rec_nil : forall s, recovering [] [] s s
| rec_cons : forall o ops acked lost losts s s1 s2, acks_of o = Some (acked, lost) -> acked + lost < q_remaining s -> cstep o s = Ok s1 -> recovering ops losts s1 s2 -> recovering (o :: ops) (lost :: losts) s s2.
Definition total_cost (losts : list Z) : Z := fold_right (fun l a => loss_cost l + a) 0 losts.

(** What packets acknowledge altogether, and runs in which the sender keeps about to the window. *)
Definition acked_by (o : cop) : Z := match o with CPacket _ pre _ true rest _ _ _ => pre - rest | _ => 0 end.
Definition total_acked (ops : list cop) : Z := fold_right (fun o a => acked_by o + a) 0 ops.
Inductive keeps_to_window : list cop -> cong -> Prop :=
| ktw_nil : forall s, keeps_to_window [] s
| ktw_cons : forall o ops s, (match o with CPacket _ pre _ _ _ _ _ _ => pre <= q_cwnd s + q_cwnd s / 2 | _ => True end) -> (forall s1, cstep o s = Ok s1 -> keeps_to_window ops s1) -> keeps_to_window (o :: ops) s.
(** Congestion avoidance: how many bytes give one step, and the steps: larger if growing fast, or if time critical. *)
Definition per_step (fast : bool) (cwnd : Z) : Z := Z.min (Z.max (cwnd / 16) 64) (if fast then 9600 else 4800).
Definition step_of (fast tc : bool) : Z := if fast then 96 else if tc then 48 else 24.
