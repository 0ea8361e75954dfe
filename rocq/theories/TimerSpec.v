(** Specification vocabulary for timers: what the log of a history must look like.  Logs are latest first. *)
From Verif Require Import Base Timer.

(** The time a timer was given last. *)
Fixpoint last_time (log : list tevent) (id : nat) : option Z :=
  match log with
  | [] => None
  | EvTime i w :: r => if Nat.eqb i id then Some w else last_time r id
  | _ :: r => last_time r id
  end.
(** Every action called was due, at the time its timer was given last, and its timer had not been cancelled before. *)
Definition punctual (log : list tevent) : Prop :=
  forall l2 id due now l1, log = l2 ++ EvRun id due now :: l1 -> due <= now /\ last_time l1 id = Some due /\ ~ In (EvCancel id) l1.
(** Of two actions called, the one due earlier comes first, unless its timer entered the list after the other was called. *)
Definition in_order (log : list tevent) : Prop :=
  forall l3 b db nb l2 a da na l1, log = l3 ++ EvRun b db nb :: l2 ++ EvRun a da na :: l1 -> db < da -> In (EvAdd b) l2.

(** Actions that do not put their own timer into the list by hand. *)
Definition polite (act : nat -> tstate -> list top) : Prop := forall id s, ~ In (TAdd id) (act id s).
Definition polite_hop (h : hop) : Prop := match h with HFire act _ _ => polite act | _ => True end.
(** Nobody clears the list. *)
Definition uncleared (h : hop) : Prop := match h with HCall o => o <> TClear | HFire act _ _ => forall id s, ~ In TClear (act id s) end.
(** Actions that give no timer a time at or before [now]. *)
Definition later (now : Z) (act : nat -> tstate -> list top) : Prop :=
  forall id s o, In o (act id s) -> match o with TSchedule w _ _ _ => now < w | TSet _ w => now < w | TAdd _ => False | _ => True end.
(** Nobody sets the time or the interval of a timer, or takes it out of the list. *)
Definition spares (id : nat) (o : top) : Prop := match o with TSet i _ => i <> id | TRecur i _ => i <> id | _ => True end.
Definition spares_hop (id : nat) (h : hop) : Prop := match h with HCall o => spares id o | HFire act _ _ => forall i s o, In o (act i s) -> spares id o end.
Definition ignores (id : nat) (o : top) : Prop :=
  match o with TSet i _ => i <> id | TRecur i _ => i <> id | TCancel i => i <> id | TAdd i => i <> id | TRemove i => i <> id | TClear => False | TSchedule _ _ _ _ => True end.
(** What programs that keep to [polite] can reach. *)
Definition reached (s : tstate) : Prop := exists l, Forall polite_hop l /\ hrun ts_init l = Ok s.
