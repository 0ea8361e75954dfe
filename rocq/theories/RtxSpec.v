(** What the timers that send again should do. *)
From Verif Require Import Base Rtx.

(** when IHellos to an address, the IIKeying of a start, Close chunks were sent *)
Definition hello_times (a : Z) (l : list event) : list Z := flat_map (fun e => match e with EHello a' t => if a' =? a then [t] else [] | _ => [] end) l.
Definition key_times (g : Z) (l : list event) : list Z := flat_map (fun e => match e with EKey g' t => if g' =? g then [t] else [] | _ => [] end) l.
Definition close_times (l : list event) : list Z := flat_map (fun e => match e with EClose t => [t] | _ => [] end) l.
(** 1 s, then 2.5 s, 4 s, ...: the time from the first of the transmissions to the one number [n], and from that to the next *)
Definition total (u : Z) (n : nat) : Z := let n := Z.of_nat n in 1000000 * u * n + 750000 * u * n * (n - 1).
Definition gap (u : Z) (n : nat) : Z := 1000000 * u + 1500000 * u * Z.of_nat n.
Definition isR (e : event) : bool := match e with ERHello => true | _ => false end.
Definition isO (e : event) : bool := match e with EOpen => true | _ => false end.
Definition isN (e : event) : bool := match e with ENear _ => true | _ => false end.
Definition isF (e : event) : bool := match e with EFar _ => true | _ => false end.
Definition isA (e : event) : bool := match e with EAbort => true | _ => false end.
Notation has p l := (existsb p l).
(** what must have happened, and what not, when [e] happens *)
Definition past_ok (l : list event) (e : event) : Prop :=
  match e with
  | EAdd a _ _ => (forall t d, ~ In (EAdd a t d) l) /\ has isR l = false /\ has isO l = false /\ has isA l = false
  | EHello a _ => (exists t d, In (EAdd a t d) l) /\ has isR l = false /\ has isO l = false /\ has isA l = false
  | EStart _ _ => has isR l = true /\ has isO l = false /\ has isA l = false
  | EKey g _ => (exists t, In (EStart g t) l /\ forall g' t', In (EStart g' t') l -> g' <= g) /\ has isR l = true /\ has isO l = false /\ has isA l = false
  | EOpen => has isO l = false /\ has isA l = false
  | ENear _ | EFar _ => has isO l = true /\ has isN l = false /\ has isF l = false /\ has isA l = false
  | EClose _ => has isN l = true /\ has isA l = false
  | EAbort => has isA l = false
  | ERHello => has isR l = false /\ has isO l = false /\ has isA l = false
  end.
(** when the armed timers are due *)
Definition due (s : st) : list Z :=
  flat_map (fun x => match snd x with Some t => [w t] | None => [] end) (hello s) ++ match key s with Some t => [w t] | None => [] end
  ++ match near s with Some (t, _) => [w t] | None => [] end ++ match far s with Some t => [t] | None => [] end ++ match ult s with Some t => [t] | None => [] end.
(** no timer is late by more than [L] *)
Definition prompt (L : Z) (s : st) : Prop := Forall (fun t => clock s <= t + L) (due s).
