(** Specification vocabulary for the client end of a TC connection. *)
From Coq Require Import QArith.
From Verif Require Import Base TCConn.

(** How often a handler was registered and called under a transaction number. *)
Definition registered (tid : Z) (l : list event) : nat := length (filter (fun e => match e with EvReg t => t =? tid | _ => false end) l).
Definition handled (tid : Z) (l : list event) : nat := length (filter (fun e => match e with EvHandled t _ => t =? tid | _ => false end) l).
Definition called (l : list event) : list cb := flat_map (fun e => match e with EvCall c => [c] | _ => [] end) l.

(** What can happen, with operations of a kind: operations when nothing is left to be done, steps otherwise. *)
Section Runs.
Variable env : nat -> list ucall.
Variable kind : wop -> Prop.
Inductive later (c : conn) : conn -> Prop :=
| later_now : later c c
| later_op : forall c1 o, later c c1 -> t_stack c1 = [] -> kind o -> later c (do_op o c1)
| later_step : forall c1 c2, later c c1 -> wstep env c1 = Ok c2 -> later c c2.
Definition reachable (c : conn) : Prop := later c_init c.
End Runs.
Inductive steps (env : nat -> list ucall) : nat -> conn -> conn -> Prop :=
| steps_0 : forall c, steps env 0 c c
| steps_S : forall n c c1 c2, wstep env c = Ok c1 -> steps env n c1 c2 -> steps env (S n) c c2.
(** Any operation; a response whose number is not between zero and one; user code that sets no callback of the connection. *)
Definition any (o : wop) : Prop := True.
Definition decent (o : wop) : Prop := match o with OMsg (MResponse _ _ (ANum q)) => ~ (0 < q /\ q < 1)%Q | _ => True end.
Definition hands_off (o : wop) : Prop := match o with OUser l => forall a b d e, ~ In (TSetConn a b d e) l | _ => True end.
(** Closed, and all that had to be done is done. *)
Definition finished (c : conn) : Prop := t_open c = false /\ t_stack c = [].
(** None of the callbacks of the connection is set. *)
Definition unset (c : conn) : Prop := t_onopen c = false /\ t_onclose c = false /\ t_onstatus c = false /\ t_oncmd c = false.
