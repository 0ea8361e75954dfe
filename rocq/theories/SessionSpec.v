(** Specification vocabulary for the life cycle of a session. *)
From Verif Require Import Base Session.

(** The life cycle: opening (as an initiator by way of hello and keying), open, closing from either end, closed; anything not
    yet closed may be closed at once. *)
Definition allowed (a b : sstate) : Prop :=
  match a, b with
  | S_UNKNOWN, (S_IHELLO_SENT | S_OPEN) | S_IHELLO_SENT, S_KEYING_SENT | S_KEYING_SENT, S_OPEN | S_OPEN, (S_NEARCLOSE | S_FARCLOSE_LINGER) => True
  | S_CLOSED, _ => False
  | _, S_CLOSED => True
  | _, _ => False
  end.
(** The history (the latest first) is a path through the life cycle that ends in state [s]. *)
Inductive life : list event -> sstate -> Prop :=
| life_start : life [] S_UNKNOWN
| life_move : forall a b l, life l a -> allowed a b -> life (EvState a b :: l) b
| life_call : forall c l s, life l s -> life (EvCall c :: l) s
| life_told : forall r l s, life l s -> life (EvTold r :: l) s.
(** How often the owner was told, and how often the session entered the states it is to be told of: closing ([false]) and
    closed ([true], when the session is released). *)
Definition told (release : bool) (l : list event) : nat := length (filter (fun e => match e with EvTold r => Bool.eqb r release | _ => false end) l).
Definition entered (release : bool) (l : list event) : nat :=
  length (filter (fun e => match e with EvState _ S_CLOSED => release | EvState _ (S_NEARCLOSE | S_FARCLOSE_LINGER) => negb release | _ => false end) l).

(** What can happen: operations when nothing is left to be done, steps otherwise. *)
Section Runs.
Variable env : nat -> list ucall * bool.
Inductive later (w : world) : world -> Prop :=
| later_now : later w w
| later_op : forall w1 o, later w w1 -> v_stack w1 = [] -> later w (do_op o w1)
| later_step : forall w1 w2, later w w1 -> wstep env w1 = Ok w2 -> later w w2.
Definition reachable (w : world) : Prop := later w_init w.
Inductive steps : nat -> world -> world -> Prop :=
| steps_0 : forall w, steps 0 w w
| steps_S : forall n w w1 w2, wstep env w = Ok w1 -> steps n w1 w2 -> steps (S n) w w2.
End Runs.
(** The session is closed, and all that had to be done about it is done. *)
Definition finished (w : world) : Prop := v_state w = S_CLOSED /\ v_stack w = [].
(** Callbacks that open no flow to the endpoint of the session. *)
Definition opens_none (env : nat -> list ucall * bool) : Prop := forall n, ~ In UOpen (fst (env n)).
