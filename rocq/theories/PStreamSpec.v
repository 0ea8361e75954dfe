(** What the stream adapter should do. *)
From Verif Require Import Base PStream.

(** the bytes writeBytes took, those sent (on a socket), those read and those given to the client *)
Definition written (l : list event) : list Z := flat_map (fun e => match e with EvWrite b _ => b | _ => [] end) l.
Definition sent (l : list event) : list Z := flat_map (fun e => match e with EvSend _ b => b | _ => [] end) l.
Definition sent_on (k : Z) (l : list event) : list Z := flat_map (fun e => match e with EvSend k' b => if k' =? k then b else [] | _ => [] end) l.
Definition reads (l : list event) : list (Z * list Z) := flat_map (fun e => match e with EvRead k b => [(k, b)] | _ => [] end) l.
Definition gots (l : list event) : list (Z * list Z) := flat_map (fun e => match e with EvGot k b => [(k, b)] | _ => [] end) l.
Definition asked (l : list event) : list Z := flat_map (fun e => match e with EvAsk t => [t] | _ => [] end) l.
Definition tasks (l : list event) : list Z := flat_map (fun e => match e with EvTask t => [t] | _ => [] end) l.
(** what must have happened, and what not, when [e] happens *)
Definition past_ok (l : list event) (e : event) : Prop :=
  match e with
  | EvSock k => ~ In (EvSock k) l
  | EvSend k _ => In (EvSock k) l /\ ~ In (EvShut k) l /\ ~ In (EvClose k) l
  | EvShut k => In (EvSock k) l /\ ~ In (EvClose k) l /\ In EvBye l /\ written l = sent l /\ (forall k', ~ In (EvShut k') l)
  | EvClose k => In (EvSock k) l /\ ~ In (EvClose k) l
  | EvRead k _ => In (EvSock k) l /\ ~ In (EvClose k) l
  | EvGot k b => ~ In EvBye l /\ exists l', l = l' ++ [EvRead k b]
  | EvDid k => In (EvClose k) l /\ ~ In (EvDid k) l
  | EvDone => ~ In EvDone l
  | EvTask _ => ~ In EvBye l /\ (forall k, ~ In (EvClose k) l)
  | _ => True
  end.
(** bytes are only given when the adapter is registered for writing *)
Definition told (l : list event) : Prop := Forall (fun e => match e with EvWrite _ reg => reg = true | _ => True end) l.
(** no detaching from the run loop *)
Definition stay (c : call) : Prop := match c with Detach => False | _ => True end.
Definition stay_op (o : op) : Prop :=
  match o with
  | Call c => stay c
  | Readable _ cs _ dcs ecs => Forall stay cs /\ Forall stay dcs /\ Forall stay ecs
  | Writable ws _ dcs ecs => Forall (fun w => Forall stay (fst w)) ws /\ Forall stay dcs /\ Forall stay ecs
  | RunTask cs => Forall stay cs
  end.
Definition is_event (o : op) : Prop := match o with Call _ => False | _ => True end.
(** sockets are given before the client closes *)
Definition early (l : list event) : Prop := forall l1 k l2, l = l1 ++ EvSock k :: l2 -> ~ In EvBye l1.
