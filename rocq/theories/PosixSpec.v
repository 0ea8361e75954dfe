(** What the platform adapter should do. *)
From Verif Require Import Base Posix.

(** the interface was made with this socket, of this family *)
Definition made (log : list event) (id k fam : Z) : Prop := In (EvIf id k fam) log.
(** packets come from and go to the interface's own socket *)
Definition own (log : list event) (e : event) : Prop :=
  match e with EvPacket id k _ => exists fam, made log id k fam | EvSent id k fam _ _ => made log id k fam | _ => True end.
(** the datagrams that reached a socket, and those of it given to RTMFP *)
Definition reached (k : Z) (log : list event) : list (list Z) := flat_map (fun e => match e with EvArrive k' b => if k' =? k then [b] else [] | _ => [] end) log.
Definition given (k : Z) (log : list event) : list (list Z) := flat_map (fun e => match e with EvPacket _ k' b => if k' =? k then [b] else [] | _ => [] end) log.
Definition asked (log : list event) : list Z := flat_map (fun e => match e with EvAsk t => [t] | _ => [] end) log.
Definition tasks (log : list event) : list Z := flat_map (fun e => match e with EvTask t => [t] | _ => [] end) log.
(** what RTMFP sees of a datagram *)
Definition cut (b : list Z) : list Z := firstn (Z.to_nat 8192) b.
(** the calls of onwritable *)
Definition writables (log : list event) : list Z := flat_map (fun e => match e with EvWritable cb => [cb] | _ => [] end) log.
(** the interfaces made, in order *)
Definition mades (log : list event) : list (Z * Z) := flat_map (fun e => match e with EvIf id k _ => [(id, k)] | _ => [] end) log.
(** only datagrams reaching sockets (the application's) *)
Definition only_arrivals (l : list event) : Prop := Forall (fun e => match e with EvArrive _ _ | EvAsk _ => True | _ => False end) l.
Definition adds (o : op) : bool := match o with Call (CAdd _ _ _) => true | _ => false end.
(** no descriptor is opened in a packet's callback (or another after it) if the adapter is closed there *)
Definition is_close (c : call) : bool := match c with CClose => true | _ => false end.
Definition opens (c : call) : bool := match c with CAdd _ _ _ | AppOpen _ _ => true | _ => false end.
Definition calm (cbs : list (list call)) : Prop := Forall (fun c => is_close c = false) (concat cbs) \/ Forall (fun c => opens c = false) (concat cbs).
Definition calm_op (o : op) : Prop := match o with Readable _ cbs => calm cbs | _ => True end.

(** calls that leave the registrations for writing alone *)
Definition steady (c : call) : Prop := match c with CClose | CNotify _ _ => False | _ => True end.
