(** What a receiving flow should deliver, in terms of what the sender wrote and what arrived. *)
From Verif Require Import Base RecvFlow.
From Coq Require Import Sorted.

(** ** What a well-behaved sender numbers 1, 2, 3, ...
    A message is the list of its fragments' payloads (at least one). *)
Notation message := (list (list Z)) (only parsing).

(** Fragment-control marks of the fragments after the first. *)
Fixpoint later_marks (m : message) : list (Z * list Z) :=
  match m with [] => [] | [d] => [(32, d)] | d :: r => (48, d) :: later_marks r end.
Definition marks (m : message) : list (Z * list Z) :=
  match m with [] => [] | [d] => [(0, d)] | d :: r => (16, d) :: later_marks r end.
(** Fragment number [i], counting from 1. *)
Definition table (ms : list message) : list (Z * list Z) := flat_map marks ms.
Definition nth_frag (ms : list message) (i : Z) : option (Z * list Z) :=
  if 1 <=? i then nth_error (table ms) (Z.to_nat (i - 1)) else None.

(** What onMessage should be called with for each message: contents, number of the first fragment, number of fragments. *)
Fixpoint sent_from (first : Z) (ms : list message) : list (list Z * Z * Z) :=
  match ms with [] => [] | m :: r => (concat m, first, zlen m) :: sent_from (first + zlen m) r end.
Definition sent (ms : list message) : list (list Z * Z * Z) := sent_from 1 ms.

(** A fragment chunk as it can come out of the network: any fragment of the sender, with its data or abandoned (then the data
    is left out), with any forward sequence number, and with the FIN flag only as [fin] allows. *)
Definition conforms (fin : Z -> Prop) (ms : list message) (e : revent) : Prop :=
  match e with
  | EvData flags seq fsn data =>
      exists fra d, nth_frag ms seq = Some (fra, d) /\ Z.land flags 48 = fra /\ 0 <= fsn <= U64MAX
        /\ (Z.land flags 2 = 0 -> data = d) /\ (Z.land flags 1 <> 0 -> fin seq)
  | _ => True
  end.

(** Every message has at least one fragment, and sequence numbers do not run out. *)
Definition well_formed (ms : list (list (list Z))) : Prop := Forall (fun m => m <> []) ms /\ zlen (table ms) < U64MAX.

(** ** What has arrived *)
(** The highest forward sequence number seen. *)
Definition top_fsn (h : list revent) : Z := fold_right (fun e m => match e with EvData _ _ fsn _ => Z.max fsn m | _ => m end) 0 h.
(** [i] was received, or given up by the sender. *)
Definition covers (e : revent) (i : Z) : Prop :=
  match e with EvData _ seq fsn _ => i = seq \/ 0 <= i <= fsn | _ => False end.
Definition covered (h : list revent) (i : Z) : Prop := exists e, In e h /\ covers e i.
(** [e] brings the data of fragment [i]. *)
Definition carries (e : revent) (i : Z) : Prop :=
  match e with EvData flags seq _ _ => seq = i /\ Z.land flags 2 = 0 | _ => False end.
(** The data of fragment [i] arrived before [i] was otherwise accounted for. *)
Definition got (h : list revent) (i : Z) : Prop :=
  exists h1 e h2, h = h1 ++ e :: h2 /\ carries e i /\ ~ covered h1 i.
(** Everything up to [c] is accounted for. *)
Definition contiguous_to (h : list revent) (c : Z) : Prop := forall i, 0 <= i <= c -> covered h i.

(** In sequence order a message is due once all its fragments have come and nothing before its end is still expected. *)
Definition due_in_sequence (h : list revent) (m : list Z * Z * Z) : Prop :=
  let '(_, first, count) := m in
  (forall i, first <= i < first + count -> got h i) /\ contiguous_to h (first + count - 1).
(** In network order a message is due once all its fragments have come. *)
Definition due_in_network (h : list revent) (m : list Z * Z * Z) : Prop :=
  let '(_, first, count) := m in forall i, first <= i < first + count -> got h i.

(** Order-preserving selection. *)
Inductive selection {A : Type} : list A -> list A -> Prop :=
| sel_nil : selection [] []
| sel_skip : forall x l k, selection l k -> selection l (x :: k)
| sel_take : forall x l k, selection l k -> selection (x :: l) (x :: k).

(** The application never asks for network order. *)
Definition act_not_network (a : act) : Prop := a <> AOrder RO_NETWORK.
Definition ev_not_network (e : revent) : Prop := match e with EvAct a => act_not_network a | _ => True end.
(** Events of a flow whose application leaves it open and in the order it chose. *)
Definition passive (e : revent) : Prop := match e with EvData _ _ _ _ | EvAck | EvTry | EvAct (ACapacity _) | EvAct (AWindow _) => True | _ => False end.

(** ** Any peer at all *)
(** Field values fit their types. *)
Definition sane (e : revent) : Prop := match e with EvData _ seq fsn _ => is_u64 seq /\ is_u64 fsn | _ => True end.
(** The message is the received fragments [ps] (number and payload), in increasing order, put together. *)
Definition made_of (h : list revent) (m : list Z * Z * Z) (ps : list (Z * list Z)) : Prop :=
  ps <> [] /\ m = (concat (map snd ps), fst (hd (0, []) ps), zlen ps) /\ StronglySorted Z.lt (map fst ps)
  /\ forall s d, In (s, d) ps -> exists flags fsn, In (EvData flags s fsn d) h /\ Z.land flags 2 = 0.
(** The application keeps the flow on hold. *)
Definition holds (a : act) : Prop := forall o, a = AOrder o -> o = RO_HOLD.
Definition ev_holds (e : revent) : Prop := match e with EvAct a => holds a | _ => True end.
