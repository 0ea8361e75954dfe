(** What a sender and a receiver joined by a bad network should achieve. *)
From Verif Require Import Base RecvFlow RecvFlowSpec WriteReceipt SendFlow EndToEnd.

(** What the receiving application was given, in order. *)
Definition delivered (y : world) : list (list Z) := map (fun m => fst (fst m)) (msgs_of (f_out (y_r y))).

(** The messages that flow [fi]'s write() accepted along the execution [os] from [y], in order. *)
Definition accepted (fi : nat) (y : world) (o : yop) : list (list Z) :=
  match o with YSend (SWrite fj msg _ _ _) => if Nat.eqb fj fi && w_live (wget (y_s y) fj) then [msg] else [] | _ => [] end.
Fixpoint written (fi : nat) (y : world) (os : list yop) : list (list Z) :=
  match os with
  | [] => []
  | o :: r => accepted fi y o ++ match ystep fi y o with Ok y' => written fi y' r | _ => [] end
  end.

(** Which receipt an operation changes. *)
Definition changes (r : rop) (i : nat) : Prop :=
  match r with RNew _ _ _ => False | RUp j | RDown j | RStart j | RExamine _ j | RAbandon j | RSetStart j _ | RSetFinish j _ | RSetRtx j _ | RSetParent j _ | RHook j => j = i end.
(** The sending application uses flow [fi] reliably: no deadlines, and it does nothing to the receipts of its messages but asking
    to be told when they are finished; the flow's opening does not fail and the peer does not reject the flow. *)
Definition keeps_reliable (fi : nat) (y : world) (o : yop) : Prop :=
  match o with
  | YSend (SWrite fj _ sw fw _) => fj = fi -> sw = None /\ fw = None
  | YSend (SReceipt r) => forall i, In i (y_mine y) -> changes r i -> r = RHook i
  | YSend (SException id _) => find_flow id (s_flows (y_s y)) 0 <> Some fi
  | YSend (SOpenFailed fj) => fj <> fi
  | _ => True
  end.
Fixpoint reliable_run (fi : nat) (y : world) (os : list yop) : Prop :=
  match os with
  | [] => True
  | o :: r => keeps_reliable fi y o /\ match ystep fi y o with Ok y' => reliable_run fi y' r | _ => True end
  end.

(** Fragment number [i] of flow [fi] belongs to a message that was abandoned. *)
Definition given_up (s : sess) (fi : nat) (i : Z) : Prop :=
  exists n, (n < length (s_heap s))%nat /\ g_owner (gget s n) = fi /\ g_seq (gget s n) = i /\ c_aband (rget (s_rcpts s) (g_rcpt (gget s n))) = true.
(** Nothing of flow [fi] waits to be sent or acknowledged, and the flow was not torn down. *)
Definition drained (s : sess) (fi : nat) : Prop :=
  (w_bound (wget s fi) = true \/ w_state (wget s fi) = FS_OPEN) /\ w_queue (wget s fi) = [].
(** A fragment arrived whose forward sequence number is at least [i]. *)
Definition forwarded (h : list revent) (i : Z) : Prop := exists flags seq fsn data, In (EvData flags seq fsn data) h /\ i <= fsn.
(** What goes on without the applications: the session's timer, packets of flow [fi] sent, packets and acknowledgements arriving,
    acknowledgements sent. *)
Definition by_itself (fi : nat) (o : yop) : Prop :=
  match o with YSend STimeout => True | YSend (SSend fj _ _ _ _ _ _ _) => fj = fi | YDeliver _ _ | YAck _ _ _ _ _ _ _ | YGotAck _ _ => True | _ => False end.
