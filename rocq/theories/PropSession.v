(** C30: the life cycle of a session. *)
From Verif Require Import Base Session SessionSpec SessionProofs SessionRun.
From Coq Require Import Lia Arith.

(** For examples: callbacks that do nothing, and ones that prepare an incoming flow. *)
Definition idle_env (n : nat) : list ucall * bool := ([], false).
Definition holder (n : nat) : list ucall * bool := ([UAccept 0; UHold 0 true; USetRecv 0 true true true true], false).
Definition late_opener (n : nat) : list ucall * bool := (match n with O => [UAccept 0; USetRecv 0 true true true true] | 1%nat => [UOpen; USetSend 0 true true true true] | _ => [] end, false).

(** Whatever the user's callbacks do, and whatever happens in whatever order, the states follow the life cycle. *)
Theorem C30_states : forall env w, reachable env w -> life (v_log w) (v_state w).
Proof. exact session_states. Qed.
Print Assumptions C30_states.

(** An initiator opens, the other end closes, and the lingering ends. *)
Example C30_states_case : map (fun e => match e with EvState a b => (rank a, rank b) | _ => (9, 9)%nat end) (v_log (acts idle_env 50 [OInitiate; OUser [UOpen; USetSend 0 true true true true]; ORHello false []; ORIKeying; OPacket [XClose]; OAbort] w_init))
  = [(9, 9); (5, 6); (9, 9); (9, 9); (3, 5); (2, 3); (1, 2); (0, 1)]%nat.
Proof. vm_compute. reflexivity. Qed.

(** No assertion fails, and no erased flow is erased again. *)
Theorem C30_safe : forall env w, reachable env w -> v_stack w <> [] -> exists w1, wstep env w = Ok w1.
Proof. exact session_safe. Qed.
Print Assumptions C30_safe.

(** A flow whose onException closes the session and another flow, while the loop of closing is at work. *)
Example C30_safe_case :
  let env := fun n : nat => ([UCloseSession; UCloseSend 1; UCloseSend 0; UOpenIn 1], false) in
  let w := acts env 50 [OIIKeying; OUser [UOpen; UOpen; USetSend 0 true true true true; USetSend 1 true true true true; UWrite 1]; OAbort] w_init in
  finished w /\ v_sends w = [] /\ v_pos w = 1%nat.
Proof. vm_compute. auto. Qed.

(** The owner is told exactly once that the session has closed, when it has, and at most once that it is closing. *)
Theorem C30_told : forall env w, reachable env w -> v_stack w = [] ->
  told true (v_log w) = (match v_state w with S_CLOSED => 1 | _ => 0 end)%nat /\
  (told false (v_log w) <= 1)%nat /\ (v_state w = S_NEARCLOSE \/ v_state w = S_FARCLOSE_LINGER -> told false (v_log w) = 1%nat) /\ ((rank (v_state w) < 4)%nat -> told false (v_log w) = 0%nat).
Proof. exact session_told. Qed.
Print Assumptions C30_told.

Theorem C30_told_once : forall env w, reachable env w -> (told true (v_log w) <= 1)%nat /\ (told false (v_log w) <= 1)%nat /\ (In (EvTold true) (v_log w) -> v_state w = S_CLOSED).
Proof. exact session_told_once. Qed.
Print Assumptions C30_told_once.

Example C30_told_case : let w := acts idle_env 50 [OIIKeying; OUser [UOpen; UCloseSession; UCloseSession]; OPacket [XCloseAck; XCloseAck]; OAbort; OClose false] w_init in
  v_stack w = [] /\ v_state w = S_CLOSED /\ told true (v_log w) = 1%nat /\ told false (v_log w) = 1%nat.
Proof. vm_compute. auto. Qed.

(** Once the session has closed and all that had to be done about it is done, it stays closed, and the only user callbacks of
    its flows that can still run are onMessage and onComplete of a receiving flow that was complete and no longer belonged to
    the session before, but that the user had not closed. *)
Theorem C30_quiet_partial : forall env w w1, reachable env w -> finished w -> later env w w1 ->
  v_state w1 = S_CLOSED /\ exists l, v_log w1 = l ++ v_log w /\
  forall e, In e l -> exists g, (e = EvCall (CbMessage g) \/ e = EvCall (CbComplete g false)) /\ g_base (rget w g) = true /\ g_st (rget w g) = 3%nat.
Proof.
  intros env w w1 R F L. destruct (session_quiet env w w1 R F L) as (S & l & E & Q). split; [exact S|]. exists l. split; [exact E|].
  intros e I. rewrite Forall_forall in Q. specialize (Q e I). destruct e as [a b|c|r]; try contradiction. destruct c as [i|i|g|i|g|g [|]|g|g]; try contradiction; exists g; destruct Q; auto.
Qed.
Print Assumptions C30_quiet_partial.

(** Packets, timers and calls on a closed session that had flows both ways. *)
Example C30_quiet_case :
  let env := fun n : nat => ([UAccept 0; USetRecv 0 true true true true; UNotify 0], true) in
  let w := acts env 50 [OIIKeying; OUser [UOpen; USetSend 0 true true true true; UNotify 0]; OPacket [XData 1 None false 2 false false]; OAbort] w_init in
  let w1 := acts env 50 [OPacket [XData 1 None false 2 false true; XException 0; XMobility]; OWritable 0; ODeliver 0 true; OUser [UOpen; UCloseSession; UNotify 0]; OWritable 0; OIdle; OTimeout] w in
  finished w /\ finished w1 /\ v_log w1 = v_log w /\ In (EvCall (CbException 0)) (v_log w) /\ In (EvCall (CbComplete 0 true)) (v_log w).
Proof. vm_compute. split; [auto|]. split; [auto|]. split; [auto|]. split; [auto 20|auto 20]. Qed.

(** "No callback at all" is false: a complete flow whose messages were held delivers them after the end. *)
Theorem C30_held_refuted : exists env w w1, reachable env w /\ finished w /\ later env w w1 /\ In (EvCall (CbMessage 0)) (v_log w1) /\ ~ In (EvCall (CbMessage 0)) (v_log w).
Proof.
  exists holder, (acts holder 50 [OIIKeying; OPacket [XData 1 None false 2 true false]; ORecvLinger 1; OAbort] w_init),
    (acts holder 50 [OUser [UHold 0 false]; ODeliver 0 true] (acts holder 50 [OIIKeying; OPacket [XData 1 None false 2 true false]; ORecvLinger 1; OAbort] w_init)).
  split; [apply acts_later; constructor|]. split; [split; vm_compute; reflexivity|]. split; [apply acts_later; constructor|]. vm_compute. split; [auto|]. intuition discriminate.
Qed.
Print Assumptions C30_held_refuted.

(** If the callbacks open no flow to the same endpoint, closing comes to an end: afterwards no flow is left in the session, and
    the owner has been told. *)
Theorem C30_closes_partial : forall env w r rest, opens_none env -> reachable env w -> v_stack w = closing r ++ rest ->
  exists n w1 l, steps env n w w1 /\ v_stack w1 = rest /\ v_state w1 = v_state w /\ v_sends w1 = [] /\ v_recvs w1 = [] /\ v_log w1 = l ++ v_log w /\ In (EvTold r) l.
Proof. intros env w r rest N R K. exact (session_closes env N w r rest R K). Qed.
Print Assumptions C30_closes_partial.

Example C30_closes_case :
  let env := fun n : nat => ([UCloseSend 1; UHold 0 true; UOpenIn 0], false) in
  let w := do_op OAbort (acts env 50 [OIIKeying; OUser [UOpen; UOpen; USetSend 0 true true true true]; OPacket [XData 1 None false 1 false false]] w_init) in
  opens_none env /\ v_stack w = closing true /\ v_sends w = [0; 2]%nat /\ length (v_recvs w) = 1%nat.
Proof. split; [|vm_compute; auto]. intros n X. cbn in X. intuition discriminate. Qed.

(** Without that it need not: an onException that opens another flow to the same endpoint keeps the session closing for ever,
    and the owner is never told. *)
Theorem C30_hang_refuted : exists env w, reachable env w /\ v_stack w = closing true /\
  forall k, exists n w1, (k <= n)%nat /\ steps env n w w1 /\ told true (v_log w1) = 0%nat /\ v_stack w1 <> [].
Proof.
  exists opener, (do_op OAbort (acts opener 50 [OIIKeying; OUser [UOpen; USetSend 0 true false false false]] w_init)). split; [|split].
  - apply later_op; [apply acts_later; constructor|vm_compute; reflexivity].
  - vm_compute. reflexivity.
  - intros k. apply (busy_forever k 0). repeat split; vm_compute; reflexivity.
Qed.
Print Assumptions C30_hang_refuted.

(** And a flow opened by an onComplete while the session closes stays open with the closed session; it is never told. *)
Theorem C30_orphan_refuted : exists env w i, reachable env w /\ finished w /\ In i (v_sends w) /\ f_base (sget w i) = true /\ f_exc (sget w i) = true /\ ~ In (EvCall (CbException i)) (v_log w).
Proof.
  exists late_opener, (acts late_opener 50 [OIIKeying; OPacket [XData 1 None false 0 false false]; OAbort] w_init), 0%nat.
  split; [apply acts_later; constructor|]. split; [split; vm_compute; reflexivity|]. vm_compute. split; [auto|]. split; [auto|]. split; [auto|]. intuition discriminate.
Qed.
Print Assumptions C30_orphan_refuted.
