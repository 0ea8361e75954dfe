(** Sending flows: C11 (fragmentation), C17 (accounting), C52 (transmission order), for all executions. *)
From Verif Require Import Base UserData Ack RecvFlowSpec WriteReceipt SendFlow SendFlowSpec SendFlowRun.

(** ** An execution for the examples: a flow with metadata, a message of 3000 bytes in three fragments, a small one, one packet
    sent; the fragment in flight is lost, two packets are sent, the first fragment is acknowledged. *)
Definition ex_buf : list Z := repeat 0 1200.
Definition ex_send (o : Z) : sop := SSend 0 false ex_buf 8 0 100 (-1) [o; o + 1].
Definition ex_start : list sop :=
  [SOpen [65; 66] None; SBind 0 7; SWrite 0 (repeat 9 3000) None None [1; 2; 3]; SWrite 0 [1; 2; 3] (Some 5) None [4]].
Definition ex_mid : list sop := ex_start ++ [ex_send 1; STimeout; STick 20; ex_send 1; ex_send 2; SAck [7; 64; 1]].

(** C11: whatever came before, a write to a flow that is open for writing appends fragments numbered consecutively from the next
    sequence number, marked WHOLE or BEGIN MIDDLE* END, whose data are the message cut into pieces of at most 1161 bytes less the
    flow's startup options; nothing else in the queue changes. *)
Theorem C11_fragments : forall os s fi msg sw fw names s',
  srun ss_init os = Ok s -> s_open s = true -> w_live (wget s fi) = true -> sstep s (SWrite fi msg sw fw names) = Ok s' ->
  exists pieces new, cut (1161 - zlen (w_opts (wget s fi))) msg pieces
    /\ w_queue (wget s' fi) = w_queue (wget s fi) ++ new
    /\ map (shown s') new = numbered (w_next (wget s fi)) (marks pieces)
    /\ w_next (wget s' fi) = w_next (wget s fi) + zlen pieces /\ w_next (wget s' fi) <= U64MAX
    /\ (forall e, In e (w_queue (wget s fi)) -> shown s' e = shown s e).
Proof. exact write_split. Qed.
Print Assumptions C11_fragments.
(** ... and it does go through when names and sequence numbers suffice. *)
Theorem C11_write_goes : forall os s fi msg sw fw names,
  srun ss_init os = Ok s -> s_open s = true -> bytes_ok msg -> zlen msg < zlen names -> NoDup names ->
  (forall nm, In nm names -> 0 < nm /\ ~ In nm (map fst (w_queue (wget s fi)))) -> w_next (wget s fi) + zlen msg < U64MAX ->
  exists s', sstep s (SWrite fi msg sw fw names) = Ok s'.
Proof. exact write_goes. Qed.
Print Assumptions C11_write_goes.
Example C11_case : match srun ss_init ex_start with
  | Ok s => s_open s && w_live (wget s 0) && (w_next (wget s 0) =? 5)
      && forallb (fun e => let g := gget s (snd e) in existsb (fun x => (fst (fst x) =? g_seq g) && (snd (fst x) =? g_fra g) && (snd x =? zlen (g_data g))) [(1, 16, 1156); (2, 48, 1156); (3, 32, 688); (4, 0, 3)]) (w_queue (wget s 0))
      && (zlen (w_queue (wget s 0)) =? 4)
  | _ => false end = true.
Proof. vm_compute. reflexivity. Qed.

(** C17: at any point of any execution while the session is open, a flow's m_outstanding_bytes is the total size of its fragments
    in flight and m_send_queue.sum() that of the fragments it holds, each with 64 bytes of bias (in 64-bit arithmetic; the in-flight total is exact for
    any queue of less than 2^53 fragments), and the session's m_outstandingFrags.sum() is the total over all its flows.
    No execution removes a name that is not there, or fails otherwise. *)
Theorem C17_flow_accounts : forall os s fi, srun ss_init os = Ok s -> s_open s = true ->
  w_out (wget s fi) = wrap64 (in_flight_bytes s fi) /\ w_qsum (wget s fi) = wrap64 (held_bytes s fi)
  /\ 0 <= in_flight_bytes s fi <= 1200 * zlen (w_queue (wget s fi)) /\ 0 <= held_bytes s fi.
Proof. exact accounts. Qed.
Print Assumptions C17_flow_accounts.
Theorem C17_outstanding_exact : forall os s fi, srun ss_init os = Ok s -> s_open s = true -> zlen (w_queue (wget s fi)) < 2 ^ 53 ->
  w_out (wget s fi) = in_flight_bytes s fi.
Proof.
  intros os s fi E Ho Hq. destruct (accounts os s fi E Ho) as (-> & _ & (h1 & h2) & _). apply Z.mod_small. lia.
Qed.
Print Assumptions C17_outstanding_exact.
Theorem C17_session_accounts : forall os s, srun ss_init os = Ok s -> s_open s = true -> s_osum s = wrap64 (session_bytes s).
Proof. exact session_accounts. Qed.
Print Assumptions C17_session_accounts.
Theorem C17_never_fails : forall os, srun ss_init os <> UB.
Proof. exact send_safe. Qed.
Print Assumptions C17_never_fails.
Example C17_case : match srun ss_init ex_mid with
  | Ok s => s_open s && (in_flight_bytes s 0 =? 1168) && (w_out (wget s 0) =? 1168) && (held_bytes s 0 =? 2039) && (w_qsum (wget s 0) =? 2039) && (session_bytes s =? 1168) && (zlen (w_queue (wget s 0)) =? 3)
  | _ => false end = true.
Proof. vm_compute. reflexivity. Qed.

(** After the session closes the claim fails: onSessionDidClose clears the queue but not m_outstanding_bytes, so
    getOutstandingBytes keeps answering the size of fragments that no longer exist. *)
Theorem C17_after_close_refuted : exists os s, srun ss_init os = Ok s /\ s_open s = false /\ w_queue (wget s 0) = [] /\ in_flight_bytes s 0 = 0 /\ w_out (wget s 0) = 1168.
Proof.
  exists (ex_start ++ [ex_send 1; SSessionClose]).
  assert (H : match srun ss_init (ex_start ++ [ex_send 1; SSessionClose]) with
     | Ok s => negb (s_open s) && match w_queue (wget s 0) with [] => true | _ => false end && (in_flight_bytes s 0 =? 0) && (w_out (wget s 0) =? 1168) | _ => false end = true) by (vm_compute; reflexivity).
  destruct (srun ss_init (ex_start ++ [ex_send 1; SSessionClose])) as [s| |]; try discriminate. exists s. rewrite !andb_true_iff in H. destruct H as (((h1 & h2) & h3) & h4).
  split; [reflexivity|]. split; [apply negb_true_iff; exact h1|]. split; [destruct (w_queue (wget s 0)); [reflexivity|discriminate]|]. split; apply Z.eqb_eq; assumption.
Qed.
Print Assumptions C17_after_close_refuted.

(** C52: resuming the scan of the send queue after the last fragment sent skips nothing: when a packet carries a fragment, every
    fragment queued before it is in flight. *)
Theorem C52_send_order : forall os s fi gone buf margin flags ts tse onames s', srun ss_init os = Ok s -> s_open s = true ->
  sstep s (SSend fi gone buf margin flags ts tse onames) = Ok s' -> exists ws, s_wire s' = s_wire s ++ ws /\
  Forall (fun x => x_flow x = fi /\ exists a nm b, w_queue (wget s' fi) = a ++ (nm, x_frag x) :: b
     /\ Forall (fun e => g_fly (gget s' (snd e)) = true) (a ++ [(nm, x_frag x)])) ws.
Proof. exact send_in_order. Qed.
Print Assumptions C52_send_order.
Example C52_case : match srun ss_init (ex_start ++ [ex_send 1; STimeout]) with
  | Ok s => match sstep s (ex_send 1) with Ok s' => s_open s && (zlen (s_wire s') =? 1 + zlen (s_wire s)) && (w_last (wget s' 0) =? 1) | _ => false end
  | _ => false end = true.
Proof. vm_compute. reflexivity. Qed.
