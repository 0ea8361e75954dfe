(** C49: messages written through RTMP are reconstructed by the receiving end, whatever is done to the sender: chunk sizes changed
    at any time, messages of 8 priorities interleaved, messages abandoned, simple mode switched, other control messages.
    C56: the receiving end handles every input, and where the input is cut does not matter. *)
From Verif Require Import Base BaseFacts TC RTMP RTMPSpec RTMPProofs RTMPRun.
Open Scope Z_scope.

(** No operation fails an assertion: in particular a chunk stream is always found. *)
Theorem C49_runs : forall ops, Forall sop_ok ops -> exists s, srun s_init ops = Ok s /\ bytes_ok (w_out s).
Proof. exact rtmp_runs. Qed.
Print Assumptions C49_runs.
(** Having received part of the output in any pieces, the receiver has delivered the first of the messages completed, each with
    its stream, type, timestamp and payload; having received it all, all of them. *)
Theorem C49_reassembled : forall ops s pieces later, Forall sop_ok ops -> srun s_init ops = Ok s -> concat pieces ++ later = w_out s ->
  exists r missing, receives r_init pieces = Ok r /\ r_dead r = false /\ r_msgs r ++ missing = finished s /\ (later = [] -> r_msgs r = finished s /\ r_buf r = []).
Proof. exact rtmp_reassembled. Qed.
Print Assumptions C49_reassembled.
(** Within a priority messages leave the queue in the order they were written, completed or abandoned. *)
Theorem C49_order : forall ops s pri, Forall sop_ok ops -> srun s_init ops = Ok s -> left_queue pri s ++ map q_msg (qget s pri) = written pri ops.
Proof. exact rtmp_order. Qed.
Print Assumptions C49_order.
(** If nothing is abandoned, then after being able to write often enough everything written was completed. *)
Theorem C49_complete : forall ops s now, Forall sop_ok ops -> (forall p t, ~ In (STrim p t) ops) -> srun s_init ops = Ok s -> w_state s = Opened \/ w_state s = Closing ->
  exists n s', srun s_init (ops ++ repeat (SWritable now) n) = Ok s' /\ (forall pri, left_queue pri s' = written pri ops) /\ finished s' = map (fun e => snd (fst e)) (w_log s').
Proof. exact rtmp_complete. Qed.
Print Assumptions C49_complete.

(** A case: messages of three priorities and chunk streams interleaved, one with an extended timestamp, the chunk size changed
    twice in between, and one abandoned after its first chunk. *)
Definition long1 := mkMsg 1 9 16777220 (map (fun i => Z.of_nat i mod 256) (seq 0 300)).
Definition long2 := mkMsg 2 8 5 (map (fun i => (7 * Z.of_nat i) mod 256) (seq 0 500)).
Definition short := mkMsg 0 20 7 [1; 2; 3].
Definition short2 := mkMsg 0 20 14 [4; 5; 6].
Definition busy_case : list sop :=
  [SWrite 2 long1; SSize 128 0; SOpen 1; SWritable 2; SWrite 5 long2; SWritable 3; SSize 200 4; SWrite 7 short; SWritable 5; SWritable 6; STrim 5 7; SAckn 99 8; SWrite 7 short2; SWritable 9; SWritable 10; SSimple true; SClose; SWrite 0 long1; SWritable 11].
Example busy_completes : exists s, srun s_init busy_case = Ok s /\ Forall sop_ok busy_case /\ finished s = [short; short2; long1] /\ left_queue 5 s = [long2] /\ zlen (w_out s) = 724.
Proof.
  eexists. split; [vm_compute; reflexivity|]. split; [|split; [vm_compute; reflexivity|split; vm_compute; reflexivity]].
  assert (M : forall m, (0 <=? g_sid m) && (g_sid m <=? U32MAX) && (0 <=? g_type m) && (g_type m <=? 255) && (0 <=? g_ts m) && (g_ts m <=? U32MAX) && bytes_okb (g_data m) = true -> msg_ok m).
  { intros m H. rewrite !andb_true_iff, !Z.leb_le in H. unfold msg_ok, is_u32, is_byte. destruct H as ((((((H1 & H2) & H3) & H4) & H5) & H6) & H7). apply bytes_okb_ok in H7. split; [lia|]. split; [lia|]. split; [lia|exact H7]. }
  assert (L : msg_ok long1 /\ msg_ok long2 /\ msg_ok short /\ msg_ok short2) by (repeat split; try (apply (M long1); vm_compute; reflexivity); try (apply (M long2); vm_compute; reflexivity); try (apply (M short); vm_compute; reflexivity); apply (M short2); vm_compute; reflexivity).
  destruct L as (A & B & C & D). unfold busy_case. repeat (apply Forall_cons; [cbn; first [exact Logic.I | split; [lia|assumption] | unfold is_u32, U32MAX; lia]|]). apply Forall_nil.
Qed.
Example busy_received : exists s r, srun s_init busy_case = Ok s /\ receives r_init [firstn 400 (w_out s); firstn 57 (skipn 400 (w_out s)); skipn 457 (w_out s)] = Ok r /\ r_msgs r = [short; short2; long1] /\ r_dead r = false.
Proof. eexists. eexists. split; [vm_compute; reflexivity|]. split; [vm_compute; reflexivity|]. split; vm_compute; reflexivity. Qed.

(** Every sequence of bytes in any pieces is handled: no read outside the buffer, no failed assertion, no endless loop. *)
Theorem C56_safe : forall pieces, Forall bytes_ok pieces -> exists r, receives r_init pieces = Ok r.
Proof. exact receive_any. Qed.
Print Assumptions C56_safe.
(** The same bytes in other pieces: the same messages, and the connection fails or not. *)
Theorem C56_pieces : forall a b r q, Forall bytes_ok a -> Forall bytes_ok b -> concat a = concat b -> receives r_init a = Ok r -> receives r_init b = Ok q -> r_msgs r = r_msgs q /\ r_dead r = r_dead q.
Proof. exact receive_cut. Qed.
Print Assumptions C56_pieces.
(** Cases: a chunk of type 3 on a new chunk stream is an error; a message in two chunks that arrive byte by byte. *)
Example bad_input : exists r, receives r_init [[195]] = Ok r /\ r_dead r = true /\ r_msgs r = [].
Proof. eexists. split; [vm_compute; reflexivity|]. split; reflexivity. Qed.
Definition two_chunks : list Z := [3; 0; 0; 9; 0; 0; 130; 20; 1; 0; 0; 0] ++ repeat 65 128 ++ [195; 66; 67].
Example byte_by_byte : exists r, receives r_init (map (fun b => [b]) two_chunks) = Ok r /\ r_msgs r = [mkMsg 1 20 9 (repeat 65 128 ++ [66; 67])] /\ r_dead r = false.
Proof. eexists. split; [vm_compute; reflexivity|]. split; vm_compute; reflexivity. Qed.
