(** C83: the messages of a TCConnection and the sending side of a TCStream. *)
From Coq Require Import String Ascii.
From Verif Require Import Base BaseFacts AMF AMFSpec AMFProofs TC TCProofs FlowSync TCMsg TCMsgSpec TCMsgProofs WebSockHttpSpec.
Open Scope list_scope.

(** A command made by Message::command, in either format, is received as that command with those arguments: by the connection on the control stream, else by the stream *)
Theorem C83_command : forall has ign sid ext name tid obj args ts, name_ok name -> is_u64 tid -> is_u32 ts -> good_value (match obj with Some o => o | None => ANull end) -> Forall good_value args ->
  bytes_ok (make_command ext name tid obj (amf_encode_list (map Some args))) ->
  deliver has ign sid (tc_message (if ext then 17 else 20) ts (make_command ext name tid obj (amf_encode_list (map Some args))))
  = Ok (if sid =? 0 then ControlCommand name tid (map filled args) else if has sid then StreamCommand sid name (map filled args) else Nothing).
Proof.
  intros has ign sid ext name tid obj args ts N T S O A B. rewrite deliver_message by (destruct ext; unfold is_byte; (lia || assumption)).
  unfold make_command. destruct ext; exact (on_command_ok has sid _ name tid _ args N T O A).
Qed.
Print Assumptions C83_command.
Example C83_command_case :
  deliver (Z.eqb 7) false 7 (tc_message 20 0 (make_command false (text "onStatus") 0 None (amf_encode_list [Some (AStr (text "hi"))]))) = Ok (StreamCommand 7 (text "onStatus") [AStr (text "hi")]) /\
  deliver (Z.eqb 7) false 0 (tc_message 17 9 (make_command true (text "connect") 4607182418800017408 (Some (ABool true)) (amf_encode_list [Some ANull]))) = Ok (ControlCommand (text "connect") 4607182418800017408 [ANull]).
Proof. vm_compute. split; reflexivity. Qed.

(** What TCStream::publish, play, pause, ... queue is received by the peer's stream as that command, the extra argument first *)
Theorem C83_stream_command : forall has ign sid name ins args ts, name_ok name -> is_u32 ts -> Forall good_value (match ins with Some v => v :: args | None => args end) ->
  sid <> 0 -> has sid = true -> bytes_ok (stream_command name ins (map Some args)) ->
  deliver has ign sid (tc_message 20 ts (stream_command name ins (map Some args))) = Ok (StreamCommand sid name (map filled (match ins with Some v => v :: args | None => args end))).
Proof.
  intros has ign sid name ins args ts N S A D H B. rewrite deliver_message by (unfold is_byte; (lia || assumption)).
  assert (E : stream_command name ins (map Some args) = (if false then [0] else []) ++ amf_encode (AStr name) ++ amf_encode (ANum 0) ++ amf_encode ANull ++ amf_encode_list (map Some (match ins with Some v => v :: args | None => args end))) by (destruct ins; reflexivity).
  rewrite E. change (on_message has ign sid 20 ts) with (on_command has sid false). rewrite on_command_ok; [|exact N|unfold is_u64, U64MAX; lia|split; [constructor|cbn; lia]|exact A].
  apply Z.eqb_neq in D. rewrite D, H. reflexivity.
Qed.
Print Assumptions C83_stream_command.
Example C83_stream_command_case : deliver (Z.eqb 7) false 7 (tc_message 20 0 (stream_command (text "publish") (Some (AStr (text "live"))) [Some (ABool false)])) = Ok (StreamCommand 7 (text "publish") [AStr (text "live"); ABool false]).
Proof. vm_compute. reflexivity. Qed.

(** Data, audio and video messages reach the stream with their time and their content *)
Theorem C83_data : forall has ign sid (ex : bool) name args ts, name_ok name -> is_u32 ts -> Forall good_value args -> sid <> 0 -> has sid = true ->
  bytes_ok ((if ex then [0] else []) ++ stream_data name (map Some args)) ->
  deliver has ign sid (tc_message (if ex then 15 else 18) ts ((if ex then [0] else []) ++ stream_data name (map Some args))) = Ok (OnData sid ts name (map filled args)).
Proof.
  intros has ign sid ex name args ts N S A D H B. rewrite deliver_message by (destruct ex; unfold is_byte; (lia || assumption)). apply Z.eqb_neq in D.
  unfold on_message. destruct ex; cbn [Z.eqb Pos.eqb orb]; rewrite D, H; cbn [orb negb]; [exact (on_data_ok sid ts true name args N A)|exact (on_data_ok sid ts false name args N A)].
Qed.
Print Assumptions C83_data.
Example C83_data_case : deliver (Z.eqb 7) false 7 (tc_message 18 70000 (stream_data (text "onMetaData") [Some (ABool true)])) = Ok (OnData 7 70000 (text "onMetaData") [ABool true]).
Proof. vm_compute. reflexivity. Qed.
Theorem C83_media : forall has ign sid ts p, is_u32 ts -> bytes_ok p ->
  deliver has ign sid (tc_message 8 ts p) = Ok (if (sid =? 0) || negb (has sid) then Nothing else OnAudio sid ts p) /\
  deliver has ign sid (tc_message 9 ts p) = Ok (if (sid =? 0) || negb (has sid) then Nothing else OnVideo sid ts p).
Proof. intros has ign sid ts p S B. rewrite !deliver_message by (unfold is_byte; (lia || assumption)). unfold on_message. cbn [Z.eqb Pos.eqb orb]. destruct ((sid =? 0) || negb (has sid)); split; reflexivity. Qed.
Print Assumptions C83_media.
Example C83_media_case : deliver (Z.eqb 7) false 7 (tc_message 9 (2 ^ 32 - 1) [23; 0; 1]) = Ok (OnVideo 7 (2 ^ 32 - 1) [23; 0; 1]).
Proof. vm_compute. reflexivity. Qed.

(** No message makes the receiver read outside it, apart from an empty TCMSG_DATA_EX for a stream there is *)
Theorem C83_defined_partial : forall has ign sid b, bytes_ok b -> ~ (zlen b = 5 /\ hd 0 b = 15 /\ sid <> 0 /\ has sid = true) -> exists a, deliver has ign sid b = Ok a.
Proof. exact deliver_total. Qed.
Print Assumptions C83_defined_partial.
Example C83_defined_case : deliver (Z.eqb 7) false 7 [15; 0; 0; 0; 0; 3; 2; 0] = Ok Nothing /\ deliver (Z.eqb 7) false 0 [17; 0; 0; 0; 0] = Ok Nothing /\ deliver (Z.eqb 7) false 0 [20; 0; 0; 0; 0; 2; 0] = Ok CloseError.
Proof. vm_compute. repeat split. Qed.
Theorem C83_data_ex_refuted : ~ (forall has ign sid b, bytes_ok b -> deliver has ign sid b <> UB).
Proof.
  intros H. apply (H (Z.eqb 7) false 7 [15; 0; 0; 0; 0]); [|reflexivity].
  repeat (apply Forall_cons; [unfold is_byte; lia|]). constructor.
Qed.
Print Assumptions C83_data_ex_refuted.
Example C83_data_ex_case : deliver (Z.eqb 7) false 7 (tc_message 15 0 []) = UB.
Proof. reflexivity. Qed.

(** The set keepalive command sets the session's period to the one it names, of at least 5 seconds *)
Theorem C83_keepalive_partial : forall has sid ts a b c d e f g h, is_u32 ts -> Forall is_byte [a; b; c; d; e; f; g; h] ->
  exists peer, deliver has false sid (tc_message 4 ts [0; 41; a; b; c; d; e; f; g; h]) = Ok (SetKeepalive (Z.max (2 ^ 24 * a + 2 ^ 16 * b + 2 ^ 8 * c + d) 5000) peer) /\ 5000 <= peer /\
    deliver has true sid (tc_message 4 ts [0; 41; a; b; c; d; e; f; g; h]) = Ok Nothing.
Proof.
  intros has sid ts a b c d e f g h S F.
  assert (B : bytes_ok [0; 41; a; b; c; d; e; f; g; h]) by (do 2 (apply Forall_cons; [unfold is_byte; lia|]); exact F).
  rewrite !deliver_message by (unfold is_byte; (lia || assumption)).
  inversion_clear F as [|? ? A F1]. inversion_clear F1 as [|? ? B1 F2]. inversion_clear F2 as [|? ? C F3]. inversion_clear F3 as [|? ? D _].
  rewrite <- (be32_val a b c d A B1 C D). eexists. split; [reflexivity|]. split; [apply Z.le_max_r|reflexivity].
Qed.
Print Assumptions C83_keepalive_partial.
Example C83_keepalive_case : deliver (Z.eqb 7) false 0 (tc_message 4 0 [0; 41; 0; 0; 39; 16; 0; 0; 78; 32]) = Ok (SetKeepalive 10000 10000).
Proof. vm_compute. reflexivity. Qed.
(** but the period for other sessions is not the one it names: 10 seconds for 20 *)
Theorem C83_keepalive_refuted : ~ (forall has sid ts a b c d e f g h, is_u32 ts -> Forall is_byte [a; b; c; d; e; f; g; h] ->
  deliver has false sid (tc_message 4 ts [0; 41; a; b; c; d; e; f; g; h]) = Ok (SetKeepalive (Z.max (2 ^ 24 * a + 2 ^ 16 * b + 2 ^ 8 * c + d) 5000) (Z.max (2 ^ 24 * e + 2 ^ 16 * f + 2 ^ 8 * g + h) 5000))).
Proof.
  intros H. assert (E : is_u32 0) by (unfold is_u32, U32MAX; lia).
  assert (F : Forall is_byte [0; 0; 39; 16; 0; 0; 78; 32]) by (repeat (apply Forall_cons; [unfold is_byte; lia|]); constructor).
  specialize (H (Z.eqb 7) 0 0 0 0 39 16 0 0 78 32 E F). vm_compute in H. discriminate H.
Qed.
Print Assumptions C83_keepalive_refuted.

(** A stream writes the commands asked of it, each once, in order, and only with an ID: those not written are still queued, and with an ID none are *)
Theorem C83_commands : forall sync l, let s := run l (strm0 sync) in
  commands (s_out s) ++ s_pend s = asked_from true l /\ (s_id s <> 0 -> s_pend s = []) /\ Forall (fun e => fst (fst e) <> 0) (s_out s).
Proof.
  intros sync l. cbv zeta. destruct (run_inv l [] (strm0 sync)) as [[A I] P]; [split; [reflexivity|constructor]|intros X; reflexivity|]. cbn [List.app s_open strm0] in A. auto.
Qed.
Print Assumptions C83_commands.
Example C83_commands_case : let s := run [User (Command [1]); User (Command [2]); SetID 7 [Command [3]; SendVideo 4 [5]]; User (Command [6])] (strm0 0) in
  commands (s_out s) = [[1]; [2]; [3]; [6]] /\ s_pend s = [] /\ s_id s = 7.
Proof. vm_compute. repeat split. Qed.
(** A deleted stream writes nothing more, whatever is called and whatever ID it is given *)
Theorem C83_deleted : forall sync l l', s_out (run l' (do_user DeleteStream (run l (strm0 sync)))) = s_out (run l (strm0 sync)).
Proof. intros sync l l'. apply (closed_out l' (do_user DeleteStream (run l (strm0 sync)))); reflexivity. Qed.
Print Assumptions C83_deleted.
Example C83_deleted_case : s_out (run [SetID 7 []; User (Command [1]); User DeleteStream; User (SendAudio 1 [2]); SetID 8 [Command [3]]; User Sync] (strm0 0)) = [(7, Data, tc_message 20 0 [1])].
Proof. vm_compute. reflexivity. Qed.

(** An open stream writes what its calls say, in their order, each on the flow for its type, as long as send is called without a time *)
Theorem C83_wire_partial : forall sync l us, let s := run l (strm0 sync) in s_id s <> 0 -> Forall keeps us -> Forall untimed us ->
  exists out, writes (s_id s) (s_sync s) us out /\ s_out (run (map User us) s) = s_out s ++ out.
Proof.
  intros sync l us s N K U. destruct (C83_commands sync l) as (_ & P & _). fold s in P. destruct (exact_out us s N (P N) K U) as (out & W & O & _). exists out. auto.
Qed.
Print Assumptions C83_wire_partial.
Example C83_wire_case : s_out (run [SetID 7 []; User (Send 0 [1]); User (SendAudio 5 [2]); User Sync; User (SendVideo 6 [3]); User (Command [4])] (strm0 (2 ^ 32 - 1))) =
  [(7, Data, tc_message 18 0 [1]); (7, Audio, tc_message 8 5 [2]); (7, Video, sync_message (2 ^ 32 - 1) 3); (7, Audio, sync_message (2 ^ 32 - 1) 3); (7, Data, sync_message (2 ^ 32 - 1) 3);
   (7, Video, tc_message 9 6 [3]); (7, Data, tc_message 20 0 [4])].
Proof. vm_compute. reflexivity. Qed.
(** send's time is lost *)
Theorem C83_timestamp_refuted : ~ (forall sync l us, let s := run l (strm0 sync) in s_id s <> 0 -> Forall keeps us -> exists out, writes (s_id s) (s_sync s) us out /\ s_out (run (map User us) s) = s_out s ++ out).
Proof.
  intros H. destruct (H 0 [SetID 7 []] [Send 1 [1]]) as (out & W & O); [discriminate|repeat constructor|].
  inversion W as [| |y ts m us out' W' E1 E2| | | ]; subst. inversion W'; subst. vm_compute in O. discriminate O.
Qed.
Print Assumptions C83_timestamp_refuted.
(** and data sent from onOpen overtakes the commands queued before: publish goes after the first data *)
Theorem C83_order_refuted : ~ (forall sync c m id, id <> 0 -> s_out (run [User (Command c); SetID id [Send 0 m]] (strm0 sync)) = [(id, Data, tc_message 20 0 c); (id, Data, tc_message 18 0 m)]).
Proof. intros H. specialize (H 0 [1] [2] 7 ltac:(lia)). vm_compute in H. discriminate H. Qed.
Print Assumptions C83_order_refuted.
