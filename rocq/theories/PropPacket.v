(** C04-C07: packet assembly, packet parsing, session-ID scrambling. *)
From Verif Require Import Base VLU Packet PacketSpec PacketProofs.

(** C04.  For any buffer with room for the header and any sequence of calls the interface allows, no call writes outside
    the buffer, every call answers exactly what the abstract packet answers (success exactly when the piece fits, and
    then it is appended whole; otherwise nothing changes), and the packet's bytes are the abstract packet's. *)
Theorem C04_assembler_refines : forall buf margin flags ts tse os,
  is_byte flags -> zlen buf <= U64MAX -> (margin + 5 <= length buf)%nat ->
  let a := mkA (zlen buf) (firstn margin buf ++ header_bytes flags ts tse) None (Some margin) in
  ops_allowed a os ->
  exists p p', pa_init_header buf margin flags ts tse = Ok p
    /\ pa_run p os = Ok (p', snd (a_run a os))
    /\ pa_to_vector p' = a_bytes (fst (a_run a os))
    /\ zlen (p_buf p') = zlen buf /\ pa_remaining p' = zlen buf - zlen (a_bytes (fst (a_run a os))) /\ 0 <= pa_remaining p'.
Proof. exact R_header_run. Qed.
Print Assumptions C04_assembler_refines.

(** C04 for a packet without a header. *)
Theorem C04_assembler_refines_plain : forall buf margin os,
  zlen buf <= U64MAX -> (margin <= length buf)%nat ->
  let a := mkA (zlen buf) (firstn margin buf) None None in
  ops_allowed a os ->
  exists p', pa_run (pa_init buf margin) os = Ok (p', snd (a_run a os))
    /\ pa_to_vector p' = a_bytes (fst (a_run a os)).
Proof. exact R_plain_run. Qed.
Print Assumptions C04_assembler_refines_plain.

(** A 16-byte buffer: a chunk that fits, one whose field does not fit and is rolled back, and one more. *)
Example C04_example :
  let os := [OpStart 16; OpPushVLU 300; OpCommit; OpStart 17; OpPushField [1; 2; 3; 4; 5]; OpRollback; OpSetTC; OpStart 18; OpPushByte 9; OpCommit] in
  let a := mkA 16 (repeat 0 4 ++ header_bytes 1 7 (-1)) None (Some 4%nat) in
  ops_allowed a os /\ snd (a_run a os) = [true; true; true; true; false; true; true; true; true; true] /\
  match pa_init_header (repeat 0 16) 4 1 7 (-1) with
  | Ok p => match pa_run p os with
            | Ok (p', bs) => pa_to_vector p' = [0; 0; 0; 0; 137; 0; 7; 16; 0; 2; 130; 44; 18; 0; 1; 9]
            | _ => False end
  | _ => False end.
Proof.
  cbv zeta. split; [|split; vm_compute; reflexivity].
  vm_compute. repeat (split; [first [exact I | discriminate | split; discriminate]|]). exact I.
Qed.

(** C05.  Whatever chunks a sender tries to add, each is added exactly when it still fits, and the finished packet
    followed by any 0xff padding (below 65538 bytes) parses back to the header and to exactly the added chunks. *)
Theorem C05_assembled_packet_reparses : forall buf margin flags ts tse cs,
  is_byte flags -> ts <= 65535 -> tse <= 65535 -> (margin + 5 <= length buf)%nat -> zlen buf <= 65535 ->
  Forall (fun c => is_byte (fst c) /\ Forall is_piece (snd c)) cs ->
  exists p p' bs, pa_init_header buf margin flags ts tse = Ok p /\ pa_try_chunks p cs = Ok (p', bs)
    /\ bs = greedy (zlen buf) (Z.of_nat margin + zlen (header_bytes flags ts tse)) cs
    /\ zlen (pa_to_vector p') <= zlen buf
    /\ forall accept n, Z.of_nat n < 65538 ->
       let ts' := if ts >=? 0 then ts else -1 in
       let tse' := if tse >=? 0 then tse else -1 in
       accept (header_flags flags ts tse) ts' tse' = true ->
       parse_packet accept (pa_to_vector p' ++ repeat 255 n) margin
       = Ok (mkParsed (header_flags flags ts tse) ts' tse' (added cs bs)).
Proof. exact assembled_reparses. Qed.
Print Assumptions C05_assembled_packet_reparses.

Example C05_example :
  let cs := [(16, [OpPushVLU 300]); (17, [OpPushField [1; 2; 3; 4; 5]]); (18, [OpPushByte 9])] in
  greedy 16 7 cs = [true; false; true] /\ added cs [true; false; true] = [(16, [130; 44]); (18, [9])] /\
  parse_packet (fun _ _ _ => true) ([0; 0; 0; 0; 9; 0; 7; 16; 0; 2; 130; 44; 18; 0; 1; 9] ++ repeat 255 5) 4
  = Ok (mkParsed 9 7 (-1) [(16, [130; 44]); (18, [9])]).
Proof. vm_compute. auto. Qed.

(** C06.  Parsing any decrypted bytes whatsoever reads no byte outside them and ends. *)
Theorem C06_parse_defined : forall accept l margin, bytes_ok l -> parse_packet accept l margin <> UB.
Proof. exact parse_packet_defined. Qed.
Print Assumptions C06_parse_defined.

(** C06.  Every chunk reported is a type byte, a 16-bit length and exactly that many bytes, consecutively inside the
    input, and nothing is reported unless the header was accepted. *)
Theorem C06_parse_inside : forall accept l margin p, bytes_ok l -> parse_packet accept l margin = Ok p ->
  (margin < length l)%nat /\ accept (h_flags p) (h_ts p) (h_tse p) = true /\
  exists hdr body, skipn margin l = (h_flags p :: hdr) ++ body /\ chunks_inside (h_chunks p) body.
Proof. exact parse_packet_inside. Qed.
Print Assumptions C06_parse_inside.

Example C06_example :
  parse_packet (fun _ _ _ => true) [8; 1] 0 = Rej
  /\ parse_packet (fun _ _ _ => true) [0; 16; 0; 1; 5; 17; 0; 9; 1] 0 = Ok (mkParsed 0 (-1) (-1) [(16, [5])]).
Proof. vm_compute. auto. Qed.

(** C07.  Whatever the session ID and the ciphertext (of any length, even shorter than 8 bytes), the receiver recovers
    both from the datagram. *)
Theorem C07_session_id_roundtrip : forall sid dst, length sid = 4%nat -> unscramble (scramble sid dst) = Ok (sid, dst).
Proof. exact scramble_roundtrip. Qed.
Print Assumptions C07_session_id_roundtrip.

Example C07_example : scramble [0; 0; 0; 7] [1; 2; 3; 4; 5] = [4; 2; 3; 3; 1; 2; 3; 4; 5].
Proof. reflexivity. Qed.
