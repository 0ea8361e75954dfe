(** C36: user-data chunks are decoded as they were encoded. *)
From Verif Require Import Base BaseFacts VLU VLUSpec Packet PacketSpec UserData UserDataSpec UserDataProofs.

(** Whatever other chunks the packet already holds, and whatever fragments the sender wants to send, a receiver of the finished
    packet (and its padding) learns exactly the fragments that were put in: their flow, numbers, forward sequence number, flags and
    data, and the flow's startup options with the first of them. *)
Theorem C36_userdata_roundtrip : forall buf margin flags ts tse cs0 flow fsn s frs,
  is_byte flags -> ts <= 65535 -> tse <= 65535 -> (margin + 5 <= length buf)%nat -> zlen buf <= 65535 ->
  Forall (fun c => is_byte (fst c) /\ Forall is_piece (snd c)) cs0 -> Forall (fun c => fst c <> 16 /\ fst c <> 17) cs0 ->
  is_u64 flow -> is_u64 fsn -> sup_ok s -> Forall (frame_ok fsn) frs ->
  exists p0 p1 bs p2 n, pa_init_header buf margin flags ts tse = Ok p0 /\ pa_try_chunks p0 cs0 = Ok (p1, bs)
    /\ ud_assemble p1 flow fsn (sup_bytes s) true 0 frs = Ok (p2, n) /\ (n <= length frs)%nat
    /\ forall accept k, Z.of_nat k < 65538 ->
       let ts' := if ts >=? 0 then ts else -1 in
       let tse' := if tse >=? 0 then tse else -1 in
       accept (header_flags flags ts tse) ts' tse' = true ->
       exists pp, parse_packet accept (pa_to_vector p2 ++ repeat 255 k) margin = Ok pp
         /\ ud_packet None (h_chunks pp) = Ok (received_all flow fsn s (firstn n frs)).
Proof. exact userdata_roundtrip. Qed.
Print Assumptions C36_userdata_roundtrip.

(** Arbitrary chunks, after any packet start: no read outside the chunk, the data reported lies inside the chunk, and a
    next-user-data chunk is only accepted after a user-data chunk. *)
Theorem C36_arbitrary_bytes : forall ctx t l, bytes_ok l ->
  match ud_parse ctx t l with Ok u => data_inside u l /\ (t = 17 -> ctx <> None) | Rej => True | UB => False end.
Proof. exact ud_parse_safe. Qed.
Print Assumptions C36_arbitrary_bytes.
Theorem C36_arbitrary_packets : forall cs ctx, Forall (fun c => bytes_ok (snd c)) cs ->
  exists us, ud_packet ctx cs = Ok us /\ Forall (fun u => exists t l, In (t, l) cs /\ data_inside u l) us.
Proof. exact ud_packet_safe. Qed.
Print Assumptions C36_arbitrary_packets.

(** Three fragments: a beginning, the (abandoned) next one, and a final one after a gap. *)
Example C36_example :
  let frs := [mkFrame 16 10 [1; 2; 3]; mkFrame (48 + 2) 11 [4]; mkFrame (32 + 1) 13 []] in
  let s := Some ([7; 8], Some 300) in
  (Forall (frame_ok 9) frs /\ sup_ok s /\ is_u64 5)
  /\ match pa_init_header (repeat 0 80) 4 1 (-1) (-1) with
     | Ok p => match ud_assemble p 5 9 (sup_bytes s) true 0 frs with
       | Ok (p2, n) => n = 3%nat /\ pa_to_vector p2 = [0; 0; 0; 0; 1;  16; 0; 16; 144; 5; 10; 1; 3; 0; 7; 8; 3; 10; 130; 44; 0; 1; 2; 3;  17; 0; 1; 50;  16; 0; 4; 33; 5; 13; 4]
       | _ => False end
     | _ => False end
  /\ received_all 5 9 s frs = [mkUD 144 5 10 9 (Some 300) (Some [7; 8]) [1; 2; 3] false; mkUD 50 5 11 9 None None [] false; mkUD 33 5 13 9 None None [] false]
  /\ ud_packet None [(17, [0; 1]); (16, [128; 5; 9]); (16, [0; 5; 9; 10]); (16, [0; 5; 9; 8; 77])] = Ok [mkUD 0 5 9 1 None None [77] false].
Proof.
  cbv zeta. split; [|split; [|split]]; [|vm_compute; split; reflexivity|vm_compute; reflexivity|vm_compute; reflexivity].
  split; [|split].
  - repeat constructor; try (unfold is_u64, U64MAX, is_byte; cbn; lia).
    + exists 16, 0, 0. cbn. intuition.
    + exists 48, 2, 0. cbn. intuition.
    + exists 32, 0, 1. cbn. intuition.
  - split; [|split]; [repeat constructor; unfold is_byte; lia|cbn; lia|unfold is_u64, U64MAX; lia].
  - unfold is_u64, U64MAX; lia.
Qed.
