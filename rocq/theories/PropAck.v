(** C15: acknowledgements are truthful; C51: the advertised window. *)
From Verif Require Import Base VLU LinkedList Packet PacketSpec RecvFlow RecvFlowSpec RecvFlowRun Ack AckSpec AckProofs.

(** C15.  After any history of a receiving flow, in any packet with any room left and with any chunks already in it, the
    acknowledgement either is not added (and the packet is as before) or the packet, once parsed by the peer, ends with an
    acknowledgement chunk which the sender decodes to exactly the numbers the receiver has received or was told to skip: all of them,
    or, only when truncation is allowed, all of them up to some number. *)
Theorem C15_acks_truthful : forall buf margin flags ts tse cs0 script es f0 f flow tr ecn,
  is_byte flags -> ts <= 65535 -> tse <= 65535 -> (margin + 5 <= length buf)%nat -> zlen buf <= 65535 ->
  Forall (fun c => is_byte (fst c) /\ Forall is_piece (snd c)) cs0 ->
  rf_init script = Ok f0 -> Forall sane es -> rf_run f0 es = Ok f ->
  is_u64 flow -> flow <= LONG_MAX -> is_u64 (f_exc f) -> match ecn with None => True | Some c => is_byte c end ->
  exists p0 p1 bs p2 f' ok, pa_init_header buf margin flags ts tse = Ok p0 /\ pa_try_chunks p0 cs0 = Ok (p1, bs)
    /\ assemble_ack p1 f flow tr ecn = Ok (p2, f', ok)
    /\ if (ok : bool) then
         forall accept k, Z.of_nat k < 65538 ->
         let ts' := if ts >=? 0 then ts else -1 in
         let tse' := if tse >=? 0 then tse else -1 in
         accept (header_flags flags ts tse) ts' tse' = true ->
         exists pp pl ka, parse_packet accept (pa_to_vector p2 ++ repeat 255 k) margin = Ok pp
           /\ h_chunks pp = added cs0 bs ++ ack_before f flow ecn ++ [(81, pl)]
           /\ ack_parse pl = Ok ka /\ fits_ack es f flow tr ka
       else pa_to_vector p2 = pa_to_vector p1 /\ f' = f.
Proof. exact ack_truthful. Qed.
Print Assumptions C15_acks_truthful.

(** Arbitrary bytes never make the sender read outside the chunk, and the ranges it gets are uintmax_t values. *)
Theorem C15_arbitrary_bytes : forall l, bytes_ok l ->
  match ack_parse l with Ok k => is_u64 (k_cum k) /\ Forall (fun r => is_u64 (fst r) /\ is_u64 (snd r)) (k_ranges k) | Rej => True | UB => False end.
Proof. exact ack_parse_safe. Qed.
Print Assumptions C15_arbitrary_bytes.

(** C51.  The advertised window is the free space, rounded up to blocks, ... *)
Theorem C51_advertised_window : forall f, 0 <= s_sum (f_buf f) -> 0 <= f_cap f <= U64MAX - 1023 -> 0 <= f_win f -> advertise f = window f.
Proof. exact advertise_window. Qed.
Print Assumptions C51_advertised_window.

(** A flow that has 1 and 2, 5 to 7 and 9: everything is acknowledged in a large packet; in a packet with little room left the
    acknowledgement is cut after the first gap. *)
Definition ex_flow : res rf :=
  f0 <- rf_init [];;
  rf_run f0 [EvData 0 1 0 [1]; EvData 0 2 0 [2]; EvData 0 5 1 [5]; EvData 0 7 1 [7]; EvData 0 6 1 [6]; EvData 0 9 1 [9]].
Definition ex_ack (room : nat) (tr : bool) : res (list Z * bool) :=
  f <- ex_flow;;
  p <- pa_init_header (repeat 0 (4 + 1 + room)) 4 1 (-1) (-1);;
  ' (p', _, ok) <- assemble_ack p f 3 tr None;; Ok (skipn 5 (pa_to_vector p'), ok).
Example C15_example :
  ex_ack 40 false = Ok ([81; 0; 7; 3; 64; 2; 1; 2; 0; 0], true)
  /\ ack_parse [3; 64; 2; 1; 2; 0; 0] = Ok (mkAck 3 65536 2 [(5, 7); (9, 9)])
  /\ ex_ack 9 true = Ok ([81; 0; 6; 3; 64; 2; 1; 2; 0], true)
  /\ ack_parse [3; 64; 2; 1; 2; 0] = Ok (mkAck 3 65536 2 [(5, 7)])
  /\ ex_ack 9 false = Ok ([], false)
  /\ match ex_flow with Ok f => (0 <=? s_sum (f_buf f)) && (window f =? 64) | _ => false end = true.
Proof.
  split; [vm_compute; reflexivity|]. split; [vm_compute; reflexivity|]. split; [vm_compute; reflexivity|].
  split; [vm_compute; reflexivity|]. split; [vm_compute; reflexivity|].
  vm_compute; reflexivity.
Qed.

(** ... but with a capacity near SIZE_MAX the rounding wraps around and a single block is advertised. *)
Theorem C51_huge_capacity_refuted : exists f0 f, rf_init [] = Ok f0 /\ rf_run f0 [EvAct (ACapacity U64MAX)] = Ok f
  /\ window f = 18014398509481984 /\ advertise f = 1.
Proof.
  destruct (rf_init []) as [f0| |] eqn:E0; [|vm_compute in E0; discriminate|vm_compute in E0; discriminate].
  destruct (rf_run f0 [EvAct (ACapacity U64MAX)]) as [f| |] eqn:E1.
  - exists f0, f. split; [reflexivity|]. split; [exact E1|].
    assert (H : match rf_init [] with Ok g => match rf_run g [EvAct (ACapacity U64MAX)] with Ok h => (window h =? 18014398509481984) && (advertise h =? 1) | _ => false end | _ => false end = true) by (vm_compute; reflexivity).
    rewrite E0, E1 in H. apply andb_prop in H. destruct H as (H1 & H2). apply Z.eqb_eq in H1, H2. auto.
  - exfalso. assert (H : match rf_init [] with Ok g => match rf_run g [EvAct (ACapacity U64MAX)] with Ok h => true | _ => false end | _ => false end = true) by (vm_compute; reflexivity).
    rewrite E0, E1 in H. discriminate.
  - exfalso. assert (H : match rf_init [] with Ok g => match rf_run g [EvAct (ACapacity U64MAX)] with Ok h => true | _ => false end | _ => false end = true) by (vm_compute; reflexivity).
    rewrite E0, E1 in H. discriminate.
Qed.
Print Assumptions C51_huge_capacity_refuted.
