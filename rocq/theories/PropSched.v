(** C66: acknowledgements are not forgotten; C67: data that may be sent gets sent. *)
From Verif Require Import Base Interface Sched SchedSpec SchedRunProofs.
From Verif Require VLU LinkedList Packet PacketSpec RecvFlow RecvFlowSpec Ack SchedAckProofs.
Open Scope res_scope.

(** C66.  However packets arrive, timers fire, interfaces come and get writable, sessions move and applications call: a receiving flow
    owes an acknowledgement if and only if it is in its session's list, once; and then either the delayed-ack alarm is set, or the session
    will be asked for packets at the immediate priority.  (Callbacks made in the middle of assembling a packet do not call the library.) *)
Theorem C66_owed : forall pri rx l w s r, (forall f, (pri f < NUM_PRIORITIES)%nat) -> Forall calm_wop l -> wrun (w_init pri rx) l = Ok w -> ss_state (w_ss w s) = SOpen ->
  (In r (ss_ackq (w_ss w s)) <-> owes w s r) /\ NoDup (ss_ackq (w_ss w s)) /\
  (owes w s r -> (ss_delack (w_ss w s) = true /\ ss_acknow (w_ss w s) = false) \/ (ss_delack (w_ss w s) = false /\ ss_acknow (w_ss w s) = true /\ asked_at w (S s) 5)).
Proof. exact owed. Qed.
Print Assumptions C66_owed.

(** When the delayed-ack alarm goes off, and once two packets with data came since the last acknowledgement, the session will be asked. *)
Theorem C66_alarm : forall pri rx l w w' s, (forall f, (pri f < NUM_PRIORITIES)%nat) -> Forall calm_wop l -> wrun (w_init pri rx) l = Ok w -> ss_state (w_ss w s) = SOpen ->
  wstep w (WDelack s) = Ok w' -> asked_at w' (S s) 5 /\ forall r, owes w s r -> owes w' s r.
Proof. exact alarm. Qed.
Print Assumptions C66_alarm.
Theorem C66_two : forall pri rx l w s, (forall f, (pri f < NUM_PRIORITIES)%nat) -> Forall calm_wop l -> wrun (w_init pri rx) l = Ok w -> ss_state (w_ss w s) = SOpen ->
  (2 <= ss_rxp (w_ss w s))%nat -> asked_at w (S s) 5.
Proof. exact two. Qed.
Print Assumptions C66_two.

(** Asked on its own interface, whatever the priority, a session with an acknowledgement due sends a packet with one: that of the flow
    that has waited longest.  The list gets shorter. *)
Theorem C66_served : forall pri rx l w w' b s p o r q, (forall f, (pri f < NUM_PRIORITIES)%nat) -> Forall calm_wop l -> wrun (w_init pri rx) l = Ok w -> ss_state (w_ss w s) = SOpen ->
  ss_acknow (w_ss w s) = true -> ss_ackq (w_ss w s) = r :: q -> sess_writable w (ss_dest (w_ss w s)) s p o = Ok (w', b) ->
  b = true /\ ~ owes w' s r /\ (exists new, w_log w' = w_log w ++ new /\ In (Acked r) new) /\ (length (ss_ackq (w_ss w' s)) < length (ss_ackq (w_ss w s)))%nat.
Proof. exact served. Qed.
Print Assumptions C66_served.

(** The model's assumption that this acknowledgement fits holds: after any history of a receiving flow its acknowledgement, with the ECN
    report and the exception that may come before it, fits into a packet with only its header, cut short if need be. *)
Theorem C66_fits : forall buf margin flags ts tse script es f0 f flow ecn,
  is_byte flags -> (margin + 65 <= length buf)%nat -> zlen buf <= 65535 ->
  RecvFlow.rf_init script = Ok f0 -> Forall RecvFlowSpec.sane es -> RecvFlow.rf_run f0 es = Ok f -> is_u64 flow -> is_u64 (RecvFlow.f_exc f) ->
  match ecn with None => True | Some c => is_byte c end ->
  exists p p' f', Packet.pa_init_header buf margin flags ts tse = Ok p /\ Ack.assemble_ack p f flow true ecn = Ok (p', f', true).
Proof. exact SchedAckProofs.obligatory_fits. Qed.
Print Assumptions C66_fits.

(** A session with two flows each way.  Data of flow 0 arrives and is delayed, more data and the list has both flows in it; the
    interface becomes writable and both are acknowledged, before the data of sending flow 0. *)
Definition ex_pri (f : nat) : nat := 3.
Definition ex_start : list wop :=
  [WAddIf 0; WUser (UOpen 0 0); WUser (UBind 0 0); WUser (UBind 1 0); WUser (UNewRecv 0 0); WUser (UNewRecv 1 0)].
Definition ex_data (r : nat) : wop := WPacket 0 [KUser (UAck r false)] true [] 0.
Definition view (r : res world) : res (list nat * bool * bool * list nat * list (nat * nat) * list sev) :=
  w <- r ;; let x := w_ss w 0%nat in Ok (ss_ackq x, ss_acknow x, ss_delack x, ss_ready x 3%nat, ss_out x, w_log w).
Example C66_example :
  view (wrun (w_init ex_pri 4000) (ex_start ++ [ex_data 0])) = Ok ([0%nat], false, true, [], [], [])
  /\ view (wrun (w_init ex_pri 4000) (ex_start ++ [ex_data 0; ex_data 1; WUser (UWrite 0 1)])) = Ok ([0%nat; 1%nat], true, false, [0%nat], [], [])
  /\ view (wrun (w_init ex_pri 4000) (ex_start ++ [ex_data 0; ex_data 1; WUser (UWrite 0 1); WWritable 0 [Offer 2 0 true []]])) = Ok ([], false, false, [0%nat], [], [Acked 0; Acked 1])
  /\ view (wrun (w_init ex_pri 4000) (ex_start ++ [ex_data 0; WDelack 0; WWritable 0 [Offer 1 0 true []]])) = Ok ([], false, false, [], [], [Acked 0])
  /\ view (wrun (w_init ex_pri 4000) (ex_start ++ [ex_data 0; WUser (UWrite 0 1); WWritable 0 [Offer 0 1 true [Att [] 0 [100%nat]]]])) = Ok ([], false, false, [0%nat], [(0%nat, 100%nat)], [Sent 0 1; Acked 0])
  /\ Forall calm_wop (ex_start ++ [ex_data 0; ex_data 1; WUser (UWrite 0 1); WWritable 0 [Offer 2 0 true []]]).
Proof. repeat (split; [vm_compute; reflexivity|]). repeat constructor. Qed.

(** If a callback made while a packet is assembled does call the library, and asks for an acknowledgement, the session is put into the
    interface's queue at a priority that was served already, and the interface stops asking: m_ack_now stays set, so that nothing that
    is received afterwards makes anybody ask again.  Here flow 0's first fragment was lost and is given up when it would be sent again;
    the application, told so, changes the window of receiving flow 0.  However many packets of data arrive, none is acknowledged. *)
Definition ex_stranded : list wop :=
  ex_start ++
  [WUser (UWrite 0 2); WWritable 0 [Offer 0 0 true [Att [] 0 [100%nat; 100%nat]]];
   WPacket 0 [KAck 0 4000 [] 0] true [true] 3000;
   WWritable 0 [Offer 0 0 true [Att [UAck 0 true] 1 []]];
   WPacket 0 [KAck 0 4000 [true] 0] true [] 3000].
Theorem C66_stranded_refuted : exists w, wrun (w_init ex_pri 4000) ex_stranded = Ok w /\ ss_state (w_ss w 0) = SOpen /\ owes w 0 0 /\
  forall l, Forall data_packet l ->
    match wrun w l with
    | Ok w' => owes w' 0 0 /\ ~ In (Acked 0) (w_log w') /\ ss_delack (w_ss w' 0) = false /\ forall n p, ~ asked_at w' n p
    | Rej => True
    | UB => False
    end.
Proof.
  destruct (wrun (w_init ex_pri 4000) ex_stranded) as [w| |] eqn:E; [|vm_compute in E; discriminate|vm_compute in E; discriminate]. exists w. split; [reflexivity|].
  assert (T : stranded w [Sent 0 2]).
  { revert E. generalize (eq_refl (wrun (w_init ex_pri 4000) ex_stranded)). intros _ E.
    assert (X : forall (Q : world -> Prop), match wrun (w_init ex_pri 4000) ex_stranded with Ok w => Q w | _ => False end -> Q w) by (intros Q; rewrite E; auto).
    constructor.
    - apply (X (fun w => forall i x, w_ifc w i = Some x -> i_sched x = false)). vm_compute. intros [|i] x; intros Y; inversion Y; reflexivity.
    - apply (X (fun w => ss_state (w_ss w 0) = SOpen)). vm_compute. reflexivity.
    - apply (X (fun w => ss_acknow (w_ss w 0) = true)). vm_compute. reflexivity.
    - apply (X (fun w => ss_delack (w_ss w 0) = false)). vm_compute. reflexivity.
    - apply (X (fun w => w_rf w 0%nat = RFl (Some 0%nat) true)). vm_compute. reflexivity.
    - apply (X (fun w => w_log w = [Sent 0 2])). vm_compute. reflexivity. }
  split; [exact (t_state _ _ T)|]. split; [unfold owes; rewrite (t_owes _ _ T); split; reflexivity|]. intros l F. pose proof (stranded_run l w _ T F) as R. destruct (wrun w l) as [w'| |]; [|exact I|exact R].
  split; [unfold owes; rewrite (t_owes _ _ R); split; reflexivity|]. split; [rewrite (t_log _ _ R); intros [X|[]]; discriminate|]. split; [exact (t_del _ _ R)|].
  intros n p (i & x & A & _ & B). rewrite (t_ifc _ _ R i x A) in B. discriminate.
Qed.
Print Assumptions C66_stranded_refuted.
Example C66_stranded_example : match wrun (w_init ex_pri 4000) (ex_stranded ++ [ex_data 0; ex_data 0; ex_data 0]) with Ok w => ss_rxp (w_ss w 0) = 5%nat | _ => False end.
Proof. vm_compute. reflexivity. Qed.

(** C67.  A flow of an open session that has fragments to send and room in its receiver's window is in the list of its priority, and the
    session will be asked for packets of this priority, or waits for acknowledgements with the timeout alarm set, or for the burst alarm. *)
Theorem C67_ready : forall pri rx l w s f, (forall f, (pri f < NUM_PRIORITIES)%nat) -> Forall calm_wop l -> wrun (w_init pri rx) l = Ok w -> can_send w s f ->
  In f (ss_ready (w_ss w s) (sf_pri (w_sf w f))) /\
  (asked_at w (S s) (sf_pri (w_sf w f)) \/ (ss_out (w_ss w s) <> [] /\ ss_timeout (w_ss w s) = true) \/ ss_burst (w_ss w s) = true).
Proof. exact ready. Qed.
Print Assumptions C67_ready.

(** These alarms do their part: once the timeout alarm went off nothing is in flight any more, and once the burst alarm went off ... *)
Theorem C67_timeout : forall pri rx l w w' s ka c f, (forall f, (pri f < NUM_PRIORITIES)%nat) -> Forall calm_wop l -> wrun (w_init pri rx) l = Ok w -> ss_state (w_ss w s) = SOpen ->
  ss_out (w_ss w s) <> [] -> wstep w (WTimeout s false ka c) = Ok w' -> can_send w' s f -> asked_at w' (S s) (sf_pri (w_sf w' f)) \/ ss_burst (w_ss w' s) = true.
Proof. exact timeout. Qed.
Print Assumptions C67_timeout.
Theorem C67_burst : forall pri rx l w w' s f, (forall f, (pri f < NUM_PRIORITIES)%nat) -> Forall calm_wop l -> wrun (w_init pri rx) l = Ok w ->
  wstep w (WBurst s) = Ok w' -> can_send w' s f -> asked_at w' (S s) (sf_pri (w_sf w' f)) \/ (ss_out (w_ss w' s) <> [] /\ ss_timeout (w_ss w' s) = true).
Proof. exact burst. Qed.
Print Assumptions C67_burst.

(** Handshake packets waiting for an interface: the startup session is in its queue, and it will be asked. *)
Theorem C67_items : forall pri rx l w i, (forall f, (pri f < NUM_PRIORITIES)%nat) -> Forall calm_wop l -> wrun (w_init pri rx) l = Ok w -> (0 < w_items w i)%nat ->
  exists x, w_ifc w i = Some x /\ In 0%nat (i_q x 5) /\ i_sched x = true.
Proof. exact items. Qed.
Print Assumptions C67_items.

(** Nothing of this uses a session that is not there, unless setPriority is called ... *)
Theorem C67_no_ub : forall pri rx l, (forall f, (pri f < NUM_PRIORITIES)%nat) -> Forall calm_wop l -> Forall no_pri_wop l -> wrun (w_init pri rx) l <> UB.
Proof. exact no_ub. Qed.
Print Assumptions C67_no_ub.
(** ... which is safe on a flow that has its session, or nothing queued ... *)
Theorem C67_set_priority : forall pri rx l w f p, (forall f, (pri f < NUM_PRIORITIES)%nat) -> Forall calm_wop l -> wrun (w_init pri rx) l = Ok w ->
  sf_sess (w_sf w f) <> None \/ sf_unsent (w_sf w f) = 0%nat -> wstep w (WUser (UPri f p)) <> UB.
Proof. exact pri_safe. Qed.
Print Assumptions C67_set_priority.
(** ... but not on a flow with messages queued that has no session yet, or that was closed before it had one: scheduleForTransmission
    calls a method of the session without looking whether there is one. *)
Theorem C67_set_priority_refuted : forall pri rx f n p, (0 < n)%nat -> (0 < rx)%nat -> (p < NUM_PRIORITIES)%nat -> p <> pri f ->
  wrun (w_init pri rx) [WUser (UWrite f n); WUser (UPri f p)] = UB /\ wrun (w_init pri rx) [WUser (UWrite f n); WUser (UFinish f); WUser (UPri f p)] = UB.
Proof.
  intros pri rx f n p Hn Hr Hp N. apply Nat.ltb_lt in Hn, Hr. apply Nat.eqb_neq in N. assert (Hl : Nat.leb NUM_PRIORITIES p = false) by (apply Nat.leb_gt; exact Hp).
  split; cbn [wrun wstep ustep w_init w_sf sf_done sf_sess sf_unsent sf_pri sf_rx sf_exc set_sf with_unsent rbind Nat.add]; cbv zeta; repeat (rewrite ?Nat.eqb_refl; cbn [wrun wstep ustep w_sf sf_done sf_sess sf_unsent sf_pri sf_rx sf_exc set_sf with_unsent rbind Nat.add]; cbv zeta);
    rewrite Hl, N; unfold sched_flow, maybe_ready, window_open, out_of; cbn [w_sf set_sf]; rewrite ?Nat.eqb_refl; cbn [sf_sess sf_unsent sf_exc sf_rx sum fold_right]; rewrite Hn, Hr; reflexivity.
Qed.
Print Assumptions C67_set_priority_refuted.

(** Flow 0 has three fragments, flow 1 one.  A packet of flow 0, then one of flow 1; both wait.  The window is full, later the packets
    time out and everything is ready again.  A flow that waits for the burst alarm. *)
Example C67_example :
  let l := ex_start ++ [WUser (UWrite 0 3); WUser (UWrite 1 1)] in
  let snd1 n := WWritable 0 [Offer 0 0 true [Att [] 0 (repeat 100%nat n)]] in
  view (wrun (w_init ex_pri 4000) l) = Ok ([], false, false, [0%nat; 1%nat], [], [])
  /\ view (wrun (w_init ex_pri 4000) (l ++ [snd1 2%nat])) = Ok ([], false, false, [1%nat; 0%nat], [(0%nat, 100%nat); (0%nat, 100%nat)], [Sent 0 2])
  /\ view (wrun (w_init ex_pri 4000) (l ++ [snd1 2%nat; WWritable 0 [Offer 0 0 true []]; WTimeout 0 false false 3000; snd1 1%nat])) = Ok ([], false, false, [0%nat; 1%nat], [(1%nat, 100%nat)], [Sent 0 2; Sent 1 1])
  /\ view (wrun (w_init ex_pri 4000) (l ++ [WWritable 0 [Offer 0 0 false []]; WBurst 0; snd1 1%nat])) = Ok ([], false, false, [1%nat; 0%nat], [(0%nat, 100%nat)], [Sent 0 1])
  /\ match wrun (w_init ex_pri 4000) (l ++ [snd1 2%nat]) with Ok w => (sum (flying (ss_out (w_ss w 0)) 0) <? sf_rx (w_sf w 0))%nat = true /\ sf_unsent (w_sf w 0) = 1%nat /\ sf_sess (w_sf w 0) = Some 0%nat | _ => False end
  /\ wrun (w_init ex_pri 4000) [WAddIf 0; WUser (UOpen 0 0); WUser (UBind 0 0); WUser (UWrite 0 1); WUser (UPri 0 5)] <> UB
  /\ match wrun (w_init ex_pri 4000) [WAddIf 0; WUser (UItem 0)] with Ok w => w_items w 0%nat = 1%nat | _ => False end.
Proof. cbv zeta. repeat (split; [vm_compute; try reflexivity; repeat split; reflexivity|]). split; [vm_compute; discriminate|vm_compute; reflexivity]. Qed.
