(** Specification vocabulary for Sched. *)
From Verif Require Import Base Interface Sched.

(** The session n (0: the startup session) will be asked for packets of priority p: it is in the queue of an interface, and the platform
    was told to call when that interface is writable. *)
Definition asked_at (w : world) (n p : nat) : Prop := exists i x, w_ifc w i = Some x /\ In n (i_q x p) /\ i_sched x = true.
(** The receiving flow owes its sender an acknowledgement. *)
Definition owes (w : world) (s r : nat) : Prop := rf_sess (w_rf w r) = Some s /\ rf_owes (w_rf w r) = true.
(** The sending flow has something it may send. *)
Definition can_send (w : world) (s f : nat) : Prop :=
  sf_sess (w_sf w f) = Some s /\ (0 < sf_unsent (w_sf w f))%nat /\ (sum (flying (ss_out (w_ss w s)) f) < sf_rx (w_sf w f))%nat.
(** Callbacks made while data is put into a packet do not call the library. *)
Definition calm_offer (o : offer) : Prop := Forall (fun a => a_cb a = []) (o_atts o).
Definition calm_wop (o : wop) : Prop := match o with WWritable _ os => Forall calm_offer os | _ => True end.
(** Nobody calls setPriority. *)
Definition no_pri (u : uop) : Prop := match u with UPri _ _ => False | _ => True end.
Definition no_pri_chunk (k : chunk) : Prop := match k with KUser u => no_pri u | _ => True end.
Definition no_pri_wop (o : wop) : Prop := match o with WUser u => no_pri u | WPacket _ l _ _ _ => Forall no_pri_chunk l | _ => True end.
(** A packet of session 0 with data for receiving flow 0 (or the delayed-ack alarm). *)
Definition data_packet (o : wop) : Prop := match o with WPacket 0 l _ _ _ => Forall (fun k => exists now, k = KUser (UAck 0 now)) l | WDelack 0 => True | _ => False end.
