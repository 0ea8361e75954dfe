(** C65: what the handshake says to whom, and who can change or end a session. *)
From Verif Require Import Base BaseFacts VLU VLUSpec VLUProofs Address AddressSpec FlashCert Cookie Packet PacketSpec Startup StartupSpec StartupProofs Mobility Handshake HandshakeSpec HandshakeProofs HandshakeStepProofs HandshakeLiveProofs HandshakeOutSpec HandshakeOutProofs PropHandshake.
Open Scope res_scope.

Lemma reached : forall cr l i, cryp_ok cr -> Forall hevent_ok l -> hrun cr hinst0 l = Ok i -> INV cr i /\ iik_inv cr i.
Proof. intros cr l i C F H. exact (iik_run cr C l hinst0 i (INV_start cr) (iik_start cr) F H). Qed.
(** Everything that is said in a step is one of: a hello of an initiator to an address it tries; its signed keying, while it is keying, to
    the address that answered; the answers to a packet; the responder's signed keying, while its session is open. *)
Theorem C65_said : forall cr l i e j, cryp_ok cr -> Forall hevent_ok l -> hevent_ok e -> hrun cr hinst0 l = Ok i -> hstep cr i e = Ok j -> exists new, g_out j = g_out i ++ new /\ Forall (said cr i e) new.
Proof. intros cr l i e j C F E H ST. destruct (reached cr l i C F H) as (V & I). exact (step_says cr C i e j V I E ST). Qed.
Print Assumptions C65_said.
(** A packet from anywhere makes this end send at most one packet for its first hello and one for each keying in it, and nothing if it has
    neither; nothing is signed for it. *)
Theorem C65_answers : forall cr l i age ifc a cs j, cryp_ok cr -> Forall hevent_ok l -> hevent_ok (EStartup age ifc a cs) -> hrun cr hinst0 l = Ok i -> hstep cr i (EStartup age ifc a cs) = Ok j ->
  exists new, g_out j = g_out i ++ new /\ sends new <= 1 + of_type CHUNK_IIKEYING cs /\ (sends new > 0 -> of_type CHUNK_IHELLO cs + of_type CHUNK_IIKEYING cs > 0) /\ forall c t, ~ In (HSigned c t) new.
Proof.
  intros cr l i age ifc a cs j C F (E1 & E2 & E3 & _) H ST. destruct (reached cr l i C F H) as (V & _). destruct (startup_says cr C age ifc a cs E2 E3 cs false i j (incl_refl cs) V E1 ST) as (_ & new & A & B & G). exists new. split; [exact A|]. split; [exact B|]. rewrite Forall_forall in G. split.
  - intros P. unfold sends in P. destruct (filter is_send new) as [|o r] eqn:FL; [cbn in P; lia|]. assert (IN : In o (filter is_send new)) by (rewrite FL; left; reflexivity). apply filter_In in IN. destruct IN as (IN & IS). specialize (G o IN).
    assert (T : forall ty c, In (ty, c) cs -> of_type ty cs > 0). { intros ty c X. unfold of_type. assert (Y : In (ty, c) (filter (fun x => fst x =? ty) cs)) by (apply filter_In; split; [exact X|apply Z.eqb_refl]). destruct (filter _ cs) as [|y z]; [destruct Y|]. rewrite zlen_cons. pose proof (zlen_nonneg _ z). lia. }
    pose proof (type_nonneg CHUNK_IHELLO cs). pose proof (type_nonneg CHUNK_IIKEYING cs). destruct G as [|c epd tag cookie w X|t sig isid old cert skic cookie w X|n p t sig cookie cert b X]; [discriminate| | |]; apply T in X; lia.
  - intros c t IN. specialize (G _ IN). inversion G.
Qed.
Print Assumptions C65_answers.
(** A packet changes nothing of a session but the addresses it tries, by a redirect with the session's tag while it waits for an answer,
    and, once, its cookie, by a chunk that has the cookie in use; it makes and ends no session. *)
Theorem C65_packet : forall cr l i e j, cryp_ok cr -> Forall hevent_ok l -> hevent_ok e -> hrun cr hinst0 l = Ok i -> hstep cr i e = Ok j -> is_packet e = true ->
  length (g_sess j) = length (g_sess i) /\ g_addrs j = g_addrs i /\ g_epds j = g_epds i /\ forall n p, is_ses i n p -> exists q, is_ses j n q /\ touched e p q.
Proof. intros cr l i e j C F E H ST P. destruct (reached cr l i C F H) as (V & _). destruct (packet_touches cr C i e j V E P ST) as (A1 & A2 & A3 & _ & A4). auto. Qed.
Print Assumptions C65_packet.
(** While a session is keying, its cookie changes at most once, and only by a cookie change chunk for its ID that has the cookie in use. *)
Theorem C65_cookie : forall cr l i e j n p q, cryp_ok cr -> Forall hevent_ok l -> hevent_ok e -> hrun cr hinst0 l = Ok i -> hstep cr i e = Ok j -> is_ses i n p -> is_ses j n q -> h_state p <> IHELLO_SENT ->
  (h_cookie q = h_cookie p /\ h_changed q = h_changed p)
  \/ (h_state p = KEYING_SENT /\ h_changed p = false /\ h_changed q = true /\ exists age fi c, e = EChunk age (h_rx p) true fi CHUNK_COOKIE_CHANGE c /\ ihello_wire (h_cookie p) (h_cookie q) c).
Proof.
  intros cr l i e j n p q C F E H ST S Q NI. destruct (reached cr l i C F H) as (V & _). destruct (is_packet e) eqn:P.
  - destruct (packet_touches cr C i e j V E P ST) as (_ & _ & _ & _ & A). destruct (A n p S) as (q' & Q' & T). assert (q' = q) as -> by (unfold is_ses in *; congruence). apply (to_cookie _ _ _ T).
  - destruct (step_why cr i e j V ST P n p S) as (q' & Q' & _ & [X|X]); [congruence|]. assert (q' = q) as -> by (unfold is_ses in *; congruence). left. exact X.
Qed.
Print Assumptions C65_cookie.
(** A session changes its state only for one of these reasons; in particular only the application, a failure of its own key, or an end
    with an authentic certificate that overrides the session's and that signed a keying with a good cookie, can end it. *)
Theorem C65_state : forall cr l i e j n p q, cryp_ok cr -> Forall hevent_ok l -> hevent_ok e -> hrun cr hinst0 l = Ok i -> hstep cr i e = Ok j -> is_ses i n p -> is_ses j n q -> h_state q = h_state p \/ why cr i n p e (h_state q).
Proof.
  intros cr l i e j n p q C F E H ST S Q. destruct (reached cr l i C F H) as (V & _). destruct (is_packet e) eqn:P.
  - destruct (packet_touches cr C i e j V E P ST) as (_ & _ & _ & _ & A). destruct (A n p S) as (q' & Q' & T). assert (q' = q) as -> by (unfold is_ses in *; congruence). left. rewrite (to_rest _ _ _ T). reflexivity.
  - destruct (step_why cr i e j V ST P n p S) as (q' & Q' & X & _). assert (q' = q) as -> by (unfold is_ses in *; congruence). exact X.
Qed.
Print Assumptions C65_state.

(** Two hellos in one packet get one answer; a hello for someone else gets none. *)
Example C65_answers_example :
  let hello e := (CHUNK_IHELLO, field [e] ++ [7; 7]) in let n cs := match hstep (toy 2) hinst0 (EStartup 5000000 1 here cs) with Ok j => sends (g_out j) | _ => -1 end in
  n [hello 2; hello 2] = 1 /\ n [hello 9] = 0 /\ n [(CHUNK_IIKEYING, ii_text 100 (make_cookie (c_sha (toy 2)) [9] 5000000 there) [1] [5; 5] ++ [0])] = 1.
Proof. vm_compute. repeat split. Qed.
(** The cookie of a keying session is changed by the right chunk, and only once. *)
Definition keying_run : list hevent := [EConnect [2] [7; 7] 100; EStartup 5000000 1 there [(CHUNK_RHELLO, field [7; 7] ++ field [1] ++ [2])]; ERun 0 (mkChoice None false 0 0)].
Definition change (a b : list Z) : hevent := EChunk 5000000 100 true 0 CHUNK_COOKIE_CHANGE (field a ++ b).
Example C65_cookie_example :
  let cookies l := map (fun p => (h_state p, h_cookie p, h_changed p)) (g_sess (go (toy 1) (keying_run ++ l))) in
  cookies [] = [(KEYING_SENT, [1], false)] /\ cookies [change [3] [4]] = [(KEYING_SENT, [1], false)] /\ cookies [change [1] [4]; change [4] [5]] = [(KEYING_SENT, [4], true)].
Proof. vm_compute. repeat split. Qed.
(** Glare: an initiator that is keying with the end that keys with it.  Its session ends if the other's certificate overrides, and not if
    this end wins. *)
Definition keen (me : Z) (wins : bool) : cryp := mkCryp (c_sha (toy me)) (c_secret (toy me)) (c_decodes (toy me)) (c_authentic (toy me)) (c_selected (toy me)) (c_canonical (toy me)) (fun a b => eq_bytes a b) (c_mine (toy me)) (c_cert (toy me)) (fun _ => wins) (c_sign (toy me)) (c_check (toy me)).
Definition glare_run : list hevent :=
  let t := ii_text 300 (make_cookie (c_sha (toy 1)) [9] 5000000 there) [2] [8; 8] in keying_run ++ [EStartup 5000000 1 there [(CHUNK_IIKEYING, t ++ [2; sum t])]; ERun 1 (mkChoice (Some [6; 6]) false 0 0); ERun 1 (mkChoice None false 400 0)].
Example C65_state_example :
  map h_state (g_sess (go (keen 1 false) glare_run)) = [CLOSED; OPEN] /\ map h_state (g_sess (go (keen 1 true) glare_run)) = [KEYING_SENT].
Proof. vm_compute. split; reflexivity. Qed.
(** The keying that an initiator sends *)
Example C65_said_example :
  let i := go (toy 1) (firstn 8 toyA) in exists j b, hstep (toy 1) i (EIIKeying 0) = Ok j /\ g_out j = g_out i ++ [HSend b 0 1 there].
Proof. do 2 eexists. split; vm_compute; reflexivity. Qed.
