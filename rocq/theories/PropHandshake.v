(** C62 to C64: how the startup handshake opens sessions. *)
From Verif Require Import Base BaseFacts VLU VLUSpec VLUProofs Address AddressSpec AddressProofs FlashCert FlashCertProofs Cookie CookieProofs Packet PacketSpec PacketProofs Startup StartupSpec StartupProofs Mobility MobilityProofs Handshake HandshakeSpec HandshakeProofs HandshakeStepProofs HandshakeAgreeProofs HandshakeLiveProofs.

(** A small example of the cryptography: an identity is a byte, its certificate that byte and 66 is never authentic. *)
Definition sum (l : list Z) : Z := fold_left Z.add l 0 mod 256.
Definition toy (me : Z) : cryp :=
  mkCryp (fun l => repeat (sum l) 32) [9] (fun c => (length c =? 1)%nat) (fun c => negb (eq_bytes c [66])) eq_bytes (fun c => c) eq_bytes (fun e => eq_bytes e [me]) (fun _ => [me]) (fun _ => false)
    (fun r t n => [me; sum t]) (fun c t s => eq_bytes s (c ++ [sum t])).
Lemma toy_ok : forall me, is_byte me -> cryp_ok (toy me).
Proof.
  intros me M. assert (B : forall l, is_byte (sum l)) by (intros l; unfold is_byte, sum; pose proof (Z.mod_pos_bound (fold_left Z.add l 0) 256); lia). constructor; cbn.
  - intros l. split; [reflexivity|]. apply (Forall_forall is_byte). intros x IN. apply (repeat_spec 32 (sum l)) in IN. subst x. apply B.
  - intros _. split; [apply Forall_cons; [exact M|apply Forall_nil]|reflexivity].
  - intros _ t _. apply Forall_cons; [exact M|apply Forall_cons; [apply B|apply Forall_nil]].
Qed.
Definition here : addr := mkAddr AF_INET [10; 0; 0; 1] 1935 0.
Definition there : addr := mkAddr AF_INET [10; 0; 0; 2] 1936 0.
Definition toyA : list hevent := live_A (toy 1) (toy 2) [2] [7; 7] [5; 5] [6; 6] 100 200 1 5000000 here there 0 0.
Definition toyB : list hevent := live_B (toy 1) (toy 2) [2] [7; 7] [5; 5] [6; 6] 100 200 1 5000000 here 0 0.
Definition go (cr : cryp) (l : list hevent) : hinst := match hrun cr hinst0 l with Ok i => i | _ => hinst0 end.

(** ** C62: who is at the far end *)
(** Whatever arrives, whatever the application does, however the tasks are ordered: nothing undefined happens. *)
Theorem C62_defined : forall cr l, cryp_ok cr -> Forall hevent_ok l -> exists i, hrun cr hinst0 l = Ok i.
Proof. intros cr l C F. destruct (run_good cr l hinst0 C (INV_start cr) F) as (i & E & _). exists i. exact E. Qed.
Print Assumptions C62_defined.
(** A session that an initiator opened has the certificate of the endpoint it was asked for, and the holder of the certificate
    signed the session ID it uses, a component the key was combined with, and the initiator's own component or none. *)
Theorem C62_initiator_partial : forall cr l i n p, cryp_ok cr -> Forall hevent_ok l -> hrun cr hinst0 l = Ok i -> is_ses i n p -> h_role p = INITIATOR -> opened p ->
  exists c, h_cert p = Some c /\ c_authentic cr c = true /\ c_selected cr c (h_asked p) = true /\ h_epd p = c_canonical cr c
    /\ exists k skrc, responder_signed cr c (h_tx p) skrc k /\ (k = [] \/ h_own p = Some k) /\ In skrc (h_far p).
Proof.
  intros cr l i n p C F H S R O. destruct (run_good cr l hinst0 C (INV_start cr) F) as (j & E & V & _). assert (j = i) as -> by congruence. destruct (v_ses _ _ V n p S) as (_ & K). rewrite R in K. destruct (io_open _ _ K O) as (c & (A1 & A2 & _ & A3) & A4 & A5). exists c. auto.
Qed.
Print Assumptions C62_initiator_partial.
(** A session that a responder made had a good cookie, and the holder of an authentic certificate signed it, its session ID and
    its component. *)
Theorem C62_responder : forall cr l i n p, cryp_ok cr -> Forall hevent_ok l -> hrun cr hinst0 l = Ok i -> is_ses i n p -> h_role p = RESPONDER ->
  exists c cookie age a, h_cert p = Some c /\ c_authentic cr c = true /\ h_epd p = c_canonical cr c
    /\ check_cookie (c_sha cr) (c_secret cr) age cookie a = Ok COOKIE_OK /\ initiator_signed cr c (h_tx p) cookie (h_skic p).
Proof.
  intros cr l i n p C F H S R. destruct (run_good cr l hinst0 C (INV_start cr) F) as (j & E & V & _). assert (j = i) as -> by congruence. destruct (v_ses _ _ V n p S) as (_ & K). rewrite R in K. destruct (ro_open _ _ _ K) as (c & skrc & B1 & B2 & _ & _ & _ & B3 & cookie & age & a & B4 & B5). exists c, cookie, age, a. auto 10.
Qed.
Print Assumptions C62_responder.
(** When the session is made, its address is the one the cookie was made for, the instance is not shutting down, and the session
    is found at that address from then on. *)
Theorem C62_responder_address : forall cr l i e j n p, cryp_ok cr -> Forall hevent_ok l -> hrun cr hinst0 l = Ok i -> hstep cr i e = Ok j -> nth_error (g_sess i) n = None -> is_ses j n p -> h_role p = RESPONDER ->
  g_down i = false /\ h_state p = OPEN /\ open_by_addr (h_addr p) j = Some n
  /\ exists c cookie age, h_cert p = Some c /\ check_cookie (c_sha cr) (c_secret cr) age cookie (h_addr p) = Ok COOKIE_OK /\ initiator_signed cr c (h_tx p) cookie (h_skic p).
Proof.
  intros cr l i e j n p C F H ST N S R. destruct (run_good cr l hinst0 C (INV_start cr) F) as (j' & E & V & _). assert (j' = i) as -> by congruence. destruct (step_new cr i e j n p V ST N S) as (_ & [(epd & tag & id & -> & _)|((isid & skic & skrc & cert & ifc & a & id & cookie & age & -> & D & _ & CK & IS & _) & O)]); [discriminate|].
  split; [exact D|]. split; [reflexivity|]. split; [exact O|]. exists cert, cookie, age. split; [reflexivity|]. split; [exact CK|exact IS].
Qed.
Print Assumptions C62_responder_address.
(** Nothing else is ever signed: only a session's own keying text, as the initiator or as the responder. *)
Theorem C62_signed : forall cr l i c text, cryp_ok cr -> Forall hevent_ok l -> hrun cr hinst0 l = Ok i -> In (HSigned c text) (g_out i) ->
  exists n p, is_ses i n p /\ (ii_signing cr p c text \/ ri_signing p c text).
Proof. intros cr l i c text C F H IN. destruct (run_good cr l hinst0 C (INV_start cr) F) as (j & E & V & _). assert (j = i) as -> by congruence. apply (v_log _ _ V _ IN). Qed.
Print Assumptions C62_signed.
(** An undisturbed handshake between any two instances that accept each other's certificates and signatures opens both ends, to
    each other, with the same components. *)
Theorem C62_completes : forall crA crB epd tag skic skrc idA idB age aA aB, cryp_ok crA -> cryp_ok crB ->
  let certA := c_cert crA [] in let certB := c_cert crB epd in
  small epd -> small tag -> small skic -> small skrc -> small certA -> small certB -> 1 <= idA <= U32MAX -> 1 <= idB <= U32MAX -> 0 <= age -> seconds_of age < U64MAX -> addr_ok aA -> addr_ok aB ->
  c_mine crB epd = true -> c_decodes crA certB = true -> c_authentic crA certB = true -> c_selected crA certB epd = true -> c_decodes crB certA = true -> c_authentic crB certA = true ->
  (forall t n, small (c_sign crA certB t n) /\ c_check crB certA t (c_sign crA certB t n) = true) -> (forall t n, small (c_sign crB certA t n) /\ c_check crA certB t (c_sign crB certA t n) = true) ->
  exists lA lB A B p q, hrun crA hinst0 lA = Ok A /\ hrun crB hinst0 lB = Ok B /\ Forall hevent_ok lA /\ Forall hevent_ok lB /\ fed_by B lA /\ fed_by A lB
    /\ is_ses A 0 p /\ is_ses B 0 q /\ h_state p = OPEN /\ h_state q = OPEN /\ h_tx p = h_rx q /\ h_tx q = h_rx p /\ h_own p = Some skic /\ h_skic q = skic /\ h_far p = [skrc] /\ h_far q = [skrc]
    /\ h_cert p = Some certB /\ h_cert q = Some certA /\ h_addr p = aB /\ h_addr q = aA.
Proof.
  intros crA crB epd tag skic skrc idA idB age aA aB OA OB certA certB S1 S2 S3 S4 S5 S6 I1 I2 T1 T2 AA AB M B1 B2 B3 A1 A2 GA GB. apply (live crA crB epd tag skic skrc idA idB 1 1 age aA aB 0 0); auto 10.
Qed.
Print Assumptions C62_completes.

(** The run of the theorem, with the example: from connecting to two open sessions *)
Example C62_example :
  (exists p, g_sess (go (toy 1) toyA) = [p] /\ h_state p = OPEN /\ h_role p = INITIATOR /\ h_rx p = 100 /\ h_tx p = 200 /\ h_cert p = Some [2] /\ h_own p = Some [5; 5] /\ h_far p = [[6; 6]])
  /\ (exists q, g_sess (go (toy 2) toyB) = [q] /\ h_state q = OPEN /\ h_role q = RESPONDER /\ h_rx q = 200 /\ h_tx q = 100 /\ h_cert q = Some [1] /\ h_skic q = [5; 5] /\ h_addr q = here)
  /\ open_by_addr here (go (toy 2) toyB) = Some 0%nat /\ In (HSigned [1] (ri_text 200 [6; 6] ++ [5; 5])) (g_out (go (toy 2) toyB)).
Proof.
  split; [eexists; split; [vm_compute; reflexivity|repeat split]|]. split; [eexists; split; [vm_compute; reflexivity|repeat split]|]. split; [vm_compute; reflexivity|]. vm_compute. right. right. left. reflexivity.
Qed.
(** The event with which the responder's session appears *)
Example C62_address_example :
  let i := go (toy 2) (firstn 3 toyB) in exists j p, hstep (toy 2) i (ERun 0 (mkChoice None false 200 0)) = Ok j /\ nth_error (g_sess i) 0 = None /\ is_ses j 0 p /\ h_role p = RESPONDER /\ h_addr p = here.
Proof. do 2 eexists. split; [vm_compute; reflexivity|]. repeat split. Qed.

(** What is missing in C62_initiator_partial: that the text signed had the initiator's own component.  An RIKeying that comes while
    the component is still being made is checked against none, and the session opens. *)
Definition early_run : list hevent :=
  [EConnect [2] [7; 7] 100; EStartup 5000000 1 there [(CHUNK_RHELLO, field [7; 7] ++ field [1] ++ [2])]; ERun 0 (mkChoice None false 0 0);
   EChunk 5000000 100 true 0 CHUNK_RIKEYING (ri_text 200 [6; 6] ++ [2; sum (ri_text 200 [6; 6])]); ERun 1 (mkChoice None true 0 0); ERun 1 (mkChoice None false 0 0)].
Theorem C62_own_component_refuted : exists cr l i p, cryp_ok cr /\ Forall hevent_ok l /\ hrun cr hinst0 l = Ok i /\ is_ses i 0 p /\ h_role p = INITIATOR /\ h_state p = OPEN /\ h_own p = None.
Proof.
  exists (toy 1), early_run. do 2 eexists. split; [apply toy_ok; unfold is_byte; lia|]. split; [apply hevents_ok; vm_compute; reflexivity|]. split; [vm_compute; reflexivity|]. repeat split.
Qed.
Print Assumptions C62_own_component_refuted.
(** Nor are the session ID in use and the component combined last from the same RIKeying: one that is being checked while another
    opens the session is still combined with the key of the open session. *)
Definition rik_of (id : Z) (skrc : list Z) : hevent := EChunk 5000000 100 true 0 CHUNK_RIKEYING (ri_text id skrc ++ [2; sum (ri_text id skrc ++ [5; 5])]).
Definition twice_run : list hevent := firstn 8 toyA ++ [rik_of 200 [6; 6]; rik_of 201 [8]; ERun 0 (mkChoice None true 0 0); ERun 1 (mkChoice None false 0 0)].
Theorem C62_key_settled_refuted : exists cr l i p e j q, cryp_ok cr /\ Forall hevent_ok l /\ hrun cr hinst0 l = Ok i /\ is_ses i 0 p /\ h_state p = OPEN /\ h_tx p = 200 /\ h_far p = [[6; 6]]
  /\ hstep cr i e = Ok j /\ is_ses j 0 q /\ h_state q = OPEN /\ h_tx q = 200 /\ h_far q = [[8]; [6; 6]].
Proof.
  exists (toy 1), twice_run. do 2 eexists. exists (ERun 0 (mkChoice None true 0 0)). do 2 eexists. split; [apply toy_ok; unfold is_byte; lia|]. split; [apply hevents_ok; vm_compute; reflexivity|]. split; [vm_compute; reflexivity|]. split; [reflexivity|]. split; [reflexivity|]. split; [reflexivity|]. split; [reflexivity|]. split; [vm_compute; reflexivity|]. repeat split.
Qed.
Print Assumptions C62_key_settled_refuted.

(** ** C63: what is bounded and what is unique *)
(** The number of initiators being checked is counted exactly and never exceeds 16. *)
Theorem C63_busy : forall cr l i, cryp_ok cr -> Forall hevent_ok l -> hrun cr hinst0 l = Ok i -> g_waiting i = count is_tii (g_tasks i) /\ 0 <= g_waiting i <= 16.
Proof.
  intros cr l i C F H. destruct (run_good cr l hinst0 C (INV_start cr) F) as (j & E & V & _). assert (j = i) as -> by congruence. destruct (v_wait _ _ V) as (A & B). pose proof (count_nonneg is_tii (g_tasks i)). unfold MAX_WAITING in B. split; [exact A|lia].
Qed.
Print Assumptions C63_busy.
(** 18 initiators at once: 16 are checked, the others are not heard. *)
Example C63_busy_example :
  let flood := firstn 1 toyB ++ concat (repeat (firstn 1 (skipn 1 toyB)) 18) in g_waiting (go (toy 2) flood) = 16 /\ length (g_tasks (go (toy 2) flood)) = 16%nat /\ g_waiting (go (toy 2) (flood ++ [ERun 3 (mkChoice None false 0 0)])) = 15.
Proof. vm_compute. repeat split. Qed.
(** An initiator that the responder already has a session with, at the same address and interface, with the same session ID and
    component, gets no second session. *)
Theorem C63_retransmit : forall cr l i e j m p n q, cryp_ok cr -> Forall hevent_ok l -> hrun cr hinst0 l = Ok i -> hstep cr i e = Ok j ->
  open_by_addr (h_addr q) i = Some m -> is_ses i m p -> h_role p = RESPONDER -> h_if p = h_if q -> h_tx p = h_tx q -> h_skic p = h_skic q ->
  nth_error (g_sess i) n = None -> is_ses j n q -> h_role q = RESPONDER -> False.
Proof.
  intros cr l i e j m p n q C F H ST O S R E1 E2 E3 N SQ RQ. destruct (run_good cr l hinst0 C (INV_start cr) F) as (j' & E & V & _). assert (j' = i) as -> by congruence. destruct (step_new cr i e j n q V ST N SQ) as (_ & [(epd & tag & id & -> & _)|((isid & skic & skrc & cert & ifc & a & id & cookie & age & -> & _ & TR & _) & _)]); [discriminate|].
  unfold try_rik in TR. cbn [accepted h_with_open new_responder h_addr h_if h_tx h_skic] in *. rewrite O in TR. unfold is_ses in S. rewrite S, R, E1, E2, E3, !Z.eqb_refl, eqb_self in TR. discriminate.
Qed.
Print Assumptions C63_retransmit.
(** The same IIKeying twice, checked twice: one session, and the RIKeying is sent again. *)
Example C63_retransmit_example :
  let twice := firstn 2 toyB ++ firstn 1 (skipn 1 toyB) ++ [ERun 0 (mkChoice (Some [6; 6]) false 0 0); ERun 0 (mkChoice (Some [8]) false 0 0); ERun 0 (mkChoice None false 200 0); ERun 1 (mkChoice None false 0 0); ERun 1 (mkChoice None false 0 0)] in
  let i := go (toy 2) twice in exists m p, open_by_addr here i = Some m /\ is_ses i m p /\ h_role p = RESPONDER /\ h_tx p = 100 /\ h_skic p = [5; 5] /\ g_tasks i = [TIIRun 100 [5; 5] [8] [1] 1 here]
    /\ exists j, hstep (toy 2) i (ERun 0 (mkChoice None false 201 0)) = Ok j /\ length (g_sess j) = 1%nat /\ length (g_out j) = S (length (g_out i)).
Proof. cbv zeta. do 2 eexists. split; [vm_compute; reflexivity|]. split; [vm_compute; reflexivity|]. split; [reflexivity|]. split; [reflexivity|]. split; [reflexivity|]. split; [vm_compute; reflexivity|]. eexists. split; [vm_compute; reflexivity|]. split; vm_compute; reflexivity. Qed.
(** No address is tried twice by a session, and redirects bring a session to no more than 24 addresses. *)
Theorem C63_candidates : forall cr l i n p, cryp_ok cr -> Forall hevent_ok l -> hrun cr hinst0 l = Ok i -> is_ses i n p ->
  distinct_addrs (h_cands p)
  /\ forall e j, hstep cr i e = Ok j -> (forall m a, e <> ECandidate m a) -> exists q, is_ses j n q /\ (zlen (h_cands q) <= zlen (h_cands p) \/ zlen (h_cands q) <= 24).
Proof.
  intros cr l i n p C F H S. destruct (run_both cr l hinst0 i C F (INV_start cr) (SINV_start cr) H) as (V & W). split; [apply (s_cands _ _ _ W n p S)|]. intros e j ST NE. destruct (step_keeps cr i e j n p V ST S) as (q & Q & K). exists q. split; [exact Q|]. destruct K as (_ & _ & _ & _ & K).
  assert (A : is_app e = false) by (destruct e; try reflexivity; exfalso; eapply NE; reflexivity). specialize (K A). unfold REDIRECT_THRESHOLD in K. lia.
Qed.
Print Assumptions C63_candidates.
(** Each of the sessions being opened is for another endpoint. *)
Theorem C63_one_opening : forall cr l i n m p q, cryp_ok cr -> Forall hevent_ok l -> hrun cr hinst0 l = Ok i -> n <> m -> is_ses i n p -> is_ses i m q ->
  h_state p = IHELLO_SENT \/ h_state p = KEYING_SENT -> h_state q = IHELLO_SENT \/ h_state q = KEYING_SENT -> h_asked p <> h_asked q.
Proof.
  intros cr l i n m p q C F H N S S' ST ST'. destruct (run_both cr l hinst0 i C F (INV_start cr) (SINV_start cr) H) as (V & W). apply (s_asked _ _ _ W n m p q N S S'); apply opening_iff; assumption.
Qed.
Print Assumptions C63_one_opening.
(** Of the sessions that have answered and are being keyed, no two are to the same far end, if a certificate is selected by its own
    canonical endpoint. *)
Theorem C63_one_keying : forall cr l i n m p q c c', cryp_ok cr -> (forall x, c_selected cr x (c_canonical cr x) = true) -> Forall hevent_ok l -> hrun cr hinst0 l = Ok i -> n <> m -> is_ses i n p -> is_ses i m q ->
  h_state p = KEYING_SENT -> h_state q = KEYING_SENT -> h_cert p = Some c -> h_cert q = Some c' -> c_canonical cr c <> c_canonical cr c'.
Proof.
  intros cr l i n m p q c c' C CN F H N S S' ST ST' CP CQ. destruct (run_both cr l hinst0 i C F (INV_start cr) (SINV_start cr) H) as (V & W). apply (s_key _ _ _ W CN n m p q c c'); assumption.
Qed.
Print Assumptions C63_one_keying.
(** Two sessions being opened and both keyed, to [2] and to [3]; a second one to [2] is not made, and one to an unknown name that
    turns out to be [2] is given up. *)
Definition wild (me : Z) : cryp := mkCryp (c_sha (toy me)) (c_secret (toy me)) (c_decodes (toy me)) (c_authentic (toy me)) (fun c e => eq_bytes c e || eq_bytes e [0]) (fun c => c) (c_overrides (toy me)) (c_mine (toy me)) (c_cert (toy me)) (c_wins (toy me)) (c_sign (toy me)) (c_check (toy me)).
Definition rhello_of (tag cert : list Z) : hevent := EStartup 5000000 1 there [(CHUNK_RHELLO, field tag ++ field [1] ++ cert)].
Example C63_opening_example :
  let nil := mkChoice None false 0 0 in let i := go (wild 1) [EConnect [2] [7] 100; EConnect [3] [8] 101; EConnect [2] [9] 102; EConnect [0] [6] 103; rhello_of [7] [2]; rhello_of [8] [3]; rhello_of [6] [2]; ERun 0 nil; ERun 0 nil; ERun 0 nil] in
  map h_state (g_sess i) = [KEYING_SENT; KEYING_SENT; CLOSED] /\ map h_asked (g_sess i) = [[2]; [3]; [0]] /\ map h_rx (g_sess i) = [100; 101; 103].
Proof. vm_compute. repeat split. Qed.
(** A session's life goes one way; its role, ID and the endpoint asked for never change. *)
Theorem C63_forward : forall cr l i e j n p, cryp_ok cr -> Forall hevent_ok l -> hrun cr hinst0 l = Ok i -> hstep cr i e = Ok j -> is_ses i n p ->
  exists q, is_ses j n q /\ rank (h_state p) <= rank (h_state q) /\ h_role q = h_role p /\ h_rx q = h_rx p /\ h_asked q = h_asked p.
Proof.
  intros cr l i e j n p C F H ST S. destruct (run_good cr l hinst0 C (INV_start cr) F) as (j' & E & V & _). assert (j' = i) as -> by congruence. destruct (step_keeps cr i e j n p V ST S) as (q & Q & K1 & K2 & K3 & K4 & _). exists q. auto.
Qed.
Print Assumptions C63_forward.
(** After shutdown no session is made. *)
Theorem C63_shutdown : forall cr l i e j, cryp_ok cr -> Forall hevent_ok l -> hrun cr hinst0 l = Ok i -> g_down i = true -> hstep cr i e = Ok j -> length (g_sess j) = length (g_sess i).
Proof.
  intros cr l i e j C F H D ST. destruct (run_good cr l hinst0 C (INV_start cr) F) as (j' & E & V & _). assert (j' = i) as -> by congruence.
  assert (L : (length (g_sess i) <= length (g_sess j))%nat). { destruct (Nat.le_gt_cases (length (g_sess i)) (length (g_sess j))) as [L|L]; [exact L|]. destruct (nth_error (g_sess i) (length (g_sess j))) as [p|] eqn:S; [|apply nth_error_None in S; lia]. destruct (step_keeps cr i e j _ p V ST S) as (q & Q & _). unfold is_ses in Q. assert (nth_error (g_sess j) (length (g_sess j)) = None) by (apply nth_error_None; lia). congruence. }
  destruct (Nat.eq_dec (length (g_sess j)) (length (g_sess i))) as [X|X]; [exact X|]. exfalso. destruct (nth_error (g_sess j) (length (g_sess i))) as [p|] eqn:S; [|apply nth_error_None in S; lia].
  destruct (step_new cr i e j (length (g_sess i)) p V ST) as (_ & [(epd & tag & id & -> & Y & _)|((isid & skic & skrc & cert & ifc & a & id & cookie & age & -> & Y & _) & _)]); [apply nth_error_None; lia|exact S|congruence|congruence].
Qed.
Print Assumptions C63_shutdown.
Example C63_shutdown_example :
  let i := go (toy 2) (firstn 3 toyB ++ [EShutdown]) in g_down i = true /\ length (g_tasks i) = 1%nat /\ exists j, hstep (toy 2) i (ERun 0 (mkChoice None false 200 0)) = Ok j /\ g_sess j = [].
Proof. cbv zeta. split; [vm_compute; reflexivity|]. split; [vm_compute; reflexivity|]. eexists. split; vm_compute; reflexivity. Qed.
(** 30 addresses in a redirect: 24 are taken; an address that is there already is not taken again. *)
Definition many (n : nat) : list addr := map (fun k => mkAddr AF_INET [10; 0; 1; Z.of_nat k] 1935 2) (seq 0 n).
Example C63_candidates_example :
  let l := [EConnect [2] [7] 100; ECandidate 0 there; EStartup 0 1 there [(CHUNK_REDIRECT, field [7] ++ addrs_text (many 5)); (CHUNK_REDIRECT, field [7] ++ addrs_text (many 30))]] in
  map (fun p => length (h_cands p)) (g_sess (go (toy 1) l)) = [24%nat].
Proof. vm_compute. reflexivity. Qed.

(** ** C64: the two ends agree *)
(** If nothing verifies under B's certificate but what B signed, then an initiator's open session to B uses the ID of a session
    that B made as responder, with B's component and the initiator's; or B, as initiator, signed a text in which the initiator's own
    component is B's certificate and component. *)
Theorem C64_initiator_agrees_partial : forall crA crB lA lB A B n p cB, cryp_ok crA -> cryp_ok crB -> Forall hevent_ok lA -> Forall hevent_ok lB -> hrun crA hinst0 lA = Ok A -> hrun crB hinst0 lB = Ok B ->
  is_ses A n p -> h_role p = INITIATOR -> opened p -> h_cert p = Some cB -> only_signed crA B cB ->
  exists m q, is_ses B m q /\ h_rx q = h_tx p /\
   ((h_role q = RESPONDER /\ (exists skrc, h_far q = [skrc] /\ In skrc (h_far p)) /\ (h_skic q = [] \/ h_own p = Some (h_skic q)))
    \/ (h_role q = INITIATOR /\ exists k g h, field_wire (c_cert crB []) g /\ field_wire k h /\ h_own p = Some (g ++ h))).
Proof.
  intros crA crB lA lB A B n p cB CA CB FA FB HA HB. destruct (run_good crA lA hinst0 CA (INV_start crA) FA) as (A' & EA & VA & _). destruct (run_good crB lB hinst0 CB (INV_start crB) FB) as (B' & EB & VB & _). assert (A' = A) as -> by congruence. assert (B' = B) as -> by congruence. apply (agree_initiator crA crB A B n p cB VA VB).
Qed.
Print Assumptions C64_initiator_agrees_partial.
(** If nothing verifies under A's certificate but what A signed, then a responder's session with A uses the ID of a session that A
    made as initiator, with A's certificate and component; or A, as responder, has a key component that is a cookie of the
    responder's. *)
Theorem C64_responder_agrees : forall crA crB lA lB A B m q cA, cryp_ok crA -> cryp_ok crB -> Forall hevent_ok lA -> Forall hevent_ok lB -> hrun crA hinst0 lA = Ok A -> hrun crB hinst0 lB = Ok B ->
  is_ses B m q -> h_role q = RESPONDER -> h_cert q = Some cA -> only_signed crB A cA ->
  exists n p, is_ses A n p /\ h_rx p = h_tx q /\
   ((h_role p = INITIATOR /\ c_cert crA [] = cA /\ (h_skic q = [] \/ h_own p = Some (h_skic q)))
    \/ (h_role p = RESPONDER /\ exists cookie age a, h_far p = [cookie] /\ check_cookie (c_sha crB) (c_secret crB) age cookie a = Ok COOKIE_OK)).
Proof.
  intros crA crB lA lB A B m q cA CA CB FA FB HA HB. destruct (run_good crA lA hinst0 CA (INV_start crA) FA) as (A' & EA & VA & _). destruct (run_good crB lB hinst0 CB (INV_start crB) FB) as (B' & EB & VB & _). assert (A' = A) as -> by congruence. assert (B' = B) as -> by congruence. apply (agree_responder crA crB A B m q cA VA VB).
Qed.
Print Assumptions C64_responder_agrees.

(** Cryptography where a certificate's owner signed exactly the given texts *)
Definition strict (me : Z) (signed : list (list Z * list Z)) : cryp :=
  mkCryp (c_sha (toy me)) (c_secret (toy me)) (c_decodes (toy me)) (c_authentic (toy me)) (c_selected (toy me)) (c_canonical (toy me)) (c_overrides (toy me)) (c_mine (toy me)) (c_cert (toy me)) (c_wins (toy me)) (c_sign (toy me))
    (fun c t s => existsb (fun e => eq_bytes c (fst e) && eq_bytes t (snd e)) signed).
Lemma strict_ok : forall me l, is_byte me -> cryp_ok (strict me l).
Proof. intros me l M. destruct (toy_ok me M) as [A B C]. constructor; assumption. Qed.
Definition text_A : list Z := ii_text 100 (make_cookie (c_sha (toy 2)) [9] 5000000 here) [1] [5; 5].
Definition text_B : list Z := ri_text 200 [6; 6] ++ [5; 5].
Lemma strict_only : forall me l b c, (forall t, In (c, t) l -> exists r, In (HSigned r t) (g_out b)) -> only_signed (strict me l) b c.
Proof.
  intros me l b c H text sig CK. cbn in CK. apply existsb_exists in CK. destruct CK as ((c' & t) & IN & E). cbn in E. apply andb_true_iff in E. destruct E as (E1 & E2). apply eq_bytes_iff in E1, E2. subst. apply (H t IN).
Qed.
Example C64_example :
  let A := go (strict 1 [([2], text_B)]) toyA in let B := go (strict 2 [([1], text_A)]) toyB in
  only_signed (strict 1 [([2], text_B)]) B [2] /\ only_signed (strict 2 [([1], text_A)]) A [1]
  /\ (exists p, is_ses A 0 p /\ h_role p = INITIATOR /\ opened p /\ h_cert p = Some [2]) /\ (exists q, is_ses B 0 q /\ h_role q = RESPONDER /\ h_cert q = Some [1]).
Proof.
  cbv zeta. split; [|split; [|split]].
  - apply strict_only. intros t [E|[]]. inversion E; subst t. exists [1]. vm_compute. right. right. left. reflexivity.
  - apply strict_only. intros t [E|[]]. inversion E; subst t. exists [2]. vm_compute. right. left. reflexivity.
  - eexists. split; [vm_compute; reflexivity|]. split; [reflexivity|]. split; [left; reflexivity|reflexivity].
  - eexists. split; [vm_compute; reflexivity|]. split; reflexivity.
Qed.
(** What is missing: that the responder's session is with this initiator.  The responder's text names neither the initiator nor its
    session.  An initiator [3] that repeats the component of [1] has a session with [2], and [1] takes the RIKeying made for it. *)
Definition text_E : list Z := ii_text 300 (make_cookie (c_sha (toy 2)) [9] 5000000 there) [3] [5; 5].
Definition misbound_B : list hevent := [EStartup 5000000 1 there [(CHUNK_IIKEYING, text_E ++ [0])]; ERun 0 (mkChoice (Some [6; 6]) false 0 0); ERun 0 (mkChoice None false 200 0); ERun 0 (mkChoice None false 0 0); ERun 0 (mkChoice None false 0 0)].
Theorem C64_identity_refuted : exists crA crB lA lB A B p, cryp_ok crA /\ cryp_ok crB /\ Forall hevent_ok lA /\ Forall hevent_ok lB /\ hrun crA hinst0 lA = Ok A /\ hrun crB hinst0 lB = Ok B
  /\ is_ses A 0 p /\ h_role p = INITIATOR /\ h_state p = OPEN /\ h_cert p = Some (c_cert crB []) /\ only_signed crA B (c_cert crB []) /\ h_own p = Some [5; 5]
  /\ g_sess B <> [] /\ forall m q, is_ses B m q -> h_rx q = h_tx p /\ h_state q = OPEN /\ h_cert q <> Some (c_cert crA []).
Proof.
  exists (strict 1 [([2], text_B)]), (strict 2 [([3], text_E)]), toyA, misbound_B. do 3 eexists.
  split; [apply strict_ok; unfold is_byte; lia|]. split; [apply strict_ok; unfold is_byte; lia|]. split; [apply hevents_ok; vm_compute; reflexivity|]. split; [apply hevents_ok; vm_compute; reflexivity|].
  split; [vm_compute; reflexivity|]. split; [vm_compute; reflexivity|]. split; [reflexivity|]. split; [reflexivity|]. split; [reflexivity|]. split; [reflexivity|].
  split; [apply strict_only; intros t [E|[]]; inversion E; subst t; exists [3]; vm_compute; left; reflexivity|]. split; [reflexivity|]. split; [discriminate|].
  intros [|m] q Q; unfold is_ses in Q; cbn [nth_error g_sess] in Q; [|destruct m; discriminate]. inversion Q; subst q. split; [reflexivity|]. split; [reflexivity|]. discriminate.
Qed.
Print Assumptions C64_identity_refuted.
