(** C59: a session follows its far end to another address only on proof that it is there.  C60: the tables by which the sessions
    of an instance are found.  [sha] answers 32 bytes; beyond that nothing is assumed of it except what each theorem says. *)
From Verif Require Import Base BaseFacts VLU Address AddressSpec AddressProofs FlashCert Packet PacketSpec Cookie Mobility MobilitySpec MobilityProofs MobilityTables.
Ltac Zify.zify_post_hook ::= Z.div_mod_to_equations.

(** C59.  No event makes the code read outside a buffer or do anything undefined. *)
Theorem C59_defined : forall sha secret l, hash32m sha -> Forall mevent_ok l -> in_order 0 l -> exists i, mrun sha secret inst0 l = Ok i.
Proof. intros sha secret l H F O. destruct (INV_run sha secret H l 0 inst0 F O (INV_0 sha secret)) as (i & E & _). exists i. exact E. Qed.
Print Assumptions C59_defined.

(** C59.  A session changes its address only to the address a packet came from, while it is open, and only if that packet carries
    a ping reply that is the check for that very interface and address, of a second later than that of the check it last moved
    by, and not more than 120 seconds old. *)
Theorem C59_moves : forall sha secret i e i1 n p p1, hash32m sha -> mevent_ok e -> mstep sha secret i e = Ok i1 ->
  session_is i n p -> session_is i1 n p1 -> m_if p1 <> m_if p \/ m_addr p1 <> m_addr p ->
  exists age margin l ts, e = MPacket n age (m_if p1) (m_addr p1) margin l /\ m_up p = true /\ is_u64 ts
    /\ carries l 65 (proof sha secret ts (m_if p1) (m_addr p1)) /\ m_rx p < ts /\ age / 1000000 <= wrap64 (ts + 120).
Proof.
  intros sha secret i e i1 n p p1 H OK ST S S1 D. destruct (move_step sha secret i e i1 H OK ST) as (new & _ & M & _ & Q). destruct (Q n p p1 S S1) as [(E1 & E2 & _)|IN]; [destruct D; contradiction|].
  destruct (M _ _ _ _ IN) as (age & margin & l & q & E & SQ & U & UT & C & R & F). exists age, margin, l, (m_rx p1). unfold session_is in *. replace p with q by congruence. auto 10.
Qed.
Print Assumptions C59_moves.

(** C59.  If the hash can not be forged, every move is to a place to which the instance sent the check, at most 120 seconds ago. *)
Theorem C59_reached : forall sha secret l i e i1 new n ts ifc a, hash32m sha -> Forall mevent_ok (l ++ [e]) -> in_order 0 (l ++ [e]) ->
  mrun sha secret inst0 l = Ok i -> unforged sha secret i e -> mstep sha secret i e = Ok i1 -> i_out i1 = i_out i ++ new -> In (n, MMoved ts ifc a) new ->
  exists m a' pk age margin d, In (m, MCheck ts ifc a' pk) (i_out i) /\ same_addr a a' /\ e = MPacket n age ifc a margin d /\ ts <= age / 1000000 <= ts + 120.
Proof.
  intros sha secret l i e i1 new n ts ifc a H F O R UF ST EO IN. apply Forall_app in F. destruct F as (F1 & F2). inversion F2 as [|? ? OK _]; subst.
  assert (O1 : forall l t, in_order t (l ++ [e]) -> in_order t l /\ match e with MPacket _ age _ _ _ _ => last_time t l <= age | _ => True end).
  { clear. induction l as [|x l IH]; intros t O; cbn [app] in O; [destruct e; cbn in *; auto; tauto|]. destruct x; cbn [in_order last_time] in *; try (apply IH; exact O). destruct O as (O1 & O2). destruct (IH _ O2). auto. }
  destruct (O1 _ _ O) as (OL & OT). destruct (INV_run sha secret H l 0 inst0 F1 OL (INV_0 sha secret)) as (i' & R' & V). replace i' with i in * by congruence. rewrite end_last in V.
  destruct (move_step sha secret i e i1 H OK ST) as (new' & EO' & M & _). assert (new' = new) by (apply (app_inv_head (i_out i)); congruence). subst new'.
  destruct (M _ _ _ _ IN) as (age & margin & d & q & -> & SQ & U & UT & (pre & h1 & h2 & post & EL & _) & RX & FR). cbn [unforged] in UF. destruct OK as (TO & IO & (AO & _) & _).
  destruct (UF ts (pre ++ [65; h1; h2]) post UT) as (m & ts' & ifc' & a' & pk & IC & SE). { rewrite EL, <- app_assoc. reflexivity. }
  destruct (iv_out _ _ _ _ V _ _ _ _ _ IC) as (I' & (A' & _) & T' & UT' & _).
  destruct (sealed_inj secret ts ifc a ts' ifc' a' UT UT' IO I' AO A' SE) as (-> & -> & SA). exists m, a', pk, age, margin, d. split; [exact IC|]. split; [exact SA|]. split; [reflexivity|].
  pose proof (iv_time _ _ _ _ V). unfold wrap64, time_ok, U64MAX in *. destruct TO as (TO1 & TO2). rewrite Z.mod_small in FR by lia. lia.
Qed.
Print Assumptions C59_reached.

(** C59.  The checks by which a session moves are of strictly later and later seconds: none works twice, none after a later one. *)
Theorem C59_once : forall sha secret l i n, hash32m sha -> Forall mevent_ok l -> in_order 0 l -> mrun sha secret inst0 l = Ok i -> rising 0 (moves_of n (i_out i)).
Proof.
  intros sha secret l i n H F O R. destruct (INV_run sha secret H l 0 inst0 F O (INV_0 sha secret)) as (i' & R' & V). replace i' with i in * by congruence.
  destruct (nth_error (i_sess i) n) as [p|] eqn:E; [apply (iv_sess _ _ _ _ V _ _ E)|]. rewrite (proj2 (iv_none _ _ _ _ V _ E)). exact Logic.I.
Qed.
Print Assumptions C59_once.

(** C59.  A check is sent only to the place a packet of the session came from, never to the place the session already is at, and
    it is a ping with the text for that place and that second. *)
Theorem C59_checks : forall sha secret l i e i1 new n ts ifc a pk, hash32m sha -> Forall mevent_ok (l ++ [e]) -> mrun sha secret inst0 l = Ok i ->
  mstep sha secret i e = Ok i1 -> i_out i1 = i_out i ++ new -> In (n, MCheck ts ifc a pk) new ->
  exists age margin d p p1, e = MPacket n age ifc a margin d /\ session_is i n p /\ m_up p = true /\ session_is i1 n p1 /\ ~ (m_if p1 = ifc /\ same_addr a (m_addr p1))
    /\ ts = age / 1000000 /\ pk = chunk_bytes 1 (proof sha secret ts ifc a).
Proof.
  intros sha secret l i e i1 new n ts ifc a pk H F R ST EO IN. apply Forall_app in F. destruct F as (F1 & F2). inversion F2 as [|? ? OK _]; subst.
  destruct (move_step sha secret i e i1 H OK ST) as (new' & EO' & _ & C & _). assert (new' = new) by (apply (app_inv_head (i_out i)); congruence). subst new'.
  destruct (C _ _ _ _ _ IN) as (age & margin & d & p & p1 & -> & S & S1 & U & ET & _ & _ & NP & EP). exists age, margin, d, p, p1. split; [reflexivity|]. split; [exact S|]. split; [exact U|]. split; [exact S1|]. split; [|auto].
  intros (E1 & E2). destruct OK as (_ & _ & (AO & _) & _). pose proof (TI_run sha secret H l inst0 i F1 TI_0 R) as T0. assert (OK1 : addr_ok (m_addr p1)).
  { destruct (move_step sha secret i _ i1 H (Forall_inv F2) ST) as (nw & EN & M & _ & Q). destruct (Q n p p1 S S1) as [(_ & -> & _)|X]; [exact (ti_ok _ T0 _ _ S)|]. destruct (M _ _ _ _ X) as (? & ? & ? & ? & E & _). inversion E; subst. exact AO. }
  rewrite <- E1, Z.eqb_refl in NP. cbn [andb] in NP. apply (eq_same a (m_addr p1) AO OK1) in E2. congruence.
Qed.
Print Assumptions C59_checks.

(** C59.  A session sends at most one check in any second of the instance's life. *)
Theorem C59_rate : forall sha secret l i n, hash32m sha -> Forall mevent_ok l -> in_order 0 l -> mrun sha secret inst0 l = Ok i ->
  rising 0 (checks_of n (i_out i)) /\ zlen (checks_of n (i_out i)) <= last_time 0 l / 1000000.
Proof.
  intros sha secret l i n H F O R. destruct (INV_run sha secret H l 0 inst0 F O (INV_0 sha secret)) as (i' & R' & V). replace i' with i in * by congruence. rewrite end_last in V.
  assert (RI : rising 0 (checks_of n (i_out i))) by (destruct (nth_error (i_sess i) n) as [p|] eqn:E; [apply (iv_sess _ _ _ _ V _ _ E)|]; rewrite (proj1 (iv_none _ _ _ _ V _ E)); exact Logic.I).
  split; [exact RI|]. pose proof (iv_time _ _ _ _ V) as TT. rewrite <- (Z.sub_0_r (last_time 0 l / 1000000)). apply rising_count; [exact RI|lia|].
  apply Forall_forall. intros x X. assert (K : forall o, In x (checks_of n o) -> exists m ifc a pk, In (m, MCheck x ifc a pk) o).
  { clear. induction o as [|(m & y) o IH]; intros X; [contradiction|]. destruct y as [ts j b pk|j b pk|ts j b]; cbn [checks_of] in X; [destruct (m =? n)%nat; [destruct X as [->|X]; [exists m, j, b, pk; left; reflexivity|]|]| |]; destruct (IH X) as (m' & j' & b' & pk' & Y); exists m', j', b', pk'; right; exact Y. }
  destruct (K _ X) as (m & ifc & a & pk & Y). apply (iv_out _ _ _ _ V _ _ _ _ _ Y).
Qed.
Print Assumptions C59_rate.

(** C59.  A session does follow: a packet from a new place (with no ping reply and not closing the session), in a second in which
    no check was sent yet, makes it send a check there; an open session at the far end, to which that check is delivered, in a
    packet with any header and padding, sends back a reply; and when that reply comes from the new place, any time in the next
    120 seconds, whatever happened meanwhile, if the session is open and did not move by a check as young, it is at the new place
    and is found there. *)
Theorem C59_follows : forall sha secret l0 i n p age ifc a margin flags ts tse cs pad, hash32m sha -> Forall mevent_ok l0 -> mrun sha secret inst0 l0 = Ok i ->
  time_ok age -> ifc_ok ifc -> place_ok a -> header_ok (m_role p) flags ts tse -> Forall chunk_ok cs -> Forall ordinary cs -> Z.of_nat pad < 65538 -> bytes_ok (packet_of margin flags ts tse (chunks_bytes cs) pad) ->
  session_is i n p -> m_up p = true -> ~ (ifc = m_if p /\ same_addr a (m_addr p)) -> m_tx p < age / 1000000 ->
  exists i1 pk, mstep sha secret i (MPacket n age ifc a (length margin) (packet_of margin flags ts tse (chunks_bytes cs) pad)) = Ok i1 /\ In (n, MCheck (age / 1000000) ifc a pk) (i_out i1)
  /\ forall sha' secret' age' ifc' a' margin' flags' ts' tse' pad' q, hash32m sha' -> time_ok age' -> ifc_ok ifc' -> header_ok (m_role q) flags' ts' tse' -> Z.of_nat pad' < 65538 -> m_up q = true ->
     exists q' o r, on_packet sha' secret' age' ifc' a' (length margin') (packet_of margin' flags' ts' tse' pk pad') q = Ok (q', o) /\ In (MReply (m_if q) (m_addr q) r) o
     /\ forall l2 i2 p2 age2 margin2 flags2 ts2 tse2 pad2, Forall mevent_ok l2 -> mrun sha secret i1 l2 = Ok i2 -> session_is i2 n p2 -> m_up p2 = true -> m_rx p2 < age / 1000000 ->
        time_ok age2 -> age2 / 1000000 <= age / 1000000 + 120 -> header_ok (m_role p2) flags2 ts2 tse2 -> Z.of_nat pad2 < 65538 ->
        exists i3 p3, mstep sha secret i2 (MPacket n age2 ifc a (length margin2) (packet_of margin2 flags2 ts2 tse2 r pad2)) = Ok i3 /\ session_is i3 n p3 /\ m_up p3 = true /\ m_if p3 = ifc /\ m_addr p3 = a /\ by_addr i3 a = Some n.
Proof. exact follows. Qed.
Print Assumptions C59_follows.

(** A case: a hash, a secret, three places, and packets that hold no chunk or one ping reply. *)
Definition toy (l : list Z) : list Z := map (fun k => fold_right (fun b s => (b + 3 * s) mod 251) (Z.of_nat k) l) (seq 0 32).
Lemma toy_hash : hash32m toy.
Proof.
  intros l. split; [|unfold toy; rewrite map_length, seq_length; reflexivity]. apply Forall_forall. intros x X. apply in_map_iff in X. destruct X as (k & <- & X). apply in_seq in X.
  destruct l as [|b l]; cbn [fold_right]; unfold is_byte; [lia|]. pose proof (Z.mod_pos_bound (b + 3 * fold_right (fun b s => (b + 3 * s) mod 251) (Z.of_nat k) l) 251 ltac:(lia)). lia.
Qed.
Definition ex_x := mkAddr AF_INET [10; 0; 0; 1] 1935 0.
Definition ex_y := mkAddr AF_INET [10; 0; 0; 2] 1935 0.
Definition ex_z := mkAddr AF_INET [10; 0; 0; 3] 1935 0.
Lemma ex_place : forall b, 0 <= b < 256 -> place_ok (mkAddr AF_INET [10; 0; 0; b] 1935 0).
Proof. intros b B. split; [|discriminate]. constructor; cbn [a_ip a_fam a_port a_origin]; [|right; left; split; reflexivity|unfold is_u16, U16MAX; lia|lia]. repeat (apply Forall_cons; [unfold is_byte; lia|]). apply Forall_nil. Qed.
Definition ex_secret : list Z := [1; 2; 3; 4].
Definition ex_empty := packet_of [] 2 (-1) (-1) [] 0.
Definition ex_reply sec a := packet_of [] 2 (-1) (-1) (chunk_bytes 65 (proof toy ex_secret sec 3 a)) 0.
Definition at_sec (s : Z) := s * 1000000 + 5.
Definition ex_move sec a n := [MPacket n (at_sec sec) 3 a 0 ex_empty; MPacket n (at_sec sec) 3 a 0 (ex_reply sec a)].
Lemma ex_okb : forall n sec b k l, 0 <= sec < 1000 -> 0 <= b < 256 -> bytes_okb l = true -> mevent_ok (MPacket n (at_sec sec) 3 (mkAddr AF_INET [10; 0; 0; b] 1935 0) k l).
Proof.
  intros n sec b k l S B L. split; [unfold time_ok, at_sec, U64MAX; lia|]. split; [unfold ifc_ok; lia|]. split; [apply ex_place; exact B|]. apply bytes_okb_ok. exact L.
Qed.
Definition ex_run : list mevent := [MInitiated 3 ex_x [7]] ++ ex_move 5 ex_y 0 ++ [MPacket 0 (at_sec 6) 3 ex_y 0 (ex_reply 5 ex_y)].
Example C59_case : Forall mevent_ok ex_run /\ in_order 0 ex_run
  /\ match mrun toy ex_secret inst0 ex_run with
     | Ok i => (exists pk, i_out i = [(0%nat, MCheck 5 3 ex_y pk); (0%nat, MMoved 5 3 ex_y)]) /\ by_addr i ex_y = Some 0%nat /\ by_addr i ex_x = None
     | _ => False
     end.
Proof.
  split; [|split].
  - unfold ex_run, ex_move, ex_x, ex_y. cbn [app]. constructor; [split; [unfold ifc_ok; lia|apply ex_place; lia]|]. repeat (apply Forall_cons; [apply ex_okb; [lia|lia|vm_compute; reflexivity]|]). constructor.
  - unfold ex_run, ex_move, at_sec. cbn [app in_order]. lia.
  - vm_compute. split; [eexists; reflexivity|]. split; reflexivity.
Qed.

(** C59.  A check is not tied to the session that sent it: its text has no session in it.  A session can be moved by a check that
    another session of the instance sent, to a place to which it never sent one itself. *)
Definition ex_other : list mevent := [MInitiated 3 ex_x [7]; MInitiated 3 ex_z [8]; MPacket 0 (at_sec 5) 3 ex_y 0 ex_empty; MPacket 1 (at_sec 6) 3 ex_y 0 (ex_reply 5 ex_y)].
Theorem C59_other_session_refuted :
  ~ (forall sha secret l i n ts ifc a, hash32m sha -> Forall mevent_ok l -> in_order 0 l -> mrun sha secret inst0 l = Ok i -> In (n, MMoved ts ifc a) (i_out i) -> exists ts' a' pk, In (n, MCheck ts' ifc a' pk) (i_out i)).
Proof.
  intros H. assert (R : exists pk, mrun toy ex_secret inst0 ex_other = Ok (mkInst [mkPeer true 1 3 ex_x [7] 5 0; mkPeer true 1 3 ex_y [8] 0 5] [(ex_y, 1%nat); (ex_x, 0%nat)] [([8], 1%nat); ([7], 0%nat)] [(0%nat, MCheck 5 3 ex_y pk); (1%nat, MMoved 5 3 ex_y)])) by (eexists; vm_compute; reflexivity).
  destruct R as (pk & R). assert (OK : Forall mevent_ok ex_other).
  { unfold ex_other, ex_x, ex_y, ex_z. do 2 (constructor; [split; [unfold ifc_ok; lia|apply ex_place; lia]|]). repeat (apply Forall_cons; [apply ex_okb; [lia|lia|vm_compute; reflexivity]|]). constructor. }
  assert (O : in_order 0 ex_other) by (unfold ex_other, at_sec; cbn [in_order]; lia).
  destruct (H _ _ _ _ 1%nat 5 3 ex_y toy_hash OK O R) as (ts' & a' & pk' & X); [right; left; reflexivity|]. cbn [i_out] in X. destruct X as [X|[X|[]]]; discriminate.
Qed.
Print Assumptions C59_other_session_refuted.

(** C60.  Whatever is found by address or by endpoint is an open session with that address or that endpoint. *)
Theorem C60_sound : forall sha secret l i, hash32m sha -> Forall mevent_ok l -> mrun sha secret inst0 l = Ok i ->
  (forall a n, addr_ok a -> by_addr i a = Some n -> open_at i n a) /\ (forall epd n, by_epd i epd = Some n -> open_as i n epd).
Proof.
  intros sha secret l i H F R. pose proof (TI_run sha secret H l inst0 i F TI_0 R) as T. split.
  - intros a n A E. apply (tfind_spec addr_eq addr_ok same_addr eq_same same_sym same_trans) in E; [|apply T|exact A]. destruct E as (k & E1 & E2). destruct (ti_a _ T _ _ E1) as (p & P1 & P2 & P3). exists p. split; [exact P1|]. split; [exact P2|]. apply same_sym. eapply same_trans; eauto.
  - intros epd n E. apply (tfind_spec eq_bytes anyk (@Logic.eq (list Z)) epd_eq (fun a b H => eq_sym H) (fun a b c H1 H2 => eq_trans H1 H2)) in E; [|apply T|exact Logic.I]. destruct E as (k & E1 & E2). destruct (ti_e _ T _ _ E1) as (p & P1 & P2 & P3). exists p. split; [exact P1|]. split; [exact P2|]. congruence.
Qed.
Print Assumptions C60_sound.

(** C60.  A session that comes to an address, by being opened, opened again or by a move, is found there, if it is open after the
    event (it is not opened at all if an initiator's certificate does not override the session found there). *)
Theorem C60_comes : forall sha secret l i e i1 new m a p, hash32m sha -> Forall mevent_ok (l ++ [e]) -> mrun sha secret inst0 l = Ok i -> mstep sha secret i e = Ok i1 -> i_out i1 = i_out i ++ new ->
  came i e new m a -> session_is i1 m p -> m_up p = true -> by_addr i1 a = Some m.
Proof.
  intros sha secret l i e i1 new m a p H F R ST EO C S U. apply Forall_app in F. destruct F as (F1 & F2). inversion F2 as [|? ? OK _]; subst. pose proof (TI_run sha secret H l inst0 i F1 TI_0 R) as T.
  destruct (TI_step sha secret i e i1 H OK T ST) as (_ & new' & EO' & K & _). assert (new' = new) by (apply (app_inv_head (i_out i)); congruence). subst new'.
  destruct (K m a C) as [(ov & n & ifc & epd & -> & FB & ->)|K']; [|eapply K'; eauto].
  cbn [mstep] in ST. rewrite FB in ST. apply Ok_inj in ST. subst i1. destruct C as (-> & _). exfalso. unfold session_is in S. assert (length (i_sess i) < length (i_sess i))%nat by (apply nth_error_Some; congruence). lia.
Qed.
Print Assumptions C60_comes.

(** C60.  A session that is found by its address stays found by its (then) address as long as it is open, until another session
    comes to the same address.  A session that is found by its endpoint stays found by it as long as it is open, unless another
    session is found by it instead. *)
Theorem C60_kept : forall sha secret l i e i1 new n p p1, hash32m sha -> Forall mevent_ok (l ++ [e]) -> mrun sha secret inst0 l = Ok i -> mstep sha secret i e = Ok i1 -> i_out i1 = i_out i ++ new ->
  session_is i n p -> session_is i1 n p1 -> m_up p1 = true ->
  (by_addr i (m_addr p) = Some n -> by_addr i1 (m_addr p1) = Some n \/ exists m a, m <> n /\ came i e new m a /\ same_addr a (m_addr p))
  /\ (by_epd i (m_epd p) = Some n -> by_epd i1 (m_epd p1) = Some n \/ exists m, m <> n /\ by_epd i1 (m_epd p1) = Some m).
Proof.
  intros sha secret l i e i1 new n p p1 H F R ST EO S S1 U. apply Forall_app in F. destruct F as (F1 & F2). inversion F2 as [|? ? OK _]; subst. pose proof (TI_run sha secret H l inst0 i F1 TI_0 R) as T.
  destruct (TI_step sha secret i e i1 H OK T ST) as (_ & new' & EO' & _ & K1 & K2). assert (new' = new) by (apply (app_inv_head (i_out i)); congruence). subst new'. split; intros X; [eapply K1|eapply K2]; eauto.
Qed.
Print Assumptions C60_kept.

(** C60.  An initiator at an address where a session is found either changes nothing or replaces it: the old one is no longer open
    and the new one is found by its address and its endpoint. *)
Theorem C60_replaced : forall sha secret l i ifc a epd override n, hash32m sha -> Forall mevent_ok l -> place_ok a -> mrun sha secret inst0 l = Ok i -> by_addr i a = Some n ->
  exists i1, mstep sha secret i (MAccepted ifc a epd override) = Ok i1
  /\ if override then (exists p, session_is i1 n p /\ m_up p = false) /\ open_at i1 (length (i_sess i)) a /\ by_addr i1 a = Some (length (i_sess i)) /\ by_epd i1 epd = Some (length (i_sess i)) else i1 = i.
Proof.
  intros sha secret l i ifc a epd override n H F (A & _) R FB. pose proof (TI_run sha secret H l inst0 i F TI_0 R) as T. cbn [mstep]. rewrite FB. destruct override; eexists; (split; [reflexivity|]); [|reflexivity].
  destruct (close_peer_sess n i) as (C1 & C2 & C3). destruct (TI_close_peer n i T) as (D1 & _). destruct (TI_open_peer (close_peer n i) (new_peer 2 ifc a epd) D1 A eq_refl) as (E1 & E2 & E3). rewrite C2 in E2, E3. cbn [new_peer m_addr m_epd] in E2, E3.
  destruct (open_peer_sess (new_peer 2 ifc a epd) (close_peer n i)) as (S1 & _).
  destruct (C60_sound sha secret l i H F R) as (SO & _). destruct (SO a n A FB) as (p & P1 & P2 & P3). split; [|split; [|split; [exact E2|exact E3]]].
  - exists (down p). split; [|reflexivity]. unfold session_is. rewrite S1, nth_error_app1 by (rewrite C2; apply nth_error_Some; congruence). rewrite (C3 _ _ P1), Nat.eqb_refl. reflexivity.
  - exists (new_peer 2 ifc a epd). split; [rewrite S1, <- C2; apply nth_last|]. split; [reflexivity|apply same_refl].
Qed.
Print Assumptions C60_replaced.
Example C60_case : match mrun toy ex_secret inst0 (ex_run ++ [MAccepted 3 ex_y [9] true; MInitiated 3 ex_x [7]]) with
  | Ok i => by_addr i ex_y = Some 1%nat /\ by_addr i ex_x = Some 2%nat /\ by_epd i [7] = Some 2%nat /\ by_epd i [9] = Some 1%nat /\ map m_up (i_sess i) = [false; true; true]
  | _ => False
  end.
Proof. vm_compute. auto. Qed.

(** C60.  Not every open session is found: when a session moves to an address where another one is and then moves on, nothing is
    left at that address, though the other session is open there. *)
Definition ex_lost : list mevent := [MInitiated 3 ex_x [7]; MInitiated 3 ex_z [8]] ++ ex_move 5 ex_x 1 ++ ex_move 6 ex_y 1.
Theorem C60_complete_refuted :
  ~ (forall sha secret l i n p, hash32m sha -> Forall mevent_ok l -> mrun sha secret inst0 l = Ok i -> session_is i n p -> m_up p = true -> exists m, by_addr i (m_addr p) = Some m).
Proof.
  intros H. assert (R : exists o, mrun toy ex_secret inst0 ex_lost = Ok (mkInst [mkPeer true 1 3 ex_x [7] 0 0; mkPeer true 1 3 ex_y [8] 6 6] [(ex_y, 1%nat)] [([8], 1%nat); ([7], 0%nat)] o)) by (eexists; vm_compute; reflexivity).
  destruct R as (o & R). assert (OK : Forall mevent_ok ex_lost).
  { unfold ex_lost, ex_move, ex_x, ex_y, ex_z. cbn [app]. do 2 (constructor; [split; [unfold ifc_ok; lia|apply ex_place; lia]|]). repeat (apply Forall_cons; [apply ex_okb; [lia|lia|vm_compute; reflexivity]|]). constructor. }
  destruct (H _ _ _ _ 0%nat (mkPeer true 1 3 ex_x [7] 0 0) toy_hash OK R) as (m & X); [reflexivity|reflexivity|]. vm_compute in X. discriminate.
Qed.
Print Assumptions C60_complete_refuted.
