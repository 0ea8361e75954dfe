(** How one step of the handshake changes the list of sessions, and what follows from that. *)
From Verif Require Import Base BaseFacts VLU VLUSpec VLUProofs Address AddressSpec AddressProofs FlashCert FlashCertProofs Cookie CookieProofs Packet PacketSpec PacketProofs Startup StartupSpec StartupProofs Mobility MobilityProofs Handshake HandshakeSpec HandshakeProofs.
Open Scope res_scope.

(** ** The changes *)
Definition core (p q : ses) : Prop := h_state q = h_state p /\ h_role q = h_role p /\ h_rx q = h_rx p /\ h_epd q = h_epd p /\ h_asked q = h_asked p /\ h_cert q = h_cert p /\ h_cands q = h_cands p.
Inductive sprim (cr : cryp) (app : bool) : list ses -> list ses -> Prop :=
| sp_core : forall l n p q, nth_error l n = Some p -> core p q -> sprim cr app l (set_at l n q)
| sp_close : forall l n p q, nth_error l n = Some p -> is_opening q = false -> rank (h_state p) <= rank (h_state q) -> h_role q = h_role p -> h_rx q = h_rx p -> h_asked q = h_asked p -> h_cands q = h_cands p -> sprim cr app l (set_at l n q)
| sp_cand : forall l n p a, nth_error l n = Some p -> existsb (addr_eq a) (h_cands p) = false -> (app = true \/ zlen (h_cands p) < REDIRECT_THRESHOLD) -> sprim cr app l (set_at l n (h_with_cands (a :: h_cands p) p))
| sp_key : forall l n p q c, nth_error l n = Some p -> h_state p = IHELLO_SENT -> h_state q = KEYING_SENT -> h_cert q = Some c -> h_role q = h_role p -> h_rx q = h_rx p -> h_epd q = h_epd p -> h_asked q = h_asked p -> h_cands q = h_cands p ->
    (forall m r c', m <> n -> nth_error l m = Some r -> h_state r = KEYING_SENT -> h_cert r = Some c' -> c_selected cr c' (c_canonical cr c) = false) -> sprim cr app l (set_at l n q).
Inductive sprims (cr : cryp) (app : bool) : list ses -> list ses -> Prop :=
| ss_refl : forall l, sprims cr app l l
| ss_step : forall l l' l'', sprims cr app l l' -> sprim cr app l' l'' -> sprims cr app l l''.
Lemma ss_one : forall cr app l l', sprim cr app l l' -> sprims cr app l l'.
Proof. intros. eapply ss_step; [apply ss_refl|eassumption]. Qed.
Lemma ss_trans : forall cr app l1 l2 l3, sprims cr app l1 l2 -> sprims cr app l2 l3 -> sprims cr app l1 l3.
Proof. intros cr app l1 l2 l3 A B. revert A. induction B; intros A; [exact A|]. eapply ss_step; [apply IHB; exact A|eassumption]. Qed.
Lemma core_refl : forall p, core p p.
Proof. intros p. unfold core. auto 10. Qed.
Lemma find_none : forall f l k, find_ses f k l = None -> forall n p, nth_error l n = Some p -> f (k + n)%nat p = false.
Proof.
  induction l as [|x l IH]; intros k H n p N; [destruct n; discriminate|]. cbn [find_ses] in H. destruct (f k x) eqn:F; [discriminate|]. destruct n as [|n]; cbn [nth_error] in N.
  - assert (x = p) as <- by congruence. rewrite Nat.add_0_r. exact F.
  - specialize (IH _ H n p N). replace (k + S n)%nat with (S k + n)%nat by lia. exact IH.
Qed.

(** ** What each part does *)
Section Parts.
Variable cr : cryp.
Notation SS app i j := (sprims cr app (g_sess i) (g_sess j)).
Lemma did_open_sess : forall n i, g_sess (h_did_open n i) = g_sess i.
Proof. intros n i. unfold h_did_open. destruct (nth_error (g_sess i) n); reflexivity. Qed.
Lemma did_close_sess : forall n i, g_sess (h_did_close n i) = g_sess i.
Proof. intros n i. unfold h_did_close. destruct (nth_error (g_sess i) n); reflexivity. Qed.
Lemma send_rik_sess : forall n i, g_sess (send_rik n i) = g_sess i.
Proof. intros n i. unfold send_rik. destruct (nth_error (g_sess i) n); [|reflexivity]. destruct (_ && _); reflexivity. Qed.
Lemma try_rik_sess : forall ifc a isid skic i j, try_rik ifc a isid skic i = Some j -> g_sess j = g_sess i.
Proof.
  intros ifc a isid skic i j H. unfold try_rik in H. destruct (open_by_addr a i) as [n|]; [|discriminate]. destruct (nth_error (g_sess i) n) as [p|]; [|discriminate]. destruct (h_role p); [discriminate|]. destruct (_ && _); [|discriminate]. assert (E : j = send_rik n i) by congruence. subst j. apply send_rik_sess.
Qed.
Lemma abort_ss : forall app n i, SS app i (h_abort n i).
Proof.
  intros app n i. unfold h_abort. destruct (nth_error (g_sess i) n) as [p|] eqn:S; [|apply ss_refl]. destruct (state_is CLOSED p); [apply ss_refl|]. rewrite did_close_sess. apply ss_one. cbn [g_set g_put g_sess]. apply (sp_close _ _ _ n p); auto. destruct (h_state p); cbn; lia.
Qed.
Lemma close_ss : forall app n i, SS app i (h_close n i).
Proof.
  intros app n i. unfold h_close. destruct (nth_error (g_sess i) n) as [p|] eqn:S; [|apply ss_refl]. destruct (state_is OPEN p) eqn:O; [|apply ss_refl]. apply state_is_iff in O. rewrite did_close_sess. apply ss_one. cbn [g_set g_put g_sess]. apply (sp_close _ _ _ n p); auto. rewrite O. cbn. lia.
Qed.
Lemma start_ss : forall app n c i, SS app i (start_iik n c i).
Proof. intros app n c i. unfold start_iik. destruct (nth_error (g_sess i) n) as [p|] eqn:S; [|apply ss_refl]. apply ss_one. apply (sp_core _ _ _ n p); [exact S|]. exact (core_refl p). Qed.
Lemma candidate_ss : forall app n b a i, (b = false -> app = true) -> SS app i (add_candidate n b a i).
Proof.
  intros app n b a i B. unfold add_candidate. destruct (nth_error (g_sess i) n) as [p|] eqn:S; [|apply ss_refl]. destruct (negb _ || _ || _) eqn:E; [apply ss_refl|]. apply orb_false_iff in E. destruct E as (E & E3). apply orb_false_iff in E. destruct E as (E1 & E2). apply ss_one. apply sp_cand; [exact S|exact E3|]. destruct b; [right; cbn [andb] in E2; unfold REDIRECT_THRESHOLD in *; lia|left; auto].
Qed.
Lemma redirect_ss : forall app tag addrs i, SS app i (on_redirect tag addrs i).
Proof.
  intros app tag addrs i. unfold on_redirect. destruct (opening_by_tag tag i) as [n|]; [|apply ss_refl]. revert i. induction addrs as [|a r IH]; intros i; cbn [fold_left]; [apply ss_refl|]. eapply ss_trans; [|apply IH]. apply candidate_ss. discriminate.
Qed.
Lemma rhello_sess : forall tag cookie cert ifc a i, g_sess (on_rhello cr tag cookie cert ifc a i) = g_sess i.
Proof.
  intros tag cookie cert ifc a i. unfold on_rhello. destruct (opening_by_tag tag i) as [n|]; [|reflexivity]. destruct (nth_error (g_sess i) n) as [p|]; [|reflexivity]. destruct (_ || _ || _); reflexivity.
Qed.
Lemma bind_ok : forall A B (r : res A) (k : A -> res B) b, rbind r k = Ok b -> exists a, r = Ok a /\ k a = Ok b.
Proof. intros A B r k b H. destruct r as [a| |]; try discriminate. exists a. auto. Qed.
Lemma ihello_sess : forall age epd tag ifc a mode i j, on_ihello cr age epd tag ifc a mode i = Ok j -> g_sess j = g_sess i.
Proof.
  intros age epd tag ifc a mode i j H. unfold on_ihello in H. destruct (mode =? 0); [apply Ok_inj in H; subst; reflexivity|]. destruct (negb _); [apply Ok_inj in H; subst; reflexivity|]. destruct (mode =? 1); cbv zeta in H; apply bind_ok in H; destruct H as (o & _ & H); apply Ok_inj in H; subst j; destruct o; reflexivity.
Qed.
Lemma iikeying_sess : forall age isid cookie cert skic text sig ifc a i j, on_iikeying cr age isid cookie cert skic text sig ifc a i = Ok j -> g_sess j = g_sess i.
Proof.
  intros age isid cookie cert skic text sig ifc a i j H. unfold on_iikeying in H. destruct (g_down i); [apply Ok_inj in H; subst; reflexivity|]. apply bind_ok in H. destruct H as (v & _ & H). destruct v.
  - apply Ok_inj in H; subst; reflexivity.
  - cbv zeta in H; apply bind_ok in H; destruct H as (o & _ & H); apply Ok_inj in H; subst j; destruct o; reflexivity.
  - destruct (negb _); [apply Ok_inj in H; subst; reflexivity|]. destruct (try_rik ifc a isid skic i) eqn:T; [apply Ok_inj in H; subst; apply (try_rik_sess _ _ _ _ _ _ T)|]. destruct (_ >=? _); apply Ok_inj in H; subst; reflexivity.
Qed.
Lemma opt_ok : forall A B (r : res A) (d : B) k b, opt r d k = Ok b -> b = d \/ exists a, r = Ok a /\ k a = Ok b.
Proof. intros A B r d k b H. destruct r as [a| |]; cbn [opt] in H; [right; exists a; auto|left; apply Ok_inj in H; auto|discriminate]. Qed.
Lemma startup_ss : forall app age ifc a cs seen i j, on_startup cr age ifc a seen cs i = Ok j -> SS app i j.
Proof.
  intros app age ifc a cs. induction cs as [|(ty & c) cs IH]; intros seen i j H; cbn [on_startup] in H; [apply Ok_inj in H; subst; apply ss_refl|].
  destruct (ty =? CHUNK_IHELLO); [destruct seen; [apply (IH _ _ _ H)|]|].
  - apply bind_ok in H. destruct H as (i1 & E & H). apply IH in H. apply opt_ok in E. destruct E as [->|((epd & tag) & _ & E)]; [exact H|]. apply ihello_sess in E. rewrite <- E. exact H.
  - destruct (ty =? CHUNK_RHELLO).
    { apply bind_ok in H. destruct H as (i1 & E & H). apply IH in H. apply opt_ok in E. destruct E as [->|(((tag & cookie) & cert) & _ & E)]; [exact H|]. apply Ok_inj in E. subst i1. rewrite rhello_sess in H. exact H. }
    destruct (ty =? CHUNK_REDIRECT).
    { apply bind_ok in H. destruct H as (i1 & E & H). apply IH in H. apply opt_ok in E. destruct E as [->|((tag & addrs) & _ & E)]; [exact H|]. apply Ok_inj in E. subst i1. eapply ss_trans; [apply redirect_ss|exact H]. }
    destruct (ty =? CHUNK_IIKEYING); [|apply (IH _ _ _ H)].
    apply bind_ok in H. destruct H as (i1 & E & H). apply IH in H. apply opt_ok in E. destruct E as [->|((((((isid & cookie) & cert) & skic) & text) & sig) & _ & E)]; [exact H|]. apply iikeying_sess in E. rewrite <- E. exact H.
Qed.
Lemma chunk_ss : forall app age id st fi ty c i j, on_session_chunk cr age id st fi ty c i = Ok j -> SS app i j.
Proof.
  intros app age id st fi ty c i j H. unfold on_session_chunk in H. destruct (by_rx id i) as [n|]; [|apply Ok_inj in H; subst; apply ss_refl]. destruct (nth_error (g_sess i) n) as [p|] eqn:S; [|apply Ok_inj in H; subst; apply ss_refl].
  destruct (state_is KEYING_SENT p) eqn:K.
  - destruct (negb st); [apply Ok_inj in H; subst; apply ss_refl|]. destruct (ty =? CHUNK_RIKEYING); [|destruct (ty =? CHUNK_COOKIE_CHANGE); [|apply Ok_inj in H; subst; apply ss_refl]].
    + apply opt_ok in H. destruct H as [->|((((rsid & skrc) & text) & sig) & _ & E)]; [apply ss_refl|]. apply Ok_inj in E. subst j. unfold on_rikeying. rewrite S. destruct (negb _); apply ss_refl.
    + apply opt_ok in H. destruct H as [->|((old & new) & _ & E)]; [apply ss_refl|]. apply Ok_inj in E. subst j. unfold on_cookie_change. rewrite S. destruct (_ || _ || _); [apply ss_refl|]. apply ss_one. apply (sp_core _ _ _ n p); [exact S|exact (core_refl p)].
  - destruct (_ && _ && _); [|apply Ok_inj in H; subst; apply ss_refl]. apply opt_ok in H. destruct H as [->|(((epd & reply) & tag) & _ & E)]; [apply ss_refl|]. apply ihello_sess in E. rewrite E. apply ss_refl.
Qed.
Lemma do_iik_sess : forall n p cookie skic upd nonce i j, do_iik cr n p cookie skic upd nonce i = Ok j -> g_sess j = g_sess i.
Proof.
  intros n p cookie skic upd nonce i j H. unfold do_iik in H. destruct (h_cert p); [|discriminate]. apply bind_ok in H. destruct H as (o & _ & H). destruct o as [(text & chunk)|]; apply Ok_inj in H; subst; reflexivity.
Qed.
Lemma set_open_ss : forall app n p tx i j, is_ses i n p -> h_state p = KEYING_SENT -> set_open cr n tx i = Ok j -> SS app i j.
Proof.
  intros app n p tx i j S K H. unfold set_open in H. unfold is_ses in S. rewrite S in H. destruct (h_cert p); [|discriminate]. apply Ok_inj in H. subst j. rewrite did_open_sess. apply ss_one. apply (sp_close _ _ _ n p); auto. rewrite K. cbn. lia.
Qed.

(** ** New sessions *)
Lemma set_len : forall A (l : list A) n x, length (set_at l n x) = length l.
Proof. intros A l. induction l as [|y l IH]; intros [|n] x; cbn; auto. Qed.
Lemma sprim_len : forall app l l', sprim cr app l l' -> length l' = length l.
Proof. intros app l l' H. destruct H; apply set_len. Qed.
Lemma sprims_len : forall app l l', sprims cr app l l' -> length l' = length l.
Proof. intros app l l' H. induction H; [reflexivity|]. rewrite (sprim_len _ _ _ H0). exact IHsprims. Qed.
Lemma memcmp_sym : forall a b, memcmp a b = 0 -> memcmp b a = 0.
Proof. induction a as [|x a IH]; intros [|y b] H; cbn in *; auto. destruct (Z.eqb_spec x y) as [->|N]; [rewrite Z.eqb_refl; auto|lia]. Qed.
Lemma memcmp_refl : forall a, memcmp a a = 0.
Proof. induction a as [|x a IH]; cbn; [reflexivity|]. rewrite Z.eqb_refl. exact IH. Qed.
Lemma addr_eq_refl : forall a, addr_eq a a = true.
Proof. intros a. unfold addr_eq. rewrite memcmp_refl, !Z.eqb_refl. reflexivity. Qed.
Lemma addr_eq_sym : forall a b, addr_eq a b = true -> addr_eq b a = true.
Proof.
  intros a b H. unfold addr_eq in *. apply andb_true_iff in H. destruct H as (H & H3). apply andb_true_iff in H. destruct H as (H1 & H2). apply Z.eqb_eq in H1, H2, H3. apply memcmp_sym in H2. rewrite H1, H2, H3, !Z.eqb_refl. reflexivity.
Qed.
Lemma abort_other : forall g i n p, is_ses i n p -> n <> g -> is_ses (h_abort g i) n p.
Proof.
  intros g i n p S N. unfold h_abort. destruct (nth_error (g_sess i) g) as [q|]; [|exact S]. destruct (state_is CLOSED q); [exact S|]. unfold is_ses. rewrite did_close_sess. rewrite set_other by exact N. exact S.
Qed.
Lemma abort_keeps : forall g q i a n, is_ses i g q -> open_by_addr a i = Some n -> open_by_addr (h_addr q) i = Some n -> n <> g -> open_by_addr a (h_abort g i) = Some n.
Proof.
  intros g q i a n S O O' N. unfold h_abort. unfold is_ses in *. rewrite S. destruct (state_is CLOSED q); [exact O|]. unfold h_did_close. rewrite (set_self i g q _ S). cbn [h_with_iik h_with_state h_addr]. unfold open_by_addr at 1. cbn [g_tabs g_addrs g_set g_put].
  change (open_by_addr (h_addr q) (g_set g (h_with_iik None (h_with_state CLOSED q)) i)) with (open_by_addr (h_addr q) i). rewrite O'. cbn [is_n]. destruct (Nat.eqb_spec n g); [contradiction|]. exact O.
Qed.
(** The session a responder makes *)
Definition new_resp (i : hinst) (p : ses) : Prop :=
  exists isid skic skrc cert ifc a id cookie age, p = accepted cr isid skic skrc cert ifc a id /\ g_down i = false /\ try_rik ifc a isid skic i = None
   /\ check_cookie (c_sha cr) (c_secret cr) age cookie a = Ok COOKIE_OK /\ initiator_signed cr cert isid cookie skic /\ c_authentic cr cert = true /\ c_decodes cr cert = true.
Definition new_init (i : hinst) (p : ses) : Prop :=
  exists epd tag id, p = new_initiator id epd tag /\ g_down i = false /\ opening_by_epd cr epd None i = None /\ open_by_epd epd i = None /\ used id i = false /\ 1 <= id <= U32MAX.
Definition is_app (e : hevent) : bool := match e with ECandidate _ _ => true | _ => false end.
Lemma accept_shape : forall app isid skic skrc cert ifc a ch glare i j, accept cr isid skic skrc cert ifc a ch glare i = Ok j -> (glare = None \/ glare = opening_by_addr a i) ->
  g_sess j = g_sess i \/ (let p := accepted cr isid skic skrc cert ifc a (ch_id ch) in sprims cr app (g_sess i ++ [p]) (g_sess j) /\ is_ses j (length (g_sess i)) p /\ open_by_addr a j = Some (length (g_sess i)) /\ used (ch_id ch) i = false).
Proof.
  intros app isid skic skrc cert ifc a ch glare i j H G. destruct (accept_eq cr isid skic skrc cert ifc a ch glare i) as [E|(ID & US & k & K & E)]; rewrite E in H; apply Ok_inj in H; subst j; [left; reflexivity|]. right. cbv zeta. set (p := accepted cr isid skic skrc cert ifc a (ch_id ch)) in *. cbn [perform g_sess]. set (i1 := h_did_open _ _) in *.
  assert (S1 : g_sess i1 = g_sess i ++ [p]) by (unfold i1; rewrite did_open_sess; reflexivity).
  assert (N1 : is_ses i1 (length (g_sess i)) p) by (unfold is_ses; rewrite S1; apply nth_end).
  assert (T1 : g_addrs i1 = tset addr_eq a (length (g_sess i)) (g_addrs i)) by (unfold i1, h_did_open; cbn [g_put g_sess]; rewrite nth_end; reflexivity).
  assert (O1 : open_by_addr a i1 = Some (length (g_sess i))) by (unfold open_by_addr; rewrite T1; unfold tset; cbn [tfind]; rewrite addr_eq_refl; reflexivity).
  change (is_ses (perform (TRIK (length (g_sess i)) skrc skic cert) k) (length (g_sess i)) p) with (is_ses k (length (g_sess i)) p). change (open_by_addr a (perform (TRIK (length (g_sess i)) skrc skic cert) k)) with (open_by_addr a k).
  assert (LT : forall g q, is_ses i g q -> (g < length (g_sess i))%nat) by (intros g q X; apply nth_error_Some; unfold is_ses in X; congruence).
  destruct K as [->|(g & q & GG & NG & ST & ->)]; [split; [rewrite S1; apply ss_refl|auto]|]. pose proof (LT g q NG) as LG. split; [rewrite <- S1; apply abort_ss|]. split; [apply abort_other; [exact N1|lia]|]. split; [|exact US]. 
  apply (abort_keeps g q); [unfold is_ses; rewrite S1, nth_error_app1 by lia; exact NG|exact O1| |lia].
  destruct G as [G|G]; [congruence|]. rewrite G in GG. unfold opening_by_addr in GG. destruct (find_ses_is _ _ _ GG) as (q' & Q & OT). assert (q' = q) as -> by (unfold is_ses in *; congruence). unfold opening_to in OT. rewrite ST in OT.
  unfold open_by_addr. rewrite T1. unfold tset. cbn [tfind]. rewrite (addr_eq_sym _ _ OT). reflexivity.
Qed.
(** ** Steps *)
Inductive shape (app : bool) (i j : hinst) : Prop :=
| sh_same : sprims cr app (g_sess i) (g_sess j) -> shape app i j
| sh_init : forall p, new_init i p -> g_sess j = g_sess i ++ [p] -> g_addrs j = g_addrs i -> shape app i j
| sh_resp : forall mid p, new_resp i p -> sprims cr app (g_sess i) mid -> sprims cr app (mid ++ [p]) (g_sess j) -> is_ses j (length (g_sess i)) p -> open_by_addr (h_addr p) j = Some (length (g_sess i)) -> shape app i j.
Lemma run_shape : forall app t ch i j, task_ok cr i t -> run_task cr t ch i = Ok j -> shape app i j.
Proof.
  intros app t ch i j T H. destruct t as [n cookie cert ifc a|n cookie cert|n o chunk|n|n|n rsid skrc text sig|n rsid|isid skic text sig cert ifc a|isid skic skrc cert ifc a|n skrc skic cert|n chunk]; cbn [run_task] in H.
  - apply sh_same. destruct (nth_error (g_sess i) n) as [p|] eqn:S; [|apply Ok_inj in H; subst; apply ss_refl]. destruct (negb _); [apply Ok_inj in H; subst; apply ss_refl|]. destruct (state_is IHELLO_SENT p) eqn:ST; cbn [negb] in H; [|apply Ok_inj in H; subst; apply ss_refl]. apply state_is_iff in ST. cbv zeta in H.
    destruct (match open_by_epd (c_canonical cr cert) i with Some m => _ | None => None end) as [m|]; [apply Ok_inj in H; subst; rewrite <- (did_open_sess m i) at 1; apply abort_ss|]. destruct (opening_by_epd cr (c_canonical cr cert) (Some n) i) eqn:OB; apply Ok_inj in H; subst j; [apply abort_ss|].
    apply ss_one. cbn [perform g_sess g_set g_put]. apply (sp_key _ _ _ n p _ cert); auto. intros m r c' MN NR SR CR. unfold opening_by_epd in OB. pose proof (find_none _ _ _ OB m r NR) as F. cbn [Nat.add] in F.
    unfold is_opening, state_is in F. rewrite SR, CR in F. cbn [orb andb] in F. destruct (Nat.eqb_spec m n); [contradiction|]. cbn [negb andb] in F. apply orb_false_iff in F. apply F.
  - apply sh_same. destruct (nth_error (g_sess i) n) as [p|] eqn:S; [|apply Ok_inj in H; subst; apply ss_refl]. destruct (ch_comp ch) as [skic|]; [|apply Ok_inj in H; subst; apply ss_refl]. apply do_iik_sess in H. rewrite H. apply ss_one. apply (sp_core _ _ _ n p); [exact S|exact (core_refl p)].
  - apply sh_same. destruct (nth_error (g_sess i) n) as [p|] eqn:S; [|apply Ok_inj in H; subst; apply ss_refl]. apply Ok_inj in H. subst j. destruct o; [|apply start_ss]. eapply ss_trans; [|apply start_ss]. apply ss_one. apply (sp_core _ _ _ n p); [exact S|exact (core_refl p)].
  - apply sh_same. apply Ok_inj in H. subst. apply abort_ss.
  - apply sh_same. destruct (nth_error (g_sess i) n) as [p|] eqn:S; [|apply Ok_inj in H; subst; apply ss_refl]. apply do_iik_sess in H. rewrite H. apply ss_refl.
  - apply sh_same. destruct (nth_error (g_sess i) n) as [p|] eqn:S; [|apply Ok_inj in H; subst; apply ss_refl]. destruct (h_cert p); [|discriminate]. destruct (negb _); [apply Ok_inj in H; subst; apply ss_refl|]. assert (sprims cr app (g_sess i) (set_at (g_sess i) n (h_with_far (skrc :: h_far p) p))) by (apply ss_one; apply (sp_core _ _ _ n p); [exact S|exact (core_refl p)]). destruct (ch_ok ch); apply Ok_inj in H; subst j; exact H0.
  - apply sh_same. destruct (nth_error (g_sess i) n) as [p|] eqn:S; [|apply Ok_inj in H; subst; apply ss_refl]. destruct (state_is KEYING_SENT p) eqn:K; cbn [negb] in H; [apply state_is_iff in K|apply Ok_inj in H; subst; apply ss_refl]. apply (set_open_ss app n p rsid i j S K H).
  - apply sh_same. cbv zeta in H. destruct (negb _); [apply Ok_inj in H; subst; apply ss_refl|]. destruct (negb _); [apply Ok_inj in H; subst; apply ss_refl|]. destruct (ch_comp ch); apply Ok_inj in H; subst; apply ss_refl.
  - destruct (g_down i) eqn:DN; [apply Ok_inj in H; subst; apply sh_same; apply ss_refl|]. destruct (try_rik ifc a isid skic i) as [j2|] eqn:TR; [apply Ok_inj in H; subst; apply sh_same; rewrite (try_rik_sess _ _ _ _ _ _ TR); apply ss_refl|]. cbv zeta in H.
    destruct (match open_by_addr a i with Some m => _ | None => Some None end) as [o|]; [|apply Ok_inj in H; subst; apply sh_same; apply ss_refl].
    set (j2 := match o with Some m => h_abort m i | None => i end) in *. assert (X2 : sprims cr app (g_sess i) (g_sess j2)) by (unfold j2; destruct o; [apply abort_ss|apply ss_refl]).
    assert (AC : forall g, (g = None \/ g = opening_by_addr a j2) -> accept cr isid skic skrc cert ifc a ch g j2 = Ok j -> shape app i j).
    { intros g G A. destruct (accept_shape app _ _ _ _ _ _ _ _ _ _ A G) as [E|(E1 & E2 & E3 & _)]; [apply sh_same; rewrite E; exact X2|]. rewrite (sprims_len _ _ _ X2) in E2, E3. destruct T as (D & AU & SK & SR & cookie & age & CK & IS).
      apply (sh_resp app i j (g_sess j2) (accepted cr isid skic skrc cert ifc a (ch_id ch))); [|exact X2|exact E1|exact E2|exact E3]. exists isid, skic, skrc, cert, ifc, a, (ch_id ch), cookie, age. auto 10. }
    destruct (opening_by_addr a j2) as [g|] eqn:OA; [|apply (AC None); auto]. destruct (c_wins cr cert); [apply Ok_inj in H; subst; apply sh_same; exact X2|]. apply (AC (Some g)); auto.
  - apply sh_same. destruct (nth_error (g_sess i) n) as [p|] eqn:S; [|apply Ok_inj in H; subst; apply ss_refl]. destruct (make_rikeying _ _ _ _) as (text & chunk). apply Ok_inj in H. subst. apply ss_refl.
  - apply sh_same. destruct (nth_error (g_sess i) n) as [p|] eqn:S; [|apply Ok_inj in H; subst; apply ss_refl]. apply Ok_inj in H. subst. rewrite send_rik_sess. apply ss_one. apply (sp_core _ _ _ n p); [exact S|exact (core_refl p)].
Qed.
Lemma try_done : forall ifc a isid skic k i, try_rik ifc a isid skic (g_done k i) = None -> try_rik ifc a isid skic i = None.
Proof.
  intros ifc a isid skic k i H. unfold try_rik in *. change (open_by_addr a (g_done k i)) with (open_by_addr a i) in H. destruct (open_by_addr a i) as [n|]; [|reflexivity]. change (g_sess (g_done k i)) with (g_sess i) in H. destruct (nth_error (g_sess i) n) as [p|]; [|reflexivity]. destruct (h_role p); [reflexivity|]. destruct (_ && _); [discriminate|reflexivity].
Qed.
Lemma step_shape : forall i e j, INV cr i -> hstep cr i e = Ok j -> shape (is_app e) i j.
Proof.
  intros i e j V H. destruct e as [epd tag id|n a|n a|n|n|n| |n ifc a|age ifc a cs|age id st fi ty c|k ch]; cbn [hstep is_app] in *.
  - destruct (g_down i) eqn:DN; [apply Ok_inj in H; subst; apply sh_same; apply ss_refl|]. destruct (open_by_epd epd i) eqn:O1; [apply Ok_inj in H; subst; apply sh_same; apply ss_refl|]. destruct (opening_by_epd cr epd None i) eqn:O2; [apply Ok_inj in H; subst; apply sh_same; apply ss_refl|].
    destruct (used id i) eqn:U; cbn [orb] in H; [apply Ok_inj in H; subst; apply sh_same; apply ss_refl|]. destruct (id <? 1) eqn:U1; cbn [orb] in H; [apply Ok_inj in H; subst; apply sh_same; apply ss_refl|]. destruct (id >? U32MAX) eqn:U2; apply Ok_inj in H; subst; [apply sh_same; apply ss_refl|].
    apply (sh_init _ _ _ (new_initiator id epd tag)); [|reflexivity|reflexivity]. exists epd, tag, id. repeat (split; [solve [auto]|]). lia.
  - apply sh_same. apply Ok_inj in H. subst. apply candidate_ss. reflexivity.
  - apply sh_same. destruct (nth_error (g_sess i) n) as [p|] eqn:S; [|apply Ok_inj in H; subst; apply ss_refl]. destruct (_ && _); [|apply Ok_inj in H; subst; apply ss_refl]. apply bind_ok in H. destruct H as (o & _ & H). apply Ok_inj in H. subst. destruct o; apply ss_refl.
  - apply sh_same. destruct (nth_error (g_sess i) n) as [p|] eqn:S; [|apply Ok_inj in H; subst; apply ss_refl]. destruct (h_iik p); [|apply Ok_inj in H; subst; apply ss_refl]. destruct (state_is KEYING_SENT p); apply Ok_inj in H; subst; [apply ss_refl|]. apply ss_one. apply (sp_core _ _ _ n p); [exact S|exact (core_refl p)].
  - apply sh_same. apply Ok_inj in H. subst. apply abort_ss.
  - apply sh_same. apply Ok_inj in H. subst. apply close_ss.
  - apply sh_same. apply Ok_inj in H. subst. apply ss_refl.
  - apply sh_same. destruct (nth_error (g_sess i) n) as [p|] eqn:S; [|apply Ok_inj in H; subst; apply ss_refl]. destruct (state_is OPEN p); apply Ok_inj in H; subst; [|apply ss_refl]. apply ss_one. apply (sp_core _ _ _ n p); [exact S|exact (core_refl p)].
  - apply sh_same. apply (startup_ss _ _ _ _ _ _ _ _ H).
  - apply sh_same. apply (chunk_ss _ _ _ _ _ _ _ _ _ H).
  - destruct (nth_error (g_tasks i) k) as [t|] eqn:N; [|apply Ok_inj in H; subst; apply sh_same; apply ss_refl].
    assert (T : task_ok cr (g_done k i) t) by (apply (task_ext cr i _ t (done_ext k i)); apply (v_task _ _ V); apply (nth_error_In _ _ N)). destruct (run_shape false t ch _ j T H) as [X|p X Y Z|mid p X Y Z W W']; [apply sh_same; exact X|apply (sh_init _ _ _ p); [exact X|exact Y|exact Z]|]. apply (sh_resp _ _ _ mid p); [|exact Y|exact Z|exact W|exact W'].
    destruct X as (isid & skic & skrc & cert & ifc & a & id & cookie & age & X1 & X2 & X3 & X4). exists isid, skic, skrc, cert, ifc, a, id, cookie, age. split; [exact X1|]. split; [exact X2|]. split; [|exact X4]. apply (try_done _ _ _ _ _ _ X3).
Qed.

(** ** What every list of sessions satisfies *)
Record SINV (canon : Prop) (l : list ses) : Prop := {
  s_asked : forall n m p q, n <> m -> nth_error l n = Some p -> nth_error l m = Some q -> is_opening p = true -> is_opening q = true -> h_asked p <> h_asked q;
  s_key : canon -> forall n m p q c c', n <> m -> nth_error l n = Some p -> nth_error l m = Some q -> h_state p = KEYING_SENT -> h_state q = KEYING_SENT -> h_cert p = Some c -> h_cert q = Some c' -> c_canonical cr c <> c_canonical cr c';
  s_cands : forall n p, nth_error l n = Some p -> distinct_addrs (h_cands p) }.
Lemma at_look : forall (l : list ses) n p q m r, nth_error l n = Some p -> nth_error (set_at l n q) m = Some r -> (m = n /\ r = q) \/ (m <> n /\ nth_error l m = Some r).
Proof.
  intros l. induction l as [|x l IH]; intros [|n] p q [|m] r N H; cbn in *; try discriminate.
  - left. split; [reflexivity|congruence].
  - right. auto.
  - right. auto.
  - destruct (IH n p q m r N H) as [(-> & ->)|(A & B)]; [left; auto|right; auto].
Qed.
Lemma opening_iff : forall p, is_opening p = true <-> h_state p = IHELLO_SENT \/ h_state p = KEYING_SENT.
Proof. intros p. unfold is_opening. rewrite orb_true_iff, !state_is_iff. reflexivity. Qed.
(** A change of one session that opens nothing, asks for nothing else and takes no other certificate *)
Lemma SINV_change : forall canon l n p q, SINV canon l -> nth_error l n = Some p -> (is_opening q = true -> is_opening p = true) -> h_asked q = h_asked p -> distinct_addrs (h_cands q) ->
  (h_state q = KEYING_SENT -> (h_state p = KEYING_SENT /\ h_cert q = h_cert p) \/ exists c, h_cert q = Some c /\ (canon -> forall m r c', m <> n -> nth_error l m = Some r -> h_state r = KEYING_SENT -> h_cert r = Some c' -> c_canonical cr c <> c_canonical cr c')) -> SINV canon (set_at l n q).
Proof.
  intros canon l n p q [A B C] N O E D K. constructor.
  - intros x y u v XY U V OU OV. destruct (at_look _ _ _ _ _ _ N U) as [(-> & ->)|(U1 & U2)], (at_look _ _ _ _ _ _ N V) as [(-> & ->)|(V1 & V2)]; [congruence| | |].
    + rewrite E. apply (A n y p v); auto.
    + rewrite E. apply (A x n u p); auto.
    + apply (A x y u v); auto.
  - intros CN x y u v c c' XY U V KU KV CU CV. destruct (at_look _ _ _ _ _ _ N U) as [(-> & ->)|(U1 & U2)], (at_look _ _ _ _ _ _ N V) as [(-> & ->)|(V1 & V2)]; [congruence| | |].
    + destruct (K KU) as [(K1 & K2)|(c0 & K1 & K2)]; [apply (B CN n y p v); congruence|]. assert (c0 = c) as -> by congruence. apply (K2 CN y v c'); auto.
    + destruct (K KV) as [(K1 & K2)|(c0 & K1 & K2)]; [apply (B CN x n u p); congruence|]. assert (c0 = c') as -> by congruence. intros Y. apply (K2 CN x u c); auto.
    + apply (B CN x y u v); auto.
  - intros x u U. destruct (at_look _ _ _ _ _ _ N U) as [(-> & ->)|(U1 & U2)]; [exact D|apply (C x u U2)].
Qed.
Definition canonical_selected : Prop := forall c, c_selected cr c (c_canonical cr c) = true.
Lemma SINV_prim : forall app l l', SINV canonical_selected l -> sprim cr app l l' -> SINV canonical_selected l'.
Proof.
  intros app l l' V H. destruct H as [l n p q N C|l n p q N O R E1 E2 E3 E4|l n p a N EX _|l n p q c N S1 S2 CE E1 E2 E3 E4 E5 K].
  - destruct C as (C1 & C2 & C3 & C4 & C5 & C6 & C7). apply (SINV_change _ l n p q V N); auto.
    + unfold is_opening, state_is. rewrite C1. auto.
    + rewrite C7. apply (s_cands _ _ V n p N).
    + intros Y. left. split; congruence.
  - apply (SINV_change _ l n p q V N); auto; [congruence|rewrite E4; apply (s_cands _ _ V n p N)|]. intros Y. assert (is_opening q = true) by (apply opening_iff; auto). congruence.
  - apply (SINV_change _ l n p _ V N); auto. cbn [h_with_cands h_cands distinct_addrs]. split; [|apply (s_cands _ _ V n p N)]. intros b IN. destruct (addr_eq a b) eqn:AE; [|reflexivity]. exfalso. assert (existsb (addr_eq a) (h_cands p) = true) by (apply existsb_exists; exists b; auto). congruence.
  - apply (SINV_change _ l n p q V N); auto.
    + intros _. apply opening_iff. auto.
    + rewrite E5. apply (s_cands _ _ V n p N).
    + intros _. right. exists c. split; [exact CE|]. intros CN m r c' MN NR SR CR Y. specialize (K m r c' MN NR SR CR). rewrite Y, CN in K. discriminate.
Qed.
Lemma SINV_prims : forall app l l', sprims cr app l l' -> SINV canonical_selected l -> SINV canonical_selected l'.
Proof. intros app l l' H. induction H; intros V; [exact V|]. apply (SINV_prim _ _ _ (IHsprims V) H0). Qed.
Lemma app_look : forall (l : list ses) p n q, nth_error (l ++ [p]) n = Some q -> (n = length l /\ q = p) \/ ((n < length l)%nat /\ nth_error l n = Some q).
Proof.
  intros l p n q H. destruct (Nat.lt_ge_cases n (length l)) as [L|L]; [right; rewrite nth_error_app1 in H by exact L; auto|]. left. rewrite nth_error_app2 in H by exact L. destruct (n - length l)%nat as [|d] eqn:D; cbn in H; [split; [lia|congruence]|destruct d; discriminate].
Qed.
Lemma SINV_add : forall canon l p, SINV canon l -> distinct_addrs (h_cands p) -> h_state p <> KEYING_SENT -> (is_opening p = true -> forall n q, nth_error l n = Some q -> is_opening q = true -> h_asked q <> h_asked p) -> SINV canon (l ++ [p]).
Proof.
  intros canon l p [A B C] D K O. constructor.
  - intros x y u v XY U V OU OV. destruct (app_look _ _ _ _ U) as [(-> & ->)|(U1 & U2)], (app_look _ _ _ _ V) as [(-> & ->)|(V1 & V2)]; [congruence| | |].
    + intros Y. apply (O OU y v V2 OV). auto.
    + apply (O OV x u U2 OU).
    + apply (A x y u v); auto.
  - intros CN x y u v c c' XY U V KU KV CU CV. destruct (app_look _ _ _ _ U) as [(-> & ->)|(U1 & U2)], (app_look _ _ _ _ V) as [(-> & ->)|(V1 & V2)]; try congruence. apply (B CN x y u v); auto.
  - intros x u U. destruct (app_look _ _ _ _ U) as [(-> & ->)|(U1 & U2)]; [exact D|apply (C x u U2)].
Qed.
Lemma opening_epd : forall i n p, INV cr i -> is_ses i n p -> is_opening p = true -> h_epd p = h_asked p.
Proof.
  intros i n p V S O. apply opening_iff in O. destruct (ihello_role cr i n p V S O) as (R & H). destruct O as [O|O]; [apply (io_hello _ _ H O)|apply (io_keying _ _ H O)].
Qed.
Lemma SINV_step : forall i e j, INV cr i -> SINV canonical_selected (g_sess i) -> hstep cr i e = Ok j -> SINV canonical_selected (g_sess j).
Proof.
  intros i e j V S H. destruct (step_shape i e j V H) as [X|p NI E _|mid p NR X Y IS _].
  - apply (SINV_prims _ _ _ X S).
  - rewrite E. destruct NI as (epd & tag & id & -> & _ & OB & _). apply SINV_add; [exact S|exact Logic.I|discriminate|]. intros _ n q N O. cbn [new_initiator h_asked]. unfold opening_by_epd in OB. pose proof (find_none _ _ _ OB n q N) as F. cbv beta in F. rewrite O in F. cbn [andb] in F. apply orb_false_iff in F. destruct F as (F & _). rewrite <- (opening_epd i n q V N O). intros Z. apply eq_bytes_iff in Z. congruence.
  - apply (SINV_prims _ _ _ Y). destruct NR as (isid & skic & skrc & cert & ifc & a & id & cookie & age & -> & _). apply SINV_add; [apply (SINV_prims _ _ _ X S)|exact Logic.I|discriminate|]. intros Z. discriminate.
Qed.
Lemma run_both : forall l i j, cryp_ok cr -> Forall hevent_ok l -> INV cr i -> SINV canonical_selected (g_sess i) -> hrun cr i l = Ok j -> INV cr j /\ SINV canonical_selected (g_sess j).
Proof.
  induction l as [|e l IH]; intros i j C F V S H; cbn [hrun] in H; [apply Ok_inj in H; subst; auto|]. inversion F; subst. apply bind_ok in H. destruct H as (i1 & E & H). destruct (step_good cr i e C V H2) as (j1 & E1 & V1 & _). assert (j1 = i1) as -> by congruence. apply (IH i1 j C H3 V1 (SINV_step i e i1 V S E) H).
Qed.
Lemma SINV_start : SINV canonical_selected [].
Proof. constructor; intros; destruct n; discriminate. Qed.

(** ** Steps seen from one session *)
Definition keeps (app : bool) (p q : ses) : Prop := rank (h_state p) <= rank (h_state q) /\ h_role q = h_role p /\ h_rx q = h_rx p /\ h_asked q = h_asked p /\ (app = false -> zlen (h_cands q) <= Z.max (zlen (h_cands p)) REDIRECT_THRESHOLD).
Lemma keeps_refl : forall app p, keeps app p p.
Proof. intros. unfold keeps. repeat (split; [lia || reflexivity|]). intros. lia. Qed.
Lemma keeps_trans : forall app p q r, keeps app p q -> keeps app q r -> keeps app p r.
Proof. intros app p q r (A1 & A2 & A3 & A4 & A5) (B1 & B2 & B3 & B4 & B5). unfold keeps. split; [lia|]. split; [congruence|]. split; [congruence|]. split; [congruence|]. intros Y. specialize (A5 Y). specialize (B5 Y). lia. Qed.
Lemma prim_keeps : forall app l l' n p, sprim cr app l l' -> nth_error l n = Some p -> exists q, nth_error l' n = Some q /\ keeps app p q.
Proof.
  intros app l l' n p H N. assert (G : forall m r s, nth_error l m = Some r -> keeps app r s -> exists q, nth_error (set_at l m s) n = Some q /\ keeps app p q).
  { intros m r s M K. destruct (nth_error (set_at l m s) n) as [q|] eqn:Q.
    - exists q. split; [reflexivity|]. destruct (at_look _ _ _ _ _ _ M Q) as [(-> & ->)|(A & B)]; [replace p with r by congruence; exact K|replace q with p by congruence; apply keeps_refl].
    - apply nth_error_None in Q. rewrite set_len in Q. apply nth_error_None in Q. congruence. }
  destruct H as [l m r q M C|l m r q M O R E1 E2 E3 E4|l m r a M EX A|l m r q c M S1 S2 CE E1 E2 E3 E4 E5 K]; apply (G m r _ M).
  - destruct C as (C1 & C2 & C3 & C4 & C5 & C6 & C7). unfold keeps. rewrite C1, C7. repeat (split; [lia || assumption|]). intros. lia.
  - unfold keeps. rewrite E4. repeat (split; [lia || assumption|]). intros. lia.
  - unfold keeps. cbn. repeat (split; [lia || reflexivity|]). intros Y. destruct A as [A|A]; [congruence|]. unfold zlen in *. cbn [length]. unfold REDIRECT_THRESHOLD in *. lia.
  - unfold keeps. rewrite S1, S2, E5. cbn. repeat (split; [lia || assumption|]). intros. lia.
Qed.
Lemma prims_keeps : forall app l l', sprims cr app l l' -> forall n p, nth_error l n = Some p -> exists q, nth_error l' n = Some q /\ keeps app p q.
Proof.
  intros app l l' H. induction H; intros n p N; [exists p; split; [exact N|apply keeps_refl]|]. destruct (IHsprims n p N) as (q & Q & K). destruct (prim_keeps _ _ _ n q H0 Q) as (r & R & K2). exists r. split; [exact R|eapply keeps_trans; eauto].
Qed.
Lemma step_keeps : forall i e j n p, INV cr i -> hstep cr i e = Ok j -> is_ses i n p -> exists q, is_ses j n q /\ keeps (is_app e) p q.
Proof.
  intros i e j n p V H S. assert (L : (n < length (g_sess i))%nat) by (apply nth_error_Some; unfold is_ses in S; congruence). destruct (step_shape i e j V H) as [X|p' NI E _|mid p' NR X Y IS _].
  - apply (prims_keeps _ _ _ X n p S).
  - exists p. split; [unfold is_ses; rewrite E, nth_error_app1 by exact L; exact S|apply keeps_refl].
  - destruct (prims_keeps _ _ _ X n p S) as (q & Q & K). assert (Q' : nth_error (mid ++ [p']) n = Some q) by (rewrite nth_error_app1; [exact Q|rewrite (sprims_len _ _ _ X); exact L]). destruct (prims_keeps _ _ _ Y n q Q') as (r & R & K2). exists r. split; [exact R|eapply keeps_trans; eauto].
Qed.
(** ** New sessions of a step *)
Lemma step_new : forall i e j n p, INV cr i -> hstep cr i e = Ok j -> nth_error (g_sess i) n = None -> is_ses j n p -> n = length (g_sess i) /\ (new_init i p \/ (new_resp i p /\ open_by_addr (h_addr p) j = Some n)).
Proof.
  intros i e j n p V H N S. apply nth_error_None in N. assert (LJ : (n < length (g_sess j))%nat) by (apply nth_error_Some; unfold is_ses in S; congruence). destruct (step_shape i e j V H) as [X|p' NI E _|mid p' NR X Y IS O].
  - rewrite (sprims_len _ _ _ X) in LJ. lia.
  - unfold is_ses in S. rewrite E in S. destruct (app_look _ _ _ _ S) as [(-> & ->)|(A & B)]; [auto|lia].
  - rewrite (sprims_len _ _ _ Y), app_length, (sprims_len _ _ _ X) in LJ. cbn [length] in LJ. assert (n = length (g_sess i)) as -> by lia. split; [reflexivity|]. assert (p = p') as -> by (unfold is_ses in *; congruence). right. auto.
Qed.
End Parts.
