From Verif Require Import Base BaseFacts VLU VLUSpec VLUProofs Address AddressSpec AddressProofs FlashCert FlashCertProofs Cookie CookieProofs Packet PacketSpec PacketProofs Startup StartupSpec StartupProofs Mobility MobilityProofs Handshake HandshakeSpec.
Ltac Zify.zify_post_hook ::= Z.div_mod_to_equations.
Open Scope res_scope.

Definition has_cert (cr : cryp) (p : ses) (c : list Z) : Prop := h_cert p = Some c /\ c_authentic cr c = true /\ c_decodes cr c = true /\ c_selected cr c (h_asked p) = true.
Definition own_or_none (p : ses) (k : list Z) : Prop := k = [] \/ h_own p = Some k.
Definition rik_made (cr : cryp) (i : hinst) (p : ses) (chunk : list Z) : Prop :=
  exists skrc t c nonce, h_far p = [skrc] /\ h_cert p = Some c /\ ri_signed_wire (h_rx p) skrc t
    /\ chunk = chunk_bytes CHUNK_RIKEYING (t ++ c_sign cr c (t ++ h_skic p) nonce) /\ In (HSigned c (t ++ h_skic p)) (g_out i).
Record init_ok (cr : cryp) (p : ses) : Prop := {
  io_tag : sized (h_tag p); io_asked : sized (h_asked p); io_cookie : sized (h_cookie p);
  io_skic : own_or_none p (h_skic p); io_own : forall k, h_own p = Some k -> sized k; io_rik : h_rik p = [];
  io_hello : h_state p = IHELLO_SENT -> h_epd p = h_asked p /\ h_cert p = None /\ h_own p = None /\ h_skic p = [] /\ h_far p = [];
  io_keying : h_state p = KEYING_SENT -> h_epd p = h_asked p /\ exists c, has_cert cr p c;
  io_cert : h_cert p <> None -> exists c, has_cert cr p c;
  io_open : opened p -> exists c, has_cert cr p c /\ h_epd p = c_canonical cr c /\ exists k skrc, responder_signed cr c (h_tx p) skrc k /\ own_or_none p k /\ In skrc (h_far p) }.
Record resp_ok (cr : cryp) (i : hinst) (p : ses) : Prop := {
  ro_state : h_state p <> IHELLO_SENT /\ h_state p <> KEYING_SENT; ro_own : h_own p = None; ro_skic : sized (h_skic p);
  ro_rik : h_rik p = [] \/ rik_made cr i p (h_rik p);
  ro_open : exists c skrc, h_cert p = Some c /\ c_authentic cr c = true /\ c_decodes cr c = true /\ h_far p = [skrc] /\ sized skrc /\ h_epd p = c_canonical cr c
    /\ exists cookie age a, check_cookie (c_sha cr) (c_secret cr) age cookie a = Ok COOKIE_OK /\ initiator_signed cr c (h_tx p) cookie (h_skic p) }.
Definition ses_ok (cr : cryp) (i : hinst) (p : ses) : Prop := is_u32 (h_rx p) /\ match h_role p with INITIATOR => init_ok cr p | RESPONDER => resp_ok cr i p end.

(** How sessions change *)
Record ev (p q : ses) : Prop := {
  e_role : h_role q = h_role p; e_rx : h_rx q = h_rx p; e_asked : h_asked q = h_asked p; e_tag : h_tag q = h_tag p;
  e_cert : h_cert p = None \/ h_cert q = h_cert p; e_own : h_own p = None \/ h_own q = h_own p;
  e_far : exists l, h_far q = l ++ h_far p;
  e_resp : h_role p = RESPONDER -> h_skic q = h_skic p /\ h_far q = h_far p /\ h_tx q = h_tx p /\ h_own q = h_own p;
  e_state : h_state q = IHELLO_SENT -> h_state p = IHELLO_SENT }.
Lemma ev_refl : forall p, ev p p.
Proof. intros p. constructor; auto. exists []. reflexivity. Qed.
Lemma ev_trans : forall p q r, ev p q -> ev q r -> ev p r.
Proof.
  intros p q r A B. constructor.
  - rewrite (e_role _ _ B). apply A.
  - rewrite (e_rx _ _ B). apply A.
  - rewrite (e_asked _ _ B). apply A.
  - rewrite (e_tag _ _ B). apply A.
  - destruct (e_cert _ _ A) as [X|X]; [auto|]. destruct (e_cert _ _ B) as [Y|Y]; [left; congruence|right; congruence].
  - destruct (e_own _ _ A) as [X|X]; [auto|]. destruct (e_own _ _ B) as [Y|Y]; [left; congruence|right; congruence].
  - destruct (e_far _ _ A) as (l & X), (e_far _ _ B) as (m & Y). exists (m ++ l). rewrite Y, X. apply app_assoc.
  - intros R. destruct (e_resp _ _ A R) as (X1 & X2 & X3 & X4). assert (R' : h_role q = RESPONDER) by (rewrite (e_role _ _ A); exact R). destruct (e_resp _ _ B R') as (Y1 & Y2 & Y3 & Y4). split; [congruence|]. split; [congruence|]. split; congruence.
  - intros H. apply (e_state _ _ A). apply (e_state _ _ B). exact H.
Qed.
Definition ext (i j : hinst) : Prop := (forall n p, is_ses i n p -> exists q, is_ses j n q /\ ev p q) /\ (forall o, In o (g_out i) -> In o (g_out j)).
Lemma ext_refl : forall i, ext i i.
Proof. intros i. split; [intros n p H; exists p; split; [exact H|apply ev_refl]|auto]. Qed.
Lemma ext_trans : forall i j k, ext i j -> ext j k -> ext i k.
Proof. intros i j k (A1 & A2) (B1 & B2). split; [|auto]. intros n p H. destruct (A1 n p H) as (q & Q & E). destruct (B1 n q Q) as (r & R & F). exists r. split; [exact R|eapply ev_trans; eauto]. Qed.

(** What is known of a pending task *)
Definition task_ok (cr : cryp) (i : hinst) (t : task) : Prop :=
  match t with
  | TRHello n cookie cert ifc a => exists p, is_ses i n p /\ h_role p = INITIATOR /\ c_decodes cr cert = true /\ c_selected cr cert (h_asked p) = true /\ sized cookie
  | TSkic n cookie cert => exists p, is_ses i n p /\ h_role p = INITIATOR /\ h_cert p = Some cert /\ h_state p <> IHELLO_SENT /\ sized cookie
  | TStart n o chunk => exists p, is_ses i n p /\ h_role p = INITIATOR /\ h_state p <> IHELLO_SENT /\ forall k, o = Some k -> h_own p = Some k
  | TAbort n => True
  | TCookie n => exists p, is_ses i n p /\ h_role p = INITIATOR /\ h_cert p <> None /\ h_state p <> IHELLO_SENT
  | TRI n rsid skrc text sig => exists p, is_ses i n p /\ h_role p = INITIATOR /\ h_cert p <> None /\ h_state p <> IHELLO_SENT /\ exists t k, text = t ++ k /\ ri_signed_wire rsid skrc t /\ own_or_none p k
  | TOpen n rsid => exists p, is_ses i n p /\ h_role p = INITIATOR /\ exists c, h_cert p = Some c /\ exists k skrc, responder_signed cr c rsid skrc k /\ own_or_none p k /\ In skrc (h_far p)
  | TII isid skic text sig cert ifc a => c_decodes cr cert = true /\ sized skic /\ exists cookie age, check_cookie (c_sha cr) (c_secret cr) age cookie a = Ok COOKIE_OK /\ ii_signed_wire isid cookie cert skic text
  | TIIRun isid skic skrc cert ifc a => c_decodes cr cert = true /\ c_authentic cr cert = true /\ sized skic /\ sized skrc
      /\ exists cookie age, check_cookie (c_sha cr) (c_secret cr) age cookie a = Ok COOKIE_OK /\ initiator_signed cr cert isid cookie skic
  | TRIK n skrc skic cert => exists p, is_ses i n p /\ h_role p = RESPONDER /\ h_cert p = Some cert /\ h_far p = [skrc] /\ h_skic p = skic
  | TRIKSet n chunk => exists p, is_ses i n p /\ h_role p = RESPONDER /\ rik_made cr i p chunk
  end.
Definition log_ok (cr : cryp) (i : hinst) (o : hout) : Prop :=
  match o with HSigned c text => exists n p, is_ses i n p /\ (ii_signing cr p c text \/ ri_signing p c text) | _ => True end.
Definition skic_of (n : nat) (t : task) : bool := match t with TSkic m _ _ => (m =? n)%nat | _ => false end.
Record INV (cr : cryp) (i : hinst) : Prop := {
  v_ses : forall n p, is_ses i n p -> ses_ok cr i p;
  v_task : forall t, In t (g_tasks i) -> task_ok cr i t;
  v_log : forall o, In o (g_out i) -> log_ok cr i o;
  v_skic : forall n p, is_ses i n p -> count (skic_of n) (g_tasks i) <= 1 /\ (h_state p = IHELLO_SENT -> count (skic_of n) (g_tasks i) = 0) /\ (count (skic_of n) (g_tasks i) = 1 -> h_own p = None /\ h_skic p = []);
  v_noses : forall n, nth_error (g_sess i) n = None -> count (skic_of n) (g_tasks i) = 0;
  v_wait : g_waiting i = count is_tii (g_tasks i) /\ g_waiting i <= MAX_WAITING }.

Lemma own_ev : forall p q k, ev p q -> own_or_none p k -> own_or_none q k.
Proof. intros p q k E [->|H]; [left; reflexivity|right]. destruct (e_own _ _ E) as [X|X]; congruence. Qed.
Lemma far_ev : forall p q x, ev p q -> In x (h_far p) -> In x (h_far q).
Proof. intros p q x E H. destruct (e_far _ _ E) as (l & ->). apply in_or_app. auto. Qed.
Lemma cert_ev : forall p q c, ev p q -> h_cert p = Some c -> h_cert q = Some c.
Proof. intros p q c E H. destruct (e_cert _ _ E); congruence. Qed.
Lemma certn_ev : forall p q, ev p q -> h_cert p <> None -> h_cert q <> None.
Proof. intros p q E H. destruct (e_cert _ _ E); congruence. Qed.
Lemma rik_ev : forall cr i j p q chunk, ext i j -> ev p q -> h_role p = RESPONDER -> rik_made cr i p chunk -> rik_made cr j q chunk.
Proof.
  intros cr i j p q chunk (_ & L) E R (skrc & t & c & nonce & F & C & W & -> & I). destruct (e_resp _ _ E R) as (K & F' & _). exists skrc, t, c, nonce. rewrite (e_rx _ _ E), K, F'. split; [exact F|]. split; [apply (cert_ev p q c E C)|]. split; [exact W|]. split; [reflexivity|auto].
Qed.
Lemma task_ext : forall cr i j t, ext i j -> task_ok cr i t -> task_ok cr j t.
Proof.
  intros cr i j t X H. pose proof X as (X1 & X2). destruct t; cbn [task_ok] in *; auto;
    try (destruct H as (p & S & H); destruct (X1 _ _ S) as (q & Q & E); exists q; split; [exact Q|]).
  - destruct H as (R & D & L & C). rewrite (e_role _ _ E), (e_asked _ _ E). auto.
  - destruct H as (R & C & ST & SZ). rewrite (e_role _ _ E). split; [exact R|]. split; [apply (cert_ev p q cert E C)|]. split; [|exact SZ]. intros Y. apply ST. apply (e_state _ _ E Y).
  - destruct H as (R & ST & K). rewrite (e_role _ _ E). split; [exact R|]. split; [intros Y; apply ST; apply (e_state _ _ E Y)|]. intros k EK. specialize (K k EK). destruct (e_own _ _ E); congruence.
  - destruct H as (R & C & ST). rewrite (e_role _ _ E). split; [exact R|]. split; [apply (certn_ev p q E C)|]. intros Y. apply ST. apply (e_state _ _ E Y).
  - destruct H as (R & C & ST & t & k & -> & W & K). rewrite (e_role _ _ E). split; [exact R|]. split; [apply (certn_ev p q E C)|]. split; [intros Y; apply ST; apply (e_state _ _ E Y)|]. exists t, k. split; [reflexivity|]. split; [exact W|]. apply (own_ev p q k E K).
  - destruct H as (R & c & C & k & skrc & S1 & K & F). rewrite (e_role _ _ E). split; [exact R|]. exists c. split; [apply (cert_ev p q c E C)|]. exists k, skrc. split; [exact S1|]. split; [apply (own_ev p q k E K)|apply (far_ev p q skrc E F)].
  - destruct H as (R & C & F & K). destruct (e_resp _ _ E R) as (K' & F' & _). rewrite (e_role _ _ E). split; [exact R|]. split; [apply (cert_ev p q cert E C)|]. split; congruence.
  - destruct H as (R & M). rewrite (e_role _ _ E). split; [exact R|]. apply (rik_ev cr i j p q chunk X E R M).
Qed.
Lemma log_ext : forall cr i j o, ext i j -> log_ok cr i o -> log_ok cr j o.
Proof.
  intros cr i j o X H. destruct o; cbn [log_ok] in *; auto. destruct H as (n & p & S & H). destruct (proj1 X _ _ S) as (q & Q & E). exists n, q. split; [exact Q|]. destruct H as [(R & C & cookie & k & W & K)|(R & C & skrc & t & F & W & ->)].
  - left. split; [rewrite (e_role _ _ E); exact R|]. split; [apply (cert_ev p q _ E C)|]. exists cookie, k. rewrite (e_rx _ _ E). split; [exact W|]. apply (own_ev p q k E K).
  - right. destruct (e_resp _ _ E R) as (K' & F' & _). split; [rewrite (e_role _ _ E); exact R|]. split; [apply (cert_ev p q _ E C)|]. exists skrc, t. rewrite (e_rx _ _ E), K'. split; [congruence|auto].
Qed.
Lemma ses_ext : forall cr i j p, ext i j -> ses_ok cr i p -> ses_ok cr j p.
Proof.
  intros cr i j p X (U & H). split; [exact U|]. destruct (h_role p) eqn:R; [exact H|]. destruct H as [H1 H2 H3 H4 H5]. constructor; auto. destruct H4 as [H4|H4]; [auto|right]. apply (rik_ev cr i j p p _ X (ev_refl p) R H4).
Qed.

(** ** Primitive changes *)
Lemma count_app : forall f a b, count f (a ++ b) = count f a + count f b.
Proof. induction a as [|t a IH]; intros b; cbn [app count]; [lia|]. rewrite IH. lia. Qed.
Lemma count_nonneg : forall f l, 0 <= count f l.
Proof. induction l as [|t l IH]; cbn [count]; [lia|]. destruct (f t); lia. Qed.
Lemma set_look : forall i n p q m r, is_ses i n p -> is_ses (g_set n q i) m r -> (m = n /\ r = q) \/ (m <> n /\ is_ses i m r).
Proof.
  unfold is_ses. intros i n p q m r H R. cbn [g_set g_put g_sess] in R. destruct (Nat.eq_dec m n) as [->|N]; [left|right; rewrite set_at_other in R by exact N; auto]. rewrite set_at_same in R by (apply nth_error_Some; congruence). split; [reflexivity|congruence].
Qed.
Lemma set_self : forall i n p q, is_ses i n p -> is_ses (g_set n q i) n q.
Proof. unfold is_ses. intros. cbn [g_set g_put g_sess]. apply set_at_same. apply nth_error_Some. congruence. Qed.
Lemma set_other : forall i n q m, m <> n -> nth_error (g_sess (g_set n q i)) m = nth_error (g_sess i) m.
Proof. intros. cbn [g_set g_put g_sess]. apply set_at_other. assumption. Qed.
Lemma set_ext : forall i n p q, is_ses i n p -> ev p q -> ext i (g_set n q i).
Proof.
  intros i n p q S E. split; [|auto]. intros m r R. destruct (Nat.eq_dec m n) as [->|N]; [|exists r; split; [unfold is_ses; rewrite set_other by exact N; exact R|apply ev_refl]]. replace r with p by (unfold is_ses in *; congruence). exists q. split; [apply (set_self i n p q S)|exact E].
Qed.
Lemma INV_set : forall cr i n p q, INV cr i -> is_ses i n p -> ev p q -> ses_ok cr i q ->
  (count (skic_of n) (g_tasks i) = 0 \/ h_own q = h_own p /\ h_skic q = h_skic p) -> INV cr (g_set n q i) /\ ext i (g_set n q i).
Proof.
  intros cr i n p q V S E Q K. pose proof (set_ext i n p q S E) as X. split; [|exact X]. constructor.
  - intros m r R. apply (ses_ext cr i _ r X). destruct (set_look i n p q m r S R) as [(-> & ->)|(N & R')]; [exact Q|apply (v_ses _ _ V m r R')].
  - intros t T. apply (task_ext cr i _ t X). apply (v_task _ _ V t T).
  - intros o O. apply (log_ext cr i _ o X). apply (v_log _ _ V o O).
  - intros m r R. change (g_tasks (g_set n q i)) with (g_tasks i). destruct (set_look i n p q m r S R) as [(-> & ->)|(N & R')]; [|apply (v_skic _ _ V m r R')].
    destruct (v_skic _ _ V n p S) as (A & B & C). split; [exact A|]. split; [intros Y; apply B; apply (e_state _ _ E Y)|]. intros Y. destruct K as [K|(K1 & K2)]; [lia|]. rewrite K1, K2. apply C. exact Y.
  - intros m R. change (g_tasks (g_set n q i)) with (g_tasks i). apply (v_noses _ _ V m). apply nth_error_None. apply nth_error_None in R. cbn [g_set g_put g_sess] in R. rewrite set_at_length in R. exact R.
  - exact (v_wait _ _ V).
Qed.
Lemma INV_tabs : forall cr i ta te, INV cr i -> INV cr (g_tabs ta te i) /\ ext i (g_tabs ta te i).
Proof.
  intros cr i ta te V. assert (X : ext i (g_tabs ta te i)) by (split; [intros n p H; exists p; split; [exact H|apply ev_refl]|auto]). split; [|exact X]. destruct V as [V1 V2 V3 V4 V5 V6]. constructor.
  - intros n p H. apply (ses_ext cr i _ p X). apply (V1 n p H).
  - intros t T. apply (task_ext cr i _ t X). apply V2. exact T.
  - intros o O. apply (log_ext cr i _ o X). apply V3. exact O.
  - exact V4.
  - exact V5.
  - exact V6.
Qed.
Lemma INV_stop : forall cr i, INV cr i -> INV cr (g_stop i) /\ ext i (g_stop i).
Proof.
  intros cr i V. assert (X : ext i (g_stop i)) by (split; [intros n p H; exists p; split; [exact H|apply ev_refl]|auto]). split; [|exact X]. destruct V as [V1 V2 V3 V4 V5 V6]. constructor.
  - intros n p H. apply (ses_ext cr i _ p X). apply (V1 n p H).
  - intros t T. apply (task_ext cr i _ t X). apply V2. exact T.
  - intros o O. apply (log_ext cr i _ o X). apply V3. exact O.
  - exact V4.
  - exact V5.
  - exact V6.
Qed.
Lemma say_ext : forall o i, ext i (say o i).
Proof. intros o i. split; [intros n p H; exists p; split; [exact H|apply ev_refl]|]. intros x X. cbn [say g_out]. apply in_or_app. auto. Qed.
Lemma INV_say : forall cr i o, INV cr i -> log_ok cr i o -> INV cr (say o i) /\ ext i (say o i).
Proof.
  intros cr i o V L. pose proof (say_ext o i) as X. split; [|exact X]. destruct V as [V1 V2 V3 V4 V5 V6]. constructor.
  - intros n p H. apply (ses_ext cr i _ p X). apply (V1 n p H).
  - intros t T. apply (task_ext cr i _ t X). apply V2. exact T.
  - intros x XO. apply (log_ext cr i _ x X). cbn [say g_out] in XO. apply in_app_or in XO. destruct XO as [XO|[<-|[]]]; auto.
  - exact V4.
  - exact V5.
  - exact V6.
Qed.
Lemma perform_ext : forall t i, ext i (perform t i).
Proof. intros t i. split; [intros n p H; exists p; split; [exact H|apply ev_refl]|auto]. Qed.
Lemma INV_perform : forall cr i t, INV cr i -> task_ok cr i t -> is_tii t = false ->
  (forall n cookie cert, t = TSkic n cookie cert -> exists p, is_ses i n p /\ count (skic_of n) (g_tasks i) = 0 /\ h_own p = None /\ h_skic p = [] /\ h_state p <> IHELLO_SENT) -> INV cr (perform t i) /\ ext i (perform t i).
Proof.
  intros cr i t V T NT K. pose proof (perform_ext t i) as X. split; [|exact X]. destruct V as [V1 V2 V3 V4 V5 V6]. constructor.
  - intros n p H. apply (ses_ext cr i _ p X). apply (V1 n p H).
  - intros u U. apply (task_ext cr i _ u X). cbn [perform g_tasks] in U. apply in_app_or in U. destruct U as [U|[<-|[]]]; auto.
  - intros o O. apply (log_ext cr i _ o X). auto.
  - intros n p S. cbn [perform g_tasks]. rewrite count_app. cbn [count]. change (is_ses i n p) in S. destruct (V4 n p S) as (A & B & C). destruct (skic_of n t) eqn:SK; [|rewrite !Z.add_0_r; auto].
    destruct t; cbn [skic_of] in SK; try discriminate. apply Nat.eqb_eq in SK. subst n0. destruct (K n cookie cert eq_refl) as (q & Q & Z0 & O1 & O2 & O3). replace q with p in * by (unfold is_ses in *; congruence). rewrite Z0. split; [lia|]. split; [contradiction|auto].
  - intros n N. cbn [perform g_tasks]. rewrite count_app. cbn [count]. rewrite (V5 n N). destruct (skic_of n t) eqn:SK; [|reflexivity]. destruct t; cbn [skic_of] in SK; try discriminate. apply Nat.eqb_eq in SK. subst n0. destruct (K n cookie cert eq_refl) as (q & Q & _). unfold is_ses in Q. cbn [perform g_sess] in N. congruence.
  - cbn [perform g_tasks g_waiting]. rewrite count_app. cbn [count]. rewrite NT. destruct V6 as (W1 & W2). split; [lia|exact W2].
Qed.
Lemma INV_perform' : forall cr i t, INV cr i -> task_ok cr i t -> is_tii t = false -> (forall n, skic_of n t = false) -> INV cr (perform t i) /\ ext i (perform t i).
Proof. intros cr i t V T NT K. apply INV_perform; auto. intros n cookie cert ->. specialize (K n). cbn [skic_of] in K. rewrite Nat.eqb_refl in K. discriminate. Qed.
(** A new session at the end *)
Lemma INV_append : forall cr i p, INV cr i -> ses_ok cr i p -> INV cr (g_put (g_sess i ++ [p]) i) /\ ext i (g_put (g_sess i ++ [p]) i).
Proof.
  intros cr i p V P. assert (X : ext i (g_put (g_sess i ++ [p]) i)). { split; [|auto]. intros n q Q. exists q. split; [|apply ev_refl]. unfold is_ses in *. cbn [g_put g_sess]. rewrite nth_error_app1; [exact Q|]. apply nth_error_Some. congruence. }
  assert (LK : forall n q, is_ses (g_put (g_sess i ++ [p]) i) n q -> is_ses i n q \/ (n = length (g_sess i) /\ q = p)).
  { intros n q Q. unfold is_ses in *. cbn [g_put g_sess] in Q. destruct (Nat.lt_ge_cases n (length (g_sess i))) as [L|L]; [rewrite nth_error_app1 in Q by exact L; auto|]. rewrite nth_error_app2 in Q by exact L. destruct (n - length (g_sess i))%nat as [|d] eqn:D; [|destruct d; discriminate]. right. split; [lia|]. cbn in Q. congruence. }
  split; [|exact X]. pose proof V as [V1 V2 V3 V4 V5 V6]. constructor.
  - intros n q Q. apply (ses_ext cr i _ q X). destruct (LK n q Q) as [S|(-> & ->)]; [apply (V1 n q S)|exact P].
  - intros t T. apply (task_ext cr i _ t X). auto.
  - intros o O. apply (log_ext cr i _ o X). auto.
  - intros n q Q. change (g_tasks (g_put (g_sess i ++ [p]) i)) with (g_tasks i). destruct (LK n q Q) as [S|(-> & ->)]; [apply (V4 n q S)|]. assert (Z0 : count (skic_of (length (g_sess i))) (g_tasks i) = 0) by (apply V5; apply nth_error_None; lia). rewrite Z0. split; [lia|]. split; [reflexivity|lia].
  - intros n N. apply (V5 n). apply nth_error_None in N. cbn [g_put g_sess] in N. rewrite app_length in N. cbn [length] in N. apply nth_error_None. lia.
  - exact V6.
Qed.
Lemma split_nth : forall A (l : list A) k t, nth_error l k = Some t -> l = firstn k l ++ t :: skipn (S k) l.
Proof. induction l as [|x l IH]; intros k t H; [destruct k; discriminate|]. destruct k; cbn in *; [congruence|]. f_equal. apply IH. exact H. Qed.
Lemma done_ext : forall k i, ext i (g_done k i).
Proof. intros t i. split; [intros n p H; exists p; split; [exact H|apply ev_refl]|auto]. Qed.
(** A task is taken out *)
Lemma INV_done : forall cr i k t, INV cr i -> nth_error (g_tasks i) k = Some t -> is_tii t = false ->
  INV cr (g_done k i) /\ task_ok cr (g_done k i) t /\ ext i (g_done k i)
  /\ (forall n cookie cert, t = TSkic n cookie cert -> count (skic_of n) (g_tasks (g_done k i)) = 0 /\ forall p, is_ses i n p -> h_own p = None /\ h_skic p = []).
Proof.
  intros cr i k t V N NT. pose proof (done_ext k i) as X. pose proof V as [V1 V2 V3 V4 V5 V6]. pose proof (split_nth _ _ _ _ N) as SP.
  assert (CN : forall f, count f (g_tasks i) = count f (g_tasks (g_done k i)) + (if f t then 1 else 0)) by (intros f; rewrite SP at 1; cbn [g_done g_tasks]; rewrite !count_app; cbn [count]; lia).
  assert (TK : task_ok cr i t) by (apply V2; rewrite SP; apply in_or_app; right; left; reflexivity).
  split; [|split; [apply (task_ext cr i _ t X TK)|split; [exact X|]]].
  - constructor.
    + intros n p S. apply (ses_ext cr i _ p X). apply (V1 n p S).
    + intros u U. apply (task_ext cr i _ u X). apply V2. rewrite SP. cbn [g_done g_tasks] in U. apply in_app_or in U. apply in_or_app. destruct U as [U|U]; [auto|right; right; exact U].
    + intros o O. apply (log_ext cr i _ o X). auto.
    + intros n p S. destruct (V4 n p S) as (A & B & C). pose proof (CN (skic_of n)) as E. pose proof (count_nonneg (skic_of n) (g_tasks (g_done k i))). destruct (skic_of n t); (split; [lia|]); (split; [intros Y; specialize (B Y); lia|]); intros Y; apply C; lia.
    + intros n Y. specialize (V5 n Y). pose proof (CN (skic_of n)) as E. pose proof (count_nonneg (skic_of n) (g_tasks (g_done k i))). destruct (skic_of n t); lia.
    + destruct V6 as (W1 & W2). change (g_waiting (g_done k i)) with (g_waiting i). specialize (CN is_tii). rewrite NT in CN. split; lia.
  - intros n cookie cert ->. specialize (CN (skic_of n)). cbn [skic_of] in CN. rewrite Nat.eqb_refl in CN. destruct TK as (p & S & _). destruct (V4 n p S) as (A & B & C). pose proof (count_nonneg (skic_of n) (g_tasks (g_done k i))). split; [lia|]. intros q Q. replace q with p by (unfold is_ses in *; congruence). apply C. lia.
Qed.

(** ** Changes of one session *)
Definition rest_same (p q : ses) : Prop := h_role q = h_role p /\ h_rx q = h_rx p /\ h_asked q = h_asked p /\ h_tag q = h_tag p /\ h_epd q = h_epd p /\ h_cert q = h_cert p /\ h_cookie q = h_cookie p /\ h_skic q = h_skic p /\ h_own q = h_own p /\ h_far q = h_far p /\ h_rik q = h_rik p /\ h_tx q = h_tx p.
Lemma rest_ok : forall cr i p q, ses_ok cr i p -> rest_same p q -> (h_state q = h_state p \/ h_state q = CLOSED \/ (h_state p = OPEN /\ h_state q = CLOSING)) -> ses_ok cr i q /\ ev p q.
Proof.
  intros cr i p q (U & H) (E1 & E2 & E3 & E4 & E5 & E6 & E7 & E8 & E9 & E10 & E11 & E12) ST. split.
  - split; [rewrite E2; exact U|]. rewrite E1. destruct (h_role p) eqn:R.
    + destruct H as [H1 H2 H3 H4 H5 H6 H7 H8 H9 H10]. unfold own_or_none, has_cert, opened in *. constructor; unfold own_or_none, has_cert, opened; rewrite ?E3, ?E4, ?E5, ?E6, ?E7, ?E8, ?E9, ?E10, ?E11, ?E12; auto.
      * intros Y. apply H7. destruct ST as [S|[S|(S & S')]]; congruence.
      * intros Y. apply H8. destruct ST as [S|[S|(S & S')]]; congruence.
      * intros Y. apply H10. destruct ST as [S|[S|(S & S')]]; [rewrite <- S; exact Y|destruct Y; congruence|auto].
    + destruct H as [H1 H2 H3 H4 H5]. constructor; rewrite ?E5, ?E6, ?E8, ?E9, ?E10, ?E11, ?E12; auto.
      * destruct ST as [S|[S|(S & S')]]; [rewrite S; exact H1|rewrite S; split; discriminate|rewrite S'; split; discriminate].
      * destruct H4 as [H4|H4]; [auto|right]. unfold rik_made in *. rewrite E2, E6, E8, E10. exact H4.
  - constructor; auto.
    + exists []. rewrite E10. reflexivity.
    + intros Y. destruct ST as [S|[S|(S & S')]]; congruence.
Qed.
Lemma INV_rest : forall cr i n p q, INV cr i -> is_ses i n p -> rest_same p q -> (h_state q = h_state p \/ h_state q = CLOSED \/ (h_state p = OPEN /\ h_state q = CLOSING)) -> INV cr (g_set n q i) /\ ext i (g_set n q i).
Proof.
  intros cr i n p q V S R ST. destruct (rest_ok cr i p q (v_ses _ _ V n p S) R ST) as (Q & E). apply (INV_set cr i n p q V S E Q). right. destruct R as (_ & _ & _ & _ & _ & _ & _ & E8 & E9 & _). auto.
Qed.
Lemma rest_refl : forall p, rest_same p p.
Proof. intros p. unfold rest_same. auto 15. Qed.
Lemma did_open_INV : forall cr n i, INV cr i -> INV cr (h_did_open n i) /\ ext i (h_did_open n i).
Proof. intros cr n i V. unfold h_did_open. destruct (nth_error (g_sess i) n); [apply INV_tabs; exact V|split; [exact V|apply ext_refl]]. Qed.
Lemma did_close_INV : forall cr n i, INV cr i -> INV cr (h_did_close n i) /\ ext i (h_did_close n i).
Proof. intros cr n i V. unfold h_did_close. destruct (nth_error (g_sess i) n); [apply INV_tabs; exact V|split; [exact V|apply ext_refl]]. Qed.
Lemma state_is_iff : forall s p, state_is s p = true <-> h_state p = s.
Proof. intros s p. unfold state_is. destruct s, (h_state p); split; congruence. Qed.
Lemma state_isnt_iff : forall s p, state_is s p = false <-> h_state p <> s.
Proof. intros s p. rewrite <- state_is_iff. destruct (state_is s p); split; congruence. Qed.
Lemma abort_INV : forall cr n i, INV cr i -> INV cr (h_abort n i) /\ ext i (h_abort n i).
Proof.
  intros cr n i V. unfold h_abort. destruct (nth_error (g_sess i) n) as [p|] eqn:S; [|split; [exact V|apply ext_refl]]. destruct (state_is CLOSED p); [split; [exact V|apply ext_refl]|].
  destruct (INV_rest cr i n p (h_with_iik None (h_with_state CLOSED p)) V S) as (V1 & X1); [exact (rest_refl p)|right; left; reflexivity|].
  destruct (did_close_INV cr n _ V1) as (V2 & X2). split; [exact V2|eapply ext_trans; eauto].
Qed.
Lemma close_INV : forall cr n i, INV cr i -> INV cr (h_close n i) /\ ext i (h_close n i).
Proof.
  intros cr n i V. unfold h_close. destruct (nth_error (g_sess i) n) as [p|] eqn:S; [|split; [exact V|apply ext_refl]]. destruct (state_is OPEN p) eqn:O; [|split; [exact V|apply ext_refl]]. apply state_is_iff in O.
  destruct (INV_rest cr i n p (h_with_iik None (h_with_state CLOSING p)) V S) as (V1 & X1); [exact (rest_refl p)|right; right; split; [exact O|reflexivity]|].
  destruct (did_close_INV cr n _ V1) as (V2 & X2). split; [exact V2|eapply ext_trans; eauto].
Qed.
Lemma candidate_INV : forall cr n b a i, INV cr i -> INV cr (add_candidate n b a i) /\ ext i (add_candidate n b a i).
Proof.
  intros cr n b a i V. unfold add_candidate. destruct (nth_error (g_sess i) n) as [p|] eqn:S; [|split; [exact V|apply ext_refl]]. destruct (negb _ || _ || _); [split; [exact V|apply ext_refl]|].
  apply (INV_rest cr i n p _ V S); [exact (rest_refl p)|left; reflexivity].
Qed.
Lemma start_INV : forall cr n c i, INV cr i -> INV cr (start_iik n c i) /\ ext i (start_iik n c i).
Proof.
  intros cr n c i V. unfold start_iik. destruct (nth_error (g_sess i) n) as [p|] eqn:S; [|split; [exact V|apply ext_refl]]. apply (INV_rest cr i n p _ V S); [exact (rest_refl p)|left; reflexivity].
Qed.
Lemma send_rik_INV : forall cr n i, INV cr i -> INV cr (send_rik n i) /\ ext i (send_rik n i).
Proof.
  intros cr n i V. unfold send_rik. destruct (nth_error (g_sess i) n) as [p|] eqn:S; [|split; [exact V|apply ext_refl]]. destruct (_ && _); [|split; [exact V|apply ext_refl]]. apply INV_say; [exact V|exact Logic.I].
Qed.
Lemma try_rik_INV : forall cr ifc a isid skic i j, INV cr i -> try_rik ifc a isid skic i = Some j -> INV cr j /\ ext i j.
Proof.
  intros cr ifc a isid skic i j V H. unfold try_rik in H. destruct (open_by_addr a i) as [n|]; [|discriminate]. destruct (nth_error (g_sess i) n) as [p|]; [|discriminate]. destruct (h_role p); [discriminate|]. destruct (_ && _); [|discriminate].
  assert (E : j = send_rik n i) by congruence. subst j. apply send_rik_INV. exact V.
Qed.
(** ** Arrivals *)
Lemma fits_sized : forall l, fits64 l -> sized l.
Proof. intros l (B & L). split; [exact B|unfold U64MAX; lia]. Qed.
Lemma make_cookie_sized : forall cr age a, cryp_ok cr -> 0 <= age -> seconds_of age < U64MAX -> sized (make_cookie (c_sha cr) (c_secret cr) age a).
Proof.
  intros cr age a C A1 A2. rewrite make_fields. assert (U : is_u64 (seconds_of age)) by (unfold is_u64, seconds_of, TICKS in *; split; [apply Z.div_pos; lia|lia]). destruct (vlu_encode_spec _ U) as (CV & _ & L & _). split.
  - apply bytes_ok_app. split; [apply complete_vlu_bytes; exact CV|]. apply bytes_ok_app. split; apply (co_sha _ C).
  - rewrite !zlen_app. unfold zlen. rewrite !(proj1 (co_sha _ C _)). unfold U64MAX. lia.
Qed.
Definition good (cr : cryp) (i : hinst) (r : res hinst) : Prop := exists j, r = Ok j /\ INV cr j /\ ext i j.
Lemma good_same : forall cr i, INV cr i -> good cr i (Ok i).
Proof. intros cr i V. exists i. split; [reflexivity|]. split; [exact V|apply ext_refl]. Qed.
Lemma good_ok : forall cr i j, INV cr j /\ ext i j -> good cr i (Ok j).
Proof. intros cr i j (V & X). exists j. auto. Qed.
Lemma good_trans : forall cr i r (k : hinst -> res hinst), good cr i r -> (forall j, INV cr j -> ext i j -> good cr j (k j)) -> good cr i (rbind r k).
Proof. intros cr i r k (j & -> & V & X) H. cbn [rbind]. destruct (H j V X) as (j2 & E & V2 & X2). exists j2. split; [exact E|]. split; [exact V2|eapply ext_trans; eauto]. Qed.
Lemma say2 : forall cr i o o', INV cr i -> log_ok cr i o -> (forall j, log_ok cr j o') -> INV cr (say o' (say o i)) /\ ext i (say o' (say o i)).
Proof. intros cr i o o' V L L'. destruct (INV_say cr i o V L) as (V1 & X1). destruct (INV_say cr _ o' V1 (L' _)) as (V2 & X2). split; [exact V2|eapply ext_trans; eauto]. Qed.
Lemma ihello_good : forall cr age epd tag ifc a mode i, cryp_ok cr -> INV cr i -> 0 <= age -> seconds_of age < U64MAX -> sized tag -> good cr i (on_ihello cr age epd tag ifc a mode i).
Proof.
  intros cr age epd tag ifc a mode i C V A1 A2 T. unfold on_ihello. destruct (mode =? 0); [apply good_same; exact V|]. destruct (negb (c_mine cr epd)); [apply good_same; exact V|]. destruct (mode =? 1).
  - rewrite make_redirect_ok by auto. cbn [rbind]. apply good_ok. unfold fits. destruct (_ <=? _); [apply INV_say; [exact V|exact Logic.I]|split; [exact V|apply ext_refl]].
  - rewrite make_rhello_ok; [|exact T|apply make_cookie_sized; assumption|apply fits_sized; apply C]. cbn [rbind]. apply good_ok. unfold fits. destruct (_ <=? _); [apply say2; [exact V|exact Logic.I|intros; exact Logic.I]|split; [exact V|apply ext_refl]].
Qed.
Lemma find_ses_some : forall f l k n, find_ses f k l = Some n -> exists p, (k <= n)%nat /\ nth_error l (n - k) = Some p /\ f n p = true.
Proof.
  induction l as [|p l IH]; intros k n H; cbn [find_ses] in H; [discriminate|]. destruct (f k p) eqn:F.
  - assert (n = k) as -> by congruence. exists p. rewrite Nat.sub_diag. split; [lia|]. auto.
  - destruct (IH _ _ H) as (q & L & Q & FQ). exists q. split; [lia|]. split; [|exact FQ]. replace (n - k)%nat with (S (n - S k)) by lia. exact Q.
Qed.
Lemma find_ses_is : forall f i n, find_ses f 0 (g_sess i) = Some n -> exists p, is_ses i n p /\ f n p = true.
Proof. intros f i n H. destruct (find_ses_some _ _ _ _ H) as (p & _ & E & F). rewrite Nat.sub_0_r in E. exists p. auto. Qed.
Lemma ihello_role : forall cr i n p, INV cr i -> is_ses i n p -> h_state p = IHELLO_SENT \/ h_state p = KEYING_SENT -> h_role p = INITIATOR /\ init_ok cr p.
Proof. intros cr i n p V S ST. destruct (v_ses _ _ V n p S) as (_ & H). destruct (h_role p); [auto|]. destruct (ro_state _ _ _ H) as (X & Y). destruct ST; contradiction. Qed.
Lemma rhello_INV : forall cr tag cookie cert ifc a i, INV cr i -> sized cookie -> INV cr (on_rhello cr tag cookie cert ifc a i) /\ ext i (on_rhello cr tag cookie cert ifc a i).
Proof.
  intros cr tag cookie cert ifc a i V C. unfold on_rhello. destruct (opening_by_tag tag i) as [n|]; [|split; [exact V|apply ext_refl]]. destruct (nth_error (g_sess i) n) as [p|] eqn:S; [|split; [exact V|apply ext_refl]].
  destruct (state_is IHELLO_SENT p) eqn:ST, (c_decodes cr cert) eqn:D, (c_selected cr cert (h_epd p)) eqn:L; cbn [negb orb]; try (split; [exact V|apply ext_refl]). apply state_is_iff in ST. destruct (ihello_role cr i n p V S (or_introl ST)) as (R & H). destruct (io_hello _ _ H ST) as (E & _).
  apply INV_perform'; [exact V| |reflexivity|reflexivity]. exists p. rewrite <- E. auto.
Qed.
Lemma redirect_INV : forall cr tag addrs i, INV cr i -> INV cr (on_redirect tag addrs i) /\ ext i (on_redirect tag addrs i).
Proof.
  intros cr tag addrs i V. unfold on_redirect. destruct (opening_by_tag tag i) as [n|]; [|split; [exact V|apply ext_refl]]. revert i V. induction addrs as [|a r IH]; intros i V; cbn [fold_left]; [split; [exact V|apply ext_refl]|].
  destruct (candidate_INV cr n true a i V) as (V1 & X1). destruct (IH _ V1) as (V2 & X2). split; [exact V2|eapply ext_trans; eauto].
Qed.
Lemma wait_INV : forall cr i t, INV cr i -> task_ok cr i t -> is_tii t = true -> g_waiting i < MAX_WAITING ->
  INV cr (perform t (g_wait (g_waiting i + 1) i)) /\ ext i (perform t (g_wait (g_waiting i + 1) i)).
Proof.
  intros cr i t V T TT W. assert (X : ext i (perform t (g_wait (g_waiting i + 1) i))) by (split; [intros n p H; exists p; split; [exact H|apply ev_refl]|auto]). split; [|exact X]. destruct V as [V1 V2 V3 V4 V5 V6].
  assert (SK : forall n, skic_of n t = false) by (intros n; destruct t; try discriminate; reflexivity). constructor.
  - intros n p H. apply (ses_ext cr i _ p X). apply (V1 n p H).
  - intros u U. apply (task_ext cr i _ u X). cbn [perform g_wait g_tasks] in U. apply in_app_or in U. destruct U as [U|[<-|[]]]; auto.
  - intros o O. apply (log_ext cr i _ o X). apply V3. exact O.
  - intros n p S. cbn [perform g_wait g_tasks]. rewrite count_app. cbn [count]. rewrite SK, !Z.add_0_r. apply (V4 n p S).
  - intros n N. cbn [perform g_wait g_tasks]. rewrite count_app. cbn [count]. rewrite SK, !Z.add_0_r. apply (V5 n N).
  - cbn [perform g_wait g_tasks g_waiting]. rewrite count_app. cbn [count]. rewrite TT. destruct V6. split; lia.
Qed.
Lemma iikeying_good : forall cr age isid cookie cert skic text sig ifc a i, cryp_ok cr -> INV cr i -> 0 <= age -> seconds_of age < U64MAX -> sized cookie -> sized skic -> ii_signed_wire isid cookie cert skic text ->
  good cr i (on_iikeying cr age isid cookie cert skic text sig ifc a i).
Proof.
  intros cr age isid cookie cert skic text sig ifc a i C V A1 A2 SC SK W. unfold on_iikeying. destruct (g_down i); [apply good_same; exact V|]. destruct (check_no_UB (c_sha cr) (c_secret cr) age cookie a (proj1 SC)) as (v & E). rewrite E. cbn [rbind]. destruct v.
  - apply good_same; exact V.
  - rewrite make_cookie_change_ok; [|exact SC|apply make_cookie_sized; assumption]. cbn [rbind]. apply good_ok. unfold fits. destruct (_ <=? _); [apply say2; [exact V|exact Logic.I|intros; exact Logic.I]|split; [exact V|apply ext_refl]].
  - destruct (c_decodes cr cert) eqn:D; cbn [negb]; [|apply good_same; exact V]. destruct (try_rik ifc a isid skic i) as [j|] eqn:T; [apply good_ok; apply (try_rik_INV _ _ _ _ _ _ _ V T)|].
    destruct (g_waiting i >=? MAX_WAITING) eqn:G; [apply good_same; exact V|]. apply good_ok. apply wait_INV; [exact V| |reflexivity|lia]. cbn [task_ok]. split; [exact D|]. split; [exact SK|]. exists cookie, age. auto.
Qed.
Lemma field_sized : forall f w r, sized (w ++ r) -> field_wire f w -> sized f.
Proof. intros f w r S (L & _ & _ & ->). rewrite <- app_assoc in S. apply sized_r in S. apply sized_app in S. destruct S as (B1 & B2 & L1). pose proof (zlen_nonneg _ r). split; [exact B1|lia]. Qed.
Lemma startup_good : forall cr age ifc a cs seen i, cryp_ok cr -> INV cr i -> 0 <= age -> seconds_of age < U64MAX -> Forall (fun c => fits64 (snd c)) cs -> good cr i (on_startup cr age ifc a seen cs i).
Proof.
  intros cr age ifc a cs. induction cs as [|(ty & c) cs IH]; intros seen i C V A1 A2 F; cbn [on_startup]; [apply good_same; exact V|]. inversion F as [|? ? F1 F2]; subst. cbn [snd] in F1. apply fits_sized in F1. destruct (startup_def c a (proj1 F1)) as (D1 & D2 & D3 & D4 & _).
  assert (NX : forall seen j, INV cr j -> good cr j (on_startup cr age ifc a seen cs j)) by (intros; apply IH; assumption).
  destruct (ty =? CHUNK_IHELLO); [destruct seen; [apply NX; exact V|]|].
  - apply good_trans; [|intros; apply NX; assumption]. destruct (parse_ihello c) as [(epd & tag)| |] eqn:E; cbn [opt]; [|apply good_same; exact V|contradiction]. apply ihello_iff in E; [|exact F1]. destruct E as (f & W & ->). apply ihello_good; auto. apply sized_r in F1. exact F1.
  - destruct (ty =? CHUNK_RHELLO).
    { apply good_trans; [|intros; apply NX; assumption]. destruct (parse_rhello c) as [((tag & cookie) & cert)| |] eqn:E; cbn [opt]; [|apply good_same; exact V|contradiction]. apply rhello_iff in E; [|exact F1]. destruct E as (f & g & W1 & W2 & ->). apply good_ok. apply rhello_INV; [exact V|]. apply sized_r in F1. apply (field_sized cookie g cert F1 W2). }
    destruct (ty =? CHUNK_REDIRECT).
    { apply good_trans; [|intros; apply NX; assumption]. destruct (parse_redirect c a) as [(tag & addrs)| |] eqn:E; cbn [opt]; [|apply good_same; exact V|contradiction]. apply good_ok. apply redirect_INV. exact V. }
    destruct (ty =? CHUNK_IIKEYING); [|apply NX; exact V].
    apply good_trans; [|intros; apply NX; assumption]. destruct (parse_iikeying c) as [(((((isid & cookie) & cert) & skic) & text) & sig)| |] eqn:E; cbn [opt]; [|apply good_same; exact V|contradiction]. apply iikeying_iff in E; [|exact F1]. destruct E as (W & ->).
    assert (SC : sized cookie /\ sized skic). { destruct W as (w0 & f & g & h & W0 & W1 & W2 & W3 & ->). rewrite <- !app_assoc in F1. apply sized_r in F1. split; [apply (field_sized _ _ _ F1 W1)|]. apply sized_r in F1. apply sized_r in F1. apply (field_sized _ _ _ F1 W3). }
    apply iikeying_good; auto; tauto.
Qed.
Lemma chunk_good : forall cr age id st fi ty c i, cryp_ok cr -> INV cr i -> 0 <= age -> seconds_of age < U64MAX -> fits64 c -> good cr i (on_session_chunk cr age id st fi ty c i).
Proof.
  intros cr age id st fi ty c i C V A1 A2 F1. apply fits_sized in F1. destruct (startup_def c addr_erased (proj1 F1)) as (_ & _ & _ & _ & D5 & D6 & D7). unfold on_session_chunk. destruct (by_rx id i) as [n|]; [|apply good_same; exact V]. destruct (nth_error (g_sess i) n) as [p|] eqn:S; [|apply good_same; exact V].
  destruct (state_is KEYING_SENT p) eqn:ST.
  - pose proof ST as ST'. apply state_is_iff in ST'. destruct (ihello_role cr i n p V S (or_intror ST')) as (R & H). destruct (io_keying _ _ H ST') as (EE & cert & HC & _). destruct st; cbn [negb]; [|apply good_same; exact V]. destruct (ty =? CHUNK_RIKEYING); [|destruct (ty =? CHUNK_COOKIE_CHANGE); [|apply good_same; exact V]].
    + destruct (parse_rikeying c) as [(((rsid & skrc) & text) & sig)| |] eqn:E; cbn [opt]; [|apply good_same; exact V|contradiction]. apply rikeying_iff in E; [|exact F1]. destruct E as (W & ->). apply good_ok. unfold on_rikeying. rewrite S, ST. cbn [negb]. apply INV_perform'; [exact V| |reflexivity|reflexivity].
      exists p. split; [exact S|]. split; [exact R|]. split; [congruence|]. split; [congruence|]. exists text, (h_skic p). split; [reflexivity|]. split; [exact W|apply H].
    + destruct (parse_cookie_change c) as [(old & new)| |] eqn:E; cbn [opt]; [|apply good_same; exact V|contradiction]. apply cookie_change_iff in E; [|exact F1]. destruct E as (f & W & ->). apply good_ok. unfold on_cookie_change. rewrite S, ST. cbn [negb orb]. destruct (h_changed p || negb (eq_bytes old (h_cookie p))); [split; [exact V|apply ext_refl]|].
      assert (EV : ev p (h_with_cookie new true p)) by (constructor; cbn; auto; exists []; reflexivity).
      destruct (INV_set cr i n p (h_with_cookie new true p) V S EV) as (V1 & X1).
      * destruct (v_ses _ _ V n p S) as (U & _). split; [exact U|]. change (h_role (h_with_cookie new true p)) with (h_role p). rewrite R. destruct H as [H1 H2 H3 H4 H5 H6 H7 H8 H9 H10]. constructor; auto. apply sized_r in F1. exact F1.
      * right. auto.
      * destruct (INV_perform' cr _ (TCookie n) V1) as (V2 & X2); [|reflexivity|reflexivity|split; [exact V2|eapply ext_trans; eauto]].
        exists (h_with_cookie new true p). split; [apply (set_self i n p _ S)|]. cbn. split; [exact R|]. split; congruence.
  - destruct (negb st && state_is OPEN p && (ty =? CHUNK_FIHELLO)); [|apply good_same; exact V]. destruct (parse_fihello c) as [((epd & reply) & tag)| |] eqn:E; cbn [opt]; [|apply good_same; exact V|contradiction]. apply fihello_iff in E; [|exact F1]. destruct E as (f & g & x & W & _ & _ & _ & ->). apply ihello_good; auto. apply sized_r in F1. apply sized_r in F1. exact F1.
Qed.

(** ** Tasks *)
Lemma ses_fun : forall i n p q, is_ses i n p -> nth_error (g_sess i) n = Some q -> p = q.
Proof. unfold is_ses. intros. congruence. Qed.
Lemma own_sized : forall cr p k, init_ok cr p -> own_or_none p k -> sized k.
Proof. intros cr p k H [->|E]; [split; [constructor|reflexivity]|apply (io_own _ _ H k E)]. Qed.
Lemma do_iik_good : forall cr i n p p' cert cookie k upd nonce, cryp_ok cr -> INV cr i -> is_ses i n p' -> h_rx p = h_rx p' -> h_cert p = Some cert -> h_cert p' = Some cert -> h_role p' = INITIATOR -> h_state p' <> IHELLO_SENT ->
  sized cookie -> own_or_none p' k -> (forall x, upd = Some x -> h_own p' = Some x) -> good cr i (do_iik cr n p cookie k upd nonce i).
Proof.
  intros cr i n p p' cert cookie k upd nonce C V S RX C1 C2 R ST SC O U. unfold do_iik. rewrite C1. destruct (v_ses _ _ V n p' S) as (UR & H). rewrite R in H. assert (SK := own_sized _ _ _ H O). assert (SN : sized (c_cert cr [])) by (apply fits_sized, C).
  rewrite make_iikeying_ok; [|exact SC|exact SN|exact SK|intros; apply C]. cbn [rbind]. destruct (_ <=? _).
  - apply good_ok. destruct (INV_say cr i (HSigned cert (ii_text (h_rx p) cookie (c_cert cr []) k)) V) as (V1 & X1).
    + exists n, p'. split; [exact S|]. left. split; [exact R|]. split; [exact C2|]. exists cookie, k. split; [|exact O]. rewrite RX. apply ii_enc; assumption.
    + destruct (INV_perform' cr _ (TStart n upd (chunk_bytes CHUNK_IIKEYING (ii_text (h_rx p) cookie (c_cert cr []) k ++ c_sign cr cert (ii_text (h_rx p) cookie (c_cert cr []) k) nonce))) V1) as (V2 & X2); [|reflexivity|reflexivity|split; [exact V2|exact (ext_trans _ _ _ X1 X2)]].
      exists p'. split; [exact S|]. auto.
  - apply good_ok. apply INV_perform'; [exact V|exact Logic.I|reflexivity|reflexivity].
Qed.
Lemma set_open_good : forall cr i n p c tx k skrc, INV cr i -> is_ses i n p -> h_role p = INITIATOR -> h_state p = KEYING_SENT -> h_cert p = Some c ->
  responder_signed cr c tx skrc k -> own_or_none p k -> In skrc (h_far p) -> good cr i (set_open cr n tx i).
Proof.
  intros cr i n p c tx k skrc V S R ST C RS O IN. unfold set_open. unfold is_ses in S. rewrite S, C. apply good_ok. destruct (v_ses _ _ V n p S) as (UR & H). rewrite R in H. destruct (io_keying _ _ H ST) as (E & c' & HC). assert (c' = c) as -> by (destruct HC as (X & _); congruence).
  destruct (INV_set cr i n p (h_with_open (c_canonical cr c) tx p) V S) as (V1 & X1).
  - constructor; cbn; auto; try congruence; try (exists []; reflexivity).
  - split; [exact UR|]. change (h_role (h_with_open (c_canonical cr c) tx p)) with (h_role p). rewrite R. destruct H as [H1 H2 H3 H4 H5 H6 H7 H8 H9 H10]. constructor; try assumption.
    + cbn. discriminate.
    + cbn. discriminate.
    + intros _. exists c. split; [exact HC|]. split; [reflexivity|]. exists k, skrc. split; [exact RS|]. split; [exact O|exact IN].
  - right. split; reflexivity.
  - destruct (did_open_INV cr n _ V1) as (V2 & X2). split; [exact V2|eapply ext_trans; eauto].
Qed.
Lemma set_at_end : forall A (l : list A) x y, set_at (l ++ [x]) (length l) y = l ++ [y].
Proof. intros A l x y. induction l as [|a l IH]; [reflexivity|]. cbn. f_equal. exact IH. Qed.
Lemma nth_end : forall A (l : list A) x, nth_error (l ++ [x]) (length l) = Some x.
Proof. intros A l x. rewrite nth_error_app2 by lia. rewrite Nat.sub_diag. reflexivity. Qed.
Definition accepted (cr : cryp) (isid : Z) (skic skrc cert : list Z) (ifc : Z) (a : addr) (id : Z) : ses := h_with_open (c_canonical cr cert) isid (new_responder id skic skrc cert ifc a).
Lemma accept_eq : forall cr isid skic skrc cert ifc a ch glare i, accept cr isid skic skrc cert ifc a ch glare i = Ok i \/
  (1 <= ch_id ch <= U32MAX /\ used (ch_id ch) i = false /\
   exists j, (j = h_did_open (length (g_sess i)) (g_put (g_sess i ++ [accepted cr isid skic skrc cert ifc a (ch_id ch)]) i) \/ exists g q, glare = Some g /\ is_ses i g q /\ h_state q = KEYING_SENT /\ j = h_abort g (h_did_open (length (g_sess i)) (g_put (g_sess i ++ [accepted cr isid skic skrc cert ifc a (ch_id ch)]) i)))
    /\ accept cr isid skic skrc cert ifc a ch glare i = Ok (perform (TRIK (length (g_sess i)) skrc skic cert) j)).
Proof.
  intros cr isid skic skrc cert ifc a ch glare i. unfold accept. destruct (used (ch_id ch) i) eqn:U; cbn [orb]; [left; reflexivity|]. destruct (ch_id ch <? 1) eqn:U1; cbn [orb]; [left; reflexivity|]. destruct (ch_id ch >? U32MAX) eqn:U2; [left; reflexivity|]. right. split; [lia|]. split; [reflexivity|].
  unfold set_open. cbn [g_put g_sess]. rewrite nth_end. cbn [new_responder h_cert rbind]. unfold g_set. cbn [g_put g_sess]. rewrite set_at_end. cbv zeta. set (base := h_did_open _ _). 
  destruct glare as [g|]; [|exists base; split; [left; reflexivity|reflexivity]]. destruct (nth_error (g_sess i) g) as [q|] eqn:NG; [|exists base; split; [left; reflexivity|reflexivity]].
  destruct (state_is KEYING_SENT q) eqn:ST; cbn [andb]; [apply state_is_iff in ST|exists base; split; [left; reflexivity|reflexivity]].
  destruct (match h_cert q with Some c => _ | None => false end); [exists (h_abort g base); split; [right; exists g, q; auto|reflexivity]|exists base; split; [left; reflexivity|reflexivity]].
Qed.
Lemma accept_good : forall cr i isid skic skrc cert ifc a ch glare cookie age, INV cr i -> c_decodes cr cert = true -> c_authentic cr cert = true -> sized skic -> sized skrc ->
  check_cookie (c_sha cr) (c_secret cr) age cookie a = Ok COOKIE_OK -> initiator_signed cr cert isid cookie skic -> good cr i (accept cr isid skic skrc cert ifc a ch glare i).
Proof.
  intros cr i isid skic skrc cert ifc a ch glare cookie age V D AU SK SR CK IS. destruct (accept_eq cr isid skic skrc cert ifc a ch glare i) as [->|(ID & US & j & J & ->)]; [apply good_same; exact V|]. apply good_ok.
  set (p := accepted cr isid skic skrc cert ifc a (ch_id ch)) in *.
  destruct (INV_append cr i p V) as (V1 & X1).
  { split; [change (h_rx p) with (ch_id ch); unfold is_u32, U32MAX in *; lia|]. cbn. constructor; cbn; auto.
    - split; discriminate.
    - exists cert, skrc. split; [reflexivity|]. split; [exact AU|]. split; [exact D|]. split; [reflexivity|]. split; [exact SR|]. split; [reflexivity|]. exists cookie, age, a. auto. }
  destruct (did_open_INV cr (length (g_sess i)) _ V1) as (V2 & X2). set (i2 := h_did_open _ _) in *.
  assert (S2 : is_ses i2 (length (g_sess i)) p). { destruct X2 as (X2 & _). unfold i2, is_ses, h_did_open. cbn [g_put g_sess]. rewrite nth_end. cbn [g_tabs g_sess g_put]. apply nth_end. }
  assert (VJ : INV cr j /\ ext i2 j). { destruct J as [->|(g & q0 & _ & _ & _ & ->)]; [split; [exact V2|apply ext_refl]|apply abort_INV; exact V2]. }
  destruct VJ as (VJ & XJ). destruct (proj1 XJ _ _ S2) as (q & Q & E).
  destruct (INV_perform' cr j (TRIK (length (g_sess i)) skrc skic cert) VJ) as (V4 & X4); [|reflexivity|reflexivity|].
  - exists q. split; [exact Q|]. destruct (e_resp _ _ E eq_refl) as (E1 & E2 & _). split; [rewrite (e_role _ _ E); reflexivity|]. split; [destruct (e_cert _ _ E) as [Y|Y]; [discriminate|rewrite Y; reflexivity]|]. split; [rewrite E2; reflexivity|rewrite E1; reflexivity].
  - split; [exact V4|]. eapply ext_trans; [exact X1|]. eapply ext_trans; [exact X2|]. eapply ext_trans; eauto.
Qed.
Lemma done_tii : forall cr i k t, INV cr i -> nth_error (g_tasks i) k = Some t -> is_tii t = true ->
  let j := g_wait (g_waiting i - 1) (g_done k i) in INV cr j /\ task_ok cr j t /\ ext i j.
Proof.
  intros cr i k t V N TT j. assert (X : ext i j) by (split; [intros n p H; exists p; split; [exact H|apply ev_refl]|auto]). pose proof (split_nth _ _ _ _ N) as SP. destruct V as [V1 V2 V3 V4 V5 V6].
  assert (SK : forall n, skic_of n t = false) by (intros n; destruct t; try discriminate; reflexivity).
  assert (CT : forall n, count (skic_of n) (g_tasks j) = count (skic_of n) (g_tasks i)). { intros n. rewrite SP at 1. rewrite count_app. cbn [count]. rewrite SK. change (g_tasks j) with (firstn k (g_tasks i) ++ skipn (S k) (g_tasks i)). rewrite count_app. lia. }
  split; [|split; [|exact X]].
  - constructor.
    + intros n p H. apply (ses_ext cr i j p X). apply (V1 n p H).
    + intros u U. apply (task_ext cr i j u X). apply V2. rewrite SP. change (g_tasks j) with (firstn k (g_tasks i) ++ skipn (S k) (g_tasks i)) in U. apply in_app_or in U. apply in_or_app. destruct U as [U|U]; [left; exact U|right; right; exact U].
    + intros o O. apply (log_ext cr i j o X). apply V3. exact O.
    + intros n p S. rewrite CT. apply (V4 n p S).
    + intros n S. rewrite CT. apply (V5 n S).
    + change (g_waiting j) with (g_waiting i - 1). change (g_tasks j) with (firstn k (g_tasks i) ++ skipn (S k) (g_tasks i)). destruct V6 as (V6 & V7). split; [|lia]. rewrite V6. rewrite SP at 1. rewrite !count_app. cbn [count]. rewrite TT. lia.
  - apply (task_ext cr i j t X). apply V2. apply (nth_error_In _ _ N).
Qed.
Lemma task_good : forall cr i k t ch, cryp_ok cr -> INV cr i -> choice_ok ch -> nth_error (g_tasks i) k = Some t -> good cr i (run_task cr t ch (g_done k i)).
Proof.
  intros cr i k t ch C V CH N. destruct (is_tii t) eqn:TT.
  { destruct (done_tii cr i k t V N TT) as (V1 & T & X1). destruct t as [| | | | | | |isid skic text sig cert ifc a| | |]; try discriminate. cbn [run_task g_done g_waiting]. fold (g_done k i). cbn zeta in V1, T, X1. set (j := g_wait _ _) in *.
    assert (GG : good cr j (if negb (c_authentic cr cert) then Ok j else if negb (c_check cr cert text sig) then Ok j else match ch_comp ch with None => Ok j | Some skrc => Ok (perform (TIIRun isid skic skrc cert ifc a) j) end)).
    { destruct (c_authentic cr cert) eqn:AU; cbn [negb]; [|apply good_same; exact V1]. destruct (c_check cr cert text sig) eqn:CC; cbn [negb]; [|apply good_same; exact V1]. unfold choice_ok in CH. destruct (ch_comp ch) as [skrc|]; [|apply good_same; exact V1].
      apply good_ok. apply INV_perform'; [exact V1| |reflexivity|reflexivity]. destruct T as (D & SK & cookie & age & CK & W). cbn [task_ok]. split; [exact D|]. split; [exact AU|]. split; [exact SK|]. split; [apply fits_sized; exact CH|]. exists cookie, age. split; [exact CK|]. exists text, sig. auto. }
    destruct GG as (j2 & E & V2 & X2). exists j2. split; [exact E|]. split; [exact V2|exact (ext_trans _ _ _ X1 X2)]. }
  destruct (INV_done cr i k t V N TT) as (V1 & T & X1 & SKI). set (j := g_done k i) in *.
  assert (GG : good cr j (run_task cr t ch j)); [|destruct GG as (j2 & E & V2 & X2); exists j2; split; [exact E|]; split; [exact V2|exact (ext_trans _ _ _ X1 X2)]].
  destruct t as [n cookie cert ifc a|n cookie cert|n o chunk|n|n|n rsid skrc text sig|n rsid|isid skic text sig cert ifc a|isid skic skrc cert ifc a|n skrc skic cert|n chunk]; cbn [run_task].
  - destruct T as (p & S & R & D & L & SC). unfold is_ses in S. rewrite S. destruct (c_authentic cr cert) eqn:AU; cbn [negb]; [|apply good_same; exact V1]. destruct (state_is IHELLO_SENT p) eqn:ST; cbn [negb]; [|apply good_same; exact V1]. apply state_is_iff in ST. cbv zeta.
    assert (AB : forall m, good cr j (Ok (h_abort n (h_did_open m j)))). { intros m. apply good_ok. destruct (did_open_INV cr m _ V1) as (V2 & X2). destruct (abort_INV cr n _ V2) as (V3 & X3). split; [exact V3|eapply ext_trans; eauto]. }
    destruct (match open_by_epd (c_canonical cr cert) j with Some m => _ | None => None end) as [m|]; [apply AB|]. destruct (opening_by_epd cr (c_canonical cr cert) (Some n) j); [apply good_ok; apply abort_INV; exact V1|]. apply good_ok.
    destruct (v_ses _ _ V1 n p S) as (UR & H). rewrite R in H. destruct (io_hello _ _ H ST) as (E1 & E2 & E3 & E4 & E5). destruct (v_skic _ _ V1 n p S) as (K1 & K2 & K3). specialize (K2 ST).
    assert (HC : has_cert cr (h_with_keying ifc a cookie cert p) cert) by (split; [reflexivity|auto]).
    destruct (INV_set cr j n p (h_with_keying ifc a cookie cert p) V1 S) as (V2 & X2).
    + constructor; cbn; auto; try congruence; try (exists []; reflexivity).
    + split; [exact UR|]. change (h_role (h_with_keying ifc a cookie cert p)) with (h_role p). rewrite R. destruct H as [H1 H2 H3 H4 H5 H6 H7 H8 H9 H10]. constructor; try assumption.
      * cbn. discriminate.
      * intros _. split; [exact E1|]. exists cert. exact HC.
      * intros _. exists cert. exact HC.
      * intros [Y|Y]; cbn in Y; discriminate.
    + left. exact K2.
    + assert (S2 : is_ses (g_set n (h_with_keying ifc a cookie cert p) j) n (h_with_keying ifc a cookie cert p)) by (apply (set_self j n p _ S)).
      destruct (INV_perform cr _ (TSkic n cookie cert) V2) as (V3 & X3).
      * exists (h_with_keying ifc a cookie cert p). split; [exact S2|]. split; [exact R|]. split; [reflexivity|]. split; [discriminate|exact SC].
      * reflexivity.
      * intros n' cookie' cert' EQ. inversion EQ; subst n' cookie' cert'. exists (h_with_keying ifc a cookie cert p). split; [exact S2|]. split; [exact K2|]. split; [exact E3|]. split; [exact E4|discriminate].
      * split; [exact V3|eapply ext_trans; eauto].
  - destruct T as (p & S & R & CE & ST & SC). unfold is_ses in S. rewrite S. unfold choice_ok in CH. destruct (ch_comp ch) as [skic|]; [|apply good_ok; apply INV_perform'; [exact V1|exact Logic.I|reflexivity|reflexivity]].
    destruct (SKI n cookie cert eq_refl) as (K1 & K2). destruct (K2 p S) as (O1 & O2). destruct (v_ses _ _ V1 n p S) as (UR & H). rewrite R in H.
    destruct (INV_set cr j n p (h_with_own (Some skic) p) V1 S) as (V2 & X2).
    + constructor; cbn; auto; try congruence; try (exists []; reflexivity).
    + split; [exact UR|]. change (h_role (h_with_own (Some skic) p)) with (h_role p). rewrite R. destruct H as [H1 H2 H3 H4 H5 H6 H7 H8 H9 H10]. constructor; try assumption.
      * left. exact O2.
      * cbn. intros x E. assert (x = skic) as -> by congruence. apply fits_sized. exact CH.
      * cbn. intros Y. contradiction.
      * intros Y. destruct (H10 Y) as (c & B1 & B2 & kk & sk & B3 & B4 & B5). exists c. split; [exact B1|]. split; [exact B2|]. exists kk, sk. split; [exact B3|]. split; [|exact B5]. destruct B4 as [B4|B4]; [left; exact B4|congruence].
    + left. exact K1.
    + assert (S2 : is_ses (g_set n (h_with_own (Some skic) p) j) n (h_with_own (Some skic) p)) by (apply (set_self j n p _ S)).
      destruct (do_iik_good cr _ n p (h_with_own (Some skic) p) cert cookie skic (Some skic) (ch_nonce ch) C V2 S2 eq_refl CE CE R ST SC (or_intror eq_refl)) as (j2 & E & V3 & X3); [intros x Y; exact Y|].
      exists j2. split; [exact E|]. split; [exact V3|eapply ext_trans; eauto].
  - destruct T as (p & S & R & ST & O). unfold is_ses in S. rewrite S. apply good_ok. destruct o as [kk|]; [|apply start_INV; exact V1]. specialize (O kk eq_refl). destruct (v_ses _ _ V1 n p S) as (UR & H). rewrite R in H.
    destruct (INV_set cr j n p (h_with_skic kk p) V1 S) as (V2 & X2).
    + constructor; cbn; auto; try congruence; try (exists []; reflexivity).
    + split; [exact UR|]. change (h_role (h_with_skic kk p)) with (h_role p). rewrite R. destruct H as [H1 H2 H3 H4 H5 H6 H7 H8 H9 H10]. constructor; try assumption.
      * right. exact O.
      * cbn. intros Y. contradiction.
    + left. destruct (v_skic _ _ V1 n p S) as (K1 & _ & K3). pose proof (count_nonneg (skic_of n) (g_tasks j)). destruct (Z.eq_dec (count (skic_of n) (g_tasks j)) 1) as [Y|Y]; [destruct (K3 Y); congruence|lia].
    + destruct (start_INV cr n chunk _ V2) as (V3 & X3). split; [exact V3|eapply ext_trans; eauto].
  - apply good_ok. apply abort_INV. exact V1.
  - destruct T as (p & S & R & CE & ST). unfold is_ses in S. rewrite S. destruct (v_ses _ _ V1 n p S) as (UR & H). rewrite R in H. destruct (h_cert p) as [cert|] eqn:CE'; [|congruence].
    apply (do_iik_good cr j n p p cert); auto; [apply H|apply H|discriminate].
  - destruct T as (p & S & R & CE & ST & t & kk & -> & W & O). unfold is_ses in S. rewrite S. destruct (v_ses _ _ V1 n p S) as (UR & H). rewrite R in H. destruct (h_cert p) as [cert|] eqn:CE'; [|congruence]. destruct (c_check cr cert (t ++ kk) sig) eqn:CC; cbn [negb]; [|apply good_same; exact V1].
    destruct (INV_set cr j n p (h_with_far (skrc :: h_far p) p) V1 S) as (V2 & X2).
    + constructor; cbn; auto; try congruence; try (exists [skrc]; reflexivity).
    + split; [exact UR|]. change (h_role (h_with_far (skrc :: h_far p) p)) with (h_role p). rewrite R. destruct H as [H1 H2 H3 H4 H5 H6 H7 H8 H9 H10]. constructor; try assumption.
      * cbn. intros Y. contradiction.
      * intros Y. destruct (H10 Y) as (c & B1 & B2 & k2 & sk & B3 & B4 & B5). exists c. split; [exact B1|]. split; [exact B2|]. exists k2, sk. split; [exact B3|]. split; [exact B4|]. right. exact B5.
    + right. split; reflexivity.
    + destruct (ch_ok ch); [|apply good_ok; auto]. apply good_ok. destruct (INV_perform' cr _ (TOpen n rsid) V2) as (V3 & X3); [|reflexivity|reflexivity|split; [exact V3|eapply ext_trans; eauto]].
      exists (h_with_far (skrc :: h_far p) p). split; [apply (set_self j n p _ S)|]. split; [exact R|]. exists cert. split; [exact CE'|]. exists kk, skrc. split; [exists t, sig; auto|]. split; [exact O|left; reflexivity].
  - destruct T as (p & S & R & c & CE & kk & skrc & RS & O & IN). unfold is_ses in S. rewrite S. destruct (state_is KEYING_SENT p) eqn:ST; cbn [negb]; [|apply good_same; exact V1]. apply state_is_iff in ST. apply (set_open_good cr j n p c rsid kk skrc); assumption.
  - discriminate.
  - destruct (g_down j); [apply good_same; exact V1|]. destruct (try_rik ifc a isid skic j) as [j2|] eqn:TR; [apply good_ok; apply (try_rik_INV _ _ _ _ _ _ _ V1 TR)|]. cbv zeta. destruct T as (D & AU & SK & SR & cookie & age & CK & IS).
    destruct (match open_by_addr a j with Some m => _ | None => Some None end) as [o|]; [|apply good_same; exact V1].
    assert (VA : let j2 := match o with Some m => h_abort m j | None => j end in INV cr j2 /\ ext j j2) by (destruct o; [apply abort_INV; exact V1|split; [exact V1|apply ext_refl]]). cbv zeta in VA. set (j2 := match o with Some m => h_abort m j | None => j end) in *. destruct VA as (V2 & X2).
    assert (AC : forall g, good cr j2 (accept cr isid skic skrc cert ifc a ch g j2)) by (intros g; apply (accept_good cr j2 isid skic skrc cert ifc a ch g cookie age); assumption).
    assert (FIN : forall r, good cr j2 r -> good cr j r) by (intros r (j3 & E & V3 & X3); exists j3; split; [exact E|]; split; [exact V3|eapply ext_trans; eauto]).
    apply FIN. destruct (opening_by_addr a j2); [|apply AC]. destruct (c_wins cr cert); [apply good_same; exact V2|apply AC].
  - destruct T as (p & S & R & CE & F & SK). unfold is_ses in S. rewrite S. destruct (v_ses _ _ V1 n p S) as (UR & H). rewrite R in H. destruct (ro_open _ _ _ H) as (c & sk & B1 & B2 & B3 & B4 & B5 & _). assert (sk = skrc) as -> by congruence. assert (SS : sized skrc) by exact B5.
    rewrite make_rikeying_ok by exact SS. apply good_ok. set (t := ri_text (h_rx p) skrc). assert (W : ri_signed_wire (h_rx p) skrc t) by (apply ri_enc; assumption).
    destruct (INV_say cr j (HSigned cert (t ++ skic)) V1) as (V2 & X2).
    + exists n, p. split; [exact S|]. right. split; [exact R|]. split; [exact CE|]. exists skrc, t. rewrite <- SK. auto.
    + destruct (INV_perform' cr _ (TRIKSet n (chunk_bytes CHUNK_RIKEYING (t ++ c_sign cr cert (t ++ skic) (ch_nonce ch)))) V2) as (V3 & X3); [|reflexivity|reflexivity|split; [exact V3|eapply ext_trans; eauto]].
      exists p. split; [exact S|]. split; [exact R|]. exists skrc, t, cert, (ch_nonce ch). split; [exact F|]. split; [exact CE|]. split; [exact W|]. rewrite SK. split; [reflexivity|]. cbn. apply in_or_app. right. left. reflexivity.
  - destruct T as (p & S & R & RM). unfold is_ses in S. rewrite S. apply good_ok. destruct (v_ses _ _ V1 n p S) as (UR & H). rewrite R in H.
    destruct (INV_set cr j n p (h_with_rik chunk p) V1 S) as (V2 & X2).
    + constructor; cbn; auto; try congruence; try (exists []; reflexivity).
    + split; [exact UR|]. change (h_role (h_with_rik chunk p)) with (h_role p). rewrite R. destruct H as [H1 H2 H3 H4 H5]. constructor; try assumption. right. exact RM.
    + right. split; reflexivity.
    + destruct (send_rik_INV cr n _ V2) as (V3 & X3). split; [exact V3|eapply ext_trans; eauto].
Qed.

(** ** Steps *)
Lemma step_good : forall cr i e, cryp_ok cr -> INV cr i -> hevent_ok e -> good cr i (hstep cr i e).
Proof.
  intros cr i e C V E. destruct e as [epd tag id|n a|n a|n|n|n| |n ifc a|age ifc a cs|age id st fi ty c|k ch]; cbn [hstep].
  - destruct (g_down i); [apply good_same; exact V|]. destruct (open_by_epd epd i); [apply good_same; exact V|]. destruct (opening_by_epd cr epd None i); [apply good_same; exact V|]. destruct (used id i || (id <? 1) || (id >? U32MAX)) eqn:U; [apply good_same; exact V|].
    destruct E as (E1 & E2). apply orb_false_iff in U. destruct U as (U & U3). apply orb_false_iff in U. destruct U as (_ & U2). apply good_ok. apply INV_append; [exact V|]. split; [cbn; unfold is_u32, U32MAX in *; lia|]. cbn.
    constructor; cbn; auto using fits_sized; try congruence.
    + split; [constructor|reflexivity].
    + left. reflexivity.
    + intros [Y|Y]; cbn in Y; discriminate.
  - apply good_ok. apply candidate_INV. exact V.
  - destruct (nth_error (g_sess i) n) as [p|] eqn:S; [|apply good_same; exact V]. destruct (state_is IHELLO_SENT p) eqn:ST; cbn [andb]; [|apply good_same; exact V]. destruct (existsb (addr_eq a) (h_cands p)); [|apply good_same; exact V]. apply state_is_iff in ST. destruct (ihello_role cr i n p V S (or_introl ST)) as (R & H). destruct (io_hello _ _ H ST) as (E1 & _).
    rewrite make_ihello_ok; [|rewrite E1; apply H|apply H]. cbn [rbind]. apply good_ok. unfold fits. destruct (_ <=? _); [apply INV_say; [exact V|exact Logic.I]|split; [exact V|apply ext_refl]].
  - destruct (nth_error (g_sess i) n) as [p|] eqn:S; [|apply good_same; exact V]. destruct (h_iik p); [|apply good_same; exact V]. destruct (state_is KEYING_SENT p); apply good_ok.
    + apply INV_say; [exact V|exact Logic.I].
    + apply (INV_rest cr i n p _ V S); [exact (rest_refl p)|left; reflexivity].
  - apply good_ok. apply abort_INV. exact V.
  - apply good_ok. apply close_INV. exact V.
  - apply good_ok. apply INV_stop. exact V.
  - destruct (nth_error (g_sess i) n) as [p|] eqn:S; [|apply good_same; exact V]. destruct (state_is OPEN p); [|apply good_same; exact V]. apply good_ok.
    destruct (INV_rest cr i n p (h_with_place ifc a p) V S) as (V1 & X1); [exact (rest_refl p)|left; reflexivity|]. destruct (INV_tabs cr _ (did_move n (h_addr p) a (g_addrs i)) (g_epds i) V1) as (V2 & X2). split; [exact V2|eapply ext_trans; eauto].
  - destruct E as (E1 & E2 & E3 & _). apply startup_good; assumption.
  - destruct E as (E1 & E2 & E3). apply chunk_good; assumption.
  - destruct (nth_error (g_tasks i) k) as [t|] eqn:N; [|apply good_same; exact V]. apply task_good; assumption.
Qed.
Lemma INV_start : forall cr, INV cr hinst0.
Proof.
  intros cr. constructor; cbn.
  - intros n p H. unfold is_ses in H. cbn in H. destruct n; discriminate.
  - contradiction.
  - contradiction.
  - intros n p H. unfold is_ses in H. cbn in H. destruct n; discriminate.
  - reflexivity.
  - split; [reflexivity|unfold MAX_WAITING; lia].
Qed.
Lemma run_good : forall cr l i, cryp_ok cr -> INV cr i -> Forall hevent_ok l -> good cr i (hrun cr i l).
Proof.
  intros cr l. induction l as [|e l IH]; intros i C V F; cbn [hrun]; [apply good_same; exact V|]. inversion F; subst. apply good_trans; [apply step_good; assumption|]. intros j V1 X1. apply IH; assumption.
Qed.
