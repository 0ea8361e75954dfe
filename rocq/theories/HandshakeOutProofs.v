From Verif Require Import Base BaseFacts VLU VLUSpec VLUProofs Address AddressSpec AddressProofs FlashCert FlashCertProofs Cookie CookieProofs Packet PacketSpec PacketProofs Startup StartupSpec StartupProofs Mobility MobilityProofs Handshake HandshakeSpec HandshakeProofs HandshakeStepProofs HandshakeOutSpec.
Open Scope res_scope.

Definition says (l : list hout) (i : hinst) : hinst := mkH (g_sess i) (g_addrs i) (g_epds i) (g_tasks i) (g_waiting i) (g_down i) (g_out i ++ l).
Lemma says_nil : forall i, says [] i = i.
Proof. intros []. unfold says. cbn. rewrite app_nil_r. reflexivity. Qed.
Lemma says_one : forall o i, say o i = says [o] i.
Proof. reflexivity. Qed.
Lemma says_two : forall o o' i, say o' (say o i) = says [o; o'] i.
Proof. intros o o' i. unfold say, says. cbn. rewrite <- app_assoc. reflexivity. Qed.
Lemma sends_app : forall a b, sends (a ++ b) = sends a + sends b.
Proof. intros a b. unfold sends. rewrite filter_app, zlen_app. reflexivity. Qed.
Lemma sends_nonneg : forall l, 0 <= sends l.
Proof. intros l. apply zlen_nonneg. Qed.
Lemma type_nonneg : forall ty l, 0 <= of_type ty l.
Proof. intros ty l. apply zlen_nonneg. Qed.
Lemma type_cons : forall ty t c l, of_type ty ((t, c) :: l) = (if t =? ty then 1 else 0) + of_type ty l.
Proof. intros ty t c l. unfold of_type. cbn [filter fst]. destruct (t =? ty); [rewrite zlen_cons|]; lia. Qed.

Section O.
Variable cr : cryp.
Hypothesis C : cryp_ok cr.
Lemma made_good : forall age a, 0 <= age -> seconds_of age < U64MAX -> good_cookie cr age a (make_cookie (c_sha cr) (c_secret cr) age a).
Proof.
  intros age a A S. assert (U : is_u64 (seconds_of age)) by (unfold is_u64, seconds_of, TICKS in *; split; [apply Z.div_pos; lia|lia]). unfold good_cookie. rewrite check_made by (try apply C; exact U). replace (seconds_of age >? seconds_of age) with false by lia. replace (seconds_of age - seconds_of age >? MAX_COOKIE_LIFETIME) with false by (unfold MAX_COOKIE_LIFETIME; lia). cbn [orb].
  replace (eq_bytes _ _) with true; [reflexivity|]. symmetry. apply eq_bytes_iff. reflexivity.
Qed.
Lemma fits_some : forall ty t c, fits ty t = Some c -> c = chunk_bytes ty t.
Proof. intros ty t c H. unfold fits in H. destruct (_ <=? _); congruence. Qed.
(** What a hello, plain or forwarded, makes this end say *)
Definition hello_said (age : Z) (epd tag : list Z) (ifc : Z) (a : addr) (mode : Z) (o : hout) : Prop :=
  c_mine cr epd = true /\
  ((mode <> 0 /\ mode <> 1 /\ exists cookie, good_cookie cr age a cookie /\ (o = HCookie age a cookie \/ exists w, rhello_wire tag cookie (c_cert cr epd) w /\ o = HSend (chunk_bytes CHUNK_RHELLO w) 0 ifc a))
   \/ (mode = 1 /\ exists w, redirect_wire tag [] w /\ o = HSend (chunk_bytes CHUNK_REDIRECT w) 0 ifc a)).
Lemma ihello_says : forall age epd tag ifc a mode i j, 0 <= age -> seconds_of age < U64MAX -> sized tag -> on_ihello cr age epd tag ifc a mode i = Ok j ->
  exists new, j = says new i /\ sends new <= 1 /\ Forall (hello_said age epd tag ifc a mode) new.
Proof.
  intros age epd tag ifc a mode i j A S T H. unfold on_ihello in H. assert (N : exists new, i = says new i /\ sends new <= 1 /\ Forall (hello_said age epd tag ifc a mode) new) by (exists []; rewrite says_nil; split; [reflexivity|]; split; [cbv; discriminate|constructor]).
  destruct (mode =? 0) eqn:M0; [apply Ok_inj in H; subst; exact N|]. destruct (c_mine cr epd) eqn:CM; cbn [negb] in H; [|apply Ok_inj in H; subst; exact N]. destruct (mode =? 1) eqn:M1.
  - rewrite make_redirect_ok in H by (try exact T; constructor). cbn [rbind] in H. destruct (fits _ _) as [c|] eqn:F; apply Ok_inj in H; subst; [|exact N]. apply fits_some in F. subst c. exists [HSend (chunk_bytes CHUNK_REDIRECT (field tag ++ addrs_text [])) 0 ifc a]. split; [apply says_one|]. split; [cbv; discriminate|]. constructor; [|constructor].
    split; [exact CM|]. right. split; [lia|]. exists (field tag ++ addrs_text []). split; [|reflexivity]. exists (field tag), (addrs_text []). split; [apply field_enc'; exact T|]. split; [apply addrs_enc; constructor|reflexivity].
  - cbv zeta in H. assert (SC := make_cookie_sized cr age a C A S). set (cookie := make_cookie _ _ _ _) in *. assert (SN : sized (c_cert cr epd)) by (apply fits_sized, C). rewrite make_rhello_ok in H by assumption. cbn [rbind] in H. destruct (fits _ _) as [c|] eqn:F; apply Ok_inj in H; subst j; [|exact N]. apply fits_some in F. subst c.
    exists [HCookie age a cookie; HSend (chunk_bytes CHUNK_RHELLO (field tag ++ field cookie ++ c_cert cr epd)) 0 ifc a]. split; [apply says_two|]. split; [cbv; discriminate|]. assert (G : good_cookie cr age a cookie) by (apply made_good; assumption).
    constructor; [|constructor; [|constructor]]; (split; [exact CM|left; split; [lia|split; [lia|]]; exists cookie; split; [exact G|]]); [left; reflexivity|right]. eexists. split; [|reflexivity]. exists (field tag), (field cookie). split; [apply field_enc'; exact T|]. split; [apply field_enc'; exact SC|reflexivity].
Qed.
Definition sessions_ok (i : hinst) : Prop := forall n p, is_ses i n p -> ses_ok cr i p.
Lemma rik_made_for : forall i p b, rik_made cr i p b -> rik_for cr p b.
Proof. intros i p b (skrc & t & c & nonce & A1 & A2 & A3 & A4 & _). exists skrc, t, c, nonce. auto. Qed.
Lemma send_rik_says : forall n i, sessions_ok i -> (forall p, is_ses i n p -> h_role p = RESPONDER) -> exists new, send_rik n i = says new i /\ sends new <= 1 /\ forall o, In o new -> exists p b, is_ses i n p /\ h_role p = RESPONDER /\ h_state p = OPEN /\ rik_for cr p b /\ o = HSend b (h_tx p) (h_if p) (h_addr p).
Proof.
  intros n i V R. unfold send_rik. assert (N : exists new, i = says new i /\ sends new <= 1 /\ forall o, In o new -> exists p b, is_ses i n p /\ h_role p = RESPONDER /\ h_state p = OPEN /\ rik_for cr p b /\ o = HSend b (h_tx p) (h_if p) (h_addr p)) by (exists []; rewrite says_nil; split; [reflexivity|]; split; [cbv; discriminate|intros o []]).
  destruct (nth_error (g_sess i) n) as [p|] eqn:S; [|exact N]. destruct (state_is OPEN p) eqn:O; cbn [andb]; [|exact N]. destruct (zlen (h_rik p) =? 0) eqn:Z0; cbn [negb]; [exact N|]. eexists. split; [apply says_one|]. split; [cbv; discriminate|]. intros o [<-|[]]. exists p, (h_rik p). specialize (R p S). apply state_is_iff in O. repeat split; try assumption.
  destruct (V n p S) as (_ & K). rewrite R in K. destruct (ro_rik _ _ _ K) as [E|E]; [rewrite E in Z0; discriminate|]. apply (rik_made_for i _ _ E).
Qed.
Lemma try_rik_says : forall ifc a isid skic i j, sessions_ok i -> try_rik ifc a isid skic i = Some j -> exists n p new, open_by_addr a i = Some n /\ is_ses i n p /\ h_role p = RESPONDER /\ h_if p = ifc /\ h_tx p = isid /\ h_skic p = skic /\ j = says new i /\ sends new <= 1
  /\ forall o, In o new -> exists b, h_state p = OPEN /\ rik_for cr p b /\ o = HSend b (h_tx p) (h_if p) (h_addr p).
Proof.
  intros ifc a isid skic i j V H. unfold try_rik in H. destruct (open_by_addr a i) as [n|] eqn:O; [|discriminate]. destruct (nth_error (g_sess i) n) as [p|] eqn:S; [|discriminate]. destruct (h_role p) eqn:R; [discriminate|]. destruct (ifc =? h_if p) eqn:E1; cbn [andb] in H; [|discriminate]. destruct (isid =? h_tx p) eqn:E2; cbn [andb] in H; [|discriminate]. destruct (eq_bytes skic (h_skic p)) eqn:E3; [|discriminate]. assert (j = send_rik n i) as -> by congruence.
  apply eq_bytes_iff in E3. destruct (send_rik_says n i V) as (new & E & L & F). { intros q Q. unfold is_ses in Q. congruence. } exists n, p, new. repeat split; auto; try lia; try congruence. intros o IN. destruct (F o IN) as (q & b & Q & _ & QO & QR & QE). assert (q = p) as -> by (unfold is_ses in Q; congruence). exists b. auto.
Qed.
Definition still (i j : hinst) : Prop := g_sess j = g_sess i /\ g_addrs j = g_addrs i /\ g_epds j = g_epds i /\ g_down j = g_down i.
Lemma still_says : forall l i, still i (says l i).
Proof. intros l i. repeat split. Qed.
Lemma iikeying_says : forall age isid cookie cert skic text sig ifc a cs i j, INV cr i -> 0 <= age -> seconds_of age < U64MAX -> sized cookie -> ii_signed_wire isid cookie cert skic text -> In (CHUNK_IIKEYING, text ++ sig) cs ->
  on_iikeying cr age isid cookie cert skic text sig ifc a i = Ok j -> still i j /\ exists new, g_out j = g_out i ++ new /\ sends new <= 1 /\ Forall (answer cr i age ifc a cs) new.
Proof.
  intros age isid cookie cert skic text sig ifc a cs i j V A S SC W IN H. unfold on_iikeying in H. assert (N : still i i /\ exists new, g_out i = g_out i ++ new /\ sends new <= 1 /\ Forall (answer cr i age ifc a cs) new) by (split; [repeat split|]; exists []; rewrite app_nil_r; split; [reflexivity|]; split; [cbv; discriminate|constructor]).
  destruct (g_down i); [apply Ok_inj in H; subst; exact N|]. destruct (check_cookie _ _ _ _ _) as [v| |] eqn:CK; cbn [rbind] in H; try discriminate. destruct v; [apply Ok_inj in H; subst; exact N| |].
  - cbv zeta in H. assert (SN := make_cookie_sized cr age a C A S). set (new := make_cookie _ _ _ _) in *. rewrite make_cookie_change_ok in H by assumption. cbn [rbind] in H. destruct (fits _ _) as [c|] eqn:F; apply Ok_inj in H; subst j; [|exact N]. apply fits_some in F. subst c. rewrite says_two. split; [apply still_says|]. eexists. split; [reflexivity|]. split; [cbv; discriminate|]. assert (G : good_cookie cr age a new) by (apply made_good; assumption).
    constructor; [|constructor; [|constructor]]; [apply an_cookie; exact G|]. eapply an_change; [exact IN|exact W|exact CK|exact G|]. exists (field cookie). split; [apply field_enc'; exact SC|reflexivity].
  - destruct (c_decodes cr cert); cbn [negb] in H; [|apply Ok_inj in H; subst; exact N]. destruct (try_rik ifc a isid skic i) as [j'|] eqn:TR.
    + apply Ok_inj in H. subst j'. destruct (try_rik_says _ _ _ _ _ _ (v_ses _ _ V) TR) as (n & p & new & O & SP & R & E1 & E2 & E3 & -> & L & F). split; [apply still_says|]. exists new. split; [reflexivity|]. split; [exact L|]. apply Forall_forall. intros o IO. destruct (F o IO) as (b & ST & RF & ->). rewrite E1. eapply an_again; eauto. rewrite E2, E3. exact W.
    + destruct (_ >=? _); apply Ok_inj in H; subst j; [exact N|]. split; [repeat split|]. exists []. cbn. rewrite app_nil_r. split; [reflexivity|]. split; [cbv; discriminate|constructor].
Qed.
(** ** Candidates *)
Definition from_redirect (a : addr) (cs : list (Z * list Z)) (tag : list Z) (x : addr) : Prop :=
  exists c l, In (CHUNK_REDIRECT, c) cs /\ redirect_wire tag l c /\ (In x l \/ (l = [] /\ x = mkAddr (a_fam a) (a_ip a) (a_port a) 2)).
Definition cand_one (D : list Z -> addr -> Prop) (p q : ses) : Prop := q = h_with_cands (h_cands q) p /\ (h_cands q = h_cands p \/ (h_state p = IHELLO_SENT /\ forall x, In x (h_cands q) -> In x (h_cands p) \/ D (h_tag p) x)).
Definition CR (D : list Z -> addr -> Prop) (i j : hinst) : Prop := length (g_sess j) = length (g_sess i) /\ g_addrs j = g_addrs i /\ g_epds j = g_epds i /\ g_down j = g_down i /\ forall n p, is_ses i n p -> exists q, is_ses j n q /\ cand_one D p q.
Lemma with_own_cands : forall p, h_with_cands (h_cands p) p = p.
Proof. intros []. reflexivity. Qed.
Lemma cand_refl : forall D p, cand_one D p p.
Proof. intros D p. split; [symmetry; apply with_own_cands|left; reflexivity]. Qed.
Lemma CR_still : forall D i j, still i j -> CR D i j.
Proof. intros D i j (A & B & E & F). unfold CR, is_ses. rewrite A. split; [reflexivity|]. split; [exact B|]. split; [exact E|]. split; [exact F|]. intros n p H. exists p. split; [exact H|apply cand_refl]. Qed.
Lemma cand_trans : forall D p q r, cand_one D p q -> cand_one D q r -> cand_one D p r.
Proof.
  intros D p q r (A1 & A2) (B1 & B2). assert (ET : h_tag q = h_tag p) by (rewrite A1; reflexivity). assert (ES : h_state q = h_state p) by (rewrite A1; reflexivity). split; [rewrite B1; rewrite A1; reflexivity|]. rewrite ET, ES in B2. destruct A2 as [A2|(A2 & A3)], B2 as [B2|(B2 & B3)].
  - left. congruence.
  - right. split; [exact B2|]. rewrite <- A2. exact B3.
  - right. split; [exact A2|]. rewrite B2. exact A3.
  - right. split; [exact A2|]. intros x X. destruct (B3 x X) as [Y|Y]; [apply A3; exact Y|right; exact Y].
Qed.
Lemma CR_trans : forall D i j k, CR D i j -> CR D j k -> CR D i k.
Proof.
  intros D i j k (A1 & A2 & A3 & A4 & A5) (B1 & B2 & B3 & B4 & B5). split; [congruence|]. split; [congruence|]. split; [congruence|]. split; [congruence|]. intros n p H. destruct (A5 n p H) as (q & Q & E). destruct (B5 n q Q) as (r & R & F). exists r. split; [exact R|exact (cand_trans D p q r E F)].
Qed.
Lemma CR_back : forall D i j n q, CR D i j -> is_ses j n q -> exists p, is_ses i n p /\ cand_one D p q.
Proof.
  intros D i j n q (L & _ & _ & _ & A) H. unfold is_ses in *. destruct (nth_error (g_sess i) n) as [p|] eqn:E; [|apply nth_error_None in E; assert (nth_error (g_sess j) n <> None) by congruence; apply nth_error_Some in H0; lia]. exists p. split; [reflexivity|]. destruct (A n p E) as (q' & Q & X). unfold is_ses in Q. assert (q' = q) as <- by congruence. exact X.
Qed.
Lemma candidate_CR : forall (D : list Z -> addr -> Prop) n b a i, (forall p, is_ses i n p -> D (h_tag p) a) -> CR D i (add_candidate n b a i).
Proof.
  intros D n b a i HD. unfold add_candidate. destruct (nth_error (g_sess i) n) as [p|] eqn:S; [|apply CR_still; repeat split]. destruct (state_is IHELLO_SENT p) eqn:ST; cbn [negb orb]; [|apply CR_still; repeat split]. destruct (_ || _); [apply CR_still; repeat split|].
  split; [cbn; apply set_len|]. split; [reflexivity|]. split; [reflexivity|]. split; [reflexivity|]. intros m q Q. destruct (Nat.eq_dec m n) as [->|NE].
  - assert (q = p) as -> by (unfold is_ses in Q; congruence). eexists. split; [apply (set_self i n p _ S)|]. split; [reflexivity|]. right. split; [apply state_is_iff; exact ST|]. cbn. intros x [<-|X]; [right; apply (HD p S)|left; exact X].
  - exists q. split; [unfold is_ses; rewrite set_other by exact NE; exact Q|apply cand_refl].
Qed.
Lemma candidate_out : forall n b a i, g_out (add_candidate n b a i) = g_out i.
Proof. intros n b a i. unfold add_candidate. destruct (nth_error _ n); [|reflexivity]. destruct (_ || _); reflexivity. Qed.
Lemma redirect_CR : forall (D : list Z -> addr -> Prop) tag addrs i, (forall x, In x addrs -> D tag x) -> CR D i (on_redirect tag addrs i) /\ g_out (on_redirect tag addrs i) = g_out i.
Proof.
  intros D tag addrs i HD. unfold on_redirect. destruct (opening_by_tag tag i) as [n|] eqn:O; [|split; [apply CR_still; repeat split|reflexivity]].
  assert (T : forall p, is_ses i n p -> h_tag p = tag). { intros p S. unfold opening_by_tag in O. apply find_ses_is in O. destruct O as (q & Q & X). assert (q = p) as -> by (unfold is_ses in *; congruence). apply andb_true_iff in X. apply eq_bytes_iff, X. }
  clear O. revert i T. induction addrs as [|x r IH]; intros i T; cbn [fold_left]; [split; [apply CR_still; repeat split|reflexivity]|].
  assert (S1 : CR D i (add_candidate n true x i)) by (apply candidate_CR; intros p S; rewrite (T p S); apply HD; left; reflexivity). destruct (IH (fun y Y => HD y (or_intror Y)) (add_candidate n true x i)) as (A & B).
  - intros q Q. destruct (CR_back _ _ _ _ _ S1 Q) as (p & P & E & _). rewrite E. cbn. apply T. exact P.
  - split; [exact (CR_trans _ _ _ _ S1 A)|]. rewrite B. apply candidate_out.
Qed.
Lemma rhello_still : forall tag cookie cert ifc a i, still i (on_rhello cr tag cookie cert ifc a i) /\ g_out (on_rhello cr tag cookie cert ifc a i) = g_out i.
Proof. intros. unfold on_rhello. destruct (opening_by_tag tag i) as [n|]; [|repeat split]. destruct (nth_error _ n); [|repeat split]. destruct (_ || _); repeat split. Qed.
Lemma answer_back : forall D i j age ifc a cs o, CR D i j -> answer cr j age ifc a cs o -> answer cr i age ifc a cs o.
Proof.
  intros D i j age ifc a cs o X H. destruct H as [| |t sig isid old cert skic cookie w|n q t sig cookie cert b IN W G S R ST O F RF]; [apply an_cookie; assumption|eapply an_hello; eauto|eapply an_change; eauto|]. destruct (CR_back _ _ _ _ _ X S) as (p & P & E & _). rewrite E in *. cbn in *.
  refine (an_again cr i age ifc a cs n p t sig cookie cert b IN W G P R ST _ F _); [|exact RF]. destruct X as (_ & X & _). unfold open_by_addr in *. rewrite <- X. exact O.
Qed.
Lemma answer_mono : forall i age ifc a cs cs' o, incl cs cs' -> answer cr i age ifc a cs o -> answer cr i age ifc a cs' o.
Proof. intros i age ifc a cs cs' o I H. destruct H; [apply an_cookie; assumption|eapply an_hello; eauto|eapply an_change; eauto|eapply an_again; eauto]. Qed.
Lemma startup_says : forall age ifc a all, 0 <= age -> seconds_of age < U64MAX -> forall cs seen i j, incl cs all -> INV cr i -> Forall (fun c => fits64 (snd c)) cs -> on_startup cr age ifc a seen cs i = Ok j ->
  CR (from_redirect a all) i j /\ exists new, g_out j = g_out i ++ new /\ sends new <= (if seen then 0 else 1) + of_type CHUNK_IIKEYING cs /\ Forall (answer cr i age ifc a all) new.
Proof.
  intros age ifc a all A S. set (D := from_redirect a all). induction cs as [|(ty & c) r IH]; intros seen i j I V F H; cbn [on_startup] in H.
  - apply Ok_inj in H. subst. split; [apply CR_still; repeat split|]. exists []. rewrite app_nil_r. split; [reflexivity|]. split; [destruct seen; cbv; discriminate|constructor].
  - inversion F as [|? ? F1 F2]; subst. cbn in F1. assert (SC := fits_sized c F1). assert (I0 : In (ty, c) all) by (apply I; left; reflexivity). assert (I2 : incl r all) by (intros x X; apply I; right; exact X).
    assert (K : forall (seen' : bool) i1, CR D i i1 -> INV cr i1 -> (exists new1, g_out i1 = g_out i ++ new1 /\ sends new1 + (if seen' then 0 else 1) <= (if seen then 0 else 1) + (if ty =? CHUNK_IIKEYING then 1 else 0) /\ Forall (answer cr i age ifc a all) new1) -> on_startup cr age ifc a seen' r i1 = Ok j ->
       CR D i j /\ exists new, g_out j = g_out i ++ new /\ sends new <= (if seen then 0 else 1) + of_type CHUNK_IIKEYING ((ty, c) :: r) /\ Forall (answer cr i age ifc a all) new).
    { intros seen' i1 X V1 (new1 & E1 & L1 & G1) H1. destruct (IH seen' i1 j I2 V1 F2 H1) as (Y & new2 & E2 & L2 & G2). split; [exact (CR_trans _ _ _ _ X Y)|]. exists (new1 ++ new2). rewrite E2, E1, app_assoc. split; [reflexivity|]. rewrite sends_app, type_cons. split; [lia|]. apply Forall_app. split; [exact G1|]. eapply Forall_impl; [|exact G2]. intros o. apply (answer_back D i i1). exact X. }
    assert (KN : forall (seen' : bool), (if seen' then 0 else 1) <= (if seen then 0 else 1) -> exists new1, g_out i = g_out i ++ new1 /\ sends new1 + (if (seen' : bool) then 0 else 1) <= (if (seen : bool) then 0 else 1) + (if ty =? CHUNK_IIKEYING then 1 else 0) /\ Forall (answer cr i age ifc a all) new1).
    { intros seen' L. exists []. rewrite app_nil_r. split; [reflexivity|]. split; [change (sends []) with 0; destruct (ty =? CHUNK_IIKEYING), seen, seen'; lia|constructor]. }
    assert (CR0 : CR D i i) by (apply CR_still; repeat split).
    destruct (ty =? CHUNK_IHELLO) eqn:T1.
    { apply Z.eqb_eq in T1. subst ty. destruct seen; [apply (K true i CR0 V); [apply (KN true); cbn; lia|exact H]|]. apply bind_ok in H. destruct H as (i1 & H1 & H). destruct (parse_ihello c) as [(epd & tag)| |] eqn:P; cbn [opt] in H1; [|apply Ok_inj in H1; subst i1; apply (K true i CR0 V); [apply (KN true); cbn; lia|exact H]|discriminate].
      apply ihello_iff in P; [|exact SC]. assert (ST : sized tag) by (destruct P as (f & _ & ->); apply sized_r in SC; exact SC). destruct (ihello_good cr age epd tag ifc a 2 i C V A S ST) as (i1' & E' & V1 & _). assert (i1' = i1) as -> by congruence. destruct (ihello_says age epd tag ifc a 2 i i1 A S ST H1) as (new & -> & L & G).
      apply (K true (says new i)); [apply CR_still, still_says|exact V1| |exact H]. exists new. split; [reflexivity|]. split; [cbn; lia|]. eapply Forall_impl; [|exact G]. intros o (CM & [(_ & _ & cookie & GC & [->|(w & W & ->)])|(X & _)]); [apply an_cookie; exact GC|eapply an_hello; eauto|discriminate]. }
    destruct (ty =? CHUNK_RHELLO) eqn:T2.
    { apply bind_ok in H. destruct H as (i1 & H1 & H). destruct (parse_rhello c) as [((tag & cookie) & cert)| |] eqn:P; cbn [opt] in H1; [|apply Ok_inj in H1; subst i1; apply (K seen i CR0 V); [apply (KN seen), Z.le_refl|exact H]|discriminate].
      apply Ok_inj in H1. subst i1. destruct (rhello_still tag cookie cert ifc a i) as (X & Y). apply rhello_iff in P; [|exact SC]. assert (sized cookie). { destruct P as (f & g & _ & G & ->). apply sized_r in SC. apply (field_sized cookie g cert SC G). }
      apply (K seen _ (CR_still D _ _ X)); [apply rhello_INV; assumption| |exact H]. rewrite Y. apply (KN seen), Z.le_refl. }
    destruct (ty =? CHUNK_REDIRECT) eqn:T3.
    { apply Z.eqb_eq in T3. subst ty. apply bind_ok in H. destruct H as (i1 & H1 & H). destruct (parse_redirect c a) as [(tag & addrs)| |] eqn:P; cbn [opt] in H1; [|apply Ok_inj in H1; subst i1; apply (K seen i CR0 V); [apply (KN seen), Z.le_refl|exact H]|discriminate].
      apply Ok_inj in H1. subst i1. apply redirect_iff in P; [|exact SC]. destruct P as (l & W & E). destruct (redirect_CR D tag addrs i) as (X & Y).
      { intros x IX. exists c, l. split; [exact I0|]. split; [exact W|]. destruct l as [|y l]; [right; subst addrs; destruct IX as [<-|[]]; split; reflexivity|left; subst addrs; exact IX]. }
      apply (K seen _ X); [apply redirect_INV; exact V| |exact H]. rewrite Y. apply (KN seen), Z.le_refl. }
    destruct (ty =? CHUNK_IIKEYING) eqn:T4.
    { apply Z.eqb_eq in T4. subst ty. apply bind_ok in H. destruct H as (i1 & H1 & H). destruct (parse_iikeying c) as [(((((isid & cookie) & cert) & skic) & text) & sig)| |] eqn:P; cbn [opt] in H1; [|apply Ok_inj in H1; subst i1; apply (K seen i CR0 V); [apply (KN seen), Z.le_refl|exact H]|discriminate].
      apply iikeying_iff in P; [|exact SC]. destruct P as (W & ->). assert (Z : sized cookie /\ sized skic). { destruct W as (x & f & g & h & _ & W1 & W2 & W3 & ->). rewrite <- !app_assoc in SC. apply sized_r in SC. pose proof (field_sized cookie f _ SC W1). apply sized_r in SC. apply sized_r in SC. split; [assumption|apply (field_sized skic h _ SC W3)]. }
      destruct Z as (Z1 & Z2). destruct (iikeying_good cr age isid cookie cert skic text sig ifc a i C V A S Z1 Z2 W) as (i1' & E' & V1 & _). assert (i1' = i1) as -> by congruence. destruct (iikeying_says age isid cookie cert skic text sig ifc a all i i1 V A S Z1 W I0 H1) as (X & new & E & L & G).
      apply (K seen i1 (CR_still D _ _ X) V1); [|exact H]. exists new. split; [exact E|]. split; [cbn; destruct seen; lia|exact G]. }
    apply (K seen i CR0 V); [apply (KN seen), Z.le_refl|exact H].
Qed.
(** ** Chunks for a session *)
Definition TR (e : hevent) (i j : hinst) : Prop := length (g_sess j) = length (g_sess i) /\ g_addrs j = g_addrs i /\ g_epds j = g_epds i /\ g_down j = g_down i /\ forall n p, is_ses i n p -> exists q, is_ses j n q /\ touched e p q.
Lemma touched_refl : forall e p, touched e p p.
Proof. intros e p. constructor; auto. destruct p; reflexivity. Qed.
Lemma TR_still : forall e i j, still i j -> TR e i j.
Proof. intros e i j (A & B & E & F). unfold TR, is_ses. rewrite A. split; [reflexivity|]. split; [exact B|]. split; [exact E|]. split; [exact F|]. intros n p H. exists p. split; [exact H|apply touched_refl]. Qed.
Lemma TR_startup : forall age ifc a cs i j, CR (from_redirect a cs) i j -> TR (EStartup age ifc a cs) i j.
Proof.
  intros age ifc a cs i j (A1 & A2 & A3 & A4 & A5). split; [exact A1|]. split; [exact A2|]. split; [exact A3|]. split; [exact A4|]. intros n p H. destruct (A5 n p H) as (q & Q & E & K). exists q. split; [exact Q|]. constructor.
  - rewrite E. destruct p; reflexivity.
  - left. rewrite E. split; reflexivity.
  - destruct K as [K|(K1 & K2)]; [left; exact K|right]. split; [exact K1|]. intros x X. destruct (K2 x X) as [Y|(c & l & Y1 & Y2 & Y3)]; [left; exact Y|right]. exists age, ifc, a, cs, c, l. auto.
Qed.
Lemma by_rx_is : forall id i n, by_rx id i = Some n -> exists p, is_ses i n p /\ h_rx p = id /\ h_state p <> CLOSED.
Proof. intros id i n H. apply find_ses_is in H. destruct H as (p & S & F). exists p. apply andb_true_iff in F. destruct F as (F1 & F2). split; [exact S|]. split; [lia|]. apply negb_true_iff in F2. apply state_isnt_iff in F2. exact F2. Qed.
Lemma chunk_says : forall age id st fi ty c i j, INV cr i -> fits64 c -> 0 <= age -> seconds_of age < U64MAX -> on_session_chunk cr age id st fi ty c i = Ok j ->
  TR (EChunk age id st fi ty c) i j /\ exists new, g_out j = g_out i ++ new /\ Forall (said cr i (EChunk age id st fi ty c)) new.
Proof.
  intros age id st fi ty c i j V F A S H. unfold on_session_chunk in H. assert (SC := fits_sized c F). set (e := EChunk age id st fi ty c).
  assert (N : forall k, still i k -> g_out k = g_out i -> TR e i k /\ exists new, g_out k = g_out i ++ new /\ Forall (said cr i e) new) by (intros k K1 K2; split; [apply TR_still; exact K1|]; exists []; rewrite app_nil_r; split; [exact K2|constructor]).
  assert (N0 := N i (conj eq_refl (conj eq_refl (conj eq_refl eq_refl))) eq_refl).
  destruct (by_rx id i) as [n|] eqn:B; [|apply Ok_inj in H; subst; exact N0]. destruct (by_rx_is _ _ _ B) as (p' & SP & RX & _). unfold is_ses in SP. rewrite SP in H. rename p' into p. destruct (state_is KEYING_SENT p) eqn:K.
  - destruct st; cbn [negb] in H; [|apply Ok_inj in H; subst; exact N0]. destruct (ty =? CHUNK_RIKEYING) eqn:T1.
    + destruct (parse_rikeying c) as [(((rsid & skrc) & text) & sig)| |]; cbn [opt] in H; [|apply Ok_inj in H; subst; exact N0|discriminate]. apply Ok_inj in H. subst j. unfold on_rikeying. rewrite SP, K. cbn [negb]. apply N; [repeat split|reflexivity].
    + destruct (ty =? CHUNK_COOKIE_CHANGE) eqn:T2; [|apply Ok_inj in H; subst; exact N0]. destruct (parse_cookie_change c) as [(o & w)| |] eqn:P; cbn [opt] in H; [|apply Ok_inj in H; subst; exact N0|discriminate]. apply Ok_inj in H. subst j. unfold on_cookie_change. rewrite SP, K. cbn [negb orb]. destruct (h_changed p) eqn:CH; cbn [orb]; [exact N0|]. destruct (eq_bytes o (h_cookie p)) eqn:EO; cbn [negb]; [|exact N0].
      apply eq_bytes_iff in EO. subst o. apply cookie_change_iff in P; [|exact SC]. apply Z.eqb_eq in T2. split; [|exists []; cbn; rewrite app_nil_r; split; [reflexivity|constructor]]. split; [cbn; apply set_len|]. split; [reflexivity|]. split; [reflexivity|]. split; [reflexivity|]. intros m q Q. destruct (Nat.eq_dec m n) as [->|NE].
      * assert (q = p) as -> by (unfold is_ses in Q; congruence). eexists. split; [apply (set_self i n p _ SP)|]. constructor; [destruct p; reflexivity| |left; reflexivity]. right. split; [apply state_is_iff; exact K|]. split; [exact CH|]. split; [reflexivity|]. exists age, fi, c. split; [unfold e; subst; reflexivity|exact P].
      * exists q. split; [|apply touched_refl]. change (nth_error (set_at (g_sess i) n (h_with_cookie w true p)) m = Some q). pose proof (set_other i n (h_with_cookie w true p) m NE) as X. cbn in X. rewrite X. exact Q.
  - destruct st; cbn [negb andb] in H; [apply Ok_inj in H; subst; exact N0|]. destruct (state_is OPEN p) eqn:O; cbn [andb] in H; [|apply Ok_inj in H; subst; exact N0]. destruct (ty =? CHUNK_FIHELLO) eqn:T; [|apply Ok_inj in H; subst; exact N0]. apply Z.eqb_eq in T. subst ty.
    destruct (parse_fihello c) as [((epd & reply) & tag)| |] eqn:P; cbn [opt] in H; [|apply Ok_inj in H; subst; exact N0|discriminate]. apply fihello_iff in P; [|exact SC]. assert (STG : sized tag). { destruct P as (f & g & x & _ & _ & _ & _ & E). rewrite E in SC. apply sized_r in SC. apply sized_r in SC. exact SC. }
    destruct (ihello_says age epd tag (-1) reply fi i j A S STG H) as (new & -> & L & G). split; [apply TR_still, still_says|]. exists new. split; [reflexivity|]. eapply Forall_impl; [|exact G]. apply state_is_iff in O. intros o (CM & [(M0 & M1 & cookie & GC & [->|(w & W & ->)])|(-> & w & W & ->)]).
    + eapply sd_fcookie; eauto.
    + eapply sd_fhello; eauto.
    + eapply sd_fredirect; eauto.
Qed.
(** ** What does not speak *)
Lemma did_open_out : forall n i, g_out (h_did_open n i) = g_out i.
Proof. intros n i. unfold h_did_open. destruct (nth_error _ n); reflexivity. Qed.
Lemma did_close_out : forall n i, g_out (h_did_close n i) = g_out i.
Proof. intros n i. unfold h_did_close. destruct (nth_error _ n); reflexivity. Qed.
Lemma abort_out : forall n i, g_out (h_abort n i) = g_out i.
Proof. intros n i. unfold h_abort. destruct (nth_error _ n); [|reflexivity]. destruct (state_is CLOSED s); [reflexivity|]. rewrite did_close_out. reflexivity. Qed.
Lemma close_out : forall n i, g_out (h_close n i) = g_out i.
Proof. intros n i. unfold h_close. destruct (nth_error _ n); [|reflexivity]. destruct (state_is OPEN s); [|reflexivity]. rewrite did_close_out. reflexivity. Qed.
Lemma start_out : forall n c i, g_out (start_iik n c i) = g_out i.
Proof. intros n c i. unfold start_iik. destruct (nth_error _ n); reflexivity. Qed.
Lemma set_open_out : forall n tx i j, set_open cr n tx i = Ok j -> g_out j = g_out i.
Proof. intros n tx i j H. unfold set_open in H. destruct (nth_error _ n) as [p|]; [|discriminate]. destruct (h_cert p); [|discriminate]. apply Ok_inj in H. subst. rewrite did_open_out. reflexivity. Qed.
Lemma accept_out : forall isid skic skrc cert ifc a ch glare i j, accept cr isid skic skrc cert ifc a ch glare i = Ok j -> g_out j = g_out i.
Proof.
  intros isid skic skrc cert ifc a ch glare i j H. destruct (accept_eq cr isid skic skrc cert ifc a ch glare i) as [E|(_ & _ & k & K & E)]; rewrite E in H; apply Ok_inj in H; subst; [reflexivity|]. cbn. destruct K as [->|(g & q & _ & _ & _ & ->)]; rewrite ?abort_out, did_open_out; reflexivity.
Qed.
Lemma do_iik_out : forall n p cookie skic upd nonce i j, do_iik cr n p cookie skic upd nonce i = Ok j -> exists new, g_out j = g_out i ++ new /\ forall o, In o new -> exists c t, o = HSigned c t.
Proof.
  intros n p cookie skic upd nonce i j H. unfold do_iik in H. destruct (h_cert p) as [cert|]; [|discriminate]. apply bind_ok in H. destruct H as ([(t & chunk)|] & _ & H); apply Ok_inj in H; subst j; cbn; [eexists; split; [reflexivity|]; intros o [<-|[]]; eauto|exists []; rewrite app_nil_r; split; [reflexivity|intros o []]].
Qed.
Lemma run_says : forall k t ch i j, sessions_ok i -> task_ok cr i t -> run_task cr t ch i = Ok j -> exists new, g_out j = g_out i ++ new /\ Forall (said cr i (ERun k ch)) new.
Proof.
  intros k t ch i j V T H. assert (N : forall x, g_out x = g_out i -> exists new, g_out x = g_out i ++ new /\ Forall (said cr i (ERun k ch)) new) by (intros x X; exists []; rewrite app_nil_r; split; [exact X|constructor]).
  assert (G : forall (n : nat) x, (exists new, g_out x = g_out i ++ new /\ forall o, In o new -> exists c t, o = HSigned c t) -> exists new, g_out x = g_out i ++ new /\ Forall (said cr i (ERun k ch)) new). { intros _ x (new & E & F). exists new. split; [exact E|]. apply Forall_forall. intros o IO. destruct (F o IO) as (c & u & ->). apply sd_signed. }
  destruct t; cbn [run_task] in H; try (destruct (nth_error (g_sess i) n) as [p|] eqn:S; [|apply Ok_inj in H; subst; apply N; reflexivity]).
  - destruct (c_authentic cr cert); cbn [negb] in H; [|apply Ok_inj in H; subst; apply N; reflexivity]. destruct (state_is IHELLO_SENT p); cbn [negb] in H; [|apply Ok_inj in H; subst; apply N; reflexivity]. cbv zeta in H. match type of H with (match ?m with _ => _ end = _) => destruct m as [m'|] end; [apply Ok_inj in H; subst; apply N; rewrite abort_out, did_open_out; reflexivity|].
    destruct (opening_by_epd _ _ _ _); apply Ok_inj in H; subst; apply N; [rewrite abort_out|]; reflexivity.
  - destruct (ch_comp ch) as [skic|]; [|apply Ok_inj in H; subst; apply N; reflexivity]. apply do_iik_out in H. apply (G n). exact H.
  - apply Ok_inj in H. subst. apply N. rewrite start_out. destruct skic; reflexivity.
  - apply Ok_inj in H. subst. apply N. apply abort_out.
  - apply do_iik_out in H. apply (G n). exact H.
  - destruct (h_cert p); [|discriminate]. destruct (c_check _ _ _ _); cbn [negb] in H; [|apply Ok_inj in H; subst; apply N; reflexivity]. destruct (ch_ok ch); apply Ok_inj in H; subst; apply N; reflexivity.
  - destruct (state_is KEYING_SENT p); cbn [negb] in H; [|apply Ok_inj in H; subst; apply N; reflexivity]. apply set_open_out in H. apply N. exact H.
  - destruct (c_authentic cr cert); cbn [negb] in H; [|apply Ok_inj in H; subst; apply N; reflexivity]. destruct (c_check _ _ _ _); cbn [negb] in H; [|apply Ok_inj in H; subst; apply N; reflexivity]. destruct (ch_comp ch); apply Ok_inj in H; subst; apply N; reflexivity.
  - destruct (g_down i); [apply Ok_inj in H; subst; apply N; reflexivity|]. destruct (try_rik ifc a isid skic i) as [j'|] eqn:TR'.
    + apply Ok_inj in H. subst j'. destruct (try_rik_says _ _ _ _ _ _ V TR') as (n & p & new & O & SP & R & E1 & E2 & E3 & -> & L & F). exists new. split; [reflexivity|]. apply Forall_forall. intros o IO. destruct (F o IO) as (b & ST & RF & ->). eapply sd_rik; eauto.
    + cbv zeta in H. match type of H with (match ?m with _ => _ end = _) => destruct m as [o|] end; [|apply Ok_inj in H; subst; apply N; reflexivity]. assert (E : forall x, g_out (match o with Some m => h_abort m x | None => x end) = g_out x) by (intros x; destruct o; [apply abort_out|reflexivity]). destruct (opening_by_addr a _); [destruct (c_wins cr cert); [apply Ok_inj in H; subst; apply N; apply E|]|]; apply accept_out in H; apply N; rewrite H; apply E.
  - destruct (make_rikeying _ _ _ _) as (text & chunk). apply Ok_inj in H. subst. apply (G n). eexists. split; [reflexivity|]. intros o [<-|[]]. eauto.
  - apply Ok_inj in H. subst. destruct T as (p' & SP & R & M). assert (p' = p) as -> by (unfold is_ses in SP; congruence). unfold send_rik. rewrite (set_self i n p (h_with_rik chunk p) S). destruct (state_is OPEN (h_with_rik chunk p)) eqn:O; cbn [andb]; [|apply N; reflexivity]. destruct (negb _); [|apply N; reflexivity].
    eexists. split; [reflexivity|]. constructor; [|constructor]. apply state_is_iff in O. cbn in O. exact (sd_rik cr i k ch n p chunk S R O (rik_made_for i p chunk M)).
Qed.

(** ** The initiator's keying *)
Definition iik_inv (i : hinst) : Prop := (forall n p c, is_ses i n p -> h_iik p = Some c -> iik_for cr p c) /\ (forall n o c p, In (TStart n o c) (g_tasks i) -> is_ses i n p -> iik_for cr p c).
Lemma iik_ev : forall p q c, ev p q -> iik_for cr p c -> iik_for cr q c.
Proof. intros p q c E (cookie & k & t & ce & nonce & A1 & A2 & A3 & A4). exists cookie, k, t, ce, nonce. split; [apply (cert_ev p q ce E A1)|]. rewrite (e_rx _ _ E). split; [exact A2|]. split; [apply (own_ev p q k E A3)|exact A4]. Qed.
(** No keying comes that was not there *)
Definition KI (i j : hinst) : Prop := (forall n q c, is_ses j n q -> h_iik q = Some c -> exists p, is_ses i n p /\ h_iik p = Some c) /\ (forall n o c, In (TStart n o c) (g_tasks j) -> In (TStart n o c) (g_tasks i)).
Lemma KI_refl : forall i, KI i i.
Proof. intros i. split; eauto. Qed.
Lemma KI_trans : forall i j k, KI i j -> KI j k -> KI i k.
Proof. intros i j k (A1 & A2) (B1 & B2). split; [|auto]. intros n q c Q E. destruct (B1 n q c Q E) as (p & P & F). apply (A1 n p c P F). Qed.
Lemma KI_same : forall i j, g_sess j = g_sess i -> g_tasks j = g_tasks i -> KI i j.
Proof. intros i j A B. unfold KI, is_ses. rewrite A, B. split; eauto. Qed.
Lemma KI_set : forall i n p q, is_ses i n p -> h_iik q = None \/ h_iik q = h_iik p -> KI i (g_set n q i).
Proof.
  intros i n p q S H. split; [|auto]. intros m r c R E. destruct (set_look i n p q m r S R) as [(-> & ->)|(_ & X)]; [|eauto]. destruct H as [H|H]; [congruence|]. exists p. split; [exact S|congruence].
Qed.
Lemma KI_perform : forall t i, (forall n o c, t <> TStart n o c) -> KI i (perform t i).
Proof. intros t i T. split; [eauto|]. intros n o c H. cbn in H. apply in_app_or in H. destruct H as [H|[H|[]]]; [exact H|]. exfalso. apply (T n o c). exact H. Qed.
Lemma KI_done : forall k i, KI i (g_done k i).
Proof.
  intros k i. split; [eauto|]. intros n o c H. cbn in H. apply in_app_or in H. destruct H as [H|H]; [rewrite <- (firstn_skipn k (g_tasks i))|rewrite <- (firstn_skipn (S k) (g_tasks i))]; apply in_or_app; [left|right]; exact H.
Qed.
Lemma KI_put : forall i p, h_iik p = None -> KI i (g_put (g_sess i ++ [p]) i).
Proof. intros i p H. split; [|auto]. intros n q c Q E. unfold is_ses in Q. cbn in Q. apply app_look in Q. destruct Q as [(_ & ->)|(_ & Q)]; [congruence|eauto]. Qed.
Lemma did_open_KI : forall n i, KI i (h_did_open n i).
Proof. intros n i. apply KI_same; unfold h_did_open; destruct (nth_error _ n); reflexivity. Qed.
Lemma did_close_KI : forall n i, KI i (h_did_close n i).
Proof. intros n i. apply KI_same; unfold h_did_close; destruct (nth_error _ n); reflexivity. Qed.
Lemma abort_KI : forall n i, KI i (h_abort n i).
Proof. intros n i. unfold h_abort. destruct (nth_error (g_sess i) n) as [p|] eqn:S; [|apply KI_refl]. destruct (state_is CLOSED p); [apply KI_refl|]. eapply KI_trans; [|apply did_close_KI]. apply (KI_set i n p _ S). left. reflexivity. Qed.
Lemma close_KI : forall n i, KI i (h_close n i).
Proof. intros n i. unfold h_close. destruct (nth_error (g_sess i) n) as [p|] eqn:S; [|apply KI_refl]. destruct (state_is OPEN p); [|apply KI_refl]. eapply KI_trans; [|apply did_close_KI]. apply (KI_set i n p _ S). left. reflexivity. Qed.
Lemma candidate_KI : forall n b a i, KI i (add_candidate n b a i).
Proof. intros n b a i. unfold add_candidate. destruct (nth_error (g_sess i) n) as [p|] eqn:S; [|apply KI_refl]. destruct (_ || _); [apply KI_refl|]. apply (KI_set i n p _ S). right. reflexivity. Qed.
Lemma redirect_KI : forall tag addrs i, KI i (on_redirect tag addrs i).
Proof. intros tag addrs i. unfold on_redirect. destruct (opening_by_tag tag i) as [n|]; [|apply KI_refl]. revert i. induction addrs as [|x r IH]; intros i; cbn [fold_left]; [apply KI_refl|]. eapply KI_trans; [apply candidate_KI|apply IH]. Qed.
Lemma set_open_KI : forall n tx i j, set_open cr n tx i = Ok j -> KI i j.
Proof.
  intros n tx i j H. unfold set_open in H. destruct (nth_error (g_sess i) n) as [p|] eqn:S; [|discriminate]. destruct (h_cert p); [|discriminate]. apply Ok_inj in H. subst. eapply KI_trans; [|apply did_open_KI]. apply (KI_set i n p _ S). right. reflexivity.
Qed.
Lemma accept_KI : forall isid skic skrc cert ifc a ch glare i j, accept cr isid skic skrc cert ifc a ch glare i = Ok j -> KI i j.
Proof.
  intros isid skic skrc cert ifc a ch glare i j H. destruct (accept_eq cr isid skic skrc cert ifc a ch glare i) as [E|(_ & _ & k & K & E)]; rewrite E in H; apply Ok_inj in H; subst; [apply KI_refl|]. eapply KI_trans; [|apply KI_perform; discriminate].
  assert (B : KI i (h_did_open (length (g_sess i)) (g_put (g_sess i ++ [accepted cr isid skic skrc cert ifc a (ch_id ch)]) i))) by (exact (KI_trans _ _ _ (KI_put i (accepted cr isid skic skrc cert ifc a (ch_id ch)) eq_refl) (did_open_KI _ _))). destruct K as [->|(g & q & _ & _ & _ & ->)]; [exact B|]. eapply KI_trans; [exact B|apply abort_KI].
Qed.
Lemma send_rik_KI : forall n i, KI i (send_rik n i).
Proof. intros n i. apply KI_same; unfold send_rik; destruct (nth_error _ n); try reflexivity; destruct (_ && _); reflexivity. Qed.
Lemma try_rik_KI : forall ifc a isid skic i j, try_rik ifc a isid skic i = Some j -> KI i j.
Proof.
  intros ifc a isid skic i j H. unfold try_rik in H. destruct (open_by_addr a i) as [n|]; [|discriminate]. destruct (nth_error _ n) as [p|]; [|discriminate]. destruct (h_role p); [discriminate|]. destruct (_ && _); [|discriminate]. assert (j = send_rik n i) as -> by congruence. apply send_rik_KI.
Qed.
Lemma ihello_KI : forall age epd tag ifc a mode i j, on_ihello cr age epd tag ifc a mode i = Ok j -> KI i j.
Proof.
  intros age epd tag ifc a mode i j H. unfold on_ihello in H. destruct (mode =? 0); [apply Ok_inj in H; subst; apply KI_refl|]. destruct (negb _); [apply Ok_inj in H; subst; apply KI_refl|]. destruct (mode =? 1); cbv zeta in H; apply bind_ok in H; destruct H as ([c|] & _ & H); apply Ok_inj in H; subst; apply KI_same; reflexivity.
Qed.
Lemma iikeying_KI : forall age isid cookie cert skic text sig ifc a i j, on_iikeying cr age isid cookie cert skic text sig ifc a i = Ok j -> KI i j.
Proof.
  intros age isid cookie cert skic text sig ifc a i j H. unfold on_iikeying in H. destruct (g_down i); [apply Ok_inj in H; subst; apply KI_refl|]. apply bind_ok in H. destruct H as (v & _ & H). destruct v; [apply Ok_inj in H; subst; apply KI_refl| |].
  - cbv zeta in H. apply bind_ok in H. destruct H as ([c|] & _ & H); apply Ok_inj in H; subst; apply KI_same; reflexivity.
  - destruct (negb _); [apply Ok_inj in H; subst; apply KI_refl|]. destruct (try_rik ifc a isid skic i) as [j'|] eqn:T; [apply Ok_inj in H; subst; apply (try_rik_KI _ _ _ _ _ _ T)|]. destruct (_ >=? _); apply Ok_inj in H; subst; [apply KI_refl|]. eapply KI_trans; [|apply KI_perform; discriminate]. apply KI_same; reflexivity.
Qed.
Lemma rhello_KI : forall tag cookie cert ifc a i, KI i (on_rhello cr tag cookie cert ifc a i).
Proof. intros. unfold on_rhello. destruct (opening_by_tag tag i) as [n|]; [|apply KI_refl]. destruct (nth_error _ n); [|apply KI_refl]. destruct (_ || _); [apply KI_refl|apply KI_perform; discriminate]. Qed.
Lemma startup_KI : forall age ifc a cs seen i j, on_startup cr age ifc a seen cs i = Ok j -> KI i j.
Proof.
  intros age ifc a cs. induction cs as [|(ty & c) r IH]; intros seen i j H; cbn [on_startup] in H; [apply Ok_inj in H; subst; apply KI_refl|].
  destruct (ty =? CHUNK_IHELLO). { destruct seen; [apply (IH _ _ _ H)|]. apply bind_ok in H. destruct H as (i1 & H1 & H). eapply KI_trans; [|apply (IH _ _ _ H)]. apply opt_ok in H1. destruct H1 as [->|((epd & tag) & _ & H1)]; [apply KI_refl|apply (ihello_KI _ _ _ _ _ _ _ _ H1)]. }
  destruct (ty =? CHUNK_RHELLO). { apply bind_ok in H. destruct H as (i1 & H1 & H). eapply KI_trans; [|apply (IH _ _ _ H)]. apply opt_ok in H1. destruct H1 as [->|(((tag & cookie) & cert) & _ & H1)]; [apply KI_refl|apply Ok_inj in H1; subst; apply rhello_KI]. }
  destruct (ty =? CHUNK_REDIRECT). { apply bind_ok in H. destruct H as (i1 & H1 & H). eapply KI_trans; [|apply (IH _ _ _ H)]. apply opt_ok in H1. destruct H1 as [->|((tag & addrs) & _ & H1)]; [apply KI_refl|apply Ok_inj in H1; subst; apply redirect_KI]. }
  destruct (ty =? CHUNK_IIKEYING). { apply bind_ok in H. destruct H as (i1 & H1 & H). eapply KI_trans; [|apply (IH _ _ _ H)]. apply opt_ok in H1. destruct H1 as [->|((((((isid & cookie) & cert) & skic) & text) & sig) & _ & H1)]; [apply KI_refl|apply (iikeying_KI _ _ _ _ _ _ _ _ _ _ _ H1)]. }
  apply (IH _ _ _ H).
Qed.
Lemma chunk_KI : forall age id st fi ty c i j, on_session_chunk cr age id st fi ty c i = Ok j -> KI i j.
Proof.
  intros age id st fi ty c i j H. unfold on_session_chunk in H. destruct (by_rx id i) as [n|]; [|apply Ok_inj in H; subst; apply KI_refl]. destruct (nth_error (g_sess i) n) as [p|] eqn:S; [|apply Ok_inj in H; subst; apply KI_refl]. destruct (state_is KEYING_SENT p).
  - destruct (negb st); [apply Ok_inj in H; subst; apply KI_refl|]. destruct (ty =? CHUNK_RIKEYING).
    + apply opt_ok in H. destruct H as [->|((((rsid & skrc) & text) & sig) & _ & H)]; [apply KI_refl|apply Ok_inj in H; subst]. unfold on_rikeying. rewrite S. destruct (negb _); [apply KI_refl|apply KI_perform; discriminate].
    + destruct (ty =? CHUNK_COOKIE_CHANGE); [|apply Ok_inj in H; subst; apply KI_refl]. apply opt_ok in H. destruct H as [->|((o & w) & _ & H)]; [apply KI_refl|apply Ok_inj in H; subst]. unfold on_cookie_change. rewrite S. destruct (_ || _); [apply KI_refl|]. eapply KI_trans; [|apply KI_perform; discriminate]. apply (KI_set i n p _ S). right. reflexivity.
  - destruct (_ && _); [|apply Ok_inj in H; subst; apply KI_refl]. apply opt_ok in H. destruct H as [->|(((epd & reply) & tag) & _ & H)]; [apply KI_refl|apply (ihello_KI _ _ _ _ _ _ _ _ H)].
Qed.
(** A task that makes no keying, one that makes one, one that starts one *)
Lemma run_KI : forall t ch i j, run_task cr t ch i = Ok j -> (forall n o c, t <> TStart n o c) -> (forall n, t <> TCookie n) -> (forall n x y, t <> TSkic n x y) -> KI i j.
Proof.
  intros t ch i j H N1 N2 N3. destruct t; cbn [run_task] in H; try (destruct (nth_error (g_sess i) n) as [p|] eqn:S; [|apply Ok_inj in H; subst; apply KI_refl]).
  - destruct (negb _); [apply Ok_inj in H; subst; apply KI_refl|]. destruct (negb _); [apply Ok_inj in H; subst; apply KI_refl|]. cbv zeta in H. match type of H with (match ?m with _ => _ end = _) => destruct m as [m'|] end; [apply Ok_inj in H; subst; eapply KI_trans; [apply did_open_KI|apply abort_KI]|].
    destruct (opening_by_epd _ _ _ _); apply Ok_inj in H; subst; [apply abort_KI|]. eapply KI_trans; [|apply KI_perform; discriminate]. apply (KI_set i n p _ S). right. reflexivity.
  - exfalso. eapply N3. reflexivity.
  - exfalso. eapply N1. reflexivity.
  - apply Ok_inj in H. subst. apply abort_KI.
  - exfalso. eapply N2. reflexivity.
  - destruct (h_cert p); [|discriminate]. destruct (negb _); [apply Ok_inj in H; subst; apply KI_refl|]. assert (X : KI i (g_set n (h_with_far (skrc :: h_far p) p) i)) by (apply (KI_set i n p _ S); right; reflexivity). destruct (ch_ok ch); apply Ok_inj in H; subst; [|exact X]. eapply KI_trans; [exact X|apply KI_perform; discriminate].
  - destruct (negb _); [apply Ok_inj in H; subst; apply KI_refl|]. apply (set_open_KI _ _ _ _ H).
  - assert (X : KI i (g_wait (g_waiting i - 1) i)) by (apply KI_same; reflexivity). destruct (negb _); [apply Ok_inj in H; subst; exact X|]. destruct (negb _); [apply Ok_inj in H; subst; exact X|]. destruct (ch_comp ch); apply Ok_inj in H; subst; [|exact X]. eapply KI_trans; [exact X|apply KI_perform; discriminate].
  - destruct (g_down i); [apply Ok_inj in H; subst; apply KI_refl|]. destruct (try_rik ifc a isid skic i) as [j'|] eqn:T; [apply Ok_inj in H; subst; apply (try_rik_KI _ _ _ _ _ _ T)|]. cbv zeta in H. match type of H with (match ?m with _ => _ end = _) => destruct m as [o|] end; [|apply Ok_inj in H; subst; apply KI_refl].
    assert (E : KI i (match o with Some m => h_abort m i | None => i end)) by (destruct o; [apply abort_KI|apply KI_refl]). destruct (opening_by_addr a _); [destruct (c_wins cr cert); [apply Ok_inj in H; subst; exact E|]|]; (eapply KI_trans; [exact E|apply (accept_KI _ _ _ _ _ _ _ _ _ _ H)]).
  - destruct (make_rikeying _ _ _ _) as (text & chunk). apply Ok_inj in H. subst. eapply KI_trans; [|apply KI_perform; discriminate]. apply KI_same; reflexivity.
  - apply Ok_inj in H. subst. eapply KI_trans; [|apply send_rik_KI]. apply (KI_set i n p _ S). right. reflexivity.
Qed.
Lemma iik_KI : forall i j, INV cr i -> ext i j -> KI i j -> iik_inv i -> iik_inv j.
Proof.
  intros i j V (X & _) (K1 & K2) (A & B). split.
  - intros n q c Q E. destruct (K1 n q c Q E) as (p & P & F). destruct (X n p P) as (q' & Q' & EV). assert (q' = q) as -> by (unfold is_ses in *; congruence). apply (iik_ev p q c EV), (A n p c P F).
  - intros n o c q IN Q. apply K2 in IN. destruct (v_task _ _ V _ IN) as (p & P & _). destruct (X n p P) as (q' & Q' & EV). assert (q' = q) as -> by (unfold is_ses in *; congruence). apply (iik_ev p q c EV), (B n o c p IN P).
Qed.
Lemma iik_gen : forall i j, INV cr i -> ext i j -> iik_inv i ->
  (forall m q d, is_ses j m q -> h_iik q = Some d -> (exists p, is_ses i m p /\ h_iik p = Some d) \/ exists o, In (TStart m o d) (g_tasks i)) ->
  (forall m o d, In (TStart m o d) (g_tasks j) -> In (TStart m o d) (g_tasks i) \/ forall q, is_ses j m q -> iik_for cr q d) -> iik_inv j.
Proof.
  intros i j V (X & _) (A & B) H1 H2. split.
  - intros n q c Q E. destruct (H1 n q c Q E) as [(p & P & F)|(o & IN)].
    + destruct (X n p P) as (q' & Q' & EV). assert (q' = q) as -> by (unfold is_ses in *; congruence). apply (iik_ev p q c EV), (A n p c P F).
    + destruct (v_task _ _ V _ IN) as (p & P & _). destruct (X n p P) as (q' & Q' & EV). assert (q' = q) as -> by (unfold is_ses in *; congruence). apply (iik_ev p q c EV), (B n o c p IN P).
  - intros n o c q IN Q. destruct (H2 n o c IN) as [I|I]; [|apply I; exact Q]. destruct (v_task _ _ V _ I) as (p & P & _). destruct (X n p P) as (q' & Q' & EV). assert (q' = q) as -> by (unfold is_ses in *; congruence). apply (iik_ev p q c EV), (B n o c p I P).
Qed.
(** What a keying is made of *)
Lemma do_iik_tasks : forall n p cert cookie k upd nonce i j, h_cert p = Some cert -> is_u32 (h_rx p) -> sized cookie -> sized k -> do_iik cr n p cookie k upd nonce i = Ok j ->
  forall m o d, In (TStart m o d) (g_tasks j) -> In (TStart m o d) (g_tasks i) \/ (m = n /\ exists t, ii_signed_wire (h_rx p) cookie (c_cert cr []) k t /\ d = chunk_bytes CHUNK_IIKEYING (t ++ c_sign cr cert t nonce)).
Proof.
  intros n p cert cookie k upd nonce i j CE UR SC SK H m o d IN. unfold do_iik in H. rewrite CE in H. assert (SN : sized (c_cert cr [])) by (apply fits_sized, C). rewrite make_iikeying_ok in H; [|exact SC|exact SN|exact SK|intros; apply C]. cbn [rbind] in H. destruct (_ <=? _); apply Ok_inj in H; subst j; cbn in IN; apply in_app_or in IN; destruct IN as [IN|[IN|[]]]; [left; exact IN| |left; exact IN|discriminate]. right.
  inversion IN; subst. split; [reflexivity|]. exists (ii_text (h_rx p) cookie (c_cert cr []) k). split; [apply ii_enc; assumption|reflexivity].
Qed.
Lemma done_in : forall k i t, In t (g_tasks (g_done k i)) -> In t (g_tasks i).
Proof. intros k i t H. cbn in H. apply in_app_or in H. destruct H as [H|H]; [rewrite <- (firstn_skipn k (g_tasks i))|rewrite <- (firstn_skipn (S k) (g_tasks i))]; apply in_or_app; [left|right]; exact H. Qed.
Lemma iik_step : forall i e j, INV cr i -> hevent_ok e -> iik_inv i -> hstep cr i e = Ok j -> iik_inv j.
Proof.
  intros i e j V OK I H. destruct (step_good cr i e C V OK) as (j' & E & _ & X). assert (j' = j) as -> by congruence. clear E. assert (G : KI i j -> iik_inv j) by (intros K; apply (iik_KI i j V X K I)).
  destruct e as [epd tag id|n a|n a|n|n|n| |n ifc a|age ifc a cs|age id st fi ty c|k ch]; cbn [hstep] in H.
  - apply G. destruct (g_down i); [apply Ok_inj in H; subst; apply KI_refl|]. destruct (open_by_epd epd i); [apply Ok_inj in H; subst; apply KI_refl|]. destruct (opening_by_epd cr epd None i); [apply Ok_inj in H; subst; apply KI_refl|]. destruct (_ || _); apply Ok_inj in H; subst; [apply KI_refl|apply KI_put; reflexivity].
  - apply G. apply Ok_inj in H. subst. apply candidate_KI.
  - apply G. destruct (nth_error (g_sess i) n) as [p|]; [|apply Ok_inj in H; subst; apply KI_refl]. destruct (_ && _); [|apply Ok_inj in H; subst; apply KI_refl]. apply bind_ok in H. destruct H as ([c|] & _ & H); apply Ok_inj in H; subst; apply KI_same; reflexivity.
  - apply G. destruct (nth_error (g_sess i) n) as [p|] eqn:S; [|apply Ok_inj in H; subst; apply KI_refl]. destruct (h_iik p) as [c|] eqn:HI; [|apply Ok_inj in H; subst; apply KI_refl]. destruct (state_is KEYING_SENT p); apply Ok_inj in H; subst; [apply KI_same; reflexivity|]. apply (KI_set i n p _ S). left. reflexivity.
  - apply G. apply Ok_inj in H. subst. apply abort_KI.
  - apply G. apply Ok_inj in H. subst. apply close_KI.
  - apply G. apply Ok_inj in H. subst. apply KI_same; reflexivity.
  - apply G. destruct (nth_error (g_sess i) n) as [p|] eqn:S; [|apply Ok_inj in H; subst; apply KI_refl]. destruct (state_is OPEN p); apply Ok_inj in H; subst; [|apply KI_refl]. eapply KI_trans; [apply (KI_set i n p (h_with_place ifc a p) S); right; reflexivity|apply KI_same; reflexivity].
  - apply G. apply (startup_KI _ _ _ _ _ _ _ H).
  - apply G. apply (chunk_KI _ _ _ _ _ _ _ _ H).
  - destruct (nth_error (g_tasks i) k) as [t|] eqn:T; [|apply G; apply Ok_inj in H; subst; apply KI_refl]. assert (IT : In t (g_tasks i)) by (apply nth_error_In in T; exact T). assert (TO := v_task _ _ V t IT).
    destruct t as [n cookie cert ifc a|n cookie cert|n skic chunk|n|n|n rsid skrc text sig|n rsid|isid skic text sig cert ifc a|isid skic skrc cert ifc a|n skrc skic cert|n chunk]; try (apply G; eapply KI_trans; [apply (KI_done k)|apply (run_KI _ _ _ _ H); discriminate]).
    + destruct TO as (p & S & R & CE & ST & SC). cbn [run_task] in H. change (g_sess (g_done k i)) with (g_sess i) in H. unfold is_ses in S. rewrite S in H. destruct (ch_comp ch) as [skic|] eqn:CC.
      2:{ apply G. apply Ok_inj in H. subst. eapply KI_trans; [apply (KI_done k)|apply KI_perform; discriminate]. }
      destruct (v_ses _ _ V n p S) as (UR & _). assert (SK : sized skic) by (apply fits_sized; cbn in OK; unfold choice_ok in OK; rewrite CC in OK; exact OK). assert (HS := do_iik_sess _ _ _ _ _ _ _ _ _ H). pose proof (do_iik_tasks n p cert cookie skic _ _ _ _ CE UR SC SK H) as HT. assert (SJ : is_ses j n (h_with_own (Some skic) p)) by (unfold is_ses; rewrite HS; apply (set_self (g_done k i) n p _ S)).
      apply (iik_gen i j V X I).
      * intros m q d Q E. left. unfold is_ses in Q. rewrite HS in Q. destruct (set_look (g_done k i) n p _ m q S Q) as [(-> & ->)|(_ & Y)]; [exists p; split; [exact S|exact E]|exists q; split; [exact Y|exact E]].
      * intros m o d IN. destruct (HT m o d IN) as [Y|(-> & t & W & ->)]; [left; apply done_in in Y; exact Y|right]. intros q Q. assert (q = h_with_own (Some skic) p) as -> by (unfold is_ses in *; congruence). exists cookie, skic, t, cert, (ch_nonce ch). split; [exact CE|]. split; [exact W|]. split; [right; reflexivity|reflexivity].
    + destruct TO as (p & S & R & ST & OW). cbn [run_task] in H. change (g_sess (g_done k i)) with (g_sess i) in H. unfold is_ses in S. rewrite S in H. apply Ok_inj in H. set (i1 := match skic with Some x => g_set n (h_with_skic x p) (g_done k i) | None => g_done k i end) in H.
      assert (S1 : exists p1, is_ses i1 n p1 /\ h_iik p1 = h_iik p). { destruct skic as [x|]; [exists (h_with_skic x p); split; [apply (set_self (g_done k i) n p _ S)|reflexivity]|exists p; split; [exact S|reflexivity]]. }
      assert (KI1 : KI i i1). { eapply KI_trans; [apply (KI_done k)|]. unfold i1. destruct skic as [x|]; [|apply KI_refl]. apply (KI_set (g_done k i) n p _ S). right. reflexivity. }
      destruct S1 as (p1 & S1 & _). unfold start_iik in H. unfold is_ses in S1. rewrite S1 in H. subst j. apply (iik_gen i _ V X I).
      * intros m q d Q E. destruct (set_look i1 n p1 _ m q S1 Q) as [(-> & ->)|(_ & Y)]; [|left; apply (proj1 KI1 m q d Y E)]. unfold h_with_iik in E. cbn [h_iik] in E. destruct (state_is KEYING_SENT p1); [|discriminate]. assert (chunk = d) as <- by congruence. right. exists skic. exact IT.
      * intros m o d IN. left. apply (proj2 KI1). exact IN.
    + destruct TO as (p & S & R & CE & ST). cbn [run_task] in H. change (g_sess (g_done k i)) with (g_sess i) in H. unfold is_ses in S. rewrite S in H. destruct (h_cert p) as [cert|] eqn:HC; [|congruence]. destruct (v_ses _ _ V n p S) as (UR & K). rewrite R in K. assert (SK := own_sized _ _ _ K (io_skic _ _ K)).
      assert (HS := do_iik_sess _ _ _ _ _ _ _ _ _ H). pose proof (do_iik_tasks n p cert (h_cookie p) (h_skic p) _ _ _ _ HC UR (io_cookie _ _ K) SK H) as HT. apply (iik_gen i j V X I).
      * intros m q d Q E. left. unfold is_ses in Q. rewrite HS in Q. exists q. split; [exact Q|exact E].
      * intros m o d IN. destruct (HT m o d IN) as [Y|(-> & t & W & ->)]; [left; apply done_in in Y; exact Y|right]. intros q Q. assert (q = p) as -> by (unfold is_ses in Q; rewrite HS in Q; cbn in Q; congruence). exists (h_cookie p), (h_skic p), t, cert, (ch_nonce ch). split; [exact HC|]. split; [exact W|]. split; [apply (io_skic _ _ K)|reflexivity].
Qed.
(** ** Steps *)
Lemma step_says : forall i e j, INV cr i -> iik_inv i -> hevent_ok e -> hstep cr i e = Ok j -> exists new, g_out j = g_out i ++ new /\ Forall (said cr i e) new.
Proof.
  intros i e j V I OK H. assert (N : forall x, g_out x = g_out i -> exists new, g_out x = g_out i ++ new /\ Forall (said cr i e) new) by (intros x X; exists []; rewrite app_nil_r; split; [exact X|constructor]).
  destruct e as [epd tag id|n a|n a|n|n|n| |n ifc a|age ifc a cs|age id st fi ty c|k ch]; cbn [hstep] in H.
  - apply N. destruct (g_down i); [apply Ok_inj in H; subst; reflexivity|]. destruct (open_by_epd epd i); [apply Ok_inj in H; subst; reflexivity|]. destruct (opening_by_epd cr epd None i); [apply Ok_inj in H; subst; reflexivity|]. destruct (_ || _); apply Ok_inj in H; subst; reflexivity.
  - apply Ok_inj in H. subst. apply N, candidate_out.
  - destruct (nth_error (g_sess i) n) as [p|] eqn:S; [|apply Ok_inj in H; subst; apply N; reflexivity]. destruct (state_is IHELLO_SENT p) eqn:ST; cbn [andb] in H; [|apply Ok_inj in H; subst; apply N; reflexivity]. destruct (existsb _ _) eqn:EX; [|apply Ok_inj in H; subst; apply N; reflexivity]. apply state_is_iff in ST. destruct (ihello_role cr i n p V S (or_introl ST)) as (R & K). destruct (io_hello _ _ K ST) as (EA & _). rewrite EA in H.
    rewrite make_ihello_ok in H by (try apply (io_tag _ _ K); apply (io_asked _ _ K)). cbn [rbind] in H. destruct (fits _ _) as [c|] eqn:F; apply Ok_inj in H; subst; [|apply N; reflexivity]. apply fits_some in F. subst c. eexists. split; [reflexivity|]. constructor; [|constructor]. apply existsb_exists in EX. destruct EX as (b & IB & EB).
    eapply sd_hello; eauto. exists (field (h_asked p)). split; [apply field_enc', (io_asked _ _ K)|reflexivity].
  - destruct (nth_error (g_sess i) n) as [p|] eqn:S; [|apply Ok_inj in H; subst; apply N; reflexivity]. destruct (h_iik p) as [c|] eqn:HI; [|apply Ok_inj in H; subst; apply N; reflexivity]. destruct (state_is KEYING_SENT p) eqn:ST; apply Ok_inj in H; subst; [|apply N; reflexivity]. apply state_is_iff in ST. destruct (ihello_role cr i n p V S (or_intror ST)) as (R & K).
    eexists. split; [reflexivity|]. constructor; [|constructor]. exact (sd_iik cr i n p c S R ST (proj1 I n p c S HI)).
  - apply Ok_inj in H. subst. apply N, abort_out.
  - apply Ok_inj in H. subst. apply N, close_out.
  - apply Ok_inj in H. subst. apply N. reflexivity.
  - apply N. destruct (nth_error (g_sess i) n) as [p|] eqn:S; [|apply Ok_inj in H; subst; reflexivity]. destruct (state_is OPEN p); apply Ok_inj in H; subst; reflexivity.
  - destruct OK as (F & A & S & _). destruct (startup_says age ifc a cs A S cs false i j (incl_refl cs) V F H) as (_ & new & E & _ & G). exists new. split; [exact E|]. eapply Forall_impl; [|exact G]. intros o. apply sd_answer.
  - destruct OK as (F & A & S). destruct (chunk_says age id st fi ty c i j V F A S H) as (_ & X). exact X.
  - destruct (nth_error (g_tasks i) k) as [t|] eqn:T; [|apply Ok_inj in H; subst; apply N; reflexivity]. assert (IT : In t (g_tasks i)) by (apply nth_error_In in T; exact T). assert (TO := task_ext cr i (g_done k i) t (done_ext k i) (v_task _ _ V t IT)).
    destruct (run_says k t ch (g_done k i) j) as (new & E & F); [|exact TO|exact H|]. { intros n p S. apply (ses_ext cr i (g_done k i) p (done_ext k i)). apply (v_ses _ _ V n p S). }
    exists new. split; [exact E|]. eapply Forall_impl; [|exact F]. intros o O. inversion O; subst; [eapply sd_rik; eauto|apply sd_signed].
Qed.
Lemma iik_start : iik_inv hinst0.
Proof. split; [intros [|n] p c H; discriminate|intros n o c p []]. Qed.
Lemma iik_run : forall l i j, INV cr i -> iik_inv i -> Forall hevent_ok l -> hrun cr i l = Ok j -> INV cr j /\ iik_inv j.
Proof.
  induction l as [|e l IH]; intros i j V I F H; cbn [hrun] in H; [apply Ok_inj in H; subst; auto|]. inversion F; subst. destruct (step_good cr i e C V H2) as (i1 & E & V1 & _). rewrite E in H. cbn [rbind] in H. apply (IH i1 j V1 (iik_step i e i1 V H2 I E) H3 H).
Qed.
Lemma packet_touches : forall i e j, INV cr i -> hevent_ok e -> is_packet e = true -> hstep cr i e = Ok j -> TR e i j.
Proof.
  intros i e j V OK P H. destruct e; try discriminate; cbn [hstep] in H.
  - destruct OK as (F & A & S & _). destruct (startup_says age ifc a cs A S cs false i j (incl_refl cs) V F H) as (X & _). apply TR_startup. exact X.
  - destruct OK as (F & A & S). apply (chunk_says age id startup fi ty c i j V F A S H).
Qed.
(** ** Changes of state *)
Definition ck (p q : ses) : Prop := h_cookie q = h_cookie p /\ h_changed q = h_changed p.
Definition WP (W : nat -> ses -> hstate -> Prop) (i j : hinst) : Prop := forall n p, is_ses i n p -> exists q, is_ses j n q /\ (h_state q = h_state p \/ W n p (h_state q)) /\ (h_state p = IHELLO_SENT \/ ck p q).
Definition SP (i j : hinst) : Prop := forall n p, is_ses i n p -> exists q, is_ses j n q /\ h_state q = h_state p /\ ck p q.
Lemma ck_refl : forall p, ck p p.
Proof. split; reflexivity. Qed.
Lemma SP_same : forall i j, g_sess j = g_sess i -> SP i j.
Proof. intros i j E n p S. exists p. unfold is_ses in *. rewrite E. split; [exact S|]. split; [reflexivity|apply ck_refl]. Qed.
Lemma SP_WP : forall W i j, SP i j -> WP W i j.
Proof. intros W i j H n p S. destruct (H n p S) as (q & Q & A & B). exists q. auto. Qed.
Lemma SP_trans : forall i j k, SP i j -> SP j k -> SP i k.
Proof. intros i j k A B n p S. destruct (A n p S) as (q & Q & A1 & A2 & A3). destruct (B n q Q) as (r & R & B1 & B2 & B3). exists r. split; [exact R|]. split; [congruence|split; congruence]. Qed.
Lemma SP_set : forall i n p q, is_ses i n p -> h_state q = h_state p -> ck p q -> SP i (g_set n q i).
Proof.
  intros i n p q S H1 H2 m r R. destruct (Nat.eq_dec m n) as [->|NE].
  - assert (r = p) as -> by (unfold is_ses in *; congruence). exists q. split; [apply (set_self i n p q S)|auto].
  - exists r. split; [unfold is_ses; rewrite set_other by exact NE; exact R|]. split; [reflexivity|apply ck_refl].
Qed.
Lemma WP_set : forall (W : nat -> ses -> hstate -> Prop) i n p q, is_ses i n p -> (h_state q = h_state p \/ W n p (h_state q)) -> (h_state p = IHELLO_SENT \/ ck p q) -> WP W i (g_set n q i).
Proof.
  intros W i n p q S H1 H2 m r R. destruct (Nat.eq_dec m n) as [->|NE].
  - assert (r = p) as -> by (unfold is_ses in *; congruence). exists q. split; [apply (set_self i n p q S)|auto].
  - exists r. split; [unfold is_ses; rewrite set_other by exact NE; exact R|]. split; [left; reflexivity|right; apply ck_refl].
Qed.
Lemma WP_then : forall W i j k, WP W i j -> SP j k -> WP W i k.
Proof.
  intros W i j k A B n p S. destruct (A n p S) as (q & Q & A1 & A2). destruct (B n q Q) as (r & R & B1 & B2 & B3). exists r. split; [exact R|]. split; [rewrite B1; exact A1|]. destruct A2 as [A2|(A2 & A3)]; [left; exact A2|right; split; congruence].
Qed.
Lemma abort_WP : forall (W : nat -> ses -> hstate -> Prop) n i, (forall p, is_ses i n p -> W n p CLOSED) -> WP W i (h_abort n i).
Proof.
  intros W n i H. unfold h_abort. destruct (nth_error (g_sess i) n) as [p|] eqn:S; [|apply SP_WP, SP_same; reflexivity]. destruct (state_is CLOSED p); [apply SP_WP, SP_same; reflexivity|]. apply (WP_then W i (g_set n (h_with_iik None (h_with_state CLOSED p)) i)); [|apply SP_same, did_close_sess]. apply (WP_set W i n p _ S); [right; apply H; exact S|right; split; reflexivity].
Qed.
Lemma app_SP : forall i p, SP i (g_put (g_sess i ++ [p]) i).
Proof. intros i p n q S. exists q. split; [|split; [reflexivity|split; reflexivity]]. unfold is_ses in *. cbn. rewrite nth_error_app1; [exact S|]. apply nth_error_Some. congruence. Qed.
Lemma start_SP : forall n c i, SP i (start_iik n c i).
Proof. intros n c i. unfold start_iik. destruct (nth_error (g_sess i) n) as [p|] eqn:S; [|apply SP_same; reflexivity]. apply (SP_set i n p _ S); [reflexivity|split; reflexivity]. Qed.
Lemma accept_WP : forall (W : nat -> ses -> hstate -> Prop) isid skic skrc cert ifc a ch glare i j, accept cr isid skic skrc cert ifc a ch glare i = Ok j ->
  (forall g q c, glare = Some g -> is_ses i g q -> h_state q = KEYING_SENT -> h_cert q = Some c -> c_overrides cr cert c = true -> W g q CLOSED) -> WP W i j.
Proof.
  intros W isid skic skrc cert ifc a ch glare i j H HW. unfold accept in H. destruct (_ || _); [apply Ok_inj in H; subst; apply SP_WP, SP_same; reflexivity|]. cbv zeta in H. apply bind_ok in H. destruct H as (i1 & H1 & H). apply Ok_inj in H. subst j.
  assert (B : g_sess i1 = g_sess i ++ [accepted cr isid skic skrc cert ifc a (ch_id ch)]). { unfold set_open in H1. cbn [g_put g_sess] in H1. rewrite nth_end in H1. cbn [new_responder h_cert] in H1. apply Ok_inj in H1. subst i1. rewrite did_open_sess. unfold g_set. cbn [g_put g_sess]. rewrite set_at_end. reflexivity. }
  assert (S1 : SP i i1). { intros n q S. exists q. split; [|split; [reflexivity|split; reflexivity]]. unfold is_ses in *. rewrite B, nth_error_app1; [exact S|]. apply nth_error_Some. congruence. }
  intros n p S. destruct (S1 n p S) as (p1 & P1 & _). assert (p1 = p) as ->. { unfold is_ses in *. rewrite B, nth_error_app1 in P1; [congruence|]. apply nth_error_Some. congruence. }
  set (ab := match glare with Some g => _ | None => None end). assert (A : forall g, ab = Some g -> glare = Some g /\ exists q c, is_ses i g q /\ h_state q = KEYING_SENT /\ h_cert q = Some c /\ c_overrides cr cert c = true).
  { intros g E. unfold ab in E. destruct glare as [g'|]; [|discriminate]. destruct (nth_error (g_sess i) g') as [q|] eqn:Q; [|discriminate]. destruct (state_is KEYING_SENT q) eqn:KS; cbn [andb] in E; [|discriminate]. destruct (h_cert q) as [c|] eqn:CQ; [|discriminate]. destruct (c_overrides cr cert c) eqn:OV; [|discriminate]. assert (g' = g) as -> by congruence. split; [reflexivity|]. apply state_is_iff in KS. exists q, c. auto. }
  clearbody ab. destruct ab as [g|]; [|exists p; split; [exact P1|split; [left; reflexivity|right; split; reflexivity]]]. destruct (A g eq_refl) as (GL & q & c & Q & KS & CQ & OV).
  destruct (abort_WP (fun m r s => m = g /\ s = CLOSED) g i1 (fun _ _ => conj eq_refl eq_refl) n p P1) as (r & R & R1 & R2). exists r. split; [exact R|]. split; [|exact R2]. destruct R1 as [R1|(-> & R1)]; [left; exact R1|right]. rewrite R1. assert (q = p) as -> by (unfold is_ses in *; congruence). apply (HW g p c); assumption.
Qed.
Lemma abort_keying : forall m i g q, is_ses (h_abort m i) g q -> h_state q = KEYING_SENT -> is_ses i g q.
Proof.
  intros m i g q H K. unfold h_abort in H. destruct (nth_error (g_sess i) m) as [p|] eqn:S; [|exact H]. destruct (state_is CLOSED p); [exact H|]. unfold is_ses in H. rewrite did_close_sess in H. destruct (set_look i m p _ g q S H) as [(_ & ->)|(_ & X)]; [discriminate|exact X].
Qed.
Lemma task_why : forall k t ch i j, INV cr i -> nth_error (g_tasks i) k = Some t -> run_task cr t ch (g_done k i) = Ok j -> WP (fun n p s => why cr i n p (ERun k ch) s) i j.
Proof.
  intros k t ch i j V T H. set (W := fun n p s => why cr i n p (ERun k ch) s). assert (N : forall x, g_sess x = g_sess i -> WP W i x) by (intros x X; apply SP_WP, SP_same, X). assert (TO := v_task _ _ V t (nth_error_In _ _ T)).
  destruct t as [n cookie cert ifc a|n cookie cert|n skic chunk|n|n|n rsid skrc text sig|n rsid|isid skic text sig cert ifc a|isid skic skrc cert ifc a|n skrc skic cert|n chunk]; cbn [run_task] in H; try (change (g_sess (g_done k i)) with (g_sess i) in H; destruct (nth_error (g_sess i) n) as [p|] eqn:S; [|apply Ok_inj in H; subst; apply N; reflexivity]).
  - destruct (c_authentic cr cert) eqn:AU; cbn [negb] in H; [|apply Ok_inj in H; subst; apply N; reflexivity]. destruct (state_is IHELLO_SENT p) eqn:ST; cbn [negb] in H; [|apply Ok_inj in H; subst; apply N; reflexivity]. apply state_is_iff in ST. cbv zeta in H. destruct TO as (p' & SP' & R & D & SEL & _). assert (p' = p) as -> by (unfold is_ses in *; congruence). clear SP'. destruct (ihello_role cr i n p V S (or_introl ST)) as (_ & K). destruct (io_hello _ _ K ST) as (EA & CN & _).
    match type of H with (match ?m with _ => _ end = _) => destruct m as [m'|] eqn:EX end.
    + apply Ok_inj in H. subst j. assert (X : exists q c, is_ses i m' q /\ h_cert q = Some c /\ open_by_epd (c_canonical cr cert) i = Some m' /\ c_selected cr c (h_asked p) = true).
      { change (open_by_epd (c_canonical cr cert) (g_done k i)) with (open_by_epd (c_canonical cr cert) i) in EX. destruct (open_by_epd (c_canonical cr cert) i) as [m|]; [|discriminate]. change (g_sess (g_done k i)) with (g_sess i) in EX. destruct (nth_error (g_sess i) m) as [q|] eqn:Q; [|discriminate]. destruct (h_cert q) as [c|] eqn:CQ; [|discriminate]. destruct (c_selected cr c (h_epd p)) eqn:SE; [|discriminate]. assert (m = m') as -> by congruence. exists q, c. rewrite <- EA. auto. }
      destruct X as (q & c & Q & CQ & O & SE). assert (X : WP W (h_did_open m' (g_done k i)) (h_abort n (h_did_open m' (g_done k i)))).
      { apply abort_WP. intros r' R'. unfold is_ses in R'. rewrite did_open_sess in R'. assert (r' = p) as -> by (cbn in R'; congruence). refine (w_known cr i n p k ch cookie cert ifc a m' q c ST T AU SEL _ Q CQ (or_introl (conj O SE))). intros ->. unfold is_ses in Q. congruence. }
      intros m r RS. apply X. unfold is_ses. rewrite did_open_sess. exact RS.
    + destruct (opening_by_epd cr (c_canonical cr cert) (Some n) (g_done k i)) as [m|] eqn:OE.
      * apply Ok_inj in H. subst j. unfold opening_by_epd in OE. change (g_sess (g_done k i)) with (g_sess i) in OE. apply (find_ses_is _ i) in OE. destruct OE as (q & Q & F). apply andb_true_iff in F. destruct F as (F & F3). apply andb_true_iff in F. destruct F as (F1 & F2). apply andb_true_iff in F2. destruct F2 as (F2 & F4). apply state_is_iff in F2. destruct (ihello_role cr i m q V Q (or_intror F2)) as (_ & KQ). destruct (io_keying _ _ KQ F2) as (EQ & c & CQ & _).
        apply (abort_WP W n (g_done k i)). intros r R'. assert (r = p) as -> by (unfold is_ses in R'; cbn in R'; congruence). refine (w_known cr i n p k ch cookie cert ifc a m q c ST T AU SEL _ Q CQ _); [intros ->; rewrite Nat.eqb_refl in F4; discriminate|]. right. split; [exact F2|]. rewrite CQ in F3. apply orb_true_iff in F3. destruct F3 as [F3|F3]; [right; apply eq_bytes_iff in F3; congruence|left; exact F3].
      * apply Ok_inj in H. subst j. apply (WP_set W (g_done k i) n p (h_with_keying ifc a cookie cert p) S); [right; eapply w_keyed; eauto|left; exact ST].
  - destruct (ch_comp ch) as [skic|]; [|apply Ok_inj in H; subst; apply N; reflexivity]. assert (HS := do_iik_sess _ _ _ _ _ _ _ _ _ H). apply SP_WP. apply (SP_trans i (g_set n (h_with_own (Some skic) p) (g_done k i))); [apply (SP_set (g_done k i) n p _ S); [reflexivity|split; reflexivity]|apply SP_same; exact HS].
  - apply Ok_inj in H. subst. apply SP_WP. destruct skic as [x|]; [|apply (start_SP n chunk (g_done k i))]. apply (SP_trans i (g_set n (h_with_skic x p) (g_done k i))); [apply (SP_set (g_done k i) n p _ S); [reflexivity|split; reflexivity]|apply start_SP].
  - apply Ok_inj in H. subst. apply (abort_WP W n (g_done k i)). intros p S. apply w_failed. exact T.
  - assert (HS := do_iik_sess _ _ _ _ _ _ _ _ _ H). apply N. exact HS.
  - destruct (h_cert p); [|discriminate]. destruct (negb _); [apply Ok_inj in H; subst; apply N; reflexivity|]. assert (X : SP i (g_set n (h_with_far (skrc :: h_far p) p) (g_done k i))) by (apply (SP_set (g_done k i) n p _ S); [reflexivity|split; reflexivity]). destruct (ch_ok ch); apply Ok_inj in H; subst; apply SP_WP; exact X.
  - destruct (state_is KEYING_SENT p) eqn:ST; cbn [negb] in H; [|apply Ok_inj in H; subst; apply N; reflexivity]. apply state_is_iff in ST. unfold set_open in H. change (g_sess (g_done k i)) with (g_sess i) in H. rewrite S in H. destruct (h_cert p) as [c|]; [|discriminate]. apply Ok_inj in H. subst j. apply (WP_then W i (g_set n (h_with_open (c_canonical cr c) rsid p) (g_done k i))); [|apply SP_same, did_open_sess]. apply (WP_set W (g_done k i) n p _ S); [right; eapply w_opened; eauto|right; split; reflexivity].
  - destruct (negb _); [apply Ok_inj in H; subst; apply N; reflexivity|]. destruct (negb _); [apply Ok_inj in H; subst; apply N; reflexivity|]. destruct (ch_comp ch); apply Ok_inj in H; subst; apply N; reflexivity.
  - destruct (g_down (g_done k i)); [apply Ok_inj in H; subst; apply N; reflexivity|]. destruct (try_rik ifc a isid skic (g_done k i)) as [j'|] eqn:TR'; [apply Ok_inj in H; subst; apply N; apply (try_rik_sess _ _ _ _ _ _ TR')|]. destruct TO as (_ & AU & _ & _ & cookie & age & CKE & IS). cbv zeta in H.
    match type of H with (match ?m with _ => _ end = _) => destruct m as [o|] eqn:OV end; [|apply Ok_inj in H; subst; apply N; reflexivity].
    assert (OO : forall m, o = Some m -> open_by_addr a i = Some m /\ exists q c, is_ses i m q /\ h_cert q = Some c /\ c_overrides cr cert c = true).
    { intros m ->. change (open_by_addr a (g_done k i)) with (open_by_addr a i) in OV. change (g_sess (g_done k i)) with (g_sess i) in OV. destruct (open_by_addr a i) as [m'|] eqn:OA; [|discriminate]. destruct (nth_error (g_sess i) m') as [q|] eqn:Q; [|discriminate]. destruct (h_cert q) as [c|] eqn:CQ; [|discriminate]. destruct (c_overrides cr cert c) eqn:OC; [|discriminate]. assert (m' = m) as -> by congruence. split; [reflexivity|]. exists q, c. auto. }
    set (i1 := match o with Some m => h_abort m (g_done k i) | None => g_done k i end) in *. assert (W1 : WP W i i1).
    { unfold i1. destruct o as [m|]; [|apply N; reflexivity]. destruct (OO m eq_refl) as (OA & q & c & Q & CQ & OC). apply (abort_WP W m (g_done k i)). intros r R. assert (r = q) as -> by (unfold is_ses in *; cbn in R; congruence). eapply w_overridden; eauto. }
    assert (AC : forall glare, accept cr isid skic skrc cert ifc a ch glare i1 = Ok j -> (forall g, glare = Some g -> opening_by_addr a i1 = Some g /\ c_wins cr cert = false) -> WP W i j).
    { intros glare HA HG n p S. destruct (W1 n p S) as (p1 & P1 & A1 & A2). destruct (accept_WP (fun m r s => glare = Some m /\ s = CLOSED /\ h_state r = KEYING_SENT /\ exists c, h_cert r = Some c /\ c_overrides cr cert c = true) _ _ _ _ _ _ _ _ _ _ HA) with (n := n) (p := p1) as (q & Q & B1 & B2).
      - intros g q c E Q KS CQ OC. eauto 10.
      - exact P1.
      - exists q. split; [exact Q|]. destruct B1 as [B1|(GL & B1 & KS & c & CQ & OC)].
        + rewrite B1. split; [exact A1|]. destruct A2 as [A2|A2]; [left; exact A2|]. destruct B2 as [B2|B2]; [|right; destruct A2, B2; split; congruence]. left. destruct A1 as [A1|A1]; [congruence|]. exfalso. rewrite B2 in A1. inversion A1.
        + destruct (HG n GL) as (OP & WI). assert (P0 : is_ses i n p1). { unfold i1 in P1. destruct o as [m|]; [apply (abort_keying m (g_done k i) n p1 P1 KS)|exact P1]. } assert (p1 = p) as -> by (unfold is_ses in *; congruence). split; [|right; destruct B2 as [B2|B2]; [congruence|exact B2]]. right. rewrite B1. eapply w_overridden; eauto. right. split; [exact KS|]. split; [|exact WI].
          unfold opening_by_addr in OP. apply (find_ses_is _ i1) in OP. destruct OP as (r & R & F). assert (r = p) as -> by (unfold is_ses in *; congruence). unfold opening_to in F. rewrite KS in F. exact F. }
    destruct (opening_by_addr a i1) as [g|] eqn:OB.
    + destruct (c_wins cr cert) eqn:WI; [apply Ok_inj in H; subst j; exact W1|]. apply (AC (Some g) H). intros g' E. split; [congruence|reflexivity].
    + apply (AC None H). discriminate.
  - destruct (make_rikeying _ _ _ _) as (text & chunk). apply Ok_inj in H. subst. apply N. reflexivity.
  - apply Ok_inj in H. subst. apply SP_WP. apply (SP_trans i (g_set n (h_with_rik chunk p) (g_done k i))); [apply (SP_set (g_done k i) n p _ S); [reflexivity|split; reflexivity]|apply SP_same, send_rik_sess].
Qed.
Lemma step_why : forall i e j, INV cr i -> hstep cr i e = Ok j -> is_packet e = false -> WP (fun n p s => why cr i n p e s) i j.
Proof.
  intros i e j V H P. set (W := fun n p s => why cr i n p e s). assert (N : forall x, g_sess x = g_sess i -> WP W i x) by (intros x X; apply SP_WP, SP_same, X).
  destruct e as [epd tag id|n a|n a|n|n|n| |n ifc a|age ifc a cs|age id st fi ty c|k ch]; cbn [hstep] in H; try discriminate.
  - destruct (g_down i); [apply Ok_inj in H; subst; apply N; reflexivity|]. destruct (open_by_epd epd i); [apply Ok_inj in H; subst; apply N; reflexivity|]. destruct (opening_by_epd cr epd None i); [apply Ok_inj in H; subst; apply N; reflexivity|]. destruct (_ || _); apply Ok_inj in H; subst; [apply N; reflexivity|apply SP_WP, app_SP].
  - apply Ok_inj in H. subst. unfold add_candidate. destruct (nth_error (g_sess i) n) as [p|] eqn:S; [|apply N; reflexivity]. destruct (_ || _); [apply N; reflexivity|]. apply SP_WP, (SP_set i n p _ S); [reflexivity|split; reflexivity].
  - apply N. destruct (nth_error (g_sess i) n) as [p|]; [|apply Ok_inj in H; subst; reflexivity]. destruct (_ && _); [|apply Ok_inj in H; subst; reflexivity]. apply bind_ok in H. destruct H as ([c|] & _ & H); apply Ok_inj in H; subst; reflexivity.
  - destruct (nth_error (g_sess i) n) as [p|] eqn:S; [|apply Ok_inj in H; subst; apply N; reflexivity]. destruct (h_iik p) as [c|] eqn:HI; [|apply Ok_inj in H; subst; apply N; reflexivity]. destruct (state_is KEYING_SENT p); apply Ok_inj in H; subst; [apply N; reflexivity|]. apply SP_WP, (SP_set i n p _ S); [reflexivity|split; reflexivity].
  - apply Ok_inj in H. subst. apply abort_WP. intros p S. apply w_told.
  - apply Ok_inj in H. subst. unfold h_close. destruct (nth_error (g_sess i) n) as [p|] eqn:S; [|apply N; reflexivity]. destruct (state_is OPEN p) eqn:ST; [|apply N; reflexivity]. apply state_is_iff in ST. apply (WP_then W i (g_set n (h_with_iik None (h_with_state CLOSING p)) i)); [|apply SP_same, did_close_sess]. apply (WP_set W i n p _ S); [right; apply w_closing; exact ST|right; split; reflexivity].
  - apply Ok_inj in H. subst. apply N. reflexivity.
  - destruct (nth_error (g_sess i) n) as [p|] eqn:S; [|apply Ok_inj in H; subst; apply N; reflexivity]. destruct (state_is OPEN p); apply Ok_inj in H; subst; [|apply N; reflexivity]. apply SP_WP. apply (SP_trans i (g_set n (h_with_place ifc a p) i)); [apply (SP_set i n p _ S); [reflexivity|split; reflexivity]|apply SP_same; reflexivity].
  - destruct (nth_error (g_tasks i) k) as [t|] eqn:T; [|apply Ok_inj in H; subst; apply N; reflexivity]. apply (task_why k t ch i j V T H).
Qed.
End O.
