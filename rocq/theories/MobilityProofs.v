From Verif Require Import Base BaseFacts VLU VLUSpec VLUProofs Address AddressSpec AddressProofs FlashCert FlashCertProofs Packet PacketSpec PacketProofs Cookie CookieProofs Mobility MobilitySpec.
Ltac Zify.zify_post_hook ::= Z.div_mod_to_equations.
Open Scope res_scope.

(** ** Checks *)
Lemma make_check_proof : forall sha secret now ifc a, ifc_ok ifc -> make_check sha secret now ifc a = proof sha secret now ifc a.
Proof.
  intros sha secret now ifc a H. unfold make_check, proof, sealed, plain, vlu_append, PING_MARKING_MOBILITY.
  replace (wrap64 ifc) with ifc by (unfold wrap64, ifc_ok in *; symmetry; apply Z.mod_small; lia). cbn [app]. rewrite <- !app_assoc. reflexivity.
Qed.
Lemma vlu_split : forall x y r s, is_u64 x -> is_u64 y -> vlu_encode x ++ r = vlu_encode y ++ s -> x = y /\ r = s.
Proof.
  intros x y r s Hx Hy E. destruct (vlu_encode_spec x Hx) as (Cx & Gx & _). destruct (vlu_encode_spec y Hy) as (Cy & Gy & _).
  assert (K : forall a b u v, complete_vlu a -> complete_vlu b -> a ++ u = b ++ v -> a = b /\ u = v).
  { induction a as [|c a IH]; intros b u v A B X; [inversion A|]. destruct b as [|d b]; [inversion B|]. cbn [app] in X. inversion X; subst d.
    inversion A; inversion B; subst; try lia; cbn [app] in *; auto.
    destruct (IH b u v) as (I1 & I2); auto. subst. auto. }
  destruct (K _ _ _ _ Cx Cy E) as (K1 & K2). split; [congruence|exact K2].
Qed.
Lemma sealed_inj : forall secret ts ifc a ts' ifc' a', is_u64 ts -> is_u64 ts' -> ifc_ok ifc -> ifc_ok ifc' -> addr_ok a -> addr_ok a' ->
  sealed secret ts ifc a = sealed secret ts' ifc' a' -> ts = ts' /\ ifc = ifc' /\ same_addr a a'.
Proof.
  intros secret ts ifc a ts' ifc' a' T T' I I' A A' E. unfold sealed in E. apply (f_equal (@tl Z)) in E. cbn [tl] in E.
  destruct (vlu_split _ _ _ _ T T' E) as (-> & E1).
  assert (UI : is_u64 ifc) by (unfold ifc_ok, is_u64, U64MAX in *; lia). assert (UI' : is_u64 ifc') by (unfold ifc_ok, is_u64, U64MAX in *; lia).
  destruct (vlu_split _ _ _ _ UI UI' E1) as (-> & E2). apply app_inv_tail in E2.
  split; [reflexivity|]. split; [reflexivity|].
  assert (X : same_addr (mkAddr (a_fam a) (a_ip a) (a_port a) 0) (mkAddr (a_fam a') (a_ip a') (a_port a') 0)).
  { apply encode_inj; auto; destruct A as [P1 P2 P3 P4]; destruct A' as [Q1 Q2 Q3 Q4]; constructor; cbn; auto; lia. }
  exact X.
Qed.
Lemma proof_bytes : forall sha secret ts ifc a, hash32m sha -> is_u64 ts -> bytes_ok (proof sha secret ts ifc a) /\ zlen (proof sha secret ts ifc a) <= 43.
Proof.
  intros sha secret ts ifc a H T. destruct (H (sealed secret ts ifc a)) as (B & L). destruct (vlu_encode_spec ts T) as (C & _ & LV & _). unfold proof. split.
  - constructor; [unfold is_byte; lia|]. apply Forall_app. split; [apply vlu_encode_bytes; exact T|exact B].
  - unfold zlen. cbn [length]. rewrite app_length. lia.
Qed.
Lemma proof_parse : forall sha secret ts ifc a, hash32m sha -> is_u64 ts -> exists n, vlu_parse (tl (proof sha secret ts ifc a)) = Ok (ts, n).
Proof.
  intros sha secret ts ifc a H T. unfold proof. cbn [tl]. exists (length (vlu_encode ts)). destruct (vlu_encode_spec ts T) as (C & G & _).
  rewrite vlu_parse_complete by (auto; apply (proj1 (H _))). rewrite G. f_equal. f_equal. unfold is_u64, U64MAX in *. lia.
Qed.
Lemma proof_ts : forall sha secret ts ifc a ts' n, hash32m sha -> is_u64 ts -> vlu_parse (tl (proof sha secret ts ifc a)) = Ok (ts', n) -> ts' = ts.
Proof. intros sha secret ts ifc a ts' n H T E. destruct (proof_parse sha secret ts ifc a H T) as (m & K). congruence. Qed.

(** ** The packets *)
Lemma ping_run : forall ty l, exists p1 b1 p2 b2,
  pa_start_chunk (pa_init (repeat 0 MAX_PING_MESSAGE_LENGTH) 0) ty = Ok (p1, b1) /\ pa_push p1 l = Ok (p2, b2)
  /\ (b2 = true <-> zlen l <= 997) /\ (zlen l <= 997 -> exists p3, pa_commit p2 = Ok p3 /\ pa_to_vector p3 = chunk_bytes ty l).
Proof.
  intros ty l. unfold MAX_PING_MESSAGE_LENGTH.
  assert (Z1 : zlen (repeat 0 1000) = 1000) by (unfold zlen; rewrite repeat_length; reflexivity).
  assert (R0 : R (pa_init (repeat 0 1000) 0) (mkA 1000 [] None None)).
  { exists (repeat 0 1000). cbn [pa_init p_buf p_cursor p_chunk p_flags a_bytes a_done a_open a_cap a_flag app length]. repeat split; auto. unfold U64MAX; lia. }
  destruct (R_start _ _ ty R0) as (p1 & E1 & R1). cbn [a_step a_bytes a_done a_open a_cap a_flag app] in E1, R1.
  change (zlen [] + 3 <=? 1000) with true in E1, R1. cbn [fst snd] in E1, R1.
  destruct (R_push _ _ l R1) as (p2 & E2 & R2). exists p1, true, p2, (snd (a_try (mkA 1000 [] (Some (ty, [])) None) l)).
  split; [exact E1|]. split; [exact E2|]. clear E2.
  assert (ZB : zlen (a_bytes (mkA 1000 [] (Some (ty, [])) None)) = 3) by reflexivity.
  unfold a_try in *. rewrite ZB in *. cbn [a_cap] in *. split.
  - destruct (Z.leb_spec (3 + zlen l) 1000); cbn [snd]; split; intros; try lia; try reflexivity; discriminate.
  - intros L. destruct (Z.leb_spec (3 + zlen l) 1000); [|lia]. cbn [fst a_append a_open a_cap a_done a_flag app] in R2.
    destruct (R_commit _ _ R2 ltac:(discriminate)) as (p3 & E3 & R3).
    exists p3. split; [exact E3|]. rewrite (R_vector _ _ R3). cbn. rewrite ?app_nil_r. reflexivity.
Qed.
Lemma ping_packet_ok : forall ty l, ping_packet ty l = Ok (if zlen l <=? 997 then Some (chunk_bytes ty l) else None).
Proof.
  intros ty l. destruct (ping_run ty l) as (p1 & b1 & p2 & b2 & E1 & E2 & F & C). unfold ping_packet. rewrite E1. cbn [rbind fst]. rewrite E2. cbn [rbind].
  destruct (Z.leb_spec (zlen l) 997) as [L|L].
  - rewrite (proj2 F L). destruct (C L) as (p3 & E3 & V). rewrite E3. cbn [rbind]. rewrite V. reflexivity.
  - destruct b2; [exfalso; apply (Z.lt_irrefl 997), (Z.lt_le_trans _ (zlen l)); auto; apply F; reflexivity|reflexivity].
Qed.
Definition checked (p : peer) (now : Z) : peer := mkPeer (m_up p) (m_role p) (m_if p) (m_addr p) (m_epd p) now (m_rx p).
Definition moved (p : peer) (ts ifc : Z) (a : addr) : peer := mkPeer (m_up p) (m_role p) ifc a (m_epd p) (m_tx p) ts.
Lemma send_check_ok : forall sha secret now ifc a p, hash32m sha -> is_u64 now -> ifc_ok ifc ->
  send_check sha secret now ifc a p = Ok (checked p now, [MCheck now ifc a (chunk_bytes 1 (proof sha secret now ifc a))]).
Proof.
  intros sha secret now ifc a p H U I. unfold send_check. rewrite make_check_proof by exact I. destruct (ping_run CHUNK_PING (proof sha secret now ifc a)) as (p1 & b1 & p2 & b2 & E1 & E2 & F & C).
  destruct (proof_bytes sha secret now ifc a H U) as (_ & L). destruct C as (p3 & E3 & V); [lia|]. rewrite E1. cbn [rbind fst]. rewrite E2. cbn [rbind fst]. rewrite E3. cbn [rbind]. rewrite V. reflexivity.
Qed.

(** What a chunk does *)
Definition fresh (ts age : Z) : Prop := wrap64 (ts + 120) >= age / 1000000.
Lemma on_chunk_cases : forall sha secret age mode ifc a c p, hash32m sha -> ifc_ok ifc -> bytes_ok (snd c) ->
  exists p' o, on_chunk sha secret age mode ifc a c p = Ok (p', o) /\
  ((p' = p /\ (o = [] \/ exists l, o = [MReply (m_if p) (m_addr p) l]))
   \/ (p' = down p /\ o = [] /\ m_up p = true)
   \/ (exists ts, m_up p = true /\ is_u64 ts /\ c = (65, proof sha secret ts ifc a) /\ m_rx p < ts /\ fresh ts age /\ p' = moved p ts ifc a /\ o = [MMoved ts ifc a])).
Proof.
  intros sha secret age mode ifc a [ty pl] p H I B. cbn [snd] in B. unfold on_chunk. cbn [fst snd].
  destruct (negb (mode =? HEADER_MODE_STARTUP) && m_up p) eqn:U; [|exists p, []; split; [reflexivity|]; left; auto].
  apply andb_true_iff in U. destruct U as (_ & U).
  destruct (ty =? CHUNK_PING) eqn:T1.
  { unfold on_ping. rewrite ping_packet_ok. cbn [rbind]. destruct (zlen pl <=? 997); eexists _, _; (split; [reflexivity|]); left; (split; [reflexivity|]); [right; eexists; reflexivity|left; reflexivity]. }
  destruct (ty =? CHUNK_PING_REPLY) eqn:T2.
  { unfold on_ping_reply. destruct pl as [|b cur]; [exists p, []; split; [reflexivity|]; left; auto|].
    destruct (b =? PING_MARKING_MOBILITY) eqn:TM; [|exists p, []; split; [reflexivity|]; left; auto].
    apply Z.eqb_eq in T2, TM. subst ty b. inversion B; subst.
    destruct (vlu_parse_spec cur) as [(_ & E)|(pre & rest & EC & CV & E)]; auto; rewrite E.
    { exists p, []; split; [reflexivity|]; left; auto. }
    unfold on_check_reply. set (ts := Z.min (groups_value pre) U64MAX).
    assert (UT : is_u64 ts) by (unfold is_u64, ts; pose proof (groups_value_nonneg pre); unfold U64MAX in *; lia).
    destruct (ts <=? m_rx p) eqn:C1; [exists p, []; split; [reflexivity|]; left; auto|]. cbn [orb].
    destruct (wrap64 (ts + MAX_MOBILITY_LIFETIME) <? seconds_of age) eqn:C2; [exists p, []; split; [reflexivity|]; left; auto|].
    destruct (negb (eq_bytes (PING_MARKING_MOBILITY :: cur) (make_check sha secret ts ifc a))) eqn:C3; [exists p, []; split; [reflexivity|]; left; auto|].
    rewrite negb_false_iff in C3. apply eq_bytes_iff in C3. rewrite make_check_proof in C3 by exact I.
    eexists _, _. split; [reflexivity|]. right. right. exists ts. split; [exact U|]. split; [exact UT|]. split; [unfold CHUNK_PING_REPLY; rewrite C3; reflexivity|].
    apply Z.leb_gt in C1. apply Z.ltb_ge in C2. split; [exact C1|]. split; [unfold fresh, seconds_of, TICKS, MAX_MOBILITY_LIFETIME in *; lia|]. split; reflexivity. }
  destruct ((ty =? CHUNK_CLOSE) || (ty =? CHUNK_CLOSE_ACK)); eexists _, _; (split; [reflexivity|]); [right; left; auto|left; auto].
Qed.

(** What the chunks of a packet do together *)
Fixpoint moves_in (o : list mout) : list Z := match o with [] => [] | MMoved ts _ _ :: r => ts :: moves_in r | _ :: r => moves_in r end.
Lemma moves_in_app : forall a b, moves_in (a ++ b) = moves_in a ++ moves_in b.
Proof. induction a as [|x a IH]; intros; [reflexivity|]. cbn [app]. destruct x; cbn [moves_in app]; rewrite IH; reflexivity. Qed.
Definition last_or (d : Z) (l : list Z) : Z := last l d.
Lemma rising_app : forall a b lo, rising lo a -> rising (last a lo) b -> rising lo (a ++ b).
Proof.
  induction a as [|x a IH]; intros b lo A B; cbn [app rising] in *; [exact B|]. destruct A as (A1 & A2). split; [exact A1|]. apply IH; [exact A2|].
  destruct a; [exact B|]. replace (last (z :: a) x) with (last (x :: z :: a) lo); [exact B|]. cbn [last]. clear. revert z. induction a as [|y a IHa]; intros; [reflexivity|]. apply IHa.
Qed.
Record chunks_did (sha : list Z -> list Z) (secret : list Z) (age ifc : Z) (a : addr) (cs : list (Z * list Z)) (p p' : peer) (o : list mout) : Prop := {
  cd_up : m_up p' = true -> m_up p = true;
  cd_role : m_role p' = m_role p;
  cd_epd : m_epd p' = m_epd p;
  cd_tx : m_tx p' = m_tx p;
  cd_nocheck : forall ts i b pk, ~ In (MCheck ts i b pk) o;
  cd_moves : forall ts i b, In (MMoved ts i b) o -> m_up p = true /\ i = ifc /\ b = a /\ is_u64 ts /\ In (65, proof sha secret ts ifc a) cs /\ fresh ts age;
  cd_rising : rising (m_rx p) (moves_in o);
  cd_rx : m_rx p' = last (moves_in o) (m_rx p);
  cd_place : (moves_in o = [] /\ m_if p' = m_if p /\ m_addr p' = m_addr p) \/ (moves_in o <> [] /\ m_if p' = ifc /\ m_addr p' = a) }.
Lemma last_app_ne : forall (b a : list Z) d, last (a ++ b) d = last b (last a d).
Proof.
  intros b. induction a as [|x a IH]; intros; [reflexivity|]. cbn [app]. destruct a as [|y a].
  - cbn [app]. destruct b; [reflexivity|]. change (last [x] d) with x. clear. revert z. induction b as [|y b IHb]; intros; [reflexivity|]. apply IHb.
  - change (last (x :: (y :: a) ++ b) d) with (last ((y :: a) ++ b) d). rewrite IH. reflexivity.
Qed.
Lemma on_chunks_did : forall sha secret age mode ifc a, hash32m sha -> ifc_ok ifc -> forall cs p, Forall (fun c => bytes_ok (snd c)) cs ->
  exists p' o, on_chunks sha secret age mode ifc a cs p = Ok (p', o) /\ chunks_did sha secret age ifc a cs p p' o.
Proof.
  intros sha secret age mode ifc a H I. induction cs as [|c cs IH]; intros p B.
  - exists p, []. split; [reflexivity|]. constructor; cbn; auto; contradiction.
  - inversion B; subst. destruct (on_chunk_cases sha secret age mode ifc a c p) as (p1 & o1 & E1 & C); auto.
    destruct (IH p1) as (p2 & o2 & E2 & D); auto. cbn [on_chunks]. rewrite E1. cbn [rbind]. rewrite E2. cbn [rbind]. exists p2, (o1 ++ o2). split; [reflexivity|].
    destruct D as [D1 D2 D3 D4 D5 D6 D7 D8 D9].
    destruct C as [(-> & [-> | (l & ->)])|[(-> & -> & U)|(ts & U & UT & EC & LT & FR & -> & ->)]].
    + constructor; cbn [app]; auto. intros ts i b X. destruct (D6 _ _ _ X) as (? & ? & ? & ? & ? & ?). split; [auto|]. split; [auto|]. split; [auto|]. split; [auto|]. split; [right; auto|auto].
    + constructor; cbn [app]; auto.
      * intros ts i b pk [X|X]; [discriminate|exact (D5 _ _ _ _ X)].
      * intros ts i b [X|X]; [discriminate|]. destruct (D6 _ _ _ X) as (? & ? & ? & ? & ? & ?). split; [auto|]. split; [auto|]. split; [auto|]. split; [auto|]. split; [right; auto|auto].
    + constructor; cbn [app]; auto. intros ts i b X. destruct (D6 _ _ _ X) as (X1 & _). discriminate X1.
    + constructor; cbn [app]; auto.
      * intros t i b pk [X|X]; [discriminate|exact (D5 _ _ _ _ X)].
      * intros t i b [X|X].
        -- inversion X; subst. split; [auto|]. split; [auto|]. split; [auto|]. split; [auto|]. split; [left; auto|auto].
        -- destruct (D6 _ _ _ X) as (? & ? & ? & ? & ? & ?). split; [auto|]. split; [auto|]. split; [auto|]. split; [auto|]. split; [right; auto|auto].
      * cbn [moves_in rising]. split; [exact LT|exact D7].
      * rewrite D8. cbn [moves_in m_rx moved]. change (ts :: moves_in o2) with ([ts] ++ moves_in o2). rewrite last_app_ne. reflexivity.
      * right. cbn [moves_in]. split; [discriminate|]. destruct D9 as [(_ & P1 & P2)|(_ & P1 & P2)]; auto.
Qed.

(** ** Packets *)
Lemma inside_carries : forall cs l ty pl, chunks_inside cs l -> In (ty, pl) cs -> carries l ty pl.
Proof.
  induction cs as [|[t q] cs IH]; intros l ty pl C X; [contradiction|]. cbn [chunks_inside] in C. destruct C as (h1 & h2 & rest & E & L & C'). destruct X as [X|X].
  - inversion X; subst. exists [], h1, h2, rest. auto.
  - destruct (IH _ _ _ C' X) as (pre & g1 & g2 & post & E' & L'). exists (t :: h1 :: h2 :: q ++ pre), g1, g2, post. split; [|exact L']. rewrite E, E'. cbn [app]. rewrite <- app_assoc. reflexivity.
Qed.
Lemma carries_app : forall x l ty pl, carries l ty pl -> carries (x ++ l) ty pl.
Proof. intros x l ty pl (pre & h1 & h2 & post & E & L). exists (x ++ pre), h1, h2, post. split; [|exact L]. rewrite E, app_assoc. reflexivity. Qed.
Lemma carries_bytes : forall l ty pl, bytes_ok l -> carries l ty pl -> bytes_ok pl.
Proof. intros l ty pl B (pre & h1 & h2 & post & E & _). subst. apply Forall_app in B. destruct B as (_ & B). inversion B as [|? ? _ B1]; subst. inversion B1 as [|? ? _ B2]; subst. inversion B2 as [|? ? _ B3]; subst. apply Forall_app in B3. tauto. Qed.
Lemma parsed_carries : forall acc l margin h, bytes_ok l -> parse_packet acc l margin = Ok h -> forall ty pl, In (ty, pl) (h_chunks h) -> carries l ty pl.
Proof.
  intros acc l margin h B E ty pl X. destruct (parse_packet_inside acc l margin h B E) as (_ & _ & hdr & body & S & C).
  rewrite <- (firstn_skipn margin l), S. apply carries_app. apply carries_app. exact (inside_carries _ _ _ _ C X).
Qed.
Inductive packet_did (sha : list Z -> list Z) (secret : list Z) (age ifc : Z) (a : addr) (l : list Z) (p p' : peer) (o : list mout) : Prop :=
| Build_packet_did : forall (cs : list (Z * list Z)) (mid : peer) (omid : list mout),
  (forall ty pl, In (ty, pl) cs -> carries l ty pl) ->
  chunks_did sha secret age ifc a cs p mid omid ->
  (p' = mid /\ o = omid) \/ (m_up mid = true /\ (ifc =? m_if mid) && addr_eq a (m_addr mid) = false /\ m_tx mid < age / 1000000
            /\ p' = checked mid (age / 1000000) /\ o = omid ++ [MCheck (age / 1000000) ifc a (chunk_bytes 1 (proof sha secret (age / 1000000) ifc a))]) ->
  packet_did sha secret age ifc a l p p' o.
Lemma seconds_u64 : forall age, time_ok age -> is_u64 (age / 1000000).
Proof. intros age (A & B). unfold is_u64. split; lia. Qed.
Lemma after_cases : forall sha secret age ifc a p, hash32m sha -> time_ok age -> ifc_ok ifc ->
  after_chunks sha secret age ifc a p =
  if m_up p && negb ((ifc =? m_if p) && addr_eq a (m_addr p)) && (age / 1000000 >? m_tx p) then Ok (checked p (age / 1000000), [MCheck (age / 1000000) ifc a (chunk_bytes 1 (proof sha secret (age / 1000000) ifc a))]) else Ok (p, []).
Proof. intros sha secret age ifc a p H T I. unfold after_chunks, seconds_of, TICKS. destruct (_ && _); [|reflexivity]. apply send_check_ok; auto. apply seconds_u64; exact T. Qed.
Lemma on_packet_did : forall sha secret age ifc a margin l p, hash32m sha -> time_ok age -> ifc_ok ifc -> bytes_ok l ->
  exists p' o, on_packet sha secret age ifc a margin l p = Ok (p', o) /\ packet_did sha secret age ifc a l p p' o.
Proof.
  intros sha secret age ifc a margin l p H T I B. unfold on_packet. pose proof (parse_packet_defined (fun flags _ _ => negb ((Z.land flags 3 =? 0) || (Z.land flags 3 =? m_role p))) l margin B) as D.
  destruct (parse_packet _ l margin) as [h| |] eqn:E; [| |contradiction].
  - assert (BC : Forall (fun c => bytes_ok (snd c)) (h_chunks h)).
    { apply Forall_forall. intros [ty pl] X. cbn [snd]. eapply carries_bytes; [exact B|]. eapply parsed_carries; eauto. }
    destruct (on_chunks_did sha secret age (Z.land (h_flags h) 3) ifc a H I (h_chunks h) p BC) as (p1 & o1 & E1 & C1). rewrite E1. cbn [rbind].
    rewrite after_cases by auto. destruct (m_up p1 && negb ((ifc =? m_if p1) && addr_eq a (m_addr p1)) && (age / 1000000 >? m_tx p1)) eqn:Q; cbn [rbind]; eexists _, _; (split; [reflexivity|]);
      apply (Build_packet_did sha secret age ifc a l p _ _ (h_chunks h) p1 o1); auto; try (intros ty pl X; eapply parsed_carries; eauto).
    + right. apply andb_true_iff in Q. destruct Q as (Q & Q3). apply andb_true_iff in Q. destruct Q as (Q1 & Q2). rewrite negb_true_iff in Q2. rewrite Z.gtb_ltb in Q3. apply Z.ltb_lt in Q3. auto.
    + left. rewrite app_nil_r. auto.
  - exists p, []. split; [reflexivity|]. apply (Build_packet_did sha secret age ifc a l p p [] [] p []); [contradiction| |left; auto].
    constructor; cbn; auto; contradiction.
Qed.

(** ** Steps *)
Lemma set_at_same : forall A (l : list A) n x, (n < length l)%nat -> nth_error (set_at l n x) n = Some x.
Proof. induction l as [|y l IH]; intros n x L; [cbn in L; lia|]. destruct n; [reflexivity|]. cbn [set_at nth_error]. apply IH. cbn in L; lia. Qed.
Lemma set_at_other : forall A (l : list A) n m x, m <> n -> nth_error (set_at l n x) m = nth_error l m.
Proof. induction l as [|y l IH]; intros n m x N; [destruct m; reflexivity|]. destruct n, m; try reflexivity; try congruence. cbn [set_at nth_error]. apply IH. congruence. Qed.
Lemma set_at_length : forall A (l : list A) n x, length (set_at l n x) = length l.
Proof. induction l as [|y l IH]; intros n x; [reflexivity|]. destruct n; cbn [set_at length]; [reflexivity|]. rewrite IH. reflexivity. Qed.
Lemma did_open_sess : forall n i, i_sess (did_open n i) = i_sess i /\ i_out (did_open n i) = i_out i.
Proof. intros n i. unfold did_open. destruct (nth_error (i_sess i) n); auto. Qed.
Lemma did_close_sess : forall n i, i_sess (did_close n i) = i_sess i /\ i_out (did_close n i) = i_out i.
Proof. intros n i. unfold did_close. destruct (nth_error (i_sess i) n); auto. Qed.
Lemma open_peer_sess : forall p i, i_sess (open_peer p i) = i_sess i ++ [p] /\ i_out (open_peer p i) = i_out i.
Proof. intros p i. unfold open_peer. destruct (did_open_sess (length (i_sess i)) (mkInst (i_sess i ++ [p]) (i_addrs i) (i_epds i) (i_out i))) as (E1 & E2). rewrite E1, E2. auto. Qed.
Lemma close_peer_sess : forall n i, i_out (close_peer n i) = i_out i /\ length (i_sess (close_peer n i)) = length (i_sess i)
  /\ forall m p, nth_error (i_sess i) m = Some p -> nth_error (i_sess (close_peer n i)) m = Some (if (m =? n)%nat then down p else p).
Proof.
  intros n i. unfold close_peer. destruct (nth_error (i_sess i) n) as [q|] eqn:E.
  - destruct (m_up q) eqn:U.
    + destruct (did_close_sess n (mkInst (set_at (i_sess i) n (down q)) (i_addrs i) (i_epds i) (i_out i))) as (E1 & E2). rewrite E1, E2. cbn [i_sess i_out]. split; [reflexivity|]. split; [apply set_at_length|].
      intros m p X. destruct (Nat.eqb_spec m n) as [->|N]; [|rewrite set_at_other by exact N; exact X].
      rewrite set_at_same by (apply nth_error_Some; congruence). congruence.
    + split; [reflexivity|]. split; [reflexivity|]. intros m p X. destruct (Nat.eqb_spec m n) as [->|N]; [|exact X]. rewrite E in X. inversion X; subst. rewrite E. destruct p; cbn in *; subst. reflexivity.
  - split; [reflexivity|]. split; [reflexivity|]. intros m p X. destruct (Nat.eqb_spec m n) as [->|N]; [congruence|exact X].
Qed.
(** One event, for the sessions and what they do: it opens a session, or changes one by a packet, or closes one. *)
Inductive sess_step (sha : list Z -> list Z) (secret : list Z) : mevent -> inst -> inst -> Prop :=
| ss_none : forall e i i1, i_sess i1 = i_sess i -> i_out i1 = i_out i -> sess_step sha secret e i i1
| ss_open : forall e i i1 role ifc a epd, e = MInitiated ifc a epd \/ (exists b, e = MAccepted ifc a epd b) ->
    i_out i1 = i_out i -> length (i_sess i1) = S (length (i_sess i)) ->
    nth_error (i_sess i1) (length (i_sess i)) = Some (new_peer role ifc a epd) ->
    (forall m p, nth_error (i_sess i) m = Some p -> exists q, nth_error (i_sess i1) m = Some q /\ (q = p \/ q = down p)) ->
    sess_step sha secret e i i1
| ss_close : forall n i i1, i_out i1 = i_out i -> length (i_sess i1) = length (i_sess i) ->
    (forall m p, nth_error (i_sess i) m = Some p -> exists q, nth_error (i_sess i1) m = Some q /\ (q = p \/ q = down p)) ->
    sess_step sha secret (MClosed n) i i1
| ss_packet : forall n age ifc a margin l i i1 p p' o, nth_error (i_sess i) n = Some p -> packet_did sha secret age ifc a l p p' o ->
    i_out i1 = i_out i ++ map (pair n) o -> i_sess i1 = set_at (i_sess i) n p' ->
    sess_step sha secret (MPacket n age ifc a margin l) i i1.
Lemma mstep_sess : forall sha secret i e, hash32m sha -> mevent_ok e -> exists i1, mstep sha secret i e = Ok i1 /\ sess_step sha secret e i i1.
Proof.
  intros sha secret i e H OK. destruct e as [ifc a epd|ifc a epd ov|epd|n age ifc a margin l|n]; cbn [mstep].
  - eexists. split; [reflexivity|]. destruct (open_peer_sess (new_peer 1 ifc a epd) i) as (E1 & E2).
    eapply ss_open with (role := 1); eauto; rewrite ?E1, ?app_length; cbn [length]; try lia.
    + rewrite nth_error_app2, Nat.sub_diag by lia. reflexivity.
    + intros m p X. exists p. split; [|auto]. rewrite nth_error_app1; [exact X|]. apply nth_error_Some. congruence.
  - assert (K : forall j, i_out j = i_out i -> length (i_sess j) = length (i_sess i) -> (forall m p, nth_error (i_sess i) m = Some p -> exists q, nth_error (i_sess j) m = Some q /\ (q = p \/ q = down p)) ->
       sess_step sha secret (MAccepted ifc a epd ov) i (open_peer (new_peer 2 ifc a epd) j)).
    { intros j J1 J2 J3. destruct (open_peer_sess (new_peer 2 ifc a epd) j) as (E1 & E2).
      eapply ss_open with (role := 2); eauto; rewrite ?E1, ?E2, ?app_length, ?J2; cbn [length]; try lia; auto.
      + rewrite <- J2, nth_error_app2, Nat.sub_diag by lia. reflexivity.
      + intros m p X. destruct (J3 m p X) as (q & Q1 & Q2). exists q. split; [|auto]. rewrite nth_error_app1; [exact Q1|]. apply nth_error_Some. congruence. }
    destruct (by_addr i a) as [n|]; [destruct ov|].
    + eexists. split; [reflexivity|]. destruct (close_peer_sess n i) as (C1 & C2 & C3). apply K; auto. intros m p X. eexists. split; [apply C3; exact X|]. destruct (m =? n)%nat; auto.
    + eexists. split; [reflexivity|]. apply ss_none; auto.
    + eexists. split; [reflexivity|]. apply K; auto. intros m p X. exists p. auto.
  - destruct (by_epd i epd) as [n|]; eexists; (split; [reflexivity|]); apply ss_none; auto; apply did_open_sess.
  - destruct OK as (T & I & A & B). destruct (nth_error (i_sess i) n) as [p|] eqn:E; [|eexists; split; [reflexivity|]; apply ss_none; auto].
    destruct (on_packet_did sha secret age ifc a margin l p H T I B) as (p' & o & E1 & D). rewrite E1. cbn [rbind]. eexists. split; [reflexivity|].
    apply (ss_packet sha secret n age ifc a margin l i _ p p' o E D); destruct (m_up p && negb (m_up p')); try reflexivity; apply did_close_sess.
  - eexists. split; [reflexivity|]. destruct (close_peer_sess n i) as (C1 & C2 & C3). apply ss_close; auto. intros m p X. eexists. split; [apply C3; exact X|]. destruct (m =? n)%nat; auto.
Qed.

(** ** What holds of every run *)
Lemma checks_of_app : forall n a b, checks_of n (a ++ b) = checks_of n a ++ checks_of n b.
Proof. induction a as [|(m & x) a IH]; intros; [reflexivity|]. cbn [app]. destruct x; cbn [checks_of]; rewrite ?IH; auto. destruct (m =? n)%nat; reflexivity. Qed.
Lemma moves_of_app : forall n a b, moves_of n (a ++ b) = moves_of n a ++ moves_of n b.
Proof. induction a as [|(m & x) a IH]; intros; [reflexivity|]. cbn [app]. destruct x; cbn [moves_of]; rewrite ?IH; auto. destruct (m =? n)%nat; reflexivity. Qed.
Lemma moves_of_map : forall n m o, moves_of n (map (pair m) o) = if (m =? n)%nat then moves_in o else [].
Proof. intros n m. induction o as [|x o IH]; [destruct (m =? n)%nat; reflexivity|]. cbn [map]. destruct x; cbn [moves_of moves_in]; rewrite ?IH; auto. destruct (m =? n)%nat; reflexivity. Qed.
Lemma checks_of_map : forall n m o, m <> n -> checks_of n (map (pair m) o) = [].
Proof. intros n m o N. induction o as [|x o IH]; [reflexivity|]. cbn [map]. destruct x; cbn [checks_of]; auto. destruct (Nat.eqb_spec m n); [contradiction|auto]. Qed.
Lemma checks_of_none : forall n m o, (forall ts i b pk, ~ In (MCheck ts i b pk) o) -> checks_of n (map (pair m) o) = [].
Proof. intros n m. induction o as [|x o IH]; intros H; [reflexivity|]. cbn [map]. destruct x; cbn [checks_of]; try (apply IH; intros t j c q X; exact (H t j c q (or_intror X))). exfalso. eapply H. left. reflexivity. Qed.
Record INV (sha : list Z -> list Z) (secret : list Z) (t : Z) (i : inst) : Prop := {
  iv_sess : forall n p, nth_error (i_sess i) n = Some p -> ifc_ok (m_if p) /\ place_ok (m_addr p)
    /\ rising 0 (checks_of n (i_out i)) /\ m_tx p = last (checks_of n (i_out i)) 0 /\ rising 0 (moves_of n (i_out i)) /\ m_rx p = last (moves_of n (i_out i)) 0;
  iv_none : forall n, nth_error (i_sess i) n = None -> checks_of n (i_out i) = [] /\ moves_of n (i_out i) = [];
  iv_out : forall n ts ifc a pk, In (n, MCheck ts ifc a pk) (i_out i) -> ifc_ok ifc /\ place_ok a /\ 0 < ts <= t / 1000000 /\ is_u64 ts /\ pk = chunk_bytes 1 (proof sha secret ts ifc a);
  iv_time : 0 <= t }.
Lemma INV_0 : forall sha secret, INV sha secret 0 inst0.
Proof. intros. constructor; cbn; auto; try contradiction; try lia. intros n p X. destruct n; discriminate. Qed.
Lemma INV_later : forall sha secret t t' i, t <= t' -> INV sha secret t i -> INV sha secret t' i.
Proof. intros sha secret t t' i L [A B C D]. constructor; auto; [|lia]. intros n ts ifc a pk X. destruct (C _ _ _ _ _ X) as (? & ? & ? & ? & ?). repeat (split; auto); lia. Qed.
Lemma last_rising : forall l lo, rising lo l -> lo <= last l lo.
Proof. induction l as [|x l IH]; intros lo H; cbn [rising] in H; [cbn; lia|]. destruct H as (H1 & H2). specialize (IH _ H2). destruct l as [|y l]; [cbn; lia|]. change (last (x :: y :: l) lo) with (last (y :: l) lo).
  replace (last (y :: l) lo) with (last (y :: l) x); [lia|]. clear. revert y. induction l as [|z l IHl]; intros; [reflexivity|]. apply IHl. Qed.
Definition new_time (t : Z) (e : mevent) : Z := match e with MPacket _ age _ _ _ _ => age | _ => t end.
Lemma INV_step : forall sha secret t i e i1, mevent_ok e -> match e with MPacket _ age _ _ _ _ => t <= age | _ => True end ->
  INV sha secret t i -> sess_step sha secret e i i1 -> INV sha secret (new_time t e) i1.
Proof.
  intros sha secret t i e i1 OK TT V S. assert (LT : t <= new_time t e) by (destruct e; cbn; lia). apply (INV_later _ _ _ _ _ LT) in V. clear TT LT. destruct V as [A B C D]. destruct S as [e i i1 E1 E2|e i i1 role ifc a epd EE E1 E2 E3 E4|n i i1 E1 E2 E3|n age ifc a margin l i i1 p p' o E P EO ES].
  - constructor; rewrite ?E1, ?E2; auto.
  - assert (NO : ifc_ok ifc /\ place_ok a) by (destruct EE as [->|(b & ->)]; exact OK). constructor; rewrite ?E1; auto.
    + intros n p X. destruct (nth_error (i_sess i) n) as [q|] eqn:Q.
      * destruct (E4 _ _ Q) as (q' & Q1 & Q2). rewrite X in Q1. inversion Q1; subst q'. destruct (A _ _ Q) as (A1 & A2 & A3 & A4 & A5 & A6). destruct Q2 as [->| ->]; cbn [down m_if m_addr m_tx m_rx]; auto 10.
      * destruct (B _ Q) as (B1 & B2). rewrite B1, B2. assert (n = length (i_sess i)).
        { apply nth_error_None in Q. assert (n < length (i_sess i1))%nat by (apply nth_error_Some; congruence). lia. }
        subst n. rewrite E3 in X. inversion X; subst p. cbn. destruct NO. auto 10.
    + intros n X. apply B. apply nth_error_None. apply nth_error_None in X. lia.
  - constructor; rewrite ?E1; auto.
    + intros m p X. destruct (nth_error (i_sess i) m) as [q|] eqn:Q; [|apply nth_error_None in Q; assert (m < length (i_sess i1))%nat by (apply nth_error_Some; congruence); lia].
      destruct (E3 _ _ Q) as (q' & Q1 & Q2). rewrite X in Q1. inversion Q1; subst q'. destruct (A _ _ Q) as (A1 & A2 & A3 & A4 & A5 & A6). destruct Q2 as [->| ->]; cbn [down m_if m_addr m_tx m_rx]; auto 10.
    + intros m X. apply B. apply nth_error_None. apply nth_error_None in X. lia.
  - cbn [mevent_ok] in OK. destruct OK as (T & I & PA & BL). cbn [new_time] in *. assert (LN : (n < length (i_sess i))%nat) by (apply nth_error_Some; congruence).
    destruct P as [cs mid omid CA CD EN]. destruct CD as [D1 D2 D3 D4 D5 D6 D7 D8 D9]. destruct (A _ _ E) as (A1 & A2 & A3 & A4 & A5 & A6).
    assert (M : moves_in o = moves_in omid) by (destruct EN as [(_ & ->)|(_ & _ & _ & _ & ->)]; [reflexivity|rewrite moves_in_app; cbn; apply app_nil_r]).
    constructor; rewrite ?EO.
    + intros m q X. rewrite ES in X. destruct (Nat.eq_dec m n) as [->|N].
      * rewrite set_at_same in X by exact LN. inversion X; subst q. rewrite checks_of_app, moves_of_app, moves_of_map, Nat.eqb_refl, M.
        assert (PL : ifc_ok (m_if mid) /\ place_ok (m_addr mid)) by (destruct D9 as [(_ & -> & ->)|(_ & -> & ->)]; auto).
        assert (RX : rising 0 (moves_of n (i_out i) ++ moves_in omid)) by (apply rising_app; [exact A5|rewrite <- A6; exact D7]).
        assert (RL : m_rx mid = last (moves_of n (i_out i) ++ moves_in omid) 0) by (rewrite last_app_ne, <- A6; exact D8).
        destruct PL. destruct EN as [(-> & ->)|(U & NP & LT & -> & ->)].
        -- rewrite (checks_of_none n n omid D5), app_nil_r, D4. auto 10.
        -- cbn [checked m_if m_addr m_tx m_rx]. rewrite map_app, checks_of_app, (checks_of_none n n omid D5). cbn [map app checks_of]. rewrite Nat.eqb_refl.
           split; [auto|]. split; [auto|]. split; [apply rising_app; [auto|]; cbn [rising]; rewrite <- A4, <- D4; auto|]. split; [rewrite last_app_ne; reflexivity|]. auto.
      * rewrite set_at_other in X by exact N. rewrite checks_of_app, moves_of_app, moves_of_map, checks_of_map by congruence. destruct (Nat.eqb_spec n m); [congruence|]. rewrite !app_nil_r. apply A; exact X.
    + intros m X. rewrite ES in X. apply nth_error_None in X. rewrite set_at_length in X. assert (N : n <> m) by lia. rewrite checks_of_app, moves_of_app, moves_of_map, checks_of_map by exact N. destruct (Nat.eqb_spec n m); [congruence|]. rewrite !app_nil_r. apply B. apply nth_error_None. exact X.
    + intros m ts ifc' a' pk X. apply in_app_or in X. destruct X as [X|X]; [apply (C _ _ _ _ _ X)|]. apply in_map_iff in X. destruct X as (x & X1 & X2). inversion X1; subst m x.
      destruct EN as [(_ & ->)|(_ & _ & LT & _ & ->)]; [exfalso; exact (D5 _ _ _ _ X2)|]. apply in_app_or in X2. destruct X2 as [X2|[X2|[]]]; [exfalso; exact (D5 _ _ _ _ X2)|]. inversion X2; subst.
      pose proof (seconds_u64 age T). assert (0 <= m_tx mid) by (rewrite D4, A4; apply (last_rising _ 0 A3)). repeat (split; auto); lia.
    + exact D.
Qed.
Fixpoint end_time (t : Z) (l : list mevent) : Z := match l with [] => t | e :: r => end_time (new_time t e) r end.
Lemma INV_run : forall sha secret, hash32m sha -> forall l t i, Forall mevent_ok l -> in_order t l -> INV sha secret t i ->
  exists i1, mrun sha secret i l = Ok i1 /\ INV sha secret (end_time t l) i1.
Proof.
  intros sha secret H. induction l as [|e l IH]; intros t i F O V; [exists i; split; [reflexivity|exact V]|]. inversion F; subst.
  destruct (mstep_sess sha secret i e H) as (i1 & E & S); auto. cbn [mrun]. rewrite E. cbn [rbind end_time].
  assert (TT : match e with MPacket _ age _ _ _ _ => t <= age | _ => True end) by (destruct e; cbn in O; tauto).
  assert (O' : in_order (new_time t e) l) by (destruct e; cbn in O; tauto). apply IH; auto. apply INV_step with (i := i); auto.
Qed.
Lemma end_last : forall l t, end_time t l = last_time t l.
Proof. induction l as [|e l IH]; intros t; [reflexivity|]. destruct e; cbn [end_time new_time last_time]; apply IH. Qed.

(** ** Statements *)
Lemma rising_in : forall l lo x, rising lo l -> In x l -> lo < x.
Proof. induction l as [|y l IH]; intros lo x R X; [contradiction|]. destruct R as (R1 & R2). destruct X as [->|X]; [exact R1|]. specialize (IH _ _ R2 X). lia. Qed.
Lemma rising_count : forall l lo hi, rising lo l -> lo <= hi -> Forall (fun x => x <= hi) l -> zlen l <= hi - lo.
Proof.
  induction l as [|y l IH]; intros lo hi R L F; [unfold zlen; cbn [length]; lia|]. destruct R as (R1 & R2). inversion F; subst. specialize (IH y hi R2 ltac:(lia) ltac:(auto)).
  unfold zlen in *. cbn [length]. lia.
Qed.
Lemma in_moves : forall o ts j b, In (MMoved ts j b) o -> In ts (moves_in o).
Proof. induction o as [|x o IH]; intros ts j b X; [contradiction|]. destruct X as [->|X]; [left; reflexivity|]. destruct x; cbn [moves_in]; eauto. right. eauto. Qed.
Lemma moves_in_some : forall o, moves_in o <> [] -> exists ts j b, In (MMoved ts j b) o.
Proof. induction o as [|x o IH]; intros N; [contradiction|]. destruct x as [ts j b pk|j b pk|ts j b]; cbn [moves_in] in N; [destruct (IH N) as (t & u & v & X)|destruct (IH N) as (t & u & v & X)|]; [exists t, u, v; right; exact X|exists t, u, v; right; exact X|]. exists ts, j, b. left. reflexivity. Qed.
Lemma move_step : forall sha secret i e i1, hash32m sha -> mevent_ok e -> mstep sha secret i e = Ok i1 ->
  exists new, i_out i1 = i_out i ++ new
  /\ (forall n ts ifc a, In (n, MMoved ts ifc a) new -> exists age margin l p, e = MPacket n age ifc a margin l /\ session_is i n p /\ m_up p = true
        /\ is_u64 ts /\ carries l 65 (proof sha secret ts ifc a) /\ m_rx p < ts /\ age / 1000000 <= wrap64 (ts + 120))
  /\ (forall n ts ifc a pk, In (n, MCheck ts ifc a pk) new -> exists age margin l p p1, e = MPacket n age ifc a margin l /\ session_is i n p /\ session_is i1 n p1 /\ m_up p = true
        /\ ts = age / 1000000 /\ m_tx p < ts /\ m_tx p1 = ts /\ (ifc =? m_if p1) && addr_eq a (m_addr p1) = false /\ pk = chunk_bytes 1 (proof sha secret ts ifc a))
  /\ (forall n p p1, session_is i n p -> session_is i1 n p1 -> (m_if p1 = m_if p /\ m_addr p1 = m_addr p /\ m_rx p1 = m_rx p) \/ In (n, MMoved (m_rx p1) (m_if p1) (m_addr p1)) new).
Proof.
  intros sha secret i e i1 H OK ST. destruct (mstep_sess sha secret i e H OK) as (i2 & E & S). assert (i2 = i1) by congruence. subst i2.
  assert (Q : forall q p : peer, q = p \/ q = down p -> m_if q = m_if p /\ m_addr q = m_addr p /\ m_rx q = m_rx p) by (intros q p [->| ->]; auto).
  destruct S as [e i i1 E1 E2|e i i1 role ifc a epd EE E1 E2 E3 E4|n i i1 E1 E2 E3|n age ifc a margin l i i1 p p' o EP P EO ES].
  - exists []. rewrite app_nil_r. split; [auto|]. split; [contradiction|]. split; [contradiction|]. unfold session_is. intros n p p1 X X1. left. rewrite E1 in X1. replace p1 with p by congruence. auto.
  - exists []. rewrite app_nil_r. split; [auto|]. split; [contradiction|]. split; [contradiction|]. unfold session_is. intros n p p1 X X1. left. destruct (E4 _ _ X) as (q & Q1 & Q2). replace p1 with q by congruence. apply Q; exact Q2.
  - exists []. rewrite app_nil_r. split; [auto|]. split; [contradiction|]. split; [contradiction|]. unfold session_is. intros m p p1 X X1. left. destruct (E3 _ _ X) as (q & Q1 & Q2). replace p1 with q by congruence. apply Q; exact Q2.
  - exists (map (pair n) o). split; [exact EO|]. assert (LN : (n < length (i_sess i))%nat) by (apply nth_error_Some; congruence). destruct P as [cs mid omid CA [D1 D2 D3 D4 D5 D6 D7 D8 D9] EN]. unfold session_is.
    assert (IM : forall ts j b, In (MMoved ts j b) o -> In (MMoved ts j b) omid).
    { intros ts j b X. destruct EN as [(_ & ->)|(_ & _ & _ & _ & ->)]; [exact X|]. apply in_app_or in X. destruct X as [X|[X|[]]]; [exact X|discriminate]. }
    split; [|split].
    + intros m ts ifc' a' X. apply in_map_iff in X. destruct X as (x & X1 & X2). inversion X1; subst m x. specialize (IM _ _ _ X2). destruct (D6 _ _ _ IM) as (U & -> & -> & UT & CC & FR).
      exists age, margin, l, p. split; [reflexivity|]. split; [exact EP|]. split; [exact U|]. split; [exact UT|]. split; [apply CA; exact CC|]. split; [eapply rising_in; [exact D7|]; eapply in_moves; exact IM|]. unfold fresh in FR. lia.
    + intros m ts ifc' a' pk X. apply in_map_iff in X. destruct X as (x & X1 & X2). inversion X1; subst m x.
      destruct EN as [(_ & ->)|(U & NP & LT & -> & ->)]; [exfalso; exact (D5 _ _ _ _ X2)|]. apply in_app_or in X2. destruct X2 as [X2|[X2|[]]]; [exfalso; exact (D5 _ _ _ _ X2)|]. inversion X2; subst.
      exists age, margin, l, p, (checked mid (age / 1000000)). split; [reflexivity|]. split; [exact EP|]. split; [rewrite ES; apply set_at_same; exact LN|]. split; [auto|]. split; [reflexivity|]. split; [lia|]. split; [reflexivity|]. split; [exact NP|reflexivity].
    + intros m q q1 X X1. rewrite ES in X1. destruct (Nat.eq_dec m n) as [->|N]; [|rewrite set_at_other in X1 by exact N; left; replace q1 with q by congruence; auto].
      rewrite set_at_same in X1 by exact LN. assert (Eq : q1 = p') by congruence. assert (Ep : q = p) by congruence. subst q1 q.
      assert (PM : m_if p' = m_if mid /\ m_addr p' = m_addr mid /\ m_rx p' = m_rx mid) by (destruct EN as [(-> & _)|(_ & _ & _ & -> & _)]; auto). destruct PM as (-> & -> & ->).
      destruct D9 as [(M & -> & ->)|(M & -> & ->)]; [left; rewrite D8, M; auto|]. right. apply in_map. rewrite D8.
      assert (LL : forall (z : list Z) d, z <> [] -> In (last z d) z). { induction z as [|y z IH]; intros d N; [contradiction|]. destruct z; [left; reflexivity|]. right. apply IH. discriminate. }
      assert (IL := LL _ (m_rx p) M).
      assert (INM : forall z t, In t (moves_in z) -> exists j b, In (MMoved t j b) z). { clear. induction z as [|x z IH]; intros t X; [contradiction|]. destruct x as [ts j b pk|j b pk|ts j b]; cbn [moves_in] in X; [destruct (IH _ X) as (j' & b' & Y); exists j', b'; right; exact Y|destruct (IH _ X) as (j' & b' & Y); exists j', b'; right; exact Y|]. destruct X as [->|X]; [exists j, b; left; reflexivity|]. destruct (IH _ X) as (j' & b' & Y); exists j', b'; right; exact Y. }
      destruct (INM _ _ IL) as (j & b & Y). destruct (D6 _ _ _ Y) as (_ & -> & -> & _). destruct EN as [(_ & ->)|(_ & _ & _ & _ & ->)]; [exact Y|apply in_or_app; left; exact Y].
Qed.
