(** Lemmas about acknowledgement chunks. *)
From Verif Require Import Base BaseFacts VLU VLUSpec VLUProofs IndexSet IndexSetSpec IndexSetProofs LinkedList Packet PacketSpec PacketProofs UserData UserDataProofs.
From Verif Require Import RecvFlow RecvFlowSpec RecvFlowAny RecvFlowMsg RecvFlowRun Ack AckSpec.
Ltac Zify.zify_post_hook ::= Z.div_mod_to_equations.
Open Scope res_scope.

Fixpoint enc (cum : Z) (s : list (Z * Z)) : list Z :=
  match s with [] => [] | (a, b) :: r => vlu_encode (a - cum - 2) ++ vlu_encode (b - a) ++ enc b r end.

Lemma push_vlu_cases : forall p a v, R p a -> is_u64 v ->
  exists p', (pa_push_vlu p v = Ok (p', true) /\ R p' (a_append a (vlu_encode v))) \/ (pa_push_vlu p v = Ok (p', false) /\ R p' a).
Proof.
  intros p a v HR Hv. destruct (R_push_vlu p a v HR Hv) as (p' & E & HR'). exists p'. unfold a_try in *.
  destruct (_ <=? _); cbn [fst snd] in *; [left|right]; auto.
Qed.
Lemma a_append_nil : forall a, a_append a [] = a.
Proof. intros [cap d o fl]. unfold a_append. cbn. destruct o as [(t, pl)|]; rewrite app_nil_r; reflexivity. Qed.

Lemma ack_ranges_R : forall s p a cum, R p a -> 0 <= cum -> canonical_from (cum + 2) s ->
  exists p' tr n extra, ack_ranges p cum s = Ok (p', tr) /\ R p' (a_append a (enc cum (firstn n s) ++ extra))
    /\ (tr = false -> n = length s) /\ (extra = [] \/ exists v, is_u64 v /\ extra = vlu_encode v).
Proof.
  induction s as [|(from, to) s IH]; intros p a cum HR Hc Hs; cbn [ack_ranges].
  - exists p, false, 0%nat, []. cbn [firstn enc app]. rewrite a_append_nil. auto.
  - destruct Hs as (H1 & H2 & H3). destruct (Z.eqb_spec from 0) as [|_]; [lia|].
    assert (E1 : wrap64 (from - cum - 2) = from - cum - 2) by (unfold wrap64, U64MAX in *; lia).
    assert (E2 : wrap64 (to - from) = to - from) by (unfold wrap64, U64MAX in *; lia).
    assert (U1 : is_u64 (from - cum - 2)) by (unfold is_u64, U64MAX in *; lia). assert (U2 : is_u64 (to - from)) by (unfold is_u64, U64MAX in *; lia).
    rewrite E1, E2. destruct (push_vlu_cases p a _ HR U1) as (p1 & [(Ep & HR1)|(Ep & HR1)]); rewrite Ep; cbn [rbind negb].
    + destruct (push_vlu_cases p1 _ _ HR1 U2) as (p2 & [(Ep2 & HR2)|(Ep2 & HR2)]); rewrite Ep2; cbn [rbind negb].
      * destruct (IH p2 _ to HR2 ltac:(lia) H3) as (p' & tr & n & extra & E & HR' & Ht & Hx). exists p', tr, (S n), extra.
        split; [exact E|]. split; [|split; [intros Hf; cbn [length]; rewrite (Ht Hf); reflexivity|exact Hx]].
        change (firstn (S n) ((from, to) :: s)) with ((from, to) :: firstn n s). cbn [enc]. rewrite !a_append_append in HR'. rewrite <- !app_assoc. rewrite <- ?app_assoc in HR'. exact HR'.
      * exists p2, true, 0%nat, (vlu_encode (from - cum - 2)). split; [reflexivity|]. split; [cbn; exact HR2|]. split; [discriminate|eauto].
    + exists p1, true, 0%nat, []. split; [reflexivity|]. cbn [firstn enc app]. rewrite a_append_nil. split; [exact HR1|]. split; [discriminate|auto].
Qed.

Lemma enc_bytes : forall s cum, 0 <= cum -> canonical_from (cum + 2) s -> bytes_ok (enc cum s).
Proof.
  induction s as [|(a, b) s IH]; intros cum Hc Hs; [constructor|]. destruct Hs as (H1 & H2 & H3). cbn [enc].
  apply bytes_ok_app; split; [apply vlu_encode_bytes; unfold is_u64, U64MAX in *; lia|]. apply bytes_ok_app; split; [apply vlu_encode_bytes; unfold is_u64, U64MAX in *; lia|].
  apply IH; [lia|exact H3].
Qed.

Lemma vlu_parse_nil : vlu_parse [] = Rej. Proof. reflexivity. Qed.
Lemma ack_loop_enc : forall s cum fuel extra, 0 <= cum -> canonical_from (cum + 2) s -> (extra = [] \/ exists v, is_u64 v /\ extra = vlu_encode v) ->
  (length (enc cum s ++ extra) < fuel)%nat -> ack_loop fuel (enc cum s ++ extra) cum = Ok s.
Proof.
  induction s as [|(a, b) s IH]; intros cum fuel extra Hc Hs Hx Hf; (destruct fuel as [|fuel]; [lia|]).
  - cbn [enc app ack_loop]. destruct Hx as [-> | (v & Hv & ->)]; [reflexivity|].
    destruct (_ <=? 0); [reflexivity|]. rewrite <- (app_nil_r (vlu_encode v)). rewrite take_vlu_enc by (auto; constructor). reflexivity.
  - destruct Hs as (H1 & H2 & H3). cbn [enc]. rewrite <- !app_assoc. cbn [ack_loop].
    assert (U1 : is_u64 (a - cum - 2)) by (unfold is_u64, U64MAX in *; lia). assert (U2 : is_u64 (b - a)) by (unfold is_u64, U64MAX in *; lia).
    assert (Be : bytes_ok (enc b s ++ extra)). { apply bytes_ok_app; split; [apply enc_bytes; [lia|exact H3]|]. destruct Hx as [-> | (v & Hv & ->)]; [constructor|apply vlu_encode_bytes, Hv]. }
    destruct (vlu_encode_spec _ U1) as (_ & _ & L1 & _).
    destruct (Z.leb_spec (zlen (vlu_encode (a - cum - 2) ++ vlu_encode (b - a) ++ enc b s ++ extra)) 0) as [L|_].
    { rewrite zlen_app in L. pose proof (zlen_nonneg _ (vlu_encode (b - a) ++ enc b s ++ extra)). unfold zlen in *. lia. }
    rewrite take_vlu_enc by (auto; apply bytes_ok_app; split; auto; apply vlu_encode_bytes, U2).
    rewrite take_vlu_enc by auto. cbv zeta.
    replace (wrap64 (wrap64 (wrap64 (cum + 1) + (a - cum - 2)) + 1)) with a by (unfold wrap64, U64MAX in *; lia).
    replace (wrap64 (a + (b - a))) with b by (unfold wrap64, U64MAX in *; lia).
    cbn [enc] in Hf. rewrite <- !app_assoc in Hf. rewrite app_length in Hf. rewrite (app_length (vlu_encode (b - a))) in Hf.
    rewrite IH; [reflexivity|lia|exact H3|exact Hx|lia].
Qed.

(** The prefix of a canonical list holds the members up to some bound. *)
Lemma prefix_bound : forall s lo n, canonical_from lo s -> exists N, lo - 2 <= N /\ (forall i, member (firstn n s) i <-> member s i /\ i <= N) /\ (n = length s -> N = Z.max (lo - 2) U64MAX).
Proof.
  induction s as [|(a, b) s IH]; intros lo n Hs.
  - exists (Z.max (lo - 2) U64MAX). split; [lia|]. split; [|reflexivity]. intros i. rewrite firstn_nil. split; [intros H; apply member_nil in H; tauto|intros (H & _); exact H].
  - destruct Hs as (H1 & H2 & H3). destruct n as [|n].
    + exists (lo - 2). split; [lia|]. split; [|discriminate]. intros i. cbn [firstn]. split; [intros H; apply member_nil in H; tauto|].
      intros (H & Hi). assert (Hc : canonical_from lo ((a, b) :: s)) by (cbn; auto). pose proof (canonical_member_bounds _ _ i Hc H). lia.
    + destruct (IH (b + 2) n H3) as (N & HN & Hm & He). exists N. split; [lia|]. split.
      * intros i. change (firstn (S n) ((a, b) :: s)) with ((a, b) :: firstn n s). rewrite !member_cons, Hm. split; [intros [H|H]|intros ([H|H] & H')]; intuition lia.
      * intros E. cbn [length] in E. rewrite He by lia. unfold U64MAX in *. lia.
Qed.

Lemma R_prefix : forall p a done l, R p a -> a_bytes a = done ++ l ->
  pa_to_vector (restore p (length done)) = done.
Proof.
  intros p a done l (rest & Hb & _) E. unfold pa_to_vector, restore. cbn. rewrite Hb, E, <- app_assoc. apply firstn_app_exact.
Qed.
Lemma R_cursor : forall p cap done fg, R p (mkA cap done None fg) -> p_cursor p = length done.
Proof. intros p cap done fg (rest & _ & Hc & _). rewrite Hc. unfold a_bytes. cbn. rewrite app_nil_r. reflexivity. Qed.

Lemma open_chunk_R : forall p cap done fg t pieces, R p (mkA cap done None fg) -> Forall is_piece pieces ->
  exists p', (open_chunk p t pieces = Ok (p', true) /\ R p' (mkA cap done (Some (t, pieces_bytes pieces)) fg))
    \/ open_chunk p t pieces = Ok (p', false) /\ exists a l, R p' a /\ a_bytes a = done ++ l.
Proof.
  intros p cap done fg t pieces HR Hp. unfold open_chunk. destruct (R_start p _ t HR) as (p1 & E & HR1). rewrite E. cbn [rbind]. cbn [a_step] in *.
  destruct (_ <=? _) eqn:El; cbn [fst snd] in *.
  - destruct (R_pushes pieces p1 _ HR1 Hp) as (p2 & [(Hfit & E2 & HR2)|(Hno & E2 & l2 & HR2)]); rewrite E2; exists p2.
    + left. split; [reflexivity|]. unfold a_append in HR2. cbn in HR2. unfold a_bytes in HR2. cbn in HR2. rewrite app_nil_r in HR2. exact HR2.
    + right. split; [reflexivity|]. eexists. eexists. split; [exact HR2|].
      rewrite a_bytes_append. unfold a_bytes. cbn [a_done a_open]. rewrite app_nil_r, <- !app_assoc. reflexivity.
  - exists p1. right. split; [reflexivity|]. eexists _, []. split; [exact HR1|]. unfold a_bytes. cbn. reflexivity.
Qed.
Lemma R_commit_open : forall p cap done t pl fg, R p (mkA cap done (Some (t, pl)) fg) -> exists p', pa_commit p = Ok p' /\ R p' (mkA cap (done ++ chunk_bytes t pl) None fg).
Proof. intros p cap done t pl fg HR. destruct (R_commit p _ HR ltac:(discriminate)) as (p' & E & HR'). exists p'. auto. Qed.

Definition ack_body (f : rf) (flow : Z) : list Z := vlu_encode flow ++ vlu_encode (advertise f) ++ vlu_encode (csn f).
Definition ack_rest (f : rf) : list (Z * Z) := match f_set f with (0, _) :: s => s | s => s end.

Lemma advertise_u64 : forall f, is_u64 (advertise f).
Proof. intros f. unfold advertise. cbv zeta. destruct (_ && _ && _ && _); unfold is_u64, wrap64, U64MAX; lia. Qed.

Lemma chunks_one : forall t l, chunks_bytes [(t, l)] = chunk_bytes t l.
Proof. intros. unfold chunks_bytes. cbn [flat_map fst snd]. apply app_nil_r. Qed.

Lemma assemble_ack_R : forall p cap done fg f flow tr ecn, R p (mkA cap done None fg) -> is_u64 flow -> is_u64 (f_exc f) -> match ecn with None => True | Some c => is_byte c end ->
  0 <= csn f <= U64MAX -> (f_set f = [] \/ exists q s, f_set f = (0, q) :: s /\ csn f = q /\ canonical_from (q + 2) s) ->
  exists p' f' ok, assemble_ack p f flow tr ecn = Ok (p', f', ok) /\
    if (ok : bool) then exists n extra, R p' (mkA cap (done ++ chunks_bytes (ack_before f flow ecn ++ [(81, ack_body f flow ++ enc (csn f) (firstn n (ack_rest f)) ++ extra)])) None fg)
       /\ (tr = false -> n = length (ack_rest f)) /\ (extra = [] \/ exists v, is_u64 v /\ extra = vlu_encode v) /\ f' = with_rwnd f (advertise f)
    else pa_to_vector p' = done /\ f' = f.
Proof.
  intros p cap done fg f flow tr ecn HR Hflow Hexc Hecn Hcsn Hset. unfold assemble_ack. cbv zeta. rewrite (R_cursor _ _ _ _ HR).
  match goal with |- context [rbind ?x _] => remember x as X eqn:EX end.
  assert (HX : exists p1 ok1, X = Ok (p1, ok1) /\ if (ok1 : bool) then R p1 (mkA cap (done ++ chunks_bytes (match ecn with None => [] | Some c => [(236, [c])] end)) None fg) else exists a l, R p1 a /\ a_bytes a = done ++ l).
  { subst X. destruct ecn as [c|].
    - destruct (open_chunk_R p cap done fg CHUNK_ECN_REPORT [OpPushByte c] HR ltac:(repeat constructor; apply Hecn)) as (q & [(E & HR1)|(E & Hx)]); rewrite E; cbn [rbind].
      + destruct (R_commit_open _ _ _ _ _ _ HR1) as (q' & E' & HR2). rewrite E'. exists q', true. split; [reflexivity|]. rewrite chunks_one. exact HR2.
      + exists q, false. split; [reflexivity|exact Hx].
    - exists p, true. split; [reflexivity|]. unfold chunks_bytes. cbn [flat_map]. rewrite app_nil_r. exact HR. }
  destruct HX as (p1 & ok1 & -> & HR1). clear EX. cbn [rbind]. destruct ok1; cbn [negb].
  2:{ destruct HR1 as (a & l & HR1 & Ea). eexists _, _, false. split; [reflexivity|]. split; [eapply R_prefix; eauto|reflexivity]. }
  match goal with |- context [rbind ?x _] => remember x as X eqn:EX end.
  assert (HX : exists p1 ok1, X = Ok (p1, ok1) /\ if (ok1 : bool) then R p1 (mkA cap (done ++ chunks_bytes (ack_before f flow ecn)) None fg) else exists a l, R p1 a /\ a_bytes a = done ++ l).
  { subst X. unfold ack_before. change RF_REJECTED with 1. destruct (f_state f =? 1).
    - destruct (open_chunk_R p1 cap _ fg CHUNK_EXCEPTION [OpPushVLU flow; OpPushVLU (f_exc f)] HR1 ltac:(repeat constructor; apply Hflow || apply Hexc)) as (q & [(E & HR2)|(E & Hx)]); rewrite E; cbn [rbind].
      + destruct (R_commit_open _ _ _ _ _ _ HR2) as (q' & E' & HR3). rewrite E'. exists q', true. split; [reflexivity|]. rewrite chunks_bytes_app, chunks_one, app_assoc. cbn [pieces_bytes flat_map piece_bytes] in HR3. rewrite app_nil_r in HR3. exact HR3.
      + exists q, false. split; [reflexivity|]. destruct Hx as (a & l & Ha & El). eexists _, _. split; [exact Ha|]. rewrite El, <- app_assoc. reflexivity.
    - exists p1, true. split; [reflexivity|]. rewrite app_nil_r. exact HR1. }
  destruct HX as (p2 & ok2 & -> & HR2). clear EX. cbn [rbind]. destruct ok2; cbn [negb].
  2:{ destruct HR2 as (a & l & HR2 & Ea). eexists _, _, false. split; [reflexivity|]. split; [eapply R_prefix; eauto|reflexivity]. }
  assert (Hps : Forall is_piece [OpPushVLU flow; OpPushVLU (advertise f); OpPushVLU (csn f)]) by (repeat constructor; try apply Hflow; try apply advertise_u64; apply Hcsn).
  destruct (open_chunk_R p2 cap _ fg CHUNK_ACK_RANGES _ HR2 Hps) as (p3 & [(E & HR3)|(E & a & l & Ha & El)]); rewrite E; cbn [rbind negb].
  2:{ eexists _, _, false. split; [reflexivity|]. split; [eapply R_prefix; [exact Ha|]; rewrite El, <- app_assoc; reflexivity|reflexivity]. }
  assert (HA : exists p' trc n extra, ack_ranges p3 (csn f) (f_set f) = Ok (p', trc) /\ R p' (mkA cap (done ++ chunks_bytes (ack_before f flow ecn)) (Some (81, ack_body f flow ++ enc (csn f) (firstn n (ack_rest f)) ++ extra)) fg)
    /\ (trc = false -> n = length (ack_rest f)) /\ (extra = [] \/ exists v, is_u64 v /\ extra = vlu_encode v)).
  { assert (Eb : pieces_bytes [OpPushVLU flow; OpPushVLU (advertise f); OpPushVLU (csn f)] = ack_body f flow) by (cbn; rewrite app_nil_r; reflexivity). rewrite Eb in HR3.
    unfold ack_rest. destruct Hset as [Es | (q & s & Es & Ec & Hcan)].
    - rewrite Es. cbn [ack_ranges]. exists p3, false, 0%nat, []. split; [reflexivity|]. cbn [firstn enc app length]. rewrite app_nil_r. auto.
    - rewrite Es. cbn [ack_ranges]. rewrite Z.eqb_refl.
      destruct (ack_ranges_R s p3 _ (csn f) HR3 ltac:(lia) ltac:(rewrite Ec; exact Hcan)) as (p' & trc & n & extra & E' & HR' & Ht & Hx). exists p', trc, n, extra. split; [exact E'|]. split; [exact HR'|auto]. }
  destruct HA as (p4 & trc & n & extra & E4 & HR4 & Ht & Hx). rewrite E4. cbn [rbind].
  destruct (trc && negb tr) eqn:Eb.
  - eexists _, _, false. split; [reflexivity|]. split; [|reflexivity]. eapply R_prefix; [exact HR4|]. unfold a_bytes. cbn [a_done a_open]. rewrite <- !app_assoc. reflexivity.
  - destruct (R_commit_open _ _ _ _ _ _ HR4) as (p5 & E5 & HR5). rewrite E5. cbn [rbind]. eexists _, _, true. split; [reflexivity|]. exists n, extra.
    split; [rewrite chunks_bytes_app, chunks_one, app_assoc; exact HR5|]. split; [|auto]. intros ->. cbn in Eb. rewrite andb_true_r in Eb. auto.
Qed.

Lemma set_shape : forall h f, SI h f -> Forall sane h -> 0 <= csn f <= U64MAX /\ (f_set f = [] \/ exists q s, f_set f = (0, q) :: s /\ csn f = q /\ canonical_from (q + 2) s).
Proof.
  intros h f HS Hs. pose proof (csn_facts h f HS Hs) as (_ & _ & Hc & _). split; [exact Hc|]. destruct HS as (H1 & H2 & _). unfold csn.
  destruct (f_set f) as [|(p, q) s] eqn:Es; [auto|right]. exists q, s. destruct H1 as (Hpq & Hq & Hrest).
  assert (H0 : forall i, covered h i -> covered h 0).
  { intros i (e & Hin & Hcv). exists e. split; [exact Hin|]. rewrite Forall_forall in Hs. specialize (Hs e Hin). destruct e; try contradiction. cbn in *. unfold is_u64 in Hs. lia. }
  assert (Hp0 : p = 0).
  { assert (Hc0 : covered h 0) by (apply (H0 p); apply H2, member_cons; left; lia). apply H2, member_cons in Hc0. destruct Hc0 as [H|H]; [lia|].
    pose proof (canonical_member_bounds s (q + 2) 0 Hrest H). lia. }
  subst p. auto.
Qed.

Lemma ack_parse_body : forall f flow n extra h, SI h f -> Forall sane h -> is_u64 flow -> flow <= LONG_MAX -> (extra = [] \/ exists v, is_u64 v /\ extra = vlu_encode v) ->
  bytes_ok (ack_body f flow ++ enc (csn f) (firstn n (ack_rest f)) ++ extra) /\
  exists k, ack_parse (ack_body f flow ++ enc (csn f) (firstn n (ack_rest f)) ++ extra) = Ok k /\ k_flow k = flow /\ k_cum k = csn f
    /\ k_bytes k = Z.min U64MAX (1024 * advertise f)
    /\ exists N, (forall i, 1 <= i -> (acked k i <-> covered h i /\ i <= N)) /\ (n = length (ack_rest f) -> N = U64MAX).
Proof.
  intros f flow n extra h HS Hs Hflow Hlm Hx. destruct (set_shape h f HS Hs) as (Hc & Hset).
  assert (Hcan : canonical_from (csn f + 2) (ack_rest f)). { unfold ack_rest. destruct Hset as [-> | (q & s & -> & -> & H)]; [exact I|exact H]. }
  assert (Hcann : canonical_from (csn f + 2) (firstn n (ack_rest f))).
  { revert Hcan. generalize (csn f + 2). generalize (ack_rest f). intros l. revert n. induction l as [|(a, b) l IH]; intros [|n] lo H; try exact I. destruct H as (? & ? & ?). cbn. split; [|split]; [assumption|assumption|]. apply IH. assumption. }
  assert (B1 : bytes_ok (enc (csn f) (firstn n (ack_rest f)) ++ extra)). { apply bytes_ok_app; split; [apply enc_bytes; [lia|exact Hcann]|]. destruct Hx as [-> | (v & Hv & ->)]; [constructor|apply vlu_encode_bytes, Hv]. }
  pose proof (advertise_u64 f) as Ha. unfold ack_body. rewrite <- !app_assoc.
  assert (B2 : bytes_ok (vlu_encode (csn f) ++ enc (csn f) (firstn n (ack_rest f)) ++ extra)) by (apply bytes_ok_app; split; [apply vlu_encode_bytes; exact Hc|exact B1]).
  assert (B3 : bytes_ok (vlu_encode (advertise f) ++ vlu_encode (csn f) ++ enc (csn f) (firstn n (ack_rest f)) ++ extra)) by (apply bytes_ok_app; split; [apply vlu_encode_bytes; exact Ha|exact B2]).
  split; [apply bytes_ok_app; split; [apply vlu_encode_bytes; exact Hflow|exact B3]|].
  unfold ack_parse. rewrite take_vlu_enc by assumption. cbn [rbind]. destruct (Z.gtb_spec flow LONG_MAX) as [|_]; [lia|].
  rewrite take_vlu_enc by assumption. cbn [rbind]. rewrite take_vlu_enc by assumption. cbn [rbind].
  rewrite ack_loop_enc by (auto; lia). cbn [rbind]. eexists. split; [reflexivity|]. cbn [k_flow k_cum k_bytes]. split; [reflexivity|]. split; [reflexivity|].
  split. { change (U64MAX / 1024) with 18014398509481983. unfold is_u64, U64MAX in *. destruct (Z.gtb_spec (advertise f) 18014398509481983); lia. }
  destruct (prefix_bound (ack_rest f) _ n Hcan) as (N & HN & Hm & He). exists N. split; [|intros H; rewrite (He H); unfold U64MAX in *; lia].
  intros i Hi. unfold acked. cbn [k_cum k_ranges]. destruct HS as (H1 & H2 & H3). rewrite <- H2.
  assert (Hmem : forall i, 1 <= i -> (member (f_set f) i <-> i <= csn f \/ member (ack_rest f) i)).
  { intros j Hj. unfold ack_rest. destruct Hset as [Es | (q & s & Es & Ec & _)]; rewrite Es.
    - unfold csn. rewrite Es. cbn. split; [intros H; apply member_nil in H; tauto|intros [H|H]; [lia|exact H]].
    - rewrite Ec, member_cons. split; intros [H|H]; auto; left; lia. }
  rewrite Hmem by exact Hi. specialize (Hm i). unfold member in Hm at 1.
  assert (Hlo : member (ack_rest f) i -> csn f + 2 <= i) by (intros H; apply (canonical_member_bounds _ _ i Hcan) in H; lia).
  split.
  - intros [H|(a & b & Hin & Hab)]; [split; [left; exact H|lia]|]. assert (X : exists r, In r (firstn n (ack_rest f)) /\ r_start r <= i <= r_end r) by (exists (a, b); auto).
    apply Hm in X. tauto.
  - intros ([H|H] & HN'); [left; exact H|right]. destruct Hm as (_ & Hm). destruct (Hm (conj H HN')) as ((a, b) & Hin & Hab). exists a, b. auto.
Qed.

Lemma ack_truthful_bytes : forall buf margin flags ts tse cs0 script es f0 f flow tr ecn,
  is_byte flags -> ts <= 65535 -> tse <= 65535 -> (margin + 5 <= length buf)%nat -> zlen buf <= 65535 ->
  Forall (fun c => is_byte (fst c) /\ Forall is_piece (snd c)) cs0 ->
  rf_init script = Ok f0 -> Forall sane es -> rf_run f0 es = Ok f ->
  is_u64 flow -> flow <= LONG_MAX -> is_u64 (f_exc f) -> match ecn with None => True | Some c => is_byte c end ->
  exists p0 p1 bs p2 f' ok, pa_init_header buf margin flags ts tse = Ok p0 /\ pa_try_chunks p0 cs0 = Ok (p1, bs)
    /\ assemble_ack p1 f flow tr ecn = Ok (p2, f', ok)
    /\ if (ok : bool) then
         forall accept k, Z.of_nat k < 65538 ->
         let ts' := if ts >=? 0 then ts else -1 in
         let tse' := if tse >=? 0 then tse else -1 in
         accept (header_flags flags ts tse) ts' tse' = true ->
         exists pp pl ka, parse_packet accept (pa_to_vector p2 ++ repeat 255 k) margin = Ok pp
           /\ h_chunks pp = added cs0 bs ++ ack_before f flow ecn ++ [(81, pl)]
           /\ bytes_ok pl /\ ack_parse pl = Ok ka /\ fits_ack es f flow tr ka
       else pa_to_vector p2 = pa_to_vector p1 /\ f' = f.
Proof.
  intros buf margin flags ts tse cs0 script es f0 f flow tr ecn Hf Hts Htse Hm Hbuf Hcs Hi Hs Hr Hflow Hlm Hexc Hecn.
  pose proof (run_SI _ _ _ _ Hi Hs Hr) as HS. destruct (set_shape es f HS Hs) as (Hc & Hset).
  destruct (R_init_header buf margin flags ts tse Hf ltac:(unfold U64MAX; lia) Hm) as (p & He & HR).
  assert (Hcs' : Forall (fun c => Forall is_piece (snd c)) cs0) by (eapply Forall_impl; [|exact Hcs]; cbv beta; tauto).
  destruct (R_try_chunks cs0 p _ _ _ HR Hcs') as (p1 & He' & HR1).
  assert (Hfn : length (firstn margin buf) = margin) by (rewrite firstn_length; lia).
  assert (Hz : zlen (firstn margin buf ++ header_bytes flags ts tse) = Z.of_nat margin + zlen (header_bytes flags ts tse)).
  { rewrite zlen_app. unfold zlen at 1. rewrite Hfn. reflexivity. }
  rewrite Hz in *. set (bs := greedy _ _ _) in *.
  destruct (assemble_ack_R p1 _ _ _ f flow tr ecn HR1 Hflow Hexc Hecn Hc Hset) as (p2 & f' & ok & E & HH).
  exists p, p1, bs, p2, f', ok. split; [exact He|]. split; [exact He'|]. split; [exact E|]. destruct ok.
  2:{ destruct HH as (Hv & ->). split; [|reflexivity]. rewrite Hv, (R_vector _ _ HR1). unfold a_bytes. cbn. rewrite app_nil_r. reflexivity. }
  destruct HH as (n & extra & HR2 & Htr & Hx & _). cbv zeta. intros accept k Hk Hacc.
  destruct (ack_parse_body f flow n extra es HS Hs Hflow Hlm Hx) as (Hbody & ka & Ek & K1 & K2 & K3 & N & K4 & K5).
  set (pl := ack_body f flow ++ enc (csn f) (firstn n (ack_rest f)) ++ extra) in *.
  set (cs := added cs0 bs ++ ack_before f flow ecn ++ [(81, pl)]).
  destruct (R_remaining _ _ HR2) as [_ Hle]. cbn [a_cap] in Hle. unfold a_bytes in Hle. cbn [a_done a_open] in Hle. rewrite app_nil_r in Hle.
  assert (Hok : Forall chunk_ok cs).
  { apply Forall_app. split.
    - apply greedy_chunks_ok; [exact Hcs| |lia]. pose proof (zlen_nonneg _ (header_bytes flags ts tse)). lia.
    - assert (HB : Forall (fun c => is_byte (fst c) /\ bytes_ok (snd c)) (ack_before f flow ecn ++ [(81, pl)])).
      { apply Forall_app; split; [|constructor; [|constructor]; split; [unfold is_byte; cbn; lia|exact Hbody]]. unfold ack_before. apply Forall_app. split.
        - destruct ecn; constructor; [|constructor]. cbn [fst snd]. split; [unfold is_byte; lia|constructor; [exact Hecn|constructor]].
        - destruct (_ =? _); constructor; [|constructor]. cbn [fst snd]. split; [unfold is_byte; lia|]. apply bytes_ok_app; split; apply vlu_encode_bytes; assumption. }
      rewrite Forall_forall in *. intros c Hin. specialize (HB c Hin). destruct HB. split; [|split]; auto. pose proof (chunks_fit _ _ Hin). rewrite !zlen_app in Hle.
      pose proof (zlen_nonneg _ (chunks_bytes (added cs0 bs))). pose proof (zlen_nonneg _ (header_bytes flags ts tse)). pose proof (zlen_nonneg _ (firstn margin buf)). lia. }
  pose proof (fun H => parse_packet_roundtrip accept (firstn margin buf) flags ts tse cs k Hf Hts Htse H Hk Hacc) as Hrt.
  cbv zeta in Hrt. rewrite Hfn in Hrt. unfold cs in Hrt at 2. rewrite chunks_bytes_app, <- app_assoc in Hrt. specialize (Hrt Hok). eexists _, pl, ka. split.
  { rewrite (R_vector _ _ HR2). unfold a_bytes. cbn [a_done a_open]. rewrite app_nil_r, <- !app_assoc. exact Hrt. }
  split; [reflexivity|]. split; [exact Hbody|]. split; [exact Ek|]. unfold fits_ack. repeat (split; [assumption|]). exists N. split; [exact K4|]. intros H. apply K5, Htr, H.
Qed.

Lemma ack_truthful : forall buf margin flags ts tse cs0 script es f0 f flow tr ecn,
  is_byte flags -> ts <= 65535 -> tse <= 65535 -> (margin + 5 <= length buf)%nat -> zlen buf <= 65535 ->
  Forall (fun c => is_byte (fst c) /\ Forall is_piece (snd c)) cs0 ->
  rf_init script = Ok f0 -> Forall sane es -> rf_run f0 es = Ok f ->
  is_u64 flow -> flow <= LONG_MAX -> is_u64 (f_exc f) -> match ecn with None => True | Some c => is_byte c end ->
  exists p0 p1 bs p2 f' ok, pa_init_header buf margin flags ts tse = Ok p0 /\ pa_try_chunks p0 cs0 = Ok (p1, bs)
    /\ assemble_ack p1 f flow tr ecn = Ok (p2, f', ok)
    /\ if (ok : bool) then
         forall accept k, Z.of_nat k < 65538 ->
         let ts' := if ts >=? 0 then ts else -1 in
         let tse' := if tse >=? 0 then tse else -1 in
         accept (header_flags flags ts tse) ts' tse' = true ->
         exists pp pl ka, parse_packet accept (pa_to_vector p2 ++ repeat 255 k) margin = Ok pp
           /\ h_chunks pp = added cs0 bs ++ ack_before f flow ecn ++ [(81, pl)]
           /\ ack_parse pl = Ok ka /\ fits_ack es f flow tr ka
       else pa_to_vector p2 = pa_to_vector p1 /\ f' = f.
Proof.
  intros buf margin flags ts tse cs0 script es f0 f flow tr ecn H1 H2 H3 H4 H5 H6 H7 H8 H9 H10 H11 H12 H13.
  destruct (ack_truthful_bytes buf margin flags ts tse cs0 script es f0 f flow tr ecn H1 H2 H3 H4 H5 H6 H7 H8 H9 H10 H11 H12 H13) as (p0 & p1 & bs & p2 & f' & ok & A1 & A2 & A3 & A4).
  exists p0, p1, bs, p2, f', ok. split; [exact A1|]. split; [exact A2|]. split; [exact A3|]. destruct ok; [|exact A4]. intros accept k Hk ts' tse' Hacc.
  destruct (A4 accept k Hk Hacc) as (pp & pl & ka & B1 & B2 & _ & B3). exists pp, pl, ka. auto.
Qed.

Lemma ack_loop_safe : forall fuel l cum, bytes_ok l -> (length l < fuel)%nat -> exists rs, ack_loop fuel l cum = Ok rs /\ Forall (fun r => is_u64 (fst r) /\ is_u64 (snd r)) rs.
Proof.
  induction fuel as [|fuel IH]; intros l cum Hl Hf; [lia|]. cbn [ack_loop]. destruct (_ <=? _); [exists []; auto|].
  pose proof (take_vlu_facts l Hl) as H1. destruct (take_vlu l) as [(v1, r1)| |]; [|exists []; auto|contradiction]. destruct H1 as (_ & Hr1 & L1 & _).
  pose proof (take_vlu_facts r1 Hr1) as H2. destruct (take_vlu r1) as [(v2, r2)| |]; [|exists []; auto|contradiction]. destruct H2 as (_ & Hr2 & L2 & _). cbv zeta.
  match goal with |- context [ack_loop fuel r2 ?c] => destruct (IH r2 c Hr2 ltac:(lia)) as (rs & E & F) end. rewrite E. cbn [rbind]. eexists. split; [reflexivity|].
  constructor; [|exact F]. cbn [fst snd]. unfold is_u64, wrap64, U64MAX. lia.
Qed.
Lemma ack_parse_safe : forall l, bytes_ok l -> match ack_parse l with Ok k => is_u64 (k_cum k) /\ Forall (fun r => is_u64 (fst r) /\ is_u64 (snd r)) (k_ranges k) | Rej => True | UB => False end.
Proof.
  intros l Hl. unfold ack_parse.
  pose proof (take_vlu_facts l Hl) as H1. destruct (take_vlu l) as [(v1, r1)| |]; auto. cbn [rbind]. destruct H1 as (_ & Hr1 & _). destruct (v1 >? LONG_MAX); [exact I|].
  pose proof (take_vlu_facts r1 Hr1) as H2. destruct (take_vlu r1) as [(v2, r2)| |]; auto. cbn [rbind]. destruct H2 as (_ & Hr2 & _).
  pose proof (take_vlu_facts r2 Hr2) as H3. destruct (take_vlu r2) as [(v3, r3)| |]; auto. cbn [rbind]. destruct H3 as (Hu & Hr3 & _).
  destruct (ack_loop_safe (S (length r3)) r3 v3 Hr3 ltac:(lia)) as (rs & E & F). rewrite E. cbn [rbind k_cum k_ranges]. auto.
Qed.

Lemma advertise_window : forall f, 0 <= s_sum (f_buf f) -> 0 <= f_cap f <= U64MAX - 1023 -> 0 <= f_win f -> advertise f = window f.
Proof.
  intros f Hs Hc Hw. unfold advertise, window. cbv zeta.
  assert (E : (if s_sum (f_buf f) >=? f_cap f then 0 else Z.min (f_cap f - s_sum (f_buf f)) (f_win f)) = Z.max 0 (Z.min (f_cap f - s_sum (f_buf f)) (f_win f))).
  { destruct (Z.geb_spec (s_sum (f_buf f)) (f_cap f)); lia. }
  rewrite E. set (b := Z.max 0 _). assert (0 <= b <= U64MAX - 1023) by (unfold b, U64MAX in *; lia).
  replace (wrap64 (b + 1023)) with (b + 1023) by (unfold wrap64, U64MAX in *; lia). 
  assert (0 <= (b + 1023) / 1024) by lia. clearbody b. set (q := (b + 1023) / 1024) in *. clearbody q.
  destruct (Z.eqb_spec q 0), (f_cap f >? 0), (f_win f >? 0), (f_order f); cbn [order_eqb negb andb]; lia.
Qed.
