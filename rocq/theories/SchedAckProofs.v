(** An acknowledgement that may be truncated always fits into a packet that has only its header. *)
From Verif Require Import Base BaseFacts VLU IndexSet IndexSetSpec IndexSetProofs LinkedList Packet PacketSpec PacketProofs RecvFlow RecvFlowSpec RecvFlowRun Ack AckSpec AckProofs SendFlowRun EndToEndLive.
Open Scope Z_scope.

Lemma open_chunk_ok : forall p cap done fg t pieces, R p (mkA cap done None fg) -> Forall is_piece pieces -> zlen done + 3 + zlen (pieces_bytes pieces) <= cap ->
  exists p', open_chunk p t pieces = Ok (p', true) /\ R p' (mkA cap done (Some (t, pieces_bytes pieces)) fg).
Proof.
  intros p cap done fg t pieces HR Hp Hf. destruct (open_chunk_fits p cap done fg t pieces HR Hp Hf) as (p' & E). exists p'. split; [exact E|].
  destruct (open_chunk_R p cap done fg t pieces HR Hp) as (q & [(E' & HR')|(E' & _)]); rewrite E in E'; [|discriminate]. inversion E'; subst. exact HR'.
Qed.
Lemma vlu10 : forall v, is_u64 v -> zlen (vlu_encode v) <= 10.
Proof. intros v H. apply vlu_len; [exact H|lia|unfold is_u64, U64MAX in H; lia]. Qed.
Lemma ack_fits_R : forall p cap done fg f flow ecn, R p (mkA cap done None fg) -> zlen done + 60 <= cap -> is_u64 flow -> is_u64 (f_exc f) -> match ecn with None => True | Some c => is_byte c end ->
  0 <= csn f <= U64MAX -> (f_set f = [] \/ exists q s, f_set f = (0, q) :: s /\ csn f = q /\ canonical_from (q + 2) s) ->
  exists p' f', assemble_ack p f flow true ecn = Ok (p', f', true).
Proof.
  intros p cap done fg f flow ecn HR Hd Hf Hx He Hc Hs. destruct (assemble_ack_R p cap done fg f flow true ecn HR Hf Hx He Hc Hs) as (p' & f' & ok & E & _). rewrite E. exists p', f'.
  enough (X : ok = true) by (subst; reflexivity). revert E. unfold assemble_ack. cbv zeta.
  match goal with |- context [rbind ?x _] => remember x as X eqn:EX end.
  assert (HX : exists p1 d, X = Ok (p1, true) /\ R p1 (mkA cap (done ++ d) None fg) /\ zlen d <= 4).
  { subst X. destruct ecn as [c|]; [|exists p, []; rewrite app_nil_r; split; [reflexivity|split; [exact HR|cbn; lia]]].
    destruct (open_chunk_ok p cap done fg CHUNK_ECN_REPORT [OpPushByte c] HR ltac:(repeat constructor; apply He) ltac:(change (zlen (pieces_bytes [OpPushByte c])) with 1; lia)) as (q & E & HR1). rewrite E. cbn [rbind].
    destruct (R_commit_open _ _ _ _ _ _ HR1) as (q' & E' & HR2). rewrite E'. exists q', (chunk_bytes CHUNK_ECN_REPORT (pieces_bytes [OpPushByte c])). split; [reflexivity|split; [exact HR2|]]. rewrite zlen_chunk_bytes. cbn. lia. }
  clear EX. destruct HX as (p1 & d & -> & HR1 & Hd1). cbn [rbind negb].
  match goal with |- context [rbind ?x _] => remember x as X eqn:EX end.
  assert (HX : exists p2 d2, X = Ok (p2, true) /\ R p2 (mkA cap (done ++ d2) None fg) /\ zlen d2 <= 27).
  { subst X. destruct (f_state f =? RF_REJECTED); [|exists p1, d; split; [reflexivity|split; [exact HR1|lia]]].
    pose proof (vlu10 flow Hf) as L1. pose proof (vlu10 _ Hx) as L2.
    assert (L : zlen (pieces_bytes [OpPushVLU flow; OpPushVLU (f_exc f)]) <= 20) by (cbn [pieces_bytes flat_map piece_bytes]; rewrite !zlen_app; change (zlen (@nil Z)) with 0; lia).
    destruct (open_chunk_ok p1 cap (done ++ d) fg CHUNK_EXCEPTION [OpPushVLU flow; OpPushVLU (f_exc f)] HR1 ltac:(repeat constructor; try apply Hf; apply Hx) ltac:(rewrite zlen_app; lia)) as (q & E & HR2). rewrite E. cbn [rbind].
    destruct (R_commit_open _ _ _ _ _ _ HR2) as (q' & E' & HR3). rewrite E'. eexists q', (d ++ _). split; [reflexivity|split; [rewrite app_assoc; exact HR3|]]. rewrite zlen_app, zlen_chunk_bytes. lia. }
  clear EX HR1 Hd1 d. destruct HX as (p2 & d & -> & HR2 & Hd2). cbn [rbind negb].
  pose proof (vlu10 flow Hf) as L1. pose proof (vlu10 _ (advertise_u64 f)) as L2. pose proof (vlu10 (csn f) Hc) as L3.
  destruct (open_chunk_ok p2 cap (done ++ d) fg CHUNK_ACK_RANGES [OpPushVLU flow; OpPushVLU (advertise f); OpPushVLU (csn f)] HR2) as (q & E & _).
  { repeat constructor; try apply Hf; try apply advertise_u64; apply Hc. }
  { cbn [pieces_bytes flat_map piece_bytes]. rewrite !zlen_app. change (zlen (@nil Z)) with 0. lia. }
  rewrite E. cbn [rbind negb]. destruct (ack_ranges q (csn f) (f_set f)) as [(p4, tr)| |]; cbn [rbind]; try discriminate. rewrite andb_false_r. destruct (pa_commit p4); cbn [rbind]; try discriminate. congruence.
Qed.
Lemma obligatory_fits : forall buf margin flags ts tse script es f0 f flow ecn,
  is_byte flags -> (margin + 65 <= length buf)%nat -> zlen buf <= 65535 ->
  rf_init script = Ok f0 -> Forall sane es -> rf_run f0 es = Ok f -> is_u64 flow -> is_u64 (f_exc f) -> match ecn with None => True | Some c => is_byte c end ->
  exists p p' f', pa_init_header buf margin flags ts tse = Ok p /\ assemble_ack p f flow true ecn = Ok (p', f', true).
Proof.
  intros buf margin flags ts tse script es f0 f flow ecn H1 H2 H3 H4 H5 H6 H7 H8 H9.
  destruct (R_init_header buf margin flags ts tse H1 ltac:(unfold U64MAX; lia) ltac:(lia)) as (p & E & HR). exists p.
  destruct (set_shape es f (run_SI _ _ _ _ H4 H5 H6) H5) as (Hc & Hs).
  destruct (ack_fits_R p _ _ _ f flow ecn HR) as (p' & f' & E'); auto.
  - rewrite zlen_app. unfold zlen at 1. rewrite firstn_length_le by lia. pose proof (header_short flags ts tse). unfold zlen at 2. unfold zlen in *. lia.
  - exists p', f'. auto.
Qed.
