(** Lemmas about user-data chunks. *)
From Verif Require Import Base BaseFacts VLU VLUSpec VLUProofs Packet PacketSpec PacketProofs UserData UserDataSpec.
Ltac Zify.zify_post_hook ::= Z.div_mod_to_equations.
Open Scope res_scope.

Lemma take_vlu_enc : forall v rest, is_u64 v -> bytes_ok rest -> take_vlu (vlu_encode v ++ rest) = Ok (v, rest).
Proof. intros v rest Hv Hr. unfold take_vlu. rewrite vlu_roundtrip by auto. cbn [rbind]. rewrite skipn_app_exact. reflexivity. Qed.

Lemma take_vlu_facts : forall l, bytes_ok l ->
  match take_vlu l with Ok (v, r) => is_u64 v /\ bytes_ok r /\ (length r < length l)%nat /\ exists h, l = h ++ r | Rej => True | UB => False end.
Proof.
  intros l Hl. unfold take_vlu. destruct (vlu_parse_spec l Hl) as [(_ & E)|(pre & rest & E1 & Hc & E)]; rewrite E; cbn [rbind]; [exact I|].
  subst l. rewrite skipn_app_exact. apply bytes_ok_app in Hl. destruct Hl as [H1 H2]. pose proof (groups_value_nonneg pre).
  pose proof (complete_vlu_length _ Hc). rewrite app_length.
  split; [unfold is_u64, U64MAX; lia|]. split; [exact H2|]. split; [lia|exists pre; reflexivity].
Qed.

(** ** Flags *)
Definition fl12 : list Z := [0;1;2;3;16;17;18;19;32;33;34;35;48;49;50;51].
Lemma frame_flags : forall fsn fr, frame_ok fsn fr -> In (fr_flags fr) fl12.
Proof.
  intros fsn fr ((fra & abn & fin & H1 & H2 & H3 & E) & _). rewrite E. unfold fl12.
  cbn [In] in *. intuition (subst; cbn; tauto).
Qed.
Lemma fl_facts : forall x, In x fl12 -> is_byte x /\ Z.lor 0 x = x /\ Z.lor FLAG_OPT x = x + 128 /\ Z.land x FLAG_OPT = 0 /\ Z.land (x + 128) FLAG_OPT = 128
  /\ negb (Z.land x 2 =? 0) = Z.odd (x / 2) /\ is_byte (x + 128).
Proof.
  assert (H : forallb (fun x => (0 <=? x) && (x <? 128) && (Z.lor 0 x =? x) && (Z.lor FLAG_OPT x =? x + 128) && (Z.land x FLAG_OPT =? 0) && (Z.land (x + 128) FLAG_OPT =? 128)
     && Bool.eqb (negb (Z.land x 2 =? 0)) (Z.odd (x / 2))) fl12 = true) by reflexivity.
  intros x Hx. rewrite forallb_forall in H. specialize (H x Hx). rewrite !andb_true_iff in H. destruct H as ((((((H1 & H2) & H3) & H4) & H5) & H6) & H7).
  apply Bool.eqb_prop in H7. unfold is_byte. repeat split; try lia. exact H7.
Qed.

(** ** Options *)
Lemma wire_len : forall ty v w, option_wire ty v w -> (1 <= length w)%nat.
Proof. intros ty v w Hw. inversion Hw as [? ? L T HcL HcT E1 E2]; subst. pose proof (complete_vlu_length _ HcL). rewrite app_length. lia. Qed.
Lemma ud_options_startup : forall m a rest fuel, bytes_ok m -> zlen m <= 65535 -> match a with None => True | Some id => is_u64 id end -> bytes_ok rest ->
  (length (startup_options m a ++ rest) < fuel)%nat ->
  ud_options fuel (startup_options m a ++ rest) None None false = Ok (rest, Some m, a, false).
Proof.
  intros m a rest fuel Hm Hlen Ha Hr Hf.
  assert (H10 : is_u64 10) by (unfold is_u64, U64MAX; lia). assert (H0 : is_u64 0) by (unfold is_u64, U64MAX; lia).
  assert (K : forall ty v w r f meta as_ rj, option_wire ty v w -> is_u64 ty -> zlen w <= U64MAX -> bytes_ok v -> bytes_ok r -> 
     ud_options (S f) (w ++ r) meta as_ rj = (if ty =? OPT_METADATA then ud_options f r (Some v) as_ rj
            else if ty =? OPT_RETURN_ASSOCIATION then ' (a, _) <- vlu_parse v;; ud_options f r meta (Some a) rj
            else ud_options f r meta as_ (if ty <? OPT_MANDATORY_CUTOFF then true else rj))).
  { intros ty v w r f meta as_ rj Hw Hty Hwl Hv Hrr. cbn [ud_options].
    assert (1 <= length w)%nat. { inversion Hw as [? ? L T HcL HcT E1 E2]; subst. pose proof (complete_vlu_length _ HcL). rewrite app_length. lia. }
    destruct (Z.leb_spec (zlen (w ++ r)) 0) as [L|_]; [rewrite zlen_app in L; pose proof (zlen_nonneg _ r); unfold zlen in L; lia|].
    rewrite (option_parse_wire ty v w r) by auto. cbn [rbind]. rewrite skipn_app_exact. reflexivity. }
  assert (KE : forall r f meta as_ rj, bytes_ok r -> ud_options (S f) (vlu_encode 0 ++ r) meta as_ rj = Ok (r, meta, as_, rj)).
  { intros r f meta as_ rj Hrr. cbn [ud_options]. rewrite vlu_encode_0. cbn [app]. rewrite zlen_cons. pose proof (zlen_nonneg _ r).
    destruct (Z.leb_spec (1 + zlen r) 0); [lia|]. pose proof (option_parse_end r Hrr) as E. rewrite vlu_encode_0 in E. cbn [app] in E. rewrite E. reflexivity. }
  unfold startup_options, OPT_METADATA, OPT_RETURN_ASSOCIATION, option_append_vlu, option_append_end, vlu_append in *.
  destruct (option_append_wire 0 m [] H0 ltac:(unfold U64MAX; lia)) as (w1 & E1 & W1 & L1). rewrite E1 in *. cbn [app] in *.
  assert (Z0 : bytes_ok (vlu_encode 0 ++ rest)) by (rewrite vlu_encode_0; constructor; [unfold is_byte; lia|exact Hr]).
  destruct a as [id|].
  - pose proof (vlu_encode_bytes id Ha) as Hb. destruct (vlu_encode_spec id Ha) as (_ & _ & Hl10 & _).
    destruct (option_append_wire 10 (vlu_encode id) w1 H10 ltac:(unfold zlen, U64MAX; lia)) as (w2 & E2 & W2 & L2). rewrite E2 in *.
    rewrite <- !app_assoc in *.
    pose proof (wire_len _ _ _ W1). pose proof (wire_len _ _ _ W2). rewrite !app_length, vlu_encode_0 in Hf. cbn [length] in Hf.
    destruct fuel as [|[|[|fuel]]]; [lia|lia|lia|].
    assert (Hw2 : bytes_ok w2). { pose proof (option_bytes_ok 10 (vlu_encode id) w1 H10 Hb ltac:(unfold zlen, U64MAX; lia)) as X.
      pose proof (option_bytes_ok 0 m [] H0 Hm ltac:(unfold U64MAX; lia) (Forall_nil _)) as Y. rewrite E1 in Y. specialize (X Y). rewrite E2 in X. apply bytes_ok_app in X. tauto. }
    rewrite (K 0 m w1) by (first [assumption | unfold U64MAX in *; lia | apply bytes_ok_app; split; assumption]). cbn [Z.eqb OPT_METADATA].
    rewrite (K 10 (vlu_encode id) w2) by (first [assumption | unfold zlen, U64MAX in *; lia]). change (10 =? 0) with false. change (10 =? 10) with true. cbv iota.
    rewrite <- (app_nil_r (vlu_encode id)) at 1. rewrite vlu_roundtrip by (auto; constructor). cbn [rbind]. apply KE, Hr.
  - rewrite <- !app_assoc in *. pose proof (wire_len _ _ _ W1). rewrite !app_length, vlu_encode_0 in Hf. cbn [length] in Hf.
    destruct fuel as [|[|fuel]]; [lia|lia|].
    rewrite (K 0 m w1) by (first [assumption | unfold U64MAX in *; lia]). cbn [Z.eqb OPT_METADATA]. apply KE, Hr.
Qed.

Lemma startup_facts : forall m a, bytes_ok m -> zlen m <= 65535 -> match a with None => True | Some id => is_u64 id end ->
  bytes_ok (startup_options m a) /\ 0 < zlen (startup_options m a).
Proof.
  intros m a Hm Hl Ha. unfold startup_options, option_append_end, vlu_append.
  assert (H10 : is_u64 10) by (unfold is_u64, U64MAX; lia). assert (H0 : is_u64 0) by (unfold is_u64, U64MAX; lia).
  pose proof (option_bytes_ok 0 m [] H0 Hm ltac:(unfold U64MAX; lia) (Forall_nil _)) as Y.
  split.
  - apply bytes_ok_app. split; [|rewrite vlu_encode_0; constructor; [unfold is_byte; lia|constructor]].
    destruct a as [id|]; [|exact Y]. unfold option_append_vlu. destruct (vlu_encode_spec id Ha) as (_ & _ & Hl10 & _).
    apply option_bytes_ok; auto; [apply vlu_encode_bytes, Ha|unfold zlen, U64MAX; lia].
  - rewrite vlu_encode_0, zlen_app, zlen_cons, zlen_nil. match goal with |- 0 < zlen ?x + _ => pose proof (zlen_nonneg _ x) end. lia.
Qed.

Lemma sup_facts : forall s, sup_ok s -> bytes_ok (sup_bytes s) /\ (zlen (sup_bytes s) =? 0) = match s with None => true | Some _ => false end.
Proof.
  intros [(m, a)|] H; cbn [sup_bytes]; [|split; [constructor|reflexivity]]. destruct H as (H1 & H2 & H3).
  destruct (startup_facts m a H1 H2 H3). split; [assumption|]. lia.
Qed.

(** ** One chunk *)
Lemma ud_chunk_pieces : forall flow fsn s first prev fr, is_u64 flow -> is_u64 fsn -> sup_ok s -> frame_ok fsn fr ->
  let c := ud_chunk flow fsn (sup_bytes s) first prev fr in is_byte (fst c) /\ Forall is_piece (snd c).
Proof.
  intros flow fsn s first prev fr Hflow Hfsn Hs Hfr c. unfold c, ud_chunk. destruct (sup_facts s Hs) as (Hb & Hz). rewrite Hz.
  pose proof (fl_facts _ (frame_flags _ _ Hfr)) as (F1 & F2 & F3 & F4 & F5 & F6 & F7). destruct Hfr as (_ & Hseq & Hle & Hd). cbn [fst snd].
  split; [destruct (negb first && (fr_seq fr =? wrap64 (prev + 1))); unfold is_byte, CHUNK_NEXT_USERDATA, CHUNK_USERDATA; lia|].
  apply Forall_app; split; [|apply Forall_app; split; [|apply Forall_app; split]].
  - constructor; [|constructor]. cbn [is_piece]. destruct (first && negb match s with None => true | Some _ => false end); rewrite ?F2, ?F3; assumption.
  - destruct (_ =? CHUNK_USERDATA); [|constructor].
    assert (is_u64 (wrap64 (fr_seq fr - fsn))) by (unfold is_u64, wrap64, U64MAX in *; lia).
    repeat (constructor; try assumption).
  - destruct (first && _); repeat constructor; assumption.
  - destruct (fr_abandoned fr); repeat constructor; assumption.
Qed.

Lemma ud_parse_chunk : forall flow fsn s first prev fr ctx, is_u64 flow -> is_u64 fsn -> sup_ok s -> frame_ok fsn fr ->
  (first = false -> ctx = Some (flow, prev, fsn)) ->
  let c := ud_chunk flow fsn (sup_bytes s) first prev fr in
  ud_parse ctx (fst c) (pieces_bytes (snd c)) = Ok (received flow fsn (if first then s else None) fr).
Proof.
  intros flow fsn s first prev fr ctx Hflow Hfsn Hs Hfr Hctx c.
  destruct (ud_chunk_pieces flow fsn s first prev fr Hflow Hfsn Hs Hfr) as (_ & Hps). apply pieces_bytes_ok in Hps. revert Hps.
  unfold c, ud_chunk. destruct (sup_facts s Hs) as (Hb & Hz). rewrite Hz. cbn [fst snd].
  pose proof (fl_facts _ (frame_flags _ _ Hfr)) as (F1 & F2 & F3 & F4 & F5 & F6 & F7). pose proof Hfr as (_ & Hseq & Hle & Hd).
  set (next := negb first && (fr_seq fr =? wrap64 (prev + 1))).
  set (sel := if first then s else None).
  replace (first && negb match s with Some _ => false | None => true end) with (match sel with Some _ => true | None => false end) by (unfold sel; destruct first, s; reflexivity).
  set (fl := Z.lor (if match sel with Some _ => true | None => false end then FLAG_OPT else 0) (fr_flags fr)).
  assert (Hfl : fl = fr_flags fr + match sel with None => 0 | Some _ => 128 end) by (unfold fl; destruct sel; rewrite ?F2, ?F3; lia).
  assert (Hopt : (Z.land fl FLAG_OPT =? 0) = match sel with None => true | Some _ => false end) by (rewrite Hfl; destruct sel; rewrite ?Z.add_0_r, ?F4, ?F5; reflexivity).
  set (tl_ := pieces_bytes ((if match sel with Some _ => true | None => false end then [OpPush (sup_bytes s)] else []) ++ (if fr_abandoned fr then [] else [OpPush (fr_data fr)]))).
  set (dat := if Z.odd (fr_flags fr / 2) then [] else fr_data fr).
  assert (Hdat : bytes_ok dat) by (unfold dat; destruct (Z.odd _); [constructor|exact Hd]).
  assert (Htl : tl_ = match sel with Some _ => sup_bytes s ++ dat | None => dat end).
  { unfold tl_, dat, fr_abandoned. rewrite F6. destruct sel, (Z.odd (fr_flags fr / 2)); cbn; rewrite ?app_nil_r; reflexivity. }
  intros _.
  assert (E2 : forall l1, l1 = tl_ -> (if Z.land fl FLAG_OPT =? 0 then Ok (l1, None, None, false) else ud_options (S (length l1)) l1 None None false)
     = Ok (dat, match sel with Some (m, _) => Some m | None => None end, match sel with Some (_, a) => a | None => None end, false)).
  { intros l1 ->. rewrite Hopt, Htl. unfold sel in *. destruct first; [|reflexivity]. destruct s as [(m, a)|]; [|reflexivity].
    destruct Hs as (S1 & S2 & S3). cbn [sup_bytes]. apply ud_options_startup; auto. }
  assert (Btl : bytes_ok tl_). { rewrite Htl. destruct sel; [apply bytes_ok_app; auto|exact Hdat]. }
  change ([OpPushByte fl] ++ ?x) with (OpPushByte fl :: x). cbn [pieces_bytes flat_map piece_bytes app]. unfold ud_parse.
  fold pieces_bytes.
  destruct next eqn:En; unfold next in En.
  - apply andb_prop in En. destruct En as (En1 & En2). apply Bool.negb_true_iff in En1. subst first. rewrite (Hctx eq_refl).
    change (CHUNK_NEXT_USERDATA =? CHUNK_USERDATA) with false. change (CHUNK_NEXT_USERDATA =? CHUNK_NEXT_USERDATA) with true.
    cbv iota. cbn [rbind app]. fold (pieces_bytes ((if match sel with Some _ => true | None => false end then [OpPush (sup_bytes s)] else []) ++ (if fr_abandoned fr then [] else [OpPush (fr_data fr)]))).
    fold tl_. rewrite E2 by reflexivity. cbn [rbind]. unfold received. fold dat. apply Z.eqb_eq in En2. rewrite <- En2, Hfl. reflexivity.
  - change (CHUNK_USERDATA =? CHUNK_USERDATA) with true. cbv iota. cbn [app flat_map piece_bytes].
    fold (pieces_bytes ((if match sel with Some _ => true | None => false end then [OpPush (sup_bytes s)] else []) ++ (if fr_abandoned fr then [] else [OpPush (fr_data fr)]))).
    fold tl_.
    assert (Ho : wrap64 (fr_seq fr - fsn) = fr_seq fr - fsn) by (unfold wrap64, is_u64, U64MAX in *; lia). rewrite Ho.
    assert (Hou : is_u64 (fr_seq fr - fsn)) by (unfold is_u64, U64MAX in *; lia).
    assert (B1 : bytes_ok (vlu_encode (fr_seq fr - fsn) ++ tl_)) by (apply bytes_ok_app; split; [apply vlu_encode_bytes; exact Hou|exact Btl]).
    assert (B2 : bytes_ok (vlu_encode (fr_seq fr) ++ vlu_encode (fr_seq fr - fsn) ++ tl_)) by (apply bytes_ok_app; split; [apply vlu_encode_bytes; exact Hseq|exact B1]).
    rewrite take_vlu_enc by assumption. cbn [rbind]. rewrite take_vlu_enc by assumption. cbn [rbind].
    rewrite take_vlu_enc by auto. cbn [rbind].
    assert (Hw : wrap64 (fr_seq fr - (fr_seq fr - fsn)) = fsn) by (unfold wrap64, is_u64, U64MAX in *; lia). rewrite Hw.
    destruct (Z.gtb_spec (fr_seq fr - fsn) (fr_seq fr)) as [G|_]; [unfold is_u64 in *; lia|]. cbn [rbind].
    rewrite E2 by reflexivity. cbn [rbind]. unfold received. fold dat. rewrite Hfl. reflexivity.
Qed.

(** ** A packet *)
Fixpoint ud_list (flow fsn : Z) (opts : list Z) (first : bool) (prev : Z) (frs : list frame) : list (Z * list Z) :=
  match frs with
  | [] => []
  | fr :: r => let c := ud_chunk flow fsn opts first prev fr in (fst c, pieces_bytes (snd c)) :: ud_list flow fsn opts false (fr_seq fr) r
  end.

Lemma ud_chunk_type : forall flow fsn opts first prev fr, fst (ud_chunk flow fsn opts first prev fr) = 16 \/ fst (ud_chunk flow fsn opts first prev fr) = 17.
Proof. intros. unfold ud_chunk. cbn [fst]. destruct (_ && _); auto. Qed.

Lemma ud_packet_list : forall frs flow fsn s first prev ctx, is_u64 flow -> is_u64 fsn -> sup_ok s -> Forall (frame_ok fsn) frs ->
  (first = false -> ctx = Some (flow, prev, fsn)) ->
  ud_packet ctx (ud_list flow fsn (sup_bytes s) first prev frs)
  = Ok (if first then received_all flow fsn s frs else map (received flow fsn None) frs).
Proof.
  induction frs as [|fr frs IH]; intros flow fsn s first prev ctx Hflow Hfsn Hs Hfrs Hctx; [cbn; destruct first; reflexivity|].
  inversion Hfrs as [|? ? Hfr Hr]; subst. cbn [ud_list]. cbv zeta. cbn [ud_packet].
  replace (_ || _) with true by (destruct (ud_chunk_type flow fsn (sup_bytes s) first prev fr) as [-> | ->]; reflexivity).
  pose proof (ud_parse_chunk flow fsn s first prev fr ctx Hflow Hfsn Hs Hfr Hctx) as E. cbv zeta in E. rewrite E.
  rewrite (IH flow fsn s false (fr_seq fr)) by auto. cbn [rbind]. destruct first; reflexivity.
Qed.

Lemma ud_packet_skip : forall cs ctx r, Forall (fun c => fst c <> 16 /\ fst c <> 17) cs -> ud_packet ctx (cs ++ r) = ud_packet ctx r.
Proof.
  induction cs as [|(t, l) cs IH]; intros ctx r H; [reflexivity|]. inversion H as [|? ? (H1 & H2) H3]; subst. cbn [fst] in *. cbn [app ud_packet].
  unfold CHUNK_USERDATA, CHUNK_NEXT_USERDATA. destruct (Z.eqb_spec t 16); [lia|]. destruct (Z.eqb_spec t 17); [lia|]. cbn [orb]. apply IH, H3.
Qed.

Lemma ud_assemble_R : forall frs p cap done fg flow fsn s first prev, R p (mkA cap done None fg) -> is_u64 flow -> is_u64 fsn -> sup_ok s -> Forall (frame_ok fsn) frs ->
  exists p' n, ud_assemble p flow fsn (sup_bytes s) first prev frs = Ok (p', n) /\ (n <= length frs)%nat
    /\ R p' (mkA cap (done ++ chunks_bytes (ud_list flow fsn (sup_bytes s) first prev (firstn n frs))) None fg)
    /\ ((n < length frs)%nat -> cap < zlen (done ++ chunks_bytes (ud_list flow fsn (sup_bytes s) first prev (firstn (S n) frs)))).
Proof.
  induction frs as [|fr frs IH]; intros p cap done fg flow fsn s first prev HR Hflow Hfsn Hs Hfrs; cbn [ud_assemble].
  - exists p, O. split; [reflexivity|]. split; [auto|]. cbn. rewrite app_nil_r. split; [exact HR|lia].
  - inversion Hfrs as [|? ? Hfr Hr]; subst. cbv zeta.
    destruct (ud_chunk_pieces flow fsn s first prev fr Hflow Hfsn Hs Hfr) as (_ & Hps).
    remember (ud_chunk flow fsn (sup_bytes s) first prev fr) as c eqn:Ec.
    destruct (R_try_chunk p cap done fg (fst c) (snd c) HR Hps) as (p' & [(Hfit & E & HR')|(Hno & E & HR')]); rewrite E; cbn [rbind].
    + destruct (IH p' cap _ fg flow fsn s false (fr_seq fr) HR' Hflow Hfsn Hs Hr) as (p2 & n & E2 & Hn & HR2 & Hg). rewrite E2. cbn [rbind].
      exists p2, (S n). split; [reflexivity|]. split; [cbn [length]; lia|].
      change (firstn (S n) (fr :: frs)) with (fr :: firstn n frs). change (firstn (S (S n)) (fr :: frs)) with (fr :: firstn (S n) frs).
      cbn [ud_list]. rewrite <- Ec. cbv zeta. unfold chunks_bytes in *. cbn [flat_map fst snd]. rewrite app_assoc. split; [exact HR2|]. intros H. rewrite app_assoc. apply Hg. cbn [length] in H. lia.
    + exists p', O. split; [reflexivity|]. split; [lia|]. cbn [firstn ud_list]. rewrite <- Ec. cbv zeta. unfold chunks_bytes. cbn [flat_map fst snd]. rewrite !app_nil_r. split; [exact HR'|].
      intros _. rewrite zlen_app, zlen_chunk_bytes. lia.
Qed.

Lemma chunks_bytes_app : forall a b, chunks_bytes (a ++ b) = chunks_bytes a ++ chunks_bytes b.
Proof. intros. unfold chunks_bytes. apply flat_map_app. Qed.
Lemma chunks_fit : forall cs c, In c cs -> 3 + zlen (snd c) <= zlen (chunks_bytes cs).
Proof.
  induction cs as [|c0 cs IH]; intros c Hc; [contradiction|]; destruct Hc as [<- | Hin]; unfold chunks_bytes; cbn [flat_map]; rewrite zlen_app, zlen_chunk_bytes; fold (chunks_bytes cs).
  - pose proof (zlen_nonneg _ (chunks_bytes cs)). lia.
  - specialize (IH c Hin). pose proof (zlen_nonneg _ (snd c0)). lia.
Qed.
Lemma ud_list_ok : forall frs flow fsn s first prev, is_u64 flow -> is_u64 fsn -> sup_ok s -> Forall (frame_ok fsn) frs ->
  Forall (fun c => is_byte (fst c) /\ bytes_ok (snd c)) (ud_list flow fsn (sup_bytes s) first prev frs).
Proof.
  induction frs as [|fr frs IH]; intros flow fsn s first prev H1 H2 H3 H4; cbn [ud_list]; constructor; inversion H4; subst.
  - cbn [fst snd]. destruct (ud_chunk_pieces flow fsn s first prev fr) as (Ha & Hb); auto. split; [exact Ha|apply pieces_bytes_ok, Hb].
  - apply IH; auto.
Qed.
Lemma added_types : forall (P : Z -> Prop) cs bs, Forall (fun c => P (fst c)) cs -> Forall (fun c => P (fst c)) (added cs bs).
Proof.
  induction cs as [|(t, ps) cs IH]; intros [|b bs] H; cbn [added]; try constructor. inversion H; subst. destruct b; [constructor; auto|auto].
Qed.

Lemma userdata_roundtrip : forall buf margin flags ts tse cs0 flow fsn s frs,
  is_byte flags -> ts <= 65535 -> tse <= 65535 -> (margin + 5 <= length buf)%nat -> zlen buf <= 65535 ->
  Forall (fun c => is_byte (fst c) /\ Forall is_piece (snd c)) cs0 -> Forall (fun c => fst c <> 16 /\ fst c <> 17) cs0 ->
  is_u64 flow -> is_u64 fsn -> sup_ok s -> Forall (frame_ok fsn) frs ->
  exists p0 p1 bs p2 n, pa_init_header buf margin flags ts tse = Ok p0 /\ pa_try_chunks p0 cs0 = Ok (p1, bs)
    /\ ud_assemble p1 flow fsn (sup_bytes s) true 0 frs = Ok (p2, n) /\ (n <= length frs)%nat
    /\ forall accept k, Z.of_nat k < 65538 ->
       let ts' := if ts >=? 0 then ts else -1 in
       let tse' := if tse >=? 0 then tse else -1 in
       accept (header_flags flags ts tse) ts' tse' = true ->
       exists pp, parse_packet accept (pa_to_vector p2 ++ repeat 255 k) margin = Ok pp
         /\ ud_packet None (h_chunks pp) = Ok (received_all flow fsn s (firstn n frs)).
Proof.
  intros buf margin flags ts tse cs0 flow fsn s frs Hf Hts Htse Hm Hbuf Hcs Hty Hflow Hfsn Hs Hfrs.
  destruct (R_init_header buf margin flags ts tse Hf ltac:(unfold U64MAX; lia) Hm) as (p & He & HR).
  assert (Hcs' : Forall (fun c => Forall is_piece (snd c)) cs0) by (eapply Forall_impl; [|exact Hcs]; cbv beta; tauto).
  destruct (R_try_chunks cs0 p _ _ _ HR Hcs') as (p' & He' & HR').
  assert (Hfn : length (firstn margin buf) = margin) by (rewrite firstn_length; lia).
  assert (Hz : zlen (firstn margin buf ++ header_bytes flags ts tse) = Z.of_nat margin + zlen (header_bytes flags ts tse)).
  { rewrite zlen_app. unfold zlen at 1. rewrite Hfn. reflexivity. }
  rewrite Hz in *. set (bs := greedy _ _ _) in *.
  destruct (ud_assemble_R frs p' _ _ _ flow fsn s true 0 HR' Hflow Hfsn Hs Hfrs) as (p2 & n & E2 & Hn & HR2 & _).
  exists p, p', bs, p2, n. split; [exact He|]. split; [exact He'|]. split; [exact E2|]. split; [exact Hn|].
  destruct (R_remaining _ _ HR2) as [_ Hle]. cbn [a_cap] in Hle. unfold a_bytes in Hle. cbn [a_done a_open] in Hle. rewrite app_nil_r in Hle.
  rewrite (R_vector _ _ HR2). unfold a_bytes. cbn [a_done a_open]. rewrite app_nil_r. cbv zeta. intros accept k Hk Hacc.
  set (cs := added cs0 bs ++ ud_list flow fsn (sup_bytes s) true 0 (firstn n frs)).
  assert (Hfrn : Forall (frame_ok fsn) (firstn n frs)).
  { apply Forall_forall. intros x Hx. rewrite Forall_forall in Hfrs. apply Hfrs. rewrite <- (firstn_skipn n frs). apply in_or_app. auto. }
  assert (Hok : Forall chunk_ok cs).
  { apply Forall_app. split.
    - apply greedy_chunks_ok; [exact Hcs| |lia]. pose proof (zlen_nonneg _ (header_bytes flags ts tse)). lia.
    - pose proof (ud_list_ok (firstn n frs) flow fsn s true 0 Hflow Hfsn Hs Hfrn) as HH. rewrite Forall_forall in *. intros c Hc. specialize (HH c Hc). destruct HH.
      split; [|split]; auto. pose proof (chunks_fit _ _ Hc). rewrite !zlen_app in Hle.
      pose proof (zlen_nonneg _ (chunks_bytes (added cs0 bs))). pose proof (zlen_nonneg _ (header_bytes flags ts tse)). pose proof (zlen_nonneg _ (firstn margin buf)). lia. }
  rewrite <- !app_assoc.
  pose proof (fun H => parse_packet_roundtrip accept (firstn margin buf) flags ts tse cs k Hf Hts Htse H Hk Hacc) as Hrt.
  cbv zeta in Hrt. rewrite Hfn in Hrt. unfold cs in Hrt at 2. rewrite chunks_bytes_app, <- app_assoc in Hrt. eexists. split; [apply Hrt, Hok|]. cbn [h_chunks]. unfold cs. rewrite ud_packet_skip.
  - apply (ud_packet_list _ flow fsn s true 0 None); auto; try discriminate.
  - apply (added_types (fun t => t <> 16 /\ t <> 17)), Hty.
Qed.

(** ** Arbitrary bytes *)
Lemma option_value_bytes : forall l ty v n, bytes_ok l -> option_parse l = Ok (ty, Some v, n) -> bytes_ok v.
Proof.
  intros l ty v n Hl E. unfold option_parse in E. pose proof (vlu_parse_field_spec l Hl) as Hf.
  destruct (vlu_parse_field l) as [(pl, c)| |]; try discriminate. destruct Hf as (L & rest & El & _). subst l.
  apply bytes_ok_app in Hl. destruct Hl as [_ Hl]. apply bytes_ok_app in Hl. destruct Hl as [Hp _].
  destruct (Nat.eqb (length pl) 0); [discriminate|]. destruct (vlu_parse pl) as [(t, r)| |]; try discriminate.
  injection E as _ <- _. apply bytes_ok_skipn, Hp.
Qed.
Lemma ud_options_safe : forall fuel l meta assoc rj, bytes_ok l -> (length l < fuel)%nat ->
  match ud_options fuel l meta assoc rj with Ok (l', _, _, _) => bytes_ok l' /\ exists h, l = h ++ l' | Rej => True | UB => False end.
Proof.
  induction fuel as [|fuel IH]; intros l meta assoc rj Hl Hf; [lia|]. cbn [ud_options].
  destruct (Z.leb_spec (zlen l) 0); [exact I|].
  pose proof (option_parse_no_UB l Hl). destruct (option_parse l) as [((ty, v), n)| |] eqn:E; [|exact I|tauto]. cbn [rbind].
  destruct (option_parse_bounds l ty v n Hl E) as (Hn & _ & _).
  assert (K : forall meta assoc rj, match ud_options fuel (skipn n l) meta assoc rj with Ok (l', _, _, _) => bytes_ok l' /\ exists h, l = h ++ l' | Rej => True | UB => False end).
  { intros m a r. specialize (IH (skipn n l) m a r (bytes_ok_skipn _ _ Hl) ltac:(rewrite skipn_length; lia)).
    destruct (ud_options fuel (skipn n l) m a r) as [(((l', ?), ?), ?)| |]; auto. destruct IH as (Hb & h & Eh). split; [exact Hb|].
    exists (firstn n l ++ h). rewrite <- app_assoc, <- Eh. symmetry. apply firstn_skipn. }
  destruct v as [v|].
  - pose proof (option_value_bytes _ _ _ _ Hl E) as Hv. destruct (ty =? OPT_METADATA); [apply K|]. destruct (ty =? OPT_RETURN_ASSOCIATION); [|apply K].
    destruct (vlu_parse_spec v Hv) as [(_ & Ev)|(pre & rest & _ & _ & Ev)]; rewrite Ev; cbn [rbind]; [exact I|apply K].
  - split; [apply bytes_ok_skipn, Hl|]. exists (firstn n l). symmetry. apply firstn_skipn.
Qed.

Lemma ud_parse_safe : forall ctx t l, bytes_ok l ->
  match ud_parse ctx t l with Ok u => data_inside u l /\ (t = 17 -> ctx <> None) | Rej => True | UB => False end.
Proof.
  intros ctx t l Hl. unfold ud_parse. destruct l as [|flags l0]; [exact I|]. inversion Hl as [|? ? _ Hl0]; subst.
  match goal with |- match rbind ?x _ with _ => _ end => remember x as X eqn:EX end.
  assert (HX : match X with Ok (_, _, _, l1) => bytes_ok l1 /\ (exists h, l0 = h ++ l1) /\ (t = 17 -> ctx <> None) | Rej => True | UB => False end).
  { subst X. destruct (Z.eqb_spec t CHUNK_USERDATA).
    - pose proof (take_vlu_facts l0 Hl0) as H1. destruct (take_vlu l0) as [(v1, r1)| |]; auto. cbn [rbind]. destruct H1 as (_ & Hr1 & _ & h1 & E1).
      pose proof (take_vlu_facts r1 Hr1) as H2. destruct (take_vlu r1) as [(v2, r2)| |]; auto. cbn [rbind]. destruct H2 as (_ & Hr2 & _ & h2 & E2).
      pose proof (take_vlu_facts r2 Hr2) as H3. destruct (take_vlu r2) as [(v3, r3)| |]; auto. cbn [rbind]. destruct H3 as (_ & Hr3 & _ & h3 & E3).
      destruct (v3 >? v2); [exact I|]. split; [exact Hr3|]. split; [exists (h1 ++ h2 ++ h3); rewrite E1, E2, E3, <- !app_assoc; reflexivity|unfold CHUNK_USERDATA in *; lia].
    - destruct (Z.eqb_spec t CHUNK_NEXT_USERDATA); [|exact I]. destruct ctx as [((a, b), c)|]; [|exact I]. split; [exact Hl0|]. split; [exists []; reflexivity|discriminate]. }
  clear EX. destruct X as [(((flow, seq), fsn), l1)| |]; [|exact I|exact HX]. cbn [rbind]. destruct HX as (Hl1 & (h & Eh) & Hc).
  destruct (Z.land flags FLAG_OPT =? 0); cbn [rbind].
  - split; [|exact Hc]. exists (flags :: h). cbn [u_data app]. rewrite <- Eh. reflexivity.
  - pose proof (ud_options_safe (S (length l1)) l1 None None false Hl1 ltac:(lia)) as H. destruct (ud_options _ _ _ _ _) as [(((l2, m), a), r)| |]; auto. cbn [rbind].
    destruct H as (_ & h2 & E2). split; [|exact Hc]. exists (flags :: h ++ h2). cbn [u_data app]. rewrite <- app_assoc, <- E2, <- Eh. reflexivity.
Qed.

Lemma ud_packet_safe : forall cs ctx, Forall (fun c => bytes_ok (snd c)) cs ->
  exists us, ud_packet ctx cs = Ok us /\ Forall (fun u => exists t l, In (t, l) cs /\ data_inside u l) us.
Proof.
  induction cs as [|(t, l) cs IH]; intros ctx H; [exists []; split; [reflexivity|constructor]|]. inversion H as [|? ? H1 H2]; subst. cbn [snd] in H1. cbn [ud_packet].
  assert (W : forall us, Forall (fun u => exists t l, In (t, l) cs /\ data_inside u l) us -> Forall (fun u => exists t0 l0, In (t0, l0) ((t, l) :: cs) /\ data_inside u l0) us).
  { intros us. apply Forall_impl. intros u (t0 & l0 & Hin & Hd). exists t0, l0. split; [right; exact Hin|exact Hd]. }
  destruct (_ || _).
  - pose proof (ud_parse_safe ctx t l H1) as Hp. destruct (ud_parse ctx t l) as [u| |]; [|destruct (IH ctx H2) as (us & E & F); exists us; auto|contradiction].
    destruct (IH (ctx_of u) H2) as (us & E & F). rewrite E. cbn [rbind]. exists (u :: us). split; [reflexivity|]. constructor; [|auto]. exists t, l. split; [left; reflexivity|tauto].
  - destruct (IH ctx H2) as (us & E & F). exists us. auto.
Qed.
