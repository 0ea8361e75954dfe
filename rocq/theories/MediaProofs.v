From Verif Require Import Base BaseFacts VLU VLUSpec VLUProofs Media MediaSpec.
Ltac Zify.zify_post_hook ::= Z.div_mod_to_equations.
Open Scope res_scope.

(** ** Message headers *)
Lemma skip_ok : forall os fuel rest, Forall option_ok os -> bytes_ok rest -> (length os < fuel)%nat ->
  media_skip fuel (options_append os [] ++ vlu_encode 0 ++ rest) = Ok (length (options_append os [] ++ vlu_encode 0)).
Proof.
  induction os as [|[ty v] os IH]; intros fuel rest F R L; (destruct fuel as [|fuel]; [cbn in L; lia|]); cbn [media_skip options_append].
  - cbn [app]. rewrite option_parse_end by exact R. cbn [rbind]. reflexivity.
  - inversion F as [|? ? (Ht & Hb & Hl) F']; subst. cbn [fst snd] in *.
    destruct (option_append_wire ty v []) as (w & Hw & W & Wl); [auto|lia|]. cbn [app] in Hw.
    rewrite options_append_app, Hw, <- !app_assoc by exact F'.
    assert (B : bytes_ok (options_append os [] ++ vlu_encode 0 ++ rest)).
    { apply bytes_ok_app; split; [apply options_append_bytes_ok; [exact F'|constructor]|]. apply bytes_ok_app; split; [|exact R]. apply vlu_encode_bytes. unfold is_u64, U64MAX. lia. }
    rewrite (option_parse_wire ty v w _ W Ht) by (auto; lia). cbn [rbind]. rewrite skipn_app_exact, IH; [|exact F'|exact R|cbn in L; lia].
    cbn [rbind]. rewrite !app_length. f_equal.
Qed.
Lemma skip_defined : forall fuel l, bytes_ok l -> (length l < fuel)%nat -> media_skip fuel l <> UB /\ forall n, media_skip fuel l = Ok n -> (n <= length l)%nat.
Proof.
  induction fuel as [|fuel IH]; intros l B L; [lia|]. cbn [media_skip].
  destruct (option_parse l) as [[[ty [v|]] n]| |] eqn:E; cbn [rbind]; try (split; discriminate).
  - destruct (option_parse_bounds _ _ _ _ B E) as (N & _). destruct (IH (skipn n l)) as (U & K); [apply bytes_ok_skipn, B|rewrite skipn_length; lia|].
    destruct (media_skip fuel (skipn n l)) as [k| |]; cbn [rbind]; try (split; [discriminate|discriminate]); [|contradiction].
    specialize (K k eq_refl). rewrite skipn_length in K. split; [discriminate|]. intros x X. injection X as <-. lia.
  - destruct (option_parse_bounds _ _ _ _ B E) as (N & _). split; [discriminate|]. intros x X. injection X as <-. lia.
  - exfalso. exact (option_parse_no_UB _ B E).
Qed.
Lemma header_defined : forall l, bytes_ok l -> media_header l <> UB
  /\ forall h, media_header l = Ok h -> (1 <= h_opts h)%nat /\ (h_opts h <= h_payload h)%nat /\ (h_payload h <= length l)%nat.
Proof.
  intros [|m rest] B; [split; discriminate|]. inversion B as [|? ? Hm HB]; subst. unfold media_header.
  assert (V : forall l, bytes_ok l -> vlu_parse l = Rej \/ exists v n, vlu_parse l = Ok (v, n) /\ (n <= length l)%nat).
  { intros l Hl. destruct (vlu_parse_spec l Hl) as [(_ & ->)|(p & r & -> & _ & ->)]; [left; reflexivity|]. right. eexists _, _. split; [reflexivity|]. rewrite app_length. lia. }
  remember (Z.land m 48) as tss.
  set (X := if tss >? 0 then _ else _).
  assert (K : X = Rej \/ exists dts off n, X = Ok (dts, off, n) /\ (n <= length rest)%nat).
  { subst X. destruct (tss >? 0); [|right; exists 0, 0, 0%nat; split; [reflexivity|lia]].
    destruct (V rest HB) as [->|(dts & rv & -> & L)]; [left; reflexivity|]. cbn [rbind].
    destruct (tss >? 16); [|right; exists dts, 0, rv; auto].
    destruct (V (skipn rv rest) (bytes_ok_skipn _ _ HB)) as [->|(off & rv2 & -> & L2)]; [left; reflexivity|]. cbn [rbind]. right. exists dts, off, (rv + rv2)%nat.
    rewrite skipn_length in L2. split; [reflexivity|lia]. }
  clearbody X. destruct K as [->|(dts & off & n & -> & L)]; cbn [rbind]; [split; discriminate|].
  destruct ((tss =? 48) && (off >? dts)); [split; discriminate|].
  destruct (Z.land m 64 =? 0); cbn [rbind]; [split; [discriminate|]; intros h H; injection H as <-; cbn; lia|].
  destruct (skip_defined (S (length (m :: rest))) (skipn n rest)) as (U & K); [apply bytes_ok_skipn, HB|rewrite skipn_length; cbn; lia|].
  destruct (media_skip _ (skipn n rest)) as [k| |]; cbn [rbind]; [|split; discriminate|contradiction].
  split; [discriminate|]. intros h H. injection H as <-. specialize (K k eq_refl). rewrite skipn_length in K. cbn [h_opts h_payload length]. lia.
Qed.

Definition marker (rai o : bool) (tss ty : Z) : Z := Z.lor (Z.lor (Z.lor (if rai then 128 else 0) (if o then 64 else 0)) tss) (Z.land ty 15).
Lemma marker_fields : forall rai o tss ty, In tss [0; 16; 32; 48] -> 0 <= ty < 16 ->
  Z.land (marker rai o tss ty) 48 = tss /\ (Z.land (marker rai o tss ty) 64 =? 0) = negb o /\ negb (Z.land (marker rai o tss ty) 128 =? 0) = rai
  /\ Z.land (marker rai o tss ty) 15 = ty /\ is_byte (marker rai o tss ty).
Proof.
  intros rai o tss ty T H.
  assert (K : forall t, In t [0;1;2;3;4;5;6;7;8;9;10;11;12;13;14;15] -> Z.land (marker rai o tss t) 48 = tss /\ (Z.land (marker rai o tss t) 64 =? 0) = negb o
     /\ negb (Z.land (marker rai o tss t) 128 =? 0) = rai /\ Z.land (marker rai o tss t) 15 = t /\ is_byte (marker rai o tss t)).
  { intros t It. cbn in T, It. unfold is_byte.
    repeat (destruct It as [<-|It]; [repeat (destruct T as [<-|T]; [destruct rai, o; vm_compute; repeat split; congruence|]); contradiction|]). contradiction. }
  apply K. cbn. lia.
Qed.
Lemma message_roundtrip : forall rai ty dts pts opts payload, 0 <= ty < 16 -> is_u64 dts -> is_u64 pts -> message_options opts -> bytes_ok payload ->
  exists h, media_header (media_message rai ty dts pts opts payload) = Ok h
    /\ h_rai h = rai /\ h_type h = ty /\ h_dts h = dts /\ h_pts h = pts
    /\ skipn (h_payload h) (media_message rai ty dts pts opts payload) = payload
    /\ (h_opts h <= h_payload h)%nat /\ firstn (h_payload h - h_opts h) (skipn (h_opts h) (media_message rai ty dts pts opts payload)) = opts.
Proof.
  intros rai ty dts pts opts payload Ht Hd Hp Ho Hb.
  set (tss := if negb (dts =? 0) || negb (pts =? 0) then (if pts =? dts then 16 else if pts <? dts then 48 else 32) else 0).
  set (off := if negb (dts =? 0) || negb (pts =? 0) then (if pts =? dts then 0 else if pts <? dts then dts - pts else pts - dts) else 0).
  set (o := negb (zlen opts =? 0)).
  set (mid := if tss >? 0 then vlu_encode dts ++ (if tss >? 16 then vlu_encode off else []) else []).
  assert (E : media_message rai ty dts pts opts payload = marker rai o tss ty :: mid ++ opts ++ payload).
  { unfold media_message, marker, o, vlu_append. fold tss. subst mid.
    assert (W : (if negb (dts =? 0) || negb (pts =? 0) then (if pts =? dts then 0 else if pts <? dts then wrap64 (dts - pts) else wrap64 (pts - dts)) else 0) = off).
    { subst off. unfold wrap64, is_u64, U64MAX in *. destruct (_ || _); [|reflexivity]. destruct (pts =? dts); [reflexivity|]. destruct (Z.ltb_spec pts dts); rewrite Z.mod_small by lia; reflexivity. }
    rewrite W. replace (if negb (zlen opts =? 0) then 64 else 0) with (if zlen opts =? 0 then 0 else 64) by (destruct (zlen opts =? 0); reflexivity).
    destruct (Z.eqb_spec (zlen payload) 0) as [X|_].
    - destruct payload; [|rewrite zlen_cons in X; pose proof (zlen_nonneg _ payload); lia].
      destruct (Z.eqb_spec (zlen opts) 0) as [Y|_]; [destruct opts; [|rewrite zlen_cons in Y; pose proof (zlen_nonneg _ opts); lia]|];
        destruct (tss >? 0); [destruct (tss >? 16)| |destruct (tss >? 16)|]; rewrite ?app_nil_r, <- ?app_assoc; reflexivity.
    - destruct (Z.eqb_spec (zlen opts) 0) as [Y|_]; [destruct opts; [|rewrite zlen_cons in Y; pose proof (zlen_nonneg _ opts); lia]|];
        destruct (tss >? 0); [destruct (tss >? 16)| |destruct (tss >? 16)|]; rewrite ?app_nil_r, <- ?app_assoc; reflexivity. }
  rewrite E.
  assert (T : In tss [0; 16; 32; 48]) by (subst tss; cbn; destruct (_ || _), (pts =? dts), (pts <? dts); auto 6).
  destruct (marker_fields rai o tss ty T Ht) as (F48 & F64 & F128 & F15 & FB).
  assert (Bo : bytes_ok opts).
  { destruct Ho as [|os F]; [constructor|]. unfold option_append_end, vlu_append. apply bytes_ok_app. split; [apply options_append_bytes_ok; [exact F|constructor]|]. apply vlu_encode_bytes. unfold is_u64, U64MAX. lia. }
  assert (Br : bytes_ok (opts ++ payload)) by (apply bytes_ok_app; auto).
  assert (Uo : is_u64 off).
  { subst off. unfold is_u64, U64MAX in *. destruct (_ || _); [|lia]. destruct (pts =? dts); [lia|]. destruct (Z.ltb_spec pts dts); lia. }
  set (off' := if tss >? 16 then off else 0).
  assert (P : (if tss >? 0 then ' (d, rv) <- vlu_parse (mid ++ opts ++ payload);;
          if tss >? 16 then ' (f, rv2) <- vlu_parse (skipn rv (mid ++ opts ++ payload));; Ok (d, f, (rv + rv2)%nat) else Ok (d, 0, rv)
        else Ok (0, 0, 0%nat)) = Ok (dts, off', length mid)).
  { subst mid off'. destruct (Z.gtb_spec tss 0) as [X|X].
    - rewrite <- app_assoc. destruct (tss >? 16) eqn:X16.
      + rewrite vlu_roundtrip; [|exact Hd|apply bytes_ok_app; split; [apply vlu_encode_bytes, Uo|exact Br]]. cbn [rbind]. rewrite skipn_app_exact, vlu_roundtrip by assumption. cbn [rbind]. rewrite app_length. reflexivity.
      + cbn [app]. rewrite vlu_roundtrip by assumption. cbn [rbind]. rewrite app_nil_r. reflexivity.
    - assert (Z0 : dts = 0 /\ pts = 0).
      { subst tss. destruct (Z.eqb_spec dts 0), (Z.eqb_spec pts 0); [auto| | |]; exfalso; cbn [negb orb] in X; destruct (pts =? dts), (pts <? dts); lia. }
      destruct Z0 as (Zd & Zp). rewrite Zd. destruct (Z.gtb_spec tss 16); [lia|]. reflexivity. }
  unfold media_header. rewrite F48, P. cbn [rbind]. rewrite F64, F128, F15.
  assert (Q : ((tss =? 48) && (off' >? dts)) = false /\ (if tss =? 48 then wrap64 (dts - off') else wrap64 (dts + off')) = pts).
  { subst off' off tss. unfold wrap64, is_u64, U64MAX in *. destruct (Z.eqb_spec dts 0) as [->|D], (Z.eqb_spec pts 0) as [->|D']; cbn [negb orb].
    - auto.
    - destruct (Z.eqb_spec pts 0); [lia|]. destruct (Z.ltb_spec pts 0); [lia|]. cbn [Z.eqb Pos.eqb andb Z.gtb Z.compare Pos.compare Pos.compare_cont]. split; [reflexivity|]. rewrite Z.mod_small; lia.
    - destruct (Z.eqb_spec 0 dts); [lia|]. destruct (Z.ltb_spec 0 dts); [|lia]. change (48 =? 48) with true. change (48 >? 16) with true. cbn iota. cbn [andb]. destruct (Z.gtb_spec (dts - 0) dts); [lia|]. rewrite Z.mod_small; lia.
    - destruct (Z.eqb_spec pts dts) as [->|N]; [change (16 =? 48) with false; change (16 >? 16) with false; cbn iota; cbn [andb]; rewrite Z.mod_small; lia|].
      destruct (Z.ltb_spec pts dts).
      + change (48 =? 48) with true. change (48 >? 16) with true. cbn iota. cbn [andb]. destruct (Z.gtb_spec (dts - pts) dts); [lia|]. rewrite Z.mod_small; lia.
      + change (32 =? 48) with false. change (32 >? 16) with true. cbn iota. cbn [andb]. rewrite Z.mod_small; lia. }
  destruct Q as (Q1 & Q2). rewrite Q1, Q2. rewrite skipn_app_exact.
  assert (S : (if negb o then Ok 0%nat else media_skip (S (length (marker rai o tss ty :: mid ++ opts ++ payload))) (opts ++ payload)) = Ok (length opts)).
  { destruct Ho as [|os F]; [reflexivity|]. unfold o. unfold option_append_end, vlu_append.
    assert (N : zlen (options_append os [] ++ vlu_encode 0) =? 0 = false). { apply Z.eqb_neq. rewrite zlen_app. change (zlen (vlu_encode 0)) with 1. pose proof (zlen_nonneg _ (options_append os [])). lia. }
    rewrite N. cbn [negb]. rewrite <- app_assoc. apply skip_ok; [exact F|exact Hb|].
    assert (OL : forall os, Forall option_ok os -> (length os <= length (options_append os []))%nat).
    { clear. induction os as [|[ty v] os IH]; intros F; [cbn; lia|]. inversion F as [|? ? (Ht & Hb & Hl) F']; subst. cbn [options_append]. rewrite options_append_app by exact F'. specialize (IH F').
      rewrite app_length. cbn [fst snd] in *. unfold option_append. cbn [app]. destruct (vlu_encode_spec ty Ht) as (C & _). pose proof (complete_vlu_length _ C). rewrite !app_length. cbn [length]. lia. }
    specialize (OL os F). cbn [length]. rewrite !app_length. lia. }
  rewrite S. cbn [rbind]. eexists. split; [reflexivity|]. cbn [h_rai h_type h_dts h_pts h_opts h_payload].
  do 4 (split; [reflexivity|]).
  change (1 + length mid + length opts)%nat with (Datatypes.S (length mid + length opts)). change (1 + length mid)%nat with (Datatypes.S (length mid)). cbn [skipn].
  split; [rewrite app_assoc, <- app_length, skipn_app_exact; reflexivity|]. split; [lia|].
  rewrite skipn_app_exact. replace (Datatypes.S (length mid + length opts) - Datatypes.S (length mid))%nat with (length opts) by lia. apply firstn_app_exact.
Qed.

(** ** Metadata *)
Fixpoint opts_fold (os : list (Z * list Z)) (st : media * bool * bool) : res (media * bool * bool) :=
  match os with [] => Ok st | (ty, v) :: os => st' <- media_option st ty v;; opts_fold os st' end.
Lemma loop_options : forall os fuel st, Forall option_ok os -> (length os < fuel)%nat -> media_loop fuel (options_append os []) st = opts_fold os st.
Proof.
  induction os as [|[ty v] os IH]; intros fuel st F L; (destruct fuel as [|fuel]; [cbn in L; lia|]); cbn [media_loop options_append opts_fold]; [reflexivity|].
  inversion F as [|? ? (Ht & Hb & Hl) F']; subst. cbn [fst snd] in *.
  destruct (option_append_wire ty v []) as (w & Hw & W & Wl); [auto|lia|]. cbn [app] in Hw. rewrite options_append_app, Hw by exact F'.
  assert (B : bytes_ok (options_append os [])) by (apply options_append_bytes_ok; [exact F'|constructor]).
  pose proof (option_parse_wire ty v w _ W Ht ltac:(lia) Hb B) as P.
  assert (Wn : (1 <= length w)%nat) by (destruct W as [? ? A B' HA HB ? ?]; rewrite app_length; pose proof (complete_vlu_length _ HA); lia).
  destruct (w ++ options_append os []) as [|x xs] eqn:Ew.
  { apply (f_equal (@length Z)) in Ew. rewrite app_length in Ew. cbn [length] in Ew. lia. }
  rewrite P. cbn [rbind]. rewrite <- Ew, skipn_app_exact. destruct (media_option st ty v) as [st'| |]; cbn [rbind]; [|reflexivity|reflexivity].
  apply IH; [exact F'|cbn in L; lia].
Qed.
Definition media_os (m : media) : list (Z * list Z) :=
  [(OPT_STREAM_ID, vlu_encode (m_stream m)); (OPT_CODEC, m_codec m)]
  ++ (if zlen (m_type m) =? 0 then [] else [(OPT_MEDIA_TYPE, m_type m)])
  ++ (match m_origin m with None => [] | Some o => [(OPT_TIME_ORIGIN, o)] end)
  ++ (if negb (1000 =? m_ticks m) || negb (1 =? m_per m) then [(OPT_TIMESCALE, vlu_encode (m_ticks m) ++ vlu_encode (m_per m))] else [])
  ++ (if m_network m then [(OPT_RX_NETWORK, [])] else [])
  ++ (match m_reorder m with None => [] | Some r => [(OPT_REORDER, vlu_encode r)] end)
  ++ (if zlen (m_name m) =? 0 then [] else [(OPT_TRACK_NAME, m_name m)])
  ++ (if m_track m =? 0 then [] else [(OPT_TRACK_ID, vlu_encode (m_track m))]).
Lemma options_append_cat : forall a b dst, options_append (a ++ b) dst = options_append b (options_append a dst).
Proof. induction a as [|[ty v] a IH]; intros; cbn [app options_append]; auto. Qed.
Lemma encode_options : forall m, media_encode m = options_append (media_os m) MEDIA_SIGNATURE.
Proof.
  intros m. unfold media_encode, media_os, option_append_vlu, vlu_append. rewrite !options_append_cat. cbn [app options_append].
  destruct (zlen (m_type m) =? 0), (m_origin m) as [o|], (negb (1000 =? m_ticks m) || negb (1 =? m_per m)), (m_network m), (m_reorder m) as [r|], (zlen (m_name m) =? 0), (m_track m =? 0); reflexivity.
Qed.
Lemma media_os_ok : forall m, media_ok m -> Forall option_ok (media_os m).
Proof.
  intros m H. destruct H as [Hs Htr [Hc Hcl] [Hty Htyl] [Hn Hnl] Hr Ho [Ht _] [Hp _]].
  assert (V : forall v, is_u64 v -> bytes_ok (vlu_encode v) /\ zlen (vlu_encode v) <= 10).
  { intros v Hv. split; [apply vlu_encode_bytes, Hv|]. destruct (vlu_encode_spec v Hv) as (_ & _ & L & _). unfold zlen. lia. }
  unfold media_os. repeat rewrite Forall_app. assert (U : forall k, 0 <= k <= 100 -> is_u64 k) by (unfold is_u64, U64MAX; lia).
  unfold option_ok, OPT_STREAM_ID, OPT_CODEC, OPT_MEDIA_TYPE, OPT_TIME_ORIGIN, OPT_TIMESCALE, OPT_RX_NETWORK, OPT_REORDER, OPT_TRACK_NAME, OPT_TRACK_ID.
  repeat split.
  - constructor; [cbn [fst snd]|constructor; [cbn [fst snd]|constructor]].
    + destruct (V _ Hs). split; [apply U; lia|]. unfold U64MAX in *. split; [assumption|lia].
    + split; [apply U; lia|auto].
  - destruct (_ =? 0); constructor; [|constructor]. cbn [fst snd]. split; [apply U; lia|auto].
  - destruct (m_origin m) as [o|]; constructor; [|constructor]. cbn [fst snd]. destruct (Ho o eq_refl) as (A & B & _). split; [apply U; lia|]. split; [exact A|]. unfold zlen, U64MAX. lia.
  - destruct (_ || _); constructor; [|constructor]. cbn [fst snd]. destruct (V _ Ht), (V _ Hp). split; [apply U; lia|]. split; [apply bytes_ok_app; auto|]. rewrite zlen_app. unfold U64MAX. lia.
  - destruct (m_network m); constructor; [|constructor]. cbn [fst snd]. split; [apply U; lia|]. split; [constructor|]. cbn. unfold U64MAX. lia.
  - destruct (m_reorder m) as [r|]; constructor; [|constructor]. cbn [fst snd]. destruct (V _ (Hr r eq_refl)). split; [apply U; lia|]. split; [assumption|]. unfold U64MAX. lia.
  - destruct (_ =? 0); constructor; [|constructor]. cbn [fst snd]. split; [apply U; lia|auto].
  - destruct (_ =? 0); constructor; [|constructor]. cbn [fst snd]. destruct (V _ Htr). split; [apply U; lia|]. split; [assumption|]. unfold U64MAX. lia.
Qed.
Lemma fold_cat : forall a b st, opts_fold (a ++ b) st = (st' <- opts_fold a st;; opts_fold b st').
Proof. induction a as [|[ty v] a IH]; intros; cbn [app opts_fold rbind]; [reflexivity|]. destruct (media_option st ty v); cbn [rbind]; auto. Qed.
Lemma vlu_alone : forall v, is_u64 v -> vlu_parse (vlu_encode v) = Ok (v, length (vlu_encode v)).
Proof. intros v H. rewrite <- (app_nil_r (vlu_encode v)) at 1. apply vlu_roundtrip; [exact H|constructor]. Qed.
Lemma nil_of : forall l : list Z, (zlen l =? 0) = true -> l = [].
Proof. intros [|x l] H; [reflexivity|]. apply Z.eqb_eq in H. rewrite zlen_cons in H. pose proof (zlen_nonneg _ l). lia. Qed.
Lemma media_fold : forall m, media_ok m -> opts_fold (media_os m) (media_init, false, false) = Ok (m, true, true).
Proof.
  intros m H. destruct H as [Hs Htr _ _ _ Hr Ho [Ht Ht0] [Hp Hp0]].
  destruct m as [stream track codec type name reorder origin ticks per network]. cbn [m_stream m_track m_codec m_type m_name m_reorder m_origin m_ticks m_per m_network] in *.
  unfold media_os. cbn [m_stream m_track m_codec m_type m_name m_reorder m_origin m_ticks m_per m_network].
  rewrite fold_cat. cbn [opts_fold rbind]. unfold media_option at 1. change (OPT_STREAM_ID =? OPT_STREAM_ID) with true. cbn iota. rewrite vlu_alone by exact Hs. cbn [rbind].
  change (media_option (md_stream media_init stream, true, false) OPT_CODEC codec) with (Ok (mkMedia stream 0 codec [] [] None None 1000 1 false, true, true)). cbn [rbind].
  rewrite fold_cat. replace (opts_fold (if zlen type =? 0 then [] else [(OPT_MEDIA_TYPE, type)]) _) with (Ok (mkMedia stream 0 codec type [] None None 1000 1 false, true, true)).
  2: { destruct (zlen type =? 0) eqn:E; [rewrite (nil_of _ E)|]; reflexivity. }
  cbn [rbind]. rewrite fold_cat. replace (opts_fold (match origin with None => [] | Some o => [(OPT_TIME_ORIGIN, o)] end) _) with (Ok (mkMedia stream 0 codec type [] None origin 1000 1 false, true, true)).
  2: { destruct origin as [o|]; [|reflexivity]. destruct (Ho o eq_refl) as (_ & L & B). cbn [opts_fold]. unfold media_option.
       change (OPT_TIME_ORIGIN =? OPT_STREAM_ID) with false. change (OPT_TIME_ORIGIN =? OPT_CODEC) with false. change (OPT_TIME_ORIGIN =? OPT_MEDIA_TYPE) with false. change (OPT_TIME_ORIGIN =? OPT_TIME_ORIGIN) with true. cbn iota.
       destruct (Z.ltb_spec (zlen o) 16) as [X|_]; [unfold zlen in X; lia|]. destruct o as [|b o']; [discriminate L|]. cbn [nth] in B. destruct (Z.geb_spec b 128); [lia|]. cbn [rbind]. rewrite firstn_all2 by lia. reflexivity. }
  cbn [rbind]. rewrite fold_cat. replace (opts_fold (if negb (1000 =? ticks) || negb (1 =? per) then _ else _) _) with (Ok (mkMedia stream 0 codec type [] None origin ticks per false, true, true)).
  2: { destruct (negb (1000 =? ticks) || negb (1 =? per)) eqn:E.
       - cbn [opts_fold]. unfold media_option.
         change (OPT_TIMESCALE =? OPT_STREAM_ID) with false. change (OPT_TIMESCALE =? OPT_CODEC) with false. change (OPT_TIMESCALE =? OPT_MEDIA_TYPE) with false. change (OPT_TIMESCALE =? OPT_TIME_ORIGIN) with false. change (OPT_TIMESCALE =? OPT_TIMESCALE) with true. cbn iota.
         rewrite vlu_roundtrip by (auto; apply vlu_encode_bytes, Hp). cbn [rbind]. rewrite skipn_app_exact, vlu_alone by exact Hp. cbn [rbind].
         destruct (Z.eqb_spec ticks 0); [contradiction|]. destruct (Z.eqb_spec per 0); [contradiction|]. reflexivity.
       - apply orb_false_iff in E. destruct E as [E1 E2]. apply negb_false_iff, Z.eqb_eq in E1. apply negb_false_iff, Z.eqb_eq in E2. subst. reflexivity. }
  cbn [rbind]. rewrite fold_cat. replace (opts_fold (if network then _ else _) _) with (Ok (mkMedia stream 0 codec type [] None origin ticks per network, true, true)) by (destruct network; reflexivity).
  cbn [rbind]. rewrite fold_cat. replace (opts_fold (match reorder with None => [] | Some r => [(OPT_REORDER, vlu_encode r)] end) _) with (Ok (mkMedia stream 0 codec type [] reorder origin ticks per network, true, true)).
  2: { destruct reorder as [r|]; [|reflexivity]. cbn [opts_fold]. unfold media_option.
       change (OPT_REORDER =? OPT_STREAM_ID) with false. change (OPT_REORDER =? OPT_CODEC) with false. change (OPT_REORDER =? OPT_MEDIA_TYPE) with false. change (OPT_REORDER =? OPT_TIME_ORIGIN) with false. change (OPT_REORDER =? OPT_TIMESCALE) with false.
       change (OPT_REORDER =? OPT_RX_NETWORK) with false. change (OPT_REORDER =? OPT_REORDER) with true. cbn iota. rewrite vlu_alone by auto. reflexivity. }
  cbn [rbind]. rewrite fold_cat. replace (opts_fold (if zlen name =? 0 then [] else [(OPT_TRACK_NAME, name)]) _) with (Ok (mkMedia stream 0 codec type name reorder origin ticks per network, true, true)).
  2: { destruct (zlen name =? 0) eqn:E; [rewrite (nil_of _ E)|]; reflexivity. }
  cbn [rbind]. destruct (Z.eqb_spec track 0) as [->|N]; [reflexivity|]. cbn [opts_fold]. unfold media_option.
  change (OPT_TRACK_ID =? OPT_STREAM_ID) with false. change (OPT_TRACK_ID =? OPT_CODEC) with false. change (OPT_TRACK_ID =? OPT_MEDIA_TYPE) with false. change (OPT_TRACK_ID =? OPT_TIME_ORIGIN) with false. change (OPT_TRACK_ID =? OPT_TIMESCALE) with false.
  change (OPT_TRACK_ID =? OPT_RX_NETWORK) with false. change (OPT_TRACK_ID =? OPT_REORDER) with false. change (OPT_TRACK_ID =? OPT_TRACK_NAME) with false. change (OPT_TRACK_ID =? OPT_TRACK_ID) with true. cbn iota. rewrite vlu_alone by auto. reflexivity.
Qed.
Lemma metadata_roundtrip : forall m, media_ok m -> media_parse (media_encode m) = Ok m.
Proof.
  intros m H. rewrite encode_options, options_append_app by (apply media_os_ok, H). unfold media_parse.
  assert (L : zlen (MEDIA_SIGNATURE ++ options_append (media_os m) []) <? 33 = false).
  { apply Z.ltb_ge. rewrite zlen_app. change (zlen MEDIA_SIGNATURE) with 33. pose proof (zlen_nonneg _ (options_append (media_os m) [])). lia. }
  rewrite L. change 33%nat with (length MEDIA_SIGNATURE). rewrite firstn_app_exact, skipn_app_exact. change (list_eqb MEDIA_SIGNATURE MEDIA_SIGNATURE) with true. cbn [negb orb].
  rewrite loop_options; [rewrite media_fold by exact H; reflexivity|apply media_os_ok, H|].
  assert (OL : forall os, Forall option_ok os -> (length os <= length (options_append os []))%nat).
  { clear. induction os as [|[ty v] os IH]; intros F; [cbn; lia|]. inversion F as [|? ? (Ht & Hb & Hl) F']; subst. cbn [options_append]. rewrite options_append_app by exact F'. specialize (IH F').
    rewrite app_length. cbn [fst snd] in *. unfold option_append. cbn [app]. destruct (vlu_encode_spec ty Ht) as (C & _). pose proof (complete_vlu_length _ C). rewrite !app_length. cbn [length]. lia. }
  specialize (OL _ (media_os_ok m H)). lia.
Qed.
Lemma option_defined : forall st ty v, bytes_ok v -> media_option st ty v <> UB.
Proof.
  intros [[m sid] cod] ty v B. unfold media_option.
  assert (V : forall l, bytes_ok l -> vlu_parse l = Rej \/ exists x n, vlu_parse l = Ok (x, n)).
  { intros l Hl. destruct (vlu_parse_spec l Hl) as [(_ & ->)|(p & r & -> & _ & ->)]; [left; reflexivity|right; eauto]. }
  destruct (ty =? OPT_STREAM_ID). { destruct (V v B) as [->|(x & n & ->)]; discriminate. }
  destruct (ty =? OPT_CODEC); [discriminate|]. destruct (ty =? OPT_MEDIA_TYPE); [discriminate|].
  destruct (ty =? OPT_TIME_ORIGIN). { destruct (Z.ltb_spec (zlen v) 16); [discriminate|]. destruct v; [cbn in *; lia|]. destruct (_ >=? _); discriminate. }
  destruct (ty =? OPT_TIMESCALE). { destruct (V v B) as [->|(x & n & ->)]; [discriminate|]. cbn [rbind]. destruct (V (skipn n v) (bytes_ok_skipn _ _ B)) as [->|(y & k & ->)]; [discriminate|]. cbn [rbind]. destruct (_ || _); discriminate. }
  destruct (ty =? OPT_RX_NETWORK); [discriminate|].
  destruct (ty =? OPT_REORDER). { destruct (V v B) as [->|(x & n & ->)]; discriminate. }
  destruct (ty =? OPT_TRACK_NAME); [discriminate|].
  destruct (ty =? OPT_TRACK_ID). { destruct (V v B) as [->|(x & n & ->)]; discriminate. }
  discriminate.
Qed.
Lemma loop_defined : forall fuel l st, bytes_ok l -> (length l < fuel)%nat -> media_loop fuel l st <> UB.
Proof.
  induction fuel as [|fuel IH]; intros l st B L; [lia|]. cbn [media_loop]. destruct l as [|x xs]; [discriminate|].
  destruct (option_parse (x :: xs)) as [[[ty [v|]] n]| |] eqn:E; cbn [rbind].
  - destruct (option_parse_bounds _ _ _ _ B E) as (N & _ & P). pose proof (option_defined st ty v) as D.
    assert (Bv : bytes_ok v). { destruct P as (L0 & p & rest & EL & _ & _ & _ & T & _ & -> & _). rewrite EL in B. apply bytes_ok_app in B. destruct B as [_ B]. apply bytes_ok_app in B. destruct B as [B _]. apply bytes_ok_app in B. tauto. }
    specialize (D Bv). destruct (media_option st ty v); cbn [rbind]; [|discriminate|contradiction]. apply IH; [apply bytes_ok_skipn, B|rewrite skipn_length; lia].
  - destruct (option_parse_bounds _ _ _ _ B E) as (N & _ & P). apply IH; [apply bytes_ok_skipn, B|rewrite skipn_length; lia].
  - discriminate.
  - exfalso. exact (option_parse_no_UB _ B E).
Qed.
Lemma metadata_defined : forall l, bytes_ok l -> media_parse l <> UB.
Proof.
  intros l B. unfold media_parse. destruct (_ || _); [discriminate|]. pose proof (loop_defined (S (length (skipn 33 l))) (skipn 33 l) (media_init, false, false) (bytes_ok_skipn _ _ B) ltac:(lia)) as D.
  destruct (media_loop _ _ _) as [[[m s] c]| |]; cbn [rbind]; [destruct (s && c); discriminate|discriminate|contradiction].
Qed.
Lemma options_length : forall os, Forall option_ok os -> (length os <= length (options_append os []))%nat.
Proof.
  induction os as [|[ty v] os IH]; intros F; [cbn; lia|]. inversion F as [|? ? (Ht & Hb & Hl) F']; subst. cbn [options_append]. rewrite options_append_app by exact F'. specialize (IH F').
  rewrite app_length. cbn [fst snd] in *. unfold option_append. cbn [app]. destruct (vlu_encode_spec ty Ht) as (C & _). pose proof (complete_vlu_length _ C). rewrite !app_length. cbn [length]. lia.
Qed.
Lemma parse_options : forall os, Forall option_ok os -> media_parse (MEDIA_SIGNATURE ++ options_append os []) =
  (' (m, s, c) <- opts_fold os (media_init, false, false);; if (s : bool) && (c : bool) then Ok m else Rej).
Proof.
  intros os F. unfold media_parse.
  assert (L : zlen (MEDIA_SIGNATURE ++ options_append os []) <? 33 = false).
  { apply Z.ltb_ge. rewrite zlen_app. change (zlen MEDIA_SIGNATURE) with 33. pose proof (zlen_nonneg _ (options_append os [])). lia. }
  rewrite L. change 33%nat with (length MEDIA_SIGNATURE). rewrite firstn_app_exact, skipn_app_exact. change (list_eqb MEDIA_SIGNATURE MEDIA_SIGNATURE) with true. cbn [negb orb].
  rewrite loop_options; [reflexivity|exact F|]. pose proof (options_length os F). lia.
Qed.
Lemma unknown_ignored : forall os1 os2 ty v, Forall option_ok (os1 ++ (ty, v) :: os2) -> ~ known_option ty ->
  media_parse (MEDIA_SIGNATURE ++ options_append (os1 ++ (ty, v) :: os2) []) = media_parse (MEDIA_SIGNATURE ++ options_append (os1 ++ os2) []).
Proof.
  intros os1 os2 ty v F U. rewrite !parse_options; [|apply Forall_app in F as [F1 F2]; inversion F2; subst; apply Forall_app; auto|exact F]. rewrite !fold_cat. cbn [opts_fold].
  replace (fun st' => st'0 <- media_option st' ty v;; opts_fold os2 st'0) with (fun st' => st'0 <- media_option st' ty v;; opts_fold os2 st'0) by reflexivity.
  destruct (opts_fold os1 (media_init, false, false)) as [[[m s] c]| |]; cbn [rbind]; [|reflexivity|reflexivity].
  replace (media_option (m, s, c) ty v) with (Ok (m, s, c)); [reflexivity|]. unfold media_option, known_option in *. cbn [In] in U.
  destruct (Z.eqb_spec ty OPT_STREAM_ID); [exfalso; apply U; auto|]. destruct (Z.eqb_spec ty OPT_CODEC); [exfalso; apply U; auto|].
  destruct (Z.eqb_spec ty OPT_MEDIA_TYPE); [exfalso; apply U; auto|]. destruct (Z.eqb_spec ty OPT_TIME_ORIGIN); [exfalso; apply U; auto 6|].
  destruct (Z.eqb_spec ty OPT_TIMESCALE); [exfalso; apply U; auto 8|]. destruct (Z.eqb_spec ty OPT_RX_NETWORK); [exfalso; apply U; auto 8|].
  destruct (Z.eqb_spec ty OPT_REORDER); [exfalso; apply U; auto 10|]. destruct (Z.eqb_spec ty OPT_TRACK_NAME); [exfalso; apply U; auto 10|].
  destruct (Z.eqb_spec ty OPT_TRACK_ID); [exfalso; apply U; auto 12|]. reflexivity.
Qed.
Lemma fold_saw : forall os m s c m' s' c', opts_fold os (m, s, c) = Ok (m', s', c') ->
  (s' = true -> s = true \/ In OPT_STREAM_ID (map fst os)) /\ (c' = true -> c = true \/ In OPT_CODEC (map fst os)).
Proof.
  induction os as [|[ty v] os IH]; intros m s c m' s' c' H; cbn [opts_fold] in H; [injection H as <- <- <-; auto|]. cbn [map fst In].
  destruct (media_option (m, s, c) ty v) as [[[m1 s1] c1]| |] eqn:E; cbn [rbind] in H; [|discriminate|discriminate]. destruct (IH _ _ _ _ _ _ H) as [A B].
  assert (K : (s1 = true -> s = true \/ ty = OPT_STREAM_ID) /\ (c1 = true -> c = true \/ ty = OPT_CODEC)).
  { unfold media_option in E.
    destruct (Z.eqb_spec ty OPT_STREAM_ID) as [->|]. { destruct (vlu_parse v) as [[x n9]| |]; cbn [rbind] in E; try discriminate. injection E as _ <- <-. auto. }
    destruct (Z.eqb_spec ty OPT_CODEC) as [->|]; [injection E as _ <- <-; auto|]. destruct (ty =? OPT_MEDIA_TYPE); [injection E as _ <- <-; auto|].
    destruct (ty =? OPT_TIME_ORIGIN). { destruct (_ <? _); [discriminate|]. destruct v; [discriminate|]. destruct (_ >=? _); [discriminate|]. injection E as _ <- <-. auto. }
    destruct (ty =? OPT_TIMESCALE). { destruct (vlu_parse v) as [[x n9]| |]; cbn [rbind] in E; try discriminate. destruct (vlu_parse (skipn n9 v)) as [[y k]| |]; cbn [rbind] in E; try discriminate. destruct (_ || _); [discriminate|]. injection E as _ <- <-. auto. }
    destruct (ty =? OPT_RX_NETWORK); [injection E as _ <- <-; auto|].
    destruct (ty =? OPT_REORDER). { destruct (vlu_parse v) as [[x n9]| |]; cbn [rbind] in E; try discriminate. injection E as _ <- <-. auto. }
    destruct (ty =? OPT_TRACK_NAME); [injection E as _ <- <-; auto|].
    destruct (ty =? OPT_TRACK_ID). { destruct (vlu_parse v) as [[x n9]| |]; cbn [rbind] in E; try discriminate. injection E as _ <- <-. auto. }
    injection E as _ <- <-. auto. }
  destruct K as [K1 K2]. split; intros X.
  - destruct (A X) as [Y|Y]; [|auto]. destruct (K1 Y) as [Z|Z]; auto.
  - destruct (B X) as [Y|Y]; [|auto]. destruct (K2 Y) as [Z|Z]; auto.
Qed.
Lemma required_options : forall os m, Forall option_ok os -> media_parse (MEDIA_SIGNATURE ++ options_append os []) = Ok m ->
  In OPT_STREAM_ID (map fst os) /\ In OPT_CODEC (map fst os).
Proof.
  intros os m F H. rewrite parse_options in H by exact F. destruct (opts_fold os (media_init, false, false)) as [[[m' s] c]| |] eqn:E; cbn [rbind] in H; try discriminate.
  destruct (s && c) eqn:SC; [|discriminate]. apply andb_true_iff in SC. destruct (fold_saw _ _ _ _ _ _ _ E) as [A B]. destruct SC as [-> ->]. split; [destruct (A eq_refl)|destruct (B eq_refl)]; auto; discriminate.
Qed.
