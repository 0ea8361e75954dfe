From Verif Require Import Base BaseFacts VLU VLUSpec VLUProofs IndexSet IndexSetProofs Checksums FlashCert FlashCertSpec FlashCertProofs FlashKey FlashKeySpec.
Ltac Zify.zify_post_hook ::= Z.div_mod_to_equations.

Lemma land_15 : forall n, Z.land n 15 = n mod 16.
Proof. intros. change 15 with (Z.ones 4). apply Z.land_ones. lia. Qed.
Lemma cksum_u16 : forall l, 0 <= in_cksum l < 65536.
Proof. intros. unfold in_cksum, wrap16. apply Z.mod_pos_bound. lia. Qed.
Lemma two_bytes : forall c, 0 <= c < 65536 -> is_byte (Z.shiftr c 8) /\ is_byte (Z.land c 255) /\ Z.shiftr c 8 * 256 + Z.land c 255 = c.
Proof. intros c H. rewrite shiftr_8, land_255. unfold is_byte. lia. Qed.

Lemma skipn_twice : forall A n m (l : list A), skipn n (skipn m l) = skipn (m + n) l.
Proof. intros A n. induction m as [|m IH]; intros l; [reflexivity|]. destruct l as [|x l]; [destruct n; reflexivity|]. cbn [skipn Nat.add]. apply IH. Qed.

Section Packets.
Variables aes_enc aes_dec hmac : list Z -> list Z -> list Z.
Hypothesis dec_len : forall key l, length (aes_dec key l) = length l.
Hypothesis dec_bytes : forall key l, bytes_ok (aes_dec key l).
Hypothesis mac_len : forall key l, length (hmac key l) = 32%nat.
Notation genuine := (genuine aes_dec hmac).
Notation decrypt := (decrypt aes_dec hmac).

Lemma genuine_unique : forall ch src n hd body n' hd' body', (forall mk len, c_mac ch = Some (mk, len) -> (len <= 32)%nat) ->
  genuine ch src n hd body -> genuine ch src n' hd' body' -> n = n' /\ hd = hd' /\ body = body'.
Proof.
  intros ch src n hd body n' hd' body' LN G G'. destruct G as [cipher tag L C E NE M T D H S K], G' as [cipher' tag' L' C' E' NE' M' T' D' H' S' K'].
  assert (EC : cipher = cipher').
  { rewrite E in E'. assert (LT : length tag = length tag').
    { subst tag tag'. destruct (c_mac ch) as [(mk & len)|] eqn:X; [|reflexivity]. rewrite !firstn_length, !mac_len. reflexivity. }
    apply (app_len_inj _ _ _ _ E'). apply (f_equal (@length Z)) in E'. rewrite !app_length in E'. lia. }
  subst cipher'. rewrite D in D'. subst hd hd'. clear - S S' K K' D'.
  destruct (c_seq ch).
  - destruct S as (V & ->), S' as (V' & ->). rewrite <- !app_assoc in D'. destruct (complete_vlu_prefix_unique L V L' _ _ V' D') as (<- & D2). split; [reflexivity|].
    destruct (c_mac ch); [subst C C'; auto|]. destruct K as (a & b & -> & _), K' as (a' & b' & -> & _). cbn [app] in D2. injection D2 as -> -> ->. auto.
  - destruct S as (-> & ->), S' as (-> & ->). split; [reflexivity|]. destruct (c_mac ch); [subst C C'; auto|]. destruct K as (a & b & -> & _), K' as (a' & b' & -> & _). cbn [app] in D'. injection D' as -> -> ->. auto.
Qed.

Definition noted (k : fkey) (n : Z) : fkey :=
  if k_complete k && k_srecv k then
    with_rxseqs k (if n >? 32 then is_add (is_add (k_rxseqs k) n n) 0 (wrap64 (n - 32)) else is_add (k_rxseqs k) n n)
  else k.
Definition stale (k : fkey) (n : Z) : bool := c_seq (rx_chan k) && is_contains (k_rxseqs k) n.
Lemma decrypt_spec : forall k cap src, usable k -> bytes_ok src -> zlen src <= cap ->
  (exists n hd body, genuine (rx_chan k) src n hd body /\ stale k n = false /\ decrypt k cap src = Ok (noted k n, Some (hd ++ body, length hd)))
  \/ (decrypt k cap src = Ok (k, None) /\ forall n hd body, genuine (rx_chan k) src n hd body -> stale k n = true).
Proof.
  intros k cap src U B CAP. pose proof (zlen_nonneg _ src) as ZS.
  assert (CH : c_seq (rx_chan k) = k_complete k && k_srecv k /\ c_key (rx_chan k) = (if k_complete k then k_rx k else default_session_key)
    /\ (k_complete k && k_hrecv k = false /\ c_mac (rx_chan k) = None
        \/ k_complete k && k_hrecv k = true /\ exists mk, k_rxmac k = Some mk /\ 0 <= k_rxlen k <= 32 /\ c_mac (rx_chan k) = Some (mk, Z.to_nat (k_rxlen k)))).
  { unfold rx_chan, usable in *. destruct (k_complete k); cbn [andb]; [|cbn; auto]. destruct (k_hrecv k); cbn [c_key c_mac c_seq]; split; auto; split; auto.
    right. destruct (U eq_refl) as (_ & U2). destruct (U2 eq_refl) as (N & R). destruct (k_rxmac k) as [mk|]; [|contradiction]. split; [reflexivity|]. exists mk. auto. }
  unfold stale. set (ch := rx_chan k) in *. destruct CH as (CS & CK & CM). rewrite CS. unfold FlashKey.decrypt, noted, stale. rewrite <- CK.
  set (useS := k_complete k && k_srecv k) in *. set (useH := k_complete k && k_hrecv k) in *. change MAX_SSEQ_GAP with 32. change MAX_HMAC_LENGTH with 32.
  remember (if useH then k_rxlen k else 0) as hl eqn:EHL.
  assert (HL : 0 <= hl <= 32) by (subst hl; destruct CM as [(-> & _)|(-> & mk & _ & R & _)]; lia).
  (* a genuine packet has the length needed *)
  assert (GL : forall n hd body, genuine ch src n hd body -> exists cipher tag, src = cipher ++ tag /\ zlen tag = hl /\ zlen cipher mod 16 = 0 /\ 1 <= zlen cipher
                /\ aes_dec (c_key ch) cipher = hd ++ body /\ tag = match c_mac ch with Some (mk, len) => firstn len (hmac mk cipher) | None => [] end).
  { intros n hd body [cipher tag L C E NE M T D H S K]. exists cipher, tag. split; [exact E|]. split.
    - subst tag hl. destruct CM as [(-> & ->)|(-> & mk & _ & R & ->)]; [reflexivity|]. unfold zlen. rewrite firstn_length, mac_len. lia.
    - split; [exact M|]. split; [destruct cipher; [contradiction|unfold zlen; cbn [length]; lia]|auto]. }
  destruct (Z.ltb_spec (cap + hl) (zlen src)) as [X|_]; [lia|]. cbn [orb].
  destruct (Z.ltb_spec (zlen src) hl) as [X|HS].
  { right. split; [reflexivity|]. intros n hd body G. destruct (GL _ _ _ G) as (cipher & tag & -> & LT & _ & L1 & _). unfold zlen in *. rewrite app_length in X. lia. }
  rewrite land_15. destruct (Z.eqb_spec ((zlen src - hl) mod 16) 0) as [M|M]; cbn [negb orb].
  2: { right. split; [reflexivity|]. intros n hd body G. destruct (GL _ _ _ G) as (cipher & tag & -> & LT & M' & L1 & _). exfalso. apply M. rewrite zlen_app, LT. replace (zlen cipher + hl - hl) with (zlen cipher) by lia. exact M'. }
  destruct (Z.eqb_spec (zlen src - hl) 0) as [Z0|Z0].
  { right. split; [reflexivity|]. intros n hd body G. destruct (GL _ _ _ G) as (cipher & tag & -> & LT & M' & L1 & _). rewrite zlen_app in Z0. lia. }
  remember (firstn (Z.to_nat (zlen src - hl)) src) as data eqn:ED. remember (skipn (Z.to_nat (zlen src - hl)) src) as tag eqn:ET.
  assert (ES : src = data ++ tag) by (subst; symmetry; apply firstn_skipn).
  assert (LD : zlen data = zlen src - hl) by (subst data; unfold zlen; rewrite firstn_length; unfold zlen in *; lia).
  assert (LT : zlen tag = hl) by (rewrite ES, zlen_app in LD; lia).
  assert (GD : forall n hd body, genuine ch src n hd body -> aes_dec (c_key ch) data = hd ++ body /\ tag = match c_mac ch with Some (mk, len) => firstn len (hmac mk data) | None => [] end).
  { intros n hd body G. destruct (GL _ _ _ G) as (cipher & tg & E & LTg & M' & L1 & D & T). rewrite ES in E. assert (LL : length data = length cipher).
    { apply (f_equal zlen) in E. rewrite !zlen_app in E. unfold zlen in *. lia. }
    destruct (app_len_inj _ _ _ _ E LL) as (-> & ->). auto. }
  (* the tag *)
  assert (V : exists v, (if useH then match k_rxmac k with None => UB | Some mk => if 32 <? hl then UB else Ok (eq_bytes (firstn (Z.to_nat hl) (hmac mk data)) tag) end else Ok true) = Ok v
              /\ (v = true <-> tag = match c_mac ch with Some (mk, len) => firstn len (hmac mk data) | None => [] end)).
  { destruct CM as [(EH & ->)|(EH & mk & -> & R & ->)]; rewrite EH in *.
    - exists true. split; [reflexivity|]. split; [intros _|reflexivity]. destruct tag; [reflexivity|]. unfold zlen in LT; cbn [length] in LT; lia.
    - destruct (Z.ltb_spec 32 hl); [lia|]. eexists. split; [reflexivity|]. rewrite eq_bytes_iff. subst hl. split; congruence. }
  destruct V as (v & -> & V). cbn [rbind]. destruct v; cbn [negb].
  2: { right. split; [reflexivity|]. intros n hd body G. destruct (GD _ _ _ G) as (_ & T). apply V in T. discriminate. }
  pose proof (proj1 V eq_refl) as TG. clear V.
  remember (aes_dec (c_key ch) data) as dst eqn:EDST. assert (BD : bytes_ok dst) by (subst; apply dec_bytes).
  assert (NE : data <> []) by (intros E; rewrite E in LD; unfold zlen in LD at 1; cbn [length] in LD; lia).
  (* the number *)
  assert (P : ((if useS then vlu_parse dst else Ok (0, 0%nat)) = Rej /\ forall n hd body, ~ genuine ch src n hd body)
    \/ exists L rest n, dst = L ++ rest /\ (if useS then complete_vlu L /\ n = Z.min (groups_value L) U64MAX else L = [] /\ n = 0)
        /\ (if useS then vlu_parse dst else Ok (0, 0%nat)) = Ok (n, length L) /\ is_u64 n).
  { destruct useS eqn:EU.
    - destruct (vlu_parse_spec dst BD) as [(UT & ->)|(pre & rest & E & C & ->)].
      + left. split; [reflexivity|]. intros n hd body G. destruct (GD _ _ _ G) as (E & _). destruct G as [cipher tg L C _ _ _ _ _ H S _]. rewrite CS in S. destruct S as (CV & _).
        rewrite E, H, <- app_assoc in UT. exact (complete_vlu_not_unterminated L _ CV UT).
      + right. exists pre, rest, (Z.min (groups_value pre) U64MAX). pose proof (groups_value_nonneg pre). repeat split; auto; unfold is_u64, U64MAX; lia.
    - right. exists [], dst, 0. repeat split; auto; unfold is_u64, U64MAX; lia. }
  destruct P as [(-> & N)|(L & rest & n & EL & SL & -> & NU)].
  { right. split; [reflexivity|]. intros n hd body G. destruct (N _ _ _ G). }
  assert (SG : forall n' hd body, genuine ch src n' hd body -> exists C, hd = L ++ C /\ rest = C ++ body /\ n' = n /\ match c_mac ch with Some _ => C = [] | None => exists c0 c1, C = [c0; c1] /\ c0 * 256 + c1 = in_cksum body end).
  { intros n' hd body G. destruct (GD _ _ _ G) as (E & _). destruct G as [cipher tg L' C _ _ _ _ _ H S K]. rewrite CS in S. exists C. rewrite EL, H, <- app_assoc in E.
    destruct useS.
    - destruct SL as (CV & ->), S as (CV' & ->). destruct (complete_vlu_prefix_unique L CV L' _ _ CV' E) as (<- & <-). auto.
    - destruct SL as (-> & ->), S as (-> & ->). cbn [app] in *. auto. }
  destruct (useS && is_contains (k_rxseqs k) n) eqn:ST.
  { right. split; [reflexivity|]. intros n' hd body G. destruct (SG _ _ _ G) as (C & _ & _ & -> & _). exact ST. }
  rewrite EL, skipn_app_exact.
  assert (F : forall C body, rest = C ++ body -> match c_mac ch with Some _ => C = [] | None => exists c0 c1, C = [c0; c1] /\ c0 * 256 + c1 = in_cksum body end -> genuine ch src n (L ++ C) body).
  { intros C body ER K. apply (genuine_intro aes_dec hmac ch src n (L ++ C) body data tag L C ES NE); auto.
    - rewrite LD. exact M.
    - rewrite <- EDST, <- app_assoc, <- ER. exact EL.
    - rewrite CS. exact SL. }
  assert (BR : bytes_ok rest) by (rewrite EL in BD; apply bytes_ok_app in BD as (_ & BD); exact BD).
  destruct CM as [(EH & EM)|(EH & mk & _ & _ & EM)]; rewrite EH, EM in *; cbn [negb andb].
  - destruct rest as [|c0 [|c1 body]]; cbn [negb].
    1, 2: right; split; [reflexivity|]; intros n' hd body G; destruct (SG _ _ _ G) as (C & _ & E & _ & c0' & c1' & -> & _); discriminate E.
    inversion BR as [|? ? B0 BR1]; subst. inversion BR1 as [|? ? B1 BR2]; subst.
    assert (W : wrap16 (Z.shiftl c0 8 + c1) = c0 * 256 + c1) by (rewrite shiftl_8; unfold wrap16, is_byte in *; lia).
    rewrite W. destruct (Z.eqb_spec (c0 * 256 + c1) (in_cksum body)) as [EC|NC]; cbn [negb].
    + left. exists n, (L ++ [c0; c1]), body. split; [apply F; [reflexivity|eauto]|]. split; [exact ST|]. rewrite <- app_assoc, app_length. cbn [app length]. reflexivity.
    + right. split; [reflexivity|]. intros n' hd body' G. destruct (SG _ _ _ G) as (C & _ & E & _ & c0' & c1' & -> & K). cbn [app] in E. injection E as -> -> ->. contradiction.
  - left. exists n, L, rest. split; [rewrite <- (app_nil_r L); apply F; auto|]. split; [exact ST|]. rewrite Nat.add_0_r. reflexivity.
Qed.
(** ** Histories of arriving packets *)
Definition tracks (s : list (Z * Z)) (seen : list Z) : Prop := IndexSetSpec.canonical s /\ forall x, is_u64 x -> is_contains s x = negb (fresh seen x).
Lemma contains_add : forall s a b x, IndexSetSpec.canonical s -> is_u64 a -> is_u64 b -> is_contains (is_add s a b) x = is_contains s x || ((a <=? x) && (x <=? b)).
Proof.
  intros s a b x C A B. destruct (is_add_ok s a b C A B) as (_ & M). apply Bool.eq_iff_eq_true. rewrite orb_true_iff, andb_true_iff, !Z.leb_le, !is_contains_member. apply M.
Qed.
Lemma add_canonical : forall s a b, IndexSetSpec.canonical s -> is_u64 a -> is_u64 b -> IndexSetSpec.canonical (is_add s a b).
Proof. intros s a b C A B. apply is_add_ok; auto. Qed.
Lemma tracks_nil : tracks [] [].
Proof. split; [exact I|reflexivity]. Qed.
Lemma tracks_step : forall s seen n, tracks s seen -> is_u64 n ->
  tracks (if n >? 32 then is_add (is_add s n n) 0 (wrap64 (n - 32)) else is_add s n n) (n :: seen).
Proof.
  intros s seen n (C & T) N. pose proof (add_canonical s n n C N N) as C1.
  assert (W : n > 32 -> wrap64 (n - 32) = n - 32 /\ is_u64 (n - 32)) by (unfold is_u64, U64MAX, wrap64 in *; lia).
  assert (Z0 : is_u64 0) by (unfold is_u64, U64MAX; lia).
  split.
  - destruct (Z.gtb_spec n 32); [|exact C1]. destruct (W ltac:(lia)) as (-> & U). apply add_canonical; auto.
  - intros x X. assert (E : fresh (n :: seen) x = fresh seen x && negb ((x =? n) || ((n >? 32) && (x <=? n - 32)))).
    { unfold fresh. cbn [existsb forallb]. rewrite Z.gtb_ltb. destruct (Z.leb_spec n 32), (Z.ltb_spec (n - 32) x), (Z.eqb_spec x n), (Z.ltb_spec 32 n), (Z.leb_spec x (n - 32)), (existsb (Z.eqb x) seen), (forallb (fun h => (h <=? 32) || (h - 32 <? x)) seen); try lia; reflexivity. }
    rewrite E, negb_andb, negb_involutive, <- T by exact X.
    assert (E1 : is_contains (is_add s n n) x = is_contains s x || (x =? n)).
    { rewrite contains_add by auto. f_equal. destruct (Z.leb_spec n x), (Z.leb_spec x n), (Z.eqb_spec x n); try lia; reflexivity. }
    rewrite Z.gtb_ltb. destruct (Z.ltb_spec 32 n); [|rewrite E1; cbn [andb]; rewrite orb_false_r; reflexivity].
    destruct (W ltac:(lia)) as (-> & U). rewrite contains_add by auto. rewrite E1, <- orb_assoc. do 2 f_equal. destruct (Z.leb_spec 0 x); [reflexivity|unfold is_u64 in X; lia].
Qed.
Lemma genuine_u64 : forall ch src n hd body, genuine ch src n hd body -> is_u64 n.
Proof.
  intros ch src n hd body [cipher tag L C _ _ _ _ _ _ S _]. destruct (c_seq ch).
  - destruct S as (_ & ->). pose proof (groups_value_nonneg L). unfold is_u64, U64MAX. lia.
  - destruct S as (_ & ->). unfold is_u64, U64MAX. lia.
Qed.
Lemma noted_chan : forall k n, rx_chan (noted k n) = rx_chan k.
Proof. intros k n. unfold noted. destruct (k_complete k && k_srecv k); reflexivity. Qed.
Lemma noted_usable : forall k n, usable k -> usable (noted k n).
Proof. intros k n. unfold noted. destruct (k_complete k && k_srecv k); auto. Qed.
Lemma noted_seqs : forall k n, c_seq (rx_chan k) = true -> k_rxseqs (noted k n) = (if n >? 32 then is_add (is_add (k_rxseqs k) n n) 0 (wrap64 (n - 32)) else is_add (k_rxseqs k) n n).
Proof. intros k n S. unfold noted, rx_chan in *. destruct (k_complete k); [|discriminate]. cbn in *. rewrite S. reflexivity. Qed.

(** [nums] gives the number of each genuine packet and [None] for the others *)
Definition numbered (ch : chan) (src : list Z) (o : option Z) : Prop := forall n, o = Some n <-> exists hd body, genuine ch src n hd body.
Lemma usable_mac : forall k, usable k -> forall mk len, c_mac (rx_chan k) = Some (mk, len) -> (len <= 32)%nat.
Proof.
  intros k U mk len. unfold rx_chan, usable in *. destruct (k_complete k); [|discriminate]. destruct (U eq_refl) as (_ & U2). cbn. destruct (k_hrecv k); [|discriminate].
  intros E. injection E as _ <-. destruct (U2 eq_refl). lia.
Qed.
Lemma receive_spec : forall cap srcs nums k seen, usable k -> c_seq (rx_chan k) = true -> tracks (k_rxseqs k) seen ->
  Forall (fun src => bytes_ok src /\ zlen src <= cap) srcs -> Forall2 (numbered (rx_chan k)) srcs nums ->
  exists k' answers, receive aes_dec hmac k cap srcs = Ok (k', answers) /\ tracks (k_rxseqs k') (accepted seen nums)
  /\ Forall2 (fun src '(ok, a) => if ok : bool then exists n hd body, a = Some body /\ genuine (rx_chan k) src n hd body else a = None) srcs (List.combine (verdicts seen nums) answers)
  /\ length answers = length srcs.
Proof.
  intros cap. induction srcs as [|src srcs IH]; intros nums k seen U S T F N.
  - inversion N; subst. exists k, []. cbn. auto.
  - inversion N as [|? o ? nums' HO HN]; subst. inversion F as [|? ? (B & C) F']; subst. cbn [receive].
    destruct (decrypt_spec k cap src U B C) as [(n & hd & body & G & ST & ->)|(-> & ST)].
    + assert (EO : o = Some n) by (apply HO; eauto). subst o. cbn [accepted verdicts].
      unfold stale in ST. rewrite S in ST. cbn [andb] in ST. rewrite (proj2 T n (genuine_u64 _ _ _ _ _ G)) in ST. apply negb_false_iff in ST. rewrite ST.
      destruct (IH nums' (noted k n) (n :: seen)) as (k' & answers & -> & T' & V & L).
      * apply noted_usable, U.
      * rewrite noted_chan. exact S.
      * rewrite noted_seqs by exact S. apply tracks_step; [exact T|]. exact (genuine_u64 _ _ _ _ _ G).
      * exact F'.
      * rewrite noted_chan. exact HN.
      * eexists _, _. split; [reflexivity|]. split; [exact T'|]. rewrite noted_chan in V. split; [|cbn [length]; lia]. cbn [List.combine option_map]. constructor; [|exact V]. rewrite skipn_app_exact. eauto.
    + assert (V0 : accepted seen (o :: nums') = accepted seen nums' /\ verdicts seen (o :: nums') = false :: verdicts seen nums').
      { destruct o as [n|]; [|auto]. destruct (proj1 (HO n) eq_refl) as (hd & body & G). specialize (ST _ _ _ G). unfold stale in ST. rewrite S in ST. cbn [andb] in ST.
        rewrite (proj2 T n (genuine_u64 _ _ _ _ _ G)) in ST. apply negb_true_iff in ST. cbn [accepted verdicts]. rewrite ST. auto. }
      destruct V0 as (-> & ->). destruct (IH nums' k seen U S T F' HN) as (k' & answers & -> & T' & V & L). eexists _, _. split; [reflexivity|]. split; [exact T'|]. split; [|cbn [length]; lia].
      cbn [List.combine option_map]. constructor; [reflexivity|exact V].
Qed.
Lemma fresh_new : forall seen n, fresh seen n = true -> ~ In n seen.
Proof. intros seen n F I. unfold fresh in F. apply andb_true_iff in F as (F & _). apply negb_true_iff in F. assert (existsb (Z.eqb n) seen = true) by (apply existsb_exists; exists n; split; [exact I|apply Z.eqb_refl]). congruence. Qed.
Lemma accepted_nodup : forall arrive seen, NoDup seen -> NoDup (accepted seen arrive).
Proof.
  induction arrive as [|[n|] r IH]; intros seen N; cbn [accepted]; auto. destruct (fresh seen n) eqn:F; auto. apply IH. constructor; [apply fresh_new, F|exact N].
Qed.

(** ** Sending *)
Hypothesis dec_enc : forall key l, bytes_ok l -> zlen l mod 16 = 0 -> aes_dec key (aes_enc key l) = l.
Hypothesis enc_len : forall key l, length (aes_enc key l) = length l.
Hypothesis enc_bytes : forall key l, bytes_ok (aes_enc key l).
Hypothesis mac_bytes : forall key l, bytes_ok (hmac key l).
Notation encrypt := (encrypt aes_enc hmac).
Definition advanced (k : fkey) : fkey := if k_complete k && k_ssend k then with_txseq k (wrap64 (k_txseq k + 1)) else k.
Definition tx_number (k : fkey) : Z := if k_complete k && k_ssend k then k_txseq k else 0.
Lemma bytes_repeat : forall b n, is_byte b -> bytes_ok (repeat b n).
Proof. intros b n B. induction n; cbn; constructor; auto. Qed.
Lemma overwrite_ok : forall hd buf, (length hd <= length buf)%nat -> overwrite buf hd = Ok (hd ++ skipn (length hd) buf).
Proof. intros hd buf L. unfold overwrite. destruct (Nat.ltb_spec (length buf) (length hd)); [lia|reflexivity]. Qed.
Definition padding (n : nat) : nat := Z.to_nat ((- Z.of_nat n) mod 16).
Lemma encrypt_spec : forall k cap src, usable k -> is_u64 (k_txseq k) -> bytes_ok src -> src <> [] -> (front_margin k <= length src)%nat ->
  zlen src + Z.of_nat (padding (length src)) + 32 <= cap ->
  exists out hd, encrypt k cap src (front_margin k) = Ok (advanced k, Some out)
  /\ genuine (tx_chan k) out (tx_number k) hd (skipn (front_margin k) src ++ repeat 255 (padding (length src))) /\ length hd = front_margin k
  /\ bytes_ok out /\ zlen out <= zlen src + Z.of_nat (padding (length src)) + 32.
Proof.
  intros k cap src U TU B NE M CAP. unfold FlashKey.encrypt. change MAX_HMAC_LENGTH with 32.
  assert (EP : (if Z.land (zlen src) 15 =? 0 then 0 else 16 - Z.land (zlen src) 15) = Z.of_nat (padding (length src))).
  { rewrite land_15. unfold padding, zlen. destruct (Z.eqb_spec (Z.of_nat (length src) mod 16) 0); lia. }
  rewrite EP. clear EP. set (p := padding (length src)) in *. destruct (Z.ltb_spec cap (zlen src + Z.of_nat p + 32)) as [X|_]; [lia|]. rewrite Nat2Z.id.
  set (useS := k_complete k && k_ssend k). set (useH := k_complete k && k_hsend k).
  remember (src ++ repeat 255 p) as src0 eqn:E0. assert (L0 : length src0 = (length src + p)%nat) by (subst; rewrite app_length, repeat_length; reflexivity).
  assert (MOD : zlen src0 mod 16 = 0) by (unfold zlen; rewrite L0; unfold p, padding; lia).
  assert (B0 : bytes_ok src0) by (subst; apply bytes_ok_app; split; [exact B|]; apply bytes_repeat; unfold is_byte; lia).
  remember (if useS then vlu_encode (k_txseq k) else []) as L eqn:EL.
  assert (CH : c_seq (tx_chan k) = useS /\ c_key (tx_chan k) = (if k_complete k then k_tx k else default_session_key)
    /\ front_margin k = (length L + (if useH then 0 else 2))%nat
    /\ (useH = false /\ c_mac (tx_chan k) = None
        \/ useH = true /\ exists mk, k_txmac k = Some mk /\ 0 <= k_txlen k <= 32 /\ c_mac (tx_chan k) = Some (mk, Z.to_nat (k_txlen k)))).
  { subst L. unfold tx_chan, front_margin, usable in *. subst useS useH. destruct (k_complete k); cbn [andb negb]; [|cbn; intuition auto]. split; [reflexivity|]. split; [reflexivity|]. split; [destruct (k_hsend k), (k_ssend k); cbn; lia|].
    destruct (k_hsend k); cbn [c_mac]; auto. right. destruct (U eq_refl) as (U1 & _). destruct (U1 eq_refl) as (N & R). destruct (k_txmac k) as [mk|]; [|contradiction]. eauto. }
  destruct CH as (CS & CK & FM & CM). rewrite <- CK. fold useS in CS.
  assert (BL : bytes_ok L) by (subst L; destruct useS; [apply vlu_encode_bytes, TU|constructor]).
  assert (SL : if c_seq (tx_chan k) then complete_vlu L /\ tx_number k = Z.min (groups_value L) U64MAX else L = [] /\ tx_number k = 0).
  { rewrite CS. unfold tx_number. fold useS. destruct useS; [|auto]. subst L. destruct (vlu_encode_spec _ TU) as (C & G & _). rewrite G. split; [exact C|]. unfold is_u64 in TU. lia. }
  assert (EK : (if useS then with_txseq k (wrap64 (k_txseq k + 1)) else k) = advanced k) by reflexivity. rewrite EK. clear EK.
  assert (LM : (length L <= length src0)%nat) by lia. rewrite overwrite_ok by exact LM. cbn [rbind].
  assert (BODY : skipn (front_margin k) src0 = skipn (front_margin k) src ++ repeat 255 p).
  { subst src0. rewrite skipn_app. replace (front_margin k - length src)%nat with 0%nat by lia. reflexivity. }
  assert (ENC : forall hd, length hd = front_margin k -> bytes_ok hd -> let pl := hd ++ skipn (front_margin k) src0 in
     zlen (aes_enc (c_key (tx_chan k)) pl) mod 16 = 0 /\ aes_enc (c_key (tx_chan k)) pl <> [] /\ aes_dec (c_key (tx_chan k)) (aes_enc (c_key (tx_chan k)) pl) = pl /\ zlen (aes_enc (c_key (tx_chan k)) pl) = zlen src0).
  { intros hd LH BH pl. assert (LP : length pl = length src0) by (unfold pl; rewrite app_length, skipn_length; lia). assert (ZP : zlen pl = zlen src0) by (unfold zlen; rewrite LP; reflexivity).
    assert (ZE : zlen (aes_enc (c_key (tx_chan k)) pl) = zlen src0) by (unfold zlen; rewrite enc_len, LP; reflexivity). split; [rewrite ZE; exact MOD|]. split; [|split; [|exact ZE]].
    - intros E. rewrite E in ZE. unfold zlen in ZE. cbn [length] in ZE. destruct src; [contradiction|]. cbn [length] in L0. lia.
    - apply dec_enc; [|rewrite ZP; exact MOD]. unfold pl. apply bytes_ok_app. split; [exact BH|apply bytes_ok_skipn, B0]. }
  assert (ZS0 : zlen src0 = zlen src + Z.of_nat p) by (unfold zlen; lia).
  destruct CM as [(EH & EM)|(EH & mk & EMK & R & EM)]; rewrite EH in *.
  - assert (L1 : length (L ++ skipn (length L) src0) = length src0) by (rewrite app_length, skipn_length; lia). destruct (Nat.ltb_spec (length (L ++ skipn (length L) src0)) (front_margin k)); [lia|].
    assert (K1 : skipn (front_margin k) (L ++ skipn (length L) src0) = skipn (front_margin k) src0).
    { rewrite skipn_app, (skipn_all2 L) by lia. cbn [app]. rewrite skipn_twice. f_equal. lia. }
    rewrite K1. set (c := in_cksum (skipn (front_margin k) src0)). destruct (two_bytes c (cksum_u16 _)) as (C1 & C2 & CC).
    assert (LH : length (L ++ [Z.shiftr c 8; Z.land c 255]) = front_margin k) by (rewrite app_length; cbn [length]; lia).
    assert (L1' : length (L ++ skipn (length L) src0) = length src0) by exact L1.
    rewrite overwrite_ok by lia. cbn [rbind]. rewrite LH, K1.
    assert (BH : bytes_ok (L ++ [Z.shiftr c 8; Z.land c 255])) by (apply bytes_ok_app; split; [exact BL|repeat constructor; apply C1 || apply C2]).
    destruct (ENC _ LH BH) as (E1 & E2 & E3 & E4). exists (aes_enc (c_key (tx_chan k)) ((L ++ [Z.shiftr c 8; Z.land c 255]) ++ skipn (front_margin k) src0)), (L ++ [Z.shiftr c 8; Z.land c 255]).
    split; [reflexivity|]. split; [|split; [exact LH|]; split; [apply enc_bytes|rewrite E4; lia]].
    rewrite <- BODY. apply (genuine_intro aes_dec hmac (tx_chan k) _ _ _ _ (aes_enc (c_key (tx_chan k)) ((L ++ [Z.shiftr c 8; Z.land c 255]) ++ skipn (front_margin k) src0)) [] L [Z.shiftr c 8; Z.land c 255]); auto.
    + rewrite app_nil_r. reflexivity.
    + rewrite EM. reflexivity.
    + rewrite EM. exists (Z.shiftr c 8), (Z.land c 255). auto.
  - cbn [rbind]. assert (LH : length L = front_margin k) by lia. rewrite LH. rewrite EMK. destruct (Z.ltb_spec 32 (k_txlen k)); [lia|].
    destruct (ENC _ LH BL) as (E1 & E2 & E3 & E4). set (ct := aes_enc (c_key (tx_chan k)) (L ++ skipn (front_margin k) src0)) in *.
    exists (ct ++ firstn (Z.to_nat (k_txlen k)) (hmac mk ct)), L. split; [reflexivity|].
    split; [|split; [exact LH|]; split; [apply bytes_ok_app; split; [apply enc_bytes|apply bytes_ok_firstn, mac_bytes]|unfold zlen in *; rewrite app_length, firstn_length; lia]].
    rewrite <- BODY. apply (genuine_intro aes_dec hmac (tx_chan k) _ _ _ _ ct (firstn (Z.to_nat (k_txlen k)) (hmac mk ct)) L []); auto.
    + rewrite EM. reflexivity.
    + rewrite app_nil_r. reflexivity.
    + rewrite EM. reflexivity.
Qed.
(** ** A whole direction of a session *)
Lemma advanced_chan : forall k, tx_chan (advanced k) = tx_chan k.
Proof. intros k. unfold advanced. destruct (k_complete k && k_ssend k); reflexivity. Qed.
Lemma advanced_usable : forall k, usable k -> usable (advanced k).
Proof. intros k. unfold advanced. destruct (k_complete k && k_ssend k); auto. Qed.
Lemma tx_number_chan : forall k, tx_number k = if c_seq (tx_chan k) then k_txseq k else 0.
Proof. intros k. unfold tx_number, tx_chan. destruct (k_complete k); reflexivity. Qed.
Lemma front_margin_small : forall k, is_u64 (k_txseq k) -> (front_margin k <= 12)%nat.
Proof. intros k U. unfold front_margin. destruct (vlu_encode_spec _ U) as (_ & _ & L & _). destruct (k_complete k), (k_hsend k), (k_ssend k); cbn [negb]; lia. Qed.
Lemma padding_small : forall n, (padding n < 16)%nat.
Proof. intros n. unfold padding. lia. Qed.
Lemma transmit_spec : forall cap bodies k, usable k -> 0 <= k_txseq k -> k_txseq k + zlen bodies <= U64MAX ->
  Forall (fun b => bytes_ok b /\ b <> [] /\ zlen b + 59 <= cap) bodies ->
  exists k' outs, transmit aes_enc hmac k cap bodies = Ok (k', outs) /\ length outs = length bodies
  /\ forall i b, nth_error bodies i = Some b -> exists out hd p, nth_error outs i = Some out /\ (p < 16)%nat /\ bytes_ok out /\ zlen out <= cap
       /\ genuine (tx_chan k) out (if c_seq (tx_chan k) then k_txseq k + Z.of_nat i else 0) hd (b ++ repeat 255 p).
Proof.
  intros cap. induction bodies as [|b r IH]; intros k U T0 T F.
  - exists k, []. split; [reflexivity|]. split; [reflexivity|]. intros [|i] b; discriminate.
  - inversion F as [|? ? (B & NE & C) F']; subst. rewrite zlen_cons in T. pose proof (zlen_nonneg _ r). cbn [transmit].
    assert (TU : is_u64 (k_txseq k)) by (unfold is_u64; lia). pose proof (front_margin_small k TU) as FM. set (m := front_margin k) in *.
    assert (LS : length (repeat 0 m ++ b) = (m + length b)%nat) by (rewrite app_length, repeat_length; reflexivity). pose proof (padding_small (length (repeat 0 m ++ b))) as PS.
    destruct (encrypt_spec k cap (repeat 0 m ++ b) U TU) as (out & hd & EE & G & LH & BO & ZO).
    + apply bytes_ok_app. split; [apply bytes_repeat; unfold is_byte; lia|exact B].
    + destruct b; [contradiction|]. intros E. apply app_eq_nil in E as (_ & E). discriminate.
    + fold m. lia.
    + unfold zlen in *. lia.
    + fold m in G, EE. rewrite EE. assert (SK : skipn m (repeat 0 m ++ b) = b) by (rewrite <- (repeat_length 0 m) at 1; apply skipn_app_exact). rewrite SK in G. rewrite tx_number_chan in G.
      destruct (IH (advanced k)) as (k' & outs & -> & LO & HO).
      * apply advanced_usable, U.
      * unfold advanced. destruct (k_complete k && k_ssend k); cbn; [unfold wrap64; lia|lia].
      * unfold advanced. destruct (k_complete k && k_ssend k); cbn [k_txseq with_txseq]; [unfold wrap64, U64MAX in *; lia|lia].
      * exact F'.
      * eexists _, _. split; [reflexivity|]. split; [cbn [length]; lia|]. intros [|i] b' E; cbn [nth_error] in E.
        -- injection E as <-. exists out, hd, (padding (length (repeat 0 m ++ b))). cbn [nth_error]. rewrite Z.add_0_r. repeat split; auto. unfold zlen in *. lia.
        -- destruct (HO i b' E) as (out' & hd' & p & E1 & P & B1 & Z1 & G1). exists out', hd', p. cbn [nth_error]. rewrite advanced_chan in G1. repeat split; auto.
           replace (if c_seq (tx_chan k) then k_txseq k + Z.of_nat (S i) else 0) with (if c_seq (tx_chan k) then k_txseq (advanced k) + Z.of_nat i else 0); [exact G1|].
           destruct (c_seq (tx_chan k)) eqn:S; [|reflexivity]. unfold advanced, tx_chan in *. destruct (k_complete k); [|discriminate]. cbn in S. rewrite S. cbn [andb k_txseq with_txseq]. unfold wrap64, U64MAX in *. lia.
Qed.
Lemma receive_plain : forall cap srcs k, usable k -> c_seq (rx_chan k) = false -> Forall (fun src => bytes_ok src /\ zlen src <= cap) srcs ->
  exists answers, receive aes_dec hmac k cap srcs = Ok (k, answers) /\ Forall2 (fun src a => forall body, a = Some body <-> exists n hd, genuine (rx_chan k) src n hd body) srcs answers.
Proof.
  intros cap. induction srcs as [|src srcs IH]; intros k U S F; [exists []; cbn; auto|]. inversion F as [|? ? (B & C) F']; subst. cbn [receive].
  assert (NK : forall n, noted k n = k) by (intros n; unfold noted, rx_chan in *; destruct (k_complete k); [cbn in S; rewrite S|]; reflexivity).
  destruct (IH k U S F') as (answers & IHE & V).
  destruct (decrypt_spec k cap src U B C) as [(n & hd & body & G & ST & ->)|(-> & ST)]; rewrite ?NK, IHE; eexists; (split; [reflexivity|]); constructor; auto; intros body'; cbn [option_map].
  - rewrite skipn_app_exact. split; [intros E; injection E as <-; eauto|]. intros (n' & hd' & G'). f_equal. apply (genuine_unique _ _ _ _ _ _ _ _ (usable_mac k U) G G').
  - split; [discriminate|]. intros (n & hd & G). specialize (ST _ _ _ G). unfold stale in ST. rewrite S in ST. discriminate.
Qed.
Definition delivered_as (bodies : list (list Z)) (jv : nat * bool) (a : option (list Z)) : Prop :=
  if snd jv then exists p, (p < 16)%nat /\ a = Some (nth (fst jv) bodies [] ++ repeat 255 p) else a = None.
Lemma channel_spec : forall cap bodies ks kr js, usable ks -> usable kr -> tx_chan ks = rx_chan kr -> 0 <= k_txseq ks -> k_txseq ks + zlen bodies <= U64MAX -> k_rxseqs kr = [] ->
  Forall (fun b => bytes_ok b /\ b <> [] /\ zlen b + 59 <= cap) bodies -> Forall (fun j => (j < length bodies)%nat) js ->
  exists ks' outs kr' answers, transmit aes_enc hmac ks cap bodies = Ok (ks', outs) /\ length outs = length bodies
  /\ receive aes_dec hmac kr cap (map (fun j => nth j outs []) js) = Ok (kr', answers)
  /\ Forall2 (delivered_as bodies) (List.combine js (if c_seq (rx_chan kr) then verdicts [] (map (fun j => Some (k_txseq ks + Z.of_nat j)) js) else repeat true (length js))) answers.
Proof.
  intros cap bodies ks kr js US UR CH T0 T R0 F J. destruct (transmit_spec cap bodies ks US T0 T F) as (ks' & outs & E & LO & HO). exists ks', outs.
  assert (GU : forall src n hd body n' hd' body', genuine (rx_chan kr) src n hd body -> genuine (rx_chan kr) src n' hd' body' -> n = n' /\ body = body').
  { intros src n hd body n' hd' body' G G'. destruct (genuine_unique _ _ _ _ _ _ _ _ (usable_mac kr UR) G G') as (A & _ & B). auto. }
  assert (HJ : forall j, In j js -> let out := nth j outs [] in exists hd p, (p < 16)%nat /\ bytes_ok out /\ zlen out <= cap
     /\ genuine (rx_chan kr) out (if c_seq (rx_chan kr) then k_txseq ks + Z.of_nat j else 0) hd (nth j bodies [] ++ repeat 255 p)).
  { intros j I. rewrite Forall_forall in J. specialize (J j I). destruct (HO j (nth j bodies [])) as (out & hd & p & E1 & P & B & Z & G); [apply nth_error_nth', J|].
    cbn zeta. rewrite (nth_error_nth _ _ _ E1). rewrite CH in G. eauto 8. }
  assert (FS : Forall (fun src => bytes_ok src /\ zlen src <= cap) (map (fun j => nth j outs []) js)).
  { apply Forall_forall. intros src I. apply in_map_iff in I as (j & <- & I). destruct (HJ j I) as (hd & p & _ & B & Z & _). auto. }
  destruct (c_seq (rx_chan kr)) eqn:S.
  - assert (NU : Forall2 (numbered (rx_chan kr)) (map (fun j => nth j outs []) js) (map (fun j => Some (k_txseq ks + Z.of_nat j)) js)).
    { clear - HJ GU. induction js as [|j js IH]; cbn [map]; constructor; [|apply IH; intros; apply HJ; right; assumption].
      destruct (HJ j (or_introl eq_refl)) as (hd & p & _ & _ & _ & G). intros n. split.
      - intros E. injection E as <-. eauto.
      - intros (hd' & body & G'). f_equal. apply (GU _ _ _ _ _ _ _ G G'). }
    assert (TN : tracks (k_rxseqs kr) []) by (rewrite R0; apply tracks_nil). destruct (receive_spec cap _ _ kr [] UR S TN FS NU) as (kr' & answers & ER & _ & V & LA).
    exists kr', answers. split; [exact E|]. split; [exact LO|]. split; [exact ER|].
    set (pk := fun j => nth j outs []) in V, LA. clear - HJ V LA GU. generalize dependent answers. generalize (@nil Z) as seen. induction js as [|j js IH]; intros seen answers V LA; cbn [map length] in *.
    + destruct answers; [|discriminate]. constructor.
    + destruct answers as [|a answers]; [discriminate|]. cbn [verdicts] in *.
      assert (IH' : forall seen, Forall2 (fun src '(ok, a) => if ok : bool then exists n hd body, a = Some body /\ genuine (rx_chan kr) src n hd body else a = None) (map pk js) (List.combine (verdicts seen (map (fun j => Some (k_txseq ks + Z.of_nat j)) js)) answers) ->
               Forall2 (delivered_as bodies) (List.combine js (verdicts seen (map (fun j => Some (k_txseq ks + Z.of_nat j)) js))) answers).
      { intros seen' V'. apply IH; auto. intros; apply HJ; right; assumption. }
      destruct (fresh seen (k_txseq ks + Z.of_nat j)); cbn [List.combine] in *; inversion V as [|? ? ? ? H1 H2]; subst; constructor; auto; unfold delivered_as; cbn [fst snd]; auto.
      destruct H1 as (n & hd & body & -> & G). destruct (HJ j (or_introl eq_refl)) as (hd' & p & P & _ & _ & G'). exists p. split; [exact P|]. f_equal. apply (GU _ _ _ _ _ _ _ G G').
  - destruct (receive_plain cap _ kr UR S FS) as (answers & ER & V). exists kr, answers. split; [exact E|]. split; [exact LO|]. split; [exact ER|].
    clear - HJ V. revert answers V. induction js as [|j js IH]; intros answers V; inversion V as [|? a ? answers' H1 H2]; subst; cbn [length repeat List.combine]; constructor; [|apply IH; [intros; apply HJ; right; assumption|exact H2]].
    unfold delivered_as; cbn [fst snd]. destruct (HJ j (or_introl eq_refl)) as (hd' & p & P & _ & _ & G'). exists p. split; [exact P|]. apply H1. eauto.
Qed.
End Packets.

(** ** Plain keys *)
Lemma plain_roundtrip : forall ks kr cap cap' src margin, p_complete ks = p_complete kr -> p_tx ks = p_rx kr -> is_u16 (p_tx ks) ->
  (margin <= length src)%nat -> zlen src - Z.of_nat margin + 18 <= cap -> zlen src - Z.of_nat margin + 32 <= cap' ->
  exists out, plain_encrypt ks cap src margin = Some out /\ plain_decrypt kr cap' out = Some (repeat 0 16 ++ skipn margin src ++ repeat 255 16, plain_margin).
Proof.
  intros ks kr cap cap' src margin EC ES U M C C'. unfold plain_encrypt. destruct (Nat.ltb_spec (length src) margin); [lia|].
  remember (skipn margin src ++ repeat 255 16) as data eqn:ED. assert (LD : zlen data = zlen src - Z.of_nat margin + 16) by (subst data; unfold zlen; rewrite app_length, skipn_length, repeat_length; lia).
  set (salt := if p_complete ks then p_tx ks else 0). assert (US : 0 <= salt < 65536) by (unfold salt, is_u16, U16MAX in *; destruct (p_complete ks); lia).
  set (ck := wrap16 (in_cksum data + salt)). destruct (two_bytes ck ltac:(unfold ck, wrap16; apply Z.mod_pos_bound; lia)) as (B0 & B1 & BB).
  assert (LO : zlen (data ++ [Z.shiftr ck 8; Z.land ck 255]) = zlen data + 2) by (rewrite zlen_app; reflexivity).
  rewrite LO. destruct (Z.ltb_spec cap (zlen data + 2)); [lia|]. eexists. split; [reflexivity|].
  unfold plain_decrypt. rewrite LO. pose proof (zlen_nonneg _ data). destruct (Z.ltb_spec (zlen data + 2) 2); [lia|]. destruct (Z.ltb_spec cap' (zlen data + 2 + 16 - 2)); [lia|].
  rewrite app_length. cbn [length]. replace (length data + 2 - 2)%nat with (length data) by lia. replace (length data + 2 - 1)%nat with (S (length data)) by lia.
  rewrite firstn_app_exact. rewrite !app_nth2 by lia. replace (length data - length data)%nat with 0%nat by lia. replace (S (length data) - length data)%nat with 1%nat by lia. cbn [nth].
  rewrite <- EC, <- ES. fold salt. rewrite shiftl_8, BB. pose proof (cksum_u16 data).
  destruct (Z.eqb_spec (in_cksum data) (wrap16 (ck - salt))) as [_|N]; [reflexivity|]. exfalso. apply N. unfold ck, wrap16. rewrite Zminus_mod_idemp_l. lia.
Qed.
Lemma u16_decode : forall n, is_u16 n -> wrap16 (Z.shiftl (wrap8 (Z.shiftr n 8)) 8 + Z.land n 255) = n.
Proof. intros n U. rewrite shiftl_8, shiftr_8, land_255. unfold wrap8, wrap16, is_u16, U16MAX in *. lia. Qed.
Lemma plain_handshake : forall ki kr, is_u16 (p_rx ki) -> is_u16 (p_rx kr) ->
  exists kr' ki', plain_combine kr (plain_component ki) = Some kr' /\ plain_combine ki (plain_component kr) = Some ki'
  /\ p_complete ki' = true /\ p_complete kr' = true /\ p_tx ki' = p_rx kr' /\ p_tx kr' = p_rx ki' /\ is_u16 (p_tx ki') /\ is_u16 (p_tx kr')
  /\ plain_component ki' = plain_far_nonce kr' /\ plain_component kr' = plain_far_nonce ki'.
Proof.
  intros ki kr UI UR. unfold plain_component, plain_combine, plain_far_nonce, u16_bytes. eexists _, _. split; [reflexivity|]. split; [reflexivity|]. cbn [p_complete p_tx p_rx]. rewrite !u16_decode by auto. auto 12.
Qed.
