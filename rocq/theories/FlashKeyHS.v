From Verif Require Import Base BaseFacts VLU VLUSpec VLUProofs FlashCert FlashCertSpec FlashCertProofs FlashKey FlashKeySpec FlashKeyProofs.
Open Scope res_scope.

Lemma Ok_inj : forall A (x y : A), Ok x = Ok y -> x = y.
Proof. intros A x y E. injection E. auto. Qed.

(** ** Searching arbitrary bytes *)
Lemma seek_any : forall ty fuel l, bytes_ok l -> zlen l <= U64MAX -> (length l < fuel)%nat ->
  opt_seek fuel l ty = Ok None \/ exists v rest, opt_seek fuel l ty = Ok (Some (v, rest)) /\ bytes_ok v /\ bytes_ok rest /\ zlen rest <= U64MAX /\ (length rest < length l)%nat.
Proof.
  intros ty. induction fuel as [|fuel IH]; intros l B Z F; [lia|]. destruct l as [|b l']; [auto|]. remember (b :: l') as l eqn:EL. assert (NE : l <> []) by (subst; discriminate).
  cbn [opt_seek]. rewrite !(nem _ l) by exact NE. clear b l' EL. destruct (items_step l B Z NE) as [(P & N)|(i & w & rest & E & H & P & B' & Z' & L' & K)].
  - rewrite P. auto.
  - rewrite P. destruct i as [(t & v)|]; cbn [item_parsed]; [|auto]. rewrite K. destruct (_ =? ty).
    + right. exists v, rest. split; [reflexivity|]. split; [|auto]. inversion H as [|? ? ? W]; subst. destruct W as [? ? Lw T CL CT _ _]. apply bytes_ok_app in B as (B & _). apply bytes_ok_app in B as (_ & B). apply bytes_ok_app in B as (_ & B). exact B.
    + destruct (IH rest B' Z' ltac:(lia)) as [->|(v' & r' & -> & A1 & A2 & A3 & A4)]; [auto|]. right. exists v', r'. repeat split; auto. lia.
Qed.
Lemma group_key_any : forall ty l, bytes_ok l -> zlen l <= U64MAX ->
  group_and_key l ty = Ok None \/ exists g key rest, group_and_key l ty = Ok (Some (g, key, rest)) /\ 0 <= g <= INT_MAX /\ bytes_ok key /\ bytes_ok rest /\ zlen rest <= U64MAX /\ (length rest < length l)%nat.
Proof.
  intros ty l B Z. unfold group_and_key. destruct (seek_any ty (S (length l)) l B Z ltac:(lia)) as [->|(v & rest & -> & BV & BR & ZR & LR)]; [auto|].
  destruct (vlu_parse_spec v BV) as [(_ & ->)|(pre & r & E & C & ->)]; [auto|]. pose proof (groups_value_nonneg pre). rewrite Z.gtb_ltb. destruct (Z.ltb_spec INT_MAX (Z.min (groups_value pre) U64MAX)); [auto|].
  right. eexists _, _, _. split; [reflexivity|]. split; [unfold U64MAX in *; lia|]. split; [apply bytes_ok_skipn, BV|auto].
Qed.
Lemma group_loop_any : forall ty g fuel l, bytes_ok l -> zlen l <= U64MAX -> (length l < fuel)%nat -> exists o, group_loop fuel l ty g = Ok o /\ forall key, o = Some key -> bytes_ok key.
Proof.
  intros ty g. induction fuel as [|fuel IH]; intros l B Z F; [lia|]. destruct l as [|b l']; [exists None; split; [reflexivity|discriminate]|]. remember (b :: l') as l eqn:EL. assert (NE : l <> []) by (subst; discriminate).
  cbn [group_loop]. rewrite !(nem _ l) by exact NE. clear b l' EL. destruct (group_key_any ty l B Z) as [->|(g' & key & rest & -> & G & BK & BR & ZR & LR)]; [exists None; split; [reflexivity|discriminate]|].
  destruct (g' =? g); [exists (Some key); split; [reflexivity|]; intros k E; injection E as <-; exact BK|]. apply IH; auto. lia.
Qed.
Lemma group_any : forall ty g l, bytes_ok l -> zlen l <= U64MAX -> exists o, group_search l ty g = Ok o /\ forall key, o = Some key -> bytes_ok key.
Proof. intros. apply group_loop_any; auto. Qed.
Lemma nego_any : forall ty l, bytes_ok l -> zlen l <= U64MAX -> exists f n, nego_search l ty = Ok (f, n) /\ 0 <= n.
Proof.
  intros ty l B Z. unfold nego_search. destruct (seek_any ty (S (length l)) l B Z ltac:(lia)) as [->|(v & rest & -> & BV & _)]; [exists 0, 0; split; [reflexivity|lia]|].
  destruct v as [|b r]; [exists 0, 0; split; [reflexivity|lia]|]. inversion BV; subst. destruct (vlu_parse_spec r) as [(_ & ->)|(pre & r' & E & C & ->)]; auto.
  - exists b, 0. split; [reflexivity|lia].
  - eexists _, _. split; [reflexivity|]. pose proof (groups_value_nonneg pre). unfold U64MAX. lia.
Qed.
Lemma negotiate_keeps : forall f s r s' r', negotiate f s r = Some (s', r') -> (s = true -> s' = true) /\ (r = true -> r' = true).
Proof.
  intros f s r s' r'. unfold negotiate. destruct (r && _); [discriminate|]. intros E. injection E as <- <-. split; intros ->; [destruct (negb (Z.land f 1 =? 0))|destruct (negb (Z.land f 4 =? 0))]; reflexivity.
Qed.
(** what negotiation with anyone leaves *)
Lemma negotiate_any : forall k comp, bytes_ok comp -> zlen comp <= U64MAX -> exists k' ok, negotiate_all k comp = Ok (k', ok)
  /\ (k_hsend k = true -> k_hsend k' = true) /\ (k_hrecv k = true -> k_hrecv k' = true) /\ (k_ssend k = true -> k_ssend k' = true) /\ (k_srecv k = true -> k_srecv k' = true)
  /\ k_txlen k' = k_txlen k /\ k_needed k' = k_needed k /\ k_group k' = k_group k /\ k_dh k' = k_dh k /\ k_secret k' = k_secret k /\ k_sknc k' = k_sknc k /\ k_complete k' = k_complete k
  /\ k_txmac k' = k_txmac k /\ k_rxmac k' = k_rxmac k /\ k_txseq k' = k_txseq k /\ k_rxseqs k' = k_rxseqs k
  /\ (ok = true -> k_hrecv k' = true -> 4 <= k_rxlen k' <= 32).
Proof.
  intros k comp B Z. unfold negotiate_all. destruct (nego_any KEYING_OPTION_SSEQ_NEGOTIATION comp B Z) as (f & n & -> & _). cbn [rbind].
  destruct (negotiate f (k_ssend k) (k_srecv k)) as [(s & r)|] eqn:N1; [|eexists _, _; split; [reflexivity|]; repeat split; auto; discriminate].
  apply negotiate_keeps in N1 as (S1 & S2). destruct (nego_any KEYING_OPTION_HMAC_NEGOTIATION comp B Z) as (f2 & n2 & -> & N0). cbn [rbind].
  destruct (negotiate f2 _ _) as [(s2 & r2)|] eqn:N2; [|eexists _, _; split; [reflexivity|]; cbn; repeat split; auto; discriminate].
  apply negotiate_keeps in N2 as (S3 & S4). cbn in S3, S4. destruct r2; [|eexists _, _; split; [reflexivity|]; cbn; repeat split; auto; discriminate].
  rewrite Z.gtb_ltb. destruct (Z.ltb_spec n2 MIN_HMAC_LENGTH), (Z.ltb_spec MAX_HMAC_LENGTH n2); cbn [orb]; eexists _, _; (split; [reflexivity|]); cbn; unfold MIN_HMAC_LENGTH, MAX_HMAC_LENGTH in *; repeat split; auto; try discriminate; lia.
Qed.

(** ** Searching lists of options *)
Fixpoint seek_items (ty : Z) (is : list item) : option (list Z * list item) :=
  match is with
  | [] => None
  | None :: _ => None
  | Some (t, v) :: r => if t =? ty then Some (v, r) else seek_items ty r
  end.
Lemma seek_spec : forall ty, 0 <= ty < U64MAX -> forall fuel l is, bytes_ok l -> zlen l <= U64MAX -> (length l < fuel)%nat -> items_wire is l ->
  match seek_items ty is with
  | None => opt_seek fuel l ty = Ok None
  | Some (v, r) => exists rest, opt_seek fuel l ty = Ok (Some (v, rest)) /\ items_wire r rest /\ bytes_ok rest /\ zlen rest <= U64MAX /\ (length rest < length l)%nat
  end.
Proof.
  intros ty T. induction fuel as [|fuel IH]; intros l is B Z F X; [lia|]. destruct X as [|i w is ws H X]; [reflexivity|].
  pose proof (item_length _ _ H) as LW. pose proof (zlen_nonneg _ w). assert (NE : w ++ ws <> []) by (intros E; apply app_eq_nil in E as (-> & _); cbn in LW; lia).
  cbn [opt_seek seek_items]. rewrite !(nem _ (w ++ ws)) by exact NE. rewrite (item_parse i w ws H B Z). rewrite app_length in F. apply bytes_ok_app in B as (_ & B). rewrite zlen_app' in Z.
  destruct i as [(t & v)|]; cbn [item_parsed]; [|reflexivity]. rewrite min_eqb by exact T. rewrite skipn_app_exact. destruct (t =? ty).
  - exists ws. split; [reflexivity|]. split; [exact X|]. split; [exact B|]. split; [lia|]. rewrite app_length. lia.
  - specialize (IH ws is B ltac:(lia) ltac:(lia) X). destruct (seek_items ty is) as [(v' & r)|]; [|exact IH]. destruct IH as (rest & -> & A1 & A2 & A3 & A4). exists rest. repeat split; auto. rewrite app_length. lia.
Qed.
(** The key for a group among values that begin with a group *)
Fixpoint group_vals (g : Z) (vals : list (list Z)) : option (list Z) :=
  match vals with
  | [] => None
  | v :: r => match vlu_parse v with Ok (g', n) => if g' >? INT_MAX then None else if g' =? g then Some (skipn n v) else group_vals g r | _ => None end
  end.
Lemma seek_values : forall ty is, Forall (fun i => i <> None) is -> match seek_items ty is with None => values ty is = [] | Some (v, r) => values ty is = v :: values ty r /\ Forall (fun i => i <> None) r /\ (length r < length is)%nat end.
Proof.
  intros ty. induction is as [|[(t & v)|] is IH]; intros F; cbn [seek_items values]; [reflexivity| |inversion F as [|? ? N]; contradiction N; reflexivity].
  inversion F as [|? ? _ F']; subst. destruct (t =? ty); [split; [reflexivity|]; split; [exact F'|unfold item in *; cbn [length]; lia]|]. specialize (IH F'). destruct (seek_items ty is) as [(v' & r)|]; [|exact IH]. destruct IH as (A & B & C). split; [exact A|]. split; [exact B|unfold item in *; cbn [length]; lia].
Qed.
Lemma values_bytes : forall ty is l, items_wire is l -> bytes_ok l -> Forall bytes_ok (values ty is).
Proof.
  intros ty is l X. induction X as [|i w is ws H X IH]; intros B; [constructor|]. apply bytes_ok_app in B as (B & B'). destruct i as [(t & v)|]; cbn [values]; [|auto]. destruct (t =? ty); [|auto]. constructor; [|auto].
  inversion H as [|? ? ? W]; subst. destruct W as [? ? Lw T CL CT _ _]. apply bytes_ok_app in B as (_ & B). apply bytes_ok_app in B as (_ & B). exact B.
Qed.
Lemma group_spec : forall ty g, 0 <= ty < U64MAX -> forall fuel l is, bytes_ok l -> zlen l <= U64MAX -> (length l < fuel)%nat -> items_wire is l -> Forall (fun i => i <> None) is ->
  group_loop fuel l ty g = Ok (group_vals g (values ty is)).
Proof.
  intros ty g T. induction fuel as [|fuel IH]; intros l is B Z F X N; [lia|]. destruct l as [|b l'].
  { rewrite (items_unique _ _ X [] is_nil). reflexivity. }
  remember (b :: l') as l eqn:EL. assert (NE : l <> []) by (subst; discriminate). cbn [group_loop]. rewrite !(nem _ l) by exact NE. clear b l' EL.
  unfold group_and_key. pose proof (seek_spec ty T (S (length l)) l is B Z ltac:(lia) X) as S. pose proof (seek_values ty is N) as V. pose proof (values_bytes ty is l X B) as VB.
  destruct (seek_items ty is) as [(v & r)|]; [|rewrite S, V; reflexivity]. destruct S as (rest & -> & X' & B' & Z' & L'), V as (V & N' & _). rewrite V in *. inversion VB as [|? ? BV _]; subst. cbn [group_vals].
  destruct (vlu_parse_spec v BV) as [(_ & ->)|(pre & r' & E & C & ->)]; [reflexivity|]. destruct (_ >? INT_MAX); [reflexivity|]. destruct (_ =? g); [reflexivity|]. apply IH; auto. lia.
Qed.
Lemma group_key_spec : forall ty l is, 0 <= ty < U64MAX -> bytes_ok l -> zlen l <= U64MAX -> items_wire is l -> forall g key r,
  seek_items ty is = Some (vlu_encode g ++ key, r) -> 0 <= g <= INT_MAX -> bytes_ok key -> exists rest, group_and_key l ty = Ok (Some (g, key, rest)).
Proof.
  intros ty l is T B Z X g key r E G BK. unfold group_and_key. pose proof (seek_spec ty T (S (length l)) l is B Z ltac:(lia) X) as S. rewrite E in S. destruct S as (rest & -> & _).
  assert (U : is_u64 g) by (unfold is_u64, U64MAX, INT_MAX in *; lia). rewrite vlu_roundtrip by auto. rewrite Z.gtb_ltb. destruct (Z.ltb_spec INT_MAX g); [lia|]. rewrite skipn_app_exact. eauto.
Qed.
Lemma group_vals_map : forall (pub : Z -> Z -> list Z) g privs, Forall (fun p => 0 <= fst p <= INT_MAX) privs -> (forall g p, bytes_ok (pub g p)) ->
  group_vals g (map (fun '(g, p) => vlu_encode g ++ pub g p) privs) = match priv_of privs g with Some p => Some (pub g p) | None => None end.
Proof.
  intros pub g privs F BP. induction F as [|(g' & p) privs G F IH]; [reflexivity|]. cbn [map group_vals priv_of fst] in *. assert (U : is_u64 g') by (unfold is_u64, U64MAX, INT_MAX in *; lia). rewrite vlu_roundtrip by auto.
  rewrite Z.gtb_ltb. destruct (Z.ltb_spec INT_MAX g'); [lia|]. destruct (Z.eqb_spec g' g) as [->|_]; [rewrite skipn_app_exact; reflexivity|exact IH].
Qed.
Lemma group_vals_groups : forall g groups, Forall (fun g => 0 <= g <= INT_MAX) groups -> group_vals g (map vlu_encode groups) = if existsb (Z.eqb g) groups then Some [] else None.
Proof.
  intros g groups F. induction F as [|g' groups G F IH]; [reflexivity|]. cbn [map group_vals existsb]. assert (U : is_u64 g') by (unfold is_u64, U64MAX, INT_MAX in *; lia).
  pose proof (vlu_roundtrip g' [] U ltac:(constructor)) as R. rewrite app_nil_r in R. rewrite R. clear R.
  rewrite Z.gtb_ltb. destruct (Z.ltb_spec INT_MAX g'); [lia|]. rewrite (Z.eqb_sym g g'). destruct (Z.eqb_spec g' g) as [->|_]; [rewrite skipn_all; reflexivity|exact IH].
Qed.

(** ** Negotiating with an honest end *)
Lemma negotiate_flags : forall snd req s r, negotiate (nego_flags snd true req) s r = Some (s || req, r || snd).
Proof. intros [|] [|] [|] [|]; reflexivity. Qed.
Definition negotiated (k far : fkey) : fkey :=
  let k := with_sseq k (k_ssend k || k_srecv far) (k_srecv k || k_ssend far) in
  let k := with_hmac k (k_hsend k || k_hrecv far) (k_hrecv k || k_hsend far) in
  if k_hrecv k then with_rxlen k (k_txlen far) else k.
Lemma negotiate_honest : forall k far comp is r1 r2, bytes_ok comp -> zlen comp <= U64MAX -> items_wire is comp -> 4 <= k_txlen far <= 32 ->
  seek_items 30 is = Some ([nego_flags (k_ssend far) true (k_srecv far)], r1) ->
  seek_items 26 is = Some (vlu_append (k_txlen far) [nego_flags (k_hsend far) true (k_hrecv far)], r2) ->
  negotiate_all k comp = Ok (negotiated k far, true).
Proof.
  intros k far comp is r1 r2 B ZL X T S1 S2. unfold negotiate_all, nego_search.
  pose proof (seek_spec 30 ltac:(unfold U64MAX; lia) (S (length comp)) comp is B ZL ltac:(lia) X) as E1. rewrite S1 in E1. destruct E1 as (x1 & E1 & _). change KEYING_OPTION_SSEQ_NEGOTIATION with 30. rewrite E1.
  pose proof (seek_spec 26 ltac:(unfold U64MAX; lia) (S (length comp)) comp is B ZL ltac:(lia) X) as E2. rewrite S2 in E2. destruct E2 as (x2 & E2 & _). change KEYING_OPTION_HMAC_NEGOTIATION with 26. rewrite E2.
  change (vlu_parse []) with (@Rej (Z * nat)). cbn [rbind]. rewrite negotiate_flags. unfold vlu_append. cbn [app].
  assert (U : is_u64 (k_txlen far)) by (unfold is_u64, U64MAX; lia). pose proof (vlu_roundtrip (k_txlen far) [] U ltac:(constructor)) as R. rewrite app_nil_r in R. rewrite R. clear R. cbn [rbind]. rewrite negotiate_flags.
  unfold negotiated. cbn [k_hrecv k_hsend with_sseq with_hmac]. destruct (k_hrecv k || k_hsend far); [|reflexivity].
  rewrite Z.gtb_ltb. destruct (Z.ltb_spec (k_txlen far) MIN_HMAC_LENGTH) as [L|_]; [unfold MIN_HMAC_LENGTH in L; lia|]. destruct (Z.ltb_spec MAX_HMAC_LENGTH (k_txlen far)) as [L|_]; [unfold MAX_HMAC_LENGTH in L; lia|]. reflexivity.
Qed.

(** A far end that does not offer what this end requires *)
Lemma seek_first : forall ty is, match seek_items ty is with Some (v, _) => first_value ty (before_marker is) = Some v | None => first_value ty (before_marker is) = None end.
Proof.
  unfold first_value. intros ty is. induction is as [|[(t & v)|] is IH]; [reflexivity| |reflexivity]. cbn [seek_items before_marker values]. destruct (t =? ty); [reflexivity|exact IH].
Qed.
Lemma flags_bits : forall f, Z.land f 6 <> 0 -> Z.testbit f 1 || Z.testbit f 2 = true.
Proof.
  intros f N. destruct (Z.testbit f 1) eqn:B1; [reflexivity|]. destruct (Z.testbit f 2) eqn:B2; [reflexivity|]. contradiction N. apply Z.bits_inj'. intros n L. rewrite Z.land_spec, Z.bits_0.
  destruct (Z.eq_dec n 1) as [->|N1]; [rewrite B1; reflexivity|]. destruct (Z.eq_dec n 2) as [->|N2]; [rewrite B2; reflexivity|]. replace (Z.testbit 6 n) with false; [apply andb_false_r|].
  destruct (Z.eq_dec n 0) as [->|N0]; [reflexivity|]. symmetry. apply Z.bits_above_log2; [lia|]. cbn. lia.
Qed.
Lemma nego_unwilling : forall ty comp is, 0 <= ty < U64MAX -> bytes_ok comp -> zlen comp <= U64MAX -> items_wire is comp -> ~ offers ty is -> exists f n, nego_search comp ty = Ok (f, n) /\ Z.land f 6 = 0.
Proof.
  intros ty comp is T B ZL X NO. destruct (nego_any ty comp B ZL) as (f & n & E & _). exists f, n. split; [exact E|]. destruct (Z.eq_dec (Z.land f 6) 0) as [D|D]; [exact D|]. contradiction NO.
  unfold nego_search in E. pose proof (seek_spec ty T (S (length comp)) comp is B ZL ltac:(lia) X) as SS. pose proof (seek_first ty is) as SF. destruct (seek_items ty is) as [(v & r)|].
  - destruct SS as (rest & E1 & _). rewrite E1 in E. destruct v as [|b v]; [injection E as <- <-; contradiction D; reflexivity|]. exists b, v. split; [exact SF|]. apply flags_bits. destruct (vlu_parse v) as [(n' & m')| |]; [injection E as <- <-|injection E as <- <-|discriminate]; exact D.
  - rewrite SS in E. injection E as <- <-. contradiction D. reflexivity.
Qed.
Lemma negotiate_unwilling : forall k comp is, bytes_ok comp -> zlen comp <= U64MAX -> items_wire is comp -> (k_srecv k = true /\ ~ offers 30 is) \/ (k_hrecv k = true /\ ~ offers 26 is) ->
  exists k', negotiate_all k comp = Ok (k', false).
Proof.
  intros k comp is B ZL X H. unfold negotiate_all. change KEYING_OPTION_SSEQ_NEGOTIATION with 30. change KEYING_OPTION_HMAC_NEGOTIATION with 26. destruct H as [(R & NO)|(R & NO)].
  - destruct (nego_unwilling 30 comp is ltac:(unfold U64MAX; lia) B ZL X NO) as (f & n & -> & F). cbn [rbind]. unfold negotiate. rewrite R, F. cbn. eauto.
  - destruct (nego_any 30 comp B ZL) as (f1 & n1 & -> & _). cbn [rbind]. destruct (negotiate f1 _ _) as [(s & r)|]; [|eauto].
    destruct (nego_unwilling 26 comp is ltac:(unfold U64MAX; lia) B ZL X NO) as (f & n & -> & F). cbn [rbind]. unfold negotiate. cbn [k_hrecv with_sseq]. rewrite R, F. cbn. eauto.
Qed.

Section Handshake.
Variable hmac : list Z -> list Z -> list Z.
Variable dh_pub : Z -> Z -> list Z.
Variable dh_sec : Z -> Z -> list Z -> option (list Z).
Notation combine := (combine hmac dh_sec).
Notation gen_initiator := (gen_initiator dh_pub dh_sec).
Notation gen_responder := (gen_responder hmac dh_pub dh_sec).

(** Keys after a success with anyone *)
Definition kept (k k' : fkey) : Prop :=
  usable k' /\ k_complete k' = true /\ (k_hsend k = true -> k_hsend k' = true) /\ (k_hrecv k = true -> k_hrecv k' = true) /\ (k_ssend k = true -> k_ssend k' = true) /\ (k_srecv k = true -> k_srecv k' = true)
  /\ (k_hrecv k' = true -> 4 <= k_rxlen k' <= 32) /\ k_txseq k' = k_txseq k /\ k_rxseqs k' = k_rxseqs k.
Lemma compute_usable : forall k s a b, 4 <= k_txlen k <= 32 -> (k_hrecv k = true -> 4 <= k_rxlen k <= 32) ->
  usable (with_complete (with_dh (with_secret (compute_keys hmac (with_secret k s) a b) []) None) true).
Proof.
  intros k s a b T R _. cbn. split.
  - intros E. rewrite E. split; [discriminate|lia].
  - intros E. rewrite E. split; [discriminate|]. specialize (R E). lia.
Qed.
Lemma combine_any : forall a comp k, bytes_ok comp -> zlen comp <= U64MAX -> 4 <= k_txlen k <= 32 -> exists k' ok, combine a comp k = Ok (k', ok) /\ (ok = true -> kept k k').
Proof.
  intros a comp k B Z T. unfold FlashKey.combine. destruct (negotiate_any k comp B Z) as (k1 & ok & -> & H1 & H2 & H3 & H4 & HT & HN & HG & HD & HS & HK & HC & HX & HY & HQ & HR & HL). cbn [rbind].
  destruct ok; cbn [negb]; [|eexists _, _; split; [reflexivity|discriminate]].
  assert (KEPT : forall s x y, kept k (with_complete (with_dh (with_secret (compute_keys hmac (with_secret k1 s) x y) []) None) true)).
  { intros s x y. split; [apply compute_usable; [lia|auto]|]. cbn. repeat split; auto; apply HL; auto. }
  destruct (k_needed k1) eqn:N; cbn [rbind].
  - destruct (group_any KEYING_OPTION_DH_PUBLIC_KEY (k_group (with_secret k1 [])) comp B Z) as (o & -> & _). cbn [rbind]. destruct o as [pk|]; [|cbn; eexists _, _; split; [reflexivity|discriminate]].
    destruct (match k_dh (with_secret k1 []) with Some p => _ | None => _ end) as [s|]; cbn; eexists _, _; (split; [reflexivity|]); [intros _; apply KEPT|discriminate].
  - eexists _, _. split; [reflexivity|]. intros _. specialize (KEPT (k_secret k1) (k_sknc k1) comp).
    replace (with_secret k1 (k_secret k1)) with k1 in KEPT by (destruct k1; reflexivity). exact KEPT.
Qed.
Lemma public_key_any : forall c g, bytes_ok (fc_raw c) -> zlen (fc_raw c) <= U64MAX -> exists o, cert_public_key c g = Ok o.
Proof. intros c g B Z. unfold cert_public_key. destruct (fc_static c); [|eauto]. destruct (group_any CERT_OPTION_DH_PUBLIC_KEY g _ B Z) as (o & -> & _). eauto. Qed.
Lemma responder_any : forall a c comp fresh rnd k, bytes_ok comp -> zlen comp <= U64MAX -> bytes_ok (fc_raw c) -> zlen (fc_raw c) <= U64MAX -> 4 <= k_txlen k <= 32 ->
  exists k' o, gen_responder a c comp fresh rnd k = Ok (k', o) /\ (o <> None -> kept k k').
Proof.
  intros a c comp fresh rnd k B Z BC ZC T. unfold FlashKey.gen_responder. destruct (negotiate_any k comp B Z) as (k1 & ok & -> & H1 & H2 & H3 & H4 & HT & HN & HG & HD & HS & HK & HC & HX & HY & HQ & HR & HL). cbn [rbind].
  destruct ok; cbn [negb]; [|eexists _, _; split; [reflexivity|intros X; contradiction X; reflexivity]].
  match goal with |- context [rbind ?e] => assert (P : exists o, e = Ok o) end.
  { destruct (fc_static c).
    - destruct (group_key_any KEYING_OPTION_DH_GROUP_SELECT comp B Z) as [->|(g & key & rest & -> & _)]; cbn [rbind]; [eauto|]. destruct (public_key_any c g BC ZC) as (o & ->). cbn [rbind]. eauto.
    - destruct (group_key_any KEYING_OPTION_DH_PUBLIC_KEY comp B Z) as [->|(g & key & rest & -> & _)]; cbn [rbind]; eauto. }
  destruct P as (o & ->). cbn [rbind]. destruct o as [(g & pk)|]; [|eexists _, _; split; [reflexivity|intros X; contradiction X; reflexivity]].
  destruct (negb (supports_group a g)); [eexists _, _; split; [reflexivity|intros X; contradiction X; reflexivity]|].
  match goal with |- exists k' o, match ?e with Some _ => _ | None => _ end = _ /\ _ => destruct e as [(s & sknc)|] end; eexists _, _; (split; [reflexivity|]); [intros _|intros X; contradiction X; reflexivity].
  split; [apply (compute_usable (with_group k1 g)); cbn; [lia|auto]|]. cbn. repeat split; auto; apply HL; auto.
Qed.
Lemma best_any : forall c groups, bytes_ok (fc_raw c) -> zlen (fc_raw c) <= U64MAX -> exists g, best_group groups c = Ok g /\ (g = -1 \/ In g groups).
Proof.
  intros c groups B Z. induction groups as [|g r IH]; [exists (-1); auto|]. cbn [best_group]. unfold cert_supports at 1.
  destruct (group_any (if fc_static c then CERT_OPTION_DH_PUBLIC_KEY else CERT_OPTION_SUPPORTED_DH_GROUP) g _ B Z) as (o & -> & _). cbn [rbind]. destruct o; [exists g; cbn; auto|]. destruct IH as (g' & -> & IH). exists g'. split; [reflexivity|]. cbn. tauto.
Qed.
Lemma initiator_any : forall a c fresh rnd k, bytes_ok (fc_raw c) -> zlen (fc_raw c) <= U64MAX -> exists k' o, gen_initiator a c fresh rnd k = Ok (k', o) /\ k_complete k' = k_complete k /\ k_hrecv k' = k_hrecv k /\ k_srecv k' = k_srecv k /\ k_txlen k' = k_txlen k.
Proof.
  intros a c fresh rnd k B Z. unfold FlashKey.gen_initiator. destruct (best_any c (a_groups a) B Z) as (g & -> & _). cbn [rbind]. destruct (g <? 0); [eexists _, _; split; [reflexivity|cbn; auto]|].
  match goal with |- exists k' o, match ?e with Some _ => _ | None => _ end = _ /\ _ => remember e as mine eqn:EM end.
  assert (F : forall k1 cmp, mine = Some (k1, cmp) -> k_complete k1 = k_complete k /\ k_hrecv k1 = k_hrecv k /\ k_srecv k1 = k_srecv k /\ k_txlen k1 = k_txlen k).
  { intros k1 cmp ->. destruct (a_static a); [injection EM as -> ->; cbn; auto|]. destruct fresh; [|discriminate]. injection EM as -> ->; cbn; auto. }
  destruct mine as [(k1 & cmp)|]; [|eexists _, _; split; [reflexivity|cbn; auto]]. specialize (F _ _ eq_refl). clear EM.
  match goal with |- context [rbind ?e] => assert (P : exists k2 ok, e = Ok (k2, ok) /\ k_complete k2 = k_complete k1 /\ k_hrecv k2 = k_hrecv k1 /\ k_srecv k2 = k_srecv k1 /\ k_txlen k2 = k_txlen k1) end.
  { destruct (fc_static c); [|eexists _, _; split; [reflexivity|cbn; auto]]. destruct (public_key_any c g B Z) as (o & ->). cbn [rbind]. destruct o; [|eexists _, _; split; [reflexivity|cbn; auto]].
    destruct (match k_dh k1 with Some _ => _ | None => _ end); eexists _, _; (split; [reflexivity|cbn; auto]). }
  destruct P as (k2 & ok & -> & P1 & P2 & P3 & P4). destruct F as (F1 & F2 & F3 & F4). cbn [rbind]. destruct ok; cbn [negb]; eexists _, _; (split; [reflexivity|cbn; rewrite ?P1, ?P2, ?P3, ?P4; auto]).
Qed.
End Handshake.
