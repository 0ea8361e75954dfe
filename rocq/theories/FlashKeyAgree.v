(** Proofs about handshakes between two ends that both follow the protocol. *)
From Verif Require Import Base BaseFacts VLU VLUSpec VLUProofs FlashCert FlashCertSpec FlashCertProofs FlashKey FlashKeySpec FlashKeyProofs FlashKeyHS.
From Coq Require Import Lia.
Open Scope res_scope.

Lemma priv_groups : forall privs g, (if existsb (Z.eqb g) (map fst privs) then true else false) = match priv_of privs g with Some _ => true | None => false end.
Proof.
  intros privs g. induction privs as [|(g' & p) r IH]; [reflexivity|]. cbn [map existsb priv_of fst]. rewrite (Z.eqb_sym g g'). destruct (g' =? g); [reflexivity|exact IH].
Qed.
Lemma static_secret_priv : forall dh_sec privs g pk, static_secret dh_sec privs g pk = match priv_of privs g with Some p => dh_sec g p pk | None => None end.
Proof. intros dh_sec privs g pk. induction privs as [|(g' & p) r IH]; [reflexivity|]. cbn [static_secret priv_of]. destruct (g' =? g); [reflexivity|exact IH]. Qed.

Section Agree.
Variable hmac : list Z -> list Z -> list Z.
Variable dh_pub : Z -> Z -> list Z.
Variable dh_sec : Z -> Z -> list Z -> option (list Z).
Hypothesis pub_bytes : forall g p, bytes_ok (dh_pub g p) /\ zlen (dh_pub g p) <= 65536.
Notation combine := (combine hmac dh_sec).
Notation gen_initiator := (gen_initiator dh_pub dh_sec).
Notation gen_responder := (gen_responder hmac dh_pub dh_sec).

Lemma privs_range : forall a, conf_ok a -> a_static a = true -> Forall (fun p => 0 <= fst p <= INT_MAX) (a_privs a).
Proof. intros a (_ & G & P) E. rewrite <- (P E) in G. rewrite Forall_map in G. exact G. Qed.
Lemma carries_key : forall a c g, conf_ok a -> carries dh_pub a c -> cert_public_key c g = Ok (if a_static a then match priv_of (a_privs a) g with Some p => Some (dh_pub g p) | None => None end else None).
Proof.
  intros a c g C (is & X & B & L & N & S & V). unfold cert_public_key. rewrite S. destruct (a_static a) eqn:E; [|reflexivity].
  unfold group_search, CERT_OPTION_DH_PUBLIC_KEY. rewrite (group_spec 29 g ltac:(unfold U64MAX; lia) _ _ is B L (Nat.lt_succ_diag_r _) X N), V. rewrite (group_vals_map dh_pub g); [reflexivity|apply privs_range; auto|intros; apply pub_bytes].
Qed.
Lemma carries_supports : forall a c g, conf_ok a -> carries dh_pub a c -> cert_supports c g = Ok (existsb (Z.eqb g) (a_groups a)).
Proof.
  intros a c g C (is & X & B & L & N & S & V). unfold cert_supports. rewrite S. destruct (a_static a) eqn:E.
  - unfold group_search, CERT_OPTION_DH_PUBLIC_KEY. rewrite (group_spec 29 g ltac:(unfold U64MAX; lia) _ _ is B L (Nat.lt_succ_diag_r _) X N), V. rewrite (group_vals_map dh_pub g); [|apply privs_range; auto|intros; apply pub_bytes].
    f_equal. destruct C as (_ & _ & P). rewrite <- (P E). pose proof (priv_groups (a_privs a) g) as Q. destruct (existsb _ _), (priv_of _ _); auto; discriminate.
  - unfold group_search, CERT_OPTION_SUPPORTED_DH_GROUP. rewrite (group_spec 21 g ltac:(unfold U64MAX; lia) _ _ is B L (Nat.lt_succ_diag_r _) X N), V. rewrite group_vals_groups by apply C. destruct (existsb _ _); reflexivity.
Qed.
Lemma best_common : forall ar c, conf_ok ar -> carries dh_pub ar c -> forall groups, best_group groups c = Ok (match find (fun g => existsb (Z.eqb g) (a_groups ar)) groups with Some g => g | None => -1 end).
Proof.
  intros ar c C X. induction groups as [|g r IH]; [reflexivity|]. cbn [best_group find]. rewrite (carries_supports ar c g C X). cbn [rbind]. destruct (existsb _ _); auto.
Qed.

(** The components *)
Definition init_items (a : fconf) (g p : Z) (rnd : list Z) : list item :=
  (if a_static a then [Some (29, vlu_encode g); Some (14, rnd)] else [Some (13, vlu_encode g ++ dh_pub g p)])
  ++ [Some (26, vlu_append (a_hlen a) [nego_flags (a_hsend a) true (a_hrecv a)]); Some (30, [nego_flags (a_ssend a) true (a_srecv a)])].
Definition init_comp (a : fconf) (g p : Z) (rnd : list Z) : list Z :=
  sseq_option (key_init a) (hmac_option (key_init a)
    (if a_static a then option_append KEYING_OPTION_EXTRA_RANDOMNESS rnd (option_append_vlu KEYING_OPTION_DH_GROUP_SELECT g []) else option_append KEYING_OPTION_DH_PUBLIC_KEY (vlu_append g [] ++ dh_pub g p) [])).
Definition resp_items (a : fconf) (k : fkey) (g q : Z) (rnd : list Z) : list item :=
  [Some (30, [nego_flags (k_ssend k) true (k_srecv k)]); Some (26, vlu_append (k_txlen k) [nego_flags (k_hsend k) true (k_hrecv k)])]
  ++ [if a_static a then Some (14, rnd) else Some (13, vlu_encode g ++ dh_pub g q)].
Definition resp_comp (a : fconf) (k : fkey) (g q : Z) (rnd : list Z) : list Z :=
  let sknc := hmac_option k (sseq_option k []) in
  if a_static a then option_append KEYING_OPTION_EXTRA_RANDOMNESS rnd sknc else option_append KEYING_OPTION_DH_PUBLIC_KEY (vlu_append g [] ++ dh_pub g q) sknc.

Definition wire_ok (is : list item) (l : list Z) (n : Z) : Prop := items_wire is l /\ bytes_ok l /\ zlen l <= n.
Lemma wire_step : forall is l ty v n, wire_ok is l n -> 0 <= ty <= 100 -> bytes_ok v -> zlen v <= 70000 -> wire_ok (is ++ [Some (ty, v)]) (option_append ty v l) (n + 100000).
Proof.
  intros is l ty v n (X & B & L) T V LV. assert (O : option_ok (ty, v)) by (unfold option_ok, is_u64, U64MAX; cbn; auto 6 with zarith). destruct (items_option is l ty v X O) as (X' & L').
  split; [exact X'|]. split; [apply option_bytes; auto|lia].
Qed.
Lemma encode_len : forall v, is_u64 v -> zlen (vlu_encode v) <= 10.
Proof. intros v V. pose proof (vlu_encode_spec v V) as (_ & _ & L & _). unfold zlen. lia. Qed.
Lemma flags_byte : forall a b c, is_byte (nego_flags a b c).
Proof. intros [|] [|] [|]; unfold is_byte; cbn; lia. Qed.
Lemma flag_value : forall len a b c, is_u64 len -> bytes_ok (vlu_append len [nego_flags a b c]) /\ zlen (vlu_append len [nego_flags a b c]) <= 11.
Proof.
  intros len a b c L. unfold vlu_append. pose proof (encode_len len L). split; [|rewrite zlen_app; unfold zlen in *; cbn [length]; lia]. apply bytes_ok_app. split; [repeat constructor; apply flags_byte|apply vlu_encode_bytes; exact L].
Qed.
Lemma group_u64 : forall g, 0 <= g <= INT_MAX -> is_u64 g.
Proof. intros g. unfold INT_MAX, is_u64, U64MAX. lia. Qed.
Lemma key_value : forall g p, 0 <= g <= INT_MAX -> bytes_ok (vlu_encode g ++ dh_pub g p) /\ zlen (vlu_encode g ++ dh_pub g p) <= 70000.
Proof.
  intros g p G. apply group_u64 in G. pose proof (encode_len g G). destruct (pub_bytes g p) as (B & L). split; [apply bytes_ok_app; split; [apply vlu_encode_bytes; exact G|exact B]|rewrite zlen_app; lia].
Qed.
Lemma init_wire : forall a g p rnd, conf_ok a -> 0 <= g <= INT_MAX -> bytes_ok rnd -> zlen rnd <= 65536 -> wire_ok (init_items a g p rnd) (init_comp a g p rnd) 1000000.
Proof.
  intros a g p rnd (H & _) G B L. unfold init_items, init_comp, sseq_option, hmac_option. cbn [k_ssend k_srecv k_hsend k_hrecv k_txlen key_init].
  assert (U : is_u64 (a_hlen a)) by (unfold is_u64, U64MAX; lia). destruct (flag_value (a_hlen a) (a_hsend a) true (a_hrecv a) U) as (F1 & F2).
  assert (W : exists n, wire_ok (if a_static a then [Some (29, vlu_encode g); Some (14, rnd)] else [Some (13, vlu_encode g ++ dh_pub g p)])
    (if a_static a then option_append KEYING_OPTION_EXTRA_RANDOMNESS rnd (option_append_vlu KEYING_OPTION_DH_GROUP_SELECT g []) else option_append KEYING_OPTION_DH_PUBLIC_KEY (vlu_append g [] ++ dh_pub g p) []) n /\ n <= 200000).
  { assert (W0 : wire_ok [] [] 0) by (split; [constructor|split; [constructor|cbn; lia]]). pose proof (encode_len g (group_u64 g G)). destruct (a_static a).
    - eexists. split; [|shelve]. unfold option_append_vlu. apply (wire_step [Some (29, vlu_encode g)] _ 14 rnd); [|lia|exact B|lia]. apply (wire_step [] [] 29); [exact W0|lia|apply vlu_encode_bytes, group_u64, G|lia].
    - eexists. split; [|shelve]. destruct (key_value g p G). apply (wire_step [] [] 13); [exact W0|lia|assumption|assumption].
    Unshelve. all: lia. }
  destruct W as (n & W & N). pose proof (wire_step _ _ 26 _ n W ltac:(lia) F1 ltac:(lia)) as W1.
  assert (FB : bytes_ok [nego_flags (a_ssend a) true (a_srecv a)]) by (repeat constructor; apply flags_byte).
  pose proof (wire_step _ _ 30 _ _ W1 ltac:(lia) FB ltac:(cbn; lia)) as (X2 & B2 & L2). rewrite <- app_assoc in X2. split; [exact X2|]. split; [exact B2|]. unfold KEYING_OPTION_HMAC_NEGOTIATION, KEYING_OPTION_SSEQ_NEGOTIATION. lia.
Qed.
Lemma resp_wire : forall a k g q rnd, 4 <= k_txlen k <= 32 -> 0 <= g <= INT_MAX -> bytes_ok rnd -> zlen rnd <= 65536 -> wire_ok (resp_items a k g q rnd) (resp_comp a k g q rnd) 1000000.
Proof.
  intros a k g q rnd H G B L. unfold resp_items, resp_comp, sseq_option, hmac_option.
  assert (U : is_u64 (k_txlen k)) by (unfold is_u64, U64MAX; lia). destruct (flag_value (k_txlen k) (k_hsend k) true (k_hrecv k) U) as (F1 & F2).
  assert (W0 : wire_ok [] [] 0) by (split; [constructor|split; [constructor|cbn; lia]]).
  assert (FB : bytes_ok [nego_flags (k_ssend k) true (k_srecv k)]) by (repeat constructor; apply flags_byte).
  pose proof (wire_step _ _ 30 _ _ W0 ltac:(lia) FB ltac:(cbn; lia)) as W1. pose proof (wire_step _ _ 26 _ _ W1 ltac:(lia) F1 ltac:(lia)) as W2.
  destruct (key_value g q G) as (K1 & K2). destruct (a_static a).
  - pose proof (wire_step _ _ 14 rnd _ W2 ltac:(lia) B ltac:(lia)) as (X & B3 & L3). split; [exact X|]. split; [exact B3|]. refine (Z.le_trans _ _ _ L3 _); lia.
  - pose proof (wire_step _ _ 13 _ _ W2 ltac:(lia) K1 ltac:(lia)) as (X & B3 & L3). split; [exact X|]. split; [exact B3|]. refine (Z.le_trans _ _ _ L3 _); lia.
Qed.

Definition init_key (a : fconf) (g : Z) (needed : bool) (dh : option Z) (secret comp : list Z) : fkey :=
  mkKey false (a_hsend a) (a_hrecv a) (a_ssend a) (a_srecv a) 0 [] g needed dh secret comp [] [] [] [] None (a_hlen a) None 0.
Definition early (ar : fconf) (g p : Z) : option (list Z) :=
  if a_static ar then match priv_of (a_privs ar) g with Some q => dh_sec g p (dh_pub g q) | None => None end else Some [].
Lemma common_some : forall ai ar g, conf_ok ai -> common ai ar = Some g -> In g (a_groups ai) /\ existsb (Z.eqb g) (a_groups ar) = true /\ 0 <= g <= INT_MAX.
Proof.
  intros ai ar g (_ & G & _) E. apply find_some in E as (I & E). split; [exact I|]. split; [exact E|]. rewrite Forall_forall in G. apply G, I.
Qed.
Lemma init_spec : forall ai ar cr fi ri, conf_ok ai -> conf_ok ar -> carries dh_pub ar cr ->
  match common ai ar with
  | None => exists k, gen_initiator ai cr fi ri (key_init ai) = Ok (k, None)
  | Some g =>
      match context ai fi g with
      | None => exists k, gen_initiator ai cr fi ri (key_init ai) = Ok (k, None)
      | Some p =>
          match early ar g p with
          | None => exists k, gen_initiator ai cr fi ri (key_init ai) = Ok (k, None)
          | Some s => gen_initiator ai cr fi ri (key_init ai)
                      = Ok (init_key ai g (negb (a_static ar)) (if a_static ar || a_static ai then None else Some p) s (init_comp ai g p ri), Some (init_comp ai g p ri))
          end
      end
  end.
Proof.
  intros ai ar cr fi ri CI CR X. unfold FlashKey.gen_initiator. rewrite (best_common ar cr CR X (a_groups ai)). fold (common ai ar). cbn [rbind]. destruct (common ai ar) as [g|] eqn:CM; [|cbn; eauto].
  destruct (common_some ai ar g CI CM) as (I & IR & G). destruct (Z.ltb_spec g 0); [lia|]. pose proof (carries_key ar cr g CR X) as CK.
  assert (FS : fc_static cr = a_static ar) by (destruct X as (is & _ & _ & _ & _ & S & _); exact S).
  unfold context, early. destruct (a_static ai) eqn:SI.
  - assert (P : exists p, priv_of (a_privs ai) g = Some p).
    { destruct CI as (_ & _ & P). pose proof (priv_groups (a_privs ai) g) as Q. rewrite (P SI) in Q. assert (E : existsb (Z.eqb g) (a_groups ai) = true) by (apply existsb_exists; exists g; split; [exact I|apply Z.eqb_refl]).
      rewrite E in Q. destruct (priv_of (a_privs ai) g); [eauto|discriminate]. }
    destruct P as (p & P). rewrite P. rewrite FS. destruct (a_static ar) eqn:SR; cbn [negb orb].
    + rewrite CK. cbn [rbind]. destruct (priv_of (a_privs ar) g) as [q|]; [|cbn; eauto]. cbn [k_dh with_group with_sknc key_init]. rewrite static_secret_priv, P. destruct (dh_sec g p (dh_pub g q)); cbn [rbind negb]; [|eauto].
      unfold init_comp. rewrite SI. reflexivity.
    + cbn [rbind negb]. unfold init_comp. rewrite SI. reflexivity.
  - destruct fi as [p|]; [|cbn; eauto]. rewrite FS. destruct (a_static ar) eqn:SR; cbn [negb orb].
    + rewrite CK. cbn [rbind]. destruct (priv_of (a_privs ar) g) as [q|]; [|cbn; eauto]. cbn [k_dh with_dh]. destruct (dh_sec g p (dh_pub g q)); cbn [rbind negb]; [|eauto].
      unfold init_comp. rewrite SI. reflexivity.
    + cbn [rbind negb]. unfold init_comp. rewrite SI. reflexivity.
Qed.

(** What both do at the end *)
Definition finish (k : fkey) (near far : list Z) : fkey := with_complete (with_dh (with_secret (compute_keys hmac k near far) []) None) true.
Lemma resp_spec : forall ai ar ci g p ri fr rr, conf_ok ai -> conf_ok ar -> carries dh_pub ai ci -> 0 <= g <= INT_MAX -> existsb (Z.eqb g) (a_groups ar) = true ->
  (a_static ai = true -> priv_of (a_privs ai) g = Some p) -> bytes_ok ri -> zlen ri <= 65536 ->
  let kn := negotiated (key_init ar) (key_init ai) in
  let ic := init_comp ai g p ri in
  match context ar fr g with
  | None => exists k, gen_responder ar ci ic fr rr (key_init ar) = Ok (k, None)
  | Some q =>
      match dh_sec g q (dh_pub g p) with
      | None => exists k, gen_responder ar ci ic fr rr (key_init ar) = Ok (k, None)
      | Some s => gen_responder ar ci ic fr rr (key_init ar) = Ok (finish (with_secret (with_group kn g) s) (resp_comp ar kn g q rr) ic, Some (resp_comp ar kn g q rr))
      end
  end.
Proof.
  intros ai ar ci g p ri fr rr CI CR X G GR PI B L kn ic. pose proof (init_wire ai g p ri CI G B L) as (W & WB & WL). fold ic in W, WB, WL. pose proof (carries_key ai ci g CI X) as CK.
  assert (FS : fc_static ci = a_static ai) by (destruct X as (is & _ & _ & _ & _ & S & _); exact S). assert (ZL : zlen ic <= U64MAX) by (unfold U64MAX; lia).
  assert (NG : negotiate_all (key_init ar) ic = Ok (kn, true)).
  { destruct CI as (H & _). unfold kn, init_items in *. destruct (a_static ai).
    - eapply (negotiate_honest (key_init ar) (key_init ai) ic _ _ _ WB ZL W H); reflexivity.
    - eapply (negotiate_honest (key_init ar) (key_init ai) ic _ _ _ WB ZL W H); reflexivity. }
  unfold FlashKey.gen_responder. rewrite NG. cbn [rbind negb].
  match goal with |- context [rbind ?e] => assert (P : e = Ok (Some (g, dh_pub g p))) end.
  { rewrite FS. unfold init_items in W. destruct (a_static ai).
    - destruct (group_key_spec 29 ic _ ltac:(unfold U64MAX; lia) WB ZL W g [] [Some (14, ri); Some (26, vlu_append (a_hlen ai) [nego_flags (a_hsend ai) true (a_hrecv ai)]); Some (30, [nego_flags (a_ssend ai) true (a_srecv ai)])]) as (rest & E); [cbn; rewrite app_nil_r; reflexivity|exact G|constructor|].
      unfold KEYING_OPTION_DH_GROUP_SELECT. rewrite E. cbn [rbind]. rewrite CK, (PI eq_refl). reflexivity.
    - edestruct (group_key_spec 13 ic _ ltac:(unfold U64MAX; lia) WB ZL W g (dh_pub g p)) as (rest & E); [reflexivity|exact G|apply pub_bytes|]. unfold KEYING_OPTION_DH_PUBLIC_KEY. rewrite E. reflexivity. }
  rewrite P. cbn [rbind]. unfold supports_group. rewrite GR. cbn [negb]. unfold context. destruct (a_static ar) eqn:SR.
  - rewrite static_secret_priv. destruct (priv_of (a_privs ar) g) as [q|]; [|eauto]. destruct (dh_sec g q (dh_pub g p)); [|eauto]. unfold resp_comp. rewrite SR. reflexivity.
  - destruct fr as [q|]; [|eauto]. destruct (dh_sec g q (dh_pub g p)); [|eauto]. unfold resp_comp. rewrite SR. reflexivity.
Qed.

Lemma combine_spec : forall ai ar g p q s rr fi, conf_ok ai -> conf_ok ar -> 0 <= g <= INT_MAX -> bytes_ok rr -> zlen rr <= 65536 -> context ai fi g = Some p -> early ar g p = Some s -> (a_static ar = true -> priv_of (a_privs ar) g = Some q) ->
  let kn := negotiated (key_init ar) (key_init ai) in
  let rc := resp_comp ar kn g q rr in
  forall ic, let ki := init_key ai g (negb (a_static ar)) (if a_static ar || a_static ai then None else Some p) s ic in
  match dh_sec g p (dh_pub g q) with
  | None => exists k, combine ai rc ki = Ok (k, false)
  | Some s => exists dh ki', combine ai rc ki = Ok (finish ki' ic rc, true) /\ ki' = with_dh (with_secret (negotiated ki kn) s) dh
  end.
Proof.
  intros ai ar g p q s rr fi CI CR G B L CX EA PR kn rc ic ki.
  assert (HT : 4 <= k_txlen kn <= 32). { destruct CR as (H & _). unfold kn, negotiated. destruct (k_hrecv _); exact H. }
  pose proof (resp_wire ar kn g q rr HT G B L) as (W & WB & WL). fold rc in W, WB, WL. assert (ZL : zlen rc <= U64MAX) by (unfold U64MAX; lia).
  assert (NG : negotiate_all ki rc = Ok (negotiated ki kn, true)).
  { unfold resp_items in W. destruct (a_static ar); eapply (negotiate_honest ki kn rc _ _ _ WB ZL W HT); reflexivity. }
  assert (NK : k_needed (negotiated ki kn) = negb (a_static ar) /\ k_dh (negotiated ki kn) = (if a_static ar || a_static ai then None else Some p) /\ k_group (negotiated ki kn) = g /\ k_sknc (negotiated ki kn) = ic /\ k_secret (negotiated ki kn) = s).
  { unfold negotiated. match goal with |- context [if ?b then with_rxlen _ _ else _] => destruct b end; cbn; auto. }
  destruct NK as (N1 & N2 & N3 & N4 & N5). unfold FlashKey.combine. rewrite NG. cbn [rbind negb]. rewrite N1. unfold early in EA. destruct (a_static ar) eqn:SR; cbn [negb orb rbind] in *.
  - rewrite (PR eq_refl) in EA. rewrite EA. exists (k_dh (negotiated ki kn)), (negotiated ki kn). rewrite N4. split; [reflexivity|]. rewrite <- N5. destruct (negotiated ki kn); reflexivity.
  - cbn [k_group with_secret]. rewrite N3. unfold group_search, KEYING_OPTION_DH_PUBLIC_KEY. unfold resp_items in W. rewrite SR in W.
    rewrite (group_spec 13 g ltac:(unfold U64MAX; lia) _ _ _ WB ZL (Nat.lt_succ_diag_r _) W) by (repeat constructor; discriminate). cbn [values app Z.eqb Pos.eqb group_vals].
    destruct (pub_bytes g q) as (PB & _). rewrite vlu_roundtrip by (auto using group_u64). rewrite Z.gtb_ltb. destruct (Z.ltb_spec INT_MAX g); [lia|]. rewrite Z.eqb_refl, skipn_app_exact. cbn [rbind k_dh with_secret]. rewrite N2.
    unfold context in CX. destruct (a_static ai).
    + rewrite static_secret_priv, CX. destruct (dh_sec g p (dh_pub g q)); cbn [rbind negb]; [|eauto]. exists (k_dh (negotiated ki kn)), (with_secret (negotiated ki kn) l). cbn [k_sknc with_secret]. rewrite N4. split; [reflexivity|]. destruct (negotiated ki kn); reflexivity.
    + destruct (dh_sec g p (dh_pub g q)); cbn [rbind negb]; [|eauto]. exists (k_dh (negotiated ki kn)), (with_secret (negotiated ki kn) l). cbn [k_sknc with_secret]. rewrite N4. split; [reflexivity|]. destruct (negotiated ki kn); reflexivity.
Qed.
Hypothesis same_secret : forall g p q x y, dh_sec g p (dh_pub g q) = Some x -> dh_sec g q (dh_pub g p) = Some y -> x = y.
Lemma negotiated_fields : forall k far, let n := negotiated k far in
  k_ssend n = k_ssend k || k_srecv far /\ k_srecv n = k_srecv k || k_ssend far /\ k_hsend n = k_hsend k || k_hrecv far /\ k_hrecv n = k_hrecv k || k_hsend far
  /\ k_txlen n = k_txlen k /\ k_rxlen n = (if k_hrecv k || k_hsend far then k_txlen far else k_rxlen k) /\ k_txseq n = k_txseq k /\ k_rxseqs n = k_rxseqs k.
Proof. intros k far. unfold negotiated. cbn [k_hrecv k_hsend with_hmac with_sseq]. destruct (k_hrecv k || k_hsend far); cbn; auto 12. Qed.
Lemma ends_agree : forall ai ar g s ic rc dh needed dh0 s0, 4 <= a_hlen ai <= 32 -> 4 <= a_hlen ar <= 32 ->
  let kn := negotiated (key_init ar) (key_init ai) in
  let kr := finish (with_secret (with_group kn g) s) rc ic in
  let ki := finish (with_dh (with_secret (negotiated (init_key ai g needed dh0 s0 ic) kn) s) dh) ic rc in
  agree ki kr /\ usable ki /\ usable kr
  /\ d_hmac (sends ki) = used (a_hsend ai) (a_hrecv ar) /\ d_hmac (sends kr) = used (a_hsend ar) (a_hrecv ai)
  /\ d_seq (sends ki) = used (a_ssend ai) (a_srecv ar) /\ d_seq (sends kr) = used (a_ssend ar) (a_srecv ai)
  /\ k_txseq ki = 0 /\ k_txseq kr = 0 /\ k_rxseqs ki = [] /\ k_rxseqs kr = [].
Proof.
  intros ai ar g s ic rc dh needed dh0 s0 LI LR kn kr ki.
  destruct (negotiated_fields (key_init ar) (key_init ai)) as (N1 & N2 & N3 & N4 & N5 & N6 & N7 & N8). fold kn in N1, N2, N3, N4, N5, N6, N7, N8.
  destruct (negotiated_fields (init_key ai g needed dh0 s0 ic) kn) as (I1 & I2 & I3 & I4 & I5 & I6 & I7 & I8).
  cbn [key_init init_key k_ssend k_srecv k_hsend k_hrecv k_txlen k_rxlen k_txseq k_rxseqs] in N1, N2, N3, N4, N5, N6, N7, N8, I1, I2, I3, I4, I5, I6, I7, I8.
  assert (RS : k_hsend kr = a_hsend ar || a_hrecv ai) by exact N3. assert (RR : k_hrecv kr = a_hrecv ar || a_hsend ai) by exact N4.
  assert (RQ : k_ssend kr = a_ssend ar || a_srecv ai) by exact N1. assert (RP : k_srecv kr = a_srecv ar || a_ssend ai) by exact N2.
  assert (RT : k_txlen kr = a_hlen ar) by exact N5. assert (RX : k_rxlen kr = if a_hrecv ar || a_hsend ai then a_hlen ai else 0) by exact N6.
  assert (IS : k_hsend ki = a_hsend ai || a_hrecv ar). { transitivity (a_hsend ai || k_hrecv kn); [exact I3|]. rewrite N4. destruct (a_hsend ai), (a_hrecv ar); reflexivity. }
  assert (IR : k_hrecv ki = a_hrecv ai || a_hsend ar). { transitivity (a_hrecv ai || k_hsend kn); [exact I4|]. rewrite N3. destruct (a_hsend ar), (a_hrecv ai); reflexivity. }
  assert (IQ : k_ssend ki = a_ssend ai || a_srecv ar). { transitivity (a_ssend ai || k_srecv kn); [exact I1|]. rewrite N2. destruct (a_ssend ai), (a_srecv ar); reflexivity. }
  assert (IP : k_srecv ki = a_srecv ai || a_ssend ar). { transitivity (a_srecv ai || k_ssend kn); [exact I2|]. rewrite N1. destruct (a_ssend ar), (a_srecv ai); reflexivity. }
  assert (IT : k_txlen ki = a_hlen ai) by exact I5.
  assert (IX : k_rxlen ki = if k_hrecv ki then a_hlen ar else 0). { transitivity (if a_hrecv ai || k_hsend kn then k_txlen kn else 0); [exact I6|]. rewrite N5, <- I4. reflexivity. }
  assert (XI : k_txmac ki = if k_hsend ki then Some (hmac s (hmac s (hmac rc ic))) else k_txmac (negotiated (init_key ai g needed dh0 s0 ic) kn)) by reflexivity.
  assert (XJ : k_rxmac ki = if k_hrecv ki then Some (hmac s (hmac s (hmac ic rc))) else k_rxmac (negotiated (init_key ai g needed dh0 s0 ic) kn)) by reflexivity.
  assert (XR : k_txmac kr = if k_hsend kr then Some (hmac s (hmac s (hmac ic rc))) else k_txmac kn) by reflexivity.
  assert (XS : k_rxmac kr = if k_hrecv kr then Some (hmac s (hmac s (hmac rc ic))) else k_rxmac kn) by reflexivity.
  assert (UI : usable ki). { intros _. rewrite XI, XJ, IT, IX. split; intros E; rewrite E; (split; [discriminate|lia]). }
  assert (UR : usable kr). { intros _. rewrite XR, XS, RT, RX. split; intros E; rewrite E; (split; [discriminate|]); [lia|]. rewrite RR in E. rewrite E. lia. }
  split; [|split; [exact UI|split; [exact UR|]]].
  - split; [reflexivity|]. split; [reflexivity|]. unfold sends, receives. rewrite IX, IT, XI, XJ, RX, RT, XR, XS, IS, IR, IQ, IP, RS, RR, RQ, RP. rewrite (orb_comm (a_hrecv ar)), (orb_comm (a_srecv ar)), (orb_comm (a_hrecv ai)), (orb_comm (a_srecv ai)).
    split; f_equal.
    + destruct (a_hsend ai || a_hrecv ar); reflexivity.
    + destruct (a_hsend ai || a_hrecv ar); reflexivity.
    + destruct (a_hsend ar || a_hrecv ai); reflexivity.
    + destruct (a_hsend ar || a_hrecv ai); reflexivity.
  - unfold sends, used. cbn [d_hmac d_seq]. rewrite IS, IQ, RS, RQ. split; [reflexivity|]. split; [reflexivity|]. split; [reflexivity|]. split; [reflexivity|]. split; [exact I7|]. split; [exact N7|]. split; [exact I8|exact N8].
Qed.
Lemma agree_spec : forall ai ar ci cr fi fr ri rr ki ic kr rc ki', conf_ok ai -> conf_ok ar -> carries dh_pub ai ci -> carries dh_pub ar cr -> bytes_ok ri -> zlen ri <= 65536 -> bytes_ok rr -> zlen rr <= 65536 ->
  gen_initiator ai cr fi ri (key_init ai) = Ok (ki, Some ic) -> gen_responder ar ci ic fr rr (key_init ar) = Ok (kr, Some rc) -> combine ai rc ki = Ok (ki', true) ->
  agree ki' kr /\ usable ki' /\ usable kr
  /\ d_hmac (sends ki') = used (a_hsend ai) (a_hrecv ar) /\ d_hmac (sends kr) = used (a_hsend ar) (a_hrecv ai)
  /\ d_seq (sends ki') = used (a_ssend ai) (a_srecv ar) /\ d_seq (sends kr) = used (a_ssend ar) (a_srecv ai)
  /\ k_txseq ki' = 0 /\ k_txseq kr = 0 /\ k_rxseqs ki' = [] /\ k_rxseqs kr = [].
Proof.
  intros ai ar ci cr fi fr ri rr ki ic kr rc ki' CI CR XI XR BI LI BR LR E1 E2 E3. pose proof (init_spec ai ar cr fi ri CI CR XR) as I.
  destruct (common ai ar) as [g|] eqn:CM; [|destruct I as (? & I); rewrite I in E1; discriminate]. destruct (common_some ai ar g CI CM) as (_ & GR & G).
  destruct (context ai fi g) as [p|] eqn:CX; [|destruct I as (? & I); rewrite I in E1; discriminate]. destruct (early ar g p) as [s|] eqn:EA; [|destruct I as (? & I); rewrite I in E1; discriminate].
  rewrite I in E1. apply Ok_inj in E1. injection E1 as <- <-. clear I.
  assert (PI : a_static ai = true -> priv_of (a_privs ai) g = Some p) by (intros SI; unfold context in CX; rewrite SI in CX; exact CX).
  pose proof (resp_spec ai ar ci g p ri fr rr CI CR XI G GR PI BI LI) as R. cbv zeta in R.
  destruct (context ar fr g) as [q|] eqn:CQ; [|destruct R as (? & R); rewrite R in E2; discriminate]. destruct (dh_sec g q (dh_pub g p)) as [s2|] eqn:S2; [|destruct R as (? & R); rewrite R in E2; discriminate].
  rewrite R in E2. apply Ok_inj in E2. injection E2 as <- <-. clear R.
  assert (PR : a_static ar = true -> priv_of (a_privs ar) g = Some q) by (intros SR; unfold context in CQ; rewrite SR in CQ; exact CQ).
  pose proof (combine_spec ai ar g p q s rr fi CI CR G BR LR CX EA PR (init_comp ai g p ri)) as C. cbv zeta in C. destruct (dh_sec g p (dh_pub g q)) as [s3|] eqn:S3; [|destruct C as (? & C); rewrite C in E3; discriminate].
  pose proof (same_secret _ _ _ _ _ S3 S2) as <-. destruct C as (dh & k2 & C & ->). rewrite C in E3. apply Ok_inj in E3. injection E3 as <-. apply ends_agree; [apply CI|apply CR].
Qed.
Lemma completes_spec : forall ai ar ci cr fi fr ri rr g p q s t, conf_ok ai -> conf_ok ar -> carries dh_pub ai ci -> carries dh_pub ar cr -> bytes_ok ri -> zlen ri <= 65536 -> bytes_ok rr -> zlen rr <= 65536 ->
  common ai ar = Some g -> context ai fi g = Some p -> context ar fr g = Some q -> dh_sec g p (dh_pub g q) = Some s -> dh_sec g q (dh_pub g p) = Some t ->
  exists ki ic kr rc ki', gen_initiator ai cr fi ri (key_init ai) = Ok (ki, Some ic) /\ gen_responder ar ci ic fr rr (key_init ar) = Ok (kr, Some rc) /\ combine ai rc ki = Ok (ki', true).
Proof.
  intros ai ar ci cr fi fr ri rr g p q s t CI CR XI XR BI LI BR LR CM CX CQ S3 S2. pose proof (init_spec ai ar cr fi ri CI CR XR) as I. rewrite CM, CX in I. destruct (common_some ai ar g CI CM) as (_ & GR & G).
  assert (PI : a_static ai = true -> priv_of (a_privs ai) g = Some p) by (intros SI; unfold context in CX; rewrite SI in CX; exact CX).
  assert (PR : a_static ar = true -> priv_of (a_privs ar) g = Some q) by (intros SR; unfold context in CQ; rewrite SR in CQ; exact CQ).
  assert (EA : exists s0, early ar g p = Some s0). { unfold early. destruct (a_static ar); [rewrite (PR eq_refl); eauto|eauto]. } destruct EA as (s0 & EA). rewrite EA in I.
  pose proof (resp_spec ai ar ci g p ri fr rr CI CR XI G GR PI BI LI) as R. cbv zeta in R. rewrite CQ, S2 in R.
  pose proof (combine_spec ai ar g p q s0 rr fi CI CR G BR LR CX EA PR (init_comp ai g p ri)) as C. cbv zeta in C. rewrite S3 in C. destruct C as (dh & k2 & C & _).
  eexists _, _, _, _, _. split; [exact I|]. split; [exact R|exact C].
Qed.
Lemma no_common_spec : forall ai ar cr fi ri, conf_ok ai -> conf_ok ar -> carries dh_pub ar cr -> common ai ar = None -> exists k, gen_initiator ai cr fi ri (key_init ai) = Ok (k, None).
Proof. intros ai ar cr fi ri CI CR X CM. pose proof (init_spec ai ar cr fi ri CI CR X) as I. rewrite CM in I. exact I. Qed.
Lemma agree_chans : forall i r, agree i r -> usable i -> usable r -> tx_chan i = rx_chan r /\ tx_chan r = rx_chan i.
Proof.
  assert (A : forall i r, k_complete i = true -> k_complete r = true -> sends i = receives r -> tx_chan i = rx_chan r).
  { intros i r CI CR E. unfold sends, receives in E. injection E as E1 E2 E3 E4 E5 _. unfold tx_chan, rx_chan. rewrite CI, CR, E3, E4. rewrite <- E1 in *. destruct (k_hsend i); [rewrite E2, E5; reflexivity|reflexivity]. }
  intros i r (CI & CR & E1 & E2) _ _. split; apply A; auto.
Qed.
End Agree.

(** An adapter's certificate, decoded by the peer, says what the adapter can do. *)
Lemma carries_own : forall dh_pub sha server eph host p rnd a, (forall h, host = Some h -> bytes_ok h /\ zlen h <= 2 ^ 61) -> bytes_ok (dh_pub 2 p) -> zlen (dh_pub 2 p) <= 65536 -> bytes_ok rnd -> zlen rnd <= 65536 ->
  a_groups a = [2] -> a_static a = negb eph -> (eph = false -> a_privs a = [(2, p)]) ->
  exists fc, cert_init sha (fa_cert (adapter_init sha server eph host (dh_pub 2 p) rnd)) = Ok fc /\ carries dh_pub a fc.
Proof.
  intros dh_pub sha server eph host p rnd a HH BP LP BR LR AG AS AP. destruct (cert_of_adapter sha server eph host (dh_pub 2 p) rnd HH BP BR ltac:(lia) ltac:(lia)) as (fc & E & ER & _ & ES & _). cbv zeta in *.
  destruct (adapter_cert sha server eph host (dh_pub 2 p) rnd HH BP BR ltac:(lia) ltac:(lia)) as (X & B & Z & _). exists fc. split; [exact E|]. exists (adapter_items server eph host (dh_pub 2 p) rnd). rewrite ER. split; [exact X|]. split; [exact B|]. split; [exact Z|].
  split; [unfold adapter_items; destruct host, server, eph; cbn; repeat (constructor; [discriminate|]); constructor|]. split; [rewrite ES, AS; reflexivity|]. rewrite AS, AG. destruct eph; cbn [negb].
  - unfold adapter_items. destruct host, server; reflexivity.
  - rewrite (AP eq_refl). unfold adapter_items. destruct host, server; reflexivity.
Qed.
