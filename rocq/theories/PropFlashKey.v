(** C32, C33 and C34: session keys. *)
From Verif Require Import Base BaseFacts VLU VLUSpec IndexSet Checksums FlashCert FlashCertSpec FlashCertProofs FlashKey FlashKeySpec FlashKeyProofs FlashKeyHS FlashKeyAgree.
From Coq Require Import Lia.
Open Scope res_scope.
Ltac Zify.zify_post_hook ::= Z.div_mod_to_equations.

(** Small functions meeting what is asked of the cryptographic ones, for the examples. *)
Definition toy_hash (l : list Z) : Z := fold_left (fun a b => (a * 31 + b + 1) mod 65521) l 7.
Definition toy_enc (key l : list Z) : list Z := map (fun b => (b + toy_hash key) mod 256) l.
Definition toy_dec (key l : list Z) : list Z := map (fun b => (b - toy_hash key) mod 256) l.
Definition toy_hmac (key l : list Z) : list Z := map (fun i => toy_hash (Z.of_nat i :: key ++ 300 :: l) mod 256) (seq 0 32).
Definition toy_pub (g p : Z) : list Z := [p mod 256].
Definition toy_sec (g p : Z) (other : list Z) : option (list Z) := match other with [q] => Some [(p * q) mod 256] | _ => None end.
Example toy_ok : cipher_ok toy_enc toy_dec /\ mac_ok toy_hmac /\ dh_ok toy_pub toy_sec.
Proof.
  assert (M : forall (f : Z -> Z) l, bytes_ok (map (fun b => f b mod 256) l)).
  { intros f l. apply Forall_forall. intros x X. apply in_map_iff in X as (b & <- & _). unfold is_byte. apply Z.mod_pos_bound. lia. }
  split; [|split].
  - split; [intros; split; [apply map_length|apply (M (fun b => b + _))]|]. split; [intros; split; [apply map_length|apply (M (fun b => b - _))]|].
    intros key l B _. unfold toy_dec, toy_enc. rewrite map_map. rewrite <- (map_id l) at 2. apply map_ext_in. intros b I. unfold bytes_ok in B. rewrite Forall_forall in B. specialize (B b I). unfold is_byte in B. rewrite Zminus_mod_idemp_l. replace (b + toy_hash key - toy_hash key) with b by lia. apply Z.mod_small. lia.
  - intros key l. split; [reflexivity|]. apply Forall_forall. intros x X. apply in_map_iff in X as (b & <- & _). unfold is_byte. apply Z.mod_pos_bound. lia.
  - split; [intros; split; [repeat constructor; unfold is_byte; apply Z.mod_pos_bound; lia|cbn; lia]|]. intros g p q x y E1 E2. unfold toy_sec, toy_pub in *. injection E1 as <-. injection E2 as <-. rewrite !Zmult_mod_idemp_r, Z.mul_comm. reflexivity.
Qed.

(** C32.  When an initiator and a responder have exchanged their keying components, each knowing the other's certificate,
    they agree: on the keys, on the nonces, on whether packets carry HMACs and of which length, and on whether they are
    numbered, in both directions; and a feature is in use in a direction exactly if its sender always sends it or its
    receiver requires it.  For all configurations, static and ephemeral certificates, contexts and random bytes. *)
Theorem C32_agree : forall hmac dh_pub dh_sec, dh_ok dh_pub dh_sec -> forall ai ar ci cr fi fr ri rr ki ic kr rc ki',
  conf_ok ai -> conf_ok ar -> carries dh_pub ai ci -> carries dh_pub ar cr -> bytes_ok ri -> zlen ri <= 65536 -> bytes_ok rr -> zlen rr <= 65536 ->
  gen_initiator dh_pub dh_sec ai cr fi ri (key_init ai) = Ok (ki, Some ic) -> gen_responder hmac dh_pub dh_sec ar ci ic fr rr (key_init ar) = Ok (kr, Some rc) ->
  combine hmac dh_sec ai rc ki = Ok (ki', true) ->
  agree ki' kr /\ usable ki' /\ usable kr
  /\ d_hmac (sends ki') = used (a_hsend ai) (a_hrecv ar) /\ d_hmac (sends kr) = used (a_hsend ar) (a_hrecv ai)
  /\ d_seq (sends ki') = used (a_ssend ai) (a_srecv ar) /\ d_seq (sends kr) = used (a_ssend ar) (a_srecv ai)
  /\ k_txseq ki' = 0 /\ k_txseq kr = 0 /\ k_rxseqs ki' = [] /\ k_rxseqs kr = [].
Proof. intros hmac dh_pub dh_sec (P & S). exact (agree_spec hmac dh_pub dh_sec P S). Qed.
Print Assumptions C32_agree.
(** C32.  If they have a group in common, have their Diffie-Hellman contexts and the secrets can be computed, the exchange
    succeeds; if they have no group in common the initiator gives up. *)
Theorem C32_completes : forall hmac dh_pub dh_sec, dh_ok dh_pub dh_sec -> forall ai ar ci cr fi fr ri rr g p q s t,
  conf_ok ai -> conf_ok ar -> carries dh_pub ai ci -> carries dh_pub ar cr -> bytes_ok ri -> zlen ri <= 65536 -> bytes_ok rr -> zlen rr <= 65536 ->
  common ai ar = Some g -> context ai fi g = Some p -> context ar fr g = Some q -> dh_sec g p (dh_pub g q) = Some s -> dh_sec g q (dh_pub g p) = Some t ->
  exists ki ic kr rc ki', gen_initiator dh_pub dh_sec ai cr fi ri (key_init ai) = Ok (ki, Some ic)
  /\ gen_responder hmac dh_pub dh_sec ar ci ic fr rr (key_init ar) = Ok (kr, Some rc) /\ combine hmac dh_sec ai rc ki = Ok (ki', true).
Proof. intros hmac dh_pub dh_sec (P & S). exact (completes_spec hmac dh_pub dh_sec P). Qed.
Print Assumptions C32_completes.
Theorem C32_no_group : forall dh_pub dh_sec, dh_ok dh_pub dh_sec -> forall ai ar cr fi ri, conf_ok ai -> conf_ok ar -> carries dh_pub ar cr -> common ai ar = None ->
  exists k, gen_initiator dh_pub dh_sec ai cr fi ri (key_init ai) = Ok (k, None).
Proof. intros dh_pub dh_sec (P & _). exact (no_common_spec (fun _ l => l) dh_pub dh_sec P). Qed.
Print Assumptions C32_no_group.
(** C32.  The certificate an adapter makes, decoded by its peer, is one these theorems speak of. *)
Theorem C32_own_certificate : forall dh_pub sha server eph host p rnd a, (forall h, host = Some h -> bytes_ok h /\ zlen h <= 2 ^ 61) -> bytes_ok (dh_pub 2 p) -> zlen (dh_pub 2 p) <= 65536 -> bytes_ok rnd -> zlen rnd <= 65536 ->
  a_groups a = [2] -> a_static a = negb eph -> (eph = false -> a_privs a = [(2, p)]) ->
  exists fc, cert_init sha (fa_cert (adapter_init sha server eph host (dh_pub 2 p) rnd)) = Ok fc /\ carries dh_pub a fc.
Proof. exact carries_own. Qed.
Print Assumptions C32_own_certificate.
(** C32.  Whatever bytes a peer sends as its component and certificate, there is no undefined behaviour, and a success keeps
    what this end requires: HMACs of at least 4 bytes are checked and packet numbers expected wherever it was so configured. *)
Theorem C32_any_responder : forall hmac dh_pub dh_sec a c comp fresh rnd k, bytes_ok comp -> zlen comp <= U64MAX -> bytes_ok (fc_raw c) -> zlen (fc_raw c) <= U64MAX -> 4 <= k_txlen k <= 32 ->
  exists k' o, gen_responder hmac dh_pub dh_sec a c comp fresh rnd k = Ok (k', o)
  /\ (o <> None -> usable k' /\ k_complete k' = true /\ (k_hsend k = true -> k_hsend k' = true) /\ (k_hrecv k = true -> k_hrecv k' = true) /\ (k_ssend k = true -> k_ssend k' = true) /\ (k_srecv k = true -> k_srecv k' = true)
      /\ (k_hrecv k' = true -> 4 <= k_rxlen k' <= 32) /\ k_txseq k' = k_txseq k /\ k_rxseqs k' = k_rxseqs k).
Proof. exact responder_any. Qed.
Print Assumptions C32_any_responder.
Theorem C32_any_initiator : forall hmac dh_pub dh_sec a c fresh rnd k, bytes_ok (fc_raw c) -> zlen (fc_raw c) <= U64MAX -> 4 <= k_txlen k <= 32 ->
  exists k1 o, gen_initiator dh_pub dh_sec a c fresh rnd k = Ok (k1, o) /\ k_complete k1 = k_complete k
  /\ forall comp, bytes_ok comp -> zlen comp <= U64MAX -> exists k' ok, combine hmac dh_sec a comp k1 = Ok (k', ok)
  /\ (ok = true -> usable k' /\ k_complete k' = true /\ (k_hrecv k = true -> k_hrecv k' = true /\ 4 <= k_rxlen k' <= 32) /\ (k_srecv k = true -> k_srecv k' = true)).
Proof.
  intros hmac dh_pub dh_sec a c fresh rnd k B L T. destruct (initiator_any hmac dh_pub dh_sec a c fresh rnd k B L) as (k1 & o & E & C & HR & SR & TL). exists k1, o. split; [exact E|]. split; [exact C|].
  intros comp BC LC. rewrite <- TL in T. destruct (combine_any hmac dh_sec a comp k1 BC LC T) as (k' & ok & E' & K). exists k', ok. split; [exact E'|]. intros O. destruct (K O) as (K1 & K2 & K3 & K4 & K5 & K6 & K7 & _). rewrite HR in K4. rewrite SR in K6. auto 8.
Qed.
Print Assumptions C32_any_initiator.
(** C32.  An end that requires packet numbers or HMACs gives up on a peer whose component does not offer to send them, on
    either side of the handshake. *)
Theorem C32_unwilling : forall hmac dh_pub dh_sec a c comp is fresh rnd k, bytes_ok comp -> zlen comp <= U64MAX -> items_wire is comp ->
  (k_srecv k = true /\ ~ offers 30 is) \/ (k_hrecv k = true /\ ~ offers 26 is) ->
  (exists k', gen_responder hmac dh_pub dh_sec a c comp fresh rnd k = Ok (k', None)) /\ (exists k', combine hmac dh_sec a comp k = Ok (k', false)).
Proof.
  intros hmac dh_pub dh_sec a c comp is fresh rnd k B L X H. destruct (negotiate_unwilling k comp is B L X H) as (k' & E). unfold gen_responder, combine. rewrite E. split; eexists; reflexivity.
Qed.
Print Assumptions C32_unwilling.
Example C32_unwilling_example : items_wire [Some (26, [1; 16])] (option_append 26 [1; 16] []) /\ ~ offers 26 [Some (26, [1; 16])] /\ offers 26 [Some (26, [2; 16])].
Proof.
  split; [apply (items_option [] []); [constructor|]; repeat split; try (cbn; unfold is_u64, U64MAX; lia); apply bytes_okb_ok; reflexivity|]. split; [intros (f & r & E & T); cbn in E; injection E as <- <-; discriminate|]. exists 2, [16]. split; reflexivity.
Qed.

(** A server with a static key of group 2 and a client with ephemeral keys *)
Definition C32_i := mkConf false true false true 10 [14; 2] false [].
Definition C32_r := mkConf false false true true 16 [2; 5] true [(2, 77); (5, 3)].
Definition C32_ci := mkFC (option_append 21 [2] (option_append 21 [14] [])) false false false [].
Definition C32_cr := mkFC (option_append 29 (5 :: toy_pub 5 3) (option_append 29 (2 :: toy_pub 2 77) (option_append 10 [] []))) false true true [].
Example C32_agree_example : conf_ok C32_i /\ conf_ok C32_r /\ carries toy_pub C32_i C32_ci /\ carries toy_pub C32_r C32_cr /\ common C32_i C32_r = Some 2
  /\ match gen_initiator toy_pub toy_sec C32_i C32_cr (Some 33) [] (key_init C32_i) with
     | Ok (ki, Some ic) =>
         match gen_responder toy_hmac toy_pub toy_sec C32_r C32_ci ic None [9; 8; 7] (key_init C32_r) with
         | Ok (kr, Some rc) => match combine toy_hmac toy_sec C32_i rc ki with Ok (ki', true) => k_hsend ki' = false /\ k_hsend kr = true /\ k_rxlen ki' = 16 /\ k_ssend ki' = true /\ k_tx ki' = k_rx kr /\ k_tx kr <> k_tx ki' | _ => False end
         | _ => False
         end
     | _ => False
     end.
Proof.
  assert (G : forall l, forallb (fun g => (0 <=? g) && (g <=? 2147483647)) l = true -> Forall (fun g => 0 <= g <= 2147483647) l).
  { intros l F. apply Forall_forall. intros x I. apply forallb_forall with (x := x) in F; [lia|exact I]. }
  split; [split; [cbn; lia|]; split; [apply G; reflexivity|discriminate]|]. split; [split; [cbn; lia|]; split; [apply G; reflexivity|reflexivity]|].
  assert (O : forall ty v, forallb option_okb [(ty, v)] = true -> option_ok (ty, v)) by (intros ty v F; apply VLUProofs.option_okb_ok in F; inversion F; assumption).
  split.
  { exists [Some (21, [14]); Some (21, [2])]. split; [apply (items_option [Some (21, [14])]); [apply (items_option [] []); [constructor|]|]; apply O; reflexivity|]. split; [apply bytes_okb_ok; reflexivity|]. split; [vm_compute; discriminate|]. split; [repeat constructor; discriminate|]. split; reflexivity. }
  split.
  { exists [Some (10, []); Some (29, 2 :: toy_pub 2 77); Some (29, 5 :: toy_pub 5 3)]. split; [apply (items_option [Some (10, []); Some (29, 2 :: toy_pub 2 77)]); [apply (items_option [Some (10, [])]); [apply (items_option [] []); [constructor|]|]|]; apply O; reflexivity|]. split; [apply bytes_okb_ok; reflexivity|]. split; [vm_compute; discriminate|]. split; [repeat constructor; discriminate|]. split; reflexivity. }
  split; [reflexivity|]. vm_compute. repeat split; congruence.
Qed.
(** Own certificates: a static server with a name. *)
Example C32_own_example : exists fc, cert_init (toy_hmac []) (fa_cert (adapter_init (toy_hmac []) true false (Some [97; 46; 98]) (toy_pub 2 77) [])) = Ok fc /\ carries toy_pub (mkConf false true true false 12 [2] true [(2, 77)]) fc.
Proof.
  apply (C32_own_certificate toy_pub (toy_hmac []) true false (Some [97; 46; 98]) 77 []).
  - intros h E. injection E as <-. split; [apply bytes_okb_ok; reflexivity|unfold zlen; cbn [length]; lia].
  - apply bytes_okb_ok. reflexivity.
  - unfold zlen. cbn [length toy_pub]. lia.
  - constructor.
  - unfold zlen. cbn [length]. lia.
  - reflexivity.
  - reflexivity.
  - reflexivity.
Qed.

(** C32 is refuted for a key used again after a failure: an initiator keeps what it negotiated with a component it then
    rejects.  Anybody can send such a component (signatures are not checked, FlashCryptoAdapter.cpp 1034-1038); the honest
    component that comes next is accepted, and the two ends disagree. *)
Theorem C32_retry_refuted : exists ai ar ci cr fi fr rr forged ki ic kr rc k1 k2, conf_ok ai /\ conf_ok ar /\ carries toy_pub ai ci /\ carries toy_pub ar cr
  /\ gen_initiator toy_pub toy_sec ai cr fi [] (key_init ai) = Ok (ki, Some ic) /\ gen_responder toy_hmac toy_pub toy_sec ar ci ic fr rr (key_init ar) = Ok (kr, Some rc)
  /\ combine toy_hmac toy_sec ai forged ki = Ok (k1, false) /\ combine toy_hmac toy_sec ai rc k1 = Ok (k2, true)
  /\ k_ssend k2 = true /\ k_srecv kr = false /\ ~ agree k2 kr.
Proof.
  set (a := mkConf false false false false 10 [2] false []). set (c := mkFC (option_append 21 [2] []) false false false []).
  assert (A : conf_ok a) by (split; [cbn; lia|]; split; [repeat constructor; cbn; lia|discriminate]).
  assert (C : carries toy_pub a c).
  { exists [Some (21, [2])]. split; [apply (items_option [] []); [constructor|]; repeat split; try (cbn; unfold is_u64, U64MAX; lia); apply bytes_okb_ok; reflexivity|]. split; [apply bytes_okb_ok; reflexivity|]. split; [vm_compute; discriminate|]. split; [repeat constructor; discriminate|]. split; reflexivity. }
  exists a, a, c, c, (Some 5), (Some 6), [], (option_append 30 [5] []). eexists _, _, _, _, _, _. split; [exact A|]. split; [exact A|]. split; [exact C|]. split; [exact C|].
  split; [vm_compute; reflexivity|]. split; [vm_compute; reflexivity|]. split; [vm_compute; reflexivity|]. split; [vm_compute; reflexivity|]. split; [reflexivity|]. split; [reflexivity|]. intros (_ & _ & E & _). vm_compute in E. discriminate.
Qed.
Print Assumptions C32_retry_refuted.
(** C32 is refuted for a component combined twice: with a static responder the secret is computed once and erased by the
    first success, so that a second one (a duplicated RIKeying) makes keys out of public bytes only. *)
Theorem C32_twice_refuted : exists ai ar ci cr fi fr ri rr ki ic kr rc k1 k2, conf_ok ai /\ conf_ok ar /\ carries toy_pub ai ci /\ carries toy_pub ar cr
  /\ gen_initiator toy_pub toy_sec ai cr fi ri (key_init ai) = Ok (ki, Some ic) /\ gen_responder toy_hmac toy_pub toy_sec ar ci ic fr rr (key_init ar) = Ok (kr, Some rc)
  /\ combine toy_hmac toy_sec ai rc ki = Ok (k1, true) /\ combine toy_hmac toy_sec ai rc k1 = Ok (k2, true)
  /\ k_tx k2 = firstn 16 (toy_hmac [] (toy_hmac rc ic)) /\ ~ agree k2 kr.
Proof.
  destruct C32_agree_example as (A & B & C & D & _). exists C32_i, C32_r, C32_ci, C32_cr, (Some 33), None, [], [9; 8; 7]. eexists _, _, _, _, _, _. split; [exact A|]. split; [exact B|]. split; [exact C|]. split; [exact D|].
  split; [vm_compute; reflexivity|]. split; [vm_compute; reflexivity|]. split; [vm_compute; reflexivity|]. split; [vm_compute; reflexivity|]. split; [vm_compute; reflexivity|]. intros (_ & _ & E & _). vm_compute in E. discriminate.
Qed.
Print Assumptions C32_twice_refuted.

(** C33.  Decryption accepts exactly the genuine packets of the receiving direction, except those whose number was accepted
    before or is too far behind, and answers exactly what they contain; it never fails otherwise.  A tag, a checksum or a
    length that does not fit makes the packet not genuine. *)
Theorem C33_decrypt : forall aes_enc aes_dec hmac, cipher_ok aes_enc aes_dec -> mac_ok hmac -> forall k cap src, usable k -> bytes_ok src -> zlen src <= cap ->
  (exists n hd body, genuine aes_dec hmac (rx_chan k) src n hd body /\ (c_seq (rx_chan k) = true -> is_contains (k_rxseqs k) n = false)
     /\ exists k', decrypt aes_dec hmac k cap src = Ok (k', Some (hd ++ body, length hd)) /\ rx_chan k' = rx_chan k)
  \/ (decrypt aes_dec hmac k cap src = Ok (k, None) /\ forall n hd body, genuine aes_dec hmac (rx_chan k) src n hd body -> c_seq (rx_chan k) = true /\ is_contains (k_rxseqs k) n = true).
Proof.
  intros aes_enc aes_dec hmac (_ & D & _) M k cap src U B L. destruct (decrypt_spec aes_enc aes_dec hmac (fun key l => proj1 (D key l)) (fun key l => proj2 (D key l)) (fun key l => proj1 (M key l)) k cap src U B L) as [(n & hd & body & G & S & E)|(E & F)].
  - left. exists n, hd, body. split; [exact G|]. split; [|eexists; split; [exact E|apply noted_chan]]. unfold stale in S. intros C. rewrite C in S. exact S.
  - right. split; [exact E|]. intros n hd body G. specialize (F n hd body G). unfold stale in F. apply andb_prop in F. exact F.
Qed.
Print Assumptions C33_decrypt.
(** C33.  A packet opens in one way only. *)
Theorem C33_unique : forall aes_enc aes_dec hmac, cipher_ok aes_enc aes_dec -> mac_ok hmac -> forall ch src n hd body n' hd' body', (forall mk len, c_mac ch = Some (mk, len) -> (len <= 32)%nat) ->
  genuine aes_dec hmac ch src n hd body -> genuine aes_dec hmac ch src n' hd' body' -> n = n' /\ hd = hd' /\ body = body'.
Proof. intros aes_enc aes_dec hmac (_ & D & _) M. exact (genuine_unique aes_enc aes_dec hmac (fun key l => proj1 (D key l)) (fun key l => proj2 (D key l)) (fun key l => proj1 (M key l))). Qed.
Print Assumptions C33_unique.
(** C33.  Encryption of any packet assembled behind the margin asked for makes a genuine packet of the sending direction,
    with the next number, which contains what was assembled and less than 16 bytes of padding. *)
Theorem C33_encrypt : forall aes_enc aes_dec hmac, cipher_ok aes_enc aes_dec -> mac_ok hmac -> forall k cap src, usable k -> is_u64 (k_txseq k) -> bytes_ok src -> src <> [] -> (front_margin k <= length src)%nat -> zlen src + 47 <= cap ->
  exists k' out hd pad, encrypt aes_enc hmac k cap src (front_margin k) = Ok (k', Some out) /\ (pad < 16)%nat
  /\ genuine aes_dec hmac (tx_chan k) out (if c_seq (tx_chan k) then k_txseq k else 0) hd (skipn (front_margin k) src ++ repeat 255 pad) /\ length hd = front_margin k
  /\ bytes_ok out /\ zlen out <= cap /\ tx_chan k' = tx_chan k /\ k_txseq k' = (if c_seq (tx_chan k) then wrap64 (k_txseq k + 1) else k_txseq k).
Proof.
  intros aes_enc aes_dec hmac (E & D & I) M k cap src U T B N F L. pose proof (padding_small (length src)).
  destruct (encrypt_spec aes_enc aes_dec hmac (fun key l => proj1 (D key l)) (fun key l => proj2 (D key l)) (fun key l => proj1 (M key l)) I (fun key l => proj1 (E key l)) (fun key l => proj2 (E key l)) (fun key l => proj2 (M key l)) k cap src U T B N F ltac:(lia)) as (out & hd & E1 & G & LH & BO & LO).
  exists (advanced k), out, hd, (padding (length src)). split; [exact E1|]. split; [assumption|]. rewrite <- tx_number_chan. split; [exact G|]. split; [exact LH|]. split; [exact BO|]. split; [lia|]. split; [apply advanced_chan|]. unfold advanced, tx_chan. destruct (k_complete k); [cbn; destruct (k_ssend k); reflexivity|reflexivity].
Qed.
Print Assumptions C33_encrypt.
(** C33.  Over a network that loses, duplicates and reorders packets, the receiver gets exactly the contents that were sent
    (and their padding), each for a packet sent; a packet is refused only because of its number. *)
Theorem C33_channel : forall aes_enc aes_dec hmac, cipher_ok aes_enc aes_dec -> mac_ok hmac -> forall cap bodies ks kr js, usable ks -> usable kr -> tx_chan ks = rx_chan kr -> 0 <= k_txseq ks -> k_txseq ks + zlen bodies <= U64MAX -> k_rxseqs kr = [] ->
  Forall (fun b => bytes_ok b /\ b <> [] /\ zlen b + 59 <= cap) bodies -> Forall (fun j => (j < length bodies)%nat) js ->
  exists ks' outs kr' answers, transmit aes_enc hmac ks cap bodies = Ok (ks', outs) /\ length outs = length bodies
  /\ receive aes_dec hmac kr cap (map (fun j => nth j outs []) js) = Ok (kr', answers)
  /\ Forall2 (fun jv a => if snd jv : bool then exists p, (p < 16)%nat /\ a = Some (nth (fst jv) bodies [] ++ repeat 255 p) else a = None)
       (List.combine js (if c_seq (rx_chan kr) then verdicts [] (map (fun j => Some (k_txseq ks + Z.of_nat j)) js) else repeat true (length js))) answers.
Proof.
  intros aes_enc aes_dec hmac (E & D & I) M.
  exact (channel_spec aes_enc aes_dec hmac (fun key l => proj1 (D key l)) (fun key l => proj2 (D key l)) (fun key l => proj1 (M key l)) I (fun key l => proj1 (E key l)) (fun key l => proj2 (E key l)) (fun key l => proj2 (M key l))).
Qed.
Print Assumptions C33_channel.
(** C32 and C33 together: after a handshake each end can read what the other sends, in both directions. *)
Theorem C33_session : forall i r, agree i r -> usable i -> usable r -> tx_chan i = rx_chan r /\ tx_chan r = rx_chan i.
Proof. exact agree_chans. Qed.
Print Assumptions C33_session.
Definition C33_run :=
  match gen_initiator toy_pub toy_sec C32_i C32_cr (Some 33) [] (key_init C32_i) with
  | Ok (ki, Some ic) =>
      match gen_responder toy_hmac toy_pub toy_sec C32_r C32_ci ic None [9; 8; 7] (key_init C32_r) with
      | Ok (kr, Some rc) =>
          match combine toy_hmac toy_sec C32_i rc ki with
          | Ok (ki', true) =>
              match transmit toy_enc toy_hmac kr 100 [[1; 2; 3]; [4]; repeat 7 20] with
              | Ok (_, outs) => match receive toy_dec toy_hmac ki' 100 [nth 2 outs []; nth 0 outs []; nth 0 outs []; map (fun b => (b + 1) mod 256) (nth 1 outs []); nth 1 outs []] with Ok (_, l) => Some l | _ => None end
              | _ => None
              end
          | _ => None
          end
      | _ => None
      end
  | _ => None
  end.
Example C33_channel_example : C33_run = Some [Some (repeat 7 20 ++ repeat 255 11); Some ([1; 2; 3] ++ repeat 255 12); None; None; Some (4 :: repeat 255 14)].
Proof. vm_compute. reflexivity. Qed.
(** C33 without encryption: PlainCryptoKey's exchange and packets. *)
Theorem C33_plain : forall ks kr cap cap' src margin, p_complete ks = p_complete kr -> p_tx ks = p_rx kr -> is_u16 (p_tx ks) ->
  (margin <= length src)%nat -> zlen src - Z.of_nat margin + 18 <= cap -> zlen src - Z.of_nat margin + 32 <= cap' ->
  exists out, plain_encrypt ks cap src margin = Some out /\ plain_decrypt kr cap' out = Some (repeat 0 16 ++ skipn margin src ++ repeat 255 16, plain_margin).
Proof. exact plain_roundtrip. Qed.
Print Assumptions C33_plain.
Theorem C33_plain_handshake : forall ki kr, is_u16 (p_rx ki) -> is_u16 (p_rx kr) ->
  exists kr' ki', plain_combine kr (plain_component ki) = Some kr' /\ plain_combine ki (plain_component kr) = Some ki'
  /\ p_complete ki' = true /\ p_complete kr' = true /\ p_tx ki' = p_rx kr' /\ p_tx kr' = p_rx ki' /\ is_u16 (p_tx ki') /\ is_u16 (p_tx kr')
  /\ plain_component ki' = plain_far_nonce kr' /\ plain_component kr' = plain_far_nonce ki'.
Proof. exact plain_handshake. Qed.
Print Assumptions C33_plain_handshake.
Example C33_plain_example : match plain_encrypt (mkPlain 513 7 true) 100 (repeat 0 16 ++ [1; 2; 3]) 16 with
  | Some out => plain_decrypt (mkPlain 9 513 true) 100 out = Some (repeat 0 16 ++ [1; 2; 3] ++ repeat 255 16, 16%nat) /\ plain_decrypt (mkPlain 9 514 true) 100 out = None | None => False end.
Proof. vm_compute. auto. Qed.
(** C33 is refuted for a key that combines after it is complete: a forged component with a bad HMAC length turns HMACs on
    without making their key, and the next packet sent goes through a null pointer. *)
Theorem C33_null_refuted : exists ai ar ci cr fi fr ki ic kr rc forged k1 k2, conf_ok ai /\ conf_ok ar
  /\ gen_initiator toy_pub toy_sec ai cr fi [] (key_init ai) = Ok (ki, Some ic) /\ gen_responder toy_hmac toy_pub toy_sec ar ci ic fr [] (key_init ar) = Ok (kr, Some rc)
  /\ combine toy_hmac toy_sec ai rc ki = Ok (k1, true) /\ usable k1
  /\ combine toy_hmac toy_sec ai forged k1 = Ok (k2, false) /\ ~ usable k2 /\ encrypt toy_enc toy_hmac k2 100 (repeat 0 5) (front_margin k2) = UB.
Proof.
  set (a := mkConf false false false false 10 [2] false []). set (c := mkFC (option_append 21 [2] []) false false false []).
  assert (A : conf_ok a) by (split; [cbn; lia|]; split; [repeat constructor; cbn; lia|discriminate]).
  exists a, a, c, c, (Some 5), (Some 6). eexists _, _, _, _. exists (option_append 26 [5; 0] []). eexists _, _. split; [exact A|]. split; [exact A|].
  split; [vm_compute; reflexivity|]. split; [vm_compute; reflexivity|]. split; [vm_compute; reflexivity|]. split; [intros _; cbn; split; discriminate|]. split; [vm_compute; reflexivity|]. split; [|vm_compute; reflexivity].
  intros U. destruct (proj1 (U eq_refl) eq_refl) as (N & _). contradiction N. reflexivity.
Qed.
Print Assumptions C33_null_refuted.

(** C34.  Among any packets arriving in any order, genuine or not, exactly those are accepted that are genuine and whose
    number is new and less than 32 behind the highest accepted: [verdicts] and [accepted] go by the numbers alone. *)
Theorem C34_history : forall aes_enc aes_dec hmac, cipher_ok aes_enc aes_dec -> mac_ok hmac -> forall cap srcs nums k, usable k -> c_seq (rx_chan k) = true -> k_rxseqs k = [] ->
  Forall (fun src => bytes_ok src /\ zlen src <= cap) srcs ->
  Forall2 (fun src o => forall n, o = Some n <-> exists hd body, genuine aes_dec hmac (rx_chan k) src n hd body) srcs nums ->
  exists k' answers, receive aes_dec hmac k cap srcs = Ok (k', answers) /\ length answers = length srcs
  /\ Forall2 (fun src '(ok, a) => if ok : bool then exists n hd body, a = Some body /\ genuine aes_dec hmac (rx_chan k) src n hd body else a = None) srcs (List.combine (verdicts [] nums) answers).
Proof.
  intros aes_enc aes_dec hmac (_ & D & _) M cap srcs nums k U C Q F N. assert (T : tracks (k_rxseqs k) []) by (rewrite Q; apply tracks_nil).
  destruct (receive_spec aes_enc aes_dec hmac (fun key l => proj1 (D key l)) (fun key l => proj2 (D key l)) (fun key l => proj1 (M key l)) cap srcs nums k [] U C T F N) as (k' & answers & E & _ & V & LA). eauto.
Qed.
Print Assumptions C34_history.
(** C34.  No number is accepted twice. *)
Theorem C34_once : forall arrive, NoDup (accepted [] arrive).
Proof. intros. apply accepted_nodup. constructor. Qed.
Print Assumptions C34_once.
(** C34.  Verdicts and accepted numbers belong together. *)
Theorem C34_verdicts : forall arrive seen, length (accepted seen arrive) = (length seen + length (filter (fun b => b) (verdicts seen arrive)))%nat.
Proof. induction arrive as [|[n|] r IH]; intros seen; cbn [accepted verdicts]; [cbn; lia| |apply IH]. destruct (fresh seen n); rewrite IH; cbn [length filter]; lia. Qed.
Print Assumptions C34_verdicts.
Example C34_example : verdicts [] [Some 0; Some 5; Some 5; None; Some 40; Some 8; Some 9; Some 7; Some 9; Some 41] = [true; true; false; false; true; false; true; false; false; true].
Proof. reflexivity. Qed.
