(** C46, C47: endpoint discriminators and glare.  [sha] is any function: nothing is assumed of SHA-256.  Byte strings in
    memory are at most 2^64 - 1 long. *)
From Verif Require Import Base BaseFacts VLU VLUSpec VLUProofs Hex HexSpec FlashCert FlashCertSpec FlashCertProofs.

(** C46.  An adapter is selected exactly by the well-formed discriminators whose criteria it meets; isSelectedByEPD is defined
    for all bytes. *)
Theorem C46_adapter : forall a onAnc l, bytes_ok l -> zlen l <= U64MAX ->
  exists b, adapter_selected a onAnc l = Ok b /\
  (b = true <-> exists is, items_wire is l /\ selects is (mkEnd (fa_fp a) (fa_host a) (fun d => fa_server a && match onAnc with Some f => f d | None => true end))).
Proof. exact adapter_select. Qed.
Print Assumptions C46_adapter.

(** C46.  So is a certificate; its hostname and role are what its options before the first marker say, its fingerprint is the
    hash of everything up to the marker (the marker included). *)
Theorem C46_certificate : forall sha cert fc, bytes_ok cert -> zlen cert <= U64MAX -> cert_init sha cert = Ok fc -> forall l, bytes_ok l -> zlen l <= U64MAX ->
  exists is c r, items_wire is cert /\ canonical is c /\ cert = c ++ r /\
  exists b, cert_selected fc l = Ok b /\
  (b = true <-> exists js, items_wire js l /\ selects js (mkEnd (sha c) (first_value 0 (before_marker is)) (fun _ => has 10 (before_marker is)))).
Proof. exact cert_select. Qed.
Print Assumptions C46_certificate.

(** C46.  Which certificates are accepted: decoding is defined for all bytes, and accepts exactly the well-formed option lists
    that have a public key or a supported group, and not both. *)
Theorem C46_accepted : forall sha l, bytes_ok l -> zlen l <= U64MAX -> cert_init sha l <> UB /\
  (forall fc, cert_init sha l = Ok fc <-> exists is c r, items_wire is l /\ canonical is c /\ l = c ++ r /\ has 29 (before_marker is) = negb (has 21 (before_marker is))
     /\ fc = mkFC l (has 0 (before_marker is)) (has 10 (before_marker is)) (has 29 (before_marker is)) (sha c)).
Proof. exact cert_init_spec. Qed.
Print Assumptions C46_accepted.

(** C46.  The two ends agree: an adapter's certificate, decoded by the peer, has the adapter's fingerprint and is selected by
    the same discriminators as the adapter. *)
Theorem C46_agree : forall sha server eph host pk rnd, (forall h, host = Some h -> bytes_ok h /\ zlen h <= 2 ^ 61) -> bytes_ok pk -> bytes_ok rnd -> zlen pk <= 2 ^ 61 -> zlen rnd <= 2 ^ 61 ->
  let a := adapter_init sha server eph host pk rnd in
  exists fc, cert_init sha (fa_cert a) = Ok fc /\ fc_raw fc = fa_cert a /\ fc_fp fc = fa_fp a /\ fc_static fc = negb eph
  /\ forall l, bytes_ok l -> zlen l <= U64MAX -> cert_selected fc l = adapter_selected a None l.
Proof. exact cert_of_adapter. Qed.
Print Assumptions C46_agree.

(** C46.  The canonical discriminator of a fingerprint selects exactly the endpoints with that fingerprint. *)
Theorem C46_canonical : forall a onAnc fp, bytes_ok fp -> zlen fp <= 2 ^ 61 ->
  exists b, adapter_selected a onAnc (canonical_epd fp) = Ok b /\ (b = true <-> fp = fa_fp a).
Proof.
  intros a onAnc fp B L. destruct (canonical_items fp B L) as (X & BL & ZL). destruct (adapter_select a onAnc _ BL ZL) as (b & E & S). exists b. split; [exact E|]. rewrite S. split.
  - intros (is & X' & Y). rewrite <- (items_unique _ _ X is X') in Y. exact Y.
  - intros ->. exists [Some (15, fa_fp a)]. split; [exact X|reflexivity].
Qed.
Print Assumptions C46_canonical.

(** C46.  makeEPD makes the well-formed discriminator with the criteria it was asked for. *)
Theorem C46_make : forall text anc host, (forall a, anc = Some a -> option_ok (10, a)) -> (forall h, host = Some h -> option_ok (0, h)) -> ~ (text = None /\ anc = None /\ host = None) ->
  forall fp, match text with None => fp = None | Some t => exists f, fp = Some f /\ option_ok (15, f) /\ hex_decode t [] = Ok (true, f) end ->
  exists l, make_epd text anc host [] = Ok (true, l) /\ items_wire (wanted fp anc host) l /\ bytes_ok l.
Proof. exact make_epd_items. Qed.
Print Assumptions C46_make.

(** C46.  A plain endpoint is selected exactly by its identity. *)
Theorem C46_plain : forall identity l, plain_selected identity l = true <-> l = identity.
Proof. intros. apply eq_bytes_iff. Qed.
Print Assumptions C46_plain.

Definition C46_sha (l : list Z) : list Z := [fold_left Z.add l 0 mod 256; zlen l mod 256].
Definition C46_a := adapter_init C46_sha true true (Some [97; 46; 98]) [] [1; 2; 3].
Example C46_case : fa_cert C46_a = [4; 0; 97; 46; 98; 1; 10; 2; 21; 2; 4; 14; 1; 2; 3]
  /\ adapter_selected C46_a None [4; 0; 97; 46; 98] = Ok true /\ adapter_selected C46_a None [4; 0; 97; 46; 99] = Ok false
  /\ adapter_selected C46_a None [2; 10; 120; 4; 0; 97; 46; 98] = Ok true /\ adapter_selected C46_a (Some (fun d => zlen d =? 2)) [2; 10; 120; 4; 0; 97; 46; 98] = Ok false
  /\ adapter_selected C46_a None [] = Ok false /\ adapter_selected C46_a None [4; 0; 97; 46; 98; 9] = Ok false
  /\ adapter_selected C46_a None (canonical_epd (fa_fp C46_a)) = Ok true /\ adapter_selected C46_a None (canonical_epd [7; 7]) = Ok false
  /\ match cert_init C46_sha (fa_cert C46_a) with Ok fc => cert_selected fc [4; 0; 97; 46; 98; 1; 10] = Ok true /\ fc_fp fc = fa_fp C46_a | _ => False end
  /\ make_epd (Some [48; 49; 0]) None (Some [97]) [] = Ok (true, [2; 15; 1; 2; 0; 97]).
Proof. vm_compute. repeat split. Qed.

(** C47.  If both ends initiate at once, then with different certificates exactly one of them wins.  The far certificate is
    decoded from the other's encoding. *)
Theorem C47_flash : forall sha a b fa fb, cert_init sha (fa_cert a) = Ok fa -> cert_init sha (fa_cert b) = Ok fb -> fa_cert a <> fa_cert b ->
  flash_wins_glare a fb = negb (flash_wins_glare b fa).
Proof.
  intros sha a b fa fb A B N.
  assert (R : forall l fc, cert_init sha l = Ok fc -> fc_raw fc = l).
  { intros l fc E. unfold cert_init in E. destruct (cert_loop (S (length l)) l false false false false false 0) as [[[[[h an] s] e] c]| |]; cbn [rbind] in E; try discriminate.
    destruct (Bool.eqb s e); [discriminate|]. injection E as <-. reflexivity. }
  unfold flash_wins_glare. rewrite (R _ _ A), (R _ _ B). f_equal. apply bytes_lt_anti. auto.
Qed.
Print Assumptions C47_flash.
Theorem C47_plain : forall a b, a <> b -> plain_wins_glare a b = negb (plain_wins_glare b a).
Proof. intros. apply bytes_lt_anti. assumption. Qed.
Print Assumptions C47_plain.
(** With equal certificates (two instances that share one) both ends win in the Flash profile, so neither answers the
    other's keying; in the plain profile neither wins. *)
Theorem C47_equal_refuted : (forall sha a fc, cert_init sha (fa_cert a) = Ok fc -> flash_wins_glare a fc = true) /\ (forall a, plain_wins_glare a a = false).
Proof.
  split; [|intros; apply bytes_lt_refl]. intros sha a fc E. unfold cert_init in E. unfold flash_wins_glare.
  destruct (cert_loop (S (length (fa_cert a))) (fa_cert a) false false false false false 0) as [[[[[h an] s] e] c]| |]; cbn [rbind] in E; try discriminate.
  destruct (Bool.eqb s e); [discriminate|]. injection E as <-. cbn [fc_raw]. rewrite bytes_lt_refl. reflexivity.
Qed.
Print Assumptions C47_equal_refuted.
Example C47_case : match cert_init C46_sha (fa_cert C46_a), cert_init C46_sha [2; 21; 2] with
  | Ok x, Ok y => flash_wins_glare C46_a y = false /\ flash_wins_glare (mkFA false None [2; 21; 2] []) x = true | _, _ => False end /\ plain_wins_glare [1; 2] [1; 3] = true.
Proof. vm_compute. auto. Qed.
