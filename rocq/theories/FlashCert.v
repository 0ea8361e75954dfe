(** Model of the certificates and endpoint discriminators of src/FlashCryptoAdapter.cpp and src/PlainCryptoAdapter.cpp.
    [sha] is SHA-256, any function here.  Left out: the Diffie-Hellman contexts (the public key of group 2 is an argument
    of [adapter_init]) and a failure to create them. *)
From Verif Require Import Base VLU Hex.
Open Scope res_scope.

(** FlashCryptoAdapter.hpp 27-39 *)
Definition EPD_OPTION_REQUIRED_HOSTNAME := 0.
Definition EPD_OPTION_ANCILLARY_DATA := 10.
Definition EPD_OPTION_FINGERPRINT := 15.
Definition CERT_OPTION_HOSTNAME := 0.
Definition CERT_OPTION_ACCEPTS_ANCILLARY_DATA := 10.
Definition CERT_OPTION_EXTRA_RANDOMNESS := 14.
Definition CERT_OPTION_SUPPORTED_DH_GROUP := 21.
Definition CERT_OPTION_DH_PUBLIC_KEY := 29.

(** FlashCryptoAdapter.hpp 62-72: EPDParseState; [None] is the null pointer *)
Record epd := mkEpd { e_fp : option (list Z); e_anc : option (list Z); e_host : option (list Z) }.
Definition epd_init := mkEpd None None None.
(** FlashCryptoAdapter.cpp 477-506: the loop of EPDParseState::parse; [Rej] is the answer false *)
Fixpoint epd_loop (fuel : nat) (l : list Z) (e : epd) : res epd :=
  match fuel with
  | O => UB
  | S fuel' =>
      match l with
      | [] => Ok e
      | _ =>
          ' (ty, value, n) <- option_parse l;;
          match value with
          | None => epd_loop fuel' (skipn n l) e
          | Some v =>
              let e' := if ty =? EPD_OPTION_REQUIRED_HOSTNAME then mkEpd (e_fp e) (e_anc e) (Some v)
                        else if ty =? EPD_OPTION_ANCILLARY_DATA then mkEpd (e_fp e) (Some v) (e_host e)
                        else if ty =? EPD_OPTION_FINGERPRINT then mkEpd (Some v) (e_anc e) (e_host e)
                        else e in
              epd_loop fuel' (skipn n l) e'
          end
      end
  end.
(** 468-509: EPDParseState::parse *)
Definition epd_parse (l : list Z) : res epd :=
  e <- epd_loop (S (length l)) l epd_init;;
  match e_fp e, e_anc e, e_host e with None, None, None => Rej | _, _, _ => Ok e end.

(** memcmp(a, b, n) == 0 after a comparison of the lengths *)
Fixpoint eq_bytes (a b : list Z) : bool :=
  match a, b with [], [] => true | x :: a, y :: b => (x =? y) && eq_bytes a b | _, _ => false end.

(** FlashCryptoAdapter.hpp 158-175: what selection and glare use of an adapter *)
Record fadapter := mkFA { fa_server : bool; fa_host : option (list Z); fa_cert : list Z; fa_fp : list Z }.
(** 160-215: FlashCryptoAdapter::init; the only supported group is 2 (425-430) *)
Definition adapter_init (sha : list Z -> list Z) (isServer isEphemeralDH : bool) (hostname : option (list Z)) (publicKey randomness : list Z) : fadapter :=
  let c1 := match hostname with Some h => option_append CERT_OPTION_HOSTNAME h [] | None => [] end in
  let c2 := if isServer then option_append CERT_OPTION_ACCEPTS_ANCILLARY_DATA [] c1 else c1 in
  let c3 := if isEphemeralDH then option_append CERT_OPTION_EXTRA_RANDOMNESS randomness (option_append_vlu CERT_OPTION_SUPPORTED_DH_GROUP 2 c2)
            else option_append CERT_OPTION_DH_PUBLIC_KEY (vlu_append 2 [] ++ publicKey) c2 in
  mkFA isServer hostname c3 (sha c3).
(** 334-360: FlashCryptoAdapter::isSelectedByEPD; [onAnc] is isSelectedByAncillaryData, [None] if unset; [Rej] and [Ok false] are false *)
Definition adapter_selected (a : fadapter) (onAnc : option (list Z -> bool)) (bytes : list Z) : res bool :=
  match epd_parse bytes with
  | UB => UB
  | Rej => Ok false
  | Ok e =>
      match e_fp e with
      | Some f => Ok (eq_bytes f (fa_fp a))
      | None =>
          let hostOk := match e_host e with None => true | Some h => match fa_host a with None => false | Some m => eq_bytes m h end end in
          if negb hostOk then Ok false
          else Ok (match e_anc e with
                   | None => true
                   | Some d => if negb (fa_server a) then false else match onAnc with Some f => f d | None => true end
                   end)
      end
  end.
(** 389-423: makeEPD; the fingerprint text is null terminated memory, [None] is the null pointer *)
Definition make_epd (hexFingerprint anc host : option (list Z)) (dst : list Z) : res (bool * list Z) :=
  match hexFingerprint, anc, host with
  | None, None, None => Ok (false, dst)
  | _, _, _ =>
      let rest d :=
        let d := match anc with Some a => option_append EPD_OPTION_ANCILLARY_DATA a d | None => d end in
        match host with Some h => option_append EPD_OPTION_REQUIRED_HOSTNAME h d | None => d end in
      match hexFingerprint with
      | None => Ok (true, rest dst)
      | Some t =>
          ' (ok, tmp) <- hex_decode t [];;
          if (ok : bool) then Ok (true, rest (option_append EPD_OPTION_FINGERPRINT tmp dst)) else Ok (false, dst)
      end
  end.
(** 418-423: makeEPD(rawFingerprint), 237-240: getCanonicalEPD *)
Definition canonical_epd (fp : list Z) : list Z := option_append EPD_OPTION_FINGERPRINT fp [].

(** FlashCryptoAdapter.hpp 270-285: FlashCryptoCert *)
Record fcert := mkFC { fc_raw : list Z; fc_hasHost : bool; fc_anc : bool; fc_static : bool; fc_fp : list Z }.
(** 935-963: the loop of FlashCryptoCert::init; answers hasHostname, acceptsAncillaryData, isStatic, isEphemeral and
    canonicalLength; [Rej] is false *)
Fixpoint cert_loop (fuel : nat) (l : list Z) (host anc stat eph marker : bool) (canon : nat) : res (bool * bool * bool * bool * nat) :=
  match fuel with
  | O => UB
  | S fuel' =>
      match l with
      | [] => Ok (host, anc, stat, eph, canon)
      | _ =>
          ' (ty, value, n) <- option_parse l;;
          let canon' := if marker then canon else (canon + n)%nat in
          match value with
          | None => cert_loop fuel' (skipn n l) host anc stat eph true canon'
          | Some _ =>
              if marker then cert_loop fuel' (skipn n l) host anc stat eph marker canon'
              else if ty =? CERT_OPTION_HOSTNAME then cert_loop fuel' (skipn n l) true anc stat eph marker canon'
              else if ty =? CERT_OPTION_ACCEPTS_ANCILLARY_DATA then cert_loop fuel' (skipn n l) host true stat eph marker canon'
              else if ty =? CERT_OPTION_SUPPORTED_DH_GROUP then cert_loop fuel' (skipn n l) host anc stat true marker canon'
              else if ty =? CERT_OPTION_DH_PUBLIC_KEY then cert_loop fuel' (skipn n l) host anc true eph marker canon'
              else cert_loop fuel' (skipn n l) host anc stat eph marker canon'
          end
      end
  end.
(** 922-968: FlashCryptoCert::init; [Rej] is false *)
Definition cert_init (sha : list Z -> list Z) (cert : list Z) : res fcert :=
  ' (host, anc, stat, eph, canon) <- cert_loop (S (length cert)) cert false false false false false 0;;
  if Bool.eqb stat eph then Rej else Ok (mkFC cert host anc stat (sha (firstn canon cert))).
(** 22-50: optionSearch, the value found; [Rej] is the answer 0 *)
Fixpoint option_search (fuel : nat) (l : list Z) (type_ : Z) : res (list Z) :=
  match fuel with
  | O => UB
  | S fuel' =>
      match l with
      | [] => Rej
      | _ =>
          ' (ty, value, n) <- option_parse l;;
          match value with
          | None => Rej
          | Some v => if ty =? type_ then Ok v else option_search fuel' (skipn n l) type_
          end
      end
  end.
(** 998-1026: FlashCryptoCert::isSelectedByEPD *)
Definition cert_selected (c : fcert) (bytes : list Z) : res bool :=
  match epd_parse bytes with
  | UB => UB
  | Rej => Ok false
  | Ok e =>
      match e_fp e with
      | Some f => Ok (eq_bytes f (fc_fp c))
      | None =>
          let anc := match e_anc e with None => true | Some _ => fc_anc c end in
          match e_host e with
          | None => Ok anc
          | Some h =>
              if negb (fc_hasHost c) then Ok false
              else match option_search (S (length (fc_raw c))) (fc_raw c) CERT_OPTION_HOSTNAME with
                   | UB => UB
                   | Rej => Ok false
                   | Ok hn => if eq_bytes hn h then Ok anc else Ok false
                   end
          end
      end
  end.

(** operator< of std::vector<uint8_t> *)
Fixpoint bytes_lt (a b : list Z) : bool :=
  match a, b with
  | _, [] => false
  | [], _ :: _ => true
  | x :: a, y :: b => if x <? y then true else if y <? x then false else bytes_lt a b
  end.
(** 367-370: FlashCryptoAdapter::checkNearWinsGlare; the far certificate's encoding is the bytes it was decoded from (1045-1048) *)
Definition flash_wins_glare (near : fadapter) (far : fcert) : bool := negb (bytes_lt (fc_raw far) (fa_cert near)).
(** PlainCryptoAdapter.cpp 184-187, 114-160: a plain certificate is the identity *)
Definition plain_wins_glare (near far : list Z) : bool := bytes_lt near far.
(** PlainCryptoAdapter.cpp 126-129, 174-177: isSelectedByEPD of the adapter and of the certificate *)
Definition plain_selected (identity bytes : list Z) : bool := eq_bytes bytes identity.
