(** Model of the session keys of src/FlashCryptoAdapter.cpp (FlashCryptoKey, 511-918, with the option searches 20-148) and
    of src/PlainCryptoAdapter.cpp (PlainCryptoKey, 24-110).
    AES-CBC with a zero IV, HMAC-SHA256 and Diffie-Hellman are arguments: [aes_enc key data], [aes_dec key data],
    [hmac key msg], [dh_pub group context] and [dh_sec group context otherPublic] ([None] is the answer false); a DH context
    is a number.  Left out: failures to create an AES or HMAC context or in their calls, and the overwriting of erased secrets. *)
From Verif Require Import Base VLU IndexSet Checksums FlashCert.
Open Scope res_scope.

Definition INT_MAX := 2147483647.
(** FlashCryptoAdapter.hpp 41-56, 70-80 *)
Definition KEYING_OPTION_DH_PUBLIC_KEY := 13.
Definition KEYING_OPTION_EXTRA_RANDOMNESS := 14.
Definition KEYING_OPTION_HMAC_NEGOTIATION := 26.
Definition KEYING_OPTION_DH_GROUP_SELECT := 29.
Definition KEYING_OPTION_SSEQ_NEGOTIATION := 30.
Definition MIN_HMAC_LENGTH := 4.
Definition MAX_HMAC_LENGTH := 32.
(** FlashCryptoAdapter.hpp 212 *)
Definition MAX_SSEQ_GAP := 32.
(** FlashCryptoAdapter.cpp 16-18 *)
Definition default_session_key := [65; 100; 111; 98; 101; 32; 83; 121; 115; 116; 101; 109; 115; 32; 48; 50].

(** 22-45: optionSearch; [None] is the answer 0, otherwise the value and what comes after the option *)
Fixpoint opt_seek (fuel : nat) (l : list Z) (type_ : Z) : res (option (list Z * list Z)) :=
  match fuel with
  | O => UB
  | S fuel' =>
      match l with
      | [] => Ok None
      | _ =>
          match option_parse l with
          | UB => UB
          | Rej => Ok None
          | Ok (_, None, _) => Ok None
          | Ok (ty, Some v, n) => if ty =? type_ then Ok (Some (v, skipn n l)) else opt_seek fuel' (skipn n l) type_
          end
      end
  end.
(** 52-78: optionSearchForGroupAndKey; the group, the rest of the value and what comes after the option *)
Definition group_and_key (l : list Z) (type_ : Z) : res (option (Z * list Z * list Z)) :=
  match opt_seek (S (length l)) l type_ with
  | UB => UB
  | Rej => Rej
  | Ok None => Ok None
  | Ok (Some (v, rest)) =>
      match vlu_parse v with
      | UB => UB
      | Rej => Ok None
      | Ok (g, n) => if g >? INT_MAX then Ok None else Ok (Some (g, skipn n v, rest))
      end
  end.
(** 80-106: groupOptionSearch; the key found, [None] is the answer false *)
Fixpoint group_loop (fuel : nat) (l : list Z) (type_ groupID : Z) : res (option (list Z)) :=
  match fuel with
  | O => UB
  | S fuel' =>
      match l with
      | [] => Ok None
      | _ =>
          match group_and_key l type_ with
          | UB => UB
          | Rej => Rej
          | Ok None => Ok None
          | Ok (Some (g, key, rest)) => if g =? groupID then Ok (Some key) else group_loop fuel' rest type_ groupID
          end
      end
  end.
Definition group_search (l : list Z) (type_ groupID : Z) : res (option (list Z)) := group_loop (S (length l)) l type_ groupID.
(** 108-125: negotiationOptionSearch; the flags and the length (0 if there is none) *)
Definition nego_search (l : list Z) (type_ : Z) : res (Z * Z) :=
  match opt_seek (S (length l)) l type_ with
  | UB => UB
  | Rej => Rej
  | Ok (Some (b :: r, _)) => match vlu_parse r with UB => UB | Rej => Ok (b, 0) | Ok (n, _) => Ok (b, n) end
  | Ok _ => Ok (0, 0)
  end.
(** 132-137: negotiationFlags *)
Definition nego_flags (always onRequest required : bool) : Z :=
  Z.lor (Z.lor (if always then 4 else 0) (if onRequest then 2 else 0)) (if required then 1 else 0).
(** 139-148: negotiateFlags; [None] is the answer false, otherwise the new sendAlways and recvRequired *)
Definition negotiate (flags : Z) (sendAlways recvRequired : bool) : option (bool * bool) :=
  if recvRequired && (Z.land flags 6 =? 0) then None
  else Some (if negb (Z.land flags 1 =? 0) then true else sendAlways, if negb (Z.land flags 4 =? 0) then true else recvRequired).

(** The configuration of an adapter (FlashCryptoAdapter.hpp 160-175): whether it always sends or requires HMACs and
    session sequence numbers, its HMAC length, the supported groups (virtual; 425-430), and the static DH contexts *)
Record fconf := mkConf { a_hsend : bool; a_hrecv : bool; a_ssend : bool; a_srecv : bool; a_hlen : Z; a_groups : list Z; a_static : bool; a_privs : list (Z * Z) }.
(** 259-266: setHMACLength *)
Definition set_hmac_length (len : Z) : Z :=
  let len := if len <? MIN_HMAC_LENGTH then MIN_HMAC_LENGTH else len in if len >? MAX_HMAC_LENGTH then MAX_HMAC_LENGTH else len.
(** FlashCryptoAdapter.hpp 216-250: FlashCryptoKey; AES and HMAC contexts are their keys, [None] the null pointer *)
Record fkey := mkKey {
  k_complete : bool; k_hsend : bool; k_hrecv : bool; k_ssend : bool; k_srecv : bool;
  k_txseq : Z; k_rxseqs : list (Z * Z); k_group : Z; k_needed : bool; k_dh : option Z; k_secret : list Z; k_sknc : list Z;
  k_near : list Z; k_far : list Z; k_tx : list Z; k_rx : list Z;
  k_txmac : option (list Z); k_txlen : Z; k_rxmac : option (list Z); k_rxlen : Z }.
(** 520-535: FlashCryptoKey::init *)
Definition key_init (a : fconf) : fkey :=
  mkKey false (a_hsend a) (a_hrecv a) (a_ssend a) (a_srecv a) 0 [] (-1) false None [] [] [] [] [] [] None (a_hlen a) None 0.

Definition with_txseq k x := mkKey (k_complete k) (k_hsend k) (k_hrecv k) (k_ssend k) (k_srecv k) x (k_rxseqs k) (k_group k) (k_needed k) (k_dh k) (k_secret k) (k_sknc k) (k_near k) (k_far k) (k_tx k) (k_rx k) (k_txmac k) (k_txlen k) (k_rxmac k) (k_rxlen k).
Definition with_rxseqs k x := mkKey (k_complete k) (k_hsend k) (k_hrecv k) (k_ssend k) (k_srecv k) (k_txseq k) x (k_group k) (k_needed k) (k_dh k) (k_secret k) (k_sknc k) (k_near k) (k_far k) (k_tx k) (k_rx k) (k_txmac k) (k_txlen k) (k_rxmac k) (k_rxlen k).
Definition with_sseq k s r := mkKey (k_complete k) (k_hsend k) (k_hrecv k) s r (k_txseq k) (k_rxseqs k) (k_group k) (k_needed k) (k_dh k) (k_secret k) (k_sknc k) (k_near k) (k_far k) (k_tx k) (k_rx k) (k_txmac k) (k_txlen k) (k_rxmac k) (k_rxlen k).
Definition with_hmac k s r := mkKey (k_complete k) s r (k_ssend k) (k_srecv k) (k_txseq k) (k_rxseqs k) (k_group k) (k_needed k) (k_dh k) (k_secret k) (k_sknc k) (k_near k) (k_far k) (k_tx k) (k_rx k) (k_txmac k) (k_txlen k) (k_rxmac k) (k_rxlen k).
Definition with_rxlen k x := mkKey (k_complete k) (k_hsend k) (k_hrecv k) (k_ssend k) (k_srecv k) (k_txseq k) (k_rxseqs k) (k_group k) (k_needed k) (k_dh k) (k_secret k) (k_sknc k) (k_near k) (k_far k) (k_tx k) (k_rx k) (k_txmac k) (k_txlen k) (k_rxmac k) x.
Definition with_group k x := mkKey (k_complete k) (k_hsend k) (k_hrecv k) (k_ssend k) (k_srecv k) (k_txseq k) (k_rxseqs k) x (k_needed k) (k_dh k) (k_secret k) (k_sknc k) (k_near k) (k_far k) (k_tx k) (k_rx k) (k_txmac k) (k_txlen k) (k_rxmac k) (k_rxlen k).
Definition with_needed k x := mkKey (k_complete k) (k_hsend k) (k_hrecv k) (k_ssend k) (k_srecv k) (k_txseq k) (k_rxseqs k) (k_group k) x (k_dh k) (k_secret k) (k_sknc k) (k_near k) (k_far k) (k_tx k) (k_rx k) (k_txmac k) (k_txlen k) (k_rxmac k) (k_rxlen k).
Definition with_dh k x := mkKey (k_complete k) (k_hsend k) (k_hrecv k) (k_ssend k) (k_srecv k) (k_txseq k) (k_rxseqs k) (k_group k) (k_needed k) x (k_secret k) (k_sknc k) (k_near k) (k_far k) (k_tx k) (k_rx k) (k_txmac k) (k_txlen k) (k_rxmac k) (k_rxlen k).
Definition with_secret k x := mkKey (k_complete k) (k_hsend k) (k_hrecv k) (k_ssend k) (k_srecv k) (k_txseq k) (k_rxseqs k) (k_group k) (k_needed k) (k_dh k) x (k_sknc k) (k_near k) (k_far k) (k_tx k) (k_rx k) (k_txmac k) (k_txlen k) (k_rxmac k) (k_rxlen k).
Definition with_sknc k x := mkKey (k_complete k) (k_hsend k) (k_hrecv k) (k_ssend k) (k_srecv k) (k_txseq k) (k_rxseqs k) (k_group k) (k_needed k) (k_dh k) (k_secret k) x (k_near k) (k_far k) (k_tx k) (k_rx k) (k_txmac k) (k_txlen k) (k_rxmac k) (k_rxlen k).
Definition with_keys k near far tx rx txmac rxmac := mkKey (k_complete k) (k_hsend k) (k_hrecv k) (k_ssend k) (k_srecv k) (k_txseq k) (k_rxseqs k) (k_group k) (k_needed k) (k_dh k) (k_secret k) (k_sknc k) near far tx rx txmac (k_txlen k) rxmac (k_rxlen k).
Definition with_complete k x := mkKey x (k_hsend k) (k_hrecv k) (k_ssend k) (k_srecv k) (k_txseq k) (k_rxseqs k) (k_group k) (k_needed k) (k_dh k) (k_secret k) (k_sknc k) (k_near k) (k_far k) (k_tx k) (k_rx k) (k_txmac k) (k_txlen k) (k_rxmac k) (k_rxlen k).

(** 537-547: getEncryptSrcFrontMargin *)
Definition front_margin (k : fkey) : nat :=
  if negb (k_complete k) then 2
  else ((if k_hsend k then 0 else 2) + (if k_ssend k then length (vlu_encode (k_txseq k)) else 0))%nat.
(** Bytes stored from the start of a buffer; past its end is UB here *)
Definition overwrite (buf hd : list Z) : res (list Z) := if (length buf <? length hd)%nat then UB else Ok (hd ++ skipn (length hd) buf).

Section Crypto.
Variables aes_enc aes_dec hmac : list Z -> list Z -> list Z.
Variable dh_pub : Z -> Z -> list Z.
Variable dh_sec : Z -> Z -> list Z -> option (list Z).

(** 549-591: encrypt; [cap] is ioDstLen on entry; [None] is the answer false, otherwise dst *)
Definition encrypt (k : fkey) (cap : Z) (src : list Z) (margin : nat) : res (fkey * option (list Z)) :=
  let useSSeq := k_complete k && k_ssend k in
  let useHMAC := k_complete k && k_hsend k in
  let pad := if Z.land (zlen src) 15 =? 0 then 0 else 16 - Z.land (zlen src) 15 in
  if cap <? zlen src + pad + MAX_HMAC_LENGTH then Ok (k, None)
  else
    let src := src ++ repeat 255 (Z.to_nat pad) in
    let hd := if useSSeq then vlu_encode (k_txseq k) else [] in
    let k1 := if useSSeq then with_txseq k (wrap64 (k_txseq k + 1)) else k in
    src1 <- overwrite src hd;;
    src2 <- (if useHMAC then Ok src1
             else if (length src1 <? margin)%nat then UB
             else let c := in_cksum (skipn margin src1) in overwrite src1 (hd ++ [Z.shiftr c 8; Z.land c 255]));;
    let dst := aes_enc (if k_complete k then k_tx k else default_session_key) src2 in
    if useHMAC then
      match k_txmac k with
      | None => UB
      | Some mk => if MAX_HMAC_LENGTH <? k_txlen k then UB else Ok (k1, Some (dst ++ firstn (Z.to_nat (k_txlen k)) (hmac mk dst)))
      end
    else Ok (k1, Some dst).

(** 593-661: decrypt; [cap] is ioDstLen on entry; [None] is the answer false, otherwise dst and dstFrontMargin *)
Definition decrypt (k : fkey) (cap : Z) (src : list Z) : res (fkey * option (list Z * nat)) :=
  let useSSeq := k_complete k && k_srecv k in
  let useHMAC := k_complete k && k_hrecv k in
  let hmacLen := if useHMAC then k_rxlen k else 0 in
  if (cap + hmacLen <? zlen src) || (zlen src <? hmacLen) then Ok (k, None)
  else
    let srcLen := zlen src - hmacLen in
    if negb (Z.land srcLen 15 =? 0) || (srcLen =? 0) then Ok (k, None)
    else
      let data := firstn (Z.to_nat srcLen) src in
      let tag := skipn (Z.to_nat srcLen) src in
      verified <- (if useHMAC then
                     match k_rxmac k with
                     | None => UB
                     | Some mk => if MAX_HMAC_LENGTH <? hmacLen then UB else Ok (eq_bytes (firstn (Z.to_nat hmacLen) (hmac mk data)) tag)
                     end
                   else Ok true);;
      if negb verified then Ok (k, None)
      else
        let dst := aes_dec (if k_complete k then k_rx k else default_session_key) data in
        match (if useSSeq then vlu_parse dst else Ok (0, 0%nat)) with
        | UB => UB
        | Rej => Ok (k, None)
        | Ok (seqno, n) =>
            if useSSeq && is_contains (k_rxseqs k) seqno then Ok (k, None)
            else
              let fits := match skipn n dst with
                          | c0 :: c1 :: body => Some (wrap16 (Z.shiftl c0 8 + c1) =? in_cksum body)
                          | _ => None
                          end in
              if negb useHMAC && negb (match fits with Some b => b | None => false end) then Ok (k, None)
              else
                let s1 := is_add (k_rxseqs k) seqno seqno in
                let s2 := if seqno >? MAX_SSEQ_GAP then is_add s1 0 (wrap64 (seqno - MAX_SSEQ_GAP)) else s1 in
                Ok (if useSSeq then with_rxseqs k s2 else k, Some (dst, (n + (if useHMAC then 0 else 2))%nat))
        end.

(** 980-989: FlashCryptoCert::supportsDHGroup, getPublicKey *)
Definition cert_supports (c : fcert) (g : Z) : res bool :=
  match group_search (fc_raw c) (if fc_static c then CERT_OPTION_DH_PUBLIC_KEY else CERT_OPTION_SUPPORTED_DH_GROUP) g with
  | UB => UB | Rej => Rej | Ok o => Ok (match o with Some _ => true | None => false end)
  end.
Definition cert_public_key (c : fcert) (g : Z) : res (option (list Z)) :=
  if fc_static c then group_search (fc_raw c) CERT_OPTION_DH_PUBLIC_KEY g else Ok None.
(** 432-439: getBestDHGroup *)
Fixpoint best_group (groups : list Z) (far : fcert) : res Z :=
  match groups with
  | [] => Ok (-1)
  | g :: r => b <- cert_supports far g;; if (b : bool) then Ok g else best_group r far
  end.
(** 441-448: supportsDHGroup *)
Definition supports_group (a : fconf) (g : Z) : bool := existsb (Z.eqb g) (a_groups a).
(** 450-456: FlashCryptoAdapter::computeSharedSecret *)
Fixpoint static_secret (privs : list (Z * Z)) (g : Z) (other : list Z) : option (list Z) :=
  match privs with [] => None | (g', p) :: r => if g' =? g then dh_sec g p other else static_secret r g other end.

(** 878-918: computeKeysAndNonces *)
Definition compute_keys (k : fkey) (sknc skfc : list Z) : fkey :=
  let secret := k_secret k in
  let enc := hmac secret (hmac skfc sknc) in
  let dec := hmac secret (hmac sknc skfc) in
  with_keys k (hmac secret sknc) (hmac secret skfc) (firstn 16 enc) (firstn 16 dec)
    (if k_hsend k then Some (hmac secret enc) else k_txmac k) (if k_hrecv k then Some (hmac secret dec) else k_rxmac k).

(** 711-724, 795-797, 811-814: the negotiation options *)
Definition hmac_option (k : fkey) (dst : list Z) : list Z := option_append KEYING_OPTION_HMAC_NEGOTIATION (vlu_append (k_txlen k) [nego_flags (k_hsend k) true (k_hrecv k)]) dst.
Definition sseq_option (k : fkey) (dst : list Z) : list Z := option_append KEYING_OPTION_SSEQ_NEGOTIATION [nego_flags (k_ssend k) true (k_srecv k)] dst.

(** 673-731: generateInitiatorKeyingComponent; [fresh] is the DH context made and initialised, [None] if that fails; the
    component is [None] for the answer false *)
Definition gen_initiator (a : fconf) (responder : fcert) (fresh : option Z) (randomness : list Z) (k : fkey) : res (fkey * option (list Z)) :=
  let k := with_sknc k [] in
  g <- best_group (a_groups a) responder;;
  let k := with_group k g in
  if g <? 0 then Ok (k, None)
  else
    let mine := if a_static a then Some (k, option_append KEYING_OPTION_EXTRA_RANDOMNESS randomness (option_append_vlu KEYING_OPTION_DH_GROUP_SELECT g []))
                else match fresh with
                     | None => None
                     | Some p => Some (with_dh k (Some p), option_append KEYING_OPTION_DH_PUBLIC_KEY (vlu_append g [] ++ dh_pub g p) [])
                     end in
    match mine with
    | None => Ok (k, None)
    | Some (k, comp) =>
        ' (k, ok) <- (if fc_static responder then
                        pk <- cert_public_key responder g;;
                        match pk with
                        | None => Ok (k, false)
                        | Some pk =>
                            match (match k_dh k with Some p => dh_sec g p pk | None => static_secret (a_privs a) g pk end) with
                            | None => Ok (k, false)
                            | Some s => Ok (with_dh (with_secret k s) None, true)
                            end
                        end
                      else Ok (with_needed k true, true));;
        if negb ok then Ok (with_sknc k comp, None)
        else
          let comp := sseq_option k (hmac_option k comp) in
          Ok (with_sknc k comp, Some comp)
    end.

(** 733-753, 786-809: the negotiation of sequence numbers and HMACs with a far component; the key is changed as far as
    this got *)
Definition negotiate_all (k : fkey) (comp : list Z) : res (fkey * bool) :=
  ' (sflags, _) <- nego_search comp KEYING_OPTION_SSEQ_NEGOTIATION;;
  match negotiate sflags (k_ssend k) (k_srecv k) with
  | None => Ok (k, false)
  | Some (s, r) =>
      let k := with_sseq k s r in
      ' (hflags, len) <- nego_search comp KEYING_OPTION_HMAC_NEGOTIATION;;
      match negotiate hflags (k_hsend k) (k_hrecv k) with
      | None => Ok (k, false)
      | Some (s, r) =>
          let k := with_hmac k s r in
          if r then if (len <? MIN_HMAC_LENGTH) || (len >? MAX_HMAC_LENGTH) then Ok (k, false) else Ok (with_rxlen k len, true)
          else Ok (k, true)
      end
  end.
(** 733-782: initiatorCombineResponderKeyingComponent *)
Definition combine (a : fconf) (comp : list Z) (k : fkey) : res (fkey * bool) :=
  ' (k, ok) <- negotiate_all k comp;;
  if negb ok then Ok (k, false)
  else
    ' (k, ok) <- (if k_needed k then
                    let k := with_secret k [] in
                    pk <- group_search comp KEYING_OPTION_DH_PUBLIC_KEY (k_group k);;
                    match pk with
                    | None => Ok (k, false)
                    | Some pk =>
                        match (match k_dh k with Some p => dh_sec (k_group k) p pk | None => static_secret (a_privs a) (k_group k) pk end) with
                        | None => Ok (k, false)
                        | Some s => Ok (with_secret k s, true)
                        end
                    end
                  else Ok (k, true));;
    if negb ok then Ok (k, false)
    else Ok (with_complete (with_dh (with_secret (compute_keys k (k_sknc k) comp) []) None) true, true).
(** 784-869: generateResponderKeyingComponent.  The two negotiations come first in the code too, with the options of the
    reply written in between; their bytes depend on the values negotiated so far only. *)
Definition gen_responder (a : fconf) (initiator : fcert) (comp : list Z) (fresh : option Z) (randomness : list Z) (k : fkey) : res (fkey * option (list Z)) :=
  ' (k, ok) <- negotiate_all k comp;;
  if negb ok then Ok (k, None)
  else
    let sknc := hmac_option k (sseq_option k []) in
    pick <- (if fc_static initiator then
               gk <- group_and_key comp KEYING_OPTION_DH_GROUP_SELECT;;
               match gk with
               | None => Ok None
               | Some (g, _, _) => pk <- cert_public_key initiator g;; Ok (match pk with Some pk => Some (g, pk) | None => None end)
               end
             else
               gk <- group_and_key comp KEYING_OPTION_DH_PUBLIC_KEY;;
               Ok (match gk with Some (g, pk, _) => Some (g, pk) | None => None end));;
    match pick with
    | None => Ok (k, None)
    | Some (g, pk) =>
        let k := with_group k g in
        if negb (supports_group a g) then Ok (k, None)
        else
          let mine := if a_static a then
                        match static_secret (a_privs a) g pk with
                        | None => None
                        | Some s => Some (s, option_append KEYING_OPTION_EXTRA_RANDOMNESS randomness sknc)
                        end
                      else
                        match fresh with
                        | None => None
                        | Some p => match dh_sec g p pk with
                                    | None => None
                                    | Some s => Some (s, option_append KEYING_OPTION_DH_PUBLIC_KEY (vlu_append g [] ++ dh_pub g p) sknc)
                                    end
                        end in
          match mine with
          | None => Ok (k, None)
          | Some (s, sknc) =>
              Ok (with_complete (with_dh (with_secret (compute_keys (with_secret k s) sknc comp) []) None) true, Some sknc)
          end
    end.
End Crypto.

(** PlainCryptoAdapter.cpp 13-19: u16_bytes *)
Definition u16_bytes (n : Z) : list Z := [wrap8 (Z.shiftr n 8); Z.land n 255].
(** 24-35, 104-107: PlainCryptoKey *)
Record pkey := mkPlain { p_tx : Z; p_rx : Z; p_complete : bool }.
Definition plain_margin := 16%nat.
(** 37-59: encrypt; the buffer src is long enough for the padding *)
Definition plain_encrypt (k : pkey) (cap : Z) (src : list Z) (margin : nat) : option (list Z) :=
  if (length src <? margin)%nat then None
  else
    let data := skipn margin src ++ repeat 255 16 in
    let cksum := wrap16 (in_cksum data + (if p_complete k then p_tx k else 0)) in
    let data := data ++ [Z.shiftr cksum 8; Z.land cksum 255] in
    if cap <? zlen data then None else Some data.
(** 61-78: decrypt; dst is written from offset 16 on, what is before is [0]s here *)
Definition plain_decrypt (k : pkey) (cap : Z) (src : list Z) : option (list Z * nat) :=
  if zlen src <? 2 then None
  else if cap <? zlen src + 16 - 2 then None
  else
    let data := firstn (length src - 2) src in
    let c0 := nth (length src - 2) src 0 in
    let c1 := nth (length src - 1) src 0 in
    let cksum := wrap16 (Z.shiftl c0 8 + c1 - (if p_complete k then p_rx k else 0)) in
    if negb (in_cksum data =? cksum) then None
    else Some (repeat 0 16 ++ data, 16%nat).
(** 80-101: getNearNonce and the components; initiatorCombine and generateResponder, [None] is the answer false *)
Definition plain_component (k : pkey) : list Z := u16_bytes (p_rx k).
Definition plain_combine (k : pkey) (comp : list Z) : option pkey :=
  match comp with a :: b :: _ => Some (mkPlain (wrap16 (Z.shiftl a 8 + b)) (p_rx k) true) | _ => None end.
Definition plain_far_nonce (k : pkey) : list Z := u16_bytes (p_tx k).
