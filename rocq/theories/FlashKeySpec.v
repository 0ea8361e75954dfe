(** Specification vocabulary for session keys: what a packet must look like to be genuine, which session sequence numbers
    are fresh, and what two ends of a handshake should agree on. *)
From Verif Require Import Base VLU VLUSpec Checksums FlashCert FlashCertSpec FlashKey.

(** ** Packets *)
(** A direction of a session: its AES key, its HMAC key and tag length if tags are in use, and whether packets are numbered. *)
Record chan := mkChan { c_key : list Z; c_mac : option (list Z * nat); c_seq : bool }.
(** [src] is a genuine packet of the channel: some whole cipher blocks and their tag, which open to a number (if in use), a
    checksum (if there is no tag) and the body.  [hd] is what comes before the body. *)
Inductive genuine (aes_dec hmac : list Z -> list Z -> list Z) (ch : chan) (src : list Z) (n : Z) (hd body : list Z) : Prop :=
| genuine_intro : forall cipher tag L C,
    src = cipher ++ tag -> cipher <> [] -> (zlen cipher) mod 16 = 0 ->
    tag = match c_mac ch with Some (mk, len) => firstn len (hmac mk cipher) | None => [] end ->
    aes_dec (c_key ch) cipher = hd ++ body -> hd = L ++ C ->
    (if c_seq ch then complete_vlu L /\ n = Z.min (groups_value L) U64MAX else L = [] /\ n = 0) ->
    match c_mac ch with Some _ => C = [] | None => exists c0 c1, C = [c0; c1] /\ c0 * 256 + c1 = in_cksum body end ->
    genuine aes_dec hmac ch src n hd body.
(** A number is fresh when it was not accepted before and is less than 32 behind every accepted number above 32. *)
Definition fresh (seen : list Z) (n : Z) : bool := negb (existsb (Z.eqb n) seen) && forallb (fun h => (h <=? 32) || (h - 32 <? n)) seen.
(** The numbers accepted out of those arriving ([None] is a packet that is not genuine), the last first. *)
Fixpoint accepted (seen : list Z) (arrive : list (option Z)) : list Z :=
  match arrive with
  | [] => seen
  | Some n :: r => if fresh seen n then accepted (n :: seen) r else accepted seen r
  | None :: r => accepted seen r
  end.
(** Which of them are accepted. *)
Fixpoint verdicts (seen : list Z) (arrive : list (option Z)) : list bool :=
  match arrive with
  | [] => []
  | Some n :: r => if fresh seen n then true :: verdicts (n :: seen) r else false :: verdicts seen r
  | None :: r => false :: verdicts seen r
  end.

(** What a key holds for its receiving and its sending direction; before the handshake completes, the default key. *)
Definition rx_chan (k : fkey) : chan :=
  if k_complete k then mkChan (k_rx k) (if k_hrecv k then Some (match k_rxmac k with Some m => m | None => [] end, Z.to_nat (k_rxlen k)) else None) (k_srecv k)
  else mkChan default_session_key None false.
Definition tx_chan (k : fkey) : chan :=
  if k_complete k then mkChan (k_tx k) (if k_hsend k then Some (match k_txmac k with Some m => m | None => [] end, Z.to_nat (k_txlen k)) else None) (k_ssend k)
  else mkChan default_session_key None false.
(** A key is usable when it has an HMAC key and a tag length of at most 32 wherever it uses HMACs. *)
Definition usable (k : fkey) : Prop :=
  k_complete k = true ->
  (k_hsend k = true -> k_txmac k <> None /\ 0 <= k_txlen k <= 32) /\ (k_hrecv k = true -> k_rxmac k <> None /\ 0 <= k_rxlen k <= 32).
(** Several packets arriving one after the other: which are accepted and what they contain. *)
Fixpoint receive (aes_dec hmac : list Z -> list Z -> list Z) (k : fkey) (cap : Z) (srcs : list (list Z)) : res (fkey * list (option (list Z))) :=
  match srcs with
  | [] => Ok (k, [])
  | src :: r =>
      match decrypt aes_dec hmac k cap src with
      | Ok (k', answer) =>
          match receive aes_dec hmac k' cap r with
          | Ok (k'', l) => Ok (k'', option_map (fun '(dst, margin) => skipn margin dst) answer :: l)
          | Rej => Rej
          | UB => UB
          end
      | Rej => Rej
      | UB => UB
      end
  end.
(** Several packets sent one after the other, each assembled behind the margin asked for at that time. *)
Fixpoint transmit (aes_enc hmac : list Z -> list Z -> list Z) (k : fkey) (cap : Z) (bodies : list (list Z)) : res (fkey * list (list Z)) :=
  match bodies with
  | [] => Ok (k, [])
  | body :: r =>
      match encrypt aes_enc hmac k cap (repeat 0 (front_margin k) ++ body) (front_margin k) with
      | Ok (k', Some out) =>
          match transmit aes_enc hmac k' cap r with Ok (k'', l) => Ok (k'', out :: l) | Rej => Rej | UB => UB end
      | Ok (_, None) => Rej
      | Rej => Rej
      | UB => UB
      end
  end.

(** ** Handshakes *)
(** One direction uses a feature when its sender always sends it or its receiver requires it. *)
Definition used (sendAlways recvRequired : bool) : bool := sendAlways || recvRequired.
(** A component (a list of options) offers to send a feature, whose negotiation is the option [ty]: always (4) or when asked
    to (2). *)
Definition offers (ty : Z) (is : list item) : Prop := exists flags rest, first_value ty (before_marker is) = Some (flags :: rest) /\ Z.testbit flags 1 || Z.testbit flags 2 = true.
(** What a key says about its sending and its receiving direction: whether packets carry HMACs and of which length,
    whether they are numbered, the AES and HMAC keys, and the nonce belonging to the sending end. *)
Record says := mkSays { d_hmac : bool; d_hlen : Z; d_seq : bool; d_key : list Z; d_mac : option (list Z); d_nonce : list Z }.
Definition sends (k : fkey) : says := mkSays (k_hsend k) (if k_hsend k then k_txlen k else 0) (k_ssend k) (k_tx k) (if k_hsend k then k_txmac k else None) (k_near k).
Definition receives (k : fkey) : says := mkSays (k_hrecv k) (if k_hrecv k then k_rxlen k else 0) (k_srecv k) (k_rx k) (if k_hrecv k then k_rxmac k else None) (k_far k).
Definition agree (i r : fkey) : Prop := k_complete i = true /\ k_complete r = true /\ sends i = receives r /\ sends r = receives i.
(** A configuration as the adapter's functions make it. *)
Definition conf_ok (a : fconf) : Prop := 4 <= a_hlen a <= 32 /\ Forall (fun g => 0 <= g <= 2147483647) (a_groups a) /\ (a_static a = true -> map fst (a_privs a) = a_groups a).
(** [c] is the certificate of the adapter configured as [a]: it has no marker and lists the static public keys, or else the
    supported groups. *)
Definition carries (dh_pub : Z -> Z -> list Z) (a : fconf) (c : fcert) : Prop :=
  exists is, items_wire is (fc_raw c) /\ bytes_ok (fc_raw c) /\ zlen (fc_raw c) <= U64MAX /\ Forall (fun i => i <> None) is /\ fc_static c = a_static a
  /\ (if a_static a then values 29 is = map (fun '(g, p) => vlu_encode g ++ dh_pub g p) (a_privs a) else values 21 is = map vlu_encode (a_groups a)).
(** The DH context an end uses in group [g]: its static one, or the one it makes for this session. *)
Fixpoint priv_of (privs : list (Z * Z)) (g : Z) : option Z := match privs with [] => None | (g', p) :: r => if g' =? g then Some p else priv_of r g end.
Definition context (a : fconf) (made : option Z) (g : Z) : option Z := if a_static a then priv_of (a_privs a) g else made.
(** The first group of one end that the other supports too. *)
Definition common (a b : fconf) : option Z := find (fun g => existsb (Z.eqb g) (a_groups b)) (a_groups a).

(** ** What is asked of the cryptographic functions *)
Definition cipher_ok (enc dec : list Z -> list Z -> list Z) : Prop :=
  (forall key l, length (enc key l) = length l /\ bytes_ok (enc key l)) /\ (forall key l, length (dec key l) = length l /\ bytes_ok (dec key l))
  /\ forall key l, bytes_ok l -> zlen l mod 16 = 0 -> dec key (enc key l) = l.
Definition mac_ok (hmac : list Z -> list Z -> list Z) : Prop := forall key l, length (hmac key l) = 32%nat /\ bytes_ok (hmac key l).
(** Public keys are short byte strings; where both ends compute a secret it is the same. *)
Definition dh_ok (dh_pub : Z -> Z -> list Z) (dh_sec : Z -> Z -> list Z -> option (list Z)) : Prop :=
  (forall g p, bytes_ok (dh_pub g p) /\ zlen (dh_pub g p) <= 65536)
  /\ forall g p q x y, dh_sec g p (dh_pub g q) = Some x -> dh_sec g q (dh_pub g p) = Some y -> x = y.
