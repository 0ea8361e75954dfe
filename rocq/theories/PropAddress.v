(** C39: addresses. *)
From Verif Require Import Base BaseFacts Address AddressSpec AddressProofs.

(** C39.  Whatever the receiving Address held before and whatever follows, an encoded address decodes to the same address
    with the same origin, consuming exactly its encoding. *)
Theorem C39_roundtrip : forall a0 a rest, addr_ok a -> a_fam a <> 0 -> bytes_ok rest ->
  addr_decode a0 (addr_encode a ++ rest) = Ok (a, length (addr_encode a)).
Proof. exact encode_roundtrip. Qed.
Print Assumptions C39_roundtrip.

(** C39.  The encoding is the wire form of RFC 7016, with the reserved flag bits clear. *)
Theorem C39_wire : forall a, addr_ok a -> a_fam a <> 0 ->
  exists f, wire_addr a f (addr_encode a) /\ is_byte f /\ (f = a_origin a \/ f = 128 + a_origin a).
Proof. exact encode_wire. Qed.
Print Assumptions C39_wire.

(** C39.  Decoding arbitrary bytes never reads past the end, accepts exactly the byte strings that begin with the wire form of
    an address, and rejects exactly those that are too short. *)
Theorem C39_decode : forall a0 l, bytes_ok l ->
  addr_decode a0 l <> UB /\
  (forall a n, addr_decode a0 l = Ok (a, n) <-> exists f w rest, l = w ++ rest /\ addr_ok a /\ a_fam a <> 0 /\ wire_addr a f w /\ n = length w)
  /\ (addr_decode a0 l = Rej <-> forall f r, l = f :: r -> (length l < (if Z.testbit f 7 then 19 else 7))%nat).
Proof. exact decode_exact. Qed.
Print Assumptions C39_decode.

(** C39.  operator== is equality of socket addresses, and operator< is a strict total order compatible with it. *)
Theorem C39_equal : forall a b, addr_ok a -> addr_ok b -> (addr_eq a b = true <-> same_addr a b).
Proof. exact eq_same. Qed.
Print Assumptions C39_equal.
Theorem C39_order : (forall a, addr_ok a -> addr_lt a a = false)
  /\ (forall a b c, addr_ok a -> addr_ok b -> addr_ok c -> addr_lt a b = true -> addr_lt b c = true -> addr_lt a c = true)
  /\ (forall a b, addr_ok a -> addr_ok b -> addr_lt a b = true \/ addr_lt b a = true \/ same_addr a b)
  /\ (forall a b, addr_ok a -> addr_ok b -> same_addr a b -> addr_lt a b = false).
Proof. exact order. Qed.
Print Assumptions C39_order.

(** C39.  An IPv4 address maps to its IPv4-mapped IPv6 address and back; an IPv6 address maps down exactly if it is mapped. *)
Theorem C39_map : forall a, addr_ok a -> a_fam a = AF_INET ->
  can_map a AF_INET6 = true /\ mapped a (set_family a AF_INET6) /\ addr_ok (set_family a AF_INET6) /\ set_family (set_family a AF_INET6) AF_INET = a.
Proof.
  intros a A F. destruct (map_up a A F) as (C & M & K). split; [exact C|]. split; [exact M|]. split; [exact K|]. apply map_down; assumption.
Qed.
Print Assumptions C39_map.
Theorem C39_map_down : forall v6, addr_ok v6 -> a_fam v6 = AF_INET6 ->
  (can_map v6 AF_INET = true <-> exists v4, mapped v4 v6) /\ (forall v4, mapped v4 v6 -> set_family v6 AF_INET = v4).
Proof.
  intros v6 A F. split; [split|].
  - intros C. exists (mkAddr AF_INET (skipn 12 (a_ip v6)) (a_port v6) (a_origin v6)). apply can_map_mapped; assumption.
  - intros (v4 & M). exact (proj1 (map_down v4 v6 A M)).
  - intros v4 M. exact (proj2 (map_down v4 v6 A M)).
Qed.
Print Assumptions C39_map_down.

Definition C39_v4 : addr := mkAddr AF_INET [192; 0; 2; 1] 1935 2.
Definition C39_v6 : addr := mkAddr AF_INET6 [32; 1; 13; 184; 0; 0; 0; 0; 0; 0; 0; 0; 0; 0; 0; 1] 80 1.
Lemma C39_v4_ok : addr_ok C39_v4.
Proof. constructor; [apply bytes_okb_ok; reflexivity|right; left; auto| |cbn; lia]. vm_compute. split; discriminate. Qed.
Lemma C39_v6_ok : addr_ok C39_v6.
Proof. constructor; [apply bytes_okb_ok; reflexivity|right; right; auto| |cbn; lia]. vm_compute. split; discriminate. Qed.
Example C39_case : addr_encode C39_v4 = [2; 192; 0; 2; 1; 7; 143] /\ addr_decode C39_v6 [2; 192; 0; 2; 1; 7; 143; 9] = Ok (C39_v4, 7%nat)
  /\ addr_lt C39_v4 C39_v6 = true /\ can_map C39_v6 AF_INET = false
  /\ a_ip (set_family C39_v4 AF_INET6) = [0; 0; 0; 0; 0; 0; 0; 0; 0; 0; 255; 255; 192; 0; 2; 1].
Proof. vm_compute. auto. Qed.
