(** Specification vocabulary for addresses. *)
From Verif Require Import Base Address.

(** An address: none, IPv4 or IPv6, with as many address bytes as the family has. *)
Record addr_ok (a : addr) : Prop := {
  ak_ip : bytes_ok (a_ip a);
  ak_fam : (a_fam a = 0 /\ a_ip a = [] /\ a_port a = 0) \/ (a_fam a = AF_INET /\ length (a_ip a) = 4%nat) \/ (a_fam a = AF_INET6 /\ length (a_ip a) = 16%nat);
  ak_port : is_u16 (a_port a);
  ak_origin : 0 <= a_origin a <= 3 }.
(** Two addresses are the same socket address (the origin does not count). *)
Definition same_addr (a b : addr) : Prop := a_fam a = a_fam b /\ a_ip a = a_ip b /\ a_port a = a_port b.
(** An IPv4-mapped IPv6 address. *)
Definition mapped (v4 v6 : addr) : Prop :=
  a_fam v4 = AF_INET /\ a_fam v6 = AF_INET6 /\ a_ip v6 = [0; 0; 0; 0; 0; 0; 0; 0; 0; 0; 255; 255] ++ a_ip v4 /\ a_port v6 = a_port v4 /\ a_origin v6 = a_origin v4.
(** The wire form of an address (RFC 7016 section 2.2.3). *)
Definition wire_addr (a : addr) (flags : Z) (w : list Z) : Prop :=
  exists p0 p1, w = flags :: a_ip a ++ [p0; p1] /\ is_byte p0 /\ is_byte p1 /\ a_port a = 256 * p0 + p1
    /\ Z.testbit flags 7 = (a_fam a =? AF_INET6) /\ flags mod 4 = a_origin a.
