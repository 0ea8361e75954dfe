(** The chunks of the startup handshake on the wire (RFC 7016 sections 2.3.2 to 2.3.10), independently of the code. *)
From Verif Require Import Base VLUSpec Address AddressSpec.

(** Bytes with their length in front; the length may be written with leading zero groups. *)
Definition field_wire (l w : list Z) : Prop := exists L, complete_vlu L /\ groups_value L = zlen l /\ w = L ++ l.
(** A 32-bit number, least significant byte first (session IDs are opaque; this is the order of a little-endian host) *)
Definition id_wire (x : Z) (w : list Z) : Prop :=
  exists a b c d, w = [a; b; c; d] /\ is_byte a /\ is_byte b /\ is_byte c /\ is_byte d /\ x = a + 256 * b + 65536 * c + 16777216 * d.
Definition ihello_wire (epd tag w : list Z) : Prop := exists f, field_wire epd f /\ w = f ++ tag.
Definition rhello_wire (tag cookie cert w : list Z) : Prop := exists f g, field_wire tag f /\ field_wire cookie g /\ w = f ++ g ++ cert.
Inductive addrs_wire : list addr -> list Z -> Prop :=
| aw_nil : addrs_wire [] []
| aw_cons : forall a f w r rest, addr_ok a -> a_fam a <> 0 -> wire_addr a f w -> addrs_wire r rest -> addrs_wire (a :: r) (w ++ rest).
Definition redirect_wire (tag : list Z) (addrs : list addr) (w : list Z) : Prop := exists f g, field_wire tag f /\ addrs_wire addrs g /\ w = f ++ g.
(** What the initiator signs, and the chunk *)
Definition ii_signed_wire (isid : Z) (cookie cert skic w : list Z) : Prop :=
  exists i f g h, id_wire isid i /\ field_wire cookie f /\ field_wire cert g /\ field_wire skic h /\ w = i ++ f ++ g ++ h.
(** The part of the responder's keying that it signs (followed by the initiator's component) *)
Definition ri_signed_wire (rsid : Z) (skrc w : list Z) : Prop := exists i f, id_wire rsid i /\ field_wire skrc f /\ w = i ++ f.
Definition fihello_wire (epd : list Z) (a : addr) (tag w : list Z) : Prop := exists f g x, field_wire epd f /\ addr_ok a /\ a_fam a <> 0 /\ wire_addr a x g /\ w = f ++ g ++ tag.
(** Lengths that a C++ object can have *)
Definition sized (l : list Z) : Prop := bytes_ok l /\ zlen l < U64MAX.
