(** Specification vocabulary for mobility and for the tables of open sessions. *)
From Verif Require Import Base VLU Address AddressSpec Packet PacketSpec Mobility.

(** What is hashed to make the check of second [ts] for interface [ifc] and address [a], and the check itself. *)
Definition sealed (secret : list Z) (ts ifc : Z) (a : addr) : list Z := 77 :: vlu_encode ts ++ vlu_encode ifc ++ addr_encode (mkAddr (a_fam a) (a_ip a) (a_port a) 0) ++ secret.
Definition proof (sha : list Z -> list Z) (secret : list Z) (ts ifc : Z) (a : addr) : list Z := 77 :: vlu_encode ts ++ sha (sealed secret ts ifc a).

(** The packet carries, somewhere, a chunk of this type with this payload. *)
Definition carries (l : list Z) (ty : Z) (pl : list Z) : Prop := exists pre h1 h2 post, l = pre ++ ty :: h1 :: h2 :: pl ++ post /\ h1 * 256 + h2 = zlen pl.

(** The hash answers 32 bytes. *)
Definition hash32m (sha : list Z -> list Z) : Prop := forall l, bytes_ok (sha l) /\ length (sha l) = 32%nat.
(** An interface number (an int that is not negative), a time whose whole seconds fit uintmax_t with room for the life time of
    a check, an address with a family. *)
Definition ifc_ok (i : Z) : Prop := 0 <= i < 2147483648.
Definition time_ok (age : Z) : Prop := 0 <= age /\ age / 1000000 + 120 <= U64MAX.
Definition place_ok (a : addr) : Prop := addr_ok a /\ a_fam a <> 0.
Definition mevent_ok (e : mevent) : Prop :=
  match e with
  | MInitiated ifc a epd | MAccepted ifc a epd _ => ifc_ok ifc /\ place_ok a
  | MPacket n age ifc a margin l => time_ok age /\ ifc_ok ifc /\ place_ok a /\ bytes_ok l
  | MReused _ | MClosed _ => True
  end.
(** Time does not go back: the ages at which packets come. *)
Fixpoint in_order (t : Z) (l : list mevent) : Prop :=
  match l with
  | [] => True
  | MPacket _ age _ _ _ _ :: r => t <= age /\ in_order age r
  | _ :: r => in_order t r
  end.

(** The instance made, in one of its sessions, the check for this text. *)
Definition was_sealed (secret : list Z) (i : inst) (x : list Z) : Prop :=
  exists m ts ifc a pk, In (m, MCheck ts ifc a pk) (i_out i) /\ x = sealed secret ts ifc a.
(** The hash can not be forged: a packet holds the hash of a text that ends in the secret only if the instance hashed that text. *)
Definition unforged (sha : list Z -> list Z) (secret : list Z) (i : inst) (e : mevent) : Prop :=
  match e with
  | MPacket n age ifc a margin l => forall ts pre post, is_u64 ts -> l = pre ++ proof sha secret ts ifc a ++ post -> was_sealed secret i (sealed secret ts ifc a)
  | _ => True
  end.

(** The seconds of the checks that session [n] sent, and of the checks by which it moved, in order. *)
Fixpoint checks_of (n : nat) (o : list (nat * mout)) : list Z :=
  match o with
  | [] => []
  | (m, MCheck ts _ _ _) :: r => if (m =? n)%nat then ts :: checks_of n r else checks_of n r
  | _ :: r => checks_of n r
  end.
Fixpoint moves_of (n : nat) (o : list (nat * mout)) : list Z :=
  match o with
  | [] => []
  | (m, MMoved ts _ _) :: r => if (m =? n)%nat then ts :: moves_of n r else moves_of n r
  | _ :: r => moves_of n r
  end.
Fixpoint rising (lo : Z) (l : list Z) : Prop := match l with [] => True | x :: r => lo < x /\ rising x r end.

(** The time of the last packet. *)
Fixpoint last_time (t : Z) (l : list mevent) : Z := match l with [] => t | MPacket _ age _ _ _ _ :: r => last_time age r | _ :: r => last_time t r end.

(** Session [n] is this; it is open, with this address; it is open, with this endpoint. *)
Definition session_is (i : inst) (n : nat) (p : peer) : Prop := nth_error (i_sess i) n = Some p.
Definition open_at (i : inst) (n : nat) (a : addr) : Prop := exists p, nth_error (i_sess i) n = Some p /\ m_up p = true /\ same_addr (m_addr p) a.
Definition open_as (i : inst) (n : nat) (epd : list Z) : Prop := exists p, nth_error (i_sess i) n = Some p /\ m_up p = true /\ m_epd p = epd.
(** A session came to an address by an event: it was opened there, opened again, or moved there. *)
Definition came (i : inst) (e : mevent) (new : list (nat * mout)) (m : nat) (a : addr) : Prop :=
  match e with
  | MInitiated _ b _ | MAccepted _ b _ _ => m = length (i_sess i) /\ a = b
  | MReused epd => by_epd i epd = Some m /\ exists p, nth_error (i_sess i) m = Some p /\ m_addr p = a
  | MPacket _ _ _ _ _ _ => exists ts ifc, In (m, MMoved ts ifc a) new
  | MClosed _ => False
  end.

(** A packet: margin, header, chunks, padding. *)
Definition packet_of (margin : list Z) (flags ts tse : Z) (chunks : list Z) (pad : nat) : list Z := margin ++ header_bytes flags ts tse ++ chunks ++ repeat 255 pad.
(** A header a session of this role takes in: time stamps of 16 bits, and the mode of the other role. *)
Definition header_ok (role flags ts tse : Z) : Prop := is_byte flags /\ ts <= 65535 /\ tse <= 65535 /\ (flags mod 4 = 1 \/ flags mod 4 = 2) /\ flags mod 4 <> role.
(** A chunk that is neither a ping reply nor ends the session. *)
Definition ordinary (c : Z * list Z) : Prop := fst c <> 65 /\ fst c <> 12 /\ fst c <> 76.
