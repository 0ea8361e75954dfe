(** What a receiver must learn from the user-data chunks of one packet. *)
From Verif Require Import Base VLU VLUSpec Packet PacketSpec UserData.

(** A fragment the sender can hold: flag byte made of fragment control, ABN and FIN; a 64-bit number not before the forward
    sequence number. *)
Definition frame_ok (fsn : Z) (fr : frame) : Prop :=
  (exists fra abn fin, In fra [0; 16; 32; 48] /\ In abn [0; 2] /\ In fin [0; 1] /\ fr_flags fr = fra + abn + fin)
  /\ is_u64 (fr_seq fr) /\ fsn <= fr_seq fr /\ bytes_ok (fr_data fr).

(** What flow startup options say. *)
Definition sup := option (list Z * option Z).
Definition sup_bytes (s : sup) : list Z := match s with None => [] | Some (m, a) => startup_options m a end.
Definition sup_ok (s : sup) : Prop :=
  match s with None => True | Some (m, a) => bytes_ok m /\ zlen m <= 65535 /\ match a with None => True | Some id => is_u64 id end end.

(** The fragment as the receiver must see it: the options go with the first fragment of the packet only, and abandoned fragments
    have no data. *)
Definition received (flow fsn : Z) (s : sup) (fr : frame) : udata :=
  mkUD (fr_flags fr + match s with None => 0 | Some _ => 128 end) flow (fr_seq fr) fsn
    match s with Some (_, a) => a | None => None end
    match s with Some (m, _) => Some m | None => None end
    (if Z.odd (fr_flags fr / 2) then [] else fr_data fr) false.
Definition received_all (flow fsn : Z) (s : sup) (frs : list frame) : list udata :=
  match frs with [] => [] | fr :: r => received flow fsn s fr :: map (received flow fsn None) r end.

(** [u]'s data are the last bytes of the chunk it came from. *)
Definition data_inside (u : udata) (l : list Z) : Prop := exists hd, l = hd ++ u_data u.
