(** What a packet under construction is, independently of cursors and buffers. *)
From Verif Require Import Base VLU Packet.

(** Finished bytes and possibly one chunk under construction (its type and payload so far). *)
Record apacket := mkA { a_cap : Z; a_done : list Z; a_open : option (Z * list Z); a_flag : option nat }.

Definition a_bytes (a : apacket) : list Z :=
  a_done a ++ match a_open a with None => [] | Some (t, pl) => [t; 0; 0] ++ pl end.

(** Append to the chunk being built, or to the packet itself when there is none. *)
Definition a_append (a : apacket) (l : list Z) : apacket :=
  match a_open a with
  | None => mkA (a_cap a) (a_done a ++ l) None (a_flag a)
  | Some (t, pl) => mkA (a_cap a) (a_done a) (Some (t, pl ++ l)) (a_flag a)
  end.
(** Succeeds exactly when it fits; otherwise nothing changes. *)
Definition a_try (a : apacket) (l : list Z) : apacket * bool :=
  if zlen (a_bytes a) + zlen l <=? a_cap a then (a_append a l, true) else (a, false).

(** 16-bit big-endian length *)
Definition be16 (n : Z) : list Z := [(n / 256) mod 256; n mod 256].
Definition chunk_bytes (t : Z) (pl : list Z) : list Z := t :: be16 (zlen pl) ++ pl.

Fixpoint or_at (l : list Z) (i : nat) (m : Z) : list Z :=
  match l, i with [], _ => [] | x :: r, O => Z.lor x m :: r | x :: r, S i' => x :: or_at r i' m end.

Definition a_step (a : apacket) (o : pa_op) : apacket * bool :=
  match o with
  | OpStart t =>
      if zlen (a_bytes a) + 3 <=? a_cap a then (mkA (a_cap a) (a_bytes a) (Some (t, [])) (a_flag a), true) else (a, false)
  | OpPushByte b => a_try a [b]
  | OpPush l => a_try a l
  | OpPushVLU v => a_try a (vlu_encode v)
  | OpPushField l => a_try a (vlu_encode (zlen l) ++ l)
  | OpCommit =>
      match a_open a with
      | Some (t, pl) => (mkA (a_cap a) (a_done a ++ chunk_bytes t pl) None (a_flag a), true)
      | None => (a, true)
      end
  | OpRollback => (mkA (a_cap a) (a_done a) None (a_flag a), true)
  | OpSetTC =>
      match a_flag a with
      | Some i => (mkA (a_cap a) (or_at (a_done a) i 128) (a_open a) (a_flag a), true)
      | None => (a, true)
      end
  end.

(** Calls the interface permits: commit only with a chunk open, the flag only with a header, uintmax_t values. *)
Definition op_allowed (a : apacket) (o : pa_op) : Prop :=
  match o with
  | OpPushVLU v => is_u64 v
  | OpPushField l => zlen l <= U64MAX
  | OpCommit => a_open a <> None
  | OpSetTC => a_flag a <> None
  | _ => True
  end.
Fixpoint a_run (a : apacket) (os : list pa_op) : apacket * list bool :=
  match os with
  | [] => (a, [])
  | o :: r => let (a', b) := a_step a o in let (a'', bs) := a_run a' r in (a'', b :: bs)
  end.
Fixpoint ops_allowed (a : apacket) (os : list pa_op) : Prop :=
  match os with [] => True | o :: r => op_allowed a o /\ ops_allowed (fst (a_step a o)) r end.

(** The model run over a script of calls. *)
Fixpoint pa_run (p : packet) (os : list pa_op) : res (packet * list bool) :=
  match os with
  | [] => Ok (p, [])
  | o :: r =>
      match pa_step p o with
      | Ok (p', b) => match pa_run p' r with Ok (p'', bs) => Ok (p'', b :: bs) | Rej => Rej | UB => UB end
      | Rej => Rej
      | UB => UB
      end
  end.

(** A header as the protocol describes it: flags byte, then 16-bit time stamp and time stamp echo when present. *)
Definition header_flags (flags : Z) (ts tse : Z) : Z :=
  Z.land flags 243 + (if ts >=? 0 then 8 else 0) + (if tse >=? 0 then 4 else 0).
Definition header_bytes (flags ts tse : Z) : list Z :=
  header_flags flags ts tse :: (if ts >=? 0 then be16 ts else []) ++ (if tse >=? 0 then be16 tse else []).

(** Bytes contributed by a piece of a chunk. *)
Definition piece_bytes (o : pa_op) : list Z :=
  match o with
  | OpPushByte b => [b]
  | OpPush l => l
  | OpPushVLU v => vlu_encode v
  | OpPushField l => vlu_encode (zlen l) ++ l
  | _ => []
  end.
Definition pieces_bytes (os : list pa_op) : list Z := flat_map piece_bytes os.
Definition is_piece (o : pa_op) : Prop :=
  match o with
  | OpPushByte b => is_byte b
  | OpPush l => bytes_ok l
  | OpPushVLU v => is_u64 v
  | OpPushField l => bytes_ok l /\ zlen l <= U64MAX
  | _ => False
  end.
(** Select the chunks that were reported as added. *)
Fixpoint added (cs : list (Z * list pa_op)) (bs : list bool) : list (Z * list Z) :=
  match cs, bs with
  | (t, pieces) :: cs', b :: bs' => if b then (t, pieces_bytes pieces) :: added cs' bs' else added cs' bs'
  | _, _ => []
  end.
(** Chunks are added greedily: one is added exactly when its 3-byte header and its payload fit in what is left. *)
Fixpoint greedy (cap used : Z) (cs : list (Z * list pa_op)) : list bool :=
  match cs with
  | [] => []
  | (t, pieces) :: r =>
      let used' := used + 3 + zlen (pieces_bytes pieces) in
      if used' <=? cap then true :: greedy cap used' r else false :: greedy cap used r
  end.

(** A sequence of chunks on the wire. *)
Definition chunks_bytes (cs : list (Z * list Z)) : list Z := flat_map (fun c => chunk_bytes (fst c) (snd c)) cs.

(** A chunk the wire format can carry. *)
Definition chunk_ok (c : Z * list Z) : Prop := is_byte (fst c) /\ bytes_ok (snd c) /\ zlen (snd c) <= 65535.

(** Every payload lies inside the input. *)
Fixpoint chunks_inside (cs : list (Z * list Z)) (l : list Z) : Prop :=
  match cs with
  | [] => True
  | (t, pl) :: cs' => exists h1 h2 rest, l = t :: h1 :: h2 :: pl ++ rest /\ h1 * 256 + h2 = zlen pl /\ chunks_inside cs' rest
  end.
