(** Models of src/PacketAssembler.cpp, of the packet parser ISession::onReceivePacket (src/Session.cpp 39-90) and of the
    session-ID scrambling (src/Session.cpp 96-111, src/RTMFP.cpp 217-238). *)
From Verif Require Import Base VLU.

(** ** PacketAssembler *)

(** PacketAssembler.hpp 8-31.  Pointers are offsets from m_buf; m_limit is [length p_buf] (maxLen is the buffer's size). *)
Record packet := mkPacket {
  p_buf : list Z;
  p_margin : nat;
  p_cursor : nat;
  p_chunk : option nat;   (* m_currentChunkStart, None = nullptr *)
  p_flags : option nat    (* m_flags, None = nullptr *)
}.

(** A store through a pointer: outside the buffer it is undefined behaviour. *)
Fixpoint store (buf : list Z) (i : nat) (b : Z) : res (list Z) :=
  match buf, i with
  | [], _ => UB
  | _ :: r, O => Ok (b :: r)
  | x :: r, S i' => match store r i' b with Ok r' => Ok (x :: r') | Rej => Rej | UB => UB end
  end.

(** *m_cursor++ = b *)
Definition put (p : packet) (b : Z) : res packet :=
  match store (p_buf p) (p_cursor p) b with
  | Ok buf => Ok (mkPacket buf (p_margin p) (S (p_cursor p)) (p_chunk p) (p_flags p))
  | Rej => Rej
  | UB => UB
  end.
Fixpoint put_all (p : packet) (l : list Z) : res packet :=
  match l with
  | [] => Ok p
  | b :: r => match put p b with Ok p' => put_all p' r | Rej => Rej | UB => UB end
  end.

(** PacketAssembler.cpp 13-21: init.  [buf] is the caller's memory, of length maxLen. *)
Definition pa_init (buf : list Z) (frontMargin : nat) : packet := mkPacket buf frontMargin frontMargin None None.

(** PacketAssembler.cpp 23-46: init with header.  [ts], [tse] negative means absent. *)
Definition pa_init_header (buf : list Z) (frontMargin : nat) (flags_ ts tse : Z) : res packet :=
  let p := pa_init buf frontMargin in
  let f0 := Z.land flags_ (Z.lxor 255 (Z.lor 8 4)) in
  let f1 := if ts >=? 0 then Z.lor f0 8 else f0 in
  let f2 := if tse >=? 0 then Z.lor f1 4 else f1 in
  match put p f2 with
  | Ok p1 =>
      let p1 := mkPacket (p_buf p1) (p_margin p1) (p_cursor p1) (p_chunk p1) (Some (p_cursor p)) in
      match (if ts >=? 0 then put_all p1 [Z.land (Z.shiftr ts 8) 255; Z.land ts 255] else Ok p1) with
      | Ok p2 => if tse >=? 0 then put_all p2 [Z.land (Z.shiftr tse 8) 255; Z.land tse 255] else Ok p2
      | Rej => Rej
      | UB => UB
      end
  | Rej => Rej
  | UB => UB
  end.

(** PacketAssembler.cpp 135-138: remaining, a size_t. *)
Definition pa_remaining (p : packet) : Z := wrap64 (zlen (p_buf p) - Z.of_nat (p_cursor p)).

(** Operations answer the new packet and whether they succeeded. *)

(** PacketAssembler.cpp 48-59: startChunk. *)
Definition pa_start_chunk (p : packet) (type_ : Z) : res (packet * bool) :=
  if pa_remaining p <? 3 then Ok (p, false)
  else match put_all p [type_; 0; 0] with
       | Ok p' => Ok (mkPacket (p_buf p') (p_margin p') (p_cursor p') (Some (p_cursor p')) (p_flags p'), true)
       | Rej => Rej
       | UB => UB
       end.

(** PacketAssembler.cpp 61-67, 69-83: push of a byte, of a block. *)
Definition pa_push_byte (p : packet) (b : Z) : res (packet * bool) :=
  if pa_remaining p <? 1 then Ok (p, false)
  else match put p b with Ok p' => Ok (p', true) | Rej => Rej | UB => UB end.
Definition pa_push (p : packet) (l : list Z) : res (packet * bool) :=
  if pa_remaining p <? zlen l then Ok (p, false)
  else match put_all p l with Ok p' => Ok (p', true) | Rej => Rej | UB => UB end.

(** PacketAssembler.cpp 101-106: pushVLU. *)
Definition pa_push_vlu (p : packet) (v : Z) : res (packet * bool) :=
  match vlu_encode_raw v with Ok l => pa_push p l | Rej => Rej | UB => UB end.

(** PacketAssembler.cpp 85-99: pushField.  The cursor (only) is restored on failure. *)
Definition pa_push_field (p : packet) (l : list Z) : res (packet * bool) :=
  match pa_push_vlu p (zlen l) with
  | Ok (p1, true) =>
      match pa_push p1 l with
      | Ok (p2, true) => Ok (p2, true)
      | Ok (p2, false) => Ok (mkPacket (p_buf p2) (p_margin p2) (p_cursor p) (p_chunk p2) (p_flags p2), false)
      | Rej => Rej
      | UB => UB
      end
  | Ok (p1, false) => Ok (mkPacket (p_buf p1) (p_margin p1) (p_cursor p) (p_chunk p1) (p_flags p1), false)
  | Rej => Rej
  | UB => UB
  end.

(** PacketAssembler.cpp 108-111: setTimeCriticalFlag; a null m_flags is undefined behaviour. *)
Definition pa_set_tc (p : packet) : res packet :=
  match p_flags p with
  | None => UB
  | Some i =>
      match nth_error (p_buf p) i with
      | None => UB
      | Some f =>
          match store (p_buf p) i (Z.lor f 128) with
          | Ok buf => Ok (mkPacket buf (p_margin p) (p_cursor p) (p_chunk p) (p_flags p))
          | Rej => Rej
          | UB => UB
          end
      end
  end.

(** PacketAssembler.cpp 118-124: commitChunk; with no chunk started it is undefined behaviour. *)
Definition pa_commit (p : packet) : res packet :=
  match p_chunk p with
  | None => UB
  | Some s =>
      let len := wrap64 (Z.of_nat (p_cursor p) - Z.of_nat s) in
      if (Nat.ltb s 2) then UB else
      match store (p_buf p) (s - 2) (Z.land (Z.shiftr len 8) 255) with
      | Ok b1 =>
          match store b1 (s - 1) (Z.land len 255) with
          | Ok b2 => Ok (mkPacket b2 (p_margin p) (p_cursor p) None (p_flags p))
          | Rej => Rej
          | UB => UB
          end
      | Rej => Rej
      | UB => UB
      end
  end.

(** PacketAssembler.cpp 126-133: rollbackChunk. *)
Definition pa_rollback (p : packet) : res packet :=
  match p_chunk p with
  | None => Ok p
  | Some s => if Nat.ltb s 3 then UB else Ok (mkPacket (p_buf p) (p_margin p) (s - 3) None (p_flags p))
  end.

(** PacketAssembler.cpp 140-143: toVector. *)
Definition pa_to_vector (p : packet) : list Z := firstn (p_cursor p) (p_buf p).

(** One call of the interface. *)
Inductive pa_op :=
| OpStart (type_ : Z) | OpPushByte (b : Z) | OpPush (l : list Z) | OpPushVLU (v : Z) | OpPushField (l : list Z)
| OpCommit | OpRollback | OpSetTC.
Definition lift_true (r : res packet) : res (packet * bool) :=
  match r with Ok p => Ok (p, true) | Rej => Rej | UB => UB end.
Definition pa_step (p : packet) (o : pa_op) : res (packet * bool) :=
  match o with
  | OpStart t => pa_start_chunk p t
  | OpPushByte b => pa_push_byte p b
  | OpPush l => pa_push p l
  | OpPushVLU v => pa_push_vlu p v
  | OpPushField l => pa_push_field p l
  | OpCommit => lift_true (pa_commit p)
  | OpRollback => lift_true (pa_rollback p)
  | OpSetTC => lift_true (pa_set_tc p)
  end.

(** A caller that tries to add one chunk: start it, push its pieces, commit when everything fitted, otherwise roll back.
    This is the pattern of every chunk assembly in Session.cpp, SendFlow.cpp 391-512 and RecvFlow.cpp 427-486. *)
Fixpoint pa_pushes (p : packet) (pieces : list pa_op) : res (packet * bool) :=
  match pieces with
  | [] => Ok (p, true)
  | o :: r => match pa_step p o with
              | Ok (p', true) => pa_pushes p' r
              | Ok (p', false) => Ok (p', false)
              | Rej => Rej
              | UB => UB
              end
  end.
Definition pa_try_chunk (p : packet) (type_ : Z) (pieces : list pa_op) : res (packet * bool) :=
  match pa_start_chunk p type_ with
  | Ok (p1, true) =>
      match pa_pushes p1 pieces with
      | Ok (p2, true) => lift_true (pa_commit p2)
      | Ok (p2, false) => match pa_rollback p2 with Ok p3 => Ok (p3, false) | Rej => Rej | UB => UB end
      | Rej => Rej
      | UB => UB
      end
  | Ok (p1, false) => Ok (p1, false)
  | Rej => Rej
  | UB => UB
  end.
(** A packet is a sequence of such attempts. Answers which of them succeeded. *)
Fixpoint pa_try_chunks (p : packet) (cs : list (Z * list pa_op)) : res (packet * list bool) :=
  match cs with
  | [] => Ok (p, [])
  | (t, pieces) :: r =>
      match pa_try_chunk p t pieces with
      | Ok (p', b) => match pa_try_chunks p' r with Ok (p'', bs) => Ok (p'', b :: bs) | Rej => Rej | UB => UB end
      | Rej => Rej
      | UB => UB
      end
  end.

(** ** Packet parser *)

(** Read one byte at the cursor; at the limit there is none. *)
Definition rd (l : list Z) : res (Z * list Z) := match l with [] => UB | b :: r => Ok (b, r) end.
(** cursor[0], cursor[1] and cursor += 2 *)
Definition rd2 (l : list Z) : res (Z * list Z) :=
  match rd l with
  | Ok (a, l1) => match rd l1 with Ok (b, l2) => Ok (Z.shiftl a 8 + b, l2) | Rej => Rej | UB => UB end
  | Rej => Rej
  | UB => UB
  end.

(** Session.cpp 74-85: the chunk loop.  Answers the (type, payload) pairs given to onChunk. *)
Fixpoint chunk_loop (fuel : nat) (cur : list Z) : res (list (Z * list Z)) :=
  match fuel with
  | O => UB
  | S fuel' =>
      if zlen cur >=? 3 then
        match rd cur with
        | Ok (ty, c1) =>
            match rd2 c1 with
            | Ok (len, c2) =>
                if len >? zlen c2 then Ok []
                else if zlen c2 <? len then UB (* payload past the limit *)
                else match chunk_loop fuel' (skipn (Z.to_nat len) c2) with
                     | Ok cs => Ok ((ty, firstn (Z.to_nat len) c2) :: cs)
                     | Rej => Rej
                     | UB => UB
                     end
            | Rej => Rej
            | UB => UB
            end
        | Rej => Rej
        | UB => UB
        end
      else Ok []
  end.

(** What the parser reports. Absent time stamps are -1. *)
Record parsed := mkParsed { h_flags : Z; h_ts : Z; h_tse : Z; h_chunks : list (Z * list Z) }.

(** Session.cpp 39-90: onReceivePacket after decryption; [l] is decryptBuf[0..decryptedLen).  [accept] is the answer of
    the virtual onPacketHeader. *)
Definition parse_packet (accept : Z -> Z -> Z -> bool) (l : list Z) (frontMargin : nat) : res parsed :=
  if Nat.leb (length l) frontMargin then Rej
  else
    match rd (skipn frontMargin l) with
    | Ok (flags, c0) =>
        let ts_part := if Z.land flags 8 =? 0 then Ok (-1, c0) else if zlen c0 <? 2 then Rej else rd2 c0 in
        match ts_part with
        | Ok (ts, c1) =>
            let tse_part := if Z.land flags 4 =? 0 then Ok (-1, c1) else if zlen c1 <? 2 then Rej else rd2 c1 in
            match tse_part with
            | Ok (tse, c2) =>
                if accept flags ts tse then
                  match chunk_loop (S (length c2)) c2 with
                  | Ok cs => Ok (mkParsed flags ts tse cs)
                  | Rej => Rej
                  | UB => UB
                  end
                else Rej
            | Rej => Rej
            | UB => UB
            end
        | Rej => Rej
        | UB => UB
        end
    | Rej => Rej
    | UB => UB
    end.

(** ** Session-ID scrambling.  A uint32_t is its 4 bytes in memory order; xor of words is bytewise. *)
Fixpoint xor_bytes (a b : list Z) : list Z :=
  match a, b with x :: a', y :: b' => Z.lxor x y :: xor_bytes a' b' | _, _ => [] end.
(** memmove(word, bytes, min(len, sizeof)) into zeroed memory *)
Definition zpad (n : nat) (l : list Z) : list Z := firstn n (l ++ repeat 0 n).

(** Session.cpp 105-110: the datagram for ciphertext [dst]. *)
Definition scramble (sid : list Z) (dst : list Z) : list Z :=
  let w := zpad 8 (firstn 8 dst) in
  xor_bytes (xor_bytes sid (firstn 4 w)) (skipn 4 w) ++ dst.

(** RTMFP.cpp 217-237: session ID and ciphertext of a datagram. *)
Definition unscramble (datagram : list Z) : res (list Z * list Z) :=
  if zlen datagram <? 4 then Rej
  else
    let w := zpad 12 (firstn 12 datagram) in
    Ok (xor_bytes (xor_bytes (firstn 4 w) (firstn 4 (skipn 4 w))) (skipn 8 w), skipn 4 datagram).
