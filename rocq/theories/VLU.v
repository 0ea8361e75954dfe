(** Model of src/VLU.cpp: variable length unsigned integers, length-prefixed fields and options. *)
From Verif Require Import Base.

(** include/rtmfp/VLU.hpp: line 14: MAX_VLU_SIZE = ((sizeof(uintmax_t) * 8) + 7) / 7 = 10 *)
Definition MAX_VLU_SIZE : nat := 10.

(** VLU.cpp 17-23: the do/while loop of VLU::encode.  [room] is the number of cells of [buf] that are still below
    [i]; storing when there is none (i < 0) is undefined behaviour.  [acc] is buf[i..]. *)
Fixpoint encode_loop (room : nat) (val : Z) (rv : nat) (acc : list Z) : res (list Z) :=
  match room with
  | O => UB
  | S room' =>
      let b := Z.lor (Z.land val 127) (if Nat.eqb rv 0 then 0 else 128) in
      let val' := Z.shiftr val 7 in
      if Z.eqb val' 0 then Ok (b :: acc) else encode_loop room' val' (S rv) (b :: acc)
  end.

(** VLU.cpp 11-29: VLU::encode; the bytes moved to dst, whose number is the returned size. *)
Definition vlu_encode_raw (val : Z) : res (list Z) := encode_loop MAX_VLU_SIZE val 0 [].

(** The encoded bytes; C01 proves the [UB] case does not occur for a uintmax_t. *)
Definition vlu_encode (val : Z) : list Z :=
  match vlu_encode_raw val with Ok l => l | Rej => [] | UB => [] end.

(** VLU.cpp 31-36: VLU::append. *)
Definition vlu_append (val : Z) (dst : list Z) : list Z := dst ++ vlu_encode val.

(** Memory: address to byte; [None] is an address that must not be read. *)
Definition mem := nat -> option Z.

(** VLU.cpp 45-55: the loop of VLU::parse with a non-null limit; [fuel] bounds the iterations and running out of it
    is reported as [UB].  Answers the final (src, value, rv, saturated). *)
Fixpoint vlu_parse_loop (fuel : nat) (m : mem) (src limit : nat) (value : Z) (rv : nat) (saturated : bool)
  : res (nat * Z * nat * bool) :=
  match fuel with
  | O => UB
  | S fuel' =>
      if Nat.ltb src limit then
        match m src with
        | None => UB
        | Some b =>
            let saturated' := if value >? U64MAX / 128 then true else saturated in
            let value' := wrap64 (wrap64 (Z.shiftl value 7) + Z.land b 127) in
            if Z.eqb (Z.land b 128) 0 then Ok (src, value', S rv, saturated')
            else vlu_parse_loop fuel' m (S src) limit value' (S rv) saturated'
        end
      else Ok (src, value, rv, saturated)
  end.

(** VLU.cpp 38-67: VLU::parse.  [Rej] is the answer 0.  Simplification: limit is not null (every caller in src/ passes one). *)
Definition vlu_parse_mem (m : mem) (src limit : nat) (saturate : bool) : res (Z * nat) :=
  match vlu_parse_loop (S (limit - src)) m src limit 0 0 false with
  | Ok (src', value, rv, saturated) =>
      if Nat.leb limit src' then Rej
      else Ok (if saturated && saturate then U64MAX else value, rv)
  | Rej => Rej
  | UB => UB
  end.

(** The memory that holds exactly the bytes of [l] from address 0; everything else may not be read. *)
Definition mem_of (l : list Z) : mem := fun i => nth_error l i.

(** VLU::parse on a buffer: src at its first byte and limit at its end. *)
Definition vlu_parse (l : list Z) : res (Z * nat) := vlu_parse_mem (mem_of l) 0 (length l) true.

(** VLU.cpp 69-88: VLU::parseField.  Answers (payload, bytes consumed).  The slice [skipn rv l] is cursor..limit. *)
Definition vlu_parse_field (l : list Z) : res (list Z * nat) :=
  match vlu_parse l with
  | UB => UB
  | Rej => Rej
  | Ok (fieldLength, rv) =>
      let cursor := skipn rv l in
      if fieldLength >? zlen cursor then Rej
      else if zlen cursor <? fieldLength then UB (* payload would extend past the limit *)
      else Ok (firstn (Z.to_nat fieldLength) cursor, (rv + Z.to_nat fieldLength)%nat)
  end.

(** VLU.cpp 90-120: Option::parse.  Answers (type, value, consumed); value [None] is the null pointer (end marker). *)
Definition option_parse (l : list Z) : res (Z * option (list Z) * nat) :=
  match vlu_parse_field l with
  | UB => UB
  | Rej => Rej
  | Ok (payload, consumed) =>
      if Nat.eqb (length payload) 0 then Ok (0, None, consumed)
      else match vlu_parse payload with
           | UB => UB
           | Rej => Rej
           | Ok (ty, rv) => Ok (ty, Some (skipn rv payload), consumed)
           end
  end.

(** VLU.cpp 122-134: Option::append(type, value, valueLen, dst). *)
Definition option_append (ty : Z) (value : list Z) (dst : list Z) : list Z :=
  let typeVLU := vlu_encode ty in
  let lenVLU := vlu_encode (zlen typeVLU + zlen value) in
  ((dst ++ lenVLU) ++ typeVLU) ++ value.

(** VLU.cpp 141-146: Option::append(type, uintmax_t value, dst). *)
Definition option_append_vlu (ty value : Z) (dst : list Z) : list Z := option_append ty (vlu_encode value) dst.

(** VLU.cpp 153-156: Option::append(dst), the end marker. *)
Definition option_append_end (dst : list Z) : list Z := vlu_append 0 dst.

(** The option reading loop used throughout the code, e.g. RTMFP.cpp, Session.cpp 1905-1925, Media.cpp 85-95:
      while((cursor < limit) and (rv = Option::parse(...)) and value) ...
    Answers the options read up to the end marker or the end of input, and what is left after the marker. [Rej] when a
    field is malformed. *)
Fixpoint option_list_parse (fuel : nat) (l : list Z) : res (list (Z * list Z) * list Z) :=
  match fuel with
  | O => UB
  | S fuel' =>
      match l with
      | [] => Ok ([], [])
      | _ =>
          match option_parse l with
          | UB => UB
          | Rej => Rej
          | Ok (_, None, n) => Ok ([], skipn n l)
          | Ok (ty, Some v, n) =>
              match option_list_parse fuel' (skipn n l) with
              | Ok (os, rest) => Ok ((ty, v) :: os, rest)
              | Rej => Rej
              | UB => UB
              end
          end
      end
  end.
Definition options_parse (l : list Z) := option_list_parse (S (length l)) l.

(** Option list written with Option::append, one after the other. *)
Fixpoint options_append (os : list (Z * list Z)) (dst : list Z) : list Z :=
  match os with [] => dst | (ty, v) :: os' => options_append os' (option_append ty v dst) end.
