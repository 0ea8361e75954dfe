(** Model of AMF0 encoding and decoding (src/AMF.cpp 243-384 and each class's encode and setFromEncoding).  toJSON is in
    JSON.v; repr (text for people) without JSON is not modelled. *)
From Verif Require Import Base.
Open Scope res_scope.

(** include/rtmfp/AMF.hpp 133-380: values.  A Number is the 64-bit pattern of its double.  Strings are lists of bytes.  The
    members of an object are a std::map, here the list of entries in the order of the map; a shared_ptr in a map or vector may
    be empty ([None]). *)
Inductive amf :=
| ANum (u : Z) | ABool (b : bool) | AStr (s : list Z)
| AObj (m : list (list Z * option amf)) | ATyped (cls : list Z) (m : list (list Z * option amf)) | AEcma (m : list (list Z * option amf))
| ANull | AUndef | AArr (l : list (option amf)).

(** std::less<std::string>: bytes compared unsigned, a proper prefix is less *)
Fixpoint key_ltb (a b : list Z) : bool :=
  match a, b with
  | _, [] => false
  | [], _ :: _ => true
  | x :: r, y :: q => if x <? y then true else if y <? x then false else key_ltb r q
  end.
(** m_members[key] = value *)
Fixpoint map_put (m : list (list Z * option amf)) (k : list Z) (v : option amf) : list (list Z * option amf) :=
  match m with
  | [] => [(k, v)]
  | (k', v') :: r => if key_ltb k k' then (k, v) :: m else if key_ltb k' k then (k', v') :: map_put r k v else (k', v) :: r
  end.
(** 557-563: putValueAtKey *)
Definition put_key (m : list (list Z * option amf)) (v : option amf) (k : list Z) : list (list Z * option amf) :=
  if zlen k <? 65536 then map_put m k v else m.

(** the bytes (x >> n) & 0xff *)
Definition byt (x n : Z) : Z := Z.land (Z.shiftr x n) 255.

(** encode: what it appends to dst.  398-416 Number, 456-460 Boolean, 519-538 String, 607-611 Object, 640-657 members, 717-724
    TypedObject, 737-748 ECMAArray, 770-773 Null, 787-790 Undefined, 885-896 Array.  For arrays of 2^32 or more members the
    code's loop does not end; here it does (sizes below 2^32 are a hypothesis wherever it matters). *)
Definition enc_key (k : list Z) : list Z := [byt (zlen k) 8; byt (zlen k) 0] ++ k.
Fixpoint amf_encode (v : amf) : list Z :=
  let opt := fun o => match o with Some x => amf_encode x | None => [6] end in
  let members := fun m : list (list Z * option amf) => concat (map (fun p => enc_key (fst p) ++ opt (snd p)) m) ++ [0; 0; 9] in
  match v with
  | ANum u => [0; byt u 56; byt u 48; byt u 40; byt u 32; byt u 24; byt u 16; byt u 8; byt u 0]
  | ABool b => [1; if b then 1 else 0]
  | AStr s =>
      (if zlen s >? 65535 then [12; byt (zlen s) 24; byt (zlen s) 16; byt (zlen s) 8; byt (zlen s) 0] else [2; byt (zlen s) 8; byt (zlen s) 0]) ++ s
  | AObj m => [3] ++ members m
  | ATyped c m => [16] ++ enc_key c ++ members m
  | AEcma m => let n := Z.min (zlen m) U32MAX in [8; byt n 24; byt n 16; byt n 8; byt n 0] ++ members m
  | ANull => [5]
  | AUndef => [6]
  | AArr l => [10; byt (zlen l) 24; byt (zlen l) 16; byt (zlen l) 8; byt (zlen l) 0] ++ concat (map opt l)
  end.
(** 351-356: encode of a vector *)
Definition amf_encode_list (l : list (option amf)) : list Z := concat (map (fun o => match o with Some x => amf_encode x | None => [] end) l).

(** ** Decoding.  A cursor is the list of the bytes from it up to the limit; *cursor++ at the limit is [UB]. *)
Definition next (l : list Z) : res (Z * list Z) := match l with [] => UB | b :: r => Ok (b, r) end.
(** 418-442 *)
Definition acc8 (a : Z) (l : list Z) : res (Z * list Z) := ' (b, r) <- next l;; Ok (wrap64 (wrap64 (Z.shiftl a 8) + b), r).
Definition dec_number (l : list Z) : res (option amf * list Z) :=
  if zlen l <? 8 then Ok (None, l)
  else
    ' (a, r) <- next l;;
    ' (a, r) <- acc8 a r;; ' (a, r) <- acc8 a r;; ' (a, r) <- acc8 a r;; ' (a, r) <- acc8 a r;;
    ' (a, r) <- acc8 a r;; ' (a, r) <- acc8 a r;; ' (a, r) <- acc8 a r;;
    Ok (Some (ANum a), r).
(** 462-469 *)
Definition dec_boolean (l : list Z) : res (option amf * list Z) :=
  if zlen l <? 1 then Ok (None, l) else ' (b, r) <- next l;; Ok (Some (ABool (negb (b =? 0))), r).
(** 488-517: decodeString; std::string(cursor, n) with fewer than n bytes before the limit would be [UB] *)
Definition take (n : Z) (l : list Z) : res (list Z * list Z) :=
  if zlen l <? n then UB else Ok (firstn (Z.to_nat n) l, skipn (Z.to_nat n) l).
Definition dec_string (long : bool) (l : list Z) : res (option (list Z) * list Z) :=
  if (long : bool) then
    if zlen l <? 4 then Ok (None, l)
    else
      ' (n, r) <- next l;; ' (n, r) <- acc8 n r;; ' (n, r) <- acc8 n r;; ' (n, r) <- acc8 n r;;
      if zlen r <? n then Ok (None, l) else ' (s, r) <- take n r;; Ok (Some s, r)
  else
    if zlen l <? 2 then Ok (None, l)
    else
      ' (n, r) <- next l;; ' (n, r) <- acc8 n r;;
      if zlen r <? n then Ok (None, l) else ' (s, r) <- take n r;; Ok (Some s, r).

(** 659-689: AMF0Object::setFromEncoding; [dec] decodes a member.  Answers the members, or [None] for false, and the cursor. *)
Fixpoint dec_members (fuel : nat) (dec : list Z -> res (option amf * list Z)) (start l : list Z) (m : list (list Z * option amf))
  : res (option (list (list Z * option amf)) * list Z) :=
  match fuel with
  | O => UB
  | S k =>
      if zlen l >=? 3 then
        ' (n, r) <- next l;; ' (n, r) <- acc8 n r;;
        if zlen r <? n then Ok (None, start)
        else
          ' fin <- (if n =? 0 then ' (b, _) <- next r;; Ok (b =? 9) else Ok false);;
          if (fin : bool) then ' (_, r) <- next r;; Ok (Some m, r)
          else
            ' (key, r) <- take n r;;
            ' (v, r) <- dec r;;
            match v with
            | None => Ok (None, start)
            | Some x => dec_members k dec start r (put_key m (Some x) key)
            end
      else Ok (None, start)
  end.
(** 898-919: AMF0Array::setFromEncoding; putValueAtIndex(value, i) with i the size appends *)
Fixpoint dec_elements (fuel : nat) (dec : list Z -> res (option amf * list Z)) (start l : list Z) (i sz : Z) (a : list (option amf))
  : res (option (list (option amf)) * list Z) :=
  match fuel with
  | O => UB
  | S k =>
      if i <? sz then
        ' (v, r) <- dec l;;
        match v with
        | None => Ok (None, start)
        | Some x => dec_elements k dec start r (wrap32 (i + 1)) sz (a ++ [Some x])
        end
      else Ok (Some a, l)
  end.
Definition dec_array (dec : list Z -> res (option amf * list Z)) (l : list Z) : res (option amf * list Z) :=
  if zlen l <? 4 then Ok (None, l)
  else
    ' (n, r) <- next l;; ' (n, r) <- acc8 n r;; ' (n, r) <- acc8 n r;; ' (n, r) <- acc8 n r;;
    ' (a, r) <- dec_elements (S (length l)) dec l r 0 n [];;
    Ok (match a with Some x => Some (AArr x) | None => None end, r).
(** 726-729 *)
Definition dec_typed (dec : list Z -> res (option amf * list Z)) (l : list Z) : res (option amf * list Z) :=
  ' (c, r) <- dec_string false l;;
  match c with
  | None => Ok (None, r)
  | Some cls => ' (m, r) <- dec_members (S (length r)) dec r r [];; Ok (match m with Some x => Some (ATyped cls x) | None => None end, r)
  end.
(** 750-761 *)
Definition dec_ecma (dec : list Z -> res (option amf * list Z)) (l : list Z) : res (option amf * list Z) :=
  if zlen l <? 4 then Ok (None, l)
  else
    ' (_, r) <- take 4 l;;
    ' (m, r) <- dec_members (S (length r)) dec r r [];; Ok (match m with Some x => Some (AEcma x) | None => None end, r).
Definition dec_object (dec : list Z -> res (option amf * list Z)) (l : list Z) : res (option amf * list Z) :=
  ' (m, r) <- dec_members (S (length l)) dec l l [];; Ok (match m with Some x => Some (AObj x) | None => None end, r).

(** 263-334: decode at a depth (MAX_DEPTH 32).  [stack] bounds the nested calls; running out of it is [UB].  Answers the value,
    [None] for an empty pointer, and *cursor_ptr. *)
Fixpoint amf_dec (stack : nat) (depth : Z) (l : list Z) : res (option amf * list Z) :=
  match stack with
  | O => UB
  | S k =>
      if depth >? 32 then Ok (None, l)
      else if zlen l >? 0 then
        ' (ty, c) <- next l;;
        let dec := amf_dec k (depth + 1) in
        ' (rv, c) <-
          (if ty =? 0 then dec_number c
           else if ty =? 1 then dec_boolean c
           else if (ty =? 2) || (ty =? 12) then ' (s, r) <- dec_string (12 =? ty) c;; Ok (match s with Some x => Some (AStr x) | None => None end, r)
           else if ty =? 3 then dec_object dec c
           else if ty =? 5 then Ok (Some ANull, c)
           else if (ty =? 6) || (ty =? 13) then Ok (Some AUndef, c)
           else if ty =? 8 then dec_ecma dec c
           else if ty =? 10 then dec_array dec c
           else if ty =? 16 then dec_typed dec c
           else Ok (None, c));;
        match rv with Some v => Ok (Some v, c) | None => Ok (None, l) end
      else Ok (None, l)
  end.
(** the nested calls of decode there is room for: depths 0 to 33 *)
Definition STACK : nat := 34.
(** 258-261 *)
Definition amf_decode (l : list Z) : res (option amf * list Z) := amf_dec STACK 0 l.
(** 243-256: decode all; answers what it answers and dst *)
Fixpoint dec_all (fuel : nat) (l : list Z) (dst : list amf) : res (bool * list amf) :=
  match fuel with
  | O => UB
  | S k =>
      if zlen l >? 0 then
        ' (v, r) <- amf_decode l;;
        match v with None => Ok (false, dst) | Some x => dec_all k r (dst ++ [x]) end
      else Ok (true, dst)
  end.
Definition amf_decode_all (l : list Z) : res (bool * list amf) := dec_all (S (length l)) l [].
(** 377-384 *)
Definition amf_duplicate (v : amf) : res (option amf) := ' (o, _) <- amf_decode (amf_encode v);; Ok o.
