(** What RFC 6455 (WebSocket) and RFC 4648 (base64) say, without the model. *)
From Verif Require Import Base.

(** RFC 4648 section 4 *)
Inductive symbol : Z -> Z -> Prop :=
| sym_upper : forall v, 0 <= v < 26 -> symbol v (65 + v)
| sym_lower : forall v, 26 <= v < 52 -> symbol v (71 + v)
| sym_digit : forall v, 52 <= v < 62 -> symbol v (v - 4)
| sym_plus : symbol 62 43
| sym_slash : symbol 63 47.
Inductive base64 : list Z -> list Z -> Prop :=
| b64_nil : base64 [] []
| b64_three : forall x y z a b c d a' b' c' d' l t,
    symbol a a' -> symbol b b' -> symbol c c' -> symbol d d' ->
    (x * 256 + y) * 256 + z = ((a * 64 + b) * 64 + c) * 64 + d -> base64 l t -> base64 (x :: y :: z :: l) (a' :: b' :: c' :: d' :: t)
| b64_two : forall x y a b c a' b' c',
    symbol a a' -> symbol b b' -> symbol c c' -> (x * 256 + y) * 4 = (a * 64 + b) * 64 + c -> base64 [x; y] [a'; b'; c'; 61]
| b64_one : forall x a b a' b', symbol a a' -> symbol b b' -> x * 16 = a * 64 + b -> base64 [x] [a'; b'; 61; 61].

(** RFC 6455 section 5.2: a frame and the bytes it is sent as *)
Record frame := mkFrame { f_fin : bool; f_rsv : Z; f_op : Z; f_key : option (list Z); f_payload : list Z }.
Definition big (l : list Z) : Z := fold_left (fun a x => a * 256 + x) l 0.
(** the length field with the mask bit [m]: 7 bits, or 7+16, or 7+64 *)
Inductive length_field (m : Z) (n : Z) : list Z -> Prop :=
| len_7 : 0 <= n <= 125 -> length_field m n [m * 128 + n]
| len_16 : forall l, bytes_ok l -> length l = 2%nat -> big l = n -> length_field m n (m * 128 + 126 :: l)
| len_64 : forall l, bytes_ok l -> length l = 8%nat -> big l = n -> length_field m n (m * 128 + 127 :: l).
Inductive encodes (f : frame) : list Z -> Prop :=
| enc_plain : forall l, f_key f = None -> length_field 0 (zlen (f_payload f)) l ->
    encodes f ([(if f_fin f then 128 else 0) + f_rsv f * 16 + f_op f] ++ l ++ f_payload f)
| enc_masked : forall l k d, f_key f = Some k -> bytes_ok k -> length k = 4%nat -> length_field 1 (zlen (f_payload f)) l ->
    (** transformed-octet-i = original-octet-i XOR masking-key-octet-(i mod 4) (section 5.3) *)
    length d = length (f_payload f) -> (forall i, (i < length d)%nat -> nth i d 0 = Z.lxor (nth i (f_payload f) 0) (nth (i mod 4) k 0)) ->
    encodes f ([(if f_fin f then 128 else 0) + f_rsv f * 16 + f_op f] ++ l ++ k ++ d).
Definition frame_ok (f : frame) : Prop := 0 <= f_rsv f <= 7 /\ 0 <= f_op f <= 15 /\ bytes_ok (f_payload f).
(** the shortest length field *)
Definition shortest (n : Z) (l : list Z) : Prop := (n <= 125 -> length l = 1%nat) /\ (n <= 65535 -> (length l <= 3)%nat).

(** Frames one after the other, and what is left *)
Inductive frames : list Z -> list frame -> list Z -> Prop :=
| fr_end : forall r, frames r [] r
| fr_cons : forall f b t fs r, frame_ok f -> encodes f b -> zlen (f_payload f) <= 16777216 -> frames t fs r -> frames (b ++ t) (f :: fs) r.

(** Section 5.4: the data frames of a message: not the last, not the last, ..., the last; the first has the message's opcode, the others 0 *)
Definition control (f : frame) : Prop := f_op f = 8 \/ f_op f = 9 \/ f_op f = 10.
Definition controlb (f : frame) : bool := (f_op f =? 8) || (f_op f =? 9) || (f_op f =? 10).
Definition data (fs : list frame) : list frame := filter (fun f => negb (controlb f)) fs.
Inductive conts : list frame -> list Z -> Prop :=
| cont_last : forall f, f_op f = 0 -> f_fin f = true -> conts [f] (f_payload f)
| cont_more : forall f fs m, f_op f = 0 -> f_fin f = false -> conts fs m -> conts (f :: fs) (f_payload f ++ m).
Inductive message : list frame -> Z -> list Z -> Prop :=
| msg_one : forall f, f_op f <> 0 -> f_fin f = true -> message [f] (f_op f) (f_payload f)
| msg_many : forall f fs m, f_op f <> 0 -> f_fin f = false -> conts fs m -> message (f :: fs) (f_op f) (f_payload f ++ m).
(** a message that has begun and is not finished *)
Definition begun (fs : list frame) : Prop :=
  match fs with [] => True | f :: r => f_op f <> 0 /\ f_fin f = false /\ Forall (fun g => f_op g = 0 /\ f_fin g = false) r end.
(** Data frames that are whole messages, and then perhaps the beginning of one *)
Inductive talk : list frame -> list (Z * list Z) -> Prop :=
| talk_end : forall p, begun p -> talk p []
| talk_cons : forall fs op m r l, message fs op m -> talk r l -> talk (fs ++ r) ((op, m) :: l).
Definition pings (fs : list frame) : list (list Z) := map f_payload (filter (fun f => f_op f =? 9) fs).
