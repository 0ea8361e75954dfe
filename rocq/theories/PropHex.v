(** C40: hexadecimal text. *)
From Verif Require Import Base BaseFacts Hex HexSpec HexProofs.
From Coq Require String.
Import String.StringSyntax.
Local Open Scope string_scope.
Local Open Scope Z_scope.

(** C40.  Decoding the encoding of any bytes appends exactly these bytes; the encoding has two digits per byte. *)
Theorem C40_roundtrip : forall bs rest dst, bytes_ok bs ->
  hex_decode (hex_encode bs ++ 0 :: rest) dst = Ok (true, dst ++ bs)
  /\ hextext (hex_encode bs) bs /\ length (hex_encode bs) = (2 * length bs)%nat.
Proof. exact (fun bs rest dst H => conj (decode_encode bs rest dst H) (let E := encode_text bs H in conj (proj1 E) (proj2 (proj2 E)))). Qed.
Print Assumptions C40_roundtrip.

(** C40.  For every text (up to its terminating zero; whatever follows is not looked at) decode answers true exactly for
    hexadecimal text, appending the bytes it denotes; otherwise it answers false and leaves the destination as it was. *)
Theorem C40_exact : forall t rest dst, Forall (fun d => d <> 0) t ->
  (forall bs, hextext t bs -> hex_decode (t ++ 0 :: rest) dst = Ok (true, dst ++ bs))
  /\ ((forall bs, ~ hextext t bs) -> hex_decode (t ++ 0 :: rest) dst = Ok (false, dst))
  /\ ((exists d, hex_decode (t ++ 0 :: rest) dst = Ok (true, d)) <-> (exists bs, hextext t bs)).
Proof. exact (fun t rest dst F => conj (proj1 (decode_exact t rest dst F)) (conj (proj2 (decode_exact t rest dst F)) (decode_iff t rest dst F))). Qed.
Print Assumptions C40_exact.

(** C40.  decodeByte answers the value of two digits, -1 for any other two characters, and never reads past a terminating
    zero. *)
Theorem C40_byte : forall a b rest,
  (forall x y, digit_is a x -> digit_is b y -> hex_byte (a :: b :: rest) = Ok (16 * x + y))
  /\ ((forall x y, ~ (digit_is a x /\ digit_is b y)) -> hex_byte (a :: b :: rest) = Ok (-1))
  /\ hex_byte (0 :: rest) = Ok (-1) /\ hex_byte (a :: 0 :: rest) = Ok (-1).
Proof.
  intros a b rest. split; [apply byte_exact|]. split; [apply byte_exact|]. split; [apply (byte_safe []); cbn; lia|apply (byte_safe [a]); cbn; lia].
Qed.
Print Assumptions C40_byte.

Example C40_case : hex_decode (chars " 4a6F" ++ [9] ++ chars "00 ff" ++ [0]) [1] = Ok (true, [1; 74; 111; 0; 255])
  /\ hex_decode (chars "4a6" ++ [0]) [1] = Ok (false, [1]) /\ hex_decode (chars "4 a" ++ [0]) [1] = Ok (false, [1])
  /\ hex_decode (chars "4a0g" ++ [0]) [1] = Ok (false, [1]) /\ hex_encode [74; 255] = chars "4aff".
Proof. vm_compute. auto 6. Qed.
