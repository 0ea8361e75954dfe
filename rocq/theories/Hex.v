(** Model of Hex (src/Hex.cpp): encode, decode, decodeDigit, decodeByte.  print and dump (text for people) are not modelled.
    A char is its value as a signed char (x86-64, arm64-darwin).  isspace is that of the "C" locale; for negative arguments
    other than EOF the C standard leaves it undefined, here it answers false as glibc does. *)
From Verif Require Import Base.
Open Scope res_scope.

(** Hex.cpp 77: _digits *)
Definition hex_digits : list Z := [48; 49; 50; 51; 52; 53; 54; 55; 56; 57; 97; 98; 99; 100; 101; 102].
(** 79-94: encode *)
Definition hex_encode (bytes : list Z) : list Z :=
  flat_map (fun b => [nth (Z.to_nat (Z.shiftr b 4)) hex_digits 0; nth (Z.to_nat (Z.land b 15)) hex_digits 0]) bytes.

Definition isspace (d : Z) : bool := ((9 <=? d) && (d <=? 13)) || (d =? 32).
(** 139-150: decodeDigit *)
Definition hex_digit (d : Z) : Z :=
  if (d >=? 48) && (d <=? 57) then d - 48
  else if (d >=? 97) && (d <=? 102) then d - 97 + 10
  else if (d >=? 65) && (d <=? 70) then d - 65 + 10
  else if isspace d then -1 else -2.

(** 101-137: decode.  [mem] is the memory from [hex] on: a text with no terminating zero is read past its end, [UB]. *)
Fixpoint hex_loop (mem : list Z) (val : Z) (onFirstDigit : bool) (dst : list Z) : res (bool * list Z) :=
  match mem with
  | [] => UB
  | d :: r =>
      if d =? 0 then Ok (onFirstDigit, dst)
      else
        let digit := hex_digit d in
        if digit <? 0 then
          if (digit <? -1) || negb onFirstDigit then Ok (false, dst) else hex_loop r val onFirstDigit dst
        else
          let v := wrap8 (wrap8 (Z.shiftl val 4) + digit) in
          if onFirstDigit then hex_loop r v false dst else hex_loop r 0 true (dst ++ [v])
  end.
Definition hex_decode (mem : list Z) (dst : list Z) : res (bool * list Z) :=
  ' (ok, d) <- hex_loop mem 0 true dst;;
  Ok (if (ok : bool) then (true, d) else (false, firstn (length dst) d)).

(** 152-163: decodeByte *)
Definition hex_byte (mem : list Z) : res Z :=
  match mem with
  | [] => UB
  | a :: r =>
      if hex_digit a >=? 0 then
        match r with
        | [] => UB
        | b :: _ => if hex_digit b >=? 0 then Ok (Z.shiftl (hex_digit a) 4 + hex_digit b) else Ok (-1)
        end
      else Ok (-1)
  end.
