(** C01, C02, C03: variable length integers and option lists. *)
From Verif Require Import Base VLU VLUSpec VLUProofs.

(** C01.  Encoding any 64-bit value stays inside the 10-byte scratch buffer, gives a complete VLU of 1 to 10 bytes with
    that value, and parses back to it (and to exactly that many bytes) in front of anything. *)
Theorem C01_vlu_roundtrip : forall v rest, is_u64 v -> bytes_ok rest ->
  vlu_encode_raw v = Ok (vlu_encode v)
  /\ complete_vlu (vlu_encode v) /\ groups_value (vlu_encode v) = v
  /\ (1 <= length (vlu_encode v) <= 10)%nat
  /\ vlu_parse (vlu_append v [] ++ rest) = Ok (v, length (vlu_encode v)).
Proof.
  exact (fun v rest Hv Hr => conj (vlu_encode_raw_ok v Hv)
    (let H := vlu_encode_spec v Hv in
     conj (proj1 H) (conj (proj1 (proj2 H)) (conj (proj1 (proj2 (proj2 H))) (vlu_roundtrip v rest Hv Hr))))).
Qed.
Print Assumptions C01_vlu_roundtrip.

(** C01, minimality: no input parses to the value in fewer bytes (the saturation value excepted). *)
Theorem C01_vlu_minimal : forall v l n, is_u64 v -> v < U64MAX -> bytes_ok l ->
  vlu_parse l = Ok (v, n) -> (length (vlu_encode v) <= n)%nat.
Proof. exact vlu_encode_minimal. Qed.
Print Assumptions C01_vlu_minimal.

Example C01_example : vlu_encode 300 = [130; 44] /\ vlu_parse ([130; 44] ++ [7]) = Ok (300, 2%nat)
  /\ vlu_parse [128; 128; 130; 44] = Ok (300, 4%nat) /\ length (vlu_encode U64MAX) = 10%nat.
Proof. vm_compute. auto. Qed.

(** C02.  In any memory where only the bytes of [l] at [src..limit) may be read (every other address is [None], reading
    it gives [UB]), parse rejects exactly when no byte ends the VLU, and otherwise gives the number of bytes of the
    complete VLU at the front and its value clamped to UINTMAX_MAX (or wrapped, when saturation is declined). *)
Theorem C02_vlu_parse_bounded : forall (m : mem) src limit l saturate,
  (forall i, (i < length l)%nat -> m (src + i)%nat = nth_error l i) ->
  limit = (src + length l)%nat -> bytes_ok l ->
  (unterminated l /\ vlu_parse_mem m src limit saturate = Rej)
  \/ (exists pre rest, l = pre ++ rest /\ complete_vlu pre /\
       vlu_parse_mem m src limit saturate =
         Ok (if saturate then Z.min (groups_value pre) U64MAX else groups_value pre mod 18446744073709551616, length pre)).
Proof. exact vlu_parse_mem_spec. Qed.
Print Assumptions C02_vlu_parse_bounded.

Example C02_example :
  vlu_parse (repeat 255 20 ++ [127]) = Ok (U64MAX, 21%nat)
  /\ vlu_parse (repeat 255 20) = Rej
  /\ vlu_parse_mem (mem_of (repeat 255 20 ++ [127])) 0 21 false = Ok (U64MAX, 21%nat)
  /\ vlu_parse_mem (fun i => if Nat.ltb i 3 then Some 129 else None) 0 3 true = Rej
  /\ vlu_parse [130; 128; 128; 128; 128; 128; 128; 128; 128; 1] = Ok (U64MAX, 10%nat).
Proof. vm_compute. auto 6. Qed.

(** C03.  A list of options appended one after the other, then either nothing or an end marker and arbitrary bytes,
    parses to the same options in the same order and leaves exactly what follows the marker. *)
Theorem C03_options_roundtrip : forall os tail rest,
  Forall option_ok os -> bytes_ok rest ->
  (tail = [] /\ rest = [] \/ tail = option_append_end [] ++ rest) ->
  options_parse (options_append os [] ++ tail) = Ok (os, rest).
Proof. exact options_roundtrip. Qed.
Print Assumptions C03_options_roundtrip.

(** C03, robustness: on any bytes Option::parse is defined; when it accepts, what it consumed lies inside the input and
    is a length-prefixed field holding the reported type and value; only an empty field is an end marker. *)
Theorem C03_option_parse_sound : forall l ty v n, bytes_ok l -> option_parse l = Ok (ty, v, n) ->
  (1 <= n <= length l)%nat /\ is_u64 ty /\
  exists L p rest, l = L ++ p ++ rest /\ complete_vlu L /\ Z.min (groups_value L) U64MAX = zlen p
     /\ n = (length L + length p)%nat
     /\ match v with
        | None => p = [] /\ ty = 0
        | Some val => exists T, complete_vlu T /\ p = T ++ val /\ ty = Z.min (groups_value T) U64MAX
        end.
Proof. exact option_parse_bounds. Qed.
Print Assumptions C03_option_parse_sound.

Theorem C03_option_parse_defined : forall l, bytes_ok l -> option_parse l <> UB /\ options_parse l <> UB.
Proof.
  exact (fun l H => conj (option_parse_no_UB l H) (option_list_parse_no_UB (S (length l)) l H (Nat.lt_succ_diag_r _))).
Qed.
Print Assumptions C03_option_parse_defined.

Example C03_example :
  let os := [(10, [1; 2; 3]); (300, []); (0, [0])] in
  Forall option_ok os
  /\ options_parse (options_append os [] ++ option_append_end [] ++ [9; 9]) = Ok (os, [9; 9])
  /\ option_parse [5; 1; 2] = Rej.
Proof.
  cbv zeta. split; [apply option_okb_ok; reflexivity|]. split; vm_compute; reflexivity.
Qed.
