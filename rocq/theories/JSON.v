(** Model of AMF0's text form (src/AMF.cpp 13-35, 138-176, 358-375 and each class's repr).  The text of a number (dtoa, floating point arithmetic) is a parameter. *)
From Verif Require Import Base AMF.

(** 13-18 *)
Definition ind (indent depth : nat) : list Z := (match indent with O => [] | _ => [10] end) ++ repeat 32 (depth * indent).

(** 20-35: toBase10; [fuel] for the loop, which ends at zero or when the 40 bytes are full: 39 digits *)
Fixpoint digits_loop (fuel : nat) (v : Z) (acc : list Z) : list Z :=
  match fuel with
  | O => acc
  | S k => let acc := 48 + v mod 10 :: acc in if v / 10 =? 0 then acc else digits_loop k (v / 10) acc
  end.
Definition to_base10 (v : Z) : list Z := digits_loop 39 v [].

(** 138-176: jsonString *)
Definition hexdigit (x : Z) : Z := if x <? 10 then 48 + x else 55 + x.
Definition json_char (x : Z) : list Z :=
  if (x =? 92) || (x =? 34) then [92; x]
  else if x =? 8 then [92; 98]
  else if x =? 12 then [92; 102]
  else if x =? 10 then [92; 110]
  else if x =? 13 then [92; 114]
  else if x =? 9 then [92; 116]
  else if (x <? 32) || (x =? 127) then [92; 117; 48; 48; hexdigit (Z.land (Z.shiftr x 4) 15); hexdigit (Z.land x 15)]
  else [x].
Definition json_string (s : list Z) : list Z := [34] ++ concat (map json_char s) ++ [34].

Definition t_null : list Z := [110; 117; 108; 108].
Definition t_true : list Z := [116; 114; 117; 101].
Definition t_false : list Z := [102; 97; 108; 115; 101].
Definition t_undefined : list Z := [117; 110; 100; 101; 102; 105; 110; 101; 100].
Definition skipped (o : option amf) : bool := match o with None => true | Some AUndef => true | _ => false end.

Section Text.
  (** 81-135: dtoa, for a 64-bit pattern *)
  Variable dtoa : bool -> Z -> list Z.
  (** 395, 454, 483-486, 600-605, 613-638 (reprMembers), 703-715, 768, 785, 868-883 *)
  Fixpoint repr (json : bool) (indent : nat) (v : amf) (depth : nat) {struct v} : list Z :=
    let members := (fix go (first : bool) (m : list (list Z * option amf)) {struct m} : list Z :=
      match m with
      | [] => if first then [] else ind indent depth
      | (k, o) :: r =>
          if json && skipped o then go first r
          else (if first then [] else [44]) ++ ind indent (S depth) ++ json_string k ++ [58] ++ (match indent with O => [] | _ => [32] end)
               ++ (match o with Some x => repr json indent x (S depth) | None => t_undefined end) ++ go false r
      end) in
    match v with
    | ANum u => dtoa json u
    | ABool b => if b then t_true else t_false
    | AStr s => json_string s
    | AObj m => [123] ++ members true m ++ [125]
    | AEcma m => [123] ++ members true m ++ [125]
    | ATyped c m => if json then [123] ++ members true m ++ [125] else [60] ++ json_string c ++ [58; 123] ++ members true m ++ [125; 62]
    | ANull => t_null
    | AUndef => if json then t_null else t_undefined
    | AArr l =>
        [91] ++ (fix go (first : bool) (l : list (option amf)) {struct l} : list Z :=
          match l with
          | [] => if first then [] else ind indent depth
          | o :: r => (if first then [] else [44]) ++ ind indent (S depth)
              ++ (match o with Some x => repr json indent x (S depth) | None => if json then t_null else t_undefined end) ++ go false r
          end) true l ++ [93]
    end.
  (** 370-375 *)
  Definition to_json (indent : nat) (v : amf) : list Z := repr true indent v 0.
End Text.
