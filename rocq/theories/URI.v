(** Model of URIParse (src/URIParse.cpp): removeDotSegments, split, percentDecode, safePercentDecode.  A string is the list of its chars, signed as in Hex.v; c_str() has a zero after them.  parse and
    transformRelativeReference are in URIParse.v. *)
From Verif Require Import Base Hex.
Open Scope res_scope.

Fixpoint str_eqb (a b : list Z) : bool :=
  match a, b with [], [] => true | x :: r, y :: q => (x =? y) && str_eqb r q | _, _ => false end.
(** 0 == strncmp(p, s.c_str(), strlen(p)): [p] has no zero *)
Fixpoint prefixb (p s : list Z) : bool :=
  match p, s with [], _ => true | x :: r, y :: q => (x =? y) && prefixb r q | _ :: _, [] => false end.
(** the chars before the first one satisfying [t], and those from it on *)
Fixpoint before (t : Z -> bool) (s : list Z) : list Z := match s with [] => [] | c :: r => if t c then [] else c :: before t r end.
Fixpoint from (t : Z -> bool) (s : list Z) : list Z := match s with [] => [] | c :: r => if t c then s else from t r end.
Definition is_slash (c : Z) : bool := c =? 47.

(** 136-173: removeDotSegments.  '.' is 46, '/' is 47.  substr(0, rpos) and erase(0, rpos) with rpos = find('/', 1), npos when
    there is none.  The fuel is more than enough, see uri_dots_exact. *)
Fixpoint dots_loop (fuel : nat) (inp : list Z) (out : list (list Z)) : res (list Z) :=
  match fuel with
  | O => UB
  | S k =>
    match inp with
    | [] => Ok (concat out)
    | c :: r =>
      if prefixb [46; 46; 47] inp then dots_loop k (skipn 3 inp) out
      else if prefixb [46; 47] inp then dots_loop k (skipn 2 inp) out
      else if prefixb [47; 46; 47] inp || str_eqb inp [47; 46] then dots_loop k (47 :: skipn 3 inp) out
      else if prefixb [47; 46; 46; 47] inp || str_eqb inp [47; 46; 46] then dots_loop k (47 :: skipn 4 inp) (removelast out)
      else if str_eqb inp [46; 46] || str_eqb inp [46] then dots_loop k [] out
      else dots_loop k (from is_slash r) (out ++ [c :: before is_slash r])
    end
  end.
Definition remove_dots (path : list Z) : res (list Z) := dots_loop (S (length path)) path [].

(** 180-202: split.  [rest] is the string from the cursor on; maxParts is a size_t, so 0 wraps when decremented. *)
Fixpoint split_loop (fuel : nat) (rest : list Z) (seps : list Z) (maxParts : Z) (rv : list (list Z)) : res (list (list Z)) :=
  match fuel with
  | O => UB
  | S k =>
      let m := wrap64 (maxParts - 1) in
      if negb (m =? 0) && negb (str_eqb rest []) then
        let t := fun c => existsb (Z.eqb c) seps in
        match from t rest with
        | [] => Ok (rv ++ [rest])
        | _ :: r => split_loop k r seps m (rv ++ [before t rest])
        end
      else Ok (rv ++ [rest])
  end.
Definition uri_split (s seps : list Z) (maxParts : Z) : res (list (list Z)) :=
  match seps with [] => Ok [] | _ => split_loop (S (length s)) s seps maxParts [] end.

(** conversion of an int to char *)
Definition to_char (b : Z) : Z := (b + 128) mod 256 - 128.
(** 204-226: percentDecode.  [mem] is the memory from the cursor on *)
Fixpoint pct_loop (fuel : nat) (mem : list Z) (rv : list Z) : res (list Z) :=
  match fuel with
  | O => UB
  | S k =>
    match mem with
    | [] => UB
    | ch :: r =>
        if ch =? 0 then Ok rv
        else if ch =? 37 then
          b <- hex_byte r;;
          if b <? 1 then Ok [] else pct_loop k (skipn 2 r) (rv ++ [to_char b])
        else pct_loop k r (rv ++ [ch])
    end
  end.
Definition pct_decode (s : list Z) : res (list Z) := pct_loop (S (length s)) (s ++ [0]) [].
(** 228-232 *)
Definition safe_pct_decode (s : list Z) : res (list Z) := rv <- pct_decode s;; Ok (match rv with [] => s | _ => rv end).
