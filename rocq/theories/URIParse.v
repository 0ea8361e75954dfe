(** Model of URIParse::parse and transformRelativeReference (src/URIParse.cpp 19-134).  The regular expressions are matched by backtracking as in
    ECMAScript: greedy, first choice first.  Every star in them is over a class of chars, and a group that took no part is read as the empty string.
    Chars are signed, the locale is "C". *)
From Verif Require Import Base Hex URI.
Open Scope res_scope.

(** What the expressions are made of: a class of chars, a sequence, a class any number of times, something or nothing, a numbered group. *)
Inductive rx :=
| RChr (cls : Z -> bool) | RCat (a b : rx) | RStar (cls : Z -> bool) | ROpt (a : rx) | RGrp (n : nat) (a : rx).
Definition caps := nat -> list Z.
Definition no_caps : caps := fun _ => [].
Definition set_cap (n : nat) (v : list Z) (c : caps) : caps := fun i => if Nat.eqb i n then v else c i.

Fixpoint star_m (cls : Z -> bool) (s : list Z) (k : list Z -> option caps) : option caps :=
  match s with
  | [] => k []
  | x :: t => if cls x then match star_m cls t k with Some r => Some r | None => k s end else k s
  end.
Fixpoint rx_m (r : rx) (s : list Z) (c : caps) (k : list Z -> caps -> option caps) : option caps :=
  match r with
  | RChr cls => match s with x :: t => if cls x then k t c else None | [] => None end
  | RCat a b => rx_m a s c (fun s c => rx_m b s c k)
  | RStar cls => star_m cls s (fun s => k s c)
  | ROpt a => match rx_m a s c k with Some r => Some r | None => k s c end
  | RGrp n a => rx_m a s c (fun t c => k t (set_cap n (firstn (length s - length t) s) c))
  end.
(** std::regex_match: all of the string; without a match all groups are empty *)
Definition regex_match (r : rx) (s : list Z) : caps :=
  match rx_m r s no_caps (fun t c => match t with [] => Some c | _ => None end) with Some c => c | None => no_caps end.

Definition chr (x : Z) : rx := RChr (Z.eqb x).
Definition none_of (l : list Z) (x : Z) : bool := negb (existsb (Z.eqb x) l).
Definition alpha (x : Z) : bool := ((97 <=? x) && (x <=? 122)) || ((65 <=? x) && (x <=? 90)).
Definition digit (x : Z) : bool := (48 <=? x) && (x <=? 57).
(** '.': anything but a line terminator *)
Definition any : Z -> bool := none_of [10; 13].

(** '#' 35, '/' 47, ':' 58, '?' 63, '@' 64, '[' 91, ']' 93 *)
(** (A blank stands between a star and a closing parenthesis in these comments.) *)
(** 24: ^(([a-zA-Z][^:/?#]* ):)?([^?#]* )?(\?([^#]* ))?(#(.* ))? *)
Definition rx_uri : rx :=
  RCat (ROpt (RGrp 1 (RCat (RGrp 2 (RCat (RChr alpha) (RStar (none_of [58; 47; 63; 35])))) (chr 58))))
  (RCat (ROpt (RGrp 3 (RStar (none_of [63; 35]))))
  (RCat (ROpt (RGrp 4 (RCat (chr 63) (RGrp 5 (RStar (none_of [35]))))))
        (ROpt (RGrp 6 (RCat (chr 35) (RGrp 7 (RStar any))))))).
(** 35: ^(//([^/]* ))?(.* ) *)
Definition rx_hier : rx :=
  RCat (ROpt (RGrp 1 (RCat (chr 47) (RCat (chr 47) (RGrp 2 (RStar (none_of [47]))))))) (RGrp 3 (RStar any)).
(** 41: ^((([^:@]* )(:([^@]* ))?)@)?(.* ) *)
Definition rx_auth : rx :=
  RCat (ROpt (RGrp 1 (RCat (RGrp 2 (RCat (RGrp 3 (RStar (none_of [58; 64]))) (ROpt (RGrp 4 (RCat (chr 58) (RGrp 5 (RStar (none_of [64])))))))) (chr 64))))
       (RGrp 6 (RStar any)).
(** 50: ^((\[([^\]]* )?\]))?([^:]* )?(:([0-9]+))? *)
Definition rx_host : rx :=
  RCat (ROpt (RGrp 1 (RGrp 2 (RCat (chr 91) (RCat (ROpt (RGrp 3 (RStar (none_of [93])))) (chr 93))))))
  (RCat (ROpt (RGrp 4 (RStar (none_of [58]))))
        (ROpt (RGrp 5 (RCat (chr 58) (RGrp 6 (RCat (RChr digit) (RStar digit))))))).

(** 234-240: lowercase; tolower of a negative char other than EOF (-1) is undefined *)
Definition tolower (x : Z) : res Z := if x <? -1 then UB else Ok (if (65 <=? x) && (x <=? 90) then x + 32 else x).
Fixpoint lowercase (s : list Z) : res (list Z) :=
  match s with [] => Ok [] | x :: t => y <- tolower x;; r <- lowercase t;; Ok (y :: r) end.

(** include/rtmfp/URIParse.hpp 41-63: the fields *)
Record uri := mkUri {
  u_uri : list Z; u_public : list Z; u_scheme_part : list Z; u_scheme : list Z; u_canonical : list Z; u_hier : list Z; u_query_part : list Z; u_query : list Z;
  u_fragment_part : list Z; u_fragment : list Z; u_authority_part : list Z; u_authority : list Z; u_path : list Z; u_userinfo_part : list Z;
  u_userinfo : list Z; u_user : list Z; u_password_part : list Z; u_password : list Z; u_hostinfo : list Z; u_host : list Z; u_port : list Z;
  u_effective : list Z; u_origin : list Z }.

Definition isnil (s : list Z) : bool := match s with [] => true | _ => false end.
Definition s_http := [104; 116; 116; 112].
Definition s_ws := [119; 115].
Definition s_https := s_http ++ [115].
Definition s_wss := s_ws ++ [115].
Definition s_rtmp := [114; 116; 109; 112].
Definition s_rtmps := s_rtmp ++ [115].
Definition s_rtmfp := [114; 116; 109; 102; 112].

(** 60-68 *)
Definition default_port (canonical : list Z) : list Z :=
  if str_eqb canonical s_http || str_eqb canonical s_ws then [56; 48]
  else if str_eqb canonical s_https || str_eqb canonical s_wss || str_eqb canonical s_rtmps then [52; 52; 51]
  else if str_eqb canonical s_rtmfp || str_eqb canonical s_rtmp then [49; 57; 51; 53]
  else [].

(** 19-71: parse *)
Definition uri_parse (s : list Z) : res uri :=
  let p := regex_match rx_uri s in
  canonical <- lowercase (p 2%nat);;
  let h := regex_match rx_hier (p 3%nat) in
  let a := regex_match rx_auth (h 2%nat) in
  let hostinfo := a 6%nat in
  let o := regex_match rx_host hostinfo in
  let host := if isnil (o 3%nat) then o 4%nat else o 3%nat in
  let port := o 6%nat in
  Ok (mkUri s
        (p 1%nat ++ (if isnil (h 1%nat) then [] else [47; 47] ++ hostinfo) ++ h 3%nat ++ p 4%nat)
        (p 1%nat) (p 2%nat) canonical (p 3%nat) (p 4%nat) (p 5%nat) (p 6%nat) (p 7%nat)
        (h 1%nat) (h 2%nat) (h 3%nat) (a 1%nat) (a 2%nat) (a 3%nat) (a 4%nat) (a 5%nat) hostinfo host port
        (if isnil port && negb (isnil hostinfo) then default_port canonical else port)
        (if negb (isnil (p 2%nat)) && negb (isnil hostinfo) then p 2%nat ++ [58; 47; 47] ++ hostinfo else [])).

(** 119-134: mergedRelativePath; path.substr(0, path.rfind('/') + 1) is what is left without the chars after the last '/' *)
Definition upto_last_slash (p : list Z) : list Z := rev (from is_slash (rev p)).
Definition merged (u : uri) (rel : list Z) : list Z :=
  match rel with
  | [] => rel
  | x :: _ =>
      if x =? 47 then rel
      else if negb (isnil (u_authority_part u)) && isnil (u_path u) then 47 :: rel
      else upto_last_slash (u_path u) ++ rel
  end.
(** 73-117: transformRelativeReference *)
Definition transform (u : uri) (relative : list Z) : res (list Z) :=
  r <- uri_parse relative;;
  if negb (isnil (u_scheme_part r)) then
    p <- remove_dots (u_path r);; Ok (u_scheme_part r ++ u_authority_part r ++ p ++ u_query_part r ++ u_fragment_part r)
  else if negb (isnil (u_authority_part r)) then
    p <- remove_dots (u_path r);; Ok (u_scheme_part u ++ u_authority_part r ++ p ++ u_query_part r ++ u_fragment_part r)
  else
    match u_path r with
    | [] => Ok (u_scheme_part u ++ u_authority_part u ++ u_path u ++ (if isnil (u_query_part r) then u_query_part u else u_query_part r) ++ u_fragment_part r)
    | x :: _ =>
        p <- (if x =? 47 then remove_dots (u_path r) else remove_dots (merged u (u_path r)));;
        Ok (u_scheme_part u ++ u_authority_part u ++ p ++ u_query_part r ++ u_fragment_part r)
    end.
