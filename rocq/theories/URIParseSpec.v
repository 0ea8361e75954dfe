(** The parts of a URI reference (RFC 3986 3, 5.2 and 5.3), independent of how they are found (property C75). *)
From Verif Require Import Base URISpec.

(** '#' 35, '/' 47, ':' 58, '?' 63, '@' 64, '[' 91, ']' 93; line terminators 10 and 13 *)
Definition line_free (s : list Z) : Prop := lacks 10 s /\ lacks 13 s.
Definition valid_scheme (s : list Z) : Prop :=
  exists x t, s = x :: t /\ (97 <= x <= 122 \/ 65 <= x <= 90) /\ lacks 58 t /\ lacks 47 t /\ lacks 63 t /\ lacks 35 t.
(** A part with its mark in front, or nothing. *)
Definition marked (c : Z) (part body : list Z) : Prop := part = c :: body \/ (part = [] /\ body = []).

Definition top_parts (s sp sch h qp q fp f : list Z) : Prop :=
  s = sp ++ h ++ qp ++ fp /\
  ((valid_scheme sch /\ sp = sch ++ [58]) \/ (sp = [] /\ sch = [] /\ forall sch' r, valid_scheme sch' -> s <> sch' ++ 58 :: r)) /\
  lacks 63 h /\ lacks 35 h /\ marked 63 qp q /\ lacks 35 q /\ marked 35 fp f.
Definition hier_parts (h ap auth path : list Z) : Prop :=
  h = ap ++ path /\
  ((ap = 47 :: 47 :: auth /\ lacks 47 auth /\ (path = [] \/ exists t, path = 47 :: t)) \/ (ap = [] /\ auth = [] /\ forall t, h <> 47 :: 47 :: t)).
Definition auth_parts (auth uip ui user pwp pw hi : list Z) : Prop :=
  auth = uip ++ hi /\ ui = user ++ pwp /\ lacks 58 user /\ marked 58 pwp pw /\
  ((uip = ui ++ [64] /\ lacks 64 ui) \/ (uip = [] /\ ui = [] /\ lacks 64 auth)).
Definition all_digits (s : list Z) : Prop := Forall (fun x => 48 <= x <= 57) s.
Definition named (t nm port : list Z) : Prop :=
  lacks 58 nm /\ ((t = nm /\ port = []) \/ (t = nm ++ 58 :: port /\ port <> [] /\ all_digits port)).
Definition host_parts (hi host port : list Z) : Prop :=
  (exists lit t nm, hi = 91 :: lit ++ 93 :: t /\ lacks 93 lit /\ named t nm port /\ host = (match lit with [] => nm | _ => lit end)) \/
  ((forall lit t, hi <> 91 :: lit ++ 93 :: t) /\ named hi host port) \/
  (host = [] /\ port = [] /\ (forall nm p, ~ named hi nm p) /\ (forall lit t nm p, hi = 91 :: lit ++ 93 :: t -> lacks 93 lit -> ~ named t nm p)).

(** RFC 3986 5.2: a reference as parts that may be undefined; resolving one against a base; putting the parts together. *)
Record ref := mkRef { r_scheme : option (list Z); r_authority : option (list Z); r_path : list Z; r_query : option (list Z); r_fragment : option (list Z) }.
Definition dots (p : list Z) : list Z := concat (resolve (fields 47 p)).
(** 5.2.3: all but what follows the last "/" of the base's path *)
Definition last_slash (p head : list Z) : Prop := (head = [] /\ lacks 47 p) \/ (exists g t, head = g ++ [47] /\ p = head ++ t /\ lacks 47 t).
Definition resolves (base r target : ref) : Prop :=
  r_fragment target = r_fragment r /\
  match r_scheme r with
  | Some _ => r_scheme target = r_scheme r /\ r_authority target = r_authority r /\ r_path target = dots (r_path r) /\ r_query target = r_query r
  | None =>
      r_scheme target = r_scheme base /\
      match r_authority r with
      | Some _ => r_authority target = r_authority r /\ r_path target = dots (r_path r) /\ r_query target = r_query r
      | None =>
          r_authority target = r_authority base /\
          match r_path r with
          | [] => r_path target = r_path base /\ r_query target = match r_query r with Some q => Some q | None => r_query base end
          | x :: _ =>
              r_query target = r_query r /\
              if x =? 47 then r_path target = dots (r_path r)
              else if (match r_authority base with Some _ => true | None => false end) && (match r_path base with [] => true | _ => false end)
              then r_path target = dots (47 :: r_path r)
              else exists head, last_slash (r_path base) head /\ r_path target = dots (head ++ r_path r)
          end
      end
  end.
Definition opt_pre (pre : list Z) (o : option (list Z)) : list Z := match o with Some x => pre ++ x | None => [] end.
(** 5.3 *)
Definition recompose (r : ref) : list Z :=
  match r_scheme r with Some x => x ++ [58] | None => [] end ++ opt_pre [47; 47] (r_authority r) ++ r_path r ++ opt_pre [63] (r_query r) ++ opt_pre [35] (r_fragment r).
(** The reference a string is. *)
Definition is_ref (s : list Z) (r : ref) : Prop :=
  exists sp sch h qp q fp f ap auth path,
    top_parts s sp sch h qp q fp f /\ hier_parts h ap auth path /\ r_path r = path /\
    r_scheme r = (match sp with [] => None | _ => Some sch end) /\ r_authority r = (match ap with [] => None | _ => Some auth end) /\
    r_query r = (match qp with [] => None | _ => Some q end) /\ r_fragment r = (match fp with [] => None | _ => Some f end).
