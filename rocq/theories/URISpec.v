(** Specification vocabulary for URI strings. *)
From Verif Require Import Base.

(** the fields of [s] between occurrences of [c] *)
Fixpoint fields (c : Z) (s : list Z) : list (list Z) :=
  match s with
  | [] => [[]]
  | x :: r => if x =? c then [] :: fields c r else match fields c r with f :: fs => (x :: f) :: fs | [] => [[x]] end
  end.
Definition lacks (c : Z) (s : list Z) : Prop := ~ In c s.
Definition dot : list Z := [46].
Definition dotdot : list Z := [46; 46].

(** RFC 3986 5.2.4 on the segments of a path.  [out] is what has been put out, a piece per segment.  "." puts out nothing,
    ".." takes the last piece back; as the last segment both leave a trailing "/". *)
Definition seg_dec : forall a b : list Z, {a = b} + {a <> b} := list_eq_dec Z.eq_dec.
Fixpoint walk (out : list (list Z)) (segs : list (list Z)) : list (list Z) :=
  match segs with
  | [] => out
  | g :: r =>
      let last := match r with [] => [[47]] | _ => [] end in
      if seg_dec g dot then walk (out ++ last) r
      else if seg_dec g dotdot then walk (removelast out ++ last) r
      else walk (out ++ [47 :: g]) r
  end.
(** A path that does not begin with "/": leading dot segments are dropped. *)
Fixpoint resolve (segs : list (list Z)) : list (list Z) :=
  match segs with
  | [] => []
  | g :: r =>
      if seg_dec g dot then resolve r
      else if seg_dec g dotdot then resolve r
      else walk (match g with [] => [] | _ => [g] end) r
  end.
Definition dot_free (p : list Z) : Prop := Forall (fun g => g <> dot /\ g <> dotdot) (fields 47 p).

(** parts put together again with the given separators between them *)
Fixpoint weave (parts : list (list Z)) (cs : list Z) : list Z :=
  match parts, cs with
  | [], _ => []
  | p :: _, [] => p
  | p :: ps, c :: cs' => p ++ c :: weave ps cs'
  end.
Fixpoint join (c : Z) (parts : list (list Z)) : list Z :=
  match parts with [] => [] | [p] => p | p :: ps => p ++ c :: join c ps end.

(** percent-encoding: [d] is encoded by [s], every char either as itself or as "%" and two hex digits (either case).  NUL
    cannot be encoded. *)
Definition hexval (d v : Z) : Prop := (48 <= d <= 57 /\ v = d - 48) \/ (97 <= d <= 102 /\ v = d - 87) \/ (65 <= d <= 70 /\ v = d - 55).
Inductive pct : list Z -> list Z -> Prop :=
| pct_nil : pct [] []
| pct_lit : forall c s d, c <> 37 -> c <> 0 -> pct s d -> pct (c :: s) (c :: d)
| pct_esc : forall a b va vb ch s d, hexval a va -> hexval b vb -> -128 <= ch <= 127 -> ch <> 0 -> ch mod 256 = 16 * va + vb ->
    pct s d -> pct (37 :: a :: b :: s) (ch :: d).
