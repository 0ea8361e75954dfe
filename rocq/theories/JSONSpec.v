(** JSON texts (RFC 8259), independent of how they are made (property C78). *)
From Verif Require Import Base AMF.

Inductive jval := JNum (tok : list Z) | JStr (s : list Z) | JBool (b : bool) | JNull | JObj (m : list (list Z * jval)) | JArr (l : list jval).

Definition is_ws (c : Z) : Prop := c = 32 \/ c = 9 \/ c = 10 \/ c = 13.
Definition ws (w : list Z) : Prop := Forall is_ws w.
Definition is_digit (c : Z) : Prop := 48 <= c <= 57.
Definition digits (l : list Z) : Prop := l <> [] /\ Forall is_digit l.
(** [ - ] int [ frac ] [ exp ]; no leading zero *)
Definition number (t : list Z) : Prop :=
  exists sign int frac exp, t = sign ++ int ++ frac ++ exp /\ (sign = [] \/ sign = [45]) /\ digits int /\ (int = [48] \/ hd 0 int <> 48) /\
    (frac = [] \/ exists d, frac = 46 :: d /\ digits d) /\
    (exp = [] \/ exists e s d, exp = e :: s ++ d /\ (e = 101 \/ e = 69) /\ (s = [] \/ s = [43] \/ s = [45]) /\ digits d).
Definition num_char (c : Z) : Prop := is_digit c \/ c = 43 \/ c = 45 \/ c = 46 \/ c = 69 \/ c = 101.
Definition ends_num (r : list Z) : Prop := match r with [] => True | c :: _ => ~ num_char c end.

(** What stands between the quotes, and what it means; of the \u escapes those below U+0080. *)
Definition hexv (d v : Z) : Prop := (48 <= d <= 57 /\ v = d - 48) \/ (97 <= d <= 102 /\ v = d - 87) \/ (65 <= d <= 70 /\ v = d - 55).
Definition escapes : list (Z * Z) := [(34, 34); (92, 92); (47, 47); (98, 8); (102, 12); (110, 10); (114, 13); (116, 9)].
Inductive jchars : list Z -> list Z -> Prop :=
| jc_nil : jchars [] []
| jc_raw : forall c t m, 32 <= c -> c <> 34 -> c <> 92 -> jchars t m -> jchars (c :: t) (c :: m)
| jc_esc : forall e c t m, In (e, c) escapes -> jchars t m -> jchars (92 :: e :: t) (c :: m)
| jc_u : forall a b va vb t m, hexv a va -> hexv b vb -> va < 8 -> jchars t m -> jchars (92 :: 117 :: 48 :: 48 :: a :: b :: t) (16 * va + vb :: m).

(** [reads s v r]: [s] begins with a text of [v], after which [r] is left. *)
Inductive reads : list Z -> jval -> list Z -> Prop :=
| rd_ws : forall c s v r, is_ws c -> reads s v r -> reads (c :: s) v r
| rd_num : forall t r, number t -> ends_num r -> reads (t ++ r) (JNum t) r
| rd_str : forall t m r, jchars t m -> reads (34 :: t ++ 34 :: r) (JStr m) r
| rd_true : forall r, reads (116 :: 114 :: 117 :: 101 :: r) (JBool true) r
| rd_false : forall r, reads (102 :: 97 :: 108 :: 115 :: 101 :: r) (JBool false) r
| rd_null : forall r, reads (110 :: 117 :: 108 :: 108 :: r) JNull r
| rd_arr0 : forall w r, ws w -> reads (91 :: w ++ 93 :: r) (JArr []) r
| rd_arr : forall s v r1 l r, reads s v r1 -> elems r1 l r -> reads (91 :: s) (JArr (v :: l)) r
| rd_obj0 : forall w r, ws w -> reads (123 :: w ++ 125 :: r) (JObj []) r
| rd_obj : forall s k v r1 l r, member s k v r1 -> mems r1 l r -> reads (123 :: s) (JObj ((k, v) :: l)) r
with elems : list Z -> list jval -> list Z -> Prop :=
| el_end : forall w r, ws w -> elems (w ++ 93 :: r) [] r
| el_more : forall w s v r1 l r, ws w -> reads s v r1 -> elems r1 l r -> elems (w ++ 44 :: s) (v :: l) r
with member : list Z -> list Z -> jval -> list Z -> Prop :=
| mb : forall w t k w' s v r, ws w -> jchars t k -> ws w' -> reads s v r -> member (w ++ 34 :: t ++ 34 :: w' ++ 58 :: s) k v r
with mems : list Z -> list (list Z * jval) -> list Z -> Prop :=
| me_end : forall w r, ws w -> mems (w ++ 125 :: r) [] r
| me_more : forall w s k v r1 l r, ws w -> member s k v r1 -> mems r1 l r -> mems (w ++ 44 :: s) ((k, v) :: l) r.

(** The JSON value of an AMF value: a class name is lost, and so are members that are Undefined; in an array Undefined is null. *)
Section View.
  Variable num : Z -> jval.
  Fixpoint view (v : amf) : jval :=
    let mem := (fix go (m : list (list Z * option amf)) : list (list Z * jval) :=
      match m with
      | [] => []
      | (k, o) :: r => match o with None => go r | Some AUndef => go r | Some x => (k, view x) :: go r end
      end) in
    match v with
    | ANum u => num u
    | ABool b => JBool b
    | AStr s => JStr s
    | AObj m => JObj (mem m)
    | ATyped _ m => JObj (mem m)
    | AEcma m => JObj (mem m)
    | ANull => JNull
    | AUndef => JNull
    | AArr l => JArr (map (fun o => match o with Some x => view x | None => JNull end) l)
    end.
End View.

(** decimal digits and their value *)
Definition dec_value (l : list Z) : Z := fold_left (fun a d => 10 * a + (d - 48)) l 0.
