(** Specification vocabulary for certificates and endpoint discriminators: what a list of options says. *)
From Verif Require Import Base VLUSpec.

(** One item of an option list on the wire: an option, or ([None]) the marker. *)
Definition item := option (Z * list Z).
Inductive item_wire : item -> list Z -> Prop :=
| iw_marker : forall L, complete_vlu L -> groups_value L = 0 -> item_wire None L
| iw_option : forall ty v w, option_wire ty v w -> item_wire (Some (ty, v)) w.
Inductive items_wire : list item -> list Z -> Prop :=
| is_nil : items_wire [] []
| is_cons : forall i w is ws, item_wire i w -> items_wire is ws -> items_wire (i :: is) (w ++ ws).

(** The values given for an option type, in order. *)
Fixpoint values (ty : Z) (is : list item) : list (list Z) :=
  match is with
  | [] => []
  | Some (t, v) :: r => if t =? ty then v :: values ty r else values ty r
  | None :: r => values ty r
  end.
Definition last_value (ty : Z) (is : list item) : option (list Z) := match rev (values ty is) with [] => None | v :: _ => Some v end.
Definition first_value (ty : Z) (is : list item) : option (list Z) := match values ty is with [] => None | v :: _ => Some v end.
(** What comes before the first marker. *)
Fixpoint before_marker (is : list item) : list item :=
  match is with [] => [] | None :: _ => [] | i :: r => i :: before_marker r end.

(** What an endpoint is known by: its fingerprint, its hostname if any, and the ancillary data it accepts. *)
Record endpoint := mkEnd { en_fp : list Z; en_host : option (list Z); en_anc : list Z -> bool }.
(** The discriminator [is] selects the endpoint (RFC 7425 section 4.4.2): 15 is a fingerprint, 0 a hostname, 10 ancillary data. *)
Definition selects (is : list item) (e : endpoint) : Prop :=
  match last_value 15 is with
  | Some f => f = en_fp e
  | None =>
      (last_value 0 is <> None \/ last_value 10 is <> None)
      /\ (forall h, last_value 0 is = Some h -> en_host e = Some h)
      /\ (forall d, last_value 10 is = Some d -> en_anc e d = true)
  end.
