(** What a flow should deliver. *)
From Coq Require Import Sorted.
From Verif Require Import Base RTWS.

(** the messages sent whole, each with its place among those written *)
Fixpoint pick (n : Z) (fate : list bool) (written : list (list Z)) : list (Z * list Z) :=
  match fate, written with
  | true :: fate, m :: w => (n, m) :: pick (n + 1) fate w
  | false :: fate, _ :: w => pick (n + 1) fate w
  | _, _ => []
  end.
Fixpoint number (n : Z) (l : list (list Z)) : list (Z * list Z) := match l with [] => [] | m :: l => (n, m) :: number (n + 1) l end.
(** calls that can be made: vectors have fewer than 2^63 bytes, size_t and uintmax_t 64 bits *)
Definition ok_act (a : act) : Prop := match a with Cap n => is_u64 n | CloseR reason desc => is_u64 reason /\ bytes_ok desc | _ => True end.
Definition ok_op (o : op) : Prop :=
  match o with
  | Write m => bytes_ok m /\ zlen m < 2 ^ 63
  | Transmit chunk => is_u64 chunk
  | Receive _ acts => Forall ok_act acts
  | Deliver cbs => Forall (Forall ok_act) cbs
  | App a => ok_act a
  | _ => True
  end.
(** 2^64 messages have not been written *)
Definition few (y : sys) : Prop := zlen (f_written (y_s y)) < 2 ^ 64 - 1.
(** nothing is on its way *)
Definition quiet (y : sys) (r : rflow) : Prop := y_fwd y = [] /\ y_back y = [] /\ y_r y = Some r /\ g_acknow r = false.
(** no message was given up *)
Definition keeps (o : op) : Prop := match o with Drop _ => False | _ => True end.
(** what has been delivered came in the order it was written, each message as it was written and numbered by its place *)
Definition faithful (written : list (list Z)) (got : list (Z * list Z)) : Prop :=
  StronglySorted (fun a b => fst a < fst b) got /\ Forall (fun p => 0 <= fst p /\ nth_error written (Z.to_nat (fst p)) = Some (snd p)) got.
