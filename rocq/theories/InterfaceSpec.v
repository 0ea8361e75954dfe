(** Specification vocabulary for Interface. *)
From Verif Require Import Base Interface.

(** The sessions offered the interface at priority p, in order. *)
Fixpoint offered (p : nat) (l : list iev) : list nat :=
  match l with [] => [] | Asked s p' _ :: r => if Nat.eqb p' p then s :: offered p r else offered p r | _ :: r => offered p r end.
Definition prefix {A} (l l' : list A) : Prop := exists r, l' = l ++ r.
(** The events of [x'] since [x]. *)
Definition since (x x' : ifc) (l : list iev) : Prop := i_log x' = i_log x ++ l.
(** Whether s, by what happened, still has something to send at p: it asked to, and did not decline since. *)
Fixpoint wants (s p : nat) (l : list iev) (w : bool) : bool :=
  match l with
  | [] => w
  | Asked s' p' b :: r => wants s p r (if Nat.eqb s' s && Nat.eqb p' p then b else w)
  | Wanted s' p' :: r => wants s p r (if Nat.eqb s' s && Nat.eqb p' p then true else w)
  | Notify :: r => wants s p r w
  end%bool.
(** A session that declines the interface has not scheduled anything meanwhile. *)
Definition calm (ans : list answer) : Prop := Forall (fun a => snd a = false -> fst a = []) ans.
Definition calm_op (o : iop) : Prop := match o with IWritable ans => calm ans | _ => True end.
(** Priorities are in range. *)
Definition in_range (ans : list answer) : Prop := Forall (fun a => Forall (fun w => (snd w < NUM_PRIORITIES)%nat) (fst a)) ans.
(** The number of requests waiting. *)
Definition waiting (x : ifc) : nat := fold_right (fun p n => (length (i_q x p) + n)%nat) 0%nat (seq 0 NUM_PRIORITIES).
