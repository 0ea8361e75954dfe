(** What flow synchronisation is meant to do. *)
From Verif Require Import Base FlowSync.

(** Who waits where, without maps or receive orders: a sync that completes the announced number empties the barrier, otherwise
    the caller joins it. *)
Definition waits := Z -> list (option nat).
Definition upd (W : waits) (id : Z) (l : list (option nat)) : waits := fun k => if k =? id then l else W k.
Definition completes (W : waits) (id n : Z) : bool := n <=? zlen (W id) + 1.
Definition wstep (W : waits) (o : fop) : waits :=
  match o with
  | FSync id n f => upd W id (if completes W id n then [] else W id ++ [f])
  | FReset id => upd W id []
  | FOrder _ _ => W
  end.
Definition nobody : waits := fun _ => [].
Definition wrun (os : list fop) : waits := fold_left wstep os nobody.

(** The discipline of use: only a flow that is not on hold delivers a message and so syncs; the owner gives a flow an order
    only while it waits nowhere, and HOLD not at all.  [ord] is the order of each flow at the time. *)
Definition waits_at (W : waits) (f : nat) (id : Z) : Prop := In (Some f) (W id).
Definition polite (W : waits) (ord : nat -> rorder) (o : fop) : Prop :=
  match o with
  | FSync _ _ (Some f) => ord f <> RO_HOLD
  | FSync _ _ None => True
  | FReset _ => True
  | FOrder f o => o <> RO_HOLD /\ forall id, ~ waits_at W f id
  end.
Fixpoint polite_run (W : waits) (s : fsync) (os : list fop) : Prop :=
  match os with [] => True | o :: r => polite W (fs_ord s) o /\ polite_run (wstep W o) (fst (fstep s o)) r end.

(** The answers given to the syncs of [id], in order. *)
Fixpoint answers (id : Z) (l : list (option (Z * bool))) : list bool :=
  match l with
  | [] => []
  | Some (k, b) :: r => if k =? id then b :: answers id r else answers id r
  | None :: r => answers id r
  end.
(** All syncs of [id] announce [n]; nobody resets [id]. *)
Definition announces (id n : Z) (o : fop) : Prop :=
  match o with FSync k c _ => k = id -> c = n | FReset k => k <> id | FOrder _ _ => True end.
(** what the answers should be: every n-th is true *)
Definition every_nth (n : Z) (l : list bool) : Prop :=
  forall k b, nth_error l k = Some b -> b = ((Z.of_nat k + 1) mod n =? 0).

(** None of these operations completes or resets barrier [id]. *)
Fixpoint keeps (id : Z) (W : waits) (os : list fop) : Prop :=
  match os with
  | [] => True
  | o :: r => match o with FSync k n _ => k = id -> completes W id n = false | FReset k => k <> id | FOrder _ _ => True end /\ keeps id (wstep W o) r
  end.
(** None of these operations is about barrier [id]. *)
Definition elsewhere (id : Z) (o : fop) : Prop := match o with FSync k _ _ => k <> id | FReset k => k <> id | FOrder _ _ => True end.
