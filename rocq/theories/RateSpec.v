(** Specification vocabulary for RateTracker. *)
From Coq Require Import QArith.
From Verif Require Import Base.
Open Scope Q_scope.

(** Units counted strictly after time [a]. *)
Fixpoint since (a : Q) (us : list (Z * Q)) : Z :=
  match us with
  | [] => 0
  | (n, t) :: r => ((if Qle_bool t a then 0 else n) + since a r)%Z
  end.
(** The times do not decrease, from [t0] on. *)
Fixpoint timely (t0 : Q) (us : list (Z * Q)) : Prop :=
  match us with [] => True | (_, t) :: r => t0 <= t /\ timely t r end.
Definition last_update (t0 : Q) (us : list (Z * Q)) : Q := fold_left (fun _ nt => snd nt) us t0.
(** [n] units every [p], [j] times, starting at 0. *)
Definition regular (n : Z) (p : Q) (j : nat) : list (Z * Q) := map (fun i => (n, inject_Z (Z.of_nat i) * p)) (seq 0 j).
