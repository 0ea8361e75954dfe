(** Specification vocabulary for the retransmission timeout. *)
From Verif Require Import Base Rto.
From Coq Require Import QArith Qabs.

(** What is asked of the arithmetic: it is monotone, has a small relative error (or absolute error, near zero), and is exact
    for the constants 0, 1/4 and 10. *)
Record rounding (rnd : Q -> Q) : Prop := mkRounding {
  rd_mono : forall x y, x <= y -> rnd x <= rnd y;
  rd_error : forall x, Qabs (rnd x - x) <= Qabs x * (1 # 1099511627776) + (1 # 1000000000);
  rd_zero : rnd 0 == 0;
  rd_quarter : rnd (1 # 4) == 1 # 4;
  rd_ten : rnd (10 # 1) == 10 # 1 }.
Fixpoint qpow (x : Q) (n : nat) : Q := match n with O => 1 | S n => x * qpow x n end.

(** The round trip times measured (with the times) since the last reset, the latest first *)
Definition measures (ops : list bop) : list (Q * Q) :=
  fold_left (fun h o => match o with BMeasure rtt now => (rtt, now) :: h | BReset => [] end) ops [].
(** Time does not go back *)
Fixpoint forward (last : Q) (ops : list bop) : Prop :=
  match ops with
  | [] => True
  | BMeasure _ now :: ops => last <= now /\ forward now ops
  | BReset :: ops => forward last ops
  end.

(** Packet headers are the only source of measurements *)
Definition is_header (o : top) : bool := match o with THeader _ _ _ => true | _ => false end.
Definition no_schedule (o : top) : bool := match o with TSchedule _ => false | _ => true end.
(** This is a timeout of an open session with something outstanding: the timer fires, and the deadline has passed *)
Definition took (o : top) (s : rto) : bool :=
  match o, r_alarm s with
  | TFire now true false, Some f => Qle_bool f now && Qle_bool (r_deadline s) now
  | _, _ => false
  end.
Fixpoint timeouts (rnd : Q -> Q) (ops : list top) (s : rto) : nat :=
  match ops with [] => O | o :: ops => ((if took o s then 1 else 0) + timeouts rnd ops (tstep rnd o s))%nat end.
