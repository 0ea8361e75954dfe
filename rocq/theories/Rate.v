(** Model of RateTracker (src/RateTracker.cpp): how many units per second, over a window.  Times and rates are rational numbers (the code has
    doubles); [None] is the time -INFINITY; m_count does not wrap. *)
From Coq Require Import QArith.
From Verif Require Import Base.
Open Scope Q_scope.

(** include/rtmfp/RateTracker.hpp 24-27 *)
Record rt := mkRt { r_period : Q; r_begin : option Q; r_count : Z; r_prev : Q }.

(** 11-16 *)
Definition rt_new (w : Q) : rt := mkRt w None 0 0.

(** 34-57: getRate; a division by zero would be [None] *)
Definition rt_div (a b : Q) : option Q := if Qeq_bool b 0 then None else Some (a / b).
Definition get_rate (r : rt) (now : Q) : option Q :=
  let w := r_period r in
  match r_begin r with
  | None => Some 0                                       (* delta is infinite *)
  | Some b =>
      let delta := if Qle_bool 0 (now - b) then now - b else 0 in
      if Qle_bool (w * 2) delta then Some 0
      else if Qle_bool w delta then
        match rt_div (w * 2 - delta) w with
        | None => None
        | Some decay => rt_div (inject_Z (r_count r) * decay) w
        end
      else if negb (Qle_bool (r_prev r) 0) then
        match rt_div delta w, rt_div (inject_Z (r_count r)) w with
        | Some d, Some c => Some (c + r_prev r * (1 - d))
        | _, _ => None
        end
      else rt_div (inject_Z (r_count r)) w
  end.
(** 18-32: update *)
Definition rt_update (r : rt) (count : Z) (now : Q) : option rt :=
  let early := match r_begin r with Some b => negb (Qle_bool 0 (now - b)) | None => false end in
  if early then Some r
  else
    let full := match r_begin r with Some b => Qle_bool (r_period r) (now - b) | None => true end in
    if full then
      match get_rate r now with
      | None => None
      | Some p => Some (mkRt (r_period r) (Some now) (0 + count) p)
      end
    else Some (mkRt (r_period r) (r_begin r) (r_count r + count) (r_prev r)).
(** 59-62: setWindowPeriod, at least a microsecond; 69-74: reset *)
Definition rt_set_period (r : rt) (w : Q) : rt :=
  mkRt (if Qle_bool (1 # 1000000) w then w else 1 # 1000000) (r_begin r) (r_count r) (r_prev r).
Definition rt_reset (r : rt) : rt := mkRt (r_period r) None 0 0.

Inductive rop := RUpdate (n : Z) (t : Q) | RPeriod (w : Q) | RReset.
Definition rt_step (r : rt) (o : rop) : option rt :=
  match o with
  | RUpdate n t => rt_update r n t
  | RPeriod w => Some (rt_set_period r w)
  | RReset => Some (rt_reset r)
  end.
Fixpoint rt_run (r : rt) (os : list rop) : option rt :=
  match os with
  | [] => Some r
  | o :: os => match rt_step r o with Some r => rt_run r os | None => None end
  end.
(** Updates only. *)
Fixpoint upd_run (r : rt) (us : list (Z * Q)) : option rt :=
  match us with [] => Some r | (n, t) :: us => match rt_update r n t with Some r => upd_run r us | None => None end end.
