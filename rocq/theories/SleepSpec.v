(** What the run loops should do with timers and sleeping. *)
From Verif Require Import Base Sleep.

(** timers that were scheduled, have not fired and are not cancelled *)
Definition live (l : list event) (id due : Z) : Prop := (exists at_, In (Added id due at_) l) /\ (forall at_, ~ In (Fired id at_) l) /\ ~ In (Gone id) l.
(** the time taken by what the application does *)
Definition spend1 (a : act) : Z := match a with Spend d => Z.max 0 d | _ => 0 end.
Definition spend (l : list act) : Z := fold_right (fun a n => spend1 a + n) 0 l.
Definition spends (l : list (list act)) : Z := fold_right (fun a n => spend a + n) 0 l.
Definition spent (y : cyc) : Z := spends (y_cbs y) + spends (y_laters y) + spends (y_fire y) + spend (y_every y).
(** how long the loop has to sleep: not past the first timer, at most 5 s, not at all if a task waits, but at least minSleep *)
Definition need (c : cfg) (s : st) : Z :=
  Z.max (c_min c) (match s_laters s, s_timers s with S _, _ => 0 | O, [] => 5 * sec c | O, t :: _ => Z.min (5 * sec c) (t_due t - s_cache s) end).
(** how inexact the time given to the kernel is *)
Definition slack (c : cfg) : Z := match c_kind c with Select => 5000 * c_u c | EPoll => msec c end.
Definition cfg_ok (c : cfg) : Prop := 0 < c_u c /\ 0 <= c_min c /\ 0 <= c_lat c.
(** how late a timer can fire, if what the application does in a cycle takes at most [W] *)
Definition late (c : cfg) (W : Z) : Z := W + c_min c + slack c + c_lat c.
