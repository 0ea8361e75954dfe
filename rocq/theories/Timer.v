(** Model of Timer and TimerList (src/Timer.cpp, include/rtmfp/Timer.hpp): one list and the timers made for it.

    Times and intervals are whole ticks (one tick is MIN_RECUR_INTERVAL, a microsecond); the code computes with long double, whose
    rounding is not modelled.  std::set is the list of its members in order; changing the sort key of a timer while it is in the
    set breaks the set, [UB].  Addresses order timers that are due at the same time: each timer has one, chosen by the
    environment, different from those of the others.  What an action does is a list of calls on the timers and the list, chosen
    by a function of the whole state, which holds the log of everything that happened: any behaviour is such a function.  Actions
    that run fireDueTimers again from inside, a TimerList destroyed while its timers live on, and timers moved from one list to
    another are left out. *)
From Verif Require Import Base.
Open Scope res_scope.

(** Timer.hpp 53-59; m_firing only keeps the action from being cleared while it runs *)
Record timer := Timer { t_when : Z; t_recur : Z; t_list : bool (* m_timerList is the list *); t_canceled : bool; t_resched : bool; t_catchup : bool; t_addr : Z }.
Inductive tevent :=
| EvRun (id : nat) (due now : Z)  (* the action is called *)
| EvTime (id : nat) (w : Z)       (* m_when is given the value *)
| EvAdd (id : nat)                (* addTimer is called *)
| EvCancel (id : nat)             (* m_canceled becomes true *)
| EvWake.                         (* onHowLongToSleepDidChange is called *)
Record tstate := TState { ts_timers : list timer; ts_set : list nat; ts_running : bool; ts_log : list tevent (* latest first *) }.
Definition ts_init : tstate := TState [] [] false [].
Definition no_timer : timer := Timer 0 0 false true false false 0.
Definition tget (s : tstate) (id : nat) : timer := nth id (ts_timers s) no_timer.
Fixpoint set_nth {A} (l : list A) (n : nat) (x : A) : list A := match l, n with [], _ => [] | _ :: r, O => x :: r | a :: r, S k => a :: set_nth r k x end.
Definition tset (s : tstate) (id : nat) (t : timer) : tstate := TState (set_nth (ts_timers s) id t) (ts_set s) (ts_running s) (ts_log s).
Definition with_set (s : tstate) (l : list nat) : tstate := TState (ts_timers s) l (ts_running s) (ts_log s).
Definition with_running (s : tstate) (b : bool) : tstate := TState (ts_timers s) (ts_set s) b (ts_log s).
Definition logged (s : tstate) (e : tevent) : tstate := TState (ts_timers s) (ts_set s) (ts_running s) (e :: ts_log s).
Definition with_when (t : timer) (w : Z) : timer := Timer w (t_recur t) (t_list t) (t_canceled t) (t_resched t) (t_catchup t) (t_addr t).
Definition with_recur (t : timer) (i : Z) : timer := Timer (t_when t) i (t_list t) (t_canceled t) (t_resched t) (t_catchup t) (t_addr t).
Definition with_list (t : timer) (b : bool) : timer := Timer (t_when t) (t_recur t) b (t_canceled t) (t_resched t) (t_catchup t) (t_addr t).
Definition with_canceled (t : timer) : timer := Timer (t_when t) (t_recur t) (t_list t) true (t_resched t) (t_catchup t) (t_addr t).
Definition with_resched (t : timer) (b : bool) : timer := Timer (t_when t) (t_recur t) (t_list t) (t_canceled t) b (t_catchup t) (t_addr t).

(** 92-97: operator< *)
Definition tless (a b : timer) : bool := if t_when a =? t_when b then t_addr a <? t_addr b else t_when a <? t_when b.
(** std::set::insert, erase *)
Fixpoint insert (s : tstate) (id : nat) (l : list nat) : list nat :=
  match l with
  | [] => [id]
  | x :: r => if tless (tget s id) (tget s x) then id :: l else if tless (tget s x) (tget s id) then x :: insert s id r else l
  end.
Definition erase (s : tstate) (id : nat) (l : list nat) : list nat := filter (fun x => tless (tget s id) (tget s x) || tless (tget s x) (tget s id)) l.

(** 222-234: addTimer *)
Definition add_timer (s : tstate) (id : nat) : tstate :=
  let early := match ts_set s with [] => true | x :: _ => t_when (tget s id) <? t_when (tget s x) end in
  let s1 := tset s id (with_list (tget s id) true) in
  let s2 := logged (with_set s1 (insert s1 id (ts_set s1))) (EvAdd id) in
  if (early : bool) && negb (ts_running s2) then logged s2 EvWake else s2.
(** 236-243: removeTimer *)
Definition remove_timer (s : tstate) (id : nat) : tstate :=
  let s1 := tset s id (with_list (tget s id) false) in with_set s1 (erase s1 id (ts_set s1)).
(** 35-52: setNextFireTime.  m_when of a timer in the set without m_timerList would be changed in the set. *)
Definition put_when (s : tstate) (id : nat) (w : Z) : res tstate :=
  if existsb (Nat.eqb id) (ts_set s) then UB else Ok (logged (tset s id (with_when (tget s id) w)) (EvTime id w)).
Definition set_next (s : tstate) (id : nat) (w : Z) : res tstate :=
  if t_canceled (tget s id) then Ok s
  else
    ' s1 <- (if t_list (tget s id) then ' s2 <- put_when (remove_timer s id) id w;; Ok (add_timer s2 id) else put_when s id w);;
    Ok (tset s1 id (with_resched (tget s1 id) true)).
(** 59-64: setRecurInterval *)
Definition clip (i : Z) : Z := if (i >? 0) && (i <? 1) then 1 else i.
(** 71-80: cancel *)
Definition cancel (s : tstate) (id : nat) : tstate :=
  let s1 := logged (tset s id (with_canceled (tget s id))) (EvCancel id) in
  let s2 := if t_list (tget s1 id) then remove_timer s1 id else s1 in
  tset s2 id (with_list (tget s2 id) false).
(** 66-69: doesRecur *)
Definition recurs (t : timer) : bool := (t_recur t >? 0) && negb (t_canceled t).

(** the calls of a program *)
Inductive top :=
| TSchedule (w i : Z) (c : bool) (a : Z)  (* 172-184; address *)
| TSet (id : nat) (w : Z)
| TRecur (id : nat) (i : Z)
| TCancel (id : nat)
| TAdd (id : nat)
| TRemove (id : nat)
| TClear.
Definition known (s : tstate) (id : nat) : bool := Nat.ltb id (length (ts_timers s)).
Definition tstep (s : tstate) (o : top) : res tstate :=
  match o with
  | TSchedule w i c a =>
      if existsb (fun t => t_addr t =? a) (ts_timers s) then Ok s
      else
        let id := length (ts_timers s) in
        let s1 := TState (ts_timers s ++ [Timer w (clip i) false false false c a]) (ts_set s) (ts_running s) (EvTime id w :: ts_log s) in
        Ok (add_timer s1 id)
  | TSet id w => if known s id then set_next s id w else Ok s
  | TRecur id i => Ok (if known s id then tset s id (with_recur (tget s id) (clip i)) else s)
  | TCancel id => Ok (if known s id then cancel s id else s)
  | TAdd id => Ok (if known s id then add_timer s id else s)
  | TRemove id => Ok (if known s id then remove_timer s id else s)
  | TClear => Ok (with_set s [])  (* 245-248: clear *)
  end.
Fixpoint tsteps (s : tstate) (l : list top) : res tstate := match l with [] => Ok s | o :: r => ' s1 <- tstep s o;; tsteps s1 r end.

(** 137-140: the next time of a recurring timer; ceill((now - when) / interval) *)
Definition next_when (now : Z) (t : timer) : Z :=
  if (now >? t_when t) && t_catchup t then t_when t + - (- (now - t_when t) / t_recur t) * t_recur t else t_when t + t_recur t.
(** 119-152: basicFire; [act] says what the action of a timer does (nothing, for an empty one) *)
Definition basic_fire (act : nat -> tstate -> list top) (now : Z) (s : tstate) (id : nat) : res tstate :=
  if t_canceled (tget s id) then Ok s
  else
    let s1 := logged (tset s id (with_resched (tget s id) false)) (EvRun id (t_when (tget s id)) now) in
    ' s2 <- tsteps s1 (act id s1);;
    if recurs (tget s2 id) || t_resched (tget s2 id) then
      if t_resched (tget s2 id) then Ok s2
      else
        ' s3 <- put_when s2 id (next_when now (tget s2 id));;
        Ok (if t_list (tget s3 id) then add_timer s3 id else s3)
    else Ok (cancel (tset s2 id (with_list (tget s2 id) false)) id).
(** 194-220: fireDueTimers; [Rej] when [fuel] turns of the loop are not enough *)
Fixpoint fire_loop (act : nat -> tstate -> list top) (now : Z) (fuel : nat) (s : tstate) : res tstate :=
  match fuel with
  | O => Rej
  | S k =>
      match ts_set s with
      | [] => Ok s
      | id :: r =>
          if t_when (tget s id) <=? now then
            ' s1 <- basic_fire act now (with_set s r) id;; fire_loop act now k s1
          else Ok s
      end
  end.
Definition fire_due (act : nat -> tstate -> list top) (now : Z) (fuel : nat) (s : tstate) : res tstate :=
  ' s1 <- fire_loop act now fuel (with_running s true);; Ok (with_running s1 false).
(** 186-192: howLongToNextFire *)
Definition how_long (s : tstate) (now maxi : Z) : Z := match ts_set s with [] => maxi | x :: _ => Z.min maxi (t_when (tget s x) - now) end.

(** histories: calls and passes *)
Inductive hop := HCall (o : top) | HFire (act : nat -> tstate -> list top) (now : Z) (fuel : nat).
Definition hstep (s : tstate) (h : hop) : res tstate := match h with HCall o => tstep s o | HFire act now fuel => fire_due act now fuel s end.
Fixpoint hrun (s : tstate) (l : list hop) : res tstate := match l with [] => Ok s | h :: r => ' s1 <- hstep s h;; hrun s1 r end.
