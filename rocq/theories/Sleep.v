(** Model of how long the run loops sleep and when their timers fire: src/SelectRunLoop.cpp 69-134, src/EPollRunLoop.cpp 120-186, src/RunLoop.cpp 28-102, TimerList in src/Timer.cpp.
    Times are whole ticks, any number [c_u] of them to 0.1 ns.  An application is what it does in callbacks, which take time; the kernel waits up to the time given and [c_lat] more, or forever if epoll is given a negative time.
    Simplified: timers fire once (a recurring one is scheduled again by its action, C23); which descriptors are ready is left out (C73), there are only the actions run; threads and conversions beyond int are left out. *)
From Verif Require Import Base.

Inductive kind := Select | EPoll.
(** [c_u]: ticks to 10^-10 s; [c_min]: minSleep; [c_int]: runInterval, None if infinite; [c_lat]: how late the kernel returns at most *)
Record cfg := mkC { c_kind : kind; c_u : Z; c_min : Z; c_int : option Z; c_lat : Z }.
Definition sec (c : cfg) : Z := 10000000000 * c_u c.
Definition msec (c : cfg) : Z := 10000000 * c_u c.
Definition usec (c : cfg) : Z := 10000 * c_u c.
(** a timer: number, m_when *)
Record timer := mkT { t_id : Z; t_due : Z }.
(** What happens: a timer is scheduled for a time, at a time; it fires at the loop's time; it is cancelled; select or epoll_wait returns *)
Inductive event := Added (id due at_ : Z) | Fired (id at_ : Z) | Gone (id : Z) | Woke (at_ : Z).
(** the steady clock; m_timeCache; m_timers, in order; the number of the next timer; how many m_doLaters; m_stopping; run has returned *)
Record st := mk { s_clock : Z; s_cache : Z; s_timers : list timer; s_next : Z; s_laters : nat; s_stop : bool; s_over : bool; s_log : list event }.
Definition say (e : event) (s : st) : st := mk (s_clock s) (s_cache s) (s_timers s) (s_next s) (s_laters s) (s_stop s) (s_over s) (s_log s ++ [e]).
Definition with_timers (s : st) (l : list timer) : st := mk (s_clock s) (s_cache s) l (s_next s) (s_laters s) (s_stop s) (s_over s) (s_log s).
Definition with_clock (s : st) (t : Z) : st := mk t (s_cache s) (s_timers s) (s_next s) (s_laters s) (s_stop s) (s_over s) (s_log s).
Definition with_laters (s : st) (n : nat) : st := mk (s_clock s) (s_cache s) (s_timers s) (s_next s) n (s_stop s) (s_over s) (s_log s).
Definition with_stop (s : st) (b : bool) : st := mk (s_clock s) (s_cache s) (s_timers s) (s_next s) (s_laters s) b (s_over s) (s_log s).
Definition with_over (s : st) (b : bool) : st := mk (s_clock s) (s_cache s) (s_timers s) (s_next s) (s_laters s) (s_stop s) b (s_log s).
(** RunLoop.cpp 69-73: cacheTime *)
Definition cache_time (s : st) : st := mk (s_clock s) (s_clock s) (s_timers s) (s_next s) (s_laters s) (s_stop s) (s_over s) (s_log s).

(** Timer.cpp 92-97, 222-234: addTimer, into a std::set ordered by m_when *)
Fixpoint insert (t : timer) (l : list timer) : list timer :=
  match l with [] => [t] | x :: q => if t_due t <? t_due x then t :: l else x :: insert t q end.
(** RunLoop.cpp 28-36: schedule *)
Definition schedule (id due : Z) (s : st) : st := say (Added id due (s_clock s)) (with_timers s (insert (mkT id due) (s_timers s))).
(** What the application does in a callback: schedule at a time, relative to the loop's time, cancel (not the stop timer, which it does not have), doLater, stop, clear, take time *)
Inductive act := Sched (due : Z) | SchedRel (delta : Z) | Cancel (id : Z) | DoLater | Stop | Clear | Spend (d : Z).
Definition sched_next (due : Z) (s : st) : st :=
  let s1 := schedule (s_next s) due s in mk (s_clock s1) (s_cache s1) (s_timers s1) (s_next s1 + 1) (s_laters s1) (s_stop s1) (s_over s1) (s_log s1).
(** Timer.cpp 244-247: TimerList::clear *)
Fixpoint clear_timers (l : list timer) (s : st) : st := match l with [] => s | t :: q => clear_timers q (say (Gone (t_id t)) (with_timers s q)) end.
Definition do_act (s : st) (a : act) : st :=
  match a with
  | Sched due => sched_next due s
  | SchedRel d => sched_next (s_cache s + d) s (* 38-46 *)
  | Cancel id => (* Timer.cpp 71-80 *)
      if (1 <=? id) && existsb (fun t => t_id t =? id) (s_timers s) then say (Gone id) (with_timers s (filter (fun t => negb (t_id t =? id)) (s_timers s))) else s
  | DoLater => with_laters s (S (s_laters s))
  | Stop => with_stop s true
  | Clear => (* RunLoop.cpp 96-102 *) with_laters (clear_timers (s_timers s) s) O
  | Spend d => with_clock s (s_clock s + Z.max 0 d)
  end.
Definition do_acts (l : list act) (s : st) : st := fold_left do_act l s.

(** Timer.cpp 186-192: howLongToNextFire *)
Definition how_long (c : cfg) (l : list timer) (now : Z) : Z := match l with [] => 5 * sec c | t :: _ => Z.min (5 * sec c) (t_due t - now) end.
(** SelectRunLoop.cpp 82-84, EPollRunLoop.cpp 136-138 *)
Definition sleep_time (c : cfg) (s : st) : Z :=
  let n := match s_laters s with O => how_long c (s_timers s) (s_cache s) | S _ => 0 end in if n <? c_min c then c_min c else n.
(** SelectRunLoop.cpp 85-87: tv_sec, tv_usec *)
Definition timeval (c : cfg) (s : st) : Z * Z :=
  let n := sleep_time c s + 5000 * c_u c in let tv_sec := Z.quot n (sec c) in (tv_sec, Z.quot (n - tv_sec * sec c) (usec c)).
(** EPollRunLoop.cpp 139-147: the milliseconds *)
Definition millis (c : cfg) (s : st) : Z :=
  let n := sleep_time c s in
  let n := if 0 <? n then (let n := n + 9999999 * c_u c in if n <? msec c then msec c else n) else n in Z.quot n (msec c).
(** the time given to the kernel, in ticks *)
Definition timeout (c : cfg) (s : st) : Z :=
  match c_kind c with Select => fst (timeval c s) * sec c + snd (timeval c s) * usec c | EPoll => millis c s * msec c end.

(** SelectRunLoop.cpp 106-112, EPollRunLoop.cpp 200-209: the actions of the descriptors *)
Definition run_cbs (l : list (list act)) (s : st) : st := fold_left (fun s a => if s_stop s then s else do_acts a s) l s.
(** RunLoop.cpp 85-94: processDoLaters; what the tasks do, those not listed nothing *)
Fixpoint run_laters (l : list (list act)) (s : st) : st :=
  if s_stop s then s
  else match s_laters s with O => s | S n => match l with [] => with_laters s O | a :: l => run_laters l (do_acts a (with_laters s n)) end end.
(** Timer.cpp 87-90, 119-151: the action of a timer; number 0 is the stop timer *)
Definition fire_one (t : timer) (q : list timer) (a : list act) (s : st) : st :=
  let s := say (Fired (t_id t) (s_cache s)) (with_timers s q) in if t_id t =? 0 then with_stop s true else do_acts a s.
(** Timer.cpp 194-220: fireDueTimers; what the actions do, those not listed nothing *)
Fixpoint fire_rest (l : list timer) (s : st) : st :=
  match l with t :: q => if t_due t <=? s_cache s then fire_rest q (fire_one t q [] s) else s | [] => s end.
Fixpoint fire (l : list (list act)) (s : st) : st :=
  match l with
  | [] => fire_rest (s_timers s) s
  | a :: l => match s_timers s with t :: q => if t_due t <=? s_cache s then fire l (fire_one t q a s) else s | [] => s end
  end.
(** One cycle's environment: how long the kernel waits, whether it reports an error other than EINTR, what the descriptors' actions, the tasks, the timers' actions and onEveryCycle do *)
Record cyc := mkY { y_wait : Z; y_err : bool; y_cbs : list (list act); y_laters : list (list act); y_fire : list (list act); y_every : list act }.
(** how long the kernel waits *)
Definition waits (c : cfg) (t w : Z) : Z :=
  if t <? 0 then (match c_kind c with Select => 0 | EPoll => Z.max 0 w end) else Z.max 0 (Z.min w (t + c_lat c)).
(** SelectRunLoop.cpp 80-127, EPollRunLoop.cpp 135-180: the body of the loop; select answers a negative time with EINVAL *)
Definition cycle (c : cfg) (s : st) (y : cyc) : st :=
  if s_over s then s
  else
    let t := timeout c s in
    let s := with_clock s (s_clock s + waits c t (y_wait y)) in
    let s := cache_time (say (Woke (s_clock s)) s) in
    if y_err y || match c_kind c with Select => t <? 0 | EPoll => false end then with_over s true
    else
      let s := run_laters (y_laters y) (run_cbs (y_cbs y) s) in
      let s := if s_stop s then s else fire (y_fire y) s in
      let s := if s_stop s then s else do_acts (y_every y) s in
      with_over s (s_stop s).
(** SelectRunLoop.cpp 73-76, EPollRunLoop.cpp 122-131 *)
Definition enter (c : cfg) (s : st) : st :=
  let s := with_stop s false in
  cache_time (match c_int c with Some d => schedule 0 (s_clock s + d) s | None => s end).
(** a loop made at time [t0], what the application does before it calls run (RunLoop.cpp 58-61: the time is not cached then), and the cycles *)
Definition begin (c : cfg) (t0 : Z) (pre : list act) : st := enter c (fold_left (fun s a => cache_time (do_act s a)) pre (mk t0 t0 [] 1 O false false [])).
Definition run (c : cfg) (t0 : Z) (pre : list act) (ys : list cyc) : st := fold_left (cycle c) ys (begin c t0 pre).
