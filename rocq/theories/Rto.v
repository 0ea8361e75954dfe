(** Model of the round trip time measurements, the retransmission timeout and its alarm in src/Session.cpp: onPacketHeader
    1591-1626, rescheduleTimeoutAlarm 983-1008, the parts of onTimeoutAlarm 1010-1064 about them, checkBaseRTT and
    resetBaseRTT 2119-2152; constants of include/rtmfp/params.hpp and packet.hpp.
    Times are long doubles in the code; here they are rationals, and [rnd] rounds the result of every operation (and the
    constants that have no exact representation).  Left out: infinities and NaN; the infinite initial base RTT is [None].
    The difference of two times compared with a constant in checkBaseRTT is not rounded. *)
From Verif Require Import Base.
From Coq Require Import QArith.

Definition qlt (a b : Q) : bool := negb (Qle_bool b a).
(** std::max and std::min *)
Definition qmax (a b : Q) : Q := if qlt a b then b else a.
Definition qmin (a b : Q) : Q := if qlt b a then b else a.
Definition INITIAL_MRTO : Q := 1 # 4.
Definition INITIAL_ERTO : Q := 3 # 1.
Definition MINIMUM_ERTO : Q := 1 # 4.
Definition MAX_ERTO : Q := 10 # 1.
Definition RTT_HISTORY_THRESH : Q := 30 # 1.
Definition RTT_HISTORY_CAPACITY : Q := 6 # 1.

(** The fields of Session: m_mrto, m_erto, m_srtt, m_rttvar, m_ts_echo_rx, the fire time of m_timeout_alarm (if there is
    one), m_timeout_deadline, m_rttMeasurements (min_rtt and origin, the front first) and m_base_rtt *)
Record rto := mkRto { r_mrto : Q; r_erto : Q; r_srtt : Q; r_var : Q; r_echo : Z; r_alarm : option Q; r_deadline : Q; r_meas : list (Q * Q); r_base : option Q }.
Definition rto_init := mkRto INITIAL_MRTO INITIAL_ERTO (- (1)) 0 (-1) None 0 [] None.
Definition with_rtt s mrto erto srtt var := mkRto mrto erto srtt var (r_echo s) (r_alarm s) (r_deadline s) (r_meas s) (r_base s).
Definition with_echo s x := mkRto (r_mrto s) (r_erto s) (r_srtt s) (r_var s) x (r_alarm s) (r_deadline s) (r_meas s) (r_base s).
Definition with_alarm s a d := mkRto (r_mrto s) (r_erto s) (r_srtt s) (r_var s) (r_echo s) a d (r_meas s) (r_base s).
Definition with_base s m b := mkRto (r_mrto s) (r_erto s) (r_srtt s) (r_var s) (r_echo s) (r_alarm s) (r_deadline s) m b.

Section Rounding.
Variable rnd : Q -> Q.
Definition DELACK_ALARM_PERIOD : Q := rnd (1 # 5).
Definition ERTO_BACKOFF_FACTOR : Q := rnd (1414214 # 1000000).
Definition HEADER_TIMESTAMP_PERIOD : Q := rnd (4 # 1000).

(** 1600-1616: a round trip time measured *)
Definition measured (rtt : Q) (s : rto) : rto :=
  let '(srtt, var) :=
    if Qle_bool 0 (r_srtt s) then
      let delta := rnd (r_srtt s - rtt) in
      let delta := if qlt delta 0 then - delta else delta in
      (rnd (rnd (rnd ((7 # 1) * r_srtt s) + rtt) / (8 # 1)), rnd (rnd (rnd ((3 # 1) * r_var s) + delta) / (4 # 1)))
    else (rtt, rnd (rtt / (2 # 1))) in
  let mrto := rnd (rnd (srtt + rnd ((4 # 1) * var)) + DELACK_ALARM_PERIOD) in
  with_rtt s mrto (qmax mrto MINIMUM_ERTO) srtt var.
(** 2127-2134: the measurements that are too old are at the back *)
Fixpoint drop_old (now : Q) (rev_meas : list (Q * Q)) : list (Q * Q) :=
  match rev_meas with
  | [] => []
  | (m, o) :: r => if qlt (RTT_HISTORY_THRESH * RTT_HISTORY_CAPACITY) (now - o) then drop_old now r else rev_meas
  end.
Definition omin (a : option Q) (b : Q) : Q := match a with Some a => qmin a b | None => b end.
(** 2119-2147: checkBaseRTT *)
Definition check_base (rtt now : Q) (s : rto) : rto :=
  let fresh := match r_meas s with [] => true | (_, o) :: _ => qlt RTT_HISTORY_THRESH (now - o) end in
  let '(meas, base) :=
    if fresh then
      let meas := rev (drop_old now (rev ((rtt, now) :: r_meas s))) in
      (meas, fold_left (fun b m => Some (omin b (fst m))) meas None)
    else (match r_meas s with (m, o) :: r => (qmin m rtt, o) :: r | [] => [] end, r_base s) in
  with_base s meas (Some (omin base rtt)).
(** 1593-1626: the timestamp echo in a packet of an open session; [cur] is getCurrentTimestamp *)
Definition header (cur echo : Z) (now : Q) (s : rto) : rto :=
  if (0 <=? echo)%Z && negb (echo =? r_echo s)%Z then
    let s := with_echo s echo in
    let ticks := wrap16 (cur - echo) in
    if (ticks <? 32768)%Z then
      let rtt := rnd (inject_Z ticks * HEADER_TIMESTAMP_PERIOD) in
      check_base rtt now (measured rtt s)
    else s
  else s.
(** 983-1008: rescheduleTimeoutAlarm; scheduleRel fires at now + m_erto *)
Definition reschedule (now : Q) (s : rto) : rto :=
  let deadline := rnd (now + r_erto s) in
  match r_alarm s with
  | Some f => with_alarm s (Some (if qlt deadline (r_deadline s) then deadline else f)) deadline
  | None => with_alarm s (Some deadline) deadline
  end.
(** 1010-1064: onTimeoutAlarm; [open]: the session is open, [idle]: nothing is outstanding, or
    the retransmit limit passed and the session closes (the timeout stays as it is in both cases).  The second answer tells whether
    it took effect. *)
Definition timeout (now : Q) (open idle : bool) (s : rto) : rto * bool :=
  if qlt now (r_deadline s) then (with_alarm s (Some (r_deadline s)) (r_deadline s), false)
  else
    let s := with_alarm s None (r_deadline s) in
    if negb open then (s, true)
    else
      let s := with_base s [] (r_base s) in
      if idle then (s, true)
      else (with_rtt s (r_mrto s) (qmax (qmin (rnd (r_erto s * ERTO_BACKOFF_FACTOR)) MAX_ERTO) (r_mrto s)) (r_srtt s) (r_var s), true).

(** What happens to a session: a packet header, a call of rescheduleTimeoutAlarm, and its timer firing, which it only does
    if there is one and it is due *)
Inductive top := THeader (cur echo : Z) (now : Q) | TSchedule (now : Q) | TFire (now : Q) (open idle : bool).
Definition tstep (o : top) (s : rto) : rto :=
  match o with
  | THeader cur echo now => header cur echo now s
  | TSchedule now => reschedule now s
  | TFire now open idle => match r_alarm s with Some f => if Qle_bool f now then fst (timeout now open idle s) else s | None => s end
  end.
Definition trun (ops : list top) (s : rto) : rto := fold_left (fun s o => tstep o s) ops s.
End Rounding.

(** checkBaseRTT (called for every measurement) and resetBaseRTT (2149-2152) *)
Inductive bop := BMeasure (rtt now : Q) | BReset.
Definition bstep (o : bop) (s : rto) : rto :=
  match o with BMeasure rtt now => check_base rtt now s | BReset => with_base s [] (r_base s) end.
Definition brun (ops : list bop) (s : rto) : rto := fold_left (fun s o => bstep o s) ops s.
