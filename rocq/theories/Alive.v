(** Model of the alarms that keep an open session going and end it (src/Session.cpp): the retransmission timeout, the keepalive and the
    idle alarm.  Times are integers, in microseconds; [None] is infinity.  What matters here of the flows is whether fragments are in flight,
    whether fragments that were lost can be sent again, and how many flows there are.  Measured times (m_erto, m_mrto) are set by
    the environment at any moment; congestion control is left out. *)
From Verif Require Import Base.

(** INFINITY as a time or duration *)
Definition etime := option Z.
Definition eadd (a b : etime) : etime := match a, b with Some x, Some y => Some (x + y) | _, _ => None end.
(** [now] is not before the time *)
Definition reached (now : Z) (t : etime) : bool := match t with Some x => x <=? now | None => false end.

(** include/rtmfp/params.hpp 56-58: MIN_KEEPALIVE_PERIOD, MIN_RTX_PERIOD, MIN_IDLE_PERIOD are one second each *)
Definition MIN_PERIOD := 1000000.
Definition emax (l : etime) : etime := match l with Some x => Some (Z.max x MIN_PERIOD) | None => None end.

(** How the session ended, in the model only: given up on the peer, idle, or otherwise. *)
Inductive ending := Dead | Idle | Other.
(** Session.hpp: m_timeout_alarm (and when it fires) and m_timeout_deadline, m_retransmit_deadline_epoch, m_retransmit_limit,
    m_keepalive_outstanding, m_last_keepalive_tx_time, m_keepalive_period, m_keepalive_timer, m_role, m_mrto, m_erto, m_idle_limit,
    m_last_idle_time, m_idle_timer, the number of flows in m_sendFlows and m_recvFlows.  a_out: m_outstandingFrags is not empty;
    a_room: some flow with fragments has a receive window that is not zero; a_ready: since when lost fragments wait to be sent again in a
    flow that may send. *)
Record al := mkAl {
  a_end : option ending; a_out : bool; a_room : bool; a_ready : option Z;
  a_tmo : option Z; a_tdead : Z; a_epoch : etime; a_rlim : etime;
  a_kout : bool; a_klast : Z; a_kper : etime; a_ktimer : option etime; a_resp : bool; a_mrto : Z; a_erto : Z;
  a_ilim : etime; a_ilast : Z; a_itimer : option etime; a_flows : nat }.

Definition w_out (s : al) o r y := mkAl (a_end s) o r y (a_tmo s) (a_tdead s) (a_epoch s) (a_rlim s) (a_kout s) (a_klast s) (a_kper s) (a_ktimer s) (a_resp s) (a_mrto s) (a_erto s) (a_ilim s) (a_ilast s) (a_itimer s) (a_flows s).
Definition w_tmo (s : al) t d e := mkAl (a_end s) (a_out s) (a_room s) (a_ready s) t d e (a_rlim s) (a_kout s) (a_klast s) (a_kper s) (a_ktimer s) (a_resp s) (a_mrto s) (a_erto s) (a_ilim s) (a_ilast s) (a_itimer s) (a_flows s).
Definition w_rlim (s : al) l := mkAl (a_end s) (a_out s) (a_room s) (a_ready s) (a_tmo s) (a_tdead s) (a_epoch s) l (a_kout s) (a_klast s) (a_kper s) (a_ktimer s) (a_resp s) (a_mrto s) (a_erto s) (a_ilim s) (a_ilast s) (a_itimer s) (a_flows s).
Definition w_kout (s : al) k t := mkAl (a_end s) (a_out s) (a_room s) (a_ready s) (a_tmo s) (a_tdead s) (a_epoch s) (a_rlim s) k t (a_kper s) (a_ktimer s) (a_resp s) (a_mrto s) (a_erto s) (a_ilim s) (a_ilast s) (a_itimer s) (a_flows s).
Definition w_ka (s : al) p t := mkAl (a_end s) (a_out s) (a_room s) (a_ready s) (a_tmo s) (a_tdead s) (a_epoch s) (a_rlim s) (a_kout s) (a_klast s) p t (a_resp s) (a_mrto s) (a_erto s) (a_ilim s) (a_ilast s) (a_itimer s) (a_flows s).
Definition w_rto (s : al) m e := mkAl (a_end s) (a_out s) (a_room s) (a_ready s) (a_tmo s) (a_tdead s) (a_epoch s) (a_rlim s) (a_kout s) (a_klast s) (a_kper s) (a_ktimer s) (a_resp s) m e (a_ilim s) (a_ilast s) (a_itimer s) (a_flows s).
Definition w_idle (s : al) l t i n := mkAl (a_end s) (a_out s) (a_room s) (a_ready s) (a_tmo s) (a_tdead s) (a_epoch s) (a_rlim s) (a_kout s) (a_klast s) (a_kper s) (a_ktimer s) (a_resp s) (a_mrto s) (a_erto s) l t i n.

(** 588-602: setKeepaliveAlarm; scheduleRel(0) *)
Definition set_keepalive_alarm (now : Z) (s : al) : al := w_ka s (a_kper s) (Some (Some now)).
(** 983-1008: rescheduleTimeoutAlarm *)
Definition reschedule (now : Z) (s : al) : al :=
  let deadline := now + a_erto s in
  let fire := match a_tmo s with
              | Some w => if deadline <? a_tdead s then deadline else w
              | None => deadline
              end in
  w_tmo s (Some fire) deadline (Some (match a_epoch s with Some e => Z.min e now | None => now end)).
(** 726-732: sendKeepalivePing *)
Definition send_keepalive (now : Z) (s : al) : al := reschedule now (w_kout s true now).
(** 533-575, 483-531: close, as far as it matters here: all timers are cancelled, the flows are gone *)
Definition finish (s : al) (e : ending) : al :=
  mkAl (Some e) false (a_room s) None None (a_tdead s) (a_epoch s) (a_rlim s) (a_kout s) (a_klast s) (a_kper s) None (a_resp s) (a_mrto s) (a_erto s) (a_ilim s) (a_ilast s) None 0.
(** 543-556: setOpen; the default periods of the RTMFP instance are given *)
Definition open_session (now : Z) (resp : bool) (rlim kper ilim : etime) (mrto erto : Z) : al :=
  mkAl None false true None None 0 None (emax rlim) false now (emax kper) (Some (Some now)) resp mrto erto (emax ilim) now (Some (Some now)) 0.

(** What can happen to an open session. *)
Inductive aev :=
| AData                              (* a packet with user data is sent *)
| ASend                              (* a packet without is sent: acknowledgements (1487-1557) *)
| AAck (more room : bool)            (* a packet with an ack for one of our flows: whether fragments are still in flight then *)
| APingReply
| APing                              (* answered *)
| ATimeout | AKeepalive | AIdle      (* alarms *)
| ASetKeepalive (p : etime) | ASetLimit (l : etime) | ASetIdle (l : etime)
| AMeasure (mrto erto : Z)           (* measurements, and the backoff at 1057 *)
| ABind | AUnbind                    (* a flow is bound or comes, a flow is unbound *)
| AClose.                            (* by either side *)

(** 1010-1064: onTimeoutAlarm once the alarm fires *)
Definition on_timeout (now : Z) (s : al) : al :=
  if now <? a_tdead s then w_tmo s (Some (a_tdead s)) (a_tdead s) (a_epoch s)
  else
    let s := w_tmo s None (a_tdead s) (a_epoch s) in
    if negb (a_out s) && negb (a_kout s) then set_keepalive_alarm now (w_tmo s None (a_tdead s) None)
    else if reached now (eadd (a_epoch s) (a_rlim s)) then finish s Dead
    else
      let s := w_out s false (a_room s) (if a_out s && a_room s then Some now else a_ready s) in
      if a_kout s then send_keepalive now s else s.
(** 649-668: onKeepaliveAlarm *)
Definition on_keepalive (now : Z) (s : al) : al :=
  let deadline := eadd (eadd (Some (a_klast s)) (a_kper s)) (Some (if a_resp s then a_mrto s else 0)) in
  if reached now deadline then send_keepalive now (w_ka s (a_kper s) None)
  else w_ka s (a_kper s) (Some deadline).
(** 670-686: onIdleAlarm *)
Definition on_idle (now : Z) (s : al) : al :=
  let deadline := eadd (Some (a_ilast s)) (a_ilim s) in
  if negb (reached now deadline) then w_idle s (a_ilim s) (a_ilast s) (Some deadline) (a_flows s)
  else if Nat.eqb (a_flows s) 0 then finish s Idle
  else w_idle s (a_ilim s) (a_ilast s) (Some (eadd (Some now) (a_ilim s))) (a_flows s).

(** One event at time [now]; alarms that are not due do nothing, and nothing happens once the session has ended. *)
Definition astep (s : al) (now : Z) (e : aev) : al :=
  match a_end s with
  | Some _ => s
  | None =>
      match e with
      | AData =>                                                 (* SendFlow.cpp 500-509, Session.cpp 1548 *)
          w_kout (reschedule now (w_out s true true None)) (a_kout s) now
      | ASend => w_kout s (a_kout s) now                         (* 1548 *)
      | AAck more room =>                                        (* 2050-2066, 1730-1778; SendFlow.cpp 558 *)
          let s := w_out s (a_out s && more) room (a_ready s) in
          let s := w_kout s false (a_klast s) in
          reschedule now (w_tmo s (a_tmo s) (a_tdead s) None)
      | APingReply => w_tmo (w_kout s false (a_klast s)) (a_tmo s) (a_tdead s) None        (* 2012-2015 *)
      | APing => w_kout s (a_kout s) now                         (* 1996-2006 *)
      | ATimeout => match a_tmo s with Some w => if w <=? now then on_timeout now s else s | None => s end
      | AKeepalive => match a_ktimer s with Some w => if reached now w then on_keepalive now s else s | None => s end
      | AIdle => match a_itimer s with Some w => if reached now w then on_idle now s else s | None => s end
      | ASetKeepalive p => set_keepalive_alarm now (w_ka s (emax p) (a_ktimer s))      (* 587-591 *)
      | ASetLimit l => w_rlim s (emax l)                         (* 609-612 *)
      | ASetIdle l => w_idle s (emax l) (a_ilast s) (Some (Some now)) (a_flows s)                 (* 619-632 *)
      | AMeasure m e => w_rto s m e
      | ABind => w_idle s (a_ilim s) (a_ilast s) (a_itimer s) (S (a_flows s))              (* 795-799, RecvFlow creation *)
      | AUnbind =>                                               (* 801-815 *)
          w_idle s (a_ilim s) now (a_itimer s) (Nat.pred (a_flows s))
      | AClose => finish s Other
      end
  end.
Fixpoint arun (s : al) (es : list (Z * aev)) : al :=
  match es with [] => s | (t, e) :: r => arun (astep s t e) r end.
