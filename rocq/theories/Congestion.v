(** Model of the congestion window of src/Session.cpp (updateCWND 1086-1219, its call 1731-1783, the part of onTimeoutAlarm
    1010-1064 that changes the window, onEcnReportChunk 2069-2083) with the constants of include/rtmfp/params.hpp 35-52.
    size_t is 64 bits: sums and products wrap; a difference that would go below zero is [Rej], so that the theorems can
    exclude it.  The comparisons of times are answers given by the environment ([tests]): they may come out any way. *)
From Verif Require Import Base.
Open Scope res_scope.

(** params.hpp 36-41, 66 *)
Definition SENDER_MSS := 1161.
Definition CWND_INIT := 3 * SENDER_MSS.
Definition CWND_TIMEDOUT := 2 * SENDER_MSS.
Definition CWND_DECAY_MARGIN := 6 * SENDER_MSS.
Definition CWND_DECAY_SIZE := 1.
Definition ECN_CE_DELTA_REORDER := 224.

(** Unsigned differences; [Rej] is an underflow *)
Definition sub (a b : Z) : res Z := if a <? b then Rej else Ok (a - b).
Definition add (a b : Z) : Z := wrap64 (a + b).
Definition mul (a b : Z) : Z := wrap64 (a * b).

(** The fields of Session (337-386) *)
Record cong := mkCong { q_cwnd : Z; q_ssthresh : Z; q_accum : Z; q_remaining : Z; q_allowance : Z; q_ece : Z; q_notified : bool }.
Definition cong_init := mkCong CWND_INIT U64MAX 0 0 0 0 false.
Definition with_cwnd s x := mkCong x (q_ssthresh s) (q_accum s) (q_remaining s) (q_allowance s) (q_ece s) (q_notified s).
Definition with_ssthresh s x := mkCong (q_cwnd s) x (q_accum s) (q_remaining s) (q_allowance s) (q_ece s) (q_notified s).
Definition with_accum s x := mkCong (q_cwnd s) (q_ssthresh s) x (q_remaining s) (q_allowance s) (q_ece s) (q_notified s).
Definition with_remaining s x := mkCong (q_cwnd s) (q_ssthresh s) (q_accum s) x (q_allowance s) (q_ece s) (q_notified s).
Definition with_allowance s x := mkCong (q_cwnd s) (q_ssthresh s) (q_accum s) (q_remaining s) x (q_ece s) (q_notified s).
Definition with_ecn s e n := mkCong (q_cwnd s) (q_ssthresh s) (q_accum s) (q_remaining s) (q_allowance s) e n.

(** The tests of times and round trip times: fastgrow_allowed (1089), tc_sent (1090), whether a new measurement of at
    least DELAYCC_RTT_THRESH is there (1127), whether it shows congestion (1129), and the parts of the test for a probe
    that are about times (1136, 1137, 1141) *)
Record tests := mkTests { t_fast : bool; t_tc : bool; t_measured : bool; t_delayed : bool; t_probe : bool }.

(** 1178-1182, 1204-1208: the loop giving [step] for each [thresh] accumulated *)
Fixpoint increase_loop (fuel : nat) (accum thresh step inc : Z) : res (Z * Z) :=
  match fuel with
  | O => UB
  | S fuel' => if thresh <=? accum then a <- sub accum thresh;; increase_loop fuel' a thresh step (add inc step) else Ok (accum, inc)
  end.

(** 1086-1219: updateCWND; [pre] is m_pre_ack_outstanding and [out] what is outstanding now *)
Definition update_cwnd (t : tests) (pre out acked lost : Z) (any_loss any_naks : bool) (s : cong) : res cong :=
  let cost := if lost =? 0 then 0 else add lost (add lost 1 / 2) in
  let drained := add acked lost in
  if drained <? q_remaining s then
    r <- sub (q_remaining s) drained;;
    let s := with_remaining s r in
    if cost =? 0 then Ok s
    else if cost <=? q_allowance s then a <- sub (q_allowance s) cost;; Ok (with_allowance s a)
    else
      c <- sub cost (q_allowance s);;
      let s := with_allowance s 0 in
      let c := Z.min (q_ssthresh s) c in
      d <- sub (q_ssthresh s) c;;
      let s := with_ssthresh s (Z.max d CWND_INIT) in
      let s := with_cwnd s (q_ssthresh s) in
      Ok (with_remaining s (add (q_remaining s) c))
  else
    let s := with_remaining s 0 in
    let delayed := t_measured t && t_delayed t in
    let probe := t_measured t && negb (t_delayed t) && negb any_loss && negb any_naks && (4 * SENDER_MSS <? q_cwnd s)
                 && (q_ssthresh s <? q_cwnd s) && (q_cwnd s / 2 <? pre) && t_probe t in
    if probe then
      let s := with_ssthresh s (q_cwnd s) in
      Ok (with_cwnd s (Z.max (mul pre 21 / 32) CWND_INIT))
    else if any_loss || delayed then
      let cut := Z.min (q_cwnd s) pre in
      let a := if t_tc t || ((67200 <? pre) && t_fast t) then cut / 8 else cut / 2 in
      let a := Z.min cut (Z.max a cost) in
      d <- sub cut a;;
      let s := with_allowance s a in
      let s := with_ssthresh s (Z.max d CWND_INIT) in
      let s := with_cwnd s (q_ssthresh s) in
      let s := with_accum s 0 in
      Ok (with_remaining s out)
    else if negb any_naks && (mul (q_cwnd s) 63 / 64 <? pre) then
      ' (accum, inc) <-
        (if t_fast t then
           if q_cwnd s <? q_ssthresh s then Ok (0, acked)
           else let th := Z.min (Z.max (q_cwnd s / 16) 64) 9600 in
                let a := add (q_accum s) acked in increase_loop (S (Z.to_nat (a / th))) a th 96 0
         else
           if t_tc t && (q_cwnd s <? q_ssthresh s) then Ok (0, add acked 3 / 4)
           else let th := Z.min (Z.max (q_cwnd s / 16) 64) 4800 in
                let a := add (q_accum s) acked in increase_loop (S (Z.to_nat (a / th))) a th (if t_tc t then 48 else 24) 0);;
      let s := with_accum s accum in
      Ok (with_cwnd s (Z.max (add (q_cwnd s) (Z.min inc SENDER_MSS)) CWND_INIT))
    else if negb any_naks && (add pre CWND_DECAY_MARGIN <? q_cwnd s) then
      c <- sub (q_cwnd s) CWND_DECAY_SIZE;; Ok (with_cwnd s c)
    else Ok s.

(** 2069-2083: onEcnReportChunk; [b] is the first byte of the chunk *)
Definition ecn_report (b : Z) (s : cong) : cong :=
  let delta := wrap8 (b - q_ece s) in
  if negb (delta =? 0) && (delta <? ECN_CE_DELTA_REORDER) then with_ecn s b true else s.
(** What happens to a session.  A packet (1571-1579, chunks, 1725-1783): what was outstanding before, the ECN reports in it,
    whether it has acknowledgements, what is still outstanding after them, the bytes then found lost, whether a fragment that is
    not abandoned was lost and whether one was missing; and an expiry of the timeout alarm (1010-1064): whether the session
    is open and whether nothing is outstanding. *)
Inductive cop :=
| CPacket (t : tests) (pre : Z) (reports : list Z) (acks : bool) (left_ lost : Z) (loss naks : bool)
| CTimeout (open idle : bool).
Definition cstep (o : cop) (s : cong) : res cong :=
  match o with
  | CPacket t pre reports acks left_ lost loss naks =>
      let s := with_ecn s (q_ece s) false in
      let s := fold_left (fun s b => ecn_report b s) reports s in
      if acks then
        acked <- sub pre left_;;
        out <- sub left_ lost;;
        update_cwnd t pre out acked lost (q_notified s || loss) naks s
      else Ok s
  | CTimeout open idle =>
      let s := with_ssthresh s (Z.max (q_ssthresh s) (mul (q_cwnd s) 3 / 4)) in
      let s := with_remaining (with_accum s 0) 0 in
      if negb open then Ok s
      else if idle then Ok (with_cwnd s CWND_INIT) else Ok (with_cwnd s CWND_TIMEDOUT)
  end.
Fixpoint crun (ops : list cop) (s : cong) : res cong :=
  match ops with [] => Ok s | o :: r => s' <- cstep o s;; crun r s' end.
