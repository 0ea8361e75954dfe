(** Model of how sessions get to send: acknowledgements owed by receiving flows and data waiting in sending flows, the sessions' lists of
    flows, the interfaces' queues of sessions and the timers between them (src/Session.cpp, src/SendFlow.cpp, src/RecvFlow.cpp,
    src/Interface.cpp).

    What is in packets and what it does to flows is modelled elsewhere (RecvFlow.v, SendFlow.v, Ack.v); here a sending flow is how many of
    its fragments are not in flight, the receive window it knows and its priority; m_outstandingFrags is a list of flows and sizes.
    Which fragments are acknowledged or lost, how much fits into a packet, how the congestion window changes and when timers fire is
    chosen by the environment. *)
From Verif Require Import Base Interface.
Open Scope res_scope.

Definition PRI_IMMEDIATE : nat := 5. (* include/rtmfp/Priority.hpp:21 *)
Definition OBLIGATORY_ACK_AFTER : nat := 2. (* include/rtmfp/params.hpp:42 *)

Inductive sstate := SNew | SOpen | SOver. (* before S_OPEN; S_OPEN; after *)
(** src/Session.hpp: the members of Session that concern scheduling *)
Record sess := Sess {
  ss_state : sstate;
  ss_dest : nat;                (* m_destInterfaceID *)
  ss_acknow : bool;             (* m_ack_now *)
  ss_delack : bool;             (* m_delack_alarm is set *)
  ss_ackq : list nat;           (* m_ackFlows *)
  ss_rxp : nat;                 (* m_rx_data_packets *)
  ss_ready : nat -> list nat;   (* m_readyFlows, by priority *)
  ss_out : list (nat * nat);    (* m_outstandingFrags: flow and size *)
  ss_cwnd : nat;                (* m_cwnd *)
  ss_timeout : bool;            (* m_timeout_alarm is set *)
  ss_burst : bool               (* m_burst_alarm is set *)
}.
(** include/rtmfp/rtmfp.hpp: the members of SendFlow that concern scheduling.  A fragment in flight is an element of ss_out; sf_unsent
    counts the other fragments of m_send_queue. *)
Record sfl := SFl { sf_sess : option nat; sf_pri : nat; sf_unsent : nat; sf_rx : nat; sf_exc : bool; sf_done : bool (* m_state is F_CLOSED *) }.
(** RecvFlow: m_session and m_should_ack *)
Record rfl := RFl { rf_sess : option nat; rf_owes : bool }.
Inductive sev := Acked (r : nat) | Sent (f : nat) (n : nat) | SentItem (i : nat).
(** The instance.  In the interfaces' queues 0 is the startup session and S s the session s. *)
Record world := World {
  w_ifc : nat -> option ifc;    (* RTMFP::m_interfaces *)
  w_ss : nat -> sess;
  w_sf : nat -> sfl;
  w_rf : nat -> rfl;
  w_items : nat -> nat;         (* StartupSession::m_sendItems: how many, by interface *)
  w_log : list sev
}.

Definition set_ifc (w : world) (i : nat) (x : ifc) : world := World (fun j => if Nat.eqb j i then Some x else w_ifc w j) (w_ss w) (w_sf w) (w_rf w) (w_items w) (w_log w).
Definition set_ss (w : world) (s : nat) (x : sess) : world := World (w_ifc w) (fun j => if Nat.eqb j s then x else w_ss w j) (w_sf w) (w_rf w) (w_items w) (w_log w).
Definition set_sf (w : world) (f : nat) (x : sfl) : world := World (w_ifc w) (w_ss w) (fun j => if Nat.eqb j f then x else w_sf w j) (w_rf w) (w_items w) (w_log w).
Definition set_rf (w : world) (r : nat) (x : rfl) : world := World (w_ifc w) (w_ss w) (w_sf w) (fun j => if Nat.eqb j r then x else w_rf w j) (w_items w) (w_log w).
Definition set_items (w : world) (i : nat) (n : nat) : world := World (w_ifc w) (w_ss w) (w_sf w) (w_rf w) (fun j => if Nat.eqb j i then n else w_items w j) (w_log w).
Definition wlog (w : world) (l : list sev) : world := World (w_ifc w) (w_ss w) (w_sf w) (w_rf w) (w_items w) (w_log w ++ l).

Definition ss_with_acks (x : sess) (now delack : bool) (q : list nat) (rxp : nat) : sess := Sess (ss_state x) (ss_dest x) now delack q rxp (ss_ready x) (ss_out x) (ss_cwnd x) (ss_timeout x) (ss_burst x).
Definition ss_with_ready (x : sess) (p : nat) (l : list nat) : sess := Sess (ss_state x) (ss_dest x) (ss_acknow x) (ss_delack x) (ss_ackq x) (ss_rxp x) (fun p' => if Nat.eqb p' p then l else ss_ready x p') (ss_out x) (ss_cwnd x) (ss_timeout x) (ss_burst x).
Definition ss_with_out (x : sess) (l : list (nat * nat)) : sess := Sess (ss_state x) (ss_dest x) (ss_acknow x) (ss_delack x) (ss_ackq x) (ss_rxp x) (ss_ready x) l (ss_cwnd x) (ss_timeout x) (ss_burst x).
Definition ss_with_cwnd (x : sess) (c : nat) : sess := Sess (ss_state x) (ss_dest x) (ss_acknow x) (ss_delack x) (ss_ackq x) (ss_rxp x) (ss_ready x) (ss_out x) c (ss_timeout x) (ss_burst x).
Definition ss_with_timers (x : sess) (t b : bool) : sess := Sess (ss_state x) (ss_dest x) (ss_acknow x) (ss_delack x) (ss_ackq x) (ss_rxp x) (ss_ready x) (ss_out x) (ss_cwnd x) t b.
Definition ss_with_dest (x : sess) (i : nat) : sess := Sess (ss_state x) i (ss_acknow x) (ss_delack x) (ss_ackq x) (ss_rxp x) (ss_ready x) (ss_out x) (ss_cwnd x) (ss_timeout x) (ss_burst x).
Definition is_open (w : world) (s : nat) : bool := match ss_state (w_ss w s) with SOpen => true | _ => false end.

(** src/RTMFP.cpp:240-249 *)
Definition w_sched (w : world) (i n p : nat) : res (world * bool) :=
  match w_ifc w i with
  | None => Ok (w, false)
  | Some x => x <- schedule_write x n p ;; Ok (set_ifc w i x, true)
  end.

(** The sizes of the fragments of flow f in flight, and their sum: SendFlow::m_outstanding_bytes (SendFlow.cpp 491, 523, 667-672; C17). *)
Definition flying (l : list (nat * nat)) (f : nat) : list nat := map snd (filter (fun e => Nat.eqb (fst e) f) l).
Definition sum (l : list nat) : nat := fold_right Nat.add 0%nat l.
Definition out_of (w : world) (f : nat) : list nat := match sf_sess (w_sf w f) with None => [] | Some s => flying (ss_out (w_ss w s)) f end.
Definition window_open (w : world) (f : nat) : bool := Nat.ltb (sum (out_of w f)) (sf_rx (w_sf w f)).
(** src/SendFlow.cpp:322-328 isMaybeReadyForTransmission *)
Definition maybe_ready (w : world) (f : nat) : bool :=
  (Nat.ltb 0 (sf_unsent (w_sf w f)) || Nat.ltb 0 (length (out_of w f))) && (sf_exc (w_sf w f) || window_open w f).
(** src/Session.cpp:974-981 scheduleFlowForTransmission *)
Definition sched_flow_on (w : world) (s f p : nat) : res world :=
  let x := w_ss w s in
  if existsb (Nat.eqb f) (ss_ready x p) then Ok w
  else if Nat.ltb p NUM_PRIORITIES then
    ' (w, _) <- w_sched (set_ss w s (ss_with_ready x p (ss_ready x p ++ [f]))) (ss_dest x) (S s) p ;; Ok w
  else UB.
(** src/SendFlow.cpp:316-320 scheduleForTransmission; a flow that is not bound has no m_session *)
Definition sched_flow (w : world) (f : nat) : res world :=
  if maybe_ready w f then
    match sf_sess (w_sf w f) with
    | None => UB
    | Some s => sched_flow_on w s f (sf_pri (w_sf w f))
    end
  else Ok w.
(** src/Session.cpp:1065-1073 rescheduleTransmission, from priority p-1 down *)
Fixpoint resched (w : world) (s p : nat) : res world :=
  match p with
  | O => Ok w
  | S k =>
      w <- match ss_ready (w_ss w s) k with
           | [] => Ok w
           | _ => ' (w, _) <- w_sched w (ss_dest (w_ss w s)) (S s) k ;; Ok w
           end ;;
      resched w s k
  end.

(** src/Session.cpp:906-921 *)
Definition ack_now (w : world) (s : nat) : res world :=
  if is_open w s then
    w <- (if ss_acknow (w_ss w s) then Ok w
          else let x := w_ss w s in
               ' (w, _) <- w_sched (set_ss w s (ss_with_acks x true (ss_delack x) (ss_ackq x) (ss_rxp x))) (ss_dest x) (S s) PRI_IMMEDIATE ;; Ok w) ;;
    let x := w_ss w s in Ok (set_ss w s (ss_with_acks x (ss_acknow x) false (ss_ackq x) (ss_rxp x)))
  else Ok w.
(** src/Session.cpp:891-904 *)
Definition schedule_ack (w : world) (s r : nat) : world :=
  if is_open w s then
    let x := w_ss w s in
    set_ss w s (ss_with_acks x (ss_acknow x) (ss_delack x || negb (ss_acknow x)) (ss_ackq x ++ [r]) (ss_rxp x))
  else w.
(** src/RecvFlow.cpp:414-425 RecvFlow::scheduleAck *)
Definition rf_schedule_ack (w : world) (r : nat) (now : bool) : res world :=
  match rf_sess (w_rf w r) with
  | None => Rej
  | Some s =>
      w <- (if (now : bool) then ack_now w s else Ok w) ;;
      if rf_owes (w_rf w r) then Ok w
      else Ok (schedule_ack (set_rf w r (RFl (rf_sess (w_rf w r)) true)) s r)
  end.

(** Each flow's assembleAck succeeded (RecvFlow.cpp 478-481). *)
Fixpoint acked_all (w : world) (l : list nat) : world :=
  match l with [] => w | r :: l => acked_all (wlog (set_rf w r (RFl (rf_sess (w_rf w r)) false)) [Acked r]) l end.
(** src/Session.cpp:934-968 sendAcks.  [fit]: for how many flows assembleAck succeeds.  An obligatory ack is tried on an empty packet and
    may be truncated, so that the first always succeeds (C66_fits): [Rej] otherwise. *)
Definition send_acks (w : world) (s : nat) (oblig : bool) (fit : nat) : res (world * bool) :=
  let x := w_ss w s in
  if oblig && negb (ss_acknow x) then Ok (w, false)
  else if oblig && Nat.eqb fit 0 && negb (match ss_ackq x with [] => true | _ => false end) then Rej
  else
    let k := Nat.min fit (length (ss_ackq x)) in
    let w := acked_all w (firstn k (ss_ackq x)) in
    let q := skipn k (ss_ackq x) in
    let done := match q with [] => true | _ => false end in
    Ok (set_ss w s (ss_with_acks x (ss_acknow x && negb done) (ss_delack x && negb done) q (if done then 0%nat else ss_rxp x)), Nat.ltb 0 k).

(** What the application may do, at any time. *)
Inductive uop :=
| UWrite (f n : nat)        (* a message of n fragments *)
| UPri (f p : nat)          (* setPriority *)
| UAck (r : nat) (now : bool) (* whatever calls RecvFlow::scheduleAck: setBufferCapacity, setWindowLimit, close, arriving data *)
| UItem (i : nat)           (* StartupSession::sendPacket *)
| UBind (f s : nat)         (* onSessionDidOpen *)
| UFinish (f : nat)         (* gotoStateClosed of a flow that is not bound or has nothing left *)
| UNewRecv (r s : nat)      (* the first chunk of a new flow (Session.cpp 1398-1427) *)
| UOpen (s i : nat)         (* setOpen *)
| UClose (s : nat).         (* the session leaves S_OPEN *)
Definition with_unsent (x : sfl) (n : nat) : sfl := SFl (sf_sess x) (sf_pri x) n (sf_rx x) (sf_exc x) (sf_done x).
Definition new_sess (i : nat) : sess := Sess SOpen i false false [] 0 (fun _ => []) [] 1 false false.
(** SendFlow::onSessionDidClose (SendFlow.cpp 287-294) for the flows of session s *)
Definition unbind (s : nat) (y : sfl) : sfl := match sf_sess y with Some s' => if Nat.eqb s' s then SFl None (sf_pri y) 0 (sf_rx y) true true else y | None => y end.
(** src/Session.cpp:483-531 abortFlowsAndTimers *)
Definition close_sess (w : world) (s : nat) : world :=
  let x := w_ss w s in
  let w := set_ss w s (Sess SOver (ss_dest x) (ss_acknow x) false [] (ss_rxp x) (fun _ => []) [] (ss_cwnd x) false false) in
  World (w_ifc w) (w_ss w) (fun f => unbind s (w_sf w f)) (w_rf w) (w_items w) (w_log w).
Definition ustep (w : world) (u : uop) : res world :=
  match u with
  | UWrite f n => (* SendFlow.cpp:217-259 basicWrite *)
      if sf_done (w_sf w f) then Ok w else
      let w := set_sf w f (with_unsent (w_sf w f) (sf_unsent (w_sf w f) + n)) in
      match sf_sess (w_sf w f) with
      | Some s => if is_open w s then sched_flow w f else Ok w
      | None => Ok w
      end
  | UPri f p => (* SendFlow.cpp:206-213 *)
      let x := w_sf w f in
      if Nat.leb NUM_PRIORITIES p then Rej (* not a value of Priority *)
      else if Nat.eqb p (sf_pri x) then Ok w
      else sched_flow (set_sf w f (SFl (sf_sess x) p (sf_unsent x) (sf_rx x) (sf_exc x) (sf_done x))) f
  | UAck r now => rf_schedule_ack w r now
  | UItem i => (* Session.cpp:132-144 *)
      ' (w, ok) <- w_sched w i 0 PRI_IMMEDIATE ;; Ok (if (ok : bool) then set_items w i (S (w_items w i)) else w)
  | UBind f s => (* SendFlow.cpp:261-285 *)
      let x := w_sf w f in
      match sf_sess x with
      | Some _ => Ok w
      | None => if sf_done x then Ok w else if is_open w s then sched_flow (set_sf w f (SFl (Some s) (sf_pri x) (sf_unsent x) (sf_rx x) (sf_exc x) false)) f else Rej
      end
  | UFinish f => (* SendFlow.cpp:674-698: from close() before the flow is bound (the queue stays as it is) or before anything was written, or
                    when everything was acknowledged *)
      let x := w_sf w f in
      match sf_sess x with
      | None => Ok (set_sf w f (SFl None (sf_pri x) (sf_unsent x) (sf_rx x) (sf_exc x) true))
      | Some _ =>
          if Nat.eqb (sf_unsent x) 0 && Nat.eqb (length (out_of w f)) 0 then Ok (set_sf w f (SFl None (sf_pri x) 0 (sf_rx x) (sf_exc x) true))
          else Rej
      end
  | UNewRecv r s => match rf_sess (w_rf w r) with None => if is_open w s then Ok (set_rf w r (RFl (Some s) false)) else Rej | Some _ => Rej end
  | UOpen s i => match ss_state (w_ss w s), w_ifc w i with SNew, Some _ => Ok (set_ss w s (new_sess i)) | _, _ => Rej end
  | UClose s => match ss_state (w_ss w s) with SOpen => Ok (close_sess w s) | _ => Ok w end
  end.
Fixpoint ursteps (w : world) (l : list uop) : res world := match l with [] => Ok w | u :: l => w <- ustep w u ;; ursteps w l end.

(** One call of assembleData: what the callbacks it makes do (the receipts' onFinished), how many fragments trimSendQueue removes, the
    sizes of the fragments put into the packet. *)
Record attempt := Att { a_cb : list uop; a_trim : nat; a_sizes : list nat }.
(** src/SendFlow.cpp:391-512 assembleData.  At least one fragment fits, the packet being empty (C58): [Rej] otherwise. *)
Definition assemble (w : world) (s f p : nat) (a : attempt) : res (world * bool) :=
  if negb (Nat.eqb p (sf_pri (w_sf w f))) then Ok (w, false)
  else if negb (maybe_ready w f) then Ok (w, false)
  else
    let x := w_sf w f in
    let keep := match out_of w f with [] => 1%nat | _ => 0%nat end in (* trimSendQueue leaves one fragment *)
    let w := set_sf w f (with_unsent x (Nat.max (Nat.min keep (sf_unsent x)) (sf_unsent x - a_trim a))) in
    w <- ursteps w (a_cb a) ;;
    match sf_sess (w_sf w f) with
    | Some s' =>
        if Nat.eqb s' s && is_open w s then
          if window_open w f && Nat.ltb 0 (sf_unsent (w_sf w f)) then
            if Nat.ltb 0 (length (a_sizes a)) && Nat.leb (length (a_sizes a)) (sf_unsent (w_sf w f)) && forallb (Nat.ltb 0) (a_sizes a) then
              let x := w_sf w f in
              let w := set_sf w f (with_unsent x (sf_unsent x - length (a_sizes a))) in
              let y := w_ss w s in
              let y := ss_with_out y (ss_out y ++ map (fun n => (f, n)) (a_sizes a)) in
              Ok (wlog (set_ss w s (ss_with_timers y true (ss_burst y))) [Sent f (length (a_sizes a))], true)
            else Rej
          else Ok (w, false)
        else UB (* m_session is used after it was reset *)
    | None => UB
    end.
(** src/Session.cpp:1508-1525, the loop over the flows of one priority *)
Fixpoint pick (w : world) (s p : nat) (l : list attempt) : res (world * bool) :=
  match ss_ready (w_ss w s) p with
  | [] => Ok (w, false)
  | f :: _ =>
      match l with
      | [] => Rej
      | a :: l =>
          ' (w, sent) <- assemble w s f p a ;;
          let x := w_ss w s in
          if (sent : bool) then Ok (set_ss w s (ss_with_ready x p (tl (ss_ready x p) ++ firstn 1 (ss_ready x p))), true)
          else pick (set_ss w s (ss_with_ready x p (tl (ss_ready x p)))) s p l
      end
  end.
(** What the environment chooses when a session is offered the interface: how many acks fit before and after the data, whether the burst
    limit allows data (m_data_burst_limit > 0 or m_srtt < BURST_RTT_THRESH), what assembleData does. *)
Record offer := Offer { o_fit1 : nat; o_fit2 : nat; o_burst : bool; o_atts : list attempt }.
(** src/Session.cpp:1478-1557 *)
Definition sess_writable (w : world) (i s p : nat) (o : offer) : res (world * bool) :=
  if negb (Nat.eqb i (ss_dest (w_ss w s))) then ' (w, _) <- w_sched w (ss_dest (w_ss w s)) (S s) p ;; Ok (w, false)
  else if negb (is_open w s) then Ok (w, false)
  else
    ' (w, didack) <- send_acks w s true (o_fit1 o) ;;
    ' (w, sent) <-
      (if negb didack && Nat.ltb (sum (map snd (ss_out (w_ss w s)))) (ss_cwnd (w_ss w s)) then
         if o_burst o then pick w s p (o_atts o)
         else Ok (set_ss w s (ss_with_timers (w_ss w s) (ss_timeout (w_ss w s)) true), false)
       else Ok (w, false)) ;;
    if negb didack && negb sent then Ok (w, false)
    else ' (w, _) <- send_acks w s false (o_fit2 o) ;; Ok (w, true).
(** src/Session.cpp:160-192 *)
Definition startup_writable (w : world) (i : nat) : world * bool :=
  match w_items w i with O => (w, false) | S k => (wlog (set_items w i k) [SentItem i], true) end.
Definition isess_writable (w : world) (i n p : nat) (o : offer) : res (world * bool) :=
  match n with O => Ok (startup_writable w i) | S s => sess_writable w i s p o end.

(** src/Interface.cpp:23-32 *)
Fixpoint wserve (w : world) (i p : nat) (os : list offer) : res (world * bool * list offer) :=
  match w_ifc w i with
  | None => UB
  | Some x =>
      match i_q x p with
      | [] => Ok (w, false, os)
      | n :: _ =>
          match os with
          | [] => Rej
          | o :: os =>
              ' (w, b) <- isess_writable w i n p o ;;
              match w_ifc w i with
              | None => UB
              | Some x =>
                  if (b : bool) then Ok (set_ifc w i (set_q x p (tl (i_q x p) ++ [n])), true, os)
                  else wserve (set_ifc w i (set_q x p (tl (i_q x p)))) i p os
              end
          end
      end
  end.
(** src/Interface.cpp:16-37 *)
Fixpoint wlevels (w : world) (i p : nat) (os : list offer) : res (world * bool) :=
  ' (w, b, os) <- wserve w i p os ;;
  if (b : bool) then Ok (w, true)
  else match p with
       | O => match w_ifc w i with None => UB | Some x => Ok (set_ifc w i (Ifc (i_q x) false (i_log x)), false) end
       | S k => wlevels w i k os
       end.

(** Fragments of session s marked in [m] leave m_outstandingFrags. *)
Fixpoint marked (l : list (nat * nat)) (m : list bool) : list (nat * nat) :=
  match l, m with e :: l, b :: m => if (b : bool) then e :: marked l m else marked l m | _, _ => [] end.
Fixpoint unmarked (l : list (nat * nat)) (m : list bool) : list (nat * nat) :=
  match l, m with e :: l, b :: m => if (b : bool) then unmarked l m else e :: unmarked l m | l, _ => l end.
(** Lost: SendFlow::onLoss for each (SendFlow.cpp 667-672). *)
Fixpoint lose (w : world) (l : list (nat * nat)) : res world :=
  match l with
  | [] => Ok w
  | (f, _) :: l => w <- sched_flow (set_sf w f (with_unsent (w_sf w f) (S (sf_unsent (w_sf w f))))) f ;; lose w l
  end.
(** What the chunks of a packet do. *)
Inductive chunk :=
| KAck (f rx : nat) (m : list bool) (u : nat) (* an acknowledgement of f: the window, the fragments in flight and how many others *)
| KExc (f n : nat)                            (* an exception; the close writes n more fragments *)
| KMove (i : nat)                             (* a valid answer to a mobility check *)
| KUser (u : uop).                            (* data, and whatever the callbacks do *)
Definition kstep (s : nat) (w : world) (anyacks : bool) (k : chunk) : res (world * bool) :=
  match k with
  | KAck f rx m u => (* Session.cpp:2034-2068, SendFlow.cpp:545-607 *)
      if is_open w s then
        match sf_sess (w_sf w f) with
        | Some s' =>
            if Nat.eqb s' s then
              if forallb (fun e => Nat.eqb (fst e) f) (marked (ss_out (w_ss w s)) m) then
                let x := w_sf w f in
                let w := set_sf w f (SFl (sf_sess x) (sf_pri x) (sf_unsent x - u) rx (sf_exc x) (sf_done x)) in
                let w := set_ss w s (ss_with_out (w_ss w s) (unmarked (ss_out (w_ss w s)) m)) in
                w <- sched_flow w f ;; Ok (w, true)
              else Rej
            else Rej
        | None => Ok (w, anyacks)
        end
      else Ok (w, anyacks)
  | KExc f n => (* SendFlow.cpp:609-626 *)
      match sf_sess (w_sf w f) with
      | Some s' =>
          if Nat.eqb s' s then
            let x := w_sf w f in
            let w := set_sf w f (SFl (sf_sess x) (sf_pri x) (sf_unsent x) (sf_rx x) true (sf_done x)) in
            w <- (if Nat.eqb n 0 then Ok w else ustep w (UWrite f n)) ;; Ok (w, anyacks)
          else Rej
      | None => Ok (w, anyacks)
      end
  | KMove i => (* Session.cpp:1443-1462 *)
      if is_open w s then
        match w_ifc w i with
        | Some _ => w <- resched (set_ss w s (ss_with_dest (w_ss w s) i)) s NUM_PRIORITIES ;; Ok (w, anyacks)
        | None => Rej
        end
      else Ok (w, anyacks)
  | KUser u => w <- ustep w u ;; Ok (w, anyacks)
  end.
Fixpoint ksteps (s : nat) (w : world) (anyacks : bool) (l : list chunk) : res (world * bool) :=
  match l with [] => Ok (w, anyacks) | k :: l => ' (w, a) <- kstep s w anyacks k ;; ksteps s w a l end.
(** src/Session.cpp:1723-1780 onPacketAfterChunks.  m: the fragments found lost; c: the congestion window afterwards (at least 1, C28). *)
Definition after_chunks (w : world) (s : nat) (seen anyacks : bool) (m : list bool) (c : nat) : res world :=
  let x := w_ss w s in
  let w := set_ss w s (ss_with_acks x (ss_acknow x) (ss_delack x) (ss_ackq x) (ss_rxp x + if seen then 1 else 0)) in
  w <- (if Nat.leb OBLIGATORY_ACK_AFTER (ss_rxp (w_ss w s)) then ack_now w s else Ok w) ;;
  if (anyacks : bool) then
    let x := w_ss w s in
    let w := set_ss w s (ss_with_timers x (ss_timeout x) false) in
    let l := marked (ss_out x) m in
    w <- lose (set_ss w s (ss_with_out (w_ss w s) (unmarked (ss_out x) m))) l ;;
    if Nat.eqb c 0 then Rej else
    w <- resched (set_ss w s (ss_with_cwnd (w_ss w s) c)) s NUM_PRIORITIES ;;
    Ok (set_ss w s (ss_with_timers (w_ss w s) true (ss_burst (w_ss w s))))
  else Ok w.

Inductive wop :=
| WAddIf (i : nat)                                        (* addInterface *)
| WUser (u : uop)
| WDelack (s : nat)                                       (* m_delack_alarm *)
| WTimeout (s : nat) (limit keepalive : bool) (c : nat)   (* m_timeout_alarm, at its deadline *)
| WBurst (s : nat)                                        (* m_burst_alarm *)
| WPacket (s : nat) (l : list chunk) (seen : bool) (m : list bool) (c : nat)
| WWritable (i : nat) (os : list offer).                  (* the platform calls onWritable *)
Definition wstep (w : world) (o : wop) : res world :=
  match o with
  | WAddIf i => match w_ifc w i with None => Ok (set_ifc w i ifc_init) | Some _ => Rej end
  | WUser u => ustep w u
  | WDelack s => if ss_delack (w_ss w s) then ack_now w s else Rej
  | WTimeout s limit keepalive c => (* Session.cpp:1011-1063 *)
      let x := w_ss w s in
      if ss_timeout x then
        let w := set_ss w s (ss_with_timers x false (ss_burst x)) in
        if is_open w s then
          if (match ss_out x with [] => true | _ => false end) && negb keepalive then if Nat.eqb c 0 then Rej else Ok (set_ss w s (ss_with_cwnd (w_ss w s) c))
          else if (limit : bool) then Ok (close_sess w s)
          else
            w <- lose (set_ss w s (ss_with_out (w_ss w s) [])) (ss_out x) ;;
            if Nat.eqb c 0 then Rej else resched (set_ss w s (ss_with_cwnd (w_ss w s) c)) s NUM_PRIORITIES
        else Ok w
      else Rej
  | WBurst s => (* Session.cpp:1225-1238 *)
      let x := w_ss w s in
      if ss_burst x then resched (set_ss w s (ss_with_timers x (ss_timeout x) false)) s NUM_PRIORITIES else Rej
  | WPacket s l seen m c => (* a packet of session s *)
      ' (w, a) <- ksteps s w false l ;; after_chunks w s seen a m c
  | WWritable i os =>
      match w_ifc w i with
      | Some x => if i_sched x then ' (w, _) <- wlevels w i (NUM_PRIORITIES - 1) os ;; Ok w else Rej
      | None => Rej
      end
  end.
Fixpoint wrun (w : world) (l : list wop) : res world := match l with [] => Ok w | o :: l => w <- wstep w o ;; wrun w l end.
(** SendFlow.cpp:42-59: a new flow has the priority it was opened with and INITIAL_RECV_BUFFER (65536) *)
Definition w_init (pri : nat -> nat) (rx : nat) : world :=
  World (fun _ => None) (fun _ => Sess SNew 0 false false [] 0 (fun _ => []) [] 1 false false) (fun f => SFl None (pri f) 0 rx false false) (fun _ => RFl None false) (fun _ => 0%nat) [].
