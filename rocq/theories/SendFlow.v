(** Model of the sending side: SendFlow (src/SendFlow.cpp) and the parts of Session that handle its fragments
    (src/Session.cpp: onTimeoutAlarm, onInterfaceWritable, onPacketAfterChunks, onAckChunk, onExceptionChunk,
    abortFlowsAndTimers).  One session with any number of flows.

    Simplifications:
    - m_send_queue and m_outstandingFrags are sequences of (name, fragment) with the sums kept as the code keeps them.  The name
      List gives a new element is chosen by the environment: any positive name not in use (C09 shows List does this; SumList's
      sums are C10).  An operation that carries an unusable name answers [Rej]: it is not an execution.
    - Callbacks are recorded (receipts) or left out (onWritable, onException); what the application does in them comes as further
      operations.
    - Whether and when Session lets a flow send (congestion window, burst limit, priorities) is left to the environment: any flow
      may be asked to fill a packet at any time while the session is open.  Timers and their deadlines likewise.
    - Time is an integer number of ticks (see WriteReceipt.v).
    - A flow's 2^64-1 sequence numbers never run out: an operation that would need more is [Rej]. *)
From Verif Require Import Base VLU Packet UserData Ack WriteReceipt.
Open Scope res_scope.

(** include/rtmfp/params.hpp *)
Definition MAX_SESSION_PACKET_LENGTH : Z := 1200.
Definition MAX_DATA_FRAG_LENGTH : Z := 1161.
Definition MAX_METADATA_LENGTH : Z := 512.
Definition FRAGMENT_SIZE_BIAS : Z := 64.
Definition INITIAL_BUFFER : Z := 65536.
Definition NAKS_FOR_LOSS : Z := 3.

(** ** Fragmentation *)

(** SendFlow.cpp 227-249: the loop of basicWrite; answers each fragment's m_fra and data.  [maxlen] is maxFragmentLength.  More
    iterations than [fuel] is [UB] here. *)
Fixpoint frag_loop (fuel : nat) (maxlen : Z) (fra : Z) (l : list Z) : res (list (Z * list Z)) :=
  match fuel with
  | O => UB
  | S fuel' =>
      let big := zlen l >? maxlen in
      let n := if big then maxlen else zlen l in
      let fra' := if big then (if fra =? 0 then 16 else 48) else (if fra =? 0 then 0 else 32) in
      let rest := skipn (Z.to_nat n) l in
      if zlen rest =? 0 then Ok [(fra', firstn (Z.to_nat n) l)]
      else r <- frag_loop fuel' maxlen fra' rest;; Ok ((fra', firstn (Z.to_nat n) l) :: r)
  end.
Definition fragment (optlen : Z) (l : list Z) : res (list (Z * list Z)) :=
  frag_loop (S (length l)) (wrap64 (MAX_DATA_FRAG_LENGTH - optlen)) 0 l.

(** ** State *)

(** SendFrag.hpp, SendFlow.cpp 14-28.  [g_owner]: index of m_owner; [g_rcpt]: m_receipt. *)
Record sfrag := mkFrag {
  g_owner : nat; g_seq : Z; g_fra : Z; g_sentab : bool; g_nak : Z; g_fly : bool; g_ever : bool; g_size : Z; g_tsn : Z; g_oname : Z;
  g_data : list Z; g_rcpt : nat }.
Definition size_queue (g : sfrag) : Z := zlen (g_data g) + FRAGMENT_SIZE_BIAS.

Inductive fstate := FS_OPEN | FS_CLOSING | FS_LINGER | FS_CLOSED.
(** rtmfp.hpp, class SendFlow.  [w_live]: Flow::m_open; [w_bound]: m_session is set; [w_id]: m_flow_id.
    For specifications only: [w_tab] records the fragments made so far (m_fra and data, oldest first), [w_msgs] the messages
    given to write(). *)
Record sflow := mkFlow {
  w_id : Z; w_state : fstate; w_live : bool; w_bound : bool; w_next : Z; w_final : Z; w_exc : bool; w_last : Z; w_out : Z; w_rxbuf : Z;
  w_opts : list Z; w_queue : list (Z * nat); w_qsum : Z;
  w_tab : list (Z * list Z); w_msgs : list (list Z) }.

(** What went into a packet for one fragment: flow, fragment, the arguments of its chunk. *)
Record wchunk := mkWire { x_flow : nat; x_frag : nat; x_fsn : Z; x_frame : frame; x_size : Z }.

(** The session (m_state == S_OPEN, m_next_tsn, m_max_tsn_ack, m_outstandingFrags), all fragments and receipts ever made, the
    flows, the current time, and a record of all chunks sent, oldest first. *)
Record sess := mkSess {
  s_open : bool; s_tsn : Z; s_maxtsn : Z; s_outl : list (Z * nat); s_osum : Z; s_heap : list sfrag; s_rcpts : rstate;
  s_flows : list sflow; s_now : Z; s_wire : list wchunk }.
Definition ss_init : sess := mkSess true 1 0 [] 0 [] rs_init [] 0 [].

Definition g_none : sfrag := mkFrag 0 0 0 false 0 false false 0 0 (-1) [] 0.
Definition w_none : sflow := mkFlow (-1) FS_CLOSED false false 1 0 false 0 0 0 [] [] 0 [] [].
Definition gget (s : sess) (id : nat) : sfrag := nth id (s_heap s) g_none.
Definition wget (s : sess) (fi : nat) : sflow := nth fi (s_flows s) w_none.

Definition set_heap (s : sess) h := mkSess (s_open s) (s_tsn s) (s_maxtsn s) (s_outl s) (s_osum s) h (s_rcpts s) (s_flows s) (s_now s) (s_wire s).
Definition set_out (s : sess) l n := mkSess (s_open s) (s_tsn s) (s_maxtsn s) l n (s_heap s) (s_rcpts s) (s_flows s) (s_now s) (s_wire s).
Definition set_rcpts (s : sess) r := mkSess (s_open s) (s_tsn s) (s_maxtsn s) (s_outl s) (s_osum s) (s_heap s) r (s_flows s) (s_now s) (s_wire s).
Definition set_flows (s : sess) fs := mkSess (s_open s) (s_tsn s) (s_maxtsn s) (s_outl s) (s_osum s) (s_heap s) (s_rcpts s) fs (s_now s) (s_wire s).
Definition set_tsn (s : sess) t := mkSess (s_open s) t (s_maxtsn s) (s_outl s) (s_osum s) (s_heap s) (s_rcpts s) (s_flows s) (s_now s) (s_wire s).
Definition set_maxtsn (s : sess) t := mkSess (s_open s) (s_tsn s) t (s_outl s) (s_osum s) (s_heap s) (s_rcpts s) (s_flows s) (s_now s) (s_wire s).
Definition set_wire (s : sess) x := mkSess (s_open s) (s_tsn s) (s_maxtsn s) (s_outl s) (s_osum s) (s_heap s) (s_rcpts s) (s_flows s) (s_now s) x.
Definition set_closed (s : sess) := mkSess false (s_tsn s) (s_maxtsn s) (s_outl s) (s_osum s) (s_heap s) (s_rcpts s) (s_flows s) (s_now s) (s_wire s).
Definition set_now (s : sess) t := mkSess (s_open s) (s_tsn s) (s_maxtsn s) (s_outl s) (s_osum s) (s_heap s) (s_rcpts s) (s_flows s) t (s_wire s).
Definition gset (s : sess) (id : nat) (g : sfrag) : sess := set_heap s (lset_nth (s_heap s) id g).
Definition wset (s : sess) (fi : nat) (w : sflow) : sess := set_flows s (lset_nth (s_flows s) fi w).

Definition with_queue (w : sflow) q n := mkFlow (w_id w) (w_state w) (w_live w) (w_bound w) (w_next w) (w_final w) (w_exc w) (w_last w) (w_out w) (w_rxbuf w) (w_opts w) q n (w_tab w) (w_msgs w).
Definition with_outb (w : sflow) n := mkFlow (w_id w) (w_state w) (w_live w) (w_bound w) (w_next w) (w_final w) (w_exc w) (w_last w) n (w_rxbuf w) (w_opts w) (w_queue w) (w_qsum w) (w_tab w) (w_msgs w).
Definition with_last (w : sflow) n := mkFlow (w_id w) (w_state w) (w_live w) (w_bound w) (w_next w) (w_final w) (w_exc w) n (w_out w) (w_rxbuf w) (w_opts w) (w_queue w) (w_qsum w) (w_tab w) (w_msgs w).
Definition with_opts (w : sflow) o := mkFlow (w_id w) (w_state w) (w_live w) (w_bound w) (w_next w) (w_final w) (w_exc w) (w_last w) (w_out w) (w_rxbuf w) o (w_queue w) (w_qsum w) (w_tab w) (w_msgs w).
Definition with_rxbuf (w : sflow) n := mkFlow (w_id w) (w_state w) (w_live w) (w_bound w) (w_next w) (w_final w) (w_exc w) (w_last w) (w_out w) n (w_opts w) (w_queue w) (w_qsum w) (w_tab w) (w_msgs w).
Definition with_state (w : sflow) st := mkFlow (w_id w) st (w_live w) (w_bound w) (w_next w) (w_final w) (w_exc w) (w_last w) (w_out w) (w_rxbuf w) (w_opts w) (w_queue w) (w_qsum w) (w_tab w) (w_msgs w).
Definition with_final (w : sflow) n := mkFlow (w_id w) (w_state w) (w_live w) (w_bound w) (w_next w) n (w_exc w) (w_last w) (w_out w) (w_rxbuf w) (w_opts w) (w_queue w) (w_qsum w) (w_tab w) (w_msgs w).
Definition with_exc (w : sflow) := mkFlow (w_id w) (w_state w) (w_live w) (w_bound w) (w_next w) (w_final w) true (w_last w) (w_out w) (w_rxbuf w) (w_opts w) (w_queue w) (w_qsum w) (w_tab w) (w_msgs w).
Definition with_dead (w : sflow) := mkFlow (w_id w) (w_state w) false (w_bound w) (w_next w) (w_final w) (w_exc w) (w_last w) (w_out w) (w_rxbuf w) (w_opts w) (w_queue w) (w_qsum w) (w_tab w) (w_msgs w).
Definition with_bound (w : sflow) id := mkFlow id (w_state w) (w_live w) true (w_next w) (w_final w) (w_exc w) (w_last w) (w_out w) (w_rxbuf w) (w_opts w) (w_queue w) (w_qsum w) (w_tab w) (w_msgs w).
Definition with_next (w : sflow) n := mkFlow (w_id w) (w_state w) (w_live w) (w_bound w) n (w_final w) (w_exc w) (w_last w) (w_out w) (w_rxbuf w) (w_opts w) (w_queue w) (w_qsum w) (w_tab w) (w_msgs w).
Definition with_tab (w : sflow) t := mkFlow (w_id w) (w_state w) (w_live w) (w_bound w) (w_next w) (w_final w) (w_exc w) (w_last w) (w_out w) (w_rxbuf w) (w_opts w) (w_queue w) (w_qsum w) t (w_msgs w).
Definition with_msgs (w : sflow) m := mkFlow (w_id w) (w_state w) (w_live w) (w_bound w) (w_next w) (w_final w) (w_exc w) (w_last w) (w_out w) (w_rxbuf w) (w_opts w) (w_queue w) (w_qsum w) (w_tab w) m.

(** List::append's choice of a name *)
Definition usable (name : Z) (l : list (Z * nat)) : bool := (0 <? name) && negb (existsb (fun e => fst e =? name) l).

(** ** Opening *)

(** SendFlow.cpp 42-67, the constructor; [opts] is m_startup_options.  (RTMFP.cpp 82-96 and Flow.cpp 203-215 limit the metadata.) *)
Definition f_new (opts : list Z) : sflow := mkFlow (-1) FS_OPEN true false 1 0 false 0 0 INITIAL_BUFFER opts [] 0 [] [].
(** 260-282 onSessionDidOpen and Session::bindFlow; [id] is the name m_sendFlows gives. *)
Definition do_bind (s : sess) (fi : nat) (id : Z) : res sess :=
  let w := wget s fi in
  match w_state w with
  | FS_OPEN => if negb (w_bound w) && s_open s && (0 <? id) && (id <=? LONG_MAX) && negb (existsb (fun w' => w_bound w' && (w_id w' =? id)) (s_flows s)) then Ok (wset s fi (with_bound w id)) else Rej
  | _ => Rej
  end.

(** ** Writing *)

(** 243-245: one fragment is made and appended; its receipt is used once more. *)
Definition add_frag (s : sess) (fi : nat) (rc : nat) (name : Z) (fr : Z * list Z) : res sess :=
  let w := wget s fi in
  if usable name (w_queue w) && (w_next w <? U64MAX) then
    let g := mkFrag fi (w_next w) (fst fr) false 0 false false 0 0 (-1) (snd fr) rc in
    let id := length (s_heap s) in
    let w' := with_tab (with_next (with_queue w (w_queue w ++ [(name, id)]) (wrap64 (w_qsum w + size_queue g))) (wrap64 (w_next w + 1))) (w_tab w ++ [fr]) in
    Ok (set_rcpts (wset (set_heap s (s_heap s ++ [g])) fi w') (r_up (s_rcpts s) rc))
  else Rej.
Fixpoint add_frags (s : sess) (fi : nat) (rc : nat) (names : list Z) (frs : list (Z * list Z)) {struct frs} : res sess :=
  match frs, names with
  | [], _ => Ok s
  | fr :: r, nm :: ns => s' <- add_frag s fi rc nm fr;; add_frags s' fi rc ns r
  | _, [] => Rej
  end.
(** 217-259: basicWrite *)
Definition basic_write (s : sess) (fi : nat) (msg : list Z) (sw fw : option Z) (names : list Z) : res sess :=
  let rc := length (rs_all (s_rcpts s)) in
  let s1 := set_rcpts s (r_new (s_rcpts s) (s_now s) sw fw) in
  frs <- fragment (zlen (w_opts (wget s fi))) msg;;
  add_frags s1 fi rc names frs.
(** 154-160: write *)
Definition do_write (s : sess) (fi : nat) (msg : list Z) (sw fw : option Z) (names : list Z) : res sess :=
  if w_live (wget s fi) then basic_write (wset s fi (with_msgs (wget s fi) (w_msgs (wget s fi) ++ [msg]))) fi msg sw fw names else Ok s.

(** ** Closing *)

(** 674-698: gotoStateClosed *)
Definition goto_closed (w : sflow) : sflow :=
  match w_state w with
  | FS_CLOSED => w
  | _ => let w' := with_state w FS_CLOSED in
         mkFlow (if w_bound w then -1 else w_id w) (w_state w') (w_live w') false (w_next w') (w_final w') (w_exc w') (w_last w') (w_out w') (w_rxbuf w') (w_opts w') (w_queue w') (w_qsum w') (w_tab w') (w_msgs w')
  end.
Definition last_id (q : list (Z * nat)) : option nat := match rev q with [] => None | (_, id) :: _ => Some id end.
(** 167-199: close *)
Definition do_close (s : sess) (fi : nat) (names : list Z) : res sess :=
  let s1 := wset s fi (with_dead (wget s fi)) in
  let w := wget s1 fi in
  s2 <- match w_state w with
        | FS_OPEN =>
            if w_bound w && s_open s1 && (w_next w >? 1) then
              let need := match last_id (w_queue w) with
                          | None => true
                          | Some id => g_ever (gget s1 id) || negb (g_seq (gget s1 id) =? wrap64 (w_next w - 1))
                          end in
              s3 <- (if need then basic_write s1 fi [] (Some (-1)) (Some (-1)) names else Ok s1);;
              let w3 := wget s3 fi in
              match last_id (w_queue w3) with
              | None => UB
              | Some id => Ok (wset s3 fi (with_state (with_final w3 (g_seq (gget s3 id))) FS_CLOSING))
              end
            else Ok (wset s1 fi (goto_closed w))
        | _ => Ok s1
        end;;
  let w2 := wget s2 fi in
  Ok (if w_bound w2 && negb (s_open s2) then wset s2 fi (goto_closed w2) else s2).

(** ** Trimming and sending *)

(** m_send_queue.remove(name), m_outstandingFrags.remove(name) *)
Definition drop (name : Z) (l : list (Z * nat)) : list (Z * nat) := filter (fun e => negb (fst e =? name)) l.
Definition has_name (name : Z) (l : list (Z * nat)) : bool := existsb (fun e => fst e =? name) l.
(** A fragment leaves the queue: m_receipt->useCountDown(), m_send_queue.remove(name) *)
Definition unqueue (s : sess) (fi : nat) (name : Z) (id : nat) : sess :=
  let g := gget s id in
  let w := wget s fi in
  set_rcpts (wset s fi (with_queue w (drop name (w_queue w)) (wrap64 (w_qsum w - size_queue g)))) (r_down (s_rcpts s) (g_rcpt g)).

(** 342-362: trimSendQueue, from the queue [q] on *)
Fixpoint trim_loop (s : sess) (fi : nat) (q : list (Z * nat)) : sess :=
  match q with
  | (name, id) :: ((_ :: _) as rest) =>
      let g := gget s id in
      if g_fly g then s
      else
        let s1 := set_rcpts s (r_needed (s_rcpts s) (s_now s) (g_rcpt g)) in
        if c_aband (rget (s_rcpts s1) (g_rcpt g)) then trim_loop (unqueue s1 fi name id) fi rest else s1
  | _ => s
  end.
Definition do_trim (s : sess) (fi : nat) : sess := trim_loop s fi (w_queue (wget s fi)).

(** 377-389: findForwardSequenceNumber *)
Definition find_fsn (s : sess) (id : nat) : sess * Z :=
  let g := gget s id in
  let s1 := if g_fly g then s else set_rcpts s (r_needed (s_rcpts s) (s_now s) (g_rcpt g)) in
  let ab := c_aband (rget (s_rcpts s1) (g_rcpt g)) in
  (s1, if negb ab then wrap64 (g_seq g - 1) else if g_fly g && negb (g_sentab g) then wrap64 (g_seq g - 1) else g_seq g).

(** 334-340 *)
Definition maybe_ready (w : sflow) : bool := negb (match w_queue w with [] => true | _ => false end) && (w_exc w || (w_rxbuf w >? w_out w)).

(** 404-408: where the scan starts *)
Fixpoint from_name (name : Z) (q : list (Z * nat)) : option (list (Z * nat)) :=
  match q with [] => None | (nm, id) :: r => if nm =? name then Some q else from_name name r end.
Definition scan_start (s : sess) (w : sflow) : list (Z * nat) :=
  match from_name (w_last w) (w_queue w) with
  | Some ((nm, id) :: r) => if g_fly (gget s id) then (nm, id) :: r else w_queue w
  | _ => w_queue w
  end.

(** 480-495: after commitChunk *)
Definition mark_sent (s : sess) (fi : nat) (name : Z) (id : nat) (oname : Z) (fsn : Z) (fr : frame) (abn : bool) (size : Z) : sess :=
  let g := gget s id in
  let g' := mkFrag (g_owner g) (g_seq g) (g_fra g) abn 0 true true size (s_tsn s) oname (g_data g) (g_rcpt g) in
  let w := wget s fi in
  let s1 := set_rcpts s (r_start (s_rcpts s) (g_rcpt g)) in
  let s2 := set_out (gset s1 id g') (s_outl s ++ [(oname, id)]) (wrap64 (s_osum s + size)) in
  set_wire (wset s2 fi (with_last (with_outb w (wrap64 (w_out w + size))) name)) (s_wire s ++ [mkWire fi id fsn fr size]).

(** flag_abn, flag_fin; fr_flags is m_fra | flag_abn | flag_fin, which have no bits in common. *)
Definition flag (b : bool) (v : Z) : Z := if b then v else 0.

(** 424-499: the filling loop; [first] is firstChunk, [prev] previousSN; [onames]: the names m_outstandingFrags gives. *)
Fixpoint send_loop (s : sess) (fi : nat) (fsn : Z) (first : bool) (prev : Z) (p : packet) (onames : list Z) (todo : list (Z * nat))
  : res (sess * packet * bool) :=
  match todo with
  | [] => Ok (s, p, first)
  | (name, id) :: rest =>
      let w := wget s fi in
      if w_out w >=? w_rxbuf w then Ok (s, p, first)
      else
        let g := gget s id in
        if g_fly g then send_loop s fi fsn first prev p onames rest
        else
          let rc := g_rcpt g in
          let rs1 := if g_ever g && negb (c_rtx (rget (s_rcpts s) rc)) then r_abandon (s_rcpts s) rc else s_rcpts s in
          let rs2 := r_needed rs1 (s_now s) rc in
          let abn := c_aband (rget rs2 rc) in
          let s1 := set_rcpts s rs2 in
          let fr := mkFrame (g_fra g + flag abn 2 + flag (g_seq g =? w_final w) 1) (g_seq g) (g_data g) in
          let c := ud_chunk (w_id w) fsn (w_opts w) first prev fr in
          ' (p1, ok) <- pa_try_chunk p (fst c) (snd c);;
          if (ok : bool) then
            match onames with
            | [] => Rej
            | o :: os =>
                if usable o (s_outl s1)
                then send_loop (mark_sent s1 fi name id o fsn fr abn (wrap64 (pa_remaining p - pa_remaining p1))) fi fsn false (g_seq g) p1 os rest
                else Rej
            end
          else Ok (s1, p1, first)
  end.

(** 391-512: assembleData; [gone]: the associated flow is at least in RF_COMPLETE_LINGER.  The priority test is the
    environment's.  Answers whether something was sent. *)
Definition assemble_data (s : sess) (fi : nat) (gone : bool) (p : packet) (onames : list Z) : res (sess * packet * bool) :=
  if maybe_ready (wget s fi) then
    let s1 := do_trim s fi in
    match w_queue (wget s1 fi) with
    | [] => UB
    | (_, id) :: _ =>
        let '(s2, fsn) := find_fsn s1 id in
        let start := scan_start s2 (wget s2 fi) in
        let s3 := if gone then wset s2 fi (with_opts (wget s2 fi) []) else s2 in
        ' (s4, p4, first) <- send_loop s3 fi fsn true 0 p onames start;;
        Ok (s4, p4, negb first)
    end
  else Ok (s, p, false).
(** Session.cpp 1478-1555: one packet of an open session, with one flow's data.  [buf] is m_plaintextBuf up to
    MAX_SESSION_PACKET_LENGTH, [margin] the cryptography's front margin, [flags], [ts], [tse] the header.  Answers the packet (before
    encryption, with its front margin) if it has data. *)
Definition header_fits (buf : list Z) (margin : nat) (flags ts tse : Z) : bool :=
  (zlen buf =? MAX_SESSION_PACKET_LENGTH) && (margin + 5 <=? length buf)%nat && is_byteb flags && (ts <=? 65535) && (tse <=? 65535).
Definition send_packet (s : sess) (fi : nat) (gone : bool) (buf : list Z) (margin : nat) (flags ts tse : Z) (onames : list Z) : res (sess * option (list Z)) :=
  if s_open s && w_bound (wget s fi) && header_fits buf margin flags ts tse then
    p0 <- pa_init_header buf margin flags ts tse;;
    ' (s1, p1, sent) <- assemble_data s fi gone p0 onames;;
    Ok (if (sent : bool) then (set_tsn s1 (wrap64 (s_tsn s1 + 1)), Some (pa_to_vector p1)) else (s1, None))
  else Rej.
Definition do_send (s : sess) (fi : nat) (gone : bool) (buf : list Z) (margin : nat) (flags ts tse : Z) (onames : list Z) : res sess :=
  ' (s1, _) <- send_packet s fi gone buf margin flags ts tse onames;; Ok s1.

(** ** Acknowledgement and loss *)

(** SendFlow.cpp 514-545: ackRange, walking from [todo] on; answers the fragments not reached.  Removing a name that is not in
    m_outstandingFrags throws. *)
Fixpoint ack_range (s : sess) (fi : nat) (from to : Z) (todo : list (Z * nat)) : res (sess * list (Z * nat)) :=
  match todo with
  | [] => Ok (s, [])
  | (name, id) :: rest =>
      let g := gget s id in
      if g_seq g <? from then ack_range s fi from to rest
      else if g_seq g >? to then Ok (s, todo)
      else
        s1 <- (if g_fly g then
                 if has_name (g_oname g) (s_outl s) then
                   let s1 := set_maxtsn s (Z.max (s_maxtsn s) (g_tsn g)) in
                   let s2 := set_out s1 (drop (g_oname g) (s_outl s)) (wrap64 (s_osum s - g_size g)) in
                   Ok (wset s2 fi (with_outb (wget s fi) (wrap64 (w_out (wget s fi) - g_size g))))
                 else UB
               else Ok s);;
        ack_range (unqueue s1 fi name id) fi from to rest
  end.
Fixpoint ack_all (s : sess) (fi : nat) (todo : list (Z * nat)) (ranges : list (Z * Z)) : res sess :=
  match ranges with
  | [] => Ok s
  | (from, to) :: r => ' (s1, rem) <- ack_range s fi from to todo;; ack_all s1 fi rem r
  end.
(** 547-613: onAck *)
Definition on_ack (s : sess) (fi : nat) (k : ackinfo) : res sess :=
  match w_state (wget s fi) with
  | FS_LINGER | FS_CLOSED => Ok s
  | st =>
      let s1 := wset s fi (with_rxbuf (with_opts (wget s fi) []) (k_bytes k)) in
      s2 <- ack_all s1 fi (w_queue (wget s1 fi)) ((0, k_cum k) :: k_ranges k);;
      Ok (match st, w_queue (wget s2 fi) with FS_CLOSING, [] => wset s2 fi (with_state (wget s2 fi) FS_LINGER) | _, _ => s2 end)
  end.
(** m_sendFlows.has / at *)
Fixpoint find_flow (id : Z) (fs : list sflow) (n : nat) : option nat :=
  match fs with [] => None | w :: r => if w_bound w && (w_id w =? id) then Some n else find_flow id r (S n) end.
(** Session.cpp 2034-2067, for any bytes *)
Definition do_ack (s : sess) (chunk : list Z) : res sess :=
  match ack_parse chunk with
  | Ok k => match find_flow (k_flow k) (s_flows s) 0 with Some fi => on_ack s fi k | None => Ok s end
  | Rej => Ok s
  | UB => UB
  end.

(** SendFlow.cpp 667-672, and Session.cpp 1760-1767 / 1044-1050: a fragment is lost. *)
Definition lose (s : sess) (id : nat) (nak : Z) : sess :=
  let g := gget s id in
  let g' := mkFrag (g_owner g) (g_seq g) (g_fra g) (g_sentab g) nak false (g_ever g) (g_size g) (g_tsn g) (-1) (g_data g) (g_rcpt g) in
  let w := wget s (g_owner g) in
  wset (gset s id g') (g_owner g) (with_last (with_outb w (wrap64 (w_out w - g_size g))) 0).
(** Session.cpp 1744-1775: the scan of m_outstandingFrags *)
Fixpoint nak_scan (s : sess) (todo : list (Z * nat)) : sess :=
  match todo with
  | [] => s
  | (name, id) :: rest =>
      let g := gget s id in
      if g_tsn g >? s_maxtsn s then s
      else
        let nak := g_nak g + 1 in
        if nak >=? NAKS_FOR_LOSS
        then let s1 := lose s id nak in nak_scan (set_out s1 (drop name (s_outl s1)) (wrap64 (s_osum s1 - g_size g))) rest
        else nak_scan (gset s id (mkFrag (g_owner g) (g_seq g) (g_fra g) (g_sentab g) nak (g_fly g) (g_ever g) (g_size g) (g_tsn g) (g_oname g) (g_data g) (g_rcpt g))) rest
  end.
Definition do_naks (s : sess) : res sess := if s_open s then Ok (nak_scan s (s_outl s)) else Rej.
(** Session.cpp 1044-1051 *)
Definition do_timeout (s : sess) : res sess :=
  if s_open s then Ok (set_out (fold_left (fun s e => lose s (snd e) (g_nak (gget s (snd e)))) (s_outl s) s) [] 0) else Rej.

(** ** Exceptions and the end of the session *)

(** SendFlow.cpp 615-630: onExceptionReport *)
Definition on_exception (s : sess) (fi : nat) (names : list Z) : res sess :=
  s1 <- do_close (wset s fi (with_exc (wget s fi))) fi names;;
  Ok (set_rcpts s1 (fold_left (fun rs e => r_abandon rs (g_rcpt (gget s1 (snd e)))) (w_queue (wget s1 fi)) (s_rcpts s1))).
Definition do_exception (s : sess) (id : Z) (names : list Z) : res sess :=
  match find_flow id (s_flows s) 0 with Some fi => on_exception s fi names | None => Ok s end.
(** 302-309: onSessionDidClose *)
Definition on_session_close (s : sess) (fi : nat) : res sess :=
  s1 <- on_exception s fi [];;
  Ok (wset s1 fi (with_queue (wget s1 fi) [] 0)).
(** Session.cpp 451-483, 533-575 and 513-521: every flow of the session is told; then m_outstandingFrags is cleared. *)
Fixpoint close_flows (s : sess) (fis : list nat) : res sess :=
  match fis with
  | [] => Ok s
  | fi :: r => s1 <- (if w_bound (wget s fi) then on_session_close s fi else Ok s);; close_flows s1 r
  end.
Definition do_session_close (s : sess) : res sess :=
  if s_open s then
    s1 <- close_flows (set_closed s) (seq 0 (length (s_flows s)));;
    Ok (set_out s1 [] 0)
  else Rej.
(** The session a flow is waiting for fails to open. *)
Definition do_open_failed (s : sess) (fi : nat) : res sess := if w_bound (wget s fi) then Rej else on_session_close s fi.

(** ** Executions *)
(** Arguments outside their C++ types are [Rej]. *)
Inductive sop :=
| SOpen (metadata : list Z) (assoc : option Z)
| SBind (fi : nat) (id : Z)
| SWrite (fi : nat) (msg : list Z) (sw fw : option Z) (names : list Z)
| SClose (fi : nat) (names : list Z)
| STrim (fi : nat)
| SSend (fi : nat) (gone : bool) (buf : list Z) (margin : nat) (flags ts tse : Z) (onames : list Z)
| SAck (chunk : list Z)
| SNaks
| STimeout
| SException (id : Z) (names : list Z)
| SSessionClose
| SOpenFailed (fi : nat)
| SLinger (fi : nat)     (* 600-604: the timer set when F_COMPLETE_LINGER begins *)
| SReceipt (o : rop)     (* the application uses a receipt *)
| STick (t : Z).

(** What the application may do with a receipt. *)
Definition app_rop (o : rop) : bool :=
  match o with RAbandon _ | RSetStart _ _ | RSetFinish _ _ | RSetRtx _ _ | RSetParent _ _ | RHook _ => true | _ => false end.

Definition sstep (s : sess) (o : sop) : res sess :=
  match o with
  | SOpen metadata assoc =>
      if (zlen metadata <=? MAX_METADATA_LENGTH) && bytes_okb metadata && (match assoc with None => true | Some id => (0 <=? id) && (id <=? U64MAX) end)
      then Ok (set_flows s (s_flows s ++ [f_new (startup_options metadata assoc)])) else Rej
  | SBind fi id => do_bind s fi id
  | SWrite fi msg sw fw names => if bytes_okb msg then do_write s fi msg sw fw names else Rej
  | SClose fi names => if (fi <? length (s_flows s))%nat then do_close s fi names else Rej
  | STrim fi => Ok (do_trim s fi)
  | SSend fi gone buf margin flags ts tse onames => do_send s fi gone buf margin flags ts tse onames
  | SAck chunk => if bytes_okb chunk then do_ack s chunk else Rej
  | SNaks => do_naks s
  | STimeout => do_timeout s
  | SException id names => do_exception s id names
  | SSessionClose => do_session_close s
  | SOpenFailed fi => if (fi <? length (s_flows s))%nat then do_open_failed s fi else Rej
  | SLinger fi => match w_state (wget s fi) with FS_LINGER => Ok (wset s fi (goto_closed (wget s fi))) | _ => Rej end
  | SReceipt o => if app_rop o then Ok (set_rcpts s (rstep (s_rcpts s) o)) else Rej
  | STick t => if s_now s <=? t then Ok (set_now s t) else Rej
  end.
Fixpoint srun (s : sess) (os : list sop) : res sess :=
  match os with [] => Ok s | o :: r => s' <- sstep s o;; srun s' r end.
