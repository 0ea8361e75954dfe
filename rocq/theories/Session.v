(** Model of the life cycle of a session and of the user callbacks of its flows: src/Session.cpp (initiateToEPD 412-428, close
    451-483, abortFlowsAndTimers 485-531, abort 533-541, setOpen 543-556, setNearclose 558-575, setFarcloseLinger 577-585,
    interestDown 751-756, bindFlow and unbindFlow 797-816, onRHello 1264-1310, onRIKeying 1364-1388, onUserData 1390-1434,
    onMobilityCheckReply 1443-1476, onChunk 1644-1722, onCloseChunk 2085-2100, onCloseAckChunk 2102-2116), src/RTMFP.cpp
    (openFlow 82-110, onSessionDidOpen 443-449, onSessionDidClose 456-471), src/SendFlow.cpp (close 167-199, onSessionDidOpen
    261-283, onSessionDidClose 302-309, doWritable 321-326, onExceptionReport 615-631, gotoStateClosed 674-697),
    src/RecvFlow.cpp (isOpen 66-69, close 71-90, abort 179-186, closeAndNotify 188-196, onData 198-274, tryDelivery 379-412)
    and src/Flow.cpp (close 32-36, closeSession 38-42, basicOpenFlow 201-212).
    It is an abstract machine with a stack of what is still to be done, so that user callbacks can call the API again at any
    point; what the user's callbacks do is given by the environment.
    Left out: all about data but the number of complete messages a receiving flow holds; the timers and the crypto threads,
    whose tasks the environment may run at any time (which allows more than the code does: abort at any time); packets that
    arrive before the session opens (like packets right after it); the other sessions of the instance. *)
From Verif Require Import Base.

(** Session.hpp 69-70 *)
Inductive sstate := S_UNKNOWN | S_IHELLO_SENT | S_KEYING_SENT | S_OPEN | S_NEARCLOSE | S_FARCLOSE_LINGER | S_CLOSED.
Definition rank (s : sstate) : nat :=
  match s with S_UNKNOWN => 0 | S_IHELLO_SENT => 1 | S_KEYING_SENT => 2 | S_OPEN => 3 | S_NEARCLOSE => 4 | S_FARCLOSE_LINGER => 5 | S_CLOSED => 6 end.
Definition is_open (s : sstate) : bool := match s with S_OPEN => true | _ => false end.
(** The states of a sending flow (rtmfp.hpp 307: F_OPEN, F_CLOSING, F_COMPLETE_LINGER, F_CLOSED) and of a receiving flow (389:
    RF_OPEN, RF_REJECTED, RF_COMPLETE_LINGER, RF_CLOSED) are numbered 0 to 3 *)
(** A sending flow: m_base_isOpen, m_state, whether m_session (m_openingSession) is this session, which of onException,
    onWritable, onRecvFlow and onFarAddressDidChange are set, m_shouldNotifyWhenWritable, and whether m_next_sn > 1 *)
Record sf := mkSf { f_base : bool; f_st : nat; f_bound : bool; f_opening : bool; f_exc : bool; f_wr : bool; f_recv : bool; f_far : bool; f_notify : bool; f_sent : bool }.
(** A receiving flow: m_base_isOpen, m_accepted, m_state, whether the order is RO_HOLD, which of onMessage, onComplete,
    onCumulativeAckDidMerge and onFarAddressDidChange are set, and the complete messages held *)
Record rf := mkRf { g_base : bool; g_acc : bool; g_st : nat; g_hold : bool; g_msg : bool; g_comp : bool; g_merge : bool; g_far : bool; g_buf : nat }.
Definition sf0 := mkSf false 3 false false false false false false false false.
Definition rf0 := mkRf false false 3 false false false false false 0.

(** The user callbacks *)
Inductive cb := CbException (i : nat) | CbWritable (i : nat) | CbRecvFlow (g : nat) | CbSendFar (i : nat)
  | CbMessage (g : nat) | CbComplete (g : nat) (error : bool) | CbMerge (g : nat) | CbRecvFar (g : nat).
(** What user code can call: RTMFP::openFlow to the endpoint of this session, Flow::openFlow, closeSession, SendFlow::close,
    notifyWhenWritable, write, RecvFlow::close, accept, setReceiveOrder, and setting callbacks *)
Inductive ucall := UOpen | UOpenIn (i : nat) | UCloseSession | UCloseSend (i : nat) | UNotify (i : nat) | UWrite (i : nat)
  | UCloseRecv (g : nat) | UAccept (g : nat) | UHold (g : nat) (hold : bool)
  | USetSend (i : nat) (exc wr recv far : bool) | USetRecv (g : nat) (msg comp merge far : bool).
(** Chunks: user data for flow [k] (with the associated flow; whether it must be rejected; the messages it completes; whether
    the flow is then complete; whether a gap closed), an exception report, an acknowledgement (whether all is acknowledged),
    close, close acknowledgement, and a good mobility check reply *)
Inductive xchunk := XData (k : Z) (assoc : option nat) (reject : bool) (n : nat) (done merged : bool) | XException (i : nat) | XAck (i : nat) (empty : bool) | XClose | XCloseAck | XMobility.
(** What is still to be done *)
Inductive frame :=
| KScript (l : list ucall)          (* the rest of a user callback *)
| KCall (c : cb)                    (* invoke a callback *)
| KClose (i : nat)                  (* SendFlow::close *)
| KCloseRest (i : nat)              (* the end of gotoStateClosed and of SendFlow::close *)
| KRecvClose (g : nat) (error : bool) (* closeAndNotify *)
| KWritable (i : nat)               (* the loop of doWritable *)
| KNewFlow (g : nat) (must : bool)  (* Session.cpp 1425-1431 *)
| KData (g : nat) (n : nat) (done merged : bool) (* onData *)
| KDeliver (g : nat) (done : bool)  (* the loop of tryDelivery *)
| KMerge (g : nat)
| KFar (sends recvs : list nat)     (* 1464-1475 *)
| KSendLoop | KAssert (i : nat)     (* 512-518 *)
| KRecvLoop | KAborted (g : nat) | KErase (k : Z) (g : nat) (* 524-529 *)
| KTold (release : bool)            (* RTMFP::onSessionDidClose *)
| KWaiting (l : list nat)           (* its loop over the opening flows *)
| KChunks (l : list xchunk) | KMoved (l : list nat) | KAbort. (* the rest of a packet, and of onRHello *)
Inductive event := EvState (from to : sstate) | EvCall (c : cb) | EvTold (release : bool).

(** The session: m_state, m_interestCount, whether RTMFP has it in m_openingSessions, in the maps of open sessions and in
    m_sessions; m_sendFlows, the flows of m_openingFlows that wait for it, m_recvFlows; all flows there ever were; what is
    still to be done; how many callbacks have run; and what happened (the latest first) *)
Record world := mkW { v_state : sstate; v_interest : Z; v_opening : bool; v_indexed : bool; v_reg : bool; v_sends : list nat; v_waiting : list nat;
  v_recvs : list (Z * nat); v_sf : list sf; v_rf : list rf; v_stack : list frame; v_pos : nat; v_log : list event }.
Definition w_init := mkW S_UNKNOWN 0 false false true [] [] [] [] [] [] 0 [].
Definition with_state w x := mkW x (v_interest w) (v_opening w) (v_indexed w) (v_reg w) (v_sends w) (v_waiting w) (v_recvs w) (v_sf w) (v_rf w) (v_stack w) (v_pos w) (EvState (v_state w) x :: v_log w).
Definition with_interest w x := mkW (v_state w) x (v_opening w) (v_indexed w) (v_reg w) (v_sends w) (v_waiting w) (v_recvs w) (v_sf w) (v_rf w) (v_stack w) (v_pos w) (v_log w).
Definition with_index w o i r := mkW (v_state w) (v_interest w) o i r (v_sends w) (v_waiting w) (v_recvs w) (v_sf w) (v_rf w) (v_stack w) (v_pos w) (v_log w).
Definition with_sends w x := mkW (v_state w) (v_interest w) (v_opening w) (v_indexed w) (v_reg w) x (v_waiting w) (v_recvs w) (v_sf w) (v_rf w) (v_stack w) (v_pos w) (v_log w).
Definition with_waiting w x := mkW (v_state w) (v_interest w) (v_opening w) (v_indexed w) (v_reg w) (v_sends w) x (v_recvs w) (v_sf w) (v_rf w) (v_stack w) (v_pos w) (v_log w).
Definition with_recvs w x := mkW (v_state w) (v_interest w) (v_opening w) (v_indexed w) (v_reg w) (v_sends w) (v_waiting w) x (v_sf w) (v_rf w) (v_stack w) (v_pos w) (v_log w).
Definition with_sfs w x := mkW (v_state w) (v_interest w) (v_opening w) (v_indexed w) (v_reg w) (v_sends w) (v_waiting w) (v_recvs w) x (v_rf w) (v_stack w) (v_pos w) (v_log w).
Definition with_rfs w x := mkW (v_state w) (v_interest w) (v_opening w) (v_indexed w) (v_reg w) (v_sends w) (v_waiting w) (v_recvs w) (v_sf w) x (v_stack w) (v_pos w) (v_log w).
Definition push w l := mkW (v_state w) (v_interest w) (v_opening w) (v_indexed w) (v_reg w) (v_sends w) (v_waiting w) (v_recvs w) (v_sf w) (v_rf w) (l ++ v_stack w) (v_pos w) (v_log w).
Definition popped w l := mkW (v_state w) (v_interest w) (v_opening w) (v_indexed w) (v_reg w) (v_sends w) (v_waiting w) (v_recvs w) (v_sf w) (v_rf w) l (v_pos w) (v_log w).
Definition with_log w e := mkW (v_state w) (v_interest w) (v_opening w) (v_indexed w) (v_reg w) (v_sends w) (v_waiting w) (v_recvs w) (v_sf w) (v_rf w) (v_stack w) (v_pos w) (e :: v_log w).
Definition next_pos w := mkW (v_state w) (v_interest w) (v_opening w) (v_indexed w) (v_reg w) (v_sends w) (v_waiting w) (v_recvs w) (v_sf w) (v_rf w) (v_stack w) (S (v_pos w)) (v_log w).

Fixpoint set_nth {A} (l : list A) (i : nat) (x : A) : list A :=
  match l, i with [], _ => [] | _ :: r, O => x :: r | y :: r, S i => y :: set_nth r i x end.
Definition sget w i := nth i (v_sf w) sf0.
Definition rget w g := nth g (v_rf w) rf0.
Definition sset w i x := with_sfs w (set_nth (v_sf w) i x).
Definition rset w g x := with_rfs w (set_nth (v_rf w) g x).
Definition without (i : nat) (l : list nat) := filter (fun j => negb (j =? i)%nat) l.
Definition has (i : nat) (l : list nat) : bool := existsb (fun j => (j =? i)%nat) l.

(** Erasing a key of m_recvFlows *)
Fixpoint drop_key (k : Z) (l : list (Z * nat)) : list (Z * nat) :=
  match l with [] => [] | e :: r => if fst e =? k then r else e :: drop_key k r end.

(** 485-531: abortFlowsAndTimers, then RTMFP::onSessionDidClose *)
Definition closing (release : bool) : list frame := [KSendLoop; KRecvLoop; KTold release].
(** 533-541 *)
Definition abort w : world := match v_state w with S_CLOSED => w | _ => push (with_state w S_CLOSED) (closing true) end.
(** 451-483: close; 558-575: setNearclose *)
Definition close (orderly : bool) w : world :=
  match v_state w with
  | S_UNKNOWN | S_IHELLO_SENT | S_KEYING_SENT => abort w
  | S_OPEN => if orderly then push (with_state w S_NEARCLOSE) (closing false) else abort w
  | S_NEARCLOSE | S_FARCLOSE_LINGER => if orderly then w else abort w
  | S_CLOSED => w
  end.
(** 751-756 *)
Definition interest_down w : world :=
  let w := with_interest w (v_interest w - 1) in
  match v_state w with S_IHELLO_SENT => if v_interest w =? 0 then abort w else w | _ => w end.
(** SendFlow.cpp 674-697, then 198: gotoStateClosed up to interestDown; the rest is [KCloseRest] *)
Definition goto_closed (i : nat) w : world :=
  let f := sget w i in
  if (f_st f <? 3)%nat then
    let w1 := sset w i (mkSf (f_base f) 3 false (f_opening f) (f_exc f) (f_wr f) (f_recv f) (f_far f) (f_notify f) (f_sent f)) in
    let w2 := if f_bound f then with_sends w1 (without i (v_sends w1)) else w1 in
    if f_opening f then interest_down w2 else w2
  else w.
(** SendFlow.cpp 167-199 *)
Definition close_send (i : nat) w : world :=
  let f := sget w i in
  let w := push w [KCloseRest i] in
  let w := sset w i (mkSf false (f_st f) (f_bound f) (f_opening f) false false false false (f_notify f) (f_sent f)) in
  if (f_st f =? 0)%nat then
    if f_bound f && is_open (v_state w) && f_sent f
    then sset w i (mkSf false 1 (f_bound f) (f_opening f) false false false false (f_notify f) (f_sent f))
    else goto_closed i w
  else if f_bound f && negb (is_open (v_state w)) then goto_closed i w else w.
Definition close_rest (i : nat) w : world :=
  let f := sget w i in
  let w := if (f_st f =? 3)%nat then sset w i (mkSf (f_base f) (f_st f) (f_bound f) false (f_exc f) (f_wr f) (f_recv f) (f_far f) (f_notify f) (f_sent f)) else w in
  with_waiting w (without i (v_waiting w)).
(** SendFlow.cpp 615-631: onExceptionReport *)
Definition exception_report (i : nat) w : world :=
  let f := sget w i in
  let w := sset w i (mkSf (f_base f) (f_st f) (f_bound f) (f_opening f) false (f_wr f) (f_recv f) (f_far f) (f_notify f) (f_sent f)) in
  push w (KClose i :: if f_exc f then [KCall (CbException i)] else []).
(** SendFlow.cpp 302-309: onSessionDidClose *)
Definition flow_session_closed (i : nat) w : world :=
  let f := sget w i in if f_bound f || f_opening f then exception_report i w else w.
(** RecvFlow.cpp 71-90: close, and Flow::close *)
Definition close_recv (g : nat) w : world :=
  let f := rget w g in
  rset w g (mkRf false (g_acc f) (if (g_st f =? 0)%nat then 1 else g_st f) (g_hold f) false false false false 0).
(** RecvFlow.cpp 66-69: isOpen *)
Definition recv_open (f : rf) : bool := g_base f && g_acc f.
(** A flow bound: SendFlow.cpp 261-283, Session.cpp 797-801 *)
Definition bind_flow (i : nat) w : world :=
  let f := sget w i in
  let w1 := sset w i (mkSf (f_base f) (f_st f) true (f_opening f) (f_exc f) (f_wr f) (f_recv f) (f_far f) (f_notify f) (f_sent f)) in
  let w2 := with_waiting (with_sends w1 (v_sends w1 ++ [i])) (without i (v_waiting w1)) in
  if f_opening f then
    let w3 := interest_down w2 in
    let f := sget w3 i in
    sset w3 i (mkSf (f_base f) (f_st f) (f_bound f) false (f_exc f) (f_wr f) (f_recv f) (f_far f) (f_notify f) (f_sent f))
  else w2.
(** Session.cpp 543-556 and RTMFP.cpp 443-449: setOpen *)
Definition set_open w : world :=
  let w := with_state w S_OPEN in
  let w := with_index w false true (v_reg w) in
  fold_left (fun w i => if f_bound (sget w i) then w else bind_flow i w) (v_waiting w) w.
(** A new flow; no callbacks set *)
Definition new_sf (opening : bool) := mkSf true 0 false opening false false false false false false.
(** RTMFP.cpp 82-110: openFlow to this session's endpoint: bound at once if the session is in the map of open ones, waiting
    if it is in the list of opening ones; otherwise it is another session's flow, and left out *)
Definition open_flow w : world :=
  let i := length (v_sf w) in
  if v_indexed w then bind_flow i (with_sfs w (v_sf w ++ [new_sf false]))
  else if v_opening w then with_interest (with_waiting (with_sfs w (v_sf w ++ [new_sf true])) (v_waiting w ++ [i])) (v_interest w + 1)
  else w.
Definition user (c : ucall) w : world :=
  match c with
  | UOpen => open_flow w
  | UOpenIn i => if f_bound (sget w i) && is_open (v_state w) then bind_flow (length (v_sf w)) (with_sfs w (v_sf w ++ [new_sf false])) else w
  | UCloseSession => close true w
  | UCloseSend i => push w [KClose i]
  | UNotify i => let f := sget w i in sset w i (mkSf (f_base f) (f_st f) (f_bound f) (f_opening f) (f_exc f) (f_wr f) (f_recv f) (f_far f) true (f_sent f))
  | UWrite i => let f := sget w i in if f_base f then sset w i (mkSf (f_base f) (f_st f) (f_bound f) (f_opening f) (f_exc f) (f_wr f) (f_recv f) (f_far f) (f_notify f) true) else w
  | UCloseRecv g => close_recv g w
  | UAccept g => let f := rget w g in rset w g (mkRf (g_base f) true (g_st f) (g_hold f) (g_msg f) (g_comp f) (g_merge f) (g_far f) (g_buf f))
  | UHold g h => let f := rget w g in rset w g (mkRf (g_base f) (g_acc f) (g_st f) h (g_msg f) (g_comp f) (g_merge f) (g_far f) (g_buf f))
  | USetSend i exc wr recv far => let f := sget w i in sset w i (mkSf (f_base f) (f_st f) (f_bound f) (f_opening f) exc wr recv far (f_notify f) (f_sent f))
  | USetRecv g msg comp merge far => let f := rget w g in rset w g (mkRf (g_base f) (g_acc f) (g_st f) (g_hold f) msg comp merge far (g_buf f))
  end.
Fixpoint find_recv (k : Z) (l : list (Z * nat)) : option nat :=
  match l with [] => None | (k', g) :: r => if k =? k' then Some g else find_recv k r end.
(** 1644-1722: onChunk in a packet of the other end, and the functions it calls *)
Definition on_chunk (c : xchunk) w : world :=
  match c with
  | XData k assoc reject n done merged =>
      if is_open (v_state w) then
        match find_recv k (v_recvs w) with
        | Some g => push w ((if reject then [KRecvClose g true] else []) ++ [KData g n done merged])
        | None =>
            let g := length (v_rf w) in
            let w := with_rfs (with_recvs w ((k, g) :: v_recvs w)) (v_rf w ++ [mkRf true false 0 false false false false false 0]) in
            let '(known, must) :=
              match assoc with
              | None => (true, reject)
              | Some i => if has i (v_sends w) then (f_recv (sget w i), reject || negb (f_base (sget w i))) else (true, true)
              end in
            push w ((if known && negb must then [KCall (CbRecvFlow g)] else []) ++ [KNewFlow g must; KData g n done merged])
        end
      else w
  | XException i => if is_open (v_state w) && has i (v_sends w) then exception_report i w else w
  | XAck i empty =>
      if is_open (v_state w) && has i (v_sends w) then
        let f := sget w i in
        if (f_st f =? 1)%nat && empty then sset w i (mkSf (f_base f) 2 (f_bound f) (f_opening f) (f_exc f) (f_wr f) (f_recv f) (f_far f) (f_notify f) (f_sent f)) else w
      else w
  | XMobility => if is_open (v_state w) then push w [KFar (v_sends w) (map snd (v_recvs w))] else w
  | XClose => if is_open (v_state w) then push (with_state w S_FARCLOSE_LINGER) (closing false) else w
  | XCloseAck => match v_state w with S_OPEN | S_NEARCLOSE | S_FARCLOSE_LINGER => abort w | _ => w end
  end.

Section Env.
(** What the callbacks do, in the order they run, and what onWritable answers *)
Variable env : nat -> list ucall * bool.

(** One step: the top of the stack.  [UB]: an assertion that fails, or an iterator that is not valid any more. *)
Definition wstep (w0 : world) : res world :=
  match v_stack w0 with
  | [] => Rej
  | k :: rest =>
      let w := popped w0 rest in
      match k with
      | KScript [] => Ok w
      | KScript (c :: l) => Ok (user c (push w [KScript l]))
      | KCall c => Ok (with_log (push (next_pos w) [KScript (fst (env (v_pos w)))]) (EvCall c))
      | KClose i => Ok (close_send i w)
      | KCloseRest i => Ok (close_rest i w)
      | KRecvClose g error =>
          let f := rget w g in
          let w := close_recv g w in
          Ok (if recv_open f && g_comp f then push w [KCall (CbComplete g error)] else w)
      | KWritable i =>
          let f := sget w i in
          if f_notify f && f_bound f && is_open (v_state w) && f_base f && f_wr f then
            let again := snd (env (v_pos w)) in
            let w := sset w i (mkSf (f_base f) (f_st f) (f_bound f) (f_opening f) (f_exc f) (f_wr f) (f_recv f) (f_far f) again (f_sent f)) in
            Ok (push w [KCall (CbWritable i); KWritable i])
          else Ok w
      | KNewFlow g must => Ok (if must || negb (recv_open (rget w g)) then push w [KRecvClose g true] else w)
      | KData g n done merged =>
          let f := rget w g in
          let f := if (g_st f =? 0)%nat then mkRf (g_base f) (g_acc f) (g_st f) (g_hold f) (g_msg f) (g_comp f) (g_merge f) (g_far f) (g_buf f + n) else f in
          let f := if done && (g_st f <? 2)%nat then mkRf (g_base f) (g_acc f) 2 (g_hold f) (g_msg f) (g_comp f) (g_merge f) (g_far f) (g_buf f) else f in
          Ok (push (rset w g f) (KDeliver g done :: if merged then [KMerge g] else []))
      | KDeliver g done =>
          let f := rget w g in
          if negb (g_hold f) && recv_open f && (0 <? g_buf f)%nat then
            let w := rset w g (mkRf (g_base f) (g_acc f) (g_st f) (g_hold f) (g_msg f) (g_comp f) (g_merge f) (g_far f) (g_buf f - 1)) in
            Ok (push w ((if g_msg f then [KCall (CbMessage g)] else []) ++ [KDeliver g done]))
          else if done && (g_buf f =? 0)%nat then Ok (push w [KRecvClose g false]) else Ok w
      | KMerge g => let f := rget w g in Ok (if (g_st f =? 0)%nat && g_merge f then push w [KCall (CbMerge g)] else w)
      | KFar (i :: l) r => Ok (push w ((if has i (v_sends w) && f_far (sget w i) then [KCall (CbSendFar i)] else []) ++ [KFar l r]))
      | KFar [] (g :: r) => Ok (push w ((if g_far (rget w g) then [KCall (CbRecvFar g)] else []) ++ [KFar [] r]))
      | KFar [] [] => Ok w
      | KSendLoop =>
          match v_sends w with
          | [] => Ok w
          | i :: _ => Ok (flow_session_closed i (push w [KAssert i; KSendLoop]))
          end
      | KAssert i => if has i (v_sends w) then UB else Ok w
      | KRecvLoop =>
          match v_recvs w with
          | [] => Ok w
          | (k, g) :: _ => Ok (push w [KRecvClose g true; KAborted g; KErase k g; KRecvLoop])
          end
      | KAborted g => let f := rget w g in Ok (rset w g (mkRf (g_base f) (g_acc f) 3 (g_hold f) (g_msg f) (g_comp f) (g_merge f) (g_far f) (g_buf f)))
      | KErase k g =>
          match find_recv k (v_recvs w) with
          | Some g' => if (g =? g')%nat then Ok (with_recvs w (drop_key k (v_recvs w))) else UB
          | None => UB
          end
      | KTold release =>
          Ok (push (with_log (with_index w false false (if release then false else v_reg w)) (EvTold release)) [KWaiting (v_waiting w)])
      | KWaiting [] => Ok w
      | KWaiting (i :: l) =>
          let w := push w [KWaiting l] in
          Ok (if has i (v_waiting w) then flow_session_closed i w else w)
      | KChunks [] => Ok w
      | KChunks (c :: l) => Ok (on_chunk c (push w [KChunks l]))
      | KMoved [] => Ok w
      | KMoved (i :: l) =>
          let w := push w [KMoved l] in
          let f := sget w i in
          if has i (v_waiting w) && negb (f_bound f) && f_opening f then
            Ok (interest_down (with_waiting (sset w i (mkSf (f_base f) (f_st f) (f_bound f) false (f_exc f) (f_wr f) (f_recv f) (f_far f) (f_notify f) (f_sent f))) (without i (v_waiting w))))
          else Ok w
      | KAbort => Ok (abort w)
      end
  end.
End Env.

(** What starts activity: initiateToEPD; an RHello, found to be for a session there already is (to which the given flows move)
    or leading to keying; the keying done, on either side; the user's calls; a packet; abort or close for any other reason
    (timers, failures, glare, shutdown); the idle and the timeout alarm; doWritable and tryDelivery run as tasks; and the
    lingering of a flow ending *)
Inductive wop := OInitiate | ORHello (existing : bool) (moved : list nat) | ORIKeying | OIIKeying | OUser (l : list ucall) | OPacket (l : list xchunk)
  | OAbort | OClose (orderly : bool) | OIdle | OTimeout | OWritable (i : nat) | ODeliver (g : nat) (done : bool) | OSendLinger (i : nat) | ORecvLinger (k : Z).
Definition do_op (o : wop) w : world :=
  match o with
  | OInitiate => match v_state w with S_UNKNOWN => with_index (with_state w S_IHELLO_SENT) true (v_indexed w) (v_reg w) | _ => w end
  | ORHello existing moved =>
      match v_state w with
      | S_IHELLO_SENT => if existing then push w [KMoved moved; KAbort] else with_state w S_KEYING_SENT
      | _ => w
      end
  | ORIKeying => match v_state w with S_KEYING_SENT => set_open w | _ => w end
  | OIIKeying => match v_state w with S_UNKNOWN => set_open w | _ => w end
  | OUser l => push w [KScript l]
  | OPacket l => push w [KChunks l]
  | OAbort => abort w
  | OClose orderly => close orderly w
  | OIdle => if is_open (v_state w) && (length (v_sends w) =? 0)%nat && (length (v_recvs w) =? 0)%nat then close true w else w
  | OTimeout => if is_open (v_state w) then close true w else w
  | OWritable i => push w [KWritable i]
  | ODeliver g done => push w [KDeliver g (done && (2 <=? g_st (rget w g))%nat)]
  | OSendLinger i => if (f_st (sget w i) =? 2)%nat then goto_closed i w else w
  | ORecvLinger k =>
      match find_recv k (v_recvs w) with
      | Some g =>
          let f := rget w g in
          if (g_st f =? 2)%nat then
            with_recvs (rset w g (mkRf (g_base f) (g_acc f) 3 (g_hold f) (g_msg f) (g_comp f) (g_merge f) (g_far f) (g_buf f)))
              (drop_key k (v_recvs w))
          else w
      | None => w
      end
  end.
