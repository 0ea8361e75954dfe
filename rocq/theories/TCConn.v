(** Model of the client end of a TC connection: src/TCConnection.cpp (close 36-39, connect 41-70, transact 79-84, createStream
    86-114, onMessage 133-160, onCommandMessage 162-202, onControlCommand 204-212, onControlStatusMessage 214-218,
    onStreamCommand and onStreamMessage 220-232, basicClose 239-275, basicTransact 289-298, onTransactionResponse 300-311,
    onConnectResponse 313-323, deleteStream 325-332, validateCommandName 334-343; TCStream: deleteStream 371-386, setStreamID
    478-492, onCommandMessage 494-501, onStreamMessage 503-524, onDataMessage 526-552; RTMFPTCConnection::init 610-636).
    As in Session.v it is a machine with a stack of what is still to be done, so that callbacks can call the API at any point.
    Left out: what is written to the peer (whether a write succeeds is chosen by the environment); the commands a stream queues;
    the transport flows of the streams, so that messages may arrive at any time, even after close (which allows more than the
    code does); doubles: transaction numbers grow without bound (the code's stop growing at 2^53). *)
From Coq Require Import QArith Qround.
From Verif Require Import Base.

(** A TCStream: m_userOpen, m_streamID, and which of onOpen, onStatus, onData, onAudio, onVideo are set *)
Record stream := mkStr { s_open : bool; s_id : Z; s_onopen : bool; s_onstatus : bool; s_ondata : bool; s_onaudio : bool; s_onvideo : bool }.
Definition str0 := mkStr false 0 false false false false false.
(** A handler in m_transactions: of connect and of transact (and whether the user gave one), and of createStream *)
Inductive tx := TxConnect (h : bool) | TxUser (h : bool) | TxStream (i : nat).
(** The user's callbacks *)
Inductive cb := CbTransportOpen | CbClose | CbStatus | CbCommand | CbHandler (tid : Z) (success : bool)
  | CbStreamOpen (i : nat) | CbStreamStatus (i : nat) | CbData (i : nat) | CbAudio (i : nat) | CbVideo (i : nat).
(** What user code can call, with whether the write it makes succeeds *)
Inductive ucall := TClose | TConnect (h ok : bool) | TTransact (h ok : bool) | TCreate (ok : bool) | TDelete (i : nat)
  | TSetConn (onopen onclose onstatus oncmd : bool) | TSetStream (i : nat) (onopen onstatus ondata onaudio onvideo : bool).
Inductive frame :=
| KScript (l : list ucall)
| KCall (c : cb)
| KStatus                         (* onControlStatusMessage *)
| KClose                          (* basicClose *)
| KClose2                         (* 257-261 *)
| KTxAt (k : option Z)            (* the loop 263-265 at an element, or at the end *)
| KTxNext (k : Z)                 (* 263: it++ *)
| KClear | KStreams | KAssert | KOnClose (b : bool) (* 266, 268-270, 271, 273-274 *)
| KOpened (i : nat) (id : Z).     (* after onOpen: 489-491, 103-104 *)
(** [EvReg]: a handler is put in m_transactions; [EvHandled]: it is called; [EvCall]: a user callback is called *)
Inductive event := EvReg (tid : Z) | EvHandled (tid : Z) (success : bool) | EvCall (c : cb).
(** m_userOpen, m_transportOpen, m_tcOpen, m_nextTID, m_netStreams, m_transactions; which of onTransportOpen, onClose, onStatus and
    onCommand are set; all streams; what is still to be done; the callbacks run so far; the history, the latest first *)
Record conn := mkConn { t_open : bool; t_trans : bool; t_tc : bool; t_next : Z; t_streams : list (Z * nat); t_txs : list (Z * tx);
  t_onopen : bool; t_onclose : bool; t_onstatus : bool; t_oncmd : bool; t_str : list stream; t_stack : list frame; t_pos : nat; t_log : list event }.
Definition c_init := mkConn true false false 1 [] [] false false false false [] [] 0 [].
Definition with_open c x := mkConn x (t_trans c) (t_tc c) (t_next c) (t_streams c) (t_txs c) (t_onopen c) (t_onclose c) (t_onstatus c) (t_oncmd c) (t_str c) (t_stack c) (t_pos c) (t_log c).
Definition with_trans c x := mkConn (t_open c) x (t_tc c) (t_next c) (t_streams c) (t_txs c) (t_onopen c) (t_onclose c) (t_onstatus c) (t_oncmd c) (t_str c) (t_stack c) (t_pos c) (t_log c).
Definition with_tc c x := mkConn (t_open c) (t_trans c) x (t_next c) (t_streams c) (t_txs c) (t_onopen c) (t_onclose c) (t_onstatus c) (t_oncmd c) (t_str c) (t_stack c) (t_pos c) (t_log c).
Definition with_next c x := mkConn (t_open c) (t_trans c) (t_tc c) x (t_streams c) (t_txs c) (t_onopen c) (t_onclose c) (t_onstatus c) (t_oncmd c) (t_str c) (t_stack c) (t_pos c) (t_log c).
Definition with_streams c x := mkConn (t_open c) (t_trans c) (t_tc c) (t_next c) x (t_txs c) (t_onopen c) (t_onclose c) (t_onstatus c) (t_oncmd c) (t_str c) (t_stack c) (t_pos c) (t_log c).
Definition with_txs c x := mkConn (t_open c) (t_trans c) (t_tc c) (t_next c) (t_streams c) x (t_onopen c) (t_onclose c) (t_onstatus c) (t_oncmd c) (t_str c) (t_stack c) (t_pos c) (t_log c).
Definition with_cbs c a b d e := mkConn (t_open c) (t_trans c) (t_tc c) (t_next c) (t_streams c) (t_txs c) a b d e (t_str c) (t_stack c) (t_pos c) (t_log c).
Definition with_strs c x := mkConn (t_open c) (t_trans c) (t_tc c) (t_next c) (t_streams c) (t_txs c) (t_onopen c) (t_onclose c) (t_onstatus c) (t_oncmd c) x (t_stack c) (t_pos c) (t_log c).
Definition with_stack c x := mkConn (t_open c) (t_trans c) (t_tc c) (t_next c) (t_streams c) (t_txs c) (t_onopen c) (t_onclose c) (t_onstatus c) (t_oncmd c) (t_str c) x (t_pos c) (t_log c).
Definition next_pos c := mkConn (t_open c) (t_trans c) (t_tc c) (t_next c) (t_streams c) (t_txs c) (t_onopen c) (t_onclose c) (t_onstatus c) (t_oncmd c) (t_str c) (t_stack c) (S (t_pos c)) (t_log c).
Definition with_log c e := mkConn (t_open c) (t_trans c) (t_tc c) (t_next c) (t_streams c) (t_txs c) (t_onopen c) (t_onclose c) (t_onstatus c) (t_oncmd c) (t_str c) (t_stack c) (t_pos c) (e :: t_log c).
Definition push c l := with_stack c (l ++ t_stack c).

Fixpoint set_nth {A} (l : list A) (i : nat) (x : A) : list A :=
  match l, i with [], _ => [] | _ :: r, O => x :: r | y :: r, S i => y :: set_nth r i x end.
Definition get c i := nth i (t_str c) str0.
Definition put c i x := with_strs c (set_nth (t_str c) i x).
(** Maps: find, erase *)
Fixpoint find {A} (k : Z) (l : list (Z * A)) : option A := match l with [] => None | (k', a) :: r => if k =? k' then Some a else find k r end.
Definition erase {A} (k : Z) (l : list (Z * A)) : list (Z * A) := filter (fun e => negb (fst e =? k)) l.
Definition key_after (k : Z) (l : list (Z * tx)) : option Z := match filter (fun e => k <? fst e) l with [] => None | e :: _ => Some (fst e) end.
Definition first_key (l : list (Z * tx)) : option Z := match l with [] => None | e :: _ => Some (fst e) end.

Definition status_call c : list frame := if t_onstatus c then [KCall CbStatus] else [].
(** 239-256: basicClose up to the first callback *)
Definition basic_close c : conn := if t_open c then push (with_open c false) (status_call c ++ [KClose2]) else c.
(** 325-332: TCConnection::deleteStream *)
Definition conn_delete (id : Z) c : conn := with_streams c (erase id (t_streams c)).
(** 371-386: TCStream::deleteStream *)
Definition stream_delete (i : nat) c : conn :=
  let s := get c i in
  let c := if s_id s =? 0 then c else conn_delete (s_id s) c in
  put c i (mkStr false 0 false false false false false).
(** 289-298: basicTransact; [EvReg] if there is a handler *)
Definition has_handler (t : tx) : bool := match t with TxConnect _ | TxStream _ => true | TxUser h => h end.
Definition transact (t : tx) (ok : bool) c : conn :=
  let tid := t_next c in
  let c := with_next c (tid + 1) in
  if ok then let c := with_txs c (t_txs c ++ [(tid, t)]) in if has_handler t then with_log c (EvReg tid) else c else c.
(** What the peer answers: a number, or anything else (NaN and infinities too: neither passes the tests) *)
Inductive answer := ANum (q : Q) | AOther.
(** 93-97: the tests on the answer to createStream, and the stream ID *)
Definition good_answer c (a : answer) : option Z :=
  match a with
  | ANum q => if negb (Qle_bool q 0) && Qle_bool q (inject_Z U32MAX) then let id := Qfloor q in match find id (t_streams c) with None => Some id | Some _ => None end else None
  | AOther => None
  end.
(** Calling the handler of a transaction: the user's; 313-323: onConnectResponse; 91-112 *)
Definition handle (tid : Z) (t : tx) (success : bool) (a : answer) c : conn :=
  match t with
  | TxUser h => if h then push (with_log c (EvHandled tid success)) [KCall (CbHandler tid success)] else c
  | TxConnect h => push (with_tc (with_log c (EvHandled tid success)) success) ((if h then [KCall (CbHandler tid success)] else []) ++ [KStatus] ++ (if success then [] else [KClose]))
  | TxStream i =>
      let c := with_log c (EvHandled tid success) in
      match (if success then good_answer c a else None) with
      | Some id =>
          let c := with_streams c ((id, i) :: t_streams c) in
          let s := get c i in
          if s_open s then push (put c i (mkStr true id false (s_onstatus s) (s_ondata s) (s_onaudio s) (s_onvideo s))) ((if s_onopen s then [KCall (CbStreamOpen i)] else []) ++ [KOpened i id])
          else conn_delete id c
      | None => basic_close (stream_delete i c)
      end
  end.
Definition user (u : ucall) c : conn :=
  match u with
  | TClose => basic_close c
  | TConnect h ok => if t_open c && (t_next c =? 1) then transact (TxConnect h) ok c else c
  | TTransact h ok => if t_open c && negb (t_next c =? 1) then transact (TxUser h) ok c else c
  | TCreate ok => if t_open c then transact (TxStream (length (t_str c))) ok (with_strs c (t_str c ++ [mkStr true 0 false false false false false])) else c
  | TDelete i => stream_delete i c
  | TSetConn a b d e => with_cbs c a b d e
  | TSetStream i a b d e f => let s := get c i in put c i (mkStr (s_open s) (s_id s) a b d e f)
  end.

Section Env.
Variable env : nat -> list ucall.
(** One step; [UB]: an assertion that fails, an iterator not valid any more *)
Definition wstep (c0 : conn) : res conn :=
  match t_stack c0 with
  | [] => Rej
  | k :: rest =>
      let c := with_stack c0 rest in
      match k with
      | KScript [] => Ok c
      | KScript (u :: l) => Ok (user u (push c [KScript l]))
      | KCall b => Ok (with_log (push (next_pos c) [KScript (env (t_pos c))]) (EvCall b))
      | KStatus => Ok (push c (status_call c))
      | KClose => Ok (basic_close c)
      | KClose2 => Ok (push (with_cbs c false false false false) [KTxAt (first_key (t_txs c)); KClear; KStreams; KAssert; KOnClose (t_onclose c)])
      | KTxAt None => Ok c
      | KTxAt (Some tid) => match find tid (t_txs c) with Some t => Ok (handle tid t false AOther (push c [KTxNext tid])) | None => UB end
      | KTxNext tid => match find tid (t_txs c) with Some _ => Ok (push c [KTxAt (key_after tid (t_txs c))]) | None => UB end
      | KClear => Ok (with_txs c [])
      | KStreams => Ok (fold_left (fun c e => stream_delete (snd e) c) (t_streams c) c)
      | KAssert => match t_streams c with [] => Ok c | _ => UB end
      | KOnClose b => Ok (if b then push c [KCall CbClose] else c)
      | KOpened i id => Ok (if s_open (get c i) then c else conn_delete id c)
      end
  end.
End Env.

(** The transaction number of a response, a double: a whole number, another number, or NaN *)
Inductive dtid := DNum (z : Z) | DOther | DNaN.
(** std::map<double, ...>::find: with NaN no key is less or greater, and the first element is found *)
Definition find_tx (d : dtid) (l : list (Z * tx)) : option (Z * tx) :=
  match d with
  | DNum z => match find z l with Some t => Some (z, t) | None => None end
  | DOther => None
  | DNaN => match l with [] => None | e :: _ => Some e end
  end.
(** Messages that are understood: not a command; a response; onStatus; another command; onStatus to a stream; media or data to a
    stream (0 data, 1 audio, 2 video) *)
Inductive msg := MBad | MResponse (success : bool) (tid : dtid) (a : answer) | MStatus | MCommand | MStreamStatus (id : Z) | MStream (id : Z) (kind : nat).
Inductive wop := OOpened | OMsg (m : msg) | ODown | OUser (l : list ucall).
Definition on_msg (m : msg) c : conn :=
  match m with
  | MBad => basic_close c
  | MResponse success d a =>
      match find_tx d (t_txs c) with
      | Some (tid, t) => handle tid t success a (with_txs c (erase tid (t_txs c)))
      | None => c
      end
  | MStatus => push c (status_call c)
  | MCommand => if t_oncmd c then push c [KCall CbCommand] else c
  | MStreamStatus id => match find id (t_streams c) with Some i => if s_onstatus (get c i) then push c [KCall (CbStreamStatus i)] else c | None => c end
  | MStream id kind =>
      match find id (t_streams c) with
      | Some i =>
          let s := get c i in
          match kind with
          | 0%nat => if s_ondata s then push c [KCall (CbData i)] else c
          | 1%nat => if s_onaudio s then push c [KCall (CbAudio i)] else c
          | _ => if s_onvideo s then push c [KCall (CbVideo i)] else c
          end
      | None => c
      end
  end.
(** The transport opens (618-627); a message; the control flows end (629, 693: basicClose); the user's calls *)
Definition do_op (o : wop) c : conn :=
  match o with
  | OOpened => let c := with_trans c true in if t_open c && t_onopen c then push c [KCall CbTransportOpen] else c
  | OMsg m => on_msg m c
  | ODown => basic_close c
  | OUser l => push c [KScript l]
  end.
