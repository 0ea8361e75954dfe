(** Model of TC messages and streams: Message::command (TCMessage.cpp 11-58), TCConnection::onMessage and onCommandMessage (TCConnection.cpp 133-232),
    TCStream (352-586), RTMFPTCConnection::deliverMessage and the user control messages (753-760, 805-835), write, syncStream, NetStreamTransport (666-676, 794-803, 849-893).
    Simplified: onMessage's answer is what is called with what, the calls themselves are TCConn.v; the connection and its control flow are open, so that
    openReturnFlow answers a flow; writes have no deadline; debug output is left out.  A std::string made from a const char * ends at the first NUL. *)
From Verif Require Import Base AMF TC FlowSync.
Open Scope res_scope.

(** ** Commands *)
(** TCMessage.cpp 11-29: with a command object and more values already encoded *)
Definition make_command (ext : bool) (name : list Z) (tid : Z) (obj : option amf) (rest : list Z) : list Z :=
  (if ext then [0] else []) ++ amf_encode (AStr name) ++ amf_encode (ANum tid) ++ amf_encode (match obj with Some o => o | None => ANull end) ++ rest.
(** 46-58 *)
Definition make_command_args (ext : bool) (name : list Z) (tid : Z) (args : list (option amf)) : list Z :=
  (if ext then [0] else []) ++ amf_encode (AStr name) ++ amf_encode (ANum tid) ++ amf_encode_list args.
(** TCConnection.cpp 553-574: queueCommand's message *)
Definition stream_command (name : list Z) (ins : option amf) (args : list (option amf)) : list Z :=
  amf_encode (AStr name) ++ amf_encode (ANum 0) ++ amf_encode ANull ++ (match ins with Some v => amf_encode v | None => [] end) ++ amf_encode_list args.
(** 415-424: send's message *)
Definition stream_data (name : list Z) (args : list (option amf)) : list Z := amf_encode (AStr name) ++ amf_encode_list args.

(** ** Receiving *)
Inductive action :=
| Nothing | CloseError
| ControlCommand (name : list Z) (tid : Z) (args : list amf) | StreamCommand (sid : Z) (name : list Z) (args : list amf)
| OnAudio (sid ts : Z) (p : list Z) | OnVideo (sid ts : Z) (p : list Z) | OnData (sid ts : Z) (name : list Z) (args : list amf)
| SetKeepalive (session default : Z).
Fixpoint cstr (s : list Z) : list Z := match s with [] => [] | x :: r => if x =? 0 then [] else x :: cstr r end.
(** *cursor++ *)
Definition get (l : list Z) : res (Z * list Z) := match l with [] => UB | b :: r => Ok (b, r) end.
(** the format byte of the _EX types: false to return *)
Definition format (ex : bool) (l : list Z) : res (bool * list Z) :=
  if ex then ' (b, r) <- get l;; Ok (b =? 0, r) else Ok (true, l).
Section Streams.
  Variable has : Z -> bool.  (* the streams in m_netStreams *)
  Variable ignoring : bool.  (* ignoreSetKeepaliveUserCommand *)
  (** 162-202 *)
  Definition on_command (sid : Z) (ex : bool) (p : list Z) : res action :=
    match p with
    | [] => Ok Nothing
    | _ =>
        ' (go, c) <- format ex p;;
        if (go : bool) then
          ' (command, c) <- amf_decode c;;
          ' (tid, c) <- amf_decode c;;
          ' (_, c) <- amf_decode c;;
          ' (_, args) <- amf_decode_all c;;
          match command, tid with
          | Some (AStr name), Some (ANum t) =>
              if sid =? 0 then Ok (ControlCommand (cstr name) t args)
              else Ok (if has sid then StreamCommand sid (cstr name) args else Nothing)
          | _, _ => Ok CloseError
          end
        else Ok Nothing
    end.
  (** 527-551 *)
  Definition on_data (sid ts : Z) (ex : bool) (p : list Z) : res action :=
    ' (go, c) <- format ex p;;
    if (go : bool) then
      ' (command, c) <- amf_decode c;;
      ' (_, args) <- amf_decode_all c;;
      Ok (match command with Some (AStr name) => OnData sid ts (cstr name) args | _ => Nothing end)
    else Ok Nothing.
  (** (a << 24) + (b << 16) + (c << 8) + d as a uint32_t, modulo 2^32 as every compiler in use has it *)
  Definition be32 (a b c d : Z) : Z := wrap32 (Z.shiftl a 24 + Z.shiftl b 16 + Z.shiftl c 8 + d).
  (** 805-835: onUserControlMessage, onSetKeepaliveUserCommand, in milliseconds: the session's period and the default for other sessions *)
  Definition on_user_control (p : list Z) : res action :=
    if zlen p <? 2 then Ok Nothing else
    a <- rd p 0;; b <- rd p 1;;
    if Z.shiftl a 8 + b =? 41 then
      if (zlen p <? 10) || ignoring then Ok Nothing else
      p2 <- rd p 2;; p3 <- rd p 3;; p4 <- rd p 4;; p5 <- rd p 5;; p6 <- rd p 6;; p7 <- rd p 7;; p8 <- rd p 8;; p9 <- rd p 9;;
      let server := be32 p2 p3 p4 p5 in
      let peer := be32 p6 p7 p8 p9 in
      let server := Z.max server 5000 in
      let peer := Z.max server 5000 in
      Ok (SetKeepalive server peer)
    else Ok Nothing.
  (** 133-160, 227-232, 503-524 *)
  Definition on_message (sid ty ts : Z) (p : list Z) : res action :=
    if (ty =? 20) || (ty =? 17) then on_command sid (ty =? 17) p
    else if (ty =? 8) || (ty =? 9) || (ty =? 18) || (ty =? 15) then
      if (sid =? 0) || negb (has sid) then Ok Nothing
      else if ty =? 8 then Ok (OnAudio sid ts p)
      else if ty =? 9 then Ok (OnVideo sid ts p)
      else on_data sid ts (ty =? 15) p
    else if ty =? 4 then on_user_control p
    else Ok Nothing.
  (** 753-760 *)
  Definition deliver (sid : Z) (b : list Z) : res action :=
    match tc_header b with
    | Ok (ty, ts, n) => on_message sid ty ts (skipn n b)
    | Rej => Ok Nothing
    | UB => UB
    end.
End Streams.

(** ** A stream's sending side *)
Inductive kind := Video | Audio | Data.
(** what user code can call, and what the connection does: 385-492, 368-383 *)
Inductive uop := Command (c : list Z) | Send (ts : Z) (m : list Z) | SendAudio (ts : Z) (b : list Z) | SendVideo (ts : Z) (b : list Z) | Sync | DeleteStream.
Inductive op := User (u : uop) | SetID (id : Z) (onopen : list uop).
(** m_userOpen, m_streamID, m_pendingCommands, the connection's m_nextSyncID; what has been written: stream, flow, message *)
Record strm := mkS { s_open : bool; s_id : Z; s_pend : list (list Z); s_sync : Z; s_out : list (Z * kind * list Z) }.
Definition strm0 (sync : Z) : strm := mkS true 0 [] sync [].
Definition put (k : kind) (m : list Z) (s : strm) : strm := mkS (s_open s) (s_id s) (s_pend s) (s_sync s) (s_out s ++ [(s_id s, k, m)]).
(** 849-867: the flow for a type of message *)
Definition flow_for (ty : Z) : kind := if ty =? 9 then Video else if ty =? 8 then Audio else Data.
(** 666-676, 869-875, for a stream ID that is not 0 *)
Definition write (ty ts : Z) (p : list Z) (s : strm) : strm := put (flow_for ty) (tc_message ty ts p) s.
(** 576-586: flushCommands *)
Definition flush (s : strm) : strm :=
  if s_id s =? 0 then s
  else let s' := fold_left (fun s c => write 20 0 c s) (s_pend s) s in mkS (s_open s') (s_id s') [] (s_sync s') (s_out s').
Definition do_user (u : uop) (s : strm) : strm :=
  match u with
  | Command c => flush (mkS (s_open s) (s_id s) (s_pend s ++ [c]) (s_sync s) (s_out s))
  | Send ts m => if s_id s =? 0 then s else write 18 0 m s
  | SendAudio ts b => if s_id s =? 0 then s else write 8 ts b s
  | SendVideo ts b => if s_id s =? 0 then s else write 9 ts b s
  | Sync =>
      if s_id s =? 0 then s
      else
        let m := sync_message (s_sync s) 3 in
        let s1 := mkS (s_open s) (s_id s) (s_pend s) (wrap32 (s_sync s + 1)) (s_out s) in
        put Data m (put Audio m (put Video m s1))
  | DeleteStream => mkS false 0 (s_pend s) (s_sync s) (s_out s)
  end.
Definition step (o : op) (s : strm) : strm :=
  match o with
  | User u => do_user u s
  | SetID id script =>
      if s_open s then flush (fold_left (fun s u => do_user u s) script (mkS (s_open s) id (s_pend s) (s_sync s) (s_out s)))
      else s
  end.
Definition run (l : list op) (s : strm) : strm := fold_left (fun s o => step o s) l s.
