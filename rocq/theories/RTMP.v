(** Model of the chunk streams of RTMP: test/RTMP.cpp, from when the connection is open; the handshake before that (1 + 2 * 1536
    bytes each way) is left out.
    Sender: setChunkSize 157-174, write 181-210, close 246-259, queueStartChunk 356-425, queueNextChunk 427-447, the control
    messages 449-503, trimSendQueues 505-536, onWritable 561-602, findChunkStream 604-639, onAckSentInput 1000-1005.
    The output is everything put in m_rawOutputBuffer so far: writeRawOutputBuffer writes it in this order.
    Left out: what decides when something is written or abandoned (flow control, receipts): any of it may happen at any time.
    Receiver: onReceiveBytes 293-330, onOpenInput 822-965, onMessageCompleted and what it calls 648-788.
    Left out: acknowledgements the receiver sends; setPaused; what onmessage does to the connection. *)
From Verif Require Import Base TC.
Open Scope res_scope.

Record msg := mkMsg { g_sid : Z; g_type : Z; g_ts : Z; g_data : list Z }.
(** 19-60: _pushu24, _pushu32, _pushu32le, _setu32; _readu24, _readu32 (at an offset) *)
Definition u24 (v : Z) : list Z := [Z.land (Z.shiftr v 16) 255; Z.land (Z.shiftr v 8) 255; Z.land v 255].
Definition u32 (v : Z) : list Z := [Z.land (Z.shiftr v 24) 255; Z.land (Z.shiftr v 16) 255; Z.land (Z.shiftr v 8) 255; Z.land v 255].
Definition u32le (v : Z) : list Z := [Z.land v 255; Z.land (Z.shiftr v 8) 255; Z.land (Z.shiftr v 16) 255; Z.land (Z.shiftr v 24) 255].
Definition rd24 (l : list Z) (i : nat) : res Z :=
  a <- rd l i;; b <- rd l (i + 1);; c <- rd l (i + 2);;
  Ok (wrap32 (wrap32 (Z.shiftl (wrap32 (wrap32 (Z.shiftl a 8) + b)) 8) + c)).
Definition rd32 (l : list Z) (i : nat) : res Z :=
  a <- rd24 l i;; d <- rd l (i + 3);; Ok (wrap32 (wrap32 (Z.shiftl a 8) + d)).
(** 70-88: _pushChunkBasicHeader *)
Definition basic_header (ct cid : Z) : list Z :=
  if cid >? 319 then [Z.lor ct 1; Z.land (cid - 64) 255; Z.land (Z.shiftr (cid - 64) 8) 255]
  else if cid >? 63 then [Z.lor ct 0; Z.land (cid - 64) 255]
  else [Z.lor ct (Z.land cid 63)].

(** ** The sender *)
(** SendChunkStreamState; m_lastUsed in ticks *)
Record schunk := mkSC { k_sid : Z; k_ts : Z; k_delta : Z; k_len : Z; k_type : Z; k_init : bool; k_valid : bool; k_used : Z; k_busy : bool }.
Definition sc0 := mkSC 0 0 0 0 0 false false 0 false.
Definition with_busy k b := mkSC (k_sid k) (k_ts k) (k_delta k) (k_len k) (k_type k) (k_init k) (k_valid k) (k_used k) b.
(** RTMP::Message: m_chunkStream is None for -1 *)
Record qmsg := mkQ { q_msg : msg; q_off : Z; q_cs : option nat }.
Inductive state := Before | Opened | Closing | Closed.
(** m_state, m_sendChunkSize, m_simpleMode, m_sendChunkStreams, m_sendQueues, the output, and a history: what left which queue,
    and whether it was completed *)
Record sender := mkS { w_state : state; w_size : Z; w_simple : bool; w_cs : list schunk; w_q : list (list qmsg); w_out : list Z; w_log : list (nat * msg * bool) }.
Definition NUM_CHUNKSTREAMS : nat := 24.
Definition NUM_PRIORITIES : nat := 8.
Definition s_init := mkS Before 1024 false (repeat sc0 NUM_CHUNKSTREAMS) (repeat [] NUM_PRIORITIES) [] [].
Definition with_state s x := mkS x (w_size s) (w_simple s) (w_cs s) (w_q s) (w_out s) (w_log s).
Definition with_size s x := mkS (w_state s) x (w_simple s) (w_cs s) (w_q s) (w_out s) (w_log s).
Definition with_simple s x := mkS (w_state s) (w_size s) x (w_cs s) (w_q s) (w_out s) (w_log s).
Definition with_cs s x := mkS (w_state s) (w_size s) (w_simple s) x (w_q s) (w_out s) (w_log s).
Definition with_q s x := mkS (w_state s) (w_size s) (w_simple s) (w_cs s) x (w_out s) (w_log s).
Definition put_out s x := mkS (w_state s) (w_size s) (w_simple s) (w_cs s) (w_q s) (w_out s ++ x) (w_log s).
Definition put_log s x := mkS (w_state s) (w_size s) (w_simple s) (w_cs s) (w_q s) (w_out s) (w_log s ++ x).
Fixpoint set_nth {A} (l : list A) (i : nat) (x : A) : list A :=
  match l, i with [], _ => [] | _ :: r, O => x :: r | y :: r, S i => y :: set_nth r i x end.
Definition sget s cid := nth cid (w_cs s) sc0.
Definition sput s cid k := with_cs s (set_nth (w_cs s) cid k).
Definition qget s pri := nth pri (w_q s) [].
Definition qput s pri q := with_q s (set_nth (w_q s) pri q).

(** 361-376: the chunk type *)
Definition chunk_type (simple : bool) (k : schunk) (m : msg) : Z :=
  if k_init k && (wrap32 (g_ts m - k_ts k) <=? 2147483647) && negb simple then
    if g_sid m =? k_sid k then
      if (g_type m =? k_type k) && (zlen (g_data m) =? k_len k) then
        if k_valid k && (g_ts m =? wrap32 (k_ts k + k_delta k)) then 192 else 128
      else 64
    else 0
  else 0.
(** 356-425: queueStartChunk; answers writeAmount too *)
Definition start_chunk (cid : nat) (m : msg) (now : Z) (s : sender) : res (sender * Z) :=
  if negb ((2 <=? cid)%nat && (cid <? NUM_CHUNKSTREAMS)%nat) then UB
  else
    let k := sget s cid in
    let ct := chunk_type (w_simple s) k m in
    let len := zlen (g_data m) in
    let effective := if ct =? 0 then g_ts m else wrap32 (g_ts m - k_ts k) in
    let extended := if effective >=? 16777215 then effective else 0 in
    let field := if extended =? 0 then effective else 16777215 in
    let head := basic_header ct (Z.of_nat cid) ++
      (if ct =? 0 then u24 field ++ u24 len ++ [g_type m] ++ u32le (g_sid m)
       else if ct =? 64 then u24 field ++ u24 len ++ [g_type m]
       else if ct =? 128 then u24 field else []) ++ (if extended =? 0 then [] else u32 extended) in
    let amount := Z.min len (w_size s) in
    let k' := mkSC (g_sid m) (g_ts m) effective len (g_type m) true (negb (ct =? 0)) now (amount <? len) in
    Ok (put_out (sput s cid k') (head ++ firstn (Z.to_nat amount) (g_data m)), amount).
(** 427-447: queueNextChunk *)
Definition next_chunk (cid : nat) (data : list Z) (cursor : Z) (s : sender) : res (sender * Z) :=
  if negb ((2 <=? cid)%nat && (cid <? NUM_CHUNKSTREAMS)%nat) then UB
  else
    let k := sget s cid in
    if negb (k_busy k) then UB
    else
      let head := basic_header 192 (Z.of_nat cid) ++ (if k_delta k >=? 16777215 then u32 (k_delta k) else []) in
      let amount := Z.min (wrap64 (k_len k - cursor)) (w_size s) in
      Ok (put_out (sput s cid (with_busy k (cursor + amount <? k_len k))) (head ++ firstn (Z.to_nat amount) (skipn (Z.to_nat cursor) data)), amount).
(** 449-503: queueControlMessage, and the messages: type and a number of 32 bits *)
Definition control (ty v now : Z) (s : sender) : res sender :=
  ' (s, _) <- start_chunk 2 (mkMsg 0 ty 0 (u32 v)) now s;; Ok s.
Definition queue_set_chunk_size (now : Z) (s : sender) : res sender := control 1 (Z.land (w_size s) 2147483647) now s.
Definition queue_abort (cid : nat) (now : Z) (s : sender) : res sender := control 2 (Z.land (Z.of_nat cid) 16777215) now s.

(** 157-174: setChunkSize *)
Definition set_chunk_size (n now : Z) (s : sender) : res sender :=
  match w_state s with
  | Closing | Closed => Ok s
  | _ =>
      let n := if n <? 128 then 128 else n in
      let n := if n >? 2147483647 then 2147483647 else n in
      if n =? w_size s then Ok s
      else let s := with_size s n in match w_state s with Opened => queue_set_chunk_size now s | _ => Ok s end
  end.
Definition reserved (ty : Z) : bool := (ty =? 1) || (ty =? 2) || (ty =? 3) || (ty =? 5) || (ty =? 6).
Definition may_write (st : state) (m : msg) : bool :=
  match st with Before | Opened => (zlen (g_data m) <=? 16777215) && negb (reserved (g_type m)) | _ => false end.
(** 181-210: write *)
Definition write (pri : nat) (m : msg) (s : sender) : sender :=
  if may_write (w_state s) m then qput s pri (qget s pri ++ [mkQ m 0 None]) else s.
(** 604-639: findChunkStream; [best] is bestSoFar, None for -1 *)
Fixpoint find_loop (s : sender) (m : msg) (l : list nat) (best : option nat) : res nat :=
  match l with
  | [] => match best with Some b => Ok b | None => UB end
  | i :: l =>
      let k := sget s i in
      if negb (k_init k) then Ok i
      else if k_busy k then find_loop s m l best
      else
        let b := match best with Some b => b | None => i end in
        if (g_sid m =? k_sid k) && (g_type m =? k_type k) then Ok i
        else if k_sid k =? g_sid m then
          let b := if k_sid (sget s b) =? g_sid m then b else i in
          let b := if k_used k <? k_used (sget s b) then i else b in
          find_loop s m l (Some b)
        else if negb (k_sid (sget s b) =? g_sid m) && (k_used k <? k_used (sget s b)) then find_loop s m l (Some i)
        else find_loop s m l (Some b)
  end.
Definition find_chunk (s : sender) (m : msg) : res nat :=
  if (g_sid m =? 0) && (g_type m =? 4) && (zlen (g_data m) <=? w_size s) && negb (k_busy (sget s 2)) then Ok 2%nat
  else find_loop s m (seq 3 21) None.
(** 505-536: one turn of the loop in trimSendQueues, for a message that is abandoned *)
Definition trim (pri : nat) (now : Z) (s : sender) : res sender :=
  match qget s pri with
  | [] => Ok s
  | q :: r =>
      s1 <- (match q_cs q with
             | Some cid => if negb (q_off q =? 0) && k_busy (sget s cid) then s1 <- queue_abort cid now s;; Ok (sput s1 cid (with_busy (sget s1 cid) false)) else Ok s
             | None => if q_off q =? 0 then Ok s else UB
             end);;
      Ok (put_log (qput s1 pri r) [(pri, q_msg q, false)])
  end.
(** 561-602: onWritable from the loop over the priorities on *)
Fixpoint pick (s : sender) (n : nat) : option nat :=
  match n with O => None | S n => match qget s n with [] => pick s n | _ => Some n end end.
Definition on_writable (now : Z) (s : sender) : res sender :=
  match w_state s with
  | Opened | Closing =>
      match pick s NUM_PRIORITIES with
      | None => match w_state s with Closing => Ok (with_state s Closed) | _ => Ok s end
      | Some pri =>
          match qget s pri with
          | [] => UB
          | q :: r =>
              ' (s1, cid, off) <-
                (match q_cs q with
                 | None => cid <- find_chunk s (q_msg q);; ' (s1, n) <- start_chunk cid (q_msg q) now s;; Ok (s1, cid, n)
                 | Some cid => ' (s1, n) <- next_chunk cid (g_data (q_msg q)) (q_off q) s;; Ok (s1, cid, q_off q + n)
                 end);;
              if k_busy (sget s1 cid) then Ok (qput s1 pri (mkQ (q_msg q) off (Some cid) :: r))
              else Ok (put_log (qput s1 pri r) [(pri, q_msg q, true)])
          end
      end
  | _ => Ok s
  end.
(** What can happen to a sender, with the time: the handshake is done; the user's calls; a message is abandoned; something can
    be written; an acknowledgement or a window size is sent (3 or 5, only when open) *)
Inductive sop := SOpen (now : Z) | SWrite (pri : nat) (m : msg) | SSize (n now : Z) | SSimple (b : bool) | SClose
  | STrim (pri : nat) (now : Z) | SWritable (now : Z) | SAckn (v now : Z) | SWindow (v now : Z).
Definition sstep (s : sender) (o : sop) : res sender :=
  match o with
  | SOpen now => match w_state s with Before => let s := with_state s Opened in if w_size s =? 128 then Ok s else queue_set_chunk_size now s | _ => Ok s end
  | SWrite pri m => Ok (write pri m s)
  | SSize n now => set_chunk_size n now s
  | SSimple b => Ok (with_simple s b)
  | SClose => match w_state s with Opened => Ok (with_state s Closing) | Closing => Ok s | _ => Ok (with_state s Closed) end
  | STrim pri now => match w_state s with Closed => Ok s | _ => trim pri now s end
  | SWritable now => on_writable now s
  | SAckn v now => match w_state s with Opened | Closing => control 3 v now s | _ => Ok s end
  | SWindow v now => match w_state s with Opened | Closing => control 5 v now s | _ => Ok s end
  end.
Fixpoint srun (s : sender) (l : list sop) : res sender := match l with [] => Ok s | o :: l => s <- sstep s o;; srun s l end.

(** ** The receiver *)
(** RecvChunkStreamState *)
Record rchunk := mkRC { c_sid : Z; c_ts : Z; c_delta : Z; c_len : Z; c_type : Z; c_init : bool; c_data : list Z }.
Definition rc0 := mkRC 0 0 0 0 0 false [].
Definition with_data c d := mkRC (c_sid c) (c_ts c) (c_delta c) (c_len c) (c_type c) (c_init c) d.
(** m_recvChunkStreams, m_recvChunkSize, m_inputBuffer, whether the connection was closed for a protocol error, and the messages
    given to onmessage *)
Record receiver := mkR { r_cs : list (Z * rchunk); r_size : Z; r_buf : list Z; r_dead : bool; r_msgs : list msg }.
Definition r_init := mkR [] 128 [] false [].
Fixpoint rfind (l : list (Z * rchunk)) (cid : Z) : rchunk := match l with [] => rc0 | (i, c) :: l => if cid =? i then c else rfind l cid end.
Definition rget r cid := rfind (r_cs r) cid.
Definition rput r cid c := mkR ((cid, c) :: r_cs r) (r_size r) (r_buf r) (r_dead r) (r_msgs r).
Definition with_rsize r n := mkR (r_cs r) n (r_buf r) (r_dead r) (r_msgs r).
Definition with_buf r b := mkR (r_cs r) (r_size r) b (r_dead r) (r_msgs r).
Definition kill r := mkR (r_cs r) (r_size r) (r_buf r) true (r_msgs r).
Definition deliver r m := mkR (r_cs r) (r_size r) (r_buf r) (r_dead r) (r_msgs r ++ [m]).

(** 648-788: onMessageCompleted; None: answers false *)
Definition completed (m : msg) (r : receiver) : res (option receiver) :=
  if reserved (g_type m) then
    if negb (g_sid m =? 0) then Ok None
    else if zlen (g_data m) <? 4 then Ok None
    else
      v <- rd32 (g_data m) 0;;
      if g_type m =? 1 then if (v =? 0) || (v >? 2147483647) then Ok None else Ok (Some (with_rsize r v))
      else if g_type m =? 2 then
        if (v <? 2) || (v >? 65599) then Ok None
        else if negb (c_init (rget r v)) then Ok None else Ok (Some (rput r v (with_data (rget r v) [])))
      else if g_type m =? 6 then if zlen (g_data m) <? 5 then Ok None else Ok (Some r)
      else Ok (Some r)
  else Ok (Some (deliver r m)).
(** 822-965: onOpenInput: wait for more (0), an error (-1), or the new state and how much was consumed.  A read outside the
    buffer or a failed assertion is [UB]. *)
Inductive input := Wait | Bad | Took (r : receiver) (n : Z).
(** 910-942: the new state of the chunk stream *)
Definition update (ct : Z) (c : rchunk) (sid ts len ty : Z) : rchunk :=
  if ct =? 0 then mkRC sid ts ts len ty true []
  else if ct =? 64 then mkRC (c_sid c) (wrap32 (c_ts c + ts)) ts len ty (c_init c) []
  else if ct =? 128 then mkRC (c_sid c) (wrap32 (c_ts c + ts)) ts (c_len c) (c_type c) (c_init c) []
  else mkRC (c_sid c) (if zlen (c_data c) =? 0 then wrap32 (c_ts c + ts) else c_ts c) ts (c_len c) (c_type c) (c_init c) (c_data c).
(** 952-964: from the last assertion on, with the payload added *)
Definition chunk_done (r : receiver) (cid : Z) (c : rchunk) (need : Z) : res input :=
  if zlen (c_data c) >? c_len c then UB
  else
    let r1 := rput r cid c in
    if zlen (c_data c) =? c_len c then
      o <- completed (mkMsg (c_sid c) (c_type c) (c_ts c) (c_data c)) r1;;
      match o with None => Ok Bad | Some r2 => Ok (Took (rput r2 cid (with_data (rget r2 cid) [])) need) end
    else Ok (Took r1 need).
Definition on_open_input (r : receiver) (buf : list Z) : res input :=
  b0 <- rd buf 0;;
  let ct := Z.land b0 192 in
  let low := Z.land b0 63 in
  let idl := if low <? 2 then if low =? 1 then 2%nat else 1%nat else 0%nat in
  let hdr := 1 + Z.of_nat idl + (if ct =? 0 then 11 else if ct =? 64 then 7 else if ct =? 128 then 3 else 0) in
  let remaining := zlen buf in
  if remaining <? hdr then Ok Wait
  else
    cid <- (if low =? 0 then b <- rd buf 1;; Ok (b + 64)
            else if low =? 1 then b <- rd buf 1;; b2 <- rd buf 2;; Ok (b + Z.shiftl b2 8 + 64)
            else Ok low);;
    let c := rget r cid in
    if negb (c_init c) && negb (ct =? 0) then Ok Bad
    else
      ' (ts, p) <- (if ct <? 192 then t <- rd24 buf (1 + idl);; Ok (t, (4 + idl)%nat) else Ok (c_delta c, (1 + idl)%nat));;
      ' (len, ty, p) <- (if ct <? 128 then l <- rd24 buf p;; t <- rd buf (p + 3);; Ok (l, t, (p + 4)%nat) else Ok (c_len c, c_type c, p));;
      let left := if ct =? 192 then wrap64 (len - zlen (c_data c)) else len in
      let n := Z.min (r_size r) left in
      if remaining <? hdr + n then Ok Wait
      else
        ' (sid, p) <- (if ct <? 64 then
                         a <- rd buf p;; b <- rd buf (p + 1);; d <- rd buf (p + 2);; e <- rd buf (p + 3);;
                         Ok (wrap32 (a + Z.shiftl b 8 + Z.shiftl d 16 + Z.shiftl e 24), (p + 4)%nat)
                       else Ok (c_sid c, p));;
        let ext := ts >=? 16777215 in
        let need := if ext then hdr + n + 4 else hdr + n in
        if ext && (remaining <? need) then Ok Wait
        else
          ' (ts, p) <- (if (ext : bool) then t <- rd32 buf p;; Ok (t, (p + 4)%nat) else Ok (ts, p));;
          if (remaining <? Z.of_nat p + n) || negb (Z.of_nat p + n =? need) then UB
          else
            let c1 := update ct c sid ts len ty in
            chunk_done r cid (with_data c1 (c_data c1 ++ firstn (Z.to_nat n) (skipn p buf))) need.
(** 293-330: onReceiveBytes; [fuel] bounds the loop, running out is [UB] *)
Fixpoint input_loop (fuel : nat) (r : receiver) : res receiver :=
  match r_buf r with
  | [] => Ok r
  | buf =>
      match fuel with
      | O => UB
      | S fuel =>
          i <- on_open_input r buf;;
          match i with Wait => Ok r | Bad => Ok (kill r) | Took r1 n => input_loop fuel (with_buf r1 (skipn (Z.to_nat n) buf)) end
      end
  end.
Definition receive (r : receiver) (bytes : list Z) : res receiver :=
  if r_dead r then Ok r else let r := with_buf r (r_buf r ++ bytes) in input_loop (length (r_buf r)) r.
Fixpoint receives (r : receiver) (l : list (list Z)) : res receiver := match l with [] => Ok r | b :: l => r <- receive r b;; receives r l end.
