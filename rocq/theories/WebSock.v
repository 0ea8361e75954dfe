(** Model of the WebSocket server (test/SimpleWebSocket.cpp 21-719, class SimpleWebSocket and its bases).
    Simplified: the raw output buffer and onWritable are left out: what is written while the stream is not in error is an event, in order, as if it were
    sent at once.  All the callbacks are set at the start.  What the application does in a callback is any function of what has happened so far. *)
From Verif Require Import Base Hex URI URIParse.
Open Scope res_scope.

(** 76-118: _base64enc with padding; reading beyond the alphabet is undefined *)
Definition alphabet : list Z :=
  [65;66;67;68;69;70;71;72;73;74;75;76;77;78;79;80;81;82;83;84;85;86;87;88;89;90;97;98;99;100;101;102;103;104;105;106;107;108;109;110;111;112;113;114;
   115;116;117;118;119;120;121;122;48;49;50;51;52;53;54;55;56;57;43;47].
Definition sym (b : Z) : res Z := match nth_error alphabet (Z.to_nat b) with Some c => Ok c | None => UB end.
Fixpoint base64enc (l : list Z) : res (list Z) :=
  match l with
  | [] => Ok []
  | x :: l1 =>
      a <- sym (Z.shiftr x 2);;
      let b := Z.shiftl (Z.land x 3) 4 in
      match l1 with
      | [] => c <- sym b;; Ok [a; c; 61; 61]
      | y :: l2 =>
          c <- sym (wrap8 (b + Z.shiftr y 4));;
          let b := Z.shiftl (Z.land y 15) 2 in
          match l2 with
          | [] => d <- sym b;; Ok [a; c; d; 61]
          | z :: l3 => d <- sym (wrap8 (b + Z.shiftr z 6));; e <- sym (Z.land z 63);; r <- base64enc l3;; Ok (a :: c :: d :: e :: r)
          end
      end
  end.

(** 456-536: onInput.  [rd b i]: the byte at cursor [i]; beyond the limit it is undefined *)
Definition rd (b : list Z) (i : Z) : res Z := if (0 <=? i) && (i <? zlen b) then Ok (nth (Z.to_nat i) b 0) else UB.
(** 482-497, 506-512: the loops written out: shift by 8, add; [w] wraps to the width of the variable *)
Fixpoint be_read (w : Z -> Z) (n : nat) (b : list Z) (i acc : Z) : res Z :=
  match n with O => Ok acc | S k => x <- rd b i;; be_read w k b (i + 1) (w (w (Z.shiftl acc 8) + x)) end.
(** 519-528 *)
Fixpoint unmask (n : nat) (b : list Z) (i mask shift : Z) : res (list Z) :=
  match n with
  | O => Ok []
  | S k =>
      x <- rd b i;;
      let shift' := shift - 8 in
      r <- unmask k b (i + 1) mask (if shift' <? 0 then 24 else shift');;
      Ok (Z.lxor x (Z.land (Z.shiftr mask shift) 255) :: r)
  end.
(** 533: the payload in place *)
Fixpoint copy (n : nat) (b : list Z) (i : Z) : res (list Z) :=
  match n with O => Ok [] | S k => x <- rd b i;; r <- copy k b (i + 1);; Ok (x :: r) end.
Inductive input := More | TooBig | Frame (op : Z) (fin : bool) (payload : list Z) (needed : Z).
Definition WS_MAX_FRAME : Z := 16777216.
Definition parse (b : list Z) : res input :=
  let remaining := zlen b in
  if remaining <? 2 then Ok More else
  b0 <- rd b 0;; b1 <- rd b 1;;
  let fin := negb (Z.land b0 128 =? 0) in
  let op := Z.land b0 15 in
  let hasMask := negb (Z.land b1 128 =? 0) in
  let len7 := Z.land b1 127 in
  let needed := 2 + (if hasMask then 4 else 0) + (if len7 =? 126 then 2 else if len7 =? 127 then 8 else 0) in
  if remaining <? needed then Ok More else
  ' (len, cur) <- (if len7 =? 126 then l <- be_read wrap64 2 b 2 0;; Ok (l, 4)
                   else if len7 =? 127 then l <- be_read wrap64 8 b 2 0;; Ok (l, 10) else Ok (len7, 2));;
  if WS_MAX_FRAME <? len then Ok TooBig else
  let needed := needed + len in
  if remaining <? needed then Ok More else
  if hasMask then
    mask <- be_read wrap32 4 b cur 0;; p <- unmask (Z.to_nat len) b (cur + 4) mask 24;; Ok (Frame op fin p needed)
  else p <- copy (Z.to_nat len) b cur;; Ok (Frame op fin p needed).

(** 681-717: the frame made by writeFrame; a null [bytes] (cleanClose) has length zero *)
Definition make_frame (op : Z) (p : list Z) : list Z :=
  let len := zlen p in
  let field := if 65535 <? len then 127 else if 125 <? len then 126 else len in
  [Z.lor 128 (Z.land op 15); Z.lor 0 field]
  ++ (if field =? 127 then map (fun k => Z.land (Z.shiftr len k) 255) [56; 48; 40; 32; 24; 16; 8; 0]
      else if field =? 126 then map (fun k => Z.land (Z.shiftr len k) 255) [8; 0] else [])
  ++ p.

(** What can be seen from outside: bytes written, the callbacks, the platform being told to close *)
Inductive ev := EvOut (b : list Z) | EvHeaders | EvOpen | EvText (m : list Z) | EvBin (m : list Z) | EvDown | EvError.
(** What an application can do: sendTextMessage, sendBinaryMessage, cleanClose, shutdown, close *)
Inductive act := ASendText (m : list Z) | ASendBin (m : list Z) | ACleanClose | AShutdown | AClose.
(** SimpleWebSocket.hpp 50-84, 117-122; [st]: 0 open, 1 closing, 2 error; [cbs]: the callbacks are set; m_headers are the pairs in the order of push_back *)
Record ws := mkWs {
  st : Z; hdr : bool; cbs : bool; gotnl : bool; block : list Z; startl : list Z; heads : list (list Z * list Z);
  closing : bool; inbuf : list Z; frag : list Z; fragop : Z; tr : list ev }.
Definition ws0 : ws := mkWs 0 false true false [] [] [] false [] [] (-1) [].
Definition emit (e : ev) (s : ws) : ws :=
  mkWs (st s) (hdr s) (cbs s) (gotnl s) (block s) (startl s) (heads s) (closing s) (inbuf s) (frag s) (fragop s) (tr s ++ [e]).
Definition set_st (x : Z) (s : ws) : ws :=
  mkWs x (hdr s) (cbs s) (gotnl s) (block s) (startl s) (heads s) (closing s) (inbuf s) (frag s) (fragop s) (tr s).
Definition clear_cbs (s : ws) : ws :=
  mkWs (st s) (hdr s) false (gotnl s) (block s) (startl s) (heads s) (closing s) (inbuf s) (frag s) (fragop s) (tr s).
Definition set_closing (s : ws) : ws :=
  mkWs (st s) (hdr s) (cbs s) (gotnl s) (block s) (startl s) (heads s) true (inbuf s) (frag s) (fragop s) (tr s).
Definition set_inbuf (b : list Z) (s : ws) : ws :=
  mkWs (st s) (hdr s) (cbs s) (gotnl s) (block s) (startl s) (heads s) (closing s) b (frag s) (fragop s) (tr s).
Definition set_frag (p : list Z) (o : Z) (s : ws) : ws :=
  mkWs (st s) (hdr s) (cbs s) (gotnl s) (block s) (startl s) (heads s) (closing s) (inbuf s) p o (tr s).
Definition set_scan (nl : bool) (b : list Z) (s : ws) : ws :=
  mkWs (st s) (hdr s) (cbs s) nl b (startl s) (heads s) (closing s) (inbuf s) (frag s) (fragop s) (tr s).
Definition set_heads (l : list Z) (h : list (list Z * list Z)) (s : ws) : ws :=
  mkWs (st s) true (cbs s) (gotnl s) (block s) l h (closing s) (inbuf s) (frag s) (fragop s) (tr s).

(** 165-171: writeBytes; in error nothing is scheduled or written (228-236, 259-268) *)
Definition write (b : list Z) (s : ws) : ws := if st s <? 2 then emit (EvOut b) s else s.

(** 409-413 *)
Definition clean_close (s : ws) : ws := set_closing (write (make_frame 8 []) s).

Section App.
  Variable app : list ev -> list act.
  Variable sha1 : list Z -> list Z.

  (** 148-163 (close, shutdown), 394-413: none of these calls the application, for close clears the callbacks first *)
  Definition perform (a : act) (s : ws) : ws :=
    match a with
    | ASendText m => write (make_frame 1 m) s
    | ASendBin m => write (make_frame 2 m) s
    | ACleanClose => clean_close s
    | AShutdown => if st s <? 1 then set_st 1 s else s
    | AClose => let s := clear_cbs s in if st s <? 2 then emit EvDown (set_st 2 s) else s
    end.
  Definition react (s : ws) : ws := fold_left (fun s a => perform a s) (app (tr s)) s.
  (** a callback, if it is still set *)
  Definition call (e : ev) (s : ws) : ws := if cbs s then react (emit e s) else s.
  (** 213-226: setClosedState *)
  Definition set_closed (s : ws) : ws :=
    if st s <? 2 then
      let s1 := clear_cbs (emit EvDown (set_st 2 s)) in
      if cbs s then react (emit EvError s1) else s1
    else clear_cbs s.

  (** 599-629 *)
  Definition on_message (op : Z) (fin : bool) (p : list Z) (s : ws) : ws :=
    if 0 <? fragop s then set_closed s
    else if negb fin then set_frag (frag s ++ p) op s
    else if op =? 1 then call (EvText p) s
    else if op =? 2 then call (EvBin p) s
    else s.
  (** 564-580 *)
  Definition on_continuation (fin : bool) (p : list Z) (s : ws) : ws :=
    if fragop s <? 0 then set_closed s
    else
      let m := frag s ++ p in
      if fin then
        let s1 := on_message (fragop s) true m (set_frag m (-1) s) in
        set_frag [] (fragop s1) s1
      else set_frag m (fragop s) s.
  (** 538-562, 582-597 *)
  Definition on_frame (op : Z) (fin : bool) (p : list Z) (s : ws) : ws :=
    if op =? 0 then on_continuation fin p s
    else if op =? 9 then write (make_frame 10 p) s
    else if op =? 10 then s
    else if op =? 8 then (if closing s then set_closed s else clean_close s)
    else on_message op fin p s.

  (** 424-435: the loop of onBodyBytes; the answer is what is left of the input, or none after -1 *)
  Fixpoint body_loop (fuel : nat) (rest : list Z) (s : ws) : res (ws * option (list Z)) :=
    match fuel with
    | O => UB
    | S k =>
        match rest with
        | [] => Ok (s, Some [])
        | _ =>
            i <- parse rest;;
            match i with
            | TooBig => Ok (set_closed s, None)
            | More => Ok (s, Some rest)
            | Frame op fin p needed => body_loop k (skipn (Z.to_nat needed) rest) (on_frame op fin p s)
            end
        end
    end.
  (** 415-454: onBodyBytes, shiftInputBuffer; nothing in the loop looks at the buffer but the loop itself *)
  Definition on_body (bytes : list Z) (s : ws) : res ws :=
    let buf := inbuf s ++ bytes in
    ' (s1, left_) <- body_loop (S (length buf)) buf s;;
    Ok (match left_ with Some r => set_inbuf r s1 | None => set_inbuf buf s1 end).

  (** 33-36 with the patterns of 349-351: CR LF by LF; then CR by a blank; then LF and blank or tab by a blank *)
  Fixpoint crlf (s : list Z) : list Z :=
    match s with
    | x :: t => if x =? 13 then match t with y :: u => if y =? 10 then 10 :: crlf u else x :: crlf t | [] => [x] end else x :: crlf t
    | [] => []
    end.
  Definition cr (s : list Z) : list Z := map (fun x => if x =? 13 then 32 else x) s.
  Fixpoint fold_lines (s : list Z) : list Z :=
    match s with
    | x :: t => if x =? 10 then match t with y :: u => if (y =? 32) || (y =? 9) then 32 :: fold_lines u else x :: fold_lines t | [] => [x] end
                else x :: fold_lines t
    | [] => []
    end.
  (** 38-48: _trim; isspace of a negative char other than EOF (-1) is undefined *)
  Definition space (x : Z) : res bool := if x <? -1 then UB else Ok ((x =? 32) || ((9 <=? x) && (x <=? 13))).
  Fixpoint trim_left (s : list Z) : res (list Z) :=
    match s with [] => Ok [] | x :: t => b <- space x;; if (b : bool) then trim_left t else Ok s end.
  Definition trim (s : list Z) : res (list Z) := l <- trim_left s;; r <- trim_left (rev l);; Ok (rev r).
  (** 50-74, 306-312: isToken *)
  Definition tchar (x : Z) : res bool :=
    if existsb (Z.eqb x) [33; 35; 36; 37; 38; 39; 42; 43; 45; 46; 94; 95; 96; 124; 126] then Ok true
    else if x <? -1 then UB else Ok (digit x || alpha x).
  Fixpoint tchars (s : list Z) : res bool :=
    match s with [] => Ok true | x :: t => b <- tchar x;; if (b : bool) then tchars t else Ok false end.
  Definition is_token (s : list Z) : res bool := b <- tchars s;; Ok ((b : bool) && negb (isnil s)).

  (** 282-304: getHeader, for a name in lower case *)
  Definition header (n : list Z) (s : ws) : list Z :=
    (fix go (first : bool) (l : list (list Z)) {struct l} : list Z :=
      match l with [] => [] | v :: r => (if first then [] else [44]) ++ v ++ go false r end)
    true (map snd (filter (fun h => str_eqb (fst h) n) (heads s))).
  (** std::string::find *)
  Fixpoint contains (p s : list Z) : bool := prefixb p s || match s with [] => false | _ :: t => contains p t end.

  Definition t_get := [71; 69; 84].
  Definition t_key := [115;101;99;45;119;101;98;115;111;99;107;101;116;45;107;101;121].
  Definition t_upgrade := [117;112;103;114;97;100;101].
  Definition t_websocket := [119;101;98;115;111;99;107;101;116].
  Definition t_connection := [99;111;110;110;101;99;116;105;111;110].
  Definition t_version := [115;101;99;45;119;101;98;115;111;99;107;101;116;45;118;101;114;115;105;111;110].
  Definition t_13 := [49; 51].
  (** 258EAFA5-E914-47DA-95CA-C5AB0DC85B11 *)
  Definition t_guid := [50;53;56;69;65;70;65;53;45;69;57;49;52;45;52;55;68;65;45;57;53;67;65;45;67;53;65;66;48;68;67;56;53;66;49;49].
  (** 668-674: the answer before and after the accept text *)
  Definition t_answer :=
    [72;84;84;80;47;49;46;49;32;49;48;49;32;83;119;105;116;99;104;105;110;103;32;80;114;111;116;111;99;111;108;115;13;10;
     85;112;103;114;97;100;101;58;32;119;101;98;115;111;99;107;101;116;13;10;
     67;111;110;110;101;99;116;105;111;110;58;32;85;112;103;114;97;100;101;13;10;
     83;101;99;45;87;101;98;83;111;99;107;101;116;45;65;99;99;101;112;116;58;32].
  Definition of_char (x : Z) : Z := x mod 256.
  (** 640-679: onHeadersComplete; the conditions are evaluated one after the other *)
  Definition on_headers (s : ws) : res ws :=
    let s := call EvHeaders s in
    start <- uri_split (startl s) [32] 0;;
    match start with
    | [m; _; _] =>
        if negb (str_eqb m t_get) then Ok (set_closed s)
        else
          let key := header t_key s in
          up <- lowercase (header t_upgrade s);;
          if negb (str_eqb up t_websocket) then Ok (set_closed s) else
          conn <- lowercase (header t_connection s);;
          if negb (contains t_upgrade conn) || negb (str_eqb (header t_version s) t_13) || isnil key then Ok (set_closed s)
          else
            acc <- base64enc (sha1 (map of_char (key ++ t_guid)));;
            Ok (call EvOpen (write (t_answer ++ acc ++ [13; 10; 13; 10]) s))
    | _ => Ok (set_closed s)
    end.
  (** 353-373: the lines after the first; the answer is false after setClosedState *)
  Fixpoint parse_lines (lines : list (list Z)) (h : list (list Z * list Z)) : res (bool * list (list Z * list Z)) :=
    match lines with
    | [] => Ok (true, h)
    | l :: r =>
        if isnil l then parse_lines r h else
        parts <- uri_split l [58] 2;;
        match parts with
        | [n; v] =>
            b <- is_token n;;
            if (b : bool) then n' <- lowercase n;; v' <- trim v;; parse_lines r (h ++ [(n', v')]) else Ok (false, h)
        | _ => Ok (false, h)
        end
    end.
  (** 345-376: parseHeaderBlock *)
  Definition parse_block (s : ws) : res ws :=
    let tmp := fold_lines (cr (crlf (block s))) in
    lines <- uri_split tmp [10] 0;;
    match lines with
    | [] => on_headers (set_heads (startl s) (heads s) s)
    | first :: r =>
        ' (good, h) <- parse_lines r (heads s);;
        let s1 := set_heads first h s in
        if (good : bool) then on_headers s1 else Ok (set_closed s1)
    end.
  (** 314-337: onHeaderBytes; what is left after the header block *)
  Fixpoint on_header (bytes : list Z) (s : ws) : res (ws * list Z) :=
    match bytes with
    | [] => Ok (s, [])
    | x :: t =>
        let b := block s ++ [to_char x] in
        if x =? 10 then
          if gotnl s then s1 <- parse_block (set_scan true b s);; Ok (s1, t) else on_header t (set_scan true b s)
        else on_header t (set_scan (if negb (x =? 13) then false else gotnl s) b s)
    end.
  (** 183-199: onReceiveBytes *)
  Fixpoint receive_loop (fuel : nat) (bytes : list Z) (s : ws) : res ws :=
    match fuel with
    | O => UB
    | S k =>
        if (st s <? 1) && negb (isnil bytes) then
          if hdr s then s1 <- on_body bytes s;; receive_loop k [] s1
          else ' (s1, r) <- on_header bytes s;; receive_loop k r s1
        else Ok s
    end.
  Definition receive (bytes : list Z) (s : ws) : res ws := receive_loop 3 bytes s.
End App.
