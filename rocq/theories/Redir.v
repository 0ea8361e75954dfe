(** Model of RedirectorClient (src/RedirectorClient.cpp, include/rtmfp/RedirectorClient.hpp): an endpoint that registers with a
    redirector (load balancer).  Times are integers (the unit does not matter, [SECOND] of them make a second); the flow it sends on is
    modelled by what the client can see of it.  The application's callbacks are the lists of calls they make, given with the event that
    runs them.  Left out: a callback that destroys the client, and the callbacks' own closures (close() clears the std::function
    that is running). *)
From Verif Require Import Base VLU Address.
Open Scope res_scope.

(** RedirectorClient.hpp 63-70 *)
Inductive status := IDLE | CONNECTING | CONNECTED | DISCONNECTED | DISCONNECTED_BAD_AUTH | CLOSED.
Definition status_eqb (a b : status) : bool :=
  match a, b with
  | IDLE, IDLE | CONNECTING, CONNECTING | CONNECTED, CONNECTED | DISCONNECTED, DISCONNECTED
  | DISCONNECTED_BAD_AUTH, DISCONNECTED_BAD_AUTH | CLOSED, CLOSED => true
  | _, _ => false
  end.
(** RedirectorClient.hpp 85-106 *)
Definition CMD_SIMPLE_AUTH := 29.
Definition CMD_SETTINGS := 5.
Definition CMD_DRAINING := 0.
Definition CMD_LOAD_FACTOR := 15.
Definition CMD_REFLEXIVE_ADDR_REPORT := 13.
Definition CMD_USER_DATA := 16.
Definition SETTINGS_OPT_INCLUDE_REFLEXIVE := 13.
Definition SETTINGS_OPT_ADD_ADDRESS := 10.
Definition EXCEPTION_BAD_AUTH := 10.

(** RedirectorClient.cpp 11: the 37 characters of the signature (the array has a terminating zero as well) *)
Definition signature : list Z :=
  [104; 116; 116; 112; 58; 47; 47; 122; 101; 110; 111; 109; 116; 46; 99; 111; 109; 47; 110; 115; 47; 114; 116; 109; 102; 112; 35;
   114; 101; 100; 105; 114; 101; 99; 116; 111; 114].
(** 12: minimumReconnectIntervalLimit *)
Definition SECOND := 1000000.
Definition RECONNECT_LIMIT := 5 * SECOND.
(** 224-227: makeFlowMetadata *)
Definition make_metadata : list Z := signature.
(** 229-236: checkFlowMetadata; sizeof(signature) is 38 *)
Definition check_metadata (m : list Z) : bool :=
  let sizeof := 38%nat in
  if Nat.leb sizeof (length m) then memcmp (signature ++ [0]) (firstn sizeof m) =? 0
  else if Nat.ltb (length m) (sizeof - 1) then false
  else memcmp signature (firstn (sizeof - 1) m) =? 0.

(** std::set<Address>: kept sorted by operator<; insert does nothing when an equivalent element is there *)
Fixpoint set_insert (a : addr) (l : list addr) : list addr :=
  match l with
  | [] => [a]
  | b :: r => if addr_lt a b then a :: l else if addr_lt b a then b :: set_insert a r else l
  end.
Definition set_erase (a : addr) (l : list addr) : list addr := filter (fun b => addr_lt a b || addr_lt b a) l.
(** std::map<Bytes, Bytes>: operator[] and assignment, kept sorted by key *)
Fixpoint lex_lt (a b : list Z) : bool :=
  match a, b with
  | _, [] => false
  | [], _ => true
  | x :: a, y :: b => if x <? y then true else if y <? x then false else lex_lt a b
  end.
Fixpoint map_set (k v : list Z) (m : list (list Z * list Z)) : list (list Z * list Z) :=
  match m with
  | [] => [(k, v)]
  | (k', v') :: r => if lex_lt k k' then (k, v) :: m else if lex_lt k' k then (k', v') :: map_set k v r else (k', v) :: r
  end.

(** What the client sees of its SendFlow and of the session it is bound to: the far nonce, whether onWritable is still to be called,
    the messages written so far, the candidate addresses, and the session's keepalive period, retransmit limit and FIHello mode.
    [f_pre] and [f_creds] are not in the code: how many messages were written before the authentication messages, and the keys
    those were made from. *)
Record sflow := mkSf {
  f_nonce : list Z; f_notify : bool; f_out : list (list Z); f_cands : list addr; f_ses : Z * Z * Z;
  f_pre : nat; f_creds : list (list Z * list Z) }.

(** RedirectorClient.hpp 23, 122-145; c_cb says whether the three callbacks are still set, c_attempts lists the times of the connection
    attempts, latest first (not in the code) *)
Record cli := mkCli {
  c_status : status; c_active : bool; c_paused : bool; c_fi : Z; c_adv : bool;
  c_load : Z; c_interval : Z; c_changed : bool; c_ltimer : option Z;
  c_raddrs : list addr; c_addrs : list addr; c_refl : addr; c_reflok : bool; c_rl : Z; c_ka : Z;
  c_auth : list (list Z * list Z); c_send : option sflow; c_recv : bool; c_rtimer : option Z; c_minre : Z;
  c_cb : bool; c_attempts : list Z }.
(** the initial values of the header *)
Definition cli_new : cli :=
  mkCli IDLE true false 0 true 0 0 false None [] [] addr_erased false (10 * SECOND) (10 * SECOND) [] None false None (30 * SECOND) true [].

(** Field updates *)
Definition w_status (c : cli) x := mkCli x (c_active c) (c_paused c) (c_fi c) (c_adv c) (c_load c) (c_interval c) (c_changed c) (c_ltimer c) (c_raddrs c) (c_addrs c) (c_refl c) (c_reflok c) (c_rl c) (c_ka c) (c_auth c) (c_send c) (c_recv c) (c_rtimer c) (c_minre c) (c_cb c) (c_attempts c).
Definition w_active (c : cli) x := mkCli (c_status c) x (c_paused c) (c_fi c) (c_adv c) (c_load c) (c_interval c) (c_changed c) (c_ltimer c) (c_raddrs c) (c_addrs c) (c_refl c) (c_reflok c) (c_rl c) (c_ka c) (c_auth c) (c_send c) (c_recv c) (c_rtimer c) (c_minre c) (c_cb c) (c_attempts c).
Definition w_paused (c : cli) x := mkCli (c_status c) (c_active c) x (c_fi c) (c_adv c) (c_load c) (c_interval c) (c_changed c) (c_ltimer c) (c_raddrs c) (c_addrs c) (c_refl c) (c_reflok c) (c_rl c) (c_ka c) (c_auth c) (c_send c) (c_recv c) (c_rtimer c) (c_minre c) (c_cb c) (c_attempts c).
Definition w_fi (c : cli) x := mkCli (c_status c) (c_active c) (c_paused c) x (c_adv c) (c_load c) (c_interval c) (c_changed c) (c_ltimer c) (c_raddrs c) (c_addrs c) (c_refl c) (c_reflok c) (c_rl c) (c_ka c) (c_auth c) (c_send c) (c_recv c) (c_rtimer c) (c_minre c) (c_cb c) (c_attempts c).
Definition w_adv (c : cli) x := mkCli (c_status c) (c_active c) (c_paused c) (c_fi c) x (c_load c) (c_interval c) (c_changed c) (c_ltimer c) (c_raddrs c) (c_addrs c) (c_refl c) (c_reflok c) (c_rl c) (c_ka c) (c_auth c) (c_send c) (c_recv c) (c_rtimer c) (c_minre c) (c_cb c) (c_attempts c).
Definition w_load (c : cli) l i ch t := mkCli (c_status c) (c_active c) (c_paused c) (c_fi c) (c_adv c) l i ch t (c_raddrs c) (c_addrs c) (c_refl c) (c_reflok c) (c_rl c) (c_ka c) (c_auth c) (c_send c) (c_recv c) (c_rtimer c) (c_minre c) (c_cb c) (c_attempts c).
Definition w_raddrs (c : cli) x := mkCli (c_status c) (c_active c) (c_paused c) (c_fi c) (c_adv c) (c_load c) (c_interval c) (c_changed c) (c_ltimer c) x (c_addrs c) (c_refl c) (c_reflok c) (c_rl c) (c_ka c) (c_auth c) (c_send c) (c_recv c) (c_rtimer c) (c_minre c) (c_cb c) (c_attempts c).
Definition w_addrs (c : cli) x := mkCli (c_status c) (c_active c) (c_paused c) (c_fi c) (c_adv c) (c_load c) (c_interval c) (c_changed c) (c_ltimer c) (c_raddrs c) x (c_refl c) (c_reflok c) (c_rl c) (c_ka c) (c_auth c) (c_send c) (c_recv c) (c_rtimer c) (c_minre c) (c_cb c) (c_attempts c).
Definition w_refl (c : cli) a ok := mkCli (c_status c) (c_active c) (c_paused c) (c_fi c) (c_adv c) (c_load c) (c_interval c) (c_changed c) (c_ltimer c) (c_raddrs c) (c_addrs c) a ok (c_rl c) (c_ka c) (c_auth c) (c_send c) (c_recv c) (c_rtimer c) (c_minre c) (c_cb c) (c_attempts c).
Definition w_ses (c : cli) rl ka := mkCli (c_status c) (c_active c) (c_paused c) (c_fi c) (c_adv c) (c_load c) (c_interval c) (c_changed c) (c_ltimer c) (c_raddrs c) (c_addrs c) (c_refl c) (c_reflok c) rl ka (c_auth c) (c_send c) (c_recv c) (c_rtimer c) (c_minre c) (c_cb c) (c_attempts c).
Definition w_auth (c : cli) x := mkCli (c_status c) (c_active c) (c_paused c) (c_fi c) (c_adv c) (c_load c) (c_interval c) (c_changed c) (c_ltimer c) (c_raddrs c) (c_addrs c) (c_refl c) (c_reflok c) (c_rl c) (c_ka c) x (c_send c) (c_recv c) (c_rtimer c) (c_minre c) (c_cb c) (c_attempts c).
Definition w_send (c : cli) x := mkCli (c_status c) (c_active c) (c_paused c) (c_fi c) (c_adv c) (c_load c) (c_interval c) (c_changed c) (c_ltimer c) (c_raddrs c) (c_addrs c) (c_refl c) (c_reflok c) (c_rl c) (c_ka c) (c_auth c) x (c_recv c) (c_rtimer c) (c_minre c) (c_cb c) (c_attempts c).
Definition w_recv (c : cli) x := mkCli (c_status c) (c_active c) (c_paused c) (c_fi c) (c_adv c) (c_load c) (c_interval c) (c_changed c) (c_ltimer c) (c_raddrs c) (c_addrs c) (c_refl c) (c_reflok c) (c_rl c) (c_ka c) (c_auth c) (c_send c) x (c_rtimer c) (c_minre c) (c_cb c) (c_attempts c).
Definition w_rtimer (c : cli) x := mkCli (c_status c) (c_active c) (c_paused c) (c_fi c) (c_adv c) (c_load c) (c_interval c) (c_changed c) (c_ltimer c) (c_raddrs c) (c_addrs c) (c_refl c) (c_reflok c) (c_rl c) (c_ka c) (c_auth c) (c_send c) (c_recv c) x (c_minre c) (c_cb c) (c_attempts c).
Definition w_minre (c : cli) x := mkCli (c_status c) (c_active c) (c_paused c) (c_fi c) (c_adv c) (c_load c) (c_interval c) (c_changed c) (c_ltimer c) (c_raddrs c) (c_addrs c) (c_refl c) (c_reflok c) (c_rl c) (c_ka c) (c_auth c) (c_send c) (c_recv c) (c_rtimer c) x (c_cb c) (c_attempts c).
Definition w_cb (c : cli) x := mkCli (c_status c) (c_active c) (c_paused c) (c_fi c) (c_adv c) (c_load c) (c_interval c) (c_changed c) (c_ltimer c) (c_raddrs c) (c_addrs c) (c_refl c) (c_reflok c) (c_rl c) (c_ka c) (c_auth c) (c_send c) (c_recv c) (c_rtimer c) (c_minre c) x (c_attempts c).
Definition w_attempts (c : cli) x := mkCli (c_status c) (c_active c) (c_paused c) (c_fi c) (c_adv c) (c_load c) (c_interval c) (c_changed c) (c_ltimer c) (c_raddrs c) (c_addrs c) (c_refl c) (c_reflok c) (c_rl c) (c_ka c) (c_auth c) (c_send c) (c_recv c) (c_rtimer c) (c_minre c) (c_cb c) x.

Definition f_write (f : sflow) (m : list Z) : sflow :=
  mkSf (f_nonce f) (f_notify f) (f_out f ++ [m]) (f_cands f) (f_ses f) (f_pre f) (f_creds f).
Definition f_with_ses (f : sflow) x : sflow := mkSf (f_nonce f) (f_notify f) (f_out f) (f_cands f) x (f_pre f) (f_creds f).
Definition f_add_cand (f : sflow) (a : addr) : sflow :=
  mkSf (f_nonce f) (f_notify f) (f_out f) (f_cands f ++ [a]) (f_ses f) (f_pre f) (f_creds f).

(** 32-35: isConnected *)
Definition is_connected (c : cli) : bool := status_eqb (c_status c) CONNECTED.
(** a call through the m_send pointer, which must not be null; SendFlow.cpp 151-157: the flow is open for as long as the client holds it *)
Definition with_send (c : cli) (k : sflow -> sflow) : res cli :=
  match c_send c with None => UB | Some f => Ok (w_send c (Some (k f))) end.
Definition write_msg (c : cli) (m : list Z) : res cli := with_send c (fun f => f_write f m).

(** 240-249: closeFlows *)
Definition close_flows (c : cli) : cli := let c := w_recv (w_send c None) false in w_refl c (c_refl c) false.
(** 37-53: close *)
Definition do_close (c : cli) : cli :=
  let c := w_active (w_status c CLOSED) false in
  let c := w_rtimer c None in
  let c := w_load c (c_load c) (c_interval c) (c_changed c) None in
  w_cb (close_flows c) false.

(** 300-312: sendSettingsIfActive *)
Definition settings_options (c : cli) : list (Z * list Z) :=
  (if c_adv c then [(SETTINGS_OPT_INCLUDE_REFLEXIVE, [])] else [])
  ++ map (fun a => (SETTINGS_OPT_ADD_ADDRESS, addr_encode a)) (c_addrs c).
Definition settings_msg (c : cli) : list Z := options_append (settings_options c) [CMD_SETTINGS].
Definition send_settings (c : cli) : res cli :=
  if is_connected c && c_active c && negb (c_paused c) then write_msg c (settings_msg c) else Ok c.
(** 314-321: sendDrainingIfInactive *)
Definition send_draining (c : cli) : res cli :=
  if is_connected c && negb (c_active c) then write_msg c [CMD_DRAINING] else Ok c.
(** 337-347: sendLoadFactor *)
Definition send_load (c : cli) : res cli :=
  c <- (if is_connected c then write_msg c (vlu_append (c_load c) [CMD_LOAD_FACTOR]) else Ok c);;
  Ok (w_load c (c_load c) (c_interval c) false (c_ltimer c)).
(** 323-335: scheduleSendLoadFactor *)
Definition schedule_send_load (c : cli) (now : Z) : res cli :=
  match c_ltimer c with
  | Some _ => Ok c
  | None => c <- send_load c;; Ok (w_load c (c_load c) (c_interval c) (c_changed c) (Some (now + c_interval c)))
  end.

(** The application's calls.  OSetMinReconnect is an assignment to the public member minimumReconnectInterval. *)
Inductive op :=
| OConnect | OClose | OSetRetransmitLimit (t : Z) | OSetKeepalivePeriod (t : Z) | OSetActive (b : bool) | OSetPaused (b : bool)
| OSetLoadFactor (n : Z) | OSetLoadFactorUpdateInterval (t : Z) | OAddRedirectorAddress (a : addr) | OAddSimpleAuth (k p : list Z)
| OSetFIHelloMode (m : Z) | OSetAdvertiseReflexive (b : bool) | OAddAddress (a : addr) | ORemoveAddress (a : addr) | OClearAddresses
| OSendUserData (d : list Z) | OSetMinReconnect (t : Z).

(** 26-30, 37-53 and 55-217: the calls, without connect() in the idle state (answer [Rej]), which is [connect] below; a callback never runs
    in the idle state *)
Definition call (c : cli) (now : Z) (o : op) : res cli :=
  match o with
  | OConnect => match c_status c with IDLE => Rej | _ => Ok c end
  | OClose => Ok (do_close c)
  | OSetRetransmitLimit t =>                                                     (* 55-60 *)
      let c := w_ses c t (c_ka c) in
      if is_connected c then with_send c (fun f => let '(ka, rl, fi) := f_ses f in f_with_ses f (ka, t, fi)) else Ok c
  | OSetKeepalivePeriod t =>                                                     (* 67-72 *)
      let c := w_ses c (c_rl c) t in
      if is_connected c then with_send c (fun f => let '(ka, rl, fi) := f_ses f in f_with_ses f (t, rl, fi)) else Ok c
  | OSetActive b =>                                                              (* 74-84 *)
      let update := negb (Bool.eqb b (c_active c)) in
      let c := w_active c b in
      if update then c <- send_settings c;; send_draining c else Ok c
  | OSetPaused b =>                                                              (* 91-96 *)
      let c := w_paused c b in if negb b then send_settings c else Ok c
  | OSetLoadFactor n =>                                                          (* 98-108 *)
      let update := negb (n =? c_load c) in
      let c := w_load c n (c_interval c) (c_changed c) (c_ltimer c) in
      if update then schedule_send_load (w_load c n (c_interval c) true (c_ltimer c)) now else Ok c
  | OSetLoadFactorUpdateInterval t =>                                            (* 115-120 *)
      Ok (w_load c (c_load c) (Z.max t 0) (c_changed c) (match c_ltimer c with Some _ => Some now | None => None end))
  | OAddRedirectorAddress a =>                                                   (* 127-132 *)
      let c := w_raddrs c (set_insert a (c_raddrs c)) in
      match c_send c with Some f => Ok (w_send c (Some (f_add_cand f a))) | None => Ok c end
  | OAddSimpleAuth k p => Ok (w_auth c (map_set k p (c_auth c)))                 (* 141-149 *)
  | OSetFIHelloMode m =>                                                         (* 151-156 *)
      let c := w_fi c m in
      match c_send c with
      | Some f => Ok (w_send c (Some (let '(ka, rl, fi) := f_ses f in f_with_ses f (ka, rl, m))))
      | None => Ok c
      end
  | OSetAdvertiseReflexive b =>                                                  (* 163-170 *)
      let update := negb (Bool.eqb b (c_adv c)) in
      let c := w_adv c b in if update then send_settings c else Ok c
  | OAddAddress a => send_settings (w_addrs c (set_insert a (c_addrs c)))        (* 187-191 *)
  | ORemoveAddress a => send_settings (w_addrs c (set_erase a (c_addrs c)))      (* 193-197 *)
  | OClearAddresses => send_settings (w_addrs c [])                              (* 199-203 *)
  | OSendUserData d => if is_connected c then write_msg c (CMD_USER_DATA :: d) else Ok c   (* 205-217 *)
  | OSetMinReconnect t => Ok (w_minre c t)
  end.
Fixpoint calls (c : cli) (now : Z) (os : list op) : res cli :=
  match os with [] => Ok c | o :: r => c <- call c now o;; calls c now r end.
(** a callback: it makes its calls if it is still set *)
Definition callback (c : cli) (now : Z) (cb : list op) : res cli := if c_cb c then calls c now cb else Ok c.
(** 251-256: setStatus *)
Definition set_status (c : cli) (now : Z) (s : status) (cb : list op) : res cli := callback (w_status c s) now cb.

(** 364-378: onException.  Comparing statuses with < orders them as declared. *)
Definition on_exception (c : cli) (now : Z) (reason : Z) (cb : list op) : res cli :=
  let c := close_flows c in
  c <- set_status c now (if EXCEPTION_BAD_AUTH =? reason then DISCONNECTED_BAD_AUTH else DISCONNECTED) cb;;
  match c_status c with
  | CLOSED => Ok c
  | _ => Ok (w_rtimer c (Some (match c_attempts c with t :: _ => t | [] => 0 end + Z.max (c_minre c) RECONNECT_LIMIT)))
  end.
(** 258-279: doConnect; [opened] says whether openFlow() answers a flow.  m_lastConnectAttempt is the head of c_attempts. *)
Definition do_connect (c : cli) (now : Z) (opened : bool) (cb : list op) : res cli :=
  let c := w_attempts c (now :: c_attempts c) in
  if opened then
    let f := mkSf [] true [] (c_raddrs c) (0, 0, 0) 0 [] in
    set_status (w_send c (Some f)) now CONNECTING cb
  else on_exception (w_send c None) now 0 cb.

Section Client.
(** the HMAC-SHA256 of the subclass: key, message *)
Variable hmac : list Z -> list Z -> list Z.

(** 281-298: sendAuth *)
Definition auth_msg (nonce : list Z) (kp : list Z * list Z) : list Z := CMD_SIMPLE_AUTH :: hmac (snd kp) nonce ++ fst kp.
Definition send_auth (c : cli) : res cli :=
  with_send c (fun f => mkSf (f_nonce f) (f_notify f) (f_out f ++ map (auth_msg (f_nonce f)) (c_auth c)) (f_cands f) (f_ses f)
                             (length (f_out f)) (c_auth c)).
(** 349-362: onConnected *)
Definition on_connected (c : cli) (now : Z) (cb : list op) : res cli :=
  c <- set_status c now CONNECTED cb;;
  if is_connected c then
    c <- with_send c (fun f => f_with_ses f (c_ka c, c_rl c, c_fi c));;
    c <- send_auth c;;
    c <- send_settings c;;
    c <- send_draining c;;
    send_load c
  else Ok c.
(** 380-388: onRecvFlow; what is left of the flow is whether there is one *)
Definition on_recv_flow (c : cli) (metadata : list Z) : cli :=
  if c_recv c || negb (check_metadata metadata) then c else w_recv c true.
(** 390-414: onMessage *)
Definition on_message (c : cli) (now : Z) (bytes : list Z) (cb : list op) : res cli :=
  match bytes with
  | [] => Ok c
  | cmd :: cursor =>
      if cmd =? CMD_REFLEXIVE_ADDR_REPORT then
        match addr_decode (c_refl c) cursor with
        | UB => UB
        | Rej => Ok (w_refl c (c_refl c) false)
        | Ok (a, _) => callback (w_refl c a true) now cb
        end
      else if cmd =? CMD_USER_DATA then callback c now cb
      else Ok c
  end.

(** What can happen: a call by the application, the flow becoming writable for the first time (its session is open and has a far
    nonce), the flow's exception, a return flow, a message on it, and the two timers (no earlier than they are set for).  The
    flow's callbacks are cleared when it is closed (SendFlow.cpp 171-173, RecvFlow.cpp 83-85) and cancelled timers do not fire.
    Simplified: binding to a session and becoming writable are one event; the FIHello mode set in between is set again anyway. *)
Inductive event :=
| ECall (o : op) (opened : bool) (cb : list op)
| EWritable (nonce : list Z) (cb : list op)
| EException (reason : Z) (cb : list op)
| ERecvFlow (metadata : list Z)
| EMessage (bytes : list Z) (cb : list op)
| EReconnect (opened : bool) (cb : list op)
| ELoadTimer.
Definition step (c : cli) (now : Z) (e : event) : res cli :=
  match e with
  | ECall OConnect opened cb =>                                                  (* 26-30 *)
      if status_eqb (c_status c) IDLE then do_connect c now opened cb else Ok c
  | ECall o _ _ => call c now o
  | EWritable nonce cb =>                                                        (* 274; SendFlow.cpp 321-326 *)
      match c_send c with
      | Some f =>
          if f_notify f then
            on_connected (w_send c (Some (mkSf nonce false (f_out f) (f_cands f) (f_ses f) (f_pre f) (f_creds f)))) now cb
          else Ok c
      | None => Ok c
      end
  | EException reason cb => match c_send c with Some _ => on_exception c now reason cb | None => Ok c end     (* 272 *)
  | ERecvFlow metadata => match c_send c with Some _ => Ok (on_recv_flow c metadata) | None => Ok c end       (* 273 *)
  | EMessage bytes cb => if c_recv c then on_message c now bytes cb else Ok c
  | EReconnect opened cb =>                                                      (* 373-376 *)
      match c_rtimer c with
      | Some w => if w <=? now then do_connect (w_rtimer c None) now opened cb else Ok c
      | None => Ok c
      end
  | ELoadTimer =>                                                                (* 329-333 *)
      match c_ltimer c with
      | Some w =>
          if w <=? now then
            let c := w_load c (c_load c) (c_interval c) (c_changed c) None in
            if c_changed c then schedule_send_load c now else Ok c
          else Ok c
      | None => Ok c
      end
  end.
Fixpoint run (c : cli) (es : list (Z * event)) : res cli :=
  match es with [] => Ok c | (t, e) :: r => c <- step c t e;; run c r end.
End Client.
