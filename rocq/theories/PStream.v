(** Model of test/PosixStreamPlatformAdapter.cpp: the bytes of a TCP connection between a client (RTMP, WebSocket) and the run loop.
    Simplified: callbacks are known by whether they are set, what they do comes with the events; the run loop is its two registrations of m_fd and its doLater queue; the kernel says what sendto and recvfrom answer,
    with an error for a descriptor that is closed or shut down; socket options are left out. *)
From Verif Require Import Base.

(** What happens, in order: setSocketFd (sockets are counted); writeBytes takes bytes (was WRITABLE registered?); sendto takes bytes; shutdown; ::close; recvfrom gives bytes; m_onreceivebytes; m_onstreamdidclose;
    onShutdownCompleteCallback; onClientClosed; doLater; a task runs; m_onwritable *)
Inductive event :=
| EvSock (k : Z) | EvWrite (b : list Z) (reg : bool) | EvSend (k : Z) (b : list Z) | EvShut (k : Z) | EvClose (k : Z) | EvRead (k : Z) (b : list Z) | EvGot (k : Z) (b : list Z)
| EvDid (k : Z) | EvDone | EvBye | EvAsk (t : Z) | EvTask (t : Z) | EvWritable.
(** PosixStreamPlatformAdapter.hpp 41-54: m_clientOpen, m_shutdown, m_runloop is set, m_fd (open), m_outputBuffer, m_onwritable, m_onreceivebytes and m_onstreamdidclose are set, m_doLaterAllowed,
    onShutdownCompleteCallback is set; m_fd is registered READABLE, WRITABLE; tasks of doLater; number of the socket, whether it was shut down *)
Record st := mk { a_open : bool; a_shut : bool; a_loop : bool; a_fd : bool; a_out : list Z; a_onw : bool; a_onr : bool; a_ond : bool; a_later : bool; a_done : bool; a_rd : bool; a_wr : bool;
  a_tasks : list Z; a_sock : Z; k_shut : bool; a_log : list event }.
(** 24-34; [loop]: with a run loop; onShutdownCompleteCallback set *)
Definition st0 (loop : bool) : st := mk true false loop false [] false false false true true false false [] 0 false [].
(** updates *)
Definition say (e : event) (s : st) : st :=
  mk (a_open s) (a_shut s) (a_loop s) (a_fd s) (a_out s) (a_onw s) (a_onr s) (a_ond s) (a_later s) (a_done s) (a_rd s) (a_wr s) (a_tasks s) (a_sock s) (k_shut s) (a_log s ++ [e]).
Definition with_out (s : st) (o : list Z) : st :=
  mk (a_open s) (a_shut s) (a_loop s) (a_fd s) o (a_onw s) (a_onr s) (a_ond s) (a_later s) (a_done s) (a_rd s) (a_wr s) (a_tasks s) (a_sock s) (k_shut s) (a_log s).
Definition with_reg (s : st) (r w : bool) : st :=
  mk (a_open s) (a_shut s) (a_loop s) (a_fd s) (a_out s) (a_onw s) (a_onr s) (a_ond s) (a_later s) (a_done s) r w (a_tasks s) (a_sock s) (k_shut s) (a_log s).
Definition with_cbs (s : st) (w r d : bool) : st :=
  mk (a_open s) (a_shut s) (a_loop s) (a_fd s) (a_out s) w r d (a_later s) (a_done s) (a_rd s) (a_wr s) (a_tasks s) (a_sock s) (k_shut s) (a_log s).
Definition with_loop (s : st) (l : bool) : st :=
  mk (a_open s) (a_shut s) l (a_fd s) (a_out s) (a_onw s) (a_onr s) (a_ond s) (a_later s) (a_done s) (a_rd s) (a_wr s) (a_tasks s) (a_sock s) (k_shut s) (a_log s).
Definition with_tasks (s : st) (t : list Z) : st :=
  mk (a_open s) (a_shut s) (a_loop s) (a_fd s) (a_out s) (a_onw s) (a_onr s) (a_ond s) (a_later s) (a_done s) (a_rd s) (a_wr s) t (a_sock s) (k_shut s) (a_log s).

(** 265-272, 274-281 *)
Definition try_read (s : st) : st := if a_loop s && a_fd s && a_onr s then with_reg s true (a_wr s) else s.
Definition try_write (s : st) : st := if a_loop s && a_fd s && a_onw s then with_reg s (a_rd s) true else s.
(** 44-50: attachToRunLoop; the assert keeps it from a second run loop *)
Definition attach (s : st) : st := if a_loop s then s else try_write (try_read (with_loop s true)).
(** 52-57 *)
Definition detach (s : st) : st := if a_loop s then with_loop (with_reg s false false) false else s.
(** 59-75, without what onShutdownCompleteCallback does *)
Definition close (s : st) : st :=
  let s := mk (a_open s) (a_shut s) (a_loop s) (a_fd s) (a_out s) (a_onw s) (a_onr s) (a_ond s) false (a_done s) (a_rd s) (a_wr s) (a_tasks s) (a_sock s) (k_shut s) (a_log s) in
  let s := if a_fd s then
             let s := if a_loop s then with_reg s false false else s in
             say (EvClose (a_sock s)) (mk (a_open s) (a_shut s) (a_loop s) false (a_out s) (a_onw s) (a_onr s) (a_ond s) (a_later s) (a_done s) (a_rd s) (a_wr s) (a_tasks s) (a_sock s) (k_shut s) (a_log s))
           else s in
  if a_done s then say EvDone (mk (a_open s) (a_shut s) (a_loop s) (a_fd s) (a_out s) (a_onw s) (a_onr s) (a_ond s) (a_later s) false (a_rd s) (a_wr s) (a_tasks s) (a_sock s) (k_shut s) (a_log s)) else s.
(** 77-108: setSocketFd, of a descriptor just connected *)
Definition set_fd (s : st) : st :=
  if a_fd s then s
  else
    let k := a_sock s + 1 in
    try_write (try_read (say (EvSock k) (mk (a_open s) (a_shut s) (a_loop s) true (a_out s) (a_onw s) (a_onr s) (a_ond s) (a_later s) (a_done s) (a_rd s) (a_wr s) (a_tasks s) k false (a_log s)))).
(** 148-157 *)
Definition write_bytes (b : list Z) (s : st) : bool * st := if a_fd s then (true, say (EvWrite b (a_wr s)) (with_out s (a_out s ++ b))) else (false, s).
(** 256-263: closeIfDone *)
Definition close_if_done (s : st) : st :=
  match a_out s with
  | [] =>
      if negb (a_open s) && negb (a_shut s) && a_fd s then
        say (EvShut (a_sock s)) (mk (a_open s) true (a_loop s) (a_fd s) (a_out s) (a_onw s) (a_onr s) (a_ond s) (a_later s) (a_done s) (a_rd s) (a_wr s) (a_tasks s) (a_sock s) true (a_log s))
      else s
  | _ => s
  end.
(** 159-167: onClientClosed *)
Definition client_closed (s : st) : st :=
  close_if_done (say EvBye (mk false (a_shut s) (a_loop s) (a_fd s) (a_out s) false false false false (a_done s) (a_rd s) (a_wr s) (a_tasks s) (a_sock s) (k_shut s) (a_log s))).
(** 138-146 *)
Definition do_later (t : Z) (s : st) : st := say (EvAsk t) (with_tasks s (a_tasks s ++ [t])).

(** What the client and the owner can call, in callbacks too; what onShutdownCompleteCallback does follows the Close that calls it *)
Inductive call := Write (b : list Z) | Notify | SetRecv | SetDid | ClientClosed | Close | SetFd | Attach | Detach | Later (t : Z).
Definition do_call (s : st) (c : call) : st :=
  match c with
  | Write b => snd (write_bytes b s)
  | Notify => try_write (with_cbs s true (a_onr s) (a_ond s)) (* 121-125 *)
  | SetRecv => try_read (with_cbs s (a_onw s) true (a_ond s)) (* 127-131 *)
  | SetDid => with_cbs s (a_onw s) (a_onr s) true (* 133-136 *)
  | ClientClosed => client_closed s
  | Close => close s
  | SetFd => set_fd s
  | Attach => attach s
  | Detach => detach s
  | Later t => do_later t s
  end.
Definition do_calls (l : list call) (s : st) : st := fold_left do_call l s.

(** 205-207, 236-238: [dcs], [ecs]: what onShutdownCompleteCallback and m_onstreamdidclose do *)
Definition fail (dcs ecs : list call) (s : st) : st :=
  let k := a_sock s in
  let s := if a_done s then do_calls dcs (close s) else close s in
  if a_ond s then do_calls ecs (say (EvDid k) s) else s.
(** what recvfrom and sendto answer *)
Inductive rres := RBytes (b : list Z) | REof | RAgain | RErr.
Inductive sres := SOk (n : Z) | SAgain | SErr.
(** 171-208: onInterfaceReadable; [cs], [more]: what m_onreceivebytes does and answers *)
Definition on_readable (r : rres) (cs : list call) (more : bool) (dcs ecs : list call) (s : st) : st :=
  if a_open s && negb (a_onr s) then with_reg s false (a_wr s)
  else
    match r with
    | RAgain => s
    | RErr | REof | RBytes [] => fail dcs ecs s
    | RBytes b =>
        let s := say (EvRead (a_sock s) b) s in
        if a_shut s then s
        else if negb (a_open s) then fail dcs ecs s
        else
          let s := do_calls cs (say (EvGot (a_sock s) b) s) in
          if more then s else with_cbs s (a_onw s) false (a_ond s)
    end.
(** 214-218: the loop; [wmax]: m_writeSizePerSelect; [ws]: what each m_onwritable does and answers *)
Fixpoint fill (wmax : Z) (ws : list (list call * bool)) (s : st) : st :=
  if a_onw s && (zlen (a_out s) <? wmax) then
    match ws with
    | [] => let s := say EvWritable s in with_cbs s false (a_onr s) (a_ond s)
    | (cs, more) :: ws =>
        let s := do_calls cs (say EvWritable s) in
        fill wmax ws (if (more : bool) then s else with_cbs s false (a_onr s) (a_ond s))
    end
  else s.
(** 250-253 *)
Definition written_out (s : st) : st :=
  close_if_done (if (match a_out s with [] => true | _ => false end) && a_loop s && negb (a_onw s) then with_reg s (a_rd s) false else s).
(** 210-254: onInterfaceWritable *)
Definition on_writable (wmax : Z) (ws : list (list call * bool)) (r : sres) (dcs ecs : list call) (s : st) : st :=
  let s := fill wmax ws s in
  match a_out s with
  | [] => written_out s
  | _ =>
      match (if a_fd s && negb (k_shut s) then r else SErr) with
      | SAgain => s
      | SErr => fail dcs ecs s
      | SOk n => let n := Z.to_nat n in written_out (say (EvSend (a_sock s) (firstn n (a_out s))) (with_out s (skipn n (a_out s))))
      end
  end.
Inductive op :=
| Call (c : call) | Readable (r : rres) (cs : list call) (more : bool) (dcs ecs : list call) | Writable (ws : list (list call * bool)) (r : sres) (dcs ecs : list call) | RunTask (cs : list call).
Definition step (wmax : Z) (s : st) (o : op) : st :=
  match o with
  | Call c => do_call s c
  | Readable r cs more dcs ecs => if a_rd s then on_readable r cs more dcs ecs s else s
  | Writable ws r dcs ecs => if a_wr s then on_writable wmax ws r dcs ecs s else s
  | RunTask cs => match a_tasks s with [] => s | t :: q => let s := with_tasks s q in if a_later s then do_calls cs (say (EvTask t) s) else s end
  end.
Definition run (wmax : Z) (l : list op) (s : st) : st := fold_left (step wmax) l s.
