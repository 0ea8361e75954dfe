(** Model of src/PosixPlatformAdapter.cpp, src/PerformerPosixPlatformAdapter.cpp: UDP interfaces, packets, tasks.
    Simplified: of the run loop its registrations and its doLater queue; the kernel has a table of descriptors, sockets and their queues of datagrams; the application opens
    and closes descriptors of its own; timers (27-38, 136-139), socket options and the parsing of control messages are left out; a
    datagram arrives between calls, in callbacks too.  A descriptor socket() gives is one not in the table. *)
From Verif Require Import Base.

(** ** The kernel *)
(** [k_sock] tells sockets apart; [k_mine]: opened by the adapter; [k_fam]: its family *)
Record ksock := mkK { k_sock : Z; k_mine : bool; k_fam : Z; k_queue : list (list Z) }.
Definition table := list (Z * ksock).
Fixpoint look {A} (fd : Z) (l : list (Z * A)) : option A := match l with [] => None | (f, x) :: r => if f =? fd then Some x else look fd r end.
Definition forget {A} (fd : Z) (l : list (Z * A)) : list (Z * A) := filter (fun p => negb (fst p =? fd)) l.
Fixpoint set_queue (fd : Z) (q : list (list Z)) (l : table) : table :=
  match l with [] => [] | (f, x) :: r => if f =? fd then (f, mkK (k_sock x) (k_mine x) (k_fam x) q) :: r else (f, x) :: set_queue fd q r end.
(** all that is queued *)
Definition total (l : table) : nat := fold_right (fun p n => (length (k_queue (snd p)) + n)%nat) 0%nat l.

(** ** The adapter *)
(** What happens, in order: an interface is given to RTMFP with the socket made for it; a datagram reaches a socket; onReceivePacket; sendmsg succeeds; a task is asked for; it runs; onwritable is called *)
Inductive event :=
| EvIf (id k fam : Z) | EvArrive (k : Z) (b : list Z) | EvPacket (id k : Z) (b : list Z) | EvSent (id k fam : Z) (b : list Z) (tos : Z) | EvAsk (t : Z) | EvTask (t : Z) | EvWritable (cb : Z).
(** PosixPlatformAdapter.hpp, UdpInterface with its name in m_interfaces; [i_sock] is for the statements *)
Record pif := mkI { i_id : Z; i_fd : Z; i_fam : Z; i_sock : Z }.
(** [p_open]: *m_isOpen and *m_isOpen_performer; [p_next]: the next name in m_interfaces; [l_read]: READABLE registrations, by descriptor, with the interface they name; [l_write]: WRITABLE, with the
    callback; [l_tasks]: doLater or the performer's queue *)
Record pa := mkP { p_open : bool; p_ifs : list pif; p_next : Z; l_read : list (Z * Z); l_write : list (Z * Z); l_tasks : list Z; k_tab : table; k_next : Z; p_log : list event }.
(** 15-20 *)
Definition pa0 : pa := mkP true [] 1 [] [] [] [] 1 [].
(** updates *)
Definition say (e : event) (s : pa) : pa := mkP (p_open s) (p_ifs s) (p_next s) (l_read s) (l_write s) (l_tasks s) (k_tab s) (k_next s) (p_log s ++ [e]).
Definition with_tab (s : pa) (t : table) : pa := mkP (p_open s) (p_ifs s) (p_next s) (l_read s) (l_write s) (l_tasks s) t (k_next s) (p_log s).
Definition with_write (s : pa) (w : list (Z * Z)) : pa := mkP (p_open s) (p_ifs s) (p_next s) (l_read s) w (l_tasks s) (k_tab s) (k_next s) (p_log s).
Definition with_tasks (s : pa) (t : list Z) : pa := mkP (p_open s) (p_ifs s) (p_next s) (l_read s) (l_write s) t (k_tab s) (k_next s) (p_log s).
(** m_interfaces.has, at *)
Fixpoint find_if (id : Z) (l : list pif) : option pif := match l with [] => None | i :: r => if i_id i =? id then Some i else find_if id r end.

(** 60-112: addUdpInterface; [bound]: setSockaddr, socket, bind and getsockname succeed *)
Definition add_udp (fam fd : Z) (bound : bool) (s : pa) : pa :=
  match look fd (k_tab s) with
  | Some _ => s
  | None =>
      if bound then
        let id := p_next s in
        let k := k_next s in
        say (EvIf id k fam)
          (mkP (p_open s) (p_ifs s ++ [mkI id fd fam k]) (id + 1) (forget fd (l_read s) ++ [(fd, id)]) (l_write s) (l_tasks s) (k_tab s ++ [(fd, mkK k true fam [])]) (k + 1) (p_log s))
      else s
  end.
(** 114-129 and PerformerPosixPlatformAdapter.cpp 26-30: close; the loop over m_interfaces *)
Fixpoint close_loop (l : list pif) (s : pa) : pa :=
  match l with
  | [] => s
  | i :: r =>
      close_loop r (mkP (p_open s) r (p_next s) (forget (i_fd i) (l_read s)) (forget (i_fd i) (l_write s)) (l_tasks s) (forget (i_fd i) (k_tab s)) (k_next s) (p_log s))
  end.
(** 114-129 *)
Definition p_close (s : pa) : pa := close_loop (p_ifs s) (mkP false (p_ifs s) (p_next s) (l_read s) (l_write s) (l_tasks s) (k_tab s) (k_next s) (p_log s)).
(** 141-162: notifyWhenInterfaceWritable *)
Definition notify (id cb : Z) (s : pa) : bool * pa :=
  match find_if id (p_ifs s) with Some i => (true, with_write s (forget (i_fd i) (l_write s) ++ [(i_fd i, cb)])) | None => (false, s) end.
(** what sendmsg answers *)
Inductive sent := SentOk | SentInval | SentErr.
(** 164-216: writePacket, to an address of family [fam]; [r1], [r2]: what sendmsg answers, the first time and without control data *)
Definition write_packet (id fam : Z) (b : list Z) (tos : Z) (r1 r2 : sent) (s : pa) : bool * pa :=
  match find_if id (p_ifs s) with
  | None => (false, s)
  | Some i =>
      if negb (fam =? i_fam i) then (false, s)
      else
        match look (i_fd i) (k_tab s) with
        | None => (false, s)
        | Some x =>
            let go := fun t => (true, say (EvSent id (k_sock x) (k_fam x) b t) s) in
            match r1 with
            | SentOk => go tos
            | SentErr => (false, s)
            | SentInval => if tos =? 0 then (false, s) else match r2 with SentOk => go 0 | _ => (false, s) end
            end
        end
  end.
(** 218-223, PerformerPosixPlatformAdapter.cpp 18-24: perform *)
Definition perform (t : Z) (s : pa) : pa := say (EvAsk t) (with_tasks s (l_tasks s ++ [t])).
(** What RTMFP and the application can call and the network can do, in callbacks too; AppOpen, AppClose: the application's own descriptors; Came: a datagram reaches a socket *)
Inductive call :=
| CAdd (fam fd : Z) (bound : bool) | CClose | CNotify (id cb : Z) | CWrite (id fam : Z) (b : list Z) (tos : Z) (r1 r2 : sent) | CPerform (t : Z) | AppOpen (fd fam : Z) | AppClose (fd : Z) | Came (fd : Z) (b : list Z).
Definition do_call (s : pa) (c : call) : pa :=
  match c with
  | CAdd fam fd bound => add_udp fam fd bound s
  | CClose => p_close s
  | CNotify id cb => snd (notify id cb s)
  | CWrite id fam b tos r1 r2 => snd (write_packet id fam b tos r1 r2 s)
  | CPerform t => perform t s
  | AppOpen fd fam =>
      match look fd (k_tab s) with
      | Some _ => s
      | None => mkP (p_open s) (p_ifs s) (p_next s) (l_read s) (l_write s) (l_tasks s) (k_tab s ++ [(fd, mkK (k_next s) false fam [])]) (k_next s + 1) (p_log s)
      end
  | AppClose fd => match look fd (k_tab s) with Some x => if k_mine x then s else with_tab s (forget fd (k_tab s)) | None => s end
  | Came fd b => match look fd (k_tab s) with Some x => say (EvArrive (k_sock x) b) (with_tab s (set_queue fd (k_queue x ++ [b]) (k_tab s))) | None => s end
  end.
Definition do_calls (l : list call) (s : pa) : pa := fold_left do_call l s.

(** 237-288: receiveOnePacket, its buffer of 8192 bytes; 231-235: onInterfaceReadable's loop; [cbs]: what each onReceivePacket does *)
Fixpoint recv_loop (fuel : nat) (fd id : Z) (cbs : list (list call)) (s : pa) : pa :=
  match fuel with
  | O => s
  | S n =>
      match look fd (k_tab s) with
      | None => s
      | Some x =>
          match k_queue x with
          | [] => s
          | b :: q => recv_loop n fd id (tl cbs) (do_calls (hd [] cbs) (say (EvPacket id (k_sock x) (firstn (Z.to_nat 8192) b)) (with_tab s (set_queue fd q (k_tab s)))))
          end
      end
  end.
(** 146-156: the lambda; [n]: maxWritesPerInterfaceWritable less times; [ans]: what each onwritable does and answers *)
Fixpoint write_loop (n : nat) (fd cb : Z) (ans : list (list call * bool)) (s : pa) : pa :=
  match n with
  | O => s
  | S n =>
      let '(cs, more) := hd ([], false) ans in
      let s := do_calls cs (say (EvWritable cb) s) in
      if (more : bool) then write_loop n fd cb (tl ans) s else with_write s (forget fd (l_write s))
  end.
Inductive op := Call (c : call) | Readable (fd : Z) (cbs : list (list call)) | Writable (fd : Z) (ans : list (list call * bool)) | RunTask (cs : list call).
Definition step (s : pa) (o : op) : pa :=
  match o with
  | Call c => do_call s c
  | Readable fd cbs => match look fd (l_read s) with Some id => recv_loop (total (k_tab s) + length (concat cbs)) fd id cbs s | None => s end
  | Writable fd ans => match look fd (l_write s) with Some cb => write_loop 4 fd cb ans s | None => s end
  | RunTask cs =>
      match l_tasks s with
      | [] => s
      | t :: r => let s := with_tasks s r in if p_open s then do_calls cs (say (EvTask t) s) else s
      end
  end.
Definition run (l : list op) (s : pa) : pa := fold_left step l s.
