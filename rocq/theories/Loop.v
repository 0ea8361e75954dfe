(** Model of the run loops: src/RunLoop.cpp, src/SelectRunLoop.cpp, src/EPollRunLoop.cpp.  An application is the calls it makes before running
    and in each callback; the environment says in each cycle which descriptors are reported ready and how many timers are due.  The
    order of the descriptors of one condition in SelectRunLoop (by number) is the order of registration here; times are left out
    (timers: C23, C24), and so are threads. *)
From Verif Require Import Base.

(** include/rtmfp/RunLoop.hpp 20: Condition *)
Inductive cond := RD | WR | EX.
Definition cond_eqb (a b : cond) : bool := match a, b with RD, RD | WR, WR | EX, EX => true | _, _ => false end.

(** What happens, in order: a registration [id] is made or cancelled, a poll reports descriptors, an action, a task given to doLater, a task, a timer's
    action, or onEveryCycle runs; stop or clear is called; the application opens
    or closes a descriptor. *)
Inductive lev :=
| Reg (id : nat) (fd : Z) (c : cond) | Unreg (id : nat)
| Poll (ready : list (Z * list cond)) | Act (id : nat) | Asked (k : nat) | Later (k : nat) | Fire | Every | Stopped | Cleared
| Opened (fd : Z) | Closed (fd : Z).

(** The registered items (SelectRunLoop.hpp 31: m_items; EPollRunLoop.cpp 48: Descriptor::m_items, a descriptor being there if and only if it has
    an item); the cancelled ones; the number of the next; m_doLaters; m_stopping; epoll's interest list; the files that are open. *)
Record lp := mkLp {
  l_reg : list (cond * Z * nat); l_dead : list nat; l_next : nat; l_later : list nat; l_nlater : nat; l_stop : bool;
  l_kern : list (Z * list cond); l_files : list Z; l_log : list lev }.
Definition lp_new : lp := mkLp [] [] 0 [] 0 false [] [] [].

Definition k_log (s : lp) x := mkLp (l_reg s) (l_dead s) (l_next s) (l_later s) (l_nlater s) (l_stop s) (l_kern s) (l_files s) (l_log s ++ [x]).
Definition k_reg (s : lp) r d n := mkLp r d n (l_later s) (l_nlater s) (l_stop s) (l_kern s) (l_files s) (l_log s).
Definition k_later (s : lp) l n := mkLp (l_reg s) (l_dead s) (l_next s) l n (l_stop s) (l_kern s) (l_files s) (l_log s).
Definition k_stop (s : lp) b := mkLp (l_reg s) (l_dead s) (l_next s) (l_later s) (l_nlater s) b (l_kern s) (l_files s) (l_log s).
Definition k_kern (s : lp) k f := mkLp (l_reg s) (l_dead s) (l_next s) (l_later s) (l_nlater s) (l_stop s) k f (l_log s).

Definition is_item (c : cond) (fd : Z) (x : cond * Z * nat) : bool := cond_eqb (fst (fst x)) c && (snd (fst x) =? fd).
Definition find_item (c : cond) (fd : Z) (r : list (cond * Z * nat)) : option nat := option_map snd (find (is_item c fd) r).
(** EPollRunLoop.cpp 39-46: getPollEvents *)
Definition poll_events (fd : Z) (r : list (cond * Z * nat)) : list cond :=
  filter (fun c => match find_item c fd r with Some _ => true | None => false end) [RD; WR; EX].

(** epoll_ctl: adding a descriptor that is there or not open, or changing or deleting one that is not there, fails and does nothing. *)
Definition kern_drop (fd : Z) (k : list (Z * list cond)) : list (Z * list cond) := filter (fun x => negb (fst x =? fd)) k.
Definition kern_has (fd : Z) (k : list (Z * list cond)) : bool := existsb (fun x => fst x =? fd) k.
Definition epoll_add (s : lp) fd m : lp :=
  if existsb (Z.eqb fd) (l_files s) && negb (kern_has fd (l_kern s)) then k_kern s ((fd, m) :: l_kern s) (l_files s) else s.
Definition epoll_mod (s : lp) fd m : lp :=
  if kern_has fd (l_kern s) then k_kern s ((fd, m) :: kern_drop fd (l_kern s)) (l_files s) else s.
Definition epoll_del (s : lp) fd : lp := k_kern s (kern_drop fd (l_kern s)) (l_files s).

(** SelectRunLoop.cpp 38-45, EPollRunLoop.cpp 96-118: unregisterDescriptor (for select the interest list is not used) *)
Definition unregister (s : lp) (fd : Z) (c : cond) : lp :=
  match find_item c fd (l_reg s) with
  | None => s
  | Some id =>
      let s := k_reg s (filter (fun x => negb (is_item c fd x)) (l_reg s)) (id :: l_dead s) (l_next s) in
      let s := k_log s (Unreg id) in
      match poll_events fd (l_reg s) with
      | [] => epoll_del s fd
      | m => epoll_mod s fd m
      end
  end.
(** SelectRunLoop.cpp 27-36, EPollRunLoop.cpp 68-94: registerDescriptor; [act]: the action is not empty *)
Definition register (s : lp) (fd : Z) (c : cond) (act : bool) : lp :=
  if fd <? 0 then s
  else
    let s := unregister s fd c in
    if negb act then s
    else
      let known := negb (Nat.eqb (length (poll_events fd (l_reg s))) 0) in
      let id := l_next s in
      let s := k_reg s (l_reg s ++ [(c, fd, id)]) (l_dead s) (S id) in
      let s := k_log s (Reg id fd c) in
      let m := poll_events fd (l_reg s) in
      if known then epoll_mod s fd m else epoll_add s fd m.
(** RunLoop.cpp 21-26 *)
Definition unregister_all (s : lp) (fd : Z) : lp := unregister (unregister (unregister s fd RD) fd WR) fd EX.
(** RunLoop.cpp 96-102, SelectRunLoop.cpp 142-155, EPollRunLoop.cpp 189-196: clear (timers left out) *)
Definition clear_loop (s : lp) : lp :=
  let s := k_log (k_later s [] (l_nlater s)) Cleared in
  fold_left (fun s x => unregister s (snd (fst x)) (fst (fst x))) (l_reg s) s.

(** What an application does: calls of the run loop, and opening and closing descriptors. *)
Inductive lcall :=
| CReg (fd : Z) (c : cond) (act : bool) | CUnreg (fd : Z) (c : cond) | CUnregAll (fd : Z) | CLater | CStop | CClear | COpen (fd : Z) | CClose (fd : Z).
Definition call (s : lp) (c : lcall) : lp :=
  match c with
  | CReg fd c act => register s fd c act
  | CUnreg fd c => unregister s fd c
  | CUnregAll fd => unregister_all s fd
  | CLater => k_log (k_later s (l_later s ++ [l_nlater s]) (S (l_nlater s))) (Asked (l_nlater s))   (* RunLoop.cpp 48-51 *)
  | CStop => k_log (k_stop s true) Stopped                                            (* 53-56 *)
  | CClear => clear_loop s
  | COpen fd => k_log (k_kern s (l_kern s) (fd :: filter (fun x => negb (x =? fd)) (l_files s))) (Opened fd)
  | CClose fd => k_log (k_kern s (kern_drop fd (l_kern s)) (filter (fun x => negb (x =? fd)) (l_files s))) (Closed fd)   (* the kernel forgets a closed file *)
  end.
Definition calls (s : lp) (cs : list lcall) : lp := fold_left call cs s.

(** A callback: makes the next calls of the application. *)
Definition callback (s : lp) (o : list (list lcall)) : lp * list (list lcall) :=
  match o with [] => (s, []) | cs :: o => (calls s cs, o) end.

(** SelectRunLoop.cpp 106-112, EPollRunLoop.cpp 200-209: the activated items, as long as the loop is not stopped; [None]: no item *)
Fixpoint run_items (q : list (option nat)) (s : lp) (o : list (list lcall)) : lp * list (list lcall) :=
  match q with
  | [] => (s, o)
  | Some id :: q =>
      if negb (existsb (Nat.eqb id) (l_dead s)) && negb (l_stop s) then
        let '(s, o) := callback (k_log s (Act id)) o in run_items q s o
      else run_items q s o
  | None :: q => run_items q s o
  end.
(** RunLoop.cpp 85-94: processDoLaters; the fuel is enough for the tasks there are and all that are still added *)
Definition count_laters (o : list (list lcall)) : nat :=
  list_sum (map (fun cs => length (filter (fun c => match c with CLater => true | _ => false end) cs)) o).
Fixpoint run_laters (n : nat) (s : lp) (o : list (list lcall)) : lp * list (list lcall) :=
  match n with
  | O => (s, o)
  | S n =>
      if l_stop s then (s, o)
      else match l_later s with
           | [] => (s, o)
           | k :: r => let '(s, o) := callback (k_log (k_later s r (l_nlater s)) (Later k)) o in run_laters n s o
           end
  end.
(** Timer.cpp 194-220: fireDueTimers, as many actions as there are timers due *)
Fixpoint run_timers (n : nat) (s : lp) (o : list (list lcall)) : lp * list (list lcall) :=
  match n with O => (s, o) | S n => let '(s, o) := callback (k_log s Fire) o in run_timers n s o end.

(** SelectRunLoop.cpp 62-67: getActivatedItemsToQueue *)
Definition has_cond (c : cond) (cs : list cond) : bool := existsb (cond_eqb c) cs.
Definition is_ready (ready : list (Z * list cond)) (fd : Z) (c : cond) : bool := existsb (fun x => (fst x =? fd) && has_cond c (snd x)) ready.
Definition select_queue (s : lp) (ready : list (Z * list cond)) (c : cond) : list (option nat) :=
  map (fun x => Some (snd x)) (filter (fun x => cond_eqb (fst (fst x)) c && is_ready ready (snd (fst x)) c) (l_reg s)).
(** EPollRunLoop.cpp 152-161 *)
Definition epoll_queue (s : lp) (ready : list (Z * list cond)) (c : cond) : list (option nat) :=
  flat_map (fun x => if has_cond c (snd x) then [find_item c (fst x) (l_reg s)] else []) ready.

(** SelectRunLoop.cpp 80-127, EPollRunLoop.cpp 135-180: one cycle.  [ep]: EPollRunLoop; [every]: onEveryCycle is set.  select fails if a
    descriptor that is not open is registered, and the loop ends ([true]). *)
Definition bad_fd (s : lp) : bool := existsb (fun x => negb (existsb (Z.eqb (snd (fst x))) (l_files s))) (l_reg s).
Definition cycle (ep every : bool) (s : lp) (ready : list (Z * list cond)) (due : nat) (o : list (list lcall)) : lp * list (list lcall) * bool :=
  if negb ep && bad_fd s then (s, o, true)
  else
    let queue := if ep then epoll_queue s ready else select_queue s ready in
    let q := queue EX ++ queue RD ++ queue WR in
    let s := k_log s (Poll ready) in
    let '(s, o) := run_items q s o in
    let '(s, o) := run_laters (length (l_later s) + count_laters o) s o in
    let '(s, o) := if l_stop s then (s, o) else run_timers due s o in
    let '(s, o) := if every && negb (l_stop s) then callback (k_log s Every) o else (s, o) in
    (s, o, false).
(** run: cycles until stopped *)
Fixpoint loop (ep every : bool) (s : lp) (ins : list (list (Z * list cond) * nat)) (o : list (list lcall)) : lp :=
  match ins with
  | [] => s
  | (ready, due) :: ins =>
      let '(s, o, broken) := cycle ep every s ready due o in
      if broken || l_stop s then s else loop ep every s ins o
  end.
(** SelectRunLoop.cpp 69-134, EPollRunLoop.cpp 120-187: a stop from before is forgotten *)
Definition run_loop (ep every : bool) (s : lp) (ins : list (list (Z * list cond) * nat)) (o : list (list lcall)) : lp :=
  loop ep every (k_stop s false) ins o.

(** An application's life: calls, then a run, and so on. *)
Definition life (ep every : bool) (segs : list (list lcall * list (list (Z * list cond) * nat) * list (list lcall))) : lp :=
  fold_left (fun s x => run_loop ep every (calls s (fst (fst x))) (snd (fst x)) (snd x)) segs lp_new.
