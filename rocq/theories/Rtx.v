(** Model of the timers that send again: IHello, IIKeying and Session Close chunks, and those that end a session (src/Session.cpp 412-428, 484-488, 533-541, 558-585, 756-788, 817-843;
    the recurring of timers, src/Timer.cpp 119-151).  Times are whole ticks, any number [u] of them to a microsecond; timers fire at any time not before they are due, in any order.
    Simplified: what is received is given as what it does to the state; the packets are only known by their kind. *)
From Verif Require Import Base.

(** m_when, m_recurInterval *)
Record timer := mkT { w : Z; iv : Z }.
(** Timer.cpp 131-149: the timer after its action, which fired at [now] *)
Definition ceil_div (a b : Z) : Z := (a + b - 1) / b.
Definition again (now : Z) (t : timer) : option timer :=
  if 0 <? iv t then Some (mkT (if w t <? now then w t + ceil_div (now - w t) (iv t) * iv t else w t + iv t) (iv t)) else None.

Section Rtx.
Variable u : Z.
(** a second; include/rtmfp/params.hpp 17, 20, 22-25, 62-64 *)
Definition S1 : Z := 1000000 * u.
Definition IHELLO_INITIAL_RTX : Z := S1.
Definition IHELLO_BACKOFF_INTERVAL : Z := 1500000 * u.
Definition IIKEYING_INITIAL_RTX : Z := S1.
Definition IIKEYING_BACKOFF_INTERVAL : Z := 1500000 * u.
Definition ULTIMATE_SESSION_TIMEOUT : Z := 95 * S1.
Definition NEARCLOSE_RTX_PERIOD : Z := 5 * S1.
Definition NEARCLOSE_PERIOD : Z := 90 * S1.
Definition FARCLOSE_LINGER_PERIOD : Z := 19 * S1.
Definition REDIRECT_THRESHOLD : Z := 24.

(** Session.hpp 69-70: State, of a session opened by initiateToEPD *)
Inductive sstate := SHello | SKeying | SOpen | SNear | SFar | SClosed.
(** What happens, when: a candidate address is added with a delay; an IHello is sent to it; an RHello is accepted; IIKeying is started, and sent; the session opens; Nearclose, a Close chunk; Farclose linger; abort *)
Inductive event :=
| EAdd (a : Z) (at_ delay : Z) | EHello (a : Z) (at_ : Z) | ERHello | EStart (g : Z) (at_ : Z) | EKey (g : Z) (at_ : Z) | EOpen | ENear (at_ : Z) | EClose (at_ : Z) | EFar (at_ : Z) | EAbort.
(** the time; m_state; m_openingAddresses with the timer of each; m_iikeyingTimer, of which start; the timer of setNearclose and its limit; that of setFarcloseLinger; that of initiateToEPD *)
Record st := mk { clock : Z; state : sstate; hello : list (Z * option timer); key : option timer; gen : Z; near : option (timer * Z); far : option Z; ult : option Z; log : list event }.
(** Session.cpp 412-428: initiateToEPD, at time 0 *)
Definition st0 : st := mk 0 SHello [] None 0 None None (Some ULTIMATE_SESSION_TIMEOUT) [].
(** updates *)
Definition say (e : event) (s : st) : st := mk (clock s) (state s) (hello s) (key s) (gen s) (near s) (far s) (ult s) (log s ++ [e]).
Definition with_state (s : st) (x : sstate) : st := mk (clock s) x (hello s) (key s) (gen s) (near s) (far s) (ult s) (log s).
Definition with_hello (s : st) (h : list (Z * option timer)) : st := mk (clock s) (state s) h (key s) (gen s) (near s) (far s) (ult s) (log s).
Definition with_key (s : st) (k : option timer) (g : Z) : st := mk (clock s) (state s) (hello s) k g (near s) (far s) (ult s) (log s).
Definition with_near (s : st) (n : option (timer * Z)) : st := mk (clock s) (state s) (hello s) (key s) (gen s) n (far s) (ult s) (log s).
Definition with_far (s : st) (f : option Z) : st := mk (clock s) (state s) (hello s) (key s) (gen s) (near s) f (ult s) (log s).
Definition with_ult (s : st) (x : option Z) : st := mk (clock s) (state s) (hello s) (key s) (gen s) (near s) (far s) x (log s).

Definition lookup (a : Z) (l : list (Z * option timer)) : option (option timer) := option_map snd (find (fun x => fst x =? a) l).
Fixpoint update (a : Z) (t : option timer) (l : list (Z * option timer)) : list (Z * option timer) :=
  match l with [] => [] | x :: q => if fst x =? a then (a, t) :: q else x :: update a t q end.
(** 484-488: abortFlowsAndTimers, of what is modelled here *)
Definition abort_timers (s : st) : st := with_key s None (gen s).
(** 533-541 *)
Definition abort (s : st) : st := match state s with SClosed => s | _ => say EAbort (abort_timers (with_state s SClosed)) end.
(** 756-769: addCandidateAddress *)
Definition add_address (a delay : Z) (redirect : bool) (s : st) : st :=
  match state s, lookup a (hello s) with
  | SHello, None =>
      if redirect && (REDIRECT_THRESHOLD <=? zlen (hello s)) then s
      else say (EAdd a (clock s) delay) (with_hello s (hello s ++ [(a, Some (mkT (clock s + delay) 0))]))
  | _, _ => s
  end.
(** 778-780, 838-840 *)
Definition backoff (first step i : Z) : Z := if i <? first then first else i + step.
(** 769-785: the action of the timer *)
Definition fire_hello (a : Z) (s : st) : st :=
  match lookup a (hello s) with
  | Some (Some t) =>
      if w t <=? clock s then
        match state s with
        | SHello => say (EHello a (clock s)) (with_hello s (update a (again (clock s) (mkT (w t) (backoff IHELLO_INITIAL_RTX IHELLO_BACKOFF_INTERVAL (iv t)))) (hello s)))
        | _ => with_hello s (update a None (hello s))
        end
      else s
  | _ => s
  end.
(** 817-828: startIIKeying *)
Definition start_key (s : st) : st :=
  let s := with_key s None (gen s) in
  match state s with SKeying => say (EStart (gen s + 1) (clock s)) (with_key s (Some (mkT (clock s) 0)) (gen s + 1)) | _ => s end.
(** 829-842 *)
Definition fire_key (s : st) : st :=
  match key s with
  | Some t =>
      if w t <=? clock s then
        match state s with
        | SKeying => say (EKey (gen s) (clock s)) (with_key s (again (clock s) (mkT (w t) (backoff IIKEYING_INITIAL_RTX IIKEYING_BACKOFF_INTERVAL (iv t)))) (gen s))
        | _ => with_key s None (gen s)
        end
      else s
  | None => s
  end.
(** 558-575: setNearclose *)
Definition set_near (s : st) : st := say (ENear (clock s)) (with_near (abort_timers (with_state s SNear)) (Some (mkT (clock s) NEARCLOSE_RTX_PERIOD, clock s + NEARCLOSE_PERIOD))).
Definition fire_near (s : st) : st :=
  match near s with
  | Some (t, limit) =>
      if w t <=? clock s then
        match state s with
        | SNear => if limit <=? clock s then with_near (abort s) None else say (EClose (clock s)) (with_near s (match again (clock s) t with Some t => Some (t, limit) | None => None end))
        | _ => with_near (abort s) None
        end
      else s
  | None => s
  end.
(** 577-585: setFarcloseLinger *)
Definition set_far (s : st) : st := say (EFar (clock s)) (with_far (abort_timers (with_state s SFar)) (Some (clock s + FARCLOSE_LINGER_PERIOD))).
Definition fire_far (s : st) : st := match far s with Some t => if t <=? clock s then with_far (abort s) None else s | None => s end.
(** 424-427 *)
Definition fire_ult (s : st) : st :=
  match ult s with
  | Some t => if t <=? clock s then with_ult (match state s with SHello | SKeying => abort s | _ => s end) None else s
  | None => s
  end.
(** time passes, calls are made, timers fire, an RHello is accepted (1294), the session opens (543-556), closes in order (468) or because the peer does (2090) *)
Inductive op := Pass (d : Z) | Add (a delay : Z) (redirect : bool) | FireHello (a : Z) | RHello | Start | FireKey | Open | Near | FireNear | Far | FireFar | FireUlt | Abort.
Definition step (s : st) (o : op) : st :=
  match o with
  | Pass d => mk (clock s + Z.max 0 d) (state s) (hello s) (key s) (gen s) (near s) (far s) (ult s) (log s)
  | Add a delay r => add_address a delay r s
  | FireHello a => fire_hello a s
  | RHello => match state s with SHello => say ERHello (with_state s SKeying) | _ => s end
  | Start => start_key s
  | FireKey => fire_key s
  | Open => match state s with SHello | SKeying => say EOpen (with_state s SOpen) | _ => s end
  | Near => match state s with SOpen => set_near s | _ => s end
  | FireNear => fire_near s
  | Far => match state s with SOpen => set_far s | _ => s end
  | FireFar => fire_far s
  | FireUlt => fire_ult s
  | Abort => abort s
  end.
Definition run (l : list op) : st := fold_left step l st0.
End Rtx.
