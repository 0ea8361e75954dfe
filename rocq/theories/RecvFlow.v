(** Model of RecvFlow (src/RecvFlow.cpp, include/rtmfp/rtmfp.hpp 329-405): the receiving side of a flow.
    [Rej] here is an uncaught std::out_of_range from List::at.
    Not modelled: metadata, the associated flow, the session's acknowledgement timers (only "an ack is due" and "ackNow was called"). *)
From Verif Require Import Base IndexSet LinkedList.
Open Scope res_scope.

(** packet.hpp: USERDATA_FLAG_*, USERDATA_FRA_* *)
Definition FLAG_ABN : Z := 2.
Definition FLAG_FIN : Z := 1.
Definition FRA_MASK : Z := 48.
Definition FRA_WHOLE : Z := 0.
Definition FRA_BEGIN : Z := 16.
Definition FRA_END : Z := 32.
Definition FRA_MIDDLE : Z := 48.

(** RecvFlow.cpp 14-38: struct RecvFrag *)
Record frag := mkFrag { g_seq : Z; g_start : Z; g_end : Z; g_fra : Z; g_data : list Z }.
Definition set_start (g : frag) (n : Z) : frag := mkFrag (g_seq g) n (g_end g) (g_fra g) (g_data g).
Definition set_end (g : frag) (n : Z) : frag := mkFrag (g_seq g) (g_start g) n (g_fra g) (g_data g).
(** 29-37; params.hpp 49: FRAGMENT_SIZE_BIAS.  The blank (null) value has size 0 and is never a list member. *)
Definition frag_size (g : frag) : Z := zlen (g_data g) + 64.
Definition frag_blank : frag := mkFrag 0 (-1) (-1) 0 [].

(** rtmfp.hpp 28-32 *)
Inductive order := RO_SEQUENCE | RO_NETWORK | RO_HOLD.
Definition order_eqb (a b : order) : bool :=
  match a, b with RO_SEQUENCE, RO_SEQUENCE | RO_NETWORK, RO_NETWORK | RO_HOLD, RO_HOLD => true | _, _ => false end.
(** rtmfp.hpp 386: enum State *)
Definition RF_OPEN : Z := 0.
Definition RF_REJECTED : Z := 1.
Definition RF_COMPLETE_LINGER : Z := 2.
Definition RF_CLOSED : Z := 3.

(** What the application may do to the flow, from outside or from inside one of its callbacks. *)
Inductive act := AClose (reason : Z) | AOrder (o : order) | ACapacity (n : Z) | AWindow (n : Z).
(** Calls out to the application: onMessage, onComplete, onCumulativeAckDidMerge. *)
Inductive out := OMsg (data : list Z) (seq count : Z) | OComplete (error : bool) | OMerge.

(** rtmfp.hpp 388-404.  [f_hooks]: onMessage, onComplete and onCumulativeAckDidMerge are set (the application sets all three
    when it accepts the flow; close() unsets all three).  [f_script]: what the application will do inside each of its next
    callbacks.  [f_out]: the callbacks made so far, oldest first. *)
Record rf := mkRf {
  f_set : list (Z * Z); f_buf : sumlist frag; f_fwd : Z; f_fin : Z; f_finseen : bool; f_state : Z;
  f_accepted : bool; f_baseopen : bool; f_order : order; f_hooks : bool;
  f_cap : Z; f_win : Z; f_prev_rwnd : Z; f_should_ack : bool; f_acknow : bool; f_exc : Z;
  f_script : list (list act); f_out : list out }.

Definition with_set (f : rf) x := mkRf x (f_buf f) (f_fwd f) (f_fin f) (f_finseen f) (f_state f) (f_accepted f) (f_baseopen f) (f_order f) (f_hooks f) (f_cap f) (f_win f) (f_prev_rwnd f) (f_should_ack f) (f_acknow f) (f_exc f) (f_script f) (f_out f).
Definition with_buf (f : rf) x := mkRf (f_set f) x (f_fwd f) (f_fin f) (f_finseen f) (f_state f) (f_accepted f) (f_baseopen f) (f_order f) (f_hooks f) (f_cap f) (f_win f) (f_prev_rwnd f) (f_should_ack f) (f_acknow f) (f_exc f) (f_script f) (f_out f).
Definition with_fwd (f : rf) x := mkRf (f_set f) (f_buf f) x (f_fin f) (f_finseen f) (f_state f) (f_accepted f) (f_baseopen f) (f_order f) (f_hooks f) (f_cap f) (f_win f) (f_prev_rwnd f) (f_should_ack f) (f_acknow f) (f_exc f) (f_script f) (f_out f).
Definition with_final (f : rf) x := mkRf (f_set f) (f_buf f) (f_fwd f) x true (f_state f) (f_accepted f) (f_baseopen f) (f_order f) (f_hooks f) (f_cap f) (f_win f) (f_prev_rwnd f) (f_should_ack f) (f_acknow f) (f_exc f) (f_script f) (f_out f).
Definition with_state (f : rf) x := mkRf (f_set f) (f_buf f) (f_fwd f) (f_fin f) (f_finseen f) x (f_accepted f) (f_baseopen f) (f_order f) (f_hooks f) (f_cap f) (f_win f) (f_prev_rwnd f) (f_should_ack f) (f_acknow f) (f_exc f) (f_script f) (f_out f).
Definition with_accepted (f : rf) := mkRf (f_set f) (f_buf f) (f_fwd f) (f_fin f) (f_finseen f) (f_state f) true (f_baseopen f) (f_order f) (f_hooks f) (f_cap f) (f_win f) (f_prev_rwnd f) (f_should_ack f) (f_acknow f) (f_exc f) (f_script f) (f_out f).
Definition with_closed (f : rf) := mkRf (f_set f) (f_buf f) (f_fwd f) (f_fin f) (f_finseen f) (f_state f) (f_accepted f) false (f_order f) false (f_cap f) (f_win f) (f_prev_rwnd f) (f_should_ack f) (f_acknow f) (f_exc f) (f_script f) (f_out f).
Definition with_order (f : rf) x := mkRf (f_set f) (f_buf f) (f_fwd f) (f_fin f) (f_finseen f) (f_state f) (f_accepted f) (f_baseopen f) x (f_hooks f) (f_cap f) (f_win f) (f_prev_rwnd f) (f_should_ack f) (f_acknow f) (f_exc f) (f_script f) (f_out f).
Definition with_cap (f : rf) x := mkRf (f_set f) (f_buf f) (f_fwd f) (f_fin f) (f_finseen f) (f_state f) (f_accepted f) (f_baseopen f) (f_order f) (f_hooks f) x (f_win f) (f_prev_rwnd f) (f_should_ack f) (f_acknow f) (f_exc f) (f_script f) (f_out f).
Definition with_win (f : rf) x := mkRf (f_set f) (f_buf f) (f_fwd f) (f_fin f) (f_finseen f) (f_state f) (f_accepted f) (f_baseopen f) (f_order f) (f_hooks f) (f_cap f) x (f_prev_rwnd f) (f_should_ack f) (f_acknow f) (f_exc f) (f_script f) (f_out f).
Definition with_rwnd (f : rf) x := mkRf (f_set f) (f_buf f) (f_fwd f) (f_fin f) (f_finseen f) (f_state f) (f_accepted f) (f_baseopen f) (f_order f) (f_hooks f) (f_cap f) (f_win f) x false (f_acknow f) (f_exc f) (f_script f) (f_out f).
Definition with_ack (f : rf) now := mkRf (f_set f) (f_buf f) (f_fwd f) (f_fin f) (f_finseen f) (f_state f) (f_accepted f) (f_baseopen f) (f_order f) (f_hooks f) (f_cap f) (f_win f) (f_prev_rwnd f) true (f_acknow f || now) (f_exc f) (f_script f) (f_out f).
Definition with_exc (f : rf) x := mkRf (f_set f) (f_buf f) (f_fwd f) (f_fin f) (f_finseen f) (f_state f) (f_accepted f) (f_baseopen f) (f_order f) (f_hooks f) (f_cap f) (f_win f) (f_prev_rwnd f) (f_should_ack f) (f_acknow f) x (f_script f) (f_out f).
Definition with_out (f : rf) s o := mkRf (f_set f) (f_buf f) (f_fwd f) (f_fin f) (f_finseen f) (f_state f) (f_accepted f) (f_baseopen f) (f_order f) (f_hooks f) (f_cap f) (f_win f) (f_prev_rwnd f) (f_should_ack f) (f_acknow f) (f_exc f) s o.

(** RecvFlow.cpp 41-60; params.hpp 27.  The callbacks are set from the start: none is called before accept(). *)
Definition rf_init (script : list (list act)) : res rf :=
  b <- sum_init frag_blank;;
  Ok (mkRf [] b 0 0 false RF_OPEN false true RO_SEQUENCE true 65536 U64MAX 0 false false 0 script []).

(** 66-69 and Flow.cpp 27-30 *)
Definition is_open (f : rf) : bool := f_baseopen f && f_accepted f.
(** 156-159 *)
Definition csn (f : rf) : Z := r_end (is_first_range (f_set f)).

(** 71-90, 92-96 and Flow.cpp 32-36 (scheduleAck 414-425 inlined as [with_ack]) *)
Definition close (f : rf) : res rf :=
  let f1 := if f_state f =? RF_OPEN then with_ack (with_state f RF_REJECTED) true else f in
  b <- sum_clear frag_size (f_buf f1);;
  Ok (with_closed (with_buf f1 b)).

(** 92-96, 103-112, 124-128, 140-144.  The tryDelivery that setReceiveOrder defers is the event [EvTry] below. *)
Definition do_act (f : rf) (a : act) : res rf :=
  match a with
  | AClose reason => close (with_exc f reason)
  | AOrder o => Ok (with_order f o)
  | ACapacity n => Ok (with_ack (with_cap f n) true)
  | AWindow n => Ok (with_ack (with_win f n) true)
  end.
Fixpoint do_acts (f : rf) (l : list act) : res rf :=
  match l with [] => Ok f | a :: r => f1 <- do_act f a;; do_acts f1 r end.
(** A call out to the application, which acts according to its script. *)
Definition callback (f : rf) (o : out) : res rf :=
  do_acts (with_out f (tl (f_script f)) (f_out f ++ [o])) (hd [] (f_script f)).

(** 188-196 *)
Definition close_and_notify (f : rf) (error : bool) : res rf :=
  let wasOpen := is_open f in
  let hooked := f_hooks f in
  f1 <- close f;;
  if wasOpen && hooked then callback f1 (OComplete error) else Ok f1.
(** 179-186 *)
Definition abort (f : rf) : res rf := f1 <- close_and_notify f true;; Ok (with_state f1 RF_CLOSED).

(** at(name), and assignment to a field of the fragment at(name) points to *)
Definition b_at (b : sumlist frag) (n : Z) : res frag := at_ (s_list b) n.
Definition b_put (b : sumlist frag) (n : Z) (g : frag) : res (sumlist frag) := l <- set_at (s_list b) n g;; Ok (mkSum l (s_sum b)).

(** 281-285 *)
Fixpoint find_place (fuel : nat) (b : sumlist frag) (seq name : Z) : res Z :=
  match fuel with
  | O => UB
  | S fuel' =>
      if name >? 0 then
        g <- b_at b name;;
        if g_seq g <? seq then Ok name else p <- prev (s_list b) name;; find_place fuel' b seq p
      else Ok name
  end.

(** 276-328 *)
Definition insert_fragment (b : sumlist frag) (seq flags : Z) (data : list Z) : res (sumlist frag * Z) :=
  let fra := Z.land flags FRA_MASK in
  l <- last_ (s_list b);;
  place <- find_place (Z.to_nat (l_n (s_list b))) b seq l;;
  ' (b0, name) <- sum_add_value frag_size b (mkFrag seq (-1) (-1) fra data) place true;;
  g0 <- b_at b0 name;;
  b1 <- b_put b0 name (set_start (set_end g0 name) name);;
  if fra =? FRA_WHOLE then Ok (b1, name)
  else
    b2 <- (if negb (fra =? FRA_BEGIN) then
             p <- prev (s_list b1) name;;
             if p >? 0 then
               pg <- b_at b1 p;;
               if g_seq pg =? wrap64 (seq - 1) then g <- b_at b1 name;; b_put b1 name (set_start g (g_start pg)) else Ok b1
             else Ok b1
           else Ok b1);;
    b3 <- (if negb (fra =? FRA_END) then
             n <- next (s_list b2) name;;
             if n >? 0 then
               ng <- b_at b2 n;;
               if g_seq ng =? wrap64 (seq + 1) then g <- b_at b2 name;; b_put b2 name (set_end g (g_end ng)) else Ok b2
             else Ok b2
           else Ok b2);;
    g3 <- b_at b3 name;;
    ' (b4, hasBegin) <- (if negb (g_start g3 =? name) then
             sg <- b_at b3 (g_start g3);;
             b' <- b_put b3 (g_start g3) (set_end sg (g_end g3));;
             Ok (b', g_fra sg =? FRA_BEGIN)
           else Ok (b3, fra =? FRA_BEGIN));;
    g4 <- b_at b4 name;;
    ' (b5, hasEnd) <- (if negb (g_end g4 =? name) then
             eg <- b_at b4 (g_end g4);;
             b' <- b_put b4 (g_end g4) (set_start eg (g_start g4));;
             Ok (b', g_fra eg =? FRA_END)
           else Ok (b4, fra =? FRA_END));;
    g5 <- b_at b5 name;;
    Ok (b5, if hasBegin && hasEnd then g_start g5 else -1).

(** 345-357: length and number of fragments.  More iterations than nodes is [UB] here. *)
Fixpoint measure (fuel : nat) (b : sumlist frag) (name len count : Z) : res (Z * Z) :=
  match fuel with
  | O => UB
  | S fuel' =>
      g <- b_at b name;;
      if g_fra g =? FRA_END then Ok (len + zlen (g_data g), count + 1)
      else n <- next (s_list b) name;; measure fuel' b n (len + zlen (g_data g)) (count + 1)
  end.
(** 359-373: copying into the [len]-byte buffer; writing past its end is [UB]. *)
Fixpoint collect (fuel : nat) (b : sumlist frag) (name len : Z) (buf : list Z) : res (sumlist frag * list Z) :=
  match fuel with
  | O => UB
  | S fuel' =>
      n <- next (s_list b) name;;
      g <- b_at b name;;
      if zlen buf + zlen (g_data g) >? len then UB
      else
        ' (b1, _) <- sum_remove frag_size b name;;
        if g_fra g =? FRA_END then Ok (b1, buf ++ g_data g)
        else collect fuel' b1 n len (buf ++ g_data g)
  end.

(** 330-377 *)
Definition deliver (f : rf) (start : Z) : res rf :=
  let f0 := if f_prev_rwnd f <? 2 then with_ack f true else f in
  g <- b_at (f_buf f0) start;;
  if g_fra g =? FRA_WHOLE then
    f1 <- (if f_hooks f0 then callback f0 (OMsg (g_data g) (g_seq g) 1) else Ok f0);;
    ' (b, _) <- sum_remove frag_size (f_buf f1) start;;
    Ok (with_buf f1 b)
  else
    let fuel := Z.to_nat (l_n (s_list (f_buf f0))) in
    ' (len, count) <- measure fuel (f_buf f0) start 0 0;;
    ' (b, data) <- collect fuel (f_buf f0) start len [];;
    let f1 := with_buf f0 b in
    (* buf is value-initialised: what was not written reads as zero *)
    if f_hooks f1 then callback f1 (OMsg (data ++ repeat 0 (Z.to_nat (len - zlen data))) (g_seq g) count) else Ok f1.

(** 384-408.  More iterations than nodes is [UB] here. *)
Fixpoint delivery_loop (fuel : nat) (f : rf) (c : Z) : res rf :=
  match fuel with
  | O => UB
  | S fuel' =>
      if negb (order_eqb (f_order f) RO_HOLD) && is_open f && negb (size (s_list (f_buf f)) =? 0) then
        name <- first (s_list (f_buf f));;
        g <- b_at (f_buf f) name;;
        if g_seq g >? c then Ok f
        else if g_fra g =? FRA_WHOLE then f1 <- deliver f name;; delivery_loop fuel' f1 c
        else if negb (g_fra g =? FRA_BEGIN) then
          ' (b, _) <- sum_remove frag_size (f_buf f) name;; delivery_loop fuel' (with_buf f b) c
        else
          eg <- b_at (f_buf f) (g_end g);;
          if g_fra eg =? FRA_END then f1 <- deliver f name;; delivery_loop fuel' f1 c
          else if g_seq eg <? c then
            ' (b, _) <- sum_remove frag_size (f_buf f) name;; delivery_loop fuel' (with_buf f b) c
          else Ok f
      else Ok f
  end.

(** 379-412 *)
Definition try_delivery (f : rf) (hint : Z) : res rf :=
  f1 <- (if (hint >? 0) && order_eqb (f_order f) RO_NETWORK && is_open f then deliver f hint else Ok f);;
  let c := csn f1 in
  f2 <- delivery_loop (Z.to_nat (l_n (s_list (f_buf f1)))) f1 c;;
  e <- empty (s_list (f_buf f2));;
  if f_finseen f2 && (f_fin f2 <=? c) && e then close_and_notify f2 false else Ok f2.

(** 198-274 *)
Definition on_data (f : rf) (flags seq fsn : Z) (data : list Z) : res rf :=
  let fresh := negb (is_contains (f_set f) seq) in
  let abandoned := negb (Z.land flags FLAG_ABN =? 0) in
  let preRangeCount := is_count_ranges (f_set f) in
  let ack_now := (f_prev_rwnd f <? 2) || abandoned || negb (Nat.eqb preRangeCount 1) || negb fresh in
  let newfin := fresh && negb (Z.land flags FLAG_FIN =? 0) && negb (f_finseen f) in
  let f1 := if newfin then with_final f seq else f in
  let f2 := if fsn >? f_fwd f1 then with_fwd f1 fsn else f1 in
  let preCSN := csn f2 in
  let f3 := with_set f2 (is_add (is_add (f_set f2) 0 fsn) seq seq) in
  let postRangeCount := is_count_ranges (f_set f3) in
  ' (f4, hint) <- (if fresh && negb abandoned && (f_state f3 =? RF_OPEN) then
                     ' (b, h) <- insert_fragment (f_buf f3) seq flags data;; Ok (with_buf f3 b, h)
                   else Ok (f3, -1));;
  let lingers := f_finseen f4 && (f_state f4 <? RF_COMPLETE_LINGER) && Nat.eqb (is_count_ranges (f_set f4)) 1 in
  let f5 := if lingers then with_state f4 RF_COMPLETE_LINGER else f4 in
  f6 <- try_delivery f5 hint;;
  let changed := negb (Nat.eqb preRangeCount postRangeCount) in
  f7 <- (if changed && Nat.ltb postRangeCount preRangeCount && order_eqb (f_order f6) RO_NETWORK && (f_state f6 =? RF_OPEN)
            && (preCSN <? csn f6) && f_hooks f6
         then callback f6 OMerge else Ok f6);;
  Ok (with_ack f7 (ack_now || newfin || lingers || changed || negb (f_state f7 =? RF_OPEN))).

(** 431-442: the advertisement of an acknowledgement *)
Definition advertise_blocks (f : rf) : Z :=
  let buffered := s_sum (f_buf f) in
  let bytes := if buffered >=? f_cap f then 0 else Z.min (f_cap f - buffered) (f_win f) in
  let blocks := wrap64 (bytes + 1023) / 1024 in
  if (blocks =? 0) && (f_cap f >? 0) && (f_win f >? 0) && negb (order_eqb (f_order f) RO_HOLD) then 1 else blocks.

(** Everything that can happen to a receiving flow.  [EvTry] is the deferred tryDelivery(-1) of setReceiveOrder (109-110), here
    allowed at any time; [EvAck] is a successful assembleAck (its effect on the flow, 479-480); [EvLinger] the complete-linger
    alarm (245-252). *)
Inductive revent :=
| EvAccept | EvData (flags seq fsn : Z) (data : list Z) | EvTry | EvAct (a : act) | EvAck | EvLinger | EvAbort.

Definition rf_step (f : rf) (e : revent) : res rf :=
  match e with
  | EvAccept => Ok (with_accepted f)
  | EvData flags seq fsn data => on_data f flags seq fsn data
  | EvTry => try_delivery f (-1)
  | EvAct a => do_act f a
  | EvAck => Ok (with_rwnd f (advertise_blocks f))
  | EvLinger => Ok (if f_state f <? RF_CLOSED then with_state f RF_CLOSED else f)
  | EvAbort => abort f
  end.
Fixpoint rf_run (f : rf) (es : list revent) : res rf :=
  match es with [] => Ok f | e :: r => f1 <- rf_step f e;; rf_run f1 r end.

(** The messages among the callbacks. *)
Definition msgs_of (os : list out) : list (list Z * Z * Z) :=
  flat_map (fun o => match o with OMsg d s c => [(d, s, c)] | _ => [] end) os.
