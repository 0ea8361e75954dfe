(** Model of ReorderBuffer (src/ReorderBuffer.cpp).  Times are integer ticks.  The callback onMessage may close the buffer
    ([closes]) but does nothing else to it.  A failed assertion and the use of an erased iterator are [UB]. *)
From Verif Require Import Base.
Open Scope res_scope.

(** ReorderBuffer.hpp 33-40; for a message delivered at once [q_time] is the time of insertion *)
Record rmsg := mkRmsg { q_data : list Z; q_seq : Z; q_count : Z; q_time : Z }.
(** ReorderBuffer.hpp 51-57.  [b_period]: None is INFINITY.  [b_timer]: when the timer is due.  [b_map]: the std::map in key
    order.  [b_open]: onMessage is set.  [b_out]: what was passed to onMessage so far, with isLate. *)
Record rbuf := mkBuf {
  b_csn : Z; b_thru : Z; b_high : Z; b_period : option Z; b_timer : option Z; b_map : list (Z * rmsg); b_list : list rmsg; b_open : bool;
  b_out : list (rmsg * bool) }.

(** ReorderBuffer.cpp 10-13: _lastSN *)
Definition last_sn (m : rmsg) : Z := wrap64 (q_seq m + q_count m - (if q_count m =? 0 then 0 else 1)).
(** 23-28: the constructor.  m_highestSeen is not initialised: it has some value [high]. *)
Definition buf_init (high : Z) (period : option Z) : rbuf :=
  mkBuf 0 0 high (match period with Some p => Some (Z.max p 0) | None => None end) None [] [] true [].

(** 98-101: shouldDeliverNow *)
Definition deliver_now (b : rbuf) (seq : Z) : bool := seq <=? wrap64 (b_csn b + 1).
(** 35-46: close *)
Definition buf_close (b : rbuf) : rbuf := mkBuf (b_csn b) (b_thru b) (b_high b) (b_period b) None [] [] false (b_out b).
(** 108-117: deliverMessage; answers whether the callback closed the buffer *)
Definition deliver_message (closes : rmsg -> bool) (b : rbuf) (m : rmsg) : rbuf * bool :=
  let l := last_sn m in
  let b1 := mkBuf (b_csn b) (b_thru b) (b_high b) (b_period b) (b_timer b) (b_map b) (b_list b) (b_open b)
                  (if b_open b then b_out b ++ [(m, l <? b_thru b)] else b_out b) in
  let closed := b_open b && closes m in
  let b2 := if closed then buf_close b1 else b1 in
  (mkBuf (Z.max (b_csn b2) l) (Z.max (b_thru b2) l) (b_high b2) (b_period b2) (b_timer b2) (b_map b2) (b_list b2) (b_open b2) (b_out b2), closed).

(** 163-178: findCSN; the loop takes messages off the list *)
Fixpoint find_csn_loop (deadline : option Z) (csn : Z) (l : list rmsg) : Z * list rmsg :=
  match l with
  | [] => (csn, [])
  | m :: r =>
      if (q_seq m <=? wrap64 (csn + 1)) || (match deadline with Some d => q_time m <=? d | None => false end)
      then find_csn_loop deadline (Z.max csn (last_sn m)) r else (csn, l)
  end.
Definition find_csn (now : Z) (b : rbuf) : rbuf :=
  let (c, l) := find_csn_loop (match b_period b with Some p => Some (now - p) | None => None end) (b_csn b) (b_list b) in
  mkBuf c (b_thru b) (b_high b) (b_period b) (b_timer b) (b_map b) l (b_open b) (b_out b).
(** 150-160: scheduleDelivery *)
Definition schedule_delivery (b : rbuf) : rbuf :=
  match b_list b, b_period b, b_timer b with
  | m :: _, Some p, None => mkBuf (b_csn b) (b_thru b) (b_high b) (b_period b) (Some (q_time m + p)) (b_map b) (b_list b) (b_open b) (b_out b)
  | _, _, _ => b
  end.
(** 124-135: the loop of tryDeliver *)
Fixpoint deliver_loop (closes : rmsg -> bool) (fuel : nat) (b : rbuf) : res rbuf :=
  match fuel with
  | O => UB
  | S fuel' =>
      match b_map b with
      | [] => Ok b
      | (k, m) :: rest =>
          if deliver_now b k then
            let (b1, closed) := deliver_message closes b m in
            if (closed : bool) then UB (* erase(it), it having been invalidated by clear() *)
            else deliver_loop closes fuel' (mkBuf (b_csn b1) (b_thru b1) (b_high b1) (b_period b1) (b_timer b1) rest (b_list b1) (b_open b1) (b_out b1))
          else Ok b
      end
  end.
(** 119-142: tryDeliver *)
Definition try_deliver (closes : rmsg -> bool) (now : Z) (b : rbuf) : res rbuf :=
  let b1 := find_csn now b in
  b2 <- deliver_loop closes (S (length (b_map b1))) b1;;
  let b3 := find_csn now b2 in
  let b4 := schedule_delivery b3 in
  if Bool.eqb (match b_map b4 with [] => true | _ => false end) (match b_list b4 with [] => true | _ => false end) then Ok b4 else UB.

Fixpoint map_set (k : Z) (m : rmsg) (l : list (Z * rmsg)) : list (Z * rmsg) :=
  match l with
  | [] => [(k, m)]
  | (k', m') :: r => if k <? k' then (k, m) :: l else if k =? k' then (k, m) :: r else (k', m') :: map_set k m r
  end.
(** 143-149: queueMessage *)
Definition queue_message (b : rbuf) (m : rmsg) : rbuf :=
  schedule_delivery (mkBuf (b_csn b) (b_thru b) (b_high b) (b_period b) (b_timer b) (map_set (q_seq m) m (b_map b)) (b_list b ++ [m]) (b_open b) (b_out b)).
(** 66-77: insert *)
Definition buf_insert (closes : rmsg -> bool) (now : Z) (b : rbuf) (m : rmsg) : res rbuf :=
  let b0 := mkBuf (b_csn b) (b_thru b) (Z.max (b_high b) (last_sn m)) (b_period b) (b_timer b) (b_map b) (b_list b) (b_open b) (b_out b) in
  if deliver_now b0 (q_seq m) then let (b1, _) := deliver_message closes b0 m in try_deliver closes now b1
  else Ok (queue_message b0 m).
(** 79-86: deliverThrough *)
Definition deliver_through (closes : rmsg -> bool) (now : Z) (b : rbuf) (n : Z) : res rbuf :=
  if n >? b_csn b then try_deliver closes now (mkBuf n (b_thru b) (b_high b) (b_period b) (b_timer b) (b_map b) (b_list b) (b_open b) (b_out b)) else Ok b.
(** 88-91: flush *)
Definition buf_flush (closes : rmsg -> bool) (now : Z) (b : rbuf) : res rbuf := deliver_through closes now b (b_high b).
(** 48-59: setReorderWindowPeriod *)
Definition set_period (b : rbuf) (val : option Z) : rbuf :=
  let v := match val with Some p => Some (if p <? 0 then 0 else p) | None => None end in
  let same := match v, b_period b with Some x, Some y => x =? y | None, None => true | _, _ => false end in
  if same then b
  else schedule_delivery (mkBuf (b_csn b) (b_thru b) (b_high b) v None (b_map b) (b_list b) (b_open b) (b_out b)).
(** 153-158: the timer's action; it runs when the timer is due *)
Definition buf_timer (closes : rmsg -> bool) (now : Z) (b : rbuf) : res rbuf :=
  match b_timer b with
  | Some t => if t <=? now then try_deliver closes now (mkBuf (b_csn b) (b_thru b) (b_high b) (b_period b) None (b_map b) (b_list b) (b_open b) (b_out b)) else Ok b
  | None => Ok b
  end.

Inductive bop := BInsert (data : list Z) (seq count : Z) | BThrough (n : Z) | BFlush | BTimer | BPeriod (p : option Z) | BClose.
(** One call, made at time [now]. *)
Definition bstep (closes : rmsg -> bool) (now : Z) (o : bop) (b : rbuf) : res rbuf :=
  match o with
  | BInsert d s c => buf_insert closes now b (mkRmsg d s c now)
  | BThrough n => deliver_through closes now b n
  | BFlush => buf_flush closes now b
  | BTimer => buf_timer closes now b
  | BPeriod p => Ok (set_period b p)
  | BClose => Ok (buf_close b)
  end.
Fixpoint brun (closes : rmsg -> bool) (ops : list (Z * bop)) (b : rbuf) : res rbuf :=
  match ops with [] => Ok b | (now, o) :: ops => b' <- bstep closes now o b;; brun closes ops b' end.
