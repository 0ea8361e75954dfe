(** Model of src/FlowSyncManager.cpp (all of it), with RecvFlow::setReceiveOrder of src/RecvFlow.cpp. *)
From Verif Require Import Base TC.
Open Scope res_scope.

(** include/rtmfp/rtmfp.hpp: enum ReceiveOrder *)
Inductive rorder := RO_SEQ | RO_NET | RO_HOLD.
Definition ro_eqb (a b : rorder) : bool := match a, b with RO_SEQ, RO_SEQ => true | RO_NET, RO_NET => true | RO_HOLD, RO_HOLD => true | _, _ => false end.

(** FlowSyncManager.hpp 44-52: m_barriers (a map: at most one entry for a key), m_nextSyncID; and what it changes outside: the
    receive order of every flow (flows are numbered), and the deliveries scheduled with the platform.  A flow handle may be
    empty. *)
Record fsync := { fs_bars : list (Z * list (option nat)); fs_next : Z; fs_ord : nat -> rorder; fs_woken : list nat }.

(** RecvFlow.cpp 103-112: setReceiveOrder; tryDelivery is not run here but scheduled *)
Definition set_order (s : fsync) (f : nat) (o : rorder) : fsync :=
  let washold := ro_eqb (fs_ord s f) RO_HOLD in
  {| fs_bars := fs_bars s; fs_next := fs_next s;
     fs_ord := fun g => if Nat.eqb g f then o else fs_ord s g;
     fs_woken := if andb washold (negb (ro_eqb o RO_HOLD)) then fs_woken s ++ [f] else fs_woken s |}.
Definition set_bars (s : fsync) (b : list (Z * list (option nat))) : fsync :=
  {| fs_bars := b; fs_next := fs_next s; fs_ord := fs_ord s; fs_woken := fs_woken s |}.

(** m_barriers[id]: an empty Barrier when there is none *)
Fixpoint bar_get (b : list (Z * list (option nat))) (id : Z) : list (option nat) :=
  match b with [] => [] | (k, l) :: r => if k =? id then l else bar_get r id end.
(** the entry for id becomes l *)
Fixpoint bar_set (b : list (Z * list (option nat))) (id : Z) (l : list (option nat)) : list (Z * list (option nat)) :=
  match b with [] => [(id, l)] | (k, x) :: r => if k =? id then (k, l) :: r else (k, x) :: bar_set r id l end.
Definition bar_del (b : list (Z * list (option nat))) (id : Z) : list (Z * list (option nat)) := filter (fun e => negb (fst e =? id)) b.

(** 10-19: Barrier::~Barrier, from the back *)
Definition release_one (s : fsync) (f : option nat) : fsync :=
  match f with
  | Some g => if ro_eqb (fs_ord s g) RO_HOLD then set_order s g RO_SEQ else s
  | None => s
  end.
Definition barrier_dtor (s : fsync) (l : list (option nat)) : fsync := fold_left release_one (rev l) s.

(** 44-47: reset: erase destroys the Barrier if there is one *)
Definition fs_reset (s : fsync) (id : Z) : fsync :=
  barrier_dtor (set_bars s (bar_del (fs_bars s) id)) (bar_get (fs_bars s) id).

(** 25-42: sync *)
Definition fs_sync (s : fsync) (id count : Z) (flow : option nat) : fsync * bool :=
  let l := bar_get (fs_bars s) id in
  let s1 := set_bars s (bar_set (fs_bars s) id l) in
  if count <=? zlen l + 1 then (fs_reset s1 id, true)
  else
    let s2 := set_bars s1 (bar_set (fs_bars s1) id (l ++ [flow])) in
    (match flow with
     | Some g => if ro_eqb (fs_ord s2 g) RO_SEQ then set_order s2 g RO_HOLD else s2
     | None => s2
     end, false).

(** the implicit destructor: destroys the map's Barriers *)
Definition fs_destroy (s : fsync) : fsync := fold_left (fun s e => barrier_dtor s (snd e)) (fs_bars s) (set_bars s []).

(** 21-23 *)
Definition fs_init (ord : nat -> rorder) : fsync := {| fs_bars := []; fs_next := 0; fs_ord := ord; fs_woken := [] |}.

(** 54-71: makeSyncMessage(syncID, count) (TCMSG_USER_CONTROL 4, TC_USERCONTROL_FLOW_SYNC 34) *)
Definition sync_message (id count : Z) : list Z :=
  tc_message 4 0 []
   ++ [Z.land (Z.shiftr 34 8) 255] ++ [Z.land 34 255]
   ++ [Z.land (Z.shiftr id 24) 255] ++ [Z.land (Z.shiftr id 16) 255] ++ [Z.land (Z.shiftr id 8) 255] ++ [Z.land id 255]
   ++ [Z.land (Z.shiftr count 24) 255] ++ [Z.land (Z.shiftr count 16) 255] ++ [Z.land (Z.shiftr count 8) 255] ++ [Z.land count 255].
(** 49-52: makeSyncMessage(count) *)
Definition fs_make (s : fsync) (count : Z) : list Z * fsync :=
  (sync_message (fs_next s) count,
   {| fs_bars := fs_bars s; fs_next := wrap32 (fs_next s + 1); fs_ord := fs_ord s; fs_woken := fs_woken s |}).

(** successive calls of it *)
Fixpoint fs_makes (s : fsync) (cs : list Z) : list (list Z) :=
  match cs with [] => [] | c :: r => fst (fs_make s c) :: fs_makes (snd (fs_make s c)) r end.

(** 92-93: (a << 24) | (b << 16) | (c << 8) | d, an int: the top bit of a is the sign (the shift is modulo 2^32, as every
    compiler in use has it) *)
Definition int_be (a b c d : Z) : Z := to_i32 (wrap32 (Z.lor (Z.lor (Z.lor (Z.shiftl a 24) (Z.shiftl b 16)) (Z.shiftl c 8)) d)).
(** 87-97: parseUserCommandPayload; the int is converted to uint32_t and to size_t *)
Definition sync_payload (l : list Z) : res (Z * Z * nat) :=
  if zlen l <? 8 then Rej
  else
    p0 <- rd l 0;; p1 <- rd l 1;; p2 <- rd l 2;; p3 <- rd l 3;;
    p4 <- rd l 4;; p5 <- rd l 5;; p6 <- rd l 6;; p7 <- rd l 7;;
    Ok (wrap32 (int_be p0 p1 p2 p3), wrap64 (int_be p4 p5 p6 p7), 8%nat).
(** 73-85: parse; answers ID, count and length; [Rej] is 0 *)
Definition sync_parse (l : list Z) : res (Z * Z * nat) :=
  if zlen l <? 15 then Rej
  else
    a <- rd l 0;;
    if negb (4 =? a) then Rej else
    b <- rd l 5;;
    if negb (Z.land (Z.shiftr 34 8) 255 =? b) then Rej else
    c <- rd l 6;;
    if negb (Z.land 34 255 =? c) then Rej else
    match sync_payload (skipn 7 l) with
    | Ok (id, count, rv) => Ok (id, count, (7 + rv)%nat)
    | Rej => Rej
    | UB => UB
    end.

(** What can happen: sync, reset, and the owner of a flow giving it another receive order. *)
Inductive fop := FSync (id count : Z) (f : option nat) | FReset (id : Z) | FOrder (f : nat) (o : rorder).
(** the answer of sync is noted *)
Definition fstep (s : fsync) (o : fop) : fsync * option (Z * bool) :=
  match o with
  | FSync id n f => let r := fs_sync s id n f in (fst r, Some (id, snd r))
  | FReset id => (fs_reset s id, None)
  | FOrder f o => (set_order s f o, None)
  end.
Fixpoint frun (s : fsync) (os : list fop) : fsync * list (option (Z * bool)) :=
  match os with
  | [] => (s, [])
  | o :: r => let x := fstep s o in let y := frun (fst x) r in (fst y, snd x :: snd y)
  end.
