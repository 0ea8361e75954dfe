(** Specification vocabulary for RTMP chunk streams. *)
From Verif Require Import Base RTMP.

(** Well-formed operations of a sender. *)
Definition msg_ok (m : msg) : Prop := is_u32 (g_sid m) /\ is_byte (g_type m) /\ is_u32 (g_ts m) /\ bytes_ok (g_data m).
Definition sop_ok (o : sop) : Prop :=
  match o with SWrite pri m => (pri < 8)%nat /\ msg_ok m | SAckn v _ | SWindow v _ => is_u32 v | _ => True end.
(** A message the user may write: it fits, and is not one of the messages of the protocol itself. *)
Definition sendable (m : msg) : bool := (zlen (g_data m) <? 2 ^ 24) && negb (existsb (Z.eqb (g_type m)) [1; 2; 3; 5; 6]).
(** The messages written at a priority: until the connection is closed. *)
Fixpoint written (pri : nat) (l : list sop) : list msg :=
  match l with
  | [] | SClose :: _ => []
  | SWrite p m :: l => (if (p =? pri)%nat && sendable m then [m] else []) ++ written pri l
  | _ :: l => written pri l
  end.
(** The messages completed, in order; the messages that left a queue, in order, completed or abandoned. *)
Definition finished (s : sender) : list msg := flat_map (fun e => match e with (_, m, true) => [m] | _ => [] end) (w_log s).
Definition left_queue (pri : nat) (s : sender) : list msg := flat_map (fun e => match e with (p, m, _) => if (p =? pri)%nat then [m] else [] end) (w_log s).
