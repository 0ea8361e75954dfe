(** What an acknowledgement means. *)
From Verif Require Import Base VLU LinkedList RecvFlow RecvFlowSpec Ack.

(** The numbers an acknowledgement covers. *)
Definition acked (k : ackinfo) (i : Z) : Prop := i <= k_cum k \/ exists a b, In (a, b) (k_ranges k) /\ a <= i <= b.

(** The acknowledgement [k] of flow [flow] after the history [es]: it covers exactly what was received or declared abandoned, up to
    some number when truncation is allowed, and without limit otherwise. *)
Definition fits_ack (es : list revent) (f : rf) (flow : Z) (tr : bool) (k : ackinfo) : Prop :=
  k_flow k = flow /\ k_bytes k = Z.min U64MAX (1024 * advertise f) /\ k_cum k = csn f
  /\ exists N, (forall i, 1 <= i -> (acked k i <-> covered es i /\ i <= N)) /\ (tr = false -> N = U64MAX).

(** The chunks that go with the acknowledgement: an ECN report and, for a rejected flow, the exception. *)
Definition ack_before (f : rf) (flow : Z) (ecn : option Z) : list (Z * list Z) :=
  match ecn with None => [] | Some c => [(236, [c])] end
  ++ (if f_state f =? 1 then [(94, vlu_encode flow ++ vlu_encode (f_exc f))] else []).

(** The window to advertise, in 1024-byte blocks: the free buffer space, limited by the window limit, rounded up; at least one
    block unless the application set the capacity or the limit to 0 or put the flow on hold. *)
Definition window (f : rf) : Z :=
  let blocks := (Z.max 0 (Z.min (f_cap f - s_sum (f_buf f)) (f_win f)) + 1023) / 1024 in
  if (f_cap f >? 0) && (f_win f >? 0) && match f_order f with RO_HOLD => false | _ => true end then Z.max 1 blocks else blocks.
