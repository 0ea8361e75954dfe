(** Model of WriteReceipt, IssuerWriteReceipt and WriteReceiptChain (src/WriteReceipt.cpp, include/rtmfp/WriteReceipt.hpp).
    Simplifications: a Time is an integer number of ticks or +infinity (NaN and rounding of origin+duration are left out);
    onFinished callbacks are recorded, what the application does in them comes after as further operations. *)
From Verif Require Import Base.

(** A deadline: [None] is +infinity. *)
Notation deadline := (option Z) (only parsing).
Definition passed (now : Z) (t : option Z) : bool := match t with None => false | Some t => now >? t end.
Definition after (origin : Z) (d : option Z) : option Z := match d with None => None | Some d => Some (origin + d) end.
Definition earlier (a b : option Z) : option Z :=
  match a, b with None, _ => b | _, None => a | Some x, Some y => Some (Z.min x y) end.

(** WriteReceipt.hpp 27-61.  [c_hook]: onFinished is set.  [c_parent]: the receipt the shared_ptr [parent] points to. *)
Record rcpt := mkRcpt {
  c_start : option Z; c_finish : option Z; c_rtx : bool; c_parent : option nat; c_origin : Z;
  c_started : bool; c_aband : bool; c_use : Z; c_hook : bool }.

(** All receipts made so far (a shared_ptr is a position) and the onFinished calls made so far, oldest first. *)
Record rstate := mkRS { rs_all : list rcpt; rs_log : list (nat * bool) }.
Definition rs_init : rstate := mkRS [] [].

Definition c_none : rcpt := mkRcpt None None true None 0 false false 0 false.
Definition rget (s : rstate) (i : nat) : rcpt := nth i (rs_all s) c_none.
Fixpoint lset_nth {A} (l : list A) (i : nat) (x : A) : list A :=
  match l, i with [], _ => [] | _ :: r, O => x :: r | y :: r, S i' => y :: lset_nth r i' x end.
Definition rset (s : rstate) (i : nat) (c : rcpt) : rstate := mkRS (lset_nth (rs_all s) i c) (rs_log s).

(** WriteReceipt.cpp 10-19 *)
Definition r_new (s : rstate) (origin : Z) (startWithin finishWithin : option Z) : rstate :=
  mkRS (rs_all s ++ [mkRcpt (after origin startWithin) (after origin finishWithin) true None origin false false 0 false]) (rs_log s).

(** The end of abandon (26-29) and of useCountDown (91-94): drop the parent, call onFinished if set, unset it. *)
Definition r_finish (s : rstate) (i : nat) (c : rcpt) (wasAbandoned : bool) : rstate :=
  mkRS (lset_nth (rs_all s) i (mkRcpt (c_start c) (c_finish c) (c_rtx c) None (c_origin c) (c_started c) (c_aband c) (c_use c) false))
       (if c_hook c then rs_log s ++ [(i, wasAbandoned)] else rs_log s).

(** 21-31 *)
Definition r_abandon (s : rstate) (i : nat) : rstate :=
  let c := rget s i in
  if negb (c_use c =? 0) && negb (c_aband c)
  then r_finish s i (mkRcpt (c_start c) (c_finish c) (c_rtx c) (c_parent c) (c_origin c) (c_started c) true (c_use c) (c_hook c)) true
  else s.

(** 33-43 *)
Definition r_needed (s : rstate) (now : Z) (i : nat) : rstate :=
  let c := rget s i in
  if c_aband c then s
  else if passed now (c_finish c) || (negb (c_started c) && passed now (c_start c))
          || (match c_parent c with None => false | Some p => c_aband (rget s p) end)
  then r_abandon s i else s.

(** 45-53, and assignment to startBy, finishBy, retransmit, parent, onFinished *)
Definition r_set_start (s : rstate) (i : nat) (t : option Z) : rstate :=
  let c := rget s i in rset s i (mkRcpt t (c_finish c) (c_rtx c) (c_parent c) (c_origin c) (c_started c) (c_aband c) (c_use c) (c_hook c)).
Definition r_set_finish (s : rstate) (i : nat) (t : option Z) : rstate :=
  let c := rget s i in rset s i (mkRcpt (c_start c) t (c_rtx c) (c_parent c) (c_origin c) (c_started c) (c_aband c) (c_use c) (c_hook c)).
Definition r_set_start_within (s : rstate) (i : nat) (d : option Z) : rstate := r_set_start s i (after (c_origin (rget s i)) d).
Definition r_set_finish_within (s : rstate) (i : nat) (d : option Z) : rstate := r_set_finish s i (after (c_origin (rget s i)) d).
Definition r_set_rtx (s : rstate) (i : nat) (b : bool) : rstate :=
  let c := rget s i in rset s i (mkRcpt (c_start c) (c_finish c) b (c_parent c) (c_origin c) (c_started c) (c_aband c) (c_use c) (c_hook c)).
Definition r_set_parent (s : rstate) (i : nat) (p : option nat) : rstate :=
  let c := rget s i in rset s i (mkRcpt (c_start c) (c_finish c) (c_rtx c) p (c_origin c) (c_started c) (c_aband c) (c_use c) (c_hook c)).
Definition r_set_hook (s : rstate) (i : nat) : rstate :=
  let c := rget s i in rset s i (mkRcpt (c_start c) (c_finish c) (c_rtx c) (c_parent c) (c_origin c) (c_started c) (c_aband c) (c_use c) true).

(** 60-78 *)
Definition r_is_finished (c : rcpt) : bool := (c_use c =? 0) || c_aband c.
Definition r_is_delivered (c : rcpt) : bool := r_is_finished c && negb (c_aband c).

(** 82-85, 87-96, 98-101; m_useCount is a size_t *)
Definition r_up (s : rstate) (i : nat) : rstate :=
  let c := rget s i in rset s i (mkRcpt (c_start c) (c_finish c) (c_rtx c) (c_parent c) (c_origin c) (c_started c) (c_aband c) (wrap64 (c_use c + 1)) (c_hook c)).
Definition r_down (s : rstate) (i : nat) : rstate :=
  let c := rget s i in
  let c' := mkRcpt (c_start c) (c_finish c) (c_rtx c) (c_parent c) (c_origin c) (c_started c) (c_aband c) (wrap64 (c_use c - 1)) (c_hook c) in
  if c_use c' =? 0 then r_finish s i c' false else rset s i c'.
Definition r_start (s : rstate) (i : nat) : rstate :=
  let c := rget s i in rset s i (mkRcpt (c_start c) (c_finish c) (c_rtx c) (c_parent c) (c_origin c) true (c_aband c) (c_use c) (c_hook c)).

(** ** WriteReceiptChain.  m_receipts is the list of its values. *)
(** 114-120 *)
Fixpoint chain_trim (s : rstate) (ch : list nat) : list nat :=
  match ch with
  | i :: ((_ :: _) as rest) => if r_is_finished (rget s i) then chain_trim s rest else ch
  | _ => ch
  end.
(** 105-121 *)
Definition chain_append (s : rstate) (ch : list nat) (i : option nat) : rstate * list nat :=
  match i with
  | Some i =>
      let s1 := match rev ch with [] => s | l :: _ => r_set_parent s i (Some l) end in
      (s1, chain_trim s1 (ch ++ [i]))
  | None => (s, chain_trim s ch)
  end.
(** 128-136 (and 123-126, with equal deadlines) *)
Definition chain_expire (s : rstate) (ch : list nat) (start finish : option Z) : rstate * list nat :=
  (fold_left (fun s i => r_set_finish (r_set_start s i (earlier (c_start (rget s i)) start)) i (earlier (c_finish (rget s i)) finish)) ch s, []).

(** Operations on the receipts: the issuer's (new, up, down, start, examine) and the application's. *)
Inductive rop :=
| RNew (origin : Z) (sw fw : option Z) | RUp (i : nat) | RDown (i : nat) | RStart (i : nat) | RExamine (now : Z) (i : nat)
| RAbandon (i : nat) | RSetStart (i : nat) (t : option Z) | RSetFinish (i : nat) (t : option Z) | RSetRtx (i : nat) (b : bool)
| RSetParent (i : nat) (p : option nat) | RHook (i : nat).
Definition rstep (s : rstate) (o : rop) : rstate :=
  match o with
  | RNew og sw fw => r_new s og sw fw
  | RUp i => r_up s i
  | RDown i => r_down s i
  | RStart i => r_start s i
  | RExamine now i => r_needed s now i
  | RAbandon i => r_abandon s i
  | RSetStart i t => r_set_start s i t
  | RSetFinish i t => r_set_finish s i t
  | RSetRtx i b => r_set_rtx s i b
  | RSetParent i p => r_set_parent s i p
  | RHook i => r_set_hook s i
  end.
Definition rrun (s : rstate) (os : list rop) : rstate := fold_left rstep os s.
