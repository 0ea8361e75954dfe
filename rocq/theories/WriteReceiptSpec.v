(** What a receipt's history says, independently of how it is stored. *)
From Verif Require Import Base WriteReceipt.

(** Fragments of receipt [i] queued, and fragments let go. *)
Definition ups (h : list rop) (i : nat) : Z := zlen (filter (fun o => match o with RUp j => Nat.eqb j i | _ => false end) h).
Definition downs (h : list rop) (i : nat) : Z := zlen (filter (fun o => match o with RDown j => Nat.eqb j i | _ => false end) h).
Definition news (h : list rop) : nat := length (filter (fun o => match o with RNew _ _ _ => true | _ => false end) h).

(** The state after a history. *)
Definition at_end (h : list rop) : rstate := rrun rs_init h.
(** Times onFinished of receipt [i] was called. *)
Definition calls (h : list rop) (i : nat) : list (nat * bool) := filter (fun p => Nat.eqb (fst p) i) (rs_log (at_end h)).

(** How the code and its user may act after history [h] led to state [s]: receipts must exist; the issuer lets go only of what it holds, and
    takes no new hold of a receipt once it let go of everything (SendFlow::basicWrite takes all holds before anything else
    happens); the application sets onFinished once, while the receipt is not abandoned. *)
Definition fair_op (h : list rop) (s : rstate) (o : rop) : Prop :=
  match o with
  | RUp i => (i < news h)%nat /\ ups h i < U64MAX /\ ~ (0 < downs h i /\ downs h i = ups h i)
  | RDown i => downs h i < ups h i
  | RHook i => (i < news h)%nat /\ ~ In (RHook i) h /\ c_aband (rget s i) = false
  | _ => True
  end.
Definition fair (h : list rop) : Prop := forall h1 o h2, h = h1 ++ o :: h2 -> fair_op h1 (at_end h1) o.

(** All of its fragments were queued and let go, and it was not abandoned before. *)
Definition delivered (h : list rop) (i : nat) : Prop := 0 < ups h i /\ downs h i = ups h i /\ c_aband (rget (at_end h) i) = false.

(** ** Chains *)
(** What happens: something to a receipt, a receipt appended to the chain, the chain expired. *)
Inductive chop := CR (o : rop) | CApp (i : nat) | CExp (start finish : option Z).
Definition chstep (x : rstate * list nat) (o : chop) : rstate * list nat :=
  let (s, ch) := x in
  match o with CR o => (rstep s o, ch) | CApp i => chain_append s ch (Some i) | CExp a b => chain_expire s ch a b end.
Definition chrun (h : list chop) : rstate * list nat := fold_left chstep h (rs_init, []).

(** The pairs (a, b) such that [b] was appended right after [a], and the last one appended (if not expired since). *)
Definition link_step (x : list (nat * nat) * option nat) (o : chop) : list (nat * nat) * option nat :=
  match o with
  | CR _ => x
  | CApp i => (match snd x with None => fst x | Some l => fst x ++ [(l, i)] end, Some i)
  | CExp _ _ => (fst x, None)
  end.
Definition links (h : list chop) : list (nat * nat) := fst (fold_left link_step h ([], None)).
(** [path h a l]: the receipts of [l] were appended one after the other, starting right after [a]. *)
Fixpoint path (h : list chop) (a : nat) (l : list nat) : Prop :=
  match l with [] => True | b :: r => In (a, b) (links h) /\ path h b r end.

Definition rops (h : list chop) : list rop := flat_map (fun o => match o with CR o => [o] | _ => [] end) h.
(** Fair use: as above, each receipt is appended at most once, after it was made, and parents are left to the chain. *)
Definition fair_chop (h : list chop) (o : chop) : Prop :=
  match o with
  | CR (RSetParent _ _) => False
  | CR o => fair_op (rops h) (fst (chrun h)) o
  | CApp i => ~ In (CApp i) h /\ (i < news (rops h))%nat
  | CExp _ _ => True
  end.
Definition fair_chain (h : list chop) : Prop := forall h1 o h2, h = h1 ++ o :: h2 -> fair_chop h1 o.
Definition is_released (h : list chop) (i : nat) : Prop := 0 < ups (rops h) i /\ downs (rops h) i = ups (rops h) i.
