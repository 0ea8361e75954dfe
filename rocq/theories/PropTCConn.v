(** C48: transactions and closing of a TC connection. *)
From Coq Require Import QArith.
From Verif Require Import Base TCConn TCConnSpec TCConnProofs.
Open Scope Z_scope.

(** Handlers are called at most once, whatever the peer sends and whatever callbacks do; once the connection is closed and all is
    done, each handler that was registered has been called. *)
Theorem C48_once : forall env c tid, reachable env any c ->
  (handled tid (t_log c) <= registered tid (t_log c) <= 1)%nat /\ (finished c -> handled tid (t_log c) = registered tid (t_log c)).
Proof. exact once. Qed.
Print Assumptions C48_once.
(** A response to a number with a handler that was not called yet calls it. *)
Theorem C48_response : forall env c tid success a, reachable env any c -> t_stack c = [] -> (handled tid (t_log c) < registered tid (t_log c))%nat ->
  t_log (do_op (OMsg (MResponse success (DNum tid) a)) c) = EvHandled tid success :: t_log c.
Proof. exact response. Qed.
Print Assumptions C48_response.
(** A response to any other number, or to a number that is not whole, does nothing: unless it is NaN. *)
Theorem C48_unknown_partial : forall env c q success a, reachable env any c -> t_stack c = [] -> q <> DNaN ->
  (forall tid, q = DNum tid -> handled tid (t_log c) = registered tid (t_log c)) ->
  let c1 := do_op (OMsg (MResponse success q a)) c in t_log c1 = t_log c /\ t_stack c1 = [] /\ t_open c1 = t_open c /\ t_streams c1 = t_streams c /\ t_str c1 = t_str c.
Proof. exact ignored. Qed.
Print Assumptions C48_unknown_partial.
(** After close, when all is done and no callback of the connection was set again, nothing is called. *)
Theorem C48_quiet : forall env c, reachable env any c -> finished c -> unset c -> forall c1, later env hands_off c c1 -> t_log c1 = t_log c.
Proof. exact quiet. Qed.
Print Assumptions C48_quiet.
(** No assertion fails and no iterator is used after it was made invalid, if the peer never answered with a number between zero
    and one; and then all that is to be done is done after finitely many steps, whatever callbacks do. *)
Theorem C48_safe_partial : forall env c, reachable env decent c -> wstep env c <> UB.
Proof. exact safe. Qed.
Print Assumptions C48_safe_partial.
Theorem C48_completes_partial : forall env c, reachable env decent c -> exists n c1, steps env n c c1 /\ t_stack c1 = [].
Proof. exact empties. Qed.
Print Assumptions C48_completes_partial.

(** User code that closes the connection in every callback. *)
Definition closes (n : nat) : list ucall := [TClose; TTransact true true; TDelete 0].
Definition starts : list wop :=
  [OUser [TSetConn true true true true; TConnect true true; TCreate true; TTransact true true; TTransact false true; TTransact true true];
   OMsg (MResponse true (DNum 1) AOther); OMsg (MResponse true (DNum 2) (ANum 5))].
(** A run with three handlers left, and the connection closed by the answer to one of them. *)
Definition begun : conn := match acts (fun _ => []) starts c_init with Ok c => c | _ => c_init end.
Definition ended : conn := match acts closes (starts ++ [OMsg (MResponse false (DNum 3) AOther)]) c_init with Ok c => c | _ => c_init end.
Example begun_reached : reachable (fun _ => []) any begun /\ reachable (fun _ => []) decent begun /\ t_stack begun = [] /\ map fst (t_txs begun) = [3; 4; 5] /\ t_streams begun = [(5, 0%nat)] /\
  (handled 3 (t_log begun) < registered 3 (t_log begun))%nat /\ handled 2 (t_log begun) = registered 2 (t_log begun).
Proof.
  split; [|split].
  - apply (acts_later _ any starts c_init c_init begun); [repeat constructor|constructor|vm_compute; reflexivity].
  - apply (acts_later _ decent starts c_init c_init begun); [|constructor|vm_compute; reflexivity]. repeat constructor. intros (_ & H). discriminate H.
  - vm_compute. repeat split; auto.
Qed.
Example ended_reached : reachable closes any ended /\ finished ended /\ unset ended /\ handled 5 (t_log ended) = 1%nat /\ In (EvHandled 5 false) (t_log ended).
Proof. split; [|vm_compute; repeat split; auto 20]. apply (acts_later _ any (starts ++ [OMsg (MResponse false (DNum 3) AOther)]) c_init c_init ended); [repeat constructor|constructor|vm_compute; reflexivity]. Qed.

(** What is false. A response whose number is NaN is taken as the response to the oldest transaction: std::map::find
    finds the first element. *)
Theorem C48_nan_refuted : exists env c, reachable env decent c /\ t_stack c = [] /\ t_log (do_op (OMsg (MResponse true DNaN AOther)) c) = EvHandled 3 true :: t_log c.
Proof. exists (fun _ => []), begun. split; [apply begun_reached|]. split; [apply begun_reached|]. vm_compute. reflexivity. Qed.
Print Assumptions C48_nan_refuted.
(** A peer that answers createStream with a number between zero and one gives the stream the ID zero, and the assertion in
    basicClose fails. *)
Theorem C48_assert_refuted : exists env c, reachable env any c /\ wstep env c = UB.
Proof.
  exists (fun _ => []).
  assert (exists c, acts (fun _ => []) [OUser [TConnect true true; TCreate true]; OMsg (MResponse true (DNum 2) (ANum (1 # 2)))] c_init = Ok c /\ t_stack c = [] /\
    exists c1, drain (fun _ => []) 10 (do_op ODown c) = Ok c1 /\ wstep (fun _ => []) c1 = UB) as (c & A & Es & c1 & D & W).
  { eexists. split; [vm_compute; reflexivity|]. split; [reflexivity|]. eexists. split; [vm_compute; reflexivity|]. vm_compute. reflexivity. }
  exists c1. split; [|exact W]. eapply drain_later; [|exact D]. apply later_op; [|exact Es|exact Logic.I]. eapply acts_later; [|apply later_now|exact A]. repeat constructor.
Qed.
Print Assumptions C48_assert_refuted.
