(** C50: reference-counted handles. *)
From Verif Require Import Base BaseFacts Retainer RetainerSpec RetainerProofs.

(** C50.  Whatever a program does with handles and raw references (as long as it only names what exists and gives up only
    references it has), nothing dead is ever touched, and an object's count is the number of its holders: it is deleted exactly
    when the last one goes away. *)
Theorem C50_exact : forall ops, rrun ops heap_init = Rej \/ exists s, rrun ops heap_init = Ok s /\
  forall o x, nth_error (objs s) o = Some x ->
  (ob_dead x = false <-> 0 < holders s o) /\ (ob_dead x = false -> ob_rc x = holders s o) /\ (ob_dead x = true -> holders s o = 0).
Proof.
  intros ops. destruct (run_ok ops heap_init init_ok) as [E|(s & E & V)]; [auto|]. right. exists s. split; [exact E|]. intros o x X. pose proof (v_obj _ _ V o) as K. rewrite X in K. change (releases [] o) with 0 in K. rewrite Z.add_0_r in K.
  unfold obj_ok in K. destruct (ob_dead x); split; [split; [discriminate|lia]|split; [discriminate|auto]|split; [lia|auto]|split; [intros _; lia|discriminate]].
Qed.
Print Assumptions C50_exact.

(** C50.  Every handle that exists points to an object that has not been deleted, or to none. *)
Theorem C50_valid : forall ops s h o, rrun ops heap_init = Ok s -> nth_error (cells s) h = Some (mkCell true (Some o)) ->
  exists x, nth_error (objs s) o = Some x /\ ob_dead x = false.
Proof.
  intros ops s h o E C. destruct (run_ok ops heap_init init_ok) as [E'|(s' & E' & V)]; rewrite E in E'; [discriminate|]. injection E' as <-.
  assert (H : 1 <= holders s o) by (apply (get_held s h); unfold get; rewrite C; reflexivity). apply (held_alive s [] o V) in H. unfold alive in H. destruct (nth_error (objs s) o) as [[rc [|] mem]|]; try discriminate. eexists. split; reflexivity.
Qed.
Print Assumptions C50_valid.

(** A list of two objects, the first holding the second through its member handle (cell 0); head is cell 2.
    "head = head->next" deletes the first and keeps the second; a self-assignment changes nothing; a self-move empties the
    handle. *)
Definition C50_ops : list rop :=
  [RNewObject 1; RNewObject 1; RNewHandles 2; RClaim 2 0; RClaim 3 1; RMoveAssign 0 3; RAssign 2 2; RAssign 2 0].
Example C50_case : (match rrun C50_ops heap_init with Ok s => map (fun x => (ob_rc x, ob_dead x)) (objs s) | _ => [] end) = [(0, true); (1, false)]
  /\ (match rrun (C50_ops ++ [RMoveAssign 2 2]) heap_init with Ok s => map (fun x => (ob_rc x, ob_dead x)) (objs s) | _ => [] end) = [(0, true); (0, true)]
  /\ rrun (C50_ops ++ [RAssign 0 1]) heap_init = Rej.
Proof. vm_compute. auto. Qed.
(** Why the order in basicAssign matters: releasing first would delete the second object with the first. *)
Example C50_head_next : exists s, rrun (firstn 6 C50_ops) heap_init = Ok s /\ (match release s (Some 0%nat) with Ok s' => map ob_dead (objs s') | _ => [] end) = [true; true].
Proof. eexists. split; vm_compute; reflexivity. Qed.
