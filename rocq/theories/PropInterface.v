(** C35: transmission opportunities. *)
From Verif Require Import Base Interface InterfaceSpec InterfaceProofs.
Open Scope res_scope.

(** One opportunity, whatever the sessions answer and schedule meanwhile: it goes to at most one session, the last one offered it; nobody
    is offered it before everyone who was waiting at a higher priority was offered it and declined; it is left unused only after
    everyone who was waiting declined. *)
Theorem C35_priority : forall x ans b x', on_writable x ans = Ok (b, x') -> exists l, since x x' l /\
  (forall s p c, In (Asked s p c) l -> forall s' p', (p < p' < NUM_PRIORITIES)%nat -> In s' (i_q x p') -> In (Asked s' p' false) l) /\
  (b = true -> exists l0 s p, l = l0 ++ [Asked s p true] /\ (forall s' p' c, In (Asked s' p' c) l0 -> c = false)) /\
  (b = false -> (forall s p c, In (Asked s p c) l -> c = false) /\ (forall s p, (p < NUM_PRIORITIES)%nat -> In s (i_q x p) -> In (Asked s p false) l) /\ i_sched x' = false).
Proof.
  intros x ans b x' E. destruct (levels_says _ _ _ _ _ E) as (l & S & _ & B & C & D). exists l. split; [exact S|]. split; [intros s p c I s' p' L; apply (B s p c I); unfold NUM_PRIORITIES in *; lia|]. split; [exact D|].
  intros Eb. destruct (C Eb) as (F & G & H). split; [exact F|]. split; [|exact G]. intros s p L. apply H. unfold NUM_PRIORITIES in *. lia.
Qed.
Print Assumptions C35_priority.

(** Round robin: a session waiting with the sessions u before it is offered the interface, at that priority, right after exactly those
    in their order; until then only they were offered it, once each.  u has no session twice. *)
Theorem C35_round_robin : forall l0 x l1 x' p u t v, irun ifc_init l0 = Ok x -> irun x l1 = Ok x' -> i_q x p = u ++ t :: v ->
  NoDup (u ++ t :: v) /\ exists l, since x x' l /\
  (prefix (u ++ [t]) (offered p l) \/ exists u' v', u = offered p l ++ u' /\ i_q x' p = u' ++ t :: v').
Proof.
  intros l0 x l1 x' p u t v E0 E1 H. split; [|exact (evs_fifo _ _ (run_evs _ _ _ E1) p u t v H)]. rewrite <- H. exact (evs_clean _ _ (run_evs _ _ _ E0) init_clean p).
Qed.
Print Assumptions C35_round_robin.

(** A session waits at a priority exactly when it asked for it and did not decline since. *)
Theorem C35_waiting : forall l x s p, irun ifc_init l = Ok x -> (In s (i_q x p) <-> wants s p (i_log x) false = true).
Proof. intros l x s p E. exact (proj1 (evs_faithful _ _ (run_evs _ _ _ E) init_clean init_faithful) s p). Qed.
Print Assumptions C35_waiting.

(** If sessions that decline schedule nothing meanwhile, then the platform is watching the interface whenever anyone is waiting, and every
    opportunity comes to an end within one offer to each. *)
Theorem C35_watched : forall l x, Forall calm_op l -> irun ifc_init l = Ok x -> i_sched x = false -> forall p, i_q x p = [].
Proof. intros l x C E. apply (run_watched l ifc_init x C init_faithful init_clean); [intros _ p; reflexivity|exact E]. Qed.
Print Assumptions C35_watched.
Theorem C35_ends : forall x ans, calm ans -> in_range ans -> (waiting x <= length ans)%nat -> exists b x', on_writable x ans = Ok (b, x').
Proof. intros x ans C R L. apply levels_ends; assumption. Qed.
Print Assumptions C35_ends.

(** Sessions 1 and 2 wait at priority 3 and session 3 at priority 5, which declines: 1 is served and goes behind 2. *)
Example C35_case :
  match irun ifc_init [ISchedule 1 3; ISchedule 2 3; ISchedule 3 5; ISchedule 1 3] with
  | Ok x => match on_writable x [([], false); ([(4, 5)%nat], true)] with
            | Ok (b, x') => i_q x 3%nat = [1; 2]%nat /\ b = true /\ i_q x' 3%nat = [2; 1]%nat /\ i_q x' 5%nat = [4]%nat /\ waiting x = 3%nat /\
                            skipn (length (i_log x)) (i_log x') = [Asked 3 5 false; Wanted 4 5; Asked 1 3 true]
            | _ => False
            end
  | _ => False
  end.
Proof. vm_compute. repeat split; reflexivity. Qed.
Example C35_case_calm : calm [([], false); ([(4, 5)%nat], true); ([], false)] /\ in_range [([], false); ([(4, 5)%nat], true); ([], false)].
Proof. split; repeat constructor; cbn; congruence. Qed.

(** Without that assumption a request can be stranded: session 1, offered priority 3, schedules itself at priority 5 (a write to
    another flow, in a callback) and declines.  The request stays queued but the interface is no longer watched, and asking
    again changes nothing. *)
Theorem C35_reentrant_refuted : exists l x, irun ifc_init l = Ok x /\ In 1%nat (i_q x 5%nat) /\ i_sched x = false /\
  (forall x', schedule_write x 1 5 = Ok x' -> i_sched x' = false) /\ (forall ans, istep x (IWritable ans) = Rej).
Proof.
  exists [ISchedule 1 3; IWritable [([(1, 5)%nat], false)]]. eexists. split; [vm_compute; reflexivity|]. split; [left; reflexivity|]. split; [reflexivity|]. split; [|reflexivity].
  intros x' E. vm_compute in E. injection E as <-. reflexivity.
Qed.
Print Assumptions C35_reentrant_refuted.
