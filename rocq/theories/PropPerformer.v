(** C25: work handed to a Performer. *)
From Verif Require Import Base Performer PerformerSpec PerformerProofs.

(** Before close, the tasks started are always the first ones queued, in that order and once each; the rest is still queued. *)
Theorem C25_order : forall n s, reaches n s -> p_pushed s = p_started s ++ p_items s /\ NoDup (p_pushed s).
Proof. intros n s R. pose proof (reaches_pi n s R) as P. split; [exact (pi_order s P)|]. rewrite (pi_names s P). apply seq_NoDup. Qed.
Print Assumptions C25_order.

(** While the run loop is waiting and work is queued, a byte is in the pipe, or some thread is about to put one there. *)
Theorem C25_wakeup : forall n s, reaches n s -> p_items s <> [] -> p_main s = MPoll -> (1 <= p_bytes s)%nat \/ will_write s.
Proof. intros n s R. exact (wakeup s (reaches_pi n s R)). Qed.
Print Assumptions C25_wakeup.

(** The run loop never blocks reading the pipe. *)
Theorem C25_read : forall n s, reaches n s -> p_main s = MRead -> (1 <= p_bytes s)%nat.
Proof. intros n s R. exact (pi_read s (reaches_pi n s R)). Qed.
Print Assumptions C25_read.

(** Left alone, the threads and the run loop come to rest after finitely many steps, however these interleave ... *)
Theorem C25_ends : forall n s, reaches n s -> Acc (fun b a => reaches n a /\ goes a b) s.
Proof.
  intros n s R. pose proof (finishes s (reaches_pi n s R)) as A. clear R. induction A as [s _ IH]. constructor. intros s' [R G]. apply IH. split; [exact (reaches_pi n s R)|exact G].
Qed.
Print Assumptions C25_ends.
(** ... and when they are at rest every task queued was started and completed, and no thread is left in perform. *)
Theorem C25_all_done : forall n s, reaches n s -> stuck s ->
  p_started s = p_pushed s /\ (forall x, In x (p_pushed s) -> In x (p_done s)) /\ p_items s = [] /\ p_main s = MPoll /\ (forall t, thread s t = PIdle).
Proof. intros n s R K. destruct (stuck_done s (reaches_pi n s R) K) as (A & B & C & D & E). auto. Qed.
Print Assumptions C25_all_done.

(** Two threads, one of which waits, race with the run loop: the second finds the flag set and leaves the wake-up to the first. *)
Definition race : list pop :=
  [PCall 0 true; PCall 1 false; PStep 0; PStep 0; PStep 0; PStep 1; PStep 1; PStep 0; MStep; MStep; MStep; MSync; MStep; MStep; MStep; MStep; MStep; PStep 0].
Example C25_case :
  Forall (fun o => o <> MClose) race /\
  match prun (perf_init 2) (firstn 7 race), prun (perf_init 2) race with
  | Some a, Some b => p_items a = [0; 1]%nat /\ p_main a = MPoll /\ p_bytes a = 0%nat /\ thread a 0 = PWrite 0 true /\ thread a 1 = PIdle /\
                      p_started b = [0; 1]%nat /\ p_done b = [0; 1]%nat /\ p_items b = [] /\ p_main b = MPoll /\ thread b 0 = PIdle
  | _, _ => False
  end.
Proof. split; [apply Forall_forall; intros o O ->; cbn in O; intuition discriminate|vm_compute; repeat split; reflexivity]. Qed.

(** close is the exception: it drops what is queued without completing it, so a thread waiting for its task waits for ever. *)
Theorem C25_close_refuted : exists l s, prun (perf_init 1) l = Some s /\ stuck s /\ thread s 0 = PWait 0 /\ ~ In 0%nat (p_done s) /\ p_items s = [] /\
  (forall o s', pstep s o = Some s' -> s' = s).
Proof.
  exists [PCall 0 true; PStep 0; PStep 0; PStep 0; PStep 0; MClose; MStep; MStep]. eexists. split; [vm_compute; reflexivity|].
  assert (T : forall t, t <> 0%nat -> thread {| p_items := []; p_signaled := true; p_closed := true; p_bytes := 0; p_main := MPoll; p_threads := [PWait 0]; p_pushed := [0%nat]; p_started := []; p_done := [] |} t = PIdle).
  { intros [|[|t]] N; [congruence|reflexivity|reflexivity]. }
  assert (ST : forall t, thread_step {| p_items := []; p_signaled := true; p_closed := true; p_bytes := 0; p_main := MPoll; p_threads := [PWait 0]; p_pushed := [0%nat]; p_started := []; p_done := [] |} t = None).
  { intros [|t]; [reflexivity|]. unfold thread_step. rewrite T by discriminate. reflexivity. }
  split. { intros s' [t E|E]; cbn [pstep] in E; [rewrite ST in E; discriminate|discriminate]. }
  split; [reflexivity|]. split; [intros []|]. split; [reflexivity|].
  intros [t w|t| | |] s' E; cbn [pstep] in E.
  - destruct t as [|t]; [discriminate|]. rewrite T in E by discriminate. cbn in E. injection E as <-. reflexivity.
  - rewrite ST in E. discriminate.
  - discriminate.
  - injection E as <-. reflexivity.
  - injection E as <-. reflexivity.
Qed.
Print Assumptions C25_close_refuted.
