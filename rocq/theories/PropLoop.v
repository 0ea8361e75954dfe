(** Properties C73 and C74: the run loops (RunLoop, SelectRunLoop, EPollRunLoop). *)
From Coq Require Import Sorting.Sorted.
From Verif Require Import Base Loop LoopSpec LoopProofs LoopRun LoopCycle LoopKern LoopWatch.

(** An application for the examples: descriptor 3 registered for reading and writing, descriptor 4 for reading and exceptions; all reported ready at
    once.  The action for exceptions unregisters reading of 4 and gives a task; the first action after it gives another; the second task stops. *)
Definition ex_app : list (list lcall * list (list (Z * list cond) * nat) * list (list lcall)) :=
  [([COpen 3; COpen 4; CReg 3 RD true; CReg 3 WR true; CReg 4 RD true; CReg 4 EX true],
    [([(3, [RD; WR]); (4, [RD; EX])], 1%nat); ([(3, [RD])], 1%nat); ([(3, [RD])], 1%nat)],
    [[CUnreg 4 RD; CLater]; [CLater]; []; []; []; []; [CReg 4 WR true]; [CLater; CStop]])].
Example ex_app_log : forall ep, l_log (life ep true ex_app) =
  [Opened 3; Opened 4; Reg 0 3 RD; Reg 1 3 WR; Reg 2 4 RD; Reg 3 4 EX;
   Poll [(3, [RD; WR]); (4, [RD; EX])]; Act 3; Unreg 2; Asked 0; Act 0; Asked 1; Act 1; Later 0; Later 1; Fire; Every; Reg 4 4 WR;
   Poll [(3, [RD])]; Act 0; Asked 2; Stopped].
Proof. intros []; vm_compute; reflexivity. Qed.
Lemma ex_app_reports : lreports ex_app.
Proof.
  intros x [<-|[]] ready due H. cbn in H. destruct H as [H|[H|[H|[]]]]; injection H as <- <-; cbn; repeat constructor; cbn; intuition lia.
Qed.

(** Whatever the application does in its actions, an action runs only for a registration made before the last poll and not cancelled until that moment,
    only if that poll reported its descriptor ready for its condition, only once after that poll, and not after a stop. *)
Theorem C73_actions : forall ep every segs, lreports segs -> acts_ok (l_log (life ep every segs)).
Proof. intros ep every segs R. apply (life_fine ep every segs R). Qed.
Print Assumptions C73_actions.
Example C73_actions_ex : act_ok (firstn 10 (l_log (life true true ex_app))) 0 /\ nth 10 (l_log (life true true ex_app)) Fire = Act 0.
Proof.
  rewrite ex_app_log. split; [|reflexivity]. apply (C73_actions true true ex_app ex_app_reports _ _ (skipn 11 (l_log (life true true ex_app)))). rewrite ex_app_log. reflexivity.
Qed.

(** Between two polls the actions for exceptions run first, then those for reading, then those for writing. *)
Theorem C73_order : forall ep every segs, lreports segs -> order_ok (l_log (life ep every segs)).
Proof. intros ep every segs R. apply (life_fine ep every segs R). Qed.
Print Assumptions C73_order.
Example C73_order_ex : (rank EX <= rank RD)%nat /\
  exists mid rest, l_log (life false true ex_app) = firstn 7 (l_log (life false true ex_app)) ++ Act 3 :: mid ++ Act 0 :: rest /\ In (Reg 3 4 EX) (firstn 7 (l_log (life false true ex_app))).
Proof. split; [cbn; lia|]. rewrite ex_app_log. exists [Unreg 2; Asked 0]. eexists. split; [reflexivity|]. cbn. tauto. Qed.

(** No report is lost: in every cycle in which the loop is not stopped, every registration whose descriptor was reported ready has its action run or is cancelled
    by the application, and every task given before is run or dropped by clear. *)
Theorem C73_complete : forall ep every segs, lreports segs -> cycles_ok (l_log (life ep every segs)).
Proof. intros ep every segs R. apply (life_fine ep every segs R). Qed.
Print Assumptions C73_complete.
Example C73_complete_ex : stands (firstn 6 (l_log (life true true ex_app))) 1 3 WR /\ In (Act 1) (firstn 11 (skipn 7 (l_log (life true true ex_app)))).
Proof. rewrite ex_app_log. split; [split; cbn; intuition discriminate|cbn; tauto]. Qed.

(** Tasks run in the order they were given, each at most once and after it was given. *)
Theorem C73_tasks : forall ep every segs, tasks_ok (l_log (life ep every segs)).
Proof. exact life_tasks. Qed.
Print Assumptions C73_tasks.
Example C73_tasks_ex : laters_of (l_log (life true true ex_app)) = [0; 1]%nat /\ asked_of (l_log (life true true ex_app)) = [0; 1; 2]%nat.
Proof. rewrite ex_app_log. split; reflexivity. Qed.

(** Once the loop is stopped, a run polls no more and runs no action, task or onEveryCycle any more; and a run ends stopped exactly if it was stopped while running. *)
Theorem C73_stop : forall ep every segs pre ins o, let s := calls (life ep every segs) pre in
  exists r, l_log (run_loop ep every s ins o) = l_log s ++ r /\ stops_ok r /\ (l_stop (run_loop ep every s ins o) = true <-> In Stopped r).
Proof.
  intros ep every segs pre ins o s. apply run_stops. unfold s. destruct (calls_steps pre (life ep every segs)) as [d S]; [apply (life_winv ep every segs)|apply S].
Qed.
Print Assumptions C73_stop.
Example C73_stop_ex : let s := calls lp_new (fst (fst (nth 0 ex_app ([], [], [])))) in
  l_stop (run_loop true true s (snd (fst (nth 0 ex_app ([], [], [])))) (snd (nth 0 ex_app ([], [], [])))) = true /\
  (* the timers that are due with the one that stops the loop still run *)
  l_log (run_loop true true lp_new [([], 3%nat)] [[CStop]]) = [Poll []; Fire; Stopped; Fire; Fire].
Proof. split; vm_compute; reflexivity. Qed.

(** EPollRunLoop: everything in the kernel's interest list is there once, for exactly the conditions that are registered; so the pointer the kernel hands back is
    that of a descriptor that is still there, whatever the application does and even if it closes descriptors without unregistering them. *)
Theorem C74_watched_only : forall ep every segs, watched_only (life ep every segs).
Proof. exact life_watched_only. Qed.
Print Assumptions C74_watched_only.
Example C74_watched_only_ex : l_kern (life true true ex_app) = [(4, [WR; EX]); (3, [RD; WR])].
Proof. vm_compute. reflexivity. Qed.

(** What is registered is watched by the kernel, for an application that registers open descriptors and unregisters them before closing them; *)
Theorem C74_watched_all_partial : forall ep every segs, proper (l_log (life ep every segs)) -> watched_all (life ep every segs).
Proof. exact life_watched_all. Qed.
Print Assumptions C74_watched_all_partial.
Definition ex_reuse := [([COpen 3; CReg 3 RD true; CReg 3 WR true; CUnregAll 3; CClose 3; COpen 3; CReg 3 RD true], @nil (list (Z * list cond) * nat), @nil (list lcall))].
Lemma app_split_cons : forall A (l p r : list A) x, l = p ++ x :: r -> exists n, nth_error l n = Some x /\ p = firstn n l.
Proof.
  intros A l p r x ->. exists (length p). split.
  - rewrite nth_error_app2 by lia. rewrite Nat.sub_diag. reflexivity.
  - rewrite firstn_app, Nat.sub_diag, firstn_all. cbn. rewrite app_nil_r. reflexivity.
Qed.
Example C74_watched_all_ex : proper (l_log (life true false ex_reuse)) /\ l_kern (life true false ex_reuse) = [(3, [RD])].
Proof.
  split; [|vm_compute; reflexivity].
  assert (E : l_log (life true false ex_reuse) = [Opened 3; Reg 0 3 RD; Reg 1 3 WR; Unreg 0; Unreg 1; Closed 3; Opened 3; Reg 2 3 RD]) by (vm_compute; reflexivity).
  rewrite E. clear E. split.
  - intros past id fd c rest H. apply app_split_cons in H. destruct H as (n & H & ->).
    do 8 (destruct n as [|n]; cbn in H; [try discriminate; try (injection H as <- <- <-; first [exists [], []; split; [reflexivity|cbn; tauto] | exists [], [Reg 0 3 RD]; split; [reflexivity|cbn; intuition discriminate] | exists [Opened 3; Reg 0 3 RD; Reg 1 3 WR; Unreg 0; Unreg 1; Closed 3], []; split; [reflexivity|cbn; tauto]])|]).
    destruct n; discriminate.
  - intros past fd rest H id c [R U]. apply app_split_cons in H. destruct H as (n & H & ->).
    do 8 (destruct n as [|n]; cbn in H; [try discriminate; try (injection H as <-; cbn in R, U; intuition congruence)|]).
    destruct n; discriminate.
Qed.
(** but not in general: if a descriptor is closed while it is registered for more than one condition, its number used again and registered again, the kernel is
    asked to change an entry it has dropped; that fails, the failure is not looked at, and the descriptor is never polled. *)
Theorem C74_watched_all_refuted : exists segs, ~ watched_all (life true false segs) /\
  exists fd, open_at (l_log (life true false segs)) fd /\ wanted (l_log (life true false segs)) fd RD /\ l_kern (life true false segs) = [].
Proof.
  exists [([COpen 3; CReg 3 RD true; CReg 3 WR true; CClose 3; COpen 3; CReg 3 RD true], [], [])].
  set (s := life true false _). assert (E : l_log s = [Opened 3; Reg 0 3 RD; Reg 1 3 WR; Closed 3; Opened 3; Unreg 0; Reg 2 3 RD]) by (vm_compute; reflexivity).
  assert (K : l_kern s = []) by (vm_compute; reflexivity).
  assert (W : wanted (l_log s) 3 RD) by (exists 2%nat; rewrite E; split; cbn; intuition discriminate).
  split; [intro H; destruct (H 3 RD W) as (m & Hm & _); rewrite K in Hm; destruct Hm|].
  exists 3. rewrite E in *. split; [|auto]. exists [Opened 3; Reg 0 3 RD; Reg 1 3 WR; Closed 3], [Unreg 0; Reg 2 3 RD]. split; [reflexivity|cbn; intuition discriminate].
Qed.
Print Assumptions C74_watched_all_refuted.

(** SelectRunLoop: under the same condition, select does not fail for a descriptor that is not open, which would end the run; *)
Theorem C74_select_partial : forall every segs ready due o, proper (l_log (life false every segs)) -> snd (cycle false every (life false every segs) ready due o) = false.
Proof.
  intros every segs ready due o H. unfold cycle. rewrite (life_select false every segs H). cbn [negb andb]. cbv zeta.
  repeat match goal with |- context [let '(_, _) := ?x in _] => destruct x end. reflexivity.
Qed.
Print Assumptions C74_select_partial.
Example C74_select_ex : bad_fd (life false false ex_reuse) = false /\ l_reg (life false false ex_reuse) = [(RD, 3, 2%nat)].
Proof. split; vm_compute; reflexivity. Qed.
(** but one descriptor closed while registered ends the run of all the others, unstopped. *)
Theorem C74_select_refuted : exists segs, wanted (l_log (life false false segs)) 4 RD /\ open_at (l_log (life false false segs)) 4 /\
  forall every ins o, run_loop false every (life false false segs) ins o = k_stop (life false false segs) false.
Proof.
  exists [([COpen 3; COpen 4; CReg 3 RD true; CReg 4 RD true; CClose 3], [], [])].
  set (s := life false false _). assert (E : l_log s = [Opened 3; Opened 4; Reg 0 3 RD; Reg 1 4 RD; Closed 3]) by (vm_compute; reflexivity).
  split; [exists 1%nat; rewrite E; split; cbn; intuition discriminate|]. split.
  - rewrite E. exists [Opened 3], [Reg 0 3 RD; Reg 1 4 RD; Closed 3]. split; [reflexivity|]. cbn. intuition discriminate.
  - intros every ins o. unfold run_loop. destruct ins as [|[ready due] ins]; [reflexivity|]. cbn [loop]. unfold cycle.
    assert (B : bad_fd (k_stop s false) = true) by (vm_compute; reflexivity). rewrite B. reflexivity.
Qed.
Print Assumptions C74_select_refuted.
