From Verif Require Import Base BaseFacts Performer PerformerSpec.

Lemma put_length : forall A (l : list A) n x, length (put l n x) = length l.
Proof. induction l as [|a l IH]; intros [|n] x; cbn; try reflexivity. rewrite IH. reflexivity. Qed.
Lemma put_same : forall A (l : list A) n x d, (n < length l)%nat -> nth n (put l n x) d = x.
Proof. induction l as [|a l IH]; intros [|n] x d H; cbn in *; try lia; [reflexivity|]. apply IH. lia. Qed.
Lemma put_other : forall A (l : list A) n m x d, m <> n -> nth m (put l n x) d = nth m l d.
Proof. induction l as [|a l IH]; intros [|n] [|m] x d H; cbn; try reflexivity; try lia. apply IH. lia. Qed.
Definition sum (f : pst -> nat) (l : list pst) : nat := fold_right (fun p n => (f p + n)%nat) 0%nat l.
Lemma sum_put : forall f l t p, (t < length l)%nat -> (sum f (put l t p) + f (nth t l PIdle) = sum f l + f p)%nat.
Proof. intros f. induction l as [|a l IH]; intros [|t] p H; cbn in *; try lia. specialize (IH t p ltac:(lia)). unfold sum in IH. lia. Qed.
Lemma sum_pos : forall f l, (0 < sum f l)%nat -> exists t, (0 < f (nth t l PIdle))%nat /\ (t < length l)%nat.
Proof.
  intros f. induction l as [|a l IH]; intros H; cbn in H; [lia|]. destruct (f a) eqn:E.
  - destruct (IH H) as (t & T & L). exists (S t). split; [exact T|cbn; lia].
  - exists 0%nat. cbn. lia.
Qed.
Arguments sum : simpl never.
Arguments thread : simpl never.
Definition writing (p : pst) : nat := match p with PWrite _ _ => 1 | _ => 0 end.
Definition waits (p : pst) : option nat := match p with PLoad x true => Some x | PSet x true => Some x | PWrite x true => Some x | PWait x => Some x | _ => None end.
Definition reading (m : mst) : nat := match m with MRead => 1 | _ => 0 end.
Definition stacked (m : mst) (x : nat) : Prop := match m with MStack l => In (FTask x) l | _ => False end.
Record PI (s : perf) : Prop := {
  pi_closed : p_closed s = false;
  pi_order : p_pushed s = p_started s ++ p_items s;
  pi_names : p_pushed s = seq 0 (length (p_pushed s));
  pi_signal : p_signaled s = true -> (1 + reading (p_main s) <= p_bytes s + sum writing (p_threads s))%nat;
  pi_read : p_main s = MRead -> (1 <= p_bytes s)%nat;
  pi_pending : p_items s <> [] -> p_main s = MPoll -> p_signaled s = true \/ exists t x w, thread s t = PLoad x w \/ thread s t = PSet x w;
  pi_stack : forall l, p_main s = MStack l -> exists l', l = l' ++ [FPop];
  pi_wait : forall t x, waits (thread s t) = Some x -> In x (p_pushed s);
  pi_done : forall x, In x (p_started s) -> In x (p_done s) \/ stacked (p_main s) x
}.
Lemma pi_init : forall n, PI (perf_init n).
Proof.
  intros n. assert (TH : forall t, thread (perf_init n) t = PIdle) by (intros t; unfold thread; cbn; apply nth_repeat).
  constructor; cbn; try reflexivity; try discriminate; try congruence.
  - intros t x. rewrite TH. discriminate.
  - intros x [].
Qed.
Lemma thread_lt : forall s t, thread s t <> PIdle -> (t < length (p_threads s))%nat.
Proof. intros s t H. destruct (Nat.lt_ge_cases t (length (p_threads s))) as [L|L]; [exact L|]. unfold thread in H. rewrite nth_overflow in H by exact L. congruence. Qed.
Lemma thread_with : forall s t p, (t < length (p_threads s))%nat -> forall u, thread (with_thread s t p) u = if Nat.eqb u t then p else thread s u.
Proof. intros s t p L u. unfold thread, with_thread. cbn [p_threads]. destruct (Nat.eqb_spec u t) as [->|N]; [apply put_same, L|apply put_other, N]. Qed.
Lemma after_waits : forall x w, waits (after x w) = if w then Some x else None.
Proof. intros x []; reflexivity. Qed.
Lemma after_writing : forall x w, writing (after x w) = 0%nat.
Proof. intros x []; reflexivity. Qed.

Lemma thread_pi : forall s t s', PI s -> thread_step s t = Some s' -> PI s'.
Proof.
  intros s t s' P E. unfold thread_step in E. destruct P as [P1 P2 P3 P4 P5 P6 P7 P8 P9].
  destruct (thread s t) as [|w|x w|x w|x w|x] eqn:ET; [discriminate| | | | |]; assert (L : (t < length (p_threads s))%nat) by (apply thread_lt; congruence);
    pose proof (fun p => sum_put writing (p_threads s) t p L) as SP; fold (thread s t) in SP; rewrite ET in SP; cbn [writing] in SP.
  - injection E as <-. set (x := length (p_pushed s)) in *. specialize (SP (PLoad x w)). cbn [writing] in SP.
    set (s0 := Perf _ _ _ _ _ _ _ _ _). pose proof (thread_with s0 t (PLoad x w) L) as TW; cbn in TW. constructor; cbn.
    + exact P1.
    + rewrite P2, app_assoc. reflexivity.
    + rewrite app_length. cbn [length]. rewrite seq_app. fold x. rewrite <- P3. reflexivity.
    + intros S. specialize (P4 S). lia.
    + exact P5.
    + intros _ _. right. exists t, x, w. left. rewrite TW, Nat.eqb_refl. reflexivity.
    + exact P7.
    + intros u y. rewrite TW. destruct (Nat.eqb_spec u t) as [->|N].
      * intros W. apply in_or_app. right. left. destruct w; [|discriminate]. injection W as <-. reflexivity.
      * intros W. apply in_or_app. left. exact (P8 u y W).
    + exact P9.
  - injection E as <-. pose proof (thread_with s t (if p_signaled s then after x w else PSet x w) L) as TW; cbn in TW. specialize (SP (if p_signaled s then after x w else PSet x w)).
    assert (W0 : writing (if p_signaled s then after x w else PSet x w) = 0%nat) by (destruct (p_signaled s); [apply after_writing|reflexivity]). rewrite W0 in SP.
    constructor; cbn; try assumption.
    + intros S. specialize (P4 S). lia.
    + intros I M. destruct (p_signaled s) eqn:ES; [left; reflexivity|]. right. exists t, x, w. right. rewrite TW, Nat.eqb_refl. reflexivity.
    + intros u y. rewrite TW. destruct (Nat.eqb_spec u t) as [->|N]; [|exact (P8 u y)]. intros W. apply (P8 t y). rewrite ET. destruct (p_signaled s); [destruct w; exact W|exact W].
  - injection E as <-. pose proof (thread_with (with_signaled s true) t (PWrite x w) L) as TW; cbn in TW. specialize (SP (PWrite x w)). cbn [writing] in SP. constructor; cbn; try assumption.
    + intros _. destruct (p_main s) eqn:EM; cbn [reading]; try specialize (P5 eq_refl); lia.
    + intros _ _. left. reflexivity.
    + intros u y. rewrite TW. destruct (Nat.eqb_spec u t) as [->|N]; [|exact (P8 u y)]. intros W. apply (P8 t y). rewrite ET. exact W.
  - rewrite P1 in E. injection E as <-. pose proof (thread_with (with_bytes s (S (p_bytes s))) t (after x w) L) as TW; cbn in TW. specialize (SP (after x w)). rewrite after_writing in SP. constructor; cbn; try assumption.
    + intros S. specialize (P4 S). lia.
    + intros M. lia.
    + intros I M. destruct (P6 I M) as [S|(u & y & v & U)]; [left; exact S|right]. exists u, y, v. rewrite TW. destruct (Nat.eqb_spec u t) as [->|N]; [rewrite ET in U; destruct U; discriminate|exact U].
    + intros u y. rewrite TW. destruct (Nat.eqb_spec u t) as [->|N]; [|exact (P8 u y)]. intros W. apply (P8 t y). rewrite ET. destruct w; exact W.
  - destruct (existsb (Nat.eqb x) (p_done s)); [|discriminate]. injection E as <-. pose proof (thread_with s t PIdle L) as TW; cbn in TW. specialize (SP PIdle). cbn [writing] in SP. constructor; cbn; try assumption.
    + intros S. specialize (P4 S). lia.
    + intros I M. destruct (P6 I M) as [S|(u & y & v & U)]; [left; exact S|right]. exists u, y, v. rewrite TW. destruct (Nat.eqb_spec u t) as [->|N]; [rewrite ET in U; destruct U; discriminate|exact U].
    + intros u y. rewrite TW. destruct (Nat.eqb_spec u t) as [->|N]; [discriminate|exact (P8 u y)].
Qed.
Lemma stack_tail : forall f (r l' : list frame), f :: r = l' ++ [FPop] -> r = [] /\ f = FPop \/ exists l2, r = l2 ++ [FPop].
Proof. intros f r [|a l'] H; cbn in H; injection H as -> H; [left; auto|right; exists l'; exact H]. Qed.
Lemma main_pi : forall s s', PI s -> main_step s = Some s' -> PI s'.
Proof.
  intros s s' P E. unfold main_step in E. destruct P as [P1 P2 P3 P4 P5 P6 P7 P8 P9]. destruct (p_main s) as [| |l] eqn:EM.
  - rewrite P1 in E. destruct (p_bytes s) eqn:EB; [discriminate|]. injection E as <-. constructor; cbn; try assumption; try discriminate; try congruence.
    + intros _. lia.
  - destruct (p_bytes s) as [|k] eqn:EB; [discriminate|]. injection E as <-. constructor; cbn; try assumption; try discriminate; try congruence.
    + intros S. specialize (P4 S). cbn in P4. lia.
    + intros l H. injection H as <-. exists []. reflexivity.
    + intros x X. destruct (P9 x X) as [Y|[]]. left. exact Y.
  - destruct l as [|f r]; [destruct (P7 [] eq_refl) as ([|] & H); discriminate|]. destruct (P7 _ eq_refl) as (l' & EL). destruct f as [|y].
    + destruct (p_items s) as [|x items] eqn:EI.
      * injection E as <-. destruct (stack_tail _ _ _ EL) as [[-> _]|(l2 & E2)].
        -- constructor; cbn; try assumption; try discriminate; try congruence.
           intros z Z. destruct (P9 z Z) as [Y|[Y|[]]]; [left; exact Y|discriminate].
        -- destruct r as [|f r]; [destruct l2; discriminate|]. constructor; cbn; try assumption; try discriminate; try congruence.
           ++ intros l H. injection H as <-. exists l2. exact E2.
           ++ intros z Z. destruct (P9 z Z) as [Y|[Y|Y]]; [left; exact Y|discriminate|right; exact Y].
      * rewrite P1 in E. injection E as <-. constructor; cbn; try assumption; try reflexivity; try discriminate; try congruence.
        -- rewrite P2, <- app_assoc. reflexivity.
        -- intros l H. injection H as <-. exists (FTask x :: l'). rewrite EL. reflexivity.
        -- intros z Z. apply in_app_or in Z. destruct Z as [Z|[<-|[]]]; [|right; left; reflexivity]. destruct (P9 z Z) as [Y|Y]; [left; exact Y|right; right; exact Y].
    + injection E as <-. destruct (stack_tail _ _ _ EL) as [[_ H]|(l2 & E2)]; [discriminate|]. destruct r as [|f r]; [destruct l2; discriminate|]. constructor; cbn; try assumption; try discriminate; try congruence.
      * intros l H. injection H as <-. exists l2. exact E2.
      * intros z Z. destruct (P9 z Z) as [Y|[Y|Y]]; [left; right; exact Y|injection Y as ->; left; left; reflexivity|right; exact Y].
Qed.
Lemma step_pi : forall s o s', PI s -> o <> MClose -> pstep s o = Some s' -> PI s'.
Proof.
  intros s o s' P N E. destruct o as [t w|t| | |]; cbn [pstep] in E; [|exact (thread_pi s t s' P E)|exact (main_pi s s' P E)| |congruence].
  - destruct (thread s t) eqn:ET; try discriminate. rewrite (pi_closed s P) in E. injection E as <-. destruct (Nat.lt_ge_cases t (length (p_threads s))) as [L|L].
    + pose proof (thread_with s t (PPush w) L) as TW; cbn in TW. pose proof (sum_put writing (p_threads s) t (PPush w) L) as SP. fold (thread s t) in SP. rewrite ET in SP. cbn [writing] in SP.
      destruct P as [P1 P2 P3 P4 P5 P6 P7 P8 P9]. constructor; cbn; try assumption.
      * intros S. specialize (P4 S). lia.
      * intros I M. destruct (P6 I M) as [S|(u & y & v & U)]; [left; exact S|right]. exists u, y, v. rewrite TW. destruct (Nat.eqb_spec u t) as [->|Nu]; [rewrite ET in U; destruct U; discriminate|exact U].
      * intros u y. rewrite TW. destruct (Nat.eqb_spec u t) as [->|Nu]; [discriminate|exact (P8 u y)].
    + assert (EQ : put (p_threads s) t (PPush w) = p_threads s). { clear - L. revert t L. induction (p_threads s) as [|a l IH]; intros [|t] L; cbn in *; try reflexivity; try lia. rewrite IH by lia. reflexivity. }
      unfold with_thread. rewrite EQ. destruct s. exact P.
  - rewrite (pi_closed s P) in E. destruct P as [P1 P2 P3 P4 P5 P6 P7 P8 P9]. destruct (p_main s) as [| |[|[|x] r]] eqn:EM; try discriminate; injection E as <-; (constructor; cbn; try assumption; try discriminate; try congruence).
    + intros l H. injection H as <-. exists []. reflexivity.
    + intros x X. destruct (P9 x X) as [Y|[]]. left. exact Y.
    + intros l H. injection H as <-. destruct (P7 _ eq_refl) as (l' & ->). exists (FPop :: l'). reflexivity.
    + intros z Z. destruct (P9 z Z) as [Y|Y]; [left; exact Y|right; right; exact Y].
Qed.
Lemma run_pi : forall l s s', PI s -> Forall (fun o => o <> MClose) l -> prun s l = Some s' -> PI s'.
Proof.
  induction l as [|o l IH]; intros s s' P F E; cbn [prun] in E; [injection E as <-; exact P|]. inversion F; subst. destruct (pstep s o) as [s1|] eqn:E1; [|discriminate].
  apply (IH s1); [eapply step_pi; eassumption|assumption|exact E].
Qed.
Lemma reaches_pi : forall n s, reaches n s -> PI s.
Proof. intros n s (l & F & E). exact (run_pi l _ s (pi_init n) F E). Qed.

(** a wake-up is pending *)
Lemma wakeup : forall s, PI s -> p_items s <> [] -> p_main s = MPoll -> (1 <= p_bytes s)%nat \/ will_write s.
Proof.
  intros s P I M. assert (SIG : p_signaled s = true -> (1 <= p_bytes s)%nat \/ will_write s).
  { intros S. pose proof (pi_signal s P S) as H. rewrite M in H. cbn [reading] in H. destruct (p_bytes s) eqn:EB; [|left; lia]. right. destruct (sum_pos writing (p_threads s) ltac:(lia)) as (t & W & L).
    fold (thread s t) in W. destruct (thread s t) as [| | | |x w|] eqn:ET; cbn in W; try lia. exists t, x, w. left. exact ET. }
  destruct (pi_pending s P I M) as [S|(t & x & w & [T|T])]; [exact (SIG S)| |right; exists t, x, w; right; left; exact T].
  destruct (p_signaled s) eqn:ES; [exact (SIG eq_refl)|]. right. exists t, x, w. right. right. auto.
Qed.
(** work under way comes to an end *)
Definition weight (p : pst) : nat := match p with PIdle => 0 | PPush _ => 20 | PLoad _ _ => 10 | PSet _ _ => 9 | PWrite _ _ => 8 | PWait _ => 1 end.
Definition fweight (f : frame) : nat := match f with FPop => 1 | FTask _ => 2 end.
Definition mweight (m : mst) : nat := match m with MPoll => 3 | MRead => 2 | MStack l => (3 + fold_right (fun f n => fweight f + n) 0 l)%nat end.
Definition effort (s : perf) : nat := (sum weight (p_threads s) + 5 * p_bytes s + 3 * length (p_items s) + mweight (p_main s))%nat.
Lemma goes_less : forall s s', PI s -> goes s s' -> (effort s' < effort s)%nat.
Proof.
  intros s s' P [t E|E]; cbn [pstep] in E.
  - unfold thread_step in E. destruct (thread s t) as [|w|x w|x w|x w|x] eqn:ET; [discriminate| | | | |]; assert (L : (t < length (p_threads s))%nat) by (apply thread_lt; congruence);
      pose proof (fun p => sum_put weight (p_threads s) t p L) as SP; fold (thread s t) in SP; rewrite ET in SP; cbn [weight] in SP; unfold effort.
    + injection E as <-. specialize (SP (PLoad (length (p_pushed s)) w)). cbn in *. rewrite app_length. cbn [length]. lia.
    + injection E as <-. specialize (SP (if p_signaled s then after x w else PSet x w)). destruct (p_signaled s); [destruct w|]; cbn [after weight] in SP; cbn; lia.
    + injection E as <-. specialize (SP (PWrite x w)). cbn in *. lia.
    + rewrite (pi_closed s P) in E. injection E as <-. specialize (SP (after x w)). destruct w; cbn in *; lia.
    + destruct (existsb (Nat.eqb x) (p_done s)); [|discriminate]. injection E as <-. specialize (SP PIdle). cbn in *. lia.
  - unfold main_step in E. unfold effort. destruct (p_main s) as [| |l] eqn:EM.
    + rewrite (pi_closed s P) in E. destruct (p_bytes s) eqn:EB; [discriminate|]. injection E as <-. cbn. rewrite EB. lia.
    + destruct (p_bytes s) as [|k] eqn:EB; [discriminate|]. injection E as <-. cbn. lia.
    + destruct (pi_stack s P l EM) as (l' & EL). destruct l as [|[|y] r]; [destruct l'; discriminate| |].
      * destruct (p_items s) as [|x items] eqn:EI.
        -- injection E as <-. cbn. rewrite EI. destruct r; cbn; lia.
        -- rewrite (pi_closed s P) in E. injection E as <-. cbn. lia.
      * injection E as <-. cbn. destruct r; cbn; lia.
Qed.
Lemma stuck_done : forall s, PI s -> stuck s -> p_items s = [] /\ p_main s = MPoll /\ (forall t, thread s t = PIdle) /\ (forall x, In x (p_pushed s) -> In x (p_done s)) /\ p_started s = p_pushed s.
Proof.
  intros s P K. assert (M : p_main s = MPoll).
  { destruct (p_main s) as [| |l] eqn:EM; [reflexivity| |]; exfalso.
    - pose proof (pi_read s P EM) as B. destruct (p_bytes s) as [|k] eqn:EB; [lia|]. eapply K. apply goes_main. cbn [pstep]. unfold main_step. rewrite EM, EB. reflexivity.
    - assert (exists s', main_step s = Some s') as (s' & E).
      { unfold main_step. rewrite EM. destruct l as [|[|y] r]; [eexists; reflexivity| |eexists; reflexivity]. destruct (p_items s); [eexists; reflexivity|]. destruct (p_closed s); eexists; reflexivity. }
      eapply K. apply goes_main. exact E. }
  assert (B : p_bytes s = 0%nat).
  { destruct (p_bytes s) as [|k] eqn:EB; [reflexivity|]. exfalso. eapply K. apply goes_main. cbn [pstep]. unfold main_step. rewrite M, (pi_closed s P), EB. reflexivity. }
  assert (TH : forall t, thread s t = PIdle \/ exists x, thread s t = PWait x).
  { intros t. destruct (thread s t) as [|w|x w|x w|x w|x] eqn:ET; [left; reflexivity| | | | |right; exists x; reflexivity]; exfalso; eapply K; eapply (goes_thread _ _ t); cbn [pstep]; unfold thread_step; rewrite ET; reflexivity. }
  assert (I : p_items s = []).
  { destruct (p_items s) as [|x r] eqn:EI; [reflexivity|]. exfalso. destruct (wakeup s P) as [H|(t & y & w & H)]; [rewrite EI; discriminate|exact M|lia|]. destruct (TH t) as [E|(z & E)]; rewrite E in H; destruct H as [H|[H|[H _]]]; discriminate. }
  assert (ST : p_started s = p_pushed s) by (rewrite (pi_order s P), I, app_nil_r; reflexivity).
  assert (DN : forall x, In x (p_pushed s) -> In x (p_done s)). { intros x X. rewrite <- ST in X. destruct (pi_done s P x X) as [Y|Y]; [exact Y|]. rewrite M in Y. destruct Y. }
  split; [exact I|]. split; [exact M|]. split; [|split; [exact DN|exact ST]]. intros t. destruct (TH t) as [E|(x & E)]; [exact E|]. exfalso.
  assert (D : In x (p_done s)) by (apply DN, (pi_wait s P t x); rewrite E; reflexivity).
  eapply K. eapply (goes_thread _ _ t). cbn [pstep]. unfold thread_step. rewrite E. replace (existsb (Nat.eqb x) (p_done s)) with true; [reflexivity|]. symmetry. apply existsb_exists. exists x. split; [exact D|apply Nat.eqb_refl].
Qed.
Lemma finishes : forall s, PI s -> Acc (fun b a => PI a /\ goes a b) s.
Proof.
  intros s P. assert (H : forall n s, (effort s < n)%nat -> PI s -> Acc (fun b a => PI a /\ goes a b) s); [|apply (H (S (effort s)) s (le_n _) P)].
  clear s P. induction n as [|n IH]; intros s L P; [lia|]. constructor. intros s' [_ G]. apply IH; [pose proof (goes_less s s' P G); lia|].
  destruct G as [t E|E]; eapply step_pi; [exact P| |exact E|exact P| |exact E]; discriminate.
Qed.
