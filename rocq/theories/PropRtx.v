(** C88: the timers that send again back off, keep going, and end. *)
From Verif Require Import Base Rtx RtxSpec RtxProofs RtxMore.
From Coq Require Import Lia.

(** IHello number [n] to a candidate address is sent no earlier than 1 s + 2.5 s + 4 s + ... ([n] summands) after it was due; while the session waits for an RHello and the timers are late by at most [L],
    the next IHello is due at most a second, then 2.5 s, ... after the one before. *)
Theorem C88_hello : forall u l a t d, 0 < u -> let s := run u l in In (EAdd a t d) (log s) ->
  (forall n x, nth_error (hello_times a (log s)) n = Some x -> t + d + total u n <= x <= clock s) /\
  (forall L, state s = SHello -> prompt L s -> match rev (hello_times a (log s)) with [] => clock s <= t + d + L | x :: q => clock s <= x + gap u (length q) + L end).
Proof.
  intros u l a t d U s I. destruct (run_all u l U) as (H & _ & _). fold s in H. split; [exact (h_seq u s H a t d I)|].
  intros L S P. destruct (lookup a (hello s)) as [[x|]|] eqn:K; [|exfalso; exact (h_on u s H a S K)|exfalso; apply (proj2 (h_known u s H a)); eauto].
  destruct (h_tm u s H a t d x I K) as [E W]. pose proof (prompt_at L s _ P (due_hello a x s K)) as D. unfold last_or in W.
  destruct (hello_times a (log s)) as [|y q] using rev_ind; [cbn [rev last] in *; lia|]. rewrite rev_unit. rewrite last_last in W. rewrite rev_length. rewrite app_length in *. cbn [length] in *. replace (length q + 1 - 1)%nat with (length q) in E by lia.
  destruct (q ++ [y]) eqn:X; [destruct q; discriminate|]. lia.
Qed.
Print Assumptions C88_hello.
(** three IHellos to address 7, the second late, when another address is tried too *)
Example C88_hello_ex : let s := run 1 [Add 7 0 false; Add 8 500000 false; FireHello 7; Pass 1200000; FireHello 7; FireHello 8; Pass 2300000; FireHello 7] in
  hello_times 7 (log s) = [0; 1200000; 3500000] /\ In (EAdd 7 0 0) (log s) /\ state s = SHello /\ prompt 2000000 s.
Proof. vm_compute. split; [reflexivity|]. split; [auto|]. split; [reflexivity|]. repeat constructor; discriminate. Qed.

(** The same for each start of IIKeying. *)
Theorem C88_key : forall u l g t, 0 < u -> let s := run u l in In (EStart g t) (log s) ->
  (forall n x, nth_error (key_times g (log s)) n = Some x -> t + total u n <= x <= clock s) /\
  (forall L, state s = SKeying -> prompt L s -> (forall g' t', In (EStart g' t') (log s) -> g' <= g) ->
    match rev (key_times g (log s)) with [] => clock s <= t + L | x :: q => clock s <= x + gap u (length q) + L end).
Proof.
  intros u l g t U s I. destruct (run_all u l U) as (_ & H & _). fold s in H. split; [exact (k_seq u s H g t I)|].
  intros L S P M. pose proof (k_gen u s H g t I) as G. destruct (k_cur u s H ltac:(lia)) as [t1 I1]. pose proof (M _ _ I1). assert (g = gen s) by lia. subst g.
  destruct (key s) as [x|] eqn:K; [|exfalso; exact (k_on u s H S ltac:(lia) K)].
  destruct (k_tm u s H t x I K) as [E W]. pose proof (prompt_at L s _ P (due_key x s K)) as D. unfold last_or in W.
  destruct (key_times (gen s) (log s)) as [|y q] using rev_ind; [cbn [rev last] in *; lia|]. rewrite rev_unit. rewrite last_last in W. rewrite rev_length. rewrite app_length in *. cbn [length] in *. replace (length q + 1 - 1)%nat with (length q) in E by lia.
  destruct (q ++ [y]) eqn:X; [destruct q; discriminate|]. lia.
Qed.
Print Assumptions C88_key.
(** IIKeying sent twice, started again, and sent once more *)
Example C88_key_ex : let s := run 1 [RHello; Start; FireKey; Pass 1000000; FireKey; Pass 500; Start; FireKey] in
  key_times 1 (log s) = [0; 1000000] /\ key_times 2 (log s) = [1000500] /\ In (EStart 2 1000500) (log s) /\ state s = SKeying /\ prompt 0 s /\ (forall g t, In (EStart g t) (log s) -> g <= 2).
Proof. vm_compute. split; [reflexivity|]. split; [reflexivity|]. split; [tauto|]. split; [reflexivity|]. split; [repeat constructor; discriminate|]. intros g t H. repeat destruct H as [H|H]; try discriminate H; try (injection H; intros; subst; discriminate); destruct H. Qed.

(** While opening, with timers no more than 16 s late, at most 12 IHellos go to an address and at most 12 times the IIKeying of a start. *)
Theorem C88_count : forall u l L, 0 < u -> let s := run u l in prompt L s -> L < 16000000 * u -> state s = SHello \/ state s = SKeying ->
  clock s <= 95000000 * u + L /\ (forall a t d, In (EAdd a t d) (log s) -> 0 <= d -> (length (hello_times a (log s)) <= 12)%nat) /\ (forall g t, In (EStart g t) (log s) -> (length (key_times g (log s)) <= 12)%nat).
Proof.
  intros u l L U s P B S. destruct (run_all u l U) as (H & K & C). fold s in H, K, C. pose proof (prompt_at L s _ P (due_ult _ s (c_ult u s C S))) as D. split; [lia|]. split.
  - intros a t d I N. pose proof (proj2 (run_from0 u l)) as Z0. rewrite Forall_forall in Z0. pose proof (Z0 _ I) as Z1. cbv beta iota in Z1. apply (seq_len u (t + d) (clock s)); auto; [exact (h_seq u s H a t d I)|]. unfold total. change (Z.of_nat 12) with 12. cbv zeta. lia.
  - intros g t I. pose proof (proj2 (run_from0 u l)) as Z0. rewrite Forall_forall in Z0. pose proof (Z0 _ I) as Z1. cbv beta iota in Z1. apply (seq_len u t (clock s)); auto; [exact (k_seq u s K g t I)|]. unfold total. change (Z.of_nat 12) with 12. cbv zeta. lia.
Qed.
Print Assumptions C88_count.
(** twelve are reached *)
Fixpoint tries (n : nat) (i : Z) : list op := match n with O => [] | S n => [Pass i; FireHello 7] ++ tries n (i + 1500000) end.
Example C88_count_ex : let s := run 1 ([Add 7 0 false; FireHello 7] ++ tries 11 1000000 ++ [Pass 1500000]) in length (hello_times 7 (log s)) = 12%nat /\ clock s = 95000000 /\ state s = SHello /\ prompt 0 s.
Proof. vm_compute. split; [reflexivity|]. split; [reflexivity|]. split; [reflexivity|]. repeat constructor; discriminate. Qed.

(** A session that closes in order sends Close chunk number [n] no earlier than 5 [n] seconds after it began to, and the last before 90 s: at most 18. *)
Theorem C88_close : forall u l t, 0 < u -> let s := run u l in In (ENear t) (log s) ->
  (forall n x, nth_error (close_times (log s)) n = Some x -> t + 5000000 * u * Z.of_nat n <= x < t + 90000000 * u) /\ (length (close_times (log s)) <= 18)%nat.
Proof.
  intros u l t U s I. destruct (run_all u l U) as (_ & _ & C). fold s in C. destruct (c_seq u s C t I) as [_ Q]. split; auto.
  destruct (Nat.le_gt_cases (length (close_times (log s))) 18) as [L|L]; auto. destruct (nth_error (close_times (log s)) 18) eqn:E; [|apply nth_error_None in E; lia]. apply Q in E. lia.
Qed.
Print Assumptions C88_close.
Fixpoint closes (n : nat) : list op := match n with O => [] | S n => [FireNear; Pass 5000000] ++ closes n end.
Example C88_close_ex : let s := run 1 ([Open; Pass 77; Near] ++ closes 18) in In (ENear 77) (log s) /\ length (close_times (log s)) = 18%nat /\ state (run 1 ([Open; Pass 77; Near] ++ closes 19)) = SClosed.
Proof. vm_compute. tauto. Qed.

(** Each thing is done only when it is time for it: an address is tried once, IHello and IIKeying are not sent once there was an answer, Close chunks only when closing, and nothing after the end, which comes once. *)
Theorem C88_history : forall u l l1 e l2, 0 < u -> log (run u l) = l1 ++ e :: l2 -> past_ok l1 e.
Proof. intros u l l1 e l2 U E. exact (run_pasts u l U l1 e l2 E). Qed.
Print Assumptions C88_history.
Example C88_history_ex : log (run 1 [Add 7 0 false; FireHello 7; RHello; Pass 1000000; FireHello 7; Start; FireKey; Open; Pass 1000000; FireKey; Near; FireNear; Abort; FireNear]) =
  [EAdd 7 0 0; EHello 7 0; ERHello; EStart 1 1000000; EKey 1 1000000; EOpen; ENear 2000000; EClose 2000000; EAbort].
Proof. reflexivity. Qed.

(** If timers are late by at most [L], a session is not opening after 95 s, not closing in order 95 s after it began to, and not lingering after 19 s. *)
Theorem C88_ends : forall u l L, 0 < u -> let s := run u l in prompt L s ->
  (state s = SHello \/ state s = SKeying -> clock s <= 95000000 * u + L) /\
  (state s = SNear -> exists t, In (ENear t) (log s) /\ clock s < t + 95000000 * u + L) /\
  (state s = SFar -> exists t, In (EFar t) (log s) /\ clock s <= t + 19000000 * u + L).
Proof.
  intros u l L U s P. destruct (run_all u l U) as (_ & _ & C). fold s in C. split; [|split]; intro S.
  - exact (prompt_at L s _ P (due_ult _ s (c_ult u s C S))).
  - pose proof (c_ph u s C) as Q. rewrite S in Q. destruct Q as (_ & Q & _). apply existsb_exists in Q. destruct Q as (e & I & Q). destruct e; try discriminate. exists at_. split; auto.
    destruct (near s) as [[x lim]|] eqn:N; [|exfalso; exact (c_on u s C S N)]. destruct (c_tm u s C _ x lim I N) as (_ & _ & B). pose proof (prompt_at L s _ P (due_near _ _ s N)). lia.
  - pose proof (c_ph u s C) as Q. rewrite S in Q. destruct Q as (_ & Q & _). apply existsb_exists in Q. destruct Q as (e & I & Q). destruct e; try discriminate. exists at_. split; auto.
    destruct (far s) as [x|] eqn:N; [|exfalso; exact (c_far u s C S N)]. rewrite (c_ftm u s C _ x I N) in N. exact (prompt_at L s _ P (due_far _ s N)).
Qed.
Print Assumptions C88_ends.
Example C88_ends_ex :
  (let s := run 1 [Open; Pass 5; Far; Pass 19000000] in state s = SFar /\ prompt 0 s /\ state (step 1 s FireFar) = SClosed) /\
  (let s := run 1 [RHello; Pass 95000000] in state s = SKeying /\ prompt 0 s /\ state (step 1 s FireUlt) = SClosed) /\
  (let s := run 1 [Open; Pass 5; Near; FireNear; Pass 5000000] in state s = SNear /\ prompt 0 s).
Proof. vm_compute. repeat split; repeat constructor; discriminate. Qed.

(** That an IHello is followed by the next no sooner than a second later does not hold: the time of the next is counted from when the last was due, not from when it was sent. *)
Theorem C88_gap_refuted : ~ (forall u l a n x y, 0 < u -> nth_error (hello_times a (log (run u l))) n = Some x -> nth_error (hello_times a (log (run u l))) (S n) = Some y -> x + 1000000 * u <= y).
Proof. intro H. specialize (H 1 [Add 7 0 false; FireHello 7; Pass 3400000; FireHello 7; Pass 100000; FireHello 7] 7 1%nat 3400000 3500000 eq_refl eq_refl eq_refl). lia. Qed.
Print Assumptions C88_gap_refuted.

(** However many addresses redirects give, they bring those tried to no more than 24; only those given directly can be more. *)
Theorem C88_redirect : forall u l,
  (length (filter (fun e => match e with EAdd _ _ _ => true | _ => false end) (log (run u l))) <= 24 + length (filter (fun o => match o with Add _ _ false => true | _ => false end) l))%nat /\
  (forall a d, let s := run u l in (24 <= length (filter (fun e => match e with EAdd _ _ _ => true | _ => false end) (log s)))%nat -> log (step u s (Add a d true)) = log s).
Proof.
  intros u l. destruct (run_adds u l) as [A B]. split; [exact B|]. intros a d s G. change (24 <= adds (log s))%nat in G. unfold s in *. rewrite A in G.
  cbn [step]. unfold add_address. destruct (state (run u l)); auto. destruct (lookup a (hello (run u l))); auto. replace (REDIRECT_THRESHOLD <=? zlen (hello (run u l))) with true; [reflexivity|]. symmetry. apply Z.leb_le. unfold REDIRECT_THRESHOLD, zlen. lia.
Qed.
Print Assumptions C88_redirect.
(** thirty redirects, and one address directly *)
Example C88_redirect_ex : let s := run 1 (map (fun n => Add (Z.of_nat n) 0 true) (seq 0 30) ++ [Add 100 0 false]) in length (filter (fun e => match e with EAdd _ _ _ => true | _ => false end) (log s)) = 25%nat.
Proof. reflexivity. Qed.

(** Closing, in whatever way, cancels the timer of the IIKeying. *)
Theorem C88_cancelled : forall u l, let s := run u l in state s = SNear \/ state s = SFar \/ state s = SClosed -> key s = None.
Proof. intros u l s H. pose proof (run_quiet u l) as Q. unfold quiet in Q. fold s in Q. destruct H as [H|[H|H]]; rewrite H in Q; exact Q. Qed.
Print Assumptions C88_cancelled.
Example C88_cancelled_ex : let s := run 1 [RHello; Start; FireKey; Open] in key s <> None /\ state (step 1 s Near) = SNear /\ state (step 1 s Far) = SFar /\ state (step 1 s Abort) = SClosed.
Proof. vm_compute. repeat split; discriminate. Qed.
