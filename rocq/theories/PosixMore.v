(** More lemmas for PropPosix.v. *)
From Verif Require Import Base Posix PosixSpec PosixProofs.
From Coq Require Import Lia.

(** ** Packets come from the interface's own socket *)
Definition OWN (s : pa) : Prop := Forall (own (p_log s)) (p_log s).
Lemma own_mono : forall l l' e, own l e -> own (l ++ l') e.
Proof. unfold own, made. intros l l' e H. destruct e; auto; [destruct H as [f H]; exists f|]; apply in_or_app; auto. Qed.
Lemma OWN_ext : forall s s', OWN s -> ext (own (p_log s)) s s' -> OWN s'.
Proof.
  unfold OWN. intros s s' H (l & E & F). rewrite E. apply Forall_app. split; [eapply Forall_impl; [|exact H]|eapply Forall_impl; [|exact F]]; intros; now apply own_mono.
Qed.
Lemma OWN_call : forall s c, INV s -> OWN s -> OWN (do_call s c).
Proof.
  intros s c H O. eapply OWN_ext; [exact O|]. destruct c; cbn [do_call].
  - unfold add_udp. destruct (look fd (k_tab s)); [now apply ext_refl|]. destruct bound; [|now apply ext_refl]. eapply ext_say; [|reflexivity]. exact Logic.I.
  - rewrite p_close_eq by auto. now apply ext_refl.
  - unfold notify. destruct (find_if id (p_ifs s)); now apply ext_refl.
  - destruct (write_packet_say id fam b tos r1 r2 s H) as [[_ ->]|(_ & k & t & M & _ & ->)]; [now apply ext_refl|]. eapply ext_say; [|reflexivity]. exact M.
  - eapply ext_say; [|reflexivity]. exact Logic.I.
  - destruct (look fd (k_tab s)); now apply ext_refl.
  - destruct (look fd (k_tab s)) as [x|]; [destruct (k_mine x)|]; now apply ext_refl.
  - destruct (look fd (k_tab s)) as [x|]; [|now apply ext_refl]. eapply ext_say; [|reflexivity]. exact Logic.I.
Qed.
Lemma OWN_calls : forall l s, INV s -> OWN s -> OWN (do_calls l s).
Proof. unfold do_calls. induction l as [|c l IH]; cbn; auto. intros. apply IH; [now apply INV_call|now apply OWN_call]. Qed.
(** the interface stays unless the adapter is closed; a closed descriptor stays closed unless one is opened *)
Lemma stays_call : forall s c i, INV s -> In i (p_ifs s) -> is_close c = false -> In i (p_ifs (do_call s c)).
Proof.
  intros s c i H Hi C. destruct c; cbn [do_call]; try discriminate; auto.
  - unfold add_udp. destruct (look fd (k_tab s)); auto. destruct bound; auto. cbn. apply in_or_app. auto.
  - unfold notify. destruct (find_if id (p_ifs s)); auto.
  - destruct (write_packet_say id fam b tos r1 r2 s H) as [[_ ->]|(_ & k & t & M & _ & ->)]; auto.
  - destruct (look fd (k_tab s)); auto.
  - destruct (look fd (k_tab s)) as [x|]; [destruct (k_mine x)|]; auto.
  - destruct (look fd (k_tab s)); auto.
Qed.
Lemma stays_calls : forall l s i, INV s -> In i (p_ifs s) -> Forall (fun c => is_close c = false) l -> In i (p_ifs (do_calls l s)).
Proof. unfold do_calls. induction l as [|c l IH]; cbn; auto. intros. inversion H1; subst. apply IH; auto; [now apply INV_call|now apply stays_call]. Qed.
Lemma shut_call : forall s c i, INV s -> In i (p_ifs s) \/ look (i_fd i) (k_tab s) = None -> opens c = false -> In i (p_ifs (do_call s c)) \/ look (i_fd i) (k_tab (do_call s c)) = None.
Proof.
  intros s c i H [Hi|Hn] C.
  - destruct (is_close c) eqn:E; [|left; now apply stays_call]. destruct c; try discriminate. right. cbn [do_call]. rewrite p_close_eq by auto. cbn [k_tab]. rewrite look_purge.
    replace (kept (p_ifs s) (i_fd i)) with false; auto. symmetry. apply kept_false. now apply in_map.
  - right. destruct (look (i_fd i) (k_tab (do_call s c))) as [x|] eqn:L; auto.
    destruct c; try discriminate; cbn [do_call] in L.
    + rewrite p_close_eq in L by auto. cbn [k_tab] in L. rewrite look_purge in L. destruct (kept (p_ifs s) (i_fd i)); congruence.
    + unfold notify in L. destruct (find_if id (p_ifs s)); cbn [snd with_write k_tab] in L; congruence.
    + destruct (write_packet_say id fam b tos r1 r2 s H) as [[_ E]|(_ & k & t & M & _ & E)]; rewrite E in L; cbn [say k_tab] in L; congruence.
    + cbn in L. congruence.
    + destruct (look fd (k_tab s)) as [y|]; [destruct (k_mine y)|]; cbn [with_tab k_tab] in L; try congruence. rewrite look_forget in L. destruct (i_fd i =? fd); congruence.
    + destruct (look fd (k_tab s)) as [y|] eqn:Ly; [|congruence]. cbn [say with_tab k_tab] in L. rewrite look_set_queue in L. destruct (i_fd i =? fd) eqn:E; [|congruence].
      apply Z.eqb_eq in E. congruence.
Qed.
Lemma shut_calls : forall l s i, INV s -> In i (p_ifs s) \/ look (i_fd i) (k_tab s) = None -> Forall (fun c => opens c = false) l ->
  In i (p_ifs (do_calls l s)) \/ look (i_fd i) (k_tab (do_calls l s)) = None.
Proof. unfold do_calls. induction l as [|c l IH]; cbn; auto. intros. inversion H1; subst. apply IH; auto; [now apply INV_call|now apply shut_call]. Qed.
Lemma concat_hd_tl : forall (P : call -> Prop) cbs, Forall P (concat cbs) -> Forall P (hd [] cbs) /\ Forall P (concat (tl cbs)).
Proof. intros P [|c cbs] H; cbn in *; auto. now apply Forall_app in H. Qed.
Lemma OWN_recv : forall n i cbs s, INV s -> OWN s -> calm cbs -> In i (p_ifs s) \/ (look (i_fd i) (k_tab s) = None) ->
  OWN (recv_loop n (i_fd i) (i_id i) cbs s).
Proof.
  induction n as [|n IH]; cbn [recv_loop]; intros i cbs s H O C [Hi|Hn]; auto; [|now rewrite Hn].
  destruct (look (i_fd i) (k_tab s)) as [x|] eqn:L; auto. destruct (k_queue x) as [|b q] eqn:Q; auto.
  assert (K : INV (say (EvPacket (i_id i) (k_sock x) (cut b)) (with_tab s (set_queue (i_fd i) q (k_tab s))))) by (apply INV_say; [exact Logic.I|]; now apply INV_queue).
  assert (K' : OWN (say (EvPacket (i_id i) (k_sock x) (cut b)) (with_tab s (set_queue (i_fd i) q (k_tab s))))).
  { eapply OWN_ext; [exact O|]. eapply ext_say; [|reflexivity]. destruct (n_own s H i Hi) as [q' E]. rewrite E in L. injection L as <-. cbn. exists (i_fam i). now apply (n_log s H). }
  apply IH; [now apply INV_calls|now apply OWN_calls| |].
  - destruct C as [C|C]; apply concat_hd_tl in C; [left|right]; tauto.
  - destruct C as [C|C]; apply concat_hd_tl in C; destruct C as [C _]; [left; apply stays_calls; auto|apply shut_calls; auto].
Qed.
Lemma OWN_wloop : forall n fd cb ans s, INV s -> OWN s -> OWN (write_loop n fd cb ans s).
Proof.
  induction n as [|n IH]; cbn [write_loop]; intros fd cb ans s H O; auto. destruct (hd ([], false) ans) as [cs more]. cbv zeta.
  assert (K : INV (say (EvWritable cb) s)) by (apply INV_say; [exact Logic.I|auto]).
  assert (K' : OWN (do_calls cs (say (EvWritable cb) s))).
  { apply OWN_calls; auto. eapply OWN_ext; [exact O|]. eapply ext_say; [|reflexivity]. exact Logic.I. }
  destruct more; [apply IH; auto; now apply INV_calls|]. exact K'.
Qed.
Lemma read_if : forall s fd id, INV s -> look fd (l_read s) = Some id -> exists i, In i (p_ifs s) /\ i_fd i = fd /\ i_id i = id.
Proof.
  intros s fd id H L. apply look_in in L. rewrite (n_read s H) in L. apply in_map_iff in L. destruct L as (i & E & Hi). injection E as <- <-. eauto.
Qed.
Lemma OWN_step : forall s o, INV s -> OWN s -> calm_op o -> OWN (step s o).
Proof.
  intros s o H O C. destruct o; cbn [step].
  - now apply OWN_call.
  - destruct (look fd (l_read s)) as [id|] eqn:L; auto. destruct (read_if s fd id H L) as (i & Hi & <- & <-). apply OWN_recv; auto.
  - destruct (look fd (l_write s)); auto. now apply OWN_wloop.
  - destruct (l_tasks s) as [|t r]; auto. cbv zeta. destruct (p_open (with_tasks s r)); auto.
    apply OWN_calls; [apply INV_say; [exact Logic.I|now apply INV_tasks]|]. eapply OWN_ext; [exact O|]. eapply ext_say; [|reflexivity]. exact Logic.I.
Qed.
Lemma OWN_run : forall l s, INV s -> OWN s -> Forall calm_op l -> OWN (run l s).
Proof. unfold run. induction l as [|o l IH]; cbn; auto. intros. inversion H1; subst. apply IH; auto; [now apply INV_step|now apply OWN_step]. Qed.

(** ** Reading to the end *)
Definition waits (fd : Z) (s : pa) : nat := match look fd (k_tab s) with Some x => length (k_queue x) | None => 0%nat end.
Lemma waits_call : forall s c fd, INV s -> (waits fd (do_call s c) <= waits fd s + 1)%nat.
Proof.
  intros s c fd H. destruct (comes c) eqn:C.
  - destruct c; try discriminate. cbn [do_call]. destruct (look fd0 (k_tab s)) as [y|] eqn:L; [|lia]. unfold waits. cbn [say with_tab k_tab]. rewrite look_set_queue.
    destruct (fd =? fd0) eqn:E; [|lia]. apply Z.eqb_eq in E. subst. rewrite L. cbn. rewrite app_length. cbn. lia.
  - destruct (call_tabs s c H C) as [_ T]. unfold waits. destruct (look fd (k_tab (do_call s c))) as [x|] eqn:L; [|lia].
    destruct (T fd x L) as [E|[_ E]]; [rewrite E; lia|rewrite E; cbn; lia].
Qed.
Lemma waits_calls : forall l s fd, INV s -> (waits fd (do_calls l s) <= waits fd s + length l)%nat.
Proof.
  unfold do_calls. induction l as [|c l IH]; cbn; [lia|]. intros s fd H. pose proof (waits_call s c fd H). pose proof (IH (do_call s c) fd (INV_call s c H)). lia.
Qed.
Lemma recv_empties : forall n fd id cbs s, INV s -> (waits fd s + length (concat cbs) <= n)%nat -> waits fd (recv_loop n fd id cbs s) = 0%nat.
Proof.
  induction n as [|n IH]; cbn [recv_loop]; intros fd id cbs s H W; [lia|].
  destruct (look fd (k_tab s)) as [x|] eqn:L; [|unfold waits; now rewrite L]. destruct (k_queue x) as [|b q] eqn:Q; [unfold waits; now rewrite L, Q|].
  set (s1 := say _ _). assert (K : INV s1) by (apply INV_say; [exact Logic.I|]; now apply INV_queue).
  apply IH; [now apply INV_calls|]. pose proof (waits_calls (hd [] cbs) s1 fd K) as WC.
  assert (W1 : waits fd s1 = length q) by (unfold waits, s1; cbn [say with_tab k_tab]; rewrite look_set_queue, Z.eqb_refl, L; reflexivity).
  unfold waits in W at 1. rewrite L, Q in W. cbn [length] in W.
  assert (LC : length (concat cbs) = (length (hd [] cbs) + length (concat (tl cbs)))%nat) by (destruct cbs; cbn; [auto|apply app_length]).
  lia.
Qed.
Lemma waits_total : forall t fd x, look fd t = Some x -> (length (k_queue x) <= total t)%nat.
Proof.
  induction t as [|[f y] t IH]; cbn; intros fd x H; [discriminate|]. destruct (f =? fd); [injection H as ->; lia|]. specialize (IH _ _ H). unfold total in *. lia.
Qed.
Lemma stays_recv : forall n fd id cbs s i, INV s -> In i (p_ifs s) -> Forall (fun c => is_close c = false) (concat cbs) -> In i (p_ifs (recv_loop n fd id cbs s)).
Proof.
  induction n as [|n IH]; cbn [recv_loop]; intros fd id cbs s i H Hi C; auto. destruct (look fd (k_tab s)) as [x|]; auto. destruct (k_queue x) as [|b q]; auto.
  apply concat_hd_tl in C. destruct C as [C C'].
  assert (K : INV (say (EvPacket id (k_sock x) (cut b)) (with_tab s (set_queue fd q (k_tab s))))) by (apply INV_say; [exact Logic.I|]; now apply INV_queue).
  apply IH; auto; [now apply INV_calls|]. apply stays_calls; auto.
Qed.
Lemma readable_all : forall s i cbs, INV s -> ORD s -> In i (p_ifs s) -> Forall (fun c => is_close c = false) (concat cbs) ->
  In i (p_ifs (step s (Readable (i_fd i) cbs))) /\
  given (i_sock i) (p_log (step s (Readable (i_fd i) cbs))) = map cut (reached (i_sock i) (p_log (step s (Readable (i_fd i) cbs)))).
Proof.
  intros s i cbs H O Hi C.
  assert (L : look (i_fd i) (l_read s) = Some (i_id i)).
  { rewrite (n_read s H). pose proof (n_fds s H) as N. clear - Hi N. induction (p_ifs s) as [|j l IH]; cbn in *; [tauto|]. inversion N; subst.
    destruct Hi as [->|Hi]; [now rewrite Z.eqb_refl|]. destruct (i_fd j =? i_fd i) eqn:E; [|auto]. apply Z.eqb_eq in E. exfalso. apply H1. rewrite E. now apply in_map. }
  assert (E : step s (Readable (i_fd i) cbs) = recv_loop (total (k_tab s) + length (concat cbs)) (i_fd i) (i_id i) cbs s) by (cbn [step]; now rewrite L).
  rewrite E. set (s' := recv_loop _ _ _ _ _).
  assert (H' : INV s') by now apply INV_recv. assert (O' : ORD s') by now apply ORD_recv.
  assert (I' : In i (p_ifs s')) by now apply stays_recv.
  split; auto. destruct (n_own s' H' i I') as [q Lq]. destruct (o_one s' O' (i_sock i)) as (rest & R & Q). specialize (Q _ _ Lq eq_refl). cbn in Q.
  assert (W : waits (i_fd i) s' = 0%nat).
  { apply recv_empties; auto. unfold waits. destruct (look (i_fd i) (k_tab s)) as [x|] eqn:Lx; [|lia]. pose proof (waits_total _ _ _ Lx). lia. }
  unfold waits in W. rewrite Lq in W. cbn in W. destruct q; [|discriminate]. subst rest. cbn in R. rewrite app_nil_r in R. auto.
Qed.

(** ** Tasks *)
Lemma asked_app : forall a b, asked (a ++ b) = asked a ++ asked b.
Proof. intros. apply flat_map_app. Qed.
Lemma tasks_app : forall a b, tasks (a ++ b) = tasks a ++ tasks b.
Proof. intros. apply flat_map_app. Qed.
Record TSK (s : pa) : Prop := {
  t_open : p_open s = true -> asked (p_log s) = tasks (p_log s) ++ l_tasks s;
  t_pre : exists r, asked (p_log s) = tasks (p_log s) ++ r
}.
Lemma TSK_keep : forall s s', TSK s -> (p_open s' = true -> p_open s = true) -> l_tasks s' = l_tasks s -> asked (p_log s') = asked (p_log s) -> tasks (p_log s') = tasks (p_log s) -> TSK s'.
Proof. intros s s' [A B] P L E F. constructor; rewrite E, F; [rewrite L; auto|auto]. Qed.
Lemma TSK_call : forall s c, INV s -> TSK s -> TSK (do_call s c).
Proof.
  intros s c H T. destruct c; cbn [do_call].
  - unfold add_udp. destruct (look fd (k_tab s)); auto. destruct bound; auto. cbv zeta. eapply TSK_keep; [exact T|auto|auto| |]; cbn [say p_log]; rewrite ?asked_app, ?tasks_app; apply app_nil_r.
  - rewrite p_close_eq by auto. eapply TSK_keep; [exact T|discriminate|auto|auto|auto].
  - unfold notify. destruct (find_if id (p_ifs s)); auto. eapply TSK_keep; [exact T|auto|auto|auto|auto].
  - destruct (write_packet_say id fam b tos r1 r2 s H) as [[_ ->]|(_ & k & t & M & _ & ->)]; auto. eapply TSK_keep; [exact T|auto|auto| |]; cbn [say p_log]; rewrite ?asked_app, ?tasks_app; apply app_nil_r.
  - destruct T as [A [r B]]. unfold perform. constructor; cbn [say with_tasks p_open p_log l_tasks]; rewrite asked_app, tasks_app; cbn [asked tasks flat_map app]; rewrite app_nil_r.
    + intro P. rewrite (A P), app_assoc. auto.
    + exists (r ++ [t]). now rewrite B, app_assoc.
  - destruct (look fd (k_tab s)); auto. eapply TSK_keep; [exact T|auto|auto|auto|auto].
  - destruct (look fd (k_tab s)) as [x|]; [destruct (k_mine x)|]; auto. eapply TSK_keep; [exact T|auto|auto|auto|auto].
  - destruct (look fd (k_tab s)) as [x|]; auto. eapply TSK_keep; [exact T|auto|auto| |]; cbn [say with_tab p_log]; rewrite ?asked_app, ?tasks_app; apply app_nil_r.
Qed.
Lemma TSK_calls : forall l s, INV s -> TSK s -> TSK (do_calls l s).
Proof. unfold do_calls. induction l as [|c l IH]; cbn; auto. intros. apply IH; [now apply INV_call|now apply TSK_call]. Qed.
Lemma TSK_say : forall s e, match e with EvAsk _ | EvTask _ => False | _ => True end -> TSK s -> TSK (say e s).
Proof. intros s e P T. eapply TSK_keep; [exact T|auto|auto| |]; cbn [say p_log]; rewrite ?asked_app, ?tasks_app; destruct e; cbn in *; try tauto; apply app_nil_r. Qed.
Lemma TSK_tab : forall s t, TSK s -> TSK (with_tab s t).
Proof. intros s t T. eapply TSK_keep; [exact T|auto|auto|auto|auto]. Qed.
Lemma TSK_recv : forall n fd id cbs s, INV s -> TSK s -> TSK (recv_loop n fd id cbs s).
Proof.
  induction n as [|n IH]; cbn [recv_loop]; intros fd id cbs s H T; auto. destruct (look fd (k_tab s)) as [x|] eqn:L; auto. destruct (k_queue x) as [|b q] eqn:Q; auto.
  assert (K : INV (say (EvPacket id (k_sock x) (cut b)) (with_tab s (set_queue fd q (k_tab s))))) by (apply INV_say; [exact Logic.I|]; now apply INV_queue).
  apply IH; [now apply INV_calls|]. apply TSK_calls; auto. apply TSK_say; [exact Logic.I|]. now apply TSK_tab.
Qed.
Lemma TSK_wloop : forall n fd cb ans s, INV s -> TSK s -> TSK (write_loop n fd cb ans s).
Proof.
  induction n as [|n IH]; cbn [write_loop]; intros fd cb ans s H T; auto. destruct (hd ([], false) ans) as [cs more]. cbv zeta.
  assert (K : INV (say (EvWritable cb) s)) by (apply INV_say; [exact Logic.I|auto]).
  assert (K' : TSK (do_calls cs (say (EvWritable cb) s))) by (apply TSK_calls; auto; apply TSK_say; [exact Logic.I|auto]).
  destruct more; [apply IH; auto; now apply INV_calls|]. eapply TSK_keep; [exact K'|auto|auto|auto|auto].
Qed.
Lemma TSK_step : forall s o, INV s -> TSK s -> TSK (step s o).
Proof.
  intros s o H T. destruct o; cbn [step].
  - now apply TSK_call.
  - destruct (look fd (l_read s)); auto. now apply TSK_recv.
  - destruct (look fd (l_write s)); auto. now apply TSK_wloop.
  - destruct (l_tasks s) as [|t r] eqn:Lt; auto. cbv zeta. cbn [with_tasks p_open]. destruct (p_open s) eqn:P.
    + apply TSK_calls; [apply INV_say; [exact Logic.I|now apply INV_tasks]|]. destruct T as [A _]. specialize (A P). rewrite Lt in A.
      assert (E : asked (p_log s ++ [EvTask t]) = tasks (p_log s ++ [EvTask t]) ++ r).
      { rewrite asked_app, tasks_app. cbn [asked tasks flat_map app]. rewrite app_nil_r, A, <- app_assoc. reflexivity. }
      constructor; cbn [say with_tasks p_open p_log l_tasks]; eauto.
    + destruct T as [_ B]. constructor; cbn [with_tasks p_open p_log l_tasks]; [congruence|auto].
Qed.
Lemma TSK_run : forall l s, INV s -> TSK s -> TSK (run l s).
Proof. unfold run. induction l as [|o l IH]; cbn; auto. intros. apply IH; [now apply INV_step|now apply TSK_step]. Qed.

(** ** After close *)
Definition shut (s : pa) : Prop := p_open s = false.
Lemma shut_call' : forall s c, INV s -> shut s -> shut (do_call s c).
Proof.
  intros s c H S. unfold shut in *. destruct c; cbn [do_call]; auto.
  - unfold add_udp. destruct (look fd (k_tab s)); auto. destruct bound; auto.
  - now rewrite p_close_eq.
  - unfold notify. destruct (find_if id (p_ifs s)); auto.
  - destruct (write_packet_say id fam b tos r1 r2 s H) as [[_ ->]|(_ & k & t & M & _ & ->)]; auto.
  - destruct (look fd (k_tab s)); auto.
  - destruct (look fd (k_tab s)) as [x|]; [destruct (k_mine x)|]; auto.
  - destruct (look fd (k_tab s)); auto.
Qed.
Lemma shut_calls' : forall l s, INV s -> shut s -> shut (do_calls l s).
Proof. unfold do_calls. induction l as [|c l IH]; cbn; auto. intros. apply IH; [now apply INV_call|now apply shut_call']. Qed.
Lemma tasks_calls : forall l s, INV s -> tasks (p_log (do_calls l s)) = tasks (p_log s).
Proof. intros l s H. destruct (calls_log l s H) as (x & E & F). rewrite E, tasks_app. destruct (call_ev_quiet x F) as (-> & _). apply app_nil_r. Qed.
Lemma recv_shut : forall n fd id cbs s, INV s -> (shut s -> shut (recv_loop n fd id cbs s)) /\ tasks (p_log (recv_loop n fd id cbs s)) = tasks (p_log s).
Proof.
  induction n as [|n IH]; cbn [recv_loop]; intros fd id cbs s H; auto. destruct (look fd (k_tab s)) as [x|] eqn:L; auto. destruct (k_queue x) as [|b q] eqn:Q; auto.
  set (s1 := say _ _). assert (K : INV s1) by (apply INV_say; [exact Logic.I|]; now apply INV_queue).
  destruct (IH fd id (tl cbs) (do_calls (hd [] cbs) s1) (INV_calls _ _ K)) as [A B]. split.
  - intro S. apply A. now apply shut_calls'.
  - rewrite B, tasks_calls by auto. unfold s1. cbn [say p_log with_tab]. rewrite tasks_app. apply app_nil_r.
Qed.
Lemma wloop_shut : forall n fd cb ans s, INV s -> (shut s -> shut (write_loop n fd cb ans s)) /\ tasks (p_log (write_loop n fd cb ans s)) = tasks (p_log s).
Proof.
  induction n as [|n IH]; cbn [write_loop]; intros fd cb ans s H; auto. destruct (hd ([], false) ans) as [cs more]. cbv zeta.
  assert (K : INV (say (EvWritable cb) s)) by (apply INV_say; [exact Logic.I|auto]).
  assert (T : tasks (p_log (do_calls cs (say (EvWritable cb) s))) = tasks (p_log s)) by (rewrite tasks_calls by auto; cbn [say p_log]; rewrite tasks_app; apply app_nil_r).
  assert (S' : shut s -> shut (do_calls cs (say (EvWritable cb) s))) by (intro; now apply shut_calls').
  destruct more; [|split; auto]. destruct (IH fd cb (tl ans) _ (INV_calls cs _ K)) as [A B]. split; [auto|]. now rewrite B.
Qed.
Lemma shut_step : forall s o, INV s -> shut s -> shut (step s o) /\ tasks (p_log (step s o)) = tasks (p_log s).
Proof.
  intros s o H S. destruct o; cbn [step].
  - split; [now apply shut_call'|]. apply (tasks_calls [c] s H).
  - destruct (look fd (l_read s)) as [id|]; auto. destruct (recv_shut (total (k_tab s) + length (concat cbs)) fd id cbs s H). auto.
  - destruct (look fd (l_write s)) as [cb|]; auto. destruct (wloop_shut 4 fd cb ans s H). auto.
  - destruct (l_tasks s); auto. cbv zeta. cbn [with_tasks p_open]. unfold shut in S. rewrite S. auto.
Qed.
Lemma shut_run : forall l s, INV s -> shut s -> shut (run l s) /\ tasks (p_log (run l s)) = tasks (p_log s).
Proof.
  unfold run. induction l as [|o l IH]; cbn; auto. intros s H S. destruct (shut_step s o H S) as [A B]. destruct (IH _ (INV_step s o H) A) as [C D]. split; auto. congruence.
Qed.
(** nothing more happens on interfaces unless one is added *)
Definition bare (s : pa) : Prop := p_open s = false /\ p_ifs s = [].
Lemma bare_step : forall s o, INV s -> bare s -> adds o = false -> bare (step s o) /\ ext (fun e => match e with EvArrive _ _ | EvAsk _ => True | _ => False end) s (step s o).
Proof.
  intros s o H [P B] A. destruct o; cbn [step].
  - destruct c; cbn [do_call] in *; try discriminate.
    + rewrite p_close_eq by auto. split; [split; auto|now apply ext_refl].
    + unfold notify. rewrite B. cbn. split; [split; auto|now apply ext_refl].
    + unfold write_packet. rewrite B. cbn. split; [split; auto|now apply ext_refl].
    + split; [split; auto|]. eapply ext_say; [|reflexivity]. exact Logic.I.
    + destruct (look fd (k_tab s)); split; try (split; auto); now apply ext_refl.
    + destruct (look fd (k_tab s)) as [x|]; [destruct (k_mine x)|]; split; try (split; auto); now apply ext_refl.
    + destruct (look fd (k_tab s)); [|split; [split; auto|now apply ext_refl]]. split; [split; auto|]. eapply ext_say; [|reflexivity]. exact Logic.I.
  - pose proof (n_read s H) as R. rewrite B in R. rewrite R. cbn. split; [split; auto|now apply ext_refl].
  - pose proof (n_write s H) as W. rewrite B in W. destruct (l_write s) as [|p w]; [cbn; split; [split; auto|now apply ext_refl]|]. inversion W; subst. contradiction.
  - destruct (l_tasks s); [split; [split; auto|now apply ext_refl]|]. cbv zeta. cbn [with_tasks p_open]. rewrite P. split; [split; auto|now apply ext_refl].
Qed.
Lemma bare_run : forall l s, INV s -> bare s -> Forall (fun o => adds o = false) l -> exists x, p_log (run l s) = p_log s ++ x /\ only_arrivals x.
Proof.
  assert (G : forall l s, INV s -> bare s -> Forall (fun o => adds o = false) l -> ext (fun e => match e with EvArrive _ _ | EvAsk _ => True | _ => False end) s (run l s)).
  { unfold run. induction l as [|o l IH]; cbn; intros s H B F; [now apply ext_refl|]. inversion F; subst. destruct (bare_step s o H B H2) as [B' E]. eapply ext_trans; [exact E|]. apply IH; auto. now apply INV_step. }
  intros. apply G; auto.
Qed.

(** ** Writable *)
Lemma writables_app : forall a b, writables (a ++ b) = writables a ++ writables b.
Proof. intros. apply flat_map_app. Qed.
Lemma writables_calls : forall l s, INV s -> writables (p_log (do_calls l s)) = writables (p_log s).
Proof. intros l s H. destruct (calls_log l s H) as (x & E & F). rewrite E, writables_app. destruct (call_ev_quiet x F) as (_ & ->). apply app_nil_r. Qed.
Lemma steady_calls : forall l s, INV s -> Forall steady l -> l_write (do_calls l s) = l_write s.
Proof.
  unfold do_calls. induction l as [|c l IH]; cbn; auto. intros s H F. inversion F; subst. rewrite IH; auto; [|now apply INV_call].
  destruct c; cbn [do_call] in *; cbn in H2; try tauto; auto.
  - unfold add_udp. destruct (look fd (k_tab s)); auto. destruct bound; auto.
  - destruct (write_packet_say id fam b tos r1 r2 s H) as [[_ ->]|(_ & k & t & M & _ & ->)]; auto.
  - destruct (look fd (k_tab s)); auto.
  - destruct (look fd (k_tab s)) as [x|]; [destruct (k_mine x)|]; auto.
  - destruct (look fd (k_tab s)); auto.
Qed.
Lemma write_loop_spec : forall n fd cb ans s, INV s ->
  exists m, (m <= n)%nat /\ writables (p_log (write_loop n fd cb ans s)) = writables (p_log s) ++ repeat cb m /\
    ((m = n /\ Forall (fun a => snd a = true) (firstn n ans) /\ (n <= length ans)%nat /\ (Forall (fun a => Forall steady (fst a)) (firstn n ans) -> l_write (write_loop n fd cb ans s) = l_write s)) \/
     ((1 <= m)%nat /\ Forall (fun a => snd a = true) (firstn (m - 1) ans) /\ (m - 1 <= length ans)%nat /\ snd (nth (m - 1) ans ([], false)) = false /\ look fd (l_write (write_loop n fd cb ans s)) = None)).
Proof.
  induction n as [|n IH]; cbn [write_loop]; intros fd cb ans s H.
  - exists 0%nat. rewrite app_nil_r. split; auto. split; auto. left. cbn. split; auto. split; auto. split; [lia|auto].
  - destruct (hd ([], false) ans) as [cs more] eqn:Hd. cbv zeta.
    assert (K : INV (say (EvWritable cb) s)) by (apply INV_say; [exact Logic.I|auto]).
    assert (W : writables (p_log (do_calls cs (say (EvWritable cb) s))) = writables (p_log s) ++ [cb]) by (rewrite writables_calls by auto; cbn [say p_log]; rewrite writables_app; reflexivity).
    destruct more.
    + destruct ans as [|a ans]; [discriminate|]. cbn [hd] in Hd. subst a. cbn [tl].
      destruct (IH fd cb ans _ (INV_calls cs _ K)) as (m & M & E & D). exists (S m). split; [lia|]. split; [rewrite E, W, <- app_assoc; reflexivity|].
      destruct D as [(-> & F & Ln & Lw)|(M1 & F & Ln & Nt & Lk)].
      * left. split; auto. cbn [firstn length]. split; [constructor; auto|]. split; [lia|]. intro Q. inversion Q; subst. cbn [fst] in *. rewrite Lw by auto. now rewrite steady_calls.
      * right. split; [lia|]. replace (S m - 1)%nat with (S (m - 1)) by lia. cbn [firstn nth length]. split; [constructor; auto|]. split; [lia|]. auto.
    + exists 1%nat. split; [lia|]. split; [exact W|]. right. split; auto. cbn [Nat.sub firstn]. split; auto. split; [lia|]. split.
      * destruct ans as [|a ans]; cbn in *; [auto|now rewrite Hd].
      * cbn [with_write l_write]. now rewrite look_forget, Z.eqb_refl.
Qed.
