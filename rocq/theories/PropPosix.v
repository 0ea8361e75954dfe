(** C85: the POSIX platform adapter.  src/PosixPlatformAdapter.cpp, src/PerformerPosixPlatformAdapter.cpp. *)
From Verif Require Import Base Posix PosixSpec PosixProofs PosixMore.
From Coq Require Import Lia.

Definition pa_of (ops : list op) : pa := run ops pa0.

(** ** Interfaces and their sockets *)
(** Whatever is called and in whatever order: every interface is given to RTMFP once, with a number and a socket of its own; and (unless a packet's callback closes the adapter and the same
    event's callbacks open a descriptor) every packet RTMFP gets for an interface was read from its socket, and every packet RTMFP sends on one goes out through its socket to an address of its family. *)
Theorem C85_own_partial : forall ops, let log := p_log (pa_of ops) in
  NoDup (map fst (mades log)) /\ NoDup (map snd (mades log)) /\ (Forall calm_op ops -> Forall (own log) log).
Proof.
  intros ops log. unfold log, pa_of. pose proof (INV_run ops pa0 INV_0) as H. split; [apply (n_mid _ H)|]. split; [apply (n_msk _ H)|].
  intro C. apply OWN_run; auto; [apply INV_0|constructor].
Qed.
Print Assumptions C85_own_partial.

Example C85_own_case :
  let ops := [Call (CAdd 2 7 true); Call (CAdd 10 8 true); Call (Came 8 [1;2]); Call (Came 7 [3]); Readable 8 [[CWrite 2 10 [9] 0 SentOk SentOk; CPerform 5]]; Readable 7 []] in
  Forall calm_op ops /\ p_log (pa_of ops) = [EvIf 1 1 2; EvIf 2 2 10; EvArrive 2 [1;2]; EvArrive 1 [3]; EvPacket 2 2 [1;2]; EvSent 2 2 10 [9] 0; EvAsk 5; EvPacket 1 1 [3]].
Proof. split; [repeat (constructor; [cbn; auto; left; repeat constructor|]); constructor|reflexivity]. Qed.

(** Without that condition it fails: a packet's callback closes the adapter and the application opens a socket, which gets the number of the closed descriptor; onInterfaceReadable goes on with that number and
    gives RTMFP the application's datagram as a packet of the closed interface. *)
Theorem C85_own_refuted : exists ops, let log := p_log (pa_of ops) in ~ Forall (own log) log.
Proof.
  exists [Call (CAdd 2 7 true); Call (Came 7 [1]); Readable 7 [[CClose; AppOpen 7 2; Came 7 [66]]]]. cbv zeta.
  replace (p_log (pa_of _)) with [EvIf 1 1 2; EvArrive 1 [1]; EvPacket 1 1 [1]; EvArrive 2 [66]; EvPacket 1 2 [66]] by reflexivity.
  intro F. rewrite Forall_forall in F. specialize (F (EvPacket 1 2 [66])). cbn in F. destruct F as [fam M]; [tauto|].
  unfold made in M. cbn in M. intuition discriminate.
Qed.
Print Assumptions C85_own_refuted.

(** ** What arrives *)
(** For every socket, always: what RTMFP was given of it is, in order and without gap or repetition, the beginning of what reached it (each datagram cut to 8192 bytes); while the socket is open the rest
    is what waits in its queue.  And once the run loop reports the descriptor of an interface readable (no callback closing the adapter), RTMFP has been given everything. *)
Theorem C85_order : forall ops k, exists rest,
  map cut (reached k (p_log (pa_of ops))) = given k (p_log (pa_of ops)) ++ rest /\
  (forall fd x, look fd (k_tab (pa_of ops)) = Some x -> k_sock x = k -> rest = map cut (k_queue x)).
Proof. intros. apply (o_one _ (ORD_run ops pa0 INV_0 ORD_0)). Qed.
Print Assumptions C85_order.
Theorem C85_all : forall ops i cbs, In i (p_ifs (pa_of ops)) -> Forall (fun c => is_close c = false) (concat cbs) ->
  let s := pa_of (ops ++ [Readable (i_fd i) cbs]) in
  In i (p_ifs s) /\ given (i_sock i) (p_log s) = map cut (reached (i_sock i) (p_log s)).
Proof.
  intros ops i cbs Hi C s. unfold s, pa_of, run. rewrite fold_left_app. cbn [fold_left]. apply readable_all; auto; [apply INV_run, INV_0|apply ORD_run; [apply INV_0|apply ORD_0]].
Qed.
Print Assumptions C85_all.

Example C85_all_case : let ops := [Call (CAdd 2 7 true); Call (Came 7 [1]); Call (AppOpen 9 2); Call (Came 9 [5]); Call (Came 7 [2])] in
  let s := pa_of (ops ++ [Readable 7 [[Came 7 [3]]; [AppClose 9]]]) in
  In (mkI 1 7 2 1) (p_ifs (pa_of ops)) /\ given 1 (p_log s) = [[1];[2];[3]] /\ reached 2 (p_log s) = [[5]] /\ given 2 (p_log s) = [].
Proof. cbv zeta. split; [now left|split; [reflexivity|split; reflexivity]]. Qed.

(** A datagram of more than 8192 bytes is not given whole, and nothing tells RTMFP so (MSG_TRUNC is not looked at, 259-284). *)
Theorem C85_whole_refuted : exists ops b, reached 1 (p_log (pa_of ops)) = [b] /\ exists b', given 1 (p_log (pa_of ops)) = [b'] /\ b' <> b.
Proof.
  set (b := repeat 1 (Z.to_nat 8193)).
  exists [Call (CAdd 2 7 true); Call (Came 7 b); Readable 7 []], b. split; [reflexivity|]. exists (cut b). split; [reflexivity|].
  intro E. apply (f_equal (@length Z)) in E. unfold cut, b in E. rewrite firstn_length, repeat_length in E. lia.
Qed.
Print Assumptions C85_whole_refuted.

(** ** What is sent *)
(** writePacket on any number: it answers true exactly if one packet, with these bytes, left the socket of that interface, and otherwise nothing happened; the type of service is the one asked for, or none where the
    system refuses it.  On an interface there is, to its family, a send the system takes is made as asked. *)
Theorem C85_send : forall ops id fam b tos r1 r2,
  let s := pa_of ops in let r := write_packet id fam b tos r1 r2 s in
  (fst r = false -> snd r = s) /\
  (fst r = true -> exists k t, made (p_log s) id k fam /\ (t = tos \/ t = 0) /\ p_log (snd r) = p_log s ++ [EvSent id k fam b t]) /\
  (forall i, In i (p_ifs s) -> id = i_id i -> fam = i_fam i -> r1 = SentOk -> fst r = true /\ p_log (snd r) = p_log s ++ [EvSent id (i_sock i) fam b tos]).
Proof.
  intros ops id fam b tos r1 r2 s r. assert (H : INV s) by (apply INV_run, INV_0). unfold r. split; [|split].
  - destruct (write_packet_say id fam b tos r1 r2 s H) as [[_ ->]|(E & _)]; auto. congruence.
  - destruct (write_packet_say id fam b tos r1 r2 s H) as [[E _]|(_ & k & t & M & T & ->)]; [congruence|]. intros _. exists k, t. auto.
  - intros i Hi -> -> ->. unfold write_packet. rewrite (find_if_has _ _ (n_idd s H) Hi), Z.eqb_refl. cbn [negb]. destruct (n_own s H i Hi) as [q ->]. auto.
Qed.
Print Assumptions C85_send.

Example C85_send_case : let s := pa_of [Call (CAdd 2 7 true)] in
  fst (write_packet 1 2 [8] 3 SentOk SentErr s) = true /\ fst (write_packet 1 10 [8] 3 SentOk SentErr s) = false /\ fst (write_packet 2 2 [8] 3 SentOk SentErr s) = false /\
  p_log (snd (write_packet 1 2 [8] 3 SentInval SentOk s)) = [EvIf 1 1 2; EvSent 1 1 2 [8] 0].
Proof. split; [|split; [|split]]; reflexivity. Qed.

(** ** Closing *)
(** close leaves no interface, no registration and no socket of the adapter, and the application's descriptors untouched; no task runs any more, whatever follows; and unless an interface is added again,
    RTMFP gets nothing, sends nothing and is not told of anything any more. *)
Theorem C85_close : forall ops, let s := pa_of ops in let s' := pa_of (ops ++ [Call CClose]) in
  p_ifs s' = [] /\ l_read s' = [] /\ l_write s' = [] /\
  (forall fd x, look fd (k_tab s') = Some x <-> look fd (k_tab s) = Some x /\ k_mine x = false) /\
  (forall more, tasks (p_log (pa_of (ops ++ [Call CClose] ++ more))) = tasks (p_log s)) /\
  (forall more, Forall (fun o => adds o = false) more -> exists x, p_log (pa_of (ops ++ [Call CClose] ++ more)) = p_log s ++ x /\ only_arrivals x).
Proof.
  intros ops s s'. assert (H : INV s) by (apply INV_run, INV_0).
  assert (E : s' = p_close s) by (unfold s', pa_of, run; rewrite fold_left_app; reflexivity).
  assert (M : forall more, pa_of (ops ++ [Call CClose] ++ more) = run more (p_close s)) by (intro; unfold pa_of, run; rewrite !fold_left_app; reflexivity).
  pose proof (INV_close s H) as H'. rewrite E. split; [|split; [|split; [|split; [|split]]]].
  - now rewrite p_close_eq.
  - now rewrite p_close_eq.
  - now rewrite p_close_eq.
  - intros fd x. rewrite p_close_eq by auto. cbn [k_tab]. rewrite look_purge. split.
    + destruct (kept (p_ifs s) fd) eqn:K; [|discriminate]. intro L. split; auto. destruct (k_mine x) eqn:Mi; auto. pose proof (n_mine s H fd x L Mi) as Q. apply kept_false in Q. congruence.
    + intros [L Mi]. destruct (kept (p_ifs s) fd) eqn:K; auto. apply kept_false in K. apply in_map_iff in K. destruct K as (i & <- & Hi). destruct (n_own s H i Hi) as [q Q]. rewrite Q in L. injection L as <-. discriminate.
  - intro more. rewrite M. destruct (shut_run more (p_close s) H') as [_ T]; [unfold shut; now rewrite p_close_eq|]. rewrite T. now rewrite p_close_eq.
  - intros more F. rewrite M. destruct (bare_run more (p_close s) H') as (x & X & O); auto; [unfold bare; now rewrite p_close_eq|]. exists x. split; auto. rewrite X. now rewrite p_close_eq.
Qed.
Print Assumptions C85_close.

Example C85_close_case : let s := pa_of [Call (CAdd 2 7 true); Call (AppOpen 8 2); Call (CNotify 1 4); Call (CPerform 3); Call CClose; RunTask []; Writable 7 []; Call (Came 7 [1]); Readable 7 []] in
  p_log s = [EvIf 1 1 2; EvAsk 3] /\ k_tab s = [(8, mkK 2 false 2 [])].
Proof. split; reflexivity. Qed.
(** An interface added after close() is given to RTMFP and read, but no task runs for it any more. *)
Theorem C85_reopen_refuted : exists ops, p_ifs (pa_of ops) <> [] /\ asked (p_log (pa_of ops)) = [3] /\ l_tasks (pa_of ops) = [] /\ tasks (p_log (pa_of ops)) = [].
Proof. exists [Call CClose; Call (CAdd 2 7 true); Call (CPerform 3); RunTask []]. split; [discriminate|split; [|split]; reflexivity]. Qed.
Print Assumptions C85_reopen_refuted.

(** ** Tasks *)
(** Tasks run in the order they were asked for, none twice and none before one asked for earlier; while the adapter is open those not run yet are the ones waiting, and the run loop's next one runs the first. *)
Theorem C85_tasks : forall ops, let s := pa_of ops in
  (exists rest, asked (p_log s) = tasks (p_log s) ++ rest) /\
  (p_open s = true -> asked (p_log s) = tasks (p_log s) ++ l_tasks s /\
    (forall t r cs, l_tasks s = t :: r -> tasks (p_log (pa_of (ops ++ [RunTask cs]))) = tasks (p_log s) ++ [t])).
Proof.
  intros ops s. assert (H : INV s) by (apply INV_run, INV_0). assert (T : TSK s) by (apply TSK_run; [apply INV_0|constructor; cbn; eauto; exists []; auto]).
  split; [apply (t_pre s T)|]. intro P. split; [now apply (t_open s T)|]. intros t r cs L.
  unfold pa_of, run. rewrite fold_left_app. cbn [fold_left]. change (fold_left step ops pa0) with s. cbn [step]. rewrite L. cbv zeta. cbn [with_tasks p_open]. rewrite P.
  rewrite tasks_calls by (apply INV_say; [exact Logic.I|now apply INV_tasks]). cbn [say with_tasks p_log]. now rewrite tasks_app.
Qed.
Print Assumptions C85_tasks.

Example C85_tasks_case : let s := pa_of [Call (CPerform 3); Call (CPerform 4); RunTask [CPerform 5]; RunTask []] in p_open s = true /\ tasks (p_log s) = [3;4] /\ l_tasks s = [5].
Proof. split; [|split]; reflexivity. Qed.

(** ** Writable *)
(** Once RTMFP asks to be told when an interface can be written, the next event of its descriptor calls exactly that function: until it answers false, at most four times; then the registration is gone if it
    answered false, and stands if it answered true four times (and neither closed the adapter nor asked again). *)
Theorem C85_writable : forall ops i cb ans, In i (p_ifs (pa_of ops)) ->
  let s := pa_of (ops ++ [Call (CNotify (i_id i) cb)]) in let s' := pa_of (ops ++ [Call (CNotify (i_id i) cb); Writable (i_fd i) ans]) in
  fst (notify (i_id i) cb (pa_of ops)) = true /\ look (i_fd i) (l_write s) = Some cb /\
  exists m, (1 <= m <= 4)%nat /\ writables (p_log s') = writables (p_log s) ++ repeat cb m /\
    Forall (fun a => snd a = true) (firstn (m - 1) ans) /\ (m - 1 <= length ans)%nat /\
    ((snd (nth (m - 1) ans ([], false)) = false /\ look (i_fd i) (l_write s') = None) \/
     (m = 4%nat /\ snd (nth (m - 1) ans ([], false)) = true /\ (Forall (fun a => Forall steady (fst a)) (firstn 4 ans) -> look (i_fd i) (l_write s') = Some cb))).
Proof.
  intros ops i cb ans Hi s s'. set (s0 := pa_of ops) in *. assert (H0 : INV s0) by (apply INV_run, INV_0).
  pose proof (find_if_has _ _ (n_idd s0 H0) Hi) as Fi.
  assert (E : s = with_write s0 (forget (i_fd i) (l_write s0) ++ [(i_fd i, cb)])).
  { unfold s, pa_of, run. rewrite fold_left_app. cbn [fold_left]. change (fold_left step ops pa0) with s0. cbn [step do_call]. unfold notify. now rewrite Fi. }
  assert (L : look (i_fd i) (l_write s) = Some cb) by (rewrite E; cbn [with_write l_write]; rewrite look_app, look_forget, Z.eqb_refl; cbn; now rewrite Z.eqb_refl).
  split; [unfold notify; now rewrite Fi|]. split; auto.
  assert (H : INV s) by (apply INV_run, INV_0).
  assert (E' : s' = write_loop 4 (i_fd i) cb ans s).
  { unfold s', pa_of, run. change (ops ++ [Call (CNotify (i_id i) cb); Writable (i_fd i) ans]) with (ops ++ [Call (CNotify (i_id i) cb)] ++ [Writable (i_fd i) ans]). rewrite app_assoc, fold_left_app.
    cbn [fold_left]. change (fold_left step (ops ++ [Call (CNotify (i_id i) cb)]) pa0) with s. cbn [step]. now rewrite L. }
  rewrite E'. destruct (write_loop_spec 4 (i_fd i) cb ans s H) as (m & M & W & D). exists m.
  destruct D as [(-> & F & Ln & Lw)|(M1 & F & Ln & Nt & Lk)].
  - split; [lia|]. split; auto.
    destruct ans as [|a1 [|a2 [|a3 [|a4 ans]]]]; cbn [length] in Ln; try lia. cbn [firstn] in F. inversion F as [|? ? Q1 F1]; subst. inversion F1 as [|? ? Q2 F2]; subst. inversion F2 as [|? ? Q3 F3]; subst. inversion F3 as [|? ? Q4 F4]; subst.
    cbn [Nat.sub firstn nth length]. split; [repeat (constructor; auto)|]. split; [lia|]. right. split; auto. split; auto. intro Q. rewrite Lw by exact Q. exact L.
  - split; [lia|]. split; auto.
Qed.
Print Assumptions C85_writable.

Example C85_writable_case : let s := pa_of [Call (CAdd 2 7 true); Call (CNotify 1 4); Writable 7 [([], true); ([CWrite 1 2 [8] 0 SentOk SentOk], true); ([], false)]] in
  writables (p_log s) = [4;4;4] /\ l_write s = [].
Proof. split; reflexivity. Qed.
(** A function asked for while one runs (and answers false) is dropped although notifyWhenInterfaceWritable answered true: the unregistering after the loop removes it. *)
Theorem C85_notify_refuted : exists ops ans, let s := pa_of ops in
  fst (notify 1 5 s) = true /\ p_ifs (pa_of (ops ++ [Writable 7 ans])) = p_ifs s /\ p_ifs s <> [] /\ ans = [([CNotify 1 5], false)] /\ l_write (pa_of (ops ++ [Writable 7 ans])) = [].
Proof.
  exists [Call (CAdd 2 7 true); Call (CNotify 1 4)], [([CNotify 1 5], false)]. split; [reflexivity|split; [reflexivity|split; [discriminate|split; reflexivity]]].
Qed.
Print Assumptions C85_notify_refuted.
