(** C86: the adapter between a byte stream's client and the run loop.  test/PosixStreamPlatformAdapter.cpp. *)
From Verif Require Import Base PStream PStreamSpec PStreamProofs PStreamMore.
From Coq Require Import Lia.

Definition ps_of (loop : bool) (wmax : Z) (ops : list op) : st := run wmax ops (st0 loop).
Lemma ps_inv : forall loop wmax ops, INV (ps_of loop wmax ops).
Proof. intros. apply INV_run, INV_0. Qed.

(** ** Sending *)
(** Always: the bytes sent, then those buffered, are the bytes writeBytes took, in order. *)
Theorem C86_bytes : forall loop wmax ops, let s := ps_of loop wmax ops in written (a_log s) = sent (a_log s) ++ a_out s.
Proof. intros. apply (i_bytes _ (ps_inv loop wmax ops)). Qed.
Print Assumptions C86_bytes.

Definition session : list op :=
  [Call SetFd; Call SetRecv; Call SetDid; Call Notify; Writable [([Write [1;2;3]], true); ([Write [4;5]], false)] (SOk 2) [] []; Readable (RBytes [7]) [Later 9] true [] []; RunTask [];
   Call ClientClosed; Writable [] (SOk 1) [] []; Writable [] SAgain [] []; Writable [] (SOk 9) [] []; Readable REof [] true [] []].
Example C86_bytes_case : a_log (ps_of true 5 session) =
  [EvSock 1; EvWritable; EvWrite [1;2;3] true; EvWritable; EvWrite [4;5] true; EvSend 1 [1;2]; EvRead 1 [7]; EvGot 1 [7]; EvAsk 9; EvTask 9; EvBye; EvSend 1 [3]; EvSend 1 [4;5]; EvShut 1; EvClose 1; EvDone].
Proof. reflexivity. Qed.

(** Whatever is called, in whatever order and from whatever callback, when something happens: bytes are sent on a socket that was given, not shut down and not closed; a socket is shut down only after onClientClosed,
    when every byte taken was sent, and only one ever is; a socket is closed once; bytes are given to the client as they were read, not after onClientClosed; onStreamDidClose comes after the socket's closing and once per
    socket; onShutdownComplete once; no task runs after onClientClosed or a closing. *)
Theorem C86_history : forall loop wmax ops l1 e l2, a_log (ps_of loop wmax ops) = l1 ++ e :: l2 -> past_ok l1 e.
Proof. intros loop wmax ops l1 e l2 E. exact (i_hist _ (ps_inv loop wmax ops) l1 e l2 E). Qed.
Print Assumptions C86_history.

(** With one socket, all goes to it. *)
Theorem C86_socket_partial : forall loop wmax ops, let s := ps_of loop wmax ops in a_sock s <= 1 -> sent_on 1 (a_log s) = sent (a_log s).
Proof.
  intros loop wmax ops s N. pose proof (ps_inv loop wmax ops) as H. fold s in H.
  assert (K : forall l1 l2, a_log s = l1 ++ l2 -> sent_on 1 l1 = sent l1).
  { induction l1 as [|e l1 IH] using rev_ind; intros l2 E; auto. rewrite <- app_assoc in E. cbn [app] in E. specialize (IH _ E).
    unfold sent_on, sent in *. rewrite !flat_map_app, IH. f_equal. destruct e; auto. cbn. rewrite !app_nil_r.
    pose proof (i_hist s H _ _ _ E) as P. cbn in P. destruct P as [P _].
    assert (Q : In (EvSock k) (a_log s)) by (rewrite E; apply in_or_app; auto). apply (i_sock s H) in Q. replace (k =? 1) with true by (symmetry; apply Z.eqb_eq; lia). reflexivity. }
  apply (K _ []). now rewrite app_nil_r.
Qed.
Print Assumptions C86_socket_partial.
Example C86_socket_case : a_sock (ps_of true 5 session) = 1 /\ sent_on 1 (a_log (ps_of true 5 session)) = [1;2;3;4;5].
Proof. split; reflexivity. Qed.
(** setSocketFd after close is let happen, and the bytes left of the first connection go out on the second. *)
Theorem C86_socket_refuted : exists ops, let s := ps_of true 5 ops in sent_on 2 (a_log s) = [1] /\ exists l1 l2, a_log s = l1 ++ EvSock 2 :: l2 /\ written l1 = [1] /\ written l2 = [].
Proof.
  exists [Call SetFd; Call Notify; Call (Write [1]); Call Close; Call SetFd; Writable [] (SOk 1) [] []]. cbv zeta. split; [reflexivity|].
  exists [EvSock 1; EvWrite [1] true; EvClose 1; EvDone], [EvWritable; EvSend 2 [1]]. split; [reflexivity|]. split; reflexivity.
Qed.
Print Assumptions C86_socket_refuted.

(** ** Nothing is left behind *)
(** With one socket, no detaching, and bytes written only while the adapter is registered for writing (inside onwritable, or after notifyWhenWritable): while bytes wait, it stays registered; and each time the
    system takes [n] of them, they are the next [n]. *)
Theorem C86_flush_partial : forall loop wmax ops, let s := ps_of loop wmax ops in
  Forall stay_op ops -> told (a_log s) -> a_sock s <= 1 -> a_fd s = true -> a_out s <> [] ->
  a_wr s = true /\
  (forall n dcs ecs, a_onw s = false -> k_shut s = false -> let s' := ps_of loop wmax (ops ++ [Writable [] (SOk n) dcs ecs]) in
     sent (a_log s') = sent (a_log s) ++ firstn (Z.to_nat n) (a_out s) /\ a_out s' = skipn (Z.to_nat n) (a_out s)).
Proof.
  intros loop wmax ops s St T N F O.
  assert (W : a_wr s = true).
  { assert (Q : FL s) by (apply FL_run; [exact St|apply INV_0|intros _ _; cbn; split; [auto|discriminate]]). destruct (Q T N) as [_ B]. auto. }
  split; auto. intros n dcs ecs Ow K s'.
  assert (E : s' = written_out (say (EvSend (a_sock s) (firstn (Z.to_nat n) (a_out s))) (with_out s (skipn (Z.to_nat n) (a_out s))))).
  { unfold s', ps_of, run. rewrite fold_left_app. cbn [fold_left]. change (fold_left (step wmax) ops (st0 loop)) with s. cbn [step]. rewrite W. unfold on_writable. cbn [fill]. rewrite Ow. cbn [andb]. cbv zeta.
    destruct (a_out s) eqn:Oe; [congruence|]. rewrite F, K. reflexivity. }
  rewrite E. match goal with |- sent (a_log (written_out ?x)) = _ /\ _ => destruct (wout_log x) as (l & L & Fl); destruct (wout_facts x) as (_ & Out & _) end.
  split; [|rewrite Out; reflexivity]. rewrite L, sent_app. fields. rewrite sent_app.
  assert (Z0 : sent l = []) by (clear - Fl; induction Fl as [|e l He Fl IH]; auto; unfold sent in *; cbn; rewrite IH; destruct e; cbn in *; tauto).
  rewrite Z0, app_nil_r. f_equal. cbn. apply app_nil_r.
Qed.
Print Assumptions C86_flush_partial.
Example C86_flush_case : let ops := firstn 5 session in let s := ps_of true 5 ops in
  Forall stay_op ops /\ told (a_log s) /\ a_sock s <= 1 /\ a_fd s = true /\ a_out s = [3;4;5] /\ a_onw s = false /\ k_shut s = false.
Proof. cbv zeta. split; [vm_compute; repeat constructor|]. split; [vm_compute; repeat constructor|]. split; [vm_compute; discriminate|]. repeat (split; [reflexivity|]). reflexivity. Qed.
(** Otherwise bytes are taken that no event will send: writeBytes does not register, and attaching to a run loop again registers only if onwritable is set. *)
Theorem C86_flush_refuted : exists ops, let s := ps_of true 5 ops in a_fd s = true /\ a_loop s = true /\ a_out s = [1] /\
  forall evs, Forall is_event evs -> a_out (ps_of true 5 (ops ++ evs)) = [1] /\ sent (a_log (ps_of true 5 (ops ++ evs))) = [].
Proof.
  exists [Call SetFd; Call (Write [1])]. cbv zeta. split; [reflexivity|]. split; [reflexivity|]. split; [reflexivity|]. intros evs F.
  assert (G : forall evs s, Forall is_event evs -> a_rd s = false -> a_wr s = false -> a_tasks s = [] -> run 5 evs s = s).
  { unfold run. induction evs0 as [|o evs0 IH]; cbn; auto. intros s Fe R W T. inversion Fe; subst. assert (X : step 5 s o = s) by (destruct o; cbn [is_event] in *; [contradiction| | |]; cbn [step]; rewrite ?R, ?W, ?T; auto).
    rewrite X. auto. }
  unfold ps_of, run. rewrite fold_left_app. change (fold_left (step 5) evs ?x) with (run 5 evs x). rewrite G by (auto; reflexivity). split; reflexivity.
Qed.
Print Assumptions C86_flush_refuted.
Theorem C86_attach_refuted : exists ops, let s := ps_of true 5 ops in told (a_log s) /\ a_fd s = true /\ a_loop s = true /\ a_out s <> [] /\ a_wr s = false.
Proof.
  exists [Call SetFd; Call Notify; Writable [([Write [1;2]], false)] (SOk 1) [] []; Call Detach; Call Attach]. cbv zeta. split; [vm_compute; repeat constructor|]. split; [reflexivity|]. split; [reflexivity|]. split; [discriminate|reflexivity].
Qed.
Print Assumptions C86_attach_refuted.
(** Bytes taken before onClientClosed are lost if the peer sends anything before they are sent: the adapter closes the socket (196-197). *)
Theorem C86_last_refuted : exists ops, let s := ps_of true 5 ops in told (a_log s) /\ Forall stay_op ops /\ a_sock s = 1 /\ written (a_log s) = [1;2] /\ sent (a_log s) = [] /\
  exists l, a_log s = l ++ [EvBye; EvRead 1 [7]; EvClose 1; EvDone].
Proof.
  exists [Call SetFd; Call SetRecv; Call Notify; Call (Write [1;2]); Call ClientClosed; Readable (RBytes [7]) [] true [] []]. cbv zeta.
  split; [vm_compute; repeat constructor|]. split; [vm_compute; repeat constructor|]. split; [reflexivity|]. split; [reflexivity|]. split; [reflexivity|]. exists [EvSock 1; EvWrite [1;2] true]. reflexivity.
Qed.
Print Assumptions C86_last_refuted.

(** ** Receiving *)
(** What the client is given is what was read, piece by piece in order; until onClientClosed nothing read is withheld. *)
Theorem C86_receive : forall loop wmax ops, let s := ps_of loop wmax ops in
  (exists rest, reads (a_log s) = gots (a_log s) ++ rest) /\ (~ In EvBye (a_log s) -> reads (a_log s) = gots (a_log s)).
Proof.
  intros loop wmax ops s. pose proof (ps_inv loop wmax ops) as H. fold s in H.
  assert (Q : RCV s) by (apply RCV_run; [apply INV_0|constructor; cbn; try discriminate; auto; exists []; auto]).
  split; [apply (r_pre s Q)|]. intro N. apply (r_all s Q). destruct (a_open s) eqn:O; auto. exfalso. apply N. now apply (i_bye s H).
Qed.
Print Assumptions C86_receive.
Example C86_receive_case : let s := ps_of true 5 [Call SetFd; Call SetRecv; Readable (RBytes [1;2]) [] true [] []; Readable (RBytes [3]) [] false [] []; Readable (RBytes [4]) [] true [] []] in
  gots (a_log s) = [(1, [1;2]); (1, [3])] /\ reads (a_log s) = gots (a_log s) /\ a_rd s = false.
Proof. split; [|split]; reflexivity. Qed.
(** Functions set from inside the callback that then answers false are dropped: reading stops for good, writing is not asked for. *)
Theorem C86_again_refuted : exists ops1 ops2,
  (let s := ps_of true 5 (ops1 ++ [Readable (RBytes [1]) [SetRecv] false [] []]) in a_fd s = true /\ a_open s = true /\ a_onr s = false) /\
  (let s := ps_of true 5 (ops2 ++ [Writable [([Notify], false)] SAgain [] []]) in a_fd s = true /\ a_open s = true /\ a_onw s = false).
Proof. exists [Call SetFd; Call SetRecv], [Call SetFd; Call Notify]. split; cbv zeta; split; try reflexivity; split; reflexivity. Qed.
Print Assumptions C86_again_refuted.

(** ** The end *)
(** If sockets are given before onClientClosed: once the client has closed and everything is sent, the socket is shut down; and when the peer then closes too and its end is seen, the socket is closed and
    onShutdownComplete has been called. *)
Theorem C86_end_partial : forall loop wmax ops, let s := ps_of loop wmax ops in early (a_log s) -> a_open s = false -> a_fd s = true ->
  (a_out s = [] -> exists k, In (EvShut k) (a_log s)) /\
  (forall ecs, a_rd s = true -> a_done s = true -> let s' := ps_of loop wmax (ops ++ [Readable REof [] true [] ecs]) in In (EvClose (a_sock s)) (a_log s') /\ In EvDone (a_log s')).
Proof.
  intros loop wmax ops s Ea Op Fd. pose proof (ps_inv loop wmax ops) as H. fold s in H.
  assert (Q : SHD s) by (apply SHD_run; [apply INV_0|unfold SHD; cbn; discriminate]). split.
  - intro O. pose proof (Q Ea Op O Fd) as Sh.
    assert (G : forall wmax l a, INV a -> (a_shut a = true -> exists k, In (EvShut k) (a_log a)) -> a_shut (run wmax l a) = true -> exists k, In (EvShut k) (a_log (run wmax l a))).
    { intros w l a. apply (kept_run (fun a => a_shut a = true -> exists k, In (EvShut k) (a_log a))) with (ok := any).
      - intros x y (_ & B & _ & _ & _ & _ & _ & E) _ X. now rewrite B, E.
      - intros x b _ X. unfold write_bytes. destruct (a_fd x); auto. fields. intro S. destruct (X S) as [k Hk]. exists k. apply in_snoc. auto.
      - intros x _ X. unfold client_closed, close_if_done. fields. destruct (a_out x); [destruct (negb false && negb (a_shut x) && a_fd x)|]; fields; intro S.
        + exists (a_sock x). apply in_snoc. auto.
        + destruct (X S) as [k Hk]. exists k. apply in_snoc. auto.
        + destruct (X S) as [k Hk]. exists k. apply in_snoc. auto.
      - intros x _ X. destruct (close_facts x) as (_ & B & _). destruct (close_log x) as (m & E & _). rewrite B, E. intro S. destruct (X S) as [k Hk]. exists k. apply in_or_app. auto.
      - intros x _ X _. fields. intro S. destruct (X S) as [k Hk]. exists k. apply in_snoc. auto.
      - intros x t _ X. unfold do_later. fields. intro S. destruct (X S) as [k Hk]. exists k. apply in_snoc. auto.
      - intros x _ _ X. unfold detach. destruct (a_loop x); auto.
      - intros x e _ _ _ X. fields. intro S. destruct (X S) as [k Hk]. exists k. apply in_snoc. auto.
      - intros x k b _ _ X. fields. intro S. destruct (X S) as [k' Hk]. exists k'. apply in_snoc. left. apply in_snoc. auto.
      - intros x t q _ _ _ X. fields. intro S. destruct (X S) as [k Hk]. exists k. apply in_snoc. auto.
      - intros x t q _ _ _ X. exact X.
      - intros x _ X. unfold written_out, close_if_done. set (y := if _ && _ && negb _ then _ else x). assert (Y : a_shut y = a_shut x /\ a_log y = a_log x) by (unfold y; destruct (_ && _ && negb _); auto).
        clearbody y. destruct Y as [Y1 Y2]. rewrite <- Y1, <- Y2 in X. destruct (a_out y); auto. destruct (_ && _ && _); auto. fields. intros _. exists (a_sock y). apply in_snoc. auto.
      - intros x n _ _ _ X _. set (z := say _ _). assert (Zs : a_shut z = true -> exists k, In (EvShut k) (a_log z)) by (unfold z; fields; intro S; destruct (X S) as [k Hk]; exists k; apply in_snoc; auto). clearbody z.
        unfold written_out, close_if_done. set (y := if _ && _ && negb _ then _ else z). assert (Y : a_shut y = a_shut z /\ a_log y = a_log z) by (unfold y; destruct (_ && _ && negb _); auto).
        clearbody y. destruct Y as [Y1 Y2]. rewrite <- Y1, <- Y2 in Zs. destruct (a_out y); auto. destruct (_ && _ && _); auto. fields. intros _. exists (a_sock y). apply in_snoc. auto.
      - intros x X. exact X.
      - apply any_ops. }
    apply (G wmax ops (st0 loop)); [apply INV_0|cbn; discriminate|exact Sh].
  - intros ecs Rd Dn s'.
    assert (E : s' = fail [] ecs s) by (unfold s', ps_of, run; rewrite fold_left_app; cbn [fold_left]; change (fold_left (step wmax) ops (st0 loop)) with s; cbn [step]; rewrite Rd; unfold on_readable; rewrite Op; reflexivity).
    assert (C : In (EvClose (a_sock s)) (a_log (close s)) /\ In EvDone (a_log (close s))).
    { split; [rewrite <- (proj1 (close_sock s)); apply (i_nofd _ (INV_close s H)); [apply close_sock|rewrite (proj1 (close_sock s)); now apply (i_fdp s H)]|].
      unfold close. cbv zeta. fields. rewrite Fd. destruct (a_loop s); fields; rewrite Dn; fields; apply in_snoc; auto. }
    rewrite E. unfold fail. rewrite Dn. cbn [do_calls fold_left]. cbv zeta. destruct (a_ond (close s)); auto.
    destruct (calls_log ecs (say (EvDid (a_sock s)) (close s))) as (l & L & _). rewrite L. fields. split; apply in_or_app; left; apply in_snoc; left; tauto.
Qed.
Print Assumptions C86_end_partial.
Example C86_end_case : let s := ps_of true 5 (firstn 11 session) in a_open s = false /\ a_fd s = true /\ a_out s = [] /\ a_rd s = true /\ a_done s = true /\ early (a_log s).
Proof.
  cbv zeta. repeat (split; [reflexivity|]). unfold early. replace (a_log _) with [EvSock 1; EvWritable; EvWrite [1;2;3] true; EvWritable; EvWrite [4;5] true; EvSend 1 [1;2]; EvRead 1 [7]; EvGot 1 [7]; EvAsk 9; EvTask 9; EvBye; EvSend 1 [3]; EvSend 1 [4;5]; EvShut 1] by reflexivity.
  intros l1 k l2 E. destruct l1 as [|e l1]; [intros []|]. injection E as _ E. exfalso.
  repeat (destruct l1 as [|? l1]; [discriminate E|injection E as _ E]). destruct l1; discriminate.
Qed.
(** If the client does not take bytes when it closes (the adapter is not registered for reading), no event ever closes the socket: it stays open however often the run loop reports anything. *)
Theorem C86_end_refuted : exists ops, let s := ps_of true 5 ops in early (a_log s) /\ a_open s = false /\ In (EvShut 1) (a_log s) /\
  forall evs, Forall is_event evs -> a_fd (ps_of true 5 (ops ++ evs)) = true /\ a_log (ps_of true 5 (ops ++ evs)) = a_log s.
Proof.
  exists [Call SetFd; Call ClientClosed]. cbv zeta. split; [|split; [reflexivity|split; [cbn; tauto|]]].
  - unfold early. replace (a_log _) with [EvSock 1; EvBye; EvShut 1] by reflexivity. intros l1 k l2 E. destruct l1 as [|? [|? [|? [|? l1]]]]; try discriminate. intros [].
  - intros evs F. unfold ps_of, run. rewrite fold_left_app. change (fold_left (step 5) evs ?x) with (run 5 evs x).
    destruct (deaf_run 5 evs (fold_left (step 5) [Call SetFd; Call ClientClosed] (st0 true))) as [A B]; auto.
Qed.
Print Assumptions C86_end_refuted.
(** A socket given after onClientClosed is neither shut down nor closed. *)
Theorem C86_late_refuted : exists ops, let s := ps_of true 5 ops in a_open s = false /\ a_fd s = true /\ a_out s = [] /\ a_shut s = false /\ a_rd s = false /\ a_wr s = false.
Proof. exists [Call ClientClosed; Call SetFd]. cbv zeta. repeat (split; [reflexivity|]). reflexivity. Qed.
Print Assumptions C86_late_refuted.

(** ** Registrations, errors and answers *)
(** In a run loop and with a socket, a client that waits for bytes is registered for reading, one that waits for writing for writing; and there is no registration without both. *)
Theorem C86_registered : forall loop wmax ops, let s := ps_of loop wmax ops in
  (a_loop s = true -> a_fd s = true -> (a_onr s = true -> a_rd s = true) /\ (a_onw s = true -> a_wr s = true)) /\
  (a_rd s = true \/ a_wr s = true -> a_fd s = true /\ a_loop s = true).
Proof. intros. split; [|apply (i_reg _ (ps_inv loop wmax ops))]. apply REG_run. intro. cbn. discriminate. Qed.
Print Assumptions C86_registered.
Example C86_registered_case : let s := ps_of false 5 [Call SetRecv; Call Notify; Call SetFd; Call Attach] in a_loop s = true /\ a_fd s = true /\ a_onr s = true /\ a_onw s = true.
Proof. vm_compute. auto. Qed.
(** The peer's end, an error of recvfrom and an error of sendto close the socket and are told to the client once it asked for it; that nothing is there or fits changes nothing. *)
Theorem C86_error : forall loop wmax ops, let s := ps_of loop wmax ops in
  (forall r cs more dcs ecs, a_rd s = true -> (a_open s = true -> a_onr s = true) -> r = REof \/ r = RErr ->
     let l dcs := a_log (ps_of loop wmax (ops ++ [Readable r cs more dcs ecs])) in In (EvClose (a_sock s)) (l dcs) /\ (a_ond s = true -> In (EvDid (a_sock s)) (l []))) /\
  (forall dcs ecs, a_wr s = true -> a_onw s = false -> a_out s <> [] ->
     let l dcs := a_log (ps_of loop wmax (ops ++ [Writable [] SErr dcs ecs])) in In (EvClose (a_sock s)) (l dcs) /\ (a_ond s = true -> In (EvDid (a_sock s)) (l []))) /\
  (forall cs more dcs ecs, a_onr s = true -> ps_of loop wmax (ops ++ [Readable RAgain cs more dcs ecs]) = s) /\
  (forall dcs ecs, a_onw s = false -> a_out s <> [] -> k_shut s = false -> ps_of loop wmax (ops ++ [Writable [] SAgain dcs ecs]) = s).
Proof.
  intros loop wmax ops s. pose proof (ps_inv loop wmax ops) as H. fold s in H.
  assert (St : forall o, ps_of loop wmax (ops ++ [o]) = step wmax s o) by (intro; unfold ps_of, run; now rewrite fold_left_app).
  split; [|split; [|split]].
  - intros r cs more dcs ecs R O E l. unfold l. rewrite !St. cbn [step]. rewrite R. destruct (i_reg s H (or_introl R)) as [F _]. unfold on_readable.
    assert (B : a_open s && negb (a_onr s) = false) by (destruct (a_open s); auto; rewrite (O eq_refl); auto). rewrite B.
    destruct E; subst r; split; [now apply fail_close|now apply fail_did|now apply fail_close|now apply fail_did].
  - intros dcs ecs W O N l. unfold l. rewrite !St. cbn [step]. rewrite W. destruct (i_reg s H (or_intror W)) as [F _]. unfold on_writable. cbn [fill]. rewrite O. cbn [andb]. cbv zeta.
    destruct (a_out s); [congruence|]. destruct (a_fd s && negb (k_shut s)); split; solve [now apply fail_close|now apply fail_did].
  - intros cs more dcs ecs O. rewrite St. cbn [step]. destruct (a_rd s); auto. unfold on_readable. rewrite O, andb_false_r. reflexivity.
  - intros dcs ecs O N K. rewrite St. cbn [step]. destruct (a_wr s) eqn:W; auto. destruct (i_reg s H (or_intror W)) as [F _]. unfold on_writable. cbn [fill]. rewrite O. cbn [andb]. cbv zeta.
    destruct (a_out s); [congruence|]. rewrite F, K. reflexivity.
Qed.
Print Assumptions C86_error.
Example C86_error_case : let s := ps_of true 5 (firstn 5 session) in a_rd s = true /\ a_onr s = true /\ a_wr s = true /\ a_onw s = false /\ a_out s = [3;4;5] /\ a_ond s = true /\ k_shut s = false.
Proof. vm_compute. auto 10. Qed.
(** What was read is given to a client that waits for it, which goes on waiting as it answers; one that waits for writing is asked while less than m_writeSizePerSelect is buffered, and goes on waiting as it answers. *)
Theorem C86_answers : forall loop wmax ops more dcs ecs, let s := ps_of loop wmax ops in
  (forall b, a_rd s = true -> a_open s = true -> a_onr s = true -> b <> [] -> let s' := ps_of loop wmax (ops ++ [Readable (RBytes b) [] more dcs ecs]) in
     gots (a_log s') = gots (a_log s) ++ [(a_sock s, b)] /\ a_onr s' = more /\ a_rd s' = true) /\
  (forall b, a_wr s = true -> a_onw s = true -> zlen (a_out s) < wmax <= zlen (a_out s ++ b) -> k_shut s = false ->
     let s' := ps_of loop wmax (ops ++ [Writable [([Write b], more)] SAgain dcs ecs]) in a_out s' = a_out s ++ b /\ a_onw s' = more /\ a_wr s' = true).
Proof.
  intros loop wmax ops more dcs ecs s. pose proof (ps_inv loop wmax ops) as H. fold s in H.
  assert (St : forall o, ps_of loop wmax (ops ++ [o]) = step wmax s o) by (intro; unfold ps_of, run; now rewrite fold_left_app).
  split.
  - intros b R O C N s'. unfold s'. rewrite St. cbn [step]. rewrite R. unfold on_readable. rewrite O, C. cbn [andb negb]. destruct b as [|x b]; [congruence|]. cbv zeta.
    assert (Sh : a_shut s = false) by (destruct (a_shut s) eqn:E; auto; apply (i_noshut s H) in E; congruence). fields. rewrite Sh, O. cbn [negb]. unfold do_calls. cbn [fold_left].
    destruct more; fields; rewrite !gots_app; cbn [gots flat_map app]; rewrite app_nil_r; auto.
  - intros b W C [L1 L2] K s'. unfold s'. rewrite St. cbn [step]. rewrite W. destruct (i_reg s H (or_intror W)) as [F _]. unfold on_writable. cbn [fill]. rewrite C. apply Z.ltb_lt in L1. rewrite L1. cbn [andb]. cbv zeta.
    unfold do_calls. cbn [fold_left do_call]. unfold write_bytes. fields. rewrite F. cbn [snd]. fields.
    assert (L3 : zlen (a_out s ++ b) <? wmax = false) by (apply Z.ltb_ge; lia).
    destruct more; fields; rewrite ?L3, ?C; cbn [andb]; (destruct (a_out s ++ b) eqn:E; [exfalso; apply Z.ltb_lt in L1; unfold zlen in *; cbn in *; lia|]); fields; rewrite ?F, ?K; cbn [andb negb]; fields; rewrite ?F, ?K; cbn [andb negb]; fields; auto.
Qed.
Print Assumptions C86_answers.
Example C86_answers_case : let s := ps_of true 5 (firstn 4 session) in a_rd s = true /\ a_open s = true /\ a_onr s = true /\ a_wr s = true /\ a_onw s = true /\ zlen (a_out s) < 5 <= zlen (a_out s ++ [1;2;3;4;5]) /\ k_shut s = false.
Proof. vm_compute. intuition discriminate. Qed.

(** ** Tasks *)
(** Tasks run in the order of doLater, none twice; while allowed, those not run yet are the ones waiting. *)
Theorem C86_tasks : forall loop wmax ops, let s := ps_of loop wmax ops in
  (exists rest, asked (a_log s) = tasks (a_log s) ++ rest) /\
  (a_later s = true -> asked (a_log s) = tasks (a_log s) ++ a_tasks s /\
    (forall t q cs, a_tasks s = t :: q -> tasks (a_log (ps_of loop wmax (ops ++ [RunTask cs]))) = tasks (a_log s) ++ [t])).
Proof.
  intros loop wmax ops s. assert (Q : TSK s) by (apply TSK_run; [apply INV_0|constructor; cbn; auto; exists []; auto]). split; [apply (t_pre s Q)|]. intro L. split; [now apply (t_open s Q)|].
  intros t q cs T. unfold ps_of, run. rewrite fold_left_app. cbn [fold_left]. change (fold_left (step wmax) ops (st0 loop)) with s. cbn [step]. rewrite T. cbv zeta. fields. rewrite L.
  destruct (ext_quiet _ _ (calls_log cs (say (EvTask t) (with_tasks s q)))) as (_ & _ & E). rewrite E. fields. now rewrite tasks_app.
Qed.
Print Assumptions C86_tasks.
Example C86_tasks_case : let s := ps_of true 5 [Call (Later 1); Call (Later 2); RunTask [Later 3]] in a_later s = true /\ tasks (a_log s) = [1] /\ a_tasks s = [2;3].
Proof. split; [|split]; reflexivity. Qed.
