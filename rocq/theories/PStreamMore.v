(** More lemmas for PropPStream.v. *)
From Verif Require Import Base PStream PStreamSpec PStreamProofs.
From Coq Require Import Lia.

Lemma reads_app : forall a b, reads (a ++ b) = reads a ++ reads b.
Proof. intros. apply flat_map_app. Qed.
Lemma gots_app : forall a b, gots (a ++ b) = gots a ++ gots b.
Proof. intros. apply flat_map_app. Qed.
Lemma asked_app : forall a b, asked (a ++ b) = asked a ++ asked b.
Proof. intros. apply flat_map_app. Qed.
Lemma tasks_app : forall a b, tasks (a ++ b) = tasks a ++ tasks b.
Proof. intros. apply flat_map_app. Qed.

(** ** Facts about single calls *)
Definition same (s s' : st) : Prop :=
  a_open s' = a_open s /\ a_shut s' = a_shut s /\ a_fd s' = a_fd s /\ a_out s' = a_out s /\ a_later s' = a_later s /\ a_tasks s' = a_tasks s /\ a_sock s' = a_sock s /\ a_log s' = a_log s.
Lemma same_read : forall s, same s (try_read s) /\ a_wr (try_read s) = a_wr s.
Proof. intros. unfold try_read, same. destruct (_ && _); fields; repeat (split; auto). Qed.
Lemma same_write : forall s, same s (try_write s) /\ (a_wr s = true -> a_wr (try_write s) = true).
Proof. intros. unfold try_write, same. destruct (_ && _); fields; repeat (split; auto). Qed.
Lemma same_trans : forall a b c, same a b -> same b c -> same a c.
Proof. unfold same. intros a b c (A & B & C & D & E & F & G & H) (A' & B' & C' & D' & E' & F' & G' & H'). repeat split; congruence. Qed.

(** ** Kept by everything: a relation between the state before and after a call *)
Section Kept.
Variable R : st -> Prop.
Variable R_same : forall s s', same s s' -> (a_wr s = true -> a_wr s' = true) -> R s -> R s'.
Variable R_write : forall s b, INV s -> R s -> R (snd (write_bytes b s)).
Variable R_client : forall s, INV s -> R s -> R (client_closed s).
Variable R_close : forall s, INV s -> R s -> R (close s).
Variable R_sock : forall s, INV s -> R s -> a_fd s = false ->
  R (say (EvSock (a_sock s + 1)) (mk (a_open s) (a_shut s) (a_loop s) true (a_out s) (a_onw s) (a_onr s) (a_ond s) (a_later s) (a_done s) (a_rd s) (a_wr s) (a_tasks s) (a_sock s + 1) false (a_log s))).
Variable R_later : forall s t, INV s -> R s -> R (do_later t s).
Variable ok : call -> Prop.
Variable R_detach : forall s, ok Detach -> INV s -> R s -> R (detach s).
Ltac sm := unfold same; fields; repeat (split; auto).
Lemma same_refl : forall s, same s s.
Proof. intro. unfold same. repeat (split; auto). Qed.
Lemma kept_call : forall s c, ok c -> INV s -> R s -> R (do_call s c).
Proof.
  intros s c C H Q. destruct c; cbn [do_call].
  - auto.
  - destruct (same_write (with_cbs s true (a_onr s) (a_ond s))) as [S W]. eapply R_same; [exact S|exact W|]. apply (R_same s); [sm|auto|exact Q].
  - destruct (same_read (with_cbs s (a_onw s) true (a_ond s))) as [S W]. eapply R_same; [exact S|rewrite W; auto|]. apply (R_same s); [sm|auto|exact Q].
  - apply (R_same s); [sm|auto|exact Q].
  - auto.
  - auto.
  - unfold set_fd. destruct (a_fd s) eqn:F; auto. cbv zeta.
    match goal with |- R (try_write (try_read ?x)) => destruct (same_read x) as [S W]; destruct (same_write (try_read x)) as [S' W'] end.
    eapply R_same; [exact S'|exact W'|]. eapply R_same; [exact S|rewrite W; auto|]. auto.
  - unfold attach. destruct (a_loop s); auto. destruct (same_read (with_loop s true)) as [S W]. destruct (same_write (try_read (with_loop s true))) as [S' W'].
    eapply R_same; [exact S'|exact W'|]. eapply R_same; [exact S|rewrite W; auto|]. apply (R_same s); [sm|auto|exact Q].
  - auto.
  - auto.
Qed.
Lemma kept_calls : forall l s, Forall ok l -> INV s -> R s -> R (do_calls l s).
Proof. unfold do_calls. induction l as [|c l IH]; cbn; auto. intros. inversion H; subst. apply IH; auto; [now apply INV_call|now apply kept_call]. Qed.
Variable R_say : forall s e, INV s -> match e with EvRead _ _ | EvDid _ | EvWritable => True | _ => False end -> (match e with EvRead _ _ => a_open s = false | _ => True end) -> R s -> R (say e s).
Variable R_got : forall s k b, INV s -> a_open s = true -> R s -> R (say (EvGot k b) (say (EvRead k b) s)).
Variable R_task : forall s t q, INV s -> a_tasks s = t :: q -> a_later s = true -> R s -> R (say (EvTask t) (with_tasks s q)).
Variable R_skip : forall s t q, INV s -> a_tasks s = t :: q -> a_later s = false -> R s -> R (with_tasks s q).
Variable R_wout : forall s, INV s -> R s -> R (written_out s).
Variable R_send : forall s n, INV s -> a_fd s = true -> k_shut s = false -> R s -> a_out s <> [] -> R (written_out (say (EvSend (a_sock s) (firstn n (a_out s))) (with_out s (skipn n (a_out s))))).
Variable R_unread : forall s, R s -> R (with_reg s false (a_wr s)).
Lemma kept_fail : forall dcs ecs s, Forall ok dcs -> Forall ok ecs -> INV s -> fresh s -> R s -> R (fail dcs ecs s).
Proof.
  intros dcs ecs s D E H [P N] Q. pose proof (INV_close s H) as Hc. destruct (close_sock s) as [Ks Fd]. unfold fail. cbv zeta.
  set (s1 := if a_done s then _ else _).
  assert (H1 : INV s1 /\ ext call_ev s s1 /\ In (EvClose (a_sock s)) (a_log s1) /\ R s1).
  { assert (C : In (EvClose (a_sock s)) (a_log (close s))) by (rewrite <- Ks; apply (i_nofd _ Hc); auto; now rewrite Ks).
    unfold s1. destruct (a_done s); [|split; [|split; [|split]]; auto; apply close_log]. split; [now apply INV_calls|]. split; [eapply ext_trans; [apply close_log|apply calls_log]|].
    split; [|apply kept_calls; auto]. destruct (calls_log dcs (close s)) as (l & El & _). rewrite El. apply in_or_app. auto. }
  destruct H1 as (H1 & (l & El & F) & C & Q1). destruct (a_ond s1); auto. apply kept_calls; auto.
  apply INV_did; auto. rewrite El, in_app_iff. intros [X|X]; [contradiction|]. rewrite Forall_forall in F. exact (F _ X).
Qed.
Lemma kept_readable : forall r cs more dcs ecs s, Forall ok cs -> Forall ok dcs -> Forall ok ecs -> INV s -> a_rd s = true -> R s -> R (on_readable r cs more dcs ecs s).
Proof.
  intros r cs more dcs ecs s C D E H Rd Q. pose proof (fresh_reg s H (or_introl Rd)) as N. destruct (i_reg s H (or_introl Rd)) as [Fd _]. unfold on_readable.
  destruct (a_open s && negb (a_onr s)); auto.
  destruct r as [b| | |]; auto; try (now apply kept_fail). destruct b as [|x b]; [now apply kept_fail|]. cbv zeta.
  assert (H1 : INV (say (EvRead (a_sock s) (x :: b)) s)).
  { apply INV_say; auto; [exact Logic.I|]; cbn; split; [now apply (i_fd s H)|intro X; apply (i_close s H) in X; destruct X as [|[_ ?]]; [lia|congruence]]. }
  change (a_shut (say (EvRead (a_sock s) (x :: b)) s)) with (a_shut s). change (a_open (say (EvRead (a_sock s) (x :: b)) s)) with (a_open s). change (a_sock (say (EvRead (a_sock s) (x :: b)) s)) with (a_sock s).
  destruct (a_shut s) eqn:Sh; [pose proof (i_noshut s H Sh); apply R_say; auto; exact Logic.I|]. destruct (a_open s) eqn:Op; cbn [negb].
  - assert (Q2 : R (do_calls cs (say (EvGot (a_sock s) (x :: b)) (say (EvRead (a_sock s) (x :: b)) s)))).
    { apply kept_calls; auto. apply INV_say; auto; [exact Logic.I|]. cbn [past_ok]. split; [rewrite (i_bye _ H1); fields; congruence|]. exists (a_log s). reflexivity. }
    destruct more; auto. eapply R_same; [| |exact Q2]; [sm|auto].
  - apply kept_fail; auto; try (apply fresh_say; auto; exact Logic.I); try (apply R_say; auto; exact Logic.I).
Qed.
Lemma kept_fill : forall wmax ws s, Forall (fun w => Forall ok (fst w)) ws -> INV s -> R s -> R (fill wmax ws s).
Proof.
  induction ws as [|[cs more] ws IH]; cbn [fill]; intros s W H Q; destruct (a_onw s && (zlen (a_out s) <? wmax)); auto; cbv zeta.
  - apply (R_same (say EvWritable s)); [sm|auto|apply (R_say s EvWritable); auto; exact Logic.I].
  - inversion W; subst. cbn [fst] in *.
    assert (H1 : INV (do_calls cs (say EvWritable s))) by (apply INV_calls, INV_say; auto; exact Logic.I).
    assert (Q1 : R (do_calls cs (say EvWritable s))) by (apply kept_calls; auto; try (apply R_say; auto; exact Logic.I); apply INV_say; auto; exact Logic.I).
    apply IH; auto; destruct more; auto; [now apply INV_cbs|]. eapply R_same; [| |exact Q1]; [sm|auto].
Qed.
Lemma kept_writable : forall wmax ws r dcs ecs s, Forall (fun w => Forall ok (fst w)) ws -> Forall ok dcs -> Forall ok ecs -> INV s -> a_wr s = true -> R s -> R (on_writable wmax ws r dcs ecs s).
Proof.
  intros wmax ws r dcs ecs s W D E H Wr Q. pose proof (fresh_reg s H (or_intror Wr)) as N. unfold on_writable. cbv zeta.
  destruct (INV_fill wmax ws s H N) as [H1 N1]. pose proof (kept_fill wmax ws s W H Q) as Q1. set (s1 := fill wmax ws s) in *. clearbody s1.
  destruct (a_out s1) eqn:O; [now apply R_wout|]. destruct (a_fd s1 && negb (k_shut s1)) eqn:B; [|now apply kept_fail].
  apply andb_true_iff in B. destruct B as [F K]. apply negb_true_iff in K.
  destruct r as [n| |]; auto; [|now apply kept_fail]. rewrite <- O. apply R_send; auto. congruence.
Qed.
Definition ok_op (o : op) : Prop :=
  match o with
  | Call c => ok c
  | Readable _ cs _ dcs ecs => Forall ok cs /\ Forall ok dcs /\ Forall ok ecs
  | Writable ws _ dcs ecs => Forall (fun w => Forall ok (fst w)) ws /\ Forall ok dcs /\ Forall ok ecs
  | RunTask cs => Forall ok cs
  end.
Lemma kept_step : forall wmax s o, ok_op o -> INV s -> R s -> R (step wmax s o).
Proof.
  intros wmax s o C H Q. destruct o; cbn [step ok_op] in *.
  - now apply kept_call.
  - destruct (a_rd s) eqn:E; auto. apply kept_readable; tauto.
  - destruct (a_wr s) eqn:E; auto. apply kept_writable; tauto.
  - destruct (a_tasks s) as [|t q] eqn:T; auto. cbv zeta. destruct (a_later (with_tasks s q)) eqn:L; [|eapply R_skip; eauto].
    apply kept_calls; auto. apply INV_say; [exact Logic.I| |now apply INV_tasks]. fields. destruct (i_later s H L) as [A B]. cbn. split; auto. rewrite (i_bye s H). congruence.
Qed.
Lemma kept_run : forall wmax l s, Forall ok_op l -> INV s -> R s -> R (run wmax l s).
Proof. unfold run. induction l as [|o l IH]; cbn; auto. intros. inversion H; subst. apply IH; auto; [now apply INV_step|now apply kept_step]. Qed.
End Kept.

(** ** What close and closeIfDone leave *)
Lemma close_facts : forall s, a_open (close s) = a_open s /\ a_shut (close s) = a_shut s /\ a_out (close s) = a_out s /\ a_later (close s) = false /\ a_tasks (close s) = a_tasks s.
Proof.
  intros s. unfold close. cbv zeta. fields. destruct (a_fd s) eqn:F; fields.
  - destruct (a_loop s); fields; destruct (a_done s); fields; repeat (split; auto).
  - destruct (a_done s); fields; repeat (split; auto).
Qed.
Lemma cid_facts : forall s, a_open (close_if_done s) = a_open s /\ a_out (close_if_done s) = a_out s /\ a_later (close_if_done s) = a_later s /\ a_tasks (close_if_done s) = a_tasks s /\
  a_sock (close_if_done s) = a_sock s /\ a_fd (close_if_done s) = a_fd s /\ a_wr (close_if_done s) = a_wr s.
Proof. intros s. unfold close_if_done. destruct (a_out s) eqn:O; [|repeat (split; auto)]. destruct (_ && _ && _); fields; repeat (split; auto). Qed.
Lemma cid_shut : forall s, a_open (close_if_done s) = false -> a_out (close_if_done s) = [] -> a_fd (close_if_done s) = true -> a_shut (close_if_done s) = true.
Proof.
  intros s A B C. destruct (cid_facts s) as (E & F & _ & _ & _ & G & _). rewrite E in A. rewrite F in B. rewrite G in C. unfold close_if_done. rewrite B, A, C. cbn. destruct (a_shut s) eqn:S; auto.
Qed.
Lemma cid_noshut : forall s, (a_shut s = true -> a_open s = false) -> a_shut (close_if_done s) = true -> a_open (close_if_done s) = false.
Proof.
  intros s N. unfold close_if_done. destruct (a_out s); [|exact N]. destruct (negb (a_open s) && negb (a_shut s) && a_fd s) eqn:E; [|exact N].
  intros _. fields. destruct (a_open s); [discriminate|reflexivity].
Qed.
(** reads, gifts and tasks of what calls log *)
Lemma ext_quiet : forall s s', ext call_ev s s' -> reads (a_log s') = reads (a_log s) /\ gots (a_log s') = gots (a_log s) /\ tasks (a_log s') = tasks (a_log s).
Proof.
  intros s s' (l & E & F). rewrite E, reads_app, gots_app, tasks_app.
  assert (Q : reads l = [] /\ gots l = [] /\ tasks l = []) by (clear E; induction F as [|e l He F (A & B & C)]; auto; unfold reads, gots, tasks in *; destruct e; cbn in *; tauto).
  destruct Q as (-> & -> & ->). now rewrite !app_nil_r.
Qed.

(** ** Receiving *)
Record RCV (s : st) : Prop := {
  r_shut : a_shut s = true -> a_open s = false;
  r_all : a_open s = true -> reads (a_log s) = gots (a_log s);
  r_pre : exists r, reads (a_log s) = gots (a_log s) ++ r
}.
Lemma RCV_ext : forall s s', ext call_ev s s' -> (a_open s' = true -> a_open s = true) -> (a_shut s' = true -> a_open s' = false) -> RCV s -> RCV s'.
Proof. intros s s' E O S [A B C]. destruct (ext_quiet s s' E) as (X & Y & _). constructor; rewrite ?X, ?Y; auto. Qed.
Definition any (c : call) : Prop := True.
Lemma wout_log : forall s, ext call_ev s (written_out s).
Proof. intro s. unfold written_out. destruct (_ && _ && negb _); [|apply done_log]. eapply ext_trans; [|apply done_log]. now apply ext_refl. Qed.
Lemma wout_facts : forall s, a_open (written_out s) = a_open s /\ a_out (written_out s) = a_out s /\ a_later (written_out s) = a_later s /\ a_tasks (written_out s) = a_tasks s /\ a_sock (written_out s) = a_sock s /\ a_fd (written_out s) = a_fd s /\
  (a_out s <> [] -> a_wr (written_out s) = a_wr s) /\ ((a_shut s = true -> a_open s = false) -> a_shut (written_out s) = true -> a_open (written_out s) = false).
Proof.
  intro s. unfold written_out. set (x := if _ && _ && negb _ then _ else s).
  assert (X : a_open x = a_open s /\ a_out x = a_out s /\ a_later x = a_later s /\ a_tasks x = a_tasks s /\ a_sock x = a_sock s /\ a_fd x = a_fd s /\ a_shut x = a_shut s /\ (a_out s <> [] -> a_wr x = a_wr s)).
  { unfold x. destruct (a_out s) eqn:O; cbn [andb]; [|repeat (split; auto)]. destruct (a_loop s && negb (a_onw s)); fields; repeat (split; auto). congruence. }
  destruct X as (A & B & C & D & E & F & G & W). destruct (cid_facts x) as (A' & B' & C' & D' & E' & F' & W').
  split; [congruence|]. split; [congruence|]. split; [congruence|]. split; [congruence|]. split; [congruence|]. split; [congruence|]. split.
  - intro N. rewrite W'. auto.
  - intros N. apply cid_noshut. rewrite A, G. auto.
Qed.
Lemma any_ops : forall l, Forall (ok_op any) l.
Proof. intro l. apply Forall_forall. intros o _. destruct o; cbn; unfold any; repeat split; auto; apply Forall_forall; auto. intros. apply Forall_forall. auto. Qed.
Lemma RCV_run : forall wmax l s, INV s -> RCV s -> RCV (run wmax l s).
Proof.
  intros wmax l s. apply (kept_run RCV) with (ok := any).
  - intros a b (A & B & _ & _ & _ & _ & _ & E) _ Q. apply (RCV_ext a); [now apply ext_refl|congruence|rewrite A, B; apply Q|exact Q].
  - intros a b _ Q. apply (RCV_ext a); [exact (call_log a (Write b))| | |exact Q]; unfold write_bytes; destruct (a_fd a); fields; auto; apply Q.
  - intros a _ Q. apply (RCV_ext a); [exact (call_log a ClientClosed)| | |exact Q]; unfold client_closed.
    + intro O. rewrite (proj1 (cid_facts _)) in O. discriminate.
    + apply cid_noshut. auto.
  - intros a _ Q. destruct (close_facts a) as (A & B & _). apply (RCV_ext a); [apply close_log|congruence|rewrite A, B; apply Q|exact Q].
  - intros a _ Q _. apply (RCV_ext a); [eapply ext_say; [|reflexivity]; exact Logic.I|auto|apply Q|exact Q].
  - intros a t _ Q. apply (RCV_ext a); [exact (call_log a (Later t))|auto|apply Q|exact Q].
  - intros a _ _ Q. unfold detach. destruct (a_loop a); auto. apply (RCV_ext a); [now apply ext_refl|auto|apply Q|exact Q].
  - intros a e _ E O [A B [r C]]. constructor; fields; auto; rewrite ?reads_app, ?gots_app.
    + intro Op. destruct e; cbn in E; try tauto; cbn; rewrite ?app_nil_r; auto. congruence.
    + destruct e; cbn in E; try tauto; cbn; rewrite ?app_nil_r; eauto. exists (r ++ [(k, b)]). now rewrite C, app_assoc.
  - intros a k b _ O [A B C]. assert (X : reads (a_log (say (EvGot k b) (say (EvRead k b) a))) = gots (a_log (say (EvGot k b) (say (EvRead k b) a)))).
    { fields. rewrite !reads_app, !gots_app, (B O). cbn. rewrite !app_nil_r. reflexivity. }
    constructor; auto. exists []. rewrite app_nil_r. auto.
  - intros a t q _ _ _ [A B C]. constructor; fields; auto; rewrite ?reads_app, ?gots_app; cbn; rewrite ?app_nil_r; auto.
  - intros a t q _ _ _ [A B C]. constructor; fields; auto.
  - intros a _ Q. destruct (wout_facts a) as (A & _ & _ & _ & _ & _ & _ & N). apply (RCV_ext a); [apply wout_log|congruence|apply N; apply Q|exact Q].
  - intros a n _ _ _ Q _. match goal with |- RCV (written_out ?x) => destruct (wout_facts x) as (A & _ & _ & _ & _ & _ & _ & N); assert (X : RCV x) end.
    { destruct Q as [Q1 Q2 Q3]. constructor; fields; auto; rewrite ?reads_app, ?gots_app; cbn; rewrite ?app_nil_r; auto. }
    eapply RCV_ext; [apply wout_log|congruence|apply N; apply X|exact X].
  - intros a [A B C]. constructor; fields; auto.
  - apply any_ops.
Qed.

(** ** Tasks *)
Record TSK (s : st) : Prop := {
  t_open : a_later s = true -> asked (a_log s) = tasks (a_log s) ++ a_tasks s;
  t_pre : exists r, asked (a_log s) = tasks (a_log s) ++ r
}.
Lemma TSK_keep : forall s s' l, a_log s' = a_log s ++ l -> asked l = [] -> tasks l = [] -> (a_later s' = true -> a_later s = true) -> a_tasks s' = a_tasks s -> TSK s -> TSK s'.
Proof. intros s s' l E X Y L T [A B]. constructor; rewrite E, asked_app, tasks_app, X, Y, !app_nil_r; [rewrite T; auto|auto]. Qed.
Lemma TSK_same : forall s s', a_log s' = a_log s -> (a_later s' = true -> a_later s = true) -> a_tasks s' = a_tasks s -> TSK s -> TSK s'.
Proof. intros s s' E L T Q. apply (TSK_keep s s' []); auto. now rewrite app_nil_r. Qed.
Lemma TSK_cid : forall s, TSK s -> TSK (close_if_done s).
Proof.
  intros s Q. unfold close_if_done. destruct (a_out s); auto. destruct (_ && _ && _); auto. eapply (TSK_keep s); [reflexivity|auto|auto| | |exact Q]; auto.
Qed.
Lemma TSK_close : forall s, TSK s -> TSK (close s).
Proof.
  intros s Q. unfold close. cbv zeta. fields. destruct (a_fd s).
  - destruct (a_loop s); fields; destruct (a_done s); fields;
      first [apply (TSK_keep s _ [EvClose (a_sock s); EvDone]); auto; [cbn [say a_log]; now rewrite <- app_assoc|discriminate] | apply (TSK_keep s _ [EvClose (a_sock s)]); auto; discriminate].
  - destruct (a_done s); fields; [apply (TSK_keep s _ [EvDone]); auto; discriminate|]. apply (TSK_same s); auto; discriminate.
Qed.
Lemma TSK_wout : forall s, TSK s -> TSK (written_out s).
Proof. intros s Q. unfold written_out. apply TSK_cid. destruct (_ && _ && negb _); auto. apply (TSK_same s); auto. Qed.
Lemma TSK_run : forall wmax l s, INV s -> TSK s -> TSK (run wmax l s).
Proof.
  intros wmax l s. apply (kept_run TSK) with (ok := any).
  - intros a b (A & B & _ & _ & L & T & _ & E) _ Q. apply (TSK_same a); auto. congruence.
  - intros a b _ Q. unfold write_bytes. destruct (a_fd a); auto. eapply (TSK_keep a); [reflexivity|auto|auto| | |exact Q]; auto.
  - intros a _ Q. unfold client_closed. apply TSK_cid. eapply (TSK_keep a); [reflexivity|auto|auto| | |exact Q]; auto. discriminate.
  - intros a _ Q. now apply TSK_close.
  - intros a _ Q _. eapply (TSK_keep a); [reflexivity|auto|auto| | |exact Q]; auto.
  - intros a t _ [A [r B]]. unfold do_later. constructor; fields; rewrite asked_app, tasks_app; cbn [asked tasks flat_map app]; rewrite app_nil_r.
    + intro P. rewrite (A P), app_assoc. auto.
    + exists (r ++ [t]). now rewrite B, app_assoc.
  - intros a _ _ Q. unfold detach. destruct (a_loop a); auto. apply (TSK_same a); auto.
  - intros a e _ E _ Q. apply (TSK_keep a _ [e]); auto; destruct e; cbn in E; tauto || reflexivity.
  - intros a k b _ _ Q. apply (TSK_keep a _ [EvRead k b; EvGot k b]); auto. fields. now rewrite <- app_assoc.
  - intros a t q _ T L [A _]. specialize (A L). rewrite T in A.
    assert (E : asked (a_log a ++ [EvTask t]) = tasks (a_log a ++ [EvTask t]) ++ q).
    { rewrite asked_app, tasks_app. cbn [asked tasks flat_map app]. rewrite app_nil_r, A, <- app_assoc. reflexivity. }
    constructor; fields; eauto.
  - intros a t q _ T L [A B]. constructor; fields; [congruence|auto].
  - intros a _ Q. now apply TSK_wout.
  - intros a n _ _ _ Q _. apply TSK_wout. eapply (TSK_keep a); [reflexivity|auto|auto| | |exact Q]; auto.
  - intros a Q. apply (TSK_same a); auto.
  - apply any_ops.
Qed.

(** ** Nothing waits unregistered *)
Definition FL (s : st) : Prop := told (a_log s) -> a_sock s <= 1 -> (a_sock s <= 0 -> a_out s = []) /\ (a_fd s = true -> a_out s <> [] -> a_wr s = true).
Lemma told_app : forall a b, told (a ++ b) -> told a.
Proof. unfold told. intros a b H. now apply Forall_app in H. Qed.
Lemma FL_keep : forall s s' l, a_log s' = a_log s ++ l -> a_sock s' = a_sock s -> a_out s' = a_out s -> (a_fd s' = true -> a_fd s = true /\ (a_out s <> [] -> a_wr s = true -> a_wr s' = true)) -> FL s -> FL s'.
Proof.
  intros s s' l E K O F Q T N. rewrite E in T. apply told_app in T. rewrite K in N. destruct (Q T N) as [A B]. rewrite K, O. split; auto.
  intros Fd Ne. destruct (F Fd) as [Fd' W]. auto.
Qed.
Lemma cid_ext : forall s, exists l, a_log (close_if_done s) = a_log s ++ l.
Proof. intro s. destruct (done_log s) as (l & E & _). eauto. Qed.
Lemma FL_cid : forall s, FL s -> FL (close_if_done s).
Proof. intros s Q. destruct (cid_ext s) as [l E]. destruct (cid_facts s) as (_ & O & _ & _ & K & F & W). eapply (FL_keep s); [exact E|auto|auto| |exact Q]. rewrite F, W. auto. Qed.
Lemma FL_wout : forall s, FL s -> FL (written_out s).
Proof.
  intros s Q. destruct (wout_log s) as (l & E & _). destruct (wout_facts s) as (_ & O & _ & _ & K & F & W & _). eapply (FL_keep s); [exact E|auto|auto| |exact Q]. rewrite F. intro Fd. split; auto.
  intros N Wr. rewrite W; auto.
Qed.
Lemma FL_run : forall wmax l s, Forall (ok_op stay) l -> INV s -> FL s -> FL (run wmax l s).
Proof.
  intros wmax l s. apply (kept_run FL).
  - intros a b (A & B & F & O & L & T & K & E) W Q. apply (FL_keep a b []); auto; [now rewrite app_nil_r|]. rewrite F. auto.
  - intros a b H Q. unfold write_bytes. destruct (a_fd a) eqn:F; auto. cbn [snd]. intros T N. fields. assert (T' := T). apply told_app in T'. destruct (Q T' N) as [A B].
    assert (W : a_wr a = true) by (unfold told in T; apply Forall_app in T; destruct T as [_ T]; inversion T; auto).
    split; auto. intro K. pose proof (i_fdp a H F). lia.
  - intros a _ Q. unfold client_closed. apply FL_cid. eapply (FL_keep a); [reflexivity|reflexivity|reflexivity| |exact Q]. fields. auto.
  - intros a _ Q. destruct (close_log a) as (l' & E & _). destruct (close_sock a) as [K F]. destruct (close_facts a) as (_ & _ & O & _). eapply (FL_keep a); [exact E|auto|auto| |exact Q]. congruence.
  - intros a H Q F T N. fields. apply told_app in T. pose proof (i_pos a H). destruct (Q T) as [A B]; [lia|]. rewrite A by lia. split; [auto|congruence].
  - intros a t _ Q. eapply (FL_keep a); [reflexivity|reflexivity|reflexivity| |exact Q]. auto.
  - intros a [].
  - intros a e _ _ _ Q. eapply (FL_keep a); [reflexivity|reflexivity|reflexivity| |exact Q]. auto.
  - intros a k b _ _ Q. eapply (FL_keep a); [fields; rewrite <- app_assoc; reflexivity|reflexivity|reflexivity| |exact Q]. auto.
  - intros a t q _ _ _ Q. eapply (FL_keep a); [reflexivity|reflexivity|reflexivity| |exact Q]. auto.
  - intros a t q _ _ _ Q. exact Q.
  - intros a _ Q. now apply FL_wout.
  - intros a n _ _ _ Q Ne. apply FL_wout. intros T N. fields. apply told_app in T. destruct (Q T N) as [A B]. split; [intro K; rewrite A by auto; apply skipn_nil|]. auto.
  - intros a Q. exact Q.
Qed.

(** ** The end of sending is told *)
Definition SHD (s : st) : Prop := early (a_log s) -> a_open s = false -> a_out s = [] -> a_fd s = true -> a_shut s = true.
Lemma early_app : forall a b, early (a ++ b) -> early a.
Proof. unfold early. intros a b H l1 k l2 E. apply (H l1 k (l2 ++ b)). rewrite E, <- app_assoc. reflexivity. Qed.
Lemma SHD_keep : forall s s' l, a_log s' = a_log s ++ l -> a_open s' = a_open s -> a_out s' = a_out s -> (a_fd s' = true -> a_fd s = true) -> a_shut s' = a_shut s -> SHD s -> SHD s'.
Proof. unfold SHD. intros s s' l E O U F S Q Ea A B C. rewrite E in Ea. apply early_app in Ea. rewrite S. apply Q; auto; congruence. Qed.
Lemma SHD_run : forall wmax l s, INV s -> SHD s -> SHD (run wmax l s).
Proof.
  intros wmax l s. apply (kept_run SHD) with (ok := any).
  - intros a b (A & B & F & O & L & T & K & E) W Q. apply (SHD_keep a b []); auto; [now rewrite app_nil_r|congruence].
  - intros a b H Q. unfold write_bytes. destruct (a_fd a) eqn:F; auto. cbn [snd]. unfold SHD. fields. intros Ea O U _. apply early_app in Ea. apply app_eq_nil in U. destruct U. apply Q; auto.
  - intros a _ Q. unfold client_closed, SHD. intros _. apply cid_shut.
  - intros a _ Q. destruct (close_sock a) as [K F]. unfold SHD. congruence.
  - intros a H Q F. unfold SHD. fields. intros Ea O U _. exfalso. apply (Ea (a_log a) (a_sock a + 1) []); auto. now apply (i_bye a H).
  - intros a t _ Q. eapply (SHD_keep a); [reflexivity|reflexivity|reflexivity|auto|reflexivity|exact Q].
  - intros a _ _ Q. unfold detach. destruct (a_loop a); auto.
  - intros a e _ _ _ Q. eapply (SHD_keep a); [reflexivity|reflexivity|reflexivity|auto|reflexivity|exact Q].
  - intros a k b _ _ Q. eapply (SHD_keep a); [fields; rewrite <- app_assoc; reflexivity|reflexivity|reflexivity|auto|reflexivity|exact Q].
  - intros a t q _ _ _ Q. eapply (SHD_keep a); [reflexivity|reflexivity|reflexivity|auto|reflexivity|exact Q].
  - intros a t q _ _ _ Q. exact Q.
  - intros a _ Q. unfold SHD, written_out. intros _. apply cid_shut.
  - intros a n _ _ _ Q _. unfold SHD, written_out. intros _. apply cid_shut.
  - intros a Q. exact Q.
  - apply any_ops.
Qed.
(** ** Once the peer's end is not looked for, it never comes *)
Lemma deaf_step : forall wmax s o, a_rd s = false -> a_open s = false -> a_onw s = false -> a_out s = [] -> a_shut s = true -> a_later s = false -> is_event o ->
  let s' := step wmax s o in a_rd s' = false /\ a_open s' = false /\ a_onw s' = false /\ a_out s' = [] /\ a_shut s' = true /\ a_later s' = false /\ a_fd s' = a_fd s /\ a_log s' = a_log s.
Proof.
  intros wmax s o R Op W O S L E. destruct o; cbn [is_event] in E; [contradiction| | |]; cbn [step].
  - rewrite R. repeat (split; auto).
  - destruct (a_wr s); [|repeat (split; auto)]. unfold on_writable. cbv zeta. assert (F : fill wmax ws s = s) by (destruct ws as [|[? ?] ?]; cbn [fill]; now rewrite W). rewrite F, O. unfold written_out. rewrite O, W. cbn [andb negb].
    destruct (a_loop s); cbn [andb]; unfold close_if_done; fields; rewrite O, Op, S; cbn [negb andb]; repeat (split; auto).
  - destruct (a_tasks s); [repeat (split; auto)|]. cbv zeta. fields. rewrite L. fields. repeat (split; auto).
Qed.
Lemma deaf_run : forall wmax l s, a_rd s = false -> a_open s = false -> a_onw s = false -> a_out s = [] -> a_shut s = true -> a_later s = false -> Forall is_event l ->
  a_fd (run wmax l s) = a_fd s /\ a_log (run wmax l s) = a_log s.
Proof.
  unfold run. induction l as [|o l IH]; cbn; auto. intros s R Op W O S L F. inversion F; subst. destruct (deaf_step wmax s o R Op W O S L H1) as (A & B & C & D & E & G & X & Y).
  destruct (IH _ A B C D E G H2) as [P Q]. split; congruence.
Qed.

(** ** Who waits is registered *)
Definition REG (s : st) : Prop := a_loop s = true -> a_fd s = true -> (a_onr s = true -> a_rd s = true) /\ (a_onw s = true -> a_wr s = true).
Lemma REG_tries : forall s, REG (try_write (try_read s)).
Proof.
  intro s. unfold REG, try_write, try_read. destruct (a_loop s) eqn:L, (a_fd s) eqn:F, (a_onr s) eqn:R, (a_onw s) eqn:W; cbn [andb]; fields; rewrite ?L, ?F, ?R, ?W; cbn [andb]; fields;
    rewrite ?L, ?F, ?R, ?W; intros; try discriminate; split; intros; try discriminate; auto.
Qed.
Lemma REG_close : forall s, REG (close s).
Proof. intros s _ F. destruct (close_sock s) as [_ E]. congruence. Qed.
Lemma REG_cid : forall s, REG s -> REG (close_if_done s).
Proof. intros s H. unfold close_if_done. destruct (a_out s); auto. destruct (_ && _ && _); auto. Qed.
Lemma REG_wout : forall s, REG s -> REG (written_out s).
Proof.
  intros s H. unfold written_out. apply REG_cid. destruct (_ && a_loop s && negb (a_onw s)) eqn:E; auto. apply andb_true_iff in E. destruct E as [_ E]. apply negb_true_iff in E.
  intros L F. fields. destruct (H L F) as [A _]. split; auto. congruence.
Qed.
Lemma REG_call : forall s c, REG s -> REG (do_call s c).
Proof.
  intros s c H. destruct c; cbn [do_call]; auto; try apply REG_close.
  - unfold write_bytes. destruct (a_fd s) eqn:F; auto.
  - unfold try_write. fields. intros L F. destruct (a_loop s) eqn:L0, (a_fd s) eqn:F0; cbn [andb] in *; fields; try congruence. destruct (H L0 F0). auto.
  - unfold try_read. fields. intros L F. destruct (a_loop s) eqn:L0, (a_fd s) eqn:F0; cbn [andb] in *; fields; try congruence. destruct (H L0 F0). auto.
  - apply REG_cid. intros L F. fields. split; congruence.
  - unfold set_fd. destruct (a_fd s); auto. cbv zeta. apply REG_tries.
  - unfold attach. destruct (a_loop s); auto. apply REG_tries.
  - unfold detach. destruct (a_loop s) eqn:L; auto. intro X. fields. congruence.
Qed.
Lemma REG_calls : forall l s, REG s -> REG (do_calls l s).
Proof. unfold do_calls. induction l as [|c l IH]; cbn; auto. intros. apply IH. now apply REG_call. Qed.
Lemma REG_fail : forall dcs ecs s, REG (fail dcs ecs s).
Proof.
  intros. unfold fail. cbv zeta. assert (H : REG (if a_done s then do_calls dcs (close s) else close s)) by (destruct (a_done s); [apply REG_calls|]; apply REG_close).
  destruct (a_ond _); auto. apply REG_calls. exact H.
Qed.
Lemma REG_fill : forall wmax ws s, REG s -> REG (fill wmax ws s).
Proof.
  induction ws as [|[cs more] ws IH]; cbn [fill]; intros s H; destruct (a_onw s && (zlen (a_out s) <? wmax)); auto; cbv zeta.
  - intros L F. fields. destruct (H L F). split; auto. discriminate.
  - assert (Q : REG (do_calls cs (say EvWritable s))) by (apply REG_calls; exact H). apply IH. destruct more; auto. intros L F. fields. destruct (Q L F). split; auto. discriminate.
Qed.
Lemma REG_step : forall wmax s o, REG s -> REG (step wmax s o).
Proof.
  intros wmax s o H. destruct o; cbn [step].
  - now apply REG_call.
  - destruct (a_rd s); auto. unfold on_readable. destruct (a_open s && negb (a_onr s)) eqn:E.
    + apply andb_true_iff in E. destruct E as [_ E]. apply negb_true_iff in E. intros L F. fields. destruct (H L F). split; auto. congruence.
    + destruct r as [[|x b]| | |]; auto; try apply REG_fail. cbv zeta. destruct (a_shut (say (EvRead (a_sock s) (x :: b)) s)); [exact H|]. destruct (negb (a_open (say (EvRead (a_sock s) (x :: b)) s))); [apply REG_fail|].
      assert (Q : REG (do_calls cs (say (EvGot (a_sock (say (EvRead (a_sock s) (x :: b)) s)) (x :: b)) (say (EvRead (a_sock s) (x :: b)) s)))) by (apply REG_calls; exact H).
      destruct more; auto. intros L F. fields. destruct (Q L F). split; auto. discriminate.
  - destruct (a_wr s); auto. unfold on_writable. cbv zeta. pose proof (REG_fill wmax ws s H) as Q. set (s1 := fill wmax ws s) in *. clearbody s1.
    destruct (a_out s1) eqn:O; [now apply REG_wout|]. destruct (if a_fd s1 && negb (k_shut s1) then r else SErr); auto; [|apply REG_fail]. apply REG_wout. exact Q.
  - destruct (a_tasks s); auto. cbv zeta. destruct (a_later _); auto. apply REG_calls. exact H.
Qed.
Lemma REG_run : forall wmax l s, REG s -> REG (run wmax l s).
Proof. unfold run. induction l as [|o l IH]; cbn; auto. intros. apply IH. now apply REG_step. Qed.
Lemma fail_close : forall dcs ecs s, a_fd s = true -> In (EvClose (a_sock s)) (a_log (fail dcs ecs s)).
Proof.
  intros dcs ecs s F. assert (C : In (EvClose (a_sock s)) (a_log (close s))).
  { unfold close. fields. rewrite F. cbv zeta. destruct (a_loop s); fields; destruct (a_done s); fields; rewrite ?in_app_iff; cbn; auto. }
  assert (C1 : In (EvClose (a_sock s)) (a_log (if a_done s then do_calls dcs (close s) else close s))).
  { destruct (a_done s); auto. destruct (calls_log dcs (close s)) as (l & E & _). rewrite E, in_app_iff. auto. }
  unfold fail. cbv zeta. destruct (a_ond _); auto.
  match goal with |- context [do_calls ecs ?x] => destruct (calls_log ecs x) as (l & E & _) end. rewrite E. fields. rewrite !in_app_iff. auto.
Qed.
Lemma close_ond : forall s, a_ond (close s) = a_ond s.
Proof. intro s. unfold close. fields. destruct (a_fd s), (a_loop s); cbv zeta; fields; destruct (a_done s); reflexivity. Qed.
Lemma fail_did : forall ecs s, a_ond s = true -> In (EvDid (a_sock s)) (a_log (fail [] ecs s)).
Proof.
  intros ecs s O. unfold fail. cbv zeta. replace (if a_done s then do_calls [] (close s) else close s) with (close s) by (destruct (a_done s); reflexivity). rewrite close_ond, O.
  match goal with |- context [do_calls ecs ?x] => destruct (calls_log ecs x) as (l & E & _) end. rewrite E. fields. rewrite !in_app_iff. cbn. auto.
Qed.
