(** Lemmas for PropPStream.v. *)
From Verif Require Import Base PStream PStreamSpec.
From Coq Require Import Lia.

Definition Hist (l : list event) : Prop := forall l1 e l2, l = l1 ++ e :: l2 -> past_ok l1 e.
Lemma Hist_snoc : forall l e, Hist l -> past_ok l e -> Hist (l ++ [e]).
Proof.
  intros l e H P l1 e' l2 E. destruct l2 as [|x l2] using rev_ind.
  - apply app_inj_tail in E. destruct E as [<- <-]. auto.
  - clear IHl2. change (l1 ++ e' :: l2 ++ [x]) with (l1 ++ (e' :: l2) ++ [x]) in E. rewrite app_assoc in E. apply app_inj_tail in E. destruct E as [-> _]. eapply H. reflexivity.
Qed.
Lemma in_snoc : forall (l : list event) e x, In x (l ++ [e]) <-> In x l \/ x = e.
Proof. intros. rewrite in_app_iff. cbn. intuition. Qed.

Record INV (s : st) : Prop := {
  i_reg : a_rd s = true \/ a_wr s = true -> a_fd s = true /\ a_loop s = true;
  i_bytes : written (a_log s) = sent (a_log s) ++ a_out s;
  i_pos : 0 <= a_sock s;
  i_sock : forall k, In (EvSock k) (a_log s) -> 0 < k <= a_sock s;
  i_fd : a_fd s = true -> In (EvSock (a_sock s)) (a_log s);
  i_fdp : a_fd s = true -> 0 < a_sock s;
  i_nofd : a_fd s = false -> 0 < a_sock s -> In (EvClose (a_sock s)) (a_log s);
  i_close : forall k, In (EvClose k) (a_log s) -> k < a_sock s \/ (k = a_sock s /\ a_fd s = false);
  i_shut : forall k, In (EvShut k) (a_log s) -> a_shut s = true /\ (k < a_sock s \/ (k = a_sock s /\ k_shut s = true));
  i_bye : In EvBye (a_log s) <-> a_open s = false;
  i_did : forall k, In (EvDid k) (a_log s) -> In (EvClose k) (a_log s);
  i_later : a_later s = true -> a_open s = true /\ forall k, ~ In (EvClose k) (a_log s);
  i_done : a_done s = true -> ~ In EvDone (a_log s);
  i_noshut : a_shut s = true -> a_open s = false;
  i_hist : Hist (a_log s)
}.
Lemma written_app : forall a b, written (a ++ b) = written a ++ written b.
Proof. intros. apply flat_map_app. Qed.
Lemma sent_app : forall a b, sent (a ++ b) = sent a ++ sent b.
Proof. intros. apply flat_map_app. Qed.
Lemma INV_0 : forall b, INV (st0 b).
Proof.
  constructor; cbn; try tauto; try lia; try discriminate; try (intros [H|H]; discriminate); try (intuition discriminate).
  intros l1 e l2 E. destruct l1; discriminate.
Qed.
(** events that none of the fields speaks about *)
Definition quiet (e : event) : Prop := match e with EvRead _ _ | EvGot _ _ | EvAsk _ | EvTask _ | EvWritable => True | _ => False end.
Lemma INV_say : forall s e, quiet e -> past_ok (a_log s) e -> INV s -> INV (say e s).
Proof.
  intros s e Q P H. destruct H.
  assert (N : forall x, In x (a_log s ++ [e]) -> In x (a_log s) \/ x = e) by (intros; now apply in_snoc).
  constructor; cbn [say a_open a_shut a_loop a_fd a_out a_onw a_onr a_ond a_later a_done a_rd a_wr a_tasks a_sock k_shut a_log]; auto.
  - rewrite written_app, sent_app. destruct e; cbn in Q; try tauto; cbn; rewrite !app_nil_r; auto.
  - intros k Hk. apply N in Hk. destruct Hk as [Hk|<-]; [auto|contradiction].
  - intro F. apply in_snoc. auto.
  - intros F G. apply in_snoc. auto.
  - intros k Hk. apply N in Hk. destruct Hk as [Hk|<-]; [auto|contradiction].
  - intros k Hk. apply N in Hk. destruct Hk as [Hk|<-]; [auto|contradiction].
  - rewrite in_snoc, <- i_bye0. split; [intros [A|<-]; [auto|contradiction]|auto].
  - intros k Hk. apply in_snoc. apply N in Hk. destruct Hk as [Hk|<-]; [auto|contradiction].
  - intro L. destruct (i_later0 L) as [A B]. split; auto. intros k Hk. apply N in Hk. destruct Hk as [Hk|<-]; [eapply B; eauto|contradiction].
  - intros D Hk. apply N in Hk. destruct Hk as [Hk|<-]; [now apply i_done0|contradiction].
  - now apply Hist_snoc.
Qed.
Ltac fields := cbn [say with_out with_reg with_cbs with_loop with_tasks a_open a_shut a_loop a_fd a_out a_onw a_onr a_ond a_later a_done a_rd a_wr a_tasks a_sock k_shut a_log] in *.
Lemma INV_cbs : forall s w r d, INV s -> INV (with_cbs s w r d).
Proof. intros s w r d []; constructor; auto. Qed.
Lemma INV_tasks : forall s t, INV s -> INV (with_tasks s t).
Proof. intros s t []; constructor; auto. Qed.
Lemma INV_reg : forall s r w, (r = true \/ w = true -> a_fd s = true /\ a_loop s = true) -> INV s -> INV (with_reg s r w).
Proof. intros s r w R []; constructor; auto. Qed.
Lemma INV_try_read : forall s, INV s -> INV (try_read s).
Proof.
  intros s H. unfold try_read. destruct (a_loop s && a_fd s && a_onr s) eqn:E; auto. apply andb_true_iff in E. destruct E as [E _]. apply andb_true_iff in E.
  apply INV_reg; auto. tauto.
Qed.
Lemma INV_try_write : forall s, INV s -> INV (try_write s).
Proof.
  intros s H. unfold try_write. destruct (a_loop s && a_fd s && a_onw s) eqn:E; auto. apply andb_true_iff in E. destruct E as [E _]. apply andb_true_iff in E.
  apply INV_reg; auto. tauto.
Qed.
Lemma INV_attach : forall s, INV s -> INV (attach s).
Proof.
  intros s H. unfold attach. destruct (a_loop s) eqn:L; auto. apply INV_try_write, INV_try_read. destruct H. constructor; fields; auto. intro R. destruct (i_reg0 R). congruence.
Qed.
Lemma INV_detach : forall s, INV s -> INV (detach s).
Proof.
  intros s H. unfold detach. destruct (a_loop s) eqn:L; auto. destruct H. constructor; fields; auto. intros [R|R]; discriminate.
Qed.
Lemma INV_close : forall s, INV s -> INV (close s).
Proof.
  intros s H. unfold close. cbv zeta.
  set (s1 := mk (a_open s) _ _ _ _ _ _ _ false _ _ _ _ _ _ _). assert (H1 : INV s1) by (destruct H; constructor; unfold s1; fields; auto; discriminate).
  assert (L1 : a_later s1 = false) by reflexivity. clearbody s1. clear H s.
  set (s2 := if a_fd s1 then _ else s1).
  assert (H2 : INV s2).
  { unfold s2. destruct (a_fd s1) eqn:F; auto. set (s0 := if a_loop s1 then _ else _).
    assert (H0 : INV s0 /\ a_rd s0 = false /\ a_wr s0 = false /\ a_sock s0 = a_sock s1 /\ a_fd s0 = true /\ a_later s0 = false).
    { unfold s0. destruct (a_loop s1) eqn:L; [split; [apply INV_reg; auto; intros [Q|Q]; discriminate|auto]|]. split; auto.
      destruct (a_rd s1) eqn:R; [destruct (i_reg s1 H1); auto; congruence|]. destruct (a_wr s1) eqn:W; [destruct (i_reg s1 H1); auto; congruence|]. auto. }
    destruct H0 as (H0 & R & W & _ & F0 & L0). clearbody s0. clear H1 F L1 s1 s2. destruct H0. constructor; fields; auto.
    - rewrite R, W. intros [Q|Q]; discriminate.
    - rewrite written_app, sent_app. cbn. now rewrite !app_nil_r.
    - intros k Hk. apply in_snoc in Hk. destruct Hk as [Hk|Hk]; [auto|discriminate].
    - intros Q; discriminate.
    - intros _ _. apply in_snoc. auto.
    - intros k Hk. apply in_snoc in Hk. destruct Hk as [Hk|Hk]; [destruct (i_close0 k Hk) as [|[? ?]]; auto; congruence|]. injection Hk as ->. auto.
    - intros k Hk. apply in_snoc in Hk. destruct Hk as [Hk|Hk]; [auto|discriminate].
    - rewrite in_snoc, <- i_bye0. intuition discriminate.
    - intros k Hk. apply in_snoc. apply in_snoc in Hk. destruct Hk as [Hk|Hk]; [auto|discriminate].
    - congruence.
    - intros D Hk. apply in_snoc in Hk. destruct Hk as [Hk|Hk]; [now apply i_done0|discriminate].
    - apply Hist_snoc; auto. cbn. split; auto. intro Hk. destruct (i_close0 _ Hk) as [|[_ ?]]; [lia|congruence]. }
  clearbody s2. clear H1 L1 s1. destruct (a_done s2) eqn:D; auto. destruct H2. constructor; fields; auto.
  - rewrite written_app, sent_app. cbn. now rewrite !app_nil_r.
  - intros k Hk. apply in_snoc in Hk. destruct Hk as [Hk|Hk]; [auto|discriminate].
  - intro F. apply in_snoc. auto.
  - intros F G. apply in_snoc. auto.
  - intros k Hk. apply in_snoc in Hk. destruct Hk as [Hk|Hk]; [auto|discriminate].
  - intros k Hk. apply in_snoc in Hk. destruct Hk as [Hk|Hk]; [auto|discriminate].
  - rewrite in_snoc, <- i_bye0. intuition discriminate.
  - intros k Hk. apply in_snoc. apply in_snoc in Hk. destruct Hk as [Hk|Hk]; [auto|discriminate].
  - intro L. destruct (i_later0 L) as [A B]. split; auto. intros k Hk. apply in_snoc in Hk. destruct Hk as [Hk|Hk]; [eapply B; eauto|discriminate].
  - discriminate.
  - apply Hist_snoc; auto. cbn. auto.
Qed.
Lemma INV_set_fd : forall s, INV s -> INV (set_fd s).
Proof.
  intros s H. unfold set_fd. destruct (a_fd s) eqn:F; auto. cbv zeta. apply INV_try_write, INV_try_read. destruct H. constructor; fields; auto.
  - intro R. destruct (i_reg0 R). congruence.
  - rewrite written_app, sent_app. cbn. now rewrite !app_nil_r.
  - lia.
  - intros k Hk. apply in_snoc in Hk. destruct Hk as [Hk|Hk]; [specialize (i_sock0 k Hk); lia|injection Hk as ->; lia].
  - intros _. apply in_snoc. auto.
  - lia.
  - intros Q; discriminate.
  - intros k Hk. apply in_snoc in Hk. destruct Hk as [Hk|Hk]; [destruct (i_close0 k Hk) as [|[? ?]]; left; lia|discriminate].
  - intros k Hk. apply in_snoc in Hk. destruct Hk as [Hk|Hk]; [destruct (i_shut0 k Hk) as [? [|[? ?]]]; split; auto; left; lia|discriminate].
  - rewrite in_snoc, <- i_bye0. intuition discriminate.
  - intros k Hk. apply in_snoc. apply in_snoc in Hk. destruct Hk as [Hk|Hk]; [auto|discriminate].
  - intro L. destruct (i_later0 L) as [A B]. split; auto. intros k Hk. apply in_snoc in Hk. destruct Hk as [Hk|Hk]; [eapply B; eauto|discriminate].
  - intros D Hk. apply in_snoc in Hk. destruct Hk as [Hk|Hk]; [now apply i_done0|discriminate].
  - apply Hist_snoc; auto. cbn. intro Hk. specialize (i_sock0 _ Hk). lia.
Qed.
Lemma INV_write : forall b s, INV s -> INV (snd (write_bytes b s)).
Proof.
  intros b s H. unfold write_bytes. destruct (a_fd s) eqn:F; auto. cbn [snd]. destruct H. constructor; fields; auto.
  - rewrite written_app, sent_app, i_bytes0. cbn. now rewrite !app_nil_r, <- app_assoc.
  - intros k Hk. apply in_snoc in Hk. destruct Hk as [Hk|Hk]; [auto|discriminate].
  - intro. apply in_snoc. auto.
  - congruence.
  - intros k Hk. apply in_snoc in Hk. destruct Hk as [Hk|Hk]; [auto|discriminate].
  - intros k Hk. apply in_snoc in Hk. destruct Hk as [Hk|Hk]; [auto|discriminate].
  - rewrite in_snoc, <- i_bye0. intuition discriminate.
  - intros k Hk. apply in_snoc. apply in_snoc in Hk. destruct Hk as [Hk|Hk]; [auto|discriminate].
  - intro L. destruct (i_later0 L) as [A B]. split; auto. intros k Hk. apply in_snoc in Hk. destruct Hk as [Hk|Hk]; [eapply B; eauto|discriminate].
  - intros D Hk. apply in_snoc in Hk. destruct Hk as [Hk|Hk]; [now apply i_done0|discriminate].
  - apply Hist_snoc; auto. exact Logic.I.
Qed.
Lemma INV_done : forall s, INV s -> INV (close_if_done s).
Proof.
  intros s H. unfold close_if_done. destruct (a_out s) eqn:O; auto. destruct (negb (a_open s) && negb (a_shut s) && a_fd s) eqn:E; auto.
  apply andb_true_iff in E. destruct E as [E F]. apply andb_true_iff in E. destruct E as [Op Sh]. apply negb_true_iff in Op, Sh.
  destruct H. constructor; fields; auto.
  - rewrite written_app, sent_app, i_bytes0, O. cbn. now rewrite !app_nil_r.
  - intros k Hk. apply in_snoc in Hk. destruct Hk as [Hk|Hk]; [auto|discriminate].
  - intro. apply in_snoc. auto.
  - congruence.
  - intros k Hk. apply in_snoc in Hk. destruct Hk as [Hk|Hk]; [auto|discriminate].
  - intros k Hk. split; auto. apply in_snoc in Hk. destruct Hk as [Hk|Hk]; [destruct (i_shut0 k Hk); congruence|]. injection Hk as ->. auto.
  - rewrite in_snoc, <- i_bye0. intuition discriminate.
  - intros k Hk. apply in_snoc. apply in_snoc in Hk. destruct Hk as [Hk|Hk]; [auto|discriminate].
  - intro L. destruct (i_later0 L) as [A B]. congruence.
  - intros D Hk. apply in_snoc in Hk. destruct Hk as [Hk|Hk]; [now apply i_done0|discriminate].
  - apply Hist_snoc; auto. cbn. split; auto. split; [intro Hk; destruct (i_close0 _ Hk) as [|[_ ?]]; [lia|congruence]|]. split; [now apply i_bye0|]. split.
    + rewrite i_bytes0, O. apply app_nil_r.
    + intros k' Hk. destruct (i_shut0 k' Hk). congruence.
Qed.
Lemma INV_client : forall s, INV s -> INV (client_closed s).
Proof.
  intros s H. unfold client_closed. apply INV_done. destruct H. constructor; fields; auto.
  - rewrite written_app, sent_app. cbn. now rewrite !app_nil_r.
  - intros k Hk. apply in_snoc in Hk. destruct Hk as [Hk|Hk]; [auto|discriminate].
  - intro. apply in_snoc. auto.
  - intros. apply in_snoc. auto.
  - intros k Hk. apply in_snoc in Hk. destruct Hk as [Hk|Hk]; [auto|discriminate].
  - intros k Hk. apply in_snoc in Hk. destruct Hk as [Hk|Hk]; [auto|discriminate].
  - rewrite in_snoc. tauto.
  - intros k Hk. apply in_snoc. apply in_snoc in Hk. destruct Hk as [Hk|Hk]; [auto|discriminate].
  - discriminate.
  - intros D Hk. apply in_snoc in Hk. destruct Hk as [Hk|Hk]; [now apply i_done0|discriminate].
  - apply Hist_snoc; auto. exact Logic.I.
Qed.
Lemma INV_call : forall s c, INV s -> INV (do_call s c).
Proof.
  intros s c H. destruct c; cbn [do_call].
  - now apply INV_write.
  - apply INV_try_write. now apply INV_cbs.
  - apply INV_try_read. now apply INV_cbs.
  - now apply INV_cbs.
  - now apply INV_client.
  - now apply INV_close.
  - now apply INV_set_fd.
  - now apply INV_attach.
  - now apply INV_detach.
  - unfold do_later. apply INV_say; [exact Logic.I|exact Logic.I|]. now apply INV_tasks.
Qed.
Lemma INV_calls : forall l s, INV s -> INV (do_calls l s).
Proof. unfold do_calls. induction l as [|c l IH]; cbn; auto. intros. apply IH. now apply INV_call. Qed.

(** ** What calls do *)
Definition ext (P : event -> Prop) (s s' : st) : Prop := exists l, a_log s' = a_log s ++ l /\ Forall P l.
Lemma ext_refl : forall P s s', a_log s' = a_log s -> ext P s s'.
Proof. intros. exists []. rewrite app_nil_r. auto. Qed.
Lemma ext_trans : forall P a b c, ext P a b -> ext P b c -> ext P a c.
Proof. intros P a b c (l & E & F) (l' & E' & F'). exists (l ++ l'). rewrite E', E, app_assoc. split; auto. apply Forall_app; auto. Qed.
Lemma ext_say : forall (P : event -> Prop) e s s', P e -> a_log s' = a_log s ++ [e] -> ext P s s'.
Proof. intros. exists [e]. auto. Qed.
Definition call_ev (e : event) : Prop := match e with EvSock _ | EvWrite _ _ | EvShut _ | EvClose _ | EvDone | EvBye | EvAsk _ => True | _ => False end.
Lemma try_read_log : forall s, a_log (try_read s) = a_log s.
Proof. intros. unfold try_read. destruct (_ && _); auto. Qed.
Lemma try_write_log : forall s, a_log (try_write s) = a_log s.
Proof. intros. unfold try_write. destruct (_ && _); auto. Qed.
Lemma close_log : forall s, ext call_ev s (close s).
Proof.
  intros s. unfold close. cbv zeta. fields. destruct (a_fd s); fields.
  - destruct (a_loop s); fields; destruct (a_done s); fields.
    all: first [exists [EvClose (a_sock s); EvDone]; split; [cbn [say a_log]; rewrite <- app_assoc; reflexivity|repeat constructor] | exists [EvClose (a_sock s)]; split; [reflexivity|repeat constructor]].
  - destruct (a_done s); fields; [exists [EvDone]; split; [reflexivity|repeat constructor]|now apply ext_refl].
Qed.
Lemma done_log : forall s, ext call_ev s (close_if_done s).
Proof.
  intros s. unfold close_if_done. destruct (a_out s); [|now apply ext_refl]. destruct (negb (a_open s) && negb (a_shut s) && a_fd s); [|now apply ext_refl].
  eapply ext_say; [|reflexivity]. exact Logic.I.
Qed.
Lemma call_log : forall s c, ext call_ev s (do_call s c).
Proof.
  intros s c. destruct c; cbn [do_call].
  - unfold write_bytes. destruct (a_fd s); [|now apply ext_refl]. eapply ext_say; [|reflexivity]. exact Logic.I.
  - apply ext_refl. now rewrite try_write_log.
  - apply ext_refl. now rewrite try_read_log.
  - now apply ext_refl.
  - unfold client_closed. eapply ext_trans; [|apply done_log]. eapply ext_say; [|reflexivity]. exact Logic.I.
  - apply close_log.
  - unfold set_fd. destruct (a_fd s); [now apply ext_refl|]. cbv zeta. eapply ext_say; [|rewrite try_write_log, try_read_log; reflexivity]. exact Logic.I.
  - unfold attach. destruct (a_loop s); apply ext_refl; auto. now rewrite try_write_log, try_read_log.
  - unfold detach. destruct (a_loop s); now apply ext_refl.
  - eapply ext_say; [|reflexivity]. exact Logic.I.
Qed.
Lemma calls_log : forall l s, ext call_ev s (do_calls l s).
Proof. unfold do_calls. induction l as [|c l IH]; cbn; intros; [now apply ext_refl|]. eapply ext_trans; [apply call_log|apply IH]. Qed.
Lemma close_sock : forall s, a_sock (close s) = a_sock s /\ a_fd (close s) = false.
Proof.
  intros s. unfold close. cbv zeta. fields. destruct (a_fd s) eqn:F; fields.
  - destruct (a_loop s); fields; destruct (a_done s); fields; auto.
  - destruct (a_done s); fields; auto.
Qed.
(** no EvDid yet for the socket there is; kept by calls *)
Definition fresh (s : st) : Prop := 0 < a_sock s /\ ~ In (EvDid (a_sock s)) (a_log s).
Lemma ext_fresh : forall s s', ext call_ev s s' -> a_sock s' = a_sock s -> fresh s -> fresh s'.
Proof.
  intros s s' (l & E & F) K [P N]. split; [now rewrite K|]. rewrite E, K, in_app_iff. intros [Q|Q]; [contradiction|]. rewrite Forall_forall in F. exact (F _ Q).
Qed.
Lemma fresh_call : forall s c, INV s -> fresh s -> fresh (do_call s c).
Proof.
  intros s c H N. destruct c.
  7: { cbn [do_call]. unfold set_fd. destruct (a_fd s); auto. cbv zeta. unfold fresh. rewrite try_write_log, try_read_log.
       assert (K : forall x, a_sock (try_write (try_read x)) = a_sock x) by (intro; unfold try_write, try_read; destruct (a_loop x && a_fd x && a_onr x); destruct (_ && _); auto).
       rewrite K. fields. destruct N. split; [lia|]. rewrite in_snoc. intros [Q|Q]; [|discriminate]. pose proof (i_did s H _ Q) as C. apply (i_close s H) in C. lia. }
  all: eapply ext_fresh; [apply call_log| |exact N]; cbn [do_call].
  - unfold write_bytes. destruct (a_fd s); auto.
  - unfold try_write. destruct (_ && _); auto.
  - unfold try_read. destruct (_ && _); auto.
  - auto.
  - unfold client_closed, close_if_done. fields. destruct (a_out s); auto. destruct (_ && _); auto.
  - apply close_sock.
  - unfold attach. destruct (a_loop s); auto. unfold try_write, try_read. destruct (a_loop (with_loop s true) && _ && _); destruct (_ && _); auto.
  - unfold detach. destruct (a_loop s); auto.
  - auto.
Qed.
Lemma fresh_calls : forall l s, INV s -> fresh s -> fresh (do_calls l s).
Proof. unfold do_calls. induction l as [|c l IH]; cbn; auto. intros. apply IH; [now apply INV_call|now apply fresh_call]. Qed.
Lemma fresh_say : forall s e, match e with EvDid _ => False | _ => True end -> fresh s -> fresh (say e s).
Proof. intros s e P [A N]. split; auto. fields. rewrite in_snoc. intros [Q|Q]; [contradiction|]. destruct e; try discriminate; contradiction. Qed.

(** ** Failing *)
Lemma INV_did : forall s k, In (EvClose k) (a_log s) -> ~ In (EvDid k) (a_log s) -> INV s -> INV (say (EvDid k) s).
Proof.
  intros s k C N H. destruct H. constructor; fields; auto.
  - rewrite written_app, sent_app. cbn. now rewrite !app_nil_r.
  - intros j Hk. apply in_snoc in Hk. destruct Hk as [Hk|Hk]; [auto|discriminate].
  - intro. apply in_snoc. auto.
  - intros. apply in_snoc. auto.
  - intros j Hk. apply in_snoc in Hk. destruct Hk as [Hk|Hk]; [auto|discriminate].
  - intros j Hk. apply in_snoc in Hk. destruct Hk as [Hk|Hk]; [auto|discriminate].
  - rewrite in_snoc, <- i_bye0. intuition discriminate.
  - intros j Hk. apply in_snoc. apply in_snoc in Hk. destruct Hk as [Hk|Hk]; [auto|]. injection Hk as ->. auto.
  - intro L. destruct (i_later0 L) as [A B]. split; auto. intros j Hk. apply in_snoc in Hk. destruct Hk as [Hk|Hk]; [eapply B; eauto|discriminate].
  - intros D Hk. apply in_snoc in Hk. destruct Hk as [Hk|Hk]; [now apply i_done0|discriminate].
  - apply Hist_snoc; auto. cbn. auto.
Qed.
Lemma INV_fail : forall dcs ecs s, INV s -> fresh s -> INV (fail dcs ecs s).
Proof.
  intros dcs ecs s H [P N]. unfold fail. cbv zeta. pose proof (INV_close s H) as Hc. destruct (close_sock s) as [Ks Fd].
  set (s1 := if a_done s then _ else _).
  assert (H1 : INV s1 /\ ext call_ev s s1 /\ In (EvClose (a_sock s)) (a_log s1)).
  { assert (C : In (EvClose (a_sock s)) (a_log (close s))) by (rewrite <- Ks; apply (i_nofd _ Hc); auto; now rewrite Ks).
    unfold s1. destruct (a_done s); [|split; [|split]; auto; apply close_log]. split; [now apply INV_calls|]. split; [eapply ext_trans; [apply close_log|apply calls_log]|].
    destruct (calls_log dcs (close s)) as (l & E & _). rewrite E. apply in_or_app. auto. }
  destruct H1 as (H1 & (l & E & F) & C). destruct (a_ond s1); auto. apply INV_calls. apply INV_did; auto.
  rewrite E, in_app_iff. intros [Q|Q]; [contradiction|]. rewrite Forall_forall in F. exact (F _ Q).
Qed.
Lemma fresh_reg : forall s, INV s -> a_rd s = true \/ a_wr s = true -> fresh s.
Proof.
  intros s H R. destruct (i_reg s H R) as [F _]. split; [now apply (i_fdp s H)|].
  intro Q; apply (i_did s H) in Q; apply (i_close s H) in Q; destruct Q as [|[_ ?]]; [lia|congruence].
Qed.

(** ** Events *)
Lemma INV_readable : forall r cs more dcs ecs s, INV s -> a_rd s = true -> INV (on_readable r cs more dcs ecs s).
Proof.
  intros r cs more dcs ecs s H R. pose proof (fresh_reg s H (or_introl R)) as N. destruct (i_reg s H (or_introl R)) as [Fd Lp]. unfold on_readable.
  destruct (a_open s && negb (a_onr s)); [apply INV_reg; auto|].
  destruct r as [b| | |]; auto; try (now apply INV_fail). destruct b as [|x b]; [now apply INV_fail|]. cbv zeta.
  set (s1 := say (EvRead _ _) s).
  assert (H1 : INV s1) by (apply INV_say; auto; [exact Logic.I|]; cbn; split; [now apply (i_fd s H)|intro Q; apply (i_close s H) in Q; destruct Q as [|[_ ?]]; [lia|congruence]]).
  destruct (a_shut s1); auto. destruct (a_open s1) eqn:Op; cbn [negb]; [|apply INV_fail; auto; apply fresh_say; auto; exact Logic.I].
  assert (H2 : INV (do_calls cs (say (EvGot (a_sock s1) (x :: b)) s1))).
  { apply INV_calls, INV_say; auto; [exact Logic.I|]. cbn [past_ok]. split; [rewrite (i_bye s1 H1); congruence|]. exists (a_log s). reflexivity. }
  destruct more; auto. now apply INV_cbs.
Qed.
Lemma INV_fill : forall wmax ws s, INV s -> fresh s -> INV (fill wmax ws s) /\ fresh (fill wmax ws s).
Proof.
  induction ws as [|[cs more] ws IH]; cbn [fill]; intros s H N; destruct (a_onw s && (zlen (a_out s) <? wmax)); auto; cbv zeta.
  - split; [apply INV_cbs, INV_say; auto; exact Logic.I|]. apply (fresh_say s EvWritable); auto; exact Logic.I.
  - assert (H1 : INV (do_calls cs (say EvWritable s))) by (apply INV_calls, INV_say; auto; exact Logic.I).
    assert (N1 : fresh (do_calls cs (say EvWritable s))) by (apply fresh_calls; [apply INV_say; auto; exact Logic.I|apply fresh_say; auto; exact Logic.I]).
    apply IH; destruct more; auto. now apply INV_cbs.
Qed.
Lemma INV_wout : forall s, INV s -> INV (written_out s).
Proof.
  intros s H. unfold written_out. apply INV_done. destruct (_ && _ && _); auto. apply INV_reg; auto. intros [R|R]; [|discriminate]. apply (i_reg s H); auto.
Qed.
Lemma INV_send : forall s n, INV s -> a_fd s = true -> k_shut s = false -> INV (say (EvSend (a_sock s) (firstn n (a_out s))) (with_out s (skipn n (a_out s)))).
Proof.
  intros s n H F K. destruct H. constructor; fields; auto.
  - rewrite written_app, sent_app, i_bytes0. cbn. rewrite !app_nil_r, <- app_assoc. now rewrite firstn_skipn.
  - intros k Hk. apply in_snoc in Hk. destruct Hk as [Hk|Hk]; [auto|discriminate].
  - intro. apply in_snoc. auto.
  - congruence.
  - intros k Hk. apply in_snoc in Hk. destruct Hk as [Hk|Hk]; [auto|discriminate].
  - intros k Hk. apply in_snoc in Hk. destruct Hk as [Hk|Hk]; [auto|discriminate].
  - rewrite in_snoc, <- i_bye0. intuition discriminate.
  - intros k Hk. apply in_snoc. apply in_snoc in Hk. destruct Hk as [Hk|Hk]; [auto|discriminate].
  - intro L. destruct (i_later0 L) as [A B]. split; auto. intros k Hk. apply in_snoc in Hk. destruct Hk as [Hk|Hk]; [eapply B; eauto|discriminate].
  - intros D Hk. apply in_snoc in Hk. destruct Hk as [Hk|Hk]; [now apply i_done0|discriminate].
  - apply Hist_snoc; auto. cbn. split; auto. split; intro Q; [apply i_shut0 in Q; destruct Q as [_ [|[_ ?]]]|apply i_close0 in Q; destruct Q as [|[_ ?]]]; try lia; congruence.
Qed.
Lemma INV_writable : forall wmax ws r dcs ecs s, INV s -> a_wr s = true -> INV (on_writable wmax ws r dcs ecs s).
Proof.
  intros wmax ws r dcs ecs s H R. pose proof (fresh_reg s H (or_intror R)) as N. unfold on_writable. cbv zeta.
  destruct (INV_fill wmax ws s H N) as [H1 N1]. set (s1 := fill wmax ws s) in *. clearbody s1.
  destruct (a_out s1) eqn:O; [now apply INV_wout|]. destruct (a_fd s1 && negb (k_shut s1)) eqn:E; [|now apply INV_fail].
  apply andb_true_iff in E. destruct E as [F K]. apply negb_true_iff in K.
  destruct r as [n| |]; auto; [|now apply INV_fail]. apply INV_wout. rewrite <- O. now apply INV_send.
Qed.
Lemma INV_step : forall wmax s o, INV s -> INV (step wmax s o).
Proof.
  intros wmax s o H. destruct o; cbn [step].
  - now apply INV_call.
  - destruct (a_rd s) eqn:R; auto. now apply INV_readable.
  - destruct (a_wr s) eqn:R; auto. now apply INV_writable.
  - destruct (a_tasks s) as [|t q]; auto. cbv zeta. destruct (a_later (with_tasks s q)) eqn:L; [|now apply INV_tasks].
    apply INV_calls, INV_say; [exact Logic.I| |now apply INV_tasks]. fields. destruct (i_later s H L) as [A B]. cbn. split; auto. rewrite (i_bye s H). congruence.
Qed.
Lemma INV_run : forall wmax l s, INV s -> INV (run wmax l s).
Proof. unfold run. induction l as [|o l IH]; cbn; auto. intros. apply IH. now apply INV_step. Qed.
