(** Invariants of the session's alarms. *)
From Verif Require Import Base BaseFacts Alive AliveSpec.

Definition AB (E t : Z) (s : al) : Prop :=
  a_end s = None ->
  (0 <= a_mrto s <= E /\ 0 <= a_erto s <= E)
  /\ (forall w, a_tmo s = Some w -> w <= a_tdead s /\ a_tdead s <= t + E)
  /\ (a_out s = true -> a_tmo s <> None)
  /\ (a_kout s = true -> a_tmo s <> None /\ a_epoch s <> None)
  /\ (forall e, a_epoch s = Some e -> e <= t)
  /\ (forall x, a_ktimer s = Some x ->
        match x with Some w => w <= t \/ exists k, a_kper s = Some k /\ w <= a_klast s + k + E | None => a_kper s = None end)
  /\ a_klast s <= t /\ a_ilast s <= t
  /\ (a_ktimer s <> None \/ a_tmo s <> None \/ a_ready s <> None \/ a_room s = false)
  /\ (forall r, a_ready s = Some r -> r <= t)
  /\ (exists x, a_itimer s = Some x /\ match x with Some w => w <= t \/ exists l, a_ilim s = Some l /\ w <= t + l | None => a_ilim s = None end)
  /\ (forall k, a_kper s = Some k -> 0 <= k) /\ (forall k, a_rlim s = Some k -> 0 <= k) /\ (forall k, a_ilim s = Some k -> 0 <= k).

Ltac brk :=
  repeat match goal with
  | H : _ /\ _ |- _ => destruct H
  | H : exists _, _ |- _ => destruct H
  | H : Some _ = Some _ |- _ => injection H as H; subst
  | H : Some _ = None |- _ => discriminate H
  | H : None = Some _ |- _ => discriminate H
  | H : true = false |- _ => discriminate H
  | H : false = true |- _ => discriminate H
  end.
Ltac spl := repeat match goal with |- _ /\ _ => split end.

Lemma AB_open E t resp rl kp il m r : 0 <= m <= E -> 0 <= r <= E -> AB E t (open_session t resp rl kp il m r).
Proof.
  intros Hm Hr _. unfold open_session, MIN_PERIOD, emax. cbn.
  spl; try lia; intros; brk; try discriminate; try lia; auto.
  - left. discriminate.
  - exists (Some t). split; [reflexivity|left; lia].
  - destruct kp; brk; discriminate || (unfold MIN_PERIOD in *; lia).
  - destruct rl; brk; discriminate || (unfold MIN_PERIOD in *; lia).
  - destruct il; brk; discriminate || (unfold MIN_PERIOD in *; lia).
Qed.

Lemma AB_later E t t' s : t <= t' -> AB E t s -> AB E t' s.
Proof.
  intros Ht H Ho. destruct (H Ho) as (H1 & H2 & H3 & H4 & H5 & H6 & H7 & H8 & H9 & H10 & H11 & H12 & H13 & H14).
  spl; try assumption.
  - lia.
  - lia.
  - lia.
  - lia.
  - intros w Hw. destruct (H2 _ Hw). lia.
  - intros e He. specialize (H5 _ He). lia.
  - intros x Hx. specialize (H6 _ Hx). destruct x; auto. destruct H6 as [|(k & ? & ?)]; [left; lia|right; exists k; auto].
  - lia.
  - lia.
  - intros r Hr. specialize (H10 _ Hr). lia.
  - destruct H11 as (x & Hx & Hb). exists x. split; [assumption|]. destruct x; auto.
    destruct Hb as [|(l & ? & ?)]; [left; lia|right; exists l; split; auto; lia].
Qed.

Lemma AB_ended E t s : a_end s <> None -> AB E t s.
Proof. intros H Ho. contradiction. Qed.

Lemma emax_pos l k : emax l = Some k -> 0 <= k.
Proof. destruct l; cbn; intros H; brk. unfold MIN_PERIOD; lia. Qed.
#[local] Hint Resolve emax_pos : core.

Ltac zb :=
  repeat match goal with
  | H : (_ <? _) = true |- _ => apply Z.ltb_lt in H
  | H : (_ <? _) = false |- _ => apply Z.ltb_ge in H
  | H : (_ <=? _) = true |- _ => apply Z.leb_le in H
  | H : (_ <=? _) = false |- _ => apply Z.leb_gt in H
  | H : _ && _ = true |- _ => apply andb_prop in H; destruct H
  | H : negb _ = true |- _ => apply negb_true_iff in H
  | H : negb _ = false |- _ => apply negb_false_iff in H
  end.

Lemma AB_step E t s e : measured E e -> AB E t s -> AB E t (astep s t e).
Proof.
  intros Hme H. unfold astep. destruct (a_end s) eqn:Hend; [exact H|].
  specialize (H Hend). destruct H as (H1 & H2 & H3 & H4 & H5 & H6 & H7 & H8 & H9 & H10 & H11 & H12 & H13 & H14).
  destruct e.
  - (* data *)
    intros _. unfold reschedule. cbn.
    spl; try assumption; try lia; intros; brk; try discriminate; try lia.
    + destruct (a_tmo s) eqn:Et; [|lia]. destruct (H2 _ eq_refl). destruct (_ <? _) eqn:Eb; zb; lia.
    + split; discriminate.
    + destruct (a_epoch s); lia.
    + specialize (H6 _ ltac:(eassumption)). destruct x; auto. destruct H6 as [|(k & ? & ?)]; [left; lia|right; exists k; split; [assumption|lia]].
    + right; left; discriminate.
  - intros _. cbn.
    spl; try assumption; try lia; intros; brk.
    specialize (H6 _ ltac:(eassumption)). destruct x; auto. destruct H6 as [|(k & ? & ?)]; [left; lia|right; exists k; split; [assumption|lia]].
  - (* ack *)
    intros _. unfold reschedule. cbn.
    spl; try assumption; try lia; intros; brk; try discriminate; try lia; auto.
    + destruct (a_tmo s) eqn:Et; [|lia]. destruct (H2 _ eq_refl). destruct (_ <? _) eqn:Eb; zb; lia.
    + right; left; discriminate.
  - intros _. cbn. spl; try assumption; intros; brk; try discriminate; lia.
  - intros _. cbn.
    spl; try assumption; try lia; intros; brk.
    specialize (H6 _ ltac:(eassumption)). destruct x; auto. destruct H6 as [|(k & ? & ?)]; [left; lia|right; exists k; split; [assumption|lia]].
  - (* timeout *)
    assert (HS : AB E t s) by (intros _; repeat match goal with |- _ /\ _ => split end; try assumption; lia).
    destruct (a_tmo s) as [w|] eqn:Et; [|exact HS].
    destruct (w <=? t) eqn:Ew; [|exact HS]. zb.
    destruct (H2 _ eq_refl) as (Hw & Hd).
    unfold on_timeout. destruct (t <? a_tdead s) eqn:Ed; zb.
    + intros _. cbn. spl; try assumption; try lia; intros; brk; try discriminate; try lia; auto.
      all: first [split; [discriminate|apply H4; assumption] | right; left; discriminate].
    + cbv zeta. cbn [a_out a_kout w_tmo a_epoch a_rlim].
      destruct (negb (a_out s) && negb (a_kout s)) eqn:Eo.
      * zb. intros _. unfold set_keepalive_alarm. cbn.
        spl; try assumption; try lia; intros; brk; try discriminate; try congruence.
        -- left; lia.
        -- left; discriminate.
      * destruct (reached t (eadd (a_epoch s) (a_rlim s))) eqn:Er; [apply AB_ended; cbn; discriminate|].
        destruct (a_kout s) eqn:Ek; cbn [a_kout w_out w_tmo]; rewrite ?Ek.
        -- intros _. unfold send_keepalive, reschedule. cbn.
           spl; try assumption; try lia; intros; brk; try discriminate; try lia.
           ++ split; discriminate.
           ++ destruct (a_epoch s); lia.
           ++ specialize (H6 _ ltac:(eassumption)). destruct x; auto. destruct H6 as [|(k & ? & ?)]; [left; lia|right; exists k; split; [assumption|lia]].
           ++ right; left; discriminate.
           ++ destruct (a_out s && a_room s); brk; [lia|apply H10; assumption].
        -- intros _. cbn. rewrite Ek.
           spl; try assumption; try lia; intros; brk; try discriminate; try lia.
           ++ destruct (a_out s) eqn:Eo2; [|discriminate Eo]. cbn.
              destruct (a_room s); [right; right; left; discriminate|right; right; right; reflexivity].
           ++ destruct (a_out s && a_room s); brk; [lia|apply H10; assumption].
  - (* keepalive *)
    assert (HS : AB E t s) by (intros _; repeat match goal with |- _ /\ _ => split end; try assumption; lia).
    destruct (a_ktimer s) as [w|] eqn:Et; [|exact HS].
    destruct (reached t w) eqn:Ew; [|exact HS].
    unfold on_keepalive. destruct (reached t (eadd _ _)) eqn:Er.
    + intros _. unfold send_keepalive, reschedule. cbn.
      spl; try assumption; try lia; intros; brk; try discriminate; try lia.
      * destruct (a_tmo s) eqn:Et2; [|lia]. destruct (H2 _ eq_refl). destruct (_ <? _) eqn:Eb; zb; lia.
      * split; discriminate.
      * destruct (a_epoch s); lia.
      * right; left; discriminate.
    + intros _. cbn. spl; try assumption; try lia; intros; brk; try discriminate; try lia.
      * destruct (a_kper s) as [k|]; [|reflexivity]. right. exists k. split; [reflexivity|].
        destruct (a_resp s); lia.
      * left; discriminate.
  - (* idle *)
    assert (HS : AB E t s) by (intros _; repeat match goal with |- _ /\ _ => split end; try assumption; lia).
    destruct (a_itimer s) as [w|] eqn:Et; [|exact HS].
    destruct (reached t w) eqn:Ew; [|exact HS].
    unfold on_idle. destruct (negb _) eqn:Er.
    + intros _. cbn. spl; try assumption; try lia.
      destruct (a_ilim s) as [l|] eqn:El; eexists; (split; [reflexivity|]); cbn; auto.
      right. exists l. split; [reflexivity|lia].
    + destruct (Nat.eqb _ _); [apply AB_ended; cbn; discriminate|].
      intros _. cbn. spl; try assumption; try lia.
      destruct (a_ilim s) as [l|] eqn:El; eexists; (split; [reflexivity|]); cbn; auto.
      right. exists l. split; [reflexivity|lia].
  - intros _. cbn. spl; try assumption; try lia; intros; brk; eauto.
    + left; lia.
    + left; discriminate.
  - intros _. cbn. spl; try assumption; try lia; intros; brk; eauto.
  - intros _. cbn. spl; try assumption; try lia; intros; brk; eauto.
    eexists; split; [reflexivity|]. left; lia.
  - cbn in Hme. intros _. cbn. spl; try assumption; try lia.
  - intros _. cbn. spl; try assumption; try lia.
  - intros _; cbn; spl; try assumption; try lia.
  - apply AB_ended. cbn. discriminate.
Qed.

Lemma AB_run E es : forall t s, Forall (measured E) (map snd es) -> in_order t es -> AB E t s -> AB E (last_time t es) (arun s es).
Proof.
  induction es as [|(t', e) r IH]; intros t s Hm Ho H; [exact H|].
  cbn [map snd] in Hm. inversion Hm; subst. destruct Ho as (Hle & Ho).
  cbn [arun last_time fold_left fst]. apply IH; [assumption|assumption|].
  apply AB_step; [assumption|]. eapply AB_later; eauto.
Qed.
