(** A session that is given up had something unanswered for the whole time. *)
From Verif Require Import Base BaseFacts Alive AliveSpec AliveProofs AliveHist AlivePropProofs.

Definition outstanding (s : al) : Prop := a_out s = true \/ a_kout s = true.
Definition unanswered (s0 : al) (t0 : Z) (hist : list (Z * aev)) (x : Z) : Prop :=
  exists p q, hist = p ++ q /\ last_time t0 p <= x /\ outstanding (arun s0 p) /\ Forall (fun te => ~ answer (snd te)) q.

Definition KI (E D : Z) (s0 : al) (t0 : Z) (hist : list (Z * aev)) (s : al) : Prop :=
  a_end s = None -> forall x, a_epoch s = Some x ->
  unanswered s0 t0 hist (x + E + D) \/ (a_out s = false /\ a_kout s = false /\ exists w, a_tmo s = Some w /\ w <= a_tdead s /\ a_tdead s <= x + E).

Lemma arun_app s a b : arun s (a ++ b) = arun (arun s a) b.
Proof. revert s. induction a as [|(t, e) r IH]; intros s; [reflexivity|]. cbn. apply IH. Qed.
Lemma last_time_app t a b : last_time t (a ++ b) = last_time (last_time t a) b.
Proof. unfold last_time. apply fold_left_app. Qed.

Lemma unanswered_more s0 t0 hist x te : unanswered s0 t0 hist x -> ~ answer (snd te) -> unanswered s0 t0 (hist ++ [te]) x.
Proof.
  intros (p & q & -> & H1 & H2 & H3) H. exists p, (q ++ [te]). rewrite app_assoc. repeat split; try assumption.
  apply Forall_app. split; [assumption|]. constructor; [assumption|constructor].
Qed.
Lemma unanswered_now s0 t0 hist now e x : now <= x -> outstanding (arun s0 (hist ++ [(now, e)])) -> unanswered s0 t0 (hist ++ [(now, e)]) x.
Proof.
  intros Hx Ho. exists (hist ++ [(now, e)]), []. rewrite app_nil_r. repeat split; try assumption.
  - rewrite last_time_app. exact Hx.
  - constructor.
Qed.

Lemma KI_step E D s0 t0 hist now e : 0 <= E -> 0 <= D -> last_time t0 hist <= now -> measured E e ->
  let s := arun s0 hist in
  AB E (last_time t0 hist) s -> due D now s -> KI E D s0 t0 hist s -> KI E D s0 t0 (hist ++ [(now, e)]) (astep s now e).
Proof.
  intros HE HD Hle Hme s HA Hdue HK Ho.
  assert (Hs : a_end s = None). { unfold astep in Ho. destruct (a_end s) eqn:Es; [congruence|reflexivity]. }
  destruct (HA Hs) as (H1 & H2 & H3 & H4 & H5 & _). specialize (HK Hs).
  destruct Hdue as (Hd1 & _).
  assert (Hrun : arun s0 (hist ++ [(now, e)]) = astep s now e) by (rewrite arun_app; reflexivity).
  (* an event that is no answer and changes neither what is in flight nor the alarm *)
  assert (Hkeep : ~ answer e -> forall s', (a_epoch s' = a_epoch s \/ a_epoch s' = None) -> a_out s' = a_out s -> a_kout s' = a_kout s -> a_tdead s' = a_tdead s ->
            (a_tmo s' = a_tmo s \/ a_tmo s' = Some (a_tdead s)) ->
            forall x, a_epoch s' = Some x ->
            unanswered s0 t0 (hist ++ [(now, e)]) (x + E + D) \/ (a_out s' = false /\ a_kout s' = false /\ exists w, a_tmo s' = Some w /\ w <= a_tdead s' /\ a_tdead s' <= x + E)).
  { intros Hna s' [E1|E1] E2 E3 E4 E5 x Hx; rewrite E1 in Hx; [|discriminate].
    destruct (HK _ Hx) as [Hl|(K1 & K2 & w & K3 & K4 & K5)]; [left; apply unanswered_more; assumption|].
    right. rewrite E2, E3, E4. repeat split; try assumption. destruct E5 as [-> | ->]; eauto. exists (a_tdead s). repeat split; auto; lia. }
  (* an event that sends *)
  assert (Hsend : ~ answer e -> outstanding (astep s now e) -> a_epoch (astep s now e) = Some (match a_epoch s with Some x => Z.min x now | None => now end) ->
            forall x, a_epoch (astep s now e) = Some x -> unanswered s0 t0 (hist ++ [(now, e)]) (x + E + D)).
  { intros Hna Hout Hep x Hx. rewrite Hep in Hx. destruct (a_epoch s) as [y|] eqn:Ey; injection Hx as <-.
    - specialize (H5 _ eq_refl). replace (Z.min y now) with y by lia.
      destruct (HK _ eq_refl) as [Hl|(K1 & K2 & w & K3 & K4 & K5)]; [apply unanswered_more; assumption|].
      apply unanswered_now; [|rewrite Hrun; assumption]. specialize (Hd1 _ K3). lia.
    - apply unanswered_now; [lia|rewrite Hrun; assumption]. }
  unfold KI. revert Ho Hrun Hsend. unfold astep. rewrite Hs. intros Ho Hrun Hsend.
  destruct e; cbn [answer] in *.
  - intros x Hx. left. apply Hsend; cbn; auto. left; reflexivity.
  - apply Hkeep; cbn; auto.
  - (* ack *) cbn. intros x Hx. injection Hx as <-. destruct (a_out s && more) eqn:Em.
    + left. apply unanswered_now; [lia|]. rewrite Hrun. left. cbn. first [exact Em | reflexivity].
    + right. repeat split; auto. eexists. split; [reflexivity|]. split; [|lia].
      destruct (a_tmo s) as [w|] eqn:Et; [|lia]. destruct (H2 _ eq_refl). destruct (_ <? _) eqn:Eb; zb; lia.
  - cbn. intros; discriminate.
  - apply Hkeep; cbn; auto.
  - destruct (a_tmo s) as [w|] eqn:Et; [|apply Hkeep; auto].
    destruct (w <=? now); [|apply Hkeep; auto].
    unfold on_timeout in *. destruct (now <? a_tdead s); [apply Hkeep; cbn; auto|].
    cbv zeta in *. cbn [a_out a_kout w_tmo a_epoch a_rlim] in *.
    destruct (negb (a_out s) && negb (a_kout s)) eqn:Eo; [cbn; intros; discriminate|].
    destruct (reached _ _); [discriminate Ho|].
    cbn [a_kout w_out w_tmo] in *. destruct (a_kout s) eqn:Ek.
    + intros x Hx. left. apply Hsend; cbn; auto. right; reflexivity.
    + intros x Hx. left. cbn in Hx. destruct (HK _ Hx) as [Hl|(K1 & K2 & _)]; [apply unanswered_more; auto|].
      rewrite K1 in Eo. discriminate.
  - destruct (a_ktimer s) as [w|]; [|apply Hkeep; auto].
    destruct (reached now w); [|apply Hkeep; auto].
    unfold on_keepalive in *. destruct (reached _ _); [|apply Hkeep; cbn; auto].
    intros x Hx. left. apply Hsend; cbn; auto. right; reflexivity.
  - destruct (a_itimer s) as [w|]; [|apply Hkeep; auto].
    destruct (reached now w); [|apply Hkeep; auto].
    unfold on_idle in *. destruct (negb _); [apply Hkeep; cbn; auto|].
    destruct (Nat.eqb _ _); [discriminate Ho|]. apply Hkeep; cbn; auto.
  - apply Hkeep; cbn; auto.
  - apply Hkeep; cbn; auto.
  - apply Hkeep; cbn; auto.
  - apply Hkeep; cbn; auto.
  - apply Hkeep; cbn; auto.
  - apply Hkeep; cbn; auto.
  - discriminate Ho.
Qed.

Lemma punctual_app D s a b : punctual D s (a ++ b) <-> punctual D s a /\ punctual D (arun s a) b.
Proof. revert s. induction a as [|(t, e) r IH]; intros s; [cbn; tauto|]. cbn [app punctual arun]. rewrite IH. tauto. Qed.

Lemma KI_run E D s0 t0 : 0 <= E -> 0 <= D -> AB E t0 s0 -> a_epoch s0 = None -> forall es,
  in_order t0 es -> Forall (measured E) (map snd es) -> punctual D s0 es -> KI E D s0 t0 es (arun s0 es).
Proof.
  intros HE HD HA H0 es. induction es as [|(t, e) r IH] using rev_ind; intros Hord Hm Hp.
  - intros _ x Hx. cbn in Hx. congruence.
  - apply in_order_app in Hord as (Ho1 & Ho2). rewrite map_app in Hm. apply Forall_app in Hm as (Hm1 & Hm2). apply punctual_app in Hp as (Hp1 & Hp2).
    cbn in Ho2, Hp2. inversion Hm2; subst. rewrite arun_app. cbn [arun].
    apply KI_step; try assumption; try tauto.
    apply AB_run; assumption.
Qed.

Lemma dead_unanswered E D t0 resp rl kp il m x es t e :
  0 <= m <= E -> 0 <= x <= E -> 0 <= D ->
  in_order t0 es -> last_time t0 es <= t -> Forall (measured E) (map snd es) ->
  let s0 := open_session t0 resp rl kp il m x in
  punctual D s0 es ->
  a_end (arun s0 es) = None -> a_end (astep (arun s0 es) t e) = Some Dead ->
  exists p q l, es = p ++ q /\ a_rlim (arun s0 es) = Some l
    /\ last_time t0 p + l <= t + E + D /\ (a_out (arun s0 p) = true \/ a_kout (arun s0 p) = true)
    /\ Forall (fun te => ~ answer (snd te)) q.
Proof.
  intros Hm Hx HD Hord Hlt Hme s0 Hp Ho Hd.
  pose proof (KI_run E D s0 t0 ltac:(lia) HD (AB_open E t0 resp rl kp il m x Hm Hx) eq_refl es Hord Hme Hp Ho) as HK.
  set (s := arun s0 es) in *. unfold astep in Hd. rewrite Ho in Hd.
  destruct e; cbn in Hd; try congruence.
  - destruct (a_tmo s) as [w|]; [|congruence]. destruct (w <=? t); [|congruence].
    unfold on_timeout in Hd. destruct (t <? a_tdead s) eqn:Ed; [cbn in Hd; congruence|]. zb.
    cbv zeta in Hd. cbn [a_out a_kout w_tmo a_epoch a_rlim] in Hd.
    destruct (negb (a_out s) && negb (a_kout s)) eqn:Eo; [cbn in Hd; congruence|].
    destruct (reached t (eadd (a_epoch s) (a_rlim s))) eqn:Er.
    + destruct (a_epoch s) as [y|] eqn:Ey; [|discriminate]. destruct (a_rlim s) as [l|] eqn:El; [|discriminate].
      cbn in Er. zb. destruct (HK _ eq_refl) as [(p & q & Hes & Hpt & Hout & Hq)|(K1 & K2 & _)].
      * exists p, q, l. repeat split; try assumption. lia.
      * rewrite K1, K2 in Eo. discriminate.
    + cbn [a_kout w_out w_tmo] in Hd. destruct (a_kout s); cbn in Hd; congruence.
  - destruct (a_ktimer s) as [w|]; [|congruence]. destruct (reached t w); [|congruence].
    unfold on_keepalive in Hd. destruct (reached _ _); cbn in Hd; congruence.
  - destruct (a_itimer s) as [w|]; [|congruence]. destruct (reached t w); [|congruence].
    unfold on_idle in Hd. destruct (negb _); [cbn in Hd; congruence|]. destruct (Nat.eqb _ _); cbn in Hd; congruence.
Qed.
