(** Proofs about the redirector's tables and the choice of targets. *)
From Coq Require Import Permutation Sorted.
From Verif Require Import Base BaseFacts VLU VLUSpec VLUProofs Address AddressSpec AddressProofs Redir RedirSrv RedirSpec RedirProofs.
Open Scope res_scope.

(** ** Messages *)
Lemma settings_loop_defined : forall fuel l refl addrs, bytes_ok l -> (length l < fuel)%nat -> Forall addr_ok addrs ->
  exists r, settings_loop fuel l refl addrs = Ok r /\ match r with Some (_, a) => Forall addr_ok a | None => True end.
Proof.
  induction fuel as [|fuel IH]; intros l refl addrs B L FA; [lia|]. cbn [settings_loop]. destruct l as [|b l0] eqn:EL.
  { eexists. split; [reflexivity|]. exact FA. }
  rewrite <- EL in *.
  destruct (option_parse l) as [[[ty v] n]| |] eqn:EP; [| |exfalso; apply (option_parse_no_UB _ B EP)].
  - destruct (option_parse_bounds _ _ _ _ B EP) as [N [_ [Lc [p [rest [EQ [_ [_ [_ PV]]]]]]]]].
    assert (BS : bytes_ok (skipn n l)) by (apply bytes_ok_skipn; exact B).
    assert (LS : (length (skipn n l) < fuel)%nat) by (rewrite skipn_length; lia).
    destruct v as [v|]; [|apply IH; assumption].
    destruct (ty =? SETTINGS_OPT_INCLUDE_REFLEXIVE); [apply IH; assumption|].
    destruct (ty =? SETTINGS_OPT_ADD_ADDRESS); [|apply IH; assumption].
    assert (BV : bytes_ok v).
    { destruct PV as [T [_ [EPV _]]]. rewrite EQ in B. apply bytes_ok_app in B. destruct B as [_ B]. apply bytes_ok_app in B. destruct B as [B _]. rewrite EPV in B. apply bytes_ok_app in B. apply B. }
    destruct (decode_exact addr_erased v BV) as [ND [DE _]].
    destruct (addr_decode addr_erased v) as [[a m]| |] eqn:ED; [| |congruence].
    + destruct (proj1 (DE a m) eq_refl) as [f [w [rs [_ [AO _]]]]]. apply IH; try assumption. apply Forall_app. split; [exact FA|]. constructor; [exact AO|constructor].
    + eexists. split; [reflexivity|]. exact I.
  - eexists. split; [reflexivity|]. exact I.
Qed.

Section Srv.
Variable hmac : list Z -> list Z -> list Z.
Variable pw : list (list Z * list Z).

(** What a client record keeps: addresses are addresses. *)
Definition scl_ok (s : scl) : Prop := Forall addr_ok (s_addrs s) /\ addr_ok (s_far s).
(** What a message changes. *)
Definition msg_rel (s s' : scl) (e : effect) (bytes : list Z) : Prop :=
  scl_ok s' /\ s_fp s' = s_fp s /\ s_nonce s' = s_nonce s /\ s_recv s' = s_recv s /\ s_far s' = s_far s
  /\ (s_auth s = true -> s_auth s' = true)
  /\ (s_auth s = false -> s_auth s' = true -> exists k p, knows pw k p /\ exists md, bytes = CMD_SIMPLE_AUTH :: md ++ k /\ length md = 32%nat /\ memcmp (hmac p (s_nonce s)) md = 0)
  /\ (s_auth s = false -> e = Nothing \/ e = CloseLater)
  /\ (s_auth s = false -> s_addrs s' = s_addrs s /\ s_refl s' = s_refl s /\ s_load s' = s_load s /\ s_send s' = s_send s)
  /\ (e = CloseLater -> s_held s' = true \/ s_recv s = false).

Lemma ensure_return_same : forall s, s_fp (ensure_return s) = s_fp s /\ s_nonce (ensure_return s) = s_nonce s /\ s_recv (ensure_return s) = s_recv s
  /\ s_far (ensure_return s) = s_far s /\ s_auth (ensure_return s) = s_auth s /\ s_addrs (ensure_return s) = s_addrs s.
Proof. intros s. unfold ensure_return, send_reflexive, v_send. destruct (s_recv s && negb (s_send s)); cbn; auto 10. Qed.

Lemma on_msg_fine : forall s bytes, scl_ok s -> bytes_ok bytes -> exists s' e, on_msg hmac pw s bytes = Ok (s', e) /\ msg_rel s s' e bytes.
Proof.
  intros s bytes [OA OF] B.
  assert (REFL : forall b, msg_rel s s Nothing b).
  { intros b. unfold msg_rel, scl_ok. spl; auto; try discriminate. intros; congruence. }
  assert (DC : forall b, msg_rel s (fst (delay_close s)) CloseLater b).
  { intros b. unfold msg_rel, scl_ok, delay_close, v_held. cbn [fst]. destruct (s_recv s) eqn:ER; cbn; spl; auto; intros; congruence. }
  assert (ENS : forall s1 b e, s_auth s = true -> e <> CloseLater -> s_fp s1 = s_fp s -> s_nonce s1 = s_nonce s -> s_recv s1 = s_recv s -> s_far s1 = s_far s -> s_auth s1 = true -> Forall addr_ok (s_addrs s1) -> msg_rel s (ensure_return s1) e b).
  { intros s1 b e A NE E1 E2 E3 E4 E5 E6. destruct (ensure_return_same s1) as [G1 [G2 [G3 [G4 [G5 G6]]]]]. unfold msg_rel, scl_ok.
    rewrite G1, G2, G3, G4, G5, G6. spl; try congruence; try assumption; try (intros; congruence). }
  destruct bytes as [|cmd cursor]; cbn [on_msg]; [do 2 eexists; split; [reflexivity|]; apply REFL|].
  destruct (negb (s_auth s) && negb (cmd =? CMD_SIMPLE_AUTH)) eqn:EG.
  { do 2 eexists. split; [unfold delay_close; reflexivity|]. apply (DC (cmd :: cursor)). }
  inversion B as [|? ? BC BR]; subst.
  destruct (Z.eqb_spec cmd CMD_SIMPLE_AUTH) as [EC|NC].
  { unfold on_simple_auth. destruct (Nat.ltb_spec (length cursor) 32) as [LT|GE]; [do 2 eexists; split; [reflexivity|]; apply REFL|].
    destruct (lookup (skipn 32 cursor) pw) as [p|] eqn:EK; [|do 2 eexists; split; [reflexivity|]; apply REFL].
    destruct (Z.eqb_spec (memcmp (hmac p (s_nonce s)) (firstn 32 cursor)) 0) as [EM|NM].
    - do 2 eexists. split; [reflexivity|]. unfold msg_rel, scl_ok, v_auth. cbn. spl; auto; try discriminate.
      intros _ _. exists (skipn 32 cursor), p. split; [exact EK|]. exists (firstn 32 cursor). spl.
      + rewrite EC, firstn_skipn. reflexivity.
      + rewrite firstn_length. lia.
      + exact EM.
    - do 2 eexists. split; [unfold delay_close; reflexivity|]. apply (DC (cmd :: cursor)). }
  assert (AU : s_auth s = true).
  { destruct (s_auth s); [reflexivity|]. cbn in EG. replace (cmd =? CMD_SIMPLE_AUTH) with false in EG by (symmetry; apply Z.eqb_neq; exact NC). discriminate. }
  destruct (cmd =? CMD_SETTINGS).
  { unfold on_settings. destruct (settings_loop_defined (S (length cursor)) cursor false [] BR ltac:(lia) ltac:(constructor)) as [r [E RO]]. rewrite E. cbn [rbind].
    destruct r as [[refl addrs]|].
    - do 2 eexists. split; [reflexivity|]. apply ENS; try reflexivity; try assumption. discriminate.
    - do 2 eexists. split; [reflexivity|]. unfold msg_rel, scl_ok, v_set. cbn. spl; auto; try congruence; try discriminate. }
  destruct (cmd =? CMD_DRAINING); [do 2 eexists; split; [reflexivity|]; apply ENS; try reflexivity; try assumption; discriminate|].
  destruct (cmd =? CMD_LOAD_FACTOR).
  { unfold on_load_factor. destruct (vlu_parse_spec cursor BR) as [[_ ->]|[pre [rest [_ [_ ->]]]]].
    - do 2 eexists. split; [reflexivity|]. unfold msg_rel, scl_ok. spl; auto; try congruence; try discriminate.
    - do 2 eexists. split; [reflexivity|]. apply ENS; try reflexivity; try assumption. discriminate. }
  destruct (cmd =? CMD_USER_DATA); [do 2 eexists; split; [reflexivity|]; apply ENS; try reflexivity; try assumption; discriminate|].
  do 2 eexists. split; [reflexivity|]. apply REFL.
Qed.

(** ** The tables *)
Lemma upd_nth : forall l i s j, (i < length l)%nat -> nth_error (upd l i s) j = if Nat.eqb i j then Some s else nth_error l j.
Proof.
  induction l as [|x l IH]; intros [|i] s [|j] L; cbn [length] in L; try lia; try reflexivity.
  change (upd (x :: l) (S i) s) with (x :: upd l i s). cbn [nth_error Nat.eqb]. apply IH. lia.
Qed.
Lemma upd_length : forall l i s, length (upd l i s) = length l.
Proof.
  induction l as [|x l IH]; intros [|i] s; try reflexivity. change (upd (x :: l) (S i) s) with (x :: upd l i s). cbn [length]. rewrite IH. reflexivity.
Qed.
Lemma act_remove_in : forall i l j, In j (act_remove i l) <-> In j l /\ j <> i.
Proof.
  intros i l j. unfold act_remove. rewrite filter_In, negb_true_iff, Nat.eqb_neq. intuition congruence.
Qed.
Lemma NoDup_filter' : forall A (f : A -> bool) l, NoDup l -> NoDup (filter f l).
Proof.
  intros A f l N. induction N as [|x l NI N IH]; cbn [filter]; [constructor|]. destruct (f x); [|exact IH]. constructor; [|exact IH].
  intros I. apply filter_In in I. tauto.
Qed.
Lemma peers_erase_in : forall fp m x, In x (peers_erase fp m) <-> In x m /\ fst x <> fp.
Proof.
  intros fp m x. unfold peers_erase. rewrite filter_In. rewrite negb_true_iff. split.
  - intros [I E]. split; [exact I|]. intros EQ. rewrite EQ in E. assert (T : bytes_eqb fp fp = true) by (apply bytes_eqb_eq; reflexivity). congruence.
  - intros [I N]. split; [exact I|]. destruct (bytes_eqb fp (fst x)) eqn:E; [|reflexivity]. apply bytes_eqb_eq in E. congruence.
Qed.
Lemma peers_find_in : forall fp m i, peers_find fp m = Some i -> In (fp, i) m.
Proof.
  induction m as [|[k j] m IH]; intros i E; cbn [peers_find] in E; [discriminate|]. destruct (bytes_eqb fp k) eqn:EK.
  - apply bytes_eqb_eq in EK. injection E as ->. subst k. left. reflexivity.
  - right. apply IH. exact E.
Qed.
Lemma peers_find_erase_other : forall fp fp' m, fp <> fp' -> peers_find fp (peers_erase fp' m) = peers_find fp m.
Proof.
  intros fp fp' m N. induction m as [|[k j] m IH]; cbn [peers_erase filter peers_find fst]; [reflexivity|].
  destruct (bytes_eqb fp' k) eqn:E1; cbn [negb].
  - apply bytes_eqb_eq in E1. subst k. replace (bytes_eqb fp fp') with false; [exact IH|].
    symmetry. destruct (bytes_eqb fp fp') eqn:E; [apply bytes_eqb_eq in E; contradiction | reflexivity].
  - cbn [peers_find]. destruct (bytes_eqb fp k); [reflexivity|exact IH].
Qed.

Record SINV (v : srv) : Prop := {
  V_nodup : NoDup (v_active v);
  V_act : forall i, In i (v_active v) -> trusted v i;
  V_peers : forall fp i, In (fp, i) (v_peers v) -> trusted v i /\ exists s, nth_error (v_cls v) i = Some s /\ s_fp s = fp;
  V_ok : Forall scl_ok (v_cls v);
  V_find : NoDup (map s_fp (v_cls v)) -> forall i s, In i (v_active v) -> nth_error (v_cls v) i = Some s -> peers_find (s_fp s) (v_peers v) = Some i }.

Lemma nth_upd_some : forall l i s0 s j, nth_error l i = Some s0 -> nth_error (upd l i s) j = if Nat.eqb i j then Some s else nth_error l j.
Proof. intros l i s0 s j E. apply upd_nth. apply nth_error_Some. congruence. Qed.
Lemma fps_upd : forall l i s0 s, nth_error l i = Some s0 -> s_fp s = s_fp s0 -> map s_fp (upd l i s) = map s_fp l.
Proof.
  induction l as [|x l IH]; intros [|i] s0 s E F; try discriminate; cbn [nth_error] in E.
  - injection E as ->. unfold upd. cbn [firstn skipn app map]. rewrite F. reflexivity.
  - change (upd (x :: l) (S i) s) with (x :: upd l i s). cbn [map]. rewrite (IH i s0 s E F). reflexivity.
Qed.
Lemma ok_upd : forall l i s, Forall scl_ok l -> scl_ok s -> Forall scl_ok (upd l i s).
Proof.
  induction l as [|x l IH]; intros [|i] s F O; try (unfold upd; cbn [firstn skipn app]; constructor; fail); inversion F; subst.
  - unfold upd. cbn [firstn skipn app]. constructor; assumption.
  - change (upd (x :: l) (S i) s) with (x :: upd l i s). constructor; auto.
Qed.
Lemma nodup_fp : forall l i j s s', NoDup (map s_fp l) -> nth_error l i = Some s -> nth_error l j = Some s' -> s_fp s = s_fp s' -> i = j.
Proof.
  intros l i j s s' ND E1 E2 F.
  apply (proj1 (NoDup_nth_error (map s_fp l)) ND).
  - rewrite map_length. apply nth_error_Some. congruence.
  - rewrite (map_nth_error s_fp _ _ E1), (map_nth_error s_fp _ _ E2), F. reflexivity.
Qed.

(** Replacing a client's record by one that keeps its identity and standing. *)
Lemma inv_upd : forall v i s0 s, SINV v -> nth_error (v_cls v) i = Some s0 -> s_fp s = s_fp s0 -> s_recv s = s_recv s0 ->
  (s_auth s0 = true -> s_auth s = true) -> scl_ok s -> SINV (mkSrv (upd (v_cls v) i s) (v_active v) (v_peers v)).
Proof.
  intros v i s0 s [ND AC PE OK FI] E F R A O.
  assert (TR : forall j, trusted v j -> trusted (mkSrv (upd (v_cls v) i s) (v_active v) (v_peers v)) j).
  { intros j [sj [Ej [Rj Aj]]]. unfold trusted. cbn [v_cls]. rewrite (nth_upd_some _ _ _ s j E). destruct (Nat.eqb_spec i j) as [EQ|N]; subst.
    - exists s. assert (sj = s0) by congruence. subst sj. spl; auto. congruence.
    - exists sj. auto. }
  constructor; cbn [v_active v_peers v_cls]; try assumption.
  - intros j I. apply TR, AC, I.
  - intros fp j I. destruct (PE fp j I) as [T [sj [Ej Fj]]]. split; [apply TR, T|]. rewrite (nth_upd_some _ _ _ s j E).
    destruct (Nat.eqb_spec i j) as [EQ|N]; subst; [|eauto]. exists s. split; [reflexivity|]. assert (sj = s0) by congruence. subst. exact F.
  - apply ok_upd; assumption.
  - intros N j sj I Ej. rewrite (fps_upd _ _ _ _ E F) in N. rewrite (nth_upd_some _ _ _ s j E) in Ej.
    destruct (Nat.eqb_spec i j) as [EQ|NE]; subst; [|apply FI; assumption]. injection Ej as <-. rewrite F. apply FI; assumption.
Qed.

Lemma trusted_same : forall v v' i, v_cls v' = v_cls v -> trusted v i -> trusted v' i.
Proof. intros v v' i E [s H]. exists s. rewrite E. exact H. Qed.

Lemma close_fine : forall v i, SINV v -> SINV (srv_close v i).
Proof.
  intros v i S. unfold srv_close. destruct (nth_error (v_cls v) i) as [s|] eqn:E; [|exact S]. destruct S as [ND AC PE OK FI].
  assert (TR : forall j, j <> i -> trusted v j -> trusted (mkSrv (upd (v_cls v) i (close_scl s)) (act_remove i (v_active v)) (peers_erase (s_fp s) (v_peers v))) j).
  { intros j N [sj [Ej H]]. exists sj. cbn [v_cls]. rewrite (nth_upd_some _ _ _ (close_scl s) j E). destruct (Nat.eqb_spec i j); [congruence|auto]. }
  constructor; cbn [v_active v_peers v_cls].
  - apply NoDup_filter'. exact ND.
  - intros j I. apply act_remove_in in I. apply TR; [tauto | apply AC; tauto].
  - intros fp j I. apply peers_erase_in in I. destruct I as [I N]. cbn [fst] in N. destruct (PE fp j I) as [T [sj [Ej Fj]]].
    assert (j <> i) by (intros ->; congruence). split; [apply TR; assumption|]. exists sj. rewrite (nth_upd_some _ _ _ (close_scl s) j E). destruct (Nat.eqb_spec i j); [congruence|auto].
  - apply ok_upd; [exact OK|]. rewrite Forall_forall in OK. apply (OK s). eapply nth_error_In. exact E.
  - intros N j sj I Ej. rewrite (fps_upd _ _ s _ E) in N by reflexivity. apply act_remove_in in I. destruct I as [I NE].
    rewrite (nth_upd_some _ _ _ (close_scl s) j E) in Ej. destruct (Nat.eqb_spec i j); [congruence|].
    rewrite peers_find_erase_other; [apply FI; assumption|]. intros F. apply NE. eapply nodup_fp; eassumption.
Qed.

Lemma is_active_spec : forall v i, is_active v i = true <-> In i (v_active v).
Proof.
  intros v i. unfold is_active. rewrite existsb_exists. split; [intros [x [I E]]; apply Nat.eqb_eq in E; congruence | intros I; exists i; split; [exact I | apply Nat.eqb_refl]].
Qed.

Lemma message_fine : forall v i bytes, SINV v -> bytes_ok bytes -> exists v', srv_message hmac pw v i bytes = Ok v' /\ SINV v'.
Proof.
  intros v i bytes S B. unfold srv_message. destruct (nth_error (v_cls v) i) as [s|] eqn:E; [|exists v; auto].
  destruct (s_recv s) eqn:ER; [|exists v; auto]. destruct (s_held s); cbn [negb andb]; [exists v; auto|].
  assert (OS : scl_ok s) by (pose proof (V_ok _ S) as F; rewrite Forall_forall in F; apply F; eapply nth_error_In; exact E).
  destruct (on_msg_fine s bytes OS B) as [s' [e [EM [O' [F' [_ [R' [FAR [A' [_ [NE _]]]]]]]]]]]. rewrite EM. cbn [rbind].
  set (v1 := mkSrv (upd (v_cls v) i s') (v_active v) (v_peers v)).
  assert (S1 : SINV v1) by (eapply inv_upd; eassumption).
  assert (E1 : nth_error (v_cls v1) i = Some s') by (unfold v1; cbn [v_cls]; rewrite (nth_upd_some _ _ _ s' i E), Nat.eqb_refl; reflexivity).
  destruct e.
  - exists v1. auto.
  - (* register *)
    destruct (is_active v1 i) eqn:IA; [exists v1; auto|]. eexists. split; [reflexivity|].
    assert (NI : ~ In i (v_active v1)) by (intros I; apply is_active_spec in I; congruence).
    assert (TI : trusted v1 i). { exists s'. spl; [exact E1 | congruence |]. destruct (s_auth s) eqn:EA; [apply A'; reflexivity|]. destruct (NE eq_refl); discriminate. }
    destruct S1 as [ND AC PE OK FI]. constructor; cbn [v_active v_peers v_cls].
    + constructor; assumption.
    + intros j [<-|I]; [eapply trusted_same; [|exact TI]; reflexivity | eapply trusted_same; [|apply AC; exact I]; reflexivity].
    + intros fp j [EQ|I].
      * injection EQ as <- <-. split; [eapply trusted_same; [|exact TI]; reflexivity|]. exists s'. auto.
      * apply peers_erase_in in I. destruct I as [I _]. destruct (PE fp j I) as [T X]. split; [eapply trusted_same; [|exact T]; reflexivity | exact X].
    + exact OK.
    + intros N j sj [<-|I] Ej; unfold peers_set; cbn [peers_find].
      * change (nth_error (v_cls v1) i = Some sj) in Ej. assert (sj = s') by congruence. subst sj.
        replace (bytes_eqb (s_fp s') (s_fp s')) with true; [reflexivity | symmetry; apply bytes_eqb_eq; reflexivity].
      * destruct (bytes_eqb (s_fp sj) (s_fp s')) eqn:EB.
        { apply bytes_eqb_eq in EB. contradiction NI. rewrite (nodup_fp _ _ _ _ _ N E1 Ej (eq_sym EB)). exact I. }
        change (peers_find (s_fp sj) (peers_erase (s_fp s') (v_peers v1)) = Some j). rewrite peers_find_erase_other; [apply FI; assumption|].
        intros X. rewrite X in EB. assert (T : bytes_eqb (s_fp s') (s_fp s') = true) by (apply bytes_eqb_eq; reflexivity). congruence.
  - (* drain *)
    eexists. split; [reflexivity|]. destruct S1 as [ND AC PE OK FI]. constructor; cbn [v_active v_peers v_cls]; try assumption.
    + apply NoDup_filter'. exact ND.
    + intros j I. apply act_remove_in in I. eapply trusted_same; [|apply AC; apply I]. reflexivity.
    + intros N j sj I Ej. apply act_remove_in in I. apply FI; [exact N | apply I | exact Ej].
  - exists (srv_close v1 i). split; [reflexivity|]. apply close_fine. exact S1.
  - exists v1. auto.
Qed.

(** ** Choosing targets *)
Lemma take_targets_eq : forall k l, (k <= length l)%nat -> take_targets k l = (firstn k l, skipn k l ++ firstn k l).
Proof.
  induction k as [|k IH]; intros l L; cbn [take_targets].
  - destruct l; cbn [firstn skipn]; rewrite app_nil_r; reflexivity.
  - destruct l as [|x r]; [cbn in L; lia|]. cbn [length] in L. rewrite IH by (rewrite app_length; cbn; lia).
    rewrite firstn_app, skipn_app. replace (k - length r)%nat with 0%nat by lia. cbn [firstn skipn]. rewrite app_nil_r, <- app_assoc. reflexivity.
Qed.
Lemma take_perm : forall k l, (k <= length l)%nat -> Permutation (snd (take_targets k l)) l.
Proof. intros k l L. rewrite take_targets_eq by exact L. cbn [snd]. rewrite <- (firstn_skipn k l) at 3. apply Permutation_app_comm. Qed.
Lemma take_in : forall k l x, (k <= length l)%nat -> In x (fst (take_targets k l)) -> In x l.
Proof. intros k l x L. rewrite take_targets_eq by exact L. cbn [fst]. intros I. rewrite <- (firstn_skipn k l). apply in_or_app. left. exact I. Qed.
Lemma sort_insert_perm : forall v i l, Permutation (i :: l) (sort_insert v i l).
Proof.
  induction l as [|j l IH]; cbn [sort_insert]; [apply Permutation_refl|]. destruct (load_of v i <=? load_of v j); [apply Permutation_refl|].
  eapply perm_trans; [apply perm_swap|]. constructor. exact IH.
Qed.
Lemma stable_sort_perm : forall v l, Permutation l (stable_sort v l).
Proof. induction l as [|i l IH]; cbn [stable_sort]; [constructor|]. eapply perm_trans; [constructor; exact IH | apply sort_insert_perm]. Qed.
Definition load_le (v : srv) (i j : nat) : Prop := load_of v i <= load_of v j.
Lemma sort_insert_sorted : forall v i l, StronglySorted (load_le v) l -> StronglySorted (load_le v) (sort_insert v i l).
Proof.
  intros v i l S. induction S as [|j l S IH F]; cbn [sort_insert]; [constructor; [constructor|constructor]|].
  destruct (Z.leb_spec (load_of v i) (load_of v j)) as [L|L].
  - constructor; [constructor; assumption|]. constructor; [exact L|]. eapply Forall_impl; [|exact F]. unfold load_le. intros; lia.
  - constructor; [exact IH|]. assert (P := sort_insert_perm v i l). rewrite Forall_forall. intros x I. apply (Permutation_in _ (Permutation_sym P)) in I.
    destruct I as [<-|I]; [unfold load_le; lia|]. rewrite Forall_forall in F. apply F. exact I.
Qed.
Lemma stable_sort_sorted : forall v l, StronglySorted (load_le v) (stable_sort v l).
Proof. induction l as [|i l IH]; cbn [stable_sort]; [constructor|]. apply sort_insert_sorted. exact IH. Qed.

(** Fair shares: the list is those that were chosen [c] times, then those chosen once more. *)
Definition shares (cnt : nat -> nat) (l : list nat) : Prop :=
  exists c A B, l = A ++ B /\ (forall x, In x A -> cnt x = c) /\ (forall x, In x B -> cnt x = S c).
Lemma shares_take : forall k l cnt, NoDup l -> shares cnt l -> (k <= length l)%nat ->
  shares (fun x => cnt x + times x (fst (take_targets k l)))%nat (snd (take_targets k l)).
Proof.
  induction k as [|k IH]; intros l cnt ND SH L.
  { destruct l; cbn [take_targets fst snd times count_occ]; destruct SH as [c [A [B [E [HA HB]]]]]; exists c, A, B; spl; try assumption; intros x I; rewrite Nat.add_0_r; auto. }
  destruct l as [|x r]; [cbn in L; lia|]. cbn [take_targets].
  assert (ND' : NoDup (r ++ [x])). { apply (Permutation_NoDup (l := x :: r)); [|exact ND]. apply Permutation_cons_append. }
  assert (SH' : shares (fun y => (cnt y + (if Nat.eq_dec x y then 1 else 0))%nat) (r ++ [x])).
  { assert (NX : forall y, In y r -> y <> x) by (intros y I ->; inversion ND; contradiction).
    destruct SH as [c [A [B [E [HA HB]]]]]. destruct A as [|a A]; cbn [app] in E.
    - (* everybody has had one more: the round is over *)
      exists (S c), r, [x]. spl; [reflexivity | |].
      + intros y I. destruct (Nat.eq_dec x y) as [EQ|N]; [exfalso; apply (NX y I); auto|]. rewrite Nat.add_0_r. apply HB. rewrite <- E. right. exact I.
      + intros y [<-|[]]. destruct (Nat.eq_dec x x); [|congruence]. rewrite (HB x) by (rewrite <- E; left; reflexivity). lia.
    - injection E as -> ->. exists c, A, (B ++ [a]). spl; [rewrite app_assoc; reflexivity | |].
      + intros y I. destruct (Nat.eq_dec a y) as [EQ|N]; [exfalso; apply (NX y); [apply in_or_app; left; exact I | auto]|]. rewrite Nat.add_0_r. apply HA. right. exact I.
      + intros y I. apply in_app_or in I. destruct I as [I|[<-|[]]].
        * destruct (Nat.eq_dec a y) as [EQ|N]; [exfalso; apply (NX y); [apply in_or_app; right; exact I | auto]|]. rewrite Nat.add_0_r. apply HB. exact I.
        * destruct (Nat.eq_dec a a); [|congruence]. rewrite (HA a) by (left; reflexivity). lia. }
  specialize (IH (r ++ [x]) _ ND' SH' ltac:(rewrite app_length; cbn in *; lia)).
  destruct (take_targets k (r ++ [x])) as [found l'] eqn:ET. cbn [fst snd] in *.
  destruct IH as [c [A [B [E [HA HB]]]]]. exists c, A, B. unfold times in *. cbn [count_occ]. spl; [exact E | |].
  - intros y I. rewrite <- (HA y I). destruct (Nat.eq_dec x y); lia.
  - intros y I. rewrite <- (HB y I). destruct (Nat.eq_dec x y); lia.
Qed.
Lemma shares_ext : forall f g l, (forall x, f x = g x) -> shares f l -> shares g l.
Proof. intros f g l E [c [A [B [EL [HA HB]]]]]. exists c, A, B. spl; [exact EL | |]; intros x I; rewrite <- E; auto. Qed.
Lemma shares_close : forall cnt l x y, shares cnt l -> In x l -> In y l -> (cnt x <= cnt y + 1)%nat.
Proof.
  intros cnt l x y [c [A [B [-> [HA HB]]]]] IX IY. apply in_app_or in IX, IY.
  destruct IX as [IX|IX]; [rewrite (HA x IX) | rewrite (HB x IX)]; (destruct IY as [IY|IY]; [rewrite (HA y IY) | rewrite (HB y IY)]); lia.
Qed.
Lemma firstn_min : forall A k (l : list A), firstn (Nat.min k (length l)) l = firstn k l /\ skipn (Nat.min k (length l)) l = skipn k l.
Proof.
  intros A k l. destruct (Nat.le_ge_cases k (length l)) as [H|H]; [rewrite Nat.min_l by exact H; auto|]. rewrite Nat.min_r by exact H.
  rewrite firstn_all, skipn_all, firstn_all2, skipn_all2 by exact H. auto.
Qed.
Lemma chosen_fair_from : forall ks l cnt, NoDup l -> shares cnt l -> forall x y, In x l -> In y l ->
  (cnt x + times x (chosen ks l) <= cnt y + times y (chosen ks l) + 1)%nat.
Proof.
  induction ks as [|k ks IH]; intros l cnt ND SH x y IX IY; cbn [chosen].
  { unfold times. cbn [count_occ]. rewrite !Nat.add_0_r. eapply shares_close; eassumption. }
  pose proof (shares_take (Nat.min k (length l)) l cnt ND SH ltac:(lia)) as SH'.
  pose proof (take_perm (Nat.min k (length l)) l ltac:(lia)) as P.
  rewrite take_targets_eq in SH', P by lia. destruct (firstn_min _ k l) as [E1 E2]. rewrite E1, E2 in SH', P. cbn [fst snd] in *.
  assert (ND' : NoDup (skipn k l ++ firstn k l)) by (eapply Permutation_NoDup; [apply Permutation_sym; exact P | exact ND]).
  specialize (IH _ _ ND' SH' x y (Permutation_in _ (Permutation_sym P) IX) (Permutation_in _ (Permutation_sym P) IY)).
  unfold times in *. rewrite !count_occ_app. lia.
Qed.
Lemma chosen_fair : forall ks l, NoDup l -> forall x y, In x l -> In y l -> (times x (chosen ks l) <= times y (chosen ks l) + 1)%nat.
Proof.
  intros ks l ND x y IX IY. apply (chosen_fair_from ks l (fun _ => 0%nat) ND) with (x := x) (y := y); try assumption.
  exists 0%nat, l, []. rewrite app_nil_r. spl; [reflexivity | reflexivity |]. intros z [].
Qed.

(** ** The addresses *)
Definition AD (l : list addr) : Prop := all_different l.
Lemma used_spec : forall a l, addr_ok a -> Forall addr_ok l -> (used a l = true <-> exists b, In b l /\ same_addr a b).
Proof.
  intros a l OA OL. unfold used. rewrite existsb_exists. rewrite Forall_forall in OL. split; intros [b [I E]]; exists b; (split; [exact I|]); apply (eq_same a b OA (OL b I)); exact E.
Qed.
Lemma same_sym : forall a b, same_addr a b -> same_addr b a.
Proof. intros a b [H1 [H2 H3]]. unfold same_addr. auto. Qed.
Lemma FOP_app_one : forall l a, AD l -> (forall b, In b l -> ~ same_addr b a) -> AD (l ++ [a]).
Proof.
  induction l as [|x l IH]; intros a D N; cbn [app].
  - constructor; constructor.
  - inversion D; subst. constructor.
    + apply Forall_app. split; [assumption|]. constructor; [apply N; left; reflexivity | constructor].
    + apply IH; [assumption|]. intros b I. apply N. right. exact I.
Qed.
Lemma AD_suffix : forall a b, AD (a ++ b) -> AD b.
Proof. induction a as [|x a IH]; intros b D; [exact D|]. inversion D; subst. apply IH. assumption. Qed.

(** The extension of the list of addresses, and the flag, by the addresses [l] of one target. *)
Definition extends (o : opts) (fam : Z) (red red' : list addr) (from : addr -> Prop) : Prop :=
  exists x, red' = red ++ x /\ Forall from x /\ Forall (fun a => o_xredirect o = true \/ a_fam a = fam) x
    /\ (AD red -> AD red') /\ Forall addr_ok red'.
Lemma extends_one : forall o fam red a (from : addr -> Prop), Forall addr_ok red -> addr_ok a -> from a -> o_xredirect o || (a_fam a =? fam) = true -> used a red = false ->
  extends o fam red (red ++ [a]) from.
Proof.
  intros o fam red a from OR OA FA XF NU. exists [a]. spl; [reflexivity | constructor; [exact FA|constructor] | | |].
  - constructor; [|constructor]. apply orb_true_iff in XF. destruct XF as [XF|XF]; [auto|]. right. apply Z.eqb_eq. exact XF.
  - intros D. apply FOP_app_one; [exact D|]. intros b I S. assert (T : used a red = true) by (apply used_spec; [assumption|assumption|]; exists b; split; [exact I | apply same_sym; exact S]). congruence.
  - apply Forall_app. split; [exact OR|]. constructor; [exact OA|constructor].
Qed.
Lemma extends_refl : forall o fam red from, Forall addr_ok red -> extends o fam red red from.
Proof. intros o fam red from O. exists []. rewrite app_nil_r. spl; auto. Qed.
Lemma extends_trans : forall o fam a b c from, extends o fam a b from -> extends o fam b c from -> extends o fam a c from.
Proof.
  intros o fam a b c from [x [E [F [X [D O]]]]] [y [E' [F' [X' [D' O']]]]]. exists (x ++ y). subst b c. spl.
  - rewrite app_assoc. reflexivity.
  - apply Forall_app. auto.
  - apply Forall_app. auto.
  - auto.
  - assumption.
Qed.
Lemma extends_weaken : forall o fam a b (P Q : addr -> Prop), (forall x, P x -> Q x) -> extends o fam a b P -> extends o fam a b Q.
Proof. intros o fam a b P Q H [x [E [F R]]]. exists x. split; [exact E|]. split; [|exact R]. eapply Forall_impl; [|exact F]. exact H. Qed.
Definition covered (red : list addr) (a : addr) : Prop := exists b, In b red /\ same_addr a b.
Lemma covered_extends : forall o fam red red' from a, extends o fam red red' from -> covered red a -> covered red' a.
Proof. intros o fam red red' from a [x [-> _]] [b [I S]]. exists b. split; [apply in_or_app; left; exact I | exact S]. Qed.
Lemma same_refl : forall a, same_addr a a.
Proof. intros a. unfold same_addr. auto. Qed.

Lemma add_additional_fine : forall o fam l red fl, Forall addr_ok l -> Forall addr_ok red ->
  extends o fam red (fst (add_additional o fam l (red, fl))) (fun a => In a l)
  /\ (forall a, In a l -> o_xredirect o = true \/ a_fam a = fam -> covered (fst (add_additional o fam l (red, fl))) a).
Proof.
  induction l as [|a l IH]; intros red fl OL OR; cbn [add_additional fst snd].
  - split; [apply extends_refl; exact OR | intros a []].
  - inversion OL; subst. destruct (o_xredirect o || (a_fam a =? fam)) eqn:XF; [destruct (used a red) eqn:US|]; cbn [andb negb].
    + destruct (IH red fl ltac:(assumption) OR) as [E C]. split.
      * eapply extends_weaken; [|exact E]. cbn. auto.
      * intros b [<-|I] F; [|apply C; assumption]. eapply covered_extends; [exact E|]. apply used_spec; assumption.
    + assert (X1 : extends o fam red (red ++ [a]) (fun b => In b (a :: l))) by (apply extends_one; auto; left; reflexivity).
      assert (OR1 : Forall addr_ok (red ++ [a])) by (destruct X1 as [? [_ [_ [_ [_ O]]]]]; exact O).
      destruct (IH (red ++ [a]) (fl || (a_fam a =? fam)) ltac:(assumption) OR1) as [E C]. split.
      * eapply extends_trans; [exact X1|]. eapply extends_weaken; [|exact E]. cbn. auto.
      * intros b [<-|I] F; [|apply C; assumption]. eapply covered_extends; [exact E|]. exists a. split; [apply in_or_app; right; left; reflexivity | apply same_refl].
    + destruct (IH red fl ltac:(assumption) OR) as [E C]. split.
      * eapply extends_weaken; [|exact E]. cbn. auto.
      * intros b [<-|I] F; [|apply C; assumption]. exfalso. apply orb_false_iff in XF. destruct XF as [X1 X2]. apply Z.eqb_neq in X2. destruct F; congruence.
Qed.

Lemma redirect_loop_fine : forall o v fam found red fwd, SINV v -> Forall (trusted v) found -> Forall addr_ok red ->
  exists red' fwd', redirect_loop o v fam found red fwd = Ok (red', fwd ++ fwd')
    /\ extends o fam red red' (fun a => exists i, In i found /\ advertised v i a)
    /\ (forall i a, In i found -> advertised v i a -> o_xredirect o = true \/ a_fam a = fam -> covered red' a)
    /\ part_of fwd' found /\ (o_xforward o = true -> fwd' = found).
Proof.
  intros o v fam found. induction found as [|i found IH]; intros red fwd S TR OR; cbn [redirect_loop].
  - exists red, []. rewrite app_nil_r. spl; auto; try (intros i a []); [apply extends_refl; exact OR | constructor].
  - inversion TR as [|? ? [s [E [R A]]] TR']; subst. rewrite E, R. cbn [negb].
    assert (OS : scl_ok s) by (pose proof (V_ok _ S) as F; rewrite Forall_forall in F; apply F; eapply nth_error_In; exact E). destruct OS as [OA OF].
    set (acc := if (o_xredirect o || (a_fam (s_far s) =? fam)) && s_refl s && negb (used (s_far s) red) then (red ++ [s_far s], a_fam (s_far s) =? fam) else (red, false)).
    assert (X1 : extends o fam red (fst acc) (advertised v i) /\ (s_refl s = true -> o_xredirect o = true \/ a_fam (s_far s) = fam -> covered (fst acc) (s_far s))).
    { unfold acc. destruct (o_xredirect o || (a_fam (s_far s) =? fam)) eqn:XF; [destruct (s_refl s) eqn:RF; [destruct (used (s_far s) red) eqn:US|]|]; cbn [andb negb fst].
      - split; [apply extends_refl; exact OR|]. intros _ _. apply used_spec; assumption.
      - split; [apply extends_one; auto; exists s; auto|]. intros _ _. exists (s_far s). split; [apply in_or_app; right; left; reflexivity | apply same_refl].
      - split; [apply extends_refl; exact OR|]. discriminate.
      - split; [apply extends_refl; exact OR|]. intros _ F. exfalso. apply orb_false_iff in XF. destruct XF as [X1 X2]. apply Z.eqb_neq in X2. destruct F; congruence. }
    destruct X1 as [X1 C1]. assert (OR1 : Forall addr_ok (fst acc)) by (destruct X1 as [? [_ [_ [_ [_ O]]]]]; exact O).
    destruct (add_additional_fine o fam (s_addrs s) (fst acc) (snd acc) OA OR1) as [X2 C2]. rewrite <- surjective_pairing in X2, C2.
    set (acc2 := add_additional o fam (s_addrs s) acc) in *.
    assert (OR2 : Forall addr_ok (fst acc2)) by (destruct X2 as [? [_ [_ [_ [_ O]]]]]; exact O).
    destruct (IH (fst acc2) (if o_xforward o || snd acc2 then fwd ++ [i] else fwd) S TR' OR2) as [red' [fwd' [EL [X3 [C3 [FF XX]]]]]].
    exists red', (if o_xforward o || snd acc2 then i :: fwd' else fwd').
    assert (X3' : extends o fam (fst acc2) red' (fun a => exists j, In j (i :: found) /\ advertised v j a)) by (eapply extends_weaken; [|exact X3]; intros x [j [I AV]]; exists j; split; [right; exact I | exact AV]).
    spl.
    + rewrite EL. destruct (o_xforward o || snd acc2); [rewrite <- app_assoc; reflexivity | reflexivity].
    + eapply extends_trans; [eapply extends_weaken; [|exact X1]; intros x AV; exists i; split; [left; reflexivity | exact AV]|].
      eapply extends_trans; [|exact X3']. eapply extends_weaken; [|exact X2]. intros x I. exists i. split; [left; reflexivity|]. exists s. auto.
    + intros j a [<-|I] AV F; [|eapply C3; eassumption]. eapply covered_extends; [exact X3'|].
      destruct AV as [s1 [E1 AV]]. assert (s1 = s) by congruence. subst s1. destruct AV as [[RF ->]|I].
      * eapply covered_extends; [exact X2|]. apply C1; assumption.
      * apply C2; assumption.
    + destruct (o_xforward o || snd acc2); constructor; exact FF.
    + intros XF. rewrite XF. cbn [orb]. rewrite (XX XF). reflexivity.
Qed.

Lemma redirect_fine : forall o v fp fam, SINV v -> Forall addr_ok (o_static o) ->
  exists v' red fwd, do_redirect o v fp fam = Ok (v', red, fwd) /\ SINV v' /\ v_cls v' = v_cls v /\ v_peers v' = v_peers v
  /\ exists found, Forall (trusted v) found /\ NoDup found
     /\ match fp with
        | Some fp => v_active v' = v_active v /\ found = (match peers_find fp (v_peers v) with Some i => [i] | None => [] end)
        | None => let k := Nat.min (o_targets o) (length (v_active v)) in
                  Permutation found (firstn k (v_active v)) /\ v_active v' = skipn k (v_active v) ++ firstn k (v_active v)
        end
     /\ StronglySorted (load_le v) found
     /\ extends o fam (o_static o) red (fun a => exists i, In i found /\ advertised v i a)
     /\ (forall i a, In i found -> advertised v i a -> o_xredirect o = true \/ a_fam a = fam -> covered red a)
     /\ part_of fwd found /\ (o_xforward o = true -> fwd = found).
Proof.
  intros o v fp fam S OST. unfold do_redirect. destruct fp as [fp|].
  - set (found := match peers_find fp (v_peers v) with Some i => [i] | None => [] end).
    assert (TR : Forall (trusted v) found).
    { unfold found. destruct (peers_find fp (v_peers v)) as [i|] eqn:E; [|constructor]. constructor; [|constructor]. apply peers_find_in in E. apply (V_peers _ S) in E. apply E. }
    destruct (redirect_loop_fine o v fam found (o_static o) [] S TR OST) as [red [fwd [EL [X [C [P XF]]]]]]. rewrite EL. cbn [rbind app].
    do 3 eexists. split; [reflexivity|]. split; [destruct v; exact S|]. split; [reflexivity|]. split; [reflexivity|]. exists found.
    split; [exact TR|]. split; [unfold found; destruct (peers_find fp (v_peers v)); repeat constructor; intros []|]. split; [split; reflexivity|].
    split; [unfold found; destruct (peers_find fp (v_peers v)); repeat constructor|]. auto.
  - set (k := Nat.min (o_targets o) (length (v_active v))). assert (K : (k <= length (v_active v))%nat) by lia. rewrite (take_targets_eq k _ K).
    assert (PF : Permutation (stable_sort v (firstn k (v_active v))) (firstn k (v_active v))) by (apply Permutation_sym, stable_sort_perm).
    assert (TR : Forall (trusted v) (stable_sort v (firstn k (v_active v)))).
    { rewrite Forall_forall. intros i I. apply (Permutation_in _ PF) in I. apply (V_act _ S). rewrite <- (firstn_skipn k). apply in_or_app. left. exact I. }
    assert (ND : NoDup (firstn k (v_active v))).
    { pose proof (V_nodup _ S) as N. rewrite <- (firstn_skipn k) in N. revert N. generalize (firstn k (v_active v)) as a. induction a as [|x a IH]; intros N; [constructor|].
      cbn [app] in N. inversion N; subst. constructor; [|apply IH; assumption]. intros I. apply H1. apply in_or_app. left. exact I. }
    destruct (redirect_loop_fine o v fam _ (o_static o) [] S TR OST) as [red [fwd [EL [X [C [P XF]]]]]]. rewrite EL. cbn [rbind app].
    do 3 eexists. split; [reflexivity|]. split.
    { assert (PA : Permutation (skipn k (v_active v) ++ firstn k (v_active v)) (v_active v)) by (rewrite <- (firstn_skipn k (v_active v)) at 3; apply Permutation_app_comm).
      destruct S as [N AC PE OK FI]. constructor; cbn [v_active v_peers v_cls]; try assumption.
      - eapply Permutation_NoDup; [apply Permutation_sym; exact PA | exact N].
      - intros i I. apply (Permutation_in _ PA) in I. eapply trusted_same; [|apply AC; exact I]. reflexivity.
      - intros N' i s I E. apply (Permutation_in _ PA) in I. apply FI; assumption. }
    split; [reflexivity|]. split; [reflexivity|]. exists (stable_sort v (firstn k (v_active v))).
    split; [exact TR|]. split; [eapply Permutation_NoDup; [apply Permutation_sym; exact PF | exact ND]|]. split; [split; [exact PF | reflexivity]|].
    split; [apply stable_sort_sorted|]. auto.
Qed.

Lemma inv_empty : SINV (mkSrv [] [] []).
Proof. constructor; cbn; try constructor; try contradiction; intros; contradiction. Qed.

Lemma same_members_spec : forall a b, same_members a b = true -> length a = length b /\ incl a b /\ incl b a.
Proof.
  intros a b H. unfold same_members in H. apply andb_true_iff in H. destruct H as [H H3]. apply andb_true_iff in H. destruct H as [H1 H2].
  apply Nat.eqb_eq in H1. rewrite forallb_forall in H2, H3. spl; [exact H1 | |]; intros x I.
  - specialize (H2 x I). apply existsb_exists in H2. destruct H2 as [y [J E]]. apply Nat.eqb_eq in E. congruence.
  - specialize (H3 x I). apply existsb_exists in H3. destruct H3 as [y [J E]]. apply Nat.eqb_eq in E. congruence.
Qed.

Lemma srv_step_fine : forall v e, SINV v -> sevent_ok e -> exists v', srv_step hmac pw v e = Ok v' /\ SINV v'.
Proof.
  intros v e S OK. destruct e as [fp nonce far|i bytes|i|i|i a|order|o fp fam]; cbn [srv_step sevent_ok] in *.
  - eexists. split; [reflexivity|].
    assert (NE : forall i s, nth_error (v_cls v) i = Some s -> nth_error (v_cls v ++ [scl_new pw fp nonce far]) i = Some s) by (intros i s E; rewrite nth_error_app1; [exact E | apply nth_error_Some; congruence]).
    destruct S as [ND AC PE OKS FI]. constructor; cbn [v_active v_peers v_cls]; try assumption.
    + intros i I. destruct (AC i I) as [s [E H]]. exists s. split; [apply NE; exact E | exact H].
    + intros f i I. destruct (PE f i I) as [[s [E H]] [s' [E' F']]]. split; [exists s; split; [apply NE; exact E | exact H] | exists s'; auto].
    + apply Forall_app. split; [exact OKS|]. constructor; [|constructor]. split; [constructor | exact OK].
    + intros N i s I E. rewrite map_app in N. assert (N' : NoDup (map s_fp (v_cls v))).
      { clear -N. induction (map s_fp (v_cls v)) as [|x l IH]; [constructor|]. cbn [app] in N. inversion N; subst. constructor; [intros I; apply H1; apply in_or_app; left; exact I | apply IH; assumption]. }
      destruct (AC i I) as [s1 [E1 _]]. assert (s1 = s) by (specialize (NE _ _ E1); congruence). subst s1. apply FI; assumption.
  - apply message_fine; assumption.
  - destruct (nth_error (v_cls v) i) as [s|]; [|eauto]. eexists. split; [reflexivity|]. destruct (s_recv s); [apply close_fine|]; exact S.
  - destruct (nth_error (v_cls v) i) as [s|]; [|eauto]. eexists. split; [reflexivity|]. destruct (s_held s); [apply close_fine|]; exact S.
  - destruct (nth_error (v_cls v) i) as [s|] eqn:E; [|eauto]. eexists. split; [reflexivity|].
    assert (OS : scl_ok s) by (pose proof (V_ok _ S) as F; rewrite Forall_forall in F; apply F; eapply nth_error_In; exact E). destruct OS as [OA OF].
    eapply inv_upd; try exact S; try exact E; unfold on_address_changed, send_reflexive, scl_ok, v_far, v_send; destruct (s_recv s) eqn:ER; cbn; auto; destruct (s_send s); cbn; auto.
  - eexists. split; [reflexivity|]. destruct (same_members order (v_active v)) eqn:E; [|exact S]. apply same_members_spec in E. destruct E as [L [I1 I2]].
    destruct S as [ND AC PE OKS FI]. constructor; cbn [v_active v_peers v_cls]; try assumption.
    + apply (NoDup_incl_NoDup ND); [lia | exact I2].
    + intros i I. eapply trusted_same; [|apply AC; apply I1; exact I]. reflexivity.
    + intros N i s I Ei. apply FI; [exact N | apply I1; exact I | exact Ei].
  - destruct (redirect_fine o v fp fam S OK) as [v' [red [fwd [E [S' _]]]]]. rewrite E. cbn [rbind]. exists v'. auto.
Qed.

Lemma srv_run_fine : forall es v, SINV v -> Forall sevent_ok es -> exists v', srv_run hmac pw v es = Ok v' /\ SINV v'.
Proof.
  induction es as [|e es IH]; intros v S OK; cbn [srv_run]; [eauto|]. inversion OK; subst.
  destruct (srv_step_fine v e S ltac:(assumption)) as [v1 [E S1]]. rewrite E. cbn [rbind]. apply IH; assumption.
Qed.
Lemma srv_run_inv : forall es v, Forall sevent_ok es -> srv_run hmac pw (mkSrv [] [] []) es = Ok v -> SINV v.
Proof. intros es v OK R. destruct (srv_run_fine es _ inv_empty OK) as [v' [E S]]. congruence. Qed.

(** ** Authentication *)
Lemma memcmp_eq32 : forall a b, length a = 32%nat -> length b = 32%nat -> memcmp a b = 0 -> a = b.
Proof. intros a b A B H. apply (memcmp_eq a b); [congruence | exact H]. Qed.

(** A client that has not authenticated itself has told the server nothing and been told nothing. *)
Definition blank (s : scl) : Prop := s_auth s = false -> s_addrs s = [] /\ s_refl s = false /\ s_load s = 0 /\ s_send s = false /\ s_reports s = [].
Lemma on_msg_reports : forall s bytes s' e, s_auth s = false -> s_send s = false -> on_msg hmac pw s bytes = Ok (s', e) -> s_reports s' = s_reports s.
Proof.
  intros s bytes s' e A SE H. destruct bytes as [|cmd cursor]; cbn [on_msg] in H; [injection H as <- <-; reflexivity|]. rewrite A in H. cbn [negb andb] in H.
  destruct (cmd =? CMD_SIMPLE_AUTH); cbn [negb] in H.
  - unfold on_simple_auth, delay_close in H. destruct (Nat.ltb (length cursor) 32); [injection H as <- <-; reflexivity|].
    destruct (lookup (skipn 32 cursor) pw); [|injection H as <- <-; reflexivity].
    destruct (memcmp _ _ =? 0); injection H as <- <-; [reflexivity|]. destruct (s_recv s); reflexivity.
  - unfold delay_close in H. injection H as <- <-. destruct (s_recv s); reflexivity.
Qed.

(** What one event does to the record of client [i]. *)
Lemma step_record : forall v e v' i s', SINV v -> sevent_ok e -> srv_step hmac pw v e = Ok v' -> nth_error (v_cls v') i = Some s' ->
  (exists fp nonce far, e = VConnect fp nonce far /\ s' = scl_new pw fp nonce far)
  \/ exists s, nth_error (v_cls v) i = Some s /\ s_nonce s' = s_nonce s /\ (blank s -> blank s')
     /\ (s_auth s' = true -> s_auth s = true \/ exists k p md, knows pw k p /\ e = VMessage i (CMD_SIMPLE_AUTH :: md ++ k) /\ length md = 32%nat /\ memcmp (hmac p (s_nonce s)) md = 0).
Proof.
  intros v e v' i s' S OK ST N.
  assert (SAME : forall s, nth_error (v_cls v) i = Some s -> s' = s -> exists s, nth_error (v_cls v) i = Some s /\ s_nonce s' = s_nonce s /\ (blank s -> blank s')
     /\ (s_auth s' = true -> s_auth s = true \/ exists k p md, knows pw k p /\ e = VMessage i (CMD_SIMPLE_AUTH :: md ++ k) /\ length md = 32%nat /\ memcmp (hmac p (s_nonce s)) md = 0)).
  { intros s E ->. exists s. spl; auto. }
  assert (CLOSE : forall w j sj, srv_close w j = v' -> nth_error (v_cls w) i = Some sj -> exists s1, nth_error (v_cls v') i = Some s1 /\ s_nonce s1 = s_nonce sj /\ s_auth s1 = s_auth sj /\ (blank sj -> blank s1)).
  { intros w j sj E EN. unfold srv_close in E. destruct (nth_error (v_cls w) j) as [s|] eqn:EJ.
    - subst v'. cbn [v_cls] in *. rewrite (nth_upd_some _ _ _ (close_scl s) i EJ). destruct (Nat.eqb_spec j i) as [EQ|NE].
      + subst j. assert (s = sj) by congruence. subst s. eexists. split; [reflexivity|]. unfold blank, close_scl. cbn. spl; auto. intros B A. destruct (B A) as [? [? [? [? ?]]]]. auto 10.
      + exists sj. auto.
    - subst v'. exists sj. auto. }
  assert (CL : forall j, (forall w, w = v -> srv_close w j = v') -> exists s, nth_error (v_cls v) i = Some s /\ s_nonce s' = s_nonce s /\ (blank s -> blank s')
     /\ (s_auth s' = true -> s_auth s = true \/ exists k p md, knows pw k p /\ e = VMessage i (CMD_SIMPLE_AUTH :: md ++ k) /\ length md = 32%nat /\ memcmp (hmac p (s_nonce s)) md = 0)).
  { intros j E. specialize (E v eq_refl). destruct (nth_error (v_cls v) i) as [s|] eqn:EI.
    - destruct (CLOSE v j s E EI) as [s1 [E1 [Q1 [Q2 Q3]]]]. assert (s1 = s') by congruence. subst s1. exists s. spl; auto. intros A. left. congruence.
    - exfalso. unfold srv_close in E. destruct (nth_error (v_cls v) j) as [sj|] eqn:EJ; subst v'; [|congruence]. cbn [v_cls] in N. rewrite (nth_upd_some _ _ _ (close_scl sj) i EJ) in N.
      destruct (Nat.eqb_spec j i) as [EQ|NE]; [subst; congruence | congruence]. }
  destruct e as [fp nonce far|j bytes|j|j|j a|order|o fp fam]; cbn [srv_step sevent_ok] in *.
  - injection ST as <-. cbn [v_cls] in N. destruct (Nat.lt_ge_cases i (length (v_cls v))) as [L|L].
    + rewrite nth_error_app1 in N by exact L. right. eapply SAME; [exact N | reflexivity].
    + rewrite nth_error_app2 in N by exact L. destruct (i - length (v_cls v))%nat as [|n]; cbn [nth_error] in N; [|destruct n; discriminate]. injection N as <-. left. eauto.
  - right. unfold srv_message in ST. destruct (nth_error (v_cls v) j) as [s|] eqn:EJ; [|injection ST as <-; eapply SAME; [exact N|reflexivity]].
    destruct (s_recv s) eqn:ER; [|injection ST as <-; eapply SAME; [exact N|reflexivity]]. destruct (s_held s); cbn [negb andb] in ST; [injection ST as <-; eapply SAME; [exact N|reflexivity]|].
    assert (OS : scl_ok s) by (pose proof (V_ok _ S) as F; rewrite Forall_forall in F; apply F; eapply nth_error_In; exact EJ).
    destruct (on_msg_fine s bytes OS OK) as [s1 [e [EM [_ [_ [NO [_ [_ [_ [AUTH [_ [KEEP _]]]]]]]]]]]]. rewrite EM in ST. cbn [rbind] in ST.
    set (v1 := mkSrv (upd (v_cls v) j s1) (v_active v) (v_peers v)) in *.
    assert (B1 : blank s -> blank s1).
    { intros B A1. destruct (s_auth s) eqn:A0.
      - exfalso. destruct (on_msg_fine s bytes OS OK) as [sx [ex [EX [_ [_ [_ [_ [_ [AU _]]]]]]]]]. rewrite EM in EX. injection EX as <- <-. rewrite (AU A0) in A1. discriminate.
      - destruct (B A0) as [B1 [B2 [B3 [B4 B5]]]]. destruct (KEEP eq_refl) as [K1 [K2 [K3 K4]]]. rewrite K1, K2, K3, K4. spl; auto. rewrite (on_msg_reports _ _ _ _ A0 B4 EM). exact B5. }
    assert (W : forall s2, nth_error (v_cls v1) i = Some s2 -> exists s, nth_error (v_cls v) i = Some s /\ s_nonce s2 = s_nonce s /\ (blank s -> blank s2)
       /\ (s_auth s2 = true -> s_auth s = true \/ exists k p md, knows pw k p /\ VMessage j bytes = VMessage i (CMD_SIMPLE_AUTH :: md ++ k) /\ length md = 32%nat /\ memcmp (hmac p (s_nonce s)) md = 0)).
    { intros s2 E2. unfold v1 in E2. cbn [v_cls] in E2. rewrite (nth_upd_some _ _ _ s1 i EJ) in E2. destruct (Nat.eqb_spec j i) as [EQ|NE].
      - subst j. injection E2 as <-. exists s. spl; auto. intros A. destruct (s_auth s) eqn:A0; [auto|]. right. destruct (AUTH eq_refl A) as [k [p [K [md [-> [L M]]]]]]. exists k, p, md. auto.
      - exists s2. spl; auto. }
    destruct e; [injection ST as <-; apply W; exact N | | injection ST as <-; apply W; exact N | | injection ST as <-; apply W; exact N].
    + destruct (is_active v1 j); injection ST as <-; apply W; exact N.
    + injection ST as EC. destruct (nth_error (v_cls v1) i) as [s2|] eqn:E2.
      * destruct (CLOSE v1 j s2 EC E2) as [s3 [E3 [Q1 [Q2 Q3]]]]. assert (s3 = s') by congruence. subst s3. destruct (W s2 eq_refl) as [s0 [W1 [W2 [W3 W4]]]]. exists s0. spl; [exact W1 | congruence | auto |]. intros A. rewrite Q2 in A. apply W4. exact A.
      * exfalso. unfold srv_close in EC. destruct (nth_error (v_cls v1) j) as [sj|] eqn:E4; subst v'; [|congruence]. cbn [v_cls] in N. rewrite (nth_upd_some _ _ _ (close_scl sj) i E4) in N.
        destruct (Nat.eqb_spec j i) as [EQ|NE]; [subst; congruence | congruence].
  - right. destruct (nth_error (v_cls v) j) as [s|]; [|injection ST as <-; eapply SAME; [exact N|reflexivity]].
    destruct (s_recv s); injection ST as ST; [apply (CL j); intros w ->; exact ST | subst v'; eapply SAME; [exact N|reflexivity]].
  - right. destruct (nth_error (v_cls v) j) as [s|]; [|injection ST as <-; eapply SAME; [exact N|reflexivity]].
    destruct (s_held s); injection ST as ST; [apply (CL j); intros w ->; exact ST | subst v'; eapply SAME; [exact N|reflexivity]].
  - right. destruct (nth_error (v_cls v) j) as [s|] eqn:EJ; injection ST as <-; [|eapply SAME; [exact N|reflexivity]]. cbn [v_cls] in N.
    rewrite (nth_upd_some _ _ _ (on_address_changed s a) i EJ) in N. destruct (Nat.eqb_spec j i) as [EQ|NE]; [|eapply SAME; [exact N|reflexivity]].
    subst j. injection N as <-. exists s. unfold on_address_changed, send_reflexive, v_far, v_send, blank. destruct (s_recv s); cbn; [destruct (s_send s) eqn:SE; cbn|]; spl; auto.
    intros B A. destruct (B A) as [_ [_ [_ [X _]]]]. discriminate.
  - right. injection ST as <-. eapply SAME; [|reflexivity]. destruct (same_members order (v_active v)); exact N.
  - right. destruct (redirect_fine o v fp fam S OK) as [v1 [red [fwd [E [_ [EC _]]]]]]. rewrite E in ST. cbn [rbind] in ST. injection ST as <-. rewrite EC in N. eapply SAME; [exact N|reflexivity].
Qed.

Lemma run_record : forall es v v' i s', SINV v -> Forall sevent_ok es -> (forall j s, nth_error (v_cls v) j = Some s -> blank s) -> srv_run hmac pw v es = Ok v' -> nth_error (v_cls v') i = Some s' ->
  blank s' /\ (pw <> [] -> s_auth s' = true -> (exists s, nth_error (v_cls v) i = Some s /\ s_auth s = true)
    \/ exists k p md, knows pw k p /\ In (VMessage i (CMD_SIMPLE_AUTH :: md ++ k)) es /\ length md = 32%nat /\ memcmp (hmac p (s_nonce s')) md = 0).
Proof.
  assert (G : forall es v v' i s', SINV v -> Forall sevent_ok es -> (forall j s, nth_error (v_cls v) j = Some s -> blank s) -> srv_run hmac pw v es = Ok v' -> nth_error (v_cls v') i = Some s' ->
    blank s' /\ (forall s, nth_error (v_cls v) i = Some s -> s_nonce s' = s_nonce s) /\ (pw <> [] -> s_auth s' = true -> (exists s, nth_error (v_cls v) i = Some s /\ s_auth s = true)
    \/ exists k p md, knows pw k p /\ In (VMessage i (CMD_SIMPLE_AUTH :: md ++ k)) es /\ length md = 32%nat /\ memcmp (hmac p (s_nonce s')) md = 0)).
  { induction es as [|e es IH]; intros v v' i s' S OK B R N; cbn [srv_run] in R.
    { injection R as <-. spl; [apply (B i); exact N | intros s E; congruence | intros _ A; left; eauto]. }
    inversion OK; subst. destruct (srv_step_fine v e S ltac:(assumption)) as [v1 [E S1]]. rewrite E in R. cbn [rbind] in R.
    assert (B1 : forall j s, nth_error (v_cls v1) j = Some s -> blank s).
    { intros j s EJ. destruct (step_record v e v1 j s S ltac:(assumption) E EJ) as [[fp [nonce [far [_ ->]]]]|[s0 [E0 [_ [BB _]]]]]; [|apply BB; apply (B j); exact E0]. intros _. cbn. auto. }
    destruct (IH v1 v' i s' S1 ltac:(assumption) B1 R N) as [BS [NS AS]]. spl; [exact BS | |].
    - intros s E0. destruct (nth_error (v_cls v1) i) as [s1|] eqn:E1.
      + rewrite (NS s1 eq_refl). destruct (step_record v e v1 i s1 S ltac:(assumption) E E1) as [[fp [nonce [far [EE EN]]]]|[s0 [E0' [Q _]]]]; [|congruence].
        subst e. cbn [srv_step] in E. injection E as <-. cbn [v_cls] in E1. rewrite nth_error_app1 in E1 by (apply nth_error_Some; congruence). congruence.
      + exfalso. apply nth_error_None in E1. assert (L : (i < length (v_cls v))%nat) by (apply nth_error_Some; congruence).
        assert (LL : (length (v_cls v) <= length (v_cls v1))%nat).
        { clear -E S H1. destruct e as [fp nonce far|j bytes|j|j|j a|order|o fp fam]; cbn [srv_step sevent_ok] in *.
          - injection E as <-. cbn [v_cls]. rewrite app_length. lia.
          - unfold srv_message in E. destruct (nth_error (v_cls v) j); [|injection E as <-; lia]. destruct (_ && _); [|injection E as <-; lia]. destruct (on_msg hmac pw s bytes) as [[s2 ef]| |]; cbn [rbind] in E; try discriminate.
            destruct ef; [| | | |]; try (injection E as <-; cbn [v_cls]; rewrite upd_length; lia).
            + destruct (is_active _ _); injection E as <-; cbn [v_cls]; rewrite upd_length; lia.
            + injection E as <-. unfold srv_close. cbn [v_cls]. destruct (nth_error _ j); cbn [v_cls]; rewrite ?upd_length; lia.
          - destruct (nth_error (v_cls v) j); injection E as <-; [|lia]. destruct (s_recv s); [|lia]. unfold srv_close. destruct (nth_error (v_cls v) j); cbn [v_cls]; rewrite ?upd_length; lia.
          - destruct (nth_error (v_cls v) j); injection E as <-; [|lia]. destruct (s_held s); [|lia]. unfold srv_close. destruct (nth_error (v_cls v) j); cbn [v_cls]; rewrite ?upd_length; lia.
          - destruct (nth_error (v_cls v) j); injection E as <-; cbn [v_cls]; rewrite ?upd_length; lia.
          - injection E as <-. destruct (same_members order (v_active v)); cbn [v_cls]; lia.
          - destruct (redirect_fine o v fp fam S H1) as [v2 [red [fwd [E2 [_ [EC _]]]]]]. rewrite E2 in E. cbn [rbind] in E. injection E as <-. rewrite EC. lia. }
        lia.
    - intros P A. destruct (AS P A) as [[s1 [E1 A1]]|[k [p [md [K [I [L M]]]]]]].
      + destruct (step_record v e v1 i s1 S ltac:(assumption) E E1) as [[fp [nonce [far [_ EN]]]]|[s0 [E0 [Q [_ AU]]]]].
        * subst s1. exfalso. cbn in A1. destruct pw; [congruence | discriminate].
        * destruct (AU A1) as [A0|[k [p [md [K [-> [L M]]]]]]]; [left; eauto|]. right. exists k, p, md. spl; [exact K | left; reflexivity | exact L |]. rewrite (NS s1 E1), Q. exact M.
      + right. exists k, p, md. spl; [exact K | right; exact I | exact L | exact M]. }
  intros es v v' i s' S OK B R N. destruct (G es v v' i s' S OK B R N) as [G1 [_ G2]]. auto.
Qed.

(** ** One connection in the server *)
Lemma is_active_remove : forall i j l, existsb (Nat.eqb i) (act_remove j l) = (existsb (Nat.eqb i) l && negb (Nat.eqb i j))%bool.
Proof.
  intros i j l. unfold act_remove. induction l as [|x l IH]; cbn [filter existsb]; [reflexivity|].
  destruct (Nat.eqb_spec j x) as [EJ|NJ]; cbn [negb existsb]; rewrite IH; destruct (Nat.eqb_spec i x) as [EI|NI]; destruct (Nat.eqb_spec i j) as [EIJ|NIJ]; subst; cbn; try congruence; try reflexivity.
  rewrite andb_false_r. reflexivity.
Qed.
Lemma close_other : forall v j i s, nth_error (v_cls v) i = Some s -> j <> i -> nth_error (v_cls (srv_close v j)) i = Some s /\ is_active (srv_close v j) i = is_active v i.
Proof.
  intros v j i s E N. unfold srv_close. destruct (nth_error (v_cls v) j) as [sj|] eqn:EJ; [|auto]. unfold is_active. cbn [v_cls v_active]. rewrite (nth_upd_some _ _ _ (close_scl sj) i EJ).
  destruct (Nat.eqb_spec j i); [congruence|]. rewrite is_active_remove. destruct (Nat.eqb_spec i j); [congruence|]. rewrite andb_true_r. auto.
Qed.
Lemma close_self : forall v i s, nth_error (v_cls v) i = Some s -> nth_error (v_cls (srv_close v i)) i = Some (close_scl s) /\ is_active (srv_close v i) i = false.
Proof.
  intros v i s E. unfold srv_close. rewrite E. unfold is_active. cbn [v_cls v_active]. rewrite (nth_upd_some _ _ _ (close_scl s) i E), Nat.eqb_refl, is_active_remove, Nat.eqb_refl, andb_false_r. auto.
Qed.
Lemma is_active_perm : forall a b i, incl a b -> incl b a -> existsb (Nat.eqb i) a = existsb (Nat.eqb i) b.
Proof.
  intros a b i H1 H2. destruct (existsb (Nat.eqb i) b) eqn:E.
  - apply existsb_exists in E. destruct E as [x [I E]]. apply existsb_exists. exists x. auto.
  - destruct (existsb (Nat.eqb i) a) eqn:EA; [|reflexivity]. apply existsb_exists in EA. destruct EA as [x [I EA]]. rewrite <- E. symmetry. apply existsb_exists. exists x. auto.
Qed.

Lemma project : forall es v v' i s, SINV v -> Forall sevent_ok es -> Forall (undisturbed i) es -> nth_error (v_cls v) i = Some s -> srv_run hmac pw v es = Ok v' ->
  exists s', nth_error (v_cls v') i = Some s' /\ conn_run hmac pw (s, is_active v i) (messages_to i es) = Ok (s', is_active v' i).
Proof.
  induction es as [|e es IH]; intros v v' i s S OK UN N R; cbn [srv_run messages_to flat_map conn_run] in *.
  { injection R as <-. exists s. auto. }
  inversion OK; subst. inversion UN; subst. destruct (srv_step_fine v e S ltac:(assumption)) as [v1 [E S1]]. rewrite E in R. cbn [rbind] in R. change (flat_map _ es) with (messages_to i es) in *.
  assert (SAME : nth_error (v_cls v1) i = Some s -> is_active v1 i = is_active v i -> exists s', nth_error (v_cls v') i = Some s' /\ conn_run hmac pw (s, is_active v i) (messages_to i es) = Ok (s', is_active v' i)).
  { intros N1 A1. destruct (IH v1 v' i s S1 ltac:(assumption) ltac:(assumption) N1 R) as [s' [Q1 Q2]]. rewrite A1 in Q2. eauto. }
  destruct e as [fp nonce far|j bytes|j|j|j a|order|o fp fam]; cbn [srv_step sevent_ok undisturbed app] in *.
  - injection E as <-. apply SAME; [|reflexivity]. cbn [v_cls]. rewrite nth_error_app1; [exact N | apply nth_error_Some; congruence].
  - destruct (Nat.eqb_spec i j) as [EQ|NE].
    + subst j. cbn [app conn_run]. unfold srv_message in E. rewrite N in E. unfold conn_msg. destruct (s_recv s && negb (s_held s)) eqn:RH; [|injection E as <-; cbn [rbind]; apply (IH v v' i s); assumption].
      destruct (on_msg hmac pw s bytes) as [[s1 e]| |] eqn:EM; cbn [rbind] in *; try discriminate.
      assert (N1 : nth_error (upd (v_cls v) i s1) i = Some s1) by (rewrite (nth_upd_some _ _ _ s1 i N), Nat.eqb_refl; reflexivity).
      destruct e; cbn [rbind].
      * injection E as <-. apply (IH _ v' i s1 S1 ltac:(assumption) ltac:(assumption) N1 R).
      * assert (A1 : is_active v1 i = true /\ nth_error (v_cls v1) i = Some s1).
        { destruct (is_active (mkSrv (upd (v_cls v) i s1) (v_active v) (v_peers v)) i) eqn:IA; injection E as <-; [split; [exact IA | exact N1]|]. unfold is_active. cbn [v_active existsb v_cls]. rewrite Nat.eqb_refl. auto. }
        destruct A1 as [A1 M1]. rewrite <- A1. apply (IH _ v' i s1 S1 ltac:(assumption) ltac:(assumption) M1 R).
      * injection E as <-. replace false with (is_active (mkSrv (upd (v_cls v) i s1) (act_remove i (v_active v)) (v_peers v)) i).
        { apply (IH _ v' i s1 S1 ltac:(assumption) ltac:(assumption) N1 R). }
        unfold is_active. cbn [v_active]. rewrite is_active_remove, Nat.eqb_refl, andb_false_r. reflexivity.
      * injection E as <-. destruct (close_self (mkSrv (upd (v_cls v) i s1) (v_active v) (v_peers v)) i s1 N1) as [C1 C2]. rewrite <- C2. apply (IH _ v' i (close_scl s1) S1 ltac:(assumption) ltac:(assumption) C1 R).
      * injection E as <-. apply (IH _ v' i s1 S1 ltac:(assumption) ltac:(assumption) N1 R).
    + cbn [app]. unfold srv_message in E. destruct (nth_error (v_cls v) j) as [sj|] eqn:EJ; [|injection E as <-; apply SAME; auto].
      destruct (s_recv sj && negb (s_held sj)); [|injection E as <-; apply SAME; auto]. destruct (on_msg hmac pw sj bytes) as [[s1 e]| |] eqn:EM; cbn [rbind] in *; try discriminate.
      assert (N1 : nth_error (upd (v_cls v) j s1) i = Some s) by (rewrite (nth_upd_some _ _ _ s1 i EJ); destruct (Nat.eqb_spec j i); [congruence | exact N]).
      destruct e.
      * injection E as <-. apply SAME; auto.
      * destruct (is_active _ j); injection E as <-; apply SAME; auto. unfold is_active. cbn [v_active existsb]. destruct (Nat.eqb_spec i j); [congruence|]. reflexivity.
      * injection E as <-. apply SAME; auto. unfold is_active. cbn [v_active]. rewrite is_active_remove. destruct (Nat.eqb_spec i j); [congruence|]. rewrite andb_true_r. reflexivity.
      * injection E as <-. destruct (close_other (mkSrv (upd (v_cls v) j s1) (v_active v) (v_peers v)) j i s N1 ltac:(congruence)) as [C1 C2]. apply SAME; [exact C1 | rewrite C2; reflexivity].
      * injection E as <-. apply SAME; auto.
  - destruct (nth_error (v_cls v) j); injection E as <-; [|apply SAME; auto]. destruct (s_recv s0); [|apply SAME; auto]. destruct (close_other v j i s N ltac:(assumption)). apply SAME; assumption.
  - destruct (nth_error (v_cls v) j); injection E as <-; [|apply SAME; auto]. destruct (s_held s0); [|apply SAME; auto]. destruct (close_other v j i s N ltac:(assumption)). apply SAME; assumption.
  - destruct (nth_error (v_cls v) j) as [sj|] eqn:EJ; injection E as <-; [|apply SAME; auto]. apply SAME; [|reflexivity]. cbn [v_cls]. rewrite (nth_upd_some _ _ _ _ i EJ). destruct (Nat.eqb_spec j i); [congruence | exact N].
  - injection E as <-. destruct (same_members order (v_active v)) eqn:EM; [|apply SAME; auto]. apply same_members_spec in EM. destruct EM as [_ [I1 I2]]. apply SAME; [exact N|]. unfold is_active. cbn [v_active]. apply is_active_perm; assumption.
  - destruct (redirect_fine o v fp fam S ltac:(assumption)) as [v2 [red [fwd [E2 [_ [EC [_ [found [_ [_ [AC _]]]]]]]]]]]. rewrite E2 in E. cbn [rbind] in E. injection E as <-. apply SAME; [rewrite EC; exact N|].
    unfold is_active. destruct fp as [fp|]; [destruct AC as [-> _]; reflexivity|]. cbv zeta in AC. destruct AC as [_ ->]. set (k := Nat.min (o_targets o) (length (v_active v))).
    apply is_active_perm; intros x I; [apply in_app_or in I; rewrite <- (firstn_skipn k (v_active v)); apply in_or_app; tauto|]. rewrite <- (firstn_skipn k (v_active v)) in I. apply in_app_or in I. apply in_or_app. tauto.
Qed.
End Srv.
