(** C28: the congestion window. *)
From Verif Require Import Base BaseFacts Congestion CongestionSpec CongestionProofs.
From Coq Require Import Lia.
Open Scope res_scope.
Ltac Zify.zify_post_hook ::= Z.div_mod_to_equations.

(** C28.  Whatever acknowledgements, losses, congestion reports and timeouts occur, no unsigned difference underflows (that
    would be [Rej]), the window is at least two maximal fragments, and it stays in proportion to what was ever outstanding. *)
Theorem C28_bounds : forall m ops, 0 <= m <= 2 ^ 56 -> Forall (feasible m) ops ->
  exists s, crun ops cong_init = Ok s /\ 2 * MSS <= q_cwnd s <= 2 * m + 4 * MSS /\ 3 * MSS <= q_ssthresh s.
Proof. intros m ops M F. destruct (reach m ops M F) as (s & E & [I1 I2 _ _ _ _]). exists s. split; [exact E|]. split; [exact I1|apply I2]. Qed.
Print Assumptions C28_bounds.
(** C28.  Only a timeout brings it below three: after any packet with acknowledgements that made it change it is at least
    three maximal fragments. *)
Theorem C28_floor : forall m ops s o s', 0 <= m <= 2 ^ 56 -> Forall (feasible m) ops -> crun ops cong_init = Ok s -> feasible m o -> cstep o s = Ok s' ->
  (exists i, o = CTimeout true i) \/ q_cwnd s' = q_cwnd s \/ 3 * MSS <= q_cwnd s'.
Proof.
  intros m ops s o s' M F E FO ES. destruct (reach m ops M F) as (s0 & E0 & I). rewrite E in E0. injection E0 as <-. destruct o as [t pre reports acks rest lost loss naks|open idle].
  - right. destruct acks.
    + destruct (packet_step m t pre reports rest lost loss naks s M FO I) as (s2 & E2 & O & H1 & H2 & H3). rewrite ES in E2. injection E2 as <-. destruct FO as (F1 & F2 & F3 & _).
      destruct O as [R1 O A|R1 X1 X2 X3 X4|cut R1 X1 X2 X3 X4|inc R1 X1 X2 X3 X4 X5|R1 X1 X2 X3 X4|R1 X1 X2]; rewrite ?H1 in *; unfold MSS in *; lia.
    + cbn [cstep] in ES. fold (heard reports s) in ES. injection ES as <-. left. unfold heard. destruct (ecns_other reports (with_ecn s (q_ece s) false)) as (H1 & _). exact H1.
  - destruct open; [left; eauto|]. right. left. cbn in ES. injection ES as <-. reflexivity.
Qed.
Print Assumptions C28_floor.
(** C28.  A loss, or a congestion report, cuts the window: outside a recovery to at most seven eighths of what was in use
    (or three maximal fragments), and never by more than half of it or one and a half times the bytes lost. *)
Theorem C28_cut : forall m ops s t pre reports rest lost naks s', 0 <= m <= 2 ^ 56 -> Forall (feasible m) ops -> crun ops cong_init = Ok s ->
  feasible m (CPacket t pre reports true rest lost true naks) -> q_remaining s <= pre - rest + lost -> cstep (CPacket t pre reports true rest lost true naks) s = Ok s' ->
  let inuse := Z.min (q_cwnd s) pre in
  q_cwnd s' <= Z.max (inuse - inuse / 8) (3 * MSS) /\ Z.max (inuse - Z.max (inuse / 2) (loss_cost lost)) (3 * MSS) <= q_cwnd s' /\ q_remaining s' = rest - lost.
Proof.
  intros m ops s t pre reports rest lost naks s' M F E FO R ES inuse. destruct (reach m ops M F) as (s0 & E0 & I). rewrite E in E0. injection E0 as <-.
  destruct (packet_step m t pre reports rest lost true naks s M FO I) as (s2 & E2 & O & H1 & H2 & H3). rewrite ES in E2. injection E2 as <-. destruct FO as (F1 & F2 & F3 & _). pose proof (i_cwnd _ _ I) as IC. rewrite orb_true_r in O.
  destruct O as [R1 O A|R1 X1|cut R1 X1 X2 X3 X4|inc R1 X1|R1 X1|R1 X1]; try discriminate; [lia|]. rewrite H1 in *. fold inuse in X2. subst cut. split; [|split; [|exact X4]]; rewrite X3; clear X3; assert (0 <= inuse) by (subst inuse; unfold MSS in *; lia); clearbody inuse; unfold MSS, loss_cost in *; destruct (_ || _); lia.
Qed.
Print Assumptions C28_cut.
(** C28.  During a recovery the window is cut once: packets that acknowledge or report lost what was outstanding at its
    start take from the window exactly what their losses cost beyond the cut already made. *)
Theorem C28_recovery : forall m ops s more losts s', 0 <= m <= 2 ^ 56 -> Forall (feasible m) ops -> crun ops cong_init = Ok s -> 3 * MSS <= q_cwnd s -> Forall (feasible m) more ->
  recovering more losts s s' -> q_cwnd s' = Z.max (q_cwnd s - Z.max 0 (total_cost losts - q_allowance s)) (3 * MSS).
Proof.
  intros m ops s more losts s' M F E C F2 R. destruct (reach m ops M F) as (s0 & E0 & I). rewrite E in E0. injection E0 as <-. destruct (recovery_spec m more losts s s' R M F2 I C) as (_ & X & _). exact X.
Qed.
Print Assumptions C28_recovery.
(** C28.  Without loss the window grows by at most one maximal fragment for each packet of acknowledgements, and not at all
    unless it was almost all in use; missing fragments stop it from growing. *)
Theorem C28_growth : forall m ops s t pre reports rest lost loss naks s', 0 <= m <= 2 ^ 56 -> Forall (feasible m) ops -> crun ops cong_init = Ok s ->
  feasible m (CPacket t pre reports true rest lost loss naks) -> cstep (CPacket t pre reports true rest lost loss naks) s = Ok s' -> pre <= q_cwnd s + q_cwnd s / 2 ->
  q_cwnd s' <= Z.max (q_cwnd s + MSS) (3 * MSS) /\ (naks = true \/ loss = true \/ pre <= q_cwnd s * 63 / 64 -> q_cwnd s' <= Z.max (q_cwnd s) (3 * MSS)).
Proof.
  intros m ops s t pre reports rest lost loss naks s' M F E FO ES P. destruct (reach m ops M F) as (s0 & E0 & I). rewrite E in E0. injection E0 as <-.
  destruct (packet_step m t pre reports rest lost loss naks s M FO I) as (s2 & E2 & O & H1 & H2 & H3). rewrite ES in E2. injection E2 as <-. destruct FO as (F1 & F2 & F3 & _). pose proof (i_cwnd _ _ I) as IC. pose proof (i_allowance _ _ I) as IA.
  assert (LC : 0 <= loss_cost lost) by (unfold loss_cost; lia).
  destruct O as [R1 O A|R1 X1 X2 X3 X4|cut R1 X1 X2 X3 X4|inc R1 X1 X2 X3 X4 X5|R1 X1 X2 X3 X4|R1 X1 X2]; rewrite ?H1, ?H3 in *; unfold MSS in *.
  - lia.
  - lia.
  - subst cut. set (c := Z.min (q_cwnd s) pre) in *. assert (0 <= c <= q_cwnd s) by (subst c; lia). clearbody c. set (d := c / _) in *. assert (0 <= d) by (subst d; apply Z.div_pos; [lia|match goal with |- 0 < (if ?b then _ else _) => destruct b end; reflexivity]). clearbody d. lia.
  - subst naks. apply orb_false_iff in X1 as (_ & ->). split; [lia|]. intros [N|[N|N]]; try discriminate; lia.
  - lia.
  - lia.
Qed.
Print Assumptions C28_growth.
(** C28.  As long as the sender keeps to about the window, it never grows by more than what was acknowledged. *)
Theorem C28_total : forall m ops s, 0 <= m <= 2 ^ 56 -> Forall (feasible m) ops -> keeps_to_window ops cong_init -> crun ops cong_init = Ok s -> q_cwnd s <= 3 * MSS + total_acked ops.
Proof. intros m ops s M F K E. destruct (total_spec m ops cong_init s M F (inv_init m ltac:(lia)) K E) as (A & B & _). change (q_cwnd cong_init) with (3 * MSS) in A. change (q_accum cong_init) with 0 in A. lia. Qed.
Print Assumptions C28_total.
(** C28.  Past the threshold the window grows by a step for each so many bytes acknowledged, and no byte is forgotten or
    counted twice: what is left over counts next time. *)
Theorem C28_avoidance : forall m ops s t pre rest lost, 0 <= m <= 2 ^ 56 -> Forall (feasible m) ops -> crun ops cong_init = Ok s -> feasible m (CPacket t pre [] true rest lost false false) ->
  q_remaining s <= pre - rest + lost -> t_measured t = false -> q_cwnd s * 63 / 64 < pre -> q_ssthresh s <= q_cwnd s ->
  exists s' n, cstep (CPacket t pre [] true rest lost false false) s = Ok s' /\ q_accum s + (pre - rest) = n * per_step (t_fast t) (q_cwnd s) + q_accum s' /\ 0 <= q_accum s' < per_step (t_fast t) (q_cwnd s)
  /\ q_cwnd s' = Z.max (q_cwnd s + Z.min (n * step_of (t_fast t) (t_tc t)) MSS) (3 * MSS).
Proof.
  intros m ops s t pre rest lost M F E FO R TM W SS. destruct (reach m ops M F) as (s0 & E0 & I). rewrite E in E0. injection E0 as <-. destruct FO as (F1 & F2 & F3 & _). cbn [cstep fold_left]. rewrite !sub_ok by lia. cbn [rbind].
  destruct (update_avoid m t pre (rest - lost) (pre - rest) lost false _ M ltac:(lia) ltac:(lia) ltac:(lia) ltac:(lia) ltac:(lia) (heard_inv m [] s I) R TM eq_refl W SS) as (s' & n & H). exists s', n. exact H.
Qed.
Print Assumptions C28_avoidance.
(** C28.  After a timeout of an open session the window is two maximal fragments, or three if nothing was outstanding. *)
Theorem C28_timeout : forall m ops s idle, 0 <= m <= 2 ^ 56 -> Forall (feasible m) ops -> crun ops cong_init = Ok s ->
  exists s', cstep (CTimeout true idle) s = Ok s' /\ q_cwnd s' = (if idle then 3 * MSS else 2 * MSS) /\ q_remaining s' = 0 /\ q_ssthresh s' = Z.max (q_ssthresh s) (q_cwnd s * 3 / 4).
Proof.
  intros m ops s idle M F E. destruct (reach m ops M F) as (s0 & E0 & I). rewrite E in E0. injection E0 as <-. pose proof (i_cwnd _ _ I) as IC. change (2 ^ 56) with 72057594037927936 in *. cbn [cstep negb]. unfold mul. rewrite wrap64_small by (unfold MSS in *; lia).
  destruct idle; eexists; (split; [reflexivity|]); fields; auto.
Qed.
Print Assumptions C28_timeout.
(** C28.  Congestion reports are counts modulo 256.  As long as they are not more than 32 behind and less than 224 ahead of the
    highest one, a packet notifies of congestion exactly if one of its counts is above all before; repeated and reordered
    reports do not. *)
Theorem C28_ecn : forall counts high s, 0 <= high -> Forall (fun c => 0 <= c) counts -> in_step high counts -> q_ece s = high mod 256 -> q_notified s = false ->
  let s' := fold_left (fun s b => ecn_report b s) (map (fun c => c mod 256) counts) s in
  q_ece s' = fold_left Z.max counts high mod 256 /\ (q_notified s' = true <-> exists c, In c counts /\ high < c).
Proof. intros counts high s H F S E N s'. destruct (ecn_counts counts high s H F S E) as (A & B). split; [exact A|]. fold s' in B. rewrite B, N. split; [intros [X|X]; [discriminate|exact X]|auto]. Qed.
Print Assumptions C28_ecn.

Definition C28_t := mkTests true false false false false.
Definition C28_ops := [CPacket C28_t 3483 [] true 1161 0 false false; CPacket C28_t 9000 [7] true 8000 2000 true true; CPacket C28_t 6000 [7; 5] true 5500 3000 true true; CTimeout true false; CPacket C28_t 2322 [8] false 2322 0 false false].
Example C28_example : Forall (feasible 20000) C28_ops
  /\ match crun (firstn 1 C28_ops) cong_init with Ok s => q_cwnd s =? 4644 | _ => false end = true
  /\ match crun (firstn 2 C28_ops) cong_init with Ok s => (q_cwnd s =? 3483) && (q_remaining s =? 6000) && (q_allowance s =? 3000) && (q_ece s =? 7) | _ => false end = true
  /\ match crun (firstn 3 C28_ops) cong_init with Ok s => (q_cwnd s =? 3483) && (q_remaining s =? 4000) | _ => false end = true
  /\ match crun C28_ops cong_init with Ok s => (q_cwnd s =? 2322) && (q_ece s =? 8) && q_notified s | _ => false end = true.
Proof. split; [repeat constructor; unfold feasible, is_byte; try lia; apply bytes_okb_ok; reflexivity|]. vm_compute. auto. Qed.
Example C28_ecn_example : in_step 250 [251; 250; 260; 255; 300] /\ q_ece (fold_left (fun s b => ecn_report b s) [251; 250; 4; 255; 44] (with_ecn cong_init 250 false)) = 44.
Proof. split; [cbn; lia|reflexivity]. Qed.

Definition C28_slow := mkTests false false false false false.
Definition C28_avoids := [CPacket C28_slow 3483 [] true 3400 2000 true true; CPacket C28_slow 3483 [] true 0 0 false false; CPacket C28_slow 3860 [] true 3660 0 false false; CPacket C28_slow 3860 [] true 3830 0 false false].
Example C28_avoidance_example : Forall (feasible 20000) C28_avoids
  /\ match crun (firstn 2 C28_avoids) cong_init with Ok s => (q_cwnd s =? 3867) && (q_ssthresh s <=? q_cwnd s) && (q_cwnd s * 63 / 64 <? 3860) && (q_accum s =? 11) | _ => false end = true
  /\ match crun (firstn 3 C28_avoids) cong_init with Ok s => (q_accum s =? 211) && (q_cwnd s =? 3867) | _ => false end = true
  /\ match crun C28_avoids cong_init with Ok s => (q_accum s =? 0) && (q_cwnd s =? 3891) | _ => false end = true.
Proof. split; [repeat (apply Forall_cons; [unfold feasible; repeat split; try lia; constructor|]); constructor|]. vm_compute. auto. Qed.
Example C28_total_example : keeps_to_window C28_avoids cong_init.
Proof. repeat (constructor; [vm_compute; discriminate|intros s E; vm_compute in E; injection E as <-]). constructor. Qed.
