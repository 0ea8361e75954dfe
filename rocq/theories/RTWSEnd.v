(** Proofs about RTWebSocket flows: what reaches the application. *)
From Coq Require Import Sorted.
From Verif Require Import Base BaseFacts VLU VLUSpec VLUProofs RTWS RTWSSpec RTWSProofs RTWSRecv RTWSSys.
Open Scope res_scope.

Lemma pick_bound : forall fate n w p, In p (pick n fate w) -> n <= fst p < n + zlen w /\ nth_error w (Z.to_nat (fst p - n)) = Some (snd p).
Proof.
  induction fate as [|b fate IH]; intros n w p H; [destruct H|]. destruct w as [|m w]; [destruct b; destruct H|].
  assert (Q : In p (pick (n + 1) fate w) -> n <= fst p < n + zlen (m :: w) /\ nth_error (m :: w) (Z.to_nat (fst p - n)) = Some (snd p)).
  { intros Q. destruct (IH _ _ _ Q) as [B N]. replace (zlen (m :: w)) with (1 + zlen w) by (unfold zlen; cbn [length]; lia). split; [lia|].
    replace (Z.to_nat (fst p - n)) with (S (Z.to_nat (fst p - (n + 1)))) by lia. exact N. }
  destruct b; [|exact (Q H)]. destruct H as [<-|H]; [|exact (Q H)]. cbn [fst snd]. replace (zlen (m :: w)) with (1 + zlen w) by (unfold zlen; cbn [length]; lia). pose proof (zlen_nonneg _ w). split; [lia|].
  rewrite Z.sub_diag. reflexivity.
Qed.
Lemma pick_sorted : forall fate n w, StronglySorted (fun a b => fst a < fst b) (pick n fate w).
Proof.
  induction fate as [|b fate IH]; intros n w; [constructor|]. destruct w as [|m w]; [destruct b; constructor|]. destruct b; cbn [pick]; [|apply IH].
  constructor; [apply IH|]. apply Forall_forall. intros p P. apply pick_bound in P. cbn [fst]. lia.
Qed.
Lemma sorted_app : forall {A} (R : A -> A -> Prop) a b, StronglySorted R (a ++ b) -> StronglySorted R a.
Proof. induction a as [|x a IH]; intros b H; [constructor|]. inversion_clear H as [|? ? S F]. constructor; [exact (IH _ S)|]. apply Forall_app in F. apply F. Qed.
Lemma pick_wr : forall fate w, zlen w < 2 ^ 64 -> map wr (pick 0 fate w) = pick 0 fate w.
Proof.
  intros fate w W. rewrite <- (map_id (pick 0 fate w)) at 2. apply map_ext_in. intros [n m] P. apply pick_bound in P. cbn [fst snd] in P. unfold wr. cbn [fst snd]. f_equal. unfold wrap64. apply Z.mod_small. lia.
Qed.
Lemma vstep_full : forall ms v v', fold_left vstep ms (VLive v) = VLive v' -> exists x, v_full v' = v_full v ++ x.
Proof.
  induction ms as [|m ms IH]; intros v v' H; [injection H as <-; exists []; rewrite app_nil_r; reflexivity|]. cbn [fold_left] in H.
  assert (Q : exists v1 x, vstep (VLive v) m = VLive v1 /\ v_full v1 = v_full v ++ x).
  { destruct (vstep (VLive v) m) as [|v1|] eqn:E.
    - destruct m; cbn in E; try discriminate E; destruct (v_end v); discriminate E.
    - exists v1. destruct m as [|more b|k|]; cbn in E; try discriminate E; (destruct (v_end v); [discriminate E|]); injection E as <-.
      + unfold vdata. destruct (v_part v) as [[n x]|]; destruct more; cbn; eexists; (split; [reflexivity|]); try reflexivity; rewrite app_nil_r; reflexivity.
      + exists []. cbn. rewrite app_nil_r. auto.
      + exists []. cbn. rewrite app_nil_r. auto.
    - rewrite vstep_err in H. discriminate H. }
  destruct Q as (v1 & x & E & F). rewrite E in H. destruct (IH _ _ H) as (z & Z0). exists (x ++ z). rewrite Z0, F, app_assoc. reflexivity.
Qed.

Section Y.
Variables (id : Z) (ret : option Z) (meta : list Z).
Hypothesis Hid : is_u64 id.
Hypothesis Hret : match ret with Some r => is_u64 r | None => True end.
Hypothesis Hmeta : bytes_ok meta.
Variable l : list op.
Hypothesis Hok : Forall ok_op l.
Let y := run l (sys0 id ret meta).
Hypothesis Hfew : few y.
Let inv : INV id ret meta true y := reach id ret meta Hid Hret Hmeta l Hok Hfew.

(** what the receiver has, against what the sender has written *)
Lemma got_pick : forall r, y_r y = Some r -> exists fs x, g_buf r = fs ++ x /\ Forall (fun m => r_complete m = true) fs /\ exists rest, pick 0 (f_fate (y_s y)) (f_written (y_s y)) = g_got r ++ map mv fs ++ rest.
Proof.
  intros r R. destruct inv as [I1 I2 I3 I4 I5 (ms & X & st & A1 & A2 & A3 & A4 & A5)]. unfold link in A5. rewrite R in A5. destruct A5 as (v & pre & B1 & B2 & B3 & B4 & B5 & B6 & B7).
  destruct (ri_shape _ _ _ _ _ _ _ _ B4) as (fs & p & S1 & S2 & S3 & S4). exists fs, p. split; [exact S1|]. split; [exact S2|].
  unfold sees in A3. assert (W : zlen (f_written (y_s y)) < 2 ^ 64) by (unfold few in Hfew; lia).
  assert (Q : exists v', st = VLive v' /\ SV (y_s y) v').
  { destruct (f_hello (y_s y)); [|exact A3]. destruct A3 as (-> & _). exfalso. clear - B7. revert v B7. induction ms as [|m ms IH]; intros v B7; [discriminate B7|]. cbn [fold_left] in B7.
    destruct (vstep (VLive v) m) as [|v1|] eqn:E; [|exact (IH _ B7)|rewrite vstep_err in B7; discriminate B7]. destruct m; cbn in E; try discriminate E; destruct (v_end v); discriminate E. }
  destruct Q as (v' & -> & S). destruct (vstep_full _ _ _ B7) as (z & Z0). exists (map wr z). rewrite <- (pick_wr _ _ W), <- (sv_full _ _ S), Z0, map_app, S3, app_assoc. reflexivity.
Qed.
Lemma faithful_got : forall r, y_r y = Some r -> faithful (f_written (y_s y)) (g_got r).
Proof.
  intros r R. destruct (got_pick r R) as (fs & x & _ & _ & rest & P). split.
  - apply (sorted_app _ _ (map mv fs ++ rest)). rewrite <- P. apply pick_sorted.
  - apply Forall_forall. intros p Q. assert (Q' : In p (pick 0 (f_fate (y_s y)) (f_written (y_s y)))) by (rewrite P; apply in_or_app; left; exact Q).
    apply pick_bound in Q'. rewrite Z.sub_0_r in Q'. split; [lia|apply Q'].
Qed.
Lemma no_error : y_bad y = false.
Proof. apply (i_bad _ _ _ _ _ inv). Qed.
(** when the receiver has had everything sent *)
Lemma drained : forall r, y_r y = Some r -> y_fwd y = [] -> exists v, SV (y_s y) v /\ shape r v /\ f_hello (y_s y) = None /\ g_complete r = v_end v /\ (v_end v = true -> v_part v = None).
Proof.
  intros r R Q. destruct inv as [I1 I2 I3 I4 I5 (ms & X & st & A1 & A2 & A3 & A4 & A5)]. unfold link in A5. rewrite R in A5. destruct A5 as (v & pre & B1 & B2 & B3 & B4 & B5 & B6 & B7).
  rewrite Q in A1. destruct ms; [|discriminate A1]. cbn in B7. subst st. exists v. unfold sees in A3. destruct (f_hello (y_s y)); [destruct A3; discriminate|]. destruct A3 as (v' & E & S). injection E as <-.
  split; [exact S|]. split; [apply (ri_shape _ _ _ _ _ _ _ _ B4)|]. split; [reflexivity|]. split; [apply (ri_end _ _ _ _ _ _ _ _ B4)|apply (ri_endpart _ _ _ _ _ _ _ _ B4)].
Qed.
Lemma all_got : forall r, y_r y = Some r -> y_fwd y = [] -> f_buf (y_s y) = [] -> f_abandon (y_s y) = 0 -> g_open r = true -> g_paused r = false -> g_pending r = false ->
  g_got r = pick 0 (f_fate (y_s y)) (f_written (y_s y)) /\ length (f_fate (y_s y)) = length (f_written (y_s y)).
Proof.
  intros r R Q B A O P N. destruct (drained r R Q) as (v & S & (fs & p & S1 & S2 & S3 & S4) & HN & C & EP). assert (W : zlen (f_written (y_s y)) < 2 ^ 64) by (unfold few in Hfew; lia).
  assert (VP : v_part v = None).
  { destruct (f_closed (y_s y)) eqn:CL; [apply EP; rewrite (sv_end _ _ S); exact CL|]. destruct (sv_part _ _ S CL) as [_ SP]. destruct (v_part v) as [[n x]|]; [|reflexivity].
    destruct (SP n x eq_refl) as (_ & _ & SP' & _). specialize (SP' A). rewrite B in SP'. destruct SP'. }
  rewrite VP in S4. subst p. rewrite app_nil_r in S1.
  assert (PDr : PD r). { destruct inv as [I1 I2 I3 I4 I5 (ms & X & st & A1 & A2 & A3 & A4 & A5)]. unfold link in A5. rewrite R in A5. destruct A5 as (v' & pre & B1 & B2 & B3 & B4 & B5 & _). exact B5. }
  assert (fs = []) as ->. { destruct fs as [|m fs]; [reflexivity|]. specialize (PDr O P). rewrite S1 in PDr. inversion_clear S2. specialize (PDr ltac:(assumption)). congruence. }
  cbn in S3. rewrite app_nil_r in S3. split; [rewrite <- S3, (sv_full _ _ S); apply pick_wr; exact W|].
  destruct (sv_w _ _ S) as (w1 & W1 & W2). rewrite W1, B, app_nil_r. congruence.
Qed.
Lemma completed : forall r, y_r y = Some r -> (g_done r <= 1)%nat /\ (g_done r = 1%nat -> f_open (y_s y) = false /\ f_buf (y_s y) = [] /\ g_got r = pick 0 (f_fate (y_s y)) (f_written (y_s y)) /\ length (f_fate (y_s y)) = length (f_written (y_s y))).
Proof.
  intros r R. pose proof inv as [I1 I2 I3 I4 I5 (ms & X & st & A1 & A2 & A3 & A4 & A5)]. unfold link in A5. rewrite R in A5. destruct A5 as (v & pre & B1 & B2 & B3 & B4 & B5 & B6 & B7).
  destruct (ri_done _ _ _ _ _ _ _ _ B4) as (D1 & D2 & D3). split; [exact D2|]. intros D. destruct (D3 D) as (C & GB & _).
  assert (VE : v_end v = true) by (rewrite <- (ri_end _ _ _ _ _ _ _ _ B4); exact C).
  assert (ms = []) as -> by (apply (vstep_end ms v VE); rewrite B7; intros ->; exact (sees_err _ A3)).
  destruct (drained r R A1) as (v' & S & (fs & p & S1 & S2 & S3 & S4) & HN & C' & EP). assert (W : zlen (f_written (y_s y)) < 2 ^ 64) by (unfold few in Hfew; lia).
  assert (CL : f_closed (y_s y) = true) by (rewrite <- (sv_end _ _ S); congruence). destruct (sv_closed _ _ S CL) as (FO & FB & FA). split; [exact FO|]. split; [exact FB|].
  rewrite GB in S1. symmetry in S1. apply app_eq_nil in S1. destruct S1 as [-> ->]. cbn in S3. rewrite app_nil_r in S3. split; [rewrite <- S3, (sv_full _ _ S); apply pick_wr; exact W|].
  destruct (sv_w _ _ S) as (w1 & W1 & W2). rewrite W1, FB, app_nil_r. congruence.
Qed.
(** the window *)
Lemma window : forall r, quiet y r -> f_sent (y_s y) = wrap64 (f_acked (y_s y) + g_rcvd r) /\ 0 <= g_rcvd r /\ (g_rcvd r = 0 \/ 2 * g_rcvd r < f_avail (y_s y)) /\ f_through (y_s y) = wrap64 (f_acked (y_s y) + f_avail (y_s y)) /\
  (g_paused r = true \/ g_complete r = true \/ f_avail (y_s y) = g_cap r).
Proof.
  intros r (Q1 & Q2 & R & AN). pose proof inv as [I1 I2 I3 I4 I5 (ms & X & st & A1 & A2 & A3 & A4 & A5)]. unfold link in A5. rewrite R in A5. destruct A5 as (v & pre & B1 & B2 & B3 & B4 & B5 & B6 & B7).
  rewrite Q1 in A1. rewrite Q2 in B2. destruct ms; [|discriminate A1]. destruct pre; [|discriminate B2].
  destruct B4 as [H1 H2 H3 H4 H5 H6 H7 H8 H9 H10 (outs & O1 & O2 & O3 & O4 & O5 & O6 & O7)].
  assert (outs = []) as -> by (rewrite (B6 eq_refl) in O1; destruct outs; [reflexivity|discriminate O1]). cbn [ladv fold_left List.app sumd] in O4, O6, O7. unfold ackst in O7. rewrite AN in *. cbn in H10, O7.
  cbn [sizes fold_right] in A4. rewrite Z.add_0_r, <- O4, wrap_add_r in A4. split; [symmetry; exact A4|]. split; [apply H8|]. split; [destruct H10 as [H10|[H10|H10]]; [discriminate|right; lia|left; exact H10]|]. split; [exact I5|].
  destruct O7 as [O7|[O7|[O7|O7]]]; [right; left; apply (H9 O7)|discriminate|left; exact O7|right; right; exact O7].
Qed.
Lemma unblocked : forall r chunk, quiet y r -> g_paused r = false -> 0 < g_cap r < 2 ^ 63 -> f_acked (y_s y) < 2 ^ 63 -> f_buf (y_s y) <> [] -> 0 < chunk -> fst (s_transmit chunk (y_s y)) <> None.
Proof.
  intros r chunk Q P CAP AC NB CH. destruct (window r Q) as (W1 & W2 & W3 & W4 & W5). destruct Q as (Q1 & Q2 & R & AN). destruct (drained r R Q1) as (v & S & _ & HN & C & _).
  assert (CF : g_complete r = false). { destruct (g_complete r) eqn:E; [|reflexivity]. exfalso. apply NB. apply (sv_closed _ _ S). rewrite <- (sv_end _ _ S). congruence. }
  assert (AV : f_avail (y_s y) = g_cap r) by (destruct W5 as [W5|[W5|W5]]; congruence).
  pose proof (proj1 (proj2 (i_u _ _ _ _ _ inv))) as UA. unfold is_u64, U64MAX in UA.
  assert (LT : f_sent (y_s y) < f_through (y_s y)). { rewrite W1, W4, AV. rewrite AV in W3. unfold wrap64. rewrite !Z.mod_small by lia. lia. }
  assert (WW : zlen (f_written (y_s y)) < 2 ^ 64) by (unfold few in Hfew; lia).
  unfold s_transmit. rewrite HN. cbv zeta. destruct (trim_fields (y_s y)) as (T1 & T2 & T3 & T4 & T5 & T6 & T7 & T8 & T9 & T10).
  destruct (Z.gtb_spec (f_abandon (s_trim (y_s y))) 0) as [GA|GA]; [discriminate|]. destruct (_ && negb _) eqn:CC; [discriminate|]. rewrite T6, T7. destruct (Z.geb_spec (f_sent (y_s y)) (f_through (y_s y))) as [GE|GE]; [lia|].
  assert (TB : f_buf (s_trim (y_s y)) = f_buf (y_s y)).
  { revert GA. unfold s_trim. destruct (f_buf (y_s y)) as [|w b] eqn:FB; [congruence|]. cbn [trim_loop]. destruct (f_exc (y_s y) || w_gone w) eqn:G; [|intros _; cbn; reflexivity].
    intros GA. exfalso.
    assert (M : forall exc b a fate, 0 < a -> a + zlen b < 2 ^ 64 -> let '(_, a', _) := trim_loop exc b a fate in 0 < a').
    { clear. intros exc. induction b as [|w b IH]; intros a fate A0 AB; cbn [trim_loop]; [exact A0|]. destruct (exc || w_gone w); [|exact A0]. unfold zlen in AB. cbn [length] in AB.
      assert (E : wrap64 (a + 1) = a + 1) by (unfold wrap64; apply Z.mod_small; lia). rewrite E. apply IH; [lia|unfold zlen; lia]. }
    pose proof (sv_ab _ _ S) as AB. pose proof (sv_len _ _ S) as SL. rewrite FB in SL. unfold zlen in SL. cbn [length] in SL. unfold zlen in AB, WW.
    assert (E : wrap64 (f_abandon (y_s y) + 1) = f_abandon (y_s y) + 1) by (unfold wrap64; apply Z.mod_small; lia). rewrite E in GA.
    specialize (M (f_exc (y_s y)) b (f_abandon (y_s y) + 1) (f_fate (y_s y) ++ [false]) ltac:(lia) ltac:(unfold zlen; lia)). destruct (trim_loop _ _ _ _) as [[b' a'] fate']. cbn in GA. lia. }
  unfold s_fragment. rewrite TB. destruct (f_buf (y_s y)) as [|w b]; [congruence|]. cbv zeta. rewrite T6, T7. destruct (Z.eqb_spec (Z.min 1048576 (Z.min chunk (f_through (y_s y) - f_sent (y_s y)))) 0) as [Z0|Z0]; [lia|discriminate].
Qed.
(** no fragment is sent beyond the window *)
Lemma within : forall chunk m g more i b, is_u64 chunk -> s_transmit chunk (y_s y) = (Some m, g) -> parse m = Ok (MData more i b) -> i = id /\ f_sent (y_s y) < f_through (y_s y) /\ zlen b <= f_through (y_s y) - f_sent (y_s y) /\ zlen b <= chunk.
Proof.
  intros chunk m g more i b CH T PM. pose proof inv as [I1 I2 I3 I4 I5 (ms & X & st & A1 & A2 & A3 & A4 & A5)]. assert (WW : zlen (f_written (y_s y)) < 2 ^ 64) by (unfold few in Hfew; lia).
  unfold sees in A3. unfold s_transmit in T. destruct (f_hello (y_s y)) as [h|] eqn:HE.
  { destruct I3 as [I3|I3]; [discriminate|]. injection I3 as ->. injection T as <- _. rewrite parse_open in PM by assumption. discriminate PM. }
  destruct A3 as (v & _ & S). cbv zeta in T. destruct (trim_fields (y_s y)) as (T1 & T2 & T3 & T4 & T5 & T6 & T7 & T8 & T9 & T10). pose proof (trim_sv _ _ S WW) as S'.
  destruct (Z.gtb_spec (f_abandon (s_trim (y_s y))) 0) as [GA|GA].
  { injection T as <- _. rewrite T1, I2, parse_abandon in PM; [discriminate PM|assumption|]. pose proof (sv_ab _ _ S'). pose proof (sv_len _ _ S'). rewrite T10 in *. pose proof (zlen_nonneg _ (f_buf (s_trim (y_s y)))). lia. }
  destruct (_ && negb _) eqn:CC.
  { injection T as <- _. rewrite T1, I2, parse_close in PM by assumption. discriminate PM. }
  rewrite T6, T7 in T. destruct (Z.geb_spec (f_sent (y_s y)) (f_through (y_s y))) as [GE|GE]; [discriminate T|].
  assert (CL : f_closed (s_trim (y_s y)) = false).
  { destruct (f_closed (s_trim (y_s y))) eqn:CL; [|reflexivity]. destruct (sv_closed _ _ S' CL) as (_ & FB & _). unfold s_fragment in T. rewrite FB in T. discriminate T. }
  assert (A0 : f_abandon (s_trim (y_s y)) = 0) by (pose proof (sv_ab _ _ S'); lia).
  destruct (fragment_sv id ret meta _ v chunk (Some m) g S' ltac:(congruence) CL A0 ltac:(rewrite T10; exact WW) CH ltac:(rewrite T6, T7; exact GE) T) as (_ & _ & t & v' & -> & FT & _ & _ & _ & more' & b' & -> & Z1 & Z2).
  cbn [encf] in PM. rewrite parse_data in PM by assumption. injection PM as <- <- <-. rewrite T6, T7 in Z1. auto.
Qed.
End Y.

(** nothing is given up of itself *)
Definition whole (f : sflow) : Prop := f_exc f = false -> Forall (fun w => w_gone w = false) (f_buf f) /\ Forall (eq true) (f_fate f).
Lemma trim_whole : forall f, whole f -> whole (s_trim f).
Proof.
  intros f H. unfold s_trim, whole. destruct (trim_loop (f_exc f) (f_buf f) (f_abandon f) (f_fate f)) as [[b a] fate] eqn:T. cbn. intros E. destruct (H E) as [B F]. rewrite E in T.
  destruct (f_buf f) as [|w b0]; cbn [trim_loop] in T; [injection T as <- _ <-; auto|]. inversion_clear B as [|? ? G B']. rewrite G in T. cbn in T. injection T as <- _ <-. auto.
Qed.
Lemma transmit_whole : forall c f, whole f -> whole (snd (s_transmit c f)).
Proof.
  intros c f H. unfold s_transmit. destruct (f_hello f); [exact H|]. cbv zeta. pose proof (trim_whole f H) as T. set (g := s_trim f) in *. clearbody g. destruct (_ >? 0); [exact T|]. destruct (_ && negb _); [exact T|]. destruct (_ >=? _); [exact T|].
  unfold s_fragment. destruct (f_buf g) as [|w b] eqn:B; [exact T|]. cbv zeta. destruct (_ =? 0); [exact T|]. unfold whole in *. rewrite B in T. cbn. intros E. destruct (T E) as [G F]. inversion_clear G. destruct (_ =? zlen _).
  - split; [assumption|]. apply Forall_app. auto.
  - split; [constructor; assumption|exact F].
Qed.
Lemma step_whole : forall y o, keeps o -> whole (y_s y) -> whole (y_s (step y o)).
Proof.
  intros y o K H. unfold step. rewrite settle_s. destruct o as [m|n| | |chunk|assoc acts|cbs|a| | |]; cbn [with_s y_s]; try exact H; try (unfold on_r; destruct (y_r y); exact H).
  - unfold s_write. destruct (f_open (y_s y)); [|exact H]. unfold whole in *. cbn. intros E. destruct (H E) as [G F]. split; [apply Forall_app; auto|exact F].
  - destruct K.
  - apply trim_whole. exact H.
  - pose proof (transmit_whole chunk _ H) as T. destruct (s_transmit chunk (y_s y)) as [[x|] f]; exact T.
  - destruct (y_fwd y); [exact H|]. unfold on_fwd. repeat match goal with |- context [match ?x with _ => _ end] => destruct x; cbn [y_s fail with_r]; try exact H end.
  - destruct (y_back y) as [|m q]; [exact H|]. unfold on_back. cbv zeta. destruct (parse m) as [[]| |]; cbn [y_s fail with_s y_gone]; try exact H; match goal with |- context [if ?x then _ else _] => destruct x end; cbn [y_s fail with_s]; try exact H.
    unfold s_exception. match goal with |- whole (s_trim ?x) => destruct (trim_fields x) as (_ & _ & _ & _ & T5 & _) end. intros E. rewrite T5 in E. discriminate E.
Qed.
Lemma run_whole : forall l y, Forall keeps l -> whole (y_s y) -> whole (y_s (run l y)).
Proof. induction l as [|o l IH]; intros y F H; [exact H|]. inversion_clear F. apply (IH (step y o)); [assumption|]. apply step_whole; assumption. Qed.
Lemma all_kept : forall id ret meta l, Forall keeps l -> let y := run l (sys0 id ret meta) in f_exc (y_s y) = false -> Forall (eq true) (f_fate (y_s y)).
Proof. intros id ret meta l K y E. apply (run_whole l (sys0 id ret meta) K); [|exact E]. intros _. cbn. auto. Qed.
