(** C70, C71: the alarms of an open session.  Theorems only; each is followed by a concrete case. *)
From Verif Require Import Base BaseFacts Alive AliveSpec AliveProofs AliveLive AliveHist AlivePropProofs AliveDead.

(** C70: a session is given up as dead only by the timeout alarm, with data or a keepalive in flight, when no ack and no ping reply has come
    for the whole retransmit limit (at least one second), and not before the last data has been out for the retransmission timeout. *)
Theorem C70_dead_only : forall E t0 r resp rl kp il m x es t e,
  0 <= r <= x -> 0 <= m <= E -> x <= E ->
  in_order t0 es -> last_time t0 es <= t -> Forall (measured E) (map snd es) -> Forall (slow r) (map snd es) ->
  let s := arun (open_session t0 resp rl kp il m x) es in
  a_end s = None -> a_end (astep s t e) = Some Dead ->
  e = ATimeout /\ (a_out s = true \/ a_kout s = true)
  /\ exists l, a_rlim s = Some l /\ MIN_PERIOD <= l /\ t0 + l <= t
     /\ (forall t' e', In (t', e') es -> answer e' -> t' + l <= t)
     /\ (forall t', In (t', AData) es -> t' + r <= t).
Proof. exact dead_only. Qed.
Print Assumptions C70_dead_only.

Definition sec (n : Z) := n * 1000000.
Definition ex_open := open_session 0 false (Some (sec 2)) (Some (sec 30)) None 250000 250000.
(** data at 1 s, acked; data at 5 s never answered: lost at 5.25 s and 5.6 s, given up at 7.1 s *)
Definition ex_dying : list (Z * aev) :=
  [ (0, AKeepalive); (0, AIdle); (0, ABind); (sec 1, AData); (1100000, AAck false true); (1250000, ATimeout); (1350000, ATimeout); (1350000, AKeepalive);
    (sec 5, AData); (5250000, ATimeout); (5250000, AMeasure 250000 350000); (5250000, AData); (5600000, ATimeout); (5600000, AMeasure 250000 1500000);
    (5600000, AData) ].
Example C70_dead_only_case :
  a_end (arun ex_open ex_dying) = None /\ a_end (arun ex_open (ex_dying ++ [(7100000, ATimeout)])) = Some Dead
  /\ a_end (arun ex_open (ex_dying ++ [(7099999, ATimeout)])) = None
  /\ a_end (arun ex_open (ex_dying ++ [(6000000, APingReply); (7100000, ATimeout)])) = None.
Proof. vm_compute. repeat split. Qed.

(** C70: and then there is a moment, at least the retransmit limit ago but for one timeout, at which data or a keepalive was in flight,
    and since which no answer has come. *)
Theorem C70_dead_unanswered : forall E D t0 resp rl kp il m x es t e,
  0 <= m <= E -> 0 <= x <= E -> 0 <= D ->
  in_order t0 es -> last_time t0 es <= t -> Forall (measured E) (map snd es) ->
  let s0 := open_session t0 resp rl kp il m x in
  punctual D s0 es ->
  a_end (arun s0 es) = None -> a_end (astep (arun s0 es) t e) = Some Dead ->
  exists p q l, es = p ++ q /\ a_rlim (arun s0 es) = Some l
    /\ last_time t0 p + l <= t + E + D /\ (a_out (arun s0 p) = true \/ a_kout (arun s0 p) = true)
    /\ Forall (fun te => ~ answer (snd te)) q.
Proof. exact dead_unanswered. Qed.
Print Assumptions C70_dead_unanswered.
Example C70_dead_unanswered_case :
  punctual 0 ex_open ex_dying /\ in_order 0 ex_dying /\ last_time 0 (firstn 9 ex_dying) = sec 5 /\ a_out (arun ex_open (firstn 9 ex_dying)) = true
  /\ Forall (fun te => ~ answer (snd te)) (skipn 9 ex_dying).
Proof.
  split; [unfold ex_dying; repeat (split; [unfold due; vm_compute; repeat split; intros ? Hx; try discriminate Hx; injection Hx as <-; discriminate|]); exact I|].
  split; [vm_compute; repeat split; discriminate|]. split; [reflexivity|]. split; [vm_compute; reflexivity|].
  cbn. repeat constructor; intros H; exact H.
Qed.

(** C70: if nothing comes from the peer any more, the session ends, unless it still sends data, and then at most two timeouts after the
    last data: with keepalives on, a retransmit limit set, measured timeouts of at most [E] and alarms late by at most [D]. *)
Theorem C70_detected_partial : forall E D t00 resp rl kp il m x pre es k l,
  0 <= m <= E -> 0 <= x <= E -> 0 <= D ->
  in_order t00 (pre ++ es) -> Forall (measured E) (map snd (pre ++ es)) ->
  let s := arun (open_session t00 resp rl kp il m x) pre in
  let t0 := last_time t00 pre in
  a_end s = None -> a_kper s = Some k -> a_rlim s = Some l -> watched s ->
  Forall quiet (map snd es) -> punctual D s es ->
  a_end (arun s es) = None ->
  last_time t0 es <= t0 + k + l + 4 * E + 5 * D
  \/ exists t', In (t', AData) es /\ last_time t0 es <= t' + 2 * E + 2 * D.
Proof. exact detected. Qed.
Print Assumptions C70_detected_partial.

(** idle since 1.35 s; the keepalive goes out at 31 s, again at each timeout, and the session is over at 33 s *)
Definition ex_quiet : list (Z * aev) :=
  [ (sec 31, AKeepalive); (31250000, ATimeout); (31500000, ATimeout); (sec 32, AMeasure 250000 1500000); (sec 32, AData); (32000000, ATimeout); (33500000, ATimeout) ].
Example C70_detected_case :
  let s := arun ex_open (firstn 8 ex_dying) in
  a_end s = None /\ watched s /\ punctual 500000 s ex_quiet /\ in_order (last_time 0 (firstn 8 ex_dying)) ex_quiet
  /\ Forall quiet (map snd ex_quiet) /\ a_end (arun s (firstn 6 ex_quiet)) = None /\ a_end (arun s ex_quiet) = Some Dead.
Proof.
  cbn zeta. assert (E : arun ex_open (firstn 8 ex_dying) = ltac:(let v := eval vm_compute in (arun ex_open (firstn 8 ex_dying)) in exact v)) by (vm_compute; reflexivity).
  rewrite E. split; [reflexivity|]. split; [left; discriminate|]. split.
  - unfold ex_quiet. repeat (split; [unfold due; vm_compute; repeat split; intros ? Hx; try discriminate Hx; injection Hx as <-; discriminate|]). exact I.
  - split; [vm_compute; repeat split; discriminate|]. split; [repeat constructor|]. split; vm_compute; reflexivity.
Qed.

(** What is missing: the keepalive timer is only started again by a timeout that finds nothing in flight.  If it was used up by a
    keepalive, and then the peer closes the receive window while some data is in flight and disappears, the timeout of that data leaves no
    alarm behind: the session is never given up. *)
Definition ex_stuck : list (Z * aev) :=
  [ (0, AKeepalive); (0, AIdle); (sec 1, ABind); (sec 10, AIdle); (sec 20, AIdle); (sec 30, AIdle); (sec 30, AKeepalive);
    (30100000, APingReply); (30200000, AData); (30250000, ATimeout); (30300000, AData); (30400000, AAck true false); (30450000, ATimeout);
    (30550000, ATimeout); (30650000, ATimeout) ].
Theorem C70_detected_refuted : exists pre k l,
  let s := arun (open_session 0 false (Some (sec 60)) (Some (sec 30)) (Some (sec 10)) 250000 250000) pre in
  punctual 0 (open_session 0 false (Some (sec 60)) (Some (sec 30)) (Some (sec 10)) 250000 250000) pre /\ in_order 0 pre
  /\ a_end s = None /\ a_kper s = Some k /\ a_rlim s = Some l
  /\ forall es, Forall alarms_only (map snd es) -> a_end (arun s es) = None /\ a_kout (arun s es) = false /\ a_klast (arun s es) = a_klast s.
Proof.
  exists ex_stuck, (sec 30), (sec 60). cbv zeta.
  split; [unfold ex_stuck; repeat (split; [unfold due; vm_compute; repeat split; intros ? Hx; try discriminate Hx; injection Hx as <-; discriminate|]); exact I|].
  split; [vm_compute; repeat split; discriminate|].
  set (s := arun _ ex_stuck).
  assert (Hs : a_end s = None /\ a_kper s = Some (sec 30) /\ a_rlim s = Some (sec 60) /\ a_tmo s = None /\ a_ktimer s = None /\ a_kout s = false /\ a_flows s = 1%nat)
    by (vm_compute; repeat split).
  destruct Hs as (H1 & H2 & H3 & H4 & H5 & H6 & H7). split; [assumption|]. split; [assumption|]. split; [assumption|].
  clearbody s. intros es. remember (a_klast s) as kl eqn:Hkl. symmetry in Hkl. clear H2 H3.
  revert s H1 H4 H5 H6 H7 Hkl. induction es as [|(t, e) r IH]; intros s H1 H4 H5 H6 H7 Hkl Hq; [auto|].
  cbn [map snd] in Hq. inversion Hq; subst. cbn [arun]. apply IH; try assumption; unfold astep; rewrite ?H1; destruct e; cbn in *; try contradiction; rewrite ?H4, ?H5; auto.
  all: destruct (a_itimer s) as [w|]; auto; destruct (reached t w); auto; unfold on_idle; destruct (negb _); auto; rewrite H7; cbn; auto.
Qed.
Print Assumptions C70_detected_refuted.

(** C70: a keepalive is sent only when nothing has been sent for the keepalive period, and it always leaves the timeout alarm set. *)
Theorem C70_keepalive_only : forall E t0 resp rl kp il m x es t e,
  0 <= m <= E -> 0 <= x <= E ->
  in_order t0 es -> last_time t0 es <= t -> Forall (measured E) (map snd es) ->
  let s := arun (open_session t0 resp rl kp il m x) es in
  a_end s = None -> a_kout s = false -> a_kout (astep s t e) = true ->
  e = AKeepalive /\ exists k, a_kper s = Some k /\ t0 + k <= t
     /\ (forall t' e', In (t', e') es -> traffic e' -> t' + k <= t)
     /\ a_tmo (astep s t e) <> None.
Proof. exact ping_only. Qed.
Print Assumptions C70_keepalive_only.
Example C70_keepalive_only_case :
  let s := arun ex_open (firstn 8 ex_dying) in
  a_kout s = false /\ a_kout (astep s (sec 31) AKeepalive) = true /\ a_kout (astep s (sec 31 - 1) AKeepalive) = false.
Proof. vm_compute. repeat split. Qed.

(** C71: a session is closed as idle only if it has no flow, and has had none for the whole idle limit. *)
Theorem C71_idle_only : forall E t0 resp rl kp il m x es t e,
  0 <= m <= E -> 0 <= x <= E ->
  in_order t0 es -> last_time t0 es <= t -> Forall (measured E) (map snd es) ->
  let s := arun (open_session t0 resp rl kp il m x) es in
  a_end s = None -> a_end (astep s t e) = Some Idle ->
  e = AIdle /\ a_flows s = 0%nat /\ exists l, a_ilim s = Some l /\ t0 + l <= t
     /\ forall t' e', In (t', e') es -> flow_change e' -> t' + l <= t.
Proof. exact idle_only. Qed.
Print Assumptions C71_idle_only.
Definition ex_open2 := open_session 0 true None None (Some (sec 10)) 250000 250000.
Definition ex_idle : list (Z * aev) := [ (0, AIdle); (sec 4, ABind); (sec 10, AIdle); (sec 12, AUnbind); (sec 20, AIdle) ].
Example C71_idle_only_case :
  a_end (arun ex_open2 ex_idle) = None /\ a_end (astep (arun ex_open2 ex_idle) (sec 22) AIdle) = Some Idle
  /\ a_end (astep (arun ex_open2 ex_idle) (sec 22 - 1) AIdle) = None.
Proof. vm_compute. repeat split. Qed.

(** C71: and a session without flows is closed when the idle limit is over, late by no more than the alarms are. *)
Theorem C71_idle_closes : forall E D t00 resp rl kp il m x pre es l,
  0 <= m <= E -> 0 <= x <= E -> 0 <= D ->
  in_order t00 (pre ++ es) -> Forall (measured E) (map snd (pre ++ es)) ->
  let s := arun (open_session t00 resp rl kp il m x) pre in
  let t0 := last_time t00 pre in
  a_end s = None -> a_ilim s = Some l -> a_flows s = 0%nat ->
  Forall (fun e => ~ flow_change e /\ forall i, e <> ASetIdle i) (map snd es) -> punctual D s es ->
  a_end (arun s es) = None ->
  last_time t0 es <= t0 + l + D.
Proof. exact idle_closes. Qed.
Print Assumptions C71_idle_closes.
Example C71_idle_closes_case :
  let pre := [ (0, AKeepalive); (0, AIdle); (sec 4, ABind); (sec 10, AIdle); (sec 12, AUnbind) ] in
  let es := [ (20000500, AIdle); (21000000, ASend) ] in
  let s := arun ex_open2 pre in
  a_end s = None /\ a_flows s = 0%nat /\ punctual 500 s es /\ a_end (arun s es) = None /\ a_end (arun s (es ++ [(22000500, AIdle)])) = Some Idle.
Proof.
  cbv zeta. split; [vm_compute; reflexivity|]. split; [vm_compute; reflexivity|]. split; [|split; vm_compute; reflexivity].
  repeat (split; [unfold due; vm_compute; repeat split; intros ? Hx; try discriminate Hx; injection Hx as <-; discriminate|]). exact I.
Qed.
