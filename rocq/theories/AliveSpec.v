(** Specification vocabulary for the session's alarms. *)
From Verif Require Import Base Alive.

(** Time does not run backwards, starting from [t]; the measured times are at most [E]. *)
Fixpoint in_order (t : Z) (es : list (Z * aev)) : Prop :=
  match es with [] => True | (t', _) :: r => t <= t' /\ in_order t' r end.
Definition measured (E : Z) (e : aev) : Prop := match e with AMeasure m r => 0 <= m <= E /\ 0 <= r <= E | _ => True end.
Definition last_time (t : Z) (es : list (Z * aev)) : Z := fold_left (fun _ te => fst te) es t.

(** The platform is not late by more than [D]: no event comes later than that after an alarm was due, or after lost fragments could be
    sent again. *)
Definition due (D now : Z) (s : al) : Prop :=
  (forall w, a_tmo s = Some w -> now <= w + D) /\ (forall w, a_ktimer s = Some (Some w) -> now <= w + D)
  /\ (forall w, a_itimer s = Some (Some w) -> now <= w + D) /\ (forall r, a_ready s = Some r -> now <= r + D).
Fixpoint punctual (D : Z) (s : al) (es : list (Z * aev)) : Prop :=
  match es with [] => True | (t, e) :: r => due D t s /\ punctual D (astep s t e) r end.

(** Something from the peer that shows that it hears us. *)
Definition answer (e : aev) : Prop := match e with AAck _ _ | APingReply => True | _ => False end.
(** A packet that counts as traffic for the keepalives. *)
Definition traffic (e : aev) : Prop := match e with AData | ASend | APing => True | _ => False end.
(** What can still happen when nothing comes from the peer and the application does not change the periods. *)
Definition quiet (e : aev) : Prop :=
  match e with AData | ATimeout | AKeepalive | AIdle | AMeasure _ _ | ABind | AUnbind | AClose => True | _ => False end.
(** Nothing is sent, and the alarms are all that can happen. *)
Definition alarms_only (e : aev) : Prop := match e with ATimeout | AKeepalive | AIdle | AMeasure _ _ => True | _ => False end.
Definition flow_change (e : aev) : Prop := match e with ABind | AUnbind => True | _ => False end.
(** There is something by which the silence of the peer would be noticed: the keepalive timer, or a flow that can send what it has. *)
Definition watched (s : al) : Prop := a_ktimer s <> None \/ a_room s = true.
(** The retransmission timeout is never below [r]. *)
Definition slow (r : Z) (e : aev) : Prop := match e with AMeasure _ x => r <= x | _ => True end.
