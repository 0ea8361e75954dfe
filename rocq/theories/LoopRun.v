(** Lemmas about the run loop: the cycles. *)
From Coq Require Import Sorting.Sorted.
From Verif Require Import Base BaseFacts Loop LoopSpec LoopProofs.

Lemma app_one_cons : forall A (l p r : list A) x y, l ++ [x] = p ++ y :: r ->
  (r = [] /\ l = p /\ x = y) \/ (exists r', r = r' ++ [x] /\ l = p ++ y :: r').
Proof.
  intros A l p r x y H. destruct r as [|z r] using rev_ind.
  - apply app_inj_tail in H. destruct H as [-> ->]. auto.
  - right. clear IHr. rewrite app_comm_cons, app_assoc in H. apply app_inj_tail in H. destruct H as [-> ->]. eauto.
Qed.

Lemma acts_ok_other : forall l x, acts_ok l -> (forall id, x <> Act id) -> acts_ok (l ++ [x]).
Proof.
  intros l x A H past id rest E. apply app_one_cons in E. destruct E as [(_ & _ & E)|(r' & _ & E)]; [exfalso; eapply H; eauto|]. eapply A; eauto.
Qed.
Lemma acts_ok_act : forall l id, acts_ok l -> act_ok l id -> acts_ok (l ++ [Act id]).
Proof.
  intros l id A H past i rest E. apply app_one_cons in E. destruct E as [(_ & -> & E)|(r' & _ & E)]; [injection E as ->; exact H|]. eapply A; eauto.
Qed.
Lemma order_ok_other : forall l x, order_ok l -> (forall id, x <> Act id) -> order_ok (l ++ [x]).
Proof.
  intros l x A H past i mid j rest fi ci fj cj E Hm Hi Hj. rewrite app_comm_cons, app_assoc in E. apply app_one_cons in E.
  destruct E as [(_ & _ & E)|(r' & _ & E)]; [exfalso; eapply H; eauto|].
  eapply (A past i mid j r'); eauto. rewrite E, <- app_assoc. reflexivity.
Qed.
Lemma order_ok_act : forall l j, order_ok l ->
  (forall past i mid fi ci fj cj, l = past ++ Act i :: mid -> (forall r, ~ In (Poll r) mid) -> In (Reg i fi ci) l -> In (Reg j fj cj) l -> (rank ci <= rank cj)%nat) ->
  order_ok (l ++ [Act j]).
Proof.
  intros l j A H past i mid k rest fi ci fk ck E Hm Hi Hk. rewrite app_comm_cons, app_assoc in E. apply app_one_cons in E.
  destruct E as [(_ & E1 & E2)|(r' & _ & E)].
  - injection E2 as <-. eapply H; eauto; subst l; apply in_or_app; left; [exact Hi|exact Hk].
  - eapply (A past i mid k r'); eauto. rewrite E, <- app_assoc. reflexivity.
Qed.
Lemma quiet_not_act : forall x, quiet x = true -> forall id, x <> Act id.
Proof. intros x H k ->. discriminate H. Qed.
Lemma acts_ok_quiet : forall d l, acts_ok l -> forallb quiet d = true -> acts_ok (l ++ d).
Proof.
  induction d as [|x d IH]; intros l A H; [rewrite app_nil_r; exact A|]. cbn in H. apply andb_prop in H. destruct H as [H1 H2].
  replace (l ++ x :: d) with ((l ++ [x]) ++ d) by (rewrite <- app_assoc; reflexivity). apply IH; auto. apply acts_ok_other; auto. apply quiet_not_act; exact H1.
Qed.
Lemma order_ok_quiet : forall d l, order_ok l -> forallb quiet d = true -> order_ok (l ++ d).
Proof.
  induction d as [|x d IH]; intros l A H; [rewrite app_nil_r; exact A|]. cbn in H. apply andb_prop in H. destruct H as [H1 H2].
  replace (l ++ x :: d) with ((l ++ [x]) ++ d) by (rewrite <- app_assoc; reflexivity). apply IH; auto. apply order_ok_other; auto. apply quiet_not_act; exact H1.
Qed.

Definition good (s : lp) : Prop := linv s /\ acts_ok (l_log s) /\ order_ok (l_log s).
Lemma good_steps : forall s s' d, good s -> steps s s' d -> good s'.
Proof.
  intros s s' d (I & A & O) (I' & E & Q & _). unfold good. rewrite E. split; [exact I'|]. split; [apply acts_ok_quiet|apply order_ok_quiet]; auto.
Qed.
Lemma good_callback : forall s o s' o', good s -> callback s o = (s', o') -> good s'.
Proof. intros s o s' o' G H. destruct (callback_steps _ _ _ _ (proj1 G) H) as [d S]. eapply good_steps; eauto. Qed.
Lemma good_log : forall s x, good s -> (forall id fd c, x <> Reg id fd c) -> (forall id, x <> Unreg id) -> (forall k, x <> Later k) -> (forall k, x <> Asked k) -> (forall id, x <> Act id) -> good (k_log s x).
Proof.
  intros s x (I & A & O) H1 H2 H3 H4 H5. split; [apply linv_log; auto|]. cbn [k_log l_log]. split; [apply acts_ok_other|apply order_ok_other]; auto.
Qed.

(** ** The activated items. *)
Definition somes (q : list (option nat)) : list nat := flat_map (fun x => match x with Some i => [i] | None => [] end) q.
Definition le_id (a : list lev) (i j : nat) : Prop := forall fi ci fj cj, In (Reg i fi ci) a -> In (Reg j fj cj) a -> (rank ci <= rank cj)%nat.
Definition asked (a : list lev) (ready : list (Z * list cond)) (id : nat) : Prop :=
  exists fd c evs, In (Reg id fd c) a /\ In (fd, evs) ready /\ In c evs.
(** In a cycle whose poll found [a] and reported [ready]; since then: [d]. *)
Definition in_cycle (s : lp) (a : list lev) (ready : list (Z * list cond)) (d : list lev) : Prop :=
  l_log s = a ++ Poll ready :: d /\ (forall r, ~ In (Poll r) d) /\ (l_stop s = true <-> In Stopped d).

Lemma in_cycle_steps : forall s s' a ready d e, in_cycle s a ready d -> steps s s' e -> in_cycle s' a ready (d ++ e).
Proof.
  intros s s' a ready d e (E & P & T) (_ & E' & Q & T' & _). split; [|split].
  - rewrite E', E, <- app_assoc. reflexivity.
  - intros r H. apply in_app_iff in H. destruct H as [H|H]; [eapply P; eauto|]. rewrite forallb_forall in Q. specialize (Q _ H). discriminate.
  - rewrite T', T, in_app_iff. tauto.
Qed.
Lemma in_cycle_log : forall s a ready d x, in_cycle s a ready d -> (forall r, x <> Poll r) -> x <> Stopped -> in_cycle (k_log s x) a ready (d ++ [x]).
Proof.
  intros s a ready d x (E & P & T) H1 H2. split; [|split]; cbn [k_log l_log l_stop].
  - rewrite E, <- app_assoc. reflexivity.
  - intros r H. apply in_app_iff in H. destruct H as [H|[H|[]]]; [eapply P; eauto|]. eapply H1; eauto.
  - rewrite T, in_app_iff. cbn. split; [auto|]. intros [H|[H|[]]]; auto. congruence.
Qed.

Definition item_event (x : lev) : bool := match x with Act _ => true | _ => quiet x end.

Lemma last_poll : forall a ready d p i mid, a ++ Poll ready :: d = p ++ Act i :: mid -> (forall r, ~ In (Poll r) mid) -> In (Act i) d.
Proof.
  intros a ready d p i mid. revert p. induction a as [|x a IH]; intros p E H.
  - destruct p as [|y p]; cbn in E; [discriminate|]. injection E as _ E. rewrite E. apply in_or_app. right. left. reflexivity.
  - destruct p as [|y p]; cbn in E.
    + injection E as _ E. exfalso. apply (H ready). rewrite <- E. apply in_or_app. right. left. reflexivity.
    + injection E as _ E. eapply IH; eauto.
Qed.

Lemma run_items_ok : forall q s o s' o' a ready d, good s -> in_cycle s a ready d ->
  (forall id, In id (somes q) -> asked a ready id) -> NoDup (somes q) -> StronglySorted (le_id a) (somes q) ->
  (forall id, In id (somes q) -> ~ In (Act id) d) ->
  (forall i, In (Act i) d -> asked a ready i) ->
  (forall i j, In (Act i) d -> In j (somes q) -> le_id a i j) ->
  run_items q s o = (s', o') ->
  exists e, good s' /\ in_cycle s' a ready (d ++ e) /\ forallb item_event e = true /\ (l_stop s = true -> e = []) /\
    (In Cleared e \/ exists t, l_later s' = l_later s ++ t) /\
    (l_stop s' = false -> forall id, In id (somes q) -> In (Act id) e \/ In (Unreg id) (l_log s')).
Proof.
  induction q as [|[id|] q IH]; intros s o s' o' a ready d G C HA HN HS HD HR HL H; cbn [run_items] in H.
  - injection H as <- <-. exists []. rewrite app_nil_r. spl; auto. right. exists []. rewrite app_nil_r. reflexivity.
  - cbn [somes flat_map app] in HA, HN, HS, HD, HL. fold (somes q) in HA, HN, HS, HD, HL.
    inversion HN as [|? ? HN1 HN2]; subst. inversion HS as [|? ? HS1 HS2]; subst.
    destruct (existsb (Nat.eqb id) (l_dead s)) eqn:DD; [|destruct (l_stop s) eqn:ST]; cbn [negb andb] in H.
    + destruct (IH s o s' o' a ready d) as (e & E1 & E2 & E3 & E4 & E5 & E6); auto; try (intros; (apply HA + apply HD + apply HL); cbn; auto).
      exists e. spl; auto. cbn [somes flat_map app]. fold (somes q). intros Hs i [<-|Hi]; [|auto]. right.
      apply existsb_exists in DD. destruct DD as (i & Hi & Ei). apply Nat.eqb_eq in Ei. subst i.
      destruct G as [[D _ _ _ _ _ _ _] _]. apply D in Hi. destruct C as (Cl & _). destruct E2 as (El & _). rewrite El. rewrite Cl in Hi.
      apply in_app_iff in Hi. apply in_app_iff. destruct Hi as [Hi|[Hi|Hi]]; [auto|discriminate|]. right. right. apply in_or_app. auto.
    + destruct (IH s o s' o' a ready d) as (e & E1 & E2 & E3 & E4 & E5 & E6); auto; try (intros; (apply HA + apply HD + apply HL); cbn; auto).
      exists e. spl; auto. intro Hs. exfalso. rewrite (E4 ST) in E2. rewrite app_nil_r in E2. destruct E2 as (_ & _ & T). destruct C as (_ & _ & T').
      assert (X : l_stop s' = true) by (apply T, T'; exact ST). congruence.
    + destruct (callback (k_log s (Act id)) o) as [s1 o1] eqn:CB.
      assert (GA : good (k_log s (Act id))).
      { destruct G as (I & A & O). split; [apply linv_log; auto; congruence|]. cbn [k_log l_log].
        assert (NU : ~ In (Unreg id) (l_log s)).
        { intro Hu. apply (li_dead _ I) in Hu. assert (X : existsb (Nat.eqb id) (l_dead s) = true) by (apply existsb_exists; exists id; split; [exact Hu|apply Nat.eqb_refl]). congruence. }
        split.
        - apply acts_ok_act; [exact A|]. destruct (HA id) as (fd & c & evs & H1 & H2 & H3); [left; reflexivity|].
          destruct C as (Cl & CP & CT). exists a, ready, d, fd, c, evs. spl; auto.
          + apply HD. left. reflexivity.
          + intro Hs. apply CT in Hs. congruence.
        - apply order_ok_act; [exact O|]. intros past i mid fi ci fj cj E Hm Hi Hj.
          destruct C as (Cl & CP & CT). assert (Hid : In (Act i) d) by (eapply last_poll; [rewrite <- Cl; exact E|exact Hm]).
          destruct (HR i Hid) as (f1 & c1 & e1 & R1 & _). destruct (HA id) as (f2 & c2 & e2 & R2 & _); [left; reflexivity|].
          assert (X := HL i id Hid (or_introl eq_refl) _ _ _ _ R1 R2).
          assert (R1' : In (Reg i f1 c1) (l_log s)) by (rewrite Cl; apply in_or_app; auto).
          assert (R2' : In (Reg id f2 c2) (l_log s)) by (rewrite Cl; apply in_or_app; auto).
          destruct (li_one _ I _ _ _ _ _ Hi R1') as [_ ->]. destruct (li_one _ I _ _ _ _ _ Hj R2') as [_ ->]. exact X. }
      destruct (callback_steps _ _ _ _ (proj1 GA) CB) as [e1 S1].
      assert (G1 := good_steps _ _ _ GA S1).
      assert (C1 : in_cycle s1 a ready ((d ++ [Act id]) ++ e1)).
      { eapply in_cycle_steps; [|exact S1]. apply in_cycle_log; auto; congruence. }
      assert (Q1 : forall i, In (Act i) ((d ++ [Act id]) ++ e1) -> i = id \/ In (Act i) d).
      { intros i Hi. apply in_app_iff in Hi. destruct Hi as [Hi|Hi].
        - apply in_app_iff in Hi. destruct Hi as [Hi|[Hi|[]]]; [auto|]. injection Hi as ->. auto.
        - exfalso. destruct S1 as (_ & _ & Q & _). rewrite forallb_forall in Q. specialize (Q _ Hi). discriminate. }
      destruct (IH s1 o1 s' o' a ready ((d ++ [Act id]) ++ e1)) as (e & E1 & E2 & E3 & E4 & E5 & E6); auto.
      { intros. apply HA. right. auto. }
      { intros i Hi Ha. apply Q1 in Ha. destruct Ha as [->|Ha]; [auto|]. eapply HD; eauto. right. exact Hi. }
      { intros i Hi. apply Q1 in Hi. destruct Hi as [->|Hi]; [apply HA; left; reflexivity|auto]. }
      { intros i j Hi Hj. apply Q1 in Hi. destruct Hi as [->|Hi]; [rewrite Forall_forall in HS2; auto|apply HL; auto; right; exact Hj]. }
      exists (Act id :: e1 ++ e). spl.
      * exact E1.
      * replace (d ++ Act id :: e1 ++ e) with (((d ++ [Act id]) ++ e1) ++ e) by (rewrite <- !app_assoc; reflexivity). exact E2.
      * cbn. rewrite forallb_app, E3, Bool.andb_true_r. destruct S1 as (_ & _ & Q & _). rewrite forallb_forall in Q |- *. intros x Hx. specialize (Q x Hx).
        destruct x; try discriminate; reflexivity.
      * intro. congruence.
      * destruct S1 as (_ & _ & _ & _ & L1). cbn [k_log l_later] in L1. destruct L1 as [L1|[t1 L1]]; [left; right; apply in_or_app; auto|].
        destruct E5 as [E5|[t2 E5]]; [left; right; apply in_or_app; auto|]. right. exists (t1 ++ t2). rewrite E5, L1, app_assoc. reflexivity.
      * intros Hs i Hi. cbn [somes flat_map app] in Hi. fold (somes q) in Hi. destruct Hi as [<-|Hi]; [left; left; reflexivity|].
        destruct (E6 Hs i Hi) as [X|X]; [left; right; apply in_or_app; auto|auto].
  - cbn [somes flat_map app] in *. fold (somes q) in *. eapply IH; eauto.
Qed.
