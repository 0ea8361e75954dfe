From Verif Require Import Base BaseFacts VLU VLUSpec VLUProofs Address AddressSpec AddressProofs FlashCert FlashCertProofs Packet PacketSpec PacketProofs Cookie CookieProofs Mobility MobilitySpec MobilityProofs.
Ltac Zify.zify_post_hook ::= Z.div_mod_to_equations.
Open Scope res_scope.

(** ** Tables *)
Section Tables.
Context {K : Type} (eq : K -> K -> bool) (D : K -> Prop) (E : K -> K -> Prop).
Hypothesis Heq : forall a b, D a -> D b -> (eq a b = true <-> E a b).
Hypothesis Esym : forall a b, E a b -> E b a.
Hypothesis Etrans : forall a b c, E a b -> E b c -> E a c.
Hypothesis Erefl : forall a, E a a.
Definition table (t : list (K * nat)) : Prop := (forall k m, In (k, m) t -> D k) /\ forall k m k' m', In (k, m) t -> In (k', m') t -> E k k' -> m = m'.
Lemma tfind_spec : forall t k m, table t -> D k -> (tfind eq k t = Some m <-> exists k', In (k', m) t /\ E k k').
Proof.
  induction t as [|[k0 n] t IH]; intros k m (T1 & T2) Dk; cbn [tfind].
  - split; [discriminate|]. intros (k' & [] & _).
  - assert (T' : table t) by (split; intros; [eapply T1; right; eauto|eapply T2; try (right; eassumption); auto]). assert (D0 : D k0) by (eapply T1; left; reflexivity).
    destruct (eq k k0) eqn:Q.
    + apply Heq in Q; auto. split.
      * intros X. inversion X; subst. exists k0. split; [left; reflexivity|exact Q].
      * intros (k' & X & Y). f_equal. apply (T2 k0 n k' m); [left; reflexivity|exact X|]. eapply Etrans; [apply Esym; exact Q|exact Y].
    + rewrite IH by auto. split; intros (k' & X & Y); exists k'; (split; [|exact Y]).
      * right. exact X.
      * destruct X as [X|X]; [|exact X]. inversion X; subst. apply Heq in Y; auto. congruence.
Qed.
Lemma terase_in : forall t k k' m, D k -> (forall k m, In (k, m) t -> D k) -> (In (k', m) (terase eq k t) <-> In (k', m) t /\ ~ E k k').
Proof.
  intros t k k' m Dk T. unfold terase. rewrite filter_In. cbn [fst]. rewrite negb_true_iff. split; intros (X & Y); (split; [exact X|]).
  - intros Z. apply Heq in Z; eauto. congruence.
  - destruct (eq k k') eqn:Q; [|reflexivity]. apply Heq in Q; eauto. contradiction.
Qed.
Lemma terase_table : forall t k, D k -> table t -> table (terase eq k t).
Proof. intros t k Dk (T1 & T2). split; intros *; rewrite ?terase_in by auto; intros; [destruct H; eauto|]. destruct H, H0. eapply T2; eauto. Qed.
Lemma tset_in : forall t k n k' m, D k -> (forall k m, In (k, m) t -> D k) -> (In (k', m) (tset eq k n t) <-> (k' = k /\ m = n) \/ (In (k', m) t /\ ~ E k k')).
Proof. intros t k n k' m Dk T. unfold tset. cbn [In]. rewrite terase_in by auto. split; intros [X|X]; auto; [left; inversion X; auto|left; destruct X; subst; auto]. Qed.
Lemma tset_table : forall t k n, D k -> table t -> table (tset eq k n t).
Proof.
  intros t k n Dk (T1 & T2). split; intros *; rewrite ?tset_in by auto.
  - intros [(-> & _)|(X & _)]; eauto.
  - intros [(-> & ->)|(X & X')] [(-> & ->)|(Y & Y')] Z; auto; [contradiction|apply Esym in Z; contradiction|]. eapply T2; eauto.
Qed.
Lemma tfind_set : forall t k n, D k -> table t -> tfind eq k (tset eq k n t) = Some n.
Proof. intros t k n Dk T. apply tfind_spec; auto; [apply tset_table; auto|]. exists k. split; [|apply Erefl]. apply tset_in; auto. apply T. Qed.
(** Setting a key either leaves an answer or replaces it. *)
Lemma tset_keeps : forall t k n k' m, D k -> D k' -> table t -> tfind eq k' t = Some m -> tfind eq k' (tset eq k n t) = Some m \/ tfind eq k' (tset eq k n t) = Some n.
Proof.
  intros t k n k' m Dk Dk' T F. apply tfind_spec in F; auto. destruct F as (k0 & X & Y). rewrite !tfind_spec by (auto; apply tset_table; auto).
  destruct (eq k k0) eqn:Q; [apply Heq in Q; auto; [|eapply (proj1 T); eauto]|].
  - right. exists k. split; [apply tset_in; auto; apply T|]. eapply Etrans; [exact Y|]. apply Esym; exact Q.
  - left. exists k0. split; [|exact Y]. apply tset_in; auto; [apply T|]. right. split; [exact X|]. intros Z. apply Heq in Z; auto; [congruence|eapply (proj1 T); eauto].
Qed.
(** Erasing the key of one session leaves the others'. *)
Lemma terase_keeps : forall t k n k' m, D k -> D k' -> table t -> tfind eq k t = Some n -> m <> n -> tfind eq k' t = Some m -> tfind eq k' (terase eq k t) = Some m.
Proof.
  intros t k n k' m Dk Dk' T F N F'. apply tfind_spec in F, F'; auto. destruct F as (k0 & X & Y), F' as (k1 & X1 & Y1). apply tfind_spec; auto; [apply terase_table; auto|].
  exists k1. split; [|exact Y1]. apply terase_in; auto; [apply T|]. split; [exact X1|]. intros Z. apply N. eapply (proj2 T); [exact X1|exact X|]. eapply Etrans; [apply Esym; exact Z|exact Y].
Qed.
(** Erasing where the session is found takes all its entries, if they are all at that key. *)
Lemma erase_if : forall t k n, D k -> table t -> (forall k', In (k', n) t -> E k' k) ->
  let t' := if is_n (tfind eq k t) n then terase eq k t else t in
  table t' /\ (forall k' m, In (k', m) t' -> In (k', m) t /\ m <> n) /\ (forall k' m, D k' -> m <> n -> tfind eq k' t = Some m -> tfind eq k' t' = Some m).
Proof.
  intros t k n Dk T H. cbv zeta. destruct (tfind eq k t) as [m0|] eqn:F; cbn [is_n]; [destruct (Nat.eqb_spec m0 n) as [->|N]|].
  - split; [apply terase_table; auto|]. split.
    + intros k' m X. apply terase_in in X; auto; [|apply T]. destruct X as (X & Y). split; [exact X|]. intros ->. apply Y. apply Esym. auto.
    + intros k' m D' N F'. eapply terase_keeps; eauto.
  - split; [exact T|]. split; [|auto]. intros k' m X. split; [exact X|]. intros ->. assert (Z : tfind eq k t = Some n) by (apply tfind_spec; auto; exists k'; split; auto). congruence.
  - split; [exact T|]. split; [|auto]. intros k' m X. split; [exact X|]. intros ->. assert (Z : tfind eq k t = Some n) by (apply tfind_spec; auto; exists k'; split; auto). congruence.
Qed.
End Tables.
Arguments table {K}.

Lemma same_refl : forall a, same_addr a a. Proof. intros; split; [|split]; reflexivity. Qed.
Lemma same_sym : forall a b, same_addr a b -> same_addr b a. Proof. intros a b (? & ? & ?); split; [|split]; congruence. Qed.
Lemma same_trans : forall a b c, same_addr a b -> same_addr b c -> same_addr a c. Proof. intros a b c (? & ? & ?) (? & ? & ?); split; [|split]; congruence. Qed.
Definition anyk (e : list Z) : Prop := True.
Lemma epd_eq : forall a b : list Z, anyk a -> anyk b -> (eq_bytes a b = true <-> a = b).
Proof. intros a b _ _. apply eq_bytes_iff. Qed.

Definition atable := table addr_ok same_addr.
Definition etable := table anyk (@Logic.eq (list Z)).
Record TI (i : inst) : Prop := {
  ti_ok : forall n p, nth_error (i_sess i) n = Some p -> addr_ok (m_addr p);
  ti_at : atable (i_addrs i);
  ti_et : etable (i_epds i);
  ti_a : forall k m, In (k, m) (i_addrs i) -> exists p, nth_error (i_sess i) m = Some p /\ m_up p = true /\ same_addr k (m_addr p);
  ti_e : forall k m, In (k, m) (i_epds i) -> exists p, nth_error (i_sess i) m = Some p /\ m_up p = true /\ k = m_epd p }.
Definition aset := tset_in addr_eq addr_ok same_addr eq_same.
Lemma TI_0 : TI inst0.
Proof. constructor; cbn; try contradiction; try (split; intros; contradiction). intros n p X. destruct n; discriminate. Qed.

Lemma TI_open : forall n i p, TI i -> nth_error (i_sess i) n = Some p -> m_up p = true -> TI (did_open n i).
Proof.
  intros n i p [A B C D E] X U. assert (AP : addr_ok (m_addr p)) by eauto. unfold did_open. rewrite X. constructor; cbn [i_sess i_addrs i_epds]; auto.
  - apply tset_table; auto using eq_same, same_sym.
  - apply tset_table; auto using epd_eq; exact Logic.I.
  - intros k m Y. apply aset in Y; auto; [|apply B]. destruct Y as [(-> & ->)|(Y & _)]; [|auto]. exists p. split; [auto|]. split; [auto|]. apply same_refl.
  - intros k m Y. apply (tset_in eq_bytes anyk (@Logic.eq _) epd_eq) in Y; [|exact Logic.I|intros; exact Logic.I]. destruct Y as [(-> & ->)|(Y & _)]; [|auto]. exists p. auto.
Qed.
Lemma did_open_finds : forall n i p, TI i -> nth_error (i_sess i) n = Some p -> by_addr (did_open n i) (m_addr p) = Some n /\ by_epd (did_open n i) (m_epd p) = Some n.
Proof.
  intros n i p [A B C D E] X. unfold did_open, by_addr, by_epd. rewrite X. cbn [i_addrs i_epds]. split.
  - eapply tfind_set with (D := addr_ok) (E := same_addr); eauto using eq_same, same_sym, same_trans, same_refl.
  - eapply tfind_set with (D := anyk) (E := @Logic.eq (list Z)); eauto using epd_eq; try congruence; exact Logic.I.
Qed.
(** Opening replaces what is found or leaves it. *)
Lemma did_open_keeps : forall n i k e m, TI i -> addr_ok k -> (by_addr i k = Some m -> by_addr (did_open n i) k = Some m \/ by_addr (did_open n i) k = Some n)
  /\ (by_epd i e = Some m -> by_epd (did_open n i) e = Some m \/ by_epd (did_open n i) e = Some n).
Proof.
  intros n i k e m [A B C D E] AK. unfold did_open, by_addr, by_epd. destruct (nth_error (i_sess i) n) as [p|] eqn:X; [|auto]. cbn [i_addrs i_epds]. split; intros F.
  - eapply tset_keeps with (D := addr_ok) (E := same_addr); eauto using eq_same, same_sym, same_trans, same_refl.
  - eapply tset_keeps with (D := anyk) (E := @Logic.eq (list Z)); eauto using epd_eq; try congruence; exact Logic.I.
Qed.
Lemma TI_app : forall i p, TI i -> addr_ok (m_addr p) -> TI (mkInst (i_sess i ++ [p]) (i_addrs i) (i_epds i) (i_out i)).
Proof.
  intros i p [A B C D E] AP. constructor; cbn [i_sess i_addrs i_epds]; auto.
  - intros n q X. destruct (Nat.lt_ge_cases n (length (i_sess i))); [rewrite nth_error_app1 in X by auto; eauto|].
    rewrite nth_error_app2 in X by auto. destruct (n - length (i_sess i))%nat as [|x]; [inversion X; subst; auto|destruct x; discriminate].
  - intros k m Y. destruct (D k m Y) as (q & Q1 & Q2). exists q. split; [|auto]. rewrite nth_error_app1; [auto|]. apply nth_error_Some. congruence.
  - intros k m Y. destruct (E k m Y) as (q & Q1 & Q2). exists q. split; [|auto]. rewrite nth_error_app1; [auto|]. apply nth_error_Some. congruence.
Qed.
Lemma nth_last : forall A (l : list A) x, nth_error (l ++ [x]) (length l) = Some x.
Proof. intros. rewrite nth_error_app2, Nat.sub_diag by lia. reflexivity. Qed.
Lemma TI_open_peer : forall i p, TI i -> addr_ok (m_addr p) -> m_up p = true -> TI (open_peer p i)
  /\ by_addr (open_peer p i) (m_addr p) = Some (length (i_sess i)) /\ by_epd (open_peer p i) (m_epd p) = Some (length (i_sess i)).
Proof.
  intros i p T A U. pose proof (TI_app i p T A) as T'. unfold open_peer. split.
  - eapply TI_open; [exact T'| |exact U]. cbn [i_sess]. apply nth_last.
  - apply did_open_finds; [exact T'|]. cbn [i_sess]. apply nth_last.
Qed.
(** Session [n] goes down (its record changes to [p'], with the address at which the table has it) and is taken out. *)
Lemma TI_close : forall n i p, TI (mkInst (i_sess i) (i_addrs i) (i_epds i) (i_out i)) -> nth_error (i_sess i) n = Some p ->
  forall p', m_addr p' = m_addr p -> m_epd p' = m_epd p -> let i1 := did_close n (mkInst (set_at (i_sess i) n p') (i_addrs i) (i_epds i) (i_out i)) in
  TI i1 /\ (forall k m, addr_ok k -> m <> n -> by_addr i k = Some m -> by_addr i1 k = Some m) /\ (forall e m, m <> n -> by_epd i e = Some m -> by_epd i1 e = Some m).
Proof.
  intros n i p [A B C D E] X p' EA EE. cbn [i_sess i_addrs i_epds] in *. assert (LN : (n < length (i_sess i))%nat) by (apply nth_error_Some; congruence).
  unfold did_close. cbn [i_sess]. rewrite set_at_same by exact LN. cbn [i_addrs i_epds i_sess i_out]. unfold by_addr, by_epd. cbn [i_addrs i_epds]. rewrite EA, EE.
  destruct (erase_if addr_eq addr_ok same_addr eq_same same_sym same_trans (i_addrs i) (m_addr p) n) as (P1 & P2 & P3); eauto.
  { intros k' Y. destruct (D _ _ Y) as (q & Q1 & _ & Q3). congruence. }
  destruct (erase_if eq_bytes anyk (@Logic.eq (list Z)) epd_eq (fun a b H => eq_sym H) (fun a b c H1 H2 => eq_trans H1 H2) (i_epds i) (m_epd p) n) as (S1 & S2 & S3); auto; [exact Logic.I| |].
  { intros k' Y. destruct (E _ _ Y) as (q & Q1 & _ & Q3). congruence. }
  split; [constructor; cbn [i_sess i_addrs i_epds]; auto|].
  - intros m q Y. destruct (Nat.eq_dec m n) as [->|N]; [rewrite set_at_same in Y by exact LN; inversion Y; subst; rewrite EA; eauto|rewrite set_at_other in Y by exact N; eauto].
  - intros k m Y. destruct (P2 _ _ Y) as (Y1 & N). destruct (D _ _ Y1) as (q & Q). exists q. rewrite set_at_other by exact N. exact Q.
  - intros k m Y. destruct (S2 _ _ Y) as (Y1 & N). destruct (E _ _ Y1) as (q & Q). exists q. rewrite set_at_other by exact N. exact Q.
  - split; [intros k m AK N F; apply P3; auto|intros e m N F; apply S3; auto; exact Logic.I].
Qed.
Lemma TI_close_peer : forall n i, TI i -> TI (close_peer n i)
  /\ (forall k m, addr_ok k -> m <> n -> by_addr i k = Some m -> by_addr (close_peer n i) k = Some m) /\ (forall e m, m <> n -> by_epd i e = Some m -> by_epd (close_peer n i) e = Some m).
Proof.
  intros n i T. unfold close_peer. destruct (nth_error (i_sess i) n) as [p|] eqn:X; [destruct (m_up p) eqn:U|]; [|auto|auto].
  destruct i as [s a e o]. cbn [i_sess i_addrs i_epds i_out] in *. apply (TI_close n (mkInst s a e o) p T X (down p)); reflexivity.
Qed.

(** ** Moves *)
Definition at_n (i : inst) (n : nat) (cur : addr) (t : list (addr * nat)) : Prop :=
  atable t /\ forall k m, In (k, m) t -> (m = n /\ same_addr k cur) \/ (m <> n /\ exists p, nth_error (i_sess i) m = Some p /\ m_up p = true /\ same_addr k (m_addr p)).
Lemma did_move_at : forall i n old a t, addr_ok old -> addr_ok a -> at_n i n old t -> at_n i n a (did_move n old a t) /\ tfind addr_eq a (did_move n old a t) = Some n
  /\ forall k m, addr_ok k -> m <> n -> tfind addr_eq k t = Some m -> tfind addr_eq k (did_move n old a t) = Some m \/ tfind addr_eq k (did_move n old a t) = Some n.
Proof.
  intros i n old a t AO AA (T & P). unfold did_move.
  destruct (erase_if addr_eq addr_ok same_addr eq_same same_sym same_trans t old n) as (P1 & P2 & P3); auto.
  { intros k' Y. destruct (P _ _ Y) as [(_ & Q)|(N & _)]; [exact Q|contradiction]. }
  set (t' := if is_n (tfind addr_eq old t) n then terase addr_eq old t else t) in *. split; [split|split].
  - apply tset_table; auto using eq_same, same_sym.
  - intros k m Y. apply aset in Y; auto; [|apply P1]. destruct Y as [(-> & ->)|(Y & _)]; [left; split; [reflexivity|apply same_refl]|]. destruct (P2 _ _ Y) as (Y1 & N). right. split; [exact N|]. destruct (P _ _ Y1) as [(Z & _)|(_ & Z)]; [contradiction|exact Z].
  - eapply tfind_set with (D := addr_ok) (E := same_addr); eauto using eq_same, same_sym, same_trans, same_refl.
  - intros k m AK N F. eapply tset_keeps with (D := addr_ok) (E := same_addr); eauto using eq_same, same_sym, same_trans, same_refl.
Qed.
Lemma follow_at : forall i n a o old t, addr_ok old -> addr_ok a -> (forall ts j b, In (MMoved ts j b) o -> b = a) -> at_n i n old t ->
  let cur := match moves_in o with [] => old | _ => a end in
  at_n i n cur (follow n old o t) /\ (moves_in o <> [] -> tfind addr_eq a (follow n old o t) = Some n) /\ (moves_in o = [] -> follow n old o t = t)
  /\ forall k m, addr_ok k -> m <> n -> tfind addr_eq k t = Some m -> tfind addr_eq k (follow n old o t) = Some m \/ tfind addr_eq k (follow n old o t) = Some n.
Proof.
  intros i n a. induction o as [|x o IH]; intros old t AO AA M P.
  - cbn. split; [exact P|]. split; [contradiction|]. auto.
  - assert (M' : forall ts j b, In (MMoved ts j b) o -> b = a) by (intros ts j b X; apply (M ts j b); right; exact X).
    destruct x as [ts j b pk|j b pk|ts j b]; cbn [follow moves_in]; try (apply IH; auto).
    assert (b = a) by (apply (M ts j b); left; reflexivity). subst b. destruct (did_move_at i n old a t AO AA P) as (Q1 & Q2 & Q3).
    destruct (IH a (did_move n old a t) AA AA M' Q1) as (R1 & R2 & R3 & R4). split; [|split; [|split]].
    + destruct (moves_in o); exact R1.
    + intros _. destruct (moves_in o) eqn:E; [rewrite R3 by reflexivity; exact Q2|apply R2; discriminate].
    + discriminate.
    + intros k m AK N F. destruct (Q3 k m AK N F) as [Z|Z]; [exact (R4 k m AK N Z)|]. destruct (moves_in o) eqn:E; [rewrite R3 by reflexivity; auto|].
      (* the key is the new address, and stays so *)
      right. apply (tfind_spec addr_eq addr_ok same_addr eq_same same_sym same_trans) in Z; [|apply Q1|exact AK]. destruct Z as (k' & Z1 & Z2).
      assert (S : same_addr k a). { destruct (proj2 Q1 _ _ Z1) as [(_ & S)|(N' & _)]; [|contradiction]. eapply same_trans; eauto. }
      specialize (R2 ltac:(discriminate)). apply (tfind_spec addr_eq addr_ok same_addr eq_same same_sym same_trans) in R2; [|apply R1|exact AA]. destruct R2 as (k2 & Y1 & Y2).
      apply (tfind_spec addr_eq addr_ok same_addr eq_same same_sym same_trans); [apply R1|exact AK|]. exists k2. split; [exact Y1|]. eapply same_trans; eauto.
Qed.
Lemma set_at_twice : forall A (l : list A) n x y, set_at (set_at l n x) n y = set_at l n y.
Proof. induction l as [|z l IH]; intros n x y; [reflexivity|]. destruct n; cbn [set_at]; [reflexivity|]. rewrite IH. reflexivity. Qed.
Definition up_again (p : peer) : peer := mkPeer true (m_role p) (m_if p) (m_addr p) (m_epd p) (m_tx p) (m_rx p).
Lemma moves_of_did : forall sha secret age ifc a l p p' o, packet_did sha secret age ifc a l p p' o ->
  (forall ts j b, In (MMoved ts j b) o -> b = a) /\ m_epd p' = m_epd p /\ (m_up p' = true -> m_up p = true) /\ (m_up p = false -> moves_in o = [])
  /\ m_addr p' = match moves_in o with [] => m_addr p | _ => a end.
Proof.
  intros sha secret age ifc a l p p' o [cs mid omid CA [D1 D2 D3 D4 D5 D6 D7 D8 D9] EN].
  assert (NM : m_up p = false -> moves_in omid = []).
  { intros U. assert (Z : forall ts j b, ~ In (MMoved ts j b) omid) by (intros ts j b X; destruct (D6 _ _ _ X); congruence). clear - Z. induction omid as [|x o IH]; [reflexivity|].
    destruct x; cbn [moves_in]; try (apply IH; intros ts0 j b X; exact (Z ts0 j b (or_intror X))). exfalso. eapply Z. left. reflexivity. }
  assert (AD : m_addr mid = match moves_in omid with [] => m_addr p | _ => a end) by (destruct D9 as [(-> & _ & ->)|(N & _ & ->)]; [reflexivity|destruct (moves_in omid); [contradiction|reflexivity]]).
  destruct EN as [(-> & ->)|(U & _ & _ & -> & ->)].
  - split; [intros ts j b X; apply (D6 _ _ _ X)|]. auto.
  - rewrite moves_in_app. cbn [moves_in]. rewrite app_nil_r. split; [|cbn [checked m_epd m_up m_addr]; auto]. intros ts j b X. apply in_app_or in X. destruct X as [X|[X|[]]]; [apply (D6 _ _ _ X)|discriminate].
Qed.
(** A packet of session [n]. *)
Lemma TI_packet : forall n i p p' o a, TI i -> nth_error (i_sess i) n = Some p -> addr_ok a ->
  (forall ts j b, In (MMoved ts j b) o -> b = a) -> m_epd p' = m_epd p -> (m_up p' = true -> m_up p = true) -> (m_up p = false -> moves_in o = []) ->
  m_addr p' = match moves_in o with [] => m_addr p | _ => a end ->
  let i1 := mkInst (set_at (i_sess i) n p') (follow n (m_addr p) o (i_addrs i)) (i_epds i) (i_out i ++ map (pair n) o) in
  let i2 := if m_up p && negb (m_up p') then did_close n i1 else i1 in
  TI i2 /\ (moves_in o <> [] -> m_up p' = true -> by_addr i2 a = Some n) /\ (m_up p' = true -> moves_in o = [] -> i_addrs i2 = i_addrs i) /\ (m_up p' = true -> i_epds i2 = i_epds i)
  /\ (forall k m, addr_ok k -> m <> n -> by_addr i k = Some m -> by_addr i2 k = Some m \/ (moves_in o <> [] /\ same_addr k a))
  /\ (forall e m, m <> n -> by_epd i e = Some m -> by_epd i2 e = Some m).
Proof.
  intros n i p p' o a T X AA M EE UU NM AD. pose proof T as [A B C D E]. assert (LN : (n < length (i_sess i))%nat) by (apply nth_error_Some; congruence). assert (AP : addr_ok (m_addr p)) by eauto.
  assert (P : at_n i n (m_addr p) (i_addrs i)).
  { split; [exact B|]. intros k m Y. destruct (D _ _ Y) as (q & Q1 & Q2 & Q3). destruct (Nat.eq_dec m n) as [->|N]; [left; split; congruence|right; split; [exact N|]; exists q; auto]. }
  destruct (follow_at i n a o (m_addr p) (i_addrs i) AP AA M P) as (F1 & F2 & F3 & F4). rewrite <- AD in F1.
  assert (AP' : addr_ok (m_addr p')) by (rewrite AD; destruct (moves_in o); auto).
  assert (F5 : forall k m, addr_ok k -> m <> n -> by_addr i k = Some m -> tfind addr_eq k (follow n (m_addr p) o (i_addrs i)) = Some m \/ (moves_in o <> [] /\ same_addr k a)).
  { intros k m AK N F. destruct (F4 k m AK N F) as [Z|Z]; [auto|]. destruct (moves_in o) eqn:EM; [left; rewrite (F3 eq_refl); exact F|]. right. split; [discriminate|].
    apply (tfind_spec addr_eq addr_ok same_addr eq_same same_sym same_trans) in Z; [|apply F1|exact AK]. destruct Z as (k' & Z1 & Z2). destruct (proj2 F1 _ _ Z1) as [(_ & S)|(N' & _)]; [|contradiction]. rewrite AD in S. eapply same_trans; eauto. }
  cbv zeta. destruct (m_up p') eqn:U'.
  - rewrite andb_false_r. unfold by_addr, by_epd. cbn [i_sess i_addrs i_epds]. split; [constructor; cbn [i_sess i_addrs i_epds]; auto|].
    + intros m q Y. destruct (Nat.eq_dec m n) as [->|N]; [rewrite set_at_same in Y by exact LN; inversion Y; subst; auto|rewrite set_at_other in Y by exact N; eauto].
    + apply F1.
    + intros k m Y. destruct (proj2 F1 _ _ Y) as [(-> & S)|(N & q & Q)]; [exists p'; rewrite set_at_same by exact LN; auto|exists q; rewrite set_at_other by exact N; exact Q].
    + intros k m Y. destruct (E _ _ Y) as (q & Q1 & Q2 & Q3). destruct (Nat.eq_dec m n) as [->|N]; [exists p'; rewrite set_at_same by exact LN; split; [auto|]; split; [auto|]; congruence|exists q; rewrite set_at_other by exact N; auto].
    + split; [intros N _; apply F2; exact N|]. split; [intros _ N; apply F3; exact N|]. split; [auto|]. split; [exact F5|auto].
  - destruct (m_up p) eqn:UP; cbn [andb negb].
    + assert (TU : TI (mkInst (set_at (i_sess i) n (up_again p')) (follow n (m_addr p) o (i_addrs i)) (i_epds i) (i_out i ++ map (pair n) o))).
      { constructor; cbn [i_sess i_addrs i_epds]; auto.
        + intros m q Y. destruct (Nat.eq_dec m n) as [->|N]; [rewrite set_at_same in Y by exact LN; inversion Y; subst; auto|rewrite set_at_other in Y by exact N; eauto].
        + apply F1.
        + intros k m Y. destruct (proj2 F1 _ _ Y) as [(-> & S)|(N & q & Q)]; [exists (up_again p'); rewrite set_at_same by exact LN; auto|exists q; rewrite set_at_other by exact N; exact Q].
        + intros k m Y. destruct (E _ _ Y) as (q & Q1 & Q2 & Q3). destruct (Nat.eq_dec m n) as [->|N]; [exists (up_again p'); rewrite set_at_same by exact LN; split; [auto|]; split; [auto|]; cbn; congruence|exists q; rewrite set_at_other by exact N; auto]. }
      destruct (TI_close n (mkInst (set_at (i_sess i) n (up_again p')) (follow n (m_addr p) o (i_addrs i)) (i_epds i) (i_out i ++ map (pair n) o)) (up_again p') TU) with (p' := p') as (T1 & T2 & T3); auto.
      { cbn [i_sess]. apply set_at_same; exact LN. }
      cbn [i_sess i_addrs i_epds i_out] in T1, T2, T3. rewrite set_at_twice in *. split; [exact T1|]. split; [discriminate|]. split; [discriminate|]. split; [discriminate|]. split; [|intros e m N F; apply T3; auto].
      intros k m AK N F. destruct (F5 k m AK N F) as [Z|Z]; [left; apply T2; auto|right; exact Z].
    + assert (NO : moves_in o = []) by auto. rewrite (F3 NO). unfold by_addr, by_epd. cbn [i_sess i_addrs i_epds]. split; [constructor; cbn [i_sess i_addrs i_epds]; auto|].
      * intros m q Y. destruct (Nat.eq_dec m n) as [->|N]; [rewrite set_at_same in Y by exact LN; inversion Y; subst; auto|rewrite set_at_other in Y by exact N; eauto].
      * intros k m Y. destruct (D _ _ Y) as (q & Q1 & Q2 & Q3). destruct (Nat.eq_dec m n) as [->|N]; [congruence|exists q; rewrite set_at_other by exact N; auto].
      * intros k m Y. destruct (E _ _ Y) as (q & Q1 & Q2 & Q3). destruct (Nat.eq_dec m n) as [->|N]; [congruence|exists q; rewrite set_at_other by exact N; auto].
      * split; [discriminate|]. split; [discriminate|]. split; [discriminate|]. auto.
Qed.

(** ** Steps *)
Lemma moves_in_ex : forall o a, moves_in o <> [] -> (forall ts j b, In (MMoved ts j b) o -> b = a) -> exists ts j, In (MMoved ts j a) o.
Proof.
  induction o as [|x o IH]; intros a N H; [contradiction|]. destruct x as [ts j b pk|j b pk|ts j b]; cbn [moves_in] in N.
  1,2: destruct (IH a N) as (t & j' & X); [intros; eapply H; right; eauto|exists t, j'; right; exact X].
  exists ts, j. left. rewrite (H ts j b); [reflexivity|left; reflexivity].
Qed.
Lemma TI_step : forall sha secret i e i1, hash32m sha -> mevent_ok e -> TI i -> mstep sha secret i e = Ok i1 ->
  TI i1 /\ exists new, i_out i1 = i_out i ++ new
  /\ (forall m a, came i e new m a -> (exists ov n ifc epd, e = MAccepted ifc a epd ov /\ by_addr i a = Some n /\ ov = false) \/ (forall p, nth_error (i_sess i1) m = Some p -> m_up p = true -> by_addr i1 a = Some m))
  /\ (forall n p p1, nth_error (i_sess i) n = Some p -> nth_error (i_sess i1) n = Some p1 -> m_up p1 = true -> by_addr i (m_addr p) = Some n ->
        by_addr i1 (m_addr p1) = Some n \/ exists m a, m <> n /\ came i e new m a /\ same_addr a (m_addr p))
  /\ (forall n p p1, nth_error (i_sess i) n = Some p -> nth_error (i_sess i1) n = Some p1 -> m_up p1 = true -> by_epd i (m_epd p) = Some n ->
        by_epd i1 (m_epd p1) = Some n \/ exists m, m <> n /\ by_epd i1 (m_epd p1) = Some m).
Proof.
  intros sha secret i e i1 H OK T ST.
  assert (OPEN : forall role ifc b epd j, TI j -> addr_ok b -> i_out j = i_out i -> length (i_sess j) = length (i_sess i) ->
    (forall m p p1, nth_error (i_sess i) m = Some p -> nth_error (i_sess j) m = Some p1 -> m_up p1 = true -> p1 = p) ->
    (forall n p p1, nth_error (i_sess i) n = Some p -> nth_error (i_sess j) n = Some p1 -> m_up p1 = true -> by_addr i (m_addr p) = Some n -> by_addr j (m_addr p) = Some n) ->
    (forall n p p1, nth_error (i_sess i) n = Some p -> nth_error (i_sess j) n = Some p1 -> m_up p1 = true -> by_epd i (m_epd p) = Some n -> by_epd j (m_epd p) = Some n) ->
    let i1 := open_peer (new_peer role ifc b epd) j in
    TI i1 /\ exists new, i_out i1 = i_out i ++ new
    /\ (by_addr i1 b = Some (length (i_sess i)))
    /\ (forall n p p1, nth_error (i_sess i) n = Some p -> nth_error (i_sess i1) n = Some p1 -> m_up p1 = true -> by_addr i (m_addr p) = Some n ->
          by_addr i1 (m_addr p1) = Some n \/ (n <> length (i_sess i) /\ same_addr b (m_addr p)))
    /\ (forall n p p1, nth_error (i_sess i) n = Some p -> nth_error (i_sess i1) n = Some p1 -> m_up p1 = true -> by_epd i (m_epd p) = Some n ->
          by_epd i1 (m_epd p1) = Some n \/ exists m, m <> n /\ by_epd i1 (m_epd p1) = Some m)).
  { intros role ifc b epd j TJ AB JO JL JS JA JE j1. destruct (TI_open_peer j (new_peer role ifc b epd) TJ AB eq_refl) as (T1 & F1 & F2). fold j1 in T1, F1, F2. cbn [new_peer m_addr m_epd] in F1, F2.
    destruct (open_peer_sess (new_peer role ifc b epd) j) as (S1 & S2). fold j1 in S1, S2.
    split; [exact T1|]. exists []. split; [rewrite S2, JO, app_nil_r; reflexivity|]. split; [rewrite <- JL; exact F1|].
    assert (OLD : forall n p p1, nth_error (i_sess i) n = Some p -> nth_error (i_sess j1) n = Some p1 -> nth_error (i_sess j) n = Some p1).
    { intros n p p1 X X1. rewrite S1, nth_error_app1 in X1; [exact X1|]. rewrite JL. apply nth_error_Some. congruence. }
    assert (NE : forall n p, nth_error (i_sess i) n = Some p -> n <> length (i_sess i)) by (intros n p X; assert (n < length (i_sess i))%nat by (apply nth_error_Some; congruence); lia).
    pose proof (TI_app j (new_peer role ifc b epd) TJ AB) as TA.
    split.
    - intros n p p1 X X1 U F. pose proof (OLD _ _ _ X X1) as X2. assert (p1 = p) by eauto. subst p1. specialize (JA _ _ _ X X2 U F).
      destruct (did_open_keeps (length (i_sess j)) (mkInst (i_sess j ++ [new_peer role ifc b epd]) (i_addrs j) (i_epds j) (i_out j)) (m_addr p) (m_epd p) n TA (ti_ok _ T _ _ X)) as (K & _).
      destruct (K JA) as [Z|Z]; [left; exact Z|]. change (by_addr j1 (m_addr p) = Some (length (i_sess j))) in Z. right. split; [eauto|].
      apply (tfind_spec addr_eq addr_ok same_addr eq_same same_sym same_trans) in Z; [|apply T1|exact (ti_ok _ T _ _ X)]. destruct Z as (k & Z1 & Z2). destruct (ti_a _ T1 _ _ Z1) as (q & Q1 & _ & Q3).
      rewrite S1, nth_last in Q1. inversion Q1; subst q. cbn [new_peer m_addr] in Q3. apply same_sym. eapply same_trans; eauto.
    - intros n p p1 X X1 U F. pose proof (OLD _ _ _ X X1) as X2. assert (p1 = p) by eauto. subst p1. specialize (JE _ _ _ X X2 U F).
      destruct (did_open_keeps (length (i_sess j)) (mkInst (i_sess j ++ [new_peer role ifc b epd]) (i_addrs j) (i_epds j) (i_out j)) (m_addr p) (m_epd p) n TA (ti_ok _ T _ _ X)) as (_ & K).
      destruct (K JE) as [Z|Z]; [left; exact Z|]. right. exists (length (i_sess j)). split; [rewrite JL; pose proof (NE _ _ X); congruence|exact Z]. }
  destruct e as [ifc b epd|ifc b epd ov|epd|n age ifc a margin l|n]; cbn [mstep] in ST.
  - apply Ok_inj in ST. subst i1. destruct OK as (_ & AB & _).
    destruct (OPEN 1 ifc b epd i T AB eq_refl eq_refl) as (T1 & new & N0 & N1 & N2 & N3); auto; try congruence. split; [exact T1|]. exists new. split; [exact N0|]. split; [|split].
    + intros m a (-> & ->). right. intros _ _ _. exact N1.
    + intros n p p1 X X1 U F. destruct (N2 _ _ _ X X1 U F) as [Z|(Z1 & Z2)]; [left; exact Z|right]. exists (length (i_sess i)), b. cbn [came]. auto.
    + exact N3.
  - destruct OK as (_ & AB & _). destruct (by_addr i b) as [m0|] eqn:FB; [destruct ov|].
    + apply Ok_inj in ST. subst i1. destruct (close_peer_sess m0 i) as (C1 & C2 & C3). destruct (TI_close_peer m0 i T) as (D1 & D2 & D3).
      assert (JS : forall m p p1, nth_error (i_sess i) m = Some p -> nth_error (i_sess (close_peer m0 i)) m = Some p1 -> m_up p1 = true -> p1 = p /\ m <> m0).
      { intros m p p1 X X1 U. rewrite (C3 _ _ X) in X1. destruct (Nat.eqb_spec m m0) as [->|N]; inversion X1; subst; [discriminate U|auto]. }
      destruct (OPEN 2 ifc b epd (close_peer m0 i) D1 AB C1 C2) as (T1 & new & N0 & N1 & N2 & N3); auto.
      { intros m p p1 X X1 U. apply (JS _ _ _ X X1 U). }
      { intros n p p1 X X1 U F. destruct (JS _ _ _ X X1 U). apply D2; auto. exact (ti_ok _ T _ _ X). }
      { intros n p p1 X X1 U F. destruct (JS _ _ _ X X1 U). apply D3; auto. }
      split; [exact T1|]. exists new. split; [exact N0|]. split; [|split].
      * intros m a (-> & ->). right. intros _ _ _. exact N1.
      * intros n p p1 X X1 U F. destruct (N2 _ _ _ X X1 U F) as [Z|(Z1 & Z2)]; [left; exact Z|right]. exists (length (i_sess i)), b. cbn [came]. auto.
      * exact N3.
    + apply Ok_inj in ST. subst i1. split; [exact T|]. exists []. rewrite app_nil_r. split; [reflexivity|]. split; [|split].
      * intros m a (-> & ->). left. exists false, m0, ifc, epd. auto.
      * intros n p p1 X X1 U F. left. congruence.
      * intros n p p1 X X1 U F. left. congruence.
    + apply Ok_inj in ST. subst i1.
      destruct (OPEN 2 ifc b epd i T AB eq_refl eq_refl) as (T1 & new & N0 & N1 & N2 & N3); auto; try congruence. split; [exact T1|]. exists new. split; [exact N0|]. split; [|split].
      * intros m a (-> & ->). right. intros _ _ _. exact N1.
      * intros n p p1 X X1 U F. destruct (N2 _ _ _ X X1 U F) as [Z|(Z1 & Z2)]; [left; exact Z|right]. exists (length (i_sess i)), b. cbn [came]. auto.
      * exact N3.
  - destruct (by_epd i epd) as [m0|] eqn:FE; apply Ok_inj in ST; subst i1.
    + assert (X0 : exists p, nth_error (i_sess i) m0 = Some p /\ m_up p = true).
      { apply (tfind_spec eq_bytes anyk (@Logic.eq (list Z)) epd_eq (fun a b H => eq_sym H) (fun a b c H1 H2 => eq_trans H1 H2)) in FE; [|apply T|exact Logic.I]. destruct FE as (k & Z1 & Z2). destruct (ti_e _ T _ _ Z1) as (q & Q1 & Q2 & _). eauto. }
      destruct X0 as (p0 & X0 & U0). pose proof (TI_open m0 i p0 T X0 U0) as T1. destruct (did_open_sess m0 i) as (S1 & S2). destruct (did_open_finds m0 i p0 T X0) as (F1 & F2). split; [exact T1|]. exists []. rewrite app_nil_r. split; [exact S2|]. split; [|split].
      * intros m a (E1 & p & E2 & E3). right. intros q Q UQ. replace m with m0 by congruence. replace a with (m_addr p0) by congruence. exact F1.
      * intros n p p1 X X1 U F. rewrite S1 in X1. replace p1 with p in * by congruence. assert (AP : addr_ok (m_addr p)) by (exact (ti_ok _ T _ _ X)).
        destruct (did_open_keeps m0 i (m_addr p) (m_epd p) n T AP) as (K & _). destruct (K F) as [Z|Z]; [auto|]. destruct (Nat.eq_dec m0 n) as [->|N]; [auto|]. right. exists m0, (m_addr p0). split; [exact N|]. split; [cbn [came]; eauto|].
        apply (tfind_spec addr_eq addr_ok same_addr eq_same same_sym same_trans) in Z; [|apply T1|exact AP]. destruct Z as (k & Z1 & Z2). destruct (ti_a _ T1 _ _ Z1) as (q & Q1 & _ & Q3). rewrite S1 in Q1. replace q with p0 in * by congruence. apply same_sym. eapply same_trans; eauto.
      * intros n p p1 X X1 U F. rewrite S1 in X1. replace p1 with p in * by congruence. assert (AP : addr_ok (m_addr p)) by (exact (ti_ok _ T _ _ X)).
        destruct (did_open_keeps m0 i (m_addr p) (m_epd p) n T AP) as (_ & K). destruct (K F) as [Z|Z]; [auto|]. destruct (Nat.eq_dec m0 n) as [->|N]; [auto|]. right. eauto.
    + split; [exact T|]. exists []. rewrite app_nil_r. split; [reflexivity|]. split; [|split].
      * intros m a (E1 & _). congruence.
      * intros n p p1 X X1 U F. left. congruence.
      * intros n p p1 X X1 U F. left. congruence.
  - destruct OK as (TO & IO & (AO & _) & BO). destruct (nth_error (i_sess i) n) as [p|] eqn:X.
    + destruct (on_packet_did sha secret age ifc a margin l p H TO IO BO) as (p' & o & E1 & D). rewrite E1 in ST. cbn [rbind] in ST. apply Ok_inj in ST. subst i1.
      destruct (moves_of_did _ _ _ _ _ _ _ _ _ D) as (M1 & M2 & M3 & M4 & M5). destruct (TI_packet n i p p' o a T X AO M1 M2 M3 M4 M5) as (T1 & P1 & P2 & P3 & P4 & P5). cbv zeta in *.
      set (j := if m_up p && negb (m_up p') then _ else _) in *.
      assert (SJ : i_sess j = set_at (i_sess i) n p') by (unfold j; destruct (_ && _); [apply did_close_sess|reflexivity]).
      assert (OJ : i_out j = i_out i ++ map (pair n) o) by (unfold j; destruct (_ && _); [apply did_close_sess|reflexivity]).
      assert (LN : (n < length (i_sess i))%nat) by (apply nth_error_Some; congruence).
      split; [exact T1|]. exists (map (pair n) o). split; [exact OJ|]. split; [|split].
      * intros m b (ts & ifc' & IN). right. intros q Q UQ. apply in_map_iff in IN. destruct IN as (x & IN1 & IN2). inversion IN1; subst m x. rewrite (M1 _ _ _ IN2) in *. rewrite SJ, set_at_same in Q by exact LN. inversion Q; subst q.
        apply P1; [|exact UQ]. clear - IN2. induction o as [|x o IH]; [contradiction|]. destruct IN2 as [->|IN2]; [discriminate|]. destruct x; cbn [moves_in]; try (apply IH; exact IN2). discriminate.
      * intros m q q1 XQ XQ1 U F. rewrite SJ in XQ1. destruct (Nat.eq_dec m n) as [->|N].
        -- rewrite set_at_same in XQ1 by exact LN. inversion XQ1; subst q1. replace q with p in * by congruence. left. rewrite M5. destruct (moves_in o) eqn:EM; [unfold by_addr; rewrite P2 by auto; exact F|apply P1; [discriminate|exact U]].
        -- rewrite set_at_other in XQ1 by exact N. replace q1 with q in * by congruence. destruct (P4 (m_addr q) m) as [Z|(Z1 & Z2)]; auto; [exact (ti_ok _ T _ _ XQ)|].
           right. exists n, a. split; [congruence|]. split; [|apply same_sym; exact Z2]. cbn [came]. destruct (moves_in_ex o a Z1 M1) as (ts & jf & IN). exists ts, jf. apply in_map. exact IN.
      * intros m q q1 XQ XQ1 U F. rewrite SJ in XQ1. left. destruct (Nat.eq_dec m n) as [->|N].
        -- rewrite set_at_same in XQ1 by exact LN. inversion XQ1; subst q1. replace q with p in * by congruence. unfold by_epd. rewrite P3 by exact U. rewrite M2. exact F.
        -- rewrite set_at_other in XQ1 by exact N. replace q1 with q in * by congruence. apply P5; auto.
    + apply Ok_inj in ST. subst i1. split; [exact T|]. exists []. rewrite app_nil_r. split; [reflexivity|]. split; [|split].
      * intros m b (ts & ifc' & []).
      * intros m p p1 Y Y1 U F. left. congruence.
      * intros m p p1 Y Y1 U F. left. congruence.
  - apply Ok_inj in ST. subst i1. destruct (close_peer_sess n i) as (C1 & C2 & C3). destruct (TI_close_peer n i T) as (D1 & D2 & D3). split; [exact D1|]. exists []. rewrite app_nil_r. split; [exact C1|]. split; [|split].
    + intros m a [].
    + intros m p p1 X X1 U F. rewrite (C3 _ _ X) in X1. destruct (Nat.eqb_spec m n) as [->|N]; inversion X1; subst; [discriminate U|]. left. apply D2; auto. exact (ti_ok _ T _ _ X).
    + intros m p p1 X X1 U F. rewrite (C3 _ _ X) in X1. destruct (Nat.eqb_spec m n) as [->|N]; inversion X1; subst; [discriminate U|]. left. apply D3; auto.
Qed.
Lemma TI_run : forall sha secret, hash32m sha -> forall l i i1, Forall mevent_ok l -> TI i -> mrun sha secret i l = Ok i1 -> TI i1.
Proof.
  intros sha secret H. induction l as [|e l IH]; intros i i1 F T R; cbn [mrun] in R; [apply Ok_inj in R; subst; exact T|]. inversion F; subst.
  destruct (mstep_sess sha secret i e H) as (j & E & _); auto. rewrite E in R. cbn [rbind] in R. eapply IH; [auto| |exact R]. eapply TI_step; eauto.
Qed.

(** ** A session follows its far end *)
Lemma header_mode : forall flags ts tse, is_byte flags -> Z.land (header_flags flags ts tse) 3 = flags mod 4.
Proof.
  intros flags ts tse B. change 3 with (Z.ones 2). rewrite Z.land_ones by lia. change (2 ^ 2) with 4. unfold header_flags.
  assert (E : Z.land flags 243 mod 4 = flags mod 4). { change 4 with (2 ^ 2). rewrite <- !Z.land_ones, <- Z.land_assoc by lia. reflexivity. }
  destruct (ts >=? 0), (tse >=? 0); lia.
Qed.
Lemma packet_parses : forall role margin flags ts tse cs pad, header_ok role flags ts tse -> Forall chunk_ok cs -> Z.of_nat pad < 65538 ->
  exists h, parse_packet (fun f _ _ => negb ((Z.land f 3 =? 0) || (Z.land f 3 =? role))) (packet_of margin flags ts tse (chunks_bytes cs) pad) (length margin) = Ok h
  /\ h_chunks h = cs /\ (Z.land (h_flags h) 3 =? HEADER_MODE_STARTUP) = false.
Proof.
  intros role margin flags ts tse cs pad (B & T1 & T2 & M & N) F P. pose proof (header_mode flags ts tse B) as HM.
  eexists. split; [unfold packet_of; apply parse_packet_roundtrip; auto; rewrite HM|].
  - rewrite negb_true_iff, orb_false_iff. split; apply Z.eqb_neq; lia.
  - cbn [h_chunks h_flags]. split; [reflexivity|]. rewrite HM. unfold HEADER_MODE_STARTUP. apply Z.eqb_neq. lia.
Qed.
Lemma ordinary_chunks : forall sha secret age mode ifc a cs p, Forall ordinary cs -> exists o, on_chunks sha secret age mode ifc a cs p = Ok (p, o).
Proof.
  intros sha secret age mode ifc a. induction cs as [|c cs IH]; intros p F; [exists []; reflexivity|]. inversion F as [|? ? (O1 & O2 & O3) F']; subst. cbn [on_chunks].
  assert (E : exists o, on_chunk sha secret age mode ifc a c p = Ok (p, o)).
  { unfold on_chunk. destruct (_ && _); [|eauto]. destruct (fst c =? CHUNK_PING); [unfold on_ping; rewrite ping_packet_ok; cbn [rbind]; destruct (_ <=? _); eauto|].
    unfold CHUNK_PING_REPLY, CHUNK_CLOSE, CHUNK_CLOSE_ACK. rewrite (proj2 (Z.eqb_neq _ _) O1), (proj2 (Z.eqb_neq _ _) O2), (proj2 (Z.eqb_neq _ _) O3). cbn [orb]. eauto. }
  destruct E as (o & E). rewrite E. cbn [rbind]. destruct (IH p F') as (o' & E'). rewrite E'. cbn [rbind]. eauto.
Qed.
Lemma probe : forall sha secret age ifc a margin flags ts tse cs pad p, hash32m sha -> time_ok age -> ifc_ok ifc -> header_ok (m_role p) flags ts tse -> Forall chunk_ok cs -> Forall ordinary cs -> Z.of_nat pad < 65538 ->
  m_up p = true -> (ifc =? m_if p) && addr_eq a (m_addr p) = false -> m_tx p < age / 1000000 ->
  exists o, on_packet sha secret age ifc a (length margin) (packet_of margin flags ts tse (chunks_bytes cs) pad) p = Ok (checked p (age / 1000000), o ++ [MCheck (age / 1000000) ifc a (chunk_bytes 1 (proof sha secret (age / 1000000) ifc a))]).
Proof.
  intros sha secret age ifc a margin flags ts tse cs pad p H T I HO CO OR P U NP LT. destruct (packet_parses (m_role p) margin flags ts tse cs pad HO CO P) as (h & E & HC & _). unfold on_packet. rewrite E, HC.
  destruct (ordinary_chunks sha secret age (Z.land (h_flags h) 3) ifc a cs p OR) as (o & EO). rewrite EO. cbn [rbind]. rewrite after_cases by auto. rewrite U, NP.
  replace (age / 1000000 >? m_tx p) with true by (symmetry; rewrite Z.gtb_ltb; apply Z.ltb_lt; exact LT). cbn [andb negb rbind]. exists o. reflexivity.
Qed.
Lemma chunks_one : forall ty pl, chunk_bytes ty pl = chunks_bytes [(ty, pl)].
Proof. intros. unfold chunks_bytes. cbn [flat_map fst snd]. rewrite app_nil_r. reflexivity. Qed.
Lemma echo : forall sha secret age ifc a margin flags ts tse pl pad q, hash32m sha -> time_ok age -> ifc_ok ifc -> header_ok (m_role q) flags ts tse -> bytes_ok pl -> zlen pl <= 997 -> Z.of_nat pad < 65538 ->
  m_up q = true -> exists q' o, on_packet sha secret age ifc a (length margin) (packet_of margin flags ts tse (chunk_bytes 1 pl) pad) q = Ok (q', o) /\ In (MReply (m_if q) (m_addr q) (chunk_bytes 65 pl)) o.
Proof.
  intros sha secret age ifc a margin flags ts tse pl pad q H T I HO B L P U. rewrite chunks_one. destruct (packet_parses (m_role q) margin flags ts tse [(1, pl)] pad HO) as (h & E & HC & HM); auto.
  { constructor; [|constructor]. split; [unfold is_byte; cbn; lia|]. split; [exact B|cbn [snd]; lia]. }
  unfold on_packet. rewrite E, HC. cbn [on_chunks]. unfold on_chunk. cbn [fst snd]. rewrite HM, U. cbn [negb andb]. change (1 =? CHUNK_PING) with true. cbv iota. unfold on_ping. rewrite ping_packet_ok. cbn [rbind].
  destruct (Z.leb_spec (zlen pl) 997); [|lia]. cbn [rbind]. rewrite after_cases by auto. destruct (_ && _); cbn [rbind]; eexists _, _; (split; [reflexivity|]); left; reflexivity.
Qed.
Lemma accept_move : forall sha secret age ifc a margin flags hts tse pad p ts, hash32m sha -> time_ok age -> ifc_ok ifc -> addr_ok a -> header_ok (m_role p) flags hts tse -> Z.of_nat pad < 65538 ->
  m_up p = true -> is_u64 ts -> ts + 120 <= U64MAX -> age / 1000000 <= ts + 120 -> m_rx p < ts ->
  on_packet sha secret age ifc a (length margin) (packet_of margin flags hts tse (chunk_bytes 65 (proof sha secret ts ifc a)) pad) p = Ok (moved p ts ifc a, [MMoved ts ifc a]).
Proof.
  intros sha secret age ifc a margin flags hts tse pad p ts H T I A HO P U UT UL FR LT. rewrite chunks_one. destruct (proof_bytes sha secret ts ifc a H UT) as (PB & PL).
  destruct (packet_parses (m_role p) margin flags hts tse [(65, proof sha secret ts ifc a)] pad HO) as (h & E & HC & HM); auto.
  { constructor; [|constructor]. split; [unfold is_byte; cbn; lia|]. split; [exact PB|cbn [snd]; lia]. }
  unfold on_packet. rewrite E, HC. cbn [on_chunks]. unfold on_chunk. cbn [fst snd]. rewrite HM, U. cbn [negb andb]. change (65 =? CHUNK_PING) with false. change (65 =? CHUNK_PING_REPLY) with true. cbv iota.
  destruct (proof_parse sha secret ts ifc a H UT) as (k & K). unfold on_ping_reply. unfold proof at 1. unfold proof in K. cbn [tl] in K. change (77 =? PING_MARKING_MOBILITY) with true. cbv iota. rewrite K. cbn [rbind].
  unfold on_check_reply. rewrite make_check_proof by exact I. replace (ts <=? m_rx p) with false by (symmetry; apply Z.leb_gt; exact LT).
  replace (wrap64 (ts + MAX_MOBILITY_LIFETIME) <? seconds_of age) with false.
  2: { symmetry. apply Z.ltb_ge. unfold wrap64, MAX_MOBILITY_LIFETIME, seconds_of, TICKS, is_u64, U64MAX in *. rewrite Z.mod_small by lia. exact FR. }
  cbn [orb]. change (77 :: vlu_encode ts ++ sha (sealed secret ts ifc a)) with (proof sha secret ts ifc a). replace (eq_bytes (proof sha secret ts ifc a) (proof sha secret ts ifc a)) with true by (symmetry; apply eq_bytes_iff; reflexivity). cbn [negb rbind app].
  rewrite after_cases by auto. cbn [m_if m_addr]. rewrite Z.eqb_refl. replace (addr_eq a a) with true by (symmetry; apply eq_same; auto; apply same_refl). cbn [negb andb]. rewrite andb_false_r. cbn [andb rbind app]. reflexivity.
Qed.
Lemma follows : forall sha secret l0 i n p age ifc a margin flags ts tse cs pad, hash32m sha -> Forall mevent_ok l0 -> mrun sha secret inst0 l0 = Ok i ->
  time_ok age -> ifc_ok ifc -> place_ok a -> header_ok (m_role p) flags ts tse -> Forall chunk_ok cs -> Forall ordinary cs -> Z.of_nat pad < 65538 -> bytes_ok (packet_of margin flags ts tse (chunks_bytes cs) pad) ->
  session_is i n p -> m_up p = true -> ~ (ifc = m_if p /\ same_addr a (m_addr p)) -> m_tx p < age / 1000000 ->
  exists i1 pk, mstep sha secret i (MPacket n age ifc a (length margin) (packet_of margin flags ts tse (chunks_bytes cs) pad)) = Ok i1 /\ In (n, MCheck (age / 1000000) ifc a pk) (i_out i1)
  /\ forall sha' secret' age' ifc' a' margin' flags' ts' tse' pad' q, hash32m sha' -> time_ok age' -> ifc_ok ifc' -> header_ok (m_role q) flags' ts' tse' -> Z.of_nat pad' < 65538 -> m_up q = true ->
     exists q' o r, on_packet sha' secret' age' ifc' a' (length margin') (packet_of margin' flags' ts' tse' pk pad') q = Ok (q', o) /\ In (MReply (m_if q) (m_addr q) r) o
     /\ forall l2 i2 p2 age2 margin2 flags2 ts2 tse2 pad2, Forall mevent_ok l2 -> mrun sha secret i1 l2 = Ok i2 -> session_is i2 n p2 -> m_up p2 = true -> m_rx p2 < age / 1000000 ->
        time_ok age2 -> age2 / 1000000 <= age / 1000000 + 120 -> header_ok (m_role p2) flags2 ts2 tse2 -> Z.of_nat pad2 < 65538 ->
        exists i3 p3, mstep sha secret i2 (MPacket n age2 ifc a (length margin2) (packet_of margin2 flags2 ts2 tse2 r pad2)) = Ok i3 /\ session_is i3 n p3 /\ m_up p3 = true /\ m_if p3 = ifc /\ m_addr p3 = a /\ by_addr i3 a = Some n.
Proof.
  intros sha secret l0 i n p age ifc a margin flags ts tse cs pad H F0 R0 T I (A & AF) HO CO OR P BP S U NP LT. pose proof (TI_run sha secret H l0 inst0 i F0 TI_0 R0) as TI0.
  assert (NP' : (ifc =? m_if p) && addr_eq a (m_addr p) = false).
  { destruct (Z.eqb_spec ifc (m_if p)) as [E1|E1]; [|reflexivity]. cbn [andb]. destruct (addr_eq a (m_addr p)) eqn:E2; [|reflexivity]. exfalso. apply NP. split; [exact E1|]. apply eq_same; auto. exact (ti_ok _ TI0 _ _ S). }
  destruct (probe sha secret age ifc a margin flags ts tse cs pad p H T I HO CO OR P U NP' LT) as (o & E). pose proof (seconds_u64 age T) as UT.
  destruct (proof_bytes sha secret (age / 1000000) ifc a H UT) as (PB & PL).
  eexists _, _. cbn [mstep]. rewrite S, E. cbn [rbind]. split; [reflexivity|]. split.
  { destruct (m_up p && _); [destruct (did_close_sess n (mkInst (set_at (i_sess i) n (checked p (age / 1000000))) (follow n (m_addr p) (o ++ [MCheck (age / 1000000) ifc a (chunk_bytes 1 (proof sha secret (age / 1000000) ifc a))]) (i_addrs i)) (i_epds i) (i_out i ++ map (pair n) (o ++ [MCheck (age / 1000000) ifc a (chunk_bytes 1 (proof sha secret (age / 1000000) ifc a))])))) as (_ & ->)|]; cbn [i_out]; apply in_or_app; right; apply in_map; apply in_or_app; right; left; reflexivity. }
  intros sha' secret' age' ifc' a' margin' flags' ts' tse' pad' q H' T' I' HO' P' U'.
  destruct (echo sha' secret' age' ifc' a' margin' flags' ts' tse' (proof sha secret (age / 1000000) ifc a) pad' q H' T' I' HO' PB ltac:(lia) P' U') as (q' & o' & E' & IN).
  exists q', o', (chunk_bytes 65 (proof sha secret (age / 1000000) ifc a)). split; [exact E'|]. split; [exact IN|].
  intros l2 i2 p2 age2 margin2 flags2 ts2 tse2 pad2 F2 R2 S2 U2 RX T2 FR HO2 P2. set (i1 := if _ && _ then _ else _) in R2.
  assert (TI1 : TI i1).
  { refine (proj1 (TI_step sha secret i (MPacket n age ifc a (length margin) (packet_of margin flags ts tse (chunks_bytes cs) pad)) i1 H _ TI0 _)).
    - cbn [mevent_ok]. split; [exact T|]. split; [exact I|]. split; [split; [exact A|exact AF]|exact BP].
    - cbn [mstep]. rewrite S, E. reflexivity. }
  pose proof (TI_run sha secret H l2 i1 i2 F2 TI1 R2) as TI2.
  assert (UL : age / 1000000 + 120 <= U64MAX) by (apply T).
  pose proof (accept_move sha secret age2 ifc a margin2 flags2 ts2 tse2 pad2 p2 (age / 1000000) H T2 I A HO2 P2 U2 UT UL FR RX) as EM.
  assert (LN : (n < length (i_sess i2))%nat) by (apply nth_error_Some; unfold session_is in S2; congruence).
  destruct (TI_packet n i2 p2 (moved p2 (age / 1000000) ifc a) [MMoved (age / 1000000) ifc a] a TI2 S2 A) as (_ & FB & _); auto.
  { intros t j b [X|[]]. inversion X; reflexivity. }
  { intros X. congruence. }
  eexists _, (moved p2 (age / 1000000) ifc a). cbn [mstep]. rewrite S2, EM. cbn [rbind]. split; [reflexivity|]. cbv zeta in FB. cbn [moved m_up] in FB |- *. rewrite U2 in FB |- *. cbn [andb negb] in FB |- *.
  split; [unfold session_is; cbn [i_sess]; rewrite set_at_same by exact LN; reflexivity|]. cbn [moved m_up m_if m_addr]. split; [first [exact U2|reflexivity]|]. split; [reflexivity|]. split; [reflexivity|]. apply FB; [discriminate|reflexivity].
Qed.
