(** Lemmas about the text form of AMF0 values. *)
From Verif Require Import Base BaseFacts AMF AMFSpec JSON JSONSpec URIParseProofs URIResolve.

(** ** Digits. *)
Lemma digits_loop_spec : forall fuel v acc, 0 <= v < 10 ^ Z.of_nat fuel -> (0 < fuel)%nat ->
  exists d, digits_loop fuel v acc = d ++ acc /\ digits d /\ dec_value d = v /\ (d = [48] \/ hd 0 d <> 48).
Proof.
  assert (DV : forall d a, fold_left (fun a d => 10 * a + (d - 48)) (d ++ [a]) 0 = 10 * dec_value d + (a - 48)) by (intros; rewrite fold_left_app; reflexivity).
  induction fuel as [|k IH]; intros v acc H F; [lia|]. cbn [digits_loop]. cbv zeta.
  assert (M : 0 <= v mod 10 < 10) by (apply Z.mod_pos_bound; lia). pose proof (Z.div_mod v 10 ltac:(lia)) as DM.
  assert (H2 : v < 10 * 10 ^ Z.of_nat k) by (rewrite Nat2Z.inj_succ, Z.pow_succ_r in H by lia; lia).
  destruct (v / 10 =? 0) eqn:E.
  - apply Z.eqb_eq in E. exists [48 + v mod 10]. split; [reflexivity|]. split; [split; [discriminate|constructor; [unfold is_digit; lia|constructor]]|]. split; [unfold dec_value; cbn [fold_left]; lia|].
    destruct (Z.eq_dec (v mod 10) 0) as [->|]; [left; reflexivity|right; cbn [hd]; lia].
  - apply Z.eqb_neq in E. assert (Q : 0 <= v / 10) by (apply Z.div_pos; lia). assert (Q2 : v / 10 < 10 ^ Z.of_nat k) by (apply Z.div_lt_upper_bound; lia).
    assert (Fk : (0 < k)%nat) by (destruct k; [cbn in Q2; lia|lia]).
    destruct (IH (v / 10) (48 + v mod 10 :: acc) ltac:(lia) Fk) as (d & E1 & (N & D) & V & L).
    exists (d ++ [48 + v mod 10]). split; [rewrite E1, <- app_assoc; reflexivity|]. split; [split; [destruct d; discriminate|apply Forall_app; split; [exact D|constructor; [unfold is_digit; lia|constructor]]]|].
    split; [unfold dec_value; rewrite DV, V; lia|]. right. destruct d as [|a d]; [contradiction|]. cbn [hd app]. destruct L as [L|L]; [|exact L].
    injection L as -> ->. unfold dec_value in V. cbn [fold_left] in V. lia.
Qed.
Lemma base10_spec : forall v, is_u64 v -> digits (to_base10 v) /\ dec_value (to_base10 v) = v /\ (to_base10 v = [48] \/ hd 0 (to_base10 v) <> 48).
Proof.
  intros v H. unfold is_u64, U64MAX in H. unfold to_base10. destruct (digits_loop_spec 39 v []) as (d & E & D); [split; [lia|]; assert (P : 10 ^ Z.of_nat 39 = 1000000000000000000000000000000000000000) by reflexivity; rewrite P; lia|lia|].
  rewrite E, app_nil_r. exact D.
Qed.

(** ** Strings. *)
Lemma hexdigit_ok : forall x, 0 <= x < 16 -> hexv (hexdigit x) x.
Proof. intros x H. unfold hexdigit, hexv. destruct (x <? 10) eqn:E; lia. Qed.
Lemma json_chars : forall s, bytes_ok s -> jchars (concat (map json_char s)) s.
Proof.
  induction s as [|x s IH]; intro B; cbn [map concat]; [constructor|]. unfold bytes_ok in B. inversion B as [|? ? Bx Bs]. subst. specialize (IH Bs). unfold is_byte in Bx.
  assert (K : forall e c, In (e, c) escapes -> jchars ([92; e] ++ concat (map json_char s)) (c :: s)) by (intros; cbn; apply jc_esc; auto).
  unfold json_char. destruct ((x =? 92) || (x =? 34)) eqn:E1.
  { apply K. apply Bool.orb_true_iff in E1. destruct E1 as [E1|E1]; apply Z.eqb_eq in E1; subst; cbn; tauto. }
  apply Bool.orb_false_iff in E1. destruct E1 as [E1 E2]. apply Z.eqb_neq in E1, E2.
  destruct (x =? 8) eqn:E3; [apply Z.eqb_eq in E3; subst; apply K; cbn; tauto|].
  destruct (x =? 12) eqn:E4; [apply Z.eqb_eq in E4; subst; apply K; cbn; tauto|].
  destruct (x =? 10) eqn:E5; [apply Z.eqb_eq in E5; subst; apply K; cbn; tauto|].
  destruct (x =? 13) eqn:E6; [apply Z.eqb_eq in E6; subst; apply K; cbn; tauto|].
  destruct (x =? 9) eqn:E7; [apply Z.eqb_eq in E7; subst; apply K; cbn; tauto|].
  destruct ((x <? 32) || (x =? 127)) eqn:E8.
  - assert (X : x = 16 * (x / 16) + x mod 16) by (apply Z.div_mod; lia). rewrite X at 3. cbn [app]. apply jc_u; auto.
    + replace (Z.land (Z.shiftr x 4) 15) with (x / 16); [apply hexdigit_ok; split; [apply Z.div_pos; lia|apply Z.div_lt_upper_bound; lia]|].
      rewrite Z.shiftr_div_pow2 by lia. change 15 with (Z.ones 4). rewrite Z.land_ones by lia. change (2 ^ 4) with 16. symmetry. apply Z.mod_small. split; [apply Z.div_pos; lia|apply Z.div_lt_upper_bound; lia].
    + replace (Z.land x 15) with (x mod 16); [apply hexdigit_ok; apply Z.mod_pos_bound; lia|]. change 15 with (Z.ones 4). rewrite Z.land_ones by lia. reflexivity.
    + apply Bool.orb_true_iff in E8. destruct E8 as [E8|E8]; [apply Z.ltb_lt in E8|apply Z.eqb_eq in E8]; apply Z.div_lt_upper_bound; lia.
  - apply Bool.orb_false_iff in E8. destruct E8 as [E8 E9]. apply Z.ltb_ge in E8. apply jc_raw; auto.
Qed.
Lemma hexv_fun : forall d v v', hexv d v -> hexv d v' -> v = v'.
Proof. unfold hexv. intros. lia. Qed.
Lemma escapes_fun : forall e c c', In (e, c) escapes -> In (e, c') escapes -> c = c'.
Proof. intros e c c' H H'. cbn in H, H'. repeat (destruct H as [H|H]; [inversion H; subst; repeat (destruct H' as [H'|H']; [inversion H'; subst; try reflexivity|]); try contradiction|]); contradiction. Qed.
Lemma escapes_e : forall e c, In (e, c) escapes -> e <> 117.
Proof. intros e c H. cbn in H. repeat (destruct H as [H|H]; [inversion H; lia|]). contradiction. Qed.
Lemma jchars_unique : forall t m, jchars t m -> forall t' m' r r', jchars t' m' -> t ++ 34 :: r = t' ++ 34 :: r' -> m = m' /\ r = r'.
Proof.
  induction 1 as [|c t m A B C J IH|e c t m I J IH|a b va vb t m Ha Hb V J IH]; intros t' m' r r' J' E; destruct J' as [|c' t' m' A' B' C' J'|e' c' t' m' I' J'|a' b' va' vb' t' m' Ha' Hb' V' J']; cbn [app] in E; injection E as E; try congruence; try lia.
  - auto.
  - destruct (IH _ _ _ _ J' H) as [-> ->]. subst. auto.
  - destruct (IH _ _ _ _ J' H) as [-> ->]. subst. rewrite (escapes_fun _ _ _ I I'). auto.
  - exfalso. subst. eapply escapes_e; [exact I|reflexivity].
  - exfalso. subst. eapply escapes_e; [exact I'|reflexivity].
  - subst. destruct (IH _ _ _ _ J' H0) as [-> ->]. rewrite (hexv_fun _ _ _ Ha Ha'), (hexv_fun _ _ _ Hb Hb'). auto.
Qed.

(** ** Reading is deterministic. *)
Lemma number_head : forall t, number t -> exists c u, t = c :: u /\ (c = 45 \/ is_digit c).
Proof.
  intros t (s & i & f & e & -> & S & (N & D) & _). destruct S as [->| ->]; cbn [app]; [|eauto]. destruct i as [|c i]; [contradiction|]. inversion D. subst. cbn. eauto.
Qed.
Lemma number_chars : forall t, number t -> Forall num_char t.
Proof.
  assert (DN : forall l, Forall is_digit l -> Forall num_char l) by (intros l H; eapply Forall_impl; [|exact H]; intros; left; assumption).
  intros t (s & i & f & e & -> & S & (N & D) & _ & F & E). rewrite !Forall_app. split; [|split; [auto|split]].
  - destruct S as [->| ->]; constructor; [unfold num_char; tauto|constructor].
  - destruct F as [->|(d & -> & _ & F)]; constructor; [unfold num_char; tauto|auto].
  - destruct E as [->|(x & s' & d & -> & X & S' & _ & E)]; constructor; [unfold num_char; lia|]. apply Forall_app. split; [|auto].
    destruct S' as [->|[->| ->]]; constructor; try constructor; unfold num_char; tauto.
Qed.
Lemma num_unique : forall t r t' r', number t -> ends_num r -> number t' -> ends_num r' -> t ++ r = t' ++ r' -> t = t' /\ r = r'.
Proof.
  intros t r t' r' N E N' E' H. apply (run_unique (fun c => ~ num_char c)) in H; auto.
  - intros c I Q. apply Q. apply number_chars in N. rewrite Forall_forall in N. auto.
  - intros c I Q. apply Q. apply number_chars in N'. rewrite Forall_forall in N'. auto.
  - destruct r as [|c r]; [auto|]. right. eauto.
  - destruct r' as [|c r']; [auto|]. right. eauto.
Qed.
Lemma ws_unique : forall w c s w' c' s', ws w -> ws w' -> ~ is_ws c -> ~ is_ws c' -> w ++ c :: s = w' ++ c' :: s' -> w = w' /\ c = c' /\ s = s'.
Proof.
  intros w c s w' c' s' W W' C C' H. unfold ws in *. rewrite Forall_forall in W, W'. apply (run_unique (fun c => ~ is_ws c)) in H; auto.
  - destruct H as [-> H]. injection H as -> ->. auto.
  - right. eauto.
  - right. eauto.
Qed.
Ltac nows := unfold is_ws; lia.
Ltac badnum := match goal with N : number ?t, E : ?t ++ _ = _ |- _ => let c := fresh in let u := fresh in let Q := fresh in destruct (number_head _ N) as (c & u & -> & Q); cbn [app] in E; injection E as E; unfold is_digit, is_ws in *; lia end.
Lemma no_value : forall w r v r1, ws w -> reads (w ++ 93 :: r) v r1 -> False.
Proof.
  induction w as [|c w IH]; intros r v r1 W H; cbn [app] in H.
  - inversion H; subst; try (unfold is_ws in *; lia). badnum.
  - unfold ws in W. inversion W as [|? ? Wc Ww]. subst. inversion H; subst; try (unfold is_ws in *; lia); [eapply IH; eauto|badnum].
Qed.
Scheme reads_mut := Minimality for reads Sort Prop with elems_mut := Minimality for elems Sort Prop with member_mut := Minimality for member Sort Prop with mems_mut := Minimality for mems Sort Prop.
Lemma reads_unique : forall s v r, reads s v r -> forall v' r', reads s v' r' -> v = v' /\ r = r'.
Proof.
  apply (reads_mut (fun s v r => forall v' r', reads s v' r' -> v = v' /\ r = r') (fun s l r => forall l' r', elems s l' r' -> l = l' /\ r = r')
    (fun s k v r => forall k' v' r', member s k' v' r' -> k = k' /\ v = v' /\ r = r') (fun s l r => forall l' r', mems s l' r' -> l = l' /\ r = r')).
  - intros c s v r W R IH v' r' H. inversion H; subst; try (unfold is_ws in W; lia); [eauto|badnum].
  - intros t r N E v' r' H. destruct (number_head _ N) as (c & u & Et & Q). rewrite Et in H. cbn [app] in H.
    inversion H; subst; try (unfold is_digit, is_ws in *; lia).
    change (c :: u ++ r) with ((c :: u) ++ r) in H0. destruct (num_unique _ _ _ _ H1 H2 N E H0) as [-> ->]. auto.
  - intros t m r J v' r' H. inversion H; subst; try (unfold is_ws in *; lia); [badnum|].
    match goal with E : ?a ++ 34 :: _ = ?b ++ 34 :: _, J1 : jchars ?a _, J2 : jchars ?b _ |- _ => destruct (jchars_unique _ _ J1 _ _ _ _ J2 E) as [-> ->] end. auto.
  - intros r v' r' H. inversion H; subst; try (unfold is_ws in *; lia); [badnum|auto].
  - intros r v' r' H. inversion H; subst; try (unfold is_ws in *; lia); [badnum|auto].
  - intros r v' r' H. inversion H; subst; try (unfold is_ws in *; lia); [badnum|auto].
  - intros w r W v' r' H. inversion H; subst; try (unfold is_ws in *; lia); [badnum| |].
    + match goal with E : _ ++ 93 :: _ = _ ++ 93 :: _ |- _ => apply ws_unique in E; try assumption; try nows; destruct E as (-> & _ & ->) end. auto.
    + exfalso. eapply no_value; eauto.
  - intros s v r1 l r R IH E IHe v' r' H. inversion H; subst; try (unfold is_ws in *; lia); [badnum| |].
    + exfalso. eapply no_value; eauto.
    + match goal with R' : reads s _ _ |- _ => destruct (IH _ _ R') as [-> ->] end. match goal with E' : elems _ _ _ |- _ => destruct (IHe _ _ E') as [-> ->] end. auto.
  - intros w r W v' r' H. inversion H; subst; try (unfold is_ws in *; lia); [badnum| |].
    + match goal with E : _ ++ 125 :: _ = _ ++ 125 :: _ |- _ => apply ws_unique in E; try assumption; try nows; destruct E as (-> & _ & ->) end. auto.
    + match goal with M : member _ _ _ _ |- _ => inversion M; subst end.
      match goal with E : _ ++ 34 :: _ = _ ++ 125 :: _ |- _ => apply ws_unique in E; try assumption; try nows; destruct E as (_ & E & _); discriminate E end.
  - intros s k v r1 l r M IHm E IHe v' r' H. inversion H; subst; try (unfold is_ws in *; lia); [badnum| |].
    + inversion M; subst. match goal with E : _ ++ 34 :: _ = _ ++ 125 :: _ |- _ => apply ws_unique in E; try assumption; try nows; destruct E as (_ & E & _); discriminate E
      | E : _ ++ 125 :: _ = _ ++ 34 :: _ |- _ => apply ws_unique in E; try assumption; try nows; destruct E as (_ & E & _); discriminate E end.
    + match goal with M' : member s _ _ _ |- _ => destruct (IHm _ _ _ M') as (-> & -> & ->) end. match goal with E' : mems _ _ _ |- _ => destruct (IHe _ _ E') as [-> ->] end. auto.
  - intros w r W l' r' H. inversion H; subst; match goal with E : _ ++ _ :: _ = _ ++ _ :: _ |- _ => apply ws_unique in E; try assumption; try nows; destruct E as (_ & E1 & E2) end; subst; auto.
  - intros w s v r1 l r W R IH E IHe l' r' H. inversion H; subst; match goal with E : _ ++ _ :: _ = _ ++ _ :: _ |- _ => apply ws_unique in E; try assumption; try nows; destruct E as (_ & E1 & E2) end. subst.
    match goal with R' : reads s _ _ |- _ => destruct (IH _ _ R') as [-> ->] end. match goal with E' : elems _ _ _ |- _ => destruct (IHe _ _ E') as [-> ->] end. auto.
  - intros w t k w' s v r W J W' R IH k' v' r' H. inversion H; subst.
    match goal with E : _ ++ 34 :: _ = _ ++ 34 :: _ |- _ => apply ws_unique in E; try assumption; try nows; destruct E as (_ & _ & E2) end.
    match goal with J1 : jchars ?a k', E : ?a ++ 34 :: _ = _ |- _ => destruct (jchars_unique _ _ J1 _ _ _ _ J E) as [-> E3] end.
    apply ws_unique in E3; try assumption; try nows. destruct E3 as (_ & _ & ->). match goal with R' : reads s _ _ |- _ => destruct (IH _ _ R') as [-> ->] end. auto.
  - intros w r W l' r' H. inversion H; subst; match goal with E : _ ++ _ :: _ = _ ++ _ :: _ |- _ => apply ws_unique in E; try assumption; try nows; destruct E as (_ & E1 & E2) end; subst; auto.
  - intros w s k v r1 l r W M IH E IHe l' r' H. inversion H; subst; match goal with E : _ ++ _ :: _ = _ ++ _ :: _ |- _ => apply ws_unique in E; try assumption; try nows; destruct E as (_ & E1 & E2) end. subst.
    match goal with M' : member s _ _ _ |- _ => destruct (IH _ _ _ M') as (-> & -> & ->) end. match goal with E' : mems _ _ _ |- _ => destruct (IHe _ _ E') as [-> ->] end. auto.
Qed.
