(** Proofs about RTWebSocket flows: the receiving end. *)
From Verif Require Import Base BaseFacts VLU VLUSpec VLUProofs RTWS RTWSSpec RTWSProofs.

Inductive bm := BAck (d a : Z) | BExc (reason : Z) (desc : list Z) | BClose.
Definition encb (id : Z) (m : bm) : list Z := match m with BAck d a => enc_ack id d a | BExc r d => enc_exc id r d | BClose => enc_closeack id end.
Definition bok (m : bm) : Prop := match m with BAck d a => is_u64 d /\ is_u64 a | BExc r d => is_u64 r /\ bytes_ok d | BClose => True end.
Fixpoint sumd (l : list bm) : Z := match l with [] => 0 | BAck d _ :: l => d + sumd l | _ :: l => sumd l end.
Definition ladv (dflt : Z) (l : list bm) : Z := fold_left (fun x m => match m with BAck _ a => a | _ => x end) l dflt.
Definition noca (l : list bm) : Prop := Forall (fun m => m <> BClose) l.
Definition bars (gone ca : bool) (l : list bm) : Prop :=
  if ca then (if gone then l = [] else exists l', l = l' ++ [BClose] /\ noca l') else gone = false /\ noca l.
Lemma sumd_app : forall a b, sumd (a ++ b) = sumd a + sumd b.
Proof. induction a as [|m a IH]; intros b; [reflexivity|]. cbn [List.app sumd]. rewrite IH. destruct m; lia. Qed.
Lemma ladv_app : forall d a b, ladv d (a ++ b) = ladv (ladv d a) b.
Proof. intros. apply fold_left_app. Qed.

Definition wr (p : Z * list Z) : Z * list Z := (wrap64 (fst p), snd p).
Definition mv (m : rmsg) : Z * list Z := (r_num m, concat (r_frags m)).
Lemma unsnoc_app : forall {A} (l : list A) x, unsnoc (l ++ [x]) = Some (l, x).
Proof. induction l as [|y l IH]; intros x; [reflexivity|]. cbn [List.app unsnoc]. rewrite IH. reflexivity. Qed.
Lemma u64_wrap : forall x, is_u64 (wrap64 x).
Proof. intros x. unfold is_u64, U64MAX, wrap64. pose proof (Z.mod_pos_bound x 18446744073709551616 ltac:(lia)). lia. Qed.
Lemma wrap_add_l : forall a b, wrap64 (wrap64 a + b) = wrap64 (a + b).
Proof. intros. unfold wrap64. apply Zplus_mod_idemp_l. Qed.
Lemma wrap_add_r : forall a b, wrap64 (a + wrap64 b) = wrap64 (a + b).
Proof. intros. unfold wrap64. apply Zplus_mod_idemp_r. Qed.

Definition shape (r : rflow) (v : vw) : Prop :=
  exists fs p, g_buf r = fs ++ p /\ Forall (fun m => r_complete m = true) fs /\ map wr (v_full v) = g_got r ++ map mv fs /\
    match v_part v with None => p = [] | Some q => exists m, p = [m] /\ r_complete m = false /\ mv m = wr q end.
Section R.
Variables (id : Z) (est gone : bool) (pre : list bm) (dflt : Z).
Definition ackst (r : rflow) (L : Z) : Prop := g_closeack r = true \/ g_acknow r && g_ackq r = true \/ g_paused r = true \/ L = g_cap r.
Record RI (X : Z) (v : vw) (r : rflow) : Prop := {
  ri_id : g_id r = id;
  ri_est : est = true -> g_open r = true -> g_user r = true;
  ri_shape : shape r v;
  ri_next : g_next r = wrap64 (v_next v);
  ri_end : g_complete r = v_end v;
  ri_endpart : v_end v = true -> v_part v = None;
  ri_done : (g_sentcomplete r = false -> g_done r = O) /\ (g_done r <= 1)%nat /\ (g_done r = 1%nat -> g_complete r = true /\ g_buf r = [] /\ g_open r = false);
  ri_caps : is_u64 (g_cap r) /\ is_u64 (g_len r) /\ is_u64 (g_rcvd r);
  ri_ca : g_closeack r = true -> g_complete r = true /\ g_rcvd r = 0;
  ri_due : g_acknow r && g_ackq r = true \/ g_rcvd r < g_thresh r \/ g_rcvd r = 0;
  ri_out : exists outs, g_out r = map (encb id) outs /\ Forall bok outs /\ bars gone (g_closeack r) (pre ++ outs) /\ wrap64 (sumd (pre ++ outs) + g_rcvd r) = X /\
    0 <= g_thresh r /\ 2 * g_thresh r <= ladv dflt (pre ++ outs) /\ ackst r (ladv dflt (pre ++ outs)) }.
(** a delivery is due for what can be delivered *)
Definition PD (r : rflow) : Prop :=
  g_open r = true -> g_paused r = false -> (match g_buf r with m :: _ => r_complete m | [] => g_complete r end) = true -> g_pending r = true.

Definition frame (r r' : rflow) : Prop := g_id r' = g_id r /\ g_buf r' = g_buf r /\ g_next r' = g_next r /\ g_complete r' = g_complete r /\ g_got r' = g_got r /\ g_sentcomplete r' = g_sentcomplete r /\ g_done r' = g_done r /\
  g_closeack r' = g_closeack r /\ g_len r' = g_len r /\ g_rcvd r' = g_rcvd r /\ g_thresh r' = g_thresh r /\ g_out r' = g_out r.
Lemma ri_same : forall X v r r', RI X v r -> frame r r' -> (g_open r' = g_open r /\ (g_user r = true -> g_user r' = true) \/ g_open r' = false) -> is_u64 (g_cap r') -> (g_acknow r && g_ackq r = true -> g_acknow r' && g_ackq r' = true) ->
  (forall L, ackst r L -> ackst r' L) -> RI X v r'.
Proof.
  intros X v r r' H (E1 & E2 & E3 & E4 & E5 & E6 & E7 & E8 & E9 & E10 & E11 & E12) O C A S. destruct H as [H1 H2 H3 H4 H5 H6 H7 H8 H9 H10 H11].
  split; rewrite ?E1, ?E2, ?E3, ?E4, ?E5, ?E6, ?E7, ?E8, ?E9, ?E10, ?E11, ?E12; auto.
  - intros T O'. destruct O as [[O U]|O]; [apply U, H2; congruence|congruence].
  - unfold shape in *. rewrite E2, E5. exact H3.
  - destruct H7 as (D1 & D2 & D3). split; [exact D1|]. split; [exact D2|]. intros D. destruct (D3 D) as (a & b & c). split; [exact a|]. split; [exact b|]. destruct O as [[O _]|O]; congruence.
  - destruct H8 as (_ & X1 & X2). auto.
  - destruct H10 as [X1|X1]; auto.
  - destruct H11 as (outs & O1 & O2 & O3 & O4 & O5 & O6 & O7). exists outs. auto 10.
Qed.
Ltac fr := unfold frame; cbn; repeat split.
Lemma queue_ack_ri : forall now X v r, RI X v r -> RI X v (queue_ack now r).
Proof.
  intros now X v r H. apply (ri_same X v r _ H); [fr|left; split; [reflexivity|auto]|apply (ri_caps _ _ _ H)|cbn; intros Q; apply andb_prop in Q; destruct Q as [-> _]; reflexivity|].
  unfold ackst. cbn. intros L [S|[S|S]]; [left; exact S|right; left; apply andb_prop in S; destruct S as [-> _]; reflexivity|right; right; exact S].
Qed.
Lemma cap_ri : forall n X v r, RI X v r -> is_u64 n -> RI X v (r_cap n r).
Proof.
  intros n X v r H N. unfold r_cap. destruct (Z.eqb_spec n (g_cap r)) as [->|D].
  - apply (ri_same X v r _ H); [fr|left; split; [reflexivity|auto]|exact N|auto|]. unfold ackst. cbn. auto.
  - apply (ri_same X v r _ H); [fr|left; split; [reflexivity|auto]|exact N|cbn; intros Q; apply andb_prop in Q; destruct Q as [-> _]; reflexivity|]. unfold ackst. cbn. intros L _. right. left. rewrite orb_true_r. reflexivity.
Qed.
Lemma user_ri : forall u o X v r, RI X v r -> (g_open r = o /\ u = true \/ o = false) -> RI X v (with_user r u o).
Proof. intros u o X v r H O. apply (ri_same X v r _ H); [fr| |apply (ri_caps _ _ _ H)|auto|unfold ackst; cbn; auto]. cbn. destruct O as [[O ->]| ->]; [left; split; [congruence|auto]|right; reflexivity]. Qed.
Lemma pending_ri : forall p X v r, RI X v r -> RI X v (with_pending r p).
Proof. intros p X v r H. apply (ri_same X v r _ H); [fr|left; split; [reflexivity|auto]|apply (ri_caps _ _ _ H)|auto|unfold ackst; cbn; auto]. Qed.
Lemma delivery_ri : forall X v r, RI X v r -> RI X v (queue_delivery r).
Proof. intros X v r H. unfold queue_delivery. destruct (_ && _); [apply pending_ri|]; exact H. Qed.
Lemma pause_ri : forall p X v r, RI X v r -> RI X v (r_pause p r).
Proof.
  intros p X v r H. unfold r_pause. destruct p.
  - apply (ri_same X v r _ H); [fr|left; split; [reflexivity|auto]|apply (ri_caps _ _ _ H)|auto|unfold ackst; cbn; auto].
  - destruct (g_paused r) eqn:P.
    + apply (ri_same X v r _ H); try (unfold queue_delivery; destruct (_ && _); fr; fail).
      * left. unfold queue_delivery. destruct (_ && _); split; cbn; auto.
      * unfold queue_delivery. destruct (_ && _); apply (ri_caps _ _ _ H).
      * intros _. cbn [queue_ack with_ack g_acknow g_ackq]. rewrite orb_true_r. reflexivity.
      * unfold queue_delivery. destruct (_ && _); unfold ackst; cbn; intros L _; right; left; rewrite orb_true_r; reflexivity.
    + apply delivery_ri. apply (ri_same X v r _ H); [fr|left; split; [reflexivity|auto]|apply (ri_caps _ _ _ H)|auto|]. unfold ackst. cbn. rewrite P. auto.
Qed.
Lemma noca_snoc : forall l m, noca l -> m <> BClose -> noca (l ++ [m]).
Proof. intros l m N M. apply Forall_app. split; [exact N|]. constructor; [exact M|constructor]. Qed.
Lemma close_ri : forall reason desc X v r, RI X v r -> is_u64 reason -> bytes_ok desc -> RI X v (r_close reason desc r).
Proof.
  intros reason desc X v r H R D. unfold r_close. destruct (g_open r) eqn:O; [|exact H]. cbv zeta.
  assert (H' : RI X v (r_cap 0 (with_user r false false))) by (apply cap_ri; [apply user_ri; [exact H|right; reflexivity]|unfold is_u64, U64MAX; lia]).
  destruct (g_complete (r_cap 0 (with_user r false false))) eqn:C; [exact H'|]. set (q := r_cap 0 (with_user r false false)) in *. clearbody q. clear H O r.
  destruct H' as [H1 H2 H3 H4 H5 H6 H7 H8 H9 H10 H11]. split; cbn; auto.
  assert (CA : g_closeack q = false) by (destruct (g_closeack q); [destruct (H9 eq_refl); congruence|reflexivity]).
  destruct H11 as (outs & O1 & O2 & O3 & O4 & O5 & O6 & O7). exists (outs ++ [BExc reason desc]). rewrite O1, map_app, app_assoc. cbn [map encb]. rewrite H1.
  split; [reflexivity|]. split; [apply Forall_app; split; [exact O2|constructor; [split; assumption|constructor]]|]. rewrite CA in *. cbn [bars] in *.
  destruct O3 as [G N]. split; [split; [exact G|apply noca_snoc; [exact N|discriminate]]|]. rewrite sumd_app, ladv_app. cbn [sumd ladv fold_left]. rewrite Z.add_0_r. unfold ackst in *. cbn. auto 10.
Qed.
Lemma act_ri : forall a X v r, RI X v r -> ok_act a -> RI X v (do_act r a).
Proof.
  intros a X v r H A. destruct a as [|p|n|reason desc]; cbn [do_act] in *.
  - destruct (g_open r) eqn:O; [|exact H]. apply user_ri; [exact H|left; auto].
  - apply pause_ri. exact H.
  - apply cap_ri; assumption.
  - apply close_ri; [exact H|apply A|apply A].
Qed.
Lemma acts_ri : forall l X v r, RI X v r -> Forall ok_act l -> RI X v (do_acts l r).
Proof. induction l as [|a l IH]; intros X v r H F; [exact H|]. inversion_clear F. apply IH; [apply act_ri; assumption|assumption]. Qed.
Lemma adv_ok : forall r, is_u64 (g_cap r) -> is_u64 (g_len r) -> is_u64 (adv r).
Proof. intros r C L. unfold adv, is_u64, U64MAX in *. destruct (g_paused r); [|lia]. destruct (Z.gtb_spec (g_len r) (g_cap r)); lia. Qed.
Lemma acknow_ri : forall X v r, RI X v r -> RI X v (with_ack r (g_ackq r) true).
Proof.
  intros X v r H. apply (ri_same X v r _ H); [fr|left; split; [reflexivity|auto]|apply (ri_caps _ _ _ H)|cbn; intros Q; apply andb_prop in Q; apply Q|]. unfold ackst. cbn. intros L [S|[S|S]]; [left; exact S|right; left; apply andb_prop in S; apply S|right; right; exact S].
Qed.
Lemma send_acks_ri : forall X v r, RI X v r -> RI X v (send_acks r).
Proof.
  intros X v r H. unfold send_acks. destruct (g_acknow r) eqn:AN; [|exact H]. cbv zeta.
  pose proof (ri_caps _ _ _ H) as (C1 & C2 & C3). destruct H as [H1 H2 H3 H4 H5 H6 H7 H8 H9 H10 H11]. destruct H11 as (outs & O1 & O2 & O3 & O4 & O5 & O6 & O7).
  pose proof (adv_ok r C1 C2) as AO.
  destruct (g_ackq r) eqn:Q.
  2:{ rewrite andb_false_r in *. unfold ackst in O7. rewrite Q, andb_false_r in O7. split; cbn; auto. exists outs. unfold ackst. cbn. intuition congruence. }
  unfold send_ack. cbn [with_ack g_closeack]. destruct (g_closeack r) eqn:CA.
  { destruct (H9 eq_refl) as [C R0]. split; cbn; auto. exists outs. unfold ackst in *. cbn. rewrite CA in *. auto 10. }
  cbv zeta. unfold with_out. cbn [g_id g_user g_open g_paused g_cap g_len g_rcvd g_thresh g_complete g_sentcomplete g_closeack g_next g_buf g_pending g_ackq g_acknow g_out g_got g_done with_ack].
  change (adv (with_ack r true false)) with (adv r). destruct O3 as [G N].
  assert (AT : 0 <= adv r / 2 /\ 2 * (adv r / 2) <= adv r) by (unfold is_u64 in AO; Z.div_mod_to_equations; lia).
  assert (U0 : is_u64 0) by (unfold is_u64, U64MAX; lia).
  assert (EA : g_paused r = true \/ adv r = g_cap r) by (unfold adv; destruct (g_paused r); auto).
  destruct (g_complete r) eqn:C.
  - split; cbn [g_id g_user g_open g_paused g_cap g_len g_rcvd g_thresh g_complete g_sentcomplete g_closeack g_next g_buf g_pending g_ackq g_acknow g_out g_got g_done with_ack]; auto; try congruence.
    exists (outs ++ [BAck (g_rcvd r) (adv r); BClose]). rewrite O1, map_app, <- !app_assoc. cbn [map encb List.app]. rewrite H1. split; [reflexivity|].
    split; [apply Forall_app; split; [exact O2|]; constructor; [split; assumption|]; constructor; [exact I|constructor]|].
    rewrite (app_assoc pre outs). split; [unfold bars; rewrite G; exists ((pre ++ outs) ++ [BAck (g_rcvd r) (adv r)]); split; [rewrite <- (app_assoc (pre ++ outs)); reflexivity|apply noca_snoc; [exact N|discriminate]]|].
    rewrite sumd_app, ladv_app. cbn [sumd ladv fold_left]. rewrite !Z.add_0_r. split; [exact O4|]. split; [apply AT|]. split; [apply AT|]. left. reflexivity.
  - split; cbn [g_id g_user g_open g_paused g_cap g_len g_rcvd g_thresh g_complete g_sentcomplete g_closeack g_next g_buf g_pending g_ackq g_acknow g_out g_got g_done with_ack]; auto; try congruence; try discriminate.
    exists (outs ++ [BAck (g_rcvd r) (adv r)]). rewrite O1, map_app. cbn [map encb List.app]. rewrite H1. split; [reflexivity|].
    split; [apply Forall_app; split; [exact O2|]; constructor; [split; assumption|constructor]|].
    rewrite (app_assoc pre outs). split; [rewrite CA; unfold bars; split; [exact G|apply noca_snoc; [exact N|discriminate]]|].
    rewrite sumd_app, ladv_app. cbn [sumd ladv fold_left]. rewrite !Z.add_0_r. split; [exact O4|]. split; [apply AT|]. split; [apply AT|]. right; right. exact EA.
Qed.

(** *** What arrives *)
Lemma data_ri : forall more b clen X v r, RI X v r -> v_end v = false -> 0 <= clen -> RI (wrap64 (X + clen)) (vdata more b v) (r_data more b clen r).
Proof.
  intros more b clen X v r H E CL. unfold r_data. cbv zeta.
  set (r1 := with_rbuf (with_rcvd r (wrap64 (g_rcvd r + clen))) (g_buf r) (wrap64 (g_len r + zlen b)) (g_got r)).
  set (r2 := match unsnoc (g_buf r1) with Some (i, m) => _ | None => _ end).
  assert (F : g_id r2 = g_id r /\ g_user r2 = g_user r /\ g_open r2 = g_open r /\ g_paused r2 = g_paused r /\ g_cap r2 = g_cap r /\ g_len r2 = wrap64 (g_len r + zlen b) /\ g_rcvd r2 = wrap64 (g_rcvd r + clen) /\ g_thresh r2 = g_thresh r /\
    g_complete r2 = g_complete r /\ g_sentcomplete r2 = g_sentcomplete r /\ g_closeack r2 = g_closeack r /\ g_pending r2 = g_pending r /\ g_ackq r2 = g_ackq r /\ g_acknow r2 = g_acknow r /\ g_out r2 = g_out r /\ g_got r2 = g_got r /\ g_done r2 = g_done r).
  { unfold r2. destruct (unsnoc (g_buf r1)) as [[i m]|]; [destruct (r_complete m)|]; cbn; repeat split. }
  destruct F as (F1 & F2 & F3 & F4 & F5 & F6 & F7 & F8 & F9 & F10 & F11 & F12 & F13 & F14 & F15 & F16 & F17).
  destruct H as [H1 H2 H3 H4 H5 H6 H7 H8 H9 H10 H11].
  assert (C : g_complete r = false) by congruence.
  assert (CA : g_closeack r = false) by (destruct (g_closeack r); [destruct (H9 eq_refl); congruence|reflexivity]).
  (* the buffer *)
  assert (S : shape r2 (vdata more b v) /\ g_next r2 = wrap64 (v_next (vdata more b v))).
  { destruct H3 as (fs & p & B & FC & G & P). unfold r2. change (g_buf r1) with (g_buf r). rewrite B. unfold vdata. destruct (v_part v) as [[n x]|] eqn:VP.
    - destruct P as (m & -> & MC & MV). rewrite unsnoc_app, MC. unfold mv, wr in MV. cbn [fst snd] in MV. injection MV as MN MB.
      destruct more; cbn [with_rbuf g_buf g_next g_got r1 with_rcvd v_next].
      + split; [|exact H4]. exists fs, [add_fragment true b m]. cbn [g_buf g_got with_rbuf r1 with_rcvd v_full v_part]. split; [reflexivity|]. split; [exact FC|]. split; [exact G|]. eexists. split; [reflexivity|]. split; [exact MC|].
        unfold mv, wr, add_fragment. cbn [r_num r_frags fst snd]. rewrite concat_app, MB, MN. cbn [concat]. rewrite app_nil_r. reflexivity.
      + split; [|exact H4]. exists (fs ++ [add_fragment false b m]), []. cbn [g_buf g_got with_rbuf r1 with_rcvd v_full v_part]. rewrite app_nil_r. split; [reflexivity|]. split; [apply Forall_app; split; [exact FC|constructor; [reflexivity|constructor]]|].
        split; [|reflexivity]. rewrite !map_app, G, <- app_assoc. cbn [map]. do 3 f_equal. unfold mv, wr, add_fragment. cbn [r_num r_frags fst snd]. rewrite concat_app, MB, MN. cbn [concat]. rewrite app_nil_r. reflexivity.
    - subst p. rewrite app_nil_r in *. set (nm := add_fragment more b (mkR (g_next r1) [] 0 false)).
      assert (NB : forall q, (match unsnoc fs with Some (i, m) => if r_complete m then with_next (with_rbuf r1 (fs ++ [nm]) (g_len r1) (g_got r1)) (wrap64 (g_next r1 + 1)) else with_rbuf r1 (i ++ [add_fragment more b m]) (g_len r1) (g_got r1) | None => with_next (with_rbuf r1 [nm] (g_len r1) (g_got r1)) (wrap64 (g_next r1 + 1)) end) = q ->
         g_buf q = fs ++ [nm] /\ g_got q = g_got r /\ g_next q = wrap64 (g_next r + 1)).
      { intros q <-. destruct fs as [|m0 fs0] using rev_ind; [cbn; auto|]. rewrite unsnoc_app. apply Forall_app in FC. destruct FC as [_ FC]. inversion_clear FC as [|? ? M _]. rewrite M. cbn. auto. }
      specialize (NB _ eq_refl). destruct NB as (NB1 & NB2 & NB3).
      destruct more; cbn [v_next].
      + split; [|rewrite NB3, H4; apply wrap_add_l]. exists fs, [nm]. rewrite NB1, NB2. cbn [v_full v_part]. split; [reflexivity|]. split; [exact FC|]. split; [exact G|]. eexists. split; [reflexivity|]. split; [reflexivity|].
        unfold nm, mv, wr, add_fragment. cbn [r_num r_frags fst snd List.app concat]. rewrite app_nil_r. cbn [r1 g_next with_rbuf with_rcvd]. rewrite H4. reflexivity.
      + split; [|rewrite NB3, H4; apply wrap_add_l]. exists (fs ++ [nm]), []. rewrite NB1, NB2. cbn [v_full v_part]. rewrite app_nil_r. split; [reflexivity|]. split; [apply Forall_app; split; [exact FC|constructor; [reflexivity|constructor]]|].
        split; [|reflexivity]. rewrite !map_app, G, <- app_assoc. cbn [map]. do 3 f_equal. unfold nm, mv, wr, add_fragment. cbn [r_num r_frags fst snd List.app concat]. rewrite app_nil_r. cbn [r1 g_next with_rbuf with_rcvd]. rewrite H4. reflexivity. }
  destruct S as [S SN]. clearbody r2. clear r1.
  assert (VE : v_end (vdata more b v) = v_end v) by (unfold vdata; destruct (v_part v) as [[? ?]|]; destruct more; reflexivity).
  (* before the acknowledgement is queued, only ri_due may fail *)
  assert (Q : forall r3, frame r2 r3 -> g_open r3 = g_open r2 -> g_user r3 = g_user r2 -> g_cap r3 = g_cap r2 -> g_paused r3 = g_paused r2 -> g_acknow r3 = g_acknow r2 -> g_ackq r3 = g_ackq r2 ->
     RI (wrap64 (X + clen)) (vdata more b v) (queue_ack (g_rcvd r3 >=? g_thresh r3) r3)).
  { intros r3 (E1 & E2 & E3 & E4 & E5 & E6 & E7 & E8 & E9 & E10 & E11 & E12) O3 U3 C3 P3 A3 Q3.
    split; cbn [queue_ack with_ack g_id g_user g_open g_paused g_cap g_len g_rcvd g_thresh g_complete g_sentcomplete g_closeack g_next g_buf g_pending g_ackq g_acknow g_out g_got g_done].
    - congruence.
    - rewrite O3, U3, F2, F3. exact H2.
    - unfold shape in *. cbn [queue_ack with_ack g_buf g_got]. rewrite E2, E5. exact S.
    - congruence.
    - congruence.
    - rewrite VE, E. discriminate.
    - rewrite E6, E7, E4, E2, O3, F3, F9, F10, F17. destruct H7 as (D1 & D2 & D3). split; [exact D1|]. split; [exact D2|]. intros D. destruct (D3 D). congruence.
    - rewrite C3, E9, E10, F5, F6, F7. split; [apply H8|]. split; apply u64_wrap.
    - rewrite E8, F11, CA. discriminate.
    - destruct (Z.geb_spec (g_rcvd r3) (g_thresh r3)) as [T|T]; [left; rewrite orb_true_r; reflexivity|right; left; exact T].
    - destruct H11 as (outs & O1 & O2 & OO3 & O4 & O5 & O6 & O7). exists outs. rewrite E8, E10, E11, E12, F7, F8, F11, F15.
      split; [exact O1|]. split; [exact O2|]. split; [exact OO3|]. split; [rewrite <- O4, wrap_add_l, wrap_add_r; f_equal; lia|]. split; [exact O5|]. split; [exact O6|].
      unfold ackst in *. cbn. rewrite E8, A3, P3, C3, F4, F5, F11, F14. destruct O7 as [O7|[O7|O7]]; auto. right; left. apply andb_prop in O7. destruct O7 as [-> _]. reflexivity. }
  destruct more; [apply Q; try reflexivity; unfold frame; repeat split|].
  unfold queue_delivery. destruct (negb (g_pending r2) && negb (g_paused r2)); apply Q; try reflexivity; unfold frame; cbn; repeat split.
Qed.
Lemma abandon_ri : forall k X v r, RI X v r -> (v_end v = true -> v_part v = None) -> 1 <= k < 2 ^ 64 -> (g_done r = 0%nat \/ v_part v = None) -> RI X (vabandon k v) (r_abandon (k - 1) r).
Proof.
  intros k X v r H VE K D0. unfold r_abandon. cbv zeta. replace (k - 1 + 1) with k by lia.
  assert (WK : wrap64 k = k) by (unfold wrap64; apply Z.mod_small; lia). rewrite WK.
  assert (G : forall r', (g_id r' = g_id r /\ g_user r' = g_user r /\ g_open r' = g_open r /\ g_paused r' = g_paused r /\ g_cap r' = g_cap r /\ is_u64 (g_len r') /\ g_rcvd r' = g_rcvd r /\ g_thresh r' = g_thresh r /\ g_complete r' = g_complete r /\ g_sentcomplete r' = g_sentcomplete r /\ g_closeack r' = g_closeack r /\ g_ackq r' = g_ackq r /\ g_acknow r' = g_acknow r /\ g_out r' = g_out r /\ g_done r' = g_done r /\ (g_done r = 1%nat -> g_buf r' = g_buf r)) -> shape r' (vabandon k v) ->
    g_next r' = wrap64 (v_next (vabandon k v)) -> RI X (vabandon k v) (queue_ack true r')).
  { intros r' (F1 & F2 & F3 & F4 & F5 & F6 & F7 & F8 & F9 & F10 & F11 & F12 & F13 & F14 & F15 & F16) S N. destruct H as [H1 H2 H3 H4 H5 H6 H7 H8 H9 H10 H11]. apply queue_ack_ri.
    split; rewrite ?F1, ?F2, ?F3, ?F4, ?F5, ?F7, ?F8, ?F9, ?F10, ?F11, ?F12, ?F13, ?F14, ?F15; auto.
    - destruct H7 as (D1 & D2 & D3). split; [exact D1|]. split; [exact D2|]. intros D. rewrite (F16 D). exact (D3 D).
    - destruct H8 as (X1 & _ & X2). auto.
    - destruct H11 as (outs & O). exists outs. unfold ackst in *. rewrite F4, F5, F11, F12, F13. exact O. }
  pose proof (ri_shape _ _ _ H) as (fs & p & B & FC & GG & P). pose proof (ri_next _ _ _ H) as N. pose proof (ri_caps _ _ _ H) as (_ & LN & _).
  destruct (v_part v) as [[n x]|] eqn:VP.
  - destruct P as (m & -> & MC & _). rewrite B, unsnoc_app, MC. apply G.
    + cbn. repeat split; try apply u64_wrap. intros D. destruct D0 as [D0|D0]; [congruence|discriminate D0].
    + exists fs, []. cbn. rewrite app_nil_r. auto.
    + cbn. rewrite N, VP. unfold wrap64. rewrite Zplus_mod_idemp_l, Zplus_mod_idemp_r. reflexivity.
  - subst p. rewrite app_nil_r in B. rewrite B.
    assert (U : match unsnoc fs with Some (i, m) => if r_complete m then (r, k) else (with_rbuf r i (wrap64 (g_len r - r_total m)) (g_got r), wrap64 (k - 1)) | None => (r, k) end = (r, k)).
    { destruct fs as [|m0 fs0] using rev_ind; [reflexivity|]. rewrite unsnoc_app. apply Forall_app in FC. destruct FC as [_ FC]. inversion_clear FC as [|? ? M _]. rewrite M. reflexivity. }
    rewrite U. apply G.
    + cbn. repeat split; apply LN.
    + exists fs, []. cbn. rewrite app_nil_r. auto.
    + cbn. rewrite N, VP. unfold wrap64. rewrite Zplus_mod_idemp_l. reflexivity.
Qed.
Lemma done_0 : forall X v r, RI X v r -> g_complete r = false -> g_done r = 0%nat.
Proof. intros X v r H C. destruct (ri_done _ _ _ H) as (_ & D & D1). destruct (g_done r) as [|[|n]]; [reflexivity|destruct (D1 eq_refl); congruence|lia]. Qed.
Lemma closed_ri : forall X v r, RI X v r -> v_end v = false -> RI X (vclose v) (r_closed r).
Proof.
  intros X v r H E. unfold r_closed. apply queue_ack_ri, delivery_ri.
  pose proof (abandon_ri 1 X v r H (ri_endpart _ _ _ H) ltac:(lia) (or_introl (done_0 _ _ _ H ltac:(rewrite (ri_end _ _ _ H); exact E)))) as A.
  assert (C0 : g_complete r = false) by (rewrite (ri_end _ _ _ H); exact E).
  pose proof (done_0 _ _ _ H C0) as D0.
  assert (Q : r_abandon 0 (with_complete r true (g_sentcomplete r) (g_done r)) = with_complete (r_abandon 0 r) true (g_sentcomplete r) (g_done r)).
  { unfold r_abandon. cbv zeta. change (g_buf (with_complete r true (g_sentcomplete r) (g_done r))) with (g_buf r). destruct (unsnoc (g_buf r)) as [[i m]|]; [destruct (r_complete m)|]; reflexivity. }
  rewrite Q. change (1 - 1) with 0 in A.
  assert (F : g_sentcomplete (r_abandon 0 r) = g_sentcomplete r /\ g_done (r_abandon 0 r) = g_done r).
  { unfold r_abandon. cbv zeta. destruct (unsnoc (g_buf r)) as [[i m]|]; [destruct (r_complete m)|]; split; reflexivity. }
  destruct F as [F1 F2]. set (q := r_abandon 0 r) in *. clearbody q. destruct A as [H1 H2 H3 H4 H5 H6 H7 H8 H9 H10 H11].
  split; cbn; auto.
  - rewrite D0. split; [reflexivity|]. split; [lia|discriminate].
  - intros CA. destruct (H9 CA). auto.
Qed.

(** *** Delivery *)
Lemma acts_frame : forall l r, g_buf (do_acts l r) = g_buf r /\ g_got (do_acts l r) = g_got r /\ g_complete (do_acts l r) = g_complete r /\ g_sentcomplete (do_acts l r) = g_sentcomplete r /\ g_done (do_acts l r) = g_done r.
Proof.
  induction l as [|a l IH]; intros r; [repeat split|]. change (do_acts (a :: l) r) with (do_acts l (do_act r a)). destruct (IH (do_act r a)) as (-> & -> & -> & -> & ->).
  destruct a as [|p|n|re de]; cbn [do_act]; unfold r_pause, r_cap, r_close, queue_delivery, r_cap; repeat match goal with |- context [if ?b then _ else _] => destruct b end; cbn; repeat split.
Qed.
Lemma loop_ri : forall fuel cbs X v r, est = true -> RI X v r -> Forall (Forall ok_act) cbs -> (length (g_buf r) <= fuel)%nat ->
  let q := deliver_loop fuel cbs r in RI X v q /\ (g_open q = true -> g_paused q = false -> match g_buf q with m :: _ => r_complete m = false | [] => True end) /\ g_complete q = g_complete r.
Proof.
  induction fuel as [|fuel IH]; intros cbs X v r ES H F L; cbn [deliver_loop]; cbv zeta.
  { destruct (g_buf r) eqn:B; [|cbn in L; lia]. split; [exact H|]. try rewrite B. auto. }
  destruct (g_buf r) as [|m b] eqn:B; [split; [exact H|]; try rewrite B; auto|].
  destruct (g_paused r) eqn:P; cbn [orb]; [split; [exact H|]; rewrite P; split; [discriminate|reflexivity]|].
  destruct (is_open r) eqn:O; cbn [negb].
  2:{ split; [exact H|]. split; [|reflexivity]. intros O'. unfold is_open in O. rewrite O', (ri_est _ _ _ H ES O') in O. discriminate O. }
  destruct (r_complete m) eqn:MC; [|split; [exact H|]; try rewrite B; auto].
  set (r1 := with_rbuf r b (wrap64 (g_len r - r_total m)) (g_got r ++ [(r_num m, concat (r_frags m))])).
  assert (H' : RI X v r1).
  { destruct H as [H1 H2 H3 H4 H5 H6 H7 H8 H9 H10 H11]. split; cbn; auto.
    - destruct H3 as (fs & p & B' & FC & G & PP). rewrite B in B'. destruct fs as [|m0 fs].
      + exfalso. cbn [List.app] in B'. subst p. destruct (v_part v) as [q|]; [destruct PP as (m' & E & MC' & _); injection E as EM _; rewrite EM in MC; congruence|discriminate PP].
      + injection B' as <- ->. inversion_clear FC. exists fs, p. cbn. split; [reflexivity|]. split; [assumption|]. split; [rewrite G, <- app_assoc; reflexivity|exact PP].
    - destruct H7 as (D1 & D2 & D3). split; [exact D1|]. split; [exact D2|]. intros D. destruct (D3 D) as (_ & X0 & _). congruence.
    - destruct H8 as (X1 & X2 & X3). split; [exact X1|]. split; [apply u64_wrap|exact X3]. }
  assert (F' : Forall ok_act (hd [] cbs)) by (destruct cbs; [constructor|inversion F; assumption]).
  assert (F'' : Forall (Forall ok_act) (tl cbs)) by (destruct cbs; [constructor|inversion F; assumption]).
  destruct (acts_frame (hd [] cbs) r1) as (A1 & _ & A3 & _).
  destruct (IH (tl cbs) X v (do_acts (hd [] cbs) r1) ES (acts_ri _ X v r1 H' F') F'') as (Q1 & Q2 & Q3); [rewrite A1; cbn in *; lia|].
  split; [exact Q1|]. split; [exact Q2|]. rewrite Q3, A3. reflexivity.
Qed.
Lemma close_frame : forall reason desc r, let q := r_close reason desc r in g_open q = false /\ g_buf q = g_buf r /\ g_complete q = g_complete r /\ g_done q = g_done r /\ g_sentcomplete q = g_sentcomplete r.
Proof. intros reason desc r. unfold r_close. destruct (g_open r) eqn:O; [|auto]. cbv zeta. unfold r_cap. destruct (_ =? _); cbn; destruct (g_complete r) eqn:C; cbn; auto. Qed.
Lemma deliver_ri : forall cbs X v r, est = true -> RI X v r -> Forall (Forall ok_act) cbs -> RI X v (r_deliver cbs r) /\ PD (r_deliver cbs r).
Proof.
  intros cbs X v r ES H F. unfold r_deliver. cbv zeta.
  destruct (loop_ri (length (g_buf r)) cbs X v (with_pending r false) ES (pending_ri false X v r H) F (le_n _)) as (L1 & L2 & L3). set (q := deliver_loop (length (g_buf r)) cbs (with_pending r false)) in *. clearbody q.
  destruct (g_complete q && match g_buf q with [] => true | _ :: _ => false end) eqn:C.
  - apply andb_prop in C. destruct C as [C B]. destruct (g_buf q) eqn:GB; [|discriminate B]. unfold complete_and_close. cbv zeta.
    set (q1 := if g_sentcomplete q then q else _).
    assert (Q1 : shape q1 v /\ RI X v (with_user q1 false false)).
    { unfold q1. destruct (g_sentcomplete q) eqn:SC.
      - split; [apply (ri_shape _ _ _ L1)|]. apply user_ri; [exact L1|right; reflexivity].
      - split; [exact (ri_shape _ _ _ L1)|]. destruct L1 as [H1 H2 H3 H4 H5 H6 H7 H8 H9 H10 H11]. split; cbn; auto; try discriminate.
        destruct H7 as (D1 & _ & _). rewrite (D1 SC). split; [discriminate|]. destruct (is_open q); split; try lia; auto. }
    destruct Q1 as [Q1 Q2]. split.
    + destruct (g_open q1) eqn:O.
      * pose proof (close_ri 0 [] X v) as CR.
        assert (EQ : r_close 0 [] q1 = let r := r_cap 0 (with_user q1 false false) in if g_complete r then r else with_out r (enc_exc (g_id r) 0 [])) by (unfold r_close; rewrite O; reflexivity).
        rewrite EQ. cbv zeta. replace (g_complete (r_cap 0 (with_user q1 false false))) with true.
        -- apply cap_ri; [exact Q2|unfold is_u64, U64MAX; lia].
        -- unfold r_cap, q1. destruct (_ =? _); destruct (g_sentcomplete q); cbn; auto.
      * unfold r_close. rewrite O. destruct Q2 as [H1 H2 H3 H4 H5 H6 H7 H8 H9 H10 H11]. split; cbn in *; auto; try congruence.
    + intros O. destruct (close_frame 0 [] q1) as (X1 & _). congruence.
  - split; [exact L1|]. intros O P Hd. exfalso. specialize (L2 O P). destruct (g_buf q); [rewrite Hd in C; discriminate C|congruence].
Qed.
End R.

(** *** The opening *)
Lemma acts_thresh : forall l r, g_thresh (do_acts l r) = g_thresh r.
Proof.
  induction l as [|a l IH]; intros r; [reflexivity|]. change (do_acts (a :: l) r) with (do_acts l (do_act r a)). rewrite IH.
  destruct a as [|p|n|re de]; cbn [do_act]; unfold r_pause, r_close, queue_delivery, r_cap; repeat match goal with |- context [if ?b then _ else _] => destruct b end; reflexivity.
Qed.
Lemma ladv_pos : forall l d, 0 <= d -> Forall bok l -> 0 <= ladv d l.
Proof.
  induction l as [|m l IH]; intros d D F; [exact D|]. inversion_clear F as [|? ? M F']. cbn [ladv fold_left]. apply IH; [|exact F'].
  destruct m; [apply M|exact D|exact D].
Qed.
Lemma close_thresh : forall reason desc r, g_thresh (r_close reason desc r) = g_thresh r.
Proof. intros. unfold r_close, r_cap. repeat match goal with |- context [if ?b then _ else _] => destruct b end; reflexivity. Qed.
Lemma opened_ri : forall id ret assoc acts, Forall ok_act acts -> RI id true false [] 65536 0 v0 (r_opened id ret assoc acts) /\ PD (r_opened id ret assoc acts).
Proof.
  intros id ret assoc acts F.
  assert (B : RI id false false [] 2097151 0 v0 (rflow0 id)).
  { split; try (cbn; auto; discriminate).
    - exists [], []. cbn. auto.
    - cbn. split; [auto|]. split; [lia|discriminate].
    - unfold is_u64, U64MAX. cbn. lia.
    - exists (@nil bm). unfold ackst. cbn. unfold noca. split; [reflexivity|]. split; [constructor|]. split; [split; [reflexivity|constructor]|]. split; [reflexivity|]. split; [lia|]. split; [lia|auto]. }
  assert (U0 : is_u64 0) by (unfold is_u64, U64MAX; lia).
  assert (G : forall r, RI id false false [] 2097151 0 v0 r -> g_thresh r = 0 -> (g_open r = true -> g_user r = true) -> g_acknow r && g_ackq r = true -> RI id true false [] 65536 0 v0 r).
  { intros r [H1 H2 H3 H4 H5 H6 H7 H8 H9 H10 H11] T U A. split; auto. destruct H11 as (outs & O1 & O2 & O3 & O4 & O5 & O6 & O7). exists outs. repeat (split; [assumption|]).
    split; [|right; left; exact A]. rewrite T. pose proof (ladv_pos ([] ++ outs) 65536 ltac:(lia) O2). lia. }
  assert (PB : forall r, g_buf r = [] -> g_complete r = false -> PD r) by (intros r B0 C0 _ _; rewrite B0, C0; discriminate).
  assert (Y : forall r, r = do_acts acts (rflow0 id) -> let q := queue_ack true (if is_open r then r else r_close 0 [] r) in RI id true false [] 65536 0 v0 q /\ PD q).
  { intros r ->. cbv zeta. pose proof (acts_ri id false false [] 2097151 acts 0 v0 _ B F) as A. pose proof (acts_thresh acts (rflow0 id)) as T. destruct (acts_frame acts (rflow0 id)) as (A1 & _ & A3 & _).
    set (r := do_acts acts (rflow0 id)) in *. clearbody r. destruct (is_open r) eqn:O.
    - split; [apply G; [apply queue_ack_ri; exact A|exact T| |cbn; rewrite orb_true_r; reflexivity]|apply PB; assumption].
      intros _. apply andb_prop in O. apply O.
    - destruct (close_frame 0 [] r) as (X1 & X2 & X3 & _). split; [apply G; [apply queue_ack_ri, close_ri; [exact A|exact U0|constructor]|cbn; rewrite close_thresh; exact T| |cbn; rewrite orb_true_r; reflexivity]|apply PB; [cbn; rewrite X2; exact A1|cbn; rewrite X3; exact A3]].
      intros O'. change (g_open (r_close 0 [] r) = true) in O'. congruence. }
  unfold r_opened. destruct ret as [q|]; [destruct assoc|]; try (apply Y; reflexivity).
  destruct (close_frame 0 [] (rflow0 id)) as (X1 & X2 & X3 & _). split; [apply G; [apply close_ri; [exact B|exact U0|constructor]|apply close_thresh|congruence|reflexivity]|apply PB; assumption].
Qed.

(** *** Deliveries are due *)
Lemma qd_pd : forall r, PD (queue_delivery r).
Proof.
  intros r. unfold queue_delivery, PD. destruct (g_pending r) eqn:P; cbn [negb andb]; [auto|]. destruct (g_paused r) eqn:Q; cbn; [congruence|auto].
Qed.
Lemma same_pd : forall r r', PD r -> g_open r' = g_open r \/ g_open r' = false -> g_paused r' = g_paused r \/ g_paused r' = true -> g_buf r' = g_buf r -> g_complete r' = g_complete r -> g_pending r' = g_pending r -> PD r'.
Proof. intros r r' H O P B C Q O' P'. rewrite B, C, Q. destruct O; [|congruence]. destruct P; [|congruence]. apply H; congruence. Qed.
Lemma act_pd : forall r a, PD r -> PD (do_act r a).
Proof.
  intros r a H. destruct a as [|p|n|re de]; cbn [do_act].
  - destruct (g_open r) eqn:O; [apply (same_pd r _ H); cbn; auto|exact H].
  - unfold r_pause. destruct p; [apply (same_pd r _ H); cbn; auto|]. destruct (g_paused r); [|apply qd_pd]. apply (same_pd (queue_delivery (with_pause r false))); [apply qd_pd| | | | |]; cbn; auto.
  - unfold r_cap. destruct (_ =? _); apply (same_pd r _ H); cbn; auto.
  - destruct (g_open r) eqn:O; [|unfold r_close; rewrite O; exact H]. destruct (close_frame re de r) as (X1 & _). intros O'. congruence.
Qed.
Lemma send_acks_pd : forall r, PD r -> PD (send_acks r).
Proof. intros r H. unfold send_acks, send_ack. repeat match goal with |- context [if ?b then _ else _] => destruct b eqn:? end; try exact H; apply (same_pd r _ H); cbn in *; auto. Qed.
Lemma unsnoc_some : forall {A} (l : list A) i m, unsnoc l = Some (i, m) -> l = i ++ [m].
Proof. intros A l i m H. destruct l as [|x l] using rev_ind; [discriminate H|]. rewrite unsnoc_app in H. congruence. Qed.
Lemma data_pd : forall more b clen r, PD r -> g_complete r = false -> PD (r_data more b clen r).
Proof.
  intros more b clen r H C. unfold r_data. cbv zeta.
  set (r1 := with_rbuf (with_rcvd r (wrap64 (g_rcvd r + clen))) (g_buf r) (wrap64 (g_len r + zlen b)) (g_got r)).
  set (r2 := match unsnoc (g_buf r1) with Some (i, m) => _ | None => _ end).
  assert (E : forall x n, PD x -> PD (queue_ack n x)) by (intros x n P; apply (same_pd x _ P); cbn; auto). apply E. clear E.
  destruct more; [|apply qd_pd]. unfold r2. change (g_buf r1) with (g_buf r). destruct (unsnoc (g_buf r)) as [[i m]|] eqn:U; [|intros _ _; cbn; discriminate].
  pose proof (unsnoc_some _ _ _ U) as B. destruct (r_complete m) eqn:M.
  - intros O P. cbn in *. intros Hd. apply H; [exact O|exact P|]. rewrite B in *. destruct i; exact Hd.
  - intros O P. cbn in *. intros Hd. apply H; [exact O|exact P|]. rewrite B. destruct i; cbn in *; [congruence|exact Hd].
Qed.
Lemma abandon_pd : forall c r, PD r -> g_complete r = false -> PD (r_abandon c r).
Proof.
  intros c r H C. unfold r_abandon. cbv zeta. destruct (unsnoc (g_buf r)) as [[i m]|] eqn:U; [|exact H]. destruct (r_complete m) eqn:M; [exact H|].
  pose proof (unsnoc_some _ _ _ U) as B. intros O P. cbn in *. intros Hd. apply H; [exact O|exact P|]. rewrite B. destruct i; cbn in *; [congruence|exact Hd].
Qed.
Lemma closed_pd : forall r, PD (r_closed r).
Proof. intros r. unfold r_closed. apply (same_pd (queue_delivery (r_abandon 0 (with_complete r true (g_sentcomplete r) (g_done r))))); [apply qd_pd| | | | |]; cbn; auto. Qed.
