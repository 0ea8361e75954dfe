(** Messages, pongs and the end of the connection. *)
From Verif Require Import Base BaseFacts Hex URI URIParse WebSock WebSockSpec WebSockProofs WebSockFrames WebSockStream.
Open Scope res_scope.

Definition delivered (t : list ev) : list (Z * list Z) :=
  flat_map (fun e => match e with EvText m => [(1, m)] | EvBin m => [(2, m)] | _ => [] end) t.
Definition known (m : Z * list Z) : bool := (fst m =? 1) || (fst m =? 2).
Definition pongs (t : list ev) : list (list Z) :=
  flat_map (fun e => match e with EvOut (138 :: b) => [138 :: b] | _ => [] end) t.
Definition run (app : list ev -> list act) (fs : list frame) (s : ws) : ws := fold_left (fun s f => on_frame app (f_op f) (f_fin f) (f_payload f) s) fs s.
Lemma delivered_app : forall a b, delivered (a ++ b) = delivered a ++ delivered b.
Proof. intros. apply flat_map_app. Qed.
Lemma pongs_app : forall a b, pongs (a ++ b) = pongs a ++ pongs b.
Proof. intros. apply flat_map_app. Qed.

Section App.
Variable app : list ev -> list act.
Notation react := (react app).
Notation call := (call app).
Notation set_closed := (set_closed app).
Notation on_message := (on_message app).
Notation on_continuation := (on_continuation app).
Notation on_frame := (on_frame app).
Notation body_loop := (body_loop app).
Notation run := (run app).

(** Reading frames is running them. *)
Lemma loop_frames : forall b fs r, frames b fs r -> forall k s, (length b < k)%nat -> body_loop k b s = body_loop k r (run fs s).
Proof.
  induction 1 as [r|f b t fs r F E L R IH]; intros k s K; [reflexivity|]. destruct k as [|k]; [lia|].
  pose proof (encodes_long _ _ E) as Q. destruct b as [|x b]; [change (zlen (A := Z) []) with 0 in Q; lia|]. cbn [WebSock.body_loop List.app]. change (x :: b ++ t) with ((x :: b) ++ t).
  rewrite (parse_frame f (x :: b) t F E L). cbn [rbind]. replace (Z.to_nat (zlen (x :: b))) with (length (x :: b)) by (unfold zlen; lia). rewrite skipn_app, skipn_all, Nat.sub_diag. cbn [skipn List.app].
  cbn [run fold_left WebSockMessages.run]. rewrite app_length in K. cbn [length] in K.
  rewrite IH by lia. change (fold_left (fun (s : ws) f => on_frame (f_op f) (f_fin f) (f_payload f) s) fs (on_frame (f_op f) (f_fin f) (f_payload f) s)) with (run fs (on_frame (f_op f) (f_fin f) (f_payload f) s)).
  assert (RL : (length r <= length t)%nat). { clear - R. induction R as [|? ? ? ? ? ? ? ? ? IH]; [lia|rewrite app_length; lia]. }
  refine (loop_enough app (fun x => x) k (S k) r _ _ _); lia.
Qed.

(** What the application does leaves the messages alone. *)
Definition msgs (s : ws) := (fragop s, frag s, delivered (tr s)).
Lemma perform_msgs : forall a s, msgs (perform a s) = msgs s /\ (cbs (perform a s) = true -> cbs s = true) /\ (a <> AClose -> cbs (perform a s) = cbs s /\ (st s < 2 -> st (perform a s) < 2)) /\ pongs (tr (perform a s)) = pongs (tr s).
Proof.
  intros a s.
  assert (W : forall op p, op = 1 \/ op = 2 \/ op = 8 -> let s' := write (make_frame op p) s in msgs s' = msgs s /\ cbs s' = cbs s /\ st s' = st s /\ pongs (tr s') = pongs (tr s)).
  { intros op p O s'. subst s'. unfold write. destruct (st s <? 2); [|auto]. unfold msgs. cbn [fragop frag tr emit cbs st]. rewrite delivered_app, pongs_app. cbn [delivered flat_map]. rewrite app_nil_r.
    split; [reflexivity|]. split; [reflexivity|]. split; [reflexivity|]. replace (pongs [EvOut (make_frame op p)]) with (@nil (list Z)); [apply app_nil_r|]. destruct O as [->|[->| ->]]; reflexivity. }
  destruct a; cbn [perform].
  - destruct (W 1 m) as (A & B & C & D); [auto|]. cbv zeta in *. rewrite A, B, C, D. auto.
  - destruct (W 2 m) as (A & B & C & D); [auto|]. cbv zeta in *. rewrite A, B, C, D. auto.
  - destruct (W 8 []) as (A & B & C & D); [auto|]. cbv zeta in *. unfold clean_close, msgs in *. cbn [fragop frag tr set_closing cbs st]. rewrite A, B, C, D. auto.
  - destruct (Z.ltb_spec (st s) 1); unfold msgs; cbn [fragop frag tr set_st cbs st]; auto. split; [reflexivity|]. split; [auto|]. split; [|reflexivity]. intros _. split; [reflexivity|lia].
  - cbn [st clear_cbs]. destruct (st s <? 2); unfold msgs; cbn [fragop frag tr set_st cbs st emit clear_cbs]; rewrite ?delivered_app, ?pongs_app, ?app_nil_r; (split; [|split; [discriminate|split; [congruence|]]]); cbn; rewrite ?app_nil_r; reflexivity.
Qed.
Lemma react_msgs : forall s, msgs (react s) = msgs s /\ (cbs (react s) = true -> cbs s = true) /\ ((forall t, ~ In AClose (app t)) -> cbs (react s) = cbs s /\ (st s < 2 -> st (react s) < 2)) /\ pongs (tr (react s)) = pongs (tr s).
Proof.
  intros s. unfold WebSock.react.
  assert (G : forall l s, let s' := fold_left (fun s a => perform a s) l s in msgs s' = msgs s /\ (cbs s' = true -> cbs s = true) /\ (~ In AClose l -> cbs s' = cbs s /\ (st s < 2 -> st s' < 2)) /\ pongs (tr s') = pongs (tr s)).
  { clear s. induction l as [|a l IH]; intros s; cbv zeta; cbn [fold_left]; [auto 6|]. destruct (perform_msgs a s) as (A & B & C & D). destruct (IH (perform a s)) as (A' & B' & C' & D'). cbv zeta in *.
    split; [congruence|]. split; [auto|]. split; [|congruence]. intros N. destruct C as [C1 C2]; [intros ->; apply N; left; reflexivity|]. destruct C' as [C3 C4]; [intros X; apply N; right; exact X|]. split; [congruence|auto]. }
  destruct (G (app (tr s)) s) as (A & B & C & D). cbv zeta in *. split; [exact A|]. split; [exact B|]. split; [|exact D]. intros N. apply C, N.
Qed.
Lemma call_msgs : forall e s, cbs s = true -> msgs (call e s) = (fragop s, frag s, delivered (tr s) ++ delivered [e]) /\ ((forall t, ~ In AClose (app t)) -> cbs (call e s) = true /\ (st s < 2 -> st (call e s) < 2)) /\ pongs (tr (call e s)) = pongs (tr s) ++ pongs [e].
Proof.
  intros e s C. unfold WebSock.call. rewrite C. destruct (react_msgs (emit e s)) as (A & B & D & E). rewrite A, E. unfold msgs. cbn [fragop frag tr emit cbs st] in *. rewrite delivered_app, pongs_app. split; [reflexivity|]. split; [|reflexivity].
  intros N. destruct (D N) as [D1 D2]. split; [congruence|exact D2].
Qed.
Lemma closed_msgs : forall s, msgs (set_closed s) = msgs s /\ cbs (set_closed s) = false /\ pongs (tr (set_closed s)) = pongs (tr s).
Proof.
  intros s. unfold WebSock.set_closed. destruct (st s <? 2); [|auto]. set (s1 := clear_cbs (emit EvDown (set_st 2 s))).
  assert (A : msgs s1 = msgs s /\ pongs (tr s1) = pongs (tr s)) by (unfold msgs, s1; cbn [fragop frag tr clear_cbs emit set_st]; rewrite delivered_app, pongs_app; cbn; rewrite !app_nil_r; auto). destruct A as [A1 A2].
  destruct (cbs s); [|rewrite A1, A2; auto]. destruct (react_msgs (emit EvError s1)) as (B & C & _ & D). rewrite B, D. unfold msgs in *. cbn [fragop frag tr emit]. rewrite delivered_app, pongs_app. cbn. rewrite !app_nil_r. split; [exact A1|]. split; [|exact A2].
  destruct (cbs (react (emit EvError s1))) eqn:E; [|reflexivity]. specialize (C eq_refl). discriminate.
Qed.
Lemma call_off : forall e s, cbs s = false -> call e s = s.
Proof. intros e s H. unfold WebSock.call. rewrite H. reflexivity. Qed.
(** without callbacks nothing is delivered *)
Lemma frame_off : forall op fin p s, cbs s = false -> cbs (on_frame op fin p s) = false /\ delivered (tr (on_frame op fin p s)) = delivered (tr s).
Proof.
  intros op fin p s C.
  assert (CL : forall s, cbs (set_closed s) = false /\ delivered (tr (set_closed s)) = delivered (tr s)). { intros x. destruct (closed_msgs x) as (A & B & _). unfold msgs in A. split; [exact B|]. congruence. }
  assert (OM : forall o f q x, cbs x = false -> cbs (on_message o f q x) = false /\ delivered (tr (on_message o f q x)) = delivered (tr x)).
  { intros o f q x X. unfold WebSock.on_message. rewrite !call_off by assumption. destruct (0 <? fragop x); [apply CL|]. destruct (negb f); [auto|]. destruct (o =? 1); [auto|]. destruct (o =? 2); auto. }
  assert (WR : forall b x, cbs x = false -> cbs (write b x) = false /\ delivered (tr (write b x)) = delivered (tr x)).
  { intros b x X. unfold write. destruct (st x <? 2); [|auto]. cbn [cbs tr emit]. rewrite delivered_app. cbn. rewrite app_nil_r. auto. }
  unfold WebSock.on_frame. destruct (op =? 0).
  - unfold WebSock.on_continuation. destruct (fragop s <? 0); [apply CL|]. destruct fin; [|auto]. cbv zeta. cbn [cbs tr set_frag]. apply (OM _ true _ (set_frag (frag s ++ p) (-1) s) C).
  - destruct (op =? 9); [apply WR, C|]. destruct (op =? 10); [auto|]. destruct (op =? 8); [|apply OM, C]. destruct (closing s); [apply CL|]. unfold clean_close. cbn [cbs tr set_closing]. apply WR, C.
Qed.
Lemma run_off : forall fs s, cbs s = false -> cbs (run fs s) = false /\ delivered (tr (run fs s)) = delivered (tr s).
Proof.
  induction fs as [|f fs IH]; intros s C; [auto|]. cbn [WebSockMessages.run fold_left]. destruct (frame_off (f_op f) (f_fin f) (f_payload f) s C) as [A B]. destruct (IH _ A) as [D E]. unfold WebSockMessages.run in *. split; [exact D|congruence].
Qed.

(** Data frames one by one *)
Definition whole (x : list frame * (Z * list Z)) : Prop := message (fst x) (fst (snd x)) (snd (snd x)).
Definition so_far (d0 : list (Z * list Z)) (ds : list frame) (s : ws) : Prop := exists ms part,
  ds = concat (map fst ms) ++ part /\ Forall whole ms /\ begun part /\ delivered (tr s) = d0 ++ filter known (map snd ms) /\
  frag s = concat (map f_payload part) /\ fragop s = match part with [] => -1 | f :: _ => f_op f end.
Lemma talk_of : forall ms part, Forall whole ms -> begun part -> talk (concat (map fst ms) ++ part) (map snd ms).
Proof.
  intros ms part H B. induction H as [|[fs [op m]] ms W H IH]; cbn [map concat]; [apply talk_end, B|]. rewrite <- app_assoc. apply talk_cons; [exact W|exact IH].
Qed.
Lemma begun_snoc : forall part f, begun part -> part <> [] -> f_op f = 0 -> f_fin f = false -> begun (part ++ [f]).
Proof. intros [|g r] f B N O F; [congruence|]. cbn [begun List.app] in *. destruct B as (A & B & C). split; [exact A|]. split; [exact B|]. apply Forall_app. split; [exact C|]. constructor; auto. Qed.
Lemma message_snoc : forall g r f, begun (g :: r) -> f_op f = 0 -> f_fin f = true -> message (g :: r ++ [f]) (f_op g) (concat (map f_payload (g :: r)) ++ f_payload f).
Proof.
  intros g r f (A & B & C) O F. cbn [map concat]. rewrite <- app_assoc. apply msg_many; [exact A|exact B|].
  induction C as [|h r [H1 H2] C IH]; cbn [List.app map concat]; [apply cont_last; assumption|]. rewrite <- app_assoc. apply cont_more; assumption.
Qed.
Lemma on_message_idle : forall op fin p s, cbs s = true -> fragop s = -1 ->
  let s' := on_message op fin p s in
  (fin = false -> s' = set_frag (frag s ++ p) op s) /\
  (fin = true -> fragop s' = -1 /\ frag s' = frag s /\ delivered (tr s') = delivered (tr s) ++ filter known [(op, p)]).
Proof.
  intros op fin p s C F s'. subst s'. unfold WebSock.on_message. rewrite F. cbn [Z.ltb Z.compare]. split; intros ->; cbn [negb]; [reflexivity|]. unfold known. cbn [filter fst].
  destruct (call_msgs (EvText p) s C) as (A & _). destruct (call_msgs (EvBin p) s C) as (B & _). unfold msgs in A, B. cbn [delivered flat_map List.app] in A, B. rewrite F in A, B.
  destruct (Z.eqb_spec op 1) as [->|N1]; [injection A as -> -> ->; auto|]. destruct (Z.eqb_spec op 2) as [->|N2]; [injection B as -> -> ->; auto|]. cbn [orb]. rewrite app_nil_r. auto.
Qed.
Lemma data_step : forall d0 ds f s, frame_ok f -> controlb f = false -> Forall frame_ok ds -> so_far d0 ds s -> cbs s = true ->
  let s' := on_frame (f_op f) (f_fin f) (f_payload f) s in (cbs s' = true -> so_far d0 (ds ++ [f]) s') /\ (cbs s' = false -> so_far d0 (ds ++ [f]) s' \/ delivered (tr s') = delivered (tr s)).
Proof.
  intros d0 ds f s FO CT FD (ms & part & E & W & B & D & FR & FP) C s'. unfold controlb in CT. apply orb_false_iff in CT. destruct CT as [CT N10]. apply orb_false_iff in CT. destruct CT as [N8 N9].
  assert (CL : s' = set_closed s -> (cbs s' = true -> so_far d0 (ds ++ [f]) s') /\ (cbs s' = false -> so_far d0 (ds ++ [f]) s' \/ delivered (tr s') = delivered (tr s))).
  { intros ->. destruct (closed_msgs s) as (A & A' & _). rewrite A'. split; [discriminate|]. intros _. right. unfold msgs in A. congruence. }
  assert (GO : so_far d0 (ds ++ [f]) s' -> (cbs s' = true -> so_far d0 (ds ++ [f]) s') /\ (cbs s' = false -> so_far d0 (ds ++ [f]) s' \/ delivered (tr s') = delivered (tr s))) by auto.
  unfold s', WebSock.on_frame in *. destruct (Z.eqb_spec (f_op f) 0) as [O|O].
  - unfold WebSock.on_continuation in *. destruct part as [|g r].
    + rewrite FP in *. cbn [Z.ltb Z.compare] in *. apply CL. reflexivity.
    + assert (G : 0 < f_op g). { assert (frame_ok g) as (_ & G & _). { rewrite Forall_forall in FD. apply FD. rewrite E. apply in_or_app. right. left. reflexivity. } destruct B as [B _]. lia. }
      rewrite FP in *. destruct (Z.ltb_spec (f_op g) 0); [lia|]. destruct (f_fin f) eqn:Fin.
      * apply GO. destruct (on_message_idle (f_op g) true (frag s ++ f_payload f) (set_frag (frag s ++ f_payload f) (-1) s) C eq_refl) as [_ M]. destruct (M eq_refl) as (M1 & M2 & M3). cbv zeta.
        exists (ms ++ [(g :: r ++ [f], (f_op g, frag s ++ f_payload f))]), []. split; [|split; [|split; [exact I|split; [|split; [reflexivity|exact M1]]]]].
        -- rewrite map_app, concat_app. cbn [map concat fst]. rewrite !app_nil_r, E, <- !app_assoc. reflexivity.
        -- apply Forall_app. split; [exact W|]. constructor; [|constructor]. unfold whole. cbn [fst snd]. rewrite FR. apply message_snoc; assumption.
        -- cbn [tr set_frag] in *. rewrite M3, D. rewrite map_app, filter_app, app_assoc. reflexivity.
      * apply GO. exists ms, ((g :: r) ++ [f]). split; [rewrite E, app_assoc; reflexivity|]. split; [exact W|]. split; [apply begun_snoc; auto; discriminate|]. split; [exact D|]. split; [|reflexivity].
        cbn [frag set_frag]. rewrite FR, map_app, concat_app. cbn [map concat]. rewrite app_nil_r. reflexivity.
  - rewrite N9, N10, N8 in *. destruct part as [|g r].
    + destruct (on_message_idle (f_op f) (f_fin f) (f_payload f) s C FP) as [M0 M1]. cbv zeta in *. destruct (f_fin f) eqn:Fin.
      * apply GO. destruct (M1 eq_refl) as (A1 & A2 & A3). exists (ms ++ [([f], (f_op f, f_payload f))]), []. split; [|split; [|split; [exact I|split; [|split; [congruence|exact A1]]]]].
        -- rewrite map_app, concat_app. cbn [map concat fst]. rewrite !app_nil_r, E, app_nil_r. reflexivity.
        -- apply Forall_app. split; [exact W|]. constructor; [|constructor]. unfold whole. cbn [fst snd]. apply msg_one; assumption.
        -- rewrite A3, D, map_app, filter_app, app_assoc. reflexivity.
      * rewrite (M0 eq_refl) in *. apply GO. exists ms, [f]. split; [rewrite E, app_nil_r; reflexivity|]. split; [exact W|]. split; [cbn; auto|]. split; [exact D|]. split; [|reflexivity]. cbn [frag set_frag map concat]. rewrite FR. cbn. rewrite app_nil_r. reflexivity.
    + assert (G : 0 < f_op g). { assert (frame_ok g) as (_ & G & _). { rewrite Forall_forall in FD. apply FD. rewrite E. apply in_or_app. right. left. reflexivity. } destruct B as [B _]. lia. }
      apply CL. unfold WebSock.on_message. rewrite FP. destruct (Z.ltb_spec 0 (f_op g)); [reflexivity|lia].
Qed.
Lemma control_step : forall f s, controlb f = true -> let s' := on_frame (f_op f) (f_fin f) (f_payload f) s in msgs s' = msgs s.
Proof.
  intros f s C s'. subst s'. unfold controlb in C. unfold WebSock.on_frame.
  assert (W : forall b x, msgs (write b x) = msgs x). { intros b x. unfold write. destruct (st x <? 2); [|reflexivity]. unfold msgs. cbn [fragop frag tr emit]. rewrite delivered_app. cbn. rewrite app_nil_r. reflexivity. }
  destruct (Z.eqb_spec (f_op f) 0) as [O|O]; [rewrite O in C; discriminate|]. destruct (f_op f =? 9); [apply W|]. destruct (f_op f =? 10); [reflexivity|]. destruct (f_op f =? 8); [|discriminate].
  destruct (closing s); [apply closed_msgs|]. unfold clean_close. change (msgs (set_closing (write (make_frame 8 []) s))) with (msgs (write (make_frame 8 []) s)). apply W.
Qed.
Lemma run_messages : forall fs s ds d0, Forall frame_ok fs -> Forall frame_ok ds -> so_far d0 ds s -> cbs s = true ->
  exists k ms, talk (ds ++ firstn k (data fs)) ms /\ delivered (tr (run fs s)) = d0 ++ filter known ms /\ (cbs (run fs s) = true -> firstn k (data fs) = data fs).
Proof.
  induction fs as [|f fs IH]; intros s ds d0 FO FD SF C.
  - exists 0%nat. destruct SF as (ms & part & E & W & B & D & _). exists (map snd ms). cbn [firstn data filter]. rewrite app_nil_r, E. split; [apply talk_of; assumption|]. split; [exact D|auto].
  - inversion FO as [|? ? F1 F2]; subst. cbn [WebSockMessages.run fold_left]. change (fold_left _ fs ?x) with (run fs x). set (s1 := on_frame (f_op f) (f_fin f) (f_payload f) s).
    assert (OFF : cbs s1 = false -> delivered (tr s1) = delivered (tr s) -> exists k ms, talk (ds ++ firstn k (data (f :: fs))) ms /\ delivered (tr (run fs s1)) = d0 ++ filter known ms /\ (cbs (run fs s1) = true -> firstn k (data (f :: fs)) = data (f :: fs))).
    { intros O Q. destruct (run_off fs s1 O) as [A B]. destruct SF as (ms & part & E & W & Bg & D & _). exists 0%nat, (map snd ms). cbn [firstn]. rewrite app_nil_r, E. split; [apply talk_of; assumption|]. split; [congruence|]. rewrite A. discriminate. }
    unfold data. cbn [filter]. destruct (controlb f) eqn:CT; cbn [negb].
    + pose proof (control_step f s CT) as M. cbv zeta in M. fold s1 in M. assert (SF1 : so_far d0 ds s1). { unfold msgs in M. injection M as M1 M2 M3. destruct SF as (ms & part & SF). exists ms, part. rewrite M1, M2, M3. exact SF. }
      destruct (cbs s1) eqn:C1; [apply IH; assumption|]. unfold data in OFF. cbn [filter] in OFF. rewrite CT in OFF. cbn [negb] in OFF. apply OFF; [reflexivity|]. unfold msgs in M. congruence.
    + destruct (data_step d0 ds f s F1 CT FD SF C) as [A B]. cbv zeta in *. fold s1 in A, B. destruct (cbs s1) eqn:C1.
      * destruct (IH s1 (ds ++ [f]) d0 F2) as (k & ms & T & D & Z); [apply Forall_app; auto|auto|exact C1|]. exists (S k), ms. cbn [firstn]. rewrite <- app_assoc in T. split; [exact T|]. split; [exact D|]. intros Q. f_equal. apply Z, Q.
      * destruct (B eq_refl) as [SF1|Q].
        -- destruct (run_off fs s1 C1) as [A' B']. destruct SF1 as (ms & part & E & W & Bg & D & _). exists 1%nat, (map snd ms). cbn [firstn]. rewrite E. split; [apply talk_of; assumption|]. split; [congruence|]. rewrite A'. discriminate.
        -- unfold data in OFF. cbn [filter] in OFF. rewrite CT in OFF. cbn [negb] in OFF. apply OFF; [reflexivity|exact Q].
Qed.

(** An application that does not close, and a client that keeps to the rules: everything arrives. *)
Section Open.
Hypothesis no_close : forall t, ~ In AClose (app t).
Definition step_p (q : Z * list Z * list (Z * list Z)) (f : frame) : option (Z * list Z * list (Z * list Z)) :=
  let '(o, b, d) := q in
  if f_op f =? 0 then (if o <? 0 then None else if f_fin f then Some (-1, [], d ++ filter known [(o, b ++ f_payload f)]) else Some (o, b ++ f_payload f, d))
  else if 0 <? o then None else if f_fin f then Some (o, b, d ++ filter known [(f_op f, f_payload f)]) else Some (f_op f, b ++ f_payload f, d).
Definition open (s : ws) : Prop := cbs s = true /\ st s < 2.
Lemma message_open : forall op p s, open s -> fragop s <= 0 -> let s' := on_message op true p s in open s' /\ msgs s' = (fragop s, frag s, delivered (tr s) ++ filter known [(op, p)]).
Proof.
  intros op p s [C S] F s'. subst s'. unfold WebSock.on_message. destruct (Z.ltb_spec 0 (fragop s)); [lia|]. cbn [negb]. unfold known. cbn [filter fst].
  destruct (call_msgs (EvText p) s C) as (A & A' & _). destruct (call_msgs (EvBin p) s C) as (B & B' & _). destruct (A' no_close) as [A1 A2]. destruct (B' no_close) as [B1 B2]. cbn [delivered flat_map List.app] in A, B.
  destruct (Z.eqb_spec op 1) as [->|N1]; [split; [split; auto|exact A]|]. destruct (Z.eqb_spec op 2) as [->|N2]; [split; [split; auto|exact B]|]. cbn [orb]. rewrite app_nil_r. split; [split; assumption|reflexivity].
Qed.
Lemma data_open : forall f s q, open s -> controlb f = false -> step_p (msgs s) f = Some q -> let s' := on_frame (f_op f) (f_fin f) (f_payload f) s in open s' /\ msgs s' = q.
Proof.
  intros f s q O CT H s'. subst s'. unfold controlb in CT. apply orb_false_iff in CT. destruct CT as [CT N10]. apply orb_false_iff in CT. destruct CT as [N8 N9].
  unfold step_p, msgs in H. unfold WebSock.on_frame. destruct (f_op f =? 0).
  - unfold WebSock.on_continuation. destruct (fragop s <? 0); [discriminate|]. destruct (f_fin f); injection H as <-.
    + destruct (message_open (fragop s) (frag s ++ f_payload f) (set_frag (frag s ++ f_payload f) (-1) s) O) as [A B]; [cbn; lia|]. cbv zeta in *. split; [exact A|]. unfold msgs in *. cbn [fragop frag tr set_frag] in *. injection B as B1 _ B3. rewrite B1, B3. reflexivity.
    + split; [exact O|reflexivity].
  - rewrite N9, N10, N8. destruct (f_fin f).
    + destruct (Z.ltb_spec 0 (fragop s)); [discriminate|]. destruct (message_open (f_op f) (f_payload f) s O) as [A B]; [lia|]. cbv zeta in *. injection H as <-. auto.
    + unfold WebSock.on_message. destruct (0 <? fragop s); [discriminate|]. cbn [negb]. injection H as <-. split; [exact O|reflexivity].
Qed.
Lemma control_open : forall f s, open s -> controlb f = true -> f_op f <> 8 -> open (on_frame (f_op f) (f_fin f) (f_payload f) s).
Proof.
  intros f s [C S] CT N8. unfold controlb in CT. unfold WebSock.on_frame. destruct (Z.eqb_spec (f_op f) 0) as [O|O]; [rewrite O in CT; discriminate|]. destruct (f_op f =? 9).
  - unfold write. destruct (st s <? 2); split; assumption.
  - destruct (f_op f =? 10); [split; assumption|]. destruct (Z.eqb_spec (f_op f) 8); [congruence|discriminate].
Qed.
Fixpoint steps (q : Z * list Z * list (Z * list Z)) (l : list frame) := match l with [] => Some q | f :: r => match step_p q f with Some q' => steps q' r | None => None end end.
Lemma run_open : forall fs s q, open s -> Forall (fun f => f_op f <> 8) fs -> steps (msgs s) (data fs) = Some q -> open (run fs s) /\ msgs (run fs s) = q.
Proof.
  induction fs as [|f fs IH]; intros s q O N H; [injection H as <-; auto|]. inversion N as [|? ? N1 N2]; subst. cbn [WebSockMessages.run fold_left]. change (fold_left _ fs ?x) with (run fs x). unfold data in H. cbn [filter] in H. destruct (controlb f) eqn:C; cbn [negb] in H.
  - apply IH; [apply control_open; assumption|exact N2|]. rewrite control_step by exact C. exact H.
  - cbn [steps] in H. destruct (step_p (msgs s) f) as [q'|] eqn:E; [|discriminate]. destruct (data_open f s q' O C E) as [A B]. cbv zeta in *. apply IH; [exact A|exact N2|]. rewrite B. exact H.
Qed.
Lemma steps_app : forall a b q, steps q (a ++ b) = match steps q a with Some q' => steps q' b | None => None end.
Proof. induction a as [|f a IH]; intros b q; cbn [steps List.app]; [reflexivity|]. destruct (step_p q f); [apply IH|reflexivity]. Qed.
Lemma steps_conts : forall fs m, conts fs m -> forall o b d, 0 < o -> steps (o, b, d) fs = Some (-1, [], d ++ filter known [(o, b ++ m)]).
Proof.
  induction 1 as [f O F|f fs m O F C IH]; intros o b d P; cbn [steps]; unfold step_p; rewrite O, F; cbn [Z.eqb]; destruct (Z.ltb_spec o 0); try lia; [reflexivity|]. rewrite IH by exact P. rewrite <- app_assoc. reflexivity.
Qed.
Lemma steps_message : forall fs op m, message fs op m -> Forall frame_ok fs -> forall d, steps (-1, [], d) fs = Some (-1, [], d ++ filter known [(op, m)]).
Proof.
  intros fs op m H FO d. destruct H as [f O F|f fs m O F C]; cbn [steps]; unfold step_p; rewrite F; destruct (Z.eqb_spec (f_op f) 0); try congruence; cbn [Z.ltb Z.compare]; [reflexivity|].
  inversion FO as [|? ? (_ & G & _) _]; subst. rewrite (steps_conts _ _ C) by lia. reflexivity.
Qed.
Lemma steps_begun : forall p d, begun p -> Forall frame_ok p -> exists o b, steps (-1, [], d) p = Some (o, b, d).
Proof.
  intros [|f r] d B FO; [exists (-1), []; reflexivity|]. destruct B as (O & F & R). inversion FO as [|? ? (_ & G & _) _]; subst. cbn [steps]. unfold step_p. rewrite F. destruct (Z.eqb_spec (f_op f) 0); try congruence. cbn [Z.ltb Z.compare List.app].
  exists (f_op f). assert (P : 0 < f_op f) by lia. generalize (f_payload f). clear - R P. induction R as [|g r [G1 G2] R IH]; intros b; cbn [steps]; [eexists; reflexivity|]. unfold step_p. rewrite G1, G2. cbn [Z.eqb]. destruct (Z.ltb_spec (f_op f) 0); [lia|]. apply IH.
Qed.
Lemma steps_talk : forall ds ms, talk ds ms -> Forall frame_ok ds -> forall d, exists o b, steps (-1, [], d) ds = Some (o, b, d ++ filter known ms).
Proof.
  induction 1 as [p B|fs op m r l M T IH]; intros FO d.
  - destruct (steps_begun p d B FO) as (o & b & E). exists o, b. cbn [filter]. rewrite app_nil_r. exact E.
  - apply Forall_app in FO. destruct FO as [F1 F2]. rewrite steps_app, (steps_message _ _ _ M F1). destruct (IH F2 (d ++ filter known [(op, m)])) as (o & b & E). exists o, b. rewrite E, <- app_assoc, <- filter_app. reflexivity.
Qed.
Lemma run_complete : forall fs ms s, Forall frame_ok fs -> Forall (fun f => f_op f <> 8) fs -> talk (data fs) ms -> open s -> fragop s = -1 -> frag s = [] ->
  open (run fs s) /\ delivered (tr (run fs s)) = delivered (tr s) ++ filter known ms.
Proof.
  intros fs ms s FO N T O F G. assert (FD : Forall frame_ok (data fs)). { rewrite Forall_forall in *. intros x X. apply FO. apply filter_In in X. apply X. }
  destruct (steps_talk _ _ T FD (delivered (tr s))) as (o & b & E). assert (E2 : steps (msgs s) (data fs) = Some (o, b, delivered (tr s) ++ filter known ms)) by (unfold msgs; rewrite F, G; exact E). destruct (run_open fs s _ O N E2) as [A B]. split; [exact A|]. unfold msgs in B. injection B as _ _ B. exact B.
Qed.
End Open.

(** Pongs: as long as the stream is not in error, one for every ping, in order. *)
Lemma write_low : forall b s, st (write b s) = st s.
Proof. intros b s. unfold write. destruct (st s <? 2); reflexivity. Qed.
Lemma fold_up : forall l s, st s <= 2 -> st s <= st (fold_left (fun s a => perform a s) l s) <= 2.
Proof.
  induction l as [|a l IH]; intros s H; cbn [fold_left]; [lia|]. assert (A : st s <= st (perform a s) <= 2).
  { destruct a; cbn [perform]; unfold clean_close; cbn [st set_closing]; rewrite ?write_low; try lia; [destruct (Z.ltb_spec (st s) 1); cbn [st set_st]; lia|cbn [st clear_cbs]; destruct (Z.ltb_spec (st s) 2); cbn [st emit set_st clear_cbs]; lia]. }
  specialize (IH (perform a s)). lia.
Qed.
Lemma react_up : forall s, st s <= 2 -> st s <= st (react s) <= 2.
Proof. intros s H. apply fold_up, H. Qed.
Lemma call_up : forall e s, st s <= 2 -> st s <= st (call e s) <= 2.
Proof. intros e s H. unfold WebSock.call. destruct (cbs s); [apply (react_up (emit e s)), H|lia]. Qed.
Lemma closed_up : forall s, st s <= 2 -> st (set_closed s) = 2.
Proof.
  intros s H. unfold WebSock.set_closed. destruct (Z.ltb_spec (st s) 2); [|cbn; lia]. destruct (cbs s); [|reflexivity]. pose proof (react_up (emit EvError (clear_cbs (emit EvDown (set_st 2 s))))) as R. cbn [st emit clear_cbs set_st] in R. lia.
Qed.
Lemma message_up : forall op fin p s, st s <= 2 -> st s <= st (on_message op fin p s) <= 2.
Proof.
  intros op fin p s H. unfold WebSock.on_message. destruct (0 <? fragop s); [rewrite closed_up by assumption; lia|]. destruct (negb fin); [cbn; lia|]. destruct (op =? 1); [apply call_up, H|]. destruct (op =? 2); [apply call_up, H|lia].
Qed.
Lemma frame_up : forall op fin p s, st s <= 2 -> st s <= st (on_frame op fin p s) <= 2.
Proof.
  intros op fin p s H. unfold WebSock.on_frame. destruct (op =? 0).
  - unfold WebSock.on_continuation. destruct (fragop s <? 0); [rewrite closed_up by assumption; lia|]. destruct fin; [|cbn; lia]. cbv zeta. cbn [st set_frag]. apply (message_up _ true _ (set_frag (frag s ++ p) (-1) s)), H.
  - destruct (op =? 9); [rewrite write_low; lia|]. destruct (op =? 10); [lia|]. destruct (op =? 8); [|apply message_up, H]. destruct (closing s); [rewrite closed_up by assumption; lia|]. unfold clean_close. cbn [st set_closing]. rewrite write_low. lia.
Qed.
Lemma call_pongs : forall e s, pongs [e] = [] -> pongs (tr (call e s)) = pongs (tr s).
Proof. intros e s P. destruct (cbs s) eqn:C; [|rewrite call_off by exact C; reflexivity]. destruct (call_msgs e s C) as (_ & _ & A). rewrite A, P. apply app_nil_r. Qed.
Lemma message_pongs : forall op fin p s, pongs (tr (on_message op fin p s)) = pongs (tr s).
Proof.
  intros op fin p s. unfold WebSock.on_message. destruct (0 <? fragop s); [apply closed_msgs|]. destruct (negb fin); [reflexivity|]. destruct (op =? 1); [apply call_pongs; reflexivity|]. destruct (op =? 2); [apply call_pongs; reflexivity|reflexivity].
Qed.
Lemma run_pongs : forall fs s, st s <= 2 -> st (run fs s) < 2 -> pongs (tr (run fs s)) = pongs (tr s) ++ map (make_frame 10) (pings fs).
Proof.
  assert (U : forall fs s, st s <= 2 -> st s <= st (run fs s)). { induction fs as [|f fs IH]; intros s H; [cbn; lia|]. cbn [WebSockMessages.run fold_left]. change (fold_left _ fs ?x) with (run fs x). pose proof (frame_up (f_op f) (f_fin f) (f_payload f) s H) as Q. specialize (IH (on_frame (f_op f) (f_fin f) (f_payload f) s)). lia. }
  induction fs as [|f fs IH]; intros s H L; [cbn; rewrite app_nil_r; reflexivity|]. cbn [WebSockMessages.run fold_left] in *. change (fold_left _ fs ?x) with (run fs x) in *.
  pose proof (frame_up (f_op f) (f_fin f) (f_payload f) s H) as Q. rewrite IH by (try lia; exact L). pose proof (U fs (on_frame (f_op f) (f_fin f) (f_payload f) s)) as V.
  unfold pings. cbn [filter]. destruct (Z.eqb_spec (f_op f) 9) as [N9|N9].
  - cbn [map]. rewrite N9. unfold WebSock.on_frame. cbn [Z.eqb Pos.eqb]. unfold write. destruct (Z.ltb_spec (st s) 2); [|lia]. cbn [tr emit]. rewrite pongs_app.
    change (pongs [EvOut (make_frame 10 (f_payload f))]) with [make_frame 10 (f_payload f)]. rewrite <- app_assoc. reflexivity.
  - f_equal. clear V IH L. unfold WebSock.on_frame. destruct (f_op f =? 0).
    + unfold WebSock.on_continuation. destruct (fragop s <? 0); [apply closed_msgs|]. destruct (f_fin f); [|reflexivity]. cbv zeta. cbn [tr set_frag]. apply (message_pongs _ true _ (set_frag (frag s ++ f_payload f) (-1) s)).
    + destruct (Z.eqb_spec (f_op f) 9); [congruence|]. destruct (f_op f =? 10); [reflexivity|]. destruct (f_op f =? 8); [|apply message_pongs]. destruct (closing s); [apply closed_msgs|].
      unfold clean_close, write. cbn [tr set_closing]. destruct (st s <? 2); [|reflexivity]. cbn [tr emit]. rewrite pongs_app. apply app_nil_r.
Qed.
End App.

(** From bytes to frames *)
Lemma receive_frames : forall app sha1 s b fs r,
  (fine s /\ st s = 0 /\ hdr s = true /\ cbs s = true /\ inbuf s = [] /\ fragop s = -1 /\ frag s = []) -> frames b fs r ->
  (r = [] \/ exists f y, y <> [] /\ frame_ok f /\ encodes f (r ++ y) /\ zlen (f_payload f) <= 16777216) ->
  exists s', receive app sha1 b s = Ok s' /\ tr s' = tr (run app fs s) /\ st s' = st (run app fs s) /\ inbuf s' = r.
Proof.
  intros app sha1 s b fs r (F & S & H & _ & I & _) FR W. destruct b as [|x b].
  - rewrite receive_nil. inversion FR as [|f c t fs' r' F1 E1 L1 R1 Q1]; subst; [exists s; auto|]. apply encodes_long in E1. destruct c; [change (zlen (A := Z) []) with 0 in E1; lia|discriminate].
  - rewrite receive_body by (try assumption; discriminate). unfold on_body. cbv zeta. rewrite I. cbn [List.app]. rewrite (loop_frames app _ _ _ FR) by lia.
    assert (RL : (length r <= length (x :: b))%nat). { clear - FR. induction FR as [|? ? ? ? ? ? ? ? ? IH]; [lia|rewrite app_length; lia]. }
    assert (E : body_loop app (Datatypes.S (length (x :: b))) r (run app fs s) = Ok (run app fs s, Some r)).
    { cbn [body_loop]. destruct r as [|y r]; [reflexivity|]. destruct W as [W|(f & z & Z & FO & EN & L)]; [discriminate|]. rewrite (parse_part f (y :: r) z FO EN Z L). reflexivity. }
    rewrite E. cbn [rbind]. eexists. split; [reflexivity|]. auto.
Qed.
