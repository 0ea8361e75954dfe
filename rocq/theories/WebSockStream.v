(** The WebSocket server as a stream of events. *)
From Verif Require Import Base BaseFacts Hex URI URIParse WebSock WebSockSpec WebSockProofs WebSockFrames.
Open Scope res_scope.

Section App.
Variable app : list ev -> list act.
Variable sha1 : list Z -> list Z.
Notation react := (react app).
Notation call := (call app).
Notation set_closed := (set_closed app).
Notation on_message := (on_message app).
Notation on_continuation := (on_continuation app).
Notation on_frame := (on_frame app).
Notation body_loop := (body_loop app).
Notation on_body := (on_body app).
Notation on_headers := (on_headers app sha1).
Notation parse_block := (parse_block app sha1).
Notation on_header := (on_header app sha1).
Notation receive := (receive app sha1).

(** The input buffer is looked at by the loop only. *)
Lemma write_inbuf : forall b x s, write x (set_inbuf b s) = set_inbuf b (write x s).
Proof. intros b x s. unfold write. cbn [st set_inbuf]. destruct (st s <? 2); reflexivity. Qed.
Lemma perform_inbuf : forall b a s, perform a (set_inbuf b s) = set_inbuf b (perform a s).
Proof.
  intros b a s. destruct a; cbn [perform]; unfold clean_close; rewrite ?write_inbuf; try reflexivity.
  - cbn [st set_inbuf]. destruct (st s <? 1); reflexivity.
  - cbn [st set_inbuf clear_cbs]. destruct (st s <? 2); reflexivity.
Qed.
Lemma react_inbuf : forall b s, react (set_inbuf b s) = set_inbuf b (react s).
Proof.
  intros b s. unfold WebSock.react. cbn [tr set_inbuf]. generalize (app (tr s)). intros l. revert s. induction l as [|a l IH]; intros s; cbn [fold_left]; [reflexivity|].
  rewrite perform_inbuf. apply IH.
Qed.
Lemma call_inbuf : forall b e s, call e (set_inbuf b s) = set_inbuf b (call e s).
Proof. intros b e s. unfold WebSock.call. cbn [cbs set_inbuf]. destruct (cbs s); [|reflexivity]. change (emit e (set_inbuf b s)) with (set_inbuf b (emit e s)). apply react_inbuf. Qed.
Lemma closed_inbuf : forall b s, set_closed (set_inbuf b s) = set_inbuf b (set_closed s).
Proof.
  intros b s. unfold WebSock.set_closed. cbn [st cbs set_inbuf]. destruct (st s <? 2); [|reflexivity]. destruct (cbs s); [|reflexivity].
  change (emit EvError (clear_cbs (emit EvDown (set_st 2 (set_inbuf b s))))) with (set_inbuf b (emit EvError (clear_cbs (emit EvDown (set_st 2 s))))). apply react_inbuf.
Qed.
Lemma message_inbuf : forall b op fin p s, on_message op fin p (set_inbuf b s) = set_inbuf b (on_message op fin p s).
Proof.
  intros b op fin p s. unfold WebSock.on_message. cbn [fragop frag set_inbuf]. rewrite closed_inbuf, !call_inbuf.
  destruct (0 <? fragop s); [reflexivity|]. destruct (negb fin); [reflexivity|]. destruct (op =? 1); [reflexivity|]. destruct (op =? 2); reflexivity.
Qed.
Lemma frame_inbuf : forall b op fin p s, on_frame op fin p (set_inbuf b s) = set_inbuf b (on_frame op fin p s).
Proof.
  intros b op fin p s. unfold WebSock.on_frame, WebSock.on_continuation, clean_close. cbn [fragop frag closing set_inbuf]. rewrite !closed_inbuf, !write_inbuf, !message_inbuf.
  destruct (op =? 0).
  - destruct (fragop s <? 0); [reflexivity|]. destruct fin; [|reflexivity]. change (set_frag (frag s ++ p) (-1) (set_inbuf b s)) with (set_inbuf b (set_frag (frag s ++ p) (-1) s)). cbv zeta. rewrite message_inbuf. reflexivity.
  - destruct (op =? 9); [reflexivity|]. destruct (op =? 10); [reflexivity|]. destruct (op =? 8); [|reflexivity]. destruct (closing s); reflexivity.
Qed.
Lemma loop_inbuf : forall b k r s, body_loop k r (set_inbuf b s) = rbind (body_loop k r s) (fun x => Ok (set_inbuf b (fst x), snd x)).
Proof.
  intros b. induction k as [|k IH]; intros r s; cbn [WebSock.body_loop]; [reflexivity|]. destruct r as [|x r]; [reflexivity|].
  destruct (parse (x :: r)) as [[| |op fin p n]| |]; cbn [rbind]; try reflexivity.
  - rewrite closed_inbuf. reflexivity.
  - rewrite frame_inbuf. apply IH.
Qed.

(** The loop: more fuel changes nothing, and there is enough. *)
Lemma loop_total : forall k r s, (length r < k)%nat -> exists x, body_loop k r s = Ok x.
Proof.
  induction k as [|k IH]; intros r s L; [lia|]. cbn [WebSock.body_loop]. destruct r as [|x r]; [eexists; reflexivity|].
  destruct (parse_total (x :: r)) as [i P]. rewrite P. cbn [rbind]. destruct i as [| |op fin p n]; try (eexists; reflexivity).
  apply IH. pose proof (parse_progress _ _ _ _ _ P). rewrite skipn_length. cbn [length] in *. lia.
Qed.
Lemma loop_fuel : forall k r s x, body_loop k r s = Ok x -> forall k', (k <= k')%nat -> body_loop k' r s = Ok x.
Proof.
  induction k as [|k IH]; intros r s x H k' L; [discriminate|]. destruct k' as [|k']; [lia|]. cbn [WebSock.body_loop] in *. destruct r as [|y r]; [exact H|].
  destruct (parse (y :: r)) as [[| |op fin p n]| |]; cbn [rbind] in *; try exact H. apply (IH _ _ _ H). lia.
Qed.
Lemma loop_enough : forall k k' r s, (length r < k)%nat -> (length r < k')%nat -> body_loop k r s = body_loop k' r s.
Proof.
  intros k k' r s L L'. destruct (loop_total (S (length r)) r s ltac:(lia)) as [x X]. rewrite (loop_fuel _ _ _ _ X k) by lia. rewrite (loop_fuel _ _ _ _ X k') by lia. reflexivity.
Qed.
Lemma loop_left : forall k r s s1 r1, body_loop k r s = Ok (s1, Some r1) -> (length r1 <= length r)%nat.
Proof.
  induction k as [|k IH]; intros r s s1 r1 H; [discriminate|]. cbn [WebSock.body_loop] in H. destruct r as [|x r]; [injection H as _ <-; cbn; lia|].
  destruct (parse (x :: r)) as [[| |op fin p n]| |]; cbn [rbind] in H; try discriminate; [injection H as _ <-; lia|]. apply IH in H. rewrite skipn_length in H. lia.
Qed.
(** Bytes that come later do not change what is done with those before. *)
Lemma loop_app : forall k r s s1 l y k', body_loop k r s = Ok (s1, l) -> (length (r ++ y) < k')%nat ->
  body_loop k' (r ++ y) s = match l with Some r1 => body_loop k' (r1 ++ y) s1 | None => Ok (s1, None) end.
Proof.
  induction k as [|k IH]; intros r s s1 l y k' H L; [discriminate|]. cbn [WebSock.body_loop] in H. destruct r as [|x r]; [injection H as <- <-; reflexivity|].
  destruct k' as [|k']; [lia|].
  destruct (parse (x :: r)) as [[| |op fin p n]| |] eqn:P; cbn [rbind] in H; try discriminate.
  - injection H as <- <-. reflexivity.
  - injection H as <- <-. cbn [WebSock.body_loop List.app]. change (x :: r ++ y) with ((x :: r) ++ y). rewrite (parse_more _ y _ P) by discriminate. reflexivity.
  - pose proof (parse_progress _ _ _ _ _ P) as Q. pose proof (parse_needed _ _ _ _ _ P) as N. unfold zlen in N.
    cbn [WebSock.body_loop List.app]. change (x :: r ++ y) with ((x :: r) ++ y). rewrite (parse_more _ y _ P) by discriminate. cbn [rbind].
    rewrite skipn_app. replace (Z.to_nat n - length (x :: r))%nat with 0%nat by lia. cbn [skipn].
    assert (LL : (length (skipn (Z.to_nat n) (x :: r) ++ y) < k')%nat) by (rewrite app_length, skipn_length; rewrite app_length in L; cbn [length] in *; lia).
    rewrite (IH _ _ _ _ y k' H LL). destruct l as [r1|]; [|reflexivity].
    pose proof (loop_left _ _ _ _ _ H) as LR.
    refine (loop_enough k' (S k') (r1 ++ y) s1 _ _); rewrite app_length in *; lia.
Qed.

(** Dead: in error, without callbacks.  Nothing more is seen. *)
Definition dead (s : ws) : Prop := st s = 2 /\ cbs s = false.
Definition still (s s' : ws) : Prop := st s' = st s /\ cbs s' = cbs s /\ tr s' = tr s /\ hdr s' = hdr s.
Lemma still_refl : forall s, still s s. Proof. unfold still. auto. Qed.
Lemma still_dead : forall s s', dead s -> still s s' -> dead s'.
Proof. unfold dead, still. intros s s' [A B] (C & D & _). split; congruence. Qed.
Lemma dead_closed : forall s, dead s -> still s (set_closed s).
Proof. intros s [A B]. unfold WebSock.set_closed. rewrite A. cbn. unfold still. cbn. auto. Qed.
Lemma dead_call : forall e s, dead s -> call e s = s.
Proof. intros e s [A B]. unfold WebSock.call. rewrite B. reflexivity. Qed.
Lemma dead_write : forall b s, dead s -> write b s = s.
Proof. intros b s [A B]. unfold write. rewrite A. reflexivity. Qed.
Lemma dead_message : forall op fin p s, dead s -> still s (on_message op fin p s).
Proof.
  intros op fin p s D. unfold WebSock.on_message. destruct (0 <? fragop s); [apply dead_closed, D|]. destruct (negb fin); [unfold still; auto|]. rewrite !dead_call by assumption.
  destruct (op =? 1); [apply still_refl|]. destruct (op =? 2); apply still_refl.
Qed.
Lemma dead_frame : forall op fin p s, dead s -> still s (on_frame op fin p s).
Proof.
  intros op fin p s D. unfold WebSock.on_frame. destruct (op =? 0).
  - unfold WebSock.on_continuation. destruct (fragop s <? 0); [apply dead_closed, D|]. destruct fin; [|unfold still; auto]. cbv zeta.
    pose proof (dead_message (fragop s) true (frag s ++ p) (set_frag (frag s ++ p) (-1) s) D) as (A & B & C & E). unfold still. cbn [st cbs tr hdr set_frag] in *. auto.
  - destruct (op =? 9); [rewrite dead_write by assumption; apply still_refl|]. destruct (op =? 10); [apply still_refl|]. destruct (op =? 8).
    + destruct (closing s); [apply dead_closed, D|]. unfold clean_close. rewrite dead_write by assumption. unfold still. auto.
    + apply dead_message, D.
Qed.
Lemma dead_loop : forall k r s s1 l, dead s -> body_loop k r s = Ok (s1, l) -> still s s1.
Proof.
  induction k as [|k IH]; intros r s s1 l D H; [discriminate|]. cbn [WebSock.body_loop] in H. destruct r as [|x r]; [injection H as <- _; apply still_refl|].
  destruct (parse (x :: r)) as [[| |op fin p n]| |]; cbn [rbind] in H; try discriminate.
  - injection H as <- _. apply still_refl.
  - injection H as <- _. apply dead_closed, D.
  - pose proof (dead_frame op fin p s D) as S. pose proof (IH _ _ _ _ (still_dead _ _ D S) H) as S'. unfold still in *. intuition congruence.
Qed.

(** What stays true: the state is 0, 1 or 2, and in error there are no callbacks; without shutdown it is never 1. *)
Definition fine (s : ws) : Prop := (st s = 0 \/ st s = 1 \/ st s = 2) /\ (st s = 2 -> cbs s = false).
Definition keeps (f : ws -> ws) : Prop := forall s, fine s -> fine (f s) /\ hdr (f s) = hdr s /\ ((forall t, ~ In AShutdown (app t)) -> st s <> 1 -> st (f s) <> 1).
Lemma keeps_comp : forall f g, keeps f -> keeps g -> keeps (fun s => g (f s)).
Proof. intros f g F G s H. destruct (F s H) as (A & B & C). destruct (G _ A) as (D & E & I). split; [exact D|]. split; [congruence|auto]. Qed.
Lemma keeps_write : forall b, keeps (write b).
Proof. intros b s H. unfold write. destruct (st s <? 2); auto. Qed.
Lemma keeps_perform : forall a s, fine s -> fine (perform a s) /\ hdr (perform a s) = hdr s /\ (a <> AShutdown -> st s <> 1 -> st (perform a s) <> 1).
Proof.
  intros a s H. destruct a; cbn [perform].
  - destruct (keeps_write (make_frame 1 m) s H) as (A & B & _). split; [exact A|]. split; [exact B|]. intros _ Q. unfold write. destruct (st s <? 2); exact Q.
  - destruct (keeps_write (make_frame 2 m) s H) as (A & B & _). split; [exact A|]. split; [exact B|]. intros _ Q. unfold write. destruct (st s <? 2); exact Q.
  - unfold clean_close. destruct (keeps_write (make_frame 8 []) s H) as (A & B & _). split; [exact A|]. split; [exact B|]. intros _ Q. cbn [st set_closing]. unfold write. destruct (st s <? 2); exact Q.
  - destruct (Z.ltb_spec (st s) 1); (split; [|split; [reflexivity|congruence]]); unfold fine in *; cbn [st cbs set_st]; [|exact H]. split; [auto|lia].
  - cbn [st clear_cbs]. destruct (st s <? 2); (split; [|split; [reflexivity|]]); unfold fine in *; cbn [st cbs emit set_st clear_cbs]; intuition lia.
Qed.
Lemma keeps_react : keeps react.
Proof.
  intros s H. unfold WebSock.react. assert (G : forall l s, fine s -> fine (fold_left (fun s a => perform a s) l s) /\ hdr (fold_left (fun s a => perform a s) l s) = hdr s /\ (~ In AShutdown l -> st s <> 1 -> st (fold_left (fun s a => perform a s) l s) <> 1)).
  { clear s H. induction l as [|a l IH]; intros s H; cbn [fold_left]; [auto|]. destruct (keeps_perform a s H) as (A & B & C). destruct (IH _ A) as (D & E & I). split; [exact D|]. split; [congruence|].
    intros N Q. apply I; [intros X; apply N; right; exact X|]. apply C; [intros ->; apply N; left; reflexivity|exact Q]. }
  destruct (G (app (tr s)) s H) as (A & B & C). split; [exact A|]. split; [exact B|]. intros N. apply C, N.
Qed.
Lemma keeps_call : forall e, keeps (call e).
Proof. intros e s H. unfold WebSock.call. destruct (cbs s); [|auto]. apply (keeps_react (emit e s)), H. Qed.
Lemma keeps_closed : keeps set_closed.
Proof.
  intros s H. unfold WebSock.set_closed. destruct (st s <? 2) eqn:E.
  - assert (F : fine (clear_cbs (emit EvDown (set_st 2 s)))) by (unfold fine; cbn; auto). destruct (cbs s).
    + destruct (keeps_react (emit EvError (clear_cbs (emit EvDown (set_st 2 s)))) F) as (A & B & C). split; [exact A|]. split; [exact B|]. intros N _. apply C; [exact N|discriminate].
    + split; [exact F|]. split; [reflexivity|]. cbn. lia.
  - split; [|split; [reflexivity|auto]]. unfold fine in *. cbn [st cbs clear_cbs]. intuition.
Qed.
Lemma keeps_message : forall op fin p, keeps (on_message op fin p).
Proof.
  intros op fin p s H. unfold WebSock.on_message. destruct (0 <? fragop s); [apply keeps_closed, H|]. destruct (negb fin); [auto|]. destruct (op =? 1); [apply keeps_call, H|]. destruct (op =? 2); [apply keeps_call, H|auto].
Qed.
Lemma keeps_frame : forall op fin p, keeps (on_frame op fin p).
Proof.
  intros op fin p s H. unfold WebSock.on_frame. destruct (op =? 0).
  - unfold WebSock.on_continuation. destruct (fragop s <? 0); [apply keeps_closed, H|]. destruct fin; [|auto]. cbv zeta.
    destruct (keeps_message (fragop s) true (frag s ++ p) (set_frag (frag s ++ p) (-1) s) H) as (A & B & C). auto.
  - destruct (op =? 9); [apply keeps_write, H|]. destruct (op =? 10); [auto|]. destruct (op =? 8); [|apply keeps_message, H].
    destruct (closing s); [apply keeps_closed, H|]. unfold clean_close. apply (keeps_write (make_frame 8 []) s H).
Qed.
Lemma keeps_loop : forall k r s s1 l, fine s -> body_loop k r s = Ok (s1, l) -> fine s1 /\ hdr s1 = hdr s /\ ((forall t, ~ In AShutdown (app t)) -> st s <> 1 -> st s1 <> 1).
Proof.
  induction k as [|k IH]; intros r s s1 l D H; [discriminate|]. cbn [WebSock.body_loop] in H. destruct r as [|x r]; [injection H as <- _; auto|].
  destruct (parse (x :: r)) as [[| |op fin p n]| |]; cbn [rbind] in H; try discriminate.
  - injection H as <- _. auto.
  - injection H as <- _. apply keeps_closed, D.
  - destruct (keeps_frame op fin p s D) as (A & B & C). destruct (IH _ _ _ _ A H) as (A' & B' & C'). split; [exact A'|]. split; [congruence|auto].
Qed.
Lemma body_total : forall b s, exists s1, on_body b s = Ok s1.
Proof. intros b s. unfold WebSock.on_body. cbv zeta. destruct (loop_total (S (length (inbuf s ++ b))) (inbuf s ++ b) s ltac:(lia)) as [[s1 l] ->]. eexists; reflexivity. Qed.
Lemma keeps_body : forall b s s1, fine s -> on_body b s = Ok s1 -> fine s1 /\ hdr s1 = hdr s /\ ((forall t, ~ In AShutdown (app t)) -> st s <> 1 -> st s1 <> 1).
Proof.
  intros b s s1 H E. unfold WebSock.on_body in E. cbv zeta in E. destruct (body_loop _ (inbuf s ++ b) s) as [[s2 l]| |] eqn:L; cbn [rbind] in E; try discriminate.
  destruct (keeps_loop _ _ _ _ _ H L) as (A & B & C). destruct l; injection E as <-; auto.
Qed.
Lemma keeps_headers : forall s s1, fine s -> on_headers s = Ok s1 -> fine s1 /\ hdr s1 = hdr s /\ ((forall t, ~ In AShutdown (app t)) -> st s <> 1 -> st s1 <> 1).
Proof.
  intros s s1 H E. unfold WebSock.on_headers in E. destruct (keeps_call EvHeaders s H) as (A & B & C). set (s0 := call EvHeaders s) in *.
  assert (G : forall x, fine x /\ hdr x = hdr s0 /\ ((forall t, ~ In AShutdown (app t)) -> st s0 <> 1 -> st x <> 1) -> fine x /\ hdr x = hdr s /\ ((forall t, ~ In AShutdown (app t)) -> st s <> 1 -> st x <> 1)).
  { intros x (D & I & J). split; [exact D|]. split; [congruence|auto]. }
  destruct (uri_split (startl s0) [32] 0) as [[|m [|u [|v [|w l]]]]| |]; cbn [rbind] in E; try discriminate; try (injection E as <-; apply G, keeps_closed, A).
  destruct (negb (str_eqb m t_get)); [injection E as <-; apply G, keeps_closed, A|].
  destruct (lowercase (header t_upgrade s0)) as [up| |]; cbn [rbind] in E; try discriminate.
  destruct (negb (str_eqb up t_websocket)); [injection E as <-; apply G, keeps_closed, A|].
  destruct (lowercase (header t_connection s0)) as [cn| |]; cbn [rbind] in E; try discriminate.
  destruct (negb (contains t_upgrade cn) || negb (str_eqb (header t_version s0) t_13) || isnil (header t_key s0)); [injection E as <-; apply G, keeps_closed, A|].
  destruct (base64enc (sha1 (map of_char (header t_key s0 ++ t_guid)))) as [acc| |]; cbn [rbind] in E; try discriminate. injection E as <-. apply G.
  apply (keeps_comp _ _ (keeps_write (t_answer ++ acc ++ [13; 10; 13; 10])) (keeps_call EvOpen)), A.
Qed.
Lemma keeps_block : forall s s1, fine s -> parse_block s = Ok s1 -> fine s1 /\ hdr s1 = true /\ ((forall t, ~ In AShutdown (app t)) -> st s <> 1 -> st s1 <> 1).
Proof.
  intros s s1 H E. unfold WebSock.parse_block in E. cbv zeta in E. destruct (uri_split _ [10] 0) as [[|first r]| |]; cbn [rbind] in E; try discriminate.
  - destruct (keeps_headers (set_heads (startl s) (heads s) s) _ H E) as (A & B & C). auto.
  - destruct (parse_lines r (heads s)) as [[good h]| |]; cbn [rbind] in E; try discriminate. destruct good.
    + destruct (keeps_headers (set_heads first h s) _ H E) as (A & B & C). auto.
    + injection E as <-. destruct (keeps_closed (set_heads first h s) H) as (A & B & C). auto.
Qed.
Lemma keeps_header : forall b s s1 r, fine s -> on_header b s = Ok (s1, r) -> hdr s = false -> fine s1 /\ (hdr s1 = true \/ (hdr s1 = false /\ r = [] /\ st s1 = st s)) /\ ((forall t, ~ In AShutdown (app t)) -> st s <> 1 -> st s1 <> 1).
Proof.
  induction b as [|x b IH]; intros s s1 r H E Hd; cbn [WebSock.on_header] in E; [injection E as <- <-; auto 10|].
  destruct (x =? 10).
  - destruct (gotnl s).
    + destruct (parse_block _) as [s2| |] eqn:P; cbn [rbind] in E; try discriminate. injection E as <- <-. apply keeps_block in P; [|exact H]. destruct P as (A & B & C). auto.
    + apply IH in E; [|exact H|exact Hd]. exact E.
  - apply IH in E; [|exact H|exact Hd]. exact E.
Qed.

(** Two ends that cannot be told apart *)
Definition same (s s' : ws) : Prop := tr s = tr s' /\ st s = st s' /\ (st s = 2 \/ s = s').
Definition same_res (a b : res ws) : Prop := match a, b with Ok s, Ok s' => same s s' | UB, UB => True | Rej, Rej => True | _, _ => False end.
Lemma same_res_refl : forall a, same_res a a.
Proof. intros [s| |]; cbn; unfold same; auto. Qed.

(** on_header and a cut *)
Lemma header_app : forall a b s, hdr s = false -> fine s ->
  on_header (a ++ b) s = match on_header a s with
    | Ok (s1, r) => if hdr s1 then Ok (s1, r ++ b) else on_header b s1
    | Rej => Rej | UB => UB end.
Proof.
  induction a as [|x a IH]; intros b s Hd F; [cbn [List.app WebSock.on_header]; rewrite Hd; reflexivity|]. cbn [List.app WebSock.on_header]. destruct (x =? 10).
  - destruct (gotnl s).
    + destruct (parse_block _) as [s2| |] eqn:P; cbn [rbind]; try reflexivity. apply keeps_block in P; [|exact F]. destruct P as (_ & -> & _). reflexivity.
    + apply IH; assumption.
  - apply IH; assumption.
Qed.

(** receive, case by case *)
Lemma receive_dead : forall b s, st s = 2 -> receive b s = Ok s.
Proof. intros b s H. unfold WebSock.receive. cbn [receive_loop]. rewrite H. reflexivity. Qed.
Lemma receive_nil : forall s, receive [] s = Ok s.
Proof. intros s. unfold WebSock.receive. cbn [receive_loop isnil negb]. rewrite andb_false_r. reflexivity. Qed.
Lemma isnil_cons : forall b, b <> [] -> negb (isnil b) = true. Proof. intros [|x b] H; [congruence|reflexivity]. Qed.
Lemma receive_body : forall b s, st s = 0 -> hdr s = true -> b <> [] -> receive b s = on_body b s.
Proof.
  intros b s S H B. unfold WebSock.receive. cbn [receive_loop]. rewrite S, H, isnil_cons by assumption. cbn [Z.ltb Z.compare andb]. destruct (body_total b s) as [s1 E]. rewrite E. cbn [rbind isnil negb]. rewrite andb_false_r. reflexivity.
Qed.
Lemma receive_header : forall b s, fine s -> st s = 0 -> hdr s = false -> b <> [] -> receive b s = match on_header b s with Ok (s1, r) => if hdr s1 then receive r s1 else Ok s1 | Rej => Rej | UB => UB end.
Proof.
  intros b s F S H B. unfold WebSock.receive at 1. cbn [receive_loop]. rewrite S, H, isnil_cons by assumption. cbn [Z.ltb Z.compare andb]. destruct (on_header b s) as [[s1 r]| |] eqn:E; cbn [rbind]; try reflexivity.
  destruct (keeps_header _ _ _ _ F E H) as (F1 & [H1|(H1 & -> & S1)] & _); rewrite H1.
  - unfold WebSock.receive. cbn [receive_loop]. rewrite H1. destruct ((st s1 <? 1) && negb (isnil r)); [|reflexivity]. destruct (body_total r s1) as [s2 E2]. rewrite E2. cbn [rbind isnil negb]. rewrite !andb_false_r. reflexivity.
  - cbn [isnil negb]. rewrite andb_false_r. reflexivity.
Qed.

(** setClosedState leaves an error *)
Lemma perform_dead : forall a s, st s = 2 -> st (perform a s) = 2.
Proof. intros a s H. destruct a; cbn [perform]; unfold clean_close, write; cbn [st clear_cbs set_closing emit]; rewrite ?H; cbn; exact H. Qed.
Lemma closed_st : forall s, fine s -> st (set_closed s) = 2.
Proof.
  intros s F. unfold WebSock.set_closed. destruct (Z.ltb_spec (st s) 2) as [Q|Q].
  - destruct (cbs s); [|reflexivity]. unfold WebSock.react. set (l := app _). clearbody l. set (s' := emit _ _). assert (H : st s' = 2) by reflexivity. clearbody s'. revert s' H. induction l as [|a l IHl]; intros s' H; cbn [fold_left]; [exact H|]. apply IHl, perform_dead, H.
  - cbn [st clear_cbs]. destruct F as [F _]. lia.
Qed.
Lemma loop_none : forall k r s s1, fine s -> body_loop k r s = Ok (s1, None) -> st s1 = 2.
Proof.
  induction k as [|k IH]; intros r s s1 F E; [discriminate|]. cbn [WebSock.body_loop] in E. destruct r as [|x r]; [discriminate|].
  destruct (parse (x :: r)) as [[| |op fin p n]| |]; cbn [rbind] in E; try discriminate; [injection E as <-; apply closed_st, F|]. apply IH in E; [exact E|]. apply keeps_frame, F.
Qed.

Hypothesis no_shutdown : forall t, ~ In AShutdown (app t).
Lemma receive_body_cut : forall a b s, fine s -> st s = 0 -> hdr s = true -> same_res (receive (a ++ b) s) (rbind (receive a s) (fun s1 => receive b s1)).
Proof.
  intros a b s F S H. destruct a as [|x a]; [rewrite receive_nil; apply same_res_refl|]. destruct b as [|y b].
  - rewrite app_nil_r. destruct (receive (x :: a) s) as [s1| |]; cbn [rbind]; try exact I. rewrite receive_nil. apply same_res_refl.
  - rewrite !receive_body by (try assumption; discriminate). unfold WebSock.on_body at 1 2. cbv zeta.
    destruct (loop_total (Datatypes.S (length (inbuf s ++ x :: a))) (inbuf s ++ x :: a) s ltac:(lia)) as [[s1 l] E1]. rewrite E1. cbn [rbind].
    rewrite app_assoc. destruct (keeps_loop _ _ _ _ _ F E1) as (F1 & H1 & N1).
    rewrite (loop_app _ _ _ _ _ (y :: b) _ E1) by lia.
    destruct l as [r|].
    + pose proof (loop_left _ _ _ _ _ E1) as LR. rewrite (loop_enough _ (Datatypes.S (length (r ++ y :: b))) (r ++ y :: b) s1) by (rewrite !app_length in *; lia).
      destruct (loop_total (Datatypes.S (length (r ++ y :: b))) (r ++ y :: b) s1 ltac:(lia)) as [[s2 l2] E2]. rewrite E2. cbn [rbind].
      destruct (keeps_loop _ _ _ _ _ F1 E2) as (F2 & _).
      pose proof F1 as F1'. destruct F1' as ([S0|[S1|S2]] & C).
      * rewrite receive_body by (try discriminate; cbn [st hdr set_inbuf]; congruence). unfold WebSock.on_body. cbv zeta. cbn [inbuf set_inbuf]. rewrite loop_inbuf, E2. cbn [rbind fst snd].
        destruct l2 as [r2|]; [apply same_res_refl|]. cbn [same_res]. unfold same. split; [reflexivity|]. split; [reflexivity|]. left. apply (loop_none _ _ _ _ F1 E2).
      * exfalso. apply N1; [exact no_shutdown|lia|exact S1].
      * rewrite receive_dead by exact S2. pose proof (dead_loop _ _ _ _ _ (conj S2 (C S2)) E2) as (A & B & D & _).
        destruct l2; cbn [same_res]; unfold same; cbn [tr st set_inbuf]; (split; [exact D|]); (split; [exact A|]); left; congruence.
    + pose proof (loop_none _ _ _ _ F E1) as S2. cbn [rbind]. rewrite receive_dead by exact S2. cbn [same_res]. unfold same. cbn [tr st set_inbuf]. auto.
Qed.
Lemma receive_cut : forall a b s, fine s -> st s <> 1 -> same_res (receive (a ++ b) s) (rbind (receive a s) (fun s1 => receive b s1)).
Proof.
  intros a b s F N. pose proof F as F'. destruct F' as ([S|[S|S]] & C); [|congruence|].
  2: { rewrite !receive_dead by exact S. cbn [rbind]. rewrite receive_dead by exact S. apply same_res_refl. }
  destruct (hdr s) eqn:H; [apply receive_body_cut; assumption|].
  destruct a as [|x a]; [rewrite receive_nil; apply same_res_refl|]. destruct b as [|y b].
  - rewrite app_nil_r. destruct (receive (x :: a) s) as [s1| |]; cbn [rbind]; try exact I. rewrite receive_nil. apply same_res_refl.
  - rewrite !receive_header by (try assumption; discriminate). rewrite header_app by assumption.
    destruct (on_header (x :: a) s) as [[s1 r]| |] eqn:E; cbn [rbind]; try exact I.
    destruct (keeps_header _ _ _ _ F E H) as (F1 & [H1|(H1 & -> & S1)] & N1); rewrite H1.
    + rewrite H1. pose proof F1 as F1'. destruct F1' as ([S0|[S1|S2]] & C1).
      * apply receive_body_cut; assumption.
      * exfalso. apply N1; [exact no_shutdown|lia|exact S1].
      * rewrite !receive_dead by exact S2. cbn [rbind]. rewrite receive_dead by exact S2. apply same_res_refl.
    + cbn [rbind]. rewrite receive_header by (try assumption; try discriminate; congruence). apply same_res_refl.
Qed.
Lemma keeps_receive : forall b s s1, fine s -> st s <> 1 -> receive b s = Ok s1 -> fine s1 /\ st s1 <> 1.
Proof.
  intros b s s1 F N E. pose proof F as F'. destruct F' as ([S|[S|S]] & C); [|congruence|].
  2: { rewrite receive_dead in E by exact S. injection E as <-. auto. }
  destruct b as [|x b]; [rewrite receive_nil in E; injection E as <-; auto|].
  assert (G : forall b s s1, fine s -> st s <> 1 -> hdr s = true -> receive b s = Ok s1 -> fine s1 /\ st s1 <> 1).
  { clear - no_shutdown. intros b s s1 F N H E. pose proof F as F'. destruct F' as ([S|[S|S]] & C); [|congruence|].
    2: { rewrite receive_dead in E by exact S. injection E as <-. auto. }
    destruct b as [|x b]; [rewrite receive_nil in E; injection E as <-; auto|]. rewrite receive_body in E by (try assumption; discriminate).
    destruct (keeps_body _ _ _ F E) as (A & B & D). split; [exact A|]. apply D; [exact no_shutdown|exact N]. }
  destruct (hdr s) eqn:H; [apply (G _ _ _ F N H E)|]. rewrite receive_header in E by (try assumption; discriminate).
  destruct (on_header (x :: b) s) as [[s2 r]| |] eqn:E2; try discriminate. destruct (keeps_header _ _ _ _ F E2 H) as (F1 & [H1|(H1 & -> & S1)] & N1); rewrite H1 in E.
  - apply (G r s2 s1 F1 (N1 no_shutdown N) H1 E).
  - injection E as <-. auto.
Qed.
(** The same bytes in any chunks *)
Fixpoint feed (l : list (list Z)) (s : ws) : res ws := match l with [] => Ok s | b :: r => s1 <- receive b s;; feed r s1 end.
Lemma same_receive : forall b s s', fine s' -> st s' <> 1 -> same s s' -> same_res (receive b s) (receive b s').
Proof.
  intros b s s' F N (A & B & [S|E]); [|subst; apply same_res_refl]. rewrite !receive_dead by congruence. cbn [same_res]. unfold same. auto.
Qed.
Lemma same_trans : forall a b c, same_res a b -> same_res b c -> same_res a c.
Proof.
  intros [a| |] [b| |] [c| |]; cbn [same_res]; try tauto. unfold same. intros (A & B & C) (D & E & F). split; [congruence|]. split; [congruence|]. destruct C as [C|C]; [auto|]. subst. exact F.
Qed.
Lemma same_sym : forall a b, same_res a b -> same_res b a.
Proof. intros [a| |] [b| |]; cbn [same_res]; try tauto. unfold same. intros (A & B & C). split; [congruence|]. split; [congruence|]. destruct C as [C|C]; [left; congruence|right; congruence]. Qed.
Lemma same_feed : forall l s s', same s s' -> fine s -> fine s' -> st s' <> 1 -> same_res (feed l s) (feed l s').
Proof.
  intros l s s' (A & B & [S|E]) F F' N; [|subst; apply same_res_refl].
  assert (G : forall l x, st x = 2 -> feed l x = Ok x). { clear - app sha1. induction l as [|b l IH]; intros x X; cbn [feed]; [reflexivity|]. rewrite receive_dead by exact X. cbn [rbind]. apply IH, X. }
  rewrite !G by congruence. cbn [same_res]. unfold same. auto.
Qed.
Lemma feed_concat : forall l s, fine s -> st s <> 1 -> same_res (feed l s) (receive (concat l) s).
Proof.
  induction l as [|b l IH]; intros s F N; cbn [feed concat]; [rewrite receive_nil; apply same_res_refl|].
  apply (same_trans _ (rbind (receive b s) (fun s1 => receive (concat l) s1))); [|apply same_sym, receive_cut; assumption].
  destruct (receive b s) as [s1| |] eqn:E; cbn [rbind]; try exact I. destruct (keeps_receive _ _ _ F N E) as [F1 N1]. apply IH; assumption.
Qed.
End App.
