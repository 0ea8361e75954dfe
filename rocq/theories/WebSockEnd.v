(** The end of a connection: after the platform has been told to close, nothing but the application being told. *)
From Verif Require Import Base BaseFacts Hex URI URIParse WebSock WebSockSpec WebSockProofs WebSockFrames WebSockStream.
Open Scope res_scope.

Definition usual (e : ev) : Prop := e <> EvDown /\ e <> EvError.
Definition shape (s : ws) : Prop :=
  (st s < 2 -> Forall usual (tr s)) /\ (st s = 2 -> exists t, Forall usual t /\ (tr s = t ++ [EvDown] \/ tr s = t ++ [EvDown; EvError])).
Definition good (s : ws) : Prop := fine s /\ shape s.

Section App.
Variable app : list ev -> list act.
Variable sha1 : list Z -> list Z.
Notation react := (react app).
Notation call := (call app).
Notation set_closed := (set_closed app).
Notation on_message := (on_message app).
Notation on_frame := (on_frame app).
Notation body_loop := (body_loop app).

Lemma good_of : forall s s', good s -> fine s' -> st s' = st s -> tr s' = tr s -> good s'.
Proof. intros s s' (F & A & B) F' S T. split; [exact F'|]. unfold shape. rewrite S, T. auto. Qed.
Lemma shape_emit : forall e s, usual e -> st s < 2 -> shape s -> shape (emit e s).
Proof. intros e s U L (A & B). split; cbn [st tr emit]; [intros _; apply Forall_app; split; [auto|constructor; [exact U|constructor]]|lia]. Qed.
Lemma good_write : forall b s, good s -> good (write b s).
Proof.
  intros b s (F & S). split; [apply (keeps_write app b s F)|]. unfold write. destruct (Z.ltb_spec (st s) 2); [|exact S]. apply shape_emit; [split; discriminate|assumption|exact S].
Qed.
Lemma good_perform : forall a s, good s -> good (perform a s).
Proof.
  intros a s G. pose proof (keeps_perform app a s (proj1 G)) as (F & _). destruct a; cbn [perform] in *.
  - apply good_write, G.
  - apply good_write, G.
  - unfold clean_close in *. apply (good_of (write (make_frame 8 []) s)); [apply good_write, G|exact F|reflexivity|reflexivity].
  - destruct (Z.ltb_spec (st s) 1) as [L|L]; [|exact G]. split; [exact F|]. destruct G as (_ & A & B). split; cbn [st tr set_st]; [intros _; apply A; lia|lia].
  - cbn [st clear_cbs] in *. destruct (Z.ltb_spec (st s) 2) as [L|L].
    + split; [exact F|]. destruct G as (_ & A & B). split; cbn [st tr emit set_st clear_cbs]; [lia|]. intros _. exists (tr s). auto.
    + apply (good_of s); [exact G|exact F|reflexivity|reflexivity].
Qed.
Lemma good_react : forall s, good s -> good (react s).
Proof. intros s. unfold WebSock.react. generalize (app (tr s)). intros l. revert s. induction l as [|a l IH]; intros s G; cbn [fold_left]; [exact G|]. apply IH, good_perform, G. Qed.
Lemma good_call : forall e s, usual e -> good s -> good (call e s).
Proof.
  intros e s U G. unfold WebSock.call. destruct (cbs s) eqn:C; [|exact G]. apply good_react. destruct G as (F & S). split; [exact F|]. apply shape_emit; [exact U| |exact S]. destruct F as [F1 F2]. destruct F1 as [?|[?|E]]; [lia|lia|]. rewrite (F2 E) in C. discriminate.
Qed.
Lemma perform_quiet : forall a s, st s = 2 -> tr (perform a s) = tr s /\ st (perform a s) = 2.
Proof.
  intros a s H. destruct a; cbn [perform]; unfold clean_close, write; cbn [st clear_cbs]; rewrite ?H; cbn [Z.ltb Z.compare Pos.compare Pos.compare_cont]; auto.
Qed.
Lemma react_quiet : forall s, st s = 2 -> tr (react s) = tr s /\ st (react s) = 2.
Proof.
  intros s. unfold WebSock.react. generalize (app (tr s)). intros l. revert s. induction l as [|a l IH]; intros s H; cbn [fold_left]; [auto|]. destruct (perform_quiet a s H) as [A B]. destruct (IH _ B) as [C D]. split; [congruence|exact D].
Qed.
Lemma good_closed : forall s, good s -> good (set_closed s).
Proof.
  intros s G. split; [apply (keeps_closed app s), G|]. destruct G as (F & A & B). unfold WebSock.set_closed. destruct (Z.ltb_spec (st s) 2) as [L|L]; [|split; cbn [st tr clear_cbs]; [lia|exact B]].
  set (s1 := clear_cbs (emit EvDown (set_st 2 s))). destruct (cbs s).
  - destruct (react_quiet (emit EvError s1) eq_refl) as [T S]. split; [lia|]. intros _. rewrite T. exists (tr s). split; [auto|]. right. cbn [tr emit s1 clear_cbs set_st]. rewrite <- app_assoc. reflexivity.
  - split; cbn [st tr s1 clear_cbs emit set_st]; [lia|]. intros _. exists (tr s). auto.
Qed.
Lemma good_message : forall op fin p s, good s -> good (on_message op fin p s).
Proof.
  intros op fin p s G. unfold WebSock.on_message. destruct (0 <? fragop s); [apply good_closed, G|]. destruct (negb fin); [exact G|]. destruct (op =? 1); [apply good_call; [split; discriminate|exact G]|]. destruct (op =? 2); [apply good_call; [split; discriminate|exact G]|exact G].
Qed.
Lemma good_frame : forall op fin p s, good s -> good (on_frame op fin p s).
Proof.
  intros op fin p s G. unfold WebSock.on_frame. destruct (op =? 0).
  - unfold WebSock.on_continuation. destruct (fragop s <? 0); [apply good_closed, G|]. destruct fin; [|exact G]. cbv zeta. apply (good_message (fragop s) true (frag s ++ p) (set_frag (frag s ++ p) (-1) s)), G.
  - destruct (op =? 9); [apply good_write, G|]. destruct (op =? 10); [exact G|]. destruct (op =? 8); [|apply good_message, G]. destruct (closing s); [apply good_closed, G|]. unfold clean_close. apply (good_write (make_frame 8 []) s), G.
Qed.
Lemma good_loop : forall k r s s1 l, good s -> body_loop k r s = Ok (s1, l) -> good s1.
Proof.
  induction k as [|k IH]; intros r s s1 l G H; [discriminate|]. cbn [WebSock.body_loop] in H. destruct r as [|x r]; [injection H as <- _; exact G|].
  destruct (parse (x :: r)) as [[| |op fin p n]| |]; cbn [rbind] in H; try discriminate; [injection H as <- _; exact G|injection H as <- _; apply good_closed, G|]. apply (IH _ _ _ _ (good_frame op fin p s G) H).
Qed.
Lemma good_headers : forall s s1, good s -> on_headers app sha1 s = Ok s1 -> good s1.
Proof.
  intros s s1 G E. unfold on_headers in E. assert (G0 : good (call EvHeaders s)) by (apply good_call; [split; discriminate|exact G]). set (s0 := call EvHeaders s) in *.
  destruct (uri_split (startl s0) [32] 0) as [[|m [|u [|v [|w l]]]]| |]; cbn [rbind] in E; try discriminate; try (injection E as <-; apply good_closed, G0).
  destruct (negb (str_eqb m t_get)); [injection E as <-; apply good_closed, G0|].
  destruct (lowercase (header t_upgrade s0)) as [up| |]; cbn [rbind] in E; try discriminate.
  destruct (negb (str_eqb up t_websocket)); [injection E as <-; apply good_closed, G0|].
  destruct (lowercase (header t_connection s0)) as [cn| |]; cbn [rbind] in E; try discriminate.
  destruct (negb (contains t_upgrade cn) || negb (str_eqb (header t_version s0) t_13) || isnil (header t_key s0)); [injection E as <-; apply good_closed, G0|].
  destruct (base64enc (sha1 (map of_char (header t_key s0 ++ t_guid)))) as [acc| |]; cbn [rbind] in E; try discriminate. injection E as <-. apply good_call; [split; discriminate|]. apply good_write, G0.
Qed.
Lemma good_block : forall s s1, good s -> parse_block app sha1 s = Ok s1 -> good s1.
Proof.
  intros s s1 G E. unfold parse_block in E. cbv zeta in E. destruct (uri_split _ [10] 0) as [[|first r]| |]; cbn [rbind] in E; try discriminate.
  - apply (good_headers (set_heads (startl s) (heads s) s)); [exact G|exact E].
  - destruct (parse_lines r (heads s)) as [[good_ h]| |]; cbn [rbind] in E; try discriminate. destruct good_.
    + apply (good_headers (set_heads first h s)); [exact G|exact E].
    + injection E as <-. apply (good_closed (set_heads first h s)), G.
Qed.
Lemma good_header : forall b s s1 r, good s -> on_header app sha1 b s = Ok (s1, r) -> good s1.
Proof.
  induction b as [|x b IH]; intros s s1 r G E; cbn [on_header] in E; [injection E as <- _; exact G|].
  destruct (x =? 10).
  - destruct (gotnl s).
    + destruct (parse_block app sha1 _) as [s2| |] eqn:P; cbn [rbind] in E; try discriminate. injection E as <- _. apply good_block in P; [exact P|exact G].
    + apply IH in E; [exact E|exact G].
  - apply IH in E; [exact E|exact G].
Qed.
Lemma good_receive : forall b s s1, good s -> receive app sha1 b s = Ok s1 -> good s1.
Proof.
  intros b s s1. unfold receive. generalize 3%nat. intros k. revert b s. induction k as [|k IH]; intros b s G E; cbn [receive_loop] in E; [discriminate|].
  destruct ((st s <? 1) && negb (isnil b)); [|injection E as <-; exact G]. destruct (hdr s).
  - destruct (on_body app b s) as [s2| |] eqn:B; cbn [rbind] in E; try discriminate. apply IH in E; [exact E|]. unfold on_body in B. cbv zeta in B. destruct (body_loop _ (inbuf s ++ b) s) as [[s3 l]| |] eqn:L; cbn [rbind] in B; try discriminate.
    apply good_loop in L; [|exact G]. destruct l; injection B as <-; exact L.
  - destruct (on_header app sha1 b s) as [[s2 r]| |] eqn:B; cbn [rbind] in E; try discriminate. apply IH in E; [exact E|]. apply good_header in B; [exact B|exact G].
Qed.
Lemma good_feed : forall l s s1, good s -> feed app sha1 l s = Ok s1 -> good s1.
Proof.
  induction l as [|b l IH]; intros s s1 G E; cbn [feed] in E; [injection E as <-; exact G|]. destruct (receive app sha1 b s) as [s2| |] eqn:R; cbn [rbind] in E; try discriminate. apply IH in E; [exact E|]. apply good_receive in R; [exact R|exact G].
Qed.
Lemma good_start : good ws0.
Proof. split; split; cbn; try lia; auto. Qed.
End App.

(** Nothing is rejected: the answer is a state or undefined. *)
Definition not_rej {A} (r : res A) : Prop := match r with Rej => False | _ => True end.
Lemma not_rej_bind : forall {A B} (x : res A) (f : A -> res B), not_rej x -> (forall a, not_rej (f a)) -> not_rej (rbind x f).
Proof. intros A B [a| |] f H F; cbn in *; auto. Qed.
Lemma split_not_rej : forall k r seps m rv, not_rej (split_loop k r seps m rv).
Proof. induction k as [|k IH]; intros r seps m rv; cbn [split_loop]; [exact I|]. destruct (negb (wrap64 (m - 1) =? 0) && negb (str_eqb r [])); [|exact I]. destruct (from _ r); [exact I|apply IH]. Qed.
Lemma uri_split_not_rej : forall s seps m, not_rej (uri_split s seps m).
Proof. intros s seps m. unfold uri_split. destruct seps; [exact I|apply split_not_rej]. Qed.
Lemma lower_not_rej : forall s, not_rej (lowercase s).
Proof. induction s as [|x s IH]; cbn [lowercase]; [exact I|]. apply not_rej_bind; [unfold tolower; destruct (x <? -1); exact I|]. intros y. apply not_rej_bind; [exact IH|]. intros r. exact I. Qed.
Lemma sym_not_rej : forall b, not_rej (sym b).
Proof. intros b. unfold sym. destruct (nth_error alphabet (Z.to_nat b)); exact I. Qed.
Lemma base64_not_rej : forall n l, (length l <= n)%nat -> not_rej (base64enc l).
Proof.
  induction n as [|n IH]; intros l L; destruct l as [|x [|y [|z l]]]; cbn [base64enc]; try exact I; cbn [length] in L; try lia;
    repeat (apply not_rej_bind; [first [apply sym_not_rej | apply IH; cbn [length]; lia]|]; intros ?); exact I.
Qed.
Lemma space_not_rej : forall x, not_rej (space x). Proof. intros x. unfold space. destruct (x <? -1); exact I. Qed.
Lemma trim_left_not_rej : forall s, not_rej (trim_left s).
Proof. induction s as [|x s IH]; cbn [trim_left]; [exact I|]. apply not_rej_bind; [apply space_not_rej|]. intros [|]; [exact IH|exact I]. Qed.
Lemma trim_not_rej : forall s, not_rej (trim s).
Proof. intros s. unfold trim. apply not_rej_bind; [apply trim_left_not_rej|]. intros l. apply not_rej_bind; [apply trim_left_not_rej|]. intros r. exact I. Qed.
Lemma token_not_rej : forall s, not_rej (is_token s).
Proof.
  intros s. unfold is_token. apply not_rej_bind; [|intros b; exact I]. induction s as [|x s IH]; cbn [tchars]; [exact I|]. apply not_rej_bind; [|intros [|]; [exact IH|exact I]].
  unfold tchar. destruct (existsb (Z.eqb x) _); [exact I|]. destruct (x <? -1); exact I.
Qed.
Lemma lines_not_rej : forall l h, not_rej (parse_lines l h).
Proof.
  induction l as [|x l IH]; intros h; cbn [parse_lines]; [exact I|]. destruct (isnil x); [apply IH|]. apply not_rej_bind; [apply uri_split_not_rej|]. intros [|n [|v [|w r]]]; try exact I.
  apply not_rej_bind; [apply token_not_rej|]. intros [|]; [|exact I]. apply not_rej_bind; [apply lower_not_rej|]. intros n'. apply not_rej_bind; [apply trim_not_rej|]. intros v'. apply IH.
Qed.
Lemma headers_not_rej : forall app sha1 s, not_rej (on_headers app sha1 s).
Proof.
  intros app sha1 s. unfold on_headers. cbv zeta. apply not_rej_bind; [apply uri_split_not_rej|]. intros [|m [|u [|v [|w l]]]]; try exact I. destruct (negb (str_eqb m t_get)); [exact I|].
  apply not_rej_bind; [apply lower_not_rej|]. intros up. destruct (negb (str_eqb up t_websocket)); [exact I|]. apply not_rej_bind; [apply lower_not_rej|]. intros cn. destruct (_ || _ || _); [exact I|]. apply not_rej_bind; [eapply base64_not_rej; apply le_n|]. intros acc. exact I.
Qed.
Lemma block_not_rej : forall app sha1 s, not_rej (parse_block app sha1 s).
Proof.
  intros app sha1 s. unfold parse_block. cbv zeta. apply not_rej_bind; [apply uri_split_not_rej|]. intros [|l r]; [apply headers_not_rej|]. apply not_rej_bind; [apply lines_not_rej|]. intros [[|] h]; [apply headers_not_rej|exact I].
Qed.
Lemma header_not_rej : forall app sha1 b s, not_rej (on_header app sha1 b s).
Proof.
  intros app sha1. induction b as [|x b IH]; intros s; cbn [on_header]; [exact I|]. destruct (x =? 10); [|apply IH]. destruct (gotnl s); [|apply IH]. apply not_rej_bind; [apply block_not_rej|]. intros s1. exact I.
Qed.
Lemma no_rej : forall app sha1 b s, receive app sha1 b s <> Rej.
Proof.
  intros app sha1 b s E. assert (H : not_rej (receive app sha1 b s)); [|rewrite E in H; exact H]. clear E. unfold receive. generalize 3%nat. intros k. revert b s. induction k as [|k IH]; intros b s; cbn [receive_loop]; [exact I|].
  destruct ((st s <? 1) && negb (isnil b)); [|exact I]. destruct (hdr s).
  - destruct (body_total app sha1 b s) as [s1 ->]. cbn [rbind]. apply IH.
  - apply not_rej_bind; [apply header_not_rej|]. intros [s1 r]. apply IH.
Qed.
