(** What onInput makes of a sequence of bytes. *)
From Verif Require Import Base BaseFacts WebSock WebSockSpec WebSockProofs.
Open Scope res_scope.

Lemma big_2 : forall l, bytes_ok l -> 0 <= big l.
Proof.
  intros l B. unfold big. assert (H : forall a, 0 <= a -> 0 <= fold_left (fun a x => a * 256 + x) l a); [|apply H; lia].
  induction B as [|x l X B IH]; intros a A; cbn [fold_left]; [exact A|]. apply IH. unfold is_byte in X. lia.
Qed.
Definition keylen (m : bool) : Z := if m then 4 else 0.
Lemma parse_head : forall (fin m : bool) rsv op n l X, 0 <= rsv <= 7 -> 0 <= op <= 15 -> length_field (if m then 1 else 0) n l ->
  let b := [(if fin then 128 else 0) + rsv * 16 + op] ++ l ++ X in
  parse b = if zlen b <? 1 + zlen l + keylen m then Ok More
            else if WS_MAX_FRAME <? n then Ok TooBig
            else if zlen b <? 1 + zlen l + keylen m + n then Ok More
            else if m then mask <- be_read wrap32 4 b (1 + zlen l) 0;; p <- unmask (Z.to_nat n) b (1 + zlen l + 4) mask 24;; Ok (Frame op fin p (1 + zlen l + keylen m + n))
            else p <- copy (Z.to_nat n) b (1 + zlen l);; Ok (Frame op fin p (1 + zlen l + keylen m + n)).
Proof.
  intros fin m rsv op n l X R O F b. destruct (first_join fin rsv op R O) as [E1 E2].
  set (b0 := (if fin then 128 else 0) + rsv * 16 + op) in *.
  assert (G : forall len7 r, 0 <= len7 <= 127 -> l = (if m then 1 else 0) * 128 + len7 :: r ->
    parse b = (let needed := 2 + (if m then 4 else 0) + (if len7 =? 126 then 2 else if len7 =? 127 then 8 else 0) in
      if zlen b <? needed then Ok More else
      ' (len, cur) <- (if len7 =? 126 then l <- be_read wrap64 2 b 2 0;; Ok (l, 4) else if len7 =? 127 then l <- be_read wrap64 8 b 2 0;; Ok (l, 10) else Ok (len7, 2));;
      if WS_MAX_FRAME <? len then Ok TooBig else
      if zlen b <? needed + len then Ok More else
      if m then mask <- be_read wrap32 4 b cur 0;; p <- unmask (Z.to_nat len) b (cur + 4) mask 24;; Ok (Frame op fin p (needed + len))
      else p <- copy (Z.to_nat len) b cur;; Ok (Frame op fin p (needed + len)))).
  { intros len7 r L7 El. destruct (second_join m len7 L7) as [E3 E4]. unfold parse.
    assert (Z2 : zlen b = 2 + zlen (r ++ X)) by (unfold b; rewrite El; unfold zlen; cbn [app length]; lia).
    replace (zlen b <? 2) with false by (pose proof (zlen_nonneg _ (r ++ X)); lia).
    replace (rd b 0) with (Ok b0) by (unfold b; rewrite El; symmetry; apply (rd_app [])).
    replace (rd b 1) with (Ok ((if m then 1 else 0) * 128 + len7)) by (unfold b; rewrite El; symmetry; apply (rd_app [b0])).
    cbn [rbind]. rewrite E1, E2, E3, E4. reflexivity. }
  pose proof (zlen_nonneg _ X) as ZX.
  destruct F as [N|r B L Eb|r B L Eb].
  - rewrite (G n []) by (try lia; reflexivity). cbv zeta. replace (n =? 126) with false by lia. replace (n =? 127) with false by lia. cbn [rbind].
    unfold keylen. change (zlen [(if m then 1 else 0) * 128 + n]) with 1. replace (WS_MAX_FRAME <? n) with false by (unfold WS_MAX_FRAME; lia).
    destruct m; reflexivity.
  - rewrite (G 126 r) by (try lia; reflexivity). cbv zeta. cbn [Z.eqb Pos.eqb]. unfold keylen.
    replace (zlen ((if m then 1 else 0) * 128 + 126 :: r)) with 3 by (unfold zlen; cbn [length]; lia).
    assert (BR : be_read wrap64 2 b 2 0 = Ok n). { rewrite <- L, <- Eb. unfold b. change ([b0] ++ ((if m then 1 else 0) * 128 + 126 :: r) ++ X) with ([b0; (if m then 1 else 0) * 128 + 126] ++ r ++ X). apply (be_read64 r [b0; (if m then 1 else 0) * 128 + 126] X B). lia. }
    rewrite BR. cbn [rbind]. destruct m; reflexivity.
  - rewrite (G 127 r) by (try lia; reflexivity). cbv zeta. cbn [Z.eqb Pos.eqb]. unfold keylen.
    replace (zlen ((if m then 1 else 0) * 128 + 127 :: r)) with 9 by (unfold zlen; cbn [length]; lia).
    assert (BR : be_read wrap64 8 b 2 0 = Ok n). { rewrite <- L, <- Eb. unfold b. change ([b0] ++ ((if m then 1 else 0) * 128 + 127 :: r) ++ X) with ([b0; (if m then 1 else 0) * 128 + 127] ++ r ++ X). apply (be_read64 r [b0; (if m then 1 else 0) * 128 + 127] X B). lia. }
    rewrite BR. cbn [rbind]. destruct m; reflexivity.
Qed.

(** A whole frame is read as what it is, whatever follows. *)
Lemma parse_frame : forall f b t, frame_ok f -> encodes f b -> zlen (f_payload f) <= WS_MAX_FRAME ->
  parse (b ++ t) = Ok (Frame (f_op f) (f_fin f) (f_payload f) (zlen b)).
Proof.
  intros f b t (R & O & P) E Z. destruct E as [l K F|l k d K Bk Lk F Ld N].
  - change (([(if f_fin f then 128 else 0) + f_rsv f * 16 + f_op f] ++ l ++ f_payload f) ++ t) with ([(if f_fin f then 128 else 0) + f_rsv f * 16 + f_op f] ++ (l ++ f_payload f) ++ t). rewrite <- app_assoc.
    pose proof (parse_head (f_fin f) false (f_rsv f) (f_op f) _ l (f_payload f ++ t) R O F) as H. cbv zeta in H. rewrite H.
    set (b0 := (if f_fin f then 128 else 0) + f_rsv f * 16 + f_op f) in *. unfold keylen.
    assert (ZZ : zlen ([b0] ++ l ++ f_payload f ++ t) = 1 + zlen l + zlen (f_payload f) + zlen t) by (rewrite !zlen_app; change (zlen [b0]) with 1; lia).
    pose proof (zlen_nonneg _ (f_payload f)). pose proof (zlen_nonneg _ t). rewrite ZZ.
    replace (1 + zlen l + zlen (f_payload f) + zlen t <? 1 + zlen l + 0) with false by lia.
    replace (WS_MAX_FRAME <? zlen (f_payload f)) with false by lia.
    replace (1 + zlen l + zlen (f_payload f) + zlen t <? 1 + zlen l + 0 + zlen (f_payload f)) with false by lia.
    replace (Z.to_nat (zlen (f_payload f))) with (length (f_payload f)) by (unfold zlen; lia).
    rewrite app_assoc. replace (1 + zlen l) with (zlen ([b0] ++ l)) at 1 by (rewrite zlen_app; reflexivity). rewrite copy_app. cbn [rbind].
    do 2 f_equal. rewrite !zlen_app. change (zlen [b0]) with 1. lia.
  - change (([(if f_fin f then 128 else 0) + f_rsv f * 16 + f_op f] ++ l ++ k ++ d) ++ t) with ([(if f_fin f then 128 else 0) + f_rsv f * 16 + f_op f] ++ (l ++ k ++ d) ++ t). rewrite <- !app_assoc.
    pose proof (parse_head (f_fin f) true (f_rsv f) (f_op f) _ l (k ++ d ++ t) R O F) as H. cbv zeta in H. rewrite H.
    set (b0 := (if f_fin f then 128 else 0) + f_rsv f * 16 + f_op f) in *. unfold keylen.
    assert (Zk : zlen k = 4) by (unfold zlen; lia). assert (Zd : zlen d = zlen (f_payload f)) by (unfold zlen; lia).
    assert (ZZ : zlen ([b0] ++ l ++ k ++ d ++ t) = 1 + zlen l + 4 + zlen (f_payload f) + zlen t) by (rewrite !zlen_app; change (zlen [b0]) with 1; lia).
    pose proof (zlen_nonneg _ (f_payload f)). pose proof (zlen_nonneg _ t). rewrite ZZ.
    replace (1 + zlen l + 4 + zlen (f_payload f) + zlen t <? 1 + zlen l + 4) with false by lia.
    replace (WS_MAX_FRAME <? zlen (f_payload f)) with false by lia.
    replace (1 + zlen l + 4 + zlen (f_payload f) + zlen t <? 1 + zlen l + 4 + zlen (f_payload f)) with false by lia.
    replace (Z.to_nat (zlen (f_payload f))) with (length (f_payload f)) by (unfold zlen; lia).
    replace (be_read wrap32 4 ([b0] ++ l ++ k ++ d ++ t) (1 + zlen l) 0) with (Ok (big k)).
    2: { symmetry. rewrite app_assoc. replace (1 + zlen l) with (zlen ([b0] ++ l)) by (rewrite zlen_app; reflexivity). apply be_read32; assumption. }
    cbn [rbind].
    replace (unmask (length (f_payload f)) ([b0] ++ l ++ k ++ d ++ t) (1 + zlen l + 4) (big k) 24) with (Ok (f_payload f)).
    2: { symmetry. rewrite app_assoc, app_assoc. replace (1 + zlen l + 4) with (zlen (([b0] ++ l) ++ k)) by (rewrite !zlen_app; change (zlen [b0]) with 1; lia). apply unmask_masked; assumption. }
    cbn [rbind]. do 2 f_equal. rewrite !zlen_app. change (zlen [b0]) with 1. lia.
Qed.
(** A frame that is too long is found out. *)
Lemma parse_too_big : forall f b t, frame_ok f -> encodes f b -> WS_MAX_FRAME < zlen (f_payload f) -> parse (b ++ t) = Ok TooBig.
Proof.
  intros f b t (R & O & P) E Z. pose proof (zlen_nonneg _ t). destruct E as [l K F|l k d K Bk Lk F Ld N].
  - change (([(if f_fin f then 128 else 0) + f_rsv f * 16 + f_op f] ++ l ++ f_payload f) ++ t) with ([(if f_fin f then 128 else 0) + f_rsv f * 16 + f_op f] ++ (l ++ f_payload f) ++ t). rewrite <- app_assoc.
    pose proof (parse_head (f_fin f) false (f_rsv f) (f_op f) _ l (f_payload f ++ t) R O F) as H'. cbv zeta in H'. rewrite H'. unfold keylen, WS_MAX_FRAME in *.
    rewrite !zlen_app. change (zlen [(if f_fin f then 128 else 0) + f_rsv f * 16 + f_op f]) with 1.
    replace (1 + (zlen l + (zlen (f_payload f) + zlen t)) <? 1 + zlen l + 0) with false by lia. replace (16777216 <? zlen (f_payload f)) with true by lia. reflexivity.
  - change (([(if f_fin f then 128 else 0) + f_rsv f * 16 + f_op f] ++ l ++ k ++ d) ++ t) with ([(if f_fin f then 128 else 0) + f_rsv f * 16 + f_op f] ++ (l ++ k ++ d) ++ t). rewrite <- !app_assoc.
    pose proof (parse_head (f_fin f) true (f_rsv f) (f_op f) _ l (k ++ d ++ t) R O F) as H'. cbv zeta in H'. rewrite H'. unfold keylen, WS_MAX_FRAME in *.
    assert (Zk : zlen k = 4) by (unfold zlen; lia). pose proof (zlen_nonneg _ d).
    rewrite !zlen_app. change (zlen [(if f_fin f then 128 else 0) + f_rsv f * 16 + f_op f]) with 1.
    replace (1 + (zlen l + (zlen k + (zlen d + zlen t))) <? 1 + zlen l + 4) with false by lia. replace (16777216 <? zlen (f_payload f)) with true by lia. reflexivity.
Qed.

(** What has been read stays as it is when more bytes come. *)
Lemma rd_more : forall b y i x, rd b i = Ok x -> rd (b ++ y) i = Ok x.
Proof.
  intros b y i x H. unfold rd in *. rewrite zlen_app. pose proof (zlen_nonneg _ y). destruct ((0 <=? i) && (i <? zlen b)) eqn:E; [|discriminate].
  replace ((0 <=? i) && (i <? zlen b + zlen y)) with true by lia. rewrite app_nth1 by (unfold zlen in *; lia). exact H.
Qed.
Lemma be_read_more : forall w n b y i acc x, be_read w n b i acc = Ok x -> be_read w n (b ++ y) i acc = Ok x.
Proof.
  intros w. induction n as [|n IH]; intros b y i acc x H; cbn [be_read] in *; [exact H|]. destruct (rd b i) as [v| |] eqn:E; try discriminate. cbn [rbind] in H.
  rewrite (rd_more _ y _ _ E). cbn [rbind]. apply IH, H.
Qed.
Lemma unmask_more : forall n b y i m s x, unmask n b i m s = Ok x -> unmask n (b ++ y) i m s = Ok x.
Proof.
  induction n as [|n IH]; intros b y i m s x H; cbn [unmask] in *; [exact H|]. destruct (rd b i) as [v| |] eqn:E; try discriminate. cbn [rbind] in *.
  rewrite (rd_more _ y _ _ E). cbn [rbind]. destruct (unmask n b (i + 1) m _) as [r| |] eqn:U; try discriminate. rewrite (IH _ y _ _ _ _ U). exact H.
Qed.
Lemma copy_more : forall n b y i x, copy n b i = Ok x -> copy n (b ++ y) i = Ok x.
Proof.
  induction n as [|n IH]; intros b y i x H; cbn [copy] in *; [exact H|]. destruct (rd b i) as [v| |] eqn:E; try discriminate. cbn [rbind] in *.
  rewrite (rd_more _ y _ _ E). cbn [rbind]. destruct (copy n b (i + 1)) as [r| |] eqn:U; try discriminate. rewrite (IH _ y _ _ U). exact H.
Qed.
Lemma parse_more : forall b y i, parse b = Ok i -> i <> More -> parse (b ++ y) = Ok i.
Proof.
  intros b y i H N. unfold parse in *. rewrite zlen_app. pose proof (zlen_nonneg _ y).
  destruct (zlen b <? 2) eqn:E2; [congruence|]. replace (zlen b + zlen y <? 2) with false by lia.
  destruct (rd b 0) as [b0| |] eqn:R0; try discriminate. destruct (rd b 1) as [b1| |] eqn:R1; try discriminate. rewrite (rd_more _ y _ _ R0), (rd_more _ y _ _ R1). cbn [rbind] in *. cbv zeta in *.
  set (nd := 2 + (if negb (Z.land b1 128 =? 0) then 4 else 0) + (if Z.land b1 127 =? 126 then 2 else if Z.land b1 127 =? 127 then 8 else 0)) in *.
  destruct (zlen b <? nd) eqn:E3; [congruence|]. replace (zlen b + zlen y <? nd) with false by lia.
  match type of H with rbind ?u _ = _ => destruct u as [[len cur]| |] eqn:U end; try discriminate.
  match goal with |- rbind ?u' _ = _ => assert (U' : u' = Ok (len, cur)) end.
  { destruct (Z.land b1 127 =? 126); [|destruct (Z.land b1 127 =? 127)]; [| |exact U].
    - destruct (be_read wrap64 2 b 2 0) as [v| |] eqn:V; try discriminate. rewrite (be_read_more _ _ _ y _ _ _ V). exact U.
    - destruct (be_read wrap64 8 b 2 0) as [v| |] eqn:V; try discriminate. rewrite (be_read_more _ _ _ y _ _ _ V). exact U. }
  rewrite U'. cbn [rbind] in *. destruct (WS_MAX_FRAME <? len); [exact H|]. destruct (zlen b <? nd + len) eqn:E4; [congruence|]. replace (zlen b + zlen y <? nd + len) with false by lia.
  destruct (negb (Z.land b1 128 =? 0)).
  - destruct (be_read wrap32 4 b cur 0) as [v| |] eqn:V; try discriminate. rewrite (be_read_more _ _ _ y _ _ _ V). cbn [rbind] in *.
    destruct (unmask (Z.to_nat len) b (cur + 4) v 24) as [p| |] eqn:P; try discriminate. rewrite (unmask_more _ _ y _ _ _ _ P). exact H.
  - destruct (copy (Z.to_nat len) b cur) as [p| |] eqn:P; try discriminate. rewrite (copy_more _ _ y _ _ P). exact H.
Qed.
(** what is consumed is there *)
Lemma parse_needed : forall b op fin p n, parse b = Ok (Frame op fin p n) -> n <= zlen b.
Proof.
  intros b op fin p n H. unfold parse in H. destruct (zlen b <? 2); [discriminate|].
  destruct (rd b 0) as [b0| |]; try discriminate. destruct (rd b 1) as [b1| |]; try discriminate. cbn [rbind] in H. cbv zeta in H.
  set (nd := 2 + (if negb (Z.land b1 128 =? 0) then 4 else 0) + (if Z.land b1 127 =? 126 then 2 else if Z.land b1 127 =? 127 then 8 else 0)) in *.
  destruct (zlen b <? nd); [discriminate|]. match type of H with rbind ?u _ = _ => destruct u as [[len cur]| |] eqn:U end; try discriminate. cbn [rbind] in H.
  destruct (WS_MAX_FRAME <? len); [discriminate|]. destruct (zlen b <? nd + len) eqn:E4; [discriminate|].
  destruct (negb (Z.land b1 128 =? 0)).
  - destruct (be_read wrap32 4 b cur 0) as [v| |]; try discriminate. cbn [rbind] in H. destruct (unmask (Z.to_nat len) b (cur + 4) v 24) as [q| |]; try discriminate. cbn [rbind] in H. injection H as _ _ _ <-. lia.
  - destruct (copy (Z.to_nat len) b cur) as [q| |]; try discriminate. cbn [rbind] in H. injection H as _ _ _ <-. lia.
Qed.

(** Nothing is read outside the buffer. *)
Lemma be_read_in : forall w n b i acc, 0 <= i -> i + Z.of_nat n <= zlen b -> exists x, be_read w n b i acc = Ok x.
Proof. intros w. induction n as [|n IH]; intros b i acc I H; cbn [be_read]; [eexists; reflexivity|]. rewrite rd_ok by lia. cbn [rbind]. apply IH; lia. Qed.
Lemma unmask_in : forall n b i m s, 0 <= i -> i + Z.of_nat n <= zlen b -> exists x, unmask n b i m s = Ok x.
Proof. induction n as [|n IH]; intros b i m s I H; cbn [unmask]; [eexists; reflexivity|]. rewrite rd_ok by lia. cbn [rbind]. destruct (IH b (i + 1) m (if s - 8 <? 0 then 24 else s - 8)) as [x ->]; try lia. eexists; reflexivity. Qed.
Lemma copy_in : forall n b i, 0 <= i -> i + Z.of_nat n <= zlen b -> exists x, copy n b i = Ok x.
Proof. induction n as [|n IH]; intros b i I H; cbn [copy]; [eexists; reflexivity|]. rewrite rd_ok by lia. cbn [rbind]. destruct (IH b (i + 1)) as [x ->]; try lia. eexists; reflexivity. Qed.
Lemma parse_total : forall b, exists i, parse b = Ok i.
Proof.
  intros b. unfold parse. destruct (zlen b <? 2) eqn:E2; [eexists; reflexivity|]. rewrite !rd_ok by lia. cbn [rbind]. cbv zeta.
  set (b1 := nth (Z.to_nat 1) b 0). set (hm := negb (Z.land b1 128 =? 0)).
  set (nd := 2 + (if hm then 4 else 0) + (if Z.land b1 127 =? 126 then 2 else if Z.land b1 127 =? 127 then 8 else 0)) in *.
  destruct (zlen b <? nd) eqn:E3; [eexists; reflexivity|].
  match goal with |- exists i, rbind ?u _ = _ => assert (U : exists len cur, u = Ok (len, cur) /\ 2 <= cur /\ nd = cur + (if hm then 4 else 0)) end.
  { unfold nd in *. destruct (Z.land b1 127 =? 126); [|destruct (Z.land b1 127 =? 127)].
    - destruct (be_read_in wrap64 2 b 2 0) as [x ->]; [lia|destruct hm; lia|]. exists x, 4. split; [reflexivity|lia].
    - destruct (be_read_in wrap64 8 b 2 0) as [x ->]; [lia|destruct hm; lia|]. exists x, 10. split; [reflexivity|lia].
    - eexists. eexists. split; [reflexivity|lia]. }
  destruct U as (len & cur & -> & C & D). cbn [rbind]. destruct (WS_MAX_FRAME <? len); [eexists; reflexivity|].
  destruct (zlen b <? nd + len) eqn:E4; [eexists; reflexivity|]. rewrite D in *. destruct hm.
  - destruct (be_read_in wrap32 4 b cur 0) as [x ->]; try lia. cbn [rbind].
    destruct (unmask_in (Z.to_nat len) b (cur + 4) x 24) as [p ->]; try lia. eexists; reflexivity.
  - destruct (copy_in (Z.to_nat len) b cur) as [p ->]; try lia. eexists; reflexivity.
Qed.

(** Whatever the bytes are, a frame begins with them or they begin with a frame. *)
Definition xor_ok (t : Z * Z) : bool := let '(a, b) := t in (0 <=? Z.lxor a b) && (Z.lxor a b <? 256).
Lemma xor_all : forallb xor_ok (list_prod (map Z.of_nat (seq 0 256)) (map Z.of_nat (seq 0 256))) = true.
Proof. vm_compute. reflexivity. Qed.
Lemma xor_byte : forall a b, is_byte a -> is_byte b -> is_byte (Z.lxor a b).
Proof.
  unfold is_byte. intros a b A B. pose proof xor_all as H. rewrite forallb_forall in H. specialize (H (a, b)).
  assert (I : In (a, b) (list_prod (map Z.of_nat (seq 0 256)) (map Z.of_nat (seq 0 256)))).
  { apply in_prod; apply in_map_iff; [exists (Z.to_nat a)|exists (Z.to_nat b)]; (split; [lia|apply in_seq; lia]). }
  specialize (H I). unfold xor_ok in H. lia.
Qed.
Lemma bytes_nth : forall l, bytes_ok l <-> forall i, (i < length l)%nat -> is_byte (nth i l 0).
Proof.
  intros l. unfold bytes_ok. rewrite Forall_forall. split.
  - intros H i I. apply H, nth_In, I.
  - intros H x X. destruct (In_nth _ _ 0 X) as (i & I & <-). apply H, I.
Qed.
Lemma big_bound : forall l, bytes_ok l -> 0 <= big l < 256 ^ zlen l.
Proof.
  intros l B. unfold big. assert (H : forall l a, bytes_ok l -> 0 <= a -> a * 256 ^ zlen l <= fold_left (fun a x => a * 256 + x) l a < (a + 1) * 256 ^ zlen l).
  2: { specialize (H l 0 B). lia. }
  clear. induction l as [|x l IH]; intros a B A; [cbn; lia|]. inversion B as [|? ? X B']; subst. unfold is_byte in X. cbn [fold_left].
  specialize (IH (a * 256 + x) B'). replace (zlen (x :: l)) with (Z.succ (zlen l)) by (unfold zlen; cbn [length]; lia). rewrite Z.pow_succ_r by apply zlen_nonneg.
  assert (0 < 256 ^ zlen l) by (apply Z.pow_pos_nonneg; [lia|apply zlen_nonneg]). nia.
Qed.
Lemma take : forall (b : list Z) n, 0 <= n <= zlen b -> exists p q, b = p ++ q /\ zlen p = n /\ length p = Z.to_nat n.
Proof.
  intros b n H. exists (firstn (Z.to_nat n) b), (skipn (Z.to_nat n) b). rewrite firstn_skipn. split; [reflexivity|].
  assert (length (firstn (Z.to_nat n) b) = Z.to_nat n) by (rewrite firstn_length; unfold zlen in H; lia). split; [unfold zlen; lia|assumption].
Qed.
Lemma long_frame : forall b, bytes_ok b -> 14 + 256 ^ 8 <= zlen b -> exists f bs t, frame_ok f /\ encodes f bs /\ b = bs ++ t.
Proof.
  intros b B H. destruct b as [|b0 [|b1 r]]; try (change (zlen (A := Z) []) with 0 in H; lia). { change (zlen [b0]) with 1 in H. lia. }
  inversion B as [|? ? B0 B']; subst. inversion B' as [|? ? B1 Br]; subst. clear B B'.
  destruct (byte_split b0 B0) as (S0 & _ & R7 & O15 & _). destruct (byte_split b1 B1) as (_ & S1 & _ & _ & L7).
  set (fin := negb (Z.land b0 128 =? 0)) in *. set (rsv := Z.land (Z.shiftr b0 4) 7) in *. set (op := Z.land b0 15) in *. set (m := negb (Z.land b1 128 =? 0)) in *. set (l7 := Z.land b1 127) in *.
  replace (zlen (b0 :: b1 :: r)) with (2 + zlen r) in H by (unfold zlen; cbn [length]; lia).
  assert (LF : exists l n q, length_field (if m then 1 else 0) n (b1 :: l) /\ r = l ++ q /\ 0 <= n < 256 ^ 8 /\ 4 + 256 ^ 8 <= zlen q).
  { destruct (Z.eq_dec l7 126) as [E|N6]; [|destruct (Z.eq_dec l7 127) as [E|N7]].
    - destruct (take r 2) as (p & q & -> & Zp & Lp); [lia|]. apply bytes_ok_app in Br. destruct Br as [Bp Bq]. rewrite zlen_app in H. exists p, (big p), q. split; [|split; [reflexivity|]].
      + rewrite S1, E. apply len_16; [assumption|lia|reflexivity].
      + pose proof (big_bound p Bp) as Q. rewrite Zp in Q. split; [|lia]. assert (256 ^ 2 <= 256 ^ 8) by (apply Z.pow_le_mono_r; lia). lia.
    - destruct (take r 8) as (p & q & -> & Zp & Lp); [lia|]. apply bytes_ok_app in Br. destruct Br as [Bp Bq]. rewrite zlen_app in H. exists p, (big p), q. split; [|split; [reflexivity|]].
      + rewrite S1, E. apply len_64; [assumption|lia|reflexivity].
      + pose proof (big_bound p Bp) as Q. rewrite Zp in Q. lia.
    - exists [], l7, r. split; [rewrite S1; apply len_7; lia|]. split; [reflexivity|]. lia. }
  destruct LF as (l & n & q & LF & -> & Hn & Hq). apply bytes_ok_app in Br. destruct Br as [Bl Bq].
  destruct m.
  - destruct (take q 4) as (k & q1 & -> & Zk & Lk); [lia|]. apply bytes_ok_app in Bq. destruct Bq as [Bk Bq]. rewrite zlen_app in Hq.
    destruct (take q1 n) as (d & q2 & -> & Zd & Ld); [lia|]. apply bytes_ok_app in Bq. destruct Bq as [Bd Bq].
    destruct (unmask_app k Bk ltac:(lia) d [] [] 0 ltac:(lia)) as (p & _ & Lp & Np).
    assert (Bp : bytes_ok p). { apply bytes_nth. intros i I. rewrite Np by lia. apply xor_byte; [apply bytes_nth; [exact Bd|lia]|apply bytes_nth; [exact Bk|]]. rewrite Lk. apply Nat.mod_upper_bound. lia. }
    exists (mkFrame fin rsv op (Some k) p), ([b0] ++ (b1 :: l) ++ k ++ d), q2. split; [split; [exact R7|split; [exact O15|exact Bp]]|]. split.
    + rewrite S0. apply (enc_masked (mkFrame fin rsv op (Some k) p) (b1 :: l) k d); cbn [f_key f_payload f_fin f_rsv f_op]; auto; [|intros i I; rewrite Np by lia; rewrite Nat.add_0_r, lxor_back; reflexivity].
      replace (zlen p) with n by (unfold zlen in *; lia). exact LF.
    + cbn [app]. rewrite <- !app_assoc. reflexivity.
  - destruct (take q n) as (p & q2 & -> & Zp & Lp); [lia|]. apply bytes_ok_app in Bq. destruct Bq as [Bp Bq].
    exists (mkFrame fin rsv op None p), ([b0] ++ (b1 :: l) ++ p), q2. split; [split; [exact R7|split; [exact O15|exact Bp]]|]. split.
    + rewrite S0. apply (enc_plain (mkFrame fin rsv op None p) (b1 :: l)); cbn [f_key f_payload]; auto. rewrite Zp. exact LF.
    + cbn [app]. rewrite <- !app_assoc. reflexivity.
Qed.
Lemma some_frame : forall b, bytes_ok b -> exists f bs y t, frame_ok f /\ encodes f bs /\ b ++ y = bs ++ t /\ (y = [] \/ t = []).
Proof.
  intros b B. assert (N : exists n, 14 + 256 ^ 8 <= Z.of_nat n) by (exists (Z.to_nat (14 + 256 ^ 8)); lia). destruct N as [n N].
  destruct (long_frame (b ++ repeat 0 n)) as (f & bs & t & F & E & Q).
  - apply bytes_ok_app. split; [exact B|]. apply Forall_forall. intros x X. apply repeat_spec in X. subst x. unfold is_byte. lia.
  - rewrite zlen_app. replace (zlen (repeat 0 n)) with (Z.of_nat n) by (unfold zlen; rewrite repeat_length; reflexivity). pose proof (zlen_nonneg _ b). lia.
  - exists f, bs. destruct (le_ge_dec (length bs) (length b)) as [L|L].
    + exists [], (skipn (length bs) b). split; [exact F|]. split; [exact E|]. split; [|auto]. rewrite app_nil_r.
      assert (H : firstn (length bs) (b ++ repeat 0 n) = bs) by (rewrite Q, firstn_app, Nat.sub_diag, firstn_all, firstn_O, app_nil_r; reflexivity).
      rewrite firstn_app in H. replace (length bs - length b)%nat with 0%nat in H by lia. rewrite firstn_O, app_nil_r in H. rewrite <- H at 1. symmetry. apply firstn_skipn.
    + exists (skipn (length b) bs), []. split; [exact F|]. split; [exact E|]. split; [|auto]. rewrite app_nil_r.
      assert (H : firstn (length b) (bs ++ t) = b) by (rewrite <- Q, firstn_app, Nat.sub_diag, firstn_all, firstn_O, app_nil_r; reflexivity).
      rewrite firstn_app in H. replace (length b - length bs)%nat with 0%nat in H by lia. rewrite firstn_O, app_nil_r in H. rewrite <- H at 1. apply firstn_skipn.
Qed.

(** What onInput answers, for all bytes *)
Lemma parse_spec : forall b, bytes_ok b ->
  (exists f bs t, frame_ok f /\ encodes f bs /\ zlen (f_payload f) <= WS_MAX_FRAME /\ b = bs ++ t /\ parse b = Ok (Frame (f_op f) (f_fin f) (f_payload f) (zlen bs)))
  \/ (parse b = Ok More /\ exists f y, y <> [] /\ frame_ok f /\ encodes f (b ++ y))
  \/ (parse b = Ok TooBig /\ (exists f bs y t, frame_ok f /\ encodes f bs /\ b ++ y = bs ++ t) /\
      forall f bs y t, frame_ok f -> encodes f bs -> b ++ y = bs ++ t -> WS_MAX_FRAME < zlen (f_payload f)).
Proof.
  intros b B. destruct (some_frame b B) as (f & bs & y & t & F & E & Q & C).
  assert (TB : parse b = Ok TooBig -> forall f bs y t, frame_ok f -> encodes f bs -> b ++ y = bs ++ t -> WS_MAX_FRAME < zlen (f_payload f)).
  { intros P f' bs' y' t' F' E' Q'. destruct (Z_lt_le_dec WS_MAX_FRAME (zlen (f_payload f'))) as [|L]; [assumption|]. pose proof (parse_frame f' bs' t' F' E' L) as P'. rewrite <- Q' in P'.
    rewrite (parse_more b y' TooBig P) in P' by discriminate. discriminate. }
  destruct (Z_lt_le_dec WS_MAX_FRAME (zlen (f_payload f))) as [G|L].
  - pose proof (parse_too_big f bs t F E G) as P. rewrite <- Q in P. destruct (parse_total b) as [i Pi]. destruct i as [| |op fin p n].
    + right. left. split; [exact Pi|]. exists f, y. split; [|split; [exact F|]].
      * intros ->. rewrite app_nil_r in P. congruence.
      * destruct C as [->| ->]; [rewrite app_nil_r in P; congruence|]. rewrite Q, app_nil_r. exact E.
    + right. right. split; [exact Pi|]. split; [exists f, bs, y, t; auto|exact (TB Pi)].
    + rewrite (parse_more b y _ Pi) in P by discriminate. discriminate.
  - pose proof (parse_frame f bs t F E L) as P. rewrite <- Q in P. destruct y as [|y0 y].
    + rewrite app_nil_r in *. left. exists f, bs, t. auto 6.
    + destruct C as [C| ->]; [discriminate|]. rewrite app_nil_r in Q. destruct (parse_total b) as [i Pi]. destruct i as [| |op fin p n].
      * right. left. split; [exact Pi|]. exists f, (y0 :: y). split; [discriminate|]. rewrite Q. auto.
      * rewrite (parse_more b (y0 :: y) _ Pi) in P by discriminate. discriminate.
      * pose proof (parse_needed _ _ _ _ _ Pi) as H. rewrite (parse_more b (y0 :: y) _ Pi) in P by discriminate. injection P as _ _ _ ->. rewrite <- Q, zlen_app in H. unfold zlen in H. cbn [length] in H. lia.
Qed.
(** part of a frame is not taken for a whole one *)
Lemma parse_part : forall f b y, frame_ok f -> encodes f (b ++ y) -> y <> [] -> zlen (f_payload f) <= WS_MAX_FRAME -> parse b = Ok More.
Proof.
  intros f b y F E Y L. pose proof (parse_frame f (b ++ y) [] F E L) as P. rewrite app_nil_r in P. destruct (parse_total b) as [[| |op fin p n] Pi]; [exact Pi| |].
  - rewrite (parse_more b y _ Pi) in P by discriminate. discriminate.
  - pose proof (parse_needed _ _ _ _ _ Pi) as H. rewrite (parse_more b y _ Pi) in P by discriminate. injection P as _ _ _ ->. rewrite zlen_app in H. destruct y; [congruence|]. unfold zlen in H. cbn [length] in H. lia.
Qed.
Lemma encodes_long : forall f b, encodes f b -> 2 <= zlen b.
Proof. intros f b E. destruct E as [l K F|l k d K Bk Lk F Ld N]; rewrite !zlen_app; destruct F; unfold zlen; cbn [length]; lia. Qed.

(** the same without knowing that they are bytes: progress *)
Lemma be_read_nonneg : forall n b i acc x, 0 <= acc -> be_read wrap64 n b i acc = Ok x -> 0 <= x.
Proof.
  induction n as [|n IH]; intros b i acc x A H; cbn [be_read] in H; [injection H as <-; exact A|]. destruct (rd b i) as [v| |]; try discriminate. cbn [rbind] in H.
  apply IH in H; [exact H|]. unfold wrap64. apply Z.mod_pos_bound. lia.
Qed.
Lemma parse_progress : forall b op fin p n, parse b = Ok (Frame op fin p n) -> 2 <= n.
Proof.
  intros b op fin p n H. unfold parse in H. destruct (zlen b <? 2); [discriminate|].
  destruct (rd b 0) as [b0| |]; try discriminate. destruct (rd b 1) as [b1| |]; try discriminate. cbn [rbind] in H. cbv zeta in H.
  set (nd := 2 + (if negb (Z.land b1 128 =? 0) then 4 else 0) + (if Z.land b1 127 =? 126 then 2 else if Z.land b1 127 =? 127 then 8 else 0)) in *.
  assert (ND : 2 <= nd) by (unfold nd; destruct (negb (Z.land b1 128 =? 0)); destruct (Z.land b1 127 =? 126); destruct (Z.land b1 127 =? 127); lia).
  destruct (zlen b <? nd); [discriminate|]. match type of H with rbind ?u _ = _ => destruct u as [[len cur]| |] eqn:U end; try discriminate. cbn [rbind] in H.
  assert (L0 : 0 <= len).
  { destruct (Z.land b1 127 =? 126); [|destruct (Z.land b1 127 =? 127)].
    - destruct (be_read wrap64 2 b 2 0) as [v| |] eqn:V; try discriminate. cbn [rbind] in U. injection U as <- _. apply be_read_nonneg in V; lia.
    - destruct (be_read wrap64 8 b 2 0) as [v| |] eqn:V; try discriminate. cbn [rbind] in U. injection U as <- _. apply be_read_nonneg in V; lia.
    - injection U as <- _. apply Z.land_nonneg. lia. }
  destruct (WS_MAX_FRAME <? len); [discriminate|]. destruct (zlen b <? nd + len) eqn:E4; [discriminate|].
  destruct (negb (Z.land b1 128 =? 0)).
  - destruct (be_read wrap32 4 b cur 0) as [v| |]; try discriminate. cbn [rbind] in H. destruct (unmask (Z.to_nat len) b (cur + 4) v 24) as [q| |]; try discriminate. cbn [rbind] in H. injection H as _ _ _ <-. lia.
  - destruct (copy (Z.to_nat len) b cur) as [q| |]; try discriminate. cbn [rbind] in H. injection H as _ _ _ <-. lia.
Qed.

(** writeFrame *)
Lemma byte_at : forall len k, 0 <= k -> Z.land (Z.shiftr len k) 255 = (len / 2 ^ k) mod 256.
Proof. intros. change 255 with (2 ^ 8 - 1). rewrite land_pow by lia. rewrite Z.shiftr_div_pow2 by lia. reflexivity. Qed.
Lemma make_frame_spec : forall op p, 0 <= op <= 15 -> zlen p < 2 ^ 64 ->
  exists l, make_frame op p = [128 + op] ++ l ++ p /\ length_field 0 (zlen p) l /\ shortest (zlen p) l.
Proof.
  intros op p O L. pose proof (zlen_nonneg _ p) as P. unfold make_frame. cbv zeta.
  assert (H1 : Z.lor 128 (Z.land op 15) = 128 + op).
  { assert (C : forallb (fun x => Z.lor 128 (Z.land x 15) =? 128 + x) (map Z.of_nat (seq 0 16)) = true) by (vm_compute; reflexivity). rewrite forallb_forall in C. apply Z.eqb_eq, C. apply in_map_iff. exists (Z.to_nat op). split; [lia|apply in_seq; lia]. }
  rewrite H1. rewrite Z.lor_0_l.
  assert (MB : forall x, is_byte (x mod 256)) by (intros x; unfold is_byte; apply Z.mod_pos_bound; lia).
  destruct (Z.ltb_spec 65535 (zlen p)) as [G|G]; [|destruct (Z.ltb_spec 125 (zlen p)) as [G'|G']].
  - cbn [Z.eqb Pos.eqb map]. rewrite !byte_at by lia. exists (127 :: map (fun k => (zlen p / 2 ^ k) mod 256) [56; 48; 40; 32; 24; 16; 8; 0]). split; [reflexivity|]. cbn [map]. split; [|unfold shortest; split; lia].
    apply (len_64 0 (zlen p)); [repeat (apply Forall_cons; [apply MB|]); apply Forall_nil|reflexivity|].
    unfold big. cbn [fold_left]. change (2 ^ 64) with 18446744073709551616 in L. change (2 ^ 56) with 72057594037927936. change (2 ^ 48) with 281474976710656. change (2 ^ 40) with 1099511627776. change (2 ^ 32) with 4294967296. change (2 ^ 24) with 16777216. change (2 ^ 16) with 65536. change (2 ^ 8) with 256. change (2 ^ 0) with 1.
    Z.div_mod_to_equations. lia.
  - cbn [Z.eqb Pos.eqb map]. rewrite !byte_at by lia. exists (126 :: map (fun k => (zlen p / 2 ^ k) mod 256) [8; 0]). split; [reflexivity|]. cbn [map]. split; [|unfold shortest; cbn [length]; split; lia].
    apply (len_16 0 (zlen p)); [repeat (apply Forall_cons; [apply MB|]); apply Forall_nil|reflexivity|].
    unfold big. cbn [fold_left]. change (2 ^ 8) with 256. change (2 ^ 0) with 1. Z.div_mod_to_equations. lia.
  - replace (zlen p =? 127) with false by lia. replace (zlen p =? 126) with false by lia. exists [zlen p]. split; [reflexivity|]. split; [apply (len_7 0); lia|split; cbn [length]; lia].
Qed.
