(** Properties C79 to C81: the WebSocket server. *)
From Verif Require Import Base BaseFacts WebSock WebSockSpec WebSockProofs WebSockFrames WebSockStream WebSockMessages WebSockEnd.
Open Scope res_scope.

(** An opening request ("GET /x HTTP/1.1", with a key "dGhl") for the examples; what it means is C82. *)
Definition demo_request : list Z := [71; 69; 84; 32; 47; 120; 32; 72; 84; 84; 80; 47; 49; 46; 49; 13; 10; 72; 111; 115; 116; 58; 32; 104; 13; 10; 85; 112; 103; 114; 97; 100; 101; 58; 32; 87; 101; 98; 83; 111; 99; 107; 101; 116; 13; 10; 67; 111; 110; 110; 101; 99; 116; 105; 111; 110; 58; 32; 107; 101; 101; 112; 45; 97; 108; 105; 118; 101; 44; 32; 85; 112; 103; 114; 97; 100; 101; 13; 10; 83; 101; 99; 45; 87; 101; 98; 83; 111; 99; 107; 101; 116; 45; 86; 101; 114; 115; 105; 111; 110; 58; 32; 49; 51; 13; 10; 83; 101; 99; 45; 87; 101; 98; 83; 111; 99; 107; 101; 116; 45; 75; 101; 121; 58; 32; 100; 71; 104; 108; 13; 10; 13; 10].
Definition demo_sha1 : list Z -> list Z := fun _ => repeat 7 20.
Definition passive : list ev -> list act := fun _ => [].
(** "Hi" as text, masked with 1 2 3 4 *)
Definition demo_hi : list Z := [129; 130; 1; 2; 3; 4; 73; 107].
Definition hi : frame := mkFrame true 0 1 (Some [1; 2; 3; 4]) [72; 105].
Lemma demo_hi_encodes : encodes hi demo_hi /\ frame_ok hi.
Proof.
  split; [|repeat split; cbn; try lia; repeat constructor; unfold is_byte; lia].
  apply (enc_masked hi [130] [1; 2; 3; 4] [73; 107]); try reflexivity; [repeat constructor; unfold is_byte; lia|apply (len_7 1 2); lia|]. intros [|[|i]] I; [reflexivity|reflexivity|cbn in I; lia].
Qed.

(** C79: every frame that RFC 6455 allows (up to 16 MB) is read as what it is, whatever follows it ... *)
Theorem C79_frame : forall f b t, frame_ok f -> encodes f b -> zlen (f_payload f) <= 16777216 ->
  parse (b ++ t) = Ok (Frame (f_op f) (f_fin f) (f_payload f) (zlen b)).
Proof. exact parse_frame. Qed.
Print Assumptions C79_frame.
(** ... part of one is waited for ... *)
Theorem C79_part : forall f b y, frame_ok f -> encodes f (b ++ y) -> y <> [] -> zlen (f_payload f) <= 16777216 -> parse b = Ok More.
Proof. exact parse_part. Qed.
Print Assumptions C79_part.
(** ... and for all bytes whatever the answer is right, and no byte is read that is not there (that would be undefined). *)
Theorem C79_exact : forall b, bytes_ok b ->
  (exists f bs t, frame_ok f /\ encodes f bs /\ zlen (f_payload f) <= 16777216 /\ b = bs ++ t /\ parse b = Ok (Frame (f_op f) (f_fin f) (f_payload f) (zlen bs)))
  \/ (parse b = Ok More /\ exists f y, y <> [] /\ frame_ok f /\ encodes f (b ++ y))
  \/ (parse b = Ok TooBig /\ (exists f bs y t, frame_ok f /\ encodes f bs /\ b ++ y = bs ++ t) /\
      forall f bs y t, frame_ok f -> encodes f bs -> b ++ y = bs ++ t -> 16777216 < zlen (f_payload f)).
Proof. exact parse_spec. Qed.
Print Assumptions C79_exact.
Example C79_case : encodes hi demo_hi /\ frame_ok hi /\ parse (demo_hi ++ [0]) = Ok (Frame 1 true [72; 105] 8) /\ parse [129; 130; 1] = Ok More /\
  parse [130; 127; 0; 0; 0; 0; 1; 0; 0; 1] = Ok TooBig /\ parse [130; 127; 0; 0; 0; 0; 1; 0; 0; 0] = Ok More.
Proof. destruct demo_hi_encodes as [A B]. split; [exact A|]. split; [exact B|]. split; [vm_compute; reflexivity|]. split; [vm_compute; reflexivity|]. split; vm_compute; reflexivity. Qed.

(** What the server writes is the frame it means, final, without a mask and with the shortest length. *)
Theorem C79_write : forall op p, 0 <= op <= 15 -> bytes_ok p -> zlen p < 2 ^ 64 ->
  encodes (mkFrame true 0 op None p) (make_frame op p) /\ exists l, make_frame op p = [128 + op] ++ l ++ p /\ shortest (zlen p) l.
Proof.
  intros op p O B L. destruct (make_frame_spec op p O L) as (l & E & F & S). split; [|exists l; auto]. rewrite E. apply (enc_plain (mkFrame true 0 op None p) l); [reflexivity|exact F].
Qed.
Print Assumptions C79_write.
Example C79_write_case : firstn 5 (make_frame 2 (repeat 9 300)) = [130; 126; 1; 44; 9] /\ firstn 11 (make_frame 2 (repeat 9 (Z.to_nat 65536))) = [130; 127; 0; 0; 0; 0; 0; 1; 0; 0; 9].
Proof. split; vm_compute; reflexivity. Qed.

(** The same bytes, in whatever chunks they come, have the same effect, from the first byte of the request on, if the application does not call shutdown ... *)
Theorem C79_chunks_partial : forall app sha1 l, (forall t, ~ In AShutdown (app t)) ->
  match feed app sha1 l ws0, receive app sha1 (concat l) ws0 with
  | Ok s, Ok s' => tr s = tr s' /\ st s = st s'
  | UB, UB => True
  | _, _ => False
  end.
Proof.
  intros app sha1 l N. pose proof (feed_concat app sha1 N l ws0 (proj1 good_start)) as H. cbn [st ws0] in H. specialize (H ltac:(lia)).
  destruct (feed app sha1 l ws0); destruct (receive app sha1 (concat l) ws0) eqn:E; cbn [same_res] in H; try tauto; [unfold same in H; tauto|].
  (** nothing is rejected *)
  exfalso. apply (no_rej app sha1 (concat l) ws0 E).
Qed.
Print Assumptions C79_chunks_partial.
Example C79_chunks_case : exists s s', feed passive demo_sha1 [demo_request ++ [129]; skipn 1 demo_hi ++ demo_hi] ws0 = Ok s /\ receive passive demo_sha1 (demo_request ++ demo_hi ++ demo_hi) ws0 = Ok s' /\
  delivered (tr s) = [(1, [72; 105]); (1, [72; 105])] /\ tr s = tr s'.
Proof. eexists. eexists. split; [vm_compute; reflexivity|]. split; [vm_compute; reflexivity|]. split; vm_compute; reflexivity. Qed.
(** ... and if it does, the messages that came in the same chunk are still delivered, while those in the next are not. *)
Definition shuts : list ev -> list act := fun t => match delivered t with [] => [] | _ => [AShutdown] end.
Theorem C79_chunks_refuted : exists s s', feed shuts demo_sha1 [demo_request ++ demo_hi; demo_hi] ws0 = Ok s /\ receive shuts demo_sha1 (demo_request ++ demo_hi ++ demo_hi) ws0 = Ok s' /\
  delivered (tr s) = [(1, [72; 105])] /\ delivered (tr s') = [(1, [72; 105]); (1, [72; 105])].
Proof. eexists. eexists. split; [vm_compute; reflexivity|]. split; [vm_compute; reflexivity|]. split; vm_compute; reflexivity. Qed.
Print Assumptions C79_chunks_refuted.

(** C80.  [ready]: open, the request answered, between messages *)
Definition ready (s : ws) : Prop := fine s /\ st s = 0 /\ hdr s = true /\ cbs s = true /\ inbuf s = [] /\ fragop s = -1 /\ frag s = [].
Definition waits (r : list Z) : Prop := r = [] \/ exists f y, y <> [] /\ frame_ok f /\ encodes f (r ++ y) /\ zlen (f_payload f) <= 16777216.
(** Bytes that are frames, perhaps with part of one at the end, have the effect of the frames. *)
Theorem C80_frames : forall app sha1 s b fs r, ready s -> frames b fs r -> waits r ->
  exists s', receive app sha1 b s = Ok s' /\ tr s' = tr (run app fs s) /\ st s' = st (run app fs s) /\ inbuf s' = r.
Proof. exact receive_frames. Qed.
Print Assumptions C80_frames.
(** Whatever the client sends and the application does: what is delivered are the messages of the data frames up to some frame, in order, each the
    concatenation of its fragments; and of all of them as long as the callbacks are set. *)
Theorem C80_messages : forall app fs s, ready s -> Forall frame_ok fs ->
  exists k ms, talk (firstn k (data fs)) ms /\ delivered (tr (run app fs s)) = delivered (tr s) ++ filter (fun m => (fst m =? 1) || (fst m =? 2)) ms /\
    (cbs (run app fs s) = true -> firstn k (data fs) = data fs).
Proof.
  intros app fs s (_ & _ & _ & C & _ & F & G) FO. apply (run_messages app fs s [] (delivered (tr s)) FO); [constructor| |exact C].
  exists [], []. cbn. rewrite app_nil_r. repeat split; auto.
Qed.
Print Assumptions C80_messages.
(** If the frames are messages, the client does not close and the application does not either, all of them are delivered. *)
Theorem C80_complete : forall app fs ms s, (forall t, ~ In AClose (app t)) -> ready s -> Forall frame_ok fs -> Forall (fun f => f_op f <> 8) fs -> talk (data fs) ms ->
  delivered (tr (run app fs s)) = delivered (tr s) ++ filter (fun m => (fst m =? 1) || (fst m =? 2)) ms /\ st (run app fs s) < 2.
Proof.
  intros app fs ms s N (_ & S & _ & C & _ & F & G) FO N8 T. destruct (run_complete app N fs ms s FO N8 T) as [[A B] D]; auto. split; [exact C|lia].
Qed.
Print Assumptions C80_complete.
(** Every ping is answered, in order, with its own payload, unless the stream has ended. *)
Theorem C80_pongs : forall app fs s, ready s -> st (run app fs s) < 2 ->
  pongs (tr (run app fs s)) = pongs (tr s) ++ map (make_frame 10) (pings fs).
Proof. intros app fs s (_ & S & _) L. apply run_pongs; [lia|exact L]. Qed.
Print Assumptions C80_pongs.
(** a message in two parts with a ping between them *)
Definition part1 : frame := mkFrame false 0 2 None [1; 2].
Definition ping : frame := mkFrame true 0 9 None [5].
Definition part2 : frame := mkFrame true 0 0 None [3].
Example C80_case : exists s, receive passive demo_sha1 demo_request ws0 = Ok s /\ ready s /\ talk (data [part1; ping; part2; hi]) [(2, [1; 2; 3]); (1, [72; 105])] /\
  tr (run passive [part1; ping; part2; hi] s) = tr s ++ [EvOut [138; 1; 5]; EvBin [1; 2; 3]; EvText [72; 105]].
Proof.
  eexists. split; [vm_compute; reflexivity|]. split; [|split].
  - unfold ready, fine. cbn. repeat split; auto. lia.
  - apply (talk_cons [part1; part2] 2 [1; 2; 3] [hi]); [apply (msg_many part1 [part2] [3]); [discriminate|reflexivity|apply (cont_last part2); reflexivity]|].
    apply (talk_cons [hi] 1 [72; 105] []); [apply (msg_one hi); [discriminate|reflexivity]|]. apply talk_end. exact I.
  - vm_compute. reflexivity.
Qed.

(** C81: the platform is told to close once, and after that nothing is written and nobody is told anything but the application, once, that it is over:
    for all applications and all bytes in all chunks. *)
Theorem C81_end_partial : forall app sha1 l s, feed app sha1 l ws0 = Ok s ->
  Forall (fun e => e <> EvDown /\ e <> EvError) (tr s) \/
  exists t, Forall (fun e => e <> EvDown /\ e <> EvError) t /\ (tr s = t ++ [EvDown] \/ tr s = t ++ [EvDown; EvError]).
Proof.
  intros app sha1 l s E. destruct (good_feed app sha1 l ws0 s good_start E) as [[[?|[?|S]] _] [A B]]; [left; apply A; lia|left; apply A; lia|right; apply B, S].
Qed.
Print Assumptions C81_end_partial.
(** An end: a continuation of nothing *)
Example C81_end_case : exists s t, feed passive demo_sha1 [demo_request; [128; 128; 0; 0; 0; 0]; demo_hi] ws0 = Ok s /\ tr s = t ++ [EvDown; EvError].
Proof. eexists. eexists [_; _; _]. split; [vm_compute; reflexivity|]. vm_compute. reflexivity. Qed.
(** But RFC 6455 wants more: 5.1: "a server MUST close the connection upon receiving a frame that is not masked"; ... *)
Theorem C81_unmasked_refuted : exists s, receive passive demo_sha1 (demo_request ++ [129; 2; 72; 105]) ws0 = Ok s /\ delivered (tr s) = [(1, [72; 105])] /\ st s = 0.
Proof. eexists. split; [vm_compute; reflexivity|]. split; vm_compute; reflexivity. Qed.
Print Assumptions C81_unmasked_refuted.
(** ... 5.5.1 and 7.1.1: after both Close frames the server closes the connection and nothing after the client's counts: here the connection stays
    open, and a message after the Close frame is delivered; ... *)
Theorem C81_after_close_refuted : exists s t, receive passive demo_sha1 (demo_request ++ [136; 128; 0; 0; 0; 0] ++ demo_hi) ws0 = Ok s /\
  tr s = t ++ [EvOut [136; 0]; EvText [72; 105]] /\ st s = 0.
Proof. eexists. eexists [_; _; _]. split; [vm_compute; reflexivity|]. split; vm_compute; reflexivity. Qed.
Print Assumptions C81_after_close_refuted.
(** ... 5.5.1: no data frame after a Close frame; ... *)
Definition chatty : list ev -> list act := fun t => match delivered t with [] => [] | _ => [ACleanClose; ASendBin [1]] end.
Theorem C81_send_after_close_refuted : exists s t, receive chatty demo_sha1 (demo_request ++ demo_hi) ws0 = Ok s /\ tr s = t ++ [EvOut [136; 0]; EvOut [130; 1; 1]].
Proof. eexists. eexists [_; _; _; _]. split; [vm_compute; reflexivity|]. vm_compute. reflexivity. Qed.
Print Assumptions C81_send_after_close_refuted.
(** ... 5.5: "all control frames MUST have a payload length of 125 bytes or less and MUST NOT be fragmented"; ... *)
Theorem C81_control_refuted : exists s t, receive passive demo_sha1 (demo_request ++ [9; 254; 0; 126; 0; 0; 0; 0] ++ repeat 1 126) ws0 = Ok s /\
  tr s = t ++ [EvOut (138 :: 126 :: 0 :: 126 :: repeat 1 126)] /\ st s = 0.
Proof. eexists. eexists [_; _; _]. split; [vm_compute; reflexivity|]. split; vm_compute; reflexivity. Qed.
Print Assumptions C81_control_refuted.
(** ... and 5.2: reserved bits that are not zero and unknown opcodes end the connection. *)
Theorem C81_reserved_refuted : exists s, receive passive demo_sha1 (demo_request ++ [241; 128; 0; 0; 0; 0] ++ [131; 128; 0; 0; 0; 0]) ws0 = Ok s /\ delivered (tr s) = [(1, [])] /\ st s = 0.
Proof. eexists. split; [vm_compute; reflexivity|]. split; vm_compute; reflexivity. Qed.
Print Assumptions C81_reserved_refuted.
