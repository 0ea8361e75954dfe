(** Property C82: the opening handshake of the WebSocket server. *)
From Coq Require Import String Ascii.
From Verif Require Import Base BaseFacts WebSock WebSockSpec WebSockProofs WebSockFrames WebSockStream WebSockMessages WebSockEnd WebSockHttpSpec WebSockHttp URISpec PropWebSock.
Open Scope res_scope.

(** C82: base64 is RFC 4648's, and nothing else has the same text. *)
Theorem C82_base64 : forall l, bytes_ok l -> exists t, base64enc l = Ok t /\ base64 l t /\ forall l', bytes_ok l' -> base64 l' t -> l' = l.
Proof. intros l B. destruct (base64enc_spec l B) as (t & E & H). exists t. split; [exact E|]. split; [exact H|]. intros l' B' H'. eapply base64_unique; eassumption. Qed.
Print Assumptions C82_base64.
Example C82_base64_case : base64enc (text "the sample nonce") = Ok (text "dGhlIHNhbXBsZSBub25jZQ==") /\ bytes_ok (text "the sample nonce").
Proof. split; [vm_compute; reflexivity|]. apply Forall_forall. intros x X. unfold is_byte. vm_compute in X. repeat (destruct X as [<-|X]; [lia|]). contradiction. Qed.

(** A well-formed request that has what the server asks for is answered as RFC 6455 4.2.2 says and opens the stream.  (The application does nothing when the
    headers are there.)  Then the stream is [ready], unless the application does something at once. *)
Theorem C82_open : forall app sha1 m u w hs raw, app [EvHeaders] = [] -> (forall l, bytes_ok (sha1 l)) -> request m u w hs raw -> zlen raw < U64MAX -> accepts m hs ->
  exists s answer more, receive app sha1 raw ws0 = Ok s /\ opening sha1 hs answer /\ tr s = [EvHeaders; EvOut answer; EvOpen] ++ more /\
  (app [EvHeaders; EvOut answer; EvOpen] = [] -> more = [] /\ ready s).
Proof.
  intros app sha1 m u w hs raw Q B R Z A. destruct (open_request app sha1 Q B m u w hs raw R Z A) as (s & answer & more & E & O & T & H).
  exists s, answer, more. split; [exact E|]. split; [exact O|]. split; [exact T|]. intros X. destruct (H X) as (M & S & HD & C & I & FO & FR & _). split; [exact M|].
  split; [|auto 10]. apply (good_receive app sha1 raw ws0 s (good_start) E).
Qed.
Print Assumptions C82_open.
(** One that has not is refused: no answer, no stream ... *)
Theorem C82_refuse : forall app sha1 m u w hs raw, app [EvHeaders] = [] -> request m u w hs raw -> zlen raw < U64MAX -> ~ accepts m hs ->
  exists s, receive app sha1 raw ws0 = Ok s /\ tr s = [EvHeaders; EvDown; EvError] /\ st s = 2.
Proof. intros app sha1 m u w hs raw Q R Z A. apply (refuse_request app sha1 Q m u w hs raw R Z A). Qed.
Print Assumptions C82_refuse.
(** ... and so is one with a line that is not a header, without the application being asked. *)
Theorem C82_malformed : forall app sha1 raw, bad_request raw -> zlen raw < U64MAX ->
  exists s, receive app sha1 raw ws0 = Ok s /\ tr s = [EvDown; EvError] /\ st s = 2.
Proof. exact refuse_bad. Qed.
Print Assumptions C82_malformed.
(** What RFC 6455 4.2.1 asks for is enough, if the Upgrade field has nothing else. *)
Theorem C82_rfc_partial : forall app sha1 m u w hs raw, app [EvHeaders] = [] -> (forall l, bytes_ok (sha1 l)) -> request m u w hs raw -> zlen raw < U64MAX ->
  rfc_ok m w hs -> lower (value hs "upgrade") = text "websocket" ->
  exists s answer more, receive app sha1 raw ws0 = Ok s /\ opening sha1 hs answer /\ tr s = [EvHeaders; EvOut answer; EvOpen] ++ more.
Proof.
  intros app sha1 m u w hs raw Q B R Z O U. destruct (C82_open app sha1 m u w hs raw Q B R Z (rfc_accepts m w hs O U)) as (s & answer & more & E & P & T & _). eauto 6.
Qed.
Print Assumptions C82_rfc_partial.

(** The request of RFC 6455 1.3, shortened, with a folded line *)
Definition crlf_l : list Z := [13; 10].
Definition rfc_fields : list (list Z * list Z) :=
  [(text "Host", text "h"); (text "Upgrade", text "WebSocket"); (text "Connection", text "keep-alive, Upgrade"); (text "Sec-WebSocket-Key", text "dGhlIHNhbXBsZSBub25jZQ==");
   (text "Sec-WebSocket-Version", text "13")].
Definition rfc_raws : list (list Z) :=
  [text "Host: h" ++ crlf_l; text "Upgrade:" ++ crlf_l ++ text " WebSocket " ++ crlf_l; text "Connection: keep-alive, Upgrade" ++ crlf_l;
   text "Sec-WebSocket-Key:dGhlIHNhbXBsZSBub25jZQ==" ++ crlf_l; text "Sec-WebSocket-Version: 13" ++ crlf_l].
Lemma tchar_dec : forall s, tchars s = Ok true -> Forall (fun x => 0 <= x) s -> Forall is_tchar s.
Proof.
  intros s H P. induction P as [|x s X _ IH]; [constructor|]. cbn [tchars] in H. destruct (tchar x) as [[|]| |] eqn:T; cbn [rbind] in H; try discriminate. constructor; [|exact (IH H)].
  unfold tchar in T. destruct (existsb _ _) eqn:E; [left; apply existsb_exists in E; destruct E as (z & I & Q); apply Z.eqb_eq in Q; subst; exact I|]. destruct (x <? -1); [discriminate|]. inversion T. right. unfold URIParse.digit, URIParse.alpha in *. lia.
Qed.
Definition visb (x : Z) : bool := (33 <=? x) && (x <=? 126).
Lemma vis_dec : forall l, forallb visb l = true -> Forall visible l.
Proof. intros l H. apply Forall_forall. intros x X. rewrite forallb_forall in H. apply H in X. unfold visb, visible in *. lia. Qed.
Lemma unfolds_dec : forall l, forallb (fun x => visb x || (x =? 32)) l = true -> unfolds l l.
Proof. induction l as [|x l IH]; intros H; [constructor|]. cbn [forallb] in H. apply andb_true_iff in H. constructor; [unfold visb, visible, blank in *; lia|apply IH, H]. Qed.
Definition bareb (v : list Z) : bool := match v with [] => true | x :: _ => visb x && visb (List.last v 0) end.
Lemma bare_dec : forall v, bareb v = true -> bare v.
Proof.
  intros v H. split; intros x t ->.
  - cbn in H. unfold visb, visible in *. lia.
  - unfold bareb in H. rewrite List.last_last in H. destruct (t ++ [x]) eqn:E; [destruct t; discriminate|]. unfold visb, visible in *. lia.
Qed.
Lemma field_dec : forall n v b, tchars n = Ok true -> n <> [] -> forallb visb n = true -> forallb (fun x => visb x || (x =? 32)) (b ++ v) = true -> bareb v = true -> forallb (fun x => x =? 32) b = true ->
  field (n, v) (n ++ 58 :: (b ++ v) ++ [13; 10]).
Proof.
  intros n v b T N V U B BL. apply (field_intro n v b [] (b ++ v)); [split; [exact N|]|rewrite app_nil_r; apply unfolds_dec, U| |constructor|apply bare_dec, B].
  - apply tchar_dec; [exact T|]. eapply Forall_impl; [|apply vis_dec, V]. unfold visible. intros x; lia.
  - apply Forall_forall. intros x X. rewrite forallb_forall in BL. apply BL in X. left. lia.
Qed.
Lemma rfc_raws_ok : Forall2 field rfc_fields rfc_raws.
Proof.
  repeat constructor.
  - apply (field_dec (text "Host") (text "h") [32]); first [reflexivity | discriminate].
  - apply (field_intro (text "Upgrade") (text "WebSocket") [32] [32] (crlf_l ++ text " WebSocket ")).
    + split; [discriminate|]. apply tchar_dec; [reflexivity|]. eapply Forall_impl; [|apply vis_dec; reflexivity]. unfold visible. intros x; lia.
    + apply (un_fold 32 (text "WebSocket ")); [left; reflexivity|]. apply unfolds_dec. reflexivity.
    + constructor; [left; reflexivity|constructor].
    + constructor; [left; reflexivity|constructor].
    + apply bare_dec. reflexivity.
  - apply (field_dec (text "Connection") (text "keep-alive, Upgrade") [32]); first [reflexivity | discriminate].
  - apply (field_dec (text "Sec-WebSocket-Key") (text "dGhlIHNhbXBsZSBub25jZQ==") []); first [reflexivity | discriminate].
  - apply (field_dec (text "Sec-WebSocket-Version") (text "13") [32]); first [reflexivity | discriminate].
Qed.
Definition rfc_raw (w : string) (raws : list (list Z)) : list Z := text "GET" ++ 32 :: text "/chat" ++ 32 :: text w ++ [13; 10] ++ concat raws ++ [13; 10].
Lemma rfc_request : request (text "GET") (text "/chat") (text "HTTP/1.1") rfc_fields (rfc_raw "HTTP/1.1" rfc_raws).
Proof. apply request_intro; first [apply vis_dec; reflexivity | exact rfc_raws_ok]. Qed.
Example C82_case : request (text "GET") (text "/chat") (text "HTTP/1.1") rfc_fields (rfc_raw "HTTP/1.1" rfc_raws) /\ rfc_ok (text "GET") (text "HTTP/1.1") rfc_fields /\
  lower (value rfc_fields "upgrade") = text "websocket" /\ accepts (text "GET") rfc_fields /\ ~ accepts (text "PUT") rfc_fields.
Proof.
  split; [exact rfc_request|].
  assert (O : rfc_ok (text "GET") (text "HTTP/1.1") rfc_fields).
  { split; [reflexivity|]. split; [reflexivity|]. split; [exists [], (text "WebSocket"), []; split; [left; reflexivity|]; split; [constructor|]; split; [constructor|reflexivity]|].
    split; [exists [32], (text "Upgrade"), []; split; [right; left; reflexivity|]; split; [constructor; [left; reflexivity|constructor]|]; split; [constructor|reflexivity]|].
    split; [reflexivity|]. exists (text "the sample nonce"). split; [reflexivity|]. destruct C82_base64_case as [E B]. split; [exact B|]. destruct (base64enc_spec _ B) as (t & E2 & H). rewrite E in E2. injection E2 as <-. exact H. }
  split; [exact O|]. split; [reflexivity|]. split; [apply (rfc_accepts _ _ _ O); reflexivity|]. intros (X & _). discriminate X.
Qed.
Definition bad_line : list Z := text "Not a header".
Example C82_malformed_case : bad_request (text "GET" ++ 32 :: text "/chat" ++ 32 :: text "HTTP/1.1" ++ [13; 10] ++ concat rfc_raws ++ bad_line ++ [13; 10] ++ concat [] ++ [13; 10]).
Proof.
  apply (bad_intro _ _ _ rfc_fields _ _ []); try (apply vis_dec; reflexivity); [exact rfc_raws_ok| |constructor]. split; [eexists; eexists; split; [reflexivity|split; vm_compute; discriminate]|].
  split; [apply Forall_forall; intros x X; unfold visible, blank; vm_compute in X; repeat (destruct X as [<-|X]; [lia|]); contradiction|].
  intros n t E _. assert (I : In 58 bad_line) by (rewrite E; apply in_or_app; right; left; reflexivity). vm_compute in I. repeat (destruct I as [I|I]; [discriminate I|]). contradiction.
Qed.

(** But the server also opens what RFC 6455 4.2.1 does not allow: any third word in the request line, "upgrade" as part of another word, any key; ... *)
Definition lax_fields : list (list Z * list Z) :=
  [(text "Upgrade", text "websocket"); (text "Connection", text "no-upgrade"); (text "Sec-WebSocket-Key", text "k"); (text "Sec-WebSocket-Version", text "13")].
Definition lax_raws : list (list Z) := [text "Upgrade: websocket" ++ crlf_l; text "Connection: no-upgrade" ++ crlf_l; text "Sec-WebSocket-Key: k" ++ crlf_l; text "Sec-WebSocket-Version: 13" ++ crlf_l].
Theorem C82_lax_refuted : request (text "GET") (text "/chat") (text "FTP") lax_fields (rfc_raw "FTP" lax_raws) /\ text "FTP" <> text "HTTP/1.1" /\ ~ listed "upgrade" (value lax_fields "connection") /\
  (forall k, length k = 16%nat -> ~ base64 k (value lax_fields "sec-websocket-key")) /\
  exists s t, receive passive demo_sha1 (rfc_raw "FTP" lax_raws) ws0 = Ok s /\ tr s = t ++ [EvOpen] /\ st s = 0.
Proof.
  split; [|split; [discriminate|split; [|split]]].
  - apply request_intro; try (apply vis_dec; reflexivity). repeat constructor.
    + apply (field_dec (text "Upgrade") (text "websocket") [32]); first [reflexivity | discriminate].
    + apply (field_dec (text "Connection") (text "no-upgrade") [32]); first [reflexivity | discriminate].
    + apply (field_dec (text "Sec-WebSocket-Key") (text "k") [32]); first [reflexivity | discriminate].
    + apply (field_dec (text "Sec-WebSocket-Version") (text "13") [32]); first [reflexivity | discriminate].
  - intros (a & w & b & H & A & B & L). vm_compute in H. destruct H as [H|[]]. destruct a as [|x a].
    + cbn [List.app] in H. assert (LW : length w = 7%nat) by (apply (f_equal (@length Z)) in L; unfold lower in L; rewrite map_length in L; exact L).
      do 8 (destruct w as [|? w]; try discriminate LW). cbn [List.app] in H. injection H as <- <- <- <- <- <- <- Hb. subst. discriminate L.
    + cbn [List.app] in H. injection H as <- _. inversion A as [|? ? [X|X] _]; discriminate X.
  - intros k K H. apply base64_length in H. rewrite K in H. discriminate H.
  - eexists. eexists [_; _]. split; [vm_compute; reflexivity|]. split; reflexivity.
Qed.
Print Assumptions C82_lax_refuted.
(** ... refuses one that asks for more than one protocol, which it allows; ... *)
Definition two_fields : list (list Z * list Z) := map (fun h => if list_eq_dec Z.eq_dec (fst h) (text "Upgrade") then (text "Upgrade", text "websocket, foo") else h) rfc_fields.
Theorem C82_upgrade_refuted : exists raw, request (text "GET") (text "/chat") (text "HTTP/1.1") two_fields raw /\ rfc_ok (text "GET") (text "HTTP/1.1") two_fields /\
  exists s, receive passive demo_sha1 raw ws0 = Ok s /\ tr s = [EvHeaders; EvDown; EvError].
Proof.
  exists (rfc_raw "HTTP/1.1" (map (fun h => fst h ++ 58 :: ([32] ++ snd h) ++ [13; 10]) two_fields)). split; [|split].
  - apply request_intro; try (apply vis_dec; reflexivity). repeat constructor.
    + apply (field_dec (text "Host") (text "h") [32]); first [reflexivity | discriminate].
    + apply (field_dec (text "Upgrade") (text "websocket, foo") [32]); first [reflexivity | discriminate].
    + apply (field_dec (text "Connection") (text "keep-alive, Upgrade") [32]); first [reflexivity | discriminate].
    + apply (field_dec (text "Sec-WebSocket-Key") (text "dGhlIHNhbXBsZSBub25jZQ==") [32]); first [reflexivity | discriminate].
    + apply (field_dec (text "Sec-WebSocket-Version") (text "13") [32]); first [reflexivity | discriminate].
  - destruct C82_case as (_ & (A & B & _ & D & E & F) & _). split; [exact A|]. split; [exact B|]. split; [exists [], (text "websocket"), []; split; [left; reflexivity|]; split; [constructor|]; split; [constructor|reflexivity]|]. split; [exact D|]. split; [exact E|exact F].
  - eexists. split; [vm_compute; reflexivity|]. vm_compute. reflexivity.
Qed.
Print Assumptions C82_upgrade_refuted.
(** ... and a byte of 128 or more at an end of a value ("X: \xc3") is undefined behaviour. *)
Theorem C82_byte_refuted : receive passive demo_sha1 (text "GET / HTTP/1.1" ++ [13; 10] ++ text "X: " ++ [195; 13; 10; 13; 10]) ws0 = UB.
Proof. vm_compute. reflexivity. Qed.
Print Assumptions C82_byte_refuted.
