(** C68: an endpoint's registration with a redirector; C69: the redirector's choice of whom to redirect to. *)
From Coq Require Import Permutation Sorted.
From Verif Require Import Base VLU Address AddressSpec Redir RedirSrv RedirSpec RedirProofs RedirRunProofs RedirSrvProofs RedirPropProofs.
Open Scope res_scope.

(** *** Cases used in the examples: a MAC that is 32 bytes of key and message, one key, one address *)
Definition ex_mac (k m : list Z) : list Z := firstn 32 (k ++ m ++ repeat 0 32).
Lemma ex_mac_ok : mac_ok ex_mac.
Proof. intros k m. unfold ex_mac. rewrite firstn_length, !app_length, repeat_length. lia. Qed.
Definition ex_pw := [([107], [112; 119])].
Definition ex_a : addr := mkAddr AF_INET [10; 0; 0; 1] 1935 1.
Definition ex_b : addr := mkAddr AF_INET [10; 0; 0; 2] 1935 1.
Definition ex_far : addr := mkAddr AF_INET [192; 0; 2; 7] 1935 1.
Ltac byt := unfold bytes_ok, is_byte; repeat (constructor; [lia|]); constructor.
Lemma ex_addr_real : real_addr ex_a /\ real_addr ex_b /\ real_addr ex_far.
Proof.
  unfold real_addr. cbn [a_fam ex_a ex_b ex_far]. unfold AF_INET.
  assert (H : forall x y, 0 <= x < 256 -> 0 <= y < 256 -> forall z w, 0 <= z < 256 -> 0 <= w < 256 -> addr_ok (mkAddr AF_INET [x; y; z; w] 1935 1)).
  { intros x y X Y z w Z0 W0. constructor; cbn [a_ip a_fam a_port a_origin]; [byt | auto | unfold is_u16, U16MAX; lia | lia]. }
  repeat split; try discriminate; apply H; lia.
Qed.
Definition ex_es : list (Z * event) :=
  [(0, ECall (OAddSimpleAuth [107] [112; 119]) true []);
   (0, ECall (OAddAddress ex_a) true []);
   (1, ECall OConnect true [OSetLoadFactor 5]);
   (9, EWritable [1; 2; 3] []);
   (10, ERecvFlow signature);
   (11, EMessage (CMD_REFLEXIVE_ADDR_REPORT :: addr_encode ex_far) []);
   (12, ECall (OSetLoadFactor 7) true []);
   (13, ECall (OSetAdvertiseReflexive false) true [])].
Ltac evs := repeat match goal with
  | |- Forall _ [] => constructor
  | |- Forall _ (_ :: _) => constructor; [cbn [snd event_ok op_ok sevent_ok]|]
  | |- _ /\ _ => split
  | |- True => exact I
  | |- real_addr _ => apply ex_addr_real
  | |- addr_ok _ => apply ex_addr_real
  | |- bytes_ok _ => apply BaseFacts.bytes_okb_ok; vm_compute; reflexivity
  | |- is_u64 _ => unfold is_u64, U64MAX; lia
  end.
Lemma ex_history : history ex_es.
Proof. unfold history, ex_es. split; [cbn; unfold SECOND; lia|]. evs. Qed.

(** ** C68.  Nothing an application, the network and time do to the client runs into undefined behaviour (in particular none of the calls
    through m_send meets a null pointer), also not from within its callbacks. *)
Theorem C68_defined : forall hmac es, mac_ok hmac -> history es -> exists c, run hmac cli_new es = Ok c.
Proof. intros hmac es M H. destruct (history_fine hmac M es H) as [c [t [E _]]]. exists c. exact E. Qed.
Print Assumptions C68_defined.
Definition ex_c : cli := match run ex_mac cli_new ex_es with Ok c => c | _ => cli_new end.
Example C68_defined_ex : history ex_es /\ run ex_mac cli_new ex_es = Ok ex_c /\ c_status ex_c = CONNECTED /\ c_load ex_c = 7.
Proof. split; [exact ex_history|]. vm_compute. auto. Qed.

(** While connected, the server's knowledge, after the messages written so far, is what the application has set: it serves the connection,
    has exactly the addresses, knows about the reflexive address, has the client in its table exactly if active (unless paused), and has the
    load factor unless a change waits for the timer.  The server takes one of the client's keys or asks for none, and no calls were made
    that send something from within the callback that says CONNECTED. *)
Theorem C68_view_partial : forall hmac es c f pw fp far, mac_ok hmac -> history es -> run hmac cli_new es = Ok c -> c_status c = CONNECTED -> c_send c = Some f ->
  creds_good pw (f_creds f) -> pw = [] \/ f_pre f = 0%nat ->
  exists s act, conn_run hmac pw (scl_new pw fp (f_nonce f) far, false) (f_out f) = Ok (s, act) /\ served s /\ agrees c s act.
Proof. intros hmac es c f pw fp far M. exact (view hmac M es c f pw fp far). Qed.
Print Assumptions C68_view_partial.
Definition ex_f : sflow := match c_send ex_c with Some f => f | None => mkSf [] true [] [] (0, 0, 0) 0 [] end.
Example C68_view_ex : c_send ex_c = Some ex_f /\ creds_good ex_pw (f_creds ex_f) /\ f_pre ex_f = 0%nat /\ length (f_out ex_f) = 4%nat
  /\ exists s, conn_run ex_mac ex_pw (scl_new ex_pw [9] (f_nonce ex_f) ex_far, false) (f_out ex_f) = Ok (s, true) /\ s_addrs s = [ex_a] /\ s_refl s = false /\ s_load s = 5.
Proof.
  split; [vm_compute; reflexivity|]. split.
  { change (f_creds ex_f) with [([107], [112; 119])]. split.
    - intros k p q [E|[]] K. injection E as <- <-. unfold knows in K. vm_compute in K. congruence.
    - right. exists [107], [112; 119]. split; [left; reflexivity | vm_compute; reflexivity]. }
  split; [vm_compute; reflexivity|]. split; [vm_compute; reflexivity|]. eexists. split; [vm_compute; reflexivity|]. vm_compute. auto.
Qed.
(** Without that condition it fails: an application that reacts to CONNECTED by adding an address sends its settings before it has
    authenticated itself, and the server puts the connection on hold and closes it. *)
Theorem C68_view_early_refuted : exists es c f pw s act, history es /\ run ex_mac cli_new es = Ok c /\ c_status c = CONNECTED /\ c_send c = Some f
  /\ creds_good pw (f_creds f) /\ conn_run ex_mac pw (scl_new pw [9] (f_nonce f) ex_far, false) (f_out f) = Ok (s, act)
  /\ s_auth s = false /\ s_held s = true /\ act = false /\ ~ agrees c s act.
Proof.
  exists [(0, ECall (OAddSimpleAuth [107] [112; 119]) true []); (1, ECall OConnect true []); (2, EWritable [1; 2; 3] [OAddAddress ex_a])].
  do 2 eexists. exists ex_pw. do 2 eexists. split; [unfold history; split; [cbn; unfold SECOND; lia|]; evs|].
  split; [vm_compute; reflexivity|]. split; [reflexivity|]. split; [reflexivity|]. split.
  { cbn [f_creds]. split.
    - intros k p q [E|[]] K. injection E as <- <-. unfold knows in K. vm_compute in K. congruence.
    - right. exists [107], [112; 119]. split; [left; reflexivity | vm_compute; reflexivity]. }
  split; [vm_compute; reflexivity|]. split; [reflexivity|]. split; [reflexivity|]. split; [reflexivity|].
  intros [A _]. destruct (A eq_refl eq_refl) as [X _]. discriminate.
Qed.
Print Assumptions C68_view_early_refuted.

(** The session has the keepalive period, the retransmit limit and the mode of the forwarded hellos that the application has set. *)
Theorem C68_session : forall hmac es c, mac_ok hmac -> history es -> run hmac cli_new es = Ok c -> c_status c = CONNECTED ->
  exists f, c_send c = Some f /\ f_ses f = (c_ka c, c_rl c, c_fi c).
Proof. intros hmac es c M. exact (settings_kept hmac M es c). Qed.
Print Assumptions C68_session.
Example C68_session_ex : exists c f, run ex_mac cli_new (ex_es ++ [(20, ECall (OSetKeepalivePeriod 77) true [])]) = Ok c /\ c_status c = CONNECTED /\ c_send c = Some f /\ f_ses f = (77, 10 * SECOND, 0).
Proof. do 2 eexists. split; [vm_compute; reflexivity|]. split; [reflexivity|]. split; reflexivity. Qed.

(** There is a flow exactly while connecting or connected, a return flow only then, a reconnect is due exactly while disconnected, and
    attempts are at least five seconds apart, whatever the application sets as the interval. *)
Theorem C68_lifecycle : forall hmac es c, mac_ok hmac -> history es -> run hmac cli_new es = Ok c ->
  (c_send c <> None <-> c_status c = CONNECTING \/ c_status c = CONNECTED)
  /\ (c_rtimer c <> None <-> c_status c = DISCONNECTED \/ c_status c = DISCONNECTED_BAD_AUTH)
  /\ (c_recv c = true -> c_send c <> None) /\ (c_attempts c = [] <-> c_status c = IDLE \/ (c_status c = CLOSED /\ c_attempts c = []))
  /\ spaced (c_attempts c)
  /\ forall w, c_rtimer c = Some w -> exists a r, c_attempts c = a :: r /\ a + 5 * SECOND <= w.
Proof. intros hmac es c M. exact (life hmac M es c). Qed.
Print Assumptions C68_lifecycle.
Definition ex_re : list (Z * event) :=
  ex_es ++ [(20, ECall (OSetMinReconnect 1) true []); (21, EException 10 []); (22, EReconnect true []); (5 * SECOND + 1, EReconnect true [])].
Example C68_lifecycle_ex : history ex_re /\ exists c, run ex_mac cli_new ex_re = Ok c /\ c_attempts c = [5 * SECOND + 1; 1] /\ c_status c = CONNECTING.
Proof. split; [unfold history, ex_re, ex_es; cbn [app]; split; [cbn; unfold SECOND; lia|]; evs|]. eexists. split; [vm_compute; reflexivity|]. auto. Qed.

(** Closing is final. *)
Theorem C68_closed : forall hmac a b c c', mac_ok hmac -> history (a ++ b) -> run hmac cli_new a = Ok c -> c_status c = CLOSED -> run hmac cli_new (a ++ b) = Ok c' ->
  c_status c' = CLOSED /\ c_send c' = None /\ c_rtimer c' = None /\ c_attempts c' = c_attempts c.
Proof. intros hmac a b c c' M. exact (closed_final hmac M a b c c'). Qed.
Print Assumptions C68_closed.
Definition ex_cl : list (Z * event) := ex_es ++ [(20, ECall OClose true [])].
Definition ex_after : list (Z * event) := [(30, ECall OConnect true []); (40 * SECOND, EReconnect true []); (50 * SECOND, ECall (OSetActive true) true [])].
Example C68_closed_ex : history (ex_cl ++ ex_after) /\ (exists c, run ex_mac cli_new ex_cl = Ok c /\ c_status c = CLOSED) /\ exists c', run ex_mac cli_new (ex_cl ++ ex_after) = Ok c' /\ c_active c' = true /\ c_attempts c' = [1].
Proof.
  split; [unfold history, ex_cl, ex_after, ex_es; cbn [app]; split; [cbn; unfold SECOND; lia|]; evs|].
  split; [eexists; split; [vm_compute; reflexivity | reflexivity]|]. eexists. split; [vm_compute; reflexivity|]. split; reflexivity.
Qed.

(** While paused, a call sends no settings. *)
Theorem C68_paused : forall hmac es c o now c' f', mac_ok hmac -> history es -> run hmac cli_new es = Ok c -> op_ok o -> c_status c = CONNECTED -> c_paused c = true -> o <> OSetPaused false ->
  call c now o = Ok c' -> c_send c' = Some f' -> exists f ms, c_send c = Some f /\ f_out f' = f_out f ++ ms /\ Forall (fun m => hd 0 m <> 5) ms.
Proof. intros hmac es c o now c' f' M. exact (paused_quiet hmac M es c o now c' f'). Qed.
Print Assumptions C68_paused.
Example C68_paused_ex : exists c c' f f', run ex_mac cli_new (ex_es ++ [(20, ECall (OSetPaused true) true [])]) = Ok c /\ c_paused c = true /\ call c 21 (OAddAddress ex_b) = Ok c'
  /\ c_send c = Some f /\ c_send c' = Some f' /\ f_out f' = f_out f /\ c_addrs c' = [ex_a; ex_b].
Proof. do 4 eexists. split; [vm_compute; reflexivity|]. split; [reflexivity|]. split; [vm_compute; reflexivity|]. repeat split. Qed.

(** A return flow is taken if there is none yet and its metadata names the protocol: the name by itself, or with a zero byte and anything after. *)
Theorem C68_return : forall hmac es c t m c', mac_ok hmac -> history es -> run hmac cli_new es = Ok c -> step hmac c t (ERecvFlow m) = Ok c' ->
  (c_recv c' = true <-> c_recv c = true \/ (c_send c <> None /\ names_redirector m)) /\ names_redirector make_metadata.
Proof. intros hmac es c t m c' M H R S. split; [exact (return_flow hmac es c t m c' H R S) | left; reflexivity]. Qed.
Print Assumptions C68_return.
Example C68_return_ex : c_recv ex_c = true /\ check_metadata (signature ++ [0; 1; 2]) = true /\ check_metadata (signature ++ [1]) = false.
Proof. vm_compute. auto. Qed.
(** The address the server reports is the one the client answers with. *)
Theorem C68_reflexive : forall hmac c t a, real_addr a -> c_recv c = true ->
  exists c', step hmac c t (EMessage (CMD_REFLEXIVE_ADDR_REPORT :: addr_encode a) []) = Ok c' /\ c_refl c' = a /\ c_reflok c' = true.
Proof. exact reflexive_taken. Qed.
Print Assumptions C68_reflexive.
Example C68_reflexive_ex : c_recv ex_c = true /\ c_refl ex_c = ex_far /\ c_reflok ex_c = true.
Proof. vm_compute. auto. Qed.

(** ** C69.  No message and no timer makes the server run into undefined behaviour. *)
Theorem C69_defined : forall hmac pw es, Forall sevent_ok es -> exists v, srv_run hmac pw srv_new es = Ok v.
Proof. intros hmac pw es OK. destruct (srv_run_fine hmac pw es srv_new inv_empty OK) as [v [E _]]. exists v. exact E. Qed.
Print Assumptions C69_defined.
Definition ex_msgs (i : nat) : list sevent := map (VMessage i) (f_out ex_f).
Definition ex_srv : list sevent :=
  VConnect [9] [1; 2; 3] ex_far :: ex_msgs 0 ++ VConnect [8] [1; 2; 3] ex_b :: ex_msgs 1 ++ [VMessage 1 [15; 2]; VConnect [7] [4] ex_b; VMessage 2 [5]].
Definition ex_v : srv := match srv_run ex_mac ex_pw srv_new ex_srv with Ok v => v | _ => srv_new end.
Lemma ex_srv_ok : Forall sevent_ok ex_srv.
Proof. unfold ex_srv, ex_msgs.
  assert (E : f_out ex_f =
    [[29; 112; 119; 1; 2; 3; 0; 0; 0; 0; 0; 0; 0; 0; 0; 0; 0; 0; 0; 0; 0; 0; 0; 0; 0; 0; 0; 0; 0; 0; 0; 0; 0; 107]; [5; 1; 13; 8; 10; 1; 10; 0; 0; 1; 7; 143]; [15; 5]; [5; 8; 10; 1; 10; 0; 0; 1; 7; 143]]) by (vm_compute; reflexivity).
  rewrite E. cbn [map app]. evs. Qed.
Example C69_defined_ex : Forall sevent_ok ex_srv /\ srv_run ex_mac ex_pw srv_new ex_srv = Ok ex_v /\ v_active ex_v = [1; 0]%nat.
Proof. split; [exact ex_srv_ok|]. vm_compute. auto. Qed.

(** Client and server together: if what reaches the server on the connection is what the client wrote, and the connection is not closed,
    then, whatever else goes on at the server, its tables agree with the client. *)
Theorem C69_registered : forall hmac es c f pw before fp far rest v0 v, mac_ok hmac ->
  history es -> run hmac cli_new es = Ok c -> c_status c = CONNECTED -> c_send c = Some f ->
  creds_good pw (f_creds f) -> pw = [] \/ f_pre f = 0%nat ->
  Forall sevent_ok (before ++ VConnect fp (f_nonce f) far :: rest) ->
  srv_run hmac pw srv_new before = Ok v0 -> srv_run hmac pw srv_new (before ++ VConnect fp (f_nonce f) far :: rest) = Ok v ->
  let i := length (v_cls v0) in
  Forall (undisturbed i) rest -> messages_to i rest = f_out f ->
  exists s, nth_error (v_cls v) i = Some s /\ served s /\ agrees c s (is_active v i).
Proof. intros hmac es c f pw before fp far rest v0 v M. exact (end_to_end hmac M es c f pw before fp far rest v0 v). Qed.
Print Assumptions C69_registered.
Example C69_registered_ex : exists rest, ex_srv = [] ++ VConnect [9] (f_nonce ex_f) ex_far :: rest /\ Forall (undisturbed 0) rest /\ messages_to 0 rest = f_out ex_f /\ is_active ex_v 0 = true.
Proof. eexists. split; [reflexivity|]. split; [vm_compute; repeat constructor; discriminate|]. vm_compute. auto. Qed.

(** If there are passwords, a client counts as authenticated only if it has sent the MAC of its session's nonce under the password of a key
    that the server knows.  Until then the server takes nothing from it and tells it nothing, and it is in neither table; nor are closed
    connections. *)
Theorem C69_trust : forall hmac pw es v, mac_ok hmac -> Forall sevent_ok es -> srv_run hmac pw srv_new es = Ok v ->
  (forall i s, nth_error (v_cls v) i = Some s -> pw <> [] -> s_auth s = true -> exists k p, knows pw k p /\ In (VMessage i (29 :: hmac p (s_nonce s) ++ k)) es)
  /\ (forall i s, nth_error (v_cls v) i = Some s -> s_auth s = false -> s_addrs s = [] /\ s_refl s = false /\ s_load s = 0 /\ s_reports s = [])
  /\ (forall i, In i (v_active v) -> trusted v i) /\ (forall fp i, peers_find fp (v_peers v) = Some i -> trusted v i /\ exists s, nth_error (v_cls v) i = Some s /\ s_fp s = fp) /\ NoDup (v_active v).
Proof.
  intros hmac pw es v M OK R. pose proof (srv_run_inv hmac pw es v OK R) as S.
  assert (B0 : forall j s, nth_error (v_cls srv_new) j = Some s -> blank s) by (intros j s E; destruct j; discriminate).
  split; [|split; [|split; [exact (V_act _ S) | split; [|exact (V_nodup _ S)]]]].
  - intros i s N P A. destruct (run_record hmac pw es srv_new v i s inv_empty OK B0 R N) as [_ H]. destruct (H P A) as [[s0 [E _]]|[k [p [md [K [I [L MM]]]]]]]; [destruct i; discriminate|].
    exists k, p. split; [exact K|]. rewrite (memcmp_eq32 _ _ (M _ _) L MM). exact I.
  - intros i s N A. destruct (run_record hmac pw es srv_new v i s inv_empty OK B0 R N) as [B _]. destruct (B A) as [? [? [? [_ ?]]]]. auto.
  - intros fp i E. apply (V_peers _ S). apply peers_find_in. exact E.
Qed.
Print Assumptions C69_trust.
Example C69_trust_ex : map s_auth (v_cls ex_v) = [true; true; false] /\ map s_held (v_cls ex_v) = [false; false; true] /\ peers_find [8] (v_peers ex_v) = Some 1%nat /\ peers_find [7] (v_peers ex_v) = None.
Proof. vm_compute. auto. Qed.

(** A Redirect goes to trusted clients, each once, with the least loaded first: the one asked for by fingerprint, or as many as wanted
    from the front of the list, who then go to its end.  It has the static addresses and then addresses that these clients advertise, none
    twice, all of them that the address family allows; the initiator hello is forwarded to some of these clients (all, if so configured). *)
Theorem C69_redirect : forall hmac pw es v o fp fam, Forall sevent_ok es -> srv_run hmac pw srv_new es = Ok v -> Forall addr_ok (o_static o) ->
  exists v' red fwd found, do_redirect o v fp fam = Ok (v', red, fwd) /\ v_cls v' = v_cls v /\ v_peers v' = v_peers v
  /\ Forall (trusted v) found /\ NoDup found
  /\ match fp with
     | Some fp => v_active v' = v_active v /\ found = (match peers_find fp (v_peers v) with Some i => [i] | None => [] end)
     | None => Permutation found (firstn (o_targets o) (v_active v)) /\ v_active v' = skipn (o_targets o) (v_active v) ++ firstn (o_targets o) (v_active v)
     end
  /\ StronglySorted (fun i j => load_of v i <= load_of v j) found
  /\ (exists x, red = o_static o ++ x /\ Forall (fun a => exists i, In i found /\ advertised v i a) x
      /\ Forall (fun a => o_xredirect o = true \/ a_fam a = fam) x /\ (all_different (o_static o) -> all_different red))
  /\ (forall i a, In i found -> advertised v i a -> o_xredirect o = true \/ a_fam a = fam -> exists b, In b red /\ same_addr a b)
  /\ part_of fwd found /\ (o_xforward o = true -> fwd = found).
Proof.
  intros hmac pw es v o fp fam OK R OS. destruct (redirect_fine o v fp fam (srv_run_inv hmac pw es v OK R) OS) as [v' [red [fwd [E [_ [C [P [found [T [N [F [SS [[x [X1 [X2 [X3 [X4 _]]]]] [CO [PA XF]]]]]]]]]]]]]]].
  exists v', red, fwd, found. spl; try assumption; [|exists x; auto]. destruct fp; [exact F|]. cbv zeta in F. destruct (firstn_min _ (o_targets o) (v_active v)) as [E1 E2]. rewrite E1, E2 in F. exact F.
Qed.
Print Assumptions C69_redirect.
Definition ex_o : opts := mkOpts 5 [ex_b] false false.
Example C69_redirect_ex : exists v', do_redirect ex_o ex_v None AF_INET = Ok (v', [ex_b; ex_a], [1]%nat) /\ map s_load (v_cls ex_v) = [5; 2; 0] /\ all_different [ex_b; ex_a].
Proof.
  eexists. split; [vm_compute; reflexivity|]. split; [reflexivity|]. repeat constructor. intros [_ [H _]]. discriminate.
Qed.

(** Over any row of redirects during which nobody comes or goes, no client is chosen more than once more often than another. *)
Theorem C69_fair : forall hmac pw es v ks x y, Forall sevent_ok es -> srv_run hmac pw srv_new es = Ok v -> In x (v_active v) -> In y (v_active v) ->
  (times x (chosen ks (v_active v)) <= times y (chosen ks (v_active v)) + 1)%nat.
Proof. intros hmac pw es v ks x y OK R. apply chosen_fair. exact (V_nodup _ (srv_run_inv hmac pw es v OK R)). Qed.
Print Assumptions C69_fair.
Example C69_fair_ex : chosen [1; 1; 1]%nat (v_active ex_v) = [1; 0; 1]%nat.
Proof. vm_compute. reflexivity. Qed.

(** Asking by fingerprint finds the active client with it, if no two connections ever had the same. *)
Theorem C69_fingerprint_partial : forall hmac pw es v i s, Forall sevent_ok es -> srv_run hmac pw srv_new es = Ok v -> NoDup (map s_fp (v_cls v)) ->
  In i (v_active v) -> nth_error (v_cls v) i = Some s -> peers_find (s_fp s) (v_peers v) = Some i.
Proof. intros hmac pw es v i s OK R ND. exact (V_find _ (srv_run_inv hmac pw es v OK R) ND i s). Qed.
Print Assumptions C69_fingerprint_partial.
Example C69_fingerprint_ex : map s_fp (v_cls ex_v) = [[9]; [8]; [7]] /\ In 1%nat (v_active ex_v) /\ peers_find [8] (v_peers ex_v) = Some 1%nat.
Proof. split; [vm_compute; reflexivity|]. split; [vm_compute; auto|]. vm_compute. reflexivity. Qed.
(** Otherwise not: a client that connects again before its old connection is gone loses its entry when the old one closes, for as long as
    it stays active, although its fingerprint is that of no other open connection. *)
Theorem C69_fingerprint_refuted : exists es v s, Forall sevent_ok es /\ srv_run ex_mac [] srv_new es = Ok v
  /\ v_active v = [1]%nat /\ nth_error (v_cls v) 1 = Some s /\ served s /\ peers_find (s_fp s) (v_peers v) = None
  /\ (forall j s', nth_error (v_cls v) j = Some s' -> s_recv s' = true -> j = 1%nat)
  /\ do_redirect ex_o v (Some (s_fp s)) AF_INET = Ok (v, [ex_b], []).
Proof.
  exists [VConnect [9] [1] ex_far; VMessage 0 [5; 1; 13]; VConnect [9] [2] ex_a; VMessage 1 [5; 1; 13]; VComplete 0; VMessage 1 [5; 1; 13]].
  do 2 eexists. split; [evs|]. split; [vm_compute; reflexivity|]. split; [reflexivity|]. split; [reflexivity|]. split; [unfold served; auto|]. split; [reflexivity|]. split.
  - intros [|[|[|j]]] s' E RC; cbn in E; try discriminate; try reflexivity. injection E as <-. discriminate.
  - vm_compute. reflexivity.
Qed.
Print Assumptions C69_fingerprint_refuted.
