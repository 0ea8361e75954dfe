From Verif Require Import Base BaseFacts TC RTMP RTMPSpec RTMPProofs.
Ltac Zify.zify_post_hook ::= Z.div_mod_to_equations.
Open Scope Z_scope.

(** ** The two ends of a chunk stream *)
Record agree (k : schunk) (c : rchunk) : Prop := mkAgree {
  ag_init : c_init c = k_init k;
  ag_same : k_init k = true -> c_sid c = k_sid k /\ c_ts c = k_ts k /\ c_delta c = k_delta k /\ c_len c = k_len k /\ c_type c = k_type k;
  ag_idle : k_busy k = false -> c_data c = [];
  ag_fresh : k_init k = false -> k_busy k = false;
  ag_sid : is_u32 (k_sid k) }.
Definition fits (m : msg) : Prop := msg_ok m /\ zlen (g_data m) < 16777216.
Lemma nth_set : forall (A : Type) (l : list A) i j x d, (i < length l)%nat -> nth j (set_nth l i x) d = if (j =? i)%nat then x else nth j l d.
Proof. induction l as [|y l IH]; intros i j x d L; [cbn in L; lia|]. destruct i, j; cbn [set_nth nth Nat.eqb]; auto. apply IH. cbn in L. lia. Qed.
Lemma set_length : forall (A : Type) (l : list A) i x, length (set_nth l i x) = length l.
Proof. induction l as [|y l IH]; intros [|i] x; cbn; auto. Qed.
Lemma eta_buf : forall r, r_buf r = [] -> with_buf r [] = r.
Proof. intros [a b c d e] H. cbn in *. subst. reflexivity. Qed.
Lemma eat_one : forall r d r1, fine r -> r_buf r = [] -> d <> [] -> on_open_input r d = Ok (Took r1 (zlen d)) -> eats (more r d) (with_buf r1 []).
Proof.
  intros r d r1 F B N E. apply (eats_S _ (with_buf r1 d) _ (zlen d)); unfold more; cbn [with_buf r_buf]; rewrite B; cbn [app]; [exact N| |].
  - rewrite input_buf, E. reflexivity.
  - unfold zlen. rewrite Nat2Z.id, skipn_all. constructor.
Qed.
Lemma bytes_u24 : forall v, is_u32 v -> bytes_ok (u24 v).
Proof. intros v U. destruct (bytes_of v U) as (a & b & c & d & A & B & C & D & _ & _ & _ & ->). unfold bytes_ok; repeat (apply Forall_cons; [assumption|]); apply Forall_nil. Qed.
Lemma bytes_u32 : forall v, is_u32 v -> bytes_ok (u32 v).
Proof. intros v U. destruct (bytes_of v U) as (a & b & c & d & A & B & C & D & _ & -> & _ & _). unfold bytes_ok; repeat (apply Forall_cons; [assumption|]); apply Forall_nil. Qed.
Lemma bytes_u32le : forall v, is_u32 v -> bytes_ok (u32le v).
Proof. intros v U. destruct (bytes_of v U) as (a & b & c & d & A & B & C & D & _ & _ & -> & _). unfold bytes_ok; repeat (apply Forall_cons; [assumption|]); apply Forall_nil. Qed.
Lemma whead_ok : forall ct cid e len ty sid, In ct [0; 64; 128; 192] -> (2 <= cid < 24)%nat -> is_u32 e -> is_u32 len -> is_byte ty -> is_u32 sid -> bytes_ok (whead ct cid e len ty sid) /\ whead ct cid e len ty sid <> [].
Proof.
  intros ct cid e len ty sid CT CID E L T SI. unfold whead. destruct (header_byte ct cid CT CID) as (b & -> & B & _). split; [|discriminate]. cbv zeta.
  assert (F : is_u32 (if e >=? 16777215 then 16777215 else e)) by (destruct (e >=? 16777215); [unfold is_u32, U32MAX; lia|exact E]).
  apply bytes_ok_app. split; [apply Forall_cons; [exact B|apply Forall_nil]|]. apply bytes_ok_app. split; [|destruct (e >=? 16777215); [apply bytes_u32, E|constructor]].
  destruct (ct =? 0); [|destruct (ct =? 64); [|destruct (ct =? 128); [apply bytes_u24, F|constructor]]].
  - apply bytes_ok_app. split; [apply bytes_u24, F|]. apply bytes_ok_app. split; [apply bytes_u24, L|]. constructor; [exact T|apply bytes_u32le, SI].
  - apply bytes_ok_app. split; [apply bytes_u24, F|]. apply bytes_ok_app. split; [apply bytes_u24, L|]. constructor; [exact T|constructor].
Qed.
Lemma firstn_min : forall (A : Type) (l : list A) n, 0 <= n -> zlen (firstn (Z.to_nat n) l) = Z.min n (zlen l).
Proof. intros A l n N. unfold zlen. rewrite firstn_length. lia. Qed.
Lemma ct_in : forall s k m, In (chunk_type s k m) [0; 64; 128; 192].
Proof. intros. unfold chunk_type. cbn [In]. destruct (_ && _); [|auto]. destruct (_ =? _); [|auto]. destruct (_ && _); [|auto]. destruct (_ && _); auto. Qed.
Lemma ct_facts : forall sm k m, chunk_type sm k m <> 0 -> k_init k = true /\ g_sid m = k_sid k /\ (128 <= chunk_type sm k m -> g_type m = k_type k /\ zlen (g_data m) = k_len k) /\ (chunk_type sm k m = 192 -> g_ts m = wrap32 (k_ts k + k_delta k)).
Proof.
  intros sm k m. unfold chunk_type. destruct (k_init k); [|cbn [andb]; congruence]. cbn [andb]. destruct ((wrap32 (g_ts m - k_ts k) <=? 2147483647) && negb sm); [|congruence]. destruct (Z.eqb_spec (g_sid m) (k_sid k)) as [E|_]; [|congruence]. intros _. split; [reflexivity|]. split; [exact E|].
  destruct ((g_type m =? k_type k) && (zlen (g_data m) =? k_len k)) eqn:T; [|split; intros; lia]. apply andb_true_iff in T as (T1 & T2). apply Z.eqb_eq in T1, T2. split; [intros; auto|]. destruct (k_valid k && (g_ts m =? wrap32 (k_ts k + k_delta k))) eqn:V; [|intros; lia]. apply andb_true_iff in V as (_ & V). apply Z.eqb_eq in V. auto.
Qed.
Lemma start_eats : forall s r cid m now, fine r -> (2 <= cid < 24)%nat -> agree (sget s cid) (rget r (Z.of_nat cid)) -> k_busy (sget s cid) = false -> fits m -> 128 <= w_size s ->
  Z.min (zlen (g_data m)) (w_size s) = Z.min (r_size r) (zlen (g_data m)) ->
  exists d e v, start_chunk cid m now s = Ok (put_out (sput s cid (mkSC (g_sid m) (g_ts m) e (zlen (g_data m)) (g_type m) true v now (w_size s <? zlen (g_data m)))) d, Z.min (zlen (g_data m)) (w_size s)) /\
    bytes_ok d /\ d <> [] /\ is_u32 e /\
    forall rest, on_open_input r (d ++ rest) = chunk_done r (Z.of_nat cid) (mkRC (g_sid m) (g_ts m) e (zlen (g_data m)) (g_type m) true (firstn (Z.to_nat (Z.min (zlen (g_data m)) (w_size s))) (g_data m))) (zlen d).
Proof.
  intros s r cid m now (I & BB & DD) CID AG NB ((M1 & M2 & M3 & M4) & ML) SZ AM. unfold start_chunk.
  assert (X : negb ((2 <=? cid)%nat && (cid <? NUM_CHUNKSTREAMS)%nat) = false) by (unfold NUM_CHUNKSTREAMS; destruct (Nat.leb_spec 2 cid); [|lia]; destruct (Nat.ltb_spec cid 24); [reflexivity|lia]). rewrite X. clear X. cbv zeta.
  set (k := sget s cid) in *. set (c := rget r (Z.of_nat cid)) in *. set (len := zlen (g_data m)) in *. pose proof (zlen_nonneg _ (g_data m)) as LN. fold len in LN. destruct AG as [A1 A2 A3 A4 A5]. specialize (A3 NB).
  remember (chunk_type (w_simple s) k m) as ct eqn:Ect. pose proof (ct_in (w_simple s) k m) as CT. rewrite <- Ect in CT.
  remember (if ct =? 0 then g_ts m else wrap32 (g_ts m - k_ts k)) as e eqn:Ee. assert (EU : is_u32 e) by (subst e; destruct (ct =? 0); [exact M3|apply wrap32_ok]).
  assert (EX : (if e >=? 16777215 then e else 0) =? 0 = negb (e >=? 16777215)) by (destruct (Z.geb_spec e 16777215); lia). rewrite EX.
  assert (HD : basic_header ct (Z.of_nat cid) ++ (if ct =? 0 then u24 (if negb (e >=? 16777215) then e else 16777215) ++ u24 len ++ [g_type m] ++ u32le (g_sid m) else if ct =? 64 then u24 (if negb (e >=? 16777215) then e else 16777215) ++ u24 len ++ [g_type m] else if ct =? 128 then u24 (if negb (e >=? 16777215) then e else 16777215) else []) ++ (if negb (e >=? 16777215) then [] else u32 (if e >=? 16777215 then e else 0)) = whead ct cid e len (g_type m) (g_sid m)) by (unfold whead; destruct (e >=? 16777215); reflexivity).
  rewrite HD. clear HD EX. assert (SB : (Z.min len (w_size s) <? len) = (w_size s <? len)) by (destruct (Z.ltb_spec (Z.min len (w_size s)) len), (Z.ltb_spec (w_size s) len); lia). rewrite SB. clear SB.
  exists (whead ct cid e len (g_type m) (g_sid m) ++ firstn (Z.to_nat (Z.min len (w_size s))) (g_data m)), e, (negb (ct =? 0)).
  destruct (whead_ok ct cid e len (g_type m) (g_sid m) CT CID EU) as (H1 & H2); [unfold is_u32, U32MAX; lia|exact M2|exact M1|].
  split; [reflexivity|]. split; [apply bytes_ok_app; split; [exact H1|apply bytes_ok_firstn, M4]|]. split; [intros Q; apply app_eq_nil in Q as (Q & _); exact (H2 Q)|]. split; [exact EU|]. intros rest.
  assert (FT : ct <> 0 -> k_init k = true /\ g_sid m = k_sid k /\ (128 <= ct -> g_type m = k_type k /\ len = k_len k) /\ (ct = 192 -> g_ts m = wrap32 (k_ts k + k_delta k))).
  { rewrite Ect. apply ct_facts. }
  assert (DU : is_u32 (c_delta c)) by (apply (ro_chunk _ I (Z.of_nat cid))). assert (TU : is_u32 (c_ts c)) by (apply (ro_chunk _ I (Z.of_nat cid))).
  rewrite (parse_head r ct cid e len (g_type m) (g_sid m)); auto.
  - f_equal. fold c. unfold update. cbn [In] in CT. destruct CT as [C|[C|[C|[C|[]]]]]; rewrite <- C in *; cbn [Z.eqb Pos.eqb] in *; unfold with_data; cbn [c_sid c_ts c_delta c_len c_type c_init c_data app].
    + rewrite Ee. reflexivity.
    + destruct FT as (F1 & F2 & _); [lia|]. destruct (A2 F1) as (B1 & B2 & B3 & B4 & B5). rewrite A1, F1, B1, <- F2, B2. rewrite B2 in TU. f_equal. unfold is_u32, U32MAX in *. rewrite Ee. unfold wrap32. lia.
    + destruct FT as (F1 & F2 & F3 & _); [lia|]. destruct (F3 ltac:(lia)) as (F4 & F5). destruct (A2 F1) as (B1 & B2 & B3 & B4 & B5). rewrite A1, F1, B1, <- F2, B2, B4, B5, <- F4, <- F5. rewrite B2 in TU. f_equal. unfold is_u32, U32MAX in *. rewrite Ee. unfold wrap32. lia.
    + destruct FT as (F1 & F2 & F3 & F6); [lia|]. destruct (F3 ltac:(lia)) as (F4 & F5). destruct (A2 F1) as (B1 & B2 & B3 & B4 & B5). rewrite A3, A1, F1, B1, <- F2, B2, B4, B5, <- F4, <- F5. cbn [app]. rewrite B2 in TU. f_equal. change (zlen (@nil Z) =? 0) with true. cbn iota. unfold is_u32, U32MAX in *. rewrite Ee. unfold wrap32. lia.
  - intros N. fold c. rewrite A1. apply FT, N.
  - intros N. fold c. destruct FT as (F1 & _ & F3 & _); [lia|]. destruct (A2 F1) as (_ & _ & _ & B4 & _). rewrite B4. symmetry. apply F3, N.
  - intros N. fold c. destruct FT as (F1 & _ & _ & F6); [lia|]. destruct (A2 F1) as (_ & B2 & B3 & _). rewrite B3. rewrite B3 in DU. rewrite B2 in TU. specialize (F6 N). rewrite Ee, N. cbn [Z.eqb]. rewrite F6. unfold is_u32, U32MAX in *. unfold wrap32. lia.
  - fold c. rewrite firstn_min by (unfold len in *; lia). fold len. rewrite A3. change (zlen (@nil Z)) with 0. assert (W : wrap64 (len - 0) = len) by (unfold wrap64; lia). rewrite W. rewrite AM. destruct (ct =? 192); unfold len in *; lia.
Qed.
Lemma next_eats : forall s r cid data off, fine r -> (2 <= cid < 24)%nat -> agree (sget s cid) (rget r (Z.of_nat cid)) -> k_busy (sget s cid) = true -> zlen data = k_len (sget s cid) -> bytes_ok data -> 0 < off < zlen data ->
  c_data (rget r (Z.of_nat cid)) = firstn (Z.to_nat off) data -> 128 <= w_size s -> r_size r = w_size s -> is_byte (k_type (sget s cid)) ->
  exists d, next_chunk cid data off s = Ok (put_out (sput s cid (with_busy (sget s cid) (off + w_size s <? zlen data))) d, Z.min (zlen data - off) (w_size s)) /\
    bytes_ok d /\ d <> [] /\
    forall rest, on_open_input r (d ++ rest) = chunk_done r (Z.of_nat cid) (with_data (rget r (Z.of_nat cid)) (firstn (Z.to_nat (Z.min (zlen data) (off + w_size s))) data)) (zlen d).
Proof.
  intros s r cid data off (I & BB & DD) CID AG BU LE DB OFF CD SZ RS TB. unfold next_chunk.
  assert (X : negb ((2 <=? cid)%nat && (cid <? NUM_CHUNKSTREAMS)%nat) = false) by (unfold NUM_CHUNKSTREAMS; destruct (Nat.leb_spec 2 cid); [|lia]; destruct (Nat.ltb_spec cid 24); [reflexivity|lia]). rewrite X. clear X. cbv zeta. rewrite BU. cbn [negb].
  set (k := sget s cid) in *. set (c := rget r (Z.of_nat cid)) in *. destruct AG as [A1 A2 A3 A4 A5]. assert (KI : k_init k = true) by (destruct (k_init k) eqn:Q; [reflexivity|rewrite (A4 eq_refl) in BU; discriminate]). destruct (A2 KI) as (B1 & B2 & B3 & B4 & B5).
  destruct (ro_chunk _ I (Z.of_nat cid)) as (C1 & C2 & C3 & C4 & C5). fold c in C1, C2, C3, C4, C5. rewrite <- LE. rewrite B4, <- LE in C3.
  assert (W : wrap64 (zlen data - off) = zlen data - off) by (unfold wrap64; lia). rewrite W.
  assert (SB : (off + Z.min (zlen data - off) (w_size s) <? zlen data) = (off + w_size s <? zlen data)) by (destruct (Z.ltb_spec (off + Z.min (zlen data - off) (w_size s)) (zlen data)), (Z.ltb_spec (off + w_size s) (zlen data)); lia). rewrite SB.
  assert (HD : basic_header 192 (Z.of_nat cid) ++ (if k_delta k >=? 16777215 then u32 (k_delta k) else []) = whead 192 cid (k_delta k) (k_len k) (k_type k) (k_sid k)) by reflexivity. rewrite HD. rewrite B3 in C2.
  destruct (whead_ok 192 cid (k_delta k) (k_len k) (k_type k) (k_sid k)) as (H1 & H2); auto; [cbn; auto|rewrite <- LE; unfold is_u32, U32MAX; lia|].
  eexists. split; [reflexivity|]. split; [apply bytes_ok_app; split; [exact H1|apply bytes_ok_firstn, bytes_ok_skipn, DB]|]. split; [intros Q; apply app_eq_nil in Q as (Q & _); exact (H2 Q)|]. intros rest.
  assert (DL : zlen (c_data c) = off) by (rewrite CD, firstn_min; lia).
  rewrite (parse_head r 192 cid (k_delta k) (k_len k) (k_type k) (k_sid k)); auto.
  - f_equal. fold c. unfold update. cbn [Z.eqb Pos.eqb]. rewrite DL. destruct (Z.eqb_spec off 0); [lia|]. unfold with_data. cbn [c_sid c_ts c_delta c_len c_type c_init c_data]. rewrite <- B3. f_equal. rewrite CD.
    replace (firstn (Z.to_nat (Z.min (zlen data) (off + w_size s))) data) with (firstn (Z.to_nat off) (firstn (Z.to_nat (Z.min (zlen data) (off + w_size s))) data) ++ skipn (Z.to_nat off) (firstn (Z.to_nat (Z.min (zlen data) (off + w_size s))) data)) by apply firstn_skipn.
    rewrite firstn_firstn, skipn_firstn_comm. f_equal; f_equal; lia.
  - cbn. auto.
  - rewrite <- LE. lia.
  - intros _. fold c. congruence.
  - fold c. cbn [Z.eqb Pos.eqb]. rewrite DL, <- LE, W, RS. rewrite firstn_min by lia. assert (zlen (skipn (Z.to_nat off) data) = zlen data - off) by (unfold zlen in *; rewrite skipn_length; lia). lia.
Qed.

(** ** The two ends of the connection *)
Definition waiting (q : qmsg) : Prop := q_off q = 0 /\ q_cs q = None /\ fits (q_msg q) /\ reserved (g_type (q_msg q)) = false.
Record sending (s : sender) (r : receiver) (q : qmsg) (cid : nat) : Prop := mkSending {
  sd_cs : q_cs q = Some cid;
  sd_cid : (3 <= cid < 24)%nat;
  sd_busy : k_busy (sget s cid) = true;
  sd_k : k_sid (sget s cid) = g_sid (q_msg q) /\ k_ts (sget s cid) = g_ts (q_msg q) /\ k_len (sget s cid) = zlen (g_data (q_msg q)) /\ k_type (sget s cid) = g_type (q_msg q);
  sd_fits : fits (q_msg q);
  sd_type : reserved (g_type (q_msg q)) = false;
  sd_off : 0 < q_off q < zlen (g_data (q_msg q));
  sd_data : c_data (rget r (Z.of_nat cid)) = firstn (Z.to_nat (q_off q)) (g_data (q_msg q)) }.
Record Rel (s : sender) (r : receiver) : Prop := mkRel {
  l_cs : length (w_cs s) = 24%nat;
  l_q : length (w_q s) = 8%nat;
  l_size : 128 <= w_size s <= 2147483647;
  l_fine : fine r;
  l_buf : r_buf r = [];
  l_rsize : 128 <= r_size r;
  l_state : match w_state s with Before => r_size r = 128 | Closed => True | _ => r_size r = w_size s end;
  l_agree : forall cid, (2 <= cid < 24)%nat -> agree (sget s cid) (rget r (Z.of_nat cid));
  l_two : k_busy (sget s 2) = false;
  l_tail : forall pri q l, qget s pri = q :: l -> Forall waiting l;
  l_head : forall pri q l, qget s pri = q :: l -> waiting q \/ exists cid, sending s r q cid;
  l_busy : forall cid, (3 <= cid < 24)%nat -> k_busy (sget s cid) = true -> exists pri q l, qget s pri = q :: l /\ q_cs q = Some cid;
  l_one : forall p1 q1 l1 p2 q2 l2 cid, qget s p1 = q1 :: l1 -> qget s p2 = q2 :: l2 -> q_cs q1 = Some cid -> q_cs q2 = Some cid -> p1 = p2;
  l_msgs : r_msgs r = finished s }.
Lemma sget_put : forall s cid k i, length (w_cs s) = 24%nat -> (cid < 24)%nat -> sget (sput s cid k) i = if (i =? cid)%nat then k else sget s i.
Proof. intros. unfold sget, sput. cbn. apply nth_set. lia. Qed.
Lemma qget_put : forall s pri q i, length (w_q s) = 8%nat -> (pri < 8)%nat -> qget (qput s pri q) i = if (i =? pri)%nat then q else qget s i.
Proof. intros. unfold qget, qput. cbn. apply nth_set. lia. Qed.
Lemma qget_pri : forall s pri q l, length (w_q s) = 8%nat -> qget s pri = q :: l -> (pri < 8)%nat.
Proof. intros s pri q l L E. unfold qget in E. destruct (Nat.lt_ge_cases pri 8) as [H|H]; [exact H|]. rewrite nth_overflow in E by lia. discriminate. Qed.
(** what a control message does *)
Record told (s : sender) (r : receiver) (s' : sender) (r' : receiver) (size : Z) (ab : option nat) : Prop := mkTold {
  t_state : w_state s' = w_state s;
  t_size : w_size s' = w_size s;
  t_q : w_q s' = w_q s;
  t_log : w_log s' = w_log s;
  t_len : length (w_cs s') = 24%nat;
  t_get : forall i, i <> 2%nat -> sget s' i = sget s i;
  t_two : k_busy (sget s' 2) = false;
  t_agree : agree (sget s' 2) (rget r' 2);
  t_out : exists d, w_out s' = w_out s ++ d /\ bytes_ok d /\ eats (more r d) r';
  t_rget : forall i, i <> 2%nat -> rget r' (Z.of_nat i) = match ab with Some j => if (i =? j)%nat then with_data (rget r (Z.of_nat i)) [] else rget r (Z.of_nat i) | None => rget r (Z.of_nat i) end;
  t_rsize : r_size r' = size;
  t_msgs : r_msgs r' = r_msgs r;
  t_buf : r_buf r' = [] }.
Lemma more_fine : forall r d r', fine r -> bytes_ok d -> eats (more r d) r' -> fine r'.
Proof. intros r d r' F B E. apply (eats_fine _ _ E). apply fine_more; assumption. Qed.
Lemma zlen_u32 : forall v, zlen (u32 v) = 4. Proof. reflexivity. Qed.
Lemma control_told : forall s r ty v now size ab,
  length (w_cs s) = 24%nat -> 128 <= w_size s -> fine r -> r_buf r = [] -> 128 <= r_size r -> agree (sget s 2) (rget r 2) -> k_busy (sget s 2) = false -> is_u32 v ->
  ((ty = 3 \/ ty = 5) /\ ab = None /\ size = r_size r \/
   ty = 1 /\ ab = None /\ size = v /\ 1 <= v <= 2147483647 \/
   ty = 2 /\ size = r_size r /\ exists i, ab = Some i /\ (3 <= i < 24)%nat /\ v = Z.of_nat i /\ c_init (rget r v) = true) ->
  exists s' r', control ty v now s = Ok s' /\ told s r s' r' size ab.
Proof.
  intros s r ty v now size ab LC SZ F RB RS AG NB VU KIND.
  assert (TY : is_byte ty) by (unfold is_byte; destruct KIND as [([-> | ->] & _)|[(-> & _)|(-> & _)]]; lia). assert (RT : reserved ty = true) by (destruct KIND as [([-> | ->] & _)|[(-> & _)|(-> & _)]]; reflexivity).
  destruct (start_eats s r 2 (mkMsg 0 ty 0 (u32 v)) now F) as (d & e & vv & E1 & E2 & E3 & E4 & E5); auto; [lia| | |]; cbn [g_data g_sid g_ts g_type] in *.
  { split; [|cbn [g_data]; rewrite zlen_u32; lia]. split; [unfold is_u32, U32MAX; cbn; lia|]. split; [exact TY|]. split; [unfold is_u32, U32MAX; cbn; lia|apply bytes_u32, VU]. }
  { rewrite zlen_u32. lia. }
  unfold control. rewrite E1. cbn [rbind]. specialize (E5 []). rewrite app_nil_r in E5. rewrite !zlen_u32 in E5. replace (Z.min 4 (w_size s)) with 4 in E5 by lia. change (Z.to_nat 4) with 4%nat in E5. change (firstn 4 (u32 v)) with (u32 v) in E5. change (Z.of_nat 2) with 2 in E5.
  set (c := mkRC 0 0 e 4 ty true (u32 v)) in *. unfold chunk_done in E5. cbn [c c_data c_len c_sid c_type c_ts] in E5. change (c_data c) with (u32 v) in E5. change (c_len c) with 4 in E5. rewrite zlen_u32 in E5. cbn [Z.gtb Z.compare Pos.compare Pos.compare_cont Z.eqb Pos.eqb] in E5.
  unfold completed in E5. cbn [g_type g_sid g_data] in E5. change (c_type c) with ty in E5. change (c_sid c) with 0 in E5. rewrite RT in E5. cbn [Z.eqb negb] in E5. rewrite zlen_u32 in E5. change (4 <? 4) with false in E5. cbn iota in E5.
  pose proof (rd32_cons v [] VU) as RV. rewrite app_nil_r in RV. rewrite RV in E5. cbn [rbind] in E5.
  assert (R1 : exists r1, on_open_input r d = Ok (Took (rput r1 2 (with_data c [])) (zlen d)) /\ r_size r1 = size /\ r_msgs r1 = r_msgs r /\
     forall i, i <> 2%nat -> rget r1 (Z.of_nat i) = match ab with Some j => if (i =? j)%nat then with_data (rget r (Z.of_nat i)) [] else rget r (Z.of_nat i) | None => rget r (Z.of_nat i) end).
  { assert (N2 : forall i, i <> 2%nat -> rget (rput r 2 c) (Z.of_nat i) = rget r (Z.of_nat i)) by (intros i N; rewrite rget_put; destruct (Z.eqb_spec (Z.of_nat i) 2); [lia|reflexivity]).
    destruct KIND as [(T & -> & ->)|[(-> & -> & -> & V)|(-> & -> & i & -> & IB & VE & CI)]].
    - exists (rput r 2 c). split; [|auto]. rewrite E5. destruct T as [-> | ->]; reflexivity.
    - exists (with_rsize (rput r 2 c) v). split; [|auto]. rewrite E5. cbn [Z.eqb Pos.eqb]. destruct (Z.eqb_spec v 0); [lia|]. destruct (Z.gtb_spec v 2147483647); [lia|]. reflexivity.
    - exists (rput (rput r 2 c) v (with_data (rget (rput r 2 c) v) [])). split; [|].
      + rewrite E5. cbn [Z.eqb Pos.eqb]. destruct (Z.ltb_spec v 2); [lia|]. destruct (Z.gtb_spec v 65599); [lia|]. cbn [orb]. rewrite rget_put. destruct (Z.eqb_spec v 2); [lia|]. rewrite CI. cbn [negb rbind]. rewrite (rget_put _ v). destruct (Z.eqb_spec 2 v); [lia|]. rewrite rget_put. rewrite Z.eqb_refl. reflexivity.
      + split; [reflexivity|]. split; [reflexivity|]. intros j N. rewrite rget_put. subst v. rewrite (rget_put r 2). destruct (Nat.eqb_spec j i) as [->|Q]; [rewrite Z.eqb_refl; destruct (Z.eqb_spec (Z.of_nat i) 2); [lia|reflexivity]|]. destruct (Z.eqb_spec (Z.of_nat j) (Z.of_nat i)); [lia|]. apply N2, N. }
  destruct R1 as (r1 & R1 & RS1 & RM & RG). eexists. exists (with_buf (rput r1 2 (with_data c [])) []). split; [reflexivity|].
  assert (EA : eats (more r d) (with_buf (rput r1 2 (with_data c [])) [])) by (apply eat_one; auto).
  constructor; try reflexivity; auto.
  - cbn. rewrite set_length. exact LC.
  - intros i N. change (sget (put_out (sput s 2 (mkSC 0 0 e (zlen (u32 v)) ty true vv now (w_size s <? zlen (u32 v)))) d) i) with (sget (sput s 2 (mkSC 0 0 e (zlen (u32 v)) ty true vv now (w_size s <? zlen (u32 v)))) i). rewrite sget_put by (auto; lia). destruct (Nat.eqb_spec i 2); [lia|reflexivity].
  - change (sget (put_out (sput s 2 (mkSC 0 0 e (zlen (u32 v)) ty true vv now (w_size s <? zlen (u32 v)))) d) 2) with (sget (sput s 2 (mkSC 0 0 e (zlen (u32 v)) ty true vv now (w_size s <? zlen (u32 v)))) 2). rewrite sget_put by (auto; lia). cbn [Nat.eqb k_busy]. rewrite zlen_u32. apply Z.ltb_ge. lia.
  - change (sget (put_out (sput s 2 (mkSC 0 0 e (zlen (u32 v)) ty true vv now (w_size s <? zlen (u32 v)))) d) 2) with (sget (sput s 2 (mkSC 0 0 e (zlen (u32 v)) ty true vv now (w_size s <? zlen (u32 v)))) 2). rewrite sget_put by (auto; lia). cbn [Nat.eqb]. constructor; cbn; auto; try discriminate. unfold is_u32, U32MAX. lia.
  - exists d. split; [reflexivity|]. auto.
  - intros i N. change (rget (with_buf (rput r1 2 (with_data c [])) []) (Z.of_nat i)) with (rget (rput r1 2 (with_data c [])) (Z.of_nat i)). rewrite rget_put. destruct (Z.eqb_spec (Z.of_nat i) 2); [lia|]. apply RG, N.
Qed.
Lemma finished_log : forall s s', w_log s' = w_log s -> finished s' = finished s.
Proof. intros s s' E. unfold finished. rewrite E. reflexivity. Qed.
(** the outcome of a step *)
Definition goes (s : sender) (r : receiver) (x : res sender) : Prop :=
  exists s' r' d, x = Ok s' /\ w_out s' = w_out s ++ d /\ bytes_ok d /\ eats (more r d) r' /\ Rel s' r'.
Lemma goes_same : forall s r s', w_out s' = w_out s -> Rel s' r -> goes s r (Ok s').
Proof. intros s r s' E R. exists s', r, []. split; [reflexivity|]. split; [rewrite app_nil_r; exact E|]. split; [constructor|]. split; [|exact R]. unfold more. rewrite app_nil_r. replace (with_buf r (r_buf r)) with r by (destruct r; reflexivity). constructor. Qed.
Lemma rel_told : forall s0 s r s' r' size, Rel s0 r -> w_cs s = w_cs s0 -> w_q s = w_q s0 -> w_log s = w_log s0 -> 128 <= w_size s <= 2147483647 -> told s r s' r' size None ->
  (match w_state s with Before => size = 128 | Closed => True | _ => size = w_size s end) -> 128 <= size -> Rel s' r'.
Proof.
  intros s0 s r s' r' size R EC EQ EL SZ T ST RS. destruct R, T. assert (Q : forall p, qget s' p = qget s0 p) by (intros; unfold qget; rewrite t_q0, EQ; reflexivity). destruct t_out0 as (d & D1 & D2 & D3).
  assert (SG : forall i, sget s i = sget s0 i) by (intros; unfold sget; rewrite EC; reflexivity).
  assert (AGR : forall cid, (3 <= cid < 24)%nat -> sget s' cid = sget s0 cid /\ rget r' (Z.of_nat cid) = rget r (Z.of_nat cid)) by (intros; split; [rewrite <- SG; apply t_get0|apply t_rget0]; lia).
  constructor; auto.
  - congruence.
  - rewrite t_size0. exact SZ.
  - exact (more_fine _ _ _ l_fine0 D2 D3).
  - congruence.
  - rewrite t_state0, t_size0, t_rsize0. exact ST.
  - intros cid C. destruct (Nat.eq_dec cid 2) as [->|N]; [exact t_agree0|]. destruct (AGR cid) as (-> & ->); [lia|]. apply l_agree0, C.
  - intros p q l. rewrite Q. apply l_tail0.
  - intros p q l E. rewrite Q in E. destruct (l_head0 p q l E) as [W|(cid & W)]; [left; exact W|right]. exists cid. destruct W. destruct (AGR cid sd_cid0) as (X & Y). constructor; auto; rewrite ?X, ?Y; auto.
  - intros cid C B. destruct (AGR cid C) as (X & _). rewrite X in B. destruct (l_busy0 cid C B) as (p & q & l & E & F). exists p, q, l. rewrite Q. auto.
  - intros p1 q1 l1 p2 q2 l2 cid. rewrite !Q. apply l_one0.
  - rewrite t_msgs0, l_msgs0. symmetry. apply finished_log. congruence.
Qed.
Lemma told_goes : forall s0 s r x size, w_out s = w_out s0 -> w_cs s = w_cs s0 -> w_q s = w_q s0 -> w_log s = w_log s0 -> 128 <= w_size s <= 2147483647 -> Rel s0 r -> (exists s' r', x = Ok s' /\ told s r s' r' size None) ->
  (match w_state s with Before => size = 128 | Closed => True | _ => size = w_size s end) -> 128 <= size -> goes s0 r x.
Proof.
  intros s0 s r x size E EC EQ EL SZ R (s' & r' & -> & T) A B. destruct (t_out _ _ _ _ _ _ T) as (d & D1 & D2 & D3). exists s', r', d. rewrite D1, E. split; [reflexivity|]. split; [reflexivity|]. split; [exact D2|]. split; [exact D3|]. exact (rel_told _ _ _ _ _ _ R EC EQ EL SZ T A B).
Qed.
Lemma land31 : forall x, 0 <= x <= 2147483647 -> Z.land x 2147483647 = x.
Proof. intros x X. change 2147483647 with (Z.ones 31). rewrite Z.land_ones by lia. apply Z.mod_small. change (2 ^ 31) with 2147483648. lia. Qed.
Lemma land24 : forall x, 0 <= x < 16777216 -> Z.land x 16777215 = x.
Proof. intros x X. change 16777215 with (Z.ones 24). rewrite Z.land_ones by lia. apply Z.mod_small. change (2 ^ 24) with 16777216. lia. Qed.
Lemma size_goes : forall s0 s r now, w_out s = w_out s0 -> w_cs s = w_cs s0 -> w_q s = w_q s0 -> w_log s = w_log s0 -> 128 <= w_size s <= 2147483647 -> w_state s = Opened -> Rel s0 r -> goes s0 r (queue_set_chunk_size now s).
Proof.
  intros s0 s r now E EC EQ EL SZ ST R. apply (told_goes s0 s r _ (w_size s)); auto; [|rewrite ST; reflexivity|lia]. destruct R. unfold queue_set_chunk_size. rewrite land31 by lia. assert (SG : sget s 2 = sget s0 2) by (unfold sget; rewrite EC; reflexivity).
  apply control_told; auto; try congruence; try lia; [rewrite SG; apply (l_agree0 2%nat); lia|unfold is_u32, U32MAX; lia|right; left; repeat split; lia].
Qed.
Lemma note_goes : forall s r ty v now, Rel s r -> (w_state s = Opened \/ w_state s = Closing) -> ty = 3 \/ ty = 5 -> is_u32 v -> goes s r (control ty v now s).
Proof.
  intros s r ty v now R ST T V. apply (told_goes s s r _ (r_size r)); auto; destruct R; auto.
  - apply control_told; auto; try lia. apply (l_agree0 2%nat). lia.
Qed.
Lemma rel_change : forall s r s' r' pri q l q2 cid,
  Rel s r -> qget s pri = q :: l -> length (w_cs s') = 24%nat -> length (w_q s') = 8%nat -> w_size s' = w_size s -> w_state s' = w_state s -> fine r' -> r_buf r' = [] -> r_size r' = r_size r ->
  (forall p, qget s' p = if (p =? pri)%nat then q2 else qget s p) ->
  (2 <= cid < 24)%nat -> (q_cs q = Some cid \/ waiting q /\ k_busy (sget s cid) = false) ->
  (forall i, (3 <= i < 24)%nat -> i <> cid -> sget s' i = sget s i /\ rget r' (Z.of_nat i) = rget r (Z.of_nat i)) ->
  agree (sget s' cid) (rget r' (Z.of_nat cid)) -> agree (sget s' 2) (rget r' 2) -> k_busy (sget s' 2) = false ->
  (q2 = l /\ k_busy (sget s' cid) = false \/ exists q', q2 = q' :: l /\ sending s' r' q' cid) ->
  r_msgs r' = finished s' -> Rel s' r'.
Proof.
  intros s r s' r' pri q l q2 cid R E LC LQ SZ ST F RB RS QG CID OWN OTH AG AG2 B2 NEW MS. destruct R.
  assert (NC : forall p q0 l0 c0, p <> pri -> qget s p = q0 :: l0 -> q_cs q0 = Some c0 -> c0 <> cid).
  { intros p q0 l0 c0 N E0 C0 ->. destruct OWN as [O|(_ & O)]; [apply N; eapply l_one0; eauto|]. destruct (l_head0 p q0 l0 E0) as [(_ & W & _)|(c & W)]; [congruence|]. destruct W. congruence. }
  assert (TW : Forall waiting l) by (eapply l_tail0; eauto).
  constructor; auto; try congruence.
  - rewrite ST, RS, SZ. exact l_state0.
  - intros i Ib. destruct (Nat.eq_dec i cid) as [->|N]; [exact AG|]. destruct (Nat.eq_dec i 2) as [->|N2]; [exact AG2|]. destruct (OTH i ltac:(lia) N) as (-> & ->). apply l_agree0. exact Ib.
  - intros p x k Ex. rewrite QG in Ex. destruct (Nat.eqb_spec p pri) as [->|N]; [|eapply l_tail0; eauto]. destruct NEW as [(-> & _)|(q' & -> & _)]; [rewrite Ex in TW; inversion TW; assumption|]. inversion Ex; subst. exact TW.
  - intros p x k Ex. rewrite QG in Ex. destruct (Nat.eqb_spec p pri) as [->|N].
    + destruct NEW as [(-> & _)|(q' & -> & W)]; [rewrite Ex in TW; inversion TW; left; assumption|]. inversion Ex; subst. right. exists cid. exact W.
    + destruct (l_head0 p x k Ex) as [W|(c & W)]; [left; exact W|right]. exists c. pose proof (NC p x k c N Ex (sd_cs _ _ _ _ W)) as NN. destruct W. destruct (OTH c sd_cid0 NN) as (X & Y). constructor; auto; rewrite ?X, ?Y; auto.
  - intros c C B. destruct (Nat.eq_dec c cid) as [->|N].
    + destruct NEW as [(-> & X)|(q' & -> & W)]; [congruence|]. exists pri, q', l. rewrite QG, Nat.eqb_refl. split; [reflexivity|]. apply W.
    + destruct (OTH c C N) as (X & _). rewrite X in B. destruct (l_busy0 c C B) as (p & q0 & l0 & E0 & C0). exists p, q0, l0. rewrite QG. destruct (Nat.eqb_spec p pri) as [->|NP]; [|auto]. exfalso. rewrite E in E0. inversion E0; subst. destruct OWN as [O|((_ & W & _) & O)]; congruence.
  - intros p1 q1 l1 p2 q2' l2 c E1 E2 C1 C2. rewrite QG in E1, E2. destruct (Nat.eqb_spec p1 pri) as [->|N1], (Nat.eqb_spec p2 pri) as [->|N2]; auto; [| |eapply l_one0; eauto].
    + exfalso. destruct NEW as [(-> & _)|(q' & -> & W)]; [rewrite E1 in TW; inversion TW as [|? ? (_ & Y & _)]; congruence|]. inversion E1; subst. destruct W. rewrite sd_cs0 in C1. inversion C1; subst. exact (NC _ _ _ _ N2 E2 C2 eq_refl).
    + exfalso. destruct NEW as [(-> & _)|(q' & -> & W)]; [rewrite E2 in TW; inversion TW as [|? ? (_ & Y & _)]; congruence|]. inversion E2; subst. destruct W. rewrite sd_cs0 in C2. inversion C2; subst. exact (NC _ _ _ _ N1 E1 C1 eq_refl).
Qed.
Lemma finished_put : forall s x, finished (put_log s x) = finished s ++ flat_map (fun e => match e with (_, m, true) => [m] | _ => [] end) x.
Proof. intros. unfold finished, put_log. cbn. apply flat_map_app. Qed.
Lemma agree_init : forall s r cid, agree (sget s cid) (rget r (Z.of_nat cid)) -> k_busy (sget s cid) = true -> k_init (sget s cid) = true.
Proof. intros s r cid [_ _ _ A _] B. destruct (k_init (sget s cid)); [reflexivity|]. rewrite A in B by reflexivity. discriminate. Qed.
Lemma trim_goes : forall s r pri now, Rel s r -> goes s r (trim pri now s).
Proof.
  intros s r pri now R. unfold trim. destruct (qget s pri) as [|q l] eqn:E; [apply goes_same; auto|]. pose proof (qget_pri s pri q l (l_q _ _ R) E) as PB.
  destruct (l_head _ _ R pri q l E) as [W|(cid & W)].
  - destruct W as (O & C & FT) eqn:WW. rewrite O, C. change (0 =? 0) with true. cbn [rbind]. apply goes_same; [reflexivity|].
    apply (rel_change s r _ r pri q l l 2 R E); try reflexivity; try (destruct R; assumption); try lia.
    + cbn. rewrite set_length. apply R.
    + intros p. apply (qget_put s pri l p); [apply R|exact PB].
    + right. split; [exact (conj O (conj C FT))|exact (l_two _ _ R)].
    + auto.
    + apply (l_agree _ _ R 2%nat). lia.
    + apply (l_agree _ _ R 2%nat). lia.
    + left. split; [reflexivity|exact (l_two _ _ R)].
    + rewrite finished_put. cbn [flat_map app]. rewrite app_nil_r. exact (l_msgs _ _ R).
  - destruct W. rewrite sd_cs0, sd_busy0. destruct (Z.eqb_spec (q_off q) 0); [lia|]. cbn [negb andb]. pose proof (l_agree _ _ R cid ltac:(lia)) as AGc. pose proof (agree_init _ _ _ AGc sd_busy0) as KI.
    destruct (control_told s r 2 (Z.of_nat cid) now (r_size r) (Some cid)) as (s1 & r1 & E1 & T); try (destruct R; assumption); [destruct R; lia|apply (l_agree _ _ R 2%nat); lia|unfold is_u32, U32MAX; lia| |].
    { right. right. split; [reflexivity|]. split; [reflexivity|]. exists cid. split; [reflexivity|]. split; [lia|]. split; [reflexivity|]. rewrite (ag_init _ _ AGc). exact KI. }
    unfold queue_abort. rewrite land24 by lia. rewrite E1. cbn [rbind]. destruct T. destruct t_out0 as (d & D1 & D2 & D3).
    exists (put_log (qput (sput s1 cid (with_busy (sget s1 cid) false)) pri l) [(pri, q_msg q, false)]), r1, d. split; [reflexivity|]. split; [cbn; exact D1|]. split; [exact D2|]. split; [exact D3|].
    assert (SG : forall i, sget (put_log (qput (sput s1 cid (with_busy (sget s1 cid) false)) pri l) [(pri, q_msg q, false)]) i = if (i =? cid)%nat then with_busy (sget s1 cid) false else sget s1 i) by (intros i; apply (sget_put s1 cid _ i t_len0); lia).
    apply (rel_change s r _ r1 pri q l l cid R E); auto; try lia.
    + cbn. rewrite set_length. exact t_len0.
    + cbn. rewrite set_length, t_q0. apply R.
    + exact (more_fine _ _ _ (l_fine _ _ R) D2 D3).
    + intros p. transitivity (qget (qput s1 pri l) p); [reflexivity|]. rewrite qget_put; [|rewrite t_q0; apply R|exact PB]. unfold qget. rewrite t_q0. reflexivity.
    + intros i Ib N. rewrite SG. destruct (Nat.eqb_spec i cid); [contradiction|]. split; [apply t_get0; lia|]. rewrite t_rget0 by lia. destruct (Nat.eqb_spec i cid); [contradiction|reflexivity].
    + rewrite SG, Nat.eqb_refl. rewrite t_get0 by lia. rewrite t_rget0 by lia. rewrite Nat.eqb_refl. destruct AGc. constructor; cbn; auto.
    + rewrite SG. destruct (Nat.eqb_spec 2 cid); [lia|]. exact t_agree0.
    + rewrite SG. destruct (Nat.eqb_spec 2 cid); [lia|]. exact t_two0.
    + left. split; [reflexivity|]. rewrite SG, Nat.eqb_refl. reflexivity.
    + rewrite finished_put. cbn [flat_map app]. rewrite app_nil_r. rewrite t_msgs0, (l_msgs _ _ R). symmetry. apply finished_log. exact t_log0.
Qed.

(** ** Finding a chunk stream *)
Lemma find_loop_ok : forall s m (P : nat -> Prop) l best, (forall i, In i l -> k_init (sget s i) = false -> k_busy (sget s i) = false) -> (forall i, In i l -> k_busy (sget s i) = false -> P i) ->
  (forall b, best = Some b -> P b) -> (best <> None \/ exists i, In i l /\ k_busy (sget s i) = false) -> exists i, find_loop s m l best = Ok i /\ P i.
Proof.
  intros s m P l. induction l as [|i l IH]; intros best FR PL PB EX; cbn [find_loop].
  - destruct best as [b|]; [exists b; auto|]. destruct EX as [X|(i & [] & _)]; congruence.
  - destruct (k_init (sget s i)) eqn:KI; cbn [negb]; [|exists i; split; [reflexivity|]; apply PL; [left; reflexivity|]; apply FR; [left; reflexivity|exact KI]].
    assert (IH' : forall b, (forall x, b = Some x -> P x) -> b <> None \/ (exists j, In j l /\ k_busy (sget s j) = false) -> exists j, find_loop s m l b = Ok j /\ P j).
    { intros b X Y. apply IH; auto; intros; [apply FR|apply PL]; auto; right; assumption. }
    destruct (k_busy (sget s i)) eqn:KB.
    + apply IH'; [exact PB|]. destruct EX as [X|(j & [J|J] & B)]; [auto|congruence|eauto].
    + assert (PI : P i) by (apply PL; [left; reflexivity|exact KB]). assert (PBB : P (match best with Some b => b | None => i end)) by (destruct best; auto). set (b := match best with Some b => b | None => i end) in *. clearbody b.
      assert (GO : forall x, P x -> exists j, find_loop s m l (Some x) = Ok j /\ P j) by (intros x Px; apply IH'; [intros y Y; inversion Y; subst; exact Px|left; discriminate]).
      destruct (_ && _); [exists i; auto|]. cbv zeta. destruct (k_sid (sget s i) =? g_sid m).
      * apply GO. destruct (k_used _ <? _); [exact PI|]. destruct (_ =? _); assumption.
      * destruct (_ && _); apply GO; assumption.
Qed.
Lemma some_idle : forall s r, Rel s r -> exists i, In i (seq 3 21) /\ k_busy (sget s i) = false.
Proof.
  intros s r R. destruct (existsb (fun i => negb (k_busy (sget s i))) (seq 3 21)) eqn:E.
  - apply existsb_exists in E as (i & A & B). exists i. split; [exact A|]. destruct (k_busy (sget s i)); [discriminate|reflexivity].
  - exfalso. set (own := fun q : list qmsg => match q with x :: _ => match q_cs x with Some c => [c] | None => [] end | [] => [] end).
    assert (L : forall q : list (list qmsg), (length (flat_map own q) <= length q)%nat) by (induction q as [|x q IH]; cbn; [lia|]; rewrite app_length; unfold own at 1; destruct x as [|y x]; [cbn; lia|]; destruct (q_cs y); cbn; lia).
    assert (INC : incl (seq 3 21) (flat_map own (w_q s))).
    { intros i A. pose proof A as A'. apply in_seq in A'. assert (B : k_busy (sget s i) = true). { destruct (k_busy (sget s i)) eqn:B; [reflexivity|]. exfalso. assert (T : existsb (fun i => negb (k_busy (sget s i))) (seq 3 21) = true) by (apply existsb_exists; exists i; rewrite B; auto). congruence. }
      destruct (l_busy _ _ R i ltac:(lia) B) as (p & q & l & E1 & E2). apply in_flat_map. exists (q :: l). split; [|unfold own; rewrite E2; left; reflexivity]. pose proof (qget_pri _ _ _ _ (l_q _ _ R) E1) as PB. rewrite <- E1. unfold qget. apply nth_In. rewrite (l_q _ _ R). exact PB. }
    pose proof (NoDup_incl_length (seq_NoDup 21 3) INC) as N. specialize (L (w_q s)). rewrite seq_length in N. rewrite (l_q _ _ R) in L. lia.
Qed.
Lemma find_ok : forall s r m, Rel s r -> exists cid, find_chunk s m = Ok cid /\ (2 <= cid < 24)%nat /\ k_busy (sget s cid) = false /\ (cid = 2%nat -> zlen (g_data m) <= w_size s).
Proof.
  intros s r m R. unfold find_chunk. destruct ((g_sid m =? 0) && (g_type m =? 4) && (zlen (g_data m) <=? w_size s) && negb (k_busy (sget s 2))) eqn:E.
  - apply andb_true_iff in E as (E & _). apply andb_true_iff in E as (_ & E). apply Z.leb_le in E. exists 2%nat. split; [reflexivity|]. split; [lia|]. split; [apply (l_two _ _ R)|auto].
  - destruct (find_loop_ok s m (fun i => (3 <= i < 24)%nat /\ k_busy (sget s i) = false) (seq 3 21) None) as (i & A & B & C).
    + intros i Hi. apply in_seq in Hi. apply (ag_fresh _ _ (l_agree _ _ R i ltac:(lia))).
    + intros i Hi Hb. apply in_seq in Hi. split; [lia|exact Hb].
    + discriminate.
    + right. exact (some_idle s r R).
    + exists i. split; [exact A|]. split; [lia|]. split; [exact C|lia].
Qed.
Lemma pick_ok : forall s n pri, pick s n = Some pri -> exists q l, qget s pri = q :: l.
Proof. induction n as [|n IH]; intros pri E; [discriminate|]. cbn in E. destruct (qget s n) as [|q l] eqn:Q; [auto|]. inversion E; subst. eauto. Qed.
Lemma chunk_deliver : forall r cid c need, zlen (c_data c) = c_len c -> reserved (c_type c) = false ->
  chunk_done r cid c need = Ok (Took (rput (deliver (rput r cid c) (mkMsg (c_sid c) (c_type c) (c_ts c) (c_data c))) cid (with_data c [])) need).
Proof.
  intros r cid c need E T. unfold chunk_done. rewrite E. destruct (Z.gtb_spec (c_len c) (c_len c)); [lia|]. rewrite Z.eqb_refl. cbv zeta. unfold completed. cbn [g_type]. rewrite T. cbn [rbind].
  assert (X : rget (deliver (rput r cid c) (mkMsg (c_sid c) (c_type c) (c_ts c) (c_data c))) cid = c) by (change (rget (rput r cid c) cid = c); rewrite rget_put, Z.eqb_refl; reflexivity). rewrite X. reflexivity.
Qed.
Lemma chunk_part : forall r cid c need, zlen (c_data c) < c_len c -> chunk_done r cid c need = Ok (Took (rput r cid c) need).
Proof. intros r cid c need L. unfold chunk_done. destruct (Z.gtb_spec (zlen (c_data c)) (c_len c)); [lia|]. destruct (Z.eqb_spec (zlen (c_data c)) (c_len c)); [lia|]. reflexivity. Qed.
(** the end of on_writable, for a chunk that was queued on cid *)
Definition rest_of (pri : nat) (q : qmsg) (l : list qmsg) (cid : nat) (off : Z) (s1 : sender) : res sender :=
  if k_busy (sget s1 cid) then Ok (qput s1 pri (mkQ (q_msg q) off (Some cid) :: l)) else Ok (put_log (qput s1 pri l) [(pri, q_msg q, true)]).
Lemma chunk_goes : forall s r pri q l cid k d e data off,
  Rel s r -> (w_state s = Opened \/ w_state s = Closing) -> qget s pri = q :: l -> (2 <= cid < 24)%nat -> (q_cs q = Some cid \/ waiting q /\ k_busy (sget s cid) = false) ->
  fits (q_msg q) -> reserved (g_type (q_msg q)) = false ->
  k_sid k = g_sid (q_msg q) -> k_ts k = g_ts (q_msg q) -> k_delta k = e -> k_len k = zlen (g_data (q_msg q)) -> k_type k = g_type (q_msg q) -> k_init k = true -> k_busy k = (off <? zlen (g_data (q_msg q))) ->
  (k_busy k = true -> (3 <= cid)%nat /\ 0 < off) -> off <= zlen (g_data (q_msg q)) -> data = firstn (Z.to_nat off) (g_data (q_msg q)) -> 0 <= off ->
  bytes_ok d -> d <> [] ->
  on_open_input r d = chunk_done r (Z.of_nat cid) (mkRC (g_sid (q_msg q)) (g_ts (q_msg q)) e (zlen (g_data (q_msg q))) (g_type (q_msg q)) true data) (zlen d) ->
  goes s r (rest_of pri q l cid off (put_out (sput s cid k) d)).
Proof.
  intros s r pri q l cid k d e data off R ST E CID OWN FT RT K1 K2 K3 K4 K5 K6 KB KO OL DT O0 DB DN IN. pose proof (qget_pri s pri q l (l_q _ _ R) E) as PB.
  set (c := mkRC (g_sid (q_msg q)) (g_ts (q_msg q)) e (zlen (g_data (q_msg q))) (g_type (q_msg q)) true data) in *.
  set (s1 := put_out (sput s cid k) d). assert (SG : forall i, sget s1 i = if (i =? cid)%nat then k else sget s i) by (intros i; apply (sget_put s cid k i (l_cs _ _ R)); lia).
  assert (L1 : length (w_cs s1) = 24%nat) by (cbn; rewrite set_length; apply R). assert (DL : zlen data = off) by (rewrite DT, firstn_min; lia).
  unfold rest_of. rewrite SG, Nat.eqb_refl. assert (SID : is_u32 (k_sid k)) by (rewrite K1; apply FT).
  destruct (k_busy k) eqn:B.
  - symmetry in KB. apply Z.ltb_lt in KB. destruct (KO eq_refl) as (C3 & O1). rewrite chunk_part in IN by (cbn; lia).
    pose proof (eat_one r d _ (l_fine _ _ R) (l_buf _ _ R) DN IN) as EA. set (r' := with_buf (rput r (Z.of_nat cid) c) []) in *.
    assert (RG : forall i, rget r' (Z.of_nat i) = if (i =? cid)%nat then c else rget r (Z.of_nat i)) by (intros i; change (rget r' (Z.of_nat i)) with (rget (rput r (Z.of_nat cid) c) (Z.of_nat i)); rewrite rget_put; destruct (Nat.eqb_spec i cid) as [->|N]; [rewrite Z.eqb_refl; reflexivity|]; destruct (Z.eqb_spec (Z.of_nat i) (Z.of_nat cid)); [lia|reflexivity]).
    exists (qput s1 pri (mkQ (q_msg q) off (Some cid) :: l)), r', d. split; [reflexivity|]. split; [reflexivity|]. split; [exact DB|]. split; [exact EA|].
    assert (SG' : forall i, sget (qput s1 pri (mkQ (q_msg q) off (Some cid) :: l)) i = sget s1 i) by reflexivity.
    assert (AG : agree k c) by (constructor; cbn; auto; try congruence; intros _; auto 6).
    apply (rel_change s r _ r' pri q l (mkQ (q_msg q) off (Some cid) :: l) cid R E); auto.
    + cbn. rewrite set_length. apply R.
    + exact (more_fine _ _ _ (l_fine _ _ R) DB EA).
    + intros p. rewrite qget_put; [reflexivity|apply R|exact PB].
    + intros i Ib N. rewrite SG', SG, RG. destruct (Nat.eqb_spec i cid); [contradiction|auto].
    + rewrite SG', SG, RG, Nat.eqb_refl. exact AG.
    + change 2 with (Z.of_nat 2). rewrite SG', SG, RG. destruct (Nat.eqb_spec 2 cid); [lia|]. apply (l_agree _ _ R). lia.
    + rewrite SG', SG. destruct (Nat.eqb_spec 2 cid); [lia|]. apply (l_two _ _ R).
    + right. eexists. split; [reflexivity|]. constructor; cbn [q_cs q_msg q_off]; auto; try lia; rewrite ?SG', ?SG, ?RG, ?Nat.eqb_refl; auto.
    + change (r_msgs r') with (r_msgs r). rewrite (l_msgs _ _ R). reflexivity.
  - symmetry in KB. apply Z.ltb_ge in KB. assert (OE : off = zlen (g_data (q_msg q))) by lia. assert (DE : data = g_data (q_msg q)) by (rewrite DT, OE; unfold zlen; rewrite Nat2Z.id; apply firstn_all).
    rewrite chunk_deliver in IN by (cbn; try exact RT; lia). pose proof (eat_one r d _ (l_fine _ _ R) (l_buf _ _ R) DN IN) as EA. cbn [c c_sid c_type c_ts c_data] in EA. change (c_data c) with data in EA. rewrite DE in EA.
    replace (mkMsg (g_sid (q_msg q)) (g_type (q_msg q)) (g_ts (q_msg q)) (g_data (q_msg q))) with (q_msg q) in EA by (destruct (q_msg q); reflexivity). set (r' := with_buf _ []) in *.
    assert (RG : forall i, rget r' (Z.of_nat i) = if (i =? cid)%nat then with_data c [] else rget r (Z.of_nat i)).
    { intros i. change (rget r' (Z.of_nat i)) with (rget (rput (rput r (Z.of_nat cid) c) (Z.of_nat cid) (with_data c [])) (Z.of_nat i)). rewrite !rget_put. destruct (Nat.eqb_spec i cid) as [->|N]; [rewrite Z.eqb_refl; reflexivity|]. destruct (Z.eqb_spec (Z.of_nat i) (Z.of_nat cid)); [lia|reflexivity]. }
    exists (put_log (qput s1 pri l) [(pri, q_msg q, true)]), r', d. split; [reflexivity|]. split; [reflexivity|]. split; [exact DB|]. split; [exact EA|].
    assert (SG' : forall i, sget (put_log (qput s1 pri l) [(pri, q_msg q, true)]) i = sget s1 i) by reflexivity.
    assert (AG : agree k (with_data c [])) by (constructor; cbn; auto; try congruence; intros _; auto 6).
    apply (rel_change s r _ r' pri q l l cid R E); auto.
    + cbn. rewrite set_length. apply R.
    + exact (more_fine _ _ _ (l_fine _ _ R) DB EA).
    + intros p. transitivity (qget (qput s1 pri l) p); [reflexivity|]. rewrite qget_put; [reflexivity|apply R|exact PB].
    + intros i Ib N. rewrite SG', SG, RG. destruct (Nat.eqb_spec i cid); [contradiction|auto].
    + rewrite SG', SG, RG, Nat.eqb_refl. exact AG.
    + change 2 with (Z.of_nat 2). rewrite SG', SG, RG. destruct (Nat.eqb_spec 2 cid); [exact AG|]. apply (l_agree _ _ R). lia.
    + rewrite SG', SG. destruct (Nat.eqb_spec 2 cid); [exact B|]. apply (l_two _ _ R).
    + left. split; [reflexivity|]. rewrite SG', SG, Nat.eqb_refl. exact B.
    + rewrite finished_put. change (r_msgs r') with (r_msgs r ++ [q_msg q]). rewrite (l_msgs _ _ R). reflexivity.
Qed.
Lemma writable_goes : forall s r now, Rel s r -> goes s r (on_writable now s).
Proof.
  intros s r now R. unfold on_writable.
  assert (GO : w_state s = Opened \/ w_state s = Closing -> forall pri, pick s NUM_PRIORITIES = Some pri ->
    goes s r (match qget s pri with [] => UB | q :: l => rbind (match q_cs q with None => rbind (find_chunk s (q_msg q)) (fun cid => rbind (start_chunk cid (q_msg q) now s) (fun p => let (s1, n) := p in Ok (s1, cid, n))) | Some cid => rbind (next_chunk cid (g_data (q_msg q)) (q_off q) s) (fun p => let (s1, n) := p in Ok (s1, cid, q_off q + n)) end)
      (fun p => let (p0, off) := p in let (s1, cid) := p0 in rest_of pri q l cid off s1) end)).
  { intros ST pri P. destruct (pick_ok s _ pri P) as (q & l & E). rewrite E. pose proof (l_size _ _ R) as SZ. assert (RS : r_size r = w_size s) by (pose proof (l_state _ _ R) as X; destruct ST as [Y|Y]; rewrite Y in X; exact X).
    destruct (l_head _ _ R pri q l E) as [W|(cid & W)].
    - pose proof W as (O & C & FT & RT). rewrite C. destruct (find_ok s r (q_msg q) R) as (cid & F1 & F2 & F3 & F4). rewrite F1. cbn [rbind].
      destruct (start_eats s r cid (q_msg q) now (l_fine _ _ R) F2 (l_agree _ _ R cid F2) F3 FT) as (d & e & v & E1 & E2 & E3 & E4 & E5); [lia|rewrite RS; lia|]. rewrite E1. cbn [rbind]. pose proof (zlen_nonneg _ (g_data (q_msg q))) as LN. specialize (E5 []). rewrite app_nil_r in E5.
      eapply (chunk_goes s r pri q l cid _ d e _ (Z.min (zlen (g_data (q_msg q))) (w_size s))); [exact R|exact ST|exact E|exact F2|right; split; [exact W|exact F3]|exact FT|exact RT|..| |exact E5]; cbn [k_sid k_ts k_delta k_len k_type k_init k_busy]; auto; try lia.
    - destruct W. rewrite sd_cs0. pose proof (l_agree _ _ R cid ltac:(lia)) as AG. pose proof (agree_init _ _ _ AG sd_busy0) as KI. destruct sd_k0 as (K1 & K2 & K3 & K4). destruct sd_fits0 as ((M1 & M2 & M3 & M4) & M5).
      destruct (next_eats s r cid (g_data (q_msg q)) (q_off q) (l_fine _ _ R)) as (d & E1 & E2 & E3 & E4); auto; try lia; [rewrite K4; exact M2|]. rewrite E1. cbn [rbind]. specialize (E4 []). rewrite app_nil_r in E4.
      destruct (ag_same _ _ AG KI) as (A1 & A2 & A3 & A4 & A5). pose proof (ag_init _ _ AG) as A6. unfold with_data in E4. rewrite A1, A2, A4, A5, A6, KI, K1, K2, K3, K4 in E4.
      eapply (chunk_goes s r pri q l cid _ d _ _ (q_off q + Z.min (zlen (g_data (q_msg q)) - q_off q) (w_size s))); [exact R|exact ST|exact E|lia|left; exact sd_cs0|split; [split; auto|exact M5]|exact sd_type0|..| |exact E4]; cbn [with_busy k_sid k_ts k_delta k_len k_type k_init k_busy]; auto; try lia.
      f_equal. lia. }
  destruct (w_state s) eqn:ST; try (apply goes_same; auto; fail).
  - destruct (pick s NUM_PRIORITIES) as [pri|] eqn:P; [|apply goes_same; auto]. apply GO; auto.
  - destruct (pick s NUM_PRIORITIES) as [pri|] eqn:P; [|apply goes_same; [reflexivity|]; destruct R; constructor; auto; cbn; auto; intros p q l H; cbn; destruct (l_head0 p q l H) as [W|(cid & W)]; [left; exact W|right; exists cid; destruct W; constructor; auto]]. apply GO; auto.
Qed.

(** ** Every step *)
Lemma sending_ext : forall s s' r q cid, w_cs s' = w_cs s -> sending s r q cid -> sending s' r q cid.
Proof. intros s s' r q cid E []. assert (X : forall i, sget s' i = sget s i) by (intros; unfold sget; rewrite E; reflexivity). constructor; auto; rewrite ?X; auto. Qed.
Lemma rel_ext : forall s s' r, Rel s r -> w_cs s' = w_cs s -> w_q s' = w_q s -> w_log s' = w_log s -> 128 <= w_size s' <= 2147483647 ->
  (match w_state s' with Before => r_size r = 128 | Closed => True | _ => r_size r = w_size s' end) -> Rel s' r.
Proof.
  intros s s' r R EC EQ EL SZ ST. destruct R. assert (X : forall i, sget s' i = sget s i) by (intros; unfold sget; rewrite EC; reflexivity). assert (Y : forall i, qget s' i = qget s i) by (intros; unfold qget; rewrite EQ; reflexivity).
  constructor; auto; try congruence.
  - intros cid C. rewrite X. auto.
  - intros p q l E. rewrite Y in E. eauto.
  - intros p q l E. rewrite Y in E. destruct (l_head0 p q l E) as [W|(cid & W)]; [auto|]. right. exists cid. exact (sending_ext _ _ _ _ _ EC W).
  - intros cid C B. rewrite X in B. destruct (l_busy0 cid C B) as (p & q & l & E & F). exists p, q, l. rewrite Y. auto.
  - intros p1 q1 l1 p2 q2 l2 cid. rewrite !Y. apply l_one0.
  - rewrite l_msgs0. symmetry. apply finished_log. exact EL.
Qed.
Lemma write_rel : forall s r pri m, Rel s r -> (pri < 8)%nat -> msg_ok m -> Rel (write pri m s) r.
Proof.
  intros s r pri m R PB M. unfold write. destruct (may_write (w_state s) m) eqn:MW; [|exact R].
  assert (W : waiting (mkQ m 0 None)).
  { unfold may_write in MW. destruct (w_state s); try discriminate; apply andb_true_iff in MW as (A & B); apply Z.leb_le in A; (split; [reflexivity|]; split; [reflexivity|]; split; [split; [exact M|cbn; lia]|]); cbn; destruct (reserved (g_type m)); auto; discriminate. }
  assert (QG : forall p, qget (qput s pri (qget s pri ++ [mkQ m 0 None])) p = if (p =? pri)%nat then qget s pri ++ [mkQ m 0 None] else qget s p) by (intros p; apply qget_put; [apply R|exact PB]).
  assert (HD : forall p q l, qget (qput s pri (qget s pri ++ [mkQ m 0 None])) p = q :: l -> (q = mkQ m 0 None /\ l = []) \/ exists l0, qget s p = q :: l0 /\ (l = l0 \/ l = l0 ++ [mkQ m 0 None])).
  { intros p q l E. rewrite QG in E. destruct (Nat.eqb_spec p pri) as [->|N]; [|right; exists l; auto]. destruct (qget s pri) as [|x k]; cbn in E; inversion E; subst; [left; auto|right]. exists k. auto. }
  destruct R. constructor; auto.
  - cbn. rewrite set_length. exact l_q0.
  - intros p q l E. destruct (HD p q l E) as [(-> & ->)|(l0 & E0 & [-> | ->])]; [constructor|eauto|]. apply Forall_app. split; [eauto|repeat constructor; apply W].
  - intros p q l E. destruct (HD p q l E) as [(-> & ->)|(l0 & E0 & _)]; [left; exact W|]. destruct (l_head0 p q l0 E0) as [W0|(cid & W0)]; [left; exact W0|right]. exists cid. apply (sending_ext s); [reflexivity|exact W0].
  - intros cid C B. destruct (l_busy0 cid C B) as (p & q & l & E & F). destruct (Nat.eq_dec p pri) as [->|N].
    + exists pri, q, (l ++ [mkQ m 0 None]). rewrite QG, Nat.eqb_refl, E. auto.
    + exists p, q, l. rewrite QG. destruct (Nat.eqb_spec p pri); [contradiction|auto].
  - intros p1 q1 l1 p2 q2 l2 cid E1 E2 C1 C2. destruct (HD _ _ _ E1) as [(-> & _)|(k1 & F1 & _)]; [discriminate|]. destruct (HD _ _ _ E2) as [(-> & _)|(k2 & F2 & _)]; [discriminate|]. eauto.
Qed.
Lemma step_goes : forall s r o, Rel s r -> sop_ok o -> goes s r (sstep s o).
Proof.
  intros s r o R O. destruct o as [now|pri m|n now|b| |pri now|now|v now|v now]; cbn [sstep sop_ok] in *.
  - destruct (w_state s) eqn:ST; try (apply goes_same; auto; fail). cbv zeta. pose proof (l_size _ _ R) as SZ. pose proof (l_state _ _ R) as LS. rewrite ST in LS. cbn [with_state w_size]. destruct (Z.eqb_spec (w_size s) 128) as [E|N].
    + apply goes_same; [reflexivity|]. apply (rel_ext s); auto. cbn. congruence.
    + apply size_goes; auto.
  - apply goes_same; [unfold write; destruct (may_write _ _); reflexivity|]. apply write_rel; [exact R|apply O|apply O].
  - unfold set_chunk_size. pose proof (l_size _ _ R) as SZ. pose proof (l_state _ _ R) as LS. destruct (w_state s) eqn:ST; try (apply goes_same; auto; fail); cbv zeta.
    + remember (if (if n <? 128 then 128 else n) >? 2147483647 then 2147483647 else if n <? 128 then 128 else n) as k eqn:Ek. assert (K : 128 <= k <= 2147483647) by (subst k; destruct (Z.ltb_spec n 128); [|]; match goal with |- context [?x >? 2147483647] => destruct (Z.gtb_spec x 2147483647) end; lia). destruct (k =? w_size s); [apply goes_same; auto|]. cbn [with_size w_state]. rewrite ST. apply goes_same; [reflexivity|]. apply (rel_ext s); auto. cbn. rewrite ST. exact LS.
    + remember (if (if n <? 128 then 128 else n) >? 2147483647 then 2147483647 else if n <? 128 then 128 else n) as k eqn:Ek. assert (K : 128 <= k <= 2147483647) by (subst k; destruct (Z.ltb_spec n 128); [|]; match goal with |- context [?x >? 2147483647] => destruct (Z.gtb_spec x 2147483647) end; lia). destruct (k =? w_size s); [apply goes_same; auto|]. cbn [with_size w_state]. rewrite ST. apply size_goes; auto.
  - apply goes_same; [reflexivity|]. apply (rel_ext s); auto; apply R.
  - pose proof (l_state _ _ R) as LS. destruct (w_state s) eqn:ST; apply goes_same; try reflexivity; try exact R; apply (rel_ext s); auto; try apply R; cbn; auto.
  - destruct (w_state s) eqn:ST; try (apply goes_same; auto; fail); apply trim_goes; exact R.
  - apply writable_goes; exact R.
  - destruct (w_state s) eqn:ST; try (apply goes_same; auto; fail); apply note_goes; auto.
  - destruct (w_state s) eqn:ST; try (apply goes_same; auto; fail); apply note_goes; auto.
Qed.
Lemma run_goes : forall ops s r, Rel s r -> Forall sop_ok ops -> goes s r (srun s ops).
Proof.
  induction ops as [|o ops IH]; intros s r R F; [apply goes_same; auto|]. inversion F as [|? ? Fo Fl]; subst. destruct (step_goes s r o R Fo) as (s1 & r1 & d1 & E1 & O1 & B1 & A1 & R1). cbn [srun]. rewrite E1. cbn [rbind].
  destruct (IH s1 r1 R1 Fl) as (s2 & r2 & d2 & E2 & O2 & B2 & A2 & R2). exists s2, r2, (d1 ++ d2). split; [exact E2|]. split; [rewrite O2, O1, app_assoc; reflexivity|]. split; [apply bytes_ok_app; auto|]. split; [|exact R2].
  rewrite more_app. eapply eats_trans; [|exact A2]. apply eats_more; [exact A1|]. apply fine_more; [apply R|exact B1].
Qed.
Lemma sget_init : forall i, sget s_init i = sc0.
Proof. intros i. unfold sget. cbn [s_init w_cs]. destruct (Nat.lt_ge_cases i 24) as [H|H]; [apply nth_repeat|apply nth_overflow; rewrite repeat_length; exact H]. Qed.
Lemma qget_init : forall i, qget s_init i = [].
Proof. intros i. unfold qget. cbn [s_init w_q]. destruct (Nat.lt_ge_cases i 8) as [H|H]; [apply nth_repeat|apply nth_overflow; rewrite repeat_length; exact H]. Qed.
Lemma rel_init : Rel s_init r_init.
Proof.
  constructor; try reflexivity; try (cbn; lia); try apply r_init_fine.
  - intros cid _. rewrite sget_init. constructor; cbn; auto; try discriminate. unfold is_u32, U32MAX. lia.
  - intros p q l E. rewrite qget_init in E. discriminate.
  - intros p q l E. rewrite qget_init in E. discriminate.
  - intros cid _ B. rewrite sget_init in B. discriminate.
  - intros p q l p2 q2 l2 cid E. rewrite qget_init in E. discriminate.
Qed.
(** ** The theorems *)
Lemma rtmp_runs : forall ops, Forall sop_ok ops -> exists s, srun s_init ops = Ok s /\ bytes_ok (w_out s).
Proof. intros ops F. destruct (run_goes ops _ _ rel_init F) as (s & r & d & E & O & B & _). exists s. rewrite O. auto. Qed.
Lemma concat_bytes : forall l, Forall bytes_ok l -> bytes_ok (concat l).
Proof. intros l F. induction F; cbn; [constructor|apply bytes_ok_app; auto]. Qed.
Lemma concat_bytes_inv : forall l, bytes_ok (concat l) -> Forall bytes_ok l.
Proof. induction l as [|x l IH]; intros B; [constructor|]. cbn in B. apply bytes_ok_app in B as (A & B). constructor; auto. Qed.
Lemma rtmp_whole : forall ops s, Forall sop_ok ops -> srun s_init ops = Ok s -> exists r, receive r_init (w_out s) = Ok r /\ r_dead r = false /\ r_buf r = [] /\ r_msgs r = finished s.
Proof.
  intros ops s F E. destruct (run_goes ops _ _ rel_init F) as (s' & r & d & E' & O & B & A & R). rewrite E in E'. apply Ok_inj in E'. subst s'. cbn in O. rewrite O. destruct (receive_is r_init d r_init_fine B) as (r1 & r2 & A1 & S1 & X).
  exists r. split; [|split; [apply (l_fine _ _ R)|split; [apply R|apply (l_msgs _ _ R)]]]. rewrite X. f_equal. symmetry. eapply stops_det; [exact A| |exact A1|exact S1]. left. split; [reflexivity|]. left. apply R.
Qed.
Lemma rtmp_reassembled : forall ops s pieces later, Forall sop_ok ops -> srun s_init ops = Ok s -> concat pieces ++ later = w_out s ->
  exists r more_, receives r_init pieces = Ok r /\ r_dead r = false /\ r_msgs r ++ more_ = finished s /\ (later = [] -> r_msgs r = finished s /\ r_buf r = []).
Proof.
  intros ops s pieces later F E C. destruct (rtmp_whole ops s F E) as (w & W & WD & WB & WM). assert (BO : bytes_ok (w_out s)) by (destruct (rtmp_runs ops F) as (s2 & E2 & B2); rewrite E in E2; apply Ok_inj in E2; subst; exact B2).
  rewrite <- C in BO. apply bytes_ok_app in BO as (BP & BL). destruct (receives_app pieces r_init r_init_quiet (concat_bytes_inv _ BP)) as (r & r0 & R & R0 & SM & _).
  destruct (receive_app r_init (concat pieces) later r_init_fine BP BL) as (a1 & a2 & a3 & A1 & A2 & A3 & A4 & _ & _ & A5). rewrite R0 in A1. apply Ok_inj in A1. subst a1. rewrite C in A3. rewrite W in A3. apply Ok_inj in A3. subst a3.
  assert (D0 : r_dead r0 = false). { destruct (r_dead r0) eqn:D; [|reflexivity]. unfold receive in A2. rewrite D in A2. apply Ok_inj in A2. subst a2. destruct A4 as [->|(_ & X & _)]; congruence. }
  destruct SM as [->|(_ & X & _)]; [|congruence]. destruct A4 as [->|(_ & X & _)]; [|congruence]. destruct A5 as (x & X). exists r0, x. split; [exact R|]. split; [exact D0|]. split; [congruence|]. intros ->. rewrite app_nil_r in C. rewrite C, W in R0. apply Ok_inj in R0. subst r0. auto.
Qed.
(** order within a priority *)
Definition content (pri : nat) (s : sender) : list msg := left_queue pri s ++ map q_msg (qget s pri).
Definition running (st : state) : bool := match st with Before | Opened => true | _ => false end.
Lemma control_keeps : forall ty v now s s1, control ty v now s = Ok s1 -> w_q s1 = w_q s /\ w_log s1 = w_log s /\ w_state s1 = w_state s.
Proof. intros ty v now s s1 E. unfold control, start_chunk in E. cbn [negb andb Nat.leb Nat.ltb NUM_CHUNKSTREAMS rbind] in E. apply Ok_inj in E. subst s1. auto. Qed.
Lemma content_keeps : forall pri s s1, w_q s1 = w_q s -> w_log s1 = w_log s -> content pri s1 = content pri s.
Proof. intros pri s s1 Q L. unfold content, left_queue, qget. rewrite Q, L. reflexivity. Qed.
Lemma left_put : forall pri s p m b, left_queue pri (put_log s [(p, m, b)]) = left_queue pri s ++ (if (p =? pri)%nat then [m] else []).
Proof. intros. unfold left_queue, put_log. cbn [w_log]. rewrite flat_map_app. cbn [flat_map]. rewrite app_nil_r. reflexivity. Qed.
Lemma content_pop : forall pri p s s1 q l b, length (w_q s) = 8%nat -> (p < 8)%nat -> qget s p = q :: l -> w_q s1 = w_q s -> w_log s1 = w_log s -> content pri (put_log (qput s1 p l) [(p, q_msg q, b)]) = content pri s.
Proof.
  intros pri p s s1 q l b LQ PB E EQ EL. unfold content. rewrite left_put. change (qget (put_log (qput s1 p l) [(p, q_msg q, b)]) pri) with (qget (qput s1 p l) pri). rewrite qget_put by (auto; congruence). change (left_queue pri (qput s1 p l)) with (left_queue pri s1). unfold left_queue. rewrite EL. rewrite <- app_assoc. f_equal. unfold qget in *. rewrite EQ. rewrite (Nat.eqb_sym pri p).
  destruct (Nat.eqb_spec p pri) as [->|N]; [|reflexivity]. rewrite E. reflexivity.
Qed.
Lemma content_swap : forall pri p s s1 q q' l, length (w_q s) = 8%nat -> (p < 8)%nat -> qget s p = q :: l -> w_q s1 = w_q s -> w_log s1 = w_log s -> q_msg q' = q_msg q -> content pri (qput s1 p (q' :: l)) = content pri s.
Proof.
  intros pri p s s1 q q' l LQ PB E EQ EL EM. unfold content. rewrite qget_put by (auto; congruence). change (left_queue pri (qput s1 p (q' :: l))) with (left_queue pri s1). unfold left_queue. rewrite EL. f_equal. unfold qget in *. rewrite EQ.
  destruct (Nat.eqb_spec pri p) as [->|N]; [|reflexivity]. rewrite E. cbn. congruence.
Qed.
Lemma chunk_keeps : forall s s1 q now cid n,
  (match q_cs q with None => rbind (find_chunk s (q_msg q)) (fun cid => rbind (start_chunk cid (q_msg q) now s) (fun p => let (s1, n) := p in Ok (s1, cid, n))) | Some cid => rbind (next_chunk cid (g_data (q_msg q)) (q_off q) s) (fun p => let (s1, n) := p in Ok (s1, cid, q_off q + n)) end) = Ok (s1, cid, n) ->
  w_q s1 = w_q s /\ w_log s1 = w_log s /\ w_state s1 = w_state s.
Proof.
  intros s s1 q now cid n E. destruct (q_cs q) as [c|].
  - unfold next_chunk in E. destruct (negb (_ && _)); [discriminate|]. destruct (negb _); [discriminate|]. cbn [rbind] in E. apply Ok_inj in E. inversion E. subst. auto.
  - destruct (find_chunk s (q_msg q)) as [c| |]; try discriminate. cbn [rbind] in E. unfold start_chunk in E. destruct (negb (_ && _)); [discriminate|]. cbn [rbind] in E. apply Ok_inj in E. inversion E. subst. auto.
Qed.
Lemma sendable_is : forall m, sendable m = (zlen (g_data m) <=? 16777215) && negb (reserved (g_type m)).
Proof. intros m. unfold sendable, reserved. cbn [existsb]. change (2 ^ 24) with 16777216. f_equal; [destruct (Z.ltb_spec (zlen (g_data m)) 16777216), (Z.leb_spec (zlen (g_data m)) 16777215); lia|]. rewrite orb_false_r, !orb_assoc. reflexivity. Qed.
Lemma step_content : forall pri s r o s1, Rel s r -> sop_ok o -> sstep s o = Ok s1 ->
  content pri s1 = content pri s ++ (if running (w_state s) then written pri [o] else []) /\ running (w_state s1) = running (w_state s) && negb (match o with SClose => true | _ => false end).
Proof.
  intros pri s r o s1 R O E. pose proof (l_q _ _ R) as LQ.
  assert (NIL : forall x, content pri x = content pri s -> content pri x = content pri s ++ (if running (w_state s) then [] else [])) by (intros x X; destruct (running _); rewrite app_nil_r; exact X).
  assert (KP : forall x, w_q x = w_q s -> w_log x = w_log s -> content pri x = content pri s ++ (if running (w_state s) then [] else [])) by (intros; apply NIL, content_keeps; auto).
  destruct o as [now|p m|n now|b| |p now|now|v now|v now]; cbn [sstep sop_ok written] in *.
  - rewrite andb_true_r. destruct (w_state s) eqn:ST; try (apply Ok_inj in E; subst s1; rewrite ST; split; [apply KP; auto|reflexivity]). cbv zeta in E. destruct (_ =? 128); [apply Ok_inj in E; subst s1; split; [apply KP; auto|reflexivity]|]. destruct (control_keeps _ _ _ _ _ E) as (A & B & C). split; [apply KP; auto|rewrite C; reflexivity].
  - apply Ok_inj in E. subst s1. rewrite andb_true_r, app_nil_r. unfold write. assert (MW : may_write (w_state s) m = running (w_state s) && sendable m) by (rewrite sendable_is; unfold may_write; destruct (w_state s); reflexivity). rewrite MW. destruct (running (w_state s)) eqn:RN; cbn [andb]; [|split; [rewrite app_nil_r; reflexivity|exact RN]].
    destruct (sendable m); [|rewrite andb_false_r, app_nil_r; split; [reflexivity|exact RN]]. split; [|exact RN]. rewrite andb_true_r. unfold content. rewrite qget_put by (auto; apply O). change (left_queue pri (qput s p (qget s p ++ [mkQ m 0 None]))) with (left_queue pri s). rewrite <- app_assoc. f_equal. rewrite (Nat.eqb_sym pri p). destruct (Nat.eqb_spec p pri) as [->|N]; [rewrite map_app; reflexivity|rewrite app_nil_r; reflexivity].
  - rewrite andb_true_r. unfold set_chunk_size in E. destruct (w_state s) eqn:ST; try (apply Ok_inj in E; subst s1; rewrite ST; split; [apply KP; auto|reflexivity]); cbv zeta in E.
    + match type of E with (if ?k =? w_size s then _ else _) = _ => destruct (k =? w_size s) end; [apply Ok_inj in E; subst s1; rewrite ST; split; [apply KP; auto|reflexivity]|]. cbn [with_size w_state] in E. rewrite ST in E. apply Ok_inj in E. subst s1. cbn. rewrite ST. split; [apply KP; auto|reflexivity].
    + match type of E with (if ?k =? w_size s then _ else _) = _ => destruct (k =? w_size s) end; [apply Ok_inj in E; subst s1; rewrite ST; split; [apply KP; auto|reflexivity]|]. cbn [with_size w_state] in E. rewrite ST in E. destruct (control_keeps _ _ _ _ _ E) as (A & B & C). split; [apply KP; auto|rewrite C; cbn; rewrite ST; reflexivity].
  - apply Ok_inj in E. subst s1. rewrite andb_true_r. split; [apply KP; reflexivity|reflexivity].
  - rewrite andb_false_r. destruct (w_state s) eqn:ST; apply Ok_inj in E; subst s1; (split; [apply KP; reflexivity|cbn; rewrite ?ST; reflexivity]).
  - rewrite andb_true_r. assert (TR : trim p now s = Ok s1 -> content pri s1 = content pri s ++ (if running (w_state s) then [] else []) /\ running (w_state s1) = running (w_state s)).
    { intros T. unfold trim in T. destruct (qget s p) as [|q l] eqn:Q; [apply Ok_inj in T; subst s1; split; [apply KP; auto|reflexivity]|]. pose proof (qget_pri s p q l LQ Q) as PB.
      match type of T with rbind ?e _ = _ => destruct e as [s2| |] eqn:ES; try discriminate T end. cbn [rbind] in T. apply Ok_inj in T. subst s1.
      assert (X : w_q s2 = w_q s /\ w_log s2 = w_log s /\ w_state s2 = w_state s). { destruct (q_cs q) as [cid|]; [|destruct (q_off q =? 0); [apply Ok_inj in ES; subst; auto|discriminate]]. destruct (_ && _); [|apply Ok_inj in ES; subst; auto]. unfold queue_abort in ES. destruct (control 2 _ now s) as [s3| |] eqn:C; try discriminate. cbn [rbind] in ES. apply Ok_inj in ES. subst s2. exact (control_keeps _ _ _ _ _ C). }
      destruct X as (X1 & X2 & X3). split; [apply NIL, content_pop; auto|cbn; rewrite X3; reflexivity]. }
    destruct (w_state s) eqn:ST; [exact (TR E)|exact (TR E)|exact (TR E)|]. apply Ok_inj in E. subst s1. rewrite ST. split; [apply KP; auto|reflexivity].
  - rewrite andb_true_r. unfold on_writable in E.
    assert (WR : forall p0, pick s NUM_PRIORITIES = Some p0 -> (match qget s p0 with [] => UB | q :: l => rbind (match q_cs q with None => rbind (find_chunk s (q_msg q)) (fun cid => rbind (start_chunk cid (q_msg q) now s) (fun p => let (s1, n) := p in Ok (s1, cid, n))) | Some cid => rbind (next_chunk cid (g_data (q_msg q)) (q_off q) s) (fun p => let (s1, n) := p in Ok (s1, cid, q_off q + n)) end)
      (fun p => let (p1, off) := p in let (s1, cid) := p1 in rest_of p0 q l cid off s1) end) = Ok s1 -> content pri s1 = content pri s ++ (if running (w_state s) then [] else []) /\ running (w_state s1) = running (w_state s)).
    { intros p0 PK T. destruct (qget s p0) as [|q l] eqn:Q; [discriminate|]. pose proof (qget_pri s p0 q l LQ Q) as PB. match type of T with rbind ?e _ = _ => destruct e as [((s2 & cid) & n)| |] eqn:ES; try discriminate T end. cbn [rbind] in T. destruct (chunk_keeps _ _ _ _ _ _ ES) as (X1 & X2 & X3). unfold rest_of in T. destruct (k_busy _); apply Ok_inj in T; subst s1.
      - split; [apply NIL; apply (content_swap pri p0 s s2 q); auto|cbn; rewrite X3; reflexivity].
      - split; [apply NIL; apply content_pop; auto|cbn; rewrite X3; reflexivity]. }
    destruct (w_state s) eqn:ST; try (apply Ok_inj in E; subst s1; rewrite ST; split; [apply KP; auto|reflexivity]).
    + destruct (pick s NUM_PRIORITIES) as [p0|]; [exact (WR p0 eq_refl E)|]. apply Ok_inj in E; subst s1; rewrite ST; split; [apply KP; auto|reflexivity].
    + destruct (pick s NUM_PRIORITIES) as [p0|]; [exact (WR p0 eq_refl E)|]. apply Ok_inj in E; subst s1. split; [apply KP; auto|reflexivity].
  - rewrite andb_true_r. destruct (w_state s) eqn:ST; try (apply Ok_inj in E; subst s1; rewrite ST; split; [apply KP; auto|reflexivity]); destruct (control_keeps _ _ _ _ _ E) as (A & B & C); (split; [apply KP; auto|rewrite C, ST; reflexivity]).
  - rewrite andb_true_r. destruct (w_state s) eqn:ST; try (apply Ok_inj in E; subst s1; rewrite ST; split; [apply KP; auto|reflexivity]); destruct (control_keeps _ _ _ _ _ E) as (A & B & C); (split; [apply KP; auto|rewrite C, ST; reflexivity]).
Qed.
Lemma written_cons : forall pri o l, written pri (o :: l) = written pri [o] ++ (if negb (match o with SClose => true | _ => false end) then written pri l else []).
Proof. intros pri o l. destruct o; cbn [written negb app]; try reflexivity. rewrite app_nil_r. reflexivity. Qed.
Lemma run_content : forall pri ops s r s1, Rel s r -> Forall sop_ok ops -> srun s ops = Ok s1 -> content pri s1 = content pri s ++ (if running (w_state s) then written pri ops else []).
Proof.
  induction ops as [|o ops IH]; intros s r s1 R F E; [apply Ok_inj in E; subst; cbn; destruct (running _); rewrite app_nil_r; reflexivity|]. inversion F as [|? ? Fo Fl]; subst. destruct (step_goes s r o R Fo) as (s2 & r2 & d & E2 & _ & _ & _ & R2). cbn [srun] in E. rewrite E2 in E. cbn [rbind] in E.
  destruct (step_content pri s r o s2 R Fo E2) as (C1 & C2). rewrite (IH s2 r2 s1 R2 Fl E), C1, C2, <- app_assoc. f_equal. rewrite (written_cons pri o ops). destruct (running (w_state s)); cbn [andb]; [|reflexivity]. destruct (negb _); rewrite ?app_nil_r; reflexivity.
Qed.
Lemma rtmp_order : forall ops s pri, Forall sop_ok ops -> srun s_init ops = Ok s -> left_queue pri s ++ map q_msg (qget s pri) = written pri ops.
Proof. intros ops s pri F E. pose proof (run_content pri ops s_init r_init s rel_init F E) as X. unfold content in X at 2. rewrite qget_init in X. exact X. Qed.
(** ** Progress *)
Definition owed (q : qmsg) : Z := zlen (g_data (q_msg q)) + 1 - q_off q.
Definition qw (l : list qmsg) : Z := fold_right (fun q n => owed q + n) 0 l.
Definition weight (s : sender) : Z := fold_right (fun l n => qw l + n) 0 (w_q s).
Lemma weight_set : forall (w : list (list qmsg)) p new, (p < length w)%nat -> fold_right (fun l n => qw l + n) 0 (set_nth w p new) = fold_right (fun l n => qw l + n) 0 w - qw (nth p w []) + qw new.
Proof. induction w as [|x w IH]; intros p new L; [cbn in L; lia|]. destruct p; cbn [set_nth fold_right nth]; [lia|]. rewrite IH by (cbn in L; lia). lia. Qed.
Lemma weight_nonneg : forall s r, Rel s r -> 0 <= weight s.
Proof.
  intros s r R. assert (Q : forall l, In l (w_q s) -> 0 <= qw l).
  { intros l Hl. apply (In_nth _ _ []) in Hl as (p & PB & E). destruct l as [|q l]; [cbn; lia|]. assert (T : Forall waiting l) by (eapply (l_tail _ _ R p); exact E). assert (W : forall q, waiting q -> 0 <= owed q) by (intros x (X & _); unfold owed; rewrite X; pose proof (zlen_nonneg _ (g_data (q_msg x))); lia).
    assert (H0 : 0 <= owed q) by (destruct (l_head _ _ R p q l E) as [X|(cid & [])]; [auto|unfold owed; lia]). cbn. assert (H1 : 0 <= fold_right (fun q n => owed q + n) 0 l) by (induction T as [|x k Tx Tk IHk]; cbn; [lia|]; pose proof (W x Tx); assert (In k (w_q s) -> True) by auto; assert (X : 0 <= fold_right (fun q n => owed q + n) 0 k) by (clear - Tk W; induction Tk; cbn; [lia|]; pose proof (W _ H); lia); lia). lia. }
  unfold weight. revert Q. generalize (w_q s). induction l as [|x l IH]; intros Q; cbn; [lia|]. pose proof (Q x (or_introl eq_refl)). specialize (IH (fun y Y => Q y (or_intror Y))). lia.
Qed.
Lemma rest_less : forall s s2 pri q l cid off, length (w_q s) = 8%nat -> (pri < 8)%nat -> qget s pri = q :: l -> w_q s2 = w_q s -> q_off q <= zlen (g_data (q_msg q)) -> (k_busy (sget s2 cid) = true -> q_off q < off) ->
  exists s', rest_of pri q l cid off s2 = Ok s' /\ weight s' < weight s /\ w_state s' = w_state s2 /\ (w_log s' = w_log s2 \/ w_log s' = w_log s2 ++ [(pri, q_msg q, true)]).
Proof.
  intros s s2 pri q l cid off LQ PB Q EQ OL BO. unfold rest_of. assert (W : forall new, weight (qput s2 pri new) = weight s - qw (q :: l) + qw new) by (intros new; unfold weight, qput; cbn [with_q w_q]; rewrite weight_set by (rewrite EQ; lia); rewrite EQ; unfold qget in Q; rewrite Q; reflexivity).
  destruct (k_busy (sget s2 cid)); eexists; (split; [reflexivity|]).
  - split; [rewrite W; change (qw (q :: l)) with (owed q + qw l); match goal with |- context [qw (?x :: l)] => change (qw (x :: l)) with (owed x + qw l) end; unfold owed; cbn [q_msg q_off]; specialize (BO eq_refl); lia|]. split; [reflexivity|]. left. reflexivity.
  - split; [|split; [reflexivity|right; reflexivity]]. change (weight (put_log (qput s2 pri l) [(pri, q_msg q, true)])) with (weight (qput s2 pri l)). rewrite W. change (qw (q :: l)) with (owed q + qw l). unfold owed. lia.
Qed.
Lemma writable_less : forall s r now pri, Rel s r -> (w_state s = Opened \/ w_state s = Closing) -> pick s NUM_PRIORITIES = Some pri ->
  exists s', on_writable now s = Ok s' /\ weight s' < weight s /\ w_state s' = w_state s.
Proof.
  intros s r now pri R ST P. destruct (pick_ok s _ pri P) as (q & l & E). pose proof (qget_pri s pri q l (l_q _ _ R) E) as PB. pose proof (l_size _ _ R) as SZ. assert (RS : r_size r = w_size s) by (pose proof (l_state _ _ R) as X; destruct ST as [Y|Y]; rewrite Y in X; exact X).
  assert (OW : on_writable now s = rbind (match q_cs q with None => rbind (find_chunk s (q_msg q)) (fun cid => rbind (start_chunk cid (q_msg q) now s) (fun p => let (s1, n) := p in Ok (s1, cid, n))) | Some cid => rbind (next_chunk cid (g_data (q_msg q)) (q_off q) s) (fun p => let (s1, n) := p in Ok (s1, cid, q_off q + n)) end)
      (fun p => let (p0, off) := p in let (s1, cid) := p0 in rest_of pri q l cid off s1)) by (unfold on_writable; rewrite P, E; destruct ST as [Y|Y]; rewrite Y; reflexivity). rewrite OW. clear OW.
  destruct (l_head _ _ R pri q l E) as [W|(cid & W)].
  - pose proof W as (O & C & FT & RT). rewrite C. destruct (find_ok s r (q_msg q) R) as (cid & F1 & F2 & F3 & F4). rewrite F1. cbn [rbind].
    destruct (start_eats s r cid (q_msg q) now (l_fine _ _ R) F2 (l_agree _ _ R cid F2) F3 FT) as (d & e & v & E1 & _); [lia|rewrite RS; lia|]. rewrite E1. cbn [rbind]. pose proof (zlen_nonneg _ (g_data (q_msg q))) as LN.
    match goal with |- exists s', rest_of pri q l cid ?o ?s2 = Ok s' /\ _ => destruct (rest_less s s2 pri q l cid o (l_q _ _ R) PB E) as (s' & X1 & X2 & X3 & _) end; [reflexivity|lia| |exists s'; auto].
    intros B. change (k_busy (sget (sput s cid (mkSC (g_sid (q_msg q)) (g_ts (q_msg q)) e (zlen (g_data (q_msg q))) (g_type (q_msg q)) true v now (w_size s <? zlen (g_data (q_msg q))))) cid) = true) in B. rewrite sget_put in B by (try apply R; lia). rewrite Nat.eqb_refl in B. cbn in B. apply Z.ltb_lt in B. lia.
  - destruct W. rewrite sd_cs0. pose proof (l_agree _ _ R cid ltac:(lia)) as AG. destruct sd_k0 as (K1 & K2 & K3 & K4). destruct sd_fits0 as ((M1 & M2 & M3 & M4) & M5).
    destruct (next_eats s r cid (g_data (q_msg q)) (q_off q) (l_fine _ _ R)) as (d & E1 & _); auto; try lia; [rewrite K4; exact M2|]. rewrite E1. cbn [rbind].
    match goal with |- exists s', rest_of pri q l cid ?o ?s2 = Ok s' /\ _ => destruct (rest_less s s2 pri q l cid o (l_q _ _ R) PB E) as (s' & X1 & X2 & X3 & _) end; [reflexivity|lia|lia|exists s'; auto].
Qed.
Lemma pick_none : forall s n, pick s n = None -> forall p, (p < n)%nat -> qget s p = [].
Proof. induction n as [|n IH]; intros E p L; [lia|]. cbn in E. destruct (qget s n) eqn:Q; [|discriminate]. destruct (Nat.eq_dec p n) as [->|N]; [exact Q|]. apply IH; [exact E|lia]. Qed.
Lemma drains : forall k s r now, Rel s r -> (w_state s = Opened \/ w_state s = Closing) -> weight s < Z.of_nat k -> exists n s', srun s (repeat (SWritable now) n) = Ok s' /\ forall p, qget s' p = [].
Proof.
  induction k as [|k IH]; intros s r now R ST W; [pose proof (weight_nonneg s r R); lia|]. destruct (pick s NUM_PRIORITIES) as [pri|] eqn:P.
  - destruct (writable_less s r now pri R ST P) as (s1 & E1 & W1 & S1). destruct (writable_goes s r now R) as (s2 & r2 & d & E2 & _ & _ & _ & R2). rewrite E1 in E2. apply Ok_inj in E2. subst s2. destruct (IH s1 r2 now R2) as (n & s' & A & B); [rewrite S1; exact ST|lia|]. exists (S n), s'. split; [|exact B]. cbn [repeat srun sstep]. rewrite E1. exact A.
  - exists 0%nat, s. split; [reflexivity|]. intros p. destruct (Nat.lt_ge_cases p 8) as [L|L]; [exact (pick_none s _ P p L)|]. unfold qget. apply nth_overflow. rewrite (l_q _ _ R). exact L.
Qed.
Lemma step_log : forall s o s1, sstep s o = Ok s1 -> (match o with STrim _ _ => False | _ => True end) -> Forall (fun e => snd e = true) (w_log s) -> Forall (fun e => snd e = true) (w_log s1).
Proof.
  intros s o s1 E NT F. destruct o as [now|p m|n now|b| |p now|now|v now|v now]; cbn [sstep] in *; try contradiction.
  - destruct (w_state s); try (apply Ok_inj in E; subst s1; exact F). cbv zeta in E. destruct (_ =? 128); [apply Ok_inj in E; subst s1; exact F|]. destruct (control_keeps _ _ _ _ _ E) as (_ & B & _). rewrite B. exact F.
  - apply Ok_inj in E. subst s1. unfold write. destruct (may_write _ _); exact F.
  - unfold set_chunk_size in E. destruct (w_state s) eqn:ST; try (apply Ok_inj in E; subst s1; exact F); cbv zeta in E; (match type of E with (if ?k =? w_size s then _ else _) = _ => destruct (k =? w_size s) end; [apply Ok_inj in E; subst s1; exact F|]); cbn [with_size w_state] in E; rewrite ST in E; [apply Ok_inj in E; subst s1; exact F|]. destruct (control_keeps _ _ _ _ _ E) as (_ & B & _). rewrite B. exact F.
  - apply Ok_inj in E. subst s1. exact F.
  - destruct (w_state s); apply Ok_inj in E; subst s1; exact F.
  - unfold on_writable in E. assert (WR : forall p0 q l, (rbind (match q_cs q with None => rbind (find_chunk s (q_msg q)) (fun cid => rbind (start_chunk cid (q_msg q) now s) (fun p => let (s1, n) := p in Ok (s1, cid, n))) | Some cid => rbind (next_chunk cid (g_data (q_msg q)) (q_off q) s) (fun p => let (s1, n) := p in Ok (s1, cid, q_off q + n)) end)
      (fun p => let (p1, off) := p in let (s1, cid) := p1 in rest_of p0 q l cid off s1)) = Ok s1 -> Forall (fun e => snd e = true) (w_log s1)).
    { intros p0 q l T. match type of T with rbind ?e _ = _ => destruct e as [((s2 & cid) & n)| |] eqn:ES; try discriminate T end. cbn [rbind] in T. destruct (chunk_keeps _ _ _ _ _ _ ES) as (_ & X2 & _). unfold rest_of in T. destruct (k_busy _); apply Ok_inj in T; subst s1; cbn; rewrite X2; [exact F|]. apply Forall_app. split; [exact F|]. constructor; [reflexivity|constructor]. }
    destruct (w_state s); try (apply Ok_inj in E; subst s1; exact F); (destruct (pick s NUM_PRIORITIES) as [p0|]; [|apply Ok_inj in E; subst s1; exact F]); (destruct (qget s p0) as [|q l]; [discriminate|]); exact (WR p0 q l E).
  - destruct (w_state s); try (apply Ok_inj in E; subst s1; exact F); destruct (control_keeps _ _ _ _ _ E) as (_ & B & _); rewrite B; exact F.
  - destruct (w_state s); try (apply Ok_inj in E; subst s1; exact F); destruct (control_keeps _ _ _ _ _ E) as (_ & B & _); rewrite B; exact F.
Qed.
Lemma run_log : forall ops s s1, srun s ops = Ok s1 -> (forall p t, ~ In (STrim p t) ops) -> Forall (fun e => snd e = true) (w_log s) -> Forall (fun e => snd e = true) (w_log s1).
Proof.
  induction ops as [|o ops IH]; intros s s1 E NT F; [apply Ok_inj in E; subst; exact F|]. cbn [srun] in E. destruct (sstep s o) as [s2| |] eqn:E2; try discriminate. cbn [rbind] in E. apply (IH s2 s1 E); [intros p t H; apply (NT p t); right; exact H|]. apply (step_log s o s2 E2); [|exact F]. destruct o; auto. apply (NT pri now). left. reflexivity.
Qed.
Lemma srun_app : forall a b s, srun s (a ++ b) = rbind (srun s a) (fun s => srun s b).
Proof. induction a as [|o a IH]; intros b s; [reflexivity|]. cbn. destruct (sstep s o); cbn [rbind]; auto. Qed.
Lemma written_tail : forall pri a n now, written pri (a ++ repeat (SWritable now) n) = written pri a.
Proof.
  intros pri a n now. assert (Z0 : written pri (repeat (SWritable now) n) = []) by (induction n; auto). induction a as [|o a IH]; [exact Z0|]. destruct o; cbn [app written]; auto. rewrite IH. reflexivity.
Qed.
Lemma rtmp_complete : forall ops s now, Forall sop_ok ops -> (forall p t, ~ In (STrim p t) ops) -> srun s_init ops = Ok s -> w_state s = Opened \/ w_state s = Closing ->
  exists n s', srun s_init (ops ++ repeat (SWritable now) n) = Ok s' /\ (forall pri, left_queue pri s' = written pri ops) /\ finished s' = map (fun e => snd (fst e)) (w_log s').
Proof.
  intros ops s now F NT E ST. destruct (run_goes ops _ _ rel_init F) as (s0 & r & d & E0 & _ & _ & _ & R). rewrite E in E0. apply Ok_inj in E0. subst s0. pose proof (weight_nonneg s r R). destruct (drains (S (Z.to_nat (weight s))) s r now R ST) as (n & s' & A & B); [lia|].
  assert (E1 : srun s_init (ops ++ repeat (SWritable now) n) = Ok s') by (rewrite srun_app, E; exact A). exists n, s'. split; [exact E1|]. assert (F1 : Forall sop_ok (ops ++ repeat (SWritable now) n)) by (apply Forall_app; split; [exact F|]; clear; induction n; cbn; constructor; auto; exact Logic.I).
  split.
  - intros pri. pose proof (rtmp_order _ s' pri F1 E1) as X. rewrite B, written_tail in X. cbn in X. rewrite app_nil_r in X. exact X.
  - assert (L : Forall (fun e => snd e = true) (w_log s')) by (apply (run_log _ _ _ E1); [|constructor]; intros p t Hin; apply in_app_or in Hin as [Hin|Hin]; [exact (NT p t Hin)|]; apply repeat_spec in Hin; discriminate).
    unfold finished. clear - L. induction (w_log s') as [|((p & m) & b) l IH]; [reflexivity|]. inversion L as [|? ? L1 L2]; subst. cbn in L1. subst b. cbn. rewrite IH by exact L2. reflexivity.
Qed.
