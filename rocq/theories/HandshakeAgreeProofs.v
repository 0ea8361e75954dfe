(** Two instances. *)
From Verif Require Import Base BaseFacts VLU VLUSpec VLUProofs Address AddressSpec AddressProofs FlashCert FlashCertProofs Cookie CookieProofs Packet PacketSpec PacketProofs Startup StartupSpec StartupProofs Mobility MobilityProofs Handshake HandshakeSpec HandshakeProofs HandshakeStepProofs.
Open Scope res_scope.

Lemma field_split : forall f1 w1 r1 f2 w2 r2, field_wire f1 w1 -> field_wire f2 w2 -> w1 ++ r1 = w2 ++ r2 -> f1 = f2 /\ w1 = w2 /\ r1 = r2.
Proof.
  intros f1 w1 r1 f2 w2 r2 (L1 & C1 & G1 & ->) (L2 & C2 & G2 & ->) E. rewrite <- !app_assoc in E. destruct (complete_vlu_prefix_unique L1 C1 L2 _ _ C2 E) as (-> & E2). assert (LE : length f1 = length f2) by (unfold zlen in *; lia).
  assert (f1 = f2) as ->. { apply (f_equal (firstn (length f1))) in E2. rewrite firstn_app, Nat.sub_diag, firstn_all, app_nil_r in E2. rewrite LE, firstn_app, Nat.sub_diag, firstn_all, app_nil_r in E2. exact E2. } split; [reflexivity|]. split; [reflexivity|]. apply app_inv_head in E2. exact E2.
Qed.
Lemma field_nonempty : forall f w, field_wire f w -> w <> [].
Proof. intros f w (L & C & _ & ->) E. apply complete_vlu_length in C. destruct L; [cbn in C; lia|discriminate]. Qed.
Lemma agree_initiator : forall crA crB A B n p cB, INV crA A -> INV crB B -> is_ses A n p -> h_role p = INITIATOR -> opened p -> h_cert p = Some cB -> only_signed crA B cB ->
  exists m q, is_ses B m q /\ h_rx q = h_tx p /\
   ((h_role q = RESPONDER /\ (exists skrc, h_far q = [skrc] /\ In skrc (h_far p)) /\ (h_skic q = [] \/ h_own p = Some (h_skic q)))
    \/ (h_role q = INITIATOR /\ exists k g h, field_wire (c_cert crB []) g /\ field_wire k h /\ h_own p = Some (g ++ h))).
Proof.
  intros crA crB A B n p cB VA VB S R O CE U. destruct (v_ses _ _ VA n p S) as (_ & H). rewrite R in H. destruct (io_open _ _ H O) as (c & (HC1 & _) & _ & k & skrc & (t & sig & W & CK) & OW & IN). assert (c = cB) as -> by congruence.
  destruct (U _ _ CK) as (r & LG). destruct (v_log _ _ VB _ LG) as (m & q & Q & [(RQ & CQ & cookie & k' & WQ & _)|(RQ & CQ & skrc' & t' & F & WQ & E)]).
  - exists m, q. split; [exact Q|]. destruct W as (i & f & I & FW & ->). destruct WQ as (i' & f' & g & h & I' & FW' & G & HW & E). rewrite <- app_assoc in E. destruct (id_unique _ _ _ _ _ _ I I' E) as (-> & _ & E1). split; [reflexivity|]. right. split; [exact RQ|]. destruct (field_split _ _ _ _ _ _ FW FW' E1) as (_ & _ & E2). exists k', g, h. split; [exact G|]. split; [exact HW|]. destruct OW as [->|OW]; [|rewrite OW; congruence]. exfalso. symmetry in E2. apply app_eq_nil in E2. apply (field_nonempty _ _ G (proj1 E2)).
  - exists m, q. split; [exact Q|]. destruct W as (i & f & I & FW & ->). destruct WQ as (i' & f' & I' & FW' & ->). rewrite <- !app_assoc in E. destruct (id_unique _ _ _ _ _ _ I I' E) as (-> & _ & E1). split; [reflexivity|]. left. split; [exact RQ|]. destruct (field_split _ _ _ _ _ _ FW FW' E1) as (-> & _ & ->). split; [exists skrc'; auto|exact OW].
Qed.
Lemma agree_responder : forall crA crB A B m q cA, INV crA A -> INV crB B -> is_ses B m q -> h_role q = RESPONDER -> h_cert q = Some cA -> only_signed crB A cA ->
  exists n p, is_ses A n p /\ h_rx p = h_tx q /\
   ((h_role p = INITIATOR /\ c_cert crA [] = cA /\ (h_skic q = [] \/ h_own p = Some (h_skic q)))
    \/ (h_role p = RESPONDER /\ exists cookie age a, h_far p = [cookie] /\ check_cookie (c_sha crB) (c_secret crB) age cookie a = Ok COOKIE_OK)).
Proof.
  intros crA crB A B m q cA VA VB S R CE U. destruct (v_ses _ _ VB m q S) as (_ & H). rewrite R in H. destruct (ro_open _ _ _ H) as (c & skrc & B1 & _ & _ & F & _ & _ & cookie & age & a & CK & t & sig & W & CH). assert (c = cA) as -> by congruence.
  destruct (U _ _ CH) as (r & LG). destruct (v_log _ _ VA _ LG) as (n & p & P & [(RP & CP & cookie' & k' & WP & OW)|(RP & CP & skrc' & t' & FP & WP & E)]).
  - exists n, p. split; [exact P|]. destruct W as (i & f & g & h & I & FW & G & HW & ->). destruct WP as (i' & f' & g' & h' & I' & FW' & G' & HW' & E). destruct (id_unique _ _ _ _ _ _ I I' E) as (-> & _ & E1). split; [reflexivity|]. left. split; [exact RP|]. destruct (field_split _ _ _ _ _ _ FW FW' E1) as (_ & _ & E2). destruct (field_split _ _ _ _ _ _ G G' E2) as (-> & _ & E3). split; [reflexivity|].
    assert (E4 : h ++ [] = h' ++ []) by (rewrite !app_nil_r; exact E3). destruct (field_split _ _ _ _ _ _ HW HW' E4) as (-> & _). exact OW.
  - exists n, p. split; [exact P|]. destruct W as (i & f & g & h & I & FW & G & HW & ->). destruct WP as (i' & f' & I' & FW' & ->). rewrite <- app_assoc in E. destruct (id_unique _ _ _ _ _ _ I I' E) as (-> & _ & E1). split; [reflexivity|]. right. split; [exact RP|]. destruct (field_split _ _ _ _ _ _ FW FW' E1) as (-> & _ & _). exists skrc', age, a. auto.
Qed.
