From Verif Require Import Base BaseFacts VLU VLUSpec VLUProofs Address AddressSpec AddressProofs Packet PacketSpec PacketProofs Startup StartupSpec.
Ltac Zify.zify_post_hook ::= Z.div_mod_to_equations.
Open Scope res_scope.

(** ** Fields and numbers *)
Lemma sized_app : forall a b, sized (a ++ b) <-> bytes_ok a /\ bytes_ok b /\ zlen a + zlen b < U64MAX.
Proof. intros a b. unfold sized. rewrite zlen_app. unfold bytes_ok. rewrite Forall_app. tauto. Qed.
Lemma sized_r : forall a b, sized (a ++ b) -> sized b.
Proof. intros a b H. apply sized_app in H. pose proof (zlen_nonneg _ a). unfold sized. split; [tauto|lia]. Qed.
Lemma field_iff : forall l f n, sized l -> (vlu_parse_field l = Ok (f, n) <-> exists w rest, l = w ++ rest /\ field_wire f w /\ n = length w).
Proof.
  intros l f n (B & S). split.
  - intros H. pose proof (vlu_parse_field_spec l B) as P. rewrite H in P. destruct P as (L & rest & -> & C & G & ->). exists (L ++ f), rest. split; [apply app_assoc|]. split; [|symmetry; apply app_length].
    exists L. split; [exact C|]. split; [|reflexivity]. rewrite !zlen_app in S. pose proof (zlen_nonneg _ L). pose proof (zlen_nonneg _ rest). lia.
  - intros (w & rest & -> & (L & C & G & ->) & ->). unfold bytes_ok in B. rewrite !Forall_app in B. destruct B as ((B1 & B2) & B3). rewrite <- app_assoc, vlu_parse_field_complete; auto; [rewrite app_length; reflexivity|].
    rewrite !zlen_app in S. pose proof (zlen_nonneg _ L). pose proof (zlen_nonneg _ rest). lia.
Qed.
Lemma field_def : forall l, bytes_ok l -> vlu_parse_field l <> UB.
Proof. intros l B E. pose proof (vlu_parse_field_spec l B) as P. rewrite E in P. exact P. Qed.
Lemma field_enc : forall l, zlen l <= U64MAX -> field_wire l (vlu_encode (zlen l) ++ l).
Proof.
  intros l H. pose proof (zlen_nonneg _ l). destruct (vlu_encode_spec (zlen l)) as (C & G & _); [unfold is_u64; lia|]. exists (vlu_encode (zlen l)). auto.
Qed.
Lemma id_le32 : forall x, is_u32 x -> id_wire x (le32 x).
Proof. intros x H. unfold is_u32, U32MAX in H. exists (x mod 256), (x / 256 mod 256), (x / 65536 mod 256), (x / 16777216 mod 256). unfold is_byte, U8MAX. repeat (split; [first [reflexivity|lia]|]). lia. Qed.
Lemma id_le32_eq : forall x w, id_wire x w -> w = le32 x /\ is_u32 x.
Proof.
  intros x w (a & b & c & d & -> & A & B & C & D & ->). unfold is_byte, U8MAX in *. unfold is_u32, U32MAX. split; [|lia]. unfold le32. repeat f_equal; lia.
Qed.
Lemma id_length : forall x w, id_wire x w -> length w = 4%nat.
Proof. intros x w (a & b & c & d & -> & _). reflexivity. Qed.
Lemma un32_iff : forall l x, bytes_ok l -> (un32 l = Ok x <-> exists w rest, l = w ++ rest /\ id_wire x w).
Proof.
  intros l x B. split.
  - intros H. destruct l as [|a [|b [|c [|d r]]]]; try discriminate. cbn [un32] in H. apply Ok_inj in H. subst x. exists [a; b; c; d], r. split; [reflexivity|].
    unfold bytes_ok in B. rewrite !Forall_cons_iff in B. exists a, b, c, d. tauto.
  - intros (w & rest & -> & (a & b & c & d & -> & _ & _ & _ & _ & ->)). reflexivity.
Qed.
Lemma un32_def : forall l, (length l <? 4)%nat = false -> un32 l <> UB.
Proof. intros l H. apply Nat.ltb_ge in H. destruct l as [|a [|b [|c [|d r]]]]; cbn [length] in H; try lia. discriminate. Qed.
Lemma field_bytes : forall l w, bytes_ok l -> field_wire l w -> bytes_ok w.
Proof. intros l w B (L & C & _ & ->). apply bytes_ok_app. split; [apply complete_vlu_bytes; exact C|exact B]. Qed.

(** ** Making chunks *)
Lemma start_R : forall ty, exists p1, pa_start_chunk (pa_init (repeat 0 MAX_STARTUP_PACKET_LENGTH) 0) ty = Ok (p1, true) /\ R p1 (mkA 4256 [] (Some (ty, [])) None).
Proof.
  intros ty. unfold MAX_STARTUP_PACKET_LENGTH. assert (Z1 : zlen (repeat 0 4256) = 4256) by (unfold zlen; rewrite repeat_length; reflexivity).
  assert (R0 : R (pa_init (repeat 0 4256) 0) (mkA 4256 [] None None)).
  { exists (repeat 0 4256). cbn [pa_init p_buf p_cursor p_chunk p_flags a_bytes a_done a_open a_cap a_flag app length]. split; [reflexivity|]. split; [reflexivity|]. split; [exact Z1|]. split; [unfold U64MAX; lia|]. auto. }
  destruct (R_start _ _ ty R0) as (p1 & E1 & R1). cbn [a_step a_bytes a_done a_open a_cap a_flag app] in E1, R1. change (zlen [] + 3 <=? 4256) with true in E1, R1. cbn [fst snd] in E1, R1. eauto.
Qed.
Lemma startup_chunk_ok : forall ty pieces, Forall is_piece pieces -> startup_chunk ty pieces = Ok (if 3 + zlen (pieces_bytes pieces) <=? 4256 then Some (chunk_bytes ty (pieces_bytes pieces)) else None).
Proof.
  intros ty pieces F. unfold startup_chunk. destruct (start_R ty) as (p1 & -> & R1). cbn [rbind negb]. destruct (R_pushes pieces _ _ R1 F) as (p2 & [(L & E & R2)|(L & E & _)]); rewrite E; cbn [rbind negb];
    change (zlen (a_bytes (mkA 4256 [] (Some (ty, [])) None))) with 3 in L; cbn [a_cap] in L.
  - destruct (R_commit _ _ R2) as (p3 & -> & R3); [discriminate|]. cbn [rbind]. rewrite (R_vector _ _ R3). destruct (Z.leb_spec (3 + zlen (pieces_bytes pieces)) 4256); [|lia]. cbn [a_step a_append a_open fst a_bytes a_done app]. rewrite ?app_nil_r. reflexivity.
  - destruct (Z.leb_spec (3 + zlen (pieces_bytes pieces)) 4256); [lia|reflexivity].
Qed.
Definition field (l : list Z) : list Z := vlu_encode (zlen l) ++ l.
Definition ii_text (isid : Z) (cookie cert skic : list Z) : list Z := le32 isid ++ field cookie ++ field cert ++ field skic.
Lemma le32_bytes : forall x, bytes_ok (le32 x).
Proof. intros x. unfold le32. repeat (apply Forall_cons; [unfold is_byte, U8MAX; pose proof (Z.mod_pos_bound); lia|]). apply Forall_nil. Qed.
Lemma make_iikeying_ok : forall isid cookie cert skic sign, sized cookie -> sized cert -> sized skic -> (forall l, bytes_ok l -> bytes_ok (sign l)) ->
  let t := ii_text isid cookie cert skic in
  make_iikeying isid cookie cert skic sign = Ok (if 3 + zlen t + zlen (sign t) <=? 4256 then Some (t, chunk_bytes CHUNK_IIKEYING (t ++ sign t)) else None).
Proof.
  intros isid cookie cert skic sign (B1 & S1) (B2 & S2) (B3 & S3) BS t. unfold make_iikeying. destruct (start_R CHUNK_IIKEYING) as (p1 & E1 & R1). rewrite E1. cbn [rbind].
  set (pc := [OpPush (le32 isid); OpPushField cookie; OpPushField cert; OpPushField skic]).
  assert (ET : pieces_bytes pc = t) by (unfold pieces_bytes, pc, t, ii_text; cbn [flat_map piece_bytes]; rewrite app_nil_r; reflexivity).
  assert (FP : Forall is_piece pc). { unfold pc. apply Forall_cons; [apply le32_bytes|]. apply Forall_cons; [split; [exact B1|lia]|]. apply Forall_cons; [split; [exact B2|lia]|]. apply Forall_cons; [split; [exact B3|lia]|]. apply Forall_nil. }
  assert (BT : bytes_ok t) by (rewrite <- ET; apply pieces_bytes_ok; exact FP).
  destruct (R_pushes pc _ _ R1 FP) as (p2 & [(L & E & R2)|(L & E & _)]); rewrite E; cbn [rbind negb]; change (zlen (a_bytes (mkA 4256 [] (Some (CHUNK_IIKEYING, [])) None))) with 3 in L; cbn [a_cap] in L; rewrite ET in L; pose proof (zlen_nonneg _ (sign t)).
  - rewrite ET in R2. destruct R1 as (rest1 & _ & C1 & _). destruct R2 as (rest & F1 & F2 & F3 & F4 & F5). pose proof (conj F1 (conj F2 (conj F3 (conj F4 F5)))) as RR.
    assert (R2 : R p2 (a_append (mkA 4256 [] (Some (CHUNK_IIKEYING, [])) None) t)) by (exists rest; exact RR).
    assert (SG : firstn (p_cursor p2 - p_cursor p1) (skipn (p_cursor p1) (p_buf p2)) = t).
    { rewrite C1, F2, F1. cbn [a_bytes a_append a_done a_open app length skipn]. replace (S (S (S (length t))) - 3)%nat with (length t) by lia. apply firstn_app_exact. }
    rewrite SG. destruct (R_push _ _ (sign t) R2) as (p3 & -> & R3). unfold a_try in *. 
    assert (ZB : zlen (a_bytes (a_append (mkA 4256 [] (Some (CHUNK_IIKEYING, [])) None) t)) = 3 + zlen t) by (cbn [a_bytes a_append a_done a_open app]; unfold zlen; cbn [length]; lia).
    rewrite ZB in *. rewrite a_append_cap in *. cbn [a_cap] in *. destruct (Z.leb_spec (3 + zlen t + zlen (sign t)) 4256); cbn [fst snd rbind negb] in *; [|reflexivity].
    destruct (R_commit _ _ R3) as (p4 & -> & R4); [discriminate|]. cbn [rbind]. rewrite (R_vector _ _ R4). cbn [a_append a_step a_open fst a_bytes a_done app]. rewrite ?app_nil_r. reflexivity.
  - destruct (Z.leb_spec (3 + zlen t + zlen (sign t)) 4256); [lia|reflexivity].
Qed.
Definition ri_text (rsid : Z) (skrc : list Z) : list Z := le32 rsid ++ field skrc.
Lemma make_rikeying_ok : forall rsid skrc skic sign, sized skrc -> 
  make_rikeying rsid skrc skic sign = (ri_text rsid skrc ++ skic, chunk_bytes CHUNK_RIKEYING (ri_text rsid skrc ++ sign (ri_text rsid skrc ++ skic))).
Proof.
  intros rsid skrc skic sign S. unfold make_rikeying, ri_text, field, vlu_append. rewrite <- !app_assoc. set (d := le32 rsid ++ vlu_encode (zlen skrc) ++ skrc ++ skic). f_equal.
  set (pl := le32 rsid ++ vlu_encode (zlen skrc) ++ skrc ++ sign d). unfold chunk_bytes. rewrite <- (be16_code' (zlen pl)) by apply zlen_nonneg. reflexivity.
Qed.

(** ** Reading chunks *)
Lemma skip_app : forall (a b : list Z), skipn (length a) (a ++ b) = b.
Proof. intros a b. apply skipn_app_exact. Qed.
Lemma field_next : forall A l (k : list Z -> list Z -> res A) r, sized l ->
  ((' (f, n) <- vlu_parse_field l ;; k f (skipn n l)) = Ok r <-> exists f w rest, l = w ++ rest /\ field_wire f w /\ k f rest = Ok r).
Proof.
  intros A l k r S. split.
  - intros H. destruct (vlu_parse_field l) as [(f & n)| |] eqn:E; cbn [rbind] in H; try discriminate. apply (field_iff l f n S) in E. destruct E as (w & rest & -> & W & ->). rewrite skip_app in H. exists f, w, rest. auto.
  - intros (f & w & rest & -> & W & H). assert (E : vlu_parse_field (w ++ rest) = Ok (f, length w)) by (apply field_iff; [exact S|]; exists w, rest; auto). rewrite E. cbn [rbind]. rewrite skip_app. exact H.
Qed.
Lemma field_next_def : forall A l (k : list Z -> list Z -> res A), bytes_ok l -> (forall f r, bytes_ok r -> k f r <> UB) -> (' (f, n) <- vlu_parse_field l ;; k f (skipn n l)) <> UB.
Proof.
  intros A l k B H. pose proof (field_def l B) as D. destruct (vlu_parse_field l) as [(f & n)| |]; cbn [rbind]; [|discriminate|contradiction]. apply H. rewrite <- (firstn_skipn n l) in B. apply bytes_ok_app in B. tauto.
Qed.
Lemma ihello_iff : forall c epd tag, sized c -> (parse_ihello c = Ok (epd, tag) <-> ihello_wire epd tag c).
Proof.
  intros c epd tag S. unfold parse_ihello. rewrite (field_next _ c (fun f r => Ok (f, r)) _ S). split.
  - intros (f & w & rest & -> & W & E). apply Ok_inj in E. assert (f = epd /\ rest = tag) as (-> & ->) by (split; congruence). exists w. auto.
  - intros (f & W & ->). exists epd, f, tag. auto.
Qed.
Lemma cookie_change_iff : forall c o n, sized c -> (parse_cookie_change c = Ok (o, n) <-> ihello_wire o n c).
Proof. exact ihello_iff. Qed.
Lemma rhello_iff : forall c tag cookie cert, sized c -> (parse_rhello c = Ok (tag, cookie, cert) <-> rhello_wire tag cookie cert c).
Proof.
  intros c tag cookie cert S. unfold parse_rhello. rewrite (field_next _ c (fun f r => ' (g, n) <- vlu_parse_field r ;; Ok (f, g, skipn n r)) _ S). split.
  - intros (f & w & rest & -> & W & E). apply sized_r in S. rewrite (field_next _ rest (fun g q => Ok (f, g, q)) _ S) in E. destruct E as (g & v & r2 & -> & V & E). apply Ok_inj in E. assert (f = tag /\ g = cookie /\ r2 = cert) as (-> & -> & ->) by (repeat split; congruence). exists w, v. auto.
  - intros (f & g & F & G & ->). exists tag, f, (g ++ cert). split; [reflexivity|]. split; [exact F|]. apply (field_next _ _ (fun g q => Ok (tag, g, q))); [apply sized_r in S; exact S|]. exists cookie, g, cert. auto.
Qed.
Lemma len4 : forall i (r : list Z), length i = 4%nat -> (length (i ++ r) <? 4)%nat = false /\ skipn 4 (i ++ r) = r /\ forall k, firstn (4 + k) (i ++ r) = i ++ firstn k r /\ skipn (4 + k) (i ++ r) = skipn k r.
Proof.
  intros i r H. destruct i as [|a [|b [|c [|d [|]]]]]; try discriminate. cbn. auto.
Qed.
Lemma rikeying_iff : forall c rsid skrc signed sig, sized c -> (parse_rikeying c = Ok (rsid, skrc, signed, sig) <-> ri_signed_wire rsid skrc signed /\ c = signed ++ sig).
Proof.
  intros c rsid skrc signed sig S. unfold parse_rikeying. split.
  - destruct (length c <? 4)%nat; [discriminate|]. intros H. destruct (un32 c) as [x| |] eqn:EU; cbn [rbind] in H; try discriminate. apply (un32_iff c x (proj1 S)) in EU. destruct EU as (i & r & -> & I). pose proof (id_length _ _ I) as LI. destruct (len4 i r LI) as (_ & K & K2). rewrite K in H. apply sized_r in S.
    destruct (vlu_parse_field r) as [(f & n)| |] eqn:EF; cbn [rbind] in H; try discriminate. apply (field_iff r f n S) in EF. destruct EF as (w & rest & -> & W & ->). destruct (K2 (length w)) as (K3 & K4). rewrite K3, K4, firstn_app_exact, skip_app in H. apply Ok_inj in H.
    assert (x = rsid /\ f = skrc /\ i ++ w = signed /\ rest = sig) as (-> & -> & <- & ->) by (repeat split; congruence). split; [exists i, w; auto|apply app_assoc].
  - intros ((i & f & I & F & ->) & ->). pose proof (id_length _ _ I) as LI. rewrite <- app_assoc in *. destruct (len4 i (f ++ sig) LI) as (K0 & K & K2). rewrite K0, K.
    assert (EU : un32 (i ++ f ++ sig) = Ok rsid) by (apply un32_iff; [apply S|]; exists i, (f ++ sig); auto). rewrite EU. cbn [rbind]. apply sized_r in S.
    assert (EF : vlu_parse_field (f ++ sig) = Ok (skrc, length f)) by (apply field_iff; [exact S|]; exists f, sig; auto). rewrite EF. cbn [rbind]. destruct (K2 (length f)) as (-> & ->). rewrite firstn_app_exact, skip_app. reflexivity.
Qed.
Lemma iikeying_iff : forall c isid cookie cert skic signed sig, sized c -> (parse_iikeying c = Ok (isid, cookie, cert, skic, signed, sig) <-> ii_signed_wire isid cookie cert skic signed /\ c = signed ++ sig).
Proof.
  intros c isid cookie cert skic signed sig S. unfold parse_iikeying. split.
  - destruct (length c <? 4)%nat; [discriminate|]. intros H. destruct (un32 c) as [x| |] eqn:EU; cbn [rbind] in H; try discriminate. apply (un32_iff c x (proj1 S)) in EU. destruct EU as (i & r & -> & I). pose proof (id_length _ _ I) as LI. destruct (len4 i r LI) as (_ & K & K2). rewrite K in H. pose proof S as S0. apply sized_r in S.
    destruct (vlu_parse_field r) as [(f1 & n1)| |] eqn:E1; cbn [rbind] in H; try discriminate. apply (field_iff r f1 n1 S) in E1. destruct E1 as (w1 & r1 & -> & W1 & ->). rewrite skip_app in H. apply sized_r in S.
    destruct (vlu_parse_field r1) as [(f2 & n2)| |] eqn:E2; cbn [rbind] in H; try discriminate. apply (field_iff r1 f2 n2 S) in E2. destruct E2 as (w2 & r2 & -> & W2 & ->). rewrite skip_app in H. apply sized_r in S.
    destruct (vlu_parse_field r2) as [(f3 & n3)| |] eqn:E3; cbn [rbind] in H; try discriminate. apply (field_iff r2 f3 n3 S) in E3. destruct E3 as (w3 & r3 & -> & W3 & ->).
    apply Ok_inj in H. replace (4 + length w1 + length w2 + length w3)%nat with (4 + length (w1 ++ w2 ++ w3))%nat in H by (rewrite !app_length; lia). replace (w1 ++ w2 ++ w3 ++ r3) with ((w1 ++ w2 ++ w3) ++ r3) in * by (rewrite <- !app_assoc; reflexivity).
    destruct (K2 (length (w1 ++ w2 ++ w3))) as (K3 & K4). rewrite K3, K4, firstn_app_exact, skip_app in H.
    assert (x = isid /\ f1 = cookie /\ f2 = cert /\ f3 = skic /\ i ++ w1 ++ w2 ++ w3 = signed /\ r3 = sig) as (-> & -> & -> & -> & <- & ->) by (repeat split; congruence). split; [exists i, w1, w2, w3; auto 10|apply app_assoc].
  - intros ((i & w1 & w2 & w3 & I & W1 & W2 & W3 & ->) & ->). pose proof (id_length _ _ I) as LI. replace ((i ++ w1 ++ w2 ++ w3) ++ sig) with (i ++ w1 ++ w2 ++ w3 ++ sig) in * by (rewrite <- !app_assoc; reflexivity). destruct (len4 i (w1 ++ w2 ++ w3 ++ sig) LI) as (K0 & K & K2). rewrite K0, K.
    assert (EU : un32 (i ++ w1 ++ w2 ++ w3 ++ sig) = Ok isid) by (apply un32_iff; [apply S|]; eexists i, _; eauto). rewrite EU. cbn [rbind]. apply sized_r in S.
    assert (E1 : vlu_parse_field (w1 ++ w2 ++ w3 ++ sig) = Ok (cookie, length w1)) by (apply field_iff; [exact S|]; eexists w1, _; eauto). rewrite E1. cbn [rbind]. rewrite skip_app. apply sized_r in S.
    assert (E2 : vlu_parse_field (w2 ++ w3 ++ sig) = Ok (cert, length w2)) by (apply field_iff; [exact S|]; eexists w2, _; eauto). rewrite E2. cbn [rbind]. rewrite skip_app. apply sized_r in S.
    assert (E3 : vlu_parse_field (w3 ++ sig) = Ok (skic, length w3)) by (apply field_iff; [exact S|]; eexists w3, _; eauto). rewrite E3. cbn [rbind].
    replace (4 + length w1 + length w2 + length w3)%nat with (4 + length (w1 ++ w2 ++ w3))%nat by (rewrite !app_length; lia). replace (w1 ++ w2 ++ w3 ++ sig) with ((w1 ++ w2 ++ w3) ++ sig) in * by (rewrite <- !app_assoc; reflexivity).
    destruct (K2 (length (w1 ++ w2 ++ w3))) as (K3 & K4). rewrite K3, K4, firstn_app_exact, skip_app. reflexivity.
Qed.
Lemma addrs_inv : forall addrs l, addrs_wire addrs l -> (addrs = [] /\ l = []) \/ exists a f w r rest, addrs = a :: r /\ l = w ++ rest /\ addr_ok a /\ a_fam a <> 0 /\ wire_addr a f w /\ addrs_wire r rest.
Proof. intros addrs l W. destruct W as [|a f w r rest A AF W R]; [left; auto|right; exists a, f, w, r, rest; auto 10]. Qed.
Lemma wire_addr_nonempty : forall a f w, wire_addr a f w -> (1 <= length w)%nat.
Proof. intros a f w (p0 & p1 & -> & _). cbn [length]. lia. Qed.
Lemma parse_addrs_iff : forall fuel t l addrs, bytes_ok l -> (length l <= fuel)%nat -> (parse_addrs fuel t l = Ok addrs <-> addrs_wire addrs l) /\ parse_addrs fuel t l <> UB.
Proof.
  assert (N : forall addrs t fuel, (parse_addrs fuel t [] = Ok addrs <-> addrs_wire addrs []) /\ parse_addrs fuel t [] <> UB).
  { intros addrs t fuel. replace (parse_addrs fuel t []) with (Ok (@nil addr)) by (destruct fuel; reflexivity). split; [|discriminate]. split.
    - intros E. apply Ok_inj in E. subst. constructor.
    - intros W. apply addrs_inv in W. destruct W as [(-> & _)|(a & f & w & r & rest & _ & E & _ & _ & W & _)]; [reflexivity|]. apply wire_addr_nonempty in W. destruct w; [cbn in W; lia|discriminate]. }
  induction fuel as [|fuel IH]; intros t l addrs B L; destruct l as [|b l]; try apply N; [cbn [length] in L; lia|].
  cbn [parse_addrs]. destruct (decode_exact t (b :: l) B) as (D1 & D2 & D3). destruct (addr_decode t (b :: l)) as [(a & n)| |] eqn:E; cbn [rbind]; [| |contradiction].
  - destruct (proj1 (D2 a n) eq_refl) as (f & w & rest & EL & A & AF & W & ->). pose proof (wire_addr_nonempty _ _ _ W) as NW. assert (SK : skipn (length w) (b :: l) = rest) by (rewrite EL; apply skip_app). rewrite SK. assert (B' : bytes_ok rest) by (rewrite EL in B; apply bytes_ok_app in B; tauto).
    assert (L' : (length rest <= fuel)%nat) by (apply (f_equal (@length Z)) in EL; rewrite app_length in EL; cbn [length] in EL, L; lia).
    destruct (IH a rest (tl addrs) B' L') as (I1 & I2). split.
    + split.
      * intros H. destruct (parse_addrs fuel a rest) as [r| |] eqn:ER; cbn [rbind] in H; try discriminate. apply Ok_inj in H. subst addrs. cbn [tl] in I1. rewrite EL. apply (aw_cons a f); auto. apply I1. reflexivity.
      * intros W2. apply addrs_inv in W2. destruct W2 as [(_ & E0)|(a' & f' & w' & r' & rest' & -> & EL' & A' & AF' & W' & WR)]; [discriminate|].
        assert (X : Ok (a, length w) = Ok (a', length w')) by (apply D2; exists f', w', rest'; auto 10). apply Ok_inj in X. assert (a' = a /\ length w' = length w) as (-> & LW) by (split; congruence).
        assert (rest' = rest) as -> by (rewrite <- SK, EL', <- LW, skip_app; reflexivity). cbn [tl] in I1. rewrite (proj2 I1 WR). reflexivity.
    + destruct (parse_addrs fuel a rest); cbn [rbind]; congruence.
  - split; [|discriminate]. split; [discriminate|]. intros W. apply addrs_inv in W. destruct W as [(_ & E0)|(a' & f' & w' & r' & rest' & -> & EL' & A' & AF' & W' & WR)]; [discriminate|]. assert (X : Rej = Ok (a', length w')) by (apply D2; exists f', w', rest'; auto 10). discriminate.
Qed.
Definition observed (from : addr) : addr := mkAddr (a_fam from) (a_ip from) (a_port from) ORIGIN_OBSERVED.
Lemma redirect_iff : forall c from tag addrs, sized c ->
  (parse_redirect c from = Ok (tag, addrs) <-> exists l, redirect_wire tag l c /\ addrs = match l with [] => [observed from] | _ => l end).
Proof.
  intros c from tag addrs S. unfold parse_redirect. split.
  - destruct (vlu_parse_field c) as [(f & n)| |] eqn:E; cbn [rbind]; try discriminate. apply (field_iff c f n S) in E. destruct E as (w & rest & -> & W & ->). rewrite skip_app. intros H.
    destruct (parse_addrs (length (w ++ rest)) addr_erased rest) as [l| |] eqn:EA; cbn [rbind] in H; try discriminate.
    apply parse_addrs_iff in EA; [|apply sized_r in S; apply S|rewrite app_length; lia]. apply Ok_inj in H. exists l. pose proof (f_equal fst H) as H1. pose proof (f_equal snd H) as H2. cbn [fst snd] in H1, H2. subst f. split; [exists w, rest; auto|symmetry; exact H2].
  - intros (l & (w & g & W & G & ->) & ->). assert (E : vlu_parse_field (w ++ g) = Ok (tag, length w)) by (apply field_iff; [exact S|]; exists w, g; auto). rewrite E. cbn [rbind]. rewrite skip_app.
    assert (EA : parse_addrs (length (w ++ g)) addr_erased g = Ok l) by (apply parse_addrs_iff; [apply sized_r in S; apply S|rewrite app_length; lia|exact G]). rewrite EA. reflexivity.
Qed.
Lemma fihello_iff : forall c epd a tag, sized c -> (parse_fihello c = Ok (epd, a, tag) <-> fihello_wire epd a tag c).
Proof.
  intros c epd a tag S. unfold parse_fihello. split.
  - destruct (vlu_parse_field c) as [(f & n)| |] eqn:E; cbn [rbind]; try discriminate. apply (field_iff c f n S) in E. destruct E as (w & rest & -> & W & ->). rewrite skip_app. intros H. apply sized_r in S.
    destruct (addr_decode addr_erased rest) as [(x & n)| |] eqn:EA; cbn [rbind] in H; try discriminate. apply (proj1 (proj2 (decode_exact addr_erased rest (proj1 S)))) in EA. destruct EA as (fl & v & r2 & -> & A & AF & V & ->). rewrite skip_app in H. apply Ok_inj in H.
    assert (f = epd /\ x = a /\ r2 = tag) as (-> & -> & ->) by (repeat split; congruence). exists w, v, fl. auto.
  - intros (w & v & fl & W & A & AF & V & ->). assert (E : vlu_parse_field (w ++ v ++ tag) = Ok (epd, length w)) by (apply field_iff; [exact S|]; exists w, (v ++ tag); auto). rewrite E. cbn [rbind]. rewrite skip_app. apply sized_r in S.
    assert (EA : addr_decode addr_erased (v ++ tag) = Ok (a, length v)) by (apply (decode_exact addr_erased _ (proj1 S)); exists fl, v, tag; auto 10). rewrite EA. cbn [rbind]. rewrite skip_app. reflexivity.
Qed.

(** ** Nothing is read outside the chunk *)
Lemma skip_bytes : forall n l, bytes_ok l -> bytes_ok (skipn n l).
Proof. intros n l B. rewrite <- (firstn_skipn n l) in B. apply bytes_ok_app in B. tauto. Qed.
Lemma parse_field_bind : forall A l (k : list Z * nat -> res A), bytes_ok l -> (forall p, k p <> UB) -> rbind (vlu_parse_field l) k <> UB.
Proof. intros A l k B H. pose proof (field_def l B) as D. destruct (vlu_parse_field l) as [p| |]; cbn [rbind]; [apply H|discriminate|contradiction]. Qed.
Lemma startup_def : forall c from, bytes_ok c ->
  parse_ihello c <> UB /\ parse_rhello c <> UB /\ parse_redirect c from <> UB /\ parse_iikeying c <> UB /\ parse_rikeying c <> UB /\ parse_cookie_change c <> UB /\ parse_fihello c <> UB.
Proof.
  intros c from B. repeat split.
  - apply parse_field_bind; [exact B|]. intros (f & n). discriminate.
  - apply parse_field_bind; [exact B|]. intros (f & n). apply parse_field_bind; [apply skip_bytes; exact B|]. intros (g & m). discriminate.
  - unfold parse_redirect. destruct (vlu_parse_field c) as [(f & n)| |] eqn:E; cbn [rbind]; [|discriminate|exfalso; apply (field_def c B E)].
    destruct (parse_addrs_iff (length c) addr_erased (skipn n c) [] (skip_bytes n c B)) as (_ & D); [rewrite skipn_length; lia|]. destruct (parse_addrs (length c) addr_erased (skipn n c)); cbn [rbind]; [discriminate|discriminate|contradiction].
  - unfold parse_iikeying. destruct (length c <? 4)%nat eqn:L; [discriminate|]. pose proof (un32_def c L) as U. destruct (un32 c); cbn [rbind]; [|discriminate|contradiction].
    apply parse_field_bind; [apply skip_bytes; exact B|]. intros (f & n). apply parse_field_bind; [repeat apply skip_bytes; exact B|]. intros (g & m). apply parse_field_bind; [repeat apply skip_bytes; exact B|]. intros (h & k). discriminate.
  - unfold parse_rikeying. destruct (length c <? 4)%nat eqn:L; [discriminate|]. pose proof (un32_def c L) as U. destruct (un32 c); cbn [rbind]; [|discriminate|contradiction].
    apply parse_field_bind; [apply skip_bytes; exact B|]. intros (f & n). discriminate.
  - apply parse_field_bind; [exact B|]. intros (f & n). discriminate.
  - apply parse_field_bind; [exact B|]. intros (f & n). cbv zeta. destruct (decode_exact addr_erased (skipn n c) (skip_bytes n c B)) as (D & _). destruct (addr_decode addr_erased (skipn n c)) as [(a & m)| |]; cbn [rbind]; [discriminate|discriminate|contradiction].
Qed.

(** ** What is made is what is read *)
Definition fits (ty : Z) (t : list Z) : option (list Z) := if 3 + zlen t <=? 4256 then Some (chunk_bytes ty t) else None.
Lemma make_ihello_ok : forall epd tag, sized epd -> sized tag -> make_ihello epd tag = Ok (fits CHUNK_IHELLO (field epd ++ tag)).
Proof.
  intros epd tag (B1 & S1) (B2 & S2). unfold make_ihello. rewrite startup_chunk_ok.
  - unfold pieces_bytes. cbn [flat_map piece_bytes]. rewrite app_nil_r. reflexivity.
  - apply Forall_cons; [exact (conj B1 (Z.lt_le_incl _ _ S1))|apply Forall_cons; [exact B2|apply Forall_nil]].
Qed.
Lemma make_cookie_change_ok : forall o n, sized o -> sized n -> make_cookie_change o n = Ok (fits CHUNK_COOKIE_CHANGE (field o ++ n)).
Proof.
  intros epd tag (B1 & S1) (B2 & S2). unfold make_cookie_change. rewrite startup_chunk_ok.
  - unfold pieces_bytes. cbn [flat_map piece_bytes]. rewrite app_nil_r. reflexivity.
  - apply Forall_cons; [exact (conj B1 (Z.lt_le_incl _ _ S1))|apply Forall_cons; [exact B2|apply Forall_nil]].
Qed.
Lemma make_rhello_ok : forall tag cookie cert, sized tag -> sized cookie -> sized cert -> make_rhello tag cookie cert = Ok (fits CHUNK_RHELLO (field tag ++ field cookie ++ cert)).
Proof.
  intros tag cookie cert (B1 & S1) (B2 & S2) (B3 & S3). unfold make_rhello. rewrite startup_chunk_ok.
  - unfold pieces_bytes. cbn [flat_map piece_bytes]. rewrite app_nil_r. reflexivity.
  - apply Forall_cons; [exact (conj B1 (Z.lt_le_incl _ _ S1))|apply Forall_cons; [exact (conj B2 (Z.lt_le_incl _ _ S2))|apply Forall_cons; [exact B3|apply Forall_nil]]].
Qed.
Lemma encode_bytes : forall a, addr_ok a -> a_fam a <> 0 -> bytes_ok (addr_encode a).
Proof.
  intros a A N. destruct (encode_wire a A N) as (f & (p0 & p1 & -> & P0 & P1 & _) & F & _). apply Forall_cons; [exact F|]. apply Forall_app. split; [apply A|]. apply Forall_cons; [exact P0|]. apply Forall_cons; [exact P1|apply Forall_nil].
Qed.
Definition addrs_text (addrs : list addr) : list Z := concat (map addr_encode addrs).
Lemma make_redirect_ok : forall tag addrs, sized tag -> Forall addr_ok addrs -> Forall (fun a => a_fam a <> 0) addrs -> make_redirect tag addrs = Ok (fits CHUNK_REDIRECT (field tag ++ addrs_text addrs)).
Proof.
  intros tag addrs (B1 & S1) A N. unfold make_redirect. rewrite startup_chunk_ok.
  - unfold pieces_bytes, addrs_text. cbn [flat_map piece_bytes]. rewrite flat_map_concat_map, map_map. cbn [piece_bytes]. reflexivity.
  - apply Forall_cons; [exact (conj B1 (Z.lt_le_incl _ _ S1))|]. apply Forall_map. induction addrs as [|a r IH]; [apply Forall_nil|]. inversion A; inversion N; subst. apply Forall_cons; [apply encode_bytes; assumption|apply IH; assumption].
Qed.
Lemma field_enc' : forall l, sized l -> field_wire l (field l).
Proof. intros l (B & S). apply field_enc. lia. Qed.
Lemma addrs_enc : forall addrs, Forall addr_ok addrs -> Forall (fun a => a_fam a <> 0) addrs -> addrs_wire addrs (addrs_text addrs).
Proof.
  induction addrs as [|a r IH]; intros A N; [constructor|]. inversion A; inversion N; subst. destruct (encode_wire a) as (f & W & _); [assumption|assumption|]. apply (aw_cons a f (addr_encode a)); auto.
Qed.
Lemma ii_enc : forall isid cookie cert skic, is_u32 isid -> sized cookie -> sized cert -> sized skic -> ii_signed_wire isid cookie cert skic (ii_text isid cookie cert skic).
Proof. intros. exists (le32 isid), (field cookie), (field cert), (field skic). repeat (split; [first [apply id_le32|apply field_enc']; assumption|]). reflexivity. Qed.
Lemma ri_enc : forall rsid skrc, is_u32 rsid -> sized skrc -> ri_signed_wire rsid skrc (ri_text rsid skrc).
Proof. intros. exists (le32 rsid), (field skrc). repeat (split; [first [apply id_le32|apply field_enc']; assumption|]). reflexivity. Qed.

(** ** One text has one reading *)
Lemma field_unique : forall f1 w1 r1 f2 w2 r2, sized (w1 ++ r1) -> field_wire f1 w1 -> field_wire f2 w2 -> w1 ++ r1 = w2 ++ r2 -> f1 = f2 /\ w1 = w2 /\ r1 = r2.
Proof.
  intros f1 w1 r1 f2 w2 r2 S W1 W2 E. assert (E1 : vlu_parse_field (w1 ++ r1) = Ok (f1, length w1)) by (apply field_iff; [exact S|]; exists w1, r1; auto).
  assert (E2 : vlu_parse_field (w1 ++ r1) = Ok (f2, length w2)) by (apply field_iff; [exact S|]; exists w2, r2; auto). rewrite E1 in E2. apply Ok_inj in E2. assert (f1 = f2 /\ length w1 = length w2) as (-> & L) by (split; congruence). split; [reflexivity|].
  assert (R : r1 = r2) by (apply (f_equal (skipn (length w1))) in E; rewrite skip_app, L, skip_app in E; exact E). subst r2. split; [|reflexivity]. apply app_inv_tail in E. exact E.
Qed.
Lemma id_unique : forall x1 w1 r1 x2 w2 r2, id_wire x1 w1 -> id_wire x2 w2 -> w1 ++ r1 = w2 ++ r2 -> x1 = x2 /\ w1 = w2 /\ r1 = r2.
Proof.
  intros x1 w1 r1 x2 w2 r2 (a & b & c & d & -> & _ & _ & _ & _ & ->) (a' & b' & c' & d' & -> & _ & _ & _ & _ & ->) E. cbn [app] in E. assert (a = a' /\ b = b' /\ c = c' /\ d = d' /\ r1 = r2) as (-> & -> & -> & -> & ->) by (repeat split; congruence). auto.
Qed.
Lemma ii_unique : forall i1 c1 ce1 s1 i2 c2 ce2 s2 w, sized w -> ii_signed_wire i1 c1 ce1 s1 w -> ii_signed_wire i2 c2 ce2 s2 w -> i1 = i2 /\ c1 = c2 /\ ce1 = ce2 /\ s1 = s2.
Proof.
  intros i1 c1 ce1 s1 i2 c2 ce2 s2 w S (i & f & g & h & I & F & G & H & ->) (i' & f' & g' & h' & I' & F' & G' & H' & E).
  destruct (id_unique _ _ _ _ _ _ I I' E) as (-> & _ & E1). apply sized_r in S. destruct (field_unique _ _ _ _ _ _ S F F' E1) as (-> & _ & E2). apply sized_r in S. destruct (field_unique _ _ _ _ _ _ S G G' E2) as (-> & _ & E3). apply sized_r in S.
  assert (E4 : h ++ [] = h' ++ []) by (rewrite !app_nil_r; exact E3). rewrite <- (app_nil_r h) in S. destruct (field_unique _ _ _ _ _ _ S H H' E4) as (-> & _ & _). auto.
Qed.
Lemma ri_unique : forall r1 k1 t1 s1 r2 k2 t2 s2, sized (t1 ++ s1) -> ri_signed_wire r1 k1 t1 -> ri_signed_wire r2 k2 t2 -> t1 ++ s1 = t2 ++ s2 -> r1 = r2 /\ k1 = k2 /\ s1 = s2.
Proof.
  intros r1 k1 t1 s1 r2 k2 t2 s2 S (i & f & I & F & ->) (i' & f' & I' & F' & ->) E. rewrite <- !app_assoc in *. destruct (id_unique _ _ _ _ _ _ I I' E) as (-> & _ & E1). apply sized_r in S. destruct (field_unique _ _ _ _ _ _ S F F' E1) as (-> & _ & E2). auto.
Qed.

(** ** Packets *)
Lemma startup_packet_ok : forall buf m mode ts tse cs, is_byte mode -> zlen buf <= U64MAX -> (m + 5 <= length buf)%nat ->
  startup_packet buf m mode ts tse (chunks_bytes cs)
  = Ok (if Z.of_nat m + zlen (header_bytes mode ts tse) + zlen (chunks_bytes cs) <=? zlen buf then Some (firstn m buf ++ header_bytes mode ts tse ++ chunks_bytes cs) else None).
Proof.
  intros buf m mode ts tse cs B L M. unfold startup_packet. destruct (R_init_header buf m mode ts tse B L M) as (p & -> & R1). cbn [rbind]. destruct (R_push _ _ (chunks_bytes cs) R1) as (p' & -> & R2). cbn [rbind].
  unfold a_try in *. cbn [a_cap a_bytes a_done a_open app] in *. rewrite app_nil_r in *.
  assert (LE : zlen (firstn m buf ++ header_bytes mode ts tse) = Z.of_nat m + zlen (header_bytes mode ts tse)) by (rewrite zlen_app; f_equal; unfold zlen; rewrite firstn_length; lia). rewrite LE in *.
  destruct (Z.leb_spec (Z.of_nat m + zlen (header_bytes mode ts tse) + zlen (chunks_bytes cs)) (zlen buf)); cbn [fst snd] in *; [|reflexivity].
  rewrite (R_vector _ _ R2). rewrite a_bytes_append. cbn [a_bytes a_done a_open app]. rewrite app_nil_r, <- app_assoc. reflexivity.
Qed.
