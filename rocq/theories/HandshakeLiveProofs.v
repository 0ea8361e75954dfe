(** An undisturbed handshake opens both ends. *)
From Verif Require Import Base BaseFacts VLU VLUSpec VLUProofs Address AddressSpec AddressProofs FlashCert FlashCertProofs Cookie CookieProofs Packet PacketSpec PacketProofs Startup StartupSpec StartupProofs Mobility MobilityProofs Handshake HandshakeSpec HandshakeProofs HandshakeStepProofs HandshakeAgreeProofs.
Ltac Zify.zify_post_hook ::= Z.div_mod_to_equations.
Open Scope res_scope.

Lemma eqb_self : forall l, eq_bytes l l = true.
Proof. intros l. apply eq_bytes_iff. reflexivity. Qed.
Lemma small_sized : forall l, small l -> sized l.
Proof. intros l (B & L). split; [exact B|unfold U64MAX; lia]. Qed.
Lemma field_len : forall l, small l -> zlen (field l) <= 1010.
Proof. intros l (B & L). unfold field. rewrite zlen_app. assert (U : is_u64 (zlen l)) by (pose proof (zlen_nonneg _ l); unfold is_u64, U64MAX; lia). destruct (vlu_encode_spec _ U) as (_ & _ & LV & _). unfold zlen in *. lia. Qed.
Lemma field_bytes_small : forall l, small l -> bytes_ok (field l).
Proof. intros l (B & L). unfold field. apply bytes_ok_app. split; [|exact B]. apply complete_vlu_bytes. apply vlu_encode_spec. pose proof (zlen_nonneg _ l). unfold is_u64, U64MAX. lia. Qed.
Lemma szd : forall l, bytes_ok l -> zlen l <= 10000 -> sized l.
Proof. intros l B L. split; [exact B|unfold U64MAX; lia]. Qed.
Lemma run_step : forall cr i e j l, hstep cr i e = Ok j -> hrun cr i (e :: l) = hrun cr j l.
Proof. intros cr i e j l H. cbn [hrun]. rewrite H. reflexivity. Qed.

Section Live.
Variables (crA crB : cryp) (epd tag skic skrc : list Z) (idA idB ifA ifB age : Z) (aA aB : addr) (nA nB : Z).
Hypothesis OA : cryp_ok crA.
Hypothesis OB : cryp_ok crB.
Let certA := c_cert crA [].
Let certB := c_cert crB epd.
Hypothesis HS : small epd /\ small tag /\ small skic /\ small skrc /\ small certA /\ small certB.
Hypothesis HI : 1 <= idA <= U32MAX /\ 1 <= idB <= U32MAX.
Hypothesis HT : 0 <= age /\ seconds_of age < U64MAX.
Hypothesis HM : c_mine crB epd = true.
Hypothesis HB : c_decodes crA certB = true /\ c_authentic crA certB = true /\ c_selected crA certB epd = true.
Hypothesis HA : c_decodes crB certA = true /\ c_authentic crB certA = true.
Hypothesis GA : forall t n, small (c_sign crA certB t n) /\ c_check crB certA t (c_sign crA certB t n) = true.
Hypothesis GB : forall t n, small (c_sign crB certA t n) /\ c_check crA certB t (c_sign crB certA t n) = true.
Let cookie := make_cookie (c_sha crB) (c_secret crB) age aA.
Let ihello := field epd ++ tag.
Let rhello := field tag ++ field cookie ++ certB.
Let tii := ii_text idA cookie certA skic.
Let iikeying := tii ++ c_sign crA certB tii nA.
Let tri := ri_text idB skrc.
Let rikeying := tri ++ c_sign crB certA (tri ++ skic) nB.
Let s0 := new_initiator idA epd tag.
Let s1 := h_with_cands [aB] s0.
Let s2 := h_with_keying ifA aB cookie certB s1.
Let s3 := h_with_own (Some skic) s2.
Let iik := chunk_bytes CHUNK_IIKEYING iikeying.
Let rik := chunk_bytes CHUNK_RIKEYING rikeying.
Let s4 := h_with_iik (Some iik) (h_with_skic skic s3).
Let s5 := h_with_far [skrc] s4.
Let s6 := h_with_open (c_canonical crA certB) idB s5.
Let r1 := accepted crB idA skic skrc certA ifB aA idB.
Let r2 := h_with_rik rik r1.
Let none := mkChoice None false 0 0.
Let o1 := HSend (chunk_bytes CHUNK_IHELLO ihello) 0 (-1) aB.
Let o2 := HSigned certB tii.
Let o3 := HSend iik 0 ifA aB.
Let b1 := HCookie age aA cookie.
Let b2 := HSend (chunk_bytes CHUNK_RHELLO rhello) 0 ifB aA.
Let b3 := HSigned certA (tri ++ skic).
Let b4 := HSend rik idA ifB aA.
Definition live_A : list hevent :=
  [EConnect epd tag idA; ECandidate 0 aB; EIHello 0 aB; EStartup age ifA aB [(CHUNK_RHELLO, rhello)]; ERun 0 none; ERun 0 (mkChoice (Some skic) false 0 nA); ERun 0 none; EIIKeying 0;
   EChunk age idA true 0 CHUNK_RIKEYING rikeying; ERun 0 (mkChoice None true 0 0); ERun 0 none].
Definition live_B : list hevent :=
  [EStartup age ifB aA [(CHUNK_IHELLO, ihello)]; EStartup age ifB aA [(CHUNK_IIKEYING, iikeying)]; ERun 0 (mkChoice (Some skrc) false 0 0); ERun 0 (mkChoice None false idB 0); ERun 0 (mkChoice None false 0 nB); ERun 0 none].
Lemma L_cookie : sized cookie /\ zlen cookie <= 1000.
Proof.
  split; [apply make_cookie_sized; tauto|]. unfold cookie. rewrite make_fields. assert (U : is_u64 (seconds_of age)) by (unfold is_u64, seconds_of, TICKS in *; split; [apply Z.div_pos; lia|lia]). destruct (vlu_encode_spec _ U) as (_ & _ & L & _). rewrite !zlen_app. unfold zlen in *. rewrite !(proj1 (co_sha _ OB _)). lia.
Qed.
Lemma L_cookie_small : small cookie.
Proof. destruct L_cookie as ((A & _) & B). split; assumption. Qed.
Lemma L_ihello : sized ihello /\ zlen ihello <= 4000 /\ parse_ihello ihello = Ok (epd, tag).
Proof.
  destruct HS as (S1 & S2 & _). assert (Z : sized ihello /\ zlen ihello <= 4000).
  { unfold ihello. pose proof (field_len epd S1). split; [apply szd|]; rewrite ?zlen_app; [apply bytes_ok_app; split; [apply field_bytes_small; exact S1|apply S2]|destruct S2; lia|destruct S2; lia]. }
  split; [apply Z|]. split; [apply Z|]. apply ihello_iff; [apply Z|]. exists (field epd). split; [apply field_enc'; apply small_sized; exact S1|reflexivity].
Qed.
Lemma L_rhello : sized rhello /\ zlen rhello <= 4000 /\ parse_rhello rhello = Ok (tag, cookie, certB).
Proof.
  pose proof L_cookie_small as LC. destruct HS as (_ & S2 & _ & _ & _ & S6). assert (Z : sized rhello /\ zlen rhello <= 4000).
  { unfold rhello. pose proof (field_len tag S2). pose proof (field_len cookie LC). split; [apply szd|]; rewrite ?zlen_app; [apply bytes_ok_app; split; [apply field_bytes_small; exact S2|apply bytes_ok_app; split; [apply field_bytes_small; exact LC|apply S6]]|destruct S6; lia|destruct S6; lia]. }
  split; [apply Z|]. split; [apply Z|]. apply rhello_iff; [apply Z|]. exists (field tag), (field cookie). split; [apply field_enc'; apply small_sized; exact S2|]. split; [apply field_enc'; apply small_sized; exact LC|reflexivity].
Qed.
Lemma L_ii : sized iikeying /\ 3 + zlen tii + zlen (c_sign crA certB tii nA) <= 4256 /\ parse_iikeying iikeying = Ok (idA, cookie, certA, skic, tii, c_sign crA certB tii nA).
Proof.
  pose proof L_cookie_small as LC. destruct HS as (_ & _ & S3 & _ & S5 & _). destruct (proj1 (GA tii nA)) as (GB1 & GB2). assert (L4 : zlen (le32 idA) = 4) by (unfold zlen; rewrite (id_length idA (le32 idA)); [reflexivity|apply id_le32; unfold is_u32, U32MAX in *; lia]).
  assert (Z : bytes_ok tii /\ zlen tii <= 3100).
  { unfold tii, ii_text. pose proof (field_len cookie LC). pose proof (field_len certA S5). pose proof (field_len skic S3). split; [|rewrite !zlen_app; lia]. apply bytes_ok_app. split; [apply le32_bytes|]. apply bytes_ok_app. split; [apply field_bytes_small; exact LC|]. apply bytes_ok_app. split; apply field_bytes_small; assumption. }
  assert (Z2 : sized iikeying) by (unfold iikeying; apply szd; [apply bytes_ok_app; tauto|rewrite zlen_app; lia]).
  split; [exact Z2|]. split; [lia|]. apply iikeying_iff; [exact Z2|]. split; [|reflexivity]. apply ii_enc; [unfold is_u32, U32MAX in *; lia|apply small_sized; exact LC|apply small_sized; exact S5|apply small_sized; exact S3].
Qed.
Lemma L_ri : (sized rikeying /\ zlen rikeying <= 4000) /\ parse_rikeying rikeying = Ok (idB, skrc, tri, c_sign crB certA (tri ++ skic) nB).
Proof.
  destruct HS as (_ & _ & _ & S4 & _ & _). destruct (proj1 (GB (tri ++ skic) nB)) as (GB1 & GB2). assert (L4 : zlen (le32 idB) = 4) by (unfold zlen; rewrite (id_length idB (le32 idB)); [reflexivity|apply id_le32; unfold is_u32, U32MAX in *; lia]).
  assert (Z : bytes_ok tri /\ zlen tri <= 1100).
  { unfold tri, ri_text. pose proof (field_len skrc S4). split; [|rewrite !zlen_app; lia]. apply bytes_ok_app. split; [apply le32_bytes|apply field_bytes_small; exact S4]. }
  assert (Z2 : sized rikeying /\ zlen rikeying <= 4000) by (unfold rikeying; split; [apply szd; [apply bytes_ok_app; tauto|]|]; rewrite zlen_app; lia).
  split; [exact Z2|]. apply rikeying_iff; [apply Z2|]. split; [|reflexivity]. apply ri_enc; [unfold is_u32, U32MAX in *; lia|apply small_sized; exact S4].
Qed.
Lemma L_check : check_cookie (c_sha crB) (c_secret crB) age cookie aA = Ok COOKIE_OK.
Proof.
  unfold cookie. rewrite check_made; [|intros; apply (co_sha _ OB)|intros; apply (co_sha _ OB)|unfold is_u64, seconds_of, TICKS in *; split; [apply Z.div_pos; lia|lia]].
  rewrite eqb_self. replace (seconds_of age >? seconds_of age) with false by lia. replace (seconds_of age - seconds_of age >? MAX_COOKIE_LIFETIME) with false by (unfold MAX_COOKIE_LIFETIME; lia). reflexivity.
Qed.
Lemma run_B : hrun crB hinst0 live_B = Ok (mkH [r2] [(aA, 0%nat)] [(c_canonical crB certA, 0%nat)] [] 0 false [b1; b2; b3; b4]).
Proof.
  pose proof L_cookie_small as LC. destruct HS as (S1 & S2 & S3 & S4 & S5 & S6). destruct L_ihello as (_ & _ & PI). destruct L_ii as (_ & _ & PII). destruct L_rhello as (_ & LR & _). unfold live_B.
  rewrite (run_step _ _ _ (mkH [] [] [] [] 0 false [b1; b2])).
  2:{ cbn [hstep on_startup]. rewrite Z.eqb_refl, PI. cbn [opt]. unfold on_ihello. rewrite HM. cbn [Z.eqb negb]. cbv zeta. fold cookie. change (2 =? 0) with false. change (2 =? 1) with false. cbv iota. fold certB. rewrite make_rhello_ok by (apply small_sized; assumption). fold rhello. unfold fits. replace (3 + zlen rhello <=? 4256) with true by lia. reflexivity. }
  rewrite (run_step _ _ _ (mkH [] [] [] [TII idA skic tii (c_sign crA certB tii nA) certA ifB aA] 1 false [b1; b2])).
  2:{ cbn [hstep on_startup]. change (CHUNK_IIKEYING =? CHUNK_IHELLO) with false. change (CHUNK_IIKEYING =? CHUNK_RHELLO) with false. change (CHUNK_IIKEYING =? CHUNK_REDIRECT) with false. rewrite Z.eqb_refl, PII. cbn [opt]. unfold on_iikeying. cbn [g_down]. rewrite L_check. cbn [rbind]. rewrite (proj1 HA). reflexivity. }
  rewrite (run_step _ _ _ (mkH [] [] [] [TIIRun idA skic skrc certA ifB aA] 0 false [b1; b2])).
  2:{ cbn [hstep nth_error g_tasks run_task]. rewrite (proj2 HA), (proj2 (GA tii nA)). reflexivity. }
  rewrite (run_step _ _ _ (mkH [r1] [(aA, 0%nat)] [(c_canonical crB certA, 0%nat)] [TRIK 0 skrc skic certA] 0 false [b1; b2])).
  2:{ cbn [hstep nth_error g_tasks run_task g_done g_down]. unfold try_rik, open_by_addr, opening_by_addr. cbn [tfind g_addrs find_ses g_sess]. unfold accept, used, by_rx. cbn [ch_id g_sess find_ses orb]. replace (idB <? 1) with false by lia. replace (idB >? U32MAX) with false by lia. reflexivity. }
  rewrite (run_step _ _ _ (mkH [r1] [(aA, 0%nat)] [(c_canonical crB certA, 0%nat)] [TRIKSet 0 rik] 0 false [b1; b2; b3])).
  2:{ cbn [hstep nth_error g_tasks run_task g_done g_sess]. rewrite make_rikeying_ok by (apply small_sized; assumption). reflexivity. }
  rewrite (run_step _ _ _ (mkH [r2] [(aA, 0%nat)] [(c_canonical crB certA, 0%nat)] [] 0 false [b1; b2; b3; b4])); [reflexivity|].
  cbn [hstep nth_error g_tasks run_task g_done g_sess]. unfold send_rik. cbn [g_set g_put g_sess set_at nth_error]. replace (zlen (h_rik (h_with_rik rik r1)) =? 0) with false; [reflexivity|]. cbn [h_with_rik h_rik]. unfold rik, chunk_bytes. unfold zlen. cbn [length]. lia.
Qed.
Lemma run_A : hrun crA hinst0 live_A = Ok (mkH [s6] [(aB, 0%nat)] [(c_canonical crA certB, 0%nat)] [] 0 false [o1; o2; o3]).
Proof.
  pose proof L_cookie_small as LC. destruct HS as (S1 & S2 & S3 & S4 & S5 & S6). destruct L_ihello as (_ & LI & _). destruct L_ii as (_ & LII & _). destruct L_rhello as (_ & _ & PR). destruct L_ri as (_ & PRI). unfold live_A.
  rewrite (run_step _ _ _ (mkH [s0] [] [] [] 0 false [])).
  2:{ cbn [hstep hinst0 g_down]. unfold open_by_epd, opening_by_epd, used, by_rx. cbn [tfind g_epds find_ses g_sess orb]. replace (idA <? 1) with false by lia. replace (idA >? U32MAX) with false by lia. reflexivity. }
  rewrite (run_step _ _ _ (mkH [s1] [] [] [] 0 false [])) by reflexivity.
  rewrite (run_step _ _ _ (mkH [s1] [] [] [] 0 false [o1])).
  2:{ cbn [hstep nth_error g_sess]. change (state_is IHELLO_SENT s1) with true. change (h_cands s1) with [aB]. cbn [existsb andb]. rewrite addr_eq_refl. cbn [orb]. change (h_epd s1) with epd. change (h_tag s1) with tag. rewrite make_ihello_ok by (apply small_sized; assumption). fold ihello. unfold fits. replace (3 + zlen ihello <=? 4256) with true by lia. reflexivity. }
  rewrite (run_step _ _ _ (mkH [s1] [] [] [TRHello 0 cookie certB ifA aB] 0 false [o1])).
  2:{ cbn [hstep on_startup]. change (CHUNK_RHELLO =? CHUNK_IHELLO) with false. rewrite Z.eqb_refl, PR. cbn [opt rbind]. unfold on_rhello, opening_by_tag. cbn [g_sess find_ses]. change (state_is IHELLO_SENT s1) with true. change (h_tag s1) with tag. cbn [andb]. rewrite eqb_self. cbn [nth_error]. change (state_is IHELLO_SENT s1) with true. change (h_epd s1) with epd. destruct HB as (-> & _ & ->). reflexivity. }
  rewrite (run_step _ _ _ (mkH [s2] [] [] [TSkic 0 cookie certB] 0 false [o1])).
  2:{ cbn [hstep nth_error g_tasks run_task g_done g_sess]. rewrite (proj1 (proj2 HB)). reflexivity. }
  rewrite (run_step _ _ _ (mkH [s3] [] [] [TStart 0 (Some skic) iik] 0 false [o1; o2])).
  2:{ cbn [hstep nth_error g_tasks run_task g_done g_sess ch_comp ch_nonce]. unfold do_iik. change (h_cert s2) with (Some certB). change (h_rx s2) with idA. fold certA. cbv iota beta. rewrite make_iikeying_ok; [|apply small_sized; assumption|apply small_sized; assumption|apply small_sized; assumption|intros; apply OA]. fold tii. replace (3 + zlen tii + zlen (c_sign crA certB tii nA) <=? 4256) with true by lia. reflexivity. }
  rewrite (run_step _ _ _ (mkH [s4] [] [] [] 0 false [o1; o2])) by reflexivity.
  rewrite (run_step _ _ _ (mkH [s4] [] [] [] 0 false [o1; o2; o3])) by reflexivity.
  rewrite (run_step _ _ _ (mkH [s4] [] [] [TRI 0 idB skrc (tri ++ skic) (c_sign crB certA (tri ++ skic) nB)] 0 false [o1; o2; o3])).
  2:{ cbn [hstep]. unfold on_session_chunk, by_rx. cbn [g_sess find_ses]. change (h_rx s4) with idA. rewrite Z.eqb_refl. cbn [state_is]. change (state_is CLOSED s4) with false. cbn [negb andb nth_error]. change (state_is KEYING_SENT s4) with true. cbv iota. rewrite Z.eqb_refl, PRI. reflexivity. }
  rewrite (run_step _ _ _ (mkH [s5] [] [] [TOpen 0 idB] 0 false [o1; o2; o3])).
  2:{ cbn [hstep nth_error g_tasks run_task g_done g_sess ch_comp ch_nonce]. change (h_cert s4) with (Some certB). cbv iota beta. rewrite (proj2 (GB (tri ++ skic) nB)). reflexivity. }
  reflexivity.
Qed.
Hypothesis HAD : addr_ok aA /\ addr_ok aB.
Lemma sized_fits : forall l, sized l -> zlen l <= 5000 -> fits64 l.
Proof. intros l (B & _) L. split; [exact B|lia]. Qed.
Lemma ok_A : Forall hevent_ok live_A.
Proof.
  destruct HS as (S1 & S2 & S3 & S4 & S5 & S6). destruct L_rhello as (R1 & R2 & _). destruct L_ri as ((R3 & R4) & _). unfold live_A. repeat apply Forall_cons; try exact Logic.I; try apply Forall_nil; cbn [hevent_ok].
  - split; apply sized_fits; [apply small_sized; exact S1|destruct S1; lia|apply small_sized; exact S2|destruct S2; lia].
  - split; [|tauto]. apply Forall_cons; [|apply Forall_nil]. apply sized_fits; [exact R1|cbn [snd]; lia].
  - apply sized_fits; [apply small_sized; exact S3|destruct S3; lia].
  - split; [apply sized_fits; [exact R3|lia]|tauto].
Qed.
Lemma ok_B : Forall hevent_ok live_B.
Proof.
  destruct HS as (S1 & S2 & S3 & S4 & S5 & S6). destruct L_ihello as (R1 & R2 & _). destruct L_ii as (R3 & R4 & _). unfold live_B. repeat apply Forall_cons; try exact Logic.I; try apply Forall_nil; cbn [hevent_ok].
  - split; [|tauto]. apply Forall_cons; [|apply Forall_nil]. apply sized_fits; [exact R1|cbn [snd]; lia].
  - split; [|tauto]. apply Forall_cons; [|apply Forall_nil]. apply sized_fits; [exact R3|cbn [snd]; unfold iikeying; rewrite zlen_app; lia].
  - apply sized_fits; [apply small_sized; exact S4|destruct S4; lia].
Qed.
Lemma live : exists lA lB A B p q, hrun crA hinst0 lA = Ok A /\ hrun crB hinst0 lB = Ok B /\ Forall hevent_ok lA /\ Forall hevent_ok lB /\ fed_by B lA /\ fed_by A lB
    /\ is_ses A 0 p /\ is_ses B 0 q /\ h_state p = OPEN /\ h_state q = OPEN /\ h_tx p = h_rx q /\ h_tx q = h_rx p /\ h_own p = Some skic /\ h_skic q = skic /\ h_far p = [skrc] /\ h_far q = [skrc]
    /\ h_cert p = Some certB /\ h_cert q = Some certA /\ h_addr p = aB /\ h_addr q = aA.
Proof.
  exists live_A, live_B. do 2 eexists. exists s6, r2. split; [exact run_A|]. split; [exact run_B|]. split; [exact ok_A|]. split; [exact ok_B|]. split; [|split; [|repeat split]].
  - intros e ty c IN D. unfold live_A in IN. cbn [In] in IN. repeat (destruct IN as [<-|IN]; [cbn [delivers In] in D; try contradiction; destruct D as [D|[]]; inversion D; subst ty c; do 3 eexists; cbn [g_out In]; unfold b2, b4, rik; solve [eauto 6]|]). contradiction.
  - intros e ty c IN D. unfold live_B in IN. cbn [In] in IN. repeat (destruct IN as [<-|IN]; [cbn [delivers In] in D; try contradiction; destruct D as [D|[]]; inversion D; subst ty c; do 3 eexists; cbn [g_out In]; unfold o1, o3, iik; solve [eauto 6]|]). contradiction.
Qed.
End Live.
(** ** Checking events *)
Definition fits64b (l : list Z) : bool := bytes_okb l && (zlen l <? 4611686018427387904).
Lemma fits64b_ok : forall l, fits64b l = true -> fits64 l.
Proof. intros l H. unfold fits64b in H. apply andb_true_iff in H. destruct H as (A & B). split; [apply bytes_okb_ok; exact A|lia]. Qed.
Definition v4b (a : addr) : bool := (a_fam a =? AF_INET) && (length (a_ip a) =? 4)%nat && bytes_okb (a_ip a) && (0 <=? a_port a) && (a_port a <=? 65535) && (a_origin a =? 0).
Definition hevent_okb (e : hevent) : bool :=
  match e with
  | EConnect epd tag _ => fits64b epd && fits64b tag
  | EStartup age _ a cs => forallb (fun c => fits64b (snd c)) cs && (0 <=? age) && (seconds_of age <? U64MAX) && v4b a
  | EChunk age _ _ _ _ c => fits64b c && (0 <=? age) && (seconds_of age <? U64MAX)
  | ERun _ ch => match ch_comp ch with Some k => fits64b k | None => true end
  | _ => true
  end.
Lemma hevents_ok : forall l, forallb hevent_okb l = true -> Forall hevent_ok l.
Proof.
  intros l H. apply Forall_forall. intros e IN. rewrite forallb_forall in H. specialize (H e IN). destruct e; cbn [hevent_okb hevent_ok] in *; try exact Logic.I; rewrite ?andb_true_iff in H.
  - split; apply fits64b_ok; tauto.
  - destruct H as (((H1 & H2) & H3) & H4). split; [|split; [lia|split; [lia|]]].
    + apply Forall_forall. intros c C. rewrite forallb_forall in H1. apply fits64b_ok. apply (H1 c C).
    + unfold v4b in H4. rewrite !andb_true_iff in H4. destruct H4 as (((((A1 & A2) & A3) & A4) & A5) & A6). apply Z.eqb_eq in A1, A6. apply Nat.eqb_eq in A2. apply bytes_okb_ok in A3. constructor; [exact A3|right; left; auto|unfold is_u16, U16MAX in *; lia|lia].
  - split; [apply fits64b_ok; tauto|lia].
  - unfold choice_ok. destruct (ch_comp ch); [apply fits64b_ok; exact H|exact Logic.I].
Qed.
