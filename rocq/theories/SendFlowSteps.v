(** Sending flow: every operation is a sequence of elementary steps. *)
From Verif Require Import Base BaseFacts VLU VLUSpec VLUProofs Packet PacketSpec PacketProofs UserData UserDataSpec UserDataProofs Ack AckSpec RecvFlowSpec WriteReceipt WriteReceiptSpec WriteReceiptProofs SendFlow SendFlowSpec SendFlowProofs SendFlowInv.
Ltac Zify.zify_post_hook ::= Z.div_mod_to_equations.

Lemma Forall_is_bytes : forall l, bytes_okb l = true -> bytes_ok l.
Proof. intros l H. unfold bytes_okb in H. rewrite forallb_forall in H. apply Forall_forall. intros x Hx. specialize (H x Hx). unfold is_byteb in H. unfold is_byte. lia. Qed.

(** ** Writing *)
Record added (s s' : sess) (fi : nat) (rc : nat) (frs : list (Z * list Z)) (new : list (Z * nat)) : Prop := {
  ad_queue : w_queue (wget s' fi) = w_queue (wget s fi) ++ new;
  ad_shown : map (shown s') new = numbered (w_next (wget s fi)) frs;
  ad_old : forall i, (i < length (s_heap s))%nat -> gget s' i = gget s i;
  ad_next : w_next (wget s' fi) = w_next (wget s fi) + zlen frs;
  ad_tab : w_tab (wget s' fi) = w_tab (wget s fi) ++ frs;
  ad_new : Forall (fun e => g_rcpt (gget s' (snd e)) = rc /\ g_ever (gget s' (snd e)) = false /\ (snd e < length (s_heap s'))%nat) new;
  ad_flow : exists q n nx t, wget s' fi = with_tab (with_next (with_queue (wget s fi) q n) nx) t;
  ad_other : forall fj, fj <> fi -> wget s' fj = wget s fj;
  ad_heap : (length (s_heap s) <= length (s_heap s'))%nat;
  ad_len : length (s_flows s') = length (s_flows s);
  ad_rlen : length (rs_all (s_rcpts s')) = length (rs_all (s_rcpts s));
  ad_rest : s_open s' = s_open s /\ s_outl s' = s_outl s /\ s_osum s' = s_osum s /\ s_tsn s' = s_tsn s /\ s_maxtsn s' = s_maxtsn s /\ s_now s' = s_now s /\ s_wire s' = s_wire s }.

Lemma add_frag_facts : forall s fi rc nm fr s', (fi < length (s_flows s))%nat -> 0 <= w_next (wget s fi) -> add_frag s fi rc nm fr = Ok s' ->
  added s s' fi rc [fr] [(nm, length (s_heap s))] /\ w_next (wget s fi) < U64MAX.
Proof.
  intros s fi rc nm fr s' Hl H0 He. unfold add_frag in He. cbn zeta in He. destruct (usable nm (w_queue (wget s fi))) eqn:Eu; [|discriminate].
  destruct (Z.ltb_spec (w_next (wget s fi)) U64MAX) as [Hnx|]; [|discriminate]. cbn [andb] in He. split; [|exact Hnx].
  set (g := mkFrag fi (w_next (wget s fi)) (fst fr) false 0 false false 0 0 (-1) (snd fr) rc) in *.
  set (w' := with_tab _ _) in He. injection He as <-. set (s' := set_rcpts _ _).
  assert (Ef : wget s' fi = w') by (unfold s'; change (wget (wset (set_heap s (s_heap s ++ [g])) fi w') fi = w'); apply wget_wset_same; exact Hl).
  assert (En : gget s' (length (s_heap s)) = g) by (unfold gget; change (s_heap s') with (s_heap s ++ [g]); apply nth_app_new).
  constructor; rewrite ?Ef; auto.
  - cbn [map numbered]. unfold shown. cbn [snd]. rewrite En. cbn. destruct fr; reflexivity.
  - intros i Hi. unfold gget. change (s_heap s') with (s_heap s ++ [g]). apply app_nth1. exact Hi.
  - cbn [w' w_next with_tab with_next]. unfold zlen. cbn [length]. unfold wrap64, U64MAX in *. lia.
  - constructor; [|constructor]. cbn [snd]. rewrite En. split; [reflexivity|]. split; [reflexivity|]. change (s_heap s') with (s_heap s ++ [g]). rewrite app_length. cbn. lia.
  - unfold w'. do 4 eexists. reflexivity.
  - intros fj N. unfold s'. change (wget (wset (set_heap s (s_heap s ++ [g])) fi w') fj = wget s fj). rewrite wget_wset_other by congruence. reflexivity.
  - change (s_heap s') with (s_heap s ++ [g]). rewrite app_length. lia.
  - unfold s'. change (s_flows (set_rcpts ?x ?y)) with (s_flows x). rewrite flows_wset. reflexivity.
  - unfold s'. cbn [s_rcpts set_rcpts]. pose proof (rstep_length (s_rcpts s) (RUp rc)) as Hx. cbn [rstep] in Hx. rewrite Hx. lia.
  - repeat split.
Qed.

Lemma numbered_app : forall a b n, 0 <= n -> n + zlen a <= U64MAX -> numbered n (a ++ b) = numbered n a ++ numbered (n + zlen a) b.
Proof.
  induction a as [|x a IH]; intros b n H0 H1; [cbn; f_equal; unfold zlen; cbn; lia|]. cbn [app numbered]. rewrite zlen_cons in *. pose proof (zlen_nonneg _ a).
  assert (wrap64 (n + 1) = n + 1) as -> by (unfold wrap64, U64MAX in *; lia). rewrite IH by lia. do 2 f_equal. f_equal. lia.
Qed.

Lemma added_trans : forall s1 s2 s3 fi rc f1 f2 n1 n2, added s1 s2 fi rc f1 n1 -> added s2 s3 fi rc f2 n2 -> 0 <= w_next (wget s1 fi) -> w_next (wget s3 fi) <= U64MAX ->
  added s1 s3 fi rc (f1 ++ f2) (n1 ++ n2).
Proof.
  intros s1 s2 s3 fi rc f1 f2 n1 n2 A B H0 H1. pose proof (zlen_nonneg _ f1). pose proof (zlen_nonneg _ f2).
  assert (Hkeep : forall e, In e n1 -> gget s3 (snd e) = gget s2 (snd e)).
  { intros e He. pose proof (ad_new _ _ _ _ _ _ A) as Hn. rewrite Forall_forall in Hn. destruct (Hn e He) as (_ & _ & Hl). apply (ad_old _ _ _ _ _ _ B). exact Hl. }
  constructor.
  - rewrite (ad_queue _ _ _ _ _ _ B), (ad_queue _ _ _ _ _ _ A), app_assoc. reflexivity.
  - rewrite map_app, (ad_shown _ _ _ _ _ _ B). rewrite numbered_app by (rewrite (ad_next _ _ _ _ _ _ B), (ad_next _ _ _ _ _ _ A) in H1; lia).
    rewrite (ad_next _ _ _ _ _ _ A). f_equal. rewrite <- (ad_shown _ _ _ _ _ _ A). apply map_ext_in. intros e He. unfold shown. rewrite Hkeep by exact He. reflexivity.
  - intros i Hi. rewrite (ad_old _ _ _ _ _ _ B) by (pose proof (ad_heap _ _ _ _ _ _ A); lia). apply (ad_old _ _ _ _ _ _ A). exact Hi.
  - rewrite (ad_next _ _ _ _ _ _ B), (ad_next _ _ _ _ _ _ A), zlen_app. lia.
  - rewrite (ad_tab _ _ _ _ _ _ B), (ad_tab _ _ _ _ _ _ A), app_assoc. reflexivity.
  - apply Forall_app. split; [|exact (ad_new _ _ _ _ _ _ B)]. pose proof (ad_new _ _ _ _ _ _ A) as Hn. rewrite Forall_forall in *. intros e He. rewrite Hkeep by exact He. destruct (Hn e He) as (h1 & h2 & h3). pose proof (ad_heap _ _ _ _ _ _ B). repeat split; auto. lia.
  - destruct (ad_flow _ _ _ _ _ _ A) as (q1 & m1 & x1 & t1 & E1). destruct (ad_flow _ _ _ _ _ _ B) as (q2 & m2 & x2 & t2 & E2). rewrite E2, E1. do 4 eexists. reflexivity.
  - intros fj N. rewrite (ad_other _ _ _ _ _ _ B), (ad_other _ _ _ _ _ _ A) by assumption. reflexivity.
  - pose proof (ad_heap _ _ _ _ _ _ A). pose proof (ad_heap _ _ _ _ _ _ B). lia.
  - rewrite (ad_len _ _ _ _ _ _ B). apply (ad_len _ _ _ _ _ _ A).
  - rewrite (ad_rlen _ _ _ _ _ _ B). apply (ad_rlen _ _ _ _ _ _ A).
  - destruct (ad_rest _ _ _ _ _ _ A) as (a1 & a2 & a3 & a4 & a5 & a6 & a7). destruct (ad_rest _ _ _ _ _ _ B) as (b1 & b2 & b3 & b4 & b5 & b6 & b7). repeat split; congruence.
Qed.

Lemma add_frags_prims : forall A (B : rop -> Prop) frs names s fi rc, Full s -> (fi < length (s_flows s))%nat -> w_state (wget s fi) = FS_OPEN -> S rc = length (rs_all (s_rcpts s)) -> B (RUp rc) ->
  Forall (fun fr => In (fst fr) [0; 16; 32; 48] /\ bytes_ok (snd fr) /\ zlen (snd fr) + zlen (w_opts (wget s fi)) <= 1161) frs ->
  match add_frags s fi rc names frs with
  | Ok s' => prims A B s s' /\ exists new, added s s' fi rc frs new
  | Rej => True
  | UB => False
  end.
Proof.
  intros A B. induction frs as [|fr frs IH]; intros names s fi rc HF Hl Hst Hrc HB Hfrs; cbn [add_frags].
  - split; [constructor|]. exists []. constructor; rewrite ?app_nil_r; auto; try (unfold zlen; cbn; lia).
    + generalize (wget s fi). intros []. do 4 eexists. reflexivity.
    + repeat split.
  - destruct names as [|nm names]; [exact I|]. inversion Hfrs as [|? ? (Hf1 & Hf2 & Hf3) Hr]; subst.
    destruct (add_frag s fi rc nm fr) as [s1| |] eqn:E1; cbn [rbind]; [|exact I|].
    2: { unfold add_frag in E1. cbn zeta in E1. destruct (_ && _); discriminate. }
    pose proof (fi_next _ _ (fu_fi _ HF fi)) as (Hn & _).
    destruct (add_frag_facts s fi rc nm fr s1 Hl ltac:(lia) E1) as (A1 & Hlt).
    assert (P1 : prim A B s s1) by (eapply pr_add; eauto).
    pose proof (prim_full _ _ _ _ P1 HF) as HF1.
    destruct (ad_flow _ _ _ _ _ _ A1) as (q1 & m1 & x1 & t1 & Ef).
    specialize (IH names s1 fi rc HF1).
    rewrite (ad_len _ _ _ _ _ _ A1), (ad_rlen _ _ _ _ _ _ A1), Ef in IH. cbn [w_state w_opts with_tab with_next with_queue] in IH. specialize (IH Hl Hst Hrc HB Hr).
    destruct (add_frags s1 fi rc names frs) as [s'| |] eqn:E2; [|exact I|exact IH].
    destruct IH as (P2 & new & A2). split; [econstructor; eauto|]. exists ([(nm, length (s_heap s))] ++ new).
    apply (added_trans s s1 s' fi rc [fr] frs); auto; [lia|]. pose proof (prims_full _ _ _ _ P2 HF1) as HF2. apply (fi_next _ _ (fu_fi _ HF2 fi)).
Qed.

Lemma concat_bytes : forall ps l, concat ps = l -> bytes_ok l -> Forall bytes_ok ps.
Proof. induction ps as [|p ps IH]; intros l E H; [constructor|]. cbn [concat] in E. subst l. apply Forall_app in H. destruct H. constructor; eauto. Qed.
Lemma marks_ok : forall ps, Forall bytes_ok ps -> Forall (fun fr => In (fst fr) [0; 16; 32; 48] /\ bytes_ok (snd fr)) (marks ps).
Proof.
  intros ps H. pose proof (marks_fst ps) as H1. rewrite Forall_forall in *. intros x Hx. split; [auto|]. apply H. rewrite <- (marks_snd ps). apply in_map. exact Hx.
Qed.

Lemma basic_write_prims : forall A (B : rop -> Prop) s fi msg sw fw names, Full s -> (fi < length (s_flows s))%nat -> w_state (wget s fi) = FS_OPEN -> bytes_ok msg ->
  (forall now, B (RNew now sw fw)) -> B (RUp (length (rs_all (s_rcpts s)))) ->
  match basic_write s fi msg sw fw names with
  | Ok s' => prims A B s s' /\ exists pieces new s1, cut (1161 - zlen (w_opts (wget s fi))) msg pieces
       /\ s1 = set_rcpts s (r_new (s_rcpts s) (s_now s) sw fw)
       /\ added s1 s' fi (length (rs_all (s_rcpts s))) (marks pieces) new
  | Rej => True
  | UB => False
  end.
Proof.
  intros A B s fi msg sw fw names HF Hl Hst Hby HB HBu. unfold basic_write. cbn zeta.
  destruct (fi_opts _ _ (fu_fi _ HF fi)) as (Ho & _).
  destruct (fragment_spec (zlen (w_opts (wget s fi))) msg) as (ps & Hcut & Efr); [pose proof (zlen_nonneg _ (w_opts (wget s fi))); lia|]. rewrite Efr. cbn [rbind].
  set (s1 := set_rcpts s (r_new (s_rcpts s) (s_now s) sw fw)).
  assert (P1 : prim A B s s1) by (unfold s1; change (r_new (s_rcpts s) (s_now s) sw fw) with (rstep (s_rcpts s) (RNew (s_now s) sw fw)); constructor; left; split; [apply HB|exact I]).
  pose proof (prim_full _ _ _ _ P1 HF) as HF1.
  pose proof (add_frags_prims A B (marks ps) names s1 fi (length (rs_all (s_rcpts s))) HF1 Hl Hst) as H.
  assert (Hrc : S (length (rs_all (s_rcpts s))) = length (rs_all (s_rcpts s1))) by (unfold s1; cbn [s_rcpts set_rcpts r_new rs_all]; rewrite app_length; cbn; lia).
  assert (Hmk : Forall (fun fr => In (fst fr) [0; 16; 32; 48] /\ bytes_ok (snd fr) /\ zlen (snd fr) + zlen (w_opts (wget s1 fi)) <= 1161) (marks ps)).
  { destruct Hcut as (_ & Hc & Hm & _). pose proof (marks_ok ps (concat_bytes ps msg Hc Hby)) as M. rewrite Forall_forall in *. intros x Hx. destruct (M x Hx) as (m1 & m2). split; [exact m1|]. split; [exact m2|].
    change (wget s1 fi) with (wget s fi). specialize (Hm (snd x)). rewrite <- (marks_snd ps) in Hm. specialize (Hm (in_map snd _ _ Hx)). lia. }
  specialize (H Hrc HBu Hmk).
  destruct (add_frags s1 fi (length (rs_all (s_rcpts s))) names (marks ps)) as [s'| |] eqn:E; [|exact I|exact H].
  destruct H as (P3 & new & Ha). split; [econstructor; [exact P1|exact P3]|]. exists ps, new, s1. split; [exact Hcut|]. split; [reflexivity|exact Ha].
Qed.

(** ** Trimming *)
Lemma trim_prims : forall A B q s fi, Full s -> w_queue (wget s fi) = q -> prims A B s (trim_loop s fi q).
Proof.
  induction q as [|[nm id] q IH]; intros s fi HF Hq; cbn [trim_loop]; [constructor|]. destruct q as [|e q]; [constructor|].
  destruct (g_fly (gget s id)) eqn:Ef; [constructor|].
  set (s1 := set_rcpts s (r_needed (s_rcpts s) (s_now s) (g_rcpt (gget s id)))).
  assert (P1 : prim A B s s1) by (unfold s1; change (r_needed (s_rcpts s) (s_now s) (g_rcpt (gget s id))) with (rstep (s_rcpts s) (RExamine (s_now s) (g_rcpt (gget s id)))); constructor; right; reflexivity).
  destruct (c_aband (rget (s_rcpts s1) (g_rcpt (gget s id)))) eqn:Ea; [|apply prims_one; exact P1].
  pose proof (prim_full _ _ _ _ P1 HF) as HF1.
  assert (P2 : prim A B s1 (unqueue s1 fi nm id)).
  { apply (pr_trim A B s1 fi nm id (e :: q)); [exact Hq|discriminate|exact Ef|exact Ea]. }
  econstructor; [exact P1|]. econstructor; [exact P2|]. apply IH; [eapply prim_full; eauto|].
  assert (Hi : In (nm, id) (w_queue (wget s1 fi))) by (change (wget s1 fi) with (wget s fi); rewrite Hq; left; reflexivity).
  unfold unqueue. cbn zeta. change (wget (set_rcpts ?x ?y) fi) with (wget x fi). rewrite wget_wset_same by (exact (queue_len _ _ _ _ Hi)).
  cbn [w_queue with_queue]. change (wget s1 fi) with (wget s fi). rewrite Hq. pose proof (fi_nd _ _ (fu_fi _ HF fi)) as Hd. rewrite Hq in Hd. cbn [map fst] in Hd. apply NoDup_cons_iff in Hd.
  apply (drop_here nm id []); [auto|]. apply Hd.
Qed.
Lemma trim_keeps : forall q s fi fj, exists q' n, wget (trim_loop s fi q) fj = with_queue (wget s fj) q' n.
Proof.
  assert (K : forall w, exists q' n, w = with_queue w q' n) by (intros [] ; do 2 eexists; reflexivity).
  induction q as [|[nm id] q IH]; intros s fi fj; cbn [trim_loop]; [apply K|]. destruct q as [|e q]; [apply K|].
  destruct (g_fly (gget s id)); [apply K|]. set (s1 := set_rcpts s _). destruct (c_aband _); [|apply K].
  destruct (IH (unqueue s1 fi nm id) fi fj) as (q' & n & E). rewrite E. unfold unqueue. cbn zeta. change (wget (set_rcpts ?x ?y) fj) with (wget x fj).
  rewrite wget_wset. destruct (_ && _)%bool eqn:Eb; [|change (wget s1 fj) with (wget s fj); eauto]. apply andb_prop in Eb. destruct Eb as (Eb & _). apply Nat.eqb_eq in Eb. subst fj. do 2 eexists. reflexivity.
Qed.
Lemma trim_nonempty : forall q s fi, w_queue (wget s fi) = q -> NoDup (map fst q) -> q <> [] -> w_queue (wget (trim_loop s fi q) fi) <> [].
Proof.
  induction q as [|[nm id] q IH]; intros s fi Hq Hd Hne; cbn [trim_loop]; [congruence|]. destruct q as [|e q]; [rewrite Hq; discriminate|].
  destruct (g_fly (gget s id)); [rewrite Hq; discriminate|]. set (s1 := set_rcpts s _). destruct (c_aband _); [|change (wget s1 fi) with (wget s fi); rewrite Hq; discriminate].
  assert (Hi : In (nm, id) (w_queue (wget s1 fi))) by (change (wget s1 fi) with (wget s fi); rewrite Hq; left; reflexivity).
  cbn [map fst] in Hd. apply NoDup_cons_iff in Hd. apply IH; [|apply Hd|discriminate].
  unfold unqueue. cbn zeta. change (wget (set_rcpts ?x ?y) fi) with (wget x fi). rewrite wget_wset_same by (exact (queue_len _ _ _ _ Hi)).
  cbn [w_queue with_queue]. change (wget s1 fi) with (wget s fi). rewrite Hq. apply (drop_here nm id []); [auto|]. apply Hd.
Qed.
Lemma trim_rest : forall q s fi, let s' := trim_loop s fi q in s_open s' = s_open s /\ s_heap s' = s_heap s /\ s_outl s' = s_outl s /\ s_tsn s' = s_tsn s /\ s_now s' = s_now s /\ s_wire s' = s_wire s /\ length (s_flows s') = length (s_flows s).
Proof.
  induction q as [|[nm id] q IH]; intros s fi; cbn [trim_loop]; [repeat split|]. destruct q as [|e q]; [repeat split|].
  destruct (g_fly (gget s id)); [repeat split|]. set (s1 := set_rcpts s _). destruct (c_aband _); [|repeat split].
  destruct (IH (unqueue s1 fi nm id) fi) as (h1 & h2 & h3 & h4 & h5 & h6 & h7). repeat split; auto. rewrite h7. unfold unqueue. cbn zeta. change (s_flows (set_rcpts ?x ?y)) with (s_flows x). rewrite flows_wset. reflexivity.
Qed.

(** ** Sending *)
Lemma flags_fl12 : forall fra abn fin, In fra [0; 16; 32; 48] -> In (fra + flag abn 2 + flag fin 1) fl12.
Proof. intros fra abn fin H. unfold fl12, flag. cbn [In] in *. destruct abn, fin; intuition (subst; cbn; tauto). Qed.
Lemma chunk_pieces : forall flow fsn opts first prev fr, is_u64 flow -> is_u64 fsn -> bytes_ok opts -> In (fr_flags fr) fl12 -> is_u64 (fr_seq fr) -> bytes_ok (fr_data fr) ->
  Forall is_piece (snd (ud_chunk flow fsn opts first prev fr)).
Proof.
  intros flow fsn opts first prev fr Hflow Hfsn Ho Hfl Hseq Hd. unfold ud_chunk. cbn [snd].
  pose proof (fl_facts _ Hfl) as (F1 & F2 & F3 & F4 & F5 & F6 & F7).
  apply Forall_app; split; [|apply Forall_app; split; [|apply Forall_app; split]].
  - constructor; [|constructor]. cbn [is_piece]. destruct (first && negb (zlen opts =? 0)); rewrite ?F2, ?F3; assumption.
  - destruct (_ =? CHUNK_USERDATA); [|constructor]. pose proof (wrap_u64 (fr_seq fr - fsn)). repeat (constructor; try assumption).
  - destruct (first && _); repeat constructor; assumption.
  - destruct (fr_abandoned fr); repeat constructor; assumption.
Qed.
Lemma fsn_rcpt : forall s fi fsn o, fsn_from s fi fsn -> fsn_from (set_rcpts s (rstep (s_rcpts s) o)) fi fsn.
Proof.
  intros s fi fsn o (nm & id & q & Hq & H). exists nm, id, q. split; [exact Hq|]. destruct H as [H|(H & Ha)]; [left; exact H|right; split; [exact H|]].
  exact (proj1 (step_facts (s_rcpts s) o _) Ha).
Qed.
Lemma mark_sent_gget : forall s fi nm id o fsn fr abn size i, gget (mark_sent s fi nm id o fsn fr abn size) i =
  gget (gset s id (let g := gget s id in mkFrag (g_owner g) (g_seq g) (g_fra g) abn 0 true true size (s_tsn s) o (g_data g) (g_rcpt g))) i.
Proof. reflexivity. Qed.
Lemma mark_sent_same : forall s fi nm id o fsn fr abn size i, let g := gget s i in let g' := gget (mark_sent s fi nm id o fsn fr abn size) i in
  g_seq g' = g_seq g /\ g_rcpt g' = g_rcpt g /\ g_data g' = g_data g /\ g_fra g' = g_fra g /\ g_owner g' = g_owner g /\ (g_fly g = true -> g_fly g' = true).
Proof.
  intros. unfold g', g. rewrite mark_sent_gget, gget_gset. destruct (Nat.eqb_spec id i); [subst|cbn [andb]; auto 8].
  destruct (Nat.ltb i (length (s_heap s))); cbn; auto 8.
Qed.
Lemma mark_sent_flow : forall s fi nm id o fsn fr abn size fj, exists n l, wget (mark_sent s fi nm id o fsn fr abn size) fj = with_last (with_outb (wget s fj) n) l.
Proof.
  intros. assert (K : forall w, exists n l, w = with_last (with_outb w n) l) by (intros []; do 2 eexists; reflexivity).
  unfold mark_sent. cbn zeta. match goal with |- context [wset ?x fi ?y] => set (s2 := x); set (w := y) end.
  change (wget (set_wire (wset s2 fi w) _) fj) with (wget (wset s2 fi w) fj).
  rewrite wget_wset. destruct (Nat.eqb_spec fi fj); [subst fj|apply K]. destruct (Nat.ltb fi (length (s_flows s2))); [|apply K]. cbn [andb]. unfold w. do 2 eexists. reflexivity.
Qed.
Lemma fsn_sent : forall s fi fsn fj nm id o f fr abn size, fsn_from s fi fsn -> fsn_from (mark_sent s fj nm id o f fr abn size) fi fsn.
Proof.
  intros s fi fsn fj nm id o f fr abn size (n & i & q & Hq & H). exists n, i, q.
  destruct (mark_sent_flow s fj nm id o f fr abn size fi) as (a & b & Ef). rewrite Ef. split; [exact Hq|].
  destruct (mark_sent_same s fj nm id o f fr abn size i) as (-> & -> & _). destruct H as [H|(H & Ha)]; [left; exact H|right; split; [exact H|]].
  exact (proj1 (step_facts (s_rcpts s) (RStart (g_rcpt (gget s id))) _) Ha).
Qed.

Lemma needed_examined : forall rs now i, let c := rget (r_needed rs now i) i in passed now (c_finish c) = true -> c_use c <> 0 -> c_aband c = true.
Proof.
  intros rs now i. unfold r_needed. cbv zeta. destruct (c_aband (rget rs i)) eqn:Ea; [auto|]. destruct (_ || _) eqn:Ep.
  - unfold r_abandon. cbv zeta. rewrite Ea. destruct (c_use (rget rs i) =? 0) eqn:Eu; cbn [negb andb]; [intros _ H; lia|].
    rewrite rget_finish, Nat.eqb_refl. destruct (Nat.ltb_spec i (length (rs_all rs))) as [Hl|Hl]; [reflexivity|]. rewrite rget_out by exact Hl. cbn. discriminate.
  - intros H. rewrite H in Ep. discriminate.
Qed.

Lemma send_loop_prims : forall A B todo s fi fsn first prev p onames pre done fg,
  Full s -> s_open s = true -> w_bound (wget s fi) = true -> w_queue (wget s fi) = pre ++ todo -> Forall (fun e => g_fly (gget s (snd e)) = true) pre ->
  fsn_from s fi fsn -> R p (mkA 1200 done None fg) ->
  match send_loop s fi fsn first prev p onames todo with
  | Ok (s', p', first') => prims A B s s' /\ exists ws, s_wire s' = s_wire s ++ ws
      /\ R p' (mkA 1200 (done ++ chunks_bytes (ud_list (w_id (wget s fi)) fsn (w_opts (wget s fi)) first prev (map x_frame ws))) None fg)
      /\ Forall (fun x => x_flow x = fi /\ x_fsn x = fsn) ws /\ first' = (first && match ws with [] => true | _ => false end)%bool
      /\ exists mid rest, w_queue (wget s' fi) = (pre ++ mid) ++ rest /\ Forall (fun e => g_fly (gget s' (snd e)) = true) (pre ++ mid) /\ Forall (fun x => In (x_frag x) (map snd (pre ++ mid))) ws
  | Rej => True
  | UB => False
  end.
Proof.
  intros A B. induction todo as [|[nm id] todo IH]; intros s fi fsn first prev p onames pre done fg HF Ho Hb Hq Hpre Hfsn HR.
  { cbn [send_loop]. split; [constructor|]. exists []. cbn [map ud_list chunks_bytes flat_map]. rewrite !app_nil_r, andb_true_r. repeat (split; auto). exists [], []. rewrite !app_nil_r in *. auto. }
  assert (Nil : forall s1 p1, prims A B s s1 -> s_wire s1 = s_wire s -> s_flows s1 = s_flows s -> s_heap s1 = s_heap s -> R p1 (mkA 1200 done None fg) ->
    prims A B s s1 /\ exists ws, s_wire s1 = s_wire s ++ ws
      /\ R p1 (mkA 1200 (done ++ chunks_bytes (ud_list (w_id (wget s fi)) fsn (w_opts (wget s fi)) first prev (map x_frame ws))) None fg)
      /\ Forall (fun x => x_flow x = fi /\ x_fsn x = fsn) ws /\ first = (first && match ws with [] => true | _ => false end)%bool
      /\ exists mid rest, w_queue (wget s1 fi) = (pre ++ mid) ++ rest /\ Forall (fun e => g_fly (gget s1 (snd e)) = true) (pre ++ mid) /\ Forall (fun x => In (x_frag x) (map snd (pre ++ mid))) ws).
  { intros s1 p1 P1 E1 E2 E3 R1. split; [exact P1|]. exists []. cbn [map ud_list chunks_bytes flat_map]. rewrite !app_nil_r, andb_true_r. repeat (split; auto).
    exists [], ((nm, id) :: todo). unfold wget, gget. rewrite E2, E3, !app_nil_r. auto. }
  cbn [send_loop]. cbv zeta. destruct (w_out (wget s fi) >=? w_rxbuf (wget s fi)); [apply Nil; auto; constructor|].
  destruct (g_fly (gget s id)) eqn:Efl.
  { specialize (IH s fi fsn first prev p onames (pre ++ [(nm, id)]) done fg HF Ho Hb).
    assert (Hpre1 : Forall (fun e => g_fly (gget s (snd e)) = true) (pre ++ [(nm, id)])) by (apply Forall_app; split; [exact Hpre|]; constructor; [exact Efl|constructor]).
    assert (Hq1 : w_queue (wget s fi) = (pre ++ [(nm, id)]) ++ todo) by (rewrite <- app_assoc; exact Hq).
    specialize (IH Hq1 Hpre1 Hfsn HR). destruct (send_loop s fi fsn first prev p onames todo) as [[[s' p'] f']| |]; auto.
    destruct IH as (P3 & ws & W1 & W2 & W3 & W4 & mid & rest & W5 & W6 & W7). split; [exact P3|]. exists ws. repeat (split; auto). exists ((nm, id) :: mid), rest.
    rewrite <- (app_assoc pre [(nm, id)] mid) in W5, W6, W7. cbn [app] in W5, W6, W7. auto. }
  set (rc := g_rcpt (gget s id)). set (rs1 := if g_ever (gget s id) && negb (c_rtx (rget (s_rcpts s) rc)) then r_abandon (s_rcpts s) rc else s_rcpts s).
  assert (exists s0, prims A B s s0 /\ s0 = set_rcpts s rs1 /\ fsn_from s0 fi fsn) as (s0 & P0 & E0 & F0).
  { exists (set_rcpts s rs1). unfold rs1. destruct (g_ever (gget s id) && negb (c_rtx (rget (s_rcpts s) rc))) eqn:Er.
    - apply andb_prop in Er. destruct Er as (_ & Er). apply negb_true_iff in Er. change (r_abandon (s_rcpts s) rc) with (rstep (s_rcpts s) (RAbandon rc)).
      split; [|split; [reflexivity|apply fsn_rcpt; exact Hfsn]]. apply prims_one. constructor. right. exact Er.
    - split; [|split; [reflexivity|]]; [|exact Hfsn]. destruct s. constructor. }
  set (s1 := set_rcpts s (r_needed rs1 (s_now s) rc)).
  assert (E1 : s1 = set_rcpts s0 (rstep (s_rcpts s0) (RExamine (s_now s) rc))) by (rewrite E0; reflexivity).
  assert (P1 : prims A B s s1).
  { eapply prims_trans; [exact P0|]. rewrite E1. apply prims_one. constructor. right. rewrite E0. reflexivity. }
  assert (F1 : fsn_from s1 fi fsn) by (rewrite E1; apply fsn_rcpt; exact F0).
  pose proof (prims_full _ _ _ _ P1 HF) as HF1.
  set (abn := c_aband (rget (r_needed rs1 (s_now s) rc) rc)).
  set (fr := mkFrame _ _ _). 
  pose proof (fu_fi _ HF fi) as Ffi.
  assert (Hin : In (nm, id) (w_queue (wget s fi))) by (rewrite Hq; apply in_or_app; right; left; reflexivity).
  destruct (fi_ids _ _ Ffi nm id Hin) as (I1 & _). destruct (fu_frag _ HF id I1) as (G1 & G2 & G3 & G4).
  assert (Hfsnu : is_u64 fsn).
  { destruct Hfsn as (n' & i' & q' & Hq' & H'). assert (Hin' : In (n', i') (w_queue (wget s fi))) by (rewrite Hq'; left; reflexivity).
    destruct (fi_ids _ _ Ffi n' i' Hin') as (J1 & _). destruct (fu_frag _ HF i' J1) as (_ & _ & _ & J4). destruct H' as [->|(-> & _)]; [apply wrap_u64|exact J4]. }
  assert (Hps : Forall is_piece (snd (ud_chunk (w_id (wget s fi)) fsn (w_opts (wget s fi)) first prev fr))).
  { apply chunk_pieces; auto.
    - pose proof (fi_id _ _ Ffi Hb) as Hid. unfold is_u64, U64MAX, LONG_MAX in *. lia.
    - apply (fi_opts _ _ Ffi).
    - apply flags_fl12. exact G2. }
  remember (ud_chunk (w_id (wget s fi)) fsn (w_opts (wget s fi)) first prev fr) as c eqn:Ec.
  destruct (R_try_chunk p 1200 done fg (fst c) (snd c) HR Hps) as (p1 & [(Hfit & E & HR1)|(Hno & E & HR1)]); rewrite E; cbn [rbind].
  2: { apply Nil; auto. }
  destruct onames as [|o onames]; [exact I|]. destruct (usable o (s_outl s1)) eqn:Eu; [|exact I].
  set (size := wrap64 _). set (s2 := mark_sent s1 fi nm id o fsn fr abn size).
  assert (Hsz : size = 3 + zlen (pieces_bytes (snd c))).
  { unfold size. destruct (R_remaining _ _ HR) as (e1 & n1). destruct (R_remaining _ _ HR1) as (e2 & n2). rewrite e1, e2. unfold a_bytes in *. cbn [a_cap a_done a_open] in *.
    rewrite !app_nil_r in *. rewrite zlen_app, zlen_chunk_bytes in *. pose proof (zlen_nonneg _ (pieces_bytes (snd c))). pose proof (zlen_nonneg _ done). unfold wrap64. rewrite Z.mod_small; lia. }
  assert (P2 : prim A B s1 s2).
  { unfold s2. apply (pr_sent A B s1 fi pre nm id todo o fsn fr abn size); auto.
    - pose proof (zlen_nonneg _ (pieces_bytes (snd c))). pose proof (zlen_nonneg _ done). lia.
    - apply needed_examined. }
  pose proof (prim_full _ _ _ _ P2 HF1) as HF2.
  destruct (mark_sent_flow s1 fi nm id o fsn fr abn size fi) as (a & b & Ef). fold s2 in Ef. change (wget s1 fi) with (wget s fi) in Ef.
  assert (Hpre2 : Forall (fun e => g_fly (gget s2 (snd e)) = true) (pre ++ [(nm, id)])).
  { apply Forall_app. split.
    - rewrite Forall_forall in *. intros e He. unfold s2. apply mark_sent_same. apply Hpre. exact He.
    - constructor; [|constructor]. cbn [snd]. unfold s2. rewrite mark_sent_gget, gget_gset_same by exact I1. reflexivity. }
  specialize (IH s2 fi fsn false (g_seq (gget s id)) p1 onames (pre ++ [(nm, id)]) (done ++ chunk_bytes (fst c) (pieces_bytes (snd c))) fg HF2).
  rewrite Ef in IH. cbn [w_bound w_queue w_id w_opts with_last with_outb] in IH. rewrite <- app_assoc in IH. cbn [app] in IH.
  specialize (IH Ho Hb Hq Hpre2 (fsn_sent _ _ _ _ _ _ _ _ _ _ _ F1) HR1).
  destruct (send_loop s2 fi fsn false (g_seq (gget s id)) p1 onames todo) as [[[s' p'] f']| |]; auto.
  destruct IH as (P3 & ws & W1 & W2 & W3 & W4 & mid & rest & W5 & W6 & W7).
  split; [eapply prims_trans; [exact P1|]; econstructor; [exact P2|exact P3]|].
  exists (mkWire fi id fsn fr size :: ws). split; [rewrite W1; unfold s2; cbn [s_wire mark_sent set_wire]; rewrite <- app_assoc; reflexivity|].
  split; [|split; [constructor; auto|split; [rewrite andb_false_r; exact W4|]]].
  2: { exists ((nm, id) :: mid), rest. rewrite <- (app_assoc pre [(nm, id)] mid) in W5, W6, W7. cbn [app] in W5, W6, W7. split; [exact W5|]. split; [exact W6|]. constructor; [|exact W7].
       cbn [x_frag]. rewrite map_app. apply in_or_app. right. left. reflexivity. }
  cbn [map x_frame ud_list]. cbv zeta. rewrite <- Ec. unfold chunks_bytes in *. cbn [flat_map fst snd fr_seq fr]. rewrite app_assoc. exact W2.
Qed.

Lemma from_name_split : forall name q r, from_name name q = Some r -> exists pre id suf, q = pre ++ (name, id) :: suf /\ r = (name, id) :: suf.
Proof.
  induction q as [|[nm id] q IH]; intros r H; [discriminate|]. cbn [from_name] in H. destruct (Z.eqb_spec nm name) as [->|N].
  - injection H as <-. exists [], id, q. auto.
  - destruct (IH r H) as (pre & i & suf & -> & ->). exists ((nm, id) :: pre), i, suf. auto.
Qed.
Lemma scan_start_ok : forall s fi, Full s -> exists pre, w_queue (wget s fi) = pre ++ scan_start s (wget s fi) /\ Forall (fun e => g_fly (gget s (snd e)) = true) pre.
Proof.
  intros s fi HF. unfold scan_start. destruct (from_name _ _) as [r|] eqn:E; [|exists []; split; [reflexivity|constructor]].
  destruct (from_name_split _ _ _ E) as (pre & id & suf & Eq & ->). destruct (g_fly (gget s id)) eqn:Ef; [|exists []; split; [reflexivity|constructor]].
  exists pre. split; [exact Eq|]. exact (fi_last _ _ (fu_fi _ HF fi) pre _ id suf Eq eq_refl Ef).
Qed.

Lemma find_fsn_prims : forall A B s fi nm id q, w_queue (wget s fi) = (nm, id) :: q -> let '(s', fsn) := find_fsn s id in
  prims A B s s' /\ fsn_from s' fi fsn /\ exists rs, s' = set_rcpts s rs.
Proof.
  intros A B s fi nm id q Hq. unfold find_fsn. cbv zeta.
  assert (K : forall s1, w_queue (wget s1 fi) = (nm, id) :: q -> gget s1 id = gget s id -> fsn_from s1 fi (if negb (c_aband (rget (s_rcpts s1) (g_rcpt (gget s id)))) then wrap64 (g_seq (gget s id) - 1)
      else if g_fly (gget s id) && negb (g_sentab (gget s id)) then wrap64 (g_seq (gget s id) - 1) else g_seq (gget s id))).
  { intros s1 H1 H2. exists nm, id, q. split; [exact H1|]. rewrite H2. destruct (c_aband _); cbn [negb]; auto. destruct (_ && _); auto. }
  destruct (g_fly (gget s id)) eqn:Ef.
  - split; [constructor|]. split; [|exists (s_rcpts s); destruct s; reflexivity]. rewrite <- ?Ef. rewrite Ef. specialize (K s Hq eq_refl). exact K.
  - split; [apply prims_one; change (r_needed (s_rcpts s) (s_now s) (g_rcpt (gget s id))) with (rstep (s_rcpts s) (RExamine (s_now s) (g_rcpt (gget s id)))); constructor; right; reflexivity|].
    split; [|eexists; reflexivity]. specialize (K (set_rcpts s (r_needed (s_rcpts s) (s_now s) (g_rcpt (gget s id)))) Hq eq_refl). exact K.
Qed.

Lemma assemble_prims : forall A B s fi gone p onames done fg, Full s -> s_open s = true -> w_bound (wget s fi) = true -> R p (mkA 1200 done None fg) ->
  match assemble_data s fi gone p onames with
  | Ok (s', p', sent) => prims A B s s' /\ exists ws fsn opts, s_wire s' = s_wire s ++ ws
      /\ R p' (mkA 1200 (done ++ chunks_bytes (ud_list (w_id (wget s fi)) fsn opts true 0 (map x_frame ws))) None fg)
      /\ Forall (fun x => x_flow x = fi /\ x_fsn x = fsn) ws /\ opts = (if gone then [] else w_opts (wget s fi)) /\ sent = match ws with [] => false | _ => true end
      /\ exists pre rest, w_queue (wget s' fi) = pre ++ rest /\ Forall (fun e => g_fly (gget s' (snd e)) = true) pre /\ Forall (fun x => In (x_frag x) (map snd pre)) ws
  | Rej => True
  | UB => False
  end.
Proof.
  intros A B s fi gone p onames done fg HF Ho Hb HR. unfold assemble_data. destruct (maybe_ready (wget s fi)) eqn:Em.
  2: { split; [constructor|]. exists [], 0, (if gone then [] else w_opts (wget s fi)). cbn. rewrite !app_nil_r. repeat (split; auto). exists [], (w_queue (wget s fi)). auto. }
  cbv zeta. assert (Hne : w_queue (wget s fi) <> []) by (unfold maybe_ready in Em; destruct (w_queue (wget s fi)); [discriminate|congruence]).
  pose proof (trim_prims A B _ s fi HF eq_refl) as P1. pose proof (trim_nonempty _ s fi eq_refl (fi_nd _ _ (fu_fi _ HF fi)) Hne) as Hne1.
  fold (do_trim s fi) in P1, Hne1. pose proof (trim_rest (w_queue (wget s fi)) s fi) as (T1 & T2 & T3 & T4 & T5 & T6 & T7). destruct (trim_keeps (w_queue (wget s fi)) s fi fi) as (q1 & n1 & Ew).
  fold (do_trim s fi) in *. set (s1 := do_trim s fi) in *. pose proof (prims_full _ _ _ _ P1 HF) as HF1.
  destruct (w_queue (wget s1 fi)) as [|[nm id] q] eqn:Eq; [congruence|].
  pose proof (find_fsn_prims A B s1 fi nm id q Eq) as Hf. destruct (find_fsn s1 id) as [s2 fsn]. destruct Hf as (P2 & F2 & rs & E2).
  pose proof (prims_full _ _ _ _ P2 HF1) as HF2. destruct (scan_start_ok s2 fi HF2) as (pre & Es & Hpre).
  set (s3 := if gone then wset s2 fi (with_opts (wget s2 fi) []) else s2).
  assert (P3 : prims A B s2 s3).
  { unfold s3. destruct gone; [|constructor]. apply prims_one, pr_flow. constructor; cbn; auto. }
  pose proof (prims_full _ _ _ _ P3 HF2) as HF3.
  assert (W2 : wget s2 fi = wget s1 fi) by (rewrite E2; reflexivity).
  assert (Hl : (fi < length (s_flows s2))%nat).
  { rewrite E2. change (s_flows (set_rcpts s1 rs)) with (s_flows s1). apply (queue_len s1 fi nm id). rewrite Eq. left. reflexivity. }
  assert (E3 : wget s3 fi = if gone then with_opts (wget s1 fi) [] else wget s1 fi) by (unfold s3; destruct gone; [rewrite wget_wset_same by exact Hl|]; rewrite W2; reflexivity).
  assert (G3 : s_heap s3 = s_heap s2 /\ s_rcpts s3 = s_rcpts s2 /\ s_open s3 = s_open s2 /\ s_wire s3 = s_wire s2) by (unfold s3; destruct gone; auto).
  destruct G3 as (g1 & g2 & g3 & g4).
  pose proof (send_loop_prims A B (scan_start s2 (wget s2 fi)) s3 fi fsn true 0 p onames pre done fg HF3) as H.
  assert (Q3 : w_queue (wget s3 fi) = w_queue (wget s2 fi)) by (rewrite E3, W2; destruct gone; reflexivity).
  assert (B3 : w_bound (wget s3 fi) = true) by (rewrite E3; destruct gone; cbn; rewrite Ew; exact Hb).
  assert (I3 : w_id (wget s3 fi) = w_id (wget s fi)) by (rewrite E3; destruct gone; cbn; rewrite Ew; reflexivity).
  assert (O3 : w_opts (wget s3 fi) = if gone then [] else w_opts (wget s fi)) by (rewrite E3; destruct gone; cbn; [reflexivity|rewrite Ew; reflexivity]).
  rewrite Q3, B3, I3, O3, g3 in H.
  assert (Ho2 : s_open s2 = true) by (rewrite E2; cbn [s_open set_rcpts]; congruence).
  specialize (H Ho2 eq_refl Es).
  assert (Hp3 : Forall (fun e => g_fly (gget s3 (snd e)) = true) pre) by (unfold gget; rewrite g1; exact Hpre).
  assert (F3 : fsn_from s3 fi fsn).
  { destruct F2 as (a & b & c & d & e). exists a, b, c. rewrite Q3. unfold gget. rewrite g1, g2. auto. }
  specialize (H Hp3 F3 HR). destruct (send_loop s3 fi fsn true 0 p onames _) as [[[s4 p4] f4]| |]; cbn [rbind]; [|exact I|exact H].
  destruct H as (P4 & ws & W1 & W3 & W4 & W5 & mid & rest & W6 & W7 & W8). split; [eapply prims_trans; [exact P1|]; eapply prims_trans; [exact P2|]; eapply prims_trans; [exact P3|exact P4]|].
  exists ws, fsn, (if gone then [] else w_opts (wget s fi)). split; [rewrite W1, g4, E2; cbn [s_wire set_rcpts]; congruence|]. split; [exact W3|]. split; [exact W4|]. split; [reflexivity|].
  split; [rewrite W5; destruct ws; reflexivity|]. exists (pre ++ mid), rest. auto.
Qed.

Lemma packet_prims : forall A B s fi gone buf margin flags ts tse onames, Full s ->
  match send_packet s fi gone buf margin flags ts tse onames with
  | Ok (s', pk) => prims A B s s' /\ exists ws fsn, s_wire s' = s_wire s ++ ws /\ Forall (fun x => x_flow x = fi /\ x_fsn x = fsn) ws
      /\ pk = (match ws with [] => None | _ => Some (firstn margin buf ++ header_bytes flags ts tse ++ chunks_bytes (ud_list (w_id (wget s fi)) fsn (if gone then [] else w_opts (wget s fi)) true 0 (map x_frame ws))) end)
      /\ header_fits buf margin flags ts tse = true /\ (match pk with None => True | Some v => zlen v <= 1200 end)
      /\ exists pre rest, w_queue (wget s' fi) = pre ++ rest /\ Forall (fun e => g_fly (gget s' (snd e)) = true) pre /\ Forall (fun x => In (x_frag x) (map snd pre)) ws
  | Rej => True | UB => False end.
Proof.
  intros A B s fi gone buf margin flags ts tse onames HF. unfold send_packet. destruct (s_open s) eqn:Ho; [|exact I]. destruct (w_bound (wget s fi)) eqn:Hb; [|exact I]. cbn [andb].
  destruct (header_fits buf margin flags ts tse) eqn:Hh; [|exact I]. unfold header_fits in Hh. rewrite !andb_true_iff in Hh. destruct Hh as ((((h1 & h2) & h3) & h4) & h5).
  assert (Hz : zlen buf = 1200) by (unfold MAX_SESSION_PACKET_LENGTH in h1; lia). apply Nat.leb_le in h2. unfold is_byteb in h3.
  destruct (R_init_header buf margin flags ts tse) as (p0 & E & HR); [unfold is_byte; lia|rewrite Hz; unfold U64MAX; lia|exact h2|]. rewrite E. cbn [rbind]. rewrite Hz in HR.
  pose proof (assemble_prims A B s fi gone p0 onames _ _ HF Ho Hb HR) as H. destruct (assemble_data s fi gone p0 onames) as [[[s1 p1] sent]| |]; cbn [rbind]; [|exact I|exact H].
  destruct H as (P & ws & fsn & opts & W1 & WR & W2 & Wo & Ws & W3). destruct (R_remaining _ _ WR) as (_ & Wl). cbn [a_cap] in Wl. unfold a_bytes in Wl. cbn [a_done a_open] in Wl. rewrite app_nil_r, <- app_assoc in Wl. rewrite Wo in Wl. apply R_vector in WR. unfold a_bytes in WR. cbn [a_done a_open] in WR. rewrite app_nil_r, <- app_assoc in WR. rewrite Wo in WR.
  subst sent. destruct ws as [|x ws]; [split; [exact P|exists [], fsn; auto 9]|]. split; [eapply prims_trans; [exact P|]; apply prims_one; constructor|].
  exists (x :: ws), fsn. split; [exact W1|]. split; [exact W2|]. split; [rewrite WR; reflexivity|]. split; [reflexivity|]. split; [rewrite WR; lia|exact W3].
Qed.
Lemma send_prims : forall A B s fi gone buf margin flags ts tse onames, Full s ->
  match do_send s fi gone buf margin flags ts tse onames with
  | Ok s' => prims A B s s' /\ exists ws, s_wire s' = s_wire s ++ ws /\ Forall (fun x => x_flow x = fi) ws
      /\ exists pre rest, w_queue (wget s' fi) = pre ++ rest /\ Forall (fun e => g_fly (gget s' (snd e)) = true) pre /\ Forall (fun x => In (x_frag x) (map snd pre)) ws
  | Rej => True | UB => False end.
Proof.
  intros A B s fi gone buf margin flags ts tse onames HF. unfold do_send. pose proof (packet_prims A B s fi gone buf margin flags ts tse onames HF) as H.
  destruct (send_packet s fi gone buf margin flags ts tse onames) as [[s' pk]| |]; cbn [rbind]; auto. destruct H as (P & ws & fsn & W1 & W2 & _ & _ & _ & W3). split; [exact P|]. exists ws.
  split; [exact W1|]. split; [|exact W3]. rewrite Forall_forall in *. intros x Hx. apply (W2 x Hx).
Qed.

(** ** Acknowledgements *)
Lemma prim_open : forall A B s s', prim A B s s' -> s_open s' = s_open s.
Proof.
  intros A B s s' P. destruct P; try reflexivity. unfold add_frag in H5. cbn zeta in H5. destruct (_ && _); [|discriminate]. injection H5 as <-. reflexivity.
Qed.
Lemma prims_open : forall A B s s', prims A B s s' -> s_open s' = s_open s.
Proof. induction 1; auto. rewrite IHprims. eapply prim_open; eauto. Qed.

Lemma unqueue_flow : forall s fi nm id, In (nm, id) (w_queue (wget s fi)) -> exists n, wget (unqueue s fi nm id) fi = with_queue (wget s fi) (drop nm (w_queue (wget s fi))) n.
Proof.
  intros s fi nm id H. unfold unqueue. cbn zeta. change (wget (set_rcpts ?x ?y) fi) with (wget x fi). rewrite wget_wset_same by (exact (queue_len _ _ _ _ H)). eexists. reflexivity.
Qed.
Lemma nodup_rest : forall (nm : Z) (id : nat) (todo q : list (Z * nat)), NoDup (map fst ((nm, id) :: todo)) -> incl todo q -> incl todo (drop nm q).
Proof.
  intros nm id todo q Hd Hi e He. apply drop_in. split; [auto|]. cbn [map fst] in Hd. apply NoDup_cons_iff in Hd. destruct Hd as (Hd & _). intros E. apply Hd. rewrite <- E. apply in_map. exact He.
Qed.

Lemma ack_range_prims : forall (A : nat -> Z -> Prop) B todo s fi from to, Full s -> incl todo (w_queue (wget s fi)) -> NoDup (map fst todo) -> (forall i, from <= i <= to -> A fi i) ->
  match ack_range s fi from to todo with
  | Ok (s', rem) => prims A B s s' /\ incl rem (w_queue (wget s' fi)) /\ NoDup (map fst rem) /\ exists q n m, wget s' fi = with_queue (with_outb (wget s fi) m) q n
  | Rej => False
  | UB => False
  end.
Proof.
  intros A B. assert (K : forall w, exists q n m, w = with_queue (with_outb w m) q n) by (intros []; do 3 eexists; reflexivity).
  induction todo as [|[nm id] todo IH]; intros s fi from to HF Hin Hd HA; cbn [ack_range].
  { split; [constructor|]. split; [exact Hin|]. split; [exact Hd|apply K]. }
  cbv zeta. pose proof Hd as Hd0. cbn [map fst] in Hd. apply NoDup_cons_iff in Hd. destruct Hd as (Hd1 & Hd2).
  destruct (Z.ltb_spec (g_seq (gget s id)) from) as [|Hf].
  { apply IH; auto. intros e He. apply Hin. right. exact He. }
  destruct (Z.gtb_spec (g_seq (gget s id)) to) as [|Ht].
  { split; [constructor|]. split; [exact Hin|]. split; [exact Hd0|apply K]. }
  assert (Hi : In (nm, id) (w_queue (wget s fi))) by (apply Hin; left; reflexivity).
  assert (Hrest : incl todo (w_queue (wget s fi))) by (intros e He; apply Hin; right; exact He).
  assert (Hac : A fi (g_seq (gget s id))) by (apply HA; lia).
  destruct (g_fly (gget s id)) eqn:Efl.
  - destruct (fi_ids _ _ (fu_fi _ HF fi) nm id Hi) as (_ & _ & _ & I4). destruct (I4 Efl) as (I5 & _).
    assert (Hn : has_name (g_oname (gget s id)) (s_outl s) = true) by (apply has_name_in; apply in_map_iff; exists (g_oname (gget s id), id); auto).
    rewrite Hn. cbn [rbind]. set (s1 := wset _ fi _). change s1 with (forget s fi (gget s id)) in *. clear s1. set (s1 := forget s fi (gget s id)).
    assert (P : prim A B s (unqueue s1 fi nm id)) by (apply pr_ackf; auto). pose proof (prim_full _ _ _ _ P HF) as HF1.
    assert (E1 : wget s1 fi = with_outb (wget s fi) (wrap64 (w_out (wget s fi) - g_size (gget s id)))) by (unfold s1, forget; cbn zeta; apply wget_wset_same; exact (queue_len _ _ _ _ Hi)).
    destruct (unqueue_flow s1 fi nm id) as (n & E2); [rewrite E1; exact Hi|].
    specialize (IH (unqueue s1 fi nm id) fi from to HF1). rewrite E2, E1 in IH. cbn [w_queue with_queue with_outb] in IH.
    specialize (IH (nodup_rest nm id todo _ Hd0 Hrest) Hd2 HA). destruct (ack_range (unqueue s1 fi nm id) fi from to todo) as [[s' rem]| |]; auto.
    destruct IH as (P2 & I2 & D2 & q & n2 & m2 & E3). split; [econstructor; eauto|]. split; [exact I2|]. split; [exact D2|]. rewrite E3. do 3 eexists. reflexivity.
  - cbn [rbind]. assert (P : prim A B s (unqueue s fi nm id)) by (apply pr_ack; auto). pose proof (prim_full _ _ _ _ P HF) as HF1.
    destruct (unqueue_flow s fi nm id Hi) as (n & E2).
    specialize (IH (unqueue s fi nm id) fi from to HF1). rewrite E2 in IH. cbn [w_queue with_queue with_outb] in IH.
    specialize (IH (nodup_rest nm id todo _ Hd0 Hrest) Hd2 HA). destruct (ack_range (unqueue s fi nm id) fi from to todo) as [[s' rem]| |]; auto.
    destruct IH as (P2 & I2 & D2 & q & n2 & m2 & E3). split; [econstructor; eauto|]. split; [exact I2|]. split; [exact D2|]. rewrite E3. destruct (wget s fi). do 3 eexists. reflexivity.
Qed.

Lemma ack_all_prims : forall (A : nat -> Z -> Prop) B ranges s fi todo, Full s -> incl todo (w_queue (wget s fi)) -> NoDup (map fst todo) -> (forall a b i, In (a, b) ranges -> a <= i <= b -> A fi i) ->
  match ack_all s fi todo ranges with
  | Ok s' => prims A B s s' /\ exists q n m, wget s' fi = with_queue (with_outb (wget s fi) m) q n
  | Rej => False
  | UB => False
  end.
Proof.
  intros A B. induction ranges as [|[a b] ranges IH]; intros s fi todo HF Hin Hd HA; cbn [ack_all].
  { split; [constructor|]. destruct (wget s fi). do 3 eexists. reflexivity. }
  pose proof (ack_range_prims A B todo s fi a b HF Hin Hd) as H. destruct (ack_range s fi a b todo) as [[s1 rem]| |]; cbn [rbind].
  - destruct H as (P1 & I1 & D1 & q & n & m & E1). { intros i Hi. apply (HA a b); auto. left. reflexivity. }
    pose proof (prims_full _ _ _ _ P1 HF) as HF1. specialize (IH s1 fi rem HF1 I1 D1). destruct (ack_all s1 fi rem ranges) as [s'| |].
    + destruct IH as (P2 & q2 & n2 & m2 & E2). { intros x y i Hi. apply (HA x y). right. exact Hi. }
      split; [eapply prims_trans; eauto|]. rewrite E2, E1. do 3 eexists. reflexivity.
    + apply IH. intros x y i Hi. apply (HA x y). right. exact Hi.
    + apply IH. intros x y i Hi. apply (HA x y). right. exact Hi.
  - apply H. intros i Hi. apply (HA a b); auto. left. reflexivity.
  - apply H. intros i Hi. apply (HA a b); auto. left. reflexivity.
Qed.

Lemma on_ack_prims : forall (A : nat -> Z -> Prop) B s fi k, Full s -> (forall i, acked k i -> A fi i) ->
  match on_ack s fi k with Ok s' => prims A B s s' | Rej => False | UB => False end.
Proof.
  intros A B s fi k HF HA. unfold on_ack. cbv zeta.
  destruct (Nat.lt_ge_cases fi (length (s_flows s))) as [Hl|Hl].
  2: { rewrite wget_out by exact Hl. constructor. }
  set (s1 := wset s fi (with_rxbuf (with_opts (wget s fi) []) (k_bytes k))).
  assert (P1 : prim A B s s1) by (apply pr_flow; constructor; cbn; auto).
  pose proof (prim_full _ _ _ _ P1 HF) as HF1.
  pose proof (ack_all_prims A B ((0, k_cum k) :: k_ranges k) s1 fi (w_queue (wget s1 fi)) HF1 (incl_refl _) (fi_nd _ _ (fu_fi _ HF1 fi))) as H.
  assert (HA' : forall a b i, In (a, b) ((0, k_cum k) :: k_ranges k) -> a <= i <= b -> A fi i).
  { intros a b i [E|Hi] Hr; apply HA; [left; injection E as <- <-; lia|right; exists a, b; auto]. }
  specialize (H HA'). destruct (ack_all s1 fi _ _) as [s2| |]; [|destruct H|destruct H].
  destruct H as (P2 & q & n & m & E2). pose proof (prims_full _ _ _ _ P2 HF1) as HF2.
  assert (E1 : wget s1 fi = with_rxbuf (with_opts (wget s fi) []) (k_bytes k)) by (apply wget_wset_same; exact Hl).
  destruct (w_state (wget s fi)) eqn:Est; cbn [rbind]; try constructor.
  - econstructor; eauto.
  - destruct (w_queue (wget s2 fi)) eqn:Eq; [|econstructor; eauto]. econstructor; [exact P1|]. eapply prims_trans; [exact P2|]. apply prims_one, pr_flow.
    assert (St : w_state (wget s2 fi) = FS_CLOSING) by (rewrite E2, E1; exact Est).
    constructor; cbn; auto.
    + intros Hv. pose proof (fi_live _ _ (fu_fi _ HF2 fi) Hv). congruence.
    + right. right. left. auto.
    + discriminate.
Qed.

(** ** Losses *)
Lemma nak_prims : forall A B todo s, Full s -> incl todo (s_outl s) -> NoDup (map fst todo) -> prims A B s (nak_scan s todo).
Proof.
  intros A B. induction todo as [|[nm id] todo IH]; intros s HF Hin Hd; cbn [nak_scan]; [constructor|]. cbv zeta.
  pose proof Hd as Hd0. cbn [map fst] in Hd. apply NoDup_cons_iff in Hd. destruct Hd as (Hd1 & Hd2).
  assert (Hi : In (nm, id) (s_outl s)) by (apply Hin; left; reflexivity).
  assert (Hrest : incl todo (s_outl s)) by (intros e He; apply Hin; right; exact He).
  destruct (_ >? _); [constructor|]. destruct (_ >=? _).
  - assert (P : prim A B s (lose_one s nm id (g_nak (gget s id) + 1))) by (apply pr_lose; exact Hi).
    econstructor; [exact P|]. apply IH; [eapply prim_full; eauto| |exact Hd2]. apply (nodup_rest nm id todo (s_outl s)); auto.
  - assert (P : prim A B s (set_nak s id (g_nak (gget s id) + 1))) by apply pr_nak.
    econstructor; [exact P|]. apply IH; [eapply prim_full; eauto|exact Hrest|exact Hd2].
Qed.
Lemma lose_all_out : forall l s a b, fold_left (fun s e => lose s (snd e) (g_nak (gget s (snd e)))) l (set_out s a b) = set_out (fold_left (fun s (e : Z * nat) => lose s (snd e) (g_nak (gget s (snd e)))) l s) a b.
Proof. induction l as [|e l IH]; intros s a b; [reflexivity|]. cbn [fold_left]. rewrite <- IH. reflexivity. Qed.
Lemma timeout_prims : forall A B s, Full s -> prims A B s (set_out (fold_left (fun s e => lose s (snd e) (g_nak (gget s (snd e)))) (s_outl s) s) [] 0).
Proof.
  intros A B s HF. remember (s_outl s) as l eqn:El. revert s El HF. induction l as [|[nm id] l IH]; intros s El HF; cbn [fold_left].
  - assert (E : set_out s [] 0 = s). { pose proof (fu_osum _ HF) as Hs. rewrite <- El in Hs. cbn in Hs. destruct s; cbn in *. subst. reflexivity. }
    rewrite E. constructor.
  - cbn [snd]. set (nk := g_nak (gget s id)).
    assert (P : prim A B s (lose_one s nm id nk)) by (apply pr_lose; rewrite <- El; left; reflexivity).
    pose proof (prim_full _ _ _ _ P HF) as HF1. econstructor; [exact P|].
    specialize (IH (lose_one s nm id nk)).
    assert (Eo : l = s_outl (lose_one s nm id nk)).
    { unfold lose_one. cbn zeta. cbn [s_outl set_out]. change (s_outl (lose s id nk)) with (s_outl s). pose proof (fu_ond _ HF) as Hd. rewrite <- El in *. cbn [map fst] in Hd. apply NoDup_cons_iff in Hd.
      symmetry. apply (drop_here nm id []); [auto|]. apply Hd. }
    specialize (IH Eo HF1). unfold lose_one in IH at 2. cbn zeta in IH. rewrite lose_all_out in IH. exact IH.
Qed.

(** ** Closing *)
Lemma last_id_app : forall q nm id, last_id (q ++ [(nm, id)]) = Some id.
Proof. intros. unfold last_id. rewrite rev_app_distr. reflexivity. Qed.
Lemma last_cases : forall (q : list (Z * nat)), q = [] \/ exists q' nm id, q = q' ++ [(nm, id)].
Proof. induction q as [|[nm id] q _] using rev_ind; [left; reflexivity|right; eauto]. Qed.
Lemma numbered_last : forall l n, l <> [] -> 0 <= n -> n + zlen l <= U64MAX -> exists l' x, numbered n l = l' ++ [(n + zlen l - 1, x)].
Proof.
  induction l as [|x l IH]; intros n Hne H0 H1; [congruence|]. cbn [numbered]. rewrite zlen_cons in *. pose proof (zlen_nonneg _ l). destruct l as [|y l].
  - exists [], x. unfold zlen in *. cbn in *. repeat f_equal. lia.
  - assert (wrap64 (n + 1) = n + 1) as -> by (unfold wrap64, U64MAX in *; lia). destruct (IH (n + 1)) as (l' & z & E); [discriminate|lia|lia|]. rewrite E. exists ((n, x) :: l'), z. cbn [app]. do 4 f_equal. lia.
Qed.
Lemma marks_nonempty : forall ps, ps <> [] -> marks ps <> [].
Proof. intros ps H E. apply H. apply length_zero_iff_nil. rewrite <- marks_length, E. reflexivity. Qed.

Definition Bclose (n : nat) (o : rop) : Prop := (exists now, o = RNew now (Some (-1)) (Some (-1))) \/ o = RUp n.
Lemma close_prims : forall A (B : rop -> Prop) s fi names, Full s -> s_open s = true -> (fi < length (s_flows s))%nat -> (forall o, Bclose (length (rs_all (s_rcpts s))) o -> B o) ->
  match do_close s fi names with
  | Ok s' => prims A B s s' /\ w_live (wget s' fi) = false /\ (w_bound (wget s fi) = false -> w_bound (wget s' fi) = false /\ w_state (wget s' fi) <> FS_OPEN)
  | Rej => True
  | UB => False
  end.
Proof.
  intros A B s fi names HF Ho Hl HB. unfold do_close. cbv zeta. set (s1 := wset s fi (with_dead (wget s fi))).
  assert (P1 : prim A B s s1).
  { apply pr_flow. constructor; cbn; auto; discriminate. }
  pose proof (prim_full _ _ _ _ P1 HF) as HF1. pose proof (fu_fi _ HF1 fi) as F1.
  assert (E1 : wget s1 fi = with_dead (wget s fi)) by (apply wget_wset_same; exact Hl).
  assert (Hl1 : (fi < length (s_flows s1))%nat) by (unfold s1; rewrite flows_wset; exact Hl).
  assert (Hlive1 : w_live (wget s1 fi) = false) by (rewrite E1; reflexivity).
  assert (Ho1 : s_open s1 = true) by exact Ho.
  assert (Er1 : s_rcpts s1 = s_rcpts s) by reflexivity.
  assert (Ebound : w_bound (wget s1 fi) = w_bound (wget s fi)) by (rewrite E1; reflexivity).
  clearbody s1.
  (* end: the closing test on the session *)
  assert (Fin : forall s2, prims A B s1 s2 -> s_open s2 = true -> w_live (wget s2 fi) = false -> (w_bound (wget s fi) = false -> w_bound (wget s2 fi) = false /\ w_state (wget s2 fi) <> FS_OPEN) ->
     let s' := if w_bound (wget s2 fi) && negb (s_open s2) then wset s2 fi (goto_closed (wget s2 fi)) else s2 in
     prims A B s s' /\ w_live (wget s' fi) = false /\ (w_bound (wget s fi) = false -> w_bound (wget s' fi) = false /\ w_state (wget s' fi) <> FS_OPEN)).
  { intros s2 P2 Ho2 Hv2 Hb2. rewrite Ho2, andb_false_r. cbv zeta. split; [econstructor; eauto|auto]. }
  assert (Goto : w_state (wget s1 fi) = FS_OPEN -> w_bound (wget s1 fi) && s_open s1 && (w_next (wget s1 fi) >? 1) = false ->
     prims A B s1 (wset s1 fi (goto_closed (wget s1 fi))) /\ w_live (wget (wset s1 fi (goto_closed (wget s1 fi))) fi) = false
     /\ (w_bound (wget s fi) = false -> w_bound (wget (wset s1 fi (goto_closed (wget s1 fi))) fi) = false /\ w_state (wget (wset s1 fi (goto_closed (wget s1 fi))) fi) <> FS_OPEN)).
  { intros Est Eb. rewrite wget_wset_same by exact Hl1. unfold goto_closed. rewrite Est.
    split; [|split; [exact Hlive1|intros _; split; [reflexivity|discriminate]]].
    apply prims_one, pr_flow. constructor; cbn; auto.
    - rewrite Hlive1. discriminate.
    - right. right. split; [reflexivity|]. intros nm id Hi. destruct (g_fly (gget s1 id)) eqn:Ef; [|reflexivity]. exfalso.
      destruct (fi_ids _ _ F1 nm id Hi) as (_ & _ & _ & I4). destruct (I4 Ef) as (_ & I5). rewrite I5, Ho1 in Eb. cbn [andb] in Eb.
      destruct (fi_next _ _ F1) as (n1 & n2). rewrite n2 in Hi by lia. destruct Hi. }
  destruct (w_state (wget s1 fi)) eqn:Est; cbn [rbind].
  2-4: apply Fin; [constructor|exact Ho1|exact Hlive1|intros Hb; rewrite Ebound, Est; split; [exact Hb|discriminate]].
  destruct (w_bound (wget s1 fi) && s_open s1 && (w_next (wget s1 fi) >? 1)) eqn:Eb.
  2: { destruct (Goto eq_refl eq_refl) as (g1 & g2 & g3). apply Fin; auto. }
  apply andb_prop in Eb. destruct Eb as (Eb & Enx). apply andb_prop in Eb. destruct Eb as (Eb & _).
  (* the last number *)
  assert (Last : forall s3 id, prims A B s1 s3 -> Full s3 -> last_id (w_queue (wget s3 fi)) = Some id -> w_live (wget s3 fi) = false -> w_state (wget s3 fi) = FS_OPEN ->
      g_seq (gget s3 id) = wrap64 (w_next (wget s3 fi) - 1) -> g_ever (gget s3 id) = false ->
      forall s2, s2 = wset s3 fi (with_state (with_final (wget s3 fi) (g_seq (gget s3 id))) FS_CLOSING) ->
      let s' := if w_bound (wget s2 fi) && negb (s_open s2) then wset s2 fi (goto_closed (wget s2 fi)) else s2 in
      prims A B s s' /\ w_live (wget s' fi) = false /\ (w_bound (wget s fi) = false -> w_bound (wget s' fi) = false /\ w_state (wget s' fi) <> FS_OPEN)).
  { intros s3 id P3 HF3 El Hv3 St3 Hseq Hev s2 E2.
    assert (Hl3 : (fi < length (s_flows s3))%nat).
    { destruct (last_cases (w_queue (wget s3 fi))) as [Eq|(q' & nm & i & Eq)]; [rewrite Eq in El; discriminate|]. apply (queue_len s3 fi nm i). rewrite Eq. apply in_or_app. right. left. reflexivity. }
    assert (P2 : prim A B s3 s2).
    { rewrite E2. apply pr_flow. constructor; cbn; auto.
      - rewrite Hv3. discriminate.
      - right. repeat (split; [assumption || reflexivity|]). destruct (last_cases (w_queue (wget s3 fi))) as [Eq|(q' & nm & i & Eq)]; [rewrite Eq in El; discriminate|].
        rewrite Eq, last_id_app in El. injection El as ->. exists nm, id. split; [rewrite Eq; apply in_or_app; right; left; reflexivity|auto].
      - right. left. repeat (split; [assumption || reflexivity|]). intros Eq. rewrite Eq in El. discriminate.
      - discriminate. }
    apply Fin.
    - eapply prims_trans; [exact P3|apply prims_one; exact P2].
    - rewrite (prim_open _ _ _ _ P2), (prims_open _ _ _ _ P3). exact Ho1.
    - rewrite E2, wget_wset_same by exact Hl3. exact Hv3.
    - intros Hb. rewrite Ebound in Eb. congruence. }
  set (need := match last_id _ with None => true | Some id => _ end). destruct need eqn:En.
  - pose proof (basic_write_prims A B s1 fi [] (Some (-1)) (Some (-1)) names HF1 Hl1 Est ltac:(constructor)) as Hw.
    assert (HB' : forall now, B (RNew now (Some (-1)) (Some (-1)))) by (intros now; apply HB; left; exists now; reflexivity). specialize (Hw HB').
    assert (HBu : B (RUp (length (rs_all (s_rcpts s1))))) by (rewrite Er1; apply HB; right; reflexivity). specialize (Hw HBu).
    destruct (basic_write s1 fi [] (Some (-1)) (Some (-1)) names) as [s3| |]; cbn [rbind]; [|exact I|exact Hw].
    destruct Hw as (P3 & ps & new & sm & Hcut & Esm & Had). pose proof (prims_full _ _ _ _ P3 HF1) as HF3. pose proof (fi_next _ _ (fu_fi _ HF3 fi)) as (Hnx3 & _).
    assert (Em : wget sm fi = wget s1 fi) by (rewrite Esm; reflexivity).
    pose proof (ad_next _ _ _ _ _ _ Had) as Anx. pose proof (ad_shown _ _ _ _ _ _ Had) as Ash. pose proof (ad_queue _ _ _ _ _ _ Had) as Aq. rewrite Em in Anx, Ash, Aq.
    destruct Hcut as (Hne & _). destruct (fi_next _ _ F1) as (n1 & _).
    destruct (numbered_last (marks ps) (w_next (wget s1 fi))) as (l' & x & En2); [apply marks_nonempty; exact Hne|lia|lia|].
    destruct (last_cases new) as [->|(q' & nm & i & ->)]; [rewrite En2 in Ash; destruct l'; discriminate|].
    rewrite Aq, app_assoc, last_id_app. rewrite map_app in Ash. cbn [map] in Ash. rewrite En2 in Ash. apply app_inj_tail in Ash. destruct Ash as (_ & Ash). unfold shown in Ash. cbn [snd] in Ash. injection Ash as Hseq _.
    destruct (ad_flow _ _ _ _ _ _ Had) as (q1 & m1 & x1 & t1 & Ef).
    eapply (Last s3 i); try reflexivity; auto.
    + rewrite Aq, app_assoc, last_id_app. reflexivity.
    + rewrite Ef, Em. exact Hlive1.
    + rewrite Ef, Em. exact Est.
    + rewrite Hseq, Anx. unfold wrap64, U64MAX in *. lia.
    + pose proof (ad_new _ _ _ _ _ _ Had) as An. apply Forall_app in An. destruct An as (_ & An). inversion An as [|? ? (_ & h & _) _]; subst. exact h.
  - cbn [rbind]. unfold need in En. destruct (last_id (w_queue (wget s1 fi))) as [id|] eqn:El; [|discriminate].
    apply orb_false_iff in En. destruct En as (Hev & En). apply negb_false_iff in En. apply Z.eqb_eq in En.
    eapply (Last s1 id); try reflexivity; auto. constructor.
Qed.

Lemma abandon_prims : forall A (B : rop -> Prop) f (q : list (Z * nat)) s, (forall e, In e q -> B (RAbandon (f e))) ->
  prims A B s (set_rcpts s (fold_left (fun rs e => r_abandon rs (f e)) q (s_rcpts s))).
Proof.
  intros A B f q. induction q as [|e q IH]; intros s HB; cbn [fold_left]; [destruct s; constructor|].
  econstructor; [apply (pr_rcpt A B s (RAbandon (f e))); left; split; [apply HB; left; reflexivity|exact I]|]. specialize (IH (set_rcpts s (rstep (s_rcpts s) (RAbandon (f e)))) (fun e H => HB e (or_intror H))). exact IH.
Qed.

Definition Bexc (s : sess) (fi : nat) (names : list Z) (o : rop) : Prop :=
  Bclose (length (rs_all (s_rcpts s))) o \/
  exists s1 e, do_close (wset s fi (with_exc (wget s fi))) fi names = Ok s1 /\ In e (w_queue (wget s1 fi)) /\ o = RAbandon (g_rcpt (gget s1 (snd e))).
Lemma exception_prims : forall A (B : rop -> Prop) s fi names, Full s -> s_open s = true -> (fi < length (s_flows s))%nat -> (forall o, Bexc s fi names o -> B o) ->
  match on_exception s fi names with
  | Ok s' => prims A B s s' /\ w_live (wget s' fi) = false /\ (w_bound (wget s fi) = false -> w_bound (wget s' fi) = false /\ w_state (wget s' fi) <> FS_OPEN)
  | Rej => True
  | UB => False
  end.
Proof.
  intros A B s fi names HF Ho Hl HB. unfold on_exception. set (s0 := wset s fi (with_exc (wget s fi))).
  assert (P0 : prim A B s s0) by (apply pr_flow; constructor; cbn; auto).
  pose proof (prim_full _ _ _ _ P0 HF) as HF0.
  assert (E0 : wget s0 fi = with_exc (wget s fi)) by (apply wget_wset_same; exact Hl).
  pose proof (close_prims A B s0 fi names HF0 Ho) as H. unfold s0 in H at 1. rewrite flows_wset in H. specialize (H Hl).
  assert (HB' : forall o, Bclose (length (rs_all (s_rcpts s0))) o -> B o) by (intros o Hb; apply HB; left; exact Hb). specialize (H HB'). rewrite E0 in H. cbn [w_bound with_exc] in H.
  destruct (do_close s0 fi names) as [s1| |] eqn:E1; cbn [rbind]; [|exact I|exact H]. destruct H as (P1 & H2 & H3).
  split; [|auto]. econstructor; [exact P0|]. eapply prims_trans; [exact P1|]. apply abandon_prims. intros e He. apply HB. right. exists s1, e. auto.
Qed.
