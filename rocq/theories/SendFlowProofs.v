(** Sending flow: fragmentation, elementary steps and the invariant they keep. *)
From Verif Require Import Base BaseFacts VLU VLUSpec VLUProofs Packet PacketSpec PacketProofs UserData UserDataSpec UserDataProofs Ack RecvFlowSpec WriteReceipt WriteReceiptSpec WriteReceiptProofs SendFlow SendFlowSpec.
Ltac Zify.zify_post_hook ::= Z.div_mod_to_equations.

(** ** Fragmentation *)
Lemma frag_loop_spec : forall fuel maxlen fra l, 0 < maxlen -> (length l < fuel)%nat -> In fra [0; 16; 48] ->
  exists pieces, cut maxlen l pieces /\ frag_loop fuel maxlen fra l = Ok (if fra =? 0 then marks pieces else later_marks pieces)
   /\ (zlen l <= maxlen -> pieces = [l]).
Proof.
  induction fuel as [|fuel IH]; intros maxlen fra l Hm Hf Hfra; [lia|]. cbn [frag_loop].
  destruct (Z.gtb_spec (zlen l) maxlen) as [Hbig|Hbig].
  - assert (Hz : (zlen (skipn (Z.to_nat maxlen) l) =? 0) = false) by (apply Z.eqb_neq; unfold zlen in *; rewrite skipn_length; lia). rewrite Hz.
    destruct (IH maxlen (if fra =? 0 then 16 else 48) (skipn (Z.to_nat maxlen) l) Hm) as (ps & (Hn & Hc & Hp & Hq & _) & E & _).
    { rewrite skipn_length. unfold zlen in *. lia. }
    { destruct (fra =? 0); cbn; auto. }
    exists (firstn (Z.to_nat maxlen) l :: ps). assert (Hl : (0 < length l)%nat) by (unfold zlen in *; lia). split; [split; [discriminate|split; [|split; [|split]]]|].
    + cbn [concat]. rewrite Hc. apply firstn_skipn.
    + constructor; [unfold zlen; rewrite firstn_length; lia|exact Hp].
    + intros _. constructor; [|apply Hq]; intros E0; apply (f_equal (@length Z)) in E0; [rewrite firstn_length in E0|rewrite skipn_length in E0]; cbn [length] in E0; unfold zlen in *; lia.
    + intros ->. cbn in Hl. lia.
    + rewrite E. cbn [rbind]. split; [|intros; lia]. destruct ps as [|p ps]; [congruence|].
      destruct (Z.eqb_spec fra 0) as [->|Hne]; reflexivity.
  - assert (Hz : zlen (skipn (Z.to_nat (zlen l)) l) =? 0 = true) by (apply Z.eqb_eq; unfold zlen; rewrite skipn_length; lia). rewrite Hz.
    rewrite firstn_all2 by (unfold zlen; lia). exists [l]. split; [split; [discriminate|split; [apply app_nil_r|split; [constructor; [lia|constructor]|split; [intros Hne; constructor; [exact Hne|constructor]|intros ->; reflexivity]]]]|].
    split; [|reflexivity]. destruct (fra =? 0); reflexivity.
Qed.
Lemma fragment_spec : forall optlen l, 0 <= optlen < 1161 ->
  exists pieces, cut (1161 - optlen) l pieces /\ fragment optlen l = Ok (marks pieces).
Proof.
  intros optlen l Ho. unfold fragment. replace (wrap64 (MAX_DATA_FRAG_LENGTH - optlen)) with (1161 - optlen) by (unfold wrap64, MAX_DATA_FRAG_LENGTH; lia).
  destruct (frag_loop_spec (S (length l)) (1161 - optlen) 0 l) as (ps & H1 & H2 & _); [lia|lia|cbn; auto|]. exists ps. auto.
Qed.
Lemma later_marks_snd : forall ps, map snd (later_marks ps) = ps.
Proof. induction ps as [|p [|q ps] IH]; [reflexivity|reflexivity|]. cbn [later_marks map snd]. f_equal. exact IH. Qed.
Lemma marks_snd : forall ps, map snd (marks ps) = ps.
Proof. destruct ps as [|p [|q ps]]; [reflexivity|reflexivity|]. cbn [marks map snd]. f_equal. apply later_marks_snd. Qed.
Lemma marks_length : forall ps, length (marks ps) = length ps.
Proof. intros. rewrite <- (map_length snd). rewrite marks_snd. reflexivity. Qed.
Lemma later_marks_fst : forall ps, Forall (fun x => In (fst x) [0; 16; 32; 48]) (later_marks ps).
Proof. induction ps as [|p [|q ps] IH]; [constructor|constructor; [cbn; auto 6|constructor]|]. constructor; [cbn; auto 6|exact IH]. Qed.
Lemma marks_fst : forall ps, Forall (fun x => In (fst x) [0; 16; 32; 48]) (marks ps).
Proof. destruct ps as [|p [|q ps]]; [constructor|constructor; [cbn; auto 6|constructor]|]. constructor; [cbn; auto 6|apply later_marks_fst]. Qed.

(** ** Sums over queues *)
Fixpoint sumof (f : nat -> Z) (q : list (Z * nat)) : Z := match q with [] => 0 | e :: r => f (snd e) + sumof f r end.
Lemma sumof_app : forall f a b, sumof f (a ++ b) = sumof f a + sumof f b.
Proof. induction a; intros; cbn [sumof app]; [lia|]. rewrite IHa. lia. Qed.
Lemma sumof_ext : forall f f' q, (forall nm id, In (nm, id) q -> f id = f' id) -> sumof f q = sumof f' q.
Proof.
  induction q as [|[nm id] q IH]; intros H; cbn [sumof snd]; [reflexivity|]. rewrite (H nm id) by (cbn; auto). rewrite IH; [reflexivity|].
  intros; eapply H; right; eauto.
Qed.
Lemma in_split_unique : forall (q : list (Z * nat)) nm id, NoDup (map fst q) -> In (nm, id) q ->
  exists a b, q = a ++ (nm, id) :: b /\ ~ In nm (map fst a) /\ ~ In nm (map fst b).
Proof.
  intros q nm id Hn Hi. apply in_split in Hi. destruct Hi as (a & b & ->). exists a, b. split; [reflexivity|].
  rewrite map_app in Hn. cbn [map fst] in Hn. apply NoDup_remove_2 in Hn. rewrite in_app_iff in Hn. tauto.
Qed.
Lemma drop_notin : forall nm q, ~ In nm (map fst q) -> drop nm q = q.
Proof.
  induction q as [|[n i] q IH]; intros H; cbn [drop filter fst]; [reflexivity|]. cbn [map fst In] in H.
  destruct (Z.eqb_spec n nm); [exfalso; tauto|]. cbn [negb]. f_equal. apply IH. tauto.
Qed.
Lemma drop_app : forall nm a b, drop nm (a ++ b) = drop nm a ++ drop nm b.
Proof. intros. apply filter_app. Qed.
Lemma drop_here : forall nm id a b, ~ In nm (map fst a) -> ~ In nm (map fst b) -> drop nm (a ++ (nm, id) :: b) = a ++ b.
Proof.
  intros nm id a b H1 H2. rewrite drop_app. change ((nm, id) :: b) with ([(nm, id)] ++ b). rewrite drop_app, !drop_notin with (q := a), drop_notin with (q := b) by assumption.
  f_equal. unfold drop. cbn [filter fst]. rewrite Z.eqb_refl. reflexivity.
Qed.
Lemma drop_in : forall nm q e, In e (drop nm q) <-> In e q /\ fst e <> nm.
Proof. intros. unfold drop. rewrite filter_In. destruct (Z.eqb_spec (fst e) nm); cbn; intuition congruence. Qed.
Lemma NoDup_split : forall A (a b : list A) x, NoDup (a ++ x :: b) -> NoDup (a ++ b) /\ ~ In x a /\ ~ In x b.
Proof. intros. split; [eapply NoDup_remove_1; eauto|]. apply NoDup_remove_2 in H. rewrite in_app_iff in H. tauto. Qed.
Lemma drop_nodup : forall B (f : Z * nat -> B) nm q, NoDup (map f q) -> NoDup (map f (drop nm q)).
Proof.
  induction q as [|e q IH]; intros H; cbn [drop filter map]; [constructor|]. cbn [map] in H. apply NoDup_cons_iff in H. destruct H as (H1 & H2).
  destruct (negb (fst e =? nm)); [cbn [map]; constructor|]; [|apply IH; assumption|apply IH; assumption].
  rewrite in_map_iff in *. intros (x & Hx & Hi). apply drop_in in Hi. apply H1. exists x. tauto.
Qed.
Lemma sumof_drop : forall f nm id q, NoDup (map fst q) -> In (nm, id) q -> sumof f (drop nm q) = sumof f q - f id.
Proof.
  intros f nm id q Hn Hi. destruct (in_split_unique q nm id Hn Hi) as (a & b & -> & Ha & Hb). rewrite drop_here by assumption.
  rewrite !sumof_app. cbn [sumof snd]. lia.
Qed.
Lemma sumof_change : forall f f' nm id q, NoDup (map snd q) -> In (nm, id) q -> (forall i, i <> id -> f' i = f i) -> sumof f' q = sumof f q - f id + f' id.
Proof.
  intros f f' nm id q Hn Hi Hf. apply in_split in Hi. destruct Hi as (a & b & ->). rewrite map_app in Hn. cbn [map snd] in Hn.
  apply NoDup_remove_2 in Hn. rewrite in_app_iff in Hn. rewrite !sumof_app. cbn [sumof snd].
  rewrite (sumof_ext f' f a), (sumof_ext f' f b); [lia| |]; intros n i Hin; apply Hf; intros ->; apply Hn; [right|left]; apply in_map_iff; exists (n, id); auto.
Qed.
Lemma has_name_in : forall nm q, has_name nm q = true <-> In nm (map fst q).
Proof. intros. unfold has_name. rewrite existsb_exists, in_map_iff. split; intros (e & H); exists e; [|]; destruct (Z.eqb_spec (fst e) nm); intuition congruence. Qed.
Lemma usable_spec : forall nm q, usable nm q = true <-> 0 < nm /\ ~ In nm (map fst q).
Proof.
  intros. unfold usable. fold (has_name nm q). rewrite andb_true_iff, negb_true_iff. rewrite <- has_name_in. destruct (has_name nm q); intuition (try lia; try congruence).
Qed.

(** ** Access *)
Lemma wget_wset : forall s fi w fj, wget (wset s fi w) fj = if (fi =? fj)%nat && (fi <? length (s_flows s))%nat then w else wget s fj.
Proof.
  intros. unfold wget, wset, set_flows. cbn [s_flows]. destruct (Nat.eqb_spec fi fj) as [->|Hn]; cbn [andb].
  - destruct (Nat.ltb_spec fj (length (s_flows s))); [apply nth_lset_same; assumption|rewrite lset_nth_out by lia; reflexivity].
  - apply nth_lset_other. assumption.
Qed.
Lemma wget_wset_same : forall s fi w, (fi < length (s_flows s))%nat -> wget (wset s fi w) fi = w.
Proof. intros. rewrite wget_wset, Nat.eqb_refl. destruct (Nat.ltb_spec fi (length (s_flows s))); [reflexivity|lia]. Qed.
Lemma wget_wset_other : forall s fi w fj, fi <> fj -> wget (wset s fi w) fj = wget s fj.
Proof. intros. rewrite wget_wset. destruct (Nat.eqb_spec fi fj); [congruence|reflexivity]. Qed.
Lemma gget_gset : forall s id g i, gget (gset s id g) i = if (id =? i)%nat && (id <? length (s_heap s))%nat then g else gget s i.
Proof.
  intros. unfold gget, gset, set_heap. cbn [s_heap]. destruct (Nat.eqb_spec id i) as [->|Hn]; cbn [andb].
  - destruct (Nat.ltb_spec i (length (s_heap s))); [apply nth_lset_same; assumption|rewrite lset_nth_out by lia; reflexivity].
  - apply nth_lset_other. assumption.
Qed.
Lemma gget_gset_same : forall s id g, (id < length (s_heap s))%nat -> gget (gset s id g) id = g.
Proof. intros. rewrite gget_gset, Nat.eqb_refl. destruct (Nat.ltb_spec id (length (s_heap s))); [reflexivity|lia]. Qed.
Lemma gget_gset_other : forall s id g i, id <> i -> gget (gset s id g) i = gget s i.
Proof. intros. rewrite gget_gset. destruct (Nat.eqb_spec id i); [congruence|reflexivity]. Qed.
Lemma wget_out : forall s fi, (length (s_flows s) <= fi)%nat -> wget s fi = w_none.
Proof. intros. apply nth_overflow. assumption. Qed.
Lemma flows_wset : forall s fi w, length (s_flows (wset s fi w)) = length (s_flows s).
Proof. intros. apply lset_nth_length. Qed.
Lemma heap_gset : forall s id g, length (s_heap (gset s id g)) = length (s_heap s).
Proof. intros. apply lset_nth_length. Qed.

(** ** Elementary steps.  [A]: what acknowledgements may remove; [B]: operations on receipts done from outside. *)
Definition rcpt_ok (B : rop -> Prop) (s : sess) (o : rop) : Prop :=
  (B o /\ match o with RUp _ | RDown _ => False | _ => True end) \/ match o with RExamine now _ => now = s_now s | RAbandon i => c_rtx (rget (s_rcpts s) i) = false | _ => False end.
Definition no_fly (s : sess) (w : sflow) : Prop := forall nm id, In (nm, id) (w_queue w) -> g_fly (gget s id) = false.
Record flow_upd (s : sess) (w w' : sflow) : Prop := {
  fu_queue : w_queue w' = w_queue w; fu_qsum : w_qsum w' = w_qsum w; fu_out : w_out w' = w_out w; fu_next : w_next w' = w_next w;
  fu_tab : w_tab w' = w_tab w; fu_last : w_last w' = w_last w; fu_opts : w_opts w' = w_opts w \/ w_opts w' = [];
  fu_live : w_live w' = true -> w_live w = true /\ w_state w' = w_state w;
  fu_final : w_final w' = w_final w \/ (w_live w' = false /\ w_state w = FS_OPEN /\ w_state w' = FS_CLOSING /\ w_final w' = wrap64 (w_next w - 1)
    /\ exists nm id, In (nm, id) (w_queue w) /\ g_ever (gget s id) = false /\ g_seq (gget s id) = wrap64 (w_next w - 1));
  fu_state : w_state w' = w_state w \/ (w_live w' = false /\ w_state w' = FS_CLOSING /\ w_state w = FS_OPEN /\ w_final w' = wrap64 (w_next w - 1) /\ w_queue w <> [])
    \/ (w_state w = FS_CLOSING /\ w_state w' = FS_LINGER /\ w_queue w = []) \/ (w_live w' = false /\ w_state w' = FS_CLOSED);
  fu_bound : (w_bound w' = w_bound w /\ w_id w' = w_id w) \/ (w_bound w' = true /\ w_bound w = false /\ 0 < w_id w' <= LONG_MAX /\ w_state w = FS_OPEN) \/ (w_bound w' = false /\ no_fly s w);
  fu_cb : w_state w' = FS_CLOSED -> w_bound w' = false \/ (w_state w = FS_CLOSED /\ w_bound w' = w_bound w);
  fu_msgs : w_msgs w' = w_msgs w }.

Definition fsn_from (s : sess) (fi : nat) (fsn : Z) : Prop :=
  exists nm id q, w_queue (wget s fi) = (nm, id) :: q /\ (fsn = wrap64 (g_seq (gget s id) - 1) \/ (fsn = g_seq (gget s id) /\ c_aband (rget (s_rcpts s) (g_rcpt (gget s id))) = true)).

Definition forget (s : sess) (fi : nat) (g : sfrag) : sess :=
  let s1 := set_maxtsn s (Z.max (s_maxtsn s) (g_tsn g)) in
  let s2 := set_out s1 (drop (g_oname g) (s_outl s)) (wrap64 (s_osum s - g_size g)) in
  wset s2 fi (with_outb (wget s fi) (wrap64 (w_out (wget s fi) - g_size g))).
Definition lose_one (s : sess) (name : Z) (id : nat) (nak : Z) : sess :=
  let s1 := lose s id nak in set_out s1 (drop name (s_outl s1)) (wrap64 (s_osum s1 - g_size (gget s id))).
Definition set_nak (s : sess) (id : nat) (nak : Z) : sess :=
  let g := gget s id in
  gset s id (mkFrag (g_owner g) (g_seq g) (g_fra g) (g_sentab g) nak (g_fly g) (g_ever g) (g_size g) (g_tsn g) (g_oname g) (g_data g) (g_rcpt g)).

Inductive prim (A : nat -> Z -> Prop) (B : rop -> Prop) : sess -> sess -> Prop :=
| pr_rcpt : forall s o, rcpt_ok B s o -> prim A B s (set_rcpts s (rstep (s_rcpts s) o))
| pr_add : forall s fi rc nm fr s', (fi < length (s_flows s))%nat -> w_state (wget s fi) = FS_OPEN -> S rc = length (rs_all (s_rcpts s)) ->
    In (fst fr) [0; 16; 32; 48] -> bytes_ok (snd fr) -> B (RUp rc) -> add_frag s fi rc nm fr = Ok s' ->
    zlen (snd fr) + zlen (w_opts (wget s fi)) <= 1161 -> prim A B s s'
| pr_msg : forall s fi msg, w_live (wget s fi) = true -> B (RUp (length (rs_all (s_rcpts s)))) -> prim A B s (wset s fi (with_msgs (wget s fi) (w_msgs (wget s fi) ++ [msg])))
| pr_sent : forall s fi pre nm id suf o fsn fr abn size, s_open s = true -> w_bound (wget s fi) = true ->
    w_queue (wget s fi) = pre ++ (nm, id) :: suf -> Forall (fun e => g_fly (gget s (snd e)) = true) pre -> g_fly (gget s id) = false ->
    usable o (s_outl s) = true -> fsn_from s fi fsn -> abn = c_aband (rget (s_rcpts s) (g_rcpt (gget s id))) -> 0 < size <= 1200 ->
    (let c := rget (s_rcpts s) (g_rcpt (gget s id)) in passed (s_now s) (c_finish c) = true -> c_use c <> 0 -> c_aband c = true) ->
    fr = mkFrame (g_fra (gget s id) + flag abn 2 + flag (g_seq (gget s id) =? w_final (wget s fi)) 1) (g_seq (gget s id)) (g_data (gget s id)) ->
    prim A B s (mark_sent s fi nm id o fsn fr abn size)
| pr_trim : forall s fi nm id rest, w_queue (wget s fi) = (nm, id) :: rest -> rest <> [] -> g_fly (gget s id) = false ->
    c_aband (rget (s_rcpts s) (g_rcpt (gget s id))) = true -> prim A B s (unqueue s fi nm id)
| pr_ack : forall s fi nm id, In (nm, id) (w_queue (wget s fi)) -> A fi (g_seq (gget s id)) -> g_fly (gget s id) = false ->
    prim A B s (unqueue s fi nm id)
| pr_ackf : forall s fi nm id, In (nm, id) (w_queue (wget s fi)) -> A fi (g_seq (gget s id)) -> g_fly (gget s id) = true ->
    prim A B s (unqueue (forget s fi (gget s id)) fi nm id)
| pr_lose : forall s nm id nak, In (nm, id) (s_outl s) -> prim A B s (lose_one s nm id nak)
| pr_nak : forall s id nak, prim A B s (set_nak s id nak)
| pr_flow : forall s fi w', flow_upd s (wget s fi) w' -> prim A B s (wset s fi w')
| pr_clear : forall s fi, w_bound (wget s fi) = false -> w_state (wget s fi) <> FS_OPEN -> prim A B s (wset s fi (with_queue (wget s fi) [] 0))
| pr_open : forall s opts, zlen opts <= 528 -> bytes_ok opts -> (exists u, sup_ok u /\ opts = sup_bytes u) -> prim A B s (set_flows s (s_flows s ++ [f_new opts]))
| pr_tsn : forall s t, prim A B s (set_tsn s t)
| pr_now : forall s t, s_now s <= t -> prim A B s (set_now s t).

Inductive prims (A : nat -> Z -> Prop) (B : rop -> Prop) : sess -> sess -> Prop :=
| prs_nil : forall s, prims A B s s
| prs_cons : forall s1 s2 s3, prim A B s1 s2 -> prims A B s2 s3 -> prims A B s1 s3.
Lemma prims_trans : forall A B s1 s2 s3, prims A B s1 s2 -> prims A B s2 s3 -> prims A B s1 s3.
Proof. induction 1; intros; [assumption|]. econstructor; eauto. Qed.
Lemma prims_one : forall A B s1 s2, prim A B s1 s2 -> prims A B s1 s2.
Proof. intros. econstructor; [eassumption|constructor]. Qed.

(** ** The invariant *)
Definition flyval (s : sess) (i : nat) : Z := if g_fly (gget s i) then g_size (gget s i) else 0.
Definition qval (s : sess) (i : nat) : Z := size_queue (gget s i).
Definition oval (s : sess) (i : nat) : Z := g_size (gget s i).
Record FI (s : sess) (fi : nat) : Prop := {
  fi_ids : forall nm id, In (nm, id) (w_queue (wget s fi)) -> (id < length (s_heap s))%nat /\ g_owner (gget s id) = fi /\ 0 < nm /\ (g_fly (gget s id) = true -> In (g_oname (gget s id), id) (s_outl s) /\ w_bound (wget s fi) = true);
  fi_nd : NoDup (map fst (w_queue (wget s fi)));
  fi_ndi : NoDup (map snd (w_queue (wget s fi)));
  fi_out : w_out (wget s fi) = wrap64 (sumof (flyval s) (w_queue (wget s fi)));
  fi_sum : w_qsum (wget s fi) = wrap64 (sumof (qval s) (w_queue (wget s fi)));
  fi_last : forall pre nm id suf, w_queue (wget s fi) = pre ++ (nm, id) :: suf -> nm = w_last (wget s fi) -> g_fly (gget s id) = true ->
     Forall (fun e => g_fly (gget s (snd e)) = true) pre;
  fi_live : w_live (wget s fi) = true -> w_state (wget s fi) = FS_OPEN;
  fi_ling : w_state (wget s fi) = FS_LINGER -> w_queue (wget s fi) = [];
  fi_opts : zlen (w_opts (wget s fi)) <= 528 /\ bytes_ok (w_opts (wget s fi));
  fi_id : w_bound (wget s fi) = true -> 0 < w_id (wget s fi) <= LONG_MAX;
  fi_next : 1 <= w_next (wget s fi) <= U64MAX /\ (w_next (wget s fi) = 1 -> w_queue (wget s fi) = []) }.
Definition frag_ok (g : sfrag) : Prop := 0 <= g_size g <= 1200 /\ In (g_fra g) [0; 16; 32; 48] /\ bytes_ok (g_data g) /\ is_u64 (g_seq g).
Record Full (s : sess) : Prop := {
  fu_fi : forall fi, FI s fi;
  fu_o : forall o id, In (o, id) (s_outl s) -> 0 < o /\ (id < length (s_heap s))%nat /\ g_fly (gget s id) = true /\ g_oname (gget s id) = o /\ exists nm, In (nm, id) (w_queue (wget s (g_owner (gget s id))));
  fu_ond : NoDup (map fst (s_outl s));
  fu_osum : s_osum s = wrap64 (sumof (oval s) (s_outl s));
  fu_frag : forall i, (i < length (s_heap s))%nat -> frag_ok (gget s i) }.

Lemma full_init : Full ss_init.
Proof.
  assert (Hw : forall fi, wget ss_init fi = w_none) by (intros [|fi]; reflexivity).
  constructor; [| | | |].
  - intros fi. constructor; rewrite ?Hw; cbn; try tauto; try constructor; try congruence.
    + intros [|] ? ? ?; discriminate.
    + unfold zlen; cbn; lia.
    + constructor.
    + unfold U64MAX; lia.
  - intros o id [].
  - constructor.
  - reflexivity.
  - intros i Hi. cbn in Hi. lia.
Qed.

(** ** The steps keep the invariant *)
Lemma full_ext : forall s s', s_heap s' = s_heap s -> s_outl s' = s_outl s -> s_osum s' = s_osum s -> s_flows s' = s_flows s -> Full s -> Full s'.
Proof.
  intros [] [] E1 E2 E3 E4 H. cbn in E1, E2, E3, E4. subst.
  constructor; [|exact (fu_o _ H)|exact (fu_ond _ H)|exact (fu_osum _ H)|exact (fu_frag _ H)].
  intros fi. pose proof (fu_fi _ H fi) as F.
  constructor; [exact (fi_ids _ _ F)|exact (fi_nd _ _ F)|exact (fi_ndi _ _ F)|exact (fi_out _ _ F)|exact (fi_sum _ _ F)|exact (fi_last _ _ F)|exact (fi_live _ _ F)|exact (fi_ling _ _ F)|exact (fi_opts _ _ F)|exact (fi_id _ _ F)|exact (fi_next _ _ F)].
Qed.

Lemma wrap_sub : forall a b, wrap64 (wrap64 a - b) = wrap64 (a - b).
Proof. intros. unfold wrap64. rewrite Zminus_mod_idemp_l. reflexivity. Qed.
Lemma wrap_add : forall a b, wrap64 (wrap64 a + b) = wrap64 (a + b).
Proof. intros. unfold wrap64. rewrite Zplus_mod_idemp_l. reflexivity. Qed.
Lemma wrap_u64 : forall a, is_u64 (wrap64 a).
Proof. intros. unfold is_u64, wrap64, U64MAX. lia. Qed.

Lemma queue_len : forall s fi nm id, In (nm, id) (w_queue (wget s fi)) -> (fi < length (s_flows s))%nat.
Proof. intros s fi nm id H. destruct (Nat.lt_ge_cases fi (length (s_flows s))); [assumption|]. rewrite wget_out in H by assumption. destruct H. Qed.

(** Replacing a flow by one with the same queue and sums *)
Lemma full_flow : forall s fi w', Full s -> flow_upd s (wget s fi) w' -> Full (wset s fi w').
Proof.
  intros s fi w' H U. destruct (Nat.lt_ge_cases fi (length (s_flows s))) as [Hl|Hl].
  2: { unfold wset. rewrite lset_nth_out by assumption. apply (full_ext s); auto. }
  pose proof (fu_fi _ H) as F.
  assert (Hq : forall fj, w_queue (wget (wset s fi w') fj) = w_queue (wget s fj)).
  { intros fj. destruct (Nat.eq_dec fi fj) as [<-|N]; [rewrite wget_wset_same by assumption; apply (fu_queue _ _ _ U)|rewrite wget_wset_other by assumption; reflexivity]. }
  constructor; [intros fj| | | |].
  - destruct (Nat.eq_dec fi fj) as [<-|N].
    2: { destruct (F fj). constructor; rewrite ?wget_wset_other by assumption; assumption. }
    destruct (F fi) as [f1 f2 f3 f4 f5 f6 f7 f8 f9 f10 f11]. constructor; rewrite ?wget_wset_same by assumption; rewrite ?(fu_queue _ _ _ U), ?(fu_next _ _ _ U), ?(fu_out _ _ _ U), ?(fu_qsum _ _ _ U), ?(fu_last _ _ _ U); auto.
    + intros nm id Hi. destruct (f1 nm id Hi) as (g1 & g2 & g3 & g4). split; [exact g1|]. split; [exact g2|]. split; [exact g3|]. intros Hf. destruct (g4 Hf) as (g5 & g6). split; [exact g5|].
      destruct (fu_bound _ _ _ U) as [(b1 & _)|[(b1 & _)|(_ & b1)]]; [congruence|assumption|].
      change (gget (wset s fi w') id) with (gget s id) in Hf. rewrite (b1 nm id Hi) in Hf. discriminate.
    + intros Hv. destruct (fu_live _ _ _ U Hv) as (Hv' & ->). auto.
    + intros Hv. destruct (fu_state _ _ _ U) as [e|[(_ & e & _)|[(_ & _ & e)|(_ & e)]]]; try congruence. apply f8. congruence.
    + destruct (fu_opts _ _ _ U) as [e|e]; rewrite e; [assumption|]. split; [unfold zlen; cbn; lia|constructor].
    + intros Hb. destruct (fu_bound _ _ _ U) as [(b1 & b2)|[(_ & _ & b1)|(b1 & _)]]; [rewrite b2; apply f10; congruence|apply b1|congruence].
  - intros o id Hi. destruct (fu_o _ H o id Hi) as (g1 & g2 & g3 & g4 & nm & g5). do 4 (split; [assumption|]). exists nm. rewrite Hq. exact g5.
  - exact (fu_ond _ H).
  - exact (fu_osum _ H).
  - exact (fu_frag _ H).
Qed.

Definition outl_less (s : sess) (id : nat) := if g_fly (gget s id) then drop (g_oname (gget s id)) (s_outl s) else s_outl s.
(** Removing a fragment from its queue and from the outstanding ones *)
Lemma full_remove : forall s s' fi nm id, Full s -> In (nm, id) (w_queue (wget s fi)) ->
  s_heap s' = s_heap s -> s_outl s' = outl_less s id ->
  s_osum s' = (if g_fly (gget s id) then wrap64 (s_osum s - g_size (gget s id)) else s_osum s) ->
  (forall fj, fj <> fi -> wget s' fj = wget s fj) ->
  wget s' fi = with_queue (with_outb (wget s fi) (w_out (wget s' fi))) (drop nm (w_queue (wget s fi))) (wrap64 (w_qsum (wget s fi) - size_queue (gget s id))) ->
  w_out (wget s' fi) = wrap64 (w_out (wget s fi) - flyval s id) -> Full s'.
Proof.
  intros s s' fi nm id H Hi Eh Eo Es Ew Ef Eout.
  pose proof (fu_fi _ H) as F. destruct (fi_ids _ _ (F fi) nm id Hi) as (I1 & I2 & I3 & I4).
  assert (Eg : forall i, gget s' i = gget s i) by (intros; unfold gget; rewrite Eh; reflexivity).
  assert (Efv : forall i, flyval s' i = flyval s i) by (intros; unfold flyval; rewrite Eg; reflexivity).
  assert (Eqv : forall i, qval s' i = qval s i) by (intros; unfold qval; rewrite Eg; reflexivity).
  assert (Eov : forall i, oval s' i = oval s i) by (intros; unfold oval; rewrite Eg; reflexivity).
  assert (Esub : forall x, In x (s_outl s') -> In x (s_outl s)) by (intros x Hx; rewrite Eo in Hx; unfold outl_less in Hx; destruct (g_fly (gget s id)); [apply drop_in in Hx; tauto|assumption]).
  assert (Eq : w_queue (wget s' fi) = drop nm (w_queue (wget s fi))) by (rewrite Ef; reflexivity).
  (* the removed id is not outstanding any more *)
  assert (Eno : forall o, ~ In (o, id) (s_outl s')).
  { intros o Ho. pose proof (Esub _ Ho) as Ho'. destruct (fu_o _ H o id Ho') as (_ & _ & g3 & g4 & _). rewrite Eo in Ho. unfold outl_less in Ho. rewrite g3 in Ho.
    apply drop_in in Ho. cbn [fst] in Ho. intuition congruence. }
  assert (Ekeep : forall fj n i, In (n, i) (w_queue (wget s' fj)) -> In (n, i) (w_queue (wget s fj)) /\ i <> id).
  { intros fj n i Hn. destruct (Nat.eq_dec fj fi) as [->|N].
    - rewrite Eq in Hn. apply drop_in in Hn. cbn [fst] in Hn. destruct Hn as (Hn & Hne). split; [assumption|]. intros ->.
      destruct (in_split_unique _ _ _ (fi_nd _ _ (F fi)) Hi) as (a & b & Eab & Ha & Hb).
      pose proof (fi_ndi _ _ (F fi)) as Hd. rewrite Eab, map_app in Hd. cbn [map snd] in Hd. apply NoDup_remove_2 in Hd. rewrite in_app_iff in Hd.
      rewrite Eab in Hn. apply in_app_iff in Hn. cbn [In] in Hn. apply Hd. destruct Hn as [Hn|[Hn|Hn]]; [left|injection Hn; congruence|right]; apply in_map_iff; exists (n, id); auto.
    - rewrite Ew in Hn by assumption. split; [assumption|]. intros ->. destruct (fi_ids _ _ (F fj) n id Hn) as (_ & J2 & _). congruence. }
  constructor; [intros fj| | | |].
  - constructor.
    + intros n i Hn. destruct (Ekeep fj n i Hn) as (Hn' & Hne). destruct (fi_ids _ _ (F fj) n i Hn') as (g1 & g2 & g3 & g4). rewrite Eg, Eh. do 3 (split; [assumption|]).
      intros Hf. destruct (g4 Hf) as (g5 & g6). split.
      * rewrite Eo. unfold outl_less. destruct (g_fly (gget s id)) eqn:Efl; [|assumption]. apply drop_in. split; [assumption|]. cbn [fst]. intros Hc.
        destruct (I4 eq_refl) as (Ho & _). apply Hne.
        assert (Hu : forall (l : list (Z * nat)) x a b, NoDup (map fst l) -> In (x, a) l -> In (x, b) l -> a = b).
        { induction l as [|[y c] l IHl]; intros x a b Hd Ha Hb; [destruct Ha|]. cbn [map fst] in Hd. apply NoDup_cons_iff in Hd. destruct Hd as (Hd1 & Hd2).
          destruct Ha as [Ha|Ha], Hb as [Hb|Hb]; try congruence; [injection Ha as -> ->|injection Hb as -> ->|eauto]; exfalso; apply Hd1; apply in_map_iff; [exists (x, b)|exists (x, a)]; auto. }
        rewrite Hc in g5. exact (Hu _ _ _ _ (fu_ond _ H) g5 Ho).
      * destruct (Nat.eq_dec fj fi) as [->|N]; [rewrite Ef; exact g6|rewrite Ew by assumption; exact g6].
    + destruct (Nat.eq_dec fj fi) as [->|N]; [rewrite Eq; apply drop_nodup|rewrite Ew by assumption]; apply (fi_nd _ _ (F _)).
    + destruct (Nat.eq_dec fj fi) as [->|N]; [rewrite Eq; apply drop_nodup|rewrite Ew by assumption]; apply (fi_ndi _ _ (F _)).
    + destruct (Nat.eq_dec fj fi) as [->|N].
      * rewrite Eout, Eq, (fi_out _ _ (F fi)). rewrite (sumof_ext (flyval s') (flyval s)) by (intros; apply Efv). rewrite (sumof_drop _ _ id) by (auto; apply (fi_nd _ _ (F fi))). apply wrap_sub.
      * rewrite Ew by assumption. rewrite (sumof_ext (flyval s') (flyval s)) by (intros; apply Efv). apply (fi_out _ _ (F fj)).
    + destruct (Nat.eq_dec fj fi) as [->|N].
      * rewrite Eq. rewrite Ef. cbn [w_qsum with_queue]. rewrite (fi_sum _ _ (F fi)). rewrite (sumof_ext (qval s') (qval s)) by (intros; apply Eqv). rewrite (sumof_drop _ _ id) by (auto; apply (fi_nd _ _ (F fi))). apply wrap_sub.
      * rewrite Ew by assumption. rewrite (sumof_ext (qval s') (qval s)) by (intros; apply Eqv). apply (fi_sum _ _ (F fj)).
    + intros pre n i suf Hs Hl Hf. rewrite Eg in Hf. apply Forall_forall. intros e He. rewrite Eg.
      destruct (Nat.eq_dec fj fi) as [->|N].
      * rewrite Eq in Hs. destruct (in_split_unique _ _ _ (fi_nd _ _ (F fi)) Hi) as (a & b & Eab & Ha & Hb). rewrite Eab, drop_here in Hs by assumption.
        assert (Hl' : n = w_last (wget s fi)) by (rewrite Ef in Hl; exact Hl).
        assert (exists pre' suf', w_queue (wget s fi) = pre' ++ (n, i) :: suf' /\ incl pre pre') as (pre' & suf' & Hs' & Hin).
        { rewrite Eab. clear - Hs. revert pre Hs. induction a as [|x a IH]; intros pre Hs; cbn [app] in *.
          - exists ((nm, id) :: pre), suf. rewrite Hs. split; [reflexivity|apply incl_tl, incl_refl].
          - destruct pre as [|y pre]; cbn [app] in Hs; injection Hs as -> Hs.
            + exists [], (a ++ (nm, id) :: b). split; [reflexivity|apply incl_refl].
            + destruct (IH pre Hs) as (p' & s' & E & I). exists (y :: p'), s'. rewrite E. split; [reflexivity|]. intros z [->|Hz]; [left; reflexivity|right; auto]. }
        pose proof (fi_last _ _ (F fi) _ _ _ _ Hs' Hl' Hf) as Hall. rewrite Forall_forall in Hall. apply Hall. auto.
      * rewrite Ew in Hs, Hl by assumption. pose proof (fi_last _ _ (F fj) _ _ _ _ Hs Hl Hf) as Hall. rewrite Forall_forall in Hall. auto.
    + destruct (Nat.eq_dec fj fi) as [->|N]; [rewrite Ef|rewrite Ew by assumption]; apply (fi_live _ _ (F _)).
    + destruct (Nat.eq_dec fj fi) as [->|N]; [|rewrite Ew by assumption; apply (fi_ling _ _ (F _))]. rewrite Eq. rewrite Ef. cbn. intros Hv. rewrite (fi_ling _ _ (F fi) Hv). reflexivity.
    + destruct (Nat.eq_dec fj fi) as [->|N]; [rewrite Ef|rewrite Ew by assumption]; apply (fi_opts _ _ (F _)).
    + destruct (Nat.eq_dec fj fi) as [->|N]; [rewrite Ef|rewrite Ew by assumption]; apply (fi_id _ _ (F _)).
    + destruct (Nat.eq_dec fj fi) as [->|N]; [|rewrite Ew by assumption; apply (fi_next _ _ (F _))]. rewrite Eq. rewrite Ef. cbn. destruct (fi_next _ _ (F fi)) as (n1 & n2). split; [assumption|]. intros Hv. rewrite (n2 Hv). reflexivity.
  - intros o i Ho. destruct (fu_o _ H o i (Esub _ Ho)) as (g1 & g2 & g3 & g4 & n & g5). rewrite !Eg, Eh. do 4 (split; [assumption|]). exists n.
    destruct (Nat.eq_dec (g_owner (gget s i)) fi) as [E|N]; [|rewrite Ew by assumption; exact g5]. rewrite E in *. rewrite Eq. apply drop_in. split; [exact g5|]. cbn [fst]. intros ->.
    apply (Eno o). replace id with i; [exact Ho|].
    destruct (in_split_unique _ _ _ (fi_nd _ _ (F fi)) Hi) as (a & b & Eab & Ha & Hb). rewrite Eab in g5. apply in_app_iff in g5. cbn [In] in g5.
    destruct g5 as [g5|[g5|g5]]; [exfalso; apply Ha; apply in_map_iff; exists (nm, i); auto|congruence|exfalso; apply Hb; apply in_map_iff; exists (nm, i); auto].
  - rewrite Eo. unfold outl_less. destruct (g_fly (gget s id)); [apply drop_nodup|]; apply (fu_ond _ H).
  - rewrite Es, Eo. unfold outl_less. rewrite (sumof_ext (oval s') (oval s)) by (intros; apply Eov). destruct (g_fly (gget s id)) eqn:Efl; [|apply (fu_osum _ H)].
    destruct (I4 eq_refl) as (Ho & _). rewrite (sumof_drop _ _ id) by (auto; apply (fu_ond _ H)). rewrite (fu_osum _ H). apply wrap_sub.
  - intros i. rewrite Eg, Eh. apply (fu_frag _ H).
Qed.

Lemma full_unqueue : forall s fi nm id, Full s -> In (nm, id) (w_queue (wget s fi)) -> g_fly (gget s id) = false -> Full (unqueue s fi nm id).
Proof.
  intros s fi nm id H Hi Hf. pose proof (queue_len _ _ _ _ Hi) as Hl. pose proof (fu_fi _ H fi) as F.
  assert (E : wget (unqueue s fi nm id) fi = with_queue (wget s fi) (drop nm (w_queue (wget s fi))) (wrap64 (w_qsum (wget s fi) - size_queue (gget s id)))).
  { unfold unqueue. cbn zeta. change (wget (set_rcpts ?x ?y) fi) with (wget x fi). apply wget_wset_same. assumption. }
  assert (Ho : w_out (wget s fi) = wrap64 (w_out (wget s fi) - flyval s id)).
  { unfold flyval. rewrite Hf, Z.sub_0_r. rewrite (fi_out _ _ F). unfold wrap64. rewrite Z.mod_mod by lia. reflexivity. }
  apply (full_remove s _ fi nm id); auto.
  - unfold outl_less. rewrite Hf. reflexivity.
  - rewrite Hf. reflexivity.
  - intros fj N. unfold unqueue. cbn zeta. change (wget (set_rcpts ?x ?y) fj) with (wget x fj). apply wget_wset_other. congruence.
  - rewrite E. destruct (wget s fi). reflexivity.
  - rewrite E. exact Ho.
Qed.
Lemma full_ackf : forall s fi nm id, Full s -> In (nm, id) (w_queue (wget s fi)) -> g_fly (gget s id) = true -> Full (unqueue (forget s fi (gget s id)) fi nm id).
Proof.
  intros s fi nm id H Hi Hf. pose proof (queue_len _ _ _ _ Hi) as Hl. pose proof (fu_fi _ H fi) as F.
  assert (E1 : wget (forget s fi (gget s id)) fi = with_outb (wget s fi) (wrap64 (w_out (wget s fi) - g_size (gget s id)))).
  { unfold forget. cbn zeta. apply wget_wset_same. exact Hl. }
  assert (E : wget (unqueue (forget s fi (gget s id)) fi nm id) fi = with_queue (with_outb (wget s fi) (wrap64 (w_out (wget s fi) - g_size (gget s id)))) (drop nm (w_queue (wget s fi))) (wrap64 (w_qsum (wget s fi) - size_queue (gget s id)))).
  { unfold unqueue. cbn zeta. change (wget (set_rcpts ?x ?y) fi) with (wget x fi). rewrite wget_wset_same by (unfold forget; cbn zeta; rewrite flows_wset; exact Hl). rewrite E1. reflexivity. }
  apply (full_remove s _ fi nm id); auto.
  - unfold outl_less. rewrite Hf. reflexivity.
  - rewrite Hf. reflexivity.
  - intros fj N. unfold unqueue. cbn zeta. change (wget (set_rcpts ?x ?y) fj) with (wget x fj). rewrite wget_wset_other by congruence. unfold forget. cbn zeta. rewrite wget_wset_other by congruence. reflexivity.
  - rewrite E. destruct (wget s fi). reflexivity.
  - rewrite E. unfold flyval. rewrite Hf. reflexivity.
Qed.
