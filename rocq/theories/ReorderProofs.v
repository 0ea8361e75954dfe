From Verif Require Import Base BaseFacts Reorder ReorderSpec.
From Coq Require Import Permutation Sorted.
Ltac Zify.zify_post_hook ::= Z.div_mod_to_equations.
Open Scope res_scope.

Ltac ands := repeat match goal with |- _ /\ _ => split end.
Definition never : rmsg -> bool := fun _ => false.
Definition wfm (m : rmsg) : Prop := 0 <= q_seq m /\ 0 <= q_count m /\ q_seq m + q_count m <= U64MAX - 1.
Lemma wfm_last : forall m, wfm m -> last_sn m = covers_to m /\ 0 <= q_seq m <= covers_to m /\ covers_to m < U64MAX.
Proof.
  intros m (A & B & C). unfold last_sn, covers_to, wrap64, U64MAX in *. destruct (Z.eqb_spec (q_count m) 0); rewrite Z.mod_small by lia; lia.
Qed.
Lemma succ_ok : forall c, 0 <= c < U64MAX -> wrap64 (c + 1) = c + 1.
Proof. intros c H. unfold wrap64, U64MAX in *. apply Z.mod_small. lia. Qed.

(** [chain map c0 c]: from [c0] the queued messages of [map] lead to [c] without a gap. *)
Inductive chain (mp : list (Z * rmsg)) (c0 : Z) : Z -> Prop :=
| ch_base : chain mp c0 c0
| ch_step : forall c k x, chain mp c0 c -> In (k, x) mp -> q_seq x <= c + 1 -> chain mp c0 (Z.max c (covers_to x)).
Definition just (R : Z -> Prop) (out : list (rmsg * bool)) (c : Z) : Prop :=
  c = 0 \/ (exists m l, In (m, l) out /\ c = covers_to m) \/ R c.
Definition ok_gap (R : Z -> Prop) (out : list (rmsg * bool)) : Prop := forall pre m l post, out = pre ++ (m, l) :: post -> no_gap pre m \/ exists n, R n /\ q_seq m <= n + 1.

Record Core (ins : list rmsg) (R : Z -> Prop) (now : Z) (b : rbuf) : Prop := {
  i_csn : 0 <= b_csn b < U64MAX;
  i_thru : 0 <= b_thru b <= b_csn b;
  i_high : b_high b < U64MAX;
  i_per : forall p, b_period b = Some p -> 0 <= p;
  i_nodup : NoDup (map q_seq ins);
  i_sorted : StronglySorted Z.lt (map fst (b_map b));
  i_map : forall k m, In (k, m) (b_map b) -> k = q_seq m /\ wfm m /\ covers_to m <= b_high b;
  i_list : forall m, In m (b_list b) -> wfm m /\ q_time m <= now /\ In m ins;
  i_time : StronglySorted (fun a b => q_time a <= q_time b) (b_list b);
  i_link : forall m, In m (b_list b) -> covers_to m <= b_csn b \/ In (q_seq m, m) (b_map b);
  i_back : forall k m, In (k, m) (b_map b) -> In m (b_list b) \/ k <= b_csn b + 1;
  i_perm : exists lost, Permutation ins (map fst (b_out b) ++ map snd (b_map b) ++ lost) /\ (b_open b = true -> lost = []);
  i_late : truthful (b_out b);
  i_max : b_open b = true -> (forall m l, In (m, l) (b_out b) -> covers_to m <= b_thru b) /\ (b_thru b = 0 \/ exists m l, In (m, l) (b_out b) /\ covers_to m = b_thru b);
  i_gap : ok_gap R (b_out b);
  i_just : b_open b = true -> exists c0, just R (b_out b) c0 /\ 0 <= c0 <= b_csn b /\ chain (b_map b) c0 (b_csn b);
  i_timer : forall t p m, b_timer b = Some t -> b_period b = Some p -> In m (b_list b) -> t <= q_time m + p;
  i_due : forall t p, b_timer b = Some t -> b_period b = Some p -> t <= now + p }.
Record Rest (b : rbuf) : Prop := {
  r_keys : forall k m, In (k, m) (b_map b) -> b_csn b + 1 < k;
  r_timer : forall p, b_period b = Some p -> b_list b <> [] -> b_timer b <> None }.

Lemma chain_le : forall mp c0 c, chain mp c0 c -> c0 <= c.
Proof. induction 1; lia. Qed.
Lemma chain_sub : forall mp mp' c0 c, chain mp c0 c -> (forall e, In e mp -> In e mp') -> chain mp' c0 c.
Proof. induction 1; intros; [constructor|econstructor; eauto]. Qed.
Lemma chain_remove : forall mp mp' m c0 c, chain mp c0 c -> (forall k x, In (k, x) mp -> x = m \/ In (k, x) mp') -> chain mp' (Z.max c0 (covers_to m)) (Z.max c (covers_to m)).
Proof.
  intros mp mp' m c0 c H K. induction H as [|c k x H IH I L]; [constructor|]. destruct (K k x I) as [->|I'].
  - replace (Z.max (Z.max c (covers_to m)) (covers_to m)) with (Z.max c (covers_to m)) by lia. exact IH.
  - replace (Z.max (Z.max c (covers_to x)) (covers_to m)) with (Z.max (Z.max c (covers_to m)) (covers_to x)) by lia. apply ch_step with k; [exact IH|exact I'|lia].
Qed.
(** Where a chain gets past [c0] it does so by a message that is right after [c0]. *)
Lemma chain_first : forall mp c0 c, chain mp c0 c -> c = c0 \/ exists k x, In (k, x) mp /\ q_seq x <= c0 + 1.
Proof. induction 1 as [|c k x H IH I L]; [auto|]. destruct IH as [->|IH]; [right; eauto|auto]. Qed.

Lemma just_mono : forall (R R' : Z -> Prop) out c, (forall n, R n -> R' n) -> just R out c -> just R' out c.
Proof. intros R R' out c H [J|[J|J]]; [left; auto|right; left; auto|right; right; auto]. Qed.
Lemma just_app : forall R out more c, just R out c -> just R (out ++ more) c.
Proof. intros R out more c [J|[(m & l & I & E)|J]]; [left; auto| |right; right; auto]. right; left. exists m, l. split; [apply in_or_app; auto|exact E]. Qed.
Lemma snoc_split : forall {A} (l pre post : list A) x y, l ++ [x] = pre ++ y :: post -> (post = [] /\ l = pre /\ x = y) \/ exists post', post = post' ++ [x] /\ l = pre ++ y :: post'.
Proof.
  intros A l pre post x y H. destruct (exists_last (l := y :: post)) as (q & z & E); [discriminate|]. rewrite E, app_assoc in H.
  apply app_inj_tail in H as [H <-]. destruct post as [|p post] using rev_ind.
  - left. change [y] with ([] ++ [y]) in E. apply app_inj_tail in E as [<- ->]. rewrite app_nil_r in H. auto.
  - right. clear IHpost. rewrite app_comm_cons in E. apply app_inj_tail in E as [<- ->]. exists post. auto.
Qed.
Lemma gap_app : forall R out m l, ok_gap R out -> (no_gap out m \/ exists n, R n /\ q_seq m <= n + 1) -> ok_gap R (out ++ [(m, l)]).
Proof.
  intros R out m l H H' pre x lx post E. apply snoc_split in E as [(-> & <- & X)|(post' & -> & E)]; [injection X as <- <-; exact H'|]. exact (H _ _ _ _ E).
Qed.
Lemma truthful_app : forall out m l, truthful out -> (l = true <-> exists m' l', In (m', l') out /\ covers_to m < covers_to m') -> truthful (out ++ [(m, l)]).
Proof.
  intros out m l H H' pre x lx post E. apply snoc_split in E as [(-> & <- & X)|(post' & -> & E)]; [injection X as <- <-; exact H'|]. exact (H _ _ _ _ E).
Qed.
Lemma core_mono : forall ins (R R' : Z -> Prop) now now' b, Core ins R now b -> (forall n, R n -> R' n) -> now <= now' -> Core ins R' now' b.
Proof.
  intros ins R R' now now' b [] HR HN. constructor; auto.
  - intros m I. destruct (i_list0 m I) as (A & B & C). repeat split; try apply A; auto. lia.
  - intros pre m l post E. destruct (i_gap0 pre m l post E) as [X|(n & X & Y)]; [auto|right; eauto].
  - intros O. destruct (i_just0 O) as (c0 & J & L & C). exists c0. split; [eapply just_mono; eauto|auto].
  - intros t p T P. specialize (i_due0 t p T P). lia.
Qed.

(** ** findCSN *)
Lemma find_loop_spec : forall dl csn l, 0 <= csn < U64MAX -> (forall m, In m l -> wfm m) -> StronglySorted (fun a b => q_time a <= q_time b) l ->
  exists gone, l = gone ++ snd (find_csn_loop dl csn l) /\ csn <= fst (find_csn_loop dl csn l) < U64MAX
    /\ (forall m, In m gone -> covers_to m <= fst (find_csn_loop dl csn l))
    /\ (forall d, dl = Some d -> forall m, In m (snd (find_csn_loop dl csn l)) -> d < q_time m)
    /\ match snd (find_csn_loop dl csn l) with [] => True | h :: _ => fst (find_csn_loop dl csn l) + 1 < q_seq h end
    /\ ((forall m, In m l -> q_seq m <= csn + 1 -> covers_to m <= csn) -> (forall d m, dl = Some d -> In m l -> d < q_time m) -> fst (find_csn_loop dl csn l) = csn)
    /\ (forall (P : Z -> Prop), P csn -> (forall c m, In m l -> P c -> q_seq m <= c + 1 -> P (Z.max c (covers_to m))) ->
          (forall c m d, In m l -> dl = Some d -> P c -> q_time m <= d -> P (Z.max c (covers_to m))) -> P (fst (find_csn_loop dl csn l))).
Proof.
  intros dl csn l. revert csn. induction l as [|m l IH]; intros csn H W S; cbn [find_csn_loop].
  - exists []. cbn. repeat split; auto; try lia; intros; contradiction.
  - destruct (wfm_last m (W m (or_introl eq_refl))) as (E & L & B). inversion S as [|? ? S' F]; subst. rewrite Forall_forall in F.
    rewrite succ_ok by exact H.
    destruct ((q_seq m <=? csn + 1) || match dl with Some d => q_time m <=? d | None => false end) eqn:T.
    + rewrite E. destruct (IH (Z.max csn (covers_to m))) as (gone & G1 & G2 & G3 & G4 & G5 & G6 & G7); [lia|intros; apply W; right; auto|exact S'|].
      exists (m :: gone). split; [cbn [app]; rewrite <- G1; reflexivity|]. split; [lia|]. split; [intros x [<-|I]; [lia|auto]|]. split; [exact G4|]. split; [exact G5|]. split.
      * intros A B'. apply orb_true_iff in T. assert (M : Z.max csn (covers_to m) = csn).
        { destruct T as [T|T]; [apply Z.leb_le in T; specialize (A m (or_introl eq_refl) T); lia|]. destruct dl as [d|]; [|discriminate]. apply Z.leb_le in T. specialize (B' d m eq_refl (or_introl eq_refl)). lia. }
        rewrite M in *. apply G6; [intros x I X; apply A; [right; exact I|lia]|intros d x D I; apply (B' d x D (or_intror I))].
      * intros P P0 P1 P2. apply G7.
        -- apply orb_true_iff in T. destruct T as [T|T]; [apply Z.leb_le in T; apply P1; [left; reflexivity|exact P0|exact T]|]. destruct dl as [d|]; [|discriminate]. apply Z.leb_le in T. apply P2 with d; [left; reflexivity|reflexivity|exact P0|exact T].
        -- intros c x I. apply P1. right. exact I.
        -- intros c x d I. apply P2. right. exact I.
    + apply orb_false_iff in T. destruct T as [T1 T2]. apply Z.leb_gt in T1. exists []. cbn [fst snd app]. repeat split; auto; try lia; try (intros; contradiction).
      intros d -> x I. apply Z.leb_gt in T2. destruct I as [<-|I]; [exact T2|]. specialize (F x I). lia.
Qed.
Lemma find_core : forall ins R now b, Core ins R now b ->
  (forall m p, In m ins -> b_period b = Some p -> q_time m + p <= now -> R (covers_to m)) ->
  Core ins R now (find_csn now b) /\ b_csn b <= b_csn (find_csn now b) /\ b_map (find_csn now b) = b_map b /\ b_out (find_csn now b) = b_out b /\ b_open (find_csn now b) = b_open b
  /\ b_high (find_csn now b) = b_high b /\ b_period (find_csn now b) = b_period b /\ b_timer (find_csn now b) = b_timer b
  /\ (forall p, b_period b = Some p -> forall m, In m (b_list (find_csn now b)) -> now < q_time m + p)
  /\ match b_list (find_csn now b) with [] => True | h :: _ => b_csn (find_csn now b) + 1 < q_seq h end
  /\ ((forall m, In m (b_list b) -> q_seq m <= b_csn b + 1 -> covers_to m <= b_csn b) -> (forall p m, b_period b = Some p -> In m (b_list b) -> now < q_time m + p) -> b_csn (find_csn now b) = b_csn b).
Proof.
  intros ins R now b C HR. destruct C. unfold find_csn.
  set (dl := match b_period b with Some p => Some (now - p) | None => None end).
  destruct (find_loop_spec dl (b_csn b) (b_list b) i_csn0 (fun m I => proj1 (i_list0 m I)) i_time0) as (gone & G1 & G2 & G3 & G4 & G5 & G6 & G7).
  destruct (find_csn_loop dl (b_csn b) (b_list b)) as [c l'] eqn:E. cbn [fst snd] in *. clear E.
  assert (SUB : forall m, In m l' -> In m (b_list b)) by (intros; rewrite G1; apply in_or_app; auto).
  split.
  { constructor; cbn [b_csn b_thru b_high b_period b_timer b_map b_list b_open b_out]; auto; try lia.
    - rewrite G1 in i_time0. clear - i_time0. induction gone as [|g gone IH]; [exact i_time0|]. inversion i_time0; auto.
    - intros m I. destruct (i_link0 m (SUB m I)); [left; lia|auto].
    - intros k m I. destruct (i_back0 k m I) as [J|J]; [|right; lia]. rewrite G1 in J. apply in_app_or in J as [J|J]; [|auto]. right.
      specialize (G3 m J). destruct (i_map0 k m I) as (-> & W & _). destruct (wfm_last m W). lia.
    - intros O. apply (G7 (fun c => b_csn b <= c /\ exists c0, just R (b_out b) c0 /\ 0 <= c0 <= c /\ chain (b_map b) c0 c)); [split; [lia|auto]| |].
      + intros c' m I (Lc & c0 & J & L & CH) S. split; [lia|]. destruct (i_link0 m I) as [X|X].
        * rewrite Z.max_l by lia. exists c0; auto.
        * exists c0. split; [exact J|]. split; [lia|]. apply ch_step with (q_seq m); auto.
      + intros c' m d I D (Lc & c0 & J & L & CH) S. split; [lia|]. subst dl. destruct (b_period b) as [p|] eqn:P; [|discriminate]. injection D as <-.
        destruct (Z.max_spec c' (covers_to m)) as [[Y ->]|[Y ->]]; [|exists c0; auto]. exists (covers_to m). split; [right; right; apply (HR m p); auto; [apply i_list0, I|lia]|]. split; [|constructor].
        destruct (wfm_last m (proj1 (i_list0 m I))). lia. }
  cbn [b_csn b_thru b_high b_period b_timer b_map b_list b_open b_out]. split; [lia|]. do 6 (split; [reflexivity|]).
  split; [|split; [exact G5|]].
  - intros p P m I. subst dl. rewrite P in G4. specialize (G4 _ eq_refl m I). lia.
  - intros A B. apply G6; [exact A|]. intros d m D I. subst dl. destruct (b_period b) as [p|] eqn:P; [|discriminate]. injection D as <-. specialize (B p m eq_refl I). lia.
Qed.

(** ** Passing a message *)
Definition passed_on (b : rbuf) (m : rmsg) (mp : list (Z * rmsg)) : rbuf :=
  mkBuf (Z.max (b_csn b) (covers_to m)) (Z.max (b_thru b) (covers_to m)) (b_high b) (b_period b) (b_timer b) mp (b_list b) (b_open b)
        (if b_open b then b_out b ++ [(m, covers_to m <? b_thru b)] else b_out b).
Lemma pass_core : forall ins ins' R now b m mp, Core ins R now b -> wfm m -> q_seq m <= b_csn b + 1 ->
  Permutation (m :: map snd mp ++ ins) (map snd (b_map b) ++ ins') -> NoDup (map q_seq ins') -> (forall x, In x ins -> In x ins') ->
  StronglySorted Z.lt (map fst mp) -> (forall e, In e mp -> In e (b_map b)) -> (forall k x, In (k, x) (b_map b) -> x = m \/ In (k, x) mp) ->
  (b_open b = true -> forall c0, just R (b_out b) c0 -> 0 <= c0 <= b_csn b -> chain (b_map b) c0 (b_csn b) -> q_seq m <= c0 + 1) ->
  Core ins' R now (passed_on b m mp).
Proof.
  intros ins ins' R now b m mp C W LE PM ND SUBI SRT SUB SUP GAP. destruct C. destruct (wfm_last m W) as (EL & BL & BU).
  constructor; cbn [passed_on b_csn b_thru b_high b_period b_timer b_map b_list b_open b_out]; auto; try lia.
  - intros x I. destruct (i_list0 x I) as (A & B & D). auto.
  - intros x I. destruct (i_link0 x I) as [X|X]; [left; lia|]. destruct (SUP _ _ X) as [->|X']; [left; lia|auto].
  - intros k x I. destruct (i_back0 k x (SUB _ I)); [auto|right; lia].
  - destruct i_perm0 as (lost & P & LO).
    assert (Q : Permutation ins' (map fst (b_out b) ++ m :: map snd mp ++ lost)).
    { apply Permutation_app_inv_l with (map snd (b_map b)). rewrite <- PM. rewrite P. clear.
      set (A := map snd mp). set (B := map fst (b_out b)). set (D := map snd (b_map b)).
      transitivity (m :: B ++ A ++ D ++ lost); [apply perm_skip; rewrite !app_assoc; apply Permutation_app_tail, Permutation_app_tail, Permutation_app_comm|].
      transitivity (B ++ m :: A ++ D ++ lost); [apply Permutation_middle|]. 
      transitivity (B ++ D ++ m :: A ++ lost).
      - apply Permutation_app_head. transitivity (m :: D ++ A ++ lost); [|apply Permutation_middle]. apply perm_skip. rewrite !app_assoc. apply Permutation_app_tail, Permutation_app_comm.
      - rewrite !app_assoc. apply Permutation_app_tail, Permutation_app_comm || (rewrite <- !app_assoc; rewrite !(app_assoc _ D), !(app_assoc D); apply Permutation_app_tail, Permutation_app_comm). }
    destruct (b_open b) eqn:O.
    + exists lost. split; [|exact LO]. rewrite map_app. cbn [map fst]. rewrite <- app_assoc. exact Q.
    + exists (m :: lost). split; [|discriminate]. rewrite Q. apply Permutation_app_head. apply Permutation_middle.
  - destruct (b_open b) eqn:O; [|exact i_late0]. apply truthful_app; [exact i_late0|]. destruct (i_max0 eq_refl) as (M1 & M2). split.
    + intros T. apply Z.ltb_lt in T. destruct M2 as [M2|(m' & l' & I & M2)]; [lia|]. exists m', l'. split; [exact I|lia].
    + intros (m' & l' & I & T). apply Z.ltb_lt. specialize (M1 m' l' I). lia.
  - intros O. rewrite O. destruct (i_max0 O) as (M1 & M2). split.
    + intros x l I. apply in_app_or in I as [I|[I|[]]]; [specialize (M1 x l I); lia|]. injection I as <- <-. lia.
    + destruct (Z.max_spec (b_thru b) (covers_to m)) as [[Y ->]|[Y ->]].
      * right. exists m, (covers_to m <? b_thru b). split; [apply in_or_app; right; left; reflexivity|reflexivity].
      * destruct M2 as [M2|(m' & l' & I & M2)]; [left; exact M2|]. right. exists m', l'. split; [apply in_or_app; auto|exact M2].
  - destruct (b_open b) eqn:O; [|exact i_gap0]. apply gap_app; [exact i_gap0|]. destruct (i_just0 eq_refl) as (c0 & J & L & CH).
    specialize (GAP eq_refl c0 J L CH). destruct J as [->|[(m' & l' & I & E)|J]].
    + left. left. lia.
    + left. right. exists m', l'. split; [exact I|lia].
    + right. exists c0. auto.
  - intros O. rewrite O. destruct (i_just0 O) as (c0 & J & L & CH). exists (Z.max c0 (covers_to m)). split; [|split; [lia|apply chain_remove with (b_map b); assumption]].
    destruct (Z.max_spec c0 (covers_to m)) as [[Y ->]|[Y ->]]; [|apply just_app, J]. right. left. exists m, (covers_to m <? b_thru b). split; [apply in_or_app; right; left; reflexivity|reflexivity].
Qed.
Lemma deliver_passed : forall b m, wfm m -> fst (deliver_message never b m) = passed_on b m (b_map b) /\ snd (deliver_message never b m) = false.
Proof.
  intros b m W. unfold deliver_message, never. rewrite andb_false_r. cbn [fst snd b_csn b_thru b_high b_period b_timer b_map b_list b_open b_out].
  destruct (wfm_last m W) as (-> & _). split; reflexivity.
Qed.
Lemma sorted_head_min : forall k m rest, StronglySorted Z.lt (map fst ((k, m) :: rest)) -> forall k' (x : rmsg), In (k', x) ((k, m) :: rest) -> k <= k'.
Proof.
  intros k m rest S k' x I. inversion S as [|? ? S' F]; subst. rewrite Forall_forall in F. destruct I as [E|I]; [injection E; lia|]. apply in_map with (f := fst) in I. specialize (F _ I). cbn in F. lia.
Qed.
Lemma loop_core : forall fuel ins R now b, Core ins R now b -> (length (b_map b) < fuel)%nat ->
  exists b', deliver_loop never fuel b = Ok b' /\ Core ins R now b' /\ (forall k m, In (k, m) (b_map b') -> b_csn b' + 1 < k)
    /\ b_list b' = b_list b /\ b_high b' = b_high b /\ b_period b' = b_period b /\ b_timer b' = b_timer b /\ b_open b' = b_open b /\ b_csn b <= b_csn b'
    /\ (forall e, In e (b_map b') -> In e (b_map b)).
Proof.
  induction fuel as [|fuel IH]; intros ins R now b C L; [lia|]. cbn [deliver_loop]. destruct (b_map b) as [|[k m] rest] eqn:EM.
  - exists b. rewrite EM. ands; try exact C; try reflexivity; try lia; intros; contradiction.
  - pose proof (i_csn _ _ _ _ C) as HC. unfold deliver_now. rewrite succ_ok by exact HC.
    destruct (i_map _ _ _ _ C k m) as (EK & W & HH); [rewrite EM; left; reflexivity|].
    pose proof (i_sorted _ _ _ _ C) as SRT. rewrite EM in SRT.
    destruct (Z.leb_spec k (b_csn b + 1)) as [T|T].
    + destruct (deliver_passed b m W) as (E1 & E2). destruct (deliver_message never b m) as [b1 closed]. cbn [fst snd] in E1, E2. subst closed b1.
      change (mkBuf _ _ _ _ _ rest _ _ _) with (passed_on b m rest).
      destruct (IH ins R now (passed_on b m rest)) as (b' & E & C' & K & H1 & H2 & H3 & H4 & H5 & H6 & H7).
      * apply pass_core with ins; auto.
        -- lia.
        -- rewrite EM. cbn [map snd]. reflexivity.
        -- exact (i_nodup _ _ _ _ C).
        -- inversion SRT; auto.
        -- intros e I. rewrite EM. right. exact I.
        -- intros k' x I. rewrite EM in I. destruct I as [I|I]; [injection I; auto|auto].
        -- intros O c0 J LL CH. destruct (chain_first _ _ _ CH) as [E|(k' & x & I & LX)]; [lia|]. rewrite EM in I.
           pose proof (sorted_head_min _ _ _ SRT _ _ I). destruct (i_map _ _ _ _ C k' x) as (-> & _); [rewrite EM; exact I|]. lia.
      * cbn [length] in L. cbn. lia.
      * exists b'. cbn [passed_on b_csn b_thru b_high b_period b_timer b_map b_list b_open b_out] in *. ands; try assumption; try lia. intros e I. right. auto.
    + exists b. rewrite EM. ands; try exact C; try reflexivity; try lia; auto. intros k' x I. pose proof (sorted_head_min _ _ _ SRT _ _ I). lia.
Qed.

(** ** tryDeliver *)
Lemma schedule_core : forall ins R now b, Core ins R now b -> Core ins R now (schedule_delivery b) /\ b_map (schedule_delivery b) = b_map b /\ b_list (schedule_delivery b) = b_list b
  /\ b_csn (schedule_delivery b) = b_csn b /\ b_period (schedule_delivery b) = b_period b /\ b_high (schedule_delivery b) = b_high b /\ b_open (schedule_delivery b) = b_open b
  /\ (forall p, b_period b = Some p -> b_list b <> [] -> b_timer (schedule_delivery b) <> None).
Proof.
  intros ins R now b C. unfold schedule_delivery. destruct (b_list b) as [|h l] eqn:EL.
  { rewrite EL. ands; auto; intros; congruence. }
  destruct (b_period b) as [p|] eqn:EP.
  2: { rewrite EL, EP. ands; auto; intros; congruence. }
  destruct (b_timer b) as [t|] eqn:ET.
  { rewrite EL, EP. ands; auto; intros; congruence. }
  cbn [b_csn b_thru b_high b_period b_timer b_map b_list b_open b_out]. ands; try reflexivity; try discriminate.
  destruct C. constructor; cbn [b_csn b_thru b_high b_period b_timer b_map b_list b_open b_out]; auto; rewrite ?EL, ?EP in *; auto.
  { intros t' p' m T P I. injection T as <-. injection P as <-. inversion i_time0 as [|? ? S F]; subst. rewrite Forall_forall in F. destruct I as [<-|I]; [lia|]. specialize (F m I). cbn in F. lia. }
  intros t' p' T P. injection T as <-. injection P as <-. destruct (i_list0 h (or_introl eq_refl)). lia.
Qed.
Lemma try_core : forall ins R now b, Core ins R now b -> (forall m p, In m ins -> b_period b = Some p -> q_time m + p <= now -> R (covers_to m)) ->
  exists b', try_deliver never now b = Ok b' /\ Core ins R now b' /\ Rest b' /\ b_csn b <= b_csn b' /\ b_open b' = b_open b /\ b_high b' = b_high b /\ b_period b' = b_period b.
Proof.
  intros ins R now b C HR. unfold try_deliver. destruct (find_core ins R now b C HR) as (C1 & F1 & F2 & F3 & F4 & F5 & F6 & F7 & F8 & F9 & _).
  remember (find_csn now b) as b1 eqn:E1. clear E1.
  destruct (loop_core (S (length (b_map b1))) ins R now b1 C1) as (b2 & E2 & C2 & K2 & L2 & L3 & L4 & L5 & L6 & L7 & L8); [lia|]. rewrite E2. cbn [rbind].
  destruct (find_core ins R now b2 C2) as (C3 & G1 & G2 & G3 & G4 & G5 & G6 & G7 & G8 & G9 & G10); [rewrite L4, F6; exact HR|].
  remember (find_csn now b2) as b3 eqn:E3.
  assert (EC : b_csn b3 = b_csn b2).
  { apply G10.
    - intros m I X. destruct (i_link _ _ _ _ C2 m I) as [Y|Y]; [exact Y|]. specialize (K2 _ _ Y). lia.
    - intros p m P I. rewrite L2 in I. rewrite L4, F6 in P. exact (F8 p P m I). }
  destruct (schedule_core ins R now b3 C3) as (C4 & S1 & S2 & S3 & S4 & S5 & S6 & S7). remember (schedule_delivery b3) as b4.
  assert (K3 : forall k m, In (k, m) (b_map b3) -> b_csn b3 + 1 < k) by (intros k m I; rewrite G2 in I; rewrite EC; eauto).
  assert (EMP : b_map b4 = [] <-> b_list b4 = []).
  { rewrite S1, S2. split; intros X.
    - destruct (b_list b3) as [|h l] eqn:EL; [reflexivity|]. exfalso. destruct (i_link _ _ _ _ C3 h) as [Y|Y]; [rewrite EL; left; reflexivity| |rewrite X in Y; exact Y].
      destruct (i_list _ _ _ _ C3 h) as (W & _); [rewrite EL; left; reflexivity|]. destruct (wfm_last h W). lia.
    - destruct (b_map b3) as [|[k m] l] eqn:EM; [reflexivity|]. exfalso. destruct (i_back _ _ _ _ C3 k m) as [Y|Y]; [rewrite EM; left; reflexivity|rewrite X in Y; exact Y|].
      specialize (K3 k m (or_introl eq_refl)). lia. }
  assert (EB : Bool.eqb (match b_map b4 with [] => true | _ => false end) (match b_list b4 with [] => true | _ => false end) = true).
  { destruct (b_map b4), (b_list b4); try reflexivity; exfalso; destruct EMP as [A B]; [specialize (A eq_refl)|specialize (B eq_refl)]; discriminate. }
  rewrite EB. exists b4. split; [reflexivity|]. split; [exact C4|]. split.
  { constructor; [rewrite S1, S3; exact K3|]. rewrite S4, S2. exact S7. }
  split; [lia|]. split; [congruence|]. split; congruence.
Qed.

(** ** Queueing *)
Lemma map_set_spec : forall k m l, StronglySorted Z.lt (map fst l) -> (forall x, ~ In (k, x) l) ->
  StronglySorted Z.lt (map fst (map_set k m l)) /\ Permutation (map_set k m l) ((k, m) :: l).
Proof.
  intros k m l. induction l as [|[k' m'] l IH]; intros S N; cbn [map_set map fst].
  - split; [repeat constructor|reflexivity].
  - inversion S as [|? ? S' F]; subst. destruct (Z.ltb_spec k k').
    + split; [|reflexivity]. cbn [map fst]. constructor; [exact S|]. constructor; [lia|]. rewrite Forall_forall in *. intros x I. specialize (F x I). cbn in F. lia.
    + destruct (Z.eqb_spec k k') as [->|NE]; [exfalso; apply (N m'); left; reflexivity|].
      destruct (IH S') as (A & B); [intros x I; apply (N x); right; exact I|]. split.
      * cbn [map fst]. constructor; [exact A|]. rewrite Forall_forall in *. intros x I. apply in_map_iff in I as ([kx mx] & <- & I). apply (Permutation_in _ B) in I. destruct I as [E|I]; [injection E as <- <-; cbn; lia|].
        apply F. apply in_map_iff. exists (kx, mx). auto.
      * rewrite B. apply perm_swap.
Qed.
Lemma sorted_snoc : forall l m, StronglySorted (fun a b => q_time a <= q_time b) l -> (forall x, In x l -> q_time x <= q_time m) -> StronglySorted (fun a b => q_time a <= q_time b) (l ++ [m]).
Proof.
  induction l as [|h l IH]; intros m S H; [repeat constructor|]. inversion S as [|? ? S' F]; subst. cbn [app]. constructor; [apply IH; [exact S'|intros; apply H; right; auto]|].
  rewrite Forall_forall in *. intros x I. apply in_app_or in I as [I|[<-|[]]]; [auto|]. apply H. left. reflexivity.
Qed.
Lemma core_ins_in : forall ins R now b k m, Core ins R now b -> In (k, m) (b_map b) -> In m ins.
Proof.
  intros ins R now b k m C I. destruct (i_perm _ _ _ _ C) as (lost & P & _). apply (Permutation_in _ (Permutation_sym P)). apply in_or_app. right. apply in_or_app. left. apply in_map_iff. exists (k, m). auto.
Qed.
Definition note_high (b : rbuf) (m : rmsg) : rbuf := mkBuf (b_csn b) (b_thru b) (Z.max (b_high b) (covers_to m)) (b_period b) (b_timer b) (b_map b) (b_list b) (b_open b) (b_out b).
Lemma high_core : forall ins R now b m, Core ins R now b -> wfm m -> Core ins R now (note_high b m).
Proof.
  intros ins R now b m [] W. destruct (wfm_last m W) as (_ & _ & B). constructor; cbn [note_high b_csn b_thru b_high b_period b_timer b_map b_list b_open b_out]; auto; try lia.
  intros k x I. destruct (i_map0 k x I) as (E & Wx & H). repeat split; auto; try apply Wx. lia.
Qed.
Lemma nodup_snoc : forall ins (m : rmsg), NoDup (map q_seq (ins ++ [m])) -> forall x, In x ins -> q_seq x <> q_seq m.
Proof.
  intros ins m ND x I E. rewrite map_app in ND. cbn [map] in ND. apply NoDup_remove_2 in ND. rewrite app_nil_r in ND. apply ND. rewrite <- E. apply in_map, I.
Qed.
Lemma insert_core : forall ins R now b m, Core ins R now b -> Rest b -> wfm m -> q_time m = now -> NoDup (map q_seq (ins ++ [m])) ->
  (forall x p, In x (ins ++ [m]) -> b_period b = Some p -> q_time x + p <= now -> R (covers_to x)) ->
  exists b', buf_insert never now b m = Ok b' /\ Core (ins ++ [m]) R now b' /\ Rest b' /\ b_open b' = b_open b /\ b_period b' = b_period b.
Proof.
  intros ins R now b m C RS W TM ND HR. unfold buf_insert. destruct (wfm_last m W) as (EL & BL & BU). rewrite EL. change (mkBuf _ _ _ _ _ _ _ _ _) with (note_high b m).
  pose proof (high_core ins R now b m C W) as CH. pose proof (i_csn _ _ _ _ C) as HC. unfold deliver_now. change (b_csn (note_high b m)) with (b_csn b). rewrite succ_ok by exact HC.
  pose proof (nodup_snoc _ _ ND) as FR.
  destruct (Z.leb_spec (q_seq m) (b_csn b + 1)) as [T|T].
  - destruct (deliver_passed (note_high b m) m W) as (E1 & E2). destruct (deliver_message never (note_high b m) m) as [b1 closed]. cbn [fst snd] in E1. subst b1.
    destruct (try_core (ins ++ [m]) R now (passed_on (note_high b m) m (b_map (note_high b m)))) as (b' & E & C' & R' & _ & O' & _ & P').
    + apply pass_core with ins; auto.
      * rewrite app_comm_cons, (Permutation_app_comm (m :: _)). cbn [note_high b_map]. rewrite (Permutation_app_comm (map snd (b_map b)) (ins ++ [m])). rewrite <- app_assoc. reflexivity.
      * intros x I. apply in_or_app. auto.
      * exact (i_sorted _ _ _ _ C).
      * intros O c0 J L H. destruct (chain_first _ _ _ H) as [E|(k & x & I & LX)]; [cbn in E; lia|]. cbn [note_high b_map] in I. destruct (i_map _ _ _ _ C k x I) as (-> & _). pose proof (r_keys _ RS _ _ I). cbn [note_high b_csn] in L. lia.
    + exact HR.
    + exists b'. auto.
  - eexists. split; [reflexivity|]. unfold queue_message. cbn [note_high b_csn b_thru b_high b_period b_timer b_map b_list b_open b_out].
    set (b1 := mkBuf _ _ _ _ _ _ _ _ _).
    destruct (map_set_spec (q_seq m) m (b_map b) (i_sorted _ _ _ _ C)) as (S & P).
    { intros x I. apply (FR x); [eapply core_ins_in; eauto|]. destruct (i_map _ _ _ _ C _ _ I) as (<- & _). reflexivity. }
    assert (C1 : Core (ins ++ [m]) R now b1).
    { destruct C. subst b1. constructor; cbn [b_csn b_thru b_high b_period b_timer b_map b_list b_open b_out]; auto; try lia.
      - intros k x I. apply (Permutation_in _ P) in I. destruct I as [E|I]; [injection E as <- <-; repeat split; try apply W; lia|]. destruct (i_map0 k x I) as (-> & Wx & H). repeat split; try apply Wx; lia.
      - intros x I. apply in_app_or in I as [I|[<-|[]]]; [destruct (i_list0 x I) as (A & B & D); repeat split; try apply A; auto; apply in_or_app; auto|].
        split; [exact W|]. split; [lia|]. apply in_or_app. right. left. reflexivity.
      - apply sorted_snoc; [exact i_time0|]. intros x I. destruct (i_list0 x I). lia.
      - intros x I. apply in_app_or in I as [I|[<-|[]]].
        + destruct (i_link0 x I); [auto|]. right. apply (Permutation_in _ (Permutation_sym P)). right. auto.
        + right. apply (Permutation_in _ (Permutation_sym P)). left. reflexivity.
      - intros k x I. apply (Permutation_in _ P) in I. destruct I as [E|I]; [injection E as <- <-; left; apply in_or_app; right; left; reflexivity|].
        destruct (i_back0 k x I); [left; apply in_or_app; auto|auto].
      - destruct i_perm0 as (lost & PP & LO). exists lost. split; [|exact LO]. rewrite (Permutation_map snd P). cbn [map snd]. rewrite PP. rewrite <- Permutation_cons_append.
        rewrite <- app_comm_cons. apply Permutation_middle.
      - intros O. destruct (i_just0 O) as (c0 & J & L & CC). exists c0. split; [exact J|]. split; [exact L|]. eapply chain_sub; [exact CC|]. intros e I. apply (Permutation_in _ (Permutation_sym P)). right. exact I.
      - intros t p x TI PE I. apply in_app_or in I as [I|[<-|[]]]; [eauto|]. pose proof (r_timer _ RS) as RT.
        destruct (b_list b) as [|h l] eqn:EB.
        + (* a timer left over from an emptied list was set for a message not later than now *)
          specialize (i_due0 t p TI PE). lia.
        + specialize (i_timer0 t p h TI PE (or_introl eq_refl)). destruct (i_list0 h (or_introl eq_refl)). lia. }
    destruct (schedule_core _ _ _ _ C1) as (C2 & S1 & S2 & S3 & S4 & S5 & S6 & S7). split; [exact C2|]. split; [|split; assumption].
    constructor.
    + intros k x I. rewrite S1 in I. rewrite S3. apply (Permutation_in _ P) in I. destruct I as [E|I]; [injection E as <- <-; cbn; lia|]. exact (r_keys _ RS _ _ I).
    + intros p PE _. rewrite S4 in PE. apply (S7 p PE). subst b1. cbn. destruct (b_list b); discriminate.
Qed.

(** ** Runs *)
Lemma raise_core : forall ins (R : Z -> Prop) now b n, Core ins R now b -> R n -> b_csn b < n < U64MAX ->
  Core ins R now (mkBuf n (b_thru b) (b_high b) (b_period b) (b_timer b) (b_map b) (b_list b) (b_open b) (b_out b)).
Proof.
  intros ins R now b n [] HR L. constructor; cbn [b_csn b_thru b_high b_period b_timer b_map b_list b_open b_out]; auto; try lia.
  - intros m I. destruct (i_link0 m I); [left; lia|auto].
  - intros k m I. destruct (i_back0 k m I); [auto|right; lia].
  - intros O. exists n. split; [right; right; exact HR|]. split; [lia|constructor].
Qed.
Lemma through_core : forall ins (R : Z -> Prop) now b n, Core ins R now b -> Rest b -> R n -> n < U64MAX ->
  (forall m p, In m ins -> b_period b = Some p -> q_time m + p <= now -> R (covers_to m)) ->
  exists b', deliver_through never now b n = Ok b' /\ Core ins R now b' /\ Rest b' /\ b_open b' = b_open b /\ b_period b' = b_period b /\ n <= b_csn b' /\ b_high b' = b_high b.
Proof.
  intros ins R now b n C RS HR L HP. unfold deliver_through. destruct (Z.gtb_spec n (b_csn b)) as [T|T].
  - destruct (try_core ins R now _ (raise_core ins R now b n C HR ltac:(lia)) HP) as (b' & E & C' & R' & LE & O & H & P). exists b'. cbn in *. ands; auto.
  - exists b. ands; auto.
Qed.
Lemma close_core : forall ins R now b, Core ins R now b -> Core ins R now (buf_close b) /\ Rest (buf_close b).
Proof.
  intros ins R now b []. split.
  - constructor; cbn [buf_close b_csn b_thru b_high b_period b_timer b_map b_list b_open b_out]; auto; try discriminate; try (intros; contradiction); try constructor.
    destruct i_perm0 as (lost & P & _). exists (map snd (b_map b) ++ lost). split; [exact P|discriminate].
  - constructor; cbn [buf_close b_csn b_thru b_high b_period b_timer b_map b_list b_open b_out]; [intros; contradiction|intros; congruence].
Qed.
Lemma timer_off_core : forall ins R now b, Core ins R now b ->
  Core ins R now (mkBuf (b_csn b) (b_thru b) (b_high b) (b_period b) None (b_map b) (b_list b) (b_open b) (b_out b)).
Proof. intros ins R now b []. constructor; cbn [b_csn b_thru b_high b_period b_timer b_map b_list b_open b_out]; auto; intros; discriminate. Qed.
Lemma period_core : forall ins R now b v, Core ins R now b -> Rest b ->
  Core ins R now (set_period b v) /\ Rest (set_period b v) /\ b_open (set_period b v) = b_open b
  /\ (b_period (set_period b v) = b_period b \/ exists p, v = Some p /\ b_period (set_period b v) = Some (Z.max p 0) \/ b_period (set_period b v) = None).
Proof.
  intros ins R now b v C RS. unfold set_period. set (v' := match v with Some p => Some (if p <? 0 then 0 else p) | None => None end).
  destruct (match v', b_period b with Some x, Some y => x =? y | None, None => true | _, _ => false end).
  { ands; auto. }
  assert (C1 : Core ins R now (mkBuf (b_csn b) (b_thru b) (b_high b) v' None (b_map b) (b_list b) (b_open b) (b_out b))).
  { destruct C. constructor; cbn [b_csn b_thru b_high b_period b_timer b_map b_list b_open b_out]; auto; try (intros; discriminate).
    intros p P. subst v'. destruct v as [p'|]; [|discriminate]. injection P as <-. destruct (Z.ltb_spec p' 0); lia. }
  destruct (schedule_core _ _ _ _ C1) as (C2 & S1 & S2 & S3 & S4 & S5 & S6 & S7). split; [exact C2|]. split; [|split; [exact S6|]].
  - constructor; [rewrite S1, S3; exact (r_keys _ RS)|]. rewrite S4, S2. intros p P N. apply (S7 p P N).
  - right. rewrite S4. cbn [b_period]. subst v'. destruct v as [p|]; [|exists 0; right; reflexivity]. exists p. left. split; [reflexivity|]. destruct (Z.ltb_spec p 0); f_equal; lia.
Qed.
Lemma inserted_app : forall a b, inserted (a ++ b) = inserted a ++ inserted b.
Proof. intros. unfold inserted. apply flat_map_app. Qed.
Lemma in_force_mono : forall p ops e q, in_force p ops q -> in_force p (ops ++ e) q.
Proof. intros p ops e q (x & E & [H|(t & H)]); exists x; split; auto. right. exists t. apply in_or_app. auto. Qed.
Lemma may_skip_mono : forall p ops e now now' n, now <= now' -> may_skip p ops now n -> may_skip p (ops ++ e) now' n.
Proof.
  intros p ops e now now' n L [(t & H)|[(t & H)|(m & q & I & F & T & E)]].
  - left. exists t. apply in_or_app. auto.
  - right; left. exists t. apply in_or_app. auto.
  - right; right. exists m, q. split; [rewrite inserted_app; apply in_or_app; auto|]. split; [apply in_force_mono, F|]. split; [lia|exact E].
Qed.
Record Good (period : option Z) (ops : list (Z * bop)) (now : Z) (b : rbuf) : Prop := {
  g_core : Core (inserted ops) (may_skip period ops now) now b; g_rest : Rest b; g_force : forall p, b_period b = Some p -> in_force period ops p }.
Lemma good_step : forall period ops t0 b now o, Good period ops t0 b -> t0 <= now -> fits (now, o) -> NoDup (map q_seq (inserted (ops ++ [(now, o)]))) ->
  exists b', bstep never now o b = Ok b' /\ Good period (ops ++ [(now, o)]) now b' /\ (b_open b' = true -> b_open b = true)
    /\ (o = BFlush -> forall k m, In (k, m) (b_map b') -> False) /\ (o <> BClose -> b_open b' = b_open b).
Proof.
  intros period ops t0 b now o [C RS FO] L F ND. set (ops' := ops ++ [(now, o)]) in *. set (R := may_skip period ops' now).
  assert (C1 : Core (inserted ops) R now b) by (eapply core_mono; [exact C| |exact L]; intros n; apply may_skip_mono; exact L).
  assert (FO' : forall p, b_period b = Some p -> in_force period ops' p) by (intros; apply in_force_mono; auto).
  assert (HP : forall m p, In m (inserted ops') -> b_period b = Some p -> q_time m + p <= now -> R (covers_to m)) by (intros m p I P T; right; right; exists m, p; auto).
  assert (HP0 : forall m p, In m (inserted ops) -> b_period b = Some p -> q_time m + p <= now -> R (covers_to m)).
  { intros m p I. apply HP. unfold ops'. rewrite inserted_app. apply in_or_app. auto. }
  destruct o as [d s c|n| | |v|]; cbn [bstep].
  - set (m := mkRmsg d s c now). assert (EI : inserted ops' = inserted ops ++ [m]) by (unfold ops'; rewrite inserted_app; reflexivity). rewrite EI in *.
    destruct (insert_core (inserted ops) R now b m C1 RS) as (b' & E & C' & R' & O & P); [unfold wfm; cbn in *; lia|reflexivity|exact ND|exact HP|].
    exists b'. split; [exact E|]. split; [constructor; [rewrite EI; exact C'|exact R'|rewrite P; exact FO']|]. split; [congruence|]. split; [discriminate|auto].
  - assert (EI : inserted ops' = inserted ops) by (unfold ops'; rewrite inserted_app; apply app_nil_r). rewrite EI in *.
    destruct (through_core (inserted ops) R now b n C1 RS) as (b' & E & C' & R' & O & P & _); [left; exists now; apply in_or_app; right; left; reflexivity|cbn in F; lia|exact HP|].
    exists b'. split; [exact E|]. split; [constructor; [rewrite EI; exact C'|exact R'|rewrite P; exact FO']|]. split; [congruence|]. split; [discriminate|auto].
  - assert (EI : inserted ops' = inserted ops) by (unfold ops'; rewrite inserted_app; apply app_nil_r). rewrite EI in *.
    destruct (through_core (inserted ops) R now b (b_high b) C1 RS) as (b' & E & C' & R' & O & P & LE & H); [right; left; exists now; apply in_or_app; right; left; reflexivity|exact (i_high _ _ _ _ C1)|exact HP|].
    exists b'. split; [exact E|]. split; [constructor; [rewrite EI; exact C'|exact R'|rewrite P; exact FO']|]. split; [congruence|]. split; [|auto].
    intros _ k m I. pose proof (r_keys _ R' _ _ I). destruct (i_map _ _ _ _ C' k m I) as (-> & W & X). destruct (wfm_last m W). lia.
  - assert (EI : inserted ops' = inserted ops) by (unfold ops'; rewrite inserted_app; apply app_nil_r). rewrite EI in *. unfold buf_timer.
    destruct (b_timer b) as [t|]; [|exists b; split; [reflexivity|]; split; [constructor; [rewrite EI; exact C1|exact RS|exact FO']|]; split; [auto|]; split; [discriminate|auto]].
    destruct (t <=? now); [|exists b; split; [reflexivity|]; split; [constructor; [rewrite EI; exact C1|exact RS|exact FO']|]; split; [auto|]; split; [discriminate|auto]].
    destruct (try_core (inserted ops) R now _ (timer_off_core _ _ _ _ C1) HP) as (b' & E & C' & R' & _ & O & _ & P).
    exists b'. cbn in O, P. split; [exact E|]. split; [constructor; [rewrite EI; exact C'|exact R'|rewrite P; exact FO']|]. split; [congruence|]. split; [discriminate|auto].
  - assert (EI : inserted ops' = inserted ops) by (unfold ops'; rewrite inserted_app; apply app_nil_r). rewrite EI in *.
    destruct (period_core (inserted ops) R now b v C1 RS) as (C' & R' & O & P). eexists. split; [reflexivity|]. split; [constructor; [rewrite EI; exact C'|exact R'|]|].
    + intros p Q. destruct P as [P|(p' & [(-> & P)|P])]; [apply FO'; congruence| |congruence]. rewrite P in Q. injection Q as <-. exists p'. split; [reflexivity|]. right. exists now. apply in_or_app. right. left. reflexivity.
    + split; [congruence|]. split; [discriminate|auto].
  - assert (EI : inserted ops' = inserted ops) by (unfold ops'; rewrite inserted_app; apply app_nil_r). rewrite EI in *.
    destruct (close_core (inserted ops) R now b C1) as (C' & R'). eexists. split; [reflexivity|]. split; [constructor; [rewrite EI; exact C'|exact R'|exact FO']|]. split; [discriminate|]. split; [discriminate|congruence].
Qed.
Lemma good_init : forall high period t0, 0 <= high < U64MAX -> Good period [] t0 (buf_init high period).
Proof.
  intros high period t0 H. unfold buf_init. constructor.
  - constructor; cbn [b_csn b_thru b_high b_period b_timer b_map b_list b_open b_out inserted flat_map map]; try (intros; contradiction); try (unfold U64MAX in *; lia); try (intros; discriminate); try apply NoDup_nil; try apply SSorted_nil.
    + intros p P. destruct period; [|discriminate]. injection P as <-. lia.
    + exists []. split; [constructor|auto].
    + intros pre m l post E. destruct pre; discriminate.
    + intros _. split; [intros m l []|auto].
    + intros pre m l post E. destruct pre; discriminate.
    + intros _. exists 0. split; [left; reflexivity|]. split; [lia|constructor].
  - constructor; cbn; [intros; contradiction|intros; congruence].
  - intros p P. cbn in P. destruct period as [p'|]; [|discriminate]. injection P as <-. exists p'. auto.
Qed.
Lemma nodup_prefix : forall (a b : list (Z * bop)), NoDup (map q_seq (inserted (a ++ b))) -> NoDup (map q_seq (inserted a)).
Proof.
  intros a b H. rewrite inserted_app, map_app in H. induction (map q_seq (inserted a)) as [|x l IH]; [constructor|]. cbn [app] in H. inversion H; subst. constructor; [intros I; apply H2; apply in_or_app; auto|auto].
Qed.
Lemma good_run : forall more period ops t0 b, Good period ops t0 b -> clock t0 more -> Forall fits more -> NoDup (map q_seq (inserted (ops ++ more))) ->
  exists b', brun never more b = Ok b' /\ Good period (ops ++ more) (clock_end t0 more) b' /\ (Forall (fun e => snd e <> BClose) more -> b_open b' = b_open b)
    /\ (forall pre t, more = pre ++ [(t, BFlush)] -> b_map b' = []).
Proof.
  induction more as [|[now o] more IH]; intros period ops t0 b G CL F ND; cbn [brun clock_end].
  - exists b. rewrite app_nil_r. ands; auto. intros pre t E. destruct pre; discriminate.
  - cbn [clock] in CL. destruct CL as (CL & CL'). inversion F as [|? ? F0 F']; subst.
    assert (EA : ops ++ (now, o) :: more = (ops ++ [(now, o)]) ++ more) by (rewrite <- app_assoc; reflexivity). rewrite EA in *.
    destruct (good_step period ops t0 b now o G CL F0 (nodup_prefix _ _ ND)) as (b1 & E1 & G1 & O1 & FL & O2). rewrite E1. cbn [rbind].
    destruct (IH period (ops ++ [(now, o)]) now b1 G1 CL' F' ND) as (b' & E' & G' & O' & FL'). exists b'. split; [exact E'|]. split; [exact G'|]. split.
    + intros N. inversion N as [|? ? N0 N']; subst. rewrite O', O2; auto.
    + intros pre t E. destruct pre as [|e pre].
      * injection E as <- -> ->. cbn in E'. injection E' as <-. destruct (b_map b1) as [|[k m] l] eqn:EM; [reflexivity|]. exfalso. apply (FL eq_refl k m). left. reflexivity.
      * injection E as _ E. apply (FL' pre t E).
Qed.

Section Results.
Variables (high t0 : Z) (period : option Z) (ops : list (Z * bop)) (b : rbuf).
Hypotheses (HH : 0 <= high < U64MAX) (CL : clock t0 ops) (F : Forall fits ops) (ND : NoDup (map q_seq (inserted ops))) (RUN : brun never ops (buf_init high period) = Ok b).
Lemma run_good : Good period ops (clock_end t0 ops) b.
Proof. destruct (good_run ops period [] t0 _ (good_init high period t0 HH) CL F ND) as (b' & E & G & _). rewrite RUN in E. injection E as <-. exact G. Qed.
Lemma run_once : exists rest, Permutation (inserted ops) (map fst (b_out b) ++ rest).
Proof. destruct (i_perm _ _ _ _ (g_core _ _ _ _ run_good)) as (lost & P & _). eauto. Qed.
Lemma run_late : truthful (b_out b).
Proof. exact (i_late _ _ _ _ (g_core _ _ _ _ run_good)). Qed.
Lemma run_gap : forall pre m l post, b_out b = pre ++ (m, l) :: post -> no_gap pre m \/ exists n, may_skip period ops (clock_end t0 ops) n /\ q_seq m <= n + 1.
Proof. exact (i_gap _ _ _ _ (g_core _ _ _ _ run_good)). Qed.
Lemma run_flush : forall pre t, ops = pre ++ [(t, BFlush)] -> Forall (fun e => snd e <> BClose) ops -> Permutation (inserted ops) (map fst (b_out b)).
Proof.
  intros pre t E N. destruct (good_run ops period [] t0 _ (good_init high period t0 HH) CL F ND) as (b' & E' & G & O & M). rewrite RUN in E'. injection E' as <-.
  destruct (i_perm _ _ _ _ (g_core _ _ _ _ G)) as (lost & P & L). rewrite (M pre t E) in P. rewrite L in P by (rewrite O by exact N; reflexivity). cbn [map app] in P. rewrite app_nil_r in P. exact P.
Qed.
Lemma run_hold : forall m p, Forall (fun e => snd e <> BClose) ops -> In m (inserted ops) -> ~ In m (map fst (b_out b)) -> b_period b = Some p ->
  (forall t, b_timer b = Some t -> clock_end t0 ops < t) -> clock_end t0 ops < q_time m + p.
Proof.
  intros m p N I NI P T. destruct (good_run ops period [] t0 _ (good_init high period t0 HH) CL F ND) as (b' & E' & G & O & M). rewrite RUN in E'. injection E' as <-.
  destruct G as [G GR _]. destruct (i_perm _ _ _ _ G) as (lost & PM & L). rewrite L in PM by (rewrite O by exact N; reflexivity). rewrite app_nil_r in PM.
  apply (Permutation_in _ PM) in I. apply in_app_or in I as [I|I]; [contradiction|]. apply in_map_iff in I as ([k m'] & <- & I). cbn [snd] in *.
  destruct (i_back _ _ _ _ G k m' I) as [J|J]; [|pose proof (r_keys _ GR _ _ I); lia].
  assert (NE : b_list b <> []) by (intros X; rewrite X in J; exact J). pose proof (r_timer _ GR p P NE) as TN. destruct (b_timer b) as [t|] eqn:ET; [|contradiction].
  specialize (T t eq_refl). pose proof (i_timer _ _ _ _ G t p m' ET P J). lia.
Qed.
End Results.
Lemma run_defined : forall high t0 period ops, 0 <= high < U64MAX -> clock t0 ops -> Forall fits ops -> NoDup (map q_seq (inserted ops)) ->
  exists b, brun never ops (buf_init high period) = Ok b.
Proof. intros high t0 period ops HH CL F ND. destruct (good_run ops period [] t0 _ (good_init high period t0 HH) CL F ND) as (b' & E & _). eauto. Qed.
