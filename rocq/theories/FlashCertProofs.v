From Verif Require Import Base BaseFacts VLU VLUSpec VLUProofs Hex HexSpec HexProofs FlashCert FlashCertSpec.
Ltac Zify.zify_post_hook ::= Z.div_mod_to_equations.

Lemma eq_bytes_iff : forall a b, eq_bytes a b = true <-> a = b.
Proof.
  induction a as [|x a IH]; intros [|y b]; cbn [eq_bytes]; try (split; [discriminate|congruence]); [split; reflexivity|].
  rewrite andb_true_iff, Z.eqb_eq, IH. split; [intros (-> & ->); reflexivity|intros E; injection E; auto].
Qed.

(** ** Items *)
(** What Option::parse answers for an item *)
Definition item_parsed (i : item) (n : nat) : Z * option (list Z) * nat :=
  match i with None => (0, None, n) | Some (ty, v) => (Z.min ty U64MAX, Some v, n) end.

Lemma item_length : forall i w, item_wire i w -> (1 <= length w)%nat.
Proof.
  intros i w H. destruct H as [L C _|ty v w W]; [apply complete_vlu_length, C|]. destruct W as [ty v L T CL CT _ _]. pose proof (complete_vlu_length _ CL). rewrite app_length. lia.
Qed.
Lemma items_length : forall is l, items_wire is l -> (length is <= length l)%nat.
Proof. induction 1 as [|i w is ws H _ IH]; [cbn; lia|]. rewrite app_length. pose proof (item_length _ _ H). cbn [length]. lia. Qed.
Lemma zlen_app' : forall (a b : list Z), zlen (a ++ b) = zlen a + zlen b.
Proof. intros. unfold zlen. rewrite app_length. lia. Qed.

(** An item as length prefix and payload *)
Lemma item_shape : forall i w, item_wire i w -> exists L p, w = L ++ p /\ complete_vlu L /\ groups_value L = zlen p
  /\ match i with None => p = [] | Some (ty, v) => exists T, complete_vlu T /\ p = T ++ v /\ groups_value T = ty end.
Proof.
  intros i w H. destruct H as [L C G|ty v w W].
  - exists L, []. rewrite app_nil_r. auto.
  - destruct W as [ty v L T CL CT GL GT]. exists L, (T ++ v). split; [reflexivity|]. split; [exact CL|]. split; [rewrite zlen_app'; exact GL|]. eauto.
Qed.
Lemma app_len_inj : forall (a b c d : list Z), a ++ b = c ++ d -> length a = length c -> a = c /\ b = d.
Proof. induction a as [|x a IH]; intros b [|y c] d E L; cbn in *; try discriminate; auto. injection E as -> E. destruct (IH b c d E) as (-> & ->); auto. Qed.
Lemma item_unique : forall i w r i' w' r', item_wire i w -> item_wire i' w' -> w ++ r = w' ++ r' -> i = i' /\ w = w' /\ r = r'.
Proof.
  intros i w r i' w' r' H H' E. destruct (item_shape i w H) as (L & p & -> & CL & GL & S), (item_shape i' w' H') as (L' & p' & -> & CL' & GL' & S').
  rewrite <- !app_assoc in E. destruct (complete_vlu_prefix_unique L CL L' _ _ CL' E) as (<- & E'). rewrite GL in GL'.
  destruct (app_len_inj _ _ _ _ E') as (<- & <-); [unfold zlen in GL'; lia|]. split; [|auto].
  destruct i as [(ty & v)|], i' as [(ty' & v')|]; auto.
  - destruct S as (T & CT & -> & <-), S' as (T' & CT' & E2 & <-). destruct (complete_vlu_prefix_unique T CT T' _ _ CT' E2) as (<- & <-). reflexivity.
  - destruct S as (T & CT & -> & _). pose proof (complete_vlu_length _ CT). destruct T; [cbn in *; lia|discriminate].
  - destruct S' as (T & CT & E2 & _). subst p. pose proof (complete_vlu_length _ CT). destruct T; [cbn in *; lia|discriminate].
Qed.
Lemma item_parse : forall i w rest, item_wire i w -> bytes_ok (w ++ rest) -> zlen (w ++ rest) <= U64MAX -> option_parse (w ++ rest) = Ok (item_parsed i (length w)).
Proof.
  intros i w rest H B Z. destruct (item_shape i w H) as (L & p & -> & CL & GL & S). rewrite <- app_assoc in *. rewrite !zlen_app' in Z.
  pose proof (zlen_nonneg _ L). pose proof (zlen_nonneg _ p). pose proof (zlen_nonneg _ rest).
  apply bytes_ok_app in B as (_ & B). apply bytes_ok_app in B as (Bp & Br). unfold option_parse. rewrite vlu_parse_field_complete by (auto; lia). rewrite app_length.
  destruct i as [(ty & v)|]; cbn [item_parsed].
  - destruct S as (T & CT & -> & GT). pose proof (complete_vlu_length _ CT). destruct (Nat.eqb_spec (length (T ++ v)) 0) as [E|_]; [rewrite app_length in E; lia|].
    apply bytes_ok_app in Bp as (_ & Bv). rewrite vlu_parse_complete by assumption. rewrite GT, skipn_app_exact. reflexivity.
  - subst p. reflexivity.
Qed.
Lemma item_exists : forall l r, bytes_ok l -> zlen l <= U64MAX -> option_parse l = Ok r -> exists i w rest, l = w ++ rest /\ item_wire i w /\ r = item_parsed i (length w).
Proof.
  intros l [[ty v] n] B Z P. destruct (option_parse_bounds l ty v n B P) as (_ & _ & L & p & rest & -> & CL & GL & -> & S). rewrite !zlen_app' in Z.
  assert (1 <= zlen L) by (pose proof (complete_vlu_length _ CL); unfold zlen; lia). pose proof (zlen_nonneg _ rest).
  assert (G : groups_value L = zlen p) by lia. rewrite <- app_length. destruct v as [v|].
  - destruct S as (T & CT & -> & ->). exists (Some (groups_value T, v)), (L ++ T ++ v), rest. split; [rewrite <- !app_assoc; reflexivity|]. split; [|reflexivity].
    constructor. constructor; auto. rewrite zlen_app' in G. exact G.
  - destruct S as (-> & ->). exists None, (L ++ []), rest. split; [rewrite <- app_assoc; reflexivity|]. split; [|reflexivity]. rewrite app_nil_r. constructor; auto.
Qed.
Lemma items_inv : forall i w rest is, item_wire i w -> items_wire is (w ++ rest) -> exists is', is = i :: is' /\ items_wire is' rest.
Proof.
  intros i w rest is H X. inversion X as [E1 E2|j v js ws Hj Hjs E1 E2].
  - pose proof (item_length _ _ H). symmetry in E2. apply app_eq_nil in E2 as (-> & _). cbn in *. lia.
  - destruct (item_unique _ _ _ _ _ _ Hj H E2) as (-> & -> & ->). eauto.
Qed.
Lemma items_unique : forall is l, items_wire is l -> forall is', items_wire is' l -> is = is'.
Proof.
  induction 1 as [|i w is ws H X IH]; intros is' X'.
  - inversion X' as [|j v js ws Hj Hjs E1 E2]; [reflexivity|]. pose proof (item_length _ _ Hj). apply app_eq_nil in E2 as (-> & _). cbn in *. lia.
  - destruct (items_inv i w ws is' H X') as (js & -> & Y). rewrite (IH js Y). reflexivity.
Qed.
(** One turn of a loop over options *)
Lemma items_step : forall l, bytes_ok l -> zlen l <= U64MAX -> l <> [] ->
  (option_parse l = Rej /\ forall is, ~ items_wire is l)
  \/ (exists i w rest, l = w ++ rest /\ item_wire i w /\ option_parse l = Ok (item_parsed i (length w)) /\ bytes_ok rest /\ zlen rest <= U64MAX /\ (length rest < length l)%nat /\ skipn (length w) l = rest).
Proof.
  intros l B Z N. destruct (option_parse l) as [r| |] eqn:P.
  - right. destruct (item_exists l r B Z P) as (i & w & rest & -> & H & ->). exists i, w, rest. pose proof (item_length _ _ H).
    apply bytes_ok_app in B as (_ & B). rewrite zlen_app' in Z. pose proof (zlen_nonneg _ w). rewrite app_length, skipn_app_exact. repeat split; auto; lia.
  - left. split; [reflexivity|]. intros is X. destruct X as [|i w is ws H X]; [contradiction|]. rewrite (item_parse _ _ _ H B Z) in P. discriminate.
  - exfalso. exact (option_parse_no_UB l B P).
Qed.

Lemma nem : forall A (l : list Z) (x y : A), l <> [] -> match l with [] => x | _ :: _ => y end = y.
Proof. intros A [|b l] x y N; [contradiction|reflexivity]. Qed.
(** ** Discriminators *)
Definition epd_of (is : list item) (e : epd) : epd :=
  mkEpd (match last_value 15 is with None => e_fp e | v => v end) (match last_value 10 is with None => e_anc e | v => v end) (match last_value 0 is with None => e_host e | v => v end).
Lemma values_snoc_last : forall ty i is, last_value ty (i :: is) = match last_value ty is with Some v => Some v | None => match i with Some (t, v) => if t =? ty then Some v else None | None => None end end.
Proof.
  intros ty i is. unfold last_value. destruct i as [(t & v)|]; cbn [values]; [|destruct (rev (values ty is)); reflexivity]. destruct (t =? ty); [|destruct (rev (values ty is)); reflexivity].
  cbn [rev]. destruct (rev (values ty is)); reflexivity.
Qed.
Lemma min_eqb : forall ty k, 0 <= k < U64MAX -> (Z.min ty U64MAX =? k) = (ty =? k).
Proof. intros ty k H. destruct (Z.eqb_spec (Z.min ty U64MAX) k), (Z.eqb_spec ty k); auto; lia. Qed.
Lemma epd_loop_spec : forall fuel l e, bytes_ok l -> zlen l <= U64MAX -> (length l < fuel)%nat ->
  (forall is, items_wire is l -> epd_loop fuel l e = Ok (epd_of is e)) /\ ((forall is, ~ items_wire is l) -> epd_loop fuel l e = Rej).
Proof.
  induction fuel as [|fuel IH]; intros l e B Z F; [lia|]. destruct l as [|b l']; [|].
  { split; [|intros N; exfalso; apply (N []); constructor]. intros is X. rewrite (items_unique _ _ X [] is_nil). cbn. destruct e; reflexivity. }
  remember (b :: l') as l eqn:EL. assert (NE : l <> []) by (subst; discriminate). cbn [epd_loop]. rewrite !(nem _ l) by exact NE. clear b l' EL.
  destruct (items_step l B Z NE) as [(P & N)|(i & w & rest & -> & H & P & B' & Z' & L' & K)].
  { rewrite P. split; [intros is X; exfalso; exact (N is X)|reflexivity]. }
  rewrite P. cbn [rbind].
  set (e' := match i with Some (ty, v) => if ty =? 0 then mkEpd (e_fp e) (e_anc e) (Some v) else if ty =? 10 then mkEpd (e_fp e) (Some v) (e_host e) else if ty =? 15 then mkEpd (Some v) (e_anc e) (e_host e) else e | None => e end).
  assert (STEP : forall X : res epd, X = epd_loop fuel rest e' -> (let '(ty, value, n) := item_parsed i (length w) in match value with
     | Some v => epd_loop fuel (skipn n (w ++ rest)) (if ty =? EPD_OPTION_REQUIRED_HOSTNAME then mkEpd (e_fp e) (e_anc e) (Some v)
                        else if ty =? EPD_OPTION_ANCILLARY_DATA then mkEpd (e_fp e) (Some v) (e_host e) else if ty =? EPD_OPTION_FINGERPRINT then mkEpd (Some v) (e_anc e) (e_host e) else e)
     | None => epd_loop fuel (skipn n (w ++ rest)) e end) = X).
  { intros X ->. subst e'. destruct i as [(ty & v)|]; cbn [item_parsed]; rewrite K; [|reflexivity]. unfold EPD_OPTION_REQUIRED_HOSTNAME, EPD_OPTION_ANCILLARY_DATA, EPD_OPTION_FINGERPRINT.
    rewrite !min_eqb by (unfold U64MAX; lia). reflexivity. }
  destruct (IH rest e' B' Z' ltac:(lia)) as (I1 & I2). split.
  - intros is X. destruct (items_inv i w rest is H X) as (is' & -> & X'). rewrite (STEP _ eq_refl), (I1 _ X'). f_equal. unfold epd_of. rewrite !values_snoc_last. subst e'. clear.
    generalize (last_value 15 is') (last_value 10 is') (last_value 0 is'). intros o15 o10 o0.
    destruct i as [(ty & v)|]; [|destruct o15, o10, o0; reflexivity]. destruct (Z.eqb_spec ty 0) as [->|]; [destruct o15, o10, o0; reflexivity|]. destruct (Z.eqb_spec ty 10) as [->|]; [destruct o15, o10, o0; reflexivity|].
    destruct (Z.eqb_spec ty 15) as [->|]; destruct o15, o10, o0; reflexivity.
  - intros N. rewrite (STEP _ eq_refl). apply I2. intros is X. apply (N (i :: is)). constructor; assumption.
Qed.
Lemma items_dec : forall l, bytes_ok l -> zlen l <= U64MAX -> (exists is, items_wire is l) \/ (forall is, ~ items_wire is l).
Proof.
  intros l. remember (length l) as n eqn:E. revert l E. induction n as [n IH] using lt_wf_ind. intros l -> B Z. destruct l as [|b l']; [left; exists []; constructor|].
  destruct (items_step (b :: l') B Z ltac:(discriminate)) as [(P & N)|(i & w & rest & E & H & P & B' & Z' & L' & K)]; [right; exact N|].
  rewrite E in *. destruct (IH (length rest) ltac:(lia) rest eq_refl B' Z') as [(is & X)|N]; [left; exists (i :: is); constructor; assumption|].
  right. intros is X. destruct (items_inv i w rest is H X) as (is' & _ & X'). exact (N is' X').
Qed.
(** Selection by an endpoint's criteria, for any endpoint *)
Definition decide (e : epd) (en : endpoint) : bool :=
  match e_fp e with
  | Some f => eq_bytes f (en_fp en)
  | None => match e_host e with None => true | Some h => match en_host en with None => false | Some m => eq_bytes m h end end && match e_anc e with None => true | Some d => en_anc en d end
  end.
Lemma epd_parse_spec : forall l, bytes_ok l -> zlen l <= U64MAX ->
  (forall is, items_wire is l -> epd_parse l = match last_value 15 is, last_value 10 is, last_value 0 is with None, None, None => Rej | _, _, _ => Ok (epd_of is epd_init) end)
  /\ ((forall is, ~ items_wire is l) -> epd_parse l = Rej).
Proof.
  intros l B Z. unfold epd_parse. destruct (epd_loop_spec (S (length l)) l epd_init B Z ltac:(lia)) as (H1 & H2). split.
  - intros is X. rewrite (H1 _ X). cbn [rbind]. unfold epd_of, epd_init. cbn [e_fp e_anc e_host]. destruct (last_value 15 is), (last_value 10 is), (last_value 0 is); reflexivity.
  - intros N. rewrite (H2 N). reflexivity.
Qed.
Lemma selection_spec : forall (sel : res bool) l en, bytes_ok l -> zlen l <= U64MAX ->
  sel = match epd_parse l with UB => UB | Rej => Ok false | Ok e => Ok (decide e en) end ->
  exists b, sel = Ok b /\ (b = true <-> exists is, items_wire is l /\ selects is en).
Proof.
  intros sel l en B Z ->. destruct (epd_parse_spec l B Z) as (H1 & H2). destruct (items_dec l B Z) as [(is & X)|N].
  - rewrite (H1 is X).
    assert (S : forall b, (b = true <-> selects is en) -> (b = true <-> exists is', items_wire is' l /\ selects is' en)).
    { intros b E. rewrite E. split; [eauto|]. intros (is' & X' & Y). rewrite (items_unique is l X is' X'). exact Y. }
    unfold selects in *. unfold decide, epd_of, epd_init. cbn [e_fp e_anc e_host].
    destruct (last_value 15 is) as [f|]; [eexists; split; [reflexivity|apply S, eq_bytes_iff]|].
    destruct (last_value 10 is) as [d|], (last_value 0 is) as [h|]; eexists; (split; [reflexivity|apply S]); cbn [e_fp e_anc e_host]; rewrite ?andb_true_iff.
    + destruct (en_host en) as [m|]; [rewrite eq_bytes_iff|]; split.
      * intros (-> & A). split; [left; discriminate|]. split; intros ? E; injection E as <-; [reflexivity|exact A].
      * intros (_ & HH & HA). specialize (HH h eq_refl). injection HH as ->. auto.
      * intros (? & _). discriminate.
      * intros (_ & HH & _). specialize (HH h eq_refl). discriminate.
    + split; [intros (_ & A); split; [right; discriminate|]; split; intros ? E; [discriminate|injection E as <-; exact A]|]. intros (_ & _ & HA). auto.
    + destruct (en_host en) as [m|]; [rewrite eq_bytes_iff|]; split.
      * intros (-> & _). split; [left; discriminate|]. split; intros ? E; [injection E as <-; auto|discriminate].
      * intros (_ & HH & _). specialize (HH h eq_refl). injection HH as ->. auto.
      * intros (? & _). discriminate.
      * intros (_ & HH & _). specialize (HH h eq_refl). discriminate.
    + split; [discriminate|]. intros ([C|C] & _); contradiction.
  - rewrite (H2 N). exists false. split; [reflexivity|]. split; [discriminate|]. intros (is & X & _). exfalso. exact (N is X).
Qed.
Definition adapter_end (a : fadapter) (onAnc : option (list Z -> bool)) : endpoint :=
  mkEnd (fa_fp a) (fa_host a) (fun d => fa_server a && match onAnc with Some f => f d | None => true end).
Lemma adapter_select : forall a onAnc l, bytes_ok l -> zlen l <= U64MAX ->
  exists b, adapter_selected a onAnc l = Ok b /\ (b = true <-> exists is, items_wire is l /\ selects is (adapter_end a onAnc)).
Proof.
  intros a onAnc l B Z. apply selection_spec; auto. unfold adapter_selected. destruct (epd_parse l) as [e| |]; auto. unfold decide, adapter_end. cbn [en_fp en_host en_anc].
  destruct (e_fp e); [reflexivity|]. destruct (match e_host e with Some h => match fa_host a with Some m => eq_bytes m h | None => false end | None => true end); cbn [negb andb]; [|reflexivity].
  destruct (e_anc e); [|reflexivity]. destruct (fa_server a); reflexivity.
Qed.

(** ** Certificates *)
Lemma bm_first : forall ty is, first_value ty (before_marker is) = match is with [] => None | None :: _ => None | Some (t, v) :: r => if t =? ty then Some v else first_value ty (before_marker r) end.
Proof. intros ty [|[(t & v)|] r]; cbn [before_marker]; try reflexivity. unfold first_value. cbn [values]. destruct (t =? ty); reflexivity. Qed.
Definition has (ty : Z) (is : list item) : bool := match first_value ty is with None => false | _ => true end.
(** the length of what is hashed: everything up to and including the first marker *)
Fixpoint canonical (is : list item) (l : list Z) : Prop :=
  match is with
  | [] => l = []
  | None :: _ => item_wire None l
  | i :: r => exists w l', l = w ++ l' /\ item_wire i w /\ canonical r l'
  end.
Lemma cert_after : forall fuel l h a s e n, bytes_ok l -> zlen l <= U64MAX -> (length l < fuel)%nat ->
  (forall is, items_wire is l -> cert_loop fuel l h a s e true n = Ok (h, a, s, e, n)) /\ ((forall is, ~ items_wire is l) -> cert_loop fuel l h a s e true n = Rej).
Proof.
  induction fuel as [|fuel IH]; intros l h a s e n B Z F; [lia|]. destruct l as [|b l']; [|].
  { split; [reflexivity|]. intros N. exfalso. apply (N []). constructor. }
  remember (b :: l') as l eqn:EL. assert (NE : l <> []) by (subst; discriminate). cbn [cert_loop]. rewrite !(nem _ l) by exact NE. clear b l' EL.
  destruct (items_step l B Z NE) as [(P & N)|(i & w & rest & -> & H & P & B' & Z' & L' & K)].
  { rewrite P. split; [intros is X; exfalso; exact (N is X)|reflexivity]. }
  rewrite P. cbn [rbind]. destruct (IH rest h a s e n B' Z' ltac:(lia)) as (I1 & I2).
  replace (let '(ty, value, n0) := item_parsed i (length w) in match value with
    | Some _ => cert_loop fuel (skipn n0 (w ++ rest)) h a s e true n | None => cert_loop fuel (skipn n0 (w ++ rest)) h a s e true n end) with (cert_loop fuel rest h a s e true n)
    by (destruct i as [(ty & v)|]; cbn [item_parsed]; rewrite K; reflexivity).
  split; [intros is X; destruct (items_inv i w rest is H X) as (is' & -> & X'); exact (I1 _ X')|]. intros N. apply I2. intros is X. apply (N (i :: is)). constructor; assumption.
Qed.
Lemma has_cons : forall ty t v r, has ty (before_marker (Some (t, v) :: r)) = ((t =? ty) || has ty (before_marker r)).
Proof. intros. unfold has. rewrite bm_first. destruct (t =? ty); reflexivity. Qed.
Lemma cert_loop_spec : forall fuel l h a s e n, bytes_ok l -> zlen l <= U64MAX -> (length l < fuel)%nat ->
  (forall is, items_wire is l -> exists c, canonical is c /\ (exists r, l = c ++ r) /\
     cert_loop fuel l h a s e false n = Ok (h || has 0 (before_marker is), a || has 10 (before_marker is), s || has 29 (before_marker is), e || has 21 (before_marker is), (n + length c)%nat))
  /\ ((forall is, ~ items_wire is l) -> cert_loop fuel l h a s e false n = Rej).
Proof.
  induction fuel as [|fuel IH]; intros l h a s e n B Z F; [lia|]. destruct l as [|b l']; [|].
  { split; [|intros N; exfalso; apply (N []); constructor]. intros is X. rewrite (items_unique _ _ X [] is_nil). exists []. split; [reflexivity|]. split; [exists []; reflexivity|].
    cbn. rewrite !orb_false_r, Nat.add_0_r. reflexivity. }
  remember (b :: l') as l eqn:EL. assert (NE : l <> []) by (subst; discriminate). cbn [cert_loop]. rewrite !(nem _ l) by exact NE. clear b l' EL.
  destruct (items_step l B Z NE) as [(P & N)|(i & w & rest & -> & H & P & B' & Z' & L' & K)].
  { rewrite P. split; [intros is X; exfalso; exact (N is X)|reflexivity]. }
  rewrite P. cbn [rbind]. destruct i as [(ty & v)|]; cbn [item_parsed]; rewrite K.
  - unfold CERT_OPTION_HOSTNAME, CERT_OPTION_ACCEPTS_ANCILLARY_DATA, CERT_OPTION_SUPPORTED_DH_GROUP, CERT_OPTION_DH_PUBLIC_KEY. rewrite !min_eqb by (unfold U64MAX; lia).
    destruct (IH rest (h || (ty =? 0)) (a || (ty =? 10)) (s || (ty =? 29)) (e || (ty =? 21)) (n + length w)%nat B' Z' ltac:(lia)) as (I1 & I2).
    assert (STEP : (if ty =? 0 then cert_loop fuel rest true a s e false (n + length w) else if ty =? 10 then cert_loop fuel rest h true s e false (n + length w)
       else if ty =? 21 then cert_loop fuel rest h a s true false (n + length w) else if ty =? 29 then cert_loop fuel rest h a true e false (n + length w) else cert_loop fuel rest h a s e false (n + length w))
       = cert_loop fuel rest (h || (ty =? 0)) (a || (ty =? 10)) (s || (ty =? 29)) (e || (ty =? 21)) false (n + length w)).
    { destruct (Z.eqb_spec ty 0) as [->|]; [rewrite orb_true_r, !orb_false_r; reflexivity|]. destruct (Z.eqb_spec ty 10) as [->|]; [rewrite orb_true_r, !orb_false_r; reflexivity|].
      destruct (Z.eqb_spec ty 21) as [->|]; [rewrite orb_true_r, !orb_false_r; reflexivity|]. destruct (Z.eqb_spec ty 29) as [->|]; [rewrite orb_true_r, !orb_false_r; reflexivity|]. rewrite !orb_false_r. reflexivity. }
    rewrite STEP. split.
    + intros is X. destruct (items_inv _ w rest is H X) as (is' & -> & X'). destruct (I1 _ X') as (c & C & (r & ->) & ->). exists (w ++ c). split; [exists w, c; auto|]. split; [exists r; rewrite app_assoc; reflexivity|].
      rewrite !has_cons, !orb_assoc, app_length, Nat.add_assoc. reflexivity.
    + intros N. apply I2. intros is X. apply (N (Some (ty, v) :: is)). constructor; assumption.
  - destruct (cert_after fuel rest h a s e (n + length w) B' Z' ltac:(lia)) as (I1 & I2). split.
    + intros is X. destruct (items_inv _ w rest is H X) as (is' & -> & X'). exists w. split; [exact H|]. split; [exists rest; reflexivity|]. rewrite (I1 _ X'). cbn. rewrite !orb_false_r. reflexivity.
    + intros N. apply I2. intros is X. apply (N (None :: is)). constructor; assumption.
Qed.
Lemma search_spec : forall ty, 0 <= ty < U64MAX -> forall fuel l is, bytes_ok l -> zlen l <= U64MAX -> (length l < fuel)%nat -> items_wire is l ->
  option_search fuel l ty = match first_value ty (before_marker is) with Some v => Ok v | None => Rej end.
Proof.
  intros ty T. induction fuel as [|fuel IH]; intros l is B Z F X; [lia|]. destruct X as [|i w is ws H X]; [reflexivity|].
  rewrite bm_first. cbn [option_search]. rewrite (item_parse i w ws H B Z). cbn [rbind]. pose proof (item_length _ _ H). rewrite app_length in F. apply bytes_ok_app in B as (_ & B).
  rewrite zlen_app' in Z. pose proof (zlen_nonneg _ w). destruct i as [(t & v)|]; cbn [item_parsed].
  - destruct (w ++ ws) eqn:E; [apply app_eq_nil in E as (-> & _); cbn in *; lia|rewrite <- E; clear E]. rewrite min_eqb by exact T. destruct (t =? ty); [reflexivity|].
    rewrite skipn_app_exact. apply IH; auto; lia.
  - destruct (w ++ ws) eqn:E; [apply app_eq_nil in E as (-> & _); cbn in *; lia|reflexivity].
Qed.
(** A certificate is accepted exactly if its options are well formed and it says how to make a key in one way *)
Definition cert_says (sha : list Z -> list Z) (is : list item) (c : list Z) : endpoint :=
  mkEnd (sha c) (first_value 0 (before_marker is)) (fun _ => has 10 (before_marker is)).
Lemma cert_init_spec : forall sha l, bytes_ok l -> zlen l <= U64MAX -> cert_init sha l <> UB /\
  (forall fc, cert_init sha l = Ok fc <-> exists is c r, items_wire is l /\ canonical is c /\ l = c ++ r /\ has 29 (before_marker is) = negb (has 21 (before_marker is))
     /\ fc = mkFC l (has 0 (before_marker is)) (has 10 (before_marker is)) (has 29 (before_marker is)) (sha c)).
Proof.
  intros sha l B Z. unfold cert_init. destruct (cert_loop_spec (S (length l)) l false false false false 0 B Z ltac:(lia)) as (H1 & H2). destruct (items_dec l B Z) as [(is & X)|N].
  - destruct (H1 is X) as (c & C & (r & El) & ->). cbn [rbind orb Nat.add].
    assert (CU : forall is c c', canonical is c -> canonical is c' -> (exists r, l = c ++ r) -> (exists r, l = c' ++ r) -> c = c').
    { clear. intros is c c'. revert l c c'. induction is as [|[(t & v)|] is IH]; intros l c c'; cbn [canonical].
      - intros -> ->. reflexivity.
      - intros (w & l1 & -> & W & C) (w' & l2 & -> & W' & C') (r & ->) (r' & E). rewrite <- !app_assoc in E. destruct (item_unique _ _ _ _ _ _ W W' E) as (_ & -> & E'). f_equal. eapply IH; eauto.
      - intros W W' (r & ->) (r' & E). destruct (item_unique _ _ _ _ _ _ W W' E) as (_ & -> & _). reflexivity. }
    assert (FN : firstn (length c) l = c) by (rewrite El; apply firstn_app_exact). rewrite FN.
    assert (EQ : Bool.eqb (has 29 (before_marker is)) (has 21 (before_marker is)) = false <-> has 29 (before_marker is) = negb (has 21 (before_marker is))).
    { destruct (has 29 (before_marker is)), (has 21 (before_marker is)); cbn; split; auto; discriminate. }
    destruct (Bool.eqb (has 29 (before_marker is)) (has 21 (before_marker is))).
    + split; [discriminate|]. intros fc. split; [discriminate|]. intros (is' & c' & r' & X' & _ & _ & E & _). exfalso. rewrite <- (items_unique is l X is' X') in E. apply EQ in E. discriminate.
    + split; [discriminate|]. intros fc. split.
      * intros E. injection E as <-. exists is, c, r. repeat split; auto. apply EQ. reflexivity.
      * intros (is' & c' & r' & X' & C' & E' & _ & ->). rewrite <- (items_unique is l X is' X') in *. rewrite (CU is c c'); eauto.
  - rewrite (H2 N). cbn [rbind]. split; [discriminate|]. intros fc. split; [discriminate|]. intros (is & c & r & X & _). exfalso. exact (N is X).
Qed.
Lemma cert_select : forall sha cert fc, bytes_ok cert -> zlen cert <= U64MAX -> cert_init sha cert = Ok fc -> forall l, bytes_ok l -> zlen l <= U64MAX ->
  exists is c r, items_wire is cert /\ canonical is c /\ cert = c ++ r /\
  exists b, cert_selected fc l = Ok b /\ (b = true <-> exists js, items_wire js l /\ selects js (cert_says sha is c)).
Proof.
  intros sha cert fc B Z E l Bl Zl. apply cert_init_spec in E; auto. destruct E as (is & c & r & X & C & Ec & _ & ->). exists is, c, r. split; [exact X|]. split; [exact C|]. split; [exact Ec|].
  apply selection_spec; auto. unfold cert_selected. cbn [fc_raw fc_hasHost fc_anc fc_fp]. destruct (epd_parse l) as [e| |]; auto. unfold decide, cert_says. cbn [en_fp en_host en_anc].
  destruct (e_fp e); [reflexivity|]. destruct (e_host e) as [h|]; [|destruct (e_anc e); reflexivity]. unfold CERT_OPTION_HOSTNAME. rewrite (search_spec 0 ltac:(unfold U64MAX; lia) _ _ is B Z (Nat.lt_succ_diag_r _) X).
  unfold has. destruct (first_value 0 (before_marker is)) as [hn|]; cbn [negb]; [|reflexivity]. destruct (eq_bytes hn h); [destruct (e_anc e); reflexivity|reflexivity].
Qed.

(** ** The certificate an adapter makes, and the discriminators made *)
Lemma items_snoc : forall is l i w, items_wire is l -> item_wire i w -> items_wire (is ++ [i]) (l ++ w).
Proof.
  induction 1 as [|j v is ws Hj X IH]; intros W; cbn [app]; [rewrite <- (app_nil_r w); constructor; [exact W|constructor]|]. rewrite <- app_assoc. constructor; auto.
Qed.
Lemma items_option : forall is l ty v, items_wire is l -> option_ok (ty, v) -> items_wire (is ++ [Some (ty, v)]) (option_append ty v l) /\ zlen (option_append ty v l) <= zlen l + zlen v + 20.
Proof.
  intros is l ty v X (T & B & L). cbn [fst snd] in *. destruct (option_append_wire ty v l T ltac:(unfold U64MAX in *; lia)) as (w & -> & W & WL). split; [|rewrite zlen_app'; lia]. apply items_snoc; [exact X|]. constructor. exact W.
Qed.
Lemma option_bytes : forall ty v l, bytes_ok l -> option_ok (ty, v) -> bytes_ok (option_append ty v l).
Proof. intros ty v l B (T & V & L). apply option_bytes_ok; auto. Qed.
Definition adapter_items (server eph : bool) (host : option (list Z)) (pk rnd : list Z) : list item :=
  ((match host with Some h => [Some (0, h)] | None => [] end) ++ (if server then [Some (10, [])] else []))
  ++ (if eph then [Some (21, [2]); Some (14, rnd)] else [Some (29, 2 :: pk)]).
Lemma adapter_cert : forall sha server eph host pk rnd, (forall h, host = Some h -> bytes_ok h /\ zlen h <= 2 ^ 61) -> bytes_ok pk -> bytes_ok rnd -> zlen pk <= 2 ^ 61 -> zlen rnd <= 2 ^ 61 ->
  let a := adapter_init sha server eph host pk rnd in
  items_wire (adapter_items server eph host pk rnd) (fa_cert a) /\ bytes_ok (fa_cert a) /\ zlen (fa_cert a) <= U64MAX /\ fa_fp a = sha (fa_cert a) /\ fa_host a = host /\ fa_server a = server.
Proof.
  intros sha server eph host pk rnd HH BP BR LP LR a. pose proof (zlen_nonneg _ pk). pose proof (zlen_nonneg _ rnd).
  assert (A : forall is l ty v b, items_wire is l /\ bytes_ok l /\ zlen l <= b -> is_u64 ty -> bytes_ok v -> zlen v <= 2 ^ 61 + 1 ->
     items_wire (is ++ [Some (ty, v)]) (option_append ty v l) /\ bytes_ok (option_append ty v l) /\ zlen (option_append ty v l) <= b + 2 ^ 61 + 21).
  { intros is l ty v b (X & B & L) T V LV. assert (O : option_ok (ty, v)) by (split; [exact T|]; split; [exact V|]; cbn [snd]; unfold U64MAX; lia).
    destruct (items_option is l ty v X O) as (Y & YL). split; [exact Y|]. split; [apply option_bytes; auto|]. lia. }
  subst a. unfold adapter_init, adapter_items, CERT_OPTION_HOSTNAME, CERT_OPTION_ACCEPTS_ANCILLARY_DATA, CERT_OPTION_EXTRA_RANDOMNESS, CERT_OPTION_SUPPORTED_DH_GROUP, CERT_OPTION_DH_PUBLIC_KEY. cbn [fa_cert fa_fp fa_host fa_server].
  assert (N : items_wire [] [] /\ bytes_ok [] /\ zlen (@nil Z) <= 0) by (split; [constructor|]; split; [constructor|reflexivity]).
  set (c1 := match host with Some h => option_append 0 h [] | None => [] end). set (i1 := match host with Some h => [Some (0, h)] | None => [] end).
  assert (H1 : items_wire i1 c1 /\ bytes_ok c1 /\ zlen c1 <= 2 ^ 61 + 21).
  { subst c1 i1. destruct host as [h|]; [|destruct N as (? & ? & ?); split; [assumption|split; [assumption|lia]]]. destruct (HH h eq_refl) as (Bh & Lh). apply (A [] [] 0 h 0 N); auto; try lia. unfold is_u64, U64MAX. lia. }
  set (c2 := if server then option_append 10 [] c1 else c1). set (i2 := i1 ++ if server then [Some (10, [])] else []).
  assert (H2 : items_wire i2 c2 /\ bytes_ok c2 /\ zlen c2 <= 2 * 2 ^ 61 + 42).
  { subst c2 i2. destruct server; [|rewrite app_nil_r; destruct H1 as (? & ? & ?); split; [assumption|split; [assumption|lia]]]. destruct (A i1 c1 10 [] _ H1) as (? & ? & ?); [unfold is_u64, U64MAX; lia|constructor|cbn; lia|]. split; [assumption|split; [assumption|lia]]. }
  clearbody c2 i2. clear c1 i1 H1.
  destruct eph.
  - unfold option_append_vlu. change (vlu_encode 2) with [2].
    assert (H3 := A i2 c2 21 [2] _ H2 ltac:(unfold is_u64, U64MAX; lia) ltac:(apply bytes_okb_ok; reflexivity) ltac:(cbn; lia)).
    assert (H4 := A _ _ 14 rnd _ H3 ltac:(unfold is_u64, U64MAX; lia) BR ltac:(lia)). rewrite <- app_assoc in H4. destruct H4 as (? & ? & ?). split; [assumption|split; [assumption|split; [unfold U64MAX; lia|auto]]].
  - change (vlu_append 2 []) with [2]. cbn [app].
    assert (LQ : zlen (2 :: pk) <= 2 ^ 61 + 1) by (rewrite zlen_cons; lia).
    assert (BQ : bytes_ok (2 :: pk)) by (constructor; [unfold is_byte; lia|exact BP]).
    assert (H3 := A i2 c2 29 (2 :: pk) _ H2 ltac:(unfold is_u64, U64MAX; lia) BQ LQ). destruct H3 as (? & ? & ?). split; [assumption|split; [assumption|split; [unfold U64MAX; lia|auto]]].
Qed.
Lemma no_marker_canonical : forall is l, items_wire is l -> Forall (fun i => i <> None) is -> canonical is l /\ before_marker is = is.
Proof.
  induction 1 as [|i w is ws H X IH]; intros F; [split; reflexivity|]. inversion F as [|? ? N F']; subst. destruct (IH F') as (C & E). destruct i as [(t & v)|]; [|contradiction]. split; [exists w, ws; auto|cbn [before_marker]; rewrite E; reflexivity].
Qed.
(** The peer decodes an adapter's certificate to a certificate with the adapter's fingerprint, hostname and role. *)
Lemma cert_of_adapter : forall sha server eph host pk rnd, (forall h, host = Some h -> bytes_ok h /\ zlen h <= 2 ^ 61) -> bytes_ok pk -> bytes_ok rnd -> zlen pk <= 2 ^ 61 -> zlen rnd <= 2 ^ 61 ->
  let a := adapter_init sha server eph host pk rnd in
  exists fc, cert_init sha (fa_cert a) = Ok fc /\ fc_raw fc = fa_cert a /\ fc_fp fc = fa_fp a /\ fc_static fc = negb eph
  /\ forall l, bytes_ok l -> zlen l <= U64MAX -> cert_selected fc l = adapter_selected a None l.
Proof.
  intros sha server eph host pk rnd HH BP BR LP LR a. destruct (adapter_cert sha server eph host pk rnd HH BP BR LP LR) as (X & B & Z & FP & FH & FS). fold a in X, B, Z, FP, FH, FS.
  set (is := adapter_items server eph host pk rnd) in *.
  assert (NM : Forall (fun i => i <> None) is) by (subst is; unfold adapter_items; destruct host, server, eph; cbn; repeat (constructor; [discriminate|]); constructor).
  destruct (no_marker_canonical is _ X NM) as (C & BM).
  assert (ST : has 29 (before_marker is) = negb (has 21 (before_marker is)) /\ has 29 (before_marker is) = negb eph) by (rewrite BM; subst is; unfold adapter_items; destruct host, server, eph; split; reflexivity).
  destruct ST as (ST & ST').
  exists (mkFC (fa_cert a) (has 0 (before_marker is)) (has 10 (before_marker is)) (has 29 (before_marker is)) (sha (fa_cert a))). split.
  { apply cert_init_spec; auto. exists is, (fa_cert a), []. rewrite app_nil_r. auto 6. }
  split; [reflexivity|]. split; [symmetry; exact FP|]. split; [exact ST'|].
  intros l Bl Zl. unfold cert_selected, adapter_selected. cbn [fc_raw fc_hasHost fc_anc fc_fp]. rewrite FH, FS, FP. unfold CERT_OPTION_HOSTNAME. rewrite (search_spec 0 ltac:(unfold U64MAX; lia) _ _ is B Z (Nat.lt_succ_diag_r _) X), BM.
  assert (E0 : first_value 0 is = host) by (subst is; unfold adapter_items; destruct host, server, eph; reflexivity).
  assert (E10 : has 10 is = server) by (subst is; unfold adapter_items; destruct host, server, eph; reflexivity).
  unfold has at 1. rewrite E0, E10. destruct (epd_parse l) as [e| |]; auto. destruct (e_fp e); [reflexivity|]. destruct (e_host e) as [h|]; cbn [negb].
  - destruct host as [m|]; cbn [negb]; [|reflexivity]. destruct (eq_bytes m h); cbn [negb]; [|reflexivity]. destruct (e_anc e); [destruct server; reflexivity|reflexivity].
  - destruct (e_anc e); [destruct server; reflexivity|reflexivity].
Qed.
Lemma canonical_items : forall fp, bytes_ok fp -> zlen fp <= 2 ^ 61 -> items_wire [Some (15, fp)] (canonical_epd fp) /\ bytes_ok (canonical_epd fp) /\ zlen (canonical_epd fp) <= U64MAX.
Proof.
  intros fp B L. assert (O : option_ok (15, fp)) by (split; [cbn; unfold is_u64, U64MAX; lia|]; split; [exact B|cbn [snd]; unfold U64MAX; lia]).
  destruct (items_option [] [] 15 fp is_nil O) as (X & XL). split; [exact X|]. split; [apply option_bytes; [constructor|exact O]|]. change (zlen (@nil BinNums.Z)) with 0 in XL. unfold canonical_epd, EPD_OPTION_FINGERPRINT, U64MAX. lia.
Qed.
Lemma canonical_selects : forall fp en, selects [Some (15, fp)] en <-> fp = en_fp en.
Proof. intros. reflexivity. Qed.
(** makeEPD makes the discriminator it was asked for. *)
Definition wanted (fp anc host : option (list Z)) : list item :=
  (match fp with Some f => [Some (15, f)] | None => [] end) ++ (match anc with Some a => [Some (10, a)] | None => [] end) ++ (match host with Some h => [Some (0, h)] | None => [] end).
Lemma make_epd_items : forall text anc host, (forall a, anc = Some a -> option_ok (10, a)) -> (forall h, host = Some h -> option_ok (0, h)) -> ~ (text = None /\ anc = None /\ host = None) ->
  forall fp, match text with None => fp = None | Some t => exists f, fp = Some f /\ option_ok (15, f) /\ hex_decode t [] = Ok (true, f) end ->
  exists l, make_epd text anc host [] = Ok (true, l) /\ items_wire (wanted fp anc host) l /\ bytes_ok l.
Proof.
  intros text anc host HA HH N fp HT.
  set (d0 := match fp with Some f => option_append 15 f [] | None => [] end). set (d1 := match anc with Some a => option_append 10 a d0 | None => d0 end). set (d2 := match host with Some h => option_append 0 h d1 | None => d1 end).
  assert (OF : forall f, fp = Some f -> option_ok (15, f)) by (intros f ->; destruct text; [destruct HT as (f' & E & O & _); injection E as ->; exact O|discriminate]).
  assert (H0 : items_wire (match fp with Some f => [Some (15, f)] | None => [] end) d0 /\ bytes_ok d0).
  { subst d0. destruct fp as [f|]; [|split; constructor]. split; [apply (items_option [] [] 15 f is_nil), OF; reflexivity|apply option_bytes; [constructor|apply OF; reflexivity]]. }
  assert (H1 : items_wire ((match fp with Some f => [Some (15, f)] | None => [] end) ++ match anc with Some a => [Some (10, a)] | None => [] end) d1 /\ bytes_ok d1).
  { subst d1. destruct anc as [a|]; [|rewrite app_nil_r; exact H0]. split; [apply items_option; [apply H0|apply HA; reflexivity]|apply option_bytes; [apply H0|apply HA; reflexivity]]. }
  assert (H2 : items_wire (wanted fp anc host) d2 /\ bytes_ok d2).
  { subst d2. unfold wanted. rewrite app_assoc. destruct host as [h|]; [|rewrite app_nil_r; exact H1]. split; [apply items_option; [apply H1|apply HH; reflexivity]|apply option_bytes; [apply H1|apply HH; reflexivity]]. }
  exists d2. split; [|exact H2]. unfold make_epd. destruct text as [t|].
  - destruct HT as (f & -> & _ & HX). rewrite HX. cbn [rbind]. destruct anc, host; reflexivity.
  - subst fp. destruct anc, host; try reflexivity. exfalso. apply N. auto.
Qed.

(** ** Glare *)
Lemma bytes_lt_anti : forall a b, a <> b -> bytes_lt a b = negb (bytes_lt b a).
Proof.
  induction a as [|x a IH]; intros [|y b] N; cbn [bytes_lt]; try reflexivity; [contradiction|]. destruct (Z.ltb_spec x y), (Z.ltb_spec y x); try lia; try reflexivity. apply IH. intros ->. apply N. f_equal. lia.
Qed.
Lemma bytes_lt_refl : forall a, bytes_lt a a = false.
Proof. induction a as [|x a IH]; cbn [bytes_lt]; [reflexivity|]. rewrite Z.ltb_irrefl. exact IH. Qed.
