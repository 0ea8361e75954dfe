From Verif Require Import Base BaseFacts AMF AMFSpec.
Ltac Zify.zify_post_hook ::= Z.div_mod_to_equations.
Open Scope res_scope.

(** ** Numbers *)
Lemma byt_spec : forall u k, 0 <= k -> byt u k = u / 2 ^ k mod 256.
Proof. intros u k K. unfold byt. rewrite land_255, Z.shiftr_div_pow2 by exact K. reflexivity. Qed.
Lemma byt_byte : forall u k, is_byte (byt u k).
Proof. intros u k. unfold byt. rewrite land_255. unfold is_byte, U8MAX. lia. Qed.
Lemma byt_top : forall u k, 0 <= k -> 0 <= u < 256 * 2 ^ k -> byt u k = u / 2 ^ k.
Proof.
  intros u k K H. rewrite byt_spec by exact K. assert (0 < 2 ^ k) by (apply Z.pow_pos_nonneg; lia). apply Z.mod_small. split; [apply Z.div_pos; lia|].
  apply Z.div_lt_upper_bound; lia.
Qed.
Lemma acc8_byte : forall a b r, 0 <= a < 2 ^ 56 -> is_byte b -> acc8 a (b :: r) = Ok (256 * a + b, r).
Proof.
  intros a b r A B. unfold acc8, next. cbn [rbind]. rewrite Z.shiftl_mul_pow2 by lia. change (2 ^ 56) with 72057594037927936 in A. change (2 ^ 8) with 256.
  unfold wrap64, U64MAX, is_byte, U8MAX in *. f_equal. f_equal. lia.
Qed.
Lemma acc8_byt : forall u k r, 0 <= u <= U64MAX -> 0 <= k -> acc8 (u / 2 ^ (k + 8)) (byt u k :: r) = Ok (u / 2 ^ k, r).
Proof.
  intros u k r U K. assert (P : 0 < 2 ^ k) by (apply Z.pow_pos_nonneg; lia).
  assert (E : u / 2 ^ (k + 8) = u / 2 ^ k / 256). { rewrite Z.pow_add_r by lia. change (2 ^ 8) with 256. rewrite Z.div_div by lia. reflexivity. }
  assert (B : 0 <= u / 2 ^ k <= U64MAX). { split; [apply Z.div_pos; lia|]. apply Z.div_le_upper_bound; [lia|]. unfold U64MAX in *. nia. }
  rewrite E. remember (u / 2 ^ k) as w eqn:Ew. rewrite acc8_byte.
  - rewrite byt_spec by exact K. rewrite <- Ew. f_equal. f_equal. lia.
  - change (2 ^ 56) with 72057594037927936. unfold U64MAX in B. lia.
  - apply byt_byte.
Qed.
Lemma zlen_ge : forall (p r : list Z), zlen p <= zlen (p ++ r).
Proof. intros p r. rewrite zlen_app. pose proof (zlen_nonneg _ r). lia. Qed.
Ltac zl := rewrite ?zlen_app, ?zlen_cons; repeat match goal with |- context [zlen ?l] => pose proof (zlen_nonneg _ l); generalize dependent (zlen l); intros end; lia.

Lemma number_roundtrip : forall u rest, is_u64 u ->
  dec_number ([byt u 56; byt u 48; byt u 40; byt u 32; byt u 24; byt u 16; byt u 8; byt u 0] ++ rest) = Ok (Some (ANum u), rest).
Proof.
  intros u rest U. unfold is_u64 in U. unfold dec_number. cbn [app].
  replace (zlen _ <? 8) with false by (symmetry; apply Z.ltb_ge; zl).
  cbn [next rbind]. rewrite (byt_top u 56) by (unfold U64MAX in U; lia).
  rewrite (acc8_byt u 48) by lia. cbn [rbind]. rewrite (acc8_byt u 40) by lia. cbn [rbind]. rewrite (acc8_byt u 32) by lia. cbn [rbind]. rewrite (acc8_byt u 24) by lia. cbn [rbind].
  rewrite (acc8_byt u 16) by lia. cbn [rbind]. rewrite (acc8_byt u 8) by lia. cbn [rbind]. rewrite (acc8_byt u 0) by lia. cbn [rbind].
  change (2 ^ 0) with 1. rewrite Z.div_1_r. reflexivity.
Qed.
Lemma take_app : forall s r, take (zlen s) (s ++ r) = Ok (s, r).
Proof.
  intros s r. unfold take. destruct (Z.ltb_spec (zlen (s ++ r)) (zlen s)) as [X|_]; [pose proof (zlen_ge s r); lia|].
  unfold zlen. rewrite Nat2Z.id, firstn_app_exact, skipn_app_exact. reflexivity.
Qed.
Lemma len2_next : forall n r, 0 <= n < 2 ^ 16 -> (' (a, q) <- next (byt n 8 :: byt n 0 :: r);; acc8 a q) = Ok (n, r).
Proof.
  intros n r N. change (2 ^ 16) with 65536 in N. cbn [next rbind]. rewrite (byt_top n 8) by (change (2 ^ 8) with 256; lia).
  rewrite (acc8_byt n 0) by (unfold U64MAX; lia). change (2 ^ 0) with 1. rewrite Z.div_1_r. reflexivity.
Qed.
Lemma bind2 : forall (A B : Type) (l : list Z) (f : Z -> list Z -> res A), (' (n, r) <- next l;; ' (n, r) <- acc8 n r;; f n r) = (' (n, r) <- (' (n, r) <- next l;; acc8 n r);; f n r).
Proof. intros A B l f. destruct l as [|b r]; reflexivity. Qed.
Lemma len4 : forall n r, 0 <= n < 2 ^ 32 ->
  (' (n, r) <- next (byt n 24 :: byt n 16 :: byt n 8 :: byt n 0 :: r);; ' (n, r) <- acc8 n r;; ' (n, r) <- acc8 n r;; acc8 n r) = Ok (n, r).
Proof.
  intros n r N. change (2 ^ 32) with 4294967296 in N. cbn [next rbind]. rewrite (byt_top n 24) by (change (2 ^ 24) with 16777216; lia).
  rewrite (acc8_byt n 16) by (unfold U64MAX; lia). cbn [rbind]. rewrite (acc8_byt n 8) by (unfold U64MAX; lia). cbn [rbind]. rewrite (acc8_byt n 0) by (unfold U64MAX; lia). change (2 ^ 0) with 1. rewrite Z.div_1_r. reflexivity.
Qed.
Lemma bind4 : forall (A : Type) (l : list Z) (f : Z -> list Z -> res A),
  (' (n, r) <- next l;; ' (n, r) <- acc8 n r;; ' (n, r) <- acc8 n r;; ' (n, r) <- acc8 n r;; f n r)
  = (' (n, r) <- (' (n, r) <- next l;; ' (n, r) <- acc8 n r;; ' (n, r) <- acc8 n r;; acc8 n r);; f n r).
Proof.
  intros A l f. destruct l as [|b r]; [reflexivity|]. cbn [next rbind]. destruct (acc8 b r) as [[n1 r1]| |]; [|reflexivity|reflexivity]. cbn [rbind].
  destruct (acc8 n1 r1) as [[n2 r2]| |]; reflexivity.
Qed.
Lemma string_roundtrip2 : forall s rest, zlen s < 2 ^ 16 -> dec_string false (enc_key s ++ rest) = Ok (Some s, rest).
Proof.
  intros s rest S. unfold dec_string, enc_key. cbn [app].
  replace (zlen (byt (zlen s) 8 :: byt (zlen s) 0 :: s ++ rest) <? 2) with false by (symmetry; apply Z.ltb_ge; zl).
  rewrite (bind2 _ unit). rewrite len2_next by (pose proof (zlen_nonneg _ s); lia). cbn [rbind].
  replace (zlen (s ++ rest) <? zlen s) with false by (symmetry; apply Z.ltb_ge; apply zlen_ge). rewrite take_app. reflexivity.
Qed.
Lemma string_roundtrip4 : forall s rest, zlen s < 2 ^ 32 -> dec_string true ([byt (zlen s) 24; byt (zlen s) 16; byt (zlen s) 8; byt (zlen s) 0] ++ s ++ rest) = Ok (Some s, rest).
Proof.
  intros s rest S. unfold dec_string. cbn [app].
  replace (zlen (byt (zlen s) 24 :: byt (zlen s) 16 :: byt (zlen s) 8 :: byt (zlen s) 0 :: s ++ rest) <? 4) with false by (symmetry; apply Z.ltb_ge; zl).
  rewrite bind4. rewrite len4 by (pose proof (zlen_nonneg _ s); lia). cbn [rbind].
  replace (zlen (s ++ rest) <? zlen s) with false by (symmetry; apply Z.ltb_ge; apply zlen_ge). rewrite take_app. reflexivity.
Qed.

(** ** Keys *)
Lemma key_ltb_iff : forall a b, key_ltb a b = true <-> less a b.
Proof.
  induction a as [|x a IH]; intros [|y b]; cbn [key_ltb].
  - split; [discriminate|]. intros H; inversion H.
  - split; [constructor|reflexivity].
  - split; [discriminate|]. intros H; inversion H.
  - destruct (Z.ltb_spec x y) as [L|L].
    + split; [intros _; constructor; exact L|reflexivity].
    + destruct (Z.ltb_spec y x) as [L2|L2].
      * split; [discriminate|]. intros H; inversion H; subst; lia.
      * assert (x = y) by lia. subst y. rewrite IH. split; [intros H; constructor 3; exact H|]. intros H; inversion H; subst; [lia|assumption].
Qed.
Lemma less_trans : forall a b c, less a b -> less b c -> less a c.
Proof.
  intros a b c H. revert c. induction H as [y b|x a y b L|x a b H IH]; intros c K; inversion K; subst.
  - constructor.
  - constructor.
  - constructor 2; lia.
  - constructor 2; lia.
  - constructor 2; lia.
  - constructor 3. apply IH. assumption.
Qed.
Lemma less_irrefl : forall a, ~ less a a.
Proof. induction a as [|x a IH]; intros H; inversion H; subst; [lia|exact (IH H1)]. Qed.
Lemma less_total : forall a b, less a b \/ a = b \/ less b a.
Proof.
  induction a as [|x a IH]; intros [|y b].
  - right; left; reflexivity.
  - left; constructor.
  - right; right; constructor.
  - destruct (Z.lt_trichotomy x y) as [L|[->|L]]; [left; constructor 2; exact L| |right; right; constructor 2; exact L].
    destruct (IH b) as [H|[->|H]]; [left; constructor 3; exact H|right; left; reflexivity|right; right; constructor 3; exact H].
Qed.
Lemma put_end : forall m k v, Forall (fun p => less (fst p) k) m -> map_put m k v = m ++ [(k, v)].
Proof.
  induction m as [|[k' v'] m IH]; intros k v F; [reflexivity|]. inversion F; subst. cbn [fst] in *. cbn [map_put app].
  destruct (key_ltb k k') eqn:E1; [apply key_ltb_iff in E1; destruct (less_irrefl k (less_trans _ _ _ E1 H1))|].
  rewrite (proj2 (key_ltb_iff k' k) H1). rewrite IH by assumption. reflexivity.
Qed.
Lemma put_keys : forall m k v q, In q (map fst (map_put m k v)) -> q = k \/ In q (map fst m).
Proof.
  induction m as [|[k' v'] m IH]; intros k v q H; cbn [map_put map fst] in H.
  - destruct H as [<-|[]]. left; reflexivity.
  - destruct (key_ltb k k') eqn:E1; [destruct H as [<-|H]; [left; reflexivity|right; exact H]|].
    destruct (key_ltb k' k); cbn [map fst] in H; destruct H as [<-|H]; try (right; left; reflexivity).
    + destruct (IH k v q H) as [->|X]; [left; reflexivity|right; right; exact X].
    + right; right; exact H.
Qed.
Lemma put_ascending : forall m k v, ascending (map fst m) -> ascending (map fst (map_put m k v)).
Proof.
  induction m as [|[k' v'] m IH]; intros k v A; cbn [map_put map fst].
  - constructor; [constructor|constructor].
  - cbn [map fst] in A. inversion A as [|? ? F A']; subst. destruct (key_ltb k k') eqn:E1.
    + apply key_ltb_iff in E1. cbn [map fst]. constructor; [|exact A]. constructor; [exact E1|]. eapply Forall_impl; [|exact F]. intros q L. exact (less_trans _ _ _ E1 L).
    + destruct (key_ltb k' k) eqn:E2; cbn [map fst]; [|exact A]. apply key_ltb_iff in E2. constructor; [|apply IH, A'].
      apply Forall_forall. intros q Q. destruct (put_keys m k v q Q) as [->|Q']; [exact E2|]. rewrite Forall_forall in F. exact (F q Q').
Qed.
Lemma put_in : forall m k v q o, In (q, o) (map_put m k v) -> (exists q', In q' (k :: map fst m) /\ q = q' /\ o = v) \/ In (q, o) m.
Proof.
  induction m as [|[k' v'] m IH]; intros k v q o H; cbn [map_put] in H.
  - destruct H as [H|[]]. injection H as <- <-. left. exists k. split; [left; reflexivity|auto].
  - destruct (key_ltb k k'); [destruct H as [H|H]; [injection H as <- <-; left; exists k; split; [left; reflexivity|auto]|right; exact H]|].
    destruct (key_ltb k' k); destruct H as [H|H].
    + injection H as <- <-. right. left. reflexivity.
    + destruct (IH k v q o H) as [(q' & Q & E)|X]; [left|right; right; exact X]. exists q'. split; [|exact E]. destruct Q as [Q|Q]; [left; exact Q|right; right; exact Q].
    + injection H as <- <-. left. exists k'. split; [right; left; reflexivity|auto].
    + right. right. exact H.
Qed.
Lemma put_in_key : forall m k v q o, In (q, o) (map_put m k v) -> q = k \/ exists o', In (q, o') m.
Proof.
  intros m k v q o H. destruct (put_in m k v q o H) as [(q' & Q & -> & _)|X]; [|right; exists o; exact X].
  destruct Q as [Q|Q]; [left; symmetry; exact Q|]. apply in_map_iff in Q. destruct Q as ([a b] & <- & I). right. exists b. exact I.
Qed.
Lemma put_in_val : forall m k v q o, In (q, o) (map_put m k v) -> o = v \/ In (q, o) m.
Proof. intros m k v q o H. destruct (put_in m k v q o H) as [(q' & Q & -> & E)|X]; [left; exact E|right; exact X]. Qed.

(** ** Heights and empty pointers *)
Definition oheight (o : option amf) : nat := match o with Some x => S (height x) | None => 1%nat end.
Definition ofill (o : option amf) : option amf := Some (match o with Some x => filled x | None => AUndef end).
Definition mheight (m : list (list Z * option amf)) : nat := fold_right (fun p n => Nat.max (oheight (snd p)) n) 0%nat m.
Definition lheight (l : list (option amf)) : nat := fold_right (fun o n => Nat.max (oheight o) n) 0%nat l.
Definition mfill (m : list (list Z * option amf)) := map (fun p => (fst p, ofill (snd p))) m.
Lemma height_eq : forall v, height v = match v with AObj m => mheight m | ATyped _ m => mheight m | AEcma m => mheight m | AArr l => lheight l | _ => 0%nat end.
Proof. intros []; reflexivity. Qed.
Lemma filled_eq : forall v, filled v = match v with AObj m => AObj (mfill m) | ATyped c m => ATyped c (mfill m) | AEcma m => AEcma (mfill m) | AArr l => AArr (map ofill l) | x => x end.
Proof. intros []; reflexivity. Qed.
Definition oenc (o : option amf) : list Z := match o with Some x => amf_encode x | None => [6] end.
Definition menc (m : list (list Z * option amf)) : list Z := concat (map (fun p => enc_key (fst p) ++ oenc (snd p)) m) ++ [0; 0; 9].
Lemma encode_eq : forall v, amf_encode v =
  match v with
  | ANum u => [0; byt u 56; byt u 48; byt u 40; byt u 32; byt u 24; byt u 16; byt u 8; byt u 0]
  | ABool b => [1; if b then 1 else 0]
  | AStr s => (if zlen s >? 65535 then [12; byt (zlen s) 24; byt (zlen s) 16; byt (zlen s) 8; byt (zlen s) 0] else [2; byt (zlen s) 8; byt (zlen s) 0]) ++ s
  | AObj m => [3] ++ menc m
  | ATyped c m => [16] ++ enc_key c ++ menc m
  | AEcma m => let n := Z.min (zlen m) U32MAX in [8; byt n 24; byt n 16; byt n 8; byt n 0] ++ menc m
  | ANull => [5]
  | AUndef => [6]
  | AArr l => [10; byt (zlen l) 24; byt (zlen l) 16; byt (zlen l) 8; byt (zlen l) 0] ++ concat (map oenc l)
  end.
Proof. intros []; reflexivity. Qed.
Lemma mheight_in : forall m k o, In (k, o) m -> (oheight o <= mheight m)%nat.
Proof. induction m as [|p m IH]; intros k o H; [destruct H|]. cbn. destruct H as [->|H]; [cbn; lia|]. specialize (IH k o H). unfold mheight in IH. lia. Qed.
Lemma lheight_in : forall m o, In o m -> (oheight o <= lheight m)%nat.
Proof. induction m as [|p m IH]; intros o H; [destruct H|]. cbn. destruct H as [->|H]; [cbn; lia|]. specialize (IH o H). unfold lheight in IH. lia. Qed.
Lemma mheight_le : forall m h, (forall k o, In (k, o) m -> (oheight o <= h)%nat) -> (mheight m <= h)%nat.
Proof. induction m as [|[k o] m IH]; intros h H; cbn; [lia|]. pose proof (H k o (or_introl eq_refl)). specialize (IH h (fun k' o' I => H k' o' (or_intror I))). unfold mheight in IH. lia. Qed.
Lemma lheight_le : forall m h, (forall o, In o m -> (oheight o <= h)%nat) -> (lheight m <= h)%nat.
Proof. induction m as [|o m IH]; intros h H; cbn; [lia|]. pose proof (H o (or_introl eq_refl)). specialize (IH h (fun o' I => H o' (or_intror I))). unfold lheight in IH. lia. Qed.
Lemma enc_head : forall o, exists t r, oenc o = t :: r /\ t <> 9.
Proof.
  intros [v|]; [|exists 6, []; split; [reflexivity|discriminate]]. cbn [oenc]. rewrite encode_eq. destruct v; cbn [app]; try (eexists; eexists; split; [reflexivity|discriminate]).
  destruct (zlen s >? 65535); cbn [app]; eexists; eexists; (split; [reflexivity|discriminate]).
Qed.

(** ** Round trip *)
Definition reads (dec : list Z -> res (option amf * list Z)) (o : option amf) : Prop := forall rest, dec (oenc o ++ rest) = Ok (ofill o, rest).
Lemma menc_cons : forall k o m rest, menc ((k, o) :: m) ++ rest = byt (zlen k) 8 :: byt (zlen k) 0 :: k ++ oenc o ++ menc m ++ rest.
Proof.
  intros k o m rest. unfold menc. cbn [map concat fst snd]. set (t := concat _). unfold enc_key. rewrite <- !app_assoc. cbn [app]. reflexivity.
Qed.
Lemma members_roundtrip : forall dec m fuel start rest acc, (forall k o, In (k, o) m -> reads dec o /\ zlen k < 2 ^ 16) ->
  ascending (map fst (acc ++ m)) -> (length m < fuel)%nat ->
  dec_members fuel dec start (menc m ++ rest) acc = Ok (Some (acc ++ mfill m), rest).
Proof.
  intros dec. induction m as [|[k o] m IH]; intros fuel start rest acc R A L; (destruct fuel as [|n]; [cbn in L; lia|]).
  - unfold menc. cbn [map concat app dec_members].
    replace (zlen (0 :: 0 :: 9 :: rest) >=? 3) with true by (symmetry; apply Z.geb_le; zl).
    cbn [next rbind]. rewrite acc8_byte by (change (2 ^ 56) with 72057594037927936; unfold is_byte, U8MAX; lia). cbn [rbind].
    change (256 * 0 + 0) with 0. replace (zlen (9 :: rest) <? 0) with false by (symmetry; apply Z.ltb_ge; apply zlen_nonneg).
    cbn [Z.eqb next rbind]. cbn. rewrite app_nil_r. reflexivity.
  - destruct (R k o (or_introl eq_refl)) as [Ro Lk]. destruct (enc_head o) as (t & tr & Et & Nt).
    remember (menc m ++ rest) as tail eqn:Etail.
    replace (menc ((k, o) :: m) ++ rest) with (byt (zlen k) 8 :: byt (zlen k) 0 :: k ++ oenc o ++ tail)
      by (rewrite menc_cons, Etail; reflexivity).
    cbn [dec_members].
    replace (zlen (byt (zlen k) 8 :: byt (zlen k) 0 :: k ++ oenc o ++ tail) >=? 3) with true by (symmetry; apply Z.geb_le; rewrite Et; rewrite !zlen_cons, !zlen_app, zlen_cons; pose proof (zlen_nonneg _ k); pose proof (zlen_nonneg _ tr); pose proof (zlen_nonneg _ tail); lia).
    rewrite (bind2 _ unit). rewrite len2_next by (pose proof (zlen_nonneg _ k); lia). cbn [rbind].
    replace (zlen (k ++ oenc o ++ tail) <? zlen k) with false by (symmetry; apply Z.ltb_ge; apply zlen_ge).
    assert (FIN : (if zlen k =? 0 then ' (b, _) <- next (k ++ oenc o ++ tail);; Ok (b =? 9) else Ok false) = Ok false).
    { destruct (Z.eqb_spec (zlen k) 0) as [Z0|]; [|reflexivity]. destruct k as [|x k]; [|rewrite zlen_cons in Z0; pose proof (zlen_nonneg _ k); lia].
      rewrite Et. cbn [app next rbind]. destruct (Z.eqb_spec t 9); [contradiction|reflexivity]. }
    rewrite FIN. cbn [rbind]. rewrite take_app. cbn [rbind]. rewrite Ro. cbn [rbind ofill].
    unfold put_key. change (2 ^ 16) with 65536 in Lk. destruct (Z.ltb_spec (zlen k) 65536); [|lia].
    assert (FE : Forall (fun p => less (fst p) k) acc).
    { clear -A. induction acc as [|[a b] acc IHa]; [constructor|]. cbn [app map fst] in A. inversion A as [|? ? F A']; subst. constructor; [|apply IHa, A'].
      cbn [fst]. rewrite Forall_forall in F. apply F. rewrite map_app. apply in_or_app. right. left. reflexivity. }
    rewrite put_end by exact FE.
    assert (E2 : dec_members n dec start (menc m ++ rest) (acc ++ [(k, Some match o with Some x => filled x | None => AUndef end)]) = Ok (Some ((acc ++ [(k, ofill o)]) ++ mfill m), rest)).
    { apply IH.
      - intros k' o' I. apply (R k' o'). right. exact I.
      - rewrite <- app_assoc. rewrite map_app in *. exact A.
      - cbn in L. lia. }
    rewrite <- Etail in E2. rewrite E2. rewrite <- app_assoc. reflexivity.
Qed.
Lemma elements_roundtrip : forall dec l fuel start rest i acc, (forall o, In o l -> reads dec o) -> 0 <= i -> i + zlen l < 2 ^ 32 -> (length l < fuel)%nat ->
  dec_elements fuel dec start (concat (map oenc l) ++ rest) i (i + zlen l) acc = Ok (Some (acc ++ map ofill l), rest).
Proof.
  intros dec. induction l as [|o l IH]; intros fuel start rest i acc R I B L; (destruct fuel as [|n]; [cbn in L; lia|]); cbn [dec_elements].
  - change (zlen (@nil (option amf))) with 0. rewrite Z.add_0_r. destruct (Z.ltb_spec i i); [lia|]. cbn. rewrite app_nil_r. reflexivity.
  - rewrite zlen_cons in *. pose proof (zlen_nonneg _ l). destruct (Z.ltb_spec i (i + (1 + zlen l))) as [_|X]; [|lia]. cbn [map concat]. rewrite <- app_assoc.
    rewrite (R o (or_introl eq_refl)). cbn [rbind ofill]. change (2 ^ 32) with 4294967296 in *.
    replace (wrap32 (i + 1)) with (i + 1) by (unfold wrap32, U32MAX; lia). replace (i + (1 + zlen l)) with (i + 1 + zlen l) by lia.
    rewrite IH; [rewrite <- app_assoc; reflexivity|intros o' I'; apply R; right; exact I'|lia|lia|cbn in L; lia].
Qed.
Lemma menc_length : forall m, (length m <= length (menc m))%nat.
Proof.
  intros m. unfold menc. rewrite app_length. enough (length m <= length (concat (map (fun p => enc_key (fst p) ++ oenc (snd p)) m)))%nat by lia.
  induction m as [|p m IH]; [cbn; lia|]. cbn [map concat]. rewrite app_length. set (t := concat _) in *. unfold enc_key. cbn [app length]. lia.
Qed.
Lemma lenc_length : forall l, (length l <= length (concat (map oenc l)))%nat.
Proof. induction l as [|o l IH]; [cbn; lia|]. cbn [map concat]. rewrite app_length. destruct (enc_head o) as (t & r & E & _). rewrite E. cbn [length]. lia. Qed.

Lemma value_roundtrip : forall stack v d rest, value_ok v -> (d + height v <= 32)%nat -> (33 < stack + d)%nat ->
  amf_dec stack (Z.of_nat d) (amf_encode v ++ rest) = Ok (Some (filled v), rest).
Proof.
  induction stack as [|n IH]; intros v d rest V H S; [lia|].
  assert (RD : forall o, (d + oheight o <= 32)%nat -> (match o with Some x => value_ok x | None => True end) -> reads (amf_dec n (Z.of_nat d + 1)) o).
  { intros o Ho Vo r. replace (Z.of_nat d + 1) with (Z.of_nat (1 + d)) by lia. destruct o as [x|]; cbn [oenc ofill oheight] in *.
    - apply IH; [exact Vo|lia|lia].
    - change [6] with (amf_encode AUndef). apply (IH AUndef); [constructor|cbn; lia|lia]. }
  assert (MR : forall m, (d + mheight m <= 32)%nat -> ascending (map fst m) -> (forall k o, In (k, o) m -> str_ok (2 ^ 16) k) -> (forall k x, In (k, Some x) m -> value_ok x) ->
     forall start r fuel, (length m < fuel)%nat -> dec_members fuel (amf_dec n (Z.of_nat d + 1)) start (menc m ++ r) [] = Ok (Some (mfill m), r)).
  { intros m Hm A K X start r fuel F. apply (members_roundtrip _ m fuel start r []); [|exact A|exact F]. intros k o I. split; [|apply (K k o I)].
    apply RD; [pose proof (mheight_in m k o I); lia|]. destruct o; [exact (X k a I)|exact Logic.I]. }
  rewrite height_eq in H. rewrite encode_eq, filled_eq. cbn [amf_dec]. destruct (Z.gtb_spec (Z.of_nat d) 32) as [X|_]; [lia|].
  assert (NZ : forall (t : Z) (r : list Z), zlen (t :: r) >? 0 = true). { intros t r. apply Z.gtb_lt. zl. }
  assert (ML : forall m r, (length m < 1 + length (menc m ++ r))%nat). { intros m r. rewrite app_length. pose proof (menc_length m). lia. }
  inversion V; subst; cbn [app]; rewrite ?NZ; cbn [next rbind Z.eqb Pos.eqb orb].
  - change (byt u 56 :: byt u 48 :: byt u 40 :: byt u 32 :: byt u 24 :: byt u 16 :: byt u 8 :: byt u 0 :: rest)
      with ([byt u 56; byt u 48; byt u 40; byt u 32; byt u 24; byt u 16; byt u 8; byt u 0] ++ rest).
    rewrite number_roundtrip by assumption. reflexivity.
  - unfold dec_boolean. replace (zlen _ <? 1) with false by (symmetry; apply Z.ltb_ge; zl). cbn [next rbind]. destruct b; reflexivity.
  - destruct H0 as [_ H0]. destruct (Z.gtb_spec (zlen s) 65535) as [G|G]; cbn [app]; rewrite NZ; cbn [next rbind Z.eqb Pos.eqb orb].
    + change (byt (zlen s) 24 :: byt (zlen s) 16 :: byt (zlen s) 8 :: byt (zlen s) 0 :: s ++ rest) with ([byt (zlen s) 24; byt (zlen s) 16; byt (zlen s) 8; byt (zlen s) 0] ++ s ++ rest).
      rewrite string_roundtrip4 by assumption. reflexivity.
    + change (byt (zlen s) 8 :: byt (zlen s) 0 :: s ++ rest) with (enc_key s ++ rest). rewrite string_roundtrip2 by (change (2 ^ 16) with 65536; lia). reflexivity.
  - unfold dec_object. rewrite MR by (try assumption; apply ML). reflexivity.
  - unfold dec_typed. rewrite <- app_assoc. rewrite string_roundtrip2 by apply H0. cbn [rbind]. rewrite MR by (try assumption; apply ML). reflexivity.
  - unfold dec_ecma. set (q := Z.min (zlen m) U32MAX).
    replace (zlen _ <? 4) with false by (symmetry; apply Z.ltb_ge; zl).
    change (byt q 24 :: byt q 16 :: byt q 8 :: byt q 0 :: menc m ++ rest) with ([byt q 24; byt q 16; byt q 8; byt q 0] ++ menc m ++ rest).
    change 4 with (zlen [byt q 24; byt q 16; byt q 8; byt q 0]) at 1. rewrite take_app. cbn [rbind]. rewrite MR by (try assumption; apply ML). reflexivity.
  - reflexivity.
  - reflexivity.
  - unfold dec_array. replace (zlen (byt (zlen l) 24 :: _) <? 4) with false by (symmetry; apply Z.ltb_ge; zl).
    rewrite bind4. rewrite len4 by (pose proof (zlen_nonneg _ l); lia). cbn [rbind].
    rewrite (elements_roundtrip _ l _ _ rest 0 []); [reflexivity| |lia|lia|].
    + intros o I. apply RD; [pose proof (lheight_in l o I); lia|]. destruct o as [x|]; [apply H1; exact I|exact Logic.I].
    + cbn [length]. rewrite app_length. pose proof (lenc_length l). lia.
Qed.
Lemma amf_roundtrip : forall v rest, value_ok v -> (height v <= 32)%nat -> amf_decode (amf_encode v ++ rest) = Ok (Some (filled v), rest).
Proof. intros v rest V H. apply (value_roundtrip STACK v 0 rest V); unfold STACK; lia. Qed.
Lemma amf_dup : forall v, value_ok v -> (height v <= 32)%nat -> amf_duplicate v = Ok (Some (filled v)).
Proof. intros v V H. unfold amf_duplicate. rewrite <- (app_nil_r (amf_encode v)). rewrite amf_roundtrip by assumption. reflexivity. Qed.

(** too deep: the decoder refuses *)
Lemma dec_fail : forall stack d l, 32 < d -> amf_dec (S stack) d l = Ok (None, l).
Proof. intros stack d l D. cbn [amf_dec]. destruct (Z.gtb_spec d 32); [reflexivity|lia]. Qed.

(** ** Any bytes *)
Definition members_ok (h : nat) (m : list (list Z * option amf)) : Prop :=
  ascending (map fst m) /\ (forall k o, In (k, o) m -> str_ok (2 ^ 16) k) /\ (forall k o, In (k, o) m -> exists x, o = Some x /\ value_ok x /\ filled x = x /\ (S (height x) <= h)%nat).
Definition safe_dec (h : nat) (dec : list Z -> res (option amf * list Z)) : Prop :=
  forall l, bytes_ok l -> exists o r, dec l = Ok (o, r) /\
    match o with None => r = l | Some x => (exists p, l = p ++ r /\ p <> []) /\ value_ok x /\ filled x = x /\ (S (height x) <= h)%nat end.

Lemma next_ok : forall l, 1 <= zlen l -> exists b r, l = b :: r /\ next l = Ok (b, r).
Proof. intros [|b r] H; [cbn in H; lia|]. exists b, r. split; reflexivity. Qed.
Lemma len2_any : forall l, bytes_ok l -> 2 <= zlen l -> exists a b r, l = a :: b :: r /\ bytes_ok r /\ 0 <= 256 * a + b < 2 ^ 16 /\ (' (n, q) <- next l;; acc8 n q) = Ok (256 * a + b, r).
Proof.
  intros l B L. destruct l as [|a [|b r]]; try (cbn in L; lia). inversion B as [|? ? Ba B']; subst. inversion B' as [|? ? Bb B2]; subst.
  exists a, b, r. split; [reflexivity|]. split; [exact B2|]. change (2 ^ 16) with 65536. split; [unfold is_byte, U8MAX in *; lia|]. cbn [next rbind].
  apply acc8_byte; [change (2 ^ 56) with 72057594037927936; unfold is_byte, U8MAX in *; lia|exact Bb].
Qed.
Lemma len4_any : forall l, bytes_ok l -> 4 <= zlen l -> exists a b c d r n, l = a :: b :: c :: d :: r /\ bytes_ok r /\ 0 <= n < 2 ^ 32
  /\ (' (n, r) <- next l;; ' (n, r) <- acc8 n r;; ' (n, r) <- acc8 n r;; acc8 n r) = Ok (n, r).
Proof.
  intros l B L. destruct l as [|a [|b [|c [|d r]]]]; try (cbn in L; lia). unfold bytes_ok in B. rewrite !Forall_cons_iff in B. destruct B as (Ba & Bb & Bc & Bd & Br).
  exists a, b, c, d, r. eexists. split; [reflexivity|]. split; [exact Br|]. cbn [next rbind].
  assert (P : forall x, is_byte x -> 0 <= x <= 255) by (intros x X; unfold is_byte, U8MAX in X; lia). apply P in Ba as Pa. apply P in Bb as Pb. apply P in Bc as Pc. apply P in Bd as Pd.
  change (2 ^ 32) with 4294967296. 
  rewrite (acc8_byte a b) by (try assumption; change (2 ^ 56) with 72057594037927936; lia). cbn [rbind].
  rewrite (acc8_byte (256 * a + b) c) by (try assumption; change (2 ^ 56) with 72057594037927936; lia). cbn [rbind].
  rewrite (acc8_byte (256 * (256 * a + b) + c) d) by (try assumption; change (2 ^ 56) with 72057594037927936; lia). split; [|reflexivity]. lia.
Qed.
Lemma take_any : forall n r, bytes_ok r -> 0 <= n <= zlen r -> exists s q, take n r = Ok (s, q) /\ r = s ++ q /\ zlen s = n /\ bytes_ok s /\ bytes_ok q.
Proof.
  intros n r B L. unfold take. destruct (Z.ltb_spec (zlen r) n); [lia|]. eexists. eexists. split; [reflexivity|]. split; [symmetry; apply firstn_skipn|].
  split; [unfold zlen in *; rewrite firstn_length; lia|]. split; [apply bytes_ok_firstn, B|apply bytes_ok_skipn, B].
Qed.
Lemma members_safe : forall h dec, safe_dec h dec -> forall fuel start l m, bytes_ok l -> (length l < fuel)%nat -> members_ok h m ->
  exists om r, dec_members fuel dec start l m = Ok (om, r) /\ match om with None => r = start | Some m' => (exists p, l = p ++ r) /\ members_ok h m' end.
Proof.
  intros h dec SD. induction fuel as [|n IH]; intros start l m B L M; [lia|]. cbn [dec_members].
  destruct (Z.geb_spec (zlen l) 3) as [G|G]; [|exists None, start; split; reflexivity].
  destruct (len2_any l B ltac:(lia)) as (a & b & r & El & Br & N & E2). rewrite (bind2 _ unit), E2. cbn [rbind].
  set (len := 256 * a + b) in *. destruct (Z.ltb_spec (zlen r) len) as [S|S]; [exists None, start; split; reflexivity|].
  assert (R1 : 1 <= zlen r) by (rewrite El in G; rewrite !zlen_cons in G; lia). destruct (next_ok r R1) as (x & r1 & Er & En).
  assert (exists fin, (if len =? 0 then ' (b, _) <- next r;; Ok (b =? 9) else Ok false) = Ok fin) as [fin EF].
  { rewrite En. destruct (len =? 0); eexists; reflexivity. }
  rewrite EF. cbn [rbind]. destruct fin.
  - rewrite En. cbn [rbind]. exists (Some m), r1. split; [reflexivity|]. split; [|exact M]. exists [a; b; x]. rewrite El, Er. reflexivity.
  - destruct (take_any len r Br ltac:(lia)) as (key & q & Et & Eq & Lk & Bk & Bq). rewrite Et. cbn [rbind].
    destruct (SD q Bq) as (o & r2 & Ed & P). rewrite Ed. cbn [rbind]. destruct o as [v|]; [|exists None, start; split; reflexivity].
    destruct P as ((p & Ep & Np) & V & Fv & Hv).
    assert (B2 : bytes_ok r2) by (rewrite Ep in Bq; apply bytes_ok_app in Bq; apply Bq).
    assert (L2 : (length r2 < n)%nat). { rewrite El, Eq, Ep in L. cbn [length] in L. rewrite !app_length in L. lia. }
    assert (M2 : members_ok h (put_key m (Some v) key)).
    { unfold put_key. change (2 ^ 16) with 65536 in N. destruct (Z.ltb_spec (zlen key) 65536); [|lia]. destruct M as (M1 & M3 & M4). split; [apply put_ascending, M1|]. split.
      - intros k o I. destruct (put_in_key _ _ _ _ _ I) as [->|(o' & I')]; [split; [exact Bk|change (2 ^ 16) with 65536; lia]|exact (M3 k o' I')].
      - intros k o I. destruct (put_in_val _ _ _ _ _ I) as [->|I']; [exists v; auto|exact (M4 k o I')]. }
    destruct (IH start r2 _ B2 L2 M2) as (om & r3 & Em & Pm). exists om, r3. split; [exact Em|]. destruct om as [m'|]; [|exact Pm].
    destruct Pm as ((p2 & Ep2) & Mm). split; [|exact Mm]. exists ((a :: b :: key) ++ p ++ p2). rewrite El, Eq, Ep, Ep2. cbn [app]. rewrite <- !app_assoc. reflexivity.
Qed.
Lemma elements_safe : forall h dec, safe_dec h dec -> forall fuel start l i sz acc, bytes_ok l -> (length l < fuel)%nat -> 0 <= i <= sz -> sz < 2 ^ 32 -> zlen acc = i ->
  (forall o, In o acc -> exists x, o = Some x /\ value_ok x /\ filled x = x /\ (S (height x) <= h)%nat) ->
  exists oa r, dec_elements fuel dec start l i sz acc = Ok (oa, r) /\
    match oa with None => r = start | Some a => (exists p, l = p ++ r) /\ zlen a = sz /\ forall o, In o a -> exists x, o = Some x /\ value_ok x /\ filled x = x /\ (S (height x) <= h)%nat end.
Proof.
  intros h dec SD. induction fuel as [|n IH]; intros start l i sz acc B L I S A M; [lia|]. cbn [dec_elements].
  destruct (Z.ltb_spec i sz) as [G|G].
  - destruct (SD l B) as (o & r & Ed & P). rewrite Ed. cbn [rbind]. destruct o as [v|]; [|exists None, start; split; reflexivity].
    destruct P as ((p & Ep & Np) & V & Fv & Hv).
    assert (B2 : bytes_ok r) by (rewrite Ep in B; apply bytes_ok_app in B; apply B).
    assert (L2 : (length r < n)%nat). { rewrite Ep in L. rewrite app_length in L. destruct p; [congruence|]. cbn [length] in L. lia. }
    change (2 ^ 32) with 4294967296 in *. replace (wrap32 (i + 1)) with (i + 1) by (unfold wrap32, U32MAX; lia).
    destruct (IH start r (i + 1) sz (acc ++ [Some v]) B2 L2 ltac:(lia) S) as (oa & r3 & Em & Pm).
    + rewrite zlen_app. change (zlen [Some v]) with 1. lia.
    + intros o Io. apply in_app_or in Io. destruct Io as [Io|[<-|[]]]; [exact (M o Io)|exists v; auto].
    + exists oa, r3. split; [exact Em|]. destruct oa; [|exact Pm]. destruct Pm as ((p2 & Ep2) & Q). split; [|exact Q]. exists (p ++ p2). rewrite Ep, Ep2, <- app_assoc. reflexivity.
  - exists (Some acc), l. split; [reflexivity|]. split; [exists []; reflexivity|]. split; [lia|exact M].
Qed.
Lemma string_safe : forall long l, bytes_ok l -> exists o r, dec_string long l = Ok (o, r) /\
  match o with None => r = l | Some s => (exists p, l = p ++ r) /\ str_ok (if (long : bool) then 2 ^ 32 else 2 ^ 16) s /\ bytes_ok r end.
Proof.
  intros long l B. unfold dec_string. destruct long.
  - destruct (Z.ltb_spec (zlen l) 4) as [G|G]; [exists None, l; split; reflexivity|]. destruct (len4_any l B G) as (a & b & c & d & r & n & El & Br & N & E4).
    rewrite bind4, E4. cbn [rbind]. destruct (Z.ltb_spec (zlen r) n) as [S|S]; [exists None, l; split; reflexivity|].
    destruct (take_any n r Br ltac:(lia)) as (s & q & Et & Eq & Ls & Bs & Bq). rewrite Et. cbn [rbind]. exists (Some s), q. split; [reflexivity|].
    split; [exists ([a; b; c; d] ++ s); rewrite El, Eq, <- app_assoc; reflexivity|]. split; [|exact Bq]. split; [exact Bs|lia].
  - destruct (Z.ltb_spec (zlen l) 2) as [G|G]; [exists None, l; split; reflexivity|]. destruct (len2_any l B G) as (a & b & r & El & Br & N & E2).
    rewrite (bind2 _ unit), E2. cbn [rbind]. destruct (Z.ltb_spec (zlen r) (256 * a + b)) as [S|S]; [exists None, l; split; reflexivity|].
    destruct (take_any (256 * a + b) r Br ltac:(lia)) as (s & q & Et & Eq & Ls & Bs & Bq). rewrite Et. cbn [rbind]. exists (Some s), q. split; [reflexivity|].
    split; [exists ([a; b] ++ s); rewrite El, Eq, <- app_assoc; reflexivity|]. split; [|exact Bq]. split; [exact Bs|lia].
Qed.
Lemma mok_nil : forall h, members_ok h [].
Proof. intros h. split; [constructor|]. split; intros k o []. Qed.
Lemma mok_fill : forall h m, members_ok h m -> mfill m = m.
Proof.
  intros h m (_ & _ & M). unfold mfill. rewrite <- (map_id m) at 2. apply map_ext_in. intros [k o] I. cbn [fst snd]. destruct (M k o I) as (x & -> & _ & F & _). unfold ofill; rewrite F. reflexivity.
Qed.
Lemma mok_height : forall h m, members_ok h m -> (mheight m <= h)%nat.
Proof. intros h m (_ & _ & M). apply mheight_le. intros k o I. destruct (M k o I) as (x & -> & _ & _ & H). exact H. Qed.
Lemma mok_value : forall h m, members_ok h m -> forall k x, In (k, Some x) m -> value_ok x.
Proof. intros h m (_ & _ & M) k x I. destruct (M k _ I) as (y & E & V & _). injection E as <-. exact V. Qed.

Lemma dec_safe : forall stack d l, (d <= 33)%nat -> (33 < stack + d)%nat -> bytes_ok l -> exists o r, amf_dec stack (Z.of_nat d) l = Ok (o, r) /\
    match o with None => r = l | Some x => (exists p, l = p ++ r /\ p <> []) /\ value_ok x /\ filled x = x /\ (d + height x <= 32)%nat end.
Proof.
  induction stack as [|n IH]; intros d l D SB B; [lia|]. cbn [amf_dec]. destruct (Z.gtb_spec (Z.of_nat d) 32) as [X|X]; [exists None, l; split; reflexivity|].
  destruct (Z.gtb_spec (zlen l) 0) as [G|G]; [|exists None, l; split; reflexivity].
  destruct (next_ok l ltac:(lia)) as (ty & c & El & En). rewrite En. cbn [rbind].
  assert (SD : safe_dec (32 - d) (amf_dec n (Z.of_nat d + 1))).
  { intros q Bq. replace (Z.of_nat d + 1) with (Z.of_nat (S d)) by lia. destruct (IH (S d) q ltac:(lia) ltac:(lia) Bq) as (o & r & E & P). exists o, r. split; [exact E|].
    destruct o as [x|]; [|exact P]. destruct P as (P1 & P2 & P3 & P4). split; [exact P1|]. split; [exact P2|]. split; [exact P3|lia]. }
  assert (Bc : bytes_ok c) by (rewrite El in B; inversion B; assumption).
  match goal with |- context [rbind ?e _] => assert (K : exists o r, e = Ok (o, r) /\ (exists p, c = p ++ r \/ o = None) /\ match o with None => True | Some x => (exists p, c = p ++ r) /\ value_ok x /\ filled x = x /\ (d + height x <= 32)%nat end) end.
  { assert (FIN : forall (o : option amf) r e, e = Ok (o, r) -> match o with None => True | Some x => (exists p, c = p ++ r) /\ value_ok x /\ filled x = x /\ (d + height x <= 32)%nat end ->
        exists o r, e = Ok (o, r) /\ (exists p, c = p ++ r \/ o = None) /\ match o with None => True | Some x => (exists p, c = p ++ r) /\ value_ok x /\ filled x = x /\ (d + height x <= 32)%nat end).
    { intros o r e E P. exists o, r. split; [exact E|]. split; [|exact P]. destruct o; [|exists []; right; reflexivity]. destruct P as ((p & Ep) & _). exists p. left. exact Ep. }
    assert (MM : forall start q (f : list (list Z * option amf) -> amf), bytes_ok q -> (exists p, c = p ++ q) ->
       (forall m, members_ok (32 - d) m -> value_ok (f m) /\ filled (f m) = f (mfill m) /\ height (f m) = mheight m) ->
       exists o r, (' (m, r) <- dec_members (S (length q)) (amf_dec n (Z.of_nat d + 1)) start q [];; Ok (match m with Some x => Some (f x) | None => None end, r)) = Ok (o, r)
         /\ (exists p, c = p ++ r \/ o = None) /\ match o with None => True | Some x => (exists p, c = p ++ r) /\ value_ok x /\ filled x = x /\ (d + height x <= 32)%nat end).
    { intros start q f Bq (p0 & Ec) FF. destruct (members_safe _ _ SD (S (length q)) start q [] Bq ltac:(lia) (mok_nil _)) as (om & r & E & P). rewrite E. cbn [rbind].
      destruct om as [m|]; [|eapply FIN; [reflexivity|exact I]]. destruct P as ((p & Ep) & M). destruct (FF m M) as (F1 & F2 & F3). eapply FIN; [reflexivity|].
      split; [exists (p0 ++ p); rewrite Ec, Ep, <- app_assoc; reflexivity|]. split; [exact F1|]. split; [rewrite F2, (mok_fill _ _ M); reflexivity|]. rewrite F3. pose proof (mok_height _ _ M). lia. }
    destruct (ty =? 0).
    { unfold dec_number. destruct (Z.ltb_spec (zlen c) 8) as [L8|L8]; [eapply FIN; [reflexivity|exact I]|].
      clear - L8 Bc FIN X. do 8 (destruct c as [|? c]; [cbn in L8; lia|]). unfold bytes_ok in Bc. rewrite !Forall_cons_iff in Bc. destruct Bc as (B0 & B1 & B2 & B3 & B4 & B5 & B6 & B7 & Bc).
      cbn [next rbind]. unfold acc8, next. cbn [rbind]. eapply FIN; [reflexivity|]. split; [exists [z; z0; z1; z2; z3; z4; z5; z6]; reflexivity|].
      split; [|split; [reflexivity|cbn; lia]]. constructor. unfold is_u64, wrap64, U64MAX. lia. }
    destruct (ty =? 1).
    { unfold dec_boolean. destruct (Z.ltb_spec (zlen c) 1) as [L1|L1]; [eapply FIN; [reflexivity|exact I]|]. destruct (next_ok c L1) as (b & r & Ec & Eb). rewrite Eb. cbn [rbind].
      eapply FIN; [reflexivity|]. split; [exists [b]; exact Ec|]. split; [constructor|]. split; [reflexivity|cbn; lia]. }
    destruct ((ty =? 2) || (ty =? 12)).
    { destruct (string_safe (12 =? ty) c Bc) as (o & r & E & P). rewrite E. cbn [rbind]. destruct o as [s|]; [|eapply FIN; [reflexivity|exact I]]. destruct P as (P1 & P2 & P3).
      eapply FIN; [reflexivity|]. split; [exact P1|]. split; [|split; [reflexivity|cbn; lia]]. constructor. destruct P2 as [P2 P4]. split; [exact P2|].
      destruct (12 =? ty); [exact P4|]. change (2 ^ 16) with 65536 in P4. change (2 ^ 32) with 4294967296. lia. }
    destruct (ty =? 3).
    { unfold dec_object. apply (MM c c AObj Bc); [exists []; reflexivity|]. intros m M. pose proof M as (M1 & M2 & _). split; [constructor; [exact M1|exact M2|exact (mok_value _ _ M)]|]. split; reflexivity. }
    destruct (ty =? 5); [eapply FIN; [reflexivity|]; split; [exists []; reflexivity|split; [constructor|split; [reflexivity|cbn; lia]]]|].
    destruct ((ty =? 6) || (ty =? 13)); [eapply FIN; [reflexivity|]; split; [exists []; reflexivity|split; [constructor|split; [reflexivity|cbn; lia]]]|].
    destruct (ty =? 8).
    { unfold dec_ecma. destruct (Z.ltb_spec (zlen c) 4) as [L4|L4]; [eapply FIN; [reflexivity|exact I]|]. destruct (take_any 4 c Bc ltac:(lia)) as (s & q & Et & Eq & _ & _ & Bq). rewrite Et. cbn [rbind].
      apply (MM q q AEcma Bq); [exists s; exact Eq|]. intros m M. pose proof M as (M1 & M2 & _). split; [constructor; [exact M1|exact M2|exact (mok_value _ _ M)]|]. split; reflexivity. }
    destruct (ty =? 10).
    { unfold dec_array. destruct (Z.ltb_spec (zlen c) 4) as [L4|L4]; [eapply FIN; [reflexivity|exact I]|]. destruct (len4_any c Bc L4) as (a & b & e & f & r & sz & Ec & Br & N & E4).
      rewrite bind4, E4. cbn [rbind]. destruct (elements_safe _ _ SD (S (length c)) c r 0 sz [] Br) as (oa & r2 & E & P); [rewrite Ec; cbn [length]; lia|lia|lia|reflexivity|intros o []|].
      rewrite E. cbn [rbind]. destruct oa as [xs|]; [|eapply FIN; [reflexivity|exact I]]. destruct P as ((p & Ep) & Lx & Mx). eapply FIN; [reflexivity|].
      split; [exists ([a; b; e; f] ++ p); rewrite Ec, Ep, <- app_assoc; reflexivity|]. split; [|split].
      - constructor; [lia|]. intros x Ix. destruct (Mx _ Ix) as (y & Ey & V & _). injection Ey as <-. exact V.
      - rewrite filled_eq. f_equal. rewrite <- (map_id xs) at 2. apply map_ext_in. intros o Io. destruct (Mx o Io) as (x & -> & _ & F & _). unfold ofill; rewrite F. reflexivity.
      - rewrite height_eq. assert ((lheight xs <= 32 - d)%nat); [|lia]. apply lheight_le. intros o Io. destruct (Mx o Io) as (x & -> & _ & _ & H). exact H. }
    destruct (ty =? 16).
    { unfold dec_typed. destruct (string_safe false c Bc) as (o & r & E & P). rewrite E. cbn [rbind]. destruct o as [s|]; [|eapply FIN; [reflexivity|exact I]]. destruct P as (P1 & P2 & P3).
      apply (MM r r (ATyped s) P3 P1). intros m M. pose proof M as (M1 & M2 & _). split; [constructor; [exact P2|exact M1|exact M2|exact (mok_value _ _ M)]|]. split; reflexivity. }
    eapply FIN; [reflexivity|exact I]. }
  destruct K as (o & r & E & _ & P). rewrite E. cbn [rbind]. destruct o as [v|]; [|exists None, l; split; reflexivity]. exists (Some v), r. split; [reflexivity|].
  destruct P as ((p & Ep) & P). split; [|exact P]. exists (ty :: p). rewrite El, Ep. split; [reflexivity|discriminate].
Qed.
Lemma amf_safe : forall l, bytes_ok l -> exists o r, amf_decode l = Ok (o, r) /\
    match o with None => r = l | Some x => (exists p, l = p ++ r /\ p <> []) /\ value_ok x /\ filled x = x /\ (height x <= 32)%nat end.
Proof. intros l B. apply (dec_safe STACK 0 l); unfold STACK; try lia. exact B. Qed.

(** vectors *)
Lemma dec_all_safe : forall fuel l dst, bytes_ok l -> (length l < fuel)%nat -> exists b d, dec_all fuel l dst = Ok (b, dst ++ d) /\ Forall (fun v => value_ok v /\ (height v <= 32)%nat) d.
Proof.
  induction fuel as [|n IH]; intros l dst B L; [lia|]. cbn [dec_all]. destruct (Z.gtb_spec (zlen l) 0) as [G|G].
  - destruct (amf_safe l B) as (o & r & E & P). rewrite E. cbn [rbind]. destruct o as [v|]; [|exists false, []; rewrite app_nil_r; split; [reflexivity|constructor]].
    destruct P as ((p & Ep & Np) & V & _ & H). destruct (IH r (dst ++ [v])) as (b & d & E2 & F).
    + rewrite Ep in B. apply bytes_ok_app in B. apply B.
    + rewrite Ep in L. rewrite app_length in L. destruct p; [congruence|]. cbn [length] in L. lia.
    + exists b, (v :: d). rewrite E2, <- app_assoc. split; [reflexivity|]. constructor; [split; assumption|exact F].
  - exists true, []. rewrite app_nil_r. split; [reflexivity|constructor].
Qed.
Lemma dec_all_roundtrip : forall vs fuel dst, Forall (fun v => value_ok v /\ (height v <= 32)%nat) vs -> (length (amf_encode_list (map Some vs)) < fuel)%nat ->
  dec_all fuel (amf_encode_list (map Some vs)) dst = Ok (true, dst ++ map filled vs).
Proof.
  induction vs as [|v vs IH]; intros fuel dst F L; (destruct fuel as [|n]; [lia|]); cbn [dec_all].
  - cbn. rewrite app_nil_r. reflexivity.
  - inversion F as [|? ? [V H] F']; subst. unfold amf_encode_list in *. cbn [map concat] in *. destruct (enc_head (Some v)) as (t & r & Et & _). cbn [oenc] in Et.
    replace (zlen (amf_encode v ++ concat (map (fun o => match o with Some x => amf_encode x | None => [] end) (map Some vs))) >? 0) with true by (symmetry; apply Z.gtb_lt; rewrite Et; zl).
    rewrite amf_roundtrip by assumption. cbn [rbind]. rewrite IH; [rewrite <- app_assoc; reflexivity|exact F'|]. rewrite app_length, Et in L. cbn [length] in L. lia.
Qed.

(** the encoding is bytes *)
Lemma enc_key_bytes : forall k, bytes_ok k -> bytes_ok (enc_key k).
Proof. intros k K. unfold enc_key, bytes_ok. cbn [app]. constructor; [apply byt_byte|]. constructor; [apply byt_byte|exact K]. Qed.
Lemma small_byte : forall x, 0 <= x <= 255 -> is_byte x.
Proof. intros x X. unfold is_byte, U8MAX. lia. Qed.
Lemma concat_bytes : forall (A : Type) (f : A -> list Z) l, (forall x, In x l -> bytes_ok (f x)) -> bytes_ok (concat (map f l)).
Proof.
  intros A f l H. induction l as [|x l IH]; [constructor|]. cbn [map concat]. apply bytes_ok_app. split; [apply H; left; reflexivity|]. apply IH. intros y Y. apply H. right. exact Y.
Qed.
Lemma encode_bytes : forall h v, (height v <= h)%nat -> value_ok v -> bytes_ok (amf_encode v).
Proof.
  induction h as [h IH] using lt_wf_ind. intros v H V. rewrite height_eq in H. rewrite encode_eq.
  assert (OE : forall o, (oheight o <= h)%nat -> match o with Some x => value_ok x | None => True end -> bytes_ok (oenc o)).
  { intros [x|] Ho Vo; cbn [oheight oenc] in *; [apply (IH (height x)); [lia|lia|exact Vo]|]. constructor; [apply small_byte; lia|constructor]. }
  assert (ME : forall m, (mheight m <= h)%nat -> (forall k o, In (k, o) m -> str_ok (2 ^ 16) k) -> (forall k x, In (k, Some x) m -> value_ok x) -> bytes_ok (menc m)).
  { intros m Hm K X. unfold menc. apply bytes_ok_app. split.
    - apply concat_bytes. intros [k o] I. cbn [fst snd]. apply bytes_ok_app. split; [apply enc_key_bytes; exact (proj1 (K k o I))|]. apply OE; [pose proof (mheight_in m k o I); lia|].
      destruct o; [exact (X k a I)|exact Logic.I].
    - repeat (constructor; [apply small_byte; lia|]). constructor. }
  inversion V; subst; cbn [app]; repeat (constructor; [first [apply byt_byte|apply small_byte; lia]|]); try constructor; try (apply ME; assumption); try (apply small_byte; lia).
  - destruct b; apply small_byte; lia.
  - constructor.
  - apply bytes_ok_app. split; [|apply H0]. destruct (zlen s >? 65535); repeat (constructor; [first [apply byt_byte|apply small_byte; lia]|]); constructor.
  - apply bytes_ok_app. split; [apply H0|apply ME; assumption].
  - apply concat_bytes. intros o I. apply OE; [pose proof (lheight_in l o I); lia|]. destruct o; [apply H1; exact I|exact Logic.I].
Qed.
(** arrays in arrays *)
Fixpoint nest (n : nat) : amf := match n with O => ANull | S k => AArr [Some (nest k)] end.
Lemma nest_height : forall n, height (nest n) = n.
Proof. induction n as [|n IH]; [reflexivity|]. cbn [nest]. rewrite height_eq. cbn [lheight fold_right oheight]. rewrite IH. apply Nat.max_0_r. Qed.
Lemma nest_ok : forall n, value_ok (nest n).
Proof. induction n as [|n IH]; cbn [nest]; [constructor|]. constructor; [change (zlen _) with 1; change (2 ^ 32) with 4294967296; lia|]. intros x [X|[]]. injection X as <-. exact IH. Qed.
