(** Lemmas about URIParse::parse. *)
From Verif Require Import Base BaseFacts Hex URI URISpec URIProofs URIParse URIParseSpec.
Ltac spl := repeat match goal with |- _ /\ _ => split end.

(** ** Stars. *)
Definition out (cls : Z -> bool) (c : Z) : bool := negb (cls c).
Lemma star_greedy : forall cls s k r, k (from (out cls) s) = Some r -> star_m cls s k = Some r.
Proof.
  intros cls s k r. induction s as [|x t IH]; cbn; intro H; [exact H|]. unfold out at 1 in H. destruct (cls x) eqn:E; cbn [negb] in H.
  - rewrite (IH H). reflexivity.
  - exact H.
Qed.
Lemma star_max : forall cls s k, (forall x t, cls x = true -> k (x :: t) = None) -> star_m cls s k = k (from (out cls) s).
Proof.
  intros cls s k H. induction s as [|x t IH]; cbn; [reflexivity|]. unfold out at 1. destruct (cls x) eqn:E; cbn [negb]; [|reflexivity].
  rewrite IH. destruct (k (from (out cls) t)); [reflexivity|]. apply H. exact E.
Qed.
Lemma star_none : forall cls s k, (forall a t, s = a ++ t -> k t = None) -> star_m cls s k = None.
Proof.
  intros cls s k. induction s as [|x t IH]; cbn; intro H; [apply (H []); reflexivity|]. destruct (cls x).
  - rewrite IH; [apply (H []); reflexivity|]. intros a u E. apply (H (x :: a)). rewrite E. reflexivity.
  - apply (H []). reflexivity.
Qed.
Lemma cut_eq : forall (a t : list Z), firstn (length (a ++ t) - length t) (a ++ t) = a.
Proof. intros. rewrite app_length. replace (length a + length t - length t)%nat with (length a) by lia. rewrite firstn_app, Nat.sub_diag, firstn_all. cbn. apply app_nil_r. Qed.
Lemma cut_from : forall t s, firstn (length s - length (from t s)) s = before t s.
Proof. intros. rewrite (before_from t s) at 1 3. apply cut_eq. Qed.
Lemma cut_all : forall (s : list Z), firstn (length s - length (@nil Z)) s = s.
Proof. intros. cbn. rewrite Nat.sub_0_r. apply firstn_all. Qed.

Lemma none_of_iff : forall l x, none_of l x = true <-> ~ In x l.
Proof.
  intros. unfold none_of. rewrite Bool.negb_true_iff. split.
  - intros H Q. assert (X : existsb (Z.eqb x) l = true) by (apply existsb_exists; exists x; split; [exact Q|apply Z.eqb_refl]). congruence.
  - intro H. destruct (existsb (Z.eqb x) l) eqn:E; [|reflexivity]. apply existsb_exists in E. destruct E as (y & A & B). apply Z.eqb_eq in B. subst. contradiction.
Qed.
Lemma out_none_of : forall l x, out (none_of l) x = true <-> In x l.
Proof. intros. unfold out. rewrite Bool.negb_true_iff. destruct (none_of l x) eqn:E; [apply none_of_iff in E; split; [discriminate|contradiction]|]. split; [|auto]. intros _.
  destruct (in_dec Z.eq_dec x l) as [H|H]; [exact H|]. apply none_of_iff in H. congruence. Qed.
Lemma before_lacks : forall l s c, In c l -> lacks c (before (out (none_of l)) s).
Proof. intros l s c H Q. apply before_none in Q. apply out_none_of in H. congruence. Qed.
Lemma from_out_head : forall l s c r, from (out (none_of l)) s = c :: r -> In c l.
Proof. intros l s c r H. apply from_head in H. apply out_none_of in H. exact H. Qed.
Lemma from_all : forall cls s, (forall c, In c s -> cls c = true) -> from (out cls) s = [].
Proof. intros cls s. induction s as [|x t IH]; intro H; [reflexivity|]. cbn. unfold out at 1. rewrite (H x (or_introl eq_refl)). cbn. apply IH. intros; apply H; right; auto. Qed.
Lemma line_any : forall s, line_free s -> forall c, In c s -> any c = true.
Proof. intros s [A B] c H. apply none_of_iff. intros [<-|[<-|[]]]; contradiction. Qed.
Lemma line_suffix : forall a b, line_free (a ++ b) -> line_free a /\ line_free b.
Proof. intros a b [A B]. unfold line_free, lacks in *. rewrite in_app_iff in *. tauto. Qed.

(** ** The whole reference. *)
Definition k0 : list Z -> caps -> option caps := fun t c => match t with [] => Some c | _ => None end.
Definition k6 (t : list Z) (c : caps) := rx_m (ROpt (RGrp 6 (RCat (chr 35) (RGrp 7 (RStar any))))) t c k0.
Definition k4 (t : list Z) (c : caps) := rx_m (ROpt (RGrp 4 (RCat (chr 63) (RGrp 5 (RStar (none_of [35])))))) t c k6.
Definition k3 (t : list Z) (c : caps) := rx_m (ROpt (RGrp 3 (RStar (none_of [63; 35])))) t c k4.

Lemma k6_nil : forall c, k6 [] c = Some c.
Proof. reflexivity. Qed.
Lemma k6_other : forall x t c, x <> 35 -> k6 (x :: t) c = None.
Proof. intros x t c H. unfold k6. cbn [rx_m chr]. destruct (35 =? x) eqn:E; [apply Z.eqb_eq in E; congruence|]. reflexivity. Qed.
Lemma k6_frag : forall f c, line_free f -> k6 (35 :: f) c = Some (set_cap 6 (35 :: f) (set_cap 7 f c)).
Proof.
  intros f c H. unfold k6. cbn [rx_m chr]. rewrite Z.eqb_refl.
  rewrite (star_greedy any f _ (set_cap 6 (35 :: f) (set_cap 7 f c))); [reflexivity|].
  rewrite (from_all any f (line_any f H)). cbn [k0]. rewrite !cut_all. reflexivity.
Qed.
(** the caps of a query part [t] that is empty or begins with '?' or '#', and of the fragment after it *)
Definition frag_caps (t : list Z) (c : caps) : caps := match t with [] => c | _ :: f => set_cap 6 t (set_cap 7 f c) end.
Lemma k6_ok : forall t c, line_free t -> (t = [] \/ exists f, t = 35 :: f) -> k6 t c = Some (frag_caps t c).
Proof. intros t c L [->|[f ->]]; [reflexivity|]. apply k6_frag. apply (line_suffix [35] f). exact L. Qed.
Definition tail_caps (t : list Z) (c : caps) : caps :=
  match t with
  | x :: r => if x =? 63 then frag_caps (from (out (none_of [35])) r) (set_cap 4 (x :: before (out (none_of [35])) r) (set_cap 5 (before (out (none_of [35])) r) c)) else frag_caps t c
  | [] => c
  end.
Lemma from_suffix : forall t s, exists a, s = a ++ from t s.
Proof. intros. exists (before t s). apply before_from. Qed.
Lemma k4_ok : forall t c, line_free t -> (t = [] \/ exists x r, t = x :: r /\ In x [63; 35]) -> k4 t c = Some (tail_caps t c).
Proof.
  intros t c L [->|(x & r & -> & H)]; [reflexivity|]. cbn [tail_caps]. destruct (x =? 63) eqn:E.
  - apply Z.eqb_eq in E. subst x. unfold k4. cbn [rx_m chr]. rewrite Z.eqb_refl.
    assert (Lr : line_free (from (out (none_of [35])) r)).
    { destruct (line_suffix [63] r L) as [_ L']. rewrite (before_from (out (none_of [35])) r) in L'. apply line_suffix in L'. apply L'. }
    rewrite (star_greedy (none_of [35]) r _ (frag_caps (from (out (none_of [35])) r) (set_cap 4 (63 :: before (out (none_of [35])) r) (set_cap 5 (before (out (none_of [35])) r) c)))); [reflexivity|].
    rewrite cut_from. rewrite k6_ok; [|exact Lr|].
    + f_equal. f_equal. f_equal. rewrite (before_from (out (none_of [35])) r) at 1 3. rewrite app_comm_cons. apply cut_eq.
    + destruct (from (out (none_of [35])) r) eqn:F; [auto|]. right. apply from_out_head in F. destruct F as [<-|[]]. eauto.
  - assert (x = 35) by (destruct H as [<-|[<-|[]]]; [rewrite Z.eqb_refl in E; discriminate|reflexivity]). subst x. unfold k4. cbn [rx_m chr].
    change (63 =? 35) with false. cbv iota. apply k6_ok; [exact L|eauto].
Qed.
Definition hier_caps (t : list Z) (c : caps) : caps := tail_caps (from (out (none_of [63; 35])) t) (set_cap 3 (before (out (none_of [63; 35])) t) c).
Lemma k3_ok : forall t c, line_free t -> k3 t c = Some (hier_caps t c).
Proof.
  intros t c L. unfold k3. cbn [rx_m].
  rewrite (star_greedy (none_of [63; 35]) t _ (hier_caps t c)); [reflexivity|]. rewrite cut_from. unfold hier_caps. apply k4_ok.
  - rewrite (before_from (out (none_of [63; 35])) t) in L. apply line_suffix in L. apply L.
  - destruct (from (out (none_of [63; 35])) t) eqn:F; [auto|]. right. apply from_out_head in F. eauto.
Qed.

Definition n4 := none_of [58; 47; 63; 35].
(** the scheme that is found: the text before the first of ":/?#" if that is ":" and the text begins with a letter *)
Definition scheme_of (s : list Z) : option (list Z * list Z) :=
  match s with
  | x :: t => if alpha x then match from (out n4) t with y :: r => if y =? 58 then Some (x :: before (out n4) t, r) else None | [] => None end else None
  | [] => None
  end.
Lemma uri_caps : forall s, line_free s ->
  regex_match rx_uri s = match scheme_of s with Some (sch, r) => hier_caps r (set_cap 1 (sch ++ [58]) (set_cap 2 sch no_caps)) | None => hier_caps s no_caps end.
Proof.
  intros s L. unfold regex_match, rx_uri.
  change (rx_m _ s no_caps _) with
    (match rx_m (RGrp 1 (RCat (RGrp 2 (RCat (RChr alpha) (RStar n4))) (chr 58))) s no_caps k3 with Some r => Some r | None => k3 s no_caps end).
  rewrite (k3_ok s no_caps L). cbn [rx_m chr]. destruct s as [|x t]; [reflexivity|]. cbn [scheme_of]. destruct (alpha x); [|reflexivity].
  rewrite star_max.
  2: { intros y u Hy. apply none_of_iff in Hy. destruct (58 =? y) eqn:E; [|reflexivity]. exfalso. apply Hy. apply Z.eqb_eq in E. left. exact E. }
  destruct (from (out n4) t) as [|y r] eqn:F; [reflexivity|]. rewrite Z.eqb_sym. destruct (y =? 58) eqn:E; [|reflexivity].
  apply Z.eqb_eq in E. subst y.
  assert (S : t = before (out n4) t ++ 58 :: r) by (rewrite <- F; apply before_from).
  rewrite k3_ok.
  - f_equal. f_equal.
    + rewrite S at 1 2. rewrite app_comm_cons. change (58 :: r) with ([58] ++ r). rewrite app_assoc. apply cut_eq.
    + f_equal. rewrite S at 1 2. rewrite app_comm_cons. apply cut_eq.
  - rewrite S in L. change (x :: before (out n4) t ++ 58 :: r) with ((x :: before (out n4) t) ++ [58] ++ r) in L. apply line_suffix in L. destruct L as [_ L]. apply line_suffix in L. apply L.
Qed.

(** What hier_caps gives, group by group, on top of caps that have nothing in groups 3 to 7. *)
Lemma lacks_app : forall c a b, lacks c (a ++ b) <-> lacks c a /\ lacks c b.
Proof. intros. unfold lacks. rewrite in_app_iff. tauto. Qed.
Lemma lacks_cons : forall c x s, lacks c (x :: s) <-> x <> c /\ lacks c s.
Proof. intros. unfold lacks. cbn. tauto. Qed.
Lemma set_same : forall n v c, set_cap n v c n = v.
Proof. intros. unfold set_cap. rewrite Nat.eqb_refl. reflexivity. Qed.
Lemma set_other : forall n m v c, n <> m -> set_cap n v c m = c m.
Proof. intros. unfold set_cap. destruct (Nat.eqb m n) eqn:E; [apply Nat.eqb_eq in E; congruence|]. reflexivity. Qed.
Ltac caps := repeat first [rewrite set_same | rewrite set_other by lia].
Lemma frag_caps_at : forall t c, c 6%nat = [] -> c 7%nat = [] -> (t = [] \/ exists f, t = 35 :: f) ->
  frag_caps t c 6%nat = t /\ marked 35 (frag_caps t c 6%nat) (frag_caps t c 7%nat) /\ forall i, (i < 6)%nat -> frag_caps t c i = c i.
Proof.
  intros t c A B [->|[f ->]]; cbn [frag_caps].
  - rewrite A, B. spl; auto. right. auto.
  - caps. spl; [reflexivity|left; reflexivity|]. intros i Hi. caps. reflexivity.
Qed.
Lemma tail_caps_at : forall t c, c 4%nat = [] -> c 5%nat = [] -> c 6%nat = [] -> c 7%nat = [] -> (t = [] \/ exists x r, t = x :: r /\ In x [63; 35]) ->
  let d := tail_caps t c in
  t = d 4%nat ++ d 6%nat /\ marked 63 (d 4%nat) (d 5%nat) /\ lacks 35 (d 5%nat) /\ marked 35 (d 6%nat) (d 7%nat) /\ forall i, (i < 4)%nat -> d i = c i.
Proof.
  intros t c A4 A5 A6 A7 [->|(x & r & -> & H)]; cbv zeta; cbn [tail_caps].
  - rewrite A4, A5, A6, A7. spl; auto; try (right; auto). intros [].
  - destruct (x =? 63) eqn:E.
    + apply Z.eqb_eq in E. subst x. set (t' := from (out (none_of [35])) r). set (q := before (out (none_of [35])) r).
      destruct (frag_caps_at t' (set_cap 4 (63 :: q) (set_cap 5 q c))) as (F1 & F2 & F3).
      * caps. exact A6.
      * caps. exact A7.
      * destruct t' eqn:F; [auto|]. right. apply from_out_head in F. destruct F as [<-|[]]. eauto.
      * rewrite (F3 4%nat), (F3 5%nat) by lia. caps. spl.
        -- rewrite F1. cbn. f_equal. apply before_from.
        -- left. reflexivity.
        -- apply before_lacks. left. reflexivity.
        -- exact F2.
        -- intros i Hi. rewrite F3 by lia. caps. reflexivity.
    + assert (x = 35) by (destruct H as [<-|[<-|[]]]; [rewrite Z.eqb_refl in E; discriminate|reflexivity]). subst x.
      destruct (frag_caps_at (35 :: r) c A6 A7) as (F1 & F2 & F3); [eauto|]. rewrite (F3 4%nat), (F3 5%nat), A4, A5 by lia. spl; auto.
      * right; auto.
      * intros [].
Qed.
Lemma hier_caps_at : forall t c, c 3%nat = [] -> c 4%nat = [] -> c 5%nat = [] -> c 6%nat = [] -> c 7%nat = [] ->
  let d := hier_caps t c in
  t = d 3%nat ++ d 4%nat ++ d 6%nat /\ lacks 63 (d 3%nat) /\ lacks 35 (d 3%nat) /\
  marked 63 (d 4%nat) (d 5%nat) /\ lacks 35 (d 5%nat) /\ marked 35 (d 6%nat) (d 7%nat) /\ forall i, (i < 3)%nat -> d i = c i.
Proof.
  intros t c A3 A4 A5 A6 A7. cbv zeta. unfold hier_caps. set (t' := from (out (none_of [63; 35])) t). set (h := before (out (none_of [63; 35])) t).
  destruct (tail_caps_at t' (set_cap 3 h c)) as (T1 & T2 & T3 & T4 & T5); try (caps; assumption).
  { destruct t' eqn:F; [auto|]. right. apply from_out_head in F. eauto. }
  rewrite (T5 3%nat) by lia. caps. spl; auto.
  - rewrite <- T1. apply before_from.
  - apply before_lacks. cbn. auto.
  - apply before_lacks. cbn. auto.
  - intros i Hi. rewrite T5 by lia. caps. reflexivity.
Qed.

Lemma alpha_iff : forall x, alpha x = true <-> (97 <= x <= 122 \/ 65 <= x <= 90).
Proof. intros. unfold alpha. rewrite Bool.orb_true_iff, !Bool.andb_true_iff, !Z.leb_le. tauto. Qed.
Lemma before_none_at : forall cls a c r, (forall x, In x a -> cls x = true) -> cls c = false -> from (out cls) (a ++ c :: r) = c :: r /\ before (out cls) (a ++ c :: r) = a.
Proof.
  intros cls a c r Ha Hc. induction a as [|x a IH]; cbn.
  - unfold out. rewrite Hc. cbn. auto.
  - unfold out at 1 3. rewrite (Ha x (or_introl eq_refl)). cbn [negb]. destruct IH as [I1 I2]; [intros; apply Ha; right; auto|]. rewrite I1, I2. auto.
Qed.
Lemma scheme_some : forall s sch r, scheme_of s = Some (sch, r) <-> (valid_scheme sch /\ s = sch ++ 58 :: r).
Proof.
  intros s sch r. split.
  - destruct s as [|x t]; [discriminate|]. cbn [scheme_of]. destruct (alpha x) eqn:A; [|discriminate].
    destruct (from (out n4) t) as [|y r'] eqn:F; [discriminate|]. destruct (y =? 58) eqn:E; [|discriminate]. apply Z.eqb_eq in E. subst y.
    intro H. inversion H. subst. split.
    + exists x, (before (out n4) t). apply alpha_iff in A. spl; auto; apply before_lacks; cbn; auto.
    + cbn. f_equal. rewrite <- F. apply before_from.
  - intros ((x & t & -> & A & L1 & L2 & L3 & L4) & ->). cbn [scheme_of app]. apply alpha_iff in A. rewrite A.
    destruct (before_none_at n4 t 58 r) as [F B].
    + intros y Hy. apply none_of_iff. intros [<-|[<-|[<-|[<-|[]]]]]; contradiction.
    + reflexivity.
    + rewrite F, B. reflexivity.
Qed.
Lemma uri_top : forall s, line_free s -> let d := regex_match rx_uri s in
  top_parts s (d 1%nat) (d 2%nat) (d 3%nat) (d 4%nat) (d 5%nat) (d 6%nat) (d 7%nat).
Proof.
  intros s L. cbv zeta. rewrite (uri_caps s L). destruct (scheme_of s) as [(sch, r)|] eqn:E.
  - apply scheme_some in E. destruct E as [V ->].
    destruct (hier_caps_at r (set_cap 1 (sch ++ [58]) (set_cap 2 sch no_caps))) as (H1 & H2 & H3 & H4 & H5 & H6 & H7); try reflexivity.
    rewrite (H7 1%nat), (H7 2%nat) by lia. caps. unfold top_parts. spl; auto.
    rewrite <- H1. rewrite <- app_assoc. reflexivity.
  - destruct (hier_caps_at s no_caps) as (H1 & H2 & H3 & H4 & H5 & H6 & H7); try reflexivity.
    rewrite (H7 1%nat), (H7 2%nat) by lia. unfold no_caps at 1 2. unfold top_parts. spl; auto.
    right. spl; auto. intros sch r V Q. assert (X : scheme_of s = Some (sch, r)) by (apply scheme_some; auto). congruence.
Qed.

(** ** The hierarchical part. *)
Lemma path_star : forall s c n, line_free s -> rx_m (RGrp n (RStar any)) s c k0 = Some (set_cap n s c).
Proof.
  intros s c n L. cbn [rx_m]. apply star_greedy. rewrite (from_all any s (line_any s L)). cbn [k0]. rewrite cut_all. reflexivity.
Qed.
Lemma uri_hier : forall h, line_free h -> let d := regex_match rx_hier h in hier_parts h (d 1%nat) (d 2%nat) (d 3%nat).
Proof.
  intros h L. cbv zeta. unfold regex_match, rx_hier.
  change (rx_m _ h no_caps _) with
    (match rx_m (RGrp 1 (RCat (chr 47) (RCat (chr 47) (RGrp 2 (RStar (none_of [47])))))) h no_caps (fun t c => rx_m (RGrp 3 (RStar any)) t c k0) with
     Some r => Some r | None => rx_m (RGrp 3 (RStar any)) h no_caps k0 end).
  rewrite (path_star h no_caps 3 L).
  assert (No : (forall t, h <> 47 :: 47 :: t) -> hier_parts h (set_cap 3 h no_caps 1%nat) (set_cap 3 h no_caps 2%nat) (set_cap 3 h no_caps 3%nat)).
  { intro N. caps. split; [reflexivity|]. right. spl; auto. }
  destruct h as [|x [|y t]].
  - apply No. discriminate.
  - cbn [rx_m chr]. destruct (47 =? x); apply No; discriminate.
  - cbn [rx_m chr]. destruct (47 =? x) eqn:E1; [|apply No; intros u Q; inversion Q; subst; discriminate].
    destruct (47 =? y) eqn:E2; [|apply No; intros u Q; inversion Q; subst; discriminate].
    apply Z.eqb_eq in E1, E2. subst x y. set (a := before (out (none_of [47])) t). set (p := from (out (none_of [47])) t).
    assert (S : t = a ++ p) by apply before_from.
    rewrite (star_greedy (none_of [47]) t _ (set_cap 3 p (set_cap 1 (47 :: 47 :: a) (set_cap 2 a no_caps)))).
    + caps. split; [cbn; rewrite <- S; reflexivity|]. left. spl; auto.
      * apply before_lacks. left. reflexivity.
      * destruct p as [|z q] eqn:P; [auto|]. right. apply from_out_head in P. destruct P as [<-|[]]. eauto.
    + fold p. assert (Lp : line_free p). { rewrite S in L. change (47 :: 47 :: a ++ p) with ((47 :: 47 :: a) ++ p) in L. apply line_suffix in L. apply L. }
      pose proof (path_star p (set_cap 1 (47 :: 47 :: a) (set_cap 2 a no_caps)) 3 Lp) as PS. cbn [rx_m] in PS. rewrite <- PS. f_equal.
      rewrite S. change (47 :: 47 :: a ++ p) with ((47 :: 47 :: a) ++ p). rewrite !cut_eq. reflexivity.
Qed.

(** ** The authority. *)
Definition ka (t : list Z) (c : caps) := rx_m (RGrp 6 (RStar any)) t c k0.
Lemma at_none : forall a c, lacks 64 a ->
  rx_m (RGrp 1 (RCat (RGrp 2 (RCat (RGrp 3 (RStar (none_of [58; 64]))) (ROpt (RGrp 4 (RCat (chr 58) (RGrp 5 (RStar (none_of [64])))))))) (chr 64))) a c ka = None.
Proof.
  intros a c L. cbn [rx_m chr]. apply star_none. intros p t ->. apply lacks_app in L. destruct L as [_ L].
  assert (H : forall t' : list Z, lacks 64 t' -> forall k : list Z -> option caps, (match t' with x :: u => if 64 =? x then k u else None | [] => None end) = None).
  { intros [|x u] L' k; [reflexivity|]. apply lacks_cons in L'. destruct (64 =? x) eqn:E; [apply Z.eqb_eq in E; lia|reflexivity]. }
  destruct t as [|x u]; [reflexivity|].
  match goal with |- match ?m with Some _ => _ | None => _ end = None => assert (X : m = None) end.
  { destruct (58 =? x); [|reflexivity]. apply star_none. intros p' t' E. apply (H t'). apply lacks_cons in L. destruct L as [_ L]. rewrite E in L. apply lacks_app in L. apply L. }
  rewrite X. destruct (64 =? x) eqn:E; [|reflexivity]. apply Z.eqb_eq in E. apply lacks_cons in L. lia.
Qed.
Lemma uri_auth : forall a, line_free a -> let d := regex_match rx_auth a in
  auth_parts a (d 1%nat) (d 2%nat) (d 3%nat) (d 4%nat) (d 5%nat) (d 6%nat).
Proof.
  intros a L. cbv zeta. unfold regex_match, rx_auth.
  change (rx_m _ a no_caps _) with
    (match rx_m (RGrp 1 (RCat (RGrp 2 (RCat (RGrp 3 (RStar (none_of [58; 64]))) (ROpt (RGrp 4 (RCat (chr 58) (RGrp 5 (RStar (none_of [64])))))))) (chr 64))) a no_caps ka with
     Some r => Some r | None => ka a no_caps end).
  assert (K : ka a no_caps = Some (set_cap 6 a no_caps)) by (apply path_star; exact L). rewrite K.
  destruct (in_dec Z.eq_dec 64 a) as [I|I].
  2: { rewrite (at_none a no_caps I). caps. unfold no_caps, auth_parts. split; [reflexivity|]. split; [reflexivity|]. split; [intros []|]. split; right; auto. }
  set (us := before (out (none_of [58; 64])) a). set (r := from (out (none_of [58; 64])) a).
  assert (S : a = us ++ r) by apply before_from.
  assert (U58 : lacks 58 us) by (apply before_lacks; cbn; auto). assert (U64 : lacks 64 us) by (apply before_lacks; cbn; auto).
  destruct r as [|x t] eqn:R.
  { exfalso. apply U64. rewrite S in I. rewrite app_nil_r in I. exact I. }
  assert (Hx : x = 58 \/ x = 64) by (apply from_out_head in R; destruct R as [<-|[<-|[]]]; auto).
  assert (Lt : line_free t). { rewrite S in L. change (x :: t) with ([x] ++ t) in L. rewrite app_assoc in L. apply line_suffix in L. apply L. }
  destruct Hx as [->| ->].
  - (* a password *)
    set (pw := before (out (none_of [64])) t). set (r2 := from (out (none_of [64])) t).
    assert (S2 : t = pw ++ r2) by apply before_from. assert (P64 : lacks 64 pw) by (apply before_lacks; cbn; auto).
    destruct r2 as [|y hi] eqn:R2.
    { exfalso. rewrite app_nil_r in S2. rewrite S, S2 in I. apply in_app_iff in I. destruct I as [I|[I|I]]; [auto|discriminate|auto]. }
    assert (y = 64) by (apply from_out_head in R2; destruct R2 as [<-|[]]; auto). subst y.
    assert (E : rx_m (RGrp 1 (RCat (RGrp 2 (RCat (RGrp 3 (RStar (none_of [58; 64]))) (ROpt (RGrp 4 (RCat (chr 58) (RGrp 5 (RStar (none_of [64])))))))) (chr 64))) a no_caps ka
      = Some (set_cap 6 hi (set_cap 1 ((us ++ 58 :: pw) ++ [64]) (set_cap 2 (us ++ 58 :: pw) (set_cap 4 (58 :: pw) (set_cap 5 pw (set_cap 3 us no_caps))))))).
    { cbn [rx_m chr]. apply star_greedy. fold r. rewrite R, Z.eqb_refl.
      erewrite (star_greedy (none_of [64]) t); [reflexivity|]. fold r2. rewrite R2, Z.eqb_refl. unfold ka.
      rewrite path_star; [|rewrite S2 in Lt; change (64 :: hi) with ([64] ++ hi) in Lt; rewrite app_assoc in Lt; apply line_suffix in Lt; apply Lt].
      f_equal. f_equal. f_equal.
      - rewrite S, S2. replace (us ++ 58 :: pw ++ 64 :: hi) with (((us ++ 58 :: pw) ++ [64]) ++ hi) by (rewrite <- !app_assoc; reflexivity). apply cut_eq.
      - f_equal.
        + rewrite S, S2. replace (us ++ 58 :: pw ++ 64 :: hi) with ((us ++ 58 :: pw) ++ 64 :: hi) by (rewrite <- !app_assoc; reflexivity). apply cut_eq.
        + f_equal.
          * rewrite S2. rewrite app_comm_cons. apply cut_eq.
          * f_equal; [rewrite S2; apply cut_eq|]. f_equal. rewrite S. apply cut_eq. }
    rewrite E. caps. unfold auth_parts. spl; auto.
    + rewrite S, S2. rewrite <- !app_assoc. reflexivity.
    + left. reflexivity.
    + left. split; [reflexivity|]. apply lacks_app. split; [exact U64|]. apply lacks_cons. split; [lia|exact P64].
  - assert (E : rx_m (RGrp 1 (RCat (RGrp 2 (RCat (RGrp 3 (RStar (none_of [58; 64]))) (ROpt (RGrp 4 (RCat (chr 58) (RGrp 5 (RStar (none_of [64])))))))) (chr 64))) a no_caps ka
      = Some (set_cap 6 t (set_cap 1 (us ++ [64]) (set_cap 2 us (set_cap 3 us no_caps))))).
    { cbn [rx_m chr]. apply star_greedy. fold r. rewrite R. change (58 =? 64) with false. cbv iota. rewrite Z.eqb_refl. unfold ka. rewrite path_star by exact Lt.
      f_equal. f_equal. f_equal.
      - rewrite S. change (64 :: t) with ([64] ++ t). rewrite app_assoc. apply cut_eq.
      - f_equal; [rewrite S; apply cut_eq|]. f_equal. rewrite S. apply cut_eq. }
    rewrite E. caps. unfold no_caps, auth_parts. spl; auto.
    + rewrite S, <- app_assoc. reflexivity.
    + rewrite app_nil_r. reflexivity.
    + right. auto.
Qed.

(** ** The host. *)
Definition kp (t : list Z) (c : caps) := rx_m (ROpt (RGrp 5 (RCat (chr 58) (RGrp 6 (RCat (RChr digit) (RStar digit)))))) t c k0.
Definition kn (t : list Z) (c : caps) := rx_m (ROpt (RGrp 4 (RStar (none_of [58])))) t c kp.
Lemma digit_iff : forall x, digit x = true <-> 48 <= x <= 57.
Proof. intros. unfold digit. rewrite Bool.andb_true_iff, !Z.leb_le. tauto. Qed.
Lemma kp_some : forall p c, p <> [] -> all_digits p -> kp (58 :: p) c = Some (set_cap 5 (58 :: p) (set_cap 6 p c)).
Proof.
  intros p c N D. destruct p as [|d ds]; [contradiction|]. unfold kp. cbn [rx_m chr]. rewrite Z.eqb_refl. unfold all_digits in D. inversion D as [|? ? Hd Hs]. subst.
  apply digit_iff in Hd. rewrite Hd. erewrite star_greedy; [reflexivity|]. rewrite (from_all digit ds).
  - cbn [k0]. rewrite !cut_all. reflexivity.
  - intros x Hx. apply digit_iff. rewrite Forall_forall in Hs. auto.
Qed.
Lemma kp_inv : forall t c d, kp t c = Some d -> (t = [] /\ d = c) \/ (exists p, t = 58 :: p /\ p <> [] /\ all_digits p /\ d = set_cap 5 (58 :: p) (set_cap 6 p c)).
Proof.
  intros t c d H. destruct t as [|x t]; [left; inversion H; auto|]. right. unfold kp in H. cbn [rx_m chr] in H.
  destruct (58 =? x) eqn:E; [|discriminate]. apply Z.eqb_eq in E. subst x. destruct t as [|y t]; [discriminate|]. destruct (digit y) eqn:D; [|discriminate].
  rewrite star_max in H by reflexivity. destruct (from (out digit) t) as [|z r] eqn:F; [|discriminate].
  assert (A : all_digits (y :: t)).
  { constructor; [apply digit_iff; exact D|]. apply Forall_forall. intros w Hw. apply digit_iff. apply (from_nil _ _ _ F) in Hw. unfold out in Hw. destruct (digit w); [reflexivity|discriminate]. }
  exists (y :: t). spl; auto; [discriminate|]. cbn [k0] in H. rewrite !cut_all in H. inversion H. reflexivity.
Qed.
Lemma kn_eq : forall t c, kn t c = match kp (from (out (none_of [58])) t) (set_cap 4 (before (out (none_of [58])) t) c) with Some r => Some r | None => kp t c end.
Proof.
  intros. unfold kn. cbn [rx_m]. rewrite star_max.
  - rewrite cut_from. reflexivity.
  - intros x u Hx. apply none_of_iff in Hx. unfold kp. cbn [rx_m chr]. destruct (58 =? x) eqn:E; [|reflexivity]. exfalso. apply Hx. apply Z.eqb_eq in E. left. exact E.
Qed.
Lemma kn_kp : forall t c, kn t c = kp (from (out (none_of [58])) t) (set_cap 4 (before (out (none_of [58])) t) c).
Proof.
  intros. rewrite kn_eq. destruct (kp (from _ _) _) eqn:E; [reflexivity|]. destruct (kp t c) eqn:K; [|reflexivity]. exfalso.
  apply kp_inv in K. destruct K as [(-> & _)|(p & -> & N & D & _)]; [discriminate|]. change (from (out (none_of [58])) (58 :: p)) with (58 :: p) in E.
  rewrite kp_some in E by auto. discriminate.
Qed.
Lemma kn_some : forall t c d, c 6%nat = [] -> kn t c = Some d -> named t (d 4%nat) (d 6%nat) /\ forall i, (i < 4)%nat -> d i = c i.
Proof.
  intros t c d Z6 H. rewrite kn_kp in H. apply kp_inv in H. destruct H as [(F & ->)|(p & F & N & D & ->)]; caps; split.
  - rewrite Z6. split; [apply before_lacks; left; reflexivity|]. left. split; [|reflexivity]. rewrite (before_from (out (none_of [58])) t) at 1. rewrite F, app_nil_r. reflexivity.
  - intros i Hi. caps. reflexivity.
  - split; [apply before_lacks; left; reflexivity|]. right. spl; auto. rewrite (before_from (out (none_of [58])) t) at 1. rewrite F. reflexivity.
  - intros i Hi. caps. reflexivity.
Qed.
Lemma lacks_none_of : forall x s, lacks x s -> forall c, In c s -> none_of [x] c = true.
Proof. intros x s L c H. apply none_of_iff. intros [<-|[]]. contradiction. Qed.
Lemma kn_none : forall t c, kn t c = None -> forall nm p, ~ named t nm p.
Proof.
  intros t c H nm p (L & [(-> & ->)|(-> & N & D)]); rewrite kn_kp in H.
  - rewrite (from_all (none_of [58]) nm (lacks_none_of 58 nm L)) in H. discriminate.
  - destruct (before_none_at (none_of [58]) nm 58 p (lacks_none_of 58 nm L) eq_refl) as [F _]. rewrite F in H. rewrite kp_some in H by auto. discriminate.
Qed.
Definition brk (s : list Z) (c : caps) := rx_m (RGrp 1 (RGrp 2 (RCat (chr 91) (RCat (ROpt (RGrp 3 (RStar (none_of [93])))) (chr 93))))) s c kn.
Lemma brk_other : forall s c, (forall t, s <> 91 :: t) -> brk s c = None.
Proof. intros [|x t] c H; [reflexivity|]. unfold brk. cbn [rx_m chr]. destruct (91 =? x) eqn:E; [|reflexivity]. apply Z.eqb_eq in E. subst. exfalso. apply (H t). reflexivity. Qed.
Lemma brk_eq : forall t c, let lit := before (out (none_of [93])) t in
  match from (out (none_of [93])) t with
  | [] => brk (91 :: t) c = None
  | _ :: r => exists a b a' b', brk (91 :: t) c =
      match kn r (set_cap 1 a (set_cap 2 b (set_cap 3 lit c))) with Some d => Some d | None => match lit with [] => kn r (set_cap 1 a' (set_cap 2 b' c)) | _ => None end end
  end.
Proof.
  intros t c. cbv zeta. unfold brk. cbn [rx_m chr]. rewrite Z.eqb_refl. rewrite star_max.
  2: { intros x u Hx. apply none_of_iff in Hx. destruct (93 =? x) eqn:E; [|reflexivity]. exfalso. apply Hx. apply Z.eqb_eq in E. left. exact E. }
  pose proof (before_from (out (none_of [93])) t) as S. rewrite cut_from. destruct (from (out (none_of [93])) t) as [|y r] eqn:F.
  - destruct t as [|x u]; [reflexivity|]. destruct (93 =? x) eqn:E; [|reflexivity]. apply Z.eqb_eq in E. subst x. discriminate.
  - assert (y = 93) by (apply from_out_head in F; destruct F as [<-|[]]; auto). subst y. rewrite Z.eqb_refl.
    destruct (before (out (none_of [93])) t) as [|l0 ls] eqn:B.
    + cbn [app] in S. rewrite S. rewrite Z.eqb_refl. do 4 eexists. reflexivity.
    + exists (firstn (length (91 :: t) - length r) (91 :: t)), (firstn (length (91 :: t) - length r) (91 :: t)), [], [].
      assert (X : (93 =? l0) = false). { destruct (93 =? l0) eqn:E; [|reflexivity]. apply Z.eqb_eq in E. exfalso.
        assert (Q : lacks 93 (before (out (none_of [93])) t)) by (apply before_lacks; left; reflexivity). apply Q. rewrite B. left. auto. }
      clear B F. destruct t as [|x0 t0]; [discriminate|]. cbn [app] in S. injection S as S0 S1. rewrite S0, X. reflexivity.
Qed.
Lemma first_of : forall x a b, exists a' b', a ++ x :: b = a' ++ x :: b' /\ lacks x a'.
Proof.
  intros x a b. induction a as [|y a IH]; [exists [], b; split; [reflexivity|intros []]|]. destruct (Z.eq_dec y x) as [->|N].
  - exists [], (a ++ x :: b). split; [reflexivity|intros []].
  - destruct IH as (a' & b' & E & L). exists (y :: a'), b'. cbn. rewrite E. split; [reflexivity|]. apply lacks_cons. auto.
Qed.
Lemma brk_some : forall s d, brk s no_caps = Some d -> exists r, s = 91 :: d 3%nat ++ 93 :: r /\ lacks 93 (d 3%nat) /\ named r (d 4%nat) (d 6%nat).
Proof.
  intros s d H. destruct s as [|x t]; [discriminate|]. destruct (Z.eq_dec x 91) as [->|N].
  2: { rewrite brk_other in H; [discriminate|]. intros u Q. inversion Q. contradiction. }
  pose proof (brk_eq t no_caps) as B. cbv zeta in B. pose proof (before_from (out (none_of [93])) t) as S.
  assert (L : lacks 93 (before (out (none_of [93])) t)) by (apply before_lacks; left; reflexivity).
  destruct (from (out (none_of [93])) t) as [|y r] eqn:F; [congruence|].
  assert (y = 93) by (apply from_out_head in F; destruct F as [<-|[]]; auto). subst y. destruct B as (a & b & a' & b' & B). rewrite B in H. exists r.
  destruct (kn r (set_cap 1 a (set_cap 2 b (set_cap 3 (before (out (none_of [93])) t) no_caps)))) as [d1|] eqn:K.
  - inversion H. subst d1. apply kn_some in K; [|caps; reflexivity]. destruct K as [K1 K2]. rewrite (K2 3%nat) by lia. caps. rewrite <- S. auto.
  - destruct (before (out (none_of [93])) t) as [|l0 ls]; [|discriminate]. apply kn_some in H; [|caps; reflexivity]. destruct H as [K1 K2].
    exfalso. apply (kn_none _ _ K _ _ K1).
Qed.
Lemma brk_none : forall s c, brk s c = None -> forall lit r nm p, s = 91 :: lit ++ 93 :: r -> lacks 93 lit -> ~ named r nm p.
Proof.
  intros s c H lit r nm p -> L Q. pose proof (brk_eq (lit ++ 93 :: r) c) as B. cbv zeta in B.
  destruct (before_none_at (none_of [93]) lit 93 r (lacks_none_of 93 lit L) eq_refl) as [F1 F2]. rewrite F1, F2 in B. destruct B as (a & b & a' & b' & B). rewrite B in H.
  destruct (kn r _) eqn:K in H; [discriminate|]. apply (kn_none _ _ K nm p Q).
Qed.
Lemma app_split : forall (a b c d : list Z), a ++ b = c ++ d -> (exists l, a = c ++ l /\ d = l ++ b) \/ (exists l, c = a ++ l /\ b = l ++ d).
Proof.
  induction a as [|x a IH]; intros b c d H; cbn in H; [right; exists c; auto|]. destruct c as [|y c]; cbn in H.
  - left. exists (x :: a). auto.
  - inversion H. subst y. destruct (IH b c d H2) as [(l & A & B)|(l & A & B)]; subst; [left|right]; exists l; auto.
Qed.
Lemma named_inner : forall lit r nm p, named (91 :: lit ++ 93 :: r) nm p -> exists nm', named r nm' p.
Proof.
  intros lit r nm p (L & [(E & ->)|(E & N & D)]).
  - exists r. split; [|left; auto]. rewrite <- E in L. apply lacks_cons in L. destruct L as [_ L]. apply lacks_app in L. destruct L as [_ L]. apply lacks_cons in L. apply L.
  - replace (91 :: lit ++ 93 :: r) with ((91 :: lit ++ [93]) ++ r) in E by (cbn; rewrite <- app_assoc; reflexivity). apply app_split in E.
    destruct E as [(l & A & B)|(l & A & B)].
    + destruct l as [|y l] using rev_ind.
      * cbn in B. exists []. subst r. split; [intros []|]. right. auto.
      * exfalso. clear IHl. rewrite app_comm_cons in A. rewrite app_assoc in A. apply app_inj_tail in A. destruct A as [_ <-].
        assert (I : In 93 (58 :: p)) by (rewrite B; apply in_app_iff; left; apply in_app_iff; right; left; reflexivity).
        destruct I as [I|I]; [discriminate|]. unfold all_digits in D. rewrite Forall_forall in D. apply D in I. lia.
    + exists l. split; [rewrite A in L; apply lacks_app in L; apply L|]. right. auto.
Qed.
Lemma uri_host : forall hi, let d := regex_match rx_host hi in host_parts hi (if isnil (d 3%nat) then d 4%nat else d 3%nat) (d 6%nat).
Proof.
  intros hi. cbv zeta. unfold regex_match, rx_host. change (rx_m _ hi no_caps _) with (match brk hi no_caps with Some r => Some r | None => kn hi no_caps end).
  destruct (brk hi no_caps) as [d|] eqn:B.
  - apply brk_some in B. destruct B as (r & S & L & K). left. exists (d 3%nat), r, (d 4%nat). spl; auto. destruct (d 3%nat); reflexivity.
  - pose proof (brk_none hi no_caps B) as NB. destruct (kn hi no_caps) as [d|] eqn:K.
    + destruct (kn_some hi no_caps d eq_refl K) as [K1 K2]. right. left. rewrite (K2 3%nat) by lia. cbn [no_caps isnil]. split; [|exact K1].
      intros lit t E. destruct (first_of 93 lit t) as (lit' & t' & E' & L'). rewrite E' in E. rewrite E in K1. destruct (named_inner _ _ _ _ K1) as (nm' & Q).
      apply (NB lit' t' nm' (d 6%nat) E L' Q).
    + right. right. spl; auto. apply (kn_none _ _ K).
Qed.
