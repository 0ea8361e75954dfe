(** Uniqueness of the parts, resolving references, the public URI. *)
From Verif Require Import Base BaseFacts Hex URI URISpec URIProofs URIParse URIParseSpec URIParseProofs.
Open Scope res_scope.

(** ** The parts are unique. *)
Lemma run_unique : forall (P : Z -> Prop) a b x y, (forall c, In c a -> ~ P c) -> (forall c, In c b -> ~ P c) ->
  (x = [] \/ exists c r, x = c :: r /\ P c) -> (y = [] \/ exists c r, y = c :: r /\ P c) -> a ++ x = b ++ y -> a = b /\ x = y.
Proof.
  intros P a b x y Ha Hb Hx Hy E. apply app_split in E. destruct E as [(l & -> & ->)|(l & -> & ->)].
  - destruct l as [|z l]; [rewrite app_nil_r; auto|]. exfalso. destruct Hy as [Q|(c & r & Q & Pc)]; [discriminate|]. inversion Q. subst. apply (Ha c); [apply in_app_iff; right; left; reflexivity|exact Pc].
  - destruct l as [|z l]; [rewrite app_nil_r; auto|]. exfalso. destruct Hx as [Q|(c & r & Q & Pc)]; [discriminate|]. inversion Q. subst. apply (Hb c); [apply in_app_iff; right; left; reflexivity|exact Pc].
Qed.
Lemma marked_head : forall c p b, marked c p b -> p = [] \/ exists x r, p = x :: r /\ x = c.
Proof. intros c p b [->|[-> ->]]; eauto. Qed.
Lemma marked_inj : forall c p b b', marked c p b -> marked c p b' -> b = b'.
Proof. intros c p b b' [->|[-> ->]] [H|[H ->]]; try discriminate; [injection H as <-; reflexivity|reflexivity]. Qed.
Lemma scheme_lacks : forall sch, valid_scheme sch -> lacks 58 sch /\ lacks 47 sch /\ lacks 63 sch /\ lacks 35 sch.
Proof. intros sch (x & t & -> & A & L1 & L2 & L3 & L4). rewrite !lacks_cons. repeat split; auto; lia. Qed.
Lemma scheme_unique : forall a b x y, valid_scheme a -> valid_scheme b -> a ++ 58 :: x = b ++ 58 :: y -> a = b /\ x = y.
Proof.
  intros a b x y Va Vb E. apply (run_unique (fun c => c = 58)) in E.
  - destruct E as [-> E]. injection E as ->. auto.
  - intros c H ->. apply scheme_lacks in Va. apply Va in H. exact H.
  - intros c H ->. apply scheme_lacks in Vb. apply Vb in H. exact H.
  - right. eauto.
  - right. eauto.
Qed.
Lemma top_unique : forall s sp sch h qp q fp f sp' sch' h' qp' q' fp' f',
  top_parts s sp sch h qp q fp f -> top_parts s sp' sch' h' qp' q' fp' f' ->
  sp = sp' /\ sch = sch' /\ h = h' /\ qp = qp' /\ q = q' /\ fp = fp' /\ f = f'.
Proof.
  intros s sp sch h qp q fp f sp' sch' h' qp' q' fp' f' (E & S & H1 & H2 & Q & Q1 & F) (E' & S' & H1' & H2' & Q' & Q1' & F').
  assert (A : sp = sp' /\ sch = sch' /\ h ++ qp ++ fp = h' ++ qp' ++ fp').
  { destruct S as [(V & ->)|(-> & -> & N)], S' as [(V' & ->)|(-> & -> & N')].
    - rewrite E in E'. rewrite <- !app_assoc in E'. cbn [app] in E'. apply scheme_unique in E'; auto. destruct E' as [-> ->]. auto.
    - exfalso. apply (N' sch (h ++ qp ++ fp) V). rewrite E, <- app_assoc. reflexivity.
    - exfalso. apply (N sch' (h' ++ qp' ++ fp') V'). rewrite E', <- app_assoc. reflexivity.
    - cbn [app] in *. rewrite <- E, <- E'. auto. }
  destruct A as (-> & -> & A). apply (run_unique (fun c => c = 63 \/ c = 35)) in A.
  - destruct A as [-> A]. apply (run_unique (fun c => c = 35)) in A.
    + destruct A as [-> ->]. rewrite (marked_inj _ _ _ _ Q Q'), (marked_inj _ _ _ _ F F'). repeat split; reflexivity.
    + intros c I ->. destruct Q as [->|[-> ->]]; [|exact I]. destruct I as [I|I]; [discriminate|contradiction].
    + intros c I ->. destruct Q' as [->|[-> ->]]; [|exact I]. destruct I as [I|I]; [discriminate|contradiction].
    + apply marked_head in F. exact F.
    + apply marked_head in F'. exact F'.
  - intros c I [->| ->]; contradiction.
  - intros c I [->| ->]; contradiction.
  - destruct Q as [->|[-> ->]]; [right; cbn; eauto|]. destruct F as [->|[-> ->]]; [right; cbn; eauto|]. left. reflexivity.
  - destruct Q' as [->|[-> ->]]; [right; cbn; eauto|]. destruct F' as [->|[-> ->]]; [right; cbn; eauto|]. left. reflexivity.
Qed.
Lemma hier_unique : forall h ap auth path ap' auth' path', hier_parts h ap auth path -> hier_parts h ap' auth' path' -> ap = ap' /\ auth = auth' /\ path = path'.
Proof.
  intros h ap auth path ap' auth' path' (E & S) (E' & S').
  destruct S as [(-> & L & P)|(-> & -> & N)], S' as [(-> & L' & P')|(-> & -> & N')].
  - rewrite E in E'. cbn [app] in E'. injection E' as E'. apply (run_unique (fun c => c = 47)) in E'.
    + destruct E' as [-> ->]. auto.
    + intros c I ->. contradiction.
    + intros c I ->. contradiction.
    + destruct P as [->|[t ->]]; eauto.
    + destruct P' as [->|[t ->]]; eauto.
  - exfalso. apply (N' (auth ++ path)). exact E.
  - exfalso. apply (N (auth' ++ path')). exact E'.
  - cbn [app] in *. subst. auto.
Qed.
Lemma auth_unique : forall a uip ui us pwp pw hi uip' ui' us' pwp' pw' hi',
  auth_parts a uip ui us pwp pw hi -> auth_parts a uip' ui' us' pwp' pw' hi' -> uip = uip' /\ ui = ui' /\ us = us' /\ pwp = pwp' /\ pw = pw' /\ hi = hi'.
Proof.
  intros a uip ui us pwp pw hi uip' ui' us' pwp' pw' hi' (E & U & L & M & S) (E' & U' & L' & M' & S').
  assert (A : uip = uip' /\ ui = ui' /\ hi = hi').
  { destruct S as [(-> & N)|(-> & -> & N)], S' as [(-> & N')|(-> & -> & N')].
    - rewrite E in E'. rewrite <- !app_assoc in E'. cbn [app] in E'. apply (run_unique (fun c => c = 64)) in E'; [|intros c I ->; contradiction|intros c I ->; contradiction|eauto|eauto].
      destruct E' as [-> E']. injection E' as ->. auto.
    - exfalso. apply N'. rewrite E. rewrite <- app_assoc. apply in_app_iff. right. left. reflexivity.
    - exfalso. apply N. rewrite E'. rewrite <- app_assoc. apply in_app_iff. right. left. reflexivity.
    - cbn [app] in *. subst. auto. }
  destruct A as (-> & A & ->). subst ui'. rewrite U in A. apply (run_unique (fun c => c = 58)) in A.
  - destruct A as [-> ->]. rewrite (marked_inj _ _ _ _ M M'). repeat split; auto.
  - intros c I ->. contradiction.
  - intros c I ->. contradiction.
  - apply marked_head in M. exact M.
  - apply marked_head in M'. exact M'.
Qed.
Lemma named_unique : forall t nm p nm' p', named t nm p -> named t nm' p' -> nm = nm' /\ p = p'.
Proof.
  intros t nm p nm' p' (L & S) (L' & S'). destruct S as [(-> & ->)|(-> & N & D)], S' as [(E & ->)|(E & N' & D')].
  - auto.
  - exfalso. apply L. rewrite E. apply in_app_iff. right. left. reflexivity.
  - exfalso. apply L'. rewrite <- E. apply in_app_iff. right. left. reflexivity.
  - apply (run_unique (fun c => c = 58)) in E; [|intros c I ->; contradiction|intros c I ->; contradiction|eauto|eauto]. destruct E as [-> E]. injection E as ->. auto.
Qed.
Lemma host_unique : forall hi h p h' p', host_parts hi h p -> host_parts hi h' p' -> h = h' /\ p = p'.
Proof.
  intros hi h p h' p' [(lit & t & nm & E & L & N & ->)|[(E & N)|(-> & -> & N & B)]] [(lit' & t' & nm' & E' & L' & N' & ->)|[(E' & N')|(-> & -> & N' & B')]].
  - rewrite E in E'. injection E' as E'. apply (run_unique (fun c => c = 93)) in E'; [|intros c I ->; contradiction|intros c I ->; contradiction|eauto|eauto].
    destruct E' as [-> E']. injection E' as ->. destruct (named_unique _ _ _ _ _ N N') as [-> ->]. auto.
  - exfalso. apply (E' lit t E).
  - exfalso. apply (B' lit t nm p E L N).
  - exfalso. apply (E lit' t' E').
  - apply (named_unique _ _ _ _ _ N N').
  - exfalso. apply (N' _ _ N).
  - exfalso. apply (B lit' t' nm' p' E' L' N').
  - exfalso. apply (N _ _ N').
  - auto.
Qed.

(** ** parse. *)
Lemma lower_ok : forall s r, lowercase s = Ok r -> Forall2 (fun x y => y = if (65 <=? x) && (x <=? 90) then x + 32 else x) s r.
Proof.
  induction s as [|x t IH]; intros r H; cbn in H; [inversion H; constructor|]. unfold tolower in H. destruct (x <? -1); [discriminate|]. cbn [rbind] in H.
  destruct (lowercase t) as [r'| |]; cbn [rbind] in H; try discriminate. inversion H. constructor; auto.
Qed.
Lemma lower_defined : forall s, (exists r, lowercase s = Ok r) <-> Forall (fun x => -1 <= x) s.
Proof.
  induction s as [|x t IH]; cbn; [split; [constructor|eauto]|]. unfold tolower. destruct (x <? -1) eqn:E; cbn [rbind].
  - split; [intros [r H]; discriminate|]. intro H. inversion H. lia.
  - split.
    + intros [r H]. constructor; [lia|]. apply IH. destruct (lowercase t) as [r'| |]; cbn [rbind] in H; try discriminate. eauto.
    + intro H. inversion H. destruct (proj2 IH H3) as [r' Hr]. rewrite Hr. cbn [rbind]. eauto.
Qed.
Lemma lower_norej : forall s, lowercase s <> Rej.
Proof. induction s as [|x t IH]; cbn; [discriminate|]. unfold tolower. destruct (x <? -1); cbn [rbind]; [discriminate|]. destruct (lowercase t); cbn [rbind]; congruence. Qed.

(** every group is made of chars of the string *)
Definition caps_in (s0 : list Z) (c : caps) : Prop := forall n, incl (c n) s0.
Lemma star_suffix : forall cls s k d, star_m cls s k = Some d -> exists t, incl t s /\ k t = Some d.
Proof.
  induction s as [|x t IH]; cbn; intros k d H; [exists []; split; [apply incl_refl|exact H]|]. destruct (cls x).
  - destruct (star_m cls t k) eqn:E.
    + destruct (IH _ _ E) as (u & I & K). exists u. split; [apply incl_tl; exact I|congruence].
    + exists (x :: t). split; [apply incl_refl|exact H].
  - exists (x :: t). split; [apply incl_refl|exact H].
Qed.
Lemma firstn_incl : forall n (s : list Z), incl (firstn n s) s.
Proof. intros n s x H. rewrite <- (firstn_skipn n s). apply in_app_iff. left. exact H. Qed.
Lemma rx_in : forall r s0 s c k d, incl s s0 -> caps_in s0 c ->
  (forall t c', incl t s0 -> caps_in s0 c' -> k t c' = Some d -> caps_in s0 d) -> rx_m r s c k = Some d -> caps_in s0 d.
Proof.
  induction r as [cls|a IHa b IHb|cls|a IHa|n a IHa]; intros s0 s c k d I C K H; cbn [rx_m] in H.
  - destruct s as [|x t]; [discriminate|]. destruct (cls x); [|discriminate]. apply (K t c); auto. intros y Hy. apply I. right. exact Hy.
  - eapply IHa; [exact I|exact C| |exact H]. cbv beta. intros t c' It Cc Ht. eapply IHb; eauto.
  - apply star_suffix in H. destruct H as (t & It & H). apply (K t c); auto. eapply incl_tran; eauto.
  - destruct (rx_m a s c k) eqn:E.
    + inversion H. subst. eapply IHa; eauto.
    + apply (K s c); auto.
  - eapply IHa; [exact I|exact C| |exact H]. cbv beta. intros t c' It Cc Ht. apply (K t (set_cap n (firstn (length s - length t) s) c')); auto.
    intro m. unfold set_cap. destruct (Nat.eqb m n); [eapply incl_tran; [apply firstn_incl|exact I]|apply Cc].
Qed.
Lemma match_in : forall r s n, incl (regex_match r s n) s.
Proof.
  intros r s n. unfold regex_match. destruct (rx_m r s no_caps _) as [d|] eqn:E; [|intros x []]. 
  eapply (rx_in r s s no_caps); [apply incl_refl|intros m x []| |exact E]. cbv beta. intros [|y t] c' _ C Q; [|discriminate]. inversion Q. subst. exact C.
Qed.
Lemma parse_defined : forall s, Forall (fun x => -1 <= x) s -> exists u, uri_parse s = Ok u.
Proof.
  intros s H. unfold uri_parse. destruct (proj2 (lower_defined (regex_match rx_uri s 2%nat))) as [r R].
  - apply Forall_forall. intros x Hx. rewrite Forall_forall in H. apply H. apply (match_in rx_uri s 2%nat x Hx).
  - rewrite R. cbn [rbind]. eauto.
Qed.
Lemma line_incl : forall a b, incl a b -> line_free b -> line_free a.
Proof. intros a b I [A B]. split; intro H; [apply A|apply B]; apply I; exact H. Qed.

(** What a parsed reference's fields are. *)
Definition fields_of (s : list Z) (u : uri) : Prop :=
  top_parts s (u_scheme_part u) (u_scheme u) (u_hier u) (u_query_part u) (u_query u) (u_fragment_part u) (u_fragment u) /\
  hier_parts (u_hier u) (u_authority_part u) (u_authority u) (u_path u) /\
  auth_parts (u_authority u) (u_userinfo_part u) (u_userinfo u) (u_user u) (u_password_part u) (u_password u) (u_hostinfo u) /\
  host_parts (u_hostinfo u) (u_host u) (u_port u).
Lemma parse_fields : forall s u, line_free s -> uri_parse s = Ok u -> fields_of s u.
Proof.
  intros s u L H. unfold uri_parse in H. destruct (lowercase (regex_match rx_uri s 2%nat)) as [can| |]; cbn [rbind] in H; try discriminate.
  inversion H as [U]. clear H. unfold fields_of. cbn [u_scheme_part u_scheme u_hier u_query_part u_query u_fragment_part u_fragment u_authority_part u_authority u_path u_userinfo_part u_userinfo u_user u_password_part u_password u_hostinfo u_host u_port].
  pose proof (match_in rx_uri s 3%nat) as I1. pose proof (match_in rx_hier (regex_match rx_uri s 3%nat) 2%nat) as I2.
  assert (L1 := line_incl _ _ I1 L). assert (L2 := line_incl _ _ I2 L1).
  split; [apply uri_top; exact L|]. split; [apply uri_hier; exact L1|]. split; [apply uri_auth; exact L2|]. apply uri_host.
Qed.
Lemma parse_rest : forall s u, uri_parse s = Ok u ->
  u_uri u = s /\ Forall2 (fun x y => y = if (65 <=? x) && (x <=? 90) then x + 32 else x) (u_scheme u) (u_canonical u) /\
  u_public u = u_scheme_part u ++ (match u_authority_part u with [] => [] | _ => [47; 47] ++ u_hostinfo u end) ++ u_path u ++ u_query_part u /\
  u_origin u = (match u_scheme u, u_hostinfo u with [], _ => [] | _, [] => [] | _, _ => u_scheme u ++ [58; 47; 47] ++ u_hostinfo u end) /\
  u_effective u = (match u_port u, u_hostinfo u with [], _ :: _ => default_port (u_canonical u) | _, _ => u_port u end).
Proof.
  intros s u H. unfold uri_parse in H. destruct (lowercase (regex_match rx_uri s 2%nat)) as [can| |] eqn:Lo; cbn [rbind] in H; try discriminate.
  inversion H as [U]. clear H. cbn [u_uri u_scheme u_canonical u_public u_scheme_part u_authority_part u_hostinfo u_path u_query_part u_origin u_effective u_port].
  apply lower_ok in Lo. split; [reflexivity|]. split; [exact Lo|]. split; [|split].
  - destruct (regex_match rx_hier _ 1%nat); reflexivity.
  - destruct (regex_match rx_uri s 2%nat) as [|a b]; [reflexivity|]. destruct (regex_match rx_auth _ 6%nat) as [|x y]; reflexivity.
  - destruct (regex_match rx_host _ 6%nat) as [|x y]; [|reflexivity]. destruct (regex_match rx_auth _ 6%nat) as [|x' y']; reflexivity.
Qed.
Lemma str_eqb_dec : forall a b, str_eqb a b = if seg_dec a b then true else false.
Proof. intros. destruct (seg_dec a b) as [E|N]; [apply str_eqb_iff; exact E|]. destruct (str_eqb a b) eqn:E; [apply str_eqb_iff in E; contradiction|reflexivity]. Qed.

(** ** Resolving. *)
Definition ref_of (u : uri) : ref :=
  mkRef (match u_scheme_part u with [] => None | _ => Some (u_scheme u) end) (match u_authority_part u with [] => None | _ => Some (u_authority u) end) (u_path u)
        (match u_query_part u with [] => None | _ => Some (u_query u) end) (match u_fragment_part u with [] => None | _ => Some (u_fragment u) end).
Lemma ref_of_is : forall s u, line_free s -> uri_parse s = Ok u -> is_ref s (ref_of u).
Proof. intros s u L H. destruct (parse_fields s u L H) as (A & B & _). unfold is_ref. do 10 eexists. split; [exact A|]. split; [exact B|]. repeat split. Qed.
Lemma is_ref_unique : forall s r r', is_ref s r -> is_ref s r' -> r = r'.
Proof.
  intros s [a b c d e] [a' b' c' d' e'] (sp & sch & h & qp & q & fp & f & ap & au & pa & T & H & E1 & E2 & E3 & E4 & E5)
    (sp' & sch' & h' & qp' & q' & fp' & f' & ap' & au' & pa' & T' & H' & E1' & E2' & E3' & E4' & E5').
  cbn in *. destruct (top_unique _ _ _ _ _ _ _ _ _ _ _ _ _ _ _ T T') as (-> & -> & -> & -> & -> & -> & ->).
  destruct (hier_unique _ _ _ _ _ _ _ H H') as (-> & -> & ->). subst. reflexivity.
Qed.
(** the parts with their marks are the parts put together *)
Lemma parts_pre : forall u s, fields_of s u ->
  u_scheme_part u = match r_scheme (ref_of u) with Some x => x ++ [58] | None => [] end /\
  u_authority_part u = opt_pre [47; 47] (r_authority (ref_of u)) /\ u_query_part u = opt_pre [63] (r_query (ref_of u)) /\ u_fragment_part u = opt_pre [35] (r_fragment (ref_of u)).
Proof.
  intros u s ((_ & S & _ & _ & Q & _ & F) & (_ & A) & _). cbn [ref_of r_scheme r_authority r_query r_fragment]. repeat split.
  - destruct S as [(V & E)|(E & _)]; [|rewrite E; reflexivity]. rewrite E at 1 2. destruct (u_scheme u ++ [58]) eqn:X; [|symmetry; exact X]. destruct (u_scheme u); discriminate.
  - destruct A as [(E & _)|(E & _)]; rewrite E; reflexivity.
  - destruct Q as [E|(E & _)]; rewrite E; reflexivity.
  - destruct F as [E|(E & _)]; rewrite E; reflexivity.
Qed.
Lemma slash_eq : forall x, is_slash x = (x =? 47).
Proof. intros. unfold is_slash. first [reflexivity | apply Z.eqb_sym]. Qed.
Lemma last_slash_of : forall p, last_slash p (upto_last_slash p).
Proof.
  intros p. unfold upto_last_slash. pose proof (before_from is_slash (rev p)) as S.
  assert (L : lacks 47 (before is_slash (rev p))). { intro H. apply before_none in H. rewrite slash_eq in H. discriminate. }
  assert (S' : p = rev (from is_slash (rev p)) ++ rev (before is_slash (rev p))) by (rewrite <- rev_app_distr, <- S, rev_involutive; reflexivity).
  destruct (from is_slash (rev p)) as [|y r] eqn:F.
  - left. split; [reflexivity|]. cbn [rev app] in S'. rewrite S'. intro H. apply L. apply in_rev. exact H.
  - right. apply from_head in F. rewrite slash_eq in F. apply Z.eqb_eq in F. subst y. exists (rev r), (rev (before is_slash (rev p))). split; [reflexivity|]. split; [exact S'|].
    intro H. apply L. apply in_rev. exact H.
Qed.
Lemma last_slash_unique : forall p a b, last_slash p a -> last_slash p b -> a = b.
Proof.
  intros p a b [(-> & L)|(g & t & -> & E & L)] [(-> & L')|(g' & t' & -> & E' & L')].
  - reflexivity.
  - exfalso. apply L. rewrite E'. apply in_app_iff. left. apply in_app_iff. right. left. reflexivity.
  - exfalso. apply L'. rewrite E. apply in_app_iff. left. apply in_app_iff. right. left. reflexivity.
  - rewrite E in E'. apply app_split in E'. destruct E' as [(l & A & B)|(l & A & B)].
    + destruct l as [|y l] using rev_ind; [rewrite app_nil_r in A; exact A|]. exfalso. rewrite app_assoc in A. apply app_inj_tail in A. destruct A as [_ <-].
      apply L'. rewrite B. apply in_app_iff. left. apply in_app_iff. right. left. reflexivity.
    + destruct l as [|y l] using rev_ind; [rewrite app_nil_r in A; symmetry; exact A|]. exfalso. rewrite app_assoc in A. apply app_inj_tail in A. destruct A as [_ <-].
      apply L. rewrite B. apply in_app_iff. left. apply in_app_iff. right. left. reflexivity.
Qed.
Lemma resolves_unique : forall b r t t', resolves b r t -> resolves b r t' -> t = t'.
Proof.
  intros b r [s a p q f] [s' a' p' q' f'] (F & H) (F' & H'). cbn in *. subst f f'.
  destruct (r_scheme r).
  - destruct H as (-> & -> & -> & ->), H' as (-> & -> & -> & ->). reflexivity.
  - destruct H as (-> & H), H' as (-> & H'). destruct (r_authority r).
    + destruct H as (-> & -> & ->), H' as (-> & -> & ->). reflexivity.
    + destruct H as (-> & H), H' as (-> & H'). destruct (r_path r) as [|x y].
      * destruct H as (-> & ->), H' as (-> & ->). reflexivity.
      * destruct H as (-> & H), H' as (-> & H'). destruct (x =? 47); [congruence|]. destruct (_ && _); [congruence|].
        destruct H as (h & A & ->), H' as (h' & A' & ->). rewrite (last_slash_unique _ _ _ A A'). reflexivity.
Qed.
Lemma merged_eq : forall u rel x t, rel = x :: t -> x <> 47 ->
  merged u rel = if negb (isnil (u_authority_part u)) && isnil (u_path u) then 47 :: rel else upto_last_slash (u_path u) ++ rel.
Proof. intros u rel x t -> N. unfold merged. destruct (x =? 47) eqn:E; [apply Z.eqb_eq in E; contradiction|]. reflexivity. Qed.

Lemma transform_resolves : forall s u rel v, line_free s -> line_free rel -> uri_parse s = Ok u -> uri_parse rel = Ok v ->
  exists target, resolves (ref_of u) (ref_of v) target /\ transform u rel = Ok (recompose target).
Proof.
  intros s u rel v Ls Lr Pu Pv. pose proof (parse_fields _ _ Ls Pu) as Fu. pose proof (parse_fields _ _ Lr Pv) as Fv.
  destruct (parts_pre _ _ Fu) as (US & UA & UQ & UF). destruct (parts_pre _ _ Fv) as (VS & VA & VQ & VF).
  unfold transform. rewrite Pv. cbn [rbind]. destruct (u_scheme_part v) as [|sc scr] eqn:ES; cbn [isnil negb].
  2: { exists (mkRef (r_scheme (ref_of v)) (r_authority (ref_of v)) (dots (u_path v)) (r_query (ref_of v)) (r_fragment (ref_of v))). split.
       - unfold resolves. cbn. rewrite ES. auto.
       - rewrite uri_dots_exact. cbn [rbind]. unfold recompose. cbn [r_scheme r_authority r_path r_query r_fragment]. fold (dots (u_path v)).
         rewrite VS, VA, VQ, VF. reflexivity. }
  assert (RS : r_scheme (ref_of v) = None) by (cbn; rewrite ES; reflexivity).
  destruct (u_authority_part v) as [|ac acr] eqn:EA; cbn [isnil negb].
  2: { exists (mkRef (r_scheme (ref_of u)) (r_authority (ref_of v)) (dots (u_path v)) (r_query (ref_of v)) (r_fragment (ref_of v))). split.
       - unfold resolves. rewrite RS. cbn. rewrite EA. auto.
       - rewrite uri_dots_exact. cbn [rbind]. unfold recompose. cbn [r_scheme r_authority r_path r_query r_fragment]. fold (dots (u_path v)).
         rewrite US, VA, VQ, VF. reflexivity. }
  assert (RA : r_authority (ref_of v) = None) by (cbn; rewrite EA; reflexivity).
  destruct (u_path v) as [|x t] eqn:EP.
  { exists (mkRef (r_scheme (ref_of u)) (r_authority (ref_of u)) (u_path u) (match r_query (ref_of v) with Some q => Some q | None => r_query (ref_of u) end) (r_fragment (ref_of v))). split.
    - unfold resolves. rewrite RS, RA. cbn [r_path r_scheme r_authority r_query r_fragment ref_of]. rewrite EP. repeat split; reflexivity.
    - unfold recompose. cbn [r_scheme r_authority r_path r_query r_fragment]. rewrite US, UA, VF. f_equal. do 3 f_equal.
      rewrite VQ, UQ. cbn [ref_of r_query]. destruct (u_query_part v); reflexivity. }
  destruct (x =? 47) eqn:EX.
  - exists (mkRef (r_scheme (ref_of u)) (r_authority (ref_of u)) (dots (x :: t)) (r_query (ref_of v)) (r_fragment (ref_of v))). split.
    + unfold resolves. rewrite RS, RA. cbn [r_path r_scheme r_authority r_query r_fragment ref_of]. rewrite EP, EX. repeat split; reflexivity.
    + rewrite uri_dots_exact. cbn [rbind]. unfold recompose. cbn [r_scheme r_authority r_path r_query r_fragment]. fold (dots (x :: t)). rewrite US, UA, VQ, VF. reflexivity.
  - rewrite (merged_eq u (x :: t) x t eq_refl) by lia.
    exists (mkRef (r_scheme (ref_of u)) (r_authority (ref_of u)) (dots (if negb (isnil (u_authority_part u)) && isnil (u_path u) then 47 :: x :: t else upto_last_slash (u_path u) ++ x :: t)) (r_query (ref_of v)) (r_fragment (ref_of v))). split.
    + unfold resolves. rewrite RS, RA. cbn [r_path r_scheme r_authority r_query r_fragment ref_of]. rewrite EP, EX. split; [reflexivity|]. split; [reflexivity|]. split; [reflexivity|]. split; [reflexivity|].
      assert (X : negb (isnil (u_authority_part u)) && isnil (u_path u) = match match u_authority_part u with [] => None | _ :: _ => Some (u_authority u) end with Some _ => true | None => false end && match u_path u with [] => true | _ :: _ => false end).
      { destruct (u_authority_part u); reflexivity. }
      rewrite <- X. destruct (negb (isnil (u_authority_part u)) && isnil (u_path u)); [reflexivity|]. exists (upto_last_slash (u_path u)). split; [apply last_slash_of|reflexivity].
    + rewrite uri_dots_exact. cbn [rbind]. unfold recompose. cbn [r_scheme r_authority r_path r_query r_fragment]. rewrite US, UA, VQ, VF. reflexivity.
Qed.
Lemma transform_exact : forall s u rel, line_free s -> line_free rel -> uri_parse s = Ok u -> Forall (fun x => -1 <= x) rel ->
  forall base r, is_ref s base -> is_ref rel r -> exists target, resolves base r target /\ transform u rel = Ok (recompose target).
Proof.
  intros s u rel Ls Lr Pu Hr base r Ib Ir. destruct (parse_defined rel Hr) as [v Pv].
  rewrite (is_ref_unique _ _ _ Ib (ref_of_is _ _ Ls Pu)), (is_ref_unique _ _ _ Ir (ref_of_is _ _ Lr Pv)). apply (transform_resolves s u rel v); auto.
Qed.

(** ** The target, parsed again. *)
Lemma walk_in : forall segs out x, In x (concat (walk out segs)) -> In x (concat out) \/ In x (concat segs) \/ x = 47.
Proof.
  induction segs as [|g r IH]; intros out x H; cbn [walk] in H; [auto|].
  assert (RL : forall l : list (list Z), In x (concat (removelast l)) -> In x (concat l)).
  { intros l Q. destruct l as [|a l] using rev_ind; [exact Q|]. rewrite removelast_last in Q. rewrite concat_app. apply in_app_iff. left. exact Q. }
  assert (LA : In x (concat (match r with [] => [[47]] | _ => [] end)) -> x = 47) by (destruct r; cbn; intuition).
  cbn [concat]. rewrite in_app_iff. destruct (seg_dec g dot); [|destruct (seg_dec g dotdot)]; apply IH in H; rewrite concat_app, in_app_iff in H.
  - destruct H as [[H|H]|[H|H]]; auto.
  - destruct H as [[H|H]|[H|H]]; auto.
  - destruct H as [[H|H]|[H|H]]; auto. cbn in H. rewrite app_nil_r in H. destruct H as [<-|H]; auto.
Qed.
Lemma resolve_in : forall segs x, In x (concat (resolve segs)) -> In x (concat segs) \/ x = 47.
Proof.
  induction segs as [|g r IH]; intros x H; cbn [resolve] in H; [destruct H|]. cbn [concat]. rewrite in_app_iff.
  destruct (seg_dec g dot); [apply IH in H; tauto|]. destruct (seg_dec g dotdot); [apply IH in H; tauto|].
  apply walk_in in H. destruct H as [H|[H|H]]; auto. destruct g; cbn in H; [destruct H|]. rewrite app_nil_r in H. auto.
Qed.
Lemma fields_in : forall s x, In x (concat (fields 47 s)) -> In x s.
Proof.
  induction s as [|y t IH]; intros x H; cbn in H; [exact H|]. destruct (y =? 47).
  - right. apply IH. exact H.
  - destruct (fields 47 t) as [|f fs]; cbn in H; [destruct H as [<-|[]]; left; reflexivity|]. destruct H as [<-|H]; [left; reflexivity|]. right. apply IH. exact H.
Qed.
Lemma dots_in : forall p x, In x (dots p) -> In x p \/ x = 47.
Proof. intros p x H. unfold dots in H. apply resolve_in in H. destruct H as [H|H]; [left; apply fields_in; exact H|auto]. Qed.
Lemma dots_lacks : forall c p, c <> 47 -> lacks c p -> lacks c (dots p).
Proof. intros c p N L H. apply dots_in in H. destruct H as [H|H]; [contradiction|congruence]. Qed.
(** a path that begins with "/" still does *)
Definition headed (l : list (list Z)) : Prop := Forall (fun p => exists t, p = 47 :: t) l.
Lemma headed_walk : forall segs out, headed out -> headed (walk out segs).
Proof.
  induction segs as [|g r IH]; intros out H; cbn [walk]; [exact H|].
  assert (LA : headed (match r with [] => [[47]] | _ => [] end)) by (destruct r; constructor; eauto; constructor).
  destruct (seg_dec g dot); [|destruct (seg_dec g dotdot)]; apply IH; apply Forall_app; split; auto.
  - apply Forall_removelast. exact H.
  - constructor; [eauto|constructor].
Qed.
Lemma dots_abs : forall p, (p = [] \/ exists t, p = 47 :: t) -> dots p = [] \/ exists t, dots p = 47 :: t.
Proof.
  intros p [->|[t ->]]; [left; reflexivity|]. unfold dots. cbn [fields]. rewrite Z.eqb_refl. cbn [resolve].
  destruct (seg_dec [] dot) as [Q|_]; [discriminate|]. destruct (seg_dec [] dotdot) as [Q|_]; [discriminate|].
  pose proof (headed_walk (fields 47 t) [] (Forall_nil _)) as H. destruct (walk [] (fields 47 t)) as [|a l]; [left; reflexivity|]. right. inversion H as [|? ? [b B] _]. subst. cbn. eauto.
Qed.

Definition abs_path (p : list Z) : Prop := p = [] \/ exists t, p = 47 :: t.
Definition good (r : ref) : Prop :=
  (forall x, r_scheme r = Some x -> valid_scheme x) /\
  (forall a, r_authority r = Some a -> lacks 47 a /\ lacks 63 a /\ lacks 35 a /\ abs_path (r_path r)) /\
  lacks 63 (r_path r) /\ lacks 35 (r_path r) /\ (forall q, r_query r = Some q -> lacks 35 q).
Lemma is_ref_good : forall s r, is_ref s r -> good r.
Proof.
  intros s [a b c d e] (sp & sch & h & qp & q & fp & f & ap & au & pa & (E & S & H1 & H2 & Q & Q1 & F) & (HE & HA) & E1 & E2 & E3 & E4 & E5). unfold good. cbn [r_scheme r_authority r_path r_query r_fragment] in *. subst a b c d e.
  assert (P : lacks 63 pa /\ lacks 35 pa /\ lacks 63 ap /\ lacks 35 ap) by (rewrite HE in H1, H2; apply lacks_app in H1; apply lacks_app in H2; tauto).
  split; [|split; [|split; [tauto|split; [tauto|]]]].
  - intros x X. destruct S as [(V & ->)|(-> & _)]; [|discriminate]. destruct (sch ++ [58]); [discriminate|]. injection X as <-. exact V.
  - intros x X. destruct HA as [(-> & L & A)|(-> & _)]; [|discriminate]. injection X as <-. rewrite !lacks_cons in P. unfold abs_path. tauto.
  - intros x X. destruct qp; [discriminate|]. injection X as <-. exact Q1.
Qed.
Lemma recompose_ref : forall r sch, good r -> r_scheme r = Some sch -> (r_authority r = None -> forall t, r_path r <> 47 :: 47 :: t) -> is_ref (recompose r) r.
Proof.
  intros [s a p q f] sch (GS & GA & P1 & P2 & GQ) Es N. cbn [r_scheme r_authority r_path r_query r_fragment] in *. subst s. specialize (GS sch eq_refl).
  unfold is_ref. exists (sch ++ [58]), sch, (opt_pre [47; 47] a ++ p), (opt_pre [63] q), (match q with Some x => x | None => [] end), (opt_pre [35] f), (match f with Some x => x | None => [] end),
    (opt_pre [47; 47] a), (match a with Some x => x | None => [] end), p. cbn [r_scheme r_authority r_path r_query r_fragment].
  assert (A : lacks 63 (opt_pre [47; 47] a) /\ lacks 35 (opt_pre [47; 47] a)).
  { destruct a as [x|]; cbn [opt_pre app]; [|split; intros []]. destruct (GA x eq_refl) as (A1 & A2 & A3 & _). rewrite !lacks_cons. repeat split; auto; lia. }
  split; [|split; [|split; [reflexivity|split; [|split; [|split]]]]].
  - unfold top_parts. split; [|split; [|split; [|split; [|split; [|split]]]]].
    + unfold recompose. cbn [r_scheme r_authority r_path r_query r_fragment]. rewrite <- !app_assoc. reflexivity.
    + left. auto.
    + apply lacks_app. tauto.
    + apply lacks_app. tauto.
    + destruct q; [left; reflexivity|right; auto].
    + destruct q as [x|]; [apply (GQ x eq_refl)|intros []].
    + destruct f; [left; reflexivity|right; auto].
  - split; [reflexivity|]. destruct a as [x|]; [left|right].
    + destruct (GA x eq_refl) as (A1 & _ & _ & A4). repeat split; auto.
    + split; [reflexivity|]. split; [reflexivity|]. intros t. cbn. apply N. reflexivity.
  - destruct (sch ++ [58]) eqn:X; [|reflexivity]. destruct sch; discriminate.
  - destruct a; reflexivity.
  - destruct q; reflexivity.
  - destruct f; reflexivity.
Qed.
Lemma resolves_good : forall b r t, good b -> good r -> resolves b r t -> good t.
Proof.
  intros b r t (BS & BA & B1 & B2 & BQ) (RS & RA & R1 & R2 & RQ) (_ & H).
  assert (D : forall c, c <> 47 -> lacks c (r_path r) -> lacks c (dots (r_path r))) by (intros; apply dots_lacks; auto).
  unfold good. destruct (r_scheme r) as [sc|] eqn:ES.
  - destruct H as (-> & -> & -> & ->). split; [exact RS|]. split; [|split; [apply D; [lia|exact R1]|split; [apply D; [lia|exact R2]|exact RQ]]].
    intros a Ea. destruct (RA a Ea) as (A1 & A2 & A3 & A4). repeat split; auto. apply dots_abs. exact A4.
  - destruct H as (-> & H). split; [exact BS|]. destruct (r_authority r) as [ra|] eqn:EA.
    + destruct H as (-> & -> & ->). split; [|split; [apply D; [lia|exact R1]|split; [apply D; [lia|exact R2]|exact RQ]]].
      intros a Ea. destruct (RA a Ea) as (A1 & A2 & A3 & A4). repeat split; auto. apply dots_abs. exact A4.
    + destruct H as (-> & H). destruct (r_path r) as [|x y] eqn:EP.
      * destruct H as (-> & ->). split; [exact BA|]. split; [exact B1|]. split; [exact B2|]. intros q Q. destruct (r_query r) as [q'|] eqn:EQ; [apply (RQ q); exact Q|apply BQ; exact Q].
      * destruct H as (-> & H).
        assert (G : exists p, r_path t = dots p /\ lacks 63 p /\ lacks 35 p /\ (forall a, r_authority b = Some a -> abs_path p)).
        { destruct (x =? 47) eqn:EX.
          - exists (x :: y). apply Z.eqb_eq in EX. subst x. repeat split; auto. intros a _. right. eauto.
          - destruct (r_authority b) as [ba|] eqn:EB; cbn [andb] in H.
            + destruct (r_path b) as [|z w] eqn:PB.
              * exists (47 :: x :: y). rewrite !(lacks_cons _ 47). repeat split; auto; try lia. intros a _. right. eauto.
              * destruct H as (hd & LS & H). exists (hd ++ x :: y). split; [exact H|]. destruct (BA ba eq_refl) as (_ & _ & _ & A4). destruct A4 as [A4|[t' A4]]; [discriminate|]. injection A4 as -> ->.
                destruct LS as [(-> & L)|(g & tl & E & E2 & L)]; [exfalso; apply L; left; reflexivity|].
                rewrite E2 in B1, B2. rewrite lacks_app in B1, B2. rewrite !lacks_app. repeat split; try tauto. intros a _. right. destruct hd as [|h0 h1]; [destruct g; discriminate|]. injection E2 as <- E2. cbn. eauto.
            + destruct H as (hd & LS & H). exists (hd ++ x :: y). split; [exact H|]. split; [|split; [|discriminate]].
              * destruct LS as [(-> & L)|(g & tl & E & E2 & L)]; [exact R1|]. rewrite E2 in B1. rewrite lacks_app in B1. rewrite lacks_app. tauto.
              * destruct LS as [(-> & L)|(g & tl & E & E2 & L)]; [exact R2|]. rewrite E2 in B2. rewrite lacks_app in B2. rewrite lacks_app. tauto. }
        destruct G as (p & -> & L1 & L2 & A). split; [|split; [apply dots_lacks; [lia|exact L1]|split; [apply dots_lacks; [lia|exact L2]|exact RQ]]].
        intros a Ea. destruct (BA a Ea) as (A1 & A2 & A3 & _). repeat split; auto. apply dots_abs. apply (A a Ea).
Qed.
Lemma target_is_ref : forall s rel base r t, is_ref s base -> is_ref rel r -> resolves base r t -> (r_scheme base <> None \/ r_scheme r <> None) ->
  (r_authority t = None -> forall u, r_path t <> 47 :: 47 :: u) -> is_ref (recompose t) t.
Proof.
  intros s rel base r t Ib Ir R S N. assert (G : good t) by (eapply resolves_good; [eapply is_ref_good; exact Ib|eapply is_ref_good; exact Ir|exact R]).
  assert (X : exists sch, r_scheme t = Some sch).
  { destruct R as (_ & R). destruct (r_scheme r) as [x|].
    - destruct R as (-> & _). eauto.
    - destruct R as (-> & _). destruct S as [S|S]; [|congruence]. destruct (r_scheme base); [eauto|congruence]. }
  destruct X as [sch X]. apply (recompose_ref t sch); auto.
Qed.

(** ** The public URI. *)
Lemma public_parts : forall s u, line_free s -> uri_parse s = Ok u -> lacks 64 (u_hostinfo u) ->
  exists h ap, top_parts (u_public u) (u_scheme_part u) (u_scheme u) h (u_query_part u) (u_query u) [] [] /\
    hier_parts h ap (u_hostinfo u) (u_path u) /\ (ap = [] <-> u_authority_part u = []) /\ auth_parts (u_hostinfo u) [] [] [] [] [] (u_hostinfo u).
Proof.
  intros s u L P NA. destruct (parse_fields _ _ L P) as ((E & S & H1 & H2 & Q & Q1 & F) & (HE & HA) & (AE & UE & U1 & U2 & UA) & _).
  destruct (parse_rest _ _ P) as (_ & _ & PU & _).
  set (ap := match u_authority_part u with [] => [] | _ => [47; 47] ++ u_hostinfo u end) in *.
  assert (LA : lacks 63 (u_path u) /\ lacks 35 (u_path u) /\ lacks 63 (u_authority_part u) /\ lacks 35 (u_authority_part u)) by (rewrite HE in H1, H2; apply lacks_app in H1; apply lacks_app in H2; tauto).
  assert (AP : lacks 63 ap /\ lacks 35 ap).
  { unfold ap. destruct HA as [(EA & _)|(EA & _)]; rewrite EA; [|split; intros []]. cbn [app].
    rewrite EA in LA. rewrite !lacks_cons in LA. rewrite AE in LA. rewrite !lacks_app in LA. rewrite !lacks_cons. repeat split; try lia; tauto. }
  exists (ap ++ u_path u), ap. split; [|split; [|split]].
  - unfold top_parts. rewrite !lacks_app. rewrite PU. split; [rewrite app_nil_r, <- app_assoc; reflexivity|]. split; [|repeat split; auto; try tauto; right; auto].
    destruct S as [S|(S1 & S2 & S3)]; [left; exact S|]. right. split; [exact S1|]. split; [exact S2|]. intros sch r V X. rewrite S1 in X. cbn [app] in X.
    destruct HA as [(EA & LA' & PA)|(EA & E0 & NH)].
    + unfold ap in X. rewrite EA in X. destruct V as (x & t & -> & V & _). cbn [app] in X. injection X as X _. lia.
    + apply (S3 sch (r ++ u_fragment_part u) V). rewrite E, S1, HE, EA. cbn [app]. unfold ap in X. rewrite EA in X. cbn [app] in X.
      rewrite app_assoc, X. rewrite <- app_assoc. reflexivity.
  - split; [reflexivity|]. unfold ap. destruct HA as [(EA & LA' & PA)|(EA & E0 & NH)]; rewrite EA.
    + left. split; [reflexivity|]. split; [|exact PA]. rewrite AE in LA'. apply lacks_app in LA'. apply LA'.
    + right. split; [reflexivity|]. split; [rewrite E0 in AE; destruct (u_userinfo_part u); [symmetry; exact AE|discriminate]|].
      intros t. cbn [app]. rewrite HE, EA in NH. apply NH.
  - unfold ap. destruct (u_authority_part u); split; intro X; try reflexivity; discriminate.
  - unfold auth_parts. split; [reflexivity|]. split; [reflexivity|]. split; [intros []|]. split; [right; auto|]. right. auto.
Qed.
