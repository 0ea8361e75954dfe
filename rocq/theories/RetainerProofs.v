From Verif Require Import Base BaseFacts Retainer RetainerSpec.
From Coq Require Import Permutation.
Open Scope res_scope.

(** ** Lists *)
Lemma lset_length : forall A (l : list A) n x, length (lset n x l) = length l.
Proof. induction l; intros [|n] x; cbn; auto. Qed.
Lemma lset_same : forall A (l : list A) n x, (n < length l)%nat -> nth_error (lset n x l) n = Some x.
Proof. induction l; intros [|n] x H; cbn in *; try lia; auto. apply IHl. lia. Qed.
Lemma lset_other : forall A (l : list A) n m x, n <> m -> nth_error (lset n x l) m = nth_error l m.
Proof. induction l; intros [|n] [|m] x H; cbn in *; try lia; auto. Qed.
Lemma nth_lt : forall A (l : list A) n x, nth_error l n = Some x -> (n < length l)%nat.
Proof. intros A l n x E. apply nth_error_Some. congruence. Qed.
Definition b2z (b : bool) : Z := if b then 1 else 0.
Lemma tally_lset : forall A (f : A -> bool) l n x y, nth_error l n = Some y -> tally f (lset n x l) = tally f l - b2z (f y) + b2z (f x).
Proof.
  induction l as [|z l IH]; intros [|n] x y E; cbn [nth_error] in E; try discriminate; cbn [lset tally fold_right].
  - injection E as ->. unfold b2z. fold (tally f l). lia.
  - fold (tally f (lset n x l)). fold (tally f l). rewrite (IH n x y E). lia.
Qed.
Lemma tally_app : forall A (f : A -> bool) a b, tally f (a ++ b) = tally f a + tally f b.
Proof. induction a as [|x a IH]; intros b; cbn [tally fold_right app]; [reflexivity|]. fold (tally f (a ++ b)). fold (tally f a). rewrite IH. lia. Qed.
Lemma tally_cons : forall A (f : A -> bool) x a, tally f (x :: a) = b2z (f x) + tally f a.
Proof. reflexivity. Qed.
Lemma tally_nonneg : forall A (f : A -> bool) l, 0 <= tally f l.
Proof. induction l as [|x l IH]; [reflexivity|]. rewrite tally_cons. unfold b2z. destruct (f x); lia. Qed.
Lemma tally_zero : forall A (f : A -> bool) l, (forall x, In x l -> f x = false) -> tally f l = 0.
Proof. induction l as [|x l IH]; intros H; [reflexivity|]. rewrite tally_cons, (H x (or_introl eq_refl)), IH; [reflexivity|]. intros y I. apply H. right. exact I. Qed.
Lemma tally_pos : forall A (f : A -> bool) l x, In x l -> f x = true -> 1 <= tally f l.
Proof. induction l as [|y l IH]; intros x I F; [destruct I|]. destruct I as [->|I]; rewrite tally_cons; [rewrite F; change (b2z true) with 1; pose proof (tally_nonneg _ f l); lia|]. pose proof (IH x I F). unfold b2z. destruct (f y); lia. Qed.
Lemma tally_remove : forall o l p, existsb (Nat.eqb o) l = true -> tally (Nat.eqb p) (remove_one o l) = tally (Nat.eqb p) l - b2z (Nat.eqb o p).
Proof.
  induction l as [|x l IH]; intros p E; cbn in E; [discriminate|]. cbn [remove_one]. rewrite tally_cons. destruct (Nat.eqb_spec o x) as [->|N].
  - rewrite (Nat.eqb_sym p x). lia.
  - rewrite tally_cons, IH by exact E. lia.
Qed.

(** ** The invariant *)
Definition destroys (w : list todo) : list nat := flat_map (fun t => match t with TDestroy h => [h] | _ => [] end) w.
Definition releases (w : list todo) (o : nat) : Z := tally (fun t => match t with TRelease p => Nat.eqb p o | _ => false end) w.
Definition points (o : nat) (c : cell) : bool := ce_live c && match ce_ptr c with Some p => Nat.eqb p o | None => false end.
Definition is_live (s : heap) (h : nat) : Prop := exists p, nth_error (cells s) h = Some (mkCell true p).
Definition obj_ok (x : option obj) (n : Z) : Prop :=
  match x with None => n = 0 | Some x => if ob_dead x then n = 0 else ob_rc x = n /\ 1 <= n end.
Record Inv (s : heap) (w : list todo) : Prop := {
  v_obj : forall o, obj_ok (nth_error (objs s) o) (holders s o + releases w o);
  v_nodup : NoDup (destroys w ++ owned s);
  v_live : Forall (is_live s) (destroys w ++ owned s) }.

Lemma holders_set : forall s h c c' o, nth_error (cells s) h = Some c -> holders (set_cell s h c') o = holders s o - b2z (points o c) + b2z (points o c').
Proof. intros s h c c' o E. unfold holders, set_cell. cbn [cells outs]. rewrite (tally_lset _ _ _ _ _ _ E). unfold points. lia. Qed.
Lemma owned_set_cell : forall s h c, owned (set_cell s h c) = owned s.
Proof. reflexivity. Qed.
Lemma live_set : forall s h c g, is_live s g -> (g = h -> exists p, c = mkCell true p) -> is_live (set_cell s h c) g.
Proof.
  intros s h c g (p & E) H. unfold is_live, set_cell. cbn [cells]. destruct (Nat.eq_dec h g) as [->|N].
  - destruct (H eq_refl) as (q & ->). exists q. apply lset_same. apply (nth_lt _ _ _ _ E).
  - rewrite lset_other by exact N. eauto.
Qed.
Lemma owned_set_obj : forall l n x y, nth_error l n = Some x -> Permutation ((if ob_dead x then [] else ob_mem x) ++ flat_map (fun x => if ob_dead x then [] else ob_mem x) (lset n y l))
  ((if ob_dead y then [] else ob_mem y) ++ flat_map (fun x => if ob_dead x then [] else ob_mem x) l).
Proof.
  induction l as [|z l IH]; intros [|n] x y E; cbn [nth_error] in E; try discriminate; cbn [lset flat_map].
  - injection E as ->. apply Permutation_app_swap_app.
  - specialize (IH n x y E). rewrite Permutation_app_swap_app. rewrite IH. apply Permutation_app_swap_app.
Qed.
Definition fuel_need (s : heap) (w : list todo) : nat :=
  (2 * length (filter ce_live (cells s)) + length (filter (fun t => match t with TRelease _ => true | _ => false end) w))%nat.
Lemma filter_lset : forall A (f : A -> bool) l n x y, nth_error l n = Some y -> f y = true -> f x = false -> length (filter f l) = S (length (filter f (lset n x l))).
Proof.
  induction l as [|z l IH]; intros [|n] x y E Y X; cbn [nth_error] in E; try discriminate; cbn [lset filter].
  - injection E as ->. rewrite Y, X. reflexivity.
  - pose proof (IH n x y E Y X). destruct (f z); cbn [length]; lia.
Qed.
Lemma filter_map_destroy : forall l, filter (fun t => match t with TRelease _ => true | _ => false end) (map TDestroy l) = [].
Proof. induction l; cbn; auto. Qed.
Lemma destroys_map : forall l, destroys (map TDestroy l) = l.
Proof. induction l as [|x l IH]; cbn; [reflexivity|]. f_equal. exact IH. Qed.
Lemma destroys_app : forall a b, destroys (a ++ b) = destroys a ++ destroys b.
Proof. intros. apply flat_map_app. Qed.
Lemma releases_map : forall l o, releases (map TDestroy l) o = 0.
Proof. intros. apply tally_zero. intros x I. apply in_map_iff in I as (h & <- & _). reflexivity. Qed.

(** Running destructors ends, never touches what is gone, and keeps the counts exact. *)
Lemma drain_ok : forall fuel s w, Inv s w -> (fuel_need s w < fuel)%nat -> exists s', drain fuel s w = Ok s' /\ Inv s' [] /\ length (objs s') = length (objs s) /\ length (cells s') = length (cells s).
Proof.
  induction fuel as [|fuel IH]; intros s w V F; [lia|]. destruct w as [|[h|o] w]; cbn [drain].
  - eauto.
  - destruct V as [VO VN VL]. cbn [destroys flat_map app] in VN, VL. fold (destroys w) in VN, VL. inversion VN as [|? ? N1 N2]; subst. inversion VL as [|? ? (p & E) L2]; subst. rewrite E.
    set (s' := set_cell s h (mkCell false None)). set (w' := match p with Some o => TRelease o :: w | None => w end).
    assert (D : destroys w' = destroys w) by (subst w'; destruct p; reflexivity).
    destruct (IH s' w') as (s2 & R & V2 & LO & LC).
    + constructor.
      * intros o. specialize (VO o). subst s'. rewrite (holders_set _ _ _ _ _ E). change (nth_error (objs (set_cell s h (mkCell false None))) o) with (nth_error (objs s) o).
        replace (holders s o - b2z (points o (mkCell true p)) + b2z (points o (mkCell false None)) + releases w' o) with (holders s o + releases (TDestroy h :: w) o); [exact VO|].
        unfold releases. rewrite tally_cons. change (b2z false) with 0. subst w'. unfold points. cbn [ce_live ce_ptr andb]. destruct p as [q|]; [rewrite tally_cons|]; unfold b2z; [destruct (Nat.eqb q o)|]; lia.
      * rewrite D. exact N2.
      * rewrite D. change (owned s') with (owned s). apply Forall_forall. intros g Ig. rewrite Forall_forall in L2. subst s'. apply live_set; [apply L2, Ig|]. intros ->. contradiction.
    + unfold fuel_need in *. subst s'. cbn [set_cell cells]. cbn [filter] in F. pose proof (filter_lset _ ce_live (cells s) h (mkCell false None) _ E eq_refl eq_refl). subst w'. destruct p; cbn [filter length]; lia.
    + exists s2. split; [exact R|]. split; [exact V2|]. subst s'. cbn [set_cell cells objs] in *. rewrite lset_length in LC. auto.
  - destruct V as [VO VN VL]. pose proof (VO o) as K. unfold releases in K. rewrite tally_cons in K. rewrite Nat.eqb_refl in K. change (b2z true) with 1 in K.
    pose proof (tally_nonneg _ (fun t => match t with TRelease p => Nat.eqb p o | _ => false end) w). assert (HN : 0 <= holders s o) by (unfold holders; pose proof (tally_nonneg _ (Nat.eqb o) (outs s)); pose proof (tally_nonneg _ (fun c => ce_live c && match ce_ptr c with Some p => Nat.eqb p o | None => false end) (cells s)); lia).
    destruct (nth_error (objs s) o) as [[rc [|] mem]|] eqn:E; cbn [obj_ok ob_dead ob_rc] in K; try lia. destruct K as (K1 & K2).
    destruct (Z.leb_spec rc 0); [lia|].
    assert (HO : forall x q, holders (set_obj s o x) q = holders s q) by reflexivity.
    assert (OB : forall x w' , (obj_ok (Some x) (holders s o + releases w' o)) -> (forall q, q <> o -> releases w' q = releases (TRelease o :: w) q) ->
       forall q, obj_ok (nth_error (objs (set_obj s o x)) q) (holders (set_obj s o x) q + releases w' q)).
    { intros x w' A B q. rewrite HO. unfold set_obj. cbn [objs]. destruct (Nat.eq_dec o q) as [->|N].
      - rewrite lset_same by (apply (nth_lt _ _ _ _ E)). exact A.
      - rewrite lset_other by exact N. rewrite B by auto. apply VO. }
    destruct (Z.eqb_spec (rc - 1) 0) as [Z0|Z0].
    + destruct (IH (set_obj s o (mkObj 0 true mem)) (map TDestroy mem ++ w)) as (s2 & R & V2 & LO & LC).
      * assert (P : Permutation (destroys (TRelease o :: w) ++ owned s) (destroys (map TDestroy mem ++ w) ++ owned (set_obj s o (mkObj 0 true mem)))).
        { cbn [destroys flat_map app]. fold (destroys w). rewrite destroys_app, destroys_map. pose proof (owned_set_obj (objs s) o _ (mkObj 0 true mem) E) as P. cbn [ob_dead ob_mem app] in P. unfold owned, set_obj. cbn [objs]. rewrite <- P.
          rewrite app_assoc. apply Permutation_app_tail. apply Permutation_app_comm. }
        constructor.
        -- apply OB.
           ++ unfold obj_ok. cbn [ob_dead]. unfold releases. rewrite tally_app. fold (releases (map TDestroy mem) o). rewrite releases_map. lia.
           ++ intros q N. unfold releases. rewrite tally_app, tally_cons. fold (releases (map TDestroy mem) q). rewrite releases_map. destruct (Nat.eqb_spec o q); [congruence|]. reflexivity.
        -- exact (Permutation_NoDup P VN).
        -- exact (Permutation_Forall P VL).
      * unfold fuel_need in *. cbn [set_obj cells]. rewrite filter_app, filter_map_destroy. cbn [app]. cbn [filter length] in F. lia.
      * exists s2. split; [exact R|]. split; [exact V2|]. cbn [set_obj cells objs] in *. rewrite lset_length in LO. auto.
    + destruct (IH (set_obj s o (mkObj (rc - 1) false mem)) w) as (s2 & R & V2 & LO & LC).
      * assert (P : Permutation (destroys (TRelease o :: w) ++ owned s) (destroys w ++ owned (set_obj s o (mkObj (rc - 1) false mem)))).
        { cbn [destroys flat_map app]. fold (destroys w). apply Permutation_app_head. pose proof (owned_set_obj (objs s) o _ (mkObj (rc - 1) false mem) E) as P. cbn [ob_dead ob_mem] in P. unfold owned, set_obj. cbn [objs].
          apply (Permutation_app_inv_l mem). symmetry. exact P. }
        constructor.
        -- apply OB.
           ++ unfold obj_ok. cbn [ob_dead ob_rc]. unfold releases. lia.
           ++ intros q N. unfold releases. rewrite tally_cons. destruct (Nat.eqb_spec o q); [congruence|]. reflexivity.
        -- exact (Permutation_NoDup P VN).
        -- exact (Permutation_Forall P VL).
      * unfold fuel_need in *. cbn [set_obj cells]. cbn [filter length] in F. lia.
      * exists s2. split; [exact R|]. split; [exact V2|]. cbn [set_obj cells objs] in *. rewrite lset_length in LO. auto.
Qed.

(** ** Single operations *)
Lemma inv_move : forall s w s' w', Inv s w -> objs s' = objs s -> destroys w' = destroys w ->
  (forall o, holders s' o + releases w' o = holders s o + releases w o) ->
  (forall h, is_live s h -> In h (destroys w ++ owned s) -> is_live s' h) -> Inv s' w'.
Proof.
  intros s w s' w' [VO VN VL] EO ED EH EL. assert (OW : owned s' = owned s) by (unfold owned; rewrite EO; reflexivity). constructor.
  - intros o. rewrite EO, EH. apply VO.
  - rewrite ED, OW. exact VN.
  - rewrite ED, OW. apply Forall_forall. intros h I. apply EL; [|exact I]. rewrite Forall_forall in VL. auto.
Qed.
(** a retain restores the invariant when one holder was not counted yet *)
Lemma inv_retain : forall s w o, (forall q, obj_ok (nth_error (objs s) q) (holders s q + releases w q - b2z (Nat.eqb o q))) -> alive s o = true ->
  NoDup (destroys w ++ owned s) -> Forall (is_live s) (destroys w ++ owned s) ->
  exists s', retain s (Some o) = Ok s' /\ Inv s' w /\ cells s' = cells s /\ outs s' = outs s.
Proof.
  intros s w o VO A VN VL. unfold retain, alive in *. destruct (nth_error (objs s) o) as [[rc [|] mem]|] eqn:E; try discriminate.
  exists (set_obj s o (mkObj (rc + 1) false mem)). split; [reflexivity|]. split; [|split; reflexivity].
  assert (P : Permutation (owned s) (owned (set_obj s o (mkObj (rc + 1) false mem)))).
  { pose proof (owned_set_obj (objs s) o _ (mkObj (rc + 1) false mem) E) as P. cbn [ob_dead ob_mem] in P. unfold owned, set_obj. cbn [objs]. apply (Permutation_app_inv_l mem). symmetry. exact P. }
  constructor.
  - intros q. unfold set_obj at 1. cbn [objs]. change (holders (set_obj s o (mkObj (rc + 1) false mem)) q) with (holders s q). specialize (VO q). destruct (Nat.eqb_spec o q) as [->|N].
    + rewrite lset_same by (apply (nth_lt _ _ _ _ E)). rewrite E in VO. cbn [obj_ok ob_dead ob_rc] in *. unfold b2z in VO. lia.
    + rewrite lset_other by exact N. unfold b2z in VO. rewrite Z.sub_0_r in VO. exact VO.
  - exact (Permutation_NoDup (Permutation_app_head _ P) VN).
  - exact (Permutation_Forall (Permutation_app_head _ P) VL).
Qed.
Lemma holders_nonneg : forall s o, 0 <= holders s o.
Proof. intros. unfold holders. pose proof (tally_nonneg _ (Nat.eqb o) (outs s)). pose proof (tally_nonneg _ (fun c => ce_live c && match ce_ptr c with Some p => Nat.eqb p o | None => false end) (cells s)). lia. Qed.
Lemma held_alive : forall s w o, Inv s w -> 1 <= holders s o -> alive s o = true.
Proof.
  intros s w o V H. pose proof (v_obj _ _ V o) as K. assert (0 <= releases w o) by apply tally_nonneg. unfold alive. destruct (nth_error (objs s) o) as [[rc [|] mem]|]; cbn [obj_ok ob_dead] in K; reflexivity || lia.
Qed.
Lemma get_cell : forall s h p, get s h = Ok p -> nth_error (cells s) h = Some (mkCell true p).
Proof. unfold get. intros s h p E. destruct (nth_error (cells s) h) as [[[|] q]|]; try discriminate. injection E as ->. reflexivity. Qed.
Lemma get_not_UB : forall s h, get s h <> UB.
Proof. unfold get. intros s h. destruct (nth_error (cells s) h) as [[[|] q]|]; discriminate. Qed.
Lemma fresh_cell : forall s h u, fresh s h = Ok u -> exists p, nth_error (cells s) h = Some (mkCell false p).
Proof. unfold fresh. intros s h u E. destruct (nth_error (cells s) h) as [[[|] q]|]; try discriminate. eauto. Qed.
Lemma fresh_not_UB : forall s h, fresh s h <> UB.
Proof. unfold fresh. intros s h. destruct (nth_error (cells s) h) as [[[|] q]|]; discriminate. Qed.
Lemma get_held : forall s h o, get s h = Ok (Some o) -> 1 <= holders s o.
Proof.
  intros s h o E. apply get_cell in E. unfold holders. pose proof (tally_nonneg _ (Nat.eqb o) (outs s)).
  pose proof (tally_pos _ (fun c => ce_live c && match ce_ptr c with Some p => Nat.eqb p o | None => false end) (cells s) _ (nth_error_In _ _ E)) as T. cbn in T. rewrite Nat.eqb_refl in T. specialize (T eq_refl). lia.
Qed.
Definition pend (p : option nat) : list todo := match p with Some o => [TRelease o] | None => [] end.
Definition hits (p : option nat) (o : nat) : Z := match p with Some q => b2z (Nat.eqb q o) | None => 0 end.
Lemma releases_pend : forall p o, releases (pend p) o = hits p o.
Proof. intros [q|] o; [|reflexivity]. unfold releases, pend. rewrite tally_cons. cbn [hits]. change (tally _ []) with 0. lia. Qed.
Lemma points_hits : forall p o, b2z (points o (mkCell true p)) = hits p o.
Proof. intros [q|] o; reflexivity. Qed.
Lemma destroys_pend : forall p, destroys (pend p) = [].
Proof. intros [q|]; reflexivity. Qed.
Lemma live_put : forall s h p g, is_live s g -> is_live (put s h p) g.
Proof. intros. apply live_set; eauto. Qed.
Lemma holders_put : forall s h c p o, nth_error (cells s) h = Some c -> holders (put s h p) o = holders s o - b2z (points o c) + hits p o.
Proof. intros s h c p o E. unfold put. rewrite (holders_set _ _ _ _ _ E), points_hits. reflexivity. Qed.
(** pointing a handle to something and retaining that leaves its old pointer to be released *)
Lemma put_retain : forall s h c p, Inv s [] -> nth_error (cells s) h = Some c -> (forall o, p = Some o -> alive s o = true) ->
  let old := if ce_live c then ce_ptr c else None in
  exists s', retain (put s h p) p = Ok s' /\ Inv s' (pend old) /\ length (cells s') = length (cells s).
Proof.
  intros s h c p V E A old. assert (PO : forall o, b2z (points o c) = hits old o) by (intros o; subst old; destruct c as [[|] [q|]]; reflexivity).
  assert (EH : forall o, holders (put s h p) o + releases (pend old) o = holders s o + hits p o) by (intros o; rewrite (holders_put _ _ _ _ _ E), PO, releases_pend; lia).
  destruct V as [VO VN VL]. cbn [destroys flat_map app] in VN, VL.
  assert (VL' : Forall (is_live (put s h p)) (owned s)) by (eapply Forall_impl; [|exact VL]; intros g; apply live_put).
  destruct p as [o|].
  - destruct (inv_retain (put s h (Some o)) (pend old) o) as (s' & R & V' & C' & _).
    + intros q. rewrite EH. cbn [hits]. replace (holders s q + b2z (Nat.eqb o q) - b2z (Nat.eqb o q)) with (holders s q + releases [] q) by (change (releases [] q) with 0; lia). apply VO.
    + exact (A o eq_refl).
    + rewrite destroys_pend. exact VN.
    + rewrite destroys_pend. exact VL'.
    + exists s'. split; [exact R|]. split; [exact V'|]. rewrite C'. cbn [put set_cell cells]. apply lset_length.
  - exists (put s h None). split; [reflexivity|]. split; [|cbn [put set_cell cells]; apply lset_length]. constructor.
    + intros q. rewrite EH. cbn [hits]. specialize (VO q). change (releases [] q) with 0 in VO. exact VO.
    + rewrite destroys_pend. exact VN.
    + rewrite destroys_pend. exact VL'.
Qed.
Lemma filter_le : forall A (f : A -> bool) l, (length (filter f l) <= length l)%nat.
Proof. induction l as [|x l IH]; cbn; [lia|]. destruct (f x); cbn; lia. Qed.
Lemma run_todo_ok : forall s w, Inv s w -> exists s', run_todo s w = Ok s' /\ Inv s' [] /\ length (objs s') = length (objs s) /\ length (cells s') = length (cells s).
Proof.
  intros s w V. apply drain_ok; [exact V|]. unfold fuel_need. pose proof (filter_le _ ce_live (cells s)). pose proof (filter_le _ (fun t => match t with TRelease _ => true | _ => false end) w). lia.
Qed.
Lemma release_ok : forall s p, Inv s (pend p) -> exists s', release s p = Ok s' /\ Inv s' [].
Proof. intros s [o|] V; [|exists s; auto]. destruct (run_todo_ok s _ V) as (s' & R & V' & _). exists s'. auto. Qed.
Lemma peq_iff : forall a b, peq a b = true <-> a = b.
Proof. intros [x|] [y|]; cbn; try (split; [discriminate|congruence]); [|split; reflexivity]. rewrite Nat.eqb_eq. split; congruence. Qed.
Lemma basic_assign_ok : forall s h p, Inv s [] -> (forall o, p = Some o -> alive s o = true) -> basic_assign s h p = Rej \/ exists s', basic_assign s h p = Ok s' /\ Inv s' [].
Proof.
  intros s h p V A. unfold basic_assign. destruct (get s h) as [q| |] eqn:E; cbn [rbind]; [|auto|exfalso; exact (get_not_UB _ _ E)].
  destruct (peq q p); [right; eauto|]. right. apply get_cell in E. destruct (put_retain s h _ p V E A) as (s1 & R & V1 & _). rewrite R. cbn [rbind]. apply release_ok. exact V1.
Qed.
Lemma nodup_app_intro : forall (a b : list nat), NoDup a -> NoDup b -> (forall x, In x a -> In x b -> False) -> NoDup (a ++ b).
Proof. induction a as [|x a IH]; intros b A B D; [exact B|]. inversion A; subst. cbn. constructor; [|apply IH; auto; intros y Y; apply D; right; exact Y]. rewrite in_app_iff. intros [I|I]; [contradiction|]. exact (D x (or_introl eq_refl) I). Qed.
Lemma step_ok : forall op s, Inv s [] -> rstep s op = Rej \/ exists s', rstep s op = Ok s' /\ Inv s' [].
Proof.
  intros op s V. destruct op as [k|o|o|n|h|h o|h o|h g|h g|h g|h g|h g|h|h]; cbn [rstep].
  - (* RNewObject *) right. eexists. split; [reflexivity|]. destruct V as [VO VN VL]. cbn [destroys flat_map app] in *.
    assert (HH : forall o, holders (mkHeap (cells s ++ repeat (mkCell true None) k) (objs s ++ [mkObj 1 false (seq (length (cells s)) k)]) (length (objs s) :: outs s)) o = holders s o + b2z (Nat.eqb o (length (objs s)))).
    { intros o. unfold holders. cbn [cells outs]. rewrite tally_app, tally_cons. rewrite (tally_zero _ _ (repeat _ _)); [lia|]. intros x I. apply repeat_spec in I. subst x. reflexivity. }
    constructor.
    + intros o. rewrite HH. change (releases [] o) with 0. cbn [objs]. specialize (VO o). change (releases [] o) with 0 in VO. destruct (Nat.eqb_spec o (length (objs s))) as [->|N].
      * rewrite nth_error_app2 by lia. rewrite Nat.sub_diag. cbn [nth_error obj_ok ob_dead ob_rc]. rewrite (proj2 (nth_error_None (objs s) (length (objs s)))) in VO by lia. cbn [obj_ok] in VO. unfold b2z. lia.
      * unfold b2z. rewrite Z.add_0_r in *. destruct (Nat.lt_ge_cases o (length (objs s))) as [L|L]; [rewrite nth_error_app1 by exact L; rewrite Z.add_0_r; exact VO|].
        rewrite (proj2 (nth_error_None (objs s ++ _) o)) by (rewrite app_length; cbn; lia). rewrite (proj2 (nth_error_None (objs s) o)) in VO by lia. cbn [obj_ok] in *. lia.
    + cbn [destroys flat_map app]. unfold owned. cbn [objs]. rewrite flat_map_app. cbn [flat_map ob_dead ob_mem]. rewrite app_nil_r. apply nodup_app_intro; [exact VN|apply seq_NoDup|].
      intros x I J. rewrite Forall_forall in VL. destruct (VL x I) as (p & E). apply nth_lt in E. apply in_seq in J. lia.
    + cbn [destroys flat_map app]. unfold owned. cbn [objs]. rewrite flat_map_app. cbn [flat_map ob_dead ob_mem]. rewrite app_nil_r. apply Forall_app. split.
      * eapply Forall_impl; [|exact VL]. intros g (p & E). exists p. cbn [cells]. rewrite nth_error_app1 by (apply (nth_lt _ _ _ _ E)). exact E.
      * apply Forall_forall. intros g I. apply in_seq in I. exists None. cbn [cells]. rewrite nth_error_app2 by lia. apply nth_error_repeat. lia.
  - (* ROutRetain *) destruct (alive s o) eqn:A; [|auto]. right.
    destruct (inv_retain (set_outs s (o :: outs s)) [] o) as (s' & R & V' & _); [|exact A|apply V|apply V|].
    { intros q. unfold set_outs at 1. cbn [objs]. replace (holders (set_outs s (o :: outs s)) q + releases [] q - b2z (Nat.eqb o q)) with (holders s q + releases [] q); [apply V|].
      unfold holders, set_outs. cbn [cells outs]. rewrite tally_cons, (Nat.eqb_sym q o). lia. }
    unfold retain in *. cbn [set_outs objs] in R. destruct (nth_error (objs s) o) as [[rc [|] mem]|]; try discriminate. cbn [rbind]. eexists. split; [reflexivity|]. injection R as <-. exact V'.
  - (* ROutRelease *) destruct (existsb (Nat.eqb o) (outs s)) eqn:X; [|auto]. right. apply release_ok. apply (inv_move s []); auto.
    intros q. rewrite releases_pend. change (releases [] q) with 0. unfold holders, set_outs. cbn [cells outs hits]. rewrite tally_remove by exact X. lia.
  - (* RNewHandles *) right. eexists. split; [reflexivity|]. apply (inv_move s []); auto.
    + intros o. f_equal. unfold holders. cbn [cells outs]. rewrite tally_app, (tally_zero _ _ (repeat _ _)); [lia|]. intros x I. apply repeat_spec in I. subst x. reflexivity.
    + intros h (p & E) _. exists p. cbn [cells]. rewrite nth_error_app1 by (apply (nth_lt _ _ _ _ E)). exact E.
  - (* RNull *) destruct (fresh s h) as [u| |] eqn:F; cbn [rbind]; [|auto|exfalso; exact (fresh_not_UB _ _ F)]. right. destruct (fresh_cell _ _ _ F) as (p & E). eexists. split; [reflexivity|].
    destruct (put_retain s h _ None V E) as (s' & R & V' & _); [discriminate|]. cbn [retain] in R. injection R as <-. exact V'.
  - (* RFrom *) destruct (fresh s h) as [u| |] eqn:F; cbn [rbind]; [|auto|exfalso; exact (fresh_not_UB _ _ F)]. destruct (alive s o) eqn:A; [|auto]. right. destruct (fresh_cell _ _ _ F) as (p & E).
    destruct (put_retain s h _ (Some o) V E) as (s' & R & V' & _); [intros q X; injection X as <-; exact A|]. exists s'. split; [exact R|exact V'].
  - (* RClaim *) destruct (fresh s h) as [u| |] eqn:F; cbn [rbind]; [|auto|exfalso; exact (fresh_not_UB _ _ F)]. destruct (existsb (Nat.eqb o) (outs s)) eqn:X; [|auto]. right. destruct (fresh_cell _ _ _ F) as (p & E).
    eexists. split; [reflexivity|]. apply (inv_move s []); auto.
    + intros q. f_equal. rewrite (holders_put _ h (mkCell false p)) by exact E. unfold holders, set_outs. cbn [cells outs hits]. rewrite tally_remove by exact X. unfold points. cbn [ce_live andb]. unfold b2z at 2. lia.
    + intros g (q & G) _. apply live_put. exists q. exact G.
  - (* RCopy *) destruct (fresh s h) as [u| |] eqn:F; cbn [rbind]; [|auto|exfalso; exact (fresh_not_UB _ _ F)]. destruct (get s g) as [p| |] eqn:G; cbn [rbind]; [|auto|exfalso; exact (get_not_UB _ _ G)]. right.
    destruct (fresh_cell _ _ _ F) as (q & E). destruct (put_retain s h _ p V E) as (s' & R & V' & _); [intros o ->; apply (held_alive s [] o V), (get_held s g), G|]. exists s'. split; [exact R|exact V'].
  - (* RMove *) destruct (fresh s h) as [u| |] eqn:F; cbn [rbind]; [|auto|exfalso; exact (fresh_not_UB _ _ F)]. destruct (get s g) as [p| |] eqn:G; cbn [rbind]; [|auto|exfalso; exact (get_not_UB _ _ G)]. right.
    destruct (fresh_cell _ _ _ F) as (q & E). apply get_cell in G. assert (NE : h <> g) by congruence. eexists. split; [reflexivity|]. apply (inv_move s []); auto.
    + intros o. f_equal. rewrite (holders_put (put s h p) g (mkCell true p)) by (cbn [put set_cell cells]; rewrite lset_other by exact NE; exact G). rewrite (holders_put s h _ _ _ E), points_hits. unfold points. cbn [ce_live andb]. cbn [b2z hits]. lia.
    + intros k K _. apply live_put, live_put, K.
  - (* RAssign *) destruct (get s g) as [p| |] eqn:G; cbn [rbind]; [|auto|exfalso; exact (get_not_UB _ _ G)]. apply basic_assign_ok; [exact V|]. intros o ->. apply (held_alive s [] o V), (get_held s g), G.
  - (* RMoveAssign *) destruct (get s h) as [t| |] eqn:H; cbn [rbind]; [|auto|exfalso; exact (get_not_UB _ _ H)]. destruct (get s g) as [p| |] eqn:G; cbn [rbind]; [|auto|exfalso; exact (get_not_UB _ _ G)]. right.
    apply release_ok. apply get_cell in H, G. apply (inv_move s []); auto; [apply destroys_pend| |intros k K _; apply live_put, live_put, K].
    intros o. rewrite releases_pend. change (releases [] o) with 0. destruct (Nat.eq_dec h g) as [->|NE].
    + rewrite G in H. injection H as <-. rewrite (holders_put (put s g p) g (mkCell true p)) by (cbn [put set_cell cells]; apply lset_same, (nth_lt _ _ _ _ G)). rewrite (holders_put s g _ _ _ G), points_hits. cbn [hits]. lia.
    + rewrite (holders_put (put s h p) g (mkCell true p)) by (cbn [put set_cell cells]; rewrite lset_other by exact NE; exact G). rewrite (holders_put s h _ _ _ H), !points_hits. cbn [hits]. lia.
  - (* RSwap *) destruct (get s h) as [t| |] eqn:H; cbn [rbind]; [|auto|exfalso; exact (get_not_UB _ _ H)]. destruct (get s g) as [p| |] eqn:G; cbn [rbind]; [|auto|exfalso; exact (get_not_UB _ _ G)]. right.
    eexists. split; [reflexivity|]. apply get_cell in H, G. apply (inv_move s []); auto; [|intros k K _; apply live_put, live_put, K].
    intros o. f_equal. destruct (Nat.eq_dec h g) as [->|NE].
    + rewrite G in H. injection H as <-. rewrite (holders_put (put s g p) g (mkCell true p)) by (cbn [put set_cell cells]; apply lset_same, (nth_lt _ _ _ _ G)). rewrite (holders_put s g _ _ _ G), points_hits. lia.
    + rewrite (holders_put (put s h p) g (mkCell true p)) by (cbn [put set_cell cells]; rewrite lset_other by exact NE; exact G). rewrite (holders_put s h _ _ _ H), !points_hits. lia.
  - (* RReset *) apply basic_assign_ok; [exact V|discriminate].
  - (* RDestroy *) destruct (get s h) as [t| |] eqn:H; cbn [rbind]; [|auto|exfalso; exact (get_not_UB _ _ H)]. destruct (existsb (Nat.eqb h) (owned s)) eqn:X; [auto|]. right.
    destruct (run_todo_ok s [TDestroy h]) as (s' & R & V' & _); [|exists s'; auto]. destruct V as [VO VN VL]. cbn [destroys flat_map app] in *. constructor.
    + intros o. specialize (VO o). exact VO.
    + cbn [destroys flat_map app]. constructor; [|exact VN]. intros I. apply not_true_iff_false in X. apply X. apply existsb_exists. exists h. rewrite Nat.eqb_refl. auto.
    + cbn [destroys flat_map app]. constructor; [exists t; apply get_cell, H|exact VL].
Qed.
Lemma init_ok : Inv heap_init [].
Proof. constructor; [|constructor|constructor]. intros [|o]; reflexivity. Qed.
Lemma run_ok : forall ops s, Inv s [] -> rrun ops s = Rej \/ exists s', rrun ops s = Ok s' /\ Inv s' [].
Proof.
  induction ops as [|op ops IH]; intros s V; cbn [rrun]; [right; eauto|]. destruct (step_ok op s V) as [->|(s1 & -> & V1)]; cbn [rbind]; [auto|]. apply IH, V1.
Qed.
