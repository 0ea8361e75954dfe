(** The JSON text of an AMF0 value reads as its JSON value. *)
From Verif Require Import Base BaseFacts AMF AMFSpec JSON JSONSpec JSONProofs.

Section Text.
  Variable dtoa : bool -> Z -> list Z.
  Definition num_view (u : Z) : jval := if list_eq_dec Z.eq_dec (dtoa true u) t_null then JNull else JNum (dtoa true u).
  Hypothesis dtoa_ok : forall u, is_u64 u -> dtoa true u = t_null \/ number (dtoa true u).
  Variable indent : nat.
  Notation rp := (repr dtoa true indent).
  Notation vw := (view num_view).

  Section Depth.
  Variable depth : nat.
  Fixpoint mem_text (first : bool) (m : list (list Z * option amf)) : list Z :=
    match m with
    | [] => if first then [] else ind indent depth
    | (k, o) :: r =>
        if true && skipped o then mem_text first r
        else (if first then [] else [44]) ++ ind indent (S depth) ++ json_string k ++ [58] ++ (match indent with O => [] | _ => [32] end)
             ++ (match o with Some x => rp x (S depth) | None => t_undefined end) ++ mem_text false r
    end.
  Fixpoint mem_view (m : list (list Z * option amf)) : list (list Z * jval) :=
    match m with
    | [] => []
    | (k, o) :: r => match o with None => mem_view r | Some AUndef => mem_view r | Some x => (k, vw x) :: mem_view r end
    end.
  Fixpoint el_text (first : bool) (l : list (option amf)) : list Z :=
    match l with
    | [] => if first then [] else ind indent depth
    | o :: r => (if first then [] else [44]) ++ ind indent (S depth) ++ (match o with Some x => rp x (S depth) | None => t_null end) ++ el_text false r
    end.
  End Depth.
  Lemma obj_text : forall m d, rp (AObj m) d = 123 :: mem_text d true m ++ [125]. Proof. reflexivity. Qed.
  Lemma typed_text : forall c m d, rp (ATyped c m) d = 123 :: mem_text d true m ++ [125]. Proof. reflexivity. Qed.
  Lemma ecma_text : forall m d, rp (AEcma m) d = 123 :: mem_text d true m ++ [125]. Proof. reflexivity. Qed.
  Lemma arr_text : forall l d, rp (AArr l) d = 91 :: el_text d true l ++ [93]. Proof. reflexivity. Qed.
  Lemma obj_view : forall m, vw (AObj m) = JObj (mem_view m). Proof. reflexivity. Qed.
  Lemma typed_view : forall c m, vw (ATyped c m) = JObj (mem_view m). Proof. reflexivity. Qed.
  Lemma ecma_view : forall m, vw (AEcma m) = JObj (mem_view m). Proof. reflexivity. Qed.

  Lemma ind_ws : forall d, ws (ind indent d).
  Proof.
    intros. unfold ind, ws. apply Forall_app. split; [destruct indent; constructor; [unfold is_ws; lia|constructor]|].
    apply Forall_forall. intros x H. apply repeat_spec in H. subst. unfold is_ws. lia.
  Qed.
  Lemma reads_ws : forall w s v r, ws w -> reads s v r -> reads (w ++ s) v r.
  Proof. induction w as [|c w IH]; intros s v r W R; [exact R|]. unfold ws in W. inversion W. subst. cbn. apply rd_ws; auto. Qed.
  Lemma ends_ws : forall w c r, ws w -> ~ num_char c -> ends_num (w ++ c :: r).
  Proof. intros [|x w] c r W C; cbn; [exact C|]. unfold ws in W. inversion W as [|? ? X _]. unfold is_ws in X. unfold num_char, is_digit. lia. Qed.
  Ltac nonum := unfold num_char, is_digit; lia.
  Lemma mem_ends : forall d m r, ends_num (mem_text d false m ++ 125 :: r).
  Proof.
    induction m as [|[k o] m IH]; intro r; cbn [mem_text].
    - apply ends_ws; [apply ind_ws|nonum].
    - destruct (true && skipped o); [apply IH|]. cbn. nonum.
  Qed.
  Lemma el_ends : forall d l r, ends_num (el_text d false l ++ 93 :: r).
  Proof. intros d [|o l] r; cbn [el_text]; [apply ends_ws; [apply ind_ws|nonum]|]. cbn. nonum. Qed.
  Definition reads_ok (x : amf) : Prop := forall d rest, ends_num rest -> reads (rp x d ++ rest) (vw x) rest.

  Lemma skipped_view : forall k o m, mem_view ((k, o) :: m) = if skipped o then mem_view m else match o with Some x => (k, vw x) :: mem_view m | None => [] end.
  Proof. intros k [x|] m; [destruct x; reflexivity|reflexivity]. Qed.
  Lemma member_text : forall d k x R, bytes_ok k -> reads_ok x -> ends_num R ->
    member (ind indent (S d) ++ json_string k ++ [58] ++ (match indent with O => [] | _ => [32] end) ++ rp x (S d) ++ R) k (vw x) R.
  Proof.
    intros d k x R B Rx E. unfold json_string. cbn [app]. rewrite <- app_assoc. cbn [app].
    apply (mb (ind indent (S d)) (concat (map json_char k)) k []).
    - apply ind_ws.
    - apply json_chars. exact B.
    - constructor.
    - apply reads_ws; [destruct indent; constructor; [unfold is_ws; lia|constructor]|]. apply Rx. exact E.
  Qed.
  Lemma mems_ok : forall d m rest, (forall k o, In (k, o) m -> bytes_ok k) -> (forall k x, In (k, Some x) m -> reads_ok x) ->
    mems (mem_text d false m ++ 125 :: rest) (mem_view m) rest.
  Proof.
    induction m as [|[k o] m IH]; intros rest B R.
    - cbn [mem_text mem_view]. apply me_end. apply ind_ws.
    - rewrite skipped_view. cbn [mem_text]. change (true && skipped o) with (skipped o).
      assert (IH' : mems (mem_text d false m ++ 125 :: rest) (mem_view m) rest) by (apply IH; [intros; eapply B; right; eauto|intros; eapply R; right; eauto]).
      destruct (skipped o) eqn:S; [exact IH'|]. destruct o as [x|]; [|discriminate].
      rewrite <- !app_assoc. change ([44] ++ ?a) with ([] ++ 44 :: a).
      eapply me_more; [constructor| |exact IH']. apply member_text; [eapply B; left; reflexivity|eapply R; left; reflexivity|apply mem_ends].
  Qed.
  Lemma object_ok : forall d m rest, (forall k o, In (k, o) m -> bytes_ok k) -> (forall k x, In (k, Some x) m -> reads_ok x) ->
    reads (123 :: mem_text d true m ++ 125 :: rest) (JObj (mem_view m)) rest.
  Proof.
    induction m as [|[k o] m IH]; intros rest B R.
    - cbn [mem_text mem_view]. apply (rd_obj0 [] rest). constructor.
    - rewrite skipped_view. cbn [mem_text]. change (true && skipped o) with (skipped o).
      destruct (skipped o) eqn:S; [apply IH; [intros; eapply B; right; eauto|intros; eapply R; right; eauto]|]. destruct o as [x|]; [|discriminate].
      rewrite <- !app_assoc. cbn [app]. eapply rd_obj.
      + apply member_text; [eapply B; left; reflexivity|eapply R; left; reflexivity|apply mem_ends].
      + apply mems_ok; [intros; eapply B; right; eauto|intros; eapply R; right; eauto].
  Qed.
  Definition el_view (o : option amf) : jval := match o with Some x => vw x | None => JNull end.
  Lemma el_reads : forall d o R, (forall x, o = Some x -> reads_ok x) -> ends_num R -> reads ((match o with Some x => rp x d | None => t_null end) ++ R) (el_view o) R.
  Proof. intros d [x|] R H E; cbn [el_view]; [apply (H x eq_refl); exact E|]. apply rd_null. Qed.
  Lemma elems_ok : forall d l rest, (forall x, In (Some x) l -> reads_ok x) -> elems (el_text d false l ++ 93 :: rest) (map el_view l) rest.
  Proof.
    induction l as [|o l IH]; intros rest R; cbn [el_text map].
    - apply el_end. apply ind_ws.
    - rewrite <- !app_assoc. change ([44] ++ ?a) with ([] ++ 44 :: a). eapply el_more; [constructor| |apply IH; intros; apply R; right; auto].
      apply reads_ws; [apply ind_ws|]. apply el_reads; [intros x ->; apply R; left; reflexivity|apply el_ends].
  Qed.
  Lemma array_ok : forall d l rest, (forall x, In (Some x) l -> reads_ok x) -> reads (91 :: el_text d true l ++ 93 :: rest) (JArr (map el_view l)) rest.
  Proof.
    intros d [|o l] rest R; cbn [el_text map].
    - apply (rd_arr0 [] rest). constructor.
    - rewrite <- !app_assoc. cbn [app]. eapply rd_arr; [|apply elems_ok; intros; apply R; right; auto].
      apply reads_ws; [apply ind_ws|]. apply el_reads; [intros x ->; apply R; left; reflexivity|apply el_ends].
  Qed.
  Lemma all_reads : forall v, value_ok v -> reads_ok v.
  Proof.
    induction 1 as [u U|b|s S|m A K V IH|c m C A K V IH|m A K V IH| | |l L V IH]; intros d rest E.
    - cbn [repr view]. unfold num_view. destruct (list_eq_dec Z.eq_dec (dtoa true u) t_null) as [->|N]; [apply rd_null|].
      destruct (dtoa_ok u U) as [Q|Q]; [contradiction|]. apply rd_num; auto.
    - destruct b; [apply rd_true|apply rd_false].
    - cbn [repr view]. unfold json_string. cbn [app]. rewrite <- app_assoc. cbn [app]. apply rd_str. apply json_chars. apply S.
    - rewrite obj_text, obj_view. cbn [app]. rewrite <- app_assoc. cbn [app]. apply object_ok; [intros k o I; apply (K k o I)|exact IH].
    - rewrite typed_text, typed_view. cbn [app]. rewrite <- app_assoc. cbn [app]. apply object_ok; [intros k o I; apply (K k o I)|exact IH].
    - rewrite ecma_text, ecma_view. cbn [app]. rewrite <- app_assoc. cbn [app]. apply object_ok; [intros k o I; apply (K k o I)|exact IH].
    - apply rd_null.
    - apply rd_null.
    - rewrite arr_text. cbn [app]. rewrite <- app_assoc. cbn [app]. apply array_ok. exact IH.
  Qed.
  Lemma json_reads : forall v, value_ok v -> reads (to_json dtoa indent v) (vw v) [].
  Proof. intros v V. unfold to_json. rewrite <- (app_nil_r (rp v 0)). apply all_reads; [exact V|exact I]. Qed.
  Lemma json_only : forall v, value_ok v -> forall w r, reads (to_json dtoa indent v) w r -> w = vw v /\ r = [].
  Proof. intros v V w r R. destruct (reads_unique _ _ _ (json_reads v V) _ _ R) as [-> ->]. auto. Qed.
End Text.
