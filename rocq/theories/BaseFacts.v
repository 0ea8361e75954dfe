(** General lemmas used by the proofs. *)
From Verif Require Export Base.
Ltac Zify.zify_post_hook ::= Z.div_mod_to_equations.

Lemma bytes_okb_ok : forall l, bytes_okb l = true -> bytes_ok l.
Proof.
  intros l H. apply Forall_forall. intros x Hx. unfold bytes_okb in H.
  rewrite forallb_forall in H. specialize (H x Hx). unfold is_byteb in H. unfold is_byte. lia.
Qed.

Lemma bytes_ok_app : forall a b, bytes_ok (a ++ b) <-> bytes_ok a /\ bytes_ok b.
Proof. intros; apply Forall_app. Qed.

Lemma bytes_ok_skipn : forall n l, bytes_ok l -> bytes_ok (skipn n l).
Proof. intros n l H. rewrite <- (firstn_skipn n l) in H. apply bytes_ok_app in H. tauto. Qed.
Lemma bytes_ok_firstn : forall n l, bytes_ok l -> bytes_ok (firstn n l).
Proof. intros n l H. rewrite <- (firstn_skipn n l) in H. apply bytes_ok_app in H. tauto. Qed.

Lemma zlen_nil : forall A, zlen (@nil A) = 0.
Proof. reflexivity. Qed.
Lemma zlen_cons : forall A (x : A) l, zlen (x :: l) = 1 + zlen l.
Proof. intros; unfold zlen; cbn [length]; lia. Qed.
Lemma zlen_app : forall A (a b : list A), zlen (a ++ b) = zlen a + zlen b.
Proof. intros; unfold zlen; rewrite app_length; lia. Qed.
Lemma zlen_nonneg : forall A (l : list A), 0 <= zlen l.
Proof. intros; unfold zlen; lia. Qed.

Lemma firstn_app_exact : forall A (a b : list A), firstn (length a) (a ++ b) = a.
Proof. intros. rewrite firstn_app, Nat.sub_diag, firstn_all, firstn_O, app_nil_r. reflexivity. Qed.
Lemma skipn_app_exact : forall A (a b : list A), skipn (length a) (a ++ b) = b.
Proof. intros. rewrite skipn_app, Nat.sub_diag, skipn_all. reflexivity. Qed.

(** Facts about bytes by exhaustive check: 256 cases. *)
Definition byte_range : list Z := map Z.of_nat (seq 0 256).
Lemma byte_range_in : forall b, is_byte b -> In b byte_range.
Proof.
  intros b H. unfold byte_range. apply in_map_iff. exists (Z.to_nat b).
  unfold is_byte in H. split; [lia|]. apply in_seq. lia.
Qed.
Lemma byte_sweep : forall (f : Z -> bool), forallb f byte_range = true -> forall b, is_byte b -> f b = true.
Proof. intros f H b Hb. rewrite forallb_forall in H. apply H, byte_range_in, Hb. Qed.

Lemma land_127 : forall v, Z.land v 127 = v mod 128.
Proof. intros. change 127 with (Z.ones 7). rewrite Z.land_ones by lia. reflexivity. Qed.
Lemma land_255 : forall v, Z.land v 255 = v mod 256.
Proof. intros. change 255 with (Z.ones 8). rewrite Z.land_ones by lia. reflexivity. Qed.
Lemma shiftr_7 : forall v, Z.shiftr v 7 = v / 128.
Proof. intros. rewrite Z.shiftr_div_pow2 by lia. reflexivity. Qed.
Lemma shiftr_8 : forall v, Z.shiftr v 8 = v / 256.
Proof. intros. rewrite Z.shiftr_div_pow2 by lia. reflexivity. Qed.
Lemma shiftl_7 : forall v, Z.shiftl v 7 = v * 128.
Proof. intros. rewrite Z.shiftl_mul_pow2 by lia. reflexivity. Qed.
Lemma shiftl_8 : forall v, Z.shiftl v 8 = v * 256.
Proof. intros. rewrite Z.shiftl_mul_pow2 by lia. reflexivity. Qed.

Lemma byte_land_128 : forall b, is_byte b -> (Z.land b 128 =? 0) = (b <? 128).
Proof.
  intros b Hb. apply eqb_prop.
  apply (byte_sweep (fun b => Bool.eqb (Z.land b 128 =? 0) (b <? 128))); [vm_compute; reflexivity|exact Hb].
Qed.
Lemma lor_128 : forall v, 0 <= v < 128 -> Z.lor v 128 = v + 128.
Proof.
  intros v Hv.
  assert (Hs : (if v <? 128 then Z.lor v 128 =? v + 128 else true) = true).
  { apply (byte_sweep (fun b => if b <? 128 then Z.lor b 128 =? b + 128 else true)); [vm_compute; reflexivity|].
    unfold is_byte; lia. }
  destruct (v <? 128) eqn:E; lia.
Qed.

(** Split equalities of outcomes and tuples, without touching the components. *)
Ltac tup := repeat match goal with
  | |- Ok _ = Ok _ => apply f_equal
  | |- Some _ = Some _ => apply f_equal
  | |- (_, _) = (_, _) => apply f_equal2
  end; try reflexivity; try lia.
