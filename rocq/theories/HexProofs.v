From Verif Require Import Base BaseFacts Hex HexSpec.
Ltac Zify.zify_post_hook ::= Z.div_mod_to_equations.

Lemma digit_val : forall d v, digit_is d v <-> hex_digit d = v /\ 0 <= v.
Proof.
  intros d v. split.
  - intros (n & -> & L & H). do 16 (destruct n as [|n]; [destruct H as [H|H]; vm_compute in H; injection H as <-; vm_compute; split; congruence|]). lia.
  - intros [H P]. unfold hex_digit, isspace in H.
    assert (C : exists k : Z, (0 <= k <= 9 /\ d = 48 + k /\ v = k) \/ (0 <= k <= 5 /\ d = 97 + k /\ v = 10 + k) \/ (0 <= k <= 5 /\ d = 65 + k /\ v = 10 + k)).
    { destruct (_ && _) eqn:E1 in H; [exists v; lia|]. destruct (_ && _) eqn:E2 in H; [exists (v - 10); lia|].
      destruct (_ && _) eqn:E3 in H; [exists (v - 10); lia|]. destruct (_ || _) in H; lia. }
    clear H P. destruct C as (k & [C|[C|C]]); destruct C as (B & -> & ->).
    + assert (X : k = 0 \/ k = 1 \/ k = 2 \/ k = 3 \/ k = 4 \/ k = 5 \/ k = 6 \/ k = 7 \/ k = 8 \/ k = 9) by lia.
      clear B. exists (Z.to_nat k). repeat (destruct X as [->|X]; [split; [reflexivity|split; [vm_compute; lia|left; vm_compute; reflexivity]]|]).
      subst k. split; [reflexivity|split; [vm_compute; lia|left; vm_compute; reflexivity]].
    + assert (X : k = 0 \/ k = 1 \/ k = 2 \/ k = 3 \/ k = 4 \/ k = 5) by lia.
      clear B. exists (Z.to_nat (10 + k)). repeat (destruct X as [->|X]; [split; [reflexivity|split; [vm_compute; lia|left; vm_compute; reflexivity]]|]).
      subst k. split; [reflexivity|split; [vm_compute; lia|left; vm_compute; reflexivity]].
    + assert (X : k = 0 \/ k = 1 \/ k = 2 \/ k = 3 \/ k = 4 \/ k = 5) by lia.
      clear B. exists (Z.to_nat (10 + k)). repeat (destruct X as [->|X]; [split; [reflexivity|split; [vm_compute; lia|right; vm_compute; reflexivity]]|]).
      subst k. split; [reflexivity|split; [vm_compute; lia|right; vm_compute; reflexivity]].
Qed.
Lemma white_val : forall d, white d <-> hex_digit d = -1.
Proof.
  intros d. unfold white, hex_digit, isspace. cbn [In]. split.
  - intros H. repeat (destruct H as [<-|H]; [reflexivity|]). destruct H.
  - intros H. destruct (_ && _) eqn:E1 in H; [lia|]. destruct (_ && _) eqn:E2 in H; [lia|]. destruct (_ && _) eqn:E3 in H; [lia|].
    destruct (_ || _) eqn:E4 in H; lia.
Qed.
Lemma hex_digit_range : forall d, -2 <= hex_digit d < 16.
Proof.
  intros d. unfold hex_digit. destruct ((d >=? 48) && (d <=? 57)) eqn:A; [lia|]. destruct ((d >=? 97) && (d <=? 102)) eqn:B; [lia|].
  destruct ((d >=? 65) && (d <=? 70)) eqn:C; [lia|]. destruct (isspace d); lia.
Qed.

(** The loop at a group boundary: [Some] exactly for hex text. *)
Lemma loop_sound : forall n t rest dst r, (length t <= n)%nat -> Forall (fun d => d <> 0) t ->
  hex_loop (t ++ 0 :: rest) 0 true dst = r ->
  (exists bs, hextext t bs /\ r = Ok (true, dst ++ bs)) \/ (~ (exists bs, hextext t bs) /\ exists x, r = Ok (false, dst ++ x)).
Proof.
  induction n as [|n IH]; intros t rest dst r L F E.
  - destruct t; [|cbn in L; lia]. cbn in E. subst r. left. exists []. rewrite app_nil_r. split; [constructor|reflexivity].
  - destruct t as [|d t]. { cbn in E. subst r. left. exists []. rewrite app_nil_r. split; [constructor|reflexivity]. }
    cbn [length] in L. inversion F as [|? ? F1 F2]; subst. cbn [app hex_loop]. destruct (Z.eqb_spec d 0) as [|_]; [contradiction|].
    pose proof (hex_digit_range d) as RD.
    destruct (Z.ltb_spec (hex_digit d) 0) as [N|N].
    + cbn [negb]. rewrite orb_false_r. destruct (Z.ltb_spec (hex_digit d) (-1)) as [N2|N2].
      * right. split; [|exists []; rewrite app_nil_r; reflexivity]. intros (bs & H). inversion H; subst.
        -- match goal with W : white d |- _ => apply white_val in W; lia end.
        -- match goal with W : digit_is d _ |- _ => apply digit_val in W; lia end.
      * assert (Wd : white d) by (apply white_val; lia).
        destruct (IH t rest dst _ ltac:(lia) F2 eq_refl) as [(bs & H & R)|(H & z & R)].
        -- left. exists bs. split; [constructor; assumption|exact R].
        -- right. split; [|exists z; exact R]. intros (bs & X). inversion X; subst; [eauto|].
           match goal with W : digit_is d _ |- _ => apply digit_val in W; lia end.
    + assert (Dd : digit_is d (hex_digit d)) by (apply digit_val; lia).
      assert (ND : forall d2 t2 bs, hextext (d :: d2 :: t2) bs -> exists x y bs', digit_is d2 y /\ hextext t2 bs' /\ bs = 16 * x + y :: bs').
      { intros d2 t2 bs X. inversion X; subst; [match goal with W : white d |- _ => apply white_val in W; lia end|]. do 3 eexists; repeat split; eauto. }
      rewrite Z.shiftl_0_l. replace (wrap8 (wrap8 0 + hex_digit d)) with (hex_digit d) by (unfold wrap8; lia).
      destruct t as [|d2 t]; cbn [app hex_loop].
      * cbn. right. split; [|exists []; rewrite app_nil_r; reflexivity]. intros (bs & X). inversion X; subst; match goal with W : white d |- _ => apply white_val in W; lia end.
      * cbn [length] in L. inversion F2 as [|? ? F3 F4]; subst. destruct (Z.eqb_spec d2 0) as [|_]; [contradiction|].
        pose proof (hex_digit_range d2) as RD2.
        destruct (Z.ltb_spec (hex_digit d2) 0) as [M|M].
        -- cbn [negb]. rewrite orb_true_r. right. split; [|exists []; rewrite app_nil_r; reflexivity]. intros (bs & X). destruct (ND _ _ _ X) as (x & y & bs' & A & _). apply digit_val in A. lia.
        -- rewrite Z.shiftl_mul_pow2 by lia. change (2 ^ 4) with 16.
           replace (wrap8 (wrap8 (hex_digit d * 16) + hex_digit d2)) with (16 * hex_digit d + hex_digit d2) by (unfold wrap8; lia).
           destruct (IH t rest (dst ++ [16 * hex_digit d + hex_digit d2]) _ ltac:(lia) F4 eq_refl) as [(bs & H & R)|(H & z & R)].
           ++ left. exists (16 * hex_digit d + hex_digit d2 :: bs). split; [constructor; [assumption|apply digit_val; lia|assumption]|].
              rewrite R, <- app_assoc. reflexivity.
           ++ right. split; [|exists (16 * hex_digit d + hex_digit d2 :: z); rewrite R, <- app_assoc; reflexivity]. intros (bs & X). destruct (ND _ _ _ X) as (x & y & bs' & _ & B & _). eauto.
Qed.
Lemma hextext_fun : forall t bs, hextext t bs -> forall bs', hextext t bs' -> bs = bs'.
Proof.
  induction 1 as [|d t bs W H IH|a b x y t bs A B H IH]; intros bs' X; inversion X; subst; auto.
  - apply white_val in W. match goal with W : digit_is d _ |- _ => apply digit_val in W; lia end.
  - apply digit_val in A. match goal with W : white a |- _ => apply white_val in W; lia end.
  - apply digit_val in A, B. repeat match goal with W : digit_is _ _ |- _ => apply digit_val in W end. f_equal; [lia|auto].
Qed.
Lemma decode_exact : forall t rest dst, Forall (fun d => d <> 0) t ->
  (forall bs, hextext t bs -> hex_decode (t ++ 0 :: rest) dst = Ok (true, dst ++ bs))
  /\ ((forall bs, ~ hextext t bs) -> hex_decode (t ++ 0 :: rest) dst = Ok (false, dst)).
Proof.
  intros t rest dst F. unfold hex_decode. destruct (loop_sound (length t) t rest dst _ (le_n _) F eq_refl) as [(bs & H & ->)|(H & z & ->)]; cbn; rewrite ?firstn_app_exact.
  - split; [intros bs' H'; rewrite (hextext_fun _ _ H _ H'); reflexivity|]. intros N. destruct (N _ H).
  - split; [|reflexivity]. intros bs H'. destruct H. eauto.
Qed.
Lemma decode_iff : forall t rest dst, Forall (fun d => d <> 0) t -> (exists d, hex_decode (t ++ 0 :: rest) dst = Ok (true, d)) <-> (exists bs, hextext t bs).
Proof.
  intros t rest dst F. unfold hex_decode. destruct (loop_sound (length t) t rest dst _ (le_n _) F eq_refl) as [(bs & H & ->)|(H & z & ->)]; cbn.
  - split; eauto.
  - split; [intros (d & X); discriminate|]. intros X. contradiction.
Qed.

Lemma encode_byte : forall b, is_byte b -> let a := nth (Z.to_nat (Z.shiftr b 4)) hex_digits 0 in let c := nth (Z.to_nat (Z.land b 15)) hex_digits 0 in
  a <> 0 /\ c <> 0 /\ exists x y, digit_is a x /\ digit_is c y /\ b = 16 * x + y.
Proof.
  intros b Hb a c.
  pose (f := fun b => let a := nth (Z.to_nat (Z.shiftr b 4)) hex_digits 0 in let c := nth (Z.to_nat (Z.land b 15)) hex_digits 0 in
         negb (a =? 0) && negb (c =? 0) && (0 <=? hex_digit a) && (0 <=? hex_digit c) && (b =? 16 * hex_digit a + hex_digit c)).
  assert (H : f b = true) by (apply byte_sweep; [vm_compute; reflexivity|exact Hb]).
  unfold f in H. fold a c in H. split; [lia|]. split; [lia|]. exists (hex_digit a), (hex_digit c).
  split; [apply digit_val; lia|]. split; [apply digit_val; lia|lia].
Qed.
Lemma encode_text : forall bs, bytes_ok bs -> hextext (hex_encode bs) bs /\ Forall (fun d => d <> 0) (hex_encode bs) /\ length (hex_encode bs) = (2 * length bs)%nat.
Proof.
  induction 1 as [|b bs Hb H IH]; [cbn; repeat split; constructor|]. destruct IH as (A & B & C).
  destruct (encode_byte b Hb) as (N1 & N2 & x & y & D1 & D2 & E).
  change (hex_encode (b :: bs)) with (nth (Z.to_nat (Z.shiftr b 4)) hex_digits 0 :: nth (Z.to_nat (Z.land b 15)) hex_digits 0 :: hex_encode bs).
  split; [rewrite E at 3; constructor; assumption|]. split; [auto|]. cbn [length]. lia.
Qed.
Lemma decode_encode : forall bs rest dst, bytes_ok bs -> hex_decode (hex_encode bs ++ 0 :: rest) dst = Ok (true, dst ++ bs).
Proof. intros bs rest dst H. destruct (encode_text bs H) as (A & B & _). apply (proj1 (decode_exact _ _ _ B) bs A). Qed.

Lemma byte_exact : forall a b rest,
  (forall x y, digit_is a x -> digit_is b y -> hex_byte (a :: b :: rest) = Ok (16 * x + y))
  /\ ((forall x y, ~ (digit_is a x /\ digit_is b y)) -> hex_byte (a :: b :: rest) = Ok (-1)).
Proof.
  intros a b rest. cbn [hex_byte]. rewrite Z.shiftl_mul_pow2 by lia. split.
  - intros x y A B. apply digit_val in A, B. destruct A as [<- A], B as [<- B].
    destruct (Z.geb_spec (hex_digit a) 0); [|lia]. destruct (Z.geb_spec (hex_digit b) 0); [|lia]. f_equal. lia.
  - intros N. destruct (Z.geb_spec (hex_digit a) 0); [|reflexivity]. destruct (Z.geb_spec (hex_digit b) 0); [|reflexivity].
    destruct (N (hex_digit a) (hex_digit b)). split; apply digit_val; lia.
Qed.
(** decodeByte never reads past a terminating zero. *)
Lemma byte_safe : forall t rest, (length t <= 1)%nat -> hex_byte (t ++ 0 :: rest) = Ok (-1).
Proof.
  intros [|a [|b t]] rest L; cbn [length] in L; [reflexivity| |lia]. cbn [app hex_byte]. destruct (hex_digit a >=? 0); reflexivity.
Qed.
