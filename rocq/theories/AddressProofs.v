From Verif Require Import Base BaseFacts Address AddressSpec.
Ltac Zify.zify_post_hook ::= Z.div_mod_to_equations.

Lemma Ok_inj : forall A (a b : A), Ok a = Ok b -> a = b.
Proof. intros A a b E. injection E. auto. Qed.
(** ** memcmp *)
Lemma memcmp_eq : forall a b, length a = length b -> (memcmp a b = 0 <-> a = b).
Proof.
  induction a as [|x a IH]; intros [|y b] L; cbn in L; try discriminate; [split; reflexivity|]. cbn [memcmp]. destruct (Z.eqb_spec x y) as [->|N].
  - rewrite IH by lia. split; [intros ->; reflexivity|intros E; injection E; auto].
  - split; [intros; lia|]. intros E. injection E as E _. contradiction.
Qed.
Lemma memcmp_anti : forall a b, length a = length b -> (memcmp a b < 0 <-> memcmp b a > 0).
Proof.
  induction a as [|x a IH]; intros [|y b] L; cbn in L; try discriminate; [cbn; lia|]. cbn [memcmp]. rewrite (Z.eqb_sym y x). destruct (Z.eqb_spec x y) as [->|N]; [apply IH; lia|lia].
Qed.
Lemma memcmp_trans : forall a b c, length a = length b -> length b = length c -> memcmp a b <= 0 -> memcmp b c <= 0 -> memcmp a c <= 0 /\ (memcmp a b < 0 \/ memcmp b c < 0 -> memcmp a c < 0).
Proof.
  induction a as [|x a IH]; intros [|y b] [|z c] L L'; cbn in L, L'; try discriminate; [cbn; lia|]. cbn [memcmp].
  destruct (Z.eqb_spec x y) as [->|N], (Z.eqb_spec y z) as [->|N'].
  - rewrite ?Z.eqb_refl. apply IH; lia.
  - intros. destruct (Z.eqb_spec y z); lia.
  - intros. destruct (Z.eqb_spec x z); lia.
  - intros. destruct (Z.eqb_spec x z); lia.
Qed.

Lemma fam_cases : forall a, addr_ok a -> (a_fam a = 0 /\ a_ip a = [] /\ a_port a = 0) \/ (a_fam a = 2 /\ length (a_ip a) = 4%nat) \/ (a_fam a = 10 /\ length (a_ip a) = 16%nat).
Proof. intros a H. exact (ak_fam a H). Qed.
Lemma fam_length : forall a b, addr_ok a -> addr_ok b -> a_fam a = a_fam b -> length (a_ip a) = length (a_ip b).
Proof.
  intros a b A B E. destruct (fam_cases a A) as [(F & -> & _)|[(F & L)|(F & L)]], (fam_cases b B) as [(F' & -> & _)|[(F' & L')|(F' & L')]]; try lia; reflexivity.
Qed.
Lemma get_port_ok : forall a, addr_ok a -> get_port a = a_port a.
Proof.
  intros a A. unfold get_port, AF_INET, AF_INET6. destruct (fam_cases a A) as [(F & _ & P)|[(F & L)|(F & L)]]; rewrite F; [|reflexivity|reflexivity]. rewrite P. reflexivity.
Qed.

(** ** The order *)
Lemma eq_same : forall a b, addr_ok a -> addr_ok b -> (addr_eq a b = true <-> same_addr a b).
Proof.
  intros a b A B. unfold addr_eq, same_addr. rewrite !get_port_ok by assumption. rewrite !andb_true_iff, !Z.eqb_eq. split.
  - intros ((F & M) & P). split; [exact F|]. split; [|exact P]. apply memcmp_eq; [apply fam_length; assumption|exact M].
  - intros (F & I & P). split; [split; [exact F|]|exact P]. apply memcmp_eq; [rewrite I; reflexivity|exact I].
Qed.
Lemma lt_spec : forall a b, addr_ok a -> addr_ok b ->
  (addr_lt a b = true <-> a_fam a < a_fam b \/ (a_fam a = a_fam b /\ (memcmp (a_ip a) (a_ip b) < 0 \/ (memcmp (a_ip a) (a_ip b) = 0 /\ a_port a < a_port b)))).
Proof.
  intros a b A B. unfold addr_lt. rewrite !get_port_ok by assumption. destruct (Z.ltb_spec (a_fam a) (a_fam b)); [split; auto|].
  destruct (Z.ltb_spec (a_fam b) (a_fam a)); [split; [discriminate|lia]|].
  destruct (Z.ltb_spec (memcmp (a_ip a) (a_ip b)) 0); [split; [lia|auto]|]. destruct (Z.gtb_spec (memcmp (a_ip a) (a_ip b)) 0); [split; [discriminate|lia]|].
  rewrite Z.ltb_lt. lia.
Qed.
Lemma order : (forall a, addr_ok a -> addr_lt a a = false)
  /\ (forall a b c, addr_ok a -> addr_ok b -> addr_ok c -> addr_lt a b = true -> addr_lt b c = true -> addr_lt a c = true)
  /\ (forall a b, addr_ok a -> addr_ok b -> addr_lt a b = true \/ addr_lt b a = true \/ same_addr a b)
  /\ (forall a b, addr_ok a -> addr_ok b -> same_addr a b -> addr_lt a b = false).
Proof.
  assert (K : forall a b, addr_ok a -> addr_ok b -> same_addr a b -> addr_lt a b = false).
  { intros a b A B (F & I & P). apply not_true_is_false. intros H. apply lt_spec in H; [|assumption|assumption].
    pose proof (proj2 (memcmp_eq (a_ip a) (a_ip b) ltac:(rewrite I; reflexivity)) I). lia. }
  split; [intros a A; apply K; [exact A|exact A|repeat split]|]. split; [|split; [|exact K]].
  - intros a b c A B C H1 H2. apply lt_spec in H1; [|assumption|assumption]. apply lt_spec in H2; [|assumption|assumption]. apply lt_spec; [assumption|assumption|].
    destruct H1 as [H1|(F1 & H1)], H2 as [H2|(F2 & H2)]; try (left; lia). right. split; [lia|].
    pose proof (memcmp_trans (a_ip a) (a_ip b) (a_ip c) (fam_length a b A B F1) (fam_length b c B C F2) ltac:(lia) ltac:(lia)). lia.
  - intros a b A B. destruct (Z.lt_trichotomy (a_fam a) (a_fam b)) as [H|[H|H]].
    + left. apply lt_spec; auto.
    + pose proof (fam_length a b A B H) as L. pose proof (memcmp_anti (a_ip a) (a_ip b) L) as AN. pose proof (memcmp_anti (a_ip b) (a_ip a) (eq_sym L)) as AN'.
      destruct (Z.lt_trichotomy (memcmp (a_ip a) (a_ip b)) 0) as [M|[M|M]].
      * left. apply lt_spec; auto.
      * apply memcmp_eq in M; [|exact L]. destruct (Z.lt_trichotomy (a_port a) (a_port b)) as [P|[P|P]].
        -- left. apply lt_spec; auto. right. split; [exact H|]. right. split; [apply memcmp_eq; assumption|exact P].
        -- right. right. repeat split; assumption.
        -- right. left. apply lt_spec; auto. right. split; [lia|]. right. split; [apply memcmp_eq; [lia|auto]|exact P].
      * right. left. apply lt_spec; auto. right. split; [lia|]. left. lia.
    + right. left. apply lt_spec; auto.
Qed.

(** ** Families *)
Lemma set_family_fam : forall a f, f = 2 \/ f = 10 -> a_fam (set_family a f) = f /\ a_origin (set_family a f) = a_origin a.
Proof.
  intros a f H. unfold set_family, set_port, AF_INET, AF_INET6. destruct H as [-> | ->]; cbn [Z.eqb Pos.eqb negb andb].
  - destruct (Z.eqb_spec (a_fam a) 2); [auto|]. cbn. auto.
  - destruct (Z.eqb_spec (a_fam a) 10); [auto|]. cbn. auto.
Qed.
Lemma map_up : forall a, addr_ok a -> a_fam a = AF_INET -> can_map a AF_INET6 = true /\ mapped a (set_family a AF_INET6) /\ addr_ok (set_family a AF_INET6).
Proof.
  intros a A F. split; [unfold can_map; rewrite F; reflexivity|].
  destruct (fam_cases a A) as [(F' & _)|[(F' & L)|(F' & L)]]; unfold AF_INET in F; try lia.
  assert (E : set_family a AF_INET6 = mkAddr 10 ([0; 0; 0; 0; 0; 0; 0; 0; 0; 0; 255; 255] ++ a_ip a) (a_port a) (a_origin a)).
  { unfold set_family, can_map, ip_length, get_port. rewrite F. change (AF_INET =? AF_INET6) with false. change (AF_INET6 =? AF_INET6) with true. change (2 =? AF_INET6) with false.
    change (2 =? AF_INET) with true. cbn [negb andb orb Nat.eqb]. unfold set_port. cbn [a_fam a_ip a_port a_origin]. change (AF_INET6 =? AF_INET) with false. change (AF_INET6 =? AF_INET6) with true. cbn [orb].
    destruct (a_ip a) as [|b0 [|b1 [|b2 [|b3 [|? ?]]]]]; try discriminate L. cbn [firstn app map_prefix].
    f_equal. pose proof (ak_port a A) as P. unfold is_u16, U16MAX, wrap16 in *. apply Z.mod_small. lia. }
  rewrite E. split; [repeat split; assumption|]. destruct A. constructor; cbn [a_fam a_ip a_port a_origin]; auto.
  - apply bytes_ok_app. split; [apply bytes_okb_ok; reflexivity|assumption].
  - right. right. split; [reflexivity|]. rewrite app_length, L. reflexivity.
Qed.
Lemma map_down : forall v4 v6, addr_ok v6 -> mapped v4 v6 -> can_map v6 AF_INET = true /\ set_family v6 AF_INET = v4.
Proof.
  intros v4 v6 A (F4 & F6 & I & P & O).
  assert (C : can_map v6 AF_INET = true) by (unfold can_map; rewrite F6, I; reflexivity). split; [exact C|].
  destruct (fam_cases v6 A) as [(F' & _)|[(F' & L)|(F' & L)]]; rewrite F6 in F'; unfold AF_INET6 in F'; try lia.
  unfold set_family. rewrite C. unfold ip_length, get_port. rewrite F6. change (AF_INET =? AF_INET) with true. change (AF_INET6 =? AF_INET) with false. change (AF_INET6 =? AF_INET6) with true.
  cbn [negb andb orb Nat.eqb]. unfold set_port. cbn [a_fam a_ip a_port a_origin]. change (AF_INET =? AF_INET) with true. cbn [orb].
  rewrite I in *. rewrite app_length in L. cbn [length] in L. destruct (a_ip v4) as [|b0 [|b1 [|b2 [|b3 [|? ?]]]]] eqn:E4; try discriminate L. cbn [app skipn firstn length].
  destruct v4 as [f ip p o]. cbn [a_fam a_ip a_port a_origin] in *. subst. f_equal. pose proof (ak_port v6 A) as Q. unfold is_u16, U16MAX, wrap16 in *. apply Z.mod_small. lia.
Qed.
Lemma can_map_mapped : forall v6, addr_ok v6 -> a_fam v6 = AF_INET6 -> can_map v6 AF_INET = true -> mapped (mkAddr AF_INET (skipn 12 (a_ip v6)) (a_port v6) (a_origin v6)) v6.
Proof.
  intros v6 A F C. unfold can_map in C. rewrite F in C. change (AF_INET6 =? AF_INET) with false in C. change (AF_INET6 =? AF_INET6) with true in C. change (AF_INET =? AF_INET) with true in C.
  cbn [andb] in C. apply Z.eqb_eq in C. destruct (fam_cases v6 A) as [(F' & _)|[(F' & L)|(F' & L)]]; rewrite F in F'; unfold AF_INET6 in F'; try lia.
  apply memcmp_eq in C; [|rewrite firstn_length, L; reflexivity].
  split; [reflexivity|]. split; [exact F|]. split; [|split; reflexivity]. change [0; 0; 0; 0; 0; 0; 0; 0; 0; 0; 255; 255] with map_prefix. rewrite <- C. symmetry. exact (firstn_skipn 12 (a_ip v6)).
Qed.

(** ** The encoding *)
Lemma flag_bits : forall f, is_byte f -> negb (Z.land f 128 =? 0) = Z.testbit f 7 /\ Z.land f 3 = f mod 4.
Proof.
  intros f H. pose proof (byte_sweep (fun b => Bool.eqb (negb (Z.land b 128 =? 0)) (Z.testbit b 7) && (Z.land b 3 =? b mod 4)) ltac:(vm_compute; reflexivity) f H) as E.
  cbn beta in E. apply andb_true_iff in E as [E1 E2]. apply eqb_prop in E1. apply Z.eqb_eq in E2. auto.
Qed.
Lemma set_ip_ok : forall a src, length src = 4%nat \/ length src = 16%nat -> exists p o, set_ip a src = Some (mkAddr (if Nat.eqb (length src) 4 then AF_INET else AF_INET6) src p o).
Proof.
  intros a src [L|L]; unfold set_ip; rewrite L; cbn [Nat.eqb]; destruct (set_family_fam a (if Nat.eqb (length src) 4 then 2 else 10)) as (F & _); rewrite ?L; cbn [Nat.eqb]; auto; rewrite L in F; cbn [Nat.eqb] in F;
  unfold AF_INET, AF_INET6; rewrite F; eauto.
Qed.
(** Every byte string either is too short or is the wire form of the address answered. *)
Lemma decode_exact : forall a0 l, bytes_ok l ->
  addr_decode a0 l <> UB /\
  (forall a n, addr_decode a0 l = Ok (a, n) <-> exists f w rest, l = w ++ rest /\ addr_ok a /\ a_fam a <> 0 /\ wire_addr a f w /\ n = length w)
  /\ (addr_decode a0 l = Rej <-> forall f r, l = f :: r -> (length l < (if Z.testbit f 7 then 19 else 7))%nat).
Proof.
  intros a0 l B. destruct l as [|f r].
  { split; [discriminate|]. split; [|split; [intros _ f r E; discriminate|reflexivity]]. intros a n. split; [discriminate|].
    intros (f & w & rest & E & _ & _ & (p0 & p1 & -> & _) & _). discriminate. }
  inversion B as [|? ? Hf Hr]; subst. destruct (flag_bits f Hf) as (F7 & F3). unfold addr_decode. rewrite F7, F3.
  set (n := if Z.testbit f 7 then 16%nat else 4%nat).
  assert (LN : (if Z.testbit f 7 then 19 else 7)%nat = (1 + n + 2)%nat) by (subst n; destruct (Z.testbit f 7); reflexivity).
  destruct (Nat.ltb_spec (length (f :: r)) (1 + n + 2)) as [T|T].
  { split; [discriminate|]. split.
    - intros a k. split; [discriminate|]. intros (f' & w & rest & E & A & N0 & (p0 & p1 & -> & _ & _ & _ & T7 & _) & _). exfalso.
      injection E as -> ->. cbn [length] in T. rewrite !app_length in T. cbn [length] in T. subst n.
      destruct (fam_cases a A) as [(F & _)|[(F & L)|(F & L)]]; [contradiction| |]; rewrite F in T7; change (2 =? AF_INET6) with false in *; change (10 =? AF_INET6) with true in *; rewrite T7, L in T; lia.
    - split; [|reflexivity]. intros _ f' r' E. injection E as <- <-. rewrite LN. exact T. }
  cbn [length] in T. assert (LF : length (firstn n r) = n) by (rewrite firstn_length; lia).
  destruct (set_ip_ok a0 (firstn n r)) as (p & o & E); [rewrite LF; subst n; destruct (Z.testbit f 7); auto|]. rewrite E, LF.
  destruct (skipn n r) as [|p0 [|p1 rest]] eqn:ES.
  { exfalso. apply (f_equal (@length Z)) in ES. rewrite skipn_length in ES. cbn in ES. lia. }
  { exfalso. apply (f_equal (@length Z)) in ES. rewrite skipn_length in ES. cbn in ES. lia. }
  assert (ER : r = firstn n r ++ p0 :: p1 :: rest) by (rewrite <- ES, firstn_skipn; reflexivity).
  pose proof Hr as HB. rewrite ER in HB. apply bytes_ok_app in HB. destruct HB as (HB1 & HB2). inversion HB2 as [|? ? Hp0 HB3]; subst. inversion HB3 as [|? ? Hp1 HB4]; subst.
  assert (PV : wrap16 (Z.shiftl p0 8 + p1) = 256 * p0 + p1). { rewrite shiftl_8. unfold wrap16, is_byte in *. rewrite Z.mod_small by lia. lia. }
  assert (RES : set_port (mkAddr (if Nat.eqb n 4 then AF_INET else AF_INET6) (firstn n r) p o) (Z.shiftl p0 8 + p1)
     = mkAddr (if Nat.eqb n 4 then AF_INET else AF_INET6) (firstn n r) (256 * p0 + p1) o).
  { unfold set_port. cbn [a_fam a_ip a_port a_origin]. rewrite PV. subst n. destruct (Z.testbit f 7); reflexivity. }
  rewrite RES. cbn [a_fam a_ip a_port a_origin]. split; [discriminate|]. split.
  - intros a k. split.
    + intros X. apply Ok_inj in X. remember (256 * p0 + p1) as pt eqn:EPT. injection X as <- <-. exists f, (f :: firstn n r ++ [p0; p1]), rest. split; [cbn [app]; rewrite <- app_assoc; cbn [app]; rewrite <- ER; reflexivity|]. split.
      { constructor; cbn [a_fam a_ip a_port a_origin]; auto.
        - right. subst n. rewrite LF. destruct (Z.testbit f 7); auto.
        - clear - Hp0 Hp1 EPT. rewrite EPT. unfold is_u16, U16MAX, is_byte in *. lia.
        - clear. lia. }
      split; [subst n; destruct (Z.testbit f 7); discriminate|]. split.
      { exists p0, p1. cbn [a_fam a_ip a_port a_origin]. repeat split; auto; try apply Hp0; try apply Hp1. subst n. destruct (Z.testbit f 7); reflexivity. }
      cbn [length]. rewrite app_length, LF. reflexivity.
    + intros (f' & w & rest' & EW & A & N0 & (q0 & q1 & -> & Hq0 & Hq1 & HP & T7 & HO) & ->).
      cbn [app] in EW. injection EW as <- EW.
      assert (LA : length (a_ip a) = n).
      { subst n. rewrite T7. destruct (fam_cases a A) as [(F & _)|[(F & L)|(F & L)]]; [contradiction| |]; rewrite F, L; reflexivity. }
      assert (EI : firstn n r = a_ip a). { rewrite EW, <- LA, <- app_assoc. apply firstn_app_exact. }
      assert (EP : p0 :: p1 :: rest = q0 :: q1 :: rest'). { rewrite <- ES, EW, <- LA, <- app_assoc, skipn_app_exact. reflexivity. }
      injection EP as -> -> _. cbn [length]. rewrite app_length, LA. cbn [length].
      f_equal. f_equal.
      destruct a as [fa ip pt og]. cbn [a_fam a_ip a_port a_origin] in *. subst ip pt og. f_equal.
      subst n. rewrite T7. destruct (fam_cases _ A) as [(F & _)|[(F & L)|(F & L)]]; cbn in F; [contradiction| |]; rewrite F; reflexivity.
  - split; [discriminate|]. intros H. specialize (H f r eq_refl). rewrite LN in H. cbn [length] in H. lia.
Qed.
Lemma encode_wire : forall a, addr_ok a -> a_fam a <> 0 -> exists f, wire_addr a f (addr_encode a) /\ is_byte f /\ (f = a_origin a \/ f = 128 + a_origin a).
Proof.
  intros a A N. unfold addr_encode. rewrite get_port_ok by exact A. pose proof (ak_port a A) as P. pose proof (ak_origin a A) as O.
  set (f := Z.lor (if AF_INET6 =? a_fam a then 128 else 0) (a_origin a)).
  assert (OC : a_origin a = 0 \/ a_origin a = 1 \/ a_origin a = 2 \/ a_origin a = 3) by lia.
  assert (FF : Z.testbit f 7 = (a_fam a =? AF_INET6) /\ f mod 4 = a_origin a /\ is_byte f /\ (f = a_origin a \/ f = 128 + a_origin a)).
  { subst f. rewrite (Z.eqb_sym AF_INET6). destruct (a_fam a =? AF_INET6), OC as [-> |[-> |[-> | ->]]]; vm_compute; repeat split; auto; congruence. }
  destruct FF as (F1 & F2 & F3 & F4). exists f. split; [|auto].
  assert (NL : Nat.eqb (ip_length a) 0 = false). { unfold ip_length. destruct (fam_cases a A) as [(F & _)|[(F & L)|(F & L)]]; [contradiction| |]; rewrite F; reflexivity. }
  rewrite NL. exists (Z.land (Z.shiftr (a_port a) 8) 255), (Z.land (a_port a) 255). rewrite !land_255, shiftr_8. unfold is_byte, is_u16, U16MAX in *. repeat split; auto; lia.
Qed.
Lemma encode_roundtrip : forall a0 a rest, addr_ok a -> a_fam a <> 0 -> bytes_ok rest -> addr_decode a0 (addr_encode a ++ rest) = Ok (a, length (addr_encode a)).
Proof.
  intros a0 a rest A N B. destruct (encode_wire a A N) as (f & W & Hf & _). apply decode_exact; [|exists f, (addr_encode a), rest; auto 6].
  apply bytes_ok_app. split; [|exact B]. destruct W as (p0 & p1 & -> & H0 & H1 & _). constructor; [exact Hf|]. apply bytes_ok_app. split; [exact (ak_ip a A)|]. constructor; [exact H0|constructor; [exact H1|constructor]].
Qed.
