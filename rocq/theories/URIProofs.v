From Verif Require Import Base BaseFacts Hex URI URISpec.
Ltac Zify.zify_post_hook ::= Z.div_mod_to_equations.

Lemma str_eqb_iff : forall a b, str_eqb a b = true <-> a = b.
Proof.
  induction a as [|x a IH]; intros [|y b]; cbn [str_eqb]; try (split; congruence).
  rewrite andb_true_iff, Z.eqb_eq, IH. split; [intros [-> ->]; reflexivity|]. intros E. injection E as -> ->. auto.
Qed.
Lemma bool_iff : forall (b : bool) P, (b = true <-> P) -> ~ P -> b = false.
Proof. intros [] P H N; [|reflexivity]. destruct N. apply H. reflexivity. Qed.

(** ** Segments *)
Definition jn (segs : list (list Z)) : list Z := concat (map (cons 47) segs).
Lemma fields_jn : forall s, exists g r, fields 47 s = g :: r /\ s = g ++ jn r /\ Forall (lacks 47) (g :: r).
Proof.
  induction s as [|x s (g & r & E & J & F)].
  - exists [], []. split; [reflexivity|]. split; [reflexivity|]. constructor; [intros []|constructor].
  - cbn [fields]. rewrite E. destruct (Z.eqb_spec x 47) as [->|N].
    + exists [], (g :: r). split; [reflexivity|]. split; [cbn; rewrite J; reflexivity|]. constructor; [intros []|exact F].
    + exists (x :: g), r. split; [reflexivity|]. split; [cbn [app]; rewrite J at 1; reflexivity|]. inversion F; subst.
      constructor; [|assumption]. intros [X|X]; [congruence|contradiction].
Qed.
Lemma fields_cons : forall g s, lacks 47 g -> fields 47 (g ++ 47 :: s) = g :: fields 47 s.
Proof.
  induction g as [|x g IH]; intros s L; cbn [app fields]; [rewrite Z.eqb_refl; reflexivity|].
  destruct (Z.eqb_spec x 47) as [->|N]; [destruct L; left; reflexivity|]. rewrite IH; [reflexivity|]. intros X. apply L. right. exact X.
Qed.
Lemma fields_one : forall g, lacks 47 g -> fields 47 g = [g].
Proof.
  induction g as [|x g IH]; intros L; cbn [fields]; [reflexivity|].
  destruct (Z.eqb_spec x 47) as [->|N]; [destruct L; left; reflexivity|]. rewrite IH; [reflexivity|]. intros X. apply L. right. exact X.
Qed.
Lemma fields_seg : forall r g, lacks 47 g -> Forall (lacks 47) r -> fields 47 (g ++ jn r) = g :: r.
Proof.
  induction r as [|h r IH]; intros g G R.
  - cbn. rewrite app_nil_r. apply fields_one, G.
  - inversion R; subst. unfold jn. cbn [map concat]. cbn [app]. rewrite fields_cons by exact G. f_equal. apply IH; assumption.
Qed.

Lemma pre_seg : forall w g r, lacks 47 w -> lacks 47 g -> prefixb (w ++ [47]) (g ++ jn r) = true <-> g = w /\ r <> [].
Proof.
  induction w as [|x w IH]; intros g r W G.
  - destruct g as [|y g]; cbn [app prefixb].
    + destruct r as [|h r]; cbn; split; try congruence; try tauto. intros _. split; [reflexivity|discriminate].
    + destruct (Z.eqb_spec 47 y) as [<-|N]; [destruct G; left; reflexivity|]. split; [discriminate|]. intros [? _]. discriminate.
  - destruct g as [|y g]; cbn [app prefixb].
    + destruct r as [|h r]; cbn [jn map concat app].
      * split; [discriminate|]. intros [? _]. discriminate.
      * destruct (Z.eqb_spec x 47) as [->|N]; [destruct W; left; reflexivity|]. split; [discriminate|]. intros [? _]. discriminate.
    + assert (lacks 47 w) by (intros X; apply W; right; exact X). assert (lacks 47 g) by (intros X; apply G; right; exact X).
      rewrite andb_true_iff, Z.eqb_eq, IH by assumption. split.
      * intros [-> [-> ?]]. auto.
      * intros [E ?]. injection E as -> ->. auto.
Qed.
Lemma eq_seg : forall w g r, lacks 47 w -> lacks 47 g -> str_eqb (g ++ jn r) w = true <-> g = w /\ r = [].
Proof.
  intros w g r W G. rewrite str_eqb_iff. split.
  - intros E. destruct r as [|h r]; [|exfalso; apply W; rewrite <- E; apply in_or_app; right; left; reflexivity].
    cbn in E. rewrite app_nil_r in E. auto.
  - intros [-> ->]. cbn. apply app_nil_r.
Qed.
Lemma before_seg : forall g r, lacks 47 g -> before is_slash (g ++ jn r) = g.
Proof.
  induction g as [|y g IH]; intros r G.
  - destruct r; reflexivity.
  - cbn [app before]. unfold is_slash at 1. destruct (Z.eqb_spec y 47) as [->|N]; [destruct G; left; reflexivity|]. f_equal. apply IH. intros X. apply G. right. exact X.
Qed.
Lemma from_seg : forall g r, lacks 47 g -> from is_slash (g ++ jn r) = jn r.
Proof.
  induction g as [|y g IH]; intros r G.
  - destruct r; reflexivity.
  - cbn [app from]. unfold is_slash at 1. destruct (Z.eqb_spec y 47) as [->|N]; [destruct G; left; reflexivity|]. apply IH. intros X. apply G. right. exact X.
Qed.
Lemma lacks_dot : lacks 47 dot. Proof. intros [?|[]]; discriminate. Qed.
Lemma lacks_dotdot : lacks 47 dotdot. Proof. intros [?|[?|[]]]; discriminate. Qed.
Lemma jn_nil : jn [] = []. Proof. reflexivity. Qed.
Lemma jn_cons : forall h r, jn (h :: r) = 47 :: h ++ jn r. Proof. reflexivity. Qed.

(** the tests of the loop, on a text "/" g ... and on a text g ... *)
Lemma loop_slash : forall k g r out, lacks 47 g -> Forall (lacks 47) r ->
  dots_loop (S k) (47 :: g ++ jn r) out =
  if seg_dec g dot then dots_loop k (match r with [] => [47] | _ => jn r end) out
  else if seg_dec g dotdot then dots_loop k (match r with [] => [47] | _ => jn r end) (removelast out)
  else dots_loop k (jn r) (out ++ [47 :: g]).
Proof.
  intros k g r out G R. cbn [dots_loop].
  replace (prefixb [46; 46; 47] (47 :: g ++ jn r)) with false by reflexivity.
  replace (prefixb [46; 47] (47 :: g ++ jn r)) with false by reflexivity.
  replace (prefixb [47; 46; 47] (47 :: g ++ jn r)) with (prefixb (dot ++ [47]) (g ++ jn r)) by reflexivity.
  replace (str_eqb (47 :: g ++ jn r) [47; 46]) with (str_eqb (g ++ jn r) dot) by reflexivity.
  replace (prefixb [47; 46; 46; 47] (47 :: g ++ jn r)) with (prefixb (dotdot ++ [47]) (g ++ jn r)) by reflexivity.
  replace (str_eqb (47 :: g ++ jn r) [47; 46; 46]) with (str_eqb (g ++ jn r) dotdot) by reflexivity.
  replace (str_eqb (47 :: g ++ jn r) [46; 46]) with false by reflexivity.
  replace (str_eqb (47 :: g ++ jn r) [46]) with false by reflexivity.
  assert (T : forall w, lacks 47 w -> prefixb (w ++ [47]) (g ++ jn r) || str_eqb (g ++ jn r) w = true <-> g = w).
  { intros w W. rewrite orb_true_iff, (pre_seg w g r W G), (eq_seg w g r W G). destruct r; intuition congruence. }
  destruct (seg_dec g dot) as [E|N].
  - rewrite (proj2 (T dot lacks_dot) E). subst g. destruct r as [|h r]; reflexivity.
  - rewrite (bool_iff _ _ (T dot lacks_dot) N). destruct (seg_dec g dotdot) as [E|N2].
    + rewrite (proj2 (T dotdot lacks_dotdot) E). subst g. destruct r as [|h r]; reflexivity.
    + rewrite (bool_iff _ _ (T dotdot lacks_dotdot) N2). cbn [orb]. rewrite before_seg, from_seg by exact G. reflexivity.
Qed.
Lemma jn_length : forall r, (length r <= length (jn r))%nat.
Proof. induction r as [|h r IH]; [apply le_n|]. rewrite jn_cons. cbn [length]. rewrite app_length. lia. Qed.

Lemma loop_walk : forall k segs out, Forall (lacks 47) segs -> (length (jn segs) < k)%nat ->
  dots_loop k (jn segs) out = Ok (concat (walk out segs)).
Proof.
  induction k as [|k IH]; intros segs out F L; [lia|]. destruct segs as [|g r]; [reflexivity|].
  inversion F; subst. rewrite jn_cons in *. cbn [length] in L. rewrite app_length in L. rewrite loop_slash by assumption. cbn [walk].
  destruct (seg_dec g dot) as [E|N].
  - subst g. cbn [length dot] in L. destruct r as [|h r].
    + change [47] with (jn [[]]). rewrite IH; [|repeat constructor; intros []|cbn; cbn in L; lia]. cbn [walk].
      destruct (seg_dec [] dot); [discriminate|]. destruct (seg_dec [] dotdot); [discriminate|]. reflexivity.
    + rewrite IH; [|assumption|lia]. rewrite app_nil_r. reflexivity.
  - destruct (seg_dec g dotdot) as [E|N2].
    + subst g. cbn [length dotdot] in L. destruct r as [|h r].
      * change [47] with (jn [[]]). rewrite IH; [|repeat constructor; intros []|cbn; cbn in L; lia]. cbn [walk].
        destruct (seg_dec [] dot); [discriminate|]. destruct (seg_dec [] dotdot); [discriminate|]. reflexivity.
      * rewrite IH; [|assumption|lia]. rewrite app_nil_r. reflexivity.
    + rewrite IH; [reflexivity|assumption|lia].
Qed.
Lemma loop_rel : forall k g r, lacks 47 g -> Forall (lacks 47) r -> (length (g ++ jn r) < k)%nat ->
  dots_loop k (g ++ jn r) [] = Ok (concat (resolve (g :: r))).
Proof.
  induction k as [|k IH]; intros g r G R L; [lia|]. destruct g as [|x g].
  - cbn [app resolve]. destruct (seg_dec [] dot); [discriminate|]. destruct (seg_dec [] dotdot); [discriminate|]. apply loop_walk; assumption.
  - assert (NS : x <> 47) by (intros ->; apply G; left; reflexivity).
    assert (PS : forall p q, prefixb (47 :: p) ((x :: g) ++ q) = false).
    { intros p q. cbn [app prefixb]. destruct (Z.eqb_spec 47 x) as [E|]; [destruct (NS (eq_sym E))|reflexivity]. }
    assert (ES : forall p q, str_eqb ((x :: g) ++ q) (47 :: p) = false).
    { intros p q. cbn [app str_eqb]. destruct (Z.eqb_spec x 47) as [E|]; [destruct (NS E)|reflexivity]. }
    change (dots_loop (S k) ((x :: g) ++ jn r) []) with
      (if prefixb (dotdot ++ [47]) ((x :: g) ++ jn r) then dots_loop k (skipn 3 ((x :: g) ++ jn r)) []
       else if prefixb (dot ++ [47]) ((x :: g) ++ jn r) then dots_loop k (skipn 2 ((x :: g) ++ jn r)) []
       else if prefixb [47; 46; 47] ((x :: g) ++ jn r) || str_eqb ((x :: g) ++ jn r) [47; 46] then dots_loop k (47 :: skipn 3 ((x :: g) ++ jn r)) []
       else if prefixb [47; 46; 46; 47] ((x :: g) ++ jn r) || str_eqb ((x :: g) ++ jn r) [47; 46; 46] then dots_loop k (47 :: skipn 4 ((x :: g) ++ jn r)) (removelast [])
       else if str_eqb ((x :: g) ++ jn r) dotdot || str_eqb ((x :: g) ++ jn r) dot then dots_loop k [] []
       else dots_loop k (from is_slash (g ++ jn r)) ([] ++ [x :: before is_slash (g ++ jn r)])).
    rewrite !PS, !ES. cbn [orb]. remember (x :: g) as gg eqn:Egg. cbn [resolve].
    destruct (seg_dec gg dot) as [E|N].
    + rewrite E in *. rewrite (bool_iff _ _ (pre_seg dotdot dot r lacks_dotdot lacks_dot)) by (intros [? _]; discriminate).
      destruct r as [|h r].
      * rewrite (bool_iff _ _ (pre_seg dot dot [] lacks_dot lacks_dot)) by (intros [_ X]; congruence).
        rewrite (proj2 (eq_seg dot dot [] lacks_dot lacks_dot) (conj eq_refl eq_refl)). rewrite orb_true_r.
        destruct k; [cbn in L; lia|reflexivity].
      * rewrite (proj2 (pre_seg dot dot (h :: r) lacks_dot lacks_dot)) by (split; congruence). inversion R; subst.
        change (skipn 2 (dot ++ jn (h :: r))) with (h ++ jn r). apply IH; [assumption|assumption|]. rewrite jn_cons in L. cbn [length app dot] in L. lia.
    + destruct (seg_dec gg dotdot) as [E|N2].
      * rewrite E in *. destruct r as [|h r].
        -- rewrite (bool_iff _ _ (pre_seg dotdot dotdot [] lacks_dotdot lacks_dotdot)) by (intros [_ X]; congruence).
           rewrite (bool_iff _ _ (pre_seg dot dotdot [] lacks_dot lacks_dotdot)) by (intros [X _]; congruence).
           rewrite (proj2 (eq_seg dotdot dotdot [] lacks_dotdot lacks_dotdot) (conj eq_refl eq_refl)). cbn [orb].
           destruct k; [cbn in L; lia|reflexivity].
        -- rewrite (proj2 (pre_seg dotdot dotdot (h :: r) lacks_dotdot lacks_dotdot)) by (split; congruence). inversion R; subst.
           change (skipn 3 (dotdot ++ jn (h :: r))) with (h ++ jn r). apply IH; [assumption|assumption|]. rewrite jn_cons in L. cbn [length app dotdot] in L. lia.
      * rewrite (bool_iff _ _ (pre_seg dotdot gg r lacks_dotdot G)) by (intros [? _]; contradiction).
        rewrite (bool_iff _ _ (pre_seg dot gg r lacks_dot G)) by (intros [? _]; contradiction).
        rewrite (bool_iff _ _ (eq_seg dotdot gg r lacks_dotdot G)) by (intros [? _]; contradiction).
        rewrite (bool_iff _ _ (eq_seg dot gg r lacks_dot G)) by (intros [? _]; contradiction). cbn [orb].
        assert (G' : lacks 47 g) by (intros X; apply G; rewrite Egg; right; exact X).
        rewrite before_seg, from_seg by exact G'. rewrite <- Egg. rewrite Egg at 2. cbn [app].
        apply loop_walk; [assumption|]. rewrite Egg in L. cbn [app length] in L. rewrite app_length in L. lia.
Qed.
Lemma uri_dots_exact : forall p, remove_dots p = Ok (concat (resolve (fields 47 p))).
Proof.
  intros p. destruct (fields_jn p) as (g & r & E & J & F). rewrite E. unfold remove_dots. inversion F; subst.
  apply loop_rel; [assumption|assumption|lia].
Qed.

(** the walk keeps pieces without dots *)
Definition clean (g : list Z) : Prop := lacks 47 g /\ g <> dot /\ g <> dotdot.
Definition tidy_out (out : list (list Z)) : Prop :=
  match out with [] => True | p :: r => (clean p \/ exists g, p = 47 :: g /\ clean g) /\ Forall (fun q => exists g, q = 47 :: g /\ clean g) r end.
Lemma clean_nil : clean []. Proof. split; [intros []|split; discriminate]. Qed.
Lemma tidy_app : forall out g, tidy_out out -> clean g -> tidy_out (out ++ [47 :: g]).
Proof.
  intros [|p r] g T C; cbn [app tidy_out] in *.
  - split; [right; exists g; auto|constructor].
  - destruct T as [A B]. split; [exact A|]. apply Forall_app. split; [exact B|]. constructor; [exists g; auto|constructor].
Qed.
Lemma Forall_removelast : forall A (P : A -> Prop) l, Forall P l -> Forall P (removelast l).
Proof. induction l as [|a l IH]; intros F; [constructor|]. inversion F; subst. destruct l; [constructor|]. cbn [removelast]. constructor; [assumption|apply IH; assumption]. Qed.
Lemma tidy_removelast : forall out, tidy_out out -> tidy_out (removelast out).
Proof.
  intros [|p [|q r]] T; [exact I|exact I|]. destruct T as [A B]. change (removelast (p :: q :: r)) with (p :: removelast (q :: r)).
  split; [exact A|]. apply Forall_removelast, B.
Qed.
Lemma tidy_walk : forall segs out, Forall (lacks 47) segs -> tidy_out out -> tidy_out (walk out segs).
Proof.
  induction segs as [|g r IH]; intros out F T; cbn [walk]; [exact T|]. inversion F; subst.
  assert (LS : forall o, tidy_out o -> tidy_out (o ++ match r with [] => [[47]] | _ => [] end)).
  { intros o To. destruct r; [apply (tidy_app o []); [exact To|apply clean_nil]|rewrite app_nil_r; exact To]. }
  destruct (seg_dec g dot); [apply IH; [assumption|apply LS; exact T]|].
  destruct (seg_dec g dotdot); [apply IH; [assumption|apply LS, tidy_removelast, T]|].
  apply IH; [assumption|]. apply tidy_app; [exact T|]. split; [assumption|split; assumption].
Qed.
Lemma tidy_resolve : forall segs, Forall (lacks 47) segs -> tidy_out (resolve segs).
Proof.
  induction segs as [|g r IH]; intros F; cbn [resolve]; [exact I|]. inversion F; subst.
  destruct (seg_dec g dot); [apply IH; assumption|]. destruct (seg_dec g dotdot); [apply IH; assumption|].
  apply tidy_walk; [assumption|]. destruct g; [exact I|]. split; [left; split; [assumption|split; assumption]|constructor].
Qed.
Lemma tail_jn : forall r, Forall (fun q => exists g, q = 47 :: g /\ clean g) r -> exists gs, concat r = jn gs /\ Forall clean gs.
Proof.
  induction r as [|q r IH]; intros F; [exists []; split; [reflexivity|constructor]|]. inversion F as [|x y (g & -> & C) F']; subst.
  destruct (IH F') as (gs & E & Cs). exists (g :: gs). split; [cbn [concat]; rewrite E, jn_cons; reflexivity|constructor; assumption].
Qed.
Lemma tidy_concat : forall out, tidy_out out -> exists g gs, concat out = g ++ jn gs /\ Forall clean (g :: gs).
Proof.
  intros [|p r] T; [exists [], []; split; [reflexivity|constructor; [apply clean_nil|constructor]]|].
  destruct T as [A B]. destruct (tail_jn r B) as (gs & E & C). cbn [concat]. rewrite E. destruct A as [A|(g & -> & A)].
  - exists p, gs. split; [reflexivity|constructor; assumption].
  - exists [], (g :: gs). split; [reflexivity|]. constructor; [apply clean_nil|constructor; assumption].
Qed.
Lemma uri_dot_free : forall p, exists q, remove_dots p = Ok q /\ dot_free q.
Proof.
  intros p. rewrite uri_dots_exact. eexists. split; [reflexivity|]. destruct (fields_jn p) as (h & t & E & _ & F). rewrite E.
  destruct (tidy_concat _ (tidy_resolve (h :: t) F)) as (g & gs & Q & C). rewrite Q. unfold dot_free. inversion C as [|x y [C1 [C2 C3]] C']; subst.
  rewrite fields_seg; [|exact C1|eapply Forall_impl; [|exact C']; intros a H; apply H]. constructor; [auto|].
  eapply Forall_impl; [|exact C']. intros a [_ H]. exact H.
Qed.
Lemma walk_clean : forall r out, Forall (fun g => g <> dot /\ g <> dotdot) r -> walk out r = out ++ map (cons 47) r.
Proof.
  induction r as [|g r IH]; intros out F; cbn [walk map]; [symmetry; apply app_nil_r|]. inversion F as [|x y [A B] F']; subst.
  destruct (seg_dec g dot); [contradiction|]. destruct (seg_dec g dotdot); [contradiction|]. rewrite IH by exact F'. rewrite <- app_assoc. reflexivity.
Qed.
Lemma uri_dots_same : forall p, dot_free p -> remove_dots p = Ok p.
Proof.
  intros p D. rewrite uri_dots_exact. unfold dot_free in D. destruct (fields_jn p) as (g & r & E & J & F). rewrite E in *. inversion D as [|x y [A B] D']; subst x y.
  cbn [resolve]. destruct (seg_dec g dot); [contradiction|]. destruct (seg_dec g dotdot); [contradiction|].
  rewrite walk_clean by exact D'. rewrite concat_app. fold (jn r). rewrite J. destruct g; cbn [concat app]; [reflexivity|]. rewrite app_nil_r. reflexivity.
Qed.
Lemma uri_dots_twice : forall p q, remove_dots p = Ok q -> remove_dots q = Ok q.
Proof. intros p q H. destruct (uri_dot_free p) as (q' & E & D). rewrite E in H. injection H as <-. apply uri_dots_same, D. Qed.

(** ** Splitting *)
Definition isin (seps : list Z) (c : Z) : bool := existsb (Z.eqb c) seps.
Lemma isin_iff : forall seps c, isin seps c = true <-> In c seps.
Proof.
  intros seps c. unfold isin. rewrite existsb_exists. split; [intros (x & I & E); apply Z.eqb_eq in E; subst; exact I|]. intros I. exists c. split; [exact I|apply Z.eqb_refl].
Qed.
Lemma before_from : forall t s, s = before t s ++ from t s.
Proof. induction s as [|c s IH]; cbn [before from]; [reflexivity|]. destruct (t c); [reflexivity|]. cbn [app]. f_equal. exact IH. Qed.
Lemma before_none : forall t s c, In c (before t s) -> t c = false.
Proof. induction s as [|x s IH]; intros c H; cbn [before] in H; [destruct H|]. destruct (t x) eqn:E; [destruct H|]. destruct H as [<-|H]; [exact E|apply IH, H]. Qed.
Lemma from_head : forall t s c r, from t s = c :: r -> t c = true.
Proof. induction s as [|x s IH]; intros c r H; cbn [from] in H; [discriminate|]. destruct (t x) eqn:E; [injection H as <- _; exact E|apply (IH c r H)]. Qed.
Lemma from_nil : forall t s c, from t s = [] -> In c s -> t c = false.
Proof. induction s as [|x s IH]; intros c H I; [destruct I|]. cbn [from] in H. destruct (t x) eqn:E; [discriminate|]. destruct I as [<-|I]; [exact E|apply IH; assumption]. Qed.

(** parts ++ [rest]: all but the last have no separator; the last has none either if there is room for more *)
Lemma split_loop_spec : forall fuel rest seps m rv, (length rest < fuel)%nat -> 0 <= m <= U64MAX -> zlen rest < U64MAX ->
  exists parts last cs, split_loop fuel rest seps m rv = Ok (rv ++ parts ++ [last]) /\ rest = weave (parts ++ [last]) cs /\ length cs = length parts
    /\ Forall (fun c => In c seps) cs /\ Forall (fun p => forall c, In c p -> ~ In c seps) parts
    /\ (0 < m -> zlen parts + 1 <= m)
    /\ (m = 0 \/ zlen parts + 1 < m -> forall c, In c last -> ~ In c seps).
Proof.
  induction fuel as [|k IH]; intros rest seps m rv L M LR; [lia|]. cbn [split_loop].
  set (m' := wrap64 (m - 1)). assert (M' : 0 <= m' <= U64MAX) by (unfold m', wrap64, U64MAX in *; lia).
  assert (Em : m' = if m =? 0 then U64MAX else m - 1). { unfold m', wrap64, U64MAX in *. destruct (Z.eqb_spec m 0); lia. }
  destruct (Z.eqb_spec m' 0) as [Z0|NZ]; cbn [negb andb].
  - exists [], rest, []. split; [reflexivity|]. split; [reflexivity|]. split; [reflexivity|]. split; [constructor|]. split; [constructor|].
    unfold U64MAX in *. destruct (Z.eqb_spec m 0); [lia|]. cbn. split; lia.
  - destruct (str_eqb rest []) eqn:SE; cbn [negb].
    + apply str_eqb_iff in SE. subst rest. exists [], [], []. split; [reflexivity|]. split; [reflexivity|]. split; [reflexivity|]. split; [constructor|]. split; [constructor|].
      split; [cbn; lia|]. intros _ c [].
    + fold (isin seps). destruct (from (isin seps) rest) as [|c r] eqn:EF.
      * exists [], rest, []. split; [reflexivity|]. split; [reflexivity|]. split; [reflexivity|]. split; [constructor|]. split; [constructor|].
        split; [cbn; lia|]. intros _ c I J. pose proof (from_nil _ _ _ EF I) as X. apply isin_iff in J. change (isin seps c = false) in X. congruence.
      * pose proof (before_from (isin seps) rest) as BF. rewrite EF in BF.
        assert (LR2 : (length r < length rest)%nat) by (rewrite BF, app_length; cbn [length]; lia).
        destruct (IH r seps m' (rv ++ [before (isin seps) rest]) ltac:(lia) M' ltac:(unfold zlen in *; lia)) as (parts & last & cs & A & B & C & D & E & F & G).
        exists (before (isin seps) rest :: parts), last, (c :: cs). split; [|split; [|split; [|split; [|split; [|split]]]]].
        -- fold (isin seps). change (split_loop k r seps m' (rv ++ [before (isin seps) rest]) = Ok (rv ++ (before (isin seps) rest :: parts) ++ [last])). rewrite A. rewrite <- app_assoc. reflexivity.
        -- cbn [app weave]. rewrite <- B. exact BF.
        -- cbn [length]. congruence.
        -- constructor; [|exact D]. apply isin_iff. exact (from_head _ _ _ _ EF).
        -- constructor; [|exact E]. intros x I J. pose proof (before_none _ _ _ I) as X. apply isin_iff in J. congruence.
        -- intros P. rewrite zlen_cons. specialize (F ltac:(lia)). destruct (Z.eqb_spec m 0); lia.
        -- intros P. apply G. right. destruct P as [P|P]; [|rewrite zlen_cons in P; destruct (Z.eqb_spec m 0); lia].
           rewrite P in Em. cbn in Em. rewrite Em.
           assert (PL : zlen parts <= zlen r).
           { rewrite B. clear -C. revert cs C. induction parts as [|p ps IHp]; intros cs C; [cbn; apply zlen_nonneg|]. destruct cs as [|c cs]; [discriminate|].
             cbn [app weave]. rewrite zlen_app, !zlen_cons. specialize (IHp cs ltac:(cbn in C; lia)). pose proof (zlen_nonneg _ p). lia. }
           unfold zlen in *. lia.
Qed.
Lemma weave_join : forall sep parts cs, length cs = length parts -> Forall (fun c => c = sep) cs -> forall last, weave (parts ++ [last]) cs = join sep (parts ++ [last]).
Proof.
  induction parts as [|p ps IH]; intros cs L F last; destruct cs as [|c cs]; try discriminate; [reflexivity|]. inversion F; subst.
  cbn [app weave]. cbn [length] in L. rewrite (IH cs) by (try assumption; lia). cbn [join]. destruct (ps ++ [last]) eqn:E; [destruct ps; discriminate|]. reflexivity.
Qed.
Lemma uri_split_spec : forall s seps m, seps <> [] -> 0 <= m <= U64MAX -> zlen s < U64MAX ->
  exists parts last cs, uri_split s seps m = Ok (parts ++ [last]) /\ s = weave (parts ++ [last]) cs /\ length cs = length parts
    /\ Forall (fun c => In c seps) cs /\ Forall (fun p => forall c, In c p -> ~ In c seps) parts
    /\ (0 < m -> zlen (parts ++ [last]) <= m)
    /\ (m = 0 \/ zlen (parts ++ [last]) < m -> forall c, In c last -> ~ In c seps).
Proof.
  intros s seps m N M L. unfold uri_split. destruct seps as [|x xs] eqn:Ex; [congruence|]. rewrite <- Ex.
  destruct (split_loop_spec (S (length s)) s seps m [] ltac:(lia) M L) as (parts & last & cs & A & B & C & D & E & F & G).
  exists parts, last, cs. rewrite zlen_app. change (zlen [last]) with 1. repeat (split; [assumption|]). exact G.
Qed.
Lemma uri_split_join : forall s sep m, 0 <= m <= U64MAX -> zlen s < U64MAX ->
  exists parts, uri_split s [sep] m = Ok parts /\ join sep parts = s /\ (0 < m -> zlen parts <= m).
Proof.
  intros s sep m M L. destruct (uri_split_spec s [sep] m ltac:(discriminate) M L) as (parts & last & cs & A & B & C & D & E & F & G).
  exists (parts ++ [last]). split; [exact A|]. split; [|exact F]. rewrite B. symmetry. apply weave_join; [exact C|]. eapply Forall_impl; [|exact D]. intros a [X|[]]. symmetry. exact X.
Qed.
Lemma fields_weave : forall sep parts last cs, length cs = length parts -> Forall (fun c => c = sep) cs ->
  Forall (lacks sep) parts -> lacks sep last -> fields sep (weave (parts ++ [last]) cs) = parts ++ [last].
Proof.
  intros sep. assert (FC : forall g s, lacks sep g -> fields sep (g ++ sep :: s) = g :: fields sep s).
  { induction g as [|x g IH]; intros s L; cbn [app fields]; [rewrite Z.eqb_refl; reflexivity|].
    destruct (Z.eqb_spec x sep) as [->|N]; [destruct L; left; reflexivity|]. rewrite IH; [reflexivity|]. intros X. apply L. right. exact X. }
  assert (FO : forall g, lacks sep g -> fields sep g = [g]).
  { induction g as [|x g IH]; intros L; cbn [fields]; [reflexivity|].
    destruct (Z.eqb_spec x sep) as [->|N]; [destruct L; left; reflexivity|]. rewrite IH; [reflexivity|]. intros X. apply L. right. exact X. }
  induction parts as [|p ps IH]; intros last cs L F P La; destruct cs as [|c cs]; try discriminate.
  - apply FO, La.
  - inversion F; subst. inversion P; subst. cbn [app weave]. rewrite FC by assumption. f_equal. apply IH; try assumption. cbn in L. lia.
Qed.
Lemma uri_split_fields : forall s sep, zlen s < U64MAX -> uri_split s [sep] 0 = Ok (fields sep s).
Proof.
  intros s sep L. destruct (uri_split_spec s [sep] 0 ltac:(discriminate) ltac:(unfold U64MAX; lia) L) as (parts & last & cs & A & B & C & D & E & F & G).
  rewrite A. f_equal. rewrite B. symmetry. apply fields_weave; [exact C| | |].
  - eapply Forall_impl; [|exact D]. intros a [X|[]]. symmetry. exact X.
  - eapply Forall_impl; [|exact E]. intros a H X. apply (H sep X). left. reflexivity.
  - intros X. apply (G (or_introl eq_refl) sep X). left. reflexivity.
Qed.

(** ** Percent decoding *)
Lemma digit_val : forall d v, hexval d v -> hex_digit d = v /\ 0 <= v <= 15.
Proof.
  intros d v H. unfold hex_digit. destruct H as [[A ->]|[[A ->]|[A ->]]].
  - destruct (Z.geb_spec d 48), (Z.leb_spec d 57); try lia. cbn [andb]. lia.
  - destruct (Z.geb_spec d 48), (Z.leb_spec d 57); try lia. destruct (Z.geb_spec d 97), (Z.leb_spec d 102); try lia. cbn [andb]. lia.
  - destruct (Z.geb_spec d 48), (Z.leb_spec d 57); try lia. destruct (Z.geb_spec d 97), (Z.leb_spec d 102); try lia.
    destruct (Z.geb_spec d 65), (Z.leb_spec d 70); try lia. cbn [andb]. lia.
Qed.
Lemma val_digit : forall d, 0 <= hex_digit d -> hexval d (hex_digit d).
Proof.
  intros d. unfold hex_digit, hexval. 
  destruct ((d >=? 48) && (d <=? 57)) eqn:A; [apply andb_true_iff in A; destruct A as [A B]; apply Z.geb_le in A; apply Z.leb_le in B; left; lia|].
  destruct ((d >=? 97) && (d <=? 102)) eqn:B; [apply andb_true_iff in B; destruct B as [B C]; apply Z.geb_le in B; apply Z.leb_le in C; right; left; lia|].
  destruct ((d >=? 65) && (d <=? 70)) eqn:C; [apply andb_true_iff in C; destruct C as [C D]; apply Z.geb_le in C; apply Z.leb_le in D; right; right; lia|].
  destruct (isspace d); lia.
Qed.
Lemma pct_fwd : forall s d, pct s d -> forall fuel rv rest, (length s < fuel)%nat -> pct_loop fuel (s ++ 0 :: rest) rv = Ok (rv ++ d).
Proof.
  induction 1 as [|c s d N N0 H IH|a b va vb ch s d Ha Hb R R0 E H IH]; intros fuel rv rest L; (destruct fuel as [|k]; [cbn in L; lia|]); cbn [app pct_loop].
  - rewrite Z.eqb_refl, app_nil_r. reflexivity.
  - destruct (Z.eqb_spec c 0); [contradiction|]. destruct (Z.eqb_spec c 37); [contradiction|]. rewrite IH by (cbn in L; lia). rewrite <- app_assoc. reflexivity.
  - destruct (Z.eqb_spec 37 0); [discriminate|]. rewrite Z.eqb_refl. destruct (digit_val _ _ Ha) as [Da Ra]. destruct (digit_val _ _ Hb) as [Db Rb].
    unfold hex_byte. rewrite Da, Db. destruct (Z.geb_spec va 0); [|lia]. destruct (Z.geb_spec vb 0); [|lia]. cbn [rbind].
    rewrite Z.shiftl_mul_pow2 by lia. change (2 ^ 4) with 16. destruct (Z.ltb_spec (va * 16 + vb) 1) as [X|X]; [exfalso; lia|].
    cbn [skipn]. replace (to_char (va * 16 + vb)) with ch by (unfold to_char; lia).
    rewrite IH by (cbn in L; lia). rewrite <- app_assoc. reflexivity.
Qed.
Lemma pct_roundtrip : forall s d, pct s d -> pct_decode s = Ok d.
Proof. intros s d H. unfold pct_decode. rewrite (pct_fwd s d H); [reflexivity|lia]. Qed.

Fixpoint upto0 (s : list Z) : list Z := match s with [] => [] | c :: r => if c =? 0 then [] else c :: upto0 r end.
Lemma upto0_app : forall s, exists rest, s ++ [0] = upto0 s ++ 0 :: rest.
Proof.
  induction s as [|c s (rest & IH)]; cbn [upto0 app]; [exists []; reflexivity|]. destruct (Z.eqb_spec c 0) as [->|N]; [exists (s ++ [0]); reflexivity|].
  exists rest. cbn [app]. rewrite IH. reflexivity.
Qed.
Lemma upto0_len : forall s, (length (upto0 s) <= length s)%nat.
Proof. induction s as [|c s IH]; cbn [upto0 length]; [lia|]. destruct (c =? 0); cbn [length]; lia. Qed.
Lemma upto0_none : forall s, ~ In 0 (upto0 s).
Proof. induction s as [|c s IH]; cbn [upto0]; [intros []|]. destruct (Z.eqb_spec c 0); [intros []|]. intros [X|X]; [congruence|exact (IH X)]. Qed.
Lemma pct_back : forall n s, (length s < n)%nat -> ~ In 0 s -> forall rest rv,
  pct_loop n (s ++ 0 :: rest) rv = Ok [] \/ exists d, pct s d /\ pct_loop n (s ++ 0 :: rest) rv = Ok (rv ++ d).
Proof.
  induction n as [|n IH]; intros s L N0 rest rv; [lia|]. destruct s as [|c s]; cbn [app pct_loop].
  - right. exists []. rewrite Z.eqb_refl, app_nil_r. split; [constructor|reflexivity].
  - destruct (Z.eqb_spec c 0) as [->|C0]; [destruct N0; left; reflexivity|]. destruct (Z.eqb_spec c 37) as [->|C37].
    + unfold hex_byte. destruct s as [|a s].
      * left. cbn [app]. change (hex_digit 0 >=? 0) with false. reflexivity.
      * cbn [app]. destruct (Z.geb_spec (hex_digit a) 0) as [HA|HA]; [|left; reflexivity]. destruct s as [|b s].
        -- cbn [app]. change (hex_digit 0 >=? 0) with false. left. reflexivity.
        -- cbn [app]. destruct (Z.geb_spec (hex_digit b) 0) as [HB|HB]; [|left; reflexivity]. cbn [rbind].
           pose proof (val_digit a ltac:(lia)) as VA. pose proof (val_digit b ltac:(lia)) as VB. pose proof (digit_val _ _ VA) as [_ RA]. pose proof (digit_val _ _ VB) as [_ RB].
           rewrite Z.shiftl_mul_pow2 by lia. change (2 ^ 4) with 16. destruct (Z.ltb_spec (hex_digit a * 16 + hex_digit b) 1) as [X|X]; [left; reflexivity|].
           cbn [skipn]. destruct (IH s ltac:(cbn in L; lia) ltac:(intros Y; apply N0; right; right; right; exact Y) rest (rv ++ [to_char (hex_digit a * 16 + hex_digit b)])) as [E|(d & P & E)]; [left; exact E|].
           right. exists (to_char (hex_digit a * 16 + hex_digit b) :: d). split; [|rewrite E, <- app_assoc; reflexivity].
           eapply pct_esc; [exact VA|exact VB| | | |exact P]; unfold to_char; lia.
    + destruct (IH s ltac:(cbn in L; lia) ltac:(intros Y; apply N0; right; exact Y) rest (rv ++ [c])) as [E|(d & P & E)]; [left; exact E|].
      right. exists (c :: d). split; [constructor; assumption|]. rewrite E, <- app_assoc. reflexivity.
Qed.
Lemma pct_fuel : forall n s rv rest m, (length s < n)%nat -> (n <= m)%nat -> ~ In 0 s -> pct_loop m (s ++ 0 :: rest) rv = pct_loop n (s ++ 0 :: rest) rv.
Proof.
  induction n as [|n IH]; intros s rv rest m L M N0; [lia|]. destruct m as [|m]; [lia|]. destruct s as [|c s]; cbn [app pct_loop]; [reflexivity|].
  destruct (Z.eqb_spec c 0); [reflexivity|]. destruct (c =? 37).
  - destruct s as [|a [|b s]]; cbn [app].
    + reflexivity.
    + unfold hex_byte. destruct (hex_digit a >=? 0); [|reflexivity]. change (hex_digit 0 >=? 0) with false. reflexivity.
    + destruct (hex_byte (a :: b :: s ++ 0 :: rest)) as [v| |]; [|reflexivity|reflexivity]. cbn [rbind skipn]. destruct (v <? 1); [reflexivity|].
      apply IH; [cbn in L; lia|lia|intros Y; apply N0; right; right; right; exact Y].
  - apply IH; [cbn in L; lia|lia|intros Y; apply N0; right; exact Y].
Qed.
Lemma pct_exact : forall s, ~ In 0 s -> pct_decode s = Ok [] \/ exists d, pct s d /\ pct_decode s = Ok d.
Proof. intros s N. unfold pct_decode. exact (pct_back (S (length s)) s ltac:(lia) N [] []). Qed.
Lemma pct_defined : forall s, exists d, pct_decode s = Ok d.
Proof.
  intros s. unfold pct_decode. destruct (upto0_app s) as (rest & E). rewrite E. pose proof (upto0_len s). 
  destruct (pct_back (S (length s)) (upto0 s) ltac:(lia) (upto0_none s) rest []) as [X|(d & _ & X)]; eexists; exact X.
Qed.
Lemma pct_safe : forall s d, d <> [] -> pct s d -> safe_pct_decode s = Ok d.
Proof. intros s d N H. unfold safe_pct_decode. rewrite (pct_roundtrip s d H). cbn [rbind]. destruct d; [congruence|reflexivity]. Qed.
Lemma pct_unsafe : forall s, ~ In 0 s -> (forall d, ~ pct s d) -> safe_pct_decode s = Ok s.
Proof. intros s N0 H. unfold safe_pct_decode. destruct (pct_exact s N0) as [->|(d & P & _)]; [reflexivity|destruct (H d P)]. Qed.

(** the encoder that escapes every char *)
Lemma pct_hex : forall d, Forall (fun c => -128 <= c <= 127 /\ c <> 0) d ->
  pct (flat_map (fun c => 37 :: hex_encode [c mod 256]) d) d.
Proof.
  induction d as [|c d IH]; intros F; cbn [flat_map]; [constructor|]. inversion F as [|x y [R N] F']; subst.
  assert (B : forall b, 0 <= b <= 255 -> exists a e va ve, hex_encode [b] = [a; e] /\ hexval a va /\ hexval e ve /\ b = 16 * va + ve).
  { intros b Hb. assert (HV : forall v, 0 <= v <= 15 -> hexval (nth (Z.to_nat v) hex_digits 0) v).
    { intros v Hv. assert (C : v = 0 \/ v = 1 \/ v = 2 \/ v = 3 \/ v = 4 \/ v = 5 \/ v = 6 \/ v = 7 \/ v = 8 \/ v = 9 \/ v = 10 \/ v = 11 \/ v = 12 \/ v = 13 \/ v = 14 \/ v = 15) by lia.
      unfold hexval. do 15 (destruct C as [C|C]; [subst v; set (x := nth _ hex_digits 0); vm_compute in x; subst x; lia|]). subst v. set (x := nth _ hex_digits 0). vm_compute in x. subst x. lia. }
    exists (nth (Z.to_nat (Z.shiftr b 4)) hex_digits 0), (nth (Z.to_nat (Z.land b 15)) hex_digits 0), (b / 16), (b mod 16).
    rewrite Z.shiftr_div_pow2 by lia. change (2 ^ 4) with 16. change 15 with (Z.ones 4) at 2. rewrite Z.land_ones by lia. change (2 ^ 4) with 16.
    split; [cbn [hex_encode flat_map app]; rewrite Z.shiftr_div_pow2 by lia; change 15 with (Z.ones 4); rewrite Z.land_ones by lia; reflexivity|].
    split; [apply HV; lia|]. split; [apply HV; lia|]. lia. }
  destruct (B (c mod 256) ltac:(lia)) as (a & e & va & ve & E & Ha & He & V). rewrite E. cbn [app]. apply (pct_esc a e va ve); try assumption. apply IH, F'.
Qed.
