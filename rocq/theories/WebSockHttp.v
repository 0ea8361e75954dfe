(** Proofs about the opening request: the header block, the decision and the answer. *)
From Coq Require Import String Ascii.
From Verif Require Import Base BaseFacts Hex URI URISpec URIProofs URIParse WebSock WebSockSpec WebSockProofs WebSockStream WebSockEnd WebSockHttpSpec.
Open Scope res_scope.

(** ** The three replacements *)
Definition norm (s : list Z) : list Z := fold_lines (cr (crlf s)).
Definition okc (x : Z) : Prop := x <> 10 /\ x <> 13 /\ 0 <= x < 128.
Lemma okc_plain : forall x, visible x \/ blank x -> okc x.
Proof. intros x [H|[H|H]]; unfold okc, visible in *; lia. Qed.
Lemma norm_plain : forall x s, okc x -> norm (x :: s) = x :: norm s.
Proof.
  intros x s (A & B & _). unfold norm. cbn [crlf]. destruct (Z.eqb_spec x 13); [contradiction|]. unfold cr. cbn [map]. destruct (Z.eqb_spec x 13); [contradiction|]. cbn [fold_lines].
  destruct (Z.eqb_spec x 10); [contradiction|reflexivity].
Qed.
Lemma norm_plains : forall l s, Forall okc l -> norm (l ++ s) = l ++ norm s.
Proof. induction 1 as [|x l H _ IH]; [reflexivity|]. cbn [List.app]. rewrite norm_plain by exact H. rewrite IH. reflexivity. Qed.
Lemma norm_fold : forall b s, blank b -> norm (13 :: 10 :: b :: s) = 32 :: norm s.
Proof. intros b s [->| ->]; reflexivity. Qed.
Lemma norm_line : forall y s, okc y -> ~ blank y -> norm (13 :: 10 :: y :: s) = 10 :: norm (y :: s).
Proof.
  intros y s Y B. rewrite (norm_plain y s Y). unfold norm. destruct Y as (Y1 & Y2 & _). cbn [crlf]. change (13 =? 13) with true. change (10 =? 10) with true. cbv iota. destruct (Z.eqb_spec y 13); [contradiction|]. unfold cr. cbn [map]. change (10 =? 13) with false. cbv iota. destruct (Z.eqb_spec y 13); [contradiction|].
  cbn [fold_lines]. change (10 =? 10) with true. cbv iota. unfold blank in B. destruct (Z.eqb_spec y 32); [lia|]. destruct (Z.eqb_spec y 9); [lia|]. cbn [orb]. cbv iota. destruct (Z.eqb_spec y 10); [contradiction|]. reflexivity.
Qed.
Lemma norm_unfolds : forall raw t s, unfolds raw t -> norm (raw ++ s) = t ++ norm s.
Proof.
  induction 1 as [|x r t H _ IH|b r t H _ IH]; [reflexivity| |]; cbn [List.app].
  - rewrite norm_plain by (apply okc_plain, H). rewrite IH. reflexivity.
  - rewrite norm_fold by exact H. rewrite IH. reflexivity.
Qed.
Lemma tchar_visible : forall x, is_tchar x -> visible x /\ x <> 58.
Proof. intros x [H|H]; [|unfold visible; lia]. cbn in H. unfold visible. repeat (destruct H as [<-|H]; [lia|]). contradiction. Qed.
Lemma tchar_okc : forall x, is_tchar x -> okc x. Proof. intros x H. apply okc_plain. left. apply tchar_visible, H. Qed.

(** what follows a line *)
Definition starts (s : list Z) : Prop := s = [13; 10] \/ exists y u, s = y :: u /\ okc y /\ ~ blank y.
Lemma norm_next : forall s, starts s -> norm (13 :: 10 :: s) = 10 :: norm s.
Proof. intros s [->|(y & u & -> & A & B)]; [reflexivity|apply norm_line; assumption]. Qed.
Lemma field_starts : forall h raw s, field h raw -> starts (raw ++ s).
Proof. intros h raw s H. inversion H as [n v a b r [N T] U A B C]; subst. right. destruct n as [|y n]; [contradiction|]. inversion T; subst. exists y. eexists. split; [reflexivity|]. split; [apply tchar_okc; assumption|]. destruct (tchar_visible y) as [V _]; [assumption|]. unfold visible, blank in *. lia. Qed.
Lemma fields_starts : forall hs raws, Forall2 field hs raws -> starts (concat raws ++ [13; 10]).
Proof. intros hs raws H. destruct H as [|h raw hs raws F _]; [left; reflexivity|]. cbn [concat]. rewrite <- app_assoc. eapply field_starts, F. Qed.

(** the lines of the block *)
Inductive line : list Z * list Z -> list Z -> Prop :=
| line_intro : forall n v a b, token n -> (exists raw, unfolds raw (a ++ v ++ b)) -> Forall blank a -> Forall blank b -> bare v -> line (n, v) (n ++ 58 :: a ++ v ++ b).
Lemma unfolds_okc : forall raw t, unfolds raw t -> Forall okc t.
Proof. induction 1 as [|x r t H _ IH|b r t H _ IH]; constructor; auto; [apply okc_plain, H|unfold okc; lia]. Qed.
Lemma line_okc : forall h l, line h l -> Forall okc l /\ l <> [].
Proof.
  intros h l H. inversion H as [n v a b [N T] [raw U] A B C]; subst. split; [|destruct n; discriminate]. apply Forall_app. split; [eapply Forall_impl; [|exact T]; apply tchar_okc|].
  constructor; [unfold okc; lia|]. eapply unfolds_okc, U.
Qed.
Lemma norm_fields : forall hs raws, Forall2 field hs raws -> exists ls, Forall2 line hs ls /\ norm (concat raws ++ [13; 10]) = concat (map (fun l => l ++ [10]) ls) ++ [10].
Proof.
  induction 1 as [|h raw hs raws F FS IH]; [exists []; split; [constructor|reflexivity]|]. destruct IH as (ls & L & E). inversion F as [n v a b r T U A B C]; subst.
  exists ((n ++ 58 :: a ++ v ++ b) :: ls). split; [constructor; [constructor; eauto|exact L]|]. cbn [concat map].
  rewrite <- !app_assoc. rewrite norm_plains by (destruct T as [_ T]; eapply Forall_impl; [|exact T]; apply tchar_okc). cbn [List.app]. rewrite norm_plain by (unfold okc; lia).
  rewrite <- !app_assoc. rewrite (norm_unfolds _ _ _ U). cbn [List.app]. rewrite norm_next by (eapply fields_starts, FS). rewrite E. rewrite <- !app_assoc. reflexivity.
Qed.
Lemma visible_okc : forall l, Forall visible l -> Forall okc l.
Proof. intros l H. eapply Forall_impl; [|exact H]. intros x X. apply okc_plain. left. exact X. Qed.
Lemma norm_request : forall m u w hs raw, request m u w hs raw -> exists ls, Forall2 line hs ls /\
  norm raw = (m ++ 32 :: u ++ 32 :: w) ++ 10 :: concat (map (fun l => l ++ [10]) ls) ++ [10].
Proof.
  intros m u w hs raw R. inversion R as [raws M U W F]; subst. destruct (norm_fields _ _ F) as (ls & L & E). exists ls. split; [exact L|].
  rewrite norm_plains by (apply visible_okc, M). rewrite norm_plain by (unfold okc; lia). rewrite norm_plains by (apply visible_okc, U). rewrite norm_plain by (unfold okc; lia).
  rewrite norm_plains by (apply visible_okc, W). cbn [List.app]. rewrite norm_next by (eapply fields_starts, F). rewrite E. rewrite <- !app_assoc. cbn [List.app]. rewrite <- !app_assoc. reflexivity.
Qed.

Lemma norm_shorter : forall s, zlen (norm s) <= zlen s.
Proof.
  assert (A : forall n s, (length s <= n)%nat -> (length (crlf s) <= length s)%nat).
  { induction n as [|n IH]; intros [|x s] L; cbn [length crlf] in *; try lia. destruct (x =? 13); [destruct s as [|y s]; [cbn; lia|]; destruct (y =? 10); cbn [length] in *; [specialize (IH s)|specialize (IH (y :: s))]; cbn [length] in *; lia|cbn [length]; specialize (IH s); lia]. }
  assert (B : forall n s, (length s <= n)%nat -> (length (fold_lines s) <= length s)%nat).
  { induction n as [|n IH]; intros [|x s] L; cbn [length fold_lines] in *; try lia. destruct (x =? 10); [destruct s as [|y s]; [cbn; lia|]; destruct ((y =? 32) || (y =? 9)); cbn [length] in *; [specialize (IH s)|specialize (IH (y :: s))]; cbn [length] in *; lia|cbn [length]; specialize (IH s); lia]. }
  intros s. unfold norm, zlen. specialize (A _ s (le_n _)). specialize (B _ (cr (crlf s)) (le_n _)). unfold cr in *. rewrite map_length in B. lia.
Qed.

(** ** Splitting *)
Lemma fields_app : forall c g s, ~ In c g -> fields c (g ++ c :: s) = g :: fields c s.
Proof.
  induction g as [|x g IH]; intros s N; cbn [List.app fields]; [rewrite Z.eqb_refl; reflexivity|]. rewrite IH by (intros X; apply N; right; exact X).
  destruct (Z.eqb_spec x c) as [->|]; [exfalso; apply N; left; reflexivity|reflexivity].
Qed.
Lemma fields_last : forall c g, ~ In c g -> fields c g = [g].
Proof.
  induction g as [|x g IH]; intros N; cbn [fields]; [reflexivity|]. rewrite IH by (intros X; apply N; right; exact X).
  destruct (Z.eqb_spec x c) as [->|]; [exfalso; apply N; left; reflexivity|reflexivity].
Qed.
Lemma okc_lacks : forall l, Forall okc l -> ~ In 10 l.
Proof. intros l H X. rewrite Forall_forall in H. apply H in X. unfold okc in X. lia. Qed.
Lemma fields_lines : forall ls, Forall (Forall okc) ls -> fields 10 (concat (map (fun l => l ++ [10]) ls) ++ [10]) = ls ++ [[]; []].
Proof.
  induction 1 as [|l ls H _ IH]; [reflexivity|]. cbn [map concat]. rewrite <- !app_assoc. cbn [List.app]. rewrite fields_app by (apply okc_lacks, H). rewrite IH. reflexivity.
Qed.
Lemma before_app : forall c n t, ~ In c n -> before (fun x => existsb (Z.eqb x) [c]) (n ++ c :: t) = n /\ from (fun x => existsb (Z.eqb x) [c]) (n ++ c :: t) = c :: t.
Proof.
  induction n as [|x n IH]; intros t N; cbn [List.app before from existsb]; [rewrite Z.eqb_refl; split; reflexivity|].
  destruct (Z.eqb_spec x c) as [->|]; [exfalso; apply N; left; reflexivity|]. cbn [orb]. destruct (IH t) as [A B]; [intros X; apply N; right; exact X|]. cbn [existsb] in A, B. rewrite A, B. split; reflexivity.
Qed.
Lemma split_two : forall n t, ~ In 58 n -> uri_split (n ++ 58 :: t) [58] 2 = Ok [n; t].
Proof.
  intros n t N. unfold uri_split. rewrite app_length. cbn [length]. replace (Datatypes.S (length n + Datatypes.S (length t))) with (Datatypes.S (Datatypes.S (length n + length t))) by lia.
  cbn [split_loop]. cbv zeta. change (wrap64 (2 - 1)) with 1. change (1 =? 0) with false. destruct (before_app 58 n t N) as [A B]. rewrite A, B.
  replace (str_eqb (n ++ 58 :: t) []) with false by (destruct n; reflexivity). cbn [negb andb]. change (wrap64 (1 - 1)) with 0. reflexivity.
Qed.

(** ** Lines to headers *)
Lemma lower_ok : forall s, Forall (fun x => 0 <= x) s -> lowercase s = Ok (lower s).
Proof.
  induction 1 as [|x s H _ IH]; [reflexivity|]. cbn [lowercase lower map]. unfold tolower. destruct (Z.ltb_spec x (-1)); [lia|]. cbn [rbind]. rewrite IH. cbn [rbind].
  reflexivity.
Qed.
Lemma tchars_ok : forall s, Forall is_tchar s -> tchars s = Ok true.
Proof.
  induction 1 as [|x s H _ IH]; [reflexivity|]. cbn [tchars]. assert (E : tchar x = Ok true); [|rewrite E; exact IH].
  unfold tchar. destruct H as [H|H].
  - assert (X : existsb (Z.eqb x) [33; 35; 36; 37; 38; 39; 42; 43; 45; 46; 94; 95; 96; 124; 126] = true); [|rewrite X; reflexivity]. apply existsb_exists. exists x. split; [exact H|apply Z.eqb_refl].
  - destruct (existsb _ _); [reflexivity|]. destruct (Z.ltb_spec x (-1)); [lia|]. unfold digit, alpha. f_equal. lia.
Qed.
Lemma trim_blanks : forall a s, Forall blank a -> trim_left (a ++ s) = trim_left s.
Proof. induction 1 as [|x a H _ IH]; [reflexivity|]. cbn [List.app trim_left]. destruct H as [-> | ->]; exact IH. Qed.
Lemma trim_bare : forall v s, (forall x t, v = x :: t -> visible x) -> v <> [] -> trim_left (v ++ s) = Ok (v ++ s).
Proof. intros [|x v] s H N; [contradiction|]. specialize (H x v eq_refl). cbn [List.app trim_left]. unfold space, visible in *. destruct (Z.ltb_spec x (-1)); [lia|]. cbn [rbind]. replace ((x =? 32) || ((9 <=? x) && (x <=? 13))) with false by lia. reflexivity. Qed.
Lemma trim_value : forall a v b, Forall blank a -> Forall blank b -> bare v -> trim (a ++ v ++ b) = Ok v.
Proof.
  intros a v b A B [C D]. unfold trim. rewrite trim_blanks by exact A. assert (RB : Forall blank (rev b)) by (apply Forall_rev, B).
  destruct v as [|x v]; [cbn [List.app]; rewrite <- (app_nil_r b), trim_blanks by exact B; reflexivity|]. rewrite trim_bare by (try exact C; discriminate). cbn [rbind].
  rewrite rev_app_distr, trim_blanks by exact RB. rewrite <- (app_nil_r (rev (x :: v))), trim_bare.
  - cbn [rbind]. rewrite app_nil_r, rev_involutive. reflexivity.
  - intros y t E. apply (D y (rev t)). rewrite <- (rev_involutive (x :: v)), E. reflexivity.
  - intros E. apply (f_equal (@rev Z)) in E. rewrite rev_involutive in E. discriminate.
Qed.
Lemma parse_lines_ok : forall hs ls, Forall2 line hs ls -> forall h, parse_lines (ls ++ [[]; []]) h = Ok (true, h ++ map (fun x => (lower (fst x), snd x)) hs).
Proof.
  induction 1 as [|x l hs ls L _ IH]; intros h; [cbn; rewrite app_nil_r; reflexivity|]. inversion L as [n v a b [N T] _ A B C]; subst. cbn [List.app parse_lines].
  replace (isnil (n ++ 58 :: a ++ v ++ b)) with false by (destruct n; reflexivity). rewrite split_two by (intros X; rewrite Forall_forall in T; apply T, tchar_visible in X; lia).
  cbn [rbind]. unfold is_token. rewrite tchars_ok by exact T. cbn [rbind]. replace (isnil n) with false by (destruct n; [contradiction|reflexivity]). cbn [andb negb].
  rewrite lower_ok by (eapply Forall_impl; [|exact T]; intros y Y; apply tchar_okc in Y; unfold okc in Y; lia). cbn [rbind]. rewrite trim_value by assumption. cbn [rbind]. rewrite IH. rewrite <- app_assoc. reflexivity.
Qed.

(** ** Values *)
Lemma str_eqb_iff : forall a b, str_eqb a b = true <-> a = b.
Proof.
  induction a as [|x a IH]; intros [|y b]; cbn [str_eqb]; try (split; [discriminate|discriminate]); [tauto|]. rewrite andb_true_iff, Z.eqb_eq, IH. split; [intros [-> ->]; reflexivity|intros E; inversion E; auto].
Qed.
Lemma header_value : forall hs n t s, t = text n -> heads s = map (fun x => (lower (fst x), snd x)) hs -> header t s = value hs n.
Proof.
  intros hs n t s -> E. unfold header, value. rewrite E.
  assert (X : map snd (filter (fun h => str_eqb (fst h) (text n)) (map (fun x : list Z * list Z => (lower (fst x), snd x)) hs)) =
    map snd (filter (fun h : list Z * list Z => if list_eq_dec Z.eq_dec (lower (fst h)) (text n) then true else false) hs)).
  { clear E. induction hs as [|h hs IH]; [reflexivity|]. cbn [map filter fst]. destruct (list_eq_dec Z.eq_dec (lower (fst h)) (text n)) as [e|e].
    - rewrite (proj2 (str_eqb_iff _ _) e). cbn [map snd]. rewrite IH. reflexivity.
    - destruct (str_eqb (lower (fst h)) (text n)) eqn:Y; [apply str_eqb_iff in Y; contradiction|exact IH]. }
  rewrite X. generalize (map snd (filter (fun h : list Z * list Z => if list_eq_dec Z.eq_dec (lower (fst h)) (text n) then true else false) hs)). clear.
  intros [|v l]; [reflexivity|]. cbn [List.app]. revert v. induction l as [|y l IH]; intros v; [cbn; apply app_nil_r|]. change (commas (v :: y :: l)) with (v ++ 44 :: commas (y :: l)). rewrite <- IH. cbn [List.app]. reflexivity.
Qed.
Lemma prefixb_iff : forall p s, prefixb p s = true <-> exists b, s = p ++ b.
Proof.
  induction p as [|x p IH]; intros s; [split; [exists s; reflexivity|reflexivity]|]. destruct s as [|y s]; cbn [prefixb]; [split; [discriminate|intros [b E]; discriminate]|].
  rewrite andb_true_iff, Z.eqb_eq, IH. split; [intros [-> [b ->]]; exists b; reflexivity|intros [b E]; inversion E; eauto].
Qed.
Lemma contains_iff : forall p s, contains p s = true <-> exists a b, s = a ++ p ++ b.
Proof.
  induction s as [|x s IH]; cbn [contains]; rewrite orb_true_iff, prefixb_iff.
  - split; [intros [[b E]|E]; [exists [], b; exact E|discriminate]|]. intros (a & b & E). destruct a; [left; exists b; exact E|discriminate].
  - rewrite IH. split.
    + intros [[b E]|(a & b & E)]; [exists [], b; exact E|exists (x :: a), b; rewrite E; reflexivity].
    + intros (a & b & E). destruct a as [|y a]; [left; exists b; exact E|]. inversion E; subst. right. eauto.
Qed.
Definition ascii_l (l : list Z) : Prop := Forall (fun x => 0 <= x < 128) l.
Lemma lower_ascii : forall l, ascii_l l -> lowercase l = Ok (lower l).
Proof. intros l H. apply lower_ok. eapply Forall_impl; [|exact H]. cbn. lia. Qed.
Lemma commas_ascii : forall l, Forall ascii_l l -> ascii_l (commas l).
Proof.
  intros l H. induction H as [|v l V _ IH]; [constructor|]. destruct l as [|w l]; [exact V|]. cbn [commas]. apply Forall_app. split; [exact V|]. constructor; [lia|exact IH].
Qed.
Lemma line_ascii : forall hs ls, Forall2 line hs ls -> Forall (fun h => ascii_l (snd h)) hs.
Proof.
  induction 1 as [|h l hs ls L _ IH]; constructor; [|exact IH]. inversion L as [n v a b T [raw U] A B C]; subst. cbn [snd]. apply unfolds_okc in U. apply Forall_app in U. destruct U as [_ U]. apply Forall_app in U.
  eapply Forall_impl; [|exact (proj1 U)]. intros x X. unfold okc in X. lia.
Qed.
Lemma value_ascii : forall hs n, Forall (fun h => ascii_l (snd h)) hs -> ascii_l (value hs n).
Proof.
  intros hs n H. unfold value. apply commas_ascii. rewrite Forall_map. rewrite Forall_forall in *. intros x X. apply filter_In in X. apply H, X.
Qed.

(** ** Scanning *)
Section App.
Variable app : list ev -> list act.
Variable sha1 : list Z -> list Z.
Notation on_header := (on_header app sha1).

Lemma set_scan_set : forall a b c d s, set_scan a b (set_scan c d s) = set_scan a b s. Proof. reflexivity. Qed.
Lemma to_char_ok : forall x, 0 <= x < 128 -> to_char x = x.
Proof. intros x H. unfold to_char. rewrite Z.mod_small by lia. lia. Qed.
Lemma scan_plain : forall l q s, Forall okc l -> l <> [] -> on_header (l ++ q) s = on_header q (set_scan false (block s ++ l) s).
Proof.
  intros l. induction l as [|x l IH]; intros q s H N; [contradiction|]. inversion H as [|? ? (A & B & C) HL]; subst. cbn [List.app WebSock.on_header]. cbv zeta.
  destruct (Z.eqb_spec x 10); [contradiction|]. destruct (Z.eqb_spec x 13); [contradiction|]. cbn [negb]. rewrite to_char_ok by exact C. destruct l as [|y l]; [reflexivity|].
  rewrite IH by (try assumption; discriminate). rewrite set_scan_set. cbn [block set_scan]. rewrite <- app_assoc. reflexivity.
Qed.
Lemma scan_line : forall q s, gotnl s = false -> on_header (13 :: 10 :: q) s = on_header q (set_scan true (block s ++ [13; 10]) s).
Proof. intros q s G. cbn [WebSock.on_header]. cbv zeta. change (13 =? 10) with false. change (13 =? 13) with true. cbn [negb]. change (10 =? 10) with true. cbv iota. cbn [gotnl set_scan]. rewrite G. rewrite set_scan_set. cbn [block set_scan]. rewrite <- app_assoc. reflexivity. Qed.
Lemma scan_end : forall q s, gotnl s = true -> on_header (13 :: 10 :: q) s = (s1 <- parse_block app sha1 (set_scan true (block s ++ [13; 10]) s);; Ok (s1, q)).
Proof. intros q s G. cbn [WebSock.on_header]. cbv zeta. change (13 =? 10) with false. change (13 =? 13) with true. cbn [negb]. change (10 =? 10) with true. cbv iota. cbn [gotnl set_scan]. rewrite G. rewrite set_scan_set. cbn [block set_scan]. rewrite <- app_assoc. reflexivity. Qed.
Lemma scan_unfolds : forall raw t, unfolds raw t -> forall q s, gotnl s = false -> on_header (raw ++ q) s = on_header q (set_scan false (block s ++ raw) s).
Proof.
  induction 1 as [|x r t H _ IH|b r t H _ IH]; intros q s G.
  - cbn [List.app]. rewrite app_nil_r. replace (set_scan false (block s) s) with s by (destruct s; cbn in *; subst; reflexivity). reflexivity.
  - change ((x :: r) ++ q) with ([x] ++ r ++ q). rewrite (scan_plain [x]) by (first [discriminate | constructor; [apply okc_plain, H|constructor]]). rewrite IH by reflexivity. rewrite set_scan_set. cbn [block set_scan]. rewrite <- app_assoc. reflexivity.
  - change ((13 :: 10 :: b :: r) ++ q) with (13 :: 10 :: [b] ++ r ++ q). rewrite scan_line by exact G. rewrite (scan_plain [b]) by (first [discriminate | constructor; [apply okc_plain; right; exact H|constructor]]). rewrite IH by reflexivity. rewrite !set_scan_set. cbn [block set_scan]. rewrite <- !app_assoc. reflexivity.
Qed.
Lemma scan_field : forall h raw q s, field h raw -> on_header (raw ++ q) s = on_header q (set_scan true (block s ++ raw) s).
Proof.
  intros h raw q s F. inversion F as [n v a b r [N T] U A B C]; subst.
  replace ((n ++ 58 :: r ++ [13; 10]) ++ q) with ((n ++ [58]) ++ r ++ 13 :: 10 :: q) by (repeat (rewrite <- ?app_assoc; cbn [List.app]); reflexivity).
  rewrite scan_plain; [|apply Forall_app; split; [eapply Forall_impl; [|exact T]; apply tchar_okc|constructor; [unfold okc; lia|constructor]]|destruct n; discriminate].
  rewrite (scan_unfolds _ _ U) by reflexivity. rewrite scan_line by reflexivity. rewrite !set_scan_set. cbn [block set_scan]. repeat (rewrite <- ?app_assoc; cbn [List.app]). reflexivity.
Qed.
Lemma scan_fields : forall hs raws, Forall2 field hs raws -> forall q s, gotnl s = true -> on_header (concat raws ++ q) s = on_header q (set_scan true (block s ++ concat raws) s).
Proof.
  induction 1 as [|h raw hs raws F _ IH]; intros q s G.
  - cbn [concat List.app]. rewrite app_nil_r. replace (set_scan true (block s) s) with s by (destruct s; cbn in *; subst; reflexivity). reflexivity.
  - cbn [concat]. rewrite <- app_assoc, (scan_field h) by exact F. rewrite IH by reflexivity. rewrite set_scan_set. cbn [block set_scan]. rewrite <- app_assoc. reflexivity.
Qed.
Lemma scan_request : forall m u w hs raw q, request m u w hs raw ->
  on_header (raw ++ q) ws0 = (s1 <- parse_block app sha1 (set_scan true raw ws0);; Ok (s1, q)).
Proof.
  intros m u w hs raw q R. inversion R as [raws M U W F]; subst.
  replace ((m ++ 32 :: u ++ 32 :: w ++ [13; 10] ++ concat raws ++ [13; 10]) ++ q) with ((m ++ 32 :: u ++ 32 :: w) ++ 13 :: 10 :: concat raws ++ 13 :: 10 :: q) by (repeat (rewrite <- ?app_assoc; cbn [List.app]); reflexivity).
  rewrite scan_plain; [| |destruct m; discriminate].
  - rewrite scan_line by reflexivity. rewrite (scan_fields _ _ F) by reflexivity. rewrite scan_end by reflexivity. rewrite !set_scan_set. cbn [block set_scan ws0].
    repeat (rewrite <- ?app_assoc; cbn [List.app]). reflexivity.
  - apply Forall_app. split; [apply visible_okc, M|]. constructor; [unfold okc; lia|]. apply Forall_app. split; [apply visible_okc, U|]. constructor; [unfold okc; lia|]. apply visible_okc, W.
Qed.

(** ** The decision *)
Lemma block_request : forall m u w hs raw, request m u w hs raw -> zlen raw < U64MAX ->
  exists s, parse_block app sha1 (set_scan true raw ws0) = on_headers app sha1 s /\ hdr s = true /\ cbs s = true /\ st s = 0 /\ closing s = false /\ inbuf s = [] /\ frag s = [] /\ fragop s = -1 /\ tr s = [] /\
  startl s = m ++ 32 :: u ++ 32 :: w /\ heads s = map (fun x => (lower (fst x), snd x)) hs /\ Forall (fun h => ascii_l (snd h)) hs.
Proof.
  intros m u w hs raw R Z. destruct (norm_request _ _ _ _ _ R) as (ls & L & E). eexists. split.
  - unfold parse_block. cbv zeta. cbn [block set_scan]. change (fold_lines (cr (crlf raw))) with (norm raw). rewrite uri_split_fields by (eapply Z.le_lt_trans; [apply norm_shorter|exact Z]).
    rewrite E. rewrite fields_app.
    2:{ apply okc_lacks. inversion R; subst. apply Forall_app. split; [apply visible_okc; assumption|]. constructor; [unfold okc; lia|]. apply Forall_app. split; [apply visible_okc; assumption|]. constructor; [unfold okc; lia|]. apply visible_okc; assumption. }
    rewrite fields_lines by (clear - L; induction L as [|h l hs ls L _ IH]; constructor; [apply (line_okc h l L)|exact IH]).
    cbn [rbind]. rewrite (parse_lines_ok _ _ L). cbn [rbind]. cbv zeta iota. reflexivity.
  - cbn [set_heads set_scan hdr cbs st closing inbuf frag fragop tr startl heads ws0]. repeat split; auto. eapply line_ascii, L.
Qed.

Lemma visible_lacks : forall l, Forall visible l -> ~ In 32 l.
Proof. intros l H X. rewrite Forall_forall in H. apply H in X. unfold visible in X. lia. Qed.
Lemma startl_words : forall m u w, Forall visible m -> Forall visible u -> Forall visible w -> zlen (m ++ 32 :: u ++ 32 :: w) < U64MAX ->
  uri_split (m ++ 32 :: u ++ 32 :: w) [32] 0 = Ok [m; u; w].
Proof. intros m u w M U W Z. rewrite uri_split_fields by exact Z. rewrite fields_app, fields_app, fields_last by (apply visible_lacks; assumption). reflexivity. Qed.

Lemma react_more : forall s, exists more, tr (react app s) = tr s ++ more.
Proof.
  intros s. unfold react. generalize (app (tr s)). intros l. revert s. induction l as [|a l IH]; intros s; [exists []; cbn; rewrite app_nil_r; reflexivity|]. cbn [fold_left].
  destruct (IH (perform a s)) as [m E]. assert (P : exists p, tr (perform a s) = tr s ++ p).
  { destruct a; cbn [perform]; unfold clean_close, write; try (destruct (st s <? 2)); try (destruct (st s <? 1)); try (destruct (st (clear_cbs s) <? 2)); cbn [emit set_closing set_st clear_cbs tr]; first [eexists; reflexivity | exists []; rewrite app_nil_r; reflexivity]. }
  destruct P as [p P]. exists (p ++ m). rewrite E, P, app_assoc. reflexivity.
Qed.
Hypothesis quiet : app [EvHeaders] = [].

Lemma call_headers : forall s, cbs s = true -> tr s = [] -> call app EvHeaders s = emit EvHeaders s.
Proof. intros s C T. unfold call. rewrite C. unfold react. cbn [emit tr]. rewrite T. cbn [List.app]. rewrite quiet. reflexivity. Qed.
Lemma closed_tr : forall s, cbs s = true -> st s = 0 -> tr (set_closed app s) = tr s ++ [EvDown; EvError] /\ st (set_closed app s) = 2.
Proof.
  intros s C S. unfold set_closed. rewrite S. change (0 <? 2) with true. cbv iota zeta. rewrite C.
  destruct (react_quiet app (emit EvError (clear_cbs (emit EvDown (set_st 2 s)))) eq_refl) as [A B]. rewrite A, B. cbn [emit clear_cbs set_st tr]. rewrite <- app_assoc. split; reflexivity.
Qed.
Lemma answer_text : forall acc, t_answer ++ acc ++ [13; 10; 13; 10] =
  text "HTTP/1.1 101 Switching Protocols" ++ text crlf_s ++ text "Upgrade: websocket" ++ text crlf_s ++ text "Connection: Upgrade" ++ text crlf_s
           ++ text "Sec-WebSocket-Accept: " ++ acc ++ text crlf_s ++ text crlf_s.
Proof. intros acc. reflexivity. Qed.
Lemma of_char_ascii : forall l, ascii_l l -> map of_char l = l.
Proof. induction 1 as [|x l H _ IH]; [reflexivity|]. cbn [map]. rewrite IH. unfold of_char. rewrite Z.mod_small by lia. reflexivity. Qed.
Lemma isnil_iff : forall l : list Z, isnil l = true <-> l = [].
Proof. intros [|x l]; split; try discriminate; reflexivity. Qed.
Lemma str_eqb_false : forall a b, str_eqb a b = false <-> a <> b.
Proof. intros a b. destruct (str_eqb a b) eqn:E; [apply str_eqb_iff in E; split; [discriminate|contradiction]|split; [|reflexivity]]. intros _ X. apply str_eqb_iff in X. congruence. Qed.

Lemma receive_request : forall m u w hs raw, request m u w hs raw -> zlen raw < U64MAX ->
  exists s, receive app sha1 raw ws0 = on_headers app sha1 s /\ hdr s = true /\ cbs s = true /\ st s = 0 /\ closing s = false /\ inbuf s = [] /\ frag s = [] /\ fragop s = -1 /\ tr s = [] /\
  startl s = m ++ 32 :: u ++ 32 :: w /\ heads s = map (fun x => (lower (fst x), snd x)) hs /\ Forall (fun h => ascii_l (snd h)) hs /\ Forall visible m /\ Forall visible u /\ Forall visible w /\ zlen (startl s) < U64MAX.
Proof.
  intros m u w hs raw R Z. destruct (block_request _ _ _ _ _ R Z) as (s & E & H). exists s. split.
  - unfold receive. cbn [receive_loop]. cbn [st hdr ws0]. change (0 <? 1) with true. assert (N : isnil raw = false) by (inversion R; subst; destruct m; reflexivity). rewrite N. cbn [andb negb]. cbv iota.
    rewrite <- (app_nil_r raw) at 1. rewrite (scan_request _ _ _ _ _ [] R). rewrite E. destruct (on_headers app sha1 s) as [s1| |]; cbn [rbind]; [|reflexivity|reflexivity]. rewrite andb_false_r. reflexivity.
  - destruct H as (A1 & A2 & A3 & A4 & A5 & A6 & A7 & A8 & A9 & A10 & A11). repeat (split; [assumption|]). inversion R as [raws M U W F RW]. repeat (split; [assumption|]). rewrite A9. eapply Z.le_lt_trans; [|exact Z]. rewrite <- RW. unfold zlen. repeat (rewrite app_length; cbn [length]). lia.
Qed.

Lemma refuse_request : forall m u w hs raw, request m u w hs raw -> zlen raw < U64MAX -> ~ accepts m hs ->
  exists s, receive app sha1 raw ws0 = Ok s /\ tr s = [EvHeaders; EvDown; EvError] /\ st s = 2.
Proof.
  intros m u w hs raw R Z NA. destruct (receive_request _ _ _ _ _ R Z) as (s & E & H & C & S & CL & I & F & FO & T & ST & HE & AS & VM & VU & VW & ZS).
  rewrite E. unfold on_headers. cbv zeta. rewrite (call_headers s C T). cbn [startl emit]. rewrite ST. rewrite startl_words by (try assumption; rewrite <- ST; exact ZS). cbn [rbind].
  assert (D : exists s', Ok (set_closed app (emit EvHeaders s)) = Ok s' /\ tr s' = [EvHeaders; EvDown; EvError] /\ st s' = 2).
  { eexists. split; [reflexivity|]. destruct (closed_tr (emit EvHeaders s) C S) as [X Y]. rewrite X, Y. cbn [emit tr]. rewrite T. split; reflexivity. }
  destruct (str_eqb m t_get) eqn:A1; cbn [negb]; [|exact D]. apply str_eqb_iff in A1.
  rewrite (header_value hs "upgrade" t_upgrade (emit EvHeaders s) eq_refl HE), (header_value hs "connection" t_connection (emit EvHeaders s) eq_refl HE),
    (header_value hs "sec-websocket-version" t_version (emit EvHeaders s) eq_refl HE), (header_value hs "sec-websocket-key" t_key (emit EvHeaders s) eq_refl HE).
  rewrite !lower_ascii by (apply value_ascii, AS). cbn [rbind].
  destruct (str_eqb (lower (value hs "upgrade")) t_websocket) eqn:A2; cbn [negb]; [|exact D]. apply str_eqb_iff in A2.
  destruct (contains t_upgrade (lower (value hs "connection"))) eqn:A3; cbn [negb orb]; [|exact D]. apply contains_iff in A3.
  destruct (str_eqb (value hs "sec-websocket-version") t_13) eqn:A4; cbn [negb orb]; [|exact D]. apply str_eqb_iff in A4.
  destruct (isnil (value hs "sec-websocket-key")) eqn:A5; [exact D|]. exfalso. apply NA. split; [exact A1|]. split; [exact A2|]. split; [exact A3|]. split; [exact A4|]. intros X. apply isnil_iff in X. congruence.
Qed.

Hypothesis sha_ok : forall l, bytes_ok (sha1 l).
Lemma open_request : forall m u w hs raw, request m u w hs raw -> zlen raw < U64MAX -> accepts m hs ->
  exists s answer more, receive app sha1 raw ws0 = Ok s /\ opening sha1 hs answer /\ tr s = [EvHeaders; EvOut answer; EvOpen] ++ more /\
  (app [EvHeaders; EvOut answer; EvOpen] = [] -> more = [] /\ st s = 0 /\ hdr s = true /\ cbs s = true /\ inbuf s = [] /\ fragop s = -1 /\ frag s = [] /\ closing s = false).
Proof.
  intros m u w hs raw R Z (A1 & A2 & A3 & A4 & A5). destruct (receive_request _ _ _ _ _ R Z) as (s & E & H & C & S & CL & I & F & FO & T & ST & HE & AS & VM & VU & VW & ZS).
  rewrite E. unfold on_headers. cbv zeta. rewrite (call_headers s C T). cbn [startl emit]. rewrite ST. rewrite startl_words by (try assumption; rewrite <- ST; exact ZS). cbn [rbind].
  replace (str_eqb m t_get) with true by (symmetry; apply str_eqb_iff; exact A1). cbn [negb].
  rewrite (header_value hs "upgrade" t_upgrade (emit EvHeaders s) eq_refl HE), (header_value hs "connection" t_connection (emit EvHeaders s) eq_refl HE),
    (header_value hs "sec-websocket-version" t_version (emit EvHeaders s) eq_refl HE), (header_value hs "sec-websocket-key" t_key (emit EvHeaders s) eq_refl HE).
  rewrite !lower_ascii by (apply value_ascii, AS). cbn [rbind]. rewrite A2. change (str_eqb (text "websocket") t_websocket) with true. cbn [negb].
  replace (contains t_upgrade (lower (value hs "connection"))) with true by (symmetry; apply contains_iff; exact A3). rewrite A4. change (str_eqb (text "13") t_13) with true. cbn [negb orb].
  destruct (isnil (value hs "sec-websocket-key")) eqn:K; [apply isnil_iff in K; contradiction|].
  rewrite of_char_ascii by (apply Forall_app; split; [apply value_ascii, AS|unfold t_guid; repeat (constructor; [lia|]); constructor]).
  destruct (base64enc_spec (sha1 (value hs "sec-websocket-key" ++ t_guid)) (sha_ok _)) as (acc & EA & BA). rewrite EA. cbn [rbind].
  unfold write. cbn [st emit]. rewrite S. change (0 <? 2) with true. cbv iota. unfold call. cbn [cbs emit]. rewrite C.
  set (s1 := emit EvOpen (emit (EvOut (t_answer ++ acc ++ [13; 10; 13; 10])) (emit EvHeaders s))).
  assert (TS : tr s1 = [EvHeaders; EvOut (t_answer ++ acc ++ [13; 10; 13; 10]); EvOpen]). { unfold s1. cbn [emit tr]. rewrite T. reflexivity. }
  destruct (react_more s1) as [more M]. exists (react app s1), (t_answer ++ acc ++ [13; 10; 13; 10]), more. split; [reflexivity|]. split; [exists acc; split; [exact BA|apply answer_text]|]. rewrite M, TS. split; [reflexivity|].
  intros Q. unfold react in *. rewrite TS in *. rewrite Q in *. cbn [fold_left] in *. rewrite TS in M. split; [|subst s1; cbn [emit st hdr cbs inbuf fragop frag closing]; auto 10].
  destruct more; [reflexivity|]. apply (f_equal (@length ev)) in M. rewrite app_length in M. cbn [length] in M. lia.
Qed.
End App.

(** ** What RFC 6455 wants is accepted *)
Lemma fields_part : forall c v f, In f (fields c v) -> exists a b, v = a ++ f ++ b.
Proof.
  induction v as [|x v IH]; intros f H; cbn [fields] in H.
  - destruct H as [<-|[]]. exists [], []. reflexivity.
  - destruct (x =? c).
    + destruct H as [<-|H]; [exists [], (x :: v); reflexivity|]. destruct (IH f H) as (a & b & E). exists (x :: a), b. rewrite E. reflexivity.
    + destruct (fields c v) as [|g gs] eqn:E.
      * destruct v as [|y v]; cbn [fields] in E; [discriminate|]. destruct (y =? c); [discriminate|]. destruct (fields c v); discriminate.
      * destruct H as [<-|H].
        -- assert (P : exists b, v = g ++ b); [|destruct P as [b ->]; exists [], b; reflexivity]. clear - E. revert g gs E. induction v as [|y v IH]; intros g gs E; cbn [fields] in E; [inversion E; exists []; reflexivity|].
           destruct (y =? c); [inversion E; exists (y :: v); reflexivity|]. destruct (fields c v) as [|h hs] eqn:E2; [inversion E; subst; eexists; reflexivity|]. inversion E; subst. destruct (IH h gs eq_refl) as [b ->]. exists b. reflexivity.
        -- destruct (IH f) as (a & b & E2); [right; exact H|]. exists (x :: a), b. rewrite E2. reflexivity.
Qed.
Lemma listed_occurs : forall n v, listed n v -> exists a b, lower v = a ++ text n ++ b.
Proof.
  intros n v (a & w & b & H & _ & _ & L). destruct (fields_part _ _ _ H) as (c & d & ->). exists (lower (c ++ a)), (lower (b ++ d)). rewrite <- L. unfold lower. rewrite <- !map_app. f_equal. rewrite <- !app_assoc. reflexivity.
Qed.
Lemma rfc_accepts : forall m w hs, rfc_ok m w hs -> lower (value hs "upgrade") = text "websocket" -> accepts m hs.
Proof.
  intros m w hs (A & _ & _ & C & D & k & K & _ & B) U. split; [exact A|]. split; [exact U|]. split; [apply listed_occurs, C|]. split; [exact D|]. intros E. rewrite E in B. inversion B; subst. discriminate.
Qed.

Lemma base64_length : forall l t, base64 l t -> length t = (4 * ((length l + 2) / 3))%nat.
Proof.
  induction 1 as [|x y z a b c d a' b' c' d' l t _ _ _ _ _ _ IH| |]; [reflexivity| |reflexivity|reflexivity]. cbn [length]. rewrite IH.
  replace (Datatypes.S (Datatypes.S (Datatypes.S (length l))) + 2)%nat with (1 * 3 + (length l + 2))%nat by lia. rewrite Nat.div_add_l by lia. lia.
Qed.

(** ** A malformed line *)
Section Bad.
Variable app : list ev -> list act.
Variable sha1 : list Z -> list Z.
Notation on_header := (on_header app sha1).
Lemma malformed_okc : forall l, malformed l -> Forall okc l /\ l <> [].
Proof. intros l ((y & t & E & _) & F & _). split; [eapply Forall_impl; [|exact F]; intros x X; apply okc_plain, X|subst; discriminate]. Qed.
Lemma malformed_starts : forall l s, malformed l -> starts (l ++ s).
Proof. intros l s ((y & t & -> & V) & _). right. exists y. eexists. split; [reflexivity|]. split; [apply okc_plain; left; exact V|]. unfold visible, blank in *. lia. Qed.
Lemma tchars_exact : forall s, Forall okc s -> exists b, tchars s = Ok b /\ (b = true -> Forall is_tchar s).
Proof.
  induction 1 as [|x s (_ & _ & H) _ IH]; [exists true; split; [reflexivity|constructor]|]. destruct IH as (b & E & B). cbn [tchars].
  unfold tchar. destruct (existsb _ _) eqn:X.
  - cbn [rbind]. exists b. split; [exact E|]. intros Y. constructor; [left|exact (B Y)]. apply existsb_exists in X. destruct X as (z & I & Q). apply Z.eqb_eq in Q. subst z. exact I.
  - destruct (Z.ltb_spec x (-1)); [lia|]. cbn [rbind]. destruct (digit x || alpha x) eqn:D; [|exists false; split; [reflexivity|discriminate]]. exists b. split; [exact E|]. intros Y. constructor; [right|exact (B Y)]. unfold digit, alpha in D. lia.
Qed.
Lemma split_none : forall l m, l <> [] -> ~ In 58 l -> wrap64 (m - 1) <> 0 -> uri_split l [58] m = Ok [l].
Proof.
  intros l m N H M. unfold uri_split. cbn [split_loop]. cbv zeta. destruct (Z.eqb_spec (wrap64 (m - 1)) 0); [contradiction|]. replace (str_eqb l []) with false by (destruct l; [contradiction|reflexivity]). cbn [negb andb].
  assert (F : from (fun c => existsb (Z.eqb c) [58]) l = []); [|rewrite F; reflexivity]. clear N. induction l as [|x l IH]; [reflexivity|]. cbn [from existsb]. destruct (Z.eqb_spec x 58) as [->|]; [exfalso; apply H; left; reflexivity|]. cbn [orb]. apply IH. intros X. apply H. right. exact X.
Qed.
Lemma first_split : forall (c : Z) l, In c l -> exists n t, l = n ++ c :: t /\ ~ In c n.
Proof.
  induction l as [|x l IH]; intros H; [contradiction|]. destruct (Z.eq_dec x c) as [->|N]; [exists [], l; split; [reflexivity|intros []]|]. destruct H as [H|H]; [contradiction|].
  destruct (IH H) as (n & t & -> & A). exists (x :: n), t. split; [reflexivity|]. intros [X|X]; [contradiction|exact (A X)].
Qed.
Lemma parse_lines_app : forall hs ls, Forall2 line hs ls -> forall r h, parse_lines (ls ++ r) h = parse_lines r (h ++ map (fun x => (lower (fst x), snd x)) hs).
Proof.
  induction 1 as [|x l hs ls L _ IH]; intros r h; [cbn; rewrite app_nil_r; reflexivity|]. inversion L as [n v a b [N T] _ A B C]; subst. cbn [List.app]. cbn [parse_lines].
  replace (isnil (n ++ 58 :: a ++ v ++ b)) with false by (destruct n; reflexivity). rewrite split_two by (intros X; rewrite Forall_forall in T; apply T, tchar_visible in X; lia).
  cbn [rbind]. unfold is_token. rewrite tchars_ok by exact T. cbn [rbind]. replace (isnil n) with false by (destruct n; [contradiction|reflexivity]). cbn [andb negb].
  rewrite lower_ok by (eapply Forall_impl; [|exact T]; intros y Y; apply tchar_okc in Y; unfold okc in Y; lia). cbn [rbind]. rewrite trim_value by assumption. cbn [rbind]. rewrite IH. rewrite <- app_assoc. reflexivity.
Qed.
Lemma parse_lines_bad : forall l r h, malformed l -> parse_lines (l :: r) h = Ok (false, h).
Proof.
  intros l r h M. pose proof (malformed_okc l M) as [O N]. destruct M as (_ & _ & M). cbn [parse_lines]. replace (isnil l) with false by (destruct l; [contradiction|reflexivity]).
  destruct (in_dec Z.eq_dec 58 l) as [I|I]; [|rewrite split_none by (try assumption; discriminate); reflexivity].
  destruct (first_split 58 l I) as (n & t & E & A). subst l. rewrite split_two by exact A. cbn [rbind]. apply Forall_app in O. destruct (tchars_exact n (proj1 O)) as (b & TB & B). unfold is_token. rewrite TB. cbn [rbind].
  destruct (b && negb (isnil n)) eqn:Q; [|reflexivity]. exfalso. apply andb_true_iff in Q. destruct Q as [Q1 Q2]. apply (M n t eq_refl). split; [intros ->; discriminate|exact (B Q1)].
Qed.
Lemma norm_fields_then : forall hs raws s, Forall2 field hs raws -> starts s -> exists ls, Forall2 line hs ls /\ norm (concat raws ++ s) = concat (map (fun l => l ++ [10]) ls) ++ norm s /\ starts (concat raws ++ s).
Proof.
  intros hs raws s H S. induction H as [|h raw hs raws F FS IH]; [exists []; split; [constructor|split; [reflexivity|exact S]]|]. destruct IH as (ls & L & E & ST).  inversion F as [n v a b r T U A B C]; subst.
  exists ((n ++ 58 :: a ++ v ++ b) :: ls). split; [constructor; [constructor; eauto|exact L]|]. split; [|cbn [concat]; rewrite <- app_assoc; eapply field_starts, F]. cbn [concat map].
  rewrite <- !app_assoc. rewrite norm_plains by (destruct T as [_ T]; eapply Forall_impl; [|exact T]; apply tchar_okc). cbn [List.app]. rewrite norm_plain by (unfold okc; lia).
  rewrite <- !app_assoc. rewrite (norm_unfolds _ _ _ U). cbn [List.app]. rewrite norm_next by exact ST. rewrite E. rewrite <- !app_assoc. reflexivity.
Qed.
Lemma fields_lines_then : forall ls s, Forall (Forall okc) ls -> fields 10 (concat (map (fun l => l ++ [10]) ls) ++ s) = ls ++ fields 10 s.
Proof. intros ls s. induction 1 as [|l ls H _ IH]; [reflexivity|]. cbn [map concat]. rewrite <- !app_assoc. cbn [List.app]. rewrite fields_app by (apply okc_lacks, H). rewrite IH. reflexivity. Qed.
Lemma start_okc : forall m u w, Forall visible m -> Forall visible u -> Forall visible w -> Forall okc (m ++ 32 :: u ++ 32 :: w).
Proof. intros m u w M U W. apply Forall_app. split; [apply visible_okc, M|]. constructor; [unfold okc; lia|]. apply Forall_app. split; [apply visible_okc, U|]. constructor; [unfold okc; lia|]. apply visible_okc, W. Qed.
Lemma refuse_bad : forall raw, bad_request raw -> zlen raw < U64MAX -> exists s, receive app sha1 raw ws0 = Ok s /\ tr s = [EvDown; EvError] /\ st s = 2.
Proof.
  intros raw R Z. inversion R as [m u w hs raws l hs' raws' M U W F B F']; subst. destruct (malformed_okc l B) as [OL NL]. set (raw := m ++ 32 :: u ++ 32 :: w ++ [13; 10] ++ concat raws ++ l ++ [13; 10] ++ concat raws' ++ [13; 10]) in *.
  assert (RE : raw = (m ++ 32 :: u ++ 32 :: w) ++ 13 :: 10 :: concat raws ++ l ++ 13 :: 10 :: concat raws' ++ [13; 10]) by (unfold raw; repeat (rewrite <- ?app_assoc; cbn [List.app]); reflexivity).
  assert (SC : on_header raw ws0 = (s1 <- parse_block app sha1 (set_scan true raw ws0);; Ok (s1, []))).
  { rewrite RE at 1. rewrite scan_plain by (try apply start_okc; try assumption; destruct m; discriminate). rewrite scan_line by reflexivity. rewrite (scan_fields _ _ _ _ F) by reflexivity. rewrite scan_plain by assumption. rewrite scan_line by reflexivity.
    rewrite (scan_fields _ _ _ _ F') by reflexivity. rewrite scan_end by reflexivity. rewrite !set_scan_set. cbn [block set_scan ws0]. rewrite RE. repeat (rewrite <- ?app_assoc; cbn [List.app]). reflexivity. }
  destruct (norm_fields_then _ _ (l ++ 13 :: 10 :: concat raws' ++ [13; 10]) F (malformed_starts l _ B)) as (ls & L & E & ST).
  assert (NE : norm raw = (m ++ 32 :: u ++ 32 :: w) ++ 10 :: concat (map (fun l => l ++ [10]) ls) ++ l ++ 10 :: norm (concat raws' ++ [13; 10])).
  { rewrite RE. rewrite norm_plains by (apply start_okc; assumption). rewrite norm_next by exact ST. rewrite E. rewrite norm_plains by exact OL. rewrite norm_next by (eapply fields_starts, F'). reflexivity. }
  unfold receive. cbn [receive_loop]. cbn [st hdr ws0]. change (0 <? 1) with true. assert (N : isnil raw = false) by (unfold raw; destruct m; reflexivity). rewrite N. cbn [andb negb]. cbv iota. rewrite SC.
  unfold parse_block. cbv zeta. cbn [block set_scan]. change (fold_lines (cr (crlf raw))) with (norm raw). rewrite uri_split_fields by (eapply Z.le_lt_trans; [apply norm_shorter|exact Z]).
  rewrite NE. rewrite fields_app by (apply okc_lacks, start_okc; assumption). rewrite fields_lines_then by (clear - L; induction L as [|h l hs ls L _ IH]; constructor; [apply (line_okc h l L)|exact IH]). rewrite fields_app by (apply okc_lacks, OL).
  cbn [rbind]. rewrite (parse_lines_app _ _ L). rewrite parse_lines_bad by exact B. cbn [rbind]. cbv zeta iota. rewrite andb_false_r. cbv iota.
  eexists. split; [reflexivity|]. match goal with |- context[set_closed app ?s] => destruct (closed_tr app s eq_refl eq_refl) as [X Y] end. rewrite X, Y. split; reflexivity.
Qed.
End Bad.
