(** Proofs about RTWebSocket flows: messages and the sending end. *)
From Verif Require Import Base BaseFacts VLU VLUSpec VLUProofs RTWS RTWSSpec.
Open Scope res_scope.

(** ** Messages *)
Lemma vlu_ok : forall v rest, is_u64 v -> bytes_ok rest -> vlu (vlu_encode v ++ rest) = Ok (Some (v, rest)).
Proof. intros v rest V B. unfold vlu. rewrite vlu_roundtrip by assumption. rewrite skipn_app, skipn_all, Nat.sub_diag. reflexivity. Qed.
Lemma vlu_ok_end : forall v, is_u64 v -> vlu (vlu_encode v) = Ok (Some (v, [])).
Proof. intros v V. rewrite <- (app_nil_r (vlu_encode v)) at 1. apply vlu_ok; [exact V|constructor]. Qed.
Lemma vlu_nil : vlu [] = Ok None.
Proof. reflexivity. Qed.
Lemma vlu_total : forall l, bytes_ok l -> exists o, vlu l = Ok o /\ match o with Some (v, r) => is_u64 v /\ bytes_ok r | None => True end.
Proof.
  intros l B. unfold vlu. destruct (vlu_parse_spec l B) as [[_ E]|(pre & rest & -> & C & E)].
  - rewrite E. exists None. auto.
  - rewrite E. eexists. split; [reflexivity|]. cbn. rewrite skipn_app, skipn_all, Nat.sub_diag. apply Forall_app in B. destruct B as [B1 B2]. split; [|exact B2].
    assert (0 <= groups_value pre) by (apply groups_value_nonneg; exact B1). unfold is_u64, U64MAX in *. lia.
Qed.
Lemma parse_open : forall id ret meta, is_u64 id -> match ret with Some r => is_u64 r | None => True end -> bytes_ok meta -> parse (enc_open id ret meta) = Ok (MOpen id ret meta).
Proof.
  intros id ret meta I R B. unfold enc_open. destruct ret as [r|]; unfold parse; cbn [Z.eqb Pos.eqb orb].
  - rewrite vlu_ok; [|exact I|apply Forall_app; split; [apply vlu_encode_bytes; exact R|exact B]]. cbn [rbind]. rewrite vlu_ok by assumption. reflexivity.
  - cbn [List.app]. rewrite vlu_ok by assumption. reflexivity.
Qed.
Lemma parse_data : forall more id b, is_u64 id -> bytes_ok b -> parse (enc_data more id b) = Ok (MData more id b).
Proof. intros more id b I B. unfold enc_data, parse. destruct more; cbn [Z.eqb Pos.eqb orb]; rewrite vlu_ok by assumption; reflexivity. Qed.
Lemma parse_abandon : forall id k, is_u64 id -> 1 <= k < 2 ^ 64 -> parse (enc_abandon id k) = Ok (MAbandon id (k - 1)).
Proof.
  intros id k I K. unfold enc_abandon, parse. cbn [Z.eqb Pos.eqb orb]. destruct (Z.gtb_spec k 1).
  - unfold wrap64. rewrite Z.mod_small by lia. assert (U : is_u64 (k - 1)) by (unfold is_u64, U64MAX; lia).
    rewrite vlu_ok by (try assumption; apply vlu_encode_bytes; exact U). cbn [rbind]. rewrite vlu_ok_end by exact U.
    destruct (vlu_encode_spec (k - 1) U) as (_ & _ & L & _). destruct (vlu_encode (k - 1)) as [|x l]; [cbn in L; lia|]. reflexivity.
  - rewrite app_nil_r, vlu_ok_end by exact I. cbn [rbind]. f_equal. f_equal. lia.
Qed.
Lemma parse_close : forall id, is_u64 id -> parse (enc_close id) = Ok (MClose id).
Proof. intros id I. unfold enc_close, parse. cbn [Z.eqb Pos.eqb orb]. rewrite vlu_ok_end by exact I. reflexivity. Qed.
Lemma parse_ack : forall id d a, is_u64 id -> is_u64 d -> is_u64 a -> parse (enc_ack id d a) = Ok (MAck id d a).
Proof.
  intros id d a I D A. unfold enc_ack, parse. cbn [Z.eqb Pos.eqb orb]. rewrite vlu_ok; [|exact I|apply Forall_app; split; apply vlu_encode_bytes; assumption]. cbn [rbind].
  rewrite vlu_ok; [|exact D|apply vlu_encode_bytes; assumption]. cbn [rbind]. rewrite vlu_ok_end by exact A. reflexivity.
Qed.
Lemma parse_closeack : forall id, is_u64 id -> parse (enc_closeack id) = Ok (MCloseAck id).
Proof. intros id I. unfold enc_closeack, parse. cbn [Z.eqb Pos.eqb orb]. rewrite vlu_ok_end by exact I. reflexivity. Qed.
Lemma parse_exc : forall id r d, is_u64 id -> is_u64 r -> bytes_ok d -> parse (enc_exc id r d) = Ok (MExc id r d).
Proof.
  intros id r d I R D. unfold enc_exc, parse. cbn [Z.eqb Pos.eqb orb]. rewrite vlu_ok; [|exact I|apply Forall_app; split; [apply vlu_encode_bytes; assumption|exact D]]. cbn [rbind].
  rewrite vlu_ok by assumption. reflexivity.
Qed.
Lemma parse_total : forall l, bytes_ok l -> exists m, parse l = Ok m.
Proof.
  intros [|t c] B; [eexists; reflexivity|]. inversion_clear B as [|? ? _ C]. unfold parse.
  destruct (t =? 1); [eexists; reflexivity|]. destruct (t =? 65); [eexists; reflexivity|].
  match goal with |- context [if ?b then _ else _] => destruct b end; [|eexists; reflexivity].
  destruct (vlu_total c C) as (o & -> & V). cbn [rbind]. destruct o as [[id c1]|]; [|eexists; reflexivity]. destruct V as [_ C1].
  destruct (t =? 10); [eexists; reflexivity|]. destruct (t =? 16); [eexists; reflexivity|].
  destruct (t =? 48); [destruct (vlu_total c1 C1) as (o & -> & _); eexists; reflexivity|].
  destruct ((t =? 29) || (t =? 61)); [eexists; reflexivity|].
  destruct (t =? 26); [destruct c1; [eexists; reflexivity|]; destruct (vlu_total _ C1) as (o & -> & _); eexists; reflexivity|].
  destruct (t =? 28); [eexists; reflexivity|].
  destruct (t =? 90).
  { destruct (vlu_total c1 C1) as (o & -> & V). cbn [rbind]. destruct o as [[d c2]|]; [|eexists; reflexivity]. destruct (vlu_total c2 (proj2 V)) as (o & -> & _). eexists; reflexivity. }
  destruct (t =? 92); [eexists; reflexivity|]. destruct (vlu_total c1 C1) as (o & -> & _). eexists; reflexivity.
Qed.

(** ** What the receiver will know *)
Inductive fm := FOpen | FData (more : bool) (b : list Z) | FAbandon (k : Z) | FClose.
Record vw := mkV { v_full : list (Z * list Z); v_part : option (Z * list Z); v_next : Z; v_end : bool }.
Inductive vst := VNew | VLive (v : vw) | VErr.
Definition v0 : vw := mkV [] None 0 false.
Definition vdata (more : bool) (b : list Z) (v : vw) : vw :=
  let '(n, x, nx) := match v_part v with Some (n, x) => (n, x, v_next v) | None => (v_next v, [], v_next v + 1) end in
  if more then mkV (v_full v) (Some (n, x ++ b)) nx (v_end v) else mkV (v_full v ++ [(n, x ++ b)]) None nx (v_end v).
Definition vabandon (k : Z) (v : vw) : vw := mkV (v_full v) None (v_next v + match v_part v with Some _ => k - 1 | None => k end) (v_end v).
Definition vclose (v : vw) : vw := let v := vabandon 1 v in mkV (v_full v) None (v_next v) true.
Definition vstep (s : vst) (m : fm) : vst :=
  match s, m with
  | VNew, FOpen => VLive v0
  | VLive v, FData more b => if v_end v then VErr else VLive (vdata more b v)
  | VLive v, FAbandon k => if v_end v then VErr else VLive (vabandon k v)
  | VLive v, FClose => if v_end v then VErr else VLive (vclose v)
  | _, _ => VErr
  end.
Lemma vstep_err : forall ms, fold_left vstep ms VErr = VErr.
Proof. induction ms as [|m ms IH]; [reflexivity|]. cbn [fold_left]. destruct m; exact IH. Qed.
Definition fok (m : fm) : Prop := match m with FData _ b => bytes_ok b | FAbandon k => 1 <= k < 2 ^ 64 | _ => True end.

(** ** The sending end *)
Lemma pick_snoc : forall fate n w1 m w2 b, length fate = length w1 -> pick n (fate ++ [b]) (w1 ++ m :: w2) = pick n fate (w1 ++ m :: w2) ++ (if b then [(n + zlen fate, m)] else []).
Proof.
  induction fate as [|x fate IH]; intros n [|m1 w1] m w2 b L; try discriminate L; cbn [List.app pick].
  - rewrite Z.add_0_r. destruct b; reflexivity.
  - injection L as L. unfold zlen. cbn [length]. rewrite Nat2Z.inj_succ. replace (n + Z.succ (Z.of_nat (length fate))) with (n + 1 + zlen fate) by (unfold zlen; lia).
    destruct x; rewrite IH by exact L; reflexivity.
Qed.
Lemma pick_more : forall fate n w x, (length fate <= length w)%nat -> pick n fate (w ++ x) = pick n fate w.
Proof. induction fate as [|b fate IH]; intros n [|m w] x L; cbn in *; try reflexivity; try lia. destruct b; rewrite IH by lia; reflexivity. Qed.
Lemma pick_all : forall fate n w, Forall (eq true) fate -> length fate = length w -> pick n fate w = number n w.
Proof. induction fate as [|b fate IH]; intros n [|m w] F L; try discriminate L; [reflexivity|]. inversion_clear F as [|? ? E F']. subst b. injection L as L. cbn [pick number]. rewrite IH by assumption. reflexivity. Qed.
Lemma pick_none : forall fate n w, Forall (eq false) fate -> pick n fate w = [].
Proof. induction fate as [|b fate IH]; intros n [|m w] F; try reflexivity; inversion_clear F as [|? ? E F']; subst b; [reflexivity|]. cbn [pick]. apply IH. exact F'. Qed.

Definition ok_w (w : wmsg) : Prop := bytes_ok (w_bytes w) /\ zlen (w_bytes w) < 2 ^ 63 /\ (w_off w = 0 \/ 0 < w_off w < zlen (w_bytes w)).
Record SV (f : sflow) (v : vw) : Prop := {
  sv_full : v_full v = pick 0 (f_fate f) (f_written f);
  sv_end : v_end v = f_closed f;
  sv_closed : f_closed f = true -> f_open f = false /\ f_buf f = [] /\ f_abandon f = 0;
  sv_w : exists w1, f_written f = w1 ++ map w_bytes (f_buf f) /\ length w1 = length (f_fate f);
  sv_ok : Forall ok_w (f_buf f);
  sv_off : Forall (fun w => w_off w = 0) (tl (f_buf f));
  sv_ab : 0 <= f_abandon f <= zlen (f_fate f);
  sv_part : f_closed f = false ->
    (v_part v = None -> v_next v = zlen (f_fate f) - f_abandon f /\ match f_buf f with w :: _ => w_off w = 0 | [] => True end) /\
    (forall n x, v_part v = Some (n, x) -> n = zlen (f_fate f) - f_abandon f /\ v_next v = n + 1 /\
       (f_abandon f = 0 -> match f_buf f with w :: _ => 0 < w_off w /\ x = firstn (Z.to_nat (w_off w)) (w_bytes w) | [] => False end) /\
       (0 < f_abandon f -> match f_buf f with w :: _ => w_off w = 0 | [] => True end)) }.
Definition sees (f : sflow) (st : vst) : Prop :=
  match f_hello f with Some _ => st = VNew /\ SV f v0 /\ f_closed f = false | None => exists v, st = VLive v /\ SV f v end.

Lemma sv_len : forall f v, SV f v -> zlen (f_fate f) + zlen (f_buf f) = zlen (f_written f).
Proof. intros f v H. destruct (sv_w f v H) as (w1 & -> & L). rewrite zlen_app. unfold zlen. rewrite map_length. lia. Qed.

Lemma write_sv : forall f v m, SV f v -> bytes_ok m -> zlen m < 2 ^ 63 -> SV (s_write m f) v.
Proof.
  intros f v m H B L. unfold s_write. destruct (f_open f) eqn:O; [|exact H].
  assert (C : f_closed f = false) by (destruct (f_closed f) eqn:C; [destruct (sv_closed _ _ H C); congruence|reflexivity]).
  destruct (sv_w _ _ H) as (w1 & W & WL).
  split; cbn [f_fate f_written f_closed f_open f_buf f_abandon].
  - rewrite (sv_full _ _ H). rewrite pick_more; [reflexivity|]. rewrite W, app_length. lia.
  - apply (sv_end _ _ H).
  - congruence.
  - exists w1. rewrite W, map_app, <- app_assoc. auto.
  - apply Forall_app. split; [apply (sv_ok _ _ H)|]. constructor; [|constructor]. split; [exact B|]. split; [exact L|left; reflexivity].
  - pose proof (sv_off _ _ H) as F. destruct (f_buf f) as [|w r]; cbn [List.app tl] in *; [constructor|]. apply Forall_app. split; [exact F|]. constructor; [reflexivity|constructor].
  - apply (sv_ab _ _ H).
  - intros _. destruct (sv_part _ _ H C) as [P1 P2]. split.
    + intros E. destruct (P1 E) as [N Hd]. split; [exact N|]. destruct (f_buf f); [reflexivity|exact Hd].
    + intros n x E. destruct (P2 n x E) as (N & X & A & A'). split; [exact N|]. split; [exact X|]. split.
      * intros Z. specialize (A Z). destruct (f_buf f); [destruct A|exact A].
      * intros Z. specialize (A' Z). destruct (f_buf f); [reflexivity|exact A'].
Qed.
Lemma drop_shape : forall n l, map w_bytes (drop_nth n l) = map w_bytes l /\ map w_off (drop_nth n l) = map w_off l.
Proof. intros n l. revert n. induction l as [|w l IH]; intros [|n]; cbn; try (split; reflexivity). destruct (IH n) as [-> ->]. split; reflexivity. Qed.
Lemma sv_same : forall f v f', SV f v -> f_fate f' = f_fate f -> f_written f' = f_written f -> f_closed f' = f_closed f -> (f_open f' = f_open f \/ f_open f' = false) -> f_abandon f' = f_abandon f ->
  map w_bytes (f_buf f') = map w_bytes (f_buf f) -> map w_off (f_buf f') = map w_off (f_buf f) -> SV f' v.
Proof.
  intros f v f' H E1 E2 E3 E4 E5 E6 E7. destruct H as [H1 H2 H3 H4 H5 H6 H7 H8]. destruct (f_buf f') as [|w' r'] eqn:B'; destruct (f_buf f) as [|w r] eqn:B; try discriminate.
  - split; rewrite ?B', ?E1, ?E2, ?E3, ?E5; auto. intros C. destruct (H3 C) as (O & _ & A). split; [destruct E4; congruence|auto].
  - cbn [map] in E6, E7. injection E6 as E6 E6'. injection E7 as E7 E7'.
    assert (F : forall (P Q : wmsg -> Prop) l l', (forall a b, w_bytes a = w_bytes b -> w_off a = w_off b -> P a -> Q b) -> map w_bytes l = map w_bytes l' -> map w_off l = map w_off l' -> Forall P l' -> (forall a b, w_bytes a = w_bytes b -> w_off a = w_off b -> P b -> Q a) -> Forall Q l).
    { intros P Q l. induction l as [|a l IH]; intros [|b l'] X M1 M2 FP Y; try discriminate; [constructor|]. cbn [map] in M1, M2. injection M1 as M1 M1'. injection M2 as M2 M2'. inversion_clear FP. constructor; [exact (Y a b M1 M2 H)|]. apply (IH l'); assumption. }
    split; rewrite ?B', ?E1, ?E2, ?E3, ?E5; auto.
    + intros C. destruct (H3 C) as (_ & X & _). discriminate X.
    + destruct H4 as (w1 & W & WL). exists w1. split; [|exact WL]. rewrite W. cbn [map]. congruence.
    + apply (F ok_w ok_w (w' :: r') (w :: r)); try exact H5; try (cbn [map]; congruence); unfold ok_w; intros a b X Y; rewrite ?X, ?Y; auto.
    + cbn [tl] in *. apply (F (fun w => w_off w = 0) (fun w => w_off w = 0) r' r); try assumption; intros a b X Y; congruence.
    + intros C. rewrite E6, E7. exact (H8 C).
Qed.
Lemma drop_sv : forall f v n, SV f v -> SV (s_drop n f) v.
Proof. intros f v n H. destruct (drop_shape n (f_buf f)) as [B O]. apply (sv_same f v _ H); cbn; auto. Qed.
Lemma close_sv : forall f v, SV f v -> SV (s_close f) v.
Proof. intros f v H. apply (sv_same f v _ H); cbn; auto. Qed.
Lemma ack_sv : forall f v d a, SV f v -> SV (s_ack d a f) v.
Proof. intros f v d a H. apply (sv_same f v _ H); cbn; auto. Qed.

Lemma trim_step : forall f v w r, SV f v -> f_buf f = w :: r -> zlen (f_written f) < 2 ^ 64 -> SV (with_buf f r (wrap64 (f_abandon f + 1)) (f_fate f ++ [false])) v.
Proof.
  intros f v w r H B L. pose proof (sv_len _ _ H) as SL. destruct H as [H1 H2 H3 H4 H5 H6 H7 H8]. rewrite B in *.
  assert (C : f_closed f = false) by (destruct (f_closed f) eqn:C; [destruct (H3 eq_refl) as (_ & X & _); discriminate X|reflexivity]).
  destruct H4 as (w1 & W & WL). cbn [map] in W.
  assert (A : wrap64 (f_abandon f + 1) = f_abandon f + 1).
  { unfold wrap64. apply Z.mod_small. unfold zlen in *. cbn [length] in SL. lia. }
  split; cbn [with_buf f_fate f_written f_closed f_open f_buf f_abandon]; rewrite ?A.
  - rewrite W, pick_snoc by congruence. rewrite app_nil_r, <- W. exact H1.
  - exact H2.
  - congruence.
  - exists (w1 ++ [w_bytes w]). rewrite <- app_assoc, !app_length. split; [exact W|]. cbn. lia.
  - inversion H5; assumption.
  - cbn [tl] in H6. destruct r; [constructor|]. inversion H6; assumption.
  - rewrite zlen_app. change (zlen [false]) with 1. lia.
  - intros _. rewrite zlen_app. change (zlen [false]) with 1. destruct (H8 C) as [P1 P2].
    assert (Hd : match r with [] => True | w0 :: _ => w_off w0 = 0 end) by (destruct r; [exact I|]; inversion H6; assumption).
    split.
    + intros E. destruct (P1 E) as [N _]. split; [lia|exact Hd].
    + intros n x E. destruct (P2 n x E) as (N & X & _). split; [lia|]. split; [exact X|]. split; [lia|intros _; exact Hd].
Qed.
Lemma trim_sv : forall f v, SV f v -> zlen (f_written f) < 2 ^ 64 -> SV (s_trim f) v.
Proof.
  intros f v H L. unfold s_trim.
  assert (G : forall b a fate, SV (with_buf f b a fate) v -> let '(b', a', fate') := trim_loop (f_exc f) b a fate in SV (with_buf f b' a' fate') v).
  { induction b as [|w r IH]; intros a fate Hb; cbn [trim_loop]; [exact Hb|]. destruct (f_exc f || w_gone w); [|exact Hb].
    apply IH. exact (trim_step (with_buf f (w :: r) a fate) v w r Hb eq_refl L). }
  specialize (G (f_buf f) (f_abandon f) (f_fate f)). destruct (trim_loop (f_exc f) (f_buf f) (f_abandon f) (f_fate f)) as [[b' a'] fate'].
  apply G. destruct f. exact H.
Qed.
Lemma trim_fields : forall f, let g := s_trim f in f_id g = f_id f /\ f_open g = f_open f /\ f_hello g = f_hello f /\ f_closed g = f_closed f /\ f_exc g = f_exc f /\ f_sent g = f_sent f /\ f_through g = f_through f /\ f_acked g = f_acked f /\ f_avail g = f_avail f /\ f_written g = f_written f.
Proof. intros f. unfold s_trim. destruct (trim_loop _ _ _ _) as [[b a] fate]. cbn. repeat split. Qed.
Lemma exception_sv : forall f v, SV f v -> zlen (f_written f) < 2 ^ 64 -> SV (s_exception f) v.
Proof. intros f v H L. unfold s_exception. apply trim_sv; [|exact L]. apply (sv_same f v _ H); cbn; auto. Qed.

Section Enc.
Variable id : Z.
Variable ret : option Z.
Variable meta : list Z.
Definition encf (m : fm) : list Z :=
  match m with FOpen => enc_open id ret meta | FData more b => enc_data more id b | FAbandon k => enc_abandon id k | FClose => enc_close id end.
Definition size (m : fm) : Z := match m with FData _ _ => zlen (encf m) | _ => 0 end.
Definition kept (f g : sflow) : Prop := f_id g = f_id f /\ f_open g = f_open f /\ f_exc g = f_exc f /\ f_through g = f_through f /\ f_acked g = f_acked f /\ f_avail g = f_avail f /\ f_written g = f_written f.

Lemma bytes_firstn : forall n l, bytes_ok l -> bytes_ok (firstn n l).
Proof. intros n l B. rewrite <- (firstn_skipn n l) in B. apply Forall_app in B. apply B. Qed.
Lemma bytes_skipn : forall n l, bytes_ok l -> bytes_ok (skipn n l).
Proof. intros n l B. rewrite <- (firstn_skipn n l) in B. apply Forall_app in B. apply B. Qed.
Lemma firstn_join : forall (l : list Z) a b, (a <= b)%nat -> firstn a l ++ firstn (b - a) (skipn a l) = firstn b l.
Proof. intros l a b L. replace b with (a + (b - a))%nat at 2 by lia. rewrite <- (firstn_skipn a l) at 3. rewrite firstn_app.
  destruct (Nat.le_gt_cases a (length l)) as [X|X].
  - rewrite firstn_length_le by exact X. replace (a + (b - a) - a)%nat with (b - a)%nat by lia. rewrite firstn_firstn. rewrite Nat.min_r by lia. reflexivity.
  - rewrite skipn_all2 by lia. rewrite !firstn_nil, !app_nil_r. rewrite firstn_firstn, Nat.min_r by lia. reflexivity.
Qed.

Lemma fragment_sv : forall f v chunk o g, SV f v -> f_id f = id -> f_closed f = false -> f_abandon f = 0 -> zlen (f_written f) < 2 ^ 64 -> is_u64 chunk -> f_sent f < f_through f ->
  s_fragment chunk f = (o, g) ->
  kept f g /\ f_hello g = f_hello f /\
  match o with
  | None => g = f /\ (f_buf f = [] \/ chunk = 0)
  | Some m => exists t v', m = encf t /\ fok t /\ vstep (VLive v) t = VLive v' /\ SV g v' /\ f_sent g = wrap64 (f_sent f + size t) /\
      exists more b, t = FData more b /\ zlen b <= f_through f - f_sent f /\ zlen b <= chunk
  end.
Proof.
  intros f v chunk o g H ID C A L K S E. unfold s_fragment in E. destruct (f_buf f) as [|w r] eqn:B.
  { injection E as <- <-. split; [repeat split|]. auto. }
  cbv zeta in E. set (ch := Z.min 1048576 (Z.min chunk (f_through f - f_sent f))) in *.
  destruct (Z.eqb_spec ch 0) as [Z0|NZ].
  { injection E as <- <-. split; [repeat split|]. split; [reflexivity|]. split; [reflexivity|right]. unfold is_u64 in K. lia. }
  assert (CH : 1 <= ch <= 1048576) by (unfold is_u64 in K; lia).
  pose proof (sv_len _ _ H) as SL. destruct H as [H1 H2 H3 H4 H5 H6 H7 H8]. rewrite B in *. cbn [tl] in H6. inversion H5 as [|? ? OW OR]; subst. destruct OW as (OB & OL & OO).
  destruct H4 as (w1 & W & WL). cbn [map] in W. destruct (H8 C) as [P1 P2].
  assert (WR : wrap64 (w_off w + ch) = w_off w + ch) by (unfold wrap64; apply Z.mod_small; pose proof (zlen_nonneg _ (w_bytes w)); lia).
  rewrite WR in E. pose proof (zlen_nonneg _ (w_bytes w)) as NN.
  set (to := Z.min (w_off w + ch) (zlen (w_bytes w))) in *.
  assert (TO : w_off w <= to <= zlen (w_bytes w)) by lia.
  set (b := firstn (Z.to_nat (to - w_off w)) (skipn (Z.to_nat (w_off w)) (w_bytes w))) in *.
  assert (BB : bytes_ok b) by (apply bytes_firstn, bytes_skipn; exact OB).
  assert (BL : zlen b <= to - w_off w) by (unfold b, zlen; rewrite firstn_length; lia).
  (* what the receiver has of this message so far, and its number *)
  assert (X : exists nx x, (match v_part v with Some (n, x) => (n, x, v_next v) | None => (v_next v, [], v_next v + 1) end) = (zlen (f_fate f), x, nx) /\ nx = zlen (f_fate f) + 1 /\ x = firstn (Z.to_nat (w_off w)) (w_bytes w)).
  { destruct (v_part v) as [[n x]|] eqn:VP.
    - destruct (P2 n x eq_refl) as (N & X & Y & _). destruct (Y A) as (_ & ->). exists (v_next v), (firstn (Z.to_nat (w_off w)) (w_bytes w)). rewrite N, A, Z.sub_0_r. split; [reflexivity|]. split; [lia|reflexivity].
    - destruct (P1 eq_refl) as (N & O0). exists (v_next v + 1), []. rewrite N, A, Z.sub_0_r. split; [reflexivity|]. split; [reflexivity|]. rewrite O0. reflexivity. }
  destruct X as (nx & x & XE & NX & XX).
  assert (XB : x ++ b = firstn (Z.to_nat to) (w_bytes w)).
  { rewrite XX. unfold b. replace (Z.to_nat (to - w_off w)) with (Z.to_nat to - Z.to_nat (w_off w))%nat by lia. apply firstn_join. lia. }
  destruct (Z.eqb_spec to (zlen (w_bytes w))) as [EL|NL]; cbn [negb] in E; injection E as <- <-.
  - split; [repeat split|]. split; [reflexivity|]. exists (FData false b), (mkV (v_full v ++ [(zlen (f_fate f), w_bytes w)]) None nx (v_end v)).
    split; [cbn [encf]; rewrite ID; reflexivity|]. split; [exact BB|]. split; [|split; [|split; [unfold size, encf; cbn [f_sent]; rewrite ID; reflexivity|exists false, b; split; [reflexivity|]; unfold is_u64 in K; lia]]].
    + cbn [vstep]. rewrite H2, C. unfold vdata. rewrite XE. rewrite XB, EL, H2, C. unfold zlen. rewrite Nat2Z.id, firstn_all. reflexivity.
    + split; cbn [v_full v_part v_next v_end f_fate f_written f_closed f_open f_buf f_abandon].
      * rewrite W, pick_snoc by congruence. rewrite <- W, <- H1. reflexivity.
      * rewrite H2, C. auto.
      * congruence.
      * exists (w1 ++ [w_bytes w]). rewrite <- app_assoc, !app_length. split; [exact W|]. cbn. lia.
      * exact OR.
      * destruct r; [constructor|]. inversion H6; assumption.
      * rewrite A. pose proof (zlen_nonneg _ (f_fate f ++ [true])). lia.
      * intros _. split; [|discriminate]. intros _. rewrite A, zlen_app. change (zlen [true]) with 1. split; [lia|]. destruct r; [exact I|]. inversion H6; assumption.
  - split; [repeat split|]. split; [reflexivity|]. exists (FData true b), (mkV (v_full v) (Some (zlen (f_fate f), firstn (Z.to_nat to) (w_bytes w))) nx (v_end v)).
    split; [cbn [encf]; rewrite ID; reflexivity|]. split; [exact BB|]. split; [|split; [|split; [unfold size, encf; cbn [f_sent]; rewrite ID; reflexivity|exists true, b; split; [reflexivity|]; unfold is_u64 in K; lia]]].
    + cbn [vstep]. rewrite H2, C. unfold vdata. rewrite XE, XB, H2, C. reflexivity.
    + split; cbn [v_full v_part v_next v_end f_fate f_written f_closed f_open f_buf f_abandon].
      * exact H1.
      * rewrite H2, C. auto.
      * congruence.
      * exists w1. split; [exact W|exact WL].
      * constructor; [|exact OR]. split; [exact OB|]. split; [exact OL|]. right. cbn [w_off w_bytes]. lia.
      * exact H6.
      * lia.
      * intros _. split; [discriminate|]. intros n y Y. injection Y as <- <-. split; [lia|]. split; [exact NX|]. split; [intros _; cbn [w_off w_bytes]; split; [lia|reflexivity]|lia].
Qed.

Definition moved (f g : sflow) (t : fm) : Prop := kept f g /\ f_sent g = wrap64 (f_sent f + size t).
Lemma transmit_sv : forall f v chunk o g, SV f v -> f_id f = id -> f_hello f = None -> zlen (f_written f) < 2 ^ 64 -> is_u64 chunk -> is_u64 (f_sent f) ->
  s_transmit chunk f = (o, g) ->
  f_hello g = None /\ kept f g /\
  match o with
  | None => SV g v /\ f_sent g = f_sent f
  | Some m => exists t v', m = encf t /\ fok t /\ vstep (VLive v) t = VLive v' /\ SV g v' /\ f_sent g = wrap64 (f_sent f + size t)
  end.
Proof.
  intros f v chunk o g H ID HE L K U E. unfold s_transmit in E. rewrite HE in E. cbv zeta in E.
  assert (US : wrap64 (f_sent f + 0) = f_sent f) by (unfold wrap64, is_u64, U64MAX in *; rewrite Z.add_0_r; apply Z.mod_small; lia).
  pose proof (trim_sv f v H L) as T. destruct (trim_fields f) as (F1 & F2 & F3 & F4 & F5 & F6 & F7 & F8 & F9 & F10). cbv zeta in *. set (h := s_trim f) in *.
  destruct (Z.gtb_spec (f_abandon h) 0) as [A|A].
  { injection E as <- <-. split; [cbn; congruence|]. split; [repeat split; cbn; assumption|].
    pose proof (sv_len _ _ T) as SL. pose proof (zlen_nonneg _ (f_buf h)). pose proof (sv_ab _ _ T) as AB. rewrite F10 in SL.
    assert (C : f_closed h = false) by (destruct (f_closed h) eqn:C; [destruct (sv_closed _ _ T C) as (_ & _ & X); lia|reflexivity]).
    exists (FAbandon (f_abandon h)), (vabandon (f_abandon h) v). split; [cbn [encf]; rewrite F1, ID; reflexivity|]. split; [cbn; lia|]. split; [cbn [vstep]; rewrite (sv_end _ _ T), C; reflexivity|].
    split; [|cbn [with_buf f_sent size]; rewrite US; exact F6].
    destruct (sv_part _ _ T C) as [P1 P2].
    destruct T as [T1 T2 T3 T4 T5 T6 T7 T8]. split; cbn [with_buf vabandon v_full v_part v_next v_end f_fate f_written f_closed f_open f_buf f_abandon]; auto; try lia; try congruence.
    intros _. split; [|discriminate]. intros _. destruct (v_part v) as [[n x]|].
    - destruct (P2 n x eq_refl) as (N & X & _ & Y). split; [lia|exact (Y A)].
    - destruct (P1 eq_refl) as (N & Y). split; [lia|exact Y]. }
  assert (A0 : f_abandon h = 0) by (pose proof (sv_ab _ _ T); lia).
  destruct (negb (f_open h) && match f_buf h with [] => true | _ :: _ => false end && negb (f_closed h)) eqn:CL.
  { injection E as <- <-. apply andb_prop in CL. destruct CL as [CL C]. apply andb_prop in CL. destruct CL as [O B]. apply negb_true_iff in C, O. destruct (f_buf h) eqn:FB; [|discriminate B].
    split; [reflexivity|]. split; [repeat split; cbn; congruence|]. exists FClose, (vclose v). split; [cbn [encf]; rewrite F1, ID; reflexivity|]. split; [exact I|]. split; [cbn [vstep]; rewrite (sv_end _ _ T), C; reflexivity|].
    split; [|cbn [with_buf f_sent size]; rewrite US; exact F6].
    destruct T as [T1 T2 T3 T4 T5 T6 T7 T8]. rewrite FB in *. split; cbn [vclose vabandon v_full v_part v_next v_end f_fate f_written f_closed f_open f_buf f_abandon]; auto. discriminate. }
  destruct (Z.geb_spec (f_sent h) (f_through h)) as [S|S].
  { injection E as <- <-. split; [congruence|]. split; [repeat split; congruence|]. split; [exact T|congruence]. }
  assert (C : f_closed h = false \/ f_buf h = []) by (destruct (f_closed h) eqn:C; [right; destruct (sv_closed _ _ T C) as (_ & X & _); exact X|left; reflexivity]).
  destruct C as [C|C].
  - destruct (fragment_sv h v chunk o g T ltac:(congruence) C A0 ltac:(congruence) K S E) as ((K1 & K2 & K3 & K4 & K5 & K6 & K7) & G1 & G2).
    split; [congruence|]. split; [repeat split; congruence|]. destruct o as [m|].
    + destruct G2 as (t & v' & M & F & V & SVg & SN & _). exists t, v'. rewrite SN, F6. auto 6.
    + destruct G2 as [-> _]. split; [exact T|congruence].
  - unfold s_fragment in E. rewrite C in E. injection E as <- <-. split; [congruence|]. split; [repeat split; congruence|]. split; [exact T|congruence].
Qed.
End Enc.
