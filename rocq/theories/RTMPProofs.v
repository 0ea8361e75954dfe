From Verif Require Import Base BaseFacts TC RTMP RTMPSpec.
Ltac Zify.zify_post_hook ::= Z.div_mod_to_equations.
Open Scope Z_scope.

Lemma Ok_inj : forall (A : Type) (a b : A), Ok a = Ok b -> a = b.
Proof. intros A a b E. injection E. auto. Qed.
(** ** Reading *)
Lemma rd_in : forall l i, bytes_ok l -> (i < length l)%nat -> exists b, rd l i = Ok b /\ is_byte b.
Proof.
  intros l i B L. unfold rd. destruct (nth_error l i) as [b|] eqn:E; [|apply nth_error_None in E; lia]. exists b. split; [reflexivity|]. eapply Forall_forall in B; [exact B|]. eapply nth_error_In; eauto.
Qed.
Lemma rd_app : forall l c i b, rd l i = Ok b -> rd (l ++ c) i = Ok b.
Proof. intros l c i b E. unfold rd in *. destruct (nth_error l i) as [x|] eqn:F; [|discriminate]. rewrite nth_error_app1 by (apply nth_error_Some; congruence). rewrite F. exact E. Qed.
Lemma u24_value : forall a b c, is_byte a -> is_byte b -> is_byte c -> wrap32 (wrap32 (Z.shiftl (wrap32 (wrap32 (Z.shiftl a 8) + b)) 8) + c) = 65536 * a + 256 * b + c.
Proof. intros a b c A B C. unfold is_byte in *. rewrite !shiftl_8. unfold wrap32. rewrite (Z.mod_small (a * 256)), (Z.mod_small (a * 256 + b)), (Z.mod_small ((a * 256 + b) * 256)) by lia. rewrite Z.mod_small by lia. lia. Qed.
Lemma rd24_in : forall l i, bytes_ok l -> (i + 2 < length l)%nat -> exists v, rd24 l i = Ok v /\ 0 <= v < 16777216.
Proof.
  intros l i B L. unfold rd24. destruct (rd_in l i B) as (a & -> & A); [lia|]. destruct (rd_in l (i + 1) B) as (b & -> & Bb); [lia|]. destruct (rd_in l (i + 2) B) as (c & -> & C); [lia|]. cbn [rbind].
  rewrite u24_value by assumption. eexists. split; [reflexivity|]. unfold is_byte in *. lia.
Qed.
Lemma u32_value : forall v d, 0 <= v < 16777216 -> is_byte d -> wrap32 (wrap32 (Z.shiftl v 8) + d) = 256 * v + d.
Proof. intros v d V D. unfold is_byte in *. rewrite shiftl_8. unfold wrap32. rewrite (Z.mod_small (v * 256)) by lia. rewrite Z.mod_small by lia. lia. Qed.
Lemma rd32_in : forall l i, bytes_ok l -> (i + 3 < length l)%nat -> exists v, rd32 l i = Ok v /\ is_u32 v.
Proof.
  intros l i B L. unfold rd32. destruct (rd24_in l i B) as (a & -> & A); [lia|]. destruct (rd_in l (i + 3) B) as (d & -> & D); [lia|]. cbn [rbind]. rewrite u32_value by assumption. eexists. split; [reflexivity|]. unfold is_byte, is_u32, U32MAX in *. lia.
Qed.
Lemma rd24_app : forall l c i v, rd24 l i = Ok v -> rd24 (l ++ c) i = Ok v.
Proof.
  intros l c i v E. unfold rd24 in *. destruct (rd l i) as [a| |] eqn:A; try discriminate. rewrite (rd_app _ c _ _ A). cbn [rbind] in *. destruct (rd l (i + 1)) as [b| |] eqn:B; try discriminate. rewrite (rd_app _ c _ _ B). cbn [rbind] in *.
  destruct (rd l (i + 2)) as [d| |] eqn:D; try discriminate. rewrite (rd_app _ c _ _ D). exact E.
Qed.
Lemma rd32_app : forall l c i v, rd32 l i = Ok v -> rd32 (l ++ c) i = Ok v.
Proof.
  intros l c i v E. unfold rd32 in *. destruct (rd24 l i) as [a| |] eqn:A; try discriminate. rewrite (rd24_app _ c _ _ A). cbn [rbind] in *. destruct (rd l (i + 3)) as [b| |] eqn:B; try discriminate. rewrite (rd_app _ c _ _ B). exact E.
Qed.
Lemma bytes_of : forall v, is_u32 v -> exists a b c d, is_byte a /\ is_byte b /\ is_byte c /\ is_byte d /\ v = 16777216 * a + 65536 * b + 256 * c + d /\ u32 v = [a; b; c; d] /\ u32le v = [d; c; b; a] /\ u24 v = [b; c; d].
Proof.
  intros v U. unfold is_u32, U32MAX in U. exists (Z.land (Z.shiftr v 24) 255), (Z.land (Z.shiftr v 16) 255), (Z.land (Z.shiftr v 8) 255), (Z.land v 255).
  rewrite !land_255, !Z.shiftr_div_pow2 by lia. change (2 ^ 24) with 16777216. change (2 ^ 16) with 65536. change (2 ^ 8) with 256. unfold is_byte.
  split; [lia|]. split; [lia|]. split; [lia|]. split; [lia|]. split; [lia|]. unfold u32, u32le, u24. rewrite !land_255, !Z.shiftr_div_pow2 by lia. repeat split.
Qed.
Lemma rd32_cons : forall v rest, is_u32 v -> rd32 (u32 v ++ rest) 0 = Ok v.
Proof.
  intros v rest U. destruct (bytes_of v U) as (a & b & c & d & A & B & C & D & E & -> & _). unfold rd32, rd24. cbn [app rd nth_error rbind Nat.add]. rewrite (u24_value a b c) by assumption. rewrite u32_value by (unfold is_byte in *; lia). f_equal. lia.
Qed.

(** ** The receiver is safe *)
Definition chunk_ok (c : rchunk) : Prop :=
  is_u32 (c_ts c) /\ is_u32 (c_delta c) /\ 0 <= c_len c < 16777216 /\ bytes_ok (c_data c) /\ zlen (c_data c) <= c_len c.
Record recv_ok (r : receiver) : Prop := mkRO {
  ro_size : 1 <= r_size r <= 2147483647;
  ro_chunk : forall cid, chunk_ok (rget r cid) }.
Lemma rc0_ok : chunk_ok rc0.
Proof. repeat split; try (unfold U32MAX; cbn; lia). constructor. Qed.
Lemma rget_put : forall r cid c i, rget (rput r cid c) i = if i =? cid then c else rget r i.
Proof. reflexivity. Qed.
Lemma recv_put : forall r cid c, recv_ok r -> chunk_ok c -> recv_ok (rput r cid c).
Proof. intros r cid c [A B] C. constructor; [exact A|]. intros i. rewrite rget_put. destruct (i =? cid); auto. Qed.
Lemma cut_ok : forall c, chunk_ok c -> chunk_ok (with_data c []).
Proof. intros c (A & B & C & D & E). repeat split; cbn; try apply A; try apply B; try lia. constructor. Qed.
Lemma wrap32_ok : forall x, is_u32 (wrap32 x).
Proof. intros. unfold is_u32, U32MAX, wrap32. lia. Qed.
Definition grows (r r1 : receiver) : Prop := exists l, r_msgs r1 = r_msgs r ++ l.
Lemma grows_refl : forall r, grows r r.
Proof. intros. exists []. rewrite app_nil_r. reflexivity. Qed.
Lemma grows_same : forall r r1, r_msgs r1 = r_msgs r -> grows r r1.
Proof. intros r r1 E. exists []. rewrite app_nil_r. exact E. Qed.
Lemma grows_trans : forall a b c, grows a b -> grows b c -> grows a c.
Proof. intros a b c (l & L) (k & K). exists (l ++ k). rewrite K, L, app_assoc. reflexivity. Qed.
Lemma completed_ok : forall m r, recv_ok r -> bytes_ok (g_data m) -> exists o, completed m r = Ok o /\ match o with None => True | Some r1 => recv_ok r1 /\ r_dead r1 = r_dead r /\ r_buf r1 = r_buf r /\ grows r r1 end.
Proof.
  intros m r I B. unfold completed. destruct (reserved _).
  - destruct (negb _); [exists None; auto|]. destruct (Z.ltb_spec (zlen (g_data m)) 4) as [L|L]; [exists None; auto|]. unfold zlen in L. destruct (rd32_in (g_data m) 0 B) as (v & -> & V); [lia|]. cbn [rbind].
    destruct (_ =? 1).
    + destruct (Z.eqb_spec v 0); cbn [orb]; [exists None; auto|]. destruct (Z.gtb_spec v 2147483647); [exists None; auto|]. eexists. split; [reflexivity|]. split; [|repeat split; apply grows_same; reflexivity]. destruct I as [A C]. constructor; [cbn; unfold is_u32 in V; lia|exact C].
    + destruct (_ =? 2).
      * destruct (_ || _); [exists None; auto|]. destruct (negb _); [exists None; auto|]. eexists. split; [reflexivity|]. split; [apply recv_put; auto; apply cut_ok, I|repeat split; apply grows_same; reflexivity].
      * destruct (_ =? 6); [|eexists; split; [reflexivity|]; split; [exact I|repeat split; apply grows_same; reflexivity]]. destruct (_ <? 5); [exists None; auto|eexists; split; [reflexivity|]; split; [exact I|repeat split; apply grows_same; reflexivity]].
  - eexists. split; [reflexivity|]. split; [destruct I; constructor; auto|]. repeat split. exists [m]. reflexivity.
Qed.
Lemma done_ok : forall r cid c need, recv_ok r -> chunk_ok c -> exists i, chunk_done r cid c need = Ok i /\ match i with Took r1 n => n = need /\ recv_ok r1 /\ r_dead r1 = r_dead r /\ grows r r1 | Wait => False | Bad => True end.
Proof.
  intros r cid c need I C. unfold chunk_done. destruct C as (C1 & C2 & C3 & C4 & C5). destruct (Z.gtb_spec (zlen (c_data c)) (c_len c)) as [X|_]; [lia|]. cbv zeta.
  assert (Ip : recv_ok (rput r cid c)) by (apply recv_put; [exact I|]; exact (conj C1 (conj C2 (conj C3 (conj C4 C5))))).
  destruct (_ =? _); [|eexists; split; [reflexivity|]; split; [reflexivity|]; split; [exact Ip|]; split; [reflexivity|apply grows_same; reflexivity]].
  destruct (completed_ok (mkMsg (c_sid c) (c_type c) (c_ts c) (c_data c)) (rput r cid c) Ip C4) as (o & -> & H). cbn [rbind]. destruct o as [r2|]; [|exists Bad; auto].
  destruct H as (H1 & H2 & H3 & H4). eexists. split; [reflexivity|]. split; [reflexivity|]. split; [apply recv_put; auto; apply cut_ok, H1|]. split; [cbn; rewrite H2; reflexivity|]. exact H4.
Qed.
Lemma land_ct : forall b, is_byte b -> Z.land b 192 = 0 \/ Z.land b 192 = 64 \/ Z.land b 192 = 128 \/ Z.land b 192 = 192.
Proof.
  intros b B. assert (H : (Z.land b 192 =? 0) || (Z.land b 192 =? 64) || (Z.land b 192 =? 128) || (Z.land b 192 =? 192) = true); [|lia].
  apply (byte_sweep (fun b => (Z.land b 192 =? 0) || (Z.land b 192 =? 64) || (Z.land b 192 =? 128) || (Z.land b 192 =? 192))); [vm_compute; reflexivity|exact B].
Qed.
Lemma land_low : forall b, is_byte b -> 0 <= Z.land b 63 < 64.
Proof. intros b B. change 63 with (Z.ones 6). rewrite Z.land_ones by lia. change (2 ^ 6) with 64. lia. Qed.
Lemma skipn_bytes : forall n p l, bytes_ok l -> bytes_ok (firstn n (skipn p l)).
Proof. intros. apply bytes_ok_firstn, bytes_ok_skipn. assumption. Qed.
Lemma firstn_zlen : forall (A : Type) (l : list A) n p, 0 <= n -> Z.of_nat p + n <= zlen l -> zlen (firstn (Z.to_nat n) (skipn p l)) = n.
Proof. intros A l n p N L. unfold zlen in *. rewrite firstn_length, skipn_length. lia. Qed.
Lemma input_ok : forall r buf, recv_ok r -> bytes_ok buf -> buf <> [] ->
  exists i, on_open_input r buf = Ok i /\ match i with Took r1 n => 1 <= n <= zlen buf /\ recv_ok r1 /\ r_dead r1 = r_dead r /\ grows r r1 | _ => True end.
Proof.
  intros r buf I B NE. unfold on_open_input. assert (LB : (0 < length buf)%nat) by (destruct buf; [congruence|cbn; lia]). destruct (rd_in buf 0 B LB) as (b0 & -> & B0). cbn [rbind]. cbv zeta.
  pose proof (land_ct b0 B0) as CT. pose proof (land_low b0 B0) as LOW. remember (Z.land b0 192) as ct eqn:Ect. remember (Z.land b0 63) as low eqn:El. clear Ect El b0 B0.
  remember (if low <? 2 then if low =? 1 then 2%nat else 1%nat else 0%nat) as idl eqn:Eidl.
  assert (Hidl : (idl <= 2)%nat /\ (low = 0 -> (1 <= idl)%nat) /\ (low = 1 -> (2 <= idl)%nat)) by (subst idl; destruct (Z.ltb_spec low 2); [destruct (Z.eqb_spec low 1); lia|lia]). destruct Hidl as (Hi0 & Hi1 & Hi2). clear Eidl.
  remember (1 + Z.of_nat idl + (if ct =? 0 then 11 else if ct =? 64 then 7 else if ct =? 128 then 3 else 0)) as hdr eqn:Eh.
  destruct (Z.ltb_spec (zlen buf) hdr) as [L|L]; [exists Wait; auto|].
  assert (L' : (1 + idl <= length buf)%nat) by (unfold zlen in L; destruct CT as [-> | [-> | [-> | ->]]]; cbn [Z.eqb Pos.eqb] in Eh; lia).
  assert (exists cid, (if low =? 0 then rbind (rd buf 1) (fun b => Ok (b + 64)) else if low =? 1 then rbind (rd buf 1) (fun b => rbind (rd buf 2) (fun b2 => Ok (b + Z.shiftl b2 8 + 64))) else Ok low) = Ok cid) as (cid & ->).
  { destruct (Z.eqb_spec low 0) as [E|]; [destruct (rd_in buf 1 B) as (x & -> & _); [lia|]; eexists; reflexivity|]. destruct (Z.eqb_spec low 1) as [E|]; [|eexists; reflexivity].
    destruct (rd_in buf 1 B) as (x & -> & _); [lia|]. destruct (rd_in buf 2 B) as (y & -> & _); [lia|]. eexists; reflexivity. }
  cbn [rbind]. pose proof (ro_chunk _ I cid) as C. pose proof (ro_size _ I) as SZ. remember (rget r cid) as c eqn:Ec. destruct C as (C1 & C2 & C3 & C4 & C5). clear Ec.
  destruct (negb (c_init c) && negb (ct =? 0)); [exists Bad; auto|].
  pose proof (zlen_nonneg _ (c_data c)) as NN. unfold is_u32, U32MAX in C2.
  assert (W : wrap64 (c_len c - zlen (c_data c)) = c_len c - zlen (c_data c)) by (unfold wrap64; apply Z.mod_small; lia).
  assert (FIN : forall p ts sid len ty n need, is_u32 ts -> 0 <= len < 16777216 -> 0 <= n -> n <= (if ct =? 192 then c_len c - zlen (c_data c) else if ct =? 128 then c_len c else len) -> Z.of_nat p + n = need -> need <= zlen buf -> 1 <= need ->
    exists i, (if (zlen buf <? Z.of_nat p + n) || negb (Z.of_nat p + n =? need) then UB else chunk_done r cid (with_data (update ct c sid ts len ty) (c_data (update ct c sid ts len ty) ++ firstn (Z.to_nat n) (skipn p buf))) need) = Ok i /\ match i with Took r1 n => 1 <= n <= zlen buf /\ recv_ok r1 /\ r_dead r1 = r_dead r /\ grows r r1 | _ => True end).
  { intros p ts sid len ty n need Ts Hl Hn Hm Hp Hz H1. destruct (Z.ltb_spec (zlen buf) (Z.of_nat p + n)); [lia|]. destruct (Z.eqb_spec (Z.of_nat p + n) need); [|lia]. cbn [orb negb].
    assert (K : chunk_ok (with_data (update ct c sid ts len ty) (c_data (update ct c sid ts len ty) ++ firstn (Z.to_nat n) (skipn p buf)))).
    { assert (Z1 : zlen (firstn (Z.to_nat n) (skipn p buf)) = n) by (apply firstn_zlen; lia). pose proof (skipn_bytes (Z.to_nat n) p buf B) as Bp.
      unfold chunk_ok, with_data. destruct CT as [-> | [-> | [-> | ->]]]; cbn [update Z.eqb Pos.eqb c_ts c_delta c_len c_data app] in *.
      - rewrite Z1. repeat split; auto; try apply Ts; lia.
      - rewrite Z1. repeat split; auto; try apply Ts; try apply wrap32_ok; lia.
      - rewrite Z1. repeat split; auto; try apply Ts; try apply wrap32_ok; lia.
      - rewrite zlen_app, Z1. split; [destruct (_ =? 0); [apply wrap32_ok|exact C1]|]. split; [exact Ts|]. split; [exact C3|]. split; [apply bytes_ok_app; auto|]. lia. }
    destruct (done_ok r cid _ need I K) as (i & -> & Hd). exists i. split; [reflexivity|]. destruct i; auto. destruct Hd as (-> & H2 & H3 & H4). repeat split; auto; try lia; apply H2. }
  unfold zlen in L. destruct CT as [E | [E | [E | E]]]; rewrite E in *; cbn [Z.ltb Z.compare Pos.compare Pos.compare_cont Z.eqb Pos.eqb] in *.
  - destruct (rd24_in buf (1 + idl) B) as (ts & -> & Ts); [lia|]. cbn [rbind]. destruct (rd24_in buf (4 + idl) B) as (len & -> & Len); [lia|]. cbn [rbind]. destruct (rd_in buf (4 + idl + 3) B) as (ty & -> & Ty); [lia|]. cbn [rbind].
    destruct (Z.ltb_spec (zlen buf) (hdr + Z.min (r_size r) len)) as [|L2]; [exists Wait; auto|].
    destruct (rd_in buf (4 + idl + 4) B) as (s1 & -> & _); [lia|]. destruct (rd_in buf (4 + idl + 4 + 1) B) as (s2 & -> & _); [lia|]. destruct (rd_in buf (4 + idl + 4 + 2) B) as (s3 & -> & _); [lia|]. destruct (rd_in buf (4 + idl + 4 + 3) B) as (s4 & -> & _); [lia|]. cbn [rbind].
    destruct (Z.geb_spec ts 16777215) as [G|G]; cbn [andb].
    + destruct (Z.ltb_spec (zlen buf) (hdr + Z.min (r_size r) len + 4)) as [|L3]; [exists Wait; auto|]. unfold zlen in L3. destruct (rd32_in buf (4 + idl + 4 + 4) B) as (t & -> & T); [lia|]. cbn [rbind]. apply FIN; auto; unfold zlen; lia.
    + cbn [rbind]. unfold zlen in L2. apply FIN; auto; try (unfold zlen; lia). unfold is_u32, U32MAX. lia.
  - destruct (rd24_in buf (1 + idl) B) as (ts & -> & Ts); [lia|]. cbn [rbind]. destruct (rd24_in buf (4 + idl) B) as (len & -> & Len); [lia|]. cbn [rbind]. destruct (rd_in buf (4 + idl + 3) B) as (ty & -> & Ty); [lia|]. cbn [rbind].
    destruct (Z.ltb_spec (zlen buf) (hdr + Z.min (r_size r) len)) as [|L2]; [exists Wait; auto|]. cbn [rbind].
    destruct (Z.geb_spec ts 16777215) as [G|G]; cbn [andb].
    + destruct (Z.ltb_spec (zlen buf) (hdr + Z.min (r_size r) len + 4)) as [|L3]; [exists Wait; auto|]. unfold zlen in L3. destruct (rd32_in buf (4 + idl + 4) B) as (t & -> & T); [lia|]. cbn [rbind]. apply FIN; auto; unfold zlen; lia.
    + cbn [rbind]. unfold zlen in L2. apply FIN; auto; try (unfold zlen; lia). unfold is_u32, U32MAX. lia.
  - destruct (rd24_in buf (1 + idl) B) as (ts & -> & Ts); [lia|]. cbn [rbind].
    destruct (Z.ltb_spec (zlen buf) (hdr + Z.min (r_size r) (c_len c))) as [|L2]; [exists Wait; auto|]. cbn [rbind].
    destruct (Z.geb_spec ts 16777215) as [G|G]; cbn [andb].
    + destruct (Z.ltb_spec (zlen buf) (hdr + Z.min (r_size r) (c_len c) + 4)) as [|L3]; [exists Wait; auto|]. unfold zlen in L3. destruct (rd32_in buf (4 + idl) B) as (t & -> & T); [lia|]. cbn [rbind]. apply FIN; auto; unfold zlen; lia.
    + cbn [rbind]. unfold zlen in L2. apply FIN; auto; try (unfold zlen; lia). unfold is_u32, U32MAX. lia.
  - cbn [rbind]. rewrite W. destruct (Z.ltb_spec (zlen buf) (hdr + Z.min (r_size r) (c_len c - zlen (c_data c)))) as [|L2]; [exists Wait; auto|]. cbn [rbind].
    destruct (Z.geb_spec (c_delta c) 16777215) as [G|G]; cbn [andb].
    + destruct (Z.ltb_spec (zlen buf) (hdr + Z.min (r_size r) (c_len c - zlen (c_data c)) + 4)) as [|L3]; [exists Wait; auto|]. unfold zlen in L3. destruct (rd32_in buf (1 + idl) B) as (t & -> & T); [unfold zlen in *; lia|]. cbn [rbind]. apply FIN; auto; unfold zlen in *; lia.
    + cbn [rbind]. unfold zlen in L2. apply FIN; auto; try (unfold zlen in *; lia). 
Qed.
(** what is decided is not changed by what follows *)
Lemma firstn_skipn_app : forall (A : Type) (l k : list A) n p, 0 <= n -> Z.of_nat p + n <= zlen l -> firstn (Z.to_nat n) (skipn p (l ++ k)) = firstn (Z.to_nat n) (skipn p l).
Proof.
  intros A l k n p N L. unfold zlen in L. rewrite skipn_app. rewrite firstn_app. rewrite skipn_length. replace (Z.to_nat n - (length l - p))%nat with 0%nat by lia. cbn. rewrite app_nil_r. reflexivity.
Qed.
Ltac grow H :=
  repeat match type of H with
  | rbind (rd ?l ?i) _ = Ok _ => let E := fresh "E" in destruct (rd l i) eqn:E; try discriminate H; rewrite (rd_app _ _ _ _ E); cbn [rbind] in H |- *
  | rbind (rd24 ?l ?i) _ = Ok _ => let E := fresh "E" in destruct (rd24 l i) eqn:E; try discriminate H; rewrite (rd24_app _ _ _ _ E); cbn [rbind] in H |- *
  | rbind (rd32 ?l ?i) _ = Ok _ => let E := fresh "E" in destruct (rd32 l i) eqn:E; try discriminate H; rewrite (rd32_app _ _ _ _ E); cbn [rbind] in H |- *
  end.
Lemma input_mono : forall r buf k i, recv_ok r -> on_open_input r buf = Ok i -> i <> Wait -> on_open_input r (buf ++ k) = Ok i.
Proof.
  intros r buf k i I H NW. unfold on_open_input in *. destruct (rd buf 0) as [b0| |] eqn:E0; try discriminate H. rewrite (rd_app _ k _ _ E0). cbn [rbind] in *. cbv zeta in *.
  remember (Z.land b0 192) as ct eqn:Ect. remember (Z.land b0 63) as low eqn:El. clear Ect El E0 b0. remember (if low <? 2 then if low =? 1 then 2%nat else 1%nat else 0%nat) as idl eqn:Eidl. clear Eidl.
  remember (1 + Z.of_nat idl + (if ct =? 0 then 11 else if ct =? 64 then 7 else if ct =? 128 then 3 else 0)) as hdr eqn:Eh. clear Eh.
  pose proof (zlen_nonneg _ k) as K. assert (LT : forall x, (zlen buf <? x) = false -> (zlen (buf ++ k) <? x) = false) by (intros x X; rewrite zlen_app; apply Z.ltb_ge in X; apply Z.ltb_ge; lia).
  destruct (zlen buf <? hdr) eqn:L1; [apply Ok_inj in H; congruence|]. rewrite (LT _ L1).
  match type of H with rbind ?e _ = _ => destruct e as [cid| |] eqn:Ecid; try discriminate H end.
  assert (Ecid' : (if low =? 0 then rbind (rd (buf ++ k) 1) (fun b => Ok (b + 64)) else if low =? 1 then rbind (rd (buf ++ k) 1) (fun b => rbind (rd (buf ++ k) 2) (fun b2 => Ok (b + Z.shiftl b2 8 + 64))) else Ok low) = Ok cid) by (destruct (low =? 0); [grow Ecid; exact Ecid|]; destruct (low =? 1); [grow Ecid; exact Ecid|exact Ecid]).
  rewrite Ecid'. clear Ecid Ecid'. cbn [rbind] in *. pose proof (ro_chunk _ I cid) as C. pose proof (ro_size _ I) as SZ. remember (rget r cid) as c eqn:Ec. clear Ec. destruct C as (_ & _ & C3 & _ & _).
  destruct (negb (c_init c) && negb (ct =? 0)); [exact H|].
  match type of H with rbind ?e _ = _ => destruct e as [(ts & p)| |] eqn:Ets; try discriminate H end.
  match goal with |- rbind ?e _ = _ => assert (Ets' : e = Ok (ts, p)) by (destruct (ct <? 192); [grow Ets; exact Ets|exact Ets]); rewrite Ets'; clear Ets' Ets end. cbn [rbind] in *.
  match type of H with rbind ?e _ = _ => destruct e as [((len & ty) & p1)| |] eqn:Ets; try discriminate H end.
  assert (LN : 0 <= len). { destruct (ct <? 128); [|injection Ets as <- <- <-; lia]. unfold rd24 in Ets. destruct (rd buf p), (rd buf (p + 1)), (rd buf (p + 2)); try discriminate Ets. cbn [rbind] in Ets. destruct (rd buf (p + 3)); try discriminate Ets. cbn [rbind] in Ets. apply Ok_inj in Ets. inversion Ets. apply wrap32_ok. }
  match goal with |- rbind ?e _ = _ => assert (Ets' : e = Ok (len, ty, p1)) by (destruct (ct <? 128); [grow Ets; exact Ets|exact Ets]); rewrite Ets'; clear Ets' Ets end. cbn [rbind] in *.
  remember (Z.min (r_size r) (if ct =? 192 then wrap64 (len - zlen (c_data c)) else len)) as n eqn:En. assert (NN : 0 <= n) by (subst n; destruct (ct =? 192); [unfold wrap64|]; lia). clear En.
  destruct (zlen buf <? hdr + n) eqn:L2; [apply Ok_inj in H; congruence|]. rewrite (LT _ L2).
  match type of H with rbind ?e _ = _ => destruct e as [(sid & p2)| |] eqn:Ets; try discriminate H end.
  match goal with |- rbind ?e _ = _ => assert (Ets' : e = Ok (sid, p2)) by (destruct (ct <? 64); [grow Ets; exact Ets|exact Ets]); rewrite Ets'; clear Ets' Ets end. cbn [rbind] in *.
  remember (if ts >=? 16777215 then hdr + n + 4 else hdr + n) as need eqn:Ene. clear Ene.
  destruct ((ts >=? 16777215) && (zlen buf <? need)) eqn:L3; [apply Ok_inj in H; congruence|]. assert (L3' : (ts >=? 16777215) && (zlen (buf ++ k) <? need) = false) by (destruct (ts >=? 16777215); [cbn [andb] in *; apply LT, L3|reflexivity]). rewrite L3'. clear L3 L3'.
  match type of H with rbind ?e _ = _ => destruct e as [(ts2 & p3)| |] eqn:Ets; try discriminate H end.
  match goal with |- rbind ?e _ = _ => assert (Ets' : e = Ok (ts2, p3)) by (destruct (ts >=? 16777215); [grow Ets; exact Ets|exact Ets]); rewrite Ets'; clear Ets' Ets end. cbn [rbind] in *.
  destruct ((zlen buf <? Z.of_nat p3 + n) || negb (Z.of_nat p3 + n =? need)) eqn:L4; [discriminate H|]. apply orb_false_elim in L4 as (L4 & L5). rewrite (LT _ L4), L5. cbn [orb].
  rewrite firstn_skipn_app; [exact H|exact NN|]. apply Z.ltb_ge in L4. exact L4.
Qed.

(** ** Segments *)
Lemma input_buf : forall r b buf, on_open_input (with_buf r b) buf = match on_open_input r buf with Ok (Took r1 n) => Ok (Took (with_buf r1 b) n) | x => x end.
Proof.
  intros r b buf. unfold on_open_input. destruct (rd buf 0) as [b0| |]; try reflexivity. cbn [rbind]. cbv zeta. destruct (zlen buf <? _); [reflexivity|].
  match goal with |- rbind ?e _ = _ => destruct e as [cid| |]; try reflexivity end. cbn [rbind]. change (rget (with_buf r b) cid) with (rget r cid). destruct (negb (c_init (rget r cid)) && _); [reflexivity|].
  match goal with |- rbind ?e _ = _ => destruct e as [(ts & p)| |]; try reflexivity end. cbn [rbind]. match goal with |- rbind ?e _ = _ => destruct e as [((len & ty) & p1)| |]; try reflexivity end. cbn [rbind].
  change (r_size (with_buf r b)) with (r_size r). destruct (zlen buf <? _); [reflexivity|]. match goal with |- rbind ?e _ = _ => destruct e as [(sid & p2)| |]; try reflexivity end. cbn [rbind].
  destruct (_ && _); [reflexivity|]. match goal with |- rbind ?e _ = _ => destruct e as [(ts2 & p3)| |]; try reflexivity end. cbn [rbind]. destruct (_ || _); [reflexivity|].
  unfold chunk_done. destruct (_ >? _); [reflexivity|]. cbv zeta. destruct (zlen _ =? _); [|reflexivity].
  match goal with |- rbind (completed ?m _) _ = _ => remember m as mm end. unfold completed. destruct (reserved _); [|reflexivity]. destruct (negb _); [reflexivity|]. destruct (_ <? 4); [reflexivity|]. destruct (rd32 _ 0); try reflexivity. cbn [rbind].
  destruct (_ =? 1); [destruct (_ || _); reflexivity|]. destruct (_ =? 2); [|destruct (_ =? 6); [destruct (_ <? 5)|]; reflexivity]. destruct (_ || _); [reflexivity|]. match goal with |- context [rget (rput (with_buf r b) cid ?c) ?a] => change (rget (rput (with_buf r b) cid c) a) with (rget (rput r cid c) a) end. destruct (negb _); reflexivity.
Qed.
(** whole chunks taken from the front of the buffer *)
Inductive eats : receiver -> receiver -> Prop :=
| eats_0 : forall r, eats r r
| eats_S : forall r r1 r2 n, r_buf r <> [] -> on_open_input r (r_buf r) = Ok (Took r1 n) -> eats (with_buf r1 (skipn (Z.to_nat n) (r_buf r))) r2 -> eats r r2.
Definition more r k := with_buf r (r_buf r ++ k).
Definition fine r := recv_ok r /\ bytes_ok (r_buf r) /\ r_dead r = false.
Lemma took_fine : forall r r1 n, fine r -> r_buf r <> [] -> on_open_input r (r_buf r) = Ok (Took r1 n) -> fine (with_buf r1 (skipn (Z.to_nat n) (r_buf r))) /\ 1 <= n <= zlen (r_buf r) /\ grows r r1.
Proof.
  intros r r1 n (I & B & D) NE H. destruct (input_ok r (r_buf r) I B NE) as (i & E & K). rewrite H in E. apply Ok_inj in E. subst i. destruct K as (K1 & K2 & K3 & K4). split; [|auto]. split; [destruct K2; constructor; auto|]. split; [apply bytes_ok_skipn, B|]. cbn. congruence.
Qed.
Lemma eats_fine : forall r r1, eats r r1 -> fine r -> fine r1 /\ grows r r1.
Proof.
  intros r r1 E. induction E; intros F; [split; [exact F|apply grows_same; reflexivity]|]. destruct (took_fine _ _ _ F H H0) as (A & _ & G). destruct (IHE A) as (B & G2). split; [exact B|]. eapply grows_trans; [|exact G2]. exact G.
Qed.
Lemma skipn_front : forall (A : Type) n (l k : list A), (n <= length l)%nat -> skipn n (l ++ k) = skipn n l ++ k.
Proof. intros A n l k L. rewrite skipn_app. replace (n - length l)%nat with 0%nat by lia. reflexivity. Qed.
Lemma eats_more : forall r r1 k, eats r r1 -> fine r -> eats (more r k) (more r1 k).
Proof.
  intros r r1 k E. induction E; intros F; [constructor|]. destruct (took_fine _ _ _ F H H0) as (A & B & _). specialize (IHE A). apply (eats_S _ (with_buf r1 (r_buf (more r k))) _ n).
  - unfold more. cbn. intros X. apply app_eq_nil in X as (X & _). congruence.
  - unfold more at 1. rewrite input_buf. cbn [more with_buf r_buf]. rewrite (input_mono r (r_buf r) k (Took r1 n)); [reflexivity|apply F|exact H0|discriminate].
  - unfold more in *. cbn [with_buf r_buf] in *. rewrite skipn_front by (unfold zlen in B; lia). exact IHE.
Qed.
Lemma eats_trans : forall a b c, eats a b -> eats b c -> eats a c.
Proof. intros a b c E. induction E; intros F; [exact F|]. eapply eats_S; eauto. Qed.
(** where the loop stops *)
Definition stops (r r' : receiver) : Prop := (r' = r /\ (r_buf r = [] \/ on_open_input r (r_buf r) = Ok Wait)) \/ (r' = kill r /\ r_buf r <> [] /\ on_open_input r (r_buf r) = Ok Bad).
Lemma loop_stops : forall fuel r, fine r -> (length (r_buf r) <= fuel)%nat -> exists r1 r', eats r r1 /\ stops r1 r' /\ input_loop fuel r = Ok r'.
Proof.
  induction fuel as [|fuel IH]; intros r F L.
  - assert (E : r_buf r = []) by (destruct (r_buf r); [reflexivity|cbn in L; lia]). exists r, r. split; [constructor|]. split; [left; auto|]. cbn. rewrite E. reflexivity.
  - destruct (r_buf r) as [|x l] eqn:E; [exists r, r; split; [constructor|]; split; [left; auto|cbn; rewrite E; reflexivity]|]. rewrite <- E in L. assert (NE : r_buf r <> []) by congruence.
    destruct F as (I & B & D). destruct (input_ok r (r_buf r) I B NE) as (i & H & K). assert (LE : input_loop (S fuel) r = match i with Wait => Ok r | Bad => Ok (kill r) | Took r1 n => input_loop fuel (with_buf r1 (skipn (Z.to_nat n) (r_buf r))) end) by (cbn [input_loop]; rewrite E in *; rewrite H; reflexivity). rewrite LE. destruct i as [| |r1 n].
    + exists r, r. split; [constructor|]. split; [left; auto|reflexivity].
    + exists r, (kill r). split; [constructor|]. split; [right; auto|reflexivity].
    + destruct (took_fine r r1 n (conj I (conj B D)) NE H) as (A & N & _). destruct (IH (with_buf r1 (skipn (Z.to_nat n) (r_buf r))) A) as (r2 & r' & A1 & A2 & A3); [cbn; rewrite skipn_length; unfold zlen in N; lia|]. exists r2, r'. split; [eapply eats_S; eauto|auto].
Qed.
Lemma stops_det : forall r r1 r1' r2 r2', eats r r1 -> stops r1 r1' -> eats r r2 -> stops r2 r2' -> r1' = r2'.
Proof.
  intros r r1 r1' r2 r2' E. revert r2 r2'. induction E; intros q q' S1 E2 S2.
  - inversion E2; subst.
    + destruct S1 as [(-> & A)|(-> & A & B)], S2 as [(-> & C)|(-> & C & D)]; auto; [destruct A; congruence|destruct C; congruence].
    + exfalso. destruct S1 as [(-> & [A|A])|(-> & A & B)]; congruence.
  - inversion E2; subst.
    + exfalso. destruct S2 as [(-> & [A|A])|(-> & A & B)]; congruence.
    + rewrite H0 in H2. apply Ok_inj in H2. inversion H2; subst. eapply IHE; eauto.
Qed.
Lemma fine_more : forall r k, fine r -> bytes_ok k -> fine (more r k).
Proof. intros r k (A & B & C) K. split; [destruct A; constructor; auto|]. split; [cbn; apply bytes_ok_app; auto|exact C]. Qed.
Lemma receive_is : forall r k, fine r -> bytes_ok k -> exists r1 r', eats (more r k) r1 /\ stops r1 r' /\ receive r k = Ok r'.
Proof. intros r k F K. unfold receive. destruct F as (A & B & C). rewrite C. cbv zeta. apply loop_stops; [apply (fine_more r k (conj A (conj B C)) K)|reflexivity]. Qed.
(** what can be seen of a receiver *)
Definition same (a b : receiver) : Prop := a = b \/ (r_dead a = true /\ r_dead b = true /\ r_msgs a = r_msgs b).
Lemma more_app : forall r a b, more r (a ++ b) = more (more r a) b.
Proof. intros. unfold more. cbn. rewrite app_assoc. reflexivity. Qed.
Lemma receive_app : forall r a b, fine r -> bytes_ok a -> bytes_ok b -> exists r1 r2 r3, receive r a = Ok r1 /\ receive r1 b = Ok r2 /\ receive r (a ++ b) = Ok r3 /\ same r2 r3 /\ (r_dead r1 = false -> fine r1) /\ grows r r1 /\ grows r1 r2.
Proof.
  intros r a b F A B. destruct (receive_is r a F A) as (s1 & r1 & E1 & S1 & R1). destruct (eats_fine _ _ E1 (fine_more _ _ F A)) as (Fs & Gs).
  destruct (receive_is r (a ++ b) F (proj2 (bytes_ok_app _ _) (conj A B))) as (s3 & r3 & E3 & S3 & R3). rewrite more_app in E3. pose proof (eats_more _ _ b E1 (fine_more _ _ F A)) as E1b.
  assert (G1 : grows r r1) by (destruct S1 as [(-> & _)|(-> & _)]; exact Gs). exists r1.
  destruct S1 as [(-> & S1)|(-> & NE & S1)].
  - destruct (receive_is s1 b Fs B) as (s2 & r2 & E2 & S2 & R2). exists r2, r3. split; [exact R1|]. split; [exact R2|]. split; [exact R3|]. split; [left; exact (stops_det _ _ _ _ _ (eats_trans _ _ _ E1b E2) S2 E3 S3)|]. split; [auto|]. split; [exact G1|].
    destruct (eats_fine _ _ E2 (fine_more _ _ Fs B)) as (_ & G2). destruct S2 as [(-> & _)|(-> & _)]; exact G2.
  - exists (kill s1), r3. split; [exact R1|]. split; [reflexivity|]. split; [exact R3|]. split; [|split; [discriminate|split; [exact G1|apply grows_same; reflexivity]]].
    right. assert (S1b : stops (more s1 b) (kill (more s1 b))).
    { right. split; [reflexivity|]. split; [cbn; intros X; apply app_eq_nil in X as (X & _); congruence|]. unfold more at 1. rewrite input_buf. cbn [more with_buf r_buf]. rewrite (input_mono s1 (r_buf s1) b Bad); [reflexivity|apply Fs|exact S1|discriminate]. }
    rewrite <- (stops_det _ _ _ _ _ E1b S1b E3 S3). repeat split.
Qed.
Lemma receives_dead : forall l r, r_dead r = true -> receives r l = Ok r.
Proof. induction l as [|b l IH]; intros r D; [reflexivity|]. cbn. unfold receive. rewrite D. cbn [rbind]. apply IH, D. Qed.
Lemma receive_nothing : forall r, fine r -> (r_buf r = [] \/ on_open_input r (r_buf r) = Ok Wait) -> receive r [] = Ok r.
Proof.
  intros r F H. destruct (receive_is r [] F (Forall_nil _)) as (r1 & r' & E & St & R). rewrite R. f_equal. symmetry. assert (M : more r [] = r) by (unfold more; rewrite app_nil_r; destruct r; reflexivity). rewrite M in E. refine (stops_det _ _ _ _ _ (eats_0 r) _ E St). left. auto.
Qed.
(** a receiver between two calls *)
Definition quiet (r : receiver) : Prop := r_dead r = true \/ (fine r /\ (r_buf r = [] \/ on_open_input r (r_buf r) = Ok Wait)).
Lemma receive_quiet : forall r k, quiet r -> bytes_ok k -> exists r1, receive r k = Ok r1 /\ quiet r1 /\ grows r r1 /\ (r_dead r = true -> r1 = r).
Proof.
  intros r k [D|(F & Q)] K; [exists r; unfold receive; rewrite D; repeat split; auto; [left; exact D|apply grows_same; reflexivity]|].
  destruct (receive_is r k F K) as (s & r1 & E & St & R). exists r1. split; [exact R|]. destruct (eats_fine _ _ E (fine_more _ _ F K)) as (Fs & G). destruct F as (_ & _ & D).
  destruct St as [(-> & X)|(-> & X)]; (split; [|split; [exact G|congruence]]); [right; auto|left; reflexivity].
Qed.
Lemma receives_app : forall l r, quiet r -> Forall bytes_ok l -> exists r1 r2, receives r l = Ok r1 /\ receive r (concat l) = Ok r2 /\ same r1 r2 /\ quiet r1.
Proof.
  induction l as [|b l IH]; intros r Q F.
  - exists r. cbn. destruct Q as [D|(Fn & Q)]; [exists r; unfold receive; rewrite D; repeat split; auto; left; auto|]. exists r. split; [reflexivity|]. split; [apply receive_nothing; auto|]. split; [left; reflexivity|right; auto].
  - inversion F as [|? ? Fb Fl]; subst. assert (Bc : bytes_ok (concat l)) by (clear - Fl; induction Fl; cbn; [constructor|apply bytes_ok_app; auto]).
    destruct (receive_quiet r b Q Fb) as (r1 & R1 & Q1 & _ & Dd). cbn [receives concat]. rewrite R1. cbn [rbind]. destruct (IH r1 Q1 Fl) as (r2 & r3 & R2 & R3 & S2 & Q2). exists r2. rewrite R2.
    destruct Q as [D|(Fn & Q)].
    + rewrite (Dd D) in *. exists r3. split; [reflexivity|]. split; [|auto]. unfold receive in *. rewrite D in *. exact R3.
    + destruct (receive_app r b (concat l) Fn Fb Bc) as (a1 & a2 & a3 & A1 & A2 & A3 & A4 & _). rewrite R1 in A1. apply Ok_inj in A1. subst a1. rewrite R3 in A2. apply Ok_inj in A2. subst a2. exists a3. split; [reflexivity|]. split; [exact A3|]. split; [|exact Q2].
      destruct S2 as [->|(X1 & X2 & X3)], A4 as [->|(Y1 & Y2 & Y3)]; try (left; reflexivity); right; repeat split; congruence.
Qed.
Lemma r_init_fine : fine r_init.
Proof. split; [constructor; [cbn; lia|]|split; [constructor|reflexivity]]. intros cid. apply rc0_ok. Qed.
Lemma r_init_quiet : quiet r_init.
Proof. right. split; [apply r_init_fine|]. left. reflexivity. Qed.
(** every input is handled, and where it is cut does not matter *)
Lemma receive_any : forall l, Forall bytes_ok l -> exists r, receives r_init l = Ok r.
Proof. intros l F. destruct (receives_app l r_init r_init_quiet F) as (r1 & r2 & R & _). eauto. Qed.
Lemma receive_cut : forall l k r q, Forall bytes_ok l -> Forall bytes_ok k -> concat l = concat k -> receives r_init l = Ok r -> receives r_init k = Ok q -> r_msgs r = r_msgs q /\ r_dead r = r_dead q.
Proof.
  intros l k r q L K E R Q. destruct (receives_app l r_init r_init_quiet L) as (r1 & r2 & R1 & R2 & S1 & _). destruct (receives_app k r_init r_init_quiet K) as (q1 & q2 & Q1 & Q2 & S2 & _).
  rewrite R in R1. apply Ok_inj in R1. subst r1. rewrite Q in Q1. apply Ok_inj in Q1. subst q1. rewrite E in R2. rewrite Q2 in R2. apply Ok_inj in R2. subst q2.
  destruct S1 as [->|(X1 & X2 & X3)], S2 as [->|(Y1 & Y2 & Y3)]; split; congruence.
Qed.

(** ** One chunk *)
Lemma header_byte : forall ct cid, In ct [0; 64; 128; 192] -> (2 <= cid < 24)%nat -> exists b, basic_header ct (Z.of_nat cid) = [b] /\ is_byte b /\ Z.land b 192 = ct /\ Z.land b 63 = Z.of_nat cid.
Proof.
  assert (G : forallb (fun ct => forallb (fun cid => let b := Z.lor ct (Z.land (Z.of_nat cid) 63) in (0 <=? b) && (b <=? 255) && (Z.land b 192 =? ct) && (Z.land b 63 =? Z.of_nat cid)) (seq 2 22)) [0; 64; 128; 192] = true) by reflexivity.
  intros ct cid C D. rewrite forallb_forall in G. specialize (G ct C). rewrite forallb_forall in G. specialize (G cid). cbv zeta in G. rewrite in_seq in G. specialize (G ltac:(lia)). apply andb_true_iff in G as (G & G4). apply andb_true_iff in G as (G & G3). apply andb_true_iff in G as (G1 & G2).
  exists (Z.lor ct (Z.land (Z.of_nat cid) 63)). unfold basic_header. destruct (Z.gtb_spec (Z.of_nat cid) 319); [lia|]. destruct (Z.gtb_spec (Z.of_nat cid) 63); [lia|]. split; [reflexivity|]. unfold is_byte. repeat split; lia.
Qed.
Definition whead (ct : Z) (cid : nat) (e len ty sid : Z) : list Z :=
  basic_header ct (Z.of_nat cid) ++
  (let f := if e >=? 16777215 then 16777215 else e in
   if ct =? 0 then u24 f ++ u24 len ++ [ty] ++ u32le sid
   else if ct =? 64 then u24 f ++ u24 len ++ [ty]
   else if ct =? 128 then u24 f else []) ++ (if e >=? 16777215 then u32 e else []).
Lemma rd_cons : forall x l i, rd (x :: l) (S i) = rd l i. Proof. reflexivity. Qed.
Lemma rd24_S : forall x l i, rd24 (x :: l) (S i) = rd24 l i. Proof. reflexivity. Qed.
Lemma rd32_S : forall x l i, rd32 (x :: l) (S i) = rd32 l i. Proof. reflexivity. Qed.
Lemma rd24_0 : forall v rest, 0 <= v < 16777216 -> rd24 (u24 v ++ rest) 0 = Ok v.
Proof.
  intros v rest V. destruct (bytes_of v) as (a & b & c & d & A & B & C & D & E & _ & _ & ->); [unfold is_u32, U32MAX; lia|]. unfold rd24. cbn [app rd nth_error rbind Nat.add]. rewrite (u24_value b c d) by assumption. unfold is_byte in *. f_equal; lia.
Qed.
Lemma rd24_list : forall a b c l v, rd24 ([a; b; c] ++ l) 0 = Ok v -> forall k, rd24 (a :: b :: c :: k) 0 = Ok v.
Proof. intros. exact H. Qed.
Lemma sid_value : forall v a b c d, is_byte a -> is_byte b -> is_byte c -> is_byte d -> v = 16777216 * a + 65536 * b + 256 * c + d -> wrap32 (d + Z.shiftl c 8 + Z.shiftl b 16 + Z.shiftl a 24) = v.
Proof. intros v a b c d A B C D ->. rewrite !Z.shiftl_mul_pow2 by lia. change (2 ^ 8) with 256. change (2 ^ 16) with 65536. change (2 ^ 24) with 16777216. unfold is_byte in *. unfold wrap32. lia. Qed.
Lemma take_payload : forall (p rest : list Z) n, n = zlen p -> firstn (Z.to_nat n) (p ++ rest) = p.
Proof. intros p rest n ->. unfold zlen. rewrite Nat2Z.id. apply firstn_app_exact. Qed.
Lemma parse_head : forall r ct cid e len ty sid payload rest,
  recv_ok r -> In ct [0; 64; 128; 192] -> (2 <= cid < 24)%nat -> is_u32 e -> 0 <= len < 16777216 -> is_u32 sid ->
  (ct <> 0 -> c_init (rget r (Z.of_nat cid)) = true) -> (128 <= ct -> c_len (rget r (Z.of_nat cid)) = len) -> (ct = 192 -> c_delta (rget r (Z.of_nat cid)) = e) ->
  zlen payload = Z.min (r_size r) (if ct =? 192 then wrap64 (len - zlen (c_data (rget r (Z.of_nat cid)))) else len) ->
  let c1 := update ct (rget r (Z.of_nat cid)) sid e len ty in
  on_open_input r ((whead ct cid e len ty sid ++ payload) ++ rest) = chunk_done r (Z.of_nat cid) (with_data c1 (c_data c1 ++ payload)) (zlen (whead ct cid e len ty sid ++ payload)).
Proof.
  intros r ct cid e len ty sid payload rest I CT CID EU LN SU INI CL CD PL c1.
  destruct (header_byte ct cid CT CID) as (b0 & HB & BB & B1 & B2). unfold whead. rewrite HB. cbv zeta. set (ext := e >=? 16777215) in *.
  assert (EXT : forall q, (if ext then u32 e else []) ++ q = if ext then u32 e ++ q else q) by (intros; destruct ext; reflexivity).
  remember (if ext then 16777215 else e) as f eqn:Ef. assert (F : 0 <= f < 16777216 /\ (f >=? 16777215) = ext). { subst f. unfold is_u32 in EU. subst ext. destruct (Z.geb_spec e 16777215); split; try lia; destruct (Z.geb_spec e 16777215); lia. }
  destruct F as (F1 & F2). assert (Ff : ext = false -> f = e) by (intros X; rewrite X in Ef; exact Ef). clear Ef.
  pose proof (zlen_nonneg _ payload) as PN. pose proof (zlen_nonneg _ rest) as RN. assert (X1 : Z.of_nat cid <? 2 = false) by (apply Z.ltb_ge; lia). assert (X2 : Z.of_nat cid =? 0 = false) by (apply Z.eqb_neq; lia). assert (X3 : Z.of_nat cid =? 1 = false) by (apply Z.eqb_neq; lia).
  set (c := rget r (Z.of_nat cid)) in *.
  assert (UB_ : forall A (x : bool) (a b : A), x = false -> (if x then a else b) = b) by (intros A x a b ->; reflexivity).
  assert (E32 : ext = true -> forall q, rd32 (u32 e ++ q) 0 = Ok e) by (intros; apply rd32_cons, EU).
  destruct (bytes_of f) as (_ & f1 & f2 & f3 & _ & _ & _ & _ & _ & _ & _ & UF); [unfold is_u32, U32MAX; lia|].
  destruct (bytes_of len) as (_ & l1 & l2 & l3 & _ & _ & _ & _ & _ & _ & _ & UL); [unfold is_u32, U32MAX; lia|].
  pose proof (rd24_0 f [] F1) as RF. pose proof (rd24_0 len [] LN) as RL. rewrite UF in RF. rewrite UL in RL. rewrite app_nil_r in RF, RL.
  destruct (bytes_of sid SU) as (s1 & s2 & s3 & s4 & S1 & S2 & S3 & S4 & SE & _ & US & _). pose proof (sid_value sid s1 s2 s3 s4 S1 S2 S3 S4 SE) as SV.
  destruct (bytes_of e EU) as (e1 & e2 & e3 & e4 & _ & _ & _ & _ & _ & UE & _ & _). pose proof (rd32_cons e [] EU) as RE. rewrite UE in RE. rewrite app_nil_r in RE.
  cbn [In] in CT. destruct CT as [CT|[CT|[CT|[CT|[]]]]]; subst ct; cbn [Z.eqb Pos.eqb] in *.
  - rewrite UF, UL, US, UE. unfold on_open_input.
    destruct ext eqn:EE; cbn [app]; unfold rd at 1; cbn [nth_error rbind]; rewrite B1, B2, X1, X2, X3; cbn [Z.eqb Pos.eqb Z.of_nat Nat.add andb negb]; rewrite !zlen_cons, !zlen_app;
    (rewrite UB_ by lia; cbn [rbind Z.ltb Z.compare Pos.compare Pos.compare_cont]; fold c; rewrite andb_false_r; rewrite rd24_S; rewrite (rd24_list f1 f2 f3 [] f RF); cbn [rbind]; cbn [Nat.add]; rewrite !rd24_S; rewrite (rd24_list l1 l2 l3 [] len RL); cbn [rbind]; unfold rd at 1; cbn [nth_error rbind Nat.add]; rewrite <- PL; rewrite UB_ by lia; unfold rd at 1 2 3 4; cbn [nth_error rbind Nat.add]; rewrite SV; cbn [rbind]; rewrite F2; cbn [andb rbind]).
    + rewrite UB_ by lia. rewrite !rd32_S. change (e1 :: e2 :: e3 :: e4 :: payload ++ rest) with ([e1; e2; e3; e4] ++ (payload ++ rest)). rewrite (rd32_app _ _ _ _ RE). cbn [rbind]. rewrite UB_ by (cbn [Z.of_nat Pos.of_succ_nat Pos.succ]; lia). cbn [skipn app]. rewrite take_payload by reflexivity. fold c1. f_equal; lia.
    + rewrite Ff by reflexivity. rewrite UB_ by (cbn [Z.of_nat Pos.of_succ_nat Pos.succ]; lia). cbn [skipn app]. rewrite take_payload by reflexivity. fold c1. f_equal; lia.
  - rewrite UF, UL, UE. unfold on_open_input.
    destruct ext eqn:EE; cbn [app]; unfold rd at 1; cbn [nth_error rbind]; rewrite B1, B2, X1, X2, X3; cbn [Z.eqb Pos.eqb Z.of_nat Nat.add andb negb]; rewrite !zlen_cons, !zlen_app;
    (rewrite UB_ by lia; cbn [rbind Z.ltb Z.compare Pos.compare Pos.compare_cont]; fold c; rewrite INI by lia; cbn [negb andb]; rewrite rd24_S; rewrite (rd24_list f1 f2 f3 [] f RF); cbn [rbind]; cbn [Nat.add]; rewrite !rd24_S; rewrite (rd24_list l1 l2 l3 [] len RL); cbn [rbind]; unfold rd at 1; cbn [nth_error rbind Nat.add]; rewrite <- PL; rewrite UB_ by lia; cbn [rbind]; rewrite F2; cbn [andb rbind]).
    + rewrite UB_ by lia. rewrite !rd32_S. change (e1 :: e2 :: e3 :: e4 :: payload ++ rest) with ([e1; e2; e3; e4] ++ (payload ++ rest)). rewrite (rd32_app _ _ _ _ RE). cbn [rbind]. rewrite UB_ by (cbn [Z.of_nat Pos.of_succ_nat Pos.succ]; lia). cbn [skipn app]. rewrite take_payload by reflexivity. subst c1. unfold update. cbn [Z.eqb Pos.eqb]. f_equal; lia.
    + rewrite Ff by reflexivity. rewrite UB_ by (cbn [Z.of_nat Pos.of_succ_nat Pos.succ]; lia). cbn [skipn app]. rewrite take_payload by reflexivity. subst c1. unfold update. cbn [Z.eqb Pos.eqb]. f_equal; lia.
  - rewrite UF, UE. unfold on_open_input.
    destruct ext eqn:EE; cbn [app]; unfold rd at 1; cbn [nth_error rbind]; rewrite B1, B2, X1, X2, X3; cbn [Z.eqb Pos.eqb Z.of_nat Nat.add andb negb]; rewrite !zlen_cons, !zlen_app;
    (rewrite UB_ by lia; cbn [rbind Z.ltb Z.compare Pos.compare Pos.compare_cont]; fold c; rewrite INI by lia; cbn [negb andb]; rewrite rd24_S; rewrite (rd24_list f1 f2 f3 [] f RF); cbn [rbind]; rewrite CL by lia; rewrite <- PL; rewrite UB_ by lia; cbn [rbind]; rewrite F2; cbn [andb rbind]).
    + rewrite UB_ by lia. cbn [Nat.add]. rewrite !rd32_S. change (e1 :: e2 :: e3 :: e4 :: payload ++ rest) with ([e1; e2; e3; e4] ++ (payload ++ rest)). rewrite (rd32_app _ _ _ _ RE). cbn [rbind]. rewrite UB_ by (cbn [Z.of_nat Pos.of_succ_nat Pos.succ Nat.add]; lia). cbn [Nat.add skipn app]. rewrite take_payload by reflexivity. subst c1. unfold update. cbn [Z.eqb Pos.eqb]. f_equal; lia.
    + rewrite Ff by reflexivity. rewrite UB_ by (cbn [Z.of_nat Pos.of_succ_nat Pos.succ Nat.add]; lia). cbn [Nat.add skipn app]. rewrite take_payload by reflexivity. subst c1. unfold update. cbn [Z.eqb Pos.eqb]. f_equal; lia.
  - rewrite UE. unfold on_open_input.
    destruct ext eqn:EE; cbn [app]; unfold rd at 1; cbn [nth_error rbind]; rewrite B1, B2, X1, X2, X3; cbn [Z.eqb Pos.eqb Z.of_nat Nat.add andb negb]; rewrite !zlen_cons, !zlen_app;
    (rewrite UB_ by lia; cbn [rbind Z.ltb Z.compare Pos.compare Pos.compare_cont]; fold c; rewrite INI by lia; cbn [negb andb]; rewrite CL by lia; rewrite CD by lia; rewrite <- PL; rewrite UB_ by lia; cbn [rbind]; fold ext; rewrite EE; cbn [andb rbind]).
    + rewrite UB_ by lia. cbn [Nat.add]. rewrite !rd32_S. change (e1 :: e2 :: e3 :: e4 :: payload ++ rest) with ([e1; e2; e3; e4] ++ (payload ++ rest)). rewrite (rd32_app _ _ _ _ RE). cbn [rbind]. rewrite UB_ by (cbn [Z.of_nat Pos.of_succ_nat Pos.succ Nat.add]; lia). cbn [Nat.add skipn app]. rewrite take_payload by reflexivity. subst c1. unfold update. cbn [Z.eqb Pos.eqb]. f_equal; lia.
    + rewrite UB_ by (cbn [Z.of_nat Pos.of_succ_nat Pos.succ Nat.add]; lia). cbn [Nat.add skipn app]. rewrite take_payload by reflexivity. subst c1. unfold update. cbn [Z.eqb Pos.eqb]. f_equal; lia.
Qed.
