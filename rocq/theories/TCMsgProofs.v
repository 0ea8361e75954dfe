(** Proofs about TC messages and streams. *)
From Verif Require Import Base BaseFacts AMF AMFSpec AMFProofs TC TCProofs FlowSync TCMsg TCMsgSpec.
Open Scope res_scope.

Definition good_value (v : amf) : Prop := value_ok v /\ (height v <= 32)%nat.
Lemma args_ok : forall vs, Forall good_value vs -> amf_decode_all (amf_encode_list (map Some vs)) = Ok (true, map filled vs).
Proof. intros vs F. unfold amf_decode_all. exact (dec_all_roundtrip vs _ [] F (le_n _)). Qed.
Lemma cstr_id : forall s, ~ In 0 s -> cstr s = s.
Proof. induction s as [|x s IH]; intros N; [reflexivity|]. cbn [cstr]. destruct (Z.eqb_spec x 0) as [->|]; [exfalso; apply N; left; reflexivity|]. rewrite IH; [reflexivity|]. intros X. apply N. right. exact X. Qed.
Definition name_ok (n : list Z) : Prop := bytes_ok n /\ zlen n < 2 ^ 32 /\ ~ In 0 n.
Lemma name_value : forall n rest, name_ok n -> amf_decode (amf_encode (AStr n) ++ rest) = Ok (Some (AStr n), rest).
Proof. intros n rest (B & L & _). apply (amf_roundtrip (AStr n) rest); [constructor; split; assumption|cbn; lia]. Qed.
Lemma num_value : forall t rest, is_u64 t -> amf_decode (amf_encode (ANum t) ++ rest) = Ok (Some (ANum t), rest).
Proof. intros t rest T. apply (amf_roundtrip (ANum t) rest); [constructor; exact T|cbn; lia]. Qed.
Lemma enc_not_nil : forall n rest, amf_encode (AStr n) ++ rest <> [].
Proof. intros n rest. cbn [amf_encode]. cbv zeta. match goal with |- context [if ?b then _ else _] => destruct b end; discriminate. Qed.

Section S.
Variable has : Z -> bool.
Variable ign : bool.
Lemma on_command_ok : forall sid ex name tid obj args, name_ok name -> is_u64 tid -> good_value obj -> Forall good_value args ->
  on_command has sid ex ((if ex then [0] else []) ++ amf_encode (AStr name) ++ amf_encode (ANum tid) ++ amf_encode obj ++ amf_encode_list (map Some args))
  = Ok (if sid =? 0 then ControlCommand name tid (map filled args) else if has sid then StreamCommand sid name (map filled args) else Nothing).
Proof.
  intros sid ex name tid obj args N T [O H] A. unfold on_command.
  assert (F : forall X, X <> [] -> format ex ((if ex then [0] else []) ++ X) = Ok (true, X)) by (intros X _; destruct ex; reflexivity).
  destruct ((if ex then [0] else []) ++ amf_encode (AStr name) ++ amf_encode (ANum tid) ++ amf_encode obj ++ amf_encode_list (map Some args)) eqn:E.
  { exfalso. destruct ex; [discriminate|]. cbn [List.app] in E. exact (enc_not_nil _ _ E). }
  rewrite <- E. rewrite F by apply enc_not_nil. cbn [rbind]. rewrite name_value by exact N. cbn [rbind]. rewrite num_value by exact T. cbn [rbind]. rewrite amf_roundtrip by assumption. cbn [rbind].
  rewrite args_ok by exact A. cbn [rbind]. destruct N as (_ & _ & N). rewrite cstr_id by exact N. destruct (sid =? 0); reflexivity.
Qed.
Lemma on_data_ok : forall sid ts ex name args, name_ok name -> Forall good_value args ->
  on_data sid ts ex ((if ex then [0] else []) ++ amf_encode (AStr name) ++ amf_encode_list (map Some args)) = Ok (OnData sid ts name (map filled args)).
Proof.
  intros sid ts ex name args N A. unfold on_data. assert (F : forall X, format ex ((if ex then [0] else []) ++ X) = Ok (true, X)) by (intros X; destruct ex; reflexivity).
  rewrite F. cbn [rbind]. rewrite name_value by exact N. cbn [rbind]. rewrite args_ok by exact A. cbn [rbind]. destruct N as (_ & _ & N). rewrite cstr_id by exact N. reflexivity.
Qed.
Lemma deliver_message : forall sid ty ts p, is_byte ty -> is_u32 ts -> bytes_ok p -> deliver has ign sid (tc_message ty ts p) = on_message has ign sid ty ts p.
Proof. intros sid ty ts p Y T B. unfold deliver. destruct (message_roundtrip ty ts p Y T B) as [E S]. rewrite E, S. reflexivity. Qed.

Lemma decode_total : forall l, bytes_ok l -> exists o r, amf_decode l = Ok (o, r) /\ bytes_ok r.
Proof.
  intros l B. destruct (amf_safe l B) as (o & r & E & H). exists o, r. split; [exact E|]. destruct o as [v|].
  - destruct H as (H & _). destruct H as (c & -> & _). apply Forall_app in B. apply B.
  - destruct H. exact B.
Qed.
Lemma all_total : forall l, bytes_ok l -> exists b d, amf_decode_all l = Ok (b, d).
Proof. intros l B. unfold amf_decode_all. destruct (dec_all_safe _ l [] B (le_n _)) as (b & d & E & _). exists b, d. exact E. Qed.
Lemma u16 : forall a b, is_byte a -> is_byte b -> Z.shiftl a 8 + b = 256 * a + b.
Proof. intros. rewrite Z.shiftl_mul_pow2 by lia. lia. Qed.
Lemma rd_ok : forall (p : list Z) i, (i < length p)%nat -> exists b, rd p i = Ok b.
Proof. intros p i I. unfold rd. destruct (nth_error p i) eqn:E; [eexists; reflexivity|]. apply nth_error_None in E. lia. Qed.
Lemma user_control_total : forall p, bytes_ok p -> exists a, on_user_control ign p = Ok a.
Proof.
  intros p B. unfold on_user_control. destruct (Z.ltb_spec (zlen p) 2); [eexists; reflexivity|].
  destruct (rd_ok p 0 ltac:(unfold zlen in *; lia)) as (a & ->). cbn [rbind]. destruct (rd_ok p 1 ltac:(unfold zlen in *; lia)) as (b & ->). cbn [rbind].
  destruct (_ =? 41); [|eexists; reflexivity]. destruct (Z.ltb_spec (zlen p) 10); [eexists; reflexivity|]. cbn [orb]. destruct ign; [eexists; reflexivity|].
  repeat match goal with |- context [rd p ?i] => let x := fresh in destruct (rd_ok p i ltac:(unfold zlen in *; lia)) as (x & ->); cbn [rbind] end. eexists; reflexivity.
Qed.
Lemma command_total : forall sid ex p, bytes_ok p -> exists a, on_command has sid ex p = Ok a.
Proof.
  intros sid ex [|x p] B; [eexists; reflexivity|]. unfold on_command.
  assert (F : exists go c, format ex (x :: p) = Ok (go, c) /\ bytes_ok c).
  { destruct ex; cbn [format get rbind]; do 2 eexists; (split; [reflexivity|]); [inversion B; assumption|exact B]. }
  destruct F as (go & c & -> & C). cbn [rbind]. destruct go; [|eexists; reflexivity].
  destruct (decode_total c C) as (o1 & c1 & -> & C1). cbn [rbind]. destruct (decode_total c1 C1) as (o2 & c2 & -> & C2). cbn [rbind]. destruct (decode_total c2 C2) as (o3 & c3 & -> & C3). cbn [rbind].
  destruct (all_total c3 C3) as (b & d & ->). cbn [rbind]. destruct o1 as [[]|]; try (eexists; reflexivity). destruct o2 as [[]|]; try (eexists; reflexivity). destruct (sid =? 0); eexists; reflexivity.
Qed.
Lemma data_total : forall sid ts ex p, bytes_ok p -> ex = false \/ p <> [] -> exists a, on_data sid ts ex p = Ok a.
Proof.
  intros sid ts ex p B N. unfold on_data.
  assert (F : exists go c, format ex p = Ok (go, c) /\ bytes_ok c).
  { destruct ex; cbn [format]; [destruct p as [|x p]; [destruct N as [N|N]; [discriminate|contradiction]|]; cbn [get rbind]|]; do 2 eexists; (split; [reflexivity|]); [inversion B; assumption|exact B]. }
  destruct F as (go & c & -> & C). cbn [rbind]. destruct go; [|eexists; reflexivity].
  destruct (decode_total c C) as (o1 & c1 & -> & C1). cbn [rbind]. destruct (all_total c1 C1) as (b & d & ->). cbn [rbind]. eexists; reflexivity.
Qed.
Lemma message_total : forall sid ty ts p, bytes_ok p -> ~ (ty = 15 /\ p = [] /\ sid <> 0 /\ has sid = true) -> exists a, on_message has ign sid ty ts p = Ok a.
Proof.
  intros sid ty ts p B N. unfold on_message. destruct ((ty =? 20) || (ty =? 17)); [apply command_total; exact B|].
  destruct ((ty =? 8) || (ty =? 9) || (ty =? 18) || (ty =? 15)); [|destruct (ty =? 4); [apply user_control_total; exact B|eexists; reflexivity]].
  destruct (Z.eqb_spec sid 0); [eexists; reflexivity|]. cbn [orb]. destruct (has sid) eqn:H; [|eexists; reflexivity]. cbn [negb].
  destruct (ty =? 8); [eexists; reflexivity|]. destruct (ty =? 9); [eexists; reflexivity|]. apply data_total; [exact B|].
  destruct (Z.eqb_spec ty 15); [right|left; reflexivity]. intros ->. apply N. auto.
Qed.
Lemma deliver_total : forall sid b, bytes_ok b -> ~ (zlen b = 5 /\ hd 0 b = 15 /\ sid <> 0 /\ has sid = true) -> exists a, deliver has ign sid b = Ok a.
Proof.
  intros sid b B N. unfold deliver. destruct (tc_header b) as [[[ty ts] n]| |] eqn:E; [|eexists; reflexivity|exfalso; exact (header_defined b E)].
  apply (header_exact b B) in E. destruct E as (msg & -> & T & ->). apply message_total.
  - change (bytes_ok msg). change (ty :: TCSpec.be32 ts ++ msg) with ((ty :: TCSpec.be32 ts) ++ msg) in B. apply Forall_app in B. apply B.
  - intros (Y & M & S). apply N. change (msg = []) in M. subst msg ty. split; [reflexivity|]. split; [reflexivity|exact S].
Qed.
End S.

(** ** The sending side *)
Lemma out_app : forall pend s, fold_left (fun s c => write 20 0 c s) pend s = mkS (s_open s) (s_id s) (s_pend s) (s_sync s) (s_out s ++ map (fun c => (s_id s, Data, tc_message 20 0 c)) pend).
Proof.
  induction pend as [|c pend IH]; intros s; cbn [fold_left map]; [rewrite app_nil_r; destruct s; reflexivity|]. rewrite IH. unfold write, put. cbn [s_open s_id s_pend s_sync s_out]. rewrite <- app_assoc. reflexivity.
Qed.
Lemma flush_eq : forall s, s_id s <> 0 -> flush s = mkS (s_open s) (s_id s) [] (s_sync s) (s_out s ++ map (fun c => (s_id s, Data, tc_message 20 0 c)) (s_pend s)).
Proof. intros s N. unfold flush. destruct (Z.eqb_spec (s_id s) 0); [contradiction|]. rewrite out_app. reflexivity. Qed.
Lemma flush_0 : forall s, s_id s = 0 -> flush s = s.
Proof. intros s N. unfold flush. rewrite N. reflexivity. Qed.

Lemma commands_app : forall a b, commands (a ++ b) = commands a ++ commands b.
Proof. intros. unfold commands. rewrite filter_app, map_app. reflexivity. Qed.
Lemma commands_20 : forall id l, commands (map (fun c => (id, Data, tc_message 20 0 c)) l) = l.
Proof. intros id l. unfold commands. induction l as [|c l IH]; [reflexivity|]. cbn [map filter snd]. change (hd 0 (tc_message 20 0 c) =? 20) with true. cbn [map snd]. rewrite IH. reflexivity. Qed.
Lemma commands_other : forall id k ty ts p, ty <> 20 -> is_byte ty -> commands [(id, k, tc_message ty ts p)] = [].
Proof.
  intros id k ty ts p N Y. unfold commands. cbn [filter snd]. replace (hd 0 (tc_message ty ts p)) with ty.
  - destruct (Z.eqb_spec ty 20); [contradiction|reflexivity].
  - reflexivity.
Qed.
Lemma commands_sync : forall id k y, commands [(id, k, sync_message y 3)] = [].
Proof. intros. reflexivity. Qed.

Record inv (cs : list (list Z)) (s : strm) : Prop := {
  i_all : commands (s_out s) ++ s_pend s = cs;
  i_ids : Forall (fun e => fst (fst e) <> 0) (s_out s) }.
Lemma flush_inv : forall cs s, inv cs s -> inv cs (flush s) /\ (s_id (flush s) <> 0 -> s_pend (flush s) = []) /\ s_id (flush s) = s_id s.
Proof.
  intros cs s [A I]. destruct (Z.eq_dec (s_id s) 0) as [E|N].
  - rewrite flush_0 by exact E. split; [split; assumption|]. split; [intros X; contradiction|reflexivity].
  - rewrite flush_eq by exact N. cbn [s_open s_id s_pend s_sync s_out]. split; [|split; reflexivity]. split; cbn [s_out s_pend].
    + rewrite commands_app, commands_20, app_nil_r. exact A.
    + apply Forall_app. split; [exact I|]. apply Forall_map, Forall_forall. intros x _. exact N.
Qed.
Lemma put_inv : forall cs s k m, inv cs s -> s_id s <> 0 -> commands [(s_id s, k, m)] = [] -> inv cs (put k m s).
Proof.
  intros cs s k m [A I] N C. split; cbn [put s_out s_pend].
  - rewrite commands_app, C, app_nil_r. exact A.
  - apply Forall_app. split; [exact I|]. constructor; [exact N|constructor].
Qed.
Lemma user_inv : forall cs s u, inv cs s -> inv (cs ++ asked_u u) (do_user u s) /\ ((s_id s <> 0 -> s_pend s = []) -> s_id (do_user u s) <> 0 -> s_pend (do_user u s) = []).
Proof.
  intros cs s u H. destruct u as [c|ts m|ts m|ts m| |]; cbn [do_user asked_u]; try rewrite app_nil_r.
  - assert (H' : inv (cs ++ [c]) (mkS (s_open s) (s_id s) (s_pend s ++ [c]) (s_sync s) (s_out s))) by (destruct H as [A I]; split; cbn [s_out s_pend]; [rewrite app_assoc, A; reflexivity|exact I]).
    destruct (flush_inv _ _ H') as (X & Y & _). split; [exact X|intros _; exact Y].
  - destruct (Z.eqb_spec (s_id s) 0); [split; [exact H|tauto]|]. split; [apply put_inv; [exact H|assumption|apply commands_other; unfold is_byte; lia]|intros X Y; exact (X Y)].
  - destruct (Z.eqb_spec (s_id s) 0); [split; [exact H|tauto]|]. split; [apply put_inv; [exact H|assumption|apply commands_other; unfold is_byte; lia]|intros X Y; exact (X Y)].
  - destruct (Z.eqb_spec (s_id s) 0); [split; [exact H|tauto]|]. split; [apply put_inv; [exact H|assumption|apply commands_other; unfold is_byte; lia]|intros X Y; exact (X Y)].
  - destruct (Z.eqb_spec (s_id s) 0); [split; [exact H|tauto]|]. split; [|intros X Y; exact (X Y)].
    repeat (apply put_inv; [|assumption|apply commands_sync]). destruct H as [A I]. split; assumption.
  - split; [destruct H as [A I]; split; assumption|]. intros _ X. exfalso. apply X. reflexivity.
Qed.
Lemma script_inv : forall us cs s, inv cs s -> inv (cs ++ concat (map asked_u us)) (fold_left (fun s u => do_user u s) us s).
Proof.
  induction us as [|u us IH]; intros cs s H; cbn [fold_left map concat]; [rewrite app_nil_r; exact H|]. rewrite app_assoc. apply IH. apply user_inv. exact H.
Qed.
Lemma step_open : forall o s, s_open s = false -> s_id s = 0 -> s_open (step o s) = false /\ s_id (step o s) = 0.
Proof.
  intros o s O I. destruct o as [u|id us]; cbn [step]; [|rewrite O; auto]. destruct u; cbn [do_user]; try rewrite I; try (split; assumption); try (split; reflexivity).
  rewrite flush_0 by reflexivity. split; [exact O|reflexivity].
Qed.
Lemma flush_open : forall s, s_open (flush s) = s_open s.
Proof. intros s. unfold flush. destruct (_ =? 0); [reflexivity|]. rewrite out_app. reflexivity. Qed.
Lemma user_open : forall u s, s_open (do_user u s) = s_open s && negb (deletes u).
Proof.
  intros u s. destruct u; cbn [do_user deletes negb]; rewrite ?andb_true_r, ?andb_false_r; try (destruct (_ =? 0); reflexivity); [|reflexivity]. rewrite flush_open. reflexivity.
Qed.
Lemma script_open : forall us s, s_open (fold_left (fun s u => do_user u s) us s) = s_open s && negb (existsb deletes us).
Proof.
  induction us as [|u us IH]; intros s; cbn [fold_left existsb]; [rewrite andb_true_r; reflexivity|]. rewrite IH, user_open, negb_orb, andb_assoc. reflexivity.
Qed.
Lemma run_inv : forall l cs s, inv cs s -> (s_id s <> 0 -> s_pend s = []) -> inv (cs ++ asked_from (s_open s) l) (run l s) /\ (s_id (run l s) <> 0 -> s_pend (run l s) = []).
Proof.
  unfold run. induction l as [|o l IH]; intros cs s H P; cbn [fold_left asked_from]; [rewrite app_nil_r; auto|]. destruct o as [u|id us].
  - rewrite app_assoc. destruct (user_inv _ _ u H) as [X Y]. rewrite <- user_open. apply IH; [exact X|exact (Y P)].
  - cbn [step]. destruct (s_open s) eqn:O.
    + rewrite app_assoc. assert (H0 : inv cs (mkS true id (s_pend s) (s_sync s) (s_out s))) by (destruct H; split; assumption).
      destruct (flush_inv _ _ (script_inv us _ _ H0)) as (X & Y & _).
      specialize (IH _ _ X Y). rewrite flush_open, script_open in IH. exact IH.
    + rewrite <- O. apply IH; assumption.
Qed.
Lemma closed_out : forall l s, s_open s = false -> s_id s = 0 -> s_out (run l s) = s_out s.
Proof.
  unfold run. induction l as [|o l IH]; intros s O I; [reflexivity|]. cbn [fold_left]. destruct (step_open o s O I) as [O' I']. rewrite IH by assumption.
  destruct o as [u|id us]; cbn [step]; [|rewrite O; reflexivity]. destruct u; cbn [do_user]; try rewrite I; reflexivity.
Qed.

Lemma exact_out : forall us s, s_id s <> 0 -> s_pend s = [] -> Forall keeps us -> Forall untimed us ->
  exists out, writes (s_id s) (s_sync s) us out /\ s_out (run (map User us) s) = s_out s ++ out /\ s_pend (run (map User us) s) = [] /\ s_id (run (map User us) s) = s_id s.
Proof.
  unfold run. induction us as [|u us IH]; intros s N P K U; cbn [map fold_left step].
  { exists []. rewrite app_nil_r. repeat (split; [constructor|]); auto. }
  inversion_clear K as [|? ? K0 K1]. inversion_clear U as [|? ? U0 U1].
  assert (Z : s_id s =? 0 = false) by (apply Z.eqb_neq; exact N).
  destruct u as [c|ts m|ts m|ts m| |]; cbn [do_user]; try contradiction; rewrite ?Z.
  - rewrite flush_eq by exact N. cbn [s_open s_id s_pend s_sync s_out]. rewrite P. cbn [List.app map].
    destruct (IH (mkS (s_open s) (s_id s) [] (s_sync s) (s_out s ++ [(s_id s, Data, tc_message 20 0 c)]))) as (out & W & O & Q & I); try assumption; try reflexivity. cbn [s_id s_sync s_out] in *.
    eexists. split; [constructor; exact W|]. rewrite O, <- app_assoc. auto.
  - cbn in U0. subst ts. destruct (IH (write 18 0 m s)) as (out & W & O & Q & I); try assumption. cbn [write put s_id s_sync s_out] in *. eexists. split; [constructor; exact W|]. rewrite O, <- app_assoc. auto.
  - destruct (IH (write 8 ts m s)) as (out & W & O & Q & I); try assumption. cbn [write put s_id s_sync s_out] in *. eexists. split; [constructor; exact W|]. rewrite O, <- app_assoc. auto.
  - destruct (IH (write 9 ts m s)) as (out & W & O & Q & I); try assumption. cbn [write put s_id s_sync s_out] in *. eexists. split; [constructor; exact W|]. rewrite O, <- app_assoc. auto.
  - cbv zeta. match goal with |- context [fold_left _ (map User us) ?s1] => destruct (IH s1) as (out & W & O & Q & I); try assumption end.
    cbn [put s_id s_sync s_out] in *. eexists. split; [constructor; exact W|]. rewrite O. rewrite <- !app_assoc. auto.
Qed.
Lemma be32_val : forall a b c d, is_byte a -> is_byte b -> is_byte c -> is_byte d -> be32 a b c d = 2 ^ 24 * a + 2 ^ 16 * b + 2 ^ 8 * c + d.
Proof.
  unfold is_byte, be32, wrap32. intros. rewrite !Z.shiftl_mul_pow2 by lia. rewrite Z.mod_small by lia. lia.
Qed.
