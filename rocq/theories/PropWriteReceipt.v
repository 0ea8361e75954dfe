(** C20 and C21: write receipts and chains of them. *)
From Verif Require Import Base WriteReceipt WriteReceiptSpec WriteReceiptProofs.

(** C20.  For every history of queueing and letting go of fragments, examining, abandoning and changing deadlines, the
    callback of a receipt is called at most once; what it is told agrees with isAbandoned(); and it is told "not abandoned"
    only when everything that was queued has been let go and the receipt is not abandoned. *)
Theorem C20_at_most_once : forall h i, fair h ->
  (length (calls h i) <= 1)%nat
  /\ (forall b, In (i, b) (rs_log (at_end h)) -> b = c_aband (rget (at_end h) i))
  /\ (In (i, false) (rs_log (at_end h)) -> delivered h i).
Proof. exact calls_once. Qed.
Print Assumptions C20_at_most_once.

(** C20.  If the callback was set before the receipt finished, then once the receipt has finished it has been called, once. *)
Theorem C20_exactly_once : forall h2 h1 i, fair (h1 ++ RHook i :: h2) -> ~ (0 < ups h1 i /\ downs h1 i = ups h1 i) ->
  let h := h1 ++ RHook i :: h2 in
  0 < ups h i -> r_is_finished (rget (at_end h) i) = true -> calls h i = [(i, c_aband (rget (at_end h) i))].
Proof. exact hook_exact. Qed.
Print Assumptions C20_exactly_once.

(** C20.  Delivered and abandoned exclude each other, now and for ever. *)
Theorem C20_final : forall h1 h2 i, fair (h1 ++ h2) ->
  (delivered h1 i -> delivered (h1 ++ h2) i)
  /\ (c_aband (rget (at_end h1) i) = true -> r_is_delivered (rget (at_end (h1 ++ h2)) i) = false).
Proof.
  intros h1 h2 i Hf. split; [apply delivered_stays, Hf|]. intros H. unfold r_is_delivered.
  rewrite (aband_stays h2 h1 i H). apply andb_false_r.
Qed.
Print Assumptions C20_final.

(** A message of two fragments whose time to start runs out before it is started, and one that is delivered. *)
Definition demo_rops : list rop :=
  [RNew 100 (Some 5) None; RUp 0; RUp 0; RHook 0; RNew 100 None None; RUp 1; RHook 1; RExamine 105 0; RStart 1; RExamine 106 0; RDown 0; RDown 1; RAbandon 1; RDown 0].
Example C20_case : fair demo_rops /\ rs_log (at_end demo_rops) = [(0%nat, true); (1%nat, false)] /\ delivered demo_rops 1.
Proof.
  split; [|split; [vm_compute; reflexivity|vm_compute; auto]].
  intros h1 o h2 E. do 14 (destruct h1 as [|? h1]; [injection E as <- <-; vm_compute; repeat split; try congruence; try lia; intros; repeat match goal with H : _ \/ _ |- _ => destruct H; try discriminate | H : False |- _ => destruct H | H : _ /\ _ |- _ => destruct H; discriminate end|injection E as <- E]).
  destruct h1; discriminate.
Qed.

(** Finding: the callback set on a receipt that was already abandoned is later told it was not abandoned. *)
Theorem C20_late_callback_refuted : exists h, rs_log (at_end h) = [(0%nat, false)] /\ c_aband (rget (at_end h) 0) = true
  /\ (forall h1 o h2, h = h1 ++ o :: h2 -> match o with RHook _ => True | _ => fair_op h1 (at_end h1) o end).
Proof.
  exists [RNew 0 None None; RUp 0; RAbandon 0; RHook 0; RDown 0]. split; [reflexivity|]. split; [reflexivity|].
  intros h1 o h2 E. do 5 (destruct h1 as [|? h1]; [injection E as <- <-; vm_compute; repeat split; try lia; intros [? ?]; discriminate|injection E as <- E]).
  destruct h1; discriminate.
Qed.
Print Assumptions C20_late_callback_refuted.

(** C21.  Once a receipt in a chain is abandoned, examining the receipts appended after it, in the order they were appended,
    abandons them all, provided none of them was delivered in the meantime.
    The full statement has no such proviso; it is false, see below. *)
Theorem C21_transitive_partial : forall l h a now, fair_chain h -> path h a l -> c_aband (rget (fst (chrun h)) a) = true ->
  (forall b, In b l -> ups (rops h) b > 0 /\ (c_aband (rget (fst (chrun h)) b) = true \/ ~ is_released h b)) ->
  forall b, In b l -> c_aband (rget (fst (chrun (h ++ map (fun i => CR (RExamine now i)) l))) b) = true.
Proof. exact chain_transitive. Qed.
Print Assumptions C21_transitive_partial.

(** C21.  A receipt becomes abandoned only by its own request, its own deadlines, or the one right before it in the chain;
    and "right before" is always an earlier append. *)
Theorem C21_only_earlier : forall h o b, fair_chain (h ++ [CR o]) ->
  c_aband (rget (fst (chrun h)) b) = false -> c_aband (rget (fst (chrun (h ++ [CR o]))) b) = true ->
  o = RAbandon b \/ exists now, o = RExamine now b /\
    (passed now (c_finish (rget (fst (chrun h)) b)) = true \/ passed now (c_start (rget (fst (chrun h)) b)) = true
     \/ exists a, In (a, b) (links h) /\ c_aband (rget (fst (chrun h)) a) = true /\ exists h1 h2, h = h1 ++ CApp b :: h2 /\ In (CApp a) h1).
Proof.
  intros h o b Hf H1 H2. destruct (chain_only_earlier h o b Hf H1 H2) as [X|(now & X & [Y|[Y|(a & Y & Z0)]])]; eauto 8.
  right. exists now. split; [exact X|]. right. right. exists a. split; [exact Y|]. split; [exact Z0|].
  apply fair_chain_app in Hf. apply links_forward; tauto.
Qed.
Print Assumptions C21_only_earlier.

Definition demo_chain : list chop :=
  [CR (RNew 0 None None); CR (RUp 0); CApp 0; CR (RNew 1 None None); CR (RUp 1); CApp 1; CR (RNew 2 None None); CR (RUp 2); CApp 2; CR (RAbandon 0)].
Lemma demo_chain_fair : fair_chain demo_chain.
Proof.
  intros h1 o h2 E. do 10 (destruct h1 as [|? h1]; [injection E as <- <-; vm_compute; repeat split; try lia; try (intros [? ?]; discriminate); intros; repeat match goal with H : _ \/ _ |- _ => destruct H; try discriminate | H : False |- _ => destruct H | H : _ /\ _ |- _ => destruct H; discriminate end|injection E as <- E]).
  destruct h1; discriminate.
Qed.
Example C21_case : fair_chain demo_chain /\ path demo_chain 0 [1; 2]%nat /\ c_aband (rget (fst (chrun demo_chain)) 0) = true
  /\ (forall b, In b [1; 2]%nat -> ups (rops demo_chain) b > 0 /\ ~ is_released demo_chain b)
  /\ map c_aband (rs_all (fst (chrun (demo_chain ++ [CR (RExamine 9 1); CR (RExamine 9 2)])))) = [true; true; true].
Proof.
  split; [exact demo_chain_fair|]. split; [cbn; tauto|]. split; [reflexivity|]. split; [|vm_compute; reflexivity].
  intros b [<-|[<-|[]]]; split; try (vm_compute; reflexivity); intros [_ X]; discriminate.
Qed.
(** Finding: a delivered receipt in between cuts the chain. *)
Theorem C21_delivered_between_refuted : exists h, fair_chain h /\ path h 0 [1; 2]%nat /\ c_aband (rget (fst (chrun h)) 0) = true
  /\ r_is_finished (rget (fst (chrun h)) 2) = false
  /\ forall now, c_aband (rget (fst (chrun (h ++ [CR (RExamine now 1); CR (RExamine now 2)]))) 2) = false.
Proof.
  exists (demo_chain ++ [CR (RDown 1)]). split.
  - intros h1 o h2 E. destruct h2 as [|x h2] using rev_ind.
    + apply app_inj_tail in E. destruct E as [<- <-]. vm_compute. reflexivity.
    + clear IHh2. rewrite app_comm_cons, app_assoc in E. apply app_inj_tail in E. destruct E as [E _]. apply (demo_chain_fair h1 o h2 E).
  - split; [cbn; tauto|]. split; [reflexivity|]. split; [reflexivity|]. intros now. reflexivity.
Qed.
Print Assumptions C21_delivered_between_refuted.

(** C21.  expire() gives every receipt of the chain the earlier of its own deadlines and the ones given, changes nothing else of
    any receipt, and empties the chain. *)
Theorem C21_expire : forall h a b i, let x := chrun h in let y := chrun (h ++ [CExp a b]) in
  snd y = [] /\ rs_log (fst y) = rs_log (fst x)
  /\ (~ In i (snd x) -> rget (fst y) i = rget (fst x) i)
  /\ (In i (snd x) -> (i < length (rs_all (fst x)))%nat -> let c := rget (fst x) i in let c' := rget (fst y) i in
      (forall now, passed now (c_start c') = passed now (c_start c) || passed now a)
      /\ (forall now, passed now (c_finish c') = passed now (c_finish c) || passed now b)
      /\ c_rtx c' = c_rtx c /\ c_parent c' = c_parent c /\ c_origin c' = c_origin c /\ c_started c' = c_started c /\ c_aband c' = c_aband c
      /\ c_use c' = c_use c /\ c_hook c' = c_hook c).
Proof. exact chain_expires. Qed.
Print Assumptions C21_expire.
Example C21_expire_case : let h := [CR (RNew 0 None (Some 5)); CR (RUp 0); CApp 0; CR (RNew 1 None None); CR (RUp 1); CApp 1] in
  snd (chrun h) = [0; 1]%nat /\ map c_finish (rs_all (fst (chrun (h ++ [CExp (Some 7) (Some 9)])))) = [Some 5; Some 9].
Proof. vm_compute. auto. Qed.
