From Verif Require Import Base TC TCSpec FlowSync FlowSyncSpec FlowSyncProofs.

(** C26.  The flow that completes the announced number is answered true, and every flow waiting at the barrier is released:
    none of them stays on hold, each one that was held is in sequence order again with its delivery scheduled, the barrier is
    empty, and no other flow changes.  After any operations at all. *)
Theorem C26_release : forall ord os id n f, let s := fst (frun (fs_init ord) os) in let r := fs_sync s id n f in
  completes (wrun os) id n = true ->
  snd r = true /\ wrun (os ++ [FSync id n f]) id = []
  /\ (forall g, waits_at (wrun os) g id -> fs_ord (fst r) g <> RO_HOLD)
  /\ (forall g, waits_at (wrun os) g id -> fs_ord s g = RO_HOLD -> fs_ord (fst r) g = RO_SEQ /\ In g (fs_woken (fst r)))
  /\ (forall g, ~ waits_at (wrun os) g id -> fs_ord (fst r) g = fs_ord s g).
Proof. exact sync_release. Qed.
Print Assumptions C26_release.

(** C26.  When all flows announce [n], exactly every [n]-th sync of a barrier completes it, however syncs of other barriers,
    resets of others and changes of order are mixed in. *)
Theorem C26_count : forall ord os id n, 1 <= n -> Forall (announces id n) os -> every_nth n (answers id (snd (frun (fs_init ord) os))).
Proof. exact sync_counts. Qed.
Print Assumptions C26_count.

(** C26.  Under the discipline of use, at any time: a flow on hold waits at exactly one barrier (so none is left held after its
    barrier completed), and a flow that waits is on hold, or is a network-order flow, which is never held. *)
Theorem C26_held : forall ord os, (forall f, ord f <> RO_HOLD) -> polite_run nobody (fs_init ord) os ->
  let s := fst (frun (fs_init ord) os) in
  (forall f, fs_ord s f = RO_HOLD -> exists id, waits_at (wrun os) f id /\ forall id', waits_at (wrun os) f id' -> id' = id)
  /\ (forall f id, waits_at (wrun os) f id -> fs_ord s f = RO_HOLD \/ fs_ord s f = RO_NET).
Proof. exact sync_held. Qed.
Print Assumptions C26_held.

(** C26.  A sequence-order flow that reaches a barrier is held, until its barrier completes or is reset. *)
Theorem C26_until : forall ord os os' id n f, (forall g, ord g <> RO_HOLD) ->
  polite_run nobody (fs_init ord) (os ++ FSync id n (Some f) :: os') ->
  fs_ord (fst (frun (fs_init ord) os)) f = RO_SEQ -> keeps id (wrun os) (FSync id n (Some f) :: os') ->
  fs_ord (fst (frun (fs_init ord) (os ++ FSync id n (Some f) :: os'))) f = RO_HOLD.
Proof. exact sync_holds. Qed.
Print Assumptions C26_until.

(** C26.  What happens at other barriers changes neither who waits at this one nor their order. *)
Theorem C26_isolated : forall ord os os' id, (forall f, ord f <> RO_HOLD) -> polite_run nobody (fs_init ord) (os ++ os') -> Forall (elsewhere id) os' ->
  wrun (os ++ os') id = wrun os id
  /\ forall f, waits_at (wrun os) f id -> fs_ord (fst (frun (fs_init ord) (os ++ os'))) f = fs_ord (fst (frun (fs_init ord) os)) f.
Proof. exact sync_isolated. Qed.
Print Assumptions C26_isolated.

(** C26.  Destroying the manager leaves no flow on hold. *)
Theorem C26_destroy : forall ord os, (forall f, ord f <> RO_HOLD) -> polite_run nobody (fs_init ord) os ->
  forall f, fs_ord (fs_destroy (fst (frun (fs_init ord) os))) f <> RO_HOLD.
Proof. exact sync_destroy. Qed.
Print Assumptions C26_destroy.

(** three flows at barrier 7 of three (flow 2 in network order), flow 3 at barrier 8 in between *)
Definition ex_ord (f : nat) : rorder := match f with 2%nat => RO_NET | _ => RO_SEQ end.
Definition ex_ops : list fop := [FSync 7 3 (Some 0%nat); FSync 8 2 (Some 3%nat); FSync 7 3 (Some 2%nat)].
Example C26_case : (forall f, ex_ord f <> RO_HOLD) /\ polite_run nobody (fs_init ex_ord) (ex_ops ++ [FSync 7 3 (Some 1%nat)])
  /\ completes (wrun ex_ops) 7 3 = true /\ Forall (announces 7 3) ex_ops
  /\ keeps 7 nobody ex_ops /\ Forall (elsewhere 8) [FSync 7 3 (Some 2%nat)]
  /\ map (fs_ord (fst (frun (fs_init ex_ord) ex_ops))) [0; 1; 2; 3]%nat = [RO_HOLD; RO_SEQ; RO_NET; RO_HOLD]
  /\ map (fs_ord (fst (frun (fs_init ex_ord) (ex_ops ++ [FSync 7 3 (Some 1%nat)])))) [0; 1; 2; 3]%nat = [RO_SEQ; RO_SEQ; RO_NET; RO_HOLD]
  /\ snd (frun (fs_init ex_ord) (ex_ops ++ [FSync 7 3 (Some 1%nat)])) = [Some (7, false); Some (8, false); Some (7, false); Some (7, true)].
Proof.
  split; [intros [|[|[|]]]; discriminate|]. split; [cbn; repeat split; discriminate|]. split; [reflexivity|]. split; [repeat constructor; intros; congruence|].
  split; [cbn; repeat split; intros; reflexivity || congruence|]. split; [repeat constructor; cbn; lia|]. repeat split; vm_compute; reflexivity.
Qed.

(** C26 needs the discipline: a flow made to wait at two barriers is let go by the first that completes, though the other has
    not. *)
Theorem C26_undisciplined_refuted : exists ord os f id, (forall g, ord g <> RO_HOLD) /\ waits_at (wrun os) f id
  /\ ord f = RO_SEQ /\ fs_ord (fst (frun (fs_init ord) os)) f = RO_SEQ.
Proof.
  exists (fun _ => RO_SEQ), [FSync 1 2 (Some 0%nat); FSync 2 2 (Some 0%nat); FSync 2 2 (Some 1%nat)], 0%nat, 1.
  split; [discriminate|]. split; [left; reflexivity|]. split; reflexivity.
Qed.
Print Assumptions C26_undisciplined_refuted.

(** C27.  The sync message is that of RFC 7425 5.2 and reads back, for counts below 2^31. *)
Theorem C27_wire : forall id n, is_u32 id -> 0 <= n -> sync_message id n = 4 :: [0; 0; 0; 0] ++ 0 :: 34 :: be32 id ++ be32 (n mod 2 ^ 32).
Proof. exact sync_message_wire. Qed.
Print Assumptions C27_wire.
Theorem C27_roundtrip : forall id n rest, is_u32 id -> 0 <= n < 2 ^ 31 -> bytes_ok rest -> sync_parse (sync_message id n ++ rest) = Ok (id, n, 15%nat).
Proof. exact sync_roundtrip. Qed.
Print Assumptions C27_roundtrip.

(** C27.  For the other 32-bit counts it reads back the count sign-extended to 64 bits: the barrier would never complete. *)
Theorem C27_roundtrip_refuted : forall id n rest, is_u32 id -> 2 ^ 31 <= n < 2 ^ 32 -> bytes_ok rest ->
  sync_parse (sync_message id n ++ rest) = Ok (id, n + (2 ^ 64 - 2 ^ 32), 15%nat).
Proof. exact sync_big. Qed.
Print Assumptions C27_roundtrip_refuted.

(** C27.  parse is defined for all byte strings and accepts exactly user control messages (whatever the timestamp) with event
    type 34 and at least eight more bytes. *)
Theorem C27_exact : forall l, bytes_ok l -> sync_parse l <> UB /\ forall id n k,
  sync_parse l = Ok (id, n, k) <-> exists ts cnt rest, l = 4 :: ts ++ 0 :: 34 :: be32 id ++ be32 cnt ++ rest /\ length ts = 4%nat
     /\ is_u32 id /\ is_u32 cnt /\ n = (if cnt <? 2 ^ 31 then cnt else cnt + (2 ^ 64 - 2 ^ 32)) /\ k = 15%nat.
Proof. exact sync_exact. Qed.
Print Assumptions C27_exact.

(** C27.  The messages makeSyncMessage(count) gives out carry different IDs, for 2^32 in a row. *)
Theorem C27_fresh : forall cs s i j ni nj, is_u32 (fs_next s) -> (i < j)%nat -> Z.of_nat j - Z.of_nat i < 2 ^ 32 ->
  nth_error cs i = Some ni -> nth_error cs j = Some nj -> 0 <= ni < 2 ^ 31 -> 0 <= nj < 2 ^ 31 ->
  exists mi mj id id', nth_error (fs_makes s cs) i = Some mi /\ nth_error (fs_makes s cs) j = Some mj
    /\ sync_parse mi = Ok (id, ni, 15%nat) /\ sync_parse mj = Ok (id', nj, 15%nat) /\ id <> id'.
Proof. exact makes_fresh. Qed.
Print Assumptions C27_fresh.
Example C27_case : sync_message 305419896 3 = [4; 0; 0; 0; 0; 0; 34; 18; 52; 86; 120; 0; 0; 0; 3]
  /\ sync_parse (sync_message 4294967295 2147483647 ++ [9]) = Ok (4294967295, 2147483647, 15%nat)
  /\ sync_parse (sync_message 1 2147483648) = Ok (1, 18446744071562067968, 15%nat)
  /\ sync_parse [4; 0; 0; 0; 0; 0; 34; 18; 52; 86; 120; 0; 0; 0] = Rej /\ sync_parse [4; 0; 0; 0; 0; 0; 33; 18; 52; 86; 120; 0; 0; 0; 3] = Rej.
Proof. repeat split; vm_compute; reflexivity. Qed.
