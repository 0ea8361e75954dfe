(** C09 and C10: List<T> and SumList<T>. *)
From Verif Require Import Base LinkedList LinkedListSpec LinkedListProofs.

(** C09.  Every sequence of calls on a new list runs without an out-of-range access, does what the sequence specification
    [lspec] says call by call (with distinct positive names all the time), and afterwards both iterations, size, empty,
    first, last, has, at and find are those of the sequence. *)
Theorem C09_list_refines : forall (T : Type) (eqb : T -> T -> bool) (blank : T) (os : list (lop T)), exists s0 s rs a,
  lst_init blank = Ok s0 /\ lrun s0 os = Ok (s, rs) /\ lspec_run blank [] os rs a /\ names_ok a
  /\ values s = Ok a /\ values_backward s = Ok (rev a) /\ size s = zlen a
  /\ empty s = Ok (match a with [] => true | _ => false end)
  /\ first s = Ok (match a with [] => 0 | (n, _) :: _ => n end) /\ last_ s = Ok (match rev a with [] => 0 | (n, _) :: _ => n end)
  /\ (forall n, has s n = Ok (match lookup a n with Some _ => true | None => false end))
  /\ (forall n, at_ s n = match lookup a n with Some v => Ok v | None => Rej end)
  /\ (forall v, find eqb s v = Ok (find_first eqb a v)).
Proof. exact session_ok. Qed.
Print Assumptions C09_list_refines.

(** C09.  A name keeps denoting its value through every call that does not remove or assign that very element. *)
Theorem C09_names_stable : forall (T : Type) (blank : T) (s : lst T) (o : lop T) (s' : lst T) r n v,
  reachable blank s -> at_ s n = Ok v -> lstep s o = Ok (s', r) -> ~ touches o n s -> at_ s' n = Ok v.
Proof. exact stable_step. Qed.
Print Assumptions C09_names_stable.

Definition run_list (os : list (lop Z)) : res (list (Z * Z) * list (Z * Z) * Z * list (option lret)) :=
  rbind (lst_init 0) (fun s0 => rbind (lrun s0 os) (fun p => rbind (values (fst p)) (fun v => rbind (values_backward (fst p)) (fun w =>
    Ok (v, w, size (fst p), snd p))))).
(** Fourteen insertions use up the first vector, a call with a bad name throws, the name of a
    removed element is used again, and the last insertion grows the vector. *)
Example C09_case :
  run_list (map (@Append Z) (map Z.of_nat (seq 100 14)) ++ [Remove 4; RotateToHead 15; MoveToTail 5; AddAfter 9 99; Prepend 7; AddBefore 8 12])
  = Ok ([(4, 7); (15, 113); (2, 100); (3, 101); (6, 104); (7, 105); (8, 106); (9, 107); (10, 108); (11, 109); (16, 8); (12, 110);
         (13, 111); (14, 112); (5, 103)],
        [(5, 103); (14, 112); (13, 111); (12, 110); (16, 8); (11, 109); (10, 108); (9, 107); (8, 106); (7, 105); (6, 104); (3, 101);
         (2, 100); (15, 113); (4, 7)], 15,
        map (fun n => Some (RName (Z.of_nat n))) (seq 2 14)
        ++ [Some (RBool true); Some (RBool true); Some (RBool true); None; Some (RName 4); Some (RName 16)]).
Proof. vm_compute. reflexivity. Qed.

(** C10.  After any sequence of value-carrying insertions, removals, moves, rotations and clears, sum() is the sum of the
    sizes of the values in the list (as a size_t: modulo 2^64, exact while the true sum fits). *)
Theorem C10_sum_is_total : forall (T : Type) (size_f : T -> Z) (blank : T) (os : list (lop T)), Forall sum_op os -> exists s0 s rs a,
  sum_init blank = Ok s0 /\ sum_run size_f s0 os = Ok (s, rs) /\ lspec_run blank [] os rs a
  /\ values (s_list s) = Ok a /\ s_sum s = total size_f a mod 18446744073709551616
  /\ ((forall v, 0 <= size_f v) -> total size_f a < 18446744073709551616 -> s_sum s = total size_f a).
Proof. exact sum_session_ok. Qed.
Print Assumptions C10_sum_is_total.

Definition run_sum (os : list (lop Z)) : res (list (Z * Z) * Z) :=
  rbind (sum_init 0) (fun s0 => rbind (sum_run (fun x => x) s0 os) (fun p => rbind (values (s_list (fst p))) (fun v =>
    Ok (v, s_sum (fst p))))).
Example C10_case : run_sum [Append 5; Prepend 7; Append 11; MoveToHead 4; Remove 2; RemoveLast; AddAfter 100 4] = Ok ([(4, 11); (5, 100)], 111).
Proof. vm_compute. reflexivity. Qed.

(** C10 stops at [sum_op]: a valueless insertion followed by an assignment through at(), which List's interface offers on a
    SumList too, leaves sum() behind, and removing that element takes it below zero. *)
Theorem C10_sum_unchecked_ops_refuted : exists (os : list (lop Z)) s0 s rs a,
  sum_init 0 = Ok s0 /\ sum_run (fun x => x) s0 os = Ok (s, rs) /\ values (s_list s) = Ok a
  /\ total (fun x => x) a = 0 /\ s_sum s = 18446744073709551615.
Proof.
  exists [AddBeforeN 0; SetAt 2 1; Remove 2]. do 4 eexists.
  split; [vm_compute; reflexivity|]. split; [vm_compute; reflexivity|]. split; [vm_compute; reflexivity|]. split; vm_compute; reflexivity.
Qed.
Print Assumptions C10_sum_unchecked_ops_refuted.
