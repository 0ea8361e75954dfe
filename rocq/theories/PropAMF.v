(** C37, C38: AMF0 values survive encoding and decoding; decoding any bytes is safe. *)
From Verif Require Import Base BaseFacts AMF AMFSpec AMFProofs.
Open Scope Z_scope.

(** An object with a nested array holding an empty pointer, a typed object with an empty key, an ECMA array. *)
Definition sample : amf :=
  AObj [([97], Some (AArr [Some (ANum 4611686018427387904); None; Some (AStr [104; 105])]));
        ([98], Some (ATyped [67] [([], Some (ABool true))]));
        ([98; 99], Some (AEcma [([1], Some ANull); ([2], None)]))].
Lemma sample_ok : value_ok sample.
Proof.
  unfold sample. assert (S : forall s n, bytes_okb s = true -> zlen s <? n = true -> str_ok n s). { intros s n B L. split; [apply bytes_okb_ok, B|apply Z.ltb_lt, L]. }
  repeat (first [ progress (intros; cbn [In] in *) | match goal with H : _ \/ _ |- _ => destruct H | H : False |- _ => destruct H | H : (_, _) = (_, _) |- _ => inversion H; clear H; subst | H : Some _ = Some _ |- _ => inversion H; clear H; subst | H : None = Some _ |- _ => discriminate H end
    | apply S; reflexivity | apply Z.ltb_lt; reflexivity | (unfold is_u64; split; [apply Z.leb_le; reflexivity|apply Z.leb_le; reflexivity]) | apply less_head; apply Z.ltb_lt; reflexivity | apply less_tail | constructor ]).
Qed.

(** Every value a program can make, nested no deeper than 32, decodes from its encoding, whatever follows, to itself with
    Undefined for the empty pointers, and the cursor stops exactly at the end of the encoding. *)
Theorem C37_roundtrip : forall v rest, value_ok v -> (height v <= 32)%nat -> amf_decode (amf_encode v ++ rest) = Ok (Some (filled v), rest).
Proof. exact amf_roundtrip. Qed.
Print Assumptions C37_roundtrip.
Example C37_roundtrip_ex : value_ok sample /\ (height sample <= 32)%nat /\ amf_decode (amf_encode sample ++ [7; 7]) = Ok (Some (filled sample), [7; 7]) /\ filled sample <> sample.
Proof. split; [exact sample_ok|]. split; [cbn; lia|]. split; [vm_compute; reflexivity|discriminate]. Qed.

(** The encoding consists of bytes. *)
Theorem C37_bytes : forall v, value_ok v -> bytes_ok (amf_encode v).
Proof. intros v V. exact (encode_bytes (height v) v (le_n _) V). Qed.
Print Assumptions C37_bytes.
Example C37_bytes_ex : value_ok sample /\ (50 <? length (amf_encode sample))%nat = true.
Proof. split; [exact sample_ok|reflexivity]. Qed.

(** A list of values encoded one after the other decodes to that list. *)
Theorem C37_list : forall vs, Forall (fun v => value_ok v /\ (height v <= 32)%nat) vs -> amf_decode_all (amf_encode_list (map Some vs)) = Ok (true, map filled vs).
Proof. intros vs F. unfold amf_decode_all. exact (dec_all_roundtrip vs _ [] F (le_n _)). Qed.
Print Assumptions C37_list.
Example C37_list_ex : Forall (fun v => value_ok v /\ (height v <= 32)%nat) [sample; ANull; sample].
Proof. repeat (constructor; [split; [first [exact sample_ok|constructor]|cbn; lia]|]). constructor. Qed.

(** duplicate answers the same value. *)
Theorem C37_duplicate : forall v, value_ok v -> (height v <= 32)%nat -> amf_duplicate v = Ok (Some (filled v)).
Proof. exact amf_dup. Qed.
Print Assumptions C37_duplicate.
Example C37_duplicate_ex : value_ok sample /\ amf_duplicate sample = Ok (Some (filled sample)).
Proof. split; [exact sample_ok|vm_compute; reflexivity]. Qed.

(** Different values have different encodings, and no encoding is a proper beginning of another. *)
Theorem C37_injective : forall v w r1 r2, value_ok v -> value_ok w -> (height v <= 32)%nat -> (height w <= 32)%nat ->
  amf_encode v ++ r1 = amf_encode w ++ r2 -> filled v = filled w /\ r1 = r2.
Proof.
  intros v w r1 r2 V W Hv Hw E. pose proof (amf_roundtrip v r1 V Hv) as A. rewrite E, (amf_roundtrip w r2 W Hw) in A. injection A as A1 A2. split; symmetry; assumption.
Qed.
Print Assumptions C37_injective.
Example C37_injective_ex : value_ok (ABool true) /\ value_ok (ABool false) /\ amf_encode (ABool true) <> amf_encode (ABool false).
Proof. split; [constructor|]. split; [constructor|discriminate]. Qed.

(** Not so for deeper values: encode writes them, decode refuses them. *)
Theorem C37_deep_refuted : ~ (forall v, value_ok v -> exists w r, amf_decode (amf_encode v) = Ok (Some w, r)).
Proof.
  intros H. destruct (H (nest 33) (nest_ok 33)) as (w & r & E). assert (X : match amf_decode (amf_encode (nest 33)) with Ok (None, _) => true | _ => false end = true) by (vm_compute; reflexivity).
  rewrite E in X. discriminate.
Qed.
Print Assumptions C37_deep_refuted.
Example C37_deep_refuted_ex : value_ok (nest 33) /\ height (nest 33) = 33%nat.
Proof. split; [apply nest_ok|apply nest_height]. Qed.

(** For any bytes: decode ends, reads none past the limit and nests no deeper than its limit (each would be [UB]).  On failure
    the cursor is where it was.  On success it has moved over at least one byte and not past the end, and the value is one a
    program can make, without empty pointers, nested no deeper than 32. *)
Theorem C38_decode : forall l, bytes_ok l -> exists o r, amf_decode l = Ok (o, r) /\
  match o with
  | None => r = l
  | Some v => (exists p, l = p ++ r /\ p <> []) /\ value_ok v /\ filled v = v /\ (height v <= 32)%nat
  end.
Proof. exact amf_safe. Qed.
Print Assumptions C38_decode.
Example C38_decode_ex : amf_decode [8; 255; 255; 255; 255; 0; 1; 65; 5; 0; 0; 9; 1] = Ok (Some (AEcma [([65], Some ANull)]), [1]) /\ amf_decode [10; 0; 0; 0; 2; 5] = Ok (None, [10; 0; 0; 0; 2; 5]).
Proof. split; vm_compute; reflexivity. Qed.

(** What was decoded encodes, and decodes again to the same value. *)
Theorem C38_stable : forall l v r, bytes_ok l -> amf_decode l = Ok (Some v, r) -> forall rest, amf_decode (amf_encode v ++ rest) = Ok (Some v, rest).
Proof.
  intros l v r B E rest. destruct (amf_safe l B) as (o & r' & E' & P). rewrite E in E'. injection E' as <- <-. destruct P as (_ & V & F & H). rewrite <- F at 2. apply amf_roundtrip; assumption.
Qed.
Print Assumptions C38_stable.
(** a member twice: the last one counts; the ECMA length is not checked *)
Example C38_stable_ex : let l := [8; 0; 0; 0; 9; 0; 1; 65; 5; 0; 1; 65; 6; 0; 0; 9] in
  bytes_ok l /\ amf_decode l = Ok (Some (AEcma [([65], Some AUndef)]), []) /\ amf_encode (AEcma [([65], Some AUndef)]) <> l.
Proof. split; [apply bytes_okb_ok; reflexivity|]. split; [vm_compute; reflexivity|discriminate]. Qed.

(** Decoding all values of a buffer ends too, and appends only such values. *)
Theorem C38_all : forall l, bytes_ok l -> exists ok vs, amf_decode_all l = Ok (ok, vs) /\ Forall (fun v => value_ok v /\ (height v <= 32)%nat) vs.
Proof. intros l B. exact (dec_all_safe _ l [] B (le_n _)). Qed.
Print Assumptions C38_all.
Example C38_all_ex : amf_decode_all [5; 6; 1; 1; 200] = Ok (false, [ANull; AUndef; ABool true]).
Proof. vm_compute. reflexivity. Qed.
