(** Property C78: the JSON text of an AMF0 value. *)
From Verif Require Import Base AMF AMFSpec JSON JSONSpec JSONProofs JSONText.

(** toJSON gives one JSON text, of the value's JSON value ([dtoa]: any text of numbers that is a JSON number or null). *)
Theorem C78_json : forall dtoa indent v, (forall u, is_u64 u -> dtoa true u = t_null \/ number (dtoa true u)) -> value_ok v ->
  reads (to_json dtoa indent v) (view (num_view dtoa) v) [].
Proof. intros dtoa indent v H V. exact (json_reads dtoa H indent v V). Qed.
Print Assumptions C78_json.
(** Nobody can read it as anything else, nor find anything after it. *)
Theorem C78_only : forall dtoa indent v, (forall u, is_u64 u -> dtoa true u = t_null \/ number (dtoa true u)) -> value_ok v ->
  forall w r, reads (to_json dtoa indent v) w r -> w = view (num_view dtoa) v /\ r = [].
Proof. intros dtoa indent v H V. exact (json_only dtoa H indent v V). Qed.
Print Assumptions C78_only.
Definition sevens : bool -> Z -> list Z := fun _ _ => [55].
Lemma sevens_ok : forall u, is_u64 u -> sevens true u = t_null \/ number (sevens true u).
Proof.
  intros u _. right. exists [], [55], [], []. split; [reflexivity|]. split; [auto|]. split; [split; [discriminate|repeat constructor; unfold is_digit; lia]|]. split; [right; cbn; lia|]. split; left; reflexivity.
Qed.
(** a string with a quote, a newline and a byte 1; an undefined member; an empty pointer in an array *)
Definition demo : amf := AObj [([97], Some (AStr [34; 10; 1])); ([98], Some AUndef); ([99], Some (AArr [None; Some (ANum 0)]))].
Example C78_case : value_ok demo /\
  to_json sevens 0 demo = [123; 34; 97; 34; 58; 34; 92; 34; 92; 110; 92; 117; 48; 48; 48; 49; 34; 44; 34; 99; 34; 58; 91; 110; 117; 108; 108; 44; 55; 93; 125] /\
  view (num_view sevens) demo = JObj [([97], JStr [34; 10; 1]); ([99], JArr [JNull; JNum [55]])].
Proof.
  split; [|split; vm_compute; reflexivity].
  assert (L : forall x y, x < y -> less [x] [y]) by (intros; apply less_head; assumption).
  apply ok_obj.
  - cbn [map fst]. apply asc_cons; [repeat constructor; lia|]. apply asc_cons; [repeat constructor; lia|]. apply asc_cons; constructor.
  - intros k o [H|[H|[H|[]]]]; inversion H; subst; split; try (cbn; lia); repeat constructor; unfold is_byte; lia.
  - intros k x [H|[H|[H|[]]]]; inversion H; subst.
    + apply ok_str. split; [repeat constructor; unfold is_byte; lia|cbn; lia].
    + apply ok_undef.
    + apply ok_arr; [cbn; lia|]. intros y [H'|[H'|[]]]; inversion H'; subst. apply ok_num. unfold is_u64, U64MAX. lia.
Qed.

(** Strings alone: what is between the quotes means the string. *)
Theorem C78_string : forall s, bytes_ok s -> exists t, json_string s = 34 :: t ++ [34] /\ jchars t s /\
  forall t' m' r', jchars t' m' -> json_string s = 34 :: t' ++ 34 :: r' -> m' = s /\ r' = [].
Proof.
  intros s B. exists (concat (map json_char s)). split; [reflexivity|]. split; [apply json_chars; exact B|].
  intros t' m' r' J E. unfold json_string in E. cbn [app] in E. injection E as E. destruct (jchars_unique _ _ (json_chars s B) _ _ _ _ J E) as [-> <-]. auto.
Qed.
Print Assumptions C78_string.
Example C78_string_case : bytes_ok [34; 92; 127; 200] /\ json_string [34; 92; 127; 200] = [34; 92; 34; 92; 92; 92; 117; 48; 48; 55; 70; 200; 34].
Proof. split; [repeat constructor; unfold is_byte; lia|vm_compute; reflexivity]. Qed.

(** The digits of an integer are its value's, without leading zeros. *)
Theorem C78_base10 : forall v, is_u64 v -> digits (to_base10 v) /\ dec_value (to_base10 v) = v /\ (to_base10 v = [48] \/ hd 0 (to_base10 v) <> 48).
Proof. exact base10_spec. Qed.
Print Assumptions C78_base10.
Example C78_base10_case : to_base10 18446744073709551615 = [49; 56; 52; 52; 54; 55; 52; 52; 48; 55; 51; 55; 48; 57; 53; 53; 49; 54; 49; 53] /\ to_base10 0 = [48].
Proof. split; vm_compute; reflexivity. Qed.
