(** C43 and C53: media message headers and flow metadata. *)
From Verif Require Import Base BaseFacts VLU VLUSpec VLUProofs Media MediaSpec MediaProofs.

(** C43.  Parsing the header of a message made by basicMakeMessage restores the flag, the type, both time stamps, the bytes
    of the option list and the payload. *)
Theorem C43_roundtrip : forall rai ty dts pts opts payload, 0 <= ty < 16 -> is_u64 dts -> is_u64 pts -> message_options opts -> bytes_ok payload ->
  exists h, media_header (media_message rai ty dts pts opts payload) = Ok h
    /\ h_rai h = rai /\ h_type h = ty /\ h_dts h = dts /\ h_pts h = pts
    /\ skipn (h_payload h) (media_message rai ty dts pts opts payload) = payload
    /\ (h_opts h <= h_payload h)%nat /\ firstn (h_payload h - h_opts h) (skipn (h_opts h) (media_message rai ty dts pts opts payload)) = opts.
Proof. exact message_roundtrip. Qed.
Print Assumptions C43_roundtrip.
(** C43.  On any bytes the parser stays inside the message, and so do the positions it answers. *)
Theorem C43_safe : forall l, bytes_ok l -> media_header l <> UB
  /\ forall h, media_header l = Ok h -> (1 <= h_opts h)%nat /\ (h_opts h <= h_payload h)%nat /\ (h_payload h <= length l)%nat.
Proof. exact header_defined. Qed.
Print Assumptions C43_safe.
Example C43_case : media_message true 9 1000 900 (option_append_end (options_append [(3, [7; 7])] [])) [1; 2] = [249; 135; 104; 100; 3; 3; 7; 7; 0; 1; 2]
  /\ media_header [249; 135; 104; 100; 3; 3; 7; 7; 0; 1; 2] = Ok (mkHead true 9 1000 900 4 9)
  /\ media_header [48; 1; 2] = Rej /\ media_header [64; 3; 3; 7] = Rej.
Proof. vm_compute. auto 6. Qed.

(** C53.  Reading the metadata of a description restores the description. *)
Theorem C53_roundtrip : forall m, media_ok m -> media_parse (media_encode m) = Ok m.
Proof. exact metadata_roundtrip. Qed.
Print Assumptions C53_roundtrip.
(** C53.  Reading metadata is defined for all bytes. *)
Theorem C53_safe : forall l, bytes_ok l -> media_parse l <> UB.
Proof. exact metadata_defined. Qed.
Print Assumptions C53_safe.
(** C53.  An option of unknown type may stand anywhere and changes nothing. *)
Theorem C53_unknown_ignored : forall os1 os2 ty v, Forall option_ok (os1 ++ (ty, v) :: os2) -> ~ known_option ty ->
  media_parse (MEDIA_SIGNATURE ++ options_append (os1 ++ (ty, v) :: os2) []) = media_parse (MEDIA_SIGNATURE ++ options_append (os1 ++ os2) []).
Proof. exact unknown_ignored. Qed.
Print Assumptions C53_unknown_ignored.
(** C53.  Metadata without a stream ID or a codec is not accepted. *)
Theorem C53_required : forall os m, Forall option_ok os -> media_parse (MEDIA_SIGNATURE ++ options_append os []) = Ok m ->
  In OPT_STREAM_ID (map fst os) /\ In OPT_CODEC (map fst os).
Proof. exact required_options. Qed.
Print Assumptions C53_required.
Definition sample_media : media := mkMedia 300 2 [97; 118; 99] [118] [] (Some 25) (Some [0;0;0;0;1;2;3;4;5;6;7;8;9;10;11;12]) 90000 1 true.
Example C53_case : media_parse (media_encode sample_media) = Ok sample_media
  /\ media_parse (MEDIA_SIGNATURE ++ options_append [(99, [1]); (76, [120]); (29, [5]); (98, [])] []) = Ok (md_codec (md_stream media_init 5) [120])
  /\ media_parse (MEDIA_SIGNATURE ++ options_append [(76, [120])] []) = Rej.
Proof. vm_compute. auto. Qed.
