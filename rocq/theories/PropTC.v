(** C41, C42 and C54: TC metadata, message headers, timestamps and payload classification. *)
From Verif Require Import Base BaseFacts VLU VLUSpec VLUProofs TC TCSpec TCProofs.

(** C41.  Parsing what encode wrote restores stream ID and receive order, whatever follows. *)
Theorem C41_metadata : forall sid net rest, is_u32 sid -> bytes_ok rest ->
  tcmeta_parse (tcmeta_encode sid net ++ rest) = Ok (sid, net, length (tcmeta_encode sid net)).
Proof. exact tcmeta_roundtrip. Qed.
Print Assumptions C41_metadata.

(** C41.  parse accepts exactly the metadata of RFC 7425: "TC", flags with bit 2 set, a complete VLU of at most 32 bits; it
    is defined for all bytes. *)
Theorem C41_metadata_exact : forall l, bytes_ok l -> tcmeta_parse l <> UB /\ forall sid net n,
  tcmeta_parse l = Ok (sid, net, n) <-> exists f L rest, l = 84 :: 67 :: f :: L ++ rest /\ Z.testbit f 2 = true /\ complete_vlu L /\ groups_value L <= U32MAX
     /\ sid = groups_value L /\ net = Z.odd f /\ n = (3 + length L)%nat.
Proof. exact (fun l H => conj (tcmeta_defined l H) (tcmeta_exact l H)). Qed.
Print Assumptions C41_metadata_exact.

(** C41.  A message's header carries its type and timestamp and its payload follows; every byte string of five bytes or
    more is a message, a shorter one is rejected. *)
Theorem C41_message : forall ty ts msg, is_byte ty -> is_u32 ts -> bytes_ok msg ->
  tc_header (tc_message ty ts msg) = Ok (ty, ts, 5%nat) /\ skipn 5 (tc_message ty ts msg) = msg.
Proof. exact message_roundtrip. Qed.
Print Assumptions C41_message.
Theorem C41_message_exact : forall l, bytes_ok l -> tc_header l <> UB /\ forall ty ts n,
  tc_header l = Ok (ty, ts, n) <-> exists msg, l = ty :: be32 ts ++ msg /\ is_u32 ts /\ n = 5%nat.
Proof. exact (fun l H => conj (header_defined l) (header_exact l H)). Qed.
Print Assumptions C41_message_exact.
Example C41_case : tcmeta_parse ([84; 67; 5; 129; 4] ++ [9]) = Ok (132, true, 5%nat) /\ tcmeta_encode 132 true = [84; 67; 5; 129; 4]
  /\ tcmeta_parse [84; 67; 1; 4] = Rej /\ tcmeta_parse [84; 67; 4; 144; 128; 128; 128; 0] = Rej
  /\ tc_message 9 305419896 [7] = [9; 18; 52; 86; 120; 7] /\ tc_header [9; 18; 52; 86] = Rej.
Proof. vm_compute. auto 8. Qed.

(** C42.  Two timestamps that stand for true times less than 2^31 ms apart compare as these times do, and their difference
    is the true distance. *)
Theorem C42_order : forall l r a b, stands_for l a -> stands_for r b -> - 2 ^ 31 < a - b < 2 ^ 31 ->
  timestamp_gt l r = (a >? b) /\ timestamp_lt l r = (a <? b) /\ timestamp_diff l r = a - b.
Proof. exact timestamps. Qed.
Print Assumptions C42_order.

(** C42.  Exactly one of less, greater, equal holds unless the distance is exactly half the range. *)
Theorem C42_trichotomy : forall l r, is_u32 l -> is_u32 r -> (l - r) mod 2 ^ 32 <> 2 ^ 31 ->
  (timestamp_lt l r = true /\ timestamp_gt l r = false /\ l <> r) \/ (timestamp_lt l r = false /\ timestamp_gt l r = true /\ l <> r)
  \/ (timestamp_lt l r = false /\ timestamp_gt l r = false /\ l = r).
Proof. exact trichotomy. Qed.
Print Assumptions C42_trichotomy.
(** The exception is real: at distance 2^31 each is both less and greater than the other. *)
Theorem C42_half_range_refuted : exists l r, is_u32 l /\ is_u32 r /\ timestamp_lt l r = true /\ timestamp_gt l r = true.
Proof. exists 0, 2147483648. repeat split; discriminate. Qed.
Print Assumptions C42_half_range_refuted.
Example C42_case : timestamp_lt 4294967000 100 = true /\ timestamp_gt 4294967000 100 = false /\ timestamp_diff 100 4294967000 = 396
  /\ stands_for 4294967000 4294967000 /\ stands_for 100 4294967396.
Proof. vm_compute. auto 6. Qed.

(** C54.  Every classification of an audio or video payload is defined on any payload, however short. *)
Theorem C54_defined : forall l, exists v1 v2 v3 v4 v5 v6 v7 a1 a2 a3 a4 a5 a6 a7,
  video_enhanced l = Ok v1 /\ video_metadata l = Ok v2 /\ video_multitrack l = Ok v3 /\ video_special l = Ok v4 /\ video_init l = Ok v5 /\ video_keyframe l = Ok v6 /\ video_codec l = Ok v7
  /\ audio_enhanced l = Ok a1 /\ audio_multichannel l = Ok a2 /\ audio_multitrack l = Ok a3 /\ audio_init l = Ok a4 /\ audio_end l = Ok a5 /\ audio_special l = Ok a6 /\ audio_codec l = Ok a7.
Proof. exact payload_defined. Qed.
Print Assumptions C54_defined.
(** C54.  A payload with initialisation data is special and never a keyframe. *)
Theorem C54_init_special : forall l, (video_init l = Ok true -> video_special l = Ok true /\ video_keyframe l = Ok false) /\ (audio_init l = Ok true -> audio_special l = Ok true).
Proof. exact init_special. Qed.
Print Assumptions C54_init_special.
(** C54.  The end-of-sequence payload made for a codec is recognised as special, is neither initialisation data nor a
    keyframe, and names its codec. *)
Theorem C54_eos : forall codec, is_u32 codec -> codec > 15 \/ codec = 7 ->
  video_codec (video_eos codec) = Ok codec /\ video_special (video_eos codec) = Ok true /\ video_init (video_eos codec) = Ok false /\ video_keyframe (video_eos codec) = Ok false.
Proof. exact eos_codec. Qed.
Print Assumptions C54_eos.
Example C54_case : video_init [23; 0; 0; 0; 0; 1] = Ok true /\ video_keyframe [23; 1; 0; 0; 0] = Ok true /\ audio_init [175; 0; 18] = Ok true
  /\ video_codec [144; 97; 118; 48; 49; 1] = Ok 1635135537 /\ video_init [144; 97; 118; 48; 49; 1] = Ok true.
Proof. vm_compute. auto 6. Qed.
