(** Model of the byte formats in src/TCMessage.cpp: timestamps, TCMetadata, TCMessage headers, and the classification of audio
    and video payloads.  (The command builders only put AMF0 values one after the other; see AMF.v.) *)
From Verif Require Import Base VLU.
Open Scope res_scope.

(** *payload, payload[i]: reading outside the buffer is [UB]. *)
Definition rd (l : list Z) (i : nat) : res Z := match nth_error l i with Some b => Ok b | None => UB end.

(** ** Timestamps *)
(** TCMessage.cpp 178-193.  Conversion of a uint32_t to int32_t is modulo 2^32. *)
Definition to_i32 (x : Z) : Z := if x >? 2147483647 then x - 4294967296 else x.
Definition timestamp_gt (l r : Z) : bool := wrap32 (r - l) >? 2147483647.
Definition timestamp_lt (l r : Z) : bool := timestamp_gt r l.
Definition timestamp_diff (l r : Z) : Z := if timestamp_gt l r then to_i32 (wrap32 (l - r)) else 0 - to_i32 (wrap32 (r - l)).

(** ** Flow metadata *)
(** 203-228: TCMetadata::parse; answers stream ID, whether the order is RO_NETWORK, and the length *)
Definition tcmeta_parse (l : list Z) : res (Z * bool * nat) :=
  if zlen l <? 4 then Rej
  else
    a <- rd l 0;;
    if negb (a =? 84) then Rej else
    b <- rd l 1;;
    if negb (b =? 67) then Rej else
    f <- rd l 2;;
    if Z.land f 4 =? 0 then Rej else
    ' (sid, rv) <- vlu_parse (skipn 3 l);;
    if sid >? U32MAX then Rej else Ok (sid, Z.land f 1 =? 1, (3 + rv)%nat).
(** 235-245: TCMetadata::encode *)
Definition tcmeta_encode (sid : Z) (network : bool) : list Z := vlu_append sid ([] ++ [84] ++ [67] ++ [Z.lor 4 (if network then 1 else 0)]).

(** ** Messages *)
(** 249-269: TCMessage::parseHeader; answers type, timestamp and header length *)
Definition tc_header (l : list Z) : res (Z * Z * nat) :=
  if zlen l <? 5 then Rej
  else
    ty <- rd l 0;;
    t0 <- rd l 1;;
    t1 <- rd l 2;;
    t2 <- rd l 3;;
    t3 <- rd l 4;;
    let a := wrap32 (wrap32 (Z.shiftl t0 8) + t1) in
    let b := wrap32 (wrap32 (Z.shiftl a 8) + t2) in
    Ok (ty, wrap32 (wrap32 (Z.shiftl b 8) + t3), 5%nat).
(** 271-285: TCMessage::message *)
Definition tc_message (ty ts : Z) (msg : list Z) : list Z :=
  [ty; Z.land (Z.shiftr ts 24) 255; Z.land (Z.shiftr ts 16) 255; Z.land (Z.shiftr ts 8) 255; Z.land ts 255] ++ msg.

(** ** Video *)
(** 109-113 *)
Definition video_enhanced (l : list Z) : res bool := if zlen l >=? 5 then a <- rd l 0;; Ok (negb (Z.land a 128 =? 0)) else Ok false.
(** 115-118 *)
Definition video_metadata (l : list Z) : res bool :=
  e <- video_enhanced l;; if (e : bool) then a <- rd l 0;; Ok (4 =? Z.land a 15) else Ok false.
(** 120-123 *)
Definition video_multitrack (l : list Z) : res bool :=
  e <- video_enhanced l;; if (e : bool) then a <- rd l 0;; Ok (6 =? Z.land a 15) else Ok false.
(** 92-107: isVideoSequenceSpecial *)
Definition video_special (l : list Z) : res bool :=
  if zlen l =? 0 then Ok true
  else if zlen l <? 2 then Ok false
  else
    e <- video_enhanced l;;
    a <- rd l 0;;
    if (e : bool) then
      m <- video_multitrack l;;
      if (m : bool) then Ok false else Ok (negb (1 =? Z.land a 15) && negb (3 =? Z.land a 15))
    else b <- rd l 1;; Ok ((7 =? Z.land a 15) && negb (1 =? b)).
(** 78-85: isVideoInit *)
Definition video_init (l : list Z) : res bool :=
  e <- video_enhanced l;;
  if (e : bool) then a <- rd l 0;; Ok ((0 =? Z.land a 15) || (5 =? Z.land a 15))
  else if zlen l >? 1 then a <- rd l 0;; if 7 =? Z.land a 15 then b <- rd l 1;; Ok (0 =? b) else Ok false
  else Ok false.
(** 87-90: isVideoKeyframe *)
Definition video_keyframe (l : list Z) : res bool :=
  if zlen l =? 0 then Ok false
  else a <- rd l 0;; if 16 =? Z.land a 112 then s <- video_special l;; Ok (negb s) else Ok false.
(** 60-76: makeVideoEndOfSequence *)
Definition video_eos (codec : Z) : list Z :=
  if codec >? 15 then
    [Z.lor (Z.lor 128 16) 2; Z.land (Z.shiftr codec 24) 255; Z.land (Z.shiftr codec 16) 255; Z.land (Z.shiftr codec 8) 255; Z.land codec 255]
  else if 7 =? codec then [Z.lor 16 7; 2; 0; 0; 0]
  else [].
(** The four bytes of a FourCC; int arithmetic converted to uint32_t. *)
Definition fourcc (l : list Z) : res Z :=
  a <- rd l 1;; b <- rd l 2;; c <- rd l 3;; d <- rd l 4;; Ok (wrap32 (Z.shiftl a 24 + Z.shiftl b 16 + Z.shiftl c 8 + d)).
(** 158-166: getVideoCodec *)
Definition video_codec (l : list Z) : res Z :=
  e <- video_enhanced l;;
  if (e : bool) then m <- video_multitrack l;; if (m : bool) then Ok 0 else fourcc l
  else if zlen l =? 0 then Ok 0 else a <- rd l 0;; Ok (Z.land a 15).

(** ** Audio *)
(** 143-146 *)
Definition audio_enhanced (l : list Z) : res bool := if zlen l >=? 5 then a <- rd l 0;; Ok (Z.land a 240 =? 144) else Ok false.
(** 148-151, 153-156 *)
Definition audio_multichannel (l : list Z) : res bool :=
  e <- audio_enhanced l;; if (e : bool) then a <- rd l 0;; Ok (4 =? Z.land a 15) else Ok false.
Definition audio_multitrack (l : list Z) : res bool :=
  e <- audio_enhanced l;; if (e : bool) then a <- rd l 0;; Ok (5 =? Z.land a 15) else Ok false.
(** 125-131: isAudioInit *)
Definition audio_init (l : list Z) : res bool :=
  e <- audio_enhanced l;;
  if (e : bool) then a <- rd l 0;; Ok (0 =? Z.land a 15)
  else if zlen l >? 1 then a <- rd l 0;; if 160 =? Z.land a 240 then b <- rd l 1;; Ok (0 =? b) else Ok false
  else Ok false.
(** 138-141: isAudioSequenceEnd *)
Definition audio_end (l : list Z) : res bool := if zlen l =? 0 then Ok true else a <- rd l 0;; Ok (a =? Z.lor 144 2).
(** 133-136: isAudioSequenceSpecial *)
Definition audio_special (l : list Z) : res bool :=
  e <- audio_end l;; if (e : bool) then Ok true else i <- audio_init l;; if (i : bool) then Ok true else audio_multichannel l.
(** 168-176: getAudioCodec *)
Definition audio_codec (l : list Z) : res Z :=
  e <- audio_enhanced l;;
  if (e : bool) then m <- audio_multitrack l;; if (m : bool) then Ok 144 else fourcc l
  else if zlen l =? 0 then Ok 0 else a <- rd l 0;; Ok (Z.land a 240).
