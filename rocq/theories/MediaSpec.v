(** Specification vocabulary for media messages and metadata. *)
From Verif Require Import Base VLU VLUSpec Media.

(** An option list a caller may put into a message: none, or options followed by the end marker. *)
Inductive message_options : list Z -> Prop :=
| mo_none : message_options []
| mo_some : forall os, Forall option_ok os -> message_options (option_append_end (options_append os [])).

(** A description that can be announced: 64-bit numbers, strings of bytes, a time scale that is not zero, an NTP time
    origin of 16 bytes not before 1900. *)
Record media_ok (m : media) : Prop := {
  mk_stream : is_u64 (m_stream m); mk_track : is_u64 (m_track m);
  mk_codec : bytes_ok (m_codec m) /\ zlen (m_codec m) <= U64MAX - 20;
  mk_type : bytes_ok (m_type m) /\ zlen (m_type m) <= U64MAX - 20;
  mk_name : bytes_ok (m_name m) /\ zlen (m_name m) <= U64MAX - 20;
  mk_reorder : forall r, m_reorder m = Some r -> is_u64 r;
  mk_origin : forall o, m_origin m = Some o -> bytes_ok o /\ length o = 16%nat /\ nth 0 o 0 < 128;
  mk_ticks : is_u64 (m_ticks m) /\ m_ticks m <> 0; mk_per : is_u64 (m_per m) /\ m_per m <> 0 }.

(** The option types the receiver understands: stream ID, codec, media type, time origin, time scale, receive intent,
    reorder suggestion, track name, track ID (include/rtmfp/Media.hpp). *)
Definition known_option (ty : Z) : Prop := In ty [29; 76; 68; 0; 1; 10; 11; 33; 45].
