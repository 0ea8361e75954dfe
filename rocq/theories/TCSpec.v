(** Specification vocabulary for the TC formats. *)
From Verif Require Import Base.

(** A 32-bit timestamp [ts] stands for the true time [t] (milliseconds since some origin). *)
Definition stands_for (ts t : Z) : Prop := ts = t mod 2 ^ 32.

(** Flow metadata as RFC 7425 section 5.1 has it: "TC", a flags byte with the stream ID flag (4) set, the stream ID as a
    VLU; flag 1: receive intent is network order.  Something may follow. *)
Definition be32 (v : Z) : list Z := [v / 2 ^ 24; v / 2 ^ 16 mod 256; v / 2 ^ 8 mod 256; v mod 256].
