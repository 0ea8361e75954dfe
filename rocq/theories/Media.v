(** Model of the byte formats in src/Media.cpp: message headers and flow metadata.  Left out: conversion between ticks and
    Time (long double), so the time origin is its 16-byte NTP form and the reorder suggestion its number of ticks. *)
From Verif Require Import Base VLU.
Open Scope res_scope.

(** Media.cpp 287-329: basicMakeMessage; [ty] is messageType (an int) *)
Definition media_message (rai : bool) (ty dts pts : Z) (opts payload : list Z) : list Z :=
  let tss := if negb (dts =? 0) || negb (pts =? 0) then (if pts =? dts then 16 else if pts <? dts then 48 else 32) else 0 in
  let offset := if negb (dts =? 0) || negb (pts =? 0) then (if pts =? dts then 0 else if pts <? dts then wrap64 (dts - pts) else wrap64 (pts - dts)) else 0 in
  let rv := [Z.lor (Z.lor (Z.lor (if rai then 128 else 0) (if zlen opts =? 0 then 0 else 64)) tss) (Z.land ty 15)] in
  let rv1 := if tss >? 0 then (let r := vlu_append dts rv in if tss >? 16 then vlu_append offset r else r) else rv in
  let rv2 := if zlen opts =? 0 then rv1 else rv1 ++ opts in
  if zlen payload =? 0 then rv2 else rv2 ++ payload.

(** 404-416: the option list loop, which ends at the marker; answers the bytes consumed *)
Fixpoint media_skip (fuel : nat) (l : list Z) : res nat :=
  match fuel with
  | O => UB
  | S fuel' =>
      ' (_, value, rv) <- option_parse l;;
      match value with None => Ok rv | Some _ => n <- media_skip fuel' (skipn rv l);; Ok (rv + n)%nat end
  end.
Record mhead := mkHead { h_rai : bool; h_type : Z; h_dts : Z; h_pts : Z; h_opts : nat; h_payload : nat }.
(** 354-420: basicParseHeader *)
Definition media_header (l : list Z) : res mhead :=
  match l with
  | [] => Rej
  | m :: rest =>
      let tss := Z.land m 48 in
      ' (dts, off, n) <- (if tss >? 0 then
          ' (dts, rv) <- vlu_parse rest;;
          if tss >? 16 then ' (off, rv2) <- vlu_parse (skipn rv rest);; Ok (dts, off, (rv + rv2)%nat) else Ok (dts, 0, rv)
        else Ok (0, 0, 0%nat));;
      if (tss =? 48) && (off >? dts) then Rej
      else
        let pts := if tss =? 48 then wrap64 (dts - off) else wrap64 (dts + off) in
        k <- (if Z.land m 64 =? 0 then Ok 0%nat else media_skip (S (length l)) (skipn n rest));;
        Ok (mkHead (negb (Z.land m 128 =? 0)) (Z.land m 15) dts pts (1 + n)%nat (1 + n + k)%nat)
  end.

(** ** Flow metadata *)
(** 13: _signature, with its terminating zero: "http://zenomt.com/ns/rtmfp#media" *)
Definition MEDIA_SIGNATURE : list Z :=
  [104; 116; 116; 112; 58; 47; 47; 122; 101; 110; 111; 109; 116; 46; 99; 111; 109; 47; 110; 115; 47; 114; 116; 109; 102; 112; 35; 109; 101; 100; 105; 97; 0].
(** Media.hpp 28-33 and 129-132.  [m_origin]: the 16 bytes of _toNTP4, None for an origin of 0; [m_reorder]: the reorder
    suggestion in ticks, None for no suggestion. *)
Record media := mkMedia {
  m_stream : Z; m_track : Z; m_codec : list Z; m_type : list Z; m_name : list Z; m_reorder : option Z; m_origin : option (list Z);
  m_ticks : Z; m_per : Z; m_network : bool }.
Definition media_init : media := mkMedia 0 0 [] [] [] None None 1000 1 false.

Definition OPT_STREAM_ID := 29.
Definition OPT_CODEC := 76.
Definition OPT_MEDIA_TYPE := 68.
Definition OPT_TIME_ORIGIN := 0.
Definition OPT_TIMESCALE := 1.
Definition OPT_RX_NETWORK := 10.
Definition OPT_REORDER := 11.
Definition OPT_TRACK_NAME := 33.
Definition OPT_TRACK_ID := 45.

(** 179-217: toMetadata *)
Definition media_encode (m : media) : list Z :=
  let rv := option_append_vlu OPT_STREAM_ID (m_stream m) MEDIA_SIGNATURE in
  let rv := option_append OPT_CODEC (m_codec m) rv in
  let rv := if zlen (m_type m) =? 0 then rv else option_append OPT_MEDIA_TYPE (m_type m) rv in
  let rv := match m_origin m with None => rv | Some o => option_append OPT_TIME_ORIGIN o rv end in
  let rv := if negb (1000 =? m_ticks m) || negb (1 =? m_per m) then option_append OPT_TIMESCALE (vlu_append (m_per m) (vlu_append (m_ticks m) [])) rv else rv in
  let rv := if m_network m then option_append OPT_RX_NETWORK [] rv else rv in
  let rv := match m_reorder m with None => rv | Some r => option_append_vlu OPT_REORDER r rv end in
  let rv := if zlen (m_name m) =? 0 then rv else option_append OPT_TRACK_NAME (m_name m) rv in
  if m_track m =? 0 then rv else option_append_vlu OPT_TRACK_ID (m_track m) rv.

Definition md_stream (m : media) x := mkMedia x (m_track m) (m_codec m) (m_type m) (m_name m) (m_reorder m) (m_origin m) (m_ticks m) (m_per m) (m_network m).
Definition md_track (m : media) x := mkMedia (m_stream m) x (m_codec m) (m_type m) (m_name m) (m_reorder m) (m_origin m) (m_ticks m) (m_per m) (m_network m).
Definition md_codec (m : media) x := mkMedia (m_stream m) (m_track m) x (m_type m) (m_name m) (m_reorder m) (m_origin m) (m_ticks m) (m_per m) (m_network m).
Definition md_type (m : media) x := mkMedia (m_stream m) (m_track m) (m_codec m) x (m_name m) (m_reorder m) (m_origin m) (m_ticks m) (m_per m) (m_network m).
Definition md_name (m : media) x := mkMedia (m_stream m) (m_track m) (m_codec m) (m_type m) x (m_reorder m) (m_origin m) (m_ticks m) (m_per m) (m_network m).
Definition md_reorder (m : media) x := mkMedia (m_stream m) (m_track m) (m_codec m) (m_type m) (m_name m) x (m_origin m) (m_ticks m) (m_per m) (m_network m).
Definition md_origin (m : media) x := mkMedia (m_stream m) (m_track m) (m_codec m) (m_type m) (m_name m) (m_reorder m) x (m_ticks m) (m_per m) (m_network m).
Definition md_scale (m : media) t q := mkMedia (m_stream m) (m_track m) (m_codec m) (m_type m) (m_name m) (m_reorder m) (m_origin m) t q (m_network m).
Definition md_network (m : media) := mkMedia (m_stream m) (m_track m) (m_codec m) (m_type m) (m_name m) (m_reorder m) (m_origin m) (m_ticks m) (m_per m) true.

(** 108-168: one option; the state also holds sawStreamID and sawCodec *)
Definition media_option (st : media * bool * bool) (ty : Z) (value : list Z) : res (media * bool * bool) :=
  let '(m, sid, cod) := st in
  if ty =? OPT_STREAM_ID then ' (v, _) <- vlu_parse value;; Ok (md_stream m v, true, cod)
  else if ty =? OPT_CODEC then Ok (md_codec m value, sid, true)
  else if ty =? OPT_MEDIA_TYPE then Ok (md_type m value, sid, cod)
  else if ty =? OPT_TIME_ORIGIN then
    if zlen value <? 16 then Rej
    else match value with
         | [] => UB
         | b :: _ => if b >=? 128 then Rej else Ok (md_origin m (Some (firstn 16 value)), sid, cod)
         end
  else if ty =? OPT_TIMESCALE then
    ' (t, rv) <- vlu_parse value;;
    ' (q, _) <- vlu_parse (skipn rv value);;
    if (t =? 0) || (q =? 0) then Rej else Ok (md_scale m t q, sid, cod)
  else if ty =? OPT_RX_NETWORK then Ok (md_network m, sid, cod)
  else if ty =? OPT_REORDER then ' (v, _) <- vlu_parse value;; Ok (md_reorder m (Some v), sid, cod)
  else if ty =? OPT_TRACK_NAME then Ok (md_name m value, sid, cod)
  else if ty =? OPT_TRACK_ID then ' (v, _) <- vlu_parse value;; Ok (md_track m v, sid, cod)
  else Ok (m, sid, cod).
(** 93-169: the loop *)
Fixpoint media_loop (fuel : nat) (l : list Z) (st : media * bool * bool) : res (media * bool * bool) :=
  match fuel with
  | O => UB
  | S fuel' =>
      match l with
      | [] => Ok st
      | _ =>
          ' (ty, value, rv) <- option_parse l;;
          match value with
          | None => media_loop fuel' (skipn rv l) st
          | Some v => st' <- media_option st ty v;; media_loop fuel' (skipn rv l) st'
          end
      end
  end.
Fixpoint list_eqb (a b : list Z) : bool :=
  match a, b with [], [] => true | x :: a, y :: b => (x =? y) && list_eqb a b | _, _ => false end.
(** 78-177: setFromMetadata of an object in its initial state; [Rej] is the answer 0 *)
Definition media_parse (l : list Z) : res media :=
  if (zlen l <? 33) || negb (list_eqb (firstn 33 l) MEDIA_SIGNATURE) then Rej
  else
    let r := skipn 33 l in
    ' (m, sid, cod) <- media_loop (S (length r)) r (media_init, false, false);;
    if (sid : bool) && (cod : bool) then Ok m else Rej.
