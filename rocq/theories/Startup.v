(** Model of the chunks of the startup handshake: how they are made (src/RTMFP.cpp sendResponderRedirect 131-147, sendIHello
    149-160, sendCookieChange 328-342, makeRIKeyingChunk 406-424, onIHello 536-550; src/Session.cpp makeIIKeyingChunk 844-865),
    how the startup session puts them into packets (StartupSession::onInterfaceWritable, src/Session.cpp 160-192) and how they
    are read (src/Session.cpp 221-330, 1793-1864).  What is done with them is in Handshake.v.
    A uint32_t that is copied as memory is in little-endian order.  Cryptography is given: [sign] is ICryptoAdapter::sign for
    the recipient in question, certificates are given as bytes. *)
From Verif Require Import Base VLU Address Packet.
Open Scope res_scope.

(** include/rtmfp/params.hpp 12; include/rtmfp/packet.hpp 20-28 *)
Definition MAX_STARTUP_PACKET_LENGTH : nat := 4256.
Definition CHUNK_IHELLO := 48.
Definition CHUNK_FIHELLO := 15.
Definition CHUNK_RHELLO := 112.
Definition CHUNK_REDIRECT := 113.
Definition CHUNK_COOKIE_CHANGE := 121.
Definition CHUNK_IIKEYING := 56.
Definition CHUNK_RIKEYING := 120.

Definition le32 (x : Z) : list Z := [x mod 256; x / 256 mod 256; x / 65536 mod 256; x / 16777216 mod 256].
(** memmove of a uint32_t out of a chunk that was found to have four bytes *)
Definition un32 (l : list Z) : res Z :=
  match l with a :: b :: c :: d :: _ => Ok (a + 256 * b + 65536 * c + 16777216 * d) | _ => UB end.

(** ** Making chunks *)

(** One chunk in a buffer of MAX_STARTUP_PACKET_LENGTH; [None] when it does not fit.  (Some of the functions do not look at the
    answer of startChunk; in an empty buffer of this size it is always true.) *)
Definition startup_chunk (type_ : Z) (pieces : list pa_op) : res (option (list Z)) :=
  ' (p1, ok) <- pa_start_chunk (pa_init (repeat 0 MAX_STARTUP_PACKET_LENGTH) 0) type_ ;;
  if negb ok then Ok None
  else
    ' (p2, ok) <- pa_pushes p1 pieces ;;
    if negb ok then Ok None else p3 <- pa_commit p2 ;; Ok (Some (pa_to_vector p3)).
(** RTMFP.cpp 149-160 *)
Definition make_ihello (epd tag : list Z) : res (option (list Z)) := startup_chunk CHUNK_IHELLO [OpPushField epd; OpPush tag].
(** RTMFP.cpp 536-550 *)
Definition make_rhello (tag cookie cert : list Z) : res (option (list Z)) := startup_chunk CHUNK_RHELLO [OpPushField tag; OpPushField cookie; OpPush cert].
(** RTMFP.cpp 131-147 *)
Definition make_redirect (tag : list Z) (addrs : list addr) : res (option (list Z)) :=
  startup_chunk CHUNK_REDIRECT (OpPushField tag :: map (fun a => OpPush (addr_encode a)) addrs).
(** RTMFP.cpp 328-342 *)
Definition make_cookie_change (cookie newCookie : list Z) : res (option (list Z)) := startup_chunk CHUNK_COOKIE_CHANGE [OpPushField cookie; OpPush newCookie].
(** Session.cpp 844-865: makeIIKeyingChunk; answers the bytes that were signed too *)
Definition make_iikeying (rxSessionID : Z) (cookie cert skic : list Z) (sign : list Z -> list Z) : res (option (list Z * list Z)) :=
  ' (p1, _) <- pa_start_chunk (pa_init (repeat 0 MAX_STARTUP_PACKET_LENGTH) 0) CHUNK_IIKEYING ;;
  let signedParameters := p_cursor p1 in
  ' (p2, ok) <- pa_pushes p1 [OpPush (le32 rxSessionID); OpPushField cookie; OpPushField cert; OpPushField skic] ;;
  if negb ok then Ok None
  else
    let signed := firstn (p_cursor p2 - signedParameters) (skipn signedParameters (p_buf p2)) in
    ' (p3, ok) <- pa_push p2 (sign signed) ;;
    if negb ok then Ok None else p4 <- pa_commit p3 ;; Ok (Some (signed, pa_to_vector p4)).
(** RTMFP.cpp 406-424: makeRIKeyingChunk; answers the bytes that were signed too.  There is no limit on the length. *)
Definition make_rikeying (rsid : Z) (skrc skic : list Z) (sign : list Z -> list Z) : list Z * list Z :=
  let payload := le32 rsid in
  let payload := vlu_append (zlen skrc) payload in
  let payload := payload ++ skrc in
  let dough := payload ++ skic in
  let payload := payload ++ sign dough in
  (dough, [CHUNK_RIKEYING; Z.land (Z.shiftr (zlen payload) 8) 255; Z.land (zlen payload) 255] ++ payload).
(** Session.cpp 160-192: a packet of the startup session; [None] when the bytes do not fit and nothing is sent.  [buf] is
    m_plaintextBuf up to MAX_STARTUP_PACKET_LENGTH, [margin] the front margin of the key, [mode] and [tse] those of the session
    the packet belongs to, if it belongs to one. *)
Definition startup_packet (buf : list Z) (margin : nat) (mode ts tse : Z) (bytes : list Z) : res (option (list Z)) :=
  p1 <- pa_init_header buf margin mode ts tse ;;
  ' (p2, ok) <- pa_push p1 bytes ;;
  if (ok : bool) then Ok (Some (pa_to_vector p2)) else Ok None.

(** ** Reading chunks: [Rej] is a return without doing anything *)

(** Session.cpp 221-237: (epd, tag) *)
Definition parse_ihello (chunk : list Z) : res (list Z * list Z) :=
  ' (epd, rv) <- vlu_parse_field chunk ;; Ok (epd, skipn rv chunk).
(** 239-262: (tag, cookie, cert) *)
Definition parse_rhello (chunk : list Z) : res (list Z * list Z * list Z) :=
  ' (tag, rv) <- vlu_parse_field chunk ;;
  let cursor := skipn rv chunk in
  ' (cookie, rv) <- vlu_parse_field cursor ;;
  Ok (tag, cookie, skipn rv cursor).
(** 264-289: (tag, destinations); [addr] is where the packet came from.  More iterations than bytes is [UB] here. *)
Fixpoint parse_addrs (fuel : nat) (tmp : addr) (cursor : list Z) : res (list addr) :=
  match cursor with
  | [] => Ok []
  | _ :: _ =>
      match fuel with
      | O => UB
      | S fuel =>
          ' (tmp, rv) <- addr_decode tmp cursor ;;
          r <- parse_addrs fuel tmp (skipn rv cursor) ;;
          Ok (tmp :: r)
      end
  end.
Definition ORIGIN_OBSERVED := 2.
Definition parse_redirect (chunk : list Z) (from : addr) : res (list Z * list addr) :=
  ' (tag, rv) <- vlu_parse_field chunk ;;
  addrs <- parse_addrs (length chunk) addr_erased (skipn rv chunk) ;;
  Ok (tag, match addrs with [] => [mkAddr (a_fam from) (a_ip from) (a_port from) ORIGIN_OBSERVED] | _ => addrs end).
(** 291-330: (initiatorSessionID, cookie, cert, skic, signedParameters, signature) *)
Definition parse_iikeying (chunk : list Z) : res (Z * list Z * list Z * list Z * list Z * list Z) :=
  if (length chunk <? 4)%nat then Rej
  else
    isid <- un32 chunk ;;
    let c1 := skipn 4 chunk in
    ' (cookie, n1) <- vlu_parse_field c1 ;;
    let c2 := skipn n1 c1 in
    ' (cert, n2) <- vlu_parse_field c2 ;;
    let c3 := skipn n2 c2 in
    ' (skic, n3) <- vlu_parse_field c3 ;;
    let signedLen := (4 + n1 + n2 + n3)%nat in
    Ok (isid, cookie, cert, skic, firstn signedLen chunk, skipn signedLen chunk).
(** 1793-1821: (responderSessionID, skrc, signedParameters, signature) *)
Definition parse_rikeying (chunk : list Z) : res (Z * list Z * list Z * list Z) :=
  if (length chunk <? 4)%nat then Rej
  else
    rsid <- un32 chunk ;;
    ' (skrc, n1) <- vlu_parse_field (skipn 4 chunk) ;;
    Ok (rsid, skrc, firstn (4 + n1) chunk, skipn (4 + n1) chunk).
(** 1823-1840: (oldCookie, newCookie) *)
Definition parse_cookie_change (chunk : list Z) : res (list Z * list Z) :=
  ' (oldCookie, rv) <- vlu_parse_field chunk ;; Ok (oldCookie, skipn rv chunk).
(** 1842-1864: (epd, replyAddress, tag) *)
Definition parse_fihello (chunk : list Z) : res (list Z * addr * list Z) :=
  ' (epd, rv) <- vlu_parse_field chunk ;;
  let cursor := skipn rv chunk in
  ' (a, rv) <- addr_decode addr_erased cursor ;;
  Ok (epd, a, skipn rv cursor).
