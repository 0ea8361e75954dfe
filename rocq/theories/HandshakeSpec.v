(** What the handshake is to achieve, in terms of the wire grammar of StartupSpec.v. *)
From Verif Require Import Base Address AddressSpec Cookie PacketSpec StartupSpec Handshake.

Definition is_ses (i : hinst) (n : nat) (p : ses) : Prop := nth_error (g_sess i) n = Some p.
(** A session has been opened and not been thrown away yet *)
Definition opened (p : ses) : Prop := h_state p = OPEN \/ h_state p = CLOSING.
(** The holder of certificate [c] signed: my session is [rsid], my component [skrc], yours [k]. *)
Definition responder_signed (cr : cryp) (c : list Z) (rsid : Z) (skrc k : list Z) : Prop :=
  exists t sig, ri_signed_wire rsid skrc t /\ c_check cr c (t ++ k) sig = true.
(** The holder of [c] signed: my session is [isid], my component [skic], for this cookie. *)
Definition initiator_signed (cr : cryp) (c : list Z) (isid : Z) (cookie skic : list Z) : Prop :=
  exists t sig, ii_signed_wire isid cookie c skic t /\ c_check cr c t sig = true.
(** What a session signs as initiator, as responder *)
Definition ii_signing (cr : cryp) (p : ses) (c text : list Z) : Prop :=
  h_role p = INITIATOR /\ h_cert p = Some c /\ exists cookie k, ii_signed_wire (h_rx p) cookie (c_cert cr []) k text /\ (k = [] \/ h_own p = Some k).
Definition ri_signing (p : ses) (c text : list Z) : Prop :=
  h_role p = RESPONDER /\ h_cert p = Some c /\ exists skrc t, h_far p = [skrc] /\ ri_signed_wire (h_rx p) skrc t /\ text = t ++ h_skic p.
Definition is_tii (t : task) : bool := match t with TII _ _ _ _ _ _ _ => true | _ => false end.
Fixpoint count (f : task -> bool) (l : list task) : Z := match l with [] => 0 | t :: r => (if f t then 1 else 0) + count f r end.
(** What the environment can give: bytes, fewer than 2^63 of them, addresses made from socket addresses *)
Definition fits64 (l : list Z) : Prop := bytes_ok l /\ zlen l < 4611686018427387904.
Definition choice_ok (ch : choice) : Prop := match ch_comp ch with Some k => fits64 k | None => True end.
Definition hevent_ok (e : hevent) : Prop :=
  match e with
  | EConnect epd tag _ => fits64 epd /\ fits64 tag
  | EStartup age _ a cs => Forall (fun c => fits64 (snd c)) cs /\ 0 <= age /\ seconds_of age < U64MAX /\ addr_ok a
  | EChunk age _ _ _ _ c => fits64 c /\ 0 <= age /\ seconds_of age < U64MAX
  | ERun _ ch => choice_ok ch
  | _ => True
  end.
(** What the cryptography answers is bytes *)
Record cryp_ok (cr : cryp) : Prop := {
  co_sha : forall l, length (c_sha cr l) = 32%nat /\ bytes_ok (c_sha cr l);
  co_cert : forall e, fits64 (c_cert cr e);
  co_sign : forall c t n, bytes_ok (c_sign cr c t n) }.
(** No address twice *)
Fixpoint distinct_addrs (l : list addr) : Prop := match l with [] => True | a :: r => (forall b, In b r -> addr_eq a b = false) /\ distinct_addrs r end.
(** Nothing verifies under the certificate [c] but what the instance [b] signed *)
Definition only_signed (cr : cryp) (b : hinst) (c : list Z) : Prop := forall text sig, c_check cr c text sig = true -> exists r, In (HSigned r text) (g_out b).
Definition small (l : list Z) : Prop := bytes_ok l /\ zlen l <= 1000.
(** What an event delivers, and that it was all sent by [b] *)
Definition delivers (e : hevent) : list (Z * list Z) := match e with EStartup _ _ _ cs => cs | EChunk _ _ _ _ ty c => [(ty, c)] | _ => [] end.
Definition fed_by (b : hinst) (l : list hevent) : Prop := forall e ty c, In e l -> In (ty, c) (delivers e) -> exists tx ifc a, In (HSend (PacketSpec.chunk_bytes ty c) tx ifc a) (g_out b).
(** The order of a session's life *)
Definition rank (s : hstate) : Z := match s with IHELLO_SENT => 0 | KEYING_SENT => 1 | OPEN => 2 | CLOSING => 3 | CLOSED => 4 end.
