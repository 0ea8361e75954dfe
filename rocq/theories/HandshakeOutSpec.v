(** What the handshake may say to whom, and what may change or end a session. *)
From Verif Require Import Base Address AddressSpec Cookie PacketSpec Startup StartupSpec Handshake HandshakeSpec.

(** A cookie that is good at this time for this address *)
Definition good_cookie (cr : cryp) (age : Z) (a : addr) (cookie : list Z) : Prop := check_cookie (c_sha cr) (c_secret cr) age cookie a = Ok COOKIE_OK.
(** The keying a responder's session [p] sends *)
Definition rik_for (cr : cryp) (p : ses) (b : list Z) : Prop :=
  exists skrc t c nonce, h_far p = [skrc] /\ h_cert p = Some c /\ ri_signed_wire (h_rx p) skrc t /\ b = chunk_bytes CHUNK_RIKEYING (t ++ c_sign cr c (t ++ h_skic p) nonce).
(** The keying an initiator's session [p] sends *)
Definition iik_for (cr : cryp) (p : ses) (b : list Z) : Prop :=
  exists cookie k t c nonce, h_cert p = Some c /\ ii_signed_wire (h_rx p) cookie (c_cert cr []) k t /\ (k = [] \/ h_own p = Some k) /\ b = chunk_bytes CHUNK_IIKEYING (t ++ c_sign cr c t nonce).
(** What answers a startup packet with chunks [cs] that came from [a]: a hello that is for this end, a keying with a cookie made for
    another address, a keying whose session exists. *)
Inductive answer (cr : cryp) (i : hinst) (age ifc : Z) (a : addr) (cs : list (Z * list Z)) : hout -> Prop :=
| an_cookie : forall cookie, good_cookie cr age a cookie -> answer cr i age ifc a cs (HCookie age a cookie)
| an_hello : forall c epd tag cookie w, In (CHUNK_IHELLO, c) cs -> ihello_wire epd tag c -> c_mine cr epd = true -> good_cookie cr age a cookie -> rhello_wire tag cookie (c_cert cr epd) w ->
    answer cr i age ifc a cs (HSend (chunk_bytes CHUNK_RHELLO w) 0 ifc a)
| an_change : forall t sig isid old cert skic cookie w, In (CHUNK_IIKEYING, t ++ sig) cs -> ii_signed_wire isid old cert skic t -> check_cookie (c_sha cr) (c_secret cr) age old a = Ok COOKIE_MISMATCH ->
    good_cookie cr age a cookie -> ihello_wire old cookie w -> answer cr i age ifc a cs (HSend (chunk_bytes CHUNK_COOKIE_CHANGE w) isid ifc a)
| an_again : forall n p t sig cookie cert b, In (CHUNK_IIKEYING, t ++ sig) cs -> ii_signed_wire (h_tx p) cookie cert (h_skic p) t -> good_cookie cr age a cookie ->
    is_ses i n p -> h_role p = RESPONDER -> h_state p = OPEN -> open_by_addr a i = Some n -> h_if p = ifc -> rik_for cr p b -> answer cr i age ifc a cs (HSend b (h_tx p) ifc (h_addr p)).
(** What is said in a step *)
Inductive said (cr : cryp) (i : hinst) : hevent -> hout -> Prop :=
| sd_answer : forall age ifc a cs o, answer cr i age ifc a cs o -> said cr i (EStartup age ifc a cs) o
| sd_hello : forall n p a b w, is_ses i n p -> h_role p = INITIATOR -> h_state p = IHELLO_SENT -> In b (h_cands p) -> addr_eq a b = true -> ihello_wire (h_asked p) (h_tag p) w ->
    said cr i (EIHello n a) (HSend (chunk_bytes CHUNK_IHELLO w) 0 (-1) a)
| sd_iik : forall n p b, is_ses i n p -> h_role p = INITIATOR -> h_state p = KEYING_SENT -> iik_for cr p b -> said cr i (EIIKeying n) (HSend b 0 (h_if p) (h_addr p))
| sd_fcookie : forall age id fi c epd reply tag cookie, fihello_wire epd reply tag c -> good_cookie cr age reply cookie -> said cr i (EChunk age id false fi CHUNK_FIHELLO c) (HCookie age reply cookie)
| sd_fredirect : forall age id c n p epd reply tag w, is_ses i n p -> h_rx p = id -> h_state p = OPEN -> fihello_wire epd reply tag c -> c_mine cr epd = true -> redirect_wire tag [] w ->
    said cr i (EChunk age id false 1 CHUNK_FIHELLO c) (HSend (chunk_bytes CHUNK_REDIRECT w) 0 (-1) reply)
| sd_fhello : forall age id fi c n p epd reply tag cookie w, is_ses i n p -> h_rx p = id -> h_state p = OPEN -> fihello_wire epd reply tag c -> c_mine cr epd = true -> fi <> 0 -> fi <> 1 -> good_cookie cr age reply cookie ->
    rhello_wire tag cookie (c_cert cr epd) w -> said cr i (EChunk age id false fi CHUNK_FIHELLO c) (HSend (chunk_bytes CHUNK_RHELLO w) 0 (-1) reply)
| sd_rik : forall k ch n p b, is_ses i n p -> h_role p = RESPONDER -> h_state p = OPEN -> rik_for cr p b -> said cr i (ERun k ch) (HSend b (h_tx p) (h_if p) (h_addr p))
| sd_signed : forall k ch c t, said cr i (ERun k ch) (HSigned c t).
Definition is_send (o : hout) : bool := match o with HSend _ _ _ _ => true | _ => false end.
Definition sends (l : list hout) : Z := zlen (filter is_send l).
Definition of_type (ty : Z) (cs : list (Z * list Z)) : Z := zlen (filter (fun c => fst c =? ty) cs).

(** What a packet can do to a session *)
Record touched (e : hevent) (p q : ses) : Prop := {
  to_rest : q = h_with_cands (h_cands q) (h_with_cookie (h_cookie q) (h_changed q) p);
  to_cookie : (h_cookie q = h_cookie p /\ h_changed q = h_changed p)
    \/ (h_state p = KEYING_SENT /\ h_changed p = false /\ h_changed q = true /\ exists age fi c, e = EChunk age (h_rx p) true fi CHUNK_COOKIE_CHANGE c /\ ihello_wire (h_cookie p) (h_cookie q) c);
  to_cands : h_cands q = h_cands p
    \/ (h_state p = IHELLO_SENT /\ forall x, In x (h_cands q) -> In x (h_cands p)
         \/ exists age ifc a cs c l, e = EStartup age ifc a cs /\ In (CHUNK_REDIRECT, c) cs /\ redirect_wire (h_tag p) l c /\ (In x l \/ (l = [] /\ x = mkAddr (a_fam a) (a_ip a) (a_port a) 2))) }.
Definition is_packet (e : hevent) : bool := match e with EStartup _ _ _ _ | EChunk _ _ _ _ _ _ => true | _ => false end.
(** Why a session changes its state *)
Inductive why (cr : cryp) (i : hinst) (n : nat) (p : ses) : hevent -> hstate -> Prop :=
| w_keyed : forall k ch cookie cert ifc a, h_state p = IHELLO_SENT -> nth_error (g_tasks i) k = Some (TRHello n cookie cert ifc a) -> c_authentic cr cert = true -> c_selected cr cert (h_asked p) = true -> why cr i n p (ERun k ch) KEYING_SENT
| w_opened : forall k ch rsid, h_state p = KEYING_SENT -> nth_error (g_tasks i) k = Some (TOpen n rsid) -> why cr i n p (ERun k ch) OPEN
| w_closing : h_state p = OPEN -> why cr i n p (EClose n) CLOSING
| w_told : why cr i n p (EAbort n) CLOSED
| w_failed : forall k ch, nth_error (g_tasks i) k = Some (TAbort n) -> why cr i n p (ERun k ch) CLOSED
| w_known : forall k ch cookie cert ifc a m q c, h_state p = IHELLO_SENT -> nth_error (g_tasks i) k = Some (TRHello n cookie cert ifc a) -> c_authentic cr cert = true -> c_selected cr cert (h_asked p) = true ->
    m <> n -> is_ses i m q -> h_cert q = Some c ->
    (open_by_epd (c_canonical cr cert) i = Some m /\ c_selected cr c (h_asked p) = true) \/ (h_state q = KEYING_SENT /\ (c_selected cr c (c_canonical cr cert) = true \/ h_asked q = c_canonical cr cert)) -> why cr i n p (ERun k ch) CLOSED
| w_overridden : forall k ch isid skic skrc cert ifc a cookie age c, nth_error (g_tasks i) k = Some (TIIRun isid skic skrc cert ifc a) -> good_cookie cr age a cookie -> c_authentic cr cert = true -> initiator_signed cr cert isid cookie skic ->
    h_cert p = Some c -> c_overrides cr cert c = true -> (open_by_addr a i = Some n \/ (h_state p = KEYING_SENT /\ addr_eq a (h_addr p) = true /\ c_wins cr cert = false)) -> why cr i n p (ERun k ch) CLOSED.
