(** Specification vocabulary for the redirector protocol. *)
From Coq Require Import Ascii String.
From Verif Require Import Base Address AddressSpec Redir RedirSrv.

(** The bytes of a string of characters. *)
Fixpoint text (s : string) : list Z :=
  match s with EmptyString => [] | String a r => Z.of_N (N_of_ascii a) :: text r end.
(** Flow metadata that names the redirector protocol: its name, alone or ended by a zero byte with anything after it. *)
Definition names_redirector (m : list Z) : Prop :=
  m = text "http://zenomt.com/ns/rtmfp#redirector" \/ exists r, m = text "http://zenomt.com/ns/rtmfp#redirector" ++ 0 :: r.

(** Calls and events with real values: addresses have a family, byte strings are of bytes, load factors fit. *)
Definition real_addr (a : addr) : Prop := addr_ok a /\ a_fam a <> 0.
Definition op_ok (o : op) : Prop :=
  match o with
  | OSetLoadFactor n => is_u64 n
  | OAddRedirectorAddress a | OAddAddress a | ORemoveAddress a => real_addr a
  | OAddSimpleAuth k p => bytes_ok k /\ bytes_ok p
  | OSendUserData d => bytes_ok d
  | _ => True
  end.
Definition event_ok (e : event) : Prop :=
  match e with
  | ECall o _ cb => op_ok o /\ Forall op_ok cb
  | EWritable nonce cb => bytes_ok nonce /\ Forall op_ok cb
  | EException _ cb | EReconnect _ cb => Forall op_ok cb
  | ERecvFlow m => bytes_ok m
  | EMessage b cb => bytes_ok b /\ Forall op_ok cb
  | ELoadTimer => True
  end.
(** Time does not run backwards. *)
Fixpoint timed (t : Z) (es : list (Z * event)) : Prop :=
  match es with [] => True | (t', e) :: r => t <= t' /\ timed t' r end.
Definition history (es : list (Z * event)) : Prop := timed 0 es /\ Forall (fun te => event_ok (snd te)) es.

(** The HMAC: 32 bytes. *)
Definition mac_ok (hmac : list Z -> list Z -> list Z) : Prop := forall k m, length (hmac k m) = 32%nat.
(** The client's keys are good for a server: no key that the server knows comes with another password, and unless the server asks for
    none, one of them is known to it. *)
Definition knows (pw : list (list Z * list Z)) (k p : list Z) : Prop := lookup k pw = Some p.
Definition creds_good (pw creds : list (list Z * list Z)) : Prop :=
  (forall k p q, In (k, p) creds -> knows pw k q -> q = p) /\ (pw = [] \/ exists k p, In (k, p) creds /\ knows pw k p).

(** The server serves the connection: open, authenticated, not on hold. *)
Definition served (s : scl) : Prop := s_recv s = true /\ s_held s = false /\ s_auth s = true.
(** What the server knows is what the client is set to: while active and not paused, the client is in the server's table with exactly
    its addresses and its choice about the reflexive address; while inactive it is not in the table; and the load factor is the
    client's, unless a change is waiting for the update timer. *)
Definition agrees (c : cli) (s : scl) (act : bool) : Prop :=
  (c_active c = true -> c_paused c = false -> act = true /\ s_addrs s = c_addrs c /\ s_refl s = c_adv c)
  /\ (c_active c = false -> act = false)
  /\ (s_load s = c_load c \/ (c_changed c = true /\ c_ltimer c <> None)).

(** Consecutive attempts (latest first) at least five seconds apart. *)
Fixpoint spaced (l : list Z) : Prop :=
  match l with
  | a :: r => match r with b :: _ => b + 5 * SECOND <= a | [] => True end /\ spaced r
  | [] => True
  end.

(** ** The server *)
Definition sevent_ok (e : sevent) : Prop :=
  match e with
  | VConnect _ _ far => addr_ok far
  | VMessage _ bytes => bytes_ok bytes
  | VAddress _ a => addr_ok a
  | VRedirect o _ _ => Forall addr_ok (o_static o)
  | _ => True
  end.
(** [i] is a client with an open connection that has authenticated itself. *)
Definition trusted (v : srv) (i : nat) : Prop := exists s, nth_error (v_cls v) i = Some s /\ s_recv s = true /\ s_auth s = true.
(** The addresses [i] has asked the server to give out for it. *)
Definition advertised (v : srv) (i : nat) (a : addr) : Prop :=
  exists s, nth_error (v_cls v) i = Some s /\ ((s_refl s = true /\ a = s_far s) \/ In a (s_addrs s)).
(** No two of the addresses are the same. *)
Definition all_different (l : list addr) : Prop := ForallOrdPairs (fun a b => ~ same_addr a b) l.
(** The number of times [i] occurs. *)
Definition times (i : nat) (l : list nat) : nat := count_occ Nat.eq_dec l i.
(** The clients chosen by a row of redirects, one after the other, each for at most so many targets, while nobody comes or goes: those
    at the front of the list, who then go to its end. *)
Fixpoint chosen (ks : list nat) (l : list nat) : list nat :=
  match ks with
  | [] => []
  | k :: r => firstn k l ++ chosen r (skipn k l ++ firstn k l)
  end.
(** Some of the members, in the same order. *)
Inductive part_of {A} : list A -> list A -> Prop :=
| part_nil : part_of [] []
| part_skip : forall x a b, part_of a b -> part_of a (x :: b)
| part_keep : forall x a b, part_of a b -> part_of (x :: a) (x :: b).
(** The messages delivered to client [i], and the events that leave its connection alone. *)
Definition messages_to (i : nat) (es : list sevent) : list (list Z) :=
  flat_map (fun e => match e with VMessage j m => if Nat.eqb i j then [m] else [] | _ => [] end) es.
Definition undisturbed (i : nat) (e : sevent) : Prop :=
  match e with VComplete j | VDelayed j | VAddress j _ => j <> i | _ => True end.
