(** What RFC 7230 (HTTP/1.1) and RFC 6455 section 4.2 say of the opening request and its answer, without the model. *)
From Coq Require Import String Ascii.
From Verif Require Import Base URISpec WebSockSpec.

Definition text (s : string) : list Z := map (fun c => Z.of_N (N_of_ascii c)) (list_ascii_of_string s).

(** RFC 7230 3.2.6, with visible characters of ASCII only (3.2.4: values "SHOULD be limited to US-ASCII") *)
Definition visible (x : Z) : Prop := 33 <= x <= 126.
Definition blank (x : Z) : Prop := x = 32 \/ x = 9.
Definition is_tchar (x : Z) : Prop := In x (text "!#$%&'*+-.^_`|~") \/ 48 <= x <= 57 \/ 65 <= x <= 90 \/ 97 <= x <= 122.
Definition token (s : list Z) : Prop := s <> [] /\ Forall is_tchar s.
(** a line with folding (3.2.4): a new line and a blank are a blank *)
Inductive unfolds : list Z -> list Z -> Prop :=
| un_end : unfolds [] []
| un_char : forall x r t, visible x \/ blank x -> unfolds r t -> unfolds (x :: r) (x :: t)
| un_fold : forall b r t, blank b -> unfolds r t -> unfolds (13 :: 10 :: b :: r) (32 :: t).
(** no blank at either end *)
Definition bare (v : list Z) : Prop := (forall x t, v = x :: t -> visible x) /\ (forall x t, v = t ++ [x] -> visible x).
(** header-field with its end of line *)
Inductive field : list Z * list Z -> list Z -> Prop :=
| field_intro : forall n v a b raw, token n -> unfolds raw (a ++ v ++ b) -> Forall blank a -> Forall blank b -> bare v ->
    field (n, v) (n ++ 58 :: raw ++ [13; 10]).
(** start-line, header-fields and the empty line *)
Inductive request (m u w : list Z) (hs : list (list Z * list Z)) : list Z -> Prop :=
| request_intro : forall raws, Forall visible m -> Forall visible u -> Forall visible w -> Forall2 field hs raws ->
    request m u w hs (m ++ 32 :: u ++ 32 :: w ++ [13; 10] ++ concat raws ++ [13; 10]).

(** a line that is not a header-field, and a request that has one *)
Definition malformed (l : list Z) : Prop :=
  (exists y t, l = y :: t /\ visible y) /\ Forall (fun x => visible x \/ blank x) l /\ forall n t, l = n ++ 58 :: t -> token n -> False.
Inductive bad_request : list Z -> Prop :=
| bad_intro : forall m u w hs raws l hs' raws', Forall visible m -> Forall visible u -> Forall visible w -> Forall2 field hs raws -> malformed l -> Forall2 field hs' raws' ->
    bad_request (m ++ 32 :: u ++ 32 :: w ++ [13; 10] ++ concat raws ++ l ++ [13; 10] ++ concat raws' ++ [13; 10]).

(** names are case-insensitive; several fields of a name are one with commas (3.2.2) *)
Definition lower (s : list Z) : list Z := map (fun x => if (65 <=? x) && (x <=? 90) then x + 32 else x) s.
Fixpoint commas (l : list (list Z)) : list Z := match l with [] => [] | [v] => v | v :: r => v ++ 44 :: commas r end.
Definition value (hs : list (list Z * list Z)) (n : string) : list Z :=
  commas (map snd (filter (fun h => if list_eq_dec Z.eq_dec (lower (fst h)) (text n) then true else false) hs)).
(** an element of a list with commas (section 7) *)
Definition listed (n : string) (v : list Z) : Prop :=
  exists a w b, In (a ++ w ++ b) (fields 44 v) /\ Forall blank a /\ Forall blank b /\ lower w = text n.

(** RFC 6455 4.2.1 *)
Definition rfc_ok (m w : list Z) (hs : list (list Z * list Z)) : Prop :=
  m = text "GET" /\ w = text "HTTP/1.1" /\ listed "websocket" (value hs "upgrade") /\ listed "upgrade" (value hs "connection") /\
  value hs "sec-websocket-version" = text "13" /\ exists k, length k = 16%nat /\ bytes_ok k /\ base64 k (value hs "sec-websocket-key").
(** What the server asks for instead *)
Definition accepts (m : list Z) (hs : list (list Z * list Z)) : Prop :=
  m = text "GET" /\ lower (value hs "upgrade") = text "websocket" /\ (exists a b, lower (value hs "connection") = a ++ text "upgrade" ++ b) /\
  value hs "sec-websocket-version" = text "13" /\ value hs "sec-websocket-key" <> [].

(** RFC 6455 4.2.2 *)
Definition crlf_s : string := String (ascii_of_nat 13) (String (ascii_of_nat 10) EmptyString).
Definition opening (sha1 : list Z -> list Z) (hs : list (list Z * list Z)) (answer : list Z) : Prop :=
  exists acc, base64 (sha1 (value hs "sec-websocket-key" ++ text "258EAFA5-E914-47DA-95CA-C5AB0DC85B11")) acc /\
  answer = text "HTTP/1.1 101 Switching Protocols" ++ text crlf_s ++ text "Upgrade: websocket" ++ text crlf_s ++ text "Connection: Upgrade" ++ text crlf_s
           ++ text "Sec-WebSocket-Accept: " ++ acc ++ text crlf_s ++ text crlf_s.
