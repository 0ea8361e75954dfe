(** Properties C75-C77: the parts of a URI, resolving relative references, the public URI. *)
From Coq Require Import String Ascii.
From Verif Require Import Base Hex URI URISpec URIParse URIParseSpec URIParseProofs URIResolve.
Open Scope res_scope.

Definition txt (s : string) : list Z := List.map (fun a => Z.of_N (N_of_ascii a)) (list_ascii_of_string s).
Definition texts (l : list string) : list (list Z) := List.map txt l.

(** Every text without a line terminator is cut into the parts RFC 3986 gives it. *)
Theorem C75_parts : forall s u, line_free s -> uri_parse s = Ok u ->
  top_parts s (u_scheme_part u) (u_scheme u) (u_hier u) (u_query_part u) (u_query u) (u_fragment_part u) (u_fragment u) /\
  hier_parts (u_hier u) (u_authority_part u) (u_authority u) (u_path u) /\
  auth_parts (u_authority u) (u_userinfo_part u) (u_userinfo u) (u_user u) (u_password_part u) (u_password u) (u_hostinfo u) /\
  host_parts (u_hostinfo u) (u_host u) (u_port u).
Proof. exact parse_fields. Qed.
Print Assumptions C75_parts.
Example C75_parts_case :
  exists u, uri_parse (txt "RTMFP://joe:x:y@[::1]:1935/a/b?q?r#f#g") = Ok u /\
    [u_scheme u; u_canonical u; u_authority u; u_user u; u_password u; u_host u; u_port u; u_path u; u_query u; u_fragment u; u_public u; u_origin u]
    = texts ["RTMFP"; "rtmfp"; "joe:x:y@[::1]:1935"; "joe"; "x:y"; "::1"; "1935"; "/a/b"; "q?r"; "f#g"; "RTMFP://[::1]:1935/a/b?q?r"; "RTMFP://[::1]:1935"]%string.
Proof. eexists. split; [vm_compute; reflexivity|vm_compute; reflexivity]. Qed.

(** No other cut is possible: parts put together are found again. *)
Theorem C75_exact : forall s u sp sch h qp q fp f ap auth path uip ui user pwp pw hi host port, line_free s -> uri_parse s = Ok u ->
  top_parts s sp sch h qp q fp f -> hier_parts h ap auth path -> auth_parts auth uip ui user pwp pw hi -> host_parts hi host port ->
  (u_scheme_part u, u_scheme u, u_hier u, u_query_part u, u_query u, u_fragment_part u, u_fragment u) = (sp, sch, h, qp, q, fp, f) /\
  (u_authority_part u, u_authority u, u_path u) = (ap, auth, path) /\
  (u_userinfo_part u, u_userinfo u, u_user u, u_password_part u, u_password u, u_hostinfo u) = (uip, ui, user, pwp, pw, hi) /\
  (u_host u, u_port u) = (host, port).
Proof.
  intros s u sp sch h qp q fp f ap auth path uip ui user pwp pw hi host port L P T H A O. destruct (parse_fields s u L P) as (T' & H' & A' & O').
  destruct (top_unique _ _ _ _ _ _ _ _ _ _ _ _ _ _ _ T' T) as (-> & -> & Eh & -> & -> & -> & ->). rewrite Eh in *.
  destruct (hier_unique _ _ _ _ _ _ _ H' H) as (-> & Ea & ->). rewrite Ea in *.
  destruct (auth_unique _ _ _ _ _ _ _ _ _ _ _ _ _ A' A) as (-> & -> & -> & -> & -> & Ei). rewrite Ei in *.
  destruct (host_unique _ _ _ _ _ O' O) as (-> & ->). repeat split; reflexivity.
Qed.
Print Assumptions C75_exact.
Example C75_exact_case : let s := txt "a://h:8/p?#" in
  line_free s /\ top_parts s (txt "a:") (txt "a") (txt "//h:8/p") (txt "?") [] (txt "#") [] /\ hier_parts (txt "//h:8/p") (txt "//h:8") (txt "h:8") (txt "/p") /\
  auth_parts (txt "h:8") [] [] [] [] [] (txt "h:8") /\ host_parts (txt "h:8") (txt "h") (txt "8").
Proof.
  cbv zeta. repeat split; try (cbv; intuition discriminate); try reflexivity.
  - left. split; [|reflexivity]. exists 97, []. repeat split; try (intros []); lia.
  - left. split; [reflexivity|]. split; [cbv; intuition discriminate|]. right. exists (txt "p"). reflexivity.
  - right. left. split; [intros lit t H; vm_compute in H; inversion H|]. split; [cbv; intuition discriminate|]. right. split; [reflexivity|]. split; [discriminate|]. constructor; [|constructor]. vm_compute. split; discriminate.
Qed.

(** The fields made from the parts; the default ports. *)
Definition port_table : list (list Z * list Z) :=
  [(txt "http", txt "80"); (txt "ws", txt "80"); (txt "https", txt "443"); (txt "wss", txt "443"); (txt "rtmps", txt "443"); (txt "rtmfp", txt "1935"); (txt "rtmp", txt "1935")].
Theorem C75_derived : forall s u, uri_parse s = Ok u ->
  u_uri u = s /\
  Forall2 (fun x y => y = if (65 <=? x) && (x <=? 90) then x + 32 else x) (u_scheme u) (u_canonical u) /\
  (u_origin u = [] /\ (u_scheme u = [] \/ u_hostinfo u = []) \/ u_scheme u <> [] /\ u_hostinfo u <> [] /\ u_origin u = u_scheme u ++ txt "://" ++ u_hostinfo u) /\
  (u_port u <> [] -> u_effective u = u_port u) /\
  (u_port u = [] -> u_hostinfo u = [] -> u_effective u = []) /\
  (u_port u = [] -> u_hostinfo u <> [] -> In (u_canonical u, u_effective u) port_table \/ (u_effective u = [] /\ ~ In (u_canonical u) (List.map fst port_table))).
Proof.
  intros s u P. destruct (parse_rest s u P) as (A & B & _ & O & E). split; [exact A|]. split; [exact B|]. split; [|split; [|split]].
  - rewrite O. destruct (u_scheme u); [left; auto|]. destruct (u_hostinfo u); [left; auto|]. right. repeat split; discriminate.
  - intro N. rewrite E. destruct (u_port u); [contradiction|]. reflexivity.
  - intros N M. rewrite E, N, M. reflexivity.
  - intros N M. rewrite E, N. destruct (u_hostinfo u); [contradiction|]. unfold default_port. rewrite !str_eqb_dec.
    repeat match goal with |- context [seg_dec ?a ?b] => destruct (seg_dec a b) as [->|]; cbn [orb] end;
      try (left; cbn; tauto).
    right. split; [reflexivity|]. cbn [List.map fst port_table In]. intuition.
Qed.
Print Assumptions C75_derived.
Example C75_derived_case : exists u, uri_parse (txt "wss://h/") = Ok u /\ u_effective u = txt "443" /\ u_origin u = txt "wss://h".
Proof. eexists. split; [vm_compute; reflexivity|]. split; reflexivity. Qed.

(** Parsing has a result for every text of chars from -1 on (plain ASCII among them) ... *)
Theorem C75_defined : forall s, Forall (fun x => -1 <= x) s -> exists u, uri_parse s = Ok u.
Proof. exact parse_defined. Qed.
Print Assumptions C75_defined.
Example C75_defined_case : Forall (fun x => -1 <= x) (txt "http://h"). Proof. repeat (constructor; [lia|]). constructor. Qed.
(** ... but the tolower of another negative char in a scheme ("x\xc3:") is not defined ... *)
Theorem C75_scheme_refuted : uri_parse [120; -61; 58] = UB.
Proof. vm_compute. reflexivity. Qed.
Print Assumptions C75_scheme_refuted.
(** ... and a line terminator makes parts vanish: in the fragment all of them, in the path the authority and the path. *)
Theorem C75_newline_refuted :
  (exists u, uri_parse (txt "http://h/p#a" ++ [10]) = Ok u /\ u_scheme u = [] /\ u_host u = [] /\ u_path u = [] /\ u_fragment u = []) /\
  (exists u, uri_parse (txt "http://h/p" ++ [13]) = Ok u /\ u_scheme u = txt "http" /\ u_host u = [] /\ u_path u = []).
Proof. split; eexists; (split; [vm_compute; reflexivity|]); repeat split; reflexivity. Qed.
Print Assumptions C75_newline_refuted.

(** Resolving a reference against a base is RFC 3986 5.2.2 and 5.3. *)
Theorem C76_target : forall s u rel, line_free s -> line_free rel -> uri_parse s = Ok u -> Forall (fun x => -1 <= x) rel ->
  forall base r, is_ref s base -> is_ref rel r -> exists target, resolves base r target /\ transform u rel = Ok (recompose target).
Proof. exact transform_exact. Qed.
Print Assumptions C76_target.
Theorem C76_target_unique : forall base r t t', resolves base r t -> resolves base r t' -> t = t'.
Proof. exact resolves_unique. Qed.
Print Assumptions C76_target_unique.
(** and both texts are references, in one way *)
Theorem C76_is_ref : forall s, line_free s -> Forall (fun x => -1 <= x) s -> exists r, is_ref s r /\ forall r', is_ref s r' -> r' = r.
Proof.
  intros s L H. destruct (parse_defined s H) as [u P]. exists (ref_of u). split; [apply ref_of_is; assumption|]. intros r' I. apply (is_ref_unique s); [exact I|apply ref_of_is; assumption].
Qed.
Print Assumptions C76_is_ref.
Definition rfc_base := txt "http://a/b/c/d;p?q".
Definition goes (rel : string) : option (list Z) := match (u <- uri_parse rfc_base;; transform u (txt rel)) with Ok t => Some t | _ => None end.
(** some of the cases of RFC 3986 5.4 *)
Example C76_target_case :
  List.map goes ["g:h"; "g"; "./g"; "g/"; "/g"; "//g"; "?y"; "g?y"; "#s"; ";x"; ""; "."; "./"; ".."; "../g"; "../.."; "../../../g"; "/../g"; "g;x=1/../y"; "http:g"]%string
  = List.map (fun x => Some (txt x)) ["g:h"; "http://a/b/c/g"; "http://a/b/c/g"; "http://a/b/c/g/"; "http://a/g"; "http://g"; "http://a/b/c/d;p?y"; "http://a/b/c/g?y"; "http://a/b/c/d;p?q#s"; "http://a/b/c/;x";
      "http://a/b/c/d;p?q"; "http://a/b/c/"; "http://a/b/c/"; "http://a/b/"; "http://a/b/g"; "http://a/"; "http://a/g"; "http://a/g"; "http://a/b/c/y"; "http:g"]%string.
Proof. vm_compute. reflexivity. Qed.

(** The target is what the result is as a reference, if it has an authority or its path does not begin with "//".  (Full statement: without that condition.) *)
Theorem C76_reparse_partial : forall s rel base r t, is_ref s base -> is_ref rel r -> resolves base r t -> (r_scheme base <> None \/ r_scheme r <> None) ->
  (r_authority t = None -> forall u, r_path t <> 47 :: 47 :: u) -> is_ref (recompose t) t.
Proof. exact target_is_ref. Qed.
Print Assumptions C76_reparse_partial.
Example C76_reparse_case : exists u v, uri_parse (txt "http://h/a/b") = Ok u /\ transform u (txt "../c?d") = Ok (txt "http://h/c?d") /\ uri_parse (txt "http://h/c?d") = Ok v
  /\ u_path v = txt "/c" /\ u_query v = txt "d".
Proof. do 2 eexists. split; [vm_compute; reflexivity|]. split; [vm_compute; reflexivity|]. split; [vm_compute; reflexivity|]. split; reflexivity. Qed.
(** "/.//c" against "a:b" is the path "//c"; put together it is "a://c", whose host is "c". *)
Theorem C76_reparse_refuted : exists u v, uri_parse (txt "a:b") = Ok u /\ transform u (txt "/.//c") = Ok (txt "a://c") /\
  resolves (ref_of u) (mkRef None None (txt "/.//c") None None) (mkRef (Some (txt "a")) None (txt "//c") None None) /\
  uri_parse (txt "a://c") = Ok v /\ u_host v = txt "c" /\ u_path v = [].
Proof.
  do 2 eexists. split; [vm_compute; reflexivity|]. split; [vm_compute; reflexivity|]. split; [|split; [vm_compute; reflexivity|split; reflexivity]].
  unfold resolves. cbn [r_fragment r_scheme r_authority r_path r_query ref_of]. vm_compute. repeat split.
Qed.
Print Assumptions C76_reparse_refuted.

(** publicUri is the same reference without user, password and fragment, if "@" stands at most once in the authority.  (Full statement: without that condition.) *)
Theorem C77_public_partial : forall s u, line_free s -> uri_parse s = Ok u -> lacks 64 (u_hostinfo u) ->
  exists h ap, top_parts (u_public u) (u_scheme_part u) (u_scheme u) h (u_query_part u) (u_query u) [] [] /\
    hier_parts h ap (u_hostinfo u) (u_path u) /\ (ap = [] <-> u_authority_part u = []) /\ auth_parts (u_hostinfo u) [] [] [] [] [] (u_hostinfo u).
Proof. exact public_parts. Qed.
Print Assumptions C77_public_partial.
Example C77_public_case : exists u, uri_parse (txt "rtmfp://joe:secret@h/p?q#f") = Ok u /\ u_public u = txt "rtmfp://h/p?q".
Proof. eexists. split; vm_compute; reflexivity. Qed.
(** With a second "@" the password ends at the first one: what follows it is in publicUri, in the origin and in the host. *)
Theorem C77_public_refuted : exists u v, uri_parse (txt "rtmfp://joe:p@ss@h/") = Ok u /\ u_password u = txt "p" /\ u_public u = txt "rtmfp://ss@h/" /\ u_host u = txt "ss@h" /\
  uri_parse (u_public u) = Ok v /\ u_userinfo v = txt "ss".
Proof. do 2 eexists. split; [vm_compute; reflexivity|]. repeat split. Qed.
Print Assumptions C77_public_refuted.
