From Verif Require Import Base Hex URI URISpec URIProofs.

(** C45.  removeDotSegments terminates on every path and answers what RFC 3986 5.2.4 says about its segments. *)
Theorem C45_dots : forall p, remove_dots p = Ok (concat (resolve (fields 47 p))).
Proof. exact uri_dots_exact. Qed.
Print Assumptions C45_dots.
(** C45.  The result has no "." or ".." segment; a path without them is left as it is, so doing it twice changes nothing. *)
Theorem C45_dot_free : forall p, exists q, remove_dots p = Ok q /\ dot_free q.
Proof. exact uri_dot_free. Qed.
Print Assumptions C45_dot_free.
Theorem C45_dots_same : forall p, dot_free p -> remove_dots p = Ok p.
Proof. exact uri_dots_same. Qed.
Print Assumptions C45_dots_same.
(** RFC 3986's "/a/b/c/./../../g", and "mid/content=5/../6", "a/..", "../..", "/b/.", "x/.y" *)
Example C45_dots_case :
  remove_dots [47; 97; 47; 98; 47; 99; 47; 46; 47; 46; 46; 47; 46; 46; 47; 103] = Ok [47; 97; 47; 103]
  /\ remove_dots [109; 47; 53; 47; 46; 46; 47; 54] = Ok [109; 47; 54] /\ remove_dots [97; 47; 46; 46] = Ok [47]
  /\ remove_dots [46; 46; 47; 46; 46] = Ok [] /\ remove_dots [47; 98; 47; 46] = Ok [47; 98; 47]
  /\ dot_free [120; 47; 46; 121] /\ ~ dot_free [47; 98; 47; 46].
Proof.
  repeat split; try (vm_compute; reflexivity).
  - repeat constructor; discriminate.
  - intros F. inversion F as [|? ? _ F1]; subst. inversion F1 as [|? ? _ F2]; subst. inversion F2 as [|? ? [X _] _]; subst. apply X. reflexivity.
Qed.

(** C45.  Splitting with one separator is inverted by joining and gives at most the requested number of parts; with no limit it
    gives exactly the fields between separators. *)
Theorem C45_split_join : forall s sep m, 0 <= m <= U64MAX -> zlen s < U64MAX ->
  exists parts, uri_split s [sep] m = Ok parts /\ join sep parts = s /\ (0 < m -> zlen parts <= m).
Proof. exact uri_split_join. Qed.
Print Assumptions C45_split_join.
Theorem C45_split_fields : forall s sep, zlen s < U64MAX -> uri_split s [sep] 0 = Ok (fields sep s).
Proof. exact uri_split_fields. Qed.
Print Assumptions C45_split_fields.
(** C45.  With any separators: the parts, with one separator between each two, are the string; no part but the last contains a
    separator, and the last contains none unless the limit was reached. *)
Theorem C45_split : forall s seps m, seps <> [] -> 0 <= m <= U64MAX -> zlen s < U64MAX ->
  exists parts last cs, uri_split s seps m = Ok (parts ++ [last]) /\ s = weave (parts ++ [last]) cs /\ length cs = length parts
    /\ Forall (fun c => In c seps) cs /\ Forall (fun p => forall c, In c p -> ~ In c seps) parts
    /\ (0 < m -> zlen (parts ++ [last]) <= m)
    /\ (m = 0 \/ zlen (parts ++ [last]) < m -> forall c, In c last -> ~ In c seps).
Proof. exact uri_split_spec. Qed.
Print Assumptions C45_split.
Example C45_split_case : uri_split [97; 44; 44; 98; 59; 99; 44] [44; 59] 0 = Ok [[97]; []; [98]; [99]; []]
  /\ uri_split [97; 44; 44; 98; 59; 99; 44] [44; 59] 3 = Ok [[97]; []; [98; 59; 99; 44]] /\ uri_split [] [44] 0 = Ok [[]]
  /\ join 44 [[97]; []; [98]] = [97; 44; 44; 98].
Proof. repeat split; vm_compute; reflexivity. Qed.

(** C45.  percentDecode inverts percent-encoding, in particular that which escapes every char. *)
Theorem C45_decode : forall s d, pct s d -> pct_decode s = Ok d.
Proof. exact pct_roundtrip. Qed.
Print Assumptions C45_decode.
Theorem C45_decode_hex : forall d, Forall (fun c => -128 <= c <= 127 /\ c <> 0) d ->
  pct_decode (flat_map (fun c => 37 :: hex_encode [c mod 256]) d) = Ok d.
Proof. exact (fun d H => pct_roundtrip _ _ (pct_hex d H)). Qed.
Print Assumptions C45_decode_hex.
(** C45.  It is defined for every string (no read past the end), and a string that encodes nothing gives the empty string
    (safePercentDecode: the string itself). *)
Theorem C45_decode_defined : forall s, exists d, pct_decode s = Ok d.
Proof. exact pct_defined. Qed.
Print Assumptions C45_decode_defined.
Theorem C45_decode_exact : forall s, ~ In 0 s -> pct_decode s = Ok [] \/ exists d, pct s d /\ pct_decode s = Ok d.
Proof. exact pct_exact. Qed.
Print Assumptions C45_decode_exact.
Theorem C45_decode_safe : forall s, (forall d, d <> [] -> pct s d -> safe_pct_decode s = Ok d)
  /\ (~ In 0 s -> (forall d, ~ pct s d) -> safe_pct_decode s = Ok s).
Proof. exact (fun s => conj (pct_safe s) (pct_unsafe s)). Qed.
Print Assumptions C45_decode_safe.
Example C45_decode_case : pct [97; 37; 50; 70; 37; 101; 57] [97; 47; -23] /\ pct_decode [97; 37; 50; 70; 37; 101; 57] = Ok [97; 47; -23]
  /\ pct_decode [97; 37; 50] = Ok [] /\ pct_decode [97; 37; 48; 48] = Ok [] /\ safe_pct_decode [53; 37] = Ok [53; 37].
Proof.
  split; [|repeat split; vm_compute; reflexivity].
  apply pct_lit; [discriminate|discriminate|]. apply (pct_esc 50 70 2 15 47); unfold hexval; try lia; try reflexivity.
  apply (pct_esc 101 57 14 9 (-23)); unfold hexval; try lia; try reflexivity. constructor.
Qed.
