(** Model of the handshake cookies of src/RTMFP.cpp.  [sha] is cryptoHash256, any function here; the instance's age is in
    ticks of 1/[TICKS] second (the code has a double); addresses are made from a socket address, so their origin is unknown (0). *)
From Verif Require Import Base VLU Address FlashCert.
Open Scope res_scope.

(** RTMFP.cpp 28: MAX_COOKIE_LIFETIME; include/rtmfp/params.hpp 95 *)
Definition MAX_COOKIE_LIFETIME := 95.
Definition TICKS := 1000000.
(** uintmax_t(getInstanceAge()) *)
Definition seconds_of (age : Z) : Z := age / TICKS.

(** RTMFP.cpp 269-294: makeCookie *)
Definition make_cookie (sha : list Z -> list Z) (secret : list Z) (age : Z) (a : addr) : list Z :=
  let seconds := seconds_of age in
  let dough := vlu_append seconds secret in
  let cookie := vlu_append seconds [] in
  let cookie := cookie ++ sha dough in
  let dough := dough ++ addr_encode a in
  cookie ++ sha dough.
Inductive verdict := COOKIE_BAD | COOKIE_MISMATCH | COOKIE_OK.
(** RTMFP.cpp 296-326: checkCookie *)
Definition check_cookie (sha : list Z -> list Z) (secret : list Z) (age : Z) (cookie : list Z) (a : addr) : res verdict :=
  match vlu_parse cookie with
  | UB => UB
  | Rej => Ok COOKIE_BAD
  | Ok (seconds, rv) =>
      if negb (Nat.eqb (length cookie) (rv + 32 + 32)) then Ok COOKIE_BAD
      else
        let now := seconds_of age in
        if (seconds >? now) || (now - seconds >? MAX_COOKIE_LIFETIME) then Ok COOKIE_BAD
        else
          let dough := secret ++ firstn rv cookie in
          if negb (eq_bytes (firstn 32 (skipn rv cookie)) (sha dough)) then Ok COOKIE_BAD
          else
            let dough := dough ++ addr_encode a in
            if negb (eq_bytes (firstn 32 (skipn (rv + 32) cookie)) (sha dough)) then Ok COOKIE_MISMATCH
            else Ok COOKIE_OK
  end.
