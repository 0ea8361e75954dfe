(** Model of Address (src/Address.cpp): family, IP address, port, origin, the encoding and the order.  Left out: the other
    fields of the socket address structures (IPv6 flow label and scope), presentation strings and name lookup.  AF_INET and
    AF_INET6 have Linux's values; only their being distinct and non-zero matters.  memcmp of the null pointers of two empty
    addresses, with length 0, answers 0. *)
From Verif Require Import Base.
Open Scope res_scope.

Definition AF_INET := 2.
Definition AF_INET6 := 10.
(** Address.hpp 93-94: m_addr and m_origin; [a_ip] has as many bytes as the family says (none for family 0) *)
Record addr := mkAddr { a_fam : Z; a_ip : list Z; a_port : Z; a_origin : Z }.
(** Address.cpp 20-23, 34-37: an erased address of unknown origin *)
Definition addr_erased : addr := mkAddr 0 [] 0 0.

Fixpoint memcmp (a b : list Z) : Z :=
  match a, b with x :: a, y :: b => if x =? y then memcmp a b else x - y | _, _ => 0 end.
(** 116-126 *)
Definition ip_length (a : addr) : nat := if a_fam a =? AF_INET then 4 else if a_fam a =? AF_INET6 then 16 else 0.
(** 106-114, 91-104 *)
Definition get_port (a : addr) : Z := if (a_fam a =? AF_INET) || (a_fam a =? AF_INET6) then a_port a else 0.
Definition set_port (a : addr) (port : Z) : addr :=
  if (a_fam a =? AF_INET) || (a_fam a =? AF_INET6) then mkAddr (a_fam a) (a_ip a) (wrap16 port) (a_origin a) else a.
(** 70-89: canMapToFamily *)
Definition map_prefix : list Z := [0; 0; 0; 0; 0; 0; 0; 0; 0; 0; 255; 255].
Definition can_map (a : addr) (family : Z) : bool :=
  if a_fam a =? family then true
  else if a_fam a =? AF_INET then AF_INET6 =? family
  else if a_fam a =? AF_INET6 then (AF_INET =? family) && (memcmp (firstn 12 (a_ip a)) map_prefix =? 0)
  else false.
(** 39-68: setFamily *)
Definition set_family (a : addr) (family : Z) : addr :=
  if negb (AF_INET =? family) && negb (AF_INET6 =? family) then a
  else if a_fam a =? family then a
  else
    let saved := map_prefix ++ [0; 0; 0; 0] in
    let savedLen := if can_map a family then ip_length a else 0%nat in
    let saved' := if can_map a family then (if AF_INET6 =? family then firstn 12 saved ++ a_ip a else a_ip a ++ skipn (length (a_ip a)) saved) else saved in
    let ip := if Nat.eqb savedLen 0 then repeat 0 (if AF_INET =? family then 4%nat else 16%nat)
              else if AF_INET =? family then firstn 4 (skipn 12 saved') else firstn 16 saved' in
    set_port (mkAddr family ip 0 (a_origin a)) (get_port a).
(** 153-169: setIPAddress, for [src] of 4 or 16 bytes; [None] is the answer false *)
Definition set_ip (a : addr) (src : list Z) : option addr :=
  if Nat.eqb (length src) 4 then let a' := set_family a AF_INET in Some (mkAddr (a_fam a') src (a_port a') (a_origin a'))
  else if Nat.eqb (length src) 16 then let a' := set_family a AF_INET6 in Some (mkAddr (a_fam a') src (a_port a') (a_origin a'))
  else None.
(** 171-196: setFromEncoding; answers the address and the bytes consumed, [Rej] is the answer 0 *)
Definition addr_decode (a : addr) (src : list Z) : res (addr * nat) :=
  match src with
  | [] => Rej
  | f :: r =>
      let is6 := negb (Z.land f 128 =? 0) in
      let addressLength := if is6 then 16%nat else 4%nat in
      let encodedLength := (1 + addressLength + 2)%nat in
      if Nat.ltb (length src) encodedLength then Rej
      else
        let a1 := match set_ip a (firstn addressLength r) with Some x => x | None => a end in
        match skipn addressLength r with
        | p0 :: p1 :: _ =>
            let a2 := set_port a1 (Z.shiftl p0 8 + p1) in
            Ok (mkAddr (a_fam a2) (a_ip a2) (a_port a2) (Z.land f 3), encodedLength)
        | _ => UB
        end
  end.
(** 209-234: encode *)
Definition addr_encode (a : addr) : list Z :=
  if Nat.eqb (ip_length a) 0 then []
  else [Z.lor (if AF_INET6 =? a_fam a then 128 else 0) (a_origin a)] ++ a_ip a ++ [Z.land (Z.shiftr (get_port a) 8) 255; Z.land (get_port a) 255].
(** 276-295: operator< *)
Definition addr_lt (a b : addr) : bool :=
  if a_fam a <? a_fam b then true
  else if a_fam b <? a_fam a then false
  else
    let cmp := memcmp (a_ip a) (a_ip b) in
    if cmp <? 0 then true else if cmp >? 0 then false else get_port a <? get_port b.
(** 297-303: operator== *)
Definition addr_eq (a b : addr) : bool := (a_fam a =? a_fam b) && (memcmp (a_ip a) (a_ip b) =? 0) && (get_port a =? get_port b).
