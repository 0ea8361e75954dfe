(** Model of the redirector's side of the protocol (test/redirector.cpp, class Client): one registered connection, and the server
    with all of them.  activeClients (a List) is the sequence of the clients in it (what C09 proves of List), a client's
    m_activeClientsName is its being in it, maps are association lists, and the random shuffle is any permutation.  Left out: printing,
    the program's options and main, the return flow's own life, and the test for the far certificate in newClient. *)
From Verif Require Import Base VLU Address Redir.
Open Scope res_scope.

Section Server.
Variable hmac : list Z -> list Z -> list Z.
(** redirector.cpp 86: passwords, by key *)
Variable passwords : list (list Z * list Z).

Fixpoint bytes_eqb (a b : list Z) : bool :=
  match a, b with [], [] => true | x :: a, y :: b => (x =? y) && bytes_eqb a b | _, _ => false end.
Fixpoint lookup (k : list Z) (m : list (list Z * list Z)) : option (list Z) :=
  match m with [] => None | (k', v) :: r => if bytes_eqb k k' then Some v else lookup k r end.

(** 469-476: the members of Client; s_recv: m_recv is not null; s_held: its receive order is RO_HOLD; s_send: m_send is not null;
    s_reports: the messages sent on the return flow *)
Record scl := mkScl {
  s_fp : list Z; s_nonce : list Z; s_recv : bool; s_held : bool; s_auth : bool; s_refl : bool; s_addrs : list addr; s_load : Z;
  s_far : addr; s_send : bool; s_reports : list (list Z) }.
(** 121-144: newClient *)
Definition scl_new (fp nonce : list Z) (far : addr) : scl :=
  mkScl fp nonce true false (match passwords with [] => true | _ => false end) false [] 0 far false [].
(** what a message makes the server do with the client: nothing more, put it in the table of active clients, take it out, close the
    connection now, close it later *)
Inductive effect := Nothing | Register | Drain | CloseNow | CloseLater.

Definition v_auth (s : scl) x := mkScl (s_fp s) (s_nonce s) (s_recv s) (s_held s) x (s_refl s) (s_addrs s) (s_load s) (s_far s) (s_send s) (s_reports s).
Definition v_held (s : scl) x := mkScl (s_fp s) (s_nonce s) (s_recv s) x (s_auth s) (s_refl s) (s_addrs s) (s_load s) (s_far s) (s_send s) (s_reports s).
Definition v_set (s : scl) r l := mkScl (s_fp s) (s_nonce s) (s_recv s) (s_held s) (s_auth s) r l (s_load s) (s_far s) (s_send s) (s_reports s).
Definition v_load (s : scl) x := mkScl (s_fp s) (s_nonce s) (s_recv s) (s_held s) (s_auth s) (s_refl s) (s_addrs s) x (s_far s) (s_send s) (s_reports s).
Definition v_send (s : scl) x r := mkScl (s_fp s) (s_nonce s) (s_recv s) (s_held s) (s_auth s) (s_refl s) (s_addrs s) (s_load s) (s_far s) x r.
Definition v_far (s : scl) x := mkScl (s_fp s) (s_nonce s) (s_recv s) (s_held s) (s_auth s) (s_refl s) (s_addrs s) (s_load s) x (s_send s) (s_reports s).

(** 457-467: sendReflexiveAddress *)
Definition send_reflexive (s : scl) : scl :=
  if s_send s then v_send s true (s_reports s ++ [CMD_REFLEXIVE_ADDR_REPORT :: addr_encode (s_far s)]) else s.
(** 441-448: ensureReturnFlow; openReturnFlow answers a flow *)
Definition ensure_return (s : scl) : scl := if s_recv s && negb (s_send s) then send_reflexive (v_send s true (s_reports s)) else s.
(** 450-455: onAddressChanged; the callback is cleared when m_recv is closed (Flow.cpp 35-39) *)
Definition on_address_changed (s : scl) (a : addr) : scl := if s_recv s then send_reflexive (v_far s a) else s.
(** 280-288: delayCloseBadAuth (the timer is the effect) *)
Definition delay_close (s : scl) : scl * effect := (if s_recv s then v_held s true else s, CloseLater).

(** 328-349: onSimpleAuth *)
Definition on_simple_auth (s : scl) (b : list Z) : scl * effect :=
  if Nat.ltb (length b) 32 then (s, Nothing)
  else
    match lookup (skipn 32 b) passwords with
    | None => (s, Nothing)
    | Some pw =>
        if memcmp (hmac pw (s_nonce s)) (firstn 32 b) =? 0 then (v_auth s true, Nothing) else delay_close s
    end.
(** 358-399: the loop of onSettings; [None]: malformed.  A field without contents is skipped. *)
Fixpoint settings_loop (fuel : nat) (l : list Z) (refl : bool) (addrs : list addr) : res (option (bool * list addr)) :=
  match fuel with
  | O => UB
  | S fuel =>
      match l with
      | [] => Ok (Some (refl, addrs))
      | _ =>
          match option_parse l with
          | UB => UB
          | Rej => Ok None
          | Ok (_, None, n) => settings_loop fuel (skipn n l) refl addrs
          | Ok (ty, Some v, n) =>
              if ty =? SETTINGS_OPT_INCLUDE_REFLEXIVE then settings_loop fuel (skipn n l) true addrs
              else if ty =? SETTINGS_OPT_ADD_ADDRESS then
                match addr_decode addr_erased v with
                | UB => UB
                | Rej => Ok None
                | Ok (a, _) => settings_loop fuel (skipn n l) refl (addrs ++ [a])
                end
              else settings_loop fuel (skipn n l) refl addrs
          end
      end
  end.
(** 351-409: onSettings *)
Definition on_settings (s : scl) (b : list Z) : res (scl * effect) :=
  r <- settings_loop (S (length b)) b false [];;
  match r with
  | None => Ok (v_set s false [], CloseNow)
  | Some (refl, addrs) => Ok (ensure_return (v_set s refl addrs), Register)
  end.
(** 420-432: onLoadFactor *)
Definition on_load_factor (s : scl) (b : list Z) : res (scl * effect) :=
  match vlu_parse b with
  | UB => UB
  | Rej => Ok (s, CloseNow)
  | Ok (v, _) => Ok (ensure_return (v_load s v), Nothing)
  end.
(** 290-326 with 411-418 (onDraining) and 434-439 (onUserData) *)
Definition on_msg (s : scl) (bytes : list Z) : res (scl * effect) :=
  match bytes with
  | [] => Ok (s, Nothing)
  | cmd :: cursor =>
      if negb (s_auth s) && negb (cmd =? CMD_SIMPLE_AUTH) then Ok (delay_close s)
      else if cmd =? CMD_SIMPLE_AUTH then Ok (on_simple_auth s cursor)
      else if cmd =? CMD_SETTINGS then on_settings s cursor
      else if cmd =? CMD_DRAINING then Ok (ensure_return s, Drain)
      else if cmd =? CMD_LOAD_FACTOR then on_load_factor s cursor
      else if cmd =? CMD_USER_DATA then Ok (ensure_return s, Nothing)
      else Ok (s, Nothing)
  end.

(** One connection by itself: the client as the server sees it, and whether it is in the table of active clients.  Messages are not
    delivered to a closed flow or one on hold (RecvFlow.cpp 386). *)
Definition close_scl (s : scl) : scl :=
  mkScl (s_fp s) (s_nonce s) false (s_held s) (s_auth s) (s_refl s) (s_addrs s) (s_load s) (s_far s) false (s_reports s).
Definition conn_msg (sa : scl * bool) (bytes : list Z) : res (scl * bool) :=
  let (s, act) := sa in
  if s_recv s && negb (s_held s) then
    ' (s, e) <- on_msg s bytes;;
    match e with
    | Register => Ok (s, true)
    | Drain => Ok (s, false)
    | CloseNow => Ok (close_scl s, false)
    | _ => Ok (s, act)
    end
  else Ok sa.
Fixpoint conn_run (sa : scl * bool) (ms : list (list Z)) : res (scl * bool) :=
  match ms with [] => Ok sa | m :: r => sa <- conn_msg sa m;; conn_run sa r end.

(** ** All clients *)
(** 99-101: clients (with the closed ones that a timer still holds), activeClients, peers; clients are numbered as they connect *)
Record srv := mkSrv { v_cls : list scl; v_active : list nat; v_peers : list (list Z * nat) }.
Definition srv_new : srv := mkSrv [] [] [].
Definition upd (l : list scl) (i : nat) (s : scl) : list scl := firstn i l ++ match skipn i l with [] => [] | _ :: r => s :: r end.
Definition peers_erase (fp : list Z) (m : list (list Z * nat)) : list (list Z * nat) := filter (fun x => negb (bytes_eqb fp (fst x))) m.
Definition peers_set (fp : list Z) (i : nat) (m : list (list Z * nat)) : list (list Z * nat) := (fp, i) :: peers_erase fp m.
Fixpoint peers_find (fp : list Z) (m : list (list Z * nat)) : option nat :=
  match m with [] => None | (k, i) :: r => if bytes_eqb fp k then Some i else peers_find fp r end.
Definition act_remove (i : nat) (l : list nat) : list nat := filter (fun j => negb (Nat.eqb i j)) l.
Definition is_active (v : srv) (i : nat) : bool := existsb (Nat.eqb i) (v_active v).

(** 146-170: close *)
Definition srv_close (v : srv) (i : nat) : srv :=
  match nth_error (v_cls v) i with
  | None => v
  | Some s => mkSrv (upd (v_cls v) i (close_scl s)) (act_remove i (v_active v)) (peers_erase (s_fp s) (v_peers v))
  end.
(** 290-439 on client [i], with the tables: 401-406 in onSettings, 414-415 in onDraining *)
Definition srv_message (v : srv) (i : nat) (bytes : list Z) : res srv :=
  match nth_error (v_cls v) i with
  | None => Ok v
  | Some s =>
      if s_recv s && negb (s_held s) then
        ' (s, e) <- on_msg s bytes;;
        let v := mkSrv (upd (v_cls v) i s) (v_active v) (v_peers v) in
        match e with
        | Register => if is_active v i then Ok v else Ok (mkSrv (v_cls v) (i :: v_active v) (peers_set (s_fp s) i (v_peers v)))
        | Drain => Ok (mkSrv (v_cls v) (act_remove i (v_active v)) (v_peers v))
        | CloseNow => Ok (srv_close v i)
        | _ => Ok v
        end
      else Ok v
  end.

(** 84, 88-90: the program's options *)
Record opts := mkOpts { o_targets : nat; o_static : list addr; o_xforward : bool; o_xredirect : bool }.
(** 204-209: taking targets from the front of the list, each rotated to its end *)
Fixpoint take_targets (k : nat) (l : list nat) : list nat * list nat :=
  match k, l with
  | S k, x :: r => let (found, l') := take_targets k (r ++ [x]) in (x :: found, l')
  | _, _ => ([], l)
  end.
(** 211, 260-263: std::stable_sort by load factor *)
Definition load_of (v : srv) (i : nat) : Z := match nth_error (v_cls v) i with Some s => s_load s | None => 0 end.
Fixpoint sort_insert (v : srv) (i : nat) (l : list nat) : list nat :=
  match l with [] => [i] | j :: r => if load_of v i <=? load_of v j then i :: l else j :: sort_insert v i r end.
Fixpoint stable_sort (v : srv) (l : list nat) : list nat :=
  match l with [] => [] | i :: r => sort_insert v i (stable_sort v r) end.

Definition used (a : addr) (l : list addr) : bool := existsb (addr_eq a) l.
(** 236-246: the additional addresses of one target; [acc] is (redirectAddresses, hasSameFamilyRedirect).  Simplified: usedAddresses
    always has the elements of redirectAddresses, so there is one list. *)
Fixpoint add_additional (o : opts) (fam : Z) (l : list addr) (acc : list addr * bool) : list addr * bool :=
  match l with
  | [] => acc
  | a :: r =>
      let same := a_fam a =? fam in
      add_additional o fam r
        (if (o_xredirect o || same) && negb (used a (fst acc)) then (fst acc ++ [a], snd acc || same) else acc)
  end.
(** 214-250: the loop over the targets; answers redirectAddresses and forwardClients; each->m_recv must not be null *)
Fixpoint redirect_loop (o : opts) (v : srv) (fam : Z) (found : list nat) (red : list addr) (fwd : list nat) : res (list addr * list nat) :=
  match found with
  | [] => Ok (red, fwd)
  | i :: r =>
      match nth_error (v_cls v) i with
      | None => UB
      | Some s =>
          if negb (s_recv s) then UB
          else
            let same := a_fam (s_far s) =? fam in
            let acc := if (o_xredirect o || same) && s_refl s && negb (used (s_far s) red) then (red ++ [s_far s], same) else (red, false) in
            let acc := add_additional o fam (s_addrs s) acc in
            redirect_loop o v fam r (fst acc) (if o_xforward o || snd acc then fwd ++ [i] else fwd)
      end
  end.
(** 172-258: doRedirect after the EPD is parsed and the clients shuffled; [fp] is the fingerprint in the EPD, if any.  Answers the
    new server, the addresses of the Redirect and the clients the IHello is forwarded to. *)
Definition do_redirect (o : opts) (v : srv) (fp : option (list Z)) (fam : Z) : res (srv * list addr * list nat) :=
  let (found, act) :=
    match fp with
    | Some fp => (match peers_find fp (v_peers v) with Some i => [i] | None => [] end, v_active v)
    | None =>
        let (f, l) := take_targets (Nat.min (o_targets o) (length (v_active v))) (v_active v) in (stable_sort v f, l)
    end in
  ' (red, fwd) <- redirect_loop o v fam found (o_static o) [];;
  Ok (mkSrv (v_cls v) act (v_peers v), red, fwd).

(** What can happen at the server; VShuffle puts the active clients in any order (265-277).  A delayed close can come at any time, also
    for a client that is closed already. *)
Inductive sevent :=
| VConnect (fp nonce : list Z) (far : addr)
| VMessage (i : nat) (bytes : list Z)
| VComplete (i : nat)
| VDelayed (i : nat)
| VAddress (i : nat) (a : addr)
| VShuffle (order : list nat)
| VRedirect (o : opts) (fp : option (list Z)) (fam : Z).
Definition same_members (a b : list nat) : bool :=
  Nat.eqb (length a) (length b) && forallb (fun x => existsb (Nat.eqb x) b) a && forallb (fun x => existsb (Nat.eqb x) a) b.
Definition srv_step (v : srv) (e : sevent) : res srv :=
  match e with
  | VConnect fp nonce far => Ok (mkSrv (v_cls v ++ [scl_new fp nonce far]) (v_active v) (v_peers v))
  | VMessage i bytes => srv_message v i bytes
  | VComplete i =>                                                             (* 134: only while the flow is open *)
      match nth_error (v_cls v) i with Some s => Ok (if s_recv s then srv_close v i else v) | None => Ok v end
  | VDelayed i =>                                                              (* 287: only after delayCloseBadAuth *)
      match nth_error (v_cls v) i with Some s => Ok (if s_held s then srv_close v i else v) | None => Ok v end
  | VAddress i a =>
      match nth_error (v_cls v) i with
      | Some s => Ok (mkSrv (upd (v_cls v) i (on_address_changed s a)) (v_active v) (v_peers v))
      | None => Ok v
      end
  | VShuffle order => Ok (if same_members order (v_active v) then mkSrv (v_cls v) order (v_peers v) else v)
  | VRedirect o fp fam => ' (v, _, _) <- do_redirect o v fp fam;; Ok v
  end.
Fixpoint srv_run (v : srv) (es : list sevent) : res srv :=
  match es with [] => Ok v | e :: r => v <- srv_step v e;; srv_run v r end.
End Server.
