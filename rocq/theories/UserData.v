(** User-data chunks: their assembly in SendFlow::assembleData and their parsing in Session::onUserDataChunk. *)
From Verif Require Import Base VLU Packet.
Open Scope res_scope.

(** packet.hpp: chunk types, flags and option types *)
Definition CHUNK_USERDATA : Z := 16.
Definition CHUNK_NEXT_USERDATA : Z := 17.
Definition FLAG_OPT : Z := 128.
Definition OPT_METADATA : Z := 0.
Definition OPT_RETURN_ASSOCIATION : Z := 10.
Definition OPT_MANDATORY_CUTOFF : Z := 8192.

(** ** Sending *)

(** A fragment as assembleData is about to send it: m_fra | flag_abn | flag_fin, m_sequence_number, and m_data (sent only when
    it is not abandoned). *)
Record frame := mkFrame { fr_flags : Z; fr_seq : Z; fr_data : list Z }.
Definition fr_abandoned (fr : frame) : bool := negb (Z.land (fr_flags fr) 2 =? 0).

(** SendFlow.cpp 42-67: m_startup_options as the constructor builds it. *)
Definition startup_options (metadata : list Z) (assoc : option Z) : list Z :=
  let o1 := option_append OPT_METADATA metadata [] in
  let o2 := match assoc with Some id => option_append_vlu OPT_RETURN_ASSOCIATION id o1 | None => o1 end in
  option_append_end o2.

(** SendFlow.cpp 446-480: chunk type and the pieces pushed for one fragment.  [first] is firstChunk, [prev] previousSN. *)
Definition ud_chunk (flow fsn : Z) (opts : list Z) (first : bool) (prev : Z) (fr : frame) : Z * list pa_op :=
  let ty := if negb first && (fr_seq fr =? wrap64 (prev + 1)) then CHUNK_NEXT_USERDATA else CHUNK_USERDATA in
  let opt := first && negb (zlen opts =? 0) in
  let flags := Z.lor (if opt then FLAG_OPT else 0) (fr_flags fr) in
  (ty,
   [OpPushByte flags]
   ++ (if ty =? CHUNK_USERDATA then [OpPushVLU flow; OpPushVLU (fr_seq fr); OpPushVLU (wrap64 (fr_seq fr - fsn))] else [])
   ++ (if opt then [OpPush opts] else [])
   ++ (if fr_abandoned fr then [] else [OpPush (fr_data fr)])).

(** SendFlow.cpp 424-499: the filling loop over the fragments [frs] it wants to send, up to the first that does not fit.
    Answers the packet and how many were sent.  (Which fragments those are, and the bookkeeping, are in SendFlow.v.) *)
Fixpoint ud_assemble (p : packet) (flow fsn : Z) (opts : list Z) (first : bool) (prev : Z) (frs : list frame) : res (packet * nat) :=
  match frs with
  | [] => Ok (p, O)
  | fr :: r =>
      let c := ud_chunk flow fsn opts first prev fr in
      ' (p1, ok) <- pa_try_chunk p (fst c) (snd c);;
      if (ok : bool) then ' (p2, n) <- ud_assemble p1 flow fsn opts false (fr_seq fr) r;; Ok (p2, S n)
      else Ok (p1, O)
  end.

(** ** Receiving *)

(** The arguments of Session::onUserData: flags, flowID, sequenceNumber, fsn, associatedFlowID (null = None), metadata (null =
    None), data, mustReject. *)
Record udata := mkUD { u_flags : Z; u_flow : Z; u_seq : Z; u_fsn : Z; u_assoc : option Z; u_meta : option (list Z); u_data : list Z; u_reject : bool }.
(** m_parsingFlowID, m_parsingSequenceNumber, m_parsingFSN; None = not m_seenUserDataThisPacket *)
Definition udctx := option (Z * Z * Z).
Definition ctx_of (u : udata) : udctx := Some (u_flow u, u_seq u, u_fsn u).

(** VLU::parse at the cursor, and moving past it. *)
Definition take_vlu (l : list Z) : res (Z * list Z) := ' (v, n) <- vlu_parse l;; Ok (v, skipn n l).

(** Session.cpp 1913-1953: the option loop.  More iterations than bytes is [UB] here. *)
Fixpoint ud_options (fuel : nat) (l : list Z) (meta : option (list Z)) (assoc : option Z) (reject : bool)
  : res (list Z * option (list Z) * option Z * bool) :=
  match fuel with
  | O => UB
  | S fuel' =>
      if zlen l <=? 0 then Rej
      else
        ' (ty, value, n) <- option_parse l;;
        let l' := skipn n l in
        match value with
        | None => Ok (l', meta, assoc, reject)
        | Some v =>
            if ty =? OPT_METADATA then ud_options fuel' l' (Some v) assoc reject
            else if ty =? OPT_RETURN_ASSOCIATION then ' (a, _) <- vlu_parse v;; ud_options fuel' l' meta (Some a) reject
            else ud_options fuel' l' meta assoc (if ty <? OPT_MANDATORY_CUTOFF then true else reject)
        end
  end.

(** Session.cpp 1866-1966: onUserDataChunk.  [Rej] is a return without calling onUserData. *)
Definition ud_parse (ctx : udctx) (chunkType : Z) (l : list Z) : res udata :=
  match l with
  | [] => Rej
  | flags :: l0 =>
      ' (flow, seq, fsn, l1) <-
        (if chunkType =? CHUNK_USERDATA then
           ' (flow, a1) <- take_vlu l0;;
           ' (seq, a2) <- take_vlu a1;;
           ' (off, a3) <- take_vlu a2;;
           if off >? seq then Rej else Ok (flow, seq, wrap64 (seq - off), a3)
         else if chunkType =? CHUNK_NEXT_USERDATA then
           match ctx with
           | None => Rej
           | Some (flow, seq, fsn) => Ok (flow, wrap64 (seq + 1), fsn, l0)
           end
         else Rej);;
      ' (l2, meta, assoc, reject) <-
        (if Z.land flags FLAG_OPT =? 0 then Ok (l1, None, None, false) else ud_options (S (length l1)) l1 None None false);;
      Ok (mkUD flags flow seq fsn assoc meta l2 reject)
  end.

(** Session.cpp 1693-1721 (dispatch) for the user-data chunks of one packet; m_seenUserDataThisPacket is cleared at the start of
    each packet (1577).  Other chunk types do not touch the parsing context. *)
Fixpoint ud_packet (ctx : udctx) (cs : list (Z * list Z)) : res (list udata) :=
  match cs with
  | [] => Ok []
  | (t, l) :: r =>
      if (t =? CHUNK_USERDATA) || (t =? CHUNK_NEXT_USERDATA) then
        match ud_parse ctx t l with
        | Ok u => us <- ud_packet (ctx_of u) r;; Ok (u :: us)
        | Rej => ud_packet ctx r
        | UB => UB
        end
      else ud_packet ctx r
  end.
