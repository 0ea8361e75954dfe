(** What a stream should have written: every call in order, each on the flow for its kind, with its time and its bytes. *)
From Verif Require Import Base AMF TC FlowSync TCMsg.

(** RFC 7425 5.3.3, 5.3: one message per call; type 20 command, 18 data, 8 audio, 9 video, a FLOW_SYNC for three flows on each *)
Inductive writes (id : Z) : Z -> list uop -> list (Z * kind * list Z) -> Prop :=
| w_end : forall y, writes id y [] []
| w_command : forall y c us out, writes id y us out -> writes id y (Command c :: us) ((id, Data, tc_message 20 0 c) :: out)
| w_send : forall y ts m us out, writes id y us out -> writes id y (Send ts m :: us) ((id, Data, tc_message 18 ts m) :: out)
| w_audio : forall y ts b us out, writes id y us out -> writes id y (SendAudio ts b :: us) ((id, Audio, tc_message 8 ts b) :: out)
| w_video : forall y ts b us out, writes id y us out -> writes id y (SendVideo ts b :: us) ((id, Video, tc_message 9 ts b) :: out)
| w_sync : forall y us out, writes id ((y + 1) mod 2 ^ 32) us out -> writes id y (Sync :: us)
    ((id, Video, sync_message y 3) :: (id, Audio, sync_message y 3) :: (id, Data, sync_message y 3) :: out).
Definition untimed (u : uop) : Prop := match u with Send ts _ => ts = 0 | _ => True end.
Definition keeps (u : uop) : Prop := match u with DeleteStream => False | _ => True end.
(** the commands asked for, and those written *)
Definition asked_u (u : uop) : list (list Z) := match u with Command c => [c] | _ => [] end.
Definition deletes (u : uop) : bool := match u with DeleteStream => true | _ => false end.
(** an ID given to a deleted stream does not open it, so its onOpen asks for nothing *)
Fixpoint asked_from (opn : bool) (l : list op) : list (list Z) :=
  match l with
  | [] => []
  | User u :: l => asked_u u ++ asked_from (opn && negb (deletes u)) l
  | SetID _ us :: l => if opn then concat (map asked_u us) ++ asked_from (negb (existsb deletes us)) l else asked_from false l
  end.
Definition commands (out : list (Z * kind * list Z)) : list (list Z) := map (fun e => skipn 5 (snd e)) (filter (fun e => hd 0 (snd e) =? 20) out).
