(** What a run loop owes its application, said of what happened, in order (properties C73 and C74). *)
From Coq Require Import Sorting.Sorted.
From Verif Require Import Base Loop.

(** The [now]-th event of a history is an action: its registration was made before the last poll and not cancelled since, the last poll reported
    that descriptor ready for that, the action has not run since the last poll, and the loop has not been stopped since. *)
Definition act_ok (past : list lev) (id : nat) : Prop :=
  exists before ready since fd c evs,
    past = before ++ Poll ready :: since /\
    (forall r, ~ In (Poll r) since) /\
    In (Reg id fd c) before /\ ~ In (Unreg id) past /\
    In (fd, evs) ready /\ In c evs /\
    ~ In (Act id) since /\ ~ In Stopped since.
Definition acts_ok (log : list lev) : Prop := forall past id rest, log = past ++ Act id :: rest -> act_ok past id.

(** A registration stands at the end of a history. *)
Definition stands (log : list lev) (id : nat) (fd : Z) (c : cond) : Prop := In (Reg id fd c) log /\ ~ In (Unreg id) log.

(** From a poll to the next one (or to the end), unless the loop is stopped in between: every registration reported ready has its action run or is
    cancelled, and every task that had been given has been run or dropped by clear. *)
Definition fate (log : list lev) (k : nat) : Prop := In (Later k) log \/ exists x y, log = x ++ Asked k :: y /\ In Cleared y.
Definition cycles_ok (log : list lev) : Prop :=
  forall a ready d rest, log = a ++ Poll ready :: d ++ rest -> (rest = [] \/ exists r t, rest = Poll r :: t) ->
    (forall r, ~ In (Poll r) d) -> ~ In Stopped d ->
    (forall id fd c evs, stands a id fd c -> In (fd, evs) ready -> In c evs -> In (Act id) d \/ In (Unreg id) d) /\
    (forall k, In (Asked k) a -> fate (a ++ Poll ready :: d) k).

(** The tasks run, in order. *)
Definition laters_of (log : list lev) : list nat := flat_map (fun x => match x with Later k => [k] | _ => [] end) log.

(** Between two polls: exceptions before reads before writes. *)
Definition rank (c : cond) : nat := match c with EX => 0 | RD => 1 | WR => 2 end.
Definition order_ok (log : list lev) : Prop :=
  forall past i mid j rest fi ci fj cj, log = past ++ Act i :: mid ++ Act j :: rest -> (forall r, ~ In (Poll r) mid) ->
    In (Reg i fi ci) past -> In (Reg j fj cj) past -> (rank ci <= rank cj)%nat.

(** Once stopped, the loop runs nothing but the other timers that are due. *)
Definition runs (x : lev) : bool := match x with Act _ | Later _ | Every | Poll _ => true | _ => false end.
Definition stops_ok (log : list lev) : Prop := forall a b, log = a ++ Stopped :: b -> forall x, In x b -> runs x = false.

(** What the kernel reports: every descriptor once. *)
Definition reports_ok (ins : list (list (Z * list cond) * nat)) : Prop := forall ready due, In (ready, due) ins -> NoDup (map fst ready).

(** The tasks are numbered as they are given; they are run in that order, each at most once, and after it was given. *)
Definition asked_of (log : list lev) : list nat := flat_map (fun x => match x with Asked k => [k] | _ => [] end) log.
Definition tasks_ok (log : list lev) : Prop :=
  asked_of log = seq 0 (length (asked_of log)) /\ StronglySorted lt (laters_of log) /\
  (forall past k rest, log = past ++ Later k :: rest -> In (Asked k) past).

(** A descriptor is open at the end of a history. *)
Definition open_at (log : list lev) (fd : Z) : Prop := exists a b, log = a ++ Opened fd :: b /\ ~ In (Closed fd) b.
(** A well-behaved application opens a descriptor before it registers it, and unregisters it before it closes it. *)
Definition proper (log : list lev) : Prop :=
  (forall past id fd c rest, log = past ++ Reg id fd c :: rest -> open_at past fd) /\
  (forall past fd rest, log = past ++ Closed fd :: rest -> forall id c, ~ stands past id fd c).
(** The conditions a descriptor is registered for. *)
Definition wanted (log : list lev) (fd : Z) (c : cond) : Prop := exists id, stands log id fd c.
(** What the kernel watches is registered; what is registered is watched by the kernel. *)
Definition watched_only (s : lp) : Prop :=
  NoDup (map fst (l_kern s)) /\ (forall fd m, In (fd, m) (l_kern s) -> (exists c, In c m) /\ forall c, In c m <-> wanted (l_log s) fd c).
Definition watched_all (s : lp) : Prop := forall fd c, wanted (l_log s) fd c -> exists m, In (fd, m) (l_kern s) /\ In c m.
