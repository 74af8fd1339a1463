(** What users of the control socket rely on: the exchanges seen on one
    connection, who may do what, and when a replacement daemon may act. *)
From Verif Require Import Base CtlModel.
Local Open Scope N_scope.

(** ** Who may ask for what.  [None]: the local socket; TCP clients have two
    permissions. *)
Definition permitted (p : option (bool * bool)) (key : N) : Prop :=
  match p with
  | None => True
  | Some (chal_ok, ctl_ok) =>
      key = REQ_INFO \/ key = REQ_STAT \/ key = REQ_STATE \/
      (chal_ok = true /\ (key = REQ_CHAL \/ key = REQ_CHALF)) \/
      (ctl_ok = true /\ (key = REQ_ZREL \/ key = REQ_REPL))
  end.

(** A challenge request announces how many challenges and bytes follow. *)
Definition chal_sizes (v d : N) : Prop := 1 <= v <= 100 /\ 1 <= d <= 28400.

Definition known_keys : list N :=
  [REQ_INFO; REQ_STOP; REQ_STAT; REQ_STATE; REQ_ZREL; REQ_CHAL; REQ_CHALF; REQ_REPL; REQ_TAK1; REQ_TAK2; REQ_TAKE].

(** The one-message answers each request may get. *)
Definition short_answers (key : N) : list N :=
  if key =? REQ_STOP then [RESP_ACK; RESP_LATR]
  else if key =? REQ_ZREL then [RESP_ACK; RESP_FAIL; RESP_LATR]
  else if key =? REQ_CHAL then [RESP_ACK; RESP_FAIL; RESP_LATR]
  else if key =? REQ_CHALF then [RESP_ACK; RESP_LATR]
  else if key =? REQ_REPL then [RESP_ACK; RESP_FAIL; RESP_LATR]
  else if key =? REQ_TAK1 then [RESP_ACK; RESP_LATR]
  else [].

Section Exchange.
  Variable fds : list N.
  Variables status_v status_d : N.
  (** When a request to reload, made at time [t], may be answered with [r]. *)
  Variable reloaded : nat -> N -> Prop.

  (** A whole exchange on a connection with permissions [p]: one request and
      all of its answer. *)
  Inductive exchange (p : option (bool * bool)) : list item -> Prop :=
  | Xdeny t key v d : ~ permitted p key -> exchange p [Got t key v d; Wrote RESP_DENY 0 0]
  | Xunknown t key v d : permitted p key -> ~ In key known_keys -> exchange p [Got t key v d; Wrote RESP_UNK 0 0]
  | Xinfo t v d : permitted p REQ_INFO -> exchange p [Got t REQ_INFO v d; Wrote RESP_ACK status_v status_d]
  | Xshort t key v d r : permitted p key -> key <> REQ_CHAL -> In r (short_answers key) ->
      (key = REQ_ZREL -> r <> RESP_LATR -> reloaded t r) ->
      exchange p [Got t key v d; Wrote r 0 0]
  | Xchal t v d chunks r : permitted p REQ_CHAL -> chal_sizes v d -> N.of_nat (length (concat chunks)) = d -> In r (short_answers REQ_CHAL) ->
      exchange p ([Got t REQ_CHAL v d] ++ map GotData chunks ++ [Wrote r 0 0])
  (* data: the client gets exactly the bytes it has been told to expect *)
  | Xtext t key v d b chunks : permitted p key -> key = REQ_STAT \/ key = REQ_STATE -> concat chunks = b -> N.of_nat (length b) < 4294967296 ->
      exchange p ([Got t key v d; Made b; Wrote RESP_ACK 0 (N.of_nat (length b))] ++ map WroteData chunks)
  | Xtak2none t v d n : permitted p REQ_TAK2 -> exchange p [Got t REQ_TAK2 v d; Wrote RESP_ACK n 0]
  | Xtak2 t v d b n chunks : permitted p REQ_TAK2 -> N.of_nat (length b) < 4294967296 -> concat chunks = b ->
      exchange p ([Got t REQ_TAK2 v d; Made b; Wrote RESP_ACK n (N.of_nat (length b))] ++ map WroteData chunks)
  (* sockets: all of them, in order, each message saying how many in total *)
  | Xtake t v d chunks : permitted p REQ_TAKE -> concat chunks = fds -> Forall (fun c => (1 <= length c <= 253)%nat) chunks ->
      exchange p ([Got t REQ_TAKE v d] ++ map (WroteFds RESP_ACK (N.of_nat (length fds)) 0) chunks).

  (** Requests after which the daemon hangs up without an answer: a challenge
      request with sizes that are out of range, and a takeover by someone else. *)
  Definition hung_up (p : option (bool * bool)) (part : list item) : Prop :=
    exists t key v d, part = [Got t key v d] /\ permitted p key /\
      ((key = REQ_CHAL /\ ~ chal_sizes v d) \/ key = REQ_TAK2 \/ key = REQ_TAKE).

  (** Everything seen on a connection: whole exchanges, one after the other, then
      the beginning of one. *)
  Definition connection_log (open : bool) (l : list item) : Prop :=
    exists p done part,
      Forall (exchange p) done /\
      l = [Opened p] ++ concat done ++ part ++ (if open then [] else [Closed]) /\
      ((exists rest, exchange p (part ++ rest)) \/ (open = false /\ hung_up p part)).
End Exchange.

(** ** Replacement.  [None]: normal service; [Some (pid, announced)]: a
    replacement with this PID is under way, [announced] is the connection on
    which it has announced itself. *)
Definition takeover := option (N * option nat).
Inductive may (st : takeover) : effect -> takeover -> Prop :=
| May_challenges i v b : st = None -> may st (By i (DidChallenges v b)) st
| May_flush i : st = None -> may st (By i DidFlush) st
| May_reload i : st = None -> may st (By i DidQueueReload) st
| May_spawn i pid : st = None -> pid <> 0 -> may st (By i (DidSpawn pid)) (Some (pid, None))
| May_announce i pid : pid <> 0 -> match st with None => True | Some (p, _) => p = pid end -> may st (By i (DidAnnounce pid)) (Some (pid, Some i))
| May_send i pid : st = Some (pid, Some i) -> may st (By i DidSendFds) st
| May_stop i : match st with None => True | Some (_, a) => a = Some i end -> may st (By i DidStop) None
| May_resume pid a : st = Some (pid, a) -> may st (Resumed pid) None
| May_term : st = None -> may st Terminated None.
Inductive may_all : takeover -> list effect -> takeover -> Prop :=
| may_nil st : may_all st [] st
| may_snoc st l st' e st'' : may_all st l st' -> may st' e st'' -> may_all st (l ++ [e]) st''.

(** The request each action needs. *)
Definition request_of (a : action) (key v d : N) : Prop :=
  match a with
  | DidChallenges count data => key = REQ_CHAL /\ v = count /\ d = N.of_nat (length data)
  | DidFlush => key = REQ_CHALF
  | DidQueueReload => key = REQ_ZREL
  | DidSpawn _ => key = REQ_REPL
  | DidAnnounce pid => key = REQ_TAK1 /\ d = pid
  | DidSendFds => key = REQ_TAKE
  | DidStop => key = REQ_STOP
  end.
Definition data_of (a : action) : bytes := match a with DidChallenges _ data => data | _ => [] end.
(** The connection asked for it, was permitted to, and sent that data. *)
Definition asked_for (l : list item) (a : action) : Prop :=
  exists p before t key v d chunks after,
    l = [Opened p] ++ before ++ [Got t key v d] ++ map GotData chunks ++ after /\
    permitted p key /\ request_of a key v d /\ concat chunks = data_of a.

(** ** Reloading *)
(** Clients waiting for a reload: the last thing seen is their request. *)
Definition waits_since (l : list item) (t : nat) : Prop :=
  exists before v d, l = before ++ [Got t REQ_ZREL v d].

(** ** Assumptions about others *)
Section Others.
  Variable fds : list N.
  Variables status_v status_d : N.
  (** [P] holds of every event of a history and the state it meets. *)
  Fixpoint always (P : css -> event -> Prop) (s : css) (h : list event) : Prop :=
    match h with
    | [] => True
    | e :: h => P s e /\ match step fds status_v status_d s e with Ok s' => always P s' h | UB => True end
    end.
End Others.
Definition is_reading (s : css) (i : nat) : Prop := exists c, s_conns s i = Some c /\ k_state c = READING_REQ.
(** Connection [i] sends this request now. *)
Definition asks (s : css) (e : event) (i : nat) (key d : N) (x : ext) : Prop :=
  is_reading s i /\ exists v0 v1 v2 d0 d1 d2 d3, e = ERead i (Recv [key; v0; v1; v2; d0; d1; d2; d3]) x /\ d = make_d d0 d1 d2 d3.
(** Texts the daemon produces for a client are not longer than 32 bits can say
    (statio.c, mon.c and chal.c:445 keep to that), statistics and states are not
    empty (they have a head and a foot), and a new daemon announces itself
    with its PID, which is not 0. *)
Definition sane (s : css) (e : event) : Prop :=
  forall i key d x, asks s e i key d x ->
    N.of_nat (length (x_text x)) <= 4294967295 /\ (key = REQ_STAT \/ key = REQ_STATE -> x_text x <> []) /\ (key = REQ_TAK1 -> d <> 0).
(** A replacement that has died is noticed only when no load of the zones is
    running. *)
Definition calm (s : css) (e : event) : Prop :=
  e = ETimer true -> forall k t, s_threads s k = Some t -> t_phase t = TJoined.
(** New daemons keep to the protocol (one announcement at a time), answers to a
    stop in a replacement can be sent, and chal.c:445 keeps the count small. *)
Definition polite (s : css) (e : event) : Prop :=
  forall i key d x, asks s e i key d x ->
    (key = REQ_TAK1 -> s_pid s = d -> s_dmn s = None) /\
    (key = REQ_STOP -> s_ctl s <> None -> x_ack1 x = true) /\
    x_csets x <= 16777215.
