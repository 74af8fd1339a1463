(** What a health check is supposed to do, in terms of the system calls made and the results
    reported.  The specification of C57. *)
From Verif Require Import Base ProbeModel.
Local Open Scope N_scope.

(** What was sent and what was received *)
Fixpoint sent (h : list (N * effect)) : bytes :=
  match h with
  | [] => []
  | (_, Sent _ d) :: h' => d ++ sent h'
  | _ :: h' => sent h'
  end.
Fixpoint got (h : list (N * effect)) : bytes :=
  match h with
  | [] => []
  | (_, Got _ d) :: h' => d ++ got h'
  | _ :: h' => got h'
  end.

Definition happened (e : effect) (h : list (N * effect)) : Prop := exists t, In (t, e) h.

(** Between the time [t0] and the time [t1] only the connection [fd] is used, and nothing is reported. *)
Definition on (fd t0 t1 : N) (te : N * effect) : Prop :=
  t0 <= fst te <= t1 /\
  match snd te with
  | Connected f _ | Sent f _ | Got f _ | Broke f | Shut f => f = fd
  | Socket _ | Closed _ | Report _ => False
  end.

(** "HTTP/1.0" or "HTTP/1.1", a space, three digits that make one of the codes, and one more byte *)
Definition good_reply (codes : list N) (r : bytes) : Prop :=
  exists minor a b c x,
    r = [72; 84; 84; 80; 47; 49; 46] ++ [minor; 32; a; b; c; x] /\
    (minor = 48 \/ minor = 49) /\
    48 <= a <= 57 /\ 48 <= b <= 57 /\ 48 <= c <= 57 /\
    In (100 * (a - 48) + 10 * (b - 48) + (c - 48)) codes.

(** A whole HTTP check, with its result.  The check is good exactly if the whole request was sent
    and a good reply came back.  It is given up only for an error, for a whole bad reply, or when
    the time is over. *)
Inductive http_check (svc : http_svc) : list (N * effect) -> bool -> Prop :=
| http_no_socket t : http_check svc [(t, Socket None); (t, Report false)] false
| http_done t0 t1 fd mid up :
    t0 <= t1 ->
    Forall (on fd t0 t1) mid ->
    (up = true <-> happened (Connected fd true) mid /\ sent mid = req_data svc /\ good_reply (ok_codes svc) (got mid)) ->
    (exists rest, req_data svc = sent mid ++ rest) ->
    (up = false -> happened (Connected fd false) mid \/ happened (Broke fd) mid \/
                   length (got mid) = 13%nat \/ t0 + h_timeout svc <= t1) ->
    http_check svc ((t0, Socket (Some fd)) :: mid ++ [(t1, Closed fd); (t1, Report up)]) up.

(** An HTTP check that is still going on at the time [t] *)
Inductive http_open (svc : http_svc) (t : N) : N -> N -> list (N * effect) -> Prop :=
| http_going t0 fd mid :
    t0 <= t ->
    Forall (on fd t0 t) mid ->
    ~ happened (Connected fd false) mid -> ~ happened (Broke fd) mid ->
    (exists rest, req_data svc = sent mid ++ rest) ->
    (length (got mid) < 13)%nat ->
    http_open svc t t0 fd ((t0, Socket (Some fd)) :: mid).

(** A whole TCP check, with its result, if it has one: it is good exactly if the connection came about *)
Inductive tcp_check (svc : tcp_svc) : list (N * effect) -> option bool -> Prop :=
| tcp_no_socket t : tcp_check svc [(t, Socket None)] None
| tcp_done t0 t1 fd mid up :
    t0 <= t1 ->
    Forall (on fd t0 t1) mid ->
    (up = true <-> happened (Connected fd true) mid) ->
    (up = false -> happened (Connected fd false) mid \/ t0 + t_timeout svc <= t1) ->
    sent mid = [] ->
    tcp_check svc ((t0, Socket (Some fd)) :: mid ++ [(t1, Closed fd); (t1, Report up)]) (Some up).

(** Checks that follow each other *)
Inductive checks {A} (check : list (N * effect) -> A -> Prop) : list (N * effect) -> list A -> Prop :=
| checks_nil : checks check [] []
| checks_snoc h rs c r : checks check h rs -> check c r -> checks check (h ++ c) (rs ++ [r]).

(** The results that were reported *)
Fixpoint reports (h : list (N * effect)) : list bool :=
  match h with
  | [] => []
  | (_, Report b) :: h' => b :: reports h'
  | _ :: h' => reports h'
  end.
