(** C57: the built-in health checks test what their service type says, tell the result once, end in
    time and go on. *)
From Coq Require Import String Ascii Lia.
From Verif Require Import Base CompModel VscfModel OptModel OptSpec ProbeModel ProbeSpec ProbeConfModel ProbeConfSpec
  ProbeProofs ProbeProofs2 ProbeProofs3 ProbeProofs4 ProbeProofs5 ProbeConfProofs.
Local Open Scope N_scope.
Local Open Scope list_scope.
Local Notation length := List.length.

(** ** The service type *)

(** The service types accepted are the ones described, and they mean what is described *)
Theorem C57_http_service_type l : plain_codes l ->
  http_type l <> UB /\ forall m s, http_type l = Ok (Some (m, s)) <-> http_spec l m s.
Proof. exact (http_type_ok l). Qed.
Print Assumptions C57_http_service_type.

Theorem C57_tcp_service_type l :
  tcp_type l <> UB /\ forall m s, tcp_type l = Ok (Some (m, s)) <-> tcp_spec l m s.
Proof. exact (tcp_type_ok l). Qed.
Print Assumptions C57_tcp_service_type.

(** A list within the list of codes is not refused with a message: an assertion fails *)
Theorem C57_odd_codes_refused_refuted :
  http_type [(txt "plugin", VS [] (txt "http_status")); (txt "ok_codes", VA [VA [VS [] (txt "200")]])] = UB.
Proof. reflexivity. Qed.
Print Assumptions C57_odd_codes_refused_refuted.

(** The default for timeout is not held to the greatest timeout that can be written *)
Theorem C57_timeout_at_most_300_refuted : exists m s,
  tcp_type [(txt "plugin", VS [] (txt "tcp_connect")); (txt "port", VS [] (txt "25")); (txt "interval", VS [] (txt "3600"))]
  = Ok (Some (m, s)) /\ 300 < t_timeout s.
Proof. eexists _, _. split; [vm_compute; reflexivity|reflexivity]. Qed.
Print Assumptions C57_timeout_at_most_300_refuted.

(** ** HTTP *)

(** Whatever happens, in whatever order: no assertion fails; what is done is one whole check after
    another and then at most one that is still going on; each whole check reports its result,
    once, and nothing else is reported. *)
Theorem C57_http_history l ms svc es : http_spec l ms svc ->
  exists m h rs h' o, http_run svc es http_mon0 = Ok (m, h) /\ h = h' ++ o /\
    checks (http_check svc) h' rs /\ reports h = rs /\
    ((o = [] /\ sock m = None) \/ exists t0 fd, http_open svc (now m) t0 fd o /\ sock m = Some fd).
Proof. intros S. destruct (http_type_usable _ _ _ S) as (R & C & _). apply http_history; assumption. Qed.
Print Assumptions C57_http_history.

(** A check that is going on is over when its time is over, if nothing else comes up *)
Theorem C57_http_ends_in_time l ms svc es m h fd : http_spec l ms svc ->
  http_run svc es http_mon0 = Ok (m, h) -> sock m = Some fd ->
  exists t0 m', In (t0, Socket (Some fd)) h /\ t0 <= now m /\
    let T := N.max (now m) (t0 + h_timeout svc) in
    http_run svc [Tick (t0 + h_timeout svc - now m); Expire_timeout; Run_timeout] m
      = Ok (m', [(T, Shut fd); (T, Closed fd); (T, Report false)]) /\ sock m' = None.
Proof. intros S. destruct (http_type_usable _ _ _ S) as (R & C & _). apply http_stops; assumption. Qed.
Print Assumptions C57_http_ends_in_time.

(** Once started, the checks go on: within an interval the next one begins, unless one is going on *)
Theorem C57_http_goes_on l ms svc es1 m1 h1 s es2 m2 h2 fd c : http_spec l ms svc ->
  http_run svc es1 http_mon0 = Ok (m1, h1) -> http_idle m1 = true -> s <= h_interval svc ->
  http_run svc (Start s :: es2) m1 = Ok (m2, h2) -> sock m2 = None ->
  exists m3 h3, http_run svc [Tick (h_interval svc); Expire_interval; Run_interval fd c] m2
    = Ok (m3, (now m2 + h_interval svc, Socket fd) :: h3).
Proof. intros S. destruct (http_type_usable _ _ _ S) as (R & C & I & _). apply http_continues; assumption. Qed.
Print Assumptions C57_http_goes_on.

(** ** TCP *)

Theorem C57_tcp_history svc es :
  exists m h rs h' o, tcp_run svc es tcp_mon0 = Ok (m, h) /\ h = h' ++ o /\
    checks (tcp_check svc) h' rs /\ reports h = concat (map said rs) /\
    ((o = [] /\ tsock m = None) \/ exists t0 fd, o = [(t0, Socket (Some fd))] /\ t0 <= tnow m /\ tsock m = Some fd).
Proof. apply tcp_history. Qed.
Print Assumptions C57_tcp_history.

Theorem C57_tcp_ends_in_time svc es m h fd :
  tcp_run svc es tcp_mon0 = Ok (m, h) -> tsock m = Some fd ->
  exists t0 m', In (t0, Socket (Some fd)) h /\ t0 <= tnow m /\
    let T := N.max (tnow m) (t0 + t_timeout svc) in
    tcp_run svc [Tick (t0 + t_timeout svc - tnow m); Expire_timeout; Run_timeout] m
      = Ok (m', [(T, Shut fd); (T, Closed fd); (T, Report false)]) /\ tsock m' = None.
Proof. apply tcp_stops. Qed.
Print Assumptions C57_tcp_ends_in_time.

Theorem C57_tcp_goes_on l ms svc es1 m1 h1 s es2 m2 h2 fd c : tcp_spec l ms svc ->
  tcp_run svc es1 tcp_mon0 = Ok (m1, h1) -> tcp_idle m1 = true -> s <= t_interval svc ->
  tcp_run svc (Start s :: es2) m1 = Ok (m2, h2) -> tsock m2 = None ->
  exists m3 h3, tcp_run svc [Tick (t_interval svc); Expire_interval; Run_interval fd c] m2
    = Ok (m3, (tnow m2 + t_interval svc, Socket fd) :: h3).
Proof. intros S. destruct (tcp_type_usable _ _ _ S) as (I & _). apply tcp_continues; assumption. Qed.
Print Assumptions C57_tcp_goes_on.

(** ** What does not hold *)

(** A service type and a check that is good *)
Definition web : list (bytes * vnode) :=
  [(txt "plugin", VS [] (txt "http_status")); (txt "port", VS [] (txt "8080"));
   (txt "vhost", VS [] (txt "www.example.org")); (txt "interval", VS [] (txt "0x14"));
   (txt "ok_codes", VA [VS [] (txt "200"); VS [] (txt "301")])].

Definition web_mon : mon_svc := MonSvc 20 10 10 20 10.
Definition web_svc : http_svc := HSvc [200; 301] (request (txt "/") (Some (txt "www.example.org"))) 8080 10 20.

Lemma web_spec : http_spec web web_mon web_svc.
Proof.
  assert (P : plain_codes web).
  { intros v G. apply OptProofs.get_given in G. vm_compute in G. injection G as <-. repeat constructor. }
  apply (proj2 (C57_http_service_type web P) web_mon web_svc). vm_compute. reflexivity.
Qed.

Definition connect_and_ask : list event :=
  [Start 3; Tick 3; Expire_interval; Run_interval (Some 7) CWait; Tick 1; Writable; Run_write false (STook 20);
   Writable; Run_write false (STook 1000)].

Example C57_witness :
  exists m, http_run web_svc (connect_and_ask ++ [Tick 2; Readable; Run_read (RGave (txt "HTTP/1.1 3"));
     Readable; Run_read RAgain; Readable; Run_read (RGave (txt "01 Moved Permanently"))]) http_mon0
  = Ok (m, [(3, Socket (Some 7)); (4, Connected 7 true); (4, Sent 7 (firstn 20 (req_data web_svc)));
            (4, Sent 7 (skipn 20 (req_data web_svc)));
            (6, Got 7 (txt "HTTP/1.1 3")); (6, Got 7 (txt "01 "));
            (6, Shut 7); (6, Closed 7); (6, Report true)]).
Proof. eexists. vm_compute. reflexivity. Qed.

(** A server that closes the connection too early is not noticed: until the time is over, the check
    goes on reading nothing, again and again *)
Theorem C57_closed_connection_is_noticed_refuted : exists es m h,
  http_run web_svc es http_mon0 = Ok (m, h) /\ sock m = Some 7 /\
  forall n, http_run web_svc (concat (repeat [Readable; Run_read (RGave [])] n)) m
            = Ok (m, repeat (now m, Got 7 []) n).
Proof.
  exists (connect_and_ask ++ [Readable; Run_read (RGave (txt "HTTP/1.1 200"))]).
  eexists. eexists. split; [vm_compute; reflexivity|]. split; [reflexivity|].
  intros n. induction n as [|n IH]; [reflexivity|]. cbn [repeat concat].
  refine (http_run_app _ _ _ _ _ [_] _ _ _ IH). vm_compute. reflexivity.
Qed.
Print Assumptions C57_closed_connection_is_noticed_refuted.

(** The byte after the code can be anything *)
Theorem C57_code_ends_with_space_refuted : good_reply [200] (txt "HTTP/1.1 2009").
Proof. exists 49, 50, 48, 48, 57. cbn. repeat split; auto; lia. Qed.
Print Assumptions C57_code_ends_with_space_refuted.

(** tcp_connect says nothing at all when there is no socket to be had, however often that happens *)
Theorem C57_tcp_always_reports_refuted n :
  exists h, tcp_run (TSvc 25 5 10) (concat (repeat [Init; Expire_interval; Run_interval None CDone] n)) tcp_mon0
    = Ok (tcp_mon0, h) /\ h = repeat (0, Socket None) n /\ reports h = [].
Proof.
  induction n as [|n (h & E & -> & R)]; [exists []; auto|].
  exists ((0, Socket None) :: repeat (0, Socket None) n). split; [|auto].
  cbn [repeat concat]. refine (tcp_run_app _ _ _ _ _ [_] _ _ _ E). vm_compute. reflexivity.
Qed.
Print Assumptions C57_tcp_always_reports_refuted.

(** ** Other witnesses *)

Definition smtp : list (bytes * vnode) :=
  [(txt "plugin", VS [] (txt "tcp_connect")); (txt "port", VS [] (txt "25")); (txt "timeout", VS [] (txt " +3"))].

Example C57_witness_smtp : tcp_spec smtp (MonSvc 20 10 10 10 3) (TSvc 25 3 10).
Proof. apply (proj2 (C57_tcp_service_type smtp)). vm_compute. reflexivity. Qed.

Example C57_witness_refused :
  tcp_type [(txt "plugin", VS [] (txt "tcp_connect"))] = Ok None /\
  tcp_type ((txt "vhost", VS [] (txt "x")) :: smtp) = Ok None /\
  tcp_type ((txt "interval", VS [] (txt "3")) :: smtp) = Ok None /\
  http_type [(txt "ok_codes", VA [])] = Ok None /\
  http_type [(txt "ok_codes", VS [] (txt "99"))] = Ok None.
Proof. repeat split; vm_compute; reflexivity. Qed.

(** A TCP check that is refused, and one that is still going on *)
Example C57_witness_tcp : exists m,
  tcp_run (TSvc 25 3 10) [Init; Expire_interval; Run_interval (Some 4) CWait; Tick 1; Writable; Run_write true SAgain;
    Start 2; Tick 2; Expire_interval; Run_interval (Some 5) CWait; Tick 2] tcp_mon0
  = Ok (m, [(0, Socket (Some 4)); (1, Connected 4 false); (1, Shut 4); (1, Closed 4); (1, Report false); (3, Socket (Some 5))]) /\
  tsock m = Some 5.
Proof. eexists. split; vm_compute; reflexivity. Qed.
