(** What statistics are to say. *)
From Verif Require Import Base StatModel.
From Coq Require Import String Ascii DecimalString.
Import List. Import ListNotations. Open Scope list_scope.
Open Scope N_scope.

(** A statistic: a counter of every thread, or of those of one protocol; or the
    number of requests they handled. *)
Inductive stat := All (c : counter) | Udp (c : counter) | Tcp (c : counter) | UdpReqs | TcpReqs.
(** A request is counted once, by its outcome. *)
Definition requests (t : tstats) : N := fold_right N.add 0 (map (stats_get t) [noerror; refused; nxdomain; notimp; badvers; formerr; dropped]).
Definition contribution (st : stat) (t : tstats) : N :=
  match st with
  | All c => stats_get t c
  | Udp c => if is_udp t then stats_get t c else 0
  | Tcp c => if is_udp t then 0 else stats_get t c
  | UdpReqs => if is_udp t then requests t else 0
  | TcpReqs => if is_udp t then 0 else requests t
  end.
Definition total (threads : list tstats) (st : stat) : N := fold_right N.add 0 (map (contribution st) threads).

(** The report: which name means which statistic. *)
Definition report : list (string * list (string * stat)) :=
  [("stats", [("noerror", All noerror); ("refused", All refused); ("nxdomain", All nxdomain); ("notimp", All notimp); ("badvers", All badvers); ("formerr", All formerr); ("dropped", All dropped);
              ("v6", All v6); ("edns", All edns); ("edns_clientsub", All edns_clientsub); ("edns_do", All edns_do); ("edns_cookie_formerr", All edns_cookie_formerr); ("edns_cookie_ok", All edns_cookie_ok);
              ("edns_cookie_init", All edns_cookie_init); ("edns_cookie_bad", All edns_cookie_bad)]);
   ("udp", [("reqs", UdpReqs); ("recvfail", Udp u_recvfail); ("sendfail", Udp u_sendfail); ("tc", Udp u_tc); ("edns_big", Udp u_edns_big); ("edns_tc", Udp u_edns_tc)]);
   ("tcp", [("reqs", TcpReqs); ("recvfail", Tcp t_recvfail); ("sendfail", Tcp t_sendfail); ("conns", Tcp t_conns); ("close_c", Tcp t_close_c); ("close_s_ok", Tcp t_close_s_ok); ("close_s_err", Tcp t_close_s_err);
            ("close_s_kill", Tcp t_close_s_kill); ("proxy", Tcp t_proxy); ("proxy_fail", Tcp t_proxy_fail); ("dso_estab", Tcp t_dso_estab); ("dso_protoerr", Tcp t_dso_protoerr); ("dso_typeni", Tcp t_dso_typeni); ("acceptfail", Tcp t_acceptfail)])]%string.

(** JSON: the values are numbers in decimal, whatever [value] gives. *)
Definition member (indent : string) (name value : string) : string := (indent ++ quoted name ++ ": " ++ value)%string.
Definition object (indent : string) (members : list string) : string :=
  ("{" ++ nl ++ String.concat ("," ++ nl) members ++ nl ++ indent ++ "}")%string.
Definition json (uptime : N) (value : stat -> N) : string :=
  (object "" (member tab "uptime" (NilEmpty.string_of_uint (N.to_uint uptime)) ::
     map (fun group => member tab (fst group) (object tab (map (fun m => member (tab ++ tab) (fst m) (NilEmpty.string_of_uint (N.to_uint (value (snd m))))) (snd group)))) report) ++ nl)%string.

(** The order in which statistics are handed over, fixed for all versions. *)
Definition wire : list stat :=
  [Udp u_recvfail; Udp u_sendfail; Udp u_tc; Udp u_edns_big; Udp u_edns_tc;
   Tcp t_recvfail; Tcp t_sendfail; Tcp t_conns; Tcp t_close_c; Tcp t_close_s_ok; Tcp t_close_s_err; Tcp t_close_s_kill;
   All noerror; All refused; All nxdomain; All notimp; All badvers; All formerr; All dropped; All v6; All edns; All edns_clientsub;
   UdpReqs; TcpReqs; All edns_do; All edns_cookie_formerr; All edns_cookie_ok; All edns_cookie_init; All edns_cookie_bad;
   Tcp t_proxy; Tcp t_proxy_fail; Tcp t_dso_estab; Tcp t_dso_protoerr; Tcp t_dso_typeni; Tcp t_acceptfail].
(** the message of a daemon that knows the statistics [ws], in that order *)
Definition message (ws : list N) (start : N) : bytes := List.concat (map (le 8) ws) ++ le 8 start.

(** [s]'s numbers start from [from]. *)
Definition starts_from (s : stio) (from : stat -> N) (start : N) : Prop := base s = map from wire /\ start_time s = start.

(** A line of daemons, each replacing the one before: how the stream of each
    handoff was cut up, when the new daemon started, what its threads count. *)
Record generation := { g_splits : list nat; g_now : N; g_threads : list tstats }.
Fixpoint successors (s : stio) (threads : list tstats) (gens : list generation) : res (stio * list tstats) :=
  match gens with
  | [] => Ok (s, threads)
  | g :: gens => do s <- takeover (g_splits g) (g_now g) (css_send_stats_handoff (statio_serialize s threads)); successors s (g_threads g) gens
  end.
