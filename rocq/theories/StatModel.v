(** Statistics: src/statio.c, src/css.c (handoff), src/csc.c (handoff). *)
From Verif Require Import Base.
From Coq Require Import String Ascii DecimalString.
Import List. Import ListNotations. Open Scope list_scope.
Open Scope N_scope.

(** The counters of one DNS thread: [dnspacket_stats_t], dnspacket.h:33-91.
    The union of per-protocol counters is two groups of counters, of which a
    thread uses one. *)
Inductive counter :=
| u_recvfail | u_sendfail | u_tc | u_edns_big | u_edns_tc
| t_recvfail | t_sendfail | t_conns | t_close_c | t_close_s_ok | t_close_s_err | t_close_s_kill | t_proxy | t_proxy_fail | t_dso_estab | t_dso_protoerr | t_dso_typeni | t_acceptfail
| noerror | refused | nxdomain | notimp | badvers | formerr | dropped
| v6 | edns | edns_clientsub | edns_do | edns_cookie_formerr | edns_cookie_ok | edns_cookie_init | edns_cookie_bad.
Record tstats := { is_udp : bool; stats_get : counter -> N }.

(** [slot_t], statio.c:39-76. *)
Definition UDP_RECVFAIL := 0%nat.
Definition UDP_SENDFAIL := 1%nat.
Definition UDP_TC := 2%nat.
Definition UDP_EDNS_BIG := 3%nat.
Definition UDP_EDNS_TC := 4%nat.
Definition TCP_RECVFAIL := 5%nat.
Definition TCP_SENDFAIL := 6%nat.
Definition TCP_CONNS := 7%nat.
Definition TCP_CLOSE_C := 8%nat.
Definition TCP_CLOSE_S_OK := 9%nat.
Definition TCP_CLOSE_S_ERR := 10%nat.
Definition TCP_CLOSE_S_KILL := 11%nat.
Definition DNS_NOERROR := 12%nat.
Definition DNS_REFUSED := 13%nat.
Definition DNS_NXDOMAIN := 14%nat.
Definition DNS_NOTIMP := 15%nat.
Definition DNS_BADVERS := 16%nat.
Definition DNS_FORMERR := 17%nat.
Definition DNS_DROPPED := 18%nat.
Definition DNS_V6 := 19%nat.
Definition DNS_EDNS := 20%nat.
Definition DNS_EDNS_CLIENTSUB := 21%nat.
Definition UDP_REQS := 22%nat.
Definition TCP_REQS := 23%nat.
Definition DNS_EDNS_DO := 24%nat.
Definition DNS_EDNS_COOKIE_ERR := 25%nat.
Definition DNS_EDNS_COOKIE_OK := 26%nat.
Definition DNS_EDNS_COOKIE_INIT := 27%nat.
Definition DNS_EDNS_COOKIE_BAD := 28%nat.
Definition TCP_PROXY := 29%nat.
Definition TCP_PROXY_FAIL := 30%nat.
Definition TCP_DSO_ESTAB := 31%nat.
Definition TCP_DSO_PROTOERR := 32%nat.
Definition TCP_DSO_TYPENI := 33%nat.
Definition TCP_ACCEPTFAIL := 34%nat.
Definition SLOT_COUNT := 35%nat.

(** stats_uint_t is 64 bits wide; [statio[i] += v] *)
Definition add64 (a b : N) : N := (a + b) mod two64.
Definition bump (l : list N) (i : nat) (v : N) : list N := upd l i (add64 (nth i l 0) v).

(** [accumulate_statio], statio.c:139-194. *)
Definition accumulate_statio (statio : list N) (t : tstats) : list N :=
  let g := stats_get t in
  let l := bump statio DNS_NOERROR (g noerror) in
  let l := bump l DNS_REFUSED (g refused) in
  let l := bump l DNS_NXDOMAIN (g nxdomain) in
  let l := bump l DNS_NOTIMP (g notimp) in
  let l := bump l DNS_BADVERS (g badvers) in
  let l := bump l DNS_FORMERR (g formerr) in
  let l := bump l DNS_DROPPED (g dropped) in
  let this_reqs := add64 (add64 (add64 (add64 (add64 (add64 (g noerror) (g refused)) (g nxdomain)) (g notimp)) (g badvers)) (g formerr)) (g dropped) in
  let l :=
    if is_udp t then
      let l := bump l UDP_REQS this_reqs in
      let l := bump l UDP_RECVFAIL (g u_recvfail) in
      let l := bump l UDP_SENDFAIL (g u_sendfail) in
      let l := bump l UDP_TC (g u_tc) in
      let l := bump l UDP_EDNS_BIG (g u_edns_big) in
      bump l UDP_EDNS_TC (g u_edns_tc)
    else
      let l := bump l TCP_REQS this_reqs in
      let l := bump l TCP_RECVFAIL (g t_recvfail) in
      let l := bump l TCP_SENDFAIL (g t_sendfail) in
      let l := bump l TCP_CONNS (g t_conns) in
      let l := bump l TCP_CLOSE_C (g t_close_c) in
      let l := bump l TCP_CLOSE_S_OK (g t_close_s_ok) in
      let l := bump l TCP_CLOSE_S_ERR (g t_close_s_err) in
      let l := bump l TCP_CLOSE_S_KILL (g t_close_s_kill) in
      let l := bump l TCP_PROXY (g t_proxy) in
      let l := bump l TCP_PROXY_FAIL (g t_proxy_fail) in
      let l := bump l TCP_DSO_ESTAB (g t_dso_estab) in
      let l := bump l TCP_DSO_PROTOERR (g t_dso_protoerr) in
      let l := bump l TCP_DSO_TYPENI (g t_dso_typeni) in
      bump l TCP_ACCEPTFAIL (g t_acceptfail) in
  let l := bump l DNS_V6 (g v6) in
  let l := bump l DNS_EDNS (g edns) in
  let l := bump l DNS_EDNS_CLIENTSUB (g edns_clientsub) in
  let l := bump l DNS_EDNS_DO (g edns_do) in
  let l := bump l DNS_EDNS_COOKIE_ERR (g edns_cookie_formerr) in
  let l := bump l DNS_EDNS_COOKIE_OK (g edns_cookie_ok) in
  let l := bump l DNS_EDNS_COOKIE_INIT (g edns_cookie_init) in
  bump l DNS_EDNS_COOKIE_BAD (g edns_cookie_bad).

(** [populate_statio], statio.c:196-201: the base, then every thread. *)
Definition populate_statio (base : list N) (threads : list tstats) : list N := fold_left accumulate_statio threads base.

(** ** JSON, statio.c:78-122 and 203-215 *)
Definition nl : string := String (ascii_of_nat 10) EmptyString.
Definition tab : string := String (ascii_of_nat 9) EmptyString.
Definition quoted (s : string) : string := (String (ascii_of_nat 34) s ++ String (ascii_of_nat 34) EmptyString)%string.
(** one line of [json_fixed] with a number; PRIu64 and PRISTATS are lu *)
Definition jnum (indent : string) (name : string) (comma : string) : string := (indent ++ quoted name ++ ": %lu" ++ comma ++ nl)%string.
Definition tab2 : string := (tab ++ tab)%string.
Definition json_fixed : string :=
  ("{" ++ nl ++
   jnum tab "uptime" "," ++
   tab ++ quoted "stats" ++ ": {" ++ nl ++
   jnum tab2 "noerror" "," ++
   jnum tab2 "refused" "," ++
   jnum tab2 "nxdomain" "," ++
   jnum tab2 "notimp" "," ++
   jnum tab2 "badvers" "," ++
   jnum tab2 "formerr" "," ++
   jnum tab2 "dropped" "," ++
   jnum tab2 "v6" "," ++
   jnum tab2 "edns" "," ++
   jnum tab2 "edns_clientsub" "," ++
   jnum tab2 "edns_do" "," ++
   jnum tab2 "edns_cookie_formerr" "," ++
   jnum tab2 "edns_cookie_ok" "," ++
   jnum tab2 "edns_cookie_init" "," ++
   jnum tab2 "edns_cookie_bad" "" ++
   tab ++ "}," ++ nl ++
   tab ++ quoted "udp" ++ ": {" ++ nl ++
   jnum tab2 "reqs" "," ++
   jnum tab2 "recvfail" "," ++
   jnum tab2 "sendfail" "," ++
   jnum tab2 "tc" "," ++
   jnum tab2 "edns_big" "," ++
   jnum tab2 "edns_tc" "" ++
   tab ++ "}," ++ nl ++
   tab ++ quoted "tcp" ++ ": {" ++ nl ++
   jnum tab2 "reqs" "," ++
   jnum tab2 "recvfail" "," ++
   jnum tab2 "sendfail" "," ++
   jnum tab2 "conns" "," ++
   jnum tab2 "close_c" "," ++
   jnum tab2 "close_s_ok" "," ++
   jnum tab2 "close_s_err" "," ++
   jnum tab2 "close_s_kill" "," ++
   jnum tab2 "proxy" "," ++
   jnum tab2 "proxy_fail" "," ++
   jnum tab2 "dso_estab" "," ++
   jnum tab2 "dso_protoerr" "," ++
   jnum tab2 "dso_typeni" "," ++
   jnum tab2 "acceptfail" "" ++
   tab ++ "}" ++ nl ++
   "}" ++ nl)%string.

(** snprintf with %lu only; too few arguments is undefined behaviour *)
Definition decimal (n : N) : string := NilEmpty.string_of_uint (N.to_uint n).
Fixpoint format (f : string) (args : list N) : res string :=
  match f with
  | EmptyString => Ok EmptyString
  | String "%" (String "l" (String "u" f)) =>
      match args with
      | [] => UB
      | a :: args => do r <- format f args; Ok (decimal a ++ r)%string
      end
  | String c f => do r <- format f args; Ok (String c r)
  end.

(** [statio_init], statio.c:253-264: the buffer, with 64-bit counters *)
Definition json_buffer_max : nat := (2 * (String.length json_fixed + (20 - 2) + SLOT_COUNT * (20 - 2)))%nat.
Record stio := { base : list N; start_time : N }.
Definition statio_init (now : N) : stio := {| base := repeat 0 SLOT_COUNT; start_time := now |}.

(** [statio_get_json].  [time_t] is 64 bits wide. *)
Definition statio_get_json (s : stio) (threads : list tstats) (nowish : N) : res string :=
  let statio := populate_statio (base s) threads in
  let uptime64 := (nowish + (two64 - start_time s)) mod two64 in
  let v i := nth i statio 0 in
  do out <- format json_fixed
    [uptime64; v DNS_NOERROR; v DNS_REFUSED; v DNS_NXDOMAIN; v DNS_NOTIMP; v DNS_BADVERS; v DNS_FORMERR; v DNS_DROPPED; v DNS_V6; v DNS_EDNS; v DNS_EDNS_CLIENTSUB;
     v DNS_EDNS_DO; v DNS_EDNS_COOKIE_ERR; v DNS_EDNS_COOKIE_OK; v DNS_EDNS_COOKIE_INIT; v DNS_EDNS_COOKIE_BAD; v UDP_REQS; v UDP_RECVFAIL; v UDP_SENDFAIL; v UDP_TC; v UDP_EDNS_BIG; v UDP_EDNS_TC;
     v TCP_REQS; v TCP_RECVFAIL; v TCP_SENDFAIL; v TCP_CONNS; v TCP_CLOSE_C; v TCP_CLOSE_S_OK; v TCP_CLOSE_S_ERR; v TCP_CLOSE_S_KILL; v TCP_PROXY; v TCP_PROXY_FAIL; v TCP_DSO_ESTAB; v TCP_DSO_PROTOERR; v TCP_DSO_TYPENI; v TCP_ACCEPTFAIL];
  rassert (Nat.ltb 0 (String.length out) && Nat.ltb (String.length out) json_buffer_max) (Ok out).

(** ** Handoff *)
(** A 64-bit word in memory: little endian. *)
Fixpoint le (k : nat) (v : N) : bytes := match k with O => [] | S k => v mod 256 :: le k (v / 256) end.
Fixpoint unle (b : bytes) : N := match b with [] => 0 | x :: b => x + 256 * unle b end.
(** [statio_serialize], statio.c:220-230. *)
Definition statio_serialize (s : stio) (threads : list tstats) : bytes :=
  concat (map (le 8) (populate_statio (base s) threads)) ++ le 8 (start_time s).

(** data[i] of an array of 64-bit words in a buffer of bytes *)
Definition word (data : bytes) (i : N) : res N := do w <- rdn data (N.to_nat (8 * i)) 8; Ok (unle w).
(** the loop of [statio_deserialize] *)
Fixpoint import_slots (data : bytes) (count i : nat) (base : list N) : res (list N) :=
  match count with
  | O => Ok base
  | S count => do w <- word data (N.of_nat i); import_slots data count (S i) (upd base i w)
  end.
(** [statio_deserialize], statio.c:240-251. *)
Definition statio_deserialize (s : stio) (data : bytes) : res stio :=
  let dlen := N.of_nat (List.length data) in
  if N.eqb dlen 0 || negb (N.eqb (N.land dlen 4) 0) then Ok s
  else
    let input_slot_count := (dlen / 8 + (two64 - 1)) mod two64 in
    do t <- word data input_slot_count;
    do b <- import_slots data (N.to_nat (N.min (N.of_nat SLOT_COUNT) input_slot_count)) 0 (base s);
    Ok {| base := b; start_time := t |}.

(** The control socket is a stream; [recv] returns between one byte and as many
    as wanted, as the schedule [splits] says; an empty stream ends it. *)
Definition PSH_SHAND : N := 115.
(** [css_send_stats_handoff], css.c:1203-1243: what is put on the stream; [le 4]: the d member of csbuf_t. *)
Definition css_send_stats_handoff (data : bytes) : bytes := PSH_SHAND :: [0; 0; 0] ++ le 4 (N.of_nat (List.length data)) ++ data.
(** the receiving loop of [csc_get_stats_handoff] *)
Fixpoint recv_all (fuel : nat) (splits : list nat) (wanted : nat) (stream : bytes) (got : bytes) : option bytes :=
  match fuel with
  | O => None
  | S fuel =>
      match wanted with
      | O => Some got
      | _ =>
          let k := Nat.min wanted (Nat.min (S (hd 0%nat splits)) (List.length stream)) in
          match k with
          | O => None
          | _ => recv_all fuel (tl splits) (wanted - k) (skipn k stream) (got ++ firstn k stream)
          end
      end
  end.
(** [csc_get_stats_handoff], csc.c:377-431: [None] is return value 0.  The version
    check is left out; the first 8 bytes arrive at once. *)
Definition csc_get_stats_handoff (splits : list nat) (stream : bytes) : option bytes :=
  if Nat.ltb (List.length stream) 8 then None
  else
    let d := unle (firstn 4 (skipn 4 stream)) in
    if negb (N.eqb (hd 0 stream) PSH_SHAND) then None
    else if N.eqb d 0 || N.ltb 65535 d then None
    else recv_all (S (N.to_nat d)) splits (N.to_nat d) (skipn 8 stream) [].

(** [runtime_execute], main.c:558-574: the new daemon takes the final numbers over. *)
Definition takeover (splits : list nat) (now : N) (stream : bytes) : res stio :=
  match csc_get_stats_handoff splits stream with
  | Some data => statio_deserialize (statio_init now) data
  | None => Ok (statio_init now)
  end.
