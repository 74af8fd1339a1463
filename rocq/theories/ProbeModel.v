(** The built-in health checks: src/plugins/http_status.c and src/plugins/tcp_connect.c.
    One monitored address is modelled, with the libev watchers it owns.
    Simplifications: the clock counts whole ticks and libev's cached time is the time at
    which the callback runs; libev itself is the handful of rules given here; log messages are
    dropped; memory allocation does not fail. *)
From Verif Require Import Base MonModel.
Local Open Scope N_scope.

(** ** libev watchers *)

(** An [ev_io]: is it started, and does it have an event that was not yet handed out? *)
Record io := Io { act : bool; pend : bool }.
(** An [ev_timer]: as above, with the time at which it expires, and the repeat interval. *)
Record timer := Timer { tact : bool; tpend : bool; due : N; rep : N }.

Definition io0 : io := Io false false.
Definition timer0 : timer := Timer false false 0 0.

(** [ev_io_start], [ev_io_stop], [ev_timer_set] and [ev_timer_start], [ev_timer_stop]:
    stopping a watcher also takes back an event that was not yet handed out *)
Definition io_start (w : io) : io := Io true (pend w).
Definition io_stop (w : io) : io := io0.
Definition timer_start (now delay repeat : N) (t : timer) : timer := Timer true (tpend t) (now + delay) repeat.
Definition timer_stop (t : timer) : timer := Timer false false (due t) (rep t).

(** The descriptor becomes ready *)
Definition io_ready (w : io) : io := if act w then Io true true else w.
(** The timer expires: a repeating one is set again, another one stops *)
Definition timer_expire (now : N) (t : timer) : timer :=
  if tact t && (due t <=? now) then
    if rep t =? 0 then Timer false true (due t) 0
    else Timer true true (N.max now (due t + rep t)) (rep t)
  else t.
(** The event is handed out *)
Definition io_take (w : io) : io := Io (act w) false.
Definition timer_take (t : timer) : timer := Timer (tact t) false (due t) (rep t).

(** ** What the rest of the world sees and answers *)

(** System calls and calls of [gdnsd_mon_state_updater], in order. *)
Inductive effect :=
| Socket (fd : option N)          (** [socket()], with its result *)
| Connected (fd : N) (ok : bool)  (** the outcome of [connect()], when it becomes known *)
| Sent (fd : N) (data : bytes)    (** [send()] took these bytes *)
| Got (fd : N) (data : bytes)     (** [recv()] gave these bytes; none: the other side is done *)
| Broke (fd : N)                  (** [send()] or [recv()] failed for good *)
| Shut (fd : N)
| Closed (fd : N)
| Report (up : bool).             (** [gdnsd_mon_state_updater(idx, up)] *)

(** The answer to [connect()]: at once, EINPROGRESS, another error. *)
Inductive conn_ans := CDone | CWait | CFail.
(** The answers to [send()] and [recv()]: EAGAIN or EINTR; another error; so many bytes *)
Inductive send_ans := SAgain | SFail | STook (n : nat).
Inductive recv_ans := RAgain | RFail | RGave (data : bytes).

(** Something happens: the clock goes on; a watcher gets an event; the loop hands one out.
    [Init] and [Start] are the calls of [plugin_*_init_monitors] and [plugin_*_start_monitors]. *)
Inductive event :=
| Tick (d : N)
| Expire_interval | Expire_timeout
| Readable | Writable
| Run_interval (fd : option N) (c : conn_ans)
| Run_write (so_error : bool) (a : send_ans)
| Run_read (a : recv_ans)
| Run_timeout
| Init
| Start (stagger : N).

(** ** http_status.c *)

(** http_svc_t, lines 44-53 *)
Record http_svc := HSvc { ok_codes : list N; req_data : bytes; h_port : N; h_timeout : N; h_interval : N }.

(** http_state_t, lines 55-59 *)
Inductive hstate := HWaiting | HWriting | HReading.

(** http_events_t, lines 61-75; [now] is the loop's clock *)
Record hmon := HMon {
  now : N; hst : hstate; sock : option N; hdone : nat; hconn : bool; res_buf : bytes;
  rw : io; ww : io; tw : timer; iw : timer }.

Definition is_waiting (h : hstate) : bool := match h with HWaiting => true | _ => false end.
Definition is_writing (h : hstate) : bool := match h with HWriting => true | _ => false end.
Definition is_reading (h : hstate) : bool := match h with HReading => true | _ => false end.
Definition is_none {A} (o : option A) : bool := match o with None => true | _ => false end.

(** [sscanf(res_buf, "HTTP/1.%*1[01]%*1[ ]%3c%*1[ ]", code_str)], line 294: [Some code] when it
    returns 1.  The text ends at the first NUL.  The last directive stores nothing, so
    it has no effect.  With fewer than three characters left for [%3c] the C library may store
    them or fail; storing them is modelled (the result is the same, see the proofs). *)
Fixpoint before_nul (s : bytes) : bytes :=
  match s with [] => [] | c :: t => if c =? 0 then [] else c :: before_nul t end.

Fixpoint lit (p s : bytes) : option bytes :=
  match p with
  | [] => Some s
  | x :: p' => match s with y :: s' => if x =? y then lit p' s' else None | [] => None end
  end.

Definition one_of (set s : bytes) : option bytes :=
  match s with y :: s' => if existsb (N.eqb y) set then Some s' else None | [] => None end.

Definition http_1 : bytes := [72; 84; 84; 80; 47; 49; 46].

Definition scan_code (buf : bytes) : option bytes :=
  match lit http_1 (before_nul buf) with
  | None => None
  | Some s1 =>
      match one_of [48; 49] s1 with
      | None => None
      | Some s2 =>
          match one_of [32] s2 with
          | None => None
          | Some s3 => match s3 with [] => None | _ => Some (firstn 3 s3) end
          end
      end
  end.

(** lines 293-307: the response is good if its code is one of the configured ones *)
Definition code_ok (codes : list N) (buf : bytes) : bool :=
  match scan_code buf with
  | None => false
  | Some code_str =>
      let '(err, v, _) := strtoul code_str in
      if err then false else existsb (N.eqb (v mod two32)) codes
  end.

Section Http.
  Variable svc : http_svc.

  (** [mon_quick_fail], lines 82-88 *)
  Definition mon_quick_fail (m : hmon) : hmon * list effect :=
    (HMon (now m) HWaiting (sock m) (hdone m) (hconn m) (res_buf m) (rw m) (ww m) (tw m) (iw m), [Report false]).

  (** [mon_interval_cb], lines 90-153 *)
  Definition http_interval_cb (fd : option N) (c : conn_ans) (m : hmon) : res (hmon * list effect) :=
    if negb (is_waiting (hst m)) then Ok (m, []) else
    rassert (is_none (sock m))
    (rassert (negb (act (ww m)))
    (rassert (negb (tact (tw m)) && negb (tpend (tw m)))
    (match fd with
     | None => let '(m', e) := mon_quick_fail m in Ok (m', Socket None :: e)
     | Some s =>
         match c with
         | CFail =>
             let '(m', e) := mon_quick_fail (HMon (now m) (hst m) (sock m) (hdone m) true (res_buf m) (rw m) (ww m) (tw m) (iw m)) in
             Ok (m', Socket (Some s) :: Connected s false :: Closed s :: e)
         | _ =>
             let at_once := match c with CDone => true | _ => false end in
             Ok (HMon (now m) HWriting (Some s) 0 at_once (res_buf m) (rw m)
                      (io_start (ww m)) (timer_start (now m) (h_timeout svc) 0 (tw m)) (iw m),
                 Socket (Some s) :: if at_once then [Connected s true] else [])
         end
     end))).

  (** [mon_write_cb], lines 155-250 *)
  Definition http_write_cb (so_error : bool) (a : send_ans) (m : hmon) : res (hmon * list effect) :=
    rassert (is_writing (hst m))
    (rassert (negb (act (rw m)))
    (rassert (act (ww m))
    (rassert (tact (tw m) || tpend (tw m))
    (match sock m with
     | None => UB
     | Some s =>
         if negb (hconn m) && so_error then
           Ok (HMon (now m) HWaiting None (hdone m) (hconn m) (res_buf m) (rw m) (io_stop (ww m)) (timer_stop (tw m)) (iw m),
               [Connected s false; Closed s; Report false])
         else
         let es := if hconn m then [] else [Connected s true] in
         rassert (Nat.ltb (hdone m) (length (req_data svc)))
         (let to_send := (length (req_data svc) - hdone m)%nat in
          match a with
          | SAgain =>
              Ok (HMon (now m) (hst m) (sock m) (hdone m) true (res_buf m) (rw m) (ww m) (tw m) (iw m), es)
          | SFail =>
              Ok (HMon (now m) HWaiting None (hdone m) true (res_buf m) (rw m) (io_stop (ww m)) (timer_stop (tw m)) (iw m),
                  es ++ [Broke s; Shut s; Closed s; Report false])
          | STook n =>
              do data <- rdn (req_data svc) (hdone m) (Nat.min n to_send) ;
              if negb (Nat.eqb (Nat.min n to_send) to_send) then
                Ok (HMon (now m) (hst m) (sock m) (hdone m + Nat.min n to_send)%nat true (res_buf m) (rw m) (ww m) (tw m) (iw m),
                    es ++ [Sent s data])
              else
                Ok (HMon (now m) HReading (sock m) 0 true (res_buf m) (io_start (rw m)) (io_stop (ww m)) (tw m) (iw m),
                    es ++ [Sent s data])
          end)
     end)))).

  (** [mon_read_cb], lines 252-319 *)
  Definition http_read_cb (a : recv_ans) (m : hmon) : res (hmon * list effect) :=
    rassert (is_reading (hst m))
    (rassert (act (rw m))
    (match sock m with
     | None => UB
     | Some s =>
         let finish (buf : bytes) (es : list effect) (final_status : bool) :=
           Ok (HMon (now m) HWaiting None (hdone m) (hconn m) buf (io_stop (rw m)) (ww m) (timer_stop (tw m)) (iw m),
               es ++ [Shut s; Closed s; Report final_status]) in
         rassert (Nat.leb (hdone m) 13)
         (let to_recv := (13 - hdone m)%nat in
          match a with
          | RAgain => Ok (m, [])
          | RFail => finish (res_buf m) [Broke s] false
          | RGave bs =>
              let data := firstn to_recv bs in
              do buf <- wr (res_buf m) (hdone m) data ;
              if Nat.ltb (length data) to_recv then
                Ok (HMon (now m) (hst m) (sock m) (hdone m + length data)%nat (hconn m) buf (rw m) (ww m) (tw m) (iw m),
                    [Got s data])
              else
                do buf' <- wr buf 13 [0] ;
                finish buf' [Got s data] (code_ok (ok_codes svc) buf')
          end)
     end)).

  (** [mon_timeout_cb], lines 321-348 *)
  Definition http_timeout_cb (m : hmon) : res (hmon * list effect) :=
    match sock m with
    | None => UB
    | Some s =>
        rassert ((is_reading (hst m) && act (rw m)) || (is_writing (hst m) && act (ww m)))
        (Ok (HMon (now m) HWaiting None (hdone m) (hconn m) (res_buf m)
                  (if is_reading (hst m) then io_stop (rw m) else rw m)
                  (if is_reading (hst m) then ww m else if is_writing (hst m) then io_stop (ww m) else ww m)
                  (tw m) (iw m),
             [Shut s; Closed s; Report false]))
    end.

  (** [ev_run] returns when no watcher is left *)
  Definition http_idle (m : hmon) : bool :=
    negb (act (rw m) || pend (rw m) || act (ww m) || pend (ww m) ||
          tact (tw m) || tpend (tw m) || tact (iw m) || tpend (iw m)).

  (** One event.  One that cannot happen now changes nothing. *)
  Definition http_step (e : event) (m : hmon) : res (hmon * list effect) :=
    match e with
    | Tick d => Ok (HMon (now m + d) (hst m) (sock m) (hdone m) (hconn m) (res_buf m) (rw m) (ww m) (tw m) (iw m), [])
    | Expire_interval =>
        Ok (HMon (now m) (hst m) (sock m) (hdone m) (hconn m) (res_buf m) (rw m) (ww m) (tw m) (timer_expire (now m) (iw m)), [])
    | Expire_timeout =>
        Ok (HMon (now m) (hst m) (sock m) (hdone m) (hconn m) (res_buf m) (rw m) (ww m) (timer_expire (now m) (tw m)) (iw m), [])
    | Readable =>
        Ok (HMon (now m) (hst m) (sock m) (hdone m) (hconn m) (res_buf m) (io_ready (rw m)) (ww m) (tw m) (iw m), [])
    | Writable =>
        Ok (HMon (now m) (hst m) (sock m) (hdone m) (hconn m) (res_buf m) (rw m) (io_ready (ww m)) (tw m) (iw m), [])
    | Run_interval fd c =>
        if tpend (iw m) then
          http_interval_cb fd c (HMon (now m) (hst m) (sock m) (hdone m) (hconn m) (res_buf m) (rw m) (ww m) (tw m) (timer_take (iw m)))
        else Ok (m, [])
    | Run_write so_error a =>
        if pend (ww m) then
          http_write_cb so_error a (HMon (now m) (hst m) (sock m) (hdone m) (hconn m) (res_buf m) (rw m) (io_take (ww m)) (tw m) (iw m))
        else Ok (m, [])
    | Run_read a =>
        if pend (rw m) then
          http_read_cb a (HMon (now m) (hst m) (sock m) (hdone m) (hconn m) (res_buf m) (io_take (rw m)) (ww m) (tw m) (iw m))
        else Ok (m, [])
    | Run_timeout =>
        if tpend (tw m) then
          http_timeout_cb (HMon (now m) (hst m) (sock m) (hdone m) (hconn m) (res_buf m) (rw m) (ww m) (timer_take (tw m)) (iw m))
        else Ok (m, [])
    (* plugin_http_status_init_monitors, lines 493-501 *)
    | Init =>
        if http_idle m then
          rassert (is_none (sock m))
          (Ok (HMon (now m) (hst m) (sock m) (hdone m) (hconn m) (res_buf m) (rw m) (ww m) (tw m) (timer_start (now m) 0 0 (iw m)), []))
        else Ok (m, [])
    (* plugin_http_status_start_monitors, lines 503-514; the stagger is computed in floating
       point there and is any number here *)
    | Start stagger =>
        if http_idle m then
          rassert (is_none (sock m))
          (Ok (HMon (now m) (hst m) (sock m) (hdone m) (hconn m) (res_buf m) (rw m) (ww m) (tw m)
                    (timer_start (now m) stagger (h_interval svc) (iw m)), []))
        else Ok (m, [])
    end.

  (** plugin_http_status_add_mon_addr, lines 446-491 *)
  Definition http_mon0 : hmon :=
    HMon 0 HWaiting None 0 false (repeat 0 14) io0 io0 timer0 timer0.

  (** Any number of events; the effects carry the time. *)
  Fixpoint http_run (es : list event) (m : hmon) : res (hmon * list (N * effect)) :=
    match es with
    | [] => Ok (m, [])
    | e :: es' =>
        do (m1, o1) <- http_step e m ;
        do (m2, o2) <- http_run es' m1 ;
        Ok (m2, map (pair (now m)) o1 ++ o2)
    end.
End Http.

(** ** tcp_connect.c *)

(** tcp_svc_t, lines 46-51 *)
Record tcp_svc := TSvc { t_port : N; t_timeout : N; t_interval : N }.

(** tcp_events_t, lines 58-68; [true] stands for TCP_STATE_CONNECTING *)
Record tmon := TMon { tnow : N; connecting : bool; tsock : option N; cw : io; ttw : timer; tiw : timer }.

Section Tcp.
  Variable svc : tcp_svc.

  (** [mon_interval_cb], lines 75-138 *)
  Definition tcp_interval_cb (fd : option N) (c : conn_ans) (m : tmon) : res (tmon * list effect) :=
    if connecting m then Ok (m, []) else
    rassert (is_none (tsock m))
    (rassert (negb (act (cw m)))
    (rassert (negb (tact (ttw m)) && negb (tpend (ttw m)))
    (match fd with
     | None => Ok (m, [Socket None])
     | Some s =>
         match c with
         | CWait =>
             Ok (TMon (tnow m) true (Some s) (io_start (cw m)) (timer_start (tnow m) (t_timeout svc) 0 (ttw m)) (tiw m),
                 [Socket (Some s)])
         | CFail => Ok (m, [Socket (Some s); Connected s false; Closed s; Report false])
         | CDone => Ok (m, [Socket (Some s); Connected s true; Closed s; Report true])
         end
     end))).

  (** [mon_connect_cb], lines 140-184 *)
  Definition tcp_connect_cb (so_error : bool) (m : tmon) : res (tmon * list effect) :=
    rassert (connecting m)
    (rassert (act (cw m))
    (rassert (tact (ttw m) || tpend (ttw m))
    (match tsock m with
     | None => UB
     | Some s =>
         Ok (TMon (tnow m) false None (io_stop (cw m)) (timer_stop (ttw m)) (tiw m),
             [Connected s (negb so_error); Shut s; Closed s; Report (negb so_error)])
     end))).

  (** [mon_timeout_cb], lines 186-206 *)
  Definition tcp_timeout_cb (m : tmon) : res (tmon * list effect) :=
    match tsock m with
    | None => UB
    | Some s =>
        rassert (connecting m)
        (rassert (act (cw m))
        (Ok (TMon (tnow m) false None (io_stop (cw m)) (ttw m) (tiw m),
             [Shut s; Closed s; Report false])))
    end.

  Definition tcp_idle (m : tmon) : bool :=
    negb (act (cw m) || pend (cw m) || tact (ttw m) || tpend (ttw m) || tact (tiw m) || tpend (tiw m)).

  (** The connection has one descriptor watcher, for writing. *)
  Definition tcp_step (e : event) (m : tmon) : res (tmon * list effect) :=
    match e with
    | Tick d => Ok (TMon (tnow m + d) (connecting m) (tsock m) (cw m) (ttw m) (tiw m), [])
    | Expire_interval => Ok (TMon (tnow m) (connecting m) (tsock m) (cw m) (ttw m) (timer_expire (tnow m) (tiw m)), [])
    | Expire_timeout => Ok (TMon (tnow m) (connecting m) (tsock m) (cw m) (timer_expire (tnow m) (ttw m)) (tiw m), [])
    | Readable => Ok (m, [])
    | Writable => Ok (TMon (tnow m) (connecting m) (tsock m) (io_ready (cw m)) (ttw m) (tiw m), [])
    | Run_interval fd c =>
        if tpend (tiw m) then
          tcp_interval_cb fd c (TMon (tnow m) (connecting m) (tsock m) (cw m) (ttw m) (timer_take (tiw m)))
        else Ok (m, [])
    | Run_write so_error _ =>
        if pend (cw m) then
          tcp_connect_cb so_error (TMon (tnow m) (connecting m) (tsock m) (io_take (cw m)) (ttw m) (tiw m))
        else Ok (m, [])
    | Run_read _ => Ok (m, [])
    | Run_timeout =>
        if tpend (ttw m) then
          tcp_timeout_cb (TMon (tnow m) (connecting m) (tsock m) (cw m) (timer_take (ttw m)) (tiw m))
        else Ok (m, [])
    (* plugin_tcp_connect_init_monitors, lines 282-290 *)
    | Init =>
        if tcp_idle m then
          rassert (is_none (tsock m))
          (Ok (TMon (tnow m) (connecting m) (tsock m) (cw m) (ttw m) (timer_start (tnow m) 0 0 (tiw m)), []))
        else Ok (m, [])
    (* plugin_tcp_connect_start_monitors, lines 292-303 *)
    | Start stagger =>
        if tcp_idle m then
          rassert (is_none (tsock m))
          (Ok (TMon (tnow m) (connecting m) (tsock m) (cw m) (ttw m) (timer_start (tnow m) stagger (t_interval svc) (tiw m)), []))
        else Ok (m, [])
    end.

  (** plugin_tcp_connect_add_mon_addr, lines 239-280 *)
  Definition tcp_mon0 : tmon := TMon 0 false None io0 timer0 timer0.

  Fixpoint tcp_run (es : list event) (m : tmon) : res (tmon * list (N * effect)) :=
    match es with
    | [] => Ok (m, [])
    | e :: es' =>
        do (m1, o1) <- tcp_step e m ;
        do (m2, o2) <- tcp_run es' m1 ;
        Ok (m2, map (pair (tnow m)) o1 ++ o2)
    end.
End Tcp.
