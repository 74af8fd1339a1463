(** The control socket and zone reloading: src/css.c, src/cs.h, the reloader
    thread (src/ltree.c:1407-1451) and its start and end in src/main.c:103-212.

    One event is one callback of the main thread's event loop, one step of a
    reloader thread or one step of a query that reads the zone data.  An event
    that cannot happen in a state (its watcher is not active, its thread is not
    at that point) changes nothing.  Kernel results and the results of other
    parts of the daemon come with the event.

    Simplifications.  A connection is known by a number that is never used again;
    using a connection that is closed is [UB].  Log messages, the list of clients
    (used when the daemon exits), fork/exec and signals are left out.  After
    REQ_STOP the event loop ends; callbacks already due then are not
    modelled: no event changes anything. *)
From Verif Require Import Base.
Local Open Scope N_scope.

(** ** Messages, src/cs.h:29-81 *)
Definition REQ_TAK1 : N := 49. Definition REQ_TAK2 : N := 50. Definition RESP_ACK : N := 65.
Definition REQ_CHALF : N := 99. Definition REQ_CHAL : N := 67. Definition RESP_DENY : N := 68.
Definition REQ_STATE : N := 69. Definition RESP_FAIL : N := 70. Definition RESP_LATR : N := 76.
Definition REQ_INFO : N := 73. Definition REQ_REPL : N := 82. Definition REQ_STAT : N := 83.
Definition REQ_TAKE : N := 84. Definition RESP_UNK : N := 85. Definition REQ_STOP : N := 88.
Definition REQ_ZREL : N := 90.
Definition SCM_MAX_FDS : nat := 253.
(** src/chal.h:47-48 *)
Definition CHAL_MAX_COUNT : N := 100.
Definition CHAL_MAX_DLEN : N := 28400.

(** [csbuf_t] as 8 bytes in memory, and csbuf_make_v / get_v / set_v,
    src/cs.h:29-60 (little-endian). *)
Definition make_v (v0 v1 v2 : N) : N := N.lor (N.lor (N.shiftl v0 16) (N.shiftl v1 8)) v2.

(** The 32-bit field d on a little-endian machine. *)
Definition make_d (d0 d1 d2 d3 : N) : N := d0 + 256 * d1 + 65536 * d2 + 16777216 * d3.

(** ** Connections, src/css.c:61-87 *)
Inductive cstate := READING_REQ | READING_DATA | WAITING_SERVER | WRITING_RESP | WRITING_RESP_FDS | WRITING_RESP_DATA.
Record conn := {
  k_state : cstate;
  k_read : bool; k_write : bool;              (* the watchers are active *)
  k_key : N; k_v : N; k_d : N;                (* rbuf *)
  k_wkey : N; k_wv : N; k_wd : N;             (* wbuf *)
  k_data : option bytes;                      (* being read: the bytes so far *)
  k_size : nat; k_done : nat;
  k_perms : option (bool * bool)              (* TCP: chal_ok, ctl_ok *)
}.

(** ** What can be observed of a connection, in order.  Times count events. *)
Inductive item :=
| Opened (perms : option (bool * bool))       (* accepted; TCP: chal_ok, ctl_ok *)
| Got (t : nat) (key v d : N)                 (* a request *)
| GotData (b : bytes)                         (* data that belongs to it *)
| Made (b : bytes)                            (* data the daemon will send *)
| Wrote (key v d : N)                         (* the 8 bytes of a response *)
| WroteData (b : bytes)
| WroteFds (key v d : N) (fds : list N)       (* 8 bytes with sockets *)
| Closed.
(** What a request did, and what happened otherwise, in order. *)
Inductive action :=
| DidChallenges (count : N) (data : bytes)    (* cset_create *)
| DidFlush                                    (* cset_flush *)
| DidQueueReload                              (* waits for a load of the zones *)
| DidSpawn (pid : N)                          (* the daemon started a replacement *)
| DidAnnounce (pid : N)                       (* a new daemon's takeover was accepted *)
| DidSendFds                                  (* the sockets are to be sent *)
| DidStop.
Inductive effect := By (i : nat) (a : action) | Resumed (pid : N) | Terminated.

(** ** Reloader threads, src/ltree.c:1407-1451.  Trees are numbered. *)
Inductive phase :=
| TLoading                                    (* reading the zone files *)
| TFailed                                     (* new tree destroyed, rv = 1 *)
| TLoaded (new : nat)
| TOld (new old : nat)                        (* old_root_tree has been read *)
| TAssigned (old : nat)
| TSync (old : nat) (wait : list nat)         (* inside synchronize_rcu *)
| TDestroyed
| TNotified (failed : bool)                   (* notify_reload_zones_done called *)
| TExited (failed : bool)
| TJoined.
Record thread := { t_start : nat; t_phase : phase }.

Record css := {
  s_now : nat;
  s_conns : nat -> option conn; s_next : nat;
  s_queued : list nat; s_active : list nat;   (* reload_zones_queued, _active *)
  s_pid : N;                                  (* replacement_pid *)
  s_ctl : option nat; s_dmn : option nat;     (* replace_conn_ctl, _dmn *)
  s_timer : bool; s_accept : bool;            (* w_replace; the accept watchers *)
  s_stop : bool;                              (* ev_break *)
  (* reloader threads *)
  s_threads : nat -> option thread; s_nthreads : nat;
  s_tid : nat;                                (* zones_reloader_threadid *)
  s_async : bool;                             (* async_reloadz is pending *)
  s_join : bool;                              (* the main thread is inside pthread_join *)
  (* zone data *)
  s_root : nat; s_live : list nat; s_ntrees : nat;
  s_since : nat -> nat;                       (* when the load of a tree began *)
  s_loads : list (nat * bool);                (* loads that ended: when begun, failed *)
  (* queries: read sections and the tree each has got *)
  s_open : list (nat * option nat); s_nsect : nat;
  (* observations *)
  s_log : nat -> list item;
  s_effects : list effect;
  s_killed : list N                           (* PIDs sent SIGKILL *)
}.

Definition set {A} (f : nat -> A) (i : nat) (x : A) : nat -> A := fun j => if (j =? i)%nat then x else f j.

(** field updates *)
Definition with_conns (s : css) (f : nat -> option conn) : css :=
  {| s_now := s_now s; s_conns := f; s_next := s_next s; s_queued := s_queued s; s_active := s_active s; s_pid := s_pid s; s_ctl := s_ctl s; s_dmn := s_dmn s;
     s_timer := s_timer s; s_accept := s_accept s; s_stop := s_stop s; s_threads := s_threads s; s_nthreads := s_nthreads s; s_tid := s_tid s; s_async := s_async s; s_join := s_join s;
     s_root := s_root s; s_live := s_live s; s_ntrees := s_ntrees s; s_since := s_since s; s_loads := s_loads s; s_open := s_open s; s_nsect := s_nsect s;
     s_log := s_log s; s_effects := s_effects s; s_killed := s_killed s |}.
Definition with_queues (s : css) (q a : list nat) : css :=
  {| s_now := s_now s; s_conns := s_conns s; s_next := s_next s; s_queued := q; s_active := a; s_pid := s_pid s; s_ctl := s_ctl s; s_dmn := s_dmn s;
     s_timer := s_timer s; s_accept := s_accept s; s_stop := s_stop s; s_threads := s_threads s; s_nthreads := s_nthreads s; s_tid := s_tid s; s_async := s_async s; s_join := s_join s;
     s_root := s_root s; s_live := s_live s; s_ntrees := s_ntrees s; s_since := s_since s; s_loads := s_loads s; s_open := s_open s; s_nsect := s_nsect s;
     s_log := s_log s; s_effects := s_effects s; s_killed := s_killed s |}.
Definition with_replace (s : css) (pid : N) (ctl dmn : option nat) (timer accept : bool) : css :=
  {| s_now := s_now s; s_conns := s_conns s; s_next := s_next s; s_queued := s_queued s; s_active := s_active s; s_pid := pid; s_ctl := ctl; s_dmn := dmn;
     s_timer := timer; s_accept := accept; s_stop := s_stop s; s_threads := s_threads s; s_nthreads := s_nthreads s; s_tid := s_tid s; s_async := s_async s; s_join := s_join s;
     s_root := s_root s; s_live := s_live s; s_ntrees := s_ntrees s; s_since := s_since s; s_loads := s_loads s; s_open := s_open s; s_nsect := s_nsect s;
     s_log := s_log s; s_effects := s_effects s; s_killed := s_killed s |}.
Definition with_main (s : css) (now next : nat) (stop : bool) (killed : list N) : css :=
  {| s_now := now; s_conns := s_conns s; s_next := next; s_queued := s_queued s; s_active := s_active s; s_pid := s_pid s; s_ctl := s_ctl s; s_dmn := s_dmn s;
     s_timer := s_timer s; s_accept := s_accept s; s_stop := stop; s_threads := s_threads s; s_nthreads := s_nthreads s; s_tid := s_tid s; s_async := s_async s; s_join := s_join s;
     s_root := s_root s; s_live := s_live s; s_ntrees := s_ntrees s; s_since := s_since s; s_loads := s_loads s; s_open := s_open s; s_nsect := s_nsect s;
     s_log := s_log s; s_effects := s_effects s; s_killed := killed |}.
Definition with_threads (s : css) (f : nat -> option thread) (n tid : nat) (async join : bool) : css :=
  {| s_now := s_now s; s_conns := s_conns s; s_next := s_next s; s_queued := s_queued s; s_active := s_active s; s_pid := s_pid s; s_ctl := s_ctl s; s_dmn := s_dmn s;
     s_timer := s_timer s; s_accept := s_accept s; s_stop := s_stop s; s_threads := f; s_nthreads := n; s_tid := tid; s_async := async; s_join := join;
     s_root := s_root s; s_live := s_live s; s_ntrees := s_ntrees s; s_since := s_since s; s_loads := s_loads s; s_open := s_open s; s_nsect := s_nsect s;
     s_log := s_log s; s_effects := s_effects s; s_killed := s_killed s |}.
Definition with_trees (s : css) (root : nat) (live : list nat) (n : nat) (since : nat -> nat) (loads : list (nat * bool)) : css :=
  {| s_now := s_now s; s_conns := s_conns s; s_next := s_next s; s_queued := s_queued s; s_active := s_active s; s_pid := s_pid s; s_ctl := s_ctl s; s_dmn := s_dmn s;
     s_timer := s_timer s; s_accept := s_accept s; s_stop := s_stop s; s_threads := s_threads s; s_nthreads := s_nthreads s; s_tid := s_tid s; s_async := s_async s; s_join := s_join s;
     s_root := root; s_live := live; s_ntrees := n; s_since := since; s_loads := loads; s_open := s_open s; s_nsect := s_nsect s;
     s_log := s_log s; s_effects := s_effects s; s_killed := s_killed s |}.
Definition with_open (s : css) (o : list (nat * option nat)) (n : nat) : css :=
  {| s_now := s_now s; s_conns := s_conns s; s_next := s_next s; s_queued := s_queued s; s_active := s_active s; s_pid := s_pid s; s_ctl := s_ctl s; s_dmn := s_dmn s;
     s_timer := s_timer s; s_accept := s_accept s; s_stop := s_stop s; s_threads := s_threads s; s_nthreads := s_nthreads s; s_tid := s_tid s; s_async := s_async s; s_join := s_join s;
     s_root := s_root s; s_live := s_live s; s_ntrees := s_ntrees s; s_since := s_since s; s_loads := s_loads s; s_open := o; s_nsect := n;
     s_log := s_log s; s_effects := s_effects s; s_killed := s_killed s |}.
Definition with_obs (s : css) (log : nat -> list item) (eff : list effect) : css :=
  {| s_now := s_now s; s_conns := s_conns s; s_next := s_next s; s_queued := s_queued s; s_active := s_active s; s_pid := s_pid s; s_ctl := s_ctl s; s_dmn := s_dmn s;
     s_timer := s_timer s; s_accept := s_accept s; s_stop := s_stop s; s_threads := s_threads s; s_nthreads := s_nthreads s; s_tid := s_tid s; s_async := s_async s; s_join := s_join s;
     s_root := s_root s; s_live := s_live s; s_ntrees := s_ntrees s; s_since := s_since s; s_loads := s_loads s; s_open := s_open s; s_nsect := s_nsect s;
     s_log := log; s_effects := eff; s_killed := s_killed s |}.
Definition put_conn (s : css) (i : nat) (c : conn) : css := with_conns s (set (s_conns s) i (Some c)).
Definition log (s : css) (i : nat) (x : item) : css := with_obs s (set (s_log s) i (s_log s i ++ [x])) (s_effects s).
Definition did (s : css) (e : effect) : css := with_obs s (s_log s) (s_effects s ++ [e]).
Definition get_conn (s : css) (i : nat) : res conn := match s_conns s i with Some c => Ok c | None => UB end.

(** changes of a connection *)
Definition set_state (c : conn) (st : cstate) (r w : bool) : conn :=
  {| k_state := st; k_read := r; k_write := w; k_key := k_key c; k_v := k_v c; k_d := k_d c; k_wkey := k_wkey c; k_wv := k_wv c; k_wd := k_wd c;
     k_data := k_data c; k_size := k_size c; k_done := k_done c; k_perms := k_perms c |}.
Definition set_data (c : conn) (d : option bytes) (size done : nat) : conn :=
  {| k_state := k_state c; k_read := k_read c; k_write := k_write c; k_key := k_key c; k_v := k_v c; k_d := k_d c; k_wkey := k_wkey c; k_wv := k_wv c; k_wd := k_wd c;
     k_data := d; k_size := size; k_done := done; k_perms := k_perms c |}.
Definition set_rbuf (c : conn) (key v d : N) : conn :=
  {| k_state := k_state c; k_read := k_read c; k_write := k_write c; k_key := key; k_v := v; k_d := d; k_wkey := k_wkey c; k_wv := k_wv c; k_wd := k_wd c;
     k_data := k_data c; k_size := k_size c; k_done := k_done c; k_perms := k_perms c |}.
Definition set_wbuf (c : conn) (key v d : N) : conn :=
  {| k_state := k_state c; k_read := k_read c; k_write := k_write c; k_key := k_key c; k_v := k_v c; k_d := k_d c; k_wkey := key; k_wv := v; k_wd := d;
     k_data := k_data c; k_size := k_size c; k_done := k_done c; k_perms := k_perms c |}.
Definition is_waiting (c : conn) : bool := match k_state c with WAITING_SERVER => true | _ => false end.
Definition opt_is (o : option nat) (i : nat) : bool := match o with Some j => (j =? i)%nat | None => false end.

(** Kernel results. *)
Inductive send8 := Sent8 | Again8 | Err8.                        (* send/sendmsg of 8 bytes *)
Inductive sendn := SentN (n : nat) | AgainN | ErrN.              (* send of data *)
Inductive recvd := Recv (b : bytes) | NotYet | Broken.             (* recv; [Recv []]: the client has closed *)
(** Results of other parts, for one request. *)
Record ext := {
  x_text : bytes;               (* statio_get_json, gdnsd_mon_states_get_json, csets_serialize *)
  x_csets : N;                  (* number of challenge sets serialized *)
  x_chal_fails : bool;          (* cset_create *)
  x_spawn : Z;                  (* spawn_replacement *)
  x_ack1 : bool; x_ack2 : bool  (* the blocking sends of REQ_STOP work *)
}.

Section Css.
  (** handoff_fds: lock, control socket, one for each DNS thread, src/css.c:1170-1176 *)
  Variable fds : list N.
  (** status_v and status_d: version and PID, src/css.c:1136-1137 *)
  Variables status_v status_d : N.

  (** [css_conn_cleanup], src/css.c:144-184. *)
  Definition conn_cleanup (s : css) (i : nat) : res css :=
    do c <- get_conn s i ;
    let s := if opt_is (s_ctl s) i then with_replace s (s_pid s) None (s_dmn s) (s_timer s) (s_accept s) else s in
    let s := if opt_is (s_dmn s) i then
               let s := with_replace s (s_pid s) (s_ctl s) None (s_timer s) (s_accept s) in
               if s_pid s =? 0 then s else with_main s (s_now s) (s_next s) (s_stop s) (s_pid s :: s_killed s)
             else s in
    Ok (log (with_conns s (set (s_conns s) i None)) i Closed).

  (** [respond_blocking_ack], src/css.c:186-202: true if the connection is gone. *)
  Definition respond_blocking_ack (s : css) (i : nat) (ok : bool) : res (css * bool) :=
    do c <- get_conn s i ;
    rassert (is_waiting c)
      (let s := put_conn s i (set_state (set_wbuf c RESP_ACK 0 0) WRITING_RESP (k_read c) (k_write c)) in
       if ok then Ok (log s i (Wrote RESP_ACK 0 0), false)
       else do s <- conn_cleanup s i ; Ok (s, true)).

  (** [css_conn_write_data], src/css.c:204-233. *)
  Definition conn_write_data (s : css) (i : nat) (r : sendn) : res css :=
    do c <- get_conn s i ;
    rassert (match k_state c with WRITING_RESP_DATA => true | _ => false end)
    (match k_data c with
     | None => UB
     | Some data =>
         rassert (negb (k_size c =? 0)%nat)
         (rassert (k_done c <? k_size c)%nat
          (match r with
           | AgainN => Ok s
           | ErrN => conn_cleanup s i
           | SentN n =>
               do chunk <- rdn data (k_done c) (Nat.min n (k_size c - k_done c)) ;
               let done := (k_done c + length chunk)%nat in
               let s := log s i (WroteData chunk) in
               if (done =? k_size c)%nat
               then Ok (put_conn s i (set_state (set_data c None 0 0) READING_REQ true false))
               else Ok (put_conn s i (set_data c (Some data) (k_size c) done))
           end))
     end).

  (** [css_conn_write_resp], src/css.c:235-294: true if data follows. *)
  Definition conn_write_resp (s : css) (i : nat) (r : send8) : res (css * bool) :=
    do c <- get_conn s i ;
    rassert (match k_state c with WRITING_RESP | WRITING_RESP_FDS => true | _ => false end)
    (match k_state c with
     | WRITING_RESP_FDS =>
         rassert (k_done c <? k_size c)%nat
         (let n := Nat.min (k_size c - k_done c) SCM_MAX_FDS in
          do chunk <- rdn fds (k_done c) n ;
          match r with
          | Again8 => Ok (s, false)
          | Err8 => do s <- conn_cleanup s i ; Ok (s, false)
          | Sent8 =>
              let s := log s i (WroteFds (k_wkey c) (k_wv c) (k_wd c) chunk) in
              let done := (k_done c + n)%nat in
              if (done <? k_size c)%nat then Ok (put_conn s i (set_data c (k_data c) (k_size c) done), false)
              else Ok (put_conn s i (set_state (set_data c (k_data c) 0 0) READING_REQ true false), false)
          end)
     | _ =>
         match r with
         | Again8 => Ok (s, false)
         | Err8 => do s <- conn_cleanup s i ; Ok (s, false)
         | Sent8 =>
             let s := log s i (Wrote (k_wkey c) (k_wv c) (k_wd c)) in
             match k_data c with
             | Some _ => Ok (put_conn s i (set_state c WRITING_RESP_DATA (k_read c) (k_write c)), true)
             | None => Ok (put_conn s i (set_state c READING_REQ true false), false)
             end
         end
     end).

  (** [css_conn_write], src/css.c:296-308. *)
  Definition conn_write (s : css) (i : nat) (r : send8) (r2 : sendn) : res css :=
    do c <- get_conn s i ;
    rassert (match k_state c with WRITING_RESP | WRITING_RESP_FDS | WRITING_RESP_DATA => true | _ => false end)
    (match k_state c with
     | WRITING_RESP_DATA => conn_write_data s i r2
     | _ => do p <- conn_write_resp s i r ; let (s, more) := (p : css * bool) in if more then conn_write_data s i r2 else Ok s
     end).

  (** [respond], src/css.c:310-342. *)
  Definition respond (s : css) (i : nat) (key v d : N) (data : option bytes) (send_fds : bool) : res css :=
    do c <- get_conn s i ;
    rassert (is_waiting c)
    (rassert (v <=? 16777215)
     (let c := set_state (set_wbuf c key v d) WRITING_RESP (k_read c) true in
      match data with
      | Some b => rassert (negb send_fds) (Ok (log (put_conn s i (set_data c (Some b) (N.to_nat d) 0)) i (Made b)))
      | None =>
          if send_fds then
            rassert ((key =? RESP_ACK) && (v =? 0) && (d =? 0) && (N.of_nat (length fds) <=? 16777215))
              (Ok (put_conn s i (set_data (set_state (set_wbuf c key (N.of_nat (length fds)) d) WRITING_RESP_FDS (k_read c) true) (k_data c) (length fds) 0)))
          else Ok (put_conn s i c)
      end)).
  Definition respond_plain (s : css) (i : nat) (key : N) : res css := respond s i key 0 0 None false.
  Fixpoint respond_all (s : css) (is : list nat) (key : N) : res css :=
    match is with
    | [] => Ok s
    | i :: is => do s <- respond_plain s i key ; respond_all s is key
    end.

  (** [latr_all_reloaders], src/css.c:548-563. *)
  Definition latr_all_reloaders (s : css) : res css :=
    do s <- respond_all s (s_active s) RESP_LATR ;
    do s <- respond_all s (s_queued s) RESP_LATR ;
    Ok (with_queues s [] []).

  (** [spawn_async_zones_reloader_thread], src/main.c:114-154. *)
  Definition spawn_reloader (s : css) : css :=
    with_threads s (set (s_threads s) (s_nthreads s) (Some {| t_start := s_now s; t_phase := TLoading |})) (S (s_nthreads s)) (s_nthreads s) (s_async s) (s_join s).

  (** [recv_challenge_data], src/css.c:565-604. *)
  Definition recv_challenge_data (s : css) (i : nat) (r : recvd) (x : ext) : res css :=
    do c <- get_conn s i ;
    match k_data c with
    | None => UB
    | Some data =>
        rassert (negb (k_size c =? 0)%nat)
        (rassert (k_done c <? k_size c)%nat
         (match r with
          | NotYet => Ok s
          | Broken => conn_cleanup s i
          | Recv [] => conn_cleanup s i
          | Recv b =>
              let b := firstn (k_size c - k_done c) b in
              let done := (k_done c + length b)%nat in
              let s := log s i (GotData b) in
              if (done =? k_size c)%nat then
                let s := put_conn s i (set_state (set_data c None 0 0) WAITING_SERVER false (k_write c)) in
                if negb (s_pid s =? 0) then respond_plain s i RESP_LATR
                else if x_chal_fails x then respond_plain s i RESP_FAIL
                else respond_plain (did s (By i (DidChallenges (k_v c) (data ++ b)))) i RESP_ACK
              else Ok (put_conn s i (set_data c (Some (data ++ b)) (k_size c) done))
          end))
    end.

  (** [handle_req_stop], src/css.c:606-650. *)
  Definition handle_req_stop (s : css) (i : nat) (x : ext) : res css :=
    if negb (s_pid s =? 0) && negb (opt_is (s_dmn s) i) then respond_plain s i RESP_LATR
    else
      let s := if s_pid s =? 0 then s else with_replace s 0 (s_ctl s) (s_dmn s) (s_timer s) (s_accept s) in
      let s := did (with_main s (s_now s) (s_next s) true (s_killed s)) (By i DidStop) in
      do p <- respond_blocking_ack s i (x_ack1 x) ;
      let (s, _) := (p : css * bool) in
      match s_ctl s with
      | None => Ok s
      | Some j =>
          rassert (opt_is (s_dmn s) i)
            (do p <- respond_blocking_ack s j (x_ack2 x) ; let (s, _) := (p : css * bool) in Ok s)
      end.

  (** [handle_req_zrel], src/css.c:652-665. *)
  Definition handle_req_zrel (s : css) (i : nat) : res css :=
    if negb (s_pid s =? 0) then respond_plain s i RESP_LATR
    else
      let s := did (with_queues s (s_queued s ++ [i]) (s_active s)) (By i DidQueueReload) in
      match s_active s with
      | [] => Ok (spawn_reloader (with_queues s (s_active s) (s_queued s)))
      | _ => Ok s
      end.

  (** [handle_req_repl], src/css.c:667-693. *)
  Definition handle_req_repl (s : css) (i : nat) (x : ext) : res css :=
    if negb (s_pid s =? 0) then respond_plain s i RESP_LATR
    else
      rassert (match s_ctl s, s_dmn s with None, None => true | _, _ => false end)
      (if (x_spawn x <=? 0)%Z then respond_plain s i RESP_FAIL
       else
         let pid := Z.to_N (x_spawn x) in
         latr_all_reloaders (did (with_replace s pid (Some i) (s_dmn s) true (s_accept s)) (By i (DidSpawn pid)))).

  (** [handle_req_tak1], src/css.c:695-713. *)
  Definition handle_req_tak1 (s : css) (i : nat) : res css :=
    do c <- get_conn s i ;
    let pid := k_d c in
    if negb (s_pid s =? 0) && negb (s_pid s =? pid) then respond_plain s i RESP_LATR
    else
      rassert (match s_dmn s with None => true | _ => false end)
        (do s <- latr_all_reloaders (did (with_replace s pid (s_ctl s) (Some i) true (s_accept s)) (By i (DidAnnounce pid))) ;
         respond_plain s i RESP_ACK).

  Definition legal_take (s : css) (c : conn) (i : nat) : bool :=
    negb (s_pid s =? 0) && (k_d c =? s_pid s) && opt_is (s_dmn s) i.
  (** [handle_req_tak2], src/css.c:726-738; [respond_tak2], src/css.c:344-351. *)
  Definition handle_req_tak2 (s : css) (i : nat) (x : ext) : res css :=
    do c <- get_conn s i ;
    if negb (legal_take s c i) then do s <- respond_plain s i RESP_FAIL ; conn_cleanup s i
    else respond s i RESP_ACK (x_csets x mod two32) (N.of_nat (length (x_text x)) mod two32)
           (match x_text x with [] => None | b => Some b end) false.

  (** [handle_req_take], src/css.c:740-760. *)
  Definition handle_req_take (s : css) (i : nat) : res css :=
    do c <- get_conn s i ;
    if negb (legal_take s c i) then do s <- respond_plain s i RESP_FAIL ; conn_cleanup s i
    else
      rassert (2 <=? N.of_nat (length fds))
        (respond (did (with_replace s (s_pid s) (s_ctl s) (s_dmn s) (s_timer s) false) (By i DidSendFds)) i RESP_ACK 0 0 None true).

  (** [tcp_req_allowed], src/css.c:762-779. *)
  Definition tcp_req_allowed (p : bool * bool) (key : N) : bool :=
    if (key =? REQ_INFO) || (key =? REQ_STAT) || (key =? REQ_STATE) then true
    else if (key =? REQ_CHAL) || (key =? REQ_CHALF) then fst p
    else if (key =? REQ_ZREL) || (key =? REQ_REPL) then snd p
    else false.

  (** The switch of [css_conn_read], src/css.c:838-893. *)
  Definition handle_req (s : css) (i : nat) (key : N) (x : ext) : res css :=
    if key =? REQ_INFO then respond s i RESP_ACK status_v status_d None false
    else if key =? REQ_STOP then handle_req_stop s i x
    else if (key =? REQ_STAT) || (key =? REQ_STATE) then
      rassert (N.of_nat (length (x_text x)) <=? 4294967295)
        (respond s i RESP_ACK 0 (N.of_nat (length (x_text x))) (Some (x_text x)) false)
    else if key =? REQ_ZREL then handle_req_zrel s i
    else if key =? REQ_CHALF then
      if negb (s_pid s =? 0) then respond_plain s i RESP_LATR
      else respond_plain (did s (By i DidFlush)) i RESP_ACK
    else if key =? REQ_REPL then handle_req_repl s i x
    else if key =? REQ_TAK1 then handle_req_tak1 s i
    else if key =? REQ_TAK2 then handle_req_tak2 s i x
    else if key =? REQ_TAKE then handle_req_take s i
    else respond_plain s i RESP_UNK.

  (** [css_conn_read], src/css.c:781-894.  A recv of anything but 8 bytes closes
      the connection. *)
  Definition conn_read (s : css) (i : nat) (r : recvd) (x : ext) : res css :=
    do c <- get_conn s i ;
    match k_state c with
    | READING_DATA => rassert (k_key c =? REQ_CHAL) (recv_challenge_data s i r x)
    | READING_REQ =>
        match r with
        | NotYet => Ok s
        | Broken => conn_cleanup s i
        | Recv [key; v0; v1; v2; d0; d1; d2; d3] =>
            let v := make_v v0 v1 v2 in
            let d := make_d d0 d1 d2 d3 in
            let s := log s i (Got (s_now s) key v d) in
            let c := set_rbuf c key v d in
            let waiting := put_conn s i (set_state c WAITING_SERVER false (k_write c)) in
            if match k_perms c with Some p => negb (tcp_req_allowed p key) | None => false end
            then respond_plain waiting i RESP_DENY
            else if key =? REQ_CHAL then
              if (v =? 0) || (CHAL_MAX_COUNT <? v) || (d =? 0) || (CHAL_MAX_DLEN <? d) then conn_cleanup (put_conn s i c) i
              else Ok (put_conn s i (set_state (set_data c (Some []) (N.to_nat d) 0) READING_DATA (k_read c) (k_write c)))
            else handle_req waiting i key x
        | Recv _ => conn_cleanup s i
        end
    | _ => UB
    end.

  (** [css_accept], [css_accept_unix], [css_accept_tcp], src/css.c:896-961. *)
  Definition accept (s : css) (perms : option (bool * bool)) : css :=
    let c := {| k_state := READING_REQ; k_read := true; k_write := false; k_key := 0; k_v := 0; k_d := 0; k_wkey := 0; k_wv := 0; k_wd := 0;
                k_data := None; k_size := 0; k_done := 0; k_perms := perms |} in
    with_main (log (put_conn s (s_next s) c) (s_next s) (Opened perms)) (s_now s) (S (s_next s)) (s_stop s) (s_killed s).

  (** [css_watch_replace], src/css.c:358-393; [dead]: kill(pid, 0) fails. *)
  Definition watch_replace (s : css) (dead : bool) : res css :=
    rassert (negb (s_pid s =? 0))
    (if dead then
       let s := with_replace s (s_pid s) (s_ctl s) (s_dmn s) false (s_accept s) in
       do s <- match s_ctl s with Some i => respond_plain s i RESP_FAIL | None => Ok s end ;
       do s <- match s_dmn s with Some i => conn_cleanup s i | None => Ok s end ;
       Ok (did (with_replace s 0 None None (s_timer s) true) (Resumed (s_pid s)))
     else Ok s).

  (** [css_notify_zone_reloaders], src/css.c:1181-1197. *)
  Definition notify_zone_reloaders (s : css) (failed : bool) : res (css * bool) :=
    do s <- respond_all s (s_active s) (if failed then RESP_FAIL else RESP_ACK) ;
    let s := with_queues s [] (s_queued s) in
    Ok (s, match s_active s with [] => false | _ => true end).

  (** [reload_zones_done], src/main.c:180-194, with [join_zones_reloader_thread],
      src/main.c:105-112.  The callback starts by waiting for the thread: nothing else
      happens in the main thread until it has exited.  A thread that has been
      joined must not be joined again. *)
  Definition reload_zones_done (s : css) : res css :=
    Ok (with_threads s (s_threads s) (s_nthreads s) (s_tid s) false true).
  Definition reload_zones_joined (s : css) : res css :=
    match s_threads s (s_tid s) with
    | Some t =>
        match t_phase t with
        | TExited failed =>
            let s := with_threads s (set (s_threads s) (s_tid s) (Some {| t_start := t_start t; t_phase := TJoined |})) (s_nthreads s) (s_tid s) (s_async s) false in
            do p <- notify_zone_reloaders s failed ;
            let (s, again) := (p : css * bool) in
            Ok (if again then spawn_reloader s else s)
        | TJoined => UB
        | _ => Ok s                     (* still waiting for it *)
        end
    | None => UB
    end.

  (** [ltree_zones_reloader_thread], src/ltree.c:1407-1451, step by step;
      [fails]: the zone files have errors. *)
  Definition thread_step (s : css) (k : nat) (fails : bool) : res css :=
    match s_threads s k with
    | None => Ok s
    | Some t =>
        let go s p := with_threads s (set (s_threads s) k (Some {| t_start := t_start t; t_phase := p |})) (s_nthreads s) (s_tid s) (s_async s) (s_join s) in
        match t_phase t with
        | TLoading =>
            if fails then Ok (go (with_trees s (s_root s) (s_live s) (s_ntrees s) (s_since s) (s_loads s ++ [(t_start t, true)])) TFailed)
            else
              let n := s_ntrees s in
              Ok (go (with_trees s (s_root s) (n :: s_live s) (S n) (set (s_since s) n (t_start t)) (s_loads s ++ [(t_start t, false)])) (TLoaded n))
        | TFailed => Ok (with_threads (go s (TNotified true)) (s_threads (go s (TNotified true))) (s_nthreads s) (s_tid s) true (s_join s))
        | TLoaded n => Ok (go s (TOld n (s_root s)))
        | TOld n old => Ok (go (with_trees s n (s_live s) (s_ntrees s) (s_since s) (s_loads s)) (TAssigned old))
        | TAssigned old => Ok (go s (TSync old (map fst (s_open s))))
        | TSync old wait =>
            if forallb (fun o => negb (existsb (Nat.eqb (fst o)) wait)) (s_open s) then
              rassert (existsb (Nat.eqb old) (s_live s))
                (Ok (go (with_trees s (s_root s) (filter (fun t => negb (t =? old)%nat) (s_live s)) (s_ntrees s) (s_since s) (s_loads s)) TDestroyed))
            else Ok s
        | TDestroyed => Ok (with_threads (go s (TNotified false)) (s_threads (go s (TNotified false))) (s_nthreads s) (s_tid s) true (s_join s))
        | TNotified f => Ok (go s (TExited f))
        | TExited _ | TJoined => Ok s
        end
    end.

  (** ** Events *)
  Inductive event :=
  | EAccept (perms : option (bool * bool))
  | ERead (i : nat) (r : recvd) (x : ext)
  | EWrite (i : nat) (r : send8) (r2 : sendn)
  | ETimer (dead : bool)
  | ETerm                                      (* SIGTERM or SIGINT *)
  | EDone                                      (* async_reloadz, or the join returns *)
  | EThread (k : nat) (fails : bool)
  (* queries, src/dnspacket.c:1632, 1888-1890: enter, get the tree, use it, leave *)
  | QEnter | QGet (k : nat) | QUse (k : nat) | QLeave (k : nat).

  Definition main_step (s : css) (e : event) : res css :=
    match e with
    | EAccept p => if s_accept s then Ok (accept s p) else Ok s
    | ERead i r x => match s_conns s i with Some c => if k_read c then conn_read s i r x else Ok s | None => Ok s end
    | EWrite i r r2 => match s_conns s i with Some c => if k_write c then conn_write s i r r2 else Ok s | None => Ok s end
    | ETimer dead => if s_timer s then watch_replace s dead else Ok s
    (* terminal_signal, src/main.c:157-170; css_stop_ok, src/css.c:353-356 *)
    | ETerm => if s_pid s =? 0 then Ok (did (with_main s (s_now s) (s_next s) true (s_killed s)) Terminated) else Ok s
    | EDone => if s_async s then reload_zones_done s else Ok s
    | _ => Ok s
    end.
  Definition other_step (s : css) (e : event) : res css :=
    match e with
    | EThread k f => thread_step s k f
    | QEnter => Ok (with_open s (s_open s ++ [(s_nsect s, None)]) (S (s_nsect s)))
    | QGet k => Ok (with_open s (map (fun o => if (fst o =? k)%nat then (k, Some (s_root s)) else o) (s_open s)) (s_nsect s))
    | QUse k => rassert (forallb (fun o => if (fst o =? k)%nat then match snd o with Some t => existsb (Nat.eqb t) (s_live s) | None => true end else true) (s_open s)) (Ok s)
    | QLeave k => Ok (with_open s (filter (fun o => negb (fst o =? k)%nat) (s_open s)) (s_nsect s))
    | _ => Ok s
    end.
  Definition is_main (e : event) : bool :=
    match e with EThread _ _ | QEnter | QGet _ | QUse _ | QLeave _ => false | _ => true end.
  Definition step_at (s : css) (e : event) : res css :=
    if is_main e then
      if s_join s then match e with EDone => reload_zones_joined s | _ => Ok s end
      else main_step s e
    else other_step s e.
  Definition step (s : css) (e : event) : res css :=
    if s_stop s then Ok s
    else do s <- step_at s e ; Ok (with_main s (S (s_now s)) (s_next s) (s_stop s) (s_killed s)).
  Fixpoint run (s : css) (h : list event) : res css :=
    match h with [] => Ok s | e :: h => do s <- step s e ; run s h end.

  (** After start-up: zone data 0 loaded, thread 0 joined, src/main.c:145-149;
      [css_start], src/css.c:1161-1178. *)
  Definition init : css :=
    {| s_now := 1; s_conns := fun _ => None; s_next := 0; s_queued := []; s_active := []; s_pid := 0; s_ctl := None; s_dmn := None;
       s_timer := false; s_accept := true; s_stop := false; s_threads := fun k => match k with O => Some {| t_start := 0; t_phase := TJoined |} | _ => None end;
       s_nthreads := 1; s_tid := 0; s_async := false; s_join := false; s_root := 0; s_live := [0%nat]; s_ntrees := 1; s_since := fun _ => 0%nat; s_loads := [];
       s_open := []; s_nsect := 0; s_log := fun _ => []; s_effects := []; s_killed := [] |}.
End Css.
