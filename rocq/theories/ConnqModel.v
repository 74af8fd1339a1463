(** Model of the TCP connection queue, src/dnsio_tcp.c:224-427 and 491-607.

    The doubly-linked list is modelled at pointer level: connections are
    numbered cells of a heap, a [None] pointer is NULL, and following a pointer
    to a cell that is not live (never allocated, freed, or parked in the churn
    cache) is undefined behaviour.  Times are integers (the code uses doubles:
    rounding is not modelled); the unit is a quarter second, so that
    TIMEOUT_FUDGE (line 74) is one unit and the grace period twenty. *)
From Verif Require Import Base.

Local Open Scope Z_scope.

Definition ptr := option nat.

(** [struct conn], the fields used by the queue (src/dnsio_tcp.c:158-174). *)
Record node := { nxt : ptr; prv : ptr; idle : Z }.

Definition heap := nat -> option node.
Definition hset (h : heap) (i : nat) (v : option node) : heap :=
  fun j => if Nat.eqb i j then v else h j.

(** [thread_t], the fields used by the queue (src/dnsio_tcp.c:130-155).
    [timer] is the absolute expiry of the timeout watcher when active. *)
Record thr := {
  mem : heap; qhead : ptr; qtail : ptr; num : nat;
  max_clients : nat; server_timeout : Z; now : Z; timer : option Z; grace : bool }.

Definition TIMEOUT_FUDGE : Z := 1.
Definition GRACE : Z := 20.

Definition with_mem (t : thr) (h : heap) : thr :=
  {| mem := h; qhead := qhead t; qtail := qtail t; num := num t; max_clients := max_clients t;
     server_timeout := server_timeout t; now := now t; timer := timer t; grace := grace t |}.
Definition with_head (t : thr) (p : ptr) : thr :=
  {| mem := mem t; qhead := p; qtail := qtail t; num := num t; max_clients := max_clients t;
     server_timeout := server_timeout t; now := now t; timer := timer t; grace := grace t |}.
Definition with_tail (t : thr) (p : ptr) : thr :=
  {| mem := mem t; qhead := qhead t; qtail := p; num := num t; max_clients := max_clients t;
     server_timeout := server_timeout t; now := now t; timer := timer t; grace := grace t |}.
Definition with_num (t : thr) (n : nat) : thr :=
  {| mem := mem t; qhead := qhead t; qtail := qtail t; num := n; max_clients := max_clients t;
     server_timeout := server_timeout t; now := now t; timer := timer t; grace := grace t |}.
Definition with_timer (t : thr) (x : option Z) : thr :=
  {| mem := mem t; qhead := qhead t; qtail := qtail t; num := num t; max_clients := max_clients t;
     server_timeout := server_timeout t; now := now t; timer := x; grace := grace t |}.
Definition with_grace (t : thr) (b : bool) : thr :=
  {| mem := mem t; qhead := qhead t; qtail := qtail t; num := num t; max_clients := max_clients t;
     server_timeout := server_timeout t; now := now t; timer := timer t; grace := b |}.
Definition with_now (t : thr) (z : Z) : thr :=
  {| mem := mem t; qhead := qhead t; qtail := qtail t; num := num t; max_clients := max_clients t;
     server_timeout := server_timeout t; now := z; timer := timer t; grace := grace t |}.

(** Checked dereference and field stores. *)
Definition deref (h : heap) (i : nat) : res node :=
  match h i with Some n => Ok n | None => UB end.
Definition set_next (h : heap) (i : nat) (p : ptr) : res heap :=
  do n <- deref h i; Ok (hset h i (Some {| nxt := p; prv := prv n; idle := idle n |})).
Definition set_prev (h : heap) (i : nat) (p : ptr) : res heap :=
  do n <- deref h i; Ok (hset h i (Some {| nxt := nxt n; prv := p; idle := idle n |})).
Definition set_idle (h : heap) (i : nat) (z : Z) : res heap :=
  do n <- deref h i; Ok (hset h i (Some {| nxt := nxt n; prv := prv n; idle := z |})).

Definition peq (a b : ptr) : bool :=
  match a, b with
  | None, None => true
  | Some x, Some y => Nat.eqb x y
  | _, _ => false
  end.
Definition isnull (p : ptr) : bool := match p with None => true | _ => false end.

(** The counting walk of [connq_assert_sane], src/dnsio_tcp.c:243-254.  [fuel]
    bounds the walk; running out is reported as a failure. *)
Fixpoint walk (h : heap) (hd tl : ptr) (fuel : nat) (c : ptr) (ct : nat) : res nat :=
  match c with
  | None => Ok ct
  | Some i =>
      match fuel with
      | O => UB
      | S f =>
          do n <- deref h i;
          rassert (peq c tl || negb (isnull (nxt n)))%bool
          (rassert (peq c hd || negb (isnull (prv n)))%bool
          (walk h hd tl f (nxt n) (S ct)))
      end
  end.

(** [connq_assert_sane], src/dnsio_tcp.c:228-257. *)
Definition connq_assert_sane (t : thr) : res unit :=
  if Nat.eqb (num t) 0 then
    rassert (isnull (qhead t)) (rassert (isnull (qtail t)) (Ok tt))
  else
    rassert (Nat.leb (num t) (max_clients t))
    (match qhead t, qtail t with
     | Some hd, Some tl =>
         do nh <- deref (mem t) hd;
         rassert (isnull (prv nh))
         (do nt <- deref (mem t) tl;
          rassert (isnull (nxt nt))
          (do ct <- walk (mem t) (qhead t) (qtail t) (S (num t)) (qhead t) 0;
           rassert (Nat.eqb ct (num t)) (Ok tt)))
     | _, _ => UB
     end).

(** [connq_adjust_timer], src/dnsio_tcp.c:262-281. *)
Definition connq_adjust_timer (t : thr) : res thr :=
  do _ <- connq_assert_sane t;
  match qhead t with
  | Some hd =>
      if grace t then Ok t
      else
        do n <- deref (mem t) hd;
        let next_interval := server_timeout t + TIMEOUT_FUDGE - (now t - idle n) in
        let next_interval := if next_interval <? TIMEOUT_FUDGE then TIMEOUT_FUDGE else next_interval in
        Ok (with_timer t (Some (now t + next_interval)))
  | None =>
      rassert (Nat.eqb (num t) 0) (Ok (with_timer t None))
  end.

(** [connq_pull_conn], src/dnsio_tcp.c:287-310. *)
Definition connq_pull_conn (t : thr) (c : nat) : res thr :=
  do _ <- connq_assert_sane t;
  rassert (negb (Nat.eqb (num t) 0))
  (let t := with_num t (num t - 1) in
   do n <- deref (mem t) c;
   do t <- match nxt n with
           | Some x =>
               rassert (negb (peq (Some c) (qtail t)))
               (do h <- set_prev (mem t) x (prv n); Ok (with_mem t h))
           | None =>
               rassert (peq (Some c) (qtail t)) (Ok (with_tail t (prv n)))
           end;
   do n <- deref (mem t) c;
   do t <- match prv n with
           | Some x =>
               rassert (negb (peq (Some c) (qhead t)))
               (do h <- set_next (mem t) x (nxt n); Ok (with_mem t h))
           | None =>
               rassert (peq (Some c) (qhead t)) (connq_adjust_timer (with_head t (nxt n)))
           end;
   do _ <- connq_assert_sane t;
   Ok t).

(** [connq_destruct_conn], src/dnsio_tcp.c:313-346: the watchers and the socket
    are not part of this model; the memory is freed or parked zeroed in the
    churn cache, either way it is dead afterwards. *)
Definition connq_destruct_conn (t : thr) (c : nat) (manage_queue : bool) : res thr :=
  rassert (negb (Nat.eqb (num t) 0))
  (do t <- (if manage_queue then connq_pull_conn t c else Ok t);
   do _ <- deref (mem t) c;
   Ok (with_mem t (hset (mem t) c None))).

(** [accept_handler]'s allocation (src/dnsio_tcp.c:858-863): a dead cell,
    zeroed, becomes live; then [connq_append_new_conn], lines 349-397. *)
Definition connq_append_new_conn (t : thr) (c : nat) : res thr :=
  do _ <- connq_assert_sane t;
  rassert (negb (peq (qhead t) (Some c)))
  (rassert (negb (peq (qtail t) (Some c)))
  (do n <- deref (mem t) c;
   rassert (isnull (nxt n)) (rassert (isnull (prv n)) (rassert (negb (grace t))
   (do h <- set_idle (mem t) c (now t);
    let t := with_num (with_mem t h) (S (num t)) in
    match qhead t with
    | None =>
        rassert (Nat.eqb (num t) 1) (rassert (isnull (qtail t))
        (connq_adjust_timer (with_tail (with_head t (Some c)) (Some c))))
    | Some _ =>
        match qtail t with
        | None => UB
        | Some tl =>
            do ntl <- deref (mem t) tl;
            rassert (isnull (nxt ntl))
            (do h <- set_prev (mem t) c (Some tl);
             do h <- set_next h c None;
             do h <- set_next h tl (Some c);
             let t := with_tail (with_mem t h) (Some c) in
             do _ <- connq_assert_sane t;
             if Nat.eqb (num t) (max_clients t) then
               match qhead t with
               | Some hd => connq_destruct_conn t hd true
               | None => UB
               end
             else Ok t)
        end
    end))))).

Definition accept (t : thr) (c : nat) : res thr :=
  connq_append_new_conn (with_mem t (hset (mem t) c (Some {| nxt := None; prv := None; idle := 0 |}))) c.

(** [connq_refresh_conn], src/dnsio_tcp.c:401-427. *)
Definition connq_refresh_conn (t : thr) (c : nat) : res thr :=
  do _ <- connq_assert_sane t;
  do h <- set_idle (mem t) c (now t);
  let t := with_mem t h in
  if Nat.eqb (num t) 1 then
    rassert (peq (Some c) (qhead t)) (rassert (peq (Some c) (qtail t)) (connq_adjust_timer t))
  else if peq (Some c) (qtail t) then Ok t
  else
    do t <- connq_pull_conn t c;
    do h <- set_prev (mem t) c (qtail t);
    do h <- set_next h c None;
    match qtail t with
    | None => UB
    | Some tl =>
        do h <- set_next h tl (Some c);
        let t := with_num (with_tail (with_mem t h) (Some c)) (S (num t)) in
        do _ <- connq_assert_sane t;
        Ok t
    end.

(** The destroy-everything loop of [timeout_handler] in grace mode,
    src/dnsio_tcp.c:505-510. *)
Fixpoint destroy_all (t : thr) (fuel : nat) (c : ptr) : res thr :=
  match c with
  | None => Ok t
  | Some i =>
      match fuel with
      | O => UB
      | S f =>
          do n <- deref (mem t) i;
          do t <- connq_destruct_conn t i false;
          destroy_all t f (nxt n)
      end
  end.

(** The expiry loop, src/dnsio_tcp.c:523-533: returns the first survivor. *)
Fixpoint expire (t : thr) (fuel : nat) (cutoff : Z) (c : ptr) : res (thr * ptr) :=
  match c with
  | None => Ok (t, None)
  | Some i =>
      match fuel with
      | O => UB
      | S f =>
          do n <- deref (mem t) i;
          if idle n <=? cutoff then
            do t <- connq_destruct_conn t i false;
            rassert (negb (Nat.eqb (num t) 0))
            (expire (with_num t (num t - 1)) f cutoff (nxt n))
          else Ok (t, c)
      end
  end.

(** [timeout_handler], src/dnsio_tcp.c:491-544. *)
Definition timeout_handler (t : thr) : res thr :=
  do _ <- connq_assert_sane t;
  rassert (negb (isnull (qhead t)))
  (if grace t then
     do t <- destroy_all t (S (num t)) (qhead t);
     Ok (with_num (with_tail (with_head (with_timer t None) None) None) 0)
   else
     let cutoff := now t - server_timeout t in
     do (t, c) <- expire t (S (num t)) cutoff (qhead t);
     do t <- match c with
             | None =>
                 rassert (Nat.eqb (num t) 0) (Ok (with_tail (with_head t None) None))
             | Some i =>
                 rassert (negb (Nat.eqb (num t) 0))
                 (do h <- set_prev (mem t) i None; Ok (with_head (with_mem t h) c))
             end;
     connq_adjust_timer t).

(** The loop of [stop_handler] over the connections, src/dnsio_tcp.c:577-584.
    [fails c] says that [c] has a DSO session and that writing the unidirectional
    message to it fails, in which case [conn_send_dso_uni] (lines 453-489, via
    [conn_write_packet] 431-451) destroys it. *)
Fixpoint stop_loop (fails : nat -> bool) (t : thr) (fuel : nat) (c : ptr) : res thr :=
  match c with
  | None => Ok t
  | Some i =>
      match fuel with
      | O => UB
      | S f =>
          do n <- deref (mem t) i;
          do t <- (if fails i then connq_destruct_conn t i true else Ok t);
          stop_loop fails t f (nxt n)
      end
  end.

(** [stop_handler], src/dnsio_tcp.c:546-607. *)
Definition stop_handler (fails : nat -> bool) (t : thr) : res thr :=
  rassert (negb (grace t))
  (do _ <- connq_assert_sane t;
   if Nat.eqb (num t) 0 then
     rassert (match timer t with None => true | _ => false end) (Ok t)
   else
     let t := with_grace t true in
     rassert (negb (isnull (qhead t)))
     (do t <- stop_loop fails t (S (num t)) (qhead t);
      if Nat.eqb (num t) 0 then
        rassert (match timer t with None => true | _ => false end) (Ok t)
      else Ok (with_timer t (Some (now t + GRACE))))).

(** What can happen to the queue. *)
Inductive event :=
| Tick (d : Z)               (* the loop's clock advances *)
| Accept (c : nat)           (* accept_handler got a connection, placed at c *)
| AcceptNoFd                 (* accept4 failed with ENFILE/EMFILE: lines 838-847 *)
| Refresh (c : nat)          (* conn_respond finished a transaction: line 703 *)
| Close (c : nat)            (* any single-connection close with queue management *)
| Timeout                    (* the timer fires *)
| Stop (fails : nat -> bool) (* stop request *).

Definition step (t : thr) (e : event) : res thr :=
  match e with
  | Tick d => Ok (with_now t (now t + d))
  | Accept c => accept t c
  | AcceptNoFd =>
      match qhead t with
      | Some hd => connq_destruct_conn t hd true
      | None => Ok t
      end
  | Refresh c => connq_refresh_conn t c
  | Close c => connq_destruct_conn t c true
  | Timeout => timeout_handler t
  | Stop fails => stop_handler fails t
  end.

(** When the event loop can deliver the event: the clock does not go back; a
    new connection gets memory that is not a live connection, and accepting
    stops once the thread is stopping; handlers run only for live connections
    (their watchers are stopped on destruction); the timer fires only when
    active and due; the stop handler runs once. *)
Definition enabled (stopped : bool) (t : thr) (e : event) : Prop :=
  match e with
  | Tick d => 0 <= d
  | Accept c => mem t c = None /\ stopped = false
  | AcceptNoFd => stopped = false
  | Refresh c | Close c => mem t c <> None
  | Timeout => exists x, timer t = Some x /\ x <= now t
  | Stop _ => stopped = false
  end.

Definition is_stop (e : event) : bool := match e with Stop _ => true | _ => false end.

(** Initial thread state (src/dnsio_tcp.c:1066-1110). *)
Definition init (maxc : nat) (tmo start : Z) : thr :=
  {| mem := fun _ => None; qhead := None; qtail := None; num := 0; max_clients := maxc;
     server_timeout := tmo; now := start; timer := None; grace := false |}.

Inductive run : bool -> thr -> list event -> bool -> res thr -> Prop :=
| run_nil s t : run s t [] s (Ok t)
| run_cons s t e es t' s' r : enabled s t e -> step t e = Ok t' ->
    run (s || is_stop e) t' es s' r -> run s t (e :: es) s' r
| run_ub s t e es : enabled s t e -> step t e = UB -> run s t (e :: es) s UB.
