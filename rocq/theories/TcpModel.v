(** Model of the TCP request buffering of src/dnsio_tcp.c:609-824. *)
From Verif Require Import Base.

(** src/dnsio_tcp.c:65 and src/dnswire.h (DNS_RECV_SIZE). *)
Definition TCP_READBUF : nat := N.to_nat 3840.
Definition DNS_RECV_SIZE : N := 1024%N.

(** Which watcher of the connection is active: the read watcher or the check
    watcher (src/dnsio_tcp.c:705-728 keeps exactly one active). *)
Inductive watcher := ReadW | CheckW.

(** Why a connection was destroyed. *)
Inductive reason :=
| BadLength      (* conn_check_next_req, line 631 *)
| Dropped        (* process_dns_query returned 0, or the write failed: lines 680, 698 *)
| PeerEof        (* line 762 *)
| ReadError      (* line 775 *)
| ProxyFail.     (* line 809 *)

(** The per-connection state used here ([struct conn], src/dnsio_tcp.c:158-174).
    [rb] is readbuf, [head] readbuf_head, [cnt] readbuf_bytes.  [out] records the
    requests handed to [process_dns_query], oldest first. *)
Record conn := {
  rb : bytes; head : nat; cnt : nat; active : watcher;
  need_proxy : bool; closed : option reason; out : list bytes }.

Section Conn.
  (** Whether the [k]-th request of the connection gets a response that is
      completely written ([process_dns_query] non-zero and [conn_write_packet]
      false).  Any behaviour is allowed. *)
  Variable served : nat -> bytes -> bool.
  (** [proxy_parse], src/proxy.c: bytes consumed by the PROXY header at the
      start of the buffer, 0 on failure. *)
  Variable proxy_parse : bytes -> nat.

  Definition close (c : conn) (r : reason) : conn :=
    {| rb := rb c; head := head c; cnt := cnt c; active := active c;
       need_proxy := need_proxy c; closed := Some r; out := out c |}.

  Definition set_buf (c : conn) (b : bytes) (h n : nat) : conn :=
    {| rb := b; head := h; cnt := n; active := active c;
       need_proxy := need_proxy c; closed := closed c; out := out c |}.

  Definition set_active (c : conn) (w : watcher) : conn :=
    {| rb := rb c; head := head c; cnt := cnt c; active := w;
       need_proxy := need_proxy c; closed := closed c; out := out c |}.

  (** Result of [conn_check_next_req]: killed (-1), need more (0), size. *)
  Inductive ccnr := Killed | NeedMore | Ready (n : nat).

  (** [conn_check_next_req], src/dnsio_tcp.c:612-650.  Buffer reads are
      checked. *)
  Definition conn_check_next_req (c : conn) : res (ccnr * conn) :=
    if Nat.eqb (cnt c) 0 then Ok (NeedMore, set_buf c (rb c) 0 (cnt c))
    else
      do b0 <- rd (rb c) (head c);
      let size0 := N.shiftl b0 8 in
      do (req_size, undersized) <-
        (if Nat.ltb 1 (cnt c) then
           do b1 <- rd (rb c) (head c + 1);
           let s := (size0 + b1)%N in Ok (s, (s <? 12)%N)
         else Ok (size0, false));
      if (undersized || (DNS_RECV_SIZE <? req_size)%N)%bool then
        Ok (Killed, close c BadLength)
      else if (N.of_nat (cnt c) <? req_size + 2)%N then
        (* memmove to the bottom when needed *)
        if Nat.eqb (head c) 0 then Ok (NeedMore, c)
        else Ok (NeedMore, set_buf c (sub (rb c) (head c) (cnt c) ++ skipn (cnt c) (rb c)) 0 (cnt c))
      else Ok (Ready (N.to_nat req_size), c).

  (** [conn_respond], src/dnsio_tcp.c:658-729. *)
  Definition conn_respond (c : conn) (req_size : nat) : res conn :=
    (* line 661 *)
    rassert (Nat.leb 12 req_size && (N.of_nat req_size <=? DNS_RECV_SIZE)%N)%bool
    (* line 665: the memcpy must stay inside the buffer *)
    (rassert (Nat.leb (head c + 2 + req_size) (length (rb c)))
    (let req := sub (rb c) (head c + 2) req_size in
     let ok := served (length (out c)) req in
     (* lines 667-668; readbuf_bytes is unsigned, so it must not go below 0 *)
     rassert (Nat.leb (req_size + 2) (cnt c))
     (let c1 := {| rb := rb c; head := head c + (req_size + 2); cnt := cnt c - (req_size + 2);
                   active := active c; need_proxy := need_proxy c; closed := closed c;
                   out := out c ++ [req] |} in
      if negb ok then Ok (close c1 Dropped)
      else
        do (rv, c2) <- conn_check_next_req c1;
        match rv with
        | Killed => Ok c2
        | NeedMore => Ok (set_active c2 ReadW)
        | Ready _ => Ok (set_active c2 CheckW)
        end))).

  (** [check_handler], src/dnsio_tcp.c:731-748. *)
  Definition check_handler (c : conn) : res conn :=
    rassert (negb (need_proxy c))
    (rassert (Nat.ltb 2 (cnt c))
    (do b0 <- rd (rb c) (head c);
     do b1 <- rd (rb c) (head c + 1);
     let req_size := (N.shiftl b0 8 + b1)%N in
     rassert ((12 <=? req_size) && (req_size <=? DNS_RECV_SIZE))%N%bool
     (rassert (req_size + 2 <=? N.of_nat (cnt c))%N
      (conn_respond c (N.to_nat req_size))))).

  (** Results of recv(2). *)
  Inductive recv_rv := REof | RErr | RWouldBlock | RData (d : bytes).

  (** [conn_do_recv] and [read_handler], src/dnsio_tcp.c:755-824. *)
  Definition read_handler (c : conn) (rv : recv_rv) : res conn :=
    (* line 758 *)
    rassert (Nat.ltb (cnt c) TCP_READBUF)
    (match rv with
     | REof => Ok (close c PeerEof)
     | RErr => Ok (close c ReadError)
     | RWouldBlock => Ok c
     | RData d =>
         (* lines 786-787: recv returns at most what was asked *)
         rassert (Nat.ltb 0 (length d) && Nat.leb (length d) (TCP_READBUF - cnt c))%bool
         (let c1 := set_buf c (firstn (cnt c) (rb c) ++ d ++ skipn (cnt c + length d) (rb c))
                              (head c) (cnt c + length d) in
          do (stop, c2) <-
            (if need_proxy c1 then
               let c1' := {| rb := rb c1; head := head c1; cnt := cnt c1; active := active c1;
                             need_proxy := false; closed := closed c1; out := out c1 |} in
               let consumed := proxy_parse (sub (rb c1) 0 (cnt c1)) in
               rassert (Nat.leb consumed (cnt c1))
               (if Nat.eqb consumed 0 then Ok (true, close c1' ProxyFail)
                else Ok (false, set_buf c1' (rb c1') (head c1' + consumed) (cnt c1' - consumed)))
             else Ok (false, c1));
          if (stop : bool) then Ok c2
          else
            do (rv2, c3) <- conn_check_next_req c2;
            match rv2 with
            | Ready n => conn_respond c3 n
            | _ => Ok c3
            end)
     end).

  (** Event-loop events for one connection. *)
  Inductive event := EvRead (rv : recv_rv) | EvCheck.

  (** libev calls a handler only while its watcher is active, and recv(2)
      returns between one and the number of bytes asked for, all of them
      octets. *)
  Definition enabled (c : conn) (e : event) : Prop :=
    closed c = None /\
    match e with
    | EvRead (RData d) => active c = ReadW /\ 0 < length d <= TCP_READBUF - cnt c /\ all_bytes d
    | EvRead _ => active c = ReadW
    | EvCheck => active c = CheckW
    end.

  Definition step (c : conn) (e : event) : res conn :=
    match e with
    | EvRead rv => read_handler c rv
    | EvCheck => check_handler c
    end.

  (** State after accept (src/dnsio_tcp.c:863-888): zeroed memory. *)
  Definition conn_init (do_proxy : bool) : conn :=
    {| rb := repeat 0%N TCP_READBUF; head := 0; cnt := 0; active := ReadW;
       need_proxy := do_proxy; closed := None; out := [] |}.

  (** Executions. *)
  Inductive run : conn -> list event -> res conn -> Prop :=
  | run_nil c : run c [] (Ok c)
  | run_cons c e es c' r : enabled c e -> step c e = Ok c' -> run c' es r -> run c (e :: es) r
  | run_ub c e es : enabled c e -> step c e = UB -> run c (e :: es) UB.
End Conn.
