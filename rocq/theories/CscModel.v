(** The other end of the control socket: src/csc.c, the takeover of sockets by a
    new daemon (src/css.c:963-1009, 1108-1133) and the challenges command of
    gdnsdctl (src/gdnsdctl.c:273-326).

    Kernel results come as arguments.  [log_fatal] is the outcome Fatal (or
    Refused). *)
From Verif Require Import Base DnameModel CtlModel.

(** ** Messages, src/cs.h:29-60 (little-endian) *)
Local Open Scope N_scope.
Definition csbuf_set_v (v : N) : res (N * N * N) :=
  rassert (v <=? 16777215) (Ok (N.shiftr v 16 mod 256, N.shiftr v 8 mod 256, v mod 256)).
Definition raw8 (key v d : N) : res bytes :=
  do t <- csbuf_set_v v ;
  let '(v0, v1, v2) := t in
  Ok [key; v0; v1; v2; d mod 256; d / 256 mod 256; d / 65536 mod 256; d / 16777216 mod 256].

(** [csc_server_version_gte], src/csc.c:168-175 *)
Definition version_gte (smaj smin spat major minor patch : N) : bool :=
  (major <? smaj) || ((smaj =? major) && (minor <? smin)) || ((smaj =? major) && (smin =? minor) && (patch <=? spat)).
Local Close Scope N_scope.

(** ** Receiving.  What arrives: pieces, each got by one or more calls of recv; an empty
    piece or the end of the list: the daemon has closed. *)
Inductive arrival := Piece (b : bytes) | Failed.
Inductive txn := TxOk | TxSoft | TxHard.

(** recv of at most [wanted] bytes; [None]: -1 *)
Definition recv (net : list arrival) (wanted : nat) : option bytes * list arrival :=
  match net with
  | [] => (Some [], [])
  | Failed :: net => (None, net)
  | Piece b :: net =>
      if length b <=? wanted then (Some b, net) else (Some (firstn wanted b), Piece (skipn wanted b) :: net)
  end.

(** [csc_txn], src/csc.c:270-293: the 8 bytes have been sent; result, answer, what
    is still to be received. *)
Definition csc_txn (sent8 : bool) (net : list arrival) : txn * (N * N * N) * list arrival :=
  if negb sent8 then (TxSoft, (0, 0, 0)%N, net)
  else
    match recv net 8 with
    | (Some [key; v0; v1; v2; d0; d1; d2; d3], net) =>
        ((if (key =? RESP_ACK)%N then TxOk else if (key =? RESP_LATR)%N then TxSoft else TxHard), (key, make_v v0 v1 v2, make_d d0 d1 d2 d3), net)
    | (_, net) => (TxSoft, (0, 0, 0)%N, net)
    end.

(** The loop of [csc_txn_getdata], src/csc.c:305-317, and of csc_get_stats_handoff. *)
Fixpoint recv_loop (net : list arrival) (buf : bytes) (done total : nat) {struct net} : res (option bytes * list arrival) :=
  if done <? total then
    match net with
    | [] => Ok (None, [])
    | Failed :: net => Ok (None, net)
    | Piece b :: net' =>
        let wanted := total - done in
        if length b <=? wanted then
          match b with
          | [] => Ok (None, net')
          | _ => do buf <- wr buf done b ; recv_loop net' buf (done + length b) total
          end
        else
          do buf <- wr buf done (firstn wanted b) ;
          Ok (Some buf, Piece (skipn wanted b) :: net')
    end
  else Ok (Some buf, net).
(** [csc_txn_getdata], src/csc.c:295-322.  The last case of recv_loop is the end of
    its loop, as then done = total. *)
Definition csc_txn_getdata (sent8 : bool) (net : list arrival) : res (txn * (N * N * N) * option bytes * list arrival) :=
  match csc_txn sent8 net with
  | (TxOk, (key, v, d), net) =>
      if (d =? 0)%N then Ok (TxOk, (key, v, d), None, net)
      else
        let total := N.to_nat d in
        do r <- recv_loop net (repeat 0%N total) 0 total ;
        match r with
        | (Some buf, net) => Ok (TxOk, (key, v, d), Some buf, net)
        | (None, net) => Ok (TxHard, (key, v, d), None, net)
        end
  | (rv, x, net) => Ok (rv, x, None, net)
  end.

(** ** Sending data: [csc_txn_senddata], src/csc.c:324-363.  [sends]: the results of
    send (a number of bytes or -1); [None]: still sending when they end.  The bytes
    sent after the first 8. *)
Inductive sentr := SentBytes (n : nat) | SendFails.
Fixpoint send_loop (sends : list sentr) (data : bytes) (done total : nat) (out : bytes) {struct sends} : res (option bool * bytes) :=
  if done <? total then
    match sends with
    | [] => Ok (None, out)
    | SendFails :: _ => Ok (Some false, out)
    | SentBytes n :: sends =>
        let n := Nat.min n (total - done) in
        do b <- rdn data done n ;
        send_loop sends data (done + n) total (out ++ b)
    end
  else Ok (Some true, out).
Definition csc_txn_senddata (sent8 : bool) (sends : list sentr) (d : N) (data : bytes) (net : list arrival) : res (option (txn * (N * N * N)) * bytes) :=
  rassert (negb (d =? 0)%N)
  (if negb sent8 then Ok (Some (TxSoft, (0, 0, 0)%N), [])
   else
     do r <- send_loop sends data 0 (N.to_nat d) [] ;
     match r with
     | (None, out) => Ok (None, out)
     | (Some false, out) => Ok (Some (TxSoft, (0, 0, 0)%N), out)
     | (Some true, out) => Ok (Some (fst (csc_txn true net)), out)
     end).

(** ** Receiving sockets *)
(** A control message: SCM_RIGHTS with these sockets and [extra] (less than 4) more
    bytes, or another one. *)
Inductive cmsg := Rights (fds : list N) (extra : nat) | OtherCmsg.
(** A result of recvmsg: bytes, MSG_CTRUNC, control messages.  Bytes other than 8: an
    error or the end. *)
Record rmsg := { m_bytes : bytes; m_ctrunc : bool; m_cmsgs : list cmsg }.
Inductive got_fds := Fatal | Waiting | Done (fds : list N).

(** [get_control_fds], src/csc.c:177-194: [None] is fatal; else the new contents and how many. *)
Fixpoint get_control_fds (cs : list cmsg) (fds : list N) (recvd wanted : nat) : res (option (list N * nat)) :=
  match cs with
  | [] => Ok None
  | OtherCmsg :: cs => get_control_fds cs fds recvd wanted
  | Rights l extra :: _ =>
      let n := length l in
      if (n =? 0) || negb (extra =? 0) || (wanted <? n + recvd) then Ok None
      else do fds <- wr fds recvd l ; Ok (Some (fds, n))
  end.

(** [csc_txn_getfds], src/csc.c:196-268; [fds]: [None] before the first message, else
    the array (its size is fds_wanted). *)
Fixpoint getfds_loop (net : list rmsg) (fds : option (list N)) (recvd : nat) {struct net} : res got_fds :=
  match net with
  | [] => Ok Waiting
  | m :: net =>
      match m_bytes m with
      | [key; v0; v1; v2; _; _; _; _] =>
          if m_ctrunc m then Ok Fatal
          else
            let v := make_v v0 v1 v2 in
            let fds' :=
              match fds with
              | None => if negb (key =? RESP_ACK)%N || (v <? 2)%N then None else Some (repeat 0%N (N.to_nat v))
              | Some l => if negb (key =? RESP_ACK)%N || negb (N.of_nat (length l) =? v)%N then None else Some l
              end in
            match fds' with
            | None => Ok Fatal
            | Some l =>
                rassert (2 <=? length l)
                (do r <- get_control_fds (m_cmsgs m) l recvd (length l) ;
                 match r with
                 | None => Ok Fatal
                 | Some (l, n) =>
                     rassert (negb (n =? 0))
                     (let recvd := recvd + n in
                      if recvd <? length l then getfds_loop net (Some l) recvd
                      else rassert (recvd =? length l) (Ok (Done l)))
                 end)
            end
      | _ => Ok Fatal
      end
  end.
Definition csc_txn_getfds (sent8 : bool) (net : list rmsg) : res got_fds :=
  if negb sent8 then Ok Fatal else getfds_loop net None 0.

(** ** Giving sockets to threads *)
(** [gdnsd_anysin_t]: what gdnsd_anysin_cmp reads of it. *)
Inductive family := INET | INET6 | OtherFamily.
Record anysin := { a_len : nat; a_family : family; a_addr : bytes; a_port : N }.
Definition family_eqb (a b : family) : bool := match a, b with INET, INET | INET6, INET6 | OtherFamily, OtherFamily => true | _, _ => false end.
Fixpoint bytes_eqb (a b : bytes) : bool := match a, b with [], [] => true | x :: a, y :: b => (x =? y)%N && bytes_eqb a b | _, _ => false end.
(** [gdnsd_anysin_cmp], libgdnsd/net.c:319-333: true stands for 0 (the same). *)
Definition anysin_same (a b : anysin) : bool :=
  (a_len a =? a_len b) && family_eqb (a_family a) (a_family b) &&
  match a_family a with
  | INET | INET6 => bytes_eqb (a_addr a) (a_addr b) && (a_port a =? a_port b)%N
  | OtherFamily => false
  end.
(** [dns_thread_t], src/socks.h: sock (-1: [None]), is_udp, the address of [ac]. *)
Record dthread := { d_sock : option N; d_udp : bool; d_addr : anysin }.

(** What getsockname and getsockopt(SO_TYPE) say of a descriptor.  [errno] may be
    EBADF from an earlier call when the address is too long. *)
Inductive sockname := NotOpen | NameFails | NameTooLong (ebadf : bool) | Named (a : anysin).
Inductive socktype := TypeFails | OtherType | Dgram | Stream.

Section Import.
  Variable name_of : N -> sockname.
  Variable type_of : N -> socktype.
  (** The loop, src/css.c:992-1000: [None]: no thread takes it. *)
  Fixpoint first_free (ts : list dthread) (fd : N) (udp : bool) (a : anysin) : option (list dthread) :=
    match ts with
    | [] => None
    | t :: ts =>
        if match d_sock t with None => true | _ => false end && Bool.eqb (d_udp t) udp && anysin_same (d_addr t) a
        then Some ({| d_sock := Some fd; d_udp := d_udp t; d_addr := d_addr t |} :: ts)
        else match first_free ts fd udp a with Some ts => Some (t :: ts) | None => None end
    end.
  (** [socks_import_fd], src/css.c:963-1003: threads and descriptors closed. *)
  Definition import_fd (ts : list dthread) (fd : N) : list dthread * list N :=
    match name_of fd with
    | NotOpen => (ts, [])
    | NameTooLong true => (ts, [])
    | NameFails | NameTooLong false => (ts, [fd])
    | Named a =>
        match type_of fd with
        | TypeFails | OtherType => (ts, [fd])
        | ty =>
            match first_free ts fd (match ty with Dgram => true | _ => false end) a with
            | Some ts => (ts, [])
            | None => (ts, [fd])
            end
        end
    end.
  (** [socks_import_fds], src/css.c:1005-1009 *)
  Fixpoint import_fds (ts : list dthread) (fds : list N) : list dthread * list N :=
    match fds with
    | [] => (ts, [])
    | fd :: fds => let (ts, c) := import_fd ts fd in let (ts, cs) := import_fds ts fds in (ts, c ++ cs)
    end.
  (** The takeover in [css_new], src/css.c:1108-1133: lock, control socket, threads, closed. *)
  Definition take_over (ts : list dthread) (fds : list N) : res (N * N * list dthread * list N) :=
    rassert (2 <=? length fds)
    (do lock <- rd fds 0 ; do sock <- rd fds 1 ;
     let (ts, closed) := import_fds ts (skipn 2 fds) in
     Ok (lock, sock, ts, closed)).
  (** [css_start], src/css.c:1165-1176: what the next replacement will get.  A thread whose
      sock is -1 has made its own by then; [fresh] says which. *)
  Definition handoff_fds (lock sock : N) (ts : list dthread) (fresh : nat -> N) : list N :=
    lock :: sock :: map (fun p => match d_sock (snd p) with Some f => f | None => fresh (fst p) end) (combine (seq 0 (length ts)) ts).
End Import.

(** ** gdnsdctl acme-dns-01 *)
(** b64u_legal, src/gdnsdctl.c:251-269 *)
Definition b64u_legal (x : N) : bool :=
  ((x =? 45) || ((48 <=? x) && (x <=? 57)) || ((65 <=? x) && (x <=? 90)) || (x =? 95) || ((97 <=? x) && (x <=? 122)))%N.
(** "_acme-challenge." *)
Definition acme_prefix : bytes := [95; 97; 99; 109; 101; 45; 99; 104; 97; 108; 108; 101; 110; 103; 101; 46]%N.
Definition strip_prefix (s : bytes) : bytes := if bytes_eqb (firstn 16 s) acme_prefix then skipn 16 s else s.
(** One round of the loop, src/gdnsdctl.c:282-308; [None] is fatal.  dname_from_string
    writes to the 256 bytes from [dlen] on. *)
Definition chal_one (buf : bytes) (dlen : nat) (dn_in ch_in : bytes) : res (option (bytes * nat)) :=
  rassert (284 <=? N.to_nat 28400 - dlen)
  (let dn_in := strip_prefix dn_in in
   do b <- rdn buf dlen 256 ;
   do r <- dname_from_string b dn_in ;
   match r with
   | (DNAME_INVALID, _) => Ok None
   | (_, b) =>
       do l <- rd b 0 ;
       if (239 <? l)%N then Ok None
       else
         do b <- dname_terminate b ;
         do buf <- wr buf dlen b ;
         let dlen := dlen + (N.to_nat l + 1) in
         if negb (length ch_in =? 43) then Ok None
         else if negb (forallb b64u_legal ch_in) then Ok None
         else
           do buf <- wr buf dlen ch_in ;
           let dlen := dlen + 43 in
           do buf <- wr buf dlen [0%N] ;
           let dlen := S dlen in
           rassert (dlen <=? N.to_nat 28400) (Ok (Some (buf, dlen)))
   end).
Fixpoint chal_loop (buf : bytes) (dlen : nat) (args : list (bytes * bytes)) : res (option (bytes * nat)) :=
  match args with
  | [] => Ok (Some (buf, dlen))
  | (dn, ch) :: args =>
      do r <- chal_one buf dlen dn ch ;
      match r with
      | None => Ok None
      | Some (buf, dlen) => chal_loop buf dlen args
      end
  end.
(** [action_chal], src/gdnsdctl.c:273-316, up to the request it sends: the 8 bytes and the
    data; [None]: usage() or fatal.  The arguments come in pairs (an odd number is refused).
    [buf]: the contents of fresh memory. *)
Definition action_chal (buf : bytes) (args : list (bytes * bytes)) : res (option (bytes * N * bytes)) :=
  if (length args =? 0) || (100 <? length args) then Ok None
  else
    do r <- chal_loop buf 0 args ;
    match r with
    | None => Ok None
    | Some (buf, dlen) =>
        do h <- raw8 REQ_CHAL (N.of_nat (length args)) (N.of_nat dlen) ;
        Ok (Some (h, N.of_nat dlen, buf))
    end.
