(** The external monitoring helper: src/plugins/extmon_comms.c/.h (the pipe),
    extmon_helper.c (the helper) and the reading side of extmon.c. *)
From Verif Require Import Base.

(** ** Reading and writing a pipe in blocking mode *)
(** What successive calls of read(2) meet: some bytes, a call to repeat, the end
    of the pipe, an error.  A call that wants fewer bytes than a chunk holds
    leaves the rest for the next one. *)
Inductive rchunk := RBytes (d : bytes) | RAgain | REof | RError.
Definition pipe := list rchunk.
(** [emc_read_nbytes], extmon_comms.c:53-71.  [Some None]: failure; [None]: the calls
    given do not suffice. *)
Fixpoint read_nbytes (p : pipe) (n : nat) : option (option (bytes * pipe)) :=
  if n =? 0 then Some (Some ([], p))
  else match p with
  | [] => None
  | RBytes d :: p =>
      if n <? length d then Some (Some (firstn n d, RBytes (skipn n d) :: p))
      else match read_nbytes p (n - length d) with
           | Some (Some (r, p)) => Some (Some (d ++ r, p))
           | x => x
           end
  | RAgain :: p => read_nbytes p n
  | REof :: _ | RError :: _ => Some None
  end.
(** What successive calls of write(2) do: take so many bytes, want to be repeated, fail. *)
Inductive wcall := WTake (k : nat) | WAgain | WFail.
(** [emc_write_string], extmon_comms.c:33-51: what got into the pipe, and whether
    it all did. *)
Fixpoint write_string (w : list wcall) (s : bytes) : option (bytes * bool * list wcall) :=
  match s with
  | [] => Some ([], true, w)
  | _ =>
    match w with
    | [] => None
    | WTake k :: w =>
        let k := Nat.max 1 (Nat.min k (length s)) in
        match write_string w (skipn k s) with
        | Some (o, ok, w) => Some (firstn k s ++ o, ok, w)
        | None => None
        end
    | WAgain :: w => write_string w s
    | WFail :: w => Some ([], false, w)
    end
  end.

(** ** Commands *)
(** extmon_cmd_t, extmon_comms.h:31-40; strings without their NUL *)
Record cmd := { c_idx : N; c_timeout : N; c_interval : N; c_max_proc : N; c_args : list bytes; c_desc : bytes }.
Definition CMD_ : bytes := [67; 77; 68; 58]%N.  (* "CMD:" *)

Section Write.
  (** what malloc leaves in fresh memory *)
  Variable junk : N.
  (** the loop that doubles the buffer, extmon_comms.c:109-112 and 119-122 *)
  Fixpoint grow (fuel : nat) (buf : bytes) (need : nat) : res bytes :=
    match fuel with
    | 0 => UB
    | S fuel => if length buf <? need then grow fuel (buf ++ repeat junk (length buf)) need else Ok buf
    end.
  (** memcpy of a string with its NUL to [&buf[len]], after growing *)
  Definition put_str (buf : bytes) (len : nat) (s : bytes) : res (bytes * nat) :=
    let n := length s + 1 in
    do buf <- grow (S (len + n + 16)) buf (len + n + 16);
    do buf <- wr buf len (s ++ [0%N]);
    Ok (buf, len + n).
  Fixpoint put_args (buf : bytes) (len : nat) (args : list bytes) : res (bytes * nat) :=
    match args with
    | [] => Ok (buf, len)
    | a :: args => do (buf, len) <- put_str buf len a; put_args buf len args
    end.
  (** [emc_write_command], extmon_comms.c:82-135, up to the call of emc_write_string:
      the bytes to send.  Sizes do not wrap here. *)
  Definition make_command (c : cmd) : res bytes :=
    let buf := repeat junk 256 in
    do buf <- wr buf 0 CMD_;
    do buf <- wr buf 4 (be16 (c_idx c)); do buf <- wr buf 6 (be16 (c_timeout c));
    do buf <- wr buf 8 (be16 (c_interval c)); do buf <- wr buf 10 (be16 (c_max_proc c));
    do buf <- wr buf 14 [(N.of_nat (length (c_args c)) mod 256)%N];
    do (buf, len) <- put_args buf 15 (c_args c);
    do (buf, len) <- put_str buf len (c_desc c);
    do buf <- wr buf 12 (be16 (N.of_nat (len - 14)));
    rdn buf 0 len.
End Write.

(** the bytes up to the first NUL, if there is one within the buffer: strnlen and
    [nul_within_n_bytes], extmon_comms.c:137-147 *)
Fixpoint take_str (b : bytes) : option (bytes * bytes) :=
  match b with
  | [] => None
  | x :: b => if (x =? 0)%N then Some ([], b) else match take_str b with Some (s, r) => Some (x :: s, r) | None => None end
  end.
Fixpoint take_args (n : nat) (b : bytes) : option (list bytes * bytes) :=
  match n with
  | 0 => Some ([], b)
  | S n => match take_str b with
           | None => None
           | Some (a, b) => match take_args n b with Some (l, b) => Some (a :: l, b) | None => None end
           end
  end.
(** [emc_read_command], extmon_comms.c:149-240.  [Some None]: failure. *)
Definition read_command (p : pipe) : option (option (cmd * pipe)) :=
  match read_nbytes p 14 with
  | None => None
  | Some None => Some None
  | Some (Some (f, p)) =>
      if negb (if list_eq_dec N.eq_dec (firstn 4 f) CMD_ then true else false) then Some None
      else
        let w i := get16 (nth i f 0%N) (nth (S i) f 0%N) in
        let var_len := N.to_nat (w 12) in
        if var_len <? 4 then Some None
        else match read_nbytes p var_len with
             | None => None
             | Some None => Some None
             | Some (Some (v, p)) =>
                 let n_args := N.to_nat (hd 0%N v) in
                 if n_args =? 0 then Some None
                 else match take_args n_args (tl v) with
                      | None => Some None
                      | Some (args, r) =>
                          match take_str r with
                          | Some (d, []) => Some (Some ({| c_idx := w 4; c_timeout := w 6; c_interval := w 8; c_max_proc := w 10; c_args := args; c_desc := d |}, p))
                          | _ => Some None  (* no NUL, or unused bytes at the end *)
                          end
                      end
             end
  end.

(** ** Results *)
(** emc_encode_mon, emc_encode_exit and their inverses, extmon_comms.h:63-103 *)
Definition FA : N := 17985. (* ('F' << 8) | 'A' *)
Definition OK_ : N := 20299. (* ('O' << 8) | 'K' *)
Definition encode_mon (idx : N) (failed : bool) : res N :=
  rassert (idx <? 65536)%N (Ok (N.lor (N.shiftl idx 16) (if failed then FA else OK_))).
Definition encode_exit : N := 4294967295.
Definition is_exit (d : N) : bool := (d =? 4294967295)%N.
Definition decode_idx (d : N) : N := N.shiftr d 16.
Definition decode_failed (d : N) : bool := negb (N.land d 65535 =? OK_)%N.

(** The queue of results, extmon_helper.c:68-134: sendq_init, sendq_enq, sendq_deq_peek,
    sendq_deq_commit.  Numbers do not wrap here. *)
Record sendq := { q : list N; q_len : nat; q_head : nat }.  (* sendq_alloc is the length of [q] *)
Definition sendq_init : sendq := {| q := repeat 0%N 16; q_len := 0; q_head := 0 |}.
(** x & (alloc - 1) *)
Definition mask (x alloc : nat) : nat := N.to_nat (N.land (N.of_nat x) (N.of_nat (alloc - 1))).
Fixpoint copyq (old : list N) (head i n : nat) : res (list N) :=
  match n with
  | 0 => Ok []
  | S n => do x <- rd old (mask (head + i) (length old)); do r <- copyq old head (S i) n; Ok (x :: r)
  end.
Definition enq (s : sendq) (d : N) : res sendq :=
  let alloc := length (q s) in
  if q_len s <? alloc then
    do b <- wr (q s) (mask (q_head s + q_len s) alloc) [d];
    Ok {| q := b; q_len := S (q_len s); q_head := q_head s |}
  else
    do r <- copyq (q s) (q_head s) 0 (q_len s);
    do b <- wr (r ++ repeat 0%N (2 * alloc - length r)) (q_len s) [d];
    Ok {| q := b; q_len := S (q_len s); q_head := 0 |}.
Definition peek (s : sendq) : res N := rassert (negb (q_len s =? 0)) (rd (q s) (q_head s)).
Definition commit (s : sendq) : res sendq :=
  rassert (negb (q_len s =? 0)) (Ok {| q := q s; q_len := q_len s - 1; q_head := mask (q_head s + 1) (length (q s)) |}).

(** ** The helper *)
(** One monitor, mon_t of extmon_helper.c:41-48.  [w_*]: the libev child watcher: whether it
    is active, the bucket it was put into when started, and its pid field. *)
Record hmon := { m_max : nat; m_pid : nat; m_pending : bool; m_timer : bool; w_active : bool; w_bucket : nat; w_pid : nat }.
(** num_proc, the queue, whether the pipe's watcher is active, killed_by (set together with
    done_once), and the words written to the pipe *)
Record helper := { mons : list hmon; nproc : nat; sq : sendq; w_on : bool; killed : bool; sent : list N }.

Inductive hcall := HOk | HAgain | HIntr | HFail.
Inductive event :=
| Interval (m pid : nat)          (* the interval timer; the fork gives [pid] *)
| Timeout (m : nat)               (* the timer of the running command *)
| Exit (pid : nat) (failed : bool)  (* a child is reaped *)
| Writable (l : list hcall)       (* the pipe is writable; what the writes meet *)
| Term.                           (* SIGTERM or SIGINT *)

Definition set_mon (h : helper) (m : nat) (x : hmon) : helper := {| mons := upd (mons h) m x; nproc := nproc h; sq := sq h; w_on := w_on h; killed := killed h; sent := sent h |}.
(** A result: sendq_enq and ev_io_start, unless a signal came before; and one process less.
    extmon_helper.c:155-162 and 194-201.  cmd->idx is the number of the monitor, 423-424. *)
Definition report (h : helper) (m : nat) (failed : bool) : res helper :=
  do h <- (if killed h then Ok h
           else do d <- encode_mon (N.of_nat m) failed;
                do s <- enq (sq h) d;
                Ok {| mons := mons h; nproc := nproc h; sq := s; w_on := true; killed := killed h; sent := sent h |});
  Ok {| mons := mons h; nproc := nproc h - 1; sq := sq h; w_on := w_on h; killed := killed h; sent := sent h |}.

(** [mon_interval_cb], extmon_helper.c:206-284; with too many processes only the timer
    is set, to fire again soon.  libev: ev_child_start does nothing
    to an active watcher, which stays in its bucket although ev_child_set
    has changed its pid. *)
Definition do_interval (h : helper) (m pid : nat) : res helper :=
  match nth_error (mons h) m with
  | None => Ok h
  | Some x =>
      rassert (negb (m_pending x))
      (if negb (m_max x =? 0) && (m_max x <=? nproc h) then Ok h else
       let h := {| mons := mons h; nproc := S (nproc h); sq := sq h; w_on := w_on h; killed := killed h; sent := sent h |} in
       Ok (set_mon h m {| m_max := m_max x; m_pid := pid; m_pending := true; m_timer := true; w_active := true;
                          w_bucket := if w_active x then w_bucket x else pid mod 16; w_pid := pid |}))
  end.
(** [mon_timeout_cb], extmon_helper.c:138-164 *)
Definition do_timeout (h : helper) (m : nat) : res helper :=
  match nth_error (mons h) m with
  | None => Ok h
  | Some x =>
      if negb (m_timer x) then Ok h else
      rassert (m_pending x)
      (do h <- report h m true;
       Ok (set_mon h m {| m_max := m_max x; m_pid := m_pid x; m_pending := false; m_timer := false; w_active := w_active x; w_bucket := w_bucket x; w_pid := w_pid x |}))
  end.
(** [mon_child_cb], extmon_helper.c:166-204 *)
Definition do_child (h : helper) (m : nat) (failed : bool) : res helper :=
  match nth_error (mons h) m with
  | None => Ok h
  | Some x =>
      do h <- (if m_pending x then report h m failed else Ok h);
      Ok (set_mon h m {| m_max := m_max x; m_pid := 0; m_pending := false; m_timer := false; w_active := false; w_bucket := w_bucket x; w_pid := w_pid x |})
  end.
(** libev's child_reap: the watchers in the bucket of the pid, and in bucket 0,
    that have this pid *)
Definition matches (pid : nat) (x : hmon) : bool := w_active x && ((w_bucket x =? pid mod 16) || (w_bucket x =? 0)) && (w_pid x =? pid).
Fixpoint do_exit (h : helper) (ms : list nat) (pid : nat) (failed : bool) : res helper :=
  match ms with
  | [] => Ok h
  | m :: ms =>
      do h <- (match nth_error (mons h) m with Some x => if matches pid x then do_child h m failed else Ok h | None => Ok h end);
      do_exit h ms pid failed
  end.
(** [plugin_write_cb], extmon_helper.c:286-321; the write of four bytes is atomic.  A write
    that fails ends the loop; here the words just stay. *)
Fixpoint do_write (h : helper) (l : list hcall) : res helper :=
  if q_len (sq h) =? 0 then Ok {| mons := mons h; nproc := nproc h; sq := sq h; w_on := false; killed := killed h; sent := sent h |}
  else match l with
  | [] => Ok h
  | HAgain :: _ | HFail :: _ => Ok h
  | HIntr :: l => do_write h l
  | HOk :: l =>
      do d <- peek (sq h);
      do s <- commit (sq h);
      do_write {| mons := mons h; nproc := nproc h; sq := s; w_on := w_on h; killed := killed h; sent := sent h ++ [d] |} l
  end.
(** [sig_cb] and [die_gracefully], extmon_helper.c:323-364; interval timers are stopped *)
Definition do_term (h : helper) : res helper :=
  if killed h then Ok h
  else do s <- enq (sq h) encode_exit; Ok {| mons := mons h; nproc := nproc h; sq := s; w_on := true; killed := true; sent := sent h |}.

Definition hstep (h : helper) (e : event) : res helper :=
  match e with
  | Interval m pid => if killed h then Ok h else do_interval h m pid
  | Timeout m => do_timeout h m
  | Exit pid failed => do_exit h (seq 0 (length (mons h))) pid failed
  | Writable l => if w_on h then do_write h l else Ok h
  | Term => do_term h
  end.
Fixpoint hrun (h : helper) (es : list event) : res helper :=
  match es with [] => Ok h | e :: es => do h <- hstep h e; hrun h es end.
(** main, extmon_helper.c:410 and 443-489, with the max_proc of each command *)
Definition hinit (maxes : list nat) : helper :=
  {| mons := map (fun x => {| m_max := x; m_pid := 0; m_pending := false; m_timer := false; w_active := false; w_bucket := 0; w_pid := 0 |}) maxes; nproc := 0; sq := sendq_init; w_on := false; killed := false; sent := [] |}.

(** ** The daemon *)
(** [helper_read_cb], extmon.c:121-179: the updates made for the words read;
    [None]: log_fatal.  Reading stops at the exit message. *)
Fixpoint daemon_read (num_mons : nat) (ws : list N) : option (list (nat * bool)) :=
  match ws with
  | [] => Some []
  | d :: ws =>
      if is_exit d then Some []
      else let i := N.to_nat (decode_idx d) in
           if num_mons <=? i then None
           else match daemon_read num_mons ws with Some l => Some ((i, decode_failed d) :: l) | None => None end
  end.
