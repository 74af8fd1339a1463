(** The published monitoring table and its readers, under every schedule.

    Models sttl_table_update (src/plugins/mon.c:101-115), the writes other
    parts of the monitoring thread make through smgr_sttl
    (src/plugins/mon.c:251-262, 323-342, 732-763), and resolver threads using
    gdnsd_mon_get_sttl_table (src/plugins/mon.h:136-140) between the RCU
    quiescent states of the I/O threads (src/dnsio_udp.c, src/dnsio_tcp.c).

    Every table element is written and read on its own step, so every
    interleaving of single-element accesses is an execution.  Memory order is
    sequentially consistent here: rcu_assign_pointer and rcu_dereference give
    the ordering on real hardware (trusted).

    synchronize_rcu is the one library call: it returns only when every thread
    that was inside a read-side section when it was called has passed a
    quiescent state (trusted, the documented contract of liburcu-qsbr). *)
From Verif Require Import Base.

(** Two tables; [consumer] is the one published through smgr_sttl_consumer_. *)
Inductive pub :=
| PIdle                        (* between updates: smgr_sttl is the other table *)
| PWait (gone : list nat)      (* in synchronize_rcu; readers already quiescent *)
| PCopy (k : nat)              (* memcpy of element k *).

Record reader := { r_tbl : bool; r_snap : list N; r_got : list (nat * N) }.
(* r_snap is ghost: the published content when the pointer was fetched *)

Record st := {
  t0 : list N; t1 : list N;
  cons_ : bool;                       (* which table is published *)
  phase_ : pub;
  old_readers : list nat;             (* ghost: in a section at the swap *)
  shadow : list N;                    (* ghost: all updates ever made, applied in order *)
  readers : nat -> option reader;
  published : list (list N)           (* ghost: every content published, newest first *)
}.

Definition tbl (s : st) (b : bool) : list N := if b then t1 s else t0 s.
Definition put_tbl (s : st) (b : bool) (l : list N) : st :=
  if b then {| t0 := t0 s; t1 := l; cons_ := cons_ s; phase_ := phase_ s; old_readers := old_readers s; shadow := shadow s; readers := readers s; published := published s |}
  else {| t0 := l; t1 := t1 s; cons_ := cons_ s; phase_ := phase_ s; old_readers := old_readers s; shadow := shadow s; readers := readers s; published := published s |}.
Definition set_phase (s : st) (p : pub) : st :=
  {| t0 := t0 s; t1 := t1 s; cons_ := cons_ s; phase_ := p; old_readers := old_readers s; shadow := shadow s; readers := readers s; published := published s |}.
Definition set_reader (s : st) (r : nat) (x : option reader) : st :=
  {| t0 := t0 s; t1 := t1 s; cons_ := cons_ s; phase_ := phase_ s; old_readers := old_readers s; shadow := shadow s;
     readers := fun j => if Nat.eqb j r then x else readers s j; published := published s |}.

Definition set_shadow (s : st) (l : list N) : st :=
  {| t0 := t0 s; t1 := t1 s; cons_ := cons_ s; phase_ := phase_ s; old_readers := old_readers s; shadow := l;
     readers := readers s; published := published s |}.
Section Sys.
  Variable n : nat.          (* number of reader threads *)

  Definition in_section (s : st) (r : nat) : Prop := r < n /\ readers s r <> None.

  Inductive stepr : st -> st -> Prop :=
  (** the monitoring thread changes one entry of its own table *)
  | S_write s i v : phase_ s = PIdle -> i < length (tbl s (negb (cons_ s))) ->
      stepr s (set_shadow (put_tbl s (negb (cons_ s)) (upd (tbl s (negb (cons_ s))) i v)) (upd (shadow s) i v))
  (** rcu_assign_pointer, then entering synchronize_rcu *)
  | S_swap s olds : phase_ s = PIdle ->
      (forall r, In r olds <-> in_section s r) ->
      stepr s {| t0 := t0 s; t1 := t1 s; cons_ := negb (cons_ s); phase_ := PWait [];
                 old_readers := olds; shadow := shadow s; readers := readers s;
                 published := tbl s (negb (cons_ s)) :: published s |}
  (** synchronize_rcu returns: every old reader has been quiescent since the
      swap (it may have entered a new section, hence the list [gone]) *)
  | S_return s gone : phase_ s = PWait gone ->
      (forall r, In r (old_readers s) -> In r gone) ->
      stepr s (set_phase s (PCopy 0))
  (** memcpy, one element at a time *)
  | S_copy s k v : phase_ s = PCopy k -> nth_error (tbl s (cons_ s)) k = Some v ->
      stepr s (set_phase (put_tbl s (negb (cons_ s)) (upd (tbl s (negb (cons_ s))) k v)) (PCopy (S k)))
  | S_copied s k : phase_ s = PCopy k -> k = length (tbl s (cons_ s)) ->
      stepr s (set_phase s PIdle)
  (** a resolver thread fetches the table pointer (first use in a section) *)
  | S_enter s r : r < n -> readers s r = None ->
      stepr s (set_reader s r (Some {| r_tbl := cons_ s; r_snap := tbl s (cons_ s); r_got := [] |}))
  (** ... reads an element ... *)
  | S_read s r x i v : r < n -> readers s r = Some x -> nth_error (tbl s (r_tbl x)) i = Some v ->
      stepr s (set_reader s r (Some {| r_tbl := r_tbl x; r_snap := r_snap x; r_got := (i, v) :: r_got x |}))
  (** ... and passes a quiescent state *)
  | S_quiet s r : r < n -> readers s r <> None ->
      stepr s (let s' := set_reader s r None in
               match phase_ s with PWait g => set_phase s' (PWait (r :: g)) | _ => s' end).

  Inductive reach (s0 : st) : st -> Prop :=
  | R0 : reach s0 s0
  | RS s s' : reach s0 s -> stepr s s' -> reach s0 s'.

  (** gdnsd_mon_start: both tables equal, nobody reading *)
  Definition initial_st (s : st) : Prop :=
    t0 s = t1 s /\ phase_ s = PIdle /\ (forall r, readers s r = None) /\ published s = [tbl s (cons_ s)] /\
    shadow s = t0 s.
End Sys.
