(** Model of include/gdnsd/rand.h and of the answer shuffle of
    src/dnspacket.c. *)
From Verif Require Import Base.
Local Open Scope N_scope.

(** [gdnsd_rstate32_t], include/gdnsd/rand.h:44-50. *)
Record rstate := { rs_x : N; rs_y : N; rs_z : N; rs_w : N; rs_c : N }.

(** 32-bit left shift with the C truncation. *)
Definition shl32 (v k : N) : N := N.shiftl v k mod two32.

(** The xorshift part of [gdnsd_rand32_get], include/gdnsd/rand.h:65-69. *)
Definition xorshift_y (y0 : N) : N :=
  let y1 := N.lxor y0 (shl32 y0 5) in
  let y2 := N.lxor y1 (N.shiftr y1 7) in
  N.lxor y2 (shl32 y2 22).

(** [gdnsd_rand32_get], include/gdnsd/rand.h:62-80. *)
Definition rand32_get (rs : rstate) : N * rstate :=
  let y := xorshift_y (rs_y rs) in
  let t := (rs_z rs + rs_w rs + rs_c rs) mod two32 in
  let z := rs_w rs in
  let c := N.shiftr (N.land t 2147483648) 31 in
  let w := N.land t 2147483647 in
  let x := (rs_x rs + 1411392427) mod two32 in
  ((x + y + w) mod two32, {| rs_x := x; rs_y := y; rs_z := z; rs_w := w; rs_c := c |}).

(** [gdnsd_rand32_init], include/gdnsd/rand.h:52-60: the state is random,
    redrawn until [y] is non-zero.  The libsodium bytes are an input. *)
Definition valid_rstate (rs : rstate) : Prop :=
  rs_x rs < two32 /\ 0 < rs_y rs < two32 /\ rs_z rs < two32 /\ rs_w rs < two32 /\ rs_c rs < two32.

(** [gdnsd_rand32_bounded], include/gdnsd/rand.h:87-100, over any generator
    [get].  The rejection loop (lines 94-97) has no bound in C; here [fuel]
    is the number of extra draws allowed and [None] means "still looping". *)
Section Bounded.
  Context {S : Type} (get : S -> N * S).

  (** lines 94-97 *)
  Fixpoint bounded_loop (fuel : nat) (threshold bound mr : N) (s : S) : option (N * S) :=
    let leftover := mr mod two32 in
    if leftover <? threshold then
      match fuel with
      | O => None
      | Datatypes.S fuel' =>
          let (r, s') := get s in
          bounded_loop fuel' threshold bound (r * bound) s'
      end
    else Some (N.shiftr mr 32, s).

  (** lines 90-99; [0U - bound] wraps modulo 2^32 *)
  Definition rand32_bounded (fuel : nat) (s : S) (bound : N) : option (N * S) :=
    let (r, s1) := get s in
    let mr := r * bound in
    let leftover := mr mod two32 in
    if leftover <? bound then
      let threshold := ((two32 - bound) mod two32) mod bound in
      bounded_loop fuel threshold bound mr s1
    else Some (N.shiftr mr 32, s1).
End Bounded.

(** [memcpy(&buf[at], src, length src)] on a byte buffer. *)
Definition splice {A} (buf : list A) (at_ : nat) (src : list A) : list A :=
  firstn at_ buf ++ src ++ skipn (at_ + length src) buf.

(** The three memcpy's of src/dnspacket.c:919-924 (swap of two fixed-size
    records inside the packet bytes). *)
Definition swap_chunks (rr_len : nat) (buf : bytes) (i j : nat) : bytes :=
  let temp := sub buf (i * rr_len) rr_len in
  let buf1 := splice buf (i * rr_len) (sub buf (j * rr_len) rr_len) in
  splice buf1 (j * rr_len) temp.

(** The Fisher/Yates loop of [shuffle_addrs_rdata], src/dnspacket.c:913-926,
    for [i] counting down to 1.  [draws] supplies the value of
    [gdnsd_rand32_bounded(rs, i + 1)] for each iteration; a missing draw
    (list too short) stops the loop and is excluded by the theorems. *)
Fixpoint shuffle_loop (rr_len : nat) (i : nat) (draws : list nat) (buf : bytes) : bytes :=
  match i, draws with
  | O, _ => buf
  | Datatypes.S i', j :: draws' =>
      let buf' := if Nat.eqb j i then buf else swap_chunks rr_len buf i j in
      shuffle_loop rr_len i' draws' buf'
  | Datatypes.S _, [] => buf
  end.

(** [shuffle_addrs_rdata], src/dnspacket.c:894-927, with its assertions
    (line 897: non-zero count; line 901: rr_len 16 or 28; line 907: the name
    starts with a compression pointer or is the root). *)
Definition shuffle_addrs_rdata (draws : list nat) (buf : bytes) (rr_count rr_len : nat) : res bytes :=
  rassert (negb (Nat.eqb rr_count 0))
  (rassert (Nat.eqb rr_len 16 || Nat.eqb rr_len 28)%bool
  (do b0 <- rd buf 0;
   rassert (negb (N.land b0 192 =? 0) || (b0 =? 0))%bool
   (let rr_len' := if b0 =? 0 then Nat.pred rr_len else rr_len in
    Ok (shuffle_loop rr_len' (rr_count - 1) draws buf)))).

(** The draws really used by the loop, taken from a generator: the loop asks
    for a value below [i+1] for [i = n-1 .. 1]. *)
Fixpoint loop_draws {S} (get : S -> N * S) (fuel : nat) (i : nat) (s : S) : option (list nat * S) :=
  match i with
  | O => Some ([], s)
  | Datatypes.S i' =>
      match rand32_bounded get fuel s (N.of_nat (i + 1)) with
      | None => None
      | Some (j, s') =>
          match loop_draws get fuel i' s' with
          | None => None
          | Some (js, s'') => Some (N.to_nat j :: js, s'')
          end
      end
  end.
