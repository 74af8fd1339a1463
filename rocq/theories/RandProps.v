(** Property theorems C10 (answer rotation) and C11 (bounded random choice). *)
From Coq Require Import Sorting.Permutation.
From Verif Require Import Base RandModel RandSpec RandProofs.

(** C11: the value is below the bound, and the generator state stays valid (in
    particular the xorshift word never becomes zero). *)
Theorem C11_bounded_in_range : forall fuel rs bound v rs',
  valid_rstate rs -> (0 < bound < two32)%N ->
  rand32_bounded rand32_get fuel rs bound = Some (v, rs') ->
  (v < bound)%N /\ valid_rstate rs'.
Proof. exact rand32_bounded_ok. Qed.
Print Assumptions C11_bounded_in_range.

(** C11: every result value is produced by exactly [2^32 / bound] of the 2^32
    possible raw generator outputs: no bias. *)
Theorem C11_exactly_uniform : forall bound v,
  (0 < bound < two32)%N -> (v < bound)%N ->
  count_below (fun raw => match rand32_bounded (fun s : unit => (raw, s)) 0 tt bound with
                          | Some (w, _) => (w =? v)%N | None => false end) two32
  = (two32 / bound)%N.
Proof. exact bounded_uniform. Qed.
Print Assumptions C11_exactly_uniform.

(** C11: the number of rejected raw outputs is [2^32 mod bound], hence fewer
    than [bound]; an acceptable output always exists. *)
Theorem C11_rejected_count : forall bound,
  (0 < bound < two32)%N ->
  count_below (fun raw => match rand32_bounded (fun s : unit => (raw, s)) 0 tt bound with
                          | Some _ => false | None => true end) two32
  = (two32 mod bound)%N.
Proof. exact bounded_rejected. Qed.
Print Assumptions C11_rejected_count.

(** C11: a rejected raw output leads to a fresh independent draw, an accepted
    one is used - for any generator. *)
Theorem C11_retry : forall (S : Type) (get : S -> N * S) fuel s bound,
  (0 < bound < two32)%N ->
  rand32_bounded get (Datatypes.S fuel) s bound =
  match rand32_bounded (fun u : unit => (fst (get s), u)) 0 tt bound with
  | Some (v, _) => Some (v, snd (get s))
  | None => rand32_bounded get fuel (snd (get s)) bound
  end.
Proof. exact @bounded_retry. Qed.
Print Assumptions C11_retry.

(** C11: the degenerate bound 0 (never used by callers that need an index)
    returns 0 and does not divide by zero. *)
Theorem C11_bound_zero : forall (S : Type) (get : S -> N * S) fuel s,
  rand32_bounded get fuel s 0%N = Some (0%N, snd (get s)).
Proof. exact @bounded_zero. Qed.
Print Assumptions C11_bound_zero.

Example C11_witness :
  let rs := {| rs_x := 123456789; rs_y := 987654321; rs_z := 43219876; rs_w := 6543217; rs_c := 0 |}%N in
  valid_rstate rs /\ exists v rs', rand32_bounded rand32_get 3 rs 6%N = Some (v, rs') /\ (v < 6)%N.
Proof.
  split; [vm_compute; repeat split|].
  eexists. eexists. split; [vm_compute; reflexivity|reflexivity].
Qed.

(** A bound for which rejection really happens. *)
Example C11_witness_reject :
  rand32_bounded (fun s : unit => (0%N, s)) 0 tt 3%N = None.
Proof. vm_compute. reflexivity. Qed.

(** C10: for every legal draw sequence the shuffle does not fail, the records
    are permuted as whole records, and nothing else in the packet changes. *)
Theorem C10_shuffle_permutes : forall draws buf n rr_len,
  rr_len = 16 \/ rr_len = 28 -> 0 < n ->
  (exists b t, buf = b :: t /\ (b = 0%N \/ N.land b 192 <> 0%N)) ->
  n * eff_len buf rr_len <= length buf -> legal_draws (n - 1) draws ->
  exists buf', shuffle_addrs_rdata draws buf n rr_len = Ok buf' /\
    Permutation (records (eff_len buf rr_len) n buf') (records (eff_len buf rr_len) n buf) /\
    skipn (n * eff_len buf rr_len) buf' = skipn (n * eff_len buf rr_len) buf /\
    length buf' = length buf.
Proof. exact shuffle_addrs_perm. Qed.
Print Assumptions C10_shuffle_permutes.

(** C10: every ordering of the records can occur ... *)
Theorem C10_every_order_occurs : forall buf n rr_len recs,
  rr_len = 16 \/ rr_len = 28 -> 0 < n ->
  (exists b t, buf = b :: t /\ (b = 0%N \/ N.land b 192 <> 0%N)) ->
  n * eff_len buf rr_len <= length buf ->
  Permutation recs (records (eff_len buf rr_len) n buf) ->
  exists draws buf', legal_draws (n - 1) draws /\
    shuffle_addrs_rdata draws buf n rr_len = Ok buf' /\
    records (eff_len buf rr_len) n buf' = recs.
Proof. exact shuffle_addrs_surj. Qed.
Print Assumptions C10_every_order_occurs.

(** ... and, for distinct records, from exactly one draw sequence: uniform
    draws give uniform orderings. *)
Theorem C10_orders_are_equally_likely : forall buf n rr_len draws draws',
  rr_len = 16 \/ rr_len = 28 -> 0 < n ->
  (exists b t, buf = b :: t /\ (b = 0%N \/ N.land b 192 <> 0%N)) ->
  n * eff_len buf rr_len <= length buf ->
  NoDup (records (eff_len buf rr_len) n buf) ->
  legal_draws (n - 1) draws -> legal_draws (n - 1) draws' ->
  shuffle_addrs_rdata draws buf n rr_len = shuffle_addrs_rdata draws' buf n rr_len ->
  draws = draws'.
Proof. exact shuffle_addrs_inj. Qed.
Print Assumptions C10_orders_are_equally_likely.

(** C10: the draws the loop really makes with the JKISS32 generator are legal. *)
Theorem C10_generator_draws_are_legal : forall fuel i rs draws rs',
  valid_rstate rs -> (N.of_nat i + 1 < two32)%N ->
  loop_draws rand32_get fuel i rs = Some (draws, rs') ->
  legal_draws i draws /\ valid_rstate rs'.
Proof.
  intros fuel i rs draws rs'.
  exact (loop_draws_legal rand32_get valid_rstate fuel rand32_get_valid i rs draws rs').
Qed.
Print Assumptions C10_generator_draws_are_legal.

(** Three A records (owner pointer 0xC00C), shuffled by the draws 0, 1. *)
Example C10_witness :
  let r k := [192;12;0;1;0;1;0;0;1;44;0;4;192;0;2;k]%N in
  let buf := r 1%N ++ r 2%N ++ r 3%N ++ [99%N] in
  legal_draws 2 [0; 1] /\ NoDup (records (eff_len buf 16) 3 buf) /\
  3 * eff_len buf 16 <= length buf /\
  shuffle_addrs_rdata [0; 1] buf 3 16 = Ok (r 3%N ++ r 2%N ++ r 1%N ++ [99%N]).
Proof.
  cbv zeta. split; [cbn; lia|]. split.
  - vm_compute. repeat constructor; intros H; simpl in H; intuition discriminate.
  - split; [vm_compute; lia|vm_compute; reflexivity].
Qed.
