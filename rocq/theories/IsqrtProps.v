(** Property theorem C40 (connection-cache size). *)
From Verif Require Import Base IsqrtModel IsqrtProofs.
Local Open Scope N_scope.

(** C40: for every 64-bit input the loop ends within 33 extra iterations,
    without division by zero, and returns the floor of the square root. *)
Theorem C40_integer_sqrt : forall fuel n, n < two64 -> (33 <= fuel)%nat ->
  exists r, sqrt_sizet fuel n = Some (Ok r) /\ r * r <= n /\ n < (r + 1) * (r + 1).
Proof.
  intros fuel n Hn Hf. exists (N.sqrt n). split; [exact (sqrt_sizet_ok fuel n Hn Hf)|].
  rewrite N.add_1_r. exact (N.sqrt_spec n (N.le_0_l n)).
Qed.
Print Assumptions C40_integer_sqrt.

(** C40: with the smallest configurable connection limit (16) the cache has
    at least 4 slots, as src/dnsio_tcp.c:1084 asserts. *)
Theorem C40_churn_at_least_four : forall fuel n, 16 <= n < two64 -> (33 <= fuel)%nat ->
  exists r, sqrt_sizet fuel n = Some (Ok r) /\ 4 <= r.
Proof.
  intros fuel n [Hl Hn] Hf. exists (N.sqrt n). split; [exact (sqrt_sizet_ok fuel n Hn Hf)|].
  exact (N.sqrt_le_mono 16 n Hl).
Qed.
Print Assumptions C40_churn_at_least_four.

Example C40_witness : sqrt_sizet 33 18446744073709551615 = Some (Ok 4294967295)
  /\ sqrt_sizet 33 8 = Some (Ok 2) /\ sqrt_sizet 33 0 = Some (Ok 0).
Proof. vm_compute. auto. Qed.
