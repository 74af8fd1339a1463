(** Specification vocabulary for the random-choice and shuffle properties.
    Independent of the model's code. *)
From Coq Require Import Sorting.Permutation.
From Verif Require Import Base.

(** How many numbers below [n] satisfy [P]. *)
Definition count_below (P : N -> bool) (n : N) : N :=
  N.recursion 0%N (fun x acc => if P x then (acc + 1)%N else acc) n.

(** Cutting a byte string into records of [len] bytes. *)
Fixpoint records (len n : nat) (buf : bytes) : list bytes :=
  match n with
  | O => []
  | S n' => firstn len buf :: records len n' (skipn len buf)
  end.

(** A draw sequence the loop can consume for [n+1] records: the first value is
    at most [n], the next at most [n-1], ... and the last at most 1. *)
Fixpoint legal_draws (n : nat) (js : list nat) : Prop :=
  match n, js with
  | O, [] => True
  | S n', j :: js' => j <= n /\ legal_draws n' js'
  | _, _ => False
  end.

(** The size of one address record of nominal size [rr_len] (two-byte owner
    pointer): one byte less when the owner is the root name. *)
Definition eff_len (buf : bytes) (rr_len : nat) : nat :=
  match buf with 0%N :: _ => rr_len - 1 | _ => rr_len end.
