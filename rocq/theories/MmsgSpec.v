(** Vocabulary for C31. *)
From Verif Require Import Base MmsgModel.

(** The batch indices that hold a response. *)
Definition to_transmit (lens : list nat) : list nat :=
  filter (fun i => negb (Nat.eqb (nth i lens 0) 0)) (seq 0 (length lens)).

Definition event_index (e : event) : nat := match e with Sent i => i | Failed i => i end.

(** The kernel's documented contract at each call: it accepts between one and
    all of the datagrams offered.  The number offered is known only to the
    loop, so the contract is: whenever it accepts [n], [n] is at least one and
    at most the length of the run of non-empty responses at that point. *)
Fixpoint run_length (lens : list nat) : nat :=
  match lens with
  | S _ :: rest => S (run_length rest)
  | _ => 0
  end.

Fixpoint skip_zeros (lens : list nat) : list nat :=
  match lens with
  | O :: rest => skip_zeros rest
  | _ => lens
  end.

Fixpoint kernel_ok (oracle : list kret) (lens : list nat) : Prop :=
  match oracle with
  | [] => True
  | KIntr :: rest => kernel_ok rest lens
  | KErr :: rest => kernel_ok rest (skipn 1 (skip_zeros lens))
  | KSent n :: rest =>
      (run_length (skip_zeros lens) = 0 \/ 1 <= n <= run_length (skip_zeros lens)) /\
      kernel_ok rest (skipn n (skip_zeros lens))
  end.

(** Answers of the oracle that are not EINTR. *)
Definition answers (oracle : list kret) : nat :=
  length (filter (fun k => match k with KIntr => false | _ => true end) oracle).

(** What the kernel's answers mean for the pending datagrams, in order: an
    acceptance of [n] sends the first [n], an error concerns the first one
    only, EINTR concerns none. *)
Fixpoint replay (oracle : list kret) (pending : list nat) : list event :=
  match oracle with
  | [] => []
  | KIntr :: rest => replay rest pending
  | KErr :: rest => match pending with
                    | [] => []
                    | i :: ps => Failed i :: replay rest ps
                    end
  | KSent n :: rest => map Sent (firstn n pending) ++ replay rest (skipn n pending)
  end.
