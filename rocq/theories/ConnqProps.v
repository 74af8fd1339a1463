(** Property theorem C30 (the TCP connection queue). *)
From Verif Require Import Base ConnqModel ConnqSpec ConnqProofs.
Local Open Scope Z_scope.

(** C30: for every history of accepts, completed requests, closes, timer
    firings and a stop, with a clock that never goes back and a limit of at
    least 2 (the configuration enforces 16): no assertion of the queue code
    fails and no dead connection is touched; the open connections are exactly
    those of the abstract queue, most idle first; there are always fewer than
    the limit; the timer runs exactly while there are connections, and outside
    the shutdown grace period it is set within the fudge of the moment the most
    idle connection expires. *)
Theorem C30_queue_refines_spec : forall maxc tmo start es s r,
  (2 <= maxc)%nat -> run false (init maxc tmo start) es s r ->
  exists t, r = Ok t /\
    let a := arun maxc tmo {| aq := []; anow := start; agrace := false |} es in
    represents t (aq a) /\ sorted (aq a) /\ (length (aq a) < maxc)%nat /\ num t = length (aq a) /\
    now t = anow a /\
    (aq a = [] <-> timer t = None) /\
    (agrace a = false -> forall c z q, aq a = (c, z) :: q ->
       exists x, timer t = Some x /\ z + tmo + TIMEOUT_FUDGE <= x <= Z.max (anow a) (z + tmo) + TIMEOUT_FUDGE).
Proof. exact main. Qed.
Print Assumptions C30_queue_refines_spec.

(** A connection is killed on accept only when the limit is reached, and it is
    a most idle one; every other connection and the new one stay. *)
Theorem C30_load_kill_is_most_idle : forall maxc tmo start es s t c t' k zk,
  (2 <= maxc)%nat -> run false (init maxc tmo start) es s (Ok t) -> enabled s t (Accept c) ->
  step t (Accept c) = Ok t' -> open t k zk -> ~ open t' k zk ->
  S (num t) = maxc /\ (forall j zj, open t j zj -> zk <= zj) /\ open t' c (now t) /\
  (forall j zj, open t j zj -> j <> k -> open t' j zj).
Proof. exact kill_most_idle. Qed.
Print Assumptions C30_load_kill_is_most_idle.

(** A timer firing outside the grace period closes exactly the connections idle
    for at least the timeout, and there is always at least one. *)
Theorem C30_timeout_closes_exactly_the_idle : forall maxc tmo start es s t t',
  (2 <= maxc)%nat -> run false (init maxc tmo start) es s (Ok t) -> enabled s t Timeout ->
  grace t = false -> step t Timeout = Ok t' ->
  (forall c z, open t' c z <-> open t c z /\ now t - tmo < z) /\
  (exists c z, open t c z /\ z <= now t - tmo).
Proof. exact timeout_exact. Qed.
Print Assumptions C30_timeout_closes_exactly_the_idle.

(** A limit of three: connection 1 is refreshed, so accepting a third kills 2;
    later the timer closes the rest. *)
Definition C30_history : list event :=
  [Accept 1; Tick 4; Accept 2; Tick 4; Refresh 1; Tick 1; Accept 3; Tick 100; Timeout; Accept 2; Stop (fun _ => false);
   Tick 20; Timeout].

Fixpoint C30_exec (t : thr) (es : list event) : res thr :=
  match es with
  | [] => Ok t
  | e :: es' => do t' <- step t e; C30_exec t' es'
  end.

Definition C30_view (r : res thr) :=
  match r with
  | Ok t => Some (num t, qhead t, qtail t, timer t, grace t,
                  map (fun c => match mem t c with Some n => Some (idle n) | None => None end) [1; 2; 3]%nat)
  | UB => None
  end.

Example C30_witness :
  C30_view (C30_exec (init 3 40 0) (firstn 7 C30_history)) =
    Some (2%nat, Some 1%nat, Some 3%nat, Some 49, false, [Some 8; None; Some 9]) /\
  C30_view (C30_exec (init 3 40 0) (firstn 9 C30_history)) =
    Some (0%nat, None, None, None, false, [None; None; None]) /\
  C30_view (C30_exec (init 3 40 0) (firstn 11 C30_history)) =
    Some (1%nat, Some 2%nat, Some 2%nat, Some 129, true, [None; Some 109; None]) /\
  C30_view (C30_exec (init 3 40 0) C30_history) =
    Some (0%nat, None, None, None, true, [None; None; None]).
Proof. vm_compute. auto. Qed.

(** The history is a run in the sense of the theorems. *)
Example C30_witness_run : exists s r, run false (init 3 40 0) C30_history s r.
Proof.
  unfold C30_history. eexists _, _.
  repeat (eapply run_cons; [cbn; try (split; reflexivity); try lia; try discriminate;
                            try reflexivity; try (eexists; split; [reflexivity|cbv; discriminate])
                           |vm_compute; reflexivity|]).
  apply run_nil.
Qed.
