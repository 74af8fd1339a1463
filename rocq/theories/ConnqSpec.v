(** The queue as a user sees it: the open connections, most idle first, each
    with the time its idleness started.  Independent of the pointer code. *)
From Verif Require Import Base ConnqModel.
Local Open Scope Z_scope.

Definition queue := list (nat * Z).

Definition ids (q : queue) : list nat := map fst q.
Definition remove (c : nat) (q : queue) : queue := filter (fun x => negb (Nat.eqb (fst x) c)) q.

(** The queue after an event at time [tm]. *)
Definition qstep (maxc : nat) (tmo tm : Z) (stopping : bool) (q : queue) (e : event) : queue :=
  match e with
  | Tick _ => q
  | Accept c => let q' := q ++ [(c, tm)] in
                if Nat.eqb (length q') maxc then tl q' else q'
  | AcceptNoFd => tl q
  | Refresh c => remove c q ++ [(c, tm)]
  | Close c => remove c q
  | Timeout => if stopping then [] else filter (fun x => negb (snd x <=? tm - tmo)) q
  | Stop fails => filter (fun x => negb (fails (fst x))) q
  end.

(** Oldest idle start first. *)
Fixpoint sorted (q : queue) : Prop :=
  match q with
  | [] => True
  | x :: q' => Forall (fun y => snd x <= snd y) q' /\ sorted q'
  end.

(** What is open, read directly off the memory. *)
Definition open (t : thr) (c : nat) (since : Z) : Prop :=
  exists n, mem t c = Some n /\ idle n = since.

(** [q] lists exactly the open connections, without repetition. *)
Definition represents (t : thr) (q : queue) : Prop :=
  NoDup (ids q) /\ forall c z, open t c z <-> In (c, z) q.

(** The abstract queue machine: the queue, the clock, and whether the thread is
    in its shutdown grace period. *)
Record astate := { aq : queue; anow : Z; agrace : bool }.

Definition anow_step (z : Z) (e : event) : Z := match e with Tick d => z + d | _ => z end.
Definition agrace_step (g : bool) (q : queue) (e : event) : bool :=
  match e with Stop _ => g || negb (Nat.eqb (length q) 0) | _ => g end.

Definition astep (maxc : nat) (tmo : Z) (a : astate) (e : event) : astate :=
  {| aq := qstep maxc tmo (anow a) (agrace a) (aq a) e;
     anow := anow_step (anow a) e;
     agrace := agrace_step (agrace a) (aq a) e |}.

Definition arun (maxc : nat) (tmo : Z) (a : astate) (es : list event) : astate :=
  fold_left (astep maxc tmo) es a.
