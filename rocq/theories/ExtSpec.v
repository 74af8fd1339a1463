(** What the daemon and its helper for external checks may rely on. *)
From Verif Require Import Base ExtModel.

(** ** The pipe *)
(** all that comes through a pipe, however it is cut into pieces *)
Fixpoint stream (p : pipe) : bytes :=
  match p with
  | [] => []
  | RBytes d :: p => d ++ stream p
  | RAgain :: p => stream p
  | REof :: _ | RError :: _ => []
  end.

(** ** Commands *)
(** A command on the wire: marker, four numbers, the length of the rest; then
    the number of arguments, the arguments and the description, each ended by a zero byte. *)
Definition zstr (s : bytes) : bytes := s ++ [0%N].
Definition payload (c : cmd) : bytes := N.of_nat (length (c_args c)) :: flat_map zstr (c_args c) ++ zstr (c_desc c).
Definition wire (c : cmd) : bytes :=
  CMD_ ++ be16 (c_idx c) ++ be16 (c_timeout c) ++ be16 (c_interval c) ++ be16 (c_max_proc c)
  ++ be16 (N.of_nat (length (payload c))) ++ payload c.
(** A string in C: bytes other than zero. *)
Definition cstr (s : bytes) : Prop := Forall (fun x => x <> 0%N /\ (x < 256)%N) s.
(** What the format can hold. *)
Definition representable (c : cmd) : Prop :=
  (c_idx c < 65536 /\ c_timeout c < 65536 /\ c_interval c < 65536 /\ c_max_proc c < 65536)%N /\
  1 <= length (c_args c) <= 255 /\ Forall cstr (c_args c) /\ cstr (c_desc c) /\
  4 <= length (payload c) /\ (N.of_nat (length (payload c)) < 65536)%N.

(** ** Checks and their results *)
(** The helper as its users see it: for every monitor the child that has not been
    reaped yet and whether its check is still open. *)
Definition world := list (option (nat * bool)).
Definition open (x : option (nat * bool)) : bool := match x with Some (_, b) => b | None => false end.
Definition running (w : world) : nat := length (filter open w).
(** a check may start: it is not limited, or fewer checks than its limit are open *)
Definition room (max : nat) (w : world) : bool := (max =? 0) || (running w <? max).
Definition reaped (p : nat) (x : option (nat * bool)) : option (nat * bool) :=
  match x with Some (q, b) => if q =? p then None else x | None => None end.
Fixpoint ended (p : nat) (failed : bool) (i : nat) (w : world) : list (nat * bool) :=
  match w with
  | [] => []
  | Some (q, true) :: w => (if q =? p then [(i, failed)] else []) ++ ended p failed (S i) w
  | _ :: w => ended p failed (S i) w
  end.
(** The effect of an event, and the results it brings about. *)
Definition effect (maxes : list nat) (w : world) (e : event) : world * list (nat * bool) :=
  match e with
  | Interval m p =>
      match nth_error w m with
      | Some None => if room (nth m maxes 0) w then (upd w m (Some (p, true)), []) else (w, [])
      | _ => (w, [])
      end
  | Timeout m => match nth_error w m with Some (Some (p, true)) => (upd w m (Some (p, false)), [(m, true)]) | _ => (w, []) end
  | Exit p failed => (map (reaped p) w, ended p failed 0 w)
  | Writable _ | Term => (w, [])
  end.
(** What an outside observer takes for granted: a monitor's next check comes
    after its last child has been reaped. *)
Definition orderly (w : world) (e : event) : Prop :=
  match e with
  | Interval m _ => match nth_error w m with Some (Some _) => False | _ => True end
  | _ => True
  end.
(** The history up to a signal: all results in order, and whether a signal came. *)
Record story := { now : world; results : list (nat * bool); ordered_out : bool }.
Definition tell (maxes : list nat) (y : story) (e : event) : story :=
  match e with
  | Term => {| now := now y; results := results y; ordered_out := true |}
  | Interval _ _ => if ordered_out y then y else {| now := fst (effect maxes (now y) e); results := results y; ordered_out := false |}
  | _ => {| now := fst (effect maxes (now y) e);
            results := if ordered_out y then results y else results y ++ snd (effect maxes (now y) e);
            ordered_out := ordered_out y |}
  end.
Definition quiet (n : nat) : story := {| now := repeat None n; results := []; ordered_out := false |}.
Fixpoint told (maxes : list nat) (y : story) (es : list event) : story :=
  match es with [] => y | e :: es => told maxes (tell maxes y e) es end.
Fixpoint all_orderly (maxes : list nat) (y : story) (es : list event) : Prop :=
  match es with [] => True | e :: es => (ordered_out y = false -> orderly (now y) e) /\ all_orderly maxes (tell maxes y e) es end.

(** How often monitor [m] began a check in such a history. *)
Definition starts (maxes : list nat) (m : nat) (y : story) (e : event) : nat :=
  match e with
  | Interval k _ => if (k =? m) && negb (ordered_out y) && (match nth_error (now y) m with Some None => room (nth m maxes 0) (now y) | _ => false end) then 1 else 0
  | _ => 0
  end.
Fixpoint started (maxes : list nat) (m : nat) (y : story) (es : list event) : nat :=
  match es with [] => 0 | e :: es => starts maxes m y e + started maxes m (tell maxes y e) es end.
