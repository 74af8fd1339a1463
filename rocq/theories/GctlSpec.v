(** What users of gdnsdctl rely on: how a command line is written, and what the exit code says. *)
From Coq Require Import String.
From Verif Require Import Base MonModel GctlModel.
Local Open Scope N_scope.
Local Notation length := List.length.

(** ** Command lines *)
Inductive setting := SCfg (v : bytes) | SAddr (v : bytes) | SDebug | SSyslog | SOneshot | SDead | STimeo (v : bytes) (n : N).
Definition letter (s : setting) : N :=
  match s with SCfg _ => 99 | SAddr _ => 115 | SDebug => 68 | SSyslog => 108 | SOneshot => 111 | SDead => 105 | STimeo _ _ => 116 end.
Definition argument (s : setting) : option bytes := match s with SCfg v | SAddr v | STimeo v _ => Some v | _ => None end.
(** a number of seconds that can be read; what follows the number does not matter (C67_timeout_refuted) *)
Definition legal (s : setting) : Prop := match s with STimeo v n => (exists junk, strtoul v = (false, n, junk)) /\ 5 <= n <= 300 | _ => True end.
Definition plain (s : setting) : Prop := argument s = None.

(** options as words: flags together, one with an argument at the end, which is in the same word or the next *)
Inductive words : list setting -> list bytes -> Prop :=
| w_nil : words [] []
| w_flags fs ss ws : fs <> [] -> Forall plain fs -> words ss ws -> words (fs ++ ss) ((45 :: map letter fs) :: ws)
| w_same fs s v ss ws : Forall plain fs -> argument s = Some v -> v <> [] -> legal s -> words ss ws ->
    words (fs ++ s :: ss) ((45 :: map letter fs ++ letter s :: v) :: ws)
| w_next fs s v ss ws : Forall plain fs -> argument s = Some v -> legal s -> words ss ws ->
    words (fs ++ s :: ss) ((45 :: map letter fs ++ [letter s]) :: v :: ws).
(** a word that cannot be taken for options *)
Definition no_option (w : bytes) : Prop := forall x y, w <> 45 :: x :: y.
(** the options [ss], then the action and its arguments *)
Definition command_line (args : list bytes) (ss : list setting) (action : bytes) (rest : list bytes) : Prop :=
  exists ws, words ss ws /\ ((args = ws ++ action :: rest /\ no_option action) \/ args = ws ++ [45; 45] :: action :: rest).

(** the last one counts *)
Fixpoint last_of {A} (f : setting -> option A) (d : A) (ss : list setting) : A :=
  match ss with [] => d | s :: ss => last_of f (match f s with Some x => x | None => d end) ss end.
Definition given (s : setting) (ss : list setting) : Prop := In s ss.
Definition meant (ss : list setting) (o : opts) : Prop :=
  o_cfg o = last_of (fun s => match s with SCfg v => Some (Some v) | _ => None end) None ss /\
  o_addr o = last_of (fun s => match s with SAddr v => Some (Some v) | _ => None end) None ss /\
  o_timeo o = last_of (fun s => match s with STimeo _ n => Some n | _ => None end) 47 ss /\
  (o_debug o = true <-> given SDebug ss) /\ (o_syslog o = true <-> given SSyslog ss) /\
  (o_oneshot o = true <-> given SOneshot ss) /\ (o_dead o = true <-> given SDead ss).

(** ** Actions *)
Inductive act := Stop | Reload | Replace | Status | Stats | States | Flush.
Definition act_name (k : act) : bytes :=
  tx (match k with Stop => "stop" | Reload => "reload-zones" | Replace => "replace" | Status => "status" | Stats => "stats" | States => "states" | Flush => "acme-dns-01-flush" end).
Definition named (k : act) (action : bytes) : Prop := map low action = act_name k.
Definition may_ignore (k : act) : Prop := match k with Stop | Reload | Replace | Flush => True | _ => False end.
(** the daemon did what was asked *)
Definition obeyed (k : act) (a : attempt) : Prop :=
  match k with
  | Status => True
  | Stop => a_txn a = TxnOk /\ a_exits a = true
  | Replace => a_txn a = TxnOk /\ a_exits a = true /\ a_new a = true
  | _ => a_txn a = TxnOk
  end.
Definition is_chal (action : bytes) : Prop := map low action = tx "acme-dns-01".
Definition soft (a : attempt) : Prop := a_conn a = true /\ a_txn a = TxnSoft /\ a_alarm a = false.
(** the request of an action: its key, and seven zero bytes *)
Definition request (k : act) : list bytes :=
  match k with Status => [] | Stop => [[88; 0; 0; 0; 0; 0; 0; 0]] | Reload => [[90; 0; 0; 0; 0; 0; 0; 0]] | Replace => [[82; 0; 0; 0; 0; 0; 0; 0]]
  | Stats => [[83; 0; 0; 0; 0; 0; 0; 0]] | States => [[69; 0; 0; 0; 0; 0; 0; 0]] | Flush => [[99; 0; 0; 0; 0; 0; 0; 0]] end.
(** what is sent in these attempts, one request for each *)
Definition sends (rq : list bytes) (l : list attempt) : list bytes := concat (map (fun _ => rq) l).
Definition again (k : act) : Prop := k <> Status.
