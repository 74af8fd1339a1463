(** The command-line tool: src/gdnsdctl.c, its options, its actions and its exit codes.
    The transactions themselves and the challenge data are in CscModel.v (C53); here one attempt to reach the daemon comes
    as a record of what happens in it.
    Simplifications: log texts, -D and -l only set their flags; the data that stats and states print is left out;
    [alarm_raised] is read where the code reads it, after an attempt. *)
From Coq Require Import Ascii String.
From Verif Require Import Base MonModel CtlModel CscModel.
Local Open Scope nat_scope.
Local Notation length := List.length.

Definition tx (s : string) : bytes := map N_of_ascii (list_ascii_of_string s).
(** strcasecmp in the C locale, as equality *)
Definition low (b : N) : N := (if (65 <=? b) && (b <=? 90) then b + 32 else b)%N.
Fixpoint same_bytes (a b : bytes) : bool :=
  match a, b with [], [] => true | x :: a, y :: b => (x =? y)%N && same_bytes a b | _, _ => false end.
Definition ceq (a b : bytes) : bool := same_bytes (map low a) (map low b).

(** The options, src/gdnsdctl.c:43-53 *)
Record opts := { o_cfg : option bytes; o_addr : option bytes; o_debug : bool; o_syslog : bool; o_oneshot : bool; o_dead : bool; o_timeo : N }.
Definition defaults : opts := {| o_cfg := None; o_addr := None; o_debug := false; o_syslog := false; o_oneshot := false; o_dead := false; o_timeo := 47 |}.

(** The cases without argument, src/gdnsdctl.c:407-418 *)
Definition flag (c : N) (o : opts) : option opts :=
  if (c =? 68)%N then Some {| o_cfg := o_cfg o; o_addr := o_addr o; o_debug := true; o_syslog := o_syslog o; o_oneshot := o_oneshot o; o_dead := o_dead o; o_timeo := o_timeo o |}
  else if (c =? 108)%N then Some {| o_cfg := o_cfg o; o_addr := o_addr o; o_debug := o_debug o; o_syslog := true; o_oneshot := o_oneshot o; o_dead := o_dead o; o_timeo := o_timeo o |}
  else if (c =? 111)%N then Some {| o_cfg := o_cfg o; o_addr := o_addr o; o_debug := o_debug o; o_syslog := o_syslog o; o_oneshot := true; o_dead := o_dead o; o_timeo := o_timeo o |}
  else if (c =? 105)%N then Some {| o_cfg := o_cfg o; o_addr := o_addr o; o_debug := o_debug o; o_syslog := o_syslog o; o_oneshot := o_oneshot o; o_dead := true; o_timeo := o_timeo o |}
  else None.
(** The cases with one, src/gdnsdctl.c:401-406, 419-425.  [None]: usage() *)
Definition with_arg (c : N) : bool := ((c =? 99) || (c =? 115) || (c =? 116))%N.
Definition set_arg (c : N) (v : bytes) (o : opts) : option opts :=
  if (c =? 99)%N then Some {| o_cfg := Some v; o_addr := o_addr o; o_debug := o_debug o; o_syslog := o_syslog o; o_oneshot := o_oneshot o; o_dead := o_dead o; o_timeo := o_timeo o |}
  else if (c =? 115)%N then Some {| o_cfg := o_cfg o; o_addr := Some v; o_debug := o_debug o; o_syslog := o_syslog o; o_oneshot := o_oneshot o; o_dead := o_dead o; o_timeo := o_timeo o |}
  else
    let '(err, n, _) := strtoul v in
    if (err : bool) || (n <? 5)%N || (300 <? n)%N then None
    else Some {| o_cfg := o_cfg o; o_addr := o_addr o; o_debug := o_debug o; o_syslog := o_syslog o; o_oneshot := o_oneshot o; o_dead := o_dead o; o_timeo := n |}.

(** getopt with POSIXLY_CORRECT and the string c:s:Dloit: - the letters of one word.  [Need c]: the argument is the next word *)
Inductive letters := Bad | Done (o : opts) | Need (c : N) (o : opts).
Fixpoint cluster (cs : bytes) (o : opts) : letters :=
  match cs with
  | [] => Done o
  | c :: cs =>
      match flag c o with
      | Some o => cluster cs o
      | None =>
          if with_arg c then
            match cs with
            | [] => Need c o
            | _ => match set_arg c cs o with Some o => Done o | None => Bad end
            end
          else Bad
      end
  end.
(** [parse_args], src/gdnsdctl.c:395-436, with getopt: the options, the action and the arguments behind it; [None]: usage().
    [args] is argv without argv[0]. *)
Fixpoint parse_args (args : list bytes) (o : opts) : option (opts * bytes * list bytes) :=
  match args with
  | [] => None
  | a :: rest =>
      match a with
      | b :: (c :: _) as cs =>
          if (b =? 45)%N then
            if same_bytes a [45; 45]%N then match rest with [] => None | x :: r => Some (o, x, r) end
            else
              match cluster cs o with
              | Bad => None
              | Done o => parse_args rest o
              | Need c o =>
                  match rest with
                  | [] => None
                  | v :: r => match set_arg c v o with Some o => parse_args r o | None => None end
                  end
              end
          else Some (o, a, rest)
      | _ => Some (o, a, rest)
      end
  end.

(** ** Actions *)
Inductive txn_rv := TxnOk | TxnSoft | TxnHard.
(** What happens in one round of main's loop: a connection is made, the transaction, the daemon closes the connection when asked to stop,
    a connection to the new daemon is made, and the alarm has been raised when the round ends *)
Record attempt := { a_conn : bool; a_txn : txn_rv; a_exits : bool; a_new : bool; a_alarm : bool }.
(** retry, success, or exit with a code: usage 2, log_fatal 42 *)
Inductive step := Retry | Success | Exit (n : N).

Section Run.
  (** fresh memory for the challenge data *)
  Variable buf : bytes.
  (** one-shot mode makes soft failures hard, src/gdnsdctl.c:129-130, 144-145, 167-168, 206-207, 233-234, 316-317, 336-337 *)
  Definition judge (o : opts) (rv : txn_rv) : txn_rv := match rv with TxnSoft => if o_oneshot o then TxnHard else TxnSoft | _ => rv end.
  (** [action_reloadz], [action_stats], [action_states], [action_chalf], src/gdnsdctl.c:137-153, 198-222, 225-250, 329-345 *)
  Definition simple_action (o : opts) (a : attempt) : step := match judge o (a_txn a) with TxnHard => Exit 42 | TxnSoft => Retry | TxnOk => Success end.
  (** [action_stop], src/gdnsdctl.c:120-134 *)
  Definition action_stop (o : opts) (a : attempt) : step :=
    match a_txn a with
    | TxnOk => if a_exits a then Success else Exit 42
    | rv => if negb (o_oneshot o) && match rv with TxnSoft => true | _ => false end then Retry else Exit 42
    end.
  (** [action_replace], src/gdnsdctl.c:156-186 *)
  Definition action_replace (o : opts) (a : attempt) : step :=
    match judge o (a_txn a) with
    | TxnHard => Exit 42
    | TxnSoft => Retry
    | TxnOk => if negb (a_exits a) then Exit 42 else if a_new a then Success else Exit 42
    end.
  Fixpoint pairs (l : list bytes) : list (bytes * bytes) := match l with a :: b :: l => (a, b) :: pairs l | _ => [] end.
  (** [action_chal], src/gdnsdctl.c:273-326 *)
  Definition do_chal (o : opts) (args : list bytes) (a : attempt) : res (step * list bytes) :=
    if Nat.eqb (length args) 0 || Nat.odd (length args) || Nat.ltb 200 (length args) then Ok (Exit 2, [])
    else
      do r <- CscModel.action_chal buf (pairs args);
      match r with
      | None => Ok (Exit 42, [])
      | Some (h, d, data) => Ok (simple_action o a, [h ++ firstn (N.to_nat d) data])
      end.
  (** the eight bytes of a request without data *)
  Definition req (k : N) : bytes := k :: repeat 0%N 7.
  (** [do_action], src/gdnsdctl.c:347-373, with the requests that are sent *)
  Definition do_action (o : opts) (action : bytes) (args : list bytes) (a : attempt) : res (step * list bytes) :=
    if ceq action (tx "acme-dns-01") then do_chal o args a
    else if negb (Nat.eqb (length args) 0) then Ok (Exit 2, [])
    else if ceq action (tx "stop") then Ok (action_stop o a, [req 88])
    else if ceq action (tx "reload-zones") then Ok (simple_action o a, [req 90])
    else if ceq action (tx "replace") then Ok (action_replace o a, [req 82])
    else if ceq action (tx "status") then Ok (Success, [])
    else if ceq action (tx "stats") then Ok (simple_action o a, [req 83])
    else if ceq action (tx "states") then Ok (simple_action o a, [req 69])
    else if ceq action (tx "acme-dns-01-flush") then Ok (simple_action o a, [req 99])
    else Ok (Exit 2, []).
  (** [can_ignore_dead], src/gdnsdctl.c:386-392 *)
  Definition can_ignore_dead (action : bytes) : bool :=
    ceq action (tx "stop") || ceq action (tx "reload-zones") || ceq action (tx "replace") || ceq action (tx "acme-dns-01-flush").

  (** main's loop, src/gdnsdctl.c:460-486: the exit code, [None] while it goes on after these attempts, and the requests sent *)
  Fixpoint loop (o : opts) (action : bytes) (args : list bytes) (l : list attempt) : res (option N * list bytes) :=
    match l with
    | [] => Ok (None, [])
    | a :: l =>
        if negb (a_conn a) then Ok (Some (if o_dead o && can_ignore_dead action then 0 else 1)%N, [])
        else
          do (s, rs) <- do_action o action args a;
          match s with
          | Success => Ok (Some 0%N, rs)
          | Exit n => Ok (Some n, rs)
          | Retry =>
              if o_oneshot o || a_alarm a then Ok (Some 1%N, rs)
              else do (x, rs') <- loop o action args l; Ok (x, rs ++ rs')
          end
    end.
  (** [main], src/gdnsdctl.c:438-487.  [conf]: the configuration in this directory can be read *)
  Definition gdnsdctl (conf : option bytes -> bool) (args : list bytes) (l : list attempt) : res (option N * list bytes) :=
    match parse_args args defaults with
    | None => Ok (Some 2%N, [])
    | Some (o, action, rest) =>
        if match o_addr o with None => negb (conf (o_cfg o)) | Some _ => false end then Ok (Some 42%N, [])
        else loop o action rest l
    end.
End Run.
