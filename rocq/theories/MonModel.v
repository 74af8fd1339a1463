(** Model of the monitoring core, src/plugins/mon.c and src/plugins/mon.h. *)
From Verif Require Import Base.
Local Open Scope N_scope.

(** ** State-TTL words, src/plugins/mon.h:32-48.  32-bit unsigned values. *)
Definition STTL_DOWN : N := 2147483648.          (* 1 << 31 *)
Definition STTL_FORCED : N := 1073741824.        (* 1 << 30 *)
Definition STTL_RESERVED : N := 805306368.       (* 3 << 28 *)
Definition STTL_TTL_MASK : N := 268435455.       (* (1 << 28) - 1 *)
Definition STTL_TTL_MAX : N := 268435455.

Definition valid_sttl (s : N) : bool := N.eqb (N.land s STTL_RESERVED) 0.
Definition has (s bit : N) : bool := negb (N.eqb (N.land s bit) 0).

(** [gdnsd_sttl_min2], src/plugins/mon.h:153-159. *)
Definition sttl_min2 (a b : N) : N :=
  let a_ttl := N.land a STTL_TTL_MASK in
  let b_ttl := N.land b STTL_TTL_MASK in
  let state := N.land (N.lor a b) (N.lor STTL_DOWN STTL_FORCED) in
  if a_ttl <? b_ttl then N.lor state a_ttl else N.lor state b_ttl.

(** [gdnsd_sttl_min], src/plugins/mon.h:164-171.  [tbl] is the state table. *)
Fixpoint sttl_min_from (tbl : list N) (rv : N) (idxs : list nat) : res N :=
  match idxs with
  | [] => Ok rv
  | i :: is => do s <- rd tbl i; sttl_min_from tbl (sttl_min2 rv s) is
  end.
Definition sttl_min (tbl : list N) (idxs : list nat) : res N := sttl_min_from tbl STTL_TTL_MAX idxs.

(** ** Text form *)
(** ASCII case folding as used by strncasecmp in the C locale. *)
Definition upcase (b : N) : N := if (97 <=? b) && (b <=? 122) then b - 32 else b.

(** [!strncasecmp(s, p, strlen(p))] for a NUL-terminated [s]: the rest of [s]
    after the prefix. *)
Fixpoint strip_ci (p s : bytes) : option bytes :=
  match p with
  | [] => Some s
  | x :: p' => match s with
               | [] => None
               | y :: s' => if upcase x =? upcase y then strip_ci p' s' else None
               end
  end.

Definition isspace (b : N) : bool := (b =? 32) || ((9 <=? b) && (b <=? 13)).
Definition isdigit (b : N) : bool := (48 <=? b) && (b <=? 57).

Fixpoint skip_space (s : bytes) : bytes :=
  match s with
  | b :: s' => if isspace b then skip_space s' else s
  | [] => []
  end.

Fixpoint digits (acc : N) (s : bytes) : N * bytes :=
  match s with
  | b :: s' => if isdigit b then digits (acc * 10 + (b - 48)) s' else (acc, s)
  | [] => (acc, [])
  end.

(** strtoul(s, &endptr, 10) on LP64, as specified by C and POSIX: white space,
    optional sign, digits; a leading minus negates modulo 2^64; out of range
    sets errno.  Result: errno set?, value, the text at endptr. *)
Definition strtoul (s : bytes) : bool * N * bytes :=
  let s1 := skip_space s in
  let '(neg, s2) :=
    match s1 with
    | b :: t => if b =? 45 then (true, t) else if b =? 43 then (false, t) else (false, s1)
    | [] => (false, s1)
    end in
  match s2 with
  | b :: _ =>
      if isdigit b then
        let '(v, rest) := digits 0 s2 in
        if two64 <=? v then (true, two64 - 1, rest)
        else (false, if neg then (two64 - v) mod two64 else v, rest)
      else (false, 0, s)
  | [] => (false, 0, s)
  end.

Definition txt_UP : bytes := [85; 80].
Definition txt_DOWN : bytes := [68; 79; 87; 78].

(** [gdnsd_mon_parse_sttl], src/plugins/mon.c:161-195: [Ok None] means failure.
    The argument is the text before the terminating NUL. *)
Definition mon_parse_sttl (s : bytes) (def_ttl : N) : res (option N) :=
  rassert (valid_sttl def_ttl)
  (let '(out, suffix) :=
     match strip_ci txt_UP s with
     | Some r => (def_ttl, Some r)
     | None => match strip_ci txt_DOWN s with
               | Some r => (N.lor def_ttl STTL_DOWN, Some r)
               | None => (def_ttl, None)
               end
     end in
   match suffix with
   | None => Ok None
   | Some [] => Ok (Some out)
   | Some (slash :: ttl_suffix) =>
       match ttl_suffix with
       | [] => Ok None
       | _ :: _ =>
           if slash =? 47 then
             let '(err, v, rest) := strtoul ttl_suffix in
             match rest with
             | [] => if negb err && (v <=? STTL_TTL_MAX) then
                       let out := N.lor (N.ldiff out STTL_TTL_MASK) v in
                       rassert (valid_sttl out) (Ok (Some out))
                     else Ok None
             | _ => Ok None
             end
           else Ok None
       end
   end).

(** ** Service types and monitored items, src/plugins/mon.c:38-66. *)
Record svc := { up_thresh : N; ok_thresh : N; down_thresh : N; interval : N }.

(** The ranges enforced by [gdnsd_mon_cfg_stypes_p2], src/plugins/mon.c:676-688. *)
Definition svc_ok (s : svc) : Prop :=
  1 <= up_thresh s <= 65535 /\ 1 <= ok_thresh s <= 65535 /\
  1 <= down_thresh s <= 65535 /\ 2 <= interval s <= 3600.

Record smgr := { desc : bytes; typ : option svc; n_failure : N; n_success : N; real : N }.

Record mon := {
  smgrs : list smgr;
  sttl : list N;         (* smgr_sttl, the publisher's table *)
  consumer : list N;     (* smgr_sttl_consumer_, what resolvers read *)
  pending : bool;        (* sttl_update_timer active *)
  initial : bool         (* initial_round *) }.

Definition inc32 (x : N) : N := (x + 1) mod two32.
Definition sub32 (a b : N) : N := (a + two32 - b) mod two32.

(** [sttl_table_update] as seen from the monitoring thread,
    src/plugins/mon.c:101-115 (the reader side is modelled in RcuModel.v).
    The one-shot timer is inactive after it fired. *)
Definition sttl_table_update (m : mon) : mon :=
  {| smgrs := smgrs m; sttl := sttl m; consumer := sttl m; pending := false; initial := initial m |}.

(** [kick_sttl_update_timer], src/plugins/mon.c:121-130 (testsuite_nodelay off). *)
Definition kick (m : mon) : mon :=
  {| smgrs := smgrs m; sttl := sttl m; consumer := consumer m; pending := true; initial := initial m |}.

Definition set_smgr (m : mon) (i : nat) (s : smgr) : mon :=
  {| smgrs := upd (smgrs m) i s; sttl := sttl m; consumer := consumer m;
     pending := pending m; initial := initial m |}.
Definition set_sttl (m : mon) (i : nat) (v : N) : mon :=
  {| smgrs := smgrs m; sttl := upd (sttl m) i v; consumer := consumer m;
     pending := pending m; initial := initial m |}.
Definition with_real (s : smgr) (v : N) : smgr :=
  {| desc := desc s; typ := typ s; n_failure := n_failure s; n_success := n_success s; real := v |}.

(** [raw_sttl_update], src/plugins/mon.c:732-763.  Logging omitted. *)
Definition raw_sttl_update (m : mon) (i : nat) (new : N) : res mon :=
  do s <- rd (smgrs m) i;
  rassert (valid_sttl new)
  (rassert (negb (has new STTL_FORCED))
  (do cur <- rd (sttl m) i;
   if initial m then Ok (set_sttl (set_smgr m i (with_real s new)) i new)
   else if negb (new =? real s) then
     let m := set_smgr m i (with_real s new) in
     if negb (new =? cur) && negb (has cur STTL_FORCED) then Ok (kick (set_sttl m i new))
     else Ok m
   else Ok m)).

(** The counter part of [gdnsd_mon_state_updater], src/plugins/mon.c:789-822:
    new (down, n_failure, n_success). *)
Definition count_result (t : svc) (down : bool) (nf ns : N) (latest : bool) : bool * N * N :=
  if down then
    if latest then
      let ns := inc32 ns in
      if ns =? up_thresh t then (false, 0, 0) else (true, nf, ns)
    else (true, nf, 0)
  else
    if latest then
      if negb (nf =? 0) then
        let ns := inc32 ns in
        if ns =? ok_thresh t then (false, 0, 0) else (false, nf, ns)
      else (false, nf, ns)
    else
      let nf := inc32 nf in
      if nf =? down_thresh t then (true, 0, 0) else (false, nf, 0).

(** The TTL part, src/plugins/mon.c:825-833. *)
Definition count_sttl (t : svc) (down : bool) (nf ns : N) : N :=
  let count_to_change := if down then sub32 (up_thresh t) ns else sub32 (down_thresh t) nf in
  let new := (interval t * count_to_change) mod two32 in
  let new := if STTL_TTL_MAX <? new then STTL_TTL_MAX else new in
  if down then N.lor new STTL_DOWN else new.

(** [gdnsd_mon_state_updater], src/plugins/mon.c:771-837. *)
Definition state_updater (m : mon) (i : nat) (latest : bool) : res mon :=
  do s <- rd (smgrs m) i;
  match typ s with
  | None => UB
  | Some t =>
      do (down, nf, ns) <-
        (if initial m then
           rassert (n_failure s =? 0) (rassert (n_success s =? 0) (Ok (negb latest, 0, 0)))
         else Ok (count_result t (has (real s) STTL_DOWN) (n_failure s) (n_success s) latest));
      let s' := {| desc := desc s; typ := typ s; n_failure := nf; n_success := ns; real := real s |} in
      raw_sttl_update (set_smgr m i s') i (count_sttl t down nf ns)
  end.

(** ** Administrative states *)
Section Admin.
  (** fnmatch(3): matches, does not match, or fails (bad glob). *)
  Inductive fnm := FMatch | FNoMatch | FError.
  Variable fnmatch : bytes -> bytes -> fnm.

  (** A value of the admin_state hash: a string, or something else. *)
  Inductive aval := ASimple (s : bytes) | AOther.

  (** [admin_process_entry], src/plugins/mon.c:198-224: [None] on a bad glob. *)
  Fixpoint admin_process_entry (pat : bytes) (ss : list smgr) (updates : list N) (v : N) : option (list N) :=
    match ss, updates with
    | s :: ss', u :: us =>
        match fnmatch pat (desc s) with
        | FError => None
        | FMatch => match admin_process_entry pat ss' us v with Some us' => Some (v :: us') | None => None end
        | FNoMatch => match admin_process_entry pat ss' us v with Some us' => Some (u :: us') | None => None end
        end
    | _, us => Some us
    end.

  (** The parsing loop of [admin_process_hash], src/plugins/mon.c:236-261. *)
  Fixpoint admin_parse (ss : list smgr) (entries : list (bytes * aval)) (updates : list N) : res (option (list N)) :=
    match entries with
    | [] => Ok (Some updates)
    | (pat, AOther) :: _ => Ok None
    | (pat, ASimple txt) :: rest =>
        do r <- mon_parse_sttl txt STTL_TTL_MAX;
        match r with
        | None => Ok None
        | Some v =>
            let v := N.lor v STTL_FORCED in
            rassert (valid_sttl v) (rassert (has v STTL_FORCED)
            (match admin_process_entry pat ss updates v with
             | None => Ok None
             | Some us => admin_parse ss rest us
             end))
        end
    end.

  (** The applying loop, src/plugins/mon.c:263-284: new table and "affected". *)
  Fixpoint admin_apply (ss : list smgr) (tbl updates : list N) : res (list N * bool) :=
    match ss, tbl, updates with
    | s :: ss', c :: tbl', u :: us =>
        do (t', aff) <- admin_apply ss' tbl' us;
        if negb (u =? 0) then
          if negb (c =? u) then Ok (u :: t', true) else Ok (c :: t', aff)
        else if has c STTL_FORCED then
          rassert (negb (has (real s) STTL_FORCED)) (Ok (real s :: t', true))
        else Ok (c :: t', aff)
    | [], [], [] => Ok ([], false)
    | _, _, _ => UB
    end.

  (** [admin_process_hash] with check_only false, src/plugins/mon.c:227-293:
      the new state, and whether the file was accepted. *)
  Definition admin_process_hash (m : mon) (entries : list (bytes * aval)) : res (mon * bool) :=
    match smgrs m with
    | [] => Ok (m, true)
    | _ =>
        do r <- admin_parse (smgrs m) entries (repeat 0 (length (smgrs m)));
        match r with
        | None => Ok (m, false)
        | Some updates =>
            do (tbl, affected) <- admin_apply (smgrs m) (sttl m) updates;
            let m' := {| smgrs := smgrs m; sttl := tbl; consumer := consumer m;
                         pending := pending m; initial := initial m |} in
            Ok (if affected && negb (initial m) then kick m' else m', true)
        end
    end.

  (** [admin_deleted_file], src/plugins/mon.c:323-342. *)
  Fixpoint unforce (ss : list smgr) (tbl : list N) : res (list N * bool) :=
    match ss, tbl with
    | s :: ss', c :: tbl' =>
        do (t', aff) <- unforce ss' tbl';
        if has c STTL_FORCED then rassert (negb (has (real s) STTL_FORCED)) (Ok (real s :: t', true))
        else Ok (c :: t', aff)
    | [], [] => Ok ([], false)
    | _, _ => UB
    end.

  Definition admin_deleted_file (m : mon) : res mon :=
    do (tbl, affected) <- unforce (smgrs m) (sttl m);
    let m' := {| smgrs := smgrs m; sttl := tbl; consumer := consumer m;
                 pending := pending m; initial := initial m |} in
    Ok (if affected then kick m' else m').

  (** A file as [admin_process_file] (src/plugins/mon.c:295-320) sees it: a
      hash of patterns and values, or something that does not parse as one. *)
  Inductive afile := AHash (entries : list (bytes * aval)) | ABroken.

  Inductive op :=
  | OProbe (i : nat) (latest : bool)      (* a monitoring plugin's simple result *)
  | OSttl (i : nat) (v : N)               (* a monitoring plugin's full state *)
  | OAdmin (f : afile)                    (* the admin_state file changed *)
  | ODelete                               (* the admin_state file is gone *)
  | OTimer                                (* the table-update timer fires *).

  Definition step (m : mon) (o : op) : res mon :=
    match o with
    | OProbe i b => state_updater m i b
    | OSttl i v => raw_sttl_update m i v
    | OAdmin (AHash es) => do (m', _) <- admin_process_hash m es; Ok m'
    | OAdmin ABroken => Ok m
    | ODelete => admin_deleted_file m
    | OTimer => Ok (if pending m then sttl_table_update m else m)
    end.

  Fixpoint steps (m : mon) (os : list op) : res mon :=
    match os with
    | [] => Ok m
    | o :: os' => do m' <- step m o; steps m' os'
    end.

  (** Registration ([mon_thing], [gdnsd_mon_admin], src/plugins/mon.c:480-601):
      each item starts in its default state, "down" pseudo-service down. *)
  Definition register (items : list (bytes * option svc * bool)) : mon :=
    let mk := fun x : bytes * option svc * bool =>
      let '(d, t, is_down) := x in
      {| desc := d; typ := t; n_failure := 0; n_success := 0;
         real := if is_down then N.lor STTL_TTL_MAX STTL_DOWN else STTL_TTL_MAX |} in
    let ss := map mk items in
    {| smgrs := ss; sttl := map real ss; consumer := map real ss; pending := false; initial := true |}.

  (** [gdnsd_mon_start], src/plugins/mon.c:421-463: initial probes, then the
      admin file if present, then publication. *)
  Definition mon_start (m : mon) (probes : list op) (f : option afile) : res mon :=
    do m <- steps m probes;
    do m <- match f with Some f => step m (OAdmin f) | None => Ok m end;
    Ok (sttl_table_update {| smgrs := smgrs m; sttl := sttl m; consumer := consumer m;
                             pending := pending m; initial := false |}).
End Admin.

(** ** JSON state output, src/plugins/mon.c:843-960 *)
Definition json_head : bytes := [123; 10].                       (* {\n *)
Definition json_sep : bytes := [44; 10].                         (* ,\n *)
Definition json_foot : bytes := [10; 125; 10].                   (* \n}\n *)
Definition json_t1 : bytes := [9; 34].                           (* tab quote *)
Definition json_t2 : bytes :=                                    (* quote : { state : quote *)
  [34; 58; 32; 123; 34; 115; 116; 97; 116; 101; 34; 58; 32; 34].
Definition json_t3 : bytes :=                                    (* quote , real_state : quote *)
  [34; 44; 32; 34; 114; 101; 97; 108; 95; 115; 116; 97; 116; 101; 34; 58; 32; 34].
Definition json_t4 : bytes := [34; 125].                         (* quote } *)
Definition json_tmpl_len : nat :=
  (length json_t1 + length json_t2 + length json_t3 + length json_t4)%nat.

(** [init_max_states_len], src/plugins/mon.c:857-873.  Plain arithmetic: the
    32-bit product cannot wrap below some 70 million items. *)
Definition max_states_len (m : mon) : nat :=
  let json_var_len := (json_tmpl_len + 10 + length json_sep)%nat in
  (2 * (length json_head + length json_foot + length (smgrs m) * json_var_len +
        fold_right plus O (map (fun s => length (desc s)) (smgrs m)) + 1))%nat.

Definition txt_NA : bytes := [78; 65].
(** [state_str_map] and [get_state_texts], src/plugins/mon.c:876-918. *)
Definition state_txt (typed forced down : bool) : bytes :=
  if forced then (if down then txt_DOWN else txt_UP) ++ [33]
  else if typed then (if down then txt_DOWN else txt_UP)
  else txt_NA.
Definition state_of (s : smgr) (w : N) : bytes :=
  state_txt (match typ s with Some _ => true | None => false end) (has w STTL_FORCED) (has w STTL_DOWN).

(** [gdnsd_mon_states_get_json], src/plugins/mon.c:920-959.  [room] is what is
    left of the buffer; every copy is checked against it, and the
    assertion on snprintf's result is kept. *)
Definition put (room : nat) (out add : bytes) : res (nat * bytes) :=
  if Nat.leb (length add) room then Ok (Nat.sub room (length add), out ++ add) else UB.

Fixpoint json_entries (first : bool) (room : nat) (out : bytes) (ss : list smgr) (tbl : list N)
  : res (nat * bytes) :=
  match ss with
  | [] => Ok (room, out)
  | s :: ss' =>
      do (room, out) <- (if first then Ok (room, out) else put room out json_sep);
      match tbl with
      | [] => UB
      | w :: tbl' =>
          let e := json_t1 ++ desc s ++ json_t2 ++ state_of s w ++ json_t3 ++ state_of s (real s) ++ json_t4 in
          rassert (Nat.ltb (length e) room)
          (do (room, out) <- put room out e;
           json_entries false room out ss' tbl')
      end
  end.

Definition states_json (m : mon) : res bytes :=
  let max := max_states_len m in
  do (room, out) <- put max [] json_head;
  do (room, out) <- json_entries true room out (smgrs m) (sttl m);
  do (room, out) <- put room out json_foot;
  rassert (Nat.ltb (length out) max) (Ok out).
