(** Model of libgdnsd/vscf.rl: the scanner of configuration files.

    The Ragel machine (vscf.rl:619-762) is written out as a transition
    function on bytes.  Ragel's rules used here: a leaving action (%) runs on
    the transition that leaves the machine it is attached to, or at the end of
    the input if the state is final; no action runs on a byte for which there
    is no transition; [$1 %0] prefers staying in an unquoted string to leaving
    it, and the optional [>] to a value that starts with [>].

    When a string value is followed by another string with nothing between
    them, one transition carries the leaving action of the first string
    (set_simple) and the entering action of the second (token_start).  Ragel
    orders the actions of a transition by the order in which the grammar
    mentions them, entering actions first, and the loop in [values] and
    [assigns] puts the entering action first.  The order is the parameter
    [ent_first]; the theorems hold for both values of it. *)
From Verif Require Import Base DnameModel CompModel.
Local Open Scope N_scope.

(** Data (vscf_simple_t, vscf_array_t, vscf_hash_t, vscf.rl:57-98).  A hash is
    the list of its entries in the order of [ordered]; the table [children] is
    the subject of VhashModel.v.  Parents and marks are left out here.  Lengths
    are [unsigned] in C; strings of 2^32 bytes are not considered. *)
Inductive vnode :=
| VS (raw val : bytes)
| VA (l : list vnode)
| VH (l : list (bytes * vnode)).

(** Character classes, vscf.rl:654-674. *)
Definition v_space (c : N) : bool := (c =? 32) || (c =? 9) || (c =? 10).
Definition v_hash (c : N) : bool := (c =? 59) || (c =? 35).
Definition v_chr (c : N) : bool := negb (existsb (N.eqb c) [125;123;59;35;32;9;10;44;34;61;92;93;91]).
Definition v_fchr (c : N) : bool := v_chr c && negb (c =? 36).

(** Which of the machines [main], [array] and [hash] is running (vscf.rl:753-762).
    [KMain fresh]: implicit hash at the top, [fresh] while a top-level array
    is still possible; [KTopArr]: within the brackets of a top-level array. *)
Inductive kind := KMain (fresh : bool) | KTopArr | KArr | KHash.

(** Where in the grammar (vscf.rl:722-751): between items ([comma]: a comma
    may follow), after a key, right after [=], before a value, within
    [$include{] before the name, after the name, after a top-level array. *)
Inductive pos := PItem (comma : bool) | PKey | PEq | PVal | PIncOpen | PIncEnd | PEnd.
Inductive role := RKey | RVal | RInc.

(** Within an escape (vscf.rl:662-663): not in one, after the backslash, after
    the first digit ([two]: it is 2), after the second ([five]: 25 was read). *)
Inductive esc := E0 | E1 | E2 (two : bool) | E3 (five : bool).

Inductive lex :=
| LPos (p : pos)
| LCom (p : pos)            (* in a comment *)
| LU (r : role) (e : esc)   (* in an unquoted string *)
| LQ (r : role) (e : esc)   (* in a quoted string *)
| LQE (r : role)            (* after its closing quote *)
| LInc (n : nat).           (* [n] bytes of [$include{] read *)

Inductive cont := CH (l : list (bytes * vnode)) | CA (l : list vnode).

(** vscf_scnr_t, vscf.rl:100-118.  [s_stk]: the enclosing containers with the
    machine and position to return to (cont_stack and cs_stack) and the key
    under which the inner container was added.  In C the inner container is
    added empty and filled later; here it is added when it is closed.
    [s_tok]: the bytes from tstart on, [None] for a null pointer. *)
Record scn := Scn {
  s_lex : lex;
  s_kind : kind;
  s_cont : cont;
  s_key : option bytes;
  s_stk : list (kind * cont * option bytes);
  s_tok : option bytes
}.

Definition set_lex (x : lex) (s : scn) : scn := Scn x (s_kind s) (s_cont s) (s_key s) (s_stk s) (s_tok s).
Definition set_tok (x : option bytes) (s : scn) : scn := Scn (s_lex s) (s_kind s) (s_cont s) (s_key s) (s_stk s) x.
Definition set_kind (x : kind) (s : scn) : scn := Scn (s_lex s) x (s_cont s) (s_key s) (s_stk s) (s_tok s).
Definition set_key (x : option bytes) (s : scn) : scn := Scn (s_lex s) (s_kind s) (s_cont s) x (s_stk s) (s_tok s).
Definition set_cont (x : cont) (s : scn) : scn := Scn (s_lex s) (s_kind s) x (s_key s) (s_stk s) (s_tok s).

(** The comparison of keys in hash_add_val, vscf.rl:180-187. *)
Definition has_key (k : bytes) (l : list (bytes * vnode)) : bool := existsb (fun e => bytes_eqb k (fst e)) l.

(** add_to_cur_container and scnr_hash_add_val, vscf.rl:206-220, 371-386. *)
Definition add_val (v : vnode) (s : scn) : res (option scn) :=
  match s_cont s with
  | CH l =>
      match s_key s with
      | None => UB   (* gdnsd_assert(scnr->cur_key) *)
      | Some k => if has_key k l then Ok None else Ok (Some (set_key None (set_cont (CH (l ++ [(k, v)])) s)))
      end
  | CA l => Ok (Some (set_cont (CA (l ++ [v])) s))
  end.

(** unescape_string, vscf.rl:253-273. *)
Definition unescape (raw : bytes) : res (option bytes) :=
  match raw with
  | [] => Ok (Some [])
  | _ => do r <- dns_unescape raw 0 (length raw) (length raw + 1) ;
         match r with
         | None => Ok None
         | Some [] => Ok None
         | Some d => Ok (Some d)
         end
  end.

(** Up to the first NUL: what C makes of the bytes as a string. *)
Fixpoint cstr (l : bytes) : bytes :=
  match l with
  | [] => []
  | c :: t => if c =? 0 then [] else c :: cstr t
  end.

(** Up to and including the last slash (strrchr), vscf.rl:529-537. *)
Fixpoint up_to_slash (l : bytes) : bytes :=
  match l with
  | [] => []
  | c :: t => match up_to_slash t with
              | [] => if c =? 47 then [c] else []
              | u => c :: u
              end
  end.

Section Scan.
Variable ent_first : bool.
(** stat says that the path is a directory. *)
Variable isdir : bytes -> bool.
(** glob with GLOB_ERR, and GLOB_NOCHECK if the flag is set: [None] for an
    error, otherwise the paths found (none for GLOB_NOMATCH). *)
Variable glob : bool -> bytes -> option (list bytes).
(** vscf_scan_filename for an included file: [Ok None] if it is refused. *)
Variable load : bytes -> res (option vnode).
(** scnr->fn *)
Variable fn : option bytes.

(** scnr_proc_include, vscf.rl:498-543: the path. *)
Definition inc_path (raw : bytes) : option bytes :=
  match raw with
  | 47 :: _ => Some (cstr raw)
  | _ => match fn with
         | None => None
         | Some f => Some (cstr (up_to_slash f ++ raw))
         end
  end.

(** vscf_include_glob_or_dir, vscf.rl:472-496. *)
Definition inc_files (raw : bytes) : option (list bytes) :=
  match inc_path raw with
  | None => None
  | Some p =>
      if isdir p
      then glob false (p ++ (if (Nat.ltb 0 (length p)) && negb (last p 0 =? 47) then [47] else []) ++ [42])
      else glob true p
  end.

(** The test for the hash-merge context, vscf.rl:412, 452. *)
Definition merging (s : scn) : bool :=
  match s_cont s, s_key s with CH _, None => true | _, _ => false end.

(** The loop of vscf_include_file that moves the entries, vscf.rl:419-427. *)
Fixpoint merge (es : list (bytes * vnode)) (l : list (bytes * vnode)) : option (list (bytes * vnode)) :=
  match es with
  | [] => Some l
  | e :: es => if has_key (fst e) l then None else merge es (l ++ [e])
  end.

(** vscf_include_file, vscf.rl:402-435. *)
Definition include_file (f : bytes) (s : scn) : res (option scn) :=
  do d <- load f ;
  match d with
  | None => Ok None
  | Some d =>
      if merging s then
        match d, s_cont s with
        | VA _, _ => Ok None
        | VH es, CH l => match merge es l with None => Ok None | Some l' => Ok (Some (set_cont (CH l') s)) end
        | _, _ => UB   (* gdnsd_assert(vscf_is_hash(inc_data)) *)
        end
      else add_val d s
  end.

(** vscf_include_glob, vscf.rl:437-470. *)
Fixpoint include_files (fs : list bytes) (s : scn) : res (option scn) :=
  match fs with
  | [] => Ok (Some s)
  | f :: fs => do r <- include_file f s ;
               match r with None => Ok None | Some s' => include_files fs s' end
  end.
Definition include (raw : bytes) (s : scn) : res (option scn) :=
  match inc_files raw with
  | None => Ok None
  | Some fs => if negb (merging s) && Nat.ltb 1 (length fs) then Ok None else include_files fs s
  end.

(** The actions that take a finished token: set_key, set_simple,
    process_include and their _q variants, vscf.rl:628-648, 705-714; set_key,
    scnr_set_simple, vscf.rl:361-369, 388-398.  For a quoted token tstart is
    moved past the opening quote and the end is the closing quote. *)
Definition take (r : role) (raw : bytes) (s : scn) : res (option scn) :=
  match r with
  | RInc => include raw (set_tok None s)
  | RKey => do u <- unescape raw ;
            match u with None => Ok None | Some k => Ok (Some (set_tok None (set_key (Some k) s))) end
  | RVal => do u <- unescape raw ;
            match u with None => Ok None | Some v => add_val (VS raw v) (set_tok None s) end
  end.
Definition leave (q : bool) (r : role) (s : scn) : res (option scn) :=
  match s_tok s with
  | None => UB      (* unquoted: gdnsd_assert(scnr->tstart); quoted: reads from address 1 *)
  | Some t => if q then match t with
                        | _ :: (_ :: _) as t' => take r (removelast t') s
                        | _ => UB   (* length below 0 *)
                        end
              else take r t s
  end.

(** The transitions out of the positions between tokens. *)
Inductive act :=
| AGo (p : pos)             (* blank or punctuation *)
| ACom (p : pos)            (* a comment starts *)
| AOpenA | AOpenH | AClose | ATop | ATopEnd
| AStr (r : role)           (* an unquoted string starts *)
| AEsc (r : role)           (* ... with an escape *)
| AQuo (r : role)           (* a quoted string starts *)
| ADollar.

Definition after (r : role) : pos := match r with RKey => PKey | RVal => PItem true | RInc => PIncEnd end.

Definition is_array (k : kind) : bool := match k with KTopArr | KArr => true | _ => false end.

Definition str_start (r : role) (c : N) : option act :=
  if c =? 34 then Some (AQuo r) else if c =? 92 then Some (AEsc r) else if v_fchr c then Some (AStr r) else None.

(** [value], vscf.rl:722-731. *)
Definition val_start (c : N) : option act :=
  if c =? 91 then Some AOpenA else if c =? 123 then Some AOpenH
  else if c =? 36 then Some ADollar else str_start RVal c.

Definition syn (k : kind) (p : pos) (c : N) : option act :=
  let p' := match p with PEq => PVal | _ => p end in
  if v_space c then Some (AGo p')
  else if v_hash c then Some (ACom p')
  else match p with
  | PItem comma =>
      if (c =? 44) && comma then Some (AGo (PItem false))
      else match k with
           | KArr => if c =? 93 then Some AClose else val_start c
           | KTopArr => if c =? 93 then Some ATopEnd else val_start c
           | KHash => if c =? 125 then Some AClose else if c =? 36 then Some ADollar else str_start RKey c
           | KMain fresh => if (c =? 91) && fresh then Some ATop else if c =? 36 then Some ADollar else str_start RKey c
           end
  | PKey => if c =? 61 then Some (AGo PEq) else None
  | PEq => if c =? 62 then Some (AGo PVal) else val_start c
  | PVal => val_start c
  | PIncOpen => str_start RInc c
  | PIncEnd => if c =? 125 then Some (AGo (PItem true)) else None
  | PEnd => None
  end.

(** The first key or include rules out a top-level array. *)
Definition defresh (k : kind) : kind := match k with KMain _ => KMain false | k => k end.

(** cont_stack_push and fcall, vscf.rl:545-556, 684-694: the container is
    added to the current one (here: room is made for it) and becomes current. *)
Definition open (k : kind) (c : cont) (s : scn) : res (option scn) :=
  match s_cont s with
  | CH l =>
      match s_key s with
      | None => UB
      | Some key => if has_key key l then Ok None
                    else Ok (Some (Scn (LPos (PItem false)) k c None ((s_kind s, s_cont s, Some key) :: s_stk s) (s_tok s)))
      end
  | CA l => Ok (Some (Scn (LPos (PItem false)) k c (s_key s) ((s_kind s, s_cont s, None) :: s_stk s) (s_tok s)))
  end.

(** cont_stack_pop and fret, vscf.rl:558-563, 696-704. *)
Definition close (s : scn) : res (option scn) :=
  match s_stk s with
  | [] => UB
  | (k, c, key) :: stk =>
      let v := match s_cont s with CH l => VH l | CA l => VA l end in
      match c, key with
      | CH l, Some key => Ok (Some (Scn (LPos (PItem true)) k (CH (l ++ [(key, v)])) (s_key s) stk (s_tok s)))
      | CA l, None => Ok (Some (Scn (LPos (PItem true)) k (CA (l ++ [v])) (s_key s) stk (s_tok s)))
      | _, _ => UB
      end
  end.

Definition do_act (a : act) (c : N) (s : scn) : res (option scn) :=
  match a with
  | AGo p => Ok (Some (set_lex (LPos p) s))
  | ACom p => Ok (Some (set_lex (LCom p) s))
  | AOpenA => open KArr (CA []) s
  | AOpenH => open KHash (CH []) s
  | AClose => close s
  | ATop => Ok (Some (Scn (LPos (PItem false)) KTopArr (CA []) (s_key s) (s_stk s) (s_tok s)))  (* top_array, vscf.rl:706-711 *)
  | ATopEnd => Ok (Some (set_lex (LPos PEnd) s))
  | AStr r => Ok (Some (set_lex (LU r E0) (set_tok (Some [c]) (set_kind (defresh (s_kind s)) s))))
  | AEsc r => Ok (Some (set_lex (LU r E1) (set_tok (Some [c]) (set_kind (defresh (s_kind s)) s))))
  | AQuo r => Ok (Some (set_lex (LQ r E0) (set_tok (Some [c]) (set_kind (defresh (s_kind s)) s))))
  | ADollar => Ok (Some (set_lex (LInc 1) (set_kind (defresh (s_kind s)) s)))
  end.

Definition starts_str (a : act) : bool := match a with AStr _ | AEsc _ | AQuo _ => true | _ => false end.

(** A byte that leaves a string: both actions on one transition. *)
Definition leaving (q : bool) (r : role) (c : N) (s : scn) : res (option scn) :=
  match syn (s_kind s) (after r) c with
  | None => Ok None
  | Some a =>
      if ent_first && starts_str a then
        (* token_start has moved tstart to this byte: nothing lies between it
           and the end of the old token *)
        do r1 <- leave q r (set_tok (Some []) s) ;
        match r1 with
        | None => Ok None
        | Some s1 => do r2 <- do_act a c (set_lex (LPos (after r)) s1) ;
                     match r2 with None => Ok None | Some s2 => Ok (Some (set_tok (s_tok s1) s2)) end
        end
      else
        do r1 <- leave q r s ;
        match r1 with
        | None => Ok None
        | Some s1 => do_act a c (set_lex (LPos (after r)) s1)
        end
  end.

(** A byte within an escape. *)
Definition digit (c : N) : bool := (48 <=? c) && (c <=? 57).
Definition esc_step (e : esc) (c : N) : option esc :=
  match e with
  | E0 => None
  | E1 => if digit c then (if c <=? 49 then Some (E2 false) else if c =? 50 then Some (E2 true) else None) else Some E0
  | E2 false => if digit c then Some (E3 false) else None
  | E2 true => if digit c then (if c <=? 52 then Some (E3 false) else if c =? 53 then Some (E3 true) else None) else None
  | E3 false => if digit c then Some E0 else None
  | E3 true => if digit c && (c <=? 53) then Some E0 else None
  end.

(** ["$include{"] *)
Definition inc_word : bytes := [36; 105; 110; 99; 108; 117; 100; 101; 123].

Definition more (c : N) (s : scn) : scn := set_tok (match s_tok s with None => None | Some t => Some (t ++ [c]) end) s.

(** One byte. *)
Definition step (c : N) (s : scn) : res (option scn) :=
  match s_lex s with
  | LPos p => match syn (s_kind s) p c with None => Ok None | Some a => do_act a c s end
  | LCom p => if c =? 10 then Ok (Some (set_lex (LPos p) s)) else Ok (Some s)
  | LU r E0 =>
      if v_chr c then Ok (Some (more c s))
      else if c =? 92 then Ok (Some (set_lex (LU r E1) (more c s)))
      else leaving false r c s
  | LU r e => match esc_step e c with None => Ok None | Some e' => Ok (Some (set_lex (LU r e') (more c s))) end
  | LQ r E0 =>
      if c =? 34 then Ok (Some (set_lex (LQE r) (more c s)))
      else if c =? 92 then Ok (Some (set_lex (LQ r E1) (more c s)))
      else Ok (Some (more c s))
  | LQ r e => match esc_step e c with None => Ok None | Some e' => Ok (Some (set_lex (LQ r e') (more c s))) end
  | LQE r => leaving true r c s
  | LInc n =>
      if c =? nth n inc_word 0
      then Ok (Some (set_lex (if Nat.eqb n 8 then LPos PIncOpen else LInc (S n)) s))
      else Ok None
  end.

Fixpoint run (t : bytes) (s : scn) : res (option scn) :=
  match t with
  | [] => Ok (Some s)
  | c :: t => do r <- step c s ; match r with None => Ok None | Some s' => run t s' end
  end.

(** The end of the input: leaving actions of final states; the result,
    vscf.rl:806-838. *)
Definition result (s : scn) : option vnode := Some (match s_cont s with CH l => VH l | CA l => VA l end).
Definition at_eof (s : scn) : res (option vnode) :=
  match s_kind s, s_lex s with
  | KMain _, LPos (PItem _) => rassert (match s_stk s with [] => true | _ => false end) (Ok (result s))
  | KTopArr, LPos PEnd => rassert (match s_stk s with [] => true | _ => false end) (Ok (result s))
  | KMain _, LU RVal E0 =>
      do r <- leave false RVal s ;
      match r with None => Ok None | Some s' => rassert (match s_stk s' with [] => true | _ => false end) (Ok (result s')) end
  | KMain _, LQE RVal =>
      do r <- leave true RVal s ;
      match r with None => Ok None | Some s' => rassert (match s_stk s' with [] => true | _ => false end) (Ok (result s')) end
  | _, _ => Ok None
  end.

(** vscf_scan_buf, vscf.rl:774-849.  (tstart points to the buffer at first; no
    action uses it before token_start has set it.) *)
Definition scn0 : scn := Scn (LPos (PItem false)) (KMain true) (CH []) None [] None.
Definition scan_buf (t : bytes) : res (option vnode) :=
  do r <- run t scn0 ; match r with None => Ok None | Some s => at_eof s end.

End Scan.

(** vscf_scan_filename, vscf.rl:851-866, with the nesting of included files.
    [fs]: contents of regular files that can be read (gdnsd_fmap_new).
    [depth] is what the stack allows; deeper is a stack overflow. *)
Section Files.
Variable ent_first : bool.
Variable isdir : bytes -> bool.
Variable glob : bool -> bytes -> option (list bytes).
Variable fs : bytes -> option bytes.
Fixpoint scan_file (depth : nat) (f : bytes) : res (option vnode) :=
  match depth with
  | O => UB
  | S depth => match fs f with
               | None => Ok None
               | Some t => scan_buf ent_first isdir glob (scan_file depth) (Some f) t
               end
  end.
End Files.
