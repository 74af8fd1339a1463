(** Model of the zone file scanner, src/zscan_rfc1035.rl.

    The file has three layers, and so has the model: the pre-processing of the
    text (comments and parentheses), the grammar (a Ragel machine), and the
    actions that the machine runs on the scanner's state.  The machine is
    modelled by [scan], which gives the actions with their texts in the order
    in which they run, and whether the whole text was accepted.  An action that
    runs when a token is left ("%action" in Ragel) runs only if the byte after
    the token can follow it; that is the argument [follow] below.

    Simplifications.  Line counts and messages are left out; a message followed
    by the long jump is the outcome [None].  The records are collected in order
    instead of being given to the ltree_add_rec functions one by one (these do
    not change the scanner's state; LtreeModel.add_recs adds them).  A file's
    content is a function of its name ([fs]), so files do not change during one
    load.  Memory does not run out.  The parts of the union at lines 80-84 are
    separate fields (every statement that reads one has written it before).
    The process going down (log_fatal) is the outcome [UB], as is a failed
    gdnsd_assert. *)
From Verif Require Import Base DnameModel CompModel RespModel LtreeModel.
Local Open Scope N_scope.

(** ** Characters, lines 914-988 *)
Definition isblank (c : N) : bool := (c =? 32) || (c =? 9) || (c =? 12).
Definition at_end (c : N) : bool := isblank c || (c =? 10).
Definition isalpha (c : N) : bool := ((65 <=? c) && (c <=? 90)) || ((97 <=? c) && (c <=? 122)).
Definition isalnum (c : N) : bool := isdig c || isalpha c.
Definition ishex (c : N) : bool := isdig c || ((65 <=? c) && (c <=? 70)) || ((97 <=? c) && (c <=? 102)).
Definition ismult (c : N) : bool :=
  let d := N.lor c 32 in isalpha c && ((d =? 109) || (d =? 104) || (d =? 100) || (d =? 119)).
Definition lit_chr (c : N) : bool :=
  negb ((c =? 59) || isblank c || (c =? 34) || (c =? 10) || (c =? 92) || (c =? 41) || (c =? 40)).
Definition q_chr (c : N) : bool := negb ((c =? 34) || (c =? 92)).
Definition plug_chr (c : N) : bool := lit_chr c && negb (c =? 33).
Definition v4_chr (c : N) : bool := isdig c || (c =? 46).
Definition v6_chr (c : N) : bool := ishex c || (c =? 58) || (c =? 46).

(** ** Pre-processing, [preprocess_buf], lines 766-841.  The loop over the
    index is recursion over the rest of the buffer.  [PComment]: inside the
    inner loop at lines 791-793; [PSkip]: the byte after a backslash. *)
Inductive pmode := PText | PComment | PSkip.
Fixpoint preprocess (m : pmode) (in_quotes in_parens : bool) (l : bytes) : res (option bytes) :=
  match l with
  | [] =>
      match m with
      | PText => if in_quotes then Ok None else if in_parens then Ok None else Ok (Some [])
      | PComment | PSkip => UB                               (* reads past the end *)
      end
  | c :: l =>
      match m with
      | PComment =>
          if c =? 10 then zdo r <- preprocess PText in_quotes in_parens l ; Ok (Some ((if in_parens then 12 else 10) :: r))
          else zdo r <- preprocess PComment in_quotes in_parens l ; Ok (Some (32 :: r))
      | PSkip => zdo r <- preprocess PText in_quotes in_parens l ; Ok (Some (c :: r))
      | PText =>
          if c =? 10 then
            zdo r <- preprocess PText in_quotes in_parens l ;
            Ok (Some ((if in_parens && negb in_quotes then 12 else 10) :: r))
          else if c =? 59 then
            if negb in_quotes then zdo r <- preprocess PComment in_quotes in_parens l ; Ok (Some (32 :: r))
            else zdo r <- preprocess PText in_quotes in_parens l ; Ok (Some (c :: r))
          else if c =? 34 then zdo r <- preprocess PText (negb in_quotes) in_parens l ; Ok (Some (c :: r))
          else if c =? 40 then
            if negb in_quotes then
              if in_parens then Ok None
              else zdo r <- preprocess PText in_quotes true l ; Ok (Some (32 :: r))
            else zdo r <- preprocess PText in_quotes in_parens l ; Ok (Some (c :: r))
          else if c =? 41 then
            if negb in_quotes then
              if negb in_parens then Ok None
              else zdo r <- preprocess PText in_quotes false l ; Ok (Some (32 :: r))
            else zdo r <- preprocess PText in_quotes in_parens l ; Ok (Some (c :: r))
          else if c =? 92 then zdo r <- preprocess PSkip in_quotes in_parens l ; Ok (Some (c :: r))
          else if c =? 12 then
            if negb in_quotes then Ok None
            else zdo r <- preprocess PText in_quotes in_parens l ; Ok (Some (c :: r))
          else zdo r <- preprocess PText in_quotes in_parens l ; Ok (Some (c :: r))
      end
  end.

(** ** The actions, lines 848-912 *)
Inductive action :=
| SetLhs (t : bytes) | SetRhs (t : bytes) | SetEml (t : bytes)
| UseDefTtl                                     (* use_def_ttl and use_def_ttl_dyn *)
| SetUval (digits : bytes) | MultUval (c : N) | SetTtl | SetTtlDyn | SetDefTtl | SetUv (k : nat)
| ResetOrigin | ResetRhsOrigin | SetFilename (t : bytes) | ProcessInclude
| TextStart | PushTxt (t : bytes) | PushTxt255 (t : bytes) | PushTxtHuge (t : bytes)
| SetIpv4 (t : bytes) | SetIpv6 (t : bytes) | SetDyna (t : bytes) | SetCaaProp (t : bytes)
| DataSetup | Octet (a b : N)
| RecSoa | RecA | RecAaaa | RecNs | RecCname | RecPtr | RecMx | RecSrv | RecNaptr | RecTxt | RecDyna | RecDync
| RecRfc3597 | RecCaa.

(** ** The machine.  A lexer gives the actions run and, unless it stops, the
    rest of the text. *)
Definition lexer := bytes -> list action * option bytes.
Definition lfail : lexer := fun _ => ([], None).
Definition emit (a : list action) : lexer := fun l => (a, Some l).
Definition lseq (a b : lexer) : lexer := fun l =>
  let (x, r) := a l in
  match r with
  | None => (x, None)
  | Some l => let (y, r) := b l in (x ++ y, r)
  end.
Infix ";;" := lseq (at level 61, right associativity).

Fixpoint span (p : N -> bool) (l : bytes) : bytes * bytes :=
  match l with
  | [] => ([], [])
  | c :: r => if p c then let (a, b) := span p r in (c :: a, b) else ([], l)
  end.
Definition span1 (p : N -> bool) (l : bytes) : option (bytes * bytes) :=
  match span p l with ([], _) => None | (t, r) => Some (t, r) end.

(** characters that satisfy [ok], and [escapes], line 924, as many as there
    are; [None]: a broken escape *)
Fixpoint word (ok : N -> bool) (l : bytes) : option (bytes * bytes) :=
  match l with
  | [] => Some ([], [])
  | c :: r =>
      if c =? 92 then
        match r with
        | [] => None
        | d :: r =>
            if isdig d then
              match r with
              | e :: f :: r =>
                  if isdig e && isdig f then
                    match word ok r with None => None | Some (t, r) => Some (c :: d :: e :: f :: t, r) end
                  else None
              | _ => None
              end
            else match word ok r with None => None | Some (t, r) => Some (c :: d :: t, r) end
        end
      else if ok c then match word ok r with None => None | Some (t, r) => Some (c :: t, r) end
      else Some ([], l)
  end.
Definition word1 (ok : N -> bool) (l : bytes) : option (bytes * bytes) :=
  match word ok l with Some ([], _) => None | x => x end.

(** [qword], line 927, after the opening quote; gives the text inside *)
Definition qrest (l : bytes) : option (bytes * bytes) :=
  match word q_chr l with Some (t, 34 :: r) => Some (t, r) | _ => None end.
(** [dname] or [qword], lines 940-945 *)
Definition name_tok (l : bytes) : option (bytes * bytes) :=
  match l with
  | 34 :: r => qrest r
  | 36 :: _ => None
  | _ => word1 lit_chr l
  end.
(** [tword] or [qword], lines 937, 948-954 *)
Definition txt_tok (l : bytes) : option (bytes * bytes) :=
  match l with 34 :: r => qrest r | _ => word1 lit_chr l end.
(** [plugres ('!' plugres)?], lines 934, 963 *)
Definition plug_tok (l : bytes) : option (bytes * bytes) :=
  match word1 plug_chr l with
  | Some (p, 33 :: r) =>
      match word1 plug_chr r with Some (q, r) => Some (p ++ 33 :: q, r) | None => None end
  | x => x
  end.

(** a token, and the actions run when it is left *)
Definition tk (read : bytes -> option (bytes * bytes)) (follow : N -> bool) (acts : bytes -> list action) : lexer := fun l =>
  match read l with
  | Some (t, c :: r) => if follow c then (acts t, Some (c :: r)) else ([], None)
  | _ => ([], None)
  end.
(** one byte *)
Definition one (p : N -> bool) : lexer := fun l =>
  match l with c :: r => if p c then ([], Some r) else ([], None) | [] => ([], None) end.
(** [ws], line 920 *)
Definition skip_blanks (l : bytes) : bytes := snd (span isblank l).
Definition ws : lexer := one isblank ;; fun l => ([], Some (skip_blanks l)).
(** [ws? nl], line 1048 *)
Definition eol : lexer := fun l => one (N.eqb 10) (skip_blanks l).

(** [uval], line 967 *)
Definition uval (follow : N -> bool) (acts : list action) : lexer := tk (span1 isdig) follow (fun d => SetUval d :: acts).
(** [ttl], lines 968-970, followed by an action *)
Definition ttl (follow : N -> bool) (acts : list action) : lexer :=
  uval (fun c => ismult c || follow c) [] ;;
  (fun l => match l with c :: r => if ismult c then ([MultUval c], Some r) else ([], Some l) | [] => ([], None) end) ;;
  (fun l => match l with c :: r => if follow c then (acts, Some l) else ([], None) | [] => ([], None) end).

(** The data of records, lines 1009-1033 *)
Definition name_rec (acts : list action) : lexer := ws ;; tk name_tok at_end (fun t => SetRhs t :: acts).
(** [txt_rdata], line 957, and the action at the end of the line *)
Definition txt_follow (c : N) : bool := at_end c || (c =? 34) || (c =? 92) || lit_chr c.
Fixpoint txt_items (fuel : nat) (some : bool) (l : bytes) : list action * option bytes :=
  match fuel with
  | O => ([], None)
  | S fuel =>
      match l with
      | [] => ([], None)
      | c :: r =>
          if c =? 10 then if some then ([RecTxt], Some l) else ([], None)
          else if isblank c then txt_items fuel true r
          else (tk txt_tok txt_follow (fun t => [PushTxt t]) ;; txt_items fuel true) l
      end
  end.
Definition txt_data : lexer := one isblank ;; emit [TextStart] ;; fun l => txt_items (S (length l)) false l.
(** [rfc3597_rdata], lines 984-986.  The zero-iteration state of the "**"
    group is final and has no leaving priority, so that a second blank after the
    length runs rec_rfc3597 (with no data yet); after the first octet blanks
    belong to the group. *)
Fixpoint octets (some : bool) (l : bytes) : list action * option bytes :=
  match l with
  | [] => ([], None)
  | c :: r =>
      if c =? 10 then ([RecRfc3597], Some l)
      else if isblank c then if some then octets true r else ([RecRfc3597], None)
      else if ishex c then
        match r with
        | d :: ((e :: _) as r) =>
            if ishex d && (ishex e || at_end e) then let (x, y) := octets true r in (Octet c d :: x, y)
            else ([], None)
        | _ => ([], None)
        end
      else ([], None)
  end.

Inductive rrtype := TA | TAAAA | TNS | TCNAME | TPTR | TMX | TTXT | TSRV | TNAPTR | TSOA | TTYPE | TCAA | TDYNA | TDYNC.
(** the names of the types in lower case *)
Definition keywords : list (bytes * rrtype) :=
  [([97], TA); ([97; 97; 97; 97], TAAAA); ([110; 115], TNS); ([99; 110; 97; 109; 101], TCNAME); ([112; 116; 114], TPTR);
   ([109; 120], TMX); ([116; 120; 116], TTXT); ([115; 114; 118], TSRV); ([110; 97; 112; 116; 114], TNAPTR);
   ([115; 111; 97], TSOA); ([116; 121; 112; 101], TTYPE); ([99; 97; 97], TCAA); ([100; 121; 110; 97], TDYNA);
   ([100; 121; 110; 99], TDYNC)].
Fixpoint lookup {A} (w : bytes) (tab : list (bytes * A)) : option A :=
  match tab with
  | [] => None
  | (k, a) :: tab => if bytes_eqb w k then Some a else lookup w tab
  end.
Definition keyword {A} (w : bytes) (tab : list (bytes * A)) : option A := lookup (map downcase w) tab.

Definition rdata (ty : rrtype) : lexer :=
  match ty with
  | TA => ws ;; tk (span1 v4_chr) at_end (fun t => [SetIpv4 t; RecA])
  | TAAAA => ws ;; tk (span1 v6_chr) at_end (fun t => [SetIpv6 t; RecAaaa])
  | TNS => name_rec [RecNs]
  | TCNAME => name_rec [RecCname]
  | TPTR => name_rec [RecPtr]
  | TMX => ws ;; uval isblank [] ;; name_rec [RecMx]
  | TTXT => txt_data
  | TSRV => ws ;; uval isblank [SetUv 1] ;; ws ;; uval isblank [SetUv 2] ;; ws ;; uval isblank [SetUv 3] ;; name_rec [RecSrv]
  | TNAPTR =>
      ws ;; uval isblank [SetUv 1] ;; ws ;; uval isblank [SetUv 2] ;; ws ;; emit [TextStart] ;;
      tk txt_tok isblank (fun t => [PushTxt255 t]) ;; ws ;; tk txt_tok isblank (fun t => [PushTxt255 t]) ;; ws ;;
      tk txt_tok isblank (fun t => [PushTxt255 t]) ;; name_rec [RecNaptr]
  | TSOA =>
      ws ;; tk name_tok isblank (fun t => [SetRhs t]) ;; ws ;; tk name_tok isblank (fun t => [SetEml t]) ;;
      ws ;; ttl isblank [SetUv 1] ;; ws ;; ttl isblank [SetUv 2] ;; ws ;; ttl isblank [SetUv 3] ;;
      ws ;; ttl isblank [SetUv 4] ;; ws ;; ttl at_end [SetUv 5; RecSoa]
  | TTYPE =>
      uval isblank [SetUv 1] ;; ws ;; one (N.eqb 92) ;; one (N.eqb 35) ;; ws ;; uval isblank [DataSetup] ;;
      one isblank ;; octets false
  | TCAA =>
      ws ;; uval isblank [] ;; ws ;; tk (span1 isalnum) isblank (fun t => [SetCaaProp t]) ;; ws ;; emit [TextStart] ;;
      tk txt_tok at_end (fun t => [PushTxtHuge t; RecCaa])
  | TDYNA => ws ;; tk plug_tok at_end (fun t => [SetDyna t; RecDyna])
  | TDYNC => ws ;; tk plug_tok at_end (fun t => [SetDyna t; RecDync])
  end.

(** [rr_lhs], [rr_lhs_dyn] and [rr], lines 995-1004, 1036: the two run side by
    side until a slash or the type tells them apart. *)
Definition rr_rhs (dyn : bool) : lexer := fun l =>
  let (w, r) := span isalpha l in
  match keyword w keywords with
  | Some ty => if dyn && negb match ty with TDYNA | TDYNC => true | _ => false end then ([], None) else rdata ty r
  | None => ([], None)
  end.
Definition opt_in (k : lexer) : lexer := fun l =>
  let (w, r) := span isalpha l in
  match keyword w [([105; 110], tt)] with Some _ => (ws ;; k) r | None => k l end.
Definition starts (p : N -> bool) (l : bytes) : bool := match l with c :: _ => p c | [] => false end.
Definition ttl_any (k : bool -> lexer) : lexer :=
  ttl (fun c => isblank c || (c =? 47)) [] ;;
  fun l => if starts (N.eqb 47) l
           then (emit [SetUv 1] ;; one (N.eqb 47) ;; ttl isblank [SetUv 2; SetTtlDyn] ;; ws ;; k true) l
           else (emit [SetTtl; SetUv 1; SetTtlDyn] ;; ws ;; k false) l.
Definition rr_rest : lexer := fun l =>
  if starts isdig l then ttl_any (fun dyn => opt_in (rr_rhs dyn)) l
  else opt_in (fun l => if starts isdig l then ttl_any rr_rhs l else rr_rhs false l) l.
Definition rr : lexer :=
  (fun l => if starts isblank l then ([], Some l) else tk name_tok isblank (fun t => [SetLhs t]) l) ;;
  ws ;; emit [UseDefTtl] ;; rr_rest.

(** [cmd], lines 1039-1043.  The priorities "$1 %0" make a blank after the file
    name belong to the origin that must then follow. *)
Inductive command := CTtl | COrigin | CInclude.
Definition commands : list (bytes * command) :=
  [([116; 116; 108], CTtl); ([111; 114; 105; 103; 105; 110], COrigin); ([105; 110; 99; 108; 117; 100; 101], CInclude)].
Definition cmd : lexer := fun l =>
  let (w, r) := span isalpha l in
  match keyword w commands with
  | Some CTtl => (ws ;; ttl at_end [SetDefTtl]) r
  | Some COrigin => name_rec [ResetOrigin] r
  | Some CInclude =>
      (emit [ResetRhsOrigin] ;; ws ;; tk txt_tok at_end (fun t => [SetFilename t]) ;;
       fun l => if starts (N.eqb 10) l then ([ProcessInclude], Some l) else name_rec [ProcessInclude] l) r
  | None => ([], None)
  end.

(** [statement? ws? nl] and [main], lines 1047-1048 *)
Definition line : lexer := fun l =>
  match l with
  | 36 :: r => (cmd ;; eol) r
  | _ => if starts (N.eqb 10) (skip_blanks l) then eol l else (rr ;; eol) l
  end.
Fixpoint scan (fuel : nat) (l : bytes) : list action * bool :=
  match fuel with
  | O => ([], false)
  | S fuel =>
      match l with
      | [] => ([], true)
      | _ => match line l with
             | (a, None) => (a, false)
             | (a, Some r) => let (b, ok) := scan fuel r in (a ++ b, ok)
             end
      end
  end.

(** ** The scanner's state, lines 53-87 *)
Record zst := { z_def_ttl : N; z_uval : N; z_ttl : N; z_ttl_mn : N; z_uv : list N;      (* uv_1 .. uv_5 *)
  z_origin : bytes; z_forigin : bytes; z_lhs : bytes; z_ooz : bool; z_rhs : bytes; z_eml : bytes;   (* 256 bytes each *)
  z_dyn : bytes; z_caa : bytes; z_v4 : bytes; z_v6 : bytes;
  z_text : option bytes;                                    (* None: NULL *)
  z_data : option (N * bytes);                              (* length, bytes written *)
  z_fname : option bytes; z_out : list record }.
Definition set_nums z d u t m uv := {| z_def_ttl := d; z_uval := u; z_ttl := t; z_ttl_mn := m; z_uv := uv;
  z_origin := z_origin z; z_forigin := z_forigin z; z_lhs := z_lhs z; z_ooz := z_ooz z; z_rhs := z_rhs z; z_eml := z_eml z;
  z_dyn := z_dyn z; z_caa := z_caa z; z_v4 := z_v4 z; z_v6 := z_v6 z; z_text := z_text z; z_data := z_data z;
  z_fname := z_fname z; z_out := z_out z |}.
Definition set_names z o l z_ r e := {| z_def_ttl := z_def_ttl z; z_uval := z_uval z; z_ttl := z_ttl z; z_ttl_mn := z_ttl_mn z;
  z_uv := z_uv z; z_origin := o; z_forigin := z_forigin z; z_lhs := l; z_ooz := z_; z_rhs := r; z_eml := e;
  z_dyn := z_dyn z; z_caa := z_caa z; z_v4 := z_v4 z; z_v6 := z_v6 z; z_text := z_text z; z_data := z_data z;
  z_fname := z_fname z; z_out := z_out z |}.
Definition set_small z d c v4 v6 := {| z_def_ttl := z_def_ttl z; z_uval := z_uval z; z_ttl := z_ttl z; z_ttl_mn := z_ttl_mn z;
  z_uv := z_uv z; z_origin := z_origin z; z_forigin := z_forigin z; z_lhs := z_lhs z; z_ooz := z_ooz z; z_rhs := z_rhs z;
  z_eml := z_eml z; z_dyn := d; z_caa := c; z_v4 := v4; z_v6 := v6; z_text := z_text z; z_data := z_data z;
  z_fname := z_fname z; z_out := z_out z |}.
Definition set_heap z t d f o := {| z_def_ttl := z_def_ttl z; z_uval := z_uval z; z_ttl := z_ttl z; z_ttl_mn := z_ttl_mn z;
  z_uv := z_uv z; z_origin := z_origin z; z_forigin := z_forigin z; z_lhs := z_lhs z; z_ooz := z_ooz z; z_rhs := z_rhs z;
  z_eml := z_eml z; z_dyn := z_dyn z; z_caa := z_caa z; z_v4 := z_v4 z; z_v6 := z_v6 z; z_text := t; z_data := d;
  z_fname := f; z_out := o |}.
Definition with_text z t := set_heap z t (z_data z) (z_fname z) (z_out z).

(** the labels in a dname buffer (the records of LtreeModel have label lists) *)
Fixpoint buf_labels (fuel : nat) (buf : bytes) (p : nat) : res name :=
  match fuel with
  | O => UB
  | S fuel =>
      do c <- rd buf p ;
      if c =? 0 then Ok []
      else if c =? 255 then UB
      else do l <- rdn buf (S p) (N.to_nat c) ; do ls <- buf_labels fuel buf (S p + N.to_nat c) ; Ok (l :: ls)
  end.
Definition name_of (buf : bytes) : res name := buf_labels 256 buf 1.

(** [dname_copy], include/gdnsd/dname.h:253-259 *)
Definition dname_copy (dst src : bytes) : res bytes :=
  do n <- rd src 0 ; rassert (0 <? n) (rassert (n <? 256) (do d <- rdn src 0 (N.to_nat n + 1) ; wr dst 0 d)).

(** the C string in a buffer *)
Fixpoint until_nul (l : bytes) : bytes :=
  match l with [] => [] | c :: r => if c =? 0 then [] else c :: until_nul r end.

Section Scanner.
  Variable zone : bytes.                              (* [z->zone->dname] *)
  Variable autosplit : bool.                          (* not disable_text_autosplit *)
  Variable pton4 pton6 : bytes -> option bytes.       (* inet_pton *)

  (** [dn_find_final_label_offset], lines 155-170 *)
  Fixpoint final_loop (fuel : nat) (dn : bytes) (p next : nat) : res nat :=
    match fuel with
    | O => UB
    | S fuel =>
        do c <- rd dn (p + next) ;
        if c =? 255 then Ok p
        else let p := (p + next)%nat in do l <- rd dn p ; final_loop fuel dn p (N.to_nat l + 1)
    end.
  Definition final_label_offset (dn : bytes) : res nat :=
    do s <- dname_status dn ;
    rassert (status_eqb s DNAME_PARTIAL) (do l <- rd dn 1 ; final_loop 256 dn 1 (N.to_nat l + 1)).

  (** [dn_qualify], lines 186-220 *)
  Definition dn_qualify (dn origin file_origin : bytes) : res (dstatus * bytes) :=
    do s <- dname_status dn ;
    rassert (status_eqb s DNAME_PARTIAL)
      (do b0 <- rd dn 0 ; do b2 <- rd dn 2 ;
       if (b0 =? 3) && (b2 =? 64) then
         do b1 <- rd dn 1 ; do b3 <- rd dn 3 ;
         rassert ((b1 =? 1) && (b3 =? 255)) (do dn <- dname_copy dn origin ; Ok (DNAME_VALID, dn))
       else
         do off <- final_label_offset dn ;
         do len <- rd dn off ;
         rassert (negb (len =? 0))
           (do at_ <- rd dn (off + 1) ;
            if (len =? 2) && (at_ =? 64) then
              do which <- rd dn (off + 2) ;
              do dn <- wr dn off [255] ;
              do dn <- wr dn 0 [b0 - 3] ;
              if which =? 122 then dname_cat dn zone
              else if which =? 102 then dname_cat dn file_origin
              else Ok (DNAME_INVALID, dn)
            else dname_cat dn origin)).

  (** [dname_set], lines 222-266; [None]: a parse error.  Gives the buffer and,
      for the left side, whether the name is out of the zone. *)
  Definition dname_set (z : zst) (dn text : bytes) (lhs : bool) : zres (bytes * bool) :=
    do r <- (if (length text =? 0)%nat
             then rassert lhs (do dn <- dname_copy dn (z_origin z) ; Ok (DNAME_VALID, dn))
             else dname_from_string dn text) ;
    let (status, dn) := r in
    match status with
    | DNAME_INVALID => zfatal
    | DNAME_VALID =>
        if lhs then
          do inzone <- dname_isinzone zone dn ;
          if (inzone : bool) then do dn <- dname_drop_zone dn zone ; Ok (Some (dn, false)) else Ok (Some (dn, true))
        else Ok (Some (dn, false))
    | DNAME_PARTIAL =>
        do r <- dn_qualify dn (z_origin z) (z_forigin z) ;
        let (catstat, dn) := r in
        if status_eqb catstat DNAME_INVALID then zfatal
        else rassert (status_eqb catstat DNAME_VALID)
               (if lhs then do dn <- dname_drop_zone dn zone ; Ok (Some (dn, false)) else Ok (Some (dn, false)))
    end.

  (** [set_uval], lines 130-138: strtoul with 64 bits, kept in 32 *)
  Definition digits_val (d : bytes) : N := fold_left (fun v c => 10 * v + (c - 48)) d 0.
  Definition set_uval (d : bytes) : zres N :=
    let v := digits_val d in if W64 <=? v then zfatal else Ok (Some (v mod two32)).
  (** [mult_uval], lines 504-524 *)
  Definition mult_uval (u fc : N) : res N :=
    let fc := N.lor fc 32 in
    if fc =? 109 then Ok (u * 60 mod two32)
    else if fc =? 104 then Ok (u * 3600 mod two32)
    else if fc =? 100 then Ok (u * 86400 mod two32)
    else if fc =? 119 then Ok (u * 604800 mod two32)
    else UB.

  (** the unescaping at lines 340-347, 403-410 *)
  Definition unescape_tok (tok : bytes) : zres bytes :=
    if (length tok =? 0)%nat then Ok (Some [])
    else do r <- dns_unescape tok 0 (length tok) (length tok) ;
         match r with
         | None => zfatal
         | Some d => if (length d =? 0)%nat then zfatal else rassert (length d <=? length tok)%nat (Ok (Some d))
         end.
  (** the copying loop, lines 370-379: [n] whole pieces and the remainder *)
  Fixpoint pieces (n : nat) (d : bytes) (remainder : nat) : res bytes :=
    match n with
    | O => if (remainder =? 0)%nat then Ok []
           else do x <- rdn d 0 remainder ; Ok (N.of_nat remainder mod 256 :: x)
    | S n => do x <- rdn d 0 255 ; do r <- pieces n (skipn 255 d) remainder ; Ok (255 :: x ++ r)
    end.
  (** [text_add_tok], lines 335-396 *)
  Definition text_add_tok (z : zst) (tok : bytes) (big_ok : bool) : zres zst :=
    zdo d <- unescape_tok tok ;
    let newlen := N.of_nat (length d) in
    let text := match z_text z with Some t => t | None => [] end in
    if 255 <? newlen then
      if negb big_ok || negb autosplit then zfatal
      else if 16000 <? newlen then zfatal
      else
        let remainder := newlen mod 255 in
        let whole := (newlen - remainder) / 255 in
        let new_alloc := newlen + whole + (if remainder =? 0 then 0 else 1) in
        if 16000 <? new_alloc + N.of_nat (length text) then zfatal
        else do p <- pieces (N.to_nat whole) d (N.to_nat remainder) ;
             rassert (N.of_nat (length p) =? new_alloc) (Ok (Some (with_text z (Some (text ++ p)))))
    else
      let new_alloc := newlen + 1 in
      if 16000 <? new_alloc + N.of_nat (length text) then zfatal
      else Ok (Some (with_text z (Some (text ++ newlen :: d)))).
  (** [text_add_tok_huge], lines 398-424 *)
  Definition text_add_tok_huge (z : zst) (tok : bytes) : zres zst :=
    zdo d <- unescape_tok tok ;
    if 16000 <? N.of_nat (length d) then zfatal
    else match z_text z with None => Ok (Some (with_text z (Some d))) | Some _ => UB end.

  (** [_make_zfn], lines 441-456: what comes before and including the last
      slash of the current file's name *)
  Fixpoint upto_slash (l : bytes) : option bytes :=
    match l with
    | [] => None
    | c :: r => match upto_slash r with
                | Some d => Some (c :: d)
                | None => if c =? 47 then Some [c] else None
                end
    end.
  Definition make_zfn (curfn include_fn : bytes) : res bytes :=
    match include_fn with
    | 47 :: _ => Ok include_fn
    | _ => match upto_slash curfn with Some d => Ok (d ++ include_fn) | None => UB end
    end.

  (** [hexbyte], lines 473-502 *)
  Definition hexval (c : N) : N := if c <=? 57 then c - 48 else N.lor c 32 - 87.
  Definition hexbyte (a b : N) : N := 16 * hexval a + hexval b.

  (** [validate_lhs_not_ooz], lines 148-153, and the record's owner *)
  Definition in_zone_rec (z : zst) (f : name -> res record) (z' : zst) : zres zst :=
    if z_ooz z then zfatal
    else do d <- name_of (z_lhs z) ; do r <- f d ; Ok (Some (set_heap z' (z_text z') (z_data z') (z_fname z') (z_out z' ++ [r]))).
  (** for the records with a name on the right *)
  Definition with_rhs (z : zst) (f : name -> record) : res record := do n <- name_of (z_rhs z) ; Ok (f n).
  Definition uvk (z : zst) (k : nat) : N := nth (k - 1) (z_uv z) 0.

  (** Reading a file within the one being read is the argument [incl]. *)
  Variable incl : bytes -> bytes -> N -> zres (list record).
  Variable curfn : bytes.

  Definition act (a : action) (z : zst) : zres zst :=
    let nums := set_nums z in
    match a with
    | SetLhs t => zdo r <- dname_set z (z_lhs z) t true ;
                  Ok (Some (set_names z (z_origin z) (fst r) (snd r) (z_rhs z) (z_eml z)))
    | SetRhs t => zdo r <- dname_set z (z_rhs z) t false ;
                  Ok (Some (set_names z (z_origin z) (z_lhs z) (z_ooz z) (fst r) (z_eml z)))
    | SetEml t => zdo r <- dname_set z (z_eml z) t false ;
                  Ok (Some (set_names z (z_origin z) (z_lhs z) (z_ooz z) (z_rhs z) (fst r)))
    | UseDefTtl => Ok (Some (nums (z_def_ttl z) (z_uval z) (z_def_ttl z) (N.shiftr (z_def_ttl z) 1) (upd (z_uv z) 1 0)))
    | SetUval d => zdo v <- set_uval d ; Ok (Some (nums (z_def_ttl z) v (z_ttl z) (z_ttl_mn z) (z_uv z)))
    | MultUval c => do v <- mult_uval (z_uval z) c ; Ok (Some (nums (z_def_ttl z) v (z_ttl z) (z_ttl_mn z) (z_uv z)))
    | SetTtl => Ok (Some (nums (z_def_ttl z) (z_uval z) (z_uval z) (z_ttl_mn z) (z_uv z)))
    | SetTtlDyn => Ok (Some (nums (z_def_ttl z) (z_uval z) (uvk z 1)
                              (if uvk z 2 =? 0 then N.shiftr (uvk z 1) 1 else uvk z 2) (z_uv z)))
    | SetDefTtl => Ok (Some (nums (z_uval z) (z_uval z) (z_ttl z) (z_ttl_mn z) (z_uv z)))
    | SetUv k => Ok (Some (nums (z_def_ttl z) (z_uval z) (z_ttl z) (z_ttl_mn z) (upd (z_uv z) (k - 1) (z_uval z))))
    | ResetOrigin =>
        do b <- dname_isinzone zone (z_rhs z) ;
        if (b : bool) then do o <- dname_copy (z_origin z) (z_rhs z) ;
                           Ok (Some (set_names z o (z_lhs z) (z_ooz z) (z_rhs z) (z_eml z)))
        else zfatal
    | ResetRhsOrigin => do r <- dname_copy (z_rhs z) (z_origin z) ;
                        Ok (Some (set_names z (z_origin z) (z_lhs z) (z_ooz z) r (z_eml z)))
    | SetFilename t =>                                                          (* lines 426-439 *)
        do r <- dns_unescape t 0 (length t) (length t + 1) ;
        match r with
        | None => zfatal
        | Some fn => rassert (length fn <=? length t)%nat (Ok (Some (set_heap z (z_text z) (z_data z) (Some fn) (z_out z))))
        end
    | ProcessInclude =>                                                         (* lines 458-471 *)
        match z_fname z with
        | None => UB
        | Some fn =>
            do b <- dname_isinzone zone (z_rhs z) ;
            if (b : bool) then
              do zfn <- make_zfn curfn (until_nul fn) ;
              zdo rs <- incl (z_rhs z) zfn (z_def_ttl z) ;
              Ok (Some (set_heap z (z_text z) (z_data z) None (z_out z ++ rs)))
            else zfatal
        end
    | TextStart => match z_text z with None => Ok (Some z) | Some _ => UB end   (* lines 328-333 *)
    | PushTxt t => text_add_tok z t true
    | PushTxt255 t => text_add_tok z t false
    | PushTxtHuge t => text_add_tok_huge z t
    | SetIpv4 t =>                                                              (* lines 94-110 *)
        if (15 <? length t)%nat then zfatal
        else match pton4 t with Some a => Ok (Some (set_small z (z_dyn z) (z_caa z) a (z_v6 z))) | None => zfatal end
    | SetIpv6 t =>                                                              (* lines 112-128 *)
        if (46 <? length t)%nat then zfatal
        else match pton6 t with Some a => Ok (Some (set_small z (z_dyn z) (z_caa z) (z_v4 z) a)) | None => zfatal end
    | SetDyna t =>                                                              (* lines 526-535 *)
        if (255 <? length t)%nat then zfatal else Ok (Some (set_small z (until_nul t) (z_caa z) (z_v4 z) (z_v6 z)))
    | SetCaaProp t =>                                                           (* lines 537-546 *)
        if (255 <? length t)%nat then zfatal else Ok (Some (set_small z (z_dyn z) (until_nul t) (z_v4 z) (z_v6 z)))
    | DataSetup =>                                                              (* lines 724-730; xmalloc(0) is fatal *)
        if z_uval z =? 0 then UB else Ok (Some (set_heap z (z_text z) (Some (z_uval z, [])) (z_fname z) (z_out z)))
    | Octet a b =>                                                              (* lines 732-738 *)
        match z_data z with
        | None => UB
        | Some (len, d) =>
            if N.of_nat (length d) =? len then zfatal
            else Ok (Some (set_heap z (z_text z) (Some (len, d ++ [hexbyte a b])) (z_fname z) (z_out z)))
        end
    | RecSoa =>                                                                 (* lines 548-567 *)
        if z_ooz z then zfatal
        else do len <- rd (z_lhs z) 0 ;
             if negb (len =? 1) then zfatal
             else in_zone_rec z (fun d =>
                    do m <- name_of (z_rhs z) ; do r <- name_of (z_eml z) ;
                    Ok (ASoa d m r (z_ttl z) (uvk z 1) (uvk z 2) (uvk z 3) (uvk z 4) (uvk z 5))) z
    | RecA => do d <- name_of (z_lhs z) ;
              Ok (Some (set_heap z (z_text z) (z_data z) (z_fname z) (z_out z ++ [AA d (z_v4 z) (z_ttl z) (z_ooz z)])))
    | RecAaaa => do d <- name_of (z_lhs z) ;
                 Ok (Some (set_heap z (z_text z) (z_data z) (z_fname z) (z_out z ++ [AAaaa d (z_v6 z) (z_ttl z) (z_ooz z)])))
    | RecNs => in_zone_rec z (fun d => with_rhs z (fun n => ANs d n (z_ttl z))) z
    | RecCname => in_zone_rec z (fun d => with_rhs z (fun n => ACname d n (z_ttl z))) z
    | RecPtr => in_zone_rec z (fun d => with_rhs z (fun n => APtr d n (z_ttl z))) z
    | RecMx => in_zone_rec z (fun d => with_rhs z (fun n => AMx d n (z_ttl z) (z_uval z))) z
    | RecSrv => in_zone_rec z (fun d => with_rhs z (fun n => ASrv d n (z_ttl z) (uvk z 1) (uvk z 2) (uvk z 3))) z
    | RecNaptr =>                                                               (* lines 640-657 *)
        let text := match z_text z with Some t => t | None => [] end in
        in_zone_rec z (fun d => with_rhs z (fun n => ANaptr d n (z_ttl z) (uvk z 1) (uvk z 2) text)) (with_text z None)
    | RecTxt =>                              (* lines 659-667; a text that was never begun is NULL with length 0 *)
        let text := match z_text z with Some t => t | None => [] end in
        in_zone_rec z (fun d => Ok (ATxt d text (z_ttl z))) (with_text z None)
    | RecDyna => in_zone_rec z (fun d => Ok (ADyna d (z_dyn z) (z_ttl z) (z_ttl_mn z))) z
    | RecDync => in_zone_rec z (fun d => Ok (ADync d (z_dyn z) (z_ttl z) (z_ttl_mn z))) z
    | RecRfc3597 =>                                                             (* lines 685-694 *)
        match z_data z with
        | None => UB
        | Some (len, d) =>
            if N.of_nat (length d) <? len then zfatal
            else in_zone_rec z (fun n => Ok (AOther n (uvk z 1) (z_ttl z) d)) (set_heap z (z_text z) None (z_fname z) (z_out z))
        end
    | RecCaa =>                                                                 (* lines 696-722 *)
        if 255 <? z_uval z then zfatal
        else
          let value := match z_text z with Some t => t | None => [] end in
          in_zone_rec z (fun d =>
            rassert (N.of_nat (length (z_caa z)) <? 256)
              (Ok (AOther d 257 (z_ttl z) (z_uval z :: N.of_nat (length (z_caa z)) :: z_caa z ++ value))))
            (with_text z None)
    end.
  Fixpoint run (l : list action) (z : zst) : zres zst :=
    match l with [] => Ok (Some z) | a :: l => zdo z <- act a z ; run l z end.

  (** [scanner], lines 1054-1094 *)
  Definition scanner (z : zst) (buf : bytes) : zres zst :=
    rassert (negb (length buf =? 0)%nat)
      (if negb (last buf 0 =? 10) then zfatal
       else zdo buf <- preprocess PText false false buf ;
            let (acts, ok) := scan (S (length buf)) buf in
            zdo z <- run acts z ;
            if (ok : bool) then Ok (Some z) else zfatal).
End Scanner.

Section Files.
  Variable zone : bytes.
  Variable autosplit : bool.
  Variable pton4 pton6 : bytes -> option bytes.
  Variable fs : bytes -> option bytes.                (* gdnsd_fmap_new: the content of a file *)

  (** the state at the start of a file, [xcalloc] and lines 299-306 *)
  Definition zst0 (origin : bytes) (def_ttl : N) : res zst :=
    let zero := repeat 0 256 in
    do o <- dname_copy zero origin ; do f <- dname_copy zero origin ; do l <- wr zero 0 [1] ;
    Ok {| z_def_ttl := def_ttl; z_uval := 0; z_ttl := 0; z_ttl_mn := 0; z_uv := [0; 0; 0; 0; 0];
          z_origin := o; z_forigin := f; z_lhs := l; z_ooz := false; z_rhs := zero; z_eml := zero;
          z_dyn := []; z_caa := []; z_v4 := [0; 0; 0; 0]; z_v6 := repeat 0 16; z_text := None; z_data := None;
          z_fname := None; z_out := [] |}.

  (** [zscan_do], lines 283-324.  [fuel]: how deep files may be nested; UB if
      they are nested deeper (the stack overflows). *)
  Fixpoint zscan_do (fuel : nat) (origin fn : bytes) (def_ttl : N) : zres (list record) :=
    match fuel with
    | O => UB
    | S fuel =>
        match fs fn with
        | None => zfatal
        | Some buf =>
            do z <- zst0 origin def_ttl ;
            zdo z <- scanner zone autosplit pton4 pton6 (zscan_do fuel) fn z buf ;
            Ok (Some (z_out z))
        end
    end.

  (** [zscan_rfc1035], lines 740-745 *)
  Definition zscan_rfc1035 (fuel : nat) (fn : bytes) (zones_default_ttl : N) : zres (list record) :=
    zscan_do fuel zone fn zones_default_ttl.
End Files.
