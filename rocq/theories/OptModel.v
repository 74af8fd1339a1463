(** Reading options out of the configuration data: the access functions of libgdnsd/vscf.rl and
    the CFG_OPT_ and SVC_OPT_ macros.  A hash is the list of its entries (see VscfModel.v; the hash
    table behind it is the subject of VhashModel.v). *)
From Coq Require Import String Ascii.
From Verif Require Import Base CompModel VscfModel MonModel.
Local Open Scope N_scope.
Local Notation length := List.length.

(** The bytes of a literal *)
Definition txt (s : string) : bytes := map N_of_ascii (list_ascii_of_string s).

(** The text that C string functions see: up to the first NUL *)
Fixpoint c_str (s : bytes) : bytes :=
  match s with [] => [] | c :: t => if c =? 0 then [] else c :: c_str t end.

(** The value of a digit in bases up to 16 *)
Definition digit_of (c : N) : option N :=
  if (48 <=? c) && (c <=? 57) then Some (c - 48)
  else if (97 <=? c) && (c <=? 102) then Some (c - 87)
  else if (65 <=? c) && (c <=? 70) then Some (c - 55)
  else None.

Definition digit_in (base c : N) : option N :=
  match digit_of c with Some d => if d <? base then Some d else None | None => None end.

Fixpoint digits_in (base acc : N) (s : bytes) : N * bytes :=
  match s with
  | c :: s' => match digit_in base c with Some d => digits_in base (acc * base + d) s' | None => (acc, s) end
  | [] => (acc, [])
  end.

(** strtoul(s, &endptr, 0) on LP64: white space, a sign, then "0x" and hexadecimal digits, or
    "0" and octal digits, or decimal digits; a minus negates modulo 2^64; out of
    range sets errno.  Result: errno set?, value, the text at endptr. *)
Definition strtoul0 (s : bytes) : bool * N * bytes :=
  let s1 := skip_space s in
  let '(neg, s2) :=
    match s1 with
    | b :: t => if b =? 45 then (true, t) else if b =? 43 then (false, t) else (false, s1)
    | [] => (false, s1)
    end in
  let fin (base : N) (ds : bytes) :=
    let '(v, rest) := digits_in base 0 ds in
    if two64 <=? v then (true, two64 - 1, rest)
    else (false, if neg : bool then (two64 - v) mod two64 else v, rest) in
  match s2 with
  | [] => (false, 0, s)
  | c :: t =>
      if c =? 48 then
        match t with
        | x :: y :: _ =>
            if ((x =? 120) || (x =? 88)) && match digit_in 16 y with Some _ => true | None => false end
            then fin 16 (tl t) else fin 8 s2
        | _ => fin 8 s2
        end
      else match digit_in 10 c with Some _ => fin 10 s2 | None => (false, 0, s) end
  end.

(** [vscf_simple_get_as_ulong], vscf.rl:1030-1046: [None] is failure *)
Definition as_ulong (v : bytes) : option N :=
  match v with
  | [] => None
  | _ => let '(err, n, rest) := strtoul0 v in
         match rest with [] => if err then None else Some n | _ => None end
  end.

Definition one (a b : N) (c : N) : bool := (c =? a) || (c =? b).

(** [vscf_simple_get_as_bool], vscf.rl:1084-1107 *)
Definition as_bool (v : bytes) : option bool :=
  match v with
  | [a; b; c; d] =>
      if one 84 116 a && one 82 114 b && one 85 117 c && one 69 101 d then Some true else None
  | [a; b; c; d; e] =>
      if one 70 102 a && one 65 97 b && one 76 108 c && one 83 115 d && one 69 101 e then Some false else None
  | _ => None
  end.

(** [vscf_hash_get_data_bykey], vscf.rl:939-957 *)
Fixpoint get (k : bytes) (l : list (bytes * vnode)) : option vnode :=
  match l with
  | [] => None
  | (k', v) :: l' => if bytes_eqb k k' then Some v else get k l'
  end.

(** ** Reading a hash and marking what was read *)

(** [Ok None] is a fatal message ([log_fatal]).  The list holds the keys that were asked for: an
    entry is marked when its key is in the list. *)
Definition reader (A : Type) := list bytes -> res (option (A * list bytes)).

Definition rret {A} (a : A) : reader A := fun ks => Ok (Some (a, ks)).
Definition rfail {A} : reader A := fun _ => Ok None.
Definition rub {A} : reader A := fun _ => UB.
Definition rseq {A B} (m : reader A) (f : A -> reader B) : reader B :=
  fun ks => match m ks with
            | UB => UB
            | Ok None => Ok None
            | Ok (Some (a, ks')) => f a ks'
            end.
Notation "'let!' x <- a ; b" := (rseq a (fun x => b))
  (at level 200, x name, a at level 100, b at level 200, right associativity).

(** Look up with [set_mark]; only a hash has keys *)
Definition look (h : vnode) (k : bytes) : reader (option vnode) :=
  fun ks => match h with VH l => Ok (Some (get k l, k :: ks)) | _ => UB end.

(** Fatal unless a condition holds *)
Definition need (b : bool) : reader unit := if b then rret tt else rfail.

(** CFG_OPT_UINT, src/conf.c:166-178 (and CFG_OPT_UINT_NOMIN, lo = 0); CFG_OPT_UINT_ALTSTORE,
    src/socks.c:84-110; SVC_OPT_UINT, src/plugins/mon.c:597-609, http_status.c:360-372,
    tcp_connect.c:208-220.
    The value fits the [unsigned] it is put in, because [hi] does. *)
Definition opt_uint (h : vnode) (k : bytes) (lo hi dflt : N) : reader N :=
  let! o <- look h k ;
  match o with
  | None => rret dflt
  | Some (VS _ v) =>
      match as_ulong v with
      | None => rfail
      | Some n => if (n <? lo) || (hi <? n) then rfail else rret (n mod two32)
      end
  | Some _ => rfail
  end.

(** CFG_OPT_BOOL, src/conf.c:156-164; CFG_OPT_BOOL_ALTSTORE, src/socks.c:112-122 *)
Definition opt_bool (h : vnode) (k : bytes) (dflt : bool) : reader bool :=
  let! o <- look h k ;
  match o with
  | None => rret dflt
  | Some (VS _ v) => match as_bool v with None => rfail | Some b => rret b end
  | Some _ => rfail
  end.

(** CFG_OPT_STR, src/conf.c:222-240; CFG_OPT_STR_NOCOPY; SVC_OPT_STR, http_status.c:350-358;
    CFG_DIR, libgdnsd/paths.c:101-109: the text is used as a C string *)
Definition opt_str (h : vnode) (k : bytes) (dflt : option bytes) : reader (option bytes) :=
  let! o <- look h k ;
  match o with
  | None => rret dflt
  | Some (VS _ v) => rret (Some (c_str v))
  | Some _ => rfail
  end.

(** CFG_OPT_REMOVED, src/conf.c:242-247, src/socks.c:124-129: a warning *)
Definition opt_removed (h : vnode) (k : bytes) : reader unit :=
  let! _ <- look h k ; rret tt.

(** [vscf_hash_iterate_const(h, true, bad_key, ...)]: an entry that was not read is fatal *)
Definition no_others (h : vnode) : reader unit :=
  fun ks => match h with
            | VH l => if forallb (fun e => existsb (bytes_eqb (fst e)) ks) l then Ok (Some (tt, ks)) else Ok None
            | _ => UB
            end.
