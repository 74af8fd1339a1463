(** What a configuration text means, from "LOW-LEVEL SYNTAX" and "INCLUDING
    OTHER FILES" in docs/gdnsd.config.podin.  Nothing here refers to the
    scanner; only the type of data is shared with the model. *)
From Verif Require Import Base DnameSpec VscfModel.
Local Open Scope N_scope.

(** ** Tokens *)
Inductive token :=
| TStr (raw : bytes)      (* a string, as written, without its quotes *)
| TInc (raw : bytes)      (* $include{...} *)
| TOpenA | TCloseA        (* square brackets *)
| TOpenH | TCloseH        (* curly brackets *)
| TComma
| TEq.

(** Blanks: space, tab, newline, and comments that end with their line. *)
Inductive blank : bytes -> Prop :=
| bl_nil : blank []
| bl_sp c t : In c [32; 9; 10] -> blank t -> blank (c :: t)
| bl_com c b t : In c [59; 35] -> ~ In 10 b -> blank t -> blank (c :: b ++ 10 :: t).

(** Bytes of an unquoted string: not a bracket, blank, comma, [;], [#], [=],
    backslash or double quote. *)
Definition plain (c : N) : Prop := ~ In c [125; 123; 59; 35; 32; 9; 10; 44; 34; 61; 92; 93; 91].

(** Text in which every backslash starts an escape, [\c] or [\ddd], and all
    other bytes satisfy [ok]. *)
Inductive escaped (ok : N -> Prop) : bytes -> Prop :=
| es_nil : escaped ok []
| es_char c t : ok c -> escaped ok t -> escaped ok (c :: t)
| es_esc c t : ~ is_digit c -> escaped ok t -> escaped ok (92 :: c :: t)
| es_num a b c t : is_digit a -> is_digit b -> is_digit c -> (a - 48) * 100 + (b - 48) * 10 + (c - 48) <= 255 ->
    escaped ok t -> escaped ok (92 :: a :: b :: c :: t).

(** What such a text stands for. *)
Inductive unescaped : bytes -> bytes -> Prop :=
| ue_nil : unescaped [] []
| ue_char c t d : c <> 92 -> unescaped t d -> unescaped (c :: t) (c :: d)
| ue_esc c t d : ~ is_digit c -> unescaped t d -> unescaped (92 :: c :: t) (c :: d)
| ue_num a b c t d : is_digit a -> is_digit b -> is_digit c -> (a - 48) * 100 + (b - 48) * 10 + (c - 48) <= 255 -> unescaped t d ->
    unescaped (92 :: a :: b :: c :: t) ((a - 48) * 100 + (b - 48) * 10 + (c - 48) :: d).

(** How a text ends: only strings and [=] matter to what may follow directly. *)
Inductive ending := Free | AfterUnquoted | AfterQuoted | AfterEq.

Inductive str_text : bytes -> bytes -> ending -> Prop :=
| st_unquoted raw : escaped plain raw -> raw <> [] -> hd 0 raw <> 36 -> str_text raw raw AfterUnquoted
| st_quoted raw : escaped (fun c => c <> 34 /\ c <> 92) raw -> str_text raw (34 :: raw ++ [34]) AfterQuoted.

Inductive tok_text : token -> bytes -> ending -> Prop :=
| tt_str raw t e : str_text raw t e -> tok_text (TStr raw) t e
| tt_inc raw t e w1 w2 : str_text raw t e -> blank w1 -> blank w2 ->
    tok_text (TInc raw) ([36; 105; 110; 99; 108; 117; 100; 101; 123] ++ w1 ++ t ++ w2 ++ [125]) Free
| tt_oa : tok_text TOpenA [91] Free
| tt_ca : tok_text TCloseA [93] Free
| tt_oh : tok_text TOpenH [123] Free
| tt_ch : tok_text TCloseH [125] Free
| tt_comma : tok_text TComma [44] Free
| tt_eq : tok_text TEq [61] AfterEq
| tt_arrow : tok_text TEq [61; 62] Free.

(** May text that starts with [c] follow directly?  [touch]: strings may
    stand next to each other where that is not ambiguous. *)
Definition apart (touch : bool) (e : ending) (c : N) : Prop :=
  match e with
  | Free => True
  | AfterUnquoted => ~ plain c /\ c <> 92 /\ (touch = false -> c <> 34)
  | AfterQuoted => touch = false -> (plain c -> c = 36) /\ c <> 92 /\ c <> 34
  | AfterEq => c <> 62
  end.

Inductive spelled (touch : bool) : list token -> bytes -> ending -> Prop :=
| sp_nil : spelled touch [] [] Free
| sp_blank ts t e w : spelled touch ts t e -> blank w -> w <> [] -> spelled touch ts (t ++ w) Free
| sp_tok ts t e k x e' : spelled touch ts t e -> tok_text k x e' -> apart touch e (hd 0 x) -> spelled touch (ts ++ [k]) (t ++ x) e'.

(** Two strings stand next to each other with nothing between them. *)
Definition strings_touch (t : bytes) : Prop :=
  exists ts u e c r, t = u ++ c :: r /\ spelled false ts u e /\
    ((e = AfterUnquoted /\ c = 34) \/ (e = AfterQuoted /\ (c = 34 \/ c = 92 \/ (plain c /\ c <> 36)))).

(** The text has an include of [raw], perhaps without its end. *)
Definition has_include (touch : bool) (t raw : bytes) : Prop :=
  exists ts u e w x e' r, t = u ++ [36; 105; 110; 99; 108; 117; 100; 101; 123] ++ w ++ x ++ r /\
    spelled touch ts u e /\ apart touch e 36 /\ blank w /\ str_text raw x e'.

(** ** Structure *)

(** Values, and entries of a hash: those without key are includes. *)
Inductive node :=
| NStr (raw : bytes)
| NArr (l : list node)
| NHash (l : list (option bytes * node))
| NInc (raw : bytes).

Definition comma (ts : list token) : Prop := ts = [] \/ ts = [TComma].

Inductive value : list token -> node -> Prop :=
| va_str raw : value [TStr raw] (NStr raw)
| va_inc raw : value [TInc raw] (NInc raw)
| va_arr ts l : values ts l -> value (TOpenA :: ts ++ [TCloseA]) (NArr l)
| va_hash ts l : entries ts l -> value (TOpenH :: ts ++ [TCloseH]) (NHash l)
with values : list token -> list node -> Prop :=
| vs_nil : values [] []
| vs_snoc ts l t n c : values ts l -> value t n -> comma c -> values (ts ++ t ++ c) (l ++ [n])
with entries : list token -> list (option bytes * node) -> Prop :=
| en_nil : entries [] []
| en_key ts l k t n c : entries ts l -> value t n -> comma c ->
    entries (ts ++ TStr k :: TEq :: t ++ c) (l ++ [(Some k, n)])
| en_inc ts l raw c : entries ts l -> comma c ->
    entries (ts ++ TInc raw :: c) (l ++ [(None, NInc raw)]).

(** A whole file: a hash without brackets, or an array with brackets. *)
Inductive doc : list token -> node -> Prop :=
| do_hash ts l : entries ts l -> doc ts (NHash l)
| do_arr ts l : values ts l -> doc (TOpenA :: ts ++ [TCloseA]) (NArr l).

Definition text_of (touch : bool) (t : bytes) (n : node) : Prop :=
  exists ts e, spelled touch ts t e /\ doc ts n.

(** ** Meaning.  [docs raw ds]: the files that [$include{raw}] names hold the data [ds]. *)
Section Meaning.
Variable docs : bytes -> list vnode -> Prop.

(** Adding entries to a hash: no key may come twice. *)
Inductive added : list (bytes * vnode) -> list (bytes * vnode) -> list (bytes * vnode) -> Prop :=
| ad_nil l : added l [] l
| ad_cons l k v es l' : ~ In k (map fst l) -> added (l ++ [(k, v)]) es l' -> added l ((k, v) :: es) l'.

Inductive means : node -> vnode -> Prop :=
| me_str raw v : unescaped raw v -> means (NStr raw) (VS raw v)
| me_arr l vs : all_mean l vs -> means (NArr l) (VA vs)
| me_hash l es : hash_means l es -> means (NHash l) (VH es)
| me_inc raw d : docs raw [d] -> means (NInc raw) d
with all_mean : list node -> list vnode -> Prop :=
| am_nil : all_mean [] []
| am_snoc l vs n v : all_mean l vs -> means n v -> all_mean (l ++ [n]) (vs ++ [v])
with hash_means : list (option bytes * node) -> list (bytes * vnode) -> Prop :=
| hm_nil : hash_means [] []
| hm_key l es k key n v : hash_means l es -> unescaped k key -> means n v -> ~ In key (map fst es) ->
    hash_means (l ++ [(Some k, n)]) (es ++ [(key, v)])
| hm_inc l es raw hs es' : hash_means l es -> docs raw (map VH hs) -> added es (concat hs) es' ->
    hash_means (l ++ [(None, NInc raw)]) es'.

(** A value is an include that finds no file (an empty directory). *)
Inductive lost : node -> Prop :=
| lo_inc raw : docs raw [] -> lost (NInc raw)
| lo_arr l n : In n l -> lost n -> lost (NArr l)
| lo_hash l k n : In (Some k, n) l -> lost n -> lost (NHash l).
End Meaning.

(** Some include in the document names [raw] with [P raw]. *)
Inductive mentions (P : bytes -> Prop) : node -> Prop :=
| mn_inc raw : P raw -> mentions P (NInc raw)
| mn_arr l n : In n l -> mentions P n -> mentions P (NArr l)
| mn_hash l k n : In (k, n) l -> mentions P n -> mentions P (NHash l).

(** The same data, however its strings are written. *)
Inductive same : vnode -> vnode -> Prop :=
| sa_str raw raw' v : same (VS raw v) (VS raw' v)
| sa_arr l l' : Forall2 same l l' -> same (VA l) (VA l')
| sa_hash l l' : Forall2 (fun e e' => fst e = fst e' /\ same (snd e) (snd e')) l l' -> same (VH l) (VH l').

(** Data that a file can hold: no hash has a key twice, and all keys and strings are bytes. *)
Inductive proper : vnode -> Prop :=
| pr_str raw v : all_bytes v -> proper (VS raw v)
| pr_arr l : Forall proper l -> proper (VA l)
| pr_hash l : NoDup (map fst l) -> Forall (fun e => all_bytes (fst e) /\ proper (snd e)) l -> proper (VH l).

(** No hash has a key twice. *)
Inductive distinct : vnode -> Prop :=
| di_str raw v : distinct (VS raw v)
| di_arr l : Forall distinct l -> distinct (VA l)
| di_hash l : NoDup (map fst l) -> Forall (fun e => distinct (snd e)) l -> distinct (VH l).

(** ** Files *)
Section Files.
Variable touch : bool.
Variable isdir : bytes -> bool.
Variable glob : bool -> bytes -> option (list bytes).
Variable fs : bytes -> option bytes.

(** The bytes before the first NUL. *)
Definition c_string (t u : bytes) : Prop := ~ In 0 u /\ (t = u \/ exists r, t = u ++ 0 :: r).

(** Absolute names are taken as they are, others are relative to the
    directory of the including file. *)
Inductive named (f : bytes) : bytes -> bytes -> Prop :=
| na_abs t p : c_string (47 :: t) p -> named f (47 :: t) p
| na_rel t p d r : hd 0 t <> 47 -> f = d ++ r -> ~ In 47 r -> d = [] \/ last d 0 = 47 -> c_string (d ++ t) p -> named f t p.

(** A directory stands for all files in it, anything else is a pattern that
    must match. *)
Inductive found (p : bytes) : list bytes -> Prop :=
| fo_dir s l : isdir p = true -> (s = [] /\ (p = [] \/ last p 0 = 47)) \/ (s = [47] /\ p <> [] /\ last p 0 <> 47) ->
    glob false (p ++ s ++ [42]) = Some l -> found p l
| fo_pat l : isdir p = false -> glob true p = Some l -> found p l.

(** The files that [$include{raw}] in file [f] stands for. *)
Definition stands_for (f raw : bytes) (l : list bytes) : Prop := exists p, named f raw p /\ found p l.

(** [reads n f v]: file [f] holds the data [v], with includes nested less than
    [n] deep. *)
Fixpoint reads (n : nat) (f : bytes) (v : vnode) : Prop :=
  match n with
  | O => False
  | S n => exists t a, fs f = Some t /\ text_of touch t a /\
             means (fun raw ds => exists l, stands_for f raw l /\ Forall2 (reads n) l ds) a v
  end.

(** In file [f], or a file that it includes, a value is an include that finds no file. *)
Fixpoint hollow (n : nat) (f : bytes) : Prop :=
  match n with
  | O => False
  | S n => exists t a, fs f = Some t /\ text_of touch t a /\
             (lost (fun raw ds => ds = [] /\ stands_for f raw []) a \/
              mentions (fun raw => exists l g, stands_for f raw l /\ In g l /\ hollow n g) a)
  end.

(** [included n f g]: [g] is reached from [f] through [n] includes. *)
Definition includes (f g : bytes) : Prop :=
  exists t raw l, fs f = Some t /\ has_include touch t raw /\ stands_for f raw l /\ In g l.
Fixpoint included (n : nat) (f g : bytes) : Prop :=
  match n with
  | O => g = f
  | S n => exists h, includes f h /\ included n h g
  end.
End Files.
