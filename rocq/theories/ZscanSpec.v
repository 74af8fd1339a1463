(** Zone files: their text and what it means.  Independent of the scanner; the
    records are those of LtreeModel.v ([record]).

    The text of a file is first freed of comments and parentheses ([layout]),
    then it is a sequence of lines ([line_text]), each of which holds one
    statement.  A statement has a meaning ([means]) in a context: the current
    origin, the file's first origin, the default TTL and the last owner. *)
From Coq Require Import String Ascii.
From Verif Require Import Base DnameSpec RespModel LtreeModel.
Local Open Scope N_scope.
Local Notation length := List.length.

Definition codes (s : string) : bytes := map N_of_ascii (list_ascii_of_string s).

(** ** Comments and parentheses *)
(** [layout q p raw text]: [q]: inside quotes, [p]: inside parentheses.
    Comments and parentheses become spaces, and line ends inside parentheses
    become form feeds, which count as blanks. *)
Inductive layout : bool -> bool -> bytes -> bytes -> Prop :=
| lay_end : layout false false [] []
| lay_newline q p raw t : layout q p raw t -> layout q p (10 :: raw) ((if p && negb q then 12 else 10) :: t)
| lay_comment p body raw t : ~ In 10 body -> layout false p raw t ->
    layout false p (59 :: body ++ 10 :: raw) (repeat 32 (S (length body)) ++ (if p then 12 else 10) :: t)
| lay_quote q p raw t : layout (negb q) p raw t -> layout q p (34 :: raw) (34 :: t)
| lay_open raw t : layout false true raw t -> layout false false (40 :: raw) (32 :: t)
| lay_close raw t : layout false false raw t -> layout false true (41 :: raw) (32 :: t)
| lay_inside c p raw t : In c [59; 40; 41; 12] -> layout true p raw t -> layout true p (c :: raw) (c :: t)
| lay_escape c q p raw t : layout q p raw t -> layout q p (92 :: c :: raw) (92 :: c :: t)
| lay_other c q p raw t : ~ In c [10; 12; 34; 40; 41; 59; 92] -> layout q p raw t -> layout q p (c :: raw) (c :: t).

(** ** Words *)
Definition blank (c : N) : Prop := c = 32 \/ c = 9 \/ c = 12.
Definition gap (t : bytes) : Prop := Forall blank t.
Definition blanks (t : bytes) : Prop := t <> [] /\ Forall blank t.
Definition digits (t : bytes) : Prop := t <> [] /\ Forall is_digit t.
Definition letter (c : N) : Prop := 65 <= c <= 90 \/ 97 <= c <= 122.
Definition hexdigit (c : N) : Prop := is_digit c \/ 65 <= c <= 70 \/ 97 <= c <= 102.
(** letters in either case *)
Definition spells (s : string) (w : bytes) : Prop := map lower w = codes s.

(** characters and escapes: a backslash with a character that is not a digit, or
    with three digits *)
Inductive units (ok : N -> Prop) : bytes -> Prop :=
| un_nil : units ok []
| un_char c t : ok c -> c <> 92 -> units ok t -> units ok (c :: t)
| un_esc c t : ~ is_digit c -> units ok t -> units ok (92 :: c :: t)
| un_num a b c t : is_digit a -> is_digit b -> is_digit c -> units ok t -> units ok (92 :: a :: b :: c :: t).
Definition plain (c : N) : Prop := ~ blank c /\ ~ In c [10; 34; 40; 41; 59; 92].
Definition bare (t : bytes) : Prop := t <> [] /\ units plain t.
Definition quoted (t inner : bytes) : Prop := t = 34 :: inner ++ [34] /\ units (fun c => c <> 34) inner.
Definition text_token (t inner : bytes) : Prop := (bare t /\ inner = t) \/ quoted t inner.
Definition name_token (t inner : bytes) : Prop := (bare t /\ inner = t /\ hd 0 t <> 36) \/ quoted t inner.
(** plugin or plugin!resource *)
Definition half (t : bytes) : Prop := t <> [] /\ units (fun c => plain c /\ c <> 33) t.
Definition plugin_token (t : bytes) : Prop := half t \/ exists p q, t = p ++ 33 :: q /\ half p /\ half q.

(** ** Statements *)
Inductive dur := Dur (number : bytes) (unit : option N).
Definition unit_letter (c : N) : Prop := In (lower c) (codes "mhdw").
Inductive dur_text : bytes -> dur -> Prop :=
| du_plain n : digits n -> dur_text n (Dur n None)
| du_unit n c : digits n -> unit_letter c -> dur_text (n ++ [c]) (Dur n (Some c)).

Inductive data :=
| DA (t : bytes) | DAaaa (t : bytes) | DNs (n : bytes) | DCname (n : bytes) | DPtr (n : bytes) | DMx (p n : bytes)
| DTxt (items : list bytes) | DSrv (p w o n : bytes) | DNaptr (o p a b c n : bytes)
| DSoa (m r : bytes) (serial refresh retry expire ncache : dur) | DGen (ty len : bytes) (octets : list (N * N))
| DCaa (f p v : bytes) | DDyna (t : bytes) | DDync (t : bytes).
Inductive stmt :=
| Empty
| Rec (owner : option bytes) (ttl : option (dur * option dur)) (d : data)
| SetDefault (d : dur)
| SetOrigin (n : bytes)
| Include (f : bytes) (origin : option bytes).

(** the strings of TXT: two words that are not quoted need a blank between them *)
Inductive txt_body : bytes -> list bytes -> Prop :=
| tb_nil : txt_body [] []
| tb_blank c t l : blank c -> txt_body t l -> txt_body (c :: t) l
| tb_quoted q i t l : quoted q i -> txt_body t l -> txt_body (q ++ t) (i :: l)
| tb_bare w t l : bare w -> t = [] \/ blank (hd 0 t) \/ hd 0 t = 34 -> txt_body t l -> txt_body (w ++ t) (w :: l).
(** octets in hexadecimal, with blanks anywhere between them *)
Inductive octets_text : bytes -> list (N * N) -> Prop :=
| ot_nil : octets_text [] []
| ot_blank c t l : blank c -> octets_text t l -> octets_text (c :: t) l
| ot_octet a b t l : hexdigit a -> hexdigit b -> octets_text t l -> octets_text (a :: b :: t) ((a, b) :: l).

Inductive data_text : bytes -> data -> Prop :=
| dt_a k b t : spells "a" k -> blanks b -> t <> [] -> Forall (fun c => is_digit c \/ c = 46) t -> data_text (k ++ b ++ t) (DA t)
| dt_aaaa k b t : spells "aaaa" k -> blanks b -> t <> [] -> Forall (fun c => hexdigit c \/ c = 58 \/ c = 46) t ->
    data_text (k ++ b ++ t) (DAaaa t)
| dt_ns k b t n : spells "ns" k -> blanks b -> name_token t n -> data_text (k ++ b ++ t) (DNs n)
| dt_cname k b t n : spells "cname" k -> blanks b -> name_token t n -> data_text (k ++ b ++ t) (DCname n)
| dt_ptr k b t n : spells "ptr" k -> blanks b -> name_token t n -> data_text (k ++ b ++ t) (DPtr n)
| dt_mx k b p b1 t n : spells "mx" k -> blanks b -> digits p -> blanks b1 -> name_token t n ->
    data_text (k ++ b ++ p ++ b1 ++ t) (DMx p n)
| dt_txt k c t l : spells "txt" k -> blank c -> t <> [] -> txt_body t l -> data_text (k ++ c :: t) (DTxt l)
| dt_srv k b p b1 w b2 o b3 t n : spells "srv" k -> blanks b -> digits p -> blanks b1 -> digits w -> blanks b2 -> digits o -> blanks b3 ->
    name_token t n -> data_text (k ++ b ++ p ++ b1 ++ w ++ b2 ++ o ++ b3 ++ t) (DSrv p w o n)
| dt_naptr k b o b1 p b2 ta xa b3 tb xb b4 tc xc b5 t n :
    spells "naptr" k -> blanks b -> digits o -> blanks b1 -> digits p -> blanks b2 -> text_token ta xa -> blanks b3 -> text_token tb xb ->
    blanks b4 -> text_token tc xc -> blanks b5 -> name_token t n ->
    data_text (k ++ b ++ o ++ b1 ++ p ++ b2 ++ ta ++ b3 ++ tb ++ b4 ++ tc ++ b5 ++ t) (DNaptr o p xa xb xc n)
| dt_soa k b tm m b1 tr r b2 t1 d1 b3 t2 d2 b4 t3 d3 b5 t4 d4 b6 t5 d5 :
    spells "soa" k -> blanks b -> name_token tm m -> blanks b1 -> name_token tr r -> blanks b2 -> dur_text t1 d1 -> blanks b3 ->
    dur_text t2 d2 -> blanks b4 -> dur_text t3 d3 -> blanks b5 -> dur_text t4 d4 -> blanks b6 -> dur_text t5 d5 ->
    data_text (k ++ b ++ tm ++ b1 ++ tr ++ b2 ++ t1 ++ b3 ++ t2 ++ b4 ++ t3 ++ b5 ++ t4 ++ b6 ++ t5) (DSoa m r d1 d2 d3 d4 d5)
(** one blank, and only one, between the length and the first octet *)
| dt_gen k ty b b1 len c t l : spells "type" k -> digits ty -> blanks b -> blanks b1 -> digits len -> blank c -> ~ blank (hd 0 t) ->
    octets_text t l -> data_text (k ++ ty ++ b ++ 92 :: 35 :: b1 ++ len ++ c :: t) (DGen ty len l)
| dt_caa k b f b1 p b2 t v : spells "caa" k -> blanks b -> digits f -> blanks b1 -> p <> [] -> Forall (fun c => is_digit c \/ letter c) p ->
    blanks b2 -> text_token t v -> data_text (k ++ b ++ f ++ b1 ++ p ++ b2 ++ t) (DCaa f p v)
| dt_dyna k b t : spells "dyna" k -> blanks b -> plugin_token t -> data_text (k ++ b ++ t) (DDyna t)
| dt_dync k b t : spells "dync" k -> blanks b -> plugin_token t -> data_text (k ++ b ++ t) (DDync t).

Definition dynamic (d : data) : Prop := match d with DDyna _ | DDync _ => True | _ => False end.
Inductive ttl_text : bytes -> dur * option dur -> Prop :=
| tt_one t d : dur_text t d -> ttl_text t (d, None)
| tt_two t d t2 d2 : dur_text t d -> dur_text t2 d2 -> ttl_text (t ++ 47 :: t2) (d, Some d2).
(** TTL and class, each with a blank after it, in any order, both optional *)
Inductive options_text : bytes -> option (dur * option dur) -> Prop :=
| op_none : options_text [] None
| op_class k b : spells "in" k -> blanks b -> options_text (k ++ b) None
| op_ttl t d b : ttl_text t d -> blanks b -> options_text (t ++ b) (Some d)
| op_ttl_class t d b k b1 : ttl_text t d -> blanks b -> spells "in" k -> blanks b1 -> options_text (t ++ b ++ k ++ b1) (Some d)
| op_class_ttl k b t d b1 : spells "in" k -> blanks b -> ttl_text t d -> blanks b1 -> options_text (k ++ b ++ t ++ b1) (Some d).
Inductive owner_text : bytes -> option bytes -> Prop :=
| ow_none : owner_text [] None
| ow_some t n : name_token t n -> owner_text t (Some n).

Inductive stmt_text : bytes -> stmt -> Prop :=
| st_empty : stmt_text [] Empty
| st_rec o on b t topt td d : owner_text o on -> blanks b -> options_text t topt -> data_text td d ->
    (forall d1 d2, topt = Some (d1, Some d2) -> dynamic d) -> stmt_text (o ++ b ++ t ++ td) (Rec on topt d)
| st_ttl k b t d : spells "ttl" k -> blanks b -> dur_text t d -> stmt_text (36 :: k ++ b ++ t) (SetDefault d)
| st_origin k b t n : spells "origin" k -> blanks b -> name_token t n -> stmt_text (36 :: k ++ b ++ t) (SetOrigin n)
| st_include k b t f : spells "include" k -> blanks b -> text_token t f -> stmt_text (36 :: k ++ b ++ t) (Include f None)
| st_include_at k b t f b1 t1 n : spells "include" k -> blanks b -> text_token t f -> blanks b1 -> name_token t1 n ->
    stmt_text (36 :: k ++ b ++ t ++ b1 ++ t1) (Include f (Some n)).
(** a line; after "$INCLUDE file" no blank may come *)
Definition line_text (t : bytes) (s : stmt) : Prop :=
  exists body g, t = body ++ g ++ [10] /\ stmt_text body s /\ gap g /\ (forall f, s = Include f None -> g = []).

(** ** Meaning *)
Definition value (t : bytes) : N := fold_left (fun v c => 10 * v + (c - 48)) t 0.
(** numbers are taken modulo 2^32, and refused from 2^64 on *)
Definition number (t : bytes) (n : N) : Prop := value t < 2 ^ 64 /\ n = value t mod 2 ^ 32.
Definition seconds (c : N) : N :=
  if lower c =? 109 then 60 else if lower c =? 104 then 3600 else if lower c =? 100 then 86400 else 604800.
Definition duration (d : dur) (n : N) : Prop :=
  match d with
  | Dur t None => number t n
  | Dur t (Some c) => exists v, number t v /\ n = v * seconds c mod 2 ^ 32
  end.

(** what a text stands for *)
Inductive unescaped : bytes -> bytes -> Prop :=
| ue_nil : unescaped [] []
| ue_char c t d : c <> 92 -> unescaped t d -> unescaped (c :: t) (c :: d)
| ue_esc c t d : ~ is_digit c -> unescaped t d -> unescaped (92 :: c :: t) (c :: d)
| ue_num a b c t d : is_digit a -> is_digit b -> is_digit c -> (a - 48) * 100 + (b - 48) * 10 + (c - 48) <= 255 -> unescaped t d ->
    unescaped (92 :: a :: b :: c :: t) ((a - 48) * 100 + (b - 48) * 10 + (c - 48) :: d).
(** long strings are cut into strings of 255 bytes and a rest *)
Definition cut (d : bytes) (ss : list bytes) : Prop :=
  concat ss = d /\ exists i l, ss = i ++ [l] /\ Forall (fun s => length s = 255%nat) i /\ (1 <= length l <= 255)%nat.
Definition one_string (t d : bytes) : Prop := unescaped t d /\ (length d <= 255)%nat.
Definition strings (autosplit : bool) (t : bytes) (ss : list bytes) : Prop :=
  (exists d, one_string t d /\ ss = [d]) \/
  (exists d, unescaped t d /\ autosplit = true /\ (255 < length d)%nat /\ N.of_nat (length d) <= 16000 /\ cut d ss).
Definition wire_strings (ss : list bytes) : bytes := concat (map (fun s => N.of_nat (length s) :: s) ss).
Definition octet_value (p : N * N) : N :=
  let h c := if c <=? 57 then c - 48 else if c <=? 70 then c - 55 else c - 87 in 16 * h (fst p) + h (snd p).
(** a C string ends at the first zero *)
Definition cstring (d f : bytes) : Prop := ~ In 0 f /\ (d = f \/ exists r, d = f ++ 0 :: r).
(** a file's name, relative to the one of the file that includes it *)
Definition path (cur f p : bytes) : Prop :=
  (hd 0 f = 47 /\ p = f) \/ (hd 0 f <> 47 /\ exists d b, cur = d ++ 47 :: b /\ ~ In 47 b /\ p = d ++ 47 :: f).

Record ctx := { c_origin : name; c_file : name; c_ttl : N; c_owner : name; c_ooz : bool }.

Section Meaning.
  Variable zone : name.
  Variable autosplit : bool.
  Variable pton4 pton6 : bytes -> option bytes.      (* the addresses in text form *)

  (** names that do not end in a dot *)
  Inductive qualified (k : ctx) : name -> name -> Prop :=
  | qu_at : qualified k [codes "@"] (c_origin k)
  | qu_zone p : qualified k (p ++ [codes "@z"]) (p ++ zone)
  | qu_file p : qualified k (p ++ [codes "@f"]) (p ++ c_file k)
  | qu_rel w : w <> [codes "@"] -> (forall p c, w <> p ++ [[64; c]]) -> qualified k w (w ++ c_origin k).
  Definition name_means (k : ctx) (t : bytes) (n : name) : Prop :=
    t <> [] /\ legal_name n /\
    exists w fq, name_text t w fq /\ legal_name w /\ if fq then n = w else qualified k w n.
  (** the owner: relative to the zone, or absolute if it is not in the zone *)
  Definition owner_means (k : ctx) (t : bytes) (n : name) (ooz : bool) : Prop :=
    exists full, (if t then full = c_origin k else name_means k t full) /\
      if ooz then n = full /\ ~ exists q, full = q ++ zone else full = n ++ zone.

  Inductive data_means (k : ctx) (ttl ttl_min : N) : data -> record -> Prop :=
  | dm_a t a : (length t <= 15)%nat -> pton4 t = Some a -> data_means k ttl ttl_min (DA t) (AA (c_owner k) a ttl (c_ooz k))
  | dm_aaaa t a : (length t <= 46)%nat -> pton6 t = Some a -> data_means k ttl ttl_min (DAaaa t) (AAaaa (c_owner k) a ttl (c_ooz k))
  | dm_ns t n : c_ooz k = false -> name_means k t n -> data_means k ttl ttl_min (DNs t) (ANs (c_owner k) n ttl)
  | dm_cname t n : c_ooz k = false -> name_means k t n -> data_means k ttl ttl_min (DCname t) (ACname (c_owner k) n ttl)
  | dm_ptr t n : c_ooz k = false -> name_means k t n -> data_means k ttl ttl_min (DPtr t) (APtr (c_owner k) n ttl)
  | dm_mx p pv t n : c_ooz k = false -> number p pv -> name_means k t n -> data_means k ttl ttl_min (DMx p t) (AMx (c_owner k) n ttl pv)
  | dm_txt ts sss : c_ooz k = false -> Forall2 (strings autosplit) ts sss -> N.of_nat (length (wire_strings (concat sss))) <= 16000 ->
      data_means k ttl ttl_min (DTxt ts) (ATxt (c_owner k) (wire_strings (concat sss)) ttl)
  | dm_srv p pv w wv o ov t n : c_ooz k = false -> number p pv -> number w wv -> number o ov -> name_means k t n ->
      data_means k ttl ttl_min (DSrv p w o t) (ASrv (c_owner k) n ttl pv wv ov)
  | dm_naptr o ov p pv a sa b sb c sc t n : c_ooz k = false -> number o ov -> number p pv -> one_string a sa -> one_string b sb ->
      one_string c sc -> name_means k t n ->
      data_means k ttl ttl_min (DNaptr o p a b c t) (ANaptr (c_owner k) n ttl ov pv (wire_strings [sa; sb; sc]))
  | dm_soa m mn r rn d1 v1 d2 v2 d3 v3 d4 v4 d5 v5 : c_ooz k = false -> c_owner k = [] -> name_means k m mn -> name_means k r rn ->
      duration d1 v1 -> duration d2 v2 -> duration d3 v3 -> duration d4 v4 -> duration d5 v5 ->
      data_means k ttl ttl_min (DSoa m r d1 d2 d3 d4 d5) (ASoa [] mn rn ttl v1 v2 v3 v4 v5)
  | dm_gen ty tv len l : c_ooz k = false -> number ty tv -> number len (N.of_nat (length l)) -> l <> [] ->
      data_means k ttl ttl_min (DGen ty len l) (AOther (c_owner k) tv ttl (map octet_value l))
  | dm_caa f fv p v d : c_ooz k = false -> number f fv -> fv <= 255 -> (length p <= 255)%nat -> unescaped v d -> N.of_nat (length d) <= 16000 ->
      data_means k ttl ttl_min (DCaa f p v) (AOther (c_owner k) 257 ttl (fv :: N.of_nat (length p) :: p ++ d))
  | dm_dyna t s : c_ooz k = false -> (length t <= 255)%nat -> cstring t s -> data_means k ttl ttl_min (DDyna t) (ADyna (c_owner k) s ttl ttl_min)
  | dm_dync t s : c_ooz k = false -> (length t <= 255)%nat -> cstring t s -> data_means k ttl ttl_min (DDync t) (ADync (c_owner k) s ttl ttl_min).

  (** TTL and least TTL (for dynamic records): half the TTL if none or 0 is given *)
  Inductive ttl_means (k : ctx) : option (dur * option dur) -> N -> N -> Prop :=
  | tm_default : ttl_means k None (c_ttl k) (c_ttl k / 2)
  | tm_one d v : duration d v -> ttl_means k (Some (d, None)) v (v / 2)
  | tm_two d v d2 m : duration d v -> duration d2 m -> ttl_means k (Some (d, Some d2)) v (if m =? 0 then v / 2 else m).

  (** files within the file: [incl origin file default_ttl records] *)
  Variable incl : name -> bytes -> N -> list record -> Prop.
  Variable cur : bytes.

  Inductive means (k : ctx) : stmt -> ctx -> list record -> Prop :=
  | me_empty : means k Empty k []
  | me_rec_same topt v m d r : ttl_means k topt v m -> data_means k v m d r -> means k (Rec None topt d) k [r]
  | me_rec o n ooz topt v m d r k' : owner_means k o n ooz ->
      k' = {| c_origin := c_origin k; c_file := c_file k; c_ttl := c_ttl k; c_owner := n; c_ooz := ooz |} ->
      ttl_means k' topt v m -> data_means k' v m d r -> means k (Rec (Some o) topt d) k' [r]
  | me_default d v : duration d v ->
      means k (SetDefault d) {| c_origin := c_origin k; c_file := c_file k; c_ttl := v; c_owner := c_owner k; c_ooz := c_ooz k |} []
  | me_origin t q : name_means k t (q ++ zone) ->
      means k (SetOrigin t) {| c_origin := q ++ zone; c_file := c_file k; c_ttl := c_ttl k; c_owner := c_owner k; c_ooz := c_ooz k |} []
  | me_include t o origin d f p rs : match o with None => origin = c_origin k | Some n => name_means k n origin end ->
      (exists q, origin = q ++ zone) -> t <> [] -> unescaped t d -> cstring d f -> path cur f p -> incl origin p (c_ttl k) rs ->
      means k (Include t o) k rs.

  (** all the lines of a text *)
  Inductive lines : ctx -> bytes -> list record -> Prop :=
  | li_nil k : lines k [] []
  | li_line k t s k' rs text rs' : line_text t s -> means k s k' rs -> lines k' text rs' -> lines k (t ++ text) (rs ++ rs').
End Meaning.

(** ** Files, nested at most [n] deep *)
Section Files.
  Variable zone : name.
  Variable autosplit : bool.
  Variable pton4 pton6 : bytes -> option bytes.
  Variable fs : bytes -> option bytes.
  Fixpoint zfile (n : nat) (origin : name) (fn : bytes) (ttl : N) (rs : list record) : Prop :=
    match n with
    | O => False
    | S n => exists raw text, fs fn = Some raw /\ raw <> [] /\ last raw 0 = 10 /\ layout false false raw text /\
        lines zone autosplit pton4 pton6 (zfile n) fn
          {| c_origin := origin; c_file := origin; c_ttl := ttl; c_owner := []; c_ooz := false |} text rs
    end.
End Files.

(** ** Files that may make the daemon die *)
(** the beginnings of a line that make the daemon die: an empty name in quotes
    on the right side, an empty file name in quotes, generic data of length 0
    (modulo 2^32) *)
Inductive deadly_data : bytes -> Prop :=
| dd_name s k b : In s ["ns"; "cname"; "ptr"]%string -> spells s k -> blanks b -> deadly_data (k ++ b ++ [34; 34])
| dd_mx k b p b1 : spells "mx" k -> blanks b -> digits p -> blanks b1 -> deadly_data (k ++ b ++ p ++ b1 ++ [34; 34])
| dd_srv k b p b1 w b2 o b3 : spells "srv" k -> blanks b -> digits p -> blanks b1 -> digits w -> blanks b2 -> digits o -> blanks b3 ->
    deadly_data (k ++ b ++ p ++ b1 ++ w ++ b2 ++ o ++ b3 ++ [34; 34])
| dd_naptr k b o b1 p b2 ta xa b3 tb xb b4 tc xc b5 :
    spells "naptr" k -> blanks b -> digits o -> blanks b1 -> digits p -> blanks b2 -> text_token ta xa -> blanks b3 -> text_token tb xb ->
    blanks b4 -> text_token tc xc -> blanks b5 ->
    deadly_data (k ++ b ++ o ++ b1 ++ p ++ b2 ++ ta ++ b3 ++ tb ++ b4 ++ tc ++ b5 ++ [34; 34])
| dd_soa k b : spells "soa" k -> blanks b -> deadly_data (k ++ b ++ [34; 34])
| dd_soa_mail k b tm m b1 : spells "soa" k -> blanks b -> name_token tm m -> blanks b1 -> deadly_data (k ++ b ++ tm ++ b1 ++ [34; 34])
| dd_gen k ty b b1 len c : spells "type" k -> digits ty -> blanks b -> blanks b1 -> digits len -> number len 0 -> blank c ->
    deadly_data (k ++ ty ++ b ++ 92 :: 35 :: b1 ++ len ++ [c]).
Inductive deadly : bytes -> Prop :=
| de_rec o on b t topt td : owner_text o on -> blanks b -> options_text t topt -> deadly_data td -> deadly (o ++ b ++ t ++ td)
| de_origin k b : spells "origin" k -> blanks b -> deadly (36 :: k ++ b ++ [34; 34])
| de_include k b : spells "include" k -> blanks b -> deadly (36 :: k ++ b ++ [34; 34])
| de_include_at k b t f b1 : spells "include" k -> blanks b -> text_token t f -> blanks b1 -> deadly (36 :: k ++ b ++ t ++ b1 ++ [34; 34]).
(** a text with such a line *)
Definition dangerous (text : bytes) : Prop :=
  exists x h y, text = x ++ h ++ y /\ (x = [] \/ exists x', x = x' ++ [10]) /\ deadly h.
Section Nesting.
  Variable fs : bytes -> option bytes.
  (** the text of the file [fn] has an $INCLUDE of the file [p] *)
  Definition includes (fn p : bytes) : Prop :=
    exists raw text x t y f o d f', fs fn = Some raw /\ layout false false raw text /\
      text = x ++ t ++ y /\ (x = [] \/ exists x', x = x' ++ [10]) /\ (blank (hd 0 y) \/ hd 0 y = 10) /\
      stmt_text t (Include f o) /\ unescaped f d /\ cstring d f' /\ path fn f' p.
  (** the files that reading [fn] may come to *)
  Inductive reads (fn : bytes) : bytes -> Prop :=
  | re_self : reads fn fn
  | re_include p q : includes fn p -> reads p q -> reads fn q.
  (** an empty file, or one with a deadly line *)
  Definition deadly_file (fn : bytes) : Prop :=
    fs fn = Some [] \/ exists raw text, fs fn = Some raw /\ layout false false raw text /\ dangerous text.
  (** a chain of [n] files, each included by the one before *)
  Fixpoint nested (n : nat) (fn : bytes) : Prop :=
    match n with O => True | S n => exists p, includes fn p /\ nested n p end.
End Nesting.
