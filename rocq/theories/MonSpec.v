(** What users of the monitoring core are told, independent of its code. *)
From Verif Require Import Base MonModel.
Local Open Scope N_scope.

(** ** What a state word means: bit 31 down, bit 30 forced, 28 bits of TTL *)
Definition w_down (w : N) : bool := N.odd (w / 2 ^ 31).
Definition w_forced (w : N) : bool := N.odd (w / 2 ^ 30).
Definition w_ttl (w : N) : N := w mod 2 ^ 28.
Definition word (down forced : bool) (ttl : N) : N :=
  (if down then 2 ^ 31 else 0) + (if forced then 2 ^ 30 else 0) + ttl.
(** a legal word: 32 bits, the two reserved bits clear *)
Definition w_legal (w : N) : Prop := w < 2 ^ 32 /\ (w / 2 ^ 28) mod 4 = 0.

(** ** Text form STATE[/TTL] *)
Definition ci (a b : bytes) : Prop := map upcase a = map upcase b.

(** value of a non-empty string of decimal digits *)
Inductive decimal : bytes -> N -> Prop :=
| dec_one b : 48 <= b <= 57 -> decimal [b] (b - 48)
| dec_more s v b : decimal s v -> 48 <= b <= 57 -> decimal (s ++ [b]) (10 * v + (b - 48)).

(** what the C library's strtoul accepts as a whole in base 10 *)
Inductive c_number : bytes -> N -> Prop :=
| num_pos sp s v : Forall (fun b => isspace b = true) sp -> decimal s v -> v < 2 ^ 64 -> c_number (sp ++ s) v
| num_plus sp s v : Forall (fun b => isspace b = true) sp -> decimal s v -> v < 2 ^ 64 -> c_number (sp ++ 43 :: s) v
| num_minus sp s v : Forall (fun b => isspace b = true) sp -> decimal s v -> v < 2 ^ 64 ->
    c_number (sp ++ 45 :: s) ((2 ^ 64 - v) mod 2 ^ 64).

Inductive state_text : bytes -> bool -> Prop :=
| st_up s : ci s [85; 80] -> state_text s false
| st_down s : ci s [68; 79; 87; 78] -> state_text s true.

(** [sttl_text def s down ttl]: [s] is a legal state text and denotes this. *)
Inductive sttl_text (def : N) : bytes -> bool -> N -> Prop :=
| tx_plain s d : state_text s d -> sttl_text def s d def
| tx_ttl s d n v : state_text s d -> c_number n v -> v < 2 ^ 28 -> sttl_text def (s ++ 47 :: n) d v.

(** The documented, strict form: TTL written with decimal digits only. *)
Inductive sttl_text_strict (def : N) : bytes -> bool -> N -> Prop :=
| txs_plain s d : state_text s d -> sttl_text_strict def s d def
| txs_ttl s d n v : state_text s d -> decimal n v -> v < 2 ^ 28 -> sttl_text_strict def (s ++ 47 :: n) d v.

(** ** Thresholds *)
Fixpoint failures (w : list bool) : nat :=
  match w with [] => O | b :: w' => if b then failures w' else S (failures w') end.

(** [k] consecutive successes somewhere in [w] *)
Definition has_run (k : nat) (w : list bool) : Prop :=
  exists a b, w = a ++ repeat true k ++ b.

(** The results [w] since the last change of state change it again: *)
Definition changes (t : svc) (down : bool) (w : list bool) : Prop :=
  if down
  then (* up_thresh consecutive successes *)
    exists a, w = a ++ repeat true (N.to_nat (up_thresh t))
  else (* down_thresh failures with no run of ok_thresh successes among them *)
    exists a b, w = a ++ b /\ (N.to_nat (down_thresh t) <= failures b)%nat /\
                ~ has_run (N.to_nat (ok_thresh t)) b.

(** [phase t d0 h d w]: starting in state [d0], after the results [h] the
    state is [d], and [w] are the results since it last changed. *)
Inductive phase (t : svc) (d0 : bool) : list bool -> bool -> list bool -> Prop :=
| ph_start : phase t d0 [] d0 []
| ph_stay h d w r : phase t d0 h d w -> ~ changes t d (w ++ [r]) -> phase t d0 (h ++ [r]) d (w ++ [r])
| ph_flip h d w r : phase t d0 h d w -> changes t d (w ++ [r]) -> phase t d0 (h ++ [r]) (negb d) [].

(** The fewest further results that can change the state. *)
Definition soonest (t : svc) (d : bool) (w : list bool) (k : nat) : Prop :=
  (exists f, length f = k /\ changes t d (w ++ f)) /\
  (forall f, (length f < k)%nat -> ~ changes t d (w ++ f)).

(** Probe results of item [i] in a history. *)
Fixpoint probes_of (i : nat) (os : list op) : list bool :=
  match os with
  | [] => []
  | OProbe j b :: os' => if Nat.eqb i j then b :: probes_of i os' else probes_of i os'
  | _ :: os' => probes_of i os'
  end.

Definition last_probe (i : nat) (os : list op) (default : bool) : bool :=
  last (probes_of i os) default.

(** ** Administrative state *)
Section AdminSpec.
  Variable fnmatch : bytes -> bytes -> fnm.

  Definition entry_ok (ss : list smgr) (e : bytes * aval) : Prop :=
    (exists s d v, snd e = ASimple s /\ sttl_text (2 ^ 28 - 1) s d v) /\
    forall s, In s ss -> fnmatch (fst e) (desc s) <> FError.

  (** An acceptable file: every value is a state text, every pattern a glob. *)
  Definition file_ok (ss : list smgr) (f : afile) : Prop :=
    match f with
    | AHash es => Forall (entry_ok ss) es
    | ABroken => False
    end.

  (** [forced_to es d o]: what the entries [es] ask for an item named [d]:
      the state of the last matching entry, or nothing. *)
  Inductive forced_to : list (bytes * aval) -> bytes -> option N -> Prop :=
  | ft_none d : forced_to [] d None
  | ft_match es p s d down ttl o : forced_to es d o -> fnmatch p d = FMatch ->
      sttl_text (2 ^ 28 - 1) s down ttl ->
      forced_to (es ++ [(p, ASimple s)]) d (Some (word down true ttl))
  | ft_skip es p x d o : forced_to es d o -> fnmatch p d <> FMatch ->
      forced_to (es ++ [(p, x)]) d o.

  (** [in_force ss os es]: after the history [os], [es] is the admin file in
      force: the last acceptable one, none after a deletion. *)
  Inductive in_force (ss : list smgr) (es0 : list (bytes * aval)) : list op -> list (bytes * aval) -> Prop :=
  | if_start : in_force ss es0 [] es0
  | if_load os es f : in_force ss es0 os es -> file_ok ss (AHash f) -> in_force ss es0 (os ++ [OAdmin (AHash f)]) f
  | if_bad os es f : in_force ss es0 os es -> ~ file_ok ss f -> in_force ss es0 (os ++ [OAdmin f]) es
  | if_delete os es : in_force ss es0 os es -> in_force ss es0 (os ++ [ODelete]) []
  | if_other os es o : in_force ss es0 os es ->
      match o with OAdmin _ | ODelete => False | _ => True end ->
      in_force ss es0 (os ++ [o]) es.
End AdminSpec.

(** What monitoring plugins may do: report on items that exist and, for simple
    results, have a service type; never set the forced or reserved bits. *)
Definition legal_op (items : list (bytes * option svc * bool)) (o : op) : Prop :=
  match o with
  | OProbe i _ => exists d t b, nth_error items i = Some (d, Some t, b) /\ svc_ok t
  | OSttl i v => (i < length items)%nat /\ w_legal v /\ w_forced v = false
  | _ => True
  end.

Definition monitor_op (o : op) : Prop := match o with OProbe _ _ | OSttl _ _ => True | _ => False end.
Definition is_monitor (o : op) : bool := match o with OProbe _ _ | OSttl _ _ => true | _ => false end.
