(** What a user writes for an option, and what it means *)
From Verif Require Import Base MonModel VscfModel OptModel.
Local Open Scope N_scope.

(** ** Numbers, as C reads them *)

Inductive digit : N -> N -> Prop :=
| Digit d : d < 10 -> digit (48 + d) d           (* 0-9 *)
| Lower d : 10 <= d -> d < 16 -> digit (87 + d) d  (* a-f *)
| Upper d : 10 <= d -> d < 16 -> digit (55 + d) d. (* A-F *)

Inductive digits (base : N) : bytes -> N -> Prop :=
| D0 : digits base [] 0
| DS ds v c d : digits base ds v -> digit c d -> d < base -> digits base (ds ++ [c]) (v * base + d).

Inductive c_unsigned : bytes -> N -> Prop :=
| CDec c ds v : c <> 48 -> digits 10 (c :: ds) v -> c_unsigned (c :: ds) v
| COct ds v : digits 8 ds v -> c_unsigned (48 :: ds) v
| CHex x ds v : x = 120 \/ x = 88 -> ds <> [] -> digits 16 ds v -> c_unsigned (48 :: x :: ds) v.

(** White space, a sign, the digits; it has to fit 64 bits, and a minus wraps *)
Definition c_integer (s : bytes) (n : N) : Prop :=
  exists sp sign u v,
    s = sp ++ sign ++ u /\ forallb isspace sp = true /\ c_unsigned u v /\ v < two64 /\
    ((sign = [] \/ sign = [43]) /\ n = v \/ sign = [45] /\ n = (two64 - v) mod two64).

(** true or false, in any case *)
Definition c_bool (s : bytes) (b : bool) : Prop :=
  map (fun c => if (65 <=? c) && (c <=? 90) then c + 32 else c) s =
  (if b then [116; 114; 117; 101] else [102; 97; 108; 115; 101]).

(** ** Entries of a hash *)

(** The value given for a key, if there is one *)
Definition given (l : list (bytes * vnode)) (k : bytes) (o : option vnode) : Prop :=
  match o with
  | Some v => exists l1 l2, l = l1 ++ (k, v) :: l2 /\ ~ In k (map fst l1)
  | None => ~ In k (map fst l)
  end.

Definition number (l : list (bytes * vnode)) (k : bytes) (lo hi dflt n : N) : Prop :=
  (given l k None /\ n = dflt) \/
  (exists raw s, given l k (Some (VS raw s)) /\ c_integer s n /\ lo <= n <= hi).

Definition flag (l : list (bytes * vnode)) (k : bytes) (dflt b : bool) : Prop :=
  (given l k None /\ b = dflt) \/
  (exists raw s, given l k (Some (VS raw s)) /\ c_bool s b).

(** The text of a value up to its first NUL byte *)
Definition text_of (s t : bytes) : Prop :=
  ~ In 0 t /\ (s = t \/ exists r, s = t ++ 0 :: r).

Definition text (l : list (bytes * vnode)) (k : bytes) (dflt o : option bytes) : Prop :=
  (given l k None /\ o = dflt) \/
  (exists raw s t, given l k (Some (VS raw s)) /\ text_of s t /\ o = Some t).

(** Nothing but these keys *)
Definition only (l : list (bytes * vnode)) (ks : list bytes) : Prop :=
  forall k, In k (map fst l) -> In k ks.
