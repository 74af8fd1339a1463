(** What the configurations of simplefo, multifo and weighted mean *)
From Coq Require Import String ZArith.
From Verif Require Import Base MonSpec DnameModel DnameSpec CompModel RespModel MonModel VscfModel OptModel OptSpec VhashModel VhashSpec PlugModel PlugSpec MsgModel PconfModel.
Local Open Scope N_scope.
Local Open Scope list_scope.
Local Notation length := List.length.

(** The data as they were read: nothing is marked *)
Fixpoint fresh (v : vnode) : tree :=
  match v with
  | VS r s => TS r s
  | VA l => TA (map fresh l)
  | VH l => TH (map (fun e => (fst e, false, fresh (snd e))) l)
  end.

Definition hash := list (bytes * vnode).
Definition among (ks : list bytes) (k : bytes) : bool := existsb (bytes_eqb k) ks.
Definition others (ks : list bytes) (h : hash) : hash := filter (fun e => negb (among ks (fst e))) h.
Definition only_b (ks : list bytes) (h : hash) : bool := match others ks h with [] => true | _ => false end.

(** A parameter is taken from the innermost hash that gives it *)
Fixpoint setting (k : bytes) (hs : list hash) : option vnode :=
  match hs with
  | [] => None
  | h :: hs' => match get k h with Some v => Some v | None => setting k hs' end
  end.
(** All of them, or nothing *)
Fixpoint all {A B} (f : A -> option B) (l : list A) : option (list B) :=
  match l with
  | [] => Some []
  | a :: l' => match f a, all f l' with Some b, Some bs => Some (b :: bs) | _, _ => None end
  end.
Definition obind {A B} (o : option A) (f : A -> option B) : option B := match o with Some a => f a | None => None end.
Notation "'let?' x <- a ; b" := (obind a (fun x => b)) (at level 200, x name, a at level 100, b at level 200, right associativity).
Definition need (b : bool) : option unit := if b then Some tt else None.
(** A single value is a list of one *)
Definition elements (x : vnode) : list vnode := match x with VA l => l | _ => [x] end.

(** A fraction in (0, 1], as mantissa and exponent *)
Definition in_range (m : N) (e : Z) : bool :=
  (0 <? m) && (if (0 <=? e)%Z then m * 2 ^ Z.to_N e <=? 1 else m <=? 2 ^ Z.to_N (- e)).
(** [u] is the given part of [n], rounded up, m 2^e n <= u < m 2^e n + 1, but for the precision of a double, a factor of
    1 - 2^-53 or 1 + 2^-53, when the product has too many digits *)
Definition part_of (n m : N) (e : Z) (u : N) : Prop :=
  1 <= u <= n /\
  let d := 2 ^ Z.to_N (- e) in
  (n * m < 2 ^ 53 -> n * m * 2 ^ Z.to_N e <= u * d /\ (u - 1) * d < n * m * 2 ^ Z.to_N e) /\
  n * m * 2 ^ Z.to_N e * (2 ^ 53 - 1) <= u * d * 2 ^ 53 /\
  (u - 1) * d * 2 ^ 53 < n * m * 2 ^ Z.to_N e * (2 ^ 53 + 1).

(** Nothing has 2^32 elements *)
Inductive sized : vnode -> Prop :=
| si_str r v : sized (VS r v)
| si_arr l : N.of_nat (length l) < 2 ^ 32 -> Forall sized l -> sized (VA l)
| si_hash l : N.of_nat (length l) < 2 ^ 32 -> Forall (fun e => sized (snd e)) l -> sized (VH l).

Inductive raw_bytes : vnode -> Prop :=
| rb_str r v : all_bytes r -> raw_bytes (VS r v)
| rb_arr l : Forall raw_bytes l -> raw_bytes (VA l)
| rb_hash l : Forall (fun e => raw_bytes (snd e)) l -> raw_bytes (VH l).

(** A weight: an integer of C from 1 to 1048575 *)
Definition weight_text (s : bytes) (w : N) : Prop :=
  exists sp sign u, s = sp ++ sign ++ u /\ forallb isspace sp = true /\ (sign = [] \/ sign = [43]) /\ c_unsigned u w /\ 1 <= w <= 1048575.

(** ** What is monitored *)

(** [i] is the number of the state of service [svc] on [x] *)
Definition monitors (s : state) (x : thing) (svc : bytes) (i : nat) : Prop := nth_error (mons s) i = Some (Some (svc, x)).
(** What was there stays *)
Definition later (s s' : state) : Prop := (exists l, mons s' = mons s ++ l) /\ lim4 s <= lim4 s' /\ lim6 s <= lim6 s'.

(** The table of states has a word for everything monitored *)
Definition tracks (tbl : list N) (s : state) : Prop :=
  forall i e, nth_error (mons s) i = Some (Some e) -> (i < length tbl)%nat /\ MonSpec.w_legal (nth i tbl 0).

(** There is room for as many addresses as a resource can give *)
Definition roomy {A} (s : state) (count : A -> nat) (w : option A * option A) : Prop :=
  (forall a, fst w = Some a -> N.of_nat (count a) <= lim4 s) /\ (forall a, snd w = Some a -> N.of_nat (count a) <= lim6 s).

Section Meaning.
  Variable gai : bytes -> option addr.
  Variable strtod : bytes -> option dbl.
  Variable service : bytes -> option (bool * bool).

  Definition can_watch (x : thing) (svc : bytes) : bool :=
    match service svc, x with
    | Some (b, _), OnAddr _ => b
    | Some (_, b), OnName _ => b
    | None, _ => false
    end.
  (** Every monitor has a service that can do it, and there are no two alike *)
  Definition sound (s : state) : Prop :=
    (forall i svc x, nth_error (mons s) i = Some (Some (svc, x)) -> can_watch x svc = true) /\
    (forall i j e, nth_error (mons s) i = Some (Some e) -> nth_error (mons s) j = Some (Some e) -> i = j).

  (** Loading in state [s] does what is meant: if the configuration means nothing, the program stops with a message; if it means
      [w], the resources are [made], and what was there stays.  No assertion fails. *)
  Definition loads {A W} (load : cm A) (s : state) (means : option W) (made : state -> W -> A -> Prop) : Prop :=
    match means with
    | None => load s = Ok None
    | Some w => exists rs s', load s = Ok (Some (rs, s')) /\ made s' w rs /\ later s s' /\ sound s'
    end.

  (** ** Values *)
  Definition services (o : option vnode) : option (list bytes) :=
    match o with
    | None => Some [txt "up"]
    | Some x => all (fun y => match y with VS _ v => Some (c_str v) | _ => None end) (elements x)
    end.
  Definition address (x : vnode) : option addr := match x with VS _ v => gai (c_str v) | _ => None end.
  Definition fraction (o : option vnode) : option (N * Z) :=
    match o with
    | None => Some (1, (-1)%Z)
    | Some (VS _ (b :: v)) =>
        match strtod (b :: v) with
        | Some (Fin false m e) => if in_range m e then Some (m, e) else None
        | _ => None
        end
    | Some _ => None
    end.
  Definition boolean (o : option vnode) : option bool :=
    match o with
    | None => Some false
    | Some (VS _ v) => as_bool v
    | Some _ => None
    end.
  Definition watched (svcs : list bytes) (x : thing) : option unit := need (forallb (can_watch x) svcs).
  (** An address of this family *)
  Definition address_in (v6 : bool) (svcs : list bytes) (x : vnode) : option addr :=
    let? a <- address x ;
    let? _ <- need (Bool.eqb v6 (is6 a)) ;
    let? _ <- watched svcs (OnAddr a) ;
    Some a.

  (** ** simplefo *)
  Record s_want := { sw_svcs : list bytes; sw_pri : addr; sw_sec : addr }.
  Definition s_pair_says (h : hash) (outer : list hash) : option s_want :=
    let? svcs <- services (setting k_types (h :: outer)) ;
    let? p <- obind (get (txt "primary") h) address ;
    let? _ <- watched svcs (OnAddr p) ;
    let? s <- obind (get (txt "secondary") h) address ;
    let? _ <- watched svcs (OnAddr s) ;
    Some {| sw_svcs := svcs; sw_pri := p; sw_sec := s |}.
  Definition s_keys : list bytes := [k_types; txt "primary"; txt "secondary"].
  Definition s_family_says (v6 : bool) (o : option vnode) (outer : list hash) : option (option s_want) :=
    match o with
    | None => Some None
    | Some (VH h) =>
        let? w <- s_pair_says h outer ;
        let? _ <- need (Bool.eqb v6 (is6 (sw_pri w)) && Bool.eqb v6 (is6 (sw_sec w)) && only_b s_keys h) ;
        Some (Some w)
    | Some _ => None
    end.
  Definition s_res_says (plugin : hash) (x : vnode) : option (option s_want * option s_want) :=
    match x with
    | VH h =>
        match get k_v4 h, get k_v6 h with
        | None, None =>
            let? w <- s_pair_says h [plugin] ;
            let? _ <- need (Bool.eqb (is6 (sw_pri w)) (is6 (sw_sec w)) && only_b s_keys h) ;
            Some (if is6 (sw_pri w) then (None, Some w) else (Some w, None))
        | c4, c6 =>
            let? _ <- need (only_b [k_v4; k_v6; k_types] h) ;
            let? w4 <- s_family_says false c4 [h; plugin] ;
            let? w6 <- s_family_says true c6 [h; plugin] ;
            Some (w4, w6)
        end
    | _ => None
    end.
  (** The resources, in the order of the file *)
  Definition simplefo_says (h : hash) : option (list (bytes * (option s_want * option s_want))) :=
    all (fun e => let? w <- s_res_says h (snd e) ; Some (c_str (fst e), w)) (others [k_types] h).

  (** The data of a resource are what was meant *)
  Definition s_made (s : state) (w : s_want) (p : s_pair) : Prop :=
    sp_pri p = sw_pri w /\ sp_sec p = sw_sec w /\
    Forall2 (monitors s (OnAddr (sw_pri w))) (sw_svcs w) (sp_pidx p) /\ Forall2 (monitors s (OnAddr (sw_sec w))) (sw_svcs w) (sp_sidx p).
  Definition maybe {A B} (R : A -> B -> Prop) (a : option A) (b : option B) : Prop :=
    match a, b with None, None => True | Some a, Some b => R a b | _, _ => False end.
  Definition families {A B} (R : A -> B -> Prop) (a : bytes * (option A * option A)) (b : bytes * (option B * option B)) : Prop :=
    fst a = fst b /\ maybe R (fst (snd a)) (fst (snd b)) /\ maybe R (snd (snd a)) (snd (snd b)).

  (** ** multifo *)
  Record m_want := { mw_svcs : list bytes; mw_part : N * Z; mw_ignore : bool; mw_addrs : list addr }.
  (** Labels with addresses, among parameters, or just addresses *)
  Definition m_inner (x : vnode) : list hash := match x with VH h => [h] | _ => [] end.
  Definition m_list (x : vnode) : list vnode := match x with VH h => map snd (others m_keys h) | _ => elements x end.
  Definition m_set_says (v6 : bool) (x : vnode) (outer : list hash) : option m_want :=
    let scope := m_inner x ++ outer in
    let? svcs <- services (setting k_types scope) ;
    let? part <- fraction (setting k_thresh scope) ;
    let? ignore <- boolean (setting k_ignore scope) ;
    let? as_ <- all (address_in v6 svcs) (m_list x) ;
    let? _ <- need (match as_ with [] => false | _ => true end) ;
    Some {| mw_svcs := svcs; mw_part := part; mw_ignore := ignore; mw_addrs := as_ |}.
  Definition m_family_says (v6 : bool) (o : option vnode) (outer : list hash) : option (option m_want) :=
    match o with None => Some None | Some x => let? w <- m_set_says v6 x outer ; Some (Some w) end.
  (** The first address tells the family *)
  Definition m_direct_says (x : vnode) (plugin : hash) : option (option m_want * option m_want) :=
    let? a <- match m_list x with y :: _ => address y | [] => None end ;
    let? w <- m_set_says (is6 a) x [plugin] ;
    Some (if is6 a then (None, Some w) else (Some w, None)).
  Definition m_res_says (plugin : hash) (x : vnode) : option (option m_want * option m_want) :=
    match x with
    | VH h =>
        match get k_v4 h, get k_v6 h with
        | None, None => m_direct_says x plugin
        | c4, c6 =>
            let? _ <- need (only_b (k_v4 :: k_v6 :: m_keys) h) ;
            let? w4 <- m_family_says false c4 [h; plugin] ;
            let? w6 <- m_family_says true c6 [h; plugin] ;
            Some (w4, w6)
        end
    | _ => m_direct_says x plugin
    end.
  Definition within {A} (count : A -> nat) (o : option A) : bool := match o with Some a => N.of_nat (count a) <=? 360 | None => true end.
  Definition multifo_says (h : hash) : option (list (bytes * (option m_want * option m_want))) :=
    let? ws <- all (fun e => let? w <- m_res_says h (snd e) ; Some (c_str (fst e), w)) (others m_keys h) ;
    let size := within (fun w => length (mw_addrs w)) in
    let? _ <- need (forallb (fun w => size (fst (snd w)) && size (snd (snd w))) ws) ;
    Some ws.
  Definition m_made (s : state) (w : m_want) (m : m_set) : Prop :=
    Forall2 (fun a x => ma_addr x = a /\ Forall2 (monitors s (OnAddr a)) (mw_svcs w) (ma_idx x)) (mw_addrs w) (ms_as m) /\
    ms_ignore m = mw_ignore w /\
    part_of (N.of_nat (length (mw_addrs w))) (fst (mw_part w)) (snd (mw_part w)) (N.of_nat (ms_up m)).

  (** ** weighted *)
  Record w_want := { ww_svcs : list bytes; ww_multi : bool; ww_part : N * Z; ww_groups : list (list (addr * N)) }.
  Definition weight (x : vnode) : option N :=
    match x with
    | VS _ v => match as_long v with Some z => if (1 <=? z)%Z && (z <=? 1048575)%Z then Some (Z.to_N z) else None | None => None end
    | _ => None
    end.
  Definition weighted_addr (v6 : bool) (svcs : list bytes) (x : vnode) : option (addr * N) :=
    match x with
    | VA [VS r v; w] =>
        let? n <- weight w ;
        let? a <- address_in v6 svcs (VS r v) ;
        Some (a, n)
    | _ => None
    end.
  Definition group_says (v6 : bool) (svcs : list bytes) (x : vnode) : option (list (addr * N)) :=
    match x with
    | VH h =>
        let? g <- all (fun e => weighted_addr v6 svcs (snd e)) h ;
        let? _ <- need (Nat.leb 1 (length g) && Nat.leb (length g) 64) ;
        Some g
    | _ => None
    end.
  (** Either all are groups, or all are addresses *)
  Definition groups_say (v6 : bool) (svcs : list bytes) (l : list vnode) : option (list (list (addr * N))) :=
    match l with
    | VH _ :: _ => all (group_says v6 svcs) l
    | _ => all (fun x => let? a <- weighted_addr v6 svcs x ; Some [a]) l
    end.
  Definition w_set_says (v6 : bool) (h : hash) (outer : list hash) : option w_want :=
    let? svcs <- services (setting k_types (h :: outer)) ;
    let? multi <- boolean (setting k_multi (h :: outer)) ;
    let? part <- fraction (setting k_thresh (h :: outer)) ;
    let? gs <- groups_say v6 svcs (map snd (others w_keys h)) ;
    let? _ <- need (Nat.leb 1 (length gs) && Nat.leb (length gs) 64) ;
    Some {| ww_svcs := svcs; ww_multi := multi; ww_part := part; ww_groups := gs |}.
  Definition w_family_says (v6 : bool) (o : option vnode) (outer : list hash) : option (option w_want) :=
    match o with
    | None => Some None
    | Some (VH h) => let? w <- w_set_says v6 h outer ; Some (Some w)
    | Some _ => None
    end.
  (** Names *)
  Record c_want := { cw_svcs : list bytes; cw_part : N * Z; cw_names : list (name * N) }.
  Variable fq_name : bytes -> option name.
  Definition weighted_name (svcs : list bytes) (x : vnode) : option (name * N) :=
    match x with
    | VA [VS r v; w] =>
        let? n <- weight w ;
        let? d <- fq_name r ;
        let? _ <- watched svcs (OnName (dname d true)) ;
        Some (d, n)
    | _ => None
    end.
  Definition c_set_says (h : hash) (outer : list hash) : option c_want :=
    let? svcs <- services (setting k_types (h :: outer)) ;
    let? part <- fraction (setting k_thresh (h :: outer)) ;
    let? ns <- all (weighted_name svcs) (map snd (others w_keys h)) ;
    let? _ <- need (Nat.leb 1 (length ns) && Nat.leb (length ns) 64) ;
    Some {| cw_svcs := svcs; cw_part := part; cw_names := ns |}.
  Inductive what_want := WantNames (c : c_want) | WantAddrs (v4 v6 : option w_want).
  (** Names if the first one is not an address, or else addresses of its family *)
  Definition first_text (x : vnode) : option bytes := match x with VA (VS _ v :: _) => Some (c_str v) | _ => None end.
  Definition w_direct_says (h : hash) (plugin : hash) : option what_want :=
    let fam (a : addr) := let? w <- w_set_says (is6 a) h [plugin] ; Some (if is6 a then WantAddrs None (Some w) else WantAddrs (Some w) None) in
    match map snd (others w_keys h) with
    | VH ((_, y) :: _) :: _ => let? t <- first_text y ; let? a <- gai t ; fam a
    | y :: _ =>
        let? t <- first_text y ;
        match gai t with
        | Some a => fam a
        | None => let? c <- c_set_says h [plugin] ; Some (WantNames c)
        end
    | [] => None
    end.
  Definition w_res_says (plugin : hash) (x : vnode) : option what_want :=
    match x with
    | VH h =>
        let? _ <- need (match get (txt "cnames") h with None => true | Some _ => false end) ;
        match get k_v4 h, get k_v6 h with
        | None, None => w_direct_says h plugin
        | c4, c6 =>
            let? _ <- need (only_b (k_v4 :: k_v6 :: w_keys) h) ;
            let? w4 <- w_family_says false c4 [h; plugin] ;
            let? w6 <- w_family_says true c6 [h; plugin] ;
            Some (WantAddrs w4 w6)
        end
    | _ => None
    end.
  Definition weighted_says (h : hash) : option (list (bytes * what_want)) :=
    all (fun e => let? w <- w_res_says h (snd e) ; Some (c_str (fst e), w)) (others w_keys h).
  (** The data of a set: the sums over these groups, and the least weight to be up *)
  Definition wa_made (s : state) (svcs : list bytes) (p : addr * N) (x : w_addr) : Prop :=
    wa_addr x = fst p /\ wa_weight x = snd p /\ Forall2 (monitors s (OnAddr (fst p))) svcs (wa_idx x).
  Definition w_made (s : state) (w : w_want) (x : w_set) : Prop :=
    exists up gs, x = mk_set (fun _ => up) (ww_multi w) gs /\ Forall2 (Forall2 (wa_made s (ww_svcs w))) (ww_groups w) gs /\
      part_of (total (map snd (concat (ww_groups w)))) (fst (ww_part w)) (snd (ww_part w)) up.
  Definition c_made (s : state) (w : c_want) (x : w_cnset) : Prop :=
    exists up its, x = mk_cnset (fun _ => up) its /\
      Forall2 (fun p i => wc_name i = fst p /\ wc_weight i = snd p /\ Forall2 (monitors s (OnName (dname (fst p) true))) (cw_svcs w) (wc_idx i))
        (cw_names w) its /\
      part_of (total (map snd (cw_names w))) (fst (cw_part w)) (snd (cw_part w)) up.
  Definition what_made (s : state) (w : what_want) (x : w_what) : Prop :=
    match w, x with
    | WantNames c, WNames y => c_made s c y
    | WantAddrs a4 a6, WAddrs y4 y6 => maybe (w_made s) a4 y4 /\ maybe (w_made s) a6 y6
    | _, _ => False
    end.

  Definition sets_of (w : what_want) : option w_want * option w_want := match w with WantAddrs a b => (a, b) | WantNames _ => (None, None) end.
  (** How many addresses a set can give at once *)
  Definition w_size (w : w_want) : nat := if ww_multi w then length (ww_groups w) else list_max (map (@length _) (ww_groups w)).

  (** ** What makes the program fail an assertion *)
  (** Not-a-number for a threshold (C61_nan_refuted) *)
  Inductive no_nan : vnode -> Prop :=
  | nn_str r v : no_nan (VS r v)
  | nn_arr l : Forall no_nan l -> no_nan (VA l)
  | nn_hash l : Forall (fun e => no_nan (snd e) /\ (fst e = k_thresh -> forall r v, snd e = VS r v -> strtod v <> Some NaN)) l -> no_nan (VH l).
  (** An empty label in a group of addresses (C61_empty_label_refuted) *)
  Inductive labelled : vnode -> Prop :=
  | la_str r v : labelled (VS r v)
  | la_arr l : Forall labelled l -> labelled (VA l)
  | la_hash l : Forall (fun e => fst e <> [] /\ labelled (snd e)) l -> labelled (VH l).
End Meaning.
