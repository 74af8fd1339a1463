(** The configuration of the plugins simplefo, multifo and weighted: src/plugins/simplefo.c,
    multifo.c, weighted.c, with the registration of monitors (mon.c) and of the sizes of
    results (plugapi.c).  The configuration data are the trees with marks of VhashSpec.v:
    C59 shows that the hash tables of libgdnsd/vscf.rl behave like them.
    Simplifications: [getaddrinfo] and [strtod] are given (the port and scope of an address
    are left out, and floating point numbers are mantissa and exponent); a resource's name
    is kept with its data; v4_max and v6_max of multifo.c are taken at the end. *)
From Coq Require Import String Ascii ZArith.
From Verif Require Import Base DnameModel CompModel RespModel MonModel VscfModel OptModel VhashModel VhashSpec PlugModel MsgModel.
Local Open Scope N_scope.
Local Open Scope list_scope.
Local Notation length := List.length.

Definition tab := list (bytes * bool * tree).

(** ** Floating point *)

(** A double: [Fin neg m e] is m * 2^e, with a sign *)
Inductive dbl := NaN | Inf (neg : bool) | Fin (neg : bool) (m : N) (e : Z).
(** up_thresh <= 0.0, up_thresh > 1.0; a NaN compares with nothing *)
Definition le_zero (d : dbl) : bool :=
  match d with NaN => false | Inf neg => neg | Fin neg m _ => neg || (m =? 0) end.
Definition gt_one (d : dbl) : bool :=
  match d with
  | NaN => false
  | Inf neg => negb neg
  | Fin neg m e => negb neg && (if (0 <=? e)%Z then 1 <? m * 2 ^ Z.to_N e else 2 ^ Z.to_N (- e) <? m)
  end.
(** An integer rounded to 53 significant bits, to the nearest, halves to the even one *)
Definition round53 (n : N) : N :=
  let sh := N.size n - 53 in
  let q := N.shiftr n sh in
  let r := n - N.shiftl q sh in
  let up := (2 ^ sh <? 2 * r) || ((2 ^ sh =? 2 * r) && N.odd q) in
  N.shiftl (if up then q + 1 else q) sh.
(** [gdnsd_uscale_ceil], libgdnsd/misc.c:269-277.  The product of an unsigned and a positive double is
    rounded to 53 bits (it cannot become so small that it is rounded more). *)
Definition uscale_ceil (v : N) (d : dbl) : res N :=
  match d with
  | NaN => UB
  | Inf _ => UB
  | Fin neg m e =>
      rassert (negb (neg && negb (m =? 0)))
      (rassert (negb (gt_one d))
      (let n := round53 (v * m) in
       let c := if (0 <=? e)%Z then n * 2 ^ Z.to_N e else (n + 2 ^ Z.to_N (- e) - 1) / 2 ^ Z.to_N (- e) in
       rassert (c <=? v) (Ok c)))
  end.

(** strtol(s, &endptr, 0) on LP64, as [strtoul0]: the value is negated, and out of range from 2^63 on *)
Definition strtol0 (s : bytes) : bool * Z * bytes :=
  let s1 := skip_space s in
  let '(neg, s2) :=
    match s1 with
    | b :: t => if b =? 45 then (true, t) else if b =? 43 then (false, t) else (false, s1)
    | [] => (false, s1)
    end in
  let fin (base : N) (ds : bytes) :=
    let '(v, rest) := digits_in base 0 ds in
    if (if neg : bool then 2 ^ 63 <? v else 2 ^ 63 <=? v) then (true, if neg : bool then (- 2 ^ 63)%Z else (2 ^ 63 - 1)%Z, rest)
    else (false, if neg : bool then (- Z.of_N v)%Z else Z.of_N v, rest) in
  match s2 with
  | [] => (false, 0%Z, s)
  | c :: t =>
      if c =? 48 then
        match t with
        | x :: y :: _ =>
            if ((x =? 120) || (x =? 88)) && match digit_in 16 y with Some _ => true | None => false end
            then fin 16 (tl t) else fin 8 s2
        | _ => fin 8 s2
        end
      else match digit_in 10 c with Some _ => fin 10 s2 | None => (false, 0%Z, s) end
  end.
(** [vscf_simple_get_as_long], vscf.rl:1048-1064 *)
Definition as_long (v : bytes) : option Z :=
  match v with
  | [] => None
  | _ => let '(err, n, rest) := strtol0 v in
         match rest with [] => if err then None else Some n | _ => None end
  end.

(** ** What plugins leave behind for others *)

(** [smgr_t], src/plugins/mon.c: what is monitored; an administrative state ([None]) has no service type *)
Inductive thing := OnAddr (a : addr) | OnName (d : bytes).
Record state := State { mons : list (option (bytes * thing)); lim4 : N; lim6 : N }.

(** Steps that use and change it; [Ok None] is a fatal message *)
Definition cm (A : Type) := state -> res (option (A * state)).
Definition ret {A} (a : A) : cm A := fun s => Ok (Some (a, s)).
Definition fatal {A} : cm A := fun _ => Ok None.
Definition ub {A} : cm A := fun _ => UB.
Definition bind {A B} (m : cm A) (f : A -> cm B) : cm B :=
  fun s => match m s with UB => UB | Ok None => Ok None | Ok (Some (a, s')) => f a s' end.
Notation "'let*' x <- a ; b" := (bind a (fun x => b))
  (at level 200, x name, a at level 100, b at level 200, right associativity).
Definition check (b : bool) : cm unit := if b then ret tt else fatal.
Definition asserted (b : bool) : cm unit := if b then ret tt else ub.
Fixpoint mapm {A B} (f : A -> cm B) (l : list A) : cm (list B) :=
  match l with
  | [] => ret []
  | a :: l' => let* b <- f a ; let* bs <- mapm f l' ; ret (b :: bs)
  end.
Definition lift {A} (r : res A) : cm A := fun s => match r with Ok a => Ok (Some (a, s)) | UB => UB end.

Definition same_addr (a b : addr) : bool :=
  match a, b with A4 x, A4 y => bytes_eqb x y | A6 x, A6 y => bytes_eqb x y | _, _ => false end.
Definition same_thing (a b : thing) : bool :=
  match a, b with OnAddr x, OnAddr y => same_addr x y | OnName x, OnName y => bytes_eqb x y | _, _ => false end.
Fixpoint mon_index (svc : bytes) (w : thing) (l : list (option (bytes * thing))) (i : nat) : option nat :=
  match l with
  | [] => None
  | Some (svc', w') :: l' => if same_thing w w' && bytes_eqb svc svc' then Some i else mon_index svc w l' (S i)
  | None :: l' => mon_index svc w l' (S i)
  end.

(** [gdnsd_dyn_addr_max], src/plugins/plugapi.c:78-96 *)
Definition dyn_addr_max (v4 v6 : N) : cm unit :=
  fun s => if (360 <? v4) || (360 <? v6) then Ok None
           else Ok (Some (tt, State (mons s) (if lim4 s <? v4 then v4 else lim4 s) (if lim6 s <? v6 then v6 else lim6 s))).

(** ** The data *)

(** [vscf_array_get_len] and [vscf_array_get_data], vscf.rl:914-931: anything else is an array of one *)
Definition items (t : tree) : list tree := match t with TA l => l | _ => [t] end.
Definition is_hash (t : tree) : bool := match t with TH _ => true | _ => false end.
(** The unmarked entries *)
Definition unmarked (t : tab) : list (bytes * tree) := entries true t.

(** [vscf_hash_bequeath_all], vscf.rl:1168-1188: to each entry that is a hash, in order; [v] is the value
    handed down, which is itself such an entry if it is a hash *)
Fixpoint hand_down (k : bytes) (v : tree) (t : tab) : tab :=
  match t with
  | [] => []
  | e :: t' =>
      let e' := match snd e with TH es => (fst e, TH (inherited k v es)) | _ => e end in
      e' :: hand_down k (if same k (fst (fst e)) then snd e' else v) t'
  end.
Definition bequeath (k : bytes) (t : tab) : bool * tab :=
  match value k t with
  | None => (false, t)
  | Some v => (true, hand_down k v (mark k t))
  end.
(** Several in turn, with how many there were *)
Fixpoint bequeath_all (ks : list bytes) (t : tab) : nat * tab :=
  match ks with
  | [] => (O, t)
  | k :: ks' =>
      let '(b, t') := bequeath k t in
      let '(n, t'') := bequeath_all ks' t' in
      (if b then S n else n, t'')
  end.
(** [vscf_hash_inherit], vscf.rl:1147-1155 *)
Definition inherit (k : bytes) (parent t : tab) : tab :=
  match value k parent with Some v => inherited k v t | None => t end.

(** The keys of the parameters *)
Definition k_types : bytes := txt "service_types".
Definition k_thresh : bytes := txt "up_thresh".
Definition k_ignore : bytes := txt "ignore_health".
Definition k_multi : bytes := txt "multi".
Definition k_v4 : bytes := txt "addrs_v4".
Definition k_v6 : bytes := txt "addrs_v6".

(** snprintf(lbuf, 12, "%u", n), multifo.c:94-96.  No array has 2^32 elements, so [n] does not wrap. *)
Fixpoint decimal_aux (fuel : nat) (n : N) : bytes :=
  match fuel with
  | O => []
  | S f => (if n <? 10 then [] else decimal_aux f (n / 10)) ++ [48 + n mod 10]
  end.
Definition decimal (n : N) : bytes := decimal_aux (S (N.to_nat (N.size n))) n.

Section Config.
  (** getaddrinfo for a numeric host *)
  Variable gai : bytes -> option addr.
  (** strtod on a whole text, without an error *)
  Variable strtod : bytes -> option dbl.
  (** the service types there are: can they monitor addresses, names? *)
  Variable service : bytes -> option (bool * bool).

  (** [mon_thing], src/plugins/mon.c:478-560; the text of an address can always be made again *)
  Definition mon_thing (w : thing) (svc : bytes) : cm nat :=
    fun s =>
      match service svc with
      | None => Ok None
      | Some (for_addr, for_name) =>
          match mon_index svc w (mons s) 0 with
          | Some i => Ok (Some (i, s))
          | None =>
              if match w with OnAddr _ => for_addr | OnName _ => for_name end
              then Ok (Some (length (mons s), State (mons s ++ [Some (svc, w)]) (lim4 s) (lim6 s)))
              else Ok None
          end
      end.

  (** The service types of a stanza: simplefo.c:84-102, multifo.c:161-180, weighted.c:348-367, 485-504 *)
  Definition svc_names (o : option tree) : cm (list bytes) :=
    match o with
    | None => ret [txt "up"]
    | Some t => mapm (fun x => match x with TS _ v => ret (c_str v) | _ => fatal end) (items t)
    end.
  (** An address: simplefo.c:109-115, multifo.c:129-135, weighted.c:173-176, 227-230 *)
  Definition read_addr (x : tree) : cm addr :=
    match x with
    | TS _ v => match gai (c_str v) with Some a => ret a | None => fatal end
    | _ => fatal
    end.
  Definition a_is6 (a : addr) : bool := match a with A6 _ => true | _ => false end.
  (** up_thresh: multifo.c:182-189, weighted.c:378-386, 506-514 *)
  Definition read_thresh (o : option tree) : cm dbl :=
    match o with
    | None => ret (Fin false 1 (-1))
    | Some (TS _ v) =>
        match v with
        | [] => fatal
        | _ => match strtod v with
               | Some d => if le_zero d || gt_one d then fatal else ret d
               | None => fatal
               end
        end
    | Some _ => fatal
    end.
  (** ignore_health and multi: multifo.c:191-197, weighted.c:369-376 *)
  Definition read_bool (o : option tree) : cm bool :=
    match o with
    | None => ret false
    | Some (TS _ v) => match as_bool v with Some b => ret b | None => fatal end
    | Some _ => fatal
    end.

  (** ** simplefo *)

  (** [config_addrs], simplefo.c:81-141, with the marked data; [want] is the family, if it is known *)
  Definition s_stanza (want : option bool) (t : tab) : cm (s_pair * bool * tab) :=
    let* svcs <- svc_names (value k_types t) ;
    let t := mark k_types t in
    let one (key : bytes) (t : tab) :=
      let* a <- match value key t with Some x => read_addr x | None => fatal end ;
      let* _ <- check (match want with None => true | Some v6 => Bool.eqb v6 (a_is6 a) end) ;
      let* idx <- mapm (mon_thing (OnAddr a)) svcs ;
      ret (a, idx) in
    let* p <- one (txt "primary") t ;
    let t := mark (txt "primary") t in
    let* s <- one (txt "secondary") t ;
    let t := mark (txt "secondary") t in
    let pair := {| sp_pri := fst p; sp_sec := fst s; sp_pidx := snd p; sp_sidx := snd s |} in
    match want with
    | None => let* _ <- check (Bool.eqb (a_is6 (fst p)) (a_is6 (fst s))) ; ret (pair, a_is6 (fst p), t)
    | Some v6 => let* _ <- check (match unmarked t with [] => true | _ => false end) ; ret (pair, v6, t)
    end.
  (** simplefo.c:168-181 *)
  Definition s_family (v6 : bool) (o : option tree) : cm (option s_pair) :=
    match o with
    | None => ret None
    | Some (TH t) => let* x <- s_stanza (Some v6) t ; ret (Some (fst (fst x)))
    | Some _ => fatal
    end.
  Definition s_res := (bytes * (option s_pair * option s_pair))%type.
  (** [config_res], simplefo.c:143-186 *)
  Definition s_config_res (e : bytes * tree) : cm s_res :=
    match snd e with
    | TH t =>
        let '(_, t) := bequeath k_types t in
        let c4 := value k_v4 t in
        let t := mark k_v4 t in
        let c6 := value k_v6 t in
        let t := mark k_v6 t in
        let* x <-
          match c4, c6 with
          | None, None =>
              let* x <- s_stanza None t ;
              let '(p, v6, t) := x in
              ret (if v6 then (None, Some p) else (Some p, None), t)
          | _, _ =>
              let* p4 <- s_family false c4 ;
              let* p6 <- s_family true c6 ;
              ret ((p4, p6), t)
          end ;
        let* _ <- check (match unmarked (snd x) with [] => true | _ => false end) ;
        ret (c_str (fst e), fst x)
    | _ => fatal
    end.
  (** [plugin_simplefo_load_config], simplefo.c:192-211: the resources fill the array made for them *)
  Definition simplefo_load (config : option tree) : cm (list s_res) :=
    match config with
    | None => fatal
    | Some (TH t) =>
        let '(n, t1) := bequeath_all [k_types] t in
        let num := (length t - n)%nat in
        if Nat.eqb num 0 then ret []
        else
          let* _ <- asserted (Nat.eqb (length (unmarked t1)) num) ;
          let* rs <- mapm s_config_res (unmarked t1) ;
          let* _ <- dyn_addr_max 1 1 ;
          ret rs
    | Some _ => ub
    end.

  (** ** multifo *)

  Definition m_keys : list bytes := [k_thresh; k_types; k_ignore].
  (** [addrs_hash_from_array], multifo.c:80-104 *)
  Fixpoint numbered (i : N) (l : list tree) (t : tab) : cm tab :=
    match l with
    | [] => ret t
    | TS r v :: l' =>
        let k := decimal i in
        numbered (i + 1) l' (match value k t with Some _ => t | None => t ++ [(k, false, copy false (TS r v))] end)
    | _ :: _ => fatal
    end.
  Definition from_array (x : tree) (parent : tab) : cm tab :=
    let* t <- numbered 1 (items x) [] ;
    ret (inherit k_ignore parent (inherit k_types parent (inherit k_thresh parent t))).

  (** [config_addrs], multifo.c:150-228, with [addr_setup], lines 115-148; on a hash *)
  Definition m_stanza (v6 : bool) (t : tab) : cm m_set :=
    let minus (k : bytes) (n : nat) := match value k t with Some _ => (n - 1)%nat | None => n end in
    let num := length t in
    let* svcs <- svc_names (value k_types t) ;
    let num := minus k_types num in
    let* thresh <- read_thresh (value k_thresh t) ;
    let num := minus k_thresh num in
    let* ignore <- read_bool (value k_ignore t) ;
    let num := minus k_ignore num in
    let* _ <- check (negb (Nat.eqb num 0)) ;
    let* up <- lift (uscale_ceil (N.of_nat num) thresh) ;
    let t := mark k_ignore (mark k_thresh (mark k_types t)) in
    let* _ <- asserted (Nat.eqb (length (unmarked t)) num) ;
    let* as_ <- mapm (fun e =>
        let* a <- read_addr (snd e) ;
        let* _ <- check (Bool.eqb v6 (a_is6 a)) ;
        let* idx <- mapm (mon_thing (OnAddr a)) svcs ;
        ret {| ma_addr := a; ma_idx := idx |}) (unmarked t) ;
    ret {| ms_as := as_; ms_up := N.to_nat up; ms_ignore := ignore |}.
  (** multifo.c:153-157, 232-236 *)
  Definition as_hash (x : tree) (parent : tab) : cm tab :=
    match x with TH t => ret t | _ => from_array x parent end.
  (** [config_auto], multifo.c:230-271 *)
  Definition m_auto (x : tree) (parent : tab) : cm (option m_set * option m_set) :=
    let* t <- as_hash x parent ;
    let t := mark k_ignore (mark k_types (mark k_thresh t)) in
    match copy true (TH t) with
    | TH (e :: _) =>
        let* a <- read_addr (snd e) ;
        let* s <- m_stanza (a_is6 a) t ;
        ret (if a_is6 a then (None, Some s) else (Some s, None))
    | _ => fatal
    end.
  (** multifo.c:294-302 *)
  Definition m_family (v6 : bool) (o : option tree) (parent : tab) : cm (option m_set) :=
    match o with
    | None => ret None
    | Some x => let* t <- as_hash x parent ; let* s <- m_stanza v6 t ; ret (Some s)
    end.
  Definition m_rsrc := (bytes * (option m_set * option m_set))%type.
  (** [config_res], multifo.c:273-313; [config] is the hash of the resources *)
  Definition m_config_res (config : tab) (e : bytes * tree) : cm m_rsrc :=
    let* x <-
      match snd e with
      | TH t =>
          let '(_, t) := bequeath_all m_keys t in
          let c4 := value k_v4 t in
          let t := mark k_v4 t in
          let c6 := value k_v6 t in
          let t := mark k_v6 t in
          let* p4 <- m_family false c4 t ;
          let* p6 <- m_family true c6 t ;
          match c4, c6 with
          | None, None => m_auto (TH t) config
          | _, _ => let* _ <- check (match unmarked t with [] => true | _ => false end) ; ret (p4, p6)
          end
      | x => m_auto x config
      end ;
    ret (c_str (fst e), x).
  (** v4_max and v6_max, multifo.c:221-227 *)
  Definition most (l : list (option nat)) : N :=
    fold_left (fun m o => match o with Some n => if m <? N.of_nat n then N.of_nat n else m | None => m end) l 0.
  (** [plugin_multifo_load_config], multifo.c:319-342 *)
  Definition multifo_load (config : option tree) : cm (list m_rsrc) :=
    match config with
    | None => fatal
    | Some (TH t) =>
        let '(n, t1) := bequeath_all m_keys t in
        let num := (length t - n)%nat in
        if Nat.eqb num 0 then ret []
        else
          let* _ <- asserted (Nat.eqb (length (unmarked t1)) num) ;
          let* rs <- mapm (m_config_res t1) (unmarked t1) ;
          let count (o : option m_set) := option_map (fun s => length (ms_as s)) o in
          let* _ <- dyn_addr_max (most (map (fun r => count (fst (snd r))) rs)) (most (map (fun r => count (snd (snd r))) rs)) ;
          ret rs
    | Some _ => ub
    end.

  (** ** weighted *)

  Definition w_keys : list bytes := [k_types; k_multi; k_thresh].
  (** An array of two strings, the second one a weight: weighted.c:158-165, 216-223, 444-451 *)
  Definition read_pair (x : tree) : cm (tree * N) :=
    match x with
    | TA [TS r v; TS _ w] =>
        match as_long w with
        | Some z => if (z <? 1)%Z || (1048575 <? z)%Z then fatal else ret (TS r v, Z.to_N z)
        | None => fatal
        end
    | _ => fatal
    end.
  (** [config_item_stanza] and [config_addr_group_addr], weighted.c:155-188, 200-245 *)
  Definition w_one (v6 : bool) (svcs : list bytes) (x : tree) : cm w_addr :=
    let* p <- read_pair x ;
    let* a <- read_addr (fst p) ;
    let* _ <- check (Bool.eqb v6 (a_is6 a)) ;
    let* idx <- mapm (mon_thing (OnAddr a)) svcs ;
    ret {| wa_addr := a; wa_weight := snd p; wa_idx := idx |}.
  (** [config_item_addr_groups], weighted.c:247-285; the sums are those of [mk_item] *)
  Definition w_group (v6 : bool) (svcs : list bytes) (x : tree) : cm (list w_addr) :=
    match x with
    | TH t =>
        let num := length t in
        let* _ <- check (negb (Nat.eqb num 0)) ;
        let* _ <- check (Nat.leb num 64) ;
        let* _ <- asserted (Nat.eqb (length (unmarked t)) num) ;
        mapm (fun e => let* _ <- asserted (match fst e with [] => false | _ => true end) ; w_one v6 svcs (snd e)) (unmarked t)
    | _ => fatal
    end.
  (** [config_addrset_item], weighted.c:295-328: the first one tells whether they are grouped *)
  Definition w_entries (v6 : bool) (svcs : list bytes) (l : list (bytes * tree)) : cm (list (list w_addr)) :=
    match l with
    | [] => ret []
    | e :: _ =>
        match snd e with
        | TH _ => mapm (fun e => w_group v6 svcs (snd e)) l
        | TA _ => mapm (fun e => let* a <- w_one v6 svcs (snd e) ; ret [a]) l
        | TS _ _ => fatal
        end
    end.
  (** [config_addrset], weighted.c:330-423; on a hash.  The sums are [mk_set] of PlugModel.v; the up_weight of
      weighted.c:421 is computed here, too, because it can fail. *)
  Definition w_addrset (v6 : bool) (t parent : tab) : cm w_set :=
    let t := inherit k_thresh parent (inherit k_multi parent (inherit k_types parent t)) in
    let minus (k : bytes) (n : nat) := match value k t with Some _ => (n - 1)%nat | None => n end in
    let* svcs <- svc_names (value k_types t) ;
    let* multi <- read_bool (value k_multi t) ;
    let* thresh <- read_thresh (value k_thresh t) ;
    let num := minus k_thresh (minus k_multi (minus k_types (length t))) in
    let* _ <- check (Nat.leb num 64) ;
    let* _ <- check (negb (Nat.eqb num 0)) ;
    let t := mark k_thresh (mark k_multi (mark k_types t)) in
    let* _ <- asserted (Nat.eqb (length (unmarked t)) num) ;
    let* groups <- w_entries v6 svcs (unmarked t) ;
    let s0 := mk_set (fun w => w) multi groups in
    let* _ <- asserted (forallb (fun i => negb (wi_weight i =? 0) && negb (wi_max i =? 0)) (ws_items s0)) ;
    let* _ <- asserted (negb (ws_weight s0 =? 0) && negb (ws_max s0 =? 0)) ;
    let* up <- lift (uscale_ceil (ws_weight s0) thresh) ;
    let* _ <- asserted (negb (up =? 0)) ;
    ret (mk_set (fun _ => up) multi groups).
  (** [config_item_cname], weighted.c:432-475; [dname_trim] only gives memory back *)
  Definition w_cname_item (junk : bytes) (svcs : list bytes) (x : tree) : cm w_cname :=
    let* p <- read_pair x ;
    match fst p with
    | TS r v =>
        let* d <- lift (dname_from_string junk r) ;
        let '(status, buf) := d in
        match status with
        | DNAME_VALID =>
            let* l <- lift (rd buf 0) ;
            let* d <- lift (rdn buf 0 (S (N.to_nat l))) ;
            let* idx <- mapm (mon_thing (OnName d)) svcs ;
            ret {| wc_name := labels_of 256 (tl d); wc_weight := snd p; wc_idx := idx |}
        | _ => fatal
        end
    | _ => fatal
    end.
  (** [config_cnameset], weighted.c:477-545; on a hash *)
  Definition w_cnameset (junk : bytes) (t : tab) : cm w_cnset :=
    let minus (k : bytes) (n : nat) := match value k t with Some _ => (n - 1)%nat | None => n end in
    let* svcs <- svc_names (value k_types t) ;
    let* thresh <- read_thresh (value k_thresh t) ;
    let num := minus k_multi (minus k_thresh (minus k_types (length t))) in
    let* _ <- check (Nat.leb num 64) ;
    let* _ <- check (negb (Nat.eqb num 0)) ;
    let t := mark k_multi (mark k_thresh (mark k_types t)) in
    let* _ <- asserted (Nat.eqb (length (unmarked t)) num) ;
    let* its <- mapm (fun e => w_cname_item junk svcs (snd e)) (unmarked t) ;
    let w := sum32 (map wc_weight its) in
    let* _ <- asserted (forallb (fun i => negb (wc_weight i =? 0)) its && negb (w =? 0)) ;
    let* up <- lift (uscale_ceil w thresh) ;
    ret (mk_cnset (fun _ => up) its).
  (** What a resource is: names, or addresses *)
  Inductive w_what := WNames (c : w_cnset) | WAddrs (v4 v6 : option w_set).
  Definition w_fam (v6 : bool) (t parent : tab) : cm w_what :=
    let* s <- w_addrset v6 t parent ;
    ret (if v6 then WAddrs None (Some s) else WAddrs (Some s) None).
  (** [config_auto], weighted.c:547-610 *)
  Definition w_auto (junk : bytes) (t parent : tab) : cm w_what :=
    let t := mark k_thresh (mark k_multi (mark k_types t)) in
    match copy true (TH t) with
    | TH (e :: _) =>
        match snd e with
        | TH [] => fatal
        | TH (x :: _) =>
            match snd x with
            | TA (TS r v :: _) => let* a <- read_addr (TS r v) ; w_fam (a_is6 a) t parent
            | _ => fatal
            end
        | TA (TS _ v :: _) =>
            match gai (c_str v) with
            | None => let* c <- w_cnameset junk t ; ret (WNames c)
            | Some a => w_fam (a_is6 a) t parent
            end
        | _ => fatal
        end
    | _ => fatal
    end.
  (** weighted.c:642-650 *)
  Definition w_family (v6 : bool) (o : option tree) (parent : tab) : cm (option w_set) :=
    match o with
    | None => ret None
    | Some (TH t) => let* s <- w_addrset v6 t parent ; ret (Some s)
    | Some _ => fatal
    end.
  (** [config_res], weighted.c:619-661 *)
  Definition w_config_res (junk : bytes) (config : tab) (e : bytes * tree) : cm (bytes * w_what) :=
    match snd e with
    | TH t =>
        let c4 := value k_v4 t in
        let c6 := value k_v6 t in
        let cn := value (txt "cnames") t in
        let t := mark (txt "cnames") (mark k_v6 (mark k_v4 t)) in
        let* _ <- check (match cn with None => true | Some _ => false end) ;
        let* x <-
          match c4, c6 with
          | None, None => w_auto junk t config
          | _, _ =>
              let* p4 <- w_family false c4 t ;
              let* p6 <- w_family true c6 t ;
              let t := mark k_thresh (mark k_multi (mark k_types t)) in
              let* _ <- check (match unmarked t with [] => true | _ => false end) ;
              ret (WAddrs p4 p6)
          end ;
        ret (c_str (fst e), x)
    | _ => fatal
    end.
  (** How many addresses a set can give: weighted.c:689-704, with max_addrs_pergroup of lines 414-415 *)
  Definition w_count (s : w_set) : nat :=
    if ws_multi s then length (ws_items s)
    else fold_left (fun m i => if Nat.ltb m (length (wi_as i)) then length (wi_as i) else m) (ws_items s) O.
  Definition fam4 (w : w_what) : option w_set := match w with WAddrs a _ => a | WNames _ => None end.
  Definition fam6 (w : w_what) : option w_set := match w with WAddrs _ a => a | WNames _ => None end.
  (** [plugin_weighted_load_config], weighted.c:665-707 *)
  Definition weighted_load (junk : bytes) (config : option tree) : cm (list (bytes * w_what)) :=
    match config with
    | Some (TH t) =>
        let '(n, t1) := bequeath_all w_keys t in
        let num := (length t - n)%nat in
        let* _ <- asserted (Nat.eqb (length (unmarked t1)) num) ;
        let* rs <- mapm (w_config_res junk t1) (unmarked t1) ;
        let* _ <- dyn_addr_max (most (map (fun r => option_map w_count (fam4 (snd r))) rs))
                               (most (map (fun r => option_map w_count (fam6 (snd r))) rs)) ;
        ret rs
    | _ => ub
    end.

  (** [plugin_simplefo_map_res] and the others, simplefo.c:213-227, multifo.c:344-358, weighted.c:709-734 (without
      the zone): the number of a resource, by its name *)
  Fixpoint map_res {A} (name : bytes) (l : list (bytes * A)) (i : nat) : option nat :=
    match l with
    | [] => None
    | (n, _) :: l' => if bytes_eqb (c_str name) n then Some i else map_res name l' (S i)
    end.
End Config.
