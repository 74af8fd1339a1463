(** Model of the zone tree: the children's hash table, adding records, the
    checks after loading a zone and merging zones, src/ltree.c and
    src/ltree.h:292-500.

    Simplifications.  Domain names are label lists (their storage form is
    DnameModel.v); names given to the adding functions are relative to the zone,
    as in the code.  Nodes are nested values: code that gets a pointer to a child
    and then changes the child is a function applied to the child in its slot.
    Strings that live in the arena (ArenaModel.v) are values.  The four-address
    in-place storage of A sets is a list.  [size_t] has 64 bits.  Log messages
    are left out: a fatal message is the outcome [None]. *)
From Verif Require Import Base DnameModel RandModel CompModel RespModel.
Local Open Scope N_scope.

Definition W64 : N := 2 ^ 64.

(** ** The table, src/ltree.h:295-298; a slot holds a hash and a node *)
Section Table.
  Context {A : Type}.
  Variable labelof : A -> list N.                    (* [node->label] *)
  Variable hash : list N -> N.                       (* [ltree_hash], src/ltree.h:446-454 *)
  Notation slots := (list (option (N * A))).

  (** [count2mask_sz], src/ltree.h:425-445, the variant with clz: 63 minus the
      place of the highest bit.  (The other variant assigns to its [const]
      argument, so does not compile.) *)
  Definition count2mask_sz (x : N) : res N :=
    rassert (negb (x =? 0))
      (let clz := 63 - N.log2 x in
       let p := N.shiftl 1 (N.lxor 63 clz) mod W64 in
       Ok ((N.shiftl p 1 mod W64 + W64 - 1) mod W64)).

  Definition slot_of (h pd mask : N) : N := N.land ((h + pd) mod W64) mask.
  Definition dist_of (slot h mask : N) : N := N.land ((slot + W64 - h) mod W64) mask.

  (** [ltree_node_insert], src/ltree.c:106-128.  [fuel]: iterations; UB if the
      loop does not end within that many. *)
  Fixpoint node_insert (fuel : nat) (tbl : slots) (child : A) (child_hash probe_dist mask : N) : res slots :=
    match fuel with
    | O => UB
    | S fuel =>
        let slot := slot_of child_hash probe_dist mask in
        do s <- rd tbl (N.to_nat slot) ;
        match s with
        | None => wr tbl (N.to_nat slot) [Some (child_hash, child)]
        | Some (s_hash, s_node) =>
            let s_pdist := dist_of slot s_hash mask in
            if s_pdist <? probe_dist then
              do tbl <- wr tbl (N.to_nat slot) [Some (child_hash, child)] ;
              node_insert fuel tbl s_node s_hash (s_pdist + 1) mask
            else node_insert fuel tbl child child_hash (probe_dist + 1) mask
        end
    end.

  (** The probing loop of [ltree_node_find_or_add_child], src/ltree.c:137-147,
      and [ltree_node_find_child], src/ltree.h:486-496: the slot found, or the
      distance at which the search ended. *)
  Fixpoint probe (fuel : nat) (tbl : slots) (label : list N) (kh probe_dist mask : N) : res (nat * A + N) :=
    match fuel with
    | O => UB
    | S fuel =>
        let slot := slot_of kh probe_dist mask in
        do s <- rd tbl (N.to_nat slot) ;
        match s with
        | None => Ok (inr probe_dist)
        | Some (s_hash, s_node) =>
            if dist_of slot s_hash mask <? probe_dist then Ok (inr probe_dist)
            else if (s_hash =? kh) && bytes_eqb (labelof s_node) label then Ok (inl (N.to_nat slot, s_node))
            else probe fuel tbl label kh (probe_dist + 1) mask
        end
    end.

  (** Moving the entries to a new table, src/ltree.c:153-158. *)
  Fixpoint rehash (old : slots) (tbl : slots) (mask : N) : res slots :=
    match old with
    | [] => Ok tbl
    | None :: old => rehash old tbl mask
    | Some (h, c) :: old => do tbl <- node_insert (length tbl) tbl c h 0 mask ; rehash old tbl mask
    end.

  (** [ltree_node_find_child], src/ltree.h:476-499. *)
  Definition table_find (ccount : N) (table : option slots) (label : list N) : res (option A) :=
    match table with
    | None => Ok None
    | Some tbl =>
        rassert (negb (ccount =? 0))
          (do mask <- count2mask_sz ccount ;
           do r <- probe (length tbl) tbl label (hash label) 0 mask ;
           match r with inl (_, n) => Ok (Some n) | inr _ => Ok None end)
    end.

  (** [ltree_node_find_or_add_child], src/ltree.c:130-166, up to where the new
      node goes: either the slot of the existing child, or a table with room
      (grown if it was full), its mask and the distance to go on from. *)
  Definition table_seek (ccount : N) (table : option slots) (label : list N) : res (nat * A * slots + slots * N * N) :=
    let kh := hash label in
    do mask <- count2mask_sz (N.lor ccount 1) ;
    do r <- (if negb (ccount =? 0) then
               match table with Some tbl => probe (length tbl) tbl label kh 0 mask | None => UB end
             else Ok (inr 0)) ;
    match r with
    | inl (i, n) => match table with Some tbl => Ok (inl (i, n, tbl)) | None => UB end
    | inr probe_dist =>
        if (ccount =? 0) || (ccount =? mask) then
          let old_mask := if ccount =? 0 then 0 else mask in
          let mask := (N.shiftl old_mask 1 mod W64 + 1) mod W64 in
          let fresh := repeat None (N.to_nat (mask + 1)) in
          do tbl <- match table with
                    | None => Ok fresh
                    | Some old => do old <- rdn old 0 (N.to_nat (old_mask + 1)) ; rehash old fresh mask
                    end ;
          Ok (inr (tbl, mask, 0))
        else match table with Some tbl => Ok (inr (tbl, mask, probe_dist)) | None => UB end
    end.
End Table.

(** ** Nodes, src/ltree.h:292-322 *)
Inductive lnode := LNode (ccount_and_flags : N) (label : option (list N)) (child_table : option (list (option (N * lnode)))) (rrsets : list rrset).
Definition l_caf (n : lnode) : N := match n with LNode c _ _ _ => c end.
Definition l_label (n : lnode) : option (list N) := match n with LNode _ l _ _ => l end.
Definition l_table (n : lnode) : option (list (option (N * lnode))) := match n with LNode _ _ t _ => t end.
Definition l_rrsets (n : lnode) : list rrset := match n with LNode _ _ _ r => r end.
Definition set_caf (n : lnode) (c : N) : lnode := match n with LNode _ l t r => LNode c l t r end.
Definition set_table (n : lnode) (t : list (option (N * lnode))) : lnode := match n with LNode c l _ r => LNode c l (Some t) r end.
Definition set_rrsets (n : lnode) (r : list rrset) : lnode := match n with LNode c l t _ => LNode c l t r end.
(** [xcalloc(sizeof(ltree_node_t))] *)
Definition new_node : lnode := LNode 0 None None [].

(** The flag macros, src/ltree.h:309-322. *)
Definition get_ccount (n : lnode) : N := N.land (l_caf n) (2 ^ 62 - 1).
Definition inc_ccount (n : lnode) : lnode := set_caf n ((l_caf n + 1) mod W64).
Definition get_zcut (n : lnode) : bool := N.testbit (l_caf n) 63.
Definition set_zcut (n : lnode) : lnode := set_caf n (N.lor (l_caf n) (2 ^ 63)).

(** the label of a child (only the root of the tree has none) *)
Definition labelof (n : lnode) : list N := match l_label n with Some l => l | None => [] end.

(** the outcome of functions that may refuse the zone *)
Notation zres A := (res (option A)).
Definition zbind {A B} (x : zres A) (f : A -> zres B) : zres B :=
  do o <- x ; match o with None => Ok None | Some a => f a end.
Notation "'zdo' x <- a ; b" := (zbind a (fun x => b)) (at level 200, x pattern, a at level 100, b at level 200).
Definition zfatal {A} : zres A := Ok None.

(** ** Configuration, src/conf.h, and plugins *)
Record zcfg := {
  z_strict : bool;             (* zones_strict_data *)
  z_max_ttl : N; z_min_ttl : N; z_max_ncache_ttl : N;
  z_acme_ttl : N;              (* acme_challenge_dns_ttl *)
  z_ecs : bool;                (* edns_client_subnet *)
  z_nsid_len : N;
  z_cookies : bool;            (* not disable_cookies *)
  z_dyna_max : N               (* dyna_max_response, src/ltree.c:50, 1455 *)
}.
(** A plugin: has it a resolver; its [map_res] if any (negative: refused).
    [res_id]: the number by which RespModel.v knows a plugin's resource. *)
Record plugins := {
  pl_find : bytes -> option (bool * option (option bytes -> option name -> Z));
  pl_id : bytes -> N -> N
}.

(** ** Adding records *)
Section Add.
  Variable cfg : zcfg.
  Variable pl : plugins.
  Variable hash : list N -> N.
  Variable zname : name.                             (* [zone->dname] *)

  (** [log_zwarn], src/ltree.c:65-74. *)
  Definition zwarn {A} (k : zres A) : zres A := if z_strict cfg then zfatal else k.
  Definition zwarn_if {A} (c : bool) (k : zres A) : zres A := if c then zwarn k else k.

  Definition node_find_child (n : lnode) (label : list N) : res (option lnode) :=
    table_find labelof hash (get_ccount n) (l_table n) label.

  (** [ltree_node_find_or_add_child], src/ltree.c:130-166; [f]: what is then done
      with the child. *)
  Definition find_or_add_child (n : lnode) (label : list N) (f : lnode -> zres lnode) : zres lnode :=
    do s <- table_seek labelof hash (get_ccount n) (l_table n) label ;
    match s with
    | inl (i, c, tbl) =>
        zdo c' <- f c ;
        do tbl <- wr tbl i [Some (hash label, c')] ; Ok (Some (set_table n tbl))
    | inr (tbl, mask, probe_dist) =>
        zdo c' <- f (LNode 0 (Some label) None []) ;
        do tbl <- node_insert (length tbl) tbl c' (hash label) probe_dist mask ;
        Ok (Some (inc_ccount (set_table n tbl)))
    end.

  (** [ltree_find_or_add_dname], src/ltree.c:168-188; [stack]: the labels from
      the last to the first. *)
  Fixpoint find_or_add_path (n : lnode) (stack : list (list N)) (f : lnode -> zres lnode) : zres lnode :=
    match stack with
    | [] => f n
    | l :: stack => find_or_add_child n l (fun c => find_or_add_path c stack f)
    end.
  Definition find_or_add_dname (root : lnode) (dname : name) (f : lnode -> zres lnode) : zres lnode :=
    find_or_add_path root (rev dname) f.

  (** [ltree_node_get_rrset_*], src/ltree.c:190-210, 640-650: the first set of that type. *)
  Definition get_rrset (rs : list rrset) (t : N) : option rrset := find (fun r => rrset_type r =? t) rs.
  (** Changing the set found: the first of that type. *)
  Fixpoint put_rrset (rs : list rrset) (t : N) (r' : rrset) : list rrset :=
    match rs with
    | [] => []
    | r :: rs => if rrset_type r =? t then r' :: rs else r :: put_rrset rs t r'
    end.
  (** [ltree_node_add_rrset_*], src/ltree.c:212-235, 652-662: at the end. *)
  Definition add_rrset (n : lnode) (r : rrset) : lnode := set_rrsets n (l_rrsets n ++ [r]).

  (** [clamp_ttl], src/ltree.c:237-249. *)
  Definition clamp_ttl (ttl : N) : N :=
    if z_max_ttl cfg <? ttl then z_max_ttl cfg else if ttl <? z_min_ttl cfg then z_min_ttl cfg else ttl.

  Definition UINT16_MAX : nat := N.to_nat 65535.

  (** the special label for out-of-zone glue, src/ltree.c:45 *)
  Definition ooz_glue_label : list N := [].
  (** a name used as a label: its wire form *)
  Definition dname_label (n : name) : list N := wire n.

  (** The node for an address record, src/ltree.c:253-260, 299-306. *)
  Definition addr_node (root : lnode) (dname : name) (ooz : bool) (f : lnode -> zres lnode) : zres lnode :=
    if ooz then
      zwarn (find_or_add_child root ooz_glue_label (fun o => find_or_add_child o (dname_label dname) f))
    else find_or_add_dname root dname f.

  (** [ltree_add_rec_a], src/ltree.c:251-295. *)
  Definition add_rec_a (root : lnode) (dname : name) (addr : bytes) (ttl : N) (ooz : bool) : zres lnode :=
    addr_node root dname ooz (fun n =>
      let ttl := clamp_ttl ttl in
      match get_rrset (l_rrsets n) T_A with
      | None => Ok (Some (add_rrset n (RsA ttl [addr])))
      | Some (RsADyn _ _ _) => zfatal
      | Some (RsA t addrs) =>
          zwarn_if (negb (t =? ttl))
            (if (length addrs =? UINT16_MAX)%nat then zfatal
             else Ok (Some (set_rrsets n (put_rrset (l_rrsets n) T_A (RsA t (addrs ++ [addr]))))))
      | Some _ => UB       (* a set of another kind under this type's number *)
      end).

  (** [ltree_add_rec_aaaa], src/ltree.c:297-329. *)
  Definition add_rec_aaaa (root : lnode) (dname : name) (addr : bytes) (ttl : N) (ooz : bool) : zres lnode :=
    addr_node root dname ooz (fun n =>
      let ttl := clamp_ttl ttl in
      match get_rrset (l_rrsets n) T_AAAA with
      | None => Ok (Some (add_rrset n (RsAAAA ttl [addr])))
      | Some (RsAAAADyn _ _ _) => zfatal
      | Some (RsAAAA t addrs) =>
          zwarn_if (negb (t =? ttl))
            (if (length addrs =? UINT16_MAX)%nat then zfatal
             else Ok (Some (set_rrsets n (put_rrset (l_rrsets n) T_AAAA (RsAAAA t (addrs ++ [addr]))))))
      | Some _ => UB
      end).

  (** Splitting plugin!resource and asking the plugin, src/ltree.c:368-390,
      430-450.  [origin]: given to [map_res]. *)
  Fixpoint split_bang (s : bytes) : bytes * option bytes :=
    match s with
    | [] => ([], None)
    | c :: s => if c =? 33 then ([], Some s) else let (p, r) := split_bang s in (c :: p, r)
    end.
  Definition find_resource (rhs : bytes) (origin : option name) : zres N :=
    if (255 <? N.of_nat (length rhs)) then zfatal
    else
      let (plugin_name, resource_name) := split_bang rhs in
      match pl_find pl plugin_name with
      (* simplified: gdnsd_plugin_find, plugapi.c:148-161, ends the program here *)
      | None => zfatal
      | Some (resolve, map_res) =>
          if negb resolve then zfatal
          else match map_res with
               | None => Ok (Some (pl_id pl plugin_name 0))
               | Some m => let r := m resource_name origin in
                           if (r <? 0)%Z then zfatal else Ok (Some (pl_id pl plugin_name (Z.to_N r)))
               end
      end.

  (** The limits on the minimum TTL, src/ltree.c:347-354, 412-419. *)
  Definition clamp_min {A} (ttl ttl_min : N) (k : N -> zres A) : zres A :=
    let low := ttl_min <? z_min_ttl cfg in
    zwarn_if low
      (let ttl_min := if low then z_min_ttl cfg else ttl_min in
       let high := ttl <? ttl_min in
       zwarn_if high (k (if high then ttl else ttl_min))).

  (** [ltree_add_rec_dynaddr], src/ltree.c:331-391. *)
  Definition add_rec_dynaddr (root : lnode) (dname : name) (rhs : bytes) (ttl ttl_min : N) : zres lnode :=
    find_or_add_dname root dname (fun n =>
      match get_rrset (l_rrsets n) T_A, get_rrset (l_rrsets n) T_AAAA with
      | None, None =>
          let ttl := clamp_ttl ttl in
          clamp_min ttl ttl_min (fun ttl_min =>
            zdo r <- find_resource rhs None ;
            Ok (Some (add_rrset (add_rrset n (RsADyn ttl ttl_min r)) (RsAAAADyn ttl ttl_min r))))
      | _, _ => zfatal
      end).

  (** [ltree_add_rec_cname], src/ltree.c:393-406. *)
  Definition add_rec_cname (root : lnode) (dname rhs : name) (ttl : N) : zres lnode :=
    let ttl := clamp_ttl ttl in
    find_or_add_dname root dname (fun n =>
      match l_rrsets n with
      | _ :: _ => zfatal
      | [] => Ok (Some (add_rrset n (RsCNAME ttl rhs)))
      end).

  (** [ltree_add_rec_dync], src/ltree.c:408-453. *)
  Definition add_rec_dync (root : lnode) (dname : name) (rhs : bytes) (ttl ttl_min : N) : zres lnode :=
    let ttl := clamp_ttl ttl in
    clamp_min ttl ttl_min (fun ttl_min =>
      find_or_add_dname root dname (fun n =>
        match l_rrsets n with
        | _ :: _ => zfatal
        | [] => zdo r <- find_resource rhs (Some zname) ;
                Ok (Some (add_rrset n (RsDYNC ttl ttl_min r)))
        end)).

  (** [INSERT_NEXT_RR], src/ltree.c:461-479: [mk] makes the first set, [ext]
      gives TTL and size of an existing one and extends it. *)
  Definition insert_next_rr (n : lnode) (t ttl : N) (first : rrset)
      (ext : rrset -> option (N * nat * rrset)) : zres lnode :=
    match get_rrset (l_rrsets n) t with
    | None => Ok (Some (add_rrset n first))
    | Some r =>
        match ext r with
        | None => UB
        | Some (t0, count, r') =>
            zwarn_if (negb (t0 =? ttl))
              (if (count =? UINT16_MAX)%nat then zfatal
               else Ok (Some (set_rrsets n (put_rrset (l_rrsets n) t r'))))
        end
    end.

  (** [gdnsd_dname_isinzone] on label lists (CompModel/DnameModel have the bytes) *)
  Fixpoint names_eqb (a b : name) : bool :=
    match a, b with
    | [], [] => true
    | x :: a, y :: b => bytes_eqb x y && names_eqb a b
    | _, _ => false
    end.
  Definition isinzone (zone dname : name) : bool :=
    (length zone <=? length dname)%nat && names_eqb (skipn (length dname - length zone) dname) zone.

  (** [ltree_add_rec_ptr], src/ltree.c:481-491. *)
  Definition add_rec_ptr (root : lnode) (dname rhs : name) (ttl : N) : zres lnode :=
    find_or_add_dname root dname (fun n =>
      let ttl := clamp_ttl ttl in
      zdo n <- insert_next_rr n T_PTR ttl (RsPTR ttl [rhs])
                 (fun r => match r with RsPTR t rd => Some (t, length rd, RsPTR t (rd ++ [rhs])) | _ => None end) ;
      zwarn_if (isinzone zname rhs) (Ok (Some n))).

  Definition MAX_NS_COUNT : nat := 64.
  Definition ns_count (n : lnode) : nat :=
    match get_rrset (l_rrsets n) T_NS with Some (RsNS _ rd) => length rd | _ => 0 end.
  Definition is_wild (l : option (list N)) : bool := match l with Some [42] => true | _ => false end.

  (** [ltree_add_rec_ns], src/ltree.c:493-513.  [node != zone->root]: the relative
      name is not empty. *)
  Definition add_rec_ns (root : lnode) (dname rhs : name) (ttl : N) : zres lnode :=
    find_or_add_dname root dname (fun n =>
      let not_root := match dname with [] => false | _ => true end in
      let n := if not_root then set_zcut n else n in
      if not_root && is_wild (l_label n) then zfatal
      else
        let ttl := clamp_ttl ttl in
        zdo n <- insert_next_rr n T_NS ttl (RsNS ttl [(rhs, None, None)])
                   (fun r => match r with RsNS t rd => Some (t, length rd, RsNS t (rd ++ [(rhs, None, None)])) | _ => None end) ;
        if (MAX_NS_COUNT <? ns_count n)%nat then zfatal else Ok (Some n)).

  (** [ltree_add_rec_mx], src/ltree.c:515-527. *)
  Definition add_rec_mx (root : lnode) (dname rhs : name) (ttl pref : N) : zres lnode :=
    if 65535 <? pref then zfatal
    else find_or_add_dname root dname (fun n =>
      let ttl := clamp_ttl ttl in
      insert_next_rr n T_MX ttl (RsMX ttl [(pref, rhs)])
        (fun r => match r with RsMX t rd => Some (t, length rd, RsMX t (rd ++ [(pref, rhs)])) | _ => None end)).

  (** [ltree_add_rec_srv_args], src/ltree.c:529-547. *)
  Definition add_rec_srv (root : lnode) (dname rhs : name) (ttl priority weight port : N) : zres lnode :=
    if (65535 <? priority) || (65535 <? weight) || (65535 <? port) then zfatal
    else find_or_add_dname root dname (fun n =>
      let ttl := clamp_ttl ttl in
      insert_next_rr n T_SRV ttl (RsSRV ttl [(priority, weight, port, rhs)])
        (fun r => match r with RsSRV t rd => Some (t, length rd, RsSRV t (rd ++ [(priority, weight, port, rhs)])) | _ => None end)).

  (** [ltree_add_rec_naptr_args], src/ltree.c:549-566; the text length is kept
      in 16 bits, src/ltree.h:147-153. *)
  Definition add_rec_naptr (root : lnode) (dname rhs : name) (ttl order pref : N) (text : bytes) : zres lnode :=
    if (65535 <? order) || (65535 <? pref) then zfatal
    else find_or_add_dname root dname (fun n =>
      let ttl := clamp_ttl ttl in
      let x := (order, pref, firstn (N.to_nat (N.of_nat (length text) mod 65536)) text, rhs) in
      insert_next_rr n T_NAPTR ttl (RsNAPTR ttl [x])
        (fun r => match r with RsNAPTR t rd => Some (t, length rd, RsNAPTR t (rd ++ [x])) | _ => None end)).

  (** [ltree_add_rec_txt], src/ltree.c:568-594. *)
  Definition add_rec_txt (root : lnode) (dname : name) (text : bytes) (ttl : N) : zres lnode :=
    find_or_add_dname root dname (fun n =>
      let go ttl :=
        insert_next_rr n T_TXT ttl (RsTXT ttl [text])
          (fun r => match r with RsTXT t rd => Some (t, length rd, RsTXT t (rd ++ [text])) | _ => None end) in
      if is_acme dname then zwarn_if (negb (ttl =? z_acme_ttl cfg)) (go (z_acme_ttl cfg))
      else go (clamp_ttl ttl)).

  (** [ltree_add_rec_soa_args], src/ltree.c:596-636. *)
  Definition add_rec_soa (root : lnode) (dname mname rname : name) (ttl serial refresh retry expire ncache : N) : zres lnode :=
    let big := z_max_ncache_ttl cfg <? ncache in
    let small := ncache <? z_min_ttl cfg in
    zwarn_if (big || small)
      (let ncache := if big then z_max_ncache_ttl cfg else if small then z_min_ttl cfg else ncache in
       let tbig := ncache <? ttl in
       let tsmall := ttl <? z_min_ttl cfg in
       zwarn_if (tbig || tsmall)
         (let ttl := if tbig then ncache else if tsmall then z_min_ttl cfg else ttl in
          find_or_add_dname root dname (fun n =>
            rassert (match dname with [] => true | _ => false end)
              (match get_rrset (l_rrsets n) T_SOA with
               | Some _ => zfatal
               | None => Ok (Some (add_rrset n (RsSOA ttl mname rname
                           (be32 serial ++ be32 refresh ++ be32 retry ++ be32 expire ++ be32 ncache))))
               end)))).

  (** [ltree_add_rec_rfc3597], src/ltree.c:664-716: the type is compared as given,
      kept in 16 bits; so is the length of the data. *)
  Definition add_rec_rfc3597 (root : lnode) (dname : name) (rrtype ttl : N) (rd : bytes) : zres lnode :=
    find_or_add_dname root dname (fun n =>
      if existsb (N.eqb rrtype) [T_A; T_AAAA; T_SOA; T_CNAME; T_NS; T_PTR; T_MX; T_SRV; T_NAPTR; T_TXT] then zfatal
      else if (rrtype =? 13) || (rrtype =? T_DYNC) || ((127 <? rrtype) && (rrtype <? 256)) || (rrtype =? 0) then zfatal
      else
        let ttl := clamp_ttl ttl in
        let x := firstn (N.to_nat (N.of_nat (length rd) mod 65536)) rd in
        let type := rrtype mod 65536 in
        insert_next_rr n rrtype ttl (RsOther type ttl [x])
          (fun r => match r with RsOther ty t l => Some (t, length l, RsOther ty t (l ++ [x])) | _ => None end)).

  (** The calls the parser makes, src/zscan_rfc1035.rl:546-722. *)
  Inductive record :=
  | ASoa (dname mname rname : name) (ttl serial refresh retry expire ncache : N)
  | AA (dname : name) (addr : bytes) (ttl : N) (ooz : bool)
  | AAaaa (dname : name) (addr : bytes) (ttl : N) (ooz : bool)
  | ADyna (dname : name) (rhs : bytes) (ttl ttl_min : N)
  | ACname (dname rhs : name) (ttl : N)
  | ADync (dname : name) (rhs : bytes) (ttl ttl_min : N)
  | APtr (dname rhs : name) (ttl : N)
  | ANs (dname rhs : name) (ttl : N)
  | AMx (dname rhs : name) (ttl pref : N)
  | ASrv (dname rhs : name) (ttl priority weight port : N)
  | ANaptr (dname rhs : name) (ttl order pref : N) (text : bytes)
  | ATxt (dname : name) (text : bytes) (ttl : N)
  | AOther (dname : name) (rrtype ttl : N) (rd : bytes).

  Definition add_rec (root : lnode) (r : record) : zres lnode :=
    match r with
    | ASoa d m rn ttl a b c e f => add_rec_soa root d m rn ttl a b c e f
    | AA d a ttl o => add_rec_a root d a ttl o
    | AAaaa d a ttl o => add_rec_aaaa root d a ttl o
    | ADyna d r ttl m => add_rec_dynaddr root d r ttl m
    | ACname d r ttl => add_rec_cname root d r ttl
    | ADync d r ttl m => add_rec_dync root d r ttl m
    | APtr d r ttl => add_rec_ptr root d r ttl
    | ANs d r ttl => add_rec_ns root d r ttl
    | AMx d r ttl p => add_rec_mx root d r ttl p
    | ASrv d r ttl p w po => add_rec_srv root d r ttl p w po
    | ANaptr d r ttl o p t => add_rec_naptr root d r ttl o p t
    | ATxt d t ttl => add_rec_txt root d t ttl
    | AOther d t ttl rd => add_rec_rfc3597 root d t ttl rd
    end.
  Fixpoint add_recs (root : lnode) (rs : list record) : zres lnode :=
    match rs with
    | [] => Ok (Some root)
    | r :: rs => zdo root <- add_rec root r ; add_recs root rs
    end.

  (** ** The checks after loading *)
  (** [ltree_search_dname_zone], src/ltree.c:718-765.  Nodes come with their
      names (relative to the zone), which stand for the pointers. *)
  Definition named := (name * lnode)%type.
  Fixpoint zsearch (current : lnode) (path : name) (stack : list (list N)) (rval : status) (deleg : option named)
      : res (status * option named * option named) :=
    let cut := get_zcut current && match path with [] => false | _ => true end in
    let rval := if cut then DELEG else rval in
    let deleg := if cut then Some (path, current) else deleg in
    match stack with
    | [] => Ok (rval, Some (path, current), deleg)
    | l :: stack =>
        do next <- node_find_child current l ;
        match next with
        | Some n => zsearch n (l :: path) stack rval deleg
        | None =>
            match rval with
            | AUTH => do w <- node_find_child current label_wild ;
                      Ok (rval, match w with Some w => Some (label_wild :: path, w) | None => None end, deleg)
            | _ => Ok (rval, None, deleg)
            end
        end
    end.
  Definition search_dname_zone (root : lnode) (dname : name) : res (status * option named * option named) :=
    if isinzone zname dname
    then zsearch root [] (rev (firstn (length dname - length zname) dname)) AUTH None
    else Ok (NOAUTH, None, None).

  Definition has_addrs (n : lnode) : bool :=
    match get_rrset (l_rrsets n) T_A, get_rrset (l_rrsets n) T_AAAA with None, None => false | _, _ => true end.
  (** [check_valid_addr], src/ltree.c:769-780. *)
  Definition check_valid_addr (root : lnode) (dname : name) : res bool :=
    do s <- search_dname_zone root dname ;
    match s with
    | (AUTH, Some (_, n), _) => Ok (has_addrs n)
    | (AUTH, None, _) => Ok false
    | _ => Ok true
    end.

  (** a set of addresses as glue; [None]: no set, [Some None]: dynamic *)
  Definition static_a (r : option rrset) : res (option (option (N * list bytes))) :=
    match r with
    | None => Ok None
    | Some (RsA t a) => Ok (Some (Some (t, a)))
    | Some (RsADyn _ _ _) => Ok (Some None)
    | Some _ => UB
    end.
  Definition static_aaaa (r : option rrset) : res (option (option (N * list bytes))) :=
    match r with
    | None => Ok None
    | Some (RsAAAA t a) => Ok (Some (Some (t, a)))
    | Some (RsAAAADyn _ _ _) => Ok (Some None)
    | Some _ => UB
    end.
  Definition is_dyn (g : option (option (N * list bytes))) : bool := match g with Some None => true | _ => false end.
  Definition glue_of (g : option (option (N * list bytes))) : option (N * list bytes) := match g with Some g => g | None => None end.

  (** [p1_proc_ns], src/ltree.c:791-842: the glue for a name server, and the
      node whose addresses were used.  (The code stores pointers to the sets; no
      set changes after this.) *)
  Definition p1_proc_ns (root : lnode) (target : name)
      : zres (option (N * list bytes) * option (N * list bytes) * list name) :=
    do s <- search_dname_zone root target ;
    let '(st, found, _) := s in
    match st with
    | AUTH => Ok (Some (None, None, []))
    | _ =>
        do found <- match st with
                    | NOAUTH =>
                        rassert (match found with None => true | Some _ => false end)
                          (do ooz <- node_find_child root ooz_glue_label ;
                           match ooz with
                           | None => Ok None
                           | Some o => do n <- node_find_child o (dname_label target) ;
                                       Ok (match n with Some n => Some ([dname_label target; ooz_glue_label], n) | None => None end)
                           end)
                    | _ => Ok found
                    end ;
        let rs := match found with Some (_, n) => l_rrsets n | None => [] end in
        do a <- static_a (get_rrset rs T_A) ;
        do aaaa <- static_aaaa (get_rrset rs T_AAAA) ;
        let bad := match st with
                   | NOAUTH => false
                   | _ => match a, aaaa with None, None => true | _, _ => is_dyn a || is_dyn aaaa end
                   end in
        if bad then zfatal
        else match found with
             | Some (p, _) => Ok (Some (glue_of a, glue_of aaaa, match a, aaaa with None, None => [] | _, _ => [p] end))
             | None => Ok (Some (None, None, []))
             end
    end.

  Definition dlen (n : name) : N := N.of_nat (length (wire n)).
  Definition glue_count (g : option (N * list bytes)) : N := match g with Some (_, a) => N.of_nat (length a) | None => 0 end.
  Definition nsum {X} (f : X -> N) (l : list X) : N := fold_right (fun x a => f x + a) 0 l.
  (** [p1_rrset_size_ns] and [p1_rrset_size], src/ltree.c:880-963.  The sums are
      far below 2^64. *)
  Definition p1_rrset_size (r : rrset) (in_deleg : bool) : res N :=
    match r with
    | RsSOA _ m rn _ => Ok (12 + dlen m + dlen rn + 20)
    | RsCNAME _ _ => UB
    | RsDYNC _ _ _ => Ok (12 + 255)
    | RsA _ a => Ok (if in_deleg then 0 else N.of_nat (length a) * (12 + 4))
    | RsADyn _ _ _ => Ok (z_dyna_max cfg)
    | RsAAAA _ a => Ok (if in_deleg then 0 else N.of_nat (length a) * (12 + 16))
    | RsAAAADyn _ _ _ => Ok (z_dyna_max cfg)
    | RsNS _ rd => Ok (nsum (fun x => let '(n, g4, g6) := x in 12 + dlen n + glue_count g4 * (12 + 4) + glue_count g6 * (12 + 16)) rd)
    | RsPTR _ rd => Ok (nsum (fun n => 12 + dlen n) rd)
    | RsMX _ rd => Ok (nsum (fun x => 12 + 2 + dlen (snd x)) rd)
    | RsSRV _ rd => Ok (nsum (fun x => let '(_, _, _, n) := x in 12 + 2 + 2 + 2 + dlen n) rd)
    | RsNAPTR _ rd => Ok (nsum (fun x => let '(_, _, t, n) := x in 12 + 2 + 2 + N.of_nat (length t) + dlen n) rd)
    | RsTXT _ rd => Ok (nsum (fun t => 12 + N.of_nat (length t)) rd)
    | RsOther ty _ rd =>
        rassert (negb (existsb (N.eqb ty) [T_A; T_AAAA; T_SOA; T_CNAME; T_NS; T_PTR; T_MX; T_SRV; T_NAPTR; T_TXT; T_DYNC]))
          (Ok (nsum (fun t => 12 + N.of_nat (length t)) rd))
    end.

  (** [p1_check_deleg], src/ltree.c:965-984: true if refused. *)
  Definition p1_check_deleg (n : lnode) (path : name) (in_deleg at_deleg : bool) : res bool :=
    if in_deleg then
      match path with
      | [] => UB
      | l :: _ =>
          Ok (is_wild (Some l) ||
              negb (forallb (fun r => (rrset_type r =? T_A) || (rrset_type r =? T_AAAA) || ((rrset_type r =? T_NS) && at_deleg)) (l_rrsets n)))
      end
    else Ok false.

  (** [p1_rsize_base], src/ltree.c:986-1021. *)
  Definition p1_rsize_base (n : lnode) (path : name) (at_deleg : bool) : N :=
    12 + 4 + 11 + 6
    + (if z_ecs cfg then 24 else 0)
    + (if z_nsid_len cfg =? 0 then 0 else 4 + z_nsid_len cfg)
    + (if z_cookies cfg then 20 else 0)
    + (if at_deleg || is_wild (l_label n) then 255
       else dlen zname + nsum (fun l => 1 + N.of_nat (length l)) path).

  (** [p1_check_cname], src/ltree.c:1023-1036: true if refused. *)
  Definition p1_check_cname (n : lnode) : bool :=
    match l_rrsets n with
    | r :: _ :: _ => (rrset_type r =? T_CNAME) || (rrset_type r =? T_DYNC)
    | _ => false
    end.

  Definition MAX_CNAME_DEPTH : nat := 16.
  (** the CNAME at the start of a node's sets; UB for a set of another kind
      under the number of CNAME *)
  Definition first_cname (rs : list rrset) : res (option name) :=
    match rs with
    | RsCNAME _ t :: _ => Ok (Some t)
    | r :: _ => if rrset_type r =? T_CNAME then UB else Ok None
    | [] => Ok None
    end.
  (** The loop of [p1_chase_cname], src/ltree.c:1063-1074. *)
  Fixpoint chase_loop (fuel : nat) (root : lnode) (cn_depth : nat) (rsize : N) (s : status * option named * option named)
      : zres (N * (status * option named * option named)) :=
    match fuel with
    | O => UB
    | S fuel =>
        let '(cnstat, cn_target, deleg_cut) := s in
        do next <- match cnstat, cn_target with
                   | AUTH, Some (_, n) => first_cname (l_rrsets n)
                   | _, _ => Ok None
                   end ;
        match next with
        | None => Ok (Some (rsize, s))
        | Some t =>
            let cn_depth := S cn_depth in
            if (MAX_CNAME_DEPTH <? cn_depth)%nat then zfatal
            else
              do s' <- search_dname_zone root t ;
              (* [deleg_out] is only written when a cut is met *)
              let '(st', tg', dc') := s' in
              chase_loop fuel root cn_depth (rsize + (12 + dlen t))
                (st', tg', match dc' with Some _ => dc' | None => deleg_cut end)
        end
    end.

  (** [p1_chase_cname], src/ltree.c:1038-1097: the sets to go on with, the size
      of the sets so far, the size. *)
  Definition p1_chase_cname (root : lnode) (target : name) (rsize : N) : zres (list rrset * N * N) :=
    do s <- search_dname_zone root target ;
    let '(cnstat, cn_target, _) := s in
    let warn := match cnstat, cn_target with
                | AUTH, None => true
                | AUTH, Some (_, n) => match l_rrsets n with [] => true | _ => false end
                | _, _ => false
                end in
    zwarn_if warn
      (zdo (rsize, s) <- chase_loop (S MAX_CNAME_DEPTH) root 1 (rsize + (12 + dlen target)) s ;
       let '(cnstat, cn_target, deleg_cut) := s in
       match cnstat with
       | AUTH =>
           match get_rrset (l_rrsets root) T_SOA with
           | Some (RsSOA _ m rn _) =>
               Ok (Some (match cn_target with Some (_, n) => l_rrsets n | None => [] end, 12 + dlen m + dlen rn + 20, rsize))
           | _ => UB
           end
       | DELEG =>
           match deleg_cut with
           | Some (_, d) => rassert (match l_rrsets d with [] => false | _ => true end) (Ok (Some (l_rrsets d, 0, rsize)))
           | None => UB
           end
       | NOAUTH => Ok (Some ([], 0, rsize))
       end).

  (** [p1_check_mx_srv], src/ltree.c:1099-1116. *)
  Fixpoint check_targets (root : lnode) (ts : list name) : zres unit :=
    match ts with
    | [] => Ok (Some tt)
    | t :: ts => do ok <- check_valid_addr root t ; zwarn_if (negb ok) (check_targets root ts)
    end.
  Definition p1_check_mx_srv (root : lnode) (r : rrset) : zres unit :=
    match r with
    | RsMX _ rd => check_targets root (map snd rd)
    | RsSRV _ rd => check_targets root (map snd rd)
    | RsOther ty _ _ => rassert (negb ((ty =? T_MX) || (ty =? T_SRV))) (Ok (Some tt))
    | _ => Ok (Some tt)
    end.

  (** The name servers of a set, src/ltree.c:1150-1154: the set with its glue. *)
  Fixpoint proc_ns_list (root : lnode) (rd : list (name * option (N * list bytes) * option (N * list bytes))) (gused : list name)
      : zres (list (name * option (N * list bytes) * option (N * list bytes)) * list name) :=
    match rd with
    | [] => Ok (Some ([], gused))
    | (t, _, _) :: rd =>
        zdo (g4, g6, used) <- p1_proc_ns root t ;
        zdo (rd, gused) <- proc_ns_list root rd (used ++ gused) ;
        Ok (Some ((t, g4, g6) :: rd, gused))
    end.
  Definition proc_ns (root : lnode) (r : rrset) (gused : list name) : zres (rrset * list name) :=
    match r with
    | RsNS t rd => zdo (rd, gused) <- proc_ns_list root rd gused ; Ok (Some (RsNS t rd, gused))
    | RsOther ty _ _ => rassert (negb (ty =? T_NS)) (Ok (Some (r, gused)))
    | _ => Ok (Some (r, gused))
    end.

  (** The loop over the sets, src/ltree.c:1148-1166. *)
  Fixpoint p1_sets (root : lnode) (rs : list rrset) (in_deleg via_cname : bool) (rsize_rrs : N) (gused : list name)
      : zres (list rrset * N * list name) :=
    match rs with
    | [] => Ok (Some ([], rsize_rrs, gused))
    | r :: rs =>
        zdo (r, gused) <- proc_ns root r gused ;
        zdo _ <- (if via_cname then Ok (Some tt) else p1_check_mx_srv root r) ;
        do set_size <- p1_rrset_size r in_deleg ;
        zdo (rs, rsize_rrs, gused) <- p1_sets root rs in_deleg via_cname (if rsize_rrs <? set_size then set_size else rsize_rrs) gused ;
        Ok (Some (r :: rs, rsize_rrs, gused))
    end.

  Definition MAX_RESPONSE_DATA : N := 16376.
  (** [ltree_postproc_phase1], src/ltree.c:1118-1176: the node's sets with glue.
      (Glue of the sets at the end of an alias is set when their own node is
      visited; the code sets it here too, to the same.) *)
  Definition phase1 (root : lnode) (n : lnode) (path : name) (in_deleg : bool) (gused : list name) : zres (list rrset * list name) :=
    let at_deleg := get_zcut n && match path with [] => false | _ => true end in
    do bad <- p1_check_deleg n path in_deleg at_deleg ;
    if bad then zfatal
    else
      let rsize := p1_rsize_base n path at_deleg in
      if p1_check_cname n then zfatal
      else
        do cn <- first_cname (l_rrsets n) ;
        zdo (via_cname, rs, rsize_rrs, rsize) <-
          match cn with
          | None => Ok (Some (false, l_rrsets n, 0, rsize))
          | Some t => zdo (rs, rsize_rrs, rsize) <- p1_chase_cname root t rsize ; Ok (Some (true, rs, rsize_rrs, rsize))
          end ;
        zdo (rs', rsize_rrs, gused) <- p1_sets root rs in_deleg via_cname rsize_rrs gused ;
        if MAX_RESPONSE_DATA <? rsize + rsize_rrs then zfatal
        else Ok (Some (if via_cname then l_rrsets n else rs', gused)).

  (** [ltree_proc_inner] with phase 1, src/ltree.c:1188-1219: the tree with its
      glue.  (The code's slot counter has 32 bits, so it would not end for 2^31
      children of one node.) *)
  Fixpoint proc1 (root : lnode) (n : lnode) (path : name) (in_deleg : bool) (gused : list name) {struct n} : zres (lnode * list name) :=
    match n with
    | LNode caf label table rrsets =>
        let cut := N.testbit caf 63 && match path with [] => false | _ => true end in
        if cut && in_deleg then zfatal
        else
          let in_deleg := in_deleg || cut in
          zdo (rrsets', gused) <- phase1 root n path in_deleg gused ;
          match table with
          | None => Ok (Some (LNode caf label None rrsets', gused))
          | Some tbl =>
              zdo (tbl', gused) <-
                (fix go (tbl : list (option (N * lnode))) (gused : list name) : zres (list (option (N * lnode)) * list name) :=
                   match tbl with
                   | [] => Ok (Some ([], gused))
                   | None :: tbl => zdo (t, gused) <- go tbl gused ; Ok (Some (None :: t, gused))
                   | Some (h, c) :: tbl =>
                       match l_label c with
                       | None => UB
                       | Some l =>
                           zdo (c', gused) <- proc1 root c (l :: path) in_deleg gused ;
                           zdo (t, gused) <- go tbl gused ;
                           Ok (Some (Some (h, c') :: t, gused))
                       end
                   end) tbl gused ;
              Ok (Some (LNode caf label (Some tbl') rrsets', gused))
          end
    end.

  (** [ltree_postproc_zroot_phase1], src/ltree.c:1232-1276. *)
  Definition zroot_phase1 (root : lnode) : zres unit :=
    match get_rrset (rev (l_rrsets root)) T_SOA, get_rrset (rev (l_rrsets root)) T_NS with
    | None, _ => zfatal
    | _, None => zfatal
    | Some (RsSOA _ m _ _), Some (RsNS _ rd) =>
        rassert (match rd with [] => false | _ => true end)
          (zwarn_if (length rd <? 2)%nat
             (zwarn_if (negb (existsb (fun x => names_eqb m (fst (fst x))) rd)) (Ok (Some tt))))
    | _, _ => UB
    end.

  Definition gused_at (gused : list name) (p : name) : bool := existsb (names_eqb p) gused.
  (** [ltree_postproc_zroot_phase2], src/ltree.c:1278-1308.  (That an entry of the
      glue list has address sets only is asserted by the code.) *)
  Definition is_addr (r : rrset) : bool := (rrset_type r =? T_A) || (rrset_type r =? T_AAAA).
  Fixpoint ooz_used (tbl : list (option (N * lnode))) (gused : list name) : zres unit :=
    match tbl with
    | [] => Ok (Some tt)
    | None :: tbl => ooz_used tbl gused
    | Some (_, n) :: tbl =>
        rassert (match l_rrsets n with
                 | [r] => is_addr r
                 | [r; r'] => is_addr r && is_addr r' && negb (rrset_type r =? rrset_type r')
                 | _ => false
                 end)
          (zwarn_if (negb (gused_at gused [labelof n; ooz_glue_label])) (ooz_used tbl gused))
    end.
  Definition zroot_phase2 (root : lnode) (gused : list name) : zres unit :=
    do ooz <- node_find_child root ooz_glue_label ;
    match ooz with
    | None => Ok (Some tt)
    | Some o => rassert (negb (get_ccount o =? 0)) (match l_table o with None => UB | Some tbl => ooz_used tbl gused end)
    end.

  (** [ltree_proc_inner] with phase 2, src/ltree.c:1178-1219. *)
  Fixpoint proc2 (n : lnode) (path : name) (in_deleg : bool) (gused : list name) {struct n} : zres unit :=
    match n with
    | LNode caf label table rrsets =>
        let in_deleg := in_deleg || (N.testbit caf 63 && match path with [] => false | _ => true end) in
        zwarn_if (in_deleg && match get_rrset rrsets T_A, get_rrset rrsets T_AAAA with None, None => false | _, _ => true end
                  && negb (gused_at gused path))
          match table with
          | None => Ok (Some tt)
          | Some tbl =>
              (fix go (tbl : list (option (N * lnode))) : zres unit :=
                 match tbl with
                 | [] => Ok (Some tt)
                 | None :: tbl => go tbl
                 | Some (h, c) :: tbl =>
                     match l_label c with
                     | None => UB
                     | Some l => zdo _ <- proc2 c (l :: path) in_deleg gused ; go tbl
                     end
                 end) tbl
          end
    end.

  (** [ltree_postproc_zone], src/ltree.c:1310-1335. *)
  Definition postproc_zone (root : lnode) : zres lnode :=
    zdo _ <- zroot_phase1 root ;
    zdo (root', gused) <- proc1 root root [] false [] ;
    zdo _ <- zroot_phase2 root' gused ;
    zdo _ <- proc2 root' [] false gused ;
    Ok (Some root').

  (** The root of a new zone, [ltree_new_zone], src/ltree.c:1461-1490; names
      starting with the label * are refused. *)
  Definition new_zone_root : zres lnode :=
    match zname with
    | [42] :: _ => zfatal
    | _ => Ok (Some (set_zcut (LNode 0 (match zname with [] => None | l :: _ => Some l end) None [])))
    end.

  (** A zone file: src/zsrc_rfc1035.c:142-160. *)
  Definition load_zone (rs : list record) : zres lnode :=
    zdo root <- new_zone_root ; zdo root <- add_recs root rs ; postproc_zone root.
End Add.

(** ** Merging, [ltree_merge_zone], src/ltree.c:1492-1529 *)
Fixpoint merge_path (hash : list N -> N) (n : lnode) (stack : list (list N)) (zroot : lnode) : zres lnode :=
  match stack with
  | l :: stack =>
      if get_zcut n then zfatal
      else find_or_add_child hash n l (fun c => merge_path hash c stack zroot)
  | [] =>
      if get_zcut n then zfatal
      else if negb (get_ccount n =? 0) then zfatal
      else rassert (match l_table n, l_rrsets n with None, [] => true | _, _ => false end) (Ok (Some zroot))
  end.
(** [new_root_tree->label] is NULL; the zone's root is a cut *)
Definition merge_zone (hash : list N -> N) (tree : lnode) (zname : name) (zroot : lnode) : zres lnode :=
  rassert (get_zcut zroot && match l_label tree with None => true | Some _ => false end)
    (merge_path hash tree (rev zname) zroot).

(** All zones of a load, src/ltree.c:1407-1451 and src/zsrc_rfc1035.c:142-187:
    each is loaded (by a worker), then merged in the order of the workers'
    lists. *)
Fixpoint load_zones (cfg : zcfg) (pl : plugins) (hash : list N -> N) (tree : lnode) (zs : list (name * list record)) : zres lnode :=
  match zs with
  | [] => Ok (Some tree)
  | (z, rs) :: zs =>
      zdo zroot <- load_zone cfg pl hash z rs ;
      zdo tree <- merge_zone hash tree z zroot ;
      load_zones cfg pl hash tree zs
  end.

(** [search_ltree_for_dname], src/dnspacket.c:1617-1683, as RespModel.search but
    on the tables. *)
Fixpoint lsearch (hash : list N -> N) (current : lnode) (stack : list (list N)) (auth : option (lnode * nat))
    : res (status * option lnode * option lnode * nat) :=
  let lcount := length stack in
  match get_zcut current, auth with
  | true, Some (a, _) => Ok (DELEG, Some current, Some a, lcount)
  | z, _ =>
      let auth := if z then Some (current, lcount) else auth in
      match stack with
      | [] => Ok match auth with
                 | Some (a, d) => (AUTH, Some current, Some a, d)
                 | None => (NOAUTH, Some current, None, O)
                 end
      | l :: rest =>
          do next <- node_find_child hash current l ;
          match next with
          | Some next => lsearch hash next rest auth
          | None => match auth with
                    | Some (a, d) => do w <- node_find_child hash current label_wild ; Ok (AUTH, w, Some a, d)
                    | None => Ok (NOAUTH, None, None, O)
                    end
          end
      end
  end.
