(** Model of answering from the zone data: record encoders, tree search and the
    answer logic, src/dnspacket.c:930-1873, and [chal_respond],
    src/chal.c:466-511.

    Simplifications.  Domain names of the database are label lists (their
    storage form is DnameModel.v).  The children of a node are an association
    list (the hash table behind it is LtreeModel.v).  All encoders write a record
    the same way - owner, type/class, TTL, length, data - and share [enc_rr];
    the length is always written by going back to it, which some encoders do and
    others need not.  Statistics are left out here. *)
From Verif Require Import Base DnameModel RandModel CompModel.
Local Open Scope N_scope.

Notation name := (list (list N)).
Notation wire ls := (concat (map (fun l => N.of_nat (length l) :: l) ls) ++ [0]).

(** ** Database, src/ltree.h:98-281.  TTLs and 16-bit fields are numbers (the
    code stores them in network order); addresses are their bytes. *)
Inductive rrset :=
| RsA (ttl : N) (addrs : list bytes)
| RsADyn (ttl_max ttl_min : N) (resource : N)
| RsAAAA (ttl : N) (addrs : list bytes)
| RsAAAADyn (ttl_max ttl_min : N) (resource : N)
| RsNS (ttl : N) (rd : list (name * option (N * list bytes) * option (N * list bytes)))  (* with glue *)
| RsPTR (ttl : N) (rd : list name)
| RsMX (ttl : N) (rd : list (N * name))
| RsSRV (ttl : N) (rd : list (N * N * N * name))
| RsNAPTR (ttl : N) (rd : list (N * N * bytes * name))
| RsTXT (ttl : N) (rd : list bytes)
| RsCNAME (ttl : N) (target : name)
| RsSOA (ttl : N) (mname rname : name) (times : bytes)
| RsDYNC (ttl_max ttl_min : N) (resource : N)
| RsOther (type ttl : N) (rd : list bytes).

Definition T_A : N := 1.      Definition T_NS : N := 2.     Definition T_CNAME : N := 5.
Definition T_SOA : N := 6.    Definition T_PTR : N := 12.   Definition T_MX : N := 15.
Definition T_TXT : N := 16.   Definition T_AAAA : N := 28.  Definition T_SRV : N := 33.
Definition T_NAPTR : N := 35. Definition T_ANY : N := 255.  Definition T_DYNC : N := 65295.

Definition rrset_type (r : rrset) : N :=
  match r with
  | RsA _ _ | RsADyn _ _ _ => T_A
  | RsAAAA _ _ | RsAAAADyn _ _ _ => T_AAAA
  | RsNS _ _ => T_NS | RsPTR _ _ => T_PTR | RsMX _ _ => T_MX | RsSRV _ _ => T_SRV
  | RsNAPTR _ _ => T_NAPTR | RsTXT _ _ => T_TXT | RsCNAME _ _ => T_CNAME
  | RsSOA _ _ _ _ => T_SOA | RsDYNC _ _ _ => T_DYNC | RsOther t _ _ => t
  end.

Inductive node := Node (zcut : bool) (rrsets : list rrset) (children : list (list N * node)).
Definition n_zcut (n : node) : bool := match n with Node z _ _ => z end.
Definition n_rrsets (n : node) : list rrset := match n with Node _ r _ => r end.
Definition n_children (n : node) : list (list N * node) := match n with Node _ _ c => c end.

(** [ltree_node_find_child], src/ltree.h:478-500. *)
Fixpoint assoc_label (l : list N) (cs : list (list N * node)) : option node :=
  match cs with
  | [] => None
  | (k, n) :: cs => if bytes_eqb k l then Some n else assoc_label l cs
  end.
Definition find_child (n : node) (l : list N) : option node := assoc_label l (n_children n).

(** A plugin's answer, [dyn_result_t], src/plugins/plugapi.h:141-152. *)
Record dynres := { d_cname : option name; d_v4 : list bytes; d_v6 : list bytes; d_scope : N; d_sttl : N }.

(** The part of [dnsp_ctx_t]/[txn_t] the answer logic changes. *)
Record st := {
  s_out : bytes; s_cts : list ctarget;
  s_an : N; s_cn : N; s_ns : N; s_ar : N;         (* ancount, cname_ancount, nscount, arcount *)
  s_qc : nat; s_ac : nat;                          (* qname_comp, auth_comp *)
  s_aa : bool; s_rcode : N; s_qtype : N; s_scope : N }.
Definition set_out (s : st) (o : bytes) (c : list ctarget) : st :=
  {| s_out := o; s_cts := c; s_an := s_an s; s_cn := s_cn s; s_ns := s_ns s; s_ar := s_ar s; s_qc := s_qc s; s_ac := s_ac s;
     s_aa := s_aa s; s_rcode := s_rcode s; s_qtype := s_qtype s; s_scope := s_scope s |}.
Definition set_counts (s : st) (an cn ns ar : N) : st :=
  {| s_out := s_out s; s_cts := s_cts s; s_an := an; s_cn := cn; s_ns := ns; s_ar := ar; s_qc := s_qc s; s_ac := s_ac s;
     s_aa := s_aa s; s_rcode := s_rcode s; s_qtype := s_qtype s; s_scope := s_scope s |}.
Definition set_comp (s : st) (qc ac : nat) : st :=
  {| s_out := s_out s; s_cts := s_cts s; s_an := s_an s; s_cn := s_cn s; s_ns := s_ns s; s_ar := s_ar s; s_qc := qc; s_ac := ac;
     s_aa := s_aa s; s_rcode := s_rcode s; s_qtype := s_qtype s; s_scope := s_scope s |}.
Definition set_flags (s : st) (aa : bool) (rcode : N) : st :=
  {| s_out := s_out s; s_cts := s_cts s; s_an := s_an s; s_cn := s_cn s; s_ns := s_ns s; s_ar := s_ar s; s_qc := s_qc s; s_ac := s_ac s;
     s_aa := aa; s_rcode := rcode; s_qtype := s_qtype s; s_scope := s_scope s |}.
Definition set_qtype (s : st) (t : N) : st :=
  {| s_out := s_out s; s_cts := s_cts s; s_an := s_an s; s_cn := s_cn s; s_ns := s_ns s; s_ar := s_ar s; s_qc := s_qc s; s_ac := s_ac s;
     s_aa := s_aa s; s_rcode := s_rcode s; s_qtype := t; s_scope := s_scope s |}.
Definition set_scope (s : st) (m : N) : st :=
  {| s_out := s_out s; s_cts := s_cts s; s_an := s_an s; s_cn := s_cn s; s_ns := s_ns s; s_ar := s_ar s; s_qc := s_qc s; s_ac := s_ac s;
     s_aa := s_aa s; s_rcode := s_rcode s; s_qtype := s_qtype s; s_scope := m |}.
Definition add_an (s : st) (n : nat) : st := set_counts s (s_an s + N.of_nat n) (s_cn s) (s_ns s) (s_ar s).
Definition add_ar (s : st) (n : nat) : st := set_counts s (s_an s) (s_cn s) (s_ns s) (s_ar s + N.of_nat n).

Section Resp.
  (** The query name as searched for (lower case), on the wire. *)
  Variable lq : bytes.
  (** Values drawn by the shuffle of a set starting at an offset, for a count. *)
  Variable draws : nat -> nat -> list nat.
  (** The resolver plugins, for this client: resource number to answer. *)
  Variable dyn : N -> dynres.
  (** The ACME challenges configured for a name, in table order: TTL and the 44
      bytes of TXT data.  [mk_chal_rr], src/chal.c:303-315, stores them with the
      other fields as the 54 bytes that follow the owner name. *)
  Variable chals : name -> list (N * bytes).
  Definition mk_chal_rr (c : N * bytes) : bytes := be16 T_TXT ++ be16 1 ++ be32 (fst c) ++ be16 44 ++ snd c.
  (** this_max_response *)
  Variable max_response : N.
  (** gcfg->experimental_no_chain *)
  Variable no_chain : bool.
  (** the database, gdnsd's root_tree *)
  Variable root : node.

  (** ** Records *)
  Inductive wpiece := WBytes (b : bytes) | WComp (make : bool) (n : name) | WFull (n : name).
  Fixpoint enc_pieces (out : bytes) (cts : list ctarget) (ps : list wpiece) : res (bytes * list ctarget) :=
    match ps with
    | [] => Ok (out, cts)
    | WBytes b :: ps => do out <- emit out b; enc_pieces out cts ps
    | WComp mk n :: ps => do (out, cts) <- store_dname_comp lq cts out (wire n) mk; enc_pieces out cts ps
    | WFull n :: ps => do out <- store_dname_nocomp out (wire n); enc_pieces out cts ps
    end.
  (** One record: returns also where its data starts. *)
  Definition enc_rr (out : bytes) (cts : list ctarget) (owner : nat) (type ttl : N) (ps : list wpiece)
    : res (bytes * list ctarget * nat) :=
    do out <- repeat_name out owner;
    do out <- emit out (be16 type ++ be16 1 ++ be32 ttl ++ [0; 0]);
    let at_ := length out in
    do (out, cts) <- enc_pieces out cts ps;
    do out <- wr out (at_ - 2) (be16 (N.of_nat (length out - at_)));
    Ok (out, cts, at_).
  Fixpoint enc_rrs (out : bytes) (cts : list ctarget) (owner : nat) (type ttl : N) (rds : list (list wpiece))
    : res (bytes * list ctarget * list nat) :=
    match rds with
    | [] => Ok (out, cts, [])
    | rd :: rds =>
        do (out, cts, a) <- enc_rr out cts owner type ttl rd;
        do (out, cts, at_) <- enc_rrs out cts owner type ttl rds;
        Ok (out, cts, a :: at_)
    end.
  Definition enc_set (s : st) (owner : nat) (type ttl : N) (rds : list (list wpiece)) : res st :=
    do (out, cts, _) <- enc_rrs (s_out s) (s_cts s) owner type ttl rds;
    Ok (set_out s out cts).

  (** [enc_a_static], [enc_a_dynamic], [enc_aaaa_static], [enc_aaaa_dynamic],
      src/dnspacket.c:930-1062: they differ in where the addresses come from. *)
  Definition enc_addrs (s : st) (owner : nat) (type ttl : N) (addrs : list bytes) : res st :=
    rassert (negb (Nat.eqb (length addrs) 0))
    (let start := length (s_out s) in
     do (out, cts, _) <- enc_rrs (s_out s) (s_cts s) owner type ttl (map (fun a => [WBytes a]) addrs);
     do sh <- shuffle_addrs_rdata (draws start (length addrs)) (skipn start out) (length addrs)
                (if type =? T_A then 16%nat else 28%nat);
     Ok (set_out s (firstn start out ++ sh) cts)).

  (** [do_dyn_callback], src/dnspacket.c:1068-1084: result, TTL to use, state. *)
  Definition do_dyn_callback (s : st) (resource ttl_max ttl_min : N) : res (dynres * N * st) :=
    let dr := dyn resource in
    let s := if s_scope s <? d_scope dr then set_scope s (d_scope dr) else s in
    rassert (N.land (d_sttl dr) 805306368 =? 0)
    (let ttl := N.land (d_sttl dr) 268435455 in
     Ok (dr, (if ttl_max <? ttl then ttl_max else if ttl <? ttl_min then ttl_min else ttl), s)).

  (** [encode_rrs_a] and [encode_rrs_aaaa], src/dnspacket.c:1087-1123. *)
  Definition encode_rrs_a (s : st) (r : rrset) : res st :=
    rassert (s_qtype s =? T_A)
    match r with
    | RsA ttl addrs => do s <- enc_addrs s (s_qc s) T_A ttl addrs; Ok (add_an s (length addrs))
    | RsADyn mx mn res =>
        do (dr, ttl, s) <- do_dyn_callback s res mx mn;
        rassert (match d_cname dr with None => true | Some _ => false end)
        (match d_v4 dr with
         | [] => Ok s
         | a => do s <- enc_addrs s (s_qc s) T_A ttl a; Ok (add_an s (length a))
         end)
    | _ => UB
    end.
  Definition encode_rrs_aaaa (s : st) (r : rrset) : res st :=
    rassert (s_qtype s =? T_AAAA)
    match r with
    | RsAAAA ttl addrs => do s <- enc_addrs s (s_qc s) T_AAAA ttl addrs; Ok (add_an s (length addrs))
    | RsAAAADyn mx mn res =>
        do (dr, ttl, s) <- do_dyn_callback s res mx mn;
        rassert (match d_cname dr with None => true | Some _ => false end)
        (match d_v6 dr with
         | [] => Ok s
         | a => do s <- enc_addrs s (s_qc s) T_AAAA ttl a; Ok (add_an s (length a))
         end)
    | _ => UB
    end.

  (** [encode_rrs_ns], src/dnspacket.c:1125-1170. *)
  Fixpoint enc_glue (s : st) (rd : list (name * option (N * list bytes) * option (N * list bytes))) (at_ : list nat) : res st :=
    match rd, at_ with
    | [], _ => Ok s
    | (_, g4, g6) :: rd, a :: at_ =>
        do s <- match g4 with
                | None => Ok s
                | Some (ttl, addrs) => do s <- enc_addrs s a T_A ttl addrs; Ok (add_ar s (length addrs))
                end;
        do s <- match g6 with
                | None => Ok s
                | Some (ttl, addrs) => do s <- enc_addrs s a T_AAAA ttl addrs; Ok (add_ar s (length addrs))
                end;
        enc_glue s rd at_
    | _, [] => UB
    end.
  Definition encode_rrs_ns (s : st) (ttl : N) (rd : list (name * option (N * list bytes) * option (N * list bytes))) : res st :=
    rassert (negb (Nat.eqb (length rd) 0)) (rassert (Nat.leb (length rd) 64)
    (do (out, cts, at_) <- enc_rrs (s_out s) (s_cts s) (s_ac s) T_NS ttl (map (fun x => [WComp true (fst (fst x))]) rd);
     enc_glue (add_an (set_out s out cts) (length rd)) rd at_)).

  (** The remaining encoders, src/dnspacket.c:1172-1410. *)
  Definition encode_rr_cname_common (s : st) (ttl : N) (target : name) (chain : bool) : res st :=
    do (out, cts, a) <- enc_rr (s_out s) (s_cts s) (s_qc s) T_CNAME ttl [WComp false target];
    let s := set_out s out cts in
    Ok (if chain then set_counts (set_comp s a (s_ac s)) (s_an s) (s_cn s + 1) (s_ns s) (s_ar s) else add_an s 1).
  Definition encode_rr_soa (s : st) (ttl : N) (mname rname : name) (times : bytes) : res st :=
    do s <- enc_set s (s_ac s) T_SOA ttl [[WComp true mname; WComp false rname; WBytes times]];
    Ok (add_an s 1).

  (** The encoder table and its call, src/dnspacket.c:1432-1582.  A query type of
      256 or more always gets the generic encoder. *)
  Definition encode_rrset (s : st) (r : rrset) : res st :=
    match r with
    | RsA _ _ | RsADyn _ _ _ => encode_rrs_a s r
    | RsAAAA _ _ | RsAAAADyn _ _ _ => encode_rrs_aaaa s r
    | RsNS ttl rd => encode_rrs_ns s ttl rd
    | RsPTR ttl rd =>
        do s <- enc_set s (s_qc s) T_PTR ttl (map (fun n => [WFull n]) rd); Ok (add_an s (length rd))
    | RsMX ttl rd =>
        do s <- enc_set s (s_qc s) T_MX ttl (map (fun x => [WBytes (be16 (fst x)); WComp true (snd x)]) rd); Ok (add_an s (length rd))
    | RsSRV ttl rd =>
        do s <- enc_set s (s_qc s) T_SRV ttl
                  (map (fun x => let '(p, w, port, n) := x in [WBytes (be16 p ++ be16 w ++ be16 port); WFull n]) rd);
        Ok (add_an s (length rd))
    | RsNAPTR ttl rd =>
        do s <- enc_set s (s_qc s) T_NAPTR ttl
                  (map (fun x => let '(o, p, txt, n) := x in [WBytes (be16 o ++ be16 p ++ txt); WFull n]) rd);
        Ok (add_an s (length rd))
    | RsTXT ttl rd =>
        do s <- enc_set s (s_qc s) T_TXT ttl (map (fun t => [WBytes t]) rd); Ok (add_an s (length rd))
    | RsCNAME ttl target => encode_rr_cname_common s ttl target false
    | RsSOA ttl m r t => encode_rr_soa s ttl m r t
    | RsDYNC _ _ _ => UB
    | RsOther ty ttl rd =>
        do s <- enc_set s (s_qc s) ty ttl (map (fun t => [WBytes t]) rd); Ok (add_an s (length rd))
    end.
  Fixpoint construct_normal_response (s : st) (rs : list rrset) : res st :=
    match rs with
    | [] => Ok s
    | r :: rs => if rrset_type r =? s_qtype s then encode_rrset s r else construct_normal_response s rs
    end.

  (** ** Search, [search_ltree_for_dname], src/dnspacket.c:1617-1683.  The label
      stack is the reversed label list; the result is the status, the node, the
      authority node and how many labels of the name precede the zone or
      delegation. *)
  Inductive status := NOAUTH | AUTH | DELEG.
  Definition label_wild : list N := [42].
  Fixpoint search (current : node) (stack : list (list N)) (auth : option (node * nat)) : status * option node * option node * nat :=
    let lcount := length stack in
    match n_zcut current, auth with
    | true, Some (a, _) => (DELEG, Some current, Some a, lcount)
    | z, _ =>
        let auth := if z then Some (current, lcount) else auth in
        match stack with
        | [] => match auth with
                | Some (a, d) => (AUTH, Some current, Some a, d)
                | None => (NOAUTH, Some current, None, O)
                end
        | l :: rest =>
            match find_child current l with
            | Some next => search next rest auth
            | None => match auth with
                      | Some (a, d) => (AUTH, find_child current label_wild, Some a, d)
                      | None => (NOAUTH, None, None, O)
                      end
            end
        end
    end.
  (** auth_depth, src/dnspacket.c:1667-1673 *)
  Definition auth_depth (q : name) (lc : nat) : nat := list_sum (map (fun l => S (length l)) (firstn lc q)).

  (** [process_dync], src/dnspacket.c:1689-1723. *)
  Definition process_dync (s : st) (resource ttl_max ttl_min : N) : res (st * option rrset) :=
    do (dr, ttl, s) <- do_dyn_callback s resource ttl_max ttl_min;
    Ok (s, match d_cname dr with
           | Some n => Some (RsCNAME ttl n)
           | None =>
               if (s_qtype s =? T_A) && negb (Nat.eqb (length (d_v4 dr)) 0) then Some (RsA ttl (d_v4 dr))
               else if (s_qtype s =? T_AAAA) && negb (Nat.eqb (length (d_v6 dr)) 0) then Some (RsAAAA ttl (d_v6 dr))
               else None
           end).

  (** [chal_respond], src/chal.c:466-511.  [acme_label] is _acme-challenge;
      [dname_is_acme_chal], src/chal.h:82-87. *)
  Definition acme_label : list N := [95; 97; 99; 109; 101; 45; 99; 104; 97; 108; 108; 101; 110; 103; 101].
  Definition is_acme (q : name) : bool := match q with l :: _ => bytes_eqb l acme_label | [] => false end.
  Fixpoint chal_emit (s : st) (cs : list (N * bytes)) : res st :=
    match cs with
    | [] => Ok s
    | c :: cs =>
        if max_response <? N.of_nat (length (s_out s)) + 2 + 54 then Ok s
        else
          do out <- emit (s_out s) (be16 (N.lor 49152 (N.of_nat (s_qc s))));
          do out <- emit out (mk_chal_rr c);
          chal_emit (add_an (set_out s out (s_cts s)) 1) cs
    end.
  Definition chal_respond (s : st) (q : name) : res (st * bool) :=
    let acme := is_acme q in
    match chals (if acme then tl q else q) with
    | [] => Ok (s, false)
    | cs => if acme && (s_qtype s =? T_TXT) then do s <- chal_emit s cs; Ok (s, true) else Ok (s, true)
    end.

  (** ltree_node_get_rrset_soa / _ns, src/dnspacket.c:1413-1428. *)
  Fixpoint get_soa (rs : list rrset) : res (N * name * name * bytes) :=
    match rs with [] => UB | RsSOA ttl m r t :: _ => Ok (ttl, m, r, t) | _ :: rs => get_soa rs end.
  Fixpoint get_ns (rs : list rrset) : res (N * list (name * option (N * list bytes) * option (N * list bytes))) :=
    match rs with [] => UB | RsNS ttl rd :: _ => Ok (ttl, rd) | _ :: rs => get_ns rs end.

  Definition hinfo_for_any : bytes := [0; 13; 0; 1; 0; 0; 14; 16; 0; 9; 7; 82; 70; 67; 56; 52; 56; 50; 0].

  (** [do_final_auth_response], src/dnspacket.c:1746-1796. *)
  Definition do_final_auth_response (s : st) (q : name) (dom : option node) (auth : node) (rs : list rrset) : res st :=
    let s := set_flags s true (s_rcode s) in
    do s <- match rs with
            | [] => Ok s
            | r :: _ =>
                let s := if (s_qtype s =? T_ANY) && (rrset_type r =? T_CNAME) then set_qtype s T_CNAME else s in
                if s_qtype s =? T_ANY then Ok s else construct_normal_response s rs
            end;
    do (s, chal_matched) <-
      (if (s_qtype s =? T_TXT) || (s_an s =? 0) then chal_respond s q else Ok (s, false));
    let found := match dom with Some _ => true | None => false end in
    do s <- (if s_qtype s =? T_ANY then
               rassert (s_an s =? 0)
               (if found || chal_matched then
                  do out <- repeat_name (s_out s) (s_qc s);
                  do out <- emit out hinfo_for_any;
                  Ok (set_counts (set_out s out (s_cts s)) 1 (s_cn s) (s_ns s) (s_ar s))
                else Ok s)
             else Ok s);
    if s_an s =? 0 then
      do (ttl, m, r, t) <- get_soa (n_rrsets auth);
      do s <- encode_rr_soa s ttl m r t;
      rassert ((s_an s =? 1) && (s_ns s =? 0))
      (let s := set_counts s 0 (s_cn s) 1 (s_ar s) in
       Ok (if negb found && negb chal_matched then set_flags s (s_aa s) 3 else s))
    else Ok s.

  (** [dname_is_in_wire_zone], src/dnspacket.c:1728-1743, on the packet from
      the zone name on; the copy goes to a 256-byte buffer. *)
  Fixpoint wire_zone_len (fuel : nat) (pkt : bytes) (pos len : nat) : res nat :=
    match fuel with
    | O => UB
    | S fuel =>
        do llen <- rd pkt (pos + len);
        if llen =? 0 then Ok (S len) else wire_zone_len fuel pkt pos (len + S (N.to_nat llen))
    end.
  Definition is_in_wire_zone (pkt : bytes) (pos : nat) (check : name) : res bool :=
    do oal <- wire_zone_len 256 pkt pos 0;
    rassert (Nat.ltb oal 256)
    (do z <- rdn pkt pos oal;
     dname_isinzone (N.of_nat oal :: z) (N.of_nat (length (wire check)) :: wire check)).

  (** [do_auth_response] and [db_lookup], src/dnspacket.c:1802-1873, which
      call each other for an in-zone CNAME; [fuel] bounds that recursion. *)
  Fixpoint db_lookup (fuel : nat) (s : st) (q : name) (via_cname : bool) : res st :=
    match fuel with
    | O => UB
    | S fuel =>
        let '(status, dom, auth, lc) := search root (rev q) None in
        match status, auth with
        | NOAUTH, _ => rassert (negb via_cname) (Ok (set_flags s (s_aa s) 5))
        | _, None => UB
        | _, Some a =>
            let depth := auth_depth q lc in
            do ac <- (if via_cname then chase_auth_ptr (S (depth * S (length (s_out s)) + s_qc s)) (s_out s) (s_qc s) depth
                      else Ok (s_qc s + depth)%nat);
            let s := set_comp s (s_qc s) ac in
            match status with
            | DELEG =>
                match dom with
                | None => UB
                | Some d =>
                    do (ttl, rd) <- get_ns (n_rrsets d);
                    do s <- encode_rrs_ns s ttl rd;
                    Ok (set_counts s 0 (s_cn s) (s_an s) (s_ar s))
                end
            | _ =>
                match match dom with Some d => n_rrsets d | None => [] end with
                | RsDYNC mx mn res :: more =>
                    rassert (match more with [] => true | _ => false end)
                    (do (s, r) <- process_dync s res mx mn;
                     let s := match r with Some (RsCNAME _ _) => set_qtype s T_CNAME | _ => s end in
                     do_final_auth_response s q dom a (match r with Some r => [r] | None => [] end))
                | RsCNAME ttl target :: more =>
                    if negb (s_qtype s =? T_CNAME) && negb (s_qtype s =? T_ANY) then
                      rassert (match more with [] => true | _ => false end)
                      (do inzone <- (if no_chain then Ok false else is_in_wire_zone (s_out s) (s_ac s) target);
                       if inzone : bool then
                         do s <- encode_rr_cname_common (set_flags s true (s_rcode s)) ttl target true;
                         db_lookup fuel s target true
                       else do_final_auth_response (set_qtype s T_CNAME) q dom a (RsCNAME ttl target :: more))
                    else do_final_auth_response s q dom a (RsCNAME ttl target :: more)
                | rs => do_final_auth_response s q dom a rs
                end
            end
        end
    end.
End Resp.
