(** What a zone's records say, what the tree must hold for them, and which
    zones are acceptable.  Uses the data types of LtreeModel.v (records,
    configuration, plugins) but none of its functions. *)
From Verif Require Import Base DnameSpec PktModel CompModel RespModel RespSpec LtreeModel.
Local Open Scope N_scope.

(** ** Records *)
(** the name of a record, relative to the zone; addresses of names outside the
    zone have none *)
Definition owner (r : record) : option name :=
  match r with
  | AA d _ _ ooz | AAaaa d _ _ ooz => if ooz then None else Some d
  | ASoa d _ _ _ _ _ _ _ _ | ADyna d _ _ _ | ACname d _ _ | ADync d _ _ _ | APtr d _ _ | ANs d _ _ | AMx d _ _ _
  | ASrv d _ _ _ _ _ | ANaptr d _ _ _ _ _ | ATxt d _ _ | AOther d _ _ _ => Some d
  end.
Definition rtypes (r : record) : list N :=
  match r with
  | ASoa _ _ _ _ _ _ _ _ _ => [6] | AA _ _ _ _ => [1] | AAaaa _ _ _ _ => [28] | ADyna _ _ _ _ => [1; 28]
  | ACname _ _ _ => [5] | ADync _ _ _ _ => [65295] | APtr _ _ _ => [12] | ANs _ _ _ => [2] | AMx _ _ _ _ => [15]
  | ASrv _ _ _ _ _ _ => [33] | ANaptr _ _ _ _ _ _ => [35] | ATxt _ _ _ => [16] | AOther _ t _ _ => [t]
  end.
Definition name_dec (a b : name) : {a = b} + {a <> b} := list_eq_dec (list_eq_dec N.eq_dec) a b.
Definition has_owner (d : name) (r : record) : bool := match owner r with Some o => if name_dec o d then true else false | None => false end.
Definition of_type (t : N) (r : record) : bool := existsb (N.eqb t) (rtypes r).
(** the records of name [d] and type [t], in order *)
Definition recs_at (d : name) (rs : list record) : list record := filter (has_owner d) rs.
Definition recs_of (t : N) (rs : list record) : list record := filter (of_type t) rs.

(** what the parser gives *)
Definition rec_fine (zname : name) (r : record) : Prop :=
  match owner r with Some d => legal_name (d ++ zname) | None => True end /\
  match r with
  | ASoa d m rn _ _ _ _ _ _ => d = [] /\ legal_name m /\ legal_name rn
  | AA d a _ ooz => length a = 4%nat /\ (ooz = true -> legal_name d)
  | AAaaa d a _ ooz => length a = 16%nat /\ (ooz = true -> legal_name d)
  | ACname _ n _ | APtr _ n _ | ANs _ n _ | AMx _ n _ _ | ASrv _ n _ _ _ _ => legal_name n
  | ANaptr _ n _ _ _ text => legal_name n /\ N.of_nat (length text) < 65536
  | AOther _ t _ rd => t < 65536 /\ N.of_nat (length rd) < 65536
  | ADyna _ _ _ _ | ADync _ _ _ _ | ATxt _ _ _ => True
  end.
Definition cfg_fine (cfg : zcfg) : Prop := z_min_ttl cfg <= z_max_ttl cfg /\ z_min_ttl cfg <= z_max_ncache_ttl cfg.

(** ** The sets a list of records of one name and type makes *)
Section Sets.
  Variable cfg : zcfg.
  Variable pl : plugins.
  Variable zname : name.

  Definition limit (lo hi x : N) : N := N.min hi (N.max lo x).
  Definition rec_ttl (r : record) : N :=
    let std := limit (z_min_ttl cfg) (z_max_ttl cfg) in
    match r with
    | ASoa _ _ _ ttl _ _ _ _ nc => limit (z_min_ttl cfg) (limit (z_min_ttl cfg) (z_max_ncache_ttl cfg) nc) ttl
    | ATxt (l :: _) _ ttl => if bytes_eqb l acme then z_acme_ttl cfg else std ttl
    | AA _ _ ttl _ | AAaaa _ _ ttl _ | ADyna _ _ ttl _ | ACname _ _ ttl | ADync _ _ ttl _ | APtr _ _ ttl | ANs _ _ ttl | AMx _ _ ttl _
    | ASrv _ _ ttl _ _ _ | ANaptr _ _ ttl _ _ _ | ATxt _ _ ttl | AOther _ _ ttl _ => std ttl
    end.

  (** plugin!resource, or just a plugin *)
  Definition resource_is (rhs : bytes) (origin : option name) (id : N) : Prop :=
    exists p q map_res, ~ In 33 p /\ rhs = p ++ match q with None => [] | Some s => 33 :: s end /\
      pl_find pl p = Some (true, map_res) /\
      match map_res with
      | None => id = pl_id pl p 0
      | Some m => (0 <= m q origin)%Z /\ id = pl_id pl p (Z.to_N (m q origin))
      end.

  Definition a_of (r : record) : option bytes := match r with AA _ a _ _ => Some a | _ => None end.
  Definition aaaa_of (r : record) : option bytes := match r with AAaaa _ a _ _ => Some a | _ => None end.
  Definition ptr_of (r : record) : option name := match r with APtr _ n _ => Some n | _ => None end.
  Definition ns_of (r : record) : option name := match r with ANs _ n _ => Some n | _ => None end.
  Definition mx_of (r : record) : option (N * name) := match r with AMx _ n _ p => Some (p, n) | _ => None end.
  Definition srv_of (r : record) : option (N * N * N * name) := match r with ASrv _ n _ p w po => Some (p, w, po, n) | _ => None end.
  Definition naptr_of (r : record) : option (N * N * bytes * name) := match r with ANaptr _ n _ o p t => Some (o, p, t, n) | _ => None end.
  Definition txt_of (r : record) : option bytes := match r with ATxt _ t _ => Some t | _ => None end.
  Definition other_of (r : record) : option (N * bytes) := match r with AOther _ ty _ rd => Some (ty, rd) | _ => None end.

  (** the TTL is the first record's; name servers come with glue that is
      described below *)
  Inductive set_is : list record -> rrset -> Prop :=
  | si_a r l x : map a_of (r :: l) = map Some x -> set_is (r :: l) (RsA (rec_ttl r) x)
  | si_aaaa r l x : map aaaa_of (r :: l) = map Some x -> set_is (r :: l) (RsAAAA (rec_ttl r) x)
  | si_adyn d rhs ttl mn id : resource_is rhs None id ->
      set_is [ADyna d rhs ttl mn] (RsADyn (rec_ttl (ADyna d rhs ttl mn)) (N.min (rec_ttl (ADyna d rhs ttl mn)) (N.max (z_min_ttl cfg) mn)) id)
  | si_aaaadyn d rhs ttl mn id : resource_is rhs None id ->
      set_is [ADyna d rhs ttl mn] (RsAAAADyn (rec_ttl (ADyna d rhs ttl mn)) (N.min (rec_ttl (ADyna d rhs ttl mn)) (N.max (z_min_ttl cfg) mn)) id)
  | si_cname d n ttl : set_is [ACname d n ttl] (RsCNAME (rec_ttl (ACname d n ttl)) n)
  | si_dync d rhs ttl mn id : resource_is rhs (Some zname) id ->
      set_is [ADync d rhs ttl mn] (RsDYNC (rec_ttl (ADync d rhs ttl mn)) (N.min (rec_ttl (ADync d rhs ttl mn)) (N.max (z_min_ttl cfg) mn)) id)
  | si_soa d m rn ttl a b c e nc :
      set_is [ASoa d m rn ttl a b c e nc] (RsSOA (rec_ttl (ASoa d m rn ttl a b c e nc)) m rn
        (be32 a ++ be32 b ++ be32 c ++ be32 e ++ be32 (limit (z_min_ttl cfg) (z_max_ncache_ttl cfg) nc)))
  | si_ptr r l x : map ptr_of (r :: l) = map Some x -> set_is (r :: l) (RsPTR (rec_ttl r) x)
  | si_ns r l x : map ns_of (r :: l) = map (fun y => Some (fst (fst y))) x -> set_is (r :: l) (RsNS (rec_ttl r) x)
  | si_mx r l x : map mx_of (r :: l) = map Some x -> set_is (r :: l) (RsMX (rec_ttl r) x)
  | si_srv r l x : map srv_of (r :: l) = map Some x -> set_is (r :: l) (RsSRV (rec_ttl r) x)
  | si_naptr r l x : map naptr_of (r :: l) = map Some x -> set_is (r :: l) (RsNAPTR (rec_ttl r) x)
  | si_txt r l x : map txt_of (r :: l) = map Some x -> set_is (r :: l) (RsTXT (rec_ttl r) x)
  | si_other ty r l x : map other_of (r :: l) = map (fun y => Some (ty, y)) x -> set_is (r :: l) (RsOther ty (rec_ttl r) x).

  (** [sets] is what the records [l], all of one name, make: for every type
      with a record one set, no others *)
  Definition sets_are (l : list record) (sets : list rrset) : Prop :=
    NoDup (map rrset_type sets) /\
    (forall s, In s sets -> set_is (recs_of (rrset_type s) l) s) /\
    (forall r t, In r l -> In t (rtypes r) -> exists s, In s sets /\ rrset_type s = t).

  (** what every record must meet *)
  Definition rec_allowed (r : record) : Prop :=
    match r with
    | ADyna _ rhs _ _ => exists id, resource_is rhs None id
    | ADync _ rhs _ _ => exists id, resource_is rhs (Some zname) id
    | ANs d _ _ => hd_error d <> Some [42]
    | AMx _ _ _ p => p < 65536
    | ASrv _ _ _ a b c => a < 65536 /\ b < 65536 /\ c < 65536
    | ANaptr _ _ _ a b _ => a < 65536 /\ b < 65536
    | AOther _ t _ _ => ~ In t [0; 1; 2; 5; 6; 12; 13; 15; 16; 28; 33; 35; 65295] /\ ~ (127 < t < 256)
    | _ => True
    end.
  (** and, if zones_strict_data is set *)
  Definition rec_strict (r : record) : Prop :=
    match r with
    | ASoa _ _ _ ttl _ _ _ _ nc => z_min_ttl cfg <= ttl <= nc /\ nc <= z_max_ncache_ttl cfg
    | AA _ _ _ ooz | AAaaa _ _ _ ooz => ooz = false
    | ADyna _ _ _ mn | ADync _ _ _ mn => z_min_ttl cfg <= mn <= rec_ttl r
    | APtr _ n _ => ~ exists p, n = p ++ zname
    | ATxt (l :: _) _ ttl => l = acme -> ttl = z_acme_ttl cfg
    | _ => True
    end.
End Sets.

(** ** Zones *)
Section Zone.
  Variable cfg : zcfg.
  Variable pl : plugins.
  Variable zname : name.

  (** a delegation starts at [d] *)
  Definition cut (rs : list record) (d : name) : Prop := d <> [] /\ exists n ttl, In (ANs d n ttl) rs.
  Definition in_deleg (rs : list record) (d : name) : Prop := exists p c, d = p ++ c /\ cut rs c.

  Record zone_rules (rs : list record) : Prop := {
    zr_allowed : Forall (rec_allowed pl zname) rs;
    zr_strict : z_strict cfg = true -> Forall (rec_strict cfg zname) rs;
    (* one SOA, at least one NS at the start of the zone *)
    zr_soa : exists r, recs_of 6 rs = [r];
    zr_ns : recs_of 2 (recs_at [] rs) <> [];
    zr_ns_max : forall d, (length (recs_of 2 (recs_at d rs)) <= 64)%nat;
    (* a CNAME or DYNC is the only record of its name *)
    zr_alias : forall d r, In r (recs_at d rs) -> In 5 (rtypes r) \/ In 65295 (rtypes r) -> recs_at d rs = [r];
    (* a DYNA is the only address of its name *)
    zr_dyna : forall d rhs ttl mn, In (ADyna d rhs ttl mn) rs ->
      recs_of 1 (recs_at d rs) = [ADyna d rhs ttl mn] /\ recs_of 28 (recs_at d rs) = [ADyna d rhs ttl mn];
    (* at and below a delegation: addresses only, and NS where it starts; no wildcard below *)
    zr_deleg : forall r p c, In r rs -> owner r = Some (p ++ c) -> cut rs c ->
      ~ In [42] p /\ forall t, In t (rtypes r) -> t = 1 \/ t = 28 \/ (t = 2 /\ p = []);
    (* a name server inside a delegation has a static address *)
    zr_glue : forall d n ttl rel, In (ANs d n ttl) rs -> n = rel ++ zname -> in_deleg rs rel ->
      (exists r, In r rs /\ owner r = Some rel /\ (a_of r <> None \/ aaaa_of r <> None)) /\
      (forall rhs t mn, ~ In (ADyna rel rhs t mn) rs) }.

  (** the address sets that come with a name server: those of the name if it is
      in a delegation, or those given for a name outside the zone *)
  Definition ooz_of (n : name) (r : record) : bool :=
    match r with AA d _ _ true | AAaaa d _ _ true => if name_dec d n then true else false | _ => false end.
  Definition glue_recs (rs : list record) (n : name) (l : list record) : Prop :=
    (forall rel, n = rel ++ zname -> (in_deleg rs rel -> l = recs_at rel rs) /\ (~ in_deleg rs rel -> l = [])) /\
    ((forall rel, n <> rel ++ zname) -> l = filter (ooz_of n) rs).
  Definition addrs_are (get : record -> option bytes) (l : list record) (g : option (N * list bytes)) : Prop :=
    match g with
    | None => l = []
    | Some (ttl, x) => exists r l', l = r :: l' /\ ttl = rec_ttl cfg r /\ map get l = map Some x
    end.
  Definition glue_is (rs : list record) (n : name) (g4 g6 : option (N * list bytes)) : Prop :=
    exists l, glue_recs rs n l /\ addrs_are a_of (recs_of 1 l) g4 /\ addrs_are aaaa_of (recs_of 28 l) g6.

  (** what the zone's records put at the name [d] of the zone *)
  Definition name_exists (rs : list record) (d : name) : Prop := d = [] \/ exists r p, In r rs /\ owner r = Some (p ++ d).
  Definition name_holds (rs : list record) (d : name) (zcut : bool) (sets : list rrset) : Prop :=
    sets_are cfg pl zname (recs_at d rs) sets /\
    (zcut = true <-> d = [] \/ cut rs d) /\
    forall ttl rd n g4 g6, In (RsNS ttl rd) sets -> In (n, g4, g6) rd -> glue_is rs n g4 g6.
End Zone.

(** ** The tree of all zones, without its tables: the children in any order *)
Fixpoint view (n : lnode) : node :=
  match n with
  | LNode caf _ table rrsets =>
      Node (N.testbit caf 63) rrsets
        match table with
        | None => []
        | Some tbl =>
            (fix go (tbl : list (option (N * lnode))) : list (list N * node) :=
               match tbl with
               | [] => []
               | None :: tbl => go tbl
               | Some (_, c) :: tbl => (match l_label c with Some l => l | None => [] end, view c) :: go tbl
               end) tbl
        end
  end.
Definition empty_tree : lnode := LNode 0 None None [].

(** zones as read: legal names, records as the parser gives them, not more than
    there can be in memory *)
Definition zones_fine (zs : list (name * list record)) : Prop :=
  Forall (fun x => legal_name (fst x) /\ Forall (rec_fine (fst x)) (snd x)) zs /\
  N.of_nat (length zs + length (concat (map snd zs))) < 2 ^ 62.

(** [k] aliases, each pointing to the next one's name in the same zone, starting
    with the one that answers for [q] *)
Inductive alias_chain (root : node) : name -> nat -> Prop :=
| al_end q : alias_chain root q 0
| al_step q z zn n ttl p k : in_zone root q z zn (Some n) -> n_rrsets n = [RsCNAME ttl (p ++ z)] -> alias_chain root (p ++ z) k -> alias_chain root q (S k).

(** ** Settings of the whole server *)
(** what the loader knows about the settings of the packet code *)
Definition same_server (zc : zcfg) (c : pcfg) : Prop :=
  z_ecs zc = c_ecs c /\ z_cookies zc = negb (c_disable_cookies c) /\ z_nsid_len zc = N.of_nat (length (c_nsid c)).
(** no plugin gives more addresses than the plugins said they would
    (gdnsd_dyn_addr_max refuses more than 360 of a kind) *)
Definition dyn_within (zc : zcfg) (dyn : N -> dynres) : Prop :=
  forall x, 16 * N.of_nat (length (d_v4 (dyn x))) + 28 * N.of_nat (length (d_v6 (dyn x))) <= z_dyna_max zc /\
    (length (d_v4 (dyn x)) <= 360)%nat /\ (length (d_v6 (dyn x)) <= 360)%nat.
