(** The stanza maps of the plugin geoip: libgdmaps/gdmaps.c, and how dcinfo.c, dclists.c, dcmap.c and nets.c read the
    configuration.  What they make of it is in LocModel.v (datacenters, lists, places) and NetModel.v (networks).
    Simplifications: getaddrinfo and strtod are given; paths are kept as written (gdnsd_resolve_path_cfg); the numbers of
    administrative states are those of [register] in McfModel.v; the watchers are in MapsModel.v. *)
From Coq Require Import String Ascii ZArith.
From Verif Require Import Base DnameModel CompModel RespModel MonModel VscfModel OptModel VhashModel VhashSpec PlugModel MsgModel LtreeModel PconfModel McfModel.
From Verif Require LocModel NetModel.
Local Open Scope N_scope.
Local Open Scope list_scope.
Local Notation length := List.length.

(** ** Coordinates *)

(** d > k and d < -k for a whole number; a NaN compares with nothing *)
Definition above (k : N) (d : dbl) : bool :=
  match d with
  | NaN => false
  | Inf neg => negb neg
  | Fin neg m e => negb neg && (if (0 <=? e)%Z then k <? m * 2 ^ Z.to_N e else k * 2 ^ Z.to_N (- e) <? m)
  end.
Definition flip (d : dbl) : dbl := match d with NaN => NaN | Inf neg => Inf (negb neg) | Fin neg m e => Fin (negb neg) m e end.
Definition below (k : N) (d : dbl) : bool := above k (flip d).
Definition point : Type := dbl * dbl.
(** dcinfo.c:68-69 *)
Definition bad_point (p : point) : bool := above 90 (fst p) || below 90 (fst p) || above 180 (snd p) || below 180 (snd p).
(** isnan of the latitude in radians, dcinfo.c:53 and dclists.c:209 *)
Definition nan_point (p : point) : bool := match fst p with NaN => true | _ => false end.

Definition k_coords : bytes := txt "auto_dc_coords".
Definition k_limit : bytes := txt "auto_dc_limit".
Definition k_ecs : bytes := txt "ignore_ecs".
Definition k_db : bytes := txt "geoip2_db".
Definition k_nets : bytes := txt "nets".
Definition k_default : bytes := txt "default".

(** ** Steps: [Ok None] is a fatal message *)
Definition gm (A : Type) := res (option A).
Definition gbind {A B} (m : gm A) (f : A -> gm B) : gm B := match m with UB => UB | Ok None => Ok None | Ok (Some a) => f a end.
Local Notation "'let>' x <- a ; b" := (gbind a (fun x => b)) (at level 200, x name, a at level 100, b at level 200, right associativity).
Definition opt {A} (o : option A) : gm A := Ok o.
Definition gcheck (b : bool) : gm unit := Ok (if b then Some tt else None).
Fixpoint gmap_all {A B} (f : A -> gm B) (l : list A) : gm (list B) :=
  match l with
  | [] => Ok (Some [])
  | a :: l' => let> b <- f a ; let> bs <- gmap_all f l' ; Ok (Some (b :: bs))
  end.

(** A name in a list of datacenters.  What is not a string is fatal, like a name that no datacenter has: a name has no null
    byte.  dclists.c:144-152 *)
Definition label (x : tree) : bytes := match x with TS _ v => c_str v | _ => [0] end.
Definition labels (x : tree) : list bytes := map label (items x).

(** ** Maps of places *)

(** The data that [dcmap_new] and [dcmap_new_iter] go through, dcmap.c:62-126, in their order: the default, which is marked, and
    the rest.  No other entry is marked when they start, so the children are as many as the entries. *)
Fixpoint map_data (x : tree) : LocModel.mapcfg :=
  match x with
  | TH t =>
      LocModel.Hash (option_map labels (value k_default t))
        ((fix go (es : list (bytes * bool * tree)) : LocModel.entries :=
            match es with
            | [] => LocModel.ENone
            | (k, m, y) :: es' =>
                if m || bytes_eqb k_default k then go es'
                else match y with
                     | TH _ => LocModel.ESub (c_str k) (map_data y) (go es')
                     | _ => LocModel.EList (c_str k) (labels y) (go es')
                     end
            end) t)
  | _ => LocModel.Hash None LocModel.ENone
  end.

Section Gmap.
  Variable gai_net : bytes -> bytes -> option (addr * N).
  Variable strtod : bytes -> option dbl.
  Variable sort : list NetModel.net -> list NetModel.net.
  Definition info := LocModel.dcinfo point.

  (** ** Datacenters *)

  (** [dcinfo_init], dcinfo.c:99-105: the names *)
  Definition center_names (x : tree) : gm (list bytes) :=
    gmap_all (fun y => match y with TS _ v => Ok (Some (c_str v)) | _ => Ok None end) (items x).
  (** [dcinfo_init_auto], dcinfo.c:30-80: one entry *)
  Definition coord (e : bytes * tree) : gm (bytes * point) :=
    match items (snd e) with
    | [TS _ lat; TS _ lon] =>
        match snd e with
        | TA _ => let> a <- opt (strtod lat) ; let> o <- opt (strtod lon) ; Ok (Some (c_str (fst e), (a, o)))
        | _ => Ok None
        end
    | _ => Ok None
    end.
  Definition coords (x : tree) : gm (list (bytes * point)) :=
    match x with TH t => gmap_all coord (entries false t) | _ => Ok None end.
  (** [dcinfo_init], dcinfo.c:87-128 *)
  Definition read_info (centers : tree) (auto limit : option tree) : gm info :=
    let> names <- center_names centers ;
    let> a <- match auto with None => Ok (Some None) | Some x => let> c <- coords x ; Ok (Some (Some c)) end ;
    let> l <- match limit with
              | None => Ok (Some None)
              | Some (TS _ v) => let> n <- opt (as_ulong v) ; Ok (Some (Some (N.to_nat n)))
              | Some _ => Ok None
              end ;
    opt (LocModel.dcinfo_init bad_point nan_point names a l).

  (** ** Networks *)

  Definition MAXSTR : nat := 86.  (* GDNSD_ANYSIN_MAXSTR, include/gdnsd/net.h:74, with INET6_ADDRSTRLEN 46 *)
  (** strchr(s, '/') *)
  Fixpoint cut_slash (s : bytes) : option (bytes * bytes) :=
    match s with
    | [] => None
    | c :: s' => if c =? 47 then Some ([], s') else match cut_slash s' with Some (a, b) => Some (c :: a, b) | None => None end
    end.
  (** The network of a key, nets.c:74-117; [None] is an error *)
  Definition net_of_key (k : bytes) : option (N -> NetModel.cnet) :=
    if Nat.leb MAXSTR (length k) then None
    else
      match cut_slash (c_str k) with
      | None => None
      | Some (a, m) =>
          match gai_net a m with
          | None => None
          | Some (A4 b, n) => Some (NetModel.CN4 b (N.to_nat n))
          | Some (A6 b, n) => Some (NetModel.CN6 b (N.to_nat n))
          end
      end.
  (** [nets_parse], nets.c:67-126; the outcome [Some None] is an error that is logged *)
  Fixpoint parse_nets (i : info) (es : list (bytes * tree)) (d : LocModel.dclists) (l : NetModel.nlist) : gm (option (NetModel.nlist * LocModel.dclists)) :=
    match es with
    | [] => Ok (Some (Some (l, d)))
    | (k, x) :: es' =>
        match net_of_key k with
        | None => Ok (Some None)
        | Some c =>
            match NetModel.nets_one (c 0) with
            | None => Ok (Some None)
            | Some _ =>
                let> y <- LocModel.find_or_add_cfg i d (labels x) false ;
                match fst y with
                | LocModel.Auto => UB
                | LocModel.Num j =>
                    match NetModel.nets_one (c (N.of_nat j)) with
                    | None => UB
                    | Some n =>
                        match NetModel.nlist_append l (NetModel.n_ip n) (NetModel.n_mask n) (NetModel.n_dc n) with
                        | UB => UB
                        | Ok l => parse_nets i es' (snd y) l
                        end
                    end
                end
            end
        end
    end.
  (** [nets_make_list], nets.c:128-159 *)
  Definition make_nets (i : info) (t : option tab) (d : LocModel.dclists) : gm (option (NetModel.nlist * bool * LocModel.dclists)) :=
    let empty := {| NetModel.l_nets := []; NetModel.l_norm := false |} in
    let> o <- match t with None => Ok (Some (Some (empty, d))) | Some t => parse_nets i (entries false t) d empty end ;
    match o with
    | None => Ok (Some None)
    | Some (l, d) =>
        match rbind (NetModel.append_all l NetModel.undef_nets) (NetModel.nlist_finish sort) with
        | UB => UB
        | Ok (l, w) => Ok (Some (Some (l, w, d)))
        end
    end.

  (** ** A map *)

  Inductive nets_src := NetsHere (l : NetModel.nlist) (w : bool) | NetsFile (path : bytes).
  (** [gdmap_t], gdmaps.c:67-90; [g_lists] is dclists_pend *)
  Record gdmap := { g_name : bytes; g_info : info; g_auto : bool; g_ignore : bool; g_path : option bytes;
                    g_map : option LocModel.dcmap; g_nets : nets_src; g_lists : LocModel.dclists }.
  Definition map_keys : list bytes := [k_centers; k_coords; k_limit; k_ecs; k_db; k_map; k_nets].
  Definition mark_all (ks : list bytes) (t : tab) : tab := fold_left (fun t k => mark k t) ks t.

  (** The key map, gdmaps.c:127-135, with the lists so far *)
  Definition read_places (i : info) (auto : bool) (path : option bytes) (x : option tree) (d : LocModel.dclists) : gm (option LocModel.dcmap * LocModel.dclists) :=
    match x with
    | None => Ok (Some (None, d))
    | Some (TH t) =>
        let> _ <- gcheck (match path with Some _ => true | None => false end) ;
        let> y <- LocModel.dcmap_new i auto (map_data (TH t)) d (LocModel.Num 0) 0 ;
        Ok (Some (Some (fst y), snd y))
    | Some _ => Ok None
    end.
  (** The key nets, gdmaps.c:137-150 *)
  Definition nets_here (i : info) (t : option tab) (d : LocModel.dclists) : gm (nets_src * LocModel.dclists) :=
    let> y <- make_nets i t d ;
    match y with None => Ok None | Some (l, w, d) => Ok (Some (NetsHere l w, d)) end.
  Definition read_nets (i : info) (x : option tree) (d : LocModel.dclists) : gm (nets_src * LocModel.dclists) :=
    match x with
    | None => nets_here i None d
    | Some (TH t) => nets_here i (Some t) d
    | Some (TS _ v) => let> _ <- gcheck (negb (Nat.eqb (length v) 0)) ; Ok (Some (NetsFile (c_str v), d))
    | Some (TA _) => Ok None
    end.
  (** [gdmap_init], gdmaps.c:99-154 *)
  Definition gdmap_init (e : bytes * tree) : gm gdmap :=
    match snd e with
    | TH t =>
        match value k_centers t with
        | None => Ok None
        | Some centers =>
            let auto := match value k_coords t with Some _ => true | None => false end in
            let> i <- read_info centers (value k_coords t) (value k_limit t) ;
            let d := LocModel.dclists_new i in
            let> ign <- match value k_ecs t with
                        | None => Ok (Some false)
                        | Some (TS _ v) => opt (as_bool v)
                        | Some _ => UB  (* gdnsd_assert in vscf_simple_get_as_bool, vscf.rl:1086 *)
                        end ;
            let> path <- match value k_db t with
                         | None => Ok (Some None)
                         | Some (TS _ v) => let> _ <- gcheck (negb (Nat.eqb (length v) 0)) ; Ok (Some (Some (c_str v)))
                         | Some _ => Ok None
                         end ;
            let> m <- read_places i auto path (value k_map t) d ;
            let> n <- read_nets i (value k_nets t) (snd m) ;
            let> _ <- gcheck (match unmarked (mark_all map_keys t) with [] => true | _ => false end) ;
            Ok (Some {| g_name := c_str (fst e); g_info := i; g_auto := auto; g_ignore := ign; g_path := path; g_map := fst m;
                        g_nets := fst n; g_lists := snd n |})
        end
    | _ => Ok None
    end.
  (** [gdmaps_new] with [gdmaps_new_iter], gdmaps.c:484-505 *)
  Definition gdmaps_new (t : tab) : gm (list gdmap) := gmap_all gdmap_init (unmarked t).

  (** What geoip.c asks of the maps: [gdmaps_name2idx], [gdmaps_get_dc_count], [gdmaps_dcname2num], gdmaps.c:507-529; as McfModel.v
      has it *)
  Definition maps_of (t : tab) : option (list (bytes * list bytes)) :=
    match gdmaps_new t with
    | Ok (Some l) => Some (map (fun g => (g_name g, LocModel.i_names (g_info g))) l)
    | _ => None
    end.

  (** ** Loading *)

  (** [gdmap_update_nets], gdmaps.c:219-265, when lists [d] are in use or pending: the file's data, if there are any *)
  Definition update_nets (g : gdmap) (file : option tree) (d : LocModel.dclists) : gm (option (NetModel.nlist * bool * LocModel.dclists)) :=
    match file with
    | Some (TH t) => make_nets (g_info g) (Some t) d
    | Some (TA _) => Ok (Some None)
    | Some (TS _ _) => UB
    | None => Ok (Some None)
    end.
  (** [gdmap_initial_load_all], gdmaps.c:268-284, for a map without a database: the tree, whether something was logged about it,
      and the lists *)
  Definition load_plain (g : gdmap) (file : option tree) : gm (NetModel.ntree * bool * LocModel.dclists) :=
    let> n <- match g_nets g with
              | NetsHere l w => Ok (Some (l, w, g_lists g))
              | NetsFile _ => let> y <- update_nets g file (g_lists g) ; opt y
              end ;
    match NetModel.xlate_tree (fst (fst n)) with
    | UB => UB
    | Ok T => Ok (Some (T, snd (fst n), snd n))
    end.
  (** [gdmap_lookup], gdmaps.c:445-467: a list of numbers of datacenters *)
  Definition lookup (g : gdmap) (T : NetModel.ntree) (d : LocModel.dclists) (cl : NetModel.client) : res (list nat * nat) :=
    do (n, scope) <- NetModel.ntree_lookup T cl (g_ignore g) ;
    match nth_error d (N.to_nat n) with Some l => Ok (l, scope) | None => UB end.
End Gmap.
