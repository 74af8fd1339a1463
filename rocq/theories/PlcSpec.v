(** What the stanzas service_types and plugins mean *)
From Coq Require Import String ZArith.
From Verif Require Import Base DnameModel DnameSpec CompModel RespModel MonModel VscfModel VscfSpec OptModel VhashModel VhashSpec PlugModel MsgModel LtreeModel PconfModel PconfSpec McfModel McfSpec PlcModel.
Local Open Scope N_scope.
Local Open Scope list_scope.
Local Notation length := List.length.

(** ** Service types: name and plugin, which monitors *)
Definition type_says (e : bytes * vnode) : option (bytes * plugin) :=
  let n := c_str (fst e) in
  let? _ <- need (negb (among [txt "up"; txt "down"] n)) ;
  match snd e with
  | VH h =>
      match get k_plugin h with
      | Some (VS _ v) => let? p <- find_plugin (c_str v) ; let? _ <- need (match pl_mon p with Some _ => true | None => false end) ; Some (n, p)
      | _ => None
      end
  | _ => None
  end.
Definition types_say (o : option vnode) : option (list (bytes * plugin)) :=
  match o with None => Some [] | Some (VH h) => all type_says h | Some _ => None end.

(** ** What is wanted of a plugin *)
Inductive piece_want :=
| WMulti (ws : list (bytes * (option m_want * option m_want)))
| WSimple (ws : list (bytes * (option s_want * option s_want)))
| WWeighted (ws : list (bytes * what_want))
| WStatic (ws : list (bytes * st_what))
| WExtmon (path : option bytes) (die : bool)
| WRoom (n : N).
Record said := { sd_geoip : option (list mc_want); sd_metafo : option (list mc_want); sd_confs : confs; sd_rest : list (bytes * option piece_want) }.

(** The plugins' configurations in the file *)
Definition stanza (P : hash) : confs := fun p => match get p P with Some (VH h) => Some h | _ => None end.
Definition known (p : bytes) : bool := match find_plugin p with Some _ => true | None => false end.
(** All but metafo and geoip, which come first *)
Definition rest_names : list bytes := map txt ["http_status"; "multifo"; "null"; "reflect"; "simplefo"; "static"; "tcp_connect"; "weighted"; "extfile"; "extmon"]%string.

Section Meaning.
  Variable gai : bytes -> option addr.
  Variable strtod : bytes -> option dbl.
  Variable service : bytes -> option (bool * bool).
  Variable fq_name : bytes -> option name.
  Variable gdmaps : tab -> option (list (bytes * list bytes)).

  (** A name that is an address, or a domain name that is complete *)
  Definition static_says (h : hash) : option (list (bytes * st_what)) :=
    all (fun e => match snd e with
                  | VS r v => let? w <- match gai (c_str v) with Some a => Some (StAddr a) | None => let? d <- fq_name r ; Some (StName d) end ; Some (c_str (fst e), w)
                  | _ => None
                  end) h.
  Definition extmon_says (h : hash) : option (option bytes * bool) :=
    let? path <- match get (txt "helper_path") h with None => Some None | Some (VS _ v) => Some (Some (c_str v)) | Some _ => None end ;
    let? die <- match get (txt "helper_failure_action") h with
                | None => Some false
                | Some (VS _ v) => if bytes_eqb (c_str v) (txt "stasis") then Some false else if bytes_eqb (c_str v) (txt "kill_daemon") then Some true else None
                | Some _ => None
                end ;
    let? _ <- need (only_b [txt "helper_path"; txt "helper_failure_action"] h) ;
    Some (path, die).
  (** Of a plugin with this configuration, or without one but used for a service type *)
  Definition piece_says (types : list (bytes * plugin)) (T : confs) (p : bytes) : option (option piece_want) :=
    let is (s : bytes) := bytes_eqb p s in
    let o {A} (x : option A) (f : A -> piece_want) := let? a <- x ; Some (Some (f a)) in
    match T p with
    | Some h =>
        if is (txt "multifo") then o (multifo_says gai strtod service h) WMulti
        else if is (txt "simplefo") then o (simplefo_says gai service h) WSimple
        else if is (txt "weighted") then o (weighted_says gai strtod service fq_name h) WWeighted
        else if is (txt "static") then o (static_says h) WStatic
        else if is (txt "extmon") then o (extmon_says h) (fun x => WExtmon (fst x) (snd x))
        else if is (txt "null") then Some (Some (WRoom 1))
        else if is (txt "reflect") then Some (Some (WRoom 2))
        else Some None
    | None =>
        if among (map (fun x => pl_name (snd x)) types) p then
          if is (txt "static") then None
          else if is (txt "null") then Some (Some (WRoom 1))
          else if is (txt "extmon") then Some (Some (WExtmon None false))
          else Some None
        else Some None
    end.
  (** geoip, and then metafo, add to the configurations of others *)
  Definition meta_step (k : kind) (T : confs) : option (option (list mc_want) * confs) :=
    match T (pn k) with
    | None => Some (None, T)
    | Some h => let? y <- meta_says gai service fq_name k gdmaps h T ; Some (Some (fst y), snd y)
    end.
  Definition news (k : kind) (o : option (list mc_want)) : list (bytes * bytes * hash) := match o with Some ws => news_of k ws | None => [] end.
  Definition plugins_say (types : list (bytes * plugin)) (P : hash) : option said :=
    let? g <- meta_step Geoip (stanza P) ;
    let? m <- meta_step Metafo (snd g) ;
    let? _ <- need (forallb known (map fst P ++ map (fun x => fst (fst x)) (news Geoip (fst g) ++ news Metafo (fst m)))) ;
    let? ws <- all (fun p => let? w <- piece_says types (snd m) p ; Some (p, w)) rest_names ;
    Some {| sd_geoip := fst g; sd_metafo := fst m; sd_confs := snd m; sd_rest := ws |}.

  (** ** What is made *)
  Definition piece_made (s : state) (w : piece_want) (x : piece) : Prop :=
    match w, x with
    | WMulti ws, PMulti rs => Forall2 (families (m_made s)) ws rs /\ Forall (fun w => roomy s (fun w => length (mw_addrs w)) (snd w)) ws
    | WSimple ws, PSimple rs => Forall2 (families (s_made s)) ws rs /\ (rs <> [] -> 1 <= lim4 s /\ 1 <= lim6 s)
    | WWeighted ws, PWeighted rs => Forall2 (fun w r => fst w = fst r /\ what_made s (snd w) (snd r)) ws rs /\ Forall (fun w => roomy s w_size (sets_of (snd w))) ws
    | WStatic ws, PStatic rs => rs = ws /\ (rs <> [] -> 1 <= lim4 s /\ 1 <= lim6 s)
    | WExtmon p d, PExtmon p' d' => p' = p /\ d' = d
    | WRoom n, PNothing => n <= lim4 s /\ n <= lim6 s
    | _, _ => False
    end.
  (** The states of datacenters are different ones *)
  Definition metas_made (k : kind) (s : state) (h : option hash) (ws : list mc_want) (x : piece) : Prop :=
    exists rs states, x = PMeta rs /\ (exists h' maps, h = Some h' /\ maps_say k gdmaps h' = Some maps /\ states_made s maps states) /\
      Forall2 (mc_made k states s) ws rs /\ NoDup (states_of states ++ flat_map mons_of rs).
  Definition plugins_made (P : hash) (s : state) (d : said) (l : list (bytes * piece)) : Prop :=
    NoDup (map fst l) /\
    maybe (metas_made Geoip s (stanza P (pn Geoip))) (sd_geoip d) (piece_of (pn Geoip) l) /\
    (exists T, maybe (metas_made Metafo s (T (pn Metafo))) (sd_metafo d) (piece_of (pn Metafo) l) /\ grown (stanza P) (news Geoip (sd_geoip d)) T /\ grown T (news Metafo (sd_metafo d)) (sd_confs d)) /\
    (forall p w, In (p, w) (sd_rest d) -> maybe (piece_made s) w (piece_of p l)).

  (** What the program cannot cope with: see McfSpec.v and PconfSpec.v *)
  Record tidy (P : hash) : Prop := {
    td_hashes : forall p x, In (p, x) P -> exists h, x = VH h;
    td_distinct : distinct (VH P); td_bytes : raw_bytes (VH P); td_plain : plain (VH P);
    td_safe : forall k p x, In (p, x) P -> safe k x;
    td_nan : no_nan strtod (VH P); td_labels : labelled (VH P);
    td_resources : forall h x, get t_metafo P = Some (VH h) -> get k_resources h = Some x -> exists rs, x = VH rs;
    td_geoip : forall h, get (pn Geoip) P = Some (VH h) -> all_steady h }.
  (** What is asked of the configurations that geoip leaves for metafo, and that both leave for multifo *)
  Record tidy_later (P : hash) : Prop := {
    tl_metafo : forall g T h, meta_step Geoip (stanza P) = Some (g, T) -> T t_metafo = Some h -> all_steady h;
    tl_multifo : forall g T m T' h, meta_step Geoip (stanza P) = Some (g, T) -> meta_step Metafo T = Some (m, T') -> T' t_multifo = Some h -> sized (VH h) }.
End Meaning.

(** ** Answers of reflect: the source of the query, the address in its client-subnet option, or 0.0.0.0 *)

(** Small letters, or capital ones, whose codes are less by 32 *)
Definition spelled (n w : bytes) : Prop := Forall2 (fun a b => a = b \/ a + 32 = b) n w.
Inductive reflected (source ecs : addr) (mask : N) : option bytes -> list addr -> N -> Prop :=
| rf_dns n : spelled n (txt "dns") -> reflected source ecs mask (Some n) [source] mask
| rf_edns n : spelled n (txt "edns") -> mask <> 0 -> reflected source ecs mask (Some n) [ecs] mask
| rf_no_edns n : spelled n (txt "edns") -> mask = 0 -> reflected source ecs mask (Some n) [A4 [0; 0; 0; 0]] 0
| rf_best o : (o = None \/ exists n, o = Some n /\ spelled n (txt "best")) -> mask <> 0 -> reflected source ecs mask o [ecs] mask
| rf_not_best o : (o = None \/ exists n, o = Some n /\ spelled n (txt "best")) -> mask = 0 -> reflected source ecs mask o [source] 0
| rf_both n : spelled n (txt "both") -> mask <> 0 -> reflected source ecs mask (Some n) [source; ecs] mask
| rf_one n : spelled n (txt "both") -> mask = 0 -> reflected source ecs mask (Some n) [source] 0.
(** The addresses of a family in a result *)
Definition addrs4 (l : list addr) : list bytes := flat_map (fun a => match a with A4 b => [b] | A6 _ => [] end) l.
Definition addrs6 (l : list addr) : list bytes := flat_map (fun a => match a with A6 b => [b] | A4 _ => [] end) l.

(** ** What zones can use of the plugins that refer to no others: the first resource with the name *)
Definition first_named {A} (rs : list (bytes * A)) (n : bytes) (i : nat) (x : A) : Prop :=
  nth_error rs i = Some (c_str n, x) /\ forall j m y, nth_error rs j = Some (m, y) -> (j < i)%nat -> m <> c_str n.
(** A domain name only for records that allow it, outside of the zone *)
Definition outside (in_zone : name -> name -> bool) (zone : option name) (d : name) : Prop := exists z, zone = Some z /\ in_zone z d = false.
Inductive offers (in_zone : name -> name -> bool) (l : list (bytes * piece)) : bytes -> option bytes -> option name -> N -> Prop :=
| of_null rn zone : offers in_zone l (txt "null") rn zone 0
| of_reflect zone : offers in_zone l (txt "reflect") None zone 2
| of_dns n zone : spelled (c_str n) (txt "dns") -> offers in_zone l (txt "reflect") (Some n) zone 0
| of_edns n zone : spelled (c_str n) (txt "edns") -> offers in_zone l (txt "reflect") (Some n) zone 1
| of_best n zone : spelled (c_str n) (txt "best") -> offers in_zone l (txt "reflect") (Some n) zone 2
| of_both n zone : spelled (c_str n) (txt "both") -> offers in_zone l (txt "reflect") (Some n) zone 3
| of_multifo rs n i x zone : piece_of (txt "multifo") l = Some (PMulti rs) -> first_named rs n i x -> offers in_zone l (txt "multifo") (Some n) zone (N.of_nat i)
| of_simplefo rs n i x zone : piece_of (txt "simplefo") l = Some (PSimple rs) -> first_named rs n i x -> offers in_zone l (txt "simplefo") (Some n) zone (N.of_nat i)
| of_weighted rs n i v4 v6 zone : piece_of (txt "weighted") l = Some (PWeighted rs) -> first_named rs n i (WAddrs v4 v6) -> offers in_zone l (txt "weighted") (Some n) zone (N.of_nat i)
| of_names rs n i c z : piece_of (txt "weighted") l = Some (PWeighted rs) -> first_named rs n i (WNames c) -> (forall x, In x (wn_items c) -> in_zone z (wc_name x) = false) ->
    offers in_zone l (txt "weighted") (Some n) (Some z) (N.of_nat i)
| of_address rs n i a zone : piece_of (txt "static") l = Some (PStatic rs) -> first_named rs n i (StAddr a) -> offers in_zone l (txt "static") (Some n) zone (N.of_nat i)
| of_name rs n i d zone : piece_of (txt "static") l = Some (PStatic rs) -> first_named rs n i (StName d) -> outside in_zone zone d -> offers in_zone l (txt "static") (Some n) zone (N.of_nat i).
