(** What the configurations of metafo and geoip mean *)
From Coq Require Import String ZArith.
From Verif Require Import Base DnameModel DnameSpec CompModel RespModel MonModel VscfModel VscfSpec OptModel VhashModel VhashSpec PlugModel MsgModel LtreeModel PconfModel PconfSpec McfModel.
Local Open Scope N_scope.
Local Open Scope list_scope.
Local Notation length := List.length.

(** A hash with what it lacks from another *)
Definition filled (h outer : hash) : hash := h ++ filter (fun e => match get (fst e) h with None => true | Some _ => false end) outer.
(** The configurations of the other plugins *)
Definition confs := bytes -> option hash.
Definition with_conf (p : bytes) (h : hash) (T : confs) : confs := fun q => if bytes_eqb q p then Some h else T q.
Definition conf_of (o : option hash) : hash := match o with Some h => h | None => [] end.
(** The resources in a configuration of metafo *)
Definition resources_of (h : hash) : hash := match get k_resources h with Some (VH rs) => rs | _ => [] end.
(** A value for a key, in the place of the one there is *)
Fixpoint with_key (k : bytes) (v : vnode) (h : hash) : hash :=
  match h with
  | [] => [(k, v)]
  | e :: h' => if bytes_eqb k (fst e) then (k, v) :: h' else e :: with_key k v h'
  end.

(** What a datacenter is: a name; a resource of another plugin; or a new resource of another plugin with these data *)
Inductive dc_want := GoTo (n : name) (svcs : list bytes) | AskFor (plugin : bytes) (res : option bytes) | MakeNew (plugin : bytes) (data : hash).
Record mc_want := { xw_name : bytes; xw_map : option bytes; xw_centers : list bytes; xw_skip : bool; xw_dcs : list (bytes * dc_want) }.

Fixpoint numbered_from (i : N) (l : list vnode) : hash := match l with [] => [] | x :: l' => (decimal i, x) :: numbered_from (i + 1) l' end.
Definition is_simple (x : vnode) : bool := match x with VS _ _ => true | _ => false end.

Section Meaning.
  Variable gai : bytes -> option addr.
  Variable service : bytes -> option (bool * bool).
  Variable fq_name : bytes -> option name.
  Variable k : kind.
  Variable gdmaps : tab -> option (list (bytes * list bytes)).

  Definition child_name (rname dcname : bytes) : bytes := pn k ++ txt "_" ++ rname ++ txt "_" ++ dcname.
  (** The plugin that a hash names *)
  Definition plugin_says (h : hash) : option bytes :=
    match get k_plugin h with None => Some t_multifo | Some (VS _ v) => Some (c_str v) | Some _ => None end.
  (** Data for a new resource: what the resource has for all datacenters is added *)
  Definition new_says (h shared : hash) : option dc_want :=
    let? p <- plugin_says (filled h shared) ;
    let? _ <- need (negb (bytes_eqb p (pn k))) ;
    Some (MakeNew p (others [k_plugin] (filled h shared))).
  (** Addresses become a resource of multifo *)
  Definition list_says (l : list vnode) (shared : hash) : option dc_want :=
    let? _ <- need (forallb is_simple l) ;
    new_says ((k_plugin, VS t_multifo t_multifo) :: numbered_from 1 l) shared.
  (** A resource does not refer to itself *)
  Definition other_res (rname p : bytes) (rn : option bytes) : option unit :=
    need (negb (bytes_eqb p (pn k) && match rn with Some n => bytes_eqb n rname | None => false end)).
  Definition dc_says (rname : bytes) (shared : hash) (x : vnode) : option dc_want :=
    match x with
    | VH h => new_says h shared
    | VA l => list_says l shared
    | VS r v =>
        match c_str v with
        | 37 :: text => let '(p, rn) := split_bang text in let? _ <- other_res rname p rn ; Some (AskFor p rn)
        | 33 :: text => let? p <- plugin_says shared ; let? _ <- other_res rname p (Some text) ; Some (AskFor p (Some text))
        | text =>
            match gai text with
            | Some _ => list_says [x] shared
            | None => let? d <- fq_name r ; let? svcs <- services (get k_types shared) ; let? _ <- watched service svcs (OnName (dname d true)) ; Some (GoTo d svcs)
            end
        end
    end.

  (** A new resource is added to its plugin's configuration, unless there is one of its name *)
  Definition added (child : bytes) (data : hash) (h : hash) : option hash :=
    let? _ <- need (match get child h with None => true | Some _ => false end) ; Some (h ++ [(child, VH data)]).
  Definition add_new (rname dcname : bytes) (w : dc_want) (T : confs) : option confs :=
    match w with
    | MakeNew p data =>
        let h := conf_of (T p) in
        let child := child_name rname dcname in
        if bytes_eqb p t_metafo
        then let? rs <- added child data (resources_of h) ; Some (with_conf p (with_key k_resources (VH rs) h) T)
        else let? h <- added child data h ; Some (with_conf p h T)
    | _ => Some T
    end.
  Fixpoint dcs_say (rname : bytes) (centers : list bytes) (shared : hash) (es : hash) (T : confs) : option (list (bytes * dc_want) * confs) :=
    match es with
    | [] => Some ([], T)
    | e :: es' =>
        let n := c_str (fst e) in
        let? _ <- need (among centers n) ;
        let? w <- dc_says rname shared (snd e) ;
        let? T <- add_new rname n w T ;
        let? y <- dcs_say rname centers shared es' T ;
        Some ((n, w) :: fst y, snd y)
    end.

  Definition text_of_node (x : vnode) : option bytes := match x with VS _ v => Some (c_str v) | _ => None end.
  (** The datacenters: a list, or those of a map *)
  Definition centers_say (maps : list (bytes * list bytes)) (h : hash) : option (option bytes * list bytes) :=
    match k with
    | Metafo =>
        match get k_centers h with
        | None | Some (VH _) => None
        | Some x => let? ns <- all text_of_node (elements x) ; let? _ <- need (match ns with [] => false | _ => true end) ; Some (None, ns)
        end
    | Geoip =>
        let? n <- obind (get k_map h) text_of_node ;
        let? m <- List.find (fun m => bytes_eqb n (fst m)) maps ;
        Some (Some n, snd m)
    end.
  Definition own_keys : list bytes := [k_dcmap; k_skip; map_key k].
  Definition res_says (undef : bool) (maps : list (bytes * list bytes)) (outer : hash) (e : bytes * vnode) (T : confs) : option (mc_want * confs) :=
    match snd e with
    | VH r =>
        let h := filled r outer in
        let? c <- centers_say maps h ;
        let? skip <- boolean (get k_skip h) ;
        let? dm <- match get k_dcmap h with Some (VH dm) => Some dm | _ => None end ;
        let? _ <- need (if undef then negb (Nat.eqb (length dm) 0) else Nat.eqb (length dm) (length (snd c))) ;
        let? y <- dcs_say (c_str (fst e)) (snd c) (others own_keys h) dm T ;
        Some ({| xw_name := c_str (fst e); xw_map := fst c; xw_centers := snd c; xw_skip := skip; xw_dcs := fst y |}, snd y)
    | _ => None
    end.
  Fixpoint ress_say (undef : bool) (maps : list (bytes * list bytes)) (outer : hash) (es : hash) (T : confs) : option (list mc_want * confs) :=
    match es with
    | [] => Some ([], T)
    | e :: es' =>
        let? x <- res_says undef maps outer e T ;
        let? y <- ress_say undef maps outer es' (snd x) ;
        Some (fst x :: fst y, snd y)
    end.
  (** The parameters of the plugin itself are not handed down *)
  Definition top_keys : list bytes := match k with Metafo => [k_resources] | Geoip => [k_resources; k_undef; k_maps] end.
  Definition maps_say (h : hash) : option (list (bytes * list bytes)) :=
    match k with
    | Metafo => Some []
    | Geoip => match get k_maps h with Some (VH (e :: m)) => gdmaps (map (fun e => (fst e, false, fresh (snd e))) (e :: m)) | _ => None end
    end.
  Definition undef_says (h : hash) : option bool := match k with Metafo => Some false | Geoip => boolean (get k_undef h) end.
  Definition meta_says (h : hash) (T : confs) : option (list mc_want * confs) :=
    let? maps <- maps_say h ;
    let? undef <- undef_says h ;
    let? rs <- match get k_resources h with Some (VH rs) => Some rs | _ => None end ;
    let? _ <- need ((N.of_nat (length rs) <=? 16777216) && negb (Nat.eqb (length rs) 0)) ;
    ress_say undef maps (others top_keys h) rs T.

  (** ** What is made *)
  Definition admin (s : state) (i : nat) : Prop := nth_error (mons s) i = Some None.
  Definition dc_made (s : state) (rname n : bytes) (w : dc_want) (d : mc_dc) : Prop :=
    mc_name d = n /\ admin s (mc_mon d) /\
    match w, mc_what d with
    | GoTo c svcs, McName c' idx => c' = c /\ Forall2 (monitors s (OnName (dname c true))) svcs idx
    | AskFor p rn, McSub p' rn' => p' = p /\ rn' = rn
    | MakeNew p _, McSub p' rn' => p' = p /\ rn' = Some (child_name rname n)
    | _, _ => False
    end.
  (** The state of a datacenter in all of geoip: [states] has one for each in each map *)
  Definition map_state (states : list (bytes * list (bytes * nat))) (m : option bytes) (i : nat) : option nat :=
    match m with
    | None => None
    | Some m => match List.find (fun x => bytes_eqb m (fst x)) states with
                | Some x => option_map snd (nth_error (snd x) i)
                | None => None
                end
    end.
  (** There is an entry for each datacenter of the list or map, in this order, and each says what the configuration says *)
  Definition mc_made (states : list (bytes * list (bytes * nat))) (s : state) (w : mc_want) (r : mc_res) : Prop :=
    mx_name r = xw_name w /\ mx_centers r = xw_centers w /\ mx_skip r = xw_skip w /\ mx_defined r = length (xw_dcs w) /\
    length (mx_dcs r) = length (xw_centers w) /\
    (forall n x, In (n, x) (xw_dcs w) -> exists i d, nth_error (xw_centers w) i = Some n /\ nth_error (mx_dcs r) i = Some (Some d) /\
       dc_made s (xw_name w) n x d /\ mc_map d = map_state states (xw_map w) i) /\
    (forall i d, nth_error (mx_dcs r) i = Some (Some d) -> nth_error (xw_centers w) i = Some (mc_name d) /\ In (mc_name d) (map fst (xw_dcs w))).
  (** The states of maps *)
  Definition states_made (s : state) (maps : list (bytes * list bytes)) (states : list (bytes * list (bytes * nat))) : Prop :=
    map (fun x => (fst x, map fst (snd x))) states = maps /\ Forall (fun x => Forall (fun y => admin s (snd y)) (snd x)) states.
  Definition states_of (states : list (bytes * list (bytes * nat))) : list nat := flat_map (fun x => map snd (snd x)) states.
  Definition mons_of (r : mc_res) : list nat := flat_map (fun o => match o with Some d => [mc_mon d] | None => [] end) (mx_dcs r).

  (** The configurations of all plugins are these *)
  Definition agree (tops : tab) (T : confs) : Prop :=
    forall p, value p tops = option_map (fun h => fresh (VH h)) (T p).

  (** ** What makes the program fail *)
  (** A null byte in a key *)
  Inductive plain : vnode -> Prop :=
  | pl_str r v : plain (VS r v)
  | pl_arr l : Forall plain l -> plain (VA l)
  | pl_hash l : Forall (fun e => ~ In 0 (fst e) /\ plain (snd e)) l -> plain (VH l).
  (** A reference to the plugin itself without a resource; skip_first with a list or hash; geoip as the plugin of a new resource of
      metafo *)
  Inductive safe : vnode -> Prop :=
  | sa_str r v : c_str v <> 37 :: pn k -> safe (VS r v)
  | sa_arr l : Forall safe l -> safe (VA l)
  | sa_hash l : Forall (fun e => safe (snd e) /\ (fst e = k_skip -> exists r v, snd e = VS r v) /\
                                 (fst e = k_plugin -> k = Metafo -> forall r v, snd e = VS r v -> c_str v <> pn Geoip)) l -> safe (VH l).
  (** A datacenter that is a hash without its own plugin, after one with an exclamation mark: the resource's plugin is forgotten then *)
  Fixpoint steady (seen : bool) (dm : hash) : Prop :=
    match dm with
    | [] => True
    | (_, VS _ v) :: dm' => steady (seen || match c_str v with 33 :: _ => true | _ => false end) dm'
    | (_, VH h) :: dm' => (seen = true -> get k_plugin h <> None) /\ steady seen dm'
    | _ :: dm' => steady seen dm'
    end.
  Definition all_steady (h : hash) : Prop :=
    forall n r dm, In (n, VH r) (resources_of h) -> setting k_dcmap [r; h] = Some (VH dm) -> setting k_plugin [r; h] = None \/ steady false dm.
  (** Resources of metafo that are not a hash *)
  Definition open_confs (T : confs) : Prop :=
    forall h, T t_metafo = Some h -> NoDup (map fst h) /\ forall x, get k_resources h = Some x -> exists rs, x = VH rs.
End Meaning.

(** ** Which resources zones can use *)
Section Use.
  Variable ms : metas.
  Variable plug : bytes -> option (option (option bytes -> option name -> option N)).
  Variable in_zone : name -> name -> bool.
  Variable zone : option name.

  (** The first resource of this name *)
  Definition first_res (n : bytes) (rs : list mc_res) (i : nat) (r : mc_res) : Prop :=
    nth_error rs i = Some r /\ mx_name r = n /\ forall j r', (j < i)%nat -> nth_error rs j = Some r' -> mx_name r' <> n.
  Definition first_center (n : bytes) (l : list bytes) (j : nat) : Prop :=
    nth_error l j = Some n /\ forall j', (j' < j)%nat -> nth_error l j' <> Some n.

  Inductive usable : kind -> bytes -> N -> Prop :=
  | us_res k n i r : ~ In 47 n -> first_res n (of_kind k ms) i r -> N.of_nat i < 2 ^ 31 ->
      (forall d, In (Some d) (mx_dcs r) -> dc_usable d) -> usable k n (N.of_nat i)
  | us_dc k n dn i r j o : ~ In 47 n -> first_res n (of_kind k ms) i r -> first_center dn (mx_centers r) j -> N.of_nat i < 2 ^ 24 -> (S j < 128)%nat ->
      nth_error (mx_dcs r) j = Some o -> (forall d, o = Some d -> dc_usable d) ->
      usable k (n ++ [47] ++ dn) (N.of_nat i + 2 ^ 24 * N.of_nat (S j))
  with dc_usable : mc_dc -> Prop :=
  | du_name d z c idx : mc_what d = McName c idx -> zone = Some z -> in_zone z c = false -> dc_usable d
  | du_meta d k t n : mc_what d = McSub (pn k) (Some t) -> usable k t n -> dc_usable d
  | du_sub d p rn f n : mc_what d = McSub p rn -> p <> pn Metafo -> p <> pn Geoip -> plug p = Some (Some f) -> f rn zone = Some n -> dc_usable d.
  (** The references between resources have no circle *)
  Definition ranked (rank : kind -> bytes -> nat) : Prop :=
    forall k r d k' t, In r (of_kind k ms) -> In (Some d) (mx_dcs r) -> mc_what d = McSub (pn k') (Some t) -> (rank k' (fst (at_slash t)) < rank k (mx_name r))%nat.
End Use.

(** ** What is added to the configurations of other plugins *)
(** The resources of a plugin: those of metafo are in a hash of their own *)
Definition at_plugin (T : confs) (p : bytes) : hash := if bytes_eqb p t_metafo then resources_of (conf_of (T p)) else conf_of (T p).
(** Plugin, name and data of each new resource *)
Definition news_of (k : kind) (ws : list mc_want) : list (bytes * bytes * hash) :=
  flat_map (fun w => flat_map (fun x => match snd x with MakeNew p data => [(p, child_name k (xw_name w) (fst x), data)] | _ => [] end) (xw_dcs w)) ws.
(** They are there, they were not there before, and all else is as it was *)
Record grown (T : confs) (news : list (bytes * bytes * hash)) (T' : confs) : Prop := {
  gr_new : forall p n data, In (p, n, data) news -> get n (at_plugin T p) = None /\ get n (at_plugin T' p) = Some (VH data);
  gr_old : forall p n, (forall data, ~ In (p, n, data) news) -> get n (at_plugin T' p) = get n (at_plugin T p);
  gr_rest : forall n, n <> k_resources -> get n (conf_of (T' t_metafo)) = get n (conf_of (T t_metafo));
  gr_none : forall p, (forall n data, ~ In (p, n, data) news) -> T' p = T p }.
