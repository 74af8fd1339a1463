(** The configuration of the plugins metafo and geoip: src/plugins/meta_core.inc, metafo.c, geoip.c, and the order in which
    plugins are configured, src/conf.c.  Tables, monitors and steps are those of PconfModel.v.
    Simplifications: the maps of geoip are given as lists of datacenters (libgdmaps is in other files of the model, and the loading
    of its databases is left out); a resource keeps the names of its map's datacenters. *)
From Coq Require Import String Ascii ZArith.
From Verif Require Import Base DnameModel CompModel RespModel MonModel VscfModel OptModel VhashModel VhashSpec PlugModel MsgModel LtreeModel PconfModel.
Local Open Scope N_scope.
Local Open Scope list_scope.
Local Notation length := List.length.

Definition k_plugin : bytes := txt "plugin".
Definition k_resources : bytes := txt "resources".
Definition k_skip : bytes := txt "skip_first".
Definition k_dcmap : bytes := txt "dcmap".
Definition k_centers : bytes := txt "datacenters".
Definition k_map : bytes := txt "map".
Definition k_maps : bytes := txt "maps".
Definition k_undef : bytes := txt "undefined_datacenters_ok".
Definition t_multifo : bytes := txt "multifo".
Definition t_metafo : bytes := txt "metafo".

(** Which of the two plugins the code is compiled for: PNSTR and the functions that geoip.c and metafo.c define *)
Inductive kind := Metafo | Geoip.
Definition pn (k : kind) : bytes := match k with Metafo => t_metafo | Geoip => txt "geoip" end.

(** What a datacenter of a resource is: [dc_t], meta_core.inc:48-66; [mc_map] is there for geoip only *)
Inductive mc_kind := McName (d : name) (idx : list nat) | McSub (plugin : bytes) (res : option bytes).
Record mc_dc := { mc_name : bytes; mc_map : option nat; mc_mon : nat; mc_what : mc_kind }.
(** [resource_t], meta_core.inc:82-89.  The datacenters of the map, and for each what the resource says of it *)
Record mc_res := { mx_name : bytes; mx_centers : list bytes; mx_dcs : list (option mc_dc); mx_defined : nat; mx_skip : bool }.

(** [gdnsd_mon_admin], src/plugins/mon.c:582-595 *)
Definition mon_admin : cm nat := fun s => Ok (Some (length (mons s), State (mons s ++ [None]) (lim4 s) (lim6 s))).

(** [vscf_hash_inherit_all], vscf.rl:1157-1166, leaving out what is marked; the key is taken up to a null byte *)
Definition inherit_all (parent t : tab) : tab := fold_left (fun t e => inherit (c_str (fst e)) parent t) (unmarked parent) t.
(** Another value for a key that is there *)
Definition put (k : bytes) (v : tree) (t : tab) : tab := map (fun e => if same k (fst (fst e)) then (fst e, v) else e) t.
(** The value of a key that is a hash, made if it is not there: meta_core.inc:163-178; asking a value that is not a
    hash for a key is an error *)
Definition get_or_make (k : bytes) (t : tab) : cm (tab * tab) :=
  match value k t with
  | None => ret ([], t ++ [(k, false, TH [])])
  | Some (TH x) => ret (x, t)
  | Some _ => ub
  end.

(** The number of a datacenter, counted from [i]: metafo.c:88-99; libgdmaps/dcinfo.c:143-150 *)
Fixpoint center_index (n : bytes) (l : list bytes) (i : nat) : option nat :=
  match l with
  | [] => None
  | m :: l' => if bytes_eqb n m then Some i else center_index n l' (S i)
  end.

Section Meta.
  Variable gai : bytes -> option addr.
  Variable service : bytes -> option (bool * bool).
  Variable junk : bytes.
  Variable k : kind.
  (** libgdmaps: the maps of a configuration, with their datacenters *)
  Variable gdmaps : tab -> option (list (bytes * list bytes)).

  (** [get_defaulted_plugname], meta_core.inc:94-110; the caller marks the key *)
  Definition plug_name (t : tab) : cm bytes :=
    match value k_plugin t with
    | None => ret t_multifo
    | Some (TS _ v) => ret (c_str v)
    | Some _ => fatal
    end.

  (** [inject_child_plugin_config], meta_core.inc:112-190.  [res] is the configuration of the resource, [tops] that of all
      plugins *)
  Definition inject (rname dcname : bytes) (res : tab) (x : tree) (tops : tab) : cm (mc_kind * tab) :=
    let child := pn k ++ txt "_" ++ rname ++ txt "_" ++ dcname in
    let* t <- match x with TH t => ret t | _ => numbered 1 (items x) [(k_plugin, false, TS t_multifo t_multifo)] end ;
    let t := inherit_all res t in
    let* p <- plug_name t ;
    let t := mark k_plugin t in
    let* _ <- check (negb (bytes_eqb p (pn k))) ;
    let* pt <- get_or_make p tops ;
    let* rt <- (if bytes_eqb p t_metafo then let* y <- get_or_make k_resources (fst pt) ; ret (Some (snd y), fst y) else ret (None, fst pt)) ;
    let* _ <- check (match value child (snd rt) with None => true | Some _ => false end) ;
    let target := snd rt ++ [(child, false, copy true (TH t))] in
    let pc := match fst rt with Some outer => put k_resources (TH target) outer | None => target end in
    ret (McSub p (Some child), put p (TH pc) (snd pt)).

  (** [config_res_perdc], meta_core.inc:192-261; what it marks in the resource's configuration, and what it adds to that of other
      plugins *)
  Definition config_dc (rname : bytes) (res : tab) (dcname : bytes) (mapi : option nat) (x : tree) (tops : tab) : cm (mc_dc * tab * tab) :=
    let* i <- mon_admin ;
    let dc w := {| mc_name := dcname; mc_map := mapi; mc_mon := i; mc_what := w |} in
    match x with
    | TS r v =>
        match c_str v with
        | 37 :: text =>
            let '(p, rn) := split_bang text in
            let* _ <- (if bytes_eqb p (pn k) then match rn with Some n => check (negb (bytes_eqb n rname)) | None => ub end else ret tt) ;
            ret (dc (McSub p rn), res, tops)
        | 33 :: text =>
            let* p <- plug_name res ;
            let* _ <- check (negb (bytes_eqb p (pn k) && bytes_eqb text rname)) ;
            ret (dc (McSub p (Some text)), mark k_plugin res, tops)
        | text =>
            match gai text with
            | Some _ => let* y <- inject rname dcname res x tops ; ret (dc (fst y), res, snd y)
            | None =>
                let* d <- lift (dname_from_string junk r) ;
                let '(status, buf) := d in
                match status with
                | DNAME_VALID =>
                    let* l <- lift (rd buf 0) ;
                    let* d <- lift (rdn buf 0 (S (N.to_nat l))) ;
                    let* svcs <- svc_names (value k_types res) ;
                    let* idx <- mapm (mon_thing service (OnName d)) svcs ;
                    ret (dc (McName (labels_of 256 (tl d)) idx), res, tops)
                | _ => fatal
                end
            end
        end
    | _ => let* y <- inject rname dcname res x tops ; ret (dc (fst y), res, snd y)
    end.

  (** [config_res_dcmap], meta_core.inc:263-283; [dcs] is indexed from 0 for the first datacenter *)
  Fixpoint config_dcs (rname : bytes) (centers : list bytes) (mapis : list (option nat)) (es : list (bytes * tree))
      (res tops : tab) (dcs : list (option mc_dc)) : cm (list (option mc_dc) * tab) :=
    match es with
    | [] => ret (dcs, tops)
    | e :: es' =>
        let dcname := c_str (fst e) in
        match center_index dcname centers 0 with
        | None => fatal
        | Some i =>
            let* y <- config_dc rname res dcname (nth i mapis None) (snd e) tops ;
            let '(d, res, tops) := y in
            config_dcs rname centers mapis es' res tops (upd dcs i (Some d))
        end
    end.

  (** [res_get_mapnum]: metafo.c:43-79, geoip.c:37-50; [maps] are the maps of geoip with the numbers of their administrative
      states *)
  Definition map_key : bytes := match k with Metafo => k_centers | Geoip => k_map end.
  Definition get_map (maps : list (bytes * list (bytes * nat))) (t : tab) : cm (list bytes * list (option nat)) :=
    match k with
    | Metafo =>
        match value k_centers t with
        | None => fatal
        | Some (TH _) => fatal
        | Some x =>
            let* _ <- check (match items x with [] => false | _ => true end) ;
            let* ns <- mapm (fun y => match y with TS _ v => ret (c_str v) | _ => fatal end) (items x) ;
            ret (ns, map (fun _ => None) ns)
        end
    | Geoip =>
        match value k_map t with
        | Some (TS _ v) =>
            match List.find (fun m => bytes_eqb (c_str v) (fst m)) maps with
            | Some m => ret (map fst (snd m), map (fun x => Some (snd x)) (snd m))
            | None => fatal
            end
        | _ => fatal
        end
    end.

  (** [make_resource], meta_core.inc:285-319, and the turn of the loop of [CB_LOAD_CONFIG] that calls it, lines 458-467 *)
  Definition make_resource (undef_ok : bool) (maps : list (bytes * list (bytes * nat))) (config : tab) (e : bytes * tree) (tops : tab) : cm (mc_res * tab) :=
    match snd e with
    | TH t =>
        let rname := c_str (fst e) in
        let t := inherit_all config t in
        let* m <- get_map maps t ;
        let t := mark map_key t in
        let* _ <- asserted (match fst m with [] => false | _ => true end) ;
        let* skip <- match value k_skip t with
                     | None => ret false
                     | Some (TS _ v) => match as_bool v with Some b => ret b | None => fatal end
                     | Some _ => ub
                     end ;
        let t := mark k_skip t in
        match value k_dcmap t with
        | Some (TH dm) =>
            let t := mark k_dcmap t in
            let* _ <- check (if undef_ok then negb (Nat.eqb (length dm) 0) else Nat.eqb (length dm) (length (fst m))) ;
            let* y <- config_dcs rname (fst m) (snd m) (entries false dm) t tops (map (fun _ => None) (fst m)) ;
            ret ({| mx_name := rname; mx_centers := fst m; mx_dcs := fst y; mx_defined := length dm; mx_skip := skip |}, snd y)
        | _ => fatal
        end
    | _ => fatal
    end.
  Fixpoint make_resources (undef_ok : bool) (maps : list (bytes * list (bytes * nat))) (config : tab) (es : list (bytes * tree)) (tops : tab) : cm (list mc_res * tab) :=
    match es with
    | [] => ret ([], tops)
    | e :: es' =>
        let* x <- make_resource undef_ok maps config e tops ;
        let* y <- make_resources undef_ok maps config es' (snd x) ;
        ret (fst x :: fst y, snd y)
    end.

  (** The administrative states of the maps: libgdmaps/dcinfo.c:106-109 *)
  Definition register (maps : list (bytes * list bytes)) : cm (list (bytes * list (bytes * nat))) :=
    mapm (fun m => let* l <- mapm (fun n => let* i <- mon_admin ; ret (n, i)) (snd m) ; ret (fst m, l)) maps.
  (** [top_config_hook], metafo.c:100-105, geoip.c:64-85; the marked data *)
  Definition top_hook (t : tab) : cm (bool * list (bytes * list (bytes * nat)) * tab) :=
    match k with
    | Metafo => ret (false, [], t)
    | Geoip =>
        match value k_maps t with
        | Some (TH (e :: m)) =>
            let* maps <- match gdmaps (e :: m) with Some maps => register maps | None => fatal end ;
            let* undef <- read_bool (value k_undef t) ;
            ret (undef, maps, mark k_undef (mark k_maps t))
        | _ => fatal
        end
    end.

  (** [CB_LOAD_CONFIG], meta_core.inc:436-470 *)
  Definition meta_load (config : option tree) (tops : tab) : cm (list mc_res * tab) :=
    match config with
    | None => fatal
    | Some (TH t) =>
        let* h <- top_hook t ;
        let '(undef, maps, t) := h in
        match value k_resources t with
        | Some (TH rs) =>
            let t := mark k_resources t in
            let* _ <- check (N.of_nat (length rs) <=? 16777216) ;
            let* _ <- check (negb (Nat.eqb (length rs) 0)) ;
            make_resources undef maps t (entries false rs) tops
        | _ => fatal
        end
    | Some _ => ub
    end.
End Meta.

(** ** Finding a resource *)

Record metas := { of_metafo : list mc_res; of_geoip : list mc_res }.
Definition of_kind (k : kind) (m : metas) : list mc_res := match k with Metafo => of_metafo m | Geoip => of_geoip m end.
(** What a search for a resource ends with: a number; a refusal, which makes the zone invalid; the end of the program, after a message *)
Inductive mapped := Mapped (n : N) | Refused | Ends.
Section Map.
  Variable ms : metas.
  (** The other plugins: [None] if there is none of this name, [Some None] if it does not resolve, else its map_res (without one,
      0 for everything).  [gdnsd_plugin_find], src/plugins/plugapi.c:148-161 *)
  Variable plug : bytes -> option (option (option bytes -> option name -> option N)).
  (** [dname_isinzone], with the zone first *)
  Variable in_zone : name -> name -> bool.

  Fixpoint find_res (n : bytes) (rs : list mc_res) (i : nat) : option (nat * mc_res) :=
    match rs with
    | [] => None
    | r :: rs' => if bytes_eqb n (mx_name r) then Some (i, r) else find_res n rs' (S i)
    end.
  (** strchr(text, '/') with the text cut there *)
  Fixpoint at_slash (t : bytes) : bytes * option bytes :=
    match t with
    | [] => ([], None)
    | c :: t' => if c =? 47 then ([], Some t') else let '(a, b) := at_slash t' in (c :: a, b)
    end.
  (** The loop of [map_res_inner], meta_core.inc:390-423: one datacenter after the other, up to the first that fails *)
  Fixpoint map_dcs (one : mc_dc -> res mapped) (dcs : list (option mc_dc)) (n : N) : res mapped :=
    match dcs with
    | [] => Ok (Mapped n)
    | None :: dcs' => map_dcs one dcs' n
    | Some d :: dcs' => do o <- one d ; match o with Mapped _ => map_dcs one dcs' n | x => Ok x end
    end.
  (** The conversion of the number to an int, meta_core.inc:425-428: a negative one is a refusal *)
  Definition as_int (n : N) : mapped := if n <? 2 ^ 31 then Mapped n else Refused.
  (** [CB_MAP] and [map_res_inner], meta_core.inc:373-432, 472-494.  The plugins metafo and geoip call each other, and themselves; [fuel]
      bounds the depth, and the stack of the program is full without it.  [zone] is the origin for DYNC. *)
  Fixpoint map_meta (fuel : nat) (k : kind) (rname : option bytes) (zone : option name) : res mapped :=
    match fuel with
    | O => UB
    | S fuel' =>
        let one d :=
          match mc_what d with
          | McName c _ => Ok (match zone with None => Refused | Some z => if in_zone z c then Refused else Mapped 0 end)
          | McSub p rn =>
              if bytes_eqb p t_metafo then map_meta fuel' Metafo rn zone
              else if bytes_eqb p (pn Geoip) then map_meta fuel' Geoip rn zone
              else Ok (match plug p with
                       | None => Ends
                       | Some None => Refused
                       | Some (Some f) => match f rn zone with Some n => Mapped n | None => Refused end
                       end)
          end in
        match rname with
        | None => Ok Refused
        | Some t =>
            let '(n, dcn) := at_slash t in
            match find_res n (of_kind k ms) 0 with
            | None => Ok Refused
            | Some (i, r) =>
                match dcn with
                | None => do o <- map_dcs one (mx_dcs r) (N.of_nat i) ; Ok (match o with Mapped m => as_int m | x => x end)
                | Some d =>
                    match center_index d (mx_centers r) 1 with
                    | None => Ok Refused
                    | Some j =>
                        rassert (Nat.ltb j 256)
                        (do o <- map_dcs one (firstn 1 (skipn (j - 1) (mx_dcs r))) (N.lor (N.of_nat i) (N.shiftl (N.of_nat j) 24)) ;
                         Ok (match o with Mapped m => as_int m | x => x end))
                    end
                end
            end
        end
    end.
End Map.

(** The list of datacenters that metafo tries, metafo.c:59-72, 112-117: the numbers are bytes, and a zero ends it *)
Fixpoint up_to_zero (l : list nat) : list nat := match l with [] => [] | n :: l' => match n with O => [] | S _ => n :: up_to_zero l' end end.
Definition metafo_list (centers : list bytes) : list nat := up_to_zero (map (fun i => Nat.modulo i 256) (seq 1 (length centers)) ++ [O]).
