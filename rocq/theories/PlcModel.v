(** The plugins stanza: the table of plugins (src/plugins/plugapi.c), the service types that name some of them (src/plugins/mon.c),
    the order in which they are configured (src/conf.c), and the plugins static, null and reflect.  The other plugins are those of
    PconfModel.v and McfModel.v.
    Simplifications: the path of the helper of extmon is kept as it is written; a warning is not kept; what metafo and geoip add to the
    configuration of others after these two have had their turn is dropped (geoip is called then only if metafo made a
    configuration for it, and both if a name has a null byte: neither is covered by the theorems). *)
From Coq Require Import String Ascii ZArith.
From Verif Require Import Base DnameModel CompModel RespModel MonModel VscfModel OptModel VhashModel VhashSpec PlugModel MsgModel LtreeModel PconfModel McfModel.
Local Open Scope N_scope.
Local Open Scope list_scope.
Local Notation length := List.length.

(** ** The table *)

(** [plugin_t], src/plugins/plugapi.h: has it load_config and resolve; and, with add_svctype, has it add_mon_addr and add_mon_cname *)
Record plugin := Plugin { pl_name : bytes; pl_load : bool; pl_resolve : bool; pl_mon : option (bool * bool) }.
(** [plugins], plugapi.c:34-49, with the table at the end of each file in src/plugins *)
Definition plugin_table : list plugin :=
  [ Plugin (txt "geoip") true true None; Plugin (txt "metafo") true true None; Plugin (txt "http_status") false false (Some (true, false));
    Plugin (txt "multifo") true true None; Plugin (txt "null") true true (Some (true, true)); Plugin (txt "reflect") true true None;
    Plugin (txt "simplefo") true true None; Plugin (txt "static") true true (Some (true, true)); Plugin (txt "tcp_connect") false false (Some (true, false));
    Plugin (txt "weighted") true true None; Plugin (txt "extfile") false false (Some (true, true)); Plugin (txt "extmon") true false (Some (true, true)) ].
(** [gdnsd_plugin_find], plugapi.c:148-160; the name is a C string *)
Definition find_plugin (n : bytes) : option plugin := List.find (fun p => bytes_eqb n (pl_name p)) plugin_table.

(** [gdnsd_mon_cfg_stypes_p1], src/plugins/mon.c:618-654: the service types with their plugins *)
Definition svc_type (e : bytes * tree) : cm (bytes * plugin) :=
  let n := c_str (fst e) in
  let* _ <- check (negb (bytes_eqb n (txt "up") || bytes_eqb n (txt "down"))) ;
  match snd e with
  | TH t =>
      match value k_plugin t with
      | Some (TS _ (b :: v)) =>
          match find_plugin (c_str (b :: v)) with
          | Some p => let* _ <- check (match pl_mon p with Some _ => true | None => false end) ; ret (n, p)
          | None => fatal
          end
      | _ => fatal
      end
  | _ => fatal
  end.
Definition svc_types (config : option tree) : cm (list (bytes * plugin)) :=
  match config with
  | None => ret []
  | Some (TH t) => mapm svc_type (entries false t)
  | Some _ => fatal
  end.
(** The search of [mon_thing], mon.c:486-493, 521-541, for a service type: the last two are up and down, without a plugin *)
Definition service_of (types : list (bytes * plugin)) (svc : bytes) : option (bool * bool) :=
  match List.find (fun x => bytes_eqb svc (fst x)) types with
  | Some x => pl_mon (snd x)
  | None => if bytes_eqb svc (txt "up") || bytes_eqb svc (txt "down") then Some (true, true) else None
  end.

(** ** static, null, reflect *)

(** [static_resource_t], static.c:38-45 *)
Inductive st_what := StAddr (a : addr) | StName (d : name).

(** What a plugin has after load_config; null and reflect have nothing *)
Inductive piece :=
| PMeta (rs : list mc_res)
| PMulti (rs : list m_rsrc)
| PSimple (rs : list s_res)
| PWeighted (rs : list (bytes * w_what))
| PStatic (rs : list (bytes * st_what))
| PExtmon (path : option bytes) (die : bool)
| PNothing.

Section Load.
  Variable gai : bytes -> option addr.
  Variable strtod : bytes -> option dbl.
  Variable service : bytes -> option (bool * bool).
  Variable junk : bytes.
  Variable gdmaps : tab -> option (list (bytes * list bytes)).

  (** [config_res], static.c:50-78 *)
  Definition st_config_res (e : bytes * tree) : cm (bytes * st_what) :=
    match snd e with
    | TS r v =>
        match gai (c_str v) with
        | Some a => ret (c_str (fst e), StAddr a)
        | None =>
            let* d <- lift (dname_from_string junk r) ;
            let '(status, buf) := d in
            match status with
            | DNAME_VALID =>
                let* l <- lift (rd buf 0) ;
                let* d <- lift (rdn buf 0 (S (N.to_nat l))) ;
                ret (c_str (fst e), StName (labels_of 256 (tl d)))
            | _ => fatal
            end
        end
    | _ => fatal
    end.
  (** [plugin_static_load_config], static.c:80-93 *)
  Definition static_load (config : option tree) : cm (list (bytes * st_what)) :=
    match config with
    | None => fatal
    | Some (TH []) => ret []
    | Some (TH t) =>
        let* rs <- mapm st_config_res (entries false t) ;
        let* _ <- dyn_addr_max 1 1 ;
        ret rs
    | Some _ => ub
    end.
  (** [plugin_null_load_config], null.c:33-36; [plugin_reflect_load_config], reflect.c:48-51 *)
  Definition null_load : cm unit := dyn_addr_max 1 1.
  Definition reflect_load : cm unit := dyn_addr_max 2 2.
  (** [plugin_extmon_load_config], extmon.c:330-357: the helper's path, if one is given, and whether its failure ends the program, which
      it does not by default (extmon.c:87) *)
  Definition extmon_load (config : option tree) : cm (option bytes * bool) :=
    match config with
    | None => ret (None, false)
    | Some (TH t) =>
        let* path <- match value (txt "helper_path") t with
                     | None => ret None
                     | Some (TS _ v) => ret (Some (c_str v))
                     | Some _ => fatal
                     end ;
        let t := mark (txt "helper_path") t in
        let* die <- match value (txt "helper_failure_action") t with
                    | None => ret false
                    | Some (TS _ v) =>
                        if bytes_eqb (c_str v) (txt "stasis") then ret false
                        else if bytes_eqb (c_str v) (txt "kill_daemon") then ret true else fatal
                    | Some _ => fatal
                    end ;
        let t := mark (txt "helper_failure_action") t in
        let* _ <- check (match unmarked t with [] => true | _ => false end) ;
        ret (path, die)
    | Some _ => ub
    end.

  (** ** The stanza *)

  (** plugin->load_config(config), for the plugin of this name in the table; [tops] is the stanza *)
  Definition load_one (n : bytes) (config : option tree) (tops : tab) : cm (piece * tab) :=
    let is (s : bytes) := bytes_eqb n s in
    let alone {A} (m : cm A) (f : A -> piece) : cm (piece * tab) := let* x <- m ; ret (f x, tops) in
    if is (txt "geoip") then let* y <- meta_load gai service junk Geoip gdmaps config tops ; ret (PMeta (fst y), snd y)
    else if is (txt "metafo") then let* y <- meta_load gai service junk Metafo gdmaps config tops ; ret (PMeta (fst y), snd y)
    else if is (txt "multifo") then alone (multifo_load gai strtod service config) PMulti
    else if is (txt "simplefo") then alone (simplefo_load gai service config) PSimple
    else if is (txt "weighted") then alone (weighted_load gai strtod service junk config) PWeighted
    else if is (txt "static") then alone (static_load config) PStatic
    else if is (txt "extmon") then alone (extmon_load config) (fun x => PExtmon (fst x) (snd x))
    else if is (txt "null") then alone null_load (fun _ => PNothing)
    else alone reflect_load (fun _ => PNothing).
  (** [plugin_configure], src/conf.c:134-144; the piece has the name of its plugin *)
  Definition configure (n : bytes) (x : tree) (tops : tab) : cm (option (bytes * piece) * tab) :=
    match x with
    | TH _ =>
        match find_plugin n with
        | None => fatal
        | Some p =>
            if pl_load p then let* y <- load_one (pl_name p) (Some x) tops ; ret (Some (pl_name p, fst y), snd y)
            else ret (None, tops)
        end
    | _ => fatal
    end.
  (** geoip first, then metafo: conf.c:344-356.  The key is marked. *)
  Definition first_of (n : bytes) (tops : tab) : cm (list (bytes * piece) * tab) :=
    match value n tops with
    | None => ret ([], tops)
    | Some x =>
        let* y <- configure n x (mark n tops) ;
        ret (match fst y with Some z => [z] | None => [] end, snd y)
    end.
  Definition some_of {A} (l : list (option A)) : list A := flat_map (fun o => match o with Some a => [a] | None => [] end) l.
  (** vscf_hash_iterate_const over what is not marked, conf.c:146-151, 357 *)
  Definition the_rest (tops : tab) : cm (list (bytes * piece)) :=
    let* l <- mapm (fun e => let* y <- configure (c_str (fst e)) (snd e) tops ; ret (fst y)) (unmarked tops) ;
    ret (some_of l).
  (** [gdnsd_plugins_configure_all], plugapi.c:164-172: those that service types use and that have no configuration; [done] are the
      names of those that had load_config called *)
  Definition configure_all (types : list (bytes * plugin)) (done : list bytes) : cm (list (bytes * piece)) :=
    let todo := filter (fun p => existsb (fun x => bytes_eqb (pl_name (snd x)) (pl_name p)) types && pl_load p && negb (existsb (bytes_eqb (pl_name p)) done)) plugin_table in
    mapm (fun p => let* y <- load_one (pl_name p) None [] ; ret (pl_name p, fst y)) todo.
  (** conf.c:339-366 *)
  Definition plugins_load (types : list (bytes * plugin)) (config : option tree) : cm (list (bytes * piece)) :=
    let* l <- match config with
              | None => ret []
              | Some (TH t) =>
                  let* g <- first_of (txt "geoip") t ;
                  let* m <- first_of (txt "metafo") (snd g) ;
                  let* r <- the_rest (snd m) ;
                  ret (fst g ++ fst m ++ r)
              | Some _ => fatal
              end ;
    let* a <- configure_all types (map fst l) ;
    ret (l ++ a).
End Load.

(** conf.c:332-366: the service types, then the plugins *)
Definition all_load (gai : bytes -> option addr) (strtod : bytes -> option dbl) (junk : bytes) (gdmaps : tab -> option (list (bytes * list bytes)))
    (types plugins : option tree) : cm (list (bytes * plugin) * list (bytes * piece)) :=
  let* ts <- svc_types types ;
  let* ps <- plugins_load gai strtod (service_of ts) junk gdmaps ts plugins ;
  ret (ts, ps).

(** ** Resolution *)

(** The data of a plugin: what was loaded last *)
Definition piece_of (n : bytes) (l : list (bytes * piece)) : option piece := option_map snd (List.find (fun x => bytes_eqb n (fst x)) (rev l)).

(** strcasecmp in the C locale *)
Definition lower (b : N) : N := if (65 <=? b) && (b <=? 90) then b + 32 else b.
Definition same_ci (a b : bytes) : bool := bytes_eqb (map lower a) (map lower b).

Section Map.
  Variable in_zone : name -> name -> bool.
  (** [plugin_static_map_res], static.c:95-117 *)
  Fixpoint static_find (n : bytes) (rs : list (bytes * st_what)) (i : N) : option (N * st_what) :=
    match rs with
    | [] => None
    | (m, w) :: rs' => if bytes_eqb n m then Some (i, w) else static_find n rs' (i + 1)
    end.
  Definition static_map (rs : list (bytes * st_what)) (rn : option bytes) (zone : option name) : option N :=
    match rn with
    | None => None
    | Some n =>
        match static_find (c_str n) rs 0 with
        | None => None
        | Some (i, StAddr _) => Some i
        | Some (i, StName d) => match zone with None => None | Some z => if in_zone z d then None else Some i end
        end
    end.
  (** [plugin_null_map_res], null.c:38-43 *)
  Definition null_map (rn : option bytes) (zone : option name) : option N := Some 0.
  (** [plugin_reflect_map_res], reflect.c:55-69, with response_text *)
  Definition reflect_map (rn : option bytes) (zone : option name) : option N :=
    match rn with
    | None => Some 2
    | Some n =>
        let n := c_str n in
        if same_ci n (txt "dns") then Some 0 else if same_ci n (txt "edns") then Some 1
        else if same_ci n (txt "best") then Some 2 else if same_ci n (txt "both") then Some 3 else None
    end.
  (** [plugin_multifo_map_res], multifo.c:344-358; [plugin_simplefo_map_res], simplefo.c:213-227 *)
  Definition named_map {A} (rs : list (bytes * A)) (rn : option bytes) (zone : option name) : option N :=
    match rn with
    | None => None
    | Some n => option_map N.of_nat (map_res n rs 0)
    end.
  (** [plugin_weighted_map_res], weighted.c:709-734 *)
  Definition weighted_map (rs : list (bytes * w_what)) (rn : option bytes) (zone : option name) : option N :=
    match rn with
    | None => None
    | Some n =>
        match map_res n rs 0 with
        | None => None
        | Some i =>
            match nth_error rs i with
            | Some (_, WNames c) =>
                match zone with
                | None => None
                | Some z => if existsb (fun x => in_zone z (wc_name x)) (wn_items c) then None else Some (N.of_nat i)
                end
            | _ => Some (N.of_nat i)
            end
        end
    end.
  (** No resources, so none has the name: the loops in multifo.c:349-351, simplefo.c:218-220, weighted.c:714 and static.c:98 *)
  Definition no_map (rn : option bytes) (zone : option name) : option N := None.
  (** Which resources of plugins other than metafo and geoip there are, as [map_meta] asks: nothing was loaded for a plugin that is not
      configured, so it has no resources *)
  Definition plug_of (l : list (bytes * piece)) (n : bytes) : option (option (option bytes -> option name -> option N)) :=
    match find_plugin n with
    | None => None
    | Some p =>
        if negb (pl_resolve p) then Some None
        else Some (Some (
          if bytes_eqb n (txt "null") then null_map
          else if bytes_eqb n (txt "reflect") then reflect_map
          else match piece_of n l with
               | Some (PMulti rs) => if bytes_eqb n (txt "multifo") then named_map rs else no_map
               | Some (PSimple rs) => if bytes_eqb n (txt "simplefo") then named_map rs else no_map
               | Some (PWeighted rs) => if bytes_eqb n (txt "weighted") then weighted_map rs else no_map
               | Some (PStatic rs) => if bytes_eqb n (txt "static") then static_map rs else no_map
               | _ => no_map
               end))
    end.
End Map.
Definition metas_of (l : list (bytes * piece)) : metas :=
  let rs n := match piece_of n l with Some (PMeta rs) => rs | _ => [] end in
  {| of_metafo := rs (txt "metafo"); of_geoip := rs (txt "geoip") |}.

Section Resolve.
  Variables lim4 lim6 : nat.
  (** [plugin_static_resolve], static.c:119-127 *)
  Definition static_resolve (rs : list (bytes * st_what)) (i : nat) (r : dres) : res (N * dres) :=
    match nth_error rs i with
    | None => UB
    | Some (_, StAddr a) => do r <- add_anysin lim4 lim6 r a ; Ok (STTL_TTL_MAX, r)
    | Some (_, StName d) => do r <- add_cname r d ; Ok (STTL_TTL_MAX, r)
    end.
  (** [plugin_null_resolve], null.c:45-54 *)
  Definition null_resolve (r : dres) : res (N * dres) :=
    do r <- add_anysin lim4 lim6 r (A4 (repeat 0 4)) ;
    do r <- add_anysin lim4 lim6 r (A6 (repeat 0 16)) ;
    Ok (STTL_TTL_MAX, r).
  (** [plugin_reflect_resolve], reflect.c:71-91: the source address, and the address and mask of the client-subnet option *)
  Definition reflect_resolve (i : N) (source ecs : addr) (mask : N) (r : dres) : res (N * dres) :=
    rassert (i <? 4)
    (do r <- (if (i =? 3) || (i =? 0) || ((i =? 2) && (mask =? 0))
              then do r <- add_anysin lim4 lim6 r source ; Ok (add_scope_mask r mask) else Ok r) ;
     do r <- (if negb (mask =? 0) && negb (i =? 0)
              then do r <- add_anysin lim4 lim6 r ecs ; Ok (add_scope_mask r mask)
              else if (mask =? 0) && (i =? 1) then add_anysin lim4 lim6 r (A4 (repeat 0 4)) else Ok r) ;
     Ok (STTL_TTL_MAX, r)).
End Resolve.
