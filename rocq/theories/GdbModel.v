(** A map of the plugin geoip with a GeoIP2 database: libgdmaps/gdgeoip2.c, and how gdmaps.c loads it.
    Simplifications: libmaxminddb is given by what its calls answer; the hash buckets of the cache by offset are one list
    (LocModel.v); messages are left out; a build without libmaxminddb (gdgeoip2.c:463-481) is left out. *)
From Coq Require Import String Ascii ZArith.
From Verif Require Import Base DnameModel CompModel RespModel MonModel VscfModel OptModel VhashModel VhashSpec PlugModel MsgModel LtreeModel PconfModel McfModel GmapModel.
From Verif Require LocModel NetModel.
Local Open Scope N_scope.
Local Open Scope list_scope.
Local Notation length := List.length.
Local Notation "'let>' x <- a ; b" := (gbind a (fun x => b)) (at level 200, x name, a at level 100, b at level 200, right associativity).

(** An open database: MMDB_metadata_s, MMDB_read_node and MMDB_aget_value, the latter as in LocModel.v.  [b_dated]: its time of
    building can be printed (geoip2_mmdb_log_meta, gdgeoip2.c:61-95). *)
Record mmdb := { b_dated : bool; b_major : N; b_record_size : N; b_ip : N; b_type : bytes;
                 b_node : N -> option (NetModel.mrec * NetModel.mrec); b_entry : nat -> LocModel.entry point }.

(** strstr *)
Fixpoint leads_with (p s : bytes) : bool :=
  match p, s with
  | [], _ => true
  | c :: p, x :: s => (c =? x) && leads_with p s
  | _ :: _, [] => false
  end.
Fixpoint has_part (p s : bytes) : bool := leads_with p s || match s with [] => false | _ :: s => has_part p s end.
Definition t_city : bytes := txt "City".

(** [geoip2_new], gdgeoip2.c:107-190: whether the database is used, with is_city and is_v4 *)
Definition geoip2_new (db : option mmdb) (auto : bool) : option (mmdb * bool * bool) :=
  match db with
  | None => None
  | Some b =>
      if negb (b_dated b) then None
      else if negb (b_major b =? 2) then None
      else if 32 <? b_record_size b then None
      else if negb (b_ip b =? 4) && negb (b_ip b =? 6) then None
      else
        let is_city := has_part t_city (c_str (b_type b)) in
        if negb is_city && auto then None
        else Some (b, is_city, b_ip b =? 4)
  end.

Section Walk.
  Context {D : Type}.
  Variable geodist : point -> point -> D.
  Variable ltb : D -> D -> bool.
  Variable i : info.
  Variables auto is_city : bool.
  Variable m : option LocModel.dcmap.
  Variable b : mmdb.

  (** What a walk carries: the networks, the lists of datacenters and the cache *)
  Definition carried : Type := NetModel.nlist * LocModel.dclists * LocModel.cache.
  (** [geoip2_list_xlate_recurse], gdgeoip2.c:358-422.  [Ok None]: siglongjmp. *)
  Fixpoint walk (depth : nat) (s : carried) (ip : bytes) (node : N) : res (option carried) :=
    match depth with
    | O => Ok None
    | S nd =>
        if (Nat.eqb depth 32 && (NetModel.same 12 ip NetModel.start_v4mapped || NetModel.same 12 ip NetModel.start_siit || NetModel.same 12 ip NetModel.start_wkp))
           || (Nat.eqb depth 96 && NetModel.same 4 ip NetModel.start_teredo) || (Nat.eqb depth 112 && NetModel.same 2 ip NetModel.start_6to4)
        then Ok (Some s)
        else
          match b_node b node with
          | None => Ok None
          | Some (lrec, rrec) =>
              let mask := (128 - nd)%nat in
              let side (s : carried) (ip : bytes) (r : NetModel.mrec) : res (option carried) :=
                match r with
                | NetModel.RNode n => walk nd s ip n
                | NetModel.REmpty => do l <- NetModel.nlist_append (fst (fst s)) ip mask 0; Ok (Some (l, snd (fst s), snd s))
                | NetModel.RData off =>
                    do o <- LocModel.get_cached geodist ltb i auto is_city m (b_entry b) (snd (fst s)) (snd s) (N.to_nat off);
                    match o with
                    | None => Ok None
                    | Some (n, d, c) => do l <- NetModel.nlist_append (fst (fst s)) ip mask (N.of_nat n); Ok (Some (l, d, c))
                    end
                | NetModel.RBad => Ok None
                end in
              do o <- side s ip lrec;
              match o with
              | None => Ok None
              | Some s => do ip <- NetModel.set_bit ip (mask - 1); side s ip rrec
              end
          end
    end.
End Walk.

Section Load.
  Context {D : Type}.
  Variable geodist : point -> point -> D.
  Variable ltb : D -> D -> bool.
  Variable gai_net : bytes -> bytes -> option (addr * N).
  Variable sort : list NetModel.net -> list NetModel.net.

  (** [gdgeoip2_make_list], gdgeoip2.c:445-461, with [geoip2_list_xlate] and [isolate_jmp], gdgeoip2.c:424-443.  [Ok None]: no list. *)
  Definition db_list (g : gdmap) (db : option mmdb) (d : LocModel.dclists) : res (option (NetModel.nlist * LocModel.dclists)) :=
    match geoip2_new db (g_auto g) with
    | None => Ok None
    | Some (b, is_city, v4) =>
        match g_auto g, g_map g with
        | false, None => Ok None
        | _, _ =>
            do o <- walk geodist ltb (g_info g) (g_auto g) is_city (g_map g) b (if v4 then 32 else 128)%nat ({| NetModel.l_nets := []; NetModel.l_norm := true |}, d, []) NetModel.zeros 0;
            match o with
            | None => Ok None
            | Some (l, d, _) => do (l, _) <- NetModel.nlist_finish sort l; Ok (Some (l, d))
            end
        end
    end.
  (** [gdmap_initial_load_all], gdmaps.c:268-284, with [gdmap_update_geoip], [gdmap_update_nets] and [gdmap_tree_update],
      gdmaps.c:155-265: the tree, whether something was logged about networks given twice, and the lists.  [Ok None] is fatal. *)
  Definition load_all (g : gdmap) (db : option mmdb) (file : option tree) : gm (NetModel.ntree * bool * LocModel.dclists) :=
    let> x <- match g_path g with
              | None => Ok (Some (None, g_lists g))
              | Some _ => do o <- db_list g db (g_lists g); Ok (match o with None => None | Some (l, d) => Some (Some l, d) end)
              end ;
    let> n <- match g_nets g with
              | NetsHere l w => Ok (Some (l, w, snd x))
              | NetsFile _ => let> y <- update_nets gai_net sort g file (snd x) ; opt y
              end ;
    match NetModel.map_tree sort (fst x) (fst (fst n)) with
    | UB => UB
    | Ok (T, w) => Ok (Some (T, snd (fst n) || w, snd n))
    end.
  (** A new database while the server runs, with the lists [d] in use or pending and the networks [nl]:
      gdmap_geoip_reload_timer_cb with [gdmap_update_geoip], then [gdmap_tree_update], gdmaps.c:155-217 and 298-313.
      [Ok None]: no tree is made; lists that a failed walk added to pending ones stay there without use. *)
  Definition reload_db (g : gdmap) (db : option mmdb) (d : LocModel.dclists) (nl : NetModel.nlist) : res (option (NetModel.ntree * bool * LocModel.dclists)) :=
    do o <- db_list g db d;
    match o with
    | None => Ok None
    | Some (l, d) => do (T, w) <- NetModel.map_tree sort (Some l) nl; Ok (Some (T, w, d))
    end.
End Load.
