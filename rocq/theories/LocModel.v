(** From places to datacenter lists: libgdmaps/dcinfo.c, dclists.c, dcmap.c and
    the part of gdgeoip2.c that turns a database entry into a list number. *)
From Verif Require Import Base.
Set Implicit Arguments.

(** Names: C strings without the terminator. *)
Definition name := list N.
Definition name_eqb (a b : name) : bool := if list_eq_dec N.eq_dec a b then true else false.
(** tolower in the C locale, and strcasecmp(a, b) == 0 *)
Definition lower (c : N) : N := if ((65 <=? c) && (c <=? 90))%N then (c + 32)%N else c.
Definition name_eq_ci (a b : name) : bool := name_eqb (map lower a) (map lower b).
(** what is left of a string after copying bytes that may contain a NUL *)
Fixpoint cstr (b : list N) : name := match b with [] => [] | c :: b => if (c =? 0)%N then [] else c :: cstr b end.

Definition MAX_NUM_DCS : nat := 254.        (* dcinfo.h:51 *)
Definition LOOKUP_MAXLEN : nat := 128.      (* DCMAP_LOOKUP_MAXLEN, dcmap.h:37 *)

Section Loc.
  (** Coordinates and distances.  [P]: a pair of a latitude and a longitude;
      [bad]: outside of the legal range; [nan]: the latitude is not a number;
      [geodist] and the comparison of two distances. *)
  Variables P D : Type.
  Variables (bad nan : P -> bool) (geodist : P -> P -> D) (ltb : D -> D -> bool).

  (** dcinfo_t: names, coordinates or none ("lat is NaN"), and the limit. *)
  Record dcinfo := { i_names : list name; i_coords : list (option P); i_limit : nat }.

  Fixpoint index_name (n : name) (l : list name) (i : nat) : option nat :=
    match l with
    | [] => None
    | x :: l => if name_eqb n x then Some i else index_name n l (S i)
    end.
  Definition auto_name : name := [97; 117; 116; 111]%N.

  (** [dcinfo_init_auto], dcinfo.c:30-80: one entry of the hash per turn;
      [None]: log_fatal. *)
  Fixpoint init_auto (names : list name) (coords : list (option P)) (cfg : list (name * P)) : option (list (option P)) :=
    match cfg with
    | [] => Some coords
    | (n, p) :: cfg =>
        match index_name n names 0 with
        | None => None
        | Some i =>
            match nth_error coords i with
            | Some (Some q) => None  (* defined twice *)
            | _ => if bad p then None else init_auto names (upd coords i (if nan p then None else Some p)) cfg
            end
        end
    end.
  (** [dcinfo_init], dcinfo.c:87-128; [auto]: auto_dc_coords; [lim]: auto_dc_limit. *)
  Definition dcinfo_init (names : list name) (auto : option (list (name * P))) (lim : option nat) : option dcinfo :=
    let num := length names in
    if (num =? 0) || (MAX_NUM_DCS <? num) then None
    else if existsb (name_eqb auto_name) names then None
    else
      match (match auto with
             | None => Some (repeat None num, num)  (* coords are not set; they are not used without auto *)
             | Some cfg => match init_auto names (repeat None num) cfg with Some c => Some (c, length cfg) | None => None end
             end) with
      | None => None
      | Some (coords, num_auto) =>
          let limit := match lim with
                       | Some l => if (num_auto <? l) || (l =? 0) then num_auto else l
                       | None => if 3 <? num_auto then 3 else num_auto
                       end in
          Some {| i_names := names; i_coords := coords; i_limit := limit |}
      end.
  (** [dcinfo_name2num], dcinfo.c:143-150; 0: unknown *)
  Definition name2num (info : dcinfo) (n : name) : nat := match index_name n (i_names info) 0 with Some i => S i | None => 0 end.

  (** dclists_t: the strings, without their terminators. *)
  Definition dclists := list (list nat).
  Definition dclists_new (info : dcinfo) : dclists := [seq 1 (length (i_names info))].  (* dclists.c:63-79 *)
  Fixpoint find_list (l : dclists) (i : nat) (new : list nat) : option nat :=
    match l with
    | [] => None
    | x :: l => if list_eq_dec Nat.eq_dec x new then Some i else find_list l (S i) new
    end.
  (** [dclists_find_or_add_raw], dclists.c:111-128, without the limit of 2^31-1 lists *)
  Definition find_or_add (l : dclists) (new : list nat) : nat * dclists :=
    match find_list l 0 new with Some i => (i, l) | None => (length l, l ++ [new]) end.

  (** A list number, or DCLIST_AUTO. *)
  Inductive num := Num (i : nat) | Auto.
  (** A list in the configuration: names.  [dclists_xlate_vscf], dclists.c:139-158,
      into a buffer of 256 bytes.  [Ok None]: log_fatal. *)
  Fixpoint xlate_names (info : dcinfo) (l : list name) (i : nat) : res (option (list nat)) :=
    match l with
    | [] => rassert (i <? 256) (Ok (Some []))  (* the terminator *)
    | n :: l => match name2num info n with
                | 0 => Ok None
                | x => rassert (i <? 256) (do r <- xlate_names info l (S i); Ok (match r with Some r => Some (x :: r) | None => None end))
                end
    end.
  Definition xlate (info : dcinfo) (l : list name) (allow_auto : bool) : res (option (option (list nat))) :=
    if (length l =? 1) && allow_auto && match l with [n] => name_eqb n auto_name | _ => false end then Ok (Some None)
    else do r <- xlate_names info l 0; Ok (match r with Some r => Some (Some r) | None => None end).
  (** [dclists_find_or_add_vscf], dclists.c:160-169 *)
  Definition find_or_add_cfg (info : dcinfo) (d : dclists) (l : list name) (allow_auto : bool) : res (option (num * dclists)) :=
    do x <- xlate info l allow_auto;
    match x with
    | None => Ok None
    | Some None => Ok (Some (Auto, d))
    | Some (Some r) => let '(i, d) := find_or_add d r in Ok (Some (Num i, d))
    end.

  (** The map stanza: an optional "default", and entries in the order of iteration. *)
  Inductive mapcfg := Hash (def : option (list name)) (es : entries)
  with entries := ENone | EList (n : name) (l : list name) (rest : entries) | ESub (n : name) (m : mapcfg) (rest : entries).
  (** dcmap_t, dcmap.c:37-52 *)
  Inductive dcmap := DMap (def : num) (cs : children)
  with children := KNone | KList (n : name) (i : num) (rest : children) | KMap (n : name) (m : dcmap) (rest : children).

  (** [dcmap_new], dcmap.c:79-126, and the loop over [dcmap_new_iter], dcmap.c:62-77.
      [Ok None]: log_fatal. *)
  Fixpoint dcmap_new (info : dcinfo) (auto : bool) (m : mapcfg) (d : dclists) (parent : num) (depth : nat) : res (option (dcmap * dclists)) :=
    match m with
    | Hash def es =>
        do o <- match def with
                | Some l =>
                    if depth =? 0 then
                      do x <- xlate info l auto;
                      match x with
                      | None => Ok None
                      | Some None => Ok (Some (Auto, d))
                      | Some (Some r) => Ok (Some (Num 0, upd d 0 r))  (* dclists_replace_list0 *)
                      end
                    else find_or_add_cfg info d l auto
                | None => Ok (Some ((if depth =? 0 then (if auto then Auto else Num 0) else parent), d))
                end;
        match o with
        | None => Ok None
        | Some (def, d) => do o <- new_entries info auto es d def depth; Ok (match o with Some (cs, d) => Some (DMap def cs, d) | None => None end)
        end
    end
  with new_entries (info : dcinfo) (auto : bool) (es : entries) (d : dclists) (def : num) (depth : nat) : res (option (children * dclists)) :=
    match es with
    | ENone => Ok (Some (KNone, d))
    | EList n l es =>
        do o <- find_or_add_cfg info d l auto;
        match o with
        | None => Ok None
        | Some (i, d) => do r <- new_entries info auto es d def depth; Ok (match r with Some (cs, d) => Some (KList n i cs, d) | None => None end)
        end
    | ESub n m es =>
        do o <- dcmap_new info auto m d def (S depth);
        match o with
        | None => Ok None
        | Some (m, d) => do r <- new_entries info auto es d def depth; Ok (match r with Some (cs, d) => Some (KMap n m cs, d) | None => None end)
        end
    end.

  (** What libmaxminddb says about a path in an entry: a string; no such path;
      anything else (an error, or data of another type). *)
  Inductive got (A : Type) := Got (a : A) | Absent | Broken.
  Arguments Got {A} _. Arguments Absent {A}. Arguments Broken {A}.
  Record entry := { e_continent : got (list N); e_country : got (list N); e_subdivision : nat -> got (list N); e_city : got (list N); e_lat_lon : got P }.

  (** mmdb_lookup_utf8_, gdgeoip2.c:197-210: the bytes go into the caller's buffer
      of LOOKUP_MAXLEN bytes, unchecked.  [Ok None]: siglongjmp, the load fails. *)
  Definition fetch (g : got (list N)) : res (option name) :=
    match g with
    | Got b => rassert (length b <? LOOKUP_MAXLEN) (Ok (Some (cstr b)))
    | Absent => Ok (Some [])
    | Broken => Ok None
    end.
  (** [geoip2_dcmap_cb], gdgeoip2.c:217-281: the name at a level ([[]]: none) and out_of_data. *)
  Definition dcmap_cb (is_city : bool) (e : entry) (level : nat) (out : bool) : res (option (name * bool)) :=
    if out then Ok (Some ([], true))
    else if level =? 0 then do o <- fetch (e_continent e); Ok (match o with Some n => Some (n, false) | None => None end)
    else if level =? 1 then do o <- fetch (e_country e); Ok (match o with Some n => Some (n, negb is_city) | None => None end)
    else if 11 <? level then Ok (Some ([], true))
    else
      match e_subdivision e (level - 2) with
      | Absent => do o <- fetch (e_city e); Ok (match o with Some n => Some (n, true) | None => None end)
      | g => do o <- fetch g; Ok (match o with Some n => Some (n, false) | None => None end)
      end.

  Inductive found := FList (i : num) | FMap (m : dcmap).
  Fixpoint find_child (n : name) (cs : children) : option found :=
    match cs with
    | KNone => None
    | KList k i cs => if name_eq_ci n k then Some (FList i) else find_child n cs
    | KMap k m cs => if name_eq_ci n k then Some (FMap m) else find_child n cs
    end.
  (** [dcmap_llc_], dcmap.c:131-159.  Every turn and every call takes one level;
      [fuel] counts them. *)
  Fixpoint dcmap_llc (is_city : bool) (e : entry) (fuel : nat) (m : dcmap) (level : nat) (out : bool) : res (option num) :=
    match fuel with
    | 0 => UB
    | S fuel =>
        match m with
        | DMap def KNone => Ok (Some def)
        | DMap def cs =>
            do o <- dcmap_cb is_city e level out;
            match o with
            | None => Ok None
            | Some ([], _) => Ok (Some def)
            | Some (n, out) =>
                match find_child n cs with
                | Some (FMap m) => dcmap_llc is_city e fuel m (S level) out
                | Some (FList i) => Ok (Some i)
                | None => if 2 <? S level then dcmap_llc is_city e fuel m (S level) out else Ok (Some def)
                end
            end
        end
    end.

  (** Distances; [None]: +INFINITY. *)
  Definition lt (a b : option D) : bool :=
    match a, b with
    | Some a, Some b => ltb a b
    | Some _, None => true
    | None, _ => false
    end.
  (** dists[], dclists.c:206-215; its element 0 is not set *)
  Definition dists (info : dcinfo) (p : P) : list (option D) := map (option_map (geodist p)) (i_coords info).
  Definition dist (ds : list (option D)) (dc : nat) : res (option D) := match dc with 0 => UB | S i => rd ds i end.
  (** The inner loop of the sort, dclists.c:221-226, from j = k - 1 down. *)
  Fixpoint shift (ds : list (option D)) (l : list nat) (temp k : nat) : res (list nat) :=
    match k with
    | 0 => wr l 0 [temp]
    | S j =>
        do x <- rd l j; do dt <- dist ds temp; do dx <- dist ds x;
        if lt dt dx then do l <- wr l (S j) [x]; shift ds l temp j
        else wr l (S j) [temp]
    end.
  (** The outer loop, dclists.c:219-227: [todo] more turns from [i] on. *)
  Fixpoint sort (ds : list (option D)) (l : list nat) (i todo : nat) : res (list nat) :=
    match todo with
    | 0 => Ok l
    | S todo => do t <- rd l i; do l <- shift ds l t i; sort ds l (S i) todo
    end.
  Fixpoint dcstr (l : list nat) : list nat := match l with [] => [] | c :: l => if c =? 0 then [] else c :: dcstr l end.
  (** [dclists_city_auto_map], dclists.c:188-233 *)
  Definition city_auto_map (info : dcinfo) (d : dclists) (p : P) : res (nat * dclists) :=
    let num := length (i_names info) in
    rassert (num <=? MAX_NUM_DCS) (
    do l0 <- rd d 0;
    do l <- rdn (l0 ++ [0]) 0 (S num);  (* memcpy of num_dcs + 1 bytes of a string of its own size *)
    do l <- sort (dists info p) l 1 (num - 1);
    do l <- wr l (i_limit info) [0];
    Ok (find_or_add d (dcstr l))).

  (** [geoip2_get_dclist], gdgeoip2.c:293-333; [e_lat_lon] is both doubles:
      [Absent] if one of them is missing. *)
  Definition get_dclist (info : dcinfo) (auto is_city : bool) (m : option dcmap) (d : dclists) (e : entry) : res (option (nat * dclists)) :=
    do o <- match m with None => Ok (Some Auto) | Some m => dcmap_llc is_city e 16 m 0 false end;
    match o with
    | None => Ok None
    | Some (Num i) => Ok (Some (i, d))
    | Some Auto =>
        rassert (auto && is_city)
        match e_lat_lon e with
        | Broken => Ok None
        | Absent => Ok (Some (0, d))
        | Got p => do r <- city_auto_map info d p; Ok (Some r)
        end
    end.

  (** The cache by offset, geoip2_get_dclist_cached, gdgeoip2.c:335-357: hash
      buckets are one list here.  [entries]: the entry at an offset. *)
  Definition cache := list (nat * nat).
  Fixpoint cached (c : cache) (off : nat) : option nat :=
    match c with [] => None | (o, i) :: c => if o =? off then Some i else cached c off end.
  Definition get_cached (info : dcinfo) (auto is_city : bool) (m : option dcmap) (entries : nat -> entry) (d : dclists) (c : cache) (off : nat) : res (option (nat * dclists * cache)) :=
    match cached c off with
    | Some i => Ok (Some (i, d, c))
    | None => do r <- get_dclist info auto is_city m d (entries off);
              Ok (match r with Some (i, d) => Some (i, d, c ++ [(off, i)]) | None => None end)
    end.
  (** A walk over the database asks for entries in some order. *)
  Fixpoint get_all (info : dcinfo) (auto is_city : bool) (m : option dcmap) (entries : nat -> entry) (d : dclists) (c : cache) (offs : list nat) : res (option (list nat * dclists)) :=
    match offs with
    | [] => Ok (Some ([], d))
    | o :: offs =>
        do r <- get_cached info auto is_city m entries d c o;
        match r with
        | None => Ok None
        | Some (i, d, c) => do r <- get_all info auto is_city m entries d c offs;
                            Ok (match r with Some (is, d) => Some (i :: is, d) | None => None end)
        end
    end.
End Loc.
Arguments Got {A} _.
Arguments Absent {A}.
Arguments Broken {A}.
