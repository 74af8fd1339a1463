(** What the stanza maps of the plugin geoip means *)
From Coq Require Import String ZArith.
From Verif Require Import Base DnameModel CompModel RespModel MonModel VscfModel VscfSpec OptModel VhashModel VhashSpec PlugModel MsgModel LtreeModel PconfModel PconfSpec McfModel McfSpec GmapModel.
From Verif Require LocModel LocSpec NetModel NetSpec.
Local Open Scope N_scope.
Local Open Scope list_scope.
Local Notation length := List.length.

(** ** Data *)
Definition strings (x : vnode) : option (list bytes) := all (fun y => match y with VS _ v => Some (c_str v) | _ => None end) (elements x).
Definition t_auto : bytes := txt "auto".

(** From -k to k, in degrees: m 2^e <= k.  What is not a number is let through. *)
Definition within (k : N) (d : dbl) : bool :=
  match d with
  | NaN => true
  | Inf _ => false
  | Fin _ m e => (Z.of_N m * 2 ^ Z.max 0 e <=? Z.of_N k * 2 ^ Z.max 0 (- e))%Z
  end.

(** One to 254 datacenters, none of which is called auto *)
Definition centers_say (x : vnode) : option (list bytes) :=
  let? l <- strings x ;
  let? _ <- need (Nat.leb 1 (length l) && Nat.leb (length l) 254 && negb (among l t_auto)) ;
  Some l.
(** A list of datacenters, or auto if there are coordinates *)
Definition list_says (names : list bytes) (auto : bool) (x : vnode) : option (list bytes) :=
  let? l <- strings x ;
  let? _ <- need (forallb (among names) l || (auto && match l with [n] => bytes_eqb n t_auto | _ => false end)) ;
  Some l.
(** A map of places: lists and maps inside, and a default *)
Fixpoint places (names : list bytes) (auto : bool) (x : vnode) : option LocModel.mapcfg :=
  match x with
  | VH h =>
      let? def <- match get k_default h with None => Some None | Some y => let? l <- list_says names auto y ; Some (Some l) end ;
      let? es <- (fix go (es : list (bytes * vnode)) : option LocModel.entries :=
                    match es with
                    | [] => Some LocModel.ENone
                    | (k, y) :: es' =>
                        if bytes_eqb k_default k then go es'
                        else match y with
                             | VH _ => let? m <- places names auto y ; let? r <- go es' ; Some (LocModel.ESub (c_str k) m r)
                             | _ => let? l <- list_says names auto y ; let? r <- go es' ; Some (LocModel.EList (c_str k) l r)
                             end
                    end) h ;
      Some (LocModel.Hash def es)
  | _ => None
  end.

(** No list is longer than the code has room for *)
Inductive short : vnode -> Prop :=
| sh_hash h : Forall (fun e => short (snd e)) h -> short (VH h)
| sh_list x : (forall h, x <> VH h) -> (length (elements x) <= 255)%nat -> short x.

(** ** What is wanted *)
Definition net_want : Type := addr * N * list bytes.
Inductive nets_want := Listed (l : list net_want) | InFile (path : bytes).
Record map_want := { w_name : bytes; w_names : list bytes; w_coords : option (list (bytes * point)); w_limit : option N; w_ignore : bool;
                     w_db : option bytes; w_map : option LocModel.mapcfg; w_nets : nets_want }.

Section Meaning.
  Variable gai_net : bytes -> bytes -> option (addr * N).
  Variable strtod : bytes -> option dbl.

  Definition coords_say (names : list bytes) (x : vnode) : option (list (bytes * point)) :=
    match x with
    | VH h =>
        all (fun e => match snd e with
                      | VA [VS _ lat; VS _ lon] =>
                          let? a <- strtod lat ; let? o <- strtod lon ;
                          let? _ <- need (within 90 a && within 180 o && among names (c_str (fst e))) ;
                          Some (c_str (fst e), (a, o))
                      | _ => None
                      end) h
    | _ => None
    end.
  (** An address and the length of a prefix; not inside of a space that stands for IPv4 *)
  Definition prefix_ok (a : addr) (n : N) : bool :=
    match a with
    | A4 _ => n <=? 32
    | A6 b => (n <=? 128) && forallb (fun p => negb ((8 * N.of_nat (length p) <=? n) && NetSpec.startsb b p)) NetSpec.v4_prefixes
    end.
  Definition key_says (k : bytes) : option (addr * N) :=
    let? _ <- need (Nat.ltb (length k) 86) ;
    let? t <- cut_slash (c_str k) ;
    let? x <- gai_net (fst t) (snd t) ;
    let? _ <- need (prefix_ok (fst x) (snd x)) ;
    Some x.
  Definition nets_say (names : list bytes) (h : hash) : option (list net_want) :=
    all (fun e => let? x <- key_says (fst e) ; let? l <- list_says names false (snd e) ; Some (x, l)) h.
  Definition file_says (x : vnode) : option bytes := match x with VS _ (c :: v) => Some (c_str (c :: v)) | _ => None end.

  Definition map_says (e : bytes * vnode) : option map_want :=
    match snd e with
    | VH h =>
        let? c <- get k_centers h ;
        let? names <- centers_say c ;
        let? auto <- match get k_coords h with None => Some None | Some x => let? l <- coords_say names x ; Some (Some l) end ;
        let? limit <- match get k_limit h with None => Some None | Some (VS _ v) => let? n <- as_ulong v ; Some (Some n) | Some _ => None end ;
        let? ign <- boolean (get k_ecs h) ;
        let? db <- match get k_db h with None => Some None | Some x => let? p <- file_says x ; Some (Some p) end ;
        let? m <- match get k_map h with
                  | None => Some None
                  | Some x => let? _ <- need (LocSpec.has db) ; let? m <- places names (LocSpec.has auto) x ; Some (Some m)
                  end ;
        let? nets <- match get k_nets h with
                     | None => Some (Listed [])
                     | Some (VH t) => let? l <- nets_say names t ; Some (Listed l)
                     | Some x => let? p <- file_says x ; Some (InFile p)
                     end ;
        let? _ <- need (only_b map_keys h) ;
        Some {| w_name := c_str (fst e); w_names := names; w_coords := auto; w_limit := limit; w_ignore := ign; w_db := db; w_map := m; w_nets := nets |}
    | _ => None
    end.
  Definition maps_mean (h : hash) : option (list map_want) := all map_says h.

  (** What the code relies on: see C64_ignore_refuted and C45_long_list_refuted *)
  Definition sane (x : vnode) : Prop :=
    forall h, x = VH h ->
      (forall y, get k_ecs h = Some y -> exists r v, y = VS r v) /\
      (forall y, get k_coords h = Some (VH y) -> NoDup (map (fun e => c_str (fst e)) y)) /\
      (forall y, get k_map h = Some y -> short y) /\
      (forall y, get k_nets h = Some (VH y) -> Forall (fun e => (length (elements (snd e)) <= 255)%nat) y).

  (** ** What is made *)
  Definition cnet_for (a : addr) (n : N) (j : nat) : NetModel.cnet :=
    match a with A4 b => NetModel.CN4 b (N.to_nat n) (N.of_nat j) | A6 b => NetModel.CN6 b (N.to_nat n) (N.of_nat j) end.
  (** The number of a datacenter, from 1; that of the first, if there are two of the name *)
  Definition numbered (names : list bytes) (n : bytes) (i : nat) : Prop :=
    (1 <= i)%nat /\ nth_error names (i - 1) = Some n /\ forall j, (j < i - 1)%nat -> nth_error names j <> Some n.
  (** A network leads to the number of a list of the numbers of its datacenters, and to the first such list *)
  Definition leads (names : list bytes) (d : LocModel.dclists) (w : net_want) (c : NetModel.cnet) : Prop :=
    exists j l, c = cnet_for (fst (fst w)) (snd (fst w)) j /\ nth_error d j = Some l /\ (forall k, (k < j)%nat -> nth_error d k <> Some l) /\ Forall2 (numbered names) (snd w) l.
  Definition info_made (w : map_want) (i : LocModel.dcinfo point) : Prop :=
    LocModel.i_names i = w_names w /\
    length (LocModel.i_coords i) = length (w_names w) /\
    LocModel.i_limit i = LocSpec.limit_for (option_map N.to_nat (w_limit w)) (match w_coords w with Some l => length l | None => length (w_names w) end) /\
    (forall n p, In p (match w_coords w with Some l => l | None => [] end) -> fst p = n -> fst (snd p) <> NaN ->
       exists j, nth_error (w_names w) j = Some n /\ nth_error (LocModel.i_coords i) j = Some (Some (snd p))) /\
    (forall j p, nth_error (LocModel.i_coords i) j = Some (Some p) -> exists n l, w_coords w = Some l /\ In (n, p) l /\ nth_error (w_names w) j = Some n) /\
    LocModel.dcinfo_init bad_point nan_point (w_names w) (w_coords w) (option_map N.to_nat (w_limit w)) = Some i.
  Definition map_made (sort : list NetModel.net -> list NetModel.net) (w : map_want) (g : gdmap) : Prop :=
    g_name g = w_name w /\ info_made w (g_info g) /\ g_auto g = LocSpec.has (w_coords w) /\ g_ignore g = w_ignore w /\ g_path g = w_db w /\
    (exists d t, g_lists g = d ++ t /\ (length t <= match w_nets w with Listed l => length l | InFile _ => 0 end)%nat /\
      match w_map w with
      | None => g_map g = None /\ d = LocModel.dclists_new (g_info g)
      | Some m => exists dm, g_map g = Some dm /\ LocModel.dcmap_new (g_info g) (g_auto g) m (LocModel.dclists_new (g_info g)) (LocModel.Num 0) 0 = Ok (Some (dm, d))
      end) /\
    match w_nets w with
    | InFile p => g_nets g = NetsFile p
    | Listed l => exists cs nl b, Forall2 (leads (w_names w) (g_lists g)) l cs /\ NetModel.nets_make_list sort cs = Ok (Some (nl, b)) /\ g_nets g = NetsHere nl b
    end.
End Meaning.

(** ** What clients get *)

(** The network of a line *)
Definition line_net (w : net_want) : NetModel.net := NetSpec.the_net (cnet_for (fst (fst w)) (snd (fst w)) 0).
(** The same network is not given two times with different datacenters *)
Definition agreed (l : list net_want) : Prop :=
  forall a b, In a l -> In b l -> NetModel.n_mask (line_net a) = NetModel.n_mask (line_net b) ->
    NetSpec.share (NetModel.n_mask (line_net a)) (NetModel.n_ip (line_net a)) (NetModel.n_ip (line_net b)) -> snd a = snd b.
(** The names for an address: those of a longest network that covers it; without one, all datacenters *)
Definition names_for (all_names : list bytes) (l : list net_want) (x : bytes) (names : list bytes) : Prop :=
  (exists w, In w l /\ NetSpec.covers (line_net w) x /\ snd w = names /\
    forall w', In w' l -> NetSpec.covers (line_net w') x -> (NetModel.n_mask (line_net w') <= NetModel.n_mask (line_net w))%nat) \/
  ((forall w, In w l -> ~ NetSpec.covers (line_net w) x) /\ names = all_names).
Definition addr_ok (a : addr) : Prop := match a with A4 b => length b = 4%nat /\ all_bytes b | A6 b => length b = 16%nat /\ all_bytes b end.
