(** Reloading the data of a network map while readers use it: libgdmaps/gdmaps.c
    and libgdmaps/dclists.c. *)
From Verif Require Import Base.
Set Implicit Arguments.

Section Maps.
  (** Networks and clients are anything.  [choose] is the lookup in the tree
      built from a database and configured networks (nlist_merge2_tree,
      nlist_xlate_tree and ntree_lookup, modelled in NetModel.v): the label of
      the network that decides, or none. *)
  Variables Net Client : Type.
  Variable choose : forall D : Type, option (list (Net * D)) -> list (Net * D) -> Client -> option D.

  (** A datacenter list: nonzero numbers, the terminator left out. *)
  Definition dclist := list nat.
  (** What a file holds: networks and their datacenter lists; and an nlist_t, with list numbers. *)
  Definition file := list (Net * dclist).
  Definition nlist := list (Net * nat).
  (** [ntree_t]: what it was made from; [v_no] only tells which update made it. *)
  Record tree := { t_geo : option nlist; t_nets : nlist; v_no : nat }.

  (** The heap.  An object is known by its number; [None] was freed. *)
  Record heap := { strings : list (option dclist); arrays : list (option (list nat)); trees : list (option tree) }.
  Definition live {A} (l : list (option A)) (p : nat) : res A := match nth_error l p with Some (Some x) => Ok x | _ => UB end.
  Definition kill {A} (l : list (option A)) (p : nat) : res (list (option A)) := do _ <- live l p; Ok (upd l p None).

  (** [dclists_t] while only the updater sees it, dclists.h: the strings, and how
      many of them are shared with the lists it was cloned from. *)
  Record dclists := { d_list : list nat; d_old : nat }.

  (** The search of [dclists_find_or_add_raw], dclists.c:114-116. *)
  Fixpoint find_list (h : heap) (l : list nat) (i : nat) (new : dclist) : res (option nat) :=
    match l with
    | [] => Ok None
    | p :: l => do s <- live (strings h) p; if list_eq_dec Nat.eq_dec s new then Ok (Some i) else find_list h l (S i) new
    end.
  (** [dclists_find_or_add_raw], dclists.c:111-128.  The limit of 2^31-1 lists
      is left out. *)
  Definition find_or_add (h : heap) (d : dclists) (new : dclist) : res (nat * heap * dclists) :=
    do f <- find_list h (d_list d) 0 new;
    match f with
    | Some i => Ok (i, h, d)
    | None => Ok (length (d_list d), {| strings := strings h ++ [Some new]; arrays := arrays h; trees := trees h |},
                  {| d_list := d_list d ++ [length (strings h)]; d_old := d_old d |})
    end.
  (** A load goes through the file and adds the lists it finds: the loops of
      [nets_make_list] and [gdgeoip2_make_list]. *)
  Fixpoint load_file (h : heap) (d : dclists) (f : file) : res (nlist * heap * dclists) :=
    match f with
    | [] => Ok ([], h, d)
    | (n, l) :: f => do (i, h, d) <- find_or_add h d l; do (r, h, d) <- load_file h d f; Ok ((n, i) :: r, h, d)
    end.

  (** A reader (an I/O thread): [r_in]: between going online and its next
      quiescent state; what it has read so far of one lookup; the lists it got. *)
  Inductive rpc := Nothing | HasTree (c : Client) (t : nat) | HasIndex (c : Client) (v i : nat) | HasArray (c : Client) (v i a : nat)
  | Early (a : nat) | EarlyTree (c : Client) (t a : nat).  (* only with loads out of order *)
  (** [r_from]: how many updates had been published when the section began. *)
  Record reader := { r_in : bool; r_from : nat; r_pc : rpc; r_held : list (Client * nat * nat) }.
  Record answer := { a_client : Client; a_from : nat; a_version : nat; a_list : dclist }.
  (** The updater: within [gdmap_tree_update] or not; the old tree and lists. *)
  Inductive wpc := Idle | Lists (t : tree) (old_tree old_lists : option nat) | Tree (old_tree old_lists : option nat) | Sync (waiting : list nat) (old_tree old_lists : option nat).
  Record state := {
    h : heap;
    p_tree : option nat; p_lists : option nat;   (* gdmap->tree, gdmap->dclists *)
    pend : option dclists;                       (* gdmap->dclists_pend, held by value: between gdmaps.c:171 and 175 the code has
                                                    the pending and the published pointer denote one object, the model two equal ones *)
    geo : option nlist; nets : nlist;            (* gdmap->geoip_list, gdmap->nets_list *)
    versions : nat;                              (* updates so far *)
    w_pc : wpc;
    readers : list reader;
    answers : list answer }.                     (* what readers found: for whom, in which update's tree *)

  Definition set_reader (s : state) (r : nat) (x : reader) : state :=
    {| h := h s; p_tree := p_tree s; p_lists := p_lists s; pend := pend s; geo := geo s; nets := nets s; versions := versions s; w_pc := w_pc s; readers := upd (readers s) r x; answers := answers s |}.

  Inductive op :=
  | Load (g : bool) (f : file) (ok : bool)  (* a database or networks file is loaded: how far it was read, and whether all was well *)
  | Update                                   (* the updater goes one step further in gdmap_tree_update *)
  | Enter (r : nat) | Leave (r : nat)        (* rcu read section *)
  | Read (r : nat) (c : Client)              (* the reader goes one step further in gdmap_lookup *)
  | Prefetch (r : nat)                       (* the processor does the reader's second load before the first *)
  | Use (r : nat).                           (* the reader looks at the lists it got *)

  (** free the strings from [n] on: dclists_destroy with KILL_NEW_LISTS, dclists.c:242-245 *)
  Fixpoint kill_strings (l : list (option dclist)) (ps : list nat) : res (list (option dclist)) :=
    match ps with
    | [] => Ok l
    | p :: ps => do l <- kill l p; kill_strings l ps
    end.

  (** [gdmap_update_geoip] and [gdmap_update_nets], gdmaps.c:184-263. *)
  Definition do_load (s : state) (g : bool) (f : file) (ok : bool) : res state :=
    do d <- match pend s with
            | Some d => Ok d
            | None =>
                (* dclists_clone, dclists.c:81-90 *)
                match p_lists s with
                | None => UB
                | Some p => do l <- live (arrays (h s)) p; Ok {| d_list := l; d_old := length l |}
                end
            end;
    do (nl, h', d) <- load_file (h s) d f;
    if ok then
      Ok {| h := h'; p_tree := p_tree s; p_lists := p_lists s; pend := Some d; geo := if g then Some nl else geo s; nets := if g then nets s else nl;
            versions := versions s; w_pc := w_pc s; readers := readers s; answers := answers s |}
    else
      match pend s with
      | Some _ =>
          (* the lists that were added stay *)
          Ok {| h := h'; p_tree := p_tree s; p_lists := p_lists s; pend := Some d; geo := geo s; nets := nets s; versions := versions s; w_pc := w_pc s; readers := readers s; answers := answers s |}
      | None =>
          do st <- kill_strings (strings h') (skipn (d_old d) (d_list d));
          Ok {| h := {| strings := st; arrays := arrays h'; trees := trees h' |}; p_tree := p_tree s; p_lists := p_lists s; pend := None; geo := geo s; nets := nets s; versions := versions s; w_pc := w_pc s; readers := readers s; answers := answers s |}
      end.

  Definition kill_opt {A} (l : list (option A)) (p : option nat) : res (list (option A)) := match p with None => Ok l | Some p => kill l p end.
  (** The readers inside a read section. *)
  Fixpoint inside (l : list reader) (i : nat) : list nat :=
    match l with
    | [] => []
    | r :: l => if r_in r then i :: inside l (S i) else inside l (S i)
    end.

  (** [gdmap_tree_update], gdmaps.c:155-182, in four steps: assign the lists,
      assign the tree, begin and end synchronize_rcu, then the rest. *)
  Definition do_update (s : state) : res state :=
    match w_pc s with
    | Idle =>
        match pend s with
        | None => Ok s  (* the update timer is only started when an update is pending *)
        | Some d =>
            let t := {| t_geo := geo s; t_nets := nets s; v_no := versions s |} in
            Ok {| h := {| strings := strings (h s); arrays := arrays (h s) ++ [Some (d_list d)]; trees := trees (h s) |};
                  p_tree := p_tree s; p_lists := Some (length (arrays (h s))); pend := pend s; geo := geo s; nets := nets s; versions := versions s;
                  w_pc := Lists t (p_tree s) (p_lists s); readers := readers s; answers := answers s |}
        end
    | Lists t ot ol =>
        Ok {| h := {| strings := strings (h s); arrays := arrays (h s); trees := trees (h s) ++ [Some t] |};
              p_tree := Some (length (trees (h s))); p_lists := p_lists s; pend := pend s; geo := geo s; nets := nets s; versions := S (versions s);
              w_pc := Tree ot ol; readers := readers s; answers := answers s |}
    | Tree ot ol =>
        Ok {| h := h s; p_tree := p_tree s; p_lists := p_lists s; pend := pend s; geo := geo s; nets := nets s; versions := versions s;
              w_pc := Sync (inside (readers s) 0) ot ol; readers := readers s; answers := answers s |}
    | Sync [] ot ol =>
        do tr <- kill_opt (trees (h s)) ot;
        do ar <- kill_opt (arrays (h s)) ol;  (* dclists_destroy with KILL_NO_LISTS: the array only *)
        Ok {| h := {| strings := strings (h s); arrays := ar; trees := tr |};
              p_tree := p_tree s; p_lists := p_lists s; pend := None; geo := geo s; nets := nets s; versions := versions s;
              w_pc := Idle; readers := readers s; answers := answers s |}
    | Sync _ _ _ => Ok s  (* blocked *)
    end.

  (** [ntree_lookup] on a tree object *)
  Definition lookup (t : tree) (c : Client) : nat := match choose (t_geo t) (t_nets t) c with Some i => i | None => 0 end.

  (** [gdmap_lookup], gdmaps.c:438-460, in four steps: dereference the tree, look
      the client up, dereference the lists, get the list. *)
  Definition do_read (s : state) (r : nat) (c : Client) : res state :=
    match nth_error (readers s) r with
    | None => Ok s
    | Some x =>
        if negb (r_in x) then Ok s
        else match r_pc x with
        | Nothing =>
            match p_tree s with
            | None => Ok s  (* readers are started after the first update *)
            | Some t => Ok (set_reader s r {| r_in := true; r_from := r_from x; r_pc := HasTree c t; r_held := r_held x |})
            end
        | HasTree c t => do o <- live (trees (h s)) t; Ok (set_reader s r {| r_in := true; r_from := r_from x; r_pc := HasIndex c (v_no o) (lookup o c); r_held := r_held x |})
        | HasIndex c v i =>
            match p_lists s with
            | None => UB
            | Some a => Ok (set_reader s r {| r_in := true; r_from := r_from x; r_pc := HasArray c v i a; r_held := r_held x |})
            end
        | HasArray c v i a =>
            (* dclists_get_list, dclists.c:98-103; idx < lists->count is asserted *)
            do l <- live (arrays (h s)) a;
            do p <- rd l i;
            Ok (set_reader s r {| r_in := true; r_from := r_from x; r_pc := Nothing; r_held := (c, v, p) :: r_held x |})
        | Early a =>
            match p_tree s with
            | None => Ok s
            | Some t => Ok (set_reader s r {| r_in := true; r_from := r_from x; r_pc := EarlyTree c t a; r_held := r_held x |})
            end
        | EarlyTree c t a => do o <- live (trees (h s)) t; Ok (set_reader s r {| r_in := true; r_from := r_from x; r_pc := HasArray c (v_no o) (lookup o c) a; r_held := r_held x |})
        end
    end.

  Definition do_prefetch (s : state) (r : nat) : res state :=
    match nth_error (readers s) r with
    | None => Ok s
    | Some x =>
        if negb (r_in x) then Ok s
        else match r_pc x, p_lists s with
        | Nothing, Some a => Ok (set_reader s r {| r_in := true; r_from := r_from x; r_pc := Early a; r_held := r_held x |})
        | _, _ => Ok s
        end
    end.

  (** The caller reads the lists it got earlier in the same read section. *)
  Fixpoint use_all (from : nat) (st : list (option dclist)) (l : list (Client * nat * nat)) : res (list answer) :=
    match l with
    | [] => Ok []
    | (c, v, p) :: l => do s <- live st p; do r <- use_all from st l; Ok ({| a_client := c; a_from := from; a_version := v; a_list := s |} :: r)
    end.
  Definition step (s : state) (o : op) : res state :=
    match o with
    | Load g f ok => match w_pc s with Idle => do_load s g f ok | _ => Ok s end  (* one thread does both *)
    | Update => do_update s
    | Enter r => match nth_error (readers s) r with
                 | Some x => if r_in x then Ok s else Ok (set_reader s r {| r_in := true; r_from := versions s; r_pc := Nothing; r_held := [] |})
                 | None => Ok s
                 end
    | Leave r => match nth_error (readers s) r with
                 | Some x =>
                     let s := set_reader s r {| r_in := false; r_from := 0; r_pc := Nothing; r_held := [] |} in
                     match w_pc s with
                     | Sync w ot ol => Ok {| h := h s; p_tree := p_tree s; p_lists := p_lists s; pend := pend s; geo := geo s; nets := nets s; versions := versions s;
                                             w_pc := Sync (remove Nat.eq_dec r w) ot ol; readers := readers s; answers := answers s |}
                     | _ => Ok s
                     end
                 | None => Ok s
                 end
    | Read r c => do_read s r c
    | Prefetch r => do_prefetch s r
    | Use r => match nth_error (readers s) r with
               | Some x => do a <- use_all (r_from x) (strings (h s)) (r_held x);
                           Ok {| h := h s; p_tree := p_tree s; p_lists := p_lists s; pend := pend s; geo := geo s; nets := nets s; versions := versions s; w_pc := w_pc s; readers := readers s; answers := a ++ answers s |}
               | None => Ok s
               end
    end.
  Fixpoint run (s : state) (ops : list op) : res state :=
    match ops with
    | [] => Ok s
    | o :: ops => do s <- step s o; run s ops
    end.
  (** After [gdmap_init]: the default list, dclists.c:63-79, the lists named in the
      map's configuration ([dcmap_new]), and no data; [n] readers. *)
  Definition start (default : dclist) (more : list dclist) (n : nat) : state :=
    {| h := {| strings := Some default :: map Some more; arrays := []; trees := [] |}; p_tree := None; p_lists := None;
       pend := Some {| d_list := seq 0 (S (length more)); d_old := 0 |};
       geo := None; nets := []; versions := 0; w_pc := Idle; readers := repeat {| r_in := false; r_from := 0; r_pc := Nothing; r_held := [] |} n; answers := [] |}.
End Maps.
Arguments Nothing {Client}.
Arguments Early {Client} _.
Arguments Idle {Net}.
Arguments Tree {Net} _ _.
Arguments Sync {Net} _ _ _.
Arguments Update {Net Client}.
Arguments Enter {Net Client} _.
Arguments Leave {Net Client} _.
Arguments Read {Net Client} _ _.
Arguments Load {Net Client} _ _ _.
Arguments Prefetch {Net Client} _.
Arguments Use {Net Client} _.
Arguments start {Net Client} _ _ _.
