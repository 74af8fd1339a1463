(** The hash tables of the configuration data, and what is done with whole trees of them:
    libgdnsd/vscf.rl:72-202, 293-360, 930-1027, 1110-1190.
    Simplifications: a chain of entries is a list; entries are numbers into [heap], in the order
    they were made, and stand for pointers; parents are left out (only vscf_is_... and destruction
    use them); nothing is freed; memory allocation does not fail. *)
From Verif Require Import Base CompModel.
From Verif Require Import OptModel.
Local Open Scope N_scope.

(** [count2mask], include/gdnsd/misc.h:89-116 *)
Definition count2mask (x : N) : N := 2 ^ (N.log2 (N.lor x 1) + 1) - 1.

(** [vscf_hentry_t], vscf.rl:72-80, and [vscf_hash_t], lines 82-88.  Slots of [ordered] that were
    not written yet are [None]; [children] is empty before the first entry is added. *)
Record hentry (V : Type) := He { hkey : bytes; hindex : N; hmark : bool; hval : V }.
Record vhash (V : Type) := Vh { child_count : N; children : list (list nat); ordered : list (option nat); heap : list (hentry V) }.
Arguments He {V}. Arguments hkey {V}. Arguments hindex {V}. Arguments hmark {V}. Arguments hval {V}.
Arguments Vh {V}. Arguments child_count {V}. Arguments children {V}. Arguments ordered {V}. Arguments heap {V}.

Section Hash.
  (** hash_mm3_u32 *)
  Variable mm3 : bytes -> N.

  (** lines 124-128 *)
  Definition key_hash (k : bytes) (mask : N) : nat := N.to_nat (N.land (mm3 k) mask).

  Section Flat.
    Context {V : Type}.
    Implicit Types h : vhash V.

    (** lines 130-136 *)
    Definition hash_new : vhash V := Vh 0 [] [] [].

    (** The entry behind a slot of [ordered] *)
    Definition at_index h (i : nat) : res (nat * hentry V) :=
      do o <- rd (ordered h) i ;
      match o with
      | Some id => do e <- rd (heap h) id ; Ok (id, e)
      | None => UB
      end.

    (** The chain of entries, lines 145-161: to the end of its new chain with each *)
    Fixpoint rehash (hp : list (hentry V)) (mask : N) (chain : list nat) (tbl : list (list nat)) : res (list (list nat)) :=
      match chain with
      | [] => Ok tbl
      | id :: chain' =>
          do e <- rd hp id ;
          do c <- rd tbl (key_hash (hkey e) mask) ;
          rehash hp mask chain' (upd tbl (key_hash (hkey e) mask) (c ++ [id]))
      end.

    Fixpoint rehash_all (hp : list (hentry V)) (mask : N) (n i : nat) (old tbl : list (list nat)) : res (list (list nat)) :=
      match n with
      | O => Ok tbl
      | S n' =>
          do chain <- rd old i ;
          do tbl' <- rehash hp mask chain tbl ;
          rehash_all hp mask n' (S i) old tbl'
      end.

    (** lines 138-168 *)
    Definition hash_grow h : res (vhash V) :=
      let old_mask := count2mask (child_count h) in
      let new_mask := N.lor (N.shiftl old_mask 1 mod two32) 1 in
      let size := N.to_nat ((new_mask + 1) mod two32) in
      do tbl <- rehash_all (heap h) new_mask (N.to_nat (old_mask + 1)) 0 (children h) (repeat [] size) ;
      Ok (Vh (child_count h) tbl (firstn size (ordered h) ++ repeat None (size - length (ordered h))) (heap h)).

    (** The search along a chain, lines 184-190, 946-953, 988-992 *)
    Fixpoint find (hp : list (hentry V)) (k : bytes) (chain : list nat) : res (option nat) :=
      match chain with
      | [] => Ok None
      | id :: chain' =>
          do e <- rd hp id ;
          if bytes_eqb k (hkey e) then Ok (Some id) else find hp k chain'
      end.

    (** lines 170-205: the new entry is put at the end of its chain, then the table may grow *)
    Definition hash_add_val (k : bytes) (v : V) h : res (bool * vhash V) :=
      let h1 := match children h with
                | [] => Vh (child_count h) [[]; []] [None; None] (heap h)
                | _ => h
                end in
      let mask := count2mask (child_count h1) in
      let slot := key_hash k mask in
      do chain <- rd (children h1) slot ;
      do found <- find (heap h1) k chain ;
      match found with
      | Some _ => Ok (false, h1)
      | None =>
          let id := length (heap h1) in
          let h2 := Vh (child_count h1) (upd (children h1) slot (chain ++ [id])) (ordered h1)
                       (heap h1 ++ [He k (child_count h1) false v]) in
          do h3 <- (if child_count h2 =? mask then hash_grow h2 else Ok h2) ;
          do ord <- wr (ordered h3) (N.to_nat (child_count h3)) [Some id] ;
          Ok (true, Vh ((child_count h3 + 1) mod two32) (children h3) ord (heap h3))
      end.

    Definition lookup (k : bytes) h : res (option nat) :=
      if child_count h =? 0 then Ok None
      else
        do chain <- rd (children h) (key_hash k (count2mask (child_count h))) ;
        find (heap h) k chain.

    Definition set_mark (id : nat) (e : hentry V) h : vhash V :=
      Vh (child_count h) (children h) (ordered h) (upd (heap h) id (He (hkey e) (hindex e) true (hval e))).

    (** lines 939-957 *)
    Definition get_bykey (k : bytes) (mark : bool) h : res (option V * vhash V) :=
      do o <- lookup k h ;
      match o with
      | None => Ok (None, h)
      | Some id => do e <- rd (heap h) id ; Ok (Some (hval e), if mark then set_mark id e h else h)
      end.

    (** lines 959-979 *)
    Definition key_byindex (i : N) h : res (option bytes) :=
      if child_count h <=? i then Ok None
      else do (id, e) <- at_index h (N.to_nat i) ; Ok (Some (hkey e)).
    Definition data_byindex (i : N) h : res (option V) :=
      if child_count h <=? i then Ok None
      else do (id, e) <- at_index h (N.to_nat i) ; Ok (Some (hval e)).

    (** lines 981-996; -1 is [None] *)
    Definition index_bykey (k : bytes) h : res (option N) :=
      do o <- lookup k h ;
      match o with
      | None => Ok None
      | Some id => do e <- rd (heap h) id ; Ok (Some (hindex e))
      end.

    (** lines 998-1018: the entries given to the callback; it is told all that it was given so far
        (so it may remember anything) and says whether to go on *)
    Fixpoint iter (n i : nat) (ignore_mark : bool) (f : list (bytes * V) -> bool) (seen : list (bytes * V)) h : res (list (bytes * V)) :=
      match n with
      | O => Ok seen
      | S n' =>
          do (id, e) <- at_index h i ;
          if negb ignore_mark || negb (hmark e) then
            let seen' := seen ++ [(hkey e, hval e)] in
            if negb (f seen') then Ok seen' else iter n' (S i) ignore_mark f seen' h
          else iter n' (S i) ignore_mark f seen h
      end.
    Definition hash_iterate (ignore_mark : bool) (f : list (bytes * V) -> bool) h : res (list (bytes * V)) :=
      iter (N.to_nat (child_count h)) 0 ignore_mark f [] h.

    (** lines 1020-1028; [srt] is qsort: given the keys, where each place is to be filled from *)
    Fixpoint slot_keys (n i : nat) h : res (list bytes) :=
      match n with
      | O => Ok []
      | S n' => do (id, e) <- at_index h i ; do ks <- slot_keys n' (S i) h ; Ok (hkey e :: ks)
      end.
    Fixpoint from_places {A} (l : list A) (ps : list nat) : res (list A) :=
      match ps with
      | [] => Ok []
      | p :: ps' => do a <- rd l p ; do as_ <- from_places l ps' ; Ok (a :: as_)
      end.
    Fixpoint renumber (n i : nat) h : res (vhash V) :=
      match n with
      | O => Ok h
      | S n' =>
          do (id, e) <- at_index h i ;
          renumber n' (S i) (Vh (child_count h) (children h) (ordered h)
                                (upd (heap h) id (He (hkey e) (N.of_nat i) (hmark e) (hval e))))
      end.
    Definition hash_sort (srt : list bytes -> list nat) h : res (vhash V) :=
      let n := N.to_nat (child_count h) in
      do ks <- slot_keys n 0 h ;
      do os <- from_places (ordered h) (srt ks) ;
      renumber n 0 (Vh (child_count h) (children h) (os ++ skipn n (ordered h)) (heap h)).

    (** The interface as a whole *)
    Inductive op :=
    | Add (k : bytes) (v : V) | Get (k : bytes) (mark : bool) | Len | KeyAt (i : N) | DataAt (i : N) | IndexOf (k : bytes)
    | Each (ignore_mark : bool) (f : list (bytes * V) -> bool) | Sort (srt : list bytes -> list nat).
    Inductive out :=
    | Added (ok : bool) | Value (o : option V) | Count (n : N) | Key (o : option bytes) | Index (o : option N)
    | Seen (l : list (bytes * V)) | Done.

    Definition step (o : op) h : res (out * vhash V) :=
      match o with
      | Add k v => do (b, h') <- hash_add_val k v h ; Ok (Added b, h')
      | Get k m => do (v, h') <- get_bykey k m h ; Ok (Value v, h')
      | Len => Ok (Count (child_count h), h)
      | KeyAt i => do k <- key_byindex i h ; Ok (Key k, h)
      | DataAt i => do v <- data_byindex i h ; Ok (Value v, h)
      | IndexOf k => do i <- index_bykey k h ; Ok (Index i, h)
      | Each ig f => do l <- hash_iterate ig f h ; Ok (Seen l, h)
      | Sort srt => do h' <- hash_sort srt h ; Ok (Done, h')
      end.
    Fixpoint run (os : list op) h : res (list out) :=
      match os with
      | [] => Ok []
      | o :: os' => do (r, h') <- step o h ; do rs <- run os' h' ; Ok (r :: rs)
      end.
  End Flat.

  (** ** Trees *)

  (** [vscf_data_t], lines 90-98 *)
  Inductive vdata := DS (rval val : bytes) | DA (l : list vdata) | DH (h : vhash vdata).

  (** [hash_clone], [array_clone], [simple_clone], [val_clone], lines 293-360: the copies of the values
      are made first here *)
  Fixpoint clone_from (ignore_marked : bool) (cl : list (res vdata)) (n i : nat) (h nh : vhash vdata) : res (vhash vdata) :=
    match n with
    | O => Ok nh
    | S n' =>
        do (id, e) <- at_index h i ;
        if negb ignore_marked || negb (hmark e) then
          do rv <- rd cl id ;
          do v <- rv ;
          do (ok, nh') <- hash_add_val (hkey e) v nh ;
          rassert ok (clone_from ignore_marked cl n' (S i) h nh')
        else clone_from ignore_marked cl n' (S i) h nh
    end.

  Fixpoint all_ok {A} (l : list (res A)) : res (list A) :=
    match l with
    | [] => Ok []
    | r :: l' => do a <- r ; do as_ <- all_ok l' ; Ok (a :: as_)
    end.

  Fixpoint val_clone (ignore_marked : bool) (d : vdata) : res vdata :=
    match d with
    | DS r v => Ok (DS r v)
    | DA l => do l' <- all_ok (map (val_clone ignore_marked) l) ; Ok (DA l')
    | DH h =>
        do nh <- clone_from ignore_marked (map (fun e => val_clone ignore_marked (hval e)) (heap h))
                            (N.to_nat (child_count h)) 0 h hash_new ;
        Ok (DH nh)
    end.

  (** [vscf_hash_inherit], lines 1147-1155; the key is a C string *)
  Definition inherit (src dest : vhash vdata) (k : bytes) (mark_src : bool) : res (vhash vdata * vhash vdata) :=
    do (sv, src') <- get_bykey k mark_src src ;
    match sv with
    | None => Ok (src', dest)
    | Some v =>
        do (dv, dest') <- get_bykey k false dest ;
        match dv with
        | Some _ => Ok (src', dest')
        | None => do c <- val_clone false v ; do (_, dest'') <- hash_add_val k c dest' ; Ok (src', dest'')
        end
    end.

  (** [vscf_hash_inherit_all], lines 1157-1166 *)
  Fixpoint inherit_from (n i : nat) (skip_marked : bool) (src dest : vhash vdata) : res (vhash vdata) :=
    match n with
    | O => Ok dest
    | S n' =>
        do (id, e) <- at_index src i ;
        if negb skip_marked || negb (hmark e) then
          do (_, dest') <- inherit src dest (c_str (hkey e)) false ;
          inherit_from n' (S i) skip_marked src dest'
        else inherit_from n' (S i) skip_marked src dest
    end.
  Definition inherit_all (src dest : vhash vdata) (skip_marked : bool) : res (vhash vdata) :=
    inherit_from (N.to_nat (child_count src)) 0 skip_marked src dest.

  (** [vscf_hash_bequeath_all], lines 1168-1188; [sid] is the entry that holds the value handed down.
      That value is looked at anew each time: it may have changed. *)
  Fixpoint bequeath_from (n i : nat) (sid : nat) (k : bytes) (skip_marked : bool) (src : vhash vdata) : res (vhash vdata) :=
    match n with
    | O => Ok src
    | S n' =>
        do (id, e) <- at_index src i ;
        match hval e with
        | DH child =>
            if negb skip_marked || negb (hmark e) then
              do (o, _) <- get_bykey k false child ;
              match o with
              | Some _ => bequeath_from n' (S i) sid k skip_marked src
              | None =>
                  do se <- rd (heap src) sid ;
                  do c <- val_clone false (hval se) ;
                  do (_, child') <- hash_add_val k c child ;
                  bequeath_from n' (S i) sid k skip_marked
                    (Vh (child_count src) (children src) (ordered src)
                        (upd (heap src) id (He (hkey e) (hindex e) (hmark e) (DH child'))))
              end
            else bequeath_from n' (S i) sid k skip_marked src
        | _ => bequeath_from n' (S i) sid k skip_marked src
        end
    end.
  Definition bequeath_all (src : vhash vdata) (k : bytes) (mark_src skip_marked : bool) : res (bool * vhash vdata) :=
    do o <- lookup k src ;
    match o with
    | None => Ok (false, src)
    | Some sid =>
        do (_, src') <- get_bykey k mark_src src ;
        do src'' <- bequeath_from (N.to_nat (child_count src')) 0 sid k skip_marked src' ;
        Ok (true, src'')
    end.
End Hash.
