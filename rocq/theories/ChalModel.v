(** ACME challenges: src/chal.c, and the import of handed-over challenges in src/main.c. *)
From Verif Require Import Base DnameModel CompModel RespModel.
Local Open Scope nat_scope.

Section Chal.
  (** hash_mm3_u32, include/gdnsd/mm3.h: any function; the model keeps 32 bits of it *)
  Variable hash : bytes -> N.
  (** the options acme_challenge_ttl (60 to 3600) and acme_challenge_dns_ttl, conf.c:296-297 *)
  Variable ttl dns_ttl : N.

  (** [dname_hash], chal.c:107-113 *)
  Definition dname_hash (dn : bytes) : res N :=
    do l <- rd dn 0; do b <- rdn dn 1 (N.to_nat l - 1); Ok (N.modulo (hash b) two32).

  (** [chal_t], chal.c:116-120; [c_dname] holds the bytes in use of its 256-byte array *)
  Record chal := { c_hash : N; c_dname : bytes; c_txt : bytes }.
  (** [cset_t], chal.c:124-131: count is the length; times are in milliseconds *)
  Record cset := { s_expiry : Z; s_chals : list chal }.
  (** a pointer to a [chal_t] inside a [cset_t] *)
  Definition ptr := (nat * nat)%type.
  (** [chal_tbl_t] and [chal_collide_t], chal.c:153-163 *)
  Record tbl := { t_mask : N; t_slots : list (list ptr) }.

  (** Memory and globals.  Freed sets and tables are [None]; an address is never used twice.
      [oldest] is the linked list from oldest to newest, [cur] is chal_tbl, [timer] the time at
      which expire_timer is due. *)
  Record gs := { sets : list (option cset); tbls : list (option tbl); oldest : list nat;
                 cur : option nat; timer : option Z }.

  Definition get_set (g : gs) (i : nat) : res cset := do o <- rd (sets g) i; match o with Some s => Ok s | None => UB end.
  Definition get_tbl (g : gs) (i : nat) : res tbl := do o <- rd (tbls g) i; match o with Some t => Ok t | None => UB end.
  Definition deref (g : gs) (p : ptr) : res chal := do s <- get_set g (fst p); rd (s_chals s) (snd p).

  (** count2mask, include/gdnsd/misc.h:89-116 (the variant with clz), for less than 2^31 *)
  Definition count2mask (x : N) : N := (2 * 2 ^ N.log2 (N.lor x 1) - 1)%N.

  (** [chal_tbl_hash_cset], chal.c:184-203: [None] if the check fails *)
  Fixpoint hash_chals (check : bool) (mask : N) (id i : nat) (cs : list chal) (slots : list (list ptr)) : res (option (list (list ptr))) :=
    match cs with
    | [] => Ok (Some slots)
    | c :: cs =>
        let j := N.to_nat (N.land (c_hash c) mask) in
        do slot <- rd slots j;
        if check && (200 <? length slot) then Ok None
        else do slots <- wr slots j [slot ++ [(id, i)]]; hash_chals check mask id (S i) cs slots
    end.
  Fixpoint hash_sets (g : gs) (mask : N) (ids : list nat) (slots : list (list ptr)) : res (list (list ptr)) :=
    match ids with
    | [] => Ok slots
    | id :: ids =>
        do s <- get_set g id;
        do o <- hash_chals false mask id 0 (s_chals s) slots;
        match o with None => UB | Some slots => hash_sets g mask ids slots end
    end.
  Fixpoint count_sets (g : gs) (ids : list nat) : res N :=
    match ids with
    | [] => Ok 0%N
    | id :: ids => do s <- get_set g id; do n <- count_sets g ids; Ok (N.of_nat (length (s_chals s)) + n)%N
    end.
  (** [chal_tbl_create], chal.c:209-245; [adding] is the new set with its future address.  Counts do
      not wrap: that would take 2^31 challenges. *)
  Definition tbl_create (g : gs) (ids : list nat) (adding : option (nat * cset)) : res (option tbl) :=
    do n <- count_sets g ids;
    let total := (n + match adding with Some (_, s) => N.of_nat (length (s_chals s)) | None => 0 end)%N in
    if (total =? 0)%N then Ok None
    else
      let mask := count2mask (2 * total) in
      do slots <- hash_sets g mask ids (repeat [] (N.to_nat (mask + 1)));
      match adding with
      | None => Ok (Some {| t_mask := mask; t_slots := slots |})
      | Some (id, s) =>
          do o <- hash_chals true mask id 0 (s_chals s) slots;
          match o with None => Ok None | Some slots => Ok (Some {| t_mask := mask; t_slots := slots |}) end
      end.

  (** The parsing loop of [cset_create], chal.c:334-363 *)
  Fixpoint parse_chals (n : nat) (data : bytes) (didx : nat) : res (option (list chal * nat)) :=
    match n with
    | 0 => Ok (Some ([], didx))
    | S n =>
        let dlen := length data in
        rassert (didx <=? dlen)
        (do st <- dname_status_buflen (skipn didx data) (dlen - didx);
         if status_eqb st DNAME_INVALID then Ok None
         else
           do l <- rd data didx;
           do dn <- rdn data didx (N.to_nat l + 1);
           do dn <- dname_terminate dn;
           let didx := didx + (N.to_nat l + 1) in
           do h <- dname_hash dn;
           rassert (didx <=? dlen)
           (if dlen - didx <? 44 then Ok None
            else
              do data <- wr data (didx + 43) [0%N];
              do payload <- rdn data didx 43;
              let c := {| c_hash := h; c_dname := dn; c_txt := mk_chal_rr (dns_ttl, 43%N :: payload) |} in
              do r <- parse_chals n data (didx + 44);
              match r with Some (cs, e) => Ok (Some (c :: cs, e)) | None => Ok None end))
    end.

  (** publishing a new table: rcu_assign_pointer, chal.c:251 *)
  Definition publish (g : gs) (t : option tbl) : gs :=
    {| sets := sets g; tbls := match t with Some t => tbls g ++ [Some t] | None => tbls g end; oldest := oldest g;
       cur := match t with Some _ => Some (length (tbls g)) | None => None end; timer := timer g |}.

  (** [cset_create], chal.c:317-402, up to rcu_assign_pointer: new state, and whether it failed *)
  Definition cset_create (g : gs) (now : Z) (ttl_remain : N) (count : nat) (data : bytes) : res (gs * bool) :=
    let dlen := length data in
    if (count =? 0) || (dlen =? 0) || (100 <? count) || (N.to_nat 28400 <? dlen) then Ok (g, true)
    else
      let ttl_remain := if (ttl_remain =? 0)%N || (ttl <? ttl_remain)%N then ttl else ttl_remain in
      do r <- parse_chals count data 0;
      match r with
      | None => Ok (g, true)
      | Some (cs, didx) =>
          if negb (didx =? dlen) then Ok (g, true)
          else
            let set := {| s_expiry := (now + 1000 * Z.of_N ttl_remain)%Z; s_chals := cs |} in
            let id := length (sets g) in
            do t <- tbl_create g (oldest g) (Some (id, set));
            match t with
            | None => Ok (g, true)
            | Some t =>
                Ok (publish {| sets := sets g ++ [Some set]; tbls := tbls g; oldest := oldest g ++ [id]; cur := cur g;
                               timer := match oldest g with [] => Some (now + 1000 * Z.of_N ttl)%Z | _ => timer g end |} (Some t), false)
            end
      end.

  (** The first loop of [cset_expire], chal.c:262-267, and the last, chal.c:277-281: the sets to expire and those to keep *)
  Fixpoint expired (g : gs) (cutoff : Z) (ids : list nat) : res (list nat * list nat) :=
    match ids with
    | [] => Ok ([], [])
    | id :: r =>
        do s <- get_set g id;
        if (s_expiry s <=? cutoff)%Z then do (a, b) <- expired g cutoff r; Ok (id :: a, b) else Ok ([], ids)
    end.
  (** [cset_expire], chal.c:257-290, up to rcu_assign_pointer, with the sets still to be freed.  The
      list and the timer are changed here, which only this thread sees. *)
  Definition cset_expire (g : gs) (now : Z) : res (gs * list nat) :=
    do (dead, keep) <- expired g (now + 3200) (oldest g);
    do t <- tbl_create g keep None;
    do tm <- match keep with [] => Ok None | id :: _ => do s <- get_set g id; Ok (Some (s_expiry s)) end;
    let g := publish g t in
    Ok ({| sets := sets g; tbls := tbls g; oldest := keep; cur := cur g; timer := tm |}, dead).
  (** [cset_flush], chal.c:292-314, likewise *)
  Definition cset_flush (g : gs) : gs * list nat :=
    let g' := publish g None in
    ({| sets := sets g'; tbls := tbls g'; oldest := []; cur := cur g'; timer := None |}, oldest g).

  (** [chal_tbl_destruct] and free of a set: freeing twice is an error *)
  Definition free_tbl (g : gs) (o : option nat) : res gs :=
    match o with
    | None => Ok g
    | Some i => do t <- get_tbl g i;
        Ok {| sets := sets g; tbls := upd (tbls g) i None; oldest := oldest g; cur := cur g; timer := timer g |}
    end.
  Fixpoint free_sets (g : gs) (ids : list nat) : res gs :=
    match ids with
    | [] => Ok g
    | i :: ids => do s <- get_set g i;
        free_sets {| sets := upd (sets g) i None; tbls := tbls g; oldest := oldest g; cur := cur g; timer := timer g |} ids
    end.

  (** [dname_is_acme_chal], src/chal.h:82-87, and the stripping of the first label, chal.c:473-481 *)
  Definition is_chal (q : bytes) : res bool :=
    do st <- dname_status q;
    rassert (negb (status_eqb st DNAME_INVALID))
    (do l <- rd q 0;
     if (16 <? l)%N then do a <- rd q 1; if (a =? 15)%N then do b <- rdn q 2 15; Ok (bytes_eqb b acme_label) else Ok false
     else Ok false).
  Definition strip (q : bytes) : res bytes :=
    do l <- rd q 0;
    do copy <- rdn q 0 (N.to_nat l + 1);
    do copy <- wr copy 16 [(l - 16)%N];
    Ok (skipn 16 copy).

  (** The search of [chal_respond], chal.c:466-511, in the table [t] the reader got: whether the
      name is a challenge name, and the records that match.  How they are put into the response is
      chal_respond of RespModel. *)
  Fixpoint matches (g : gs) (q : bytes) (h : N) (ps : list ptr) : res (list bytes) :=
    match ps with
    | [] => Ok []
    | p :: ps =>
        do c <- deref g p;
        do m <- (if (c_hash c =? h)%N then dname_eq q (c_dname c) else Ok false);
        do r <- matches g q h ps;
        Ok (if m then c_txt c :: r else r)
    end.
  Definition chal_find (g : gs) (t : option nat) (q : bytes) : res (bool * list bytes) :=
    do a <- is_chal q;
    match t with
    | None => Ok (a, [])
    | Some t =>
        do q <- (if a then strip q else Ok q);
        do h <- dname_hash q;
        do t <- get_tbl g t;
        do slot <- rd (t_slots t) (N.to_nat (N.land h (t_mask t)));
        do r <- matches g q h slot;
        Ok (a, r)
    end.

  (** ** Schedules: one main thread, any number of threads answering queries.
      synchronize_rcu() returns once every thread that was inside a read-side section when it was
      called has left it. *)
  Inductive pend :=
  | Idle
  | Swapped (old : option nat) (dead : list nat)
  | Waiting (on : list nat) (old : option nat) (dead : list nat)
  | Synced (old : option nat) (dead : list nat)
  | Freeing (dead : list nat).
  (** [rds]: for each thread inside a section, the table it got *)
  Record sys := { st : gs; pn : pend; rds : list (option (option nat)) }.
  Inductive ev :=
  | ECreate (now : Z) (count : nat) (data : bytes)   (* a request from the control socket *)
  | ETimer (now : Z)                                 (* the event loop runs at this time *)
  | EFlush
  | EMain                                            (* the main thread goes on, if it can *)
  | RBegin (r : nat) | RLook (r : nat) (q : bytes) | REnd (r : nat).
  Inductive out := ONone | OAdded (fail : bool) | OFound (acme : bool) (rrs : list bytes).

  Definition in_section (rds : list (option (option nat))) : list nat :=
    filter (fun r => match nth_error rds r with Some (Some _) => true | _ => false end) (seq 0 (length rds)).
  Definition set_rd (rds : list (option (option nat))) (r : nat) (v : option (option nat)) : list (option (option nat)) :=
    if r <? length rds then upd rds r v else rds.

  Definition step (s : sys) (e : ev) : res (sys * out) :=
    match e with
    | ECreate now count data =>
        match pn s with
        | Idle => do (g, fail) <- cset_create (st s) now 0 count data;
                  Ok ({| st := g; pn := if fail then Idle else Swapped (cur (st s)) []; rds := rds s |}, OAdded fail)
        | _ => Ok (s, ONone)
        end
    | ETimer now =>
        match pn s, timer (st s) with
        | Idle, Some d =>
            if (d <=? now)%Z then
              do (g, dead) <- cset_expire (st s) now;
              Ok ({| st := g; pn := Swapped (cur (st s)) dead; rds := rds s |}, ONone)
            else Ok (s, ONone)
        | _, _ => Ok (s, ONone)
        end
    | EFlush =>
        match pn s with
        | Idle => let '(g, dead) := cset_flush (st s) in Ok ({| st := g; pn := Swapped (cur (st s)) dead; rds := rds s |}, ONone)
        | _ => Ok (s, ONone)
        end
    | EMain =>
        match pn s with
        | Idle => Ok (s, ONone)
        | Swapped old dead => Ok ({| st := st s; pn := Waiting (in_section (rds s)) old dead; rds := rds s |}, ONone)
        | Waiting [] old dead => Ok ({| st := st s; pn := Synced old dead; rds := rds s |}, ONone)
        | Waiting _ _ _ => Ok (s, ONone)
        | Synced old dead => do g <- free_tbl (st s) old; Ok ({| st := g; pn := Freeing dead; rds := rds s |}, ONone)
        | Freeing dead => do g <- free_sets (st s) dead; Ok ({| st := g; pn := Idle; rds := rds s |}, ONone)
        end
    | RBegin r =>
        match nth_error (rds s) r with
        | Some None => Ok ({| st := st s; pn := pn s; rds := set_rd (rds s) r (Some (cur (st s))) |}, ONone)
        | _ => Ok (s, ONone)
        end
    | RLook r q =>
        match nth_error (rds s) r with
        | Some (Some t) => do (a, l) <- chal_find (st s) t q; Ok (s, OFound a l)
        | _ => Ok (s, ONone)
        end
    | REnd r =>
        let pn' := match pn s with Waiting on old dead => Waiting (filter (fun x => negb (x =? r)) on) old dead | p => p end in
        Ok ({| st := st s; pn := pn'; rds := set_rd (rds s) r None |}, ONone)
    end.
  Fixpoint steps (s : sys) (es : list ev) : res (sys * list out) :=
    match es with
    | [] => Ok (s, [])
    | e :: es => do (s, o) <- step s e; do (s, os) <- steps s es; Ok (s, o :: os)
    end.
  Definition g0 : gs := {| sets := []; tbls := []; oldest := []; cur := None; timer := None |}.
  (** [chal_init], chal.c:513-520; [n] threads *)
  Definition start (n : nat) : sys := {| st := g0; pn := Idle; rds := repeat None n |}.

  (** ** Handing challenges to a replacement daemon *)
  (** gdnsd_put_una16/gdnsd_get_una16 on a little-endian host *)
  Definition h16 (v : N) : bytes := [N.modulo v 256; N.div v 256]%N.
  Definition geth16 (b : bytes) (i : nat) : res N := do lo <- rd b i; do hi <- rd b (S i); Ok (lo + 256 * hi)%N.

  (** [cset_serialize], chal.c:404-446, at offset [base] of the buffer *)
  Fixpoint serialize_chals (cs : list chal) (rv : bytes) (off : nat) : res (bytes * nat) :=
    match cs with
    | [] => Ok (rv, off)
    | c :: cs =>
        do s <- dname_status (c_dname c);
        rassert (status_eqb s DNAME_VALID)
        (do l <- rd (c_dname c) 0;
         do dn <- rdn (c_dname c) 0 (N.to_nat l + 1);
         do rv <- wr rv off dn;
         let off := off + (N.to_nat l + 1) in
         do p <- rdn (c_txt c) 11 43;
         do rv <- wr rv off p;
         do rv <- wr rv (off + 43) [0%N];
         serialize_chals cs rv (off + 43 + 1))
    end.
  Definition max_serial : nat := N.to_nat 28405.
  Definition cset_serialize (now : Z) (s : cset) (rv : bytes) (base : nat) : res (bytes * nat) :=
    let count := length (s_chals s) in
    rassert ((count <=? 100) && negb (count =? 0))
    (rassert ((now <? s_expiry s)%Z)
    (rassert ((ttl <=? 65535)%N)
    (let remain := (s_expiry s - now)%Z in
     let ttl_remain := if (1000 * Z.of_N ttl <? remain)%Z then ttl else N.modulo (Z.to_N (remain / 1000)) 65536 in
     do rv <- wr rv (base + 2) (h16 ttl_remain);
     do rv <- wr rv (base + 4) [N.modulo (N.of_nat count) 256];
     do (rv, off) <- serialize_chals (s_chals s) rv (base + 5);
     let offset := off - base in
     rassert ((5 <? offset) && (offset <=? max_serial))
     (let dlen := N.of_nat (offset - 5) in
      rassert ((dlen <=? 65535)%N)
      (do rv <- wr rv base (h16 dlen); Ok (rv, offset)))))).
  (** [csets_serialize], chal.c:448-479: the buffer, the bytes used and the number of sets.  What
      xrealloc adds to the buffer is unspecified; zeros stand for it. *)
  Fixpoint csets_serialize (now : Z) (l : list cset) (rv : bytes) (used : nat) (ct : N) : res (bytes * nat * N) :=
    match l with
    | [] => Ok (rv, used, ct)
    | s :: l =>
        if (now + 3200 <? s_expiry s)%Z then
          if (16777215 <=? ct + 1)%N || (4294967295 <? N.of_nat used + 28405)%N then Ok (rv, used, ct)
          else
            let rv := if length rv <? used + max_serial then rv ++ repeat 0%N max_serial else rv in
            do (rv, n) <- cset_serialize now s rv used;
            csets_serialize now l rv (used + n) (ct + 1)
        else csets_serialize now l rv used ct
    end.

  (** the sets in the order in which [csets_serialize] walks the list *)
  Fixpoint set_list (g : gs) (ids : list nat) : res (list cset) :=
    match ids with [] => Ok [] | i :: ids => do s <- get_set g i; do l <- set_list g ids; Ok (s :: l) end.

  (** [do_tak2], main.c:340-357: the challenges of the old daemon are added; [None] is log_fatal.
      No thread answers queries yet; the old table is freed at once. *)
  Fixpoint import (n : nat) (g : gs) (now : Z) (data : bytes) (off : nat) : res (option gs) :=
    match n with
    | 0 => Ok (Some g)
    | S n =>
        if length data <? off + 5 then Ok None
        else
          do dlen <- geth16 data off;
          do remain <- geth16 data (off + 2);
          do count <- rd data (off + 4);
          let off := off + 5 in
          if length data <? off + N.to_nat dlen then Ok None
          else
            do d <- rdn data off (N.to_nat dlen);
            do (g', fail) <- cset_create g now remain (N.to_nat count) d;
            if fail : bool then Ok None
            else do g' <- free_tbl g' (cur g); import n g' now data (off + N.to_nat dlen)
    end.
End Chal.
