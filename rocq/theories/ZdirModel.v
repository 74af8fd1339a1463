(** The directory of zone files: src/zsrc_rfc1035.c, with [ltree_new_zone] of
    src/ltree.c.

    One load lists the directory, deals the files out to worker threads, and
    then collects the workers one after the other, in order, merging the zones
    they made.  The workers' steps (one file each) and the collecting of a
    worker that has ended may be interleaved in any way; [acts] below is the
    schedule.

    Simplifications: pthread_create and pthread_join do not fail (the code stops
    the daemon, resp. gives up the load, when they do); the workers share
    nothing with each other and files do not change during a load, so one file
    is one step; a worker reads all of a file's records before it adds the first
    one (as in ZscanModel); full file names are short enough to be opened. *)
From Verif Require Import Base DnameModel CompModel RespModel MsgModel LtreeModel ZscanModel.
Local Open Scope N_scope.

(** [make_zone_name], src/zsrc_rfc1035.c:43-70; the text "ROOT_ZONE" is 9 bytes. *)
Definition root_zone_text : bytes := [82; 79; 79; 84; 95; 90; 79; 78; 69].
Definition make_zone_name (fn : bytes) : option bytes :=
  if 1004 <? N.of_nat (length fn) then None
  else if Nat.eqb (length fn) 9 && bytes_eqb (firstn 9 fn) root_zone_text then Some [46]
  else Some (map (fun c => if c =? 64 then 47 else c) fn).

(** [ltree_new_zone], src/ltree.c:1459-1490: the zone's stored name.  [junk] is
    what the name's buffer holds before; the zone's root is made by
    LtreeModel.load_zone. *)
Definition new_zone (junk : bytes) (zname : bytes) : res (option bytes) :=
  do r <- dname_from_string junk zname ;
  let '(status, dname) := r in
  match status with
  | DNAME_INVALID => Ok None
  | _ =>
      do w <- dname_iswild dname ;
      if w then Ok None
      else
        do dname <- match status with DNAME_PARTIAL => dname_terminate dname | _ => Ok dname end ;
        do l <- rd dname 0 ;
        do d <- rdn dname 0 (S (N.to_nat l)) ;
        Ok (Some d)
  end.

(** What a worker leaves behind for one file: no zone, a zone that could not be
    filled, or a zone. *)
Inductive wout := NoZone | BadZone | GoodZone (z : name) (root : lnode).

Section Worker.
  Variable cfg : zcfg.
  Variable pl : plugins.
  Variable hash : list N -> N.
  Variable autosplit : bool.
  Variable pton4 : bytes -> option bytes.
  Variable pton6 : bytes -> option bytes.
  Variable fs : bytes -> option bytes.
  Variable depth : nat.
  Variable ttl : N.
  Variable junk : bytes.
  (** rfc1035_dir, with a slash at its end *)
  Variable dir : bytes.

  (** The body of the loop of [zones_worker], src/zsrc_rfc1035.c:142-160. *)
  Definition load_file (fn : bytes) : res wout :=
    match make_zone_name fn with
    | None => Ok NoZone
    | Some zname =>
        do d <- new_zone junk zname ;
        match d with
        | None => Ok NoZone
        | Some d =>
            do rs <- zscan_rfc1035 d autosplit pton4 pton6 fs depth (dir ++ fn) ttl ;
            match rs with
            | None => Ok BadZone
            | Some rs =>
                let z := labels_of 256 (tl d) in
                do root <- load_zone cfg pl hash z rs ;
                Ok match root with None => BadZone | Some root => GoodZone z root end
            end
        end
    end.
End Worker.

Section Dir.
  (** what the worker does with one file *)
  Variable load_file : bytes -> res wout.
  Variable hash : list N -> N.

  (** One worker: the files it has not looked at, those it has, and whether it
      has ended (with true: it failed). *)
  Record worker := { w_todo : list bytes; w_done : list (bytes * wout); w_exit : option bool }.

  (** One turn of [zones_worker], src/zsrc_rfc1035.c:142-160. *)
  Definition work (w : worker) : res worker :=
    match w_exit w with
    | Some _ => Ok w
    | None =>
        match w_todo w with
        | [] => Ok {| w_todo := []; w_done := w_done w; w_exit := Some false |}
        | fn :: todo =>
            do o <- load_file fn ;
            Ok {| w_todo := todo; w_done := w_done w ++ [(fn, o)];
                  w_exit := match o with GoodZone _ _ => None | _ => Some true end |}
        end
    end.

  (** A load in progress: the workers, how many were collected, the tree, whether
      it has failed, and (for the books) the zones made, merged and destroyed, by
      their files' names. *)
  Record load := { d_workers : list worker; d_next : nat; d_tree : lnode; d_failed : bool;
                   d_made : list bytes; d_merged : list bytes; d_gone : list bytes }.

  (** The loop of [harvest_zone_worker], src/zsrc_rfc1035.c:171-186, over the
      entries of one list.  An entry that was never looked at has no zone; a list
      without entries is not survived (below). *)
  Fixpoint harvest (es : list (bytes * wout)) (tree : lnode) (failed : bool) (merged gone : list bytes)
      : res (lnode * bool * list bytes * list bytes) :=
    match es with
    | [] => Ok (tree, failed, merged, gone)
    | (fn, o) :: es =>
        if failed then
          harvest es tree true merged (match o with NoZone => gone | _ => gone ++ [fn] end)
        else
          match o with
          | GoodZone z root =>
              do t <- merge_zone hash tree z root ;
              match t with
              | Some tree => harvest es tree false (merged ++ [fn]) gone
              | None => harvest es tree true merged (gone ++ [fn])
              end
          | _ => UB
          end
    end.

  Inductive act := Work (i : nat) | Join.

  Definition zone_made (o : wout) : bool := match o with NoZone => false | _ => true end.

  (** One step of the load; a thread that cannot move stays where it is.  Joining:
      [harvest_zone_worker], src/zsrc_rfc1035.c:163-189, called in the order of
      the workers, src/zsrc_rfc1035.c:223-225. *)
  Definition step (s : load) (a : act) : res load :=
    match a with
    | Work i =>
        match nth_error (d_workers s) i with
        | None => Ok s
        | Some w =>
            do w' <- work w ;
            Ok {| d_workers := upd (d_workers s) i w'; d_next := d_next s; d_tree := d_tree s; d_failed := d_failed s;
                  d_made := d_made s ++ map fst (filter (fun e => zone_made (snd e)) (skipn (length (w_done w)) (w_done w')));
                  d_merged := d_merged s; d_gone := d_gone s |}
        end
    | Join =>
        match nth_error (d_workers s) (d_next s) with
        | None => Ok s
        | Some w =>
            match w_exit w with
            | None => Ok s
            | Some ex =>
                let es := w_done w ++ map (fun fn => (fn, NoZone)) (w_todo w) in
                rassert (negb (Nat.eqb (length es) 0))
                (do r <- harvest es (d_tree s) (d_failed s || ex) (d_merged s) (d_gone s) ;
                 let '(tree, failed, merged, gone) := r in
                 Ok {| d_workers := d_workers s; d_next := S (d_next s); d_tree := tree; d_failed := failed;
                       d_made := d_made s; d_merged := merged; d_gone := gone |})
            end
        end
    end.

  Fixpoint steps (s : load) (acts : list act) : res load :=
    match acts with
    | [] => Ok s
    | a :: acts => do s <- step s a ; steps s acts
    end.

  (** [zf_threads_add_zone], src/zsrc_rfc1035.c:112-126: the lists and the next
      one to take a file. *)
  Definition add_zone (threads : nat) (x : list (list bytes) * nat) (fn : bytes) : res (list (list bytes) * nat) :=
    let '(lists, next) := x in
    rassert (Nat.ltb next threads)
      (match nth_error lists next with
       | None => UB
       | Some l => Ok (upd lists next (l ++ [fn]), Nat.modulo (S next) threads)
       end).

  (** The directory as the system shows it: [opendir] fails, or gives the entries
      one after the other, the last answer being an error or the end. *)
  Inductive stat_result := StatFails | Regular | NotRegular.
  Inductive directory :=
  | Missing
  | CannotOpen
  | Entries (es : list (bytes * stat_result)) (read_fails close_fails : bool).

  (** The loop over the entries, src/zsrc_rfc1035.c:259-284, with the number of
      files added. *)
  Fixpoint list_dir (threads : nat) (es : list (bytes * stat_result)) (read_fails : bool) (x : list (list bytes) * nat) (count : nat)
      : res (option (list (list bytes) * nat * nat)) :=
    match es with
    | [] => Ok (if read_fails then None else Some (x, count))
    | (fn, st) :: es =>
        if match fn with 46 :: _ => true | _ => false end then list_dir threads es read_fails x count
        else
          match st with
          | StatFails => Ok None
          | Regular => do x <- add_zone threads x fn ; list_dir threads es read_fails x (S count)
          | NotRegular => list_dir threads es read_fails x count
          end
    end.

  Inductive answer := Refused | Loaded (tree : lnode) | Unfinished.

  Definition answer_of (s : load) : answer :=
    if Nat.ltb (d_next s) (length (d_workers s)) then Unfinished
    else if d_failed s then Refused
    else Loaded (d_tree s).

  (** [zf_threads_load_zones], src/zsrc_rfc1035.c:198-238: the load once the
      workers are started. *)
  Definition start (threads : nat) (lists : list (list bytes)) (count : nat) (tree : lnode) : load :=
    let useful := if Nat.ltb count threads then count else threads in
    {| d_workers := map (fun l => {| w_todo := l; w_done := []; w_exit := None |}) (firstn useful lists);
       d_next := 0; d_tree := tree; d_failed := false; d_made := []; d_merged := []; d_gone := [] |}.

  (** [zsrc_rfc1035_load_zones], src/zsrc_rfc1035.c:244-297: the load itself, or
      the answer when there is nothing to load. *)
  Definition begin (threads : nat) (d : directory) (tree : lnode) : res (load + answer) :=
    match d with
    | Missing => Ok (inr (Loaded tree))
    | CannotOpen => Ok (inr Refused)
    | Entries es read_fails close_fails =>
        rassert (negb (Nat.eqb threads 0))
        (do l <- list_dir threads es read_fails (repeat [] threads, O) 0 ;
         Ok match l with
            | Some (lists, _, count) => if close_fails then inr Refused else inl (start threads lists count tree)
            | None => inr Refused
            end)
    end.

  Definition load_zone_dir (threads : nat) (d : directory) (tree : lnode) (acts : list act) : res answer :=
    do b <- begin threads d tree ;
    match b with
    | inr a => Ok a
    | inl s => do s <- steps s acts ; Ok (answer_of s)
    end.
End Dir.
