(** Networks and the lookup tree of the geoip plugin: libgdmaps/nlist.c,
    ntree.c, nets.c and the database walk of gdgeoip2.c.

    An address is its 16 bytes; masks are [nat]; datacenter lists are their
    32-bit numbers.  Configuration parsing, logging, memory management and
    libmaxminddb are left out: a configured network comes as bytes, mask and
    list number, and the database answers through [read_node] and
    [get_dclist]. *)
From Verif Require Import Base.
Local Open Scope N_scope.

(** memcmp *)
Fixpoint bytes_cmp (a b : bytes) : comparison :=
  match a, b with
  | x :: a, y :: b => match N.compare x y with Eq => bytes_cmp a b | c => c end
  | [], [] => Eq
  | [], _ => Lt
  | _, [] => Gt
  end.
Definition mem_eq (a b : bytes) : bool := match bytes_cmp a b with Eq => true | _ => false end.
Definition zeros : bytes := repeat 0 16.
Definition ones : bytes := repeat 255 16.

(** [net_t], nlist.c:34-38. *)
Record net := { n_ip : bytes; n_mask : nat; n_dc : N }.

(** NN_*, ntree.h:114-118 *)
Definition NN_FLAG : N := 2147483648.
Definition NN_UNDEF : N := 4294967295.
Definition is_dclist (x : N) : bool := negb (N.land x NN_FLAG =? 0).
Definition get_dclist (x : N) : N := N.land x (N.lxor NN_UNDEF NN_FLAG).
Definition set_dclist (x : N) : N := N.lor x NN_FLAG.

(** [clear_mask_bits], nlist.c:109-137, without the warning. *)
Definition clear_mask_bits (ip : bytes) (mask : nat) : res bytes :=
  rassert (Nat.ltb mask 129)
  match mask with
  | O => Ok zeros
  | _ =>
      let rev := (128 - mask)%nat in
      let bm := N.land (N.lxor 4294967295 (N.shiftl 255 (N.of_nat (rev mod 8)))) 255 in
      let b := (15 - rev / 8)%nat in
      do x <- rd ip b;
      Ok (firstn b ip ++ [N.ldiff x bm] ++ repeat 0 (15 - b))
  end.

(** [net_sorter], nlist.c:143-159. *)
Definition net_sorter (a b : net) : comparison :=
  match bytes_cmp (n_ip a) (n_ip b) with Eq => Nat.compare (n_mask a) (n_mask b) | c => c end.
Definition net_le (a b : net) : Prop := net_sorter a b <> Gt.

(** [masked_net_eq], nlist.c:160-171. *)
Definition masked_net_eq (a b : bytes) (mask : nat) : res bool :=
  rassert (Nat.ltb mask 128)
  (let k := (mask / 8)%nat in
   let bm := N.land (N.shiftr 65280 (N.of_nat (mask mod 8))) 255 in
   do x <- rd a k;
   do y <- rd b k;
   Ok (mem_eq (firstn k a) (firstn k b) && (N.land x bm =? N.land y bm))).

(** [mergeable_nets], nlist.c:173-184. *)
Definition mergeable_nets (na nb : net) : res bool :=
  if n_dc na =? n_dc nb then
    if Nat.eqb (n_mask na) (n_mask nb) then
      match n_mask na with
      | O => UB (* the mask wraps around and fails the assertion *)
      | S m => masked_net_eq (n_ip na) (n_ip nb) m
      end
    else if Nat.ltb (n_mask na) (n_mask nb) then masked_net_eq (n_ip na) (n_ip nb) (n_mask na)
    else Ok false
  else Ok false.
(** [na] after taking in [nb] *)
Definition absorb (na nb : net) : net :=
  {| n_ip := n_ip na; n_mask := if Nat.eqb (n_mask na) (n_mask nb) then (n_mask na - 1)%nat else n_mask na; n_dc := n_dc na |}.

(** [struct nlist], nlist.c:40-46. *)
Record nlist := { l_nets : list net; l_norm : bool }.

(** merging at the end of a list, last network first; nlist.c:205-218 *)
Fixpoint merge_back (nb : net) (before : list net) : res (list net) :=
  match before with
  | [] => Ok [nb]
  | na :: rest =>
      do m <- mergeable_nets na nb;
      if m then merge_back (absorb na nb) rest else Ok (nb :: na :: rest)
  end.
(** [nlist_append], nlist.c:186-225.  The debug check of the bits beyond the
    mask is kept. *)
Definition nlist_append (l : nlist) (ip : bytes) (mask : nat) (dc : N) : res nlist :=
  do cleared <- clear_mask_bits ip mask;
  if l_norm l then
    rassert (mem_eq ip cleared)
    (do r <- merge_back {| n_ip := ip; n_mask := mask; n_dc := dc |} (rev (l_nets l));
     Ok {| l_nets := rev r; l_norm := true |})
  else Ok {| l_nets := l_nets l ++ [{| n_ip := cleared; n_mask := mask; n_dc := dc |}]; l_norm := false |}.

(** [net_eq], nlist.c:227-231. *)
Definition net_eq (a b : net) : bool := Nat.eqb (n_mask a) (n_mask b) && mem_eq (n_ip a) (n_ip b).

(** The loops of [nlist_normalize_1pass], nlist.c:243-263.  [dels]: the
    entries deleted since [na]; the result has all entries, and says how many
    are deleted and whether two equal networks had different lists. *)
Definition deleted (n : net) : net := {| n_ip := ones; n_mask := 255; n_dc := n_dc n |}.
Fixpoint pass1 (na : net) (dels l : list net) : res (list net * nat * bool) :=
  match l with
  | [] => Ok (na :: dels, length dels, false)
  | nb :: l =>
      if net_eq na nb then
        do (r, k, w) <- pass1 na (dels ++ [deleted nb]) l;
        Ok (r, k, negb (n_dc na =? n_dc nb) || w)
      else
        do m <- mergeable_nets na nb;
        if m then pass1 (absorb na nb) (dels ++ [deleted nb]) l
        else
          do (r, k, w) <- pass1 nb [] l;
          Ok (na :: dels ++ r, (length dels + k)%nat, w)
  end.

Section Sorted.
  (** qsort with [net_sorter]: some sorted order *)
  Variable sort : list net -> list net.

  (** [nlist_normalize_1pass], nlist.c:234-279. *)
  Definition normalize_1pass (l : list net) : res (list net * bool * bool) :=
    match l with
    | [] => UB
    | n :: t =>
        do (r, k, w) <- pass1 n [] t;
        if Nat.eqb k 0 then Ok (r, false, w)
        else Ok (firstn (length l - k) (sort r), true, w)
    end.
  (** the loop of [nlist_normalize]; every further pass has fewer entries *)
  Fixpoint passes (fuel : nat) (l : list net) : res (list net * bool) :=
    match fuel with
    | O => UB
    | S fuel =>
        do (l, again, w) <- normalize_1pass l;
        if again then do (l, w') <- passes fuel l; Ok (l, w || w') else Ok (l, w)
    end.
  (** [nlist_normalize], nlist.c:281-303; also says whether it warned. *)
  Definition nlist_normalize (l : nlist) (post_merge : bool) : res (nlist * bool) :=
    match l_nets l with
    | [] => Ok ({| l_nets := []; l_norm := true |}, false)
    | _ =>
        let s := if post_merge then l_nets l else sort (l_nets l) in
        do (r, w) <- passes (S (length s)) s;
        Ok ({| l_nets := r; l_norm := true |}, w)
    end.
  (** [nlist_finish], nlist.c:305-319, without the debug comparison. *)
  Definition nlist_finish (l : nlist) : res (nlist * bool) :=
    if l_norm l then Ok (l, false) else nlist_normalize l false.

  (** [net_subnet_of], nlist.c:321-337. *)
  Definition net_subnet_of (sub super : net) : res bool :=
    rassert (Nat.ltb (n_mask sub) 129 && Nat.ltb (n_mask super) 129)
    (if Nat.leb (n_mask super) (n_mask sub) then
       let k := (n_mask super / 8)%nat in
       let bm := N.land (N.shiftl 255 (8 - N.of_nat (n_mask super mod 8))) 255 in
       if mem_eq (firstn k (n_ip sub)) (firstn k (n_ip super)) then
         if Nat.eqb k 16 then Ok true
         else do x <- rd (n_ip super) k; do y <- rd (n_ip sub) k; Ok (N.land x bm =? N.land y bm)
       else Ok false
     else Ok false).

  (** the inner loop of [nlist_merge], nlist.c:363-364 *)
  Fixpoint skip_sub (n : net) (la : list net) : res (list net) :=
    match la with
    | [] => Ok []
    | a :: la' => do s <- net_subnet_of a n; if s then skip_sub n la' else Ok la
    end.
  Fixpoint append_all (m : nlist) (l : list net) : res nlist :=
    match l with
    | [] => Ok m
    | n :: l => do m <- nlist_append m (n_ip n) (n_mask n) (n_dc n); append_all m l
    end.
  (** the loops of [nlist_merge], nlist.c:352-379 *)
  Fixpoint merge_loop (fuel : nat) (la lb : list net) (m : nlist) : res nlist :=
    match fuel with
    | O => UB
    | S fuel =>
        match la, lb with
        | a :: la', b :: lb' =>
            match net_sorter a b with
            | Lt => do m <- nlist_append m (n_ip a) (n_mask a) (n_dc a); merge_loop fuel la' lb m
            | _ =>
                do m <- nlist_append m (n_ip b) (n_mask b) (n_dc b);
                do la <- skip_sub b la;
                merge_loop fuel la lb' m
            end
        | la, lb => do m <- append_all m lb; append_all m la
        end
    end.
  (** [nlist_merge], nlist.c:339-382. *)
  Definition nlist_merge (a b : nlist) : res (nlist * bool) :=
    rassert (l_norm a && l_norm b)
    (do m <- merge_loop (S (length (l_nets a) + length (l_nets b))) (l_nets a) (l_nets b) {| l_nets := []; l_norm := false |};
     nlist_normalize m true).
End Sorted.

(** ** The tree *)
(** [SETBIT_v6], ntree.h:35-42, and [CHKBIT_v6], ntree.c:137-142. *)
Definition set_bit (ip : bytes) (b : nat) : res bytes :=
  rassert (Nat.ltb b 128)
  (do x <- rd ip (b / 8); Ok (upd ip (b / 8) (N.lor x (N.shiftl 1 (7 - N.of_nat (b mod 8)))))).
Definition chk_bit (ip : bytes) (b : nat) : res bool :=
  rassert (Nat.ltb b 128)
  (do x <- rd ip (b / 8); Ok (negb (N.land x (N.shiftl 1 (7 - N.of_nat (b mod 8))) =? 0))).

(** [ntree_t]: nodes in use, and the cached root for IPv4; ntree.h:120-131. *)
Definition store := list (N * N).
Record ntree := { t_store : store; t_v4 : N }.

(** [ntree_add_node], ntree.c:45-56.  A new node's fields are set before they
    are read. *)
Definition add_node (st : store) : res (store * nat) :=
  rassert (N.of_nat (length st) <? 2 ^ 24) (Ok (st ++ [(0, 0)], length st)).

(** [nxt_rec] and [nxt_rec_dir], nlist.c:384-452.  A node index is its number. *)
Fixpoint nxt_rec (fuel : nat) (l : list net) (st : store) (tn : net) : res (list net * store * N) :=
  match fuel with
  | O => UB
  | S fuel =>
      let nxt_rec_dir (l : list net) (st : store) (tn : net) (idx : nat) (one : bool) : res (list net * store) :=
        rassert (Nat.ltb (n_mask tn) 129 && Nat.ltb 0 (n_mask tn))
        (do (l, st, c) <-
           match l with
           | [] => Ok (l, st, set_dclist (n_dc tn))
           | n :: l' =>
               do s <- net_subnet_of n tn;
               if s then
                 if Nat.eqb (n_mask tn) (n_mask n) then
                   match l' with
                   | [] => Ok (l', st, set_dclist (n_dc n))
                   | n2 :: _ =>
                       do s2 <- net_subnet_of n2 n;
                       if s2 then nxt_rec fuel l' st {| n_ip := n_ip tn; n_mask := n_mask tn; n_dc := n_dc n |}
                       else Ok (l', st, set_dclist (n_dc n))
                   end
                 else nxt_rec fuel l st tn
               else Ok (l, st, set_dclist (n_dc tn))
           end;
         do (z, o) <- rd st idx;
         Ok (l, upd st idx (if one then (z, c) else (c, o)))) in
      rassert (Nat.ltb (n_mask tn) 128)
      (do (st, idx) <- add_node st;
       let m := S (n_mask tn) in
       do (l, st) <- nxt_rec_dir l st {| n_ip := n_ip tn; n_mask := m; n_dc := n_dc tn |} idx false;
       do ip <- set_bit (n_ip tn) (m - 1);
       do (l, st) <- nxt_rec_dir l st {| n_ip := ip; n_mask := m; n_dc := n_dc tn |} idx true;
       do (z, o) <- rd st idx;
       if (z =? o) && Nat.ltb 0 idx then Ok (l, firstn (length st - 1) st, z)
       else Ok (l, st, N.of_nat idx))
  end.

(** [ntree_find_v4root], ntree.c:63-74; [k] more steps. *)
Fixpoint v4root (k : nat) (st : store) (off : N) : res N :=
  match k with
  | O => UB
  | S k =>
      do (z, _) <- rd st (N.to_nat off);
      match k with
      | O => Ok z
      | _ => if is_dclist z then Ok z else v4root k st z
      end
  end.

(** [nlist_xlate_tree], nlist.c:454-490, with [ntree_finish]. *)
Definition xlate_tree (l : nlist) : res ntree :=
  rassert (l_norm l)
  (let '(rest, d) :=
     match l_nets l with
     | n :: t => if Nat.eqb (n_mask n) 0 then (t, n_dc n) else (n :: t, 0)
     | [] => ([], 0)
     end in
   do (remaining, st, _) <- nxt_rec 129 rest [] {| n_ip := zeros; n_mask := 0; n_dc := d |};
   rassert (match remaining with [] => true | _ => false end)
   (do v4 <- v4root 96 st 0; Ok {| t_store := st; t_v4 := v4 |})).

(** [ntree_lookup_v6], ntree.c:144-161. *)
Fixpoint lookup_v6 (fuel : nat) (st : store) (ip : bytes) (chk : nat) (off : N) : res (N * nat) :=
  match fuel with
  | O => UB
  | S fuel =>
      do (z, o) <- rd st (N.to_nat off);
      rassert (negb (o =? 0) && negb (z =? 0))
      (do b <- chk_bit ip chk;
       let off := if b then o else z in
       let chk := S chk in
       rassert (Nat.ltb chk 129)
       (if is_dclist off then rassert (negb (off =? NN_UNDEF)) (Ok (get_dclist off, chk))
        else lookup_v6 fuel st ip chk off))
  end.
(** [CHKBIT_v4] and [ntree_lookup_v4], ntree.c:163-193. *)
Definition chk_bit4 (ip : N) (b : nat) : res bool :=
  rassert (Nat.ltb b 32) (Ok (negb (N.land ip (N.shiftl 1 (31 - N.of_nat b)) =? 0))).
Fixpoint lookup_v4 (fuel : nat) (st : store) (ip : N) (chk : nat) (off : N) : res (N * nat) :=
  if is_dclist off then rassert (negb (off =? NN_UNDEF)) (Ok (get_dclist off, chk))
  else
    match fuel with
    | O => UB
    | S fuel =>
        do (z, o) <- rd st (N.to_nat off);
        rassert (negb (o =? 0) && negb (z =? 0))
        (do b <- chk_bit4 ip chk;
         rassert (Nat.ltb (S chk) 33) (lookup_v4 fuel st ip (S chk) (if b then o else z)))
    end.

(** Address space that stands for IPv4, ntree.h:46-92. *)
Definition start_v4mapped : bytes := [0;0;0;0; 0;0;0;0; 0;0;255;255; 0;0;0;0].
Definition start_siit : bytes := [0;0;0;0; 0;0;0;0; 255;255;0;0; 0;0;0;0].
Definition start_wkp : bytes := [0;100;255;155; 0;0;0;0; 0;0;0;0; 0;0;0;0].
Definition start_6to4 : bytes := [32;2;0;0; 0;0;0;0; 0;0;0;0; 0;0;0;0].
Definition start_teredo : bytes := [32;1;0;0; 0;0;0;0; 0;0;0;0; 0;0;0;0].
Definition same (n : nat) (a b : bytes) : bool := mem_eq (firstn n a) (firstn n b).
(** four bytes, as in ntohl(gdnsd_get_una32(p)) *)
Definition ld32 (ip : bytes) (i : nat) : res N :=
  do a <- rd ip i; do b <- rd ip (i + 1); do c <- rd ip (i + 2); do d <- rd ip (i + 3); Ok (get32 a b c d).
(** [v6_v4fixup], ntree.c:199-218: the IPv4 address and the bits before it *)
Definition v4fixup (ip : bytes) : res (option (N * nat)) :=
  if same 12 ip start_v4mapped || same 12 ip start_siit || same 12 ip start_wkp then
    do v <- ld32 ip 12; Ok (Some (v, 96%nat))
  else if same 4 ip start_teredo then
    do v <- ld32 ip 12; Ok (Some (N.lxor v 4294967295, 96%nat))
  else if same 2 ip start_6to4 then
    do v <- ld32 ip 2; Ok (Some (v, 16%nat))
  else Ok None.

Inductive caddr := C4 (ip : bytes) | C6 (ip : bytes).
(** [ntree_lookup_inner], ntree.c:220-241. *)
Definition lookup_inner (t : ntree) (c : caddr) : res (N * nat) :=
  match c with
  | C4 b => do v <- ld32 b 0; lookup_v4 32 (t_store t) v 0 (t_v4 t)
  | C6 b =>
      do f <- v4fixup b;
      match f with
      | Some (v, adj) => do (d, m) <- lookup_v4 32 (t_store t) v 0 (t_v4 t); Ok (d, (m + adj)%nat)
      | None => lookup_v6 128 (t_store t) b 0 0
      end
  end.
(** [client_info_t], as far as it is used here. *)
Record client := { c_source : caddr; c_ecs : caddr; c_ecs_mask : N }.
(** [ntree_lookup], ntree.c:243-258. *)
Definition ntree_lookup (t : ntree) (c : client) (ignore_ecs : bool) : res (N * nat) :=
  rassert (negb (t_v4 t =? 0))
  (if negb (c_ecs_mask c =? 0) && negb ignore_ecs then lookup_inner t (c_ecs c)
   else do (d, _) <- lookup_inner t (c_source c); Ok (d, O)).

(** ** Where lists come from *)
(** [v6_subnet_of] and [check_v4_issues], nets.c:35-60. *)
Definition v6_subnet_of (ip : bytes) (mask : nat) (v4 : bytes) (v4_mask : nat) : bool :=
  Nat.leb v4_mask mask && same (v4_mask / 8) ip v4.
Definition check_v4_issues (ip : bytes) (mask : nat) : bool :=
  v6_subnet_of ip mask start_v4mapped 96 || v6_subnet_of ip mask start_siit 96 || v6_subnet_of ip mask start_wkp 96
  || v6_subnet_of ip mask start_teredo 32 || v6_subnet_of ip mask start_6to4 16.
(** A configured network, parsed: [nets_parse], nets.c:64-127.  [None]: the
    configuration is refused. *)
Inductive cnet := CN4 (ip : bytes) (mask : nat) (dc : N) | CN6 (ip : bytes) (mask : nat) (dc : N).
Definition nets_one (n : cnet) : option net :=
  match n with
  | CN6 ip mask dc => if Nat.ltb 128 mask then None else if check_v4_issues ip mask then None else Some {| n_ip := ip; n_mask := mask; n_dc := dc |}
  | CN4 ip mask dc => if Nat.ltb 128 (mask + 96) then None else Some {| n_ip := repeat 0 12 ++ ip; n_mask := mask + 96; n_dc := dc |}
  end.
Fixpoint nets_parse (cfg : list cnet) (l : nlist) : res (option nlist) :=
  match cfg with
  | [] => Ok (Some l)
  | c :: cfg =>
      match nets_one c with
      | None => Ok None
      | Some n => do l <- nlist_append l (n_ip n) (n_mask n) (n_dc n); nets_parse cfg l
      end
  end.
(** the spaces that are looked up as IPv4, nets.c:148-152 *)
Definition undef_nets : list net :=
  [{| n_ip := start_v4mapped; n_mask := 96; n_dc := NN_UNDEF |}; {| n_ip := start_siit; n_mask := 96; n_dc := NN_UNDEF |};
   {| n_ip := start_wkp; n_mask := 96; n_dc := NN_UNDEF |}; {| n_ip := start_6to4; n_mask := 16; n_dc := NN_UNDEF |};
   {| n_ip := start_teredo; n_mask := 32; n_dc := NN_UNDEF |}].
(** [nets_make_list], nets.c:128-159. *)
Definition nets_make_list (sort : list net -> list net) (cfg : list cnet) : res (option (nlist * bool)) :=
  do o <- nets_parse cfg {| l_nets := []; l_norm := false |};
  match o with
  | None => Ok None
  | Some l => do l <- append_all l undef_nets; do r <- nlist_finish sort l; Ok (Some r)
  end.

(** The database walk.  A record leads to a node, to nothing, or to an entry;
    [get_dclist] finds the entry's list (gdgeoip2.c:281-356, cached), and may
    fail like reading a node. *)
Inductive mrec := RNode (n : N) | REmpty | RData (off : N) | RBad.
Section Geo.
  Variable read_node : N -> option (mrec * mrec).
  Variable get_dc : N -> option N.

  (** [geoip2_list_xlate_recurse], gdgeoip2.c:358-422.  [None]: the load fails
      (siglongjmp). *)
  Fixpoint geo_walk (depth : nat) (l : nlist) (ip : bytes) (node : N) : res (option nlist) :=
    match depth with
    | O => Ok None
    | S nd =>
        if (Nat.eqb depth 32 && (same 12 ip start_v4mapped || same 12 ip start_siit || same 12 ip start_wkp))
           || (Nat.eqb depth 96 && same 4 ip start_teredo) || (Nat.eqb depth 112 && same 2 ip start_6to4)
        then Ok (Some l)
        else
          match read_node node with
          | None => Ok None
          | Some (lrec, rrec) =>
              let mask := (128 - nd)%nat in
              let side (l : nlist) (ip : bytes) (r : mrec) : res (option nlist) :=
                match r with
                | RNode n => geo_walk nd l ip n
                | REmpty => do l <- nlist_append l ip mask 0; Ok (Some l)
                | RData off => match get_dc off with None => Ok None | Some d => do l <- nlist_append l ip mask d; Ok (Some l) end
                | RBad => Ok None
                end in
              do o <- side l ip lrec;
              match o with
              | None => Ok None
              | Some l => do ip <- set_bit ip (mask - 1); side l ip rrec
              end
          end
    end.
  (** [geoip2_list_xlate] and [isolate_jmp], gdgeoip2.c:424-443. *)
  Definition geo_list (sort : list net -> list net) (v4 : bool) : res (option (nlist * bool)) :=
    do o <- geo_walk (if v4 then 32 else 128) {| l_nets := []; l_norm := true |} zeros 0;
    match o with
    | None => Ok None
    | Some l => do r <- nlist_finish sort l; Ok (Some r)
    end.
End Geo.

(** The lookup tree of a map: [gdmap_tree_update], gdmaps.c:155-182. *)
Definition map_tree (sort : list net -> list net) (geo : option nlist) (nets : nlist) : res (ntree * bool) :=
  match geo with
  | Some g => do (m, w) <- nlist_merge sort g nets; do t <- xlate_tree m; Ok (t, w)
  | None => do t <- xlate_tree nets; Ok (t, false)
  end.

(** A map's first load: [gdmap_initial_load_all], gdmaps.c:268-284, with
    [gdmap_update_geoip] and [gdmap_update_nets], gdmaps.c:184-265.  [None]:
    the load fails.  The flag: some network was given twice, differently, and
    that was logged. *)
Record geodb := { g_node : N -> option (mrec * mrec); g_dc : N -> option N; g_v4 : bool }.
Definition initial_load (sort : list net -> list net) (db : option geodb) (cfg : list cnet) : res (option (ntree * bool)) :=
  do g <- match db with
          | None => Ok (Some None)
          | Some db => do o <- geo_list (g_node db) (g_dc db) sort (g_v4 db);
                       Ok (match o with None => None | Some (g, _) => Some (Some g) end)
          end;
  match g with
  | None => Ok None
  | Some geo =>
      do o <- nets_make_list sort cfg;
      match o with
      | None => Ok None
      | Some (nets, w) => do (t, w') <- map_tree sort geo nets; Ok (Some (t, w || w'))
      end
  end.
