(** Model of the resolver plugins: multifo, weighted, simplefo, and the core
    shared by metafo and geoip; src/plugins/*.c.

    Resolution is modelled, and of the configuration code the sums it leaves
    behind.  vscf parsing, getaddrinfo and the registration of monitors are
    left out: a configured address comes with the indices of its state words.
    32-bit unsigned arithmetic is explicit. *)
From Verif Require Import Base MonModel.
Local Open Scope N_scope.

Definition add32 (a b : N) : N := (a + b) mod two32.

(** [gdnsd_anysin_t], by family. *)
Inductive addr := A4 (a : bytes) | A6 (a : bytes).

(** [dyn_result_t], src/plugins/plugapi.h:141-152, without the state. *)
Record dres := { x_cname : option (list bytes); x_v4 : list bytes; x_v6 : list bytes; x_scope : N }.
Definition dres0 : dres := {| x_cname := None; x_v4 := []; x_v6 := []; x_scope := 0 |}.

Section Plug.
  (** addrlimit_v4 and addrlimit_v6, src/plugins/plugapi.c:52-57 *)
  Variables lim4 lim6 : nat.
  (** the published state table *)
  Variable tbl : list N.

  (** [gdnsd_result_add_anysin], src/plugins/plugapi.c:96-107. *)
  Definition add_anysin (r : dres) (a : addr) : res dres :=
    rassert (match x_cname r with None => true | _ => false end)
    match a with
    | A6 b => rassert (Nat.ltb (length (x_v6 r)) lim6)
        (Ok {| x_cname := x_cname r; x_v4 := x_v4 r; x_v6 := x_v6 r ++ [b]; x_scope := x_scope r |})
    | A4 b => rassert (Nat.ltb (length (x_v4 r)) lim4)
        (Ok {| x_cname := x_cname r; x_v4 := x_v4 r ++ [b]; x_v6 := x_v6 r; x_scope := x_scope r |})
    end.
  (** [gdnsd_result_add_cname], src/plugins/plugapi.c:109-118 (the name was
      checked when it was configured). *)
  Definition add_cname (r : dres) (n : list bytes) : res dres :=
    match x_cname r, x_v4 r, x_v6 r with
    | None, [], [] => Ok {| x_cname := Some n; x_v4 := []; x_v6 := []; x_scope := x_scope r |}
    | _, _, _ => UB
    end.
  (** [gdnsd_result_wipe] and its variants, src/plugins/plugapi.c:120-146. *)
  Definition wipe (r : dres) : dres := {| x_cname := None; x_v4 := []; x_v6 := []; x_scope := x_scope r |}.
  Definition wipe_v4 (r : dres) : dres := {| x_cname := x_cname r; x_v4 := []; x_v6 := x_v6 r; x_scope := x_scope r |}.
  Definition wipe_v6 (r : dres) : dres := {| x_cname := x_cname r; x_v4 := x_v4 r; x_v6 := []; x_scope := x_scope r |}.
  Definition set_xscope (r : dres) (s : N) : dres := {| x_cname := x_cname r; x_v4 := x_v4 r; x_v6 := x_v6 r; x_scope := s |}.
  Definition add_scope_mask (r : dres) (s : N) : dres := if x_scope r <? s then set_xscope r s else r.

  (** ** multifo, src/plugins/multifo.c *)
  Record m_addr := { ma_addr : addr; ma_idx : list nat }.
  Record m_set := { ms_as : list m_addr; ms_up : nat; ms_ignore : bool }.

  (** the loop of [resolve], multifo.c:368-378 *)
  Fixpoint m_loop (ignore : bool) (as_ : list m_addr) (rv : N) (notdown : nat) (r : dres) : res (N * nat * dres) :=
    match as_ with
    | [] => Ok (rv, notdown, r)
    | a :: as_ =>
        do s <- sttl_min tbl (ma_idx a);
        let rv := sttl_min2 rv s in
        if negb (has s STTL_DOWN) then
          do r <- add_anysin r (ma_addr a); m_loop ignore as_ rv (S notdown) r
        else if ignore then
          do r <- add_anysin r (ma_addr a); m_loop ignore as_ rv notdown r
        else m_loop ignore as_ rv notdown r
    end.
  Fixpoint add_all (r : dres) (as_ : list m_addr) : res dres :=
    match as_ with
    | [] => Ok r
    | a :: as_ => do r <- add_anysin r (ma_addr a); add_all r as_
    end.
  (** [resolve], multifo.c:360-402. *)
  Definition m_resolve (s : m_set) (r : dres) (isv6 : bool) : res (N * dres) :=
    rassert (negb (Nat.eqb (length (ms_as s)) 0))
    (do (rv, notdown, r) <- m_loop (ms_ignore s) (ms_as s) STTL_TTL_MAX O r;
     do (rv, r) <-
       (if Nat.ltb notdown (ms_up s) then
          let rv := N.lor rv STTL_DOWN in
          if negb (ms_ignore s) then
            do r <- add_all (if isv6 then wipe_v6 r else wipe_v4 r) (ms_as s); Ok (rv, r)
          else Ok (rv, r)
        else Ok (N.ldiff rv STTL_DOWN, r));
     rassert (valid_sttl rv) (Ok (rv, r))).
  (** [plugin_multifo_resolve], multifo.c:404-425; the same shape as
      [resolve_addr] of weighted.c:913-931 and [plugin_simplefo_resolve],
      simplefo.c:257-279: both families, if configured. *)
  Definition both {S} (f : S -> dres -> bool -> res (N * dres)) (v4 v6 : option S) (r : dres) : res (N * dres) :=
    do (rv, r) <-
      match v4 with
      | Some s4 =>
          do (rv, r) <- f s4 r false;
          match v6 with
          | Some s6 => do (rv6, r) <- f s6 r true; Ok (sttl_min2 rv rv6, r)
          | None => Ok (rv, r)
          end
      | None => match v6 with Some s6 => f s6 r true | None => UB end
      end;
    rassert (valid_sttl rv) (Ok (rv, r)).
  Definition multifo_resolve := both m_resolve.

  (** ** simplefo, src/plugins/simplefo.c *)
  Record s_pair := { sp_pri : addr; sp_sec : addr; sp_pidx : list nat; sp_sidx : list nat }.
  (** [resolve_addr], simplefo.c:222-255. *)
  Definition s_resolve (p : s_pair) (r : dres) (isv6 : bool) : res (N * dres) :=
    do ps <- sttl_min tbl (sp_pidx p);
    do (which, out) <-
      (if has ps STTL_DOWN then
         do ss <- sttl_min tbl (sp_sidx p);
         if has ss STTL_DOWN then Ok (sp_pri p, ss)
         else
           let pt := N.land ps STTL_TTL_MASK in
           let st := N.land ss STTL_TTL_MASK in
           Ok (sp_sec p, if pt <? st then pt else st)
       else Ok (sp_pri p, ps));
    do r <- add_anysin r which;
    rassert (valid_sttl out) (Ok (out, r)).
  Definition simplefo_resolve := both s_resolve.

  (** ** weighted, src/plugins/weighted.c *)
  Record w_addr := { wa_addr : addr; wa_weight : N; wa_idx : list nat }.
  Record w_item := { wi_as : list w_addr; wi_weight : N; wi_max : N }.
  Record w_set := { ws_items : list w_item; ws_weight : N; ws_up : N; ws_max : N; ws_multi : bool }.
  Definition sum32 (l : list N) : N := fold_left add32 l 0.
  Definition max_of (l : list N) : N := fold_left (fun m w => if m <? w then w else m) l 0.
  (** Sums and maxima: [config_item_addr_groups], weighted.c:297-305 (for
      ungrouped addresses, weighted.c:163-167, the group has one member). *)
  Definition mk_item (as_ : list w_addr) : w_item :=
    {| wi_as := as_; wi_weight := sum32 (map wa_weight as_); wi_max := max_of (map wa_weight as_) |}.
  (** [config_addrset], weighted.c:427-448.  [scale] is
      [gdnsd_uscale_ceil(·, up_thresh)], in floating point. *)
  Definition mk_set (scale : N -> N) (multi : bool) (groups : list (list w_addr)) : w_set :=
    let items := map mk_item groups in
    let w := sum32 (map wi_weight items) in
    {| ws_items := items; ws_weight := w; ws_up := scale w; ws_max := max_of (map wi_weight items); ws_multi := multi |}.

  (** [get_rand]: the [k]th draw, below its argument; weighted.c:125-129.  The
      generator is RandModel.v. *)
  Variable rand : nat -> N -> N.
  Definition get_rand (k : nat) (m : N) : res N := rassert (negb (m =? 0)) (Ok (rand k m)).

  (** weights of the addresses of one item that are not down, their sum and
      maximum: weighted.c:836-850 *)
  Fixpoint w_addrs (as_ : list w_addr) (rv : N) (dw : list N) (sum mx : N) : res (N * (list N * N * N)) :=
    match as_ with
    | [] => Ok (rv, (dw, sum, mx))
    | a :: as_ =>
        do s <- sttl_min tbl (wa_idx a);
        let rv := sttl_min2 rv s in
        if negb (has s STTL_DOWN) then
          w_addrs as_ rv (dw ++ [wa_weight a]) (add32 sum (wa_weight a)) (if mx <? wa_weight a then wa_weight a else mx)
        else w_addrs as_ rv (dw ++ [0]) sum mx
    end.
  Fixpoint w_items (items : list w_item) (rv : N) : res (N * list (list N * N * N)) :=
    match items with
    | [] => Ok (rv, [])
    | it :: items =>
        do (rv, d) <- w_addrs (wi_as it) rv [] 0 0;
        do (rv, ds) <- w_items items rv;
        Ok (rv, d :: ds)
    end.
  (** the first index whose running total exceeds [x] *)
  Fixpoint pick (ws : list N) (i : nat) (total x : N) : option nat :=
    match ws with
    | [] => None
    | w :: ws => let total := add32 total w in if x <? total then Some i else pick ws (S i) total x
    end.
  (** multi mode, weighted.c:884-904 *)
  Fixpoint w_multi (mx : N) (items : list w_item) (ds : list (list N * N * N)) (k : nat) (r : dres) : res dres :=
    match items, ds with
    | it :: items, (dw, isum, _) :: ds =>
        do item_rand <- get_rand k mx;
        if item_rand <? isum then
          rassert (negb (isum =? 0))
          (do addr_rand <- get_rand (S k) isum;
           do r <- match pick dw 0 0 addr_rand with
                   | Some j => do a <- rd (wi_as it) j; add_anysin r (wa_addr a)
                   | None => Ok r
                   end;
           w_multi mx items ds (S (S k)) r)
        else w_multi mx items ds (S k) r
    | [], _ => Ok r
    | _, _ => UB
    end.
  (** the inner loop of single mode, weighted.c:915-920 *)
  Fixpoint w_single (mx : N) (as_ : list w_addr) (dw : list N) (k : nat) (r : dres) : res dres :=
    match as_, dw with
    | a :: as_, w :: dw =>
        do x <- get_rand k mx;
        do r <- (if x <? w then add_anysin r (wa_addr a) else Ok r);
        w_single mx as_ dw (S k) r
    | [], _ => Ok r
    | _, _ => UB
    end.
  (** [resolve], weighted.c:816-929; [k] draws were made before. *)
  Definition w_resolve (s : w_set) (k : nat) (r : dres) : res (N * dres) :=
    do (rv, ds) <- w_items (ws_items s) STTL_TTL_MAX;
    let sums := map (fun d => snd (fst d)) ds in
    let isum := sum32 sums in
    let imax := max_of sums in
    let '(rv, ds, isum, imax) :=
      if isum <? ws_up s then
        (N.lor rv STTL_DOWN, map (fun it => (map wa_weight (wi_as it), wi_weight it, wi_max it)) (ws_items s), ws_weight s, ws_max s)
      else (N.ldiff rv STTL_DOWN, ds, isum, imax) in
    rassert (negb (isum =? 0))
    (rassert (negb (imax =? 0))
    (do r <-
       (if ws_multi s then w_multi imax (ws_items s) ds k r
        else
          do x <- get_rand k isum;
          match pick (map (fun d => snd (fst d)) ds) 0 0 x with
          | Some j =>
              do it <- rd (ws_items s) j;
              do d <- rd ds j;
              let '(dw, _, mx) := d in
              rassert (negb (mx =? 0)) (w_single mx (wi_as it) dw (S k) r)
          | None => Ok r
          end);
     rassert (valid_sttl rv) (Ok (rv, r)))).
  (** [resolve_addr] uses [both] with the draws of the second family behind
      those of the first; how many were made is not kept: [rand] may restart
      there, and as the theorems hold for every [rand], nothing is lost. *)
  Definition weighted_resolve := both (fun s r (isv6 : bool) => w_resolve s (if isv6 then 129 else 0)%nat r).

  (** CNAME mode *)
  Record w_cname := { wc_name : list bytes; wc_weight : N; wc_idx : list nat }.
  Record w_cnset := { wn_items : list w_cname; wn_weight : N; wn_up : N }.
  (** [config_cnameset], weighted.c:543-552. *)
  Definition mk_cnset (scale : N -> N) (items : list w_cname) : w_cnset :=
    let w := sum32 (map wc_weight items) in {| wn_items := items; wn_weight := w; wn_up := scale w |}.
  Fixpoint w_cnames (items : list w_cname) (rv : N) (dw : list N) (sum : N) : res (N * list N * N) :=
    match items with
    | [] => Ok (rv, dw, sum)
    | c :: items =>
        do s <- sttl_min tbl (wc_idx c);
        let rv := sttl_min2 rv s in
        if has s STTL_DOWN then w_cnames items rv (dw ++ [0]) sum
        else w_cnames items rv (dw ++ [wc_weight c]) (add32 sum (wc_weight c))
    end.
  (** [resolve_cname], weighted.c:748-813. *)
  Definition w_resolve_cname (s : w_cnset) (r : dres) : res (N * dres) :=
    rassert (negb (wn_weight s =? 0))
    (do (rv, dw, sum) <- w_cnames (wn_items s) STTL_TTL_MAX [] 0;
     let '(rv, dw, sum) :=
       if sum <? wn_up s then (N.lor rv STTL_DOWN, map wc_weight (wn_items s), wn_weight s)
       else (N.ldiff rv STTL_DOWN, dw, sum) in
     rassert (negb (sum =? 0))
     (do x <- get_rand 0 sum;
      let chosen := match pick dw 0 0 x with Some j => j | None => O end in
      do c <- rd (wn_items s) chosen;
      do r <- add_cname r (wc_name c);
      Ok (rv, r))).

  (** ** metafo and geoip, src/plugins/meta_core.inc *)
  (** [dc_t]: the state words for forcing it in the map (geoip only) and in
      the resource; a fixed name, or a resource of another plugin. *)
  Inductive dc_kind := DcCname (n : list bytes) (idx : list nat) | DcSub (p : nat).
  Record dc := { dc_map_idx : option nat; dc_idx : nat; dc_what : dc_kind }.
  (** [resource_t]; [mr_dcs] has a leading [None] and [None] for datacenters
      of the map the resource does not define *)
  Record m_res := { mr_dcs : list (option dc); mr_num : nat; mr_defined : nat; mr_skip : bool }.
  (** the other plugins: which resource, how many sub-calls were made before
      (their random draws differ), the result so far *)
  Variable sub : nat -> nat -> dres -> res (N * dres).

  (** [resolve_dc], meta_core.inc:338-371. *)
  Definition resolve_dc (d : dc) (k : nat) (r : dres) : res (N * dres) :=
    do (rv, r) <-
      match dc_what d with
      | DcCname n idx => do r <- add_cname r n; do s <- sttl_min tbl idx; Ok (s, r)
      | DcSub p => sub p k r
      end;
    do rv <- match dc_map_idx d with
             | Some i => do w <- rd tbl i; Ok (if has w STTL_FORCED then w else rv)
             | None => Ok rv
             end;
    do w <- rd tbl (dc_idx d);
    Ok (if has w STTL_FORCED then w else rv, r).

  Definition get_dc (m : m_res) (n : nat) : res dc :=
    do o <- rd (mr_dcs m) n; match o with Some d => Ok d | None => UB end.
  (** the loop over the list, meta_core.inc:538-551 *)
  Fixpoint dc_loop (m : m_res) (dcs : list nat) (k : nat) (rv : N) (r : dres) : res (N * dres) :=
    match dcs with
    | [] => Ok (rv, r)
    | n :: dcs =>
        rassert (Nat.leb n (mr_num m))
        (do d <- get_dc m n;
         do (this, r) <- resolve_dc d k (set_xscope (wipe r) 0);
         rassert (valid_sttl this)
         (let rv := sttl_min2 rv this in
          if negb (has this STTL_DOWN) then Ok (N.ldiff rv STTL_DOWN, r)
          else dc_loop m dcs (S k) rv r))
    end.
  Fixpoint dc_filter (m : m_res) (dcs : list nat) : res (list nat) :=
    match dcs with
    | [] => Ok []
    | n :: dcs =>
        do o <- rd (mr_dcs m) n;
        do rest <- dc_filter m dcs;
        Ok (match o with Some _ => n :: rest | None => rest end)
    end.
  (** [CB_RES], meta_core.inc:497-563.  [synth] is the datacenter of a
      resource name with "/dc" (else 0), [dclist] what the map gives for the
      client (zero-terminated there), with its scope. *)
  Definition meta_resolve (m : m_res) (synth : nat) (dclist : list nat) (scope : N) (r : dres) : res (N * dres) :=
    let '(dcs, scope) := if Nat.eqb synth 0 then (dclist, scope) else ([synth], 0) in
    do dcs <-
      (if Nat.eqb (mr_num m) (mr_defined m) then Ok dcs
       else do f <- dc_filter m dcs; rassert (Nat.ltb (length f) 255) (Ok f));
    let dcs := match dcs with
               | _ :: ((_ :: _) as rest) => if mr_skip m then rest else dcs
               | _ => dcs
               end in
    do (rv, r) <-
      match dcs with
      | [] => Ok (STTL_TTL_MAX, r)
      | first :: _ =>
          do (rv, r) <- dc_loop m dcs 0 STTL_TTL_MAX r;
          if has rv STTL_DOWN then
            do d <- get_dc m first;
            do (_, r) <- resolve_dc d (length dcs) (set_xscope (wipe r) 0);
            Ok (rv, r)
          else Ok (rv, r)
      end;
    rassert (valid_sttl rv) (Ok (rv, add_scope_mask r scope)).
End Plug.
