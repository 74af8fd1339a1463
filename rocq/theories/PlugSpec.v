(** What the resolver plugins promise, without their code. *)
From Verif Require Import Base MonSpec MonModel PlugModel.
Local Open Scope N_scope.

(** ** Health of something monitored by the services [idx] *)
Definition down (tbl : list N) (idx : list nat) : bool := existsb (fun i => w_down (nth i tbl 0)) idx.
Definition forced (tbl : list N) (idx : list nat) : bool := existsb (fun i => w_forced (nth i tbl 0)) idx.
Definition least (l : list N) : N := fold_right N.min (2 ^ 28 - 1) l.
Definition ttl (tbl : list N) (idx : list nat) : N := least (map (fun i => w_ttl (nth i tbl 0)) idx).
(** the services have state words in the table *)
Definition known (tbl : list N) (idx : list nat) : Prop := Forall (fun i => (i < length tbl)%nat /\ w_legal (nth i tbl 0)) idx.

Definition is6 (a : addr) : bool := match a with A6 _ => true | A4 _ => false end.
Definition bytes_of (a : addr) : bytes := match a with A4 b => b | A6 b => b end.
(** the addresses of one family in a result, and the rest *)
Definition fam (v6 : bool) (r : dres) : list bytes := if v6 then x_v6 r else x_v4 r.
Definition with_fam (v6 : bool) (r : dres) (l : list bytes) : dres :=
  if v6 then {| x_cname := x_cname r; x_v4 := x_v4 r; x_v6 := l; x_scope := x_scope r |}
  else {| x_cname := x_cname r; x_v4 := l; x_v6 := x_v6 r; x_scope := x_scope r |}.
Definition lim (lim4 lim6 : nat) (v6 : bool) : nat := if v6 then lim6 else lim4.

(** ** multifo: a configured set *)
Definition m_ok (lim4 lim6 : nat) (tbl : list N) (v6 : bool) (s : m_set) : Prop :=
  ms_as s <> [] /\ (length (ms_as s) <= lim lim4 lim6 v6)%nat /\
  Forall (fun a => is6 (ma_addr a) = v6 /\ known tbl (ma_idx a)) (ms_as s).
Definition m_up (tbl : list N) (s : m_set) : list m_addr := filter (fun a => negb (down tbl (ma_idx a))) (ms_as s).
Definition m_addrs (l : list m_addr) : list bytes := map (fun a => bytes_of (ma_addr a)) l.

(** ** weighted *)
Definition total (l : list N) : N := fold_right N.add 0 l.
(** a configured set: limits of weighted.c:33-37 *)
Definition wa_ok (tbl : list N) (v6 : bool) (a : w_addr) : Prop :=
  is6 (wa_addr a) = v6 /\ 1 <= wa_weight a <= 1048575 /\ known tbl (wa_idx a).
Definition w_ok (lim4 lim6 : nat) (tbl : list N) (v6 multi : bool) (scale : N -> N) (groups : list (list w_addr)) : Prop :=
  groups <> [] /\ (length groups <= 64)%nat /\
  Forall (fun g => g <> [] /\ (length g <= 64)%nat /\ Forall (wa_ok tbl v6) g) groups /\
  (if multi then (length groups <= lim lim4 lim6 v6)%nat else Forall (fun g => (length g <= lim lim4 lim6 v6)%nat) groups) /\
  (forall w, 0 < w -> 0 < scale w <= w).
(** the weight an address has now, when everything is taken as up, or not *)
Definition now (tbl : list N) (all : bool) (a : w_addr) : N := if all || negb (down tbl (wa_idx a)) then wa_weight a else 0.
Definition gsum (tbl : list N) (all : bool) (g : list w_addr) : N := total (map (now tbl all) g).
Definition up_total (tbl : list N) (groups : list (list w_addr)) : N := total (map (gsum tbl false) groups).
Definition all_total (tbl : list N) (groups : list (list w_addr)) : N := total (map (gsum tbl true) groups).
Definition largest (l : list N) : N := fold_right N.max 0 l.
(** the draw [d] falls to number [j] of a list of weights *)
Definition falls_to (ws : list N) (d : N) (j : nat) : Prop :=
  (j < length ws)%nat /\ total (firstn j ws) <= d < total (firstn (S j) ws).
(** multi mode: for every group a draw below the largest group weight says
    whether it takes part, and another one which of its addresses *)
Inductive multi_out (tbl : list N) (all : bool) (rand : nat -> N -> N) (mx : N) : nat -> list (list w_addr) -> list w_addr -> Prop :=
| mo_nil k : multi_out tbl all rand mx k [] []
| mo_no k g gs out : gsum tbl all g <= rand k mx -> multi_out tbl all rand mx (S k) gs out -> multi_out tbl all rand mx k (g :: gs) out
| mo_yes k g gs out j a : rand k mx < gsum tbl all g -> falls_to (map (now tbl all) g) (rand (S k) (gsum tbl all g)) j -> nth_error g j = Some a ->
    multi_out tbl all rand mx (S (S k)) gs out -> multi_out tbl all rand mx k (g :: gs) (a :: out).
(** single mode: one group by weight; of it every address whose draw below
    the largest address weight is below its own weight *)
Definition single_out (tbl : list N) (all : bool) (rand : nat -> N -> N) (k : nat) (groups : list (list w_addr)) (out : list w_addr) : Prop :=
  exists j g, falls_to (map (gsum tbl all) groups) (rand k (total (map (gsum tbl all) groups))) j /\ nth_error groups j = Some g /\
    out = map snd (filter (fun p => rand (S k + fst p)%nat (largest (map (now tbl all) g)) <? now tbl all (snd p)) (combine (seq 0 (length g)) g)).
Definition w_bytes (l : list w_addr) : list bytes := map (fun a => bytes_of (wa_addr a)) l.

Definition wc_ok (tbl : list N) (scale : N -> N) (items : list w_cname) : Prop :=
  items <> [] /\ (length items <= 64)%nat /\ Forall (fun c => 1 <= wc_weight c <= 1048575 /\ known tbl (wc_idx c)) items /\
  (forall w, 0 < w -> 0 < scale w <= w).
Definition cnow (tbl : list N) (all : bool) (c : w_cname) : N := if all || negb (down tbl (wc_idx c)) then wc_weight c else 0.

(** ** metafo and geoip *)
Definition legal_idx (tbl : list N) (i : nat) : Prop := (i < length tbl)%nat /\ w_legal (nth i tbl 0).
Definition dc_ok (tbl : list N) (d : dc) : Prop :=
  legal_idx tbl (dc_idx d) /\ (forall i, dc_map_idx d = Some i -> legal_idx tbl i) /\
  match dc_what d with DcCname _ idx => known tbl idx | DcSub _ => True end.
(** the resource: a slot per datacenter of the map, slot 0 unused *)
Definition mr_ok (tbl : list N) (m : m_res) : Prop :=
  (mr_num m <= 255)%nat /\ length (mr_dcs m) = S (mr_num m) /\ nth_error (mr_dcs m) 0 = Some None /\
  mr_defined m = length (filter (fun o => match o with Some _ => true | None => false end) (mr_dcs m)) /\
  forall n d, nth_error (mr_dcs m) n = Some (Some d) -> dc_ok tbl d.
(** other plugins, called with an empty result *)
Definition sub_ok (sub : nat -> nat -> dres -> res (N * dres)) : Prop :=
  forall p k, exists w r, sub p k dres0 = Ok (w, r) /\ w_legal w.
(** what datacenter [d] says by itself at call [k], and with the states an
    administrator has forced: the resource's own before the map's *)
Definition own (tbl : list N) (sub : nat -> nat -> dres -> res (N * dres)) (k : nat) (d : dc) (w : N) (r : dres) : Prop :=
  match dc_what d with
  | DcCname n idx => w = word (down tbl idx) (forced tbl idx) (ttl tbl idx) /\ r = {| x_cname := Some n; x_v4 := []; x_v6 := []; x_scope := 0 |}
  | DcSub p => sub p k dres0 = Ok (w, r)
  end.
Definition overruled (tbl : list N) (d : dc) (w : N) : N :=
  if w_forced (nth (dc_idx d) tbl 0) then nth (dc_idx d) tbl 0
  else match dc_map_idx d with
       | Some i => if w_forced (nth i tbl 0) then nth i tbl 0 else w
       | None => w
       end.
(** from the [k]th call on: the states of the datacenters asked, and the
    answer of the first one that is not down, if any *)
Inductive asked (tbl : list N) (sub : nat -> nat -> dres -> res (N * dres)) : nat -> list dc -> list N -> option dres -> Prop :=
| as_none k : asked tbl sub k [] [] None
| as_up k d ds w r : own tbl sub k d w r -> w_down (overruled tbl d w) = false -> asked tbl sub k (d :: ds) [overruled tbl d w] (Some r)
| as_down k d ds w r ws o : own tbl sub k d w r -> w_down (overruled tbl d w) = true -> asked tbl sub (S k) ds ws o ->
    asked tbl sub k (d :: ds) (overruled tbl d w :: ws) o.
(** the datacenters of the list that the resource defines *)
Fixpoint defined (m : m_res) (l : list nat) : list dc :=
  match l with
  | [] => []
  | n :: l => match nth_error (mr_dcs m) n with Some (Some d) => d :: defined m l | _ => defined m l end
  end.
(** ... without the first of several, for a resource that skips it *)
Definition usable (m : m_res) (l : list dc) : list dc :=
  match l with
  | _ :: ((_ :: _) as rest) => if mr_skip m then rest else l
  | _ => l
  end.

(** ** One answer from both families
    [R v6 s d f t l]: the set [s] of that family says down or not [d],
    forced or not [f], TTL [t], addresses [l]. *)
Definition two_families {S} (R : bool -> S -> bool -> bool -> N -> list bytes -> Prop) (v4 v6 : option S) (w : N) (r : dres) : Prop :=
  x_cname r = None /\ x_scope r = 0 /\
  match v4, v6 with
  | Some s4, Some s6 => exists d4 f4 t4 d6 f6 t6,
      R false s4 d4 f4 t4 (x_v4 r) /\ R true s6 d6 f6 t6 (x_v6 r) /\ w = word (d4 || d6) (f4 || f6) (N.min t4 t6)
  | Some s4, None => exists d f t, R false s4 d f t (x_v4 r) /\ x_v6 r = [] /\ w = word d f t
  | None, Some s6 => exists d f t, R true s6 d f t (x_v6 r) /\ x_v4 r = [] /\ w = word d f t
  | None, None => False
  end.
Definition for_both {S} (P : bool -> S -> Prop) (v4 v6 : option S) : Prop :=
  (v4 <> None \/ v6 <> None) /\ (forall s, v4 = Some s -> P false s) /\ (forall s, v6 = Some s -> P true s).

(** multifo *)
Definition m_enough (tbl : list N) (s : m_set) : bool := Nat.leb (ms_up s) (length (m_up tbl s)).
Definition m_says (tbl : list N) (v6 : bool) (s : m_set) (d f : bool) (t : N) (l : list bytes) : Prop :=
  d = negb (m_enough tbl s) /\
  f = existsb (fun a => forced tbl (ma_idx a)) (ms_as s) /\
  t = least (map (fun a => ttl tbl (ma_idx a)) (ms_as s)) /\
  l = m_addrs (if m_enough tbl s && negb (ms_ignore s) then m_up tbl s else ms_as s).

(** simplefo: primary, secondary; its state chart (simplefo.c:229-234) *)
Definition s_ok (lim4 lim6 : nat) (tbl : list N) (v6 : bool) (p : s_pair) : Prop :=
  (1 <= lim lim4 lim6 v6)%nat /\ is6 (sp_pri p) = v6 /\ is6 (sp_sec p) = v6 /\ known tbl (sp_pidx p) /\ known tbl (sp_sidx p).
Definition s_says (tbl : list N) (v6 : bool) (p : s_pair) (d f : bool) (t : N) (l : list bytes) : Prop :=
  match down tbl (sp_pidx p), down tbl (sp_sidx p) with
  | false, _ => d = false /\ f = forced tbl (sp_pidx p) /\ t = ttl tbl (sp_pidx p) /\ l = [bytes_of (sp_pri p)]
  | true, false => d = false /\ f = false /\ t = N.min (ttl tbl (sp_pidx p)) (ttl tbl (sp_sidx p)) /\ l = [bytes_of (sp_sec p)]
  | true, true => d = true /\ f = forced tbl (sp_sidx p) /\ t = ttl tbl (sp_sidx p) /\ l = [bytes_of (sp_pri p)]
  end.

(** weighted: threshold, mode, groups *)
Record w_conf := { wf_scale : N -> N; wf_multi : bool; wf_groups : list (list w_addr) }.
Definition w_enough (tbl : list N) (c : w_conf) : bool := wf_scale c (all_total tbl (wf_groups c)) <=? up_total tbl (wf_groups c).
Definition w_says (tbl : list N) (rand : nat -> N -> N) (v6 : bool) (c : w_conf) (d f : bool) (t : N) (l : list bytes) : Prop :=
  let k := if v6 then 129%nat else 0%nat in
  d = negb (w_enough tbl c) /\
  f = existsb (fun a => forced tbl (wa_idx a)) (concat (wf_groups c)) /\
  t = least (map (fun a => ttl tbl (wa_idx a)) (concat (wf_groups c))) /\
  exists out, l = w_bytes out /\
    (* with too little weight up, everything counts as up *)
    (if wf_multi c then multi_out tbl d rand (largest (map (gsum tbl d) (wf_groups c))) k (wf_groups c) out
     else single_out tbl d rand k (wf_groups c) out).
