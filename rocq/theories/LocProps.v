(** C20 and C45: automatic datacenter lists, and the map of places. *)
From Coq Require Import Permutation Sorted.
From Verif Require Import Base LocModel LocSpec LocProofs LocProofs2 LocProofs3 LocReal.
Set Implicit Arguments.

(** C20.  For every configuration the code accepts, every default list that names
    every datacenter once, every table of lists that starts with it and every
    location: the list is the nearest datacenters in order of distance, those
    equally far in the order of the default list; its length is the limit (3
    unless configured, all for 0) but at most the number of datacenters with
    coordinates; and it names only those.  For every strict weak order of distances. *)
Theorem C20_nearest_first : forall P D (bad nan : P -> bool) (geodist : P -> P -> D) ltb names cfg lim info d l0 p,
  orders ltb -> NoDup (map fst cfg) -> (forall n q, In (n, q) cfg -> nan q = false) ->
  dcinfo_init bad nan names (Some cfg) lim = Some info -> nth_error d 0 = Some l0 -> Permutation l0 (all_dcs info) ->
  exists i t out, city_auto_map geodist ltb info d p = Ok (i, d ++ t) /\ nth_error (d ++ t) i = Some out /\
    nearest geodist ltb info l0 p out /\
    length out = limit_for lim (length cfg) /\ Forall (fun dc => located info dc = true) out.
Proof.
  intros P D bad nan geodist ltb names cfg lim info d l0 p OR ND NN E E0 PM.
  destruct (@dcinfo_init_ok P bad nan names (Some cfg) lim info) as [IO _]; [intros ? [= <-]; exact ND|exact E|].
  destruct (city_auto_ok bad nan geodist OR d p IO E0 PM) as (i & t & out & A & B & C). exists i, t, out. split; [exact A|]. split; [exact B|]. split; [exact C|].
  eapply nearest_located; eauto.
Qed.
Print Assumptions C20_nearest_first.

(** Over the real numbers the code's distance puts places in the order of their
    distance on the great circle. *)
Theorem C20_great_circle_order : forall p q r : point,
  (ltb_R (geodist_R p q) (geodist_R p r) = true <-> Rdefinitions.Rlt (great_circle p q) (great_circle p r)).
Proof. intros p q r. rewrite ltb_R_iff. apply geodist_order. Qed.
Print Assumptions C20_great_circle_order.
Theorem C20_real_order : orders ltb_R.
Proof. split; [exact ltb_R_irrefl|]. split; [exact ltb_R_trans|exact ltb_R_weak]. Qed.
Print Assumptions C20_real_order.

(** A default list that leaves out a datacenter is accepted, and the first automatic
    list built from it reads past its end (dclists.c:198). *)
Definition abs_dist (a b : nat) : nat := (a - b) + (b - a).
Definition ex_names : list name := [[100; 99; 49]; [100; 99; 50]; [100; 99; 51]; [100; 99; 52]]%N.
Definition dc1 : name := [100; 99; 49]%N.
Definition dc2 : name := [100; 99; 50]%N.
Definition dc3 : name := [100; 99; 51]%N.
Definition dc4 : name := [100; 99; 52]%N.
Definition ex_cfg : list (name * nat) := [(dc1, 40); (dc2, 10); (dc4, 20)].
Definition ex_info : dcinfo nat := {| i_names := ex_names; i_coords := [Some 40; Some 10; None; Some 20]; i_limit := 2 |}.
Definition EU : name := [69; 85]%N.
Definition FR : name := [70; 82]%N.
Definition US : name := [85; 83]%N.
Definition place_in (cont country : name) (p : got nat) : entry nat := {| e_continent := Got cont; e_country := Got country; e_subdivision := fun _ => Absent; e_city := Absent; e_lat_lon := p |}.
Theorem C20_short_default_refuted : exists names cfg lim info m dm d e,
  NoDup (map fst cfg) /\ dcinfo_init (fun _ : nat => false) (fun _ => false) names (Some cfg) lim = Some info /\
  dcmap_new info true m (dclists_new info) Auto 0 = Ok (Some (dm, d)) /\ entry_ok e /\
  get_dclist abs_dist Nat.ltb info true true (Some dm) d e = UB.
Proof.
  exists ex_names, ex_cfg, (Some 2), ex_info, (Hash (Some [dc1]) (EList EU [auto_name] ENone)), (DMap (Num 0) (KList EU Auto KNone)), [[1]], (place_in EU FR (Got 5)).
  split; [repeat constructor; cbn; intuition discriminate|]. split; [vm_compute; reflexivity|]. split; [vm_compute; reflexivity|].
  split; [|vm_compute; reflexivity]. unfold entry_ok, fits. cbn. repeat split; auto; try lia. discriminate.
Qed.
Print Assumptions C20_short_default_refuted.

Example C20_witness :
  dcinfo_init (fun _ : nat => false) (fun _ => false) ex_names (Some ex_cfg) (Some 2) = Some ex_info /\
  all_dcs ex_info = [1; 2; 3; 4] /\
  city_auto_map abs_dist Nat.ltb ex_info [[1; 2; 3; 4]] 16 = Ok (1, [[1; 2; 3; 4]; [4; 2]]) /\
  city_auto_map abs_dist Nat.ltb ex_info [[1; 2; 3; 4]] 15 = Ok (1, [[1; 2; 3; 4]; [2; 4]]) /\
  city_auto_map abs_dist Nat.ltb ex_info [[4; 2; 1; 3]] 15 = Ok (1, [[4; 2; 1; 3]; [4; 2]]) /\
  orders Nat.ltb /\ NoDup (map fst ex_cfg).
Proof.
  repeat (split; [vm_compute; reflexivity|]). split.
  - split; [intros a; apply Nat.ltb_irrefl|]. split; intros a b c; rewrite !Nat.ltb_lt; lia.
  - repeat constructor; cbn; intuition discriminate.
Qed.

(** C45.  For every configuration the code accepts, every database of entries that
    can be read and every sequence of entries, repeated or not: each gets the number
    of the list that the map prescribes for the place, by whatever order of entries
    the lists were built and cached. *)
Theorem C45_places_get_their_list : forall P D (bad nan : P -> bool) (geodist : P -> P -> D) ltb names cfg lim info m dm d x is_city entries offs,
  orders ltb -> (forall c, cfg = Some c -> NoDup (map fst c)) ->
  dcinfo_init bad nan names cfg lim = Some info ->
  let auto := match cfg with Some _ => true | None => false end in
  (auto = true -> is_city = true /\ Permutation (default_list info auto (Some m)) (all_dcs info)) ->
  dcmap_new info auto m (dclists_new info) x 0 = Ok (Some (dm, d)) ->
  (forall o, entry_ok (entries o)) ->
  exists is t, get_all geodist ltb info auto is_city (Some dm) entries d [] offs = Ok (Some (is, d ++ t)) /\
    Forall2 (fun o i => exists out, nth_error (d ++ t) i = Some out /\ right_list geodist ltb info auto is_city (Some m) (entries o) out) offs is.
Proof.
  intros P D bad nan geodist ltb names cfg lim info m dm d x is_city entries offs OR ND E auto AU EN EO.
  destruct (@dcinfo_init_ok P bad nan names cfg lim info ND E) as [IO _].
  destruct (root_ok _ _ _ _ EN) as [RP N0]. apply get_all_ok; auto; [right; discriminate|now split|discriminate].
Qed.
Print Assumptions C45_places_get_their_list.

(** The same without a map stanza: every list is automatic. *)
Theorem C45_no_map_all_automatic : forall P D (bad nan : P -> bool) (geodist : P -> P -> D) ltb names cfg lim info entries offs,
  orders ltb -> NoDup (map fst cfg) ->
  dcinfo_init bad nan names (Some cfg) lim = Some info -> (forall o, entry_ok (entries o)) ->
  exists is t, get_all geodist ltb info true true None entries (dclists_new info) [] offs = Ok (Some (is, dclists_new info ++ t)) /\
    Forall2 (fun o i => exists out, nth_error (dclists_new info ++ t) i = Some out /\
      match e_lat_lon (entries o) with Got p => nearest geodist ltb info (all_dcs info) p out | _ => out = all_dcs info end) offs is.
Proof.
  intros P D bad nan geodist ltb names cfg lim info entries offs OR ND E EO.
  destruct (@dcinfo_init_ok P bad nan names (Some cfg) lim info) as [IO _]; [intros ? [= <-]; exact ND|exact E|].
  destruct (@get_all_ok P D geodist ltb OR info IO true true None) with (dm := @None dcmap) (entries := entries) (offs := offs) (d := dclists_new info) (c := @nil (nat * nat)) as (is & t & A & B); auto; try discriminate; [now split|].
  exists is, t. split; [exact A|exact B].
Qed.
Print Assumptions C45_no_map_all_automatic.

(** A name of 128 bytes or more in the database overflows the buffer. *)
Theorem C45_long_name_refuted : exists (info : dcinfo nat) m dm d e,
  dcmap_new info false m (dclists_new info) Auto 0 = Ok (Some (dm, d)) /\ e_continent e = Got (repeat 65%N 128) /\
  get_dclist abs_dist Nat.ltb info false true (Some dm) d e = UB.
Proof.
  exists ex_info, (Hash None (EList EU [dc1] ENone)), (DMap (Num 0) (KList EU (Num 1) KNone)), [[1; 2; 3; 4]; [1]], (place_in (repeat 65%N 128) FR Absent).
  split; [vm_compute; reflexivity|]. split; [reflexivity|vm_compute; reflexivity].
Qed.
Print Assumptions C45_long_name_refuted.
(** A list of 256 names in the configuration, which may repeat, overflows the buffer. *)
Theorem C45_long_list_refuted : exists (info : dcinfo nat) m, dcmap_new info false m (dclists_new info) Auto 0 = UB.
Proof. exists ex_info, (Hash None (EList EU (repeat dc1 256) ENone)). vm_compute. reflexivity. Qed.
Print Assumptions C45_long_list_refuted.

Definition GB : name := [71; 66]%N.
Definition Paris : name := [80; 97; 114; 105; 115]%N.
Definition ex_map : mapcfg :=
  Hash (Some [dc4; dc3; dc2; dc1])
   (ESub EU (Hash (Some [dc2; dc1])
       (ESub FR (Hash (Some [dc3]) (EList [112; 97; 114; 105; 115]%N [dc4] ENone))
       (ESub GB (Hash None ENone) ENone)))
   (EList US [auto_name] ENone)).
Definition ex_entries (o : nat) : entry nat :=
  match o with
  | 0 => {| e_continent := Got EU; e_country := Got FR; e_subdivision := fun i => match i with 0 => Got [73; 68; 70]%N | _ => Absent end; e_city := Got Paris; e_lat_lon := Absent |}
  | 1 => place_in EU FR Absent
  | 2 => place_in EU GB Absent
  | 3 => place_in EU US Absent
  | 4 => place_in US US (Got 15)
  | 5 => place_in US US Absent
  | _ => place_in FR FR Absent
  end.
Example C45_witness : exists dm d,
  dcmap_new ex_info true ex_map (dclists_new ex_info) Auto 0 = Ok (Some (dm, d)) /\
  Permutation (default_list ex_info true (Some ex_map)) (all_dcs ex_info) /\
  (forall o, entry_ok (ex_entries o)) /\
  get_all abs_dist Nat.ltb ex_info true true (Some dm) ex_entries d [] [0; 1; 2; 3; 4; 5; 6; 0; 4] =
    Ok (Some ([3; 2; 1; 1; 4; 0; 0; 3; 4], [[4; 3; 2; 1]; [2; 1]; [3]; [4]; [4; 2]])).
Proof.
  do 2 eexists. split; [vm_compute; reflexivity|]. split.
  - cbn. change [4; 3; 2; 1] with (rev [1; 2; 3; 4]). symmetry. apply Permutation_rev.
  - split; [|vm_compute; reflexivity]. intros o. unfold entry_ok, fits, ex_entries. destruct o as [|[|[|[|[|[|o]]]]]]; cbn; repeat split; auto; try lia; try discriminate. intros [|i]; cbn; auto; lia.
Qed.
