(** C65: maps of the plugin geoip with a database: what every client gets *)
From Coq Require Import String ZArith Permutation.
From Verif Require Import Base DnameModel CompModel CompProofs RespModel MonModel VscfModel VscfSpec OptModel VhashModel VhashSpec PlugModel MsgModel LtreeModel PconfModel PconfSpec PconfProofs2 McfModel McfSpec McfProofs McfProofs2 McfProofs3 McfProofs5 GmapModel GmapSpec GmapProofs GmapProofs2 GmapProofs4 GmapProofs5 GmapProps GdbModel GdbSpec GdbProofs GdbProofs2.
From Verif Require LocModel LocSpec LocProofs LocProofs2 NetModel NetSpec NetProofs7 NetProps.
Local Open Scope list_scope.
Local Open Scope nat_scope.
Local Notation length := List.length.
Ltac Zify.zify_post_hook ::= idtac.

(** ** Which databases are used *)

Theorem C65_usable : forall b auto, (exists is_city v4, geoip2_new (Some b) auto = Some (b, is_city, v4) /\ (is_city = true <-> city b) /\ (v4 = true <-> b_ip b = 4%N)) <-> usable b auto.
Proof.
  intros b auto. unfold geoip2_new, usable. rewrite <- city_is. split.
  - intros (is_city & v4 & E & C & V). destruct (b_dated b); cbn [negb] in E; [|discriminate]. destruct (N.eqb_spec (b_major b) 2) as [M|]; cbn [negb] in E; [|discriminate]. destruct (N.ltb_spec 32 (b_record_size b)); [discriminate|].
    split; [reflexivity|]. split; [exact M|]. split; [assumption|]. destruct (N.eqb_spec (b_ip b) 4), (N.eqb_spec (b_ip b) 6); cbn [negb andb] in E; try discriminate; (split; [auto|]); destruct (has_part t_city (c_str (b_type b))), auto; cbn in E; try discriminate; auto; discriminate.
  - intros (-> & -> & R & I & C). cbn [negb]. rewrite (proj2 (N.eqb_eq 2 2) eq_refl), (proj2 (N.ltb_ge 32 (b_record_size b)) R). cbn [negb].
    assert (X : (negb (b_ip b =? 4)%N && negb (b_ip b =? 6)%N)%bool = false) by (destruct I as [-> | ->]; reflexivity). rewrite X.
    assert (Y : (negb (has_part t_city (c_str (b_type b))) && auto)%bool = false) by (destruct auto; [rewrite (C eq_refl); reflexivity|apply andb_false_r]). rewrite Y.
    eexists _, _. split; [reflexivity|]. split; [apply city_is|apply N.eqb_eq].
Qed.
(** Any other ends the start of the server: nothing is undefined, and no part of it is used *)
Theorem C65_unusable : forall D (geodist : point -> point -> D) ltb gai_net sort g db file, g_path g <> None ->
  (forall b, db = Some b -> ~ usable b (g_auto g)) -> load_all geodist ltb gai_net sort g db file = Ok None.
Proof.
  intros D geodist ltb gai_net sort g db file NP NU. unfold load_all. destruct (g_path g); [|congruence]. unfold db_list. destruct (geoip2_new db (g_auto g)) as [((b, ic), v4)|] eqn:E; [|reflexivity]. exfalso. destruct db as [b'|]; [|discriminate].
  apply (NU b' eq_refl). apply C65_usable. assert (b' = b /\ ic = has_part t_city (c_str (b_type b)) /\ v4 = (b_ip b =? 4)%N) as (-> & -> & ->).
  { clear NU. unfold geoip2_new in E. cbv zeta in E. repeat (match type of E with (if ?c then _ else _) = _ => destruct c end; [discriminate|]). injection E as <- <- <-. auto. }
  exists (has_part t_city (c_str (b_type b))), (b_ip b =? 4)%N. split; [exact E|]. split; [apply city_is|apply N.eqb_eq].
Qed.

(** A map for which no database is configured is loaded as in C64, whatever files there are *)
Theorem C65_without_database : forall D (geodist : point -> point -> D) ltb gai_net sort g db file, g_path g = None ->
  load_all geodist ltb gai_net sort g db file = load_plain gai_net sort g file.
Proof.
  intros D geodist ltb gai_net sort g db file NP. unfold load_all, load_plain. rewrite NP. cbn [gbind rbind fst snd NetModel.map_tree].
  match goal with |- ?a = ?b => match b with context [gbind ?x _] => destruct x as [[n|]|] end end; cbn [gbind rbind]; try reflexivity.
  destruct (NetModel.xlate_tree _); cbn [rbind]; [|reflexivity]. now rewrite orb_false_r.
Qed.

Print Assumptions C65_usable.
Print Assumptions C65_without_database.
Print Assumptions C65_unusable.

(** ** What clients get *)

Lemma leads_all names d t l cs : Forall2 (leads names d) l cs -> Forall2 (leads names (d ++ t)) l cs.
Proof. induction 1 as [|w c l cs H F IH]; [apply Forall2_nil|apply Forall2_cons; [|exact IH]]. destruct H as (j & s & E & N & FI & G). assert (L : j < length d) by (apply nth_error_Some; congruence). exists j, s. split; [exact E|]. split; [now rewrite nth_error_app1|]. split; [|exact G]. intros q LQ. rewrite nth_error_app1 by lia. now apply FI. Qed.

Lemma coords_fst strtod names h c : coords_say strtod names (VH h) = Some c -> map fst c = map (fun e => c_str (fst e)) h.
Proof.
  unfold coords_say. intros E. apply all_f2 in E. induction E as [|e p h c X F IH]; [reflexivity|]. cbn [map]. rewrite IH. f_equal. destruct (snd e) as [|[|[|?|?] [|[|?|?] [|? ?]]]|]; try discriminate. destruct (strtod _); [|discriminate]. cbn [obind] in X. destruct (strtod _); [|discriminate]. cbn [obind] in X. destruct (need _); [|discriminate]. now injection X as <-.
Qed.
Lemma says_coords gai_net strtod k x w : sane x -> map_says gai_net strtod (k, x) = Some w -> forall c, w_coords w = Some c -> NoDup (map fst c).
Proof.
  intros SN. unfold map_says. cbn [snd fst]. destruct x as [|?|h]; try discriminate. destruct (SN h eq_refl) as (_ & SC & _). destruct (get k_centers h) as [c0|]; [|discriminate]. cbn [obind]. destruct (centers_say c0) as [names|] eqn:EC; [|discriminate]. cbn [obind].
  destruct (get k_coords h) as [y|]; cbn [obind].
  - destruct (coords_say strtod names y) as [cs|] eqn:EY; cbn [obind]; [|discriminate]. destruct (match get k_limit h with None => _ | Some _ => _ end) as [lim|]; [|discriminate]. cbn [obind].
    destruct (boolean (get k_ecs h)); [|discriminate]. cbn [obind]. destruct (match get k_db h with None => _ | Some _ => _ end) as [db|]; [|discriminate]. cbn [obind].
    destruct (match get k_map h with None => _ | Some _ => _ end) as [m|] eqn:EM; [|discriminate]. cbn [obind]. destruct (match get k_nets h with None => _ | Some _ => _ end) as [nw|] eqn:EN; [|discriminate]. cbn [obind].
    destruct (only_b map_keys h); [|discriminate]. intros [= <-] c. cbn [w_coords]. intros [= <-]. destruct y as [|?|hy]; try discriminate. rewrite (coords_fst _ _ _ _ EY). now apply SC.
  - destruct (match get k_limit h with None => _ | Some _ => _ end) as [lim|]; [|discriminate]. cbn [obind].
    destruct (boolean (get k_ecs h)); [|discriminate]. cbn [obind]. destruct (match get k_db h with None => _ | Some _ => _ end) as [db|]; [|discriminate]. cbn [obind].
    destruct (match get k_map h with None => _ | Some _ => _ end) as [m|] eqn:EM; [|discriminate]. cbn [obind]. destruct (match get k_nets h with None => _ | Some _ => _ end) as [nw|] eqn:EN; [|discriminate]. cbn [obind].
    destruct (only_b map_keys h); [|discriminate]. intros [= <-] c. discriminate.
Qed.

(** The things that are asked of the map, its database and its networks *)
Definition fit_for (w : map_want) (g : gdmap) (b : mmdb) (l : list net_want) : Prop :=
  usable b (LocSpec.has (w_coords w)) /\ undamaged b /\
  (w_coords w <> None \/ w_map w <> None) /\
  (w_coords w <> None -> Permutation (LocSpec.default_list (g_info g) true (w_map w)) (LocSpec.all_dcs (g_info g))) /\
  agreed l /\ NetSpec.all_reached (map line_net l) /\
  (N.of_nat (1 + 127 * (networks b + length l + 5)) <= 2 ^ 24)%N /\ (N.of_nat (length (g_lists g)) <= 2 ^ 29)%N.

(** Networks that a running map has: made from [l], with the lists [d] *)
Definition nets_in_use (sort : list NetModel.net -> list NetModel.net) (w : map_want) (d : LocModel.dclists) (l : list net_want) (nl : NetModel.nlist) : Prop :=
  exists cs logged, Forall2 (leads (w_names w) d) l cs /\ NetModel.nets_make_list sort cs = Ok (Some (nl, logged)) /\ Forall (fun w => addr_ok (fst (fst w)) /\ prefix_ok (fst (fst w)) (snd (fst w)) = true) l.

Section One.
  Context {D : Type}.
  Variable geodist : point -> point -> D.
  Variable ltb : D -> D -> bool.
  Hypothesis OR : LocSpec.orders ltb.
  Variable gai_net : bytes -> bytes -> option (addr * N).
  Hypothesis GO : whole_addresses gai_net.
  Variable strtod : bytes -> option dbl.
  Variable sort : list NetModel.net -> list NetModel.net.
  Hypothesis SO : NetSpec.sort_ok sort.
  Variables (k : bytes) (x : vnode) (w : map_want) (g : gdmap).
  Hypothesis SN : sane x.
  Hypothesis SA : map_says gai_net strtod (k, x) = Some w.
  Hypothesis EG : gdmap_init gai_net strtod sort (k, fresh x) = Ok (Some g).
  Variable b : mmdb.
  Variable l : list net_want.
  Hypothesis FF : fit_for w g b l.

  Lemma made_here u : exists is_city v4, geoip2_new (Some b) (g_auto g) = Some (b, is_city, v4) /\ (is_city = true <-> city b) /\ v4 = (b_ip b =? 4)%N /\
    LocProofs.info_ok (g_info g) /\ g_auto g = LocSpec.has (w_coords w) /\ (g_auto g = true -> is_city = true /\ Permutation (LocSpec.default_list (g_info g) (g_auto g) (w_map w)) (LocSpec.all_dcs (g_info g))) /\ (g_auto g = true \/ w_map w <> None) /\
    LocProofs2.made (g_info g) (g_auto g) (w_map w) (g_lists g ++ u) (g_map g) /\ LocModel.i_names (g_info g) = w_names w /\ g_ignore g = w_ignore w /\ g_path g = w_db w /\
    match w_nets w with
    | InFile p => g_nets g = NetsFile p
    | Listed l => exists cs nl b, Forall2 (leads (w_names w) (g_lists g)) l cs /\ NetModel.nets_make_list sort cs = Ok (Some (nl, b)) /\ g_nets g = NetsHere nl b
    end.
  Proof.
    pose proof (map_exact gai_net GO strtod sort SO k x SN) as M. rewrite SA in M. destruct M as (g' & EG' & MM). rewrite EG in EG'. injection EG' as <-.
    destruct MM as (_ & (IN & _ & _ & _ & _ & EI) & EA & IG & PA & (d & t & EL & _ & HM) & HN). destruct FF as (US & _ & SM & PM & _). rewrite EA.
    destruct (proj2 (C65_usable _ _) US) as (is_city & v4 & EN & CI & V4). exists is_city, v4. split; [exact EN|]. split; [exact CI|].
    assert (XV : v4 = (b_ip b =? 4)%N) by (destruct v4; symmetry; [now apply N.eqb_eq, V4|]; apply N.eqb_neq; intros X; apply V4 in X; discriminate). split; [exact XV|].
    destruct (@LocProofs.dcinfo_init_ok _ bad_point nan_point _ _ _ _ (says_coords _ _ _ _ _ SN SA) EI) as [IO _]. split; [exact IO|]. split; [reflexivity|].
    assert (AU : LocSpec.has (w_coords w) = true -> is_city = true /\ Permutation (LocSpec.default_list (g_info g) (LocSpec.has (w_coords w)) (w_map w)) (LocSpec.all_dcs (g_info g))).
    { intros H. rewrite H. split; [apply CI, US, H|]. apply PM. intros X. rewrite X in H. discriminate. }
    assert (SO' : LocSpec.has (w_coords w) = true \/ w_map w <> None) by (destruct SM as [X|X]; [left; now destruct (w_coords w)|now right]).
    split; [exact AU|]. split; [exact SO'|]. split; [|auto]. rewrite EL, <- app_assoc. apply (LocProofs2.made_mono AU SO').
    destruct (w_map w) as [m|] eqn:EM.
    - destruct HM as (dm & -> & ED). rewrite EA in ED. destruct (LocProofs2.root_ok _ _ _ _ ED) as [RP N0]. split; [exact N0|exact RP].
    - destruct HM as (-> & ->). split; [reflexivity|exact I].
  Qed.
  Lemma for_list is_city x' ds : (is_city = true <-> city b) -> for_address geodist ltb (g_info g) (LocSpec.has (w_coords w)) is_city (w_map w) b (w_names w) l x' ds -> list_for geodist ltb w (g_info g) b l x' ds.
  Proof. intros CI [H|(UN & H)]; [now left|right]. split; [exact UN|]. destruct (db_has b x') as [[|off]|]; auto. exists is_city. auto. Qed.

  Lemma list_made u : (N.of_nat (length u) <= 2 ^ 29)%N -> exists lst t, db_list geodist ltb sort g (Some b) (g_lists g ++ u) = Ok (Some (lst, (g_lists g ++ u) ++ t)) /\ length t <= networks b /\
    forall v cs nl bf, Forall2 (leads (w_names w) ((g_lists g ++ u) ++ t ++ v)) l cs -> Forall (fun w => addr_ok (fst (fst w)) /\ prefix_ok (fst (fst w)) (snd (fst w)) = true) l ->
      length v <= length l -> NetModel.nets_make_list sort cs = Ok (Some (nl, bf)) ->
      bf = false /\ exists T, NetModel.map_tree sort (Some lst) nl = Ok (T, false) /\
      forall cl, NetSpec.client_ok cl -> exists ds scope, lookup g T ((g_lists g ++ u) ++ t ++ v) cl = Ok (ds, scope) /\ list_for geodist ltb w (g_info g) b l (NetSpec.canon (NetSpec.known_by cl (w_ignore w))) ds.
  Proof.
    intros LU. destruct (made_here u) as (is_city & v4 & EN & CI & -> & IO & EA & AU & SM & MD & IN & IG & PA & _). destruct FF as (_ & UD & _ & _ & AG & AR & FI & LL).
    assert (FI0 : (N.of_nat (1 + 127 * (networks b + 5)) <= 2 ^ 24)%N) by (clear - FI; change (2 ^ 24)%N with 16777216%N in *; lia). assert (LL' : (N.of_nat (length (g_lists g ++ u)) <= 2 ^ 30)%N) by (rewrite app_length; clear - LL LU; change (2 ^ 29)%N with 536870912%N in *; change (2 ^ 30)%N with 1073741824%N; lia).
    destruct (core geodist ltb OR (g_info g) IO (g_auto g) is_city (w_map w) AU SM (g_map g) b UD sort SO (w_names w) (g_lists g ++ u) MD LL' FI0) as (l0 & lst & bb & t & c & LT & EW & EF & CO).
    exists lst, t. split.
    { unfold db_list. rewrite EN. assert (Z : match g_auto g, g_map g with false, None => false | _, _ => true end = true). { destruct (g_auto g); [reflexivity|]. destruct SM as [X|X]; [discriminate|]. destruct MD as (_ & MD). destruct (w_map w), (g_map g); try contradiction; try reflexivity; congruence. }
      match goal with |- match g_auto g with true => _ | false => match g_map g with Some _ => ?R | None => _ end end = _ => assert (Y : R = Ok (Some (lst, (g_lists g ++ u) ++ t))) end.
      { match goal with |- (do o <- ?W; _) = _ => replace W with (Ok (Some (l0, (g_lists g ++ u) ++ t, c)) : res (option carried)) by (symmetry; exact EW) end. cbn [rbind]. rewrite EF. reflexivity. }
      destruct (g_auto g), (g_map g); try exact Y. discriminate. }
    split; [exact LT|]. intros v cs nl bf FL AO LV MK.
    assert (BIG : (N.of_nat (length ((g_lists g ++ u) ++ t ++ v)) < 2147483647)%N) by (rewrite app_length; rewrite (app_length t v); change (2 ^ 30)%N with 1073741824%N in LL'; change (2 ^ 24)%N with 16777216%N in FI; clear - LL' FI LT LV; lia).
    destruct (CO v l cs nl bf) as (-> & T & ET & TL); auto. split; [reflexivity|]. exists T. split; [exact ET|]. intros cl CL. destruct (TL cl (w_ignore w) CL) as (n & kk & ds & E1 & E2 & E3). exists ds, kk. unfold lookup. rewrite IG, E1. cbn [rbind]. rewrite E2. split; [reflexivity|]. rewrite EA in E3. now apply (for_list is_city).
  Qed.

  Lemma lookup_all file : w_db w <> None -> in_force gai_net w file l ->
    exists T d, load_all geodist ltb gai_net sort g (Some b) file = Ok (Some (T, false, d)) /\
    forall cl, NetSpec.client_ok cl -> exists ds scope, lookup g T d cl = Ok (ds, scope) /\ list_for geodist ltb w (g_info g) b l (NetSpec.canon (NetSpec.known_by cl (w_ignore w))) ds.
  Proof.
    intros DB IF. destruct (made_here []) as (_ & _ & _ & _ & _ & _ & _ & _ & _ & _ & IN & _ & PA & HN). destruct (list_made []) as (lst & t & DL & LT & CO); [cbn; lia|]. rewrite app_nil_r in *.
    assert (NS : forall l', w_nets w = Listed l' -> Forall (fun w => addr_ok (fst (fst w)) /\ prefix_ok (fst (fst w)) (snd (fst w)) = true) l').
    { intros l' E. destruct (says_names _ _ _ _ _ SA) as (_ & _ & NS). destruct (NS l' E) as [->|(h & h' & _ & _ & E')]; [constructor|eapply nets_addresses; eauto]. }
    unfold load_all. rewrite PA. destruct (w_db w) as [pth|]; [|congruence]. rewrite DL. cbn [rbind gbind fst snd]. unfold in_force in IF. destruct (w_nets w) as [l'|p] eqn:EWN.
    - subst l'. destruct HN as (cs & nl & bf & FL & MK & ->). cbn [gbind fst snd].
      destruct (CO [] cs nl bf) as (-> & T & -> & TL); [rewrite app_nil_r; exact (leads_all _ _ _ _ _ FL)|auto|cbn; lia|exact MK|].
      rewrite app_nil_r in TL. exists T, (g_lists g ++ t). split; [reflexivity|exact TL].
    - destruct IF as (h & -> & SH & EN'). rewrite HN. unfold update_nets. change (fresh (VH h)) with (TH (ftab h)). cbv beta iota. destruct (says_names _ _ _ _ _ SA) as (NZ & _).
      pose proof (make_nets_says gai_net GO (g_info g) ltac:(rewrite IN; exact NZ) sort SO (Some h) (g_lists g ++ t) ltac:(intros h' [= <-]; exact SH)) as MN. unfold hash_nets in MN. rewrite IN, EN' in MN. destruct MN as (cs & u & nl & bf & E & FL & LU & _ & MK). cbn [option_map] in E. unfold opt.
      match goal with |- context [make_nets ?a ?b ?c ?e ?f] => change (make_nets a b c e f) with (make_nets gai_net sort (g_info g) (Some (ftab h)) (g_lists g ++ t)) end. rewrite E. cbn [gbind fst snd]. rewrite <- app_assoc in *.
      destruct (CO u cs nl bf) as (-> & T & -> & TL); auto; [eapply nets_addresses; eauto|]. exists T. eexists. split; [reflexivity|exact TL].
  Qed.
End One.

(** Every client gets the datacenters of the longest configured network it is in; else those for its place in the database *)
Theorem C65_lookup : forall D (geodist : point -> point -> D) ltb gai_net strtod sort k x w g b file l, LocSpec.orders ltb -> whole_addresses gai_net -> NetSpec.sort_ok sort -> sane x ->
  map_says gai_net strtod (k, x) = Some w -> gdmap_init gai_net strtod sort (k, fresh x) = Ok (Some g) -> w_db w <> None ->
  fit_for w g b l -> in_force gai_net w file l ->
  exists T d, load_all geodist ltb gai_net sort g (Some b) file = Ok (Some (T, false, d)) /\
  forall cl, NetSpec.client_ok cl -> exists ds scope, lookup g T d cl = Ok (ds, scope) /\ list_for geodist ltb w (g_info g) b l (NetSpec.canon (NetSpec.known_by cl (w_ignore w))) ds.
Proof. intros. eapply lookup_all; eauto. Qed.
Print Assumptions C65_lookup.

(** A new database while the server runs, whatever lists [u] were made since the start: the same with the new database *)
Theorem C65_reload : forall D (geodist : point -> point -> D) ltb gai_net strtod sort k x w g b l u nl, LocSpec.orders ltb -> whole_addresses gai_net -> NetSpec.sort_ok sort -> sane x ->
  map_says gai_net strtod (k, x) = Some w -> gdmap_init gai_net strtod sort (k, fresh x) = Ok (Some g) ->
  fit_for w g b l -> (N.of_nat (length u) <= 2 ^ 29)%N -> nets_in_use sort w (g_lists g ++ u) l nl ->
  exists T d, reload_db geodist ltb sort g (Some b) (g_lists g ++ u) nl = Ok (Some (T, false, d)) /\
  (forall j s, nth_error (g_lists g ++ u) j = Some s -> nth_error d j = Some s) /\
  forall cl, NetSpec.client_ok cl -> exists ds scope, lookup g T d cl = Ok (ds, scope) /\ list_for geodist ltb w (g_info g) b l (NetSpec.canon (NetSpec.known_by cl (w_ignore w))) ds.
Proof.
  intros D geodist ltb gai_net strtod sort k x w g b l u nl OR GO SO SN SA EG FF LU (cs & bf & FL & MK & AO).
  destruct (list_made geodist ltb OR gai_net GO strtod sort SO k x w g SN SA EG b l FF u LU) as (lst & t & DL & LT & CO). unfold reload_db. rewrite DL. cbn [rbind].
  destruct (CO [] cs nl bf) as (-> & T & -> & TL); [rewrite app_nil_r; exact (leads_all _ _ _ _ _ FL)|auto|cbn; lia|exact MK|]. rewrite app_nil_r in TL. cbn [rbind]. exists T. eexists. split; [reflexivity|]. split; [|exact TL].
  intros j s E. rewrite nth_error_app1; [exact E|]. apply nth_error_Some. congruence.
Qed.
Print Assumptions C65_reload.

(** A database whose tree is broken where clients can be is never used: not at the start, and not later *)
Theorem C65_broken : forall D (geodist : point -> point -> D) ltb gai_net strtod sort k x w g b file u nl, LocSpec.orders ltb -> whole_addresses gai_net -> NetSpec.sort_ok sort -> sane x ->
  map_says gai_net strtod (k, x) = Some w -> gdmap_init gai_net strtod sort (k, fresh x) = Ok (Some g) -> w_db w <> None ->
  (w_coords w <> None -> Permutation (LocSpec.default_list (g_info g) true (w_map w)) (LocSpec.all_dcs (g_info g))) ->
  (N.of_nat (networks b) <= 2 ^ 24)%N -> (N.of_nat (length (g_lists g ++ u)) <= 2 ^ 30)%N -> (forall o, LocSpec.entry_ok (b_entry b o)) ->
  (exists a, NetSpec.caddr_ok a /\ db_has b (NetSpec.canon a) = None) ->
  load_all geodist ltb gai_net sort g (Some b) file = Ok None /\ reload_db geodist ltb sort g (Some b) (g_lists g ++ u) nl = Ok None.
Proof.
  intros D geodist ltb gai_net strtod sort k x w g b file u nl OR GO SO SN SA EG DB PM NB LL EO BR.
  assert (H : forall u, (N.of_nat (length (g_lists g ++ u)) <= 2 ^ 30)%N -> g_path g <> None /\ db_list geodist ltb sort g (Some b) (g_lists g ++ u) = Ok None).
  { clear u LL. intros u LL. pose proof (map_exact gai_net GO strtod sort SO k x SN) as M. rewrite SA in M. destruct M as (g' & EG' & MM). rewrite EG in EG'. injection EG' as <-.
    destruct MM as (_ & (IN & _ & _ & _ & _ & EI) & EA & IG & PA & (d & t & EL & _ & HM) & HN). split; [congruence|]. unfold db_list. rewrite EA. destruct (geoip2_new (Some b) (LocSpec.has (w_coords w))) as [((b', ic), v4)|] eqn:EN; [|reflexivity].
    assert (b' = b /\ (LocSpec.has (w_coords w) = true -> ic = true) /\ v4 = (b_ip b =? 4)%N) as (-> & IC & ->).
    { unfold geoip2_new in EN. cbv zeta in EN. repeat (match type of EN with (if ?c then _ else _) = _ => destruct c eqn:?C end; [discriminate|]). injection EN as <- <- <-. split; [reflexivity|]. split; [|reflexivity]. intros X. destruct (has_part t_city (c_str (b_type b))); [reflexivity|]. match goal with H : (_ && LocSpec.has (w_coords w))%bool = false |- _ => rewrite X in H; discriminate H end. }
    assert (CW : LocSpec.has (w_coords w) = true \/ w_map w <> None -> walk geodist ltb (g_info g) (LocSpec.has (w_coords w)) ic (g_map g) b (if (b_ip b =? 4)%N then 32 else 128) ({| NetModel.l_nets := []; NetModel.l_norm := true |}, g_lists g ++ u, []) NetModel.zeros 0%N = Ok None).
    { intros SM. assert (AU : LocSpec.has (w_coords w) = true -> ic = true /\ Permutation (LocSpec.default_list (g_info g) (LocSpec.has (w_coords w)) (w_map w)) (LocSpec.all_dcs (g_info g))) by (intros H; split; [now apply IC|]; rewrite H; apply PM; intros X; rewrite X in H; discriminate).
      destruct (@LocProofs.dcinfo_init_ok _ bad_point nan_point _ _ _ _ (says_coords _ _ _ _ _ SN SA) EI) as [IO _].
      eapply core_broken; eauto. rewrite EL, <- app_assoc. apply (LocProofs2.made_mono AU SM). destruct (w_map w) as [m|] eqn:EM.
      - destruct HM as (dm & -> & ED). rewrite EA in ED. destruct (LocProofs2.root_ok _ _ _ _ ED) as [RP N0]. split; [exact N0|exact RP].
      - destruct HM as (-> & ->). split; [reflexivity|exact I]. }
    assert (GM : g_map g <> None -> w_map w <> None) by (destruct (w_map w); [discriminate|destruct HM as (-> & _); auto]).
    destruct (LocSpec.has (w_coords w)) eqn:HA; [|destruct (g_map g) eqn:EM; [|reflexivity]].
    - match goal with |- (do o <- ?W; _) = _ => assert (Z : W = Ok None) by (apply CW; auto); rewrite Z end. reflexivity.
    - match goal with |- (do o <- ?W; _) = _ => assert (Z : W = Ok None) by (apply CW; right; apply GM; discriminate); rewrite Z end. reflexivity. }
  destruct (H u LL) as (NP & E). destruct (H []) as (_ & E0); [rewrite app_nil_r; rewrite app_length in LL; clear - LL; change (2 ^ 30)%N with 1073741824%N in *; lia|]. rewrite app_nil_r in E0. split; [|unfold reload_db; now rewrite E].
  unfold load_all. destruct (g_path g); [|congruence]. now rewrite E0.
Qed.
Print Assumptions C65_broken.

(** The manual says of a missing map: "you just get the default behavior".  With a database and without coordinates the server
    does not start, whatever the database. *)
Theorem C65_missing_map_refuted : forall D (geodist : point -> point -> D) ltb gai_net strtod sort k x w g db file, whole_addresses gai_net -> NetSpec.sort_ok sort -> sane x ->
  map_says gai_net strtod (k, x) = Some w -> gdmap_init gai_net strtod sort (k, fresh x) = Ok (Some g) -> w_db w <> None -> w_coords w = None -> w_map w = None ->
  load_all geodist ltb gai_net sort g db file = Ok None.
Proof.
  intros D geodist ltb gai_net strtod sort k x w g db file GO SO SN SA EG DB NC NM. pose proof (map_exact gai_net GO strtod sort SO k x SN) as M. rewrite SA in M. destruct M as (g' & EG' & MM). rewrite EG in EG'. injection EG' as <-.
  destruct MM as (_ & _ & EA & _ & PA & (d & t & _ & _ & HM) & _). rewrite NC in EA. rewrite NM in HM. destruct HM as (HM & _). unfold load_all. rewrite PA. destruct (w_db w); [|congruence]. unfold db_list. rewrite EA, HM. cbn [LocSpec.has]. destruct (geoip2_new db false) as [((b, c), v)|]; reflexivity.
Qed.
Print Assumptions C65_missing_map_refuted.

(** ** Examples *)

Definition a_entry (o : nat) : LocModel.entry point :=
  let e c n p := {| LocModel.e_continent := LocModel.Got (txt c); LocModel.e_country := LocModel.Got (txt n); LocModel.e_subdivision := fun _ => LocModel.Absent; LocModel.e_city := LocModel.Absent; LocModel.e_lat_lon := p |} in
  match o with
  | 7 => e "EU"%string "DE"%string LocModel.Absent
  | 8 => e "NA"%string "US"%string (LocModel.Got (Fin false 91 (-1), Fin true 119 0))
  | _ => e "AS"%string "JP"%string LocModel.Absent
  end.
Definition a_db (ty : bytes) : mmdb :=
  {| b_dated := true; b_major := 2; b_record_size := 28; b_ip := 4; b_type := ty;
     b_node := fun n => if (n =? 0)%N then Some (NetModel.RNode 1, NetModel.RData 7) else if (n =? 1)%N then Some (NetModel.REmpty, NetModel.RData 8) else None; b_entry := a_entry |}%N.
Definition a_dist (p q : point) : nat := match snd p, snd q with Fin _ m _, Fin _ n _ => N.to_nat (N.max m n - N.min m n) | _, _ => 0 end.
Definition a_file : vnode := VH [(txt "10.0.0.0/8", arr ["eu"; "us"]%string); (txt "10.1.0.0/16", str "asia")].
Definition a_lines : list net_want := [(A4 [10; 0; 0; 0], 8, [txt "eu"; txt "us"]); (A4 [10; 1; 0; 0], 16, [txt "asia"])]%N.

Example C65_witness : exists w g,
  LocSpec.orders Nat.ltb /\ whole_addresses a_gai /\ NetSpec.sort_ok NetProofs7.isort /\ sane a_map2 /\ map_says a_gai a_strtod (txt "m", a_map2) = Some w /\
  gdmap_init a_gai a_strtod NetProofs7.isort (txt "m", fresh a_map2) = Ok (Some g) /\ w_db w <> None /\ fit_for w g (a_db (txt "GeoIP2-City")) a_lines /\ in_force a_gai w (Some (fresh a_file)) a_lines /\
  exists T d, load_all a_dist Nat.ltb a_gai NetProofs7.isort g (Some (a_db (txt "GeoIP2-City"))) (Some (fresh a_file)) = Ok (Some (T, false, d)) /\ d = [[1; 2; 3]; [2]; [2; 1]; [3]] /\
    map (fun a => lookup g T d {| NetModel.c_source := NetModel.C4 a; NetModel.c_ecs := NetModel.C4 [0; 0; 0; 0]%N; NetModel.c_ecs_mask := 0%N |}) [[10; 2; 3; 4]; [10; 1; 3; 4]; [11; 0; 0; 1]; [64; 0; 0; 1]; [200; 0; 0; 1]]%N = [Ok ([2; 1], 0); Ok ([3], 0); Ok ([1; 2; 3], 0); Ok ([2], 0); Ok ([2; 1], 0)].
Proof.
  assert (ORD : LocSpec.orders Nat.ltb). { repeat split; intros *; rewrite ?Nat.ltb_lt, ?Nat.ltb_ge; lia. }
  destruct C64_places_witness as (SN & (w & SA & DB & NW & _ & WM) & g & EG & GL). exists w, g. split; [exact ORD|]. split; [exact a_gai_whole|]. split; [exact NetProofs7.isort_ok|]. split; [exact SN|]. split; [exact SA|]. split; [exact EG|]. split; [congruence|].
  vm_compute in SA. injection SA as <-. vm_compute in EG. injection EG as <-. clear DB NW WM GL SN.
  split; [|split; [|eexists _, _; split; [vm_compute; reflexivity|split; [vm_compute; reflexivity|vm_compute; reflexivity]]]].
  - split; [|split; [|split; [|split; [|split; [|split; [|split]]]]]].
    + repeat split; try (vm_compute; congruence); [left; reflexivity|]. intros _. exists (txt "GeoIP2-"), []. vm_compute. reflexivity.
    + split.
      * intros b HB. change (b_ip (a_db (txt "GeoIP2-City")) =? 4)%N with true. cbn [a_db b_node record_for N.eqb]. destruct (NetSpec.bit b (127 - 31)); [discriminate|]. cbn. destruct (NetSpec.bit b 97); discriminate.
      * intros o. unfold LocSpec.entry_ok, LocSpec.fits. cbn [a_db b_entry]. do 9 (destruct o as [|o]; [vm_compute; repeat split; auto; try lia; discriminate|]). vm_compute. repeat split; auto; try lia; discriminate.
    + left. vm_compute. discriminate.
    + intros _. vm_compute. reflexivity.
    + intros a b [<-|[<-|[]]] [<-|[<-|[]]]; vm_compute; intros X; try discriminate X; reflexivity.
    + intros n I. change (map line_net a_lines) with [NetModel.Build_net [0; 0; 0; 0; 0; 0; 0; 0; 0; 0; 0; 0; 10; 0; 0; 0]%N 104 0; NetModel.Build_net [0; 0; 0; 0; 0; 0; 0; 0; 0; 0; 0; 0; 10; 1; 0; 0]%N 112 0] in *.
      cbn [In] in I. destruct I as [<-|[<-|[]]];
      [exists (NetModel.C4 [10; 0; 0; 1]%N)|exists (NetModel.C4 [10; 1; 0; 1]%N)];
      (split; [repeat constructor|]); (split; [intros i Hi; cbn [NetModel.n_mask] in Hi; do 128 (destruct i as [|i]; [first [reflexivity|lia]|]); lia|]);
      intros n' I'; cbn [In] in I'; destruct I' as [<-|[<-|[]]]; intros CV; cbn [NetModel.n_mask];
      first [lia|exfalso; specialize (CV 111 ltac:(cbn; lia)); discriminate CV].
    + vm_compute. discriminate.
    + vm_compute. discriminate.
  - unfold in_force. cbn [w_nets]. exists [(txt "10.0.0.0/8", arr ["eu"; "us"]%string); (txt "10.1.0.0/16", str "asia")]. split; [reflexivity|]. split; [repeat constructor|]. vm_compute. reflexivity.
Qed.
(** a map without a database: the second step of the load is C64's *)
Example C65_without_database_witness : exists g T d, gdmap_init a_gai a_strtod NetProofs7.isort (txt "m", fresh a_map) = Ok (Some g) /\ g_path g = None /\
  load_all a_dist Nat.ltb a_gai NetProofs7.isort g (Some (a_db (txt "GeoIP2-City"))) None = Ok (Some (T, false, d)) /\ length d = 4.
Proof. eexists _, _, _. split; [vm_compute; reflexivity|]. split; [vm_compute; reflexivity|]. split; [vm_compute; reflexivity|]. vm_compute. reflexivity. Qed.
(** The example my_auto_map in the manual, a Country database with auto_dc_coords, is refused *)
Example C65_country_witness : exists w g, map_says a_gai a_strtod (txt "m", a_map2) = Some w /\ gdmap_init a_gai a_strtod NetProofs7.isort (txt "m", fresh a_map2) = Ok (Some g) /\
  ~ usable (a_db (txt "GeoIP2-Country")) (g_auto g) /\ load_all a_dist Nat.ltb a_gai NetProofs7.isort g (Some (a_db (txt "GeoIP2-Country"))) (Some (fresh a_file)) = Ok None.
Proof.
  eexists _, _. split; [vm_compute; reflexivity|]. split; [vm_compute; reflexivity|]. split; [|vm_compute; reflexivity]. intros (_ & _ & _ & _ & C). specialize (C eq_refl). apply city_is in C. vm_compute in C. discriminate.
Qed.
(** A broken tree: nothing for the half of the addresses from 128.0.0.0 on *)
Definition a_broken : mmdb :=
  {| b_dated := true; b_major := 2; b_record_size := 28; b_ip := 4; b_type := txt "GeoIP2-City"; b_node := fun n => if (n =? 0)%N then Some (NetModel.RData 7, NetModel.RNode 5) else None; b_entry := a_entry |}%N.
Example C65_broken_witness : db_has a_broken (NetSpec.canon (NetModel.C4 [200; 0; 0; 1]%N)) = None /\ NetSpec.caddr_ok (NetModel.C4 [200; 0; 0; 1]%N) /\ (N.of_nat (networks a_broken) <= 2 ^ 24)%N /\
  exists g, gdmap_init a_gai a_strtod NetProofs7.isort (txt "m", fresh a_map2) = Ok (Some g) /\ load_all a_dist Nat.ltb a_gai NetProofs7.isort g (Some a_broken) (Some (fresh a_file)) = Ok None.
Proof. split; [vm_compute; reflexivity|]. split; [repeat constructor|]. split; [vm_compute; discriminate|]. eexists. split; [vm_compute; reflexivity|]. vm_compute. reflexivity. Qed.
(** A database that is replaced while the server runs *)
Example C65_reload_witness : exists w g cs nl T d, map_says a_gai a_strtod (txt "m", a_map2) = Some w /\ gdmap_init a_gai a_strtod NetProofs7.isort (txt "m", fresh a_map2) = Ok (Some g) /\
  Forall2 (leads (w_names w) (g_lists g ++ [[3]])) a_lines cs /\ NetModel.nets_make_list NetProofs7.isort cs = Ok (Some (nl, false)) /\
  reload_db a_dist Nat.ltb NetProofs7.isort g (Some (a_db (txt "GeoIP2-City"))) (g_lists g ++ [[3]]) nl = Ok (Some (T, false, d)) /\
  lookup g T d {| NetModel.c_source := NetModel.C4 [200; 0; 0; 1]%N; NetModel.c_ecs := NetModel.C4 [0; 0; 0; 0]%N; NetModel.c_ecs_mask := 0%N |} = Ok ([2; 1], 0).
Proof.
  eexists _, _, [NetModel.CN4 [10; 0; 0; 0] 8 2; NetModel.CN4 [10; 1; 0; 0] 16 3]%N, _, _, _. split; [vm_compute; reflexivity|]. split; [vm_compute; reflexivity|]. cbn [w_names g_lists app]. split; [|split; [vm_compute; reflexivity|split; [vm_compute; reflexivity|vm_compute; reflexivity]]].
  assert (NB : forall n i, nth_error [txt "us"; txt "eu"; txt "asia"] (i - 1) = Some n -> 1 <= i -> i <= 3 -> numbered [txt "us"; txt "eu"; txt "asia"] n i).
  { intros n i E L1 L2. split; [exact L1|]. split; [exact E|]. intros j LJ. destruct i as [|[|[|[|i]]]]; try lia; cbn in E; injection E as <-; destruct j as [|[|j]]; try lia; discriminate. }
  repeat constructor; [exists 2, [2; 1]|exists 3, [3]]; (split; [reflexivity|]); (split; [reflexivity|]); (split; [intros j LJ; do 3 (destruct j as [|j]; [try lia; discriminate|]); lia|]); repeat constructor; apply NB; try reflexivity; lia.
Qed.
