(** C64: the stanza maps of the plugin geoip: what is made of it, and what clients get *)
From Coq Require Import String ZArith Permutation.
From Verif Require Import Base DnameModel CompModel CompProofs RespModel MonModel VscfModel VscfSpec OptModel VhashModel VhashSpec PlugModel MsgModel LtreeModel PconfModel PconfSpec PconfProofs2 McfModel McfSpec McfProofs McfProofs2 McfProofs3 McfProofs5 GmapModel GmapSpec GmapProofs GmapProofs2 GmapProofs4 GmapProofs5.
From Verif Require PconfProps McfProps DnameSpec LocModel LocSpec LocProofs LocProofs2 NetModel NetSpec NetProofs7.
Local Open Scope list_scope.
Local Open Scope nat_scope.
Local Notation length := List.length.
Ltac Zify.zify_post_hook ::= idtac.

(** getaddrinfo gives whole addresses *)
Definition whole_addresses (gai_net : bytes -> bytes -> option (addr * N)) : Prop := forall a m x n, gai_net a m = Some (x, n) -> addr_ok x.

(** ** What is made *)

(** A map that the configuration describes is made as described; anything else ends the program, and nothing is undefined *)
Theorem C64_map : forall gai_net strtod sort k x, whole_addresses gai_net -> NetSpec.sort_ok sort -> sane x ->
  match map_says gai_net strtod (k, x) with
  | Some w => exists g, gdmap_init gai_net strtod sort (k, fresh x) = Ok (Some g) /\ map_made sort w g
  | None => gdmap_init gai_net strtod sort (k, fresh x) = Ok None
  end.
Proof. intros gai_net strtod sort k x GO SO. exact (map_exact gai_net GO strtod sort SO k x). Qed.
(** All maps, in their order *)
Theorem C64_maps : forall gai_net strtod sort h, whole_addresses gai_net -> NetSpec.sort_ok sort -> Forall (fun e => sane (snd e)) h ->
  match maps_mean gai_net strtod h with
  | Some ws => exists gs, gdmaps_new gai_net strtod sort (map (fun e => (fst e, false, fresh (snd e))) h) = Ok (Some gs) /\ Forall2 (map_made sort) ws gs
  | None => gdmaps_new gai_net strtod sort (map (fun e => (fst e, false, fresh (snd e))) h) = Ok None
  end.
Proof. intros gai_net strtod sort h GO SO. exact (maps_exact gai_net GO strtod sort SO h). Qed.
(** What the resources of geoip see of the maps, which C62 and C63 leave open *)
Theorem C64_geoip : forall gai_net strtod sort h, whole_addresses gai_net -> NetSpec.sort_ok sort -> Forall (fun e => sane (snd e)) h ->
  maps_of gai_net strtod sort (map (fun e => (fst e, false, fresh (snd e))) h) = option_map (map (fun w => (w_name w, w_names w))) (maps_mean gai_net strtod h).
Proof.
  intros gai_net strtod sort h GO SO S. pose proof (C64_maps gai_net strtod sort h GO SO S) as M. unfold maps_of. destruct (maps_mean gai_net strtod h) as [ws|]; cbn [option_map]; [|now rewrite M].
  destruct M as (gs & -> & F). f_equal. induction F as [|w g ws gs H F IH]; [reflexivity|]. cbn [map]. rewrite IH. destruct H as (-> & (-> & _) & _). reflexivity.
Qed.
(** Whatever the data, each map has a datacenter: what C62 and C63 demand of the maps *)
Lemma gmap_each A B (f : A -> gm B) : forall l bs, gmap_all f l = Ok (Some bs) -> Forall (fun b => exists a, f a = Ok (Some b)) bs.
Proof.
  induction l as [|a l IH]; intros bs; cbn [gmap_all]; [intros [= <-]; constructor|]. destruct (f a) as [[b|]|] eqn:E; cbn [gbind]; try discriminate. destruct (gmap_all f l) as [[bs'|]|]; cbn [gbind]; try discriminate. intros [= <-]. constructor; eauto.
Qed.
Lemma init_names gai_net strtod sort e g : gdmap_init gai_net strtod sort e = Ok (Some g) -> LocModel.i_names (g_info g) <> [].
Proof.
  unfold gdmap_init. destruct (snd e) as [|?|h]; try discriminate. destruct (value k_centers h) as [c0|]; [|discriminate]. unfold read_info. destruct (center_names c0) as [[names|]|]; cbn [gbind]; try discriminate.
  destruct (match value k_coords h with Some _ => _ | None => _ end) as [[a|]|]; cbn [gbind]; try discriminate. destruct (match value k_limit h with Some _ => _ | None => _ end) as [[l|]|]; cbn [gbind]; try discriminate. unfold opt.
  destruct (LocModel.dcinfo_init bad_point nan_point names a l) as [i|] eqn:EI; cbn [gbind]; try discriminate.
  assert (NN : LocModel.i_names i <> []).
  { unfold LocModel.dcinfo_init in EI. destruct names as [|n names]; [discriminate|]. intros X. destruct a as [c|]; repeat (match type of EI with (if ?b then _ else _) = _ => destruct b | match ?b with _ => _ end = _ => destruct b end; try discriminate); injection EI as <-; discriminate X. }
  destruct (match value k_ecs h with Some _ => _ | None => _ end) as [[ig|]|]; cbn [gbind]; try discriminate. destruct (match value k_db h with Some _ => _ | None => _ end) as [[path|]|]; cbn [gbind]; try discriminate.
  destruct (read_places i _ path _ _) as [[m|]|]; cbn [gbind]; try discriminate. destruct (read_nets gai_net sort i _ _) as [[n|]|]; cbn [gbind]; try discriminate. destruct (gcheck _) as [[[]|]|]; cbn [gbind]; try discriminate. intros [= <-]. exact NN.
Qed.
Theorem C64_some_center : forall gai_net strtod sort t ms, maps_of gai_net strtod sort t = Some ms -> Forall (fun m => snd m <> []) ms.
Proof.
  intros gai_net strtod sort t ms. unfold maps_of. destruct (gdmaps_new gai_net strtod sort t) as [[l|]|] eqn:E; try discriminate. intros [= <-]. apply gmap_each in E. rewrite Forall_map. eapply Forall_impl; [|exact E]. intros g (e & G). cbn [snd]. now apply init_names in G.
Qed.
(** These keys and no others *)
Theorem C64_keys : forall gai_net strtod k h w, map_says gai_net strtod (k, VH h) = Some w -> forall e, In e h ->
  In (fst e) [txt "datacenters"; txt "auto_dc_coords"; txt "auto_dc_limit"; txt "ignore_ecs"; txt "geoip2_db"; txt "map"; txt "nets"].
Proof.
  intros gai_net strtod k h w. unfold map_says. cbn [snd fst]. destruct (get k_centers h) as [c|]; [|discriminate]. cbn [obind]. destruct (centers_say c) as [names|]; [|discriminate]. cbn [obind].
  destruct (match get k_coords h with None => _ | Some _ => _ end) as [auto|]; [|discriminate]. cbn [obind]. destruct (match get k_limit h with None => _ | Some _ => _ end) as [lim|]; [|discriminate]. cbn [obind].
  destruct (boolean (get k_ecs h)); [|discriminate]. cbn [obind]. destruct (match get k_db h with None => _ | Some _ => _ end) as [db|]; [|discriminate]. cbn [obind].
  destruct (match get k_map h with None => _ | Some _ => _ end) as [m|]; [|discriminate]. cbn [obind]. destruct (match get k_nets h with None => _ | Some _ => _ end) as [nw|]; [|discriminate]. cbn [obind].
  destruct (only_b map_keys h) eqn:O; [|discriminate]. intros _ e I. unfold only_b in O. destruct (existsb (bytes_eqb (fst e)) map_keys) eqn:X; [apply existsb_exists in X as (x & I' & E); apply bytes_eqb_spec in E; rewrite E; exact I'|].
  exfalso. assert (Y : In e (others map_keys h)) by (apply filter_In; split; [exact I|]; unfold among; now rewrite X). destruct (others map_keys h); [destruct Y|discriminate].
Qed.
(** So geoip as a whole: C62_load with the maps made here *)
Theorem C64_geoip_load : forall gai service junk gai_net strtod sort fq_name s h T tops e ms,
  whole_addresses gai_net -> NetSpec.sort_ok sort -> get k_maps h = Some (VH (e :: ms)) -> Forall (fun e => sane (snd e)) (e :: ms) ->
  (forall t ls, all_bytes t -> (fq_name t = Some ls <-> DnameSpec.name_text t ls true /\ DnameSpec.legal_name ls)) -> length junk = 256 ->
  distinct (VH h) -> raw_bytes (VH h) -> plain (VH h) -> safe Geoip (VH h) -> all_steady h -> agree tops T -> open_confs T -> sound service s ->
  loads service (meta_load gai service junk Geoip (maps_of gai_net strtod sort) (Some (fresh (VH h))) tops) s (meta_says gai service fq_name Geoip (maps_of gai_net strtod sort) h T)
    (fun s' w r => exists ws states, maps_mean gai_net strtod (e :: ms) = Some ws /\ states_made s' (map (fun w => (w_name w, w_names w)) ws) states /\ Forall2 (mc_made Geoip states s') (fst w) (fst r) /\
       NoDup (states_of states ++ flat_map mons_of (fst r)) /\ agree (snd r) (snd w)).
Proof.
  intros gai service junk gai_net strtod sort fq_name s h T tops e ms GO SO EM SN FQ JL DI RB PL SA ST A O S.
  pose proof (McfProps.C62_load gai service junk Geoip (maps_of gai_net strtod sort) fq_name s h T tops FQ JL (C64_some_center gai_net strtod sort) DI RB PL SA ST A O S) as L.
  unfold loads in *. destruct (meta_says _ _ _ _ _ _ _) as [w|]; [|exact L]. destruct L as (r & s' & EL & (states & (maps & MS & SM) & F & ND & AG) & LS). exists r, s'. split; [exact EL|]. split; [|exact LS]. unfold maps_say in MS. rewrite EM in MS. rewrite (C64_geoip _ _ _ _ GO SO SN) in MS. destruct (maps_mean gai_net strtod (e :: ms)) as [ws|]; [|discriminate]. injection MS as <-. exists ws, states. auto.
Qed.
(** The key of a network is cut at its first slash *)
Theorem C64_slash : forall s a b, cut_slash s = Some (a, b) <-> s = a ++ 47%N :: b /\ ~ In 47%N a.
Proof.
  induction s as [|c s IH]; intros a b; cbn [cut_slash].
  - split; [discriminate|]. intros (E & _). destruct a; discriminate.
  - destruct (N.eqb_spec c 47) as [->|NE].
    + split; [intros [= <- <-]; split; [reflexivity|intros []]|]. intros (E & NI). destruct a as [|x a]; [now injection E as ->|]. injection E as <- _. exfalso. apply NI. now left.
    + destruct (cut_slash s) as [(a', b')|] eqn:E.
      * split.
        -- intros [= <- <-]. destruct (proj1 (IH a' b') eq_refl) as (-> & NI). split; [reflexivity|]. intros [X|X]; [congruence|now apply NI].
        -- intros (E' & NI). destruct a as [|x a]; [injection E' as E1 _; congruence|]. injection E' as <- E2. assert (X : Some (a', b') = Some (a, b)) by (apply IH; split; [exact E2|intros X; apply NI; now right]). now injection X as -> ->.
      * split; [discriminate|]. intros (E' & NI). destruct a as [|x a]; [injection E' as E1 _; congruence|]. injection E' as <- E2. assert (X : None = Some (a, b)) by (apply IH; split; [exact E2|intros X; apply NI; now right]). discriminate.
Qed.

(** ** What clients get *)

Lemma says_names gai_net strtod k x w : map_says gai_net strtod (k, x) = Some w -> Forall (fun n => ~ In 0%N n) (w_names w) /\
  (w_db w = None -> w_map w = None) /\
  forall l, w_nets w = Listed l -> l = [] \/ exists h h', x = VH h /\ get k_nets h = Some (VH h') /\ nets_say gai_net (w_names w) h' = Some l.
Proof.
  unfold map_says. cbn [snd fst]. destruct x as [|?|h]; try discriminate. destruct (get k_centers h) as [c|]; [|discriminate]. cbn [obind]. destruct (centers_say c) as [names|] eqn:EC; [|discriminate]. cbn [obind].
  destruct (match get k_coords h with None => _ | Some _ => _ end) as [auto|]; [|discriminate]. cbn [obind]. destruct (match get k_limit h with None => _ | Some _ => _ end) as [lim|]; [|discriminate]. cbn [obind].
  destruct (boolean (get k_ecs h)); [|discriminate]. cbn [obind]. destruct (match get k_db h with None => _ | Some _ => _ end) as [db|]; [|discriminate]. cbn [obind].
  destruct (match get k_map h with None => _ | Some _ => _ end) as [m|] eqn:EM; [|discriminate]. cbn [obind]. destruct (match get k_nets h with None => _ | Some _ => _ end) as [nw|] eqn:EN; [|discriminate]. cbn [obind].
  destruct (only_b map_keys h); [|discriminate]. intros [= <-]. cbn [w_names w_db w_map w_nets]. split; [|split].
  - unfold centers_say in EC. destruct (strings c) as [ns|] eqn:ES; [|discriminate]. cbn [obind] in EC. destruct (need _); [|discriminate]. injection EC as <-. apply all_f2 in ES. clear -ES. induction ES as [|y n ys ns E F IH]; constructor; auto. destruct y; try discriminate. injection E as <-. apply c_str_nz.
  - intros ->. destruct (get k_map h); [discriminate|]. now injection EM as <-.
  - intros l ->. destruct (get k_nets h) as [y|] eqn:EG; [|left; now injection EN as <-]. right. destruct y as [r v|a|h']; cbn [obind] in EN; [destruct (file_says (VS r v)); discriminate|discriminate|]. destruct (nets_say gai_net names h') as [l'|] eqn:EL; [|discriminate]. injection EN as <-. exists h, h'. auto.
Qed.
Lemma nets_addresses gai_net names h l : whole_addresses gai_net -> nets_say gai_net names h = Some l -> Forall (fun w => addr_ok (fst (fst w)) /\ prefix_ok (fst (fst w)) (snd (fst w)) = true) l.
Proof.
  intros GO E. apply all_f2 in E. induction E as [|e w h l X F IH]; constructor; auto. pose proof (key_is gai_net GO (fst e)) as K. destruct (key_says gai_net (fst e)) as [(a, n)|]; [|discriminate]. cbn [obind] in X. destruct (list_says names false (snd e)); [|discriminate]. injection X as <-. cbn [fst snd]. tauto.
Qed.

(** The lists of networks that a map works with: those in the configuration, or those in a file *)
Definition in_force (gai_net : bytes -> bytes -> option (addr * N)) (w : map_want) (file : option tree) (l : list net_want) : Prop :=
  match w_nets w with
  | Listed l' => l = l'
  | InFile _ => exists h, file = Some (fresh (VH h)) /\ Forall (fun e => length (elements (snd e)) <= 255) h /\ nets_say gai_net (w_names w) h = Some l
  end.
(** Without a database, every client gets the datacenters of the longest network it is in, and else all of them *)
Theorem C64_lookup : forall gai_net strtod sort k x w g file l, whole_addresses gai_net -> NetSpec.sort_ok sort -> sane x ->
  map_says gai_net strtod (k, x) = Some w -> gdmap_init gai_net strtod sort (k, fresh x) = Ok (Some g) -> w_db w = None ->
  in_force gai_net w file l -> agreed l -> NetSpec.all_reached (map line_net l) -> (N.of_nat (1 + 127 * (length l + 5)) <= 2 ^ 24)%N ->
  exists T d, load_plain gai_net sort g file = Ok (Some (T, false, d)) /\
  forall cl, NetSpec.client_ok cl -> exists ds scope names, lookup g T d cl = Ok (ds, scope) /\
    names_for (w_names w) l (NetSpec.canon (NetSpec.known_by cl (w_ignore w))) names /\ Forall2 (fun n i => 1 <= i /\ nth_error (w_names w) (i - 1) = Some n) names ds.
Proof.
  intros gai_net strtod sort k x w g file l GO SO SN SA EG DB IF AG AR FI. pose proof (map_exact gai_net GO strtod sort SO k x SN) as M. rewrite SA in M. destruct M as (g' & EG' & MM). rewrite EG in EG'. injection EG' as <-.
  destruct MM as (_ & (IN & _) & _ & IG & _ & (d & t & EL & LT & HM) & HN). destruct (says_names _ _ _ _ _ SA) as (NZ & NM & NS). rewrite (NM DB) in HM. destruct HM as (_ & ->).
  assert (D1 : LocModel.dclists_new (g_info g) = [seq 1 (length (w_names w))]) by (unfold LocModel.dclists_new; rewrite IN; reflexivity). rewrite D1 in *.
  unfold in_force in IF. unfold load_plain. destruct (w_nets w) as [l'|p] eqn:EW.
  - subst l'. destruct HN as (cs & nl & b & FL & MK & ->). cbn [gbind fst snd].
    assert (AO : Forall (fun w => addr_ok (fst (fst w)) /\ prefix_ok (fst (fst w)) (snd (fst w)) = true) l) by (destruct (NS l eq_refl) as [->|(h & h' & _ & _ & E)]; [constructor|eapply nets_addresses; eauto]).
    destruct (tree_says (w_names w) (g_lists g)) with (l := l) (cs := cs) (sort := sort) (nl := nl) (b := b) as (-> & T & ET & TL); auto; [now rewrite EL|rewrite EL; cbn [app length]; change (2 ^ 24)%N with 16777216%N in FI; lia|].
    rewrite ET. exists T, (g_lists g). split; [reflexivity|]. intros cl CO. unfold lookup. rewrite IG. apply TL, CO.
  - destruct IF as (h & -> & SH & EN). rewrite HN. assert (t = []) by (destruct t; [reflexivity|cbn in LT; lia]). subst t. rewrite app_nil_r in EL. rewrite EL in *.
    unfold update_nets. change (fresh (VH h)) with (TH (ftab h)). cbv beta iota.
    pose proof (make_nets_says gai_net GO (g_info g) ltac:(rewrite IN; exact NZ) sort SO (Some h) [seq 1 (length (w_names w))] ltac:(intros h' [= <-]; exact SH)) as MN. unfold hash_nets in MN. rewrite IN, EN in MN. destruct MN as (cs & t & nl & b & E & FL & LT' & ND' & MK). cbn [option_map] in E. unfold opt. 
    match goal with |- context [make_nets ?a ?b ?c ?e ?f] => change (make_nets a b c e f) with (make_nets gai_net sort (g_info g) (Some (ftab h)) [seq 1 (length (w_names w))]) end. rewrite E. cbn [gbind fst snd].
    destruct (tree_says (w_names w) ([seq 1 (length (w_names w))] ++ t)) with (l := l) (cs := cs) (sort := sort) (nl := nl) (b := b) as (-> & T & ET & TL); auto; [eapply nets_addresses; eauto|cbn [app length]; change (2 ^ 24)%N with 16777216%N in FI; lia|].
    rewrite ET. eexists T, _. split; [reflexivity|]. intros cl CO. unfold lookup. rewrite IG. apply TL, CO.
Qed.

(** With a database and a map of places, entries of the database get the lists of their places *)
Theorem C64_places : forall gai_net strtod sort k x w g m D (geodist : point -> point -> D) ltb is_city entries offs, whole_addresses gai_net -> NetSpec.sort_ok sort -> sane x ->
  map_says gai_net strtod (k, x) = Some w -> gdmap_init gai_net strtod sort (k, fresh x) = Ok (Some g) -> w_map w = Some m ->
  LocSpec.orders ltb -> (forall c, w_coords w = Some c -> NoDup (map fst c)) ->
  (LocSpec.has (w_coords w) = true -> is_city = true /\ Permutation (LocSpec.default_list (g_info g) true (Some m)) (LocSpec.all_dcs (g_info g))) ->
  (forall o, LocSpec.entry_ok (entries o)) ->
  exists is t, LocModel.get_all geodist ltb (g_info g) (g_auto g) is_city (g_map g) entries (g_lists g) [] offs = Ok (Some (is, g_lists g ++ t)) /\
    Forall2 (fun o i => exists out, nth_error (g_lists g ++ t) i = Some out /\ LocSpec.right_list geodist ltb (g_info g) (LocSpec.has (w_coords w)) is_city (Some m) (entries o) out) offs is.
Proof.
  intros gai_net strtod sort k x w g m D geodist ltb is_city entries offs GO SO SN SA EG EM OR NDC AU EO. pose proof (map_exact gai_net GO strtod sort SO k x SN) as M. rewrite SA in M. destruct M as (g' & EG' & MM). rewrite EG in EG'. injection EG' as <-.
  destruct MM as (_ & (_ & _ & _ & _ & _ & EI) & EA & _ & _ & (d & t & EL & _ & HM) & _). rewrite EM in HM. destruct HM as (dm & -> & ED). rewrite EA in *.
  destruct (@LocProofs.dcinfo_init_ok _ bad_point nan_point _ _ _ _ NDC EI) as [IO _]. destruct (LocProofs2.root_ok _ _ _ _ ED) as [RP N0].
  apply LocProofs2.get_all_ok; auto; try discriminate.
  - intros H. rewrite H in *. apply AU. reflexivity.
  - right. discriminate.
  - rewrite EL. split; [|now apply LocProofs2.rep_mono]. rewrite nth_error_app1; [exact N0|]. apply nth_error_Some. congruence.
Qed.

(** ** A file of networks that changes while the server runs *)

Lemma parse_first gai_net i e post : whole_addresses gai_net -> Forall (fun n => ~ In 0%N n) (LocModel.i_names i) -> length (elements (snd e)) <= 255 ->
  forall pre, Forall (fun e => length (elements (snd e)) <= 255) pre -> nets_say gai_net (LocModel.i_names i) pre <> None -> forall d L0,
  (key_says gai_net (fst e) = None -> parse_nets gai_net i (map (fun e => (fst e, fresh (snd e))) (pre ++ e :: post)) d {| NetModel.l_nets := L0; NetModel.l_norm := false |} = Ok (Some None)) /\
  (key_says gai_net (fst e) <> None -> list_says (LocModel.i_names i) false (snd e) = None ->
    parse_nets gai_net i (map (fun e => (fst e, fresh (snd e))) (pre ++ e :: post)) d {| NetModel.l_nets := L0; NetModel.l_norm := false |} = Ok None).
Proof.
  intros GO NZ SE. induction pre as [|(k, x) h IH]; intros SH NS d L0.
  - destruct e as (k, x). cbn [app map fst snd parse_nets] in *. pose proof (key_is gai_net GO k) as K. split.
    + intros E. rewrite E in K. destruct K as [->|(c & -> & E')]; [reflexivity|]. now rewrite E'.
    + intros NE E. destruct (key_says gai_net k) as [(a, n)|]; [|congruence]. destruct K as (EK & AO & PO).
      assert (CK : exists c, net_of_key gai_net k = Some c /\ forall j, c (N.of_nat j) = cnet_for a n j) by (rewrite EK; eexists; split; [reflexivity|]; intros j; now destruct a). destruct CK as (c & -> & CF).
      change (c 0%N) with (c (N.of_nat 0)). rewrite CF. rewrite (NetProofs7.accepted_one _ (proj1 (prefix_accepted a n 0) PO)). pose proof (foa_says i NZ false x d SE) as F. rewrite E in F. rewrite F. reflexivity.
  - inversion SH as [|? ? SX SH']; subst. cbn [fst snd] in SX. unfold nets_say in NS. cbn [all fst snd] in NS. fold (nets_say gai_net (LocModel.i_names i) h) in NS. cbn [app map fst snd parse_nets]. pose proof (key_is gai_net GO k) as K.
    destruct (key_says gai_net k) as [(a, n)|]; [|now contradiction NS]. cbn [obind] in NS. destruct K as (EK & AO & PO).
    assert (CK : exists c, net_of_key gai_net k = Some c /\ forall j, c (N.of_nat j) = cnet_for a n j) by (rewrite EK; eexists; split; [reflexivity|]; intros j; now destruct a). destruct CK as (c & -> & CF).
    change (c 0%N) with (c (N.of_nat 0)). rewrite CF. rewrite (NetProofs7.accepted_one _ (proj1 (prefix_accepted a n 0) PO)). pose proof (foa_says i NZ false x d SX) as F.
    destruct (list_says (LocModel.i_names i) false x) as [l|]; [|now contradiction NS]. cbn [obind] in NS. destruct F as (EL & A & m & t & EF & NO & LT & ND). rewrite EL, EF. cbn [gbind fst snd]. unfold LocSpec.rule_of in NO. cbn [andb] in NO. destruct m as [j|]; [|destruct NO].
    assert (AC : NetSpec.accepted (cnet_for a n j)) by now apply prefix_accepted. rewrite CF, (NetProofs7.accepted_one _ AC).
    destruct (the_net_ok a n j AO AC) as (HI & HM). destruct (NetProofs5.append_clean L0 _ HI HM) as (n' & EA & CL). rewrite EA.
    apply IH; [exact SH'|]. intros E. now rewrite E in NS.
Qed.

(** A good file gives its networks, and what does not parse or is an array is only logged.  In a file with errors, the first decides: if it
    is a key that is not a network, it is logged and what was in use stays in use; a list with an unknown datacenter ends the program. *)
Theorem C64_update : forall gai_net sort g d, whole_addresses gai_net -> NetSpec.sort_ok sort ->
  Forall (fun n => ~ In 0%N n) (LocModel.i_names (g_info g)) ->
  update_nets gai_net sort g None d = Ok (Some None) /\ (forall l, update_nets gai_net sort g (Some (fresh (VA l))) d = Ok (Some None)) /\
  (forall h l, Forall (fun e => length (elements (snd e)) <= 255) h -> nets_say gai_net (LocModel.i_names (g_info g)) h = Some l ->
    exists cs t nl b, update_nets gai_net sort g (Some (fresh (VH h))) d = Ok (Some (Some (nl, b, d ++ t))) /\
      Forall2 (leads (LocModel.i_names (g_info g)) (d ++ t)) l cs /\ NetModel.nets_make_list sort cs = Ok (Some (nl, b))) /\
  (forall pre e post, Forall (fun e => length (elements (snd e)) <= 255) (pre ++ e :: post) -> nets_say gai_net (LocModel.i_names (g_info g)) pre <> None ->
    (key_says gai_net (fst e) = None -> update_nets gai_net sort g (Some (fresh (VH (pre ++ e :: post)))) d = Ok (Some None)) /\
    (key_says gai_net (fst e) <> None -> list_says (LocModel.i_names (g_info g)) false (snd e) = None -> update_nets gai_net sort g (Some (fresh (VH (pre ++ e :: post)))) d = Ok None)).
Proof.
  intros gai_net sort g d GO SO NZ. split; [reflexivity|]. split; [reflexivity|]. split.
  - intros h l SH E. pose proof (make_nets_says gai_net GO (g_info g) NZ sort SO (Some h) d ltac:(intros h' [= <-]; exact SH)) as MN. unfold hash_nets in MN. cbn [option_map] in MN. rewrite E in MN. destruct MN as (cs & t & nl & b & E' & FL & _ & _ & MK). exists cs, t, nl, b. split; [exact E'|now split].
  - intros pre e post SH NS. apply Forall_app in SH. destruct SH as (S1 & S2). inversion S2 as [|? ? SE S3]; subst. destruct (parse_first gai_net (g_info g) e post GO NZ SE pre S1 NS d []) as (A & B).
    unfold update_nets, make_nets. change (fresh (VH (pre ++ e :: post))) with (TH (ftab (pre ++ e :: post))). cbv beta iota zeta. rewrite <- mtab_nil, entries_mtab. split.
    + intros E. rewrite (A E). reflexivity.
    + intros E E'. rewrite (B E E'). reflexivity.
Qed.

(** ** Findings *)

Definition str (s : string) : vnode := VS (txt s) (txt s).
Definition arr (l : list string) : vnode := VA (map str l).
(** A getaddrinfo that knows three networks *)
Definition a_gai (a m : bytes) : option (addr * N) :=
  if bytes_eqb a (txt "10.0.0.0") && bytes_eqb m (txt "8") then Some (A4 [10; 0; 0; 0]%N, 8%N)
  else if bytes_eqb a (txt "10.1.0.0") && bytes_eqb m (txt "16") then Some (A4 [10; 1; 0; 0]%N, 16%N)
  else if bytes_eqb a (txt "2001:db8::") && bytes_eqb m (txt "32") then Some (A6 [32; 1; 13; 184; 0; 0; 0; 0; 0; 0; 0; 0; 0; 0; 0; 0]%N, 32%N)
  else None.
Lemma a_gai_whole : whole_addresses a_gai.
Proof.
  intros a m x n. unfold a_gai. destruct (_ && _); [intros [= <- <-]; split; [reflexivity|repeat constructor]|]. destruct (_ && _); [intros [= <- <-]; split; [reflexivity|repeat constructor]|]. destruct (_ && _); [intros [= <- <-]; split; [reflexivity|repeat constructor]|discriminate].
Qed.
(** A strtod that knows four texts *)
Definition a_strtod (s : bytes) : option dbl :=
  if bytes_eqb s (txt "nan") then Some NaN else if bytes_eqb s (txt "45.5") then Some (Fin false 91 (-1)) else if bytes_eqb s (txt "-120") then Some (Fin true 120 0) else if bytes_eqb s (txt "-90.25") then Some (Fin true 361 (-2)) else None.

Definition a_client : NetModel.client := {| NetModel.c_source := NetModel.C4 [10; 2; 3; 4]; NetModel.c_ecs := NetModel.C4 [0; 0; 0; 0]; NetModel.c_ecs_mask := 0 |}%N.

(** A value of ignore_ecs that is not a string: an assertion about the parser's data fails, or its bytes are read as if it were one *)
Theorem C64_ignore_refuted : forall gai_net strtod sort r k y, let x := VH [(k_centers, VS r (txt "dc1")); (k_ecs, y)] in (forall r v, y <> VS r v) ->
  gdmap_init gai_net strtod sort (k, fresh x) = UB.
Proof. intros gai_net strtod sort r k y x NS. destruct y as [r' v|l|h]; [now contradiction (NS r' v)| |]; reflexivity. Qed.
(** A new version of a file of networks with the name of an unknown datacenter ends the running program *)
Theorem C64_reload_refuted : exists g, forall sort d,
  gdmap_init a_gai a_strtod NetProofs7.isort (txt "m", fresh (VH [(k_centers, arr ["dc1"; "dc2"]%string); (k_nets, str "nets.db")])) = Ok (Some g) /\
  update_nets a_gai sort g (Some (fresh (VH [(txt "10.0.0.0/8", str "dc3")]))) d = Ok None.
Proof. eexists. intros sort d. split; [vm_compute; reflexivity|]. unfold update_nets, make_nets. vm_compute. reflexivity. Qed.
(** An empty list of datacenters is a list: clients in that network get no datacenter *)
Theorem C64_empty_list_refuted : exists g T d,
  gdmap_init a_gai a_strtod NetProofs7.isort (txt "m", fresh (VH [(k_centers, arr ["dc1"; "dc2"]%string); (k_nets, VH [(txt "10.0.0.0/8", VA [])])])) = Ok (Some g) /\
  load_plain a_gai NetProofs7.isort g None = Ok (Some (T, false, d)) /\
  exists scope, lookup g T d a_client = Ok ([], scope).
Proof. eexists _, _, _. split; [vm_compute; reflexivity|]. split; [vm_compute; reflexivity|]. eexists. vm_compute. reflexivity. Qed.
(** Coordinates that are not a number are let through, and that datacenter is never the nearest *)
Theorem C64_nan_refuted : exists g,
  gdmap_init a_gai a_strtod NetProofs7.isort (txt "m", fresh (VH [(k_centers, arr ["dc1"; "dc2"]%string); (k_coords, VH [(txt "dc1", arr ["nan"; "nan"]%string); (txt "dc2", arr ["45.5"; "-120"]%string)])])) = Ok (Some g) /\
  LocModel.i_coords (g_info g) = [None; Some (Fin false 91 (-1), Fin true 120 0)].
Proof. eexists. split; vm_compute; reflexivity. Qed.
(** Two datacenters of the same name: the second can not be reached by name *)
Theorem C64_two_refuted : exists g T d,
  gdmap_init a_gai a_strtod NetProofs7.isort (txt "m", fresh (VH [(k_centers, arr ["dc1"; "dc1"]%string); (k_nets, VH [(txt "10.0.0.0/8", arr ["dc1"; "dc1"]%string)])])) = Ok (Some g) /\
  load_plain a_gai NetProofs7.isort g None = Ok (Some (T, false, d)) /\
  exists scope, lookup g T d a_client = Ok ([1; 1], scope).
Proof. eexists _, _, _. split; [vm_compute; reflexivity|]. split; [vm_compute; reflexivity|]. eexists. vm_compute. reflexivity. Qed.

(** ** Cases *)

(** A map with two networks, one in the other, and one of IPv6: it is described and made, and clients get what it says *)
Definition a_map : vnode :=
  VH [(txt "datacenters", arr ["us"; "eu"; "asia"]%string); (txt "ignore_ecs", str "true"); (txt "nets", VH [(txt "10.0.0.0/8", arr ["eu"; "us"]%string); (txt "10.1.0.0/16", str "asia"); (txt "2001:db8::/32", arr ["asia"; "eu"]%string)])].
Definition a_want : list net_want := [(A4 [10; 0; 0; 0], 8, [txt "eu"; txt "us"]); (A4 [10; 1; 0; 0], 16, [txt "asia"]); (A6 [32; 1; 13; 184; 0; 0; 0; 0; 0; 0; 0; 0; 0; 0; 0; 0], 32, [txt "asia"; txt "eu"])]%N.
Example C64_witness :
  whole_addresses a_gai /\ NetSpec.sort_ok NetProofs7.isort /\ sane a_map /\
  (exists w, map_says a_gai a_strtod (txt "m", a_map) = Some w /\ w_db w = None /\ w_nets w = Listed a_want /\ in_force a_gai w None a_want) /\
  agreed a_want /\ NetSpec.all_reached (map line_net a_want) /\ (N.of_nat (1 + 127 * (length a_want + 5)) <= 2 ^ 24)%N /\
  exists g T d, gdmap_init a_gai a_strtod NetProofs7.isort (txt "m", fresh a_map) = Ok (Some g) /\ load_plain a_gai NetProofs7.isort g None = Ok (Some (T, false, d)) /\
    map (fun a => lookup g T d {| NetModel.c_source := NetModel.C4 a; NetModel.c_ecs := NetModel.C4 [0; 0; 0; 0]%N; NetModel.c_ecs_mask := 0%N |}) [[10; 2; 3; 4]; [10; 1; 3; 4]; [192; 0; 2; 1]]%N = [Ok ([2; 1], 0); Ok ([3], 0); Ok ([1; 2; 3], 0)].
Proof.
  split; [exact a_gai_whole|]. split; [exact NetProofs7.isort_ok|]. split.
  { intros h [= <-]. repeat split; vm_compute; try discriminate; [intros y [= <-]; eexists _, _; reflexivity|intros y [= <-]; repeat constructor]. }
  split; [eexists; split; [vm_compute; reflexivity|]; repeat split|]. split.
  { intros a b [<-|[<-|[<-|[]]]] [<-|[<-|[<-|[]]]]; vm_compute; intros X; try discriminate X; reflexivity. }
  split.
  { intros n I. change (map line_net a_want) with [NetModel.Build_net [0; 0; 0; 0; 0; 0; 0; 0; 0; 0; 0; 0; 10; 0; 0; 0]%N 104 0; NetModel.Build_net [0; 0; 0; 0; 0; 0; 0; 0; 0; 0; 0; 0; 10; 1; 0; 0]%N 112 0; NetModel.Build_net [32; 1; 13; 184; 0; 0; 0; 0; 0; 0; 0; 0; 0; 0; 0; 0]%N 32 0] in *.
    cbn [In] in I. destruct I as [<-|[<-|[<-|[]]]];
      [exists (NetModel.C4 [10; 0; 0; 1]%N)|exists (NetModel.C4 [10; 1; 0; 1]%N)|exists (NetModel.C6 [32; 1; 13; 184; 0; 0; 0; 0; 0; 0; 0; 0; 0; 0; 0; 1]%N)];
      (split; [repeat constructor|]); (split; [intros i Hi; cbn [NetModel.n_mask] in Hi; do 128 (destruct i as [|i]; [first [reflexivity|lia]|]); lia|]);
      intros n' I'; cbn [In] in I'; destruct I' as [<-|[<-|[<-|[]]]]; intros CV; cbn [NetModel.n_mask];
      first [lia|exfalso; specialize (CV 111 ltac:(cbn; lia)); discriminate CV|exfalso; specialize (CV 2 ltac:(cbn; lia)); discriminate CV|exfalso; specialize (CV 103 ltac:(cbn; lia)); discriminate CV]. }
  split; [vm_compute; discriminate|]. eexists _, _, _. split; [vm_compute; reflexivity|]. split; vm_compute; reflexivity.
Qed.

(** A map of places with coordinates, and a nets file *)
Definition a_map2 : vnode :=
  VH [(txt "datacenters", arr ["us"; "eu"; "asia"]%string); (txt "auto_dc_coords", VH [(txt "eu", arr ["45.5"; "-120"]%string); (txt "us", arr ["45.5"; "-90.25"]%string)]); (txt "auto_dc_limit", str "1"); (txt "geoip2_db", str "GeoIP2.mmdb");
      (txt "map", VH [(txt "EU", VH [(txt "DE", arr ["eu"; "us"]%string); (txt "default", arr ["eu"]%string)]); (txt "NA", str "auto")]); (txt "nets", str "nets.db")].
Example C64_places_witness : sane a_map2 /\
  (exists w, map_says a_gai a_strtod (txt "m", a_map2) = Some w /\ w_db w = Some (txt "GeoIP2.mmdb") /\ w_nets w = InFile (txt "nets.db") /\ w_limit w = Some 1%N /\
    w_map w = Some (LocModel.Hash None (LocModel.ESub (txt "EU") (LocModel.Hash (Some [txt "eu"]) (LocModel.EList (txt "DE") [txt "eu"; txt "us"] LocModel.ENone)) (LocModel.EList (txt "NA") [txt "auto"] LocModel.ENone)))) /\
  exists g, gdmap_init a_gai a_strtod NetProofs7.isort (txt "m", fresh a_map2) = Ok (Some g) /\ g_lists g = [[1; 2; 3]; [2]; [2; 1]].
Proof.
  split.
  { intros h [= <-]. repeat split; try (vm_compute; discriminate).
    - intros y E. assert (X : VH [(txt "eu", arr ["45.5"; "-120"]%string); (txt "us", arr ["45.5"; "-90.25"]%string)] = VH y) by (injection E as E; now rewrite E). injection X as <-. cbn [map fst]. repeat constructor; cbn [In]; intros H; repeat (destruct H as [H|H]; [discriminate H|]); exact H.
    - intros y E. assert (X : VH [(txt "EU", VH [(txt "DE", arr ["eu"; "us"]%string); (txt "default", arr ["eu"]%string)]); (txt "NA", str "auto")] = y) by (injection E as E; now rewrite E). subst y.
      assert (Z : forall l, length l <= 255 -> short (arr l)) by (intros l L; apply sh_list; [discriminate|]; unfold arr; cbn [elements]; now rewrite map_length).
      apply sh_hash. constructor; [|constructor; [|constructor]]; cbn [snd]; [|apply sh_list; [discriminate|cbn; lia]]. apply sh_hash. constructor; [|constructor; [|constructor]]; cbn [snd]; apply Z; cbn; lia. }
  split; [eexists; split; [vm_compute; reflexivity|]; repeat split; vm_compute; reflexivity|]. eexists. split; vm_compute; reflexivity.
Qed.
(** What is not a map: no datacenters, one that is called auto, coordinates of an unknown one or off the globe, a map of places without a database,
    an unknown name in a list, a network without a length, an unknown key *)
Example C64_refused_witness : map (fun h => map_says a_gai a_strtod (txt "m", VH h))
  [ []; [(txt "datacenters", arr [])]; [(txt "datacenters", arr ["dc1"; "auto"]%string)];
    [(txt "datacenters", str "dc1"); (txt "auto_dc_coords", VH [(txt "dc2", arr ["45.5"; "-120"]%string)])];
    [(txt "datacenters", str "dc1"); (txt "auto_dc_coords", VH [(txt "dc1", arr ["-120"; "45.5"]%string)])];
    [(txt "datacenters", str "dc1"); (txt "auto_dc_coords", VH [(txt "dc1", arr ["-90.25"; "45.5"]%string)])];
    [(txt "datacenters", str "dc1"); (txt "map", VH [(txt "EU", str "dc1")])];
    [(txt "datacenters", str "dc1"); (txt "nets", VH [(txt "10.0.0.0/8", str "dc2")])];
    [(txt "datacenters", str "dc1"); (txt "nets", VH [(txt "10.0.0.0/8", str "auto")])];
    [(txt "datacenters", str "dc1"); (txt "nets", VH [(txt "10.0.0.0", str "dc1")])];
    [(txt "datacenters", str "dc1"); (txt "nets", str "")];
    [(txt "datacenters", str "dc1"); (txt "geoip_db", str "x")] ] = repeat None 12.
Proof. vm_compute. reflexivity. Qed.
(** Two versions of a file *)
Example C64_update_witness : exists g, gdmap_init a_gai a_strtod NetProofs7.isort (txt "m", fresh a_map2) = Ok (Some g) /\
  Forall (fun n => ~ In 0%N n) (LocModel.i_names (g_info g)) /\
  (exists l, nets_say a_gai (LocModel.i_names (g_info g)) [(txt "10.0.0.0/8", arr ["eu"; "us"]%string)] = Some l /\ l <> []) /\
  key_says a_gai (txt "10.0.0.0/99") = None /\
  update_nets a_gai NetProofs7.isort g (Some (fresh (VH [(txt "10.0.0.0/8", str "eu"); (txt "10.0.0.0/99", str "nobody")]))) (g_lists g) = Ok (Some None) /\
  update_nets a_gai NetProofs7.isort g (Some (fresh (VH [(txt "10.0.0.0/8", str "nobody"); (txt "10.0.0.0/99", str "eu")]))) (g_lists g) = Ok None.
Proof.
  eexists. split; [vm_compute; reflexivity|]. split; [repeat constructor; intros H; vm_compute in H; repeat (destruct H as [H|H]; [discriminate H|]); exact H|].
  split; [eexists; split; [vm_compute; reflexivity|discriminate]|]. split; [vm_compute; reflexivity|]. split; vm_compute; reflexivity.
Qed.
(** geoip with this map *)
Definition a_geo : hash :=
  [(k_undef, str "true"); (k_maps, VH [(txt "m", a_map)]); (k_resources, VH [(txt "one", VH [(txt "map", str "m"); (k_dcmap, VH [(txt "eu", str "%metafo!one/us")])])])].
Example C64_geoip_witness : distinct (VH a_geo) /\ raw_bytes (VH a_geo) /\ plain (VH a_geo) /\ safe Geoip (VH a_geo) /\ all_steady a_geo /\ get k_maps a_geo = Some (VH [(txt "m", a_map)]) /\
  exists rs s', meta_load PconfProps.ex_gai PconfProps.ex_service McfProps.junk0 Geoip (maps_of a_gai a_strtod NetProofs7.isort) (Some (fresh (VH a_geo))) [] PconfProps.s_empty = Ok (Some ((rs, []), s')) /\
    map mx_centers rs = [[txt "us"; txt "eu"; txt "asia"]].
Proof.
  split; [PconfProps.nice|]. split; [PconfProps.nice|]. split; [PconfProps.nice|]. split; [unfold a_geo, a_map, arr; cbn [map]; McfProps.safely|]. split.
  { intros n r dm [[= <- <-]|[]] E. left; reflexivity. }
  split; [reflexivity|]. do 2 eexists. split; [vm_compute; reflexivity|]. repeat split.
Qed.
Example C64_slash_witness : cut_slash (txt "10.0.0.0/8/9") = Some (txt "10.0.0.0", txt "8/9").
Proof. reflexivity. Qed.

Print Assumptions C64_map.
Print Assumptions C64_maps.
Print Assumptions C64_geoip.
Print Assumptions C64_some_center.
Print Assumptions C64_keys.
Print Assumptions C64_geoip_load.
Print Assumptions C64_slash.
Print Assumptions C64_lookup.
Print Assumptions C64_places.
Print Assumptions C64_update.
Print Assumptions C64_ignore_refuted.
Print Assumptions C64_reload_refuted.
Print Assumptions C64_empty_list_refuted.
Print Assumptions C64_nan_refuted.
Print Assumptions C64_two_refuted.
