(** C63: the whole plugins stanza: which plugins are configured, in which order, with what, and what static, null and reflect answer *)
From Coq Require Import String ZArith.
From Verif Require Import Base DnameModel DnameSpec DnameProofs CompModel CompProofs RespModel MonModel VscfModel VscfSpec OptModel VhashModel VhashSpec VhashProofs2 PlugModel MsgModel LtreeModel PconfModel PconfSpec PconfProofs3 PconfProofs7 PconfProps McfModel McfSpec McfProofs McfProofs2 McfProofs3 McfProofs5 McfProps PlcModel PlcSpec PlcProofs PlcProofs3 PlcProofs4 PlcProofs5 PlcProofs6.
Local Open Scope N_scope.
Local Open Scope list_scope.
Local Notation length := List.length.
Ltac Zify.zify_post_hook ::= idtac.

(** ** Service types *)
Theorem C63_types : forall o s, svc_types (option_map fresh o) s = Ok (option_map (fun ts => (ts, s)) (types_say o)).
Proof. exact types_exact. Qed.
(** up and down stay what they are, and each service type has a plugin that monitors *)
Theorem C63_monitored : forall o ts, types_say o = Some ts ->
  Forall (fun x => (fst x <> txt "up" /\ fst x <> txt "down") /\ In (snd x) plugin_table /\ pl_mon (snd x) <> None) ts.
Proof. exact types_fine. Qed.
(** The plugins there are: whether they can be configured, whether zones can use them, and whether they monitor addresses and names *)
Theorem C63_table : forall n l r m, (exists p, find_plugin n = Some p /\ pl_load p = l /\ pl_resolve p = r /\ pl_mon p = m) <->
  In (n, (l, r, m))
    [ (txt "geoip", (true, true, None)); (txt "metafo", (true, true, None)); (txt "multifo", (true, true, None)); (txt "simplefo", (true, true, None)); (txt "weighted", (true, true, None)); (txt "reflect", (true, true, None));
      (txt "static", (true, true, Some (true, true))); (txt "null", (true, true, Some (true, true)));
      (txt "extmon", (true, false, Some (true, true))); (txt "extfile", (false, false, Some (true, true)));
      (txt "http_status", (false, false, Some (true, false))); (txt "tcp_connect", (false, false, Some (true, false))) ].
Proof.
  intros n l r m. split.
  - intros (p & E & <- & <- & <-). pose proof (find_name _ _ E) as <-. apply PlcProofs4.find_in in E. unfold plugin_table in E. cbn [In] in E. repeat (destruct E as [<-|E]; [cbn [pl_name pl_load pl_resolve pl_mon In]; tauto|]). destruct E.
  - cbn [In]. intros I. repeat (destruct I as [I|I]; [injection I as <- <- <- <-; eexists; split; [vm_compute; reflexivity|repeat split]|]). destruct I.
Qed.
Theorem C63_services : forall o ts n q, types_say o = Some ts -> NoDup (map fst ts) ->
  (service_of ts n = Some q <-> (exists p, In (n, p) ts /\ pl_mon p = Some q) \/ ((n = txt "up" \/ n = txt "down") /\ q = (true, true))).
Proof.
  intros o ts n q E ND. apply types_fine in E. rewrite Forall_forall in E. unfold service_of. destruct (List.find (fun x => bytes_eqb n (fst x)) ts) as [(m, p)|] eqn:F.
  - apply find_some in F as (I & B). apply bytes_eqb_spec in B. cbn [fst] in B. subst m. cbn [snd]. split; [left; eauto|]. intros [(p' & I' & Q)|(X & _)].
    + enough (p' = p) by congruence. clear -ND I I'. induction ts as [|a ts IH]; [destruct I|]. cbn in ND. inversion ND as [|? ? NI N']; subst. destruct I as [->|I], I' as [E'|I']; [congruence|exfalso; apply NI; apply in_map_iff; exists (n, p'); auto|subst a; exfalso; apply NI; apply in_map_iff; exists (n, p); auto|now apply IH].
    + destruct (E _ I) as ((U & D) & _). cbn [fst] in *. destruct X; contradiction.
  - assert (NI : forall p, ~ In (n, p) ts). { intros p I. pose proof (find_none _ _ F _ I) as B. cbn [fst] in B. rewrite eqb_refl' in B. discriminate. } split.
    + destruct (bytes_eqb n (txt "up") || bytes_eqb n (txt "down")) eqn:B; [|discriminate]. intros [= <-]. right. split; [|reflexivity]. apply orb_prop in B as [B|B]; apply bytes_eqb_spec in B; auto.
    + intros [(p & I & _)|([-> | ->] & ->)]; [now destruct (NI p)|reflexivity|reflexivity].
Qed.

(** ** What is loaded *)
Theorem C63_all : forall gai strtod junk gdmaps o plugins s, all_load gai strtod junk gdmaps (option_map fresh o) plugins s =
  match types_say o with
  | None => Ok None
  | Some ts => match plugins_load gai strtod (service_of ts) junk gdmaps ts plugins s with
               | Ok (Some (ps, s')) => Ok (Some ((ts, ps), s'))
               | Ok None => Ok None
               | UB => UB
               end
  end.
Proof. intros gai strtod junk gdmaps o plugins s. unfold all_load, bind. rewrite types_exact. destruct (types_say o) as [ts|]; [|reflexivity]. cbn [option_map]. destruct (plugins_load gai strtod (service_of ts) junk gdmaps ts plugins s) as [[(ps, s')|]|]; reflexivity. Qed.
Theorem C63_load : forall gai strtod junk gdmaps fq_name o types s P,
  (forall t ls, all_bytes t -> (fq_name t = Some ls <-> name_text t ls true /\ legal_name ls)) -> length junk = 256%nat ->
  (forall t ms, gdmaps t = Some ms -> Forall (fun m => snd m <> []) ms) ->
  types_say o = Some types -> tidy strtod P -> tidy_later gai (service_of types) fq_name gdmaps P -> sound (service_of types) s ->
  loads (service_of types) (plugins_load gai strtod (service_of types) junk gdmaps types (Some (fresh (VH P)))) s (plugins_say gai strtod (service_of types) fq_name gdmaps types P)
    (plugins_made gdmaps P).
Proof.
  intros gai strtod junk gdmaps fq_name o types s P FQ JL GM TY TD TL S. apply loads_gives; [|exact S]. apply plugins_give; try assumption. eapply types_are_ok; exact TY.
Qed.
Theorem C63_absent : forall gai strtod service junk gdmaps types s,
  plugins_load gai strtod service junk gdmaps types None s = plugins_load gai strtod service junk gdmaps types (Some (fresh (VH []))) s.
Proof. reflexivity. Qed.
(** An entry that is no hash: the program does not start *)
Theorem C63_not_hash : forall gai strtod service junk gdmaps types P p x s y, In (p, x) P -> NoDup (map fst P) -> (forall h, x <> VH h) ->
  plugins_load gai strtod service junk gdmaps types (Some (fresh (VH P))) s <> Ok (Some y).
Proof. intros. eapply never_loads; eauto. Qed.

Theorem C63_no_stanza : forall gai strtod service junk gdmaps types x s, (forall h, x <> VH h) ->
  plugins_load gai strtod service junk gdmaps types (Some (fresh x)) s = Ok None.
Proof. intros gai strtod service junk gdmaps types [r v|l|h] s H; [reflexivity|reflexivity|now destruct (H h)]. Qed.

(** ** The resources that geoip and metafo made are those of the plugins that they were made for *)
Theorem C63_child : forall gai strtod service gdmaps fq_name types s P d l p n data,
  (forall t ms, gdmaps t = Some ms -> Forall (fun m => snd m <> []) ms) -> tidy strtod P ->
  plugins_say gai strtod service fq_name gdmaps types P = Some d -> plugins_made gdmaps P s d l ->
  In (p, n, data) (news Geoip (sd_geoip d) ++ news Metafo (sd_metafo d)) ->
  (p = t_metafo -> In n (map mx_name (of_metafo (metas_of l)))) /\
  (p = t_multifo -> exists rs, piece_of p l = Some (PMulti rs) /\ In n (map fst rs)) /\
  (p = txt "simplefo" -> exists rs, piece_of p l = Some (PSimple rs) /\ In n (map fst rs)) /\
  (p = txt "weighted" -> exists rs, piece_of p l = Some (PWeighted rs) /\ In n (map fst rs)).
Proof. intros. eapply child_found; eauto. Qed.
(** ** What geoip, metafo and zones find *)
Theorem C63_plugins : forall in_zone l p,
  (plug_of in_zone l p = None <-> ~ In p (map txt ["geoip"; "metafo"; "http_status"; "multifo"; "null"; "reflect"; "simplefo"; "static"; "tcp_connect"; "weighted"; "extfile"; "extmon"]%string)) /\
  (plug_of in_zone l p = Some None <-> In p (map txt ["http_status"; "tcp_connect"; "extfile"; "extmon"]%string)).
Proof. exact plugs_are. Qed.
Theorem C63_offers : forall in_zone l p f rn zone i, plug_of in_zone l p = Some (Some f) -> (f rn zone = Some i <-> offers in_zone l p rn zone i).
Proof. exact offers_are. Qed.
(** And geoip and metafo find there what they made *)
Theorem C63_child_used : forall in_zone l p n, ~ In 0 n ->
  (p = t_multifo /\ (exists rs, piece_of p l = Some (PMulti rs) /\ In n (map fst rs))) \/ (p = txt "simplefo" /\ (exists rs, piece_of p l = Some (PSimple rs) /\ In n (map fst rs))) ->
  exists f, plug_of in_zone l p = Some (Some f) /\ forall zone, f (Some n) zone <> None.
Proof.
  intros in_zone l p n Z H.
  assert (X : forall A (rs : list (bytes * A)) zone, In n (map fst rs) -> named_map rs (Some n) zone <> None).
  { intros A rs zone I. unfold named_map. pose proof (C61_resource _ n rs) as R. destruct (map_res n rs 0); [discriminate|]. apply in_map_iff in I as ((m, r) & E & I). cbn in E. subst m. exfalso. apply (R n r I). now rewrite (c_str_whole _ Z). }
  destruct H as [(-> & rs & E & I)|(-> & rs & E & I)]; unfold plug_of.
  - change (find_plugin t_multifo) with (Some (Plugin (txt "multifo") true true None)). cbn [pl_resolve negb]. change (bytes_eqb t_multifo (txt "null")) with false. change (bytes_eqb t_multifo (txt "reflect")) with false. cbv iota. rewrite E. eexists. split; [reflexivity|]. intros zone. now apply X.
  - change (find_plugin (txt "simplefo")) with (Some (Plugin (txt "simplefo") true true None)). cbn [pl_resolve negb]. change (bytes_eqb (txt "simplefo") (txt "null")) with false. change (bytes_eqb (txt "simplefo") (txt "reflect")) with false. cbv iota. rewrite E. eexists. split; [reflexivity|]. intros zone. now apply X.
Qed.

(** ** static, null, reflect *)
Definition st_answer (w : st_what) : dres :=
  match w with
  | StAddr a => {| x_cname := None; x_v4 := addrs4 [a]; x_v6 := addrs6 [a]; x_scope := 0 |}
  | StName d => {| x_cname := Some d; x_v4 := []; x_v6 := []; x_scope := 0 |}
  end.
Theorem C63_static : forall rs i n w lim4 lim6, (1 <= lim4)%nat -> (1 <= lim6)%nat -> nth_error rs i = Some (n, w) ->
  static_resolve lim4 lim6 rs i dres0 = Ok (STTL_TTL_MAX, st_answer w).
Proof.
  intros rs i n w lim4 lim6 L4 L6 E. unfold static_resolve. rewrite E. destruct w as [[b|b]|d]; cbn; [destruct lim4; [lia|reflexivity]|destruct lim6; [lia|reflexivity]|reflexivity].
Qed.
(** null answers with both families: 0.0.0.0 and :: *)
Theorem C63_null : forall lim4 lim6, (1 <= lim4)%nat -> (1 <= lim6)%nat ->
  null_resolve lim4 lim6 dres0 = Ok (STTL_TTL_MAX, {| x_cname := None; x_v4 := [[0; 0; 0; 0]]; x_v6 := [repeat 0 16]; x_scope := 0 |}).
Proof. intros [|lim4] [|lim6] L4 L6; try lia. reflexivity. Qed.
Theorem C63_reflect : forall rn zone source ecs mask lim4 lim6, (2 <= lim4)%nat -> (2 <= lim6)%nat ->
  match reflect_map rn zone with
  | Some i => exists l sc, reflected source ecs mask (option_map c_str rn) l sc /\
      reflect_resolve lim4 lim6 i source ecs mask dres0 = Ok (STTL_TTL_MAX, {| x_cname := None; x_v4 := addrs4 l; x_v6 := addrs6 l; x_scope := sc |})
  | None => forall l sc, ~ reflected source ecs mask (option_map c_str rn) l sc
  end.
Proof.
  intros rn zone source ecs mask lim4 lim6 L4 L6. destruct lim4 as [|[|lim4]], lim6 as [|[|lim6]]; try lia. clear L4 L6.
  assert (R : forall i, i < 4 -> (i = 0 -> exists l sc, l = [source] /\ sc = mask /\ reflect_resolve (S (S lim4)) (S (S lim6)) i source ecs mask dres0 = Ok (STTL_TTL_MAX, {| x_cname := None; x_v4 := addrs4 l; x_v6 := addrs6 l; x_scope := sc |})) /\
      (i = 1 -> reflect_resolve (S (S lim4)) (S (S lim6)) i source ecs mask dres0 = Ok (STTL_TTL_MAX, let l := if mask =? 0 then [A4 [0; 0; 0; 0]] else [ecs] in {| x_cname := None; x_v4 := addrs4 l; x_v6 := addrs6 l; x_scope := mask |})) /\
      (i = 2 -> reflect_resolve (S (S lim4)) (S (S lim6)) i source ecs mask dres0 = Ok (STTL_TTL_MAX, let l := if mask =? 0 then [source] else [ecs] in {| x_cname := None; x_v4 := addrs4 l; x_v6 := addrs6 l; x_scope := mask |})) /\
      (i = 3 -> reflect_resolve (S (S lim4)) (S (S lim6)) i source ecs mask dres0 = Ok (STTL_TTL_MAX, let l := if mask =? 0 then [source] else [source; ecs] in {| x_cname := None; x_v4 := addrs4 l; x_v6 := addrs6 l; x_scope := mask |}))).
  { assert (S0 : forall r, x_scope r = 0 -> add_scope_mask r mask = set_xscope r mask). { intros r E. unfold add_scope_mask. rewrite E. destruct (0 <? mask) eqn:B; [reflexivity|]. apply N.ltb_ge in B. assert (mask = 0) by lia. subst. unfold set_xscope. destruct r; cbn in *; now subst. }
    assert (SM : forall r, x_scope r = mask -> add_scope_mask r mask = r). { intros r E. unfold add_scope_mask. rewrite E, N.ltb_irrefl. reflexivity. }
    intros i LT. unfold reflect_resolve. repeat split; intros ->.
    - exists [source], mask. split; [reflexivity|]. split; [reflexivity|]. cbn [N.ltb N.compare rassert N.eqb orb]. destruct source as [b|b]; cbn; rewrite S0 by reflexivity; rewrite !andb_false_r; reflexivity.
    - destruct (mask =? 0) eqn:B; cbn [N.ltb N.compare Pos.compare Pos.compare_cont rassert N.eqb Pos.eqb orb andb negb]; [apply N.eqb_eq in B; subst; reflexivity|]. destruct ecs as [b|b]; cbn; rewrite S0 by reflexivity; reflexivity.
    - destruct (mask =? 0) eqn:B; cbn [N.ltb N.compare Pos.compare Pos.compare_cont rassert N.eqb Pos.eqb orb andb negb]; [apply N.eqb_eq in B; subst; destruct source; reflexivity|]. destruct ecs as [b|b]; cbn; rewrite S0 by reflexivity; reflexivity.
    - destruct (mask =? 0) eqn:B; cbn [N.ltb N.compare Pos.compare Pos.compare_cont rassert N.eqb Pos.eqb orb andb negb]; [apply N.eqb_eq in B; subst; destruct source; reflexivity|]. destruct source as [b|b], ecs as [c|c]; cbn; rewrite S0 by reflexivity; cbn; rewrite SM by reflexivity; reflexivity. }
  pose proof spelled_is as C.
  unfold reflect_map. destruct rn as [n|]; cbn [option_map].
  - cbv zeta. set (m := c_str n). destruct (same_ci m (txt "dns")) eqn:E1.
    { apply C in E1; [|cbn; tauto]. destruct (proj1 (R 0 ltac:(lia)) eq_refl) as (l & sc & -> & -> & E). exists [source], mask. split; [now apply rf_dns|exact E]. }
    destruct (same_ci m (txt "edns")) eqn:E2.
    { apply C in E2; [|cbn; tauto]. rewrite (proj1 (proj2 (R 1 ltac:(lia))) eq_refl). destruct (N.eqb_spec mask 0) as [->|NZ]; [exists [A4 [0; 0; 0; 0]], 0|exists [ecs], mask]; (split; [|reflexivity]); [now apply rf_no_edns|now apply rf_edns]. }
    destruct (same_ci m (txt "best")) eqn:E3.
    { apply C in E3; [|cbn; tauto]. rewrite (proj1 (proj2 (proj2 (R 2 ltac:(lia)))) eq_refl). destruct (N.eqb_spec mask 0) as [->|NZ]; [exists [source], 0|exists [ecs], mask]; (split; [|reflexivity]); [apply rf_not_best|apply rf_best]; eauto. }
    destruct (same_ci m (txt "both")) eqn:E4.
    { apply C in E4; [|cbn; tauto]. rewrite (proj2 (proj2 (proj2 (R 3 ltac:(lia)))) eq_refl). destruct (N.eqb_spec mask 0) as [->|NZ]; [exists [source], 0|exists [source; ecs], mask]; (split; [|reflexivity]); [now apply rf_one|now apply rf_both]. }
    assert (N1 : ~ spelled m (txt "dns")) by (intros X; apply C in X; [congruence|cbn; tauto]). assert (N2 : ~ spelled m (txt "edns")) by (intros X; apply C in X; [congruence|cbn; tauto]). assert (N3 : ~ spelled m (txt "best")) by (intros X; apply C in X; [congruence|cbn; tauto]). assert (N4 : ~ spelled m (txt "both")) by (intros X; apply C in X; [congruence|cbn; tauto]).
    intros l sc X. inversion X as [? H|? H|? H|? H|? H|? H|? H]; subst; try contradiction; (destruct H as [H|(n' & [= <-] & H)]; [discriminate|contradiction]).
  - rewrite (proj1 (proj2 (proj2 (R 2 ltac:(lia)))) eq_refl). destruct (N.eqb_spec mask 0) as [->|NZ]; [exists [source], 0|exists [ecs], mask]; (split; [|reflexivity]); [apply rf_not_best|apply rf_best]; auto.
Qed.

(** ** What is not as documented *)
Definition s_start : state := State [] 12 12.
Lemma start_sound service : sound service s_start.
Proof. split; [intros [|i] svc x H; discriminate|intros [|i] j e H; discriminate]. Qed.
Definition ex_type (n p : string) : bytes * vnode := (txt n, VH [(k_plugin, str p)]).
(** A service type of the plugin static needs a stanza for that plugin, although an empty one will do; one of null does not *)
Theorem C63_static_monitor_refuted : exists types, types_say (Some (VH [ex_type "fixed" "static"])) = Some types /\
  plugins_load ex_gai ex_strtod (service_of types) junk0 no_maps types None s_start = Ok None /\
  (exists l s', plugins_load ex_gai ex_strtod (service_of types) junk0 no_maps types (Some (fresh (VH [(txt "static", VH [])]))) s_start = Ok (Some (l, s'))) /\
  (exists types' l s', types_say (Some (VH [ex_type "fixed" "null"])) = Some types' /\ plugins_load ex_gai ex_strtod (service_of types') junk0 no_maps types' None s_start = Ok (Some (l, s'))).
Proof. eexists. split; [vm_compute; reflexivity|]. split; [vm_compute; reflexivity|]. split; [do 2 eexists; vm_compute; reflexivity|]. do 3 eexists. split; vm_compute; reflexivity. Qed.
(** A resource that metafo makes for geoip is lost: geoip has been configured before *)
Definition ex_geo_child : hash :=
  [(txt "geoip", VH [(k_maps, VH [(txt "m", VH [])]); (k_resources, VH [(txt "g", VH [(k_map, str "m"); (k_dcmap, VH [(txt "us", str "192.0.2.1"); (txt "eu", str "192.0.2.2")])])])]);
   (txt "metafo", VH [(k_resources, VH [(txt "r", VH [(k_centers, str "a"); (k_dcmap, VH [(txt "a", VH [(k_plugin, str "geoip"); (k_map, str "m"); (k_dcmap, VH [(txt "us", str "192.0.2.1")])])])])])])].
Theorem C63_geoip_child_refuted : exists l s', plugins_load ex_gai ex_strtod ex_service junk0 ex_maps [] (Some (fresh (VH ex_geo_child))) s_start = Ok (Some (l, s')) /\
  map (fun r => map (option_map mc_what) (mx_dcs r)) (of_metafo (metas_of l)) = [[Some (McSub (txt "geoip") (Some (txt "metafo_r_a")))]] /\
  map mx_name (of_geoip (metas_of l)) = [txt "g"] /\
  map_meta (metas_of l) (plug_of (fun _ _ => false) l) (fun _ _ => false) 5 Metafo (Some (txt "r")) None = Ok Refused.
Proof. do 2 eexists. split; [vm_compute; reflexivity|]. repeat split; vm_compute; reflexivity. Qed.

(** ** Witnesses *)
Definition ex_types : vnode := VH [ex_type "web" "http_status"; ex_type "ext" "extmon"; ex_type "none" "null"].
Definition ex_all : hash :=
  [(txt "static", VH [(txt "s", str "192.0.2.3"); (txt "t", str "www.example.")]);
   (txt "multifo", VH [(txt "up_thresh", str "0.7"); (txt "m", VA [str "192.0.2.1"; str "192.0.2.2"])]);
   (txt "metafo", VH [(k_resources, VH [(txt "r", VH [(k_centers, VA [str "a"; str "b"]); (txt "service_types", str "web"); (k_dcmap, VH [(txt "a", str "192.0.2.1"); (txt "b", str "%static!s")])])])]);
   (txt "reflect", VH []);
   (txt "geoip", VH [(k_maps, VH [(txt "m", VH [])]); (k_resources, VH [(txt "g", VH [(k_map, str "m");
      (k_dcmap, VH [(txt "us", VA [str "192.0.2.1"; str "192.0.2.3"]);
                    (txt "eu", VH [(k_plugin, str "metafo"); (k_centers, str "x"); (k_dcmap, VH [(txt "x", str "192.0.2.2")])])])])])]);
   (txt "http_status", VH [])].
Ltac tidily := match goal with |- forall p x, In (p, x) _ -> _ => intros p x I; cbn [In ex_all] in I; repeat (destruct I as [[= <- <-]|I]; [eexists; reflexivity|]); destruct I end.
Lemma ex_all_tidy : tidy ex_strtod ex_all.
Proof.
  constructor; [tidily|nice|nice|nice| |nice|nice| |].
  - intros k p x I. cbn [In ex_all] in I. destruct k; repeat (destruct I as [[= <- <-]|I]; [safely|]); destruct I.
  - intros h x E G. vm_compute in E. injection E as <-. vm_compute in G. injection G as <-. eexists. reflexivity.
  - intros h E. vm_compute in E. injection E as <-. intros n r dm [[= <- <-]|[]] E. right. vm_compute in E. injection E as <-. cbn. split; [discriminate|exact I].
Qed.
Lemma ex_all_later types fq_name : types_say (Some ex_types) = Some types -> tidy_later ex_gai (service_of types) fq_name ex_maps ex_all.
Proof.
  intros E. vm_compute in E. injection E as <-. constructor.
  - intros g T h E1 E2. vm_compute in E1. injection E1 as <- <-. vm_compute in E2. injection E2 as <-. intros n r dm I E. cbv beta iota delta [resources_of get] in I. vm_compute in I. destruct I as [[= <- <-]|[[= <- <-]|[]]]; left; vm_compute; reflexivity.
  - intros g T m T' h E1 E2 E3. vm_compute in E1. injection E1 as <- <-. vm_compute in E2. injection E2 as <- <-. vm_compute in E3. injection E3 as <-. nice.
Qed.
Example C63_witness : exists types, types_say (Some ex_types) = Some types /\ tidy ex_strtod ex_all /\ (forall fq_name, tidy_later ex_gai (service_of types) fq_name ex_maps ex_all) /\ sound (service_of types) s_start /\
  exists l s', all_load ex_gai ex_strtod junk0 ex_maps (Some (fresh ex_types)) (Some (fresh (VH ex_all))) s_start = Ok (Some ((types, l), s')) /\
    map fst l = [txt "geoip"; txt "metafo"; txt "static"; txt "multifo"; txt "reflect"; txt "null"; txt "extmon"] /\
    map mx_name (of_metafo (metas_of l)) = [txt "r"; txt "geoip_g_eu"] /\ map mx_name (of_geoip (metas_of l)) = [txt "g"] /\
    piece_of (txt "static") l = Some (PStatic [(txt "s", StAddr (A4 [192; 0; 2; 3])); (txt "t", StName [txt "www"; txt "example"])]) /\
    (exists rs, piece_of (txt "multifo") l = Some (PMulti rs) /\ map fst rs = [txt "m"; txt "geoip_g_us"; txt "metafo_r_a"; txt "metafo_geoip_g_eu_x"]) /\
    map_meta (metas_of l) (plug_of (fun _ _ => false) l) (fun _ _ => false) 9 Geoip (Some (txt "g")) None = Ok (Mapped 0).
Proof.
  eexists. split; [vm_compute; reflexivity|]. split; [apply ex_all_tidy|]. split; [intros fq; apply ex_all_later; vm_compute; reflexivity|]. split; [apply start_sound|]. do 2 eexists. split; [vm_compute; reflexivity|].
  split; [vm_compute; reflexivity|]. split; [vm_compute; reflexivity|]. split; [vm_compute; reflexivity|]. split; [vm_compute; reflexivity|]. split; [eexists; split; vm_compute; reflexivity|vm_compute; reflexivity].
Qed.
Example C63_witness_not_hash : In (txt "static", str "x") [(txt "static", str "x")] /\ NoDup (map fst [(txt "static", str "x")]) /\ forall h, str "x" <> VH h.
Proof. split; [cbn; auto|]. split; [repeat constructor; auto|discriminate]. Qed.
Example C63_witness_static : let rs := [(txt "s", StAddr (A4 [192; 0; 2; 3])); (txt "t", StName [txt "www"; txt "example"])] in
  static_map (fun _ _ => false) rs (Some (txt "s")) None = Some 0 /\ static_map (fun _ _ => false) rs (Some (txt "t")) (Some [txt "org"]) = Some 1 /\ static_map (fun _ _ => false) rs (Some (txt "t")) None = None.
Proof. repeat split. Qed.
Example C63_witness_offers : let l := [(txt "static", PStatic [(txt "s", StAddr (A4 [192; 0; 2; 3])); (txt "t", StName [txt "www"; txt "example"])])] in
  (exists f, plug_of (fun _ _ => false) l (txt "static") = Some (Some f) /\ f (Some (txt "t")) (Some [txt "org"]) = Some 1) /\ offers (fun _ _ => false) l (txt "static") (Some (txt "t")) (Some [txt "org"]) 1.
Proof.
  split; [eexists; split; reflexivity|]. change 1 with (N.of_nat 1). eapply of_name; [reflexivity| |exists [txt "org"]; split; reflexivity]. split; [reflexivity|]. intros [|j] m y E L; [injection E as <- _; discriminate|lia].
Qed.
Example C63_witness_reflect : reflect_map (Some (txt "BoTh")) None = Some 3 /\ reflected (A4 [1; 2; 3; 4]) (A6 (repeat 7 16)) 24 (Some (txt "BoTh")) [A4 [1; 2; 3; 4]; A6 (repeat 7 16)] 24.
Proof. split; [reflexivity|]. apply rf_both; [|discriminate]. repeat (constructor; [cbn; first [left; reflexivity|right; reflexivity]|]). constructor. Qed.

Print Assumptions C63_types.
Print Assumptions C63_monitored.
Print Assumptions C63_services.
Print Assumptions C63_all.
Print Assumptions C63_load.
Print Assumptions C63_absent.
Print Assumptions C63_not_hash.
Print Assumptions C63_no_stanza.
Print Assumptions C63_child.
Print Assumptions C63_table.
Print Assumptions C63_offers.
Print Assumptions C63_child_used.
Print Assumptions C63_static.
Print Assumptions C63_null.
Print Assumptions C63_plugins.
Print Assumptions C63_reflect.
Print Assumptions C63_static_monitor_refuted.
Print Assumptions C63_geoip_child_refuted.
