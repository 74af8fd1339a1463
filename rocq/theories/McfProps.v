(** C62: the configurations of metafo and geoip mean what they say, and zones can use what they define *)
From Coq Require Import String ZArith.
From Verif Require Import Base DnameModel DnameSpec DnameProofs CompModel CompProofs RespModel MonModel VscfModel VscfSpec OptModel VhashModel VhashSpec VhashProofs2 PlugModel MsgModel LtreeModel PconfModel PconfSpec PconfProofs3 PconfProofs7 PconfProps McfModel McfSpec McfProofs McfProofs2 McfProofs3 McfProofs4 McfProofs5.
Local Open Scope N_scope.
Local Open Scope list_scope.
Local Notation length := List.length.
Ltac Zify.zify_post_hook ::= idtac.

(** ** What is loaded *)
Theorem C62_load : forall gai service junk k gdmaps fq_name s h T tops,
  (forall t ls, all_bytes t -> (fq_name t = Some ls <-> name_text t ls true /\ legal_name ls)) -> length junk = 256%nat ->
  (forall t ms, gdmaps t = Some ms -> Forall (fun m => snd m <> []) ms) ->
  distinct (VH h) -> raw_bytes (VH h) -> plain (VH h) -> safe k (VH h) -> all_steady h -> agree tops T -> open_confs T -> sound service s ->
  loads service (meta_load gai service junk k gdmaps (Some (fresh (VH h))) tops) s (meta_says gai service fq_name k gdmaps h T)
    (fun s' w r => exists states, (exists maps, maps_say k gdmaps h = Some maps /\ states_made s' maps states) /\ Forall2 (mc_made k states s') (fst w) (fst r) /\
       NoDup (states_of states ++ flat_map mons_of (fst r)) /\ agree (snd r) (snd w)).
Proof. intros gai service junk k gdmaps fq_name s h T tops FQ JL GM DI RB PL SA ST A O S. apply loads_gives; [|exact S]. now apply meta_gives. Qed.

(** New resources of other plugins are added, and nothing there is changed *)
Theorem C62_children : forall gai service k gdmaps fq_name h T ws T', (forall t ms, gdmaps t = Some ms -> Forall (fun m => snd m <> []) ms) ->
  meta_says gai service fq_name k gdmaps h T = Some (ws, T') -> grown T (news_of k ws) T'.
Proof. intros gai service k gdmaps fq_name h T ws T' GM E. now apply meta_facts in E as (G & _). Qed.

(** Each resource is made of its hash; the datacenters are those of its dcmap *)
Theorem C62_resources : forall gai service k gdmaps fq_name h T ws T', (forall t ms, gdmaps t = Some ms -> Forall (fun m => snd m <> []) ms) ->
  meta_says gai service fq_name k gdmaps h T = Some (ws, T') -> ws <> [] /\ N.of_nat (length ws) <= 2 ^ 24 /\
  Forall2 (fun e w => exists r dm, snd e = VH r /\ setting k_dcmap [r; h] = Some (VH dm) /\ xw_name w = c_str (fst e) /\ map fst (xw_dcs w) = map (fun e => c_str (fst e)) dm /\
      incl (map fst (xw_dcs w)) (xw_centers w) /\ xw_dcs w <> []) (resources_of h) ws.
Proof.
  intros gai service k gdmaps fq_name h T ws T' GM E. apply meta_facts in E as (_ & maps & _ & F & L & N); [|exact GM]. split; [exact N|]. split; [exact L|].
  clear -F. induction F as [|e w es ws (r & dm & E1 & E2 & E3 & E4 & E5 & _ & E7 & _) F IH]; constructor; [|exact IH]. exists r, dm. split; [exact E1|]. split; [|auto]. cbn [setting] in *. destruct (get k_dcmap r); [exact E2|]. destruct (top_apart k) as (_ & X). now rewrite (get_others _ _ _ X) in E2.
Qed.
(** What is the same for all datacenters of a resource: its parameters, then those of the plugin, but not those that both plugins use themselves *)
Theorem C62_shared : forall k h r key,
  get key (others (own_keys k) (filled r (others (top_keys k) h))) =
    if among (own_keys k) key then None else setting key (if among (top_keys k) key then [r] else [r; h]).
Proof.
  intros k h r key. destruct (among (own_keys k) key) eqn:A; [now apply get_others_in|]. rewrite get_others, get_filled by exact A. cbn [setting].
  destruct (get key r) eqn:G; [destruct (among (top_keys k) key); cbn [setting]; now rewrite G|]. destruct (among (top_keys k) key) eqn:B; cbn [setting]; rewrite G; [rewrite get_others_in by exact B|rewrite get_others by exact B]; reflexivity.
Qed.
(** The data of a datacenter that is a hash: its own parameters, then the shared ones; the plugin is multifo unless one is named *)
Theorem C62_data : forall k h shared w, new_says k h shared = Some w -> exists p data, w = MakeNew p data /\ p <> pn k /\
  (forall n, get n data = if bytes_eqb n k_plugin then None else setting n [h; shared]) /\
  match setting k_plugin [h; shared] with None => p = t_multifo | Some (VS _ v) => p = c_str v | Some _ => False end.
Proof. intros k h shared w E. apply new_facts in E as (p & -> & R). eauto. Qed.
(** Addresses are numbered for multifo *)
Theorem C62_addresses : forall k l shared w, list_says k l shared = Some w -> Forall (fun x => exists r v, x = VS r v) l /\ exists data, w = MakeNew t_multifo data /\
  (forall i x, nth_error l i = Some x -> get (decimal (N.of_nat (S i))) data = Some x) /\
  (forall n, (forall i, (i < length l)%nat -> n <> decimal (N.of_nat (S i))) -> get n data = if bytes_eqb n k_plugin then None else get n shared).
Proof. intros k. exact (list_facts' (fun _ => None) (fun _ => None) (fun _ => None) k). Qed.
(** No datacenter is left out, unless geoip is told that this is fine *)
Theorem C62_all_defined : forall gai service junk k gdmaps fq_name s h T tops rs tops' s' r i,
  (forall t ls, all_bytes t -> (fq_name t = Some ls <-> name_text t ls true /\ legal_name ls)) -> length junk = 256%nat ->
  (forall t ms, gdmaps t = Some ms -> Forall (fun m => snd m <> []) ms) ->
  distinct (VH h) -> raw_bytes (VH h) -> plain (VH h) -> safe k (VH h) -> all_steady h -> agree tops T -> open_confs T -> sound service s ->
  meta_load gai service junk k gdmaps (Some (fresh (VH h))) tops s = Ok (Some ((rs, tops'), s')) -> k = Metafo \/ boolean (get k_undef h) = Some false ->
  In r rs -> (i < length (mx_centers r))%nat -> exists d, nth_error (mx_dcs r) i = Some (Some d) /\ nth_error (mx_centers r) i = Some (mc_name d) /\ NoDup (mx_centers r).
Proof.
  intros gai service junk k gdmaps fq_name s h T tops rs tops' s' r i FQ JL GM DI RB PL SA ST A O S E U I L.
  destruct (loads_ok _ _ _ _ _ _ _ (C62_load gai service junk k gdmaps fq_name s h T tops FQ JL GM DI RB PL SA ST A O S) E) as ((ws, T') & W & states & _ & F & _). cbn [fst snd] in F.
  apply meta_facts in W as (_ & maps & _ & F2 & _ & _); [|exact GM].
  assert (FR : fine k h) by (now apply fine_is). assert (UU : undef_of k h = false). { unfold undef_of, undef_says. destruct U as [->|U]; [reflexivity|]. destruct k; [reflexivity|]. now rewrite U. } rewrite UU in F2.
  assert (G : exists w e, In e (resources_of h) /\ mc_made k states s' w r /\ sources gai service fq_name k maps (others (top_keys k) h) false e w).
  { clear -F F2 I. revert F2. generalize (resources_of h) as es. induction F as [|w x ws rs M F IH]; intros es F2; [destruct I|]. inversion F2 as [|e ? es' ? SE F2']; subst. destruct I as [<-|I]; [exists w, e; cbn; auto|]. destruct (IH I es' F2') as (w' & e' & J & M' & S'). exists w', e'. cbn. auto. }
  destruct G as (w & e & IE & (M1 & M2 & _ & _ & M5 & M6 & M7) & (rr & dm & S1 & S2 & _ & S4 & S5 & S6 & _)). rewrite M2 in *.
  assert (ND : NoDup (map fst (xw_dcs w))).
  { rewrite S4. assert (KR : kept k e). { unfold resources_of in IE. destruct (get k_resources h) as [[| |rs0]|] eqn:ER; try contradiction. destruct (fine_inner k h k_resources rs0 FR (get_some_in _ _ _ ER)) as (_ & X). rewrite Forall_forall in X. now apply X. }
    assert (FRR : fine k rr). { destruct KR as (K1 & K2 & K3 & K4 & _). rewrite S1 in *. now apply fine_is. } assert (FF : fine k (filled rr (others (top_keys k) h))) by (apply fine_filled; [exact FRR|now apply fine_others]).
    rewrite <- get_filled in S2. destruct (fine_inner k _ _ _ FF (get_some_in _ _ _ S2)) as (ND & KD). rewrite (map_ext_in _ fst); [exact ND|]. intros a J. rewrite Forall_forall in KD. destruct (KD a J) as (_ & _ & _ & _ & Z & _). now apply c_str_whole. }
  destruct (nth_error (xw_centers w) i) as [n|] eqn:EN; [|apply nth_error_None in EN; lia]. destruct (all_there (xw_centers w) (xw_dcs w) n ND S5 (S6 eq_refl) (nth_error_In _ _ EN)) as (IN & NC).
  apply in_map_iff in IN as ((n', x) & EQ & IX). cbn in EQ. subst n'. destruct (M6 n x IX) as (i' & d & E1 & E2 & (E3 & _) & _). assert (i' = i). { rewrite NoDup_nth_error in NC. apply NC; [apply nth_error_Some; congruence|congruence]. } subst i'. exists d. rewrite E3. auto.
Qed.
(** There is room for the number of each resource *)
Theorem C62_fits : forall gai service junk k gdmaps fq_name s h T tops rs tops' s',
  (forall t ls, all_bytes t -> (fq_name t = Some ls <-> name_text t ls true /\ legal_name ls)) -> length junk = 256%nat ->
  (forall t ms, gdmaps t = Some ms -> Forall (fun m => snd m <> []) ms) ->
  distinct (VH h) -> raw_bytes (VH h) -> plain (VH h) -> safe k (VH h) -> all_steady h -> agree tops T -> open_confs T -> sound service s ->
  meta_load gai service junk k gdmaps (Some (fresh (VH h))) tops s = Ok (Some ((rs, tops'), s')) -> fits rs.
Proof.
  intros gai service junk k gdmaps fq_name s h T tops rs tops' s' FQ JL GM DI RB PL SA ST A O S E.
  destruct (loads_ok _ _ _ _ _ _ _ (C62_load gai service junk k gdmaps fq_name s h T tops FQ JL GM DI RB PL SA ST A O S) E) as ((ws, T') & W & states & _ & F & _). cbn [fst snd] in F.
  apply meta_facts in W as (_ & maps & _ & _ & L & _); [|exact GM]. split.
  - replace (length rs) with (length ws); [exact L|]. clear -F. induction F; cbn; congruence.
  - clear -F. induction F as [|w r ws rs (_ & M2 & _ & _ & M5 & _) F IH]; constructor; [congruence|exact IH].
Qed.

(** ** What zones can use *)
(** A resource gets a number if and only if all of its datacenters can be used; the search ends then *)
Theorem C62_usable : forall ms plug in_zone zone k t n, fits (of_metafo ms) -> fits (of_geoip ms) ->
  (usable ms plug in_zone zone k t n <-> exists fuel, map_meta ms plug in_zone fuel k (Some t) zone = Ok (Mapped n)).
Proof.
  intros ms plug in_zone zone k t n FM FG. split; [|intros (f & E); eapply map_sound; eauto]. intros U. destruct (proj1 (map_complete ms plug in_zone zone) k t n U) as (f & H). exists f. apply H. apply le_n.
Qed.
(** With more room on the stack it ends in the same way *)
Theorem C62_stack : forall ms plug in_zone zone k t o fuel fuel', map_meta ms plug in_zone fuel k t zone = Ok o -> (fuel <= fuel')%nat -> map_meta ms plug in_zone fuel' k t zone = Ok o.
Proof. intros ms plug in_zone zone k t o fuel fuel' E L. eapply map_more; eauto. Qed.
(** It ends if there is no circle, with fewer than 256 datacenters for each resource *)
Theorem C62_ends : forall ms plug in_zone zone rank, ranked ms rank -> Forall (fun r => (length (mx_centers r) < 256)%nat) (of_metafo ms ++ of_geoip ms) ->
  forall k t fuel, (S (rank k (fst (at_slash t))) < fuel)%nat -> exists o, map_meta ms plug in_zone fuel k (Some t) zone = Ok o.
Proof. intros ms plug in_zone zone rank RK FC k t fuel L. eapply map_total; eauto. Qed.
(** The number says which resource and which datacenter, as [resolve] reads it *)
Theorem C62_number : forall i j, i < 2 ^ 24 -> N.land (i + 2 ^ 24 * j) 16777215 = i /\ N.shiftr (i + 2 ^ 24 * j) 24 = j.
Proof. exact decoded. Qed.
(** metafo tries the datacenters in their order *)
Theorem C62_order : forall centers, (length centers < 256)%nat -> metafo_list centers = seq 1 (length centers).
Proof. exact metafo_order. Qed.

(** ** What is not as documented *)
Ltac safely :=
  match goal with
  | |- safe _ (VA _) => apply sa_arr; repeat (apply Forall_cons; [safely|]); apply Forall_nil
  | |- safe _ (VH _) => apply sa_hash; repeat (apply Forall_cons; [split; [cbn [snd]; safely|split; cbn [fst snd];
        [first [intros X; vm_compute in X; discriminate X | intros _; eexists; eexists; reflexivity]
        |first [intros X; vm_compute in X; discriminate X | intros _ X; discriminate X | intros _ _ ? ? [= <- <-]; vm_compute; discriminate]]]|]); apply Forall_nil
  | |- safe _ _ => apply sa_str; vm_compute; discriminate
  end.
Definition no_gai (t : bytes) : option addr := None.
Definition no_service (t : bytes) : option (bool * bool) := None.
Definition no_maps (t : tab) : option (list (bytes * list bytes)) := None.
Definition no_confs : confs := fun _ => None.
Definition junk0 : bytes := repeat 0 256.
Lemma no_maps_ok : forall t ms, no_maps t = Some ms -> Forall (fun m => snd m <> []) ms.
Proof. discriminate. Qed.
Lemma agree_nil : agree [] no_confs.
Proof. intros p. reflexivity. Qed.
Lemma open_none : open_confs no_confs.
Proof. discriminate. Qed.
Definition load_of (k : kind) (h : hash) (tops : tab) : res (option (list mc_res * tab * state)) := meta_load no_gai no_service junk0 k no_maps (Some (fresh (VH h))) tops s_empty.
Definition of_names (r : res (option (list mc_res * tab * state))) : option (list (list (option (bytes * mc_kind)))) :=
  match r with Ok (Some (rs, _, _)) => Some (map (fun r => map (option_map (fun d => (mc_name d, mc_what d))) (mx_dcs r)) rs) | _ => None end.

(** An exclamation mark in one datacenter makes a later one forget the plugin of the resource *)
Definition ex_lost : hash :=
  [(k_resources, VH [(txt "r", VH [(txt "plugin", str "weighted"); (k_centers, VA [str "a"; str "b"]); (k_dcmap, VH [(txt "a", str "!x"); (txt "b", VH [(txt "n", str "m")])])])])].
Theorem C62_plugin_lost_refuted : exists h, distinct (VH h) /\ raw_bytes (VH h) /\ plain (VH h) /\ safe Metafo (VH h) /\
  (forall fq_name, exists ws T' data, meta_says no_gai no_service fq_name Metafo no_maps h no_confs = Some (ws, T') /\ map xw_dcs ws = [[(txt "a", AskFor (txt "weighted") (Some (txt "x"))); (txt "b", MakeNew (txt "weighted") data)]]) /\
  of_names (load_of Metafo h []) = Some [[Some (txt "a", McSub (txt "weighted") (Some (txt "x"))); Some (txt "b", McSub (txt "multifo") (Some (txt "metafo_r_b")))]].
Proof.
  exists ex_lost. split; [nice|]. split; [nice|]. split; [nice|]. split; [safely|]. split; [|vm_compute; reflexivity]. intros fq. do 3 eexists. split; [vm_compute; reflexivity|]. vm_compute. reflexivity.
Qed.
(** These end the program without a message *)
Definition ex_res (dcs : vnode) (more : hash) : hash := [(k_resources, VH [(txt "r", VH ([(k_centers, str "a"); (k_dcmap, VH [(txt "a", dcs)])] ++ more))])].
Theorem C62_no_name_refuted : load_of Metafo (ex_res (str "%metafo") []) [] = UB.
Proof. vm_compute. reflexivity. Qed.
Theorem C62_skip_refuted : load_of Metafo (ex_res (str "%null") [(k_skip, VA [str "true"])]) [] = UB.
Proof. vm_compute. reflexivity. Qed.
Theorem C62_not_hash_refuted : load_of Metafo (ex_res (VH []) []) [(txt "multifo", false, fresh (str "x"))] = UB.
Proof. vm_compute. reflexivity. Qed.
(** Keys that differ after a null byte only leave a datacenter without anything *)
Definition ex_nul : hash := [(k_resources, VH [(txt "r", VH [(k_centers, VA [str "a"; str "b"]); (k_dcmap, VH [([97; 0; 1], str "%null"); ([97; 0; 2], str "%reflect")])])])].
Theorem C62_nul_refuted : distinct (VH ex_nul) /\ raw_bytes (VH ex_nul) /\ safe Metafo (VH ex_nul) /\ of_names (load_of Metafo ex_nul []) = Some [[Some ([97], McSub (txt "reflect") None); None]].
Proof. split; [nice|]. split; [nice|]. split; [safely|]. vm_compute. reflexivity. Qed.
(** From 256 datacenters on, metafo tries the first 255 only *)
Theorem C62_order_refuted : forall centers, (256 <= length centers)%nat -> metafo_list centers = seq 1 255.
Proof.
  intros centers L. unfold metafo_list. replace (length centers) with (255 + (1 + (length centers - 256)))%nat by (apply Nat.le_exists_sub in L as (p & -> & _); rewrite Nat.add_sub, (Nat.add_comm p); reflexivity).
  rewrite seq_app, map_app, seq_app, map_app, <- !app_assoc. change (map (fun i => (i mod 256)%nat) (seq (1 + 255) 1)) with [0%nat]. rewrite (map_ext_in _ (fun i => i)), map_id.
  - apply up_to_zero_id. apply Forall_forall. intros n I. apply in_seq in I. lia.
  - intros i I. apply in_seq in I. apply Nat.mod_small. lia.
Qed.
Definition nothing (n : bytes) (what : mc_kind) : mc_dc := {| mc_name := n; mc_map := None; mc_mon := 0; mc_what := what |}.
Definition big (n : nat) : mc_res :=
  {| mx_name := txt "r"; mx_centers := map (fun i => decimal (N.of_nat i)) (seq 1 n); mx_dcs := map (fun i => Some (nothing (decimal (N.of_nat i)) (McSub (txt "null") None))) (seq 1 n); mx_defined := n; mx_skip := false |}.
Definition ex_plug (p : bytes) : option (option (option bytes -> option name -> option N)) := if bytes_eqb p (txt "null") then Some (Some (fun _ _ => Some 0)) else None.
(** The datacenters from number 128 on cannot be asked for by name; number 256 fails an assertion *)
Theorem C62_far_refuted : let ms := {| of_metafo := [big 256]; of_geoip := [] |} in
  map_meta ms ex_plug (fun _ _ => false) 2 Metafo (Some (txt "r")) None = Ok (Mapped 0) /\
  map_meta ms ex_plug (fun _ _ => false) 2 Metafo (Some (txt "r/127")) None = Ok (Mapped (127 * 2 ^ 24)) /\
  map_meta ms ex_plug (fun _ _ => false) 2 Metafo (Some (txt "r/128")) None = Ok Refused /\
  map_meta ms ex_plug (fun _ _ => false) 2 Metafo (Some (txt "r/256")) None = UB.
Proof. cbv zeta. split; [vm_compute; reflexivity|]. split; [vm_compute; reflexivity|]. split; vm_compute; reflexivity. Qed.
(** References in a circle fill the stack *)
Definition refers (n p t : string) : mc_res := {| mx_name := txt n; mx_centers := [txt "x"]; mx_dcs := [Some (nothing (txt "x") (McSub (txt p) (Some (txt t))))]; mx_defined := 1; mx_skip := false |}.
Definition ex_circle : metas := {| of_metafo := [refers "a" "geoip" "b"]; of_geoip := [refers "b" "metafo" "a"] |}.
Theorem C62_circle_refuted : forall plug in_zone zone fuel, map_meta ex_circle plug in_zone fuel Metafo (Some (txt "a")) zone = UB /\ map_meta ex_circle plug in_zone fuel Geoip (Some (txt "b")) zone = UB.
Proof.
  intros plug in_zone zone. induction fuel as [|f (IH1 & IH2)]; [split; reflexivity|]. rewrite !map_step. split.
  - change (at_slash (txt "a")) with (txt "a", @None bytes). cbv beta iota. change (find_res (txt "a") (of_kind Metafo ex_circle) 0) with (Some (0%nat, refers "a" "geoip" "b")). cbn [refers mx_dcs map_dcs]. unfold one at 1. cbn [nothing mc_what]. change (bytes_eqb (txt "geoip") t_metafo) with false. change (bytes_eqb (txt "geoip") (pn Geoip)) with true. cbv iota. rewrite IH2. reflexivity.
  - change (at_slash (txt "b")) with (txt "b", @None bytes). cbv beta iota. change (find_res (txt "b") (of_kind Geoip ex_circle) 0) with (Some (0%nat, refers "b" "metafo" "a")). cbn [refers mx_dcs map_dcs]. unfold one at 1. cbn [nothing mc_what]. change (bytes_eqb (txt "metafo") t_metafo) with true. cbv iota. rewrite IH1. reflexivity.
Qed.
(** A reference to a plugin that does not exist ends the program, also when zones are reloaded *)
Theorem C62_no_plugin_refuted : map_meta {| of_metafo := [refers "a" "nosuch" "b"]; of_geoip := [] |} ex_plug (fun _ _ => false) 2 Metafo (Some (txt "a")) None = Ok Ends.
Proof. vm_compute. reflexivity. Qed.

(** ** Witnesses *)
Definition ex_meta : hash :=
  [(k_skip, str "true"); (txt "service_types", VA [str "up"]); (k_resources, VH
   [(txt "one", VH [(k_centers, VA [str "us"; str "eu"; str "ap"; str "sa"]);
                    (k_dcmap, VH [(txt "eu", VA [str "192.0.2.2"; str "192.0.2.3"]); (txt "us", str "192.0.2.1"); (txt "ap", str "www.example."); (txt "sa", str "%weighted!w")])]);
    (txt "two", VH [(k_skip, str "false"); (txt "plugin", str "simplefo"); (k_centers, str "us");
                    (k_dcmap, VH [(txt "us", VH [(txt "primary", str "192.0.2.1"); (txt "secondary", str "192.0.2.2")])])])])].
Example C62_witness : distinct (VH ex_meta) /\ raw_bytes (VH ex_meta) /\ plain (VH ex_meta) /\ safe Metafo (VH ex_meta) /\ all_steady ex_meta /\ agree [] no_confs /\ open_confs no_confs /\ sound ex_service s_empty /\
  exists rs tops s', meta_load ex_gai ex_service junk0 Metafo no_maps (Some (fresh (VH ex_meta))) [] s_empty = Ok (Some ((rs, tops), s')) /\
    map mx_name rs = [txt "one"; txt "two"] /\ map mx_skip rs = [true; false] /\
    map (fun r => map (option_map (fun d => (mc_name d, mc_mon d, mc_what d))) (mx_dcs r)) rs =
      [[Some (txt "us", 1%nat, McSub (txt "multifo") (Some (txt "metafo_one_us"))); Some (txt "eu", 0%nat, McSub (txt "multifo") (Some (txt "metafo_one_eu")));
        Some (txt "ap", 2%nat, McName [txt "www"; txt "example"] [3%nat]); Some (txt "sa", 4%nat, McSub (txt "weighted") (Some (txt "w")))];
       [Some (txt "us", 5%nat, McSub (txt "simplefo") (Some (txt "metafo_two_us")))]] /\
    value (txt "multifo") tops = Some (fresh (VH
      [(txt "metafo_one_eu", VH [(txt "1", str "192.0.2.2"); (txt "2", str "192.0.2.3"); (txt "service_types", VA [str "up"])]);
       (txt "metafo_one_us", VH [(txt "1", str "192.0.2.1"); (txt "service_types", VA [str "up"])])])) /\
    value (txt "simplefo") tops = Some (fresh (VH [(txt "metafo_two_us", VH [(txt "primary", str "192.0.2.1"); (txt "secondary", str "192.0.2.2"); (txt "service_types", VA [str "up"])])])).
Proof.
  split; [nice|]. split; [nice|]. split; [nice|]. split; [safely|]. split.
  { intros n r dm [[= <- <-]|[[= <- <-]|[]]] E; [left; reflexivity|right]. vm_compute in E. injection E as <-. cbn. split; [discriminate|exact I]. }
  split; [apply agree_nil|]. split; [apply open_none|]. split; [apply empty_sound|]. do 3 eexists. split; [vm_compute; reflexivity|]. repeat split.
Qed.
(** geoip, where some datacenters may be left out *)
Definition ex_geo : hash :=
  [(k_undef, str "true"); (k_maps, VH [(txt "m", VH [])]); (k_resources, VH
   [(txt "one", VH [(k_map, str "m"); (k_dcmap, VH [(txt "eu", str "%metafo!one/us")])])])].
Definition ex_maps (t : tab) : option (list (bytes * list bytes)) := Some [(txt "m", [txt "us"; txt "eu"])].
Example C62_witness_geoip : distinct (VH ex_geo) /\ raw_bytes (VH ex_geo) /\ plain (VH ex_geo) /\ safe Geoip (VH ex_geo) /\ all_steady ex_geo /\
  exists rs s', meta_load ex_gai ex_service junk0 Geoip ex_maps (Some (fresh (VH ex_geo))) [] s_empty = Ok (Some ((rs, []), s')) /\
    rs = [{| mx_name := txt "one"; mx_centers := [txt "us"; txt "eu"]; mx_dcs := [None; Some {| mc_name := txt "eu"; mc_map := Some 1%nat; mc_mon := 2%nat; mc_what := McSub (txt "metafo") (Some (txt "one/us")) |}];
             mx_defined := 1; mx_skip := false |}] /\ mons s' = [None; None; None].
Proof.
  split; [nice|]. split; [nice|]. split; [nice|]. split; [safely|]. split.
  { intros n r dm [[= <- <-]|[]] E. left; reflexivity. }
  do 2 eexists. split; [vm_compute; reflexivity|]. repeat split.
Qed.
(** Use in a zone: the third resource refers to the first, which refers to a datacenter of the second *)
Definition ex_ms : metas := {| of_metafo := [refers "z" "null" "x"; refers "a" "geoip" "b/x"]; of_geoip := [refers "b" "metafo" "z"; refers "c" "metafo" "a"] |}.
Definition ex_rank (k : kind) (n : bytes) : nat := if bytes_eqb n (txt "z") then 0 else if bytes_eqb n (txt "b") then 1 else if bytes_eqb n (txt "a") then 2 else if bytes_eqb n (txt "c") then 3 else 0.
Example C62_witness_map : fits (of_metafo ex_ms) /\ fits (of_geoip ex_ms) /\ ranked ex_ms ex_rank /\ Forall (fun r => (length (mx_centers r) < 256)%nat) (of_metafo ex_ms ++ of_geoip ex_ms) /\
  map_meta ex_ms ex_plug (fun _ _ => false) 5 Geoip (Some (txt "c/x")) None = Ok (Mapped (1 + 2 ^ 24)).
Proof.
  split; [split; [cbn; lia|repeat constructor]|]. split; [split; [cbn; lia|repeat constructor]|]. split; [|split; [repeat constructor; cbn; lia|vm_compute; reflexivity]].
  intros k r d k' t I J E. destruct k; (destruct I as [<-|[<-|[]]]; destruct J as [[= <-]|[]]; destruct k'; cbn [mc_what nothing] in E; try (vm_compute in E; discriminate E); injection E as <-; vm_compute; lia).
Qed.
Example C62_witness_fq : exists fq_name, forall t ls, all_bytes t -> (fq_name t = Some ls <-> name_text t ls true /\ legal_name ls).
Proof. exact C61_names. Qed.

Print Assumptions C62_load.
Print Assumptions C62_children.
Print Assumptions C62_resources.
Print Assumptions C62_shared.
Print Assumptions C62_data.
Print Assumptions C62_addresses.
Print Assumptions C62_all_defined.
Print Assumptions C62_fits.
Print Assumptions C62_usable.
Print Assumptions C62_stack.
Print Assumptions C62_ends.
Print Assumptions C62_number.
Print Assumptions C62_order.
Print Assumptions C62_plugin_lost_refuted.
Print Assumptions C62_no_name_refuted.
Print Assumptions C62_skip_refuted.
Print Assumptions C62_not_hash_refuted.
Print Assumptions C62_nul_refuted.
Print Assumptions C62_order_refuted.
Print Assumptions C62_far_refuted.
Print Assumptions C62_circle_refuted.
Print Assumptions C62_no_plugin_refuted.
