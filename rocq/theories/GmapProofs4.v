(** A map, and all of them *)
From Coq Require Import ZArith String.
From Verif Require Import Base CompModel CompProofs DnameModel RespModel MonModel VscfModel VscfSpec OptModel VhashModel VhashSpec VhashProofs2 PlugModel MsgModel LtreeModel PconfModel PconfSpec PconfProofs2 PconfProofs3 McfModel McfSpec McfProofs GmapModel GmapSpec GmapProofs GmapProofs2.
From Verif Require LocModel LocSpec LocProofs LocProofs2 NetModel NetSpec NetProofs NetProofs2 NetProofs3 NetProofs4 NetProofs5 NetProofs7 GmapProofs3.
Local Open Scope list_scope.
Local Open Scope nat_scope.
Local Notation length := List.length.
Ltac Zify.zify_post_hook ::= idtac.

(** ** Lines *)
Lemma prefix_accepted a n j : prefix_ok a n = true <-> NetSpec.accepted (cnet_for a n j).
Proof.
  destruct a as [b|b]; cbn [prefix_ok cnet_for NetSpec.accepted].
  - rewrite N.leb_le. lia.
  - rewrite andb_true_iff, N.leb_le, forallb_forall. split.
    + intros (L & F). split; [lia|]. intros p I LP S. specialize (F p I). apply negb_true_iff, andb_false_iff in F as [F|F].
      * apply N.leb_gt in F. lia.
      * apply NetProofs7.same_starts in S. unfold NetSpec.startsb in F. congruence.
    + intros (L & F). split; [lia|]. intros p I. apply negb_true_iff, andb_false_iff. destruct (N.leb_spec (8 * N.of_nat (length p)) n) as [LE|GT]; [right|left; reflexivity].
      destruct (NetSpec.startsb b p) eqn:E; [|reflexivity]. exfalso. apply (F p I); [lia|]. apply NetProofs7.same_starts. exact E.
Qed.
Lemma the_net_ok a n j : addr_ok a -> NetSpec.accepted (cnet_for a n j) -> NetSpec.is_ip (NetModel.n_ip (NetSpec.the_net (cnet_for a n j))) /\ NetModel.n_mask (NetSpec.the_net (cnet_for a n j)) <= 128.
Proof.
  destruct a as [b|b]; cbn [addr_ok cnet_for NetSpec.accepted NetSpec.the_net NetModel.n_ip NetModel.n_mask].
  - intros (L & B) H. split; [|lia]. apply (NetProofs4.canon_ip (NetModel.C4 b)). split; assumption.
  - intros (L & B) (H & _). split; [split; assumption|exact H].
Qed.

Section Nets.
  Variable gai_net : bytes -> bytes -> option (addr * N).
  Hypothesis GO : forall a m x n, gai_net a m = Some (x, n) -> addr_ok x.

  Lemma key_is k : match key_says gai_net k with
    | Some (a, n) => net_of_key gai_net k = Some (fun dc => match a with A4 b => NetModel.CN4 b (N.to_nat n) dc | A6 b => NetModel.CN6 b (N.to_nat n) dc end) /\ addr_ok a /\ prefix_ok a n = true
    | None => net_of_key gai_net k = None \/ exists c, net_of_key gai_net k = Some c /\ NetModel.nets_one (c 0%N) = None
    end.
  Proof.
    unfold key_says, net_of_key. change MAXSTR with 86. rewrite Nat.ltb_antisym. destruct (Nat.leb 86 (length k)); cbn [negb need obind]; [now left|]. destruct (cut_slash (c_str k)) as [(a, m)|]; cbn [obind fst snd]; [|now left].
    destruct (gai_net a m) as [(x, n)|] eqn:EG; cbn [obind fst snd]; [|now left]. destruct (prefix_ok x n) eqn:EP; cbn [need obind].
    - split; [now destruct x|]. split; [eapply GO, EG|exact EP].
    - right. destruct x as [b|b]; eexists; (split; [reflexivity|]); [change (NetModel.CN4 b (N.to_nat n) 0%N) with (cnet_for (A4 b) n 0)|change (NetModel.CN6 b (N.to_nat n) 0%N) with (cnet_for (A6 b) n 0)]; destruct (NetModel.nets_one _) as [r|] eqn:E; try reflexivity; exfalso; apply NetProofs7.one_accepted, prefix_accepted in E; congruence.
  Qed.

  Variable i : LocModel.dcinfo point.
  Let names := LocModel.i_names i.
  Hypothesis NZ : Forall (fun n => ~ In 0%N n) names.

  Lemma leads_mono d t w c : leads names d w c -> leads names (d ++ t) w c.
  Proof.
    intros (j & l & E & N & FI & F). assert (L : j < length d) by (apply nth_error_Some; congruence). exists j, l. split; [exact E|]. split; [rewrite nth_error_app1; [exact N|exact L]|]. split; [|exact F]. intros k LK. rewrite nth_error_app1 by lia. now apply FI.
  Qed.
  Lemma numbers_are l : Forall (fun n => among names n = true) l -> Forall2 (numbered names) l (LocSpec.numbers i l).
  Proof. unfold LocSpec.numbers. induction 1 as [|n l A F IH]; cbn [map]; constructor; auto. now apply num_nth. Qed.

  Lemma parse_says h : Forall (fun e => length (elements (snd e)) <= 255) h -> forall d L0,
    match nets_say gai_net names h with
    | Some ws => exists cs t L, parse_nets gai_net i (map (fun e => (fst e, fresh (snd e))) h) d {| NetModel.l_nets := L0; NetModel.l_norm := false |} = Ok (Some (Some ({| NetModel.l_nets := L0 ++ L; NetModel.l_norm := false |}, d ++ t))) /\
        Forall2 (leads names (d ++ t)) ws cs /\ length t <= length ws /\ (NoDup d -> NoDup (d ++ t)) /\ Forall (NetProofs.wfn) L /\
        NetModel.nets_parse cs {| NetModel.l_nets := L0; NetModel.l_norm := false |} = Ok (Some {| NetModel.l_nets := L0 ++ L; NetModel.l_norm := false |})
    | None => parse_nets gai_net i (map (fun e => (fst e, fresh (snd e))) h) d {| NetModel.l_nets := L0; NetModel.l_norm := false |} = Ok (Some None) \/
              parse_nets gai_net i (map (fun e => (fst e, fresh (snd e))) h) d {| NetModel.l_nets := L0; NetModel.l_norm := false |} = Ok None
    end.
  Proof.
    induction h as [|(k, x) h IH]; intros SH d L0.
    - exists [], [], []. rewrite !app_nil_r. split; [reflexivity|]. split; [constructor|]. split; [apply le_n|]. split; [auto|]. split; [constructor|reflexivity].
    - inversion SH as [|? ? SX SH']; subst. cbn [fst snd] in SX. specialize (IH SH'). unfold nets_say. cbn [all map fst snd]. fold (nets_say gai_net names h). cbn [parse_nets]. pose proof (key_is k) as K. destruct (key_says gai_net k) as [(a, n)|]; cbn [obind].
      + destruct K as (EK & AO & PO). assert (CK : exists c, net_of_key gai_net k = Some c /\ forall j, c (N.of_nat j) = cnet_for a n j) by (rewrite EK; eexists; split; [reflexivity|]; intros j; now destruct a). clear EK.
        destruct CK as (c & -> & CF). change (c 0%N) with (c (N.of_nat 0)). rewrite CF. rewrite (NetProofs7.accepted_one _ (proj1 (prefix_accepted a n 0) PO)).
        pose proof (foa_says i NZ false x d SX) as F. fold names in F. destruct (list_says names false x) as [l|]; cbn [obind].
        * destruct F as (EL & A & m & t & EF & NO & LT & ND). rewrite EL, EF. cbn [gbind fst snd]. unfold LocSpec.rule_of in NO. cbn [andb] in NO. destruct m as [j|]; [|destruct NO]. cbn [LocProofs2.num_ok] in NO.
          assert (AC : NetSpec.accepted (cnet_for a n j)) by now apply prefix_accepted. rewrite CF, (NetProofs7.accepted_one _ AC).
          destruct (the_net_ok a n j AO AC) as (HI & HM). destruct (NetProofs5.append_clean L0 _ HI HM) as (n' & EA & CL). rewrite EA.
          specialize (IH (d ++ t) (L0 ++ [n'])). destruct (nets_say gai_net names h) as [ws|].
          -- destruct IH as (cs & t2 & L & -> & FL & LT2 & ND2 & WL & EP). exists (cnet_for a n j :: cs), (t ++ t2), (n' :: L). rewrite <- !app_assoc in *. cbn [app] in *. split; [reflexivity|]. split; [|split; [|split; [|split]]].
             ++ constructor; [|exact FL]. rewrite app_assoc. apply leads_mono. exists j, (LocSpec.numbers i l). split; [reflexivity|]. split; [exact NO|]. split; [intros q LQ X; apply (foa_first _ _ _ _ _ _ EF q LQ); rewrite NO; exact X|]. apply numbers_are. now apply A.
             ++ rewrite app_length. cbn [length]. lia.
             ++ auto.
             ++ constructor; [apply CL|exact WL].
             ++ cbn [NetModel.nets_parse]. rewrite (NetProofs7.accepted_one _ AC), EA. cbn [rbind]. exact EP.
          -- exact IH.
        * rewrite F. right. reflexivity.
      + destruct K as [->|(c & -> & E)]; [left; reflexivity|]. rewrite E. left. reflexivity.
  Qed.

  Variable sort : list NetModel.net -> list NetModel.net.
  Hypothesis SO : NetSpec.sort_ok sort.
  Definition hash_nets (o : option hash) : option (list net_want) := match o with None => Some [] | Some h => nets_say gai_net names h end.
  Lemma make_nets_says o d : (forall h, o = Some h -> Forall (fun e => length (elements (snd e)) <= 255) h) ->
    match hash_nets o with
    | Some ws => exists cs t nl w, make_nets gai_net sort i (option_map ftab o) d = Ok (Some (Some (nl, w, d ++ t))) /\ Forall2 (leads names (d ++ t)) ws cs /\ length t <= length ws /\ (NoDup d -> NoDup (d ++ t)) /\ NetModel.nets_make_list sort cs = Ok (Some (nl, w))
    | None => make_nets gai_net sort i (option_map ftab o) d = Ok (Some None) \/ make_nets gai_net sort i (option_map ftab o) d = Ok None
    end.
  Proof.
    intros SH. assert (P : match hash_nets o with
      | Some ws => exists cs t L, match option_map ftab o with None => Ok (Some (Some ({| NetModel.l_nets := []; NetModel.l_norm := false |}, d))) | Some t => parse_nets gai_net i (entries false t) d {| NetModel.l_nets := []; NetModel.l_norm := false |} end = Ok (Some (Some ({| NetModel.l_nets := L; NetModel.l_norm := false |}, d ++ t))) /\
          Forall2 (leads names (d ++ t)) ws cs /\ length t <= length ws /\ (NoDup d -> NoDup (d ++ t)) /\ Forall (NetProofs.wfn) L /\ NetModel.nets_parse cs {| NetModel.l_nets := []; NetModel.l_norm := false |} = Ok (Some {| NetModel.l_nets := L; NetModel.l_norm := false |})
      | None => let r := match option_map ftab o with None => Ok (Some (Some ({| NetModel.l_nets := []; NetModel.l_norm := false |}, d))) | Some t => parse_nets gai_net i (entries false t) d {| NetModel.l_nets := []; NetModel.l_norm := false |} end in r = Ok (Some None) \/ r = Ok None end).
    { destruct o as [h|]; cbn [option_map hash_nets].
      - rewrite <- mtab_nil, entries_mtab. exact (parse_says h (SH h eq_refl) d []).
      - exists [], [], []. rewrite app_nil_r. split; [reflexivity|]. split; [constructor|]. split; [apply le_n|]. split; [auto|]. split; [constructor|reflexivity]. }
    unfold make_nets. cbn zeta. destruct (hash_nets o) as [ws|].
    - destruct P as (cs & t & L & -> & FL & LT & ND & WL & EP). cbn [gbind]. rewrite NetProofs5.append_all_wf by exact NetProofs5.undef_wf. cbn [rbind].
      destruct (GmapProofs3.finish_total sort SO (L ++ NetModel.undef_nets)) as (nl & w & EF); [apply Forall_app; split; [exact WL|exact NetProofs5.undef_wf]|]. rewrite EF. exists cs, t, nl, w. split; [reflexivity|]. split; [exact FL|]. split; [exact LT|]. split; [exact ND|].
      unfold NetModel.nets_make_list. rewrite EP. cbn [rbind]. rewrite NetProofs5.append_all_wf by exact NetProofs5.undef_wf. cbn [rbind]. now rewrite EF.
    - destruct P as [->| ->]; [left|right]; reflexivity.
  Qed.
End Nets.

(** ** A map *)
Lemma unmarked_keys h : match unmarked (mark_all map_keys (ftab h)) with [] => true | _ => false end = only_b map_keys h.
Proof.
  unfold mark_all, map_keys. cbn [fold_left]. rewrite <- mtab_nil, !mark_mtab, unmarked_mtab. unfold only_b.
  assert (E : others [k_nets; k_map; k_db; k_ecs; k_limit; k_coords; k_centers] h = others [k_centers; k_coords; k_limit; k_ecs; k_db; k_map; k_nets] h).
  { unfold others. apply filter_ext. intros e. f_equal. unfold among. cbn [existsb]. destruct (bytes_eqb (fst e) k_nets), (bytes_eqb (fst e) k_map), (bytes_eqb (fst e) k_db), (bytes_eqb (fst e) k_ecs), (bytes_eqb (fst e) k_limit), (bytes_eqb (fst e) k_coords), (bytes_eqb (fst e) k_centers); reflexivity. }
  rewrite E. destruct (others [k_centers; k_coords; k_limit; k_ecs; k_db; k_map; k_nets] h); reflexivity.
Qed.

Section Map.
  Variable gai_net : bytes -> bytes -> option (addr * N).
  Hypothesis GO : forall a m x n, gai_net a m = Some (x, n) -> addr_ok x.
  Variable strtod : bytes -> option dbl.
  Variable sort : list NetModel.net -> list NetModel.net.
  Hypothesis SO : NetSpec.sort_ok sort.

  Lemma file_is x (G : gm (option bytes)) : (match fresh x with TS _ v => gbind (gcheck (negb (Nat.eqb (length v) 0))) (fun _ => Ok (Some (Some (c_str v)))) | _ => Ok None end) = Ok (let? p <- file_says x ; Some (Some p)).
  Proof. destruct x as [r [|c v]|?|?]; reflexivity. Qed.

  Theorem map_exact k x : sane x ->
    match map_says gai_net strtod (k, x) with
    | Some w => exists g, gdmap_init gai_net strtod sort (k, fresh x) = Ok (Some g) /\ map_made sort w g
    | None => gdmap_init gai_net strtod sort (k, fresh x) = Ok None
    end.
  Proof.
    intros SN. destruct x as [r v|l|h]; [reflexivity|reflexivity|]. destruct (SN h eq_refl) as (SE & SC & SM & SNT). clear SN.
    unfold map_says, gdmap_init. cbn [snd fst]. change (fresh (VH h)) with (TH (ftab h)). cbv beta iota. rewrite !ftab_value, unmarked_keys.
    destruct (get k_centers h) as [c|]; cbn [option_map obind]; [|reflexivity].
    pose proof (read_info_says strtod c (get k_coords h) (get k_limit h) SC) as RI. unfold info_says in RI.
    destruct (centers_say c) as [names|]; cbn [obind] in *; [|now rewrite RI].
    destruct (match get k_coords h with None => Some None | Some x => let? l <- coords_say strtod names x ; Some (Some l) end) as [auto|] eqn:EA; cbn [obind] in *; [|now rewrite RI].
    destruct (match get k_limit h with None => Some None | Some (VS _ v) => let? n <- as_ulong v ; Some (Some n) | Some _ => None end) as [lim|]; cbn [obind] in *; [|now rewrite RI].
    destruct RI as (i & -> & II & NZ & NA). cbn [gbind]. pose proof II as (EN & _).
    assert (AU : match option_map fresh (get k_coords h) with Some _ => true | None => false end = LocSpec.has auto).
    { destruct (get k_coords h) as [y|]; cbn [option_map] in *; [|injection EA as <-; reflexivity]. destruct (coords_say strtod names y); [|discriminate]. injection EA as <-. reflexivity. }
    rewrite AU. clear AU EA.
    assert (EC : match option_map fresh (get k_ecs h) with None => Ok (Some false) | Some (TS _ v) => opt (as_bool v) | Some _ => UB end = Ok (boolean (get k_ecs h))).
    { destruct (get k_ecs h) as [y|]; [|reflexivity]. destruct (SE y eq_refl) as (r & v & ->). reflexivity. }
    rewrite EC. clear EC. destruct (boolean (get k_ecs h)) as [ign|]; cbn [obind gbind]; [|reflexivity].
    assert (ED : match option_map fresh (get k_db h) with None => Ok (Some None) | Some (TS _ v) => gbind (gcheck (negb (Nat.eqb (length v) 0))) (fun _ => Ok (Some (Some (c_str v)))) | Some _ => Ok None end = Ok (match get k_db h with None => Some None | Some x => let? p <- file_says x ; Some (Some p) end)).
    { destruct (get k_db h) as [y|]; [|reflexivity]. cbn [option_map]. rewrite <- (file_is y (Ok None)). now destruct y. }
    rewrite ED. clear ED. destruct (match get k_db h with None => Some None | Some x => let? p <- file_says x ; Some (Some p) end) as [db|]; cbn [obind gbind]; [|reflexivity].
    assert (NZ' : Forall (fun n => ~ In 0%N n) (LocModel.i_names i)) by (rewrite EN; exact NZ).
    (* the map *)
    assert (MP : match match get k_map h with None => Some None | Some x => let? _ <- need (LocSpec.has db) ; let? m <- places names (LocSpec.has auto) x ; Some (Some m) end with
      | Some m => exists dm d, read_places i (LocSpec.has auto) db (option_map fresh (get k_map h)) (LocModel.dclists_new i) = Ok (Some (dm, d)) /\
          match m with
          | None => dm = None /\ d = LocModel.dclists_new i
          | Some m => exists dm', dm = Some dm' /\ LocModel.dcmap_new i (LocSpec.has auto) m (LocModel.dclists_new i) (LocModel.Num 0) 0 = Ok (Some (dm', d))
          end
      | None => read_places i (LocSpec.has auto) db (option_map fresh (get k_map h)) (LocModel.dclists_new i) = Ok None
      end).
    { unfold read_places. destruct (get k_map h) as [y|]; cbn [option_map]; [|eauto]. destruct (hash_or y) as [(hy & ->)|NH].
      - change (fresh (VH hy)) with (TH (ftab hy)). unfold gcheck. destruct db as [db|]; cbn [LocSpec.has need obind gbind]; [|reflexivity].
        pose proof (places_exact i NZ' (LocSpec.has auto) (VH hy) (SM _ eq_refl) (ex_intro _ hy eq_refl)) as P. rewrite EN in P. change (fresh (VH hy)) with (TH (ftab hy)) in P. destruct (places names (LocSpec.has auto) (VH hy)) as [m|]; cbn [obind].
        + destruct P as (-> & MK). destruct (MK (LocModel.dclists_new i) (LocModel.Num 0) 0) as (dm & d & E). rewrite E. cbn [gbind fst snd]. exists (Some dm), d. split; [reflexivity|]. exists dm. split; reflexivity.
        + rewrite P. reflexivity.
      - assert (PN : places names (LocSpec.has auto) y = None) by (destruct y as [? ?|?|hy]; [reflexivity|reflexivity|now destruct (NH hy)]). rewrite PN. destruct (LocSpec.has db); cbn [need obind]; destruct y as [? ?|?|hy]; try reflexivity; now destruct (NH hy). }
    destruct (match get k_map h with None => Some None | Some x => let? _ <- need (LocSpec.has db) ; let? m <- places names (LocSpec.has auto) x ; Some (Some m) end) as [m|]; cbn [obind]; [|rewrite MP; reflexivity].
    destruct MP as (dm & d & -> & HM). cbn [gbind fst snd].
    (* networks *)
    pose proof (fun o => make_nets_says gai_net GO i NZ' sort SO o d) as MN. unfold hash_nets in MN. rewrite EN in MN.
    assert (NT : match match get k_nets h with None => Some (Listed []) | Some (VH t) => let? l <- nets_say gai_net names t ; Some (Listed l) | Some x => let? p <- file_says x ; Some (InFile p) end with
      | Some nw => exists ns t, read_nets gai_net sort i (option_map fresh (get k_nets h)) d = Ok (Some (ns, d ++ t)) /\ (NoDup d -> NoDup (d ++ t)) /\ length t <= match nw with Listed l => length l | InFile _ => 0 end /\
          match nw with
          | InFile p => ns = NetsFile p
          | Listed l => exists cs nl b, Forall2 (leads names (d ++ t)) l cs /\ NetModel.nets_make_list sort cs = Ok (Some (nl, b)) /\ ns = NetsHere nl b
          end
      | None => read_nets gai_net sort i (option_map fresh (get k_nets h)) d = Ok None
      end).
    { unfold read_nets, nets_here. destruct (get k_nets h) as [y|]; cbn [option_map].
      - destruct y as [r [|cv v]|l|hn]; try reflexivity.
        + exists (NetsFile (c_str (cv :: v))), []. rewrite app_nil_r. split; [reflexivity|]. split; [auto|]. split; [apply le_n|reflexivity].
        + change (fresh (VH hn)) with (TH (ftab hn)). cbv beta iota. match goal with |- context [make_nets ?a ?b ?c ?e ?f] => change (make_nets a b c e f) with (make_nets gai_net sort i (option_map ftab (Some hn)) d) end. specialize (MN (Some hn)). specialize (MN (fun h' E => ltac:(injection E as <-; exact (SNT hn eq_refl)))).
          destruct (nets_say gai_net names hn) as [ws|]; cbn [obind].
          * destruct MN as (cs & t & nl & w & E & FL & LT & ND & EM). exists (NetsHere nl w), t. rewrite E. cbn [gbind]. split; [reflexivity|]. split; [exact ND|]. split; [exact LT|]. exists cs, nl, w. auto.
          * destruct MN as [-> | ->]; reflexivity.
      - specialize (MN None ltac:(discriminate)). cbn [option_map] in MN. destruct MN as (cs & t & nl & w & E & FL & LT & ND & EM). exists (NetsHere nl w), t. rewrite E. cbn [gbind]. split; [reflexivity|]. split; [exact ND|]. split; [exact LT|]. exists cs, nl, w. auto. }
    match type of NT with match ?o with _ => _ end => destruct o as [nw|] end; cbn [obind]; [|rewrite NT; reflexivity].
    destruct NT as (ns & t & -> & ND & LT & HN). cbn [gbind fst snd]. unfold gcheck. destruct (only_b map_keys h); cbn [need obind gbind]; [|reflexivity].
    eexists. split; [reflexivity|]. unfold map_made. cbn [g_name g_info g_auto g_ignore g_path g_map g_nets g_lists w_name w_names w_coords w_limit w_ignore w_db w_map w_nets].
    split; [reflexivity|]. split; [exact II|]. split; [reflexivity|]. split; [reflexivity|]. split; [reflexivity|]. split; [|exact HN]. exists d, t. split; [reflexivity|]. split; [exact LT|]. destruct m as [m|]; exact HM.
  Qed.

  Theorem maps_exact h : Forall (fun e => sane (snd e)) h ->
    match maps_mean gai_net strtod h with
    | Some ws => exists gs, gdmaps_new gai_net strtod sort (ftab h) = Ok (Some gs) /\ Forall2 (map_made sort) ws gs
    | None => gdmaps_new gai_net strtod sort (ftab h) = Ok None
    end.
  Proof.
    unfold gdmaps_new, maps_mean. rewrite <- mtab_nil, unmarked_mtab. assert (E : others [] h = h) by (unfold others; induction h as [|e h IH]; [reflexivity|cbn [filter]; change (among [] (fst e)) with false; cbn [negb]; now rewrite IH]). rewrite E. clear E.
    induction h as [|(k, x) h IH]; intros F; cbn [all map gmap_all fst snd]; [eauto|]. inversion F as [|? ? SX F']; subst. specialize (IH F'). cbn [snd] in SX. pose proof (map_exact k x SX) as M. destruct (map_says gai_net strtod (k, x)) as [w|].
    - destruct M as (g & -> & MG). cbn [gbind]. destruct (all (map_says gai_net strtod) h) as [ws|].
      + destruct IH as (gs & -> & FG). cbn [gbind]. exists (g :: gs). auto.
      + rewrite IH. reflexivity.
    - rewrite M. reflexivity.
  Qed.
End Map.
