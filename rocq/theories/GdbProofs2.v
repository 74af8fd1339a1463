(** What clients of a map with a database get *)
From Coq Require Import ZArith String Permutation.
From Verif Require Import Base CompModel CompProofs DnameModel RespModel MonModel VscfModel VscfSpec OptModel VhashModel VhashSpec VhashProofs2 PlugModel MsgModel LtreeModel PconfModel PconfSpec PconfProofs2 PconfProofs3 McfModel McfSpec McfProofs GmapModel GmapSpec GmapProofs GmapProofs2 GmapProofs4 GmapProofs5 GdbModel GdbSpec GdbProofs.
From Verif Require LocModel LocSpec LocProofs LocProofs2 NetModel NetSpec NetProps NetProofs4 NetProofs5 NetProofs6 NetProofs7.
Local Open Scope list_scope.
Local Open Scope nat_scope.
Local Notation length := List.length.
Ltac Zify.zify_post_hook ::= idtac.

Section Core.
  Context {D : Type}.
  Variable geodist : point -> point -> D.
  Variable ltb : D -> D -> bool.
  Hypothesis ord : LocSpec.orders ltb.
  Variable i : info.
  Hypothesis IO : LocProofs.info_ok i.
  Variables auto is_city : bool.
  Variable m : option LocModel.mapcfg.
  Hypothesis AUTO : auto = true -> is_city = true /\ Permutation (LocSpec.default_list i auto m) (LocSpec.all_dcs i).
  Hypothesis SOME : auto = true \/ m <> None.
  Variable dm : option LocModel.dcmap.
  Variable b : mmdb.
  Hypothesis UD : undamaged b.
  Variable sort : list NetModel.net -> list NetModel.net.
  Hypothesis SO : NetSpec.sort_ok sort.
  Variable names : list bytes.

  Definition for_address (l : list net_want) (x : bytes) (ds : list nat) : Prop :=
    (exists n, In n l /\ NetSpec.covers (line_net n) x /\ Forall2 (numbered names) (snd n) ds /\
      forall n', In n' l -> NetSpec.covers (line_net n') x -> (NetModel.n_mask (line_net n') <= NetModel.n_mask (line_net n))%nat) \/
    ((forall n, In n l -> ~ NetSpec.covers (line_net n) x) /\
     match db_has b x with
     | None => False
     | Some Nothing => ds = LocSpec.default_list i auto m
     | Some (At off) => LocSpec.right_list geodist ltb i auto is_city m (b_entry b (N.to_nat off)) ds
     end).

  (** A tree that is broken where clients may be is not used *)
  Theorem core_broken d : (forall o, LocSpec.entry_ok (b_entry b o)) -> LocProofs2.made i auto m d dm -> (N.of_nat (length d) <= 2 ^ 30)%N -> (N.of_nat (networks b) <= 2 ^ 24)%N ->
    (exists a, NetSpec.caddr_ok a /\ db_has b (NetSpec.canon a) = None) ->
    walk geodist ltb i auto is_city dm b (if (b_ip b =? 4)%N then 32 else 128) ({| NetModel.l_nets := []; NetModel.l_norm := true |}, d, []) NetModel.zeros 0%N = Ok None.
  Proof using ord IO AUTO SOME sort.
    clear UD SO. intros EO MD LD FI0 (a & CA & BR). set (v4 := (b_ip b =? 4)%N) in *. set (depth := if v4 then 32 else 128).
    destruct (walk_follows geodist ltb ord i IO auto is_city m AUTO SOME dm b EO depth {| NetModel.l_nets := []; NetModel.l_norm := true |} d [] NetModel.zeros 0%N MD ltac:(discriminate)) as (t & c & LT & _ & RC & KN & ST).
    change (NetSpec.db_size (b_node b) depth 0%N) with (networks b) in LT.
    set (gd := fun off : N => option_map N.of_nat (LocModel.cached c (N.to_nat off))). assert (KD : knows gd c) by (intros off j E; unfold gd; now rewrite E).
    assert (FD : forall off n, gd off = Some n -> (n < 2147483647)%N).
    { intros off n. unfold gd. destruct (LocModel.cached c (N.to_nat off)) as [j|] eqn:E; [|discriminate]. intros [= <-]. destruct (RC _ _ E) as (out & A & _). assert (H : j < length (d ++ t)) by (apply nth_error_Some; congruence). rewrite app_length in H. change (2 ^ 30)%N with 1073741824%N in LD. change (2 ^ 24)%N with 16777216%N in FI0. clear - LD FI0 LT H. lia. }
    destruct (NetProofs6.geo_list_ok (b_node b) gd FD sort v4) as (o & EO' & G). unfold NetModel.geo_list in EO'. fold depth in EO'. rewrite (KN gd KD) in EO'.
    match type of KN with forall gd, _ -> _ = strip ?W => change (W = Ok None) end.
    match type of EO' with context [strip ?W] => destruct W as [[s|]|]; cbn [strip rbind] in EO'; [exfalso|reflexivity|discriminate] end.
    destruct (NetModel.nlist_finish sort (fst (fst s))) as [(lst, bb)|]; [|discriminate]. injection EO' as <-. destruct G as (_ & L & _ & _ & _ & _ & _ & _ & GS). specialize (GS (NetSpec.canon a) (NetProofs4.canon_ip a CA) (NetProofs5.canon_plain a CA)).
    unfold NetSpec.geo_says in GS. unfold db_has in BR. fold v4 in BR. destruct v4; [destruct (NetModel.same 12 (NetSpec.canon a) NetModel.zeros); [|discriminate]|]; rewrite says_record, BR in GS; discriminate.
  Qed.

  Theorem core d : LocProofs2.made i auto m d dm -> (N.of_nat (length d) <= 2 ^ 30)%N -> (N.of_nat (1 + 127 * (networks b + 5)) <= 2 ^ 24)%N ->
    exists l0 lst bb t c, length t <= networks b /\
      walk geodist ltb i auto is_city dm b (if (b_ip b =? 4)%N then 32 else 128) ({| NetModel.l_nets := []; NetModel.l_norm := true |}, d, []) NetModel.zeros 0%N = Ok (Some (l0, d ++ t, c)) /\
      NetModel.nlist_finish sort l0 = Ok (lst, bb) /\
      forall u l cs nl bf, Forall2 (leads names (d ++ t ++ u)) l cs -> Forall (fun w => addr_ok (fst (fst w)) /\ prefix_ok (fst (fst w)) (snd (fst w)) = true) l ->
        agreed l -> NetSpec.all_reached (map line_net l) -> (N.of_nat (1 + 127 * (networks b + length l + 5)) <= 2 ^ 24)%N -> (N.of_nat (length (d ++ t ++ u)) < 2147483647)%N ->
        NetModel.nets_make_list sort cs = Ok (Some (nl, bf)) ->
        bf = false /\ exists T, NetModel.map_tree sort (Some lst) nl = Ok (T, false) /\
        forall cl ign, NetSpec.client_ok cl -> exists n k ds, NetModel.ntree_lookup T cl ign = Ok (n, k) /\ nth_error (d ++ t ++ u) (N.to_nat n) = Some ds /\
          for_address l (NetSpec.canon (NetSpec.known_by cl ign)) ds.
  Proof.
    intros MD LD FI0. destruct UD as (RE & EO). set (v4 := (b_ip b =? 4)%N) in *. set (depth := if v4 then 32 else 128).
    destruct (walk_follows geodist ltb ord i IO auto is_city m AUTO SOME dm b EO depth {| NetModel.l_nets := []; NetModel.l_norm := true |} d [] NetModel.zeros 0%N MD ltac:(discriminate)) as (t & c & LT & _ & RC & KN & ST).
    change (NetSpec.db_size (b_node b) depth 0%N) with (networks b) in LT.
    set (gd := fun off : N => option_map N.of_nat (LocModel.cached c (N.to_nat off))).
    set (gt := fun off : N => match gd off with Some n => Some n | None => Some 0%N end).
    assert (KD : knows gd c) by (intros off j E; unfold gd; now rewrite E). assert (KT : knows gt c) by (intros off j E; unfold gt; now rewrite (KD _ _ E)).
    set (bd := {| NetModel.g_node := b_node b; NetModel.g_dc := gd; NetModel.g_v4 := v4 |}). set (bt := {| NetModel.g_node := b_node b; NetModel.g_dc := gt; NetModel.g_v4 := v4 |}).
    assert (SM : (N.of_nat (length (d ++ t)) < 2147483647)%N) by (rewrite app_length; change (2 ^ 30)%N with 1073741824%N in LD; change (2 ^ 24)%N with 16777216%N in FI0; clear - LD FI0 LT; lia).
    assert (CB : forall off n, gd off = Some n -> exists j out, n = N.of_nat j /\ nth_error (d ++ t) j = Some out /\ LocSpec.right_list geodist ltb i auto is_city m (b_entry b (N.to_nat off)) out).
    { intros off n. unfold gd. destruct (LocModel.cached c (N.to_nat off)) as [j|] eqn:E; [|discriminate]. intros [= <-]. destruct (RC _ _ E) as (out & A & B). eauto. }
    assert (FD : NetSpec.db_fits bd). { intros off n E. destruct (CB _ _ E) as (j & out & -> & X & _). assert (j < length (d ++ t)) by (apply nth_error_Some; congruence). clear - SM H. lia. }
    assert (FT : NetSpec.db_fits bt). { intros off n E. cbn [bt NetModel.g_dc] in E. unfold gt in E. destruct (gd off) as [n'|] eqn:E'; injection E as <-; [exact (FD _ _ E')|reflexivity]. }
    assert (WT : NetSpec.db_whole bt). { intros x IX. cbn [bt NetModel.g_node NetModel.g_dc NetModel.g_v4]. rewrite says_record. specialize (RE x IX). destruct (record_for _ _ x 0%N) as [[|off]|]; [discriminate| |congruence]. unfold gt. destruct (gd off); discriminate. }
    assert (SAME : forall cfg, NetModel.initial_load sort (Some bd) cfg = NetModel.initial_load sort (Some bt) cfg).
    { intros cfg. unfold NetModel.initial_load. cbn [bd bt NetModel.g_node NetModel.g_dc NetModel.g_v4]. unfold NetModel.geo_list. fold depth. rewrite (KN gd KD), (KN gt KT). reflexivity. }
    assert (LOAD : forall cfg, Forall NetSpec.cnet_ok cfg -> Forall NetSpec.accepted cfg -> NetSpec.no_conflict (map NetSpec.the_net cfg) -> NetSpec.all_reached (map NetSpec.the_net cfg) ->
      NetSpec.fits (Some bt) cfg -> exists T, NetModel.initial_load sort (Some bd) cfg = Ok (Some (T, false)) /\ NetProofs7.tells (Some bd) (map NetSpec.the_net cfg) T).
    { intros cfg OK AC NC AR FI. destruct (NetProofs7.load_ok sort SO (Some bt) cfg OK AC NC AR ltac:(intros ? [= <-]; exact FT)) as [[_ NF]|[(_ & ? & [= <-] & X)|(T & E & _)]]; [now elim NF|now elim X|].
      destruct (NetProofs7.load_ok sort SO (Some bd) cfg OK AC NC AR ltac:(intros ? [= <-]; exact FD)) as [[X _]|[(X & _)|(T' & E' & HT)]]; rewrite SAME, E in *; try discriminate. exists T'. auto. }
    assert (E0 : exists l0 lst bb, walk geodist ltb i auto is_city dm b depth ({| NetModel.l_nets := []; NetModel.l_norm := true |}, d, []) NetModel.zeros 0%N = Ok (Some (l0, d ++ t, c)) /\ NetModel.nlist_finish sort l0 = Ok (lst, bb)).
    { destruct (LOAD []) as (T & E & _); try constructor; try (now intros ? ? []); try (now intros ? []); [unfold NetSpec.fits; cbn [length]; rewrite Nat.add_0_r; exact FI0|].
      unfold NetModel.initial_load in E. cbn [bd NetModel.g_node NetModel.g_dc NetModel.g_v4] in E. unfold NetModel.geo_list in E. fold depth in E. rewrite (KN gd KD) in E.
      destruct (walk geodist ltb i auto is_city dm b depth _ _ _) as [[((l0, d'), c')|]|] eqn:EW; cbn [strip rbind fst] in E; try discriminate. destruct (ST _ eq_refl) as (X1 & X2). cbn [fst snd] in X1, X2. subst d' c'.
      destruct (NetModel.nlist_finish sort l0) as [(lst, bb)|] eqn:EF; [|discriminate]. exists l0, lst, bb. auto. }
    destruct E0 as (l0 & lst & bb & EW & EF). exists l0, lst, bb, t, c. split; [exact LT|]. split; [exact EW|]. split; [exact EF|].
    match type of KN with forall gd, _ -> _ = strip ?W => change (W = Ok (Some (l0, d ++ t, c))) in EW end.
    intros u l cs nl bf LE AO AG AR FI SM' MK.
    assert (FI' : (N.of_nat (1 + 127 * (length l + 5)) <= 2 ^ 24)%N) by (clear - FI; change (2 ^ 24)%N with 16777216%N in *; lia).
    assert (C1 : Forall NetSpec.cnet_ok cs) by (eapply conf_ok; eauto). assert (C2 : Forall NetSpec.accepted cs) by (eapply conf_accepted; eauto).
    assert (C3 : NetSpec.no_conflict (map NetSpec.the_net cs)) by (eapply conf_agreed; eauto). assert (C4 : NetSpec.all_reached (map NetSpec.the_net cs)) by (eapply conf_reached; eauto).
    destruct (LOAD cs C1 C2 C3 C4) as (T & E & HT). { unfold NetSpec.fits. rewrite <- (f2_len _ _ _ LE). exact FI. }
    unfold NetModel.initial_load in E. cbn [bd NetModel.g_node NetModel.g_dc NetModel.g_v4] in E. unfold NetModel.geo_list in E. fold depth in E. rewrite (KN gd KD), EW in E. cbn [strip rbind fst] in E. rewrite EF in E. cbn [rbind] in E. rewrite MK in E. cbn [rbind] in E.
    destruct (NetModel.map_tree sort (Some lst) nl) as [(T', w')|]; cbn [rbind] in E; [|discriminate]. injection E as -> EB. apply orb_false_iff in EB as (-> & ->). split; [reflexivity|]. exists T. split; [reflexivity|].
    intros cl ign CO. destruct (NetProps.tree_lookup _ _ _ cl ign HT CO) as (n & k & EL & AN & _). set (x := NetSpec.canon (NetSpec.known_by cl ign)) in *. exists n. eexists.
    assert (UP : forall j out, nth_error (d ++ t) j = Some out -> nth_error (d ++ t ++ u) j = Some out) by (intros j out E; rewrite app_assoc, nth_error_app1; [exact E|apply nth_error_Some; congruence]).
    assert (Z : nth_error (d ++ t) 0 = Some (LocSpec.default_list i auto m)) by (destruct MD as (Z & _); rewrite nth_error_app1; [exact Z|apply nth_error_Some; congruence]).
    destruct AN as [(net & I & CV & EN & MX)|(UN & GS)].
    - apply in_map_iff in I as (cn & <- & I). destruct (f2_r _ _ _ LE cn I) as (w & IW & LW). destruct (leads_net names _ w cn LW) as (E1 & E2 & j & ns & ED & NE & _ & F). exists ns. split; [exact EL|]. rewrite <- EN, ED, Nat2N.id. split; [exact NE|].
      left. exists w. split; [exact IW|]. split; [now apply (same_covers names _ w cn x LW)|]. split; [exact F|]. intros w' IW' CV'. destruct (f2_l _ _ _ LE w' IW') as (c' & IC' & LW'). destruct (leads_net names _ w' c' LW') as (_ & EM' & _). rewrite <- EM', <- E2. apply MX; [now apply in_map|]. now apply (same_covers names _ w' c' x LW').
    - assert (UN' : forall w, In w l -> ~ NetSpec.covers (line_net w) x). { intros w IW CV. destruct (f2_l _ _ _ LE w IW) as (cn & IC & LW). apply (UN (NetSpec.the_net cn)); [now apply in_map|]. now apply (same_covers names _ w cn x LW). }
      unfold NetSpec.geo_says in GS. cbn [bd NetModel.g_node NetModel.g_dc NetModel.g_v4] in GS.
      assert (H : match db_has b x with None => False | Some Nothing => n = 0%N | Some (At off) => gd off = Some n end).
      { unfold db_has. fold v4. destruct v4; [destruct (NetModel.same 12 x NetModel.zeros); [|exact GS]|]; rewrite says_record in GS; destruct (record_for _ _ x 0%N) as [[|off]|]; try discriminate; try congruence; exact GS. }
      destruct (db_has b x) as [[|off]|] eqn:EH; [| |destruct H].
      + subst n. exists (LocSpec.default_list i auto m). split; [exact EL|]. split; [apply UP, Z|]. right. split; [exact UN'|]. now rewrite EH.
      + destruct (CB _ _ H) as (j & out & -> & NE & RL). exists out. split; [exact EL|]. rewrite Nat2N.id. split; [apply UP, NE|]. right. split; [exact UN'|]. now rewrite EH.
  Qed.
End Core.
