(** Sizes of answers from loaded zones: the checks of phase 1 are enough. *)
From Coq Require Import Sorting.Permutation.
From Verif Require Import Base DnameSpec DnameModel DnameProofs RandModel CompModel PktModel RespModel RespSpec RespProofs RespProofs3 RespProofs4 MsgModel MsgSpec MsgProofs LtreeModel LtreeSpec LtreeProofs LtreeProofs2 LtreeProofs3 LtreeProofs4 LtreeProofs5 LtreeProofs6 LtreeProofs7 LtreeProofs8 LtreeProofs9 LtreeProofs10 LtreeProofs11 LtreeProofs12 LtreeProofs13 LtreeProofs14.
Local Open Scope N_scope.
Ltac Zify.zify_post_hook ::= idtac.

Lemma dlen_wl n : dlen n = N.of_nat (wire_len n).
Proof.
  unfold dlen. rewrite app_length. cbn [length]. f_equal. rewrite Nat.add_1_r. unfold wire_len. f_equal.
  induction n as [|l n IH]; [reflexivity|]. cbn [map concat fold_right]. rewrite app_length, IH. reflexivity.
Qed.

Lemma ok_inj {X} (a c : X) : Ok a = Ok c -> a = c.
Proof. congruence. Qed.
Lemma nsum_cons {X} (f : X -> N) x l : nsum f (x :: l) = f x + nsum f l.
Proof. reflexivity. Qed.
Lemma rrs_cons r l : rrs_size (r :: l) = rr_size r + rrs_size l.
Proof. reflexivity. Qed.
Lemma rrs_map {X} (f : X -> rr) (g : X -> N) l : (forall x, In x l -> rr_size (f x) = g x) -> rrs_size (map f l) = nsum g l.
Proof. induction l as [|x l IH]; intros H; [reflexivity|]. cbn [map]. rewrite rrs_cons, nsum_cons, IH, H; [reflexivity|now left|]. intros y I. apply H. now right. Qed.
Lemma addr_size o t ttl k a : Forall (fun x => length x = k) a -> rrs_size (addr_rrs o t ttl a) = N.of_nat (length a) * (12 + N.of_nat k).
Proof.
  induction 1 as [|x a HX HF IH]; [reflexivity|]. unfold addr_rrs in *. cbn [map]. rewrite rrs_cons, IH. unfold rr_size. cbn [mk_rr rr_data fold_right piece_size length]. rewrite HX. lia.
Qed.

Lemma glue_fun hash z raw a x y : Forall2 (glue_rel hash z raw) a x -> Forall2 (glue_rel hash z raw) a y -> x = y.
Proof.
  intros H. revert y. induction H as [|s s' l l' G F IH]; intros y H'; inversion H' as [|? s2 ? l2 G' F' E1 E2]; subst; [reflexivity|]. f_equal; [|now apply IH]. clear - G G'.
  inversion G as [t rd rd' FR|s0 NS NT]; subst.
  - inversion G' as [t2 rd2 rd2' FR2|s1 NS1 NT1]; subst; [|exfalso; eapply NS1; reflexivity]. f_equal. clear -FR FR2. revert rd2' FR2. induction FR as [|u v l l' R F IH]; intros rd2' FR2; inversion FR2 as [|? v2 ? l2 R' F' E1 E2]; subst; [reflexivity|].
    f_equal; [|now apply IH]. destruct R as (N1 & us1 & P1), R' as (N2 & us2 & P2). destruct v as ((n1, a1), b1), v2 as ((n2, a2), b2). cbn [fst snd] in *. congruence.
  - inversion G' as [t2 rd2 rd2' FR2|s1 NS1 NT1]; subst; [exfalso; eapply NS; reflexivity|reflexivity].
Qed.

Section Sizes.
  Variable zc : zcfg.
  Variable dyn : N -> dynres.
  Hypothesis DW : dyn_within zc dyn.
  Hypothesis DL : forall x, Forall (fun a => length a = 4%nat) (d_v4 (dyn x)) /\ Forall (fun a => length a = 16%nat) (d_v6 (dyn x)) /\
    forall n, d_cname (dyn x) = Some n -> legal_name n.

  (** a set with the addresses of its name servers *)
  Definition set_bytes (o : name) (s : rrset) : N :=
    rrs_size (records_of dyn o s) + rrs_size (match s with RsNS _ rd => glue_rrs rd | _ => [] end).

  Lemma set_size o s ind sz : wf_rrset s -> p1_rrset_size zc s ind = Ok sz -> ind = false \/ rrset_type s = 2 -> set_bytes o s <= sz.
  Proof.
    intros W E I. unfold set_bytes. destruct s as [ttl a|mx mn x|ttl a|mx mn x|ttl rd|ttl rd|ttl rd|ttl rd|ttl rd|ttl rd|ttl n|ttl m r t|mx mn x|ty ttl rd]; cbn [p1_rrset_size records_of wf_rrset rrset_type] in *;
      change (rrs_size []) with 0; rewrite ?N.add_0_r.
    - destruct I as [->|I]; [|discriminate]. apply ok_inj in E; subst sz. destruct W as (_ & W). rewrite (addr_size _ _ _ 4 _ W). lia.
    - apply ok_inj in E; subst sz. destruct (DW x) as (D1 & _ & _). destruct (DL x) as (D4 & _). rewrite (addr_size _ _ _ 4 _ D4). lia.
    - destruct I as [->|I]; [|discriminate]. apply ok_inj in E; subst sz. destruct W as (_ & W). rewrite (addr_size _ _ _ 16 _ W). lia.
    - apply ok_inj in E; subst sz. destruct (DW x) as (D1 & _ & _). destruct (DL x) as (_ & D6 & _). rewrite (addr_size _ _ _ 16 _ D6). lia.
    - apply ok_inj in E; subst sz. destruct W as (_ & _ & W). clear I. induction W as [|((n, g4), g6) rd (LN & W4 & W6) WF IH]; [apply N.le_refl|].
      cbn [map]. rewrite rrs_cons, nsum_cons. unfold glue_rrs in *. cbn [flat_map]. rewrite !rrs_size_app. unfold rr_size at 1. cbn [mk_rr rr_data fold_right piece_size fst]. rewrite dlen_wl.
      assert (G4 : rrs_size match g4 with Some (ttl, a) => addr_rrs n 1 ttl a | None => [] end = glue_count g4 * (12 + 4)).
      { destruct g4 as [(t4, a4)|]; [|reflexivity]. cbn [glue_count]. apply (addr_size _ _ _ 4). apply W4. }
      assert (G6 : rrs_size match g6 with Some (ttl, a) => addr_rrs n 28 ttl a | None => [] end = glue_count g6 * (12 + 16)).
      { destruct g6 as [(t6, a6)|]; [|reflexivity]. cbn [glue_count]. apply (addr_size _ _ _ 16). apply W6. }
      rewrite G4, G6. lia.
    - apply ok_inj in E; subst sz. apply N.eq_le_incl. apply rrs_map. intros n _. unfold rr_size. cbn [mk_rr rr_data fold_right piece_size]. rewrite dlen_wl. lia.
    - apply ok_inj in E; subst sz. apply N.eq_le_incl. apply rrs_map. intros n _. unfold rr_size. cbn [mk_rr rr_data fold_right piece_size]. rewrite dlen_wl, be16_len. lia.
    - apply ok_inj in E; subst sz. apply N.eq_le_incl. apply rrs_map. intros (((p, w), po), n) _. unfold rr_size. cbn [mk_rr rr_data fold_right piece_size]. rewrite dlen_wl, !app_length, !be16_len. lia.
    - apply ok_inj in E; subst sz. apply N.eq_le_incl. apply rrs_map. intros (((p, w), po), n) _. unfold rr_size. cbn [mk_rr rr_data fold_right piece_size]. rewrite dlen_wl, !app_length, !be16_len. lia.
    - apply ok_inj in E; subst sz. apply N.eq_le_incl. apply rrs_map. intros n _. unfold rr_size. cbn [mk_rr rr_data fold_right piece_size]. lia.
    - discriminate.
    - apply ok_inj in E; subst sz. destruct W as (_ & _ & W). rewrite rrs_cons. change (rrs_size []) with 0. unfold rr_size. cbn [mk_rr rr_data fold_right piece_size]. rewrite !dlen_wl, W. lia.
    - apply N.le_0_l.
    - unfold rassert in E. destruct (negb _); [|discriminate]. apply ok_inj in E; subst sz. apply N.eq_le_incl. apply rrs_map. intros n _. unfold rr_size. cbn [mk_rr rr_data fold_right piece_size]. lia.
  Qed.

  Definition set_glue (r : rrset) : list rr := match r with RsNS _ rd => glue_rrs rd | _ => [] end.
  Lemma filter_one ss t : NoDup (map rrset_type ss) -> filter (fun r => rrset_type r =? t) ss = [] \/ exists s, In s ss /\ rrset_type s = t /\ filter (fun r => rrset_type r =? t) ss = [s].
  Proof.
    induction ss as [|s ss IH]; intros ND; [now left|]. cbn [map filter] in *. inversion ND as [|? ? NI ND' E]; subst. destruct (IH ND') as [F|(s' & IS & TS & F)].
    - rewrite F. destruct (N.eqb_spec (rrset_type s) t) as [E|NE]; [right; exists s; split; [now left|auto]|now left].
    - rewrite F. destruct (N.eqb_spec (rrset_type s) t) as [E|NE]; [|right; exists s'; split; [now right|auto]]. exfalso. apply NI. rewrite E, <- TS. now apply in_map.
  Qed.
  Lemma no_records o s : records_of dyn o s = [] -> set_glue s = [].
  Proof. destruct s as [ttl a|mx mn x|ttl a|mx mn x|ttl rd|ttl rd|ttl rd|ttl rd|ttl rd|ttl rd|ttl n|ttl m r t|mx mn x|ty ttl rd]; try reflexivity. cbn [records_of set_glue]. intros E. apply map_eq_nil in E. subst. reflexivity. Qed.
  Lemma soa_size z zn : wf_node zn -> rrs_size (flat_map (records_of dyn z) (filter (fun r => rrset_type r =? 6) (n_rrsets zn))) <= 542.
  Proof.
    intros (_ & WR & ND & _). destruct (filter_one (n_rrsets zn) 6 ND) as [-> |(s & IS & TS & ->)]; [apply N.le_0_l|]. cbn [flat_map]. rewrite app_nil_r. rewrite Forall_forall in WR. specialize (WR _ IS).
    destruct s as [ttl a|mx mn x|ttl a|mx mn x|ttl rd|ttl rd|ttl rd|ttl rd|ttl rd|ttl rd|ttl n|ttl m r t|mx mn x|ty ttl rd]; try discriminate TS.
    - cbn [wf_rrset] in WR. destruct WR as ((_ & L1) & (_ & L2) & L3). cbn [records_of]. rewrite rrs_cons. change (rrs_size []) with 0. unfold rr_size. cbn [mk_rr rr_data fold_right piece_size]. rewrite L3. lia.
    - exfalso. cbn [wf_rrset rrset_type] in *. subst ty. destruct WR as (_ & WR). apply WR. cbn. tauto.
  Qed.
  Lemma effective_sets (n : node) (qt total : N) : wf_node n -> (forall s, In s (n_rrsets n) -> rrset_type s <> 5 -> exists sz, p1_rrset_size zc s false = Ok sz /\ sz <= total) ->
    NoDup (map rrset_type (fst (effective dyn (n_rrsets n) qt))) /\
    forall o s, In s (fst (effective dyn (n_rrsets n) qt)) -> set_bytes o s <= N.max total 10080.
  Proof.
    intros (_ & WR & ND & AL & _) SZ. assert (C : (exists mx mn x, n_rrsets n = [RsDYNC mx mn x]) \/ (exists ttl t, n_rrsets n = [RsCNAME ttl t]) \/ fst (effective dyn (n_rrsets n) qt) = n_rrsets n /\ forall s, In s (n_rrsets n) -> rrset_type s <> 5).
    { destruct (n_rrsets n) as [|s ss] eqn:E; [right; right; split; [reflexivity|intros s []]|]. destruct ss as [|s2 ss].
      - destruct s; try (right; right; split; [reflexivity|intros s [<- |[]]; discriminate]); [right; left; eauto|left; eauto|]. right; right; split; [reflexivity|intros s [<- |[]]]. inversion WR as [|? ? W _]. cbn [wf_rrset rrset_type] in *. intros ->. apply (proj2 W). cbn. tauto.
      - right. right. split; [destruct s; reflexivity|]. intros s0 IS T5. specialize (AL s0 IS (or_introl T5)). discriminate. }
    destruct C as [(mx & mn & x & E)|[(ttl & t & E)|(E & N5)]].
    - rewrite E. cbn [effective]. destruct (DW x) as (_ & D2 & D3). destruct (DL x) as (D4 & D6 & DC). destruct (d_cname (dyn x)) as [c|]; cbn [fst].
      + split; [repeat constructor; intros []|]. intros o s [<-|[]]. unfold set_bytes. cbn [records_of]. rewrite rrs_cons. change (rrs_size []) with 0. unfold rr_size. cbn [mk_rr rr_data fold_right piece_size].
        destruct (DC c eq_refl) as (_ & LC). lia.
      + split. { cbn. constructor; [intros [Q|[]]; discriminate|repeat constructor; intros []]. }
        intros o s [<-|[<-|[]]]; unfold set_bytes; cbn [records_of]; change (rrs_size []) with 0.
        * rewrite (addr_size _ _ _ 4 _ D4). lia.
        * rewrite (addr_size _ _ _ 16 _ D6). lia.
    - rewrite E. cbn [effective fst]. split; [repeat constructor; intros []|]. intros o s [<-|[]]. unfold set_bytes. cbn [records_of]. rewrite rrs_cons. change (rrs_size []) with 0. unfold rr_size. cbn [mk_rr rr_data fold_right piece_size].
      rewrite E in WR. inversion WR as [|? ? W _]; subst. cbn [wf_rrset] in W. destruct W as (_ & W). lia.
    - rewrite E. split; [exact ND|]. intros o s IS. rewrite Forall_forall in WR. destruct (SZ s IS (N5 s IS)) as (sz & P & LE). pose proof (set_size o s false sz (WR _ IS) P (or_introl eq_refl)). lia.
  Qed.
  Variable chals : name -> list (N * bytes).
  Lemma final_size q qt z zn f total : wf_node zn ->
    match f with None => True | Some n => wf_node n /\ forall s, In s (n_rrsets n) -> rrset_type s <> 5 -> exists sz, p1_rrset_size zc s false = Ok sz /\ sz <= total end ->
    rep_size (final dyn chals q qt z zn f) <= N.max total 10080 + rrs_size (r_chal (final dyn chals q qt z zn f)).
  Proof.
    intros WZ WN. pose proof (soa_size z zn WZ) as SO.
    assert (EF : NoDup (map rrset_type (fst (effective dyn (match f with Some n => n_rrsets n | None => [] end) qt))) /\
      forall o s, In s (fst (effective dyn (match f with Some n => n_rrsets n | None => [] end) qt)) -> set_bytes o s <= N.max total 10080).
    { destruct f as [n|]; [now apply effective_sets|]. split; [constructor|intros o s []]. }
    unfold final. destruct (effective dyn _ qt) as (ss, qt'). cbn [fst] in EF. destruct EF as (ND & SB). unfold rep_size. cbn [r_chain r_an r_chal r_ns r_ar]. change (rrs_size []) with 0.
    set (cs := rrs_size (if fst (chal_name q) && (qt' =? 16) then _ else _)). set (soa := rrs_size (flat_map (records_of dyn z) _)) in *.
    destruct (N.eqb_spec qt' 255) as [->|NQ].
    - assert (E : cs = 0) by (unfold cs; rewrite andb_false_r; reflexivity). rewrite E. destruct (match f with Some _ => true | None => match chals (snd (chal_name q)) with [] => false | _ => true end end); change (rrs_size [hinfo_rr q]) with 21; change (rrs_size []) with 0; lia.
    - change (flat_map (fun r => match r with RsNS _ rd => glue_rrs rd | _ => [] end)) with (flat_map set_glue).
      destruct (filter_one ss qt' ND) as [-> |(s & IS & TS & ->)]; cbn [flat_map]; rewrite ?app_nil_r.
      + change (rrs_size []) with 0. lia.
      + pose proof (SB q s IS) as B. unfold set_bytes in B. fold (set_glue s) in B. destruct (records_of dyn q s) as [|r0 rs0] eqn:R; [rewrite (no_records q s R)|]; change (rrs_size []) with 0 in *; lia.
  Qed.
End Sizes.

Section Tree.
  Variable cfg : zcfg.
  Variable pl : plugins.
  Variable hash : list N -> N.
  Hypothesis hash64 : forall l, hash l < W64.
  Hypothesis CF : cfg_fine cfg.
  Variable zs : list (name * list record).
  Variable b : N.
  Variable roots : list (name * lnode).
  Variable T : lnode.
  Hypothesis TI : tree_inv hash b roots T.
  Hypothesis FL : Forall2 (is_loaded cfg pl hash) zs roots.
  Variable dyn : N -> dynres.
  Hypothesis DW : dyn_within cfg dyn.
  Hypothesis DL : forall x, Forall (fun a => length a = 4%nat) (d_v4 (dyn x)) /\ Forall (fun a => length a = 16%nat) (d_v6 (dyn x)) /\
    forall n, d_cname (dyn x) = Some n -> legal_name n.
  Variable chals : name -> list (N * bytes).
  Variable no_chain : bool.

  Let WFT : wf_db (view T) := tree_wf cfg pl hash hash64 CF zs b roots T TI FL.

  Section One.
    Variable z : name.
    Variable rs : list record.
    Variable raw r0 : lnode.
    Hypothesis IR : In (z, r0) roots.
    Hypothesis L : loaded cfg pl hash z rs raw r0.

    Definition deleg_rep (d : name) (ttl : N) (rd : list (name * option (N * list bytes) * option (N * list bytes))) : rep :=
      {| r_rcode := 0; r_aa := false; r_chain := []; r_an := []; r_chal := []; r_ns := records_of dyn d (RsNS ttl rd); r_ar := glue_rrs rd |}.
    Definition chain_rep (q : name) (ttl : N) (t : name) (r : rep) : rep :=
      {| r_rcode := r_rcode r; r_aa := true; r_chain := mk_rr q 5 ttl [DName t] :: r_chain r; r_an := r_an r; r_chal := r_chal r; r_ns := r_ns r; r_ar := r_ar r |}.

    Lemma classify rel qt r : resolves dyn chals no_chain (view T) (rel ++ z) qt r ->
      (exists e c m fnd ttl rd, in_deleg rs rel /\ cut rs e /\ walk raw (rev e) = Some c /\ walk r0 (rev e) = Some m /\ search_dname_zone hash z raw (rel ++ z) = Ok (DELEG, fnd, Some (e, c)) /\
         In (RsNS ttl rd) (l_rrsets m) /\ r = deleg_rep (e ++ z) ttl rd) \/
      (exists fnd f, ~ in_deleg rs rel /\ search_dname_zone hash z raw (rel ++ z) = Ok (AUTH, fnd, None) /\
         match fnd, f with
         | None, None => True
         | Some (d, c), Some c' => walk raw (rev d) = Some c /\ walk r0 (rev d) = Some c' /\ (d = rel \/ hd_error d = Some [42])
         | _, _ => False
         end /\
         (r = final dyn chals (rel ++ z) qt z (view r0) (option_map view f) \/
          exists c' ttl p r1, f = Some c' /\ l_rrsets c' = [RsCNAME ttl (p ++ z)] /\ resolves dyn chals no_chain (view T) (p ++ z) qt r1 /\ r = chain_rep (rel ++ z) ttl (p ++ z) r1)).
    Proof.
      intros R. pose proof (root_zone_of hash b roots T TI z r0 (rel ++ z) rel IR eq_refl) as ZO.
      assert (INZ : forall z' zn f, in_zone (view T) (rel ++ z) z' zn f -> exists fnd f', ~ in_deleg rs rel /\ search_dname_zone hash z raw (rel ++ z) = Ok (AUTH, fnd, None) /\
         match fnd, f' with
         | None, None => True
         | Some (d, c), Some c' => walk raw (rev d) = Some c /\ walk r0 (rev d) = Some c' /\ (d = rel \/ hd_error d = Some [42])
         | _, _ => False
         end /\ z' = z /\ zn = view r0 /\ f = option_map view f').
      { intros z' zn f IZ.
        assert (ND : ~ in_deleg rs rel).
        { intros ID. destruct (delegation cfg pl hash hash64 b roots T TI z rs raw r0 IR L rel ID) as (p & e & c & m & fnd & _ & _ & _ & _ & _ & DE). exact (deleg_not_in _ (proj1 WFT) _ _ _ _ _ _ DE IZ). }
        destruct (locate cfg pl hash hash64 b roots T TI z rs raw r0 IR L rel ND) as (fnd & f' & E & IZ' & M).
        destruct (in_zone_unique _ (proj1 WFT) _ _ _ _ _ _ _ IZ IZ') as (A1 & A2 & A3). exists fnd, f'. auto 9. }
      inversion R as [q0 qt0 NZ|q0 qt0 d dn ttl rd DE HN|q0 qt0 z' zn f IZ NF|q0 qt0 z' zn f ttl t r1 IZ FO R1]; subst.
      - exfalso. destruct ZO as (C & _). eapply NZ. exact C.
      - left. assert (ID : in_deleg rs rel).
        { destruct DE as (z' & zn & ZO' & CA & LT & _). destruct (cuts_are cfg pl hash b roots T TI z rs raw r0 IR L rel d dn CA) as [(-> & ->)|(p & e & m & E & _ & C & _)]; [|exists p, e; auto].
          exfalso. destruct ZO' as (CA' & _). apply (proj2 ZO) in CA'. lia. }
        destruct (delegation cfg pl hash hash64 b roots T TI z rs raw r0 IR L rel ID) as (p & e & c & m & fnd & E & C & W & W' & S & DE').
        destruct (deleg_unique _ (proj1 WFT) _ _ _ _ _ DE DE') as (-> & ->). rewrite view_rrsets in HN. exists e, c, m, fnd, ttl, rd. auto 9.
      - right. destruct (INZ _ _ _ IZ) as (fnd & f' & ND & S & M & -> & -> & ->). exists fnd, f'. auto 9.
      - right. destruct (INZ _ _ _ IZ) as (fnd & f' & ND & S & M & -> & -> & ->). destruct FO as (_ & _ & _ & (p & ->) & n & EN & RR). exists fnd, f'. split; [exact ND|]. split; [exact S|]. split; [exact M|]. right.
        destruct f' as [c'|]; [|discriminate]. cbn in EN. injection EN as <-. rewrite view_rrsets in RR. exists c', ttl, p, r1. auto.
    Qed.

    Lemma wf_at d c' : walk r0 (rev d) = Some c' -> wf_node (view c').
    Proof. intros W. apply (proj1 WFT (d ++ z)). apply (at_in hash b roots T TI z r0 d _ IR). eauto. Qed.
    Lemma glue_at d c c' rs' : walk raw (rev d) = Some c -> walk r0 (rev d) = Some c' -> Forall2 (glue_rel hash z raw) (l_rrsets c) rs' -> rs' = l_rrsets c'.
    Proof. intros W W' F. destruct (node_ok _ _ _ _ CF _ _ _ L d c c' W W') as (_ & G & _). exact (glue_fun _ _ _ _ _ _ F G). Qed.
    Lemma found_walk t d c dl : search_dname_zone hash z raw t = Ok (AUTH, Some (d, c), dl) -> walk raw (rev d) = Some c.
    Proof.
      intros E. destruct (isinzone z t) eqn:I.
      - apply isinzone_iff in I. destruct I as (rel & ->). destruct (search_in _ _ _ _ hash64 _ _ _ L rel) as (st & found & dl' & E' & F & _). rewrite E in E'. injection E' as <- <- <-. unfold is_found in F.
        destruct (walk raw (rev rel)) as [c0|] eqn:W; [injection F as -> ->; exact W|]. destruct F as (_ & F). destruct (F eq_refl) as (p & l & c0 & k & _ & _ & _ & F'). destruct (walk raw (rev ([42] :: c0))) as [w|] eqn:W2; [|discriminate]. injection F' as -> ->. exact W2.
      - rewrite (search_out hash z raw t) in E; [discriminate|]. intros rel ->. rewrite (proj2 (isinzone_iff z (rel ++ z))) in I; [discriminate|]. eauto.
    Qed.
    Lemma alias_at d c t : walk raw (rev d) = Some c -> first_cname (l_rrsets c) = Ok (Some t) -> exists c' ttl, walk r0 (rev d) = Some c' /\ l_rrsets c = [RsCNAME ttl t] /\ l_rrsets c' = [RsCNAME ttl t] /\ legal_name t.
    Proof.
      intros W FC. destruct (both_raw _ _ _ _ _ _ _ L d c W) as (c' & W' & _). destruct (node_ok _ _ _ _ CF _ _ _ L d c c' W W') as (_ & G & AL & _).
      destruct (l_rrsets c) as [|s rest] eqn:EC; [discriminate|]. assert (X : exists ttl, s = RsCNAME ttl t).
      { destruct s; cbn [first_cname] in FC; try discriminate FC; [injection FC as ->; eauto|]. cbn [rrset_type] in FC. destruct (type =? T_CNAME); discriminate. }
      destruct X as (ttl & ->). inversion G as [|? s' ? rest' G1 F1 E1 E2]; subst. inversion G1; subst. symmetry in E2. exists c', ttl. split; [exact W'|].
      assert (E : l_rrsets c' = [RsCNAME ttl t]) by (apply AL; [rewrite E2; now left|now left]). rewrite E in E2. injection E2 as <-. inversion F1; subst. split; [reflexivity|]. split; [exact E|].
      destruct (wf_at d c' W') as (_ & WR & _). rewrite view_rrsets, E in WR. inversion WR. assumption.
    Qed.

    Lemma chase_grow fuel : forall depth rsize st found dl rsize' s', (st = AUTH -> forall d c, found = Some (d, c) -> walk raw (rev d) = Some c) ->
      chase_loop hash z fuel raw depth rsize (st, found, dl) = Ok (Some (rsize', s')) -> (depth <= MAX_CNAME_DEPTH)%nat -> rsize <= rsize' <= rsize + 267 * N.of_nat (MAX_CNAME_DEPTH - depth).
    Proof.
      induction fuel as [|fuel IH]; intros depth rsize st found dl rsize' s' FW H LE; [discriminate|]. cbn [chase_loop] in H.
      match type of H with rbind ?x _ = _ => destruct x as [next|] eqn:EN; [|discriminate] end. cbn [rbind] in H. destruct next as [t'|].
      - destruct (Nat.ltb_spec MAX_CNAME_DEPTH (S depth)) as [|LE']; [discriminate|]. destruct (search_dname_zone hash z raw t') as [((st', fd'), dl2)|] eqn:E'; [|discriminate]. cbn [rbind] in H.
        destruct st; try discriminate. destruct found as [(d, c)|]; [|discriminate]. destruct (alias_at d c t' (FW eq_refl d c eq_refl) EN) as (_ & ttl & _ & _ & _ & (_ & LT)).
        apply IH in H; [|intros -> d' c' ->; eapply found_walk; eauto|exact LE']. rewrite dlen_wl in H. lia.
      - injection H as <- <-. lia.
    Qed.

    Definition last_sets (s : status * option named * option named) : list rrset :=
      match s with (AUTH, Some (_, n), _) => l_rrsets n | (DELEG, _, Some (_, d)) => l_rrsets d | _ => [] end.

    Lemma chase_size fuel : forall depth rsize rel dl0 st found dl rsize' s' rs' total qt r,
      search_dname_zone hash z raw (rel ++ z) = Ok (st, found, dl) ->
      chase_loop hash z fuel raw depth rsize (st, found, match dl with Some _ => dl | None => dl0 end) = Ok (Some (rsize', s')) -> (depth <= MAX_CNAME_DEPTH)%nat ->
      Forall2 (glue_rel hash z raw) (last_sets s') rs' -> (forall s, In s rs' -> exists sz, p1_rrset_size cfg s false = Ok sz /\ sz <= total) ->
      resolves dyn chals no_chain (view T) (rel ++ z) qt r -> rsize + rep_size r <= rsize' + N.max total 10080 + rrs_size (r_chal r).
    Proof.
      assert (WR0 : wf_node (view r0)) by (apply (wf_at [] r0); reflexivity).
      induction fuel as [|fuel IH]; intros depth rsize rel dl0 st found dl rsize' s' rs' total qt r SR H LE GL SZ R; [discriminate|]. cbn [chase_loop] in H.
      match type of H with rbind ?x _ = _ => destruct x as [next|] eqn:EN; [|discriminate] end. cbn [rbind] in H.
      destruct (classify rel qt r R) as [(e & c & m & fnd & ttl & rd & ID & C & W & W' & S & IN & ->)|(fnd & f & ND & S & M & CL)].
      - rewrite SR in S. injection S as -> -> ->. injection EN as <-. injection H as <- <-. cbn [last_sets] in GL. rewrite (glue_at e c m rs' W W' GL) in SZ.
        destruct (SZ _ IN) as (sz & P & LS). destruct (wf_at e m W') as (_ & WR & _). rewrite view_rrsets, Forall_forall in WR. pose proof (set_size cfg dyn DW DL (e ++ z) _ false sz (WR _ IN) P (or_introl eq_refl)) as B.
        unfold set_bytes in B. unfold rep_size, deleg_rep. cbn [r_chain r_an r_chal r_ns r_ar]. change (rrs_size []) with 0. lia.
      - rewrite SR in S. injection S as -> -> ->. destruct next as [t|].
        + destruct (Nat.ltb_spec MAX_CNAME_DEPTH (S depth)) as [|LE']; [discriminate|]. destruct (search_dname_zone hash z raw t) as [((st', fd'), dl2)|] eqn:E'; [|discriminate]. cbn [rbind] in H.
          destruct fnd as [(d, c)|]; [|discriminate]. destruct f as [c'|]; [|contradiction]. destruct M as (W & W' & _). destruct (alias_at d c t W EN) as (c2 & ttl & W2 & _ & RC & LT). rewrite W' in W2. injection W2 as <-.
          destruct CL as [-> |(c2 & ttl2 & p & r1 & E2 & RR & R1 & ->)].
          * assert (FW : st' = AUTH -> forall d c, fd' = Some (d, c) -> walk raw (rev d) = Some c) by (intros -> d' k ->; eapply found_walk; eauto). pose proof (chase_grow fuel (S depth) _ _ _ _ _ _ FW H LE') as (GR & _). unfold final. cbn [option_map]. rewrite view_rrsets, RC. cbn [effective filter rrset_type].
            unfold rep_size. cbn [r_chain r_an r_chal r_ns r_ar N.eqb Pos.eqb flat_map records_of app T_CNAME]. rewrite andb_false_r. rewrite rrs_cons. change (rrs_size []) with 0. unfold rr_size. cbn [mk_rr rr_data fold_right piece_size]. rewrite dlen_wl in GR. lia.
          * injection E2 as <-. rewrite RC in RR. injection RR as <- ->. specialize (IH _ _ _ _ _ _ _ _ _ _ _ _ _ E' H LE' GL SZ R1). unfold chain_rep, rep_size in *. cbn [r_chain r_an r_chal r_ns r_ar] in *. rewrite rrs_cons. unfold rr_size. cbn [mk_rr rr_data fold_right piece_size]. rewrite dlen_wl in IH. lia.
        + injection H as <- <-. cbn [last_sets] in GL. destruct CL as [-> |(c2 & ttl2 & p & r1 & E2 & RR & R1 & ->)].
          * pose proof (final_size cfg dyn DW DL chals (rel ++ z) qt z (view r0) (option_map view f) total WR0) as B. match type of B with (?A -> _) => assert (X : A) end; [|specialize (B X); lia].
            destruct fnd as [(d, c)|], f as [c'|]; try contradiction; [|exact I]. destruct M as (W & W' & _). cbn [option_map]. split; [exact (wf_at d c' W')|]. rewrite view_rrsets. intros s IS _. apply SZ. rewrite (glue_at d c c' rs' W W' GL). exact IS.
          * exfalso. subst f. destruct fnd as [(d, c)|]; [|contradiction]. destruct M as (W & W' & _). rewrite (cname_raw cfg pl hash CF z rs raw r0 L d c c2 _ _ W W' RR) in EN. discriminate.
    Qed.

    (** the size of an answer whose name has an alias *)
    Lemma alias_size d c t p base rs1 soa rsize rs' total qt r : walk raw (rev d) = Some c -> first_cname (l_rrsets c) = Ok (Some t) -> t = p ++ z ->
      p1_chase_cname cfg hash z raw t base = Ok (Some (rs1, soa, rsize)) -> Forall2 (glue_rel hash z raw) rs1 rs' ->
      (forall s, In s rs' -> exists sz, p1_rrset_size cfg s false = Ok sz /\ sz <= total) -> resolves dyn chals no_chain (view T) t qt r ->
      base + (12 + dlen t) + rep_size r <= rsize + N.max total 10080 + rrs_size (r_chal r) /\ rsize <= base + (12 + dlen t) + 267 * 15.
    Proof.
      intros W FC Et CH GL SZ R. subst t. unfold p1_chase_cname in CH. destruct (search_dname_zone hash z raw (p ++ z)) as [((st, found), dl)|] eqn:E; [|discriminate]. cbn [rbind] in CH.
      assert (X : exists s', chase_loop hash z (S MAX_CNAME_DEPTH) raw 1 (base + (12 + dlen (p ++ z))) (st, found, dl) = Ok (Some (rsize, s')) /\ rs1 = last_sets s').
      { unfold zwarn_if, zwarn in CH. match type of CH with (if ?x then _ else _) = _ => destruct x end; [destruct (z_strict cfg); [discriminate|]|];
          apply zbind_ok in CH; destruct CH as ((rz, ((st', fd'), dl')) & CH & H); exists (st', fd', dl');
          (destruct st'; [injection H as <- _ <-; split; [exact CH|reflexivity]| |]);
          try (destruct (get_rrset (l_rrsets raw) T_SOA) as [[]|]; try discriminate H; injection H as <- _ <-; split; [exact CH|destruct fd' as [(d', n')|]; reflexivity]);
          (destruct dl' as [(e', k')|]; [|discriminate]; unfold rassert in H; destruct (match l_rrsets k' with [] => false | _ => true end); [|discriminate]; injection H as <- _ <-; split; [exact CH|destruct fd' as [(d', n')|]; reflexivity]). }
      destruct X as (s' & CL & ->). assert (FW : st = AUTH -> forall d c, found = Some (d, c) -> walk raw (rev d) = Some c) by (intros -> d' k ->; eapply found_walk; eauto).
      assert (L1 : (1 <= MAX_CNAME_DEPTH)%nat) by (apply Nat.leb_le; reflexivity).
      pose proof (chase_grow _ _ _ _ _ _ _ _ FW CL L1) as (_ & GR). split; [|exact GR].
      apply (chase_size (S MAX_CNAME_DEPTH) 1 (base + (12 + dlen (p ++ z))) p None st found dl rsize s' rs' total qt r E); [destruct dl; exact CL|exact L1|exact GL|exact SZ|exact R].
    Qed.
  End One.

  Variable pc : pcfg.
  Hypothesis SS : same_server cfg pc.
  Hypothesis NSID : (length (c_nsid pc) <= 128)%nat.

  Lemma base_room z n path at_deleg : p1_rsize_base cfg z n path at_deleg = 16 + opt_room pc + (if at_deleg || is_wild (l_label n) then 255 else dlen (path ++ z)).
  Proof.
    destruct SS as (S1 & S2 & S3). unfold p1_rsize_base, opt_room. rewrite S1, S2, S3.
    assert (E : dlen z + nsum (fun l => 1 + N.of_nat (length l)) path = dlen (path ++ z)).
    { rewrite !dlen_wl. induction path as [|l path IH]; [cbn [nsum fold_right app]; lia|]. rewrite nsum_cons. cbn [app]. rewrite wire_len_cons. lia. }
    rewrite E. destruct (c_nsid pc) as [|x xs]; [|replace (N.of_nat (length (x :: xs)) =? 0) with false by (symmetry; apply N.eqb_neq; cbn [length]; lia)];
      destruct (c_ecs pc), (c_disable_cookies pc), (at_deleg || is_wild (l_label n))%bool; cbn [negb length N.of_nat N.eqb]; lia.
  Qed.

  Theorem answer_size q qt r : legal_name q -> resolves dyn chals no_chain (view T) q qt r ->
    16 + dlen q + rep_size r + opt_room pc <= 16376 + rrs_size (r_chal r).
  Proof.
    intros (_ & LQ) R. pose proof (opt_room_max pc) as OR. rewrite dlen_wl.
    destruct (in_or_out roots q) as [(z & r0 & p & IR & ->)|O].
    - destruct (root_of cfg pl hash zs roots FL z r0 IR) as (rs & raw & _ & L). assert (WR0 : wf_node (view r0)) by (apply (wf_at z r0 IR [] r0); reflexivity).
      destruct (classify z rs raw r0 IR L p qt r R) as [(e & c & m & fnd & ttl & rd & ID & C & W & W' & S & IN & ->)|(fnd & f & ND & S & M & CL)].
      + destruct (both_raw _ _ _ _ _ _ _ L e c W) as (m' & W2 & ind & g & g' & IND & PH & _). rewrite W' in W2. injection W2 as <-.
        assert (I1 : ind = true) by (apply IND; exists [], e; auto). destruct (phase1_ok _ _ _ _ _ _ _ _ _ _ PH) as (DE & _ & cn & FC & CN). destruct (DE I1) as (l & pp & EP & _ & TY).
        destruct cn as [t|].
        { exfalso. destruct (l_rrsets c) as [|s rest] eqn:EC; [discriminate|]. destruct (TY s (or_introl eq_refl)) as [Q|[Q|(Q & _)]]; destruct s; cbn [first_cname rrset_type] in *; try discriminate FC; try discriminate Q; subst; discriminate FC. }
        destruct CN as (total & GL & SZ & LE). destruct (SZ _ IN) as (sz & P & LS). destruct (wf_at z r0 IR e m W') as (_ & WR & _). rewrite view_rrsets, Forall_forall in WR.
        pose proof (set_size cfg dyn DW DL (e ++ z) _ ind sz (WR _ IN) P (or_intror eq_refl)) as B. unfold set_bytes in B.
        assert (CB : cutb c e = true). { unfold cutb. rewrite (proj2 (zcut_raw _ _ _ _ _ _ _ L e c W) (or_intror C)), EP. reflexivity. }
        rewrite base_room, CB in LE. cbn [orb] in LE. unfold MAX_RESPONSE_DATA in LE. unfold rep_size, deleg_rep. cbn [r_chain r_an r_chal r_ns r_ar]. change (rrs_size []) with 0. lia.
      + destruct fnd as [(d, c)|], f as [c'|]; try contradiction.
        * destruct M as (W & W' & DD). destruct (both_raw _ _ _ _ _ _ _ L d c W) as (c2 & W2 & ind & g & g' & IND & PH & _). rewrite W' in W2. injection W2 as <-.
          assert (I0 : ind = false).
          { destruct ind; [|reflexivity]. exfalso. assert (ID : in_deleg rs d) by now apply IND. destruct DD as [->|HW]; [contradiction|]. destruct (node_ok _ _ _ _ CF _ _ _ L d c c' W W') as (_ & _ & _ & X). now apply X in ID. }
          subst ind. destruct (phase1_ok _ _ _ _ _ _ _ _ _ _ PH) as (_ & _ & cn & FC & CN).
          assert (BB : 16 + N.of_nat (wire_len (p ++ z)) + opt_room pc <= p1_rsize_base cfg z c d (cutb c d) <= 271 + opt_room pc).
          { rewrite base_room, dlen_wl. destruct (cutb c d || is_wild (l_label c))%bool eqn:Q; [lia|]. destruct DD as [->|HW]; [lia|]. exfalso.
            rewrite (label_raw _ _ _ _ _ _ _ L d c W) in Q. destruct d as [|l d]; [discriminate|]. cbn in HW. injection HW as ->. cbn in Q. rewrite orb_true_r in Q. discriminate. }
          destruct CL as [-> |(k & ttl & p1 & r1 & EK & RR & R1 & ->)].
          -- pose proof (final_size cfg dyn DW DL chals (p ++ z) qt z (view r0) (option_map view (Some c'))) as B. cbn [option_map] in *. destruct cn as [t|].
             ++ specialize (B 0 WR0). assert (X : rep_size (final dyn chals (p ++ z) qt z (view r0) (Some (view c'))) <= N.max 0 10080 + rrs_size (r_chal (final dyn chals (p ++ z) qt z (view r0) (Some (view c'))))); [|lia].
                apply B. split; [exact (wf_at z r0 IR d c' W')|]. destruct (alias_at z rs raw r0 IR L d c t W FC) as (c2 & ttl & W2 & _ & RC & _). rewrite W' in W2. injection W2 as <-. rewrite view_rrsets, RC. intros s [<-|[]] Q. now elim Q.
             ++ destruct CN as (total & GL & SZ & LE). unfold MAX_RESPONSE_DATA in LE. specialize (B total WR0). assert (X : rep_size (final dyn chals (p ++ z) qt z (view r0) (Some (view c'))) <= N.max total 10080 + rrs_size (r_chal (final dyn chals (p ++ z) qt z (view r0) (Some (view c'))))); [|lia].
                apply B. split; [exact (wf_at z r0 IR d c' W')|]. rewrite view_rrsets. intros s IS _. now apply SZ.
          -- injection EK as <-. pose proof (cname_raw cfg pl hash CF z rs raw r0 L d c c' _ _ W W' RR) as RC. assert (FC2 := FC). rewrite RC in FC2. injection FC2 as <-.
             destruct CN as (_ & rs1 & soa & rsize & rs' & total & CH & GL & LS & SZ & LE). unfold MAX_RESPONSE_DATA in LE.
             destruct (alias_size z rs raw r0 IR L d c _ p1 _ rs1 soa rsize rs' total qt r1 W FC eq_refl CH GL SZ R1) as (B1 & B2).
             destruct (alias_at z rs raw r0 IR L d c _ W FC) as (_ & _ & _ & _ & _ & (_ & LT)). rewrite dlen_wl in B1, B2.
             unfold chain_rep, rep_size in *. cbn [r_chain r_an r_chal r_ns r_ar] in *. rewrite rrs_cons. unfold rr_size. cbn [mk_rr rr_data fold_right piece_size]. lia.
        * pose proof (final_size cfg dyn DW DL chals (p ++ z) qt z (view r0) None 0 WR0 I) as B. cbn [option_map] in CL. destruct CL as [-> |(k & ttl & p1 & r1 & EK & _)]; [lia|discriminate].
    - assert (NZ : forall z zn, ~ zone_of (view T) q z zn).
      { intros z zn ZO. destruct (zone_of_root hash hash64 b roots T TI q z zn ZO) as (r0 & IR & _). destruct ZO as (((p & E) & _) & _). exact (O p z r0 IR E). }
      inversion R as [q0 qt0 NZ'|q0 qt0 d dn ttl rd DE HN|q0 qt0 z' zn f IZ NF|q0 qt0 z' zn f ttl t r1 IZ FO R1]; subst.
      + unfold rep_size. cbn [r_chain r_an r_chal r_ns r_ar]. change (rrs_size []) with 0. lia.
      + exfalso. destruct DE as (z' & zn & ZO & _). exact (NZ _ _ ZO).
      + exfalso. exact (NZ _ _ (proj1 IZ)).
      + exfalso. exact (NZ _ _ (proj1 IZ)).
  Qed.
End Tree.
