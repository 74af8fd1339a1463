(** The rules a loaded zone keeps, and what it holds. *)
From Coq Require Import Sorting.Permutation.
From Verif Require Import Base DnameSpec DnameModel RandModel CompModel RespModel RespSpec LtreeModel LtreeSpec LtreeProofs LtreeProofs2 LtreeProofs3 LtreeProofs4 LtreeProofs5 LtreeProofs6 LtreeProofs7 LtreeProofs8 LtreeProofs9 LtreeProofs10.
Local Open Scope N_scope.
Ltac Zify.zify_post_hook ::= idtac.

Section Zone.
  Variable cfg : zcfg.
  Variable pl : plugins.
  Variable hash : list N -> N.
  Variable zname : name.
  Hypothesis hash64 : forall l, hash l < W64.
  Hypothesis CF : cfg_fine cfg.
  Notation set_is := (set_is cfg pl zname).
  Notation sets_are := (sets_are cfg pl zname).

  Lemma Forall2_in_r {X Y} (R : X -> Y -> Prop) a b y : Forall2 R a b -> In y b -> exists x, In x a /\ R x y.
  Proof. induction 1 as [|x y0 a b H F IH]; intros IN; [destruct IN|]. destruct IN as [<-|IN]; [exists x; split; [now left|exact H]|]. destruct (IH IN) as (x0 & I & K). exists x0. split; [now right|exact K]. Qed.
  Lemma Forall2_in_l {X Y} (R : X -> Y -> Prop) a b x : Forall2 R a b -> In x a -> exists y, In y b /\ R x y.
  Proof. induction 1 as [|x0 y a b H F IH]; intros IN; [destruct IN|]. destruct IN as [<-|IN]; [exists y; split; [now left|exact H]|]. destruct (IH IN) as (y0 & I & K). exists y0. split; [now right|exact K]. Qed.

  Lemma ns_rel_fst root rd rd' : Forall2 (ns_rel hash zname root) rd rd' -> map (fun y => Some (fst (fst y))) rd' = map (fun y => Some (fst (fst y))) rd.
  Proof. induction 1 as [|x y a b (H & _) F IH]; [reflexivity|]. cbn [map]. now rewrite IH, H. Qed.
  Lemma glue_set_is root l s s' : glue_rel hash zname root s s' -> set_is l s -> set_is l s'.
  Proof. intros G S. destruct G as [t rd rd' F|s A B]; [|exact S]. inversion S; subst. constructor. rewrite (ns_rel_fst _ _ _ F). assumption. Qed.
  Lemma glue_types root sets sets' : Forall2 (glue_rel hash zname root) sets sets' -> map rrset_type sets' = map rrset_type sets.
  Proof. induction 1 as [|x y a b H F IH]; [reflexivity|]. cbn [map]. now rewrite IH, (glue_type _ _ _ _ _ H). Qed.
  Lemma glue_sets_are root l sets sets' : Forall2 (glue_rel hash zname root) sets sets' -> sets_are l sets -> sets_are l sets'.
  Proof.
    intros F (S1 & S2 & S3). split; [now rewrite (glue_types _ _ _ F)|]. split.
    - intros s' IN. destruct (Forall2_in_r _ _ _ _ F IN) as (s & IS & G). rewrite (glue_type _ _ _ _ _ G). eapply glue_set_is; eauto.
    - intros r t IR IT. destruct (S3 r t IR IT) as (s & IS & TS). destruct (Forall2_in_l _ _ _ _ F IS) as (s' & IS' & G). exists s'. split; [exact IS'|]. rewrite <- TS. eapply glue_type; eauto.
  Qed.
  Lemma set_is_ne l s : set_is l s -> l <> [].
  Proof. intros H. inversion H; discriminate. Qed.

  Section Loaded.
    Variable rs : list record.
    Variable raw root' : lnode.
    Hypothesis L : loaded cfg pl hash zname rs raw root'.

    Lemma owner_proper r d p : In r rs -> owner r = Some (p ++ d) -> proper d.
    Proof. intros IN O. destruct (fine_in _ _ _ _ _ _ _ L r IN) as (F & _). rewrite O in F. apply legal_proper in F. apply proper_app in F. destruct F as (F & _). apply proper_app in F. apply F. Qed.
    Lemma cut_proper d : cut rs d -> proper d.
    Proof. intros (_ & n & ttl & IN). apply (owner_proper _ d [] IN). reflexivity. Qed.

    (** the tree has a node for every name that exists, and for no other *)
    Lemma exists_iff d : proper d -> (exists c, walk raw (rev d) = Some c) <-> name_exists rs d.
    Proof.
      intros PD. unfold name_exists. split.
      - intros (c & W). destruct (at_raw _ _ _ _ CF _ _ _ L d c W) as (_ & _ & _ & _ & _ & E). destruct E as [E|(r & p & IN & E)]; [now left|]. destruct d as [|l d]; [now left|]. right. exists r, p. split; [exact IN|].
        apply opath_proper; [exact PD|discriminate|exact E].
      - intros [->|(r & p & IN & E)]; [cbn; eauto|]. apply (in_raw _ _ _ _ _ _ _ L r p d IN). now apply owner_some.
    Qed.

    (** what phase 1 leaves at a node *)
    Lemma node_ok d c c' : walk raw (rev d) = Some c -> walk root' (rev d) = Some c' ->
      sets_are (here d rs) (l_rrsets c') /\
      Forall2 (glue_rel hash zname raw) (l_rrsets c) (l_rrsets c') /\
      (forall s, In s (l_rrsets c') -> alias (rrset_type s) -> l_rrsets c' = [s]) /\
      (in_deleg rs d -> hd_error d <> Some [42] /\ forall s, In s (l_rrsets c') -> rrset_type s = 1 \/ rrset_type s = 28 \/ (rrset_type s = 2 /\ cut rs d)).
    Proof.
      intros W W'. destruct (at_raw _ _ _ _ CF _ _ _ L d c W) as ((PA & SN) & _ & _ & _ & AF & _). destruct (both_some _ _ _ _ _ _ _ L d c' W') as (c0 & W0 & ind & g & g' & IND & PH & _). assert (c0 = c) by congruence. subst c0.
      pose proof (phase1_ok _ _ _ _ _ _ _ _ _ _ PH) as (DE & AL & cn & FC & CN).
      assert (ALR : forall s, In s (l_rrsets c) -> alias (rrset_type s) -> l_rrsets c = [s]).
      { intros s IS A. destruct (in_split _ _ IS) as (a & b & E). rewrite E, map_app in AF. specialize (AF _ _ _ eq_refl A). destruct a; [|discriminate]. cbn in E. destruct b as [|s2 b]; [exact E|].
        destruct (AL _ _ _ E) as (A1 & A2). destruct A; [exfalso; now apply A1|exfalso; now apply A2]. }
      assert (GL : Forall2 (glue_rel hash zname raw) (l_rrsets c) (l_rrsets c')).
      { destruct cn as [t|]; [|destruct CN as (tot & CN & _); exact CN]. destruct CN as (E & _). unfold first_cname in FC. destruct (l_rrsets c) as [|s rest] eqn:EC; [discriminate|].
        assert (ES : exists ttl, s = RsCNAME ttl t).
        { destruct s; try discriminate FC; try (injection FC as <-; eauto). match type of FC with context [?x =? ?y] => destruct (x =? y); discriminate end. }
        destruct ES as (ttl & ->). assert (X : RsCNAME ttl t :: rest = [RsCNAME ttl t]) by (apply ALR; [now left|now left]). rewrite E, X. constructor; [|constructor]. constructor; discriminate. }
      split; [eapply glue_sets_are; eauto|]. split; [exact GL|]. split.
      - intros s' IS' A. destruct (Forall2_in_r _ _ _ _ GL IS') as (s & IS & G). rewrite (glue_type _ _ _ _ _ G) in A. pose proof (ALR s IS A) as X. rewrite X in GL. inversion GL as [|x y a b H F E1 E2]. subst x a. inversion F. subst b. rewrite <- E2 in IS'. destruct IS' as [<-|[]]. reflexivity.
      - intros ID. apply IND in ID. destruct (DE ID) as (l & p & -> & NW & TS). split; [cbn; congruence|]. intros s' IS'. destruct (Forall2_in_r _ _ _ _ GL IS') as (s & IS & G). rewrite (glue_type _ _ _ _ _ G). destruct (TS s IS) as [X|[X|(X & CB)]]; auto. right. right. split; [exact X|]. now apply (cutb_raw _ _ _ _ _ _ _ L _ _ W).
    Qed.

    Lemma ns_record d c' ttl rd n g4 g6 : walk root' (rev d) = Some c' -> In (RsNS ttl rd) (l_rrsets c') -> In (n, g4, g6) rd ->
      exists t, In (ANs d n t) rs.
    Proof.
      intros W' IS IN. destruct (both_some _ _ _ _ _ _ _ L d c' W') as (c & W & _). destruct (node_ok d c c' W W') as ((_ & SI & _) & _). specialize (SI _ IS). inversion SI; subst.
      match goal with H : map ns_of _ = _ |- _ => rename H into M end. apply (in_map (fun y => Some (fst (fst y)))) in IN. rewrite <- M in IN. cbn [fst] in IN. apply in_map_iff in IN. destruct IN as (r0 & E & IN). destruct r0; try discriminate. cbn in E. injection E as ->.
      match goal with H : _ :: _ = recs_of _ _ |- _ => rewrite H in IN end. apply in_recs_of in IN. destruct IN as (IN & _). apply in_here in IN. destruct IN as (IN & O). cbn in O. subst. eauto.
    Qed.
    Lemma ns_glue d c' ttl rd n g4 g6 : walk root' (rev d) = Some c' -> In (RsNS ttl rd) (l_rrsets c') -> In (n, g4, g6) rd ->
      legal_name n /\ exists used, p1_proc_ns hash zname raw n = Ok (Some (g4, g6, used)).
    Proof.
      intros W' IS IN. destruct (ns_record _ _ _ _ _ _ _ W' IS IN) as (t & IR). destruct (fine_in _ _ _ _ _ _ _ L _ IR) as (_ & LN). cbn in LN. split; [exact LN|].
      destruct (both_some _ _ _ _ _ _ _ L d c' W') as (c & W & _). destruct (node_ok d c c' W W') as (_ & GL & _). destruct (Forall2_in_r _ _ _ _ GL IS) as (s & _ & G).
      inversion G as [t0 rd0 rd1 F E1 E2|s0 A B E1 E2].
      - subst. destruct (Forall2_in_r _ _ _ _ F IN) as (x & _ & (E & used & PN)). cbn [fst snd] in *. exists used. congruence.
      - subst. now elim (A ttl rd).
    Qed.

    (** ** Each name *)
    Lemma holds d c' : proper d -> walk root' (rev d) = Some c' -> name_holds cfg pl zname rs d (get_zcut c') (l_rrsets c').
    Proof.
      intros PD W'. destruct (both_some _ _ _ _ _ _ _ L d c' W') as (c & W & ind & g & g' & _ & _ & CA & _). destruct (node_ok d c c' W W') as (SA & _). rewrite (here_at d rs PD) in SA. split; [exact SA|]. split.
      - rewrite <- (zcut_raw _ _ _ _ _ _ _ L d c W). unfold get_zcut. now rewrite CA.
      - intros ttl rd n g4 g6 IS IN. destruct (ns_glue _ _ _ _ _ _ _ W' IS IN) as (LN & used & PN). exact (proj1 (proc_ns_spec _ _ _ _ hash64 CF _ _ _ L n g4 g6 used LN PN)).
    Qed.

    (** ** The rules *)
    Lemma at_record r d : In r rs -> owner r = Some d -> exists c c', walk raw (rev d) = Some c /\ walk root' (rev d) = Some c' /\ In r (recs_at d rs) /\ recs_at d rs = here d rs /\ proper d.
    Proof.
      intros IN O. assert (PD : proper d) by (apply (owner_proper r d []); [exact IN|exact O]). destruct (in_raw _ _ _ _ _ _ _ L r [] d IN (owner_some r d O)) as (c & W). destruct (both_raw _ _ _ _ _ _ _ L d c W) as (c' & W' & _).
      exists c, c'. split; [exact W|]. split; [exact W'|]. split; [apply in_recs_at; auto|]. split; [symmetry; now apply here_at|exact PD].
    Qed.
    Lemma all_here (Q : record -> Prop) : (forall d c, walk raw (rev d) = Some c -> Forall Q (here d rs)) -> Forall Q rs.
    Proof.
      intros H. apply Forall_forall. intros r IN. destruct (in_raw _ _ _ _ _ _ _ L r [] (opath r) IN eq_refl) as (c & W). specialize (H _ _ W). rewrite Forall_forall in H. apply H. apply in_here. auto.
    Qed.
    Lemma zone_rules_ok : zone_rules cfg pl zname rs.
    Proof.
      assert (NR : forall d, proper d -> (exists c, walk raw (rev d) = Some c) \/ recs_at d rs = []).
      { intros d PD. destruct (walk raw (rev d)) as [c|] eqn:W; [left; eauto|right]. rewrite <- (here_at d rs PD). now apply (raw_none _ _ _ _ _ _ _ L). }
      assert (SOA6 : forall r, In r rs -> In 6 (rtypes r) -> owner r = Some []).
      { intros r IN T. destruct (in_raw _ _ _ _ _ _ _ L r [] (opath r) IN eq_refl) as (c & W). destruct (at_raw _ _ _ _ CF _ _ _ L _ _ W) as (_ & _ & AL & _). rewrite Forall_forall in AL. specialize (AL r (proj2 (in_here _ _ _) (conj IN eq_refl))).
        destruct (fine_in _ _ _ _ _ _ _ L r IN) as (_ & F). destruct r; cbn in T; try (destruct T as [T|T]; [discriminate|]); try contradiction; try (destruct T as [T|T]; [discriminate|contradiction]).
        - cbn in F. destruct F as (-> & _). reflexivity.
        - cbn in AL. destruct T as [->|[]]. exfalso. apply AL. cbn. tauto. }
      assert (Z1 : exists s, In s (l_rrsets raw) /\ rrset_type s = 6) by
        (pose proof (ld_z1 _ _ _ _ _ _ _ L) as Z; unfold zroot_phase1 in Z; destruct (get_rrset (rev (l_rrsets raw)) T_SOA) as [s|] eqn:G; [|discriminate]; apply get_in in G; destruct G as (G1 & G2); apply in_rev in G1; eauto).
      assert (Z2 : exists s, In s (l_rrsets raw) /\ rrset_type s = 2).
      { pose proof (ld_z1 _ _ _ _ _ _ _ L) as Z. unfold zroot_phase1 in Z. destruct (get_rrset (rev (l_rrsets raw)) T_SOA) as [s0|]; [|discriminate]. destruct (get_rrset (rev (l_rrsets raw)) T_NS) as [s|] eqn:G; [|destruct s0; discriminate]. apply get_in in G. destruct G as (G1 & G2). apply in_rev in G1. eauto. }
      destruct (at_raw _ _ _ _ CF _ _ _ L [] raw eq_refl) as (((_ & RI & _) & RSN) & _). rewrite (here_at [] rs (Forall_nil _)) in RI.
      constructor.
      - apply all_here. intros d c W. apply (at_raw _ _ _ _ CF _ _ _ L d c W).
      - intros ST. apply all_here. intros d c W. now apply (at_raw _ _ _ _ CF _ _ _ L d c W).
      - destruct Z1 as (s & IS & TS). specialize (RI s IS). rewrite TS in RI.
        assert (E : recs_of 6 rs = recs_of 6 (recs_at [] rs)).
        { clear - SOA6. induction rs as [|r l IH]; [reflexivity|]. cbn [recs_of recs_at filter]. assert (IHl : recs_of 6 l = recs_of 6 (recs_at [] l)) by (apply IH; intros r0 I0; apply SOA6; now right).
          destruct (of_type 6 r) eqn:T.
          - apply of_type_iff in T. pose proof (SOA6 r (or_introl eq_refl) T) as O. unfold has_owner at 1. rewrite O. destruct (name_dec [] []) as [_|X]; [|congruence]. cbn [filter]. rewrite (proj2 (of_type_iff 6 r) T). f_equal. exact IHl.
          - unfold has_owner at 1. destruct (match owner r with Some o => if name_dec o [] then true else false | None => false end); [cbn [filter]; rewrite T|]; exact IHl. }
        rewrite E. destruct (ext_kind _ RSN _ IS) as (_ & _ & K & _). destruct (K TS) as (t & m & rn & n & ->). inversion RI; subst. eauto.
      - destruct Z2 as (s & IS & TS). specialize (RI s IS). rewrite TS in RI. now apply set_is_ne in RI.
      - intros d. destruct (recs_at d rs) as [|r0 rest] eqn:ER; [cbn; lia|]. assert (I0 : In r0 (recs_at d rs)) by (rewrite ER; now left). apply in_recs_at in I0. destruct I0 as (I0 & O0). destruct (at_record r0 d I0 O0) as (c & c' & W & _ & _ & E & _). rewrite <- ER, E.
        apply (at_raw _ _ _ _ CF _ _ _ L d c W).
      - intros d r IR T. pose proof IR as IR0. apply in_recs_at in IR. destruct IR as (IN & O). destruct (at_record r d IN O) as (c & c' & W & W' & _ & E & PD). destruct (node_ok d c c' W W') as ((ND & SI & CO) & GL & AL & _). rewrite <- E in *.
        assert (X : exists t, In t (rtypes r) /\ alias t) by (destruct T as [T|T]; [exists 5|exists 65295]; split; auto; [now left|now right]). destruct X as (t & TI & TA).
        destruct (CO r t IR0 TI) as (s & IS & TS). assert (A : l_rrsets c' = [s]) by (apply AL; [exact IS|now rewrite TS]).
        assert (ALL : recs_of t (recs_at d rs) = recs_at d rs).
        { unfold recs_of. set (l := recs_at d rs) in *. assert (F : forall r0, In r0 l -> of_type t r0 = true).
          { intros r0 I0. apply of_type_iff. assert (HT : exists t0, In t0 (rtypes r0)) by (destruct r0; cbn; eauto). destruct HT as (t0 & HT). destruct (CO r0 t0 I0 HT) as (s0 & IS0 & TS0). rewrite A in IS0. destruct IS0 as [<-|[]]. now rewrite <- TS, TS0. }
          clear - F. induction l as [|a l IH]; [reflexivity|]. cbn [filter]. rewrite (F a (or_introl eq_refl)). f_equal. apply IH. intros; apply F; now right. }
        specialize (SI s IS). rewrite TS in SI. rewrite ALL in SI.
        assert (OK : exists r1, recs_at d rs = [r1]).
        { destruct (Forall2_in_r _ _ _ _ GL IS) as (s1 & IS1 & G1). destruct (at_raw _ _ _ _ CF _ _ _ L d c W) as ((_ & SN) & _). destruct (ext_kind _ SN _ IS1) as (_ & _ & _ & K5 & _ & _ & _ & _ & _ & _ & KD & _). rewrite <- (glue_type _ _ _ _ _ G1), TS in K5, KD.
          destruct TA as [->| ->].
          - destruct (K5 eq_refl) as (a & b & ->). inversion G1; subst. inversion SI; subst. eauto.
          - destruct (KD eq_refl) as (a & b & i & ->). inversion G1; subst. inversion SI; subst. eauto. }
        destruct OK as (r1 & OK). rewrite OK in *. destruct IR0 as [<-|[]]. reflexivity.
      - intros d rhs ttl mn IN. destruct (at_record _ d IN eq_refl) as (c & c' & W & W' & IR & E & PD). destruct (node_ok d c c' W W') as ((ND & SI & CO) & GL & _). rewrite <- E in *.
        destruct (at_raw _ _ _ _ CF _ _ _ L d c W) as ((_ & SN) & _).
        split.
        + destruct (CO _ 1 IR) as (s & IS & TS); [now left|]. specialize (SI s IS). rewrite TS in SI.
          assert (IT : In (ADyna d rhs ttl mn) (recs_of 1 (recs_at d rs))) by (apply in_recs_of; split; [exact IR|now left]).
          destruct (Forall2_in_r _ _ _ _ GL IS) as (s1 & IS1 & G1). destruct (ext_kind _ SN _ IS1) as (K & _). rewrite <- (glue_type _ _ _ _ _ G1), TS in K. destruct (K eq_refl) as [(t & a & ->)|(t & m & i & ->)].
          * inversion G1; subst. inversion SI as [r l x M E1 E2| | | | | | | | | | | | |]. subst. rewrite E1 in M. apply (in_map a_of) in IT. rewrite M in IT. apply in_map_iff in IT. destruct IT as (y & Y & _). discriminate.
          * inversion G1; subst. inversion SI as [| |d0 rhs0 ttl0 mn0 id RI0 E1 E2| | | | | | | | | | |]. subst. rewrite <- E1 in IT. destruct IT as [<-|[]]. reflexivity.
        + destruct (CO _ 28 IR) as (s & IS & TS); [right; now left|]. specialize (SI s IS). rewrite TS in SI.
          assert (IT : In (ADyna d rhs ttl mn) (recs_of 28 (recs_at d rs))) by (apply in_recs_of; split; [exact IR|right; now left]).
          destruct (Forall2_in_r _ _ _ _ GL IS) as (s1 & IS1 & G1). destruct (ext_kind _ SN _ IS1) as (_ & K & _). rewrite <- (glue_type _ _ _ _ _ G1), TS in K. destruct (K eq_refl) as [(t & a & ->)|(t & m & i & ->)].
          * inversion G1; subst. inversion SI as [|r l x M E1 E2| | | | | | | | | | | |]. subst. rewrite E1 in M. apply (in_map aaaa_of) in IT. rewrite M in IT. apply in_map_iff in IT. destruct IT as (y & Y & _). discriminate.
          * inversion G1; subst. inversion SI as [| | |d0 rhs0 ttl0 mn0 id RI0 E1 E2| | | | | | | | | |]. subst. rewrite <- E1 in IT. destruct IT as [<-|[]]. reflexivity.
      - intros r p e IN O C. split.
        + intros I42. apply in_split in I42. destruct I42 as (p1 & p2 & ->). destruct (in_raw _ _ _ _ _ _ _ L r p1 ([42] :: p2 ++ e) IN) as (c & W); [rewrite (owner_some _ _ O), <- app_assoc; reflexivity|].
          destruct (both_raw _ _ _ _ _ _ _ L _ c W) as (c' & W' & _). destruct (node_ok _ c c' W W') as (_ & _ & _ & DE). destruct DE as (DE & _); [exists ([42] :: p2), e; auto|]. now apply DE.
        + intros t TI. destruct (at_record r _ IN O) as (c & c' & W & W' & IR & E & PD). destruct (node_ok _ c c' W W') as ((_ & _ & CO) & _ & _ & DE). destruct DE as (_ & DE); [exists p, e; auto|]. rewrite <- E in CO. destruct (CO r t IR TI) as (s & IS & TS). destruct (DE s IS) as [X|[X|(X & CD)]].
          * left. congruence.
          * right. left. congruence.
          * right. right. split; [congruence|]. destruct (both_raw _ _ _ _ _ _ _ L _ c W) as (c1 & _ & ind & g & g' & _ & _ & _ & _ & NN). now apply (NN p e eq_refl C).
      - intros d n ttl rel IN E D. destruct (at_record _ d IN eq_refl) as (c & c' & W & W' & IR & EH & PD). destruct (node_ok _ c c' W W') as ((_ & SI & CO) & GL & _). rewrite <- EH in *. destruct (CO _ 2 IR) as (s & IS & TS); [now left|]. specialize (SI s IS). rewrite TS in SI.
        destruct (Forall2_in_r _ _ _ _ GL IS) as (s1 & IS1 & G1). destruct (at_raw _ _ _ _ CF _ _ _ L d c W) as ((_ & SN) & _). destruct (ext_kind _ SN _ IS1) as (_ & _ & _ & _ & K & _). rewrite <- (glue_type _ _ _ _ _ G1), TS in K. destruct (K eq_refl) as (t & rd0 & ->).
        inversion G1 as [t1 rda rd F|s2 A B]; [|now elim (A t rd0)]. subst. inversion SI as [| | | | | | | |r l x M E1 E2| | | | |]. subst.
        assert (IT : In (ANs d (rel ++ zname) ttl) (recs_of 2 (recs_at d rs))) by (apply in_recs_of; split; [exact IR|now left]). rewrite E1 in M. apply (in_map ns_of) in IT. rewrite M in IT. apply in_map_iff in IT. destruct IT as (((n0, g4), g6) & Y & IX). cbn in Y. injection Y as ->.
        destruct (ns_glue _ _ _ _ _ _ _ W' IS IX) as (LN & used & PN). exact (proj2 (proc_ns_spec _ _ _ _ hash64 CF _ _ _ L _ _ _ _ LN PN) rel eq_refl D).
    Qed.
  End Loaded.
End Zone.
