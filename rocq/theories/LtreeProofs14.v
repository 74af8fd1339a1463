(** Aliases in loaded zones: the checks of phase 1 and the served tree. *)
From Coq Require Import Sorting.Permutation.
From Verif Require Import Base DnameSpec DnameModel RandModel CompModel RespModel RespSpec RespProofs3 RespProofs4 LtreeModel LtreeSpec LtreeProofs LtreeProofs2 LtreeProofs3 LtreeProofs4 LtreeProofs5 LtreeProofs6 LtreeProofs7 LtreeProofs8 LtreeProofs9 LtreeProofs10 LtreeProofs11 LtreeProofs12 LtreeProofs13.
Local Open Scope N_scope.
Ltac Zify.zify_post_hook ::= idtac.

Section Tree.
  Variable cfg : zcfg.
  Variable pl : plugins.
  Variable hash : list N -> N.
  Hypothesis hash64 : forall l, hash l < W64.
  Hypothesis CF : cfg_fine cfg.
  Variable zs : list (name * list record).
  Variable b : N.
  Variable roots : list (name * lnode).
  Variable T : lnode.
  Hypothesis TI : tree_inv hash b roots T.
  Hypothesis FL : Forall2 (is_loaded cfg pl hash) zs roots.

  Section One.
    Variable z : name.
    Variable rs : list record.
    Variable raw r : lnode.
    Hypothesis IR : In (z, r) roots.
    Hypothesis L : loaded cfg pl hash z rs raw r.

    Lemma cuts_are rel z' n' : cut_above (view T) (rel ++ z) z' n' ->
      (z' = z /\ n' = view r) \/ exists p e m, rel = p ++ e /\ z' = e ++ z /\ cut rs e /\ walk r (rev e) = Some m /\ n' = view m.
    Proof.
      intros ((p & E) & A & Z). destruct (zcut_in hash b roots T TI z' n' A Z) as (z0 & r0 & d & c & I0 & E0 & W & ->).
      assert (X0 : z0 = z /\ r0 = r).
      { subst z'. rewrite app_assoc in E. destruct (two_suffixes _ _ _ _ E) as [(x & X)|(x & X)].
        - destruct (ti_apart _ _ _ _ TI z r z0 r0 x IR I0 X) as (-> & ->). now rewrite X.
        - destruct (ti_apart _ _ _ _ TI z0 r0 z r x I0 IR X) as (-> & ->). now rewrite X. }
      destruct X0 as (-> & ->). subst z'. destruct d as [|l d]; [left; cbn in W; injection W as <-; auto|]. right. exists p, (l :: d), c.
      split; [rewrite app_assoc in E; now apply app_inv_tail in E|]. split; [reflexivity|]. split; [|auto].
      destruct (both_some _ _ _ _ _ _ _ L (l :: d) c W) as (c0 & W0 & ind & g & g' & _ & _ & CA & _). rewrite view_zcut in Z. unfold get_zcut in Z. rewrite CA in Z. apply (zcut_raw _ _ _ _ _ _ _ L (l :: d) c0 W0) in Z. destruct Z as [X|C]; [discriminate|exact C].
    Qed.
    Lemma cut_is rel p e : rel = p ++ e -> cut rs e -> exists c m, walk raw (rev e) = Some c /\ walk r (rev e) = Some m /\ cut_above (view T) (rel ++ z) (e ++ z) (view m).
    Proof.
      intros -> C. destruct (cut_walk _ _ _ _ _ _ _ L e C) as (c & W). destruct (both_raw _ _ _ _ _ _ _ L e c W) as (m & W' & ind & g & g' & _ & _ & CA & _). exists c, m. split; [exact W|]. split; [exact W'|].
      split; [exists p; now rewrite app_assoc|]. split; [apply (at_in hash b roots T TI z r e _ IR); eauto|]. rewrite view_zcut. unfold get_zcut. rewrite CA. apply (zcut_raw _ _ _ _ _ _ _ L e c W). now right.
    Qed.

    Lemma locate rel : ~ in_deleg rs rel -> exists fnd f, search_dname_zone hash z raw (rel ++ z) = Ok (AUTH, fnd, None) /\
      in_zone (view T) (rel ++ z) z (view r) (option_map view f) /\
      match fnd, f with
      | None, None => True
      | Some (d, c), Some c' => walk raw (rev d) = Some c /\ walk r (rev d) = Some c' /\ (d = rel \/ hd_error d = Some [42])
      | _, _ => False
      end.
    Proof.
      intros ND. destruct (search_in _ _ _ _ hash64 _ _ _ L rel) as (st & found & dl & E & F & D).
      destruct D as [(-> & _ & ->)|(_ & p & e & m & E1 & C & _)]; [|exfalso; apply ND; exists p, e; auto].
      assert (ZO : zone_of (view T) (rel ++ z) z (view r)) by (apply (root_zone_of hash b roots T TI z r _ rel IR); reflexivity).
      assert (OC : forall z' n', cut_above (view T) (rel ++ z) z' n' -> z' = z).
      { intros z' n' CA. destruct (cuts_are _ _ _ CA) as [(-> & _)|(p & e & m & E1 & _ & C & _)]; [reflexivity|]. exfalso. apply ND. exists p, e. auto. }
      assert (NO : forall d, walk raw (rev d) = None -> forall n, ~ at_name (view T) (d ++ z) n).
      { intros d W n A. apply (at_in hash b roots T TI z r d n IR) in A. destruct A as (c & W' & _). destruct (both_some _ _ _ _ _ _ _ L d c W') as (c0 & W0 & _). congruence. }
      unfold is_found in F. destruct (walk raw (rev rel)) as [c|] eqn:W.
      - destruct (both_raw _ _ _ _ _ _ _ L rel c W) as (c' & W' & _). exists (Some (rel, c)), (Some c'). rewrite E, F. split; [reflexivity|]. split; [|auto].
        split; [exact ZO|]. split; [exact OC|]. left. apply (at_in hash b roots T TI z r rel _ IR). eauto.
      - destruct F as (_ & F). destruct (F eq_refl) as (p & l & c0 & c & E1 & W1 & N1 & F1). clear F.
        destruct (both_raw _ _ _ _ _ _ _ L c0 c W1) as (k & WK & _).
        assert (CL : closest (view T) (rel ++ z) (c0 ++ z) (view k)).
        { exists p, l. split; [rewrite E1, <- app_assoc; reflexivity|]. split; [apply (at_in hash b roots T TI z r c0 _ IR); eauto|]. exact (NO (l :: c0) N1). }
        assert (AT : forall n, In ([42], n) (n_children (view k)) -> at_name (view T) (([42] :: c0) ++ z) n).
        { intros n IN. cbn [app]. eapply at_child; [|exact IN]. apply (at_in hash b roots T TI z r c0 _ IR). eauto. }
        destruct (walk raw (rev ([42] :: c0))) as [w|] eqn:WW.
        + destruct (both_raw _ _ _ _ _ _ _ L _ w WW) as (w' & W' & _). exists (Some ([42] :: c0, w)), (Some w'). rewrite E, F1. split; [reflexivity|]. split; [|split; [exact WW|]; split; [exact W'|right; reflexivity]].
          split; [exact ZO|]. split; [exact OC|]. right. exists (c0 ++ z), (view k). split; [exact CL|].
          apply (view_in hash b k _ _). { apply (walk_good hash b (rev c0) r k); [apply (ti_zone _ _ _ _ TI z r IR)|exact WK]. } exists w'. split; [|reflexivity].
          cbn [rev] in W'. rewrite walk_app, WK in W'. cbn [walk] in W'. now destruct (child k [42]).
        + exists None, None. rewrite E, F1. split; [reflexivity|]. split; [|exact I]. split; [exact ZO|]. split; [exact OC|]. exists (c0 ++ z), (view k). split; [exact CL|].
          intros n IN. apply (NO _ WW n). now apply AT.
    Qed.

    Lemma delegation rel : in_deleg rs rel -> exists p e c m fnd, rel = p ++ e /\ cut rs e /\ walk raw (rev e) = Some c /\ walk r (rev e) = Some m /\
      search_dname_zone hash z raw (rel ++ z) = Ok (DELEG, fnd, Some (e, c)) /\ delegated (view T) (rel ++ z) (e ++ z) (view m).
    Proof.
      intros ID. destruct (search_in _ _ _ _ hash64 _ _ _ L rel) as (st & found & dl & E & F & D).
      destruct D as [(_ & X & _)|(-> & p & e & c & E1 & C & W & ->)]; [contradiction|]. destruct (cut_is rel p e E1 C) as (c0 & m & W0 & W' & CA). assert (c0 = c) by congruence. subst c0.
      exists p, e, c, m, found. split; [exact E1|]. split; [exact C|]. split; [exact W|]. split; [exact W'|]. split; [exact E|].
      exists z, (view r). split; [apply (root_zone_of hash b roots T TI z r _ rel IR); reflexivity|]. split; [exact CA|].
      assert (NE : (length z < length (e ++ z))%nat). { rewrite app_length. destruct C as (X & _). destruct e; [congruence|cbn; lia]. }
      split; [exact NE|]. intros z' n' CA' LT. destruct (cuts_are _ _ _ CA') as [(-> & _)|(p' & e' & m' & E2 & -> & C' & W2 & _)]; [lia|].
      (* two cuts on one path are the same *)
      rewrite !app_length. assert (X : e = e'); [|subst; lia].
      assert (NN : forall a d d', d' = a ++ d -> cut rs d -> cut rs d' -> a = []).
      { intros a d d' Ed Cd Cd'. destruct (cut_walk _ _ _ _ _ _ _ L d' Cd') as (k & Wk). destruct (both_raw _ _ _ _ _ _ _ L d' k Wk) as (k' & _ & ind & g & g' & _ & _ & _ & _ & ON). exact (ON a d Ed Cd Cd'). }
      rewrite E1 in E2. destruct (two_suffixes _ _ _ _ E2) as [(x & X)|(x & X)].
      - rewrite (NN x e' e X C' C) in X. exact X.
      - rewrite (NN x e e' X C C') in X. now symmetry.
    Qed.

    (** ** Chains of aliases *)
    (** from the target [t]: [k] further aliases *)
    Inductive zchain : name -> nat -> Prop :=
    | zc_end t : zchain t 0
    | zc_step t d c dl t' k : search_dname_zone hash z raw t = Ok (AUTH, Some (d, c), dl) -> first_cname (l_rrsets c) = Ok (Some t') -> zchain t' k -> zchain t (S k).

    Lemma chase_bound fuel : forall depth rsize t dl0 st found dl x k, search_dname_zone hash z raw t = Ok (st, found, dl) ->
      chase_loop hash z fuel raw depth rsize (st, found, dl0) = Ok (Some x) -> (depth <= MAX_CNAME_DEPTH)%nat -> zchain t k -> (depth + k <= MAX_CNAME_DEPTH)%nat.
    Proof.
      induction fuel as [|fuel IH]; intros depth rsize t dl0 st found dl x k E H LE ZC; [discriminate|]. cbn [chase_loop] in H. inversion ZC as [|? d c dl' t' k' E' FC ZC']; subst; [lia|].
      rewrite E in E'. injection E' as -> -> ->. rewrite FC in H. cbn [rbind] in H. destruct (Nat.ltb_spec MAX_CNAME_DEPTH (S depth)) as [|LE']; [discriminate|].
      destruct (search_dname_zone hash z raw t') as [((st', fd'), dl2)|] eqn:E'; [|discriminate]. cbn [rbind] in H. specialize (IH _ _ _ _ _ _ _ _ _ E' H LE' ZC'). lia.
    Qed.
    Lemma node_chain d c t k : walk raw (rev d) = Some c -> first_cname (l_rrsets c) = Ok (Some t) -> zchain t k -> (S k <= MAX_CNAME_DEPTH)%nat.
    Proof.
      intros W FC ZC. destruct (both_raw _ _ _ _ _ _ _ L d c W) as (c' & _ & ind & g & g' & _ & PH & _). destruct (phase1_ok _ _ _ _ _ _ _ _ _ _ PH) as (_ & _ & cn & FC' & CN). rewrite FC in FC'. injection FC' as <-.
      destruct CN as (_ & rs0 & soa & rsize & rs' & total & CH & _). unfold p1_chase_cname in CH. destruct (search_dname_zone hash z raw t) as [((st, found), dl)|] eqn:E; [|discriminate]. cbn [rbind] in CH.
      unfold zwarn_if, zwarn in CH. match type of CH with (if ?x then _ else _) = _ => destruct x end; [destruct (z_strict cfg); [discriminate|]|];
        apply zbind_ok in CH; destruct CH as ((rz, s) & CH & _); exact (chase_bound _ 1 _ t _ _ _ _ _ k E CH ltac:(apply Nat.leb_le; reflexivity) ZC).
    Qed.
    Lemma cname_raw d c c' ttl t : walk raw (rev d) = Some c -> walk r (rev d) = Some c' -> l_rrsets c' = [RsCNAME ttl t] -> l_rrsets c = [RsCNAME ttl t].
    Proof.
      intros W W' E. destruct (node_ok _ _ _ _ CF _ _ _ L d c c' W W') as (_ & GL & _). rewrite E in GL. inversion GL as [|x y a a' G F E1 E2]. inversion F; subst. inversion G; subst. reflexivity.
    Qed.
  End One.

  (** ** The served tree *)
  Lemma in_zone_loaded q z zn f : in_zone (view T) q z zn f -> exists rel r rs raw fnd f', q = rel ++ z /\ In (z, r) roots /\ In (z, rs) zs /\ loaded cfg pl hash z rs raw r /\ zn = view r /\ f = option_map view f' /\
    ~ in_deleg rs rel /\ search_dname_zone hash z raw q = Ok (AUTH, fnd, None) /\
    match fnd, f' with
    | None, None => True
    | Some (d, c), Some c' => walk raw (rev d) = Some c /\ walk r (rev d) = Some c' /\ (d = rel \/ hd_error d = Some [42])
    | _, _ => False
    end.
  Proof.
    intros IZ. pose proof IZ as (ZO & OC & _). destruct (zone_of_root hash hash64 b roots T TI q z zn ZO) as (r & IR & ->). destruct (root_of cfg pl hash zs roots FL z r IR) as (rs & raw & IZs & L).
    destruct ZO as (((rel & ->) & _) & _).
    assert (ND : ~ in_deleg rs rel).
    { intros (p & e & E & C). destruct (cut_is z rs raw r IR L rel p e E C) as (c & m & _ & _ & CA). apply OC in CA. apply (f_equal (@length _)) in CA. rewrite app_length in CA. destruct C as (X & _). destruct e; [congruence|cbn in CA; lia]. }
    destruct (locate z rs raw r IR L rel ND) as (fnd & f' & E & IZ' & M).
    destruct (in_zone_unique _ (proj1 (tree_wf cfg pl hash hash64 CF zs b roots T TI FL)) _ _ _ _ _ _ _ IZ IZ') as (_ & _ & ->).
    exists rel, r, rs, raw, fnd, f'. split; [reflexivity|]. auto 9.
  Qed.

  Lemma alias_zchain q k : alias_chain (view T) q k -> forall z r rs raw p, In (z, r) roots -> loaded cfg pl hash z rs raw r -> q = p ++ z -> zchain z raw q k.
  Proof.
    induction 1 as [q|q z zn n ttl p k IZ RR AC IH]; intros z0 r0 rs0 raw0 p0 I0 L0 E0; [constructor|].
    pose proof IZ as (ZO & _). destruct (zone_of_root hash hash64 b roots T TI q z zn ZO) as (r & IR & EZ).
    assert (z0 = z /\ r0 = r) as (-> & ->).
    { destruct ZO as (((p1 & E1) & _) & _). rewrite E0 in E1. destruct (two_suffixes _ _ _ _ E1) as [(x & X)|(x & X)].
      - destruct (ti_apart _ _ _ _ TI z0 r0 z r x I0 IR X) as (-> & ->). now rewrite X.
      - destruct (ti_apart _ _ _ _ TI z r z0 r0 x IR I0 X) as (-> & ->). now rewrite X. }
    subst zn q. destruct ZO as (_ & _).
    assert (ND : ~ in_deleg rs0 p0).
    { intros (a & e & E & C). destruct (cut_is z rs0 raw0 r IR L0 p0 a e E C) as (c & m & _ & _ & CA). pose proof IZ as (_ & OC & _). apply OC in CA. apply (f_equal (@length _)) in CA. rewrite app_length in CA. destruct C as (X & _). destruct e; [congruence|cbn in CA; lia]. }
    destruct (locate z rs0 raw0 r IR L0 p0 ND) as (fnd & f' & E & IZ' & M).
    destruct (in_zone_unique _ (proj1 (tree_wf cfg pl hash hash64 CF zs b roots T TI FL)) _ _ _ _ _ _ _ IZ IZ') as (_ & _ & EF).
    destruct f' as [c'|]; [|discriminate]. cbn in EF. injection EF as ->. destruct fnd as [(d, c)|]; [|contradiction]. destruct M as (W & W' & _).
    rewrite view_rrsets in RR. pose proof (cname_raw z rs0 raw0 r L0 d c c' _ _ W W' RR) as RC.
    apply (zc_step z raw0 (p0 ++ z) d c None (p ++ z)); [exact E|now rewrite RC|]. eapply IH; eauto.
  Qed.

  Lemma alias_bound q k : alias_chain (view T) q k -> (k <= 16)%nat.
  Proof.
    intros AC. inversion AC as [|q0 z zn n ttl p k' IZ RR AC']; subst; [lia|].
    destruct (in_zone_loaded _ _ _ _ IZ) as (rel & r & rs & raw & fnd & f' & -> & IR & IZs & L & -> & EF & ND & E & M).
    destruct f' as [c'|]; [|discriminate]. cbn in EF. injection EF as ->. destruct fnd as [(d, c)|]; [|contradiction]. destruct M as (W & W' & _).
    rewrite view_rrsets in RR. pose proof (cname_raw z rs raw r L d c c' _ _ W W' RR) as RC.
    pose proof (alias_zchain _ _ AC' z r rs raw p IR L eq_refl) as ZC. apply (node_chain z rs raw r L d c (p ++ z) k' W); [now rewrite RC|exact ZC].
  Qed.
End Tree.

(** If no chain of aliases from [q] is longer than [n], the rules give an answer
    after at most [n] aliases. *)
Lemma resolves_some dyn chals no_chain root qt n : wf_db root -> forall q, (forall k, alias_chain root q k -> (k <= n)%nat) ->
  exists r, resolves dyn chals no_chain root q qt r /\ (length (r_chain r) <= n)%nat.
Proof.
  intros W. induction n as [n IH] using lt_wf_ind. intros q AB. pose proof (search_top root (proj1 W) q) as H. unfold search_ok in H.
  destruct (search root (rev q) None) as [[[s dom] auth] lc]. destruct s.
  - eexists. split; [now apply res_refused|cbn; lia].
  - destruct auth as [a|]; [|destruct dom; contradiction].
    assert (H' : exists p z0, q = p ++ z0 /\ length p = lc /\ in_zone root q z0 a dom) by (destruct dom; exact H).
    destruct H' as (p & z & _ & _ & HI).
    assert (D : (exists ttl t, followed no_chain qt z dom ttl t) \/ (forall ttl t, ~ followed no_chain qt z dom ttl t)).
    { destruct no_chain; [right; intros ttl t (X & _); discriminate|]. destruct (N.eq_dec qt 5); [right; intros ttl t (_ & X & _); contradiction|]. destruct (N.eq_dec qt 255); [right; intros ttl t (_ & _ & X & _); contradiction|].
      destruct dom as [m|]; [|right; intros ttl t (_ & _ & _ & _ & m & X & _); discriminate].
      destruct (n_rrsets m) as [|x [|y l]] eqn:E; [right; intros ttl t (_ & _ & _ & _ & m' & X & Y); injection X as <-; congruence| |right; intros ttl t (_ & _ & _ & _ & m' & X & Y); injection X as <-; congruence].
      destruct x; try (right; intros ttl' t' (_ & _ & _ & _ & m' & X & Y); injection X as <-; congruence).
      match type of E with _ = [RsCNAME ?a ?b] => rename a into ttl, b into t end.
      destruct (suffix_dec z t) as [P|NP]; [left; exists ttl, t; repeat split; auto; eauto|right; intros ttl' t' (_ & _ & _ & P & m' & X & Y); injection X as <-; rewrite E in Y; injection Y as -> ->; contradiction]. }
    destruct D as [(ttl & t & F)|NF].
    + pose proof F as (_ & _ & _ & (p0 & ->) & m & -> & RR).
      assert (N1 : (1 <= n)%nat) by (apply AB; eapply al_step; [exact HI|exact RR|constructor]).
      destruct (IH (n - 1)%nat ltac:(lia) (p0 ++ z)) as (r & R1 & R2).
      { intros k AC. specialize (AB (S k)). assert (X : (S k <= n)%nat) by (apply AB; eapply al_step; eauto). lia. }
      eexists. split; [eapply res_chain; eauto|]. cbn [r_chain length]. lia.
    + eexists. split; [eapply res_final; eauto|]. unfold final. destruct (effective _ _ _). cbn. lia.
  - destruct dom as [d|]; [|destruct auth; contradiction]. destruct auth as [a|]; [|contradiction]. destruct H as (p & dn & _ & _ & HD).
    destruct (proj2 (proj2 W) _ _ _ HD) as (r & I & T).
    assert (WN : wf_node d) by (destruct HD as (z & zn & _ & (_ & HA & _) & _); apply (proj1 W _ _ HA)). destruct WN as (_ & WR & _).
    rewrite Forall_forall in WR. specialize (WR r I). destruct r; try discriminate T.
    + eexists. split; [eapply res_deleg; eauto|cbn; lia].
    + cbn in T. subst. exfalso. destruct WR as [_ X]. apply X. cbn. tauto.
Qed.
