(** A loaded zone: names, delegations, glue. *)
From Coq Require Import Sorting.Permutation.
From Verif Require Import Base DnameSpec DnameModel RandModel CompModel RespModel RespSpec LtreeModel LtreeSpec LtreeProofs LtreeProofs2 LtreeProofs3 LtreeProofs4 LtreeProofs5 LtreeProofs6 LtreeProofs7 LtreeProofs8 LtreeProofs9.
Local Open Scope N_scope.
Ltac Zify.zify_post_hook ::= idtac.

Lemma rev_eq {X} (a b : list X) : rev a = b <-> a = rev b.
Proof. split; intros H; [rewrite <- H|rewrite H]; now rewrite rev_involutive. Qed.

Section Zone.
  Variable cfg : zcfg.
  Variable pl : plugins.
  Variable hash : list N -> N.
  Variable zname : name.
  Hypothesis hash64 : forall l, hash l < W64.
  Hypothesis CF : cfg_fine cfg.

  Record loaded (rs : list record) (raw root' : lnode) : Prop := {
    ld_fine : Forall (rec_fine zname) rs;
    ld_len : N.of_nat (length rs) < 2 ^ 62;
    ld_inv : inv cfg pl hash zname (N.of_nat (length rs)) rs raw;
    ld_z1 : zroot_phase1 cfg raw = Ok (Some tt);
    ld_done : done1 cfg hash zname raw raw [] false root';
    ld_name : hd_error zname <> Some [42];
    ld_label : l_label raw = hd_error zname }.

  Lemma new_root_ok z0 : new_zone_root zname = Ok (Some z0) -> hd_error zname <> Some [42] /\ l_label z0 = hd_error zname.
  Proof.
    unfold new_zone_root. destruct zname as [|l z]; [intros [= <-]; split; [discriminate|reflexivity]|]. intros E.
    assert (X : forall (a b : zres lnode), (l = [42] /\ match l with [42] => a | _ => b end = a) \/ (l <> [42] /\ match l with [42] => a | _ => b end = b)).
    { intros a b. destruct l as [|x l0]; [right; split; [discriminate|reflexivity]|]. destruct x as [|p]; [right; split; [discriminate|reflexivity]|].
      repeat (destruct p as [p|p|]; try (right; split; [discriminate|reflexivity])). destruct l0; [now left|right; split; [discriminate|reflexivity]]. }
    destruct (X zfatal (Ok (Some (set_zcut (LNode 0 (Some l) None []))))) as [(Y1 & Y)|(Y1 & Y)]; rewrite Y in E; [discriminate|]. injection E as <-. cbn. split; [congruence|reflexivity].
  Qed.
  Lemma inv_label rs : forall root root' b, good hash b root -> b + N.of_nat (length rs) < 2 ^ 62 -> add_recs cfg pl hash zname root rs = Ok (Some root') -> l_label root' = l_label root.
  Proof.
    induction rs as [|r rs IH]; intros root root' b G B E; cbn [add_recs length] in *; [now injection E as <-|].
    apply zbind_ok in E. destruct E as (r1 & E1 & E). pose proof (add_rec_ok cfg pl hash zname hash64 b root r G ltac:(lia)) as A. unfold added in A. rewrite E1 in A.
    match type of A with match ?x with _ => _ end => destruct x as [[sets|]|] end; try discriminate. destruct A as (r2 & A1 & A2 & A3 & _). injection A1 as <-. rewrite <- A3. eapply IH; [exact A2| |exact E]. lia.
  Qed.

  Lemma load_zone_loaded rs root' : Forall (rec_fine zname) rs -> N.of_nat (length rs) < 2 ^ 62 -> load_zone cfg pl hash zname rs = Ok (Some root') ->
    exists raw, loaded rs raw root'.
  Proof.
    intros RF LN H. unfold load_zone in H. apply zbind_ok in H. destruct H as (z0 & NZ & H). apply zbind_ok in H. destruct H as (raw & AR & H).
    unfold postproc_zone in H. apply zbind_ok in H. destruct H as ([] & Z1 & H). apply zbind_ok in H. destruct H as ((r1, gu) & P1 & H). apply zbind_ok in H. destruct H as ([] & Z2 & H). apply zbind_ok in H. destruct H as ([] & P2 & H).
    injection H as <-. pose proof (inv_start cfg pl hash zname z0 NZ) as I0. destruct (new_root_ok _ NZ) as (N1 & N2).
    pose proof (inv_run cfg pl hash zname hash64 rs 0 [] z0 raw I0 ltac:(lia) AR) as I1. cbn [app] in I1. rewrite N.add_0_l in I1.
    exists raw. constructor; auto.
    - eapply proc1_done; [apply (i_good _ _ _ _ _ _ _ I1)|exact P1].
    - rewrite <- N2. eapply inv_label; [apply (i_good _ _ _ _ _ _ _ I0)| |exact AR]. lia.
  Qed.

  Section Loaded.
    Variable rs : list record.
    Variable raw root' : lnode.
    Hypothesis L : loaded rs raw root'.
    Notation bb := (N.of_nat (length rs)).

    Lemma raw_good : good hash bb raw.
    Proof. apply (i_good _ _ _ _ _ _ _ (ld_inv _ _ _ L)). Qed.
    Lemma root_good : good hash bb root'.
    Proof. eapply done1_good; [apply raw_good|apply (ld_done _ _ _ L)]. Qed.

    Lemma fine_sub (f : record -> bool) : Forall (rec_fine zname) (filter f rs).
    Proof. apply Forall_forall. intros r H. apply filter_In in H. destruct H as (H & _). revert r H. apply Forall_forall. apply (ld_fine _ _ _ L). Qed.
    Lemma fine_in r : In r rs -> rec_fine zname r.
    Proof. intros H. revert r H. apply Forall_forall. apply (ld_fine _ _ _ L). Qed.

    Lemma at_raw d c : walk raw (rev d) = Some c ->
      P cfg pl zname (here d rs) (l_rrsets c) /\ (length (recs_of 2 (here d rs)) <= 64)%nat /\
      Forall (rec_allowed pl zname) (here d rs) /\ (z_strict cfg = true -> Forall (rec_strict cfg zname) (here d rs)) /\
      alias_first (map rrset_type (l_rrsets c)) /\ (d = [] \/ exists r p, In r rs /\ opath r = p ++ d).
    Proof.
      intros W. pose proof (i_at _ _ _ _ _ _ _ (ld_inv _ _ _ L) d) as A. rewrite W in A. destruct A as (A1 & A2 & _ & _).
      destruct (fold_P cfg pl zname CF (here d rs) _ (fine_sub _) A2) as (B1 & B2 & B3 & B4).
      split; [exact B1|]. split; [exact B2|]. split; [exact B3|]. split; [exact B4|]. split; [|exact A1].
      refine (fold_types cfg pl zname (here d rs) [] _ (fine_sub _) A2 _). intros a t b E. destruct a; discriminate.
    Qed.
    Lemma in_raw r p d : In r rs -> opath r = p ++ d -> exists c, walk raw (rev d) = Some c.
    Proof.
      intros IN E. pose proof (i_at _ _ _ _ _ _ _ (ld_inv _ _ _ L) d) as A. destruct (walk raw (rev d)) as [c|]; [eauto|]. exfalso. exact (proj2 A r p IN E).
    Qed.
    Lemma raw_none d : walk raw (rev d) = None -> here d rs = [].
    Proof.
      intros E. pose proof (i_at _ _ _ _ _ _ _ (ld_inv _ _ _ L) d) as A. rewrite E in A. apply here_none. apply A.
    Qed.
    Lemma zcut_raw d c : walk raw (rev d) = Some c -> (get_zcut c = true <-> d = [] \/ cut rs d).
    Proof.
      intros W. pose proof (i_at _ _ _ _ _ _ _ (ld_inv _ _ _ L) d) as A. rewrite W in A. destruct A as (_ & _ & A & _). rewrite A. destruct d as [|l d].
      - split; auto.
      - rewrite existsb_exists. unfold cut. split.
        + intros (r & IN & NB). right. split; [discriminate|]. apply in_here in IN. destruct IN as (IN & O). destruct r; try discriminate. cbn in O. subst. eauto.
        + intros [X|(_ & n & ttl & IN)]; [discriminate|]. exists (ANs (l :: d) n ttl). split; [|reflexivity]. apply in_here. auto.
    Qed.
    Lemma cutb_raw d c : walk raw (rev d) = Some c -> (cutb c d = true <-> cut rs d).
    Proof.
      intros W. unfold cutb. rewrite andb_true_iff, (zcut_raw d c W). destruct d as [|l d]; [split; [intros (_ & X); discriminate|intros ([] & _); congruence]|].
      split; [intros ([X|X] & _); [discriminate|exact X]|intros H; auto].
    Qed.
    Lemma label_raw d c : walk raw (rev d) = Some c -> l_label c = hd_error (d ++ zname).
    Proof.
      intros W. pose proof (i_at _ _ _ _ _ _ _ (ld_inv _ _ _ L) d) as A. rewrite W in A. destruct A as (_ & _ & _ & A). rewrite A. destruct d; [apply (ld_label _ _ _ L)|reflexivity].
    Qed.
    Lemma cut_walk d : cut rs d -> exists c, walk raw (rev d) = Some c.
    Proof. intros (_ & n & ttl & IN). eapply (in_raw _ []); [exact IN|reflexivity]. Qed.
    Lemma ind_raw d c : walk raw (rev d) = Some c -> (ind_at raw [] false (rev d) || cutb c d = true <-> in_deleg rs d).
    Proof.
      intros W. rewrite orb_true_iff, (ind_at_iff _ _ _ _ _ W), (cutb_raw _ _ W). unfold in_deleg. split.
      - intros [[X|(s1 & s2 & m & E & NE & W1 & CB)]|C].
        + discriminate.
        + exists (rev s2), (rev s1). split; [rewrite <- rev_app_distr; symmetry; apply rev_eq; now symmetry|]. rewrite app_nil_r in CB. apply (cutb_raw (rev s1) m); [now rewrite rev_involutive|exact CB].
        + exists [], d. auto.
      - intros (p & c0 & -> & C). destruct p as [|l p]; [now right|]. left. right. destruct (cut_walk c0 C) as (m & WM). exists (rev c0), (rev (l :: p)), m.
        split; [apply rev_app_distr|]. split; [intros X; apply (f_equal (@rev _)) in X; rewrite rev_involutive in X; discriminate|]. split; [exact WM|]. rewrite app_nil_r, rev_involutive. now apply (cutb_raw c0 m).
    Qed.
    (** the two trees have the same names; what phase 1 did at each *)
    Lemma both d : match walk raw (rev d), walk root' (rev d) with
      | Some c, Some c' => exists ind g g', (ind = true <-> in_deleg rs d) /\ phase1 cfg hash zname raw c d ind g = Ok (Some (l_rrsets c', g')) /\
          l_caf c' = l_caf c /\ l_label c' = l_label c /\
          (forall p e, d = p ++ e -> cut rs e -> cut rs d -> p = [])
      | None, None => True
      | _, _ => False
      end.
    Proof.
      pose proof (done1_walk cfg hash zname raw bb (rev d) raw [] false root' raw_good (ld_done _ _ _ L)) as H.
      destruct (walk raw (rev d)) as [c|] eqn:W; destruct (walk root' (rev d)) as [c'|]; try contradiction; [|exact I]. destruct H as (D & _ & _). rewrite app_nil_r, rev_involutive in D.
      inversion D as [? ? ? ? g g' CI PH CA LB TR]; subst. exists (ind_at raw [] false (rev d) || cutb c d), g, g'. split; [now apply ind_raw|]. split; [exact PH|]. split; [exact CA|]. split; [exact LB|].
      intros p e -> CE CD. destruct p as [|l p]; [reflexivity|]. exfalso. apply (cutb_raw _ _ W) in CD. rewrite CD in CI. cbn [andb] in CI.
      assert (X : ind_at raw [] false (rev ((l :: p) ++ e)) = true); [|congruence]. apply (ind_at_iff _ _ _ _ _ W). right. destruct (cut_walk e CE) as (m & WM). exists (rev e), (rev (l :: p)), m.
      split; [apply rev_app_distr|]. split; [intros X; apply (f_equal (@rev _)) in X; rewrite rev_involutive in X; discriminate|]. split; [exact WM|]. rewrite app_nil_r, rev_involutive. now apply (cutb_raw e m).
    Qed.
    Lemma both_some d c' : walk root' (rev d) = Some c' -> exists c, walk raw (rev d) = Some c /\ exists ind g g', (ind = true <-> in_deleg rs d) /\ phase1 cfg hash zname raw c d ind g = Ok (Some (l_rrsets c', g')) /\
          l_caf c' = l_caf c /\ l_label c' = l_label c /\ (forall p e, d = p ++ e -> cut rs e -> cut rs d -> p = []).
    Proof. intros W. pose proof (both d) as B. rewrite W in B. destruct (walk raw (rev d)) as [c|]; [|contradiction]. eauto. Qed.
    Lemma both_raw d c : walk raw (rev d) = Some c -> exists c', walk root' (rev d) = Some c' /\ exists ind g g', (ind = true <-> in_deleg rs d) /\ phase1 cfg hash zname raw c d ind g = Ok (Some (l_rrsets c', g')) /\
          l_caf c' = l_caf c /\ l_label c' = l_label c /\ (forall p e, d = p ++ e -> cut rs e -> cut rs d -> p = []).
    Proof. intros W. pose proof (both d) as B. rewrite W in B. destruct (walk root' (rev d)) as [c'|]; [|contradiction]. eauto. Qed.

    (** ** Searching *)
    Lemma search_zone n : search_dname_zone hash zname raw n =
      match (if isinzone zname n then Some (firstn (length n - length zname) n) else None) with
      | Some rel => zsearch hash raw [] (rev rel) AUTH None
      | None => Ok (NOAUTH, None, None)
      end.
    Proof. unfold search_dname_zone. now destruct (isinzone zname n). Qed.
    Lemma firstn_rel (rel : name) : firstn (length (rel ++ zname) - length zname) (rel ++ zname) = rel.
    Proof. rewrite app_length. replace (length rel + length zname - length zname)%nat with (length rel) by lia. rewrite firstn_app, Nat.sub_diag, firstn_O, app_nil_r. apply firstn_all. Qed.

    (** the result of a search, in terms of names *)
    Definition is_found (rel : name) (st : status) (found : option named) : Prop :=
      match walk raw (rev rel) with
      | Some c => found = Some (rel, c)
      | None => (st <> AUTH -> found = None) /\
          (st = AUTH -> exists p l c0 c, rel = p ++ l :: c0 /\ walk raw (rev c0) = Some c /\ walk raw (rev (l :: c0)) = None /\
             found = match walk raw (rev ([42] :: c0)) with Some w => Some ([42] :: c0, w) | None => None end)
      end.
    Lemma walk_snoc d l c : walk raw (rev d) = Some c -> walk raw (rev (l :: d)) = child c l.
    Proof. intros W. cbn [rev]. rewrite walk_app, W. cbn [walk]. now destruct (child c l). Qed.
    Lemma search_in rel : exists st found dl, search_dname_zone hash zname raw (rel ++ zname) = Ok (st, found, dl) /\
      is_found rel st found /\
      ((st = AUTH /\ ~ in_deleg rs rel /\ dl = None) \/
       (st = DELEG /\ exists p e m, rel = p ++ e /\ cut rs e /\ walk raw (rev e) = Some m /\ dl = Some (e, m))).
    Proof.
      assert (IZ : isinzone zname (rel ++ zname) = true) by (apply isinzone_iff; eauto). rewrite search_zone, IZ, firstn_rel.
      destruct (zsearch_ok hash hash64 bb (rev rel) raw [] AUTH None raw_good ltac:(discriminate)) as (st & found & dl & E & F & D). exists st, found, dl. split; [exact E|].
      assert (DC : forall s1 m, cut_in raw [] (rev rel) s1 m -> exists p, rel = p ++ rev s1 /\ cut rs (rev s1) /\ walk raw (rev (rev s1)) = Some m).
      { intros s1 m ((s2 & E1) & W & C). exists (rev s2). split; [rewrite <- rev_app_distr; symmetry; apply rev_eq; now symmetry|]. rewrite app_nil_r in C. split; [|now rewrite rev_involutive].
        apply (cutb_raw (rev s1) m); [now rewrite rev_involutive|exact C]. }
      split.
      - unfold is_found, found_is in *. destruct (walk raw (rev rel)) as [c|] eqn:W; [rewrite rev_involutive, app_nil_r in F; exact F|]. destruct F as (F1 & s1 & l & s2 & c & E1 & W1 & N1 & F2). split; [exact F1|].
        intros A. exists (rev s2), l, (rev s1), c.
        assert (X : walk raw (rev (rev s1)) = Some c) by now rewrite rev_involutive.
        split; [apply (f_equal (@rev _)) in E1; rewrite rev_involutive, rev_app_distr in E1; cbn [rev] in E1; rewrite <- app_assoc in E1; exact E1|]. split; [exact X|].
        split; [now rewrite (walk_snoc _ _ _ X)|]. rewrite (walk_snoc _ _ _ X). rewrite app_nil_r in F2. now apply F2.
      - destruct D as [(D1 & D2 & D3)|(D1 & s1 & m & D2 & D3)].
        + left. split; [exact D1|]. split; [|exact D2]. intros (p & e & -> & C). destruct (cut_walk e C) as (m & W). apply (D3 (rev e) m). split; [exists (rev p); apply rev_app_distr|]. split; [exact W|].
          rewrite app_nil_r, rev_involutive. now apply (cutb_raw e m).
        + right. split; [exact D1|]. destruct (DC s1 m D2) as (p & D4 & D5 & D6). exists p, (rev s1), m. rewrite app_nil_r in D3. auto.
    Qed.
    Lemma search_out n : (forall rel, n <> rel ++ zname) -> search_dname_zone hash zname raw n = Ok (NOAUTH, None, None).
    Proof.
      intros H. rewrite search_zone. destruct (isinzone zname n) eqn:E; [|reflexivity]. apply isinzone_iff in E. destruct E as (p & E). now apply H in E.
    Qed.

    (** ** Glue *)
    Lemma static_a_ok l sets g : P cfg pl zname l sets -> static_a (get_rrset sets T_A) = Ok g ->
      match g with
      | None => recs_of 1 l = []
      | Some None => exists d rhs ttl mn, recs_of 1 l = [ADyna d rhs ttl mn]
      | Some (Some x) => addrs_are cfg a_of (recs_of 1 l) (Some x)
      end.
    Proof.
      intros PP. destruct (get_rrset sets T_A) as [s|] eqn:G; cbn [static_a].
      - destruct (get_in _ _ _ G) as (IS & TS). destruct PP as ((_ & SI & _) & _). specialize (SI s IS). rewrite TS in SI. unfold T_A in SI. destruct s; try discriminate; intros [= <-].
        + inversion SI; subst. cbn. eauto.
        + inversion SI; subst. eauto 6.
      - intros [= <-]. exact (recs_of_none cfg pl zname 1 l sets PP G).
    Qed.
    Lemma static_aaaa_ok l sets g : P cfg pl zname l sets -> static_aaaa (get_rrset sets T_AAAA) = Ok g ->
      match g with
      | None => recs_of 28 l = []
      | Some None => exists d rhs ttl mn, recs_of 28 l = [ADyna d rhs ttl mn]
      | Some (Some x) => addrs_are cfg aaaa_of (recs_of 28 l) (Some x)
      end.
    Proof.
      intros PP. destruct (get_rrset sets T_AAAA) as [s|] eqn:G; cbn [static_aaaa].
      - destruct (get_in _ _ _ G) as (IS & TS). destruct PP as ((_ & SI & _) & _). specialize (SI s IS). rewrite TS in SI. unfold T_AAAA in SI. destruct s; try discriminate; intros [= <-].
        + inversion SI; subst. cbn. eauto.
        + inversion SI; subst. eauto 6.
      - intros [= <-]. exact (recs_of_none cfg pl zname 28 l sets PP G).
    Qed.
    Lemma ooz_here n : legal_name n -> here [wire n; []] rs = filter (ooz_of n) rs.
    Proof.
      intros LN. unfold here. apply filter_ext_in. intros r IN. pose proof (fine_in r IN) as RF.
      assert (NP : forall d, legal_name (d ++ zname) -> d <> [wire n; []]).
      { intros d LD ->. apply legal_proper in LD. cbn [app] in LD. inversion LD as [|? ? _ H]. inversion H. congruence. }
      destruct RF as (R1 & R2).
      destruct r; cbn [owner opath ooz_of] in *; try (destruct (name_dec dname [wire n; []]) as [X|]; [exfalso; exact (NP _ R1 X)|reflexivity]).
      - destruct ooz; [|destruct (name_dec dname [wire n; []]) as [X|]; [exfalso; exact (NP _ R1 X)|reflexivity]]. destruct R2 as (_ & R2). specialize (R2 eq_refl).
        destruct (name_dec [wire dname; []] [wire n; []]) as [E|NE]; destruct (name_dec dname n) as [E1|NE1]; auto.
        + exfalso. apply NE1. apply (wire_eq dname n R2 LN). now injection E.
        + subst. congruence.
      - destruct ooz; [|destruct (name_dec dname [wire n; []]) as [X|]; [exfalso; exact (NP _ R1 X)|reflexivity]]. destruct R2 as (_ & R2). specialize (R2 eq_refl).
        destruct (name_dec [wire dname; []] [wire n; []]) as [E|NE]; destruct (name_dec dname n) as [E1|NE1]; auto.
        + exfalso. apply NE1. apply (wire_eq dname n R2 LN). now injection E.
        + subst. congruence.
    Qed.
    Lemma ooz_no_dyna n d rhs ttl mn t : legal_name n -> recs_of t (filter (ooz_of n) rs) <> [ADyna d rhs ttl mn].
    Proof. intros _ E. assert (I : In (ADyna d rhs ttl mn) (recs_of t (filter (ooz_of n) rs))) by (rewrite E; now left). apply in_recs_of in I. destruct I as (I & _). apply filter_In in I. destruct I as (_ & I). discriminate. Qed.

    Lemma addrs_of (get : record -> option bytes) l g : (match g with None => l = [] | Some None => exists d rhs ttl mn, l = [ADyna d rhs ttl mn] | Some (Some x) => addrs_are cfg get l (Some x) end) ->
      is_dyn g = false -> addrs_are cfg get l (glue_of g).
    Proof. destruct g as [[x|]|]; cbn [is_dyn glue_of]; intros H E; [exact H|discriminate|exact H]. Qed.

    Lemma proc_ns_spec n g4 g6 used : legal_name n -> p1_proc_ns hash zname raw n = Ok (Some (g4, g6, used)) ->
      glue_is cfg zname rs n g4 g6 /\
      forall rel, n = rel ++ zname -> in_deleg rs rel ->
        (exists r, In r rs /\ owner r = Some rel /\ (a_of r <> None \/ aaaa_of r <> None)) /\ (forall rhs t mn, ~ In (ADyna rel rhs t mn) rs).
    Proof.
      intros LN H. unfold p1_proc_ns in H. destruct (suffix_dec zname n) as [(rel & E)|NI].
      - (* in the zone *)
        assert (UQ : forall rel', n = rel' ++ zname -> rel' = rel) by (intros rel' E'; rewrite E in E'; apply app_inv_tail in E'; now symmetry).
        destruct (search_in rel) as (st & found & dl & SE & SF & SD). rewrite <- E in SE. rewrite SE in H. cbn [rbind] in H.
        assert (PR : proper rel) by (apply legal_proper in LN; rewrite E in LN; apply proper_app in LN; apply LN).
        destruct SD as [(-> & ND & _)|(-> & p & e & m & SP & SC & _)].
        + injection H as <- <- <-. split.
          * exists []. cbn. split; [|auto]. split; [|intros X; now apply X in E]. intros rel' E'. apply UQ in E'. subst rel'. split; [intros X; contradiction|auto].
          * intros rel' E' D. apply UQ in E'. subst rel'. contradiction.
        + assert (DG : in_deleg rs rel) by (exists p, e; auto). cbn [rbind] in H.
          unfold is_found in SF. destruct (walk raw (rev rel)) as [c|] eqn:W.
          * subst found. destruct (at_raw rel c W) as (PP & _). rewrite (here_at rel rs PR) in PP.
            destruct (static_a (get_rrset (l_rrsets c) T_A)) as [a|] eqn:SA; [|discriminate]. cbn [rbind] in H. destruct (static_aaaa (get_rrset (l_rrsets c) T_AAAA)) as [a6|] eqn:SA6; [|discriminate]. cbn [rbind] in H.
            pose proof (static_a_ok _ _ _ PP SA) as K4. pose proof (static_aaaa_ok _ _ _ PP SA6) as K6.
            destruct (match a, a6 with None, None => true | _, _ => is_dyn a || is_dyn a6 end) eqn:BAD; [discriminate|]. injection H as <- <- <-.
            assert (D4 : is_dyn a = false) by (destruct a as [[]|], a6 as [[]|]; try discriminate; reflexivity). assert (D6 : is_dyn a6 = false) by (destruct a as [[]|], a6 as [[]|]; try discriminate; reflexivity).
            split.
            -- exists (recs_at rel rs). split; [|split; now apply addrs_of]. split; [|intros X; now apply X in E]. intros rel' E'. apply UQ in E'. subst rel'. split; [auto|contradiction].
            -- intros rel' E' _. apply UQ in E'. subst rel'. split.
               ++ destruct a as [[[t x]|]|]; [|discriminate|].
                  ** cbn in K4. destruct K4 as (r & l' & K1 & _ & K2). assert (I : In r (recs_of 1 (recs_at rel rs))) by (rewrite K1; now left). apply in_recs_of in I. destruct I as (I & _). apply in_recs_at in I. exists r. split; [apply I|]. split; [apply I|].
                     left. rewrite K1 in K2. cbn [map] in K2. destruct x; [discriminate|]. injection K2 as K2 _. rewrite K2. discriminate.
                  ** destruct a6 as [[[t x]|]|]; [|discriminate|discriminate]. cbn in K6. destruct K6 as (r & l' & K1 & _ & K2). assert (I : In r (recs_of 28 (recs_at rel rs))) by (rewrite K1; now left). apply in_recs_of in I. destruct I as (I & _). apply in_recs_at in I. exists r. split; [apply I|]. split; [apply I|].
                     right. rewrite K1 in K2. cbn [map] in K2. destruct x; [discriminate|]. injection K2 as K2 _. rewrite K2. discriminate.
               ++ intros rhs t mn I. assert (J : In (ADyna rel rhs t mn) (recs_at rel rs)) by (apply in_recs_at; auto).
                  assert (J1 : In (ADyna rel rhs t mn) (recs_of 1 (recs_at rel rs))) by (apply in_recs_of; split; [exact J|now left]).
                  destruct a as [[[t0 x]|]|]; [|discriminate|].
                  ** cbn in K4. destruct K4 as (r & l' & K1 & _ & K2). apply (in_map a_of) in J1. rewrite K2 in J1. apply in_map_iff in J1. destruct J1 as (y & J1 & _). discriminate.
                  ** rewrite K4 in J1. destruct J1.
          * assert (FN : found = None) by (apply SF; discriminate). subst found. cbn in H. discriminate.
      - (* outside *)
        assert (NR : forall rel, n <> rel ++ zname) by (intros rel X; apply NI; eauto). rewrite (search_out n NR) in H. cbn [rbind rassert] in H.
        split; [|intros rel X; now apply NR in X]. unfold ooz_glue_label, dname_label in H. rewrite (node_find_child_ok hash hash64 bb raw [] raw_good) in H. cbn [rbind] in H.
        assert (WW : walk raw (rev [wire n; []]) = match child raw [] with Some o => child o (wire n) | None => None end).
        { cbn [rev app walk]. destruct (child raw []) as [o|]; [|reflexivity]. now destruct (child o (wire n)). }
        exists (filter (ooz_of n) rs). rewrite <- (ooz_here n LN).
        assert (GR : glue_recs zname rs n (here [wire n; []] rs)) by (split; [intros rel X; now apply NR in X|intros _; now apply ooz_here]). split; [exact GR|].
        destruct (child raw []) as [o|] eqn:CO.
        + destruct (proj1 (child_in hash bb raw [] o raw_good) CO) as (IO & _). destruct (good_kid hash bb raw o raw_good IO) as (_ & GO).
          rewrite (node_find_child_ok hash hash64 bb o (wire n) GO) in H. cbn [rbind] in H. destruct (child o (wire n)) as [c|] eqn:CC.
          * destruct (at_raw _ _ WW) as (PP & _).
            destruct (static_a (get_rrset (l_rrsets c) T_A)) as [a|] eqn:SA; [|discriminate]. cbn [rbind] in H. destruct (static_aaaa (get_rrset (l_rrsets c) T_AAAA)) as [a6|] eqn:SA6; [|discriminate]. cbn [rbind] in H. injection H as <- <- <-.
            pose proof (static_a_ok _ _ _ PP SA) as K4. pose proof (static_aaaa_ok _ _ _ PP SA6) as K6.
            split; apply addrs_of; auto.
            -- destruct a as [[|]|]; try reflexivity. destruct K4 as (d & rhs & ttl & mn & K). rewrite (ooz_here n LN) in K. now apply ooz_no_dyna in K.
            -- destruct a6 as [[|]|]; try reflexivity. destruct K6 as (d & rhs & ttl & mn & K). rewrite (ooz_here n LN) in K. now apply ooz_no_dyna in K.
          * cbn in H. injection H as <- <- <-. rewrite (raw_none _ WW). split; reflexivity.
        + cbn in H. injection H as <- <- <-. rewrite (raw_none _ WW). split; reflexivity.
    Qed.
  End Loaded.
End Zone.
