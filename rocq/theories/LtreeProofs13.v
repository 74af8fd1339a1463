(** All zones: the tree that queries are answered from. *)
From Coq Require Import Sorting.Permutation.
From Verif Require Import Base DnameSpec DnameModel RandModel CompModel RespModel RespSpec LtreeModel LtreeSpec LtreeProofs LtreeProofs2 LtreeProofs3 LtreeProofs4 LtreeProofs5 LtreeProofs6 LtreeProofs7 LtreeProofs8 LtreeProofs9 LtreeProofs10 LtreeProofs11 LtreeProofs12.
Local Open Scope N_scope.
Ltac Zify.zify_post_hook ::= idtac.

(** ** The view *)
Lemma view_zcut n : n_zcut (view n) = get_zcut n.
Proof. destruct n; reflexivity. Qed.
Lemma view_rrsets n : n_rrsets (view n) = l_rrsets n.
Proof. destruct n; reflexivity. Qed.
Lemma view_children n : n_children (view n) = map (fun c => (labelof c, view c)) (kids n).
Proof.
  destruct n as [caf lab [tbl|] rr]; [|reflexivity]. cbn [view n_children kids l_table elems]. induction tbl as [|[(h, c)|] tbl IH]; [reflexivity| |exact IH].
  cbn [ents flat_map map app]. unfold ents in IH. rewrite IH. reflexivity.
Qed.

Section View.
  Variable hash : list N -> N.
  Hypothesis hash64 : forall l, hash l < W64.

  Lemma view_child b n l : good hash b n -> find_child (view n) l = option_map view (child n l).
  Proof.
    intros _. unfold find_child. rewrite view_children. unfold child, lookup. induction (kids n) as [|c ks IH]; [reflexivity|]. cbn [map assoc_label find].
    destruct (bytes_eqb (labelof c) l) eqn:E; [reflexivity|exact IH].
  Qed.
  Lemma view_in b n l m : good hash b n -> (In (l, m) (n_children (view n)) <-> exists c, child n l = Some c /\ m = view c).
  Proof.
    intros G. rewrite view_children, in_map_iff. split.
    - intros (c & E & I). injection E as <- <-. exists c. split; [|reflexivity]. apply (child_in hash b n _ c G). split; [exact I|]. destruct (good_kid hash b n c G I) as ((l & E) & _). unfold labelof. now rewrite E.
    - intros (c & E & ->). apply (child_in hash b n l c G) in E. destruct E as (I & E). exists c. split; [|exact I]. unfold labelof. now rewrite E.
  Qed.
  Lemma walk_good b s : forall n c, good hash b n -> walk n s = Some c -> good hash b c.
  Proof.
    induction s as [|l s IH]; intros n c G W; cbn in W; [congruence|]. destruct (child n l) as [k|] eqn:E; [|discriminate]. apply (child_in hash b n l k G) in E. apply (IH k c); [|exact W]. now apply (good_kid hash b n k G).
  Qed.
  Lemma view_at b T q m : good hash b T -> (at_name (view T) q m <-> exists c, walk T (rev q) = Some c /\ m = view c).
  Proof.
    intros G. split.
    - induction 1 as [|q n l c A (cn & W & ->) I]; [exists T; auto|]. apply (view_in b cn l c (walk_good b _ _ _ G W)) in I. destruct I as (k & E & ->). exists k. split; [|reflexivity]. cbn [rev]. rewrite walk_app, W. cbn. now rewrite E.
    - revert m. induction q as [|l q IH]; intros m (c & W & ->).
      + cbn in W. injection W as <-. constructor.
      + cbn [rev] in W. rewrite walk_app in W. destruct (walk T (rev q)) as [k|] eqn:WK; [|discriminate]. cbn in W. destruct (child k l) as [c0|] eqn:E; [|discriminate]. injection W as <-.
        apply (at_child _ q (view k)); [apply IH; eauto|]. apply (view_in b k l _ (walk_good b _ _ _ G WK)). eauto.
  Qed.

  Definition view_res (x : status * option lnode * option lnode * nat) : status * option node * option node * nat :=
    let '(st, a, b, n) := x in (st, option_map view a, option_map view b, n).
  Lemma lsearch_view b s : forall n auth, good hash b n ->
    exists x, lsearch hash n s auth = Ok x /\ search (view n) s (match auth with Some (a, k) => Some (view a, k) | None => None end) = view_res x.
  Proof.
    induction s as [|l s IH]; intros n auth G; cbn [lsearch search]; rewrite view_zcut.
    - destruct (get_zcut n), auth as [(a, k)|]; cbn; eauto.
    - assert (GO : forall au, exists x, (do next <- node_find_child hash n l ; match next with Some next => lsearch hash next s au | None => match au with Some (a, d) => do w <- node_find_child hash n label_wild ; Ok (AUTH, w, Some a, d) | None => Ok (NOAUTH, None, None, O) end end) = Ok x /\
        (match find_child (view n) l with Some next => search next s (match au with Some (a, k) => Some (view a, k) | None => None end)
         | None => match (match au with Some (a, k) => Some (view a, k) | None => None end) with Some (a, d) => (AUTH, find_child (view n) label_wild, Some a, d) | None => (NOAUTH, None, None, O) end end) = view_res x).
      { intros au. rewrite (node_find_child_ok hash hash64 b n l G). cbn [rbind]. rewrite (view_child b n l G). destruct (child n l) as [c|] eqn:E; cbn [option_map].
        - apply IH. apply (child_in hash b n l c G) in E. now apply (good_kid hash b n c G).
        - rewrite (view_child b n label_wild G). destruct au as [(a, k)|]; [|cbn; eauto]. rewrite (node_find_child_ok hash hash64 b n label_wild G). cbn [rbind]. eexists. split; reflexivity. }
      destruct (get_zcut n), auth as [(a, k)|]; cbn.
      + eauto.
      + exact (GO (Some (n, S (length s)))).
      + exact (GO (Some (a, k))).
      + exact (GO None).
  Qed.
End View.

Section Tree.
  Variable cfg : zcfg.
  Variable pl : plugins.
  Variable hash : list N -> N.
  Hypothesis hash64 : forall l, hash l < W64.
  Hypothesis CF : cfg_fine cfg.

  (** [roots]: the zones with the roots that were merged *)
  Definition is_loaded (x : name * list record) (y : name * lnode) : Prop :=
    fst y = fst x /\ exists raw, loaded cfg pl hash (fst x) (snd x) raw (snd y).

  Lemma load_zones_ok zs : forall b done roots T T', tree_inv hash b roots T -> Forall2 is_loaded done roots ->
    Forall (fun x => Forall (rec_fine (fst x)) (snd x)) zs -> b + N.of_nat (length zs + length (concat (map snd zs))) < 2 ^ 62 ->
    load_zones cfg pl hash T zs = Ok (Some T') ->
    exists b' roots', tree_inv hash b' roots' T' /\ Forall2 is_loaded (rev zs ++ done) roots' /\ b' < 2 ^ 62.
  Proof.
    induction zs as [|(z, rs) zs IH]; intros b done roots T T' TI FL RF B H; cbn [load_zones] in H.
    - injection H as <-. exists b, roots. cbn. cbn in B. split; [exact TI|]. split; [exact FL|]. lia.
    - apply zbind_ok in H. destruct H as (zr & LZ & H). apply zbind_ok in H. destruct H as (T1 & MZ & H). inversion RF as [|? ? R1 R2]; subst. cbn [fst snd] in R1. cbn [map concat length snd] in B. rewrite app_length in B.
      destruct (load_zone_loaded cfg pl hash z hash64 rs zr R1 ltac:(lia) LZ) as (raw & L).
      assert (TI1 : tree_inv hash (b + N.of_nat (length rs)) roots T).
      { destruct TI as [A1 A2 A3 A4 A5 A6 A7]. constructor; auto; [eapply good_mono; [exact A1|lia]|]. intros z0 r0 I0. destruct (A3 z0 r0 I0) as (X & Y). split; [exact X|eapply good_mono; [exact Y|lia]]. }
      assert (GZ : good hash (b + N.of_nat (length rs)) zr) by (eapply good_mono; [eapply root_good; exact L|lia]).
      pose proof (merge_inv hash hash64 _ roots T z zr TI1 GZ ltac:(lia) (root_label _ _ _ _ _ _ _ L) (root_zcut _ _ _ _ _ _ _ L)) as M. rewrite MZ in M.
      destruct (IH (b + N.of_nat (length rs) + 1) ((z, rs) :: done) ((z, zr) :: roots) T1 T' M) as (b' & roots' & I1 & I2 & I3); auto.
      + constructor; [|exact FL]. split; [reflexivity|]. exists raw. exact L.
      + lia.
      + exists b', roots'. split; [exact I1|]. split; [|exact I3]. cbn [rev]. rewrite <- app_assoc. exact I2.
  Qed.

  Section Loaded.
    Variable zs : list (name * list record).
    Variable b : N.
    Variable roots : list (name * lnode).
    Variable T : lnode.
    Hypothesis TI : tree_inv hash b roots T.
    Hypothesis FL : Forall2 is_loaded zs roots.
    Let GT := ti_good _ _ _ _ TI.

    Lemma root_of z r : In (z, r) roots -> exists rs raw, In (z, rs) zs /\ loaded cfg pl hash z rs raw r.
    Proof. intros I. destruct (Forall2_in_r _ _ _ _ FL I) as ((z0, rs) & I0 & E & raw & L). cbn in *. subst z0. exists rs, raw. auto. Qed.
    Lemma zone_root z rs : In (z, rs) zs -> exists r raw, In (z, r) roots /\ loaded cfg pl hash z rs raw r.
    Proof. intros I. destruct (Forall2_in_l _ _ _ _ FL I) as ((z0, r) & I0 & E & raw & L). cbn in *. subst z0. exists r, raw. auto. Qed.
    (** every name is in a zone or outside all *)
    Lemma in_or_out q : (exists z r p, In (z, r) roots /\ q = p ++ z) \/ (forall p z r, In (z, r) roots -> q <> p ++ z).
    Proof.
      clear. induction roots as [|(z0, r0) l IH]; [right; intros p z r []|]. destruct (suffix_dec z0 q) as [(p & E)|N]; [left; exists z0, r0, p; split; [now left|exact E]|].
      destruct IH as [(z1 & r1 & p & I & E)|H]; [left; exists z1, r1, p; split; [now right|exact E]|]. right. intros p z1 r1 [X|I]; [injection X as <- <-; intros E; apply N; eauto|now apply (H p z1 r1)].
    Qed.
    Lemma at_in z r d m : In (z, r) roots -> (at_name (view T) (d ++ z) m <-> exists c, walk r (rev d) = Some c /\ m = view c).
    Proof. intros I. rewrite (view_at hash b T _ _ GT), (ti_in _ _ _ _ TI z r d I). reflexivity. Qed.
    Lemma at_out q m : (forall p z r, In (z, r) roots -> q <> p ++ z) -> at_name (view T) q m -> n_zcut m = false /\ n_rrsets m = [].
    Proof. intros O A. apply (view_at hash b T _ _ GT) in A. destruct A as (c & W & ->). pose proof (ti_out _ _ _ _ TI q O) as X. rewrite W in X. rewrite view_zcut, view_rrsets. apply X. Qed.

    Lemma at_wf q m : at_name (view T) q m -> wf_node m.
    Proof.
      intros A. pose proof A as A0. apply (view_at hash b T _ _ GT) in A. destruct A as (c & W & ->). pose proof (walk_good hash b _ _ _ GT W) as GC.
      assert (KN : NoDup (map fst (n_children (view c)))).
      { rewrite view_children, map_map. cbn [fst]. exact (kids_nodup hash b c GC). }
      destruct (in_or_out q) as [(z & r & d & I & ->)|O].
      - destruct (root_of z r I) as (rs & raw & _ & L). rewrite (ti_in _ _ _ _ TI z r d I) in W. destruct (both_some _ _ _ _ _ _ _ L d c W) as (c0 & W0 & _).
        destruct (node_ok _ _ _ _ CF _ _ _ L d c0 c W0 W) as ((ND & _ & _) & _ & AL & _). unfold wf_node. rewrite view_rrsets, view_zcut. split; [exact KN|]. split; [|split; [exact ND|split; [|split]]].
        + apply Forall_forall. intros s IS. exact (set_wf _ _ _ _ hash64 CF _ _ _ L d c0 c s W0 W IS).
        + intros s IS TS. apply AL; [exact IS|exact TS].
        + intros s IS TS. exact (ns_zcut _ _ _ _ CF _ _ _ L d c s W IS TS).
        + intros w IW. apply (view_in hash b c _ _ GC) in IW. destruct IW as (k & CK & ->). rewrite view_zcut. apply (wild_no_cut _ _ _ _ CF _ _ _ L d). cbn [rev]. rewrite walk_app, W. cbn. now rewrite CK.
      - destruct (at_out q _ O A0) as (Z & R). unfold wf_node. rewrite R. split; [exact KN|]. split; [constructor|]. split; [constructor|]. split; [intros s []|]. split; [intros s []|].
        intros w IW. assert (AW : at_name (view T) ([42] :: q) w) by (eapply at_child; eauto). destruct (in_or_out ([42] :: q)) as [(z & r & d & I & E)|O'].
        + destruct d as [|x d]; [|injection E as _ E; exfalso; exact (O d z r I E)]. cbn in E. subst z. exfalso. destruct (root_of _ _ I) as (rs & raw & _ & L). now apply (ld_name _ _ _ _ _ _ _ L).
        + apply (at_out _ _ O' AW).
    Qed.

    Lemma zcut_in q m : at_name (view T) q m -> n_zcut m = true -> exists z r d c, In (z, r) roots /\ q = d ++ z /\ walk r (rev d) = Some c /\ m = view c.
    Proof.
      intros A Z. destruct (in_or_out q) as [(z & r & d & I & ->)|O].
      - apply (at_in z r d m I) in A. destruct A as (c & W & E). exists z, r, d, c. auto.
      - destruct (at_out q m O A). congruence.
    Qed.
    Lemma root_cut z r q p : In (z, r) roots -> q = p ++ z -> cut_above (view T) q z (view r).
    Proof.
      intros I E. split; [eauto|]. split; [apply (at_in z r [] _ I); exists r; auto|]. rewrite view_zcut. apply (ti_zone _ _ _ _ TI z r I).
    Qed.
    Lemma zone_of_root q z zn : zone_of (view T) q z zn -> exists r, In (z, r) roots /\ zn = view r.
    Proof.
      intros (((p & E) & A & Z) & MIN). destruct (zcut_in z zn A Z) as (z0 & r & d & c & I & E0 & W & ->). subst z.
      pose proof (root_cut z0 r q (p ++ d) I) as RC. specialize (RC ltac:(now rewrite <- app_assoc)). apply MIN in RC. rewrite app_length in RC. destruct d; [|cbn in RC; lia]. cbn in W. injection W as <-. exists r. auto.
    Qed.
    Lemma root_zone_of z r q p : In (z, r) roots -> q = p ++ z -> zone_of (view T) q z (view r).
    Proof.
      intros I E. split; [now apply (root_cut z r q p)|]. intros z' n' ((p' & E') & A & Z). destruct (zcut_in z' n' A Z) as (z0 & r0 & d & c & I0 & E0 & W & ->). subst z' q.
      rewrite app_length. rewrite app_assoc in E'. apply two_suffixes in E'. destruct E' as [(x & X)|(x & X)].
      - destruct (ti_apart _ _ _ _ TI z r z0 r0 x I I0 X) as (-> & _). cbn in X. subst. lia.
      - destruct (ti_apart _ _ _ _ TI z0 r0 z r x I0 I X) as (-> & _). cbn in X. subst. lia.
    Qed.
    Lemma tree_wf : wf_db (view T).
    Proof.
      split; [exact at_wf|]. split.
      - intros q z zn ZO. destruct (zone_of_root q z zn ZO) as (r & I & ->). destruct (root_of z r I) as (rs & raw & _ & L). destruct (root_soa _ _ _ _ CF _ _ _ L) as (s & IS & TS). exists s. rewrite view_rrsets. auto.
      - intros q d dn (z & zn & ZO & ((p & E) & A & Z) & LT & _). destruct (zone_of_root q z zn ZO) as (r & I & ->).
        destruct (zcut_in d dn A Z) as (z0 & r0 & d0 & c & I0 & E0 & W & ->). rewrite view_zcut in Z. destruct (root_of z0 r0 I0) as (rs & raw & _ & L).
        destruct ZO as (((p1 & E1) & _) & _). assert (z0 = z).
        { subst d. rewrite E1 in E. rewrite app_assoc in E. apply two_suffixes in E. destruct E as [(x & X)|(x & X)].
          - destruct (ti_apart _ _ _ _ TI z r z0 r0 x I I0 X) as (-> & _). now rewrite X.
          - destruct (ti_apart _ _ _ _ TI z0 r0 z r x I0 I X) as (-> & _). now rewrite X. }
        subst z0. assert (C : cut rs d0).
        { destruct (both_some _ _ _ _ _ _ _ L d0 c W) as (c0 & W0 & ind & g & g' & _ & _ & CA & _). unfold get_zcut in Z. rewrite CA in Z. apply (zcut_raw _ _ _ _ _ _ _ L d0 c0 W0) in Z. destruct Z as [->|C]; [|exact C]. subst d. cbn in LT. lia. }
        destruct (cut_ns _ _ _ _ CF _ _ _ L d0 c W C) as (s & IS & TS). exists s. rewrite view_rrsets. auto.
    Qed.
    Lemma tree_holds z rs d : In (z, rs) zs -> proper d ->
      (name_exists rs d <-> exists n, at_name (view T) (d ++ z) n) /\ (forall n, at_name (view T) (d ++ z) n -> name_holds cfg pl z rs d (n_zcut n) (n_rrsets n)).
    Proof.
      intros I PD. destruct (zone_root z rs I) as (r & raw & IR & L). split.
      - rewrite <- (exists_iff _ _ _ _ CF _ _ _ L d PD). split.
        + intros (c & W). destruct (both_raw _ _ _ _ _ _ _ L d c W) as (c' & W' & _). exists (view c'). apply (at_in z r d _ IR). eauto.
        + intros (n & A). apply (at_in z r d n IR) in A. destruct A as (c' & W' & _). destruct (both_some _ _ _ _ _ _ _ L d c' W') as (c & W & _). eauto.
      - intros n A. apply (at_in z r d n IR) in A. destruct A as (c' & W' & ->). rewrite view_zcut, view_rrsets. now apply (holds _ _ _ _ hash64 CF _ raw r L).
    Qed.
  End Loaded.
End Tree.
