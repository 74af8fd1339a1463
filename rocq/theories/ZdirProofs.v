(** When zones cannot be merged; a whole list of zones. *)
From Coq Require Import Permutation.
From Verif Require Import Base DnameModel DnameSpec CompModel CompProofs RespModel RespSpec LtreeModel LtreeSpec LtreeProofs LtreeProofs2 LtreeProofs3 LtreeProofs4 LtreeProofs5 LtreeProofs6 LtreeProofs7 LtreeProofs8 LtreeProofs9 LtreeProofs10 LtreeProofs11 LtreeProofs12 LtreeProofs13 LtreeProps ZdirModel.
Local Open Scope N_scope.

Definition related (z1 z2 : name) : Prop := exists p, z1 = p ++ z2 \/ z2 = p ++ z1.

Section Merge.
  Variable hash : list N -> N.
  Hypothesis hash64 : forall l, hash l < W64.

  Lemma some_kid b n : good hash b n -> get_ccount n <> 0 -> exists l c, child n l = Some c.
  Proof.
    intros G C. destruct (good_count hash b n G) as (cc & z & _ & E & _ & _ & _ & T). destruct (l_table n) as [t|] eqn:TE; [|cbn in T; congruence].
    destruct T as (P & _ & _ & _ & L & _). assert (K : kids n = map snd (ents t)) by (unfold kids; rewrite TE; reflexivity).
    destruct (ents t) as [|x l]; [cbn in L; lia|]. cbn in K. assert (I : In (snd x) (kids n)) by (rewrite K; now left).
    destruct (good_kid hash b n _ G I) as ((lab & EL) & _). exists lab, (snd x). apply (child_in hash b n lab _ G). auto.
  Qed.

  Lemma merge_path_none b s zroot : forall n, good hash b n -> good hash b zroot -> b + 1 < 2 ^ 62 -> l_label zroot = l_label (target n s) ->
    (forall s1 s2 m, s = s1 ++ s2 -> walk n s1 = Some m -> (forall x y m', s1 = x ++ y -> walk n x = Some m' -> get_zcut m' = false) -> l_rrsets m = []) ->
    merge_path hash n s zroot = Ok None ->
    (exists s1 s2 m, s = s1 ++ s2 /\ walk n s1 = Some m /\ get_zcut m = true) \/ (exists m l c, walk n s = Some m /\ child m l = Some c).
  Proof.
    induction s as [|l s IH]; intros n G GZ B LB RR H; cbn [merge_path target] in *.
    - destruct (get_zcut n) eqn:Z; [left; exists [], [], n; auto|]. destruct (N.eqb_spec (get_ccount n) 0) as [C|C]; cbn [negb] in H.
      + destruct (no_kids hash b n G C) as (T & NK). rewrite T, (RR [] [] n eq_refl eq_refl) in H; [discriminate|].
        intros x y m' E W. symmetry in E. apply app_eq_nil in E. destruct E as (-> & _). cbn in W. congruence.
      + right. destruct (some_kid b n G C) as (l & c & E). exists n, l, c. auto.
    - destruct (get_zcut n) eqn:Z; [left; exists [], (l :: s), n; auto|]. set (c0 := match child n l with Some c => c | None => fresh l end) in *.
      assert (G0 : good hash b c0). { unfold c0. destruct (child n l) as [c|] eqn:E; [|now apply good_fresh]. apply (child_in hash b n l c G) in E. now apply (good_kid hash b n c G). }
      assert (L0 : l_label c0 = Some l). { unfold c0. destruct (child n l) as [c|] eqn:E; [|reflexivity]. now apply (child_in hash b n l c G) in E. }
      assert (RR0 : forall s1 s2 m, s = s1 ++ s2 -> walk c0 s1 = Some m -> (forall x y m', s1 = x ++ y -> walk c0 x = Some m' -> get_zcut m' = false) -> l_rrsets m = []).
      { intros s1 s2 m E W ZM. destruct (child n l) as [c|] eqn:CE; unfold c0 in *.
        - apply (RR (l :: s1) s2 m); [cbn; congruence|cbn [walk]; now rewrite CE|]. intros x y m' EX WX. destruct x as [|l0 x]; [cbn in WX; congruence|]. cbn [app] in EX. injection EX as <- EX. cbn [walk] in WX. rewrite CE in WX. now apply (ZM x y m').
        - destruct s1 as [|x s1]; [cbn in W; injection W as <-; reflexivity|]. rewrite walk_fresh in W by discriminate. discriminate. }
      specialize (IH c0 G0 GZ B LB RR0). pose proof (merge_path_ok hash hash64 b s zroot c0 G0 GZ B LB RR0) as MP.
      pose proof (find_or_add_child_ok hash hash64 b n l (fun c => merge_path hash c s zroot) G B) as FA. cbn beta zeta in FA. fold c0 in FA.
      destruct (merge_path hash c0 s zroot) as [[c1|]|] eqn:E1; [| |contradiction].
      + destruct MP as (G1 & L1 & _). destruct FA as (n' & E' & _); [|congruence]. intros c2 E2. injection E2 as <-. split; [congruence|exact G1].
      + destruct (child n l) as [c|] eqn:CE; unfold c0 in *.
        * destruct (IH eq_refl) as [(s1 & s2 & m & ES & W & ZC)|(m & l1 & k & W & CK)].
          -- left. exists (l :: s1), s2, m. split; [cbn; congruence|]. cbn [walk]. rewrite CE. auto.
          -- right. exists m, l1, k. cbn [walk]. rewrite CE. auto.
        * destruct (IH eq_refl) as [(s1 & s2 & m & ES & W & ZC)|(m & l1 & k & W & CK)].
          -- destruct s1 as [|x s1]; [cbn in W; injection W as <-; discriminate ZC|]. rewrite walk_fresh in W by discriminate. discriminate.
          -- destruct s as [|x s]; [cbn in W; injection W as <-; discriminate CK|]. rewrite walk_fresh in W by discriminate. discriminate.
  Qed.

  Lemma related_sym z1 z2 : related z1 z2 -> related z2 z1.
  Proof. intros (p & [E|E]); exists p; auto. Qed.

  (** merging fails exactly when the zone is related to one that is there *)
  Lemma merge_exact b zs T z r : tree_inv hash b zs T -> good hash b r -> b + 1 < 2 ^ 62 -> l_label r = hd_error z -> get_zcut r = true ->
    (exists T', merge_zone hash T z r = Ok (Some T') /\ tree_inv hash (b + 1) ((z, r) :: zs) T' /\ forall z0 r0, In (z0, r0) zs -> ~ related z z0) \/
    (merge_zone hash T z r = Ok None /\ exists z0 r0, In (z0, r0) zs /\ related z z0).
  Proof.
    intros TI GR B LR ZR. pose proof (merge_inv hash hash64 b zs T z r TI GR B LR ZR) as M. destruct (merge_zone hash T z r) as [[T'|]|] eqn:E; [| |contradiction].
    - left. exists T'. split; [reflexivity|]. split; [exact M|]. intros z0 r0 I (p & R). pose proof (ti_once _ _ _ _ M) as ND. cbn in ND. inversion ND as [|? ? NI _]; subst.
      assert (IZ : In z0 (map fst zs)) by (apply in_map_iff; exists (z0, r0); auto).
      destruct R as [R|R].
      + destruct (ti_apart _ _ _ _ M z r z0 r0 p (or_introl eq_refl) (or_intror I) R) as (-> & _). cbn in R. congruence.
      + destruct (ti_apart _ _ _ _ M z0 r0 z r p (or_intror I) (or_introl eq_refl) R) as (-> & _). cbn in R. congruence.
    - right. split; [reflexivity|]. unfold merge_zone in E. rewrite ZR, (ti_label _ _ _ _ TI) in E. cbn [andb rassert] in E.
      assert (LB : l_label r = l_label (target T (rev z))).
      { rewrite LR. destruct z as [|l z]; [symmetry; apply (ti_label _ _ _ _ TI)|]. rewrite (target_label_ok hash hash64 b (rev (l :: z)) T [] (ti_good _ _ _ _ TI)) by (cbn; intros X; apply app_eq_nil in X; now destruct X).
        now rewrite last_rev_hd. }
      assert (UNDER : forall q, (exists z0 r0 p, In (z0, r0) zs /\ q = p ++ z0) \/ (forall p z0 r0, In (z0, r0) zs -> q <> p ++ z0)).
      { intros q. clear. induction zs as [|(z0, r0) zs IH]; [right; intros p z0 r0 []|]. destruct (suffix_dec z0 q) as [(p & E)|N]; [left; exists z0, r0, p; split; [now left|exact E]|].
        destruct IH as [(z1 & r1 & p & I & E)|H]; [left; exists z1, r1, p; split; [now right|exact E]|]. right. intros p z1 r1 [X|I]; [injection X as <- <-; intros E; apply N; eauto|now apply (H p z1 r1)]. }
      assert (RR : forall s1 s2 m, rev z = s1 ++ s2 -> walk T s1 = Some m -> (forall x y m', s1 = x ++ y -> walk T x = Some m' -> get_zcut m' = false) -> l_rrsets m = []).
      { intros s1 s2 m ES W ZM. destruct (UNDER (rev s1)) as [(z0 & r0 & p & I0 & EQ)|N].
        - exfalso. pose proof (ti_in _ _ _ _ TI z0 r0 [] I0) as WI. cbn [app rev walk] in WI. destruct (ti_zone _ _ _ _ TI z0 r0 I0) as (ZC & _).
          assert (X : get_zcut r0 = false); [|congruence]. apply (ZM (rev z0) (rev p) r0); [|exact WI]. rewrite <- rev_app_distr, <- EQ. now rewrite rev_involutive.
        - pose proof (ti_out _ _ _ _ TI (rev s1) N) as O. rewrite rev_involutive, W in O. apply O. }
      destruct (merge_path_none b (rev z) r T (ti_good _ _ _ _ TI) GR B LB RR E) as [(s1 & s2 & m & ES & W & ZC)|(m & l & c & W & CK)].
      + destruct (UNDER (rev s1)) as [(z0 & r0 & p & I0 & EQ)|N].
        * exists z0, r0. split; [exact I0|]. exists (rev s2 ++ p). left. rewrite <- app_assoc, <- EQ, <- rev_app_distr, <- ES. now rewrite rev_involutive.
        * pose proof (ti_out _ _ _ _ TI (rev s1) N) as O. rewrite rev_involutive, W in O. destruct O as (_ & O & _). congruence.
      + assert (W1 : walk T (rev (l :: z)) = Some c) by (cbn [rev]; rewrite walk_app, W; cbn [walk]; now rewrite CK).
        destruct (UNDER (l :: z)) as [(z0 & r0 & p & I0 & EQ)|N].
        * exists z0, r0. split; [exact I0|]. destruct p as [|x p]; [exists [l]; right; cbn in EQ; now rewrite <- EQ|]. cbn in EQ. injection EQ as _ EQ. exists p. now left.
        * pose proof (ti_out _ _ _ _ TI (l :: z) N) as O. rewrite W1 in O. destruct O as ([O|(z0 & r0 & p & I0 & EQ)] & _); [discriminate|].
          exists z0, r0. split; [exact I0|]. exists (p ++ [l]). right. rewrite EQ, <- app_assoc. reflexivity.
  Qed.

  (** Merging one zone after the other *)
  Fixpoint merge_all (T : lnode) (zs : list (name * lnode)) : zres lnode :=
    match zs with
    | [] => Ok (Some T)
    | (z, r) :: zs => zdo T <- merge_zone hash T z r ; merge_all T zs
    end.
  Lemma merge_all_app xs : forall T ys, merge_all T (xs ++ ys) = zdo T <- merge_all T xs ; merge_all T ys.
  Proof.
    induction xs as [|(z, r) xs IH]; intros T ys; [reflexivity|]. cbn [app merge_all]. unfold zbind. destruct (merge_zone hash T z r) as [[T1|]|]; cbn; [apply IH|reflexivity|reflexivity].
  Qed.

  Definition fine_root (b : N) (x : name * lnode) : Prop := good hash b (snd x) /\ l_label (snd x) = hd_error (fst x) /\ get_zcut (snd x) = true.
  Definition clashing (zs : list name) : Prop := exists l1 a l2 c l3, zs = l1 ++ a :: l2 ++ c :: l3 /\ related a c.

  Lemma tree_mono b b' zs T : tree_inv hash b zs T -> b <= b' -> tree_inv hash b' zs T.
  Proof.
    intros [A1 A2 A3 A4 A5 A6 A7] L. constructor; auto; [eapply good_mono; [exact A1|exact L]|]. intros z0 r0 I0. destruct (A3 z0 r0 I0) as (X & Y). split; [exact X|eapply good_mono; [exact Y|exact L]].
  Qed.

  Lemma merge_all_exact xs : forall b done T, tree_inv hash b done T -> Forall (fine_root b) xs -> b + N.of_nat (length xs) < 2 ^ 62 ->
    (exists T', merge_all T xs = Ok (Some T') /\ tree_inv hash (b + N.of_nat (length xs)) (rev xs ++ done) T') \/
    (merge_all T xs = Ok None /\ exists l1 a l2, xs = l1 ++ a :: l2 /\ exists c, In c (l1 ++ done) /\ related (fst a) (fst c)).
  Proof.
    induction xs as [|(z, r) xs IH]; intros b done T TI F B.
    - left. exists T. split; [reflexivity|]. cbn. rewrite N.add_0_r. exact TI.
    - inversion F as [|? ? (F1 & F2 & F3) FR]; subst. cbn [fst snd length] in *. cbn [merge_all].
      destruct (merge_exact b done T z r TI F1 ltac:(lia) F2 F3) as [(T1 & E & TI1 & NR)|(E & z0 & r0 & I0 & R)]; rewrite E; cbn [zbind rbind].
      + destruct (IH (b + 1) ((z, r) :: done) T1 TI1) as [(T' & E' & TI')|(E' & l1 & a & l2 & EX & c & IC & R)].
        * eapply Forall_impl; [|exact FR]. intros x (X1 & X2 & X3). split; [eapply good_mono; [exact X1|lia]|auto].
        * lia.
        * left. exists T'. split; [exact E'|]. cbn [rev]. rewrite <- app_assoc. cbn [app]. eapply tree_mono; [exact TI'|lia].
        * right. split; [exact E'|]. exists ((z, r) :: l1), a, l2. split; [cbn; now rewrite EX|]. exists c. split; [|exact R]. apply in_app_iff in IC. apply in_app_iff. destruct IC as [IC|[IC|IC]]; [left; now right|left; now left|now right].
      + right. split; [reflexivity|]. exists [], (z, r), xs. split; [reflexivity|]. exists (z0, r0). split; [exact I0|exact R].
  Qed.
End Merge.
