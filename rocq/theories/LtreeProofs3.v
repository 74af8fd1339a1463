(** Nodes as maps from labels to children, and paths. *)
From Coq Require Import Sorting.Permutation.
From Verif Require Import Base DnameModel RandModel CompModel RespModel LtreeModel LtreeProofs LtreeProofs2.
Local Open Scope N_scope.
Ltac Zify.zify_post_hook ::= idtac.

(** ** Counts and flags *)
Definition caf_of (cc : N) (z : bool) : N := cc + (if z then 2 ^ 63 else 0).
Lemma high_bit cc i : cc < 2 ^ 62 -> 62 <= i -> N.testbit cc i = false.
Proof.
  intros C I. destruct (N.eq_dec cc 0) as [->|NZ]; [apply N.bits_0|]. apply N.bits_above_log2.
  assert (N.log2 cc < 62) by (apply N.log2_lt_pow2; [lia|exact C]). lia.
Qed.
Lemma caf_testbit cc z i : cc < 2 ^ 62 -> N.testbit (caf_of cc z) i = N.testbit cc i || (z && (i =? 63)).
Proof.
  intros C. unfold caf_of. destruct z; cbn [andb].
  - assert (L : N.land cc (2 ^ 63) = 0).
    { apply N.bits_inj_0. intros n. rewrite N.land_spec, N.pow2_bits_eqb. destruct (N.eqb_spec 63 n) as [<-|NE]; [|apply andb_false_r].
      rewrite high_bit; auto. lia. }
    rewrite (N.add_nocarry_lxor _ _ L), N.lxor_spec, N.pow2_bits_eqb, (N.eqb_sym 63 i).
    destruct (N.eqb_spec i 63) as [->|NE].
    + rewrite high_bit; auto. lia.
    + now rewrite xorb_false_r, orb_false_r.
  - now rewrite N.add_0_r, orb_false_r.
Qed.
Lemma caf_count cc z : cc < 2 ^ 62 -> N.land (caf_of cc z) (2 ^ 62 - 1) = cc.
Proof.
  intros C. change (2 ^ 62 - 1) with (N.ones 62). apply N.bits_inj. intros i. rewrite N.land_spec, caf_testbit by exact C.
  destruct (N.lt_ge_cases i 62) as [L|G].
  - rewrite N.ones_spec_low, andb_true_r by lia. destruct (N.eqb_spec i 63); [lia|]. now rewrite andb_false_r, orb_false_r.
  - rewrite N.ones_spec_high, andb_false_r by lia. now rewrite high_bit.
Qed.
Lemma caf_zcut cc z : cc < 2 ^ 62 -> N.testbit (caf_of cc z) 63 = z.
Proof. intros C. rewrite caf_testbit by exact C. rewrite (high_bit cc 63) by (auto; lia). cbn. now rewrite andb_true_r. Qed.
Lemma caf_inc cc z : cc + 1 < 2 ^ 62 -> (caf_of cc z + 1) mod W64 = caf_of (cc + 1) z.
Proof.
  intros C. unfold caf_of. rewrite N.mod_small; [lia|]. rewrite W64_pow. change (2 ^ 64) with (2 * 2 ^ 63). change (2 ^ 63) with (2 * 2 ^ 62). destruct z; lia.
Qed.
Lemma caf_set cc z : cc < 2 ^ 62 -> N.lor (caf_of cc z) (2 ^ 63) = caf_of cc true.
Proof.
  intros C. apply N.bits_inj. intros i. rewrite N.lor_spec, !caf_testbit by exact C. rewrite N.pow2_bits_eqb, (N.eqb_sym 63 i).
  cbn [andb]. destruct z, (N.testbit cc i), (i =? 63); reflexivity.
Qed.

Section Nodes.
  Variable hash : list N -> N.
  Hypothesis hash64 : forall l, hash l < W64.

  Definition kids (n : lnode) : list lnode := elems (l_table n).
  Definition child (n : lnode) (l : list N) : option lnode := lookup labelof l (kids n).
  Definition fresh (l : list N) : lnode := LNode 0 (Some l) None [].

  (** all tables in order, at most [b] children anywhere *)
  Inductive good (b : N) (n : lnode) : Prop :=
    Good cc z : l_caf n = caf_of cc z -> cc <= b -> cc < 2 ^ 62 -> tab_ok labelof hash cc (l_table n) ->
      (forall c, In c (kids n) -> exists l, l_label c = Some l) -> (forall c, In c (kids n) -> good b c) -> good b n.

  Lemma good_mono b b' n : good b n -> b <= b' -> good b' n.
  Proof.
    intros G L. induction G as [n cc z E C1 C2 T KL K IH]. apply (Good b' n cc z); auto. lia.
  Qed.
  Lemma good_fresh b l : good b (fresh l).
  Proof. apply (Good b _ 0 false); [reflexivity|lia|reflexivity|reflexivity|intros c []|intros c []]. Qed.

  Lemma good_count b n : good b n -> exists cc z, l_caf n = caf_of cc z /\ get_ccount n = cc /\ get_zcut n = z /\ cc <= b /\ cc < 2 ^ 62 /\ tab_ok labelof hash cc (l_table n).
  Proof. intros [cc z E C1 C2 T KL K]. exists cc, z. unfold get_ccount, get_zcut. rewrite E, caf_count, caf_zcut by exact C2. auto 10. Qed.
  Lemma good_kid b n c : good b n -> In c (kids n) -> (exists l, l_label c = Some l) /\ good b c.
  Proof. intros [cc z E C1 C2 T KL K] I. split; [now apply KL|now apply K]. Qed.
  Lemma kids_nodup b n : good b n -> NoDup (map labelof (kids n)).
  Proof. intros G. destruct (good_count b n G) as (cc & z & _ & _ & _ & _ & _ & T). unfold kids. destruct (l_table n) as [t|]; cbn in *; [apply T|constructor]. Qed.

  Lemma child_in b n l c : good b n -> (child n l = Some c <-> In c (kids n) /\ l_label c = Some l).
  Proof.
    intros G. unfold child. split.
    - intros E. apply find_some in E. destruct E as [I B]. apply bytes_eqb_iff in B. split; [exact I|].
      destruct (proj1 (good_kid b n c G I)) as (l' & E'). unfold labelof in B. rewrite E' in *. congruence.
    - intros [I E]. apply find_unique; [eapply kids_nodup; eauto|exact I|]. unfold labelof. now rewrite E.
  Qed.
  Lemma child_none n l : child n l = None <-> forall c, In c (kids n) -> labelof c <> l.
  Proof.
    split.
    - intros E c I LB. apply (find_none _ _ E) in I. cbn in I. rewrite LB, bytes_eqb_refl in I. discriminate.
    - apply lookup_absent.
  Qed.
  Lemma node_find_child_ok b n l : good b n -> node_find_child hash n l = Ok (child n l).
  Proof.
    intros G. destruct (good_count b n G) as (cc & z & _ & E & _ & _ & _ & T). unfold node_find_child. rewrite E. now apply table_find_ok.
  Qed.

  Lemma child_perm n n' : NoDup (map labelof (kids n)) -> Permutation (kids n) (kids n') -> forall l, child n l = child n' l.
  Proof.
    intros ND P l. unfold child. destruct (lookup labelof l (kids n)) as [c|] eqn:E.
    - apply find_some in E. destruct E as [I B]. apply bytes_eqb_iff in B. symmetry. apply find_unique; auto.
      + eapply Permutation_NoDup; [apply Permutation_map; exact P|exact ND].
      + eapply Permutation_in; eauto.
    - symmetry. apply lookup_absent. intros c I LB. apply Permutation_sym in P. apply (Permutation_in _ P) in I.
      apply (find_none _ _ E) in I. cbn in I. rewrite LB, bytes_eqb_refl in I. discriminate.
  Qed.

  (** [f]'s result may take the place of the child *)
  Lemma find_or_add_child_ok b n l f : good b n -> b + 1 < 2 ^ 62 ->
    let c0 := match child n l with Some c => c | None => fresh l end in
    (forall c', f c0 = Ok (Some c') -> l_label c' = Some l /\ good (b + 1) c') ->
    match f c0 with
    | UB => find_or_add_child hash n l f = UB
    | Ok None => find_or_add_child hash n l f = Ok None
    | Ok (Some c') => exists n', find_or_add_child hash n l f = Ok (Some n') /\ good (b + 1) n' /\ l_label n' = l_label n /\ l_rrsets n' = l_rrsets n /\
        get_zcut n' = get_zcut n /\ (forall l', child n' l' = if bytes_eqb l l' then Some c' else child n l')
    end.
  Proof.
    intros G B c0 F. destruct (good_count b n G) as (cc & z & EC & E & EZ & CB & C62 & T).
    unfold find_or_add_child. rewrite E.
    destruct (table_seek_ok labelof hash hash64 cc (l_table n) l T ltac:(lia)) as [(i & c & tb & S & TE & I & AT & LB)|(tb & mask & pd & S & AB & INS)]; rewrite S; cbn [rbind].
    - assert (IC : In c (kids n)). { unfold kids. rewrite TE. eapply in_elems; [|exact AT]. rewrite TE in T. destruct T as (_ & _ & R & _). pose proof (rh_len _ _ R). lia. }
      assert (CE : child n l = Some c) by (apply find_unique; auto; eapply kids_nodup; eauto).
      unfold c0 in *. rewrite CE in *. unfold zbind. destruct (f c) as [[c'|]|] eqn:FE; cbn [rbind]; try reflexivity.
      destruct (F c' eq_refl) as (LC' & GC'). rewrite TE in T.
      destruct (replace_ok labelof hash hash64 cc tb i c c' l T I AT LB ltac:(unfold labelof; now rewrite LC')) as (tb' & W & T' & a & b' & EA & EB).
      rewrite W. cbn [rbind]. exists (set_table n tb'). split; [reflexivity|].
      assert (KN : kids n = a ++ c :: b') by (unfold kids; rewrite TE; exact EA).
      assert (KN' : kids (set_table n tb') = a ++ c' :: b') by (unfold kids; destruct n; exact EB).
      assert (LL' : labelof c' = l) by (unfold labelof; now rewrite LC').
      split; [|split; [destruct n; reflexivity|split; [destruct n; reflexivity|split; [destruct n; reflexivity|]]]].
      + assert (KK : forall x, In x (kids (set_table n tb')) -> (exists l, l_label x = Some l) /\ good (b + 1) x).
        { rewrite KN'. intros x IX. apply in_app_iff in IX. destruct IX as [IX|[<-|IX]].
          - destruct (good_kid b n x G) as (H1 & H2); [rewrite KN; apply in_app_iff; now left|]. split; [exact H1|]. eapply good_mono; eauto. lia.
          - split; [eauto|exact GC'].
          - destruct (good_kid b n x G) as (H1 & H2); [rewrite KN; apply in_app_iff; right; now right|]. split; [exact H1|]. eapply good_mono; eauto. lia. }
        apply (Good _ _ cc z); [destruct n; exact EC|lia|exact C62|destruct n; exact T'|intros x IX; now apply KK|intros x IX; now apply KK].
      + pose proof (kids_nodup b n G) as ND. rewrite KN, map_app in ND. cbn [map] in ND. pose proof (NoDup_remove_2 _ _ _ ND) as NI. rewrite LB in NI.
        intros l'. destruct (bytes_eqb l l') eqn:BE.
        * apply bytes_eqb_iff in BE. subst l'. unfold child. rewrite KN'. apply find_unique; auto; [|apply in_app_iff; right; now left].
          rewrite map_app. cbn [map]. rewrite LL'. rewrite LB in ND. exact ND.
        * unfold child, lookup. rewrite KN, KN'. clear - LL' LB BE. induction a as [|x a IH]; cbn [app find].
          -- rewrite LL', LB, BE. reflexivity.
          -- now rewrite IH.
    - assert (CE : child n l = None) by (apply child_none; exact AB). unfold c0 in *. rewrite CE in *. fold (fresh l). unfold zbind.
      destruct (f (fresh l)) as [[c'|]|] eqn:FE; cbn [rbind]; try reflexivity.
      destruct (F c' eq_refl) as (LC' & GC'). assert (LL' : labelof c' = l) by (unfold labelof; now rewrite LC').
      destruct (INS c' LL') as (tb' & E' & T' & P'). rewrite E'. cbn [rbind]. exists (inc_ccount (set_table n tb')). split; [reflexivity|].
      assert (KP : Permutation (kids (inc_ccount (set_table n tb'))) (c' :: kids n)) by (destruct n; exact P').
      assert (EC' : l_caf (inc_ccount (set_table n tb')) = caf_of (cc + 1) z).
      { rewrite <- caf_inc by lia. rewrite <- EC. destruct n; reflexivity. }
      assert (G' : good (b + 1) (inc_ccount (set_table n tb'))).
      { assert (KK : forall x, In x (kids (inc_ccount (set_table n tb'))) -> (exists l, l_label x = Some l) /\ good (b + 1) x).
        { intros x IX. apply (Permutation_in _ KP) in IX. destruct IX as [<-|IX]; [split; [eauto|exact GC']|].
          destruct (good_kid b n x G IX) as (H1 & H2). split; [exact H1|]. eapply good_mono; eauto. lia. }
        apply (Good _ _ (cc + 1) z); [exact EC'|lia|lia|destruct n; exact T'|intros x IX; now apply KK|intros x IX; now apply KK]. }
      split; [exact G'|].
      split; [destruct n; reflexivity|split; [destruct n; reflexivity|split]].
      + unfold get_zcut in *. rewrite EC', caf_zcut, EZ by lia. reflexivity.
      + intros l'. pose proof (kids_nodup _ _ G') as ND. destruct (bytes_eqb l l') eqn:BE.
        * apply bytes_eqb_iff in BE. subst l'. apply find_unique; auto. eapply Permutation_in; [apply Permutation_sym; exact KP|]. now left.
        * assert (K : child n l' = find (fun c => bytes_eqb (labelof c) l') (c' :: kids n)).
          { cbn [find]. now rewrite LL', BE. }
          rewrite K. unfold child. destruct (find _ (c' :: kids n)) as [x|] eqn:FX.
          -- apply find_some in FX. destruct FX as [IX BX]. apply find_unique; auto; [|now apply bytes_eqb_iff]. eapply Permutation_in; [apply Permutation_sym; exact KP|exact IX].
          -- apply lookup_absent. intros x IX LX. apply (Permutation_in _ KP) in IX. apply (find_none _ _ FX) in IX. cbn in IX. rewrite LX, bytes_eqb_refl in IX. discriminate.
  Qed.

  (** ** Paths: labels from the one nearest the root *)
  Fixpoint walk (n : lnode) (s : list (list N)) : option lnode :=
    match s with
    | [] => Some n
    | l :: s => match child n l with Some c => walk c s | None => None end
    end.
  (** the node an operation on a path gets *)
  Fixpoint target (n : lnode) (s : list (list N)) : lnode :=
    match s with
    | [] => n
    | l :: s => target (match child n l with Some c => c | None => fresh l end) s
    end.
  Lemma walk_app n s s' : walk n (s ++ s') = match walk n s with Some c => walk c s' | None => None end.
  Proof. revert n. induction s as [|l s IH]; intros n; cbn; [reflexivity|]. destruct (child n l); [apply IH|reflexivity]. Qed.
  Lemma walk_fresh l s : s <> [] -> walk (fresh l) s = None.
  Proof. destruct s; [congruence|]. reflexivity. Qed.
  Lemma target_walk n s c : walk n s = Some c -> target n s = c.
  Proof. revert n. induction s as [|l s IH]; intros n; cbn; [congruence|]. destruct (child n l); [apply IH|discriminate]. Qed.
  Lemma last_cons_any {X} (x : X) s d d' : last (x :: s) d = last (x :: s) d'.
  Proof. revert x. induction s as [|y s IH]; intros x; [reflexivity|]. change (last (y :: s) d = last (y :: s) d'). apply IH. Qed.
  Lemma last_cons {X} (x : X) s d : last (x :: s) d = last s x.
  Proof. destruct s as [|y s]; [reflexivity|]. change (last (y :: s) d = last (y :: s) x). apply last_cons_any. Qed.
  Lemma target_fresh s : forall l, target (fresh l) s = fresh (last s l).
  Proof. induction s as [|x s IH]; intros l; [reflexivity|]. rewrite last_cons, <- IH. reflexivity. Qed.
  Lemma target_none n s d : walk n s = None -> target n s = fresh (last s d).
  Proof.
    revert n d. induction s as [|l s IH]; intros n d; cbn [walk]; [discriminate|]. rewrite last_cons. cbn [target]. destruct (child n l) as [c|].
    - intros E. now apply IH.
    - intros _. apply target_fresh.
  Qed.
  Lemma target_good b n s : good b n -> good b (target n s).
  Proof.
    revert n. induction s as [|l s IH]; intros n G; [exact G|]. cbn. apply IH. destruct (child n l) as [c|] eqn:E; [|apply good_fresh].
    apply (child_in b n l c G) in E. now apply (good_kid b n c G).
  Qed.

  Definition prefix (a b : list (list N)) : Prop := exists x, b = a ++ x.

  Lemma find_or_add_path_ok b s f : forall n, good b n -> b + 1 < 2 ^ 62 ->
    (forall c', f (target n s) = Ok (Some c') -> l_label c' = l_label (target n s) /\ good (b + 1) c') ->
    match f (target n s) with
    | UB => find_or_add_path hash n s f = UB
    | Ok None => find_or_add_path hash n s f = Ok None
    | Ok (Some c') => exists n', find_or_add_path hash n s f = Ok (Some n') /\ good (b + 1) n' /\ l_label n' = l_label n /\
        (forall x, walk n' (s ++ x) = walk c' x) /\
        (forall s1 s2, s = s1 ++ s2 -> s2 <> [] -> exists m, walk n' s1 = Some m /\ l_rrsets m = l_rrsets (target n s1) /\ get_zcut m = get_zcut (target n s1) /\ l_label m = l_label (target n s1)) /\
        (forall s', ~ prefix s s' -> ~ prefix s' s -> walk n' s' = walk n s')
    end.
  Proof.
    induction s as [|l s IH]; intros n G B F; cbn [target find_or_add_path] in *.
    - destruct (f n) as [[c'|]|] eqn:FE; try reflexivity. destruct (F c' eq_refl) as (L' & G').
      exists c'. split; [reflexivity|]. split; [exact G'|]. split; [exact L'|]. split; [reflexivity|]. split.
      + intros s1 s2 E NE. destruct s1; [destruct s2; [congruence|discriminate]|discriminate].
      + intros s' NP. exfalso. apply NP. exists s'. reflexivity.
    - set (c0 := match child n l with Some c => c | None => fresh l end) in *.
      assert (G0 : good b c0). { unfold c0. destruct (child n l) as [c|] eqn:E; [|apply good_fresh]. apply (child_in b n l c G) in E. now apply (good_kid b n c G). }
      assert (L0 : l_label c0 = Some l). { unfold c0. destruct (child n l) as [c|] eqn:E; [|reflexivity]. now apply (child_in b n l c G) in E. }
      specialize (IH c0 G0 B F).
      pose proof (find_or_add_child_ok b n l (fun c => find_or_add_path hash c s f) G B) as H. cbn beta zeta in H. fold c0 in H.
      destruct (f (target c0 s)) as [[c'|]|] eqn:FE.
      + destruct IH as (c1 & E1 & G1 & L1 & WX & WP & WO). rewrite E1 in H.
        destruct H as (n' & E' & G' & L' & R' & Z' & CH).
        { intros c2 E2. injection E2 as <-. split; [congruence|exact G1]. }
        exists n'. split; [exact E'|]. split; [exact G'|]. split; [exact L'|].
        assert (CL : child n' l = Some c1) by (rewrite CH, bytes_eqb_refl; reflexivity).
        split; [|split].
        * intros x. cbn [app walk]. now rewrite CL.
        * intros s1 s2 E NE. destruct s1 as [|l1 s1].
          -- exists n'. cbn. auto.
          -- cbn [app] in E. injection E as <- E. cbn [walk target]. rewrite CL. fold c0. now apply (WP s1 s2).
        * intros s' NP NP'. destruct s' as [|l1 s1]; [exfalso; apply NP'; exists (l :: s); reflexivity|].
          cbn [walk]. rewrite CH. destruct (bytes_eqb l l1) eqn:BE; [|reflexivity]. apply bytes_eqb_iff in BE. subst l1.
          rewrite WO.
          -- unfold c0. destruct (child n l); [reflexivity|]. apply walk_fresh. intros ->. apply NP'. exists s. reflexivity.
          -- intros (x & ->). apply NP. exists x. reflexivity.
          -- intros (x & ->). apply NP'. exists x. reflexivity.
      + rewrite IH in H. apply H. discriminate.
      + rewrite IH in H. apply H. discriminate.
  Qed.
End Nodes.
