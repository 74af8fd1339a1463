(** The load of a whole directory. *)
From Coq Require Import Permutation.
From Verif Require Import Base DnameModel DnameSpec CompModel CompProofs RespModel RespSpec LtreeModel LtreeSpec LtreeProofs LtreeProofs2 LtreeProofs3 LtreeProofs4 LtreeProofs5 LtreeProofs6 LtreeProofs7 LtreeProofs8 LtreeProofs9 LtreeProofs10 LtreeProofs11 LtreeProofs12 LtreeProofs13 LtreeProps ZscanModel ZscanSpec ZscanProofs13 ZdirModel ZdirSpec ZdirProofs ZdirProofs2 ZdirProofs3.
Local Open Scope N_scope.

(** ** Looking up names *)
Section Search.
  Variable hash : list N -> N.
  Hypothesis hash64 : forall l, hash l < W64.

  Lemma lsearch_path b s1 : forall n s2 r, good hash b n -> walk n s1 = Some r ->
    (forall x y m, s1 = x ++ y -> y <> [] -> walk n x = Some m -> get_zcut m = false) -> lsearch hash n (s1 ++ s2) None = lsearch hash r s2 None.
  Proof.
    induction s1 as [|l s1 IH]; intros n s2 r G W Z; [cbn in W; injection W as <-; reflexivity|].
    cbn [app]. cbn [lsearch]. rewrite (Z [] (l :: s1) n eq_refl ltac:(discriminate) eq_refl). cbn iota. rewrite (node_find_child_ok hash hash64 b n l G). cbn [rbind]. cbn [walk] in W.
    destruct (child n l) as [c|] eqn:E; [|discriminate]. apply IH; [|exact W|].
    - apply (child_in hash b n l c G) in E. now apply (good_kid hash b n c G).
    - intros x y m EX NY WX. apply (Z (l :: x) y m); [cbn; congruence|exact NY|]. cbn [walk]. now rewrite E.
  Qed.
  Lemma lsearch_none b s : forall n, good hash b n -> (forall x y m, s = x ++ y -> walk n x = Some m -> get_zcut m = false) ->
    exists dom, lsearch hash n s None = Ok (NOAUTH, dom, None, O).
  Proof.
    induction s as [|l s IH]; intros n G Z; cbn [lsearch]; rewrite (Z [] _ n eq_refl eq_refl); cbn iota; [eauto|].
    rewrite (node_find_child_ok hash hash64 b n l G). cbn [rbind]. destruct (child n l) as [c|] eqn:E; [|eauto]. apply IH.
    - apply (child_in hash b n l c G) in E. now apply (good_kid hash b n c G).
    - intros x y m EX WX. apply (Z (l :: x) y m); [cbn; congruence|]. cbn [walk]. now rewrite E.
  Qed.

  Lemma zone_dec {A} (zs : list (name * A)) q : (exists z r p, In (z, r) zs /\ q = p ++ z) \/ (forall p z r, In (z, r) zs -> q <> p ++ z).
  Proof.
    induction zs as [|(z0, r0) zs IH]; [right; intros p z0 r0 []|]. destruct (suffix_dec z0 q) as [(p & E)|N]; [left; exists z0, r0, p; split; [now left|exact E]|].
    destruct IH as [(z1 & r1 & p & I & E)|H]; [left; exists z1, r1, p; split; [now right|exact E]|]. right. intros p z1 r1 [X|I]; [injection X as <- <-; intros E; apply N; eauto|now apply (H p z1 r1)].
  Qed.

  Lemma lsearch_zone b zs T z r p : tree_inv hash b zs T -> In (z, r) zs -> lsearch hash T (rev (p ++ z)) None = lsearch hash r (rev p) None.
  Proof.
    intros TI I. rewrite rev_app_distr. apply (lsearch_path b); [apply (ti_good _ _ _ _ TI)|exact (ti_in _ _ _ _ TI z r [] I)|].
    intros x y m EX NY W. destruct (zone_dec zs (rev x)) as [(z0 & r0 & p0 & I0 & E0)|N].
    - exfalso. assert (EZ : z = (rev y ++ p0) ++ z0) by (rewrite <- app_assoc, <- E0, <- rev_app_distr, <- EX; now rewrite rev_involutive).
      destruct (ti_apart _ _ _ _ TI z r z0 r0 _ I I0 EZ) as (P & _). apply app_eq_nil in P. destruct P as (P & _). apply NY. apply (f_equal (@rev _)) in P. now rewrite rev_involutive in P.
    - pose proof (ti_out _ _ _ _ TI (rev x) N) as O. rewrite rev_involutive, W in O. apply O.
  Qed.
  Lemma lsearch_outside b zs T q : tree_inv hash b zs T -> (forall p z r, In (z, r) zs -> q <> p ++ z) -> exists dom, lsearch hash T (rev q) None = Ok (NOAUTH, dom, None, O).
  Proof.
    intros TI NQ. apply (lsearch_none b); [apply (ti_good _ _ _ _ TI)|]. intros x y m EX W.
    assert (N : forall p z r, In (z, r) zs -> rev x <> p ++ z).
    { intros p z r I E. apply (NQ (rev y ++ p) z r I). rewrite <- app_assoc, <- E, <- rev_app_distr, <- EX. now rewrite rev_involutive. }
    pose proof (ti_out _ _ _ _ TI (rev x) N) as O. rewrite rev_involutive, W in O. apply O.
  Qed.
  Lemma same_lookups b1 b2 zs1 zs2 T1 T2 : tree_inv hash b1 zs1 T1 -> tree_inv hash b2 zs2 T2 -> (forall x, In x zs1 <-> In x zs2) ->
    forall q, lsearch hash T1 (rev q) None = lsearch hash T2 (rev q) None \/
      exists d1 d2, lsearch hash T1 (rev q) None = Ok (NOAUTH, d1, None, O) /\ lsearch hash T2 (rev q) None = Ok (NOAUTH, d2, None, O).
  Proof.
    intros I1 I2 S q. destruct (zone_dec zs1 q) as [(z & r & p & I & ->)|N].
    - left. rewrite (lsearch_zone b1 zs1 T1 z r p I1 I). apply S in I. now rewrite (lsearch_zone b2 zs2 T2 z r p I2 I).
    - right. destruct (lsearch_outside b1 zs1 T1 q I1 N) as (d1 & E1). destruct (lsearch_outside b2 zs2 T2 q I2) as (d2 & E2); [|eauto]. intros p z r I. apply (N p z r). now apply S.
  Qed.
End Search.

Lemma perm_two {A} (g1 : list A) c g2 a X : Permutation ((g1 ++ c :: g2) ++ a :: X) (a :: c :: g1 ++ g2 ++ X).
Proof.
  etransitivity; [symmetry; apply Permutation_middle|]. apply perm_skip. rewrite <- app_assoc. cbn [app]. symmetry. apply Permutation_middle.
Qed.

Section All.
  Variable cfg : zcfg.
  Variable pl : plugins.
  Variable hash : list N -> N.
  Variable autosplit : bool.
  Variable pton4 : bytes -> option bytes.
  Variable pton6 : bytes -> option bytes.
  Variable fs : bytes -> option bytes.
  Variable depth : nat.
  Variable ttl : N.
  Variable junk : bytes.
  Variable dir : bytes.
  Hypothesis hash64 : forall l, hash l < W64.
  Hypothesis p4 : forall t a, pton4 t = Some a -> length a = 4%nat.
  Hypothesis p6 : forall t a, pton6 t = Some a -> length a = 16%nat.
  Hypothesis fs_bytes : forall f raw, fs f = Some raw -> all_bytes raw.
  Hypothesis junk_len : length junk = 256%nat.
  Notation lf := (load_file cfg pl hash autosplit pton4 pton6 fs depth ttl junk dir).
  Notation says := (says autosplit pton4 pton6 fs depth ttl dir).
  Notation sound := (sound_file cfg pl hash autosplit pton4 pton6 fs depth ttl dir).

  Variable files : list bytes.
  Hypothesis names : Forall all_bytes files.
  Hypothesis alive : forall fn, In fn files -> lf fn <> UB.
  Hypothesis small : fits autosplit pton4 pton6 fs depth ttl dir files.

  Definition outcome (fn : bytes) : wout := match lf fn with Ok o => o | UB => NoZone end.
  Notation goods := (goods outcome).
  Notation is_good := (is_good outcome).
  Lemma outcome_ok fn : In fn files -> lf fn = Ok (outcome fn).
  Proof. intros I. unfold outcome. pose proof (alive fn I). destruct (lf fn); congruence. Qed.
  Lemma outcome_says fn : In fn files -> match outcome fn with
    | GoodZone z root => exists rs, says fn (z, rs) /\ legal_name z /\ load_zone cfg pl hash z rs = Ok (Some root)
    | _ => ~ sound fn end.
  Proof. intros I. apply (load_file_ok cfg pl hash autosplit pton4 pton6 fs depth ttl junk dir fs_bytes junk_len); [rewrite Forall_forall in names; now apply names|now apply outcome_ok]. Qed.
  Lemma good_sound fn : In fn files -> (is_good fn <-> sound fn).
  Proof.
    intros I. pose proof (outcome_says fn I) as O. unfold ZdirProofs2.is_good. destruct (outcome fn) as [| |z r]; split; intros H; try (destruct H as (z0 & r0 & H); discriminate); try contradiction.
    - destruct O as (rs & S & _ & E). exists (z, rs), r. auto.
    - eauto.
  Qed.

  Definition pair_ok (x : name * list record) (y : name * lnode) : Prop := fst y = fst x /\ legal_name (fst x) /\ load_zone cfg pl hash (fst x) (snd x) = Ok (Some (snd y)).
  Lemma gather l : incl l files -> exists l' rest zs, Permutation l (l' ++ rest) /\ (Forall is_good l -> l' = l /\ rest = []) /\ Forall2 says l' zs /\ Forall2 pair_ok zs (goods l).
  Proof.
    induction l as [|fn l IH]; intros I.
    - exists [], [], []. split; [constructor|]. split; [auto|]. split; constructor.
    - destruct IH as (l' & rest & zs & P & A & F1 & F2); [intros x X; apply I; now right|]. pose proof (outcome_says fn (I fn (or_introl eq_refl))) as O.
      change (goods (fn :: l)) with ((match outcome fn with GoodZone z r => [(z, r)] | _ => [] end) ++ goods l).
      assert (BAD : (forall z r, outcome fn <> GoodZone z r) -> exists l' rest zs, Permutation (fn :: l) (l' ++ rest) /\ (Forall is_good (fn :: l) -> l' = fn :: l /\ rest = []) /\ Forall2 says l' zs /\ Forall2 pair_ok zs (goods l)).
      { intros N. exists l', (fn :: rest), zs. split; [etransitivity; [apply perm_skip; exact P|]; apply Permutation_middle|]. split; [|auto]. intros F. inversion F as [|? ? (z & r & X) _]; subst. elim (N z r X). }
      destruct (outcome fn) as [| |z r] eqn:E; cbn [app]; try (apply BAD; discriminate). clear BAD.
      destruct O as (rs & S & LZ & EL). exists (fn :: l'), rest, ((z, rs) :: zs). split; [cbn; now apply perm_skip|]. split; [|split; constructor; auto; split; auto].
      intros F. inversion F as [|? ? _ F']; subst. destruct (A F') as (-> & ->). auto.
  Qed.
  Lemma pairs_len zs rs : Forall2 pair_ok zs rs -> length zs = length rs.
  Proof. induction 1; cbn; congruence. Qed.

  Section Deal.
    Variable L : list (list bytes).
    Hypothesis perm : Permutation (concat L) files.
    Hypothesis filled : forall l, In l L -> l <> [].

    Lemma in_files fn : In fn (concat L) <-> In fn files.
    Proof. split; apply Permutation_in; [exact perm|symmetry; exact perm]. Qed.

    Lemma bound : exists b, (forall fn z r, In fn (concat L) -> outcome fn = GoodZone z r -> fine_root hash b (z, r)) /\ b + N.of_nat (length (goods (concat L))) < 2 ^ 62.
    Proof.
      destruct (gather (concat L)) as (l' & rest & zs & P & _ & F1 & F2); [intros x X; now apply in_files|].
      destruct (small l' rest zs) as (GF & LN); [etransitivity; [symmetry; exact perm|exact P]|exact F1|].
      exists (N.of_nat (length (concat (map snd zs)))). rewrite <- (pairs_len _ _ F2). split; [|lia].
      intros fn z r I E. assert (IG : In (z, r) (goods (concat L))). { apply in_flat_map. exists fn. split; [exact I|]. rewrite E. now left. }
      assert (X : exists fn' x, says fn' x /\ Forall generic_fits (snd x) /\ pair_ok x (z, r) /\ (length (snd x) <= length (concat (map snd zs)))%nat).
      { clear - IG F1 F2 GF. revert zs F1 F2 GF. generalize (goods (concat L)) IG. clear IG. intros gs IG zs. revert gs l' IG. induction zs as [|x zs IH]; intros gs l' IG F1 F2 GF.
        - inversion F2; subst. destruct IG.
        - inversion F2 as [|? y ? gs' PX F2']; subst. inversion F1 as [|fn' ? l0 ? SX F1']; subst. inversion GF as [|? ? G1 G2]; subst. cbn [map concat]. rewrite app_length. destruct IG as [->|IG].
          + exists fn', x. repeat split; try apply SX; try apply PX; auto. lia.
          + destruct (IH gs' l0 IG F1' F2' G2) as (fn1 & x1 & A & B & C & D). exists fn1, x1. repeat split; try apply A; try apply C; auto. lia. }
      destruct X as (fn' & (z', rs) & (_ & ZF) & GX & (EQ & LZ & EL) & LE). cbn [fst snd] in *. subst z'.
      pose proof (zfile_fine z autosplit pton4 pton6 p4 p6 fs depth z _ _ _ LZ LZ ZF GX) as RF.
      destruct (load_zone_loaded cfg pl hash z hash64 rs r RF ltac:(lia) EL) as (raw & LD).
      split; [|split].
      - eapply good_mono; [eapply root_good; exact LD|]. lia.
      - exact (root_label _ _ _ _ _ _ _ LD).
      - exact (root_zcut _ _ _ _ _ _ _ LD).
    Qed.

    Lemma load_merge zs rs : Forall2 pair_ok zs rs -> forall T, load_zones cfg pl hash T zs = merge_all hash T rs.
    Proof.
      induction 1 as [|(z, x) (z', r) zs rs (E & _ & EL) F IH]; intros T; [reflexivity|]. cbn [fst snd] in *. subst z'. cbn [load_zones merge_all]. rewrite EL. cbn [zbind rbind]. unfold zbind.
      destruct (merge_zone hash T z r) as [[T1|]|]; cbn; auto.
    Qed.
    Lemma file_of_good l z r : incl l files -> In (z, r) (goods l) -> exists fn, In fn l /\ outcome fn = GoodZone z r /\ file_zone fn z.
    Proof.
      intros I G. apply in_flat_map in G. destruct G as (fn & IN & G). pose proof (outcome_says fn (I fn IN)) as O. destruct (outcome fn) as [| |z1 r1] eqn:E; [destruct G|destruct G|]. destruct G as [G|[]]. injection G as -> ->.
      exists fn. split; [exact IN|]. split; [exact E|]. destruct O as (rs & (Z & _) & _). exact Z.
    Qed.
    Lemma goods_split l : incl l files -> forall l1 a l2, goods l = l1 ++ a :: l2 -> exists f1 fa f2, l = f1 ++ fa :: f2 /\ goods f1 = l1 /\ outcome fa = GoodZone (fst a) (snd a) /\ goods f2 = l2.
    Proof.
      induction l as [|fn l IH]; intros I l1 a l2 E; [destruct l1; discriminate|]. change (goods (fn :: l)) with ((match outcome fn with GoodZone z r => [(z, r)] | _ => [] end) ++ goods l) in E.
      assert (I' : incl l files) by (intros x X; apply I; now right).
      assert (BAD : (forall z r, outcome fn <> GoodZone z r) -> goods l = l1 ++ a :: l2 -> exists f1 fa f2, fn :: l = f1 ++ fa :: f2 /\ goods f1 = l1 /\ outcome fa = GoodZone (fst a) (snd a) /\ goods f2 = l2).
      { intros N E'. destruct (IH I' l1 a l2 E') as (f1 & fa & f2 & -> & A & B & C). exists (fn :: f1), fa, f2. split; [reflexivity|]. split; [|auto]. rewrite <- A.
        change (goods (fn :: f1)) with ((match outcome fn with GoodZone z r => [(z, r)] | _ => [] end) ++ goods f1). destruct (outcome fn) as [| |z r]; [reflexivity|reflexivity|elim (N z r eq_refl)]. }
      destruct (outcome fn) as [| |z r] eqn:EF; cbn [app] in E; [apply BAD; [discriminate|exact E]|apply BAD; [discriminate|exact E]|]. clear BAD.
      destruct l1 as [|x l1]; cbn [app] in E; injection E as E1 E2.
      - subst a. exists [], fn, l. auto.
      - destruct (IH I' l1 a l2 E2) as (f1 & fa & f2 & -> & A & B & C). exists (fn :: f1), fa, f2. split; [reflexivity|]. split; [|auto].
        change (goods (fn :: f1)) with ((match outcome fn with GoodZone z r => [(z, r)] | _ => [] end) ++ goods f1). rewrite EF, A, E1. reflexivity.
    Qed.

    (** every schedule, once all workers are collected *)
    Theorem load_inv acts : exists s, steps lf hash (first_load L empty_tree) acts = Ok s /\
      inv hash outcome L empty_tree s /\
      (exists more s', steps lf hash s more = Ok s' /\ (length (d_workers s') <= d_next s')%nat) /\
      ((length (d_workers s) <= d_next s)%nat ->
       (d_failed s = true -> (exists fn, In fn files /\ ~ sound fn) \/ two_clash file_zone files) /\
       (d_failed s = false -> (forall fn, In fn files -> sound fn) /\ ~ two_clash file_zone files /\ d_gone s = [] /\ Permutation (d_merged s) files /\
          (exists order zs, Permutation order files /\ Forall2 says order zs /\ load_zones cfg pl hash empty_tree zs = Ok (Some (d_tree s))) /\
          exists b, tree_inv hash b (rev (goods (concat L))) (d_tree s))).
    Proof.
      destruct bound as (b & FR & ROOM). assert (KN : forall fn, In fn (concat L) -> lf fn = Ok (outcome fn)) by (intros fn I; apply outcome_ok, in_files, I).
      pose proof (tree_inv_start hash b) as TI0.
      destruct (steps_inv lf hash hash64 outcome L KN b FR empty_tree [] TI0 ROOM filled acts _ (first_inv hash outcome L empty_tree)) as (s & ES & I).
      exists s. split; [exact ES|]. split; [exact I|]. split.
      { destruct (finish lf hash hash64 outcome L KN b FR empty_tree [] TI0 ROOM filled _ s I (Nat.le_refl _)) as (more & s' & A & _ & B). eauto. }
      intros LE. pose proof (f2_len _ _ _ (i_workers _ _ _ _ _ I)) as LW. pose proof (i_next _ _ _ _ _ I) as LN.
      assert (ALL : firstn (d_next s) L = L) by (apply firstn_all2; lia).
      assert (FG : Forall (fine_root hash b) (goods (concat L))) by (apply (goods_fine hash outcome L b FR), incl_refl).
      split; intros FE.
      - destruct (i_fail _ _ _ _ _ I FE) as [(fn & IN & NG)|(p & q & EP & GP & MP)].
        + left. apply in_files in IN. exists fn. split; [exact IN|]. intros S. apply NG. now apply good_sound.
        + right. assert (IP : incl p files) by (intros x X; apply in_files; rewrite EP; apply in_app_iff; now left).
          destruct (merge_all_exact hash hash64 (goods p) b [] empty_tree TI0) as [(T' & E' & _)|(_ & l1 & a & l2 & EG & c & IC & R)].
          * rewrite Forall_forall in *. intros x X. apply FG. rewrite EP, goods_app. apply in_app_iff. now left.
          * rewrite EP, goods_app, app_length in ROOM. lia.
          * congruence.
          * rewrite app_nil_r in IC. destruct (goods_split p IP l1 a l2 EG) as (f1 & fa & f2 & EF & G1 & GA & _).
            assert (IF1 : incl f1 files) by (intros x X; apply IP; rewrite EF; apply in_app_iff; now left).
            destruct c as (zc, rc). rewrite <- G1 in IC. destruct (file_of_good f1 zc rc IF1 IC) as (fc & IFC & _ & ZC).
            assert (ZA : file_zone fa (fst a)). { pose proof (outcome_says fa) as O. rewrite GA in O. destruct O as (rs & (Z & _) & _); [|exact Z]. apply IP. rewrite EF. apply in_app_iff. right. now left. }
            apply in_split in IFC. destruct IFC as (g1 & g2 & ->).
            exists fa, fc, (g1 ++ g2 ++ f2 ++ q), (fst a), zc. split; [|split; [exact ZA|split; [exact ZC|exact R]]].
            rewrite <- perm, EP, EF. rewrite <- (app_assoc (g1 ++ fc :: g2)). cbn [app]. apply perm_two.
      - destruct (i_ok _ _ _ _ _ I FE) as (O1 & O2 & O3 & O4). rewrite ALL in *.
        destruct (gather (concat L)) as (l' & rest & zs & P & A & F1 & F2); [intros x X; now apply in_files|]. destruct (A O1) as (-> & ->).
        destruct (merge_all_exact hash hash64 (goods (concat L)) b [] empty_tree TI0 FG ROOM) as [(T' & E' & TI)|(E' & _)]; [|congruence].
        assert (T' = d_tree s) as -> by congruence. rewrite app_nil_r in TI.
        split; [|split; [|split; [exact O3|split; [now rewrite O4|split]]]].
        + intros fn IN. apply good_sound; [exact IN|]. rewrite Forall_forall in O1. apply O1. now apply in_files.
        + intros (f1 & f2 & rest & z1 & z2 & PF & Z1 & Z2 & R).
          assert (ND : NoDup (map fst (goods (concat L)))). { pose proof (ti_once _ _ _ _ TI) as ND. rewrite map_rev in ND. apply NoDup_rev in ND. now rewrite rev_involutive in ND. }
          assert (PG : Permutation (map fst (goods (concat L))) (map fst (goods (f1 :: f2 :: rest)))).
          { apply Permutation_map. unfold ZdirProofs2.goods. apply Permutation_flat_map. etransitivity; [exact perm|exact PF]. }
          assert (ONE : forall fn z, In fn files -> file_zone fn z -> exists r, outcome fn = GoodZone z r).
          { intros fn z IN FZ. pose proof (outcome_says fn IN) as O. rewrite Forall_forall in O1. destruct (O1 fn (proj2 (in_files fn) IN)) as (z' & r & E). rewrite E in O. destruct O as (rs & (Z & _) & _). cbn [fst] in Z. exists r. rewrite E. f_equal.
            pose proof (make_name_ok fn) as M. destruct (make_zone_name fn) as [text|]; [|exfalso; exact (M z FZ)]. destruct M as (MB & M). pose proof (proj1 (M z) FZ) as (L1 & _ & g1 & T1). pose proof (proj1 (M z') Z) as (L2 & _ & g2 & T2).
            rewrite Forall_forall in names. eapply (name_text_one text); eauto. }
          assert (I1 : In f1 files) by (eapply Permutation_in; [symmetry; exact PF|now left]). assert (I2 : In f2 files) by (eapply Permutation_in; [symmetry; exact PF|right; now left]).
          destruct (ONE f1 z1 I1 Z1) as (r1 & E1). destruct (ONE f2 z2 I2 Z2) as (r2 & E2).
          eapply Permutation_NoDup in ND; [|exact PG]. unfold ZdirProofs2.goods in ND. cbn [flat_map] in ND. rewrite E1, E2 in ND. cbn [app map fst] in ND. inversion ND as [|? ? N1 _]; subst.
          assert (G1 : In (z1, r1) (rev (goods (concat L)))) by (rewrite <- in_rev; apply in_flat_map; exists f1; split; [now apply in_files|rewrite E1; now left]).
          assert (G2 : In (z2, r2) (rev (goods (concat L)))) by (rewrite <- in_rev; apply in_flat_map; exists f2; split; [now apply in_files|rewrite E2; now left]).
          destruct R as (p & [R|R]).
          * destruct (ti_apart _ _ _ _ TI z1 r1 z2 r2 p G1 G2 R) as (-> & _). cbn in R. subst z2. apply N1. now left.
          * destruct (ti_apart _ _ _ _ TI z2 r2 z1 r1 p G2 G1 R) as (-> & _). cbn in R. subst z2. apply N1. now left.
        + exists (concat L), zs. split; [exact perm|]. split; [exact F1|]. now rewrite (load_merge _ _ F2).
        + eauto.
    Qed.
  End Deal.
End All.
