(** Proofs about one hash table: it is the list of its entries *)
From Coq Require Import Permutation Lia.
From Verif Require Import Base CompModel CompProofs VhashModel VhashSpec.
Local Open Scope N_scope.

(** ** The size of the table *)

Lemma mask_log n : count2mask n = 2 ^ (N.log2 n + 1) - 1.
Proof. unfold count2mask. rewrite N.log2_lor. change (N.log2 1) with 0. now rewrite N.max_0_r. Qed.

Lemma mask_ge n : n <= count2mask n.
Proof.
  rewrite mask_log. destruct (N.eq_dec n 0) as [->|N]; [discriminate|].
  destruct (N.log2_spec n) as [_ H]; [lia|]. rewrite <- N.add_1_r in H. lia.
Qed.

Lemma mask_same n : n < count2mask n -> count2mask (n + 1) = count2mask n.
Proof.
  rewrite !mask_log. destruct (N.eq_dec n 0) as [->|N]; [reflexivity|]. intros H.
  destruct (N.log2_spec n) as [L _]; [lia|].
  rewrite (N.log2_unique (n + 1) (N.log2 n)); [reflexivity|lia|]. rewrite <- N.add_1_r. split; lia.
Qed.

Lemma mask_full n : n = count2mask n -> count2mask (n + 1) = 2 * count2mask n + 1.
Proof.
  intros H. pose proof (mask_log n) as M. rewrite <- H in *. rewrite mask_log.
  assert (P : 0 < 2 ^ (N.log2 n + 1)) by (apply N.neq_0_lt_0, N.pow_nonzero; discriminate).
  assert (E : n + 1 = 2 ^ (N.log2 n + 1)) by lia.
  rewrite E, N.log2_pow2 by lia. rewrite (N.pow_add_r 2 (N.log2 n + 1) 1). rewrite <- E. change (2 ^ 1) with 2. lia.
Qed.

Lemma mask_bound n : n < 2 ^ 31 -> count2mask n < 2 ^ 31.
Proof.
  intros H. rewrite mask_log.
  assert (L : N.log2 n + 1 <= 31).
  { destruct (N.eq_dec n 0) as [->|N]; [discriminate|]. assert (N.log2 n < 31); [|lia].
    apply N.log2_lt_pow2; [lia|assumption]. }
  apply (N.pow_le_mono_r 2) in L; [|discriminate].
  assert (P : 0 < 2 ^ (N.log2 n + 1)) by (apply N.neq_0_lt_0, N.pow_nonzero; discriminate). lia.
Qed.

Lemma key_hash_lt mm3 k n : (key_hash mm3 k (count2mask n) < N.to_nat (count2mask n + 1))%nat.
Proof.
  unfold key_hash. rewrite mask_log. rewrite N.sub_1_r, <- N.ones_equiv, N.land_ones.
  rewrite N.ones_equiv. pose proof (N.mod_lt (mm3 k) (2 ^ (N.log2 n + 1))) as M.
  assert (2 ^ (N.log2 n + 1) <> 0) by (apply N.pow_nonzero; discriminate). specialize (M H). lia.
Qed.

(** ** Lists *)

Lemma rd_some {A} (l : list A) i a : nth_error l i = Some a -> rd l i = Ok a.
Proof. unfold rd. now intros ->. Qed.

Lemma nth_lt {A} (l : list A) i : (i < length l)%nat -> exists a, nth_error l i = Some a.
Proof. intros H. destruct (nth_error l i) eqn:E; [eauto|]. apply nth_error_None in E. lia. Qed.

Lemma nth_lt' {A} (l : list A) i a : nth_error l i = Some a -> (i < length l)%nat.
Proof. intros H. apply nth_error_Some. congruence. Qed.

Lemma upd_length {A} (l : list A) i a : length (upd l i a) = length l.
Proof. revert i. induction l as [|x l IH]; intros [|i]; cbn; congruence. Qed.

Lemma nth_upd_same {A} (l : list A) i a : (i < length l)%nat -> nth_error (upd l i a) i = Some a.
Proof. revert i. induction l as [|x l IH]; intros [|i] H; cbn in *; try lia; [reflexivity|]. apply IH. lia. Qed.

Lemma nth_upd_other {A} (l : list A) i j a : i <> j -> nth_error (upd l i a) j = nth_error l j.
Proof. revert i j. induction l as [|x l IH]; intros [|i] [|j] H; cbn; try reflexivity; try congruence. apply IH. congruence. Qed.

Lemma Forall2_nth {A B} (R : A -> B -> Prop) l l' i a : Forall2 R l l' -> nth_error l i = Some a ->
  exists b, nth_error l' i = Some b /\ R a b.
Proof. intros F. revert i. induction F as [|x y l l' H F IH]; intros [|i] E; cbn in *; try discriminate; [injection E as <-; eauto|eauto]. Qed.

Lemma Forall2_nth' {A B} (R : A -> B -> Prop) l l' i b : Forall2 R l l' -> nth_error l' i = Some b ->
  exists a, nth_error l i = Some a /\ R a b.
Proof. intros F. revert i. induction F as [|x y l l' H F IH]; intros [|i] E; cbn in *; try discriminate; [injection E as <-; eauto|eauto]. Qed.

Lemma F2_length {A B} (R : A -> B -> Prop) l l' : Forall2 R l l' -> length l = length l'.
Proof. induction 1; cbn; congruence. Qed.

Lemma F2_impl {A B} (R Q : A -> B -> Prop) l l' : (forall a b, R a b -> Q a b) -> Forall2 R l l' -> Forall2 Q l l'.
Proof. intros H. induction 1; auto. Qed.

Lemma Forall2_perm {A B} (R : A -> B -> Prop) l1 l2 : Permutation l1 l2 -> forall m1, Forall2 R l1 m1 ->
  exists m2, Permutation m1 m2 /\ Forall2 R l2 m2.
Proof.
  induction 1 as [|x l1 l2 P IH|x y l|l1 l2 l3 P1 IH1 P2 IH2]; intros m1 F.
  - inversion F; subst. exists []. auto.
  - inversion F as [|? b ? m Rb F']; subst. destruct (IH _ F') as (m2 & P2 & F2). exists (b :: m2). auto.
  - inversion F as [|? b ? m Rb F']; subst. inversion F' as [|? c ? m' Rc F'']; subst. exists (c :: b :: m'). split; [constructor|auto].
  - destruct (IH1 _ F) as (m2 & Q1 & F2). destruct (IH2 _ F2) as (m3 & Q2 & F3). exists m3. split; [eapply perm_trans; eauto|assumption].
Qed.

Lemma nth_seq_eq {A} (l : list A) : forall p es, Forall2 (fun i e => nth_error (p ++ l) i = Some e) (seq (length p) (length l)) es -> es = l.
Proof.
  induction l as [|a l IH]; intros p es F; cbn in F; inversion F as [|? e ? es' E F']; subst; [reflexivity|].
  rewrite nth_error_app2, Nat.sub_diag in E by lia. cbn in E. injection E as <-. f_equal.
  apply (IH (p ++ [a])). rewrite app_length, <- app_assoc. cbn [length app]. now rewrite Nat.add_1_r.
Qed.

Section Hash.
  Variable mm3 : bytes -> N.
  Section Flat.
    Context {V : Type}.
    Implicit Types h : vhash V.

    (** ** What holds of every table *)

    Definition points (hp : list (hentry V)) (id : nat) (e : hentry V) : Prop := nth_error hp id = Some e.

    Record wf h (ord : list nat) (es : list (hentry V)) : Prop := Wf {
      w_count : child_count h = N.of_nat (length (heap h));
      w_small : child_count h < 2 ^ 31;
      w_perm : Permutation ord (seq 0 (length (heap h)));
      w_slots : exists pad, ordered h = map Some ord ++ repeat None pad;
      w_points : Forall2 (points (heap h)) ord es;
      w_index : forall p e, nth_error es p = Some e -> hindex e = N.of_nat p;
      w_keys : NoDup (map hkey (heap h));
      w_size : (children h = [] /\ heap h = [] /\ ordered h = []) \/
               (length (children h) = N.to_nat (count2mask (child_count h) + 1) /\
                length (ordered h) = N.to_nat (count2mask (child_count h) + 1));
      w_in : forall id e, nth_error (heap h) id = Some e ->
               exists c, nth_error (children h) (key_hash mm3 (hkey e) (count2mask (child_count h))) = Some c /\ In id c;
      w_ids : forall i c id, nth_error (children h) i = Some c -> In id c -> (id < length (heap h))%nat }.

    Lemma wf_new : wf (hash_new (V := V)) [] [].
    Proof.
      constructor; cbn; try constructor; try reflexivity.
      - now exists 0%nat.
      - intros [|p] e; discriminate.
      - auto.
      - intros [|i] e; discriminate.
      - intros [|i] c id; discriminate.
    Qed.

    Lemma wf_length h ord es : wf h ord es -> length ord = length (heap h) /\ length es = length (heap h).
    Proof.
      intros W. pose proof (Permutation_length (w_perm _ _ _ W)) as P. rewrite seq_length in P. split; [assumption|].
      rewrite <- P. symmetry. eapply F2_length. apply (w_points _ _ _ W).
    Qed.

    Lemma wf_heap h ord es : wf h ord es -> Permutation es (heap h).
    Proof.
      intros W. destruct (Forall2_perm _ _ _ (w_perm _ _ _ W) _ (w_points _ _ _ W)) as (m & P & F).
      apply (nth_seq_eq (heap h) []) in F. now subst m.
    Qed.

    Lemma wf_nodup h ord es : wf h ord es -> NoDup (map hkey es).
    Proof.
      intros W. eapply Permutation_NoDup; [|apply (w_keys _ _ _ W)]. apply Permutation_map, Permutation_sym, (wf_heap _ _ _ W).
    Qed.

    Lemma key_unique h ord es id id' e e' : wf h ord es -> nth_error (heap h) id = Some e -> nth_error (heap h) id' = Some e' ->
      hkey e = hkey e' -> id = id'.
    Proof.
      intros W E E' K. pose proof (w_keys _ _ _ W) as ND. rewrite NoDup_nth_error in ND. apply ND.
      - rewrite map_length. eapply nth_lt'; eauto.
      - erewrite !map_nth_error by eassumption. congruence.
    Qed.

    (** ** Looking up *)

    Lemma find_ok (hp : list (hentry V)) k c : (forall id, In id c -> (id < length hp)%nat) ->
      (exists id e, find hp k c = Ok (Some id) /\ nth_error hp id = Some e /\ hkey e = k) \/
      (find hp k c = Ok None /\ forall id e, In id c -> nth_error hp id = Some e -> hkey e <> k).
    Proof.
      induction c as [|id c IH]; intros H; cbn [find].
      - right. split; [reflexivity|]. intros ? ? [].
      - destruct (nth_lt hp id) as [e E]; [apply H; now left|]. rewrite (rd_some _ _ _ E). cbn [rbind].
        destruct (bytes_eqb k (hkey e)) eqn:B.
        + apply bytes_eqb_spec in B. left. exists id, e. auto.
        + destruct IH as [(id' & e' & F)|[F N]]; [intros; apply H; now right|left; eauto|right]. split; [assumption|].
          intros id' e' [<-|I] E'.
          * rewrite E in E'. injection E' as <-. intros <-. assert (bytes_eqb (hkey e) (hkey e) = true) by now apply bytes_eqb_spec. congruence.
          * eauto.
    Qed.

    Lemma lookup_ok h ord es k : wf h ord es ->
      (exists id e, lookup mm3 k h = Ok (Some id) /\ nth_error (heap h) id = Some e /\ hkey e = k) \/
      (lookup mm3 k h = Ok None /\ ~ In k (map hkey es)).
    Proof.
      intros W. unfold lookup. pose proof (wf_heap _ _ _ W) as P.
      assert (PK : forall x, In x (map hkey es) <-> In x (map hkey (heap h))).
      { intros x. split; apply Permutation_in; [|symmetry]; apply Permutation_map, P. }
      destruct (N.eqb_spec (child_count h) 0) as [Z|NZ].
      - right. split; [reflexivity|]. rewrite PK. rewrite (w_count _ _ _ W) in Z. destruct (heap h); [intros []|discriminate].
      - destruct (w_size _ _ _ W) as [(_ & E & _)|[SZ _]].
        { rewrite (w_count _ _ _ W), E in NZ. now cbn in NZ. }
        destruct (nth_lt (children h) (key_hash mm3 k (count2mask (child_count h)))) as [c C]; [rewrite SZ; apply key_hash_lt|].
        rewrite (rd_some _ _ _ C). cbn [rbind].
        destruct (find_ok (heap h) k c) as [F|[F N]]; [intros id I; eapply (w_ids _ _ _ W); eauto|left; assumption|right].
        split; [assumption|]. rewrite PK. intros I. apply in_map_iff in I as (e & K & I). apply In_nth_error in I as (id & I).
        destruct (w_in _ _ _ W _ _ I) as (c' & C' & I'). rewrite K, C in C'. injection C' as <-. apply (N id e I' I K).
    Qed.

    (** ** Adding *)

    Lemma rehash_ok (hp : list (hentry V)) n chain : forall tbl,
      (forall id, In id chain -> (id < length hp)%nat) -> length tbl = N.to_nat (count2mask n + 1) ->
      exists tbl', rehash mm3 hp (count2mask n) chain tbl = Ok tbl' /\ length tbl' = length tbl /\
        (forall i c, nth_error tbl i = Some c -> exists c', nth_error tbl' i = Some c' /\ incl c c') /\
        (forall id e, In id chain -> nth_error hp id = Some e ->
           exists c', nth_error tbl' (key_hash mm3 (hkey e) (count2mask n)) = Some c' /\ In id c') /\
        (forall i c' id, nth_error tbl' i = Some c' -> In id c' -> In id chain \/ exists c, nth_error tbl i = Some c /\ In id c).
    Proof.
      induction chain as [|id chain IH]; intros tbl H L; cbn [rehash].
      - exists tbl. split; [reflexivity|]. split; [reflexivity|]. split; [intros i c E; exists c; split; [assumption|apply incl_refl]|].
        split; [intros ? ? []|]. intros i c' id E I. right. eauto.
      - destruct (nth_lt hp id) as [e E]; [apply H; now left|]. rewrite (rd_some _ _ _ E). cbn [rbind].
        set (j := key_hash mm3 (hkey e) (count2mask n)).
        assert (J : (j < length tbl)%nat) by (rewrite L; apply key_hash_lt).
        destruct (nth_lt tbl j J) as [c C]. rewrite (rd_some _ _ _ C). cbn [rbind].
        destruct (IH (upd tbl j (c ++ [id]))) as (tbl' & R & L' & K1 & K2 & K3); [intros; apply H; now right|now rewrite upd_length|].
        exists tbl'. split; [exact R|]. split; [now rewrite L', upd_length|].
        assert (Up : forall i c0, nth_error tbl i = Some c0 -> exists c', nth_error (upd tbl j (c ++ [id])) i = Some c' /\ incl c0 c').
        { intros i c0 E0. destruct (Nat.eq_dec j i) as [<-|Ni].
          - exists (c ++ [id]). rewrite nth_upd_same by assumption. rewrite C in E0. injection E0 as <-.
            split; [reflexivity|]. apply incl_appl, incl_refl.
          - exists c0. rewrite nth_upd_other by assumption. split; [assumption|apply incl_refl]. }
        split; [|split].
        + intros i c0 E0. destruct (Up i c0 E0) as (c1 & E1 & I1). destruct (K1 i c1 E1) as (c2 & E2 & I2).
          exists c2. split; [assumption|]. eapply incl_tran; eauto.
        + intros id' e' [<-|I] E'.
          * rewrite E in E'. injection E' as <-. fold j.
            destruct (K1 j (c ++ [id])) as (c2 & E2 & I2); [now apply nth_upd_same|]. exists c2. split; [assumption|].
            apply I2, in_or_app. right. now left.
          * eauto.
        + intros i c' id' E' I'. destruct (K3 i c' id' E' I') as [I|(c0 & E0 & I0)]; [left; now right|].
          destruct (Nat.eq_dec j i) as [<-|Ni].
          * rewrite nth_upd_same in E0 by assumption. injection E0 as <-. apply in_app_or in I0 as [I0|[<-|[]]]; [right; eauto|left; now left].
          * rewrite nth_upd_other in E0 by assumption. right. eauto.
    Qed.

    Lemma rehash_all_ok (hp : list (hentry V)) n m : forall i old tbl,
      (i + m = length old)%nat -> (forall c id, In c old -> In id c -> (id < length hp)%nat) ->
      length tbl = N.to_nat (count2mask n + 1) ->
      exists tbl', rehash_all mm3 hp (count2mask n) m i old tbl = Ok tbl' /\ length tbl' = length tbl /\
        (forall j c, nth_error tbl j = Some c -> exists c', nth_error tbl' j = Some c' /\ incl c c') /\
        (forall p c id e, (i <= p)%nat -> nth_error old p = Some c -> In id c -> nth_error hp id = Some e ->
           exists c', nth_error tbl' (key_hash mm3 (hkey e) (count2mask n)) = Some c' /\ In id c') /\
        (forall j c' id, nth_error tbl' j = Some c' -> In id c' -> (exists c, In c old /\ In id c) \/ exists c, nth_error tbl j = Some c /\ In id c).
    Proof.
      induction m as [|m IH]; intros i old tbl L H LT; cbn [rehash_all].
      - exists tbl. split; [reflexivity|]. split; [reflexivity|]. split; [intros j c E; exists c; split; [assumption|apply incl_refl]|].
        split; [|intros j c' id E I; right; eauto]. intros p c id e P E. apply nth_lt' in E. lia.
      - destruct (nth_lt old i) as [c C]; [lia|]. rewrite (rd_some _ _ _ C). cbn [rbind].
        destruct (rehash_ok hp n c tbl) as (tbl1 & R1 & L1 & A1 & B1 & D1); [intros id I; eapply H; [eapply nth_error_In; eauto|assumption]|assumption|].
        rewrite R1. cbn [rbind].
        destruct (IH (S i) old tbl1) as (tbl2 & R2 & L2 & A2 & B2 & D2); [lia|assumption|congruence|].
        exists tbl2. split; [assumption|]. split; [congruence|]. split; [|split].
        + intros j c0 E0. destruct (A1 j c0 E0) as (c1 & E1 & I1). destruct (A2 j c1 E1) as (c2 & E2 & I2).
          exists c2. split; [assumption|eapply incl_tran; eauto].
        + intros p c0 id e P E0 I0 Ee. destruct (Nat.eq_dec p i) as [->|Np].
          * rewrite C in E0. injection E0 as <-. destruct (B1 id e I0 Ee) as (c1 & E1 & I1).
            destruct (A2 _ _ E1) as (c2 & E2 & I2). exists c2. auto.
          * eapply (B2 p); eauto. lia.
        + intros j c' id E' I'. destruct (D2 j c' id E' I') as [X|(c1 & E1 & I1)]; [left; assumption|].
          destruct (D1 j c1 id E1 I1) as [X|X]; [left; exists c; split; [eapply nth_error_In; eauto|assumption]|right; assumption].
    Qed.

    Lemma nth_app_new {A} (l : list A) a i b : nth_error (l ++ [a]) i = Some b -> nth_error l i = Some b \/ (i = length l /\ b = a).
    Proof.
      intros H. destruct (Nat.lt_ge_cases i (length l)) as [L|L].
      - rewrite nth_error_app1 in H by assumption. auto.
      - rewrite nth_error_app2 in H by assumption. destruct (i - length l)%nat as [|j] eqn:D; [|destruct j; discriminate].
        cbn in H. injection H as <-. right. split; [lia|reflexivity].
    Qed.

    Lemma nth_app_old {A} (l : list A) a i b : nth_error l i = Some b -> nth_error (l ++ [a]) i = Some b.
    Proof. intros H. rewrite nth_error_app1; [assumption|]. eapply nth_lt'; eauto. Qed.

    Lemma nth_repeat {A} (x : A) n i y : nth_error (repeat x n) i = Some y -> y = x.
    Proof. intros H. apply nth_error_In, repeat_spec in H. assumption. Qed.

    Lemma add_ok h ord es k v : wf h ord es -> child_count h < 2 ^ 31 - 1 ->
      (In k (map hkey es) -> exists h', hash_add_val mm3 k v h = Ok (false, h') /\ wf h' ord es) /\
      (~ In k (map hkey es) -> exists h', hash_add_val mm3 k v h = Ok (true, h') /\
         wf h' (ord ++ [length (heap h)]) (es ++ [He k (child_count h) false v])).
    Proof.
      intros W SM. unfold hash_add_val. cbv zeta.
      set (h1 := match children h with [] => Vh (child_count h) [[]; []] [None; None] (heap h) | _ :: _ => h end).
      assert (W1 : wf h1 ord es /\ children h1 <> [] /\ child_count h1 = child_count h /\ heap h1 = heap h).
      { unfold h1. destruct (children h) as [|c cs] eqn:C; [|split; [assumption|]; split; [congruence|auto]].
        split; [|split; [discriminate|auto]].
        assert (HZ : heap h = []).
        { destruct (w_size _ _ _ W) as [(_ & E & _)|[S _]]; [assumption|]. rewrite C in S. cbn in S. lia. }
        pose proof (wf_length _ _ _ W) as [LO LE]. rewrite HZ in *. destruct ord; [|discriminate]. destruct es; [|discriminate].
        constructor; cbn; try rewrite HZ; try apply perm_nil; try (apply Forall2_nil); try apply NoDup_nil.
        - rewrite (w_count _ _ _ W), HZ. reflexivity.
        - apply (w_small _ _ _ W).
        - now exists 2%nat.
        - intros [|p] e; discriminate.
        - right. rewrite (w_count _ _ _ W), HZ. auto.
        - intros [|i] e; discriminate.
        - intros [|[|[|i]]] c id; cbn; try discriminate; intros [= <-] []. }
      clearbody h1. destruct W1 as (W1 & NC & EC & EH). rewrite <- EC, <- EH in *. clear W EC EH h. rename h1 into h, W1 into W.
      destruct (w_size _ _ _ W) as [(Z & _)|[SZ SO]]; [contradiction|].
      set (mask := count2mask (child_count h)) in *. set (slot := key_hash mm3 k mask).
      assert (SL : (slot < length (children h))%nat) by (rewrite SZ; apply key_hash_lt).
      destruct (nth_lt _ _ SL) as [chain C]. rewrite (rd_some _ _ _ C). cbn [rbind].
      assert (PK : forall x, In x (map hkey es) <-> In x (map hkey (heap h))).
      { intros x. split; apply Permutation_in; [|symmetry]; apply Permutation_map, (wf_heap _ _ _ W). }
      destruct (find_ok (heap h) k chain) as [(id & e & F & E & K)|[F NF]]; [intros id I; eapply (w_ids _ _ _ W); eauto| |]; rewrite F; cbn [rbind].
      { split.
        - intros _. exists h. auto.
        - intros N. exfalso. apply N, PK, in_map_iff. exists e. split; [assumption|]. eapply nth_error_In; eauto. }
      assert (NK : ~ In k (map hkey es)).
      { rewrite PK. intros I. apply in_map_iff in I as (e & K & I). apply In_nth_error in I as (id & I).
        destruct (w_in _ _ _ W _ _ I) as (c' & C' & I'). rewrite K in C'. fold mask slot in C'. rewrite C in C'. injection C' as <-.
        apply (NF id e I' I K). }
      split; [intros I; contradiction|intros _].
      set (id := length (heap h)). set (e0 := He k (child_count h) false v).
      set (tbl := upd (children h) slot (chain ++ [id])). cbn [child_count].
      assert (Tin : forall i e, nth_error (heap h ++ [e0]) i = Some e -> exists c, nth_error tbl (key_hash mm3 (hkey e) mask) = Some c /\ In i c).
      { intros i e E. apply nth_app_new in E as [E|[-> ->]].
        - destruct (w_in _ _ _ W _ _ E) as (c & Ec & I). fold mask in Ec. unfold tbl. destruct (Nat.eq_dec slot (key_hash mm3 (hkey e) mask)) as [Q|Q].
          + rewrite <- Q in *. rewrite nth_upd_same by assumption. rewrite C in Ec. injection Ec as <-. eexists. split; [reflexivity|].
            apply in_or_app. now left.
          + rewrite nth_upd_other by assumption. eauto.
        - cbn [hkey e0]. fold slot. unfold tbl. rewrite nth_upd_same by assumption. eexists. split; [reflexivity|]. apply in_or_app. right. now left. }
      assert (Tid : forall c i, In c tbl -> In i c -> (i < length (heap h ++ [e0]))%nat).
      { intros c i Ic Ii. rewrite app_length. cbn [length]. apply In_nth_error in Ic as (j & Ej). unfold tbl in Ej.
        destruct (Nat.eq_dec slot j) as [<-|Q].
        - rewrite nth_upd_same in Ej by assumption. injection Ej as <-. apply in_app_or in Ii as [Ii|[<-|[]]]; [|unfold id; lia].
          pose proof (w_ids _ _ _ W _ _ _ C Ii). lia.
        - rewrite nth_upd_other in Ej by assumption. pose proof (w_ids _ _ _ W _ _ _ Ej Ii). lia. }
      pose proof (mask_ge (child_count h)) as MG. fold mask in MG.
      pose proof (wf_length _ _ _ W) as [LO LE].
      destruct (w_slots _ _ _ W) as (pad & OS).
      (* the table after growing, or as it was *)
      assert (G : exists cs os, (if child_count h =? mask
                         then hash_grow mm3 (Vh (child_count h) tbl (ordered h) (heap h ++ [e0]))
                         else Ok (Vh (child_count h) tbl (ordered h) (heap h ++ [e0]))) =
                  Ok (Vh (child_count h) cs os (heap h ++ [e0])) /\
                length cs = N.to_nat (count2mask (child_count h + 1) + 1) /\
                length os = N.to_nat (count2mask (child_count h + 1) + 1) /\
                (exists pad', os = map Some ord ++ repeat None pad') /\
                (forall i e, nth_error (heap h ++ [e0]) i = Some e ->
                   exists c, nth_error cs (key_hash mm3 (hkey e) (count2mask (child_count h + 1))) = Some c /\ In i c) /\
                (forall j c i, nth_error cs j = Some c -> In i c -> (i < length (heap h ++ [e0]))%nat)).
      { destruct (N.eqb_spec (child_count h) mask) as [FULL|NFULL].
        - assert (M2 : count2mask (child_count h + 1) = 2 * mask + 1) by (apply mask_full; exact FULL).
          assert (MB : 2 * mask + 1 + 1 < two32).
          { assert (B : mask + 1 < 2 ^ 31) by (rewrite <- FULL; lia). change two32 with (2 * 2 ^ 31). lia. }
          assert (NM : N.lor (N.shiftl mask 1 mod two32) 1 = 2 * mask + 1).
          { rewrite N.shiftl_mul_pow2, N.mod_small by (change (2 ^ 1) with 2; lia). change (2 ^ 1) with 2.
            rewrite N.mul_comm. destruct mask; reflexivity. }
          unfold hash_grow. cbn [child_count heap children ordered]. cbv zeta. fold mask. rewrite NM.
          rewrite N.mod_small by assumption. rewrite <- M2.
          set (size := N.to_nat (count2mask (child_count h + 1) + 1)).
          destruct (rehash_all_ok (heap h ++ [e0]) (child_count h + 1) (N.to_nat (mask + 1)) 0 tbl (repeat [] size)) as (cs & R & L & _ & B & D);
            [unfold tbl; rewrite upd_length, SZ; reflexivity|exact Tid|rewrite repeat_length; reflexivity|].
          rewrite R. cbn [rbind].
          exists cs, (firstn size (ordered h) ++ repeat None (size - length (ordered h))).
          assert (SS : (length (ordered h) <= size)%nat) by (unfold size; rewrite SO, M2; fold mask; lia).
          split; [reflexivity|]. split; [now rewrite L, repeat_length|].
          split; [rewrite app_length, repeat_length, firstn_length; unfold size in *; lia|]. split.
          + rewrite firstn_all2 by assumption. exists (pad + (size - length (ordered h)))%nat.
            rewrite OS at 1. rewrite <- app_assoc. now rewrite <- repeat_app.
          + split.
            * intros i e E. destruct (Tin i e E) as (c & Ec & I). exact (B _ c i e (Nat.le_0_l _) Ec I E).
            * intros j c i Ec Ii. destruct (D j c i Ec Ii) as [(c1 & I1 & I2)|(c1 & E1 & I2)]; [eapply Tid; eauto|].
              apply nth_repeat in E1. subst c1. destruct I2.
        - assert (M2 : count2mask (child_count h + 1) = mask) by (apply mask_same; fold mask; lia).
          exists tbl, (ordered h). rewrite M2. split; [reflexivity|]. split; [unfold tbl; rewrite upd_length; exact SZ|]. split; [exact SO|].
          split; [eauto|]. split; [exact Tin|]. intros j c i Ec Ii. eapply Tid; [eapply nth_error_In; eauto|assumption]. }
      destruct G as (cs & os & G & LC & LOS & (pad' & OS') & Gin & Gid). rewrite G. cbn [rbind child_count ordered children heap].
      assert (PD : exists q, pad' = S q).
      { destruct pad' as [|q]; [|eauto]. exfalso. rewrite OS', app_length, map_length, LO in LOS. cbn in LOS.
        pose proof (mask_ge (child_count h + 1)). rewrite (w_count _ _ _ W) in *. lia. }
      destruct PD as (q & ->).
      assert (LO' : N.to_nat (child_count h) = length (map Some ord)) by (rewrite map_length, LO, (w_count _ _ _ W); lia).
      rewrite LO', OS'. change (repeat None (S q)) with ([@None nat] ++ repeat None q) at 1.
      rewrite wr_prefix by (cbn; lia). cbn [rbind app skipn length].
      eexists. split; [reflexivity|].
      constructor; cbn [child_count children ordered heap].
      - rewrite app_length. cbn [length]. rewrite (w_count _ _ _ W), N.mod_small; [lia|].
        pose proof (w_small _ _ _ W). rewrite <- (w_count _ _ _ W). change two32 with (2 * 2 ^ 31). lia.
      - rewrite N.mod_small; [lia|]. change two32 with (2 * 2 ^ 31). lia.
      - rewrite app_length. cbn [length]. rewrite Nat.add_1_r, seq_S. cbn [plus]. apply Permutation_app_tail, (w_perm _ _ _ W).
      - exists q. rewrite map_app, <- app_assoc. reflexivity.
      - apply Forall2_app.
        + eapply F2_impl; [|apply (w_points _ _ _ W)]. intros i e. apply nth_app_old.
        + constructor; [|constructor]. unfold points. rewrite nth_error_app2, Nat.sub_diag by lia. reflexivity.
      - intros p e E. apply nth_app_new in E as [E|[-> ->]]; [apply (w_index _ _ _ W); assumption|].
        cbn. rewrite LE. apply (w_count _ _ _ W).
      - rewrite map_app. cbn. eapply Permutation_NoDup; [apply Permutation_cons_append|]. constructor; [now rewrite <- PK|apply (w_keys _ _ _ W)].
      - right. rewrite N.mod_small by (change two32 with (2 * 2 ^ 31); lia). split; [exact LC|].
        rewrite app_length, map_length, LO. cbn [length]. rewrite OS', app_length, map_length, LO, repeat_length in LOS.
        rewrite repeat_length. lia.
      - rewrite N.mod_small by (change two32 with (2 * 2 ^ 31); lia). exact Gin.
      - exact Gid.
    Qed.

    (** ** Changing entries and their order *)

    Lemma wf_change h ord es hp' ord' es' os' : wf h ord es -> map hkey hp' = map hkey (heap h) -> Permutation ord' ord ->
      (exists pad, os' = map Some ord' ++ repeat None pad) -> length os' = length (ordered h) ->
      Forall2 (points hp') ord' es' -> (forall p e, nth_error es' p = Some e -> hindex e = N.of_nat p) ->
      wf (Vh (child_count h) (children h) os' hp') ord' es'.
    Proof.
      intros W K P OS LO F I. assert (L : length hp' = length (heap h)) by (rewrite <- (map_length hkey hp'), K; apply map_length).
      constructor; cbn [child_count children ordered heap].
      - rewrite L. apply (w_count _ _ _ W).
      - apply (w_small _ _ _ W).
      - rewrite L. eapply perm_trans; [eassumption|apply (w_perm _ _ _ W)].
      - assumption.
      - assumption.
      - assumption.
      - rewrite K. apply (w_keys _ _ _ W).
      - destruct (w_size _ _ _ W) as [(A & B & C)|[A B]]; [left|right].
        + split; [assumption|]. rewrite B in L. rewrite C in LO. destruct hp'; [|discriminate]. destruct os'; [auto|discriminate].
        + split; [assumption|congruence].
      - intros id e E. pose proof (map_nth_error hkey _ _ E) as E1. rewrite K in E1.
        destruct (nth_lt (heap h) id) as [e1 E2]; [rewrite <- L; eapply nth_lt'; eauto|].
        rewrite (map_nth_error hkey _ _ E2) in E1. injection E1 as <-. apply (w_in _ _ _ W _ _ E2).
      - intros i c id E J. rewrite L. eapply (w_ids _ _ _ W); eauto.
    Qed.

    Lemma map_upd {A B} (f : A -> B) l i a b : nth_error l i = Some b -> f a = f b -> map f (upd l i a) = map f l.
    Proof.
      revert i. induction l as [|x l IH]; intros [|i] E H; cbn in *; try discriminate; [injection E as ->; now rewrite H|].
      now rewrite IH.
    Qed.

    Definition set_key (e' : hentry V) (es : list (hentry V)) : list (hentry V) :=
      map (fun x => if same (hkey e') (hkey x) then e' else x) es.

    Lemma upd_wf h ord es id e e' : wf h ord es -> nth_error (heap h) id = Some e -> hkey e' = hkey e -> hindex e' = hindex e ->
      wf (Vh (child_count h) (children h) (ordered h) (upd (heap h) id e')) ord (set_key e' es).
    Proof.
      intros W E K I. pose proof (nth_lt' _ _ _ E) as L. eapply wf_change; try eassumption; try reflexivity.
      - eapply map_upd; eassumption.
      - apply (w_slots _ _ _ W).
      - assert (F : forall i x, points (heap h) i x -> points (upd (heap h) id e') i (if same (hkey e') (hkey x) then e' else x)).
        { intros i x X. unfold points in *. destruct (same (hkey e') (hkey x)) as [Q|Q].
          - assert (i = id) as -> by (eapply key_unique; [eassumption..|congruence]). now apply nth_upd_same.
          - rewrite nth_upd_other; [assumption|]. intros ->. rewrite E in X. injection X as <-. congruence. }
        pose proof (w_points _ _ _ W) as P. unfold set_key. clear - F P.
        induction P; cbn; constructor; auto.
      - intros p x X. unfold set_key in X. rewrite nth_error_map in X. destruct (nth_error es p) as [y|] eqn:Y; [|discriminate].
        cbn in X. injection X as <-. destruct (same (hkey e') (hkey y)) as [Q|Q]; [|now apply (w_index _ _ _ W)].
        rewrite I. destruct (Forall2_nth' _ _ _ _ _ (w_points _ _ _ W) Y) as (i & _ & Yi). unfold points in Yi.
        assert (i = id) as -> by (eapply key_unique; [eassumption..|congruence]). rewrite E in Yi. injection Yi as ->. now apply (w_index _ _ _ W).
    Qed.

    Lemma at_ok h ord es p e : wf h ord es -> nth_error es p = Some e ->
      exists id, nth_error ord p = Some id /\ nth_error (heap h) id = Some e /\ at_index h p = Ok (id, e).
    Proof.
      intros W E. destruct (Forall2_nth' _ _ _ _ _ (w_points _ _ _ W) E) as (id & O & H). exists id. split; [assumption|]. split; [assumption|].
      unfold at_index. destruct (w_slots _ _ _ W) as (pad & ->). rewrite (rd_some _ _ (Some id)).
      - cbn [rbind]. now rewrite (rd_some _ _ _ H).
      - rewrite nth_error_app1 by (rewrite map_length; eapply nth_lt'; eauto). now apply map_nth_error.
    Qed.

    (** ** The abstract table *)

    Definition row (e : hentry V) : bytes * bool * V := (hkey e, hmark e, hval e).
    Definition rows (es : list (hentry V)) : table V := map row es.

    Lemma keys_rows es : keys (rows es) = map hkey es.
    Proof. unfold keys, rows. rewrite map_map. reflexivity. Qed.

    Lemma value_none k es : ~ In k (map hkey es) -> value k (rows es) = None /\ place k (rows es) = None.
    Proof.
      induction es as [|e es IH]; intros N; [auto|]. cbn. destruct (same k (hkey e)) as [->|Q]; [exfalso; apply N; now left|].
      destruct IH as [A B]; [intros I; apply N; now right|]. unfold rows in A, B. rewrite A, B. auto.
    Qed.

    Lemma value_some es p e : NoDup (map hkey es) -> nth_error es p = Some e ->
      value (hkey e) (rows es) = Some (hval e) /\ place (hkey e) (rows es) = Some (N.of_nat p).
    Proof.
      revert p. induction es as [|x es IH]; intros [|p] ND E; cbn in *; try discriminate.
      - injection E as ->. destruct (same (hkey e) (hkey e)); [auto|congruence].
      - inversion ND as [|? ? NI ND']; subst. destruct (same (hkey e) (hkey x)) as [Q|Q].
        + exfalso. apply NI. rewrite <- Q. apply in_map. eapply nth_error_In; eauto.
        + destruct (IH p ND' E) as [A B]. unfold rows in A, B. rewrite A, B. split; [reflexivity|]. cbn [option_map]. f_equal. lia.
    Qed.

    Lemma in_es h ord es id e : wf h ord es -> nth_error (heap h) id = Some e -> exists p, nth_error es p = Some e.
    Proof.
      intros W E. apply In_nth_error. eapply Permutation_in; [symmetry; apply (wf_heap _ _ _ W)|]. eapply nth_error_In; eauto.
    Qed.

    Lemma rows_length h ord es : wf h ord es -> N.of_nat (length (rows es)) = child_count h.
    Proof. intros W. unfold rows. rewrite map_length. destruct (wf_length _ _ _ W) as [_ ->]. symmetry. apply (w_count _ _ _ W). Qed.

    Lemma get_ok h ord es k m : wf h ord es ->
      exists h' es', get_bykey mm3 k m h = Ok (value k (rows es), h') /\ wf h' ord es' /\
        child_count h' = child_count h /\ rows es' = (if m then mark k (rows es) else rows es) /\ (m = false -> h' = h /\ es' = es).
    Proof.
      intros W. unfold get_bykey. destruct (lookup_ok _ _ _ k W) as [(id & e & -> & E & <-)|[-> N]]; cbn [rbind].
      - rewrite (rd_some _ _ _ E). cbn [rbind]. destruct (in_es _ _ _ _ _ W E) as (p & P).
        destruct (value_some es p e (wf_nodup _ _ _ W) P) as [-> _].
        destruct m; [|exists h, es; split; [reflexivity|]; split; [assumption|]; auto].
        set (e' := He (hkey e) (hindex e) true (hval e)).
        exists (set_mark id e h), (set_key e' es). split; [reflexivity|]. split; [apply (upd_wf _ _ _ _ e); auto|]. split; [reflexivity|].
        split; [|discriminate]. unfold rows, mark, set_key. rewrite !map_map. apply map_ext_in. intros x X.
        change (row (if same (hkey e) (hkey x) then e' else x) = (if same (hkey e) (hkey x) then (hkey x, true, hval x) else row x)).
        destruct (same (hkey e) (hkey x)) as [Q|Q]; [|reflexivity].
        apply In_nth_error in X as (q & X). destruct (Forall2_nth' _ _ _ _ _ (w_points _ _ _ W) X) as (i & _ & Xi). unfold points in Xi.
        assert (i = id) as -> by (eapply key_unique; [eassumption..|congruence]). rewrite E in Xi. injection Xi as <-. reflexivity.
      - destruct (value_none _ _ N) as [-> _]. exists h, es. split; [reflexivity|]. split; [assumption|]. split; [reflexivity|].
        split; [|auto]. destruct m; [|reflexivity]. unfold mark, rows. rewrite map_map. symmetry. apply map_ext_in. intros x X.
        change ((if same k (hkey x) then (hkey x, true, hval x) else row x) = row x).
        destruct (same k (hkey x)) as [->|]; [|reflexivity]. exfalso. apply N. now apply in_map.
    Qed.

    Lemma index_ok h ord es k : wf h ord es -> index_bykey mm3 k h = Ok (place k (rows es)).
    Proof.
      intros W. unfold index_bykey. destruct (lookup_ok _ _ _ k W) as [(id & e & -> & E & <-)|[-> N]]; cbn [rbind].
      - rewrite (rd_some _ _ _ E). cbn [rbind]. destruct (in_es _ _ _ _ _ W E) as (p & P).
        destruct (value_some es p e (wf_nodup _ _ _ W) P) as [_ ->]. now rewrite (w_index _ _ _ W _ _ P).
      - destruct (value_none _ _ N) as [_ ->]. reflexivity.
    Qed.

    Lemma byindex_ok h ord es i : wf h ord es ->
      key_byindex i h = Ok (at_place (keys (rows es)) i) /\ data_byindex i h = Ok (at_place (map snd (rows es)) i).
    Proof.
      intros W. unfold key_byindex, data_byindex, at_place. rewrite keys_rows. unfold rows. rewrite !map_map, !map_length.
      destruct (wf_length _ _ _ W) as [_ L]. rewrite L, <- (w_count _ _ _ W), N.ltb_antisym.
      destruct (N.leb_spec (child_count h) i) as [Q|Q]; [auto|]. cbn [negb].
      destruct (nth_lt es (N.to_nat i)) as [e E]; [rewrite L; rewrite (w_count _ _ _ W) in Q; lia|].
      destruct (at_ok _ _ _ _ _ W E) as (id & _ & _ & ->). cbn [rbind]. rewrite !nth_error_map, E. auto.
    Qed.

    Lemma iter_ok h ord ig f : forall es2 es1 seen, wf h ord (es1 ++ es2) ->
      iter (length es2) (length es1) ig f seen h = Ok (visits f seen (entries ig (rows es2))).
    Proof.
      induction es2 as [|e es2 IH]; intros es1 seen W; [reflexivity|]. cbn [length iter].
      destruct (at_ok _ _ _ (length es1) e W) as (id & _ & _ & ->); [rewrite nth_error_app2, Nat.sub_diag by lia; reflexivity|]. cbn [rbind].
      assert (IH' : forall s, iter (length es2) (S (length es1)) ig f s h = Ok (visits f s (entries ig (rows es2)))).
      { intros s. specialize (IH (es1 ++ [e]) s). rewrite app_length, Nat.add_1_r, <- app_assoc in IH. apply IH, W. }
      unfold entries. cbn. destruct ig, (hmark e); cbn [negb orb andb map visits fst snd row]; try apply IH'.
      all: destruct (f _); [apply IH'|reflexivity].
    Qed.

    Lemma iterate_ok h ord es ig f : wf h ord es -> hash_iterate ig f h = Ok (visits f [] (entries ig (rows es))).
    Proof.
      intros W. unfold hash_iterate. destruct (wf_length _ _ _ W) as [_ L]. rewrite (w_count _ _ _ W), Nat2N.id, <- L.
      now apply (iter_ok h ord ig f es []).
    Qed.

    (** ** Sorting *)

    Lemma slot_keys_ok h ord : forall es2 es1, wf h ord (es1 ++ es2) -> slot_keys (length es2) (length es1) h = Ok (map hkey es2).
    Proof.
      induction es2 as [|e es2 IH]; intros es1 W; [reflexivity|]. cbn [length slot_keys].
      destruct (at_ok _ _ _ (length es1) e W) as (id & _ & _ & ->); [rewrite nth_error_app2, Nat.sub_diag by lia; reflexivity|]. cbn [rbind].
      specialize (IH (es1 ++ [e])). rewrite app_length, Nat.add_1_r, <- app_assoc in IH. now rewrite IH.
    Qed.

    Lemma from_places_ok {A} (l r : list A) ps : (forall p, In p ps -> (p < length l)%nat) -> from_places (l ++ r) ps = Ok (moved l ps).
    Proof.
      induction ps as [|p ps IH]; intros H; [reflexivity|]. cbn. destruct (nth_lt l p) as [a E]; [apply H; now left|].
      rewrite (rd_some _ _ a) by (rewrite nth_error_app1; [assumption|eapply nth_lt'; eauto]). cbn [rbind].
      rewrite IH by (intros; apply H; now right). rewrite E. reflexivity.
    Qed.

    Lemma moved_map {A B} (f : A -> B) l ps : moved (map f l) ps = map f (moved l ps).
    Proof.
      unfold moved. induction ps as [|p ps IH]; [reflexivity|]. cbn [flat_map]. rewrite IH, nth_error_map, map_app. destruct (nth_error l p); reflexivity.
    Qed.

    Lemma moved_seq {A} (l : list A) : forall p, moved (p ++ l) (seq (length p) (length l)) = l.
    Proof.
      induction l as [|a l IH]; intros p; [reflexivity|]. cbn. rewrite nth_error_app2, Nat.sub_diag by lia. cbn. f_equal.
      specialize (IH (p ++ [a])). rewrite app_length, Nat.add_1_r, <- app_assoc in IH. exact IH.
    Qed.

    Lemma moved_perm {A} (l : list A) ps : Permutation ps (seq 0 (length l)) -> Permutation (moved l ps) l.
    Proof. intros P. rewrite <- (moved_seq l []) at 2. unfold moved. apply Permutation_flat_map, P. Qed.

    Lemma moved_F2 {A B} (R : A -> B -> Prop) l l' ps : Forall2 R l l' -> Forall2 R (moved l ps) (moved l' ps).
    Proof.
      intros F. induction ps as [|p ps IH]; [constructor|]. cbn. apply Forall2_app; [|assumption].
      destruct (nth_error l p) as [a|] eqn:E.
      - destruct (Forall2_nth _ _ _ _ _ F E) as (b & -> & r). auto.
      - destruct (nth_error l' p) as [b|] eqn:E'; [|constructor]. destruct (Forall2_nth' _ _ _ _ _ F E') as (a & Ea & _). congruence.
    Qed.

    Fixpoint reindex (i : nat) (es : list (hentry V)) : list (hentry V) :=
      match es with
      | [] => []
      | e :: es' => He (hkey e) (N.of_nat i) (hmark e) (hval e) :: reindex (S i) es'
      end.

    Lemma reindex_rows es : forall i, rows (reindex i es) = rows es.
    Proof. unfold rows. induction es as [|e es IH]; intros i; cbn; [reflexivity|]. now rewrite IH. Qed.

    Lemma reindex_index es : forall i p e, nth_error (reindex i es) p = Some e -> hindex e = N.of_nat (i + p).
    Proof.
      induction es as [|x es IH]; intros i [|p] e E; cbn in *; try discriminate.
      - injection E as <-. cbn. f_equal. lia.
      - rewrite (IH _ _ _ E). f_equal. lia.
    Qed.

    Lemma renumber_ok pad : forall ord2 es2 ord1 cc ch os hp, NoDup (ord1 ++ ord2) -> Forall2 (points hp) ord2 es2 ->
      os = map Some (ord1 ++ ord2) ++ repeat None pad ->
      exists hp', renumber (length ord2) (length ord1) (Vh cc ch os hp) = Ok (Vh cc ch os hp') /\ map hkey hp' = map hkey hp /\
        Forall2 (points hp') ord2 (reindex (length ord1) es2) /\ (forall id, ~ In id ord2 -> nth_error hp' id = nth_error hp id).
    Proof.
      induction ord2 as [|id ord2 IH]; intros es2 ord1 cc ch os hp ND F OS; inversion F as [|? e ? es2' E F']; subst es2; cbn [length renumber].
      - exists hp. repeat split. constructor.
      - unfold at_index. cbn [ordered heap].
        rewrite (rd_some os _ (Some id)) by (rewrite OS, nth_error_app1 by (rewrite map_length, app_length; cbn; lia);
           apply map_nth_error; rewrite nth_error_app2, Nat.sub_diag by lia; reflexivity).
        cbn [rbind]. rewrite (rd_some _ _ _ E). cbn [rbind child_count children].
        set (e' := He (hkey e) (N.of_nat (length ord1)) (hmark e) (hval e)).
        assert (NI : ~ In id ord2) by (apply NoDup_remove_2 in ND; intros I; apply ND, in_or_app; now right).
        destruct (IH es2' (ord1 ++ [id]) cc ch os (upd hp id e')) as (hp' & R & K & F2 & O).
        + now rewrite <- app_assoc.
        + assert (G : forall x y, In x ord2 -> points hp x y -> points (upd hp id e') x y).
          { intros j y I P. unfold points. rewrite nth_upd_other; [assumption|]. intros ->. contradiction. }
          clear - F' G. induction F'; constructor; [apply G; [now left|assumption]|]. apply IHF'. intros; apply G; [now right|assumption].
        + now rewrite <- app_assoc.
        + exists hp'. rewrite app_length, Nat.add_1_r in *. split; [exact R|]. split; [rewrite K; eapply map_upd; [exact E|reflexivity]|].
          split.
          * cbn [reindex]. constructor; [|exact F2]. unfold points. rewrite O by assumption. apply nth_upd_same. eapply nth_lt'; eauto.
          * intros i I. rewrite O by (intros J; apply I; now right). apply nth_upd_other. intros ->. apply I. now left.
    Qed.

    Lemma sort_ok h ord es srt : wf h ord es -> (forall ks, Permutation (srt ks) (seq 0 (length ks))) ->
      exists h' ord' es', hash_sort srt h = Ok h' /\ wf h' ord' es' /\ child_count h' = child_count h /\
        rows es' = moved (rows es) (srt (keys (rows es))).
    Proof.
      intros W P. unfold hash_sort. cbv zeta. destruct (wf_length _ _ _ W) as [LO LE].
      assert (NC : N.to_nat (child_count h) = length es) by (rewrite (w_count _ _ _ W), LE; lia).
      pose proof (slot_keys_ok h ord es [] W) as SKS. cbn [length] in SKS. rewrite NC, SKS. cbn [rbind]. rewrite keys_rows. set (ps := srt (map hkey es)).
      assert (PP : Permutation ps (seq 0 (length es))) by (unfold ps; rewrite <- (map_length hkey es); apply P).
      assert (PO : Permutation ps (seq 0 (length ord))) by (rewrite LO, <- LE; exact PP).
      destruct (w_slots _ _ _ W) as (pad & OS).
      assert (FP : from_places (ordered h) ps = Ok (moved (map Some ord) ps)).
      { rewrite OS. apply from_places_ok.
        intros p I. rewrite map_length, LO, <- LE. apply (Permutation_in _ PP) in I. apply in_seq in I. lia. }
      rewrite FP. cbn [rbind]. rewrite moved_map.
      assert (SK : skipn (length es) (ordered h) = repeat None pad).
      { rewrite OS, LE, <- LO. rewrite <- (map_length Some ord). rewrite skipn_app, skipn_all, Nat.sub_diag. reflexivity. }
      rewrite SK. pose proof (moved_perm ord ps PO) as PM.
      assert (ND : NoDup (moved ord ps)).
      { eapply Permutation_NoDup; [symmetry; eapply perm_trans; [exact PM|apply (w_perm _ _ _ W)]|apply seq_NoDup]. }
      destruct (renumber_ok pad (moved ord ps) (moved es ps) [] (child_count h) (children h) (map Some (moved ord ps) ++ repeat None pad) (heap h))
        as (hp' & R & K & F & _); [exact ND|apply moved_F2, (w_points _ _ _ W)|reflexivity|].
      assert (LM : length (moved ord ps) = length es) by (rewrite (Permutation_length PM); congruence).
      rewrite LM in R. cbn [length] in R. rewrite R.
      exists (Vh (child_count h) (children h) (map Some (moved ord ps) ++ repeat None pad) hp'), (moved ord ps), (reindex 0 (moved es ps)).
      split; [reflexivity|]. split; [|split; [reflexivity|]].
      - eapply wf_change; try eassumption; eauto.
        + rewrite OS, !app_length, !map_length. lia.
        + intros p e E. now apply reindex_index in E.
      - rewrite reindex_rows. unfold rows. now rewrite moved_map.
    Qed.

    (** ** All operations *)

    Lemma step_ok h ord es o : wf h ord es -> child_count h < 2 ^ 31 - 1 -> sorts o ->
      exists h' ord' es', step mm3 o h = Ok (fst (sstep o (rows es)), h') /\ wf h' ord' es' /\
        child_count h' <= child_count h + 1 /\ rows es' = snd (sstep o (rows es)).
    Proof.
      intros W SM ST. destruct o as [k v|k m| |i|i|k|ig f|srt]; cbn [step sstep].
      - destruct (add_ok _ _ _ k v W SM) as [A B]. destruct (in_dec same k (map hkey es)) as [I|N].
        + destruct (A I) as (h' & -> & W'). cbn [rbind]. apply in_map_iff in I as (e & <- & I). apply In_nth_error in I as (p & I).
          destruct (value_some _ _ _ (wf_nodup _ _ _ W) I) as [-> _]. exists h', ord, es. split; [reflexivity|]. split; [assumption|].
          split; [|reflexivity]. rewrite <- (rows_length _ _ _ W'), <- (rows_length _ _ _ W). lia.
        + destruct (B N) as (h' & -> & W'). cbn [rbind]. destruct (value_none _ _ N) as [-> _]. eexists h', _, _. split; [reflexivity|].
          split; [eassumption|]. split; [|unfold rows; rewrite map_app; reflexivity].
          rewrite <- (rows_length _ _ _ W'), <- (rows_length _ _ _ W). unfold rows. rewrite !map_length, app_length. cbn [length]. lia.
      - destruct (get_ok _ _ _ k m W) as (h' & es' & -> & W' & C & R & _). cbn [rbind]. exists h', ord, es'. split; [reflexivity|].
        split; [assumption|]. split; [lia|assumption].
      - exists h, ord, es. rewrite (rows_length _ _ _ W). split; [reflexivity|]. split; [assumption|]. split; [lia|reflexivity].
      - destruct (byindex_ok _ _ _ i W) as [-> _]. exists h, ord, es. split; [reflexivity|]. split; [assumption|]. split; [lia|reflexivity].
      - destruct (byindex_ok _ _ _ i W) as [_ ->]. exists h, ord, es. split; [reflexivity|]. split; [assumption|]. split; [lia|reflexivity].
      - rewrite (index_ok _ _ _ _ W). exists h, ord, es. split; [reflexivity|]. split; [assumption|]. split; [lia|reflexivity].
      - rewrite (iterate_ok _ _ _ _ _ W). exists h, ord, es. split; [reflexivity|]. split; [assumption|]. split; [lia|reflexivity].
      - destruct (sort_ok _ _ _ srt W ST) as (h' & ord' & es' & -> & W' & C & R). cbn [rbind]. exists h', ord', es'.
        split; [reflexivity|]. split; [assumption|]. split; [lia|assumption].
    Qed.

    Lemma run_ok : forall os h ord es, wf h ord es -> child_count h + N.of_nat (length os) < 2 ^ 31 -> Forall sorts os ->
      run mm3 os h = Ok (srun os (rows es)).
    Proof.
      induction os as [|o os IH]; intros h ord es W L F; [reflexivity|]. cbn [length] in L. inversion F as [|? ? So F']; subst. cbn [run srun].
      destruct (step_ok _ _ _ o W) as (h' & ord' & es' & -> & W' & C & R); [lia|assumption|]. cbn [rbind].
      rewrite (IH h' ord' es' W'); [|lia|assumption]. cbn [rbind]. rewrite R. destruct (sstep o (rows es)). reflexivity.
    Qed.
  End Flat.
End Hash.
