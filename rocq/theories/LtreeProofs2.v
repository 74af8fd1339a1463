(** The table as a map: finding and adding children. *)
From Coq Require Import Sorting.Permutation.
From Verif Require Import Base DnameModel RandModel CompModel RespModel LtreeModel LtreeProofs.
Local Open Scope N_scope.
Ltac Zify.zify_post_hook ::= idtac.

Section Tab.
  Context {A : Type}.
  Variable labelof : A -> list N.
  Variable hash : list N -> N.
  Hypothesis hash64 : forall l, hash l < W64.
  Notation slots := (list (option (N * A))).

  Definition elems (t : option slots) : list A := match t with Some t => map snd (ents t) | None => [] end.
  Definition tab_ok (cc : N) (t : option slots) : Prop :=
    match t with
    | None => cc = 0
    | Some t => 0 < cc /\ cc < 2 ^ 62 /\ rh (N.log2 cc + 1) t /\ labels_ok labelof hash t /\
                N.of_nat (length (ents t)) = cc /\ NoDup (map labelof (map snd (ents t)))
    end.

  Lemma log2_lt cc : 0 < cc -> cc < 2 ^ 62 -> N.log2 cc < 62.
  Proof. intros P L. now apply N.log2_lt_pow2. Qed.
  Lemma find_all_false (p : A -> bool) l : (forall x, In x l -> p x = false) -> find p l = None.
  Proof. induction l as [|x l IH]; cbn; intros H; [reflexivity|]. rewrite (H x) by now left. apply IH. intros; apply H; now right. Qed.
  Lemma find_unique l x (L : list A) : NoDup (map labelof L) -> In x L -> labelof x = l -> find (fun c => bytes_eqb (labelof c) l) L = Some x.
  Proof.
    induction L as [|y L IH]; cbn; intros ND I E; [contradiction|].
    inversion ND as [|? ? NI ND']; subst. destruct I as [->|I].
    - now rewrite bytes_eqb_refl.
    - destruct (bytes_eqb (labelof y) (labelof x)) eqn:B; [|now apply IH].
      exfalso. apply bytes_eqb_iff in B. apply NI. rewrite B. now apply in_map.
  Qed.
  Lemma in_elems (t : slots) i h c : i < N.of_nat (length t) -> at_ t i = Some (h, c) -> In c (elems (Some t)).
  Proof. intros I E. cbn. apply in_map_iff. exists (h, c). split; [reflexivity|]. apply in_ents. eauto. Qed.

  Definition lookup (l : list N) (es : list A) : option A := find (fun c => bytes_eqb (labelof c) l) es.

  Lemma lookup_absent l es : (forall c, In c es -> labelof c <> l) -> lookup l es = None.
  Proof. intros H. apply find_all_false. intros x I. destruct (bytes_eqb (labelof x) l) eqn:B; [|reflexivity]. apply bytes_eqb_iff in B. now apply H in I. Qed.
  Lemma absent_elems t l : absent labelof t l -> forall c, In c (elems (Some t)) -> labelof c <> l.
  Proof. intros H c I. cbn in I. apply in_map_iff in I. destruct I as ([h c'] & E & I). cbn in E. subst. eapply H; eauto. Qed.

  Lemma table_find_ok cc t l : tab_ok cc t -> table_find labelof hash cc t l = Ok (lookup l (elems t)).
  Proof.
    destruct t as [t|]; cbn [tab_ok]; intros H; [|reflexivity]. destruct H as (P & LT & R & LO & LN & ND).
    pose proof (log2_lt cc P LT) as LG. unfold table_find, rassert. destruct (N.eqb_spec cc 0); [lia|]. cbn [negb].
    rewrite count2mask_ok by lia. cbn [rbind].
    destruct (probe_start labelof hash hash64 (N.log2 cc + 1) ltac:(lia) t l R LO) as [(i & c & E & I & AT & LB)|(pd & E & AB & _)].
    - rewrite E. cbn [rbind]. f_equal. symmetry. apply find_unique; auto. eapply in_elems; [|exact AT]. pose proof (rh_len _ _ R). lia.
    - rewrite E. cbn [rbind]. f_equal. symmetry. apply lookup_absent. now apply absent_elems.
  Qed.

  Lemma perm_labels (a b : list (N * A)) : Permutation a b -> Permutation (map labelof (map snd a)) (map labelof (map snd b)).
  Proof. intros. now do 2 apply Permutation_map. Qed.

  (** what an insertion into a table with room gives *)
  Lemma insert_tab k (t : slots) l pd c' : k < 64 -> rh k t -> labels_ok labelof hash t -> NoDup (map labelof (map snd (ents t))) ->
    absent labelof t l -> may_go k t (hash l) pd -> labelof c' = l -> N.of_nat (length (ents t)) + 1 < 2 ^ 62 ->
    N.of_nat (length (ents t)) + 1 < 2 ^ k -> N.log2 (N.of_nat (length (ents t)) + 1) + 1 = k ->
    exists t', node_insert (length t) t c' (hash l) pd (2 ^ k - 1) = Ok t' /\ tab_ok (N.of_nat (length (ents t)) + 1) (Some t') /\
      Permutation (ents t') ((hash l, c') :: ents t).
  Proof.
    intros K R LO ND AB G LB C C2 LG. destruct (insert_full labelof hash hash64 k K t (hash l) c' pd R G C2) as (t' & E & R' & P).
    exists t'. split; [exact E|]. split; [|exact P]. cbn [tab_ok]. split; [lia|]. split; [lia|]. rewrite LG. split; [exact R'|]. split.
    - intros h c I. apply (Permutation_in _ P) in I. destruct I as [I|I]; [injection I as <- <-; now rewrite LB|now apply LO].
    - split; [rewrite (Permutation_length P); cbn [length]; lia|].
      apply (Permutation_NoDup (Permutation_sym (perm_labels _ _ P))). cbn [map snd]. constructor; [|exact ND].
      rewrite LB. intros I. apply in_map_iff in I. destruct I as (c & EQ & I). apply in_map_iff in I. destruct I as ([h c0] & EQ2 & I). cbn in EQ2. subst c0. now apply (AB h c).
  Qed.

  Lemma table_seek_ok cc t l : tab_ok cc t -> cc + 1 < 2 ^ 62 ->
    (exists i c tb, table_seek labelof hash cc t l = Ok (inl (N.to_nat i, c, tb)) /\ t = Some tb /\ i < 2 ^ (N.log2 cc + 1) /\ at_ tb i = Some (hash l, c) /\ labelof c = l) \/
    (exists tb mask pd, table_seek labelof hash cc t l = Ok (inr (tb, mask, pd)) /\ (forall c, In c (elems t) -> labelof c <> l) /\
       forall c', labelof c' = l -> exists tb', node_insert (length tb) tb c' (hash l) pd mask = Ok tb' /\ tab_ok (cc + 1) (Some tb') /\
         Permutation (elems (Some tb')) (c' :: elems t)).
  Proof.
    intros T C. unfold table_seek. destruct t as [t|].
    - cbn [tab_ok] in T. destruct T as (P & LT & R & LO & LN & ND). pose proof (log2_lt cc P LT) as LG.
      assert (OR : N.log2 (N.lor cc 1) = N.log2 cc).
      { rewrite N.log2_lor. change (N.log2 1) with 0. apply N.max_l. lia. }
      assert (ORP : 0 < N.lor cc 1).
      { apply N.neq_0_lt_0. intros X. apply N.lor_eq_0_iff in X. lia. }
      rewrite count2mask_ok by lia. rewrite OR. cbn [rbind].
      destruct (N.eqb_spec cc 0) as [|_]; [lia|]. cbn [negb orb].
      set (k := N.log2 cc + 1) in *.
      destruct (probe_start labelof hash hash64 k ltac:(unfold k; lia) t l R LO) as [(i & c & E & I & AT & LB)|(pd & E & AB & G)].
      + left. exists i, c, t. rewrite E. cbn [rbind]. auto 6.
      + rewrite E. cbn [rbind]. right. pose proof (N.log2_spec cc P) as [LS1 LS2]. change (N.succ (N.log2 cc)) with (N.log2 cc + 1) in LS2 || rewrite <- N.add_1_r in LS2. fold k in LS2.
        assert (KP : 2 ^ k = 2 * 2 ^ N.log2 cc) by (unfold k; rewrite N.add_1_r, N.pow_succ_r'; reflexivity).
        destruct (N.eqb_spec cc (2 ^ k - 1)) as [EQ|NE].
        * assert (MK : (N.shiftl (2 ^ k - 1) 1 mod W64 + 1) mod W64 = 2 ^ (k + 1) - 1).
          { rewrite N.shiftl_mul_pow2. change (2 ^ 1) with 2. assert (2 ^ (k + 1) = 2 * 2 ^ k) as -> by (rewrite N.add_1_r, N.pow_succ_r'; reflexivity).
            pose proof (pow_lt_W64 (k + 1) ltac:(unfold k; lia)) as B. rewrite N.add_1_r, N.pow_succ_r' in B.
            rewrite (N.mod_small ((2 ^ k - 1) * 2)) by lia. rewrite N.mod_small by lia. lia. }
          rewrite MK. replace (2 ^ k - 1 + 1) with (2 ^ k) by lia. replace (2 ^ (k + 1) - 1 + 1) with (2 ^ (k + 1)) by (assert (0 < 2 ^ (k + 1)) by (apply N.neq_0_lt_0, N.pow_nonzero; lia); lia).
          assert (RD : rdn t 0 (N.to_nat (2 ^ k)) = Ok t).
          { unfold rdn. rewrite <- (rh_len k t R). cbn [plus]. rewrite Nat.leb_refl. f_equal. apply firstn_all. }
          rewrite RD. cbn [rbind].
          destruct (rehash_ok labelof hash hash64 (k + 1) ltac:(unfold k; lia) t (repeat None (N.to_nat (2 ^ (k + 1))))) as (t1 & E1 & R1 & P1).
          -- apply rh_fresh. unfold k; lia.
          -- intros h c I. apply in_ents in I. destruct I as (j & _ & AJ). eapply rh_hash; eauto.
          -- rewrite ents_fresh. cbn [length]. rewrite N.add_1_r, N.pow_succ_r'. lia.
          -- rewrite E1. cbn [rbind]. rewrite ents_fresh, app_nil_r in P1.
             exists t1, (2 ^ (k + 1) - 1), 0. split; [reflexivity|]. split; [now apply absent_elems|].
             intros c' LB. assert (LEN : length (ents t1) = length (ents t)) by (now apply Permutation_length).
             destruct (insert_tab (k + 1) t1 l 0 c') as (t2 & E2 & T2 & P2).
             ++ unfold k; lia.
             ++ exact R1.
             ++ intros h c I. apply LO. eapply Permutation_in; eauto.
             ++ eapply Permutation_NoDup; [apply Permutation_sym, perm_labels; exact P1|exact ND].
             ++ intros h c I. apply (AB h c). eapply Permutation_in; eauto.
             ++ split; [apply hash64|now left].
             ++ exact LB.
             ++ rewrite LEN, LN. exact C.
             ++ rewrite LEN, LN. rewrite N.add_1_r, (N.add_1_r k), N.pow_succ_r'. lia.
             ++ rewrite LEN, LN, EQ. replace (2 ^ k - 1 + 1) with (2 ^ k) by lia. rewrite N.log2_pow2 by lia. reflexivity.
             ++ exists t2. rewrite LEN, LN in T2. split; [exact E2|]. split; [exact T2|]. cbn [elems].
                eapply Permutation_trans; [apply Permutation_map; exact P2|]. cbn [map snd]. apply perm_skip. now apply Permutation_map.
        * exists t, (2 ^ k - 1), pd. split; [reflexivity|]. split; [now apply absent_elems|]. intros c' LB.
          destruct (insert_tab k t l pd c') as (t2 & E2 & T2 & P2); auto.
          -- unfold k; lia.
          -- rewrite LN. exact C.
          -- rewrite LN. lia.
          -- rewrite LN. unfold k. f_equal. apply N.log2_unique; [lia|]. split; [lia|]. rewrite N.pow_succ_r'. lia.
          -- exists t2. rewrite LN in T2. split; [exact E2|]. split; [exact T2|]. cbn [elems].
             eapply Permutation_trans; [apply Permutation_map; exact P2|]. cbn [map snd]. apply Permutation_refl.
    - cbn [tab_ok] in T. subst cc. right. change (N.lor 0 1) with 1. rewrite count2mask_ok by (cbn; lia). cbn [rbind N.eqb negb orb].
      change (N.log2 1 + 1) with 1. change ((N.shiftl 0 1 mod W64 + 1) mod W64) with 1. change (1 + 1) with (2 ^ 1).
      exists (repeat None (N.to_nat (2 ^ 1))), 1, 0. split; [reflexivity|]. split; [intros c []|]. intros c' LB.
      destruct (insert_tab 1 (repeat None (N.to_nat (2 ^ 1))) l 0 c') as (t2 & E2 & T2 & P2); rewrite ?ents_fresh.
      + reflexivity.
      + apply rh_fresh. reflexivity.
      + intros h c. rewrite ents_fresh. intros [].
      + constructor.
      + intros h c. rewrite ents_fresh. intros [].
      + split; [apply hash64|now left].
      + exact LB.
      + reflexivity.
      + reflexivity.
      + reflexivity.
      + exists t2. rewrite ents_fresh in T2, P2. split; [exact E2|]. split; [exact T2|]. cbn [elems].
        eapply Permutation_trans; [apply Permutation_map; exact P2|]. apply Permutation_refl.
  Qed.

  (** replacing a child by one of the same label *)
  Lemma replace_ok cc tb i c c' l : tab_ok cc (Some tb) -> i < 2 ^ (N.log2 cc + 1) -> at_ tb i = Some (hash l, c) -> labelof c = l -> labelof c' = l ->
    exists tb', wr tb (N.to_nat i) [Some (hash l, c')] = Ok tb' /\ tab_ok cc (Some tb') /\
      exists a b, elems (Some tb) = a ++ c :: b /\ elems (Some tb') = a ++ c' :: b.
  Proof.
    intros (P & LT & R & LO & LN & ND) I AT LB LB'. set (k := N.log2 cc + 1) in *. pose proof (log2_lt cc P LT) as LG.
    pose proof (rh_len k tb R) as TL.
    destruct (wr_at k ltac:(unfold k; lia) tb i (Some (hash l, c')) I TL) as (tb' & W & L' & A'). destruct (wr_ents k ltac:(unfold k; lia) tb i _ tb' I TL W) as (ea & eb & EA & EB).
    rewrite AT in EA. cbn [app] in EA, EB.
    exists tb'. split; [exact W|]. split.
    - cbn [tab_ok]. fold k. split; [exact P|]. split; [exact LT|]. split; [|split; [|split]].
      + assert (SAME : forall j h c0, at_ tb' j = Some (h, c0) -> exists c1, at_ tb j = Some (h, c1)).
        { intros j h c0. rewrite A'. destruct (N.eqb_spec j i) as [->|]; [|eauto]. intros E. injection E as <- <-. eauto. }
        assert (SAME2 : forall j h c0, at_ tb j = Some (h, c0) -> exists c1, at_ tb' j = Some (h, c1)).
        { intros j h c0 E. rewrite A'. destruct (N.eqb_spec j i) as [->|]; [|eauto]. rewrite AT in E. injection E as <- <-. eauto. }
        constructor.
        * congruence.
        * intros j h c0 E. destruct (SAME _ _ _ E) as (c1 & E1). eapply rh_hash; eauto.
        * intros j h c0 d J E D. destruct (SAME _ _ _ E) as (c1 & E1). destruct (rh_prev k tb R j h c1 d J E1 D) as (h2 & c2 & E2 & D2).
          destruct (SAME2 _ _ _ E2) as (c3 & E3). eauto.
        * destruct (rh_room k tb R) as (e & EI & EN). exists e. split; [exact EI|]. rewrite A'. destruct (N.eqb_spec e i) as [->|]; [congruence|exact EN].
      + intros h c0 IN. rewrite EB in IN. apply in_app_iff in IN. destruct IN as [IN|[IN|IN]].
        * apply LO. rewrite EA. apply in_app_iff. now left.
        * injection IN as <- <-. now rewrite LB'.
        * apply LO. rewrite EA. apply in_app_iff. right. now right.
      + rewrite EB, <- LN, EA, !app_length. reflexivity.
      + rewrite EB. rewrite EA in ND. rewrite !map_app in *. cbn [map snd] in *. rewrite LB'. rewrite LB in ND. exact ND.
    - exists (map snd ea), (map snd eb). cbn [elems]. rewrite EA, EB, !map_app. split; reflexivity.
  Qed.
End Tab.
