(** The tree search against its specification. *)
From Verif Require Import Base DnameSpec CompModel CompSpec CompProofs RespModel RespSpec.
Ltac Zify.zify_post_hook ::= idtac.

Lemma assoc_in l : forall cs c, assoc_label l cs = Some c -> In (l, c) cs.
Proof.
  induction cs as [|[k n] cs IH]; intros c H; [discriminate|]. cbn [assoc_label] in H.
  destruct (bytes_eqb k l) eqn:E; [|right; auto]. apply bytes_eqb_spec in E. injection H as ->. subst. now left.
Qed.
Lemma assoc_none l : forall cs c, assoc_label l cs = None -> ~ In (l, c) cs.
Proof.
  induction cs as [|[k n] cs IH]; intros c H; [intros []|]. cbn [assoc_label] in H.
  destruct (bytes_eqb k l) eqn:E; [discriminate|]. intros [Q|Q]; [|now apply (IH c)].
  injection Q as -> ->. assert (bytes_eqb l l = true) by now apply bytes_eqb_spec. congruence.
Qed.
Lemma assoc_some l c : forall cs, NoDup (map fst cs) -> In (l, c) cs -> assoc_label l cs = Some c.
Proof.
  induction cs as [|[k n] cs IH]; intros ND HI; [destruct HI|]. cbn [map fst] in ND. apply NoDup_cons_iff in ND. destruct ND as [N1 N2].
  cbn [assoc_label]. destruct HI as [Q|Q].
  - injection Q as -> ->. assert (E : bytes_eqb l l = true) by now apply bytes_eqb_spec. now rewrite E.
  - destruct (bytes_eqb k l) eqn:E; [|auto]. apply bytes_eqb_spec in E. subst k. contradiction N1.
    apply in_map_iff. exists (l, c). auto.
Qed.

Section Search.
  Variable root : node.
  Hypothesis WF : forall q n, at_name root q n -> wf_node n.

  Lemma at_unique q : forall n n', at_name root q n -> at_name root q n' -> n = n'.
  Proof.
    induction q as [|l q IH]; intros n n' H1 H2.
    - inversion H1; inversion H2; congruence.
    - inversion H1 as [|q1 m1 l1 c1 A1 I1]; inversion H2 as [|q2 m2 l2 c2 A2 I2]; subst.
      assert (m1 = m2) by (apply IH; assumption). subst m2.
      destruct (WF _ _ A1) as (ND & _). pose proof (assoc_some _ _ _ ND I1). pose proof (assoc_some _ _ _ ND I2). congruence.
  Qed.
  Lemma at_parent p : forall q n, at_name root (p ++ q) n -> exists m, at_name root q m.
  Proof.
    induction p as [|l p IH]; intros q n H; [eauto|]. cbn [app] in H. inversion H as [|q1 m1 l1 c1 A1 I1]; subst. eauto.
  Qed.
  Lemma app_suffix_cases {A} (x z a c : list A) : x ++ z = a ++ c -> length z <= length c -> exists p, c = p ++ z.
  Proof.
    revert a. induction x as [|h x IH]; intros a E L.
    - cbn in E. exists []. destruct a as [|h a]; [now symmetry|]. subst z. cbn in L. rewrite app_length in L. lia.
    - destruct a as [|k a].
      + cbn in E. exists (h :: x). now symmetry.
      + cbn in E. injection E as _ E. eauto.
  Qed.

  (** the cuts strictly above / at or above a name seen so far *)
  Definition cuts_before (done : name) (auth : option (node * nat)) (total : nat) : Prop :=
    match auth with
    | None => forall z n, cut_above root done z n -> length z < length done -> False
    | Some (a, d) => exists p z, done = p ++ z /\ length z < length done /\ at_name root z a /\ n_zcut a = true /\ d + length z = total /\
        forall z' n', cut_above root done z' n' -> length z' < length done -> z' = z
    end.
  Definition cuts_done (done : name) (auth : option (node * nat)) (total : nat) : Prop :=
    match auth with
    | None => forall z n, cut_above root done z n -> False
    | Some (a, d) => exists p z, done = p ++ z /\ at_name root z a /\ n_zcut a = true /\ d + length z = total /\
        forall z' n', cut_above root done z' n' -> z' = z
    end.

  (** what [search] returns *)
  Definition search_ok (q : name) (r : RespModel.status * option node * option node * nat) : Prop :=
    match r with
    | (NOAUTH, _, _, _) => no_zone root q
    | (DELEG, Some d, Some a, lc) => exists p dn, q = p ++ dn /\ length p = lc /\ delegated root q dn d
    | (AUTH, f, Some a, lc) => exists p z, q = p ++ z /\ length p = lc /\ in_zone root q z a f
    | _ => False
    end.

  Lemma cut_ext q l d z n : q = l :: d -> cut_above root q z n -> (z = q /\ at_name root q n /\ n_zcut n = true) \/ cut_above root d z n.
  Proof.
    intros -> ((p & E) & A & Z). destruct p as [|l' p]; cbn [app] in E.
    - left. subst z. auto.
    - injection E as -> ->. right. split; [eauto|auto].
  Qed.

  Lemma cut_trans q p done z n : q = p ++ done -> cut_above root done z n -> cut_above root q z n.
  Proof. intros -> ((x & E) & A & Z). subst done. split; [|auto]. exists (p ++ x). now rewrite app_assoc. Qed.
  Lemma cut_short q p done z n : q = p ++ done -> cut_above root q z n -> length z <= length done -> cut_above root done z n.
  Proof. intros E ((x & E2) & A & Z) L. split; [|auto]. eapply app_suffix_cases; [|exact L]. rewrite <- E2. exact E. Qed.
  Lemma cut_exists q p l done : q = p ++ l :: done -> (forall n, ~ at_name root (l :: done) n) ->
    forall z n, cut_above root q z n -> cut_above root done z n.
  Proof.
    intros E HN z n HC. eapply (cut_short q (p ++ [l])); [rewrite <- app_assoc; exact E|exact HC|].
    destruct (le_lt_dec (length z) (length done)) as [L|L]; [assumption|]. exfalso.
    destruct HC as ((x & E2) & A & Z). destruct (app_suffix_cases p (l :: done) x z) as (y & E3).
    { rewrite <- E. exact E2. } { cbn [length]. lia. }
    subst z. destruct (at_parent _ _ _ A) as (m & B). now apply (HN m).
  Qed.

  Lemma cut_cases done current z n : at_name root done current -> cut_above root done z n ->
    length z < length done \/ (z = done /\ n = current /\ n_zcut current = true).
  Proof.
    intros HA ((p & E) & A & Z). destruct p as [|l p].
    - right. cbn in E. subst z. assert (n = current) by (eapply at_unique; eauto). subst. auto.
    - left. subst done. rewrite app_length. cbn [length]. lia.
  Qed.

  Lemma cuts_next done current auth k : at_name root done current -> (n_zcut current = true -> auth = None) ->
    cuts_before done auth (k + length done) -> cuts_done done (if n_zcut current then Some (current, k) else auth) (k + length done).
  Proof.
    intros HA HZ HC. destruct (n_zcut current) eqn:Z.
    - rewrite (HZ eq_refl) in HC. exists [], done. repeat split; auto.
      intros z' n' C. destruct (cut_cases _ _ _ _ HA C) as [L|(-> & _)]; [|reflexivity]. destruct (HC _ _ C L).
    - destruct auth as [[a d]|].
      + destruct HC as (p & z & E1 & E2 & E3 & E4 & E5 & E6). exists p, z. repeat split; auto.
        intros z' n' C. destruct (cut_cases _ _ _ _ HA C) as [L|(_ & _ & Q)]; [eauto|congruence].
      + intros z' n' C. destruct (cut_cases _ _ _ _ HA C) as [L|(_ & _ & Q)]; [eauto|congruence].
  Qed.

  Lemma cuts_child l done auth total : cuts_done done auth total -> cuts_before (l :: done) auth total.
  Proof.
    assert (S1 : forall z n, cut_above root (l :: done) z n -> length z < length (l :: done) -> cut_above root done z n).
    { intros z n C L. eapply (cut_short (l :: done) [l]); [reflexivity|exact C|]. cbn [length] in L. lia. }
    destruct auth as [[a d]|].
    - intros (p & z & E1 & E2 & E3 & E4 & E5). exists (l :: p), z. rewrite E1. rewrite <- E1. cbn [app length].
      repeat split; auto.
      + now rewrite E1.
      + rewrite E1, app_length. lia.
      + intros z' n' C L. eauto.
    - intros H z n C L. eauto.
  Qed.

  Lemma deleg_case p done current a d : at_name root done current -> n_zcut current = true ->
    cuts_before done (Some (a, d)) (length p + length done) -> delegated root (p ++ done) done current.
  Proof.
    intros HA HZ (x & z & E1 & E2 & E3 & E4 & E5 & E6). exists z, a.
    assert (CZ : cut_above root (p ++ done) z a) by (split; [|auto]; exists (p ++ x); rewrite <- app_assoc, <- E1; reflexivity).
    assert (SUB : forall z' n', cut_above root (p ++ done) z' n' -> length z' < length done -> z' = z).
    { intros z' n' C L. apply (E6 z' n'); [|assumption]. eapply cut_short; [reflexivity|exact C|lia]. }
    split; [split; [exact CZ|]|].
    - intros z' n' C. destruct (le_lt_dec (length done) (length z')) as [L|L]; [lia|]. rewrite (SUB _ _ C L). lia.
    - split; [split; [exists p; reflexivity|auto]|]. split; [assumption|].
      intros z' n' C L. destruct (le_lt_dec (length done) (length z')) as [L2|L2]; [lia|]. rewrite (SUB _ _ C L2) in L. lia.
  Qed.

  Lemma zone_case p done a d f : cuts_done done (Some (a, d)) (length p + length done) ->
    (forall z' n', cut_above root (p ++ done) z' n' -> cut_above root done z' n') ->
    match f with
    | Some n => at_name root (p ++ done) n \/ exists c cn, closest root (p ++ done) c cn /\ In ([42%N], n) (n_children cn)
    | None => exists c cn, closest root (p ++ done) c cn /\ forall n, ~ In ([42%N], n) (n_children cn)
    end -> search_ok (p ++ done) (AUTH, f, Some a, d).
  Proof.
    intros (x & z & E1 & E2 & E3 & E4 & E5) HS HF. exists (p ++ x), z. rewrite <- app_assoc, <- E1.
    split; [reflexivity|]. split; [rewrite E1, !app_length in E4; rewrite app_length; lia|]. split.
    - split; [split; [|auto]; exists (p ++ x); rewrite <- app_assoc, <- E1; reflexivity|].
      intros z' n' C. rewrite (E5 z' n' (HS _ _ C)). lia.
    - split; [|exact HF]. intros z' n' C. apply (E5 z' n'). auto.
  Qed.

  Lemma search_spec : forall stack current auth done, at_name root done current ->
    cuts_before done auth (length stack + length done) ->
    search_ok (rev stack ++ done) (search current stack auth).
  Proof.
    induction stack as [|l stack IH]; intros current auth done HA HC.
    - assert (CORE : (n_zcut current = true -> auth = None) -> search_ok done
        (match (if n_zcut current then Some (current, 0) else auth) with
         | Some (a, d) => (AUTH, Some current, Some a, d) | None => (NOAUTH, Some current, None, O) end)).
      { intros HZ. pose proof (cuts_next done current auth 0 HA HZ HC) as HN.
        destruct (if n_zcut current then Some (current, 0) else auth) as [[a d]|].
        - apply (zone_case [] done a d (Some current)); auto.
        - intros z n C. exact (HN z n C). }
      cbn [search rev app length]. destruct (n_zcut current) eqn:Z, auth as [[a d]|].
      + exists [], done. split; [reflexivity|]. split; [reflexivity|]. eapply (deleg_case []); eauto.
      + apply CORE. auto.
      + apply CORE. discriminate.
      + apply CORE. discriminate.
    - assert (EQ : rev (l :: stack) ++ done = rev stack ++ l :: done) by (cbn [rev]; now rewrite <- app_assoc).
      assert (CORE : (n_zcut current = true -> auth = None) -> search_ok (rev (l :: stack) ++ done)
        (let auth := if n_zcut current then Some (current, S (length stack)) else auth in
         match find_child current l with
         | Some next => search next stack auth
         | None => match auth with
                   | Some (a, d) => (AUTH, find_child current label_wild, Some a, d)
                   | None => (NOAUTH, None, None, O)
                   end
         end)).
      { intros HZ. pose proof (cuts_next done current auth (S (length stack)) HA HZ HC) as HN.
        cbn zeta. destruct (find_child current l) as [next|] eqn:EF.
        - rewrite EQ. apply IH.
          + econstructor; [exact HA|]. now apply assoc_in.
          + cbn [length]. rewrite Nat.add_succ_r. apply cuts_child. exact HN.
        - assert (NC : forall n, ~ at_name root (l :: done) n).
          { intros n H. inversion H as [|q1 m1 l1 c1 A1 I1]; subst. assert (m1 = current) by (eapply at_unique; eauto). subst m1.
            eapply assoc_none; eauto. }
          assert (HS : forall z' n', cut_above root (rev (l :: stack) ++ done) z' n' -> cut_above root done z' n').
          { intros z' n' C. eapply (cut_exists _ (rev stack) l done EQ NC). exact C. }
          assert (HCL : closest root (rev (l :: stack) ++ done) done current).
          { exists (rev stack), l. split; [exact EQ|]. split; [assumption|exact NC]. }
          destruct (if n_zcut current then Some (current, S (length stack)) else auth) as [[a d]|].
          + apply zone_case; [rewrite rev_length; exact HN|exact HS|]. unfold find_child, label_wild.
            destruct (assoc_label [42%N] (n_children current)) as [w|] eqn:EW.
            * right. exists done, current. split; [exact HCL|]. now apply assoc_in.
            * exists done, current. split; [exact HCL|]. intros n. now apply assoc_none.
          + intros z' n' C. apply (HN z' n'). now apply HS. }
      cbn [search]. destruct (n_zcut current) eqn:Z, auth as [[a d]|].
      + exists (rev (l :: stack)), done. split; [reflexivity|]. split; [apply rev_length|]. eapply deleg_case; eauto. rewrite rev_length. exact HC.
      + apply CORE. auto.
      + apply CORE. discriminate.
      + apply CORE. discriminate.
  Qed.

  Lemma search_top q : search_ok q (search root (rev q) None).
  Proof.
    pose proof (search_spec (rev q) root None []) as H. rewrite rev_involutive, app_nil_r in H. apply H.
    - constructor.
    - intros z n C L. cbn in L. lia.
  Qed.
End Search.
