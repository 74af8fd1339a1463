(** The hash tables of vscf.rl hand values down as [bequeath] says *)
From Coq Require Import Permutation Lia.
From Verif Require Import Base CompModel CompProofs OptModel VhashModel VhashSpec VhashProofs VhashProofs2 PconfModel.
Local Open Scope N_scope.

Section Down.
  Variable mm3 : bytes -> N.
  Local Notation wf := (wf mm3).
  Local Notation good := (good mm3).

  Lemma bequeath_from_exact k sid so : forall es2 es1 src v, wf src so (es1 ++ es2) -> (forall x, In x (vals (es1 ++ es2)) -> good x) ->
    Forall (fun e => room (hval e)) es2 -> (exists e, nth_error (heap src) sid = Some e /\ hkey e = k /\ tree_of (hval e) = v) ->
    exists src' es2', bequeath_from mm3 (length es2) (length es1) sid k false src = Ok src' /\
      wf src' so (es1 ++ es2') /\ trows es2' = hand_down k v (trows es2).
  Proof.
    induction es2 as [|e es2 IH]; intros es1 src v W G RM SID; cbn [length bequeath_from].
    - exists src, []. auto.
    - destruct (at_ok _ _ _ _ (length es1) e W) as (id & _ & Hid & ->); [rewrite nth_error_app2, Nat.sub_diag by lia; reflexivity|]. cbn [rbind].
      inversion RM as [|? ? Re RM']; subst. destruct SID as (se & Hse & Kse & Vse).
      assert (ME : hkey e = k -> id = sid /\ tree_of (hval e) = v).
      { intros K. assert (id = sid) as -> by (eapply key_unique; [exact W|eassumption..|congruence]). split; [reflexivity|]. rewrite Hse in Hid. injection Hid as <-. exact Vse. }
      assert (Stay : match tree_of (hval e) with TH es => (fst (trow e), TH (inherited k v es)) | _ => trow e end = trow e ->
                exists src' es2', bequeath_from mm3 (length es2) (S (length es1)) sid k false src = Ok src' /\
                  wf src' so (es1 ++ es2') /\ trows es2' = hand_down k v (trows (e :: es2))).
      { intros HD. specialize (IH (es1 ++ [e]) src v). rewrite app_length, Nat.add_1_r, <- app_assoc in IH. cbn [app] in IH.
        destruct (IH W G RM') as (s' & es' & E & W' & T); [eauto|]. exists s', (e :: es'). rewrite <- app_assoc in W'. split; [exact E|].
        split; [exact W'|]. cbn [trows map hand_down]. change (snd (trow e)) with (tree_of (hval e)). rewrite HD. cbv zeta. fold (trows es') (trows es2). f_equal. rewrite T. f_equal.
        change (fst (fst (trow e))) with (hkey e). change (snd (trow e)) with (tree_of (hval e)). destruct (same k (hkey e)) as [Q|Q]; [|reflexivity]. symmetry. apply ME. congruence. }
      assert (Ge : good (hval e)) by (apply G, in_vals; exists e; split; [apply in_or_app; right; now left|reflexivity]).
      destruct (hval e) as [r s|l|child] eqn:HV; try (apply Stay; reflexivity).
      destruct (good_inv mm3 _ Ge) as (co & ce & WC & GC). cbn [negb orb].
      destruct (get_ok _ _ _ _ k false WC) as (ch' & ce' & -> & _ & _ & _ & SAME). destruct (SAME eq_refl) as [-> ->]. cbn [rbind].
      destruct (value k (rows ce)) as [w|] eqn:VK.
      { apply Stay. unfold trow. rewrite HV, (tree_hash mm3 _ _ _ WC). unfold inherited. rewrite value_trows, VK. reflexivity. }
      rewrite (rd_some _ _ _ Hse). cbn [rbind].
      destruct (in_es _ _ _ _ _ _ W Hse) as (sp & Psp).
      assert (Gse : good (hval se)) by (apply G, in_vals; exists se; split; [eapply nth_error_In; eassumption|reflexivity]).
      destruct (clone_good mm3 false _ Gse) as (c & -> & Gc & Tc). cbn [rbind].
      destruct (add_tree mm3 _ _ _ k c WC Re) as (b & ch2 & co2 & ce2 & -> & WC2 & R). rewrite VK in R. destruct R as [-> R]. cbn [rbind].
      set (e' := He (hkey e) (hindex e) (hmark e) (DH ch2)).
      pose proof (upd_wf _ _ _ _ _ e e' W Hid eq_refl eq_refl) as W2.
      rewrite set_key_split in W2; [|apply (wf_nodup _ _ _ _ W)|reflexivity].
      set (src2 := Vh (child_count src) (children src) (ordered src) (upd (heap src) id e')) in *.
      assert (Gc2 : good (DH ch2)).
      { eapply good_hash; [eassumption|]. intros x I. unfold vals in I. rewrite R, map_app in I. apply in_app_or in I as [I|[<-|[]]]; [now apply GC|assumption]. }
      assert (TE : tree_of (DH ch2) = TH (inherited k v (trows ce))).
      { rewrite (tree_hash mm3 _ _ _ WC2). unfold inherited. rewrite value_trows, VK. cbn [option_map]. rewrite trows_rows, R, map_app, <- trows_rows. cbn [map fst snd]. now rewrite Tc, Vse. }
      specialize (IH (es1 ++ [e']) src2 (if same k (hkey e) then tree_of (DH ch2) else v)). rewrite app_length, Nat.add_1_r, <- app_assoc in IH. cbn [app] in IH.
      destruct IH as (s' & es' & E & W' & T); [exact W2| |exact RM'| |].
      + intros x I. apply in_vals in I as (y & I & <-). apply in_app_or in I as [I|[<-|I]]; [apply G, in_vals; exists y; split; [apply in_or_app; now left|reflexivity]|exact Gc2|].
        apply G, in_vals. exists y. split; [apply in_or_app; right; now right|reflexivity].
      + destruct (same k (hkey e)) as [Q|Q].
        * destruct (ME (eq_sym Q)) as (-> & _). exists e'. cbn [heap src2]. rewrite nth_upd_same by (eapply nth_lt'; eassumption). auto.
        * exists se. cbn [heap src2]. rewrite nth_upd_other; [auto|]. intros ->. rewrite Hid in Hse. injection Hse as ->. congruence.
      + exists s', (e' :: es'). rewrite <- app_assoc in W'. split; [exact E|]. split; [exact W'|].
        cbn [trows map hand_down]. fold (trows es2). change (snd (trow e)) with (tree_of (hval e)). rewrite HV, (tree_hash mm3 _ _ _ WC). cbv zeta. cbn [snd].
        change (map trow es') with (trows es'). rewrite T. unfold trow at 1. cbn [hkey hmark hval e']. rewrite TE. reflexivity.
  Qed.

  Lemma bequeath_exact src k ts : made mm3 (DH src) -> Forall (fun e => room (hval e)) (heap src) -> tree_of (DH src) = TH ts ->
    exists src', VhashModel.bequeath_all mm3 src k true false = Ok (fst (bequeath k ts), src') /\ tree_of (DH src') = TH (snd (bequeath k ts)).
  Proof.
    intros M RM TS. destruct (good_inv mm3 _ (made_good mm3 _ M)) as (so & se & W & G). rewrite (tree_hash mm3 _ _ _ W) in TS. injection TS as <-.
    unfold VhashModel.bequeath_all, bequeath. destruct (get_ok _ _ _ _ k true W) as (s1 & se1 & EG & W1 & C1 & R1 & _).
    rewrite EG. unfold get_bykey in EG.
    destruct (lookup_ok _ _ _ _ k W) as [(sid & e & LK & E & K)|[LK N]]; rewrite LK in EG |- *; cbn [rbind] in EG |- *.
    2: { exists src. destruct (value_none _ _ N) as [V _]. rewrite value_trows, V. cbn [option_map fst snd]. split; [reflexivity|]. apply (tree_hash mm3 _ _ _ W). }
    rewrite (rd_some _ _ _ E) in EG. cbn [rbind] in EG.
    destruct (in_es _ _ _ _ _ _ W E) as (p & P). destruct (value_some _ _ _ (wf_nodup _ _ _ _ W) P) as [V _]. rewrite K in V.
    rewrite value_trows, V. cbn [option_map fst snd].
    assert (S1 : s1 = set_mark sid e src) by congruence. clear EG. pose proof (vals_mark _ true _ _ R1) as VM.
    destruct (bequeath_from_exact k sid so se1 [] s1 (tree_of (hval e))) as (s2 & se2 & E2 & W2 & T2).
    - exact W1.
    - cbn [app]. rewrite VM. exact G.
    - apply Forall_forall. intros x I. assert (IV : In (hval x) (vals se)) by (rewrite <- VM; apply in_vals; eauto). apply in_vals in IV as (y & IY & <-). rewrite Forall_forall in RM. apply RM. eapply Permutation_in; [apply (wf_heap _ _ _ _ W)|exact IY].
    - subst s1. exists (He (hkey e) (hindex e) true (hval e)). cbn [set_mark heap]. rewrite nth_upd_same by (eapply nth_lt'; eassumption). auto.
    - cbn [length app] in *. rewrite (count_rows mm3 W1), Nat2N.id, E2. cbn [rbind]. exists s2. split; [reflexivity|].
      rewrite (tree_hash mm3 _ _ _ W2), T2, (mark_trows k true se se1 R1). reflexivity.
  Qed.
End Down.
