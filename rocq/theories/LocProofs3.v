(** Which datacenters an automatic list names, and how many. *)
From Coq Require Import Permutation Sorted.
From Verif Require Import Base LocModel LocSpec LocProofs LocProofs2.
Set Implicit Arguments.

Definition count {A} (l : list (option A)) : nat := length (filter has l).
Lemma count_upd {A} (l : list (option A)) i x : nth_error l i = Some None -> count (upd l i (Some x)) = S (count l).
Proof.
  revert i. induction l as [|o l IH]; intros [|i] E; try discriminate.
  - cbn in E. injection E as ->. reflexivity.
  - cbn [nth_error] in E. cbn [upd]. unfold count in *. cbn [filter]. destruct o; cbn [has length]; now rewrite IH.
Qed.

Section Count.
  Variables P D : Type.
  Variables (bad nan : P -> bool) (geodist : P -> P -> D) (ltb : D -> D -> bool).
  Lemma init_auto_count names cfg : (forall n p, In (n, p) cfg -> nan p = false) -> forall coords c, length coords = length names -> init_auto bad nan names coords cfg = Some c -> count c = count coords + length cfg.
  Proof.
    intros NN. induction cfg as [|[n p] cfg IH]; intros coords c LC E; cbn [init_auto] in E; [injection E as <-; cbn; lia|].
    destruct (index_name n names 0) as [i|] eqn:EI; [|discriminate]. apply index_name_nth in EI. destruct EI as [_ EI]. rewrite Nat.sub_0_r in EI. assert (LI : i < length names) by (apply nth_error_Some; congruence).
    destruct (nth_error coords i) as [[q|]|] eqn:EC; [discriminate| |apply nth_error_None in EC; lia]. destruct (bad p); [discriminate|]. rewrite (NN n p) in E by now left.
    rewrite (IH (fun n p H => NN n p (or_intror H)) _ _ (eq_trans (upd_length _ _ _) LC) E), (count_upd _ _ _ EC). cbn. lia.
  Qed.

  Lemma dcinfo_init_limit names cfg lim info : (forall n p, In (n, p) cfg -> nan p = false) -> dcinfo_init bad nan names (Some cfg) lim = Some info ->
    i_limit info = limit_for lim (length cfg) /\ count (i_coords info) = length cfg.
  Proof.
    intros NN E. unfold dcinfo_init in E. destruct (_ || _); [discriminate|]. destruct (existsb _ names); [discriminate|].
    destruct (init_auto bad nan names (repeat None (length names)) cfg) as [c|] eqn:EI; [|discriminate]. apply init_auto_count in EI; [|exact NN|apply repeat_length]. injection E as <-. cbn [i_limit i_coords]. split.
    - unfold limit_for. destruct lim as [[|l]|].
      + now rewrite orb_true_r.
      + rewrite orb_false_r. destruct (length cfg <? S l) eqn:X; [apply Nat.ltb_lt in X|apply Nat.ltb_ge in X]; lia.
      + destruct (3 <? length cfg) eqn:X; [apply Nat.ltb_lt in X|apply Nat.ltb_ge in X]; lia.
    - rewrite EI. replace (count (repeat None (length names))) with 0; [reflexivity|]. induction (length names); cbn; auto.
  Qed.

  Lemma located_away info p dc : located info dc = has (away geodist info p dc).
  Proof. unfold located, away. rewrite nth_default_eq || idtac. destruct (nth_error (i_coords info) (dc - 1)) as [o|] eqn:E; [rewrite (nth_error_nth _ _ _ E)|rewrite nth_overflow by now apply nth_error_None]; [now destruct o|reflexivity]. Qed.
  Lemma located_count (info : dcinfo P) : length (i_coords info) = length (i_names info) -> length (filter (located info) (all_dcs info)) = count (i_coords info).
  Proof.
    unfold all_dcs. intros <-. unfold located, count. generalize (i_coords info) as l. intros l.
    assert (H : forall pre, length (filter (fun dc => has (nth (dc - 1) (pre ++ l) None)) (seq (S (length pre)) (length l))) = length (filter has l)); [|exact (H [])].
    induction l as [|o l IH]; intros pre; [reflexivity|]. cbn [length seq filter]. rewrite Nat.sub_succ, Nat.sub_0_r, app_nth2, Nat.sub_diag by lia. cbn [nth].
    specialize (IH (pre ++ [o])). rewrite app_length, Nat.add_1_r, <- app_assoc in IH. cbn [app] in IH. destruct (has o); cbn [length]; now rewrite IH.
  Qed.

  Lemma sorted_located (info : dcinfo P) p l s : by_distance geodist ltb info p l s -> firstn (length (filter (located info) s)) s = filter (located info) s.
  Proof.
    intros [_ B]. assert (B' : forall a b, before s a b -> located info b = true -> located info a = true).
    { intros a b X. rewrite !(located_away info p). destruct (B _ _ X) as [N|[N _]]; destruct (away geodist info p a), (away geodist info p b); cbn in *; auto. }
    clear B. induction s as [|x s IH]; [reflexivity|]. cbn [filter]. destruct (located info x) eqn:L.
    - cbn [length firstn]. f_equal. apply IH. intros a b (u & v & w & ->). apply B'. now exists (x :: u), v, w.
    - replace (filter (located info) s) with (@nil nat); [reflexivity|]. symmetry. destruct (filter (located info) s) as [|y f] eqn:F; [reflexivity|exfalso].
      assert (IY : In y (filter (located info) s)) by (rewrite F; now left). apply filter_In in IY. destruct IY as [IY LY]. destruct (in_split _ _ IY) as (u & v & ->).
      rewrite (B' x y) in L; [discriminate|now exists [], u, v|exact LY].
  Qed.
  Lemma filter_perm {A} (f : A -> bool) l m : Permutation l m -> Permutation (filter f l) (filter f m).
  Proof. induction 1; cbn [filter]; auto; [destruct (f x); auto|destruct (f x), (f y); auto; constructor|eapply Permutation_trans; eauto]. Qed.
  Lemma nearest_located names cfg lim info l p out : (forall n q, In (n, q) cfg -> nan q = false) -> NoDup (map fst cfg) -> dcinfo_init bad nan names (Some cfg) lim = Some info ->
    Permutation l (all_dcs info) -> nearest geodist ltb info l p out ->
    length out = limit_for lim (length cfg) /\ Forall (fun dc => located info dc = true) out.
  Proof.
    intros NN ND E PL (s & BD & ->). destruct (dcinfo_init_limit _ _ _ NN E) as [EL EC]. destruct (@dcinfo_init_ok P bad nan names (Some cfg) lim info) as [[K1 K2 K3 K4] _]; [intros ? [= <-]; exact ND|exact E|].
    pose proof (sorted_located BD) as SL. pose proof (proj1 BD) as PS.
    assert (LF : length (filter (located info) s) = length cfg).
    { rewrite (Permutation_length (filter_perm (located info) (Permutation_trans PS PL))), located_count; auto. }
    assert (LIM : i_limit info <= length cfg) by (rewrite EL; unfold limit_for; destruct lim as [[|]|]; lia).
    rewrite LF in SL. split.
    - rewrite firstn_length_le, EL; [reflexivity|]. rewrite <- LF in LIM. pose proof (f_equal (@length nat) SL) as X. rewrite firstn_length in X. lia.
    - replace (firstn (i_limit info) s) with (firstn (i_limit info) (firstn (length cfg) s)) by (rewrite firstn_firstn; f_equal; lia). rewrite SL.
      assert (F : Forall (fun dc => located info dc = true) (filter (located info) s)) by (apply Forall_forall; intros x I; now apply filter_In in I).
      revert F. generalize (filter (located info) s) as f. generalize (i_limit info) as n. clear. intros n f F. revert n. induction F; intros [|n]; cbn [firstn]; auto.
  Qed.
End Count.
