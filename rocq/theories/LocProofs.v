(** Automatic lists: the sort. *)
From Coq Require Import Permutation Sorted.
From Verif Require Import Base LocModel LocSpec.
Set Implicit Arguments.

Lemma wr_one {A} (a : list A) x b y : wr (a ++ x :: b) (length a) [y] = Ok (a ++ y :: b).
Proof.
  unfold wr. cbn [length]. rewrite app_length. cbn [length]. replace (length a + 1 <=? length a + S (length b)) with true by (symmetry; apply Nat.leb_le; lia).
  rewrite firstn_app, firstn_all, Nat.sub_diag. cbn [firstn]. rewrite app_nil_r. rewrite skipn_app. rewrite skipn_all2 by lia. replace (length a + 1 - length a) with 1 by lia. reflexivity.
Qed.
Lemma rd_mid {A} (a : list A) x b : rd (a ++ x :: b) (length a) = Ok x.
Proof. unfold rd. rewrite nth_error_app2 by lia. now rewrite Nat.sub_diag. Qed.

Lemma before_app_r l m a b : before l a b -> before (l ++ m) a b.
Proof. intros (x & y & z & ->). exists x, y, (z ++ m). now rewrite <- !app_assoc, <- app_comm_cons, <- app_assoc. Qed.
Lemma before_split p m a b : In a p -> before (p ++ b :: m) a b.
Proof. intros (x & y & ->)%in_split. exists x, y, m. now rewrite <- app_assoc. Qed.
Lemma before_rev l a b : before (rev l) a b -> before l b a.
Proof.
  intros (x & y & z & E). apply (f_equal (@rev nat)) in E. rewrite rev_involutive in E. exists (rev z), (rev y), (rev x). rewrite E. rewrite rev_app_distr. cbn [rev]. rewrite rev_app_distr. cbn [rev]. now rewrite <- !app_assoc.
Qed.
Lemma sorted_before (R : nat -> nat -> Prop) l a b : StronglySorted R l -> before l a b -> R a b.
Proof.
  intros S (x & y & z & ->). induction x as [|c x IH]; cbn [app] in S; inversion S as [|? ? S' F]; subst; [|auto].
  rewrite Forall_forall in F. apply F. apply in_or_app. right. now left.
Qed.

Section Sort.
  Variables P D : Type.
  Variable ltb : D -> D -> bool.
  Hypothesis ord : orders ltb.
  Notation lt := (lt ltb).
  Lemma nearer_lt a b : nearer ltb a b <-> lt a b = true.
  Proof. destruct a, b; cbn; split; auto; discriminate || tauto. Qed.
  Lemma lt_weak a b c : lt a c = true -> lt a b = true \/ lt b c = true.
  Proof. destruct ord as (_ & _ & W). destruct a, b, c; cbn; auto; discriminate. Qed.
  Lemma lt_asym a b : lt a b = true -> lt b a = true -> False.
  Proof. destruct ord as (I & T & _). destruct a as [a|], b as [b|]; cbn; try discriminate. intros X Y. pose proof (T _ _ _ X Y) as Z. rewrite I in Z. discriminate. Qed.

  Variable ds : list (option D).
  Variable dv : nat -> option D.
  Definition good (x : nat) : Prop := dist ds x = Ok (dv x).

  (** insertion from the far end of a reversed list *)
  Fixpoint insr (rp : list nat) (x : nat) : list nat :=
    match rp with
    | [] => [x]
    | y :: rp' => if lt (dv x) (dv y) then y :: insr rp' x else x :: rp
    end.
  Lemma shift_ok temp : good temp -> forall pre, Forall good pre -> forall y post,
    shift ltb ds (pre ++ y :: post) temp (length pre) = Ok (rev (insr (rev pre) temp) ++ post).
  Proof.
    intros GT. induction pre as [|x pre IH] using rev_ind; intros F y post; [reflexivity|].
    apply Forall_app in F. destruct F as [F Fx]. inversion Fx as [|? ? GX _]; subst. rewrite app_length. cbn [length]. rewrite Nat.add_1_r. cbn [shift]. rewrite <- app_assoc. cbn [app]. rewrite rd_mid. cbn [rbind]. rewrite GT. cbn [rbind]. rewrite GX. cbn [rbind].
    rewrite rev_app_distr. cbn [rev app insr].
    assert (E : pre ++ x :: y :: post = (pre ++ [x]) ++ y :: post) by now rewrite <- app_assoc.
    replace (S (length pre)) with (length (pre ++ [x])) by (rewrite app_length; cbn; lia).
    destruct (lt (dv temp) (dv x)).
    - rewrite E, wr_one. cbn [rbind]. rewrite <- app_assoc. cbn [app]. rewrite (IH F x (x :: post)). cbn [rev]. now rewrite <- app_assoc.
    - rewrite E, wr_one. cbn [rev]. rewrite rev_involutive. now rewrite <- !app_assoc.
  Qed.
  Lemma insr_perm x rp : Permutation (insr rp x) (x :: rp).
  Proof. induction rp as [|y rp IH]; cbn [insr]; [reflexivity|]. destruct (lt _ _); [|reflexivity]. rewrite IH. apply perm_swap. Qed.
  Lemma sort_ok tail todo : forall done, Forall good done -> Forall good todo ->
    sort ltb ds (done ++ todo ++ tail) (length done) (length todo) = Ok (rev (fold_left insr todo (rev done)) ++ tail).
  Proof.
    induction todo as [|x todo IH]; intros done FD FT; cbn [sort length fold_left app]; [now rewrite rev_involutive|].
    inversion FT as [|? ? GX FT']; subst. rewrite rd_mid. cbn [rbind]. rewrite (shift_ok GX FD). cbn [rbind].
    set (done' := rev (insr (rev done) x)).
    assert (PD : Permutation done' (x :: done)) by (unfold done'; rewrite <- Permutation_rev, insr_perm; constructor; symmetry; apply Permutation_rev).
    replace (S (length done)) with (length done') by (rewrite (Permutation_length PD); reflexivity).
    rewrite IH; [|rewrite PD; now constructor|exact FT']. unfold done'. now rewrite rev_involutive.
  Qed.

  Definition R (l : list nat) (a b : nat) : Prop := nearer ltb (dv a) (dv b) \/ (~ nearer ltb (dv b) (dv a) /\ before l a b).
  Lemma insr_sorted l done x todo rp : l = done ++ x :: todo -> Permutation rp done -> StronglySorted (fun b a => R l a b) rp -> StronglySorted (fun b a => R l a b) (insr rp x).
  Proof.
    intros EL PD S. assert (BX : forall z, In z rp -> before l z x) by (intros z I; rewrite EL; apply before_split; now rewrite <- PD). clear PD.
    induction rp as [|y rp IH]; cbn [insr]; [repeat constructor|]. inversion S as [|? ? S' F]; subst. destruct (lt (dv x) (dv y)) eqn:E.
    - constructor; [apply IH; [exact S'|]; intros z I; apply BX; now right|]. rewrite insr_perm. constructor; [|exact F]. left. now apply nearer_lt.
    - constructor; [exact S|]. constructor.
      + right. split; [rewrite nearer_lt; congruence|]. apply BX. now left.
      + rewrite Forall_forall in F |- *. intros z I. right. split; [|apply BX; now right]. rewrite nearer_lt. intros X. destruct (lt_weak _ (dv y) _ X) as [Y|Y]; [congruence|].
        destruct (F z I) as [Z|[Z _]]; rewrite nearer_lt in Z; [exact (lt_asym _ _ Y Z)|contradiction].
  Qed.
  Lemma fold_sorted l todo : forall done rp, l = done ++ todo -> Permutation rp done -> StronglySorted (fun b a => R l a b) rp ->
    Permutation (fold_left insr todo rp) l /\ StronglySorted (fun b a => R l a b) (fold_left insr todo rp).
  Proof.
    induction todo as [|x todo IH]; intros done rp EL PD S; cbn [fold_left]; [rewrite app_nil_r in EL; subst l; now split|].
    apply (IH (done ++ [x])); [now rewrite <- app_assoc| |exact (insr_sorted _ _ EL PD S)].
    rewrite insr_perm, PD. apply Permutation_cons_append.
  Qed.
  Lemma sorted_list l : l <> [] -> Forall good l -> forall tail,
    exists s, sort ltb ds (l ++ tail) 1 (length l - 1) = Ok (s ++ tail) /\ Permutation s l /\ forall a b, before s a b -> R l a b.
  Proof.
    intros NE F tail. destruct l as [|x l]; [congruence|]. inversion F as [|? ? GX F']; subst.
    exists (rev (fold_left insr l [x])). split.
    - replace (length (x :: l) - 1) with (length l) by (cbn; lia). change ((x :: l) ++ tail) with ([x] ++ l ++ tail). change 1 with (length [x]). rewrite sort_ok; [reflexivity|now constructor|exact F'].
    - destruct (@fold_sorted (x :: l) l [x] [x]) as [PM S]; [reflexivity|reflexivity|repeat constructor|]. split; [now rewrite <- Permutation_rev|]. intros a b B. apply before_rev in B. exact (sorted_before S B).
  Qed.
End Sort.

Lemma index_name_nth n l : forall i j, index_name n l i = Some j -> i <= j /\ nth_error l (j - i) = Some n.
Proof.
  induction l as [|x l IH]; intros i j E; cbn [index_name] in E; [discriminate|]. unfold name_eqb in E. destruct (list_eq_dec N.eq_dec n x) as [->|NE].
  - injection E as <-. now rewrite Nat.sub_diag.
  - destruct (IH _ _ E) as [L X]. split; [lia|]. replace (j - i) with (S (j - S i)) by lia. exact X.
Qed.

Section Info.
  Variables P D : Type.
  Variables (bad nan : P -> bool) (geodist : P -> P -> D) (ltb : D -> D -> bool).
  Hypothesis ord : orders ltb.

  Record info_ok (info : dcinfo P) : Prop := {
    k_some : 1 <= length (i_names info); k_many : length (i_names info) <= 254;
    k_coords : length (i_coords info) = length (i_names info);
    k_limit : i_limit info <= length (i_names info) }.

  Lemma init_auto_ok names cfg : forall coords c, init_auto bad nan names coords cfg = Some c -> length c = length coords /\ incl (map fst cfg) names.
  Proof.
    induction cfg as [|[n p] cfg IH]; intros coords c E; cbn [init_auto] in E; [injection E as <-; split; [reflexivity|intros x []]|].
    destruct (index_name n names 0) as [i|] eqn:EI; [|discriminate]. apply index_name_nth in EI. destruct EI as [_ EI]. rewrite Nat.sub_0_r in EI. apply nth_error_In in EI.
    assert (H : exists o, init_auto bad nan names (upd coords i o) cfg = Some c) by (destruct (nth_error coords i) as [[q|]|], (bad p); try discriminate; eauto).
    destruct H as (o & H). destruct (IH _ _ H) as [L I]. rewrite upd_length in L. split; [exact L|]. intros x [<-|X]; [exact EI|now apply I].
  Qed.
  Lemma dcinfo_init_ok names auto lim info : (forall cfg, auto = Some cfg -> NoDup (map fst cfg)) -> dcinfo_init bad nan names auto lim = Some info -> info_ok info /\ i_names info = names.
  Proof.
    intros ND E. unfold dcinfo_init in E. destruct ((length names =? 0) || (MAX_NUM_DCS <? length names)) eqn:B; [discriminate|]. apply orb_false_iff in B. destruct B as [B1 B2]. apply Nat.eqb_neq in B1. apply Nat.ltb_ge in B2.
    destruct (existsb _ names); [discriminate|].
    destruct (match auto with None => _ | Some cfg => _ end) as [[c na]|] eqn:EA; [|discriminate].
    assert (H : length c = length names /\ na <= length names).
    { destruct auto as [cfg|].
      - destruct (init_auto bad nan names (repeat None (length names)) cfg) as [c'|] eqn:E1; [|discriminate]. injection EA as <- <-. destruct (init_auto_ok _ _ _ E1) as [L I]. rewrite repeat_length in L. split; [exact L|]. rewrite <- (map_length fst). apply NoDup_incl_length; auto.
      - injection EA as <- <-. rewrite repeat_length. split; [reflexivity|lia]. }
    injection E as <-. unfold MAX_NUM_DCS in B2. split; [|reflexivity]. constructor; cbn [i_names i_coords i_limit]; try lia.
    destruct lim as [l|]; [destruct ((na <? l) || (l =? 0)) eqn:X; [lia|apply orb_false_iff in X; destruct X as [X _]; apply Nat.ltb_ge in X; lia]|destruct (3 <? na) eqn:X; [apply Nat.ltb_lt in X|]; lia].
  Qed.

  Lemma find_list_ok d : forall i new j, find_list d i new = Some j -> i <= j /\ nth_error d (j - i) = Some new.
  Proof.
    induction d as [|x d IH]; intros i new j E; cbn [find_list] in E; [discriminate|]. destruct (list_eq_dec Nat.eq_dec x new) as [->|NE].
    - injection E as <-. now rewrite Nat.sub_diag.
    - destruct (IH _ _ _ E) as [L X]. split; [lia|]. replace (j - i) with (S (j - S i)) by lia. exact X.
  Qed.
  Lemma find_or_add_ok d new : exists i t, find_or_add d new = (i, d ++ t) /\ nth_error (d ++ t) i = Some new.
  Proof.
    unfold find_or_add. destruct (find_list d 0 new) as [i|] eqn:E.
    - exists i, []. rewrite app_nil_r. split; [reflexivity|]. apply find_list_ok in E. rewrite Nat.sub_0_r in E. tauto.
    - exists (length d), [new]. split; [reflexivity|]. rewrite nth_error_app2 by lia. now rewrite Nat.sub_diag.
  Qed.

  Lemma dcstr_cut s n : Forall (fun x => x <> 0) s -> n <= length s -> forall l, wr (s ++ [0]) n [0] = Ok l -> dcstr l = firstn n s.
  Proof.
    intros F L l E. unfold wr in E. destruct (_ <=? _); [|discriminate]. injection E as <-. rewrite firstn_app. replace (n - length s) with 0 by lia. cbn [firstn]. rewrite app_nil_r.
    revert n L. induction F as [|x s NZ F IH]; intros n L; [now rewrite firstn_nil|]. destruct n as [|n]; [reflexivity|]. cbn [firstn app dcstr]. replace (x =? 0) with false by (symmetry; now apply Nat.eqb_neq). f_equal. apply IH. cbn in L. lia.
  Qed.

  Lemma city_auto_ok info d p l0 : info_ok info -> nth_error d 0 = Some l0 -> Permutation l0 (all_dcs info) ->
    exists i t out, city_auto_map geodist ltb info d p = Ok (i, d ++ t) /\ nth_error (d ++ t) i = Some out /\ nearest geodist ltb info l0 p out.
  Proof.
    intros [K1 K2 K3 K4] E0 PM. unfold city_auto_map, MAX_NUM_DCS. unfold rassert. replace (length (i_names info) <=? 254) with true by (symmetry; now apply Nat.leb_le).
    unfold rd at 1. rewrite E0. cbn [rbind].
    assert (LL : length l0 = length (i_names info)) by (rewrite (Permutation_length PM); apply seq_length).
    assert (RG : Forall (fun x => 1 <= x <= length (i_names info)) l0) by (rewrite PM; apply Forall_forall; intros x I; apply in_seq in I; lia).
    rewrite rdn_ok by (rewrite app_length; cbn; lia). cbn [rbind]. unfold sub. cbn [skipn]. rewrite firstn_all2 by (rewrite app_length; cbn; lia).
    assert (GD : Forall (good (dists geodist info p) (away geodist info p)) l0).
    { eapply Forall_impl; [|exact RG]. intros x [X1 X2]. unfold good, dist, dists, away. destruct x as [|x]; [lia|]. cbn [Nat.sub]. rewrite Nat.sub_0_r. unfold rd. rewrite nth_error_map. destruct (nth_error (i_coords info) x) as [[q|]|] eqn:E; [reflexivity|reflexivity|]. apply nth_error_None in E. lia. }
    destruct (@sorted_list D ltb ord (dists geodist info p) (away geodist info p) l0) with (tail := [0]) as (s & ES & PS & BS); [intros ->; cbn in LL; lia|exact GD|].
    rewrite LL in ES. rewrite ES. cbn [rbind].
    assert (LS : length s = length (i_names info)) by now rewrite (Permutation_length PS).
    destruct (wr (s ++ [0]) (i_limit info) [0]) as [l|] eqn:EW.
    2:{ unfold wr in EW. rewrite app_length in EW. cbn [length] in EW. replace (i_limit info + 1 <=? length s + 1) with true in EW by (symmetry; apply Nat.leb_le; lia). discriminate. }
    cbn [rbind]. apply dcstr_cut in EW; [|rewrite PS; eapply Forall_impl; [|exact RG]; cbn; lia|lia]. rewrite EW.
    destruct (find_or_add_ok d (firstn (i_limit info) s)) as (i & t & -> & EN). exists i, t, (firstn (i_limit info) s). split; [reflexivity|]. split; [exact EN|]. exists s. split; [|reflexivity]. split; [exact PS|exact BS].
  Qed.
End Info.
