(** weighted. *)
From Verif Require Import Base MonModel MonSpec MonProofs PlugModel PlugSpec PlugProofs.
Local Open Scope N_scope.
Ltac Zify.zify_post_hook ::= idtac.

(** ** Sums, maxima, choice by running total *)
Lemma total_app a b : total (a ++ b) = total a + total b.
Proof. unfold total. induction a as [|x a IH]; cbn [app fold_right]; [lia|]. rewrite IH. lia. Qed.
Lemma sum_from l : forall a, a + total l < two32 -> fold_left add32 l a = a + total l.
Proof.
  unfold total. induction l as [|x l IH]; intros a H; cbn [fold_left fold_right] in *; [lia|]. unfold add32 at 2. rewrite N.mod_small by lia. rewrite IH; lia.
Qed.
Lemma sum32_eq l : total l < two32 -> sum32 l = total l.
Proof. intros H. unfold sum32. now rewrite sum_from. Qed.
Lemma max_from l : forall m, fold_left (fun m w => if m <? w then w else m) l m = N.max m (largest l).
Proof.
  unfold largest. induction l as [|x l IH]; intros m; cbn [fold_left fold_right]; [lia|]. rewrite IH. destruct (N.ltb_spec m x); lia.
Qed.
Lemma max_of_eq l : max_of l = largest l.
Proof. unfold max_of. rewrite max_from. lia. Qed.
Lemma largest_in l : l <> [] -> In (largest l) l.
Proof.
  induction l as [|x l IH]; intros H; [contradiction|]. cbn [largest fold_right]. fold (largest l). destruct l as [|y l]; [cbn; left; lia|].
  destruct (N.max_spec x (largest (y :: l))) as [[_ ->]|[_ ->]]; [right; apply IH; discriminate|left; reflexivity].
Qed.
Lemma largest_pos l : 0 < total l -> 0 < largest l.
Proof. unfold total, largest. induction l as [|x l IH]; cbn [fold_right]; intros H; [lia|]. destruct (N.eq_dec x 0); lia. Qed.
Lemma total_le l b n : Forall (fun x => x <= b) l -> (length l <= n)%nat -> total l <= N.of_nat n * b.
Proof.
  intros H. revert n. induction H as [|x l Hx HF IH]; intros n HL; cbn [total fold_right length] in *; [lia|]. fold (total l).
  destruct n as [|n]; [lia|]. specialize (IH n ltac:(lia)). rewrite Nat2N.inj_succ. lia.
Qed.
Lemma total_in x l : In x l -> x <= total l.
Proof. unfold total. induction l as [|y l IH]; intros H; [destruct H|]. cbn [fold_right]. destruct H as [->|H]; [lia|]. specialize (IH H). lia. Qed.
Lemma pick_ok ws : forall i tot x, tot + total ws < two32 -> tot <= x < tot + total ws ->
  exists k, pick ws i tot x = Some (i + k)%nat /\ (k < length ws)%nat /\ tot + total (firstn k ws) <= x < tot + total (firstn (S k) ws).
Proof.
  induction ws as [|w ws IH]; intros i tot x HB HX; cbn [total fold_right] in *; [lia|]. fold (total ws) in *. cbn [pick].
  unfold add32. rewrite N.mod_small by lia. destruct (N.ltb_spec x (tot + w)) as [LT|GE].
  - exists O. rewrite Nat.add_0_r. split; [reflexivity|]. cbn [length firstn total fold_right]. split; [lia|]. lia.
  - destruct (IH (S i) (tot + w) x ltac:(lia) ltac:(lia)) as (k & E & L & B). exists (S k). rewrite E. split; [f_equal; lia|]. cbn [length].
    split; [lia|]. rewrite !firstn_cons. cbn [total fold_right]. fold (total (firstn k ws)) (total (firstn (S k) ws)). lia.
Qed.
Lemma pick_falls ws x : total ws < two32 -> x < total ws -> exists j, pick ws 0 0 x = Some j /\ falls_to ws x j.
Proof. intros H HX. destruct (pick_ok ws 0 0 x ltac:(lia) ltac:(lia)) as (k & E & L & B). exists k. split; [exact E|]. split; [exact L|]. lia. Qed.
Lemma total_firstn_mono ws a b : (a <= b)%nat -> total (firstn a ws) <= total (firstn b ws).
Proof.
  intros H. replace b with (a + (b - a))%nat by lia. generalize (b - a)%nat. clear b H. intros c. revert ws. induction a as [|a IH]; intros ws; [cbn; lia|].
  destruct ws as [|w ws]; [cbn; lia|]. cbn [Nat.add firstn total fold_right]. specialize (IH ws). unfold total in IH. lia.
Qed.
Lemma falls_unique ws d i j : falls_to ws d i -> falls_to ws d j -> i = j.
Proof.
  intros (_ & A) (_ & B). destruct (Nat.lt_trichotomy i j) as [H|[H|H]]; [|exact H|]; exfalso.
  - pose proof (total_firstn_mono ws (S i) j H). lia.
  - pose proof (total_firstn_mono ws (S j) i H). lia.
Qed.
Lemma firstn_S_nth {A} (l : list A) j x : nth_error l j = Some x -> firstn (S j) l = firstn j l ++ [x].
Proof. revert j. induction l as [|y l IH]; intros [|j] H; cbn in H; try discriminate; [injection H as ->; reflexivity|]. rewrite !firstn_cons, (IH j H). reflexivity. Qed.
Lemma falls_pos ws d j w : falls_to ws d j -> nth_error ws j = Some w -> 0 < w.
Proof. intros (_ & B) H. rewrite (firstn_S_nth _ _ _ H), total_app in B. cbn [total fold_right] in B. lia. Qed.

Section Weighted.
  Variables lim4 lim6 : nat.
  Variable tbl : list N.
  Variable rand : nat -> N -> N.
  Variable rand_ok : forall k m, 0 < m -> rand k m < m.
  Variable v6 : bool.

  Lemma get_rand_eq k m : 0 < m -> get_rand rand k m = Ok (rand k m).
  Proof. intros H. unfold get_rand. destruct (N.eqb_spec m 0); [lia|]. reflexivity. Qed.

  Definition wf := wa_ok tbl v6.
  Lemma now_le all a : wf a -> now tbl all a <= 1048575.
  Proof. intros (_ & H & _). unfold now. destruct (all || _); lia. Qed.
  Lemma now_sum_le all g : Forall wf g -> (length g <= 64)%nat -> gsum tbl all g <= 64 * 1048575.
  Proof.
    intros HF HL. unfold gsum. change 64 with (N.of_nat 64). apply total_le; [|now rewrite map_length].
    apply Forall_map. eapply Forall_impl; [|exact HF]. intros a. apply now_le.
  Qed.
  Definition anyf (as_ : list w_addr) := existsb (fun a => forced tbl (wa_idx a)) as_.
  Definition mint (as_ : list w_addr) := least (map (fun a => ttl tbl (wa_idx a)) as_).
  Definition anyd (as_ : list w_addr) := existsb (fun a => down tbl (wa_idx a)) as_.
  Lemma w_addrs_eq as_ : Forall wf as_ -> forall d f t dw sum mx, t < 2 ^ 28 -> sum + gsum tbl false as_ < two32 ->
    w_addrs tbl as_ (word d f t) dw sum mx =
    Ok (word (d || anyd as_) (f || anyf as_) (N.min t (mint as_)),
        (dw ++ map (now tbl false) as_, sum + gsum tbl false as_, N.max mx (largest (map (now tbl false) as_)))).
  Proof.
    induction 1 as [|a as_ (A & W & K) HF IH]; intros d f t dw sum mx Ht HS.
    - cbn [w_addrs]. unfold anyd, anyf, mint, gsum. cbn [existsb map least fold_right total largest]. rewrite !orb_false_r, app_nil_r, N.max_0_r, N.add_0_r.
      replace (N.min t (2 ^ 28 - 1)) with t by (cbn in *; lia). reflexivity.
    - cbn [w_addrs]. rewrite (sttl_min_eq _ _ K). cbn [rbind]. rewrite min2_words by auto. rewrite has_word by auto.
      unfold gsum in HS. cbn [map total fold_right] in HS. fold (total (map (now tbl false) as_)) (gsum tbl false as_) in HS.
      unfold anyd, anyf, mint, gsum. cbn [existsb map total fold_right largest]. fold (anyd as_) (anyf as_) (total (map (now tbl false) as_)) (gsum tbl false as_) (largest (map (now tbl false) as_)).
      rewrite <- least_min. fold (mint as_). pose proof (ttl_of_lt tbl (wa_idx a)) as LT.
      assert (HN : now tbl false a = if down tbl (wa_idx a) then 0 else wa_weight a) by (unfold now; cbn [orb]; destruct (down tbl (wa_idx a)); reflexivity).
      destruct (down tbl (wa_idx a)) eqn:ED; cbn [negb] in *; rewrite HN in *.
      + rewrite IH by lia. rewrite !orb_true_r, !orb_assoc, <- app_assoc. cbn [app orb]. rewrite (N.min_comm (mint as_)), N.min_assoc, N.add_0_l, (N.max_0_l (largest _)). reflexivity.
      + unfold add32. rewrite N.mod_small by lia. rewrite IH by lia. rewrite !orb_assoc, !orb_false_r, <- app_assoc. cbn [app].
        rewrite (N.min_comm (mint as_)), N.min_assoc, N.add_assoc. do 2 f_equal. f_equal. destruct (N.ltb_spec mx (wa_weight a)); lia.
  Qed.
  Definition triple (all : bool) (g : list w_addr) : list N * N * N := (map (now tbl all) g, gsum tbl all g, largest (map (now tbl all) g)).
  Definition group_ok (g : list w_addr) : Prop := g <> [] /\ (length g <= 64)%nat /\ Forall wf g.
  Lemma group_small all g : group_ok g -> gsum tbl all g < two32.
  Proof. intros (_ & L & F). pose proof (now_sum_le all g F L). unfold two32. lia. Qed.
  Lemma w_items_eq groups : Forall group_ok groups -> forall d f t, t < 2 ^ 28 ->
    w_items tbl (map mk_item groups) (word d f t) =
    Ok (word (d || anyd (concat groups)) (f || anyf (concat groups)) (N.min t (mint (concat groups))), map (triple false) groups).
  Proof.
    induction 1 as [|g groups G HF IH]; intros d f t Ht.
    - cbn [map w_items concat]. unfold anyd, anyf, mint. cbn [existsb map least fold_right]. rewrite !orb_false_r.
      replace (N.min t (2 ^ 28 - 1)) with t by (cbn in *; lia). reflexivity.
    - cbn [map w_items mk_item wi_as]. destruct G as (NE & GL & GF). rewrite (w_addrs_eq g GF) by (auto; rewrite N.add_0_l; apply group_small; repeat split; auto).
      cbn [rbind]. assert (LT : mint g < 2 ^ 28) by apply least_lt. rewrite IH by lia. cbn [rbind concat]. unfold anyd, anyf, mint.
      rewrite !existsb_app, map_app, least_app, !orb_assoc, N.min_assoc. cbn [app]. rewrite N.add_0_l, (N.max_0_l (largest _)). reflexivity.
  Qed.
  Lemma groups_small all groups : Forall group_ok groups -> (length groups <= 64)%nat -> total (map (gsum tbl all) groups) < two32.
  Proof.
    intros HF HL. assert (H : total (map (gsum tbl all) groups) <= N.of_nat 64 * (64 * 1048575)).
    { apply total_le; [|now rewrite map_length]. apply Forall_map. eapply Forall_impl; [|exact HF]. intros g (_ & L & F). now apply now_sum_le. }
    unfold two32. change (N.of_nat 64) with 64 in H. lia.
  Qed.
  Lemma now_all a : now tbl true a = wa_weight a.
  Proof. reflexivity. Qed.
  Lemma item_all g : group_ok g -> (map wa_weight (wi_as (mk_item g)), wi_weight (mk_item g), wi_max (mk_item g)) = triple true g.
  Proof.
    intros G. pose proof (group_small true g G) as S. cbn [mk_item wi_as wi_weight wi_max]. unfold triple. rewrite max_of_eq.
    change (map wa_weight g) with (map (now tbl true) g). rewrite sum32_eq by exact S. reflexivity.
  Qed.
  Lemma sums_all groups : Forall group_ok groups -> map wi_weight (map mk_item groups) = map (gsum tbl true) groups.
  Proof.
    intros HF. rewrite map_map. apply map_ext_in. intros g I. rewrite Forall_forall in HF. specialize (HF g I).
    pose proof (item_all g HF) as E. apply (f_equal (fun t => snd (fst t))) in E. exact E.
  Qed.

  (** ** multi mode *)
  Lemma w_multi_ok all mx r groups : 0 < mx -> x_cname r = None -> Forall group_ok groups ->
    forall k l, (length l + length groups <= lim lim4 lim6 v6)%nat ->
    exists out, w_multi lim4 lim6 rand mx (map mk_item groups) (map (triple all) groups) k (with_fam v6 r l) = Ok (with_fam v6 r (l ++ w_bytes out)) /\
      multi_out tbl all rand mx k groups out.
  Proof.
    intros HM HC HF. induction HF as [|g groups G HF IH]; intros k l HL; cbn [map w_multi triple length] in *.
    - exists []. cbn [w_bytes map]. rewrite app_nil_r. split; [reflexivity|constructor].
    - rewrite (get_rand_eq k mx HM). cbn [rbind]. destruct (N.ltb_spec (rand k mx) (gsum tbl all g)) as [LT|GE].
      + destruct (N.eqb_spec (gsum tbl all g) 0) as [Z|_]; [lia|]. cbn [negb rassert]. rewrite get_rand_eq by lia. cbn [rbind].
        pose proof (group_small all g G) as S. destruct (pick_falls (map (now tbl all) g) (rand (Datatypes.S k) (gsum tbl all g)) S) as (j & E & FT); [apply (rand_ok (Datatypes.S k) (gsum tbl all g)); lia|].
        rewrite E. destruct FT as [LJ B]. rewrite map_length in LJ. destruct (nth_error g j) as [a|] eqn:NA; [|apply nth_error_None in NA; lia].
        unfold rd. cbn [mk_item wi_as]. rewrite NA. cbn [rbind].
        destruct G as (_ & _ & GF). assert (A : is6 (wa_addr a) = v6) by (rewrite Forall_forall in GF; apply (GF a), nth_error_In with j; exact NA).
        rewrite (add_fam lim4 lim6 v6 r l _ HC A) by lia. cbn [rbind].
        destruct (IH (Datatypes.S (Datatypes.S k)) (l ++ [bytes_of (wa_addr a)])) as (out & EO & MO); [rewrite app_length; cbn [length]; lia|].
        exists (a :: out). rewrite EO, <- app_assoc. split; [reflexivity|]. eapply mo_yes; eauto. split; [now rewrite map_length|exact B].
      + destruct (IH (Datatypes.S k) l ltac:(lia)) as (out & EO & MO). exists out. rewrite EO. split; [reflexivity|]. now apply mo_no.
  Qed.
  (** ** single mode *)
  Lemma w_single_ok all mx r g : 0 < mx -> x_cname r = None -> Forall wf g -> forall k0 i l, (length l + length g <= lim lim4 lim6 v6)%nat ->
    w_single lim4 lim6 rand mx g (map (now tbl all) g) (k0 + i) (with_fam v6 r l) =
    Ok (with_fam v6 r (l ++ w_bytes (map snd (filter (fun p => rand (k0 + fst p)%nat mx <? now tbl all (snd p)) (combine (seq i (length g)) g))))).
  Proof.
    intros HM HC HF k0. induction HF as [|a g A HF IH]; intros i l HL; cbn [map w_single length seq combine filter] in *.
    - cbn [map w_bytes]. rewrite app_nil_r. reflexivity.
    - rewrite (get_rand_eq _ mx HM). cbn [rbind fst snd]. destruct (N.ltb_spec (rand (k0 + i) mx) (now tbl all a)) as [LT|GE].
      + rewrite (add_fam lim4 lim6 v6 r l _ HC (proj1 A)) by lia. cbn [rbind]. rewrite <- Nat.add_succ_r, IH by (rewrite app_length; cbn [length]; lia).
        cbn [map snd w_bytes]. rewrite <- app_assoc. reflexivity.
      + cbn [rbind]. rewrite <- Nat.add_succ_r, IH by lia. reflexivity.
  Qed.
  Definition w_answer (all multi : bool) (k : nat) (groups : list (list w_addr)) (out : list w_addr) : Prop :=
    if multi then multi_out tbl all rand (largest (map (gsum tbl all) groups)) k groups out else single_out tbl all rand k groups out.
  Lemma w_resolve_ok scale multi groups k r : w_ok lim4 lim6 tbl v6 multi scale groups -> x_cname r = None -> fam v6 r = [] ->
    let all := up_total tbl groups <? scale (all_total tbl groups) in
    exists out, w_resolve lim4 lim6 tbl rand (mk_set scale multi groups) k r = Ok (word all (anyf (concat groups)) (mint (concat groups)), with_fam v6 r (w_bytes out)) /\
      w_answer all multi k groups out.
  Proof.
    intros (NE & GL & GF & LIM & SC) HC HE all.
    assert (GO : Forall group_ok groups) by exact GF.
    unfold w_resolve. cbn [ws_items mk_set]. rewrite word_max, (w_items_eq groups GO) by reflexivity. cbn [rbind orb].
    replace (N.min (2 ^ 28 - 1) (mint (concat groups))) with (mint (concat groups)) by (pose proof (least_lt (map (fun a => ttl tbl (wa_idx a)) (concat groups))); unfold mint; cbn in *; lia).
    set (T := mint (concat groups)). set (F := anyf (concat groups)). assert (HT : T < 2 ^ 28) by apply least_lt.
    rewrite map_map. cbn [triple fst snd]. change (map (fun x => gsum tbl false x) groups) with (map (gsum tbl false) groups).
    rewrite sum32_eq by (apply groups_small; auto). rewrite max_of_eq. fold (up_total tbl groups).
    cbn [ws_up ws_weight ws_max ws_multi mk_set]. rewrite (sums_all groups GO), sum32_eq by (apply groups_small; auto). rewrite max_of_eq. fold (all_total tbl groups). fold all.
    assert (EI : map (fun it => (map wa_weight (wi_as it), wi_weight it, wi_max it)) (map mk_item groups) = map (triple true) groups).
    { rewrite map_map. apply map_ext_in. intros g I. apply item_all. rewrite Forall_forall in GO. now apply GO. }
    rewrite EI.
    match goal with |- context [if all then ?X else ?Y] => assert (EX : (if all then X else Y) = (word all F T, map (triple all) groups, total (map (gsum tbl all) groups), largest (map (gsum tbl all) groups))) end.
    { destruct all; [rewrite set_down by auto|rewrite clear_down by auto]; reflexivity. }
    rewrite EX. clear EX EI.
    assert (PA : 0 < all_total tbl groups).
    { destruct groups as [|g gs]; [contradiction|]. unfold all_total. cbn [map total fold_right]. inversion GO as [|? ? (GN & _ & GW) _]; subst.
      destruct g as [|a g]; [contradiction|]. unfold gsum at 1. cbn [map total fold_right]. inversion GW as [|? ? (_ & W & _) _]; subst. rewrite now_all. lia. }
    assert (PT : 0 < total (map (gsum tbl all) groups)).
    { unfold all. destruct (N.ltb_spec (up_total tbl groups) (scale (all_total tbl groups))) as [LT|GE]; [exact PA|]. specialize (SC _ PA). unfold up_total in GE. lia. }
    pose proof (largest_pos _ PT) as PM.
    destruct (N.eqb_spec (total (map (gsum tbl all) groups)) 0) as [Z|_]; [lia|]. destruct (N.eqb_spec (largest (map (gsum tbl all) groups)) 0) as [Z|_]; [lia|].
    cbn [negb rassert]. assert (ER : with_fam v6 r [] = r) by (rewrite <- HE; apply with_same).
    destruct multi.
    - destruct (w_multi_ok all _ r groups PM HC GO k [] ltac:(cbn [length]; lia)) as (out & EO & MO). rewrite ER in EO. rewrite EO. cbn [rbind app]. rewrite valid_word by auto.
      exists out. split; [reflexivity|exact MO].
    - rewrite (get_rand_eq k _ PT). cbn [rbind]. rewrite map_map. cbn [triple fst snd]. change (map (fun x => gsum tbl all x) groups) with (map (gsum tbl all) groups).
      destruct (pick_falls (map (gsum tbl all) groups) (rand k (total (map (gsum tbl all) groups)))) as (j & E & FT); [apply groups_small; auto|now apply rand_ok|].
      rewrite E. pose proof FT as [LJ _]. rewrite map_length in LJ. destruct (nth_error groups j) as [g|] eqn:NG; [|apply nth_error_None in NG; lia].
      unfold rd. rewrite (map_nth_error mk_item _ _ NG). cbn [rbind]. rewrite (map_nth_error (triple all) _ _ NG). cbn [rbind triple].
      assert (G : group_ok g) by (rewrite Forall_forall in GO; apply GO, nth_error_In with j; exact NG).
      assert (PG : 0 < gsum tbl all g) by (eapply falls_pos; [exact FT|now apply map_nth_error]).
      pose proof (largest_pos _ PG) as PX. destruct (N.eqb_spec (largest (map (now tbl all) g)) 0) as [Z|_]; [lia|]. cbn [negb rassert mk_item wi_as].
      assert (LG : (length g <= lim lim4 lim6 v6)%nat) by (rewrite Forall_forall in LIM; apply LIM, nth_error_In with j; exact NG).
      pose proof (w_single_ok all _ r g PX HC (proj2 (proj2 G)) (S k) 0 []) as ES. rewrite ER, Nat.add_0_r in ES. rewrite ES by (cbn [length]; lia). cbn [rbind app]. rewrite valid_word by auto. cbn [rassert].
      eexists. split; [reflexivity|]. exists j, g. split; [exact FT|]. split; [exact NG|]. reflexivity.
  Qed.

  (** ** Consequences *)
  Lemma multi_in all mx k groups out : multi_out tbl all rand mx k groups out -> forall a, In a out -> exists g, In g groups /\ In a g /\ 0 < now tbl all a.
  Proof.
    induction 1 as [k|k g gs out GE M IH|k g gs out j a LT FT NA M IH]; intros b I; [destruct I|destruct (IH b I) as (g' & A & B); exists g'; cbn; auto|].
    destruct I as [<-|I]; [|destruct (IH b I) as (g' & A & B); exists g'; cbn; auto].
    exists g. split; [cbn; auto|]. split; [eapply nth_error_In; exact NA|]. eapply falls_pos; [exact FT|now apply map_nth_error].
  Qed.
  Lemma multi_nonempty all mx k groups out : 0 < mx -> multi_out tbl all rand mx k groups out -> In mx (map (gsum tbl all) groups) -> out <> [].
  Proof.
    intros HM. induction 1 as [k|k g gs out GE M IH|k g gs out j a LT FT NA M IH]; intros I; [destruct I| |discriminate].
    destruct I as [E|I]; [|now apply IH]. pose proof (rand_ok k mx HM). lia.
  Qed.
  Lemma single_in all k groups out : single_out tbl all rand k groups out -> forall a, In a out -> exists g, In g groups /\ In a g /\ 0 < now tbl all a.
  Proof.
    intros (j & g & FT & NG & ->) a I. apply in_map_iff in I. destruct I as ([i b] & <- & I). apply filter_In in I. destruct I as [I C]. cbn [fst snd] in *.
    exists g. split; [eapply nth_error_In; exact NG|]. apply in_combine_r in I. split; [exact I|]. apply N.ltb_lt in C. lia.
  Qed.
  Lemma single_nonempty all k groups out : 0 < total (map (gsum tbl all) groups) -> single_out tbl all rand k groups out -> out <> [].
  Proof.
    intros HT (j & g & FT & NG & ->). assert (PG : 0 < gsum tbl all g) by (eapply falls_pos; [exact FT|now apply map_nth_error]).
    pose proof (largest_pos _ PG) as PX. assert (IL : In (largest (map (now tbl all) g)) (map (now tbl all) g)) by (apply largest_in; intros Z; rewrite Z in PX; cbn in PX; lia).
    apply in_map_iff in IL. destruct IL as (a & EA & IA). apply In_nth_error in IA. destruct IA as (i & NA).
    assert (LI : (i < length g)%nat) by (apply nth_error_Some; congruence).
    assert (IC : In (i, a) (combine (seq 0 (length g)) g)).
    { apply nth_error_In with i. clear -NA LI. rewrite <- (Nat.add_0_l i) at 2. generalize O. revert i NA LI. induction g as [|b g IH]; intros [|i] NA LI n; cbn in *; try lia; try discriminate.
      - injection NA as ->. now rewrite Nat.add_0_r.
      - rewrite (IH i NA ltac:(lia) (S n)). do 2 f_equal. lia. }
    intros Z. apply map_eq_nil in Z. assert (IF : In (i, a) (filter (fun p => rand (S k + fst p)%nat (largest (map (now tbl all) g)) <? now tbl all (snd p)) (combine (seq 0 (length g)) g))).
    { apply filter_In. split; [exact IC|]. cbn [fst snd]. rewrite EA. apply N.ltb_lt. now apply rand_ok. }
    rewrite Z in IF. destruct IF.
  Qed.
  Lemma multi_nodup {B} (f : w_addr -> B) all mx k groups out : multi_out tbl all rand mx k groups out -> NoDup (map f (concat groups)) -> NoDup (map f out).
  Proof.
    induction 1 as [k|k g gs out GE M IH|k g gs out j a LT FT NA M IH]; cbn [concat map]; rewrite ?map_app; intros ND; [constructor| |].
    - apply IH. clear -ND. induction (map f g) as [|x l IHl]; [exact ND|]. inversion ND; auto.
    - constructor.
      + intros I. apply in_map_iff in I. destruct I as (b & EB & IB). destruct (multi_in _ _ _ _ _ M b IB) as (g' & IG & IB' & _).
        assert (I1 : In (f a) (map f g)) by (apply in_map; eapply nth_error_In; exact NA).
        assert (I2 : In (f a) (map f (concat gs))) by (rewrite <- EB; apply in_map; apply in_concat; eauto).
        clear -ND I1 I2. induction (map f g) as [|x l IHl]; [destruct I1|]. inversion ND as [|? ? NI ND']; subst. destruct I1 as [->|I1]; [apply NI; apply in_or_app; auto|auto].
      + apply IH. clear -ND. induction (map f g) as [|x l IHl]; [exact ND|]. inversion ND; auto.
  Qed.
  Lemma nodup_concat {A B} (f : A -> B) (gs : list (list A)) g : In g gs -> NoDup (map f (concat gs)) -> NoDup (map f g).
  Proof.
    induction gs as [|h gs IH]; intros I ND; [destruct I|]. cbn [concat] in ND. rewrite map_app in ND. destruct I as [->|I].
    - clear -ND. induction (map f g) as [|x l IHl]; [constructor|]. inversion ND as [|? ? NI ND']; subst. constructor; [intros H; apply NI; apply in_or_app; auto|auto].
    - apply IH; [exact I|]. clear -ND. induction (map f h) as [|x l IHl]; [exact ND|]. inversion ND; auto.
  Qed.
  Lemma filter_nodup {A B} (f : A -> B) (p : A -> bool) l : NoDup (map f l) -> NoDup (map f (filter p l)).
  Proof.
    induction l as [|x l IH]; intros ND; [constructor|]. cbn [map] in ND. inversion ND as [|? ? NI ND']; subst. cbn [filter]. destruct (p x); [|auto]. cbn [map]. constructor; [|auto].
    intros I. apply NI. apply in_map_iff in I. destruct I as (y & <- & I). apply filter_In in I. apply in_map. tauto.
  Qed.
  Lemma single_nodup {B} (f : w_addr -> B) all k groups out : single_out tbl all rand k groups out -> NoDup (map f (concat groups)) -> NoDup (map f out).
  Proof.
    intros (j & g & FT & NG & ->) ND. rewrite map_map. apply (filter_nodup (fun p => f (snd p))).
    assert (E : forall i, map (fun p => f (snd p)) (combine (seq i (length g)) g) = map f g).
    { clear. induction g as [|a g IH]; intros i; [reflexivity|]. cbn [length seq combine map snd]. now rewrite IH. }
    rewrite E. eapply nodup_concat; [eapply nth_error_In; exact NG|exact ND].
  Qed.

  (** ** names *)
  Definition cnf (c : w_cname) : Prop := 1 <= wc_weight c <= 1048575 /\ known tbl (wc_idx c).
  Lemma w_cnames_eq items : Forall cnf items -> forall d f t dw sum, t < 2 ^ 28 -> sum + total (map (cnow tbl false) items) < two32 ->
    w_cnames tbl items (word d f t) dw sum =
    Ok (word (d || existsb (fun c => down tbl (wc_idx c)) items) (f || existsb (fun c => forced tbl (wc_idx c)) items) (N.min t (least (map (fun c => ttl tbl (wc_idx c)) items))),
        dw ++ map (cnow tbl false) items, sum + total (map (cnow tbl false) items)).
  Proof.
    induction 1 as [|a as_ (W & K) HF IH]; intros d f t dw sum Ht HS.
    - cbn [w_cnames existsb map least fold_right total]. rewrite !orb_false_r, app_nil_r, N.add_0_r.
      replace (N.min t (2 ^ 28 - 1)) with t by (cbn in *; lia). reflexivity.
    - cbn [w_cnames]. rewrite (sttl_min_eq _ _ K). cbn [rbind]. rewrite min2_words by auto. rewrite has_word by auto.
      cbn [map total fold_right] in HS. fold (total (map (cnow tbl false) as_)) in HS.
      cbn [existsb map total fold_right]. fold (total (map (cnow tbl false) as_)).
      rewrite <- least_min. pose proof (ttl_of_lt tbl (wc_idx a)) as LT.
      assert (HN : cnow tbl false a = if down tbl (wc_idx a) then 0 else wc_weight a) by (unfold cnow; cbn [orb]; destruct (down tbl (wc_idx a)); reflexivity).
      destruct (down tbl (wc_idx a)) eqn:ED; cbn [negb] in *; rewrite HN in *.
      + rewrite IH by lia. rewrite !orb_true_r, !orb_assoc, <- app_assoc. cbn [app orb]. rewrite (N.min_comm (least _)), N.min_assoc, N.add_0_l. reflexivity.
      + unfold add32. rewrite N.mod_small by lia. rewrite IH by lia. rewrite !orb_assoc, !orb_false_r, <- app_assoc. cbn [app].
        rewrite (N.min_comm (least _)), N.min_assoc, N.add_assoc. reflexivity.
  Qed.
  Lemma cn_small all items : Forall cnf items -> (length items <= 64)%nat -> total (map (cnow tbl all) items) < two32.
  Proof.
    intros HF HL. assert (H : total (map (cnow tbl all) items) <= N.of_nat 64 * 1048575).
    { apply total_le; [|now rewrite map_length]. apply Forall_map. eapply Forall_impl; [|exact HF]. intros c (W & _). unfold cnow. destruct (all || _); lia. }
    unfold two32. change (N.of_nat 64) with 64 in H. lia.
  Qed.
  Lemma w_cname_ok scale items : wc_ok tbl scale items ->
    let all := total (map (cnow tbl false) items) <? scale (total (map (cnow tbl true) items)) in
    exists j c, w_resolve_cname tbl rand (mk_cnset scale items) dres0 =
        Ok (word all (existsb (fun c => forced tbl (wc_idx c)) items) (least (map (fun c => ttl tbl (wc_idx c)) items)),
            {| x_cname := Some (wc_name c); x_v4 := []; x_v6 := []; x_scope := 0 |}) /\
      nth_error items j = Some c /\ falls_to (map (cnow tbl all) items) (rand 0 (total (map (cnow tbl all) items))) j.
  Proof.
    intros (NE & LE & FO & SC) all.
    assert (W1 : sum32 (map wc_weight items) = total (map (cnow tbl true) items)) by (change (map wc_weight items) with (map (cnow tbl true) items); apply sum32_eq; now apply cn_small).
    assert (PA : 0 < total (map (cnow tbl true) items)).
    { destruct items as [|c items]; [contradiction|]. cbn [map total fold_right]. inversion FO as [|? ? (W & _) _]; subst. unfold cnow at 1. cbn [orb]. lia. }
    unfold w_resolve_cname. cbn [wn_weight wn_items wn_up mk_cnset]. rewrite W1. destruct (N.eqb_spec (total (map (cnow tbl true) items)) 0) as [Z|_]; [lia|]. cbn [negb rassert].
    rewrite word_max, (w_cnames_eq items FO) by (try reflexivity; rewrite N.add_0_l; now apply cn_small). cbn [rbind orb app]. rewrite N.add_0_l. fold all.
    replace (N.min (2 ^ 28 - 1) (least (map (fun c => ttl tbl (wc_idx c)) items))) with (least (map (fun c => ttl tbl (wc_idx c)) items)) by (pose proof (least_lt (map (fun a => ttl tbl (wc_idx a)) items)); cbn in *; lia).
    set (T := least _). assert (HT : T < 2 ^ 28) by apply least_lt. set (F := existsb (fun c => forced tbl (wc_idx c)) items).
    match goal with |- context [if all then ?X else ?Y] => assert (EX : (if all then X else Y) = (word all F T, map (cnow tbl all) items, total (map (cnow tbl all) items))) end.
    { destruct all; [rewrite set_down by auto|rewrite clear_down by auto]; reflexivity. }
    rewrite EX. clear EX.
    assert (PT : 0 < total (map (cnow tbl all) items)).
    { unfold all. destruct (N.ltb_spec (total (map (cnow tbl false) items)) (scale (total (map (cnow tbl true) items)))) as [LT|GE]; [exact PA|]. specialize (SC _ PA). lia. }
    destruct (N.eqb_spec (total (map (cnow tbl all) items)) 0) as [Z|_]; [lia|]. cbn [negb rassert]. rewrite (get_rand_eq _ _ PT). cbn [rbind].
    destruct (pick_falls (map (cnow tbl all) items) (rand 0 (total (map (cnow tbl all) items)))) as (j & E & FT); [now apply cn_small|now apply rand_ok|].
    rewrite E. pose proof FT as [LJ _]. rewrite map_length in LJ. destruct (nth_error items j) as [c|] eqn:NC; [|apply nth_error_None in NC; lia].
    unfold rd. rewrite NC. cbn [rbind add_cname dres0 x_cname x_v4 x_v6 x_scope]. exists j, c. split; [reflexivity|]. split; [exact NC|exact FT].
  Qed.
End Weighted.
