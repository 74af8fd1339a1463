(** What is at each name after a list of records was added. *)
From Coq Require Import Sorting.Permutation.
From Verif Require Import Base DnameModel RandModel CompModel RespModel LtreeModel LtreeSpec LtreeProofs LtreeProofs2 LtreeProofs3 LtreeProofs4.
Local Open Scope N_scope.
Ltac Zify.zify_post_hook ::= idtac.

Section Fold.
  Variable cfg : zcfg.
  Variable pl : plugins.
  Variable hash : list N -> N.
  Variable zname : name.
  Hypothesis hash64 : forall l, hash l < W64.

  Fixpoint fold_sets (rs : list record) (sets : list rrset) : zres (list rrset) :=
    match rs with
    | [] => Ok (Some sets)
    | r :: rs => zdo sets <- rec_sets cfg pl zname r sets ; fold_sets rs sets
    end.
  Definition here (d : name) (rs : list record) : list record := filter (fun r => if name_dec (opath r) d then true else false) rs.

  Lemma fold_snoc rs r sets : fold_sets (rs ++ [r]) sets = zdo sets <- fold_sets rs sets ; rec_sets cfg pl zname r sets.
  Proof.
    revert sets. induction rs as [|x rs IH]; intros sets; cbn [app fold_sets].
    - unfold zbind. cbn [rbind]. now destruct (rec_sets cfg pl zname r sets) as [[y|]|].
    - unfold zbind in *. destruct (rec_sets cfg pl zname x sets) as [[y|]|]; cbn [rbind]; try reflexivity. apply IH.
  Qed.
  Lemma here_snoc d rs r : here d (rs ++ [r]) = here d rs ++ (if name_dec (opath r) d then [r] else []).
  Proof. unfold here. rewrite filter_app. cbn [filter]. now destruct (name_dec (opath r) d). Qed.

  Record inv (b : N) (done : list record) (root : lnode) : Prop := {
    i_good : good hash b root;
    i_at : forall d, match walk root (rev d) with
      | Some c => (d = [] \/ exists r p, In r done /\ opath r = p ++ d) /\
                  fold_sets (here d done) [] = Ok (Some (l_rrsets c)) /\
                  get_zcut c = match d with [] => true | _ => existsb ns_below (here d done) end /\
                  l_label c = match d with [] => l_label root | l :: _ => Some l end
      | None => d <> [] /\ forall r p, In r done -> opath r <> p ++ d
      end }.

  Lemma walk_kids n n' s : s <> [] -> l_table n = l_table n' -> walk n s = walk n' s.
  Proof. intros NE E. destruct s as [|l s]; [congruence|]. cbn [walk]. unfold child, kids. now rewrite E. Qed.
  Lemma here_none d done : (forall r p, In r done -> opath r <> p ++ d) -> here d done = [].
  Proof.
    intros H. unfold here. induction done as [|r done IH]; [reflexivity|]. cbn [filter]. destruct (name_dec (opath r) d) as [E|_].
    - exfalso. apply (H r []); [now left|exact E].
    - apply IH. intros; apply H; now right.
  Qed.

  (** the node a path operation gets, seen through the invariant *)
  Lemma inv_target b done root d : inv b done root ->
    fold_sets (here d done) [] = Ok (Some (l_rrsets (target root (rev d)))) /\
    (get_zcut (target root (rev d)) = match d with [] => true | _ => existsb ns_below (here d done) end) /\
    l_label (target root (rev d)) = match d with [] => l_label root | l :: _ => Some l end.
  Proof.
    intros I. pose proof (i_at _ _ _ I d) as A. destruct (walk root (rev d)) as [c|] eqn:W.
    - rewrite (target_walk root (rev d) c W). tauto.
    - destruct A as (ND & NR). rewrite (here_none _ _ NR). rewrite (target_none root (rev d) [] W). cbn.
      destruct d as [|l d]; [congruence|]. split; [reflexivity|]. split; [reflexivity|]. f_equal. apply (last_rev_hd d l []).
  Qed.

  Lemma rev_prefix (a b : name) : (exists x, b = x ++ a) <-> prefix (rev a) (rev b).
  Proof.
    split.
    - intros (x & ->). exists (rev x). now rewrite rev_app_distr.
    - intros (x & E). exists (rev x). rewrite <- (rev_involutive b), E, rev_app_distr, rev_involutive. reflexivity.
  Qed.
  Definition suffix_dec (a b : name) : {exists x, b = x ++ a} + {~ exists x, b = x ++ a}.
  Proof.
    destruct (le_lt_dec (length a) (length b)) as [L|L].
    - destruct (name_dec (skipn (length b - length a) b) a) as [E|E].
      + left. exists (firstn (length b - length a) b). transitivity (firstn (length b - length a) b ++ skipn (length b - length a) b); [symmetry; apply firstn_skipn|now rewrite E].
      + right. intros (x & ->). apply E. rewrite app_length. replace (length x + length a - length a)%nat with (length x) by lia.
        rewrite skipn_app, skipn_all, Nat.sub_diag. reflexivity.
    - right. intros (x & ->). rewrite app_length in L. lia.
  Defined.

  Lemma inv_step b done root r root' : inv b done root -> b + 1 < 2 ^ 62 -> add_rec cfg pl hash zname root r = Ok (Some root') ->
    inv (b + 1) (done ++ [r]) root'.
  Proof.
    intros I B E. pose proof (add_rec_ok cfg pl hash zname hash64 b root r (i_good _ _ _ I) B) as A.
    destruct (inv_target b done root (opath r) I) as (TF & TZ & TL). set (s := rev (opath r)) in *. set (t := target root s) in *.
    unfold added in A. fold s in A. fold t in A. rewrite E in A.
    destruct (rec_sets cfg pl zname r (l_rrsets t)) as [[sets|]|] eqn:RS; try discriminate.
    destruct A as (root'' & EQ & G & L & W1 & W2 & W3). injection EQ as <-.
    assert (GT : good hash b t) by (unfold t; apply target_good; auto; apply (i_good _ _ _ I)).
    constructor; [exact G|]. intros d.
    assert (KEEP : opath r <> d -> here d (done ++ [r]) = here d done).
    { intros NE. rewrite here_snoc. destruct (name_dec (opath r) d); [contradiction|]. apply app_nil_r. }
    assert (INC : forall x, In x done -> In x (done ++ [r])) by (intros; apply in_app_iff; now left).
    destruct (name_dec (opath r) d) as [<-|NE].
    - fold s. pose proof (W1 []) as W. rewrite app_nil_r in W. rewrite W. cbn [walk]. split; [|split; [|split]].
      + right. exists r, []. split; [apply in_app_iff; right; now left|reflexivity].
      + rewrite here_snoc. destruct (name_dec (opath r) (opath r)) as [_|]; [|congruence]. rewrite fold_snoc, TF. unfold zbind. cbn [rbind]. rewrite RS. now rewrite node_sets_rrsets.
      + rewrite (node_sets_zcut hash b) by exact GT. rewrite TZ. destruct (opath r) as [|l d] eqn:OP; [reflexivity|]. rewrite here_snoc, OP.
        destruct (name_dec (l :: d) (l :: d)) as [_|]; [|congruence]. rewrite existsb_app. cbn [existsb]. now rewrite orb_false_r.
      + rewrite node_sets_label, TL. destruct (opath r); [now symmetry|reflexivity].
    - specialize (KEEP NE). destruct (suffix_dec d (opath r)) as [SF|NSF].
      + (* an ancestor *)
        destruct (proj1 (rev_prefix _ _) SF) as (x & SX). fold s in SX.
        destruct (W2 (rev d) x SX) as (mm & WM & RM & ZM & LM).
        { intros ->. rewrite app_nil_r in SX. apply NE. rewrite <- (rev_involutive (opath r)), <- (rev_involutive d). fold s. now rewrite SX. }
        destruct (inv_target b done root d I) as (F2 & Z2 & L2). rewrite WM, KEEP, RM, ZM, LM. split; [|split; [exact F2|split; [exact Z2|]]].
        * right. destruct SF as (p & SF). exists r, p. split; [apply in_app_iff; right; now left|exact SF].
        * rewrite L2. destruct d; [now symmetry|reflexivity].
      + assert (CASE : walk root' (rev d) = walk root (rev d)).
        { destruct (suffix_dec (opath r) d) as [SF|NSF2].
          - destruct (proj1 (rev_prefix _ _) SF) as (x & SX). fold s in SX. rewrite SX, W1.
            assert (XN : x <> []).
            { intros ->. rewrite app_nil_r in SX. apply NE. rewrite <- (rev_involutive (opath r)), <- (rev_involutive d). fold s. now rewrite SX. }
            rewrite (walk_kids _ t x XN) by apply node_sets_table. rewrite walk_app. destruct (walk root s) as [c|] eqn:WS.
            + unfold t. now rewrite (target_walk root s c WS).
            + unfold t. rewrite (target_none root s [] WS). now apply walk_fresh.
          - apply W3.
            + intros P. apply NSF2. now apply rev_prefix.
            + intros P. apply NSF. now apply rev_prefix. }
        rewrite CASE, KEEP. pose proof (i_at _ _ _ I d) as A. destruct (walk root (rev d)) as [c|].
        * destruct A as (A1 & A2 & A3 & A4). split; [|split; [exact A2|split; [exact A3|]]].
          -- destruct A1 as [A1|(r0 & p & A1 & A1')]; [now left|right]. exists r0, p. auto.
          -- rewrite A4. destruct d; [now symmetry|reflexivity].
        * destruct A as (A1 & A2). split; [exact A1|]. intros r0 p IN. apply in_app_iff in IN. destruct IN as [IN|[<-|[]]]; [now apply A2|].
          intros X. apply NSF. exists p. exact X.
  Qed.

  Lemma inv_start z0 : new_zone_root zname = Ok (Some z0) -> inv 0 [] z0.
  Proof.
    intros E. assert (Z : z0 = set_zcut (LNode 0 (match zname with [] => None | l :: _ => Some l end) None [])).
    { unfold new_zone_root in E. destruct zname as [|l z]; [now injection E as <-|].
      assert (X : forall (a b : zres lnode), (match l with [42] => a | _ => b end = a \/ match l with [42] => a | _ => b end = b)).
      { intros a b. destruct l as [|x l0]; [now right|]. destruct x as [|p]; [now right|]. repeat (destruct p as [p|p|]; try (right; reflexivity)). destruct l0; [now left|now right]. }
      destruct (X zfatal (Ok (Some (set_zcut (LNode 0 (Some l) None []))))) as [Y|Y]; rewrite Y in E; [discriminate|now injection E as <-]. }
    subst z0. constructor.
    - apply (Good hash 0 _ 0 true); [reflexivity|lia|reflexivity|reflexivity|intros c []|intros c []].
    - intros d. destruct d as [|l d].
      + cbn [rev walk]. split; [now left|]. split; [reflexivity|]. split; reflexivity.
      + assert (W : forall s, s <> [] -> walk (set_zcut (LNode 0 match zname with [] => None | l :: _ => Some l end None [])) s = None) by (intros [|x s]; [congruence|reflexivity]).
        rewrite W by (cbn; intros X; apply app_eq_nil in X; now destruct X). split; [discriminate|]. intros r p [].
  Qed.

  Lemma inv_run rs : forall b done root root', inv b done root -> b + N.of_nat (length rs) < 2 ^ 62 -> add_recs cfg pl hash zname root rs = Ok (Some root') ->
    inv (b + N.of_nat (length rs)) (done ++ rs) root'.
  Proof.
    induction rs as [|r rs IH]; intros b done root root' I B E; cbn [add_recs length] in *.
    - injection E as <-. rewrite app_nil_r, N.add_0_r. exact I.
    - unfold zbind in E. destruct (add_rec cfg pl hash zname root r) as [[r1|]|] eqn:E1; try discriminate. cbn [rbind] in E.
      replace (done ++ r :: rs) with ((done ++ [r]) ++ rs) by (now rewrite <- app_assoc).
      replace (b + N.of_nat (S (length rs))) with ((b + 1) + N.of_nat (length rs)) in * by lia.
      apply (IH (b + 1) _ r1); auto. eapply inv_step; eauto. lia.
  Qed.
End Fold.
