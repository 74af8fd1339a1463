(** Proofs about the health checks: which replies are good. *)
From Verif Require Import Base MonModel MonSpec MonProofs ProbeModel ProbeSpec.
Local Open Scope N_scope.

Lemma lit_spec p : forall s r, lit p s = Some r <-> s = p ++ r.
Proof.
  induction p as [|x p IH]; intros s r; cbn [lit app].
  - split; congruence.
  - destruct s as [|y s]; [split; discriminate|].
    destruct (x =? y) eqn:E.
    + apply N.eqb_eq in E. subst y. rewrite IH. split; [now intros ->|now intros [= ->]].
    + apply N.eqb_neq in E. split; [discriminate|]. intros [= -> _]. congruence.
Qed.

Lemma one_of_spec set s r : one_of set s = Some r <-> exists y, In y set /\ s = y :: r.
Proof.
  unfold one_of. destruct s as [|y s].
  - split; [discriminate|]. intros (? & _ & ?). discriminate.
  - destruct (existsb (N.eqb y) set) eqn:E.
    + apply existsb_exists in E as (z & Hz & E). apply N.eqb_eq in E. subst z. split.
      * intros [= ->]. eauto.
      * intros (z & _ & [= _ ->]). reflexivity.
    + split; [discriminate|]. intros (z & Hz & [= -> ->]).
      rewrite <- not_true_iff_false, existsb_exists in E. exfalso. apply E. exists z.
      split; auto. apply N.eqb_refl.
Qed.

Lemma before_nul_app p : forall s r, before_nul s = p ++ r -> exists s', s = p ++ s' /\ r = before_nul s'.
Proof.
  induction p as [|x p IH]; intros s r; cbn [app]; [eauto|].
  destruct s as [|y s]; cbn [before_nul]; [discriminate|].
  destruct (y =? 0); [discriminate|]. intros [= -> E]. apply IH in E as (s' & -> & ->). eauto.
Qed.

Lemma before_nul_keep p r : Forall (fun c => c <> 0) p -> before_nul (p ++ r) = p ++ before_nul r.
Proof.
  induction 1 as [|x p H F IH]; cbn [app before_nul]; auto.
  apply N.eqb_neq in H. now rewrite H, IH.
Qed.

Lemma scan_code_spec s code : scan_code s = Some code <->
  exists minor s', s = http_1 ++ minor :: 32 :: s' /\ (minor = 48 \/ minor = 49) /\
    before_nul s' <> [] /\ code = firstn 3 (before_nul s').
Proof.
  unfold scan_code. split.
  - destruct (lit http_1 (before_nul s)) as [s1|] eqn:E1; [|discriminate].
    destruct (one_of [48; 49] s1) as [s2|] eqn:E2; [|discriminate].
    destruct (one_of [32] s2) as [s3|] eqn:E3; [|discriminate].
    apply lit_spec in E1. apply one_of_spec in E2 as (y & Hy & ->).
    apply one_of_spec in E3 as (z & [<-|[]] & ->).
    change (before_nul s = http_1 ++ [y; 32] ++ s3) in E1. rewrite app_assoc in E1.
    apply before_nul_app in E1 as (s' & E & ->).
    intros H. exists y, s'. split; [|split; [|split]].
    + rewrite E, <- app_assoc. reflexivity.
    + destruct Hy as [<-|[<-|[]]]; auto.
    + intros Z. rewrite Z in H. discriminate.
    + destruct (before_nul s'); [discriminate|]. now injection H as <-.
  - intros (y & s' & -> & Hy & Hn & ->).
    change (http_1 ++ y :: 32 :: s') with (http_1 ++ [y; 32] ++ s').
    rewrite app_assoc, before_nul_keep, <- app_assoc.
    + replace (lit http_1 (http_1 ++ [y; 32] ++ before_nul s')) with (Some ([y; 32] ++ before_nul s'))
        by (symmetry; now apply lit_spec).
      replace (one_of [48; 49] ([y; 32] ++ before_nul s')) with (Some (32 :: before_nul s')).
      2:{ symmetry. apply one_of_spec. exists y. split; [|reflexivity]. destruct Hy as [->| ->]; cbn; auto. }
      replace (one_of [32] (32 :: before_nul s')) with (Some (before_nul s')).
      2:{ symmetry. apply one_of_spec. exists 32. split; cbn; auto. }
      destruct (before_nul s'); congruence.
    + apply Forall_app. split; [repeat constructor; discriminate|].
      repeat constructor; [|discriminate]. destruct Hy as [->| ->]; discriminate.
Qed.

Lemma digit_b b : isdigit b = true -> 48 <= b <= 57.
Proof. apply isdigit_iff. Qed.

(** Three characters can only make a three-digit number if they are three digits. *)
Lemma strtoul_three s v r : (length s <= 3)%nat -> strtoul s = (false, v, r) ->
  100 <= v mod two32 <= 999 ->
  exists a b c, s = [a; b; c] /\ 48 <= a <= 57 /\ 48 <= b <= 57 /\ 48 <= c <= 57 /\
    v = 100 * (a - 48) + 10 * (b - 48) + (c - 48).
Proof.
  intros L E V.
  assert (B : forall x y, (x, y) = (v, r) -> x mod two32 = v mod two32) by (intros ? ? [= -> _]; reflexivity).
  destruct s as [|a [|b [|c [|? ?]]]]; cbn [length] in L; try lia; unfold strtoul in E; cbn [skip_space digits] in E;
  repeat match type of E with
  | context [if isspace ?x then _ else _] => destruct (isspace x) eqn:?; cbn [skip_space digits] in E
  | context [if isdigit ?x then _ else _] => destruct (isdigit x) eqn:?; cbn [skip_space digits] in E
  | context [if ?x =? ?y then _ else _] => destruct (x =? y) eqn:?; cbn [skip_space digits] in E
  | context [if two64 <=? ?x then _ else _] => destruct (two64 <=? x) eqn:?
  end; try discriminate; apply (f_equal (fun p => snd (fst p))) in E; cbn [fst snd] in E;
  repeat match goal with H : isdigit ?x = true |- _ => apply digit_b in H end;
  try (exfalso; unfold two32, two64 in *; lia).
  exists a, b, c. repeat split; try lia.
Qed.

Lemma code_ok_good codes r : length r = 13%nat -> Forall (fun c => 100 <= c <= 999) codes ->
  code_ok codes (r ++ [0]) = true <-> good_reply codes r.
Proof.
  intros L F. unfold code_ok. split.
  - destruct (scan_code (r ++ [0])) as [code|] eqn:E; [|discriminate].
    apply scan_code_spec in E as (y & s' & E & Hy & Hn & ->).
    destruct (strtoul (firstn 3 (before_nul s'))) as [[err v] rest] eqn:S. destruct err; [discriminate|].
    intros X. apply existsb_exists in X as (k & Hk & X). apply N.eqb_eq in X. subst k.
    rewrite Forall_forall in F. specialize (F _ Hk).
    apply strtoul_three in S as (a & b & c & S & Ha & Hb & Hc & ->); [|rewrite firstn_length; lia|exact F].
    assert (P : exists q, before_nul s' = [a; b; c] ++ q).
    { exists (skipn 3 (before_nul s')). rewrite <- S. symmetry. apply firstn_skipn. }
    destruct P as (q & P). apply before_nul_app in P as (s2 & -> & _).
    assert (L2 : length s2 = 2%nat).
    { apply (f_equal (@length N)) in E. rewrite app_length, L in E. unfold http_1 in E. cbn [length app] in E. lia. }
    destruct s2 as [|x [|z [|? ?]]]; try discriminate L2.
    assert (E' : r ++ [0] = ([72; 84; 84; 80; 47; 49; 46] ++ [y; 32; a; b; c; x]) ++ [z]) by (rewrite E; reflexivity).
    apply app_inj_tail in E' as [-> _].
    exists y, a, b, c, x. split; [reflexivity|]. do 4 (split; [assumption|]).
    replace (_ mod two32) with (100 * (a - 48) + 10 * (b - 48) + (c - 48)) in Hk; auto.
    symmetry. apply N.mod_small. unfold two32. lia.
  - intros (y & a & b & c & x & -> & Hy & Ha & Hb & Hc & Hk).
    replace (scan_code _) with (Some [a; b; c]).
    2:{ symmetry. apply scan_code_spec. exists y, [a; b; c; x; 0]. split; [reflexivity|]. split; [assumption|].
        change [a; b; c; x; 0] with ([a; b; c] ++ [x; 0]). rewrite before_nul_keep by (repeat constructor; lia).
        split; [discriminate|]. reflexivity. }
    assert (N3 : c_number [a; b; c] (100 * (a - 48) + 10 * (b - 48) + (c - 48))).
    { change [a; b; c] with ([] ++ ([a] ++ [b]) ++ [c]). constructor; [constructor| |change (2 ^ 64) with two64; unfold two64; lia].
      replace (100 * (a - 48) + 10 * (b - 48) + (c - 48)) with (10 * (10 * (a - 48) + (b - 48)) + (c - 48)) by lia.
      repeat constructor; lia. }
    apply strtoul_spec in N3; [|discriminate]. rewrite N3.
    apply existsb_exists. exists (100 * (a - 48) + 10 * (b - 48) + (c - 48)). split; auto.
    apply N.eqb_eq. apply N.mod_small. unfold two32. lia.
Qed.
