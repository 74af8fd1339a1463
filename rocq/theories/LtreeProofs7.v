(** What the walk over the tree after loading does. *)
From Coq Require Import Sorting.Permutation.
From Verif Require Import Base DnameSpec DnameModel RandModel CompModel RespModel RespSpec LtreeModel LtreeSpec LtreeProofs LtreeProofs2 LtreeProofs3 LtreeProofs4 LtreeProofs5 LtreeProofs6.
Local Open Scope N_scope.
Ltac Zify.zify_post_hook ::= idtac.

(** ** Tables that differ in their nodes only *)
Inductive slot_rel (R : lnode -> lnode -> Prop) : option (N * lnode) -> option (N * lnode) -> Prop :=
| sr_none : slot_rel R None None
| sr_some h c c' : R c c' -> slot_rel R (Some (h, c)) (Some (h, c')).
Inductive tab_rel (R : lnode -> lnode -> Prop) : option (list (option (N * lnode))) -> option (list (option (N * lnode))) -> Prop :=
| tr_none : tab_rel R None None
| tr_some t t' : Forall2 (slot_rel R) t t' -> tab_rel R (Some t) (Some t').

Lemma rel_ents R t t' : Forall2 (slot_rel R) t t' -> Forall2 (fun e e' => fst e = fst e' /\ R (snd e) (snd e')) (ents t) (ents t').
Proof.
  induction 1 as [|a b t t' H F IH]; [constructor|]. unfold ents in *. cbn [flat_map]. destruct H as [|h c c' H]; cbn [app]; [exact IH|]. constructor; [auto|exact IH].
Qed.
Lemma rel_at R t t' : Forall2 (slot_rel R) t t' -> forall i, slot_rel R (at_ t i) (at_ t' i).
Proof.
  intros F i. unfold at_. generalize (N.to_nat i) as j. induction F as [|a b t t' H F IH]; intros [|j]; cbn; try constructor; auto.
Qed.
Lemma rel_kids R n n' : tab_rel R (l_table n) (l_table n') -> Forall2 R (kids n) (kids n').
Proof.
  intros T. unfold kids. destruct T as [|t t' F]; [constructor|]. cbn. apply rel_ents in F. induction F as [|a b x y (_ & H) F IH]; cbn; constructor; auto.
Qed.
Lemma rel_child (R : lnode -> lnode -> Prop) n n' l : (forall c c', R c c' -> labelof c = labelof c') -> tab_rel R (l_table n) (l_table n') ->
  match child n l, child n' l with Some c, Some c' => R c c' | None, None => True | _, _ => False end.
Proof.
  intros LB T. apply rel_kids in T. unfold child, lookup. induction T as [|a b x y H F IH]; cbn [find]; [exact I|].
  rewrite <- (LB _ _ H). destruct (bytes_eqb (labelof a) l); [exact H|exact IH].
Qed.
Lemma rel_tab_ok hash (R : lnode -> lnode -> Prop) cc t t' : (forall c c', R c c' -> labelof c = labelof c') -> tab_rel R t t' -> tab_ok labelof hash cc t -> tab_ok labelof hash cc t'.
Proof.
  intros LB T. destruct T as [|t t' F]; cbn [tab_ok]; [auto|]. intros (P & C & RH & LO & LN & ND). pose proof (rel_ents _ _ _ F) as FE. pose proof (rel_at _ _ _ F) as FA.
  assert (FL : length t = length t') by (clear - F; induction F; cbn; congruence).
  assert (EL : length (ents t) = length (ents t')) by (clear - FE; induction FE; cbn; congruence).
  assert (NL : map labelof (map snd (ents t)) = map labelof (map snd (ents t'))).
  { clear - FE LB. induction FE as [|a b x y (_ & H) FE IH]; cbn; [reflexivity|]. now rewrite IH, (LB _ _ H). }
  split; [exact P|]. split; [exact C|]. split; [|split; [|split; [congruence|congruence]]].
  - constructor.
    + rewrite <- FL. apply RH.
    + intros i h c E. specialize (FA i). rewrite E in FA. inversion FA; subst. eapply rh_hash; eauto.
    + intros i h c d I E D. pose proof (FA i) as FI. rewrite E in FI. inversion FI as [|h0 c0 cy RY E0 EY]. subst h0 cy.
      destruct (rh_prev _ _ RH i h c0 d I (eq_sym E0) D) as (h' & c1 & E1 & D1). match type of E1 with at_ _ ?x = _ => pose proof (FA x) as FD end. rewrite E1 in FD. inversion FD as [|h2 cx c2 RX EX E2].
      exists h', c2. subst h2. auto.
    + destruct (rh_room _ _ RH) as (e & EI & EN). exists e. split; [exact EI|]. specialize (FA e). rewrite EN in FA. now inversion FA.
  - intros h c IN. clear - FE LO LB IN. revert LO IN. unfold labels_ok. generalize dependent (ents t). generalize (ents t'). intros y x FE. induction FE as [|a b x y (H1 & H2) FE IH]; intros LO IN; [destruct IN|].
    destruct IN as [->|IN]; [|apply IH; [intros h0 c0 I0; apply LO; now right|exact IN]]. destruct a as (h0, c0). cbn in H1, H2. subst h0. rewrite <- (LB _ _ H2). apply LO. now left.
Qed.

Definition cutb (n : lnode) (path : name) : bool := get_zcut n && match path with [] => false | _ => true end.

Section Proc.
  Variable cfg : zcfg.
  Variable hash : list N -> N.
  Variable zname : name.
  Hypothesis hash64 : forall l, hash l < W64.
  Notation phase1 := (phase1 cfg hash zname).
  Notation proc1 := (proc1 cfg hash zname).

  Inductive done1 (root : lnode) : lnode -> name -> bool -> lnode -> Prop :=
  | Done1 n path ind n' g g' : cutb n path && ind = false ->
      phase1 root n path (ind || cutb n path) g = Ok (Some (l_rrsets n', g')) ->
      l_caf n' = l_caf n -> l_label n' = l_label n ->
      tab_rel (fun c c' => exists l, l_label c = Some l /\ done1 root c (l :: path) (ind || cutb n path) c') (l_table n) (l_table n') ->
      done1 root n path ind n'.

  Lemma done1_label root n path ind n' : done1 root n path ind n' -> l_label n' = l_label n.
  Proof. now intros []. Qed.

  Definition go1 (root : lnode) (path : name) (ind : bool) :=
    fix go (tbl : list (option (N * lnode))) (gused : list name) : zres (list (option (N * lnode)) * list name) :=
    match tbl with
    | [] => Ok (Some ([], gused))
    | None :: tbl => zdo (t, gused) <- go tbl gused ; Ok (Some (None :: t, gused))
    | Some (h, c) :: tbl =>
        match l_label c with
        | None => UB
        | Some l =>
            zdo (c', gused) <- proc1 root c (l :: path) ind gused ;
            zdo (t, gused) <- go tbl gused ;
            Ok (Some (Some (h, c') :: t, gused))
        end
    end.
  Lemma go1_eq root path ind tbl g : go1 root path ind tbl g =
    match tbl with
    | [] => Ok (Some ([], g))
    | None :: tbl => zdo (t, g) <- go1 root path ind tbl g ; Ok (Some (None :: t, g))
    | Some (h, c) :: tbl =>
        match l_label c with
        | None => UB
        | Some l => zdo (c', g) <- proc1 root c (l :: path) ind g ; zdo (t, g) <- go1 root path ind tbl g ; Ok (Some (Some (h, c') :: t, g))
        end
    end.
  Proof. destruct tbl as [|[(h, c)|] tbl]; reflexivity. Qed.
  Lemma proc1_eq root n path ind g :
    proc1 root n path ind g =
      if cutb n path && ind then zfatal
      else
        zdo (rrsets', g) <- phase1 root n path (ind || cutb n path) g ;
        match l_table n with
        | None => Ok (Some (LNode (l_caf n) (l_label n) None rrsets', g))
        | Some tbl => zdo (tbl', g) <- go1 root path (ind || cutb n path) tbl g ; Ok (Some (LNode (l_caf n) (l_label n) (Some tbl') rrsets', g))
        end.
  Proof. destruct n as [caf lab tbl rs]. destruct tbl; reflexivity. Qed.

  Lemma zbind_ok {A B} (x : zres A) (f : A -> zres B) r : zbind x f = Ok (Some r) -> exists a, x = Ok (Some a) /\ f a = Ok (Some r).
  Proof. unfold zbind. destruct x as [[a|]|]; try discriminate. cbn [rbind]. eauto. Qed.

  Lemma proc1_done root b n : good hash b n -> forall path ind g n' g', proc1 root n path ind g = Ok (Some (n', g')) -> done1 root n path ind n'.
  Proof.
    intros G. induction G as [n cc z E C1 C2 T KL K IH]. intros path ind g n' g' H. rewrite proc1_eq in H.
    destruct (cutb n path && ind) eqn:CI; [discriminate|]. apply zbind_ok in H. destruct H as ((sets, g1) & PH & H).
    destruct (l_table n) as [tbl|] eqn:TB.
    - apply zbind_ok in H. destruct H as ((tbl', g2) & GO & H). injection H as <- <-.
      apply (Done1 root n path ind _ g g1); auto. rewrite TB. cbn [l_table]. constructor.
      assert (KT : forall c, In c (map snd (ents tbl)) -> forall path ind g n' g', proc1 root c path ind g = Ok (Some (n', g')) -> done1 root c path ind n').
      { intros c IC. apply IH. unfold kids. rewrite TB. exact IC. }
      clear - KT GO. revert g1 tbl' g2 GO. induction tbl as [|[(h, c)|] tbl IHT]; intros g1 tbl' g2 GO; rewrite go1_eq in GO.
      + injection GO as <- <-. constructor.
      + destruct (l_label c) as [l|] eqn:LC; [|discriminate]. apply zbind_ok in GO. destruct GO as ((c', g3) & P1 & GO). apply zbind_ok in GO. destruct GO as ((t', g4) & GO1 & GO). injection GO as <- <-.
        constructor.
        * constructor. exists l. split; [exact LC|]. eapply KT; [|exact P1]. now left.
        * eapply IHT; [|exact GO1]. intros c0 I0. apply KT. now right.
      + apply zbind_ok in GO. destruct GO as ((t', g4) & GO1 & GO). injection GO as <- <-. constructor; [constructor|]. eapply IHT; [|exact GO1]. exact KT.
    - injection H as <- <-. apply (Done1 root n path ind _ g g1); auto. rewrite TB. constructor.
  Qed.

  Lemma done1_tab root n path ind n' : done1 root n path ind n' -> forall l,
    match child n l, child n' l with Some c, Some c' => l_label c = Some l -> done1 root c (l :: path) (ind || cutb n path) c' | None, None => True | _, _ => False end.
  Proof.
    intros D l. inversion D as [? ? ? ? g g' CI PH CF LB TR]; subst.
    assert (LL : forall c c', (exists l0, l_label c = Some l0 /\ done1 root c (l0 :: path) (ind || cutb n path) c') -> labelof c = labelof c').
    { intros c c' (l0 & _ & D0). apply done1_label in D0. unfold labelof. now rewrite D0. }
    pose proof (rel_child _ _ _ l LL TR) as H. destruct (child n l), (child n' l); auto. intros E. destruct H as (l9 & E0 & D0). assert (l9 = l) by congruence. now subst l9.
  Qed.
  Lemma done1_good root b n : good hash b n -> forall path ind n', done1 root n path ind n' -> good hash b n'.
  Proof.
    intros G. induction G as [n cc z E C1 C2 T KL K IH]. intros path ind n' D. inversion D as [? ? ? ? g g' CI PH CF LB TR]; subst.
    assert (LL : forall c c', (exists l0, l_label c = Some l0 /\ done1 root c (l0 :: path) (ind || cutb n path) c') -> labelof c = labelof c').
    { intros c c' (l0 & _ & D0). apply done1_label in D0. unfold labelof. now rewrite D0. }
    pose proof (rel_kids _ _ _ TR) as FK.
    assert (KK : forall c', In c' (kids n') -> exists c l, In c (kids n) /\ l_label c = Some l /\ done1 root c (l :: path) (ind || cutb n path) c').
    { clear - FK. induction FK as [|a b x y (l & H1 & H2) F IH]; intros c' IN; [destruct IN|]. destruct IN as [<-|IN]; [exists a, l; split; [now left|auto]|].
      destruct (IH c' IN) as (c & l0 & A1 & A2 & A3). exists c, l0. split; [now right|auto]. }
    apply (Good hash b n' cc z); [congruence|exact C1|exact C2|exact (rel_tab_ok hash _ cc _ _ LL TR T)| |].
    - intros c' IN. destruct (KK c' IN) as (c & l & _ & L1 & D1). exists l. apply done1_label in D1. congruence.
    - intros c' IN. destruct (KK c' IN) as (c & l & I1 & L1 & D1). eapply IH; eauto.
  Qed.

  (** inside a delegation, coming from above *)
  Fixpoint ind_at (n : lnode) (path : name) (ind : bool) (s : list (list N)) : bool :=
    match s with
    | [] => ind
    | l :: s => match child n l with Some c => ind_at c (l :: path) (ind || cutb n path) s | None => false end
    end.
  Lemma done1_walk root b s : forall n path ind n', good hash b n -> done1 root n path ind n' ->
    match walk n s, walk n' s with
    | Some c, Some c' => done1 root c (rev s ++ path) (ind_at n path ind s) c' /\ good hash b c /\ good hash b c'
    | None, None => True
    | _, _ => False
    end.
  Proof.
    induction s as [|l s IH]; intros n path ind n' G D; cbn [walk rev app].
    - split; [exact D|]. split; [exact G|eapply done1_good; eauto].
    - pose proof (done1_tab _ _ _ _ _ D l) as H. cbn [ind_at]. destruct (child n l) as [c|] eqn:CE; destruct (child n' l) as [c'|] eqn:CE'; try contradiction; [|exact I].
      apply (child_in hash b n l c G) in CE. destruct CE as (IC & LC). specialize (H LC). destruct (good_kid hash b n c G IC) as (_ & GC).
      specialize (IH c (l :: path) _ c' GC H). rewrite <- app_assoc. exact IH.
  Qed.

  (** a cut properly above *)
  Lemma ind_at_iff s : forall n path ind c, walk n s = Some c ->
    (ind_at n path ind s = true <-> ind = true \/ exists s1 s2 m, s = s1 ++ s2 /\ s2 <> [] /\ walk n s1 = Some m /\ cutb m (rev s1 ++ path) = true).
  Proof.
    induction s as [|l s IH]; intros n path ind c W; cbn [ind_at walk] in *.
    - split; [now left|]. intros [H|(s1 & s2 & m & E & NE & _)]; [exact H|]. destruct s1; [|discriminate]. cbn in E. congruence.
    - destruct (child n l) as [k|] eqn:CE; [|discriminate]. rewrite (IH k (l :: path) _ c W). rewrite orb_true_iff. split.
      + intros [[H|H]|(s1 & s2 & m & -> & NE & W1 & CB)].
        * now left.
        * right. exists [], (l :: s), n. cbn. split; [reflexivity|]. split; [discriminate|auto].
        * right. exists (l :: s1), s2, m. cbn [walk rev]. rewrite CE. split; [reflexivity|]. split; [exact NE|]. split; [exact W1|]. now rewrite <- app_assoc.
      + intros [H|(s1 & s2 & m & E & NE & W1 & CB)]; [left; now left|]. destruct s1 as [|l1 s1].
        * cbn in W1, CB. injection W1 as <-. left. now right.
        * cbn [app] in E. injection E as <- ->. right. cbn [walk rev] in W1, CB. rewrite CE in W1. rewrite <- app_assoc in CB. exists s1, s2, m. auto.
  Qed.
End Proc.
