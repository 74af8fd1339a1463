(** Searching inside a zone, and what the checks of phase 1 mean. *)
From Coq Require Import Sorting.Permutation.
From Verif Require Import Base DnameSpec DnameModel RandModel CompModel RespModel RespSpec LtreeModel LtreeSpec LtreeProofs LtreeProofs2 LtreeProofs3 LtreeProofs4 LtreeProofs5 LtreeProofs6 LtreeProofs7.
Local Open Scope N_scope.
Ltac Zify.zify_post_hook ::= idtac.

Lemma is_wild_iff o : is_wild o = true <-> o = Some [42].
Proof.
  destruct o as [l|]; cbn [is_wild]; [|split; congruence]. destruct l as [|x l]; [split; congruence|]. destruct x as [|p]; [split; congruence|].
  repeat (destruct p as [p|p|]; try (split; congruence)). destruct l; split; congruence.
Qed.

Section Search.
  Variable cfg : zcfg.
  Variable hash : list N -> N.
  Variable zname : name.
  Hypothesis hash64 : forall l, hash l < W64.

  (** a cut at [s1], a prefix of the stack [s] *)
  Definition cut_in (n : lnode) (path : name) (s : list (list N)) (s1 : list (list N)) (m : lnode) : Prop :=
    (exists s2, s = s1 ++ s2) /\ walk n s1 = Some m /\ cutb m (rev s1 ++ path) = true.
  Definition found_is (n : lnode) (path : name) (s : list (list N)) (st : status) (found : option named) : Prop :=
    match walk n s with
    | Some c => found = Some (rev s ++ path, c)
    | None => (st <> AUTH -> found = None) /\
        exists s1 l s2 c, s = s1 ++ l :: s2 /\ walk n s1 = Some c /\ child c l = None /\
          (st = AUTH -> found = match child c [42] with Some w => Some ([42] :: rev s1 ++ path, w) | None => None end)
    end.

  Lemma zsearch_ok b s : forall n path rval deleg, good hash b n -> rval <> NOAUTH ->
    exists st found deleg', zsearch hash n path s rval deleg = Ok (st, found, deleg') /\ found_is n path s st found /\
      ((st = rval /\ deleg' = deleg /\ forall s1 m, ~ cut_in n path s s1 m) \/
       (st = DELEG /\ exists s1 m, cut_in n path s s1 m /\ deleg' = Some (rev s1 ++ path, m))).
  Proof.
    induction s as [|l s IH]; intros n path rval deleg G RV; cbn [zsearch].
    - fold (cutb n path). destruct (cutb n path) eqn:CB.
      + eexists _, _, _. split; [reflexivity|]. split; [reflexivity|]. right. split; [reflexivity|]. exists [], n. split; [|reflexivity]. split; [exists []; reflexivity|]. split; [reflexivity|exact CB].
      + eexists _, _, _. split; [reflexivity|]. split; [reflexivity|]. left. split; [reflexivity|]. split; [reflexivity|]. intros s1 m ((s2 & E) & W & C). destruct s1; [|discriminate]. cbn in W, C. congruence.
    - fold (cutb n path). rewrite (node_find_child_ok hash hash64 b n l G). cbn [rbind]. destruct (child n l) as [c|] eqn:CE.
      + destruct (proj1 (child_in hash b n l c G) CE) as (IC & LC). destruct (good_kid hash b n c G IC) as (_ & GC).
        destruct (IH c (l :: path) (if cutb n path then DELEG else rval) (if cutb n path then Some (path, n) else deleg) GC ltac:(destruct (cutb n path); congruence)) as (st & found & dl & E & F & D).
        exists st, found, dl. split; [exact E|]. split.
        * unfold found_is in *. cbn [walk rev]. rewrite CE. rewrite <- !app_assoc. cbn [app] in *. destruct (walk c s) as [k|]; [exact F|].
          destruct F as (F1 & s1 & l1 & s2 & c1 & E1 & W1 & N1 & F2). split; [exact F1|]. exists (l :: s1), l1, s2, c1. split; [now rewrite E1|]. split; [cbn [walk]; now rewrite CE|]. split; [exact N1|].
          intros A. rewrite (F2 A). cbn [rev]. now rewrite <- app_assoc.
        * destruct D as [(D1 & D2 & D3)|(D1 & s1 & m & ((s2 & D2) & D3 & D4) & D5)].
          -- destruct (cutb n path) eqn:CB.
             ++ right. split; [exact D1|]. exists [], n. split; [|exact D2]. split; [exists (l :: s); reflexivity|]. split; [reflexivity|exact CB].
             ++ left. split; [exact D1|]. split; [exact D2|]. intros s1 m ((s2 & E1) & W & C). destruct s1 as [|l1 s1]; [cbn in W, C; congruence|]. cbn [app] in E1. injection E1 as <- ->.
                cbn [walk rev] in W, C. rewrite CE in W. rewrite <- app_assoc in C. apply (D3 s1 m). split; [eauto|auto].
          -- right. split; [exact D1|]. exists (l :: s1), m. cbn [rev]. rewrite <- app_assoc. split; [|exact D5]. split; [exists s2; now rewrite D2|]. split; [cbn [walk]; now rewrite CE|]. cbn [rev]. now rewrite <- app_assoc.
      + assert (FI : forall st found, (st <> AUTH -> found = None) -> (st = AUTH -> found = match child n [42] with Some w => Some ([42] :: path, w) | None => None end) -> found_is n path (l :: s) st found).
        { intros st found A1 A2. unfold found_is. cbn [walk]. rewrite CE. split; [exact A1|]. exists [], l, s, n. split; [reflexivity|]. split; [reflexivity|]. split; [exact CE|exact A2]. }
        destruct (cutb n path) eqn:CB.
        * eexists _, _, _. split; [reflexivity|]. split; [apply FI; [reflexivity|discriminate]|]. right. split; [reflexivity|]. exists [], n. split; [|reflexivity]. split; [exists (l :: s); reflexivity|]. split; [reflexivity|exact CB].
        * assert (NC : forall s1 m, ~ cut_in n path (l :: s) s1 m).
          { intros s1 m ((s2 & E) & W & C). destruct s1 as [|l1 s1]; [cbn in W, C; congruence|]. cbn [app] in E. injection E as <- ->. cbn [walk] in W. rewrite CE in W. discriminate. }
          destruct rval; [contradiction| |].
          -- unfold label_wild. rewrite (node_find_child_ok hash hash64 b n [42] G). cbn [rbind]. eexists _, _, _. split; [reflexivity|]. split; [apply FI; [congruence|reflexivity]|]. left. auto.
          -- eexists _, _, _. split; [reflexivity|]. split; [apply FI; [reflexivity|discriminate]|]. left. auto.
  Qed.

  (** ** Phase 1 *)
  Definition ns_rel (root : lnode) (x y : name * option (N * list bytes) * option (N * list bytes)) : Prop :=
    fst (fst x) = fst (fst y) /\ exists used, p1_proc_ns hash zname root (fst (fst x)) = Ok (Some (snd (fst y), snd y, used)).
  Inductive glue_rel (root : lnode) : rrset -> rrset -> Prop :=
  | gr_ns t rd rd' : Forall2 (ns_rel root) rd rd' -> glue_rel root (RsNS t rd) (RsNS t rd')
  | gr_other s : (forall t rd, s <> RsNS t rd) -> rrset_type s <> T_NS -> glue_rel root s s.

  Lemma glue_type root s s' : glue_rel root s s' -> rrset_type s' = rrset_type s.
  Proof. now intros []. Qed.

  Lemma proc_ns_list_ok root rd : forall g rd' g', proc_ns_list hash zname root rd g = Ok (Some (rd', g')) -> Forall2 (ns_rel root) rd rd'.
  Proof.
    induction rd as [|((t, a), b) rd IH]; intros g rd' g' H; cbn [proc_ns_list] in H.
    - injection H as <- <-. constructor.
    - apply zbind_ok in H. destruct H as (((g4, g6), used) & P1 & H). apply zbind_ok in H. destruct H as ((rd1, g1) & L & H). injection H as <- <-.
      constructor; [|eapply IH; eauto]. split; [reflexivity|]. exists used. exact P1.
  Qed.
  Lemma proc_ns_ok root r g r' g' : proc_ns hash zname root r g = Ok (Some (r', g')) -> glue_rel root r r'.
  Proof.
    destruct r; cbn [proc_ns]; intros H; try (injection H as <- <-; constructor; [discriminate|discriminate]).
    - apply zbind_ok in H. destruct H as ((rd1, g1) & L & H). injection H as <- <-. constructor. eapply proc_ns_list_ok; eauto.
    - unfold rassert in H. match type of H with context [?x =? T_NS] => destruct (N.eqb_spec x T_NS) as [E|E] end; cbn [negb] in H; [discriminate|]. injection H as <- <-. constructor; [discriminate|exact E].
  Qed.

  Lemma p1_sets_ok root ind via rs : forall total g rs' total' g', p1_sets cfg hash zname root rs ind via total g = Ok (Some (rs', total', g')) ->
    Forall2 (glue_rel root) rs rs' /\ total <= total' /\ (forall s, In s rs' -> exists sz, p1_rrset_size cfg s ind = Ok sz /\ sz <= total').
  Proof.
    induction rs as [|r rs IH]; intros total g rs' total' g' H; cbn [p1_sets] in H.
    - injection H as <- <- <-. split; [constructor|]. split; [lia|]. intros s [].
    - apply zbind_ok in H. destruct H as ((r1, g1) & PN & H). apply zbind_ok in H. destruct H as ([] & _ & H).
      destruct (p1_rrset_size cfg r1 ind) as [sz|] eqn:SZ; [|discriminate]. cbn [rbind] in H. apply zbind_ok in H. destruct H as (((rs1, t1), g2) & PS & H). injection H as <- <- <-.
      destruct (IH _ _ _ _ _ PS) as (A1 & A2 & A3). apply proc_ns_ok in PN.
      assert (total <= t1 /\ sz <= t1) as (X1 & X2) by (destruct (N.ltb_spec total sz); lia).
      split; [constructor; auto|]. split; [exact X1|]. intros s [<-|IN]; [eauto|now apply A3].
  Qed.

  Lemma phase1_ok root n path ind g sets' g' : phase1 cfg hash zname root n path ind g = Ok (Some (sets', g')) ->
    (ind = true -> exists l p, path = l :: p /\ l <> [42] /\
       forall s, In s (l_rrsets n) -> rrset_type s = T_A \/ rrset_type s = T_AAAA \/ (rrset_type s = T_NS /\ cutb n path = true)) /\
    (forall s s2 rest, l_rrsets n = s :: s2 :: rest -> rrset_type s <> T_CNAME /\ rrset_type s <> T_DYNC) /\
    exists cn, first_cname (l_rrsets n) = Ok cn /\
    match cn with
    | None => exists total, Forall2 (glue_rel root) (l_rrsets n) sets' /\
        (forall s, In s sets' -> exists sz, p1_rrset_size cfg s ind = Ok sz /\ sz <= total) /\ p1_rsize_base cfg zname n path (cutb n path) + total <= MAX_RESPONSE_DATA
    | Some t => sets' = l_rrsets n /\ exists rs soa rsize rs' total, p1_chase_cname cfg hash zname root t (p1_rsize_base cfg zname n path (cutb n path)) = Ok (Some (rs, soa, rsize)) /\
        Forall2 (glue_rel root) rs rs' /\ soa <= total /\ (forall s, In s rs' -> exists sz, p1_rrset_size cfg s ind = Ok sz /\ sz <= total) /\ rsize + total <= MAX_RESPONSE_DATA
    end.
  Proof.
    unfold phase1. fold (cutb n path). intros H. destruct (p1_check_deleg n path ind (cutb n path)) as [bad|] eqn:CD; [|discriminate]. cbn [rbind] in H. destruct bad; [discriminate|].
    destruct (p1_check_cname n) eqn:CC; [discriminate|]. destruct (first_cname (l_rrsets n)) as [cn|] eqn:FC; [|discriminate]. cbn [rbind] in H. split; [|split].
    - intros ->. unfold p1_check_deleg in CD. destruct path as [|l p]; [discriminate|]. exists l, p. split; [reflexivity|]. injection CD as CD. apply orb_false_iff in CD. destruct CD as (C1 & C2). split.
      + intros ->. discriminate.
      + apply negb_false_iff in C2. rewrite forallb_forall in C2. intros s IN. apply C2 in IN. rewrite !orb_true_iff, andb_true_iff, !N.eqb_eq in IN. tauto.
    - intros s s2 rest E. unfold p1_check_cname in CC. rewrite E in CC. apply orb_false_iff in CC. destruct CC as (C1 & C2). apply N.eqb_neq in C1, C2. auto.
    - exists cn. split; [reflexivity|]. apply zbind_ok in H. destruct H as ((((via, rs), rz), rsize) & HC & H). apply zbind_ok in H. destruct H as (((rs', tot), g2) & PS & H).
      destruct (N.ltb_spec MAX_RESPONSE_DATA (rsize + tot)) as [|LE]; [discriminate|]. destruct (p1_sets_ok _ _ _ _ _ _ _ _ _ PS) as (A1 & A2 & A3).
      destruct cn as [t|].
      + apply zbind_ok in HC. destruct HC as (((rs0, so), rsz) & CH & HC). injection HC as <- <- <- <-. injection H as <- <-. split; [reflexivity|]. exists rs0, so, rsz, rs', tot. auto 8.
      + injection HC as <- <- <- <-. injection H as <- <-. exists tot. auto.
  Qed.
End Search.
