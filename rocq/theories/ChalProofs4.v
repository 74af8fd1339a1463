From Verif Require Import Base DnameModel DnameSpec DnameProofs DnameProofs2 DnameProps CompModel RespModel RespSpec ChalModel ChalSpec ChalProofs ChalProofs2 ChalProofs3.
Local Open Scope nat_scope.

Lemma NoDup_app_r {A} (l l' : list A) : NoDup (l ++ l') -> NoDup l'.
Proof. induction l; cbn; auto. inversion 1; auto. Qed.
Lemma NoDup_app_l {A} (l l' : list A) : NoDup (l ++ l') -> NoDup l.
Proof. induction l; cbn; [constructor|]. inversion 1; subst. constructor; auto. rewrite in_app_iff in *. tauto. Qed.
Lemma NoDup_app_not {A} (l l' : list A) x : NoDup (l ++ l') -> In x l -> In x l' -> False.
Proof. induction l as [|y l IH]; cbn; [easy|]. inversion 1 as [|? ? Hn Hd]; subst. intros [->|K1] K2; [|auto]. apply Hn. apply in_app_iff. auto. Qed.

Section Sim.
  Variable hash : bytes -> N.
  Variable ttl dns_ttl : N.
  Notation mk := (mk hash dns_ttl).
  Notation sim := (sim hash dns_ttl).
  Notation mkset := (mkset hash dns_ttl).
  Notation rrel := (rrel hash dns_ttl).
  Notation rgood := (rgood hash dns_ttl).
  Notation step := (step hash ttl dns_ttl).
  Notation astep := (astep hash ttl dns_ttl).

  (** the state after publishing [o]: [keep] stays, [dead] goes *)
  Lemma sim_publish s a dead keep o ld lk tm :
    sim s a -> pn s = Idle -> oldest (st s) = dead ++ keep -> live a = ld ++ lk -> length dead = length ld ->
    match o with None => all_chals lk = [] | Some t => tgood (st s) keep t (map mk (all_chals lk)) end ->
    sim {| st := {| sets := sets (st s); tbls := tbls (publish (st s) o); oldest := keep; cur := cur (publish (st s) o); timer := tm |};
           pn := Swapped (cur (st s)) dead; rds := rds s |}
        {| live := lk; due := tm; busy := true; views := views a |}.
  Proof.
    intros M P Eo El L Ho. assert (Ml := m_live _ _ _ _ M). rewrite Eo, El, map_app in Ml.
    apply sets_at_app in Ml as [Ml1 Ml2]; [|now rewrite map_length].
    assert (Htb : forall i t0, get_tbl (st s) i = Ok t0 ->
      get_tbl {| sets := sets (st s); tbls := tbls (publish (st s) o); oldest := keep; cur := cur (publish (st s) o); timer := tm |} i = Ok t0).
    { intros i t0 H. pose proof (get_tbl_lt _ _ _ H) as Lt. unfold get_tbl, rd in *. cbn [tbls publish]. destruct o; [rewrite nth_error_app1 by auto|]; exact H. }
    constructor; cbn [st pn rds live due busy views deads olds idle negb oldest cur timer].
    - eapply sets_at_mono; [exact Ml2|]. auto.
    - assert (X := m_ok _ _ _ _ M). rewrite El in X. apply Forall_app in X. tauto.
    - apply sets_at_ok in Ml1. exact Ml1.
    - assert (X := m_nodup _ _ _ _ M). rewrite P, Eo in X. exact X.
    - destruct o as [t|]; cbn [publish cur good].
      + exists t. split; [unfold get_tbl, rd; cbn [tbls publish]; rewrite nth_error_app2, Nat.sub_diag by lia; reflexivity|]. exact Ho.
      + now rewrite Ho.
    - intros i Ei. injection Ei as Ei. assert (G := m_cur _ _ _ _ M). rewrite Ei in G. destruct G as (t0 & Et & _). split; [exists t0; auto|].
      apply get_tbl_lt in Et. destruct o; cbn [publish cur]; [|discriminate]. intros H. injection H as H. lia.
    - reflexivity.
    - reflexivity.
    - intros r. apply readers_swap; auto; [assert (X := m_rds _ _ _ _ M r); now rewrite P in X|].
      cbn [oldest]. rewrite Eo. apply incl_refl.
  Qed.

  Lemma sim_timer s a now : sim s a -> exists s' o a', step s (ETimer now) = Ok (s', o) /\ astep a (ETimer now) o a' /\ sim s' a'.
  Proof.
    intros M. unfold ChalModel.step. destruct (pn s) eqn:P.
    2-5: exists s, ONone, a; (split; [reflexivity|]); split; [apply a_busy; [rewrite (m_busy _ _ s a M), P; reflexivity|exact I]|exact M].
    assert (Bz : busy a = false) by (rewrite (m_busy _ _ _ _ M), P; reflexivity).
    destruct (timer (st s)) as [d|] eqn:T.
    2: { exists s, ONone, a. split; [reflexivity|]. split; [|exact M]. apply a_not_due; auto. intros d Hd. rewrite <- (m_timer _ _ _ _ M) in Hd. congruence. }
    assert (Td : due a = Some d) by (rewrite <- (m_timer _ _ _ _ M); auto).
    destruct (d <=? now)%Z eqn:E.
    2: { exists s, ONone, a. split; [reflexivity|]. split; [|exact M]. apply a_not_due; auto. intros d' Hd. rewrite Td in Hd. injection Hd as <-. now apply Z.leb_gt. }
    apply Z.leb_le in E. unfold cset_expire.
    destruct (expired_ok hash dns_ttl (st s) (now + 3200) (live a) (oldest (st s)) (m_live _ _ _ _ M)) as (dead & keep & ld & lk & Ee & Eo & El & L & F & K).
    rewrite Ee. cbn [rbind]. assert (Ml := m_live _ _ _ _ M). rewrite Eo, El, map_app in Ml.
    apply sets_at_app in Ml as [Ml1 Ml2]; [|now rewrite map_length].
    destruct (tbl_create_none (st s) keep (map mkset lk) Ml2) as (o & Et & Ho). rewrite Et. cbn [rbind].
    rewrite (flat_mkset hash dns_ttl) in Ho.
    assert (Etm : match keep with [] => Ok None | id :: _ => do s0 <- get_set (st s) id; Ok (Some (s_expiry s0)) end
      = Ok (match lk with [] => None | x :: _ => Some (a_until x) end)).
    { inversion Ml2 as [Hk Hl|id x kr lr Eg _ Hk Hl]; destruct lk; try discriminate; [reflexivity|]. rewrite Eg. cbn in Hl. injection Hl as -> _. reflexivity. }
    rewrite Etm. cbn [rbind].
    eexists _, _, _. split; [reflexivity|]. split; [eapply a_expire; eauto|].
    apply (sim_publish s a dead keep o ld lk); auto.
    destruct o; [apply Ho|]. destruct (all_chals lk); [auto|discriminate].
  Qed.

  Lemma sim_flush s a : sim s a -> exists s' o a', step s EFlush = Ok (s', o) /\ astep a EFlush o a' /\ sim s' a'.
  Proof.
    intros M. unfold ChalModel.step. destruct (pn s) eqn:P.
    2-5: exists s, ONone, a; (split; [reflexivity|]); split; [apply a_busy; [rewrite (m_busy _ _ s a M), P; reflexivity|exact I]|exact M].
    assert (Bz : busy a = false) by (rewrite (m_busy _ _ _ _ M), P; reflexivity).
    unfold cset_flush. eexists _, _, _. split; [reflexivity|]. split; [now apply a_flush|].
    apply (sim_publish s a (oldest (st s)) [] None (live a) [] None); auto; try (now rewrite app_nil_r).
    assert (X := Forall2_len _ _ _ (m_live _ _ _ _ M)). now rewrite map_length in X.
  Qed.

  Lemma get_set_upd g i j y z w t : i <> j -> get_set {| sets := upd (sets g) j None; tbls := y; oldest := z; cur := w; timer := t |} i = get_set g i.
  Proof. intros H. unfold get_set, rd. cbn [sets]. now rewrite nth_error_upd_neq by auto. Qed.
  Lemma get_tbl_upd g i j x z w t : i <> j -> get_tbl {| sets := x; tbls := upd (tbls g) j None; oldest := z; cur := w; timer := t |} i = get_tbl g i.
  Proof. intros H. unfold get_tbl, rd. cbn [tbls]. now rewrite nth_error_upd_neq by auto. Qed.

  Lemma free_sets_ok ids : forall g, Forall (fun id => is_ok (get_set g id)) ids -> NoDup ids ->
    exists g', free_sets g ids = Ok g' /\ tbls g' = tbls g /\ oldest g' = oldest g /\ cur g' = cur g /\ timer g' = timer g /\
      forall i, ~ In i ids -> get_set g' i = get_set g i.
  Proof.
    induction ids as [|i ids IH]; intros g F N; cbn [free_sets].
    - exists g. repeat split; auto.
    - inversion F as [|? ? [x Ex] F']; subst. inversion N; subst. rewrite Ex. cbn [rbind].
      edestruct IH as (g' & E & E1 & E2 & E3 & E4 & E5); [| |exists g'; split; [exact E|]]; auto.
      + rewrite Forall_forall in *. intros j Hj. rewrite get_set_upd; [auto|]. intros ->. auto.
      + repeat split; auto. intros j Hj. rewrite E5 by (intros ?; apply Hj; now right). apply get_set_upd. intros ->. apply Hj. now left.
  Qed.

  Lemma in_section_ok l r h : nth_error l r = Some (Some h) -> In r (in_section l).
  Proof.
    intros H. unfold in_section. apply filter_In. rewrite H. split; auto. apply in_seq. split; [lia|]. cbn. apply nth_error_Some. congruence.
  Qed.

  Lemma is_ok_eq {A} (x y : res A) : x = y -> is_ok x -> is_ok y.
  Proof. now intros ->. Qed.

  Lemma sim_main s a : sim s a -> exists s' o a', step s EMain = Ok (s', o) /\ astep a EMain o a' /\ sim s' a'.
  Proof.
    intros M. unfold ChalModel.step. destruct (pn s) as [|old dead|on old dead|old dead|dead] eqn:P.
    - exists s, ONone, a. split; [reflexivity|]. split; [|exact M].
      assert (E : a = {| live := live a; due := due a; busy := busy a; views := views a |}) by now destruct a. rewrite E at 2. apply a_main. auto.
    - eexists _, _, _. split; [reflexivity|]. split; [apply (a_main hash ttl dns_ttl a true); rewrite (m_busy _ _ _ _ M), P; discriminate|].
      destruct M as [M1 M2 M3 M4 M5 M6 M7 M8 M9]. rewrite P in *.
      constructor; cbn [st pn rds live due busy views deads olds idle negb]; auto.
      intros r. specialize (M9 r). unfold ChalProofs3.rrel in *. destruct (nth_error (rds s) r) as [[h|]|] eqn:Er, (nth_error (views a) r) as [[v|]|]; auto.
      destruct M9 as [Hv [Hl|(_ & Ho & G)]]; split; auto. right. split; [cbn; now apply in_section_ok with h|auto].
    - destruct on as [|r0 on].
      + eexists _, _, _. split; [reflexivity|]. split; [apply (a_main hash ttl dns_ttl a true); rewrite (m_busy _ _ _ _ M), P; discriminate|].
        destruct M as [M1 M2 M3 M4 M5 M6 M7 M8 M9]. rewrite P in *.
        constructor; cbn [st pn rds live due busy views deads olds idle negb]; auto.
      + exists s, ONone, a. split; [reflexivity|]. split; [|exact M].
        assert (E : a = {| live := live a; due := due a; busy := busy a; views := views a |}) by now destruct a. rewrite E at 2. apply a_main. auto.
    - destruct old as [i|]; cbn [free_tbl].
      + destruct (m_old _ _ _ _ M i) as [[t Et] Hne]; [now rewrite P|]. rewrite Et. cbn [rbind].
        eexists _, _, _. split; [reflexivity|]. split; [apply (a_main hash ttl dns_ttl a true); rewrite (m_busy _ _ _ _ M), P; discriminate|].
        destruct M as [M1 M2 M3 M4 M5 M6 M7 M8 M9]. rewrite P in *.
        assert (Hc : forall ids cs, good (st s) ids (cur (st s)) cs ->
          good {| sets := sets (st s); tbls := upd (tbls (st s)) i None; oldest := oldest (st s); cur := cur (st s); timer := timer (st s) |} ids (cur (st s)) cs).
        { intros ids cs G. eapply good_mono; [exact G|auto| |apply incl_refl]. intros j t0 Ej Hj. rewrite get_tbl_upd; auto. intros ->. congruence. }
        constructor; cbn [st pn rds live due busy views deads olds idle negb oldest cur timer]; auto; [discriminate|].
        intros r. specialize (M9 r). unfold ChalProofs3.rrel in *. destruct (nth_error (rds s) r) as [[h|]|] eqn:Er, (nth_error (views a) r) as [[v|]|]; auto.
        destruct M9 as [Hv [[-> G]|([] & _)]]; split; auto.
      + cbn [rbind]. eexists _, _, _. split; [reflexivity|]. split; [apply (a_main hash ttl dns_ttl a true); rewrite (m_busy _ _ _ _ M), P; discriminate|].
        destruct M as [M1 M2 M3 M4 M5 M6 M7 M8 M9]. rewrite P in *.
        constructor; cbn [st pn rds live due busy views deads olds idle negb oldest cur timer]; auto; [discriminate|].
        intros r. specialize (M9 r). unfold ChalProofs3.rrel in *. destruct (nth_error (rds s) r) as [[h|]|] eqn:Er, (nth_error (views a) r) as [[v|]|]; auto.
        destruct M9 as [Hv [[-> G]|([] & _)]]; split; auto.
    - assert (Nd := m_nodup _ _ _ _ M). assert (Fd := m_dead _ _ _ _ M). rewrite P in Nd, Fd. cbn [deads] in *.
      destruct (free_sets_ok dead (st s) Fd (NoDup_app_l _ _ Nd)) as (g' & E & E1 & E2 & E3 & E4 & E5). rewrite E. cbn [rbind].
      eexists _, _, _. split; [reflexivity|]. split; [apply (a_main hash ttl dns_ttl a false); auto|].
      assert (Hin : forall id, In id (oldest (st s)) -> ~ In id dead) by (intros id H H'; eapply NoDup_app_not; eauto).
      destruct M as [M1 M2 M3 M4 M5 M6 M7 M8 M9]. rewrite P in *.
      assert (Hc : forall cs, good (st s) (oldest (st s)) (cur (st s)) cs -> good g' (oldest (st s)) (cur (st s)) cs).
      { intros cs G. eapply good_mono; [exact G| | |apply incl_refl].
        - intros id x Hi Hx. now rewrite E5 by auto.
        - intros j t0 _ Hj. unfold get_tbl in *. now rewrite E1. }
      constructor; cbn [st pn rds live due busy views deads olds idle negb oldest cur timer]; rewrite ?E2, ?E3, ?E4; auto; try discriminate.
      + eapply sets_at_mono; [exact M1|]. intros id x Hi Hx. now rewrite E5 by auto.
      + cbn [app]. eapply NoDup_app_r; exact Nd.
      + intros r. specialize (M9 r). unfold ChalProofs3.rrel in *. destruct (nth_error (rds s) r) as [[h|]|] eqn:Er, (nth_error (views a) r) as [[v|]|]; auto.
        destruct M9 as [Hv [[-> G]|([] & _)]]; split; auto. left. split; auto. rewrite E2. apply Hc. exact G.
  Qed.

  Lemma nth_upd {A} (l : list A) r x r' : r < length l -> nth_error (upd l r x) r' = if r =? r' then Some x else nth_error l r'.
  Proof.
    intros H. destruct (r =? r') eqn:E; [apply Nat.eqb_eq in E; subst; now apply nth_error_upd_eq|]. apply Nat.eqb_neq in E. now apply nth_error_upd_neq.
  Qed.

  Lemma sim_begin s a r : sim s a -> exists s' o a', step s (RBegin r) = Ok (s', o) /\ astep a (RBegin r) o a' /\ sim s' a'.
  Proof.
    intros M. unfold ChalModel.step. assert (R := m_rds _ _ _ _ M r).
    destruct (nth_error (rds s) r) as [[h|]|] eqn:Er; unfold ChalProofs3.rrel in R; destruct (nth_error (views a) r) as [[v|]|] eqn:Ev; try contradiction.
    - exists s, ONone, a. split; [reflexivity|]. split; [apply a_begin_no; congruence|exact M].
    - eexists _, _, _. split; [reflexivity|]. split; [apply a_begin; auto|].
      assert (Lr : r < length (rds s)) by (apply nth_error_Some; congruence). assert (Lv : r < length (views a)) by (apply nth_error_Some; congruence).
      unfold set_rd. rewrite (proj2 (Nat.ltb_lt _ _) Lr).
      destruct M as [M1 M2 M3 M4 M5 M6 M7 M8 M9].
      constructor; cbn [st pn rds live due busy views]; auto.
      intros r'. rewrite !nth_upd by auto. destruct (r =? r'); [|apply M9]. cbn. split; auto.
    - exists s, ONone, a. split; [reflexivity|]. split; [apply a_begin_no; congruence|exact M].
  Qed.

  Lemma sim_look s a r q : sim s a -> (exists n, struct_name n /\ q = dname n true) ->
    exists s' o a', step s (RLook r q) = Ok (s', o) /\ astep a (RLook r q) o a' /\ sim s' a'.
  Proof.
    intros M (n & Hn & ->). unfold ChalModel.step. assert (R := m_rds _ _ _ _ M r).
    destruct (nth_error (rds s) r) as [[h|]|] eqn:Er; unfold ChalProofs3.rrel in R; destruct (nth_error (views a) r) as [[v|]|] eqn:Ev; try contradiction.
    - destruct R as [Hv R]. assert (G : exists ids, good (st s) ids h (map mk (all_chals v))) by (destruct R as [[_ G]|(_ & _ & G)]; eauto).
      destruct G as [ids G]. rewrite (find_ok hash dns_ttl (st s) ids h (all_chals v) n G (ok_all _ Hv) Hn). cbn [rbind].
      eexists _, _, _. split; [reflexivity|]. split; [apply a_look; auto|exact M].
    - exists s, ONone, a. split; [reflexivity|]. split; [apply a_look_no; congruence|exact M].
    - exists s, ONone, a. split; [reflexivity|]. split; [apply a_look_no; congruence|exact M].
  Qed.

  Lemma sim_end s a r : sim s a -> exists s' o a', step s (REnd r) = Ok (s', o) /\ astep a (REnd r) o a' /\ sim s' a'.
  Proof.
    intros M. unfold ChalModel.step.
    assert (Hlen : r < length (rds s) <-> r < length (views a)).
    { assert (R := m_rds _ _ _ _ M r). rewrite <- !nth_error_Some. unfold ChalProofs3.rrel in R.
      destruct (nth_error (rds s) r) as [[h|]|], (nth_error (views a) r) as [[v|]|]; try contradiction; split; congruence. }
    set (pn' := match pn s with Waiting on old dead => _ | p => p end).
    assert (D : deads pn' = deads (pn s)) by (unfold pn'; now destruct (pn s)).
    assert (O : olds pn' = olds (pn s)) by (unfold pn'; now destruct (pn s)).
    assert (I0 : idle pn' = idle (pn s)) by (unfold pn'; now destruct (pn s)).
    assert (Mo : forall r', r' <> r -> may_old (pn s) r' -> may_old pn' r').
    { intros r' Hr. unfold pn'. destruct (pn s); cbn; auto. intros Hi. apply filter_In. split; auto. apply negb_true_iff. now apply Nat.eqb_neq. }
    assert (RR : forall r', r' <> r -> rrel (st s) pn' r' (nth_error (rds s) r') (nth_error (views a) r')).
    { intros r' Hr. assert (R := m_rds _ _ _ _ M r'). unfold ChalProofs3.rrel in *.
      destruct (nth_error (rds s) r') as [[h|]|], (nth_error (views a) r') as [[v|]|]; auto.
      destruct R as [Hv [Hl|(Hm & Ho & G)]]; split; auto. right. rewrite O, D. auto. }
    destruct M as [M1 M2 M3 M4 M5 M6 M7 M8 M9].
    destruct (lt_dec r (length (views a))) as [L|L].
    - eexists _, _, _. split; [reflexivity|]. split; [now apply a_end|].
      unfold set_rd. rewrite (proj2 (Nat.ltb_lt _ _) (proj2 Hlen L)).
      constructor; cbn [st pn rds live due busy views]; rewrite ?D, ?O, ?I0; auto.
      intros r'. rewrite !nth_upd by tauto. destruct (r =? r') eqn:E; [exact I|]. apply Nat.eqb_neq in E. apply RR. auto.
    - eexists _, _, _. split; [reflexivity|]. split; [apply a_end_no; lia|].
      unfold set_rd. destruct (r <? length (rds s)) eqn:E; [apply Nat.ltb_lt in E; tauto|].
      constructor; cbn [st pn rds live due busy views]; rewrite ?D, ?O, ?I0; auto.
      intros r'. destruct (Nat.eq_dec r' r) as [->|]; [|auto].
      apply Nat.ltb_ge in E. rewrite !(proj2 (nth_error_None _ _)) by lia. exact I.
  Qed.

  Lemma sim_step s a e : sim s a -> ev_ok e -> exists s' o a', step s e = Ok (s', o) /\ astep a e o a' /\ sim s' a'.
  Proof.
    intros M H. destruct e; cbn in H.
    - now apply sim_create. - now apply sim_timer. - now apply sim_flush. - now apply sim_main.
    - now apply sim_begin. - now apply sim_look. - now apply sim_end.
  Qed.

  Lemma sim_steps es : forall s a, sim s a -> Forall ev_ok es ->
    exists s' os a', steps hash ttl dns_ttl s es = Ok (s', os) /\ asteps hash ttl dns_ttl a es os a' /\ sim s' a'.
  Proof.
    induction es as [|e es IH]; intros s a M F.
    - exists s, [], a. split; [reflexivity|]. split; [constructor|exact M].
    - inversion F; subst. destruct (sim_step s a e M H1) as (s1 & o & a1 & E1 & A1 & M1).
      destruct (IH s1 a1 M1 H2) as (s2 & os & a2 & E2 & A2 & M2).
      exists s2, (o :: os), a2. cbn [steps]. rewrite E1. cbn [rbind]. rewrite E2. cbn [rbind]. split; [reflexivity|]. split; [econstructor; eauto|exact M2].
  Qed.
End Sim.
