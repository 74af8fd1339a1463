(** Proofs about the health checks: the TCP checks. *)
From Verif Require Import Base ProbeModel ProbeSpec ProbeProofs2.
Local Open Scope N_scope.

Ltac tfields := cbn [tnow connecting tsock cw ttw tiw act pend timer_start timer_stop rep due tact tpend io_start io_stop io_take io0].

Section Tcp.
  Variable svc : tcp_svc.

  Definition tclock (t0 now : N) (t : timer) : Prop :=
    rep t = 0 /\ due t = t0 + t_timeout svc /\
    ((tact t = true /\ tpend t = false) \/ (tact t = false /\ tpend t = true /\ due t <= now)).

  Inductive tphase (m : tmon) : list (N * effect) -> Prop :=
  | tp_wait : connecting m = false -> tsock m = None -> cw m = io0 -> stopped (ttw m) -> tphase m []
  | tp_conn t0 fd : connecting m = true -> tsock m = Some fd -> act (cw m) = true ->
      tclock t0 (tnow m) (ttw m) -> t0 <= tnow m -> tphase m [(t0, Socket (Some fd))].

  Definition tgoes (o : list (N * effect)) (m' : tmon) (o1 : list (N * effect)) : Prop :=
    tphase m' (o ++ o1) \/
    (tphase m' [] /\ exists r, tcp_check svc (o ++ o1) r).

  Lemma tphase_later m m' o : tphase m o -> connecting m' = connecting m -> tsock m' = tsock m ->
    (cw m' = cw m \/ (act (cw m) = true /\ act (cw m') = true)) ->
    (ttw m' = ttw m \/ ttw m' = timer_expire (tnow m) (ttw m)) -> tnow m <= tnow m' -> tphase m' o.
  Proof.
    intros P E1 E2 E6 E8 L.
    assert (CK : forall t0, tclock t0 (tnow m) (ttw m) -> tclock t0 (tnow m') (ttw m')).
    { intros t0 (R & D & C). destruct E8 as [->| ->].
      - split; [auto|]. split; [auto|]. destruct C as [C|(C1 & C2 & C3)]; [auto|]. right. repeat split; auto. lia.
      - unfold timer_expire. destruct C as [(C1 & C2)|(C1 & C2 & C3)]; rewrite C1; cbn [andb].
        + destruct (due (ttw m) <=? tnow m) eqn:El.
          * apply N.leb_le in El. rewrite R, N.eqb_refl. cbn. repeat split; auto. right. repeat split; auto. cbn. lia.
          * split; [auto|]. split; [auto|]. auto.
        + split; [auto|]. split; [auto|]. right. repeat split; auto. lia. }
    inversion P; subst.
    - apply tp_wait; try congruence.
      + destruct E6 as [->|(X & _)]; [auto|]. rewrite H1 in X. discriminate.
      + destruct E8 as [->| ->]; auto. destruct H2 as [X1 X2]. unfold timer_expire. rewrite X1. cbn [andb]. now split.
    - apply tp_conn; try congruence; auto; try lia. destruct E6 as [->|(_ & X)]; auto.
  Qed.

  Lemma t_interval_ok fd c m o : tphase m o ->
    exists m' o1, tcp_interval_cb svc fd c m = Ok (m', o1) /\ tgoes o m' (map (pair (tnow m)) o1) /\ tiw m' = tiw m /\ tnow m' = tnow m /\
      (o = [] -> exists rest, o1 = Socket fd :: rest).
  Proof.
    intros P. unfold tcp_interval_cb. inversion P; subst.
    - rewrite H, H0, H1. destruct H2 as [T1 T2]. rewrite T1, T2.
      cbn [negb is_none rassert act io0 andb]. destruct fd as [s|]; [destruct c|].
      + eexists _, _. split; [reflexivity|]. split; [|eauto]. right. split; [assumption|].
        exists (Some true). apply (tcp_done svc (tnow m) (tnow m) s [(tnow m, Connected s true)] true); try lia; auto.
        * repeat constructor; cbn; lia.
        * split; auto. intros _. apply happened_cons. auto.
      + eexists _, _. split; [reflexivity|]. split; [|eauto]. left. cbn [app map].
        apply tp_conn; tfields; auto; try lia. repeat split; auto.
      + eexists _, _. split; [reflexivity|]. split; [|eauto]. right. split; [assumption|].
        exists (Some false). apply (tcp_done svc (tnow m) (tnow m) s [(tnow m, Connected s false)] false); try lia; auto.
        * repeat constructor; cbn; lia.
        * split; [discriminate|]. intros Z. apply happened_cons in Z as [Z|Z]; [discriminate|]. now apply happened_nil in Z.
        * intros _. left. apply happened_cons. auto.
      + eexists _, _. split; [reflexivity|]. split; [|eauto]. right. split; [assumption|]. exists None. constructor.
    - rewrite H. exists m, []. split; [reflexivity|]. split; [|repeat split; auto; discriminate]. left. assumption.
  Qed.

  Lemma t_connect_ok so m o : tphase m o -> act (cw m) = true ->
    exists m' o1, tcp_connect_cb so m = Ok (m', o1) /\ tgoes o m' (map (pair (tnow m)) o1) /\ tiw m' = tiw m /\ tnow m' = tnow m.
  Proof.
    intros P A. unfold tcp_connect_cb. inversion P; subst.
    { rewrite H1 in A. discriminate. }
    rewrite H, H0, A.
    assert (TT : tact (ttw m) || tpend (ttw m) = true) by (destruct H2 as (_ & _ & [(-> & _)|(_ & -> & _)]); auto using orb_true_r).
    rewrite TT. cbn [rassert]. eexists _, _. split; [reflexivity|]. split; [|auto]. right. split.
    - apply tp_wait; tfields; auto. now split.
    - exists (Some (negb so)).
      apply (tcp_done svc t0 (tnow m) fd [(tnow m, Connected fd (negb so)); (tnow m, Shut fd)] (negb so)); try lia; auto.
      + repeat constructor; cbn; lia.
      + rewrite !happened_cons. split; [intros ->; auto|].
        intros [[= Z]|[Z|Z]]; [auto|discriminate|now apply happened_nil in Z].
      + intros ->. left. apply happened_cons. auto.
  Qed.

  Definition with_ttw (t : timer) (m : tmon) : tmon := TMon (tnow m) (connecting m) (tsock m) (cw m) t (tiw m).

  Lemma t_timeout_ok m o : tphase m o -> tpend (ttw m) = true ->
    exists m' fd, tcp_timeout_cb (with_ttw (timer_take (ttw m)) m) = Ok (m', [Shut fd; Closed fd; Report false]) /\
      tsock m = Some fd /\
      tgoes o m' (map (pair (tnow m)) [Shut fd; Closed fd; Report false]) /\ tiw m' = tiw m /\ tnow m' = tnow m /\ tphase m' [].
  Proof.
    intros P A. unfold tcp_timeout_cb, with_ttw. inversion P; subst.
    { destruct H2 as [_ T]. congruence. }
    tfields. rewrite H, H0, H1. cbn [rassert].
    destruct H2 as (R & D & [(_ & T)|(T & _ & E)]); [congruence|].
    assert (P0 : tphase (TMon (tnow m) false None (io_stop (cw m)) (timer_take (ttw m)) (tiw m)) []).
    { apply tp_wait; tfields; auto. now split. }
    eexists _, fd. split; [reflexivity|]. split; [reflexivity|]. split; [|auto]. right. split; [exact P0|].
    exists (Some false). apply (tcp_done svc t0 (tnow m) fd [(tnow m, Shut fd)] false); auto.
    - repeat constructor; cbn; lia.
    - split; [discriminate|]. intros Z. apply happened_cons in Z as [Z|Z]; [discriminate|]. now apply happened_nil in Z.
    - intros _. right. lia.
  Qed.

  Lemma t_idle_phase m o : tphase m o -> tcp_idle m = true -> o = [] /\ tsock m = None.
  Proof.
    intros P I. unfold tcp_idle in I. apply negb_true_iff in I.
    repeat (apply orb_false_iff in I as [I ?]). inversion P; subst; auto; congruence.
  Qed.

  Lemma t_step_ok e m o : tphase m o ->
    exists m' o1, tcp_step svc e m = Ok (m', o1) /\ tgoes o m' (map (pair (tnow m)) o1) /\ tnow m <= tnow m'.
  Proof.
    intros P.
    assert (Quiet : forall m', tphase m' o -> tgoes o m' (map (pair (tnow m)) [])).
    { intros m' H. left. cbn [map]. now rewrite app_nil_r. }
    assert (Same : exists m' o1, Ok (m, @nil effect) = Ok (m', o1) /\ tgoes o m' (map (pair (tnow m)) o1) /\ tnow m <= tnow m').
    { exists m, []. split; [reflexivity|]. split; [auto|lia]. }
    destruct e; cbn [tcp_step]; try exact Same.
    - eexists _, _. split; [reflexivity|]. split; [|tfields; lia]. apply Quiet. eapply tphase_later; eauto. tfields. lia.
    - eexists _, _. split; [reflexivity|]. split; [|tfields; lia]. apply Quiet. eapply tphase_later; eauto. tfields. lia.
    - eexists _, _. split; [reflexivity|]. split; [|tfields; lia]. apply Quiet. eapply tphase_later; eauto. tfields. lia.
    - eexists _, _. split; [reflexivity|]. split; [|tfields; lia]. apply Quiet. eapply tphase_later; eauto; [|tfields; lia].
      tfields. unfold io_ready. destruct (act (cw m)) eqn:A; auto.
    - destruct (tpend (tiw m)) eqn:T; [|exact Same].
      match goal with |- context [tcp_interval_cb svc fd c ?x] => destruct (t_interval_ok fd c x o) as (m' & o1 & E & G & _ & N & _) end.
      + eapply tphase_later; eauto. tfields. lia.
      + rewrite E. exists m', o1. split; [reflexivity|]. split; [exact G|]. cbn [tnow] in N. lia.
    - destruct (pend (cw m)) eqn:T; [|exact Same].
      assert (A : act (cw m) = true).
      { inversion P; subst; auto; rewrite ?H1 in T; discriminate. }
      match goal with |- context [tcp_connect_cb so_error ?x] => destruct (t_connect_ok so_error x o) as (m' & o1 & E & G & _ & N) end.
      + eapply tphase_later; eauto. tfields. lia.
      + exact A.
      + rewrite E. exists m', o1. split; [reflexivity|]. split; [exact G|]. cbn [tnow] in N. lia.
    - destruct (tpend (ttw m)) eqn:T; [|exact Same].
      destruct (t_timeout_ok m o P T) as (m' & fd & E & _ & G & _ & N & _).
      unfold with_ttw in E. rewrite E. eexists m', _. split; [reflexivity|]. split; [exact G|lia].
    - destruct (tcp_idle m) eqn:I; [|exact Same].
      destruct (t_idle_phase m o P I) as [-> S]. rewrite S. cbn [is_none rassert].
      eexists _, _. split; [reflexivity|]. split; [|tfields; lia]. apply Quiet. eapply tphase_later; eauto. tfields. lia.
    - destruct (tcp_idle m) eqn:I; [|exact Same].
      destruct (t_idle_phase m o P I) as [-> S]. rewrite S. cbn [is_none rassert].
      eexists _, _. split; [reflexivity|]. split; [|tfields; lia]. apply Quiet. eapply tphase_later; eauto. tfields. lia.
  Qed.

  Lemma tphase0 : tphase tcp_mon0 [].
  Proof. apply tp_wait; try reflexivity. split; reflexivity. Qed.

  Lemma t_run_snoc es e : forall m m1 h m2 o1, tcp_run svc es m = Ok (m1, h) -> tcp_step svc e m1 = Ok (m2, o1) ->
    tcp_run svc (es ++ [e]) m = Ok (m2, h ++ map (pair (tnow m1)) o1).
  Proof.
    induction es as [|x es IH]; intros m m1 h m2 o1 E E2; cbn [app tcp_run] in *.
    - injection E as <- <-. rewrite E2. cbn. now rewrite app_nil_r.
    - destruct (tcp_step svc x m) as [[a b]|]; [|discriminate]. cbn [rbind] in *.
      destruct (tcp_run svc es a) as [[c d]|] eqn:Er; [|discriminate]. cbn [rbind] in *.
      injection E as <- <-. rewrite (IH _ _ _ _ _ Er E2). cbn [rbind]. now rewrite app_assoc.
  Qed.

  Lemma t_run_ok es : forall m o, tphase m o ->
    exists m' h rs h' o', tcp_run svc es m = Ok (m', h) /\ o ++ h = h' ++ o' /\ checks (tcp_check svc) h' rs /\ tphase m' o' /\ tnow m <= tnow m'.
  Proof.
    induction es as [|e es IH] using rev_ind; intros m o P.
    - exists m, [], [], [], o. cbn. rewrite app_nil_r. repeat split; auto; [constructor|lia].
    - destruct (IH m o P) as (m1 & h & rs & h' & o' & E & S & C & P1 & L).
      destruct (t_step_ok e m1 o' P1) as (m2 & o1 & E2 & G & L2).
      pose proof (t_run_snoc _ _ _ _ _ _ _ E E2) as R.
      destruct G as [G|(G & r & K)].
      + exists m2, (h ++ map (pair (tnow m1)) o1), rs, h', (o' ++ map (pair (tnow m1)) o1).
        split; [exact R|]. split; [now rewrite !app_assoc, S|]. split; [auto|]. split; [auto|lia].
      + exists m2, (h ++ map (pair (tnow m1)) o1), (rs ++ [r]), (h' ++ (o' ++ map (pair (tnow m1)) o1)), [].
        split; [exact R|]. split; [now rewrite !app_assoc, S, app_nil_r|]. split; [now constructor|]. split; [auto|lia].
  Qed.

  Lemma tcp_ends m t0 fd o : tphase m ((t0, Socket (Some fd)) :: o) ->
    let T := N.max (tnow m) (t0 + t_timeout svc) in
    exists m', tcp_run svc [Tick (t0 + t_timeout svc - tnow m); Expire_timeout; Run_timeout] m
               = Ok (m', [(T, Shut fd); (T, Closed fd); (T, Report false)]) /\ tsock m' = None.
  Proof.
    intros P T. inversion P as [|t0' fd' C1 C2 C3 H5 C4]; subst. cbn [tcp_run tcp_step rbind map app]. tfields.
    assert (NA : tnow m + (t0 + t_timeout svc - tnow m) = T) by (unfold T; lia). rewrite NA.
    assert (TP : tpend (timer_expire T (ttw m)) = true).
    { destruct H5 as (R & D & [(A & B)|(A & B & C)]); unfold timer_expire; rewrite A; cbn [andb].
      - replace (due (ttw m) <=? T) with true by (symmetry; apply N.leb_le; rewrite D; unfold T; lia).
        now rewrite R.
      - exact B. }
    rewrite TP. unfold tcp_timeout_cb. tfields. rewrite C1, C2, C3. cbn [rassert rbind map app]. eexists. split; reflexivity.
  Qed.

  Hypothesis interval_some : 0 < t_interval svc.

  Definition tarmed (m : tmon) : Prop :=
    tact (tiw m) = true /\ rep (tiw m) = t_interval svc /\ due (tiw m) <= tnow m + t_interval svc.

  Lemma tarmed_step e m o m' o1 : tphase m o -> tarmed m -> tcp_step svc e m = Ok (m', o1) -> tarmed m'.
  Proof.
    intros P (A & R & D) E.
    assert (I : tcp_idle m = false).
    { unfold tcp_idle. rewrite A. now rewrite !orb_true_r. }
    assert (Keep : tiw m' = tiw m -> tnow m' = tnow m -> tarmed m').
    { intros E1 E2. unfold tarmed. rewrite E1, E2. auto. }
    destruct e; cbn [tcp_step] in E; rewrite ?I in E; try (injection E as <- <-; now apply Keep).
    - injection E as <- <-. unfold tarmed. tfields. repeat split; auto; lia.
    - injection E as <- <-. unfold tarmed. tfields. unfold timer_expire. rewrite A. cbn [andb].
      destruct (due (tiw m) <=? tnow m) eqn:L; [|auto]. apply N.leb_le in L.
      destruct (rep (tiw m) =? 0) eqn:Z.
      + apply N.eqb_eq in Z. lia.
      + cbn. repeat split; auto. lia.
    - destruct (tpend (tiw m)) eqn:T; [|injection E as <- <-; now apply Keep].
      match type of E with tcp_interval_cb svc fd c ?x = _ => destruct (t_interval_ok fd c x o) as (m2 & o2 & E2 & _ & W & N & _) end.
      + eapply tphase_later; eauto. tfields. lia.
      + rewrite E2 in E. injection E as <- <-. cbn [tiw tnow] in *. unfold tarmed. rewrite W, N. auto.
    - destruct (pend (cw m)) eqn:T; [|injection E as <- <-; now apply Keep].
      assert (Aw : act (cw m) = true) by (inversion P; subst; auto; match goal with H : cw m = io0 |- _ => rewrite H in T; discriminate end).
      match type of E with tcp_connect_cb so_error ?x = _ => destruct (t_connect_ok so_error x o) as (m2 & o2 & E2 & _ & W & N) end.
      + eapply tphase_later; eauto. tfields. lia.
      + exact Aw.
      + rewrite E2 in E. injection E as <- <-. now apply Keep.
    - destruct (tpend (ttw m)) eqn:T; [|injection E as <- <-; now apply Keep].
      destruct (t_timeout_ok m o P T) as (m2 & fd & E2 & _ & _ & W & N & _).
      unfold with_ttw in E2. rewrite E2 in E. injection E as <- <-. now apply Keep.
  Qed.

  Lemma tarmed_run es : forall m o m' h, tphase m o -> tarmed m -> tcp_run svc es m = Ok (m', h) -> tarmed m'.
  Proof.
    induction es as [|e es IH]; intros m o m' h P A E; cbn [tcp_run] in E.
    - injection E as <- <-. assumption.
    - destruct (t_step_ok e m o P) as (m1 & o1 & E1 & G & _). rewrite E1 in E. cbn [rbind] in E.
      destruct (tcp_run svc es m1) as [[m2 h2]|] eqn:E2; [|discriminate]. injection E as <- <-.
      pose proof (tarmed_step _ _ _ _ _ P A E1) as A1.
      destruct G as [P1|(P1 & _)]; eapply IH; eauto.
  Qed.

  Lemma t_start_arms m o stagger : tphase m o -> tcp_idle m = true -> stagger <= t_interval svc ->
    exists m', tcp_step svc (Start stagger) m = Ok (m', []) /\ tarmed m' /\ tphase m' [].
  Proof.
    intros P I L. cbn [tcp_step]. rewrite I. destruct (t_idle_phase m o P I) as [-> S]. rewrite S. cbn [is_none rassert].
    eexists. split; [reflexivity|]. split.
    - unfold tarmed. tfields. repeat split; auto. lia.
    - eapply tphase_later; eauto. tfields. lia.
  Qed.

  Lemma t_goes_on m fd c : tphase m [] -> tarmed m ->
    exists m' h, tcp_run svc [Tick (t_interval svc); Expire_interval; Run_interval fd c] m
                 = Ok (m', (tnow m + t_interval svc, Socket fd) :: h).
  Proof.
    intros P (A & R & D). cbn [tcp_run tcp_step rbind map app tiw tnow].
    unfold timer_expire. rewrite A, R. cbn [andb].
    replace (due (tiw m) <=? tnow m + t_interval svc) with true by (symmetry; now apply N.leb_le).
    replace (t_interval svc =? 0) with false by (symmetry; apply N.eqb_neq; lia). tfields.
    match goal with |- context [tcp_interval_cb svc fd c ?x] => destruct (t_interval_ok fd c x []) as (m' & o1 & E & _ & _ & _ & S) end.
    - eapply tphase_later; eauto. tfields. lia.
    - rewrite E. destruct (S eq_refl) as (rest & ->). cbn [rbind map app]. eauto.
  Qed.
End Tcp.
