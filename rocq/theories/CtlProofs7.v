(** The zone data that queries use, and what a client is told about a reload,
    in every history. *)
From Coq Require Import Lia.
From Verif Require Import Base CtlModel CtlSpec CtlProofs CtlProofs2 CtlProofs3 CtlProofs4 CtlProofs5 CtlProofs6.
Local Open Scope N_scope.

(** What a client who asked at [t] may be told: success only if the data now served
    is from a load begun no earlier than the request, failure only if such a
    load has failed. *)
Definition truth (s : css) (t : nat) (r : N) : Prop :=
  (r = RESP_ACK -> (t <= s_since s (s_root s))%nat) /\ (r = RESP_FAIL -> exists b, (t <= b)%nat /\ In (b, true) (s_loads s)).
Lemma truth_step s s' : (s_since s (s_root s) <= s_since s' (s_root s'))%nat -> incl (s_loads s) (s_loads s') -> forall t r, truth s t r -> truth s' t r.
Proof. intros A B t r (H1 & H2). split; [intros Q; specialize (H1 Q); lia|]. intros Q. destruct (H2 Q) as (b & X & Y). exists b. auto. Qed.

Lemma zinv_go s s' th p' : zinv s -> s_threads s (s_tid s) = Some th -> bg s s' ->
  s_threads s' = set (s_threads s) (s_tid s) (Some {| t_start := t_start th; t_phase := p' |}) -> s_nthreads s' = s_nthreads s -> s_tid s' = s_tid s ->
  zphase s' (t_start th) p' -> (s_since s' (s_root s') <= t_start th)%nat -> In (s_root s') (s_live s') -> (forall t, In t (s_live s') -> (t < s_ntrees s')%nat) ->
  (forall k t, In (k, Some t) (s_open s') -> t = s_root s' \/ p' = TAssigned t \/ exists w, p' = TSync t w /\ In k w) -> zinv (tick s').
Proof.
  intros Z Et (Hc & Hl & _ & Re & _) T1 T2 T3 Hp Hs Hr Hv Hu. unfold rest in Re. injection Re as Nw _ Qu A P _ _ _.
  destruct Z as [D0 D1 D2 D3 _ D5 D6 D7 D8 D9 D10 D11].
  assert (To : forall k t, s_threads s' k = Some t -> exists t0, s_threads s k = Some t0 /\ t_start t0 = t_start t /\ (k <> s_tid s -> t_phase t = TJoined)).
  { intros k t H. rewrite T1 in H. unfold set in H. destruct (k =? s_tid s)%nat eqn:X; [apply Nat.eqb_eq in X; subst; injection H as <-; exists th; split; [exact Et|]; split; [reflexivity|contradiction]|]. apply Nat.eqb_neq in X. exists t. split; [exact H|]. split; [reflexivity|]. now apply (D2 k). }
  constructor; cbn [tick with_main s_threads s_nthreads s_tid s_now s_root s_live s_ntrees s_since s_loads s_open s_queued s_active s_pid s_log]; rewrite ?T2, ?T3, ?Nw, ?A, ?Qu, ?Hl, ?P; auto.
  - intros i t I H. apply (D0 i t I) in H. lia.
  - intros k. rewrite D1, T1. unfold set. destruct (k =? s_tid s)%nat eqn:X; [apply Nat.eqb_eq in X; subst; split; congruence|reflexivity].
  - intros k t H Nk. destruct (To k t H) as (_ & _ & _ & X). auto.
  - intros k t H. destruct (To k t H) as (t0 & X1 & X2 & _). rewrite <- X2. apply D3 in X1. lia.
  - exists {| t_start := t_start th; t_phase := p' |}. split; [rewrite T1; apply set_same|]. split; [|exact Hs]. cbn [t_start t_phase]. destruct p'; exact Hp.
  - intros k t H. destruct (Hu k t H) as [X|X]; [now left|right]. exists {| t_start := t_start th; t_phase := p' |}. split; [rewrite T1; apply set_same|exact X].
  - intros i t I H k t' Hk. destruct (To k t' Hk) as (t0 & X1 & X2 & _). rewrite <- X2. now apply (D9 i t I H k).
  - intros i t I H k t' Hk. destruct (To k t' Hk) as (t0 & X1 & X2 & _). rewrite <- X2. now apply (D10 i t I H k).
Qed.

Lemma bg_busy s s' : bg s s' -> busy s -> busy s'.
Proof. intros (_ & _ & _ & Re & _). unfold rest in Re. injection Re as _ _ _ A P _ _ _. unfold busy. now rewrite A, P. Qed.
Lemma flags_eq s s' f : s_async s' = s_async s -> s_join s' = s_join s -> flags s f -> flags s' f.
Proof. unfold flags. now intros -> ->. Qed.

Lemma zinv_thread s k f s' : zinv s -> thread_step s k f = Ok s' -> zinv (tick s') /\ (s_since s (s_root s) <= s_since s' (s_root s'))%nat /\ incl (s_loads s) (s_loads s').
Proof.
  intros Z H. assert (B := other_bg s (EThread k f) s' H). assert (Zq : quiet s s -> s_stop s = false -> zinv (tick s)) by (intros; now apply (zinv_quiet s)).
  assert (Same : s' = s -> zinv (tick s') /\ (s_since s (s_root s) <= s_since s' (s_root s'))%nat /\ incl (s_loads s) (s_loads s')).
  { intros ->. split; [|split; [lia|apply incl_refl]]. destruct Z as [D0 D1 D2 D3 D4 D5 D6 D7 D8 D9 D10 D11]. constructor; cbn; auto.
    - intros i t I X. apply (D0 i t I) in X. lia.
    - intros k0 t X. apply D3 in X. lia. }
  unfold thread_step in H. destruct (s_threads s k) as [th|] eqn:Ek; [|ok1 H; auto].
  destruct (Nat.eq_dec k (s_tid s)) as [->|Nk]; [|rewrite (z_old s Z k th Ek Nk) in H; ok1 H; auto].
  assert (Z2 := Z). destruct Z2 as [D0 D1 D2 D3 (th' & E1 & E2 & E3) D5 D6 D7 D8 D9 D10 D11]. rewrite Ek in E1. injection E1 as <-.
  assert (U : (forall t, t_phase th <> TAssigned t) -> (forall t w, t_phase th <> TSync t w) -> forall k t, In (k, Some t) (s_open s) -> t = s_root s).
  { intros X1 X2 k t Hk. destruct (D7 k t Hk) as [X|(t2 & Y1 & Y2)]; [exact X|]. rewrite Ek in Y1. injection Y1 as <-. destruct Y2 as [Y2|(w & Y2 & _)]; [now apply X1 in Y2|now apply X2 in Y2]. }
  destruct (t_phase th) as [| |n|n old|old|old w| |g|g|] eqn:Ph; cbn [zphase] in E2.
  - destruct E2 as (Bs & Fl). destruct f; ok1 H; subst s'.
    + split; [|split; [cbn; lia|cbn; now apply incl_appl, incl_refl]]. eapply (zinv_go s _ th TFailed Z Ek B); try reflexivity; auto.
      * cbn [zphase]. split; [now apply (bg_busy s)|]. split; [exact Fl|]. cbn. apply in_or_app. right. now left.
      * intros k t Hk. left. apply (U ltac:(discriminate) ltac:(discriminate) k t Hk).
    + assert (Nr : s_root s <> s_ntrees s) by (intros Q; apply D6 in D5; lia).
      split; [|split; [cbn; rewrite set_other by exact Nr; lia|cbn; now apply incl_appl, incl_refl]]. eapply (zinv_go s _ th (TLoaded (s_ntrees s)) Z Ek B); try reflexivity; auto.
      * cbn [zphase]. split; [now apply (bg_busy s)|]. split; [exact Fl|]. cbn. split; [now left|]. split; [congruence|apply set_same].
      * cbn. now rewrite set_other.
      * cbn. now right.
      * cbn. intros t [<-|Q]; [lia|]. apply D6 in Q. lia.
      * intros k t Hk. left. apply (U ltac:(discriminate) ltac:(discriminate) k t Hk).
  - destruct E2 as (Bs & (Fa & Fj) & In1). ok1 H. subst s'. split; [|split; [cbn; lia|cbn; apply incl_refl]]. eapply (zinv_go s _ th (TNotified true) Z Ek B); try reflexivity; auto.
    * cbn [zphase]. split; [now apply (bg_busy s)|]. split; [unfold flags; cbn; now rewrite Fj|exact In1].
    * intros k t Hk. left. apply (U ltac:(discriminate) ltac:(discriminate) k t Hk).
  - destruct E2 as (Bs & Fl & Rs). ok1 H. subst s'. split; [|split; [cbn; lia|cbn; apply incl_refl]]. eapply (zinv_go s _ th (TOld n (s_root s)) Z Ek B); try reflexivity; auto.
    * cbn [zphase]. split; [now apply (bg_busy s)|]. split; [exact Fl|]. cbn. repeat (split; [apply Rs|]). reflexivity.
    * intros k t Hk. left. apply (U ltac:(discriminate) ltac:(discriminate) k t Hk).
  - destruct E2 as (Bs & Fl & L1 & N1 & S1 & ->). ok1 H. subst s'. split; [|split; [cbn; lia|cbn; apply incl_refl]]. eapply (zinv_go s _ th (TAssigned (s_root s)) Z Ek B); try reflexivity; auto.
    * cbn [zphase]. split; [now apply (bg_busy s)|]. split; [exact Fl|]. cbn. repeat (split; [auto|]). exact D5.
    * cbn. lia.
    * intros k t Hk. right. left. f_equal. symmetry. apply (U ltac:(discriminate) ltac:(discriminate) k t Hk).
  - destruct E2 as (Bs & Fl & Rs). ok1 H. subst s'. split; [|split; [cbn; lia|cbn; apply incl_refl]]. eapply (zinv_go s _ th (TSync old _) Z Ek B); try reflexivity; auto.
    * cbn [zphase]. split; [now apply (bg_busy s)|]. split; [exact Fl|]. exact Rs.
    * intros k t Hk. destruct (D7 k t Hk) as [X|(t2 & Y1 & Y2)]; [now left|]. rewrite Ek in Y1. injection Y1 as <-. rewrite Ph in Y2. destruct Y2 as [Y2|(w & Y2 & _)]; [|discriminate]. injection Y2 as ->. right. right. eexists. split; [reflexivity|]. apply in_map_iff. now exists (k, Some t).
  - destruct E2 as (Bs & Fl & S1 & N1 & L1). destruct (forallb _ _) eqn:Fb; [|ok1 H; auto]. ok1 H. ok1 H. subst s'. split; [|split; [cbn; lia|cbn; apply incl_refl]]. eapply (zinv_go s _ th TDestroyed Z Ek B); try reflexivity; auto.
    * cbn [zphase]. split; [now apply (bg_busy s)|]. split; [exact Fl|]. exact S1.
    * cbn. apply filter_In. split; [exact D5|]. apply Bool.negb_true_iff, Nat.eqb_neq. congruence.
    * cbn. intros t Q. apply filter_In in Q. now apply D6.
    * intros k t Hk. left. destruct (D7 k t Hk) as [X|(t2 & Y1 & Y2)]; [exact X|]. rewrite Ek in Y1. injection Y1 as <-. rewrite Ph in Y2. destruct Y2 as [Y2|(w' & Y2 & Y3)]; [discriminate|]. injection Y2 as -> ->.
      rewrite forallb_forall in Fb. specialize (Fb _ Hk). apply Bool.negb_true_iff in Fb. cbn in Fb. apply existsb_eqb_false in Fb. contradiction.
  - destruct E2 as (Bs & (Fa & Fj) & S1). ok1 H. subst s'. split; [|split; [cbn; lia|cbn; apply incl_refl]]. eapply (zinv_go s _ th (TNotified false) Z Ek B); try reflexivity; auto.
    * cbn [zphase]. split; [now apply (bg_busy s)|]. split; [unfold flags; cbn; now rewrite Fj|exact S1].
    * intros k t Hk. left. apply (U ltac:(discriminate) ltac:(discriminate) k t Hk).
  - destruct E2 as (Bs & Fl & S1). ok1 H. subst s'. split; [|split; [cbn; lia|cbn; apply incl_refl]]. eapply (zinv_go s _ th (TExited g) Z Ek B); try reflexivity; auto.
    * cbn [zphase]. split; [now apply (bg_busy s)|]. split; [exact Fl|exact S1].
    * intros k t Hk. left. apply (U ltac:(discriminate) ltac:(discriminate) k t Hk).
  - ok1 H. auto.
  - ok1 H. auto.
Qed.

(** Queries only change which trees are in use. *)
Lemma zinv_open s o n : zinv s -> (forall k t, In (k, Some t) o -> In (k, Some t) (s_open s) \/ t = s_root s) -> zinv (tick (with_open s o n)).
Proof.
  intros [D0 D1 D2 D3 D4 D5 D6 D7 D8 D9 D10 D11] H. constructor; cbn; auto.
  - intros i t I X. apply (D0 i t I) in X. lia.
  - intros k t X. apply D3 in X. lia.
  - intros k t X. apply H in X. destruct X as [X|X]; [now apply D7|now left].
Qed.
Lemma zinv_other s e s' : zinv s -> is_main e = false -> other_step s e = Ok s' -> zinv (tick s') /\ (s_since s (s_root s) <= s_since s' (s_root s'))%nat /\ incl (s_loads s) (s_loads s').
Proof.
  intros Z M H. destruct e; try discriminate M; cbn in H.
  - now apply (zinv_thread s k fails).
  - ok1 H. subst s'. split; [|split; [cbn; lia|apply incl_refl]]. apply zinv_open; [exact Z|]. intros k t X. apply in_app_or in X. destruct X as [X|[X|[]]]; [now left|discriminate].
  - ok1 H. subst s'. split; [|split; [cbn; lia|apply incl_refl]]. apply zinv_open; [exact Z|]. intros j t X. apply in_map_iff in X. destruct X as ((a & b) & X & Y). cbn in X. destruct (a =? k)%nat; [injection X as <- <-; now right|injection X as -> ->; now left].
  - ok1 H. ok1 H. subst s'. split; [|split; [lia|apply incl_refl]]. assert (X := zinv_open s (s_open s) (s_nsect s) Z (fun _ _ h => or_introl h)). destruct X as [D0 D1 D2 D3 D4 D5 D6 D7 D8 D9 D10 D11]. constructor; assumption.
  - ok1 H. subst s'. split; [|split; [cbn; lia|apply incl_refl]]. apply zinv_open; [exact Z|]. intros j t X. apply filter_In in X. now left.
Qed.

Lemma zinv_join s : zinv s -> s_join s = false -> s_async s = true -> zinv (tick (with_threads s (s_threads s) (s_nthreads s) (s_tid s) false true)).
Proof.
  intros [D0 D1 D2 D3 (th & E1 & E2 & E3) D5 D6 D7 D8 D9 D10 D11] J A. constructor; cbn; auto.
  - intros i t I X. apply (D0 i t I) in X. lia.
  - intros k t X. apply D3 in X. lia.
  - exists th. split; [exact E1|]. split; [|exact E3]. assert (F : forall P : Prop, flags s false -> P) by (unfold flags; intros P (X & _); congruence).
    destruct (t_phase th); cbn [zphase] in *; try (apply F, E2); (split; [apply E2|split; [reflexivity|apply E2]]).
Qed.

Lemma zinv_init : zinv init.
Proof.
  constructor; cbn; auto; try lia; try discriminate; try contradiction.
  - intros k. destruct k; split; intros; try lia; try discriminate. destruct H. reflexivity.
  - intros k t H. destruct k; [injection H as <-; reflexivity|discriminate].
  - intros k t H. destruct k; [injection H as <-; cbn; lia|discriminate].
  - exists {| t_start := 0; t_phase := TJoined |}. repeat split; auto.
Qed.

Section Css.
  Variable fds : list N.
  Variables status_v status_d : N.
  Hypothesis Hfds : length fds <> 0%nat.
  Notation full := (full fds status_v status_d).
  Notation linv := (linv fds status_v status_d).
  Notation step_at := (step_at fds status_v status_d).
  Notation step := (step fds status_v status_d).
  Notation run := (run fds status_v status_d).
  Notation always := (always fds status_v status_d).

  Lemma linv_init R : linv R init.
  Proof.
    split; [|split; [|split; [|reflexivity]]].
    - intros j. cbn. auto.
    - constructor; cbn; auto; try discriminate; try (intros H; now destruct H). constructor.
    - constructor; cbn; [|intros i a []]. exists None. split; [constructor|]. intros _. reflexivity.
  Qed.

  Lemma step_full R s e s' : linv R s -> sane s e ->
    (s_join s = true -> forall t f th, s_threads s (s_tid s) = Some th -> t_phase th = TExited f -> (exists j v d a, In j (s_active s) /\ s_log s j = a ++ [Got t REQ_ZREL v d]) -> R t (if f then RESP_FAIL else RESP_ACK)) ->
    step s e = Ok s' -> exists s1, step_at s e = Ok s1 /\ s' = tick s1 /\ how fds status_v status_d R s e s1 /\ full R s'.
  Proof.
    intros I Sn HR H. assert (St : s_stop s = false) by apply I. unfold CtlModel.step in H. rewrite St in H. ok1 H. ok1 H. exists y. split; [exact E|]. split; [symmetry; exact H|]. assert (Hw := step_at_how fds status_v status_d R Hfds s e y I Sn HR E). split; [exact Hw|].
    subst s'. apply full_tick. destruct Hw as [(F & _)|F|F|F|F]; exact F.
  Qed.

  (** Every history, with nothing said about reloads. *)
  Definition anything (_ : nat) (_ : N) : Prop := True.
  Lemma run_full : forall h s s', full anything s -> always sane s h -> run s h = Ok s' -> full anything s'.
  Proof.
    induction h as [|e h IH]; cbn; intros s s' F A H; [ok1 H; now subst|]. destruct A as (Sn & A). ok1 H. rewrite E in A. apply (IH y); auto.
    destruct (s_stop s) eqn:St.
    - unfold CtlModel.step in E. rewrite St in E. ok1 E. now subst.
    - destruct (step_full anything s e y) as (s1 & _ & _ & _ & X); auto; [now apply full_linv|]. intros. exact I.
  Qed.

  (** Every history in which replacements do not fail during a load. *)
  Definition all (s : css) : Prop := full (truth s) s /\ (s_stop s = false -> zinv s).
  Lemma step_all s e s' : all s -> sane s e -> calm s e -> step s e = Ok s' -> all s' /\ (s_since s (s_root s) <= s_since s' (s_root s'))%nat /\ incl (s_loads s) (s_loads s').
  Proof.
    intros (F & Z) Sn Cm H. destruct (s_stop s) eqn:St.
    { unfold CtlModel.step in H. rewrite St in H. ok1 H. subst. split; [split; [exact F|congruence]|]. split; [lia|apply incl_refl]. }
    specialize (Z eq_refl). destruct (step_full (truth s) s e s') as (s1 & E & -> & Hw & F').
    - now apply full_linv.
    - exact Sn.
    - intros J t f th Et Ph (j & v & d & a & Ij & Lj). assert (Wt : waits_since (s_log s j) t) by (exists a, v, d; exact Lj). assert (X := z_act s Z j t Ij Wt _ th Et). rewrite Nat.eqb_refl in X.
      destruct (z_cur s Z) as (th' & E1 & E2 & E3). rewrite Et in E1. injection E1 as <-. rewrite Ph in E2. destruct E2 as (_ & _ & E2). destruct f.
      + split; [discriminate|]. intros _. exists (t_start th). auto.
      + split; [|discriminate]. intros _. lia.
    - exact H.
    - assert (Zm : forall s2, zones s2 = zones s -> (s_since s (s_root s) <= s_since s2 (s_root s2))%nat /\ incl (s_loads s) (s_loads s2)).
      { intros s2 Hz. unfold zones in Hz. injection Hz as T1 T2 T3 T4 T5 T6 T7 T8 T9 T10 T11 T12. rewrite T6, T9, T10. split; [lia|apply incl_refl]. }
      assert (K : (s_stop s1 = true -> s_stop s1 = true) /\ (s_stop s1 = false -> zinv (tick s1)) /\ (s_since s (s_root s) <= s_since s1 (s_root s1))%nat /\ incl (s_loads s) (s_loads s1) -> all (tick s1) /\ (s_since s (s_root s) <= s_since (tick s1) (s_root (tick s1)))%nat /\ incl (s_loads s) (s_loads (tick s1))).
      { intros (_ & K1 & K2 & K3). split; [|split; [exact K2|exact K3]]. split; [|exact K1]. apply (full_mono fds status_v status_d (truth s)); [|exact F']. now apply truth_step. }
      apply K. split; [auto|]. destruct Hw as [(_ & G)|_ Rs Ev|_ J En|_ B M O|_ B J A ->].
      + destruct G as [G|[G|G]].
        * split; [destruct G; congruence|]. apply Zm, G.
        * split; [intros Q; now apply (zinv_quiet s)|]. apply Zm, G.
        * split; [intros _; now apply (zinv_joins s)|]. destruct G as (i & v & d & a & _ & _ & _ & _ & _ & _ & [(_ & _ & _ & Hz)|(_ & _ & _ & Hz)]); [now apply Zm|]. unfold zones in Hz. injection Hz as T1 T2 T3 T4 T5 T6 T7 T8 T9 T10 T11 T12. rewrite T6, T9, T10. cbn. split; [lia|apply incl_refl].
      + split; [intros _; apply (zinv_resumes s); [exact Z|exact Rs|exact (Cm Ev)]|]. apply Zm. now destruct Rs as (_ & _ & Hz & _).
      + split; [intros _; now apply (zinv_ends s)|]. destruct En as (th & f & _ & _ & Hz & _). cbn zeta in Hz. destruct (s_queued s); unfold zones in Hz; injection Hz as T1 T2 T3 T4 T5 T6 T7 T8 T9 T10 T11 T12; rewrite T6, T9, T10; cbn; (split; [lia|apply incl_refl]).
      + destruct (zinv_other s e s1 Z M O) as (K1 & K2). split; [auto|exact K2].
      + split; [intros _; now apply zinv_join|]. now split; [cbn; lia|apply incl_refl].
  Qed.
End Css.
