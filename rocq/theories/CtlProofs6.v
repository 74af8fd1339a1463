(** Histories: the invariant of the connections holds throughout, and the zone
    data that queries use is never taken from them. *)
From Coq Require Import Lia.
From Verif Require Import Base CtlModel CtlSpec CtlProofs CtlProofs2 CtlProofs3 CtlProofs4 CtlProofs5.
Local Open Scope N_scope.

Definition tick (s : css) : css := with_main s (S (s_now s)) (s_next s) (s_stop s) (s_killed s).

Section Css.
  Variable fds : list N.
  Variables status_v status_d : N.
  Notation full := (full fds status_v status_d).
  Notation linv := (linv fds status_v status_d).
  Notation step_at := (step_at fds status_v status_d).
  Notation step := (step fds status_v status_d).
  Notation run := (run fds status_v status_d).
  Notation always := (always fds status_v status_d).

  Lemma glob_tick s : glob s -> glob (tick s).
  Proof. intros [A B C D E]. constructor; assumption. Qed.
  Lemma eff_tick s : eff s -> eff (tick s).
  Proof. intros [A B]. constructor; assumption. Qed.
  Lemma full_tick R s : full R s -> full R (tick s).
  Proof.
    unfold CtlProofs2.full. cbn [s_stop tick with_main]. destruct (s_stop s).
    - intros ((A & B) & P). split; [split; [exact A|now apply eff_tick]|exact P].
    - intros (A & B & C). split; [exact A|]. split; [now apply glob_tick|now apply eff_tick].
  Qed.

  (** ** Answers to a reload stay true *)
  Section Mono.
    Variables R R' : nat -> N -> Prop.
    Hypothesis M : forall t r, R t r -> R' t r.
    Lemma exchange_mono p l : exchange fds status_v status_d R p l -> exchange fds status_v status_d R' p l.
    Proof. intros X. destruct X; constructor; auto. Qed.
    Lemma Forall_mono p done : Forall (exchange fds status_v status_d R p) done -> Forall (exchange fds status_v status_d R' p) done.
    Proof. apply Forall_impl. intros. now apply exchange_mono. Qed.
    Lemma log_mono b l : connection_log fds status_v status_d R b l -> connection_log fds status_v status_d R' b l.
    Proof.
      intros (p & done & part & F & E & H). exists p, done, part. split; [now apply Forall_mono|]. split; [exact E|]. destruct H as [(rs & H)|H]; [left; exists rs; now apply exchange_mono|now right].
    Qed.
    Lemma cok_mono oc l w c : cok fds status_v status_d R oc l w c -> cok fds status_v status_d R' oc l w c.
    Proof.
      destruct oc as [k|]; cbn.
      - intros (done & part & F & E & H). exists done, part. split; [now apply Forall_mono|]. split; [exact E|]. unfold cst in *. destruct (k_state k); auto.
        + destruct H as (H1 & H2 & H3 & H4 & H5). repeat (split; [assumption|]). destruct (k_data k); [|now apply exchange_mono]. destruct H5 as (A1 & A2 & A3 & A4). repeat (split; [assumption|]). intros. now apply exchange_mono, A4.
        + destruct H as (H1 & H2 & H3 & H4 & b & hd & ch & H5 & H6 & H7 & H8 & H9 & H10). repeat (split; [assumption|]). exists b, hd, ch. repeat (split; [assumption|]). intros. now apply exchange_mono, H10.
      - intros (A & B & [C|C]); auto. split; [exact A|]. split; [exact B|]. right. now apply log_mono.
    Qed.
    Lemma full_mono s : full R s -> full R' s.
    Proof.
      unfold CtlProofs2.full. destruct (s_stop s).
      - intros ((A & B) & P). split; [split; [|exact B]|exact P]. intros j. destruct (A j) as [X|X]; [now left|right; now apply log_mono].
      - intros (A & B). split; [|exact B]. intros j. apply cok_mono, A.
    Qed.
  End Mono.

  (** ** The zone data *)
  Definition busy (s : css) : Prop := s_active s <> [] \/ s_pid s <> 0.
  Definition flags (s : css) (f : bool) : Prop := if f then s_async s = negb (s_join s) else s_async s = false /\ s_join s = false.
  Definition zphase (s : css) (b : nat) (p : phase) : Prop :=
    match p with
    | TLoading => busy s /\ flags s false
    | TFailed => busy s /\ flags s false /\ In (b, true) (s_loads s)
    | TLoaded n => busy s /\ flags s false /\ In n (s_live s) /\ n <> s_root s /\ s_since s n = b
    | TOld n old => busy s /\ flags s false /\ In n (s_live s) /\ n <> s_root s /\ s_since s n = b /\ old = s_root s
    | TAssigned old | TSync old _ => busy s /\ flags s false /\ s_since s (s_root s) = b /\ old <> s_root s /\ In old (s_live s)
    | TDestroyed => busy s /\ flags s false /\ s_since s (s_root s) = b
    | TNotified f | TExited f => busy s /\ flags s true /\ (if f then In (b, true) (s_loads s) else s_since s (s_root s) = b)
    | TJoined => s_active s = [] /\ flags s false
    end.
  Record zinv (s : css) : Prop := {
    z_req : forall i t, In i (s_queued s) -> waits_since (s_log s i) t -> (t < s_now s)%nat;
    z_dom : forall k, (k < s_nthreads s)%nat <-> s_threads s k <> None;
    z_old : forall k t, s_threads s k = Some t -> k <> s_tid s -> t_phase t = TJoined;
    z_time : forall k t, s_threads s k = Some t -> (t_start t < s_now s)%nat;
    z_cur : exists th, s_threads s (s_tid s) = Some th /\ zphase s (t_start th) (t_phase th) /\ (s_since s (s_root s) <= t_start th)%nat;
    z_root : In (s_root s) (s_live s);
    z_live : forall t, In t (s_live s) -> (t < s_ntrees s)%nat;
    z_use : forall k t, In (k, Some t) (s_open s) -> t = s_root s \/
      exists th, s_threads s (s_tid s) = Some th /\ (t_phase th = TAssigned t \/ exists w, t_phase th = TSync t w /\ In k w);
    z_queue : s_queued s <> [] -> s_active s <> [];
    z_wait : forall i t, In i (s_queued s) -> waits_since (s_log s i) t -> forall k th, s_threads s k = Some th -> (t_start th < t)%nat;
    z_act : forall i t, In i (s_active s) -> waits_since (s_log s i) t -> forall k th, s_threads s k = Some th ->
      if (k =? s_tid s)%nat then (t <= t_start th)%nat else (t_start th < t)%nat;
    z_pid : s_pid s <> 0 -> s_active s = [] /\ s_queued s = []
  }.

  Lemma waits_fun l t t' : waits_since l t -> waits_since l t' -> t = t'.
  Proof. intros (a & v & d & E) (a' & v' & d' & E'). rewrite E in E'. apply app_inj_tail in E'. destruct E' as (_ & E'). now injection E'. Qed.

  (** States that differ in nothing that matters for zones. *)
  Lemma zinv_quiet s s' : zinv s -> quiet s s' -> s_stop s' = false -> zinv (tick s').
  Proof.
    intros Z (Hz & Nw & Q) St. unfold zones in Hz. injection Hz as T1 T2 T3 T4 T5 T6 T7 T8 T9 T10 T11 T12.
    destruct Z as [D0 D1 D2 D3 (th & E1 & E2 & E3) D5 D6 D7 D8 D9 D10 D11]. 
    assert (Act : s_active s' = s_active s \/ s_active s' = []) by (destruct Q as [(A & _)|(A & _)]; auto).
    assert (B : busy s -> busy s').
    { unfold busy. destruct Q as [(A & _ & _ & P)|(_ & _ & P)]; [|auto]. destruct P as [P|P]; [now rewrite A, P|congruence]. }
    constructor; cbn [tick with_main s_threads s_nthreads s_tid s_now s_root s_live s_ntrees s_since s_loads s_open s_queued s_active s_pid s_log]; rewrite ?T1, ?T2, ?T3, ?T6, ?T7, ?T8, ?T9, ?T11, ?Nw; auto.
    - destruct Q as [(A & Q & L & _)|(A & Q & _)]; rewrite Q; [|intros i t []]. intros i t I. rewrite L; [|apply waits_in; now right]. intros H. apply D0 in H; [lia|exact I].
    - intros k t H. apply D3 in H. lia.
    - exists th. split; [exact E1|]. split; [|exact E3].
      assert (Fl : forall f, flags s f -> flags (tick s') f). { intros f. unfold flags. cbn. rewrite T4, T5. auto. }
      destruct (t_phase th); unfold zphase in *; cbn [tick with_main s_active s_loads s_live s_root s_since]; rewrite ?T6, ?T7, ?T9, ?T10; try (split; [apply B, E2|split; [apply Fl, E2|apply E2]]).
      + split; [apply B, E2|apply Fl, E2].
      + destruct E2 as (E2 & F). split; [|now apply Fl]. destruct Act as [X|X]; rewrite X; auto.
    - destruct Q as [(A & Q & _)|(A & Q & _)]; rewrite A, Q; auto.
    - destruct Q as [(A & Q & L & _)|(A & Q & _)]; rewrite Q; [|intros i t []]. intros i t I. rewrite L; [now apply D9|]. apply waits_in. now right.
    - destruct Q as [(A & Q & L & _)|(A & Q & _)]; rewrite A; [|intros i t []]. intros i t I. rewrite L; [now apply D10|]. apply waits_in. now left.
    - destruct Q as [(A & Q & L & P)|(A & Q & _)]; rewrite A, Q; [|auto]. destruct P as [->|P]; [auto|congruence].
  Qed.

  Lemma zinv_joins s s' : zinv s -> joins s s' -> zinv (tick s').
  Proof.
    intros Z (i & v & d & a & Wi & P0 & P0' & Nw & Ho & Li & Q).
    assert (Wt : forall t, waits_since (s_log s' i) t -> t = s_now s). { intros t H. apply (waits_fun _ _ _ H). exists a, v, d. exact Li. }
    assert (Ne : forall j, In j (s_active s) \/ In j (s_queued s) -> j <> i). { intros j J ->. apply waits_in in J. congruence. }
    destruct Z as [D0 D1 D2 D3 (th & E1 & E2 & E3) D5 D6 D7 D8 D9 D10 D11].
    destruct Q as [(Na & A & Qu & Hz)|(Na & A & Qu & Hz)]; unfold zones in Hz; injection Hz as T1 T2 T3 T4 T5 T6 T7 T8 T9 T10 T11 T12.
    - constructor; cbn [tick with_main s_threads s_nthreads s_tid s_now s_root s_live s_ntrees s_since s_loads s_open s_queued s_active s_pid s_log]; rewrite ?T1, ?T2, ?T3, ?T6, ?T7, ?T8, ?T9, ?T11, ?Nw, ?A, ?Qu; auto.
      + intros j t J H. apply in_app_or in J. destruct J as [J|[<-|[]]].
        * rewrite Ho in H by (apply Ne; auto). apply D0 in H; [lia|exact J].
        * apply Wt in H. lia.
      + intros k t H. apply D3 in H. lia.
      + exists th. split; [exact E1|]. split; [|exact E3].
        assert (Fl : forall f, flags s f -> flags (tick s') f). { intros f. unfold flags. cbn. rewrite T4, T5. auto. }
        assert (B : busy (tick s')) by (left; cbn; now rewrite A).
        destruct (t_phase th); unfold zphase in *; cbn [tick with_main s_active s_loads s_live s_root s_since]; rewrite ?T6, ?T7, ?T9, ?T10; try (split; [exact B|split; [apply Fl, E2|apply E2]]).
        * split; [exact B|apply Fl, E2].
        * destruct E2 as (E2 & _). contradiction.
      + intros j t J. apply in_app_or in J. destruct J as [J|[<-|[]]].
        * rewrite Ho by (apply Ne; auto). now apply D9.
        * intros H k t' Hk. apply Wt in H. subst t. now apply D3 in Hk.
      + intros j t J. rewrite Ho by (apply Ne; auto). now apply D10.
      + intros H. rewrite P0' in H. now destruct H.
    - assert (Q0 : s_queued s = []) by (destruct (s_queued s); [reflexivity|exfalso; apply D8; [discriminate|exact Na]]). rewrite Q0 in A. cbn [app] in A.
      assert (Pj : t_phase th = TJoined). { destruct (t_phase th); try reflexivity; destruct E2 as ([B|B] & _); congruence. }
      rewrite Pj in E2. destruct E2 as (_ & Fl & Fl2). assert (Nn : s_threads s (s_nthreads s) = None). { destruct (s_threads s (s_nthreads s)) eqn:X; [|reflexivity]. assert (Y : s_threads s (s_nthreads s) <> None) by congruence. apply D1 in Y. lia. }
      assert (Tl : (s_tid s < s_nthreads s)%nat) by (apply D1; congruence).
      assert (Tc : s_threads s' (s_nthreads s) = Some {| t_start := s_now s; t_phase := TLoading |}) by (rewrite T1; apply set_same).
      assert (To : forall k t, s_threads s' k = Some t -> k <> s_nthreads s -> s_threads s k = Some t /\ t_phase t = TJoined).
      { intros k t H Nk. rewrite T1, set_other in H by exact Nk. split; [exact H|]. destruct (Nat.eq_dec k (s_tid s)) as [->|N2]; [congruence|now apply (D2 k)]. }
      constructor; cbn [tick with_main s_threads s_nthreads s_tid s_now s_root s_live s_ntrees s_since s_loads s_open s_queued s_active s_pid s_log]; rewrite ?T2, ?T3, ?T6, ?T7, ?T8, ?T9, ?T11, ?Nw, ?A, ?Qu; cbn [spawn_reloader with_threads s_nthreads s_tid s_root s_live s_ntrees s_since s_loads s_open]; auto.
      + intros j t [].
      + intros k. rewrite T1. cbn [spawn_reloader with_threads s_threads]. unfold set. destruct (k =? s_nthreads s)%nat eqn:X; [apply Nat.eqb_eq in X; subst; split; [discriminate|lia]|]. apply Nat.eqb_neq in X. rewrite <- D1. lia.
      + intros k t H Nk. now apply (To k t H).
      + intros k t H. destruct (Nat.eq_dec k (s_nthreads s)) as [->|Nk]; [rewrite Tc in H; injection H as <-; cbn; lia|]. apply To in H; [|exact Nk]. destruct H as (H & _). apply D3 in H. lia.
      + exists {| t_start := s_now s; t_phase := TLoading |}. split; [exact Tc|]. split; [|cbn; apply D3 in E1; lia]. split; [left; cbn; now rewrite A|]. unfold flags. cbn. rewrite T4, T5. auto.
      + intros k t H. destruct (D7 k t H) as [X|(th' & X1 & X2)]; [now left|]. rewrite E1 in X1. injection X1 as <-. rewrite Pj in X2. destruct X2 as [X2|(w & X2 & _)]; discriminate.
      + intros j t [].
      + intros j t [<-|[]] H k t' Hk. apply Wt in H. subst t. destruct (k =? s_nthreads s)%nat eqn:X.
        * apply Nat.eqb_eq in X. subst. rewrite Tc in Hk. injection Hk as <-. cbn. lia.
        * apply Nat.eqb_neq in X. apply To in Hk; [|exact X]. destruct Hk as (Hk & _). now apply D3 in Hk.
      + intros H. congruence.
  Qed.

  Lemma zinv_resumes s s' : zinv s -> resumes s s' -> (forall k t, s_threads s k = Some t -> t_phase t = TJoined) -> zinv (tick s').
  Proof.
    intros Z (P & P' & Hz & Nw & A & Qu & _) Cm. unfold zones in Hz. injection Hz as T1 T2 T3 T4 T5 T6 T7 T8 T9 T10 T11 T12.
    destruct Z as [D0 D1 D2 D3 (th & E1 & E2 & E3) D5 D6 D7 D8 D9 D10 D11].
    constructor; cbn [tick with_main s_threads s_nthreads s_tid s_now s_root s_live s_ntrees s_since s_loads s_open s_queued s_active s_pid s_log]; rewrite ?T1, ?T2, ?T3, ?T6, ?T7, ?T8, ?T9, ?T11, ?Nw, ?A, ?Qu; auto.
    - intros i t [].
    - intros k t H. apply D3 in H. lia.
    - exists th. split; [exact E1|]. split; [|exact E3]. rewrite (Cm _ _ E1) in *. destruct E2 as (_ & F). split; [exact A|]. unfold flags in *. cbn. now rewrite T4, T5.
    - intros i t [].
    - intros i t [].
  Qed.

  Lemma zinv_ends s s' : zinv s -> s_join s = true -> ends s s' -> zinv (tick s').
  Proof.
    intros Z Jn (th' & f & Et & Ph & Hz & A & Qu & P & Nw & St & L & _). cbn zeta in Hz.
    destruct Z as [D0 D1 D2 D3 (th & E1 & E2 & E3) D5 D6 D7 D8 D9 D10 D11]. rewrite Et in E1. injection E1 as <-. rewrite Ph in E2. destruct E2 as (B & Fl & Tr).
    assert (Tl : (s_tid s < s_nthreads s)%nat) by (apply D1; congruence).
    assert (U : forall k t, In (k, Some t) (s_open s) -> t = s_root s).
    { intros k t H. destruct (D7 k t H) as [X|(t2 & X1 & X2)]; [exact X|]. rewrite Et in X1. injection X1 as <-. rewrite Ph in X2. destruct X2 as [X2|(w & X2 & _)]; discriminate. }
    destruct (s_queued s) as [|q l] eqn:Q0; unfold zones in Hz; injection Hz as T1 T2 T3 T4 T5 T6 T7 T8 T9 T10 T11 T12.
    - assert (To : forall k t, s_threads s' k = Some t -> exists t0, s_threads s k = Some t0 /\ t_start t0 = t_start t /\ t_phase t = TJoined).
      { intros k t H. rewrite T1 in H. cbn in H. unfold set in H. destruct (k =? s_tid s)%nat eqn:X; [apply Nat.eqb_eq in X; subst; injection H as <-; exists th'; auto|]. apply Nat.eqb_neq in X. exists t. split; [exact H|]. split; [reflexivity|]. now apply (D2 k). }
      constructor; cbn [tick with_main s_threads s_nthreads s_tid s_now s_root s_live s_ntrees s_since s_loads s_open s_queued s_active s_pid s_log]; rewrite ?T2, ?T3, ?T6, ?T7, ?T8, ?T9, ?T11, ?Nw, ?A, ?Qu; cbn [spawn_reloader with_threads s_nthreads s_tid s_root s_live s_ntrees s_since s_loads s_open]; auto.
      + intros j t [].
      + intros k. rewrite D1, T1. cbn. unfold set. destruct (k =? s_tid s)%nat eqn:X; [apply Nat.eqb_eq in X; subst; split; congruence|reflexivity].
      + intros k t H _. now destruct (To k t H) as (_ & _ & _ & X).
      + intros k t H. destruct (To k t H) as (t0 & X1 & X2 & _). rewrite <- X2. apply D3 in X1. lia.
      + exists {| t_start := t_start th'; t_phase := TJoined |}. split; [rewrite T1; apply set_same|]. split; [|exact E3]. split; [exact A|]. unfold flags in *. cbn. rewrite T4, T5. cbn. rewrite Fl, Jn. auto.
      + intros k t H. left. now apply (U k).
      + intros i t [].
      + intros i t [].
    - set (n := s_nthreads s) in *.
      assert (Nn : s_threads s n = None). { destruct (s_threads s n) eqn:X; [|reflexivity]. assert (Y : s_threads s n <> None) by congruence. apply D1 in Y. subst n. lia. }
      assert (Tc : s_threads s' n = Some {| t_start := s_now s; t_phase := TLoading |}) by (rewrite T1; apply set_same).
      assert (To : forall k t, s_threads s' k = Some t -> k <> n -> exists t0, s_threads s k = Some t0 /\ t_start t0 = t_start t /\ t_phase t = TJoined).
      { intros k t H Nk. rewrite T1 in H. cbn in H. rewrite set_other in H by exact Nk. unfold set in H. destruct (k =? s_tid s)%nat eqn:X; [apply Nat.eqb_eq in X; subst; injection H as <-; exists th'; auto|]. apply Nat.eqb_neq in X. exists t. split; [exact H|]. split; [reflexivity|]. now apply (D2 k). }
      assert (An : s_active s <> []) by (apply D8; discriminate).
      assert (P0 : s_pid s = 0). { destruct (N.eq_dec (s_pid s) 0) as [X|X]; [exact X|]. destruct (D11 X). contradiction. }
      constructor; cbn [tick with_main s_threads s_nthreads s_tid s_now s_root s_live s_ntrees s_since s_loads s_open s_queued s_active s_pid s_log]; rewrite ?T2, ?T3, ?T6, ?T7, ?T8, ?T9, ?T11, ?Nw, ?A, ?Qu; cbn [spawn_reloader with_threads s_nthreads s_tid s_root s_live s_ntrees s_since s_loads s_open]; auto.
      + intros j t [].
      + intros k. rewrite T1. cbn [spawn_reloader with_threads s_threads s_nthreads]. fold n. unfold set. destruct (k =? n)%nat eqn:X; [apply Nat.eqb_eq in X; subst k; split; [discriminate|lia]|]. apply Nat.eqb_neq in X. destruct (k =? s_tid s)%nat eqn:Y; [apply Nat.eqb_eq in Y; subst k; split; [discriminate|lia]|]. rewrite <- D1. lia.
      + intros k t H Nk. now destruct (To k t H Nk) as (_ & _ & _ & X).
      + intros k t H. destruct (Nat.eq_dec k n) as [->|Nk]; [rewrite Tc in H; injection H as <-; cbn; lia|]. destruct (To k t H Nk) as (t0 & X1 & X2 & _). rewrite <- X2. apply D3 in X1. lia.
      + exists {| t_start := s_now s; t_phase := TLoading |}. split; [exact Tc|]. split; [|cbn; apply D3 in Et; lia]. split; [left; cbn; now rewrite A|]. unfold flags in *. cbn. rewrite T4, T5. cbn. rewrite Fl, Jn. auto.
      + intros k t H. left. now apply (U k).
      + intros i t [].
      + intros i t I H k t' Hk. rewrite L in H. destruct (k =? n)%nat eqn:X.
        * apply Nat.eqb_eq in X. subst. rewrite Tc in Hk. injection Hk as <-. cbn. apply (D0 i t I) in H. lia.
        * apply Nat.eqb_neq in X. destruct (To k t' Hk X) as (t0 & X1 & X2 & _). rewrite <- X2. now apply (D9 i t I H k).
      + intros H. rewrite P in H. contradiction.
  Qed.
End Css.
