(** Every event keeps the invariant of the connections, and what has been done
    was asked for and permitted. *)
From Coq Require Import Lia.
From Verif Require Import Base CtlModel CtlSpec CtlProofs.
Local Open Scope N_scope.

Definition linked (st : takeover) (s : css) : Prop :=
  s_stop s = false ->
  match st with
  | None => s_pid s = 0
  | Some (p, a) => p = s_pid s /\ s_pid s <> 0 /\ forall j, s_dmn s = Some j -> a = Some j
  end.
Record eff (s : css) : Prop := {
  e_may : exists st, may_all None (s_effects s) st /\ linked st s;
  e_ask : forall i a, In (By i a) (s_effects s) -> asked_for (s_log s i) a
}.
Definition longer (s s' : css) : Prop := forall j, exists l, s_log s' j = s_log s j ++ l.

Lemma asked_longer l a l' : asked_for l a -> asked_for (l ++ l') a.
Proof.
  intros (p & before & t & key & v & d & chunks & after & -> & P & Q & C).
  exists p, before, t, key, v, d, chunks, (after ++ l'). split; [now rewrite <- !app_assoc|auto].
Qed.
Lemma eff_same s s' : eff s -> s_effects s' = s_effects s -> s_pid s' = s_pid s -> (forall j, s_dmn s' = Some j -> s_dmn s = Some j) ->
  s_stop s' = s_stop s -> longer s s' -> eff s'.
Proof.
  intros [(st & M & L) A] E P D S G. constructor.
  - exists st. rewrite E. split; [exact M|]. unfold linked in *. rewrite S, P. intros Q. specialize (L Q). destruct st as [[p a]|]; [|exact L].
    destruct L as (-> & N & L). split; [reflexivity|]. split; [exact N|]. intros j J. now apply L, D.
  - rewrite E. intros i a I. destruct (G i) as (l & ->). now apply asked_longer, A.
Qed.
Lemma eff_add s s' e : eff s -> s_effects s' = s_effects s ++ [e] -> s_stop s = false ->
  (forall st, linked st s -> exists st', may st e st' /\ linked st' s') ->
  longer s s' -> (forall i a, e = By i a -> asked_for (s_log s' i) a) -> eff s'.
Proof.
  intros [(st & M & L) A] E S H G K. constructor.
  - destruct (H st L) as (st' & M' & L'). exists st'. split; [|exact L']. rewrite E. now apply may_snoc with st.
  - rewrite E. intros i a I. apply in_app_or in I. destruct I as [I|[I|[]]]; [|now apply K]. destruct (G i) as (l & ->). now apply asked_longer, A.
Qed.

Lemma nodup_app {A} (a b : list A) : NoDup (a ++ b) -> NoDup a /\ NoDup b /\ forall x, In x a -> In x b -> False.
Proof.
  induction a as [|x a IH]; cbn; intros N.
  - split; [constructor|]. split; [exact N|]. intros x [].
  - inversion N as [|? ? NI N']; subst. destruct (IH N') as (A1 & B & D). split; [|split; [exact B|]].
    + constructor; [|exact A1]. intros I. apply NI, in_or_app. now left.
    + intros y [->|I] Q; [apply NI, in_or_app; now right|now apply (D y)].
Qed.
Lemma waits_same s s' : s_active s' = s_active s -> s_queued s' = s_queued s -> forall j, waits s' j = waits s j.
Proof. unfold waits. now intros -> ->. Qed.

Section Css.
  Variable fds : list N.
  Variables status_v status_d : N.
  Variable R : nat -> N -> Prop.
  Hypothesis Hfds : length fds <> 0%nat.
  Notation exchange := (exchange fds status_v status_d R).
  Notation coks := (coks fds status_v status_d R).
  Notation cok := (cok fds status_v status_d R).
  Notation logs := (logs fds status_v status_d R).

  Definition linv (s : css) : Prop := coks s /\ glob s /\ eff s /\ s_stop s = false.
  Definition full (s : css) : Prop := if s_stop s then (logs s /\ eff s) /\ s_pid s = 0 else coks s /\ glob s /\ eff s.
  Lemma linv_full s : linv s -> full s.
  Proof. intros (C & G & E & S). unfold full. now rewrite S. Qed.
  Lemma full_linv s : s_stop s = false -> full s -> linv s.
  Proof. unfold full, linv. intros ->. tauto. Qed.

  (** Nothing is done to the zone data, nor to those who wait for it, unless they are
      all told to come back. *)
  Definition quiet (s s' : css) : Prop :=
    zones s' = zones s /\ s_now s' = s_now s /\
    ((s_active s' = s_active s /\ s_queued s' = s_queued s /\ (forall j, waits s j = true -> s_log s' j = s_log s j) /\ (s_pid s' = s_pid s \/ s_stop s' = true)) \/
     (s_active s' = [] /\ s_queued s' = [] /\ s_pid s' <> 0)).

  (** ** A reading connection *)
  Lemma reading s i c : coks s -> s_conns s i = Some c -> k_state c = READING_REQ ->
    exists done, Forall (exchange (k_perms c)) done /\ s_log s i = [Opened (k_perms c)] ++ concat done /\
      k_read c = true /\ k_write c = false /\ k_data c = None /\ waits s i = false /\ is_ctl s i = false.
  Proof.
    intros C E K. specialize (C i). rewrite E in C. destruct C as (done & part & D & L & S). unfold cst in S. rewrite K in S.
    destruct S as (-> & S). rewrite app_nil_r in L. exists done. tauto.
  Qed.

  Definition asked (s : css) (i : nat) (c : conn) (key v d : N) : css :=
    put_conn (log s i (Got (s_now s) key v d)) i (set_state (set_rbuf c key v d) WAITING_SERVER false (k_write c)).
  Definition reply (c : conn) (key v d r rv rd : N) : conn :=
    set_state (set_wbuf (set_state (set_rbuf c key v d) WAITING_SERVER false (k_write c)) r rv rd) WRITING_RESP false true.

  Lemma reply_coks s s' i c key v d r rv rd t : coks s -> s_conns s i = Some c -> k_state c = READING_REQ ->
    (forall j, s_conns s' j = if (j =? i)%nat then Some (reply c key v d r rv rd) else s_conns s j) ->
    (forall j, s_log s' j = if (j =? i)%nat then s_log s i ++ [Got t key v d] else s_log s j) ->
    (forall j, waits s' j = waits s j) -> (forall j, is_ctl s' j = is_ctl s j) ->
    exchange (k_perms c) [Got t key v d; Wrote r rv rd] -> coks s'.
  Proof.
    intros C E K Hc Hl Hw Hk X. destruct (reading s i c C E K) as (done & D & L & Rd & Wr & Dt & W & Ct).
    apply (coks_upd _ _ _ _ s s' i _ _ C Hc Hl); auto. exists done, [Got t key v d]. split; [exact D|]. split; [now rewrite L, <- app_assoc|].
    unfold cst. cbn. rewrite Dt, Hw, Hk. auto 10.
  Qed.

  Ltac eqb_i := let j := fresh "j" in intros j; cbn; unfold set; destruct (j =? _)%nat eqn:?; rewrite ?Nat.eqb_refl; reflexivity.
  Lemma longer_upd s s' i l : (forall j, s_log s' j = if (j =? i)%nat then s_log s i ++ l else s_log s j) -> longer s s'.
  Proof. intros H j. rewrite H. destruct (j =? i)%nat eqn:E; [apply Nat.eqb_eq in E; subst j; now exists l|]. exists []. now rewrite app_nil_r. Qed.
  Lemma quiet_upd s s' i l : waits s i = false -> (forall j, s_log s' j = if (j =? i)%nat then l else s_log s j) ->
    zones s' = zones s -> s_now s' = s_now s -> s_active s' = s_active s -> s_queued s' = s_queued s -> s_pid s' = s_pid s \/ s_stop s' = true -> quiet s s'.
  Proof.
    intros W L Z N A Q P. split; [exact Z|]. split; [exact N|]. left. repeat (split; [assumption|]). split; [|exact P].
    intros j J. rewrite L. destruct (j =? i)%nat eqn:E; [|reflexivity]. apply Nat.eqb_eq in E. congruence.
  Qed.
  Lemma glob_upd s s' i : glob s -> s_conns s i <> None -> s_conns s' i <> None ->
    (forall j, j <> i -> s_conns s' j = s_conns s j) -> (forall j, j <> i -> s_log s' j = s_log s j) ->
    s_next s' = s_next s -> s_active s' = s_active s -> s_queued s' = s_queued s -> s_pid s' = s_pid s -> s_ctl s' = s_ctl s -> s_dmn s' = s_dmn s -> s_timer s' = s_timer s -> s_accept s' = s_accept s \/ s_pid s <> 0 ->
    glob s'.
  Proof.
    intros G I I' Hc Hl N A Q P K D T Ac. constructor.
    - rewrite N. intros j J. destruct (Nat.eq_dec j i) as [->|Ne]; [destruct (g_next s G i J); contradiction|]. rewrite Hc, Hl by exact Ne. now apply g_next.
    - rewrite A, Q. now apply g_nodup.
    - rewrite P, K, D, T. intros P0. destruct (g_pid0 s G P0) as (X1 & X2 & X3 & X4). destruct Ac as [->|Ac]; [auto|contradiction].
    - rewrite P, A, Q, T. now apply g_pid1.
    - rewrite D, K. intros j J. destruct (g_dmn s G j J) as (X & Y). split; [|exact Y]. destruct (Nat.eq_dec j i) as [->|Ne]; [exact I'|now rewrite Hc].
  Qed.

  (** A request answered at once, with nothing done. *)
  Lemma reply_at_once s i c key v d r rv rd s' : linv s -> s_conns s i = Some c -> k_state c = READING_REQ ->
    exchange (k_perms c) [Got (s_now s) key v d; Wrote r rv rd] ->
    respond fds (asked s i c key v d) i r rv rd None false = Ok s' -> full s' /\ quiet s s'.
  Proof.
    intros (C & G & E & S) Ec K X H.
    assert (Ew : s_conns (asked s i c key v d) i = Some (set_state (set_rbuf c key v d) WAITING_SERVER false (k_write c))) by (cbn; now rewrite set_same).
    destruct (respond_spec _ _ _ _ _ _ _ _ Ew H) as (_ & _ & ->). clear H.
    set (s' := put_conn _ _ _). assert (Hl : forall j, s_log s' j = if (j =? i)%nat then s_log s i ++ [Got (s_now s) key v d] else s_log s j) by (subst s'; eqb_i).
    destruct (reading s i c C Ec K) as (done & _ & _ & _ & _ & _ & W & _).
    split; [apply linv_full; split; [|split; [|split]]|].
    - apply (reply_coks s s' i c key v d r rv rd (s_now s)); auto. subst s'; eqb_i.
    - apply (glob_upd s s' i); auto; try (now subst s'; cbn; rewrite ?set_same); try congruence; intros j J; subst s'; cbn; now rewrite !set_other.
    - apply (eff_same s); auto. now apply longer_upd with i [Got (s_now s) key v d].
    - exact S.
    - apply (quiet_upd s s' i _ W Hl); auto.
  Qed.
  (** A request answered at once after something has been done. *)
  Lemma reply_done s i c key v d a r rv rd s' : linv s -> s_conns s i = Some c -> k_state c = READING_REQ ->
    exchange (k_perms c) [Got (s_now s) key v d; Wrote r rv rd] ->
    permitted (k_perms c) key -> request_of a key v d -> data_of a = [] -> (s_pid s = 0 -> may None (By i a) None) -> s_pid s = 0 ->
    respond fds (did (asked s i c key v d) (By i a)) i r rv rd None false = Ok s' -> full s' /\ quiet s s'.
  Proof.
    intros (C & G & E & S) Ec K X Pm Rq Da M P0 H.
    assert (Ew : s_conns (did (asked s i c key v d) (By i a)) i = Some (set_state (set_rbuf c key v d) WAITING_SERVER false (k_write c))) by (cbn; now rewrite set_same).
    destruct (respond_spec _ _ _ _ _ _ _ _ Ew H) as (_ & _ & ->). clear H.
    set (s' := put_conn _ _ _). assert (Hl : forall j, s_log s' j = if (j =? i)%nat then s_log s i ++ [Got (s_now s) key v d] else s_log s j) by (subst s'; eqb_i).
    destruct (reading s i c C Ec K) as (done & _ & L & _ & _ & _ & W & _).
    split; [apply linv_full; split; [|split; [|split]]|].
    - apply (reply_coks s s' i c key v d r rv rd (s_now s)); auto. subst s'; eqb_i.
    - apply (glob_upd s s' i); auto; try (now subst s'; cbn; rewrite ?set_same); try congruence; intros j J; subst s'; cbn; now rewrite !set_other.
    - apply (eff_add s s' (By i a)); auto; [|now apply longer_upd with i [Got (s_now s) key v d]|].
      + intros st Ls. specialize (Ls S). destruct st as [[p q]|]; [destruct Ls as (_ & Ls & _); congruence|]. exists None. split; [auto|]. intros _. exact P0.
      + intros i' a' [= <- <-]. rewrite Hl, Nat.eqb_refl, L. exists (k_perms c), (concat done), (s_now s), key, v, d, [], []. rewrite Da. split; [now rewrite <- app_assoc|auto].
    - exact S.
    - apply (quiet_upd s s' i _ W Hl); auto.
  Qed.

  (** ** Closing *)
  Lemma close_from s s2 i c items s' : linv s -> s_conns s i = Some c -> waits s i = false -> is_ctl s i = false ->
    (forall j, j <> i -> s_conns s2 j = s_conns s j) -> (forall j, s_log s2 j = if (j =? i)%nat then s_log s i ++ items else s_log s j) ->
    cok None ((s_log s i ++ items) ++ [Closed]) false false ->
    rest s2 = rest s -> s_ctl s2 = s_ctl s -> s_dmn s2 = s_dmn s -> zones s2 = zones s -> s_effects s2 = s_effects s ->
    conn_cleanup s2 i = Ok s' -> full s' /\ quiet s s'.
  Proof.
    intros (C & G & E & S) Ec W Ct Hc Hl X Re Kc Kd Z Ef H.
    destruct (cleanup_spec s2 i s' H) as (_ & Hc' & Hl' & Hctl & Hdmn & Re' & Z' & Ef'). clear H.
    rewrite Re in Re'. unfold rest in Re'. injection Re' as Nw Nx Q A P T Ac St. rewrite Z in Z'. rewrite Kc in Hctl. rewrite Kd in Hdmn. unfold is_ctl in Ct. rewrite Ct in Hctl.
    assert (Hl2 : forall j, s_log s' j = if (j =? i)%nat then s_log s i ++ (items ++ [Closed]) else s_log s j).
    { intros j. rewrite Hl'. destruct (j =? i)%nat eqn:J; [now rewrite Hl, Nat.eqb_refl, app_assoc|]. now rewrite Hl, J. }
    assert (Hc2 : forall j, s_conns s' j = if (j =? i)%nat then None else s_conns s j).
    { intros j. rewrite Hc'. destruct (j =? i)%nat eqn:J; [reflexivity|]. apply Nat.eqb_neq in J. now apply Hc. }
    assert (Hw : forall j, waits s' j = waits s j) by (now apply waits_same).
    split; [apply linv_full; split; [|split; [|split]]|].
    - apply (coks_upd _ _ _ _ s s' i None (s_log s i ++ (items ++ [Closed])) C Hc2 Hl2); [auto|unfold is_ctl; now rewrite Hctl|]. rewrite Hw, W. unfold is_ctl. rewrite Hctl, Ct. now rewrite app_assoc.
    - constructor.
      + rewrite Nx. intros j J. destruct (g_next s G j J) as (X1 & X2). rewrite Hc2, Hl2. destruct (j =? i)%nat eqn:Q2; [|auto]. apply Nat.eqb_eq in Q2. congruence.
      + rewrite A, Q. now apply g_nodup.
      + rewrite P, Hctl, T, Ac. intros P0. destruct (g_pid0 s G P0) as (X1 & X2 & X3 & X4). rewrite Hdmn, X2. auto.
      + rewrite P, A, Q, T. now apply g_pid1.
      + intros j J. rewrite Hdmn in J. destruct (opt_is (s_dmn s) i) eqn:O; [discriminate|]. destruct (g_dmn s G j J) as (X1 & X2). rewrite Hctl. split; [|exact X2].
        rewrite Hc2. destruct (j =? i)%nat eqn:Q2; [|exact X1]. apply Nat.eqb_eq in Q2. subst j. apply opt_is_true in J. congruence.
    - apply (eff_same s); auto; [congruence| |now apply longer_upd with i (items ++ [Closed])]. intros j J. rewrite Hdmn in J. destruct (opt_is (s_dmn s) i); [discriminate|exact J].
    - now rewrite St.
    - apply (quiet_upd s s' i _ W Hl2); auto.
  Qed.
  Lemma close_open s i c s' : linv s -> s_conns s i = Some c -> waits s i = false -> is_ctl s i = false -> conn_cleanup s i = Ok s' -> full s' /\ quiet s s'.
  Proof.
    intros I Ec W Ct H. apply (close_from s s i c []); auto.
    - intros j. destruct (j =? i)%nat eqn:J; [|reflexivity]. apply Nat.eqb_eq in J. subst. now rewrite app_nil_r.
    - rewrite app_nil_r. destruct I as (C & _). specialize (C i). rewrite Ec in C. now apply (cok_closed _ _ _ _ c _ (waits s i) (is_ctl s i)).
  Qed.
  Lemma hang_up s i c s2 key v d s' : linv s -> s_conns s i = Some c -> k_state c = READING_REQ -> permitted (k_perms c) key ->
    (key = REQ_CHAL /\ ~ chal_sizes v d) \/ key = REQ_TAK2 \/ key = REQ_TAKE ->
    (forall j, j <> i -> s_conns s2 j = s_conns s j) -> (forall j, s_log s2 j = if (j =? i)%nat then s_log s i ++ [Got (s_now s) key v d] else s_log s j) ->
    rest s2 = rest s -> s_ctl s2 = s_ctl s -> s_dmn s2 = s_dmn s -> zones s2 = zones s -> s_effects s2 = s_effects s ->
    conn_cleanup s2 i = Ok s' -> full s' /\ quiet s s'.
  Proof.
    intros I Ec K Pm Why. intros. assert (I2 := I). destruct I2 as (C & _). destruct (reading s i c C Ec K) as (done & D & L & _ & _ & _ & W & Ct).
    apply (close_from s s2 i c [Got (s_now s) key v d]); auto. split; [reflexivity|]. split; [reflexivity|]. right. exists (k_perms c), done, [Got (s_now s) key v d].
    split; [exact D|]. split; [now rewrite L, <- !app_assoc|]. right. split; [reflexivity|]. exists (s_now s), key, v, d. auto.
  Qed.

  (** ** Everyone who waits is told to come back later *)
  Definition later (s : css) : css :=
    with_queues (with_conns s (fun j => if waits s j then match s_conns s j with Some c => Some (answered c RESP_LATR) | None => None end else s_conns s j)) [] [].
  Lemma latr_spec s : NoDup (s_active s ++ s_queued s) -> (forall j, waits s j = true -> exists c, s_conns s j = Some c /\ k_state c = WAITING_SERVER) ->
    exists f, latr_all_reloaders fds s = Ok (with_queues (with_conns s f) [] []) /\ forall j, f j = s_conns (later s) j.
  Proof.
    intros N W. unfold latr_all_reloaders. destruct (nodup_app _ _ N) as (N1 & N2 & Dj).
    destruct (respond_all_spec fds RESP_LATR (s_active s) s N1) as (f1 & E1 & F1); [intros j J; apply W, waits_in; now left|]. rewrite E1. cbn [rbind].
    destruct (respond_all_spec fds RESP_LATR (s_queued (with_conns s f1)) (with_conns s f1)) as (f2 & E2 & F2); [exact N2| |].
    - cbn. intros j J. rewrite F1. destruct (existsb (Nat.eqb j) (s_active s)) eqn:Q; [apply existsb_eqb in Q; destruct (Dj j Q J)|]. apply W, waits_in. now right.
    - rewrite E2. cbn [rbind]. exists f2. split; [reflexivity|]. intros j. rewrite F2. cbn. rewrite F1. unfold waits. rewrite existsb_app.
      destruct (existsb (Nat.eqb j) (s_active s)) eqn:Q1; destruct (existsb (Nat.eqb j) (s_queued s)) eqn:Q2; cbn; try reflexivity.
      apply existsb_eqb in Q1, Q2. destruct (Dj j Q1 Q2).
  Qed.
  Lemma later_coks s : coks s -> coks (later s).
  Proof.
    intros C. apply (answer_waiters _ _ _ _ s (later s) (s_active s ++ s_queued s) RESP_LATR C); try reflexivity.
    - intros j J. unfold waits. now apply existsb_eqb.
    - intros t NL. now destruct NL.
    - cbn; auto.
    - intros j J. unfold waits. cbn. symmetry. apply existsb_eqb_false in J. exact J.
  Qed.
End Css.
