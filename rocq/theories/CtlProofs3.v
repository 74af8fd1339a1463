(** Requests keep the invariant. *)
From Coq Require Import Lia Permutation.
From Verif Require Import Base CtlModel CtlSpec CtlProofs CtlProofs2.
Local Open Scope N_scope.

Lemma allowed_spec p key : tcp_req_allowed p key = true <-> permitted (Some p) key.
Proof.
  unfold tcp_req_allowed, permitted. destruct p as [a b]. cbn [fst snd].
  destruct (key =? REQ_INFO) eqn:E1; [apply N.eqb_eq in E1; cbn; tauto|]. destruct (key =? REQ_STAT) eqn:E2; [apply N.eqb_eq in E2; cbn; tauto|].
  destruct (key =? REQ_STATE) eqn:E3; [apply N.eqb_eq in E3; cbn; tauto|]. apply N.eqb_neq in E1, E2, E3. cbn [orb].
  destruct (key =? REQ_CHAL) eqn:E4; [apply N.eqb_eq in E4|apply N.eqb_neq in E4]; (destruct (key =? REQ_CHALF) eqn:E5; [apply N.eqb_eq in E5|apply N.eqb_neq in E5]);
    cbn [orb]; try (assert (Z : key <> REQ_ZREL /\ key <> REQ_REPL) by (subst; split; discriminate); tauto).
  destruct (key =? REQ_ZREL) eqn:E6; [apply N.eqb_eq in E6|apply N.eqb_neq in E6]; (destruct (key =? REQ_REPL) eqn:E7; [apply N.eqb_eq in E7|apply N.eqb_neq in E7]); cbn [orb]; try tauto.
  split; [discriminate|tauto].
Qed.

Section Css.
  Variable fds : list N.
  Variables status_v status_d : N.
  Variable R : nat -> N -> Prop.
  Hypothesis Hfds : length fds <> 0%nat.
  Notation exchange := (exchange fds status_v status_d R).
  Notation coks := (coks fds status_v status_d R).
  Notation cok := (cok fds status_v status_d R).
  Notation logs := (logs fds status_v status_d R).
  Notation linv := (linv fds status_v status_d R).
  Notation full := (full fds status_v status_d R).

  (** A new client waits for a load of the zones. *)
  Definition joins (s s' : css) : Prop :=
    exists i v d a, waits s i = false /\ s_pid s = 0 /\ s_pid s' = 0 /\ s_now s' = s_now s /\ (forall j, j <> i -> s_log s' j = s_log s j) /\
      s_log s' i = a ++ [Got (s_now s) REQ_ZREL v d] /\
      ((s_active s <> [] /\ s_active s' = s_active s /\ s_queued s' = s_queued s ++ [i] /\ zones s' = zones s) \/
       (s_active s = [] /\ s_active s' = s_queued s ++ [i] /\ s_queued s' = [] /\ zones s' = zones (spawn_reloader s))).
  Definition calmly (s s' : css) : Prop := (s_stop s' = true /\ zones s' = zones s) \/ quiet s s' \/ joins s s'.
  Definition good (s s' : css) : Prop := full s' /\ calmly s s'.
  Lemma good_quiet s s' : full s' /\ quiet s s' -> good s s'.
  Proof. intros (F & Q). split; [exact F|]. right. now left. Qed.

  Ltac eqb_i := let j := fresh "j" in intros j; cbn; unfold set; destruct (j =? _)%nat eqn:?; rewrite ?Nat.eqb_refl; reflexivity.
  Notation asked := CtlProofs2.asked.

  Lemma asked_conn s i c key v d : s_conns (asked s i c key v d) i = Some (set_state (set_rbuf c key v d) WAITING_SERVER false (k_write c)).
  Proof. cbn. now rewrite set_same. Qed.

  Section Request.
    Variables (s : css) (i : nat) (c : conn) (v d : N) (s' : css).
    Hypothesis I : linv s.
    Hypothesis Ec : s_conns s i = Some c.
    Hypothesis K : k_state c = READING_REQ.
    Notation now := (s_now s).

    Lemma short_now key r : permitted (k_perms c) key -> key <> REQ_CHAL -> In r (short_answers key) -> (key = REQ_ZREL -> r = RESP_LATR) ->
      respond_plain fds (asked s i c key v d) i r = Ok s' -> good s s'.
    Proof.
      intros P NC A Z H. apply good_quiet. apply (reply_at_once fds status_v status_d R s i c key v d r 0 0 s' I Ec K); [|exact H].
      apply Xshort; auto. intros E NL. destruct (NL (Z E)).
    Qed.

    Lemma text_now key n b : permitted (k_perms c) key -> b <> [] ->
      (forall chunks, concat chunks = b -> exchange (k_perms c) ([Got now key v d; Made b; Wrote RESP_ACK n (N.of_nat (length b))] ++ map WroteData chunks)) ->
      respond fds (asked s i c key v d) i RESP_ACK n (N.of_nat (length b)) (Some b) false = Ok s' -> good s s'.
    Proof.
      intros P Nb X H. apply good_quiet. unfold respond in H. rewrite (get_some _ _ _ (asked_conn s i c key v d)) in H. cbn [rbind] in H. ok1 H. ok1 H. ok1 H. ok1 H. subst s'.
      set (s' := log _ _ _). destruct I as (C & G & E & S). destruct (reading _ _ _ _ s i c C Ec K) as (done & D & L & Rd & Wr & Dt & W & Ct).
      assert (Hl : forall j, s_log s' j = if (j =? i)%nat then s_log s i ++ [Got now key v d; Made b] else s_log s j).
      { intros j. subst s'. cbn. unfold set. destruct (j =? i)%nat; rewrite ?Nat.eqb_refl; [|reflexivity]. now rewrite <- app_assoc. }
      split; [apply linv_full; split; [|split; [|split]]|].
      - eapply (coks_upd _ _ _ _ s s' i _ _ C); [subst s'; eqb_i|exact Hl|reflexivity|reflexivity|]. exists done, [Got now key v d; Made b]. split; [exact D|]. split; [now rewrite L, <- app_assoc|].
        unfold cst. cbn. change (waits s' i) with (waits s i). change (is_ctl s' i) with (is_ctl s i). rewrite Nnat.Nat2N.id. repeat (split; [assumption || reflexivity|]).
        exact X.
      - apply (glob_upd s s' i); auto; try (now subst s'; cbn; rewrite ?set_same); try congruence; intros j J; subst s'; cbn; now rewrite !set_other.
      - apply (eff_same s); auto. now apply longer_upd with i [Got now key v d; Made b].
      - exact S.
      - apply (quiet_upd s s' i _ W Hl); auto.
    Qed.

    (** [handle_req_zrel] *)
    Lemma zrel_good : permitted (k_perms c) REQ_ZREL -> handle_req_zrel fds (asked s i c REQ_ZREL v d) i = Ok s' -> good s s'.
    Proof.
      intros P H. unfold handle_req_zrel in H. destruct (negb (s_pid _ =? 0)) eqn:P0.
      { now apply (short_now REQ_ZREL RESP_LATR P) in H; [|discriminate|cbn; auto|]. }
      apply Bool.negb_false_iff, N.eqb_eq in P0. change (s_pid (asked s i c REQ_ZREL v d)) with (s_pid s) in P0. cbn [did with_obs with_queues s_active asked put_conn with_conns log] in H.
      destruct I as (C & G & E & S). destruct (reading _ _ _ _ s i c C Ec K) as (done & D & L & Rd & Wr & Dt & W & Ct).
      assert (NI : ~ In i (s_active s ++ s_queued s)) by (now apply existsb_eqb_false).
      assert (Ex : exists zs, s_conns s' i = Some (set_state (set_rbuf c REQ_ZREL v d) WAITING_SERVER false (k_write c)) /\ (forall j, s_conns s' j = if (j =? i)%nat then s_conns s' i else s_conns s j) /\
                    (forall j, s_log s' j = if (j =? i)%nat then s_log s i ++ [Got now REQ_ZREL v d] else s_log s j) /\
                    s_ctl s' = s_ctl s /\ s_dmn s' = s_dmn s /\ s_pid s' = s_pid s /\ s_timer s' = s_timer s /\ s_accept s' = s_accept s /\ s_stop s' = s_stop s /\ s_next s' = s_next s /\ s_now s' = s_now s /\
                    s_effects s' = s_effects s ++ [By i DidQueueReload] /\ zones s' = zs /\
                    ((s_active s <> [] /\ s_active s' = s_active s /\ s_queued s' = s_queued s ++ [i] /\ zs = zones s) \/
                     (s_active s = [] /\ s_active s' = s_queued s ++ [i] /\ s_queued s' = [] /\ zs = zones (spawn_reloader s)))).
      { destruct (s_active s) as [|a l] eqn:Ac; ok1 H; subst s'; eexists.
        - split; [cbn; apply set_same|]. split; [eqb_i|]. split; [eqb_i|]. repeat (split; [reflexivity|]). right. cbn. rewrite ?Ac. auto.
        - split; [cbn; apply set_same|]. split; [eqb_i|]. split; [eqb_i|]. repeat (split; [reflexivity|]). left. cbn. rewrite ?Ac. split; [discriminate|auto]. }
      destruct Ex as (zs & Hci & Hc & Hl & Hk & Hd & Hp & Ht & Ha & Hs & Hn & Hw & He & Hz & Q). rewrite Hci in Hc.
      assert (Wi : waits s' i = true). { apply waits_in. destruct Q as [(_ & -> & -> & _)|(_ & -> & -> & _)]; rewrite !in_app_iff; cbn; auto. }
      assert (Wj : forall j, j <> i -> waits s' j = waits s j).
      { intros j J. unfold waits. destruct Q as [(_ & -> & -> & _)|(-> & -> & -> & _)]; cbn [app]; rewrite ?app_assoc, ?existsb_app, ?app_nil_r; cbn; (destruct (j =? i)%nat eqn:F; [apply Nat.eqb_eq in F; contradiction|]);
          rewrite ?existsb_app; cbn; rewrite ?F, ?Bool.orb_false_r; reflexivity. }
      split; [apply linv_full; split; [|split; [|split]]|].
      - apply (coks_upd _ _ _ _ s s' i _ _ C Hc Hl Wj); [unfold is_ctl; now rewrite Hk|]. exists done, [Got now REQ_ZREL v d]. split; [exact D|]. split; [now rewrite L, <- app_assoc|].
        unfold cst. cbn. rewrite Wi. unfold is_ctl. rewrite Hk. exists now. repeat (split; [assumption || reflexivity|]). left. auto.
      - constructor.
        + rewrite Hn. intros j J. destruct (g_next s G j J) as (X1 & X2). rewrite Hc, Hl. destruct (j =? i)%nat eqn:F; [|auto]. apply Nat.eqb_eq in F. congruence.
        + destruct Q as [(_ & -> & -> & _)|(A0 & -> & -> & _)]; [|rewrite A0 in NI; rewrite app_nil_r]; rewrite ?app_assoc.
          * pose proof (g_nodup s G) as N. apply (Permutation.Permutation_NoDup (l := i :: (s_active s ++ s_queued s))); [|now constructor]. apply Permutation.Permutation_cons_append.
          * pose proof (g_nodup s G) as N. rewrite A0 in N. apply (Permutation.Permutation_NoDup (l := i :: s_queued s)); [apply Permutation.Permutation_cons_append|now constructor].
        + rewrite Hp, Hk, Hd, Ht, Ha. now apply g_pid0.
        + rewrite Hp. congruence.
        + rewrite Hd, Hk. intros j J. destruct (g_dmn s G j J) as (X1 & X2). split; [|exact X2]. rewrite Hc. destruct (j =? i)%nat; [discriminate|exact X1].
      - apply (eff_add s s' (By i DidQueueReload)); auto; [|now apply longer_upd with i [Got now REQ_ZREL v d]|].
        + intros st Ls. specialize (Ls S). destruct st as [[p q]|]; [destruct Ls as (_ & Ls & _); congruence|]. exists None. split; [now apply May_reload|]. intros _. congruence.
        + intros i' a' [= <- <-]. rewrite Hl, Nat.eqb_refl, L. exists (k_perms c), (concat done), now, REQ_ZREL, v, d, [], []. split; [now rewrite <- app_assoc|]. cbn. auto.
      - congruence.
      - right. right. exists i, v, d, (s_log s i). rewrite Hl, Nat.eqb_refl. rewrite Hp, Hz. repeat (split; [congruence || auto|]); [|destruct Q as [Q|Q]; [left|right]; tauto].
        intros j J. rewrite Hl. destruct (j =? i)%nat eqn:F; [apply Nat.eqb_eq in F; contradiction|reflexivity].
    Qed.

    (** A replacement starts: everyone who waits for the zones is told to come back. *)
    Lemma start_good sw s'' pid ctl dmn key oc a :
      s_conns s i <> None -> waits s i = false ->
      (forall j, s_conns s'' j = if (j =? i)%nat then Some oc else s_conns (later s) j) ->
      (forall j, s_log s'' j = if (j =? i)%nat then s_log s i ++ [Got now key v d] else s_log s j) ->
      s_active s'' = [] -> s_queued s'' = [] -> s_pid s'' = pid -> s_ctl s'' = ctl -> s_dmn s'' = dmn -> s_timer s'' = true -> s_stop s'' = false -> s_next s'' = s_next s -> s_now s'' = s_now s -> zones s'' = zones s ->
      s_effects s'' = s_effects s ++ [By i a] -> sw = s ->
      pid <> 0 -> (forall j, j <> i -> opt_is ctl j = is_ctl s j) -> (forall j, dmn = Some j -> j = i /\ ctl <> Some i) ->
      cok (Some oc) (s_log s i ++ [Got now key v d]) false (opt_is ctl i) ->
      permitted (k_perms c) key -> request_of a key v d -> data_of a = [] ->
      (forall st, linked st s -> exists st', may st (By i a) st' /\ linked st' s'') -> good s s''.
    Proof.
      intros NN W Hc Hl Ac Qu Hp Hk Hd Ht Hs Hn Hw Hz He -> Np Kj Dj X Pm Rq Da M.
      assert (I2 := I). destruct I2 as (C & G & E & S). destruct (reading _ _ _ _ s i c C Ec K) as (done & D & L & _).
      split; [apply linv_full; split; [|split; [|split]]|].
      - eapply (coks_upd _ _ _ _ (later s) s'' i _ _ (later_coks fds status_v status_d R s C)).
        + exact Hc.
        + exact Hl.
        + intros j J. unfold waits. rewrite Ac, Qu. reflexivity.
        + intros j J. unfold is_ctl. rewrite Hk. rewrite (Kj j J). reflexivity.
        + unfold waits, is_ctl. rewrite Ac, Qu, Hk. exact X.
      - constructor.
        + rewrite Hn. intros j J. destruct (g_next s G j J) as (X1 & X2). rewrite Hc, Hl. destruct (j =? i)%nat eqn:F; [apply Nat.eqb_eq in F; congruence|]. cbn. rewrite X1. now destruct (waits s j).
        + rewrite Ac, Qu. constructor.
        + congruence.
        + intros _. auto.
        + rewrite Hd, Hk. intros j J. destruct (Dj j J) as (-> & N2). split; [|exact N2]. rewrite Hc, Nat.eqb_refl. discriminate.
      - apply (eff_add s s'' (By i a)); auto; [now apply longer_upd with i [Got now key v d]|].
        intros i' a' [= <- <-]. rewrite Hl, Nat.eqb_refl, L. exists (k_perms c), (concat done), now, key, v, d, [], []. rewrite Da. split; [now rewrite <- app_assoc|auto].
      - exact Hs.
      - right. left. split; [exact Hz|]. split; [exact Hw|]. right. rewrite Hp. auto.
    Qed.

    Lemma waiting_asked key sa : (forall j, s_conns sa j = s_conns (asked s i c key v d) j) -> s_active sa = s_active s -> s_queued sa = s_queued s ->
      NoDup (s_active sa ++ s_queued sa) /\ (forall j, waits sa j = true -> exists c', s_conns sa j = Some c' /\ k_state c' = WAITING_SERVER).
    Proof.
      intros Hc Ac Qu. destruct I as (C & G & E & S). rewrite Ac, Qu. split; [now apply g_nodup|]. intros j J. rewrite Hc. rewrite (waits_same s sa Ac Qu) in J.
      destruct (waiter _ _ _ _ s j C J) as (c' & t & done & Ec' & Wc & _). destruct (reading _ _ _ _ s i c C Ec K) as (_ & _ & _ & _ & _ & _ & W & _).
      assert (j <> i) by congruence. exists c'. cbn. now rewrite set_other.
    Qed.
    Lemma later_asked key sa j : (forall j, s_conns sa j = s_conns (asked s i c key v d) j) -> s_active sa = s_active s -> s_queued sa = s_queued s ->
      s_conns (later sa) j = if (j =? i)%nat then s_conns (asked s i c key v d) i else s_conns (later s) j.
    Proof.
      intros Hc Ac Qu. destruct I as (C & G & E & S). destruct (reading _ _ _ _ s i c C Ec K) as (_ & _ & _ & _ & _ & _ & W & _).
      unfold later. cbn [s_conns with_queues with_conns]. rewrite (waits_same s sa Ac Qu), Hc. destruct (j =? i)%nat eqn:F.
      - apply Nat.eqb_eq in F. subst j. now rewrite W.
      - apply Nat.eqb_neq in F. cbn. rewrite set_other by exact F. reflexivity.
    Qed.

    (** [handle_req_repl] *)
    Lemma repl_good x : permitted (k_perms c) REQ_REPL -> handle_req_repl fds (asked s i c REQ_REPL v d) i x = Ok s' -> good s s'.
    Proof.
      intros P H. unfold handle_req_repl in H. destruct (negb (s_pid _ =? 0)) eqn:P0.
      { now apply (short_now REQ_REPL RESP_LATR P) in H; [|discriminate|cbn; auto|]. }
      apply Bool.negb_false_iff, N.eqb_eq in P0. change (s_pid (asked s i c REQ_REPL v d)) with (s_pid s) in P0. ok1 H.
      destruct (x_spawn x <=? 0)%Z eqn:Z. { now apply (short_now REQ_REPL RESP_FAIL P) in H; [|discriminate|cbn; auto|]. }
      apply Z.leb_gt in Z. set (pid := Z.to_N (x_spawn x)) in *. assert (Np : pid <> 0) by (subst pid; lia). clearbody pid. clear Z.
      set (sa := did _ _) in H. assert (Hca : forall j, s_conns sa j = s_conns (asked s i c REQ_REPL v d) j) by reflexivity.
      assert (Wa := waiting_asked REQ_REPL sa Hca eq_refl eq_refl). destruct Wa as (Wa1 & Wa2). destruct (latr_spec fds sa Wa1 Wa2) as (f & Ef & F). rewrite Ef in H. apply ok_eq in H. subst s'.
      assert (I2 := I). destruct I2 as (C & G & E & S). destruct (reading _ _ _ _ s i c C Ec K) as (done & D & L & Rd & Wr & Dt & W & Ct). destruct (g_pid0 s G P0) as (Kn & Dn & _).
      eapply (start_good s _ pid (Some i) None REQ_REPL _ (DidSpawn pid)); try reflexivity; auto; try congruence.
      - intros j. cbn [s_conns with_queues with_conns]. rewrite F, (later_asked REQ_REPL sa j Hca eq_refl eq_refl). rewrite asked_conn. reflexivity.
      - intros j J. cbn. unfold is_ctl. rewrite Kn. cbn. destruct (i =? j)%nat eqn:Q; [apply Nat.eqb_eq in Q; congruence|reflexivity].
      - exists done, [Got now REQ_REPL v d]. split; [exact D|]. split; [now rewrite L, <- app_assoc|]. unfold cst. cbn. rewrite Nat.eqb_refl. exists now. repeat (split; [assumption || reflexivity|]). right. auto.
      - intros st Ls. specialize (Ls S). destruct st as [[p q]|]; [destruct Ls as (_ & Ls & _); congruence|]. exists (Some (pid, None)). split; [now apply May_spawn|]. intros _. cbn. split; [reflexivity|]. split; [exact Np|]. congruence.
    Qed.

    (** [handle_req_tak1] *)
    Lemma tak1_good : permitted (k_perms c) REQ_TAK1 -> d <> 0 -> handle_req_tak1 fds (asked s i c REQ_TAK1 v d) i = Ok s' -> good s s'.
    Proof.
      intros P Nd H. unfold handle_req_tak1 in H. rewrite (get_some _ _ _ (asked_conn s i c REQ_TAK1 v d)) in H. cbn [rbind] in H. cbn [k_d set_state set_rbuf] in H.
      destruct (negb (s_pid (asked s i c REQ_TAK1 v d) =? 0) && negb (s_pid (asked s i c REQ_TAK1 v d) =? d)) eqn:Pq.
      { now apply (short_now REQ_TAK1 RESP_LATR P) in H; [|discriminate|cbn; auto|]. }
      change (s_pid (asked s i c REQ_TAK1 v d)) with (s_pid s) in Pq.
      assert (Pd : s_pid s = 0 \/ s_pid s = d). { apply Bool.andb_false_iff in Pq. destruct Pq as [Q|Q]; apply Bool.negb_false_iff, N.eqb_eq in Q; auto. }
      ok1 H. change (s_dmn (asked s i c REQ_TAK1 v d)) with (s_dmn s) in A. destruct (s_dmn s) as [|] eqn:Dn; [discriminate|].
      set (sa := did _ _) in H. assert (Hca : forall j, s_conns sa j = s_conns (asked s i c REQ_TAK1 v d) j) by reflexivity.
      assert (Wa := waiting_asked REQ_TAK1 sa Hca eq_refl eq_refl). destruct Wa as (Wa1 & Wa2). destruct (latr_spec fds sa Wa1 Wa2) as (f & Ef & F). rewrite Ef in H. cbn [rbind] in H.
      assert (Cf : s_conns (with_queues (with_conns sa f) [] []) i = Some (set_state (set_rbuf c REQ_TAK1 v d) WAITING_SERVER false (k_write c))).
      { cbn [s_conns with_queues with_conns]. rewrite F, (later_asked REQ_TAK1 sa i Hca eq_refl eq_refl), Nat.eqb_refl. apply asked_conn. }
      destruct (respond_spec fds _ _ _ _ _ _ _ Cf H) as (_ & _ & ->). clear H.
      assert (I2 := I). destruct I2 as (C & G & E & S). destruct (reading _ _ _ _ s i c C Ec K) as (done & D & L & Rd & Wr & Dt & W & Ct).
      eapply (start_good s _ d (s_ctl s) (Some i) REQ_TAK1 _ (DidAnnounce d)); try reflexivity; auto; try congruence.
      - intros j. cbn [s_conns with_queues with_conns put_conn]. unfold set. destruct (j =? i)%nat eqn:Q; [reflexivity|]. rewrite F, (later_asked REQ_TAK1 sa j Hca eq_refl eq_refl), Q. reflexivity.
      - intros j [= <-]. split; [reflexivity|]. intros Q. apply opt_is_true in Q. unfold is_ctl in Ct. congruence.
      - exists done, [Got now REQ_TAK1 v d]. split; [exact D|]. split; [now rewrite L, <- app_assoc|]. unfold cst. cbn. unfold is_ctl in Ct. rewrite Dt, Ct. repeat (split; [assumption || reflexivity|]).
        apply Xshort; [exact P|discriminate|cbn; auto|discriminate].
      - cbn. auto.
      - intros st Ls. specialize (Ls S). exists (Some (d, Some i)). split.
        + apply May_announce; [exact Nd|]. destruct st as [[p q]|]; [|exact Logic.I]. destruct Ls as (-> & Ls & _). destruct Pd; congruence.
        + intros _. cbn. split; [reflexivity|]. split; [exact Nd|]. intros j [= <-]. reflexivity.
    Qed.

    (** [handle_req_tak2] *)
    Lemma illegal_good key : permitted (k_perms c) key -> key = REQ_TAK2 \/ key = REQ_TAKE ->
      (do s2 <- respond_plain fds (asked s i c key v d) i RESP_FAIL ; conn_cleanup s2 i) = Ok s' -> good s s'.
    Proof.
      intros P Kt H. apply good_quiet. ok1 H. destruct (respond_spec fds _ _ _ _ _ _ _ (asked_conn s i c key v d) E) as (_ & _ & ->).
      eapply (hang_up fds status_v status_d R s i c _ key v d s' I Ec K P); [tauto| | | | | | | |exact H]; try reflexivity; try eqb_i.
      intros j J. cbn. now rewrite !set_other.
    Qed.
    Lemma tak2_good x : permitted (k_perms c) REQ_TAK2 -> N.of_nat (length (x_text x)) <= 4294967295 -> handle_req_tak2 fds (asked s i c REQ_TAK2 v d) i x = Ok s' -> good s s'.
    Proof.
      intros P Lx H. unfold handle_req_tak2 in H. rewrite (get_some _ _ _ (asked_conn s i c REQ_TAK2 v d)) in H. cbn [rbind] in H.
      destruct (negb (legal_take _ _ i)); [now apply (illegal_good REQ_TAK2 P) in H; [|now left]|].
      rewrite (N.mod_small (N.of_nat _)) in H by (change two32 with 4294967296; lia). set (n := x_csets x mod two32) in *. clearbody n.
      destruct (x_text x) as [|b0 b] eqn:B.
      - apply good_quiet. apply (reply_at_once fds status_v status_d R s i c REQ_TAK2 v d RESP_ACK n 0 s' I Ec K); [now apply Xtak2none|exact H].
      - rewrite <- B in *. apply (text_now REQ_TAK2 n (x_text x) P); [congruence| |exact H]. intros chunks Q. apply Xtak2; [exact P|lia|exact Q].
    Qed.

    (** [handle_req_take] *)
    Lemma take_good : permitted (k_perms c) REQ_TAKE -> handle_req_take fds (asked s i c REQ_TAKE v d) i = Ok s' -> good s s'.
    Proof.
      intros P H. unfold handle_req_take in H. rewrite (get_some _ _ _ (asked_conn s i c REQ_TAKE v d)) in H. cbn [rbind] in H.
      destruct (legal_take _ _ i) eqn:Lt; cbn [negb] in H; [|now apply (illegal_good REQ_TAKE P) in H; [|now right]].
      unfold legal_take in Lt. apply Bool.andb_true_iff in Lt. destruct Lt as (Lt & Ld). apply Bool.andb_true_iff in Lt. destruct Lt as (Lp & _). apply Bool.negb_true_iff, N.eqb_neq in Lp. apply opt_is_true in Ld.
      change (s_pid (asked s i c REQ_TAKE v d)) with (s_pid s) in Lp. change (s_dmn (asked s i c REQ_TAKE v d)) with (s_dmn s) in Ld.
      ok1 H. unfold respond in H. set (sa := did _ _) in H. assert (Ea : s_conns sa i = Some (set_state (set_rbuf c REQ_TAKE v d) WAITING_SERVER false (k_write c))) by apply asked_conn.
      rewrite (get_some _ _ _ Ea) in H. cbn [rbind] in H. ok1 H. ok1 H. ok1 H. ok1 H. subst s'. set (s' := put_conn _ _ _).
      assert (I2 := I). destruct I2 as (C & G & E & S). destruct (reading _ _ _ _ s i c C Ec K) as (done & D & L & Rd & Wr & Dt & W & Ct).
      assert (Hl : forall j, s_log s' j = if (j =? i)%nat then s_log s i ++ [Got now REQ_TAKE v d] else s_log s j) by (subst s' sa; eqb_i).
      split; [apply linv_full; split; [|split; [|split]]|].
      - eapply (coks_upd _ _ _ _ s s' i _ _ C); [subst s' sa; eqb_i|exact Hl|reflexivity|reflexivity|]. exists done, [Got now REQ_TAKE v d]. split; [exact D|]. split; [now rewrite L, <- app_assoc|].
        unfold cst. cbn. change (waits s' i) with (waits s i). change (is_ctl s' i) with (is_ctl s i). repeat (split; [assumption || reflexivity|]).
        exists now, v, d, []. repeat (split; [reflexivity|]). split; [lia|]. split; [constructor|exact P].
      - apply (glob_upd s s' i); auto; try (now subst s'; cbn; rewrite ?set_same); try congruence; intros j J; subst s' sa; cbn; now rewrite !set_other.
      - apply (eff_add s s' (By i DidSendFds)); auto; [|now apply longer_upd with i [Got now REQ_TAKE v d]|].
        + intros st Ls. specialize (Ls S). destruct st as [[p q]|]; [|congruence]. destruct Ls as (-> & _ & Ls). exists (Some (s_pid s, q)). rewrite (Ls i Ld). split; [now apply May_send with (s_pid s)|].
          intros _. cbn. split; [reflexivity|]. split; [exact Lp|]. congruence.
        + intros i' a' [= <- <-]. rewrite Hl, Nat.eqb_refl, L. exists (k_perms c), (concat done), now, REQ_TAKE, v, d, [], []. split; [now rewrite <- app_assoc|]. cbn. auto.
      - exact S.
      - right. left. apply (quiet_upd s s' i _ W Hl); auto.
    Qed.
  End Request.
End Css.
