(** All events keep the invariant: writing, accepting, the replacement's end,
    the end of a load. *)
From Coq Require Import Lia Permutation.
From Verif Require Import Base CtlModel CtlSpec CtlProofs CtlProofs2 CtlProofs3 CtlProofs4.
Local Open Scope N_scope.

Section Css.
  Variable fds : list N.
  Variables status_v status_d : N.
  Variable R : nat -> N -> Prop.
  Hypothesis Hfds : length fds <> 0%nat.
  Notation exchange := (exchange fds status_v status_d R).
  Notation connection_log := (connection_log fds status_v status_d R).
  Notation coks := (coks fds status_v status_d R).
  Notation cok := (cok fds status_v status_d R).
  Notation logs := (logs fds status_v status_d R).
  Notation linv := (linv fds status_v status_d R).
  Notation full := (full fds status_v status_d R).
  Notation good := (good fds status_v status_d R).
  Ltac eqb_i := let j := fresh "j" in intros j; cbn; unfold set; destruct (j =? _)%nat eqn:?; rewrite ?Nat.eqb_refl; reflexivity.

  Lemma local_good s i c s2 oc items : linv s -> s_conns s i = Some c -> waits s i = false -> is_ctl s i = false ->
    (forall j, s_conns s2 j = if (j =? i)%nat then Some oc else s_conns s j) -> (forall j, s_log s2 j = if (j =? i)%nat then s_log s i ++ items else s_log s j) ->
    rest s2 = rest s -> s_ctl s2 = s_ctl s -> s_dmn s2 = s_dmn s -> zones s2 = zones s -> s_effects s2 = s_effects s ->
    cok (Some oc) (s_log s i ++ items) false false -> good s s2.
  Proof.
    intros (C & G & E & S) Ec W Ct Hc Hl Re Hk Hd Hz Ef X. unfold rest in Re. injection Re as Nw Nx Q Ac Pq T Acc St.
    apply good_quiet. split; [apply linv_full; split; [|split; [|split]]|].
    - apply (coks_upd _ _ _ _ s s2 i _ _ C Hc Hl); [intros; now apply waits_same|unfold is_ctl; now rewrite Hk|]. rewrite (waits_same s s2 Ac Q), W. unfold is_ctl. rewrite Hk. unfold is_ctl in Ct. rewrite Ct. exact X.
    - apply (glob_upd s s2 i); auto; try congruence; [rewrite Hc, Nat.eqb_refl; discriminate| |]; intros j J; [rewrite Hc|rewrite Hl]; apply Nat.eqb_neq in J; now rewrite J.
    - apply (eff_same s); auto; [congruence|now apply longer_upd with i items].
    - congruence.
    - apply (quiet_upd s s2 i _ W Hl); auto.
  Qed.

  Lemma rest_split {A} (b : list A) k n : (k <= length b)%nat -> firstn k b ++ firstn n (skipn k b) = firstn (k + n) b.
  Proof.
    intros L. rewrite <- (firstn_skipn k b) at 3. rewrite firstn_app, (firstn_all2 (n := k + n) (firstn k b)) by (rewrite firstn_length; lia).
    f_equal. f_equal. rewrite firstn_length. lia.
  Qed.

  (** Sending data that has been announced. *)
  Lemma write_data_good s s2 i c c2 items hd b done chunks r s' :
    linv s -> s_conns s i = Some c -> waits s i = false -> is_ctl s i = false ->
    (forall j, s_conns s2 j = if (j =? i)%nat then Some c2 else s_conns s j) -> (forall j, s_log s2 j = if (j =? i)%nat then s_log s i ++ items else s_log s j) ->
    rest s2 = rest s -> s_ctl s2 = s_ctl s -> s_dmn s2 = s_dmn s -> zones s2 = zones s -> s_effects s2 = s_effects s ->
    k_state c2 = WRITING_RESP_DATA -> k_data c2 = Some b -> k_size c2 = length b -> k_read c2 = false -> k_write c2 = true -> concat chunks = firstn (k_done c2) b ->
    Forall (exchange (k_perms c2)) done -> s_log s i ++ items = [Opened (k_perms c2)] ++ concat done ++ hd ++ map WroteData chunks ->
    (forall chunks', concat chunks' = b -> exchange (k_perms c2) (hd ++ map WroteData chunks')) ->
    conn_write_data s2 i r = Ok s' -> good s s'.
  Proof.
    intros I Ec W Ct Hc Hl Re Hk Hd Hz Ef St Dt Sz Rd Wr Cc D L X H.
    assert (Ec2 : s_conns s2 i = Some c2) by (now rewrite Hc, Nat.eqb_refl).
    unfold conn_write_data in H. rewrite (get_some _ _ _ Ec2) in H. cbn [rbind] in H. rewrite St, Dt in H. ok1 H. ok1 H. ok1 H. apply Nat.ltb_lt in A1. clear A A0.
    assert (Cs2 : cok (Some c2) (s_log s i ++ items) false false).
    { exists done, (hd ++ map WroteData chunks). split; [exact D|]. split; [exact L|]. unfold cst. rewrite St, Rd, Wr. repeat (split; [reflexivity|]). exists b, hd, chunks. auto 10. }
    destruct r as [n| |].
    - ok1 H. apply rdn_inv in E. destruct E as (Ln & ->). set (ch := firstn _ (skipn _ _)) in *. assert (Lc : length ch = Nat.min n (k_size c2 - k_done c2)) by (subst ch; rewrite firstn_length, skipn_length; lia).
      assert (Cc2 : concat (chunks ++ [ch]) = firstn (k_done c2 + length ch) b). { rewrite concat_snoc, Cc, Lc. subst ch. apply rest_split. lia. }
      clearbody ch. destruct (k_done c2 + length ch =? k_size c2)%nat eqn:Q; ok1 H; subst s'.
      + apply Nat.eqb_eq in Q. eapply (local_good s i c _ _ (items ++ [WroteData ch]) I Ec W Ct).
        * intros j. cbn. unfold set. rewrite Hc. now destruct (j =? i)%nat.
        * intros j. cbn. unfold set. rewrite !Hl, Nat.eqb_refl. destruct (j =? i)%nat; [now rewrite app_assoc|reflexivity].
        * exact Re.
        * exact Hk.
        * exact Hd.
        * exact Hz.
        * exact Ef.
        * exists (done ++ [hd ++ map WroteData (chunks ++ [ch])]), []. cbn [k_perms set_state set_data]. split; [apply Forall_app; split; [exact D|constructor; [|constructor]]|].
          -- apply X. rewrite Cc2, Q, Sz. apply firstn_all.
          -- split; [rewrite app_nil_r, concat_snoc, app_assoc, L, map_app, <- !app_assoc; reflexivity|]. unfold cst. cbn. auto 10.
      + apply Nat.eqb_neq in Q. eapply (local_good s i c _ _ (items ++ [WroteData ch]) I Ec W Ct).
        * intros j. cbn. unfold set. rewrite Hc. now destruct (j =? i)%nat.
        * intros j. cbn. unfold set. rewrite !Hl, Nat.eqb_refl. destruct (j =? i)%nat; [now rewrite app_assoc|reflexivity].
        * exact Re.
        * exact Hk.
        * exact Hd.
        * exact Hz.
        * exact Ef.
        * exists done, (hd ++ map WroteData (chunks ++ [ch])). cbn [k_perms set_state set_data]. split; [exact D|]. split; [rewrite app_assoc, L, map_app, <- !app_assoc; reflexivity|]. unfold cst. cbn. rewrite St, Rd, Wr. repeat (split; [reflexivity|]).
          exists b, hd, (chunks ++ [ch]). repeat (split; [assumption || reflexivity|]). split; [lia|]. auto.
    - ok1 H. subst s'. now apply (local_good s i c s2 c2 items).
    - apply good_quiet. apply (close_from fds status_v status_d R s s2 i c items); auto.
      + intros j J. rewrite Hc. apply Nat.eqb_neq in J. now rewrite J.
      + now apply (cok_closed fds status_v status_d R c2 _ false false).
  Qed.

  Lemma write_good s i c r r2 s' : linv s -> s_conns s i = Some c -> k_write c = true -> conn_write fds s i r r2 = Ok s' -> good s s'.
  Proof.
    intros I Ec Kw H. assert (I2 := I). destruct I2 as (C & G & E & S). destruct (watched fds status_v status_d R s i c C Ec (or_intror Kw)) as (W & Ct).
    assert (Close : forall s'', conn_cleanup s i = Ok s'' -> good s s''). { intros s'' H'. apply good_quiet. now apply (close_open fds status_v status_d R Hfds s i c). }
    assert (Ci := C i). rewrite Ec in Ci. destruct Ci as (done & part & D & L & Cs). unfold conn_write in H. rewrite (get_some _ _ _ Ec) in H. cbn [rbind] in H. ok1 H. unfold cst in Cs.
    destruct (k_state c) eqn:K; try discriminate.
    - (* the 8 bytes of an answer *)
      destruct Cs as (Rd & Wr & _ & _ & Cs). ok1 H. unfold conn_write_resp in E0. rewrite (get_some _ _ _ Ec) in E0. cbn [rbind] in E0. rewrite K in E0. ok1 E0. destruct r.
      + destruct (k_data c) as [b|] eqn:Dt; apply ok_eq in E0; subst y; cbn iota in H.
        * destruct Cs as (Sz & Dn & _ & X). set (w := Wrote (k_wkey c) (k_wv c) (k_wd c)) in *.
          eapply (write_data_good s _ i c _ [w] (part ++ [w]) b done [] r2 s' I Ec W Ct); try exact H; try reflexivity; try eqb_i; auto.
          -- cbn. now rewrite Dn.
          -- rewrite L. cbn. rewrite app_nil_r, <- !app_assoc. reflexivity.
          -- intros ch Q. cbn. rewrite <- app_assoc. now apply X.
        * ok1 H. subst s'. eapply (local_good s i c _ _ [Wrote (k_wkey c) (k_wv c) (k_wd c)] I Ec W Ct); try reflexivity; try eqb_i.
          exists (done ++ [part ++ [Wrote (k_wkey c) (k_wv c) (k_wd c)]]), []. split; [apply Forall_app; split; [exact D|now constructor]|]. split; [rewrite app_nil_r, concat_snoc, L, <- !app_assoc; reflexivity|]. unfold cst. cbn. auto 10.
      + apply ok_eq in E0. subst y. cbn iota in H. ok1 H. subst s'. now apply same_good.
      + ok1 E0. apply ok_eq in E0. subst y. cbn iota in H. ok1 H. subst s'. now apply Close.
    - (* sockets *)
      destruct Cs as (Rd & Wr & _ & _ & Dt & t & v & d & chunks & -> & Wk & Wv & Wd & Sz & Cc & Lt & F & P).
      ok1 H. unfold conn_write_resp in E0. rewrite (get_some _ _ _ Ec) in E0. cbn [rbind] in E0. rewrite K in E0. ok1 E0. ok1 E0. ok1 E0. apply rdn_inv in E1. destruct E1 as (Ln & ->).
      set (n := Nat.min (k_size c - k_done c) SCM_MAX_FDS) in *. assert (Nn : (1 <= n <= 253)%nat) by (subst n; unfold SCM_MAX_FDS; lia). set (ch := firstn n (skipn (k_done c) fds)) in *.
      assert (Lc : length ch = n) by (subst ch; rewrite firstn_length, skipn_length; lia).
      assert (Cc2 : concat (chunks ++ [ch]) = firstn (k_done c + n) fds). { rewrite concat_snoc, Cc. subst ch. apply rest_split. lia. }
      assert (F2 : Forall (fun x => (1 <= length x <= 253)%nat) (chunks ++ [ch])) by (apply Forall_app; split; [exact F|constructor; [lia|constructor]]). clearbody n ch.
      destruct r; [| |ok1 E0; apply ok_eq in E0; subst y; cbn iota in H; ok1 H; subst s'; now apply Close].
      + destruct (k_done c + n <? k_size c)%nat eqn:Q; ok1 E0; subst y; cbn iota in H; ok1 H; subst s'; rewrite Wk, Wv, Wd.
        * apply Nat.ltb_lt in Q. eapply (local_good s i c _ _ [WroteFds RESP_ACK (N.of_nat (length fds)) 0 ch] I Ec W Ct); try reflexivity; try eqb_i.
          exists done, ([Got t REQ_TAKE v d] ++ map (WroteFds RESP_ACK (N.of_nat (length fds)) 0) (chunks ++ [ch])). split; [exact D|]. split; [rewrite L, map_app, <- !app_assoc; reflexivity|]. unfold cst. cbn. rewrite K, Rd, Wr, Dt. repeat (split; [reflexivity|]).
          exists t, v, d, (chunks ++ [ch]). auto 12.
        * apply Nat.ltb_ge in Q. assert (Qe : (k_done c + n = length fds)%nat) by lia. eapply (local_good s i c _ _ [WroteFds RESP_ACK (N.of_nat (length fds)) 0 ch] I Ec W Ct); try reflexivity; try eqb_i.
          exists (done ++ [[Got t REQ_TAKE v d] ++ map (WroteFds RESP_ACK (N.of_nat (length fds)) 0) (chunks ++ [ch])]), []. split; [apply Forall_app; split; [exact D|constructor; [|constructor]]|].
          -- apply Xtake; auto. rewrite Cc2, Qe. apply firstn_all.
          -- split; [rewrite app_nil_r, concat_snoc, L, map_app, <- !app_assoc; reflexivity|]. unfold cst. cbn. auto 10.
      + apply ok_eq in E0. subst y. cbn iota in H. ok1 H. subst s'. now apply same_good.
    - (* data *)
      destruct Cs as (Rd & Wr & _ & _ & b & hd & chunks & Dt & Sz & Lt & -> & Cc & X).
      eapply (write_data_good s s i c c [] hd b done chunks r2 s' I Ec W Ct); auto.
      + intros j. destruct (j =? i)%nat eqn:J; [apply Nat.eqb_eq in J; now subst|reflexivity].
      + intros j. destruct (j =? i)%nat eqn:J; [apply Nat.eqb_eq in J; subst; now rewrite app_nil_r|reflexivity].
      + now rewrite app_nil_r.
  Qed.

  (** ** Accepting *)
  Lemma accept_good s p : linv s -> good s (accept s p).
  Proof.
    intros (C & G & E & S). set (i := s_next s). destruct (g_next s G i) as (X1 & X2); [subst i; lia|].
    assert (Ci := C i). rewrite X1, X2 in Ci. destruct Ci as (W & Ct & _). set (s' := accept s p).
    assert (Hl : forall j, s_log s' j = if (j =? i)%nat then [Opened p] else s_log s j).
    { intros j. subst s' i. cbn. unfold set. destruct (j =? s_next s)%nat; [|reflexivity]. now rewrite X2. }
    assert (Hc : forall j, s_conns s' j = if (j =? i)%nat then s_conns s' i else s_conns s j).
    { intros j. subst s' i. cbn. unfold set. rewrite Nat.eqb_refl. reflexivity. }
    apply good_quiet. split; [apply linv_full; split; [|split; [|split]]|].
    - apply (coks_upd _ _ _ _ s s' i _ _ C Hc Hl); try reflexivity. change (waits s' i) with (waits s i). change (is_ctl s' i) with (is_ctl s i). rewrite W, Ct. subst s' i. cbn. rewrite set_same. exists [], []. split; [constructor|]. split; [reflexivity|]. cbn. auto 10.
    - constructor.
      + intros j J. change (s_next s') with (Datatypes.S i) in J. rewrite Hc, Hl. destruct (j =? i)%nat eqn:Q; [apply Nat.eqb_eq in Q; lia|]. apply (g_next s G). subst i. lia.
      + exact (g_nodup s G).
      + exact (g_pid0 s G).
      + exact (g_pid1 s G).
      + intros j J. destruct (g_dmn s G j J) as (Y1 & Y2). split; [|exact Y2]. rewrite Hc. destruct (j =? i)%nat eqn:Q; [|exact Y1]. apply Nat.eqb_eq in Q. subst. contradiction.
    - apply (eff_same s); auto. intros j. rewrite Hl. destruct (j =? i)%nat eqn:Q; [|exists []; now rewrite app_nil_r]. apply Nat.eqb_eq in Q. subst j. rewrite X2. now exists [Opened p].
    - exact S.
    - apply (quiet_upd s s' i [Opened p]); auto.
  Qed.

  (** ** The end of a replacement *)
  Definition resumes (s s' : css) : Prop :=
    s_pid s <> 0 /\ s_pid s' = 0 /\ zones s' = zones s /\ s_now s' = s_now s /\ s_active s' = [] /\ s_queued s' = [] /\ s_accept s' = true /\ s_stop s' = false.
  Lemma watch_good s dead s' : linv s -> watch_replace fds s dead = Ok s' -> good s s' \/ (full s' /\ resumes s s' /\ dead = true).
  Proof.
    intros I H. unfold watch_replace in H. ok1 H. apply Bool.negb_true_iff, N.eqb_neq in A. destruct dead; [|left; ok1 H; subst s'; now apply same_good]. right.
    assert (I2 := I). destruct I2 as (C & G & E & S). destruct (g_pid1 s G A) as (Ac & Qu & Tm).
    set (s1 := with_replace s _ _ _ _ _) in H.
    (* the one who asked for it *)
    ok1 H. rename y into s2. ok1 H. rename y into s3. apply ok_eq in H.
    assert (H2 : exists sa, coks sa /\ s_ctl sa = None /\ (forall j, s_conns sa j = s_conns s2 j) /\ (forall j, s_log sa j = s_log s j) /\ (forall j, s_log s2 j = s_log s j) /\ waits sa = waits s /\
              s_dmn s2 = s_dmn s /\ rest s2 = rest s1 /\ zones s2 = zones s /\ s_effects s2 = s_effects s /\ (forall j, s_conns s j = None -> s_conns s2 j = None) /\ (forall j, s_conns s j <> None -> s_conns s2 j <> None)).
    { change (s_ctl s1) with (s_ctl s) in E0. destruct (s_ctl s) as [j|] eqn:Kj.
      - assert (Cj : is_ctl s j = true) by (unfold is_ctl; rewrite Kj; cbn; apply Nat.eqb_refl). destruct (controller _ _ _ _ s j C Cj) as (cj & t & dn & Ej & Wj & Kk & Dtj & Rj & Pj & Dj & Lj & Wtj).
        change (s_conns s) with (s_conns s1) in Ej. rewrite (respond_run fds s1 j RESP_FAIL cj Ej Wj) in E0. apply ok_eq in E0. subst s2.
        exists (with_replace (put_conn s j (answered cj RESP_FAIL)) (s_pid s) None (s_dmn s) (s_timer s) (s_accept s)). split; [|repeat (split; [reflexivity|]); split].
        + eapply (coks_upd _ _ _ _ s _ j (Some (answered cj RESP_FAIL)) (s_log s j) C); try eqb_i; try reflexivity.
          * intros k. cbn. destruct (k =? j)%nat eqn:Q; [apply Nat.eqb_eq in Q; now subst|reflexivity].
          * intros k Nk. unfold is_ctl. rewrite Kj. cbn. symmetry. apply Nat.eqb_neq. congruence.
          * change (cok (Some (answered cj RESP_FAIL)) (s_log s j) (waits s j) false). rewrite Wtj. exists dn, [Got t REQ_REPL (k_v cj) (k_d cj)]. split; [exact Dj|]. split; [exact Lj|]. unfold cst. cbn. rewrite Dtj, Rj. repeat (split; [reflexivity|]).
            apply Xshort; [exact Pj|discriminate|cbn; auto|discriminate].
        + intros k. cbn. unfold set. change (s_conns s1) with (s_conns s) in Ej. destruct (k =? j)%nat eqn:Q; [apply Nat.eqb_eq in Q; congruence|auto].
        + intros k. cbn. unfold set. destruct (k =? j)%nat; [discriminate|auto].
      - ok1 E0. subst s2. exists s. repeat (split; [assumption || reflexivity|]). split; auto. }
    destruct H2 as (sa & Ca & Ka & Hca & Hla & Hl2 & Wa & Hd2 & Re2 & Hz2 & He2 & Hn2 & Hn2').
    (* the new daemon's connection *)
    assert (H3 : exists sb, coks sb /\ s_ctl sb = None /\ (forall j, s_conns sb j = s_conns s3 j) /\ (forall j, s_log sb j = s_log s3 j) /\ waits sb = waits s /\
              rest s3 = rest s2 /\ zones s3 = zones s /\ s_effects s3 = s_effects s /\ (forall j, exists l, s_log s3 j = s_log s j ++ l) /\ (forall j, (s_next s <= j)%nat -> s_conns s3 j = None /\ s_log s3 j = [])).
    { rewrite Hd2 in E1. destruct (s_dmn s) as [j|] eqn:Dj.
      - destruct (g_dmn s G j Dj) as (Xj & Yj). destruct (cleanup_spec s2 j s3 E1) as ((cj & Ej) & Hc & Hl & Hk & Hd & Re & Z & Ef).
        assert (Wj : waits s j = false) by (unfold waits; now rewrite Ac, Qu).
        exists (with_obs (with_conns sa (s_conns s3)) (s_log s3) (s_effects sa)). split; [|repeat (split; [assumption || reflexivity|])].
        + eapply (coks_upd _ _ _ _ sa _ j None (s_log s j ++ [Closed]) Ca).
          * intros k. cbn. rewrite Hc, Hca. reflexivity.
          * intros k. cbn. rewrite Hl, Hl2, Hla. destruct (k =? j)%nat eqn:Q; [reflexivity|]. apply Hl2.
          * reflexivity.
          * reflexivity.
          * change (waits (with_obs _ _ _) j) with (waits sa j). change (is_ctl (with_obs _ _ _) j) with (is_ctl sa j). rewrite Wa, Wj. unfold is_ctl. rewrite Ka. specialize (Ca j). rewrite Hca, Ej, Hla in Ca. now apply (cok_closed _ _ _ _ cj _ (waits sa j) (is_ctl sa j)).
        + split; [congruence|]. split; [congruence|]. split.
          * intros k. rewrite Hl, !Hl2. destruct (k =? j)%nat eqn:Q; [apply Nat.eqb_eq in Q; subst; eauto|]. exists []. now rewrite app_nil_r.
          * intros k Hk'. destruct (g_next s G k Hk') as (Y1 & Y2). rewrite Hc, Hl, Hl2. destruct (k =? j)%nat eqn:Q; [apply Nat.eqb_eq in Q; subst; contradiction|]. split; [now apply Hn2|congruence].
      - ok1 E1. subst s3. exists sa. split; [exact Ca|]. split; [exact Ka|]. split; [exact Hca|]. split; [intros k; now rewrite Hla, Hl2|]. split; [exact Wa|]. split; [reflexivity|]. split; [exact Hz2|]. split; [exact He2|]. split.
        + intros k. exists []. now rewrite Hl2, app_nil_r.
        + intros k Hk'. destruct (g_next s G k Hk') as (Y1 & Y2). split; [now apply Hn2|now rewrite Hl2]. }
    destruct H3 as (sb & Cb & Kb & Hcb & Hlb & Wb & Re3 & Hz3 & He3 & Lg & Hnx).
    rewrite Re2 in Re3. unfold rest in Re3. injection Re3 as R1 R2 R3 R4 R5 R6 R7 R8. change (s_now s1) with (s_now s) in R1. change (s_next s1) with (s_next s) in R2. change (s_queued s1) with (s_queued s) in R3. change (s_active s1) with (s_active s) in R4. change (s_pid s1) with (s_pid s) in R5. change (s_stop s1) with (s_stop s) in R8. change (s_timer s1) with false in R6.
    subst s'. set (s' := did _ _).
    split; [|split; [|reflexivity]].
    - apply linv_full. split; [|split; [|split]].
      + intros j. specialize (Cb j). rewrite Hcb, Hlb in Cb. change (s_conns s' j) with (s_conns s3 j). change (s_log s' j) with (s_log s3 j). replace (waits s' j) with (waits sb j); [|rewrite Wb; unfold waits; subst s'; cbn; now rewrite R3, R4].
        replace (is_ctl s' j) with (is_ctl sb j); [exact Cb|]. unfold is_ctl. now rewrite Kb.
      + constructor.
        * subst s'. cbn. rewrite R2. exact Hnx.
        * subst s'. cbn. rewrite R3, R4, Ac, Qu. constructor.
        * intros _. subst s'. cbn. rewrite R6. auto.
        * intros Q. now destruct Q.
        * subst s'. cbn. discriminate.
      + apply (eff_add s s' (Resumed (s_pid s))); auto.
        * subst s'. cbn. now rewrite He3, R5.
        * intros st Ls. specialize (Ls S). destruct st as [[p q]|]; [|contradiction]. destruct Ls as (-> & _). exists None. split; [now apply May_resume with q|]. intros _. reflexivity.
        * discriminate.
      + subst s'. cbn. now rewrite R8.
    - unfold resumes. subst s'. cbn. rewrite R1, R3, R4, R8. split; [exact A|]. split; [reflexivity|]. split; [exact Hz3|]. auto.
  Qed.

  (** ** The end of a load *)
  Definition ends (s s' : css) : Prop :=
    exists t failed, s_threads s (s_tid s) = Some t /\ t_phase t = TExited failed /\
      (let sj := with_threads s (set (s_threads s) (s_tid s) (Some {| t_start := t_start t; t_phase := TJoined |})) (s_nthreads s) (s_tid s) (s_async s) false in
       zones s' = zones (match s_queued s with [] => sj | _ => spawn_reloader sj end)) /\
      s_active s' = s_queued s /\ s_queued s' = [] /\ s_pid s' = s_pid s /\ s_now s' = s_now s /\ s_stop s' = s_stop s /\ (forall j, s_log s' j = s_log s j) /\ s_effects s' = s_effects s.
  Lemma joined_good s s' : linv s ->
    (forall t f th, s_threads s (s_tid s) = Some th -> t_phase th = TExited f -> (exists j v d a, In j (s_active s) /\ s_log s j = a ++ [Got t REQ_ZREL v d]) -> R t (if f then RESP_FAIL else RESP_ACK)) ->
    reload_zones_joined fds s = Ok s' -> good s s' \/ (full s' /\ ends s s').
  Proof.
    intros I HR H. unfold reload_zones_joined in H. destruct (s_threads s (s_tid s)) as [th|] eqn:Et; [|discriminate]. destruct (t_phase th) as [| |n|n o|o|o w| |f|f|] eqn:Ph; try (left; ok1 H; subst s'; now apply same_good). right.
    assert (I2 := I). destruct I2 as (C & G & E & S). set (sj := with_threads _ _ _ _ _ _) in H. unfold notify_zone_reloaders in H. set (key := if f then RESP_FAIL else RESP_ACK) in *.
    pose proof (g_nodup s G) as Nd. destruct (nodup_app _ _ Nd) as (N1 & N2 & Dj).
    destruct (respond_all_spec fds key (s_active sj) sj N1) as (g & Eg & Fg).
    { intros j J. destruct (waiter _ _ _ _ s j C) as (c' & _ & _ & E1 & E2 & _); [apply waits_in; now left|]. now exists c'. }
    rewrite Eg in H. cbn [rbind] in H. ok1 H. cbn [s_active s_queued with_queues with_conns] in H. change (s_queued sj) with (s_queued s) in *. change (s_active sj) with (s_active s) in *.
    set (sq := with_queues _ _ _) in H.
    assert (Cq : coks sq).
    { apply (answer_waiters _ _ _ _ s sq (s_active s) key C).
      - intros j J. apply waits_in. now left.
      - intros t NL Hex. apply (HR t f th eq_refl Ph Hex).
      - unfold key. destruct f; cbn; auto.
      - exact Fg.
      - reflexivity.
      - intros j J. unfold waits. subst sq. cbn. rewrite app_nil_r. apply existsb_eqb_false. intros Q. now apply (Dj j).
      - intros j J. unfold waits. subst sq. cbn. rewrite app_nil_r, existsb_app. apply existsb_eqb_false in J. now rewrite J.
      - reflexivity. }
    assert (Gq : glob sq).
    { constructor.
      - intros j J. destruct (g_next s G j J) as (X1 & X2). split; [|exact X2]. subst sq. cbn. rewrite Fg. change (s_conns sj j) with (s_conns s j). rewrite X1. now destruct (existsb (Nat.eqb j) (s_active s)).
      - subst sq. cbn. now rewrite app_nil_r.
      - exact (g_pid0 s G).
      - intros Q. destruct (g_pid1 s G Q) as (X1 & X2 & X3). subst sq. cbn. auto.
      - intros j J. destruct (g_dmn s G j J) as (X1 & X2). split; [|exact X2]. subst sq. cbn. rewrite Fg. change (s_conns sj j) with (s_conns s j). destruct (existsb _ _); [|exact X1]. destruct (s_conns s j); [discriminate|exact X1]. }
    assert (Eq : eff sq). { apply (eff_same s); auto. intros j. exists []. now rewrite app_nil_r. }
    split.
    - apply linv_full. destruct (match s_queued s with [] => false | _ => true end); subst s'; [|exact (conj Cq (conj Gq (conj Eq S)))].
      split; [exact Cq|]. split; [|split; [|exact S]].
      + destruct Gq as [G1 G2 G3 G4 G5]. constructor; assumption.
      + apply (eff_same sq); auto. intros j. exists []. now rewrite app_nil_r.
    - exists th, f. split; [exact Et|]. split; [exact Ph|]. cbn zeta. destruct (s_queued s) as [|q l] eqn:Qu; subst s'; (split; [reflexivity|]); subst sq; cbn; auto 10.
  Qed.

  (** ** All events *)
  Definition bg (s s' : css) : Prop :=
    s_conns s' = s_conns s /\ s_log s' = s_log s /\ s_effects s' = s_effects s /\ rest s' = rest s /\ s_ctl s' = s_ctl s /\ s_dmn s' = s_dmn s.
  Lemma bg_linv s s' : linv s -> bg s s' -> linv s'.
  Proof.
    intros (C & G & E & S) (Hc & Hl & He & Re & Hk & Hd). unfold rest in Re. injection Re as Nw Nx Q A P T Ac St.
    split; [|split; [|split]].
    - intros j. rewrite Hc, Hl. rewrite (waits_same s s' A Q). unfold is_ctl. rewrite Hk. apply C.
    - constructor; rewrite ?Hc, ?Hl, ?Nx, ?A, ?Q, ?P, ?Hk, ?Hd, ?T, ?Ac; apply G.
    - apply (eff_same s); auto; [congruence|]. intros j. rewrite Hl. exists []. now rewrite app_nil_r.
    - congruence.
  Qed.
  Lemma other_bg s e s' : other_step s e = Ok s' -> bg s s'.
  Proof.
    unfold other_step, bg, rest. destruct e; intros H; try (apply ok_eq in H; subst s'; cbn; auto 10; fail).
    - unfold thread_step in H. destruct (s_threads s k) as [t|]; [|ok1 H; subst; auto 10]. destruct (t_phase t); try (ok1 H; subst s'; cbn; auto 10; fail).
      + destruct fails; ok1 H; subst s'; cbn; auto 10.
      + destruct (forallb _ _); [|ok1 H; subst; auto 10]. ok1 H. ok1 H. subst s'. cbn. auto 10.
    - ok1 H. ok1 H. subst. auto 10.
  Qed.
  Lemma other_main s e : is_main e = true -> other_step s e = Ok s.
  Proof. destruct e; cbn; congruence. Qed.

  Inductive how (s : css) (e : event) (s' : css) : Prop :=
  | How_good : good s s' -> how s e s'
  | How_resumes : full s' -> resumes s s' -> e = ETimer true -> how s e s'
  | How_ends : full s' -> s_join s = true -> ends s s' -> how s e s'
  | How_other : full s' -> bg s s' -> is_main e = false -> other_step s e = Ok s' -> how s e s'
  | How_join : full s' -> bg s s' -> s_join s = false -> s_async s = true -> s' = with_threads s (s_threads s) (s_nthreads s) (s_tid s) false true -> how s e s'.

  Lemma step_at_how s e s' : linv s -> sane s e ->
    (s_join s = true -> forall t f th, s_threads s (s_tid s) = Some th -> t_phase th = TExited f -> (exists j v d a, In j (s_active s) /\ s_log s j = a ++ [Got t REQ_ZREL v d]) -> R t (if f then RESP_FAIL else RESP_ACK)) ->
    step_at fds status_v status_d s e = Ok s' -> how s e s'.
  Proof.
    intros I Sn HR H. unfold step_at in H. destruct (is_main e) eqn:M.
    - destruct (s_join s) eqn:J.
      + destruct e; try (ok1 H; subst s'; apply How_good, same_good, I; fail). destruct (joined_good s s' I (HR eq_refl) H) as [Gd|(F & En)]; [now apply How_good|now apply How_ends].
      + unfold main_step in H. destruct e; try discriminate M.
        * destruct (s_accept s); ok1 H; subst s'; apply How_good; [now apply accept_good|now apply same_good].
        * destruct (s_conns s i) as [c|] eqn:Ec; [|ok1 H; subst; now apply How_good, same_good]. destruct (k_read c) eqn:Kr; [|ok1 H; subst; now apply How_good, same_good]. apply How_good.
          destruct (k_state c) eqn:K.
          -- now apply (read_req_good fds status_v status_d R Hfds s i c r x s').
          -- now apply (read_data_good fds status_v status_d R Hfds s i c r x s').
          -- unfold conn_read in H. rewrite (get_some _ _ _ Ec) in H. cbn [rbind] in H. rewrite K in H. discriminate.
          -- unfold conn_read in H. rewrite (get_some _ _ _ Ec) in H. cbn [rbind] in H. rewrite K in H. discriminate.
          -- unfold conn_read in H. rewrite (get_some _ _ _ Ec) in H. cbn [rbind] in H. rewrite K in H. discriminate.
          -- unfold conn_read in H. rewrite (get_some _ _ _ Ec) in H. cbn [rbind] in H. rewrite K in H. discriminate.
        * destruct (s_conns s i) as [c|] eqn:Ec; [|ok1 H; subst; now apply How_good, same_good]. destruct (k_write c) eqn:Kw; [|ok1 H; subst; now apply How_good, same_good]. apply How_good.
          now apply (write_good s i c r r2 s').
        * destruct (s_timer s) eqn:Tm; [|ok1 H; subst; now apply How_good, same_good]. destruct (watch_good s dead s' I H) as [Gd|(F & Rs & ->)]; [now apply How_good|now apply How_resumes].
        * destruct (s_pid s =? 0) eqn:P0; ok1 H; subst s'; apply How_good; [|now apply same_good]. apply N.eqb_eq in P0. destruct I as (C & G & E & S). split; [|now left]. unfold CtlProofs2.full. cbn [s_stop did with_obs with_main]. split; [split|exact P0].
          -- exact (coks_logs fds status_v status_d R s Hfds C).
          -- apply (eff_add s _ Terminated); auto; try discriminate.
             ++ intros st Ls. specialize (Ls S). exists None. split; [|intros Q; discriminate]. destruct st as [[p q]|]; [destruct Ls as (_ & Ls & _); contradiction|now apply May_term].
             ++ intros j. exists []. now rewrite app_nil_r.
        * destruct (s_async s) eqn:As; [|ok1 H; subst; now apply How_good, same_good]. unfold reload_zones_done in H. ok1 H. apply How_join; auto; [|subst; unfold bg; auto 10]. apply linv_full, (bg_linv s s' I). subst. unfold bg. auto 10.
    - assert (B := other_bg s e s' H). apply How_other; auto. apply linv_full, (bg_linv s s' I B).
  Qed.
End Css.
