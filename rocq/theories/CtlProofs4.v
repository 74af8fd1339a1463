(** All events keep the invariant. *)
From Coq Require Import Lia Permutation.
From Verif Require Import Base CtlModel CtlSpec CtlProofs CtlProofs2 CtlProofs3.
Local Open Scope N_scope.

Section Css.
  Variable fds : list N.
  Variables status_v status_d : N.
  Variable R : nat -> N -> Prop.
  Hypothesis Hfds : length fds <> 0%nat.
  Notation exchange := (exchange fds status_v status_d R).
  Notation connection_log := (connection_log fds status_v status_d R).
  Notation coks := (coks fds status_v status_d R).
  Notation cok := (cok fds status_v status_d R).
  Notation logs := (logs fds status_v status_d R).
  Notation linv := (linv fds status_v status_d R).
  Notation full := (full fds status_v status_d R).
  Notation good := (good fds status_v status_d R).
  Notation asked := CtlProofs2.asked.
  Ltac eqb_i := let j := fresh "j" in intros j; cbn; unfold set; destruct (j =? _)%nat eqn:?; rewrite ?Nat.eqb_refl; reflexivity.

  Lemma concat_snoc {A} (l : list (list A)) x : concat (l ++ [x]) = concat l ++ x.
  Proof. rewrite concat_app. cbn. now rewrite app_nil_r. Qed.
  Lemma prefix_nil p : exists rest, exchange p ([] ++ rest).
  Proof. exists [Got 0 REQ_INFO 0 0; Wrote RESP_ACK status_v status_d]. apply Xinfo. destruct p as [[? ?]|]; cbn; auto. Qed.

  (** ** Stopping *)
  Lemma blocking_spec s i ok s' b c : s_conns s i = Some c -> respond_blocking_ack s i ok = Ok (s', b) ->
    exists oc it, (forall j, s_conns s' j = if (j =? i)%nat then oc else s_conns s j) /\ (forall j, s_log s' j = if (j =? i)%nat then s_log s i ++ [it] else s_log s j) /\
      ((exists c', oc = Some c' /\ it = Wrote RESP_ACK 0 0) \/ (oc = None /\ it = Closed)) /\
      s_stop s' = s_stop s /\ s_effects s' = s_effects s /\ (forall k, s_ctl s' = Some k -> s_ctl s = Some k) /\ zones s' = zones s /\ s_pid s' = s_pid s.
  Proof.
    intros C H. unfold respond_blocking_ack in H. rewrite (get_some _ _ _ C) in H. cbn [rbind] in H. ok1 H. destruct ok.
    - apply ok_eq in H. injection H as <- <-. do 2 eexists. split; [eqb_i|]. split; [eqb_i|]. split; [left; eauto|]. auto 8.
    - ok1 H. apply ok_eq in H. injection H as -> <-. destruct (cleanup_spec _ _ _ E) as (_ & Hc & Hl & Hk & _ & Re & Zn & Ef). exists None, Closed.
      unfold rest in Re. injection Re as _ _ _ _ Pd _ _ St. split; [|split; [exact Hl|split; [now right|split; [exact St|split; [exact Ef|split; [|exact (conj Zn Pd)]]]]]].
      + intros j. rewrite Hc. destruct (j =? i)%nat eqn:Q; [reflexivity|]. cbn. unfold set. now rewrite Q.
      + intros k. rewrite Hk. cbn. destruct (opt_is (s_ctl s) i); [discriminate|auto].
  Qed.
  Lemma ended p done g oc it : Forall (exchange p) done -> exchange p [g; Wrote RESP_ACK 0 0] ->
    ((exists c' : conn, oc = Some c' /\ it = Wrote RESP_ACK 0 0) \/ (oc = None /\ it = Closed)) ->
    connection_log (match oc with Some _ => true | None => false end) ([Opened p] ++ concat done ++ [g] ++ [it]).
  Proof.
    intros D X [(c' & -> & ->)|(-> & ->)].
    - exists p, (done ++ [[g; Wrote RESP_ACK 0 0]]), []. split; [apply Forall_app; split; [exact D|now constructor]|]. split; [|left; apply prefix_nil]. rewrite concat_snoc. cbn. now rewrite app_nil_r.
    - exists p, done, [g]. split; [exact D|]. split; [reflexivity|]. left. now exists [Wrote RESP_ACK 0 0].
  Qed.
  Lemma logs_upd s s' i oc l : logs s -> (forall j, s_conns s' j = if (j =? i)%nat then oc else s_conns s j) -> (forall j, s_log s' j = if (j =? i)%nat then l else s_log s j) ->
    connection_log (match oc with Some _ => true | None => false end) l -> logs s'.
  Proof. intros L Hc Hl X j. rewrite Hc, Hl. destruct (j =? i)%nat; [now right|apply L]. Qed.

  Lemma stop_good s i c v d x s' : linv s -> s_conns s i = Some c -> k_state c = READING_REQ -> permitted (k_perms c) REQ_STOP ->
    handle_req_stop fds (asked s i c REQ_STOP v d) i x = Ok s' -> good s s'.
  Proof.
    intros I Ec K P H. unfold handle_req_stop in H. destruct (_ && _) eqn:B.
    { now apply (short_now fds status_v status_d R s i c v d s' I Ec K REQ_STOP RESP_LATR P) in H; [|discriminate|cbn; auto|]. }
    change (s_pid (asked s i c REQ_STOP v d)) with (s_pid s) in *. change (s_dmn (asked s i c REQ_STOP v d)) with (s_dmn s) in *.
    assert (I2 := I). destruct I2 as (C & G & E & S). destruct (reading _ _ _ _ s i c C Ec K) as (done & D & L & Rd & Wr & Dt & W & Ct).
    set (s2 := did _ _) in H. ok1 H. destruct y as (s3 & gone). cbn iota in H.
    assert (Hc2 : forall j, s_conns s2 j = s_conns (asked s i c REQ_STOP v d) j) by (intros j; subst s2; now destruct (s_pid s =? 0)).
    assert (Hl2 : forall j, s_log s2 j = if (j =? i)%nat then s_log s i ++ [Got (s_now s) REQ_STOP v d] else s_log s j) by (subst s2; destruct (s_pid s =? 0); eqb_i).
    assert (He2 : s_effects s2 = s_effects s ++ [By i DidStop]) by (subst s2; now destruct (s_pid s =? 0)).
    assert (Hs2 : s_stop s2 = true) by (subst s2; now destruct (s_pid s =? 0)).
    assert (Hk2 : s_ctl s2 = s_ctl s) by (subst s2; now destruct (s_pid s =? 0)).
    assert (Z2 : zones s2 = zones s) by (subst s2; now destruct (s_pid s =? 0)).
    assert (P2 : s_pid s2 = 0) by (subst s2; destruct (s_pid s =? 0) eqn:Q; [now apply N.eqb_eq in Q|reflexivity]). clearbody s2.
    assert (Ei : s_conns s2 i = Some (set_state (set_rbuf c REQ_STOP v d) WAITING_SERVER false (k_write c))) by (rewrite Hc2; apply asked_conn).
    destruct (blocking_spec s2 i _ s3 gone _ Ei E0) as (oc & it & Hc3 & Hl3 & Oi & Hs3 & He3 & Hk3 & Z3 & P3).
    assert (Hc3' : forall j, s_conns s3 j = if (j =? i)%nat then oc else s_conns s j).
    { intros j. rewrite Hc3. destruct (j =? i)%nat eqn:J; [reflexivity|]. rewrite Hc2. cbn. unfold set. now rewrite J. }
    assert (Hl3' : forall j, s_log s3 j = if (j =? i)%nat then s_log s i ++ [Got (s_now s) REQ_STOP v d] ++ [it] else s_log s j).
    { intros j. rewrite Hl3. destruct (j =? i)%nat eqn:J; [now rewrite Hl2, Nat.eqb_refl, <- app_assoc|]. now rewrite Hl2, J. }
    assert (X : exchange (k_perms c) [Got (s_now s) REQ_STOP v d; Wrote RESP_ACK 0 0]) by (apply Xshort; [exact P|discriminate|cbn; auto|discriminate]).
    assert (L3 : logs s3).
    { apply (logs_upd s s3 i oc _ (coks_logs fds status_v status_d R s Hfds C) Hc3' Hl3'). rewrite L, <- app_assoc. now apply ended. }
    assert (May : forall st s'', s_stop s'' = true -> linked st s -> exists st', may st (By i DidStop) st' /\ linked st' s'').
    { intros st s'' Q Ls. specialize (Ls S). exists None. split; [|intros Q2; congruence]. apply May_stop. destruct st as [[p q]|]; [|exact Logic.I]. destruct Ls as (_ & N0 & Ls). apply Ls.
      apply Bool.andb_false_iff in B. destruct B as [B|B]; apply Bool.negb_false_iff in B; [apply N.eqb_eq in B; contradiction|now apply opt_is_true]. }
    assert (Ask : forall l', asked_for ((s_log s i ++ [Got (s_now s) REQ_STOP v d] ++ [it]) ++ l') DidStop).
    { intros l'. apply asked_longer. rewrite L. exists (k_perms c), (concat done), (s_now s), REQ_STOP, v, d, [], [it]. split; [now rewrite <- !app_assoc|]. cbn. auto. }
    destruct (s_ctl s3) as [j|] eqn:Kj.
    - ok1 H. ok1 H. destruct y as (s4 & gone4). apply ok_eq in H. subst s'. specialize (Hk3 j eq_refl). rewrite Hk2 in Hk3. clear Kj. rename Hk3 into Kj. assert (Cj : is_ctl s j = true) by (now apply opt_is_true). assert (Nij : j <> i) by congruence.
      destruct (controller _ _ _ _ s j C Cj) as (cj & t & dn & Ej & Wj & Kk & _ & _ & Pj & Dj & Lj & _).
      assert (E3j : s_conns s3 j = Some cj). { rewrite Hc3'. apply Nat.eqb_neq in Nij. now rewrite Nij. }
      destruct (blocking_spec s3 j _ s4 gone4 _ E3j E1) as (oc4 & it4 & Hc4 & Hl4 & Oi4 & Hs4 & He4 & _ & Z4 & P4).
      assert (Lj3 : s_log s3 j = s_log s j). { rewrite Hl3'. apply Nat.eqb_neq in Nij. now rewrite Nij. }
      assert (S4 : s_stop s4 = true) by congruence.
      split; [unfold CtlProofs2.full; rewrite S4; split; [split|congruence]|left; split; [exact S4|congruence]].
      + apply (logs_upd s3 s4 j oc4 _ L3 Hc4 Hl4). rewrite Lj3, Lj, <- !app_assoc. apply ended; auto. apply Xshort; [exact Pj|discriminate|cbn; auto|discriminate].
      + apply (eff_add s s4 (By i DidStop)); auto; [congruence| |].
        * intros k. rewrite Hl4, Lj3. destruct (k =? j)%nat eqn:Q; [apply Nat.eqb_eq in Q; subst k; now exists [it4]|]. rewrite Hl3'. destruct (k =? i)%nat eqn:Q2; [apply Nat.eqb_eq in Q2; subst k; eauto|]. exists []. now rewrite app_nil_r.
        * intros i' a' [= <- <-]. rewrite Hl4. destruct (i =? j)%nat eqn:Q; [apply Nat.eqb_eq in Q; congruence|]. rewrite Hl3', Nat.eqb_refl. specialize (Ask []). now rewrite app_nil_r in Ask.
    - apply ok_eq in H. subst s'. assert (S3 : s_stop s3 = true) by congruence. split; [unfold CtlProofs2.full; rewrite S3; split; [split; [exact L3|]|congruence]|left; split; [exact S3|congruence]].
      apply (eff_add s s3 (By i DidStop)); auto; [congruence|now apply longer_upd with i ([Got (s_now s) REQ_STOP v d] ++ [it])|].
      intros i' a' [= <- <-]. rewrite Hl3', Nat.eqb_refl. specialize (Ask []). now rewrite app_nil_r in Ask.
  Qed.

  (** ** Reading *)
  Lemma chal_flush_good s i c v d s' : linv s -> s_conns s i = Some c -> k_state c = READING_REQ -> permitted (k_perms c) REQ_CHALF ->
    (if negb (s_pid (asked s i c REQ_CHALF v d) =? 0) then respond_plain fds (asked s i c REQ_CHALF v d) i RESP_LATR else respond_plain fds (did (asked s i c REQ_CHALF v d) (By i DidFlush)) i RESP_ACK) = Ok s' -> good s s'.
  Proof.
    intros I Ec K P H. destruct (negb _) eqn:P0.
    - now apply (short_now fds status_v status_d R s i c v d s' I Ec K REQ_CHALF RESP_LATR P) in H; [|discriminate|cbn; auto|].
    - apply Bool.negb_false_iff, N.eqb_eq in P0. change (s_pid (asked s i c REQ_CHALF v d)) with (s_pid s) in P0. apply good_quiet.
      apply (reply_done fds status_v status_d R s i c REQ_CHALF v d DidFlush RESP_ACK 0 0 s' I Ec K); auto; try reflexivity; [|intros _; now apply May_flush].
      apply Xshort; [exact P|discriminate|cbn; auto|discriminate].
  Qed.

  Lemma req_good s i c key v d x s' : linv s -> s_conns s i = Some c -> k_state c = READING_REQ -> permitted (k_perms c) key -> key <> REQ_CHAL ->
    N.of_nat (length (x_text x)) <= 4294967295 -> (key = REQ_STAT \/ key = REQ_STATE -> x_text x <> []) -> (key = REQ_TAK1 -> d <> 0) ->
    handle_req fds status_v status_d (asked s i c key v d) i key x = Ok s' -> good s s'.
  Proof.
    intros I Ec K P NC Lx Nt Nd H. unfold handle_req in H.
    destruct (key =? REQ_INFO) eqn:E1.
    { apply N.eqb_eq in E1. subst key. apply good_quiet. apply (reply_at_once fds status_v status_d R s i c REQ_INFO v d RESP_ACK status_v status_d s' I Ec K); [now apply Xinfo|exact H]. }
    destruct (key =? REQ_STOP) eqn:E2. { apply N.eqb_eq in E2. subst key. now apply (stop_good s i c v d x s'). }
    destruct ((key =? REQ_STAT) || (key =? REQ_STATE)) eqn:E3.
    { apply Bool.orb_true_iff in E3. rewrite !N.eqb_eq in E3. ok1 H. apply (text_now fds status_v status_d R s i c v d s' I Ec K key 0 (x_text x) P); [now apply Nt| |exact H].
      intros chunks Q. apply Xtext; auto. lia. }
    apply Bool.orb_false_iff in E3. destruct E3 as (E3 & E4).
    destruct (key =? REQ_ZREL) eqn:E5. { apply N.eqb_eq in E5. subst key. now apply (zrel_good fds status_v status_d R s i c v d s'). }
    destruct (key =? REQ_CHALF) eqn:E6. { apply N.eqb_eq in E6. subst key. now apply (chal_flush_good s i c v d s'). }
    destruct (key =? REQ_REPL) eqn:E7. { apply N.eqb_eq in E7. subst key. now apply (repl_good fds status_v status_d R Hfds s i c v d s' I Ec K x). }
    destruct (key =? REQ_TAK1) eqn:E8. { apply N.eqb_eq in E8. subst key. apply (tak1_good fds status_v status_d R s i c v d s' I Ec K); auto. }
    destruct (key =? REQ_TAK2) eqn:E9. { apply N.eqb_eq in E9. subst key. now apply (tak2_good fds status_v status_d R Hfds s i c v d s' I Ec K x). }
    destruct (key =? REQ_TAKE) eqn:E10. { apply N.eqb_eq in E10. subst key. now apply (take_good fds status_v status_d R Hfds s i c v d s' I Ec K). }
    apply N.eqb_neq in E1, E2, E3, E4, E5, E6, E7, E8, E9, E10. apply good_quiet.
    apply (reply_at_once fds status_v status_d R s i c key v d RESP_UNK 0 0 s' I Ec K); [|exact H]. apply Xunknown; [exact P|]. cbn. intuition congruence.
  Qed.

  (** A challenge request with data to come. *)
  Lemma chal_start s i c v d s' : linv s -> s_conns s i = Some c -> k_state c = READING_REQ -> permitted (k_perms c) REQ_CHAL -> chal_sizes v d ->
    s' = put_conn (log s i (Got (s_now s) REQ_CHAL v d)) i (set_state (set_data (set_rbuf c REQ_CHAL v d) (Some []) (N.to_nat d) 0) READING_DATA (k_read c) (k_write c)) -> good s s'.
  Proof.
    intros (C & G & E & S) Ec K P Z ->. set (s' := put_conn _ _ _). destruct (reading _ _ _ _ s i c C Ec K) as (done & D & L & Rd & Wr & Dt & W & Ct).
    assert (Hl : forall j, s_log s' j = if (j =? i)%nat then s_log s i ++ [Got (s_now s) REQ_CHAL v d] else s_log s j) by (subst s'; eqb_i).
    apply good_quiet. split; [apply linv_full; split; [|split; [|split]]|].
    - eapply (coks_upd _ _ _ _ s s' i _ _ C); [subst s'; eqb_i|exact Hl|reflexivity|reflexivity|]. exists done, [Got (s_now s) REQ_CHAL v d]. split; [exact D|]. split; [now rewrite L, <- app_assoc|].
      unfold cst. cbn. change (waits s' i) with (waits s i). change (is_ctl s' i) with (is_ctl s i). exists (s_now s), []. repeat (split; [assumption || reflexivity|]). split; [|auto 10]. unfold chal_sizes in Z. lia.
    - apply (glob_upd s s' i); auto; try (now subst s'; cbn; rewrite ?set_same); try congruence; intros j J; subst s'; cbn; now rewrite !set_other.
    - apply (eff_same s); auto. now apply longer_upd with i [Got (s_now s) REQ_CHAL v d].
    - exact S.
    - apply (quiet_upd s s' i _ W Hl); auto.
  Qed.

  Lemma same_good s : linv s -> good s s.
  Proof. intros I. apply good_quiet. split; [now apply linv_full|]. split; [reflexivity|]. split; [reflexivity|]. left. auto. Qed.

  Lemma read_req_good s i c r x s' : linv s -> s_conns s i = Some c -> k_state c = READING_REQ -> sane s (ERead i r x) -> conn_read fds status_v status_d s i r x = Ok s' -> good s s'.
  Proof.
    intros I Ec K Sn H. assert (I2 := I). destruct I2 as (C & G & E & S). destruct (reading _ _ _ _ s i c C Ec K) as (done & D & L & Rd & Wr & Dt & W & Ct).
    assert (Close : conn_cleanup s i = Ok s' -> good s s'). { intros H'. apply good_quiet. now apply (close_open fds status_v status_d R Hfds s i c). }
    unfold conn_read in H. rewrite (get_some _ _ _ Ec) in H. cbn [rbind] in H. rewrite K in H. destruct r as [b| |]; [|ok1 H; subst; now apply same_good|auto].
    destruct b as [|key [|v0 [|v1 [|v2 [|d0 [|d1 [|d2 [|d3 [|]]]]]]]]]; auto. set (v := make_v v0 v1 v2) in *. set (d := make_d d0 d1 d2 d3) in *.
    assert (Sn' : N.of_nat (length (x_text x)) <= 4294967295 /\ (key = REQ_STAT \/ key = REQ_STATE -> x_text x <> []) /\ (key = REQ_TAK1 -> d <> 0)).
    { apply (Sn i key d x). split; [now exists c|]. now exists v0, v1, v2, d0, d1, d2, d3. }
    destruct Sn' as (Lx & Nt & Nd). clearbody v d. clear Sn. cbn [k_perms set_rbuf k_write k_read] in H. change (put_conn (log s i (Got (s_now s) key v d)) i (set_state (set_rbuf c key v d) WAITING_SERVER false (k_write c))) with (asked s i c key v d) in H.
    destruct (match k_perms c with Some p => negb (tcp_req_allowed p key) | None => false end) eqn:Pm.
    - apply good_quiet. apply (reply_at_once fds status_v status_d R s i c key v d RESP_DENY 0 0 s' I Ec K); [|exact H]. apply Xdeny. intros Q. destruct (k_perms c) as [p|]; [|discriminate].
      apply allowed_spec in Q. rewrite Q in Pm. discriminate.
    - assert (P : permitted (k_perms c) key). { destruct (k_perms c) as [p|]; [|exact Logic.I]. apply Bool.negb_false_iff in Pm. now apply allowed_spec. }
      destruct (key =? REQ_CHAL) eqn:Kc.
      + apply N.eqb_eq in Kc. subst key. destruct (_ || _) eqn:B.
        * apply good_quiet. eapply (hang_up fds status_v status_d R s i c _ REQ_CHAL v d s' I Ec K P); [left; split; [reflexivity|]| | | | | | | |exact H]; try reflexivity.
          -- intros (Z1 & Z2). unfold CHAL_MAX_COUNT, CHAL_MAX_DLEN in B. rewrite !Bool.orb_true_iff, !N.eqb_eq, !N.ltb_lt in B. lia.
          -- intros j J. cbn. now rewrite set_other.
        * apply ok_eq in H. apply (chal_start s i c v d s' I Ec K P); [|now symmetry]. unfold CHAL_MAX_COUNT, CHAL_MAX_DLEN in B. rewrite !Bool.orb_false_iff, !N.eqb_neq, !N.ltb_ge in B. unfold chal_sizes. lia.
      + apply N.eqb_neq in Kc. now apply (req_good s i c key v d x s').
  Qed.

  (** ** Challenge data *)
  Lemma firstn_len_le {A} n (l : list A) : (length (firstn n l) <= n)%nat.
  Proof. rewrite firstn_length. lia. Qed.
  Lemma read_data_good s i c r x s' : linv s -> s_conns s i = Some c -> k_state c = READING_DATA -> conn_read fds status_v status_d s i r x = Ok s' -> good s s'.
  Proof.
    intros I Ec K H. assert (I2 := I). destruct I2 as (C & G & E & S). assert (Ci := C i). rewrite Ec in Ci. destruct Ci as (done & part & D & L & Cs). unfold cst in Cs. rewrite K in Cs.
    destruct Cs as (t & chunks & -> & Kk & Dt & Sz & Dn & Lt & P & Zs & Rd & Wr & W & Ct).
    assert (Close : conn_cleanup s i = Ok s' -> good s s'). { intros H'. apply good_quiet. now apply (close_open fds status_v status_d R Hfds s i c). }
    unfold conn_read in H. rewrite (get_some _ _ _ Ec) in H. cbn [rbind] in H. rewrite K in H. ok1 H. unfold recv_challenge_data in H. rewrite (get_some _ _ _ Ec) in H. cbn [rbind] in H. rewrite Dt in H. ok1 H. ok1 H.
    destruct r as [b| |]; [|ok1 H; subst; now apply same_good|auto]. destruct b as [|b0 b]; [auto|]. set (bb := firstn (k_size c - k_done c) (b0 :: b)) in *.
    assert (Lb : (length bb <= k_size c - k_done c)%nat) by apply firstn_len_le. clearbody bb.
    assert (Rest : forall s2 oc l2, (forall j, s_conns s2 j = if (j =? i)%nat then Some oc else s_conns s j) -> (forall j, s_log s2 j = if (j =? i)%nat then s_log s i ++ [GotData bb] ++ l2 else s_log s j) ->
              rest s2 = rest s -> s_ctl s2 = s_ctl s -> s_dmn s2 = s_dmn s -> zones s2 = zones s ->
              cok (Some oc) (s_log s i ++ [GotData bb] ++ l2) false false ->
              (s_effects s2 = s_effects s \/ (exists a, s_effects s2 = s_effects s ++ [By i a] /\ s_pid s = 0 /\ (may None (By i a) None) /\ asked_for (s_log s2 i) a)) -> good s s2).
    { intros s2 oc l2 Hc Hl Re Hk Hd Hz X Ef. unfold rest in Re. injection Re as Nw Nx Q Ac Pq T Acc St.
      apply good_quiet. split; [apply linv_full; split; [|split; [|split]]|].
      - apply (coks_upd _ _ _ _ s s2 i _ _ C Hc Hl); [intros; now apply waits_same|unfold is_ctl; now rewrite Hk|]. rewrite (waits_same s s2 Ac Q), W. unfold is_ctl. rewrite Hk. unfold is_ctl in Ct. rewrite Ct. exact X.
      - apply (glob_upd s s2 i); auto; try congruence; [rewrite Hc, Nat.eqb_refl; discriminate| |]; intros j J; [rewrite Hc|rewrite Hl]; apply Nat.eqb_neq in J; now rewrite J.
      - assert (Lg : longer s s2) by (now apply longer_upd with i ([GotData bb] ++ l2)). destruct Ef as [Ef|(a & Ef & P0 & M & Ask)].
        + apply (eff_same s); auto. congruence.
        + apply (eff_add s s2 (By i a)); auto; [|intros i' a' [= <- <-]; exact Ask]. intros st Ls. specialize (Ls S). destruct st as [[p q]|]; [destruct Ls as (_ & Ls & _); congruence|]. exists None. split; [exact M|]. intros _. congruence.
      - congruence.
      - apply (quiet_upd s s2 i _ W Hl); auto. }
    destruct (k_done c + length bb =? k_size c)%nat eqn:Q.
    - apply Nat.eqb_eq in Q. cbn [log put_conn with_conns with_obs s_pid] in H.
      set (sd := put_conn (log s i (GotData bb)) i (set_state (set_data c None 0 0) WAITING_SERVER false (k_write c))) in *.
      change (with_conns _ _) with sd in H.
      assert (Fin : forall sx r, sx = sd \/ sx = did sd (By i (DidChallenges (k_v c) (concat chunks ++ bb))) /\ s_pid s = 0 -> In r (short_answers REQ_CHAL) -> respond_plain fds sx i r = Ok s' -> good s s').
      { intros sx r Hx Hr Hresp. assert (Ex : s_conns sx i = Some (set_state (set_data c None 0 0) WAITING_SERVER false (k_write c))) by (destruct Hx as [->|(-> & _)]; cbn; apply set_same).
        destruct (respond_spec fds _ _ _ _ _ _ _ Ex Hresp) as (_ & _ & ->).
        eapply (Rest _ _ []); try (destruct Hx as [->|(-> & _)]; first [reflexivity|eqb_i]).
        - exists done, ([Got t REQ_CHAL (k_v c) (k_d c)] ++ map GotData (chunks ++ [bb])). split; [exact D|]. split; [rewrite L, map_app, <- !app_assoc; reflexivity|]. unfold cst. cbn [k_state set_state set_wbuf set_data k_read k_write k_data k_perms k_wkey k_wv k_wd]. repeat (split; [reflexivity|]).
          rewrite <- app_assoc. apply Xchal; auto. rewrite concat_snoc, app_length. lia.
        - destruct Hx as [->|(-> & P0)]; [now left|]. right. exists (DidChallenges (k_v c) (concat chunks ++ bb)). split; [reflexivity|]. split; [exact P0|]. split; [now apply May_challenges|].
          exists (k_perms c), (concat done), t, REQ_CHAL, (k_v c), (k_d c), (chunks ++ [bb]), []. split; [|split; [exact P|split; [|now rewrite concat_snoc]]].
          + cbn. rewrite set_same, L, map_app, app_nil_r, <- !app_assoc. reflexivity.
          + cbn. repeat (split; [reflexivity|]). rewrite app_length. lia. }
      destruct (negb (s_pid s =? 0)) eqn:P0; [now apply (Fin sd RESP_LATR) in H; [|now left|cbn; auto]|]. apply Bool.negb_false_iff, N.eqb_eq in P0.
      destruct (x_chal_fails x); [now apply (Fin sd RESP_FAIL) in H; [|now left|cbn; auto]|].
      apply (Fin _ RESP_ACK) in H; [exact H|right; split; [reflexivity|exact P0]|cbn; auto].
    - apply Nat.eqb_neq in Q. apply ok_eq in H. subst s'. eapply (Rest _ _ []); try reflexivity; try eqb_i; [|now left].
      exists done, ([Got t REQ_CHAL (k_v c) (k_d c)] ++ map GotData (chunks ++ [bb])). split; [exact D|]. split; [rewrite L, map_app, <- !app_assoc; reflexivity|]. unfold cst. cbn. rewrite K. exists t, (chunks ++ [bb]).
      split; [reflexivity|]. split; [exact Kk|]. split; [now rewrite concat_snoc|]. split; [exact Sz|]. split; [rewrite concat_snoc, app_length; lia|]. split; [lia|]. auto 10.
  Qed.
End Css.
