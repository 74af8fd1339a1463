(** No assertion of css.c or main.c fails, and no connection or tree is used after
    it is gone, as long as others keep to the protocol. *)
From Coq Require Import Lia.
From Verif Require Import Base CtlModel CtlSpec CtlProofs CtlProofs2 CtlProofs3 CtlProofs4 CtlProofs5 CtlProofs6 CtlProofs7.
Local Open Scope N_scope.

Lemma ok_bind {A B} (a : res A) (f : A -> res B) : is_ok a -> (forall x, a = Ok x -> is_ok (f x)) -> is_ok (rbind a f).
Proof. intros (x & E) H. rewrite E. cbn. now apply H. Qed.
Lemma ok_ok {A} (x : A) : is_ok (Ok x). Proof. now exists x. Qed.
Lemma ok_assert {A} b (k : res A) : b = true -> is_ok k -> is_ok (rassert b k).
Proof. intros ->. auto. Qed.
Lemma rdn_ok {A} (l : list A) off n : (off + n <= length l)%nat -> rdn l off n = Ok (firstn n (skipn off l)).
Proof. intros H. unfold rdn. apply Nat.leb_le in H. now rewrite H. Qed.

Lemma cleanup_ok s i c : s_conns s i = Some c -> is_ok (conn_cleanup s i).
Proof. intros E. unfold conn_cleanup. rewrite (get_some _ _ _ E). cbn [rbind]. apply ok_ok. Qed.
Lemma blocking_ok s i c ok : s_conns s i = Some c -> k_state c = WAITING_SERVER -> is_ok (respond_blocking_ack s i ok).
Proof.
  intros E K. unfold respond_blocking_ack. rewrite (get_some _ _ _ E). cbn [rbind]. apply ok_assert; [unfold is_waiting; now rewrite K|]. destruct ok; [apply ok_ok|]. apply ok_bind; [|intros; apply ok_ok].
  eapply cleanup_ok. cbn. apply set_same.
Qed.

Section Css.
  Variable fds : list N.
  Variables status_v status_d : N.
  Hypothesis Hmin : (2 <= N.of_nat (length fds)).
  Hypothesis Hmax : N.of_nat (length fds) <= 16777215.
  Hypothesis Hv : status_v <= 16777215.
  Variable R : nat -> N -> Prop.
  Notation linv := (linv fds status_v status_d R).

  Lemma plain_ok s i c key : s_conns s i = Some c -> k_state c = WAITING_SERVER -> is_ok (respond_plain fds s i key).
  Proof. intros E K. rewrite (respond_run fds s i key c E K). apply ok_ok. Qed.
  Lemma respond_ok s i c key v d data : s_conns s i = Some c -> k_state c = WAITING_SERVER -> v <= 16777215 -> is_ok (respond fds s i key v d data false).
  Proof.
    intros E K V. unfold respond. rewrite (get_some _ _ _ E). cbn [rbind]. apply ok_assert; [unfold is_waiting; now rewrite K|]. apply ok_assert; [now apply N.leb_le|]. destruct data; [apply ok_assert; [reflexivity|]|]; apply ok_ok.
  Qed.

  (** ** Requests *)
  Lemma req_ok s i c key v d x : linv s -> s_conns s i = Some c -> k_state c = READING_REQ ->
    N.of_nat (length (x_text x)) <= 4294967295 -> (key = REQ_TAK1 -> s_pid s = d -> s_dmn s = None) -> (key = REQ_STOP -> s_ctl s <> None -> x_ack1 x = true) -> x_csets x <= 16777215 ->
    is_ok (handle_req fds status_v status_d (asked s i c key v d) i key x).
  Proof.
    intros I Ec K Lx P1 P2 Cs. assert (I2 := I). destruct I2 as (C & G & E & S). destruct (reading _ _ _ _ s i c C Ec K) as (done & _ & _ & _ & _ & _ & W & Ct).
    set (a := asked s i c key v d). assert (Ea : s_conns a i = Some (set_state (set_rbuf c key v d) WAITING_SERVER false (k_write c))) by apply asked_conn.
    set (ca := set_state _ _ _ _) in Ea. assert (Ka : k_state ca = WAITING_SERVER) by reflexivity.
    change (s_pid s) with (s_pid a) in P1. change (s_dmn s) with (s_dmn a) in P1. change (s_ctl s) with (s_ctl a) in P2.
    assert (Pa : s_pid a = 0 -> s_ctl a = None /\ s_dmn a = None) by (intros Q; destruct (g_pid0 s G Q) as (X1 & X2 & _); auto).
    assert (Take : forall r, is_ok (do s1 <- respond_plain fds a i r ; conn_cleanup s1 i)).
    { intros r. apply ok_bind; [now apply (plain_ok a i ca)|]. intros s1 H. rewrite (respond_run fds a i r ca Ea Ka) in H. ok1 H. subst s1. eapply cleanup_ok. cbn. apply set_same. }
    unfold handle_req.
    destruct (key =? REQ_INFO). { now apply (respond_ok a i ca). }
    destruct (key =? REQ_STOP) eqn:Ks.
    { apply N.eqb_eq in Ks. specialize (P2 Ks). unfold handle_req_stop. destruct (_ && _) eqn:B; [now apply (plain_ok a i ca)|]. set (s2 := did _ _).
      assert (E2 : s_conns s2 i = Some ca) by (subst s2; destruct (s_pid a =? 0); exact Ea).
      assert (D2 : s_dmn s2 = s_dmn a) by (subst s2; destruct (s_pid a =? 0); reflexivity).
      apply ok_bind; [now apply (blocking_ok s2 i ca)|]. intros (s3 & gone) H.
      destruct (blocking_spec s2 i _ s3 gone ca E2 H) as (oc & it & Hc & _ & _ & _ & _ & Hk & _). destruct (s_ctl s3) as [j|] eqn:Kj; [|apply ok_ok].
      assert (Kj2 : s_ctl a = Some j) by (specialize (Hk j eq_refl); subst s2; destruct (s_pid a =? 0); exact Hk).
      assert (Np : s_pid a <> 0) by (intros Q; apply Pa in Q; destruct Q; congruence). assert (Dn : s_dmn a = Some i).
      { apply Bool.andb_false_iff in B. destruct B as [B|B]; apply Bool.negb_false_iff in B; [apply N.eqb_eq in B; contradiction|now apply opt_is_true]. }
      assert (Cj : is_ctl s j = true) by (now apply opt_is_true). destruct (controller _ _ _ _ s j C Cj) as (cj & t & dn & Ej & Wj & _).
      assert (Nij : j <> i) by congruence.
      rewrite P2 in H by congruence. unfold respond_blocking_ack in H. rewrite (get_some _ _ _ E2) in H. cbn [rbind] in H. unfold is_waiting in H. rewrite Ka in H. cbn [rassert] in H. apply ok_eq in H. injection H as H _.
      apply ok_assert. { apply opt_is_true. subst s3. cbn [s_dmn log put_conn with_obs with_conns]. now rewrite D2. }
      apply ok_bind; [|intros (s4 & g4) _; apply ok_ok]. apply (blocking_ok s3 j cj); [|exact Wj]. rewrite Hc. apply Nat.eqb_neq in Nij. rewrite Nij. subst s2. destruct (s_pid a =? 0); cbn; unfold set; now rewrite Nij. }
    destruct (_ || _). { apply ok_assert; [now apply N.leb_le|]. now apply (respond_ok a i ca). }
    destruct (key =? REQ_ZREL). { unfold handle_req_zrel. destruct (negb _); [now apply (plain_ok a i ca)|]. destruct (s_active _); apply ok_ok. }
    destruct (key =? REQ_CHALF). { destruct (negb _); [now apply (plain_ok a i ca)|]. now apply (plain_ok _ i ca). }
    destruct (key =? REQ_REPL).
    { unfold handle_req_repl. destruct (negb _) eqn:P0; [now apply (plain_ok a i ca)|]. apply Bool.negb_false_iff, N.eqb_eq in P0. destruct (Pa P0) as (X1 & X2). rewrite X1, X2. apply ok_assert; [reflexivity|]. destruct (_ <=? _)%Z; [now apply (plain_ok a i ca)|].
      set (sa := did _ _). destruct (waiting_asked _ _ _ _ s i c v d I Ec K key sa (fun _ => eq_refl) eq_refl eq_refl) as (Wa1 & Wa2). destruct (latr_spec fds sa Wa1 Wa2) as (f & Ef & _). rewrite Ef. apply ok_ok. }
    destruct (key =? REQ_TAK1) eqn:Kt.
    { apply N.eqb_eq in Kt. unfold handle_req_tak1. rewrite (get_some _ _ _ Ea). cbn [rbind]. change (k_d ca) with d. destruct (_ && _) eqn:Pq; [now apply (plain_ok a i ca)|].
      assert (Dn : s_dmn a = None). { apply Bool.andb_false_iff in Pq. destruct Pq as [Q|Q]; apply Bool.negb_false_iff, N.eqb_eq in Q; [now apply Pa|auto]. }
      rewrite Dn. apply ok_assert; [reflexivity|].
      set (sa := did _ _). destruct (waiting_asked _ _ _ _ s i c v d I Ec K key sa (fun _ => eq_refl) eq_refl eq_refl) as (Wa1 & Wa2). destruct (latr_spec fds sa Wa1 Wa2) as (f & Ef & F). rewrite Ef. cbn [rbind]. apply (plain_ok _ i ca); [|exact Ka].
      cbn [s_conns with_queues with_conns]. rewrite F, (later_asked _ _ _ _ s i c v d I Ec K key sa i (fun _ => eq_refl) eq_refl eq_refl), Nat.eqb_refl. exact Ea. }
    destruct (key =? REQ_TAK2). { unfold handle_req_tak2. rewrite (get_some _ _ _ Ea). cbn [rbind]. destruct (negb _); [apply Take|]. apply (respond_ok a i ca); auto. rewrite N.mod_small; [exact Cs|]. unfold two32. lia. }
    destruct (key =? REQ_TAKE). { unfold handle_req_take. rewrite (get_some _ _ _ Ea). cbn [rbind]. destruct (negb _); [apply Take|]. apply ok_assert; [now apply N.leb_le|]. unfold respond. set (sd := did _ _). assert (Ed : s_conns sd i = Some ca) by exact Ea. rewrite (get_some _ _ _ Ed). cbn [rbind]. apply ok_assert; [unfold is_waiting; now rewrite Ka|]. apply ok_assert; [reflexivity|]. apply ok_assert; [|apply ok_ok]. cbn. now apply N.leb_le. }
    now apply (plain_ok a i ca).
  Qed.

  Lemma read_ok s i c r x : linv s -> s_conns s i = Some c -> k_read c = true -> sane s (ERead i r x) -> polite s (ERead i r x) -> is_ok (conn_read fds status_v status_d s i r x).
  Proof.
    intros I Ec Kr Sn Po. assert (I2 := I). destruct I2 as (C & G & E & S). assert (Ci := C i). rewrite Ec in Ci. destruct Ci as (done & part & _ & _ & Cs).
    unfold conn_read. rewrite (get_some _ _ _ Ec). cbn [rbind]. unfold cst in Cs. destruct (k_state c) eqn:K.
    - destruct r as [b| |]; [|apply ok_ok|now apply (cleanup_ok s i c)].
      destruct b as [|key [|v0 [|v1 [|v2 [|d0 [|d1 [|d2 [|d3 [|]]]]]]]]]; try (now apply (cleanup_ok s i c)). set (v := make_v v0 v1 v2). set (d := make_d d0 d1 d2 d3).
      assert (As : asks s (ERead i (Recv [key; v0; v1; v2; d0; d1; d2; d3]) x) i key d x). { split; [now exists c|]. now exists v0, v1, v2, d0, d1, d2, d3. }
      destruct (Sn i key d x As) as (Lx & _). destruct (Po i key d x As) as (Q1 & Q2 & Q3). clearbody v d.
      cbn [k_perms set_rbuf k_write k_read]. change (put_conn (log s i (Got (s_now s) key v d)) i (set_state (set_rbuf c key v d) WAITING_SERVER false (k_write c))) with (asked s i c key v d).
      destruct (match k_perms c with Some p => _ | None => _ end). { eapply plain_ok; [apply asked_conn|reflexivity]. }
      destruct (key =? REQ_CHAL). { destruct (_ || _); [|apply ok_ok]. eapply cleanup_ok. cbn. apply set_same. }
      now apply req_ok.
    - destruct Cs as (t & chunks & _ & Kk & Dt & Sz & Dn & Lt & _). apply ok_assert; [now apply N.eqb_eq|]. unfold recv_challenge_data. rewrite (get_some _ _ _ Ec). cbn [rbind]. rewrite Dt.
      apply ok_assert; [apply Bool.negb_true_iff, Nat.eqb_neq; lia|]. apply ok_assert; [now apply Nat.ltb_lt|].
      destruct r as [b| |]; [|apply ok_ok|now apply (cleanup_ok s i c)]. destruct b as [|b0 b]; [now apply (cleanup_ok s i c)|]. destruct (_ =? _)%nat; [|apply ok_ok].
      destruct (negb _); [|destruct (x_chal_fails x)]; (eapply plain_ok; [cbn; apply set_same|reflexivity]).
    - destruct Cs as (t & _ & _ & _ & X & _). congruence.
    - destruct Cs as (X & _). congruence.
    - destruct Cs as (X & _). congruence.
    - destruct Cs as (X & _). congruence.
  Qed.

  Lemma write_data_ok s i c b r : s_conns s i = Some c -> k_state c = WRITING_RESP_DATA -> k_data c = Some b -> k_size c = length b -> (k_done c < k_size c)%nat -> is_ok (conn_write_data s i r).
  Proof.
    intros Ec K Dt Sz Lt. unfold conn_write_data. rewrite (get_some _ _ _ Ec). cbn [rbind]. rewrite K, Dt. apply ok_assert; [reflexivity|]. apply ok_assert; [apply Bool.negb_true_iff, Nat.eqb_neq; lia|]. apply ok_assert; [now apply Nat.ltb_lt|].
    destruct r; [|apply ok_ok|now apply (cleanup_ok s i c)]. rewrite rdn_ok by lia. cbn [rbind]. destruct (_ =? _)%nat; apply ok_ok.
  Qed.
  Lemma write_ok s i c r r2 : linv s -> s_conns s i = Some c -> k_write c = true -> is_ok (conn_write fds s i r r2).
  Proof.
    intros (C & G & E & S) Ec Kw. assert (Ci := C i). rewrite Ec in Ci. destruct Ci as (done & part & _ & _ & Cs).
    unfold conn_write. rewrite (get_some _ _ _ Ec). cbn [rbind]. unfold cst in Cs. destruct (k_state c) eqn:K.
    - destruct Cs as (_ & _ & X & _). congruence.
    - destruct Cs as (t & chunks & _ & _ & _ & _ & _ & _ & _ & _ & _ & X & _). congruence.
    - destruct Cs as (t & _ & _ & _ & _ & X & _). congruence.
    - destruct Cs as (Rd & Wr & _ & _ & Cs). apply ok_assert; [reflexivity|]. unfold conn_write_resp. rewrite (get_some _ _ _ Ec). cbn [rbind]. rewrite K. cbn [rassert]. destruct r; [|cbn [rbind]; apply ok_ok|].
      + destruct (k_data c) as [b|] eqn:Dt; cbn [rbind]; [|apply ok_ok]. destruct Cs as (Sz & Dn & Nb & _). eapply write_data_ok; [cbn; apply set_same|reflexivity|exact Dt|exact Sz|]. cbn. rewrite Dn, Sz. destruct b; [congruence|cbn; lia].
      + destruct (cleanup_ok s i c Ec) as (s2 & ->). cbn. apply ok_ok.
    - destruct Cs as (Rd & Wr & _ & _ & Dt & t & v & d & chunks & _ & Wk & Wv & Wd & Sz & Cc & Lt & F & P). apply ok_assert; [reflexivity|]. unfold conn_write_resp. rewrite (get_some _ _ _ Ec). cbn [rbind]. rewrite K. cbn [rassert].
      pose proof Lt as Lt2. apply Nat.ltb_lt in Lt2. rewrite Lt2. cbn [rassert]. rewrite rdn_ok by lia. cbn [rbind]. destruct r; [|cbn [rbind]; apply ok_ok|destruct (cleanup_ok s i c Ec) as (s2 & ->); cbn [rbind]; apply ok_ok]. set (n := Nat.min _ _). destruct (k_done c + n <? k_size c)%nat; cbn [rbind]; apply ok_ok.
    - destruct Cs as (Rd & Wr & _ & _ & b & hd & chunks & Dt & Sz & Lt & _). apply ok_assert; [reflexivity|]. now apply (write_data_ok s i c b).
  Qed.

  Lemma watch_ok s dead : linv s -> s_timer s = true -> is_ok (watch_replace fds s dead).
  Proof.
    intros (C & G & E & S) Tm. unfold watch_replace. apply ok_assert. { apply Bool.negb_true_iff, N.eqb_neq. intros Q. destruct (g_pid0 s G Q) as (_ & _ & X & _). congruence. }
    destruct dead; [|apply ok_ok]. set (s1 := with_replace _ _ _ _ _ _). apply ok_bind.
    - change (s_ctl s1) with (s_ctl s). destruct (s_ctl s) as [j|] eqn:Kj; [|apply ok_ok]. destruct (controller _ _ _ _ s j C) as (cj & t & dn & Ej & Wj & _); [now apply opt_is_true|]. now apply (plain_ok s1 j cj).
    - intros s2 H. apply ok_bind; [|intros; apply ok_ok].
      assert (H2 : s_dmn s2 = s_dmn s /\ forall k, s_conns s k <> None -> s_conns s2 k <> None).
      { change (s_ctl s1) with (s_ctl s) in H. destruct (s_ctl s) as [j|] eqn:Kj; [|ok1 H; subst; auto]. destruct (controller _ _ _ _ s j C) as (cj & t & dn & Ej & Wj & _); [now apply opt_is_true|].
        rewrite (respond_run fds s1 j RESP_FAIL cj Ej Wj) in H. ok1 H. subst s2. split; [reflexivity|]. intros k. cbn. unfold set. destruct (k =? j)%nat; [discriminate|auto]. }
      destruct H2 as (Hd & Hc). rewrite Hd. destruct (s_dmn s) as [j|] eqn:Dj; [|apply ok_ok]. destruct (g_dmn s G j Dj) as (X & _). apply Hc in X. destruct (s_conns s2 j) as [cj|] eqn:Ej; [|contradiction]. now apply (cleanup_ok s2 j cj).
  Qed.

  Lemma joined_ok s : linv s -> zinv s -> s_join s = true -> is_ok (reload_zones_joined fds s).
  Proof.
    intros (C & G & E & S) Z J. unfold reload_zones_joined. destruct (z_cur s Z) as (th & Et & Hp & _). rewrite Et. destruct (t_phase th) eqn:Ph; try apply ok_ok.
    - set (sj := with_threads _ _ _ _ _ _). unfold notify_zone_reloaders. destruct (nodup_app _ _ (g_nodup s G)) as (N1 & _).
      destruct (respond_all_spec fds (if failed then RESP_FAIL else RESP_ACK) (s_active sj) sj N1) as (g & Eg & _).
      { intros j Ij. destruct (waiter _ _ _ _ s j C) as (c' & _ & _ & E1 & E2 & _); [apply waits_in; now left|]. now exists c'. }
      rewrite Eg. cbn. apply ok_ok.
    - destruct Hp as (_ & X). destruct X. congruence.
  Qed.

  Lemma other_ok s e : zinv s -> is_ok (other_step s e).
  Proof.
    intros Z. destruct e; try apply ok_ok.
    - unfold other_step, thread_step. destruct (s_threads s k) as [th|] eqn:Ek; [|apply ok_ok]. destruct (Nat.eq_dec k (s_tid s)) as [->|Nk].
      + destruct (z_cur s Z) as (th' & Et & Hp & _). rewrite Ek in Et. injection Et as <-. destruct (t_phase th); try apply ok_ok; [destruct fails; apply ok_ok|]. destruct (forallb _ _); [|apply ok_ok]. apply ok_assert; [|apply ok_ok]. apply existsb_eqb, Hp.
      + rewrite (z_old s Z k th Ek Nk). apply ok_ok.
    - unfold other_step. apply ok_assert; [|apply ok_ok]. apply forallb_forall. intros (j & o) Hj. cbn. destruct (j =? k)%nat; [|reflexivity]. destruct o as [t|]; [|reflexivity]. apply existsb_eqb.
      destruct (z_use s Z j t Hj) as [->|(th & Et & X)]; [apply (z_root s Z)|]. destruct (z_cur s Z) as (th' & Et' & Hp & _). rewrite Et in Et'. injection Et' as <-. destruct X as [X|(w & X & _)]; rewrite X in Hp; apply Hp.
  Qed.

  Lemma step_at_ok s e : linv s -> zinv s -> sane s e -> polite s e -> is_ok (step_at fds status_v status_d s e).
  Proof.
    intros I Z Sn Po. unfold step_at. destruct (is_main e) eqn:M; [|now apply other_ok]. destruct (s_join s) eqn:J.
    - destruct e; try apply ok_ok. now apply joined_ok.
    - unfold main_step. destruct e; try apply ok_ok.
      + destruct (s_accept s); apply ok_ok.
      + destruct (s_conns s i) as [c|] eqn:Ec; [|apply ok_ok]. destruct (k_read c) eqn:Kr; [|apply ok_ok]. now apply (read_ok s i c).
      + destruct (s_conns s i) as [c|] eqn:Ec; [|apply ok_ok]. destruct (k_write c) eqn:Kr; [|apply ok_ok]. now apply (write_ok s i c).
      + destruct (s_timer s) eqn:Tm; [now apply watch_ok|apply ok_ok].
      + destruct (_ =? _); apply ok_ok.
      + destruct (s_async s); apply ok_ok.
  Qed.
End Css.

Section Histories.
  Variable fds : list N.
  Variables status_v status_d : N.
  Notation all := (all fds status_v status_d).
  Notation step := (step fds status_v status_d).
  Notation run := (run fds status_v status_d).
  Notation always := (always fds status_v status_d).

  Lemma step_ok s e : 2 <= N.of_nat (length fds) <= 16777215 -> status_v <= 16777215 -> all s -> sane s e -> polite s e -> is_ok (step s e).
  Proof.
    intros (F1 & F2) Sv (F & Z) Sn Po. unfold CtlModel.step. destruct (s_stop s) eqn:St; [apply ok_ok|].
    destruct (step_at_ok fds status_v status_d F1 F2 Sv (truth s) s e (full_linv fds status_v status_d _ s St F) (Z eq_refl) Sn Po) as (s' & ->). cbn. apply ok_ok.
  Qed.
  Lemma run_all : length fds <> 0%nat -> forall h s s', all s -> always sane s h -> always calm s h -> run s h = Ok s' ->
    all s' /\ (s_since s (s_root s) <= s_since s' (s_root s'))%nat /\ incl (s_loads s) (s_loads s').
  Proof.
    intros Hf. induction h as [|e h IH]; cbn; intros s s' A H1 H2 H; [ok1 H; subst; split; [exact A|]; split; [lia|apply incl_refl]|].
    destruct H1 as (Sn & H1), H2 as (Cm & H2). ok1 H. rewrite E in *. destruct (step_all fds status_v status_d Hf s e y A Sn Cm E) as (A' & L & I). destruct (IH y s' A' H1 H2 H) as (A'' & L' & I'). split; [exact A''|]. split; [lia|]. eapply incl_tran; eassumption.
  Qed.
  Lemma run_ok : 2 <= N.of_nat (length fds) <= 16777215 -> status_v <= 16777215 -> forall h s, all s -> always sane s h -> always calm s h -> always polite s h -> is_ok (run s h).
  Proof.
    intros Hf Sv. induction h as [|e h IH]; cbn; intros s A H1 H2 H3; [apply ok_ok|]. destruct H1 as (Sn & H1), H2 as (Cm & H2), H3 as (Po & H3).
    destruct (step_ok s e Hf Sv A Sn Po) as (s' & E). rewrite E in *. cbn [rbind]. apply IH; auto. apply (step_all fds status_v status_d) with s e; auto. destruct Hf as (Hf & _). destruct fds; [cbn in Hf; lia|discriminate].
  Qed.
  Lemma all_init : all init.
  Proof. split; [apply linv_full, linv_init|]. intros _. apply zinv_init. Qed.
End Histories.
