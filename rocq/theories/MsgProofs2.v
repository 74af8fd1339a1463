(** The size prediction of the OPT record, and whole responses. *)
From Coq Require Import Sorting.Permutation.
From Verif Require Import Base DnameModel DnameSpec DnameProofs PktModel PktSpec PktProofs PktProofs2 PktProofs3 PktProofs4 RandModel RandSpec CompModel CompSpec CompProofs CompProps
  RespModel RespSpec RespProofs5 RespProps MsgModel MsgSpec MsgProofs.
Ltac Zify.zify_post_hook ::= idtac.

Lemma once_in c o os : once c (o :: os) -> fst o = c -> Forall (fun x => fst x <> c) os.
Proof.
  unfold once. intros H E. cbn [filter] in H. rewrite E, N.eqb_refl in H. cbn [length] in H.
  apply Forall_forall. intros x I Q. assert (N0 : filter (fun o => fst o =? c)%N os = []) by (destruct (filter _ os); [reflexivity|cbn in H; lia]).
  assert (J : In x (filter (fun o => fst o =? c)%N os)) by (apply filter_In; split; [exact I|now apply N.eqb_eq]). rewrite N0 in J. exact J.
Qed.
Lemma once_tail c o os : once c (o :: os) -> once c os.
Proof. unfold once. cbn [filter]. destruct (fst o =? c)%N; cbn [length]; lia. Qed.
Lemma once_none c os : Forall (fun x : N * list N => fst x <> c) os -> once c os.
Proof.
  unfold once. intros H. replace (filter (fun o => fst o =? c)%N os) with (@nil (N * list N)); [cbn; lia|].
  induction H as [|x l Q _ IH]; [reflexivity|]. cbn [filter]. destruct (N.eqb_spec (fst x) c); [contradiction|exact IH].
Qed.

Section Pred.
  Variable cfg : pcfg.
  Variable ckp : bytes -> bool * bytes.
  Hypothesis ckp_len : forall d, length (snd (ckp d)) = 16.
  Variable dso : bool.

  Definition seen_ok (e : edns) (R : bytes) : Prop :=
    forall os rest, Forall opt_ok os -> R = opts_wire os ++ rest ->
      once 8 os /\ once 3 os /\ (e_respond_ecs e = true -> Forall (fun x => fst x <> 8%N) os) /\
      (e_respond_nsid e = true -> Forall (fun x => fst x <> 3%N) os).

  Definition good (e : edns) : Prop := ewf2 cfg e /\ predicted cfg dso e /\ (e_ck_recvd e = false -> e_ck_respond e = false).

  Lemma opt_good e o rv e' R : opt_rel cfg ckp dso e o rv e' -> opt_ok o -> good e -> seen_ok e (opt_wire o ++ R) ->
    good e' /\ (rv = DECODE_OK -> seen_ok e' R) /\ e_req e' = e_req e.
  Proof.
    intros OR HO ((W & (WX1 & WX2) & WF & WN & WK) & HP & HK) HS.
    pose proof (opt_rel_wf cfg ckp ckp_len dso _ _ _ _ OR W) as W'.
    assert (HS' : forall os rest, Forall opt_ok os -> R = opts_wire os ++ rest ->
       once 8 (o :: os) /\ once 3 (o :: os) /\ (e_respond_ecs e = true -> Forall (fun x => fst x <> 8%N) (o :: os)) /\
       (e_respond_nsid e = true -> Forall (fun x => fst x <> 3%N) (o :: os))).
    { intros os rest HF E. apply (HS (o :: os) rest); [now constructor|]. rewrite E. unfold opts_wire at 2. cbn [map concat]. now rewrite <- app_assoc. }
    assert (SAME : good e /\ seen_ok e R).
    { split; [split; [split; auto|auto]|]. intros os rest HF E. destruct (HS' os rest HF E) as (A & B & C & D).
      split; [eapply once_tail; eauto|]. split; [eapply once_tail; eauto|]. split; intros Q; [specialize (C Q)|specialize (D Q)]; eapply Forall_inv_tail; eauto. }
    destruct SAME as [SG SS].
    inversion OR; subst; try (split; [exact SG|split; [intros _; exact SS|reflexivity]]); try (split; [exact SG|split; [discriminate|reflexivity]]).
    - (* client subnet *)
      destruct H0 as (EO & FF & LA & _). 
      assert (NE : e_respond_ecs e = false).
      { destruct (e_respond_ecs e) eqn:Q; [|reflexivity]. exfalso. destruct (HS' [] R (Forall_nil _) eq_refl) as (_ & _ & C & _). specialize (C eq_refl).
        apply Forall_inv in C. cbn in C. congruence. }
      assert (W2 : ewf2 cfg (ecs_result e family src addr)).
      { split; [exact W'|]. split; [split; [intros _; assumption|exact WX2]|]. split; [intros _; exact FF|]. split; assumption. }
      split; [split; [exact W2|]|].
      + split; [|exact HK]. unfold predicted in *. cbn [ecs_result set_ecs e_out_bytes]. rewrite HP.
        destruct (ecs_addr_ok cfg (ecs_result e family src addr) W2 eq_refl) as [LE _]. unfold base_opts.
        cbn [ecs_result set_ecs e_respond_ecs e_ck_respond e_ck_output e_respond_nsid e_ecs_family e_ecs_mask] in *. rewrite NE.
        rewrite !opts_wire_app, !app_length, opts_wire_1, opt_wire_len. cbn [snd]. rewrite !app_length, be16_len, LE, LA. cbn [opts_wire map concat length]. lia.
      + split; [|reflexivity]. intros _ os rest HF E. destruct (HS' os rest HF E) as (A & B & C & D). split; [eapply once_tail; eauto|]. split; [eapply once_tail; eauto|].
        split; [intros _; eapply once_in; [exact A|reflexivity]|]. intros Q. specialize (D Q). eapply Forall_inv_tail; eauto.
    - (* NSID *)
      assert (NE : e_respond_nsid e = false).
      { destruct (e_respond_nsid e) eqn:Q; [|reflexivity]. exfalso. destruct (HS' [] R (Forall_nil _) eq_refl) as (_ & _ & _ & D). specialize (D eq_refl).
        apply Forall_inv in D. cbn in D. congruence. }
      split; [split; [split; [exact W'|split; [split; assumption|split; [exact WF|split; [intros _; assumption|exact WK]]]]|]|].
      + split; [|exact HK]. unfold predicted in *. cbn [set_nsid e_out_bytes]. rewrite HP. unfold base_opts, set_nsid, ecs_addr.
        cbn [e_respond_ecs e_ck_respond e_ck_output e_respond_nsid e_ecs_family e_ecs_mask e_v4 e_v6]. rewrite NE.
        rewrite !opts_wire_app, !app_length, (opts_wire_1 (3%N, c_nsid cfg)), (opt_wire_len (3%N, c_nsid cfg)). cbn [snd]. change (length (opts_wire [])) with 0. lia.
      + split; [|reflexivity]. intros _ os rest HF E. destruct (HS' os rest HF E) as (A & B & C & D). split; [eapply once_tail; eauto|]. split; [eapply once_tail; eauto|].
        split; [intros Q; specialize (C Q); eapply Forall_inv_tail; eauto|]. intros _. eapply once_in; [exact B|reflexivity].
    - (* cookie *)
      split; [split; [split; [exact W'|split; [split; [exact WX1|intros _; assumption]|split; [exact WF|split; [exact WN|intros _; reflexivity]]]]|]|].
      + split; [|discriminate]. unfold predicted in *. cbn [set_ck e_out_bytes]. rewrite HP. unfold base_opts, set_ck, ecs_addr.
        cbn [e_respond_ecs e_ck_respond e_ck_output e_respond_nsid e_ecs_family e_ecs_mask e_v4 e_v6]. rewrite HK by assumption.
        rewrite !opts_wire_app, !app_length, (opts_wire_1 (10%N, snd (ckp opt))), opt_wire_len. cbn [snd]. rewrite ckp_len. change (length (opts_wire [])) with 0. lia.
      + split; [|reflexivity]. intros _. exact SS.
    - (* bad cookie *)
      split; [|split; [discriminate|reflexivity]]. split; [split; [exact W'|split; [split; [exact WX1|exact WX2]|split; [exact WF|split; [exact WN|intros _; reflexivity]]]]|].
      split; [exact HP|discriminate].
  Qed.

  Lemma opts_good e R rv e' : opts_rel cfg ckp dso e R rv e' -> good e -> seen_ok e R -> good e' /\ e_req e' = e_req e.
  Proof.
    induction 1 as [e|e R HN NO|e o R rv e1 e2 HO OR ORS IH|e o R rv e1 HO OR NE]; intros HG HS; auto.
    - destruct (opt_good _ _ _ _ _ OR HO HG HS) as (G & S1 & E). destruct (IH G (S1 eq_refl)) as (G2 & E2). split; [exact G2|congruence].
    - destruct (opt_good _ _ _ _ _ OR HO HG HS) as (G & _ & E). split; assumption.
  Qed.

  (** what decoding an OPT record leaves as it was *)
  Definition kept (t t' : txn) : Prop :=
    t_qtype t' = t_qtype t /\ t_qclass t' = t_qclass t /\ t_qdcount t' = t_qdcount t /\ t_lqname t' = t_lqname t.
  Lemma effect_kept pkt off q rv t : opt_effect cfg ckp dso pkt off (txn_start cfg q) rv t -> kept (txn_start cfg q) t.
  Proof.
    inversion 1; subst; [repeat split|]. inversion H3; subst; [repeat split| |];
    unfold opt_limits; destruct (c_is_udp cfg); [|destruct dso| |destruct dso]; repeat split.
  Qed.

  Definition good_txn (t : txn) : Prop := ewf2 cfg (t_edns t) /\ (e_req (t_edns t) = true -> predicted cfg dso (t_edns t)) /\
    (e_req (t_edns t) = false -> t_edns t = edns0) /\
    (c_is_udp cfg = false -> t_max t = 16376%N) /\
    (c_is_udp cfg = true -> t_max t = 512%N \/ exists size, t_max t = N.min (N.max 512 size) (c_udp_max cfg)).

  Lemma edns0_wf2 : ewf2 cfg edns0.
  Proof. split; [apply edns0_wf|]. split; [split; discriminate|]. split; [discriminate|]. split; discriminate. Qed.

  Lemma start_good q : good_txn (txn_start cfg q).
  Proof.
    split; [apply edns0_wf2|]. split; [discriminate|]. split; [reflexivity|]. unfold txn_start. cbn [t_max].
    split; intros ->; [reflexivity|now left].
  Qed.

  Lemma effect_good pkt off q rv t : tame cfg dso pkt -> 12 <= off -> opt_effect cfg ckp dso pkt off (txn_start cfg q) rv t -> good_txn t.
  Proof.
    intros HT HO H. inversion H as [|p size ext rdlen tail rv' t' LP EP [HS HR] ORR]; [subst; apply start_good|]. subst rv' t'.
    destruct (HT p size ext rdlen tail EP ltac:(lia) HS HR) as (HV & HON).
    assert (G0 : opt_version ext = 0%N -> good (t_edns (opt_limits cfg dso (opt_seen (txn_start cfg q) ext) size))).
    { intros EV. split; [|split].
      - unfold opt_limits. destruct (c_is_udp cfg); [|destruct dso]; apply edns0_wf2.
      - unfold predicted, opt_limits, base_opts. destruct (c_is_udp cfg); [|destruct dso]; reflexivity.
      - unfold opt_limits. destruct (c_is_udp cfg); [|destruct dso]; reflexivity. }
    assert (RQ : e_req (t_edns (opt_limits cfg dso (opt_seen (txn_start cfg q) ext) size)) = true)
      by (unfold opt_limits; destruct (c_is_udp cfg); [|destruct dso]; reflexivity).
    assert (MX : (c_is_udp cfg = false -> t_max (opt_limits cfg dso (opt_seen (txn_start cfg q) ext) size) = 16376%N) /\
                 (c_is_udp cfg = true -> t_max (opt_limits cfg dso (opt_seen (txn_start cfg q) ext) size) = N.min (N.max 512 size) (c_udp_max cfg))).
    { unfold opt_limits, txn_start. destruct (c_is_udp cfg); (split; [intros Q; try discriminate Q|intros Q; try discriminate Q]); [reflexivity|destruct dso; reflexivity]. }
    inversion ORR as [NV|EV SH|rv1 e' EV LE OS]; subst.
    - split; [apply edns0_wf2|]. split; [|split; [discriminate|]].
      + intros _. unfold predicted, base_opts. destruct HV as [HV|HV]; [contradiction|]. cbn. destruct HV as [-> | ->]; [reflexivity|].
        rewrite orb_true_r. reflexivity.
      + cbn [opt_seen set_edns t_max txn_start]. split; intros ->; [reflexivity|now left].
    - destruct (G0 EV) as (G1 & G2 & _). split; [exact G1|]. split; [auto|]. split; [rewrite RQ; discriminate|]. destruct MX as [M1 M2]. split; [exact M1|]. intros Q. right. eauto.
    - destruct (opts_good _ _ _ _ OS (G0 EV)) as ((G1 & G2 & _) & G4).
      { intros os rest HF E. destruct (HON os rest HF E) as [O8 O3]. split; [exact O8|]. split; [exact O3|].
        unfold opt_limits. destruct (c_is_udp cfg); [|destruct dso]; split; discriminate. }
      split; [exact G1|]. split; [auto|]. cbn [set_edns t_edns t_max]. rewrite G4, RQ. split; [discriminate|].
      destruct MX as [M1 M2]. split; [exact M1|]. intros Q. right. eauto.
  Qed.
End Pred.

Lemma labels_of_wn : forall ls fuel, Forall legal_label ls -> length ls < fuel -> labels_of fuel (wn ls) = ls.
Proof.
  induction ls as [|l ls IH]; intros fuel HF HL; (destruct fuel as [|fuel]; [lia|]); [reflexivity|].
  rewrite wn_cons. cbn [labels_of]. inversion HF as [|? ? Q1 Q2]; subst. destruct Q1 as ((Q1a & Q1b) & _).
  destruct (N.eqb_spec (N.of_nat (length l)) 0) as [Z|_]; [lia|]. rewrite Nat2N.id.
  rewrite firstn_app, firstn_all, Nat.sub_diag. cbn [firstn]. rewrite app_nil_r.
  rewrite skipn_app, skipn_all, Nat.sub_diag. cbn [skipn app]. rewrite IH; [reflexivity|exact Q2|cbn in HL; lia].
Qed.
