(** Proofs about the health checks: the HTTP checks, for every schedule of events. *)
From Verif Require Import Base MonModel ProbeModel ProbeSpec ProbeProofs.
Local Open Scope N_scope.

Lemma sent_app h1 h2 : sent (h1 ++ h2) = sent h1 ++ sent h2.
Proof.
  induction h1 as [|(t & e) h IH]; cbn [app sent]; auto.
  destruct e; auto. rewrite IH. apply app_assoc.
Qed.
Lemma got_app h1 h2 : got (h1 ++ h2) = got h1 ++ got h2.
Proof.
  induction h1 as [|(t & e) h IH]; cbn [app got]; auto.
  destruct e; auto. rewrite IH. apply app_assoc.
Qed.
Lemma happened_app e h1 h2 : happened e (h1 ++ h2) <-> happened e h1 \/ happened e h2.
Proof.
  unfold happened. split.
  - intros (t & H). apply in_app_or in H as [H|H]; eauto.
  - intros [(t & H)|(t & H)]; exists t; apply in_or_app; auto.
Qed.
Lemma happened_cons e t e' h : happened e ((t, e') :: h) <-> e = e' \/ happened e h.
Proof.
  unfold happened. split.
  - intros (t' & [[= _ E]|H]); eauto.
  - intros [->|(t' & H)]; [exists t|exists t']; cbn; auto.
Qed.
Lemma happened_nil e : ~ happened e [].
Proof. intros (t & []). Qed.

Lemma on_later fd t0 t1 t2 h : t1 <= t2 -> Forall (on fd t0 t1) h -> Forall (on fd t0 t2) h.
Proof.
  intros L. apply Forall_impl. intros (t & e) [H1 H2]. split; cbn [fst snd] in *; [lia|auto].
Qed.

Lemma checks_one {A} (ck : list (N * effect) -> A -> Prop) c r : ck c r -> checks ck c [r].
Proof. intros H. apply (checks_snoc ck [] [] c r); [constructor|assumption]. Qed.

Ltac fields := cbn [hst sock rw ww tw iw res_buf now hdone hconn act pend timer_start timer_stop rep due tact tpend io_start io_stop io_take io0].

Section Http.
  Variable svc : http_svc.
  Hypothesis req_some : req_data svc <> [].
  Hypothesis codes_ok : Forall (fun c => 100 <= c <= 999) (ok_codes svc).

  (** The timeout timer of a check begun at [t0] *)
  Definition clock (t0 now : N) (t : timer) : Prop :=
    rep t = 0 /\ due t = t0 + h_timeout svc /\
    ((tact t = true /\ tpend t = false) \/ (tact t = false /\ tpend t = true /\ due t <= now)).

  Definition stopped (t : timer) : Prop := tact t = false /\ tpend t = false.

  (** [o]: what the check that is going on did so far *)
  Inductive phase (m : hmon) : list (N * effect) -> Prop :=
  | ph_wait : hst m = HWaiting -> sock m = None -> rw m = io0 -> ww m = io0 -> stopped (tw m) ->
      length (res_buf m) = 14%nat -> phase m []
  | ph_write t0 fd mid : hst m = HWriting -> sock m = Some fd -> rw m = io0 -> act (ww m) = true ->
      clock t0 (now m) (tw m) -> length (res_buf m) = 14%nat ->
      t0 <= now m -> Forall (on fd t0 (now m)) mid ->
      ~ happened (Connected fd false) mid -> ~ happened (Broke fd) mid ->
      (hdone m < length (req_data svc))%nat -> sent mid = firstn (hdone m) (req_data svc) -> got mid = [] ->
      (hconn m = true -> happened (Connected fd true) mid) ->
      (hconn m = false -> hdone m = 0%nat) ->
      phase m ((t0, Socket (Some fd)) :: mid)
  | ph_read t0 fd mid : hst m = HReading -> sock m = Some fd -> act (rw m) = true -> ww m = io0 ->
      clock t0 (now m) (tw m) -> length (res_buf m) = 14%nat ->
      t0 <= now m -> Forall (on fd t0 (now m)) mid ->
      ~ happened (Connected fd false) mid -> ~ happened (Broke fd) mid ->
      (hdone m < 13)%nat -> sent mid = req_data svc -> got mid = firstn (hdone m) (res_buf m) ->
      happened (Connected fd true) mid ->
      phase m ((t0, Socket (Some fd)) :: mid).

  (** A step: what it does to the check that is going on, and the results of those it finishes *)
  Definition goes (o : list (N * effect)) (m' : hmon) (o1 : list (N * effect)) : Prop :=
    phase m' (o ++ o1) \/
    (phase m' [] /\ exists r, http_check svc (o ++ o1) r).

  Lemma req_len : (0 < length (req_data svc))%nat.
  Proof. destruct (req_data svc); [congruence|cbn; lia]. Qed.

  Lemma short n : (n < length (req_data svc))%nat -> firstn n (req_data svc) <> req_data svc.
  Proof. intros L E. apply (f_equal (@length N)) in E. rewrite firstn_length in E. lia. Qed.

  Lemma no_reply : ~ good_reply (ok_codes svc) [].
  Proof. intros (? & ? & ? & ? & ? & E & _). discriminate. Qed.

  Lemma good_len r : good_reply (ok_codes svc) r -> length r = 13%nat.
  Proof. intros (? & ? & ? & ? & ? & -> & _). reflexivity. Qed.

  Lemma interval_ok fd c m o : phase m o -> tpend (iw m) = false ->
    exists m' o1, http_interval_cb svc fd c m = Ok (m', o1) /\ goes o m' (map (pair (now m)) o1) /\ iw m' = iw m /\ now m' = now m /\
      (o = [] -> exists rest, o1 = Socket fd :: rest).
  Proof.
    intros P _. unfold http_interval_cb. inversion P; subst.
    - rewrite H, H0, H2. destruct H3 as [T1 T2]. rewrite T1, T2.
      cbn [is_waiting negb is_none rassert act io0 andb]. destruct fd as [s|].
      + destruct c.
        * eexists _, _. split; [reflexivity|]. split; [|split; [reflexivity|split; [reflexivity|eauto]]]. left.
          cbn [app map]. apply ph_write; fields; auto.
          -- repeat split; cbn; auto.
          -- lia.
          -- constructor; [|constructor]. split; cbn; [lia|auto].
          -- rewrite happened_cons. intros [?|Z]; [discriminate|]. now apply happened_nil in Z.
          -- rewrite happened_cons. intros [?|Z]; [discriminate|]. now apply happened_nil in Z.
          -- apply req_len.
          -- intros _. apply happened_cons. auto.
        * eexists _, _. split; [reflexivity|]. split; [|split; [reflexivity|split; [reflexivity|eauto]]]. left.
          cbn [app map]. apply ph_write; fields; auto.
          -- repeat split; cbn; auto.
          -- lia.
          -- apply happened_nil.
          -- apply happened_nil.
          -- apply req_len.
          -- discriminate.
        * eexists _, _. split; [reflexivity|]. split; [|split; [reflexivity|split; [reflexivity|eauto]]]. right. split.
          -- apply ph_wait; cbn; auto. now split.
          -- exists false. cbn [app map].
             apply (http_done svc (now m) (now m) s [(now m, Connected s false)] false); try lia.
             ++ repeat constructor; cbn; try lia. 
             ++ split; [discriminate|]. intros (Z & _). apply happened_cons in Z as [Z|Z]; [discriminate|]. now apply happened_nil in Z.
             ++ cbn. eauto.
             ++ intros _. left. apply happened_cons. auto.
      + eexists _, _. split; [reflexivity|]. split; [|split; [reflexivity|split; [reflexivity|eauto]]]. right. split.
        * apply ph_wait; cbn; auto. now split.
        * exists false. constructor.
    - rewrite H. cbn [is_waiting negb]. exists m, []. split; [reflexivity|]. split; [|repeat split; auto; discriminate].
      left. cbn [map]. rewrite app_nil_r. assumption.
    - rewrite H. cbn [is_waiting negb]. exists m, []. split; [reflexivity|]. split; [|repeat split; auto; discriminate].
      left. cbn [map]. rewrite app_nil_r. assumption.
  Qed.


  Lemma finish_bad m o fd t0 mid es :
    o = (t0, Socket (Some fd)) :: mid -> t0 <= now m -> Forall (on fd t0 (now m)) mid ->
    (exists rest, req_data svc = sent mid ++ rest) ->
    Forall (on fd t0 (now m)) (map (pair (now m)) es) ->
    sent (map (pair (now m)) es) = [] -> got (map (pair (now m)) es) = [] ->
    (sent mid <> req_data svc \/ (length (got mid) < 13)%nat) ->
    happened (Connected fd false) (map (pair (now m)) es) \/ happened (Broke fd) (map (pair (now m)) es) \/ t0 + h_timeout svc <= now m ->
    http_check svc (o ++ map (pair (now m)) (es ++ [Closed fd; Report false])) false.
  Proof.
    intros -> T F (rest & R) Fe Se Ge Bad Why. rewrite map_app. cbn [map app]. rewrite app_assoc.
    apply http_done; auto.
    - apply Forall_app. auto.
    - split; [discriminate|]. intros (_ & S & G). rewrite sent_app, Se, app_nil_r in S. rewrite got_app, Ge, app_nil_r in G.
      apply good_len in G. destruct Bad; [congruence|lia].
    - exists rest. now rewrite sent_app, Se, app_nil_r.
    - intros _. rewrite !happened_app. destruct Why as [?|[?|?]]; auto.
  Qed.

  Lemma firstn_more (l : bytes) n k : firstn (n + k) l = firstn n l ++ firstn k (skipn n l).
  Proof.
    revert n. induction l as [|x l IH]; intros n; [now rewrite !firstn_nil, skipn_nil, firstn_nil|].
    destruct n; cbn [Nat.add firstn skipn app]; auto. now rewrite IH.
  Qed.

  Lemma write_ok so a m o : phase m o -> act (ww m) = true -> 
    exists m' o1, http_write_cb svc so a m = Ok (m', o1) /\ goes o m' (map (pair (now m)) o1) /\ iw m' = iw m /\ now m' = now m.
  Proof.
    intros P A. unfold http_write_cb. inversion P; subst.
    { rewrite H2 in A. discriminate. }
    2:{ rewrite H2 in A. discriminate. }
    rewrite H, H0, H1, A.
    assert (TT : tact (tw m) || tpend (tw m) = true) by (destruct H3 as (_ & _ & [(-> & _)|(_ & -> & _)]); auto using orb_true_r).
    rewrite TT. cbn [is_writing rassert negb act io0].
    assert (Pre : exists rest, req_data svc = sent mid ++ rest).
    { exists (skipn (hdone m) (req_data svc)). rewrite H10. symmetry. apply firstn_skipn. }
    destruct (negb (hconn m) && so) eqn:C.
    { eexists _, _. split; [reflexivity|]. split; [|auto]. right. split.
      - apply ph_wait; fields; auto. now split.
      - exists false. change [Connected fd false; Closed fd; Report false] with ([Connected fd false] ++ [Closed fd; Report false]).
        eapply finish_bad; eauto.
        + repeat constructor; cbn; lia.
        + left. rewrite H10. now apply short.
        + left. apply happened_cons. auto. }
    assert (LT : Nat.ltb (hdone m) (length (req_data svc)) = true) by now apply Nat.ltb_lt.
    rewrite LT. cbn [rassert].
    set (es := if hconn m then [] else [Connected fd true]).
    assert (Fes : Forall (on fd t0 (now m)) (map (pair (now m)) es)).
    { unfold es. destruct (hconn m); repeat constructor; cbn; lia. }
    assert (Ses : sent (map (pair (now m)) es) = []) by (unfold es; destruct (hconn m); reflexivity).
    assert (Ges : got (map (pair (now m)) es) = []) by (unfold es; destruct (hconn m); reflexivity).
    assert (Nes : forall e, happened e (map (pair (now m)) es) -> e = Connected fd true).
    { unfold es. intros e. destruct (hconn m); cbn [map].
      - intros Z. now apply happened_nil in Z.
      - rewrite happened_cons. intros [?|Z]; auto. now apply happened_nil in Z. }
    assert (Ces : happened (Connected fd true) (mid ++ map (pair (now m)) es)).
    { unfold es. destruct (hconn m) eqn:E; cbn [map]; apply happened_app; auto. right. apply happened_cons. auto. }
    destruct a as [| |n].
    - eexists _, _. split; [reflexivity|]. split; [|auto]. left. cbn [app].
      apply ph_write; fields; auto.
      + apply Forall_app. auto.
      + rewrite happened_app. intros [Z|Z]; [auto|apply Nes in Z; discriminate].
      + rewrite happened_app. intros [Z|Z]; [auto|apply Nes in Z; discriminate].
      + now rewrite sent_app, Ses, app_nil_r.
      + now rewrite got_app, Ges, app_nil_r.
      + discriminate.
    - eexists _, _. split; [reflexivity|]. split; [|auto]. right. split.
      + apply ph_wait; fields; auto. now split.
      + exists false. change [Broke fd; Shut fd; Closed fd; Report false] with ([Broke fd; Shut fd] ++ [Closed fd; Report false]).
        rewrite app_assoc. eapply finish_bad; eauto.
        * rewrite map_app. apply Forall_app. split; auto. repeat constructor; cbn; lia.
        * rewrite map_app, sent_app, Ses. reflexivity.
        * rewrite map_app, got_app, Ges. reflexivity.
        * left. rewrite H10. now apply short.
        * right. left. rewrite map_app. apply happened_app. right. apply happened_cons. auto.
    - set (k := Nat.min n (length (req_data svc) - hdone m)).
      assert (K : (k <= length (req_data svc) - hdone m)%nat) by apply Nat.le_min_r.
      unfold rdn. replace (Nat.leb (hdone m + k) (length (req_data svc))) with true by (symmetry; apply Nat.leb_le; lia).
      cbn [rbind].
      assert (S1 : sent (mid ++ map (pair (now m)) (es ++ [Sent fd (firstn k (skipn (hdone m) (req_data svc)))]))
                   = firstn (hdone m + k) (req_data svc)).
      { rewrite map_app, !sent_app, Ses, H10, firstn_more. cbn [map sent app]. now rewrite app_nil_r. }
      assert (G1 : got (mid ++ map (pair (now m)) (es ++ [Sent fd (firstn k (skipn (hdone m) (req_data svc)))])) = []).
      { rewrite map_app, !got_app, Ges, H11. reflexivity. }
      assert (F1 : Forall (on fd t0 (now m)) (mid ++ map (pair (now m)) (es ++ [Sent fd (firstn k (skipn (hdone m) (req_data svc)))]))).
      { rewrite map_app. repeat (apply Forall_app; split; auto). repeat constructor; cbn; lia. }
      assert (N1 : forall e, happened e (mid ++ map (pair (now m)) (es ++ [Sent fd (firstn k (skipn (hdone m) (req_data svc)))])) ->
                   happened e mid \/ e = Connected fd true \/ exists d, e = Sent fd d).
      { intros e. rewrite map_app, !happened_app. cbn [map]. rewrite happened_cons.
        intros [Z|[Z|[Z|Z]]]; eauto. now apply happened_nil in Z. }
      assert (C1 : happened (Connected fd true) (mid ++ map (pair (now m)) (es ++ [Sent fd (firstn k (skipn (hdone m) (req_data svc)))]))).
      { rewrite map_app, app_assoc. apply happened_app. auto. }
      destruct (Nat.eqb k (length (req_data svc) - hdone m)) eqn:Ek; cbn [negb].
      + apply Nat.eqb_eq in Ek. eexists _, _. split; [reflexivity|]. split; [|auto]. left. cbn [app].
        apply ph_read; fields; auto; try lia.
        * intros Z. apply N1 in Z as [Z|[Z|(d & Z)]]; [auto|discriminate|discriminate].
        * intros Z. apply N1 in Z as [Z|[Z|(d & Z)]]; [auto|discriminate|discriminate].
        * rewrite S1. apply firstn_all2. lia.
      + apply Nat.eqb_neq in Ek. eexists _, _. split; [reflexivity|]. split; [|auto]. left. cbn [app].
        apply ph_write; fields; auto; try lia.
        * intros Z. apply N1 in Z as [Z|[Z|(d & Z)]]; [auto|discriminate|discriminate].
        * intros Z. apply N1 in Z as [Z|[Z|(d & Z)]]; [auto|discriminate|discriminate].
  Qed.

  Lemma firstn_wr (l : bytes) n d : (n + length d <= length l)%nat ->
    firstn (n + length d) (firstn n l ++ d ++ skipn (n + length d) l) = firstn n l ++ d.
  Proof.
    intros H. rewrite app_assoc, firstn_app.
    rewrite firstn_all2 by (rewrite app_length, firstn_length; lia).
    replace (_ - _)%nat with 0%nat by (rewrite app_length, firstn_length; lia). cbn [firstn]. apply app_nil_r.
  Qed.

  Lemma read_ok a m o : phase m o -> act (rw m) = true ->
    exists m' o1, http_read_cb svc a m = Ok (m', o1) /\ goes o m' (map (pair (now m)) o1) /\ iw m' = iw m /\ now m' = now m.
  Proof.
    intros P A. unfold http_read_cb. inversion P; subst.
    { rewrite H1 in A. discriminate. }
    { rewrite H1 in A. discriminate. }
    rewrite H, H0, A. cbn [is_reading rassert].
    replace (Nat.leb (hdone m) 13) with true by (symmetry; apply Nat.leb_le; lia). cbn [rassert].
    assert (L13 : length (got mid) = hdone m) by (rewrite H11, firstn_length; lia).
    assert (Pre : exists rest, req_data svc = sent mid ++ rest) by (exists []; now rewrite app_nil_r).
    destruct a as [| |bs].
    - exists m, []. split; [reflexivity|]. split; [|auto]. left. cbn [map]. rewrite app_nil_r. assumption.
    - eexists _, _. split; [reflexivity|]. split; [|auto]. right. split.
      + apply ph_wait; fields; auto. now split.
      + exists false. change ([Broke fd] ++ [Shut fd; Closed fd; Report false]) with ([Broke fd; Shut fd] ++ [Closed fd; Report false]).
        eapply finish_bad; eauto.
        * repeat constructor; cbn; lia.
        * right. lia.
        * right. left. apply happened_cons. auto.
    - set (d := firstn (13 - hdone m) bs).
      assert (Ld : (length d <= 13 - hdone m)%nat) by apply firstn_le_length.
      unfold wr at 1. replace (Nat.leb (hdone m + length d) (length (res_buf m))) with true by (symmetry; apply Nat.leb_le; lia).
      cbn [rbind]. set (buf := firstn (hdone m) (res_buf m) ++ d ++ skipn (hdone m + length d) (res_buf m)).
      assert (Lb : length buf = 14%nat).
      { unfold buf. rewrite !app_length, firstn_length, skipn_length. lia. }
      assert (Gb : got (mid ++ [(now m, Got fd d)]) = firstn (hdone m + length d) buf).
      { unfold buf. rewrite firstn_wr by lia. rewrite got_app, H11. cbn [got]. now rewrite app_nil_r. }
      destruct (Nat.ltb (length d) (13 - hdone m)) eqn:El.
      + apply Nat.ltb_lt in El. eexists _, _. split; [reflexivity|]. split; [|auto]. left. cbn [map app].
        apply ph_read; fields; auto; try lia.
        * apply Forall_app. split; auto. repeat constructor; cbn; lia.
        * rewrite happened_app, happened_cons. intros [Z|[Z|Z]]; [auto|discriminate|now apply happened_nil in Z].
        * rewrite happened_app, happened_cons. intros [Z|[Z|Z]]; [auto|discriminate|now apply happened_nil in Z].
        * rewrite sent_app. cbn [sent]. now rewrite app_nil_r.
        * apply happened_app. auto.
      + apply Nat.ltb_ge in El. unfold wr. replace (Nat.leb (13 + length [0]) (length buf)) with true by (rewrite Lb; reflexivity).
        cbn [rbind length Nat.add]. rewrite (skipn_all2 buf) by (rewrite Lb; lia). rewrite app_nil_r.
        eexists _, _. split; [reflexivity|]. split; [|auto]. right. split.
        * apply ph_wait; fields; auto. { now split. } rewrite app_length, firstn_length, Lb. reflexivity.
        * exists (code_ok (ok_codes svc) (firstn 13 buf ++ [0])). cbn [app map].
          change (http_check svc ((t0, Socket (Some fd)) :: mid ++ ([(now m, Got fd d); (now m, Shut fd)] ++
            [(now m, Closed fd); (now m, Report (code_ok (ok_codes svc) (firstn 13 buf ++ [0])))]))
            (code_ok (ok_codes svc) (firstn 13 buf ++ [0]))).
          rewrite app_assoc.
          assert (G13 : got (mid ++ [(now m, Got fd d); (now m, Shut fd)]) = firstn 13 buf).
          { replace 13%nat with (hdone m + length d)%nat by lia. rewrite <- Gb, !got_app. reflexivity. }
          assert (L : length (firstn 13 buf) = 13%nat) by (rewrite firstn_length, Lb; reflexivity).
          apply http_done; auto.
          -- apply Forall_app. split; auto. repeat constructor; cbn; lia.
          -- rewrite G13, <- (code_ok_good _ _ L codes_ok). split; [|tauto]. intros Z. repeat split; auto.
             ++ apply happened_app. auto.
             ++ rewrite sent_app. cbn [sent]. now rewrite app_nil_r.
          -- exists []. rewrite sent_app. cbn [sent]. now rewrite !app_nil_r.
          -- intros _. rewrite G13. auto.
  Qed.

  Definition with_tw (t : timer) (m : hmon) : hmon :=
    HMon (now m) (hst m) (sock m) (hdone m) (hconn m) (res_buf m) (rw m) (ww m) t (iw m).

  Lemma timeout_ok m o : phase m o -> tpend (tw m) = true ->
    exists m' fd, http_timeout_cb (with_tw (timer_take (tw m)) m) = Ok (m', [Shut fd; Closed fd; Report false]) /\
      sock m = Some fd /\
      goes o m' (map (pair (now m)) [Shut fd; Closed fd; Report false]) /\ iw m' = iw m /\ now m' = now m /\ phase m' [].
  Proof.
    intros P A. unfold http_timeout_cb, with_tw. inversion P; subst.
    { destruct H3 as [_ T]. congruence. }
    - fields. rewrite H, H0, H2. cbn [is_reading is_writing andb orb rassert].
      destruct H3 as (R & D & [(_ & T)|(T & _ & E)]); [congruence|].
      assert (P0 : phase (HMon (now m) HWaiting None (hdone m) (hconn m) (res_buf m) (rw m) (io_stop (ww m)) (timer_take (tw m)) (iw m)) []).
      { apply ph_wait; fields; auto. now split. }
      eexists _, fd. split; [reflexivity|]. split; [reflexivity|]. split; [|auto]. right. split; [exact P0|].
      exists false. change [Shut fd; Closed fd; Report false] with ([Shut fd] ++ [Closed fd; Report false]).
      eapply finish_bad; eauto.
      + exists (skipn (hdone m) (req_data svc)). rewrite H10. symmetry. apply firstn_skipn.
      + repeat constructor; cbn; lia.
      + left. rewrite H10. now apply short.
      + right. right. lia.
    - fields. rewrite H, H0, H1. cbn [is_reading is_writing andb orb rassert].
      destruct H3 as (R & D & [(_ & T)|(T & _ & E)]); [congruence|].
      assert (P0 : phase (HMon (now m) HWaiting None (hdone m) (hconn m) (res_buf m) (io_stop (rw m)) (ww m) (timer_take (tw m)) (iw m)) []).
      { apply ph_wait; fields; auto. now split. }
      eexists _, fd. split; [reflexivity|]. split; [reflexivity|]. split; [|auto]. right. split; [exact P0|].
      exists false. change [Shut fd; Closed fd; Report false] with ([Shut fd] ++ [Closed fd; Report false]).
      eapply finish_bad; eauto.
      + exists []. now rewrite app_nil_r.
      + repeat constructor; cbn; lia.
      + right. rewrite H11, firstn_length. lia.
      + right. right. lia.
  Qed.

  (** Time goes on, and watchers that are not the check's own change *)
  Lemma phase_later m m' o : phase m o -> hst m' = hst m -> sock m' = sock m -> hdone m' = hdone m -> hconn m' = hconn m ->
    res_buf m' = res_buf m -> (rw m' = rw m \/ (act (rw m) = true /\ act (rw m') = true)) ->
    (ww m' = ww m \/ (act (ww m) = true /\ act (ww m') = true)) ->
    (tw m' = tw m \/ tw m' = timer_expire (now m) (tw m)) -> now m <= now m' -> phase m' o.
  Proof.
    intros P E1 E2 E3 E4 E5 E6 E7 E8 L.
    assert (CK : forall t0, clock t0 (now m) (tw m) -> clock t0 (now m') (tw m')).
    { intros t0 (R & D & C). destruct E8 as [->| ->].
      - split; [auto|]. split; [auto|]. destruct C as [C|(C1 & C2 & C3)]; [auto|]. right. repeat split; auto. lia.
      - unfold timer_expire. destruct C as [(C1 & C2)|(C1 & C2 & C3)]; rewrite C1; cbn [andb].
        + destruct (due (tw m) <=? now m) eqn:El.
          * apply N.leb_le in El. rewrite R, N.eqb_refl. cbn. repeat split; auto. right. repeat split; auto. cbn. lia.
          * split; [auto|]. split; [auto|]. auto.
        + split; [auto|]. split; [auto|]. right. repeat split; auto. lia. }
    inversion P; subst.
    - apply ph_wait; try congruence.
      + destruct E6 as [->|(X & _)]; [auto|]. rewrite H1 in X. discriminate.
      + destruct E7 as [->|(X & _)]; [auto|]. rewrite H2 in X. discriminate.
      + destruct E8 as [->| ->]; auto. destruct H3 as [X1 X2]. unfold timer_expire. rewrite X1. cbn [andb]. now split.
    - apply ph_write; try congruence; rewrite ?E3; auto; try lia.
      + destruct E6 as [->|(X & _)]; [auto|]. rewrite H1 in X. discriminate.
      + destruct E7 as [->|(_ & X)]; auto.
      + eapply on_later; eauto.
      + intros X. apply H12. congruence.
      + intros X. apply H13. congruence.
    - apply ph_read; try congruence; rewrite ?E3, ?E5; auto; try lia.
      + destruct E6 as [->|(_ & X)]; auto.
      + destruct E7 as [->|(X & _)]; [auto|]. rewrite H2 in X. discriminate.
      + eapply on_later; eauto.
  Qed.

  Lemma idle_phase m o : phase m o -> http_idle m = true -> o = [] /\ sock m = None.
  Proof.
    intros P I. unfold http_idle in I. apply negb_true_iff in I.
    repeat (apply orb_false_iff in I as [I ?]). inversion P; subst; auto; congruence.
  Qed.

  (** Every event *)
  Lemma step_ok e m o : phase m o ->
    exists m' o1, http_step svc e m = Ok (m', o1) /\ goes o m' (map (pair (now m)) o1) /\ now m <= now m'.
  Proof.
    intros P.
    assert (Quiet : forall m', phase m' o -> goes o m' (map (pair (now m)) [])).
    { intros m' H. left. cbn [map]. now rewrite app_nil_r. }
    assert (Same : exists m' o1, Ok (m, @nil effect) = Ok (m', o1) /\ goes o m' (map (pair (now m)) o1) /\ now m <= now m').
    { exists m, []. split; [reflexivity|]. split; [auto|lia]. }
    destruct e; cbn [http_step].
    - eexists _, _. split; [reflexivity|]. split; [|fields; lia]. apply Quiet. eapply phase_later; eauto. fields. lia.
    - eexists _, _. split; [reflexivity|]. split; [|fields; lia]. apply Quiet. eapply phase_later; eauto. fields. lia.
    - eexists _, _. split; [reflexivity|]. split; [|fields; lia]. apply Quiet. eapply phase_later; eauto. fields. lia.
    - eexists _, _. split; [reflexivity|]. split; [|fields; lia]. apply Quiet. eapply phase_later; eauto; [|fields; lia].
      fields. unfold io_ready. destruct (act (rw m)) eqn:A; auto.
    - eexists _, _. split; [reflexivity|]. split; [|fields; lia]. apply Quiet. eapply phase_later; eauto; [|fields; lia].
      fields. unfold io_ready. destruct (act (ww m)) eqn:A; auto.
    - destruct (tpend (iw m)) eqn:T; [|exact Same].
      match goal with |- context [http_interval_cb svc fd c ?x] => destruct (interval_ok fd c x o) as (m' & o1 & E & G & _ & N & _) end.
      + eapply phase_later; eauto. fields. lia.
      + reflexivity.
      + rewrite E. exists m', o1. split; [reflexivity|]. split; [exact G|]. cbn [now] in N. lia.
    - destruct (pend (ww m)) eqn:T; [|exact Same].
      assert (A : act (ww m) = true).
      { inversion P; subst; auto; rewrite ?H2 in T; discriminate. }
      match goal with |- context [http_write_cb svc so_error a ?x] => destruct (write_ok so_error a x o) as (m' & o1 & E & G & _ & N) end.
      + eapply phase_later; eauto. fields. lia.
      + exact A.
      + rewrite E. exists m', o1. split; [reflexivity|]. split; [exact G|]. cbn [now] in N. lia.
    - destruct (pend (rw m)) eqn:T; [|exact Same].
      assert (A : act (rw m) = true).
      { inversion P; subst; auto; rewrite ?H1 in T; discriminate. }
      match goal with |- context [http_read_cb svc a ?x] => destruct (read_ok a x o) as (m' & o1 & E & G & _ & N) end.
      + eapply phase_later; eauto. fields. lia.
      + exact A.
      + rewrite E. exists m', o1. split; [reflexivity|]. split; [exact G|]. cbn [now] in N. lia.
    - destruct (tpend (tw m)) eqn:T; [|exact Same].
      destruct (timeout_ok m o P T) as (m' & fd & E & _ & G & _ & N & _).
      unfold with_tw in E. rewrite E. eexists m', _. split; [reflexivity|]. split; [exact G|lia].
    - destruct (http_idle m) eqn:I; [|exact Same].
      destruct (idle_phase m o P I) as [-> S]. rewrite S. cbn [is_none rassert].
      eexists _, _. split; [reflexivity|]. split; [|fields; lia]. apply Quiet. eapply phase_later; eauto. fields. lia.
    - destruct (http_idle m) eqn:I; [|exact Same].
      destruct (idle_phase m o P I) as [-> S]. rewrite S. cbn [is_none rassert].
      eexists _, _. split; [reflexivity|]. split; [|fields; lia]. apply Quiet. eapply phase_later; eauto. fields. lia.
  Qed.

  Lemma phase0 : phase http_mon0 [].
  Proof. apply ph_wait; try reflexivity. split; reflexivity. Qed.

  (** Every history *)
  Lemma run_ok es : forall m o, phase m o ->
    exists m' h rs h' o', http_run svc es m = Ok (m', h) /\ o ++ h = h' ++ o' /\ checks (http_check svc) h' rs /\ phase m' o' /\ now m <= now m'.
  Proof.
    induction es as [|e es IH] using rev_ind; intros m o P.
    - exists m, [], [], [], o. cbn. rewrite app_nil_r. repeat split; auto; [constructor|lia].
    - destruct (IH m o P) as (m1 & h & rs & h' & o' & E & S & C & P1 & L).
      destruct (step_ok e m1 o' P1) as (m2 & o1 & E2 & G & L2).
      assert (R : http_run svc (es ++ [e]) m = Ok (m2, h ++ map (pair (now m1)) o1)).
      { clear - E E2. revert m m1 h E E2. induction es as [|x es IH]; intros m m1 h E E2; cbn [app http_run] in *.
        - injection E as <- <-. rewrite E2. cbn. now rewrite app_nil_r.
        - destruct (http_step svc x m) as [[a b]|]; [|discriminate]. cbn [rbind] in *.
          destruct (http_run svc es a) as [[c d]|] eqn:Er; [|discriminate]. cbn [rbind] in *.
          injection E as <- <-. rewrite (IH _ _ _ Er E2). cbn [rbind]. now rewrite app_assoc. }
      destruct G as [G|(G & r & K)].
      + exists m2, (h ++ map (pair (now m1)) o1), rs, h', (o' ++ map (pair (now m1)) o1).
        split; [exact R|]. split; [now rewrite !app_assoc, S|]. split; [auto|]. split; [auto|lia].
      + exists m2, (h ++ map (pair (now m1)) o1), (rs ++ [r]), (h' ++ (o' ++ map (pair (now m1)) o1)), [].
        split; [exact R|]. split; [now rewrite !app_assoc, S, app_nil_r|]. split; [now constructor|]. split; [auto|lia].
  Qed.

  Lemma phase_open m o : phase m o -> (o = [] /\ sock m = None) \/ exists t0 fd, http_open svc (now m) t0 fd o /\ sock m = Some fd.
  Proof.
    intros P. inversion P; subst; auto; right; exists t0, fd; (split; [|assumption]); apply http_going; auto.
    - exists (skipn (hdone m) (req_data svc)). rewrite H10. symmetry. apply firstn_skipn.
    - rewrite H11. cbn. lia.
    - exists []. now rewrite app_nil_r.
    - rewrite H11, firstn_length. lia.
  Qed.
End Http.
