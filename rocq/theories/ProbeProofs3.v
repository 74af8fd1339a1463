(** Proofs about the health checks: HTTP checks end in time and go on. *)
From Verif Require Import Base MonModel ProbeModel ProbeSpec ProbeProofs ProbeProofs2.
Local Open Scope N_scope.

Section Http.
  Variable svc : http_svc.
  Hypothesis req_some : req_data svc <> [].
  Hypothesis codes_ok : Forall (fun c => 100 <= c <= 999) (ok_codes svc).

  Lemma http_ends m t0 fd mid : phase svc m ((t0, Socket (Some fd)) :: mid) ->
    let T := N.max (now m) (t0 + h_timeout svc) in
    exists m', http_run svc [Tick (t0 + h_timeout svc - now m); Expire_timeout; Run_timeout] m
               = Ok (m', [(T, Shut fd); (T, Closed fd); (T, Report false)]) /\ sock m' = None.
  Proof.
    intros P T. cbn [http_run].
    cbn [http_step rbind map app].
    assert (P1 : phase svc (HMon (now m + (t0 + h_timeout svc - now m)) (hst m) (sock m) (hdone m) (hconn m) (res_buf m) (rw m) (ww m) (tw m) (iw m))
                   ((t0, Socket (Some fd)) :: mid)).
    { eapply phase_later; eauto. fields. lia. }
    match type of P1 with phase svc ?x _ => set (ma := x) in * end.
    assert (NA : now ma = T) by (unfold ma, T; fields; lia).
    assert (P2 : phase svc (HMon (now ma) (hst ma) (sock ma) (hdone ma) (hconn ma) (res_buf ma) (rw ma) (ww ma) (timer_expire (now ma) (tw ma)) (iw ma))
                   ((t0, Socket (Some fd)) :: mid)).
    { eapply phase_later; eauto. fields. lia. }
    match type of P2 with phase svc ?x _ => set (mb := x) in * end.
    assert (TP : tpend (tw mb) = true).
    { unfold mb. fields. inversion P1; subst; match goal with H : clock _ _ _ _ |- _ => rename H into CK end.
      - destruct CK as (R & D & [(A & B)|(A & B & C)]); unfold timer_expire; rewrite A; cbn [andb].
        + replace (due (tw ma) <=? now ma) with true by (symmetry; apply N.leb_le; rewrite D, NA; unfold T; lia).
          now rewrite R.
        + exact B.
      - destruct CK as (R & D & [(A & B)|(A & B & C)]); unfold timer_expire; rewrite A; cbn [andb].
        + replace (due (tw ma) <=? now ma) with true by (symmetry; apply N.leb_le; rewrite D, NA; unfold T; lia).
          now rewrite R.
        + exact B. }
    destruct (timeout_ok svc mb _ P2 TP) as (m3 & fd' & E3 & S3 & _ & _ & _ & P3).
    rewrite TP. unfold with_tw in E3. rewrite E3. cbn [rbind map app].
    assert (fd' = fd) by (inversion P2; subst; congruence). subst fd'.
    change (now mb) with (now ma). rewrite NA. exists m3. split; [reflexivity|]. inversion P3; auto.
  Qed.

  Hypothesis interval_some : 0 < h_interval svc.

  (** The interval timer is running, and is due within one interval *)
  Definition armed (m : hmon) : Prop :=
    tact (iw m) = true /\ rep (iw m) = h_interval svc /\ due (iw m) <= now m + h_interval svc.

  Lemma armed_step e m o m' o1 : phase svc m o -> armed m -> http_step svc e m = Ok (m', o1) -> armed m'.
  Proof.
    intros P (A & R & D) E.
    assert (I : http_idle m = false).
    { unfold http_idle. rewrite A. now rewrite !orb_true_r. }
    assert (Keep : iw m' = iw m -> now m' = now m -> armed m').
    { intros E1 E2. unfold armed. rewrite E1, E2. auto. }
    destruct e; cbn [http_step] in E; rewrite ?I in E.
    - injection E as <- <-. unfold armed. fields. repeat split; auto; lia.
    - injection E as <- <-. unfold armed. fields. unfold timer_expire. rewrite A. cbn [andb].
      destruct (due (iw m) <=? now m) eqn:L; [|auto]. apply N.leb_le in L.
      destruct (rep (iw m) =? 0) eqn:Z.
      + apply N.eqb_eq in Z. lia.
      + cbn. repeat split; auto. lia.
    - injection E as <- <-. now apply Keep.
    - injection E as <- <-. now apply Keep.
    - injection E as <- <-. now apply Keep.
    - destruct (tpend (iw m)) eqn:T; [|injection E as <- <-; now apply Keep].
      match type of E with http_interval_cb svc fd c ?x = _ => destruct (interval_ok svc req_some fd c x o) as (m2 & o2 & E2 & _ & W & N & _) end.
      + eapply phase_later; eauto. fields. lia.
      + reflexivity.
      + rewrite E2 in E. injection E as <- <-. cbn [iw now] in *. unfold armed. rewrite W, N. auto.
    - destruct (pend (ww m)) eqn:T; [|injection E as <- <-; now apply Keep].
      assert (Aw : act (ww m) = true) by (inversion P; subst; auto; match goal with H : ww m = io0 |- _ => rewrite H in T; discriminate end).
      match type of E with http_write_cb svc so_error a ?x = _ => destruct (write_ok svc so_error a x o) as (m2 & o2 & E2 & _ & W & N) end.
      + eapply phase_later; eauto. fields. lia.
      + exact Aw.
      + rewrite E2 in E. injection E as <- <-. now apply Keep.
    - destruct (pend (rw m)) eqn:T; [|injection E as <- <-; now apply Keep].
      assert (Ar : act (rw m) = true) by (inversion P; subst; auto; match goal with H : rw m = io0 |- _ => rewrite H in T; discriminate end).
      match type of E with http_read_cb svc a ?x = _ => destruct (read_ok svc codes_ok a x o) as (m2 & o2 & E2 & _ & W & N) end.
      + eapply phase_later; eauto. fields. lia.
      + exact Ar.
      + rewrite E2 in E. injection E as <- <-. now apply Keep.
    - destruct (tpend (tw m)) eqn:T; [|injection E as <- <-; now apply Keep].
      destruct (timeout_ok svc m o P T) as (m2 & fd & E2 & _ & _ & W & N & _).
      unfold with_tw in E2. rewrite E2 in E. injection E as <- <-. now apply Keep.
    - injection E as <- <-. now apply Keep.
    - injection E as <- <-. now apply Keep.
  Qed.

  Lemma armed_run es : forall m o m' h, phase svc m o -> armed m -> http_run svc es m = Ok (m', h) -> armed m'.
  Proof.
    induction es as [|e es IH]; intros m o m' h P A E; cbn [http_run] in E.
    - injection E as <- <-. assumption.
    - destruct (step_ok svc req_some codes_ok e m o P) as (m1 & o1 & E1 & G & _). rewrite E1 in E. cbn [rbind] in E.
      destruct (http_run svc es m1) as [[m2 h2]|] eqn:E2; [|discriminate]. injection E as <- <-.
      pose proof (armed_step _ _ _ _ _ P A E1) as A1.
      destruct G as [P1|(P1 & _)]; eapply IH; eauto.
  Qed.

  Lemma start_arms m o stagger : phase svc m o -> http_idle m = true -> stagger <= h_interval svc ->
    exists m', http_step svc (Start stagger) m = Ok (m', []) /\ armed m' /\ phase svc m' [].
  Proof.
    intros P I L. cbn [http_step]. rewrite I. destruct (idle_phase svc m o P I) as [-> S]. rewrite S. cbn [is_none rassert].
    eexists. split; [reflexivity|]. split.
    - unfold armed. fields. repeat split; auto. lia.
    - eapply phase_later; eauto. fields. lia.
  Qed.

  Lemma goes_on m fd c : phase svc m [] -> armed m ->
    exists m' h, http_run svc [Tick (h_interval svc); Expire_interval; Run_interval fd c] m
                 = Ok (m', (now m + h_interval svc, Socket fd) :: h).
  Proof.
    intros P (A & R & D). cbn [http_run http_step rbind map app iw now].
    unfold timer_expire. rewrite A, R. cbn [andb].
    replace (due (iw m) <=? now m + h_interval svc) with true by (symmetry; now apply N.leb_le).
    replace (h_interval svc =? 0) with false by (symmetry; apply N.eqb_neq; lia). fields.
    match goal with |- context [http_interval_cb svc fd c ?x] => destruct (interval_ok svc req_some fd c x []) as (m' & o1 & E & _ & _ & _ & S) end.
    - eapply phase_later; eauto. fields. lia.
    - reflexivity.
    - rewrite E. destruct (S eq_refl) as (rest & ->). cbn [rbind map app]. eauto.
  Qed.
End Http.
