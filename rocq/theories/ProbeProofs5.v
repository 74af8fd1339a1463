(** The histories of both kinds of checks, put together *)
From Coq Require Import Lia.
From Verif Require Import Base ProbeModel ProbeSpec ProbeProofs ProbeProofs2 ProbeProofs3 ProbeProofs4.
Local Open Scope N_scope.

Lemma reports_app a b : reports (a ++ b) = reports a ++ reports b.
Proof.
  induction a as [|[t e] a IH]; [reflexivity|]. destruct e; cbn; try assumption. now rewrite IH.
Qed.

Lemma reports_on fd t0 t1 mid : Forall (on fd t0 t1) mid -> reports mid = [].
Proof.
  induction 1 as [|[t e] mid [_ H] _ IH]; [reflexivity|]. destruct e; cbn in *; try assumption; contradiction.
Qed.

Lemma reports_http svc h r : http_check svc h r -> reports h = [r].
Proof.
  intros C. inversion C; subst; [reflexivity|]. cbn. rewrite reports_app.
  match goal with H : Forall _ _ |- _ => rewrite (reports_on _ _ _ _ H) end. reflexivity.
Qed.

Definition said (r : option bool) : list bool := match r with Some b => [b] | None => [] end.

Lemma reports_tcp svc h r : tcp_check svc h r -> reports h = said r.
Proof.
  intros C. inversion C; subst; [reflexivity|]. cbn. rewrite reports_app.
  match goal with H : Forall _ _ |- _ => rewrite (reports_on _ _ _ _ H) end. reflexivity.
Qed.

Lemma reports_http_all svc h rs : checks (http_check svc) h rs -> reports h = rs.
Proof.
  induction 1 as [|h rs c r _ IH C]; [reflexivity|]. now rewrite reports_app, IH, (reports_http _ _ _ C).
Qed.

Lemma reports_tcp_all svc h rs : checks (tcp_check svc) h rs -> reports h = concat (map said rs).
Proof.
  induction 1 as [|h rs c r _ IH C]; [reflexivity|].
  rewrite reports_app, IH, (reports_tcp _ _ _ C), map_app, concat_app. cbn. now rewrite app_nil_r.
Qed.

Lemma reports_open svc t t0 fd h : http_open svc t t0 fd h -> reports h = [].
Proof. intros O. inversion O; subst. cbn. eapply reports_on; eassumption. Qed.

Lemma http_run_app svc a b : forall m m1 h1 m2 h2, http_run svc a m = Ok (m1, h1) -> http_run svc b m1 = Ok (m2, h2) ->
  http_run svc (a ++ b) m = Ok (m2, h1 ++ h2).
Proof.
  induction a as [|e a IH]; intros m m1 h1 m2 h2 E1 E2; cbn [app http_run] in *.
  - injection E1 as <- <-. exact E2.
  - destruct (http_step svc e m) as [[x y]|]; [|discriminate]. cbn [rbind] in *.
    destruct (http_run svc a x) as [[u v]|] eqn:Er; [|discriminate]. cbn [rbind] in *. injection E1 as <- <-.
    rewrite (IH _ _ _ _ _ Er E2). cbn [rbind]. now rewrite app_assoc.
Qed.

Lemma tcp_run_app svc a b : forall m m1 h1 m2 h2, tcp_run svc a m = Ok (m1, h1) -> tcp_run svc b m1 = Ok (m2, h2) ->
  tcp_run svc (a ++ b) m = Ok (m2, h1 ++ h2).
Proof.
  induction a as [|e a IH]; intros m m1 h1 m2 h2 E1 E2; cbn [app tcp_run] in *.
  - injection E1 as <- <-. exact E2.
  - destruct (tcp_step svc e m) as [[x y]|]; [|discriminate]. cbn [rbind] in *.
    destruct (tcp_run svc a x) as [[u v]|] eqn:Er; [|discriminate]. cbn [rbind] in *. injection E1 as <- <-.
    rewrite (IH _ _ _ _ _ Er E2). cbn [rbind]. now rewrite app_assoc.
Qed.

Section Http.
  Variable svc : http_svc.
  Hypothesis req_some : req_data svc <> [].
  Hypothesis codes_ok : Forall (fun c => 100 <= c <= 999) (ok_codes svc).

  Lemma http_reached es m h : http_run svc es http_mon0 = Ok (m, h) ->
    exists rs h' o, h = h' ++ o /\ checks (http_check svc) h' rs /\ phase svc m o.
  Proof.
    intros E. destruct (run_ok svc req_some codes_ok es http_mon0 [] (phase0 svc)) as (m' & h1 & rs & h' & o & E1 & S & C & P & _).
    rewrite E in E1. injection E1 as <- <-. exists rs, h', o. auto.
  Qed.

  Lemma http_history es : exists m h rs h' o, http_run svc es http_mon0 = Ok (m, h) /\ h = h' ++ o /\
    checks (http_check svc) h' rs /\ reports h = rs /\
    ((o = [] /\ sock m = None) \/ exists t0 fd, http_open svc (now m) t0 fd o /\ sock m = Some fd).
  Proof.
    destruct (run_ok svc req_some codes_ok es http_mon0 [] (phase0 svc)) as (m & h & rs & h' & o & E & S & C & P & _).
    exists m, h, rs, h', o. split; [assumption|]. split; [assumption|]. split; [assumption|].
    pose proof (phase_open svc _ _ P) as O. split; [|assumption].
    cbn [app] in S. subst h. rewrite reports_app, (reports_http_all _ _ _ C).
    destruct O as [[-> _]|(t0 & fd & O & _)]; [|rewrite (reports_open _ _ _ _ _ O)]; apply app_nil_r.
  Qed.

  Lemma http_stops es m h fd : http_run svc es http_mon0 = Ok (m, h) -> sock m = Some fd ->
    exists t0 m', In (t0, Socket (Some fd)) h /\ t0 <= now m /\
      let T := N.max (now m) (t0 + h_timeout svc) in
      http_run svc [Tick (t0 + h_timeout svc - now m); Expire_timeout; Run_timeout] m
        = Ok (m', [(T, Shut fd); (T, Closed fd); (T, Report false)]) /\ sock m' = None.
  Proof.
    intros E S. destruct (http_reached es m h E) as (rs & h' & o & -> & _ & P).
    destruct (phase_open svc _ _ P) as [[_ S']|(t0 & fd' & O & S')]; [congruence|].
    assert (fd' = fd) by congruence. subst fd'. inversion O; subst.
    destruct (http_ends svc m t0 fd mid P) as (m' & R & S2).
    exists t0, m'. split; [apply in_or_app; right; now left|]. auto.
  Qed.

  Hypothesis interval_some : 0 < h_interval svc.

  Lemma http_continues es1 m1 h1 s es2 m2 h2 fd c :
    http_run svc es1 http_mon0 = Ok (m1, h1) -> http_idle m1 = true -> s <= h_interval svc ->
    http_run svc (Start s :: es2) m1 = Ok (m2, h2) -> sock m2 = None ->
    exists m3 h3, http_run svc [Tick (h_interval svc); Expire_interval; Run_interval fd c] m2
      = Ok (m3, (now m2 + h_interval svc, Socket fd) :: h3).
  Proof.
    intros E1 I L E2 S. destruct (http_reached es1 m1 h1 E1) as (rs & h' & o & -> & _ & P).
    destruct (start_arms svc interval_some m1 o s P I L) as (ma & Ea & A & Pa).
    cbn [http_run] in E2. rewrite Ea in E2. cbn [rbind map app] in E2.
    destruct (http_run svc es2 ma) as [[mb hb]|] eqn:Eb; [|discriminate]. injection E2 as <- <-.
    pose proof (armed_run svc req_some codes_ok interval_some es2 ma [] mb hb Pa A Eb) as A2.
    destruct (run_ok svc req_some codes_ok es2 ma [] Pa) as (m' & h1' & rs2 & h2' & o2 & Er & _ & _ & P2 & _).
    rewrite Eb in Er. injection Er as <- <-.
    destruct (phase_open svc _ _ P2) as [[-> _]|(t0 & fd' & O & S')]; [|congruence].
    apply (goes_on svc req_some interval_some mb fd c P2 A2).
  Qed.
End Http.

Section Tcp.
  Variable svc : tcp_svc.

  Lemma tphase_open m o : tphase svc m o ->
    (o = [] /\ tsock m = None) \/ exists t0 fd, o = [(t0, Socket (Some fd))] /\ t0 <= tnow m /\ tsock m = Some fd.
  Proof. intros P. inversion P; subst; eauto 10. Qed.

  Lemma tcp_reached es m h : tcp_run svc es tcp_mon0 = Ok (m, h) ->
    exists rs h' o, h = h' ++ o /\ checks (tcp_check svc) h' rs /\ tphase svc m o.
  Proof.
    intros E. destruct (t_run_ok svc es tcp_mon0 [] (tphase0 svc)) as (m' & h1 & rs & h' & o & E1 & S & C & P & _).
    rewrite E in E1. injection E1 as <- <-. exists rs, h', o. auto.
  Qed.

  Lemma tcp_history es : exists m h rs h' o, tcp_run svc es tcp_mon0 = Ok (m, h) /\ h = h' ++ o /\
    checks (tcp_check svc) h' rs /\ reports h = concat (map said rs) /\
    ((o = [] /\ tsock m = None) \/ exists t0 fd, o = [(t0, Socket (Some fd))] /\ t0 <= tnow m /\ tsock m = Some fd).
  Proof.
    destruct (t_run_ok svc es tcp_mon0 [] (tphase0 svc)) as (m & h & rs & h' & o & E & S & C & P & _).
    exists m, h, rs, h', o. split; [assumption|]. split; [assumption|]. split; [assumption|].
    pose proof (tphase_open _ _ P) as O. split; [|assumption].
    cbn [app] in S. subst h. rewrite reports_app, (reports_tcp_all _ _ _ C).
    destruct O as [[-> _]|(t0 & fd & -> & _)]; apply app_nil_r.
  Qed.

  Lemma tcp_stops es m h fd : tcp_run svc es tcp_mon0 = Ok (m, h) -> tsock m = Some fd ->
    exists t0 m', In (t0, Socket (Some fd)) h /\ t0 <= tnow m /\
      let T := N.max (tnow m) (t0 + t_timeout svc) in
      tcp_run svc [Tick (t0 + t_timeout svc - tnow m); Expire_timeout; Run_timeout] m
        = Ok (m', [(T, Shut fd); (T, Closed fd); (T, Report false)]) /\ tsock m' = None.
  Proof.
    intros E S. destruct (tcp_reached es m h E) as (rs & h' & o & -> & _ & P).
    destruct (tphase_open _ _ P) as [[_ S']|(t0 & fd' & -> & L & S')]; [congruence|].
    assert (fd' = fd) by congruence. subst fd'.
    destruct (tcp_ends svc m t0 fd [] P) as (m' & R & S2).
    exists t0, m'. split; [apply in_or_app; right; now left|]. auto.
  Qed.

  Hypothesis interval_some : 0 < t_interval svc.

  Lemma tcp_continues es1 m1 h1 s es2 m2 h2 fd c :
    tcp_run svc es1 tcp_mon0 = Ok (m1, h1) -> tcp_idle m1 = true -> s <= t_interval svc ->
    tcp_run svc (Start s :: es2) m1 = Ok (m2, h2) -> tsock m2 = None ->
    exists m3 h3, tcp_run svc [Tick (t_interval svc); Expire_interval; Run_interval fd c] m2
      = Ok (m3, (tnow m2 + t_interval svc, Socket fd) :: h3).
  Proof.
    intros E1 I L E2 S. destruct (tcp_reached es1 m1 h1 E1) as (rs & h' & o & -> & _ & P).
    destruct (t_start_arms svc interval_some m1 o s P I L) as (ma & Ea & A & Pa).
    cbn [tcp_run] in E2. rewrite Ea in E2. cbn [rbind map app] in E2.
    destruct (tcp_run svc es2 ma) as [[mb hb]|] eqn:Eb; [|discriminate]. injection E2 as <- <-.
    pose proof (tarmed_run svc interval_some es2 ma [] mb hb Pa A Eb) as A2.
    destruct (t_run_ok svc es2 ma [] Pa) as (m' & h1' & rs2 & h2' & o2 & Er & _ & _ & P2 & _).
    rewrite Eb in Er. injection Er as <- <-.
    destruct (tphase_open _ _ P2) as [[-> _]|(t0 & fd' & _ & _ & S')]; [|congruence].
    apply (t_goes_on svc interval_some mb fd c P2 A2).
  Qed.
End Tcp.
