(** C67, continued: exactly when gdnsdctl fails, with which exit code and after which requests. *)
From Coq Require Import Lia String.
From Verif Require Import Base MonModel MonSpec CtlModel CscModel GctlModel GctlSpec GctlProofs GctlProps.
Local Open Scope nat_scope.
Local Notation length := List.length.

Section Exit.
  Variable buf : bytes.
  Variable o : opts.
  Variable action : bytes.
  Variable args : list bytes.
  Variable stp : attempt -> step.
  Variable rq : list bytes.
  Variable more : bool.
  Hypothesis DO : forall a, do_action buf o action args a = Ok (stp a, rq).
  Hypothesis RETRY : forall a, stp a = Retry <-> o_oneshot o = false /\ more = true /\ a_txn a = TxnSoft.
  Definition ends (a : attempt) (n : N) : Prop := stp a = Exit n \/ (stp a = Success /\ n = 0%N) \/ (stp a = Retry /\ a_alarm a = true /\ n = 1%N).
  Definition closes (earlier : list attempt) (a : attempt) (n : N) (rs : list bytes) : Prop :=
    (a_conn a = false /\ n = (if o_dead o && can_ignore_dead action then 0 else 1)%N /\ rs = sends rq earlier) \/ (a_conn a = true /\ ends a n /\ rs = sends rq earlier ++ rq).
  Lemma loop_exit : forall l n rs, loop buf o action args l = Ok (Some n, rs) <->
    exists earlier a later, l = earlier ++ a :: later /\ Forall soft earlier /\ (earlier <> [] -> o_oneshot o = false /\ more = true) /\ closes earlier a n rs.
  Proof.
    induction l as [|a l IH]; intros n rs.
    { cbn. split; [discriminate|]. intros ([|] & ? & ? & E & _); discriminate E. }
    cbn [loop]. split.
    - intros H. destruct (a_conn a) eqn:EC; cbn [negb] in H.
      2:{ injection H as <- <-. exists [], a, l. split; [reflexivity|]. split; [constructor|]. split; [contradiction|]. left. auto. }
      rewrite DO in H. cbn [rbind] in H. destruct (stp a) as [| |m] eqn:ES.
      + destruct (o_oneshot o || a_alarm a)%bool eqn:EO.
        * injection H as <- <-. exists [], a, l. split; [reflexivity|]. split; [constructor|]. split; [contradiction|]. right. split; [exact EC|]. split; [|reflexivity]. right; right.
          split; [exact ES|]. split; [|reflexivity]. apply RETRY in ES. destruct ES as (Q & _). rewrite Q in EO. exact EO.
        * apply Bool.orb_false_iff in EO. destruct EO as [E1 E2].
          destruct (loop buf o action args l) as [[x rs']|] eqn:EL; [|discriminate H]. cbn [rbind] in H. injection H as -> <-.
          destruct (proj1 (IH n rs') eq_refl) as (earlier & b & later & -> & F & NE & C). apply RETRY in ES. destruct ES as (S1 & S2 & S3).
          exists (a :: earlier), b, later. split; [reflexivity|]. split; [constructor; [repeat split; auto|exact F]|]. split; [auto|].
          destruct C as [(C1 & C2 & ->)|(C1 & C2 & ->)]; [left|right]; (split; [exact C1|]); (split; [exact C2|]); unfold sends; cbn [map concat]; rewrite ?app_assoc; reflexivity.
      + injection H as <- <-. exists [], a, l. split; [reflexivity|]. split; [constructor|]. split; [contradiction|]. right. unfold ends. repeat split; auto 6.
      + injection H as <- <-. exists [], a, l. split; [reflexivity|]. split; [constructor|]. split; [contradiction|]. right. unfold ends. repeat split; auto 6.
    - intros (earlier & b & later & E & F & NE & C). destruct earlier as [|a0 earlier].
      + cbn [app] in E. injection E as -> ->. destruct C as [(C1 & -> & ->)|(C1 & C2 & ->)]; rewrite C1; cbn [negb]; [reflexivity|].
        rewrite DO. cbn [rbind]. destruct C2 as [C2|[(C2 & ->)|(C2 & CA & ->)]]; rewrite C2; try reflexivity. rewrite CA, orb_true_r. reflexivity.
      + cbn [app] in E. injection E as <- ->. apply Forall_cons_iff in F. destruct F as [(S1 & S2 & S3) F]. destruct (NE ltac:(discriminate)) as [N1 N2].
        rewrite S1. cbn [negb]. rewrite DO. cbn [rbind]. assert (ES : stp a = Retry) by (apply RETRY; auto). rewrite ES, N1, S3. cbn [orb].
        assert (EL : loop buf o action args (earlier ++ b :: later) = Ok (Some n, match a_conn b with true => sends rq earlier ++ rq | false => sends rq earlier end)).
        { apply IH. exists earlier, b, later. split; [reflexivity|]. split; [exact F|]. split; [auto|]. destruct C as [(C1 & C2 & _)|(C1 & C2 & _)]; rewrite C1; [left|right]; auto. }
        rewrite EL. cbn [rbind]. destruct C as [(C1 & _ & ->)|(C1 & _ & ->)]; rewrite C1; unfold sends; cbn [map concat]; rewrite ?app_assoc; reflexivity.
  Qed.
End Exit.

Lemma sends_app rq l a : sends rq (l ++ [a]) = sends rq l ++ rq.
Proof. unfold sends. rewrite map_app, concat_app. cbn [map concat]. now rewrite app_nil_r. Qed.
Lemma repeats_again ss o k : meant ss o -> (o_oneshot o = false /\ repeats k = true <-> ~ given SOneshot ss /\ again k).
Proof. intros (_ & _ & _ & _ & _ & MO & _). rewrite <- MO. unfold again. destruct (o_oneshot o), k; cbn; intuition (try discriminate; try congruence). Qed.

(** Exit code 1: no daemon where one is needed, or the time is over *)
Theorem C67_unreachable : forall buf conf args ss action o k l rs, command_line args ss action [] -> meant ss o -> configured conf o -> named k action ->
  gdnsdctl buf conf args l = Ok (Some 1%N, rs) <->
  exists earlier a later, l = earlier ++ a :: later /\ Forall soft earlier /\ (earlier <> [] -> ~ given SOneshot ss /\ again k) /\
    ((a_conn a = false /\ ~ (given SDead ss /\ may_ignore k) /\ rs = sends (request k) earlier) \/
     (a_conn a = true /\ a_txn a = TxnSoft /\ a_alarm a = true /\ ~ given SOneshot ss /\ again k /\ rs = sends (request k) (earlier ++ [a]))).
Proof.
  intros buf conf args ss action o k l rs C M CF NM. rewrite (to_loop buf conf _ _ _ _ _ l C M CF).
  rewrite (loop_exit buf o action [] (step_of o k) (request k) (repeats k) (fun a => do_named buf o k action a NM) (step_retry o k)).
  pose proof (repeats_again ss o k M) as Q1. destruct M as (_ & _ & _ & _ & _ & MO & MD).
  assert (Q2 : (o_dead o && can_ignore_dead action)%bool = true <-> given SDead ss /\ may_ignore k) by (rewrite Bool.andb_true_iff, MD, (ignore_named k action NM); tauto).
  assert (N1 : forall a, step_of o k a <> Exit 1).
  { intros a. unfold step_of, action_stop, action_replace, simple_action, judge. destruct k, (a_txn a), (o_oneshot o), (a_exits a), (a_new a); cbn; discriminate. }
  split; intros (earlier & a & later & E & F & NE & H); exists earlier, a, later; (split; [exact E|]); (split; [exact F|]); (split; [intros Q; apply Q1; now apply NE|]); rewrite sends_app in *.
  - destruct H as [(H1 & H2 & ->)|(H1 & H2 & ->)].
    + left. split; [exact H1|]. split; [|reflexivity]. rewrite <- Q2. destruct (_ && _)%bool; [discriminate H2|discriminate].
    + right. destruct H2 as [H2|[(_ & H2)|(H2 & HA & _)]]; [now apply N1 in H2|discriminate H2|]. apply step_retry in H2. destruct H2 as (R1 & R2 & R3). destruct (proj1 Q1 (conj R1 R2)) as [G1 G2]. repeat (split; [assumption|]). reflexivity.
  - destruct H as [(H1 & H2 & ->)|(H1 & H2 & HA & H4 & H5 & ->)].
    + left. split; [exact H1|]. split; [|reflexivity]. rewrite <- Q2 in H2. destruct (_ && _)%bool; [contradiction H2; reflexivity|reflexivity].
    + right. split; [exact H1|]. split; [|reflexivity]. right; right. destruct (proj2 Q1 (conj H4 H5)) as [R1 R2]. split; [apply step_retry; auto|auto].
Qed.
(** Exit code 42: the daemon refuses, or cannot be asked now and must not be asked again, or accepts but does not do it *)
Theorem C67_failed : forall buf conf args ss action o k l rs, command_line args ss action [] -> meant ss o -> configured conf o -> named k action ->
  gdnsdctl buf conf args l = Ok (Some 42%N, rs) <->
  exists earlier a later, l = earlier ++ a :: later /\ Forall soft earlier /\ (earlier <> [] -> ~ given SOneshot ss /\ again k) /\
    a_conn a = true /\ ~ obeyed k a /\ (a_txn a = TxnSoft -> given SOneshot ss) /\ rs = sends (request k) (earlier ++ [a]).
Proof.
  intros buf conf args ss action o k l rs C M CF NM. rewrite (to_loop buf conf _ _ _ _ _ l C M CF).
  rewrite (loop_exit buf o action [] (step_of o k) (request k) (repeats k) (fun a => do_named buf o k action a NM) (step_retry o k)).
  pose proof (repeats_again ss o k M) as Q1. destruct M as (_ & _ & _ & _ & _ & MO & MD).
  assert (N42 : forall a, step_of o k a = Exit 42 <-> ~ obeyed k a /\ (a_txn a = TxnSoft -> given SOneshot ss)).
  { intros a. rewrite <- MO. unfold step_of, action_stop, action_replace, simple_action, judge. destruct k; cbn [obeyed]; destruct (a_txn a), (o_oneshot o), (a_exits a), (a_new a); cbn; intuition (try discriminate; try congruence). }
  split; intros (earlier & a & later & E & F & NE & H); exists earlier, a, later; (split; [exact E|]); (split; [exact F|]); (split; [intros Q; apply Q1; now apply NE|]); rewrite sends_app in *.
  - destruct H as [(_ & H2 & _)|(H1 & H2 & ->)]; [destruct (_ && _)%bool; discriminate H2|]. split; [exact H1|].
    destruct H2 as [H2|[(_ & H2)|(_ & _ & H2)]]; try discriminate H2. apply N42 in H2. destruct H2. auto.
  - destruct H as (H1 & H2 & H3 & ->). right. split; [exact H1|]. split; [|reflexivity]. left. apply N42. auto.
Qed.
(** Challenges that do not make a request: nothing is sent *)
Theorem C67_bad_challenges : forall buf conf args ss action rest o a l, command_line args ss action rest -> meant ss o -> configured conf o -> is_chal action ->
  rest <> [] -> Nat.even (length rest) = true -> CscModel.action_chal buf (pairs rest) = Ok None -> length rest <= 200 -> a_conn a = true ->
  gdnsdctl buf conf args (a :: l) = Ok (Some 42%N, []).
Proof.
  intros buf conf args ss action rest o a l C M CF IC NR EV EA L2 EC. rewrite (to_loop buf conf _ _ _ _ _ _ C M CF). unfold is_chal in IC. cbn [loop]. rewrite EC. cbn [negb].
  unfold do_action, ceq. rewrite IC. change (same_bytes (tx "acme-dns-01") (map low (tx "acme-dns-01"))) with true. cbv iota. unfold do_chal.
  destruct (Nat.eqb_spec (length rest) 0) as [Z|_]; [destruct rest; [contradiction|discriminate Z]|]. unfold Nat.odd. rewrite EV. cbn [negb orb]. destruct (Nat.ltb_spec 200 (length rest)); [lia|]. rewrite EA. reflexivity.
Qed.
Print Assumptions C67_unreachable.
Print Assumptions C67_failed.
Print Assumptions C67_bad_challenges.

Definition late : attempt := {| a_conn := true; a_txn := TxnSoft; a_exits := false; a_new := false; a_alarm := true |}.
Definition refuses : attempt := {| a_conn := true; a_txn := TxnHard; a_exits := false; a_new := false; a_alarm := false |}.
Definition stays : attempt := {| a_conn := true; a_txn := TxnOk; a_exits := false; a_new := false; a_alarm := false |}.
Example C67_failed_witness :
  gdnsdctl [] (fun _ => true) wit_args [busy; late; fine] = Ok (Some 1%N, sends (request Stop) [busy; late]) /\
  gdnsdctl [] (fun _ => true) wit_args [busy; refuses; fine] = Ok (Some 42%N, sends (request Stop) [busy; refuses]) /\
  gdnsdctl [] (fun _ => true) wit_args [busy; stays; fine] = Ok (Some 42%N, sends (request Stop) [busy; stays]) /\
  CscModel.action_chal (repeat 0%N (N.to_nat 28400)) (pairs [tx "example.org"; tx "short"]) = Ok None.
Proof. repeat split; vm_compute; reflexivity. Qed.
