(** C67: gdnsdctl understands its command line, and its exit code tells whether the daemon did what was asked. *)
From Coq Require Import Lia String.
From Verif Require Import Base MonModel MonSpec MonProofs CtlModel CscModel CscSpec CscProps GctlModel GctlSpec GctlProofs.
Local Open Scope nat_scope.
Local Notation length := List.length.

(** ** Command lines *)
Theorem C67_command_line : forall args o action rest,
  parse_args args defaults = Some (o, action, rest) <-> exists ss, command_line args ss action rest /\ meant ss o.
Proof.
  intros args o action rest. split.
  - intros H. apply (parse_inv _ _ _ _ _ _ (le_n _)) in H. destruct H as (ss & C & ->). exists ss. split; [exact C|apply meant_applies].
  - intros (ss & (ws & W & C) & M). rewrite (meant_unique _ _ _ M (meant_applies ss)). destruct C as [(-> & NO)| ->]; rewrite (parse_words _ _ W).
    + destruct action as [|b [|c t]]; try reflexivity. cbn [parse_args]. destruct (N.eqb_spec b 45) as [->|]; [exfalso; now apply (NO c t)|reflexivity].
    + reflexivity.
Qed.
(** a number of seconds *)
Theorem C67_timeout : forall v n, decimal v n -> (n < 2 ^ 64)%N -> forall m, legal (STimeo v m) <-> m = n /\ (5 <= n <= 300)%N.
Proof.
  intros v n D L m. assert (NV : v <> []) by (destruct D as [|s ? ? ?]; [discriminate|destruct s; discriminate]).
  assert (S : strtoul v = (false, n, [])) by (apply strtoul_spec; [exact NV|]; exact (num_pos [] v n (Forall_nil _) D L)).
  cbn [legal]. rewrite S. split.
  - intros ((junk & E) & R). injection E as <- _. auto.
  - intros (-> & R). split; [exists []; reflexivity|exact R].
Qed.

Definition configured (conf : option bytes -> bool) (o : opts) : Prop := o_addr o = None -> conf (o_cfg o) = true.
Lemma to_loop buf conf args ss action rest o l : command_line args ss action rest -> meant ss o -> configured conf o ->
  gdnsdctl buf conf args l = loop buf o action rest l.
Proof.
  intros C M CF. unfold gdnsdctl. rewrite (proj2 (C67_command_line args o action rest)) by eauto. unfold configured in CF. destruct (o_addr o); [reflexivity|]. now rewrite CF.
Qed.

(** ** Success: exit code 0 *)
(** After any number of soft failures, the daemon did what was asked, or it is not there and that does not matter; each attempt sends the request once *)
Theorem C67_success : forall buf conf args ss action o k l rs, command_line args ss action [] -> meant ss o -> configured conf o -> named k action ->
  gdnsdctl buf conf args l = Ok (Some 0%N, rs) <->
  exists earlier a later, l = earlier ++ a :: later /\ Forall soft earlier /\ (earlier <> [] -> ~ given SOneshot ss /\ again k) /\
    ((a_conn a = false /\ given SDead ss /\ may_ignore k /\ rs = sends (request k) earlier) \/ (a_conn a = true /\ obeyed k a /\ rs = sends (request k) (earlier ++ [a]))).
Proof.
  intros buf conf args ss action o k l rs C M CF NM. rewrite (to_loop buf conf _ _ _ _ _ l C M CF).
  rewrite (loop_success buf o action [] (step_of o k) (request k) (repeats k) (obeyed k) (fun a => do_named buf o k action a NM) (step_retry o k) (step_ok o k) (step_nz o k)).
  destruct M as (_ & _ & _ & _ & _ & MO & MD).
  assert (Q1 : o_oneshot o = false /\ repeats k = true <-> ~ given SOneshot ss /\ again k).
  { rewrite <- MO. unfold again. destruct (o_oneshot o), k; cbn; intuition (try discriminate; try congruence). }
  assert (Q2 : forall l a, sends (request k) (l ++ [a]) = sent (request k) l ++ request k) by (intros l0 a0; unfold sends, sent; rewrite map_app, concat_app; cbn [map concat]; now rewrite app_nil_r).
  split; intros (earlier & a & later & E & F & NE & H); exists earlier, a, later; (split; [exact E|]); (split; [exact F|]); (split; [intros Q; apply Q1; now apply NE|]);
    rewrite Q2 in *; rewrite (ignore_named k action NM), MD in *; exact H.
Qed.
(** It goes on only after soft failures *)
Theorem C67_running : forall buf conf args ss action o k l rs, command_line args ss action [] -> meant ss o -> configured conf o -> named k action ->
  gdnsdctl buf conf args l = Ok (None, rs) <-> Forall soft l /\ (l <> [] -> ~ given SOneshot ss /\ again k) /\ rs = sends (request k) l.
Proof.
  intros buf conf args ss action o k l rs C M CF NM. rewrite (to_loop buf conf _ _ _ _ _ l C M CF).
  rewrite (loop_running buf o action [] (step_of o k) (request k) (repeats k) (fun a => do_named buf o k action a NM) (step_retry o k)).
  destruct M as (_ & _ & _ & _ & _ & MO & MD).
  assert (Q1 : o_oneshot o = false /\ repeats k = true <-> ~ given SOneshot ss /\ again k).
  { rewrite <- MO. unfold again. destruct (o_oneshot o), k; cbn; intuition (try discriminate; try congruence). }
  split; intros (F & NE & ->); (split; [exact F|]); (split; [intros Q; apply Q1; now apply NE|reflexivity]).
Qed.
(** Challenges: with arguments that make a request (C53_challenges), success is that the daemon accepted it *)
Theorem C67_challenges : forall buf conf args ss action rest o h d data l rs, command_line args ss action rest -> meant ss o -> configured conf o -> is_chal action ->
  rest <> [] -> Nat.even (length rest) = true -> CscModel.action_chal buf (pairs rest) = Ok (Some (h, d, data)) -> length rest <= 200 ->
  gdnsdctl buf conf args l = Ok (Some 0%N, rs) <->
  exists earlier a later, l = earlier ++ a :: later /\ Forall soft earlier /\ (earlier <> [] -> ~ given SOneshot ss) /\
    a_conn a = true /\ a_txn a = TxnOk /\ rs = sends [h ++ firstn (N.to_nat d) data] (earlier ++ [a]).
Proof.
  intros buf conf args ss action rest o h d data l rs C M CF IC NR EV EA L2. rewrite (to_loop buf conf _ _ _ _ _ l C M CF). unfold is_chal in IC.
  assert (DO : forall a, do_action buf o action rest a = Ok (simple_action o a, [h ++ firstn (N.to_nat d) data])).
  { intros a. unfold do_action, ceq. rewrite IC. change (same_bytes (tx "acme-dns-01") (map low (tx "acme-dns-01"))) with true. cbv iota. unfold do_chal.
    destruct (Nat.eqb_spec (length rest) 0) as [Z|_]; [destruct rest; [contradiction|discriminate Z]|]. unfold Nat.odd. rewrite EV. cbn [negb orb]. destruct (Nat.ltb_spec 200 (length rest)); [lia|]. rewrite EA. reflexivity. }
  assert (R1 : forall a, simple_action o a = Retry <-> o_oneshot o = false /\ true = true /\ a_txn a = TxnSoft) by (intros a; apply (step_retry o Reload a)).
  assert (R2 : forall a, simple_action o a = Success <-> a_txn a = TxnOk) by (intros a; apply (step_ok o Reload a)).
  assert (R3 : forall a, simple_action o a <> Exit 0) by (intros a; apply (step_nz o Reload a)).
  rewrite (loop_success buf o action rest (simple_action o) [h ++ firstn (N.to_nat d) data] true (fun a => a_txn a = TxnOk) DO R1 R2 R3).
  assert (NI : can_ignore_dead action = false) by (unfold can_ignore_dead, ceq; rewrite !IC; reflexivity). rewrite NI.
  destruct M as (_ & _ & _ & _ & _ & MO & MD).
  assert (Q1 : o_oneshot o = false <-> ~ given SOneshot ss) by (rewrite <- MO; destruct (o_oneshot o); intuition (try discriminate; try congruence)).
  assert (Q2 : forall rq l a, sends rq (l ++ [a]) = sent rq l ++ rq) by (intros rq l0 a0; unfold sends, sent; rewrite map_app, concat_app; cbn [map concat]; now rewrite app_nil_r).
  split.
  - intros (earlier & a & later & E & F & NE & [(_ & _ & Q & _)|(H1 & H2 & ->)]); [discriminate Q|]. exists earlier, a, later. rewrite Q2. repeat split; auto. intros Q. apply Q1. now apply NE.
  - intros (earlier & a & later & E & F & NE & H1 & H2 & ->). exists earlier, a, later. rewrite Q2. repeat split; auto. apply Q1. now apply NE.
Qed.

(** ** Everything else *)
(** A refusal is fatal *)
Theorem C67_refused : forall buf conf args ss action o k a l, command_line args ss action [] -> meant ss o -> configured conf o -> named k action ->
  a_conn a = true -> k <> Status -> a_txn a = TxnHard -> gdnsdctl buf conf args (a :: l) = Ok (Some 42%N, request k).
Proof.
  intros buf conf args ss action o k a l C M CF NM EC NS EH. rewrite (to_loop buf conf _ _ _ _ _ _ C M CF). cbn [loop]. rewrite EC. cbn [negb]. rewrite (do_named buf o k action a NM). cbn [rbind].
  assert (E : step_of o k a = Exit 42) by (unfold step_of, action_stop, action_replace, simple_action, judge; rewrite EH; destruct k; try contradiction; rewrite ?andb_false_r; reflexivity).
  rewrite E. reflexivity.
Qed.
(** The first attempt with one-shot mode, and the first one after which the alarm has been raised, is the last *)
Lemma loop_stops buf o action rest a later : (o_oneshot o = true \/ a_alarm a = true) -> forall earlier, loop buf o action rest (earlier ++ a :: later) = loop buf o action rest (earlier ++ [a]).
Proof.
  intros S. induction earlier as [|b earlier IH]; cbn [app loop].
  - destruct (negb (a_conn a)); [reflexivity|]. destruct (do_action _ _ _ _ _) as [[s rs]|]; [|reflexivity]. cbn [rbind]. destruct s; try reflexivity.
    assert (Q : (o_oneshot o || a_alarm a)%bool = true) by (destruct S as [-> | ->]; [reflexivity|apply orb_true_r]). rewrite Q. reflexivity.
  - destruct (negb (a_conn b)); [reflexivity|]. destruct (do_action _ _ _ _ _) as [[s rs]|]; [|reflexivity]. cbn [rbind]. destruct s; try reflexivity. destruct (_ || _)%bool; [reflexivity|]. now rewrite IH.
Qed.
Lemma loop_ends buf o action rest a rs : (o_oneshot o = true \/ a_alarm a = true) -> forall earlier, loop buf o action rest (earlier ++ [a]) <> Ok (None, rs).
Proof.
  intros S earlier. revert rs. induction earlier as [|b earlier IH]; intros rs; cbn [app loop].
  - destruct (negb (a_conn a)); [discriminate|]. destruct (do_action _ _ _ _ _) as [[s rs1]|]; [|discriminate]. cbn [rbind]. destruct s; try discriminate.
    assert (Q : (o_oneshot o || a_alarm a)%bool = true) by (destruct S as [-> | ->]; [reflexivity|apply orb_true_r]). rewrite Q. discriminate.
  - destruct (negb (a_conn b)); [discriminate|]. destruct (do_action _ _ _ _ _) as [[s rs1]|]; [|discriminate]. cbn [rbind]. destruct s; try discriminate. destruct (_ || _)%bool; [discriminate|].
    destruct (loop buf o action rest (earlier ++ [a])) as [[x rs2]|]; [|discriminate]. cbn [rbind]. intros E. injection E as -> <-. now apply (IH rs2).
Qed.
Theorem C67_stops : forall buf conf args ss action rest o earlier a later, command_line args ss action rest -> meant ss o -> configured conf o ->
  given SOneshot ss \/ a_alarm a = true ->
  gdnsdctl buf conf args (earlier ++ a :: later) = gdnsdctl buf conf args (earlier ++ [a]) /\ forall rs, gdnsdctl buf conf args (earlier ++ [a]) <> Ok (None, rs).
Proof.
  intros buf conf args ss action rest o earlier a later C M CF S. rewrite !(to_loop buf conf _ _ _ _ _ _ C M CF).
  assert (S' : o_oneshot o = true \/ a_alarm a = true) by (destruct S as [S|S]; [left|right; exact S]; destruct M as (_ & _ & _ & _ & _ & MO & _); now apply MO).
  split; [now apply loop_stops|]. intros rs. now apply loop_ends.
Qed.
(** A line that is no command line, a configuration that cannot be read, an action that does not exist or has arguments it does not take: nothing is sent *)
Theorem C67_usage : forall buf conf args l,
  ((forall ss action rest, ~ command_line args ss action rest) -> gdnsdctl buf conf args l = Ok (Some 2%N, [])) /\
  (forall ss action rest o, command_line args ss action rest -> meant ss o -> ~ configured conf o -> gdnsdctl buf conf args l = Ok (Some 42%N, [])) /\
  (forall ss action rest o a l', command_line args ss action rest -> meant ss o -> configured conf o -> l = a :: l' -> a_conn a = true ->
     (~ is_chal action /\ (rest <> [] \/ forall k, ~ named k action)) \/ (is_chal action /\ (rest = [] \/ Nat.even (length rest) = false \/ 200 < length rest)) ->
     gdnsdctl buf conf args l = Ok (Some 2%N, [])).
Proof.
  intros buf conf args l. split; [|split].
  - intros H. unfold gdnsdctl. destruct (parse_args args defaults) as [[[o action] rest]|] eqn:E; [|reflexivity]. apply C67_command_line in E. destruct E as (ss & C & _). exfalso. now apply (H ss action rest).
  - intros ss action rest o C M NC. unfold gdnsdctl. rewrite (proj2 (C67_command_line args o action rest)) by eauto. unfold configured in NC. destruct (o_addr o); [exfalso; apply NC; discriminate|].
    destruct (conf (o_cfg o)); [exfalso; apply NC; reflexivity|]. reflexivity.
  - intros ss action rest o a l' C M CF -> EC B. rewrite (to_loop buf conf _ _ _ _ _ _ C M CF). cbn [loop]. rewrite EC. cbn [negb].
    assert (E : do_action buf o action rest a = Ok (Exit 2, [])).
    { unfold do_action. assert (CC : forall t, ceq action t = true <-> map low action = map low t) by (intros t; apply same_bytes_iff). destruct B as [(NC & B)|(IC & B)].
      - destruct (ceq action (tx "acme-dns-01")) eqn:E1; [exfalso; apply NC; apply CC in E1; exact E1|]. destruct (Nat.eqb_spec (length rest) 0) as [Z|_]; [|reflexivity]. cbn [negb].
        destruct B as [B|B]; [destruct rest; [contradiction|discriminate Z]|].
        assert (CN : forall k t, map low t = act_name k -> ceq action t = false) by (intros k t T; apply Bool.not_true_iff_false; rewrite CC, T; exact (B k)).
        rewrite (CN Stop (tx "stop") eq_refl), (CN Reload (tx "reload-zones") eq_refl), (CN Replace (tx "replace") eq_refl), (CN Status (tx "status") eq_refl), (CN Stats (tx "stats") eq_refl), (CN States (tx "states") eq_refl), (CN Flush (tx "acme-dns-01-flush") eq_refl). reflexivity.
      - rewrite (proj2 (CC (tx "acme-dns-01")) IC). unfold do_chal, Nat.odd. destruct B as [-> |[B|B]]; [reflexivity|rewrite B; cbn [negb]; now rewrite orb_true_r|].
        destruct (Nat.ltb_spec 200 (length rest)); [|lia]. now rewrite orb_true_r. }
    rewrite E. reflexivity.
Qed.
(** There is always an exit code, and it is one of four *)
Theorem C67_exit_codes : forall buf conf args l, length buf = N.to_nat 28400 -> Forall all_bytes args ->
  exists x rs, gdnsdctl buf conf args l = Ok (x, rs) /\ forall n, x = Some n -> In n [0; 1; 2; 42]%N.
Proof.
  intros buf conf args l LB AB. unfold gdnsdctl. destruct (parse_args args defaults) as [[[o action] rest]|] eqn:E.
  2:{ do 2 eexists. split; [reflexivity|]. intros n Q. injection Q as <-. cbn. auto. }
  destruct (match o_addr o with None => negb (conf (o_cfg o)) | Some _ => false end).
  { do 2 eexists. split; [reflexivity|]. intros n Q. injection Q as <-. cbn. auto. }
  assert (AR : Forall all_bytes rest).
  { apply C67_command_line in E. destruct E as (ss & (ws & _ & C) & _). destruct C as [(-> & _)| ->]; apply Forall_app in AB; destruct AB as [_ AB]; repeat (apply Forall_cons_iff in AB; destruct AB as [_ AB]); exact AB. }
  clear E AB. induction l as [|a l IH]; cbn [loop].
  { do 2 eexists. split; [reflexivity|]. discriminate. }
  destruct (negb (a_conn a)). { do 2 eexists. split; [reflexivity|]. intros n Q. injection Q as <-. destruct (_ && _)%bool; cbn; auto. }
  assert (D : exists s rs, do_action buf o action rest a = Ok (s, rs) /\ forall n, s = Exit n -> n = 2%N \/ n = 42%N).
  { assert (SK : forall k n, step_of o k a = Exit n -> n = 2%N \/ n = 42%N).
    { intros k n. unfold step_of, action_stop, action_replace, simple_action, judge. destruct k, (a_txn a), (o_oneshot o), (a_exits a), (a_new a); cbn; intros Q; try discriminate Q; injection Q as <-; auto. }
    unfold do_action. destruct (ceq action (tx "acme-dns-01")).
    { unfold do_chal. destruct (_ || _ || _)%bool; [do 2 eexists; split; [reflexivity|]; intros n Q; injection Q as <-; auto|].
      destruct (C53_challenges buf (pairs rest)) as (r & -> & _); [|exact LB|].
      { assert (PF : forall n r, length r <= n -> Forall all_bytes r -> forall p, In p (pairs r) -> all_bytes (fst p)).
        { induction n as [|n IHn]; intros [|x [|y r]] L F p IN; cbn in *; try contradiction; try lia. apply Forall_cons_iff in F. destruct F as [FX F]. apply Forall_cons_iff in F. destruct F as [FY F].
          destruct IN as [<-|IN]; [exact FX|]. eapply (IHn r); eauto. lia. }
        intros p. apply (PF (length rest) rest); auto. }
      cbn [rbind]. destruct r as [[[h d] data]|]; do 2 eexists; (split; [reflexivity|]); intros n Q; [exact (SK Reload n Q)|injection Q as <-; auto]. }
    destruct (negb _); [do 2 eexists; split; [reflexivity|]; intros n Q; injection Q as <-; auto|].
    destruct (ceq action (tx "stop")); [do 2 eexists; split; [reflexivity|]; intros n Q; exact (SK Stop n Q)|].
    destruct (ceq action (tx "reload-zones")); [do 2 eexists; split; [reflexivity|]; intros n Q; exact (SK Reload n Q)|].
    destruct (ceq action (tx "replace")); [do 2 eexists; split; [reflexivity|]; intros n Q; exact (SK Replace n Q)|].
    destruct (ceq action (tx "status")); [do 2 eexists; split; [reflexivity|]; intros n Q; discriminate Q|].
    destruct (ceq action (tx "stats")); [do 2 eexists; split; [reflexivity|]; intros n Q; exact (SK Stats n Q)|].
    destruct (ceq action (tx "states")); [do 2 eexists; split; [reflexivity|]; intros n Q; exact (SK States n Q)|].
    destruct (ceq action (tx "acme-dns-01-flush")); do 2 eexists; (split; [reflexivity|]); intros n Q; [exact (SK Flush n Q)|injection Q as <-; auto]. }
  destruct D as (s & rs & -> & ES). cbn [rbind]. destruct s as [| |n].
  - destruct (_ || _)%bool. { do 2 eexists. split; [reflexivity|]. intros n Q. injection Q as <-. cbn. auto. }
    destruct IH as (x & rs' & -> & EX). cbn [rbind]. do 2 eexists. split; [reflexivity|]. exact EX.
  - do 2 eexists. split; [reflexivity|]. intros n Q. injection Q as <-. cbn. auto.
  - do 2 eexists. split; [reflexivity|]. intros m Q. injection Q as <-. destruct (ES n eq_refl) as [-> | ->]; cbn; auto.
Qed.
Print Assumptions C67_command_line.
Print Assumptions C67_timeout.
Print Assumptions C67_success.
Print Assumptions C67_running.
Print Assumptions C67_challenges.
Print Assumptions C67_refused.
Print Assumptions C67_stops.
Print Assumptions C67_usage.
Print Assumptions C67_exit_codes.

(** ** Concrete cases *)
(** gdnsdctl -Dc /etc -t7 -- Stop *)
Definition wit_args : list bytes := [tx "-Dc"; tx "/etc"; tx "-t7"; tx "--"; tx "Stop"].
Definition wit_settings : list setting := [SDebug; SCfg (tx "/etc"); STimeo (tx "7") 7].
Definition busy : attempt := {| a_conn := true; a_txn := TxnSoft; a_exits := false; a_new := false; a_alarm := false |}.
Definition fine : attempt := {| a_conn := true; a_txn := TxnOk; a_exits := true; a_new := true; a_alarm := false |}.
Definition dead : attempt := {| a_conn := false; a_txn := TxnHard; a_exits := false; a_new := false; a_alarm := false |}.
Example C67_witness : command_line wit_args wit_settings (tx "Stop") [] /\ (exists o, meant wit_settings o /\ configured (fun _ => true) o /\ o_timeo o = 7%N) /\ named Stop (tx "Stop") /\
  decimal (tx "7") 7 /\
  gdnsdctl [] (fun _ => true) wit_args [busy; busy; fine] = Ok (Some 0%N, sends (request Stop) [busy; busy; fine]) /\
  gdnsdctl [] (fun _ => true) wit_args [busy; dead] = Ok (Some 1%N, sends (request Stop) [busy]) /\
  gdnsdctl [] (fun _ => true) [tx "-i"; tx "stop"] [busy; dead] = Ok (Some 0%N, sends (request Stop) [busy]) /\
  gdnsdctl [] (fun _ => true) [tx "-o"; tx "stop"] [busy; fine] = Ok (Some 42%N, sends (request Stop) [busy]) /\
  gdnsdctl [] (fun _ => true) [tx "-x"; tx "stop"] [fine] = Ok (Some 2%N, []).
Proof.
  split.
  { exists [tx "-Dc"; tx "/etc"; tx "-t7"]. split; [|right; reflexivity].
    apply (w_next [SDebug] (SCfg (tx "/etc")) (tx "/etc") [STimeo (tx "7") 7] [tx "-t7"]); [repeat constructor|reflexivity|exact I|].
    apply (w_same [] (STimeo (tx "7") 7) (tx "7") [] []); [constructor|reflexivity|discriminate|split; [exists []; vm_compute; reflexivity|lia]|constructor]. }
  split. { exists (fold_left apply wit_settings defaults). split; [apply meant_applies|]. split; [intros _; reflexivity|reflexivity]. }
  split; [reflexivity|]. split; [apply (dec_one 55); lia|]. repeat split; vm_compute; reflexivity.
Qed.
(** a challenge whose text begins with a minus, which is no option *)
Definition chal_text : bytes := 45%N :: repeat 97%N 42.
Example C67_challenge_witness : let rest := [tx "example.org"; chal_text] in let buf := repeat 0%N (N.to_nat 28400) in
  command_line (tx "acme-dns-01" :: rest) [] (tx "acme-dns-01") rest /\ meant [] defaults /\ is_chal (tx "acme-dns-01") /\
  match CscModel.action_chal buf (pairs rest) with Ok (Some (_, d, _)) => d = 58%N | _ => False end.
Proof.
  split. { exists []. split; [constructor|]. left. split; [reflexivity|]. intros x y E. vm_compute in E. discriminate E. }
  split; [exact (meant_applies [])|]. split; [reflexivity|]. vm_compute. reflexivity.
Qed.

(** ** What does not hold *)
(** The usage text gives a range for -t, but text behind the number, and numbers below zero that wrap around, are accepted *)
Theorem C67_timeout_refuted : ~ (forall v n, legal (STimeo v n) -> exists d, decimal v d).
Proof.
  intros A. destruct (A (tx "7 days") 7%N) as (d & D).
  - split; [exists (tx " days"); vm_compute; reflexivity|lia].
  - assert (Q : forall s v, decimal s v -> Forall (fun b => 48 <= b)%N s) by (induction 1; [repeat constructor; lia|apply Forall_app; split; [assumption|repeat constructor; lia]]).
    apply Q in D. vm_compute in D. do 2 (apply Forall_cons_iff in D; destruct D as [? D]). lia.
Qed.
(** With -i and no daemon, a line with arguments that the action does not take succeeds; without -i it is a failure, not a wrong usage *)
Theorem C67_usage_refuted : ~ (forall buf conf args ss action rest o a l, command_line args ss action rest -> meant ss o -> configured conf o ->
  ~ is_chal action -> rest <> [] -> gdnsdctl buf conf args (a :: l) = Ok (Some 2%N, [])).
Proof.
  intros A. specialize (A [] (fun _ => true) [tx "-i"; tx "stop"; tx "now"] [SDead] (tx "stop") [tx "now"] (fold_left apply [SDead] defaults) dead []).
  assert (C : command_line [tx "-i"; tx "stop"; tx "now"] [SDead] (tx "stop") [tx "now"]).
  { exists [tx "-i"]. split; [apply (w_flags [SDead] [] []); [discriminate|repeat constructor|constructor]|]. left. split; [reflexivity|]. intros x y E. vm_compute in E. discriminate E. }
  specialize (A C (meant_applies _) (fun _ => eq_refl) ltac:(intros Q; vm_compute in Q; discriminate Q) ltac:(discriminate)). vm_compute in A. discriminate A.
Qed.
Print Assumptions C67_timeout_refuted.
Print Assumptions C67_usage_refuted.
