(** C49-C51: reloading, conversations and permissions on the control socket. *)
From Coq Require Import Lia.
From Verif Require Import Base CtlModel CtlSpec CtlProofs CtlProofs2 CtlProofs3 CtlProofs4 CtlProofs5 CtlProofs6 CtlProofs7 CtlProofs8 CtlProofs9.
Local Open Scope N_scope.

(** What one daemon process may see: it has the lock, its control socket and at least
    one DNS socket to hand over, and its version fits. *)
Definition set_up (fds : list N) (status_v : N) : Prop := 2 <= N.of_nat (length fds) <= 16777215 /\ status_v <= 16777215.
Lemma set_up_fds fds v : set_up fds v -> length fds <> 0%nat.
Proof. intros ((H & _) & _). destruct fds; [cbn in H; lia|discriminate]. Qed.

(** ** C49 *)
(** A client that asked for a reload at [t] and was told of success is served by data whose
    load began no earlier than [t], from then on; told of failure, a load begun
    no earlier than [t] failed. *)
Theorem C49_reload_answers fds sv sd h s i before t v d r after :
  set_up fds sv -> always fds sv sd sane init h -> always fds sv sd calm init h -> run fds sv sd init h = Ok s ->
  s_log s i = before ++ [Got t REQ_ZREL v d; Wrote r 0 0] ++ after ->
  (r = RESP_ACK -> (t <= s_since s (s_root s))%nat) /\ (r = RESP_FAIL -> exists b, (t <= b)%nat /\ In (b, true) (s_loads s)).
Proof.
  intros Su Sn Cm H L. apply set_up_fds in Su. destruct (run_all fds sv sd Su h init s (all_init fds sv sd) Sn Cm H) as ((F & _) & _).
  assert (Lg : exists o, connection_log fds sv sd (truth s) o (s_log s i)).
  { unfold full in F. destruct (s_stop s).
    - destruct F as ((F & _) & _). destruct (F i) as [Q|Q]; [rewrite Q in L; destruct before; discriminate|eauto].
    - destruct F as (F & _). destruct (coks_logs fds sv sd (truth s) s Su F i) as [Q|Q]; [rewrite Q in L; destruct before; discriminate|eauto]. }
  destruct Lg as (o & Lg). split; intros ->; eapply (answer_log fds sv sd (truth s) o _ _ _ t v d _ 0 0 Su Lg L); auto.
Qed.

(** A client still waiting since [t] is not forgotten: a load is running, no load
    begun since the request is over, and the client is next or after next. *)
Theorem C49_waiting_clients fds sv sd h s i c t :
  set_up fds sv -> always fds sv sd sane init h -> always fds sv sd calm init h -> run fds sv sd init h = Ok s ->
  s_stop s = false -> s_conns s i = Some c -> k_write c = false -> waits_since (s_log s i) t ->
  (exists th, s_threads s (s_tid s) = Some th /\ t_phase th <> TJoined /\
     ((In i (s_active s) /\ (t <= t_start th)%nat) \/ (In i (s_queued s) /\ (t_start th < t)%nat))) /\
  (forall k th, s_threads s k = Some th -> t_phase th = TJoined -> (t_start th < t)%nat).
Proof.
  intros Su Sn Cm H St Ec Kw Wt. apply set_up_fds in Su. destruct (run_all fds sv sd Su h init s (all_init fds sv sd) Sn Cm H) as ((F & Z) & _). specialize (Z St).
  unfold full in F. rewrite St in F. destruct F as (C & _). destruct (zrel_last fds sv sd (truth s) s i c t Su C Ec Wt) as [Q|Q]; [congruence|].
  destruct (z_cur s Z) as (th & Et & Hp & _).
  assert (Na : s_active s <> []). { destruct Q as [Q|Q]; [intros X; rewrite X in Q; destruct Q|]. apply (z_queue s Z). intros X. rewrite X in Q. destruct Q. }
  assert (Nj : t_phase th <> TJoined) by (intros X; rewrite X in Hp; destruct Hp; contradiction). split.
  - exists th. split; [exact Et|]. split; [exact Nj|]. destruct Q as [Q|Q]; [left|right]; (split; [exact Q|]).
    + assert (X := z_act s Z i t Q Wt _ th Et). now rewrite Nat.eqb_refl in X.
    + exact (z_wait s Z i t Q Wt _ th Et).
  - intros k th' Ek Pj. destruct Q as [Q|Q]; [|exact (z_wait s Z i t Q Wt _ th' Ek)]. assert (X := z_act s Z i t Q Wt _ th' Ek). destruct (k =? s_tid s)%nat eqn:Y; [|exact X]. apply Nat.eqb_eq in Y. subst k. rewrite Ek in Et. injection Et as ->. contradiction.
Qed.

(** Zone data that a query has got is not destroyed before the query is done with
    it, and the data served now never is. *)
Theorem C49_data_in_use fds sv sd h s :
  set_up fds sv -> always fds sv sd sane init h -> always fds sv sd calm init h -> run fds sv sd init h = Ok s -> s_stop s = false ->
  In (s_root s) (s_live s) /\ forall k t, In (k, Some t) (s_open s) -> In t (s_live s).
Proof.
  intros Su Sn Cm H St. apply set_up_fds in Su. destruct (run_all fds sv sd Su h init s (all_init fds sv sd) Sn Cm H) as ((F & Z) & _). specialize (Z St). split; [apply (z_root s Z)|].
  intros k t I. destruct (z_use s Z k t I) as [->|(th & Et & X)]; [apply (z_root s Z)|]. destruct (z_cur s Z) as (th' & Et' & Hp & _). rewrite Et in Et'. injection Et' as <-. destruct X as [X|(w & X & _)]; rewrite X in Hp; apply Hp.
Qed.
(** Served data only gets newer. *)
Theorem C49_newer fds sv sd h h' s s' :
  set_up fds sv -> always fds sv sd sane init (h ++ h') -> always fds sv sd calm init (h ++ h') -> run fds sv sd init h = Ok s -> run fds sv sd s h' = Ok s' ->
  (s_since s (s_root s) <= s_since s' (s_root s'))%nat.
Proof.
  intros Su Sn Cm H H'. apply set_up_fds in Su.
  assert (Split : forall P h s0, always fds sv sd P s0 (h ++ h') -> run fds sv sd s0 h = Ok s -> always fds sv sd P s0 h /\ always fds sv sd P s h').
  { intros P. induction h0 as [|e h0 IH]; cbn; intros s0 A E; [ok1 E; subst; auto|]. destruct A as (A1 & A2). ok1 E. rewrite E0 in *. destruct (IH y A2 E). auto. }
  destruct (Split sane h init Sn H) as (Sn1 & Sn2). destruct (Split calm h init Cm H) as (Cm1 & Cm2).
  destruct (run_all fds sv sd Su h init s (all_init fds sv sd) Sn1 Cm1 H) as (A & _). destruct (run_all fds sv sd Su h' s s' A Sn2 Cm2 H') as (_ & L & _). exact L.
Qed.

(** *** Concrete histories *)
Definition fds0 : list N := [10; 11; 12].
Definition x0 : ext := {| x_text := [123; 125]; x_csets := 0; x_chal_fails := false; x_spawn := 77; x_ack1 := true; x_ack2 := true |}.
Definition req (i : nat) (key d : N) : event := ERead i (Recv [key; 0; 0; 0; d; 0; 0; 0]) x0.
Definition reply_to (i : nat) : event := EWrite i Sent8 (SentN 1000).
Definition load (k : nat) : list event := [EThread k false; EThread k false; EThread k false; EThread k false; EThread k false; EThread k false; EThread k false].
Definition go (h : list event) : res css := run fds0 0 0 init h.
(** Two clients; the second asks while the first one's load runs, with a query open. *)
Definition h_two : list event :=
  [EAccept None; EAccept (Some (false, true)); req 0 REQ_ZREL 0; QEnter; QGet 0; EThread 1 false; req 1 REQ_ZREL 0; EThread 1 false; EThread 1 false; EThread 1 false; QUse 0; EThread 1 false; QLeave 0;
   EThread 1 false; EThread 1 false; EDone; EThread 1 false; EDone; reply_to 0] ++ load 2 ++ [EDone; EThread 2 false; EDone; reply_to 1].

(** Checks of the assumptions by computation. *)
Definition reading_b (s : css) (i : nat) : bool := match s_conns s i with Some c => match k_state c with READING_REQ => true | _ => false end | None => false end.
Definition on_request (s : css) (e : event) (f : N -> N -> ext -> bool) : bool :=
  match e with ERead i (Recv [key; _; _; _; d0; d1; d2; d3]) x => f key (make_d d0 d1 d2 d3) x | _ => true end.
Definition sane_b (s : css) (e : event) : bool :=
  on_request s e (fun key d x => (N.of_nat (length (x_text x)) <=? 4294967295) && negb (match x_text x with [] => true | _ => false end) && (negb (key =? REQ_TAK1) || negb (d =? 0))).
Definition polite_b (s : css) (e : event) : bool :=
  on_request s e (fun key d x => (negb (key =? REQ_TAK1) || negb (s_pid s =? d) || match s_dmn s with None => true | _ => false end) &&
    (negb (key =? REQ_STOP) || match s_ctl s with None => true | _ => x_ack1 x end) && (x_csets x <=? 16777215)).
Definition calm_b (s : css) (e : event) : bool := match e with ETimer true => false | _ => true end.
Fixpoint always_b (fds : list N) (sv sd : N) (P : css -> event -> bool) (s : css) (h : list event) : bool :=
  match h with [] => true | e :: h => P s e && match step fds sv sd s e with Ok s' => always_b fds sv sd P s' h | UB => true end end.
Lemma always_check fds sv sd (P : css -> event -> Prop) b : (forall s e, b s e = true -> P s e) -> forall h s, always_b fds sv sd b s h = true -> always fds sv sd P s h.
Proof. intros Hb. induction h as [|e h IH]; cbn; intros s H; [exact I|]. apply Bool.andb_true_iff in H. destruct H as (H1 & H2). split; [now apply Hb|]. destruct (step _ _ _ _ _); auto. Qed.
Lemma sane_check s e : sane_b s e = true -> sane s e.
Proof.
  intros H i key d x (_ & v0 & v1 & v2 & d0 & d1 & d2 & d3 & -> & ->). cbn [sane_b on_request] in H. apply Bool.andb_true_iff in H. destruct H as (H & H3). apply Bool.andb_true_iff in H. destruct H as (H1 & H2). split; [now apply N.leb_le|]. split.
  - intros _ Q. rewrite Q in H2. discriminate.
  - intros -> Q. rewrite Q in H3. discriminate.
Qed.
Lemma polite_check s e : polite_b s e = true -> polite s e.
Proof.
  intros H i key d x (_ & v0 & v1 & v2 & d0 & d1 & d2 & d3 & -> & ->). cbn [polite_b on_request] in H. apply Bool.andb_true_iff in H. destruct H as (H & H3). apply Bool.andb_true_iff in H. destruct H as (H1 & H2). split; [|split; [|now apply N.leb_le]].
  - intros -> Q. rewrite Q, !N.eqb_refl in H1. cbn in H1. now destruct (s_dmn s).
  - intros -> Q. cbn in H2. now destruct (s_ctl s).
Qed.
Lemma calm_check s e : calm_b s e = true -> calm s e.
Proof. intros H ->. discriminate. Qed.
Ltac history := first [apply (always_check _ _ _ sane sane_b sane_check)|apply (always_check _ _ _ polite polite_b polite_check)|apply (always_check _ _ _ calm calm_b calm_check)]; vm_compute; reflexivity.

Example C49_witness : exists s, go h_two = Ok s /\ set_up fds0 0 /\ always fds0 0 0 sane init h_two /\ always fds0 0 0 calm init h_two /\ always fds0 0 0 polite init h_two /\
  s_log s 0 = [Opened None] ++ [Got 3 REQ_ZREL 0 0; Wrote RESP_ACK 0 0] ++ [] /\ s_log s 1 = [Opened (Some (false, true))] ++ [Got 7 REQ_ZREL 0 0; Wrote RESP_ACK 0 0] ++ [] /\
  s_since s (s_root s) = 18%nat /\ s_live s = [2%nat].
Proof.
  eexists. split; [vm_compute; reflexivity|]. split; [split; [vm_compute; split; discriminate|vm_compute; discriminate]|]. split; [history|]. split; [history|]. split; [history|]. vm_compute. auto.
Qed.
(** A client waits in the queue while another one's load runs. *)
Example C49_witness_waiting : exists s c, go (firstn 9 h_two) = Ok s /\ s_stop s = false /\ s_conns s 1 = Some c /\ k_write c = false /\ waits_since (s_log s 1) 7 /\
  s_active s = [0%nat] /\ s_queued s = [1%nat] /\ s_open s = [(0%nat, Some 0%nat)] /\ s_live s = [1%nat; 0%nat].
Proof.
  do 2 eexists. split; [vm_compute; reflexivity|]. split; [vm_compute; reflexivity|]. split; [vm_compute; reflexivity|]. split; [reflexivity|]. split; [exists [Opened (Some (false, true))], 0, 0; vm_compute; reflexivity|]. vm_compute. auto.
Qed.
(** A failed load. *)
Example C49_witness_failed : exists s, go [EAccept None; req 0 REQ_ZREL 0; EThread 1 true; EThread 1 true; EThread 1 true; EDone; EDone; reply_to 0] = Ok s /\
  s_log s 0 = [Opened None; Got 2 REQ_ZREL 0 0; Wrote RESP_FAIL 0 0] /\ s_loads s = [(2%nat, true)] /\ s_root s = 0%nat.
Proof. eexists. split; [vm_compute; reflexivity|]. vm_compute. auto. Qed.

(** Not so if a replacement fails while a load is running: the load is forgotten, and
    the next one runs at the same time.  Then a client may be told of success and be
    served older data, or zone data is destroyed twice. *)
Definition h_forgotten : list event := [EAccept None; EAccept None; EAccept None; req 0 REQ_ZREL 0; EThread 1 false; req 1 REQ_REPL 0; ETimer true; req 2 REQ_ZREL 0].
Definition h_stale : list event := h_forgotten ++ load 2 ++ [EDone; EThread 2 false; EDone; reply_to 2; EThread 1 false; EThread 1 false].
Definition h_twice : list event := h_forgotten ++ [EThread 1 false] ++ load 2 ++ [EThread 1 false; EThread 1 false; EThread 1 false].
Theorem C49_reload_answers_refuted :
  (exists s, set_up fds0 0 /\ always fds0 0 0 sane init h_stale /\ always fds0 0 0 polite init h_stale /\ run fds0 0 0 init h_stale = Ok s /\
     s_log s 2 = [Opened None] ++ [Got 8 REQ_ZREL 0 0; Wrote RESP_ACK 0 0] ++ [] /\ s_since s (s_root s) = 4%nat) /\
  (always fds0 0 0 sane init h_twice /\ always fds0 0 0 polite init h_twice /\ run fds0 0 0 init h_twice = UB).
Proof.
  split; [eexists; split; [split; [vm_compute; split; discriminate|vm_compute; discriminate]|]; split; [history|]; split; [history|]; split; [vm_compute; reflexivity|]; vm_compute; auto|].
  split; [history|]. split; [history|]. vm_compute. reflexivity.
Qed.

(** ** C50 *)
(** On every connection the client sees whole answers to its requests, in order, and
    the beginning of the next one. *)
Theorem C50_conversations fds sv sd h s i :
  set_up fds sv -> always fds sv sd sane init h -> run fds sv sd init h = Ok s ->
  s_log s i = [] \/ connection_log fds sv sd (fun _ _ => True) (match s_conns s i with Some _ => true | None => false end) (s_log s i).
Proof.
  intros Su Sn H. apply set_up_fds in Su. assert (F := run_full fds sv sd Su h init s (linv_full _ _ _ _ _ (linv_init fds sv sd anything)) Sn H). unfold full in F. destruct (s_stop s).
  - destruct F as ((F & _) & _). exact (F i).
  - destruct F as (F & _). exact (coks_logs fds sv sd anything s Su F i).
Qed.
(** No client is left without a way to go on: the daemon reads from it or writes to it, or
    it waits for a load of the zones, or for the replacement it asked for. *)
Theorem C50_not_stuck fds sv sd h s i c :
  set_up fds sv -> always fds sv sd sane init h -> run fds sv sd init h = Ok s -> s_stop s = false -> s_conns s i = Some c ->
  (k_read c = true /\ k_write c = false) \/ (k_write c = true /\ k_read c = false) \/
  (exists before t key v d, s_log s i = before ++ [Got t key v d] /\
     ((key = REQ_ZREL /\ s_pid s = 0 /\ (In i (s_active s) \/ In i (s_queued s))) \/ (key = REQ_REPL /\ s_pid s <> 0 /\ s_timer s = true /\ s_ctl s = Some i))).
Proof.
  intros Su Sn H St Ec. apply set_up_fds in Su. assert (F := run_full fds sv sd Su h init s (linv_full _ _ _ _ _ (linv_init fds sv sd anything)) Sn H). unfold full in F. rewrite St in F. destruct F as (C & G & _).
  assert (Ci := C i). rewrite Ec in Ci. destruct Ci as (done & part & _ & L & Cs). unfold cst in Cs. destruct (k_state c).
  - left. split; apply Cs.
  - left. destruct Cs as (t & ch & _ & _ & _ & _ & _ & _ & _ & _ & X & Y & _). auto.
  - right. right. destruct Cs as (t & -> & _ & _ & _ & _ & X). exists ([Opened (k_perms c)] ++ concat done), t, (k_key c), (k_v c), (k_d c). split; [now rewrite <- app_assoc|]. destruct X as [(W & _ & Kk)|(_ & Ct & Kk)].
    + left. apply waits_in in W. split; [exact Kk|]. split; [|exact W]. destruct (N.eq_dec (s_pid s) 0) as [Q|Q]; [exact Q|]. destruct (g_pid1 s G Q) as (X1 & X2 & _). rewrite X1, X2 in W. destruct W as [[]|[]].
    + right. apply opt_is_true in Ct. split; [exact Kk|]. destruct (N.eq_dec (s_pid s) 0) as [Q|Q]; [destruct (g_pid0 s G Q); congruence|]. destruct (g_pid1 s G Q) as (_ & _ & X). auto.
  - right. left. split; apply Cs.
  - right. left. split; apply Cs.
  - right. left. split; apply Cs.
Qed.
(** Whatever clients send and in whatever order things happen, no assertion fails and
    nothing is used after it is gone, as long as new daemons keep to the protocol and
    replacements do not fail while a load is running. *)
Theorem C50_never_fails fds sv sd h :
  set_up fds sv -> always fds sv sd sane init h -> always fds sv sd calm init h -> always fds sv sd polite init h -> exists s, run fds sv sd init h = Ok s.
Proof. intros (Hf & Hv) Sn Cm Po. exact (run_ok fds sv sd Hf Hv h init (all_init fds sv sd) Sn Cm Po). Qed.

(** Statistics in pieces, a challenge in pieces, a request that is refused, sockets in two
    messages, a stop. *)
Definition h_talk : list event :=
  [EAccept None; EAccept (Some (true, false)); req 0 REQ_STAT 0; EWrite 0 Again8 AgainN; EWrite 0 Sent8 (SentN 1); EWrite 0 Again8 (SentN 5);
   ERead 1 (Recv [REQ_CHAL; 0; 0; 1; 5; 0; 0; 0]) x0; ERead 1 (Recv [1; 2; 3]) x0; ERead 1 (Recv [4; 5; 6; 7]) x0; reply_to 1; req 1 REQ_STOP 0; reply_to 1; req 1 33 0; reply_to 1; req 0 REQ_TAK1 9; reply_to 0; req 0 REQ_TAKE 9; reply_to 0; reply_to 0; req 0 REQ_STOP 0].
Example C50_witness : exists s, run (repeat 5 300) 0 0 init h_talk = Ok s /\ set_up (repeat 5 300) 0 /\
  always (repeat 5 300) 0 0 sane init h_talk /\ always (repeat 5 300) 0 0 calm init h_talk /\ always (repeat 5 300) 0 0 polite init h_talk /\
  s_log s 0 = [Opened None; Got 3 REQ_STAT 0 0; Made [123; 125]; Wrote RESP_ACK 0 2; WroteData [123]; WroteData [125]; Got 15 REQ_TAK1 0 9; Wrote RESP_ACK 0 0;
               Got 17 REQ_TAKE 0 9; WroteFds RESP_ACK 300 0 (repeat 5 253); WroteFds RESP_ACK 300 0 (repeat 5 47); Got 20 REQ_STOP 0 0; Wrote RESP_ACK 0 0] /\
  s_log s 1 = [Opened (Some (true, false)); Got 7 REQ_CHAL 1 5; GotData [1; 2; 3]; GotData [4; 5]; Wrote RESP_ACK 0 0; Got 11 REQ_STOP 0 0; Wrote RESP_DENY 0 0; Got 13 33 0 0; Wrote RESP_DENY 0 0] /\
  s_effects s = [By 1 (DidChallenges 1 [1; 2; 3; 4; 5]); By 0 (DidAnnounce 9); By 0 DidSendFds; By 0 DidStop].
Proof.
  eexists. split; [vm_compute; reflexivity|]. split; [split; [vm_compute; split; discriminate|vm_compute; discriminate]|]. split; [history|]. split; [history|]. split; [history|]. vm_compute. auto.
Qed.
(** Assertions that fail if others do not keep to the protocol: a new daemon that
    announces itself twice, one without a PID, and a stop by the new daemon whose
    answer cannot be sent while somebody waits for the replacement. *)
Definition x1 : ext := {| x_text := [123; 125]; x_csets := 0; x_chal_fails := false; x_spawn := 77; x_ack1 := false; x_ack2 := true |}.
Theorem C50_never_fails_refuted :
  go [EAccept None; req 0 REQ_TAK1 9; reply_to 0; req 0 REQ_TAK1 9] = UB /\
  go [EAccept None; req 0 REQ_TAK1 0; ETimer false] = UB /\
  go [EAccept None; EAccept None; req 0 REQ_REPL 0; req 1 REQ_TAK1 77; reply_to 1; ERead 1 (Recv [REQ_STOP; 0; 0; 0; 0; 0; 0; 0]) x1] = UB.
Proof. vm_compute. auto. Qed.

(** ** C51 *)
(** Whatever was done was asked for on that connection, with that data, by somebody
    permitted to. *)
Theorem C51_only_permitted fds sv sd h s i a :
  set_up fds sv -> always fds sv sd sane init h -> run fds sv sd init h = Ok s -> In (By i a) (s_effects s) -> asked_for (s_log s i) a.
Proof.
  intros Su Sn H. apply set_up_fds in Su. assert (F := run_full fds sv sd Su h init s (linv_full _ _ _ _ _ (linv_init fds sv sd anything)) Sn H). unfold full in F.
  assert (E : eff s) by (destruct (s_stop s); apply F). apply (e_ask s E).
Qed.
(** In particular TCP clients never stop the daemon or take part in a takeover. *)
Theorem C51_local_only fds sv sd h s i a p before :
  set_up fds sv -> always fds sv sd sane init h -> run fds sv sd init h = Ok s -> In (By i a) (s_effects s) -> s_log s i = Opened (Some p) :: before ->
  match a with DidStop | DidAnnounce _ | DidSendFds => False | DidChallenges _ _ | DidFlush => fst p = true | DidQueueReload | DidSpawn _ => snd p = true end.
Proof.
  intros Su Sn H I L. destruct (C51_only_permitted fds sv sd h s i a Su Sn H I) as (p' & b & t & key & v & d & ch & af & L' & P & Rq & _). rewrite L in L'. cbn in L'. injection L' as <- _. destruct p as (x & y). cbn in P.
  destruct a; cbn in Rq |- *; try (destruct Rq as (-> & _)); subst; destruct P as [P|[P|[P|[(P1 & [P|P])|(P1 & [P|P])]]]]; try discriminate P; auto.
Qed.
(** Effects come in the order the rules of a takeover allow: while a replacement is under way
    nothing else changes the daemon, only one replacement is under way, only the one that
    announced itself gets the sockets or stops the old daemon. *)
Theorem C51_takeover_rules fds sv sd h s :
  set_up fds sv -> always fds sv sd sane init h -> run fds sv sd init h = Ok s ->
  exists st, may_all None (s_effects s) st /\ (s_stop s = false -> (st = None <-> s_pid s = 0) /\ (st = None -> s_accept s = true /\ s_ctl s = None /\ s_dmn s = None) /\ (st <> None -> s_active s = [] /\ s_queued s = [])).
Proof.
  intros Su Sn H. apply set_up_fds in Su. assert (F := run_full fds sv sd Su h init s (linv_full _ _ _ _ _ (linv_init fds sv sd anything)) Sn H). unfold full in F.
  assert (E : eff s) by (destruct (s_stop s); apply F). destruct (e_may s E) as (st & M & Ls). exists st. split; [exact M|]. intros St. rewrite St in F. destruct F as (_ & G & _). specialize (Ls St).
  destruct st as [[p q]|].
  - destruct Ls as (-> & Np & _). split; [split; [discriminate|contradiction]|]. split; [discriminate|]. intros _. destruct (g_pid1 s G Np) as (X1 & X2 & _). auto.
  - split; [tauto|]. split; [|congruence]. intros _. destruct (g_pid0 s G Ls) as (X1 & X2 & _ & X3). auto.
Qed.
(** When the new daemon dies, the old one serves as before. *)
Theorem C51_resumes fds sv sd h s s' :
  set_up fds sv -> always fds sv sd sane init h -> run fds sv sd init h = Ok s -> s_stop s = false -> s_join s = false -> s_pid s <> 0 -> step fds sv sd s (ETimer true) = Ok s' ->
  s_pid s' = 0 /\ s_accept s' = true /\ s_stop s' = false /\ s_ctl s' = None /\ s_dmn s' = None /\ s_effects s' = s_effects s ++ [Resumed (s_pid s)] /\
  (forall i, s_ctl s = Some i -> exists c, s_conns s' i = Some c /\ k_write c = true /\ k_wkey c = RESP_FAIL).
Proof.
  intros Su Sn H St J Np Hs. apply set_up_fds in Su. assert (F := run_full fds sv sd Su h init s (linv_full _ _ _ _ _ (linv_init fds sv sd anything)) Sn H). unfold full in F. rewrite St in F. destruct F as (C & G & E).
  destruct (g_pid1 s G Np) as (_ & _ & Tm). unfold step in Hs. rewrite St in Hs. ok1 Hs. ok1 Hs. subst s'. unfold step_at in E0. cbn [is_main] in E0. rewrite J in E0. unfold main_step in E0. rewrite Tm in E0.
  unfold watch_replace in E0. ok1 E0. set (s1 := with_replace _ _ _ _ _ _) in E0. ok1 E0. ok1 E0. ok1 E0. subst y.
  assert (H2 : s_stop y0 = false /\ s_pid y0 = s_pid s /\ s_effects y0 = s_effects s /\ s_dmn y0 = s_dmn s /\ (forall i, s_ctl s = Some i -> exists c, s_conns y0 i = Some c /\ k_write c = true /\ k_wkey c = RESP_FAIL)).
  { change (s_ctl s1) with (s_ctl s) in E1. destruct (s_ctl s) as [j|] eqn:Kj.
    - destruct (controller fds sv sd anything s j C) as (cj & t & dn & Ej & Wj & _); [unfold is_ctl; rewrite Kj; cbn; apply Nat.eqb_refl|]. rewrite (respond_run fds s1 j RESP_FAIL cj Ej Wj) in E1. ok1 E1. subst y0. cbn. repeat (split; [assumption || reflexivity|]). intros i [= <-]. rewrite set_same. eauto.
    - ok1 E1. subst y0. repeat (split; [assumption || reflexivity|]). discriminate. }
  destruct H2 as (S2 & P2 & E2' & D2 & K2).
  assert (H3 : s_stop y1 = false /\ s_pid y1 = s_pid s /\ s_effects y1 = s_effects s /\ (forall i, s_ctl s = Some i -> exists c, s_conns y1 i = Some c /\ k_write c = true /\ k_wkey c = RESP_FAIL)).
  { rewrite D2 in E2. destruct (s_dmn s) as [j|] eqn:Dj; [|ok1 E2; subst; auto]. destruct (cleanup_spec y0 j y1 E2) as (_ & Hc & _ & _ & _ & Re & _ & Ef). unfold rest in Re. injection Re as _ _ _ _ R5 _ _ R8. split; [congruence|]. split; [congruence|]. split; [congruence|].
    intros i Ki. rewrite Hc. destruct (i =? j)%nat eqn:Q; [|now apply K2]. apply Nat.eqb_eq in Q. subst. destruct (g_dmn s G j Dj). contradiction. }
  destruct H3 as (S3 & P3 & E3 & K3). cbn. rewrite P3, E3. auto 10.
Qed.
(** A daemon that is leaving, be it because the new one told it to, no longer has the new
    daemon killed when it closes its connections. *)
Theorem C51_leaves_the_new_daemon_alone fds sv sd h s i s' :
  set_up fds sv -> always fds sv sd sane init h -> run fds sv sd init h = Ok s -> s_stop s = true -> conn_cleanup s i = Ok s' ->
  s_killed s' = s_killed s /\ s_stop s' = true /\ s_pid s' = 0.
Proof.
  intros Su Sn H St Hc. apply set_up_fds in Su. assert (F := run_full fds sv sd Su h init s (linv_full _ _ _ _ _ (linv_init fds sv sd anything)) Sn H). unfold full in F. rewrite St in F. destruct F as (_ & P0).
  unfold conn_cleanup in Hc. ok1 Hc. ok1 Hc. subst s'. destruct (opt_is (s_ctl s) i); cbn; destruct (opt_is _ i); cbn; rewrite ?P0; cbn; auto.
Qed.
Example C51_witness_leaving : exists s s', go [EAccept None; EAccept None; req 0 REQ_REPL 0; req 1 REQ_TAK1 77; reply_to 1; req 1 REQ_TAKE 77; reply_to 1; req 1 REQ_STOP 0] = Ok s /\
  s_stop s = true /\ s_dmn s = Some 1%nat /\ s_killed s = [] /\ conn_cleanup s 1 = Ok s' /\
  always fds0 0 0 sane init [EAccept None; EAccept None; req 0 REQ_REPL 0; req 1 REQ_TAK1 77; reply_to 1; req 1 REQ_TAKE 77; reply_to 1; req 1 REQ_STOP 0].
Proof. do 2 eexists. split; [vm_compute; reflexivity|]. do 4 (split; [vm_compute; reflexivity|]). history. Qed.
Example C51_witness : exists s s', go [EAccept None; EAccept None; req 0 REQ_REPL 0; req 1 REQ_TAK1 77; reply_to 1; req 1 REQ_TAKE 77; reply_to 1] = Ok s /\
  s_stop s = false /\ s_join s = false /\ s_pid s = 77 /\ s_accept s = false /\ s_ctl s = Some 0%nat /\ s_effects s = [By 0 (DidSpawn 77); By 1 (DidAnnounce 77); By 1 DidSendFds] /\
  always fds0 0 0 sane init [EAccept None; EAccept None; req 0 REQ_REPL 0; req 1 REQ_TAK1 77; reply_to 1; req 1 REQ_TAKE 77; reply_to 1] /\ step fds0 0 0 s (ETimer true) = Ok s'.
Proof. do 2 eexists. split; [vm_compute; reflexivity|]. do 6 (split; [vm_compute; reflexivity|]). split; [history|]. vm_compute. reflexivity. Qed.

Print Assumptions C49_reload_answers.
Print Assumptions C49_waiting_clients.
Print Assumptions C49_data_in_use.
Print Assumptions C49_newer.
Print Assumptions C49_reload_answers_refuted.
Print Assumptions C50_conversations.
Print Assumptions C50_not_stuck.
Print Assumptions C50_never_fails.
Print Assumptions C50_never_fails_refuted.
Print Assumptions C51_only_permitted.
Print Assumptions C51_local_only.
Print Assumptions C51_takeover_rules.
Print Assumptions C51_resumes.
Print Assumptions C51_leaves_the_new_daemon_alone.
