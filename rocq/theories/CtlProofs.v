(** The invariant of the control socket's connections. *)
From Coq Require Import Lia.
From Verif Require Import Base CtlModel CtlSpec.
Local Open Scope N_scope.

Lemma ok_eq {X} (a c : X) : Ok a = Ok c -> a = c. Proof. congruence. Qed.
Lemma rassert_inv {X} b (k : res X) x : rassert b k = Ok x -> b = true /\ k = Ok x.
Proof. destruct b; cbn; intros E; [now split|discriminate]. Qed.
Lemma rbind_inv {X Y} (a : res X) (f : X -> res Y) x : rbind a f = Ok x -> exists y, a = Ok y /\ f y = Ok x.
Proof. destruct a as [y|]; cbn; intros E; [now exists y|discriminate]. Qed.
Lemma rdn_inv {X} (l : list X) off n x : rdn l off n = Ok x -> (off + n <= length l)%nat /\ x = firstn n (skipn off l).
Proof. unfold rdn. destruct (_ <=? _)%nat eqn:E; [|discriminate]. apply Nat.leb_le in E. intros H. now apply ok_eq in H. Qed.

(** One step of taking an [Ok] result apart. *)
Ltac ok1 H :=
  match type of H with
  | rassert _ _ = Ok _ => let A := fresh "A" in apply rassert_inv in H; destruct H as [A H]
  | rbind _ _ = Ok _ => let y := fresh "y" in let E := fresh "E" in apply rbind_inv in H; destruct H as (y & E & H)
  | Ok _ = Ok _ => apply ok_eq in H
  | UB = Ok _ => discriminate H
  end.

Lemma set_same {A} (f : nat -> A) i x : set f i x i = x. Proof. unfold set. now rewrite Nat.eqb_refl. Qed.
Lemma set_other {A} (f : nat -> A) i x j : j <> i -> set f i x j = f j.
Proof. intros N. unfold set. destruct (j =? i)%nat eqn:E; [apply Nat.eqb_eq in E; contradiction|reflexivity]. Qed.
Lemma get_put s i c : get_conn (put_conn s i c) i = Ok c.
Proof. unfold get_conn. cbn. now rewrite set_same. Qed.
Lemma get_some s i c : s_conns s i = Some c -> get_conn s i = Ok c.
Proof. unfold get_conn. now intros ->. Qed.
Lemma opt_is_true o i : opt_is o i = true <-> o = Some i.
Proof. destruct o as [j|]; cbn; [|split; discriminate]. rewrite Nat.eqb_eq. split; [now intros ->|now intros [= ->]]. Qed.

Definition waits (s : css) (j : nat) : bool := existsb (Nat.eqb j) (s_active s ++ s_queued s).
Definition is_ctl (s : css) (j : nat) : bool := opt_is (s_ctl s) j.
Lemma existsb_eqb j l : existsb (Nat.eqb j) l = true <-> In j l.
Proof.
  rewrite existsb_exists. split.
  - intros (x & I & E). apply Nat.eqb_eq in E. now subst.
  - intros I. exists j. split; [exact I|apply Nat.eqb_refl].
Qed.
Lemma existsb_eqb_false j l : existsb (Nat.eqb j) l = false <-> ~ In j l.
Proof. rewrite <- existsb_eqb. destruct (existsb _ l); split; congruence. Qed.

Section Css.
  Variable fds : list N.
  Variables status_v status_d : N.
  Variable R : nat -> N -> Prop.
  Notation exchange := (exchange fds status_v status_d R).
  Notation connection_log := (connection_log fds status_v status_d R).

  (** What is left to happen on an open connection, by its state. *)
  Definition cst (c : conn) (part : list item) (w ctl : bool) : Prop :=
    match k_state c with
    | READING_REQ => part = [] /\ k_read c = true /\ k_write c = false /\ k_data c = None /\ w = false /\ ctl = false
    | READING_DATA =>
        exists t chunks, part = [Got t REQ_CHAL (k_v c) (k_d c)] ++ map GotData chunks /\ k_key c = REQ_CHAL /\ k_data c = Some (concat chunks) /\
          k_size c = N.to_nat (k_d c) /\ k_done c = length (concat chunks) /\ (k_done c < k_size c)%nat /\
          permitted (k_perms c) REQ_CHAL /\ chal_sizes (k_v c) (k_d c) /\ k_read c = true /\ k_write c = false /\ w = false /\ ctl = false
    | WAITING_SERVER =>
        exists t, part = [Got t (k_key c) (k_v c) (k_d c)] /\ permitted (k_perms c) (k_key c) /\ k_data c = None /\ k_read c = false /\ k_write c = false /\
          ((w = true /\ ctl = false /\ k_key c = REQ_ZREL) \/ (w = false /\ ctl = true /\ k_key c = REQ_REPL))
    | WRITING_RESP =>
        k_read c = false /\ k_write c = true /\ w = false /\ ctl = false /\
        match k_data c with
        | None => exchange (k_perms c) (part ++ [Wrote (k_wkey c) (k_wv c) (k_wd c)])
        | Some b => k_size c = length b /\ k_done c = 0%nat /\ b <> [] /\
                    forall chunks, concat chunks = b -> exchange (k_perms c) (part ++ [Wrote (k_wkey c) (k_wv c) (k_wd c)] ++ map WroteData chunks)
        end
    | WRITING_RESP_FDS =>
        k_read c = false /\ k_write c = true /\ w = false /\ ctl = false /\ k_data c = None /\
        exists t v d chunks, part = [Got t REQ_TAKE v d] ++ map (WroteFds RESP_ACK (N.of_nat (length fds)) 0) chunks /\
          k_wkey c = RESP_ACK /\ k_wv c = N.of_nat (length fds) /\ k_wd c = 0 /\ k_size c = length fds /\
          concat chunks = firstn (k_done c) fds /\ (k_done c < k_size c)%nat /\ Forall (fun x => (1 <= length x <= 253)%nat) chunks /\
          permitted (k_perms c) REQ_TAKE
    | WRITING_RESP_DATA =>
        k_read c = false /\ k_write c = true /\ w = false /\ ctl = false /\
        exists b hd chunks, k_data c = Some b /\ k_size c = length b /\ (k_done c < k_size c)%nat /\
          part = hd ++ map WroteData chunks /\ concat chunks = firstn (k_done c) b /\
          forall chunks', concat chunks' = b -> exchange (k_perms c) (hd ++ map WroteData chunks')
    end.
  Definition cok (oc : option conn) (l : list item) (w ctl : bool) : Prop :=
    match oc with
    | None => w = false /\ ctl = false /\ (l = [] \/ connection_log false l)
    | Some c => exists done part, Forall (exchange (k_perms c)) done /\ l = [Opened (k_perms c)] ++ concat done ++ part /\ cst c part w ctl
    end.
  Definition coks (s : css) : Prop := forall j, cok (s_conns s j) (s_log s j) (waits s j) (is_ctl s j).
  Record glob (s : css) : Prop := {
    g_next : forall j, (s_next s <= j)%nat -> s_conns s j = None /\ s_log s j = [];
    g_nodup : NoDup (s_active s ++ s_queued s);
    g_pid0 : s_pid s = 0 -> s_ctl s = None /\ s_dmn s = None /\ s_timer s = false /\ s_accept s = true;
    g_pid1 : s_pid s <> 0 -> s_active s = [] /\ s_queued s = [] /\ s_timer s = true;
    g_dmn : forall j, s_dmn s = Some j -> s_conns s j <> None /\ s_ctl s <> Some j
  }.
  Definition logs (s : css) : Prop := forall j, s_log s j = [] \/ connection_log (match s_conns s j with Some _ => true | None => false end) (s_log s j).
  (** while serving; after a stop only the logs matter *)
  Definition inv (s : css) : Prop := if s_stop s then logs s else coks s /\ glob s.

  Lemma coks_upd s s' i oc l :
    coks s ->
    (forall j, s_conns s' j = if (j =? i)%nat then oc else s_conns s j) ->
    (forall j, s_log s' j = if (j =? i)%nat then l else s_log s j) ->
    (forall j, j <> i -> waits s' j = waits s j) -> (forall j, j <> i -> is_ctl s' j = is_ctl s j) ->
    cok oc l (waits s' i) (is_ctl s' i) -> coks s'.
  Proof.
    intros C Hc Hl Hw Hk H j. rewrite Hc, Hl. destruct (j =? i)%nat eqn:E.
    - apply Nat.eqb_eq in E. now subst.
    - apply Nat.eqb_neq in E. rewrite (Hw j E), (Hk j E). apply C.
  Qed.

  (** A connection's log so far is one that may end here. *)
  Lemma cst_prefix c part w ctl : cst c part w ctl -> length fds <> 0%nat -> exists rest, exchange (k_perms c) (part ++ rest).
  Proof.
    unfold cst. destruct (k_state c); intros H F.
    - destruct H as (-> & _). exists [Got 0 REQ_INFO 0 0; Wrote RESP_ACK status_v status_d]. apply Xinfo. destruct (k_perms c) as [[? ?]|]; cbn; auto.
    - destruct H as (t & chunks & -> & _ & _ & Sz & L & L2 & P & S & _).
      exists (map GotData [repeat 0 (N.to_nat (k_d c) - length (concat chunks))] ++ [Wrote RESP_ACK 0 0]).
      rewrite <- !app_assoc. rewrite (app_assoc (map GotData chunks)), <- map_app.
      apply Xchal; auto; [|cbn; auto]. rewrite concat_app, app_length. cbn. rewrite app_nil_r, repeat_length. lia.
    - destruct H as (t & -> & P & _ & _ & _ & [(_ & _ & K)|(_ & _ & K)]); rewrite K in *; exists [Wrote RESP_LATR 0 0]; cbn [app]; apply Xshort; auto; try discriminate; cbn; auto; congruence.
    - destruct H as (_ & _ & _ & _ & H). destruct (k_data c) as [b|].
      + destruct H as (_ & _ & _ & H). exists ([Wrote (k_wkey c) (k_wv c) (k_wd c)] ++ map WroteData [b]). apply H. cbn. apply app_nil_r.
      + exists [Wrote (k_wkey c) (k_wv c) (k_wd c)]. exact H.
    - destruct H as (_ & _ & _ & _ & _ & t & v & d & chunks & -> & _ & _ & _ & _ & Q & L & A & P).
      exists (map (WroteFds RESP_ACK (N.of_nat (length fds)) 0) (map (fun x => [x]) (skipn (k_done c) fds))).
      rewrite <- app_assoc, <- map_app. apply Xtake; auto.
      + rewrite concat_app, Q. replace (concat (map (fun x => [x]) (skipn (k_done c) fds))) with (skipn (k_done c) fds); [apply firstn_skipn|].
        induction (skipn (k_done c) fds) as [|x l IH]; cbn; [reflexivity|now f_equal].
      + apply Forall_app. split; [exact A|]. apply Forall_forall. intros x I. apply in_map_iff in I. destruct I as (y & <- & _). cbn. lia.
    - destruct H as (_ & _ & _ & _ & b & hd & chunks & _ & _ & L & -> & Q & H).
      exists (map WroteData [skipn (k_done c) b]). rewrite <- app_assoc, <- map_app. apply H. rewrite concat_app, Q. cbn. rewrite app_nil_r. apply firstn_skipn.
  Qed.

  Lemma coks_logs s : length fds <> 0%nat -> coks s -> logs s.
  Proof.
    intros F C j. specialize (C j). unfold cok in C. destruct (s_conns s j) as [c|].
    - right. destruct C as (done & part & D & -> & S). exists (k_perms c), done, part. split; [exact D|]. split; [now rewrite app_nil_r|]. left. now apply (cst_prefix c part _ _ S).
    - now destruct C as (_ & _ & C).
  Qed.

  Lemma cok_closed c l w ctl : length fds <> 0%nat -> cok (Some c) l w ctl -> cok None (l ++ [Closed]) false false.
  Proof.
    intros F (done & part & D & -> & S). split; [reflexivity|]. split; [reflexivity|]. right. exists (k_perms c), done, part.
    split; [exact D|]. split; [now rewrite <- !app_assoc|]. left. now apply (cst_prefix c part _ _ S).
  Qed.

  (** ** The state but for connections *)
  Definition rest (s : css) := (s_now s, s_next s, s_queued s, s_active s, s_pid s, s_timer s, s_accept s, s_stop s).
  Definition zones (s : css) := (s_threads s, s_nthreads s, s_tid s, s_async s, s_join s, s_root s, s_live s, s_ntrees s, s_since s, s_loads s, s_open s, s_nsect s).

  Lemma cleanup_spec s i s' : conn_cleanup s i = Ok s' ->
    (exists c, s_conns s i = Some c) /\
    (forall j, s_conns s' j = if (j =? i)%nat then None else s_conns s j) /\
    (forall j, s_log s' j = if (j =? i)%nat then s_log s i ++ [Closed] else s_log s j) /\
    s_ctl s' = (if opt_is (s_ctl s) i then None else s_ctl s) /\ s_dmn s' = (if opt_is (s_dmn s) i then None else s_dmn s) /\
    rest s' = rest s /\ zones s' = zones s /\ s_effects s' = s_effects s.
  Proof.
    unfold conn_cleanup, get_conn. intros H. destruct (s_conns s i) as [c|] eqn:C; [|discriminate]. cbn [rbind] in H. apply ok_eq in H. subst s'.
    split; [now exists c|]. unfold rest, zones.
    destruct (opt_is (s_ctl s) i) eqn:K; cbn; destruct (opt_is (s_dmn s) i) eqn:D; cbn; try destruct (s_pid s =? 0) eqn:P; cbn; repeat (split; [reflexivity|]); reflexivity.
  Qed.

  Lemma respond_spec s i key v d s' c : s_conns s i = Some c -> respond fds s i key v d None false = Ok s' ->
    k_state c = WAITING_SERVER /\ v <= 16777215 /\ s' = put_conn s i (set_state (set_wbuf c key v d) WRITING_RESP (k_read c) true).
  Proof.
    intros C H. unfold respond in H. rewrite (get_some _ _ _ C) in H. cbn [rbind] in H. ok1 H. ok1 H. ok1 H. apply N.leb_le in A0. subst.
    unfold is_waiting in A. destruct (k_state c); try discriminate A. auto.
  Qed.
  Lemma respond_run s i key c : s_conns s i = Some c -> k_state c = WAITING_SERVER ->
    respond_plain fds s i key = Ok (put_conn s i (set_state (set_wbuf c key 0 0) WRITING_RESP (k_read c) true)).
  Proof. intros C W. unfold respond_plain, respond. rewrite (get_some _ _ _ C). cbn [rbind]. unfold is_waiting. now rewrite W. Qed.

  Definition answered (c : conn) (key : N) : conn := set_state (set_wbuf c key 0 0) WRITING_RESP (k_read c) true.
  Lemma respond_all_spec key l : forall s, NoDup l -> (forall i, In i l -> exists c, s_conns s i = Some c /\ k_state c = WAITING_SERVER) ->
    exists f, respond_all fds s l key = Ok (with_conns s f) /\
      forall j, f j = if existsb (Nat.eqb j) l then match s_conns s j with Some c => Some (answered c key) | None => None end else s_conns s j.
  Proof.
    induction l as [|i l IH]; intros s N W.
    - exists (s_conns s). split; [now destruct s|reflexivity].
    - inversion N as [|? ? NI N']; subst. destruct (W i (or_introl eq_refl)) as (c & C & Wc). cbn [respond_all].
      rewrite (respond_run s i key c C Wc). cbn [rbind].
      destruct (IH (put_conn s i (answered c key)) N') as (f & E & F).
      + intros j I. assert (j <> i) by congruence. cbn. rewrite set_other by assumption. apply W. now right.
      + exists f. split; [exact E|]. intros j. rewrite F. cbn [existsb s_conns put_conn with_conns]. destruct (j =? i)%nat eqn:Q.
        * apply Nat.eqb_eq in Q. subst j. cbn [orb]. rewrite set_same, C. apply existsb_eqb_false in NI. now rewrite NI.
        * cbn [orb]. apply Nat.eqb_neq in Q. rewrite set_other by exact Q. reflexivity.
  Qed.

  Lemma waits_in s j : waits s j = true <-> In j (s_active s) \/ In j (s_queued s).
  Proof. unfold waits. rewrite existsb_eqb. apply in_app_iff. Qed.
  Lemma waiter s j : coks s -> waits s j = true -> exists c t done, s_conns s j = Some c /\ k_state c = WAITING_SERVER /\ k_key c = REQ_ZREL /\ k_data c = None /\ k_read c = false /\
      permitted (k_perms c) REQ_ZREL /\ Forall (exchange (k_perms c)) done /\
      s_log s j = [Opened (k_perms c)] ++ concat done ++ [Got t REQ_ZREL (k_v c) (k_d c)] /\ is_ctl s j = false.
  Proof.
    intros C W. specialize (C j). rewrite W in C. unfold cok in C. destruct (s_conns s j) as [c|]; [|destruct C as (C & _); discriminate].
    destruct C as (done & part & D & L & S). unfold cst in S. destruct (k_state c) eqn:K.
    - destruct S as (_ & _ & _ & _ & S & _). discriminate.
    - destruct S as (t & chunks & _ & _ & _ & _ & _ & _ & _ & _ & _ & _ & S & _). discriminate.
    - destruct S as (t & -> & P & Dt & Rd & Wr & [(_ & Ct & Z)|(Q & _)]); [|discriminate]. rewrite Z in *. exists c, t, done. auto 10.
    - destruct S as (_ & _ & S & _). discriminate.
    - destruct S as (_ & _ & S & _). discriminate.
    - destruct S as (_ & _ & S & _). discriminate.
  Qed.
  Lemma controller s j : coks s -> is_ctl s j = true -> exists c t done, s_conns s j = Some c /\ k_state c = WAITING_SERVER /\ k_key c = REQ_REPL /\ k_data c = None /\ k_read c = false /\
      permitted (k_perms c) REQ_REPL /\ Forall (exchange (k_perms c)) done /\
      s_log s j = [Opened (k_perms c)] ++ concat done ++ [Got t REQ_REPL (k_v c) (k_d c)] /\ waits s j = false.
  Proof.
    intros C W. specialize (C j). rewrite W in C. unfold cok in C. destruct (s_conns s j) as [c|]; [|destruct C as (_ & C & _); discriminate].
    destruct C as (done & part & D & L & S). unfold cst in S. destruct (k_state c) eqn:K.
    - destruct S as (_ & _ & _ & _ & _ & S). discriminate.
    - destruct S as (t & chunks & _ & _ & _ & _ & _ & _ & _ & _ & _ & _ & _ & S). discriminate.
    - destruct S as (t & -> & P & Dt & Rd & Wr & [(_ & Q & _)|(Wt & _ & Z)]); [discriminate|]. rewrite Z in *. exists c, t, done. auto 10.
    - destruct S as (_ & _ & _ & S & _). discriminate.
    - destruct S as (_ & _ & _ & S & _). discriminate.
    - destruct S as (_ & _ & _ & S & _). discriminate.
  Qed.
  (** a connection whose events we get is not in a queue *)
  Lemma watched s j c : coks s -> s_conns s j = Some c -> k_read c = true \/ k_write c = true -> waits s j = false /\ is_ctl s j = false.
  Proof.
    intros C E W. specialize (C j). rewrite E in C. destruct C as (done & part & _ & _ & S). unfold cst in S. destruct (k_state c).
    - tauto.
    - destruct S as (t & chunks & S). tauto.
    - destruct S as (t & _ & _ & _ & A & B & _). destruct W; congruence.
    - tauto.
    - tauto.
    - tauto.
  Qed.

  (** The waiting clients of a list are all answered. *)
  Lemma answer_waiters s s' l key :
    coks s -> (forall j, In j l -> waits s j = true) ->
    (forall t, key <> RESP_LATR -> (exists j v d a, In j l /\ s_log s j = a ++ [Got t REQ_ZREL v d]) -> R t key) -> In key [RESP_ACK; RESP_FAIL; RESP_LATR] ->
    (forall j, s_conns s' j = if existsb (Nat.eqb j) l then match s_conns s j with Some c => Some (answered c key) | None => None end else s_conns s j) ->
    (forall j, s_log s' j = s_log s j) -> (forall j, In j l -> waits s' j = false) -> (forall j, ~ In j l -> waits s' j = waits s j) -> (forall j, is_ctl s' j = is_ctl s j) -> coks s'.
  Proof.
    intros C W HR K Hc Hl Hw Hn Hk j. rewrite Hc, Hl, Hk. destruct (existsb (Nat.eqb j) l) eqn:E.
    - apply existsb_eqb in E. destruct (waiter s j C (W j E)) as (c & t & done & Ec & Wc & Z & Dt & Rd & P & D & L & Ct). rewrite Ec, (Hw j E), Ct.
      exists done, [Got t REQ_ZREL (k_v c) (k_d c)]. split; [exact D|]. split; [exact L|]. unfold cst. cbn. rewrite Dt, Rd. repeat (split; [reflexivity|]).
      apply Xshort; [exact P|discriminate|exact K|]. intros _ NL. apply HR; [exact NL|]. exists j, (k_v c), (k_d c), ([Opened (k_perms c)] ++ concat done). rewrite <- app_assoc. auto.
    - apply existsb_eqb_false in E. rewrite (Hn j E). apply C.
  Qed.
End Css.
