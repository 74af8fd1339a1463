(** C35: ACME challenges. *)
From Verif Require Import Base DnameModel DnameSpec DnameProofs DnameProofs2 DnameProps CompModel RespModel RespSpec ChalModel ChalSpec ChalProofs ChalProofs2 ChalProofs3 ChalProofs4 ChalProofs5 ChalProofs6.
Local Open Scope nat_scope.

(** In every schedule of requests, timer events and queries, no thread touches freed memory, and
    what clients see is what the abstract service does. *)
Theorem C35_served_exactly : forall hash ttl dns_ttl n es, Forall ev_ok es ->
  exists s os a, steps hash ttl dns_ttl (start n) es = Ok (s, os) /\ asteps hash ttl dns_ttl (astart n) es os a.
Proof.
  intros hash ttl dns_ttl n es H. destruct (sim_steps hash ttl dns_ttl es _ _ (sim_start hash dns_ttl n) H) as (s & os & a & E & A & _). eauto.
Qed.
Print Assumptions C35_served_exactly.

(** No answer has more than 201 challenges. *)
Theorem C35_at_most_201 : forall hash ttl dns_ttl n es s os acme rrs, Forall ev_ok es ->
  steps hash ttl dns_ttl (start n) es = Ok (s, os) -> In (OFound acme rrs) os -> length rrs <= 201.
Proof.
  intros hash ttl dns_ttl n es s os acme rrs H E Hi. destruct (C35_served_exactly hash ttl dns_ttl n es H) as (s' & os' & a & E' & A).
  rewrite E in E'. injection E' as -> ->. assert (X := cap_run hash ttl dns_ttl _ _ _ _ A (cap_start n)).
  rewrite Forall_forall in X. exact (X _ Hi).
Qed.
Print Assumptions C35_at_most_201.

(** ** One run split in two *)
Lemma steps_cons hash ttl dns_ttl s e es : steps hash ttl dns_ttl s (e :: es) =
  do (s, o) <- step hash ttl dns_ttl s e; do (s, os) <- steps hash ttl dns_ttl s es; Ok (s, o :: os).
Proof. reflexivity. Qed.
Lemma steps_app hash ttl dns_ttl es1 : forall s es2, steps hash ttl dns_ttl s (es1 ++ es2) =
  do (s1, o1) <- steps hash ttl dns_ttl s es1; do (s2, o2) <- steps hash ttl dns_ttl s1 es2; Ok (s2, o1 ++ o2).
Proof.
  induction es1 as [|e es1 IH]; intros s es2; cbn [app steps].
  - cbn [rbind]. destruct (steps hash ttl dns_ttl s es2) as [[? ?]|]; reflexivity.
  - destruct (step hash ttl dns_ttl s e) as [[s1 o]|]; [|reflexivity]. cbn [rbind]. rewrite IH.
    destruct (steps hash ttl dns_ttl s1 es1) as [[s2 o2]|]; [|reflexivity]. cbn [rbind].
    destruct (steps hash ttl dns_ttl s2 es2) as [[s3 o3]|]; reflexivity.
Qed.

Lemma reach hash ttl dns_ttl n es s os : Forall ev_ok es -> steps hash ttl dns_ttl (start n) es = Ok (s, os) ->
  exists a, asteps hash ttl dns_ttl (astart n) es os a /\ sim hash dns_ttl s a /\ tight s.
Proof.
  intros H E. destruct (sim_steps hash ttl dns_ttl es _ _ (sim_start hash dns_ttl n) H) as (s' & os' & a & E' & A & M).
  rewrite E in E'. injection E' as <- <-. exists a. split; [exact A|]. split; [exact M|]. exact (tight_steps hash ttl dns_ttl es _ _ _ _ (sim_start hash dns_ttl n) (tight_start n) H E).
Qed.

(** Where the live challenges come from *)
Lemma provenance hash ttl dns_ttl a es os a' : asteps hash ttl dns_ttl a es os a' ->
  forall x, In x (live a') -> In x (live a) \/ exists t count data, In (ECreate t count data) es /\
    legal_request count data (a_chals x) /\ a_until x = (t + 1000 * Z.of_N ttl)%Z.
Proof.
  induction 1 as [|a e o a1 es os a2 St _ IH]; intros x Hx; auto.
  destruct (IH x Hx) as [H1|(t & count & data & H1 & H2 & H3)]; [|right; exists t, count, data; split; [now right|auto]].
  destruct St; cbn [live] in H1; auto.
  - apply in_app_iff in H1 as [H1|[<-|[]]]; auto. right. exists now, count, data. split; [now left|]. auto.
  - left. match goal with E : live a = _ |- _ => rewrite E end. apply in_app_iff. auto.
  - destruct H1.
Qed.

Lemma in_all c l : In c (all_chals l) <-> exists x, In x l /\ In c (a_chals x).
Proof. unfold all_chals. apply in_flat_map. Qed.
Lemma in_answers dns_ttl rr l n : In rr (answers dns_ttl l n) <-> exists c, In c l /\ a_name c = n /\ rr = txt_rr dns_ttl c.
Proof.
  unfold answers. rewrite in_map_iff. split.
  - intros (c & <- & H). apply filter_In in H as [H1 H2]. exists c. unfold same_name in H2. destruct (list_eq_dec _ (a_name c) n); [auto|discriminate].
  - intros (c & H1 & H2 & ->). exists c. split; auto. apply filter_In. split; auto. unfold same_name. destruct (list_eq_dec _ (a_name c) n); auto.
Qed.

Lemma look_inv hash ttl dns_ttl a r q o a' : astep hash ttl dns_ttl a (RLook r q) o a' -> a' = a /\
  ((exists v n, nth_error (views a) r = Some (Some v) /\ struct_name n /\ q = dname n true /\
      o = OFound (fst (chal_q n)) (answers dns_ttl (all_chals v) (snd (chal_q n)))) \/
   (forall v, nth_error (views a) r <> Some (Some v)) /\ o = ONone).
Proof.
  intros St. remember (RLook r q) as e eqn:Ee. destruct St; subst; try discriminate; try contradiction; injection Ee as <- <-; split; auto.
  left. exists v, n. auto.
Qed.
Lemma dname_inj a b : struct_name a -> struct_name b -> dname a true = dname b true -> a = b.
Proof.
  intros [Y _] [Y' _] X. rewrite !dname_unfold in X. injection X as _ X.
  now destruct (wire_inj _ _ _ _ Y Y' (term_cases true) (term_cases true) _ _ X).
Qed.

(** a thread that begins now and looks [m] up *)
Lemma fresh_look hash ttl dns_ttl s a r m : sim hash dns_ttl s a -> nth_error (rds s) r = Some None -> struct_name m ->
  exists s', steps hash ttl dns_ttl s [RBegin r; RLook r (dname m true)] =
    Ok (s', [ONone; OFound (fst (chal_q m)) (answers dns_ttl (all_chals (live a)) (snd (chal_q m)))]).
Proof.
  intros M Hr Hm. destruct (sim_steps hash ttl dns_ttl [RBegin r; RLook r (dname m true)] s a M) as (s' & os & a' & E & A & _).
  { constructor; [exact I|constructor; [|constructor]]. cbn. eauto. }
  assert (R := m_rds _ _ _ _ M r). rewrite Hr in R. unfold rrel in R. destruct (nth_error (views a) r) as [[v|]|] eqn:Ev; try contradiction.
  inversion A as [|? ? ? a1 ? ? ? S1 A1]; subst. inversion A1 as [|? ? ? a2 ? ? ? S2 A2]; subst. inversion A2; subst.
  inversion S1; subst; try contradiction; try congruence. cbn [views live] in *.
  assert (Lv : r < length (views a)) by (apply nth_error_Some; congruence).
  apply look_inv in S2 as [-> [(v & m' & Hv & Hm' & Eq & ->)|[Hv _]]]; cbn [views] in Hv.
  - apply dname_inj in Eq; auto. subst m'. rewrite nth_error_upd_eq in Hv by auto. injection Hv as <-. eauto.
  - exfalso. apply (Hv (live a)). now rewrite nth_error_upd_eq.
Qed.

(** An accepted request can be seen at once and until 3.2 s before its time is up, unless flushed. *)
Theorem C35_available : forall hash ttl dns_ttl n es1 t count data es2 s os r m cs c,
  Forall ev_ok es1 -> all_bytes data -> Forall ev_ok es2 ->
  steps hash ttl dns_ttl (start n) (es1 ++ ECreate t count data :: es2) = Ok (s, os) ->
  nth_error os (length es1) = Some (OAdded false) -> legal_request count data cs ->
  ~ In EFlush es2 -> (forall t', In (ETimer t') es2 -> (t' + 3200 < t + 1000 * Z.of_N ttl)%Z) ->
  nth_error (rds s) r = Some None -> struct_name m -> In c cs -> a_name c = snd (chal_q m) ->
  exists s' rrs, steps hash ttl dns_ttl s [RBegin r; RLook r (dname m true)] = Ok (s', [ONone; OFound (fst (chal_q m)) rrs]) /\
    In (txt_rr dns_ttl c) rrs.
Proof.
  intros hash ttl dns_ttl n es1 t count data es2 s os r m cs c F1 Hb F2 E Ho Hleg Hf Ht Hr Hm Hc Hn.
  rewrite steps_app in E. destruct (steps hash ttl dns_ttl (start n) es1) as [[s1 os1]|] eqn:E1; [|discriminate]. cbn [rbind] in E.
  destruct (reach _ _ _ _ _ _ _ F1 E1) as (a1 & A1 & M1 & _).
  assert (L1 : length os1 = length es1).
  { clear -A1. induction A1; cbn; auto. }
  destruct (sim_step hash ttl dns_ttl s1 a1 (ECreate t count data) M1 Hb) as (s2 & o & a2 & E2 & St & M2).
  cbn [steps] in E. rewrite E2 in E. cbn [rbind] in E.
  destruct (sim_steps hash ttl dns_ttl es2 s2 a2 M2 F2) as (s3 & os3 & a3 & E3 & A3 & M3). rewrite E3 in E. cbn [rbind] in E. injection E as <- <-.
  rewrite nth_error_app2, <- L1, Nat.sub_diag in Ho by lia. cbn in Ho. injection Ho as ->.
  destruct (fresh_look hash ttl dns_ttl s3 a3 r m M3 Hr Hm) as (s' & E'). exists s'. eexists. split; [exact E'|].
  apply in_answers. exists c. split; [|auto]. apply in_all. inversion St; subst.
  match goal with X : legal_request count data ?cs0 |- _ => assert (cs0 = cs) as -> by
    (destruct X as (X1 & X2 & _), Hleg as (Y1 & Y2 & _); apply request_unique with data; auto; congruence) end.
  exists {| a_until := t + 1000 * Z.of_N ttl; a_chals := cs |}. split; [|exact Hc]. eapply (stays hash ttl dns_ttl); [exact A3| |exact Hf|exact Ht].
  cbn [live]. apply in_app_iff. right. now left.
Qed.
Print Assumptions C35_available.

(** Once the clock has been looked at, only challenges whose time is not up are seen: everything
    answered was asked for less than [ttl] seconds ago, under the name that is looked up. *)
Theorem C35_gone_in_time : forall hash ttl dns_ttl n t0 es s os now r m,
  Forall ev_ok es -> steps hash ttl dns_ttl (start n) es = Ok (s, os) -> clock t0 es -> pn s = Idle ->
  nth_error (rds s) r = Some None -> struct_name m ->
  exists s' rrs, steps hash ttl dns_ttl s [ETimer now; RBegin r; RLook r (dname m true)] = Ok (s', [ONone; ONone; OFound (fst (chal_q m)) rrs]) /\
    forall rr, In rr rrs -> exists t count data cs c, In (ECreate t count data) es /\ legal_request count data cs /\ In c cs /\
      a_name c = snd (chal_q m) /\ rr = txt_rr dns_ttl c /\ (now < t + 1000 * Z.of_N ttl)%Z.
Proof.
  intros hash ttl dns_ttl n t0 es s os now r m F E C P Hr Hm.
  destruct (reach _ _ _ _ _ _ _ F E) as (a & A & M & _).
  destruct (timed_run hash ttl dns_ttl _ _ _ _ A t0 C) as (T & Ti). { split; [constructor|]. split; [constructor|reflexivity]. }
  destruct (sim_step hash ttl dns_ttl s a (ETimer now) M I) as (s1 & o & a1 & E1 & St & M1).
  assert (Er : rds s1 = rds s /\ o = ONone).
  { unfold step in E1. rewrite P in E1. destruct (timer (st s)) as [d|]; [|injection E1 as <- <-; auto]. destruct (d <=? now)%Z; [|injection E1 as <- <-; auto].
    destruct (cset_expire (st s) now) as [[? ?]|]; [|discriminate]. injection E1 as <- <-. auto. }
  destruct Er as [Er ->]. destruct (fresh_look hash ttl dns_ttl s1 a1 r m M1 ltac:(now rewrite Er) Hm) as (s' & E').
  exists s'. eexists. rewrite steps_cons, E1. cbn [rbind]. rewrite E'. cbn [rbind]. split; [reflexivity|].
  intros rr Hi. apply in_answers in Hi as (c & Hc & Hn & ->). apply in_all in Hc as (x & Hx & Hc).
  assert (B : busy a = false) by (rewrite (m_busy _ _ _ _ M), P; reflexivity).
  assert (Hnow := timed_tick hash ttl dns_ttl T a now _ a1 Ti B St). rewrite Forall_forall in Hnow. specialize (Hnow x Hx).
  assert (Hx0 : In x (live a)).
  { inversion St; subst; auto; try congruence. cbn [live] in Hx. match goal with X : live a = _ |- _ => rewrite X end. apply in_app_iff. auto. }
  destruct (provenance _ _ _ _ _ _ _ A x Hx0) as [[]|(t & count & data & H1 & H2 & H3)].
  exists t, count, data, (a_chals x), c. rewrite H3 in Hnow. auto 10.
Qed.
Print Assumptions C35_gone_in_time.

(** After a flush, threads that begin to look see nothing. *)
Theorem C35_flush_removes_all : forall hash ttl dns_ttl n es s os r m,
  Forall ev_ok es -> steps hash ttl dns_ttl (start n) es = Ok (s, os) -> pn s = Idle -> nth_error (rds s) r = Some None -> struct_name m ->
  exists s', steps hash ttl dns_ttl s [EFlush; RBegin r; RLook r (dname m true)] = Ok (s', [ONone; ONone; OFound (fst (chal_q m)) []]).
Proof.
  intros hash ttl dns_ttl n es s os r m F E P Hr Hm. destruct (reach _ _ _ _ _ _ _ F E) as (a & A & M & _).
  destruct (sim_step hash ttl dns_ttl s a EFlush M I) as (s1 & o & a1 & E1 & St & M1).
  assert (B : busy a = false) by (rewrite (m_busy _ _ _ _ M), P; reflexivity).
  assert (Er : rds s1 = rds s /\ o = ONone) by (unfold step in E1; rewrite P in E1; injection E1 as <- <-; auto).
  destruct Er as [Er ->]. destruct (fresh_look hash ttl dns_ttl s1 a1 r m M1 ltac:(now rewrite Er) Hm) as (s' & E').
  exists s'. rewrite steps_cons, E1. cbn [rbind]. rewrite E'. cbn [rbind]. inversion St; subst; [congruence|]. reflexivity.
Qed.
Print Assumptions C35_flush_removes_all.

(** A thread sees the same challenges throughout one query, whatever happens meanwhile. *)
Theorem C35_one_view_per_query : forall hash ttl dns_ttl n es s os r m mid s' o1 os2 o2,
  Forall ev_ok es -> steps hash ttl dns_ttl (start n) es = Ok (s, os) -> Forall ev_ok mid -> ~ In (REnd r) mid -> struct_name m ->
  nth_error (rds s) r <> Some None ->
  steps hash ttl dns_ttl s (RLook r (dname m true) :: mid ++ [RLook r (dname m true)]) = Ok (s', o1 :: os2 ++ [o2]) -> o1 = o2.
Proof.
  intros hash ttl dns_ttl n es s os r m mid s' o1 os2 o2 F E Fm Hm Hn Hnr E'. destruct (reach _ _ _ _ _ _ _ F E) as (a & A & M & _).
  assert (Hl : ev_ok (RLook r (dname m true))) by (cbn; eauto).
  destruct (sim_step hash ttl dns_ttl s a _ M Hl) as (s1 & p1 & a1 & E1 & St1 & M1).
  destruct (sim_steps hash ttl dns_ttl mid s1 a1 M1 Fm) as (s2 & p2 & a2 & E2 & A2 & M2).
  destruct (sim_step hash ttl dns_ttl s2 a2 _ M2 Hl) as (s3 & p3 & a3 & E3 & St3 & M3).
  cbn [steps] in E'. rewrite E1 in E'. cbn [rbind] in E'. rewrite steps_app, E2 in E'. cbn [rbind steps] in E'. rewrite E3 in E'. cbn [rbind] in E'.
  injection E' as _ <- E'. apply app_inj_tail in E' as [_ <-].
  assert (V1 : a1 = a) by (now apply look_inv in St1). subst a1.
  assert (V : nth_error (views a2) r = nth_error (views a) r).
  { assert (R := m_rds _ _ _ _ M r). assert (Hn0 : nth_error (views a) r <> Some None).
    { intros X. rewrite X in R. unfold rrel in R. destruct (nth_error (rds s) r) as [[?|]|]; try contradiction; congruence. }
    clear -A2 Hm Hn0. induction A2 as [|a e o a1 es os a2 St _ IH]; auto.
    assert (Hv : nth_error (views a1) r = nth_error (views a) r).
    { destruct St; cbn [views]; auto.
      - destruct (Nat.eq_dec r0 r) as [->|]; [contradiction|]. now rewrite nth_error_upd_neq.
      - destruct (Nat.eq_dec r0 r) as [->|]; [exfalso; apply Hm; now left|]. now rewrite nth_error_upd_neq. }
    rewrite IH; auto. - intros X. apply Hm. now right. - now rewrite Hv. }
  apply look_inv in St1 as [_ [(v1 & n1 & Hv1 & Hn1 & Eq1 & ->)|[Hv1 ->]]]; apply look_inv in St3 as [_ [(v2 & n2 & Hv2 & Hn2 & Eq2 & ->)|[Hv2 ->]]]; auto.
  - rewrite V, Hv1 in Hv2. injection Hv2 as <-. apply dname_inj in Eq1, Eq2; auto. now subst.
  - exfalso. apply (Hv2 v1). now rewrite V.
  - exfalso. apply (Hv1 v2). now rewrite <- V.
Qed.
Print Assumptions C35_one_view_per_query.

(** When the main thread is done, nothing is allocated but the live sets and the current table. *)
Theorem C35_nothing_leaks : forall hash ttl dns_ttl n es s os, Forall ev_ok es ->
  steps hash ttl dns_ttl (start n) es = Ok (s, os) -> pn s = Idle ->
  (forall i, is_ok (get_set (st s) i) <-> In i (oldest (st s))) /\ (forall i, is_ok (get_tbl (st s) i) <-> cur (st s) = Some i).
Proof.
  intros hash ttl dns_ttl n es s os F E P. destruct (reach _ _ _ _ _ _ _ F E) as (a & A & M & G). destruct G as [G1 G2 _]. rewrite P in *. cbn in *.
  split; intros i; split.
  - apply G1.
  - intros Hi. assert (X := sets_at_ok _ _ _ (m_live _ _ _ _ M)). rewrite Forall_forall in X. auto.
  - intros Hi. destruct (G2 i Hi) as [X|X]; [auto|discriminate].
  - intros Hi. assert (X := m_cur _ _ _ _ M). rewrite Hi in X. destruct X as (t & Et & _). exists t. exact Et.
Qed.
Print Assumptions C35_nothing_leaks.

(** Once no thread is looking, the main thread needs at most four steps to be ready again. *)
Theorem C35_main_thread_gets_on : forall hash ttl dns_ttl n es s os, Forall ev_ok es ->
  steps hash ttl dns_ttl (start n) es = Ok (s, os) -> (forall r h, nth_error (rds s) r <> Some (Some h)) ->
  exists k s' os', k <= 4 /\ steps hash ttl dns_ttl s (repeat EMain k) = Ok (s', os') /\ pn s' = Idle.
Proof.
  intros hash ttl dns_ttl n es s os F E Hr. destruct (reach _ _ _ _ _ _ _ F E) as (a & A & M & G). eapply main_done; eauto.
Qed.
Print Assumptions C35_main_thread_gets_on.

Lemma few_not_crowded hash cs : length cs <= 201 -> ~ crowded hash cs.
Proof.
  intros H (k & j & _ & Hc). cbv zeta in Hc. 
  assert (X : forall (p : achal -> bool) l, length (filter p l) <= length l).
  { intros p l. induction l as [|x l IH]; cbn; auto. destruct (p x); cbn; lia. }
  specialize (X (fun c => (((hash (wire_labels (a_name c)) mod 2 ^ 32) mod 2 ^ k =? j)%N)) cs). lia.
Qed.

(** the number of challenges in all requests *)
Definition asked (es : list ev) : nat := list_sum (map (fun e => match e with ECreate _ count _ => count | _ => 0 end) es).
Lemma live_asked hash ttl dns_ttl a es os a' : asteps hash ttl dns_ttl a es os a' ->
  length (all_chals (live a')) <= length (all_chals (live a)) + asked es.
Proof.
  induction 1 as [|a e o a1 es os a2 St _ IH]; [cbn; lia|]. unfold asked in *. cbn [map list_sum fold_right].
  change (fold_right Nat.add 0 ?l) with (list_sum l) in *. set (k := list_sum _) in *.
  destruct St; cbn [live] in *; try lia.
  - unfold all_chals in *. rewrite flat_map_app, app_length in IH. cbn [flat_map a_chals] in IH. rewrite app_nil_r in IH.
    match goal with X : legal_request _ _ _ |- _ => destruct X as (_ & X & _) end. lia.
  - match goal with X : live a = _ |- _ => rewrite X end. unfold all_chals in *. rewrite flat_map_app, app_length. lia.
  - cbn in IH. lia.
Qed.

(** Until 201 challenges have been asked for, no legal request is refused when the main thread is ready. *)
Theorem C35_few_are_never_refused : forall hash ttl dns_ttl n es s os now count data cs,
  Forall ev_ok es -> steps hash ttl dns_ttl (start n) es = Ok (s, os) -> pn s = Idle ->
  all_bytes data -> legal_request count data cs -> asked es + count <= 201 ->
  exists s', step hash ttl dns_ttl s (ECreate now count data) = Ok (s', OAdded false).
Proof.
  intros hash ttl dns_ttl n es s os now count data cs F E P Hb Hl L. destruct (reach _ _ _ _ _ _ _ F E) as (a & A & M & _).
  destruct (sim_step hash ttl dns_ttl s a (ECreate now count data) M Hb) as (s1 & o & a1 & E1 & St & M1). exists s1. rewrite E1.
  assert (B : busy a = false) by (rewrite (m_busy _ _ _ _ M), P; reflexivity).
  assert (La := live_asked _ _ _ _ _ _ _ A). cbn [live astart all_chals flat_map length] in La.
  inversion St; subst; auto; try congruence.
  - exfalso. match goal with X : forall cs, ~ legal_request _ _ cs |- _ => now apply (X cs) end.
  - exfalso. match goal with X : crowded _ _, Y : legal_request _ _ ?cs0 |- _ => revert X; apply few_not_crowded; destruct Y as (_ & Y & _) end.
    rewrite app_length. lia.
Qed.
Print Assumptions C35_few_are_never_refused.

Lemma set_list_ok g ids ss : sets_at g ids ss -> set_list g ids = Ok ss.
Proof. induction 1 as [|i s ids ss E _ IH]; cbn; auto. rewrite E. cbn [rbind]. rewrite IH. reflexivity. Qed.

Lemma filter_len {A} (p : A -> bool) l : length (filter p l) <= length l.
Proof. induction l as [|x l IH]; cbn; auto. destruct (p x); cbn; lia. Qed.

(** A daemon that takes over starts with the challenges that had more than 3.2 s left, each for the
    whole seconds it had left, and serves them; it fails only if too many fall into one bucket,
    never with at most 201 in all.  The first expiry is due after its own [ttl']. *)
Theorem C35_handed_over : forall hash ttl dns_ttl n es s os now ttl' dns_ttl' now',
  Forall ev_ok es -> steps hash ttl dns_ttl (start n) es = Ok (s, os) -> (1 <= ttl <= 65535)%N -> (length (oldest (st s)) <= N.to_nat 150000)%nat ->
  exists a sl rv used ct r,
    asteps hash ttl dns_ttl (astart n) es os a /\
    set_list (st s) (oldest (st s)) = Ok sl /\ csets_serialize ttl now sl [] 0 0 = Ok (rv, used, ct) /\
    import hash ttl' dns_ttl' (N.to_nat ct) g0 now' (firstn used rv) 0 = Ok r /\
    let l := handed now (live a) in
    match r with
    | None => 201 < length (all_chals l) /\ exists l1 x l2, l = l1 ++ x :: l2 /\ crowded hash (all_chals l1 ++ a_chals x)
    | Some g' => forall m es', Forall ev_ok es' -> exists s2 os2 a2,
        steps hash ttl' dns_ttl' {| st := g'; pn := Idle; rds := repeat None m |} es' = Ok (s2, os2) /\
        asteps hash ttl' dns_ttl' {| live := map (taken ttl ttl' now now') l;
            due := match l with [] => None | _ => Some (now' + 1000 * Z.of_N ttl')%Z end; busy := false; views := repeat None m |} es' os2 a2
    end.
Proof.
  intros hash ttl dns_ttl n es s os now ttl' dns_ttl' now' F E Ht Hlen. destruct (reach _ _ _ _ _ _ _ F E) as (a & A & M & _).
  assert (Hl := m_live _ _ _ _ M). assert (Hok := m_ok _ _ _ _ M).
  assert (Ll : length (oldest (st s)) = length (live a)) by (apply Forall2_len in Hl; now rewrite map_length in Hl).
  assert (Hlen' : (N.of_nat (length (live a)) <= 150000)%N) by (clear -Hlen Ll; lia). clear Hlen Ll.
  exists a. exists (map (mkset hash dns_ttl) (live a)).
  destruct (csets_serialize_ok hash ttl dns_ttl now (live a) Ht [] 0 0%N Hok) as (rv & Es & Ef & El); [cbn; lia|lia|lia|].
  cbn [Nat.add] in *. rewrite firstn_nil in Ef. cbn [app] in Ef.
  set (h := handed now (live a)) in *.
  assert (Hh : Forall ok_set h /\ Forall (fun x => (now + 3200 < a_until x)%Z) h).
  { split; apply Forall_forall; intros x Hx; unfold h, handed in Hx; apply filter_In in Hx as [Hx1 Hx2]; [|now apply Z.ltb_lt].
    rewrite Forall_forall in Hok. auto. }
  destruct Hh as [Hh1 Hh2].
  destruct (import_ok hash ttl ttl' dns_ttl' now now' Ht h g0 [] [] Hh1 Hh2 (rest_g0 hash dns_ttl')) as (r & Ei & Hr).
  cbn [app length] in Ei, Hr.
  exists rv, (length (stream ttl now h)), (0 + N.of_nat (length h))%N, r.
  split; [exact A|]. split; [now apply set_list_ok|]. split; [exact Es|]. split; [rewrite Ef; rewrite N.add_0_l, Nat2N.id; exact Ei|].
  cbv zeta. destruct r as [g'|].
  - intros m es' F'. destruct Hr as [Rg Etm].
    destruct (sim_steps hash ttl' dns_ttl' es' _ _ (rest_sim hash dns_ttl' g' _ m Rg) F') as (s2 & os2 & a2 & E2 & A2 & _).
    exists s2, os2, a2. split; [exact E2|]. rewrite Etm in A2. cbn [oldest timer g0] in A2. destruct h; exact A2.
  - destruct Hr as (l1 & x & l2 & Eh & Hc). cbn [all_chals flat_map app] in Hc. split; [|eauto].
    destruct (le_lt_dec (length (all_chals h)) 201) as [L|L]; auto. exfalso. revert Hc. apply few_not_crowded.
    rewrite Eh in L. unfold all_chals in *. rewrite flat_map_app in L. cbn [flat_map] in L. rewrite !app_length in L. rewrite app_length. lia.
Qed.
Print Assumptions C35_handed_over.

(** ** Witnesses *)
Definition w_hash (b : bytes) : N := fold_left (fun h x => (h * 33 + x) mod 4294967296)%N b 5381%N.
Definition w_name : list (list N) := [[119; 119]; [111; 114; 103]]%N.                 (* ww.org *)
Definition w_chal (k : N) : achal := {| a_name := w_name; a_text := repeat k 43 |}.
Definition w_data : bytes := dname w_name false ++ repeat 97%N 43 ++ [7]%N ++ dname w_name true ++ repeat 98%N 43 ++ [0]%N.
Definition w_q : bytes := dname (acme :: w_name) true.
(** thread 0 looks during the flush, thread 1 afterwards *)
Definition w_run : list ev :=
  [ECreate 1000 2 w_data; EMain; EMain; EMain; EMain; RBegin 0; RLook 0 w_q; EFlush; EMain; EMain; RLook 0 w_q;
   RBegin 1; RLook 1 w_q; REnd 0; EMain; EMain; EMain; RLook 1 w_q; ECreate 2000 1 w_data; ETimer 601000].

Example C35_witness :
  legal_request 2 w_data [w_chal 97; w_chal 98] /\ Forall ev_ok w_run /\ clock 0 w_run /\
  (exists s, steps w_hash 600 10 (start 2) w_run = Ok (s,
    [OAdded false; ONone; ONone; ONone; ONone; ONone; OFound true (map (txt_rr 10) [w_chal 97; w_chal 98]); ONone; ONone; ONone;
     OFound true (map (txt_rr 10) [w_chal 97; w_chal 98]); ONone; OFound true []; ONone; ONone; ONone; ONone; OFound true []; OAdded true; ONone])
    /\ pn s = Idle) /\
  (exists s os, steps w_hash 600 10 (start 2) (firstn 5 w_run) = Ok (s, os) /\ pn s = Idle /\ length (oldest (st s)) = 1).
Proof.
  assert (Hs : struct_name w_name) by (split; [unfold w_name; repeat (apply Forall_cons; [split; apply Nat.leb_le; reflexivity|]); apply Forall_nil|apply Nat.leb_le; reflexivity]).
  assert (Hq : struct_name (acme :: w_name)) by (split; [unfold w_name; repeat (apply Forall_cons; [split; apply Nat.leb_le; reflexivity|]); apply Forall_nil|apply Nat.leb_le; reflexivity]).
  assert (Hd : all_bytes w_data) by (repeat constructor).
  split; [|split; [|split; [|split]]].
  - split; [|split; [reflexivity|split; [lia|]]].
    + unfold w_data, w_chal. apply (rq_cons w_name false (repeat 97%N 43) 7%N [w_chal 98]); [exact Hs|reflexivity|].
      apply (rq_cons w_name true (repeat 98%N 43) 0%N []); [exact Hs|reflexivity|]. constructor.
    + apply Nat.leb_le. vm_compute. reflexivity.
  - repeat (constructor; [cbn; first [exact I | exact Hd | exists (acme :: w_name); split; [exact Hq|reflexivity]]|]). constructor.
  - cbn. lia.
  - eexists. split; [vm_compute; reflexivity|reflexivity].
  - eexists _, _. split; [vm_compute; reflexivity|]. split; reflexivity.
Qed.

(** A challenge handed over with five seconds left is still answered a minute later: the first timer
    of the new daemon is set to its own [ttl'], not to the time the oldest challenge has left. *)
Definition w_handed : bytes := h16 (N.of_nat (length w_data)) ++ h16 5 ++ [2]%N ++ w_data.
Theorem C35_handed_over_expiry_refuted :
  ~ (forall hash ttl' dns_ttl' count dlen remain d g' now s os,
      import hash ttl' dns_ttl' 1 g0 0 (h16 dlen ++ h16 remain ++ [count] ++ d) 0 = Ok (Some g') ->
      (1000 * Z.of_N remain < now)%Z ->
      steps hash ttl' dns_ttl' {| st := g'; pn := Idle; rds := [None] |} [ETimer now; RBegin 0; RLook 0 w_q] = Ok (s, os) ->
      os = [ONone; ONone; OFound true []]).
Proof.
  intros H.
  assert (X : exists g' s, import w_hash 600 10 1 g0 0 w_handed 0 = Ok (Some g') /\
    steps w_hash 600 10 {| st := g'; pn := Idle; rds := [None] |} [ETimer 60000; RBegin 0; RLook 0 w_q] =
    Ok (s, [ONone; ONone; OFound true (map (txt_rr 10) [w_chal 97; w_chal 98])])).
  { eexists _, _. split; [vm_compute; reflexivity|]. vm_compute. reflexivity. }
  destruct X as (g' & s & E1 & E2). specialize (H w_hash 600%N 10%N 2%N _ 5%N w_data g' 60000%Z s _ E1 ltac:(lia) E2). discriminate H.
Qed.
Print Assumptions C35_handed_over_expiry_refuted.

(** The limit is 201, one more than CHAL_COLLIDE_SANITY_MAX. *)
Definition w_hundred : bytes := concat (repeat (dname w_name true ++ repeat 97%N 43 ++ [0]%N) 100).
Example C35_limit_reached :
  exists s, steps w_hash 600 10 (start 1)
    [ECreate 0 100 w_hundred; EMain; EMain; EMain; EMain; ECreate 0 100 w_hundred; EMain; EMain; EMain; EMain;
     ECreate 0 1 (firstn 53 w_hundred); EMain; EMain; EMain; EMain; ECreate 0 1 (firstn 53 w_hundred); RBegin 0; RLook 0 w_q] =
  Ok (s, [OAdded false; ONone; ONone; ONone; ONone; OAdded false; ONone; ONone; ONone; ONone; OAdded false; ONone; ONone; ONone; ONone;
      OAdded true; ONone; OFound true (repeat (txt_rr 10 (w_chal 97)) 201)]).
Proof. eexists. vm_compute. reflexivity. Qed.
