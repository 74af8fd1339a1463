(** C25, C26, C27, C41: the monitoring core. *)
From Verif Require Import Base MonModel MonSpec MonProofs MonThresh MonRun MonJson.
Local Open Scope N_scope.

(** ** C25 *)
(** Whatever the configuration, the initial results, the admin files and the
    history: the run never fails, and each probed item's real state is the one
    the threshold rules give, with a TTL of interval x the fewest further
    results that could change it. *)
Theorem C25_state_follows_thresholds : forall fn items ips f os i d t isdown,
  nth_error items i = Some (d, Some t, isdown) -> svc_ok t ->
  Forall (legal_op items) ips -> Forall monitor_op ips -> Forall (legal_op items) os ->
  (forall v, ~ In (OSttl i v) (ips ++ os)) ->
  exists m0 m s w,
    mon_start fn (register items) ips f = Ok m0 /\ steps fn m0 os = Ok m /\
    nth_error (smgrs m) i = Some s /\
    phase t (negb (last_probe i ips (negb isdown))) (probes_of i os) (w_down (real s)) w /\
    (probes_of i (ips ++ os) <> [] ->
       exists k, soonest t (w_down (real s)) w k /\ w_ttl (real s) = interval t * N.of_nat k).
Proof.
  intros fn items ips f os i d t isdown Hi Ht L1 M1 L2 Hn.
  destruct (whole_run fn items (smgrs (register items))) with (ips := ips) (f := f) (os := os)
    as (m0 & m & E1 & E2 & _ & _ & S); auto.
  { eapply item_desc. apply register_inv. }
  change (no_direct i (ips ++ os)) in Hn. apply no_direct_app in Hn as [N1 N2].
  assert (R : nth_error (smgrs (register items)) i =
    Some {| desc := d; typ := Some t; n_failure := 0; n_success := 0;
            real := if isdown then N.lor STTL_TTL_MAX STTL_DOWN else STTL_TTL_MAX |}).
  { cbn [register smgrs]. rewrite (map_nth_error _ _ _ Hi). reflexivity. }
  destruct (init_item t i ips _ _ R eq_refl N1) as (s1 & H1 & T1 & _ & A1 & B1).
  assert (D1 : w_down (real s1) = negb (last_probe i ips (negb isdown)) /\ n_failure s1 = 0 /\ n_success s1 = 0 /\
     (probes_of i ips <> [] -> real s1 = count_sttl t (w_down (real s1)) 0 0)).
  { unfold last_probe. destruct (probes_of i ips) as [|b l] eqn:Ep.
    - rewrite A1 by auto. cbn [real n_failure n_success last]. rewrite negb_involutive.
      split; [destruct isdown; reflexivity|]. split; auto. split; auto. congruence.
    - destruct B1 as (B2 & B3 & B4); [discriminate|].
      assert (E : last (b :: l) (negb isdown) = last (b :: l) false).
      { clear. revert b; induction l as [|c l IH]; intros b; [reflexivity|]. apply (IH c). }
      rewrite E. destruct (count_sttl_legal t (negb (last (b :: l) false)) 0 0 Ht) as (_ & _ & Hd).
      rewrite B4, Hd. auto. }
  destruct D1 as (D1 & F1 & G1 & C1).
  destruct (run_item t Ht i (probes_of i ips <> []) (w_down (real s1)) os _ s1 H1 T1 N2) as (s & Hs & _ & _ & w & P & C & Q).
  { exists []. split; [constructor|]. rewrite F1, G1. split; [apply cnt_start; auto|]. auto. }
  exists m0, m, s, w. split; [auto|]. split; [auto|]. split; [now rewrite S|]. rewrite <- D1. split; [auto|].
  intros Hp. rewrite probes_of_app in Hp.
  destruct (count_sttl_word t Ht _ _ _ _ C) as (k & K1 & K2 & K3).
  exists k. split; auto. rewrite Q.
  - rewrite K3. apply (word_parts _ false _ K2).
  - destruct (probes_of i ips) as [|b l]; [right|left; discriminate]. exact Hp.
Qed.
Print Assumptions C25_state_follows_thresholds.

(** Threshold 2/3/2: up, two failures with one success between: down. *)
Definition ex_svc : svc := {| up_thresh := 2; ok_thresh := 3; down_thresh := 2; interval := 10 |}.
Definition ex_items : list (bytes * option svc * bool) := [([97], Some ex_svc, false); ([98], None, false)].
Definition ex_fn (p d : bytes) : fnm := if list_eq_dec N.eq_dec p d then FMatch else FNoMatch.
Definition ex_ips := [OProbe 0 true].
Definition ex_os := [OProbe 0 false; OProbe 0 true; OProbe 0 false; OTimer; OProbe 0 true].
Example C25_witness : svc_ok ex_svc /\ Forall (legal_op ex_items) (ex_ips ++ ex_os) /\
  (do m0 <- mon_start ex_fn (register ex_items) ex_ips None; do m <- steps ex_fn m0 ex_os; Ok (map real (smgrs m)))
  = Ok [word true false 10; word false false 268435455].
Proof.
  split; [unfold svc_ok; cbn; lia|]. split; [|vm_compute; reflexivity].
  repeat constructor; try exact I; exists [97], ex_svc, false; (split; [reflexivity | unfold svc_ok; cbn; lia]).
Qed.

(** ** C26 *)
(** At any time the effective state of every item is the one demanded by the
    admin file in force, or else its real state; both exist. *)
Theorem C26_admin_state_is_authoritative : forall fn items ips f os,
  Forall (legal_op items) ips -> Forall monitor_op ips -> Forall (legal_op items) os ->
  exists m0 m es, mon_start fn (register items) ips f = Ok m0 /\ steps fn m0 os = Ok m /\
    in_force fn (smgrs m) [] (match f with Some a => [OAdmin a] | None => [] end ++ os) es /\
    length (sttl m) = length (smgrs m) /\
    forall i s w, nth_error (smgrs m) i = Some s -> nth_error (sttl m) i = Some w ->
      (exists o, forced_to fn es (desc s) o) /\
      forall o, forced_to fn es (desc s) o -> w = match o with Some v => v | None => real s end.
Proof.
  intros fn items ips f os L1 M1 L2.
  assert (HD0 : map desc (smgrs (register items)) = map (fun x => fst (fst x)) items)
    by (eapply item_desc; apply register_inv).
  destruct (whole_run fn items (smgrs (register items))) with (ips := ips) (f := f) (os := os)
    as (m0 & m & E1 & E2 & _ & V & _); auto.
  assert (HD : map desc (smgrs (register items)) = map desc (smgrs m)).
  { rewrite HD0. symmetry. eapply item_desc; eauto. }
  assert (FE : forall a cur, force_of fn (smgrs (register items)) cur a = force_of fn (smgrs m) cur a).
  { induction a as [|o a IH]; intros cur; cbn; auto. destruct o as [| |[es|]| |]; auto.
    rewrite (foldok_ext fn _ _ _ HD). auto. }
  change (init_admin f) with (match f with Some a => [OAdmin a] | None => [] end) in V. rewrite FE in V.
  set (h := match f with Some a => [OAdmin a] | None => [] end ++ os) in *.
  exists m0, m, (force_of fn (smgrs m) [] h). split; [auto|]. split; [auto|].
  split; [now apply in_force_iff|]. split; [rewrite (i_sttl _ _ _ V); apply map_length|].
  assert (OK : file_ok fn (smgrs m) (AHash (force_of fn (smgrs m) [] h))).
  { assert (G : forall a cur, file_ok fn (smgrs m) (AHash cur) -> file_ok fn (smgrs m) (AHash (force_of fn (smgrs m) cur a))).
    { induction a as [|o a IH]; intros cur Hc; cbn [force_of]; auto.
      destruct o as [| |[es|]| |]; auto.
      - apply IH. destruct (foldok fn (smgrs m) es) eqn:E; auto. now apply foldok_iff.
      - apply IH. constructor. }
    apply G. constructor. }
  intros i s w Hs Hw. destruct (forced_to_gof fn (smgrs m) _ (desc s) OK) as [X Y]. split; auto.
  intros o Ho. rewrite (Y _ Ho). rewrite (i_sttl _ _ _ V), (map_nth_error _ _ _ Hs) in Hw. injection Hw as <-.
  unfold eff. destruct (_ =? 0); auto.
Qed.
Print Assumptions C26_admin_state_is_authoritative.

(** A file that is not acceptable changes nothing at all. *)
Theorem C26_invalid_file_changes_nothing : forall fn items ips f0 os m0 m f,
  Forall (legal_op items) ips -> Forall monitor_op ips -> Forall (legal_op items) os ->
  mon_start fn (register items) ips f0 = Ok m0 -> steps fn m0 os = Ok m ->
  ~ file_ok fn (smgrs m) f -> step fn m (OAdmin f) = Ok m.
Proof.
  intros fn items ips f0 os m0 m f L1 M1 L2 E1 E2 Hf.
  assert (HD0 : map desc (smgrs (register items)) = map (fun x => fst (fst x)) items)
    by (eapply item_desc; apply register_inv).
  destruct (whole_run fn items (smgrs (register items))) with (ips := ips) (f := f0) (os := os)
    as (m0' & m' & E1' & E2' & Hi & V & _); auto.
  rewrite E1 in E1'. injection E1' as <-. rewrite E2 in E2'. injection E2' as <-.
  destruct (run_step fn items (smgrs (register items)) HD0 m _ (OAdmin f) V Hi) as (m1 & S & _ & _ & _ & Hn & _); [exact I|].
  rewrite S. f_equal. destruct (smgrs m) as [|s ss] eqn:Es.
  - destruct f as [es|]; cbn [step] in S; [|congruence]. unfold admin_process_hash in S. rewrite Es in S. cbn in S. congruence.
  - apply (Hn f eq_refl ltac:(discriminate)). intros X. apply Hf. rewrite <- Es.
    apply (file_ok_ext fn (smgrs (register items))); auto. rewrite HD0. symmetry. eapply item_desc; eauto.
Qed.
Print Assumptions C26_invalid_file_changes_nothing.

(** What resolvers read is the effective state, unless an update timer is
    already running; and when it fires it becomes so. *)
Theorem C26_effective_state_reaches_resolvers : forall fn items ips f os,
  Forall (legal_op items) ips -> Forall monitor_op ips -> Forall (legal_op items) os ->
  exists m0 m m', mon_start fn (register items) ips f = Ok m0 /\ steps fn m0 os = Ok m /\
    (pending m = false -> consumer m = sttl m) /\
    step fn m OTimer = Ok m' /\ consumer m' = sttl m.
Proof.
  intros fn items ips f os L1 M1 L2.
  assert (HD0 : map desc (smgrs (register items)) = map (fun x => fst (fst x)) items)
    by (eapply item_desc; apply register_inv).
  destruct (whole_run fn items (smgrs (register items))) with (ips := ips) (f := f) (os := os)
    as (m0 & m & E1 & E2 & Hi & V & _); auto.
  destruct (run_step fn items (smgrs (register items)) HD0 m _ OTimer V Hi) as (m1 & S & _ & _ & _ & _ & Ht); [exact I|].
  exists m0, m, m1. split; [auto|]. split; [auto|]. split; [intros; apply (i_pub _ _ _ V); auto|].
  split; auto. destruct (Ht eq_refl) as [A B]. congruence.
Qed.
Print Assumptions C26_effective_state_reaches_resolvers.

(** Administrative files never disturb the monitoring underneath: the real
    states are those of the same history without any file. *)
Theorem C26_real_states_are_undisturbed : forall fn items ips f os,
  Forall (legal_op items) ips -> Forall monitor_op ips -> Forall (legal_op items) os ->
  exists m0 m m0' m', mon_start fn (register items) ips f = Ok m0 /\ steps fn m0 os = Ok m /\
    mon_start fn (register items) ips None = Ok m0' /\ steps fn m0' (filter is_monitor os) = Ok m' /\
    smgrs m = smgrs m'.
Proof.
  intros fn items ips f os L1 M1 L2.
  assert (HD0 : map desc (smgrs (register items)) = map (fun x => fst (fst x)) items)
    by (eapply item_desc; apply register_inv).
  destruct (whole_run fn items (smgrs (register items))) with (ips := ips) (f := f) (os := os)
    as (m0 & m & E1 & E2 & _ & _ & S); auto.
  destruct (whole_run fn items (smgrs (register items))) with (ips := ips) (f := @None afile) (os := filter is_monitor os)
    as (m0' & m' & E1' & E2' & _ & _ & S'); auto.
  { apply Forall_forall. intros o Ho. apply filter_In in Ho as [Ho _]. rewrite Forall_forall in L2. auto. }
  exists m0, m, m0', m'. split; [auto|]. split; [auto|]. split; [auto|]. split; [auto|].
  rewrite S, S'. generalize (fold_left (smgrs_step true) ips (smgrs (register items))).
  clear. induction os as [|o os IH]; intros ss; cbn; auto. destruct o; cbn; auto.
Qed.
Print Assumptions C26_real_states_are_undisturbed.

(** Item "a" is forced up while it goes down underneath; the file with a typo
    changes nothing; deletion reveals the real state. *)
Definition txt_up5 : bytes := [117; 112; 47; 53].
Definition ex_file := AHash [([97], ASimple txt_up5)].
Example C26_witness :
  (do m0 <- mon_start ex_fn (register ex_items) ex_ips (Some ex_file);
   do m <- steps ex_fn m0 [OProbe 0 false; OAdmin (AHash [([97], ASimple [88])]); OProbe 0 false; OTimer];
   do m2 <- steps ex_fn m [ODelete; OTimer];
   Ok (consumer m, consumer m2))
  = Ok ([word false true 5; word false false 268435455], [word true false 20; word false false 268435455]).
Proof. vm_compute. reflexivity. Qed.

(** ** C27 *)
Theorem C27_parse_exact : forall s def, def < 2 ^ 28 ->
  exists r, mon_parse_sttl s def = Ok r /\
    forall w, r = Some w <-> exists d t, sttl_text def s d t /\ w = word d false t.
Proof. exact parse_exact. Qed.
Print Assumptions C27_parse_exact.

(** The documented strict form is always accepted ... *)
Theorem C27_strict_text_accepted : forall s def d t, def < 2 ^ 28 -> sttl_text_strict def s d t ->
  mon_parse_sttl s def = Ok (Some (word d false t)).
Proof.
  intros s def d t Hd H. destruct (parse_exact s def Hd) as (r & E & Hr). rewrite E. f_equal. apply Hr.
  exists d, t. split; auto. destruct H as [s d H|s d n v H Hn Hv]; [now constructor|].
  apply tx_ttl; auto. change n with ([] ++ n). apply num_pos; auto. 
  eapply N.lt_trans; [exact Hv|]. reflexivity.
Qed.
Print Assumptions C27_strict_text_accepted.

(** ... but not only that: "UP/-18446744073709551615" is taken for UP/1. *)
Theorem C27_only_strict_text_refuted : ~ forall s def w, def < 2 ^ 28 ->
  mon_parse_sttl s def = Ok (Some w) -> exists d t, sttl_text_strict def s d t.
Proof.
  intros H.
  set (n := [45; 49; 56; 52; 52; 54; 55; 52; 52; 48; 55; 51; 55; 48; 57; 53; 53; 49; 54; 49; 53]).
  destruct (H ([85; 80; 47] ++ n) 60 (word false false 1) eq_refl) as (d & t & Ht); [vm_compute; reflexivity|].
  clear H. remember ([85; 80; 47] ++ n) as txt eqn:Etxt. unfold n in Etxt. cbn in Etxt. clear n.
  destruct Ht as [s d Hst|s d n v Hst Hn Hv].
  - destruct Hst as [s Hs|s Hs]; apply ci_length in Hs; subst s; discriminate Hs.
  - destruct Hst as [s Hs|s Hs]; assert (Hl := ci_length _ _ Hs).
    + destruct s as [|a [|b [|c s]]]; try discriminate Hl.
      cbn in Etxt. injection Etxt as _ _ Hx. subst n.
      apply decimal_iff in Hn as (_ & F & _). inversion F; subst. discriminate.
    + destruct s as [|a [|b [|c [|e [|g s]]]]]; try discriminate Hl.
      cbn in Etxt. injection Etxt as _ _ _ _ Hx. discriminate.
Qed.
Print Assumptions C27_only_strict_text_refuted.

(** Combining states: down (forced) iff some member is, smallest TTL. *)
Theorem C27_combination_exact : forall tbl idxs,
  Forall (fun i => exists w, nth_error tbl i = Some w /\ w_legal w) idxs ->
  exists r, sttl_min tbl idxs = Ok r /\ w_legal r /\
    (w_down r = true <-> exists i w, In i idxs /\ nth_error tbl i = Some w /\ w_down w = true) /\
    (w_forced r = true <-> exists i w, In i idxs /\ nth_error tbl i = Some w /\ w_forced w = true) /\
    (forall i w, In i idxs -> nth_error tbl i = Some w -> w_ttl r <= w_ttl w) /\
    (w_ttl r = 2 ^ 28 - 1 \/ exists i w, In i idxs /\ nth_error tbl i = Some w /\ w_ttl r = w_ttl w).
Proof.
  intros tbl idxs HF. destruct (min_from_word tbl idxs STTL_TTL_MAX) as (r & E & L & D & F & (_ & T) & T2); auto.
  { split; reflexivity. }
  exists r. split; [exact E|]. split; [auto|]. split; [|split; [|split; auto]].
  - rewrite D. split; [intros [X|X]; [discriminate X|auto]|auto].
  - rewrite F. split; [intros [X|X]; [discriminate X|auto]|auto].
Qed.
Print Assumptions C27_combination_exact.

Example C27_witness :
  mon_parse_sttl [100; 79; 119; 78; 47; 51; 48] 7 = Ok (Some (word true false 30)) /\
  mon_parse_sttl [85; 80; 50] 7 = Ok None /\
  sttl_min [word false false 30; word true true 90; word false false 9] [0; 1]%nat = Ok (word true true 30).
Proof. repeat split; vm_compute; reflexivity. Qed.

(** ** C41 *)
(** At any time the state listing is produced without overrunning its buffer
    and holds one line per item, in order: description, effective state
    (marked when forced), real state. *)
Definition listing_entry (s : smgr) (w : N) : bytes :=
  json_t1 ++ desc s ++ json_t2 ++
  state_txt (match typ s with Some _ => true | None => false end) (w_forced w) (w_down w) ++ json_t3 ++
  state_txt (match typ s with Some _ => true | None => false end) (w_forced (real s)) (w_down (real s)) ++ json_t4.

Theorem C41_listing_complete_and_in_bounds : forall fn items ips f os,
  Forall (legal_op items) ips -> Forall monitor_op ips -> Forall (legal_op items) os ->
  exists m0 m, mon_start fn (register items) ips f = Ok m0 /\ steps fn m0 os = Ok m /\
    length (smgrs m) = length items /\ length (sttl m) = length items /\
    states_json m = Ok (json_head ++
      joined json_sep (map (fun p => listing_entry (fst p) (snd p)) (combine (smgrs m) (sttl m))) ++ json_foot).
Proof.
  intros fn items ips f os L1 M1 L2.
  assert (HD0 : map desc (smgrs (register items)) = map (fun x => fst (fst x)) items)
    by (eapply item_desc; apply register_inv).
  destruct (whole_run fn items (smgrs (register items))) with (ips := ips) (f := f) (os := os)
    as (m0 & m & E1 & E2 & _ & V & _); auto.
  exists m0, m. split; [auto|]. split; [auto|].
  assert (Ls := item_len items _ _ V). split; [auto|].
  assert (Lt : length (sttl m) = length (smgrs m)) by (rewrite (i_sttl _ _ _ V); apply map_length).
  split; [congruence|]. rewrite states_json_ok by auto.
  rewrite (map_ext ent (fun p => listing_entry (fst p) (snd p))); [reflexivity|]. intros [s w]. unfold ent, listing_entry, state_of. cbn [fst snd]. now rewrite !has_forced, !has_down.
Qed.
Print Assumptions C41_listing_complete_and_in_bounds.

Example C41_witness :
  (do m0 <- mon_start ex_fn (register ex_items) ex_ips (Some ex_file);
   do j <- states_json m0; Ok (length j)) = Ok 90%nat.
Proof. vm_compute. reflexivity. Qed.
