(** C36: statistics. *)
From Verif Require Import Base StatModel StatSpec StatProofs StatProofs2.
From Coq Require Import String Ascii DecimalString.
Import List. Import ListNotations. Open Scope list_scope.
Open Scope N_scope.
Ltac Zify.zify_post_hook ::= idtac.

(** C36.  After any number of replacements of the daemon, however each handoff
    was cut up by the socket, the last daemon's report shows for every statistic
    the sum of what the threads of all daemons counted, and the time since the
    first one started; the report always fits its buffer. *)
Theorem C36_totals_survive_replacement : forall start threads gens now,
  start <= now -> now < two64 ->
  exists s last, successors (statio_init start) threads gens = Ok (s, last) /\
    statio_get_json s last now = Ok (json (now - start) (fun st => total (threads ++ flat_map g_threads gens) st mod two64)).
Proof.
  intros start threads gens now LE LT.
  assert (TA : forall a b st, total (a ++ b) st = total a st + total b st) by (intros a b st; unfold total; rewrite map_app; induction (map (contribution st) a) as [|x l IH]; cbn [app fold_right]; lia).
  assert (G : forall gens s threads from, starts_from s from start -> (forall st, from st < two64) -> exists s' last, successors s threads gens = Ok (s', last) /\
     statio_get_json s' last now = Ok (json ((now + (two64 - start)) mod two64) (fun st => (from st + total (threads ++ flat_map g_threads gens) st) mod two64))).
  { clear threads gens. induction gens as [|g gens IH]; intros s threads from SF B; cbn [successors flat_map].
    - exists s, threads. split; [reflexivity|]. rewrite app_nil_r. now apply get_json.
    - destruct (takeover_ok (g_splits g) (g_now g) s threads from start SF B ltac:(lia)) as (new & -> & SN). cbn [rbind]. destruct (IH new (g_threads g) _ SN) as (s' & last & -> & E); [intros st; apply N.mod_upper_bound; discriminate|]. exists s', last. split; [reflexivity|]. rewrite E. f_equal. unfold json, report. cbn [map fst snd].
      assert (V : forall st, ((from st + total threads st) mod two64 + total (g_threads g ++ flat_map g_threads gens) st) mod two64 = (from st + total (threads ++ g_threads g ++ flat_map g_threads gens) st) mod two64) by (intros st; rewrite N.add_mod_idemp_l by discriminate; rewrite !TA; f_equal; lia).
      rewrite !V. reflexivity. }
  destruct (G gens (statio_init start) threads (fun _ => 0)) as (s & last & E1 & E2); [split; reflexivity|reflexivity|]. exists s, last. split; [exact E1|]. rewrite E2. replace ((now + (two64 - start)) mod two64) with (now - start); [reflexivity|].
  replace (now + (two64 - start)) with (now - start + 1 * two64) by lia. rewrite N.mod_add by discriminate. symmetry. apply N.mod_small. lia.
Qed.

(** C36.  From a daemon that knows fewer or more statistics, those known to both
    are taken over and the others start at zero. *)
Theorem C36_other_versions : forall now ws start, N.of_nat (List.length ws) < two32 -> Forall (fun w => w < two64) ws -> start < two64 ->
  exists s, statio_deserialize (statio_init now) (message ws start) = Ok s /\ start_time s = start /\ List.length (base s) = List.length wire /\
    forall i st, nth_error wire i = Some st -> nth i (base s) 0 = nth i ws 0.
Proof.
  intros now ws start SM F B. destruct (deser_message (statio_init now) ws start eq_refl F B SM) as (b & -> & LB & NB). eexists. split; [reflexivity|]. split; [reflexivity|]. split; [exact LB|]. cbn [base]. intros i st E. rewrite NB.
  assert (L : (i < SLOT_COUNT)%nat) by (change SLOT_COUNT with (List.length wire); apply nth_error_Some; congruence). destruct (Nat.ltb_spec i (Nat.min SLOT_COUNT (List.length ws))) as [|G]; [reflexivity|].
  rewrite (nth_overflow ws) by lia. cbn [statio_init base]. apply nth_repeat.
Qed.

(** C36.  If the old daemon's message is cut short the new one just starts afresh. *)
Theorem C36_failed_handoff : forall splits now old threads n,
  List.length (base old) = List.length wire -> (n < List.length (css_send_stats_handoff (statio_serialize old threads)))%nat ->
  takeover splits now (firstn n (css_send_stats_handoff (statio_serialize old threads))) = Ok (statio_init now).
Proof.
  intros splits now old threads n LB LN. unfold takeover. assert (LA : forall ts l, List.length (fold_left accumulate_statio ts l) = List.length l).
  { induction ts as [|t ts IH]; intros l; [reflexivity|]. cbn [fold_left]. rewrite IH. assert (LU : forall l i v, List.length (bump l i v) = List.length l) by (intros; apply upd_length). unfold accumulate_statio. cbv zeta. rewrite !LU. destruct (is_udp t); now rewrite !LU. }
  assert (LS : List.length (statio_serialize old threads) = 288%nat) by (unfold statio_serialize, populate_statio; rewrite app_length, concat_length, LA, LB, le_length; reflexivity).
  rewrite handoff_cut; [reflexivity|rewrite LS; lia|rewrite LS; cbn; lia|exact LN].
Qed.

(** Finding: the length check meant to refuse all but multiples of eight tests
    the wrong bits.  A peer that announces one to three bytes makes the new daemon
    read far outside the message. *)
Theorem C36_bad_length_refuted :
  ~ (forall splits now stream, exists s, takeover splits now stream = Ok s) /\
  ~ (forall s data, (List.length data mod 8 <> 0)%nat -> statio_deserialize s data = Ok s).
Proof.
  split.
  - intros H. destruct (H [] 0 (css_send_stats_handoff [7])) as (s & E). unfold takeover in E. rewrite handoff_ok in E by (cbn; lia). unfold statio_deserialize in E. cbn [List.length] in E.
    change (N.eqb (N.of_nat 1) 0 || negb (N.eqb (N.land (N.of_nat 1) 4) 0))%bool with false in E. cbv iota beta zeta in E. change ((N.of_nat 1 / 8 + (two64 - 1)) mod two64) with (two64 - 1) in E.
    unfold word, rdn in E. destruct (Nat.leb_spec (N.to_nat (8 * (two64 - 1)) + 8) (List.length [7])) as [L|L]; [cbn [List.length] in L; lia|]. cbn [rbind] in E. discriminate.
  - intros H. specialize (H (statio_init 5) (repeat 0 9)). cbn [List.length repeat] in H. specialize (H ltac:(discriminate)). vm_compute in H. discriminate.
Qed.

(** A UDP and a TCP thread; one replacement. *)
Definition ex_t (u : bool) (k : N) : tstats := {| is_udp := u; stats_get := fun c => match c with noerror => 10 * k | refused => k | u_tc => 3 | t_conns => 4 | _ => 0 end |}.
Example C36_witness :
  (exists s last, successors (statio_init 100) [ex_t true 1; ex_t false 2] [{| g_splits := [99; 3]%nat; g_now := 150; g_threads := [ex_t true 5] |}] = Ok (s, last) /\
    nth DNS_NOERROR (populate_statio (base s) last) 0 = 80 /\ nth UDP_REQS (populate_statio (base s) last) 0 = 66 /\ nth TCP_REQS (populate_statio (base s) last) 0 = 22 /\
    nth UDP_TC (populate_statio (base s) last) 0 = 6 /\ nth TCP_CONNS (populate_statio (base s) last) 0 = 4 /\ start_time s = 100) /\
  total ([ex_t true 1; ex_t false 2] ++ [ex_t true 5]) UdpReqs = 66.
Proof. split; [|reflexivity]. eexists _, _. split; [vm_compute; reflexivity|]. vm_compute. repeat split; reflexivity. Qed.

Print Assumptions C36_totals_survive_replacement.
Print Assumptions C36_other_versions.
Print Assumptions C36_failed_handoff.
Print Assumptions C36_bad_length_refuted.
