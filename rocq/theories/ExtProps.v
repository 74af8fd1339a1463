(** C33: commands on the pipe to the helper; C46: results of external checks. *)
From Verif Require Import Base ExtModel ExtSpec ExtProofs ExtProofs2.

(** ** C33 *)
(** A command the format can hold is sent and read back unchanged, however the
    pipe cuts it into pieces and whatever memory held before; what follows it
    on the pipe is left for the next reader. *)
Theorem C33_round_trip : forall junk c, representable c ->
  exists b, make_command junk c = Ok b /\ b = wire c /\
    (forall calls o calls', write_string calls b = Some (o, true, calls') -> o = b) /\
    (forall p rest, stream p = b ++ rest -> exists p', read_command p = Some (Some (c, p')) /\ stream p' = rest).
Proof.
  intros junk c R. exists (wire c). pose proof R as (_ & (_ & LA) & _). split; [now apply make_ok|]. split; [reflexivity|]. split; [intros calls o calls' E; exact (write_sound _ _ _ _ _ E)|]. intros p rest S'. now apply read_command_complete.
Qed.
Print Assumptions C33_round_trip.
(** What is accepted is a command as it is sent, byte for byte: nothing malformed
    is taken for a command, and no two commands look the same. *)
Theorem C33_nothing_misread : forall p c p', all_bytes (stream p) -> read_command p = Some (Some (c, p')) ->
  representable c /\ stream p = wire c ++ stream p'.
Proof. intros p c p' AB E. now apply read_command_sound. Qed.
Print Assumptions C33_nothing_misread.
(** A write that fails leaves a proper beginning of the bytes on the pipe. *)
Theorem C33_failed_write : forall calls b o calls', write_string calls b = Some (o, false, calls') -> exists t, t <> [] /\ b = o ++ t.
Proof. intros calls b o calls' E. exact (write_sound _ _ _ _ _ E). Qed.
Print Assumptions C33_failed_write.
(** All commands of a configuration, one after the other. *)
Fixpoint read_commands (n : nat) (p : pipe) : option (option (list cmd * pipe)) :=
  match n with
  | 0 => Some (Some ([], p))
  | S n => match read_command p with
           | Some (Some (c, p)) => match read_commands n p with Some (Some (l, p)) => Some (Some (c :: l, p)) | x => x end
           | Some None => Some None
           | None => None
           end
  end.
Theorem C33_all_commands : forall cs p rest, Forall representable cs -> stream p = flat_map wire cs ++ rest ->
  exists p', read_commands (length cs) p = Some (Some (cs, p')) /\ stream p' = rest.
Proof.
  induction cs as [|c cs IH]; intros p rest F S'; [exists p; auto|]. inversion F; subst. cbn [flat_map] in S'. rewrite <- app_assoc in S'. destruct (read_command_complete c p _ H1 S') as (p1 & E1 & S1). destruct (IH p1 rest H2 S1) as (p2 & E2 & S2).
  exists p2. cbn [length read_commands]. rewrite E1, E2. auto.
Qed.
Print Assumptions C33_all_commands.
(** The daemon does not check that a command fits: with a payload of 65536 bytes the
    length sent is zero and the helper refuses the command. *)
Theorem C33_long_command_refuted : forall junk c, length (c_args c) <= 255 -> N.of_nat (length (payload c)) = 65536%N ->
  make_command junk c = Ok (wire c) /\ read_command [RBytes (wire c)] = Some None.
Proof.
  intros junk c LA LP. split; [now apply make_ok|].
  assert (S' : stream [RBytes (wire c)] = fixed_part c ++ payload c) by (cbn [stream]; rewrite app_nil_r; apply wire_split).
  destruct (read_complete _ _ _ S') as (p1 & R1 & _). unfold read_command. change 14 with (length (fixed_part c)). rewrite R1. change (firstn 4 (fixed_part c)) with CMD_. destruct (list_eq_dec N.eq_dec CMD_ CMD_) as [_|X]; [|congruence]. cbn [negb]. cbv zeta.
  unfold fixed_part. rewrite LP. reflexivity.
Qed.
Print Assumptions C33_long_command_refuted.
(** Such a command exists: one argument of 65530 bytes. *)
Example C33_long_command_exists :
  let c := {| c_idx := 0; c_timeout := 3; c_interval := 10; c_max_proc := 0; c_args := [repeat 97%N (N.to_nat 65530)]; c_desc := [98; 98; 98]%N |} in
  length (c_args c) <= 255 /\ N.of_nat (length (payload c)) = 65536%N.
Proof. split; [cbn; lia|]. vm_compute. reflexivity. Qed.
(** One empty argument and an empty description are refused as too short. *)
Theorem C33_short_command_refuted : forall junk, exists c b, length (c_args c) = 1 /\ Forall cstr (c_args c) /\ cstr (c_desc c) /\
  make_command junk c = Ok b /\ read_command [RBytes b] = Some None.
Proof.
  intros junk. exists {| c_idx := 0; c_timeout := 3; c_interval := 10; c_max_proc := 0; c_args := [[]]; c_desc := [] |}. eexists. split; [reflexivity|]. split; [repeat constructor|]. split; [constructor|]. split; [apply make_ok; cbn; lia|]. vm_compute. reflexivity.
Qed.
Print Assumptions C33_short_command_refuted.
(** A command with two arguments, one of them empty, cut in pieces. *)
Example C33_witness :
  let c := {| c_idx := 258; c_timeout := 3; c_interval := 10; c_max_proc := 65534; c_args := [[47; 98]; []]%N; c_desc := [100]%N |} in
  representable c /\
  wire c = [67; 77; 68; 58; 1; 2; 0; 3; 0; 10; 255; 254; 0; 7; 2; 47; 98; 0; 0; 100; 0]%N /\
  read_command [RBytes [67; 77]%N; RAgain; RBytes (skipn 2 (wire c) ++ [5; 6]%N)] = Some (Some (c, [RBytes [5; 6]%N])).
Proof. cbv zeta. split; [|split; reflexivity]. repeat split; cbn; try lia; repeat constructor; cbn; try lia; discriminate. Qed.

(** ** C46 *)
(** Whatever the order of timers, ends of children, writes and signals: no
    assertion fails, no memory outside the queue is touched, and the daemon reads
    the results of all checks up to a signal, each once and in the order in which
    the checks ended, some of which may still be on their way. *)
Theorem C46_results_once_and_in_order : forall maxes es, length maxes <= N.to_nat 65536 ->
  all_orderly maxes (quiet (length maxes)) es ->
  exists h l later, hrun (hinit maxes) es = Ok h /\
    daemon_read (length maxes) (sent h) = Some l /\
    results (told maxes (quiet (length maxes)) es) = l ++ later /\
    (w_on h = false -> later = []).
Proof.
  intros maxes es LM A. destruct (run_tracks maxes es LM _ _ (init_tracks maxes) A) as (h & E & [L1 L2 TM TP TK TR (l & H & O & W)]).
  set (rs := results (told maxes (quiet (length maxes)) es)) in *.
  assert (P : exists k, sent h = map enc (firstn k rs) ++ (if (length rs <? length (sent h)) then [encode_exit] else []) /\ (length rs <= length (sent h) -> firstn k rs = rs)).
  { exists (length (sent h)). rewrite <- firstn_map. apply (f_equal (firstn (length (sent h)))) in O. rewrite firstn_app, Nat.sub_diag, firstn_O, app_nil_r, firstn_all, firstn_app, map_length in O. split; [|intros; now apply firstn_all2].
    rewrite O at 1. f_equal. destruct (Nat.ltb_spec (length rs) (length (sent h))) as [L|L].
    - destruct (killed h).
      + destruct (length (sent h) - length rs) as [|x] eqn:X; [lia|]. now destruct x.
      + exfalso. apply (f_equal (@length N)) in O. rewrite firstn_nil, app_nil_r, firstn_length, map_length in O. lia.
    - replace (length (sent h) - length rs) with 0 by lia. reflexivity. }
  destruct P as (k & P1 & P2). exists h, (firstn k rs), (skipn k rs). split; [exact E|].
  assert (FR : Forall (fun r => fst r < length maxes) (firstn k rs)) by (apply Forall_forall; intros r R; eapply Forall_forall in TR; [exact TR|]; rewrite <- (firstn_skipn k rs); apply in_or_app; now left).
  split; [rewrite P1, daemon_all by exact FR; destruct (_ <? _); cbn [daemon_read]; [change (is_exit encode_exit) with true; cbv iota|]; now rewrite app_nil_r|]. split; [now rewrite firstn_skipn|].
  intros X. specialize (W X). subst l. rewrite app_nil_r in O. assert (LE : length rs <= length (sent h)) by (rewrite O, app_length, map_length; lia). specialize (P2 LE). rewrite <- (firstn_skipn k rs) in P2 at 2. rewrite <- (app_nil_r (firstn k rs)) in P2 at 1. apply app_inv_head in P2. auto.
Qed.
Print Assumptions C46_results_once_and_in_order.
(** Once the pipe takes as many words as wait, everything has been sent. *)
Theorem C46_nothing_stays_behind : forall maxes es h, length maxes <= N.to_nat 65536 ->
  all_orderly maxes (quiet (length maxes)) es -> hrun (hinit maxes) es = Ok h ->
  forall k, q_len (sq h) <= k -> exists h', hstep h (Writable (repeat HOk k)) = Ok h' /\
    daemon_read (length maxes) (sent h') = Some (results (told maxes (quiet (length maxes)) es)).
Proof.
  intros maxes es h LM A E k K. destruct (run_tracks maxes es LM _ _ (init_tracks maxes) A) as (h0 & E0 & T). rewrite E in E0. injection E0 as <-.
  assert (D : forall h', tracks maxes h' (told maxes (quiet (length maxes)) es) -> w_on h' = false -> daemon_read (length maxes) (sent h') = Some (results (told maxes (quiet (length maxes)) es))).
  { intros h' [L1 L2 TM TP TK TR (l & H & O & W)] X. rewrite (W X), app_nil_r in O. rewrite O, daemon_all by exact TR. destruct (killed h'); cbn [daemon_read]; [change (is_exit encode_exit) with true; cbv iota|]; now rewrite app_nil_r. }
  cbn [hstep]. destruct (w_on h) eqn:W; [|exists h; auto]. destruct (write_all maxes _ k h T K) as (h' & E' & T' & W'). eauto.
Qed.
Print Assumptions C46_nothing_stays_behind.
(** Every check that began has exactly one result, unless it is still open. *)
Definition of_mon (m : nat) (rs : list (nat * bool)) : nat := length (filter (fun r => fst r =? m) rs).
Lemma of_mon_app m a b : of_mon m (a ++ b) = of_mon m a + of_mon m b.
Proof. unfold of_mon. now rewrite filter_app, app_length. Qed.
Definition open_at (w : world) (m : nat) : nat := match nth_error w m with Some o => if open o then 1 else 0 | None => 0 end.
Lemma ended_count p f m w : forall i, of_mon m (ended p f i w) + (if i <=? m then open_at (map (reaped p) w) (m - i) else 0) = if i <=? m then open_at w (m - i) else 0.
Proof.
  induction w as [|o w IH]; intros i; cbn [ended map].
  - unfold open_at. destruct (i <=? m); [|reflexivity]. now destruct (m - i).
  - assert (Q : of_mon m (match o with Some (q, true) => if q =? p then [(i, f)] else [] | _ => [] end) + (if i =? m then if open (reaped p o) then 1 else 0 else 0) = if i =? m then if open o then 1 else 0 else 0).
    { destruct o as [[q [|]]|]; cbn [reaped]; [destruct (q =? p)|destruct (q =? p)|]; unfold of_mon; cbn [filter fst]; destruct (i =? m); reflexivity. }
    assert (E : ended p f i (o :: w) = (match o with Some (q, true) => if q =? p then [(i, f)] else [] | _ => [] end) ++ ended p f (S i) w) by (destruct o as [[q [|]]|]; reflexivity).
    cbn [ended] in E. rewrite E, of_mon_app. specialize (IH (S i)).
    destruct (Nat.eqb_spec i m) as [->|NE].
    + rewrite Nat.leb_refl, Nat.sub_diag. destruct (Nat.leb_spec (S m) m); [lia|]. unfold open_at. cbn [nth_error]. lia.
    + destruct (Nat.leb_spec i m) as [L|L].
      * destruct (Nat.leb_spec (S i) m); [|lia]. unfold open_at in *. replace (m - i) with (S (m - S i)) by lia. cbn [nth_error]. lia.
      * destruct (Nat.leb_spec (S i) m); [lia|]. lia.
Qed.
Lemma tell_count maxes m y e : e <> Term -> ordered_out y = false ->
  of_mon m (results (tell maxes y e)) + open_at (now (tell maxes y e)) m = of_mon m (results y) + open_at (now y) m + starts maxes m y e /\ ordered_out (tell maxes y e) = false.
Proof.
  intros NT OO. destruct e as [k p|k|p f|calls|]; [| | | |congruence]; cbn [tell starts]; rewrite ?OO; cbn [now results ordered_out fst snd]; (split; [|reflexivity]).
  - cbn [effect negb]. rewrite andb_true_r. destruct (nth_error (now y) k) as [[o|]|] eqn:E; cbn [fst].
    + destruct (Nat.eqb_spec k m) as [->|]; [rewrite E|]; cbn [andb]; lia.
    + destruct (Nat.eqb_spec k m) as [->|NE]; cbn [andb].
      * rewrite E. destruct (room _ _); cbn [fst]; [|lia]. assert (m < length (now y)) by (apply nth_error_Some; congruence). unfold open_at. rewrite nth_error_upd_eq, E by assumption. cbn [open]. lia.
      * destruct (room _ _); cbn [fst]; [|lia]. unfold open_at. rewrite nth_error_upd_neq by exact NE. lia.
    + destruct (Nat.eqb_spec k m) as [->|]; [rewrite E|]; cbn [andb]; lia.
  - cbn [effect]. destruct (nth_error (now y) k) as [[[q [|]]|]|] eqn:E; cbn [fst snd]; rewrite ?app_nil_r; try lia. rewrite of_mon_app. unfold of_mon at 2. cbn [filter fst]. destruct (Nat.eqb_spec k m) as [->|NE]; cbn [length].
    + assert (m < length (now y)) by (apply nth_error_Some; congruence). unfold open_at. rewrite nth_error_upd_eq, E by assumption. cbn [open]. lia.
    + unfold open_at. rewrite nth_error_upd_neq by exact NE. lia.
  - cbn [effect fst snd]. rewrite of_mon_app. pose proof (ended_count p f m (now y) 0) as EC. cbn [Nat.leb] in EC. rewrite Nat.sub_0_r in EC. lia.
  - cbn [effect fst snd]. rewrite app_nil_r. lia.
Qed.
Theorem C46_one_result_per_check : forall maxes es m, ~ In Term es ->
  let y := told maxes (quiet (length maxes)) es in
  of_mon m (results y) + open_at (now y) m = started maxes m (quiet (length maxes)) es.
Proof.
  intros maxes es m NT. cbv zeta.
  assert (G : forall es y, ~ In Term es -> ordered_out y = false -> of_mon m (results (told maxes y es)) + open_at (now (told maxes y es)) m = of_mon m (results y) + open_at (now y) m + started maxes m y es).
  { clear es NT. induction es as [|e es IH]; intros y NT OO; cbn [told started]; [lia|]. destruct (tell_count maxes m y e) as [C1 C2]; [intros ->; apply NT; now left|exact OO|]. rewrite IH; [lia|intros X; apply NT; now right|exact C2]. }
  rewrite G by auto. assert (Z : open_at (now (quiet (length maxes))) m = 0); [|rewrite Z; reflexivity]. unfold open_at. cbn [now quiet]. destruct (nth_error _ m) as [o|] eqn:E; [|reflexivity]. apply nth_error_In, repeat_spec in E. now subst.
Qed.
Print Assumptions C46_one_result_per_check.
(** A check begins only while fewer checks are open than its limit. *)
Theorem C46_limit_kept : forall maxes es h m p h', length maxes <= N.to_nat 65536 ->
  all_orderly maxes (quiet (length maxes)) (es ++ [Interval m p]) -> hrun (hinit maxes) es = Ok h -> hstep h (Interval m p) = Ok h' ->
  length (filter m_pending (mons h)) < length (filter m_pending (mons h')) ->
  nth m maxes 0 = 0 \/ length (filter m_pending (mons h)) < nth m maxes 0.
Proof.
  intros maxes es h m p h' LM A E EH MORE.
  assert (SPL : forall es y, all_orderly maxes y (es ++ [Interval m p]) -> all_orderly maxes y es) by (induction es0 as [|e l IH]; intros y; cbn [app all_orderly]; [tauto|]; intros [? ?]; auto).
  destruct (run_tracks maxes es LM _ _ (init_tracks maxes) (SPL _ _ A)) as (h0 & E0 & T). rewrite E in E0. injection E0 as <-. destruct T as [L1 L2 TM TP TK TR TO].
  set (w := now (told maxes (quiet (length maxes)) es)) in *.
  assert (C : length (filter m_pending (mons h)) = running w).
  { clearbody w. clear - L1 L2 TM. assert (LE : length (mons h) = length w) by congruence. assert (TM' : forall i x o, nth_error (mons h) i = Some x -> nth_error w i = Some o -> m_pending x = open o) by (intros i x o A B; destruct (TM i x o A B) as (_ & M); destruct o as [[]|]; apply M). clear TM L1 L2. revert w LE TM'. induction (mons h) as [|x l IH]; intros [|o w] LE TM; try discriminate LE; [reflexivity|].
    unfold running in *. cbn [filter]. rewrite (TM 0 x o eq_refl eq_refl). specialize (IH w ltac:(cbn in LE; lia) (fun i => TM (S i))). destruct (open o); cbn [length]; congruence. }
  cbn [hstep] in EH. destruct (killed h); [injection EH as <-; lia|]. unfold do_interval in EH. destruct (nth_error (mons h) m) as [x|] eqn:EX; [|injection EH as <-; lia].
  assert (MX : m_max x = nth m maxes 0). { destruct (nth_error w m) as [o|] eqn:EO; [apply (TM _ _ _ EX EO)|]. apply nth_error_None in EO. assert (m < length (mons h)) by (apply nth_error_Some; congruence). lia. }
  destruct (negb (m_pending x)); [|discriminate]. cbn [rassert] in EH. destruct (negb (m_max x =? 0) && (m_max x <=? nproc h)) eqn:Q; [injection EH as <-; lia|]. rewrite MX, TP in Q. rewrite C.
  destruct (Nat.eqb_spec (nth m maxes 0) 0); [auto|]. cbn [negb andb] in Q. apply Nat.leb_gt in Q. auto.
Qed.
Print Assumptions C46_limit_kept.

(** If a killed child is reaped only after the monitor's next check has begun,
    then the watcher of that monitor stays where it was first put, and no later
    check of that monitor can succeed, although its command does; unless the new
    process number happens to fall into the same one of 16 classes. *)
Lemma stuck_round bucket h x p : bucket <> 0 -> bucket < 16 -> p mod 16 <> bucket -> killed h = false -> mons h = [x] -> m_max x = 0 -> m_pending x = false -> m_timer x = false -> w_active x = true -> w_bucket x = bucket ->
  forall l, holds (sq h) l -> exists h' x', hrun h [Interval 0 p; Exit p false; Timeout 0] = Ok h' /\ killed h' = false /\ mons h' = [x'] /\ m_max x' = 0 /\ m_pending x' = false /\ m_timer x' = false /\ w_active x' = true /\ w_bucket x' = bucket /\ sent h' = sent h /\ w_on h' = true /\ holds (sq h') (l ++ [enc (0, true)]).
Proof.
  intros B0 B16 PB K M MX MP MT WA WB l H. cbn [hrun hstep]. rewrite K. unfold do_interval. rewrite M. cbn [nth_error]. rewrite MP, MX, WA. cbn [negb rassert Nat.eqb andb]. cbv zeta. cbn [rbind set_mon mons nproc sq w_on killed sent upd length seq do_exit nth_error].
  unfold matches. cbn [w_active w_bucket w_pid andb]. rewrite WB. destruct (Nat.eqb_spec bucket (p mod 16)); [congruence|]. destruct (Nat.eqb_spec bucket 0); [contradiction|]. cbn [orb andb rbind].
  unfold do_timeout, set_mon. cbn [mons nth_error m_timer negb m_pending rassert upd rbind length seq do_exit]. unfold report. cbn [killed mons nproc sq w_on sent]. rewrite ?K. rewrite (encode_enc 0) by lia. cbn [rbind sq]. destruct (enq_holds _ _ (enc (0, true)) H) as (s' & -> & H'). cbn [rbind]. rewrite ?M. cbn [upd mons]. eexists. eexists. split; [reflexivity|]. cbn. repeat split; auto.
Qed.
Lemma hrun_app es1 : forall h es2, hrun h (es1 ++ es2) = do h <- hrun h es1; hrun h es2.
Proof. induction es1 as [|e es1 IH]; intros h es2; [reflexivity|]. cbn [app hrun]. destruct (hstep h e); [apply IH|reflexivity]. Qed.
Lemma map_enc_repeat r n : map enc (repeat r n) = repeat (enc r) n.
Proof. induction n; cbn; congruence. Qed.
Theorem C46_stuck_child_refuted : forall p ps, Forall (fun p => p mod 16 <> 1) (p :: ps) ->
  exists h, hrun (hinit [0]) ([Interval 0 17; Timeout 0; Interval 0 p; Exit 17 true; Exit p false; Timeout 0]
              ++ flat_map (fun p => [Interval 0 p; Exit p false; Timeout 0]) ps ++ [Writable (repeat HOk (S (S (length ps))))]) = Ok h /\
    daemon_read 1 (sent h) = Some (repeat (0, true) (S (S (length ps)))).
Proof.
  intros p ps F. inversion F as [|? ? FP FS]; subst.
  assert (RED : exists h0 x, hrun (hinit [0]) [Interval 0 17; Timeout 0; Interval 0 p; Exit 17 true; Exit p false; Timeout 0] = Ok h0 /\ killed h0 = false /\ mons h0 = [x] /\ m_max x = 0 /\ m_pending x = false /\ m_timer x = false /\ w_active x = true /\ w_bucket x = 1 /\ sent h0 = [] /\ w_on h0 = true /\ holds (sq h0) [enc (0, true); enc (0, true)]).
  { destruct (hrun (hinit [0]) [Interval 0 17; Timeout 0]) as [h1|] eqn:E1; [|discriminate E1].
    assert (T1 : h1 = {| mons := [{| m_max := 0; m_pid := 17; m_pending := false; m_timer := false; w_active := true; w_bucket := 1; w_pid := 17 |}]; nproc := 0; sq := {| q := upd (repeat 0%N 16) 0 (enc (0, true)); q_len := 1; q_head := 0 |}; w_on := true; killed := false; sent := [] |}) by (vm_compute in E1; injection E1 as <-; reflexivity).
    assert (H1 : holds (sq h1) [enc (0, true)]) by (subst h1; exists 4; repeat split; cbn; try lia; intros [|i] I; [reflexivity|lia]).
    destruct (stuck_round 1 h1 {| m_max := 0; m_pid := 17; m_pending := false; m_timer := false; w_active := true; w_bucket := 1; w_pid := 17 |} p ltac:(lia) ltac:(lia) FP ltac:(subst; reflexivity) ltac:(subst; reflexivity) eq_refl eq_refl eq_refl eq_refl eq_refl _ H1) as (h2 & x2 & E2 & A).
    change [Interval 0 17; Timeout 0; Interval 0 p; Exit 17 true; Exit p false; Timeout 0] with ([Interval 0 17; Timeout 0] ++ [Interval 0 p; Exit 17 true; Exit p false; Timeout 0]). rewrite hrun_app, E1. cbn [rbind].
    exists h2, x2. split; [|destruct A as (A1 & A2 & A3 & A4 & A5 & A6 & A7 & A8 & A9 & A10); repeat split; auto; rewrite A8; subst h1; reflexivity].
    rewrite <- E2. subst h1. cbn [hrun hstep killed do_interval mons nth_error]. cbn [m_pending negb rassert m_max Nat.eqb andb]. cbv zeta. cbn [rbind set_mon mons nproc sq w_on killed sent upd length seq do_exit nth_error w_active w_bucket].
    unfold matches. cbn [w_active w_bucket w_pid andb orb]. destruct (Nat.eqb_spec p 17) as [->|NE]; [exfalso; apply FP; reflexivity|]. rewrite andb_false_r. reflexivity. }
  destruct RED as (h0 & x & E0 & K & M & MX & MP & MT & WA & WB & S0 & WO & H0).
  assert (G : forall ps h x l, Forall (fun p => p mod 16 <> 1) ps -> killed h = false -> mons h = [x] -> m_max x = 0 -> m_pending x = false -> m_timer x = false -> w_active x = true -> w_bucket x = 1 -> w_on h = true -> holds (sq h) l ->
     exists h', hrun h (flat_map (fun p => [Interval 0 p; Exit p false; Timeout 0]) ps) = Ok h' /\ killed h' = false /\ w_on h' = true /\ sent h' = sent h /\ holds (sq h') (l ++ repeat (enc (0, true)) (length ps))).
  { clear. induction ps as [|p ps IH]; intros h x l F K M MX MP MT WA WB WO H.
    - exists h. cbn. rewrite app_nil_r. auto.
    - inversion F as [|? ? FP FS]; subst. destruct (stuck_round 1 h x p ltac:(lia) ltac:(lia) FP K M MX MP MT WA WB _ H) as (h1 & x1 & E1 & K1 & M1 & MX1 & MP1 & MT1 & WA1 & WB1 & S1 & WO1 & H1).
      destruct (IH h1 x1 _ FS K1 M1 MX1 MP1 MT1 WA1 WB1 WO1 H1) as (h2 & E2 & K2 & W2 & S2 & H2). exists h2. cbn [flat_map length repeat]. rewrite hrun_app, E1. cbn [rbind]. rewrite E2, S2, S1. rewrite <- app_assoc in H2. auto. }
  destruct (G ps h0 x _ FS K M MX MP MT WA WB WO H0) as (h1 & E1 & K1 & W1 & S1 & H1). rewrite hrun_app, E0. cbn [rbind]. rewrite hrun_app, E1. cbn [rbind hrun hstep]. rewrite W1.
  change ([enc (0, true); enc (0, true)] ++ repeat (enc (0, true)) (length ps)) with (repeat (enc (0, true)) (S (S (length ps)))) in H1. rewrite S0 in S1.
  assert (D : forall n h, holds (sq h) (repeat (enc (0, true)) n) -> exists h', do_write h (repeat HOk n) = Ok h' /\ sent h' = sent h ++ repeat (enc (0, true)) n).
  { clear. induction n as [|n IH]; intros h H; cbn [repeat do_write]; rewrite (holds_len _ _ H); cbn [length repeat Nat.eqb].
    - eexists. split; [reflexivity|]. cbn. now rewrite app_nil_r.
    - cbn [repeat] in H. rewrite (peek_holds _ _ _ H). cbn [rbind]. destruct (commit_holds _ _ _ H) as (s' & -> & H'). cbn [rbind]. destruct (IH {| mons := mons h; nproc := nproc h; sq := s'; w_on := w_on h; killed := killed h; sent := sent h ++ [enc (0, true)] |} H') as (h' & E & S'). exists h'. split; [exact E|]. rewrite S'. cbn [sent]. now rewrite <- app_assoc. }
  destruct (D _ h1 H1) as (h2 & E2 & S2). rewrite E2. cbn [rbind]. exists h2. split; [reflexivity|]. rewrite S2, S1. cbn [app]. rewrite <- map_enc_repeat. rewrite <- (app_nil_r (map enc _)). rewrite daemon_all by (apply Forall_forall; intros r R; apply repeat_spec in R; subst; cbn; lia). cbn [daemon_read]. now rewrite app_nil_r.
Qed.
Print Assumptions C46_stuck_child_refuted.
(** The interval timer has a higher priority than the timer that ends a check.  If
    the helper is held up until both are due, the next check begins
    while the last one is open, which an assertion excludes. *)
Theorem C46_late_timers_refuted : hrun (hinit [0]) [Interval 0 17; Interval 0 18] = UB.
Proof. reflexivity. Qed.
Print Assumptions C46_late_timers_refuted.

(** Two monitors, a limit, a killed child, a pipe that is full for a while, and a signal. *)
Example C46_witness :
  let maxes := [1; 1] in
  let es := [Interval 0 100; Interval 1 101; Timeout 0; Interval 1 102; Exit 100 true; Writable [HAgain]; Exit 102 false; Interval 0 103;
             Writable [HIntr; HOk; HOk]; Exit 103 true; Term; Writable [HOk; HOk; HAgain]] in
  all_orderly maxes (quiet 2) es /\
  results (told maxes (quiet 2) es) = [(0, true); (1, false); (0, true)] /\
  exists h, hrun (hinit maxes) es = Ok h /\ daemon_read 2 (sent h) = Some [(0, true); (1, false); (0, true)] /\ w_on h = false.
Proof. cbv zeta. split; [|split; [reflexivity|]]. - cbn. tauto. - eexists. split; [vm_compute; reflexivity|]. split; reflexivity. Qed.
