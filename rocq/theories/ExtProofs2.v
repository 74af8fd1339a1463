(** Proofs about the queue of results and the helper's events. *)
From Verif Require Import Base ExtModel ExtSpec.

(** ** The queue *)
Definition wrap (a x : nat) : nat := if x <? a then x else x - a.
Lemma mask_pow2 x k : mask x (2 ^ k) = x mod 2 ^ k.
Proof.
  unfold mask. assert (P : 2 ^ k <> 0) by (apply Nat.pow_nonzero; lia). replace (N.of_nat (2 ^ k - 1)) with (N.ones (N.of_nat k)).
  - rewrite N.land_ones. rewrite <- (Nat2N.id (x mod 2 ^ k)). f_equal. rewrite Nat2N.inj_mod. f_equal. now rewrite Nat2N.inj_pow.
  - rewrite N.ones_equiv, Nat2N.inj_sub, Nat2N.inj_pow. cbn. lia.
Qed.
Lemma mod_wrap a x : x < 2 * a -> x mod a = wrap a x.
Proof.
  intros H. unfold wrap. destruct (Nat.ltb_spec x a); [now apply Nat.mod_small|]. symmetry. apply (Nat.mod_unique x a 1); lia.
Qed.
Definition holds (s : sendq) (l : list N) : Prop :=
  exists k, length (q s) = 2 ^ k /\ q_head s < 2 ^ k /\ length l <= 2 ^ k /\ q_len s = length l /\
    forall i, i < length l -> nth_error (q s) (wrap (2 ^ k) (q_head s + i)) = nth_error l i.
Lemma init_holds : holds sendq_init [].
Proof. exists 4. repeat split; cbn; try lia. Qed.
Lemma wrap_lt a x : x < 2 * a -> wrap a x < a.
Proof. intros H. unfold wrap. destruct (Nat.ltb_spec x a); lia. Qed.
Lemma wr_one {A} (l : list A) i x : i < length l -> wr l i [x] = Ok (upd l i x).
Proof. intros H. rewrite wr_ok by (cbn; lia). rewrite upd_split by exact H. cbn [length app]. now replace (i + 1) with (S i) by lia. Qed.
Lemma copyq_ok k old head : length old = 2 ^ k -> head < 2 ^ k -> forall l i, i + length l <= 2 ^ k ->
  (forall j, j < length l -> nth_error old (wrap (2 ^ k) (head + (i + j))) = nth_error l j) -> copyq old head i (length l) = Ok l.
Proof.
  intros LO HH. induction l as [|x l IH]; intros i B E; cbn [length copyq]; [reflexivity|]. cbn [length] in *. rewrite LO, mask_pow2, mod_wrap by lia. unfold rd.
  pose proof (E 0 ltac:(lia)) as E0. rewrite Nat.add_0_r in E0. rewrite E0. cbn [nth_error rbind]. rewrite (IH (S i)); [reflexivity|lia|]. intros j J. specialize (E (S j) ltac:(lia)). replace (S i + j) with (i + S j) by lia. exact E.
Qed.
Lemma enq_holds s l d : holds s l -> exists s', enq s d = Ok s' /\ holds s' (l ++ [d]).
Proof.
  intros (k & LQ & HH & LL & QL & E). unfold enq. cbv zeta. rewrite LQ, QL. destruct (Nat.ltb_spec (length l) (2 ^ k)) as [L|L].
  - rewrite mask_pow2, mod_wrap by lia. rewrite wr_one by (rewrite LQ; apply wrap_lt; lia). cbn [rbind]. eexists. split; [reflexivity|]. exists k. cbn [q q_len q_head]. rewrite upd_length, app_length. cbn [length]. repeat split; try lia.
    intros i I. destruct (Nat.eq_dec i (length l)) as [->|NE].
    + rewrite nth_error_upd_eq by (rewrite LQ; apply wrap_lt; lia). rewrite nth_error_app2, Nat.sub_diag by lia. reflexivity.
    + rewrite nth_error_upd_neq by (unfold wrap; destruct (Nat.ltb_spec (q_head s + length l) (2 ^ k)), (Nat.ltb_spec (q_head s + i) (2 ^ k)); lia). rewrite E by lia. rewrite nth_error_app1 by lia. reflexivity.
  - assert (LE : length l = 2 ^ k) by lia. rewrite (@copyq_ok k _ _ LQ HH l 0) by (cbn [Nat.add]; auto; lia). cbn [rbind]. rewrite wr_prefix by (rewrite repeat_length; cbn [length]; lia). cbn [rbind].
    eexists. split; [reflexivity|]. assert (P1 : 1 <= 2 ^ k) by (pose proof (Nat.pow_nonzero 2 k); lia). exists (S k). cbn [q q_len q_head]. rewrite !app_length, skipn_length, repeat_length. cbn [length]. rewrite Nat.pow_succ_r'. repeat split; try lia.
    intros i I. unfold wrap. cbn [Nat.add]. destruct (Nat.ltb_spec i (2 * 2 ^ k)); [|lia]. rewrite app_assoc. now rewrite nth_error_app1 by (rewrite app_length; cbn [length]; lia).
Qed.
Lemma peek_holds s x l : holds s (x :: l) -> peek s = Ok x.
Proof.
  intros (k & LQ & HH & LL & QL & E). unfold peek. rewrite QL. cbn [length Nat.eqb negb rassert]. specialize (E 0 ltac:(cbn; lia)). rewrite Nat.add_0_r in E. unfold wrap in E. destruct (Nat.ltb_spec (q_head s) (2 ^ k)); [|lia]. unfold rd. now rewrite E.
Qed.
Lemma commit_holds s x l : holds s (x :: l) -> exists s', commit s = Ok s' /\ holds s' l.
Proof.
  intros (k & LQ & HH & LL & QL & E). unfold commit. rewrite QL. cbn [length Nat.eqb negb rassert] in *. eexists. split; [reflexivity|]. exists k. cbn [q q_len q_head]. rewrite LQ, mask_pow2, mod_wrap by lia. pose proof (@wrap_lt (2 ^ k) (q_head s + 1) ltac:(lia)). repeat split; try lia.
  intros i I. specialize (E (S i) ltac:(lia)). cbn [nth_error] in E. rewrite <- E. f_equal. unfold wrap. destruct (Nat.ltb_spec (q_head s + 1) (2 ^ k)), (Nat.ltb_spec (q_head s + S i) (2 ^ k)); destruct (Nat.ltb_spec (q_head s + 1 + i) (2 ^ k)) || idtac; try match goal with |- context [?a <? ?b] => destruct (Nat.ltb_spec a b) end; lia.
Qed.
Lemma holds_len s l : holds s l -> q_len s = length l.
Proof. now intros (k & _ & _ & _ & H & _). Qed.

(** ** Results as words *)
Definition enc (r : nat * bool) : N := N.lor (N.shiftl (N.of_nat (fst r)) 16) (if snd r then FA else OK_).
Lemma low16 a b : (b < 65536 -> N.land (N.lor (N.shiftl a 16) b) 65535 = b)%N.
Proof.
  intros B. apply N.bits_inj. intros i. change 65535%N with (N.ones 16). rewrite N.land_spec, N.lor_spec.
  destruct (N.ltb_spec i 16) as [L|L].
  - rewrite N.ones_spec_low by exact L. rewrite N.shiftl_spec_low by exact L. now rewrite andb_true_r.
  - rewrite N.ones_spec_high by exact L. rewrite andb_false_r. symmetry. destruct (N.eq_dec b 0) as [->|NZ]; [apply N.bits_0|]. apply N.bits_above_log2. apply N.lt_le_trans with 16%N; [|exact L]. apply N.log2_lt_pow2; [lia|exact B].
Qed.
Lemma high16 a b : (b < 65536 -> N.shiftr (N.lor (N.shiftl a 16) b) 16 = a)%N.
Proof.
  intros B. rewrite N.shiftr_lor, N.shiftr_shiftl_l by lia. rewrite N.sub_diag, N.shiftl_0_r. replace (N.shiftr b 16) with 0%N; [apply N.lor_0_r|]. symmetry. apply N.shiftr_eq_0_iff. destruct (N.eq_dec b 0) as [->|NZ]; [now left|right]. split; [lia|]. apply N.log2_lt_pow2; [lia|exact B].
Qed.
Lemma enc_decode m f : decode_idx (enc (m, f)) = N.of_nat m /\ decode_failed (enc (m, f)) = f /\ is_exit (enc (m, f)) = false.
Proof.
  unfold decode_idx, decode_failed, enc. cbn [fst snd]. assert (B : ((if f then FA else OK_) < 65536)%N) by (destruct f; unfold FA, OK_; lia). rewrite high16, low16 by exact B. repeat split; [destruct f; reflexivity|].
  unfold is_exit. apply N.eqb_neq. intros E. pose proof (low16 (N.of_nat m) _ B) as L. rewrite E in L. destruct f; discriminate L.
Qed.
Lemma encode_enc m f : m < N.to_nat 65536 -> encode_mon (N.of_nat m) f = Ok (enc (m, f)).
Proof. intros H. unfold encode_mon. assert (Q : (N.of_nat m <? 65536)%N = true) by (apply N.ltb_lt; lia). now rewrite Q. Qed.
Lemma daemon_all n rs : Forall (fun r => fst r < n) rs -> forall t, daemon_read n (map enc rs ++ t) = match daemon_read n t with Some l => Some (rs ++ l) | None => None end.
Proof.
  induction rs as [|[m f] rs IH]; intros F t; cbn [map app daemon_read]; [now destruct (daemon_read n t)|]. inversion F as [|? ? H F']; subst. cbn [fst] in H. destruct (enc_decode m f) as (A & B & C). rewrite C, A, B, Nat2N.id. destruct (Nat.leb_spec n m); [lia|]. rewrite IH by exact F'. now destruct (daemon_read n t).
Qed.

(** ** Events *)
Definition mon_is (max : nat) (x : hmon) (o : option (nat * bool)) : Prop :=
  m_max x = max /\
  match o with
  | None => m_pending x = false /\ m_timer x = false /\ w_active x = false
  | Some (p, b) => m_pending x = b /\ m_timer x = b /\ w_active x = true /\ w_bucket x = p mod 16 /\ w_pid x = p
  end.
Record tracks (maxes : list nat) (h : helper) (y : story) : Prop := {
  t_len : length (mons h) = length maxes;
  t_len' : length (now y) = length maxes;
  t_mon : forall m x o, nth_error (mons h) m = Some x -> nth_error (now y) m = Some o -> mon_is (nth m maxes 0) x o;
  t_proc : nproc h = running (now y);
  t_killed : killed h = ordered_out y;
  t_range : Forall (fun r => fst r < length maxes) (results y);
  t_out : exists l, holds (sq h) l /\ sent h ++ l = map enc (results y) ++ (if killed h then [encode_exit] else []) /\ (w_on h = false -> l = [])
}.
Lemma running_app a b : running (a ++ b) = running a + running b.
Proof. unfold running. now rewrite filter_app, app_length. Qed.
Lemma running_one o : running [o] = if open o then 1 else 0.
Proof. unfold running. cbn [filter]. now destruct (open o). Qed.
Lemma running_upd w m o o' : nth_error w m = Some o -> running (upd w m o') + (if open o then 1 else 0) = running w + (if open o' then 1 else 0).
Proof.
  intros E. assert (L : m < length w) by (apply nth_error_Some; congruence). rewrite upd_split by exact L. rewrite running_app. change (o' :: skipn (S m) w) with ([o'] ++ skipn (S m) w). rewrite running_app.
  assert (W : running w = running (firstn m w) + (running [o] + running (skipn (S m) w))).
  { rewrite <- running_app. cbn [app]. rewrite <- (skipn_nth_cons _ _ _ E), <- running_app. now rewrite firstn_skipn. }
  rewrite W, !running_one. lia.
Qed.

Lemma upd_mons_len h m x : length (mons (set_mon h m x)) = length (mons h).
Proof. cbn. apply upd_length. Qed.
(** a result is put out *)
Lemma report_ok maxes h y m f : length maxes <= N.to_nat 65536 -> tracks maxes h y -> m < length maxes ->
  exists h', report h m f = Ok h' /\ mons h' = mons h /\ nproc h' = nproc h - 1 /\ killed h' = killed h /\
    (exists l, holds (sq h') l /\ sent h' ++ l = map enc (if ordered_out y then results y else results y ++ [(m, f)]) ++ (if killed h then [encode_exit] else []) /\ (w_on h' = false -> l = [])).
Proof.
  intros LM [L1 L2 TM TP TK TR (l & H & O & W)] M. unfold report. rewrite <- TK. destruct (killed h) eqn:K.
  - cbn [rbind]. eexists. split; [reflexivity|]. cbn. repeat split; auto. eauto.
  - rewrite encode_enc by lia. cbn [rbind]. destruct (enq_holds _ _ (enc (m, f)) H) as (s' & -> & H'). cbn [rbind]. eexists. split; [reflexivity|]. cbn. repeat split; auto. exists (l ++ [enc (m, f)]). split; [exact H'|]. split; [|discriminate].
    rewrite app_nil_r in *. rewrite map_app. cbn [map]. now rewrite <- O, app_assoc.
Qed.
(** one monitor changes *)
Lemma mon_upd maxes h y m x o : length (mons h) = length maxes -> length (now y) = length maxes ->
  (forall m x o, nth_error (mons h) m = Some x -> nth_error (now y) m = Some o -> mon_is (nth m maxes 0) x o) ->
  mon_is (nth m maxes 0) x o ->
  forall k x' o', nth_error (upd (mons h) m x) k = Some x' -> nth_error (upd (now y) m o) k = Some o' -> mon_is (nth k maxes 0) x' o'.
Proof.
  intros L1 L2 T MI k x' o' E1 E2. destruct (Nat.eq_dec m k) as [<-|NE].
  - assert (m < length (upd (mons h) m x)) by (apply nth_error_Some; congruence). rewrite upd_length in H. rewrite nth_error_upd_eq in E1 by lia. rewrite nth_error_upd_eq in E2 by lia. injection E1 as <-. injection E2 as <-. exact MI.
  - rewrite nth_error_upd_neq in E1 by exact NE. rewrite nth_error_upd_neq in E2 by exact NE. eauto.
Qed.
(** a child's end, as seen by one monitor *)
Definition end1 (p : nat) (f : bool) (y : story) (m : nat) : story :=
  match nth_error (now y) m with
  | None => y
  | Some o => {| now := upd (now y) m (reaped p o);
                 results := if ordered_out y then results y else results y ++ (match o with Some (q, true) => if q =? p then [(m, f)] else [] | _ => [] end);
                 ordered_out := ordered_out y |}
  end.
Lemma upd_same {A} (l : list A) m x : nth_error l m = Some x -> upd l m x = l.
Proof. intros E. assert (m < length l) by (apply nth_error_Some; congruence). rewrite upd_split by assumption. rewrite <- (skipn_nth_cons _ _ _ E). apply firstn_skipn. Qed.
Lemma end1_tracks maxes h y p f m : length maxes <= N.to_nat 65536 -> tracks maxes h y -> m < length maxes ->
  exists h', (match nth_error (mons h) m with Some x => if matches p x then do_child h m f else Ok h | None => Ok h end) = Ok h' /\ tracks maxes h' (end1 p f y m).
Proof.
  intros LM T M. pose proof T as [L1 L2 TM TP TK TR TO]. destruct (nth_error (mons h) m) as [x|] eqn:EX; [|apply nth_error_None in EX; lia].
  destruct (nth_error (now y) m) as [o|] eqn:EO; [|apply nth_error_None in EO; lia]. pose proof (TM _ _ _ EX EO) as (MX & MI). unfold end1. rewrite EO.
  assert (SAME : reaped p o = o -> (match o with Some (q, true) => if q =? p then [(m, f)] else [] | _ => [] end) = [] -> matches p x = false ->
     exists h', (if matches p x then do_child h m f else Ok h) = Ok h' /\ tracks maxes h' {| now := upd (now y) m (reaped p o);
                 results := if ordered_out y then results y else results y ++ (match o with Some (q, true) => if q =? p then [(m, f)] else [] | _ => [] end);
                 ordered_out := ordered_out y |}).
  { intros -> -> ->. exists h. split; [reflexivity|]. rewrite upd_same by exact EO. rewrite app_nil_r. destruct (ordered_out y) eqn:OO; destruct y; cbn in *; subst; exact T. }
  destruct o as [[c b]|].
  - destruct MI as (MP & MT & WA & WB & WP). destruct (Nat.eq_dec c p) as [->|NE].
    + assert (MT' : matches p x = true) by (unfold matches; now rewrite WA, WB, WP, !Nat.eqb_refl). rewrite MT'. unfold do_child. rewrite EX, MP. cbn [reaped]. rewrite Nat.eqb_refl. destruct b.
      * destruct (report_ok maxes h y m f LM T M) as (h1 & -> & EM & EP & EK & EO1). cbn [rbind]. eexists. split; [reflexivity|].
        pose proof (running_upd _ _ _ None EO) as RU. cbn [open] in RU.
        split; cbn [mons nproc sq w_on killed sent set_mon now results ordered_out]; rewrite ?upd_length, ?EM, ?EP, ?EK, ?TP, ?TK; auto.
        -- apply mon_upd; auto. repeat split; auto.
        -- lia.
        -- destruct (ordered_out y); [exact TR|]. apply Forall_app. split; [exact TR|]. repeat constructor. exact M.
        -- rewrite TK in EO1. exact EO1.
      * cbn [rbind]. eexists. split; [reflexivity|]. pose proof (running_upd _ _ _ None EO) as RU. cbn [open] in RU.
        split; cbn [mons nproc sq w_on killed sent set_mon now results ordered_out]; rewrite ?upd_length, ?app_nil_r; auto.
        -- apply mon_upd; auto. repeat split; auto.
        -- lia.
        -- destruct (ordered_out y); exact TR.
        -- destruct (ordered_out y); exact TO.
    + apply SAME; [cbn [reaped]; destruct (Nat.eqb_spec c p); [contradiction|reflexivity]|destruct b; [destruct (Nat.eqb_spec c p); [contradiction|]|]; reflexivity|].
      unfold matches. rewrite WP. destruct (Nat.eqb_spec c p); [contradiction|]. apply andb_false_r.
  - destruct MI as (MP & MT & WA). apply SAME; [reflexivity..|]. unfold matches. now rewrite WA.
Qed.
Lemma exit_tracks maxes p f ms : length maxes <= N.to_nat 65536 -> Forall (fun m => m < length maxes) ms -> forall h y, tracks maxes h y ->
  exists h', do_exit h ms p f = Ok h' /\ tracks maxes h' (fold_left (end1 p f) ms y).
Proof.
  intros LM. induction ms as [|m ms IH]; intros F h y T; cbn [do_exit fold_left]; [eauto|]. inversion F; subst. destruct (end1_tracks maxes h y p f m LM T) as (h1 & -> & T1); [assumption|]. cbn [rbind]. now apply IH.
Qed.
Lemma fold_end1 p f w2 : forall w1 rs oo, fold_left (end1 p f) (seq (length w1) (length w2)) {| now := w1 ++ w2; results := rs; ordered_out := oo |} =
  {| now := w1 ++ map (reaped p) w2; results := if oo then rs else rs ++ ended p f (length w1) w2; ordered_out := oo |}.
Proof.
  induction w2 as [|o w2 IH]; intros w1 rs oo; cbn [length seq fold_left map ended].
  - destruct oo; [reflexivity|]. now rewrite !app_nil_r.
  - unfold end1 at 2. cbn [now results ordered_out]. rewrite nth_error_app2, Nat.sub_diag by lia. cbn [nth_error]. replace (length w1) with (length w1 + 0) at 2 by lia. rewrite upd_app_r. cbn [upd]. change (w1 ++ reaped p o :: w2) with (w1 ++ [reaped p o] ++ w2). rewrite app_assoc.
    replace (S (length w1)) with (length (w1 ++ [reaped p o])) at 1 by (rewrite app_length; cbn; lia). rewrite IH. rewrite <- app_assoc. cbn [app]. f_equal. destruct oo; [reflexivity|]. rewrite <- app_assoc. f_equal. rewrite app_length. cbn [length]. replace (length w1 + 1) with (S (length w1)) by lia.
    destruct o as [[q [|]]|]; reflexivity.
Qed.
(** writing *)
Lemma write_tracks maxes y calls : forall h, tracks maxes h y -> exists h', do_write h calls = Ok h' /\ tracks maxes h' y.
Proof.
  induction calls as [|c calls IH]; intros h T; pose proof T as [L1 L2 TM TP TK TR (l & H & O & W)]; cbn [do_write]; rewrite (holds_len _ _ H).
  - destruct l as [|d l]; cbn [length Nat.eqb]; [|eauto]. eexists. split; [reflexivity|]. split; auto. cbn. exists []. auto.
  - destruct l as [|d l]; cbn [length Nat.eqb]; [eexists; split; [reflexivity|]; split; auto; cbn; exists []; auto|]. destruct c; eauto.
    rewrite (peek_holds _ _ _ H). cbn [rbind]. destruct (commit_holds _ _ _ H) as (s' & -> & H'). cbn [rbind]. apply IH. split; auto. cbn. exists l. split; [exact H'|]. split; [now rewrite <- app_assoc|]. intros X. now specialize (W X).
Qed.
Lemma write_all maxes y k : forall h, tracks maxes h y -> q_len (sq h) <= k -> exists h', do_write h (repeat HOk k) = Ok h' /\ tracks maxes h' y /\ w_on h' = false.
Proof.
  induction k as [|k IH]; intros h T LE; pose proof T as [L1 L2 TM TP TK TR (l & H & O & W)]; cbn [repeat do_write]; rewrite (holds_len _ _ H) in *.
  - destruct l; [|cbn in LE; lia]. cbn [length Nat.eqb]. eexists. split; [reflexivity|]. split; [|reflexivity]. split; auto. cbn. exists []. auto.
  - destruct l as [|d l]; cbn [length Nat.eqb] in *; [eexists; split; [reflexivity|]; split; [split; auto; cbn; exists []; auto|reflexivity]|].
    rewrite (peek_holds _ _ _ H). cbn [rbind]. destruct (commit_holds _ _ _ H) as (s' & -> & H'). cbn [rbind]. apply IH; [|cbn; rewrite (holds_len _ _ H'); lia]. split; auto. cbn. exists l. split; [exact H'|]. split; [now rewrite <- app_assoc|]. intros X. now specialize (W X).
Qed.

Lemma step_tracks maxes h y e : length maxes <= N.to_nat 65536 -> tracks maxes h y -> (ordered_out y = false -> orderly (now y) e) ->
  exists h', hstep h e = Ok h' /\ tracks maxes h' (tell maxes y e).
Proof.
  intros LM T OD. pose proof T as [L1 L2 TM TP TK TR TO]. destruct e as [m p|m|p f|calls|]; cbn [hstep tell].
  - rewrite TK. destruct (ordered_out y) eqn:OO; [eauto|]. specialize (OD eq_refl). cbn [orderly] in OD. unfold do_interval. cbn [effect]. destruct (nth_error (mons h) m) as [x|] eqn:EX.
    + assert (M : m < length maxes) by (rewrite <- L1; apply nth_error_Some; congruence). destruct (nth_error (now y) m) as [o|] eqn:EO; [|apply nth_error_None in EO; lia]. destruct o as [[]|]; [contradiction|].
      pose proof (TM _ _ _ EX EO) as (MX & MP & MT & WA). rewrite MP. cbn [negb rassert]. rewrite MX, TP. unfold room.
      replace (negb (nth m maxes 0 =? 0) && (nth m maxes 0 <=? running (now y))) with (negb ((nth m maxes 0 =? 0) || (running (now y) <? nth m maxes 0))) by (destruct (Nat.eqb_spec (nth m maxes 0) 0), (Nat.ltb_spec (running (now y)) (nth m maxes 0)), (Nat.leb_spec (nth m maxes 0) (running (now y))); cbn; auto; lia).
      destruct ((nth m maxes 0 =? 0) || (running (now y) <? nth m maxes 0)); cbn [negb fst].
      * cbv zeta. eexists. split; [reflexivity|]. pose proof (running_upd _ _ _ (Some (p, true)) EO) as RU. cbn [open] in RU. split; cbn [mons nproc sq w_on killed sent set_mon now results ordered_out]; rewrite ?upd_length; auto; try lia; try congruence.
        apply mon_upd; auto. rewrite WA. repeat split.
      * exists h. split; [reflexivity|]. split; cbn; auto; congruence.
    + apply nth_error_None in EX. destruct (nth_error (now y) m) as [o|] eqn:EO; [assert (m < length (now y)) by (apply nth_error_Some; congruence); lia|]. exists h. split; [reflexivity|]. split; cbn; auto; congruence.
  - unfold do_timeout. cbn [effect]. destruct (nth_error (mons h) m) as [x|] eqn:EX.
    + assert (M : m < length maxes) by (rewrite <- L1; apply nth_error_Some; congruence). destruct (nth_error (now y) m) as [o|] eqn:EO; [|apply nth_error_None in EO; lia]. pose proof (TM _ _ _ EX EO) as (MX & MI).
      assert (SAME : tracks maxes h {| now := now y; results := if ordered_out y then results y else results y ++ []; ordered_out := ordered_out y |}) by (rewrite app_nil_r; destruct (ordered_out y) eqn:OO; destruct y; cbn in *; subst; exact T).
      destruct o as [[c b]|]; [destruct b|].
      * destruct MI as (MP & MT & WA & WB & WP). rewrite MT, MP. cbn [negb rassert]. destruct (report_ok maxes h y m true LM T M) as (h1 & -> & EM & EP & EK & EO1). cbn [rbind]. eexists. split; [reflexivity|].
        pose proof (running_upd _ _ _ (Some (c, false)) EO) as RU. cbn [open] in RU.
        split; cbn [mons nproc sq w_on killed sent set_mon now results ordered_out fst snd]; rewrite ?upd_length, ?EM, ?EP, ?EK, ?TP, ?TK; auto.
        -- apply mon_upd; auto. repeat split; auto.
        -- lia.
        -- destruct (ordered_out y); [exact TR|]. apply Forall_app. split; [exact TR|]. repeat constructor. exact M.
        -- rewrite TK in EO1. exact EO1.
      * destruct MI as (MP & MT & WA & WB & WP). rewrite MT. cbn [negb fst snd]. eauto.
      * destruct MI as (MP & MT & WA). rewrite MT. cbn [negb fst snd]. eauto.
    + apply nth_error_None in EX. destruct (nth_error (now y) m) as [o|] eqn:EO; [assert (m < length (now y)) by (apply nth_error_Some; congruence); lia|]. exists h. split; [reflexivity|]. cbn [fst snd]. rewrite app_nil_r. destruct (ordered_out y) eqn:OO; destruct y; cbn in *; subst; exact T.
  - destruct (exit_tracks maxes p f (seq 0 (length (mons h))) LM) with (h := h) (y := y) as (h' & E & T'); [apply Forall_forall; intros k K; apply in_seq in K; lia|exact T|]. exists h'. split; [exact E|]. cbn [effect fst snd].
    rewrite L1, <- L2 in T'. destruct y as [w rs oo]. cbn [now results ordered_out] in *. pose proof (fold_end1 p f w [] rs oo) as FE. cbn [length app] in FE. rewrite FE in T'. exact T'.
  - cbn [effect fst snd]. assert (ST : {| now := now y; results := if ordered_out y then results y else results y ++ []; ordered_out := ordered_out y |} = y) by (rewrite app_nil_r; destruct (ordered_out y) eqn:OO; destruct y; cbn in *; now subst).
    rewrite ST. destruct (w_on h); [|eauto]. now apply write_tracks.
  - unfold do_term. rewrite TK. destruct (ordered_out y) eqn:OO.
    + exists h. split; [reflexivity|]. destruct y; cbn in *; subst; exact T.
    + destruct TO as (l & H & O & W). destruct (enq_holds _ _ encode_exit H) as (s' & -> & H'). cbn [rbind]. eexists. split; [reflexivity|]. split; cbn; auto. exists (l ++ [encode_exit]). split; [exact H'|]. split; [|discriminate]. rewrite TK, app_nil_r in O. now rewrite app_assoc, O.
Qed.
Lemma run_tracks maxes es : length maxes <= N.to_nat 65536 -> forall h y, tracks maxes h y -> all_orderly maxes y es ->
  exists h', hrun h es = Ok h' /\ tracks maxes h' (told maxes y es).
Proof.
  intros LM. induction es as [|e es IH]; intros h y T A; cbn [hrun told]; [eauto|]. destruct A as [A1 A2]. destruct (step_tracks maxes h y e LM T A1) as (h1 & -> & T1). cbn [rbind]. now apply IH.
Qed.
Lemma init_tracks maxes : tracks maxes (hinit maxes) (quiet (length maxes)).
Proof.
  assert (R0 : forall n, running (repeat None n) = 0) by (induction n; [reflexivity|exact IHn]).
  split; cbn [mons nproc sq w_on killed sent hinit now results ordered_out quiet]; rewrite ?map_length, ?repeat_length, ?R0; auto.
  - intros m x o E1 E2. apply nth_error_In in E2. apply repeat_spec in E2. subst o. rewrite nth_error_map in E1. destruct (nth_error maxes m) as [v|] eqn:V; [|discriminate]. injection E1 as <-. apply nth_error_nth with (d := 0) in V. repeat split. cbn. now rewrite V.
  - exists []. split; [apply init_holds|]. auto.
Qed.
