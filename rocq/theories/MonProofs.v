From Verif Require Import Base MonModel MonSpec.
Local Open Scope N_scope.
Ltac Zify.zify_post_hook ::= idtac.

(** ** Bit facts *)
Lemma land_pow2 s n : N.land s (2 ^ n) = if N.testbit s n then 2 ^ n else 0.
Proof.
  apply N.bits_inj; intro k. rewrite N.land_spec.
  destruct (N.eq_dec k n) as [->|Hk].
  - rewrite N.pow2_bits_true, andb_true_r. destruct (N.testbit s n); rewrite ?N.pow2_bits_true, ?N.bits_0; auto.
  - rewrite N.pow2_bits_false by congruence. rewrite andb_false_r.
    destruct (N.testbit s n); rewrite ?N.bits_0; auto. now rewrite N.pow2_bits_false by congruence.
Qed.

Lemma has_pow2 s n : has s (2 ^ n) = N.odd (s / 2 ^ n).
Proof.
  unfold has. rewrite land_pow2, N.testbit_odd, N.shiftr_div_pow2.
  destruct (N.odd (s / 2 ^ n)); auto.
  destruct (2 ^ n =? 0) eqn:E; auto. apply N.eqb_eq in E. exfalso; revert E. apply N.pow_nonzero; lia.
Qed.

Lemma has_down s : has s STTL_DOWN = w_down s.
Proof. exact (has_pow2 s 31). Qed.
Lemma has_forced s : has s STTL_FORCED = w_forced s.
Proof. exact (has_pow2 s 30). Qed.

Lemma land_mask s : N.land s STTL_TTL_MASK = w_ttl s.
Proof. change STTL_TTL_MASK with (N.ones 28). unfold w_ttl. apply N.land_ones. Qed.

Lemma reserved_land s : N.land s STTL_RESERVED = N.shiftl (N.land (s / 2 ^ 28) 3) 28.
Proof.
  change STTL_RESERVED with (N.shiftl 3 28).
  rewrite <- N.shiftr_div_pow2. rewrite N.shiftl_land.
  apply N.bits_inj; intro k. rewrite !N.land_spec.
  destruct (N.lt_ge_cases k 28).
  - rewrite !N.shiftl_spec_low by auto. now rewrite andb_false_r.
  - rewrite !N.shiftl_spec_high' by auto. rewrite N.shiftr_spec'. f_equal. f_equal. lia.
Qed.

Lemma valid_iff s : valid_sttl s = true <-> (s / 2 ^ 28) mod 4 = 0.
Proof.
  unfold valid_sttl. rewrite reserved_land, N.eqb_eq, N.shiftl_eq_0_iff.
  change 3 with (N.ones 2). rewrite N.land_ones. reflexivity.
Qed.

(** a word is its parts *)
Lemma word_split w : w_legal w -> w = word (w_down w) (w_forced w) (w_ttl w).
Proof.
  intros [H32 Hr]. unfold word, w_down, w_forced, w_ttl.
  change (2 ^ 31) with (8 * 2 ^ 28). change (2 ^ 30) with (4 * 2 ^ 28).
  assert (HP : 2 ^ 28 <> 0) by discriminate.
  assert (E := N.div_mod w (2 ^ 28) HP).
  change (8 * 2 ^ 28) with (2 ^ 28 * 8). change (4 * 2 ^ 28) with (2 ^ 28 * 4).
  rewrite <- !N.div_div by discriminate.
  assert (Q : w / 2 ^ 28 < 16).
  { apply N.div_lt_upper_bound; auto. }
  remember (w / 2 ^ 28) as q. clear Heqq.
  assert (q = 0 \/ q = 4 \/ q = 8 \/ q = 12) as [->|[->|[->| ->]]].
  { assert (E4 := N.div_mod q 4 ltac:(discriminate)). rewrite Hr in E4.
    assert (q / 4 < 4) by (apply N.div_lt_upper_bound; [discriminate | lia]). lia. }
  all: rewrite E at 1; generalize (w mod 2 ^ 28); intro r.
  all: repeat match goal with |- context [N.odd (?a / ?b)] =>
         let x := eval vm_compute in (N.odd (a / b)) in change (N.odd (a / b)) with x end.
  all: cbv iota; lia.
Qed.

Lemma word_parts d f t : t < 2 ^ 28 ->
  w_legal (word d f t) /\ w_down (word d f t) = d /\ w_forced (word d f t) = f /\ w_ttl (word d f t) = t.
Proof.
  intros H. unfold w_legal, word, w_down, w_forced, w_ttl.
  change (2 ^ 31) with (2 ^ 28 * 8). change (2 ^ 30) with (2 ^ 28 * 4).
  change (2 ^ 32) with (2 ^ 28 * 16).
  rewrite <- !N.div_div by discriminate.
  assert (HP : 2 ^ 28 <> 0) by discriminate.
  set (q := (if d then 8 else 0) + (if f then 4 else 0)).
  assert (E : (if d then 2 ^ 28 * 8 else 0) + (if f then 2 ^ 28 * 4 else 0) + t = q * 2 ^ 28 + t)
    by (subst q; destruct d, f; lia).
  rewrite E.
  rewrite N.div_add_l by auto. rewrite (N.div_small t) by auto. rewrite N.add_0_r.
  rewrite N.add_comm, N.mod_add by auto. rewrite (N.mod_small t) by auto.
  subst q. destruct d, f; repeat split; auto; lia.
Qed.

Lemma word_lor d f t : t < 2 ^ 28 ->
  word d f t = N.lor (N.lor (if d then STTL_DOWN else 0) (if f then STTL_FORCED else 0)) t.
Proof.
  intros H.
  assert (L : N.land (N.lor (if d then STTL_DOWN else 0) (if f then STTL_FORCED else 0)) t = 0).
  { rewrite <- (N.mod_small t (2 ^ 28)) by auto. rewrite <- N.land_ones.
    rewrite (N.land_comm t), N.land_assoc. destruct d, f; reflexivity. }
  rewrite <- N.lxor_lor by auto. rewrite <- N.add_nocarry_lxor by auto.
  unfold word. f_equal. destruct d, f; reflexivity.
Qed.

Lemma word_inj d f t d' f' t' : t < 2 ^ 28 -> t' < 2 ^ 28 ->
  word d f t = word d' f' t' -> d = d' /\ f = f' /\ t = t'.
Proof.
  intros H H' E. destruct (word_parts d f t H) as (_ & A & B & C).
  destruct (word_parts d' f' t' H') as (_ & A' & B' & C'). rewrite E in *. repeat split; congruence.
Qed.

Lemma legal_valid w : w_legal w -> valid_sttl w = true.
Proof. intros [_ H]. now apply valid_iff. Qed.

(** ** Combination *)
Lemma lor_words d f t d' f' t' : t < 2 ^ 28 -> t' < 2 ^ 28 ->
  N.land (N.lor (word d f t) (word d' f' t')) (N.lor STTL_DOWN STTL_FORCED) =
  word (d || d') (f || f') 0.
Proof.
  intros H H'. rewrite !word_lor by (auto; reflexivity).
  rewrite !N.land_lor_distr_l.
  assert (L : forall x, x < 2 ^ 28 -> N.land x (N.lor STTL_DOWN STTL_FORCED) = 0).
  { intros x Hx. rewrite <- (N.mod_small x (2 ^ 28)) by auto. rewrite <- N.land_ones, <- N.land_assoc.
    change (N.land (N.ones 28) (N.lor STTL_DOWN STTL_FORCED)) with 0. apply N.land_0_r. }
  rewrite (L t), (L t') by auto. destruct d, f, d', f'; reflexivity.
Qed.

Lemma min2_word a b : w_legal a -> w_legal b ->
  sttl_min2 a b = word (w_down a || w_down b) (w_forced a || w_forced b) (N.min (w_ttl a) (w_ttl b)).
Proof.
  intros Ha Hb. unfold sttl_min2. rewrite !land_mask.
  assert (Ta : w_ttl a < 2 ^ 28) by (apply N.mod_lt; discriminate).
  assert (Tb : w_ttl b < 2 ^ 28) by (apply N.mod_lt; discriminate).
  assert (S : N.land (N.lor a b) (N.lor STTL_DOWN STTL_FORCED) =
              word (w_down a || w_down b) (w_forced a || w_forced b) 0).
  { rewrite (word_split a Ha) at 1. rewrite (word_split b Hb) at 1. now apply lor_words. }
  rewrite S.
  assert (L : forall d f t, t < 2 ^ 28 -> N.lor (word d f 0) t = word d f t).
  { intros. rewrite !word_lor by (auto; reflexivity). now rewrite N.lor_0_r. }
  destruct (w_ttl a <? w_ttl b) eqn:E.
  - apply N.ltb_lt in E. rewrite L by auto. f_equal; auto. lia.
  - apply N.ltb_ge in E. rewrite L by auto. f_equal; auto. lia.
Qed.

Lemma min_from_word tbl idxs : forall rv, w_legal rv ->
  Forall (fun i => exists w, nth_error tbl i = Some w /\ w_legal w) idxs ->
  exists r, sttl_min_from tbl rv idxs = Ok r /\ w_legal r /\
    (w_down r = true <-> w_down rv = true \/ exists i w, In i idxs /\ nth_error tbl i = Some w /\ w_down w = true) /\
    (w_forced r = true <-> w_forced rv = true \/ exists i w, In i idxs /\ nth_error tbl i = Some w /\ w_forced w = true) /\
    (w_ttl r <= w_ttl rv /\ (forall i w, In i idxs -> nth_error tbl i = Some w -> w_ttl r <= w_ttl w)) /\
    (w_ttl r = w_ttl rv \/ exists i w, In i idxs /\ nth_error tbl i = Some w /\ w_ttl r = w_ttl w).
Proof.
  induction idxs as [|i is IH]; intros rv Hrv HF; cbn [sttl_min_from].
  - exists rv. split; [auto|]. split; [auto|]. split; [|split; [|split]].
    + split; [auto|]. intros [?|(?&?&[]&_)]; auto.
    + split; [auto|]. intros [?|(?&?&[]&_)]; auto.
    + split; [lia|]. intros ? ? [].
    + auto.
  - inversion HF as [|? ? (w & Hw & Lw) HF']; subst.
    unfold rd. rewrite Hw. cbn [rbind].
    assert (Ta : w_ttl rv < 2 ^ 28) by (apply N.mod_lt; discriminate).
    assert (Tb : w_ttl w < 2 ^ 28) by (apply N.mod_lt; discriminate).
    assert (Hm : N.min (w_ttl rv) (w_ttl w) < 2 ^ 28) by lia.
    destruct (word_parts (w_down rv || w_down w) (w_forced rv || w_forced w) _ Hm) as (L & D & F & T).
    rewrite min2_word by auto.
    destruct (IH _ L HF') as (r & E & Lr & Hd & Hf & (Ht1 & Ht2) & Ht3).
    exists r. split; [auto|]. split; [auto|]. rewrite D in Hd. rewrite F in Hf. rewrite T in Ht1, Ht3.
    split; [|split; [|split]].
    + rewrite Hd, orb_true_iff. split.
      * intros [[?|?]|(j&x&?&?&?)]; auto; right; [exists i, w | exists j, x]; cbn; auto.
      * intros [?|(j&x&[->|?]&?&?)]; auto.
        -- left; right; congruence.
        -- right; exists j, x; auto.
    + rewrite Hf, orb_true_iff. split.
      * intros [[?|?]|(j&x&?&?&?)]; auto; right; [exists i, w | exists j, x]; cbn; auto.
      * intros [?|(j&x&[->|?]&?&?)]; auto.
        -- left; right; congruence.
        -- right; exists j, x; auto.
    + split; [lia|]. intros j x [->|Hj] Hx; [|eauto]. assert (x = w) by congruence. subst. lia.
    + destruct Ht3 as [->|(j&x&?&?&?)].
      * destruct (N.min_spec (w_ttl rv) (w_ttl w)) as [[_ ->]|[_ ->]]; auto.
        right. exists i, w. cbn; auto.
      * right. exists j, x. cbn; auto.
Qed.

(** ** Text *)
Lemma strip_ci_spec p s r :
  strip_ci p s = Some r <-> exists a, s = a ++ r /\ ci a p.
Proof.
  revert s; induction p as [|x p IH]; intros s; cbn [strip_ci].
  - split.
    + intros [= ->]. exists []. split; auto. reflexivity.
    + intros (a & -> & Ha). destruct a; [reflexivity|discriminate].
  - destruct s as [|y s].
    + split; [discriminate|]. intros (a & E & Ha). destruct a; [discriminate|discriminate].
    + destruct (upcase x =? upcase y) eqn:E.
      * apply N.eqb_eq in E. rewrite IH. split.
        -- intros (a & -> & Ha). exists (y :: a). split; auto. unfold ci in *. cbn. congruence.
        -- intros (a & Es & Ha). destruct a as [|z a]; [discriminate|].
           cbn in Es. injection Es as <- ->. unfold ci in *. cbn in Ha. injection Ha as _ Ha. eauto.
      * split; [discriminate|]. intros (a & Es & Ha). destruct a as [|z a]; [discriminate|].
        cbn in Es. injection Es as <- ->. unfold ci in Ha. cbn in Ha. injection Ha as Hz _.
        apply N.eqb_neq in E. congruence.
Qed.

Lemma skip_space_spec s : exists sp, s = sp ++ skip_space s /\
  Forall (fun b => isspace b = true) sp /\
  match skip_space s with b :: _ => isspace b = false | [] => True end.
Proof.
  induction s as [|b s IH]; cbn [skip_space].
  - exists []. auto.
  - destruct (isspace b) eqn:E.
    + destruct IH as (sp & Hs & HF & Hh). exists (b :: sp). split; [cbn; congruence|]. auto.
    + exists []. split; auto.
Qed.

Lemma skip_space_app sp s : Forall (fun b => isspace b = true) sp ->
  match s with b :: _ => isspace b = false | [] => True end ->
  skip_space (sp ++ s) = s.
Proof.
  intros HF Hs. induction HF as [|b sp Hb HF IH]; cbn [app skip_space].
  - destruct s; auto. cbn. now rewrite Hs.
  - now rewrite Hb.
Qed.

Lemma isdigit_iff b : isdigit b = true <-> 48 <= b <= 57.
Proof. unfold isdigit. rewrite andb_true_iff, !N.leb_le. tauto. Qed.

(** digits with an accumulator against the specification *)
Fixpoint fold_digits (acc : N) (s : bytes) : N :=
  match s with [] => acc | b :: s' => fold_digits (acc * 10 + (b - 48)) s' end.

Lemma digits_spec s : forall acc v rest, digits acc s = (v, rest) ->
  exists d, s = d ++ rest /\ Forall (fun b => isdigit b = true) d /\
    v = fold_digits acc d /\ match rest with b :: _ => isdigit b = false | [] => True end.
Proof.
  induction s as [|b s IH]; intros acc v rest; cbn [digits].
  - intros [= <- <-]. exists []. cbn. auto.
  - destruct (isdigit b) eqn:E.
    + intros H. destruct (IH _ _ _ H) as (d & -> & HF & Hv & Hr).
      exists (b :: d). cbn. auto.
    + intros [= <- <-]. exists []. cbn. auto.
Qed.

Lemma digits_app d : forall acc rest, Forall (fun b => isdigit b = true) d ->
  match rest with b :: _ => isdigit b = false | [] => True end ->
  digits acc (d ++ rest) = (fold_digits acc d, rest).
Proof.
  induction d as [|b d IH]; intros acc rest HF Hr; cbn [app digits fold_digits].
  - destruct rest; auto. cbn. now rewrite Hr.
  - inversion HF; subst. rewrite H1. auto.
Qed.

Lemma fold_digits_snoc d : forall acc b, fold_digits acc (d ++ [b]) = fold_digits acc d * 10 + (b - 48).
Proof. induction d as [|c d IH]; intros; cbn; auto. Qed.

Lemma decimal_iff s v : decimal s v <->
  s <> [] /\ Forall (fun b => isdigit b = true) s /\ v = fold_digits 0 s.
Proof.
  split.
  - induction 1 as [b Hb | s v b H IH Hb].
    + split; [discriminate|]. split; [repeat constructor; now apply isdigit_iff|]. cbn [fold_digits]. lia.
    + destruct IH as (_ & HF & ->). split; [destruct s; discriminate|]. split.
      * apply Forall_app; split; auto. repeat constructor. now apply isdigit_iff.
      * rewrite fold_digits_snoc. lia.
  - revert v. induction s as [|b s IH] using rev_ind; intros v (Hn & HF & ->); [congruence|].
    apply Forall_app in HF as [HF Hb]. inversion Hb; subst. apply isdigit_iff in H1.
    destruct s as [|c s].
    + cbn [app fold_digits]. replace (0 * 10 + (b - 48)) with (b - 48) by lia. constructor; auto.
    + rewrite fold_digits_snoc. rewrite N.mul_comm. constructor; auto.
      apply IH. split; [discriminate|]. split; auto.
Qed.

Lemma isdigit_nospace b : isdigit b = true -> isspace b = false.
Proof.
  rewrite isdigit_iff. intros H. unfold isspace.
  destruct (b =? 32) eqn:E; [apply N.eqb_eq in E; lia|].
  destruct (9 <=? b) eqn:E1, (b <=? 13) eqn:E2; auto. apply N.leb_le in E2; lia.
Qed.
Lemma isdigit_nosign b : isdigit b = true -> (b =? 45) = false /\ (b =? 43) = false.
Proof. rewrite isdigit_iff. intros H. split; apply N.eqb_neq; lia. Qed.

Lemma two64_eq : two64 = 2 ^ 64. Proof. reflexivity. Qed.
Local Opaque two64.

Lemma strtoul_spec s v : s <> [] ->
  strtoul s = (false, v, []) <-> c_number s v.
Proof.
  intros Hs. split.
  - unfold strtoul. destruct (skip_space_spec s) as (sp & E & HF & Hh).
    remember (skip_space s) as s1 eqn:E1. clear E1.
    destruct s1 as [|b t].
    { cbn. intros [= _ ->]. congruence. }
    assert (Fin : forall neg s2,
      match s2 with
      | b0 :: _ => if isdigit b0 then let '(v0, rest) := digits 0 s2 in
           if two64 <=? v0 then (true, two64 - 1, rest)
           else (false, if neg : bool then (two64 - v0) mod two64 else v0, rest)
         else (false, 0, s) | [] => (false, 0, s) end = (false, v, []) ->
      exists x, decimal s2 x /\ x < 2 ^ 64 /\ v = if neg then (2 ^ 64 - x) mod 2 ^ 64 else x).
    { intros neg s2. destruct s2 as [|b0 s2']; [intros [= _ ->]; congruence|].
      destruct (isdigit b0) eqn:Eb; [|intros [= _ ->]; congruence].
      destruct (digits 0 (b0 :: s2')) as [x rest] eqn:Ed.
      destruct (two64 <=? x) eqn:El; [discriminate|].
      intros [= Hv Hr]. subst rest.
      apply digits_spec in Ed as (d & Ed & HFd & Hx & _). rewrite app_nil_r in Ed. subst d.
      exists x. split; [|split].
      - apply decimal_iff. split; [discriminate|]. auto.
      - apply N.leb_gt in El. exact El.
      - rewrite two64_eq in Hv. auto. }
    destruct (b =? 45) eqn:E45; [|destruct (b =? 43) eqn:E43].
    + apply N.eqb_eq in E45. subst b. intros H. destruct (Fin true t H) as (x & Hd & Hx & ->).
      rewrite E. apply num_minus; auto.
    + apply N.eqb_eq in E43. subst b. intros H. destruct (Fin false t H) as (x & Hd & Hx & ->).
      rewrite E. apply num_plus; auto.
    + intros H. destruct (Fin false (b :: t) H) as (x & Hd & Hx & ->). rewrite E. apply num_pos; auto.
  - intros H.
    assert (Fin : forall neg s2 x, decimal s2 x -> x < 2 ^ 64 ->
      match s2 with
      | b0 :: _ => if isdigit b0 then let '(v0, rest) := digits 0 s2 in
           if two64 <=? v0 then (true, two64 - 1, rest)
           else (false, if neg : bool then (two64 - v0) mod two64 else v0, rest)
         else (false, 0, s) | [] => (false, 0, s) end =
      (false, if neg then (2 ^ 64 - x) mod 2 ^ 64 else x, [])).
    { intros neg s2 x Hd Hx. apply decimal_iff in Hd as (Hn & HF & Ex).
      destruct s2 as [|b0 s2']; [congruence|]. inversion HF as [|? ? Hb0 _]; subst.
      rewrite Hb0. replace (b0 :: s2') with ((b0 :: s2') ++ []) at 1 by apply app_nil_r.
      rewrite digits_app by auto.
      destruct (two64 <=? fold_digits 0 (b0 :: s2')) eqn:El.
      - apply N.leb_le in El. rewrite two64_eq in El. exfalso. revert El. apply N.lt_nge. exact Hx.
      - rewrite two64_eq. reflexivity. }
    unfold strtoul. destruct H as [sp d x HF Hd Hx | sp d x HF Hd Hx | sp d x HF Hd Hx].
    + assert (Hd' := Hd). apply decimal_iff in Hd' as (Hn & HFd & _).
      destruct d as [|b0 d']; [congruence|]. inversion HFd as [|? ? Hb0 _]; subst.
      rewrite skip_space_app by (auto; now apply isdigit_nospace).
      destruct (isdigit_nosign _ Hb0) as [-> ->]. exact (Fin false _ _ Hd Hx).
    + rewrite skip_space_app by (auto; reflexivity). cbn [N.eqb Pos.eqb]. exact (Fin false _ _ Hd Hx).
    + rewrite skip_space_app by (auto; reflexivity). cbn [N.eqb Pos.eqb]. exact (Fin true _ _ Hd Hx).
Qed.

Lemma ci_length a b : ci a b -> length a = length b.
Proof. unfold ci. intros H. rewrite <- (map_length upcase a), H. apply map_length. Qed.

Lemma c_number_nonempty n v : c_number n v -> n <> [].
Proof.
  intros H E. destruct H as [sp d x _ Hd _ | sp d x _ Hd _ | sp d x _ Hd _].
  - apply app_eq_nil in E as [_ ->]. apply decimal_iff in Hd as (H & _). congruence.
  - destruct sp; discriminate.
  - destruct sp; discriminate.
Qed.

Lemma out_ldiff (d : bool) def v : def < 2 ^ 28 -> v < 2 ^ 28 ->
  N.lor (N.ldiff (if d then N.lor def STTL_DOWN else def) STTL_TTL_MASK) v = word d false v.
Proof.
  intros Hd Hv. rewrite word_lor by auto. f_equal.
  change STTL_TTL_MASK with (N.ones 28).
  rewrite !N.ldiff_ones_r.
  assert (E : N.shiftr (if d then N.lor def STTL_DOWN else def) 28 = if d then 8 else 0).
  { assert (E0 : N.shiftr def 28 = 0) by (rewrite N.shiftr_div_pow2; apply N.div_small; auto).
    destruct d; auto. rewrite N.shiftr_lor, E0. reflexivity. }
  rewrite E. destruct d; reflexivity.
Qed.

(** the parser on the text after the state name *)
Lemma parse_exact s def : def < 2 ^ 28 ->
  exists r, mon_parse_sttl s def = Ok r /\
    (forall w, r = Some w <-> exists d t, sttl_text def s d t /\ w = word d false t).
Proof.
  intros Hdef. unfold mon_parse_sttl.
  assert (Vd : valid_sttl def = true).
  { apply valid_iff. rewrite (N.div_small def) by auto. reflexivity. }
  rewrite Vd. cbn [rassert].
  set (body := fun (out : N) (suffix : option bytes) =>
     match suffix with
     | None => Ok None
     | Some [] => Ok (Some out)
     | Some (slash :: ttl_suffix) =>
         match ttl_suffix with
         | [] => Ok None
         | _ :: _ =>
             if slash =? 47 then
               let '(err, v, rest) := strtoul ttl_suffix in
               match rest with
               | [] => if negb err && (v <=? STTL_TTL_MAX) then
                         let out := N.lor (N.ldiff out STTL_TTL_MASK) v in
                         rassert (valid_sttl out) (Ok (Some out))
                       else Ok None
               | _ => Ok None
               end
             else Ok None
         end
     end).
  assert (B : forall (d : bool) suf, exists r, body (if d then N.lor def STTL_DOWN else def) (Some suf) = Ok r /\
     forall w, r = Some w <-> (suf = [] /\ w = word d false def) \/
       exists n v, suf = 47 :: n /\ c_number n v /\ v < 2 ^ 28 /\ w = word d false v).
  { intros d suf. cbn [body]. destruct suf as [|c n].
    { eexists. split; [reflexivity|]. intros w. 
      assert (Ew : (if d then N.lor def STTL_DOWN else def) = word d false def).
      { rewrite word_lor by auto. destruct d; cbn [N.lor]; [rewrite N.lor_comm|]; reflexivity. }
      rewrite Ew. split.
      - intros [= <-]. auto.
      - intros [[_ ->]|(n & v & E & _)]; [auto|discriminate]. }
    destruct n as [|c2 n].
    { eexists. split; [reflexivity|]. intros w. split; [discriminate|].
      intros [[E _]|(n & v & E & Hn & _)]; [discriminate|].
      injection E as _ <-. exfalso. now apply c_number_nonempty in Hn. }
    destruct (c =? 47) eqn:Ec.
    2:{ apply N.eqb_neq in Ec. eexists. split; [reflexivity|]. intros w. split; [discriminate|].
        intros [[E _]|(n0 & v & E & _)]; congruence. }
    apply N.eqb_eq in Ec. subst c.
    remember (c2 :: n) as num eqn:En. assert (Hne : num <> []) by (subst; discriminate).
    destruct (strtoul num) as [[err v] rest] eqn:Est.
    assert (Bad : (forall v', v' < 2 ^ 28 -> strtoul num <> (false, v', [])) ->
       forall w, @None N = Some w <-> (47 :: num = [] /\ w = word d false def) \/
       exists n v, 47 :: num = 47 :: n /\ c_number n v /\ v < 2 ^ 28 /\ w = word d false v).
    { intros Hb w. split; [discriminate|]. intros [[E _]|(n0 & v0 & E & Hn0 & Hv0 & _)]; [discriminate|].
      injection E as <-. exfalso. apply (Hb v0 Hv0). now apply strtoul_spec. }
    destruct rest as [|c3 rest].
    2:{ eexists. split; [reflexivity|]. apply Bad. rewrite Est. intros; congruence. }
    destruct err; cbn [negb andb].
    { eexists. split; [reflexivity|]. apply Bad. rewrite Est. intros; congruence. }
    destruct (v <=? STTL_TTL_MAX) eqn:Ev.
    2:{ eexists. split; [reflexivity|]. apply Bad. rewrite Est. intros v' Hv' [= ->].
        apply N.leb_gt in Ev. change STTL_TTL_MAX with (2 ^ 28 - 1) in Ev. lia. }
    apply N.leb_le in Ev.
    assert (Hv : v < 2 ^ 28) by (change STTL_TTL_MAX with (2 ^ 28 - 1) in Ev; lia).
    rewrite out_ldiff by auto.
    destruct (word_parts d false v Hv) as (Lw & _). rewrite (legal_valid _ Lw). cbn [rassert].
    eexists. split; [reflexivity|]. intros w. split.
    - intros [= <-]. right. exists num, v. repeat split; auto. now apply strtoul_spec.
    - intros [[E _]|(n0 & v0 & E & Hn0 & Hv0 & ->)]; [discriminate|]. injection E as <-.
      apply strtoul_spec in Hn0; auto. rewrite Est in Hn0. congruence. }
  assert (UpDown : forall r r', strip_ci txt_UP s = Some r -> strip_ci txt_DOWN s = Some r' -> False).
  { intros r r' H1 H2. apply strip_ci_spec in H1 as (a & E & Ha). apply strip_ci_spec in H2 as (b & E' & Hb).
    destruct a as [|a0 a]; [discriminate|]. destruct b as [|b0 b]; [discriminate|].
    unfold ci in *. cbn in Ha, Hb. injection Ha as Ha _. injection Hb as Hb _.
    rewrite E in E'. cbn in E'. injection E' as -> _. rewrite Ha in Hb. discriminate. }
  destruct (strip_ci txt_UP s) as [suf|] eqn:EU.
  - change (exists r, body (if false then N.lor def STTL_DOWN else def) (Some suf) = Ok r /\
      (forall w, r = Some w <-> exists d t, sttl_text def s d t /\ w = word d false t)).
    destruct (B false suf) as (r & Er & Hr). exists r. split; auto. intros w. rewrite Hr.
    assert (EU' := EU). apply strip_ci_spec in EU' as (a & Es & Ha). split.
    + intros [[-> ->]|(n & v & -> & Hn & Hv & ->)].
      * rewrite app_nil_r in Es. subst s. exists false, def. split; auto. constructor. now constructor.
      * subst s. exists false, v. split; auto. apply tx_ttl; auto. now constructor.
    + intros (d & t & Ht & ->). inversion Ht as [s' d' Hst|s' d' n v Hst Hn Hv]; subst.
      * destruct Hst as [x Hx|x Hx].
        -- assert (E2 : strip_ci txt_UP x = Some []).
           { apply strip_ci_spec. exists x. rewrite app_nil_r. auto. }
           left. split; congruence.
        -- exfalso. apply (UpDown suf []); auto. apply strip_ci_spec. exists x. rewrite app_nil_r. auto.
      * destruct Hst as [x Hx|x Hx].
        -- assert (E2 : strip_ci txt_UP (x ++ 47 :: n) = Some (47 :: n)).
           { apply strip_ci_spec. exists x. auto. }
           right. exists n, t. repeat split; auto. congruence.
        -- exfalso. apply (UpDown suf (47 :: n)); auto. apply strip_ci_spec. exists x. auto.
  - destruct (strip_ci txt_DOWN s) as [suf|] eqn:ED.
    + change (exists r, body (if true then N.lor def STTL_DOWN else def) (Some suf) = Ok r /\
        (forall w, r = Some w <-> exists d t, sttl_text def s d t /\ w = word d false t)).
      destruct (B true suf) as (r & Er & Hr). exists r. split; auto. intros w. rewrite Hr.
      assert (ED' := ED). apply strip_ci_spec in ED' as (a & Es & Ha). split.
      * intros [[-> ->]|(n & v & -> & Hn & Hv & ->)].
        -- rewrite app_nil_r in Es. subst s. exists true, def. split; auto. constructor. now constructor.
        -- subst s. exists true, v. split; auto. apply tx_ttl; auto. now constructor.
      * intros (d & t & Ht & ->). inversion Ht as [s' d' Hst|s' d' n v Hst Hn Hv]; subst.
        -- destruct Hst as [x Hx|x Hx].
           ++ exfalso. assert (E2 : strip_ci txt_UP x = Some []).
              { apply strip_ci_spec. exists x. rewrite app_nil_r. auto. } congruence.
           ++ assert (E2 : strip_ci txt_DOWN x = Some []).
              { apply strip_ci_spec. exists x. rewrite app_nil_r. auto. }
              left. split; congruence.
        -- destruct Hst as [x Hx|x Hx].
           ++ exfalso. assert (E2 : strip_ci txt_UP (x ++ 47 :: n) = Some (47 :: n)).
              { apply strip_ci_spec. exists x. auto. } congruence.
           ++ assert (E2 : strip_ci txt_DOWN (x ++ 47 :: n) = Some (47 :: n)).
              { apply strip_ci_spec. exists x. auto. }
              right. exists n, t. repeat split; auto. congruence.
    + exists None. split; [reflexivity|]. intros w. split; [discriminate|].
      intros (d & t & Ht & ->). exfalso.
      assert (X : exists a r, s = a ++ r /\ state_text a d).
      { inversion Ht; subst; [exists s, [] | exists s0, (47 :: n)]; rewrite ?app_nil_r; auto. }
      destruct X as (a & r & Es & Hst). destruct Hst as [x Hx|x Hx].
      * assert (E2 : strip_ci txt_UP s = Some r) by (apply strip_ci_spec; exact (ex_intro _ _ (conj Es Hx))). congruence.
      * assert (E2 : strip_ci txt_DOWN s = Some r) by (apply strip_ci_spec; exact (ex_intro _ _ (conj Es Hx))). congruence.
Qed.
