(** Numbers: parts of a whole in floating point, weights, decimal labels *)
From Coq Require Import ZArith.
From Verif Require Import Base DnameSpec MonModel OptModel OptSpec OptProofs PlugModel PconfModel PconfSpec.
Local Open Scope N_scope.
Ltac Zify.zify_post_hook ::= idtac.

(** ** Rounding *)
Lemma size_bounds n : n <> 0 -> 2 ^ (N.size n - 1) <= n < 2 ^ N.size n.
Proof.
  intros H. rewrite N.size_log2 by assumption. pose proof (N.log2_spec n ltac:(lia)) as L.
  replace (N.succ (N.log2 n) - 1) with (N.log2 n) by lia. exact L.
Qed.

Lemma round53_small n : n < 2 ^ 53 -> round53 n = n.
Proof.
  intros H. unfold round53. assert (N.size n - 53 = 0) as ->.
  { destruct (N.eq_dec n 0) as [->|N0]; [reflexivity|]. pose proof (size_bounds n N0) as (B & _).
    assert (2 ^ (N.size n - 1) < 2 ^ 53) as L by lia. apply N.pow_lt_mono_r_iff in L; lia. }
  cbv zeta. rewrite !N.shiftl_0_r, N.shiftr_0_r, N.sub_diag. reflexivity.
Qed.

(** What the rounding does to a large number *)
Lemma round53_big n : 2 ^ 53 <= n -> exists sh q r, sh = N.size n - 53 /\ n = q * 2 ^ sh + r /\ r < 2 ^ sh /\ 2 ^ 52 <= q < 2 ^ 53 /\ 0 < sh /\
  (round53 n = q * 2 ^ sh /\ 2 * r <= 2 ^ sh \/ round53 n = (q + 1) * 2 ^ sh /\ 2 ^ sh <= 2 * r).
Proof.
  intros H. set (sh := N.size n - 53). assert (N0 : n <> 0) by (intros ->; cbn in H; lia).
  pose proof (size_bounds n N0) as (B1 & B2).
  assert (S : 53 < N.size n). { assert (2 ^ 53 < 2 ^ N.size n) as L by lia. now apply N.pow_lt_mono_r_iff in L; [|lia]. }
  assert (P : 2 ^ sh <> 0) by (apply N.pow_nonzero; lia).
  exists sh, (n / 2 ^ sh), (n mod 2 ^ sh). split; [reflexivity|].
  pose proof (N.div_mod n (2 ^ sh) P) as DM. pose proof (N.mod_lt n (2 ^ sh) P) as ML.
  split; [rewrite N.mul_comm; exact DM|]. split; [exact ML|].
  split.
  { split.
    - apply N.div_le_lower_bound; [exact P|]. rewrite <- N.pow_add_r. unfold sh. replace (N.size n - 53 + 52) with (N.size n - 1) by lia. exact B1.
    - apply N.div_lt_upper_bound; [exact P|]. rewrite <- N.pow_add_r. unfold sh. replace (N.size n - 53 + 53) with (N.size n) by lia. exact B2. }
  split; [unfold sh; lia|].
  unfold round53. fold sh. rewrite N.shiftr_div_pow2, !N.shiftl_mul_pow2.
  replace (n - n / 2 ^ sh * 2 ^ sh) with (n mod 2 ^ sh) by (rewrite (N.mul_comm (n / 2 ^ sh)); lia).
  destruct (N.ltb_spec (2 ^ sh) (2 * (n mod 2 ^ sh))) as [L|L]; cbn [orb].
  - right. split; [reflexivity|lia].
  - destruct (N.eqb_spec (2 ^ sh) (2 * (n mod 2 ^ sh))) as [L2|L2]; cbn [andb].
    + destruct (N.odd (n / 2 ^ sh)); [right|left]; split; try reflexivity; lia.
    + left. split; [reflexivity|lia].
Qed.

Lemma round53_close n : n * (2 ^ 53 - 1) <= round53 n * 2 ^ 53 /\ round53 n * 2 ^ 53 <= n * (2 ^ 53 + 1).
Proof.
  destruct (N.lt_ge_cases n (2 ^ 53)) as [L|L]; [rewrite round53_small by exact L; split; apply N.mul_le_mono_l; cbv; discriminate|].
  destruct (round53_big n L) as (sh & q & r & _ & -> & R & (Q1 & Q2) & _ & E). set (D := 2 ^ sh) in *.
  change (2 ^ 53) with 9007199254740992 in *. change (2 ^ 52) with 4503599627370496 in *.
  assert (QD : 4503599627370496 * D <= q * D) by now apply N.mul_le_mono_r.
  destruct E as [(-> & R2)|(-> & R2)]; [|replace ((q + 1) * D) with (q * D + D) by (rewrite N.mul_add_distr_r, N.mul_1_l; reflexivity)]; set (X := q * D) in *; lia.
Qed.

(** Nothing is rounded beyond a number of few digits *)
Lemma round53_below n a k : a < 2 ^ 53 -> n <= a * 2 ^ k -> round53 n <= a * 2 ^ k.
Proof.
  intros A B. destruct (N.lt_ge_cases n (2 ^ 53)) as [L|L]; [now rewrite round53_small|].
  destruct (round53_big n L) as (sh & q & r & _ & E & R & (Q1 & Q2) & S & C). destruct C as [(-> & _)|(-> & R2)]; [lia|].
  assert (K : sh <= k).
  { destruct (N.le_gt_cases sh k) as [K|K]; [exact K|exfalso].
    assert (a * 2 ^ k < 2 ^ 53 * 2 ^ k) by (apply N.mul_lt_mono_pos_r; [apply N.neq_0_lt_0, N.pow_nonzero; lia|exact A]).
    assert (2 ^ 53 * 2 ^ k <= 2 ^ 52 * 2 ^ sh). { rewrite <- !N.pow_add_r. apply N.pow_le_mono_r; lia. }
    assert (2 ^ 52 * 2 ^ sh <= q * 2 ^ sh) by (apply N.mul_le_mono_r; exact Q1). lia. }
  replace k with (k - sh + sh) in * by lia. rewrite N.pow_add_r, N.mul_assoc in *. set (y := a * 2 ^ (k - sh)) in *. set (D := 2 ^ sh) in *.
  apply N.mul_le_mono_r. assert (q * D < y * D) as X by lia. apply N.mul_lt_mono_pos_r in X; lia.
Qed.

Lemma round53_pos n : 0 < n -> 0 < round53 n.
Proof.
  intros H. destruct (N.eq_dec (round53 n) 0) as [E|]; [|lia]. pose proof (round53_close n) as (C & _). rewrite E in C.
  change (2 ^ 53) with 9007199254740992 in C. lia.
Qed.

Lemma ceil_spec n d : d <> 0 -> let c := (n + d - 1) / d in n <= c * d /\ (0 < n -> 0 < c /\ (c - 1) * d < n).
Proof.
  intros D c. pose proof (N.div_mod (n + d - 1) d D) as E. pose proof (N.mod_lt (n + d - 1) d D) as M. fold c in E. set (m := (n + d - 1) mod d) in *.
  rewrite N.mul_comm in E. split; [lia|]. intros P. assert (0 < c). { destruct (N.eq_dec c 0) as [C|]; [|lia]. rewrite C in E. lia. }
  split; [assumption|]. rewrite N.mul_sub_distr_r, N.mul_1_l. lia.
Qed.

Theorem uscale_ok v m e : 0 < v < 2 ^ 32 -> in_range m e = true -> exists u, uscale_ceil v (Fin false m e) = Ok u /\ part_of v m e u.
Proof.
  intros V R. unfold in_range in R. apply andb_prop in R as (M & R). apply N.ltb_lt in M.
  assert (G : gt_one (Fin false m e) = false).
  { cbn [gt_one negb andb]. destruct (0 <=? e)%Z; apply N.leb_le in R; apply N.ltb_ge; exact R. }
  unfold uscale_ceil. cbn [negb andb rassert]. rewrite G. cbn [negb rassert].
  pose proof (round53_close (v * m)) as (C1 & C2). pose proof (round53_pos (v * m) ltac:(lia)) as RP. set (n := round53 (v * m)) in *.
  destruct (Z.leb_spec 0 e) as [E|E].
  - apply N.leb_le in R. assert (X : 2 ^ Z.to_N e <> 0) by (apply N.pow_nonzero; lia).
    assert (m = 1 /\ 2 ^ Z.to_N e = 1) as (M1 & E1) by (split; nia).
    assert (n = v) as ->. { unfold n. rewrite M1, N.mul_1_r. apply round53_small. change (2 ^ 53) with 9007199254740992. change (2 ^ 32) with 4294967296 in V. lia. }
    rewrite E1, M1, N.mul_1_r. rewrite N.leb_refl. cbn [rassert]. exists v. split; [reflexivity|].
    unfold part_of. rewrite E1. assert (Z.to_N (- e) = 0) as -> by lia. change (2 ^ 0) with 1. change (2 ^ 53) with 9007199254740992. split; [lia|]. cbn zeta. split; [|split]; lia.
  - apply N.leb_le in R. set (d := 2 ^ Z.to_N (- e)) in *. assert (D : d <> 0) by (apply N.pow_nonzero; lia).
    pose proof (ceil_spec n d D) as (A1 & A2). cbn zeta in A1, A2. set (c := (n + d - 1) / d) in *. specialize (A2 RP). destruct A2 as (A2 & A3).
    assert (B : n <= v * d). { unfold n, d. apply round53_below; [change (2 ^ 32) with 4294967296 in V; change (2 ^ 53) with 9007199254740992; lia|]. apply N.mul_le_mono_l. exact R. }
    assert (CV : c <= v). { destruct (N.le_gt_cases c v) as [L|L]; [exact L|exfalso]. assert (v * d <= (c - 1) * d) by (apply N.mul_le_mono_r; lia). lia. }
    rewrite (proj2 (N.leb_le c v)) by exact CV. cbn [rassert]. exists c. split; [reflexivity|].
    unfold part_of. fold d. assert (Z.to_N e = 0) as -> by lia. change (2 ^ 0) with 1. rewrite N.mul_1_r. split; [lia|]. cbn zeta.
    split; [intros SM; unfold n in *; rewrite round53_small in * by exact SM; split; assumption|].
    change (2 ^ 53) with 9007199254740992 in *. split.
    + assert (n * 9007199254740992 <= c * d * 9007199254740992) by (apply N.mul_le_mono_r; exact A1). lia.
    + assert ((c - 1) * d * 9007199254740992 < n * 9007199254740992) by (apply N.mul_lt_mono_pos_r; [lia|exact A3]). lia.
Qed.

(** The default: half, rounded up *)
Lemma half_up n u : part_of n 1 (-1) u -> n < 2 ^ 32 -> u = (n + 1) / 2.
Proof.
  intros ((U1 & U2) & H & _) L. cbn zeta in H. rewrite N.mul_1_r in H. destruct H as (A & B); [change (2 ^ 53) with 9007199254740992; change (2 ^ 32) with 4294967296 in L; lia|]. change (Z.to_N (- -1)) with 1 in *. change (Z.to_N (-1)) with 0 in *. change (2 ^ 0) with 1 in *. change (2 ^ 1) with 2 in *.
  rewrite !N.mul_1_r in *.
  apply N.div_unique with (r := (n + 1) - 2 * u); lia.
Qed.

(** ** Weights *)
Definition fits (neg : bool) (v : N) : Prop := if neg then v <= 2 ^ 63 else v < 2 ^ 63.
Definition sgn (neg : bool) (v : N) : Z := if neg then (- Z.of_N v)%Z else Z.of_N v.
Definition sig (neg : bool) (s0 s : bytes) : bool * Z * bytes :=
  let fin (base : N) (ds : bytes) :=
    let '(v, rest) := digits_in base 0 ds in
    if (if neg : bool then 2 ^ 63 <? v else 2 ^ 63 <=? v) then (true, if neg : bool then (- 2 ^ 63)%Z else (2 ^ 63 - 1)%Z, rest)
    else (false, sgn neg v, rest) in
  match s with
  | [] => (false, 0%Z, s0)
  | c :: t =>
      if c =? 48 then
        match t with
        | x :: y :: _ =>
            if ((x =? 120) || (x =? 88)) && match digit_in 16 y with Some _ => true | None => false end
            then fin 16 (tl t) else fin 8 s
        | _ => fin 8 s
        end
      else match digit_in 10 c with Some _ => fin 10 s | None => (false, 0%Z, s0) end
  end.
Lemma strtol0_sig s : strtol0 s =
  match skip_space s with
  | b :: t => if b =? 45 then sig true s t else if b =? 43 then sig false s t
              else sig false s (skip_space s)
  | [] => sig false s []
  end.
Proof.
  unfold strtol0. destruct (skip_space s) as [|b t]; [reflexivity|].
  destruct (b =? 45); [reflexivity|]. destruct (b =? 43); reflexivity.
Qed.
Lemma finl_iff (neg : bool) base ds n :
  (let '(v, rest) := digits_in base 0 ds in
   if (if neg : bool then 2 ^ 63 <? v else 2 ^ 63 <=? v) then (true, if neg : bool then (- 2 ^ 63)%Z else (2 ^ 63 - 1)%Z, rest)
   else (false, sgn neg v, rest)) = (false, n, []) <->
  exists v, digits base ds v /\ fits neg v /\ n = sgn neg v.
Proof.
  destruct (digits_in base 0 ds) as [v rest] eqn:E.
  assert (F : (if neg then 2 ^ 63 <? v else 2 ^ 63 <=? v) = true <-> ~ fits neg v).
  { unfold fits. destruct neg; [rewrite N.ltb_lt, N.nle_gt|rewrite N.leb_le, N.nlt_ge]; reflexivity. }
  destruct (if neg then 2 ^ 63 <? v else 2 ^ 63 <=? v).
  - split; [discriminate|]. intros (w & D & W & _). apply digits_in_iff in D. rewrite D in E.
    injection E as -> _. destruct (proj1 F eq_refl W).
  - assert (fits neg v). { unfold fits in *. destruct neg; [destruct (N.le_gt_cases v (2 ^ 63)) as [L|L]|destruct (N.lt_ge_cases v (2 ^ 63)) as [L|L]]; try exact L; exfalso;
      assert (false = true) by (apply F; lia); discriminate. }
    split.
    + intros H0. assert (rest = []) as -> by (apply (f_equal snd) in H0; exact H0).
      apply (f_equal (fun p => snd (fst p))) in H0. cbn [fst snd] in H0.
      exists v. rewrite <- digits_in_iff. auto.
    + intros (w & D & W & ->). apply digits_in_iff in D. rewrite D in E. now injection E as -> <-.
Qed.
Lemma sig_iff neg s0 s n : s0 <> [] ->
  sig neg s0 s = (false, n, []) <-> exists v, c_unsigned s v /\ fits neg v /\ n = sgn neg v.
Proof.
  intros N0. destruct s as [|c t].
  { cbn. split; [intros [= _ ?]; contradiction|]. intros (v & H & _). inversion H. }
  cbn [sig].
  assert (O8 : digits_in 8 0 (48 :: t) = digits_in 8 0 t) by reflexivity.
  destruct (N.eqb_spec c 48) as [->|Nc].
  - assert (oct : forall P : Prop, (P <-> exists v, digits 8 (48 :: t) v /\ fits neg v /\ n = sgn neg v) ->
      (forall x ds v, t = x :: ds -> (x = 120 \/ x = 88) -> ds <> [] -> digits 16 ds v -> False) ->
      P <-> exists v, c_unsigned (48 :: t) v /\ fits neg v /\ n = sgn neg v).
    { intros P -> X. split; intros (v & D & L & E); exists v; (split; [|auto]).
      - apply COct. now apply oct_iff.
      - inversion D; subst; [contradiction|now apply oct_iff|].
        exfalso. eapply X; eauto. }
    destruct t as [|x [|y t]].
    + apply oct; [apply finl_iff|discriminate].
    + apply oct; [apply finl_iff|]. intros x' ds v [= <- <-] _ W. contradiction.
    + destruct (((x =? 120) || (x =? 88)) && match digit_in 16 y with Some _ => true | None => false end) eqn:E.
      * apply andb_prop in E as [Ex Ey]. cbn [tl]. rewrite finl_iff.
        assert (Hx : x = 120 \/ x = 88) by lia.
        split; intros (v & D & L & E); exists v; (split; [|auto]).
        -- now apply CHex.
        -- inversion D as [? ? ? Z|ds w D8|x' ds w X W D16]; subst; [contradiction| |assumption].
           apply digits_head in D8 as [d D8]. destruct Hx; subst x; discriminate.
      * apply oct; [apply finl_iff|]. intros x' ds v [= <- <-] X W D16.
        apply digits_head in D16 as [d D16]. rewrite D16 in E.
        replace ((x =? 120) || (x =? 88)) with true in E by lia. discriminate.
  - destruct (digit_in 10 c) as [d|] eqn:D.
    + rewrite finl_iff. split; intros (v & H & L & E); exists v; (split; [|auto]).
      * now apply CDec.
      * inversion H; subst; [assumption|contradiction|contradiction].
    + split; [intros [= _ ?]; contradiction|]. intros (v & H & _). exfalso.
      inversion H; subst; [|contradiction|contradiction].
      match goal with X : digits 10 _ _ |- _ => apply digits_head in X as [x X]; rewrite X in D end. discriminate.
Qed.

Theorem as_long_iff s n : as_long s = Some n <->
  exists sp sign u v neg, s = sp ++ sign ++ u /\ forallb isspace sp = true /\ c_unsigned u v /\ fits neg v /\ n = sgn neg v /\
    (neg = false /\ (sign = [] \/ sign = [43]) \/ neg = true /\ sign = [45]).
Proof.
  unfold as_long. destruct s as [|b0 s0].
  { split; [discriminate|]. intros (sp & sg & u & v & neg & E & _ & U & _).
    destruct (unsigned_head u v U) as (c & t & -> & _). destruct sp; [destruct sg|]; discriminate. }
  set (s := b0 :: s0) in *.
  assert (N0 : s <> []) by discriminate.
  transitivity (strtol0 s = (false, n, [])).
  { destruct (strtol0 s) as [[err m] rest]. destruct rest; [destruct err|]; split; intros H; try discriminate.
    - injection H as ->; reflexivity.
    - apply (f_equal (fun p => snd (fst p))) in H. cbn [fst snd] in H. now rewrite H. }
  rewrite strtol0_sig. split.
  - intros H. destruct (skip_space_split s) as (sp & E & F).
    destruct (skip_space s) as [|b t] eqn:K.
    { apply (sig_iff _ _ _ _ N0) in H as (v & U & _). inversion U. }
    destruct (N.eqb_spec b 45) as [->|N45]; [|destruct (N.eqb_spec b 43) as [->|N43]];
      apply (sig_iff _ _ _ _ N0) in H as (v & U & L & ->).
    + exists sp, [45], t, v, true. do 5 (split; [first [assumption|reflexivity]|]). auto.
    + exists sp, [43], t, v, false. do 5 (split; [first [assumption|reflexivity]|]). auto.
    + exists sp, [], (b :: t), v, false. do 5 (split; [first [assumption|reflexivity]|]). auto.
  - intros (sp & sg & u & v & neg & E & F & U & L & -> & R).
    destruct (unsigned_head u v U) as (c & t & Eu & I & N45 & N43).
    assert (K : skip_space (sg ++ u) = sg ++ u).
    { destruct R as [[_ [-> | ->]]|[_ ->]]; cbn [app].
      - eapply skip_space_id; eauto.
      - reflexivity.
      - reflexivity. }
    assert (KS : skip_space s = sg ++ u) by (rewrite E, skip_space_app; assumption).
    rewrite KS.
    destruct R as [[-> [-> | ->]]|[-> ->]]; cbn [app].
    + subst u. rewrite (proj2 (N.eqb_neq c 45)), (proj2 (N.eqb_neq c 43)) by assumption.
      apply sig_iff; [assumption|]. exists v. auto.
    + apply sig_iff; [assumption|]. exists v. auto.
    + apply sig_iff; [assumption|]. exists v. auto.
Qed.

Theorem weight_iff r s w : weight (VscfModel.VS r s) = Some w <-> weight_text s w.
Proof.
  unfold weight. split.
  - destruct (as_long s) as [z|] eqn:E; [|discriminate]. destruct ((1 <=? z)%Z && (z <=? 1048575)%Z) eqn:B; [|discriminate]. intros [= <-].
    apply as_long_iff in E as (sp & sg & u & v & neg & E & F & U & L & -> & R). destruct R as [(-> & R)|(-> & _)]; cbn [sgn] in *.
    + exists sp, sg, u. rewrite N2Z.id. do 3 (split; [assumption|]). split; [assumption|]. lia.
    + exfalso. lia.
  - intros (sp & sg & u & E & F & S & U & B). assert (as_long s = Some (Z.of_N w)) as ->.
    { apply as_long_iff. exists sp, sg, u, w, false. do 3 (split; [assumption|]). split; [unfold fits; change (2 ^ 63) with 9223372036854775808; lia|]. split; [reflexivity|]. auto. }
    replace ((1 <=? Z.of_N w)%Z && (Z.of_N w <=? 1048575)%Z) with true by lia. now rewrite N2Z.id.
Qed.

(** ** Labels *)
Lemma decimal_aux_eq f n : n < 10 ^ N.of_nat f -> forall g, n < 10 ^ N.of_nat g -> (0 < f)%nat -> (0 < g)%nat -> decimal_aux f n = decimal_aux g n.
Proof.
  revert n. induction f as [|f IH]; intros n F g G; [lia|]. intros _ Pg. destruct g as [|g]; [lia|]. cbn [decimal_aux].
  destruct (N.ltb_spec n 10) as [L|L]; [reflexivity|]. f_equal.
  assert (pw : forall k, n < 10 ^ N.of_nat (S k) -> n / 10 < 10 ^ N.of_nat k /\ (0 < k)%nat).
  { intros k K. rewrite Nat2N.inj_succ, N.pow_succ_r' in K. split; [apply N.div_lt_upper_bound; [lia|exact K]|]. destruct k; [cbn in K; lia|lia]. }
  apply IH; apply pw; assumption.
Qed.
Fixpoint undecimal (acc : N) (l : bytes) : N := match l with [] => acc | c :: l => undecimal (acc * 10 + (c - 48)) l end.
Lemma undecimal_app l acc c : undecimal acc (l ++ [c]) = undecimal acc l * 10 + (c - 48).
Proof. revert acc. induction l as [|x l IH]; intros acc; [reflexivity|]. cbn. apply IH. Qed.
Lemma undecimal_aux f n : n < 10 ^ N.of_nat f -> undecimal 0 (decimal_aux f n) = n.
Proof.
  revert n. induction f as [|f IH]; intros n F; [cbn in *; lia|]. cbn [decimal_aux]. rewrite undecimal_app.
  pose proof (N.div_mod n 10 ltac:(lia)) as DM. pose proof (N.mod_lt n 10 ltac:(lia)) as ML.
  replace (48 + n mod 10 - 48) with (n mod 10) by lia.
  destruct (N.ltb_spec n 10) as [L|L].
  - cbn [undecimal]. rewrite N.mod_small by exact L. lia.
  - rewrite IH; [lia|]. rewrite Nat2N.inj_succ, N.pow_succ_r' in F. apply N.div_lt_upper_bound; [lia|exact F].
Qed.
Lemma decimal_fuel n : n < 10 ^ N.of_nat (S (N.to_nat (N.size n))).
Proof.
  rewrite Nat2N.inj_succ, N2Nat.id. assert (n < 2 ^ N.size n) by apply N.size_gt.
  assert (2 ^ N.size n <= 10 ^ N.size n) by (apply N.pow_le_mono_l; lia).
  assert (10 ^ N.size n <= 10 ^ N.succ (N.size n)) by (apply N.pow_le_mono_r; lia). lia.
Qed.
Lemma decimal_inj a b : decimal a = decimal b -> a = b.
Proof.
  intros H. rewrite <- (undecimal_aux _ a (decimal_fuel a)), <- (undecimal_aux _ b (decimal_fuel b)). unfold decimal in H. now rewrite H.
Qed.
Lemma decimal_last f n : exists l c, decimal_aux (S f) n = l ++ [c] /\ c < 58.
Proof. cbn [decimal_aux]. eexists _, _. split; [reflexivity|]. pose proof (N.mod_lt n 10 ltac:(lia)). lia. Qed.
(** ... are no names of parameters *)
Lemma decimal_other n k c : decimal n <> k ++ [c] \/ c < 58.
Proof.
  unfold decimal. destruct (decimal_last (N.to_nat (N.size n)) n) as (l & d & -> & D). destruct (N.lt_ge_cases c 58) as [L|L]; [now right|left].
  intros E. apply app_inj_tail in E as (_ & ->). lia.
Qed.
