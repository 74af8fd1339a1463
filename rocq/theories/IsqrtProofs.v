From Verif Require Import Base IsqrtModel.
Local Open Scope N_scope.
Ltac Zify.zify_post_hook ::= idtac.

Lemma valbits_size : forall fuel n acc, n < 2 ^ N.of_nat fuel ->
  valbits fuel n acc = Some (acc + N.size n).
Proof.
  induction fuel as [|f IH]; intros n acc H; cbn [valbits].
  - change (2 ^ N.of_nat 0) with 1 in H. assert (n = 0) as -> by lia. cbn. f_equal; lia.
  - destruct (N.eqb_spec n 0) as [->|Hn]; [cbn; f_equal; lia|].
    rewrite IH.
    + f_equal. rewrite <- N.div2_spec.
      destruct n as [|p]; [lia|]. destruct p; cbn; lia.
    + rewrite N.shiftr_div_pow2. change (2 ^ 1) with 2.
      apply N.div_lt_upper_bound; [lia|].
      replace (N.of_nat (S f)) with (N.succ (N.of_nat f)) in H by lia.
      rewrite N.pow_succ_r' in H. exact H.
Qed.

Lemma size_bound n : n < 2 ^ N.size n.
Proof. apply N.size_gt. Qed.

Lemma start_big n : n < two64 -> n <> 0 ->
  let a := sqrt_start (N.size n) in
  0 < a /\ a < 2 ^ 33 /\ (n < a * a \/ n = 1).
Proof.
  intros Hn H0. cbv zeta.
  pose proof (N.size_gt n) as Hs.
  assert (Hsz : N.size n <= 64).
  { rewrite N.size_log2 by exact H0.
    assert (N.log2 n < 64) by (apply N.log2_lt_pow2; [lia|exact Hn]). lia. }
  unfold sqrt_start.
  set (vb := N.size n) in *.
  rewrite N.shiftl_1_l, N.shiftr_div_pow2. change (2^1) with 2.
  assert (Hd : vb = 2 * (vb / 2) + N.b2n (N.testbit vb 0)).
  { rewrite <- N.div2_div. rewrite N.bit0_odd. apply N.div2_odd. }
  set (h := vb / 2) in *.
  assert (Hh : h <= 32) by (destruct (N.testbit vb 0); cbn in Hd; lia).
  assert (Hp : 2 ^ h <= 2 ^ 32) by (apply N.pow_le_mono_r; lia).
  assert (Hp0 : 0 < 2 ^ h) by (apply N.neq_0_lt_0, N.pow_nonzero; lia).
  assert (Hvb : 2 ^ vb = 2 ^ h * 2 ^ h * (if N.testbit vb 0 then 2 else 1)).
  { rewrite Hd at 1. rewrite N.pow_add_r. replace (2 * h) with (h + h) by lia.
    rewrite N.pow_add_r. destruct (N.testbit vb 0); reflexivity. }
  change (2 ^ 32) with 4294967296 in Hp.
  rewrite (N.mod_small (2 ^ h)) by (unfold two64; lia).
  destruct (N.testbit vb 0) eqn:Ev.
  - rewrite N.shiftr_div_pow2. change (2^1) with 2.
    assert (Hhalf : 2 ^ h / 2 <= 2 ^ h) by (apply N.div_le_upper_bound; lia).
    rewrite N.mod_small by (unfold two64; lia).
    change (2 ^ 33) with 8589934592.
    split; [lia|]. split; [lia|].
    destruct (N.eq_dec h 0) as [Hh0|Hh0].
    + right. rewrite Hh0 in *. cbn in Hd, Hvb. rewrite Hvb in Hs. lia.
    + left.
      assert (E : exists k, 2 ^ h = 2 * k).
      { exists (2 ^ (h - 1)). rewrite <- N.pow_succ_r'. f_equal; lia. }
      destruct E as [k Ek]. rewrite Ek in *.
      rewrite (N.mul_comm 2 k), N.div_mul by lia.
      assert (n < 8 * (k * k)) by (rewrite Hvb in Hs; lia).
      assert ((k * 2 + k) * (k * 2 + k) = 9 * (k * k)) by ring. lia.
  - change (2 ^ 33) with 8589934592. split; [lia|]. split; [lia|].
    left. rewrite Hvb, N.mul_1_r in Hs. exact Hs.
Qed.

(** One Newton step, with [s] the true root. *)
Lemma newton_step n s a tmp nw :
  s * s <= n -> n < (s + 1) * (s + 1) ->
  0 < a -> s <= a -> (a = s -> n < s * s + 2 * s) ->
  a * tmp <= n -> n < a * (tmp + 1) ->
  2 * nw <= a + tmp -> a + tmp <= 2 * nw + 1 ->
  (nw <= tmp -> nw = s) /\
  (tmp < nw -> s <= nw /\ (nw = s -> n < s * s + 2 * s) /\ s < a /\ 2 * nw <= s + a).
Proof.
  intros Hs1 Hs2 Ha Hsa Hedge Ht1 Ht2 Hn1 Hn2.
  destruct (N.eq_dec a s) as [E|E].
  - subst a. specialize (Hedge eq_refl).
    assert (s <= tmp) by nia. assert (tmp < s + 2) by nia.
    split; lia.
  - assert (Hts : tmp <= s) by nia.
    split.
    + intros Hle. lia.
    + intros Hgt.
      assert (H2s : 2 * s <= a + tmp) by nia.
      split; [lia|]. split; [|lia].
      intros ->. destruct (N.lt_ge_cases n (s * s + 2 * s)) as [C|C]; auto. exfalso.
      assert (a + tmp = 2 * s \/ a + tmp = 2 * s + 1) as [X|X] by lia.
      * assert (exists k, a = s + k /\ tmp = s - k /\ k <= s) as (k & -> & -> & Hk) by (exists (a - s); lia).
        nia.
      * assert (exists k, a = s + 1 + k /\ tmp = s - k /\ k <= s) as (k & -> & -> & Hk) by (exists (a - s - 1); lia).
        assert (k <> 0) by lia. nia.
Qed.

Lemma sqrt_loop_ok : forall fuel n a,
  n < two64 -> 0 < n -> 0 < a -> a < 2 ^ 33 ->
  N.sqrt n <= a -> (a = N.sqrt n -> n < N.sqrt n * N.sqrt n + 2 * N.sqrt n) ->
  a - N.sqrt n < 2 ^ N.of_nat fuel ->
  sqrt_loop fuel n a = Some (Ok (N.sqrt n)).
Proof.
  induction fuel as [|f IH]; intros n a Hn Hn0 Ha Ha33 Hsa Hedge Hd; cbn [sqrt_loop];
  (replace (a =? 0) with false by (symmetry; apply N.eqb_neq; lia));
  pose proof (N.sqrt_spec n ltac:(lia)) as [Hs1 Hs2];
  rewrite <- N.add_1_r in Hs2;
  assert (Hs0 : 0 < N.sqrt n) by (destruct (N.eq_dec (N.sqrt n) 0) as [Z|Z]; [rewrite Z in Hs2; lia|lia]);
  set (s := N.sqrt n) in *;
  pose proof (N.mul_div_le n a ltac:(lia)) as Ht1;
  pose proof (N.mul_succ_div_gt n a ltac:(lia)) as Ht2;
  rewrite <- N.add_1_r in Ht2;
  set (tmp := n / a) in *;
  assert (Htb : tmp <= n) by (clear -Ht1 Ha; nia);
  rewrite N.shiftr_div_pow2; change (2 ^ 1) with 2.
  all: change (2 ^ 33) with 8589934592 in Ha33.
  all: assert (Hsum : a + tmp < two64).
  1,3: (destruct (N.eq_dec a s) as [->|];
     [ assert (tmp <= s + 2) by (clear -Ht1 Hs2 Ha; nia); unfold two64; lia
     | assert (tmp <= s) by (clear -Ht1 Hs2 n0 Hsa; nia); unfold two64; lia ]).
  all: rewrite (N.mod_small (a + tmp)) by exact Hsum.
  all: pose proof (N.mul_div_le (a + tmp) 2 ltac:(lia)) as Hn1;
       pose proof (N.mul_succ_div_gt (a + tmp) 2 ltac:(lia)) as Hn2;
       rewrite <- N.add_1_r in Hn2;
       set (nw := (a + tmp) / 2) in *;
       destruct (newton_step n s a tmp nw Hs1 Hs2 Ha Hsa Hedge Ht1 Ht2 ltac:(lia) ltac:(lia)) as [S1 S2];
       destruct (N.ltb_spec tmp nw) as [C|C].
  - exfalso. destruct (S2 C) as (_ & _ & Hlt & _).
    change (2 ^ N.of_nat 0) with 1 in Hd. lia.
  - now rewrite S1.
  - destruct (S2 C) as (H1 & H2 & H3 & H4). apply IH; fold s; auto; try lia.
    replace (N.of_nat (S f)) with (N.succ (N.of_nat f)) in Hd by lia.
      rewrite N.pow_succ_r' in Hd. lia.
  - now rewrite S1.
Qed.

Lemma sqrt_sizet_ok fuel n : n < two64 -> (33 <= fuel)%nat ->
  sqrt_sizet fuel n = Some (Ok (N.sqrt n)).
Proof.
  intros Hn Hf. unfold sqrt_sizet.
  rewrite valbits_size by (change (2 ^ N.of_nat 64) with two64; exact Hn).
  rewrite N.add_0_l.
  destruct (N.eq_dec n 0) as [->|H0].
  - destruct fuel as [|f]; [lia|]. reflexivity.
  - destruct (start_big n Hn H0) as (Ha & Ha33 & Hbig).
    set (a := sqrt_start (N.size n)) in *.
    pose proof (N.sqrt_spec n ltac:(lia)) as [Hs1 Hs2]. rewrite <- N.add_1_r in Hs2.
    set (s := N.sqrt n) in *.
    assert (Hsa : s <= a /\ (a = s -> n < s * s + 2 * s)).
    { destruct Hbig as [Hb|Hb].
      - assert (s < a) by (clear -Hs1 Hb; nia). lia.
      - assert (s = 1) by (unfold s; rewrite Hb; reflexivity). lia. }
    rewrite sqrt_loop_ok; fold s; try (apply Hsa); auto; try lia.
    + rewrite N.mod_small; auto.
      assert (s * s < two32 * two32) by (eapply N.le_lt_trans; [exact Hs1|exact Hn]).
      clear -H. nia.
    + eapply N.le_lt_trans; [apply N.le_sub_l|].
      eapply N.lt_le_trans; [exact Ha33|]. apply N.pow_le_mono_r; lia.
Qed.
