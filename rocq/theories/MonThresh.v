(** Anti-flap counters against the threshold specification. *)
From Verif Require Import Base MonModel MonSpec MonProofs.
Ltac Zify.zify_post_hook ::= idtac.

Lemma repeat_snoc {A} (x : A) n : repeat x (S n) = repeat x n ++ [x].
Proof. induction n as [|n IH]; [reflexivity|]. cbn in *. now rewrite IH. Qed.

Lemma failures_app a b : failures (a ++ b) = failures a + failures b.
Proof. induction a as [|[] a IH]; cbn; lia. Qed.
Lemma failures_len a : failures a <= length a.
Proof. induction a as [|[] a IH]; cbn; lia. Qed.
Lemma failures_true n : failures (repeat true n) = 0.
Proof. induction n; cbn; auto. Qed.
Lemma failures_false n : failures (repeat false n) = n.
Proof. induction n; cbn; auto. Qed.

Lemma has_run_app_l k a b : has_run k a -> has_run k (a ++ b).
Proof. intros (x & y & ->). exists x, (y ++ b). now rewrite <- !app_assoc. Qed.
Lemma has_run_app_r k a b : has_run k b -> has_run k (a ++ b).
Proof. intros (x & y & ->). exists (a ++ x), y. now rewrite <- !app_assoc. Qed.

Lemma has_run_snoc k b r : has_run k (b ++ [r]) ->
  has_run k b \/ exists a, b ++ [r] = a ++ repeat true k.
Proof.
  intros (x & y & E). destruct y as [|c y] using rev_ind.
  - right. exists x. now rewrite app_nil_r in E.
  - left. clear IHy. rewrite !app_assoc in E. apply app_inj_tail in E as [-> ->].
    exists x, y. now rewrite <- app_assoc.
Qed.

Lemma suffix_snoc {A} (w : list A) r a b : w ++ [r] = a ++ b ->
  b = [] \/ exists b', b = b' ++ [r] /\ w = a ++ b'.
Proof.
  intros E. destruct b as [|c b] using rev_ind; [auto|]. clear IHb. right.
  rewrite app_assoc in E. apply app_inj_tail in E as [-> ->]. eauto.
Qed.

Section T.
  Variable t : svc.
  Hypothesis Ht : svc_ok t.
  Let U := N.to_nat (up_thresh t).
  Let K := N.to_nat (ok_thresh t).
  Let D := N.to_nat (down_thresh t).
  Local Lemma HU : 1 <= U /\ (N.of_nat U <= 65535)%N. Proof. destruct Ht as (?&?&?&?). unfold U. lia. Qed.
  Local Lemma HK : 1 <= K /\ (N.of_nat K <= 65535)%N. Proof. destruct Ht as (?&?&?&?). unfold K. lia. Qed.
  Local Lemma HD : 1 <= D /\ (N.of_nat D <= 65535)%N. Proof. destruct Ht as (?&?&?&?). unfold D. lia. Qed.

  Definition tail_is (w : list bool) (n : nat) : Prop :=
    (exists a, w = a ++ repeat true n) /\ (forall a m, w = a ++ repeat true m -> m <= n).
  Definition maxfail (w : list bool) (n : nat) : Prop :=
    (exists a b, w = a ++ b /\ ~ has_run K b /\ failures b = n) /\
    (forall a b, w = a ++ b -> ~ has_run K b -> failures b <= n).

  Definition cnt (d : bool) (nf ns : nat) (w : list bool) : Prop :=
    if d then nf = 0 /\ ns < U /\ tail_is w ns
    else nf < D /\ maxfail w nf /\ (nf = 0 -> ns = 0) /\ (0 < nf -> ns < K /\ tail_is w ns).

  Lemma no_run_nil : ~ has_run K [].
  Proof.
    intros (a & b & E). symmetry in E. apply app_eq_nil in E as [_ E]. apply app_eq_nil in E as [E _].
    assert (H := HK). destruct K; [lia|discriminate].
  Qed.

  Lemma cnt_start d : cnt d 0 0 [].
  Proof.
    assert (HU0 := HU). assert (HD0 := HD). unfold cnt. destruct d.
    - split; [auto|]. split; [lia|]. split; [exists []; auto|].
      intros a m E. symmetry in E. apply app_eq_nil in E as [_ E]. destruct m; [lia|discriminate].
    - split; [lia|]. split; [|split; [auto|lia]]. split.
      + exists [], []. split; [auto|]. split; [apply no_run_nil|auto].
      + intros a b E _. symmetry in E. apply app_eq_nil in E as [_ ->]. cbn; lia.
  Qed.

  Lemma tail_true w n : tail_is w n -> tail_is (w ++ [true]) (S n).
  Proof.
    intros [[a Ha] Hm]. split.
    - exists a. rewrite repeat_snoc, Ha, <- app_assoc. auto.
    - intros b m E. destruct m as [|m]; [lia|]. rewrite repeat_snoc, app_assoc in E.
      apply app_inj_tail in E as [E _]. apply Hm in E. lia.
  Qed.
  Lemma tail_false w : tail_is (w ++ [false]) 0.
  Proof.
    split.
    - exists (w ++ [false]). cbn. now rewrite app_nil_r.
    - intros b m E. destruct m as [|m]; [lia|]. rewrite repeat_snoc, app_assoc in E.
      apply app_inj_tail in E as [_ E]. discriminate.
  Qed.

  Lemma maxfail_false w n : maxfail w n -> maxfail (w ++ [false]) (S n).
  Proof.
    intros [(a & b & E & Hb & Hf) Hm]. split.
    - exists a, (b ++ [false]). split; [now rewrite E, app_assoc|]. split.
      + intros H. apply has_run_snoc in H as [H|(c & Ec)]; [auto|].
        assert (H := HK). destruct K as [|k]; [lia|]. rewrite repeat_snoc, app_assoc in Ec.
        apply app_inj_tail in Ec as [_ Ec]. discriminate.
      + rewrite failures_app. cbn. lia.
    - intros a' b' E' Hb'. apply suffix_snoc in E' as [->|(b'' & -> & E')]; [cbn; lia|].
      rewrite failures_app. cbn.
      assert (failures b'' <= n); [|lia]. apply (Hm a' b'' E'). intros H. apply Hb'. now apply has_run_app_l.
  Qed.

  (* a success that does not complete a run *)
  Lemma maxfail_true w n m : maxfail w n -> tail_is w m -> S m < K -> maxfail (w ++ [true]) n.
  Proof.
    intros [(a & b & E & Hb & Hf) Hm] Ht' Hk. split.
    - exists a, (b ++ [true]). split; [now rewrite E, app_assoc|]. split.
      + intros H. apply has_run_snoc in H as [H|(c & Ec)]; [auto|].
        destruct (tail_true _ _ Ht') as [_ Hmax].
        assert (K <= S m); [|lia]. apply (Hmax (a ++ c)). rewrite E, <- !app_assoc. now rewrite Ec.
      + rewrite failures_app. cbn. lia.
    - intros a' b' E' Hb'. apply suffix_snoc in E' as [->|(b'' & -> & E')]; [cbn; lia|].
      rewrite failures_app. cbn.
      assert (failures b'' <= n); [|lia]. apply (Hm a' b'' E'). intros H. apply Hb'. now apply has_run_app_l.
  Qed.
  Lemma maxfail_true0 w : maxfail w 0 -> maxfail (w ++ [true]) 0.
  Proof.
    intros [_ Hm]. split.
    - exists (w ++ [true]), []. split; [now rewrite app_nil_r|]. split; [apply no_run_nil|auto].
    - intros a' b' E' Hb'. apply suffix_snoc in E' as [->|(b'' & -> & E')]; [cbn; lia|].
      rewrite failures_app. cbn.
      assert (failures b'' <= 0); [|lia]. apply (Hm a' b'' E'). intros H. apply Hb'. now apply has_run_app_l.
  Qed.
  (* a success that does *)
  Lemma suffix_of_suffix {A} (a b c d : list A) : a ++ b = c ++ d ->
    (exists x, b = x ++ d) \/ (exists x, d = x ++ b).
  Proof.
    revert c; induction a as [|h a IH]; intros c E.
    - left. exists c. auto.
    - destruct c as [|h' c].
      + right. exists (h :: a). cbn in *. auto.
      + cbn in E. injection E as _ E. eauto.
  Qed.
  Lemma maxfail_reset w : tail_is w K -> maxfail w 0.
  Proof.
    intros [(a & Ha) _]. split.
    - exists w, []. split; [now rewrite app_nil_r|]. split; [apply no_run_nil|auto].
    - intros c b E Hb. rewrite Ha in E. apply suffix_of_suffix in E as [(x & E)|(x & E)].
      + assert (F := failures_true K). rewrite E, failures_app in F. lia.
      + exfalso. apply Hb. exists x, []. now rewrite app_nil_r.
  Qed.

  Lemma maxfail_changes w n : maxfail w n -> (changes t false w <-> D <= n).
  Proof.
    intros [(a & b & E & Hb & Hf) Hm]. cbn [changes]. fold D. fold K. split.
    - intros (a' & b' & E' & H1 & H2). specialize (Hm _ _ E' H2). lia.
    - intros H. exists a, b. split; auto. split; auto. lia.
  Qed.
  Lemma tail_changes w n : tail_is w n -> (changes t true w <-> U <= n).
  Proof.
    intros [(a & Ha) Hm]. cbn [changes]. fold U. split.
    - intros (b & Hb). eauto.
    - intros H. exists (a ++ repeat true (n - U)). rewrite Ha, <- app_assoc, <- repeat_app. do 2 f_equal. lia.
  Qed.

  Open Scope N_scope.
  Lemma inc32_small x : x < 65536 -> inc32 x = x + 1.
  Proof. intros H. unfold inc32. apply N.mod_small. unfold two32. lia. Qed.
  Close Scope N_scope.

  Lemma count_step d nf ns w r d' nf' ns' :
    cnt d (N.to_nat nf) (N.to_nat ns) w ->
    count_result t d nf ns r = (d', nf', ns') ->
    (d' = d /\ ~ changes t d (w ++ [r]) /\ cnt d (N.to_nat nf') (N.to_nat ns') (w ++ [r])) \/
    (d' = negb d /\ changes t d (w ++ [r]) /\ nf' = 0%N /\ ns' = 0%N).
  Proof.
    assert (HU0 := HU). assert (HD0 := HD). assert (HK0 := HK).
    unfold cnt at 1, count_result. destruct d.
    - intros (Hnf & Hns & HT). assert (nf = 0%N) by lia. subst nf. destruct r.
      + rewrite inc32_small by lia.
        assert (HT' := tail_true _ _ HT). replace (S (N.to_nat ns)) with (N.to_nat (ns + 1)) in HT' by lia.
        assert (HC := tail_changes _ _ HT').
        destruct (N.eqb_spec (ns + 1) (up_thresh t)) as [E|E].
        * intros [= <- <- <-]. right. repeat split; auto. apply HC. unfold U. lia.
        * intros [= <- <- <-]. left. split; auto. split.
          -- rewrite HC. unfold U in *. lia.
          -- unfold cnt. split; auto. split; auto. unfold U in *. lia.
      + intros [= <- <- <-]. assert (HT' := tail_false w). left. split; auto. split.
        * rewrite (tail_changes _ _ HT'). lia.
        * unfold cnt. repeat split; auto; try apply HT'; lia.
    - intros (Hnf & HM & H0 & H1). destruct r.
      + destruct (N.eqb_spec nf 0) as [->|En]; cbn [negb].
        * intros [= <- <- <-]. assert (HM' := maxfail_true0 _ HM). left. split; auto. split.
          -- rewrite (maxfail_changes _ _ HM'). lia.
          -- unfold cnt. split; auto. split; auto. split; auto. lia.
        * rewrite inc32_small by lia. destruct H1 as [H1 HT]; [lia|].
          assert (HT' := tail_true _ _ HT). replace (S (N.to_nat ns)) with (N.to_nat (ns + 1)) in HT' by lia.
          destruct (N.eqb_spec (ns + 1) (ok_thresh t)) as [E|E].
          -- intros [= <- <- <-]. assert (HM' : maxfail (w ++ [true]) 0).
             { apply maxfail_reset. replace K with (N.to_nat (ns + 1)); auto. unfold K. lia. }
             left. split; auto. split.
             ++ rewrite (maxfail_changes _ _ HM'). lia.
             ++ unfold cnt. split; [lia|]. split; auto. split; auto. cbn; lia.
          -- intros [= <- <- <-]. assert (HM' : maxfail (w ++ [true]) (N.to_nat nf)).
             { apply (maxfail_true w _ (N.to_nat ns)); auto. unfold K in *. lia. }
             left. split; auto. split.
             ++ rewrite (maxfail_changes _ _ HM'). lia.
             ++ unfold cnt. split; auto. split; auto. split; [lia|]. intros _. split; auto. unfold K in *; lia.
      + rewrite inc32_small by lia.
        assert (HM' := maxfail_false _ _ HM). replace (S (N.to_nat nf)) with (N.to_nat (nf + 1)) in HM' by lia.
        assert (HC := maxfail_changes _ _ HM').
        destruct (N.eqb_spec (nf + 1) (down_thresh t)) as [E|E].
        * intros [= <- <- <-]. right. repeat split; auto. apply HC. unfold D. lia.
        * intros [= <- <- <-]. left. split; auto. split.
          -- rewrite HC. unfold D in *. lia.
          -- unfold cnt. split; [unfold D in *; lia|]. split; auto. split; [lia|].
             intros _. split; [cbn; lia|]. apply tail_false.
  Qed.

  Lemma soonest_up nf ns w : cnt false nf ns w -> soonest t false w (D - nf).
  Proof.
    intros (Hnf & [(a & b & E & Hb & Hf) Hm] & _). split.
    - exists (repeat false (D - nf)). split; [apply repeat_length|].
      cbn [changes]. fold D. fold K. exists a, (b ++ repeat false (D - nf)). split; [now rewrite E, app_assoc|].
      split; [rewrite failures_app, failures_false; lia|].
      assert (G : forall n, ~ has_run K (b ++ repeat false n)); [|apply G].
      induction n as [|n IH]; [cbn; now rewrite app_nil_r|].
      rewrite repeat_snoc, app_assoc. intros H. apply has_run_snoc in H as [H|(c & Ec)]; [auto|].
      assert (H := HK). destruct K as [|k]; [lia|]. rewrite repeat_snoc, app_assoc in Ec.
      apply app_inj_tail in Ec as [_ Ec]. discriminate.
    - intros f Hf' (a' & b' & E' & H1 & H2). fold D in H1. fold K in H2.
      destruct (suffix_of_suffix _ _ _ _ E') as [(x & ->)|(x & ->)].
      + assert (L := failures_len b'). rewrite app_length in Hf'. lia.
      + rewrite app_assoc in E'. apply app_inv_tail in E'.
        assert (failures x <= nf). { apply (Hm a' x E'). intros H. apply H2. now apply has_run_app_l. }
        rewrite failures_app in H1. assert (L := failures_len f). lia.
  Qed.
  Lemma soonest_down nf ns w : cnt true nf ns w -> soonest t true w (U - ns).
  Proof.
    intros (_ & Hns & [(a & Ha) Hm]). split.
    - exists (repeat true (U - ns)). split; [apply repeat_length|].
      cbn [changes]. fold U. exists a. rewrite Ha, <- app_assoc, <- repeat_app. do 2 f_equal. lia.
    - intros f Hf (b & Eb). fold U in Eb.
      destruct (suffix_of_suffix _ _ _ _ Eb) as [(x & Ex)|(x & Ex)].
      + assert (L : length f = length x + U) by (rewrite Ex, app_length, repeat_length; auto). lia.
      + assert (Ex' : x = repeat true (U - length f)).
        { assert (L : length x = U - length f).
          { assert (L := f_equal (@length bool) Ex). rewrite app_length, repeat_length in L. lia. }
          rewrite <- L. clear -Ex. symmetry in Ex.
          assert (F : Forall (fun b => b = true) (x ++ f)).
          { rewrite Ex. apply Forall_forall. intros y Hy. apply repeat_spec in Hy. auto. }
          apply Forall_app in F as [F _]. clear Ex. induction F as [|y l Hy F IH]; cbn; congruence. }
        rewrite Ex, app_assoc in Eb. apply app_inv_tail in Eb. rewrite Ex' in Eb.
        apply Hm in Eb. lia.
  Qed.

  Open Scope N_scope.
  Lemma count_sttl_word d nf ns w : cnt d (N.to_nat nf) (N.to_nat ns) w ->
    exists k, soonest t d w k /\ interval t * N.of_nat k < 2 ^ 28 /\
      count_sttl t d nf ns = word d false (interval t * N.of_nat k).
  Proof.
    intros H. assert (HU0 := HU). assert (HD0 := HD).
    assert (HI : 2 <= interval t <= 3600) by apply Ht.
    unfold count_sttl.
    set (k := if d then (U - N.to_nat ns)%nat else (D - N.to_nat nf)%nat).
    assert (Hk : N.of_nat k <= 65535) by (unfold k; destruct d; lia).
    assert (Ec : (if d then sub32 (up_thresh t) ns else sub32 (down_thresh t) nf) = N.of_nat k).
    { unfold sub32. destruct d; unfold k.
      - destruct H as (_ & H & _). unfold U in *.
        replace (up_thresh t + two32 - ns) with ((up_thresh t - ns) + 1 * two32) by (unfold two32; lia).
        rewrite N.mod_add by discriminate. rewrite N.mod_small by (unfold two32; lia). lia.
      - destruct H as (H & _). unfold D in *.
        replace (down_thresh t + two32 - nf) with ((down_thresh t - nf) + 1 * two32) by (unfold two32; lia).
        rewrite N.mod_add by discriminate. rewrite N.mod_small by (unfold two32; lia). lia. }
    rewrite Ec.
    assert (Hb : interval t * N.of_nat k <= 3600 * 65535) by (apply N.mul_le_mono; lia).
    assert (Hs : interval t * N.of_nat k < 2 ^ 28) by (change (2 ^ 28) with 268435456; lia).
    exists k. split; [|split; [auto|]].
    - unfold k. destruct d; [eapply soonest_down | eapply soonest_up]; eauto.
    - rewrite (N.mod_small _ two32) by (unfold two32; lia).
      destruct (N.ltb_spec STTL_TTL_MAX (interval t * N.of_nat k)) as [L|L].
      { unfold STTL_TTL_MAX in L. lia. }
      rewrite word_lor by auto. destruct d; cbn [N.lor]; [rewrite N.lor_comm|]; reflexivity.
  Qed.
End T.
