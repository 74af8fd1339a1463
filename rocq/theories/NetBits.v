(** Addresses as lists of bits, and what the byte operations do to them. *)
From Verif Require Import Base NetModel NetSpec.
From Coq Require Import Permutation Sorted.
Ltac Zify.zify_post_hook ::= idtac.

Definition bits (ip : bytes) : list bool := map (bit ip) (seq 0 128).
(** bits of a number, highest of [w] first *)
Fixpoint bw (w : nat) (x : N) : list bool := match w with O => [] | S w => N.testbit x (N.of_nat w) :: bw w x end.
Lemma bw_len w x : length (bw w x) = w.
Proof. induction w; cbn; auto. Qed.
Lemma bits_len ip : length (bits ip) = 128.
Proof. unfold bits. now rewrite map_length, seq_length. Qed.
Lemma bits_flat ip : is_ip ip -> bits ip = flat_map (bw 8) ip.
Proof.
  intros [L _]. do 16 (destruct ip as [|? ip]; [discriminate L|]). destruct ip; [|discriminate L]. reflexivity.
Qed.
Lemma firstn_flat (l : bytes) : forall k, firstn (8 * k) (flat_map (bw 8) l) = flat_map (bw 8) (firstn k l).
Proof.
  induction l as [|x l IH]; intros k; [now rewrite !firstn_nil|]. destruct k as [|k]; [reflexivity|].
  replace (8 * S k) with (8 + 8 * k) by lia. cbn [firstn flat_map]. rewrite firstn_app, bw_len.
  rewrite (firstn_all2 (bw 8 x)) by (rewrite bw_len; lia). replace (8 + 8 * k - 8) with (8 * k) by lia. now rewrite IH.
Qed.
Lemma bw_inj w : forall x y, (x < 2 ^ N.of_nat w)%N -> (y < 2 ^ N.of_nat w)%N -> bw w x = bw w y -> x = y.
Proof.
  intros x y HX HY E. apply N.bits_inj. intros j. destruct (N.lt_ge_cases j (N.of_nat w)) as [L|L].
  - clear HX HY. revert L E. induction w as [|w IH]; intros L E; [lia|]. cbn [bw] in E. injection E as E1 E2.
    destruct (N.eq_dec j (N.of_nat w)) as [->|NE]; [exact E1|]. apply IH; auto. lia.
  - assert (A : forall z, (z < 2 ^ N.of_nat w)%N -> N.testbit z j = false).
    { intros z H. destruct (N.eq_dec z 0) as [->|NZ]; [apply N.bits_0|]. apply N.bits_above_log2. apply N.log2_lt_pow2 in H; lia. }
    now rewrite !A.
Qed.
Lemma app_len_inj {A} (a : list A) : forall b c d, length a = length b -> a ++ c = b ++ d -> a = b /\ c = d.
Proof. induction a as [|x a IH]; intros [|y b] c d L E; try discriminate; auto. cbn in *. injection E as -> E. destruct (IH b c d ltac:(lia) E) as [-> ->]. auto. Qed.
Lemma flat_inj a : forall b, all_bytes a -> all_bytes b -> length a = length b -> flat_map (bw 8) a = flat_map (bw 8) b -> a = b.
Proof.
  induction a as [|x a IH]; intros [|y b] HA HB L E; try discriminate; auto. inversion HA; inversion HB; subst. cbn [flat_map] in E.
  apply app_len_inj in E; [|now rewrite !bw_len]. destruct E as [E1 E2].
  f_equal; [apply (bw_inj 8); auto|]. apply IH; auto.
Qed.
Lemma bits_inj a b : is_ip a -> is_ip b -> bits a = bits b -> a = b.
Proof. intros HA HB. rewrite !bits_flat by auto. destruct HA, HB. apply flat_inj; auto. lia. Qed.
Lemma firstn_bits_8 a b k : is_ip a -> is_ip b -> firstn (8 * k) (bits a) = firstn (8 * k) (bits b) <-> firstn k a = firstn k b.
Proof.
  intros HA HB. rewrite !bits_flat, !firstn_flat by auto. split; [|now intros ->]. destruct HA as [LA BA], HB as [LB BB].
  apply flat_inj; unfold all_bytes in *.
  - rewrite Forall_forall in *. intros x I. apply BA. rewrite <- (firstn_skipn k a). apply in_or_app; auto.
  - rewrite Forall_forall in *. intros x I. apply BB. rewrite <- (firstn_skipn k b). apply in_or_app; auto.
  - rewrite !firstn_length. lia.
Qed.

(** memcmp *)
Lemma bytes_cmp_refl a : bytes_cmp a a = Eq.
Proof. induction a as [|x a IH]; cbn; auto. now rewrite N.compare_refl. Qed.
Lemma bytes_cmp_eq a : forall b, bytes_cmp a b = Eq -> a = b.
Proof.
  induction a as [|x a IH]; intros [|y b]; cbn; try discriminate; auto. destruct (N.compare_spec x y) as [->|_|_]; try discriminate. intros E. f_equal; auto.
Qed.
Lemma mem_eq_iff a b : mem_eq a b = true <-> a = b.
Proof.
  unfold mem_eq. split; [|intros ->; now rewrite bytes_cmp_refl]. destruct (bytes_cmp a b) eqn:E; try discriminate. intros _. now apply bytes_cmp_eq.
Qed.

(** lexicographic comparison of bit lists, the empty one first *)
Fixpoint lex (p q : list bool) : comparison :=
  match p, q with
  | [], [] => Eq
  | [], _ => Lt
  | _, [] => Gt
  | a :: p, b :: q => match a, b with false, true => Lt | true, false => Gt | _, _ => lex p q end
  end.
Lemma lex_refl p : lex p p = Eq.
Proof. induction p as [|[] p IH]; cbn; auto. Qed.
Lemma lex_eq p : forall q, lex p q = Eq -> p = q.
Proof. induction p as [|[] p IH]; intros [|[] q]; cbn; try discriminate; intros; f_equal; auto. Qed.
Lemma lex_anti p : forall q, lex q p = CompOpp (lex p q).
Proof. induction p as [|[] p IH]; intros [|[] q]; cbn; auto. Qed.
Lemma lex_trans p : forall q r, lex p q = Lt -> lex q r = Lt -> lex p r = Lt.
Proof. induction p as [|[] p IH]; intros [|[] q] [|[] r]; cbn; try discriminate; auto; eauto. Qed.
Lemma lex_app p : forall q r s, length p = length q -> lex (p ++ r) (q ++ s) = match lex p q with Eq => lex r s | c => c end.
Proof. induction p as [|[] p IH]; intros [|[] q] r s L; try discriminate; cbn; auto. Qed.
Lemma bw_mod w : forall x v, w <= v -> bw w (x mod 2 ^ N.of_nat v) = bw w x.
Proof.
  induction w as [|w IH]; intros x v H; [reflexivity|]. cbn [bw]. rewrite N.mod_pow2_bits_low by lia. now rewrite IH by lia.
Qed.
Lemma top_bit w x : (x < 2 ^ N.of_nat (S w))%N -> N.testbit x (N.of_nat w) = (2 ^ N.of_nat w <=? x)%N.
Proof.
  intros H. rewrite Nat2N.inj_succ, N.pow_succ_r' in H. rewrite N.testbit_eqb. destruct (N.leb_spec (2 ^ N.of_nat w) x) as [L|L].
  - replace (x / 2 ^ N.of_nat w)%N with 1%N; [reflexivity|]. apply N.div_unique with (x - 2 ^ N.of_nat w)%N; lia.
  - now rewrite N.div_small.
Qed.
Lemma cmp_bw w : forall x y, (x < 2 ^ N.of_nat w)%N -> (y < 2 ^ N.of_nat w)%N -> N.compare x y = lex (bw w x) (bw w y).
Proof.
  induction w as [|w IH]; intros x y HX HY.
  - cbn in HX, HY. replace x with 0%N by lia. replace y with 0%N by lia. reflexivity.
  - cbn [bw lex]. rewrite !top_bit by auto.
    assert (P : (0 < 2 ^ N.of_nat w)%N) by (apply N.neq_0_lt_0, N.pow_nonzero; lia).
    rewrite Nat2N.inj_succ, N.pow_succ_r' in HX, HY.
    assert (M : forall z, (2 ^ N.of_nat w <= z < 2 * 2 ^ N.of_nat w)%N -> bw w z = bw w (z - 2 ^ N.of_nat w)).
    { intros z Z. rewrite <- (bw_mod w z w) by lia. f_equal. symmetry. apply N.mod_unique with 1%N; lia. }
    destruct (N.leb_spec (2 ^ N.of_nat w) x) as [A|A], (N.leb_spec (2 ^ N.of_nat w) y) as [B|B].
    + rewrite (M x), (M y) by lia. rewrite <- IH by lia.
      destruct (N.compare_spec (x - 2 ^ N.of_nat w) (y - 2 ^ N.of_nat w)) as [E|E|E]; [apply N.compare_eq_iff|apply N.compare_lt_iff|apply N.compare_gt_iff]; lia.
    + apply N.compare_gt_iff. lia.
    + apply N.compare_lt_iff. lia.
    + now apply IH.
Qed.
Lemma cmp_flat a : forall b, all_bytes a -> all_bytes b -> length a = length b -> bytes_cmp a b = lex (flat_map (bw 8) a) (flat_map (bw 8) b).
Proof.
  induction a as [|x a IH]; intros [|y b] HA HB L; try discriminate; auto. inversion HA; inversion HB; subst. cbn [flat_map bytes_cmp].
  rewrite lex_app by (now rewrite !bw_len). rewrite <- cmp_bw by assumption. rewrite IH; auto.
Qed.
Lemma cmp_bits a b : is_ip a -> is_ip b -> bytes_cmp a b = lex (bits a) (bits b).
Proof. intros HA HB. rewrite !bits_flat by auto. destruct HA, HB. apply cmp_flat; auto. lia. Qed.
Lemma lex_pad n : forall p q, length p <= n -> length q <= n ->
  match lex (p ++ repeat false (n - length p)) (q ++ repeat false (n - length q)) with Eq => Nat.compare (length p) (length q) | c => c end = lex p q.
Proof.
  induction n as [|n IH]; intros p q LP LQ.
  - destruct p, q; cbn in *; try lia. reflexivity.
  - destruct p as [|a p], q as [|b q]; cbn [length] in *.
    + cbn [app lex Nat.compare]. now rewrite lex_refl.
    + specialize (IH [] q ltac:(cbn; lia) ltac:(lia)). cbn [app length repeat lex Nat.sub] in *. rewrite Nat.sub_0_r in IH. destruct b; [reflexivity|].
      destruct (lex (repeat false n) (q ++ repeat false (n - length q))); auto. destruct q; cbn in *; congruence.
    + specialize (IH p [] ltac:(lia) ltac:(cbn; lia)). cbn [app length repeat lex Nat.sub] in *. rewrite Nat.sub_0_r in IH. destruct a; [reflexivity|].
      destruct (lex (p ++ repeat false (n - length p)) (repeat false n)); auto. destruct p; cbn in *; congruence.
    + specialize (IH p q ltac:(lia) ltac:(lia)). cbn [app lex Nat.sub Nat.compare]. destruct a, b; auto.
Qed.

Ltac dlia := zify; Z.div_mod_to_equations; lia.
Lemma nth_bits ip i : i < 128 -> nth i (bits ip) false = bit ip i.
Proof.
  intros H. unfold bits. rewrite (nth_indep _ false (bit ip 0)) by (rewrite map_length, seq_length; lia). rewrite map_nth, seq_nth by lia. reflexivity.
Qed.
Lemma firstn_8r k r (l : bytes) : k < length l -> r <= 8 ->
  firstn (8 * k + r) (flat_map (bw 8) l) = flat_map (bw 8) (firstn k l) ++ firstn r (bw 8 (nth k l 0%N)).
Proof.
  revert k. induction l as [|x l IH]; intros k H R; [cbn in H; lia|]. destruct k as [|k].
  - cbn [flat_map nth firstn]. rewrite Nat.mul_0_r. cbn [Nat.add app]. rewrite firstn_app, bw_len. replace (r - 8) with 0 by lia. cbn [firstn]. now rewrite app_nil_r.
  - replace (8 * S k + r) with (8 + (8 * k + r)) by lia. cbn [flat_map nth firstn]. rewrite firstn_app, bw_len.
    rewrite (firstn_all2 (bw 8 x)) by (rewrite bw_len; lia). replace (8 + (8 * k + r) - 8) with (8 * k + r) by lia. rewrite IH by (cbn in H; lia). now rewrite app_assoc.
Qed.
Definition top (r : nat) : N := N.land (N.shiftr 65280 (N.of_nat r)) 255.
Lemma top_alt r : r < 8 -> N.land (N.shiftl 255 (8 - N.of_nat r)) 255 = top r.
Proof. intros H. do 8 (destruct r as [|r]; [reflexivity|]). lia. Qed.
Lemma high_zero z j : (z < 256)%N -> (8 <= j)%N -> N.testbit z j = false.
Proof.
  intros H J. destruct (N.eq_dec z 0) as [->|NZ]; [apply N.bits_0|]. apply N.bits_above_log2. assert (z < 2 ^ 8)%N as H' by exact H. apply N.log2_lt_pow2 in H'; lia.
Qed.
Lemma low8 z : (forall j, (8 <= j)%N -> N.testbit z j = false) -> is_byte z.
Proof.
  intros H. assert (E : z = (z mod 2 ^ 8)%N).
  { apply N.bits_inj. intros j. destruct (N.lt_ge_cases j 8) as [J|J]; [now rewrite N.mod_pow2_bits_low|]. rewrite N.mod_pow2_bits_high by exact J. auto. }
  unfold is_byte. rewrite E. now apply N.mod_lt.
Qed.
Lemma land_top r x y : r < 8 -> N.land x (top r) = N.land y (top r) <-> firstn r (bw 8 x) = firstn r (bw 8 y).
Proof.
  intros R. assert (F : forall j, N.testbit (top r) j = true -> N.land x (top r) = N.land y (top r) -> N.testbit x j = N.testbit y j).
  { intros j T E. apply (f_equal (fun v => N.testbit v j)) in E. now rewrite !N.land_spec, T, !andb_true_r in E. }
  split.
  - intros E. do 8 (destruct r as [|r]; [cbn [firstn bw]; repeat (apply f_equal2; [apply F; [reflexivity|exact E]|]); reflexivity|]). lia.
  - intros E. apply N.bits_inj. intros j. rewrite !N.land_spec. destruct (N.lt_ge_cases j 8) as [J|J].
    2: { rewrite (high_zero (top r)); [now rewrite !andb_false_r| |exact J]. clear -R. do 8 (destruct r as [|r]; [reflexivity|]). lia. }
    assert (C : (j = 0 \/ j = 1 \/ j = 2 \/ j = 3 \/ j = 4 \/ j = 5 \/ j = 6 \/ j = 7)%N) by lia. clear J F.
    do 8 (destruct r as [|r]; [cbn [firstn bw] in E; try injection E; intros; repeat destruct C as [C|C]; subst j; cbn [N.of_nat Pos.of_succ_nat Pos.succ] in *;
      match goal with |- (?a && ?c)%bool = (?b && ?c)%bool => let v := eval vm_compute in c in change c with v end; rewrite ?andb_false_r, ?andb_true_r; solve [reflexivity|assumption]|]). lia.
Qed.
Lemma masked_eq a b m : is_ip a -> is_ip b -> m < 128 ->
  exists r, masked_net_eq a b m = Ok r /\ (r = true <-> firstn m (bits a) = firstn m (bits b)).
Proof.
  intros HA HB M. unfold masked_net_eq. destruct (Nat.ltb_spec m 128); [|lia]. cbn [rassert]. fold (top (m mod 8)).
  assert (K : m / 8 < 16) by dlia. assert (R : m mod 8 < 8) by dlia. assert (E : m = 8 * (m / 8) + m mod 8) by dlia.
  unfold rd. rewrite (nth_error_nth' a 0%N) by (destruct HA; lia). rewrite (nth_error_nth' b 0%N) by (destruct HB; lia). cbn [rbind].
  eexists. split; [reflexivity|]. rewrite andb_true_iff, mem_eq_iff, N.eqb_eq, land_top by exact R.
  assert (EB : forall ip, firstn m (bits ip) = firstn (8 * (m / 8) + m mod 8) (bits ip)) by (intros; now rewrite <- E).
  rewrite !EB, !bits_flat by auto. rewrite !firstn_8r by (destruct HA, HB; lia).
  split.
  - intros [-> ->]. reflexivity.
  - intros EQ. apply app_len_inj in EQ.
    + destruct EQ as [E1 E2]. split; [|exact E2]. destruct HA as [LA BA], HB as [LB BB]. apply flat_inj; auto.
      * unfold all_bytes in *. rewrite Forall_forall in *. intros z I. apply BA. rewrite <- (firstn_skipn (m / 8) a). apply in_or_app; auto.
      * unfold all_bytes in *. rewrite Forall_forall in *. intros z I. apply BB. rewrite <- (firstn_skipn (m / 8) b). apply in_or_app; auto.
      * rewrite !firstn_length. lia.
    + rewrite <- !firstn_flat, !firstn_length, <- !bits_flat, !bits_len by auto. reflexivity.
Qed.
Lemma clear_low r x : r < 8 -> bw 8 (N.ldiff x (N.land (N.lxor 4294967295 (N.shiftl 255 (N.of_nat r))) 255)) = firstn (8 - r) (bw 8 x) ++ repeat false r.
Proof.
  intros R. do 8 (destruct r as [|r]; [cbn [bw firstn Nat.sub repeat app N.of_nat Pos.of_succ_nat Pos.succ]; rewrite !N.ldiff_spec; repeat (apply f_equal2;
    [match goal with |- context [negb (N.testbit ?c ?j)] => let v := eval vm_compute in (N.testbit c j) in change (N.testbit c j) with v end; cbn [negb]; rewrite ?andb_true_r, ?andb_false_r; reflexivity|]); reflexivity|]). lia.
Qed.
Lemma flat_zeros n : flat_map (bw 8) (repeat 0%N n) = repeat false (8 * n).
Proof. induction n as [|n IH]; [reflexivity|]. replace (8 * S n) with (8 + 8 * n) by lia. cbn [repeat flat_map]. rewrite IH, repeat_app. reflexivity. Qed.
Lemma zeros_ip : is_ip zeros.
Proof. split; [reflexivity|]. unfold zeros. cbn [repeat]. repeat (constructor; [unfold is_byte; lia|]). constructor. Qed.
Lemma bits_zeros : bits zeros = repeat false 128.
Proof. reflexivity. Qed.
Lemma clear_bits ip m : is_ip ip -> m <= 128 -> exists ip', clear_mask_bits ip m = Ok ip' /\ is_ip ip' /\ bits ip' = firstn m (bits ip) ++ repeat false (128 - m).
Proof.
  intros H M. unfold clear_mask_bits. destruct (Nat.ltb_spec m 129); [|lia]. cbn [rassert]. destruct m as [|m'].
  - exists zeros. split; [reflexivity|]. split; [apply zeros_ip|]. now rewrite bits_zeros.
  - set (m := S m') in *. set (b := 15 - (128 - m) / 8). set (r := (128 - m) mod 8).
    assert (B : b < 16) by (unfold b; dlia). assert (R : r < 8) by (unfold r; dlia). assert (E : m = 8 * b + (8 - r)) by (unfold b, r; dlia).
    unfold rd. rewrite (nth_error_nth' ip 0%N) by (destruct H; lia). cbn [rbind]. set (y := N.ldiff _ _). set (ip' := _ ++ _ ++ _). exists ip'. split; [reflexivity|].
    assert (HI : is_ip ip').
    { destruct H as [L BB]. split.
      - unfold ip'. rewrite !app_length, firstn_length, repeat_length. cbn [length]. lia.
      - unfold all_bytes, ip' in *. rewrite Forall_forall in *. intros z I. apply in_app_or in I. destruct I as [I|I].
        + apply BB. rewrite <- (firstn_skipn b ip). apply in_or_app; auto.
        + apply in_app_or in I. destruct I as [[<-|[]]|I]; [|apply repeat_spec in I; subst; unfold is_byte; lia].
          assert (is_byte (nth b ip 0%N)) by (apply BB, nth_In; lia). apply low8. intros j J. unfold y. rewrite N.ldiff_spec, (high_zero (nth b ip 0%N)) by auto. reflexivity. }
    split; [exact HI|]. rewrite !bits_flat by auto. unfold ip'. rewrite !flat_map_app. cbn [flat_map]. rewrite app_nil_r, flat_zeros. unfold y. rewrite clear_low by exact R.
    rewrite E at 1. rewrite firstn_8r by (destruct H; lia). rewrite <- !app_assoc. do 2 f_equal. rewrite <- repeat_app. f_equal. lia.
Qed.
Lemma eq_nth_bits (l l' : list bool) : length l = length l' -> (forall i, i < length l -> nth i l false = nth i l' false) -> l = l'.
Proof. intros L H. apply (nth_ext l l' false false L H). Qed.
Lemma set_bits ip b : is_ip ip -> b < 128 -> exists ip', set_bit ip b = Ok ip' /\ is_ip ip' /\ bits ip' = upd (bits ip) b true.
Proof.
  intros H B. unfold set_bit. destruct (Nat.ltb_spec b 128); [|lia]. cbn [rassert].
  assert (K : b / 8 < 16) by dlia. unfold rd. rewrite (nth_error_nth' ip 0%N) by (destruct H; lia). cbn [rbind].
  set (v := N.lor _ _). exists (upd ip (b / 8) v). split; [reflexivity|]. split.
  - destruct H as [L BB]. split; [now rewrite upd_length|]. unfold all_bytes in *. rewrite Forall_forall in *. intros z I.
    destruct (In_nth _ _ 0%N I) as (i & HI & <-). rewrite upd_length in HI. rewrite upd_nth. destruct (_ && _)%bool; [|apply BB, nth_In; lia].
    unfold is_byte, v. assert (X : (nth (b / 8) ip 0 < 256)%N) by (apply BB, nth_In; lia).
    assert (b mod 8 < 8) as R by dlia. set (r := b mod 8) in *. set (x := nth _ ip _) in *. clearbody x r. clear -X R.
    change 256%N with (2 ^ 8)%N in *. destruct (N.eq_dec (N.lor x (N.shiftl 1 (7 - N.of_nat r))) 0) as [->|NZ]; [reflexivity|].
    apply N.log2_lt_pow2; [lia|]. rewrite N.log2_lor. apply N.max_lub_lt.
    + destruct (N.eq_dec x 0) as [->|]; [reflexivity|]. apply N.log2_lt_pow2; lia.
    + rewrite N.shiftl_1_l, N.log2_pow2; lia.
  - apply eq_nth_bits; [now rewrite upd_length, !bits_len|]. intros i I. rewrite bits_len in I. rewrite nth_bits by exact I. rewrite upd_nth, bits_len, nth_bits by exact I.
    unfold bit. rewrite upd_nth. destruct H as [L _]. rewrite L. destruct (Nat.eqb_spec (b / 8) (i / 8)) as [E|NE].
    + destruct (Nat.ltb_spec (b / 8) 16); [|lia]. cbn [andb]. unfold v. rewrite N.lor_spec, N.shiftl_1_l, N.pow2_bits_eqb, E.
      destruct (Nat.eqb_spec b i) as [->|NE].
      * replace (7 - N.of_nat (i mod 8))%N with (N.of_nat (7 - i mod 8)) by lia. rewrite N.eqb_refl, orb_true_r. destruct (Nat.ltb_spec i 128); [reflexivity|lia].
      * cbn [andb]. replace (7 - N.of_nat (b mod 8) =? N.of_nat (7 - i mod 8))%N with false; [now rewrite orb_false_r|]. symmetry. apply N.eqb_neq. intros C. apply NE. dlia.
    + cbn [andb]. destruct (Nat.eqb_spec b i) as [->|_]; [congruence|reflexivity].
Qed.
Lemma chk_bits ip b : is_ip ip -> b < 128 -> chk_bit ip b = Ok (nth b (bits ip) false).
Proof.
  intros H B. unfold chk_bit. destruct (Nat.ltb_spec b 128); [|lia]. cbn [rassert]. assert (K : b / 8 < 16) by dlia.
  unfold rd. rewrite (nth_error_nth' ip 0%N) by (destruct H; lia). cbn [rbind]. rewrite nth_bits by exact B. unfold bit. f_equal.
  replace (N.of_nat (7 - b mod 8)) with (7 - N.of_nat (b mod 8))%N by dlia. set (k := (7 - _)%N). set (x := nth _ _ _). rewrite N.shiftl_1_l.
  destruct (N.testbit x k) eqn:T.
  - destruct (N.eqb_spec (N.land x (2 ^ k)) 0) as [E|]; [|reflexivity]. apply (f_equal (fun v => N.testbit v k)) in E. rewrite N.land_spec, N.pow2_bits_true, T, N.bits_0 in E. discriminate.
  - replace (N.land x (2 ^ k)) with 0%N; [reflexivity|]. symmetry. apply N.bits_inj. intros j. rewrite N.land_spec, N.bits_0, N.pow2_bits_eqb.
    destruct (N.eqb_spec k j) as [->|]; [now rewrite T|apply andb_false_r].
Qed.
