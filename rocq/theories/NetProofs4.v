(** Looking up a client's address. *)
From Verif Require Import Base NetModel NetSpec NetBits NetProofs NetProofs2 NetProofs3.
From Coq Require Import Permutation Sorted.
Ltac Zify.zify_post_hook ::= idtac.

Definition fl (b : bytes) : list bool := flat_map (bw 8) b.
Lemma fl_len b : length (fl b) = 8 * length b.
Proof. unfold fl. induction b as [|x b IH]; [reflexivity|]. cbn [flat_map]. rewrite app_length, bw_len, IH. cbn [length]. lia. Qed.
Lemma nth_fl b : forall i, nth i (fl b) false = bit b i.
Proof.
  induction b as [|x b IH]; intros i.
  - unfold bit. cbn [fl flat_map]. rewrite (nth_overflow (@nil N)) by (cbn; lia). rewrite N.bits_0. now destruct i.
  - unfold fl. cbn [flat_map]. destruct (Nat.lt_ge_cases i 8) as [L|L].
    + rewrite app_nth1 by (rewrite bw_len; lia). do 8 (destruct i as [|i]; [reflexivity|]). lia.
    + rewrite app_nth2 by (rewrite bw_len; lia). rewrite bw_len. fold (fl b). rewrite IH. unfold bit. replace (i / 8) with (S ((i - 8) / 8)) by dlia. cbn [nth]. replace (i mod 8) with ((i - 8) mod 8) by dlia. reflexivity.
Qed.
Lemma firstn_nth_eq (a b : list bool) k : k <= length a -> k <= length b -> firstn k a = firstn k b <-> forall i, i < k -> nth i a false = nth i b false.
Proof.
  intros LA LB. split.
  - intros E i H. rewrite <- (firstn_skipn k a), <- (firstn_skipn k b), E. rewrite !app_nth1 by (rewrite firstn_length; lia). reflexivity.
  - revert a b LA LB. induction k as [|k IH]; intros a b LA LB H; [reflexivity|]. destruct a as [|x a], b as [|y b]; cbn [length] in *; try lia. cbn [firstn]. f_equal; [apply (H 0); lia|]. apply IH; try lia. intros i HI. apply (H (S i)). lia.
Qed.
Lemma share_fl k x y : length x = length y -> k <= 8 * length x -> share k x y <-> firstn k (fl x) = firstn k (fl y).
Proof.
  intros L K. rewrite firstn_nth_eq by (rewrite fl_len; lia). unfold share. split; intros H i I; specialize (H i I); rewrite ?nth_fl in *; exact H.
Qed.
Lemma same_iff n a b : same n a b = true <-> firstn n a = firstn n b.
Proof. apply mem_eq_iff. Qed.

Lemma bp_depth t : forall x k, exists j, snd (bp t x k) = k + j /\ j <= height t.
Proof.
  induction t as [d|l IHl r IHr]; intros x k; cbn [bp height]; [exists 0; cbn; lia|]. destruct x as [|b x]; [exists 0; cbn; lia|].
  destruct b; [destruct (IHr x (S k)) as (j & -> & J)|destruct (IHl x (S k)) as (j & -> & J)]; exists (S j); lia.
Qed.
Lemma bp_scope t : forall x y k j, snd (bp t x k) = k + j -> firstn j y = firstn j x -> length y = length x -> bp t y k = bp t x k.
Proof.
  induction t as [d|l IHl r IHr]; intros x y k j E F L; [reflexivity|]. destruct x as [|b x]; [destruct y; [reflexivity|discriminate]|]. destruct y as [|c y]; [discriminate|]. cbn [bp] in *.
  destruct j as [|j].
  - exfalso. destruct (bp_depth (if b then r else l) x (S k)) as (j & E' & _). rewrite E in E'. lia.
  - cbn [firstn] in F. injection F as -> F. destruct b; [apply (IHr x y (S k) j)|apply (IHl x y (S k) j)]; auto; lia || (cbn in L; lia).
Qed.
Lemma holds_dcok st lo c t : holds st lo c t -> forall x k, height t <= length x -> dcok (fst (bp t x k)).
Proof.
  induction 1 as [lo d D|lo i z o l r L E B H1 IH1 H2 IH2]; intros x k LX; [exact D|]. cbn [height bp] in *. destruct x as [|b x]; [cbn in LX; lia|]. cbn [length] in LX. destruct b; [apply IH2; lia|apply IH1; lia].
Qed.

Lemma skipn_nth (l : list bool) i : i < length l -> skipn i l = nth i l false :: skipn (S i) l.
Proof. revert i. induction l as [|a l IH]; intros [|i] H; cbn in *; try lia; auto. apply IH. lia. Qed.

Lemma child_nz st lo c t : holds st lo c t -> 0 < lo -> c <> 0%N.
Proof. intros H L. destruct H; [apply set_nz|lia]. Qed.
Lemma leaf_or st lo c t : holds st lo c t -> (exists d, t = TL d /\ c = set_dclist d /\ dcok d) \/ (is_dclist c = false /\ ~ leafy t).
Proof. intros H. destruct H; [left; eauto|right]. split; [now apply idx_not_leaf|cbn; tauto]. Qed.

Lemma lookup_v6_ok ip : is_ip ip -> forall fuel st lo off t chk, holds st lo off t -> ~ leafy t -> height t <= fuel -> chk + height t <= 128 ->
  (fst (bp t (skipn chk (bits ip)) chk) < 2147483647)%N -> lookup_v6 fuel st ip chk off = Ok (bp t (skipn chk (bits ip)) chk).
Proof.
  intros HI. induction fuel as [|fuel IH]; intros st lo off t chk H NL HF HC HD; destruct H as [lo d D|lo i z o l r L E B H1 H2]; [cbn in NL; tauto|cbn in HF; lia|cbn in NL; tauto|].
  cbn [lookup_v6]. rewrite Nat2N.id. unfold rd. rewrite E. cbn [rbind].
  pose proof (child_nz _ _ _ _ H1 ltac:(lia)) as ZN. pose proof (child_nz _ _ _ _ H2 ltac:(lia)) as ON. apply N.eqb_neq in ZN, ON. rewrite ZN, ON. cbn [negb andb rassert]. cbn [height] in *.
  rewrite chk_bits by (auto; lia). cbn [rbind]. rewrite (skipn_nth (bits ip) chk) in HD |- * by (rewrite bits_len; lia). cbn [bp] in *. destruct (Nat.ltb_spec (S chk) 129); [|lia]. cbn [rassert].
  assert (G : forall c u, holds st (S i) c u -> height u <= fuel -> S chk + height u <= 128 -> (fst (bp u (skipn (S chk) (bits ip)) (S chk)) < 2147483647)%N ->
    (if is_dclist c then rassert (negb (c =? NN_UNDEF)%N) (Ok (get_dclist c, S chk)) else lookup_v6 fuel st ip (S chk) c) = Ok (bp u (skipn (S chk) (bits ip)) (S chk))).
  { intros c u HU U1 U2 U3. destruct (leaf_or _ _ _ _ HU) as [(d & -> & -> & D)|[-> NLU]]; [|eapply IH; eauto]. rewrite set_is. cbn [bp fst] in *. pose proof (set_undef d U3) as NU. apply N.eqb_neq in NU. rewrite NU. cbn [negb rassert]. rewrite get_set by lia. reflexivity. }
  destruct (nth chk (bits ip) false); apply G; auto; lia.
Qed.

Lemma bw_nth w v i : i < w -> nth i (bw w v) false = N.testbit v (N.of_nat (w - 1 - i)).
Proof. revert i. induction w as [|w IH]; intros i H; [lia|]. cbn [bw]. destruct i as [|i]; cbn [nth]; [f_equal; lia|]. rewrite IH by lia. f_equal. lia. Qed.
Lemma chk4 v b : b < 32 -> chk_bit4 v b = Ok (nth b (bw 32 v) false).
Proof.
  intros H. unfold chk_bit4. destruct (Nat.ltb_spec b 32); [|lia]. cbn [rassert]. f_equal. rewrite bw_nth by exact H. replace (N.of_nat (32 - 1 - b)) with (31 - N.of_nat b)%N by lia. set (k := (31 - N.of_nat b)%N).
  rewrite N.shiftl_1_l. destruct (N.testbit v k) eqn:T.
  - apply negb_true_iff, N.eqb_neq. intros E. apply (f_equal (fun u => N.testbit u k)) in E. rewrite N.land_spec, T, N.pow2_bits_true in E. discriminate.
  - apply negb_false_iff, N.eqb_eq. apply N.bits_inj. intros j. rewrite N.land_spec, N.bits_0, N.pow2_bits_eqb. destruct (N.eqb_spec k j) as [<-|]; [now rewrite T|apply andb_false_r].
Qed.
Lemma lookup_v4_ok v : forall fuel st lo off t chk, holds st lo off t -> 0 < lo -> height t <= fuel -> chk + height t <= 32 ->
  (fst (bp t (skipn chk (bw 32 v)) chk) < 2147483647)%N -> lookup_v4 fuel st v chk off = Ok (bp t (skipn chk (bw 32 v)) chk).
Proof.
  induction fuel as [|fuel IH]; intros st lo off t chk H LO HF HC HD.
  - destruct H as [lo d D|]; [|cbn in HF; lia]. cbn [lookup_v4 bp fst] in *. rewrite set_is. pose proof (set_undef d HD) as NU. apply N.eqb_neq in NU. rewrite NU. cbn [negb rassert]. now rewrite get_set by lia.
  - destruct H as [lo d D|lo i z o l r L E B H1 H2]; cbn [lookup_v4].
    + rewrite set_is. cbn [bp fst] in *. pose proof (set_undef d HD) as NU. apply N.eqb_neq in NU. rewrite NU. cbn [negb rassert]. now rewrite get_set by lia.
    + rewrite idx_not_leaf by exact B. rewrite Nat2N.id. unfold rd. rewrite E. cbn [rbind].
      pose proof (child_nz _ _ _ _ H1 ltac:(lia)) as ZN. pose proof (child_nz _ _ _ _ H2 ltac:(lia)) as ON. apply N.eqb_neq in ZN, ON. rewrite ZN, ON. cbn [negb andb rassert]. cbn [height] in *.
      rewrite chk4 by lia. cbn [rbind]. destruct (Nat.ltb_spec (S chk) 33); [|lia]. cbn [rassert]. rewrite (skipn_nth (bw 32 v) chk) in HD |- * by (rewrite bw_len; lia). cbn [bp] in *.
      destruct (nth chk (bw 32 v) false); [apply (IH st (S i) o r (S chk))|apply (IH st (S i) z l (S chk))]; auto; lia.
Qed.

(** four bytes as a number *)
Lemma bw_cat w x y : (y < 256)%N -> bw (w + 8) (x * 256 + y) = bw w x ++ bw 8 y.
Proof.
  intros Y. induction w as [|w IH].
  - cbn [plus app]. assert (G : forall v, v <= 8 -> bw v (x * 256 + y) = bw v y); [|apply G; lia]. intros v V. rewrite <- (bw_mod v (x * 256 + y) 8 V). f_equal. change (2 ^ N.of_nat 8)%N with 256%N. rewrite N.add_comm, N.mod_add by lia. apply N.mod_small. exact Y.
  - cbn [plus bw app]. rewrite IH. f_equal. replace (N.of_nat (w + 8)) with (N.of_nat w + 8)%N by lia. rewrite <- N.div_pow2_bits. f_equal. change (2 ^ 8)%N with 256%N. rewrite N.add_comm, N.div_add by lia. rewrite N.div_small by exact Y. reflexivity.
Qed.
Lemma bw_get32 a b c d : (b < 256)%N -> (c < 256)%N -> (d < 256)%N -> bw 32 (get32 a b c d) = fl [a; b; c; d].
Proof.
  intros B C D. replace (get32 a b c d) with (((a * 256 + b) * 256 + c) * 256 + d)%N by (unfold get32; lia). change 32 with (8 + 8 + 8 + 8). rewrite !bw_cat by auto. unfold fl. cbn [flat_map]. now rewrite app_nil_r, <- !app_assoc.
Qed.
Lemma not32 a b c d : (a < 256)%N -> (b < 256)%N -> (c < 256)%N -> (d < 256)%N -> N.lxor (get32 a b c d) 4294967295 = get32 (255 - a) (255 - b) (255 - c) (255 - d).
Proof.
  intros A B C D. assert (V : (get32 a b c d < 2 ^ 32)%N) by (change (2 ^ 32)%N with 4294967296%N; unfold get32; lia). change 4294967295%N with (N.ones 32). fold (N.lnot (get32 a b c d) 32).
  rewrite N.lnot_sub_low. 2: { destruct (N.eq_dec (get32 a b c d) 0) as [->|NZ]; [reflexivity|]. apply N.log2_lt_pow2; [lia|exact V]. } change (N.ones 32) with 4294967295%N. unfold get32. lia.
Qed.
Lemma ld32_ok ip i : all_bytes ip -> i + 4 <= length ip -> exists v, ld32 ip i = Ok v /\ bw 32 v = fl (firstn 4 (skipn i ip)) /\ bw 32 (N.lxor v 4294967295) = fl (map (fun x => 255 - x)%N (firstn 4 (skipn i ip))).
Proof.
  intros HB L. unfold ld32, rd. do 4 rewrite (nth_error_nth' ip 0%N) by lia. cbn [rbind].
  assert (E : firstn 4 (skipn i ip) = [nth i ip 0; nth (i + 1) ip 0; nth (i + 2) ip 0; nth (i + 3) ip 0]%N).
  { clear HB. revert i L. induction ip as [|x ip IH]; intros i L; [cbn in L; lia|]. destruct i as [|i].
    - do 3 (destruct ip as [|? ip]; [cbn in L; lia|]). reflexivity.
    - cbn [skipn nth plus length] in *. apply IH. lia. }
  unfold all_bytes in HB. rewrite Forall_forall in HB. assert (HN : forall j, j < length ip -> (nth j ip 0 < 256)%N) by (intros j J; apply HB, nth_In; lia).
  eexists. split; [reflexivity|]. rewrite E. split; [apply bw_get32; apply HN; lia|]. rewrite not32 by (apply HN; lia). cbn [map]. apply bw_get32; lia.
Qed.

(** addresses that stand for IPv4 ones *)
Definition special (b : bytes) : Prop :=
  same 12 b start_v4mapped = true \/ same 12 b start_siit = true \/ same 12 b start_wkp = true \/ same 4 b start_teredo = true \/ same 2 b start_6to4 = true.

Lemma firstn_le_eq {A} (a b : list A) n m : m <= n -> firstn n a = firstn n b -> firstn m a = firstn m b.
Proof. intros L E. apply (f_equal (firstn m)) in E. rewrite !firstn_firstn, Nat.min_l in E by exact L. exact E. Qed.
Lemma same_le n m b b' p : m <= n -> firstn n b = firstn n b' -> same m b p = same m b' p.
Proof. intros L E. unfold same. now rewrite (firstn_le_eq b b' n m L E). Qed.

Lemma fl_bits ip : is_ip ip -> bits ip = fl ip.
Proof. apply bits_flat. Qed.
Lemma fl_app a b : fl (a ++ b) = fl a ++ fl b.
Proof. unfold fl. apply flat_map_app. Qed.
Lemma skipn_fl k b : skipn (8 * k) (fl b) = fl (skipn k b).
Proof.
  rewrite <- (firstn_skipn k b) at 1. rewrite fl_app. destruct (Nat.le_gt_cases k (length b)) as [L|L].
  - rewrite skipn_app, fl_len, firstn_length, Nat.min_l by exact L. rewrite skipn_all2 by (rewrite fl_len, firstn_length; lia). now rewrite Nat.sub_diag.
  - rewrite (skipn_all2 b) by lia. rewrite skipn_app, fl_len, firstn_length. rewrite Nat.min_r by lia. rewrite skipn_all2 by (rewrite fl_len, firstn_length; lia). cbn [fl flat_map app]. apply skipn_nil.
Qed.
Lemma fl_not b : all_bytes b -> fl (map (fun x => 255 - x)%N b) = map negb (fl b).
Proof.
  induction 1 as [|x b X F IH]; [reflexivity|]. unfold fl in *. cbn [map flat_map]. rewrite IH, map_app. f_equal.
  assert (E : (255 - x)%N = N.lnot x 8). { rewrite N.lnot_sub_low; [reflexivity|]. destruct (N.eq_dec x 0) as [->|NZ]; [reflexivity|]. apply N.log2_lt_pow2; [lia|exact X]. }
  rewrite E. assert (G : forall w, w <= 8 -> bw w (N.lnot x 8) = map negb (bw w x)); [|now apply G].
  induction w as [|w IHw]; intros W; [reflexivity|]. cbn [bw map]. rewrite IHw by lia. f_equal. apply N.lnot_spec_low. lia.
Qed.

Lemma canon_ip c : caddr_ok c -> is_ip (canon c).
Proof.
  intros H. assert (G : forall q, length q = 4 -> all_bytes q -> is_ip (repeat 0%N 12 ++ q)).
  { intros q L B. split; [rewrite app_length, repeat_length, L; reflexivity|]. apply Forall_app. split; [|exact B]. apply Forall_forall. intros x X. apply repeat_spec in X. subst. reflexivity. }
  destruct c as [b|b]; cbn [canon caddr_ok] in *; [apply G; tauto|]. destruct H as [L B].
  assert (GS : forall k, all_bytes (skipn k b)) by (intros k; unfold all_bytes in *; rewrite Forall_forall in *; intros x X; apply B; rewrite <- (firstn_skipn k b); apply in_or_app; auto).
  assert (GF : forall k j, all_bytes (firstn k (skipn j b))) by (intros k j; specialize (GS j); unfold all_bytes in *; rewrite Forall_forall in *; intros x X; apply GS; rewrite <- (firstn_skipn k (skipn j b)); apply in_or_app; auto).
  repeat match goal with |- is_ip (if ?c then _ else _) => destruct c end; try (apply G; [rewrite skipn_length; lia|apply GS]); [| |split; auto].
  - apply G; [rewrite map_length, skipn_length; lia|]. apply Forall_forall. intros x X. apply in_map_iff in X. destruct X as (y & <- & _). unfold is_byte. lia.
  - apply G; [rewrite firstn_length, skipn_length; lia|apply GF].
Qed.

Lemma fixup_canon b : is_ip b ->
  (exists v adj, v4fixup b = Ok (Some (v, adj)) /\ special b /\ adj <= 96 /\ bits (canon (C6 b)) = repeat false 96 ++ bw 32 v /\
    forall b' j, is_ip b' -> j <= 32 -> firstn (adj + j) (bits b) = firstn (adj + j) (bits b') -> exists v', v4fixup b' = Ok (Some (v', adj)) /\ firstn j (bw 32 v') = firstn j (bw 32 v)) \/
  (v4fixup b = Ok None /\ canon (C6 b) = b /\ ~ special b).
Proof.
  intros HI. pose proof HI as [L HB].
  assert (AB : forall b', is_ip b' -> forall k, all_bytes (skipn k b')).
  { intros b' [_ B'] k. unfold all_bytes in *. rewrite Forall_forall in *. intros x X. apply B'. rewrite <- (firstn_skipn k b'). apply in_or_app; auto. }
  assert (F4 : forall b', is_ip b' -> firstn 4 (skipn 12 b') = skipn 12 b') by (intros b' [L' _]; apply firstn_all2; rewrite skipn_length; lia).
  assert (Z12 : fl (repeat 0%N 12) = repeat false 96) by (unfold fl; rewrite flat_zeros; reflexivity).
  assert (SK : forall b' k j, is_ip b' -> firstn (8 * k + j) (bits b) = firstn (8 * k + j) (bits b') -> firstn k b = firstn k b' /\ firstn j (fl (skipn k b)) = firstn j (fl (skipn k b'))).
  { intros b' k j HI' E. split; [apply firstn_bits_8; auto; apply firstn_le_eq with (n := 8 * k + j); [lia|exact E]|].
    rewrite <- !skipn_fl. rewrite <- !fl_bits by auto. rewrite !firstn_skipn_comm. f_equal. exact E. }
  unfold canon. unfold startsb.
  change (same (length (repeat 0%N 10 ++ [255%N; 255%N])) b (repeat 0%N 10 ++ [255%N; 255%N])) with (same 12 b start_v4mapped).
  change (same (length (repeat 0%N 8 ++ [255%N; 255%N; 0%N; 0%N])) b (repeat 0%N 8 ++ [255%N; 255%N; 0%N; 0%N])) with (same 12 b start_siit).
  change (same (length ([0%N; 100%N; 255%N; 155%N] ++ repeat 0%N 8)) b ([0%N; 100%N; 255%N; 155%N] ++ repeat 0%N 8)) with (same 12 b start_wkp).
  change (same (length [32%N; 1%N; 0%N; 0%N]) b [32%N; 1%N; 0%N; 0%N]) with (same 4 b start_teredo).
  change (same (length [32%N; 2%N]) b [32%N; 2%N]) with (same 2 b start_6to4).
  unfold v4fixup, special.
  assert (PLAIN : forall P : Prop, P -> (same 12 b start_v4mapped || same 12 b start_siit || same 12 b start_wkp)%bool = true ->
     exists v adj, (do v <- ld32 b 12; Ok (Some (v, 96))) = Ok (Some (v, adj)) /\ P /\ adj <= 96 /\ bits (repeat 0%N 12 ++ skipn 12 b) = repeat false 96 ++ bw 32 v /\
      forall b' j, is_ip b' -> j <= 32 -> firstn (adj + j) (bits b) = firstn (adj + j) (bits b') -> exists v',
        (if (same 12 b' start_v4mapped || same 12 b' start_siit || same 12 b' start_wkp)%bool then do v <- ld32 b' 12; Ok (Some (v, 96)) else if same 4 b' start_teredo then do v <- ld32 b' 12; Ok (Some (N.lxor v 4294967295, 96)) else if same 2 b' start_6to4 then do v <- ld32 b' 2; Ok (Some (v, 16)) else Ok None) = Ok (Some (v', adj)) /\ firstn j (bw 32 v') = firstn j (bw 32 v)).
  { intros P HP HS. destruct (ld32_ok b 12 HB ltac:(lia)) as (v & -> & EV & _). rewrite F4 in EV by exact HI. exists v, 96. cbn [rbind]. split; [reflexivity|]. split; [exact HP|]. split; [lia|].
    split. { rewrite fl_bits, fl_app, Z12, EV; [reflexivity|]. split; [rewrite app_length, repeat_length, skipn_length; lia|]. apply Forall_app. split; [apply Forall_forall; intros x X; apply repeat_spec in X; subst; reflexivity|apply AB; exact HI]. }
    intros b' j HI' J E. destruct (SK b' 12 j HI' E) as [E12 EJ]. rewrite <- !(same_le 12 12 b b') by (auto; lia). rewrite HS. pose proof HI' as [L' HB']. destruct (ld32_ok b' 12 HB' ltac:(lia)) as (v' & -> & EV' & _). rewrite F4 in EV' by exact HI'.
    exists v'. split; [reflexivity|]. rewrite EV, EV'. symmetry. exact EJ. }
  destruct (same 12 b start_v4mapped) eqn:S1; [left; cbn [orb] in *; apply PLAIN; auto|]. destruct (same 12 b start_siit) eqn:S2; [left; cbn [orb] in *; apply PLAIN; auto|]. destruct (same 12 b start_wkp) eqn:S3; [left; cbn [orb] in *; apply PLAIN; auto|].
  cbn [orb]. destruct (same 4 b start_teredo) eqn:S4; [|destruct (same 2 b start_6to4) eqn:S5].
  - left. destruct (ld32_ok b 12 HB ltac:(lia)) as (v & -> & _ & EV). rewrite F4 in EV by exact HI. exists (N.lxor v 4294967295), 96. cbn [rbind]. split; [reflexivity|]. split; [auto|]. split; [lia|].
    split. { rewrite fl_bits, fl_app, Z12, EV; [reflexivity|]. split; [rewrite app_length, repeat_length, map_length, skipn_length; lia|]. apply Forall_app. split; [apply Forall_forall; intros x X; apply repeat_spec in X; subst; reflexivity|]. apply Forall_forall. intros x X. apply in_map_iff in X. destruct X as (y & <- & _). unfold is_byte. lia. }
    intros b' j HI' J E. destruct (SK b' 12 j HI' E) as [E12 EJ]. rewrite <- !(same_le 12 12 b b') by (auto; lia). rewrite <- (same_le 12 4 b b') by (auto; lia). rewrite S1, S2, S3, S4. cbn [orb]. pose proof HI' as [L' HB']. destruct (ld32_ok b' 12 HB' ltac:(lia)) as (v' & -> & _ & EV'). rewrite F4 in EV' by exact HI'.
    exists (N.lxor v' 4294967295). split; [reflexivity|]. rewrite EV, EV', !fl_not by (apply AB; auto). rewrite !firstn_map. now rewrite EJ.
  - left. destruct (ld32_ok b 2 HB ltac:(lia)) as (v & -> & EV & _). exists v, 16. cbn [rbind]. split; [reflexivity|]. split; [auto|]. split; [lia|].
    split. { rewrite fl_bits, fl_app, Z12, EV; [reflexivity|]. split; [rewrite app_length, repeat_length, firstn_length, skipn_length; lia|]. apply Forall_app. split; [apply Forall_forall; intros x X; apply repeat_spec in X; subst; reflexivity|]. specialize (AB b HI 2). unfold all_bytes in *. rewrite Forall_forall in *. intros x X. apply AB. rewrite <- (firstn_skipn 4 (skipn 2 b)). apply in_or_app; auto. }
    intros b' j HI' J E. destruct (SK b' 2 j HI' E) as [E2 EJ]. pose proof S5 as S5'. apply same_iff in S5'. rewrite E2 in S5'.
    assert (NS : forall n p, 2 <= n -> firstn 2 p <> firstn 2 start_6to4 -> same n b' p = false).
    { intros n p HN NE. apply not_true_iff_false. intros T. apply same_iff in T. apply (firstn_le_eq _ _ n 2 HN) in T. congruence. }
    rewrite !NS by (try lia; cbv; discriminate). cbn [orb]. rewrite <- (same_le 2 2 b b') by (auto; lia). rewrite S5. pose proof HI' as [L' HB']. destruct (ld32_ok b' 2 HB' ltac:(lia)) as (v' & -> & EV' & _).
    exists v'. split; [reflexivity|]. rewrite EV, EV'. unfold fl. rewrite <- !(firstn_flat _ 4). fold (fl (skipn 2 b)). fold (fl (skipn 2 b')). rewrite !firstn_firstn. rewrite Nat.min_l by lia. symmetry. exact EJ.
  - right. split; [reflexivity|]. split; [reflexivity|]. intros [T|[T|[T|[T|T]]]]; congruence.
Qed.

Section Lookup.
  Variable T : ntree.
  Variable f : list bool -> N.
  Variables (t t4 : bt).
  Hypothesis HT : holds (t_store T) 0 0%N t.
  Hypothesis HNL : ~ leafy t.
  Hypothesis HH : height t <= 128.
  Hypothesis HF : forall x k, length x = 128 -> fst (bp t x k) = f x.
  Hypothesis HT4 : holds (t_store T) 1 (t_v4 T) t4.
  Hypothesis HH4 : height t4 <= 32.
  Hypothesis HF4 : forall x k, length x = 32 -> fst (bp t4 x k) = f (repeat false 96 ++ x).
  Hypothesis HSP : forall b, is_ip b -> special b -> f (bits b) = NN_UNDEF.
  Hypothesis HOK : forall c, caddr_ok c -> (f (bits (canon c)) < 2147483647)%N.

  Lemma v4_ok v : (f (repeat false 96 ++ bw 32 v) < 2147483647)%N -> lookup_v4 32 (t_store T) v 0 (t_v4 T) = Ok (bp t4 (bw 32 v) 0).
  Proof. intros H. rewrite (lookup_v4_ok v 32 _ 1 _ t4 0 HT4); [reflexivity|lia|exact HH4|lia|]. cbn [skipn]. now rewrite HF4 by apply bw_len. Qed.

  Theorem inner_ok c : caddr_ok c -> exists k, lookup_inner T c = Ok (f (bits (canon c)), k) /\ k <= 8 * length (raw c) /\
    forall c', caddr_ok c' -> same_family c c' -> share k (raw c) (raw c') -> lookup_inner T c' = Ok (f (bits (canon c)), k).
  Proof.
    intros HC. pose proof (HOK c HC) as BND. pose proof (canon_ip c HC) as CIP. destruct c as [b|b]; cbn [caddr_ok raw] in *.
    - destruct HC as [L HB]. cbn [canon] in *. assert (EB : forall b, length b = 4 -> is_ip (repeat 0%N 12 ++ b) -> bits (repeat 0%N 12 ++ b) = repeat false 96 ++ fl b).
      { intros q LQ HQ. rewrite fl_bits by exact HQ. rewrite fl_app. unfold fl at 1. rewrite flat_zeros. reflexivity. }
      assert (GO : forall b, length b = 4 -> all_bytes b -> lookup_inner T (C4 b) = Ok (bp t4 (fl b) 0)).
      { intros q LQ HQ. cbn [lookup_inner]. destruct (ld32_ok q 0 HQ ltac:(lia)) as (v & -> & EV & _). cbn [rbind]. rewrite skipn_O, firstn_all2 in EV by lia. rewrite <- EV. apply v4_ok. rewrite EV, <- EB; [|auto|apply (canon_ip (C4 q)); split; auto]. apply (HOK (C4 q)). split; auto. }
      rewrite GO by auto. destruct (bp_depth t4 (fl b) 0) as (k & E & K). exists k. rewrite EB by auto. rewrite <- (HF4 (fl b) 0) by (rewrite fl_len; lia).
      split. { rewrite (surjective_pairing (bp t4 (fl b) 0)) at 1. rewrite E. reflexivity. } split; [lia|].
      intros [b'|b'] HC' SF SH; [|destruct SF]. destruct HC' as [L' HB']. cbn [raw] in SH. rewrite GO by auto. apply share_fl in SH; [|lia|lia]. rewrite (bp_scope t4 (fl b) (fl b') 0 k E); [|now symmetry|rewrite !fl_len; lia].
      rewrite (surjective_pairing (bp t4 (fl b) 0)) at 1. rewrite E. reflexivity.
    - cbn [lookup_inner]. destruct (fixup_canon b HC) as [(v & adj & EF & SP & LA & EB & SC)|(EF & EC & NS)].
      + rewrite EF, EB in *. cbn [rbind]. rewrite v4_ok by exact BND. cbn [rbind]. destruct (bp_depth t4 (bw 32 v) 0) as (k & E & K). cbn [plus] in E.
        rewrite (surjective_pairing (bp t4 (bw 32 v) 0)), E. exists (k + adj). rewrite HF4 by apply bw_len. split; [reflexivity|]. destruct HC as [L HB]. split; [lia|].
        intros [b'|b'] HC' SF SH; [destruct SF|]. cbn [raw caddr_ok lookup_inner] in *. apply share_fl in SH; [|destruct HC'; lia|lia]. rewrite <- !fl_bits in SH by (auto; split; auto). rewrite Nat.add_comm in SH.
        destruct (SC b' k HC' ltac:(lia) SH) as (v' & -> & EV). cbn [rbind]. assert (EBP : bp t4 (bw 32 v') 0 = bp t4 (bw 32 v) 0) by (apply (bp_scope t4 (bw 32 v) (bw 32 v') 0 k E); [exact EV|now rewrite !bw_len]).
        rewrite (lookup_v4_ok v' 32 _ 1 _ t4 0 HT4); [|lia|exact HH4|lia|cbn [skipn]; rewrite EBP, HF4 by apply bw_len; exact BND]. cbn [skipn rbind]. rewrite EBP, (surjective_pairing (bp t4 (bw 32 v) 0)), E, HF4 by apply bw_len. reflexivity.
      + rewrite EF, EC in *. cbn [rbind]. assert (G6 : forall b', is_ip b' -> (f (bits b') < 2147483647)%N -> lookup_v6 128 (t_store T) b' 0 0 = Ok (bp t (bits b') 0)).
        { intros b' HB' BB. apply (lookup_v6_ok b' HB' 128 _ 0 _ t 0 HT HNL HH); [lia|]. cbn [skipn]. now rewrite HF by apply bits_len. }
        rewrite G6 by auto. destruct (bp_depth t (bits b) 0) as (k & E & K). cbn [plus] in E. exists k. rewrite (surjective_pairing (bp t (bits b) 0)), E, HF by apply bits_len. split; [reflexivity|]. pose proof HC as [L HB]. split; [lia|].
        intros [b'|b'] HC' SF SH; [destruct SF|]. cbn [raw caddr_ok lookup_inner] in *. apply share_fl in SH; [|destruct HC'; lia|lia]. rewrite <- !fl_bits in SH by auto.
        assert (EBP : bp t (bits b') 0 = bp t (bits b) 0) by (apply (bp_scope t (bits b) (bits b') 0 k E); [now symmetry|now rewrite !bits_len]).
        assert (EFF : f (bits b') = f (bits b)) by (rewrite <- (HF (bits b') 0), <- (HF (bits b) 0) by apply bits_len; now rewrite EBP).
        destruct (fixup_canon b' HC') as [(v & adj & _ & SP & _)|(EF' & _ & _)]; [exfalso; apply HSP in SP; auto; rewrite EFF in SP; rewrite SP in BND; discriminate BND|].
        rewrite EF'. cbn [rbind]. rewrite G6 by (auto; rewrite EFF; exact BND). rewrite EBP, (surjective_pairing (bp t (bits b) 0)), E, HF by apply bits_len. reflexivity.
  Qed.
End Lookup.
