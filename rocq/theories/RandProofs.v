From Coq Require Import Sorting.Permutation.
From Verif Require Import Base RandModel RandSpec.
Local Open Scope N_scope.
Ltac Zify.zify_post_hook ::= idtac.

(** * Counting *)

Lemma count_below_0 P : count_below P 0 = 0.
Proof. reflexivity. Qed.

Lemma count_below_succ P n :
  count_below P (N.succ n) = (if P n then count_below P n + 1 else count_below P n).
Proof.
  unfold count_below. rewrite N.recursion_succ with (Aeq := eq); auto.
  intros x y -> a b ->. reflexivity.
Qed.

#[local] Opaque count_below.

Lemma count_below_ext P Q n :
  (forall x, x < n -> P x = Q x) -> count_below P n = count_below Q n.
Proof.
  induction n as [|n IH] using N.peano_ind; intros H; [now rewrite !count_below_0|].
  rewrite !count_below_succ, H by lia. rewrite IH; auto. intros x Hx; apply H; lia.
Qed.

Lemma count_below_interval lo k n :
  lo + k <= n ->
  count_below (fun x => (lo <=? x) && (x <? lo + k))%bool n = k.
Proof.
  intros Hn.
  assert (G : forall m, count_below (fun x => (lo <=? x) && (x <? lo + k))%bool m
                        = N.min m (lo + k) - N.min m lo).
  { induction m as [|m IH] using N.peano_ind.
    - rewrite count_below_0. lia.
    - rewrite count_below_succ, IH.
      destruct ((lo <=? m) && (m <? lo + k))%bool eqn:E; lia. }
  rewrite G. lia.
Qed.

(** * One draw of the bounded generator *)

(** What a single raw draw [x] gives: rejected, or a value. *)
Definition draw_value (bound x : N) : option N :=
  if (x * bound) mod two32 <? two32 mod bound then None
  else Some ((x * bound) / two32).

Lemma threshold_eq bound : 0 < bound < two32 ->
  ((two32 - bound) mod two32) mod bound = two32 mod bound.
Proof.
  intros H. rewrite (N.mod_small (two32 - bound)) by (unfold two32 in *; lia).
  rewrite <- (N.mod_add (two32 - bound) 1 bound) by lia.
  f_equal. unfold two32 in *; lia.
Qed.

Lemma loop_first_draw {S} (get : S -> N * S) fuel bound mr s :
  0 < bound < two32 ->
  bounded_loop get fuel (two32 mod bound) bound mr s =
  if mr mod two32 <? two32 mod bound then
    match fuel with
    | O => None
    | Datatypes.S f => let (r, s') := get s in
        bounded_loop get f (two32 mod bound) bound (r * bound) s'
    end
  else Some (mr / two32, s).
Proof.
  intros H. destruct fuel as [|f]; cbn [bounded_loop];
  destruct (mr mod two32 <? two32 mod bound); auto;
  rewrite N.shiftr_div_pow2; reflexivity.
Qed.

(** [skip_rejected]: the sequential meaning - take draws until one is
    accepted. *)
Fixpoint first_accepted {S} (get : S -> N * S) (fuel : nat) (bound : N) (s : S) : option (N * S) :=
  let (x, s') := get s in
  match draw_value bound x with
  | Some v => Some (v, s')
  | None => match fuel with O => None | Datatypes.S f => first_accepted get f bound s' end
  end.

Lemma loop_first_accepted {S} (get : S -> N * S) bound : 0 < bound < two32 ->
  forall fuel x s,
  bounded_loop get fuel (two32 mod bound) bound (x * bound) s =
  match draw_value bound x with
  | Some v => Some (v, s)
  | None => match fuel with O => None | Datatypes.S f => first_accepted get f bound s end
  end.
Proof.
  intros Hb. induction fuel as [|f IH]; intros x s; rewrite loop_first_draw by auto;
  unfold draw_value at 1; destruct (_ <? _) eqn:E; auto.
  destruct (get s) as [r s'] eqn:G. rewrite IH.
  destruct f as [|f']; cbn [first_accepted]; rewrite G; reflexivity.
Qed.

Lemma rand32_bounded_first_accepted {S} (get : S -> N * S) fuel s bound :
  0 < bound < two32 ->
  rand32_bounded get fuel s bound = first_accepted get fuel bound s.
Proof.
  intros Hb. unfold rand32_bounded.
  destruct (get s) as [x s1] eqn:G.
  rewrite threshold_eq by auto.
  destruct fuel as [|f]; cbn [first_accepted]; rewrite G;
  (destruct (x * bound mod two32 <? bound) eqn:E;
   [ rewrite loop_first_accepted by auto; reflexivity
   | unfold draw_value;
     assert (two32 mod bound < bound) by (apply N.mod_lt; lia);
     replace (x * bound mod two32 <? two32 mod bound) with false by lia;
     rewrite N.shiftr_div_pow2; reflexivity ]).
Qed.

Lemma draw_value_range bound x v :
  0 < bound < two32 -> x < two32 -> draw_value bound x = Some v -> v < bound.
Proof.
  unfold draw_value. intros Hb Hx. destruct (_ <? _); intros H; inversion H; subst.
  apply N.div_lt_upper_bound; [unfold two32; lia|].
  apply N.mul_lt_mono_pos_r; lia.
Qed.

Lemma first_accepted_range {S} (get : S -> N * S) (inv : S -> Prop) bound :
  0 < bound < two32 ->
  (forall s, inv s -> fst (get s) < two32 /\ inv (snd (get s))) ->
  forall fuel s v s', inv s -> first_accepted get fuel bound s = Some (v, s') -> v < bound /\ inv s'.
Proof.
  intros Hb Hget. induction fuel as [|f IH]; intros s v s' Hs H; cbn [first_accepted] in H;
  destruct (get s) as [x s1] eqn:G; destruct (Hget s Hs) as [Hx Hs1]; rewrite G in Hx, Hs1; cbn in Hx, Hs1;
  destruct (draw_value bound x) eqn:D.
  - inversion H; subst. split; auto. eapply draw_value_range; eauto.
  - discriminate.
  - inversion H; subst. split; auto. eapply draw_value_range; eauto.
  - eapply IH; eauto.
Qed.

(** Pure arithmetic behind the rejection method, for any modulus [M]. *)
Lemma interval_arith M b q T v x :
  0 < b -> M = b * q + T -> T < b ->
  let lo := (v * M + T + b - 1) / b in
  (v * M + T <= x * b /\ x * b < (v + 1) * M) <-> lo <= x < lo + q.
Proof.
  intros Hb HM HT lo.
  set (A := v * M + T) in *.
  assert (HA : (v + 1) * M = A + q * b) by (unfold A; rewrite HM; ring).
  assert (Hdm : A + b - 1 = b * lo + (A + b - 1) mod b).
  { unfold lo. apply N.div_mod. intros ->; inversion Hb. }
  assert (Hmm : (A + b - 1) mod b < b) by (apply N.mod_lt; intros ->; inversion Hb).
  set (mm := (A + b - 1) mod b) in *.
  clearbody lo mm A.
  assert (Hlo1 : forall y, A <= y * b <-> lo <= y).
  { intros y. split; intros H.
    - destruct (N.le_gt_cases lo y) as [C|C]; auto. exfalso.
      assert (C1 : y + 1 <= lo) by lia.
      apply (N.mul_le_mono_l _ _ b) in C1.
      rewrite N.mul_add_distr_l, N.mul_1_r, (N.mul_comm b y) in C1. lia.
    - apply (N.mul_le_mono_l _ _ b) in H. rewrite (N.mul_comm b y) in H. lia. }
  assert (Hlo2 : x * b < A + q * b <-> x < lo + q).
  { destruct (N.le_gt_cases q x) as [Hx|Hx].
    - specialize (Hlo1 (x - q)). rewrite N.mul_sub_distr_r in Hlo1.
      apply (N.mul_le_mono_r _ _ b) in Hx as Hx'. split; intros H.
      + destruct (N.le_gt_cases lo (x - q)) as [C|C]; [apply Hlo1 in C|]; lia.
      + destruct (N.le_gt_cases A (x * b - q * b)) as [C|C]; [apply Hlo1 in C|]; lia.
    - apply (N.mul_lt_mono_pos_r b) in Hx as Hx'; [|assumption]. lia. }
  rewrite HA, Hlo1, Hlo2. reflexivity.
Qed.

Lemma div_interval M y v T : 0 < M -> T < M ->
  (v * M + T <= y /\ y < (v + 1) * M) <-> (y / M = v /\ T <= y mod M).
Proof.
  intros HM HT.
  assert (H0 : M <> 0) by (intros ->; inversion HM).
  pose proof (N.div_mod y M H0) as D. pose proof (N.mod_lt y M H0) as L.
  set (d := y / M) in *. set (m := y mod M) in *. clearbody d m. subst y.
  rewrite N.mul_add_distr_r, N.mul_1_l, (N.mul_comm M d).
  split.
  - intros [H1 H2].
    assert (d = v).
    { destruct (N.lt_trichotomy d v) as [C|[C|C]]; auto; exfalso.
      - assert (C1 : d + 1 <= v) by lia. apply (N.mul_le_mono_r _ _ M) in C1.
        rewrite N.mul_add_distr_r in C1. lia.
      - assert (C1 : v + 1 <= d) by lia. apply (N.mul_le_mono_r _ _ M) in C1.
        rewrite N.mul_add_distr_r in C1. lia. }
    subst. lia.
  - intros [-> H]. lia.
Qed.

(** The draws giving value [v] form one interval of length [2^32 / bound]. *)
Lemma draw_value_interval bound v x :
  0 < bound < two32 -> v < bound ->
  let lo := (v * two32 + two32 mod bound + bound - 1) / bound in
  draw_value bound x = Some v <-> lo <= x < lo + two32 / bound.
Proof.
  intros Hb Hv lo.
  assert (H0 : bound <> 0) by (destruct Hb as [Hb _]; intros ->; inversion Hb).
  pose proof (N.div_mod two32 bound H0) as HM.
  pose proof (N.mod_lt two32 bound H0) as HT.
  pose proof (interval_arith two32 bound (two32 / bound) (two32 mod bound) v x
                (proj1 Hb) HM HT) as I. cbv zeta in I. fold lo in I. rewrite <- I.
  rewrite div_interval; [|reflexivity|eapply N.lt_trans; [exact HT|apply Hb]].
  unfold draw_value.
  set (d := x * bound / two32). set (m := (x * bound) mod two32). set (T := two32 mod bound).
  destruct (N.ltb_spec m T) as [E|E]; split.
  - discriminate.
  - intros [_ C]. exfalso. apply N.lt_nge in E; auto.
  - intros Hs. inversion Hs. auto.
  - intros [-> _]; auto.
Qed.

Definition draws_to (bound v : N) (x : N) : bool :=
  match draw_value bound x with Some w => w =? v | None => false end.

Lemma draw_uniform bound v :
  0 < bound < two32 -> v < bound ->
  count_below (draws_to bound v) two32 = two32 / bound.
Proof.
  intros Hb Hv.
  set (lo := (v * two32 + two32 mod bound + bound - 1) / bound).
  transitivity (count_below (fun x => (lo <=? x) && (x <? lo + two32 / bound))%bool two32).
  - apply count_below_ext. intros x _. unfold draws_to.
    pose proof (draw_value_interval bound v x Hb Hv) as D. fold lo in D. cbv zeta in D.
    destruct ((lo <=? x) && (x <? lo + two32 / bound))%bool eqn:E.
    + assert (draw_value bound x = Some v) as -> by (apply D; lia). apply N.eqb_refl.
    + destruct (draw_value bound x) as [w|] eqn:W; auto.
      apply N.eqb_neq. intros ->. assert (lo <= x < lo + two32 / bound) by (apply D; auto). lia.
  - apply count_below_interval.
    (* upper end fits *)
    assert (Q0 : 0 < two32 / bound) by (apply N.div_str_pos; lia).
    assert (L : lo + two32 / bound - 1 < two32).
    { assert (D := draw_value_interval bound v (lo + two32 / bound - 1) Hb Hv).
      fold lo in D. cbv zeta in D.
      assert (E : draw_value bound (lo + two32 / bound - 1) = Some v) by (apply D; lia).
      unfold draw_value in E. destruct (_ <? _); inversion E as [E'].
      assert ((lo + two32 / bound - 1) * bound < (v + 1) * two32).
      { apply (div_interval two32 _ v 0); [reflexivity|reflexivity|]. split; [exact E'|apply N.le_0_l]. }
      assert ((v + 1) * two32 <= bound * two32) by (apply N.mul_le_mono_r; lia).
      destruct (N.le_gt_cases two32 (lo + two32 / bound - 1)) as [C|C]; [|exact C].
      exfalso. apply (N.mul_le_mono_r _ _ bound) in C.
      generalize dependent ((v + 1) * two32). generalize dependent ((lo + two32 / bound - 1) * bound).
      rewrite (N.mul_comm bound two32). generalize (two32 * bound). clear. intros; lia. }
    generalize dependent (two32 / bound). clear. intros; lia.
Qed.

Definition rejected (bound x : N) : bool :=
  match draw_value bound x with None => true | Some _ => false end.

Lemma count_below_le P n : count_below P n <= n.
Proof.
  induction n as [|n IH] using N.peano_ind; [rewrite count_below_0; lia|].
  rewrite count_below_succ. destruct (P n); lia.
Qed.

Lemma rejected_iff bound x :
  rejected bound x = ((x * bound) mod two32 <? two32 mod bound).
Proof. unfold rejected, draw_value. destruct (_ <? _); auto. Qed.

(** Splitting the accepted draws by value. *)
Lemma count_or P Q n : (forall x, P x = true -> Q x = false) ->
  count_below (fun x => P x || Q x)%bool n = count_below P n + count_below Q n.
Proof.
  intros H. induction n as [|n IH] using N.peano_ind; [now rewrite !count_below_0|].
  rewrite !count_below_succ, IH. specialize (H n).
  destruct (P n), (Q n); cbn [orb]; try lia.
Qed.

Lemma count_neg P n : count_below (fun x => negb (P x)) n = n - count_below P n.
Proof.
  induction n as [|n IH] using N.peano_ind; [now rewrite !count_below_0|].
  rewrite !count_below_succ, IH. pose proof (count_below_le P n).
  destruct (P n); cbn; lia.
Qed.

Lemma accepted_below bound k : 0 < bound < two32 -> k <= bound ->
  count_below (fun x => match draw_value bound x with Some w => w <? k | None => false end) two32
  = k * (two32 / bound).
Proof.
  intros Hb. induction k as [|k IH] using N.peano_ind; intros Hk.
  - rewrite (count_below_ext _ (fun _ => false)).
    + clear. assert (G: forall n, count_below (fun _ => false) n = 0).
      { induction n as [|n IH] using N.peano_ind; [apply count_below_0|]. rewrite count_below_succ. exact IH. }
      rewrite G. lia.
    + intros x _. destruct (draw_value bound x) as [w|]; auto. lia.
  - rewrite (count_below_ext _ (fun x =>
       (match draw_value bound x with Some w => w <? k | None => false end)
       || draws_to bound k x)%bool).
    + rewrite count_or.
      * rewrite (draw_uniform bound k Hb) by (clear -Hk; lia).
        rewrite IH by (clear -Hk; lia).
        rewrite N.mul_succ_l. reflexivity.
      * clear. unfold draws_to; intros x; destruct (draw_value bound x) as [w|]; [|discriminate].
        intros H. apply N.ltb_lt in H. apply N.eqb_neq. intros ->. now apply N.lt_irrefl in H.
    + clear. intros x _. unfold draws_to. destruct (draw_value bound x) as [w|]; auto.
      destruct (w <? N.succ k) eqn:E1, (w <? k) eqn:E2, (w =? k) eqn:E3; auto; lia.
Qed.

Lemma rejected_count bound : 0 < bound < two32 ->
  count_below (rejected bound) two32 = two32 mod bound.
Proof.
  intros Hb.
  rewrite (count_below_ext _ (fun x => negb (match draw_value bound x with Some w => w <? bound | None => false end))).
  - rewrite count_neg, accepted_below by lia.
    pose proof (N.div_mod two32 bound ltac:(lia)). lia.
  - intros x Hx. unfold rejected. destruct (draw_value bound x) as [w|] eqn:E; auto.
    pose proof (draw_value_range bound x w Hb Hx E).
    replace (w <? bound) with true by lia. reflexivity.
Qed.

(** * JKISS32 state *)

Lemma shl32_testbit y k i : N.testbit (shl32 y k) i =
  ((k <=? i) && (i <? 32) && N.testbit y (i - k))%bool.
Proof.
  unfold shl32. replace two32 with (2 ^ 32) by reflexivity.
  destruct (N.ltb_spec i 32) as [H|H].
  - rewrite N.mod_pow2_bits_low by lia.
    destruct (N.leb_spec k i) as [Hk|Hk]; cbn [andb].
    + now rewrite N.shiftl_spec_high' by lia.
    + now rewrite N.shiftl_spec_low by lia.
  - rewrite N.mod_pow2_bits_high by lia. now rewrite andb_false_r.
Qed.

Lemma xorshl_zero y k : 0 < k -> y < two32 -> N.lxor y (shl32 y k) = 0 -> y = 0.
Proof.
  intros Hk Hy H. apply N.lxor_eq in H.
  apply N.bits_inj_0. intros i.
  induction i as [i IH] using (well_founded_induction N.lt_wf_0).
  rewrite H, shl32_testbit.
  destruct (k <=? i) eqn:E1; auto. destruct (i <? 32) eqn:E2; auto. cbn.
  apply IH. lia.
Qed.

Lemma xorshr_zero y k : 0 < k -> N.lxor y (N.shiftr y k) = 0 -> y = 0.
Proof.
  intros Hk H. apply N.lxor_eq in H. rewrite N.shiftr_div_pow2 in H.
  destruct (N.eq_dec y 0) as [|Hy]; auto.
  assert (y / 2 ^ k < y). { apply N.div_lt; [lia|]. apply N.pow_gt_1; lia. } lia.
Qed.

Lemma lxor_lt32 a b : a < two32 -> b < two32 -> N.lxor a b < two32.
Proof.
  intros Ha Hb. replace two32 with (2 ^ 32) in * by reflexivity.
  destruct (N.eq_dec (N.lxor a b) 0) as [->|H]; [lia|].
  apply N.log2_lt_pow2; [lia|].
  eapply N.le_lt_trans; [apply N.log2_lxor|].
  destruct (N.eq_dec a 0) as [->|Ha0], (N.eq_dec b 0) as [->|Hb0];
  cbn [N.log2]; repeat apply N.max_lub_lt; try lia; apply N.log2_lt_pow2; lia.
Qed.

Lemma xorshift_ok y : 0 < y < two32 -> 0 < xorshift_y y < two32.
Proof.
  intros Hy. unfold xorshift_y.
  assert (S5 : forall v k, shl32 v k < two32) by (intros; apply N.mod_lt; unfold two32; lia).
  set (y1 := N.lxor y (shl32 y 5)).
  assert (H1 : y1 <> 0) by (intros E; apply xorshl_zero in E; lia).
  assert (L1 : y1 < two32) by (apply lxor_lt32; auto; lia).
  assert (R1 : N.shiftr y1 7 < two32).
  { rewrite N.shiftr_div_pow2. eapply N.le_lt_trans; [apply N.div_le_upper_bound with (q := y1)|exact L1]; [discriminate|].
    change (2^7) with 128. lia. }
  set (y2 := N.lxor y1 (N.shiftr y1 7)).
  assert (H2 : y2 <> 0) by (intros E; apply xorshr_zero in E; lia).
  assert (L2 : y2 < two32) by (apply lxor_lt32; auto).
  assert (H3 : N.lxor y2 (shl32 y2 22) <> 0) by (intros E; apply xorshl_zero in E; lia).
  assert (L3 : N.lxor y2 (shl32 y2 22) < two32) by (apply lxor_lt32; auto).
  lia.
Qed.

Lemma land31_lt t : N.land t 2147483647 < two32.
Proof.
  replace 2147483647 with (N.ones 31) by reflexivity. rewrite N.land_ones.
  eapply N.lt_trans; [apply N.mod_lt; discriminate|]. reflexivity.
Qed.

Lemma rand32_get_valid rs : valid_rstate rs ->
  fst (rand32_get rs) < two32 /\ valid_rstate (snd (rand32_get rs)).
Proof.
  intros (Hx & Hy & Hz & Hw & Hc). unfold rand32_get; cbn [fst snd].
  split; [apply N.mod_lt; discriminate|].
  unfold valid_rstate; cbn [rs_x rs_y rs_z rs_w rs_c].
  split; [apply N.mod_lt; discriminate|].
  split; [now apply xorshift_ok|].
  split; [assumption|].
  split; [apply land31_lt|].
  rewrite N.shiftr_div_pow2.
  eapply N.le_lt_trans with (m := N.land ((rs_z rs + rs_w rs + rs_c rs) mod two32) 2147483648 / 1).
  - rewrite N.div_1_r. apply N.div_le_upper_bound; [discriminate|]. change (2^31) with 2147483648. lia.
  - rewrite N.div_1_r.
    assert (N.land ((rs_z rs + rs_w rs + rs_c rs) mod two32) 2147483648 <= 2147483648).
    { set (t := _ mod _). clearbody t. clear.
      destruct (N.testbit t 31) eqn:B.
      - assert (N.land t (2^31) = 2^31) as E.
        { apply N.bits_inj. intros i. rewrite N.land_spec, N.pow2_bits_eqb.
          destruct (N.eqb_spec 31 i) as [<-|]; [rewrite B; auto|apply andb_false_r]. }
        change 2147483648 with (2^31). rewrite E. lia.
      - assert (N.land t (2^31) = 0) as E.
        { apply N.bits_inj_0. intros i. rewrite N.land_spec, N.pow2_bits_eqb.
          destruct (N.eqb_spec 31 i) as [<-|]; [rewrite B; auto|apply andb_false_r]. }
        change 2147483648 with (2^31). rewrite E. lia. }
    eapply N.le_lt_trans; [eassumption|reflexivity].
Qed.

Lemma rand32_bounded_ok fuel rs bound v rs' :
  valid_rstate rs -> 0 < bound < two32 ->
  rand32_bounded rand32_get fuel rs bound = Some (v, rs') ->
  v < bound /\ valid_rstate rs'.
Proof.
  intros Hrs Hb. rewrite rand32_bounded_first_accepted by auto.
  apply first_accepted_range; auto. apply rand32_get_valid.
Qed.

(** * Shuffle *)
Close Scope N_scope.
Open Scope nat_scope.

(** The record-level effect of one swap and of the whole loop. *)
Definition swap {A} (d : A) (l : list A) (i j : nat) : list A :=
  upd (upd l i (nth j l d)) j (nth i l d).

Fixpoint shuf {A} (d : A) (i : nat) (js : list nat) (l : list A) : list A :=
  match i, js with
  | O, _ => l
  | S i', j :: js' => shuf d i' js' (if Nat.eqb j i then l else swap d l i j)
  | S _, [] => l
  end.

Lemma concat_length_const {A} L (cs : list (list A)) :
  Forall (fun c => length c = L) cs -> length (concat cs) = length cs * L.
Proof.
  induction 1 as [|c cs Hc _ IH]; simpl; auto. rewrite app_length, IH; lia.
Qed.

Lemma concat_split {A} L (cs : list (list A)) i :
  Forall (fun c => length c = L) cs -> i < length cs ->
  concat cs = concat (firstn i cs) ++ nth i cs [] ++ concat (skipn (S i) cs) /\
  length (concat (firstn i cs)) = i * L /\ length (nth i cs []) = L.
Proof.
  intros HF. revert i; induction HF as [|c cs Hc HF IH]; intros i Hi; simpl in Hi; [lia|].
  destruct i as [|i]; cbn [firstn concat nth skipn app length Nat.mul].
  - auto.
  - destruct (IH i ltac:(lia)) as (E1 & E2 & E3).
    rewrite E1 at 1. rewrite app_length, E2, app_assoc. repeat split; auto.
Qed.

Lemma sub_concat {A} L (cs : list (list A)) rest i :
  Forall (fun c => length c = L) cs -> i < length cs ->
  sub (concat cs ++ rest) (i * L) L = nth i cs [].
Proof.
  intros HF Hi. destruct (concat_split L cs i HF Hi) as (E1 & E2 & E3).
  rewrite E1, <- !app_assoc, <- E2.
  replace (length (concat (firstn i cs))) with (length (concat (firstn i cs)) + 0) by lia.
  rewrite sub_app_r, sub_app_l by lia.
  rewrite <- E3 at 1. apply sub_full.
Qed.

Lemma splice_concat {A} L (cs : list (list A)) rest i c :
  Forall (fun c => length c = L) cs -> i < length cs -> length c = L ->
  splice (concat cs ++ rest) (i * L) c = concat (upd cs i c) ++ rest.
Proof.
  intros HF Hi Hc. destruct (concat_split L cs i HF Hi) as (E1 & E2 & E3).
  unfold splice. rewrite upd_split by auto. rewrite concat_app. cbn [concat].
  rewrite E1, <- !app_assoc. rewrite <- E2.
  rewrite firstn_app, firstn_all, Nat.sub_diag. cbn [firstn]. rewrite app_nil_r.
  f_equal. f_equal.
  rewrite skipn_app, skipn_all2 by lia. cbn [app].
  replace (length (concat (firstn i cs)) + length c - length (concat (firstn i cs))) with (length c) by lia.
  rewrite skipn_app, skipn_all2 by lia. cbn [app]. rewrite E3, Hc, Nat.sub_diag. reflexivity.
Qed.

Lemma upd_Forall {A} (P : A -> Prop) l i x : Forall P l -> P x -> Forall P (upd l i x).
Proof.
  intros H Hx. revert i; induction H as [|h t Hh Ht IH]; intros [|i]; simpl; constructor; auto.
Qed.

Lemma nth_Forall {A} (P : A -> Prop) l i d : Forall P l -> i < length l -> P (nth i l d).
Proof. intros H Hi. eapply Forall_forall; eauto. now apply nth_In. Qed.

Lemma swap_chunks_concat L (cs : list bytes) rest i j :
  Forall (fun c => length c = L) cs -> i < length cs -> j < length cs ->
  swap_chunks L (concat cs ++ rest) i j = concat (swap [] cs i j) ++ rest.
Proof.
  intros HF Hi Hj. unfold swap_chunks, swap.
  rewrite !(sub_concat L) by auto.
  rewrite (splice_concat L) by (auto; now apply (nth_Forall (fun c => length c = L))).
  rewrite (splice_concat L); auto.
  - apply upd_Forall; auto. now apply (nth_Forall (fun c => length c = L)).
  - now rewrite upd_length.
  - now apply (nth_Forall (fun c => length c = L)).
Qed.

Lemma swap_Forall {A} (P : A -> Prop) d l i j :
  Forall P l -> i < length l -> j < length l -> Forall P (swap d l i j).
Proof.
  intros H Hi Hj. unfold swap. apply upd_Forall; [apply upd_Forall; auto|];
  now apply nth_Forall.
Qed.

Lemma swap_length {A} (d : A) l i j : length (swap d l i j) = length l.
Proof. unfold swap. now rewrite !upd_length. Qed.

Lemma shuffle_loop_concat L : forall i js (cs : list bytes) rest,
  Forall (fun c => length c = L) cs -> i < length cs -> legal_draws i js ->
  shuffle_loop L i js (concat cs ++ rest) = concat (shuf [] i js cs) ++ rest.
Proof.
  induction i as [|i IH]; intros js cs rest HF Hi Hl.
  - reflexivity.
  - destruct js as [|j js]; [contradiction|]. destruct Hl as [Hj Hl].
    cbn [shuffle_loop shuf]. destruct (Nat.eqb_spec j (S i)) as [->|Hne].
    + apply IH; auto; lia.
    + rewrite swap_chunks_concat by (auto; lia). apply IH; auto.
      * apply swap_Forall; auto; lia.
      * rewrite swap_length; lia.
Qed.

(** ** Permutation *)

Lemma upd_perm {A} (l : list A) i x d : i < length l ->
  Permutation (nth i l d :: upd l i x) (x :: l).
Proof.
  revert i; induction l as [|h t IH]; intros [|i] H; simpl in *; try lia.
  - apply perm_swap.
  - etransitivity; [apply perm_swap|]. etransitivity; [apply perm_skip, IH; lia|].
    apply perm_swap.
Qed.

Lemma swap_perm {A} (d : A) l i j : i < length l -> j < length l -> i <> j ->
  Permutation (swap d l i j) l.
Proof.
  intros Hi Hj Hne. unfold swap.
  apply (Permutation_cons_inv (a := nth j (upd l i (nth j l d)) d)).
  etransitivity; [apply upd_perm; now rewrite upd_length|].
  etransitivity; [apply upd_perm; auto|].
  rewrite upd_nth. replace (Nat.eqb i j) with false by (symmetry; now apply Nat.eqb_neq).
  reflexivity.
Qed.

Lemma shuf_length {A} (d : A) : forall i js l, length (shuf d i js l) = length l.
Proof.
  induction i as [|i IH]; intros [|j js] l; cbn [shuf]; auto.
  rewrite IH. destruct (Nat.eqb j (S i)); auto using swap_length.
Qed.

Lemma shuf_perm {A} (d : A) : forall i js l,
  i < length l -> legal_draws i js -> Permutation (shuf d i js l) l.
Proof.
  induction i as [|i IH]; intros [|j js] l Hi Hl; cbn [shuf]; auto; try contradiction.
  destruct Hl as [Hj Hl].
  destruct (Nat.eqb_spec j (S i)) as [E|E].
  - apply IH; auto; lia.
  - etransitivity; [apply IH; auto; rewrite swap_length; lia|].
    apply swap_perm; lia.
Qed.

(** ** The loop never touches positions above its index. *)
Lemma nth_app_l {A} (a b : list A) i d : i < length a -> nth i (a ++ b) d = nth i a d.
Proof. apply app_nth1. Qed.

Lemma swap_app {A} (d : A) a b i j : i < length a -> j < length a ->
  swap d (a ++ b) i j = swap d a i j ++ b.
Proof.
  intros Hi Hj. unfold swap. rewrite !app_nth1 by auto.
  rewrite upd_app_l by auto. rewrite upd_app_l by (now rewrite upd_length). reflexivity.
Qed.

Lemma shuf_app {A} (d : A) : forall i js a b, i < length a -> legal_draws i js ->
  shuf d i js (a ++ b) = shuf d i js a ++ b.
Proof.
  induction i as [|i IH]; intros [|j js] a b Hi Hl; cbn [shuf]; auto.
  destruct Hl as [Hj Hl]. destruct (Nat.eqb_spec j (S i)) as [E|E].
  - apply IH; auto; lia.
  - rewrite swap_app by lia. apply IH; auto. rewrite swap_length; lia.
Qed.

(** The first step puts record [j] last. *)
Definition step1 {A} (d : A) (l : list A) (n j : nat) := if Nat.eqb j n then l else swap d l n j.

Lemma step1_length {A} (d : A) l n j : length (step1 d l n j) = length l.
Proof. unfold step1. destruct (Nat.eqb j n); auto using swap_length. Qed.

Lemma step1_nth {A} (d : A) l n j : length l = S n -> j <= n ->
  nth n (step1 d l n j) d = nth j l d.
Proof.
  intros Hl Hj. unfold step1. destruct (Nat.eqb_spec j n) as [->|E]; auto.
  unfold swap. rewrite !upd_nth, !upd_length.
  replace (Nat.eqb j n) with false by (symmetry; now apply Nat.eqb_neq).
  cbn [andb]. rewrite Nat.eqb_refl. replace (Nat.ltb n (length l)) with true.
  - reflexivity.
  - symmetry; apply Nat.ltb_lt; lia.
Qed.

Lemma list_snoc {A} (d : A) (l : list A) n : length l = S n ->
  l = firstn n l ++ [nth n l d].
Proof.
  intros H. rewrite <- (firstn_skipn n l) at 1. f_equal.
  assert (Hn : length (skipn n l) = 1) by (rewrite skipn_length; lia).
  destruct (skipn n l) as [|x [|y t]] eqn:E; simpl in Hn; try lia.
  f_equal. rewrite <- (firstn_skipn n l), E.
  rewrite app_nth2; rewrite firstn_length; [|lia].
  now replace (n - Nat.min n (length l)) with 0 by lia.
Qed.

Lemma step1_perm {A} (d : A) l n j : length l = S n -> j <= n -> Permutation (step1 d l n j) l.
Proof.
  intros Hl Hj. unfold step1. destruct (Nat.eqb_spec j n); auto. apply swap_perm; lia.
Qed.

Lemma shuf_S {A} (d : A) n j js l : length l = S (S n) -> j <= S n -> legal_draws n js ->
  shuf d (S n) (j :: js) l =
  shuf d n js (firstn (S n) (step1 d l (S n) j)) ++ [nth j l d].
Proof.
  intros Hl Hj Hd. cbn [shuf]. fold (step1 d l (S n) j).
  rewrite (list_snoc d (step1 d l (S n) j) (S n)) at 1 by (rewrite step1_length; auto).
  rewrite shuf_app; auto.
  - rewrite step1_nth by auto. reflexivity.
  - rewrite firstn_length, step1_length; lia.
Qed.

Lemma step1_firstn_perm {A} (d : A) l n j l0 : length l = S n -> j <= n ->
  Permutation (l0 ++ [nth j l d]) l ->
  Permutation l0 (firstn n (step1 d l n j)).
Proof.
  intros Hl Hj HP.
  pose proof (step1_perm d l n j Hl Hj) as P1.
  rewrite (list_snoc d (step1 d l n j) n) in P1 by (rewrite step1_length; auto).
  rewrite step1_nth in P1 by auto.
  apply (Permutation_cons_inv (a := nth j l d)).
  rewrite Permutation_cons_append. rewrite (Permutation_cons_append (firstn _ _)).
  etransitivity; [exact HP|symmetry; exact P1].
Qed.

Lemma shuf_surj {A} (d : A) : forall n l l', length l = S n -> Permutation l' l ->
  exists js, legal_draws n js /\ shuf d n js l = l'.
Proof.
  induction n as [|n IH]; intros l l' Hl HP.
  - exists []. split; [exact I|]. cbn. destruct l as [|x [|y t]]; simpl in Hl; try lia.
    apply Permutation_sym, Permutation_length_1_inv in HP. now subst.
  - assert (Hl' : length l' = S (S n)) by (rewrite (Permutation_length HP); auto).
    pose proof (list_snoc d l' (S n) Hl') as E.
    set (x := nth (S n) l' d) in *. set (l0 := firstn (S n) l') in *.
    assert (Hx : In x l) by (eapply Permutation_in; [exact HP|]; rewrite E; apply in_or_app; simpl; auto).
    destruct (In_nth l x d Hx) as (j & Hj & Ej).
    assert (HP' : Permutation (l0 ++ [nth j l d]) l) by (rewrite Ej, <- E; auto).
    destruct (IH (firstn (S n) (step1 d l (S n) j)) l0) as (js & Hjs & Es).
    + rewrite firstn_length, step1_length; lia.
    + apply step1_firstn_perm; auto; lia.
    + exists (j :: js). split; [split; auto; lia|].
      rewrite shuf_S by (auto; lia). rewrite Es, Ej. now symmetry.
Qed.

Lemma shuf_inj {A} (d : A) : forall n l js js', length l = S n -> NoDup l ->
  legal_draws n js -> legal_draws n js' -> shuf d n js l = shuf d n js' l -> js = js'.
Proof.
  induction n as [|n IH]; intros l js js' Hl HN H1 H2 E.
  - destruct js, js'; simpl in *; tauto.
  - destruct js as [|j js], js' as [|j' js']; try contradiction.
    destruct H1 as [Hj H1], H2 as [Hj' H2].
    rewrite !shuf_S in E by auto.
    apply app_inj_tail in E. destruct E as [E1 E2].
    assert (j = j') as <- by (eapply NoDup_nth; eauto; lia).
    f_equal. apply (IH (firstn (S n) (step1 d l (S n) j))); auto.
    + rewrite firstn_length, step1_length; lia.
    + assert (NoDup (step1 d l (S n) j)) as HN'.
      { eapply Permutation_NoDup; [symmetry; apply step1_perm; auto|auto]. }
      rewrite <- (firstn_skipn (S n) (step1 d l (S n) j)) in HN'.
      clear - HN'. induction (firstn (S n) _) as [|h t IHt]; constructor.
      * inversion HN' as [|? ? Hn Hd]; subst. intros C; apply Hn, in_or_app; auto.
      * apply IHt. inversion HN'; auto.
Qed.

(** ** From bytes to records *)

Lemma records_concat L : forall (cs : list bytes) rest,
  Forall (fun c => length c = L) cs -> records L (length cs) (concat cs ++ rest) = cs.
Proof.
  induction cs as [|c cs IH]; intros rest HF; auto.
  inversion HF as [|? ? Hc HF']; subst. cbn [length records concat]. rewrite <- app_assoc.
  rewrite firstn_app, firstn_all, Nat.sub_diag. cbn [firstn]. rewrite app_nil_r.
  f_equal. rewrite skipn_app, skipn_all, Nat.sub_diag. apply IH; auto.
Qed.

Lemma records_ok L : forall n (buf : bytes), n * L <= length buf ->
  Forall (fun c => length c = L) (records L n buf) /\ length (records L n buf) = n /\
  buf = concat (records L n buf) ++ skipn (n * L) buf.
Proof.
  induction n as [|n IH]; intros buf H; cbn [records concat length].
  - auto.
  - destruct (IH (skipn L buf)) as (F & Ln & E); [rewrite skipn_length; lia|].
    repeat split.
    + constructor; auto. rewrite firstn_length; lia.
    + auto.
    + rewrite <- app_assoc. rewrite skipn_skipn_plus in E.
      replace (S n * L) with (n * L + L) by lia. rewrite <- E. symmetry; apply firstn_skipn.
Qed.

Lemma shuffle_loop_records L n js buf :
  S n * L <= length buf -> legal_draws n js ->
  let buf' := shuffle_loop L n js buf in
  records L (S n) buf' = shuf [] n js (records L (S n) buf) /\
  skipn (S n * L) buf' = skipn (S n * L) buf /\ length buf' = length buf.
Proof.
  intros H Hl buf'.
  destruct (records_ok L (S n) buf H) as (F & Ln & E).
  remember (records L (S n) buf) as cs eqn:Hcs. remember (skipn (S n * L) buf) as rest eqn:Hrest.
  assert (Eb : buf' = concat (shuf [] n js cs) ++ rest).
  { unfold buf'. rewrite E at 1. apply shuffle_loop_concat; auto. rewrite Ln; lia. }
  assert (F' : Forall (fun c => length c = L) (shuf [] n js cs)).
  { apply Forall_forall. intros c Hc. rewrite Forall_forall in F. apply F.
    apply (Permutation_in _ (shuf_perm [] n js cs ltac:(lia) Hl)); exact Hc. }
  assert (Ls : length (shuf [] n js cs) = S n) by (rewrite shuf_length; auto).
  rewrite Eb. split; [|split].
  - rewrite <- Ls. now apply records_concat.
  - rewrite skipn_app, skipn_all2 by (rewrite (concat_length_const L); auto; lia).
    rewrite (concat_length_const L), Ls by auto. now rewrite Nat.sub_diag.
  - apply (f_equal (@length _)) in E. rewrite E, !app_length, !(concat_length_const L), Ls, Ln by auto. reflexivity.
Qed.

Lemma shuffle_addrs_unfold js buf n rr_len :
  rr_len = 16 \/ rr_len = 28 -> 0 < n ->
  (exists b t, buf = b :: t /\ (b = 0%N \/ N.land b 192 <> 0%N)) ->
  shuffle_addrs_rdata js buf n rr_len = Ok (shuffle_loop (eff_len buf rr_len) (n - 1) js buf).
Proof.
  intros HL Hn (b & t & -> & Hb). unfold shuffle_addrs_rdata, rassert, rd, rbind. cbn [nth_error].
  replace (Nat.eqb n 0) with false by (symmetry; apply Nat.eqb_neq; lia). cbn [negb].
  replace (Nat.eqb rr_len 16 || Nat.eqb rr_len 28)%bool with true
    by (symmetry; destruct HL as [->| ->]; reflexivity).
  destruct (N.eqb_spec b 0) as [->|Hne].
  - rewrite orb_true_r. cbn [eff_len]. now rewrite (Nat.sub_1_r rr_len).
  - destruct Hb as [Hb|Hb]; [contradiction|].
    destruct (N.eqb_spec (N.land b 192) 0) as [E|E]; [contradiction|].
    cbn [negb orb]. unfold eff_len. destruct b; [contradiction|reflexivity].
Qed.

Lemma loop_draws_legal {S} (get : S -> N * S) (inv : S -> Prop) fuel :
  (forall s, inv s -> (fst (get s) < two32)%N /\ inv (snd (get s))) ->
  forall i s js s', inv s -> (N.of_nat i + 1 < two32)%N ->
  loop_draws get fuel i s = Some (js, s') -> legal_draws i js /\ inv s'.
Proof.
  intros Hg. induction i as [|i IH]; intros s js s' Hs Hi H; cbn [loop_draws] in H.
  - inversion H; subst. split; auto. exact I.
  - destruct (rand32_bounded get fuel s (N.of_nat (Datatypes.S i + 1))) as [[j s1]|] eqn:E; [|discriminate].
    destruct (loop_draws get fuel i s1) as [[js' s2]|] eqn:E2; [|discriminate].
    inversion H; subst.
    rewrite rand32_bounded_first_accepted in E by lia.
    destruct (first_accepted_range get inv (N.of_nat (Datatypes.S i + 1)) ltac:(lia) Hg _ _ _ _ Hs E) as [Hj Hs1].
    destruct (IH _ _ _ Hs1 ltac:(lia) E2) as [Hl Hs2].
    split; auto. split; auto. lia.
Qed.

Lemma shuffle_addrs_perm js buf n rr_len :
  rr_len = 16 \/ rr_len = 28 -> 0 < n ->
  (exists b t, buf = b :: t /\ (b = 0%N \/ N.land b 192 <> 0%N)) ->
  n * eff_len buf rr_len <= length buf -> legal_draws (n - 1) js ->
  exists buf', shuffle_addrs_rdata js buf n rr_len = Ok buf' /\
    Permutation (records (eff_len buf rr_len) n buf') (records (eff_len buf rr_len) n buf) /\
    skipn (n * eff_len buf rr_len) buf' = skipn (n * eff_len buf rr_len) buf /\
    length buf' = length buf.
Proof.
  intros HL Hn Hb Hlen Hd.
  exists (shuffle_loop (eff_len buf rr_len) (n - 1) js buf).
  split; [now apply shuffle_addrs_unfold|].
  destruct n as [|n]; [lia|]. replace (S n - 1) with n in * by lia.
  destruct (shuffle_loop_records (eff_len buf rr_len) n js buf Hlen Hd) as (E1 & E2 & E3).
  split; [|split; assumption].
  rewrite E1. apply shuf_perm; auto.
  destruct (records_ok (eff_len buf rr_len) (S n) buf Hlen) as (_ & Ln & _). lia.
Qed.

Lemma shuffle_addrs_surj buf n rr_len recs :
  rr_len = 16 \/ rr_len = 28 -> 0 < n ->
  (exists b t, buf = b :: t /\ (b = 0%N \/ N.land b 192 <> 0%N)) ->
  n * eff_len buf rr_len <= length buf ->
  Permutation recs (records (eff_len buf rr_len) n buf) ->
  exists js buf', legal_draws (n - 1) js /\ shuffle_addrs_rdata js buf n rr_len = Ok buf' /\
    records (eff_len buf rr_len) n buf' = recs.
Proof.
  intros HL Hn Hb Hlen HP. destruct n as [|n]; [lia|].
  destruct (records_ok (eff_len buf rr_len) (S n) buf Hlen) as (_ & Ln & _).
  destruct (shuf_surj [] n _ _ Ln HP) as (js & Hd & E).
  exists js, (shuffle_loop (eff_len buf rr_len) n js buf).
  replace (S n - 1) with n by lia. split; auto. split.
  - rewrite shuffle_addrs_unfold by auto. now replace (S n - 1) with n by lia.
  - destruct (shuffle_loop_records (eff_len buf rr_len) n js buf Hlen Hd) as (E1 & _).
    now rewrite E1.
Qed.

Lemma shuffle_addrs_inj buf n rr_len js js' :
  rr_len = 16 \/ rr_len = 28 -> 0 < n ->
  (exists b t, buf = b :: t /\ (b = 0%N \/ N.land b 192 <> 0%N)) ->
  n * eff_len buf rr_len <= length buf ->
  NoDup (records (eff_len buf rr_len) n buf) ->
  legal_draws (n - 1) js -> legal_draws (n - 1) js' ->
  shuffle_addrs_rdata js buf n rr_len = shuffle_addrs_rdata js' buf n rr_len -> js = js'.
Proof.
  intros HL Hn Hb Hlen HN H1 H2 E. rewrite !shuffle_addrs_unfold in E by auto.
  destruct n as [|n]; [lia|]. replace (S n - 1) with n in * by lia. inversion E as [E'].
  destruct (shuffle_loop_records (eff_len buf rr_len) n js buf Hlen H1) as (E1 & _).
  destruct (shuffle_loop_records (eff_len buf rr_len) n js' buf Hlen H2) as (E2 & _).
  destruct (records_ok (eff_len buf rr_len) (S n) buf Hlen) as (_ & Ln & _).
  eapply (shuf_inj [] n); eauto. rewrite <- E1, <- E2, E'. reflexivity.
Qed.

(** ** The single-draw view used by the property statements *)
Lemma one_draw bound x : (0 < bound < two32)%N ->
  rand32_bounded (fun s : unit => (x, s)) 0 tt bound =
  match draw_value bound x with Some v => Some (v, tt) | None => None end.
Proof.
  intros Hb. rewrite rand32_bounded_first_accepted by auto. cbn [first_accepted].
  destruct (draw_value bound x); reflexivity.
Qed.

Lemma bounded_uniform bound v : (0 < bound < two32)%N -> (v < bound)%N ->
  count_below (fun x => match rand32_bounded (fun s : unit => (x, s)) 0 tt bound with
                        | Some (w, _) => (w =? v)%N | None => false end) two32
  = (two32 / bound)%N.
Proof.
  intros Hb Hv. rewrite <- (draw_uniform bound v Hb Hv).
  apply count_below_ext. intros x _. rewrite one_draw by auto. unfold draws_to.
  destruct (draw_value bound x); reflexivity.
Qed.

Lemma bounded_rejected bound : (0 < bound < two32)%N ->
  count_below (fun x => match rand32_bounded (fun s : unit => (x, s)) 0 tt bound with
                        | Some _ => false | None => true end) two32
  = (two32 mod bound)%N.
Proof.
  intros Hb. rewrite <- (rejected_count bound Hb).
  apply count_below_ext. intros x _. rewrite one_draw by auto. unfold rejected.
  destruct (draw_value bound x); reflexivity.
Qed.

Lemma bounded_retry {S} (get : S -> N * S) fuel s bound : (0 < bound < two32)%N ->
  rand32_bounded get (Datatypes.S fuel) s bound =
  match rand32_bounded (fun u : unit => (fst (get s), u)) 0 tt bound with
  | Some (v, _) => Some (v, snd (get s))
  | None => rand32_bounded get fuel (snd (get s)) bound
  end.
Proof.
  intros Hb. rewrite one_draw by auto. rewrite !rand32_bounded_first_accepted by auto.
  cbn [first_accepted]. destruct (get s) as [x s']; cbn [fst snd].
  destruct (draw_value bound x); reflexivity.
Qed.

Lemma bounded_zero {S} (get : S -> N * S) fuel s :
  rand32_bounded get fuel s 0%N = Some (0%N, snd (get s)).
Proof.
  unfold rand32_bounded. destruct (get s) as [x s']. rewrite N.mul_0_r. reflexivity.
Qed.
