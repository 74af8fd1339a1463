(** The children's hash table keeps its order invariant and behaves as a map. *)
From Coq Require Import Sorting.Permutation.
From Verif Require Import Base DnameModel RandModel CompModel RespModel LtreeModel.
Local Open Scope N_scope.
Ltac Zify.zify_post_hook ::= idtac.

Lemma bytes_eqb_iff a b : bytes_eqb a b = true <-> a = b.
Proof.
  revert b. induction a as [|x a IH]; intros [|y b]; cbn; split; intros H; try discriminate; auto.
  - apply andb_true_iff in H. destruct H as [H1 H2]. apply N.eqb_eq in H1. apply IH in H2. congruence.
  - injection H as -> ->. rewrite N.eqb_refl. cbn. now apply IH.
Qed.
Lemma bytes_eqb_refl a : bytes_eqb a a = true.
Proof. now apply bytes_eqb_iff. Qed.

(** ** The mask *)
Lemma W64_pow : W64 = 2 ^ 64. Proof. reflexivity. Qed.
Lemma pow_lt_W64 k : k < 64 -> 2 ^ k < W64.
Proof. intros H. rewrite W64_pow. apply N.pow_lt_mono_r; lia. Qed.
Lemma count2mask_ok x : 0 < x -> N.log2 x < 63 -> count2mask_sz x = Ok (2 ^ (N.log2 x + 1) - 1).
Proof.
  intros X L. unfold count2mask_sz, rassert. destruct (N.eqb_spec x 0) as [E|_]; [lia|]. cbn [negb].
  assert (K : forall y, y < 63 -> N.lxor 63 (63 - y) = y).
  { assert (F : Forall (fun y => N.lxor 63 (63 - y) = y) (map N.of_nat (seq 0 63))).
    { cbn [seq map]. repeat (constructor; [vm_compute; reflexivity|]). constructor. }
    intros y Y. rewrite Forall_forall in F. apply F. apply in_map_iff. exists (N.to_nat y). split; [lia|]. apply in_seq. lia. }
  rewrite (K _ L). f_equal. rewrite N.shiftl_1_l, N.shiftl_mul_pow2.
  rewrite (N.mod_small (2 ^ _)) by (apply pow_lt_W64; lia).
  replace (2 ^ N.log2 x * 2 ^ 1) with (2 ^ (N.log2 x + 1)) by (rewrite N.pow_add_r; reflexivity).
  pose proof (pow_lt_W64 (N.log2 x + 1) ltac:(lia)) as P. rewrite (N.mod_small (2 ^ _)) by lia.
  assert (Q : 0 < 2 ^ (N.log2 x + 1)) by (apply N.neq_0_lt_0, N.pow_nonzero; lia).
  replace (2 ^ (N.log2 x + 1) + W64 - 1) with (2 ^ (N.log2 x + 1) - 1 + 1 * W64) by lia.
  rewrite N.mod_add by (rewrite W64_pow; apply N.pow_nonzero; lia). apply N.mod_small. lia.
Qed.

Section Slots.
  Context {A : Type}.
  Notation slots := (list (option (N * A))).
  Definition at_ (t : slots) (i : N) : option (N * A) := nth (N.to_nat i) t None.

  Definition ents (t : slots) : list (N * A) := flat_map (fun s => match s with Some e => [e] | None => [] end) t.

  Lemma in_ents t e : In e (ents t) <-> exists i, i < N.of_nat (length t) /\ at_ t i = Some e.
  Proof.
    unfold ents. rewrite in_flat_map. split.
    - intros (s & I & HE). destruct s as [e'|]; [|contradiction]. destruct HE as [->|[]].
      apply (In_nth _ _ None) in I. destruct I as (j & J & E). exists (N.of_nat j). split; [lia|]. unfold at_. now rewrite Nat2N.id.
    - intros (i & I & E). exists (Some e). split; [|now left]. unfold at_ in E. rewrite <- E. apply nth_In. lia.
  Qed.

  Lemma ents_app a b : ents (a ++ b) = ents a ++ ents b.
  Proof. unfold ents. apply flat_map_app. Qed.
  Lemma ents_len t : (length (ents t) <= length t)%nat.
  Proof. unfold ents. induction t as [|[e|] t IH]; cbn; lia. Qed.
  Lemma ents_full t : (length (ents t) < length t)%nat -> exists i, i < N.of_nat (length t) /\ at_ t i = None.
  Proof.
    unfold ents. induction t as [|[e|] t IH]; cbn; intros H; [lia| |].
    - destruct IH as (i & I & E); [lia|]. exists (i + 1). split; [lia|]. unfold at_. replace (N.to_nat (i + 1)) with (S (N.to_nat i)) by lia. exact E.
    - exists 0. split; [lia|reflexivity].
  Qed.
  Lemma free_count t i : i < N.of_nat (length t) -> at_ t i = None -> (length (ents t) < length t)%nat.
  Proof.
    revert i. induction t as [|e t IH]; cbn; intros i I E; [lia|].
    destruct (N.eq_dec i 0) as [->|NZ].
    - unfold at_ in E. cbn in E. subst e. cbn. pose proof (ents_len t). unfold ents in *. lia.
    - unfold at_ in E. replace (N.to_nat i) with (S (N.to_nat (i - 1))) in E by lia. cbn in E.
      specialize (IH (i - 1) ltac:(lia) E). rewrite app_length. unfold ents in *. destruct e; cbn; lia.
  Qed.
  Lemma ents_fresh n : ents (repeat None n) = [].
  Proof. induction n; cbn; auto. Qed.
End Slots.

Section Table.
  Context {A : Type}.
  Variable labelof : A -> list N.
  Variable hash : list N -> N.
  Hypothesis hash64 : forall l, hash l < W64.
  Notation slots := (list (option (N * A))).

  Variable k : N.
  Hypothesis k64 : k < 64.
  Let m := 2 ^ k.
  Let mask := m - 1.
  Lemma m_pos : 0 < m. Proof. unfold m. apply N.neq_0_lt_0, N.pow_nonzero. lia. Qed.
  Lemma m_lt : m < W64. Proof. now apply pow_lt_W64. Qed.
  Lemma m_div : exists q, W64 = q * m.
  Proof. exists (2 ^ (64 - k)). unfold m. rewrite <- N.pow_add_r, W64_pow. f_equal. lia. Qed.
  Lemma land_mask x : N.land x mask = x mod m.
  Proof. unfold mask, m. rewrite <- N.pred_sub, <- N.ones_equiv. now rewrite N.land_ones. Qed.
  Lemma mod_mod_m x : (x mod W64) mod m = x mod m.
  Proof.
    destruct m_div as [q E]. rewrite (N.div_mod x W64) at 2 by (rewrite W64_pow; apply N.pow_nonzero; lia).
    rewrite E at 2. rewrite <- N.mul_assoc, (N.mul_comm q), <- N.mul_assoc, N.add_comm, (N.mul_comm m), N.mod_add; [reflexivity|pose proof m_pos; lia].
  Qed.

  Definition sl (h pd : N) : N := (h + pd) mod m.
  Lemma slot_of_sl h pd : slot_of h pd mask = sl h pd.
  Proof. unfold slot_of, sl. now rewrite land_mask, mod_mod_m. Qed.
  Lemma sl_lt h pd : sl h pd < m.
  Proof. apply N.mod_lt. pose proof m_pos. lia. Qed.
  Lemma dist_lt i h : dist_of i h mask < m.
  Proof. unfold dist_of. rewrite land_mask. apply N.mod_lt. pose proof m_pos. lia. Qed.
  Lemma sl_dist i h : i < m -> h < W64 -> sl h (dist_of i h mask) = i.
  Proof.
    intros I H. unfold sl, dist_of. rewrite land_mask, mod_mod_m, N.add_mod_idemp_r by (pose proof m_pos; lia).
    replace (h + (i + W64 - h)) with (i + W64) by lia. destruct m_div as [q ->]. rewrite N.mod_add by (pose proof m_pos; lia). now apply N.mod_small.
  Qed.
  Lemma sl_inj h a b : a < m -> b < m -> sl h a = sl h b -> a = b.
  Proof.
    unfold sl. intros HA HB E. pose proof m_pos as MP.
    destruct (N.le_gt_cases a b) as [L|L].
    - apply N.le_antisymm; [exact L|]. 
      assert (D : (b - a) mod m = 0).
      { pose proof (N.div_mod (h + a) m ltac:(lia)) as P. pose proof (N.div_mod (h + b) m ltac:(lia)) as Q. rewrite <- E in Q.
        assert (b - a = m * ((h + b) / m - (h + a) / m)) as ->.
        { rewrite N.mul_sub_distr_l. lia. }
        rewrite N.mul_comm. apply N.mod_mul. lia. }
      rewrite N.mod_small in D by lia. lia.
    - exfalso. assert (D : (a - b) mod m = 0).
      { pose proof (N.div_mod (h + a) m ltac:(lia)) as P. pose proof (N.div_mod (h + b) m ltac:(lia)) as Q. rewrite <- E in Q.
        assert (a - b = m * ((h + a) / m - (h + b) / m)) as ->.
        { rewrite N.mul_sub_distr_l. lia. }
        rewrite N.mul_comm. apply N.mod_mul. lia. }
      rewrite N.mod_small in D by lia. lia.
  Qed.
  Lemma dist_sl h pd : pd < m -> h < W64 -> dist_of (sl h pd) h mask = pd.
  Proof. intros P H. apply (sl_inj h); [apply dist_lt|exact P|]. apply sl_dist; [apply sl_lt|exact H]. Qed.
  Lemma sl_succ h d h' d' : sl h d = sl h' d' -> sl h (d + 1) = sl h' (d' + 1).
  Proof.
    unfold sl. intros E. pose proof m_pos. rewrite !N.add_assoc, <- (N.add_mod_idemp_l (h + d)), <- (N.add_mod_idemp_l (h' + d')) by lia. now rewrite E.
  Qed.
  Lemma sl_add h d h' d' s : sl h d = sl h' d' -> sl h (d + s) = sl h' (d' + s).
  Proof.
    unfold sl. intros E. pose proof m_pos. rewrite !N.add_assoc, <- (N.add_mod_idemp_l (h + d)), <- (N.add_mod_idemp_l (h' + d')) by lia. now rewrite E.
  Qed.
  Lemma sl_pred h d h' d' : sl h (d + 1) = sl h' (d' + 1) -> sl h d = sl h' d'.
  Proof.
    unfold sl. intros E. pose proof m_pos.
    assert (F : forall x, x mod m = (x + 1 + (m - 1)) mod m).
    { intros x. replace (x + 1 + (m - 1)) with (x + 1 * m) by lia. now rewrite N.mod_add by lia. }
    rewrite (F (h + d)), (F (h' + d')). rewrite <- (N.add_mod_idemp_l (h + d + 1)), <- (N.add_mod_idemp_l (h' + d' + 1)) by lia.
    rewrite <- !N.add_assoc in *. now rewrite E.
  Qed.

  Record rh (t : slots) : Prop := {
    rh_len : length t = N.to_nat m;
    rh_hash : forall i h c, at_ t i = Some (h, c) -> h < W64;
    rh_prev : forall i h c d, i < m -> at_ t i = Some (h, c) -> dist_of i h mask = d + 1 ->
      exists h' c', at_ t (sl h d) = Some (h', c') /\ d <= dist_of (sl h d) h' mask;
    rh_room : exists i, i < m /\ at_ t i = None }.

  Lemma rd_at (t : slots) i : length t = N.to_nat m -> i < m -> rd t (N.to_nat i) = Ok (at_ t i).
  Proof.
    intros L I. unfold rd, at_. rewrite (nth_error_nth' t None) by lia. reflexivity.
  Qed.
  (** every entry between the home slot and the place of an entry is at least as
      far from its own home *)
  Lemma rh_path t i h c : rh t -> i < m -> at_ t i = Some (h, c) ->
    forall j, j <= dist_of i h mask -> exists h' c', at_ t (sl h j) = Some (h', c') /\ j <= dist_of (sl h j) h' mask.
  Proof.
    intros R I E j J. remember (N.to_nat (dist_of i h mask - j)) as n eqn:N0. revert j J N0. induction n as [|n IH]; intros j J N0.
    - assert (j = dist_of i h mask) as -> by lia. rewrite sl_dist by (auto; eapply rh_hash; eauto). exists h, c. split; [exact E|lia].
    - destruct (IH (j + 1) ltac:(lia) ltac:(lia)) as (h1 & c1 & E1 & D1).
      assert (H1 : h1 < W64) by (eapply rh_hash; eauto).
      set (d1 := dist_of (sl h (j + 1)) h1 mask) in *. destruct (rh_prev t R _ _ _ (d1 - 1) (sl_lt _ _) E1) as (h2 & c2 & E2 & D2).
      { fold d1. lia. }
      assert (SE : sl h1 (d1 - 1) = sl h j).
      { apply sl_pred. replace (d1 - 1 + 1) with d1 by lia. unfold d1. apply sl_dist; [apply sl_lt|exact H1]. }
      rewrite SE in *. exists h2, c2. split; [exact E2|lia].
  Qed.
  (** an entry's distance is never the whole way round *)
  Lemma rh_dist t i h c : rh t -> i < m -> at_ t i = Some (h, c) -> dist_of i h mask + 1 < m.
  Proof.
    intros R I E. destruct (rh_room t R) as (e & EI & EN). assert (H : h < W64) by (eapply rh_hash; eauto).
    pose proof (dist_lt i h) as DL. destruct (N.eq_dec (dist_of i h mask + 1) m) as [D|D]; [exfalso|lia].
    pose proof (sl_dist e h EI H) as SE. pose proof (dist_lt e h) as DE.
    destruct (rh_path t i h c R I E (dist_of e h mask)) as (h' & c' & E' & _); [lia|]. rewrite SE in E'. congruence.
  Qed.

  (** ** Writing a slot *)
  Lemma wr_at (t : slots) i (x : option (N * A)) : i < m -> length t = N.to_nat m -> exists t', wr t (N.to_nat i) [x] = Ok t' /\ length t' = length t /\
    (forall j, at_ t' j = if j =? i then x else at_ t j).
  Proof.
    intros I L. exists (upd t (N.to_nat i) x).
    assert (E : wr t (N.to_nat i) [x] = Ok (upd t (N.to_nat i) x)).
    { rewrite wr_ok by (cbn; lia). rewrite upd_split by lia. cbn [length app]. now replace (N.to_nat i + 1)%nat with (S (N.to_nat i)) by lia. }
    split; [exact E|]. split; [apply upd_length|]. intros j. unfold at_. rewrite upd_nth.
    destruct (N.eqb_spec j i) as [->|NE].
    - rewrite Nat.eqb_refl. destruct (Nat.ltb_spec (N.to_nat i) (length t)); [reflexivity|lia].
    - destruct (Nat.eqb_spec (N.to_nat i) (N.to_nat j)) as [E2|_]; [|reflexivity]. apply N2Nat.inj in E2. congruence.
  Qed.
  Lemma wr_ents (t : slots) i x t' : i < m -> length t = N.to_nat m -> wr t (N.to_nat i) [x] = Ok t' ->
    exists a b, ents t = a ++ (match at_ t i with Some e => [e] | None => [] end) ++ b /\ ents t' = a ++ (match x with Some e => [e] | None => [] end) ++ b.
  Proof.
    intros I L W. rewrite wr_ok in W by (cbn; lia). cbn [length] in W. injection W as <-.
    exists (ents (firstn (N.to_nat i) t)), (ents (skipn (S (N.to_nat i)) t)).
    split.
    - rewrite <- (firstn_skipn (N.to_nat i) t) at 1. rewrite ents_app. f_equal.
      rewrite (skipn_nth_cons t (N.to_nat i) (nth (N.to_nat i) t None)) by (apply nth_error_nth'; lia). reflexivity.
    - rewrite !ents_app. replace (N.to_nat i + 1)%nat with (S (N.to_nat i)) by lia. reflexivity.
  Qed.

  (** ** Inserting *)
  (** the place the loop is at is one the entry may take *)
  Definition may_go (t : slots) (h pd : N) : Prop :=
    h < W64 /\ (pd = 0 \/ exists h' c', at_ t (sl h (pd - 1)) = Some (h', c') /\ pd - 1 <= dist_of (sl h (pd - 1)) h' mask).

  Lemma may_go_lt t h pd : rh t -> may_go t h pd -> pd < m.
  Proof.
    intros R (H & [->|(h' & c' & E & D)]); [apply m_pos|].
    pose proof (rh_dist t _ _ _ R (sl_lt _ _) E). lia.
  Qed.

  (** steps to the next free slot *)
  Lemma free_ahead t i : rh t -> i < m -> exists s, s < m /\ at_ t (sl i s) = None.
  Proof.
    intros R I. destruct (rh_room t R) as (e & EI & EN). exists (dist_of e i mask). split; [apply dist_lt|]. rewrite sl_dist; auto. pose proof m_lt. lia.
  Qed.

  Lemma insert_ok fuel : forall t h c pd s, rh t -> may_go t h pd ->
    (exists s0, s0 < m /\ s0 <> sl h (pd + s) /\ at_ t s0 = None) ->
    at_ t (sl h (pd + s)) = None -> (N.to_nat s < fuel)%nat ->
    exists t', node_insert fuel t c h pd mask = Ok t' /\ rh t' /\ Permutation (ents t') ((h, c) :: ents t).
  Proof.
    induction fuel as [|fuel IH]; intros t h c pd s R G (s0 & S0 & SN & S0N) F L; [lia|].
    pose proof (may_go_lt t h pd R G) as PL. destruct G as (H & G). pose proof (rh_len t R) as TL.
    cbn [node_insert]. rewrite slot_of_sl, (rd_at t _ TL (sl_lt _ _)). cbn [rbind].
    destruct (at_ t (sl h pd)) as [[sh sc]|] eqn:E.
    - assert (SH : sh < W64) by (eapply rh_hash; eauto).
      assert (Snz : s <> 0) by (intros ->; rewrite N.add_0_r in F; congruence).
      set (spd := dist_of (sl h pd) sh mask). 
      destruct (N.ltb_spec spd pd) as [LT|GE].
      + destruct (wr_at t (sl h pd) (Some (h, c)) (sl_lt _ _) TL) as (t1 & W & L1 & A1). rewrite W. cbn [rbind].
        destruct (wr_ents t _ _ _ (sl_lt h pd) TL W) as (ea & eb & EA & EB). rewrite E in EA.
        assert (DD : dist_of (sl h pd) h mask = pd) by (now apply dist_sl).
        assert (SS : sl sh spd = sl h pd) by (apply sl_dist; [apply sl_lt|exact SH]).
        assert (R1 : rh t1).
        { constructor.
          - congruence.
          - intros i h1 c1 E1. rewrite A1 in E1. destruct (i =? sl h pd); [injection E1 as <- <-; exact H|eapply rh_hash; eauto].
          - intros i h1 c1 d I E1 D1. rewrite A1 in E1. destruct (N.eqb_spec i (sl h pd)) as [->|NE].
            + injection E1 as <- <-. rewrite DD in D1. destruct G as [G|(h' & c' & E' & D')]; [lia|]. replace (pd - 1) with d in * by lia.
              exists h', c'. split; [|exact D']. rewrite A1. destruct (N.eqb_spec (sl h d) (sl h pd)) as [X|_]; [|exact E'].
              apply sl_inj in X; lia.
            + destruct (rh_prev t R i h1 c1 d I E1 D1) as (h2 & c2 & E2 & D2).
              rewrite A1. destruct (N.eqb_spec (sl h1 d) (sl h pd)) as [X|_]; [|eauto].
              exists h, c. split; [reflexivity|]. rewrite X, DD. rewrite X, E in E2. injection E2 as <- <-. rewrite X in D2. fold spd in D2. lia.
          - exists s0. split; [exact S0|]. rewrite A1. destruct (N.eqb_spec s0 (sl h pd)) as [->|_]; [congruence|exact S0N]. }
        destruct (IH t1 sh sc (spd + 1) (s - 1)) as (t' & E' & R' & P').
        * exact R1.
        * split; [exact SH|]. right. exists h, c. replace (spd + 1 - 1) with spd by lia. rewrite SS, A1, N.eqb_refl. split; [reflexivity|]. lia.
        * exists s0. assert (Q : sl sh (spd + 1 + (s - 1)) = sl h (pd + s)).
          { replace (spd + 1 + (s - 1)) with (spd + s) by lia. now apply sl_add. }
          rewrite Q. split; [exact S0|]. split; [exact SN|]. rewrite A1. destruct (N.eqb_spec s0 (sl h pd)) as [->|_]; [congruence|exact S0N].
        * assert (Q : sl sh (spd + 1 + (s - 1)) = sl h (pd + s)).
          { replace (spd + 1 + (s - 1)) with (spd + s) by lia. now apply sl_add. }
          rewrite Q, A1. destruct (N.eqb_spec (sl h (pd + s)) (sl h pd)) as [X|_]; [rewrite X in F; congruence|exact F].
        * lia.
        * exists t'. split; [exact E'|]. split; [exact R'|]. eapply Permutation_trans; [exact P'|]. rewrite EA, EB. cbn [app].
          transitivity ((sh, sc) :: (h, c) :: ea ++ eb).
          -- apply perm_skip. symmetry. apply Permutation_middle.
          -- etransitivity; [apply perm_swap|]. apply perm_skip. apply Permutation_middle.
      + destruct (IH t h c (pd + 1) (s - 1)) as (t' & E' & R' & P'); auto.
        * split; [exact H|]. right. exists sh, sc. replace (pd + 1 - 1) with pd by lia. split; [exact E|exact GE].
        * exists s0. replace (pd + 1 + (s - 1)) with (pd + s) by lia. auto.
        * replace (pd + 1 + (s - 1)) with (pd + s) by lia. exact F.
        * lia.
        * eauto.
    - destruct (wr_at t (sl h pd) (Some (h, c)) (sl_lt _ _) TL) as (t1 & W & L1 & A1). rewrite W.
      destruct (wr_ents t _ _ _ (sl_lt h pd) TL W) as (ea & eb & EA & EB). rewrite E in EA. cbn [app] in EA.
      exists t1. split; [reflexivity|]. split; [|rewrite EA, EB; symmetry; apply Permutation_middle].
      assert (DD : dist_of (sl h pd) h mask = pd) by (now apply dist_sl).
      constructor.
      + congruence.
      + intros i h1 c1 E1. rewrite A1 in E1. destruct (i =? sl h pd); [injection E1 as <- <-; exact H|eapply rh_hash; eauto].
      + intros i h1 c1 d I E1 D1. rewrite A1 in E1. destruct (N.eqb_spec i (sl h pd)) as [->|NE].
        * injection E1 as <- <-. rewrite DD in D1. destruct G as [G|(h' & c' & E' & D')]; [lia|]. replace (pd - 1) with d in * by lia.
          exists h', c'. split; [|exact D']. rewrite A1. destruct (N.eqb_spec (sl h d) (sl h pd)) as [X|_]; [|exact E'].
          apply sl_inj in X; lia.
        * destruct (rh_prev t R i h1 c1 d I E1 D1) as (h2 & c2 & E2 & D2).
          rewrite A1. destruct (N.eqb_spec (sl h1 d) (sl h pd)) as [X|_]; [rewrite X in E2; congruence|eauto].
      + assert (s0 <> sl h pd \/ sl h (pd + s) <> sl h pd) as [X|X].
        { destruct (N.eq_dec s0 (sl h pd)) as [->|]; [right; congruence|now left]. }
        * exists s0. split; [exact S0|]. rewrite A1. destruct (N.eqb_spec s0 (sl h pd)); [congruence|exact S0N].
        * exists (sl h (pd + s)). split; [apply sl_lt|]. rewrite A1. destruct (N.eqb_spec (sl h (pd + s)) (sl h pd)); [congruence|exact F].
  Qed.

  (** with two free slots there is one besides any given one *)
  Lemma two_free (t : slots) x : length t = N.to_nat m -> N.of_nat (length (ents t)) + 1 < m -> x < m -> exists s0, s0 < m /\ s0 <> x /\ at_ t s0 = None.
  Proof.
    intros L C X. destruct (at_ t x) as [e|] eqn:E.
    - destruct (ents_full t ltac:(lia)) as (i & I & EI). exists i. split; [lia|]. split; [congruence|exact EI].
    - assert (N.to_nat x < length t)%nat as XL by lia.
      assert (K : forall u v : slots, ents t = ents u ++ ents v -> length t = S (length u + length v) ->
        (forall i, i < N.of_nat (length u) -> at_ t i = at_ u i) -> (forall i, i < N.of_nat (length v) -> at_ t (i + N.of_nat (length u) + 1) = at_ v i) ->
        x = N.of_nat (length u) -> exists s0, s0 < m /\ s0 <> x /\ at_ t s0 = None).
      { intros u v EE LL AU AV ->. rewrite EE, app_length in C.
        destruct (Nat.lt_ge_cases (length (ents u)) (length u)) as [LU|GU].
        - destruct (ents_full u LU) as (i & I & EI). exists i. split; [lia|]. split; [lia|]. now rewrite AU.
        - destruct (ents_full v ltac:(lia)) as (i & I & EI). exists (i + N.of_nat (length u) + 1). split; [lia|]. split; [lia|]. now rewrite AV. }
      apply (K (firstn (N.to_nat x) t) (skipn (S (N.to_nat x)) t)).
      + rewrite <- (firstn_skipn (N.to_nat x) t) at 1. rewrite ents_app. f_equal.
        rewrite (skipn_nth_cons t (N.to_nat x) (nth (N.to_nat x) t None)) by (apply nth_error_nth'; lia).
        unfold at_ in E. rewrite E. reflexivity.
      + rewrite firstn_length, skipn_length. lia.
      + intros i I. rewrite firstn_length in I. unfold at_. rewrite <- (firstn_skipn (N.to_nat x) t) at 1. apply app_nth1. rewrite firstn_length. lia.
      + intros i I. rewrite skipn_length in I. rewrite firstn_length. unfold at_.
        set (j := (i + _ + 1)). transitivity (nth (N.to_nat j) (firstn (S (N.to_nat x)) t ++ skipn (S (N.to_nat x)) t) None); [now rewrite firstn_skipn|].
        rewrite app_nth2; rewrite firstn_length; [f_equal|]; unfold j; lia.
      + rewrite firstn_length. lia.
  Qed.

  Lemma insert_full t h c pd : rh t -> may_go t h pd -> N.of_nat (length (ents t)) + 1 < m ->
    exists t', node_insert (length t) t c h pd mask = Ok t' /\ rh t' /\ Permutation (ents t') ((h, c) :: ents t).
  Proof.
    intros R G C. pose proof (rh_len t R) as L. pose proof (may_go_lt t h pd R G) as PL.
    destruct (rh_room t R) as (e & EI & EN). assert (H : h < W64) by apply G.
    (* the distance from the place to the free slot *)
    set (s := dist_of e (sl h pd) mask).
    assert (SE : sl h (pd + s) = e).
    { unfold s. replace (pd + dist_of e (sl h pd) mask) with (pd + dist_of e (sl h pd) mask) by reflexivity.
      pose proof (sl_dist e (sl h pd) EI ltac:(pose proof (sl_lt h pd); pose proof m_lt; lia)) as Q. rewrite <- Q at 2. unfold sl.
      pose proof m_pos. rewrite N.add_mod_idemp_l by lia. f_equal. unfold sl. lia. }
    apply (insert_ok (length t) t h c pd s); auto.
    - rewrite SE. apply two_free; auto.
    - now rewrite SE.
    - rewrite L. pose proof (dist_lt e (sl h pd)). unfold s. lia.
  Qed.

  (** ** Probing *)
  Definition labels_ok (t : slots) : Prop := forall h c, In (h, c) (ents t) -> h = hash (labelof c).
  Definition absent (t : slots) (l : list N) : Prop := forall h c, In (h, c) (ents t) -> labelof c <> l.

  Lemma probe_ok t l : rh t -> labels_ok t -> forall fuel pd, (fuel + N.to_nat pd = length t)%nat ->
    (forall j, j < pd -> exists h c, at_ t (sl (hash l) j) = Some (h, c) /\ labelof c <> l /\ j <= dist_of (sl (hash l) j) h mask) ->
    (exists i c, probe labelof fuel t l (hash l) pd mask = Ok (inl (N.to_nat i, c)) /\ i < m /\ at_ t i = Some (hash l, c) /\ labelof c = l) \/
    (exists pd', probe labelof fuel t l (hash l) pd mask = Ok (inr pd') /\ absent t l /\ may_go t (hash l) pd').
  Proof.
    intros R LO. pose proof (rh_len t R) as TL. induction fuel as [|fuel IH]; intros pd F P.
    - exfalso. destruct (rh_room t R) as (e & EI & EN). destruct (P (dist_of e (hash l) mask)) as (h & c & E & _).
      { pose proof (dist_lt e (hash l)). lia. }
      rewrite sl_dist in E by auto. congruence.
    - cbn [probe]. rewrite slot_of_sl, (rd_at t _ TL (sl_lt _ _)). cbn [rbind].
      assert (PM : pd < m) by lia.
      assert (DONE : (at_ t (sl (hash l) pd) = None \/ exists h c, at_ t (sl (hash l) pd) = Some (h, c) /\ dist_of (sl (hash l) pd) h mask < pd) -> absent t l /\ may_go t (hash l) pd).
      { intros D. split.
        - intros h c I LE. apply in_ents in I. destruct I as (i & I & E). assert (IM : i < m) by lia.
          assert (HH : h = hash l) by (rewrite <- LE; apply LO; apply in_ents; exists i; auto). subst h.
          destruct (N.lt_ge_cases (dist_of i (hash l) mask) pd) as [LT|GE].
          + destruct (P _ LT) as (h2 & c2 & E2 & N2 & _). rewrite sl_dist in E2 by auto. congruence.
          + destruct (rh_path t i (hash l) c R IM E pd GE) as (h2 & c2 & E2 & D2). destruct D as [D|(h3 & c3 & E3 & D3)]; [congruence|].
            rewrite E2 in E3. injection E3 as -> ->. lia.
        - split; [apply hash64|]. destruct (N.eq_dec pd 0) as [->|NZ]; [now left|right].
          destruct (P (pd - 1) ltac:(lia)) as (h & c & E & _ & D2). eauto. }
      destruct (at_ t (sl (hash l) pd)) as [[h c]|] eqn:E.
      + destruct (N.ltb_spec (dist_of (sl (hash l) pd) h mask) pd) as [LT|GE].
        * right. exists pd. split; [reflexivity|]. apply DONE. right. eauto.
        * assert (HL : h = hash (labelof c)) by (apply LO; apply in_ents; exists (sl (hash l) pd); split; [pose proof (sl_lt (hash l) pd); lia|exact E]).
          destruct (bytes_eqb (labelof c) l) eqn:B.
          -- apply bytes_eqb_iff in B. left. exists (sl (hash l) pd), c. rewrite HL, B, N.eqb_refl. cbn [andb]. split; [reflexivity|]. split; [apply sl_lt|]. split; congruence.
          -- rewrite andb_false_r. apply IH; [lia|]. intros j J. destruct (N.eq_dec j pd) as [->|NE]; [|apply P; lia].
             exists h, c. split; [exact E|]. split; [|exact GE]. intros X. rewrite X, bytes_eqb_refl in B. discriminate.
      + right. exists pd. split; [reflexivity|]. apply DONE. now left.
  Qed.
  Lemma probe_start t l : rh t -> labels_ok t ->
    (exists i c, probe labelof (length t) t l (hash l) 0 mask = Ok (inl (N.to_nat i, c)) /\ i < m /\ at_ t i = Some (hash l, c) /\ labelof c = l) \/
    (exists pd', probe labelof (length t) t l (hash l) 0 mask = Ok (inr pd') /\ absent t l /\ may_go t (hash l) pd').
  Proof. intros R L. apply probe_ok; auto; intros; lia. Qed.

  (** ** A new table *)
  Lemma rh_fresh : rh (repeat None (N.to_nat m)).
  Proof.
    assert (Z : forall i, at_ (repeat (None : option (N * A)) (N.to_nat m)) i = None) by (intros i; unfold at_; apply nth_repeat).
    constructor.
    - apply repeat_length.
    - intros i h c E. rewrite Z in E. discriminate.
    - intros i h c d _ E. rewrite Z in E. discriminate.
    - exists 0. split; [apply m_pos|apply Z].
  Qed.
  Lemma rehash_ok old : forall t, rh t -> (forall h c, In (h, c) (ents old) -> h < W64) -> N.of_nat (length (ents old) + length (ents t)) < m ->
    exists t', rehash old t mask = Ok t' /\ rh t' /\ Permutation (ents t') (ents old ++ ents t).
  Proof.
    induction old as [|[[h c]|] old IH]; intros t R H C.
    - exists t. cbn. split; [reflexivity|]. split; [exact R|]. apply Permutation_refl.
    - cbn [rehash]. change (ents (Some (h, c) :: old)) with ((h, c) :: ents old) in *. cbn [length] in C.
      destruct (insert_full t h c 0 R) as (t1 & E1 & R1 & P1).
      + split; [apply (H h c); now left|now left].
      + lia.
      + rewrite E1. cbn [rbind]. destruct (IH t1 R1) as (t2 & E2 & R2 & P2).
        * intros; eapply H; right; eauto.
        * rewrite (Permutation_length P1). cbn [length]. lia.
        * exists t2. split; [exact E2|]. split; [exact R2|]. eapply Permutation_trans; [exact P2|].
          eapply Permutation_trans; [apply Permutation_app_head; exact P1|]. symmetry. apply Permutation_middle.
    - cbn [rehash]. apply IH; auto.
  Qed.
End Table.
