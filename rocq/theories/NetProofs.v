(** Networks as bit prefixes; normalization. *)
From Verif Require Import Base NetModel NetSpec NetBits.
From Coq Require Import Permutation Sorted.
Ltac Zify.zify_post_hook ::= idtac.

Definition pre (n : net) : list bool := firstn (n_mask n) (bits (n_ip n)).
Definition wfn (n : net) : Prop := is_ip (n_ip n) /\ n_mask n <= 128 /\ bits (n_ip n) = pre n ++ repeat false (128 - n_mask n).
(** [p] is a prefix of [x] *)
Fixpoint pb (p x : list bool) : bool :=
  match p, x with
  | [], _ => true
  | a :: p, b :: x => Bool.eqb a b && pb p x
  | _, [] => false
  end.
Lemma pb_iff p : forall x, pb p x = true <-> exists s, x = p ++ s.
Proof.
  induction p as [|a p IH]; intros x; cbn; [split; [exists x; reflexivity|reflexivity]|]. destruct x as [|b x]; [split; [discriminate|intros (s & E); discriminate]|].
  rewrite andb_true_iff, IH, eqb_true_iff. split; [intros (-> & s & ->); eauto|intros (s & E); injection E as <- ->; split; eauto].
Qed.
Lemma pb_firstn p x : pb p x = true <-> firstn (length p) x = p.
Proof.
  rewrite pb_iff. split; [intros (s & ->); rewrite firstn_app, Nat.sub_diag, firstn_all; cbn; now rewrite app_nil_r|]. intros E. exists (skipn (length p) x). rewrite <- E at 1. symmetry. apply firstn_skipn.
Qed.
Lemma pb_refl p : pb p p = true.
Proof. apply pb_iff. exists []. now rewrite app_nil_r. Qed.
Lemma pb_trans p q r : pb p q = true -> pb q r = true -> pb p r = true.
Proof. rewrite !pb_iff. intros (s & ->) (t & ->). exists (s ++ t). now rewrite app_assoc. Qed.
Lemma pb_len p q : pb p q = true -> length p <= length q.
Proof. rewrite pb_iff. intros (s & ->). rewrite app_length. lia. Qed.
Lemma pb_same_len p q : pb p q = true -> length q <= length p -> p = q.
Proof. rewrite pb_iff. intros (s & ->) L. rewrite app_length in L. destruct s; [now rewrite app_nil_r|cbn in L; lia]. Qed.
(** two prefixes of one address are nested *)
Lemma pb_chain p q x : pb p x = true -> pb q x = true -> length p <= length q -> pb p q = true.
Proof.
  rewrite !pb_firstn. intros P Q L. rewrite <- Q, firstn_firstn. rewrite Nat.min_l by exact L. exact P.
Qed.
Lemma lex_pb p q : pb p q = true -> lex p q <> Gt.
Proof. rewrite pb_iff. intros (s & ->). induction p as [|[] p IH]; cbn; auto. destruct s; discriminate. Qed.
Lemma lex_parent q p : lex q (p ++ [false]) = Lt -> lex q p <> Gt.
Proof.
  revert q. induction p as [|b p IH]; intros q E.
  - destruct q as [|[] [|[] q]]; cbn in *; discriminate.
  - destruct q as [|a q]; cbn in *; [discriminate|]. destruct a, b; cbn in *; try discriminate; auto.
Qed.
(** what lies between [p] and something below [p] lies below [p] *)
Lemma lex_between p q r : lex p q <> Gt -> lex q r <> Gt -> pb p r = true -> pb p q = true.
Proof.
  revert q r. induction p as [|a p IH]; intros q r H1 H2 H3; [reflexivity|]. destruct r as [|c r]; [discriminate|]. cbn in H3. apply andb_prop in H3. destruct H3 as [H3 H4].
  apply eqb_prop in H3. subst c. destruct q as [|b q]; [cbn in H1; congruence|]. cbn in *. destruct a, b; cbn in *; try congruence; eapply IH; eauto.
Qed.

Lemma pre_len n : wfn n -> length (pre n) = n_mask n.
Proof. intros (_ & M & _). unfold pre. rewrite firstn_length, bits_len. lia. Qed.
Lemma pre_inj a b : wfn a -> wfn b -> pre a = pre b -> n_ip a = n_ip b /\ n_mask a = n_mask b.
Proof.
  intros A B E. assert (M : n_mask a = n_mask b) by (rewrite <- (pre_len a A), <- (pre_len b B); congruence). split; [|exact M].
  destruct A as (HA & _ & EA), B as (HB & _ & EB). apply bits_inj; auto. rewrite EA, EB, E, M. reflexivity.
Qed.
Lemma sorter_lex a b : wfn a -> wfn b -> net_sorter a b = lex (pre a) (pre b).
Proof.
  intros A B. unfold net_sorter. pose proof (pre_len a A) as LA. pose proof (pre_len b B) as LB. destruct A as (HA & MA & EA), B as (HB & MB & EB).
  rewrite cmp_bits by auto. rewrite EA, EB, <- LA, <- LB. apply lex_pad; lia.
Qed.
Lemma net_eq_pre a b : wfn a -> wfn b -> net_eq a b = true <-> pre a = pre b.
Proof.
  intros A B. unfold net_eq. rewrite andb_true_iff, Nat.eqb_eq, mem_eq_iff. split; [intros [E1 E2]; unfold pre; now rewrite E1, E2|]. intros E. destruct (pre_inj a b A B E). auto.
Qed.
Lemma pre_of n m : wfn n -> m <= n_mask n -> firstn m (bits (n_ip n)) = firstn m (pre n).
Proof. intros _ L. unfold pre. rewrite firstn_firstn. now rewrite Nat.min_l. Qed.
Lemma firstn_pb p q : length p <= length q -> firstn (length p) p = firstn (length p) q <-> pb p q = true.
Proof. intros L. rewrite pb_firstn, firstn_all. split; congruence. Qed.

Lemma subnet_pre s t : wfn s -> wfn t -> net_subnet_of s t = Ok (pb (pre t) (pre s)).
Proof.
  intros S T. pose proof (pre_len s S) as LS. pose proof (pre_len t T) as LT. unfold net_subnet_of.
  pose proof S as (HS & MS & _). pose proof T as (HT & MT & _).
  destruct (Nat.ltb_spec (n_mask s) 129); [|lia]. destruct (Nat.ltb_spec (n_mask t) 129); [|lia]. cbn [andb rassert].
  destruct (Nat.leb_spec (n_mask t) (n_mask s)) as [L|L].
  2: { f_equal. symmetry. apply not_true_iff_false. intros P. apply pb_len in P. lia. }
  set (m := n_mask t) in *. assert (R : m mod 8 < 8) by dlia. assert (E : m = 8 * (m / 8) + m mod 8) by dlia. rewrite top_alt by exact R.
  assert (K : pb (pre t) (pre s) = true <-> firstn m (bits (n_ip t)) = firstn m (bits (n_ip s))).
  { rewrite (pre_of s m S L). unfold m. rewrite (pre_of t _ T (le_n _)). fold m. rewrite <- LT. apply iff_sym, firstn_pb. lia. }
  destruct (mem_eq (firstn (m / 8) (n_ip s)) (firstn (m / 8) (n_ip t))) eqn:EM.
  - apply mem_eq_iff in EM. destruct (Nat.eqb_spec (m / 8) 16) as [E16|NE].
    + f_equal. symmetry. apply K. assert (m mod 8 = 0) by dlia. rewrite E, E16, H1, Nat.add_0_r. rewrite <- E16. apply firstn_bits_8; auto.
    + assert (K16 : m / 8 < 16) by dlia. unfold rd. rewrite (nth_error_nth' (n_ip t) 0%N) by (destruct HT; lia). rewrite (nth_error_nth' (n_ip s) 0%N) by (destruct HS; lia). cbn [rbind].
      f_equal. apply eq_true_iff_eq. rewrite K, N.eqb_eq, land_top by exact R.
      assert (EB : forall ip, firstn m (bits ip) = firstn (8 * (m / 8) + m mod 8) (bits ip)) by (intros; now rewrite <- E).
      rewrite !EB, !bits_flat, !firstn_8r by (try assumption; try (destruct HS, HT; lia)). rewrite EM. split; [congruence|]. intros X. now apply app_inv_head in X.
  - f_equal. symmetry. apply not_true_iff_false. intros P. apply K in P. apply (f_equal (firstn (8 * (m / 8)))) in P. rewrite !firstn_firstn in P. rewrite !Nat.min_l in P by dlia.
    apply firstn_bits_8 in P; auto. rewrite P in EM. apply not_true_iff_false in EM. apply EM. now apply mem_eq_iff.
Qed.

(** Mergeable neighbours. *)
Definition kin (a b : net) : Prop :=
  n_dc a = n_dc b /\ ((pb (pre a) (pre b) = true /\ pre (absorb a b) = pre a) \/
    exists p, pre a = p ++ [false] /\ pre b = p ++ [true] /\ pre (absorb a b) = p).
Lemma removelast_split {A} (l : list A) n x : length l = S n -> exists p y, l = p ++ [y] /\ p = firstn n l /\ y = nth n l x.
Proof.
  intros L. exists (firstn n l), (nth n l x). split; [|auto]. rewrite <- (firstn_skipn n l) at 1. f_equal.
  assert (LS : length (skipn n l) = 1) by (rewrite skipn_length; lia). rewrite <- (firstn_skipn n l) at 2. rewrite app_nth2 by (rewrite firstn_length; lia).
  rewrite firstn_length, Nat.min_l, Nat.sub_diag by lia. destruct (skipn n l) as [|y [|? ?]]; cbn in *; try lia. reflexivity.
Qed.
Lemma mergeable_pre a b : wfn a -> wfn b -> lex (pre a) (pre b) = Lt ->
  exists r, mergeable_nets a b = Ok r /\ (r = true -> wfn (absorb a b) /\ kin a b) /\ (r = false -> ~ kin a b).
Proof.
  intros A B LT. pose proof (pre_len a A) as LA. pose proof (pre_len b B) as LB. pose proof A as (HA & MA & EA). pose proof B as (HB & MB & EB). unfold mergeable_nets.
  destruct (N.eqb_spec (n_dc a) (n_dc b)) as [ED|ND]; [|exists false; split; [reflexivity|split; [discriminate|intros _ [X _]; congruence]]].
  destruct (Nat.eqb_spec (n_mask a) (n_mask b)) as [EM|NM].
  - destruct (n_mask a) as [|m] eqn:MEQ.
    { destruct (pre a), (pre b); cbn in *; try lia. discriminate. }
    destruct (masked_eq (n_ip a) (n_ip b) m HA HB ltac:(lia)) as (r & -> & R). exists r. split; [reflexivity|].
    rewrite (pre_of a m A), (pre_of b m B) in R by lia.
    destruct (removelast_split (pre a) m false ltac:(lia)) as (p & x & EPA & EP & _). destruct (removelast_split (pre b) m false ltac:(lia)) as (q & y & EPB & EQ & _).
    rewrite <- EP, <- EQ in R. split.
    + intros T. apply R in T. rewrite <- T in EPB. assert (LP : length p = m) by (apply (f_equal (@length bool)) in EPA; rewrite app_length in EPA; cbn in EPA; lia).
      rewrite EPA, EPB in LT. rewrite lex_app, lex_refl in LT by reflexivity. destruct x, y; cbn in LT; try discriminate.
      assert (PA : pre (absorb a b) = p).
      { unfold pre, absorb. cbn [n_mask n_ip]. rewrite MEQ. rewrite <- EM, Nat.eqb_refl. replace (S m - 1) with m by lia. rewrite (pre_of a m A) by lia. now rewrite <- EP. }
      split; [|split; [exact ED|right; exists p; auto]].
      unfold wfn. rewrite PA. unfold absorb. cbn [n_mask n_ip]. rewrite MEQ, <- EM, Nat.eqb_refl. replace (S m - 1) with m by lia. split; [exact HA|]. split; [lia|].
      rewrite EA, EPA, <- app_assoc. f_equal. replace (128 - m) with (S (128 - S m)) by lia. reflexivity.
    + intros F [_ [[P _]|(p' & E1 & E2 & _)]].
      * apply pb_same_len in P; [|lia]. rewrite P, lex_refl in LT. discriminate.
      * rewrite E1 in EPA. rewrite E2 in EPB. apply app_inj_tail in EPA. apply app_inj_tail in EPB. destruct EPA as [-> _], EPB as [-> _]. apply not_true_iff_false in F. apply F, R. reflexivity.
  - destruct (Nat.ltb_spec (n_mask a) (n_mask b)) as [L|L].
    + destruct (masked_eq (n_ip a) (n_ip b) (n_mask a) HA HB ltac:(lia)) as (r & -> & R). exists r. split; [reflexivity|].
      assert (AB : absorb a b = a). { unfold absorb. destruct (Nat.eqb_spec (n_mask a) (n_mask b)); [congruence|]. destruct a; reflexivity. }
      assert (RP : r = true <-> pb (pre a) (pre b) = true).
      { rewrite R, (pre_of a _ A (le_n _)), (pre_of b (n_mask a) B) by lia. rewrite <- LA. apply firstn_pb. lia. }
      split.
      * intros T. rewrite AB. split; [exact A|]. split; [exact ED|]. left. rewrite AB. split; [now apply RP|reflexivity].
      * intros F [_ [[P _]|(p' & E1 & E2 & _)]]; [apply RP in P; congruence|]. rewrite E1, app_length in LA. rewrite E2, app_length in LB. cbn in *. lia.
    + exists false. split; [reflexivity|]. split; [discriminate|]. intros _ [_ [[P _]|(p' & E1 & E2 & _)]]; [apply pb_len in P; lia|]. rewrite E1, app_length in LA. rewrite E2, app_length in LB. cbn in *. lia.
Qed.

(** ** Last match
    In a sorted list the last network covering an address is the longest. *)
Definition lm (l : list net) (d : N) (x : list bool) : N := fold_left (fun acc n => if pb (pre n) x then n_dc n else acc) l d.
Lemma lm_app a b d x : lm (a ++ b) d x = lm b (lm a d x) x.
Proof. unfold lm. apply fold_left_app. Qed.
Lemma lm_kin a b d x : kin a b -> length (pre a) <= length x -> lm [a; b] d x = lm [absorb a b] d x.
Proof.
  intros (ED & K) LX. unfold lm. cbn [fold_left]. assert (EA : n_dc (absorb a b) = n_dc a) by reflexivity. rewrite EA, <- ED. destruct K as [[P E]|(p & E1 & E2 & E)]; rewrite E.
  - destruct (pb (pre b) x) eqn:PB; [|reflexivity]. now rewrite (pb_trans _ _ _ P PB).
  - assert (L : length p < length x).
    { rewrite E1, app_length in LX. cbn in LX. lia. }
    rewrite E1, E2. destruct (pb p x) eqn:P.
    + apply pb_iff in P. destruct P as (s & ->). destruct s as [|c s]; [rewrite app_nil_r in L; lia|].
      assert (Q : forall v, pb (p ++ [v]) (p ++ c :: s) = Bool.eqb v c).
      { intros v. clear. induction p as [|w p IH]; cbn; [apply andb_true_r|]. now rewrite IH, eqb_reflx. }
      rewrite !Q. destruct c; reflexivity.
    + assert (Q : forall v, pb (p ++ [v]) x = false).
      { intros v. apply not_true_iff_false. intros T. apply pb_trans with (p := p) in T; [congruence|]. apply pb_iff. eauto. }
      now rewrite !Q.
Qed.
