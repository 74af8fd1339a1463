(** The tree answers like the list. *)
From Verif Require Import Base NetModel NetSpec NetBits NetProofs NetProofs2.
From Coq Require Import Permutation Sorted.
Ltac Zify.zify_post_hook ::= idtac.

Inductive bt := TL (d : N) | TB (l r : bt).
Fixpoint bp (t : bt) (x : list bool) (k : nat) : N * nat :=
  match t with
  | TL d => (d, k)
  | TB l r => match x with b :: x => bp (if b then r else l) x (S k) | [] => (0%N, k) end
  end.
Fixpoint height (t : bt) : nat := match t with TL _ => 0 | TB l r => S (Nat.max (height l) (height r)) end.
Definition leafy (t : bt) : Prop := match t with TL _ => True | _ => False end.

Definition dcok (d : N) : Prop := (d < 2147483647)%N \/ d = NN_UNDEF.
Lemma testbit_flag d : (d < 2147483648)%N -> N.testbit d 31 = false.
Proof. intros H. destruct (N.eq_dec d 0) as [->|NZ]; [apply N.bits_0|]. apply N.bits_above_log2. apply N.log2_lt_pow2; [lia|exact H]. Qed.
Lemma set_is d : is_dclist (set_dclist d) = true.
Proof.
  unfold is_dclist, set_dclist. apply negb_true_iff, N.eqb_neq. intros E. apply (f_equal (fun v => N.testbit v 31)) in E. rewrite N.land_spec, N.lor_spec in E. change (N.testbit NN_FLAG 31) with true in E. rewrite orb_true_r in E. discriminate.
Qed.
Lemma get_set d : (d < 2147483648)%N -> get_dclist (set_dclist d) = d.
Proof.
  intros H. unfold get_dclist, set_dclist. change (N.lxor NN_UNDEF NN_FLAG) with (N.ones 31). rewrite N.land_lor_distr_l. change (N.land NN_FLAG (N.ones 31)) with 0%N. rewrite N.lor_0_r, N.land_ones. apply N.mod_small. exact H.
Qed.
Lemma set_inj a b : dcok a -> dcok b -> set_dclist a = set_dclist b -> a = b.
Proof.
  intros A B E. assert (G : forall d, (d < 2147483647)%N -> set_dclist d <> set_dclist NN_UNDEF).
  { intros d H F. apply (f_equal get_dclist) in F. rewrite get_set in F by lia. change (get_dclist (set_dclist NN_UNDEF)) with 2147483647%N in F. lia. }
  destruct A as [A| ->], B as [B| ->]; [|now apply G in E|symmetry in E; now apply G in E|reflexivity]. apply (f_equal get_dclist) in E. now rewrite !get_set in E by lia.
Qed.
Lemma set_undef d : (d < 2147483647)%N -> set_dclist d <> NN_UNDEF.
Proof. intros H F. apply (f_equal get_dclist) in F. rewrite get_set in F by lia. change (get_dclist NN_UNDEF) with 2147483647%N in F. lia. Qed.
Lemma set_nz d : set_dclist d <> 0%N.
Proof. intros E. pose proof (set_is d) as H. rewrite E in H. discriminate. Qed.
Lemma idx_not_leaf i : (N.of_nat i < 2 ^ 24)%N -> is_dclist (N.of_nat i) = false.
Proof.
  intros H. unfold is_dclist. apply negb_false_iff, N.eqb_eq. apply N.bits_inj. intros j. rewrite N.bits_0, N.land_spec. change NN_FLAG with (2 ^ 31)%N. rewrite N.pow2_bits_eqb. destruct (N.eqb_spec 31 j) as [<-|]; [|apply andb_false_r].
  rewrite andb_true_r. apply testbit_flag. etransitivity; [exact H|reflexivity].
Qed.

Inductive holds (st : store) : nat -> N -> bt -> Prop :=
| HL lo d : dcok d -> holds st lo (set_dclist d) (TL d)
| HB lo i z o l r : lo <= i -> nth_error st i = Some (z, o) -> (N.of_nat i < 2 ^ 24)%N -> holds st (S i) z l -> holds st (S i) o r -> holds st lo (N.of_nat i) (TB l r).
Lemma holds_app st new lo c t : holds st lo c t -> holds (st ++ new) lo c t.
Proof.
  induction 1 as [lo d D|lo i z o l r L E B H1 IH1 H2 IH2]; [now constructor|]. apply HB with (z := z) (o := o); auto. rewrite nth_error_app1; [exact E|]. apply nth_error_Some. congruence.
Qed.
Lemma nth_error_upd_other {A} (l : list A) i j v : i <> j -> nth_error (upd l i v) j = nth_error l j.
Proof. revert i j. induction l as [|a l IH]; intros [|i] [|j] N; cbn; auto; try congruence. Qed.
Lemma nth_error_upd_same {A} (l : list A) i v : i < length l -> nth_error (upd l i v) i = Some v.
Proof. revert i. induction l as [|a l IH]; intros [|i] L; cbn in *; try lia; auto. apply IH. lia. Qed.
Lemma holds_upd st lo c t i v : holds st lo c t -> i < lo -> holds (upd st i v) lo c t.
Proof.
  induction 1 as [lo d D|lo j z o l r L E B H1 IH1 H2 IH2]; intros LT; [now constructor|]. apply HB with (z := z) (o := o); auto.
  - rewrite nth_error_upd_other by lia. exact E.
  - apply IH1. lia.
  - apply IH2. lia.
Qed.
Lemma holds_lo st lo lo' c t : holds st lo c t -> lo' <= lo -> holds st lo' c t.
Proof. intros H L. destruct H; [now constructor|]. eapply HB; eauto. lia. Qed.

Lemma lm_none l d x : Forall (fun n => pb (pre n) x = false) l -> lm l d x = d.
Proof. induction 1 as [|n l H F IH]; [reflexivity|]. unfold lm in *. cbn [fold_left]. rewrite H. exact IH. Qed.
Lemma pb_app_l p q x : pb (p ++ q) x = true -> pb p x = true.
Proof. rewrite !pb_iff. intros (s & ->). exists (q ++ s). now rewrite app_assoc. Qed.

(** the direction step, taken out *)
Definition rec_dir (fuel : nat) (l : list net) (st : store) (tn : net) : res (list net * store * N) :=
  match l with
  | [] => Ok (l, st, set_dclist (n_dc tn))
  | n :: l' =>
      do s <- net_subnet_of n tn;
      if s then
        if Nat.eqb (n_mask tn) (n_mask n) then
          match l' with
          | [] => Ok (l', st, set_dclist (n_dc n))
          | n2 :: _ =>
              do s2 <- net_subnet_of n2 n;
              if s2 then nxt_rec fuel l' st {| n_ip := n_ip tn; n_mask := n_mask tn; n_dc := n_dc n |}
              else Ok (l', st, set_dclist (n_dc n))
          end
        else nxt_rec fuel l st tn
      else Ok (l, st, set_dclist (n_dc tn))
  end.
Lemma nxt_rec_S fuel l st tn : nxt_rec (S fuel) l st tn =
  rassert (Nat.ltb (n_mask tn) 128)
  (do (st, idx) <- add_node st;
   let m := S (n_mask tn) in
   do (l, st) <- rassert (Nat.ltb m 129 && Nat.ltb 0 m) (do (l, st, c) <- rec_dir fuel l st {| n_ip := n_ip tn; n_mask := m; n_dc := n_dc tn |}; do (z, o) <- rd st idx; Ok (l, upd st idx (c, o)));
   do ip <- set_bit (n_ip tn) (m - 1);
   do (l, st) <- rassert (Nat.ltb m 129 && Nat.ltb 0 m) (do (l, st, c) <- rec_dir fuel l st {| n_ip := ip; n_mask := m; n_dc := n_dc tn |}; do (z, o) <- rd st idx; Ok (l, upd st idx (z, c)));
   do (z, o) <- rd st idx;
   if (z =? o)%N && Nat.ltb 0 idx then Ok (l, firstn (length st - 1) st, z)
   else Ok (l, st, N.of_nat idx)).
Proof. reflexivity. Qed.

(** what a call leaves behind *)
Definition built (st : store) (c : N) (st' : store) (S : list net) (d : N) (p : list bool) (bound : nat) : Prop :=
  exists new t, st' = st ++ new /\ holds st' (length st) c t /\ (leafy t -> new = []) /\ length new <= bound /\ height t <= 128 - length p /\
    forall x k, length x = 128 - length p -> fst (bp t x k) = lm S d (p ++ x).

Definition rec_spec (fuel : nat) : Prop := forall S rest st tn,
  wfn tn -> n_mask tn < 128 -> 128 <= fuel + n_mask tn -> dcok (n_dc tn) ->
  Forall wfn (S ++ rest) -> Forall (fun n => dcok (n_dc n)) (S ++ rest) -> StronglySorted lt (S ++ rest) ->
  Forall (inside tn) S -> Forall (fun n => pb (pre tn) (pre n) = false) rest ->
  0 < length st ->
  nxt_rec fuel (S ++ rest) st tn = UB /\ (2 ^ 24 < N.of_nat (length st + 1 + (127 - n_mask tn) * length S))%N \/
  exists st' c, nxt_rec fuel (S ++ rest) st tn = Ok (rest, st', c) /\ built st c st' S (n_dc tn) (pre tn) (1 + (127 - n_mask tn) * length S).

Lemma sorted_app_r {R : net -> net -> Prop} a b : StronglySorted R (a ++ b) -> StronglySorted R b.
Proof. induction a as [|x a IH]; cbn; [auto|]. intros H. apply IH. now apply StronglySorted_inv in H. Qed.
Lemma sorted_app_l {R : net -> net -> Prop} a b : StronglySorted R (a ++ b) -> StronglySorted R a.
Proof. induction a as [|x a IH]; cbn; [constructor|]. intros H. apply StronglySorted_inv in H. destruct H as [H F]. constructor; [auto|]. now apply Forall_app in F. Qed.

Lemma leaf_built st d S p dd b : dcok d -> (forall x, length x = 128 - length p -> d = lm S dd (p ++ x)) -> built st (set_dclist d) st S dd p b.
Proof.
  intros D H. exists [], (TL d). split; [now rewrite app_nil_r|]. split; [now constructor|]. split; [reflexivity|]. split; [cbn; lia|]. split; [cbn; lia|]. intros x k LX. cbn. now apply H.
Qed.

Lemma dir_ok fuel : rec_spec fuel -> forall S rest st tn,
  wfn tn -> 0 < n_mask tn -> 128 <= fuel + n_mask tn -> dcok (n_dc tn) ->
  Forall wfn (S ++ rest) -> Forall (fun n => dcok (n_dc n)) (S ++ rest) -> StronglySorted lt (S ++ rest) ->
  Forall (fun n => pb (pre tn) (pre n) = true) S -> Forall (fun n => pb (pre tn) (pre n) = false) rest ->
  0 < length st ->
  rec_dir fuel (S ++ rest) st tn = UB /\ (2 ^ 24 < N.of_nat (length st + (128 - n_mask tn) * length S))%N \/
  exists st' c, rec_dir fuel (S ++ rest) st tn = Ok (rest, st', c) /\ built st c st' S (n_dc tn) (pre tn) ((128 - n_mask tn) * length S).
Proof.
  intros IH S rest st tn WT M0 FU DT W DD SS FS FR NZ. pose proof (pre_len tn WT) as LT'. pose proof WT as (_ & MT & _).
  destruct S as [|n S].
  - (* nothing below *)
    right. cbn [app]. exists st, (set_dclist (n_dc tn)). split.
    + unfold rec_dir. destruct rest as [|n rest]; [reflexivity|]. inversion W; inversion FR; subst. rewrite subnet_pre by auto. cbn [rbind]. now match goal with H : pb _ _ = false |- _ => rewrite H end.
    + apply leaf_built; [exact DT|reflexivity].
  - cbn [app] in *. inversion W as [|? ? WN WR]; subst. inversion FS as [|? ? PN PS]; subst. inversion DD as [|? ? DN DR]; subst. apply StronglySorted_inv in SS. destruct SS as [SS HN].
    unfold rec_dir. rewrite subnet_pre by auto. cbn [rbind]. rewrite PN. pose proof (pre_len n WN) as LN. pose proof (pb_len _ _ PN) as LPN.
    assert (REC : forall T d, dcok d -> (T = S /\ pre n = pre tn /\ S <> [] \/ T = n :: S /\ pre n <> pre tn) ->
      nxt_rec fuel (T ++ rest) st {| n_ip := n_ip tn; n_mask := n_mask tn; n_dc := d |} = UB /\ (2 ^ 24 < N.of_nat (length st + (128 - n_mask tn) * length (n :: S)))%N \/
      exists st' c, nxt_rec fuel (T ++ rest) st {| n_ip := n_ip tn; n_mask := n_mask tn; n_dc := d |} = Ok (rest, st', c) /\ built st c st' T d (pre tn) ((128 - n_mask tn) * length T)).
    { intros T d D CASE.
      assert (INS : Forall (inside tn) T).
      { apply Forall_forall. intros m M. assert (MS : In m (n :: S)) by (destruct CASE as [[-> _]|[-> _]]; cbn; auto). rewrite Forall_forall in FS, HN. split; [now apply FS|]. intros E. destruct CASE as [(-> & EN & _)|[-> EN]].
        - specialize (HN m ltac:(apply in_app_iff; auto)). unfold lt in HN. rewrite EN, E, lex_refl in HN. discriminate.
        - destruct M as [->|M]; [congruence|]. specialize (HN m ltac:(apply in_app_iff; auto)). apply (lt_not_le n m HN). apply pb_le. now rewrite <- E. }
      assert (TNE : exists m T', T = m :: T') by (destruct CASE as [(-> & _ & NE)|[-> _]]; [destruct S; [congruence|eauto]|eauto]).
      assert (M128 : n_mask tn < 128).
      { destruct TNE as (m & T' & ->). inversion INS as [|? ? [I1 I2] _]; subst. assert (WM : wfn m) by (destruct CASE as [[E _]|[E _]]; [rewrite Forall_forall in WR; apply WR, in_app_iff; left; rewrite <- E; cbn; auto|injection E as -> _; exact WN]).
        pose proof (pb_len _ _ I1). pose proof (pre_len m WM) as LM. destruct WM as (_ & MM & _). destruct (Nat.eq_dec (n_mask tn) 128) as [E|]; [|lia]. exfalso. apply I2, pb_same_len; [exact I1|lia]. }
      assert (LEN : 0 < length T <= length (n :: S)) by (destruct CASE as [(-> & _ & NE)|[-> _]]; [destruct S; [congruence|cbn; lia]|cbn; lia]).
      destruct (IH T rest st {| n_ip := n_ip tn; n_mask := n_mask tn; n_dc := d |}) as [[E BB]|(st' & c & E & BU)]; auto.
      - destruct CASE as [[-> _]|[-> _]]; [exact WR|now constructor].
      - destruct CASE as [[-> _]|[-> _]]; [exact DR|now constructor].
      - destruct CASE as [[-> _]|[-> _]]; [exact SS|now constructor].
      - left. split; [exact E|]. cbn [n_mask] in BB. eapply N.lt_le_trans; [exact BB|]. nia.
      - right. exists st', c. split; [exact E|]. destruct BU as (new & t & B1 & B2 & B3 & B4 & B5 & B6). exists new, t. repeat (split; [assumption|]). split; [|split; assumption]. cbn [n_mask] in B4. nia. }
    destruct (Nat.eqb_spec (n_mask tn) (n_mask n)) as [EM|NM].
    + assert (EP : pre n = pre tn) by (symmetry; apply pb_same_len; [exact PN|lia]).
      assert (HEAD : forall T x, lm (n :: T) (n_dc tn) (pre tn ++ x) = lm T (n_dc n) (pre tn ++ x)) by (intros T x; unfold lm; cbn [fold_left]; now rewrite EP, pb_app).
      assert (NONE : S = [] -> built st (set_dclist (n_dc n)) st (n :: S) (n_dc tn) (pre tn) ((128 - n_mask tn) * length (n :: S))).
      { intros ->. apply leaf_built; [exact DN|]. intros x _. rewrite HEAD. reflexivity. }
      destruct S as [|n2 S].
      * right. cbn [app] in *. exists st, (set_dclist (n_dc n)). split; [|auto]. destruct rest as [|n2 rest]; [reflexivity|]. inversion WR; inversion FR; subst. rewrite subnet_pre by auto. cbn [rbind]. rewrite EP. now match goal with H : pb _ _ = false |- _ => rewrite H end.
      * cbn [app]. inversion WR; inversion PS; subst. rewrite subnet_pre by auto. cbn [rbind]. rewrite EP. match goal with H : pb (pre tn) (pre n2) = true |- _ => rewrite H end.
        destruct (REC (n2 :: S) (n_dc n) DN ltac:(left; split; [reflexivity|split; [exact EP|discriminate]])) as [[E BB]|(st' & c & E & BU)]; [left; split; [exact E|exact BB]|right]. exists st', c. split; [exact E|].
        destruct BU as (new & t & B1 & B2 & B3 & B4 & B5 & B6). exists new, t. repeat (split; [assumption|]). split; [cbn [length] in *; nia|]. split; [assumption|]. intros x k LX. rewrite HEAD. now apply B6.
    + assert (ET : {| n_ip := n_ip tn; n_mask := n_mask tn; n_dc := n_dc tn |} = tn) by (destruct tn; reflexivity). pose proof (REC (n :: S) (n_dc tn) DT) as R. rewrite ET in R. apply R. right. split; [reflexivity|]. intros E. apply NM. rewrite <- LN, <- LT'. congruence.
Qed.

Lemma split_next p S : StronglySorted lt S -> Forall (fun n => pb p (pre n) = true /\ p <> pre n) S ->
  exists S0 S1, S = S0 ++ S1 /\ Forall (fun n => pb (p ++ [false]) (pre n) = true) S0 /\ Forall (fun n => pb (p ++ [true]) (pre n) = true) S1.
Proof.
  induction S as [|n S IH]; intros SS F; [exists [], []; auto|]. apply StronglySorted_inv in SS. destruct SS as [SS HN]. inversion F as [|? ? [P NE] FR]; subst.
  assert (NEXT : forall m, pb p (pre m) = true -> p <> pre m -> exists b s, pre m = p ++ b :: s).
  { intros m PM NM. apply pb_iff in PM. destruct PM as ([|b s] & E); [rewrite app_nil_r in E; congruence|eauto]. }
  destruct (NEXT n P NE) as (b & s & E). destruct b.
  - exists [], (n :: S). split; [reflexivity|]. split; [constructor|]. constructor; [rewrite E; apply pb_snoc|]. rewrite Forall_forall in *. intros m M. specialize (HN m M). destruct (FR m M) as [PM NM].
    destruct (NEXT m PM NM) as (b & s' & E'). rewrite E', pb_snoc. destruct b; [reflexivity|exfalso]. unfold lt in HN. rewrite E, E', lex_app, lex_refl in HN by reflexivity. discriminate.
  - destruct (IH SS FR) as (S0 & S1 & -> & F0 & F1). exists (n :: S0), S1. split; [reflexivity|]. split; [constructor; [rewrite E; apply pb_snoc|exact F0]|exact F1].
Qed.

Lemma pb_other p b q x : pb (p ++ [b]) q = true -> pb q (p ++ negb b :: x) = false.
Proof.
  intros H. apply not_true_iff_false. intros T. pose proof (pb_trans _ _ _ H T) as X. rewrite pb_snoc in X. destruct b; discriminate.
Qed.
Lemma pb_other' p b q : pb (p ++ [b]) q = true -> pb (p ++ [negb b]) q = false.
Proof. rewrite pb_iff. intros (s & ->). rewrite <- app_assoc. cbn [app]. rewrite pb_snoc. destruct b; reflexivity. Qed.

Lemma halves tn : wfn tn -> n_mask tn < 128 -> exists ip1, set_bit (n_ip tn) (n_mask tn) = Ok ip1 /\
  let z := {| n_ip := n_ip tn; n_mask := S (n_mask tn); n_dc := n_dc tn |} in let o := {| n_ip := ip1; n_mask := S (n_mask tn); n_dc := n_dc tn |} in
  wfn z /\ pre z = pre tn ++ [false] /\ wfn o /\ pre o = pre tn ++ [true].
Proof.
  intros W M. pose proof (pre_len tn W) as L. destruct W as (HI & HM & E). destruct (set_bits _ _ HI M) as (ip1 & -> & HI1 & E1). exists ip1. split; [reflexivity|].
  cbn zeta. set (p := pre tn) in *. assert (RP : repeat false (128 - n_mask tn) = false :: repeat false (128 - S (n_mask tn))) by (replace (128 - n_mask tn) with (S (128 - S (n_mask tn))) by lia; reflexivity).
  rewrite RP in E.
  assert (E1' : bits ip1 = p ++ true :: repeat false (128 - S (n_mask tn))).
  { rewrite E1, E. generalize (repeat false (128 - S (n_mask tn))). intros s. rewrite <- L. clear. induction p as [|b p IH]; cbn; [reflexivity|]. now rewrite IH. }
  assert (F : forall b s, firstn (S (n_mask tn)) (p ++ b :: s) = p ++ [b]).
  { intros b s. rewrite <- L. clear. induction p as [|c p IH]; cbn; [reflexivity|]. now rewrite <- IH. }
  unfold wfn, pre. cbn [n_ip n_mask]. rewrite E, E1'. rewrite !F. rewrite <- !app_assoc. cbn [app].
  split; [split; [exact HI|split; [lia|reflexivity]]|]. split; [reflexivity|]. split; [split; [exact HI1|split; [lia|reflexivity]]|reflexivity].
Qed.

Lemma leaf_same st lo c t st' lo' c' t' : holds st lo c t -> holds st' lo' c' t' -> c = c' -> length st <= lo' ->
  exists d, dcok d /\ c = set_dclist d /\ t = TL d /\ t' = TL d.
Proof.
  intros H1 H2 E L. destruct H1 as [lo d D|lo i z o l r LI NI BI A B]; destruct H2 as [lo' d' D'|lo' j z' o' l' r' LJ NJ BJ A' B'].
  - apply set_inj in E; auto. subst d'. exists d. auto.
  - exfalso. pose proof (set_is d) as X. rewrite E, idx_not_leaf in X by exact BJ. discriminate.
  - exfalso. pose proof (set_is d') as X. rewrite <- E, idx_not_leaf in X by exact BI. discriminate.
  - exfalso. assert (i < length st) by (apply nth_error_Some; congruence). lia.
Qed.

Lemma nxt_ok_gen fuel : (forall f, f < fuel -> rec_spec f) -> forall S rest st tn,
  wfn tn -> n_mask tn < 128 -> 128 <= fuel + n_mask tn -> dcok (n_dc tn) ->
  Forall wfn (S ++ rest) -> Forall (fun n => dcok (n_dc n)) (S ++ rest) -> StronglySorted lt (S ++ rest) ->
  Forall (inside tn) S -> Forall (fun n => pb (pre tn) (pre n) = false) rest ->
  nxt_rec fuel (S ++ rest) st tn = UB /\ (2 ^ 24 < N.of_nat (length st + 1 + (127 - n_mask tn) * length S))%N \/
  exists st' c, nxt_rec fuel (S ++ rest) st tn = Ok (rest, st', c) /\
    (length st = 0 -> exists l r new, c = 0%N /\ st' = st ++ new /\ holds st' 0 0%N (TB l r) /\ height (TB l r) <= 128 - n_mask tn /\ forall x k, length x = 128 - n_mask tn -> fst (bp (TB l r) x k) = lm S (n_dc tn) (pre tn ++ x)) /\
    (0 < length st -> built st c st' S (n_dc tn) (pre tn) (1 + (127 - n_mask tn) * length S)).
Proof.
  intros IHF S rest st tn WT M128 FU DT W DD SS FS FR. destruct fuel as [|fuel]; [lia|]. specialize (IHF fuel ltac:(lia)). rewrite nxt_rec_S.
  destruct (Nat.ltb_spec (n_mask tn) 128); [|lia]. cbn [rassert]. unfold add_node.
  destruct (N.ltb_spec (N.of_nat (length st)) (2 ^ 24)) as [LS|LS]; [|left; split; [reflexivity|]; apply N.le_lt_trans with (N.of_nat (length st)); [exact LS|]; generalize ((127 - n_mask tn) * length S); intros; lia]. cbn [rassert rbind]. cbn zeta. pose proof (pre_len tn WT) as LT'.
  destruct (halves tn WT M128) as (ip1 & SB & WZ & PZ & WO & PO). cbn zeta in *.
  set (m := Datatypes.S (n_mask tn)) in *. destruct (Nat.ltb_spec m 129); [|unfold m in *; lia]. destruct (Nat.ltb_spec 0 m); [|unfold m in *; lia]. cbn [andb rassert].
  destruct (split_next (pre tn) S (sorted_app_l _ _ SS) FS) as (S0 & S1 & -> & F0 & F1).
  set (idx := length st) in *. set (tz := {| n_ip := n_ip tn; n_mask := m; n_dc := n_dc tn |}) in *. set (to := {| n_ip := ip1; n_mask := m; n_dc := n_dc tn |}) in *.
  rewrite <- app_assoc in W, DD, SS |- *. rewrite app_length.
  assert (FR1 : forall b, Forall (fun n => pb (pre tn ++ [b]) (pre n) = false) rest).
  { intros b. eapply Forall_impl; [|exact FR]. intros n X. apply not_true_iff_false. intros T. apply pb_app_l in T. congruence. }
  destruct (dir_ok fuel IHF S0 (S1 ++ rest) (st ++ [(0%N, 0%N)]) tz) as [[E2 BB]|(st2 & cz & E2 & (newz & tz' & -> & HZ & LZ & NZ & HTZ & BZ))]; auto.
  { unfold tz, m. cbn [n_mask]. lia. } { rewrite PZ. exact F0. }
  { rewrite PZ. apply Forall_app. split; [|apply FR1]. eapply Forall_impl; [|exact F1]. intros n X. apply (pb_other' _ true) in X. exact X. }
  { rewrite app_length. cbn. lia. }
  { left. fold tz. rewrite E2. split; [reflexivity|]. change (n_mask tz) with m in BB. eapply N.lt_le_trans; [exact BB|]. rewrite app_length. cbn [length]. unfold m. fold idx. replace (128 - Datatypes.S (n_mask tn)) with (127 - n_mask tn) by lia. nia. }
  rewrite E2. cbn [rbind]. set (st1 := st ++ [(0%N, 0%N)]) in *. assert (L1 : length st1 = Datatypes.S idx) by (unfold st1; rewrite app_length; cbn; fold idx; lia).
  assert (R1 : rd (st1 ++ newz) idx = Ok (0%N, 0%N)).
  { unfold rd. rewrite nth_error_app1 by lia. unfold st1. rewrite nth_error_app2 by (fold idx; lia). fold idx. rewrite Nat.sub_diag. reflexivity. }
  rewrite R1. cbn [rbind]. replace (m - 1) with (n_mask tn) by (unfold m; lia). rewrite SB. cbn [rbind].
  set (st3 := upd (st1 ++ newz) idx (cz, 0%N)). assert (L3 : length st3 = Datatypes.S idx + length newz) by (unfold st3; rewrite upd_length, app_length; lia).
  destruct (dir_ok fuel IHF S1 rest st3 to) as [[E4 BB]|(st4 & co & E4 & (newo & to' & -> & HO & LO & NO & HTO & BO))]; auto.
  { unfold to, m. cbn [n_mask]. lia. } { apply Forall_app in W. apply W. } { apply Forall_app in DD. apply DD. } { now apply sorted_app_r in SS. } { rewrite PO. exact F1. }
  { rewrite PO. apply FR1. }
  { lia. }
  { left. fold to. rewrite E4. split; [reflexivity|]. change (n_mask to) with m in BB. change (n_mask tz) with m in NZ. unfold m in *. eapply N.lt_le_trans; [exact BB|]. rewrite L3. replace (128 - Datatypes.S (n_mask tn)) with (127 - n_mask tn) in * by lia. nia. }
  right. fold to. rewrite E4. cbn [rbind].
  assert (R3 : rd (st3 ++ newo) idx = Ok (cz, 0%N)).
  { unfold rd. rewrite nth_error_app1 by lia. unfold st3. rewrite nth_error_upd_same; [reflexivity|]. rewrite app_length. lia. }
  rewrite R3. cbn [rbind]. set (st5 := upd (st3 ++ newo) idx (cz, co)). assert (L5 : length st5 = Datatypes.S idx + length newz + length newo) by (unfold st5; rewrite upd_length, app_length; lia).
  assert (N5 : nth_error st5 idx = Some (cz, co)) by (unfold st5; apply nth_error_upd_same; rewrite app_length; lia).
  unfold rd at 1. rewrite N5. cbn [rbind].
  assert (E5 : st5 = st ++ (cz, co) :: newz ++ newo).
  { unfold st5, st3, st1. rewrite <- !app_assoc. cbn [app]. assert (U : forall (a : store) x b v, upd (a ++ x :: b) (length a) v = a ++ v :: b) by (clear; induction a as [|? a IH]; intros; cbn; [reflexivity|now rewrite IH]).
    unfold idx. rewrite U. rewrite <- app_assoc. cbn [app]. rewrite U. reflexivity. }
  assert (HZ5 : holds st5 (Datatypes.S idx) cz tz').
  { unfold st5. apply holds_upd; [|lia]. apply holds_app. unfold st3. apply holds_upd; [|lia]. rewrite <- L1. exact HZ. }
  assert (HO5 : holds st5 (Datatypes.S idx + length newz) co to').
  { unfold st5. apply holds_upd; [|lia]. rewrite L3 in HO. exact HO. }
  assert (LK : forall x k, length x = 128 - n_mask tn -> fst (bp (TB tz' to') x k) = lm (S0 ++ S1) (n_dc tn) (pre tn ++ x)).
  { intros x k LX. destruct x as [|b x]; [cbn [length] in LX; lia|]. cbn [bp]. rewrite lm_app. cbn [length] in LX. assert (PS : forall b', pre tn ++ b' :: x = (pre tn ++ [b']) ++ x) by (intros b'; now rewrite <- app_assoc).
    destruct b.
    - rewrite BO by (rewrite PO, app_length; cbn [length]; lia). rewrite PO, <- PS. cbn [to n_dc]. f_equal. symmetry. apply lm_none. eapply Forall_impl; [|exact F0]. intros n X. apply (pb_other _ false _ x) in X. exact X.
    - rewrite BZ by (rewrite PZ, app_length; cbn [length]; lia). rewrite PZ, <- PS. cbn [tz n_dc]. symmetry. apply lm_none. eapply Forall_impl; [|exact F1]. intros n X. apply (pb_other _ true _ x) in X. exact X. }
  assert (HT : height (TB tz' to') <= 128 - n_mask tn).
  { cbn [height]. rewrite PZ, app_length in HTZ. rewrite PO, app_length in HTO. cbn [length] in *. lia. }
  assert (HB5 : holds st5 idx (N.of_nat idx) (TB tz' to')).
  { apply HB with (z := cz) (o := co); auto. apply holds_lo with (lo := Datatypes.S idx + length newz); [exact HO5|lia]. }
  destruct (N.eqb_spec cz co) as [EQ|NE].
  - destruct (Nat.ltb_spec 0 idx) as [POS|ZERO]; cbn [andb].
    + (* both halves the same *)
      exists (firstn (length st5 - 1) st5), cz. split; [reflexivity|]. split; [lia|]. intros _.
      assert (LEAF : exists d, dcok d /\ cz = set_dclist d /\ tz' = TL d /\ to' = TL d).
      { apply (leaf_same _ _ _ _ _ _ _ _ HZ HO5 EQ). rewrite app_length. lia. }
      destruct LEAF as (d & D & -> & -> & ->). specialize (LZ I). specialize (LO I). subst newz newo.
      assert (ES : firstn (length st5 - 1) st5 = st).
      { rewrite E5. rewrite app_length. cbn [length app]. replace (length st + 1 - 1) with (length st) by lia. rewrite firstn_app, Nat.sub_diag, firstn_all. cbn. apply app_nil_r. }
      rewrite ES. apply leaf_built; [exact D|]. intros x LX. rewrite LT' in LX. rewrite <- (LK x 0 LX). destruct x as [|b x]; [cbn [length] in LX; lia|]. cbn. destruct b; reflexivity.
    + exists st5, (N.of_nat idx). split; [reflexivity|]. split; [|lia]. intros Z0. exists tz', to', ((cz, co) :: newz ++ newo). assert (idx = 0) by lia. rewrite H2 in *. repeat (split; [assumption || reflexivity|]). exact LK.
  - cbn [andb]. exists st5, (N.of_nat idx). split; [reflexivity|]. split.
    + intros Z0. exists tz', to', ((cz, co) :: newz ++ newo). fold idx in Z0. rewrite Z0 in *. repeat (split; [assumption || reflexivity|]). exact LK.
    + intros _. exists ((cz, co) :: newz ++ newo), (TB tz' to'). split; [exact E5|]. split; [exact HB5|]. split; [intros []|]. split; [|split; [rewrite LT'; exact HT|intros x k LX; apply LK; now rewrite <- LT']].
      cbn [length]. rewrite app_length. change (n_mask tz) with m in NZ. change (n_mask to) with m in NO. unfold m in *. replace (128 - Datatypes.S (n_mask tn)) with (127 - n_mask tn) in * by lia. nia.
Qed.

Lemma rec_ok fuel : rec_spec fuel.
Proof.
  induction fuel as [fuel IH] using lt_wf_ind. intros S rest st tn WT M F D W DD SS FS FR NZ.
  destruct (nxt_ok_gen fuel IH S rest st tn) as [X|(st' & c & E & _ & BU)]; auto. right. exists st', c. split; [exact E|]. now apply BU.
Qed.

Theorem xlate_ok l : Forall wfn l -> Forall (fun n => dcok (n_dc n)) l -> StronglySorted lt l ->
  xlate_tree {| l_nets := l; l_norm := true |} = UB /\ (2 ^ 24 < N.of_nat (1 + 127 * length l))%N \/
  exists st v4 t c4 t4, xlate_tree {| l_nets := l; l_norm := true |} = Ok {| t_store := st; t_v4 := v4 |} /\
    holds st 0 0%N t /\ ~ leafy t /\ height t <= 128 /\ (forall x k, length x = 128 -> fst (bp t x k) = lm l 0 x) /\
    v4 = c4 /\ holds st 1 c4 t4 /\ height t4 <= 32 /\ (forall x k, length x = 32 -> fst (bp t4 x k) = lm l 0 (repeat false 96 ++ x)).
Proof.
  intros W D SS. unfold xlate_tree. cbn [l_norm l_nets rassert].
  set (rd' := match l with n :: t => if Nat.eqb (n_mask n) 0 then (t, n_dc n) else (n :: t, 0%N) | [] => ([], 0%N) end).
  assert (HR : exists rest d, rd' = (rest, d) /\ Forall wfn rest /\ Forall (fun n => dcok (n_dc n)) rest /\ dcok d /\ StronglySorted lt rest /\ length rest <= length l /\
    Forall (fun n => pre n <> []) rest /\ forall x, lm rest d x = lm l 0 x).
  { unfold rd'. destruct l as [|n l]; [exists [], 0%N; repeat split; auto; left; reflexivity|]. inversion W as [|? ? WN WR]; inversion D as [|? ? DN DR]; subst. apply StronglySorted_inv in SS. destruct SS as [SS HN].
    assert (NE : Forall (fun m => pre m <> []) l). { eapply Forall_impl; [|exact HN]. intros m X E. unfold lt in X. rewrite E in X. destruct (pre n); discriminate. }
    destruct (Nat.eqb_spec (n_mask n) 0) as [E|NZ].
    - exists l, (n_dc n). repeat (split; [first [reflexivity|assumption|cbn; lia]|]). intros x. assert (PN : pre n = []) by (unfold pre; rewrite E; reflexivity). unfold lm. cbn [fold_left]. rewrite PN. reflexivity.
    - exists (n :: l), 0%N. repeat (split; [first [reflexivity|assumption|constructor; assumption|left; reflexivity|lia]|]). split; [|reflexivity]. constructor; [|exact NE]. intros E. pose proof (pre_len n WN) as X. rewrite E in X. cbn in X. lia. }
  destruct HR as (rest & d & -> & WR & DR & DD & SR & LR & NE & LMR).
  set (tn := {| n_ip := zeros; n_mask := 0; n_dc := d |}).
  assert (WT : wfn tn). { split; [apply zeros_ip|]. split; [cbn; lia|]. reflexivity. }
  destruct (nxt_ok_gen 129 ltac:(intros; apply rec_ok) rest [] [] tn WT) as [[E BB]|(st & c & E & Z & _)]; auto.
  { cbn. lia. } { cbn. lia. } { now rewrite app_nil_r. } { now rewrite app_nil_r. } { now rewrite app_nil_r. }
  { eapply Forall_impl; [|exact NE]. intros n X. split; [reflexivity|]. cbn. congruence. }
  { left. rewrite app_nil_r in E. rewrite E. split; [reflexivity|]. change (n_mask tn) with 0 in BB. change (length (@nil (N * N))) with 0 in BB. eapply N.lt_le_trans; [exact BB|]. lia. }
  right.  rewrite app_nil_r in E. rewrite E. cbn [rbind rassert]. destruct (Z eq_refl) as (tl & tr & new & -> & _ & HT & HH & LK).
  change (pre tn) with (@nil bool) in LK. cbn [app n_dc tn n_mask] in LK. change (128 - n_mask tn) with 128 in *.
  (* down the zeros *)
  assert (V4 : forall k lo c t, 1 <= k -> holds st lo c t -> ~ leafy t -> height t <= 32 + k ->
    exists c4 t4, v4root k st c = Ok c4 /\ holds st (Datatypes.S lo) c4 t4 /\ height t4 <= 32 /\ forall x j j', length x = 32 -> fst (bp t (repeat false k ++ x) j) = fst (bp t4 x j')).
  { clear. induction k as [|k IH]; intros lo c t K H NL HH; [lia|]. inversion H as [|? i z o l r LI NI BI A B']; subst; [cbn in NL; tauto|]. cbn [v4root]. rewrite Nat2N.id. unfold rd. rewrite NI. cbn [rbind]. cbn [height] in HH.
    assert (A' : holds st (S lo) z l) by (apply holds_lo with (lo := S i); [exact A|lia]).
    assert (BPL : forall x d j j', fst (bp (TL d) x j) = fst (bp (TL d) x j')) by reflexivity.
    destruct k as [|k].
    - exists z, l. split; [reflexivity|]. split; [exact A'|]. split; [lia|]. intros x j j' _. cbn [repeat app bp]. clear. revert x j j'. generalize (S 0). intros _. intros x j j'. revert l. generalize (S j). clear j. intros j l. revert x j j'. induction l as [d|l1 IH1 l2 IH2]; intros x j j'; [reflexivity|]. destruct x as [|[] x]; cbn; auto.
    - destruct (is_dclist z) eqn:ED.
      + inversion A' as [? d D E|? i' ? ? ? ? LI' NI' BI']; subst; [|rewrite idx_not_leaf in ED by exact BI'; discriminate]. exists (set_dclist d), (TL d). split; [reflexivity|]. split; [now constructor|]. split; [cbn; lia|]. intros x j j' _. reflexivity.
      + destruct (IH (S i) z l ltac:(lia) A) as (c4 & t4 & E4 & H4 & HH4 & L4).
        { intros LF. destruct l; [|exact LF]. inversion A; subst. now rewrite set_is in ED. } { lia. }
        exists c4, t4. split; [exact E4|]. split; [apply holds_lo with (lo := S (S i)); [exact H4|lia]|]. split; [exact HH4|]. intros x j j' LX. cbn [repeat app bp]. apply (L4 x (S j) j' LX). }
  destruct (V4 96 0 0%N (TB tl tr) ltac:(lia) HT ltac:(cbn; tauto) ltac:(cbn [height] in *; lia)) as (c4 & t4 & E4 & H4 & HH4 & L4).
  rewrite E4. cbn [rbind]. exists st, c4, (TB tl tr), c4, t4. split; [reflexivity|]. split; [exact HT|]. split; [cbn; tauto|]. split; [exact HH|].
  split. { intros x k LX. rewrite LK by exact LX. apply LMR. }
  split; [reflexivity|]. split; [exact H4|]. split; [exact HH4|]. intros x k LX. rewrite <- (L4 x 0 k LX). rewrite LK by (rewrite app_length, repeat_length, LX; reflexivity). apply LMR.
Qed.
