(** Normalization keeps what a list of networks means. *)
From Verif Require Import Base NetModel NetSpec NetBits NetProofs.
From Coq Require Import Permutation Sorted.
Ltac Zify.zify_post_hook ::= idtac.

Definition lt (a b : net) : Prop := lex (pre a) (pre b) = Lt.
Definition le (a b : net) : Prop := lex (pre a) (pre b) <> Gt.
Lemma lt_le a b : lt a b -> le a b.
Proof. unfold lt, le. congruence. Qed.
Lemma lt_irrefl a : ~ lt a a.
Proof. unfold lt. now rewrite lex_refl. Qed.
Lemma le_lt_trans a b c : le a b -> lt b c -> lt a c.
Proof.
  unfold le, lt. intros H1 H2. destruct (lex (pre a) (pre b)) eqn:E; [apply lex_eq in E; now rewrite E|eapply lex_trans; eauto|congruence].
Qed.
Lemma lt_le_trans a b c : lt a b -> le b c -> lt a c.
Proof.
  unfold le, lt. intros H1 H2. destruct (lex (pre b) (pre c)) eqn:E; [apply lex_eq in E; now rewrite <- E|eapply lex_trans; eauto|congruence].
Qed.
Lemma lt_trans a b c : lt a b -> lt b c -> lt a c.
Proof. unfold lt. apply lex_trans. Qed.
Lemma le_trans a b c : le a b -> le b c -> le a c.
Proof.
  intros H1 H2. unfold le in H1. destruct (lex (pre a) (pre b)) eqn:E; [|apply lt_le; eapply lt_le_trans; eauto|congruence]. apply lex_eq in E. unfold le in *. now rewrite E.
Qed.
Lemma le_ne a b : le a b -> pre a <> pre b -> lt a b.
Proof. unfold le, lt. intros H N. destruct (lex (pre a) (pre b)) eqn:E; [apply lex_eq in E; congruence|reflexivity|congruence]. Qed.
Lemma lt_not_le a b : lt a b -> ~ le b a.
Proof. intros H1 H2. apply (lt_irrefl a). eapply lt_le_trans; eauto. Qed.
Lemma pb_le a b : pb (pre a) (pre b) = true -> le a b.
Proof. apply lex_pb. Qed.
Lemma net_le_le a b : wfn a -> wfn b -> net_le a b <-> le a b.
Proof. intros A B. unfold net_le, le. now rewrite sorter_lex. Qed.

(** [m] lies strictly inside [n] *)
Definition inside (n m : net) : Prop := pb (pre n) (pre m) = true /\ pre n <> pre m.
Definition adj (c d : net) (l : list net) : Prop := exists l1 l2, l = l1 ++ c :: d :: l2.
(** some address has [n] as its longest match *)
Definition seen (n : net) (l : list net) : Prop :=
  exists x, length x = 128 /\ pb (pre n) x = true /\ forall m, In m l -> pb (pre m) x = true -> length (pre m) <= length (pre n).
(** no merging inside [n] *)
Definition frozen (n : net) (l : list net) : Prop := forall c d, adj c d l -> inside n c -> inside n d -> ~ kin c d.
Definition J (l : list net) : Prop := forall n, In n l -> seen n l \/ frozen n l.
Definition consistent (l : list net) : Prop := forall a b, In a l -> In b l -> pre a = pre b -> n_dc a = n_dc b.

Lemma adj_cons c d m l : adj c d (m :: l) <-> (exists l', l = d :: l' /\ c = m) \/ adj c d l.
Proof.
  split.
  - intros ([|y l1] & l2 & E); cbn in E; injection E as -> ->; [left; eauto|right; exists l1, l2; reflexivity].
  - intros [(l' & -> & ->)|(l1 & l2 & ->)]; [exists [], l'; reflexivity|exists (m :: l1), l2; reflexivity].
Qed.
Lemma adj_mid c d a m b : adj c d (a ++ m :: b) <-> adj c d (a ++ [m]) \/ adj c d (m :: b).
Proof.
  induction a as [|y a IH]; cbn [app].
  - split; [auto|]. intros [([|? [|? ?]] & l2 & E)|H]; [discriminate|discriminate|discriminate|exact H].
  - rewrite (adj_cons c d y (a ++ m :: b)), (adj_cons c d y (a ++ [m])), IH. split.
    + intros [(l' & E & ->)|[H|H]]; [|auto|auto]. left. left. destruct a as [|z a]; cbn in *; injection E as -> _; eexists; split; reflexivity.
    + intros [[(l' & E & ->)|H]|H]; [|auto|auto]. left. destruct a as [|z a]; cbn in *; injection E as -> _; eexists; split; reflexivity.
Qed.
Lemma adj_l c d a m b : adj c d (a ++ [m]) -> adj c d (a ++ m :: b).
Proof. intros H. apply adj_mid. auto. Qed.
Lemma adj_r c d a b : adj c d b -> adj c d (a ++ b).
Proof. intros (l1 & l2 & ->). exists (a ++ l1), l2. now rewrite app_assoc. Qed.
Lemma adj_snoc c d a m : adj c d (a ++ [m]) -> adj c d a \/ d = m.
Proof.
  intros (l1 & l2 & E). destruct l2 as [|y l2] using rev_ind.
  - right. apply (f_equal (fun l => last l c)) in E. rewrite last_last in E. replace (l1 ++ [c; d]) with ((l1 ++ [c]) ++ [d]) in E by now rewrite <- app_assoc. rewrite last_last in E. congruence.
  - left. rewrite !app_comm_cons, app_assoc in E. apply app_inj_tail in E. destruct E as [-> _]. exists l1, l2. reflexivity.
Qed.
Lemma inside_trans n a b : inside n a -> pb (pre a) (pre b) = true -> inside n b.
Proof.
  intros [P N] Q. split; [eapply pb_trans; eauto|]. intros E. rewrite E in P. apply N. rewrite E. apply pb_same_len in P; [congruence|]. apply pb_len in Q. lia.
Qed.
Lemma seen_incl n l l' : incl l' l -> seen n l -> seen n l'.
Proof. intros I (x & LX & P & H). exists x. split; [exact LX|]. split; [exact P|]. intros m M. apply H. auto. Qed.
Lemma rec_eq a b : wfn a -> wfn b -> pre a = pre b -> n_dc a = n_dc b -> a = b.
Proof. intros A B E D. destruct (pre_inj a b A B E). destruct a, b. cbn in *. congruence. Qed.

Definition Inv (K : list net) (na : net) (l : list net) : Prop :=
  Forall wfn (K ++ na :: l) /\ StronglySorted lt K /\ Forall (fun k => lt k na) K /\ StronglySorted le (na :: l) /\ consistent (K ++ na :: l) /\ J (K ++ na :: l).
Definition Fin (L : list net) : Prop := Forall wfn L /\ StronglySorted lt L /\ J L.

Lemma incl_drop (K : list net) na nb l : incl (K ++ na :: l) (K ++ na :: nb :: l).
Proof. intros x H. rewrite in_app_iff in *. cbn in *. tauto. Qed.
Lemma Forall_drop {P : net -> Prop} K na nb l : Forall P (K ++ na :: nb :: l) -> Forall P (K ++ na :: l).
Proof. rewrite !Forall_forall. intros H x X. apply H. now apply (incl_drop K na nb l). Qed.
Lemma sorted_drop {R : net -> net -> Prop} na nb l : StronglySorted R (na :: nb :: l) -> StronglySorted R (na :: l).
Proof. intros H. apply StronglySorted_inv in H. destruct H as [H1 H2]. apply StronglySorted_inv in H1. inversion H2; subst. constructor; tauto. Qed.

Lemma step_dup K na nb l : Inv K na (nb :: l) -> pre na = pre nb -> Inv K na l /\ nb = na.
Proof.
  intros (W & SK & LK & SL & C & HJ) E.
  assert (WA : wfn na) by (rewrite Forall_forall in W; apply W, in_app_iff; cbn; auto). assert (WB : wfn nb) by (rewrite Forall_forall in W; apply W, in_app_iff; cbn; auto).
  assert (EN : nb = na) by (apply rec_eq; auto; apply C; auto; apply in_app_iff; cbn; auto). subst nb. split; [|reflexivity].
  split; [now apply Forall_drop in W|]. split; [exact SK|]. split; [exact LK|]. split; [now apply sorted_drop in SL|].
  split; [intros a b A B; apply C; now apply (incl_drop K na na l)|].
  intros n N. destruct (HJ n (incl_drop K na na l n N)) as [S|F]; [left; eapply seen_incl; [apply incl_drop|exact S]|right].
  intros c d A. apply F. apply adj_mid in A. destruct A as [A|A]; [now apply adj_l|]. apply adj_r, adj_cons. right. exact A.
Qed.

Lemma pb_snoc p c s v : pb (p ++ [v]) (p ++ c :: s) = Bool.eqb v c.
Proof. induction p as [|w p IH]; cbn; [apply andb_true_r|]. now rewrite IH, eqb_reflx. Qed.
Lemma pb_app p s : pb p (p ++ s) = true.
Proof. apply pb_iff. eauto. Qed.
Lemma lex_snoc p : lex (p ++ [false]) (p ++ [true]) = Lt.
Proof. induction p as [|[] p IH]; cbn; auto. Qed.
Lemma app_ne (p : list bool) b : p <> p ++ [b].
Proof. intros E. apply (f_equal (@length bool)) in E. rewrite app_length in E. cbn in E. lia. Qed.

Lemma step_kin K na nb l : Inv K na (nb :: l) -> lt na nb -> kin na nb -> wfn (absorb na nb) -> Inv K (absorb na nb) l.
Proof.
  intros (W & SK & LK & SL & C & HJ) LT KN WW.
  assert (WA : wfn na) by (rewrite Forall_forall in W; apply W, in_app_iff; cbn; auto). assert (WB : wfn nb) by (rewrite Forall_forall in W; apply W, in_app_iff; cbn; auto).
  set (w := absorb na nb) in *. pose proof KN as (ED & KC). assert (EW : n_dc w = n_dc na) by reflexivity.
  assert (ADJ : adj na nb (K ++ na :: nb :: l)) by (exists K, l; reflexivity).
  pose proof (StronglySorted_inv SL) as [SL1 HL]. pose proof (StronglySorted_inv SL1) as [SL2 HL2]. rewrite Forall_forall in LK, HL, HL2.
  destruct KC as [[P E]|(p & E1 & E2 & E)]; fold w in E.
  - (* a subnet *)
    assert (EN : w = na) by (apply rec_eq; auto). rewrite EN in *. clear EN w.
    split; [now apply Forall_drop in W|]. split; [exact SK|]. split; [now apply Forall_forall|]. split; [now apply sorted_drop in SL|].
    split; [intros a b A B; apply C; now apply (incl_drop K na nb l)|].
    intros n N. destruct (HJ n (incl_drop K na nb l n N)) as [S|F]; [left; eapply seen_incl; [apply incl_drop|exact S]|right].
    intros c d A IC ID. apply adj_mid in A. destruct A as [A|A]; [apply F; auto; now apply adj_l|].
    apply adj_cons in A. destruct A as [(l' & -> & ->)|A].
    + exfalso. apply (F na nb ADJ IC); [apply (inside_trans n na nb IC P)|exact KN].
    + apply F; auto. apply adj_r, adj_cons. right. apply adj_cons. right. exact A.
  - (* two halves *)
    assert (PA : length (pre na) <= 128) by (rewrite pre_len by exact WA; apply WA). assert (LP : S (length p) <= 128) by (rewrite E1, app_length in PA; cbn in PA; lia).
    assert (HALF : forall x, length x = 128 -> pb p x = true -> pb (pre na) x = true \/ pb (pre nb) x = true).
    { intros x LX Q. apply pb_iff in Q. destruct Q as (s & ->). destruct s as [|c s]; [rewrite app_nil_r in LX; lia|]. rewrite E1, E2, !pb_snoc. destruct c; auto. }
    assert (INS : forall n, inside n w -> inside n na /\ inside n nb).
    { intros n I. split; eapply inside_trans; try exact I; rewrite E; [rewrite E1|rewrite E2]; apply pb_app. }
    assert (NOTP : forall m, In m (K ++ na :: nb :: l) -> pre m <> p).
    { intros m M EP. assert (IA : inside m na) by (split; rewrite EP, E1; [apply pb_app|apply app_ne]). assert (IB : inside m nb) by (split; rewrite EP, E2; [apply pb_app|apply app_ne]).
      destruct (HJ m M) as [(x & LX & Q & H)|F]; [|now apply (F na nb)]. rewrite EP in Q, H. destruct (HALF x LX Q) as [T|T].
      - specialize (H na ltac:(apply in_app_iff; cbn; auto) T). rewrite E1, app_length in H. cbn in H. lia.
      - specialize (H nb ltac:(apply in_app_iff; cbn; auto) T). rewrite E2, app_length in H. cbn in H. lia. }
    assert (SUB : forall m, In m (K ++ l) -> In m (K ++ na :: nb :: l)) by (intros m; rewrite !in_app_iff; cbn; tauto).
    assert (SPLIT : forall m, In m (K ++ w :: l) -> m = w \/ In m (K ++ l)) by (intros m; rewrite !in_app_iff; cbn; intuition congruence).
    split; [rewrite Forall_forall in *; intros m M; destruct (SPLIT m M) as [->|M']; [exact WW|apply W; auto]|]. split; [exact SK|].
    split.
    { apply Forall_forall. intros k K'. apply le_ne.
      - unfold le. rewrite E. apply lex_parent. rewrite <- E1. now apply LK.
      - rewrite E. apply NOTP. apply in_app_iff. auto. }
    assert (LEW : le w na) by (apply pb_le; rewrite E, E1; apply pb_app).
    split. { constructor; [exact SL2|]. apply Forall_forall. intros m M. eapply le_trans; [exact LEW|]. apply HL. cbn. auto. }
    split.
    { intros a b A B EAB. destruct (SPLIT a A) as [->|A'], (SPLIT b B) as [->|B']; [reflexivity| | |apply C; auto]; exfalso; rewrite E in EAB;
      [apply (NOTP b); auto|apply (NOTP a); auto]. }
    intros n N. destruct (SPLIT n N) as [->|N'].
    + (* the new network *)
      left. exists (pre na ++ repeat false (128 - length (pre na))). split; [rewrite app_length, repeat_length; lia|]. split; [rewrite E, E1, <- app_assoc; apply pb_app|].
      intros m M Q. rewrite E. destruct (SPLIT m M) as [->|M']; [rewrite E; lia|]. destruct (Nat.le_gt_cases (length (pre m)) (length p)) as [LE|GT]; [exact LE|exfalso].
      assert (PM : pb (pre na) (pre m) = true) by (eapply pb_chain; [apply pb_app|exact Q|rewrite E1, app_length; cbn; lia]).
      apply in_app_iff in M'. destruct M' as [M'|M'].
      * apply (lt_not_le m na); [now apply LK|now apply pb_le].
      * assert (X : pb (pre na) (pre nb) = true) by (eapply lex_between; [apply lt_le; exact LT|apply (HL2 m M')|exact PM]). rewrite E1, E2, pb_snoc in X. discriminate.
    + destruct (HJ n (SUB n N')) as [(x & LX & Q & H)|F].
      * left. exists x. split; [exact LX|]. split; [exact Q|]. intros m M T. destruct (SPLIT m M) as [->|M']; [|apply H; auto]. rewrite E in *.
        destruct (HALF x LX T) as [T'|T']; [specialize (H na ltac:(apply in_app_iff; cbn; auto) T'); rewrite E1 in H|specialize (H nb ltac:(apply in_app_iff; cbn; auto) T'); rewrite E2 in H]; rewrite app_length in H; cbn in H; lia.
      * right. intros c d A IC ID. assert (NW : ~ inside n w). { intros I. destruct (INS n I). now apply (F na nb). }
        apply adj_mid in A. destruct A as [A|A].
        -- apply adj_snoc in A. destruct A as [(l1 & l2 & ->)| ->]; [|contradiction]. apply F; auto. exists l1, (l2 ++ na :: nb :: l). now rewrite <- app_assoc.
        -- apply adj_cons in A. destruct A as [(l' & -> & ->)|A]; [contradiction|]. apply F; auto. apply adj_r, adj_cons. right. apply adj_cons. auto.
Qed.

Lemma sorted_snoc K (na : net) : StronglySorted lt K -> Forall (fun k => lt k na) K -> StronglySorted lt (K ++ [na]).
Proof.
  induction K as [|k K IH]; intros S F; cbn; [repeat constructor|]. apply StronglySorted_inv in S. destruct S as [S1 S2]. inversion F; subst. constructor; [auto|].
  apply Forall_app. split; [exact S2|]. constructor; auto.
Qed.
Lemma step_move K na nb l : Inv K na (nb :: l) -> lt na nb -> Inv (K ++ [na]) nb l.
Proof.
  intros (W & SK & LK & SL & C & HJ) LT. unfold Inv. rewrite <- app_assoc. cbn [app]. split; [exact W|]. split; [now apply sorted_snoc|].
  split. { apply Forall_app. split; [|constructor; auto]. eapply Forall_impl; [|exact LK]. intros k H. apply (lt_trans k na nb H LT). }
  split; [apply StronglySorted_inv in SL; apply SL|]. auto.
Qed.

Definition isdel (n : net) : Prop := n_ip n = ones /\ n_mask n = 255.
Lemma del_is n : isdel (deleted n).
Proof. split; reflexivity. Qed.

Lemma pass1_ok P : forall l na dels K, Inv K na l -> Forall (fun n => P (n_dc n)) (na :: l) -> exists r k K' D,
  pass1 na dels l = Ok (r, k, false) /\ Permutation r (K' ++ dels ++ D) /\ Forall isdel D /\ k = length dels + length D /\ length K' + length D = S (length l) /\
  Fin (K ++ K') /\ Forall (fun n => P (n_dc n)) K' /\ (forall d x, length x = 128 -> lm (K ++ K') d x = lm (K ++ na :: l) d x) /\
  (D = [] -> r = na :: dels ++ l /\ K' = na :: l /\ forall c d, adj c d (na :: l) -> ~ kin c d).
Proof.
  induction l as [|nb l IH]; intros na dels K HI HP.
  - exists (na :: dels), (length dels), [na], []. cbn [pass1]. rewrite !app_nil_r. destruct HI as (W & SK & LK & SL & C & HJ).
    split; [reflexivity|]. split; [reflexivity|]. split; [constructor|]. split; [cbn; lia|]. split; [reflexivity|]. split; [split; [exact W|split; [now apply sorted_snoc|exact HJ]]|]. split; [exact HP|]. split; [reflexivity|].
    intros _. split; [reflexivity|]. split; [reflexivity|]. intros c d ([|? [|? ?]] & ? & E); discriminate.
  - assert (WA : wfn na) by (destruct HI as (W & _); rewrite Forall_forall in W; apply W, in_app_iff; cbn; auto).
    assert (WB : wfn nb) by (destruct HI as (W & _); rewrite Forall_forall in W; apply W, in_app_iff; cbn; auto).
    assert (LE : le na nb). { destruct HI as (_ & _ & _ & SL & _). apply StronglySorted_inv in SL. destruct SL as [_ F]. now inversion F. }
    cbn [pass1]. inversion HP as [|? ? PA PB]; subst. inversion PB as [|? ? PB1 PB2]; subst. destruct (net_eq na nb) eqn:EQ.
    + apply net_eq_pre in EQ; auto. destruct (step_dup K na nb l HI EQ) as [HI' ->].
      destruct (IH na (dels ++ [deleted na]) K HI' ltac:(constructor; auto)) as (r & k & K' & D & -> & PR & FD & EK & EL & FIN & FP & LM & ND).
      exists r, k, K', (deleted na :: D). cbn [rbind]. rewrite N.eqb_refl. cbn [negb orb]. split; [reflexivity|].
      split; [rewrite <- app_assoc in PR; exact PR|]. split; [constructor; [apply del_is|exact FD]|]. split; [rewrite app_length in EK; cbn in *; lia|]. split; [cbn; lia|]. split; [exact FIN|]. split; [exact FP|].
      split; [|discriminate]. intros d x LX. rewrite LM by exact LX. rewrite !lm_app. unfold lm at 1 3. cbn [fold_left]. destruct (pb (pre na) x); reflexivity.
    + assert (LT : lt na nb) by (apply le_ne; [exact LE|]; intros E; apply net_eq_pre in E; auto; congruence).
      destruct (mergeable_pre na nb WA WB LT) as (m & -> & HT & HF). cbn [rbind]. destruct m.
      * destruct (HT eq_refl) as [WW KN]. pose proof (step_kin K na nb l HI LT KN WW) as HI'.
        destruct (IH (absorb na nb) (dels ++ [deleted nb]) K HI' ltac:(constructor; auto)) as (r & k & K' & D & -> & PR & FD & EK & EL & FIN & FP & LM & ND).
        exists r, k, K', (deleted nb :: D). split; [reflexivity|].
        split; [rewrite <- app_assoc in PR; exact PR|]. split; [constructor; [apply del_is|exact FD]|]. split; [rewrite app_length in EK; cbn in *; lia|]. split; [cbn; lia|]. split; [exact FIN|]. split; [exact FP|].
        split; [|discriminate]. intros d x LX. rewrite LM by exact LX. rewrite !lm_app. change (na :: nb :: l) with ([na; nb] ++ l). change (absorb na nb :: l) with ([absorb na nb] ++ l). rewrite !lm_app. f_equal. symmetry. apply lm_kin; [exact KN|].
        rewrite LX, pre_len by exact WA. apply WA.
      * pose proof (step_move K na nb l HI LT) as HI'.
        destruct (IH nb [] (K ++ [na]) HI' PB) as (r & k & K' & D & -> & PR & FD & EK & EL & FIN & FP & LM & ND). cbn [rbind].
        exists (na :: dels ++ r), (length dels + k), (na :: K'), D. split; [reflexivity|]. cbn [app] in *. rewrite <- !app_assoc in *. cbn [app] in *.
        split. { constructor. rewrite PR. rewrite !app_assoc. apply Permutation_app_tail, Permutation_app_comm. }
        split; [exact FD|]. split; [cbn in *; lia|]. split; [cbn in *; lia|]. split; [exact FIN|]. split; [constructor; auto|].
        split. { intros d x LX. specialize (LM d x LX). rewrite <- ?app_assoc in LM. exact LM. }
        intros ->. destruct (ND eq_refl) as (-> & -> & NK). split; [reflexivity|]. split; [reflexivity|]. intros c d A. apply adj_cons in A. destruct A as [(l' & E & ->)|A]; [injection E as <- _; now apply HF|now apply NK].
Qed.

(** Sorting afterwards puts the deleted entries last, and changes nothing else. *)
Lemma sort_cut s K D : Permutation s (K ++ D) -> StronglySorted net_le s -> Forall wfn K -> Forall isdel D -> StronglySorted lt K -> firstn (length K) s = K.
Proof.
  revert s. induction K as [|k K IH]; intros s P S W FD SK; [reflexivity|]. cbn [app length] in *. destruct s as [|y s]; [apply Permutation_length in P; discriminate|].
  apply StronglySorted_inv in S. destruct S as [S HY]. inversion W as [|? ? WK WR]; subst. apply StronglySorted_inv in SK. destruct SK as [SK HK].
  assert (E : y = k).
  { assert (IY : In y (k :: K ++ D)) by (eapply Permutation_in; [exact P|cbn; auto]). assert (IK : In k (y :: s)) by (eapply Permutation_in; [symmetry; exact P|cbn; auto]).
    destruct IY as [->|IY]; [reflexivity|]. destruct IK as [->|IK]; [reflexivity|]. exfalso. rewrite Forall_forall in HY. specialize (HY k IK). apply in_app_iff in IY. destruct IY as [IY|IY].
    - rewrite Forall_forall in HK, WR. apply net_le_le in HY; auto. apply (lt_not_le k y); auto.
    - rewrite Forall_forall in FD. destruct (FD y IY) as [E1 E2]. unfold net_le, net_sorter in HY. rewrite E1, E2 in HY. destruct WK as (HI & HM & _).
      assert (HO : is_ip ones) by (split; [reflexivity|apply Forall_forall; intros v V; apply repeat_spec in V; subst; reflexivity]).
      rewrite cmp_bits in HY by auto. assert (G : forall b, length b = 128 -> lex (repeat true 128) b <> Lt).
      { clear. intros b L. assert (X : forall n b, length b = n -> lex (repeat true n) b <> Lt); [|auto]. clear. induction n as [|n IH]; intros [|[] b] L; cbn in *; try discriminate. apply IH. lia. }
      change (bits ones) with (repeat true 128) in HY. destruct (lex (repeat true 128) (bits (n_ip k))) eqn:EL; [|now apply (G (bits (n_ip k))) in EL; [|apply bits_len]|congruence].
      destruct (Nat.compare_spec 255 (n_mask k)); lia || congruence. }
  subst y. cbn [firstn]. f_equal. apply IH; auto. apply Permutation_cons_inv in P. exact P.
Qed.

Section Sort.
  Variable sort : list net -> list net.
  Hypothesis SO : sort_ok sort.
  Variable P : N -> Prop.

  Lemma one_pass na l : Inv [] na l -> Forall (fun n => P (n_dc n)) (na :: l) -> exists L again,
    normalize_1pass sort (na :: l) = Ok (L, again, false) /\ L <> [] /\ Fin L /\ Forall (fun n => P (n_dc n)) L /\
    (forall d x, length x = 128 -> lm L d x = lm (na :: l) d x) /\
    (if again then length L < length (na :: l) else L = na :: l /\ forall c d, adj c d L -> ~ kin c d).
  Proof.
    intros HI HP. destruct (pass1_ok P l na [] [] HI HP) as (r & k & K' & D & E & PR & FD & EK & EL & FIN & FP & LM & ND). unfold normalize_1pass. rewrite E. cbn [rbind]. cbn [app length plus] in *.
    destruct (Nat.eqb_spec k 0) as [->|NZ].
    - destruct D; [|discriminate]. destruct (ND eq_refl) as (-> & -> & NK). exists (na :: l), false. repeat (split; [first [reflexivity|assumption|discriminate]|]). auto.
    - assert (CUT : firstn (S (length l) - k) (sort r) = K').
      { destruct (SO r) as [P1 P2]. replace (S (length l) - k) with (length K') by lia. apply (sort_cut _ K' D); auto; [now rewrite P1|apply FIN|apply FIN]. }
      exists K', true. rewrite CUT. split; [reflexivity|]. split; [intros ->; cbn in *|]. 2: { repeat (split; [assumption|]). cbn [length]. lia. }
      clear - E EL EK PR FD LM ND HI. assert (Q : forall l na dels r k w, pass1 na dels l = Ok (r, k, w) -> k < S (length l) + length dels).
      { clear. induction l as [|nb l IH]; intros na dels r k w; cbn [pass1]; [intros [= _ <- _]; cbn; lia|]. destruct (net_eq na nb).
        - destruct (pass1 na (dels ++ [deleted nb]) l) as [[[r' k'] w']|] eqn:E; cbn [rbind]; [|discriminate]. intros [= _ <- _]. apply IH in E. rewrite app_length in E. cbn in *. lia.
        - destruct (mergeable_nets na nb) as [[]|]; cbn [rbind]; [| |discriminate].
          + intros E. apply IH in E. rewrite app_length in E. cbn in *. lia.
          + destruct (pass1 nb [] l) as [[[r' k'] w']|] eqn:E; cbn [rbind]; [|discriminate]. intros [= _ <- _]. apply IH in E. cbn in *. lia. }
      apply Q in E. cbn in *. lia.
  Qed.
  Lemma fin_inv na l : Fin (na :: l) -> Inv [] na l.
  Proof.
    intros (W & S & HJ). split; [exact W|]. split; [constructor|]. split; [constructor|]. split.
    - clear - S. induction S as [|a l0 S IH F]; constructor; auto. eapply Forall_impl; [|exact F]. intros b. apply lt_le.
    - split; [|exact HJ]. clear - S. cbn [app] in *. intros a b A B E. revert a b A B E. generalize dependent (na :: l). clear. intros L S. induction S as [|c L S IH F]; intros a b A B E; [destruct A|].
      rewrite Forall_forall in F. destruct A as [->|A], B as [->|B]; auto.
      + specialize (F _ B). unfold lt in F. rewrite E, lex_refl in F. discriminate.
      + specialize (F _ A). unfold lt in F. rewrite E, lex_refl in F. discriminate.
  Qed.
  Lemma passes_ok fuel : forall na l, length (na :: l) <= fuel -> Inv [] na l -> Forall (fun n => P (n_dc n)) (na :: l) -> exists L,
    passes sort fuel (na :: l) = Ok (L, false) /\ L <> [] /\ Fin L /\ Forall (fun n => P (n_dc n)) L /\
    (forall d x, length x = 128 -> lm L d x = lm (na :: l) d x) /\ (forall c d, adj c d L -> ~ kin c d).
  Proof.
    induction fuel as [|fuel IH]; intros na l LF HI HP; [cbn in LF; lia|]. destruct (one_pass na l HI HP) as (L & again & E & NE & FIN & FP & LM & AG). cbn [passes]. rewrite E. cbn [rbind]. destruct again.
    - destruct L as [|n L]; [congruence|]. destruct (IH n L ltac:(lia) (fin_inv _ _ FIN) FP) as (L' & -> & NE' & FIN' & FP' & LM' & NK). exists L'. cbn [rbind orb]. repeat (split; [first [reflexivity|assumption]|]). split; [|exact NK].
      intros d x LX. now rewrite LM', LM.
    - destruct AG as [-> NK]. exists (na :: l). repeat (split; [first [reflexivity|assumption]|]). exact NK.
  Qed.
End Sort.
