From Verif Require Import Base DnameSpec DnameProofs CompModel CompSpec.
Ltac Zify.zify_post_hook ::= idtac.

Lemma nth_error_app_some {A} (l r : list A) i x : nth_error l i = Some x -> nth_error (l ++ r) i = Some x.
Proof. intros H. rewrite nth_error_app1; auto. apply nth_error_Some. congruence. Qed.

Lemma name_at_app pkt off ls e r : name_at pkt off ls e -> name_at (pkt ++ r) off ls e.
Proof.
  induction 1.
  - apply na_root; [assumption|]. now apply nth_error_app_some.
  - apply na_label; auto.
    + now apply nth_error_app_some.
    + rewrite app_length; lia.
    + rewrite sub_app_l by lia. assumption.
  - eapply na_ptr; eauto using nth_error_app_some.
Qed.

Lemma name_at_end pkt off ls e : name_at pkt off ls e -> (off < e <= length pkt)%nat.
Proof.
  induction 1.
  - assert (off < length pkt) by (apply nth_error_Some; congruence). lia.
  - lia.
  - assert (S off < length pkt) by (apply nth_error_Some; congruence). lia.
Qed.

Lemma name_at_unique pkt off ls e : name_at pkt off ls e -> forall ls' e', name_at pkt off ls' e' -> ls = ls' /\ e = e'.
Proof.
  induction 1 as [off O Z|off l ls e O L Z B S1 H IH|off hi lo ls e Z Z1 Q1 Q2 P H IH]; intros ls' e' H';
    inversion H' as [? O' Z'|? l2 ls2 e2 O' L' X' B' S1' H2|? hi2 lo2 ls2 e2 X' Z1' Q1' Q2' P' H2]; subst; auto.
  - assert (0%N = N.of_nat (length l2)) by congruence. lia.
  - assert (0%N = hi2) by congruence. lia.
  - assert (0%N = N.of_nat (length l)) by congruence. lia.
  - assert (EL : length l = length l2) by (apply Nat2N.inj; congruence).
    assert (E : l = l2) by (transitivity (sub pkt (S off) (length l)); [auto|rewrite EL; auto]). subst l2.
    destruct (IH _ _ H2) as [-> ->]. auto.
  - assert (hi2 = N.of_nat (length l)) by congruence. lia.
  - assert (0%N = hi) by congruence. lia.
  - assert (hi = N.of_nat (length l2)) by congruence. lia.
  - assert (hi2 = hi) by congruence. assert (lo2 = lo) by congruence. subst.
    destruct (IH _ _ H2) as [-> _]. auto.
Qed.

(** a run of labels written in full in front of a name *)
Lemma name_at_labels pkt0 pre tail ls e : 12 <= length pkt0 -> Forall (fun l => 1 <= length l <= 63)%nat pre ->
  name_at (pkt0 ++ wire_labels pre ++ tail) (length pkt0 + length (wire_labels pre)) ls e ->
  name_at (pkt0 ++ wire_labels pre ++ tail) (length pkt0) (pre ++ ls) e.
Proof.
  intros H12 HF. revert pkt0 H12. induction HF as [|l pre Hl HF IH]; intros pkt0 H12 H.
  - cbn [wire_labels length] in H. rewrite Nat.add_0_r in H. exact H.
  - cbn [wire_labels app].
    assert (E : pkt0 ++ (N.of_nat (length l) :: l ++ wire_labels pre) ++ tail =
                (pkt0 ++ N.of_nat (length l) :: l) ++ wire_labels pre ++ tail).
    { rewrite <- !app_assoc. cbn [app]. rewrite <- !app_assoc. reflexivity. }
    cbn [wire_labels] in H. cbn [app] in E. apply na_label.
    + exact H12.
    + lia.
    + rewrite nth_error_app2, Nat.sub_diag by lia. reflexivity.
    + rewrite app_length. cbn [length]. rewrite !app_length. lia.
    + replace (S (length pkt0)) with (length pkt0 + 1) by lia. rewrite sub_app_r. unfold sub. cbn [skipn].
      rewrite <- app_assoc, firstn_app, Nat.sub_diag, firstn_all, firstn_O, app_nil_r. reflexivity.
    + replace (length pkt0 + 1 + length l) with (length (pkt0 ++ N.of_nat (length l) :: l)) by (rewrite app_length; cbn [length]; lia).
      rewrite E. apply IH; [rewrite app_length; lia|]. cbn [app] in H. rewrite E in H.
      replace (length pkt0 + length (N.of_nat (length l) :: l ++ wire_labels pre))
        with (length (pkt0 ++ N.of_nat (length l) :: l) + length (wire_labels pre)) in H; [exact H|].
      rewrite app_length. cbn [length]. rewrite app_length. lia.
Qed.

Lemma name_at_full pkt0 ls tail : 12 <= length pkt0 -> Forall (fun l => 1 <= length l <= 63)%nat ls ->
  name_at (pkt0 ++ (wire_labels ls ++ [0%N]) ++ tail) (length pkt0) ls (length pkt0 + wire_len ls).
Proof.
  intros H12 HF. rewrite <- (app_nil_r ls) at 2. rewrite <- app_assoc. apply name_at_labels; [assumption|assumption|].
  rewrite <- wire_labels_len. replace (length pkt0 + S (length (wire_labels ls))) with (S (length pkt0 + length (wire_labels ls))) by lia.
  apply na_root; [lia|]. rewrite app_assoc, nth_error_app2; rewrite app_length; [|lia].
  now rewrite Nat.sub_diag.
Qed.

Lemma legal_lens ls : Forall legal_label ls -> Forall (fun l => 1 <= length l <= 63)%nat ls.
Proof. apply Forall_impl. intros l [H _]. exact H. Qed.

Lemma bytes_eqb_spec a : forall b, bytes_eqb a b = true <-> a = b.
Proof.
  induction a as [|x a IH]; intros [|y b]; cbn [bytes_eqb]; try (split; congruence).
  rewrite andb_true_iff, IH, N.eqb_eq. split; [intros [-> ->]; reflexivity|intros [= -> ->]; auto].
Qed.

(** [wn ls]: a full name on the wire *)
Definition wn (ls : list (list N)) : bytes := wire_labels ls ++ [0%N].
Lemma wn_len ls : length (wn ls) = wire_len ls.
Proof. unfold wn. rewrite app_length, <- wire_labels_len. cbn. lia. Qed.
Lemma wn_cons l r : wn (l :: r) = N.of_nat (length l) :: l ++ wn r.
Proof. unfold wn. cbn [wire_labels app]. now rewrite <- app_assoc. Qed.
Lemma next_label_wn l r : next_label (wn (l :: r)) = Ok (wn r).
Proof.
  rewrite wn_cons. unfold next_label. rewrite Nat2N.id, app_length.
  destruct (Nat.leb_spec (length l) (length l + length (wn r))); [|lia]. cbn [rassert].
  now rewrite skipn_app, Nat.sub_diag, skipn_all.
Qed.
Lemma wn_short ls : Forall legal_label ls -> 2 < length (wn ls) <-> ls <> [].
Proof.
  intros H. rewrite wn_len. destruct H as [|l r [Hl _] Hr].
  - change (wire_len []) with 1. split; [lia|congruence].
  - rewrite wire_len_cons. pose proof (wire_len_pos r). split; [discriminate|lia].
Qed.
Lemma wn_app a b : wn (a ++ b) = wire_labels a ++ wn b.
Proof. unfold wn. now rewrite wire_labels_app, app_assoc. Qed.

Lemma legal_struct_label l : legal_label l -> struct_label l.
Proof. intros [H _]. unfold struct_label. lia. Qed.
Lemma wn_inj a b : Forall legal_label a -> Forall legal_label b -> wn a = wn b -> a = b.
Proof.
  intros HA HB E. unfold wn in E. eapply (wire_inj a b 0%N 0%N); eauto.
  - eapply Forall_impl; [|exact HA]. exact legal_struct_label.
  - eapply Forall_impl; [|exact HB]. exact legal_struct_label.
Qed.

Lemma emit_ok out data : (N.of_nat (length out) + N.of_nat (length data) <= MAX_BUF)%N -> emit out data = Ok (out ++ data).
Proof. intros H. unfold emit. apply N.leb_le in H. now rewrite H. Qed.
Lemma emit_inv out data out' : emit out data = Ok out' -> out' = out ++ data /\ (N.of_nat (length out') <= MAX_BUF)%N.
Proof.
  unfold emit. destruct (N.leb_spec (N.of_nat (length out) + N.of_nat (length data)) MAX_BUF); cbn [rassert]; [|discriminate].
  intros [= <-]. rewrite app_length. split; [reflexivity|lia].
Qed.

Section Comp.
  (** how a stored name may differ from the one given *)
  Variable R : list (list N) -> list (list N) -> Prop.
  Hypothesis R_refl : forall ls, R ls ls.
  Hypothesis R_cons : forall l a b, R a b -> R (l :: a) (l :: b).
  Lemma R_app p a b : R a b -> R (p ++ a) (p ++ b).
  Proof. intros H. induction p as [|l p IH]; cbn [app]; auto. Qed.

  (** A target: a non-empty name that is in the packet, starting with a label. *)
  Definition target_ok (out : bytes) (t : ctarget) : Prop :=
    exists ls ls' e b, ls <> [] /\ Forall legal_label ls /\ ct_orig t = wn ls /\ R ls' ls /\
      name_at out (ct_off t) ls' e /\ nth_error out (ct_off t) = Some b /\ (1 <= b < 64)%N.

  Lemma target_app out r t : target_ok out t -> target_ok (out ++ r) t.
  Proof.
    intros (ls & ls' & e & b & H1 & H2 & H3 & H4 & H5 & H6 & H7).
    exists ls, ls', e, b. repeat split; auto using name_at_app, nth_error_app_some; apply H7.
  Qed.

  (** A target inside the name [ls] about to be written at [base], starting
      before its label number [k]. *)
  Definition pending (base : nat) (ls : list (list N)) (k : nat) (t : ctarget) : Prop :=
    exists a c, ls = a ++ c /\ length a < k /\ c <> [] /\ ct_orig t = wn c /\ ct_off t = base + length (wire_labels a).

  Lemma pending_mono base ls k k' t : k <= k' -> pending base ls k t -> pending base ls k' t.
  Proof. intros H (a & c & H1 & H2 & H3). exists a, c. split; [assumption|]. split; [lia|assumption]. Qed.

  Lemma legal_app_r a b : Forall legal_label (a ++ b) -> Forall legal_label b.
  Proof. intros H. apply Forall_app in H. apply H. Qed.

  Lemma add_targets_ok : forall fuel base ls a c cts,
    Forall legal_label ls -> ls = a ++ c -> length (wn c) < fuel -> length cts <= 16 ->
    exists new, add_targets fuel cts (wn c) (base + length (wire_labels a)) = Ok (cts ++ new) /\
                length (cts ++ new) <= 16 /\ Forall (pending base ls (length ls)) new.
  Proof.
    induction fuel as [|fuel IH]; intros base ls a c cts HL E HF HC; [lia|]. cbn [add_targets].
    assert (HLc : Forall legal_label c) by (rewrite E in HL; eapply legal_app_r; eauto).
    pose proof (wn_short c HLc) as HS.
    destruct (Nat.ltb_spec 2 (length (wn c))) as [L|L]; cbn [andb].
    2:{ exists []. rewrite app_nil_r. auto. }
    destruct (Nat.ltb_spec (length cts) COMPTARGETS_MAX) as [L2|L2]; unfold COMPTARGETS_MAX in L2.
    2:{ exists []. rewrite app_nil_r. auto. }
    destruct c as [|l c]; [exfalso; now apply HS|].
    rewrite next_label_wn. cbn [rbind].
    assert (EO : base + length (wire_labels a) + (length (wn (l :: c)) - length (wn c)) = base + length (wire_labels (a ++ [l]))).
    { rewrite wire_labels_app, app_length, wn_cons. cbn [wire_labels length]. rewrite !app_length. cbn [length]. lia. }
    rewrite EO.
    destruct (IH base ls (a ++ [l]) c (cts ++ [{| ct_orig := wn (l :: c); ct_off := base + length (wire_labels a) |}]))
      as (new & R1 & R2 & R3); auto.
    - rewrite <- app_assoc. exact E.
    - rewrite wn_cons in HF. cbn [length] in HF. rewrite app_length in HF. lia.
    - rewrite app_length. cbn [length]. lia.
    - rewrite R1. eexists. rewrite <- app_assoc. split; [reflexivity|]. rewrite <- app_assoc in R2. split; [exact R2|].
      constructor; [|assumption]. exists a, (l :: c). rewrite E, app_length. cbn [length ct_orig ct_off].
      repeat split; try discriminate. lia.
  Qed.

  Lemma skip_longer_ok : forall fuel tlen make base ls a c done rest,
    Forall legal_label ls -> ls = a ++ c -> length (wn c) < fuel -> 2 < tlen ->
    (length done + rest <= 16) ->
    exists new a' c', skip_longer fuel tlen make done rest (wn c) (base + length (wire_labels a)) =
        Ok (done ++ new, wn c', base + length (wire_labels a')) /\
      ls = a' ++ c' /\ length a <= length a' /\ length (done ++ new) + rest <= 16 /\ Forall (pending base ls (length a')) new /\
      length (wn c') <= tlen \/ False.
  Proof.
    induction fuel as [|fuel IH]; intros tlen make base ls a c done rest HL E HF HT HC; [lia|]. cbn [skip_longer].
    assert (HLc : Forall legal_label c) by (rewrite E in HL; eapply legal_app_r; eauto).
    pose proof (wn_short c HLc) as HS.
    destruct (Nat.ltb_spec tlen (length (wn c))) as [L|L].
    2:{ exists [], a, c. left. rewrite app_nil_r. repeat split; auto. }
    destruct c as [|l c]; [exfalso; apply HS; [lia|reflexivity]|].
    destruct (Nat.ltb_spec 2 (length (wn (l :: c)))) as [L2|]; [|lia]. cbn [rassert].
    assert (EO : base + length (wire_labels a) + (length (wn (l :: c)) - length (wn c)) = base + length (wire_labels (a ++ [l]))).
    { rewrite wire_labels_app, app_length, wn_cons. cbn [wire_labels length]. rewrite !app_length. cbn [length]. lia. }
    assert (F2 : length (wn c) < fuel).
    { rewrite wn_cons in HF. cbn [length] in HF. rewrite app_length in HF. lia. }
    assert (E2 : ls = (a ++ [l]) ++ c) by (rewrite <- app_assoc; exact E).
    destruct (make && Nat.ltb (length done + rest) COMPTARGETS_MAX)%bool eqn:EM; cbn [rbind]; rewrite next_label_wn; cbn [rbind]; rewrite EO.
    - apply andb_true_iff in EM. destruct EM as [_ EM]. apply Nat.ltb_lt in EM. unfold COMPTARGETS_MAX in EM.
      destruct (IH tlen make base ls (a ++ [l]) c (done ++ [{| ct_orig := wn (l :: c); ct_off := base + length (wire_labels a) |}]) rest)
        as (new & a' & c' & [(R1 & R2 & R3 & R4 & R5 & R6)|[]]); auto.
      { rewrite app_length. cbn [length]. lia. }
      rewrite R1. exists ({| ct_orig := wn (l :: c); ct_off := base + length (wire_labels a) |} :: new), a', c'. left.
      rewrite <- app_assoc in *. cbn [app] in *. repeat split; auto.
      + rewrite app_length in R3. cbn [length] in R3. lia.
      + constructor; [|assumption]. exists a, (l :: c). rewrite app_length in R3. cbn [length ct_orig ct_off] in *.
        repeat split; auto; try discriminate. lia.
    - destruct (IH tlen make base ls (a ++ [l]) c done rest) as (new & a' & c' & [(R1 & R2 & R3 & R4 & R5 & R6)|[]]); auto.
      rewrite R1. exists new, a', c'. left. repeat split; auto. rewrite app_length in R3. cbn [length] in R3. lia.
  Qed.

  Lemma target_len out t : target_ok out t -> 2 < ct_len t.
  Proof.
    intros (ls & ls' & e & b & H1 & H2 & H3 & _). unfold ct_len. rewrite H3. now apply wn_short.
  Qed.

  Lemma comp_search_ok make out base ls : forall todo done a c,
    Forall legal_label ls -> ls = a ++ c -> length done + length todo <= 16 ->
    Forall (target_ok out) todo -> Forall (fun t => target_ok out t \/ pending base ls (length a) t) done ->
    exists f cts a' c', comp_search make done todo (wn c) (base + length (wire_labels a)) =
        Ok (f, cts, wn c', base + length (wire_labels a')) /\
      ls = a' ++ c' /\ length cts <= 16 /\ Forall (fun t => target_ok out t \/ pending base ls (length a') t) cts /\
      match f with Found t => target_ok out t /\ ct_orig t = wn c' | NotFound => True end.
  Proof.
    induction todo as [|t todo IH]; intros done a c HL E HC HT HD; cbn [comp_search].
    { exists NotFound, done, a, c. repeat split; auto. cbn [length] in HC. lia. }
    inversion HT as [|? ? Ht HT']; subst x l. cbn [length] in HC.
    destruct (skip_longer_ok (S (length (wn c))) (ct_len t) make base ls a c done (length (t :: todo)))
      as (new & a' & c' & [(R1 & R2 & R3 & R4 & R5 & R6)|[]]); auto.
    { eapply target_len; eauto. }
    rewrite R1. cbn [rbind].
    assert (HD' : Forall (fun t => target_ok out t \/ pending base ls (length a') t) (done ++ new)).
    { apply Forall_app. split.
      - eapply Forall_impl; [|exact HD]. intros x [Q|Q]; [now left|right; eapply pending_mono; eauto].
      - eapply Forall_impl; [|exact R5]. auto. }
    destruct (bytes_eqb (wn c') (ct_orig t)) eqn:EB.
    - apply bytes_eqb_spec in EB. exists (Found t), ((done ++ new) ++ t :: todo), a', c'. repeat split; auto.
      + rewrite app_length. exact R4.
      + apply Forall_app. split; [assumption|]. eapply Forall_impl; [|exact HT]. auto.
    - destruct (IH ((done ++ new) ++ [t]) a' c') as (f & cts & a2 & c2 & Q); auto.
      + rewrite app_length. cbn [length] in *. lia.
      + apply Forall_app. split; [assumption|]. constructor; auto.
      + eauto.
  Qed.

  (** pending targets become real ones *)
  Lemma pending_ok out ls a c tail r' e t : 12 <= length out -> Forall legal_label ls -> ls = a ++ c -> R r' c ->
    name_at (out ++ wire_labels a ++ tail) (length out + length (wire_labels a)) r' e ->
    pending (length out) ls (length a) t -> target_ok (out ++ wire_labels a ++ tail) t.
  Proof.
    intros H12 HL E HR HN (a1 & c1 & E1 & L1 & N1 & O1 & F1).
    assert (EX : exists b, a = a1 ++ b /\ c1 = b ++ c /\ b <> []).
    { rewrite E in E1. clear -E1 L1. revert a E1 L1. induction a1 as [|x a1 IH]; intros a E1 L1.
      - exists a. cbn [app] in E1. repeat split; auto. intros ->. cbn in L1. lia.
      - destruct a as [|y a]; [cbn in L1; lia|]. cbn [app length] in *. injection E1 as -> E1.
        destruct (IH a) as (b & -> & -> & Nb); [assumption|lia|]. exists b. auto. }
    destruct EX as (b & -> & -> & Nb).
    rewrite wire_labels_app, app_length in HN.
    assert (HLa : Forall (fun l => 1 <= length l <= 63) b).
    { apply legal_lens. rewrite E in HL. apply Forall_app in HL. destruct HL as [HL _]. apply Forall_app in HL. apply HL. }
    exists (b ++ c), (b ++ r'), e. rewrite F1.
    assert (EP : out ++ wire_labels (a1 ++ b) ++ tail = (out ++ wire_labels a1) ++ wire_labels b ++ tail).
    { rewrite wire_labels_app, <- !app_assoc. reflexivity. }
    rewrite EP. replace (length out + length (wire_labels a1)) with (length (out ++ wire_labels a1)) by (now rewrite app_length).
    destruct b as [|l b]; [congruence|]. inversion HLa; subst.
    exists (N.of_nat (length l)). repeat split; auto; try lia.
    - rewrite <- app_assoc in HL. eapply legal_app_r; eauto.
    - now apply R_app.
    - apply name_at_labels; [rewrite app_length; lia|assumption|]. rewrite <- (app_assoc (wire_labels a1)) in HN.
      rewrite (app_assoc out) in HN. rewrite app_length. replace (length out + length (wire_labels a1) + length (wire_labels (l :: b)))
        with (length out + (length (wire_labels a1) + length (wire_labels (l :: b)))) by lia. exact HN.
    - rewrite nth_error_app2, Nat.sub_diag by lia. reflexivity.
  Qed.

  (** The question name is in the packet, and [lq] is its folded form. *)
  Definition question_at (out lq : bytes) : Prop :=
    exists qls qlow, Forall legal_label qls /\ Forall legal_label qlow /\ Forall2 (fun a b => length a = length b) qls qlow /\
      lq = wn qlow /\ (forall n, R (skipn n qls) (skipn n qlow)) /\
      exists hd tail, length hd = 12 /\ out = hd ++ wn qls ++ tail.

  Lemma question_len out lq : question_at out lq -> 12 <= length out.
  Proof. intros (qls & qlow & _ & _ & _ & _ & _ & hd & tail & H & ->). rewrite app_length, H. apply Nat.le_add_r. Qed.
  Lemma question_app out lq r : question_at out lq -> question_at (out ++ r) lq.
  Proof.
    intros (qls & qlow & H1 & H2 & H3 & H4 & H5 & hd & tail & H6 & ->).
    exists qls, qlow. repeat split; auto. exists hd, (tail ++ r). rewrite <- !app_assoc. auto.
  Qed.

  Lemma wire_labels_len2 a b : Forall2 (fun x y : list N => length x = length y) a b ->
    length (wire_labels a) = length (wire_labels b).
  Proof. induction 1 as [|x y a b E H IH]; [reflexivity|]. cbn [wire_labels length]. rewrite !app_length. lia. Qed.

  Lemma Forall2_firstn {A B} (P : A -> B -> Prop) n : forall a b, Forall2 P a b -> Forall2 P (firstn n a) (firstn n b).
  Proof. induction n; intros a b H; [constructor|]. destruct H; cbn [firstn]; constructor; auto. Qed.

  Lemma add_qname_ok out lq : question_at out lq ->
    exists cts, ctargets_add_qname lq = Ok cts /\ length cts <= 16 /\ Forall (target_ok out) cts.
  Proof.
    intros (qls & qlow & L1 & L2 & F & -> & HR & hd & tail & H12 & ->). unfold ctargets_add_qname.
    destruct (add_targets_ok (S (length (wn qlow))) 12 qlow [] qlow []) as (new & E1 & E2 & E3); auto.
    { cbn. lia. }
    cbn [wire_labels length] in E1. rewrite Nat.add_0_r in E1. exists new. cbn [app] in *. repeat split; auto.
    eapply Forall_impl; [|exact E3]. intros t (a & c & E & La & Nc & O & X).
    set (n := length a). assert (Ec : c = skipn n qlow) by (rewrite E; unfold n; now rewrite skipn_app, Nat.sub_diag, skipn_all).
    assert (Ea : a = firstn n qlow) by (rewrite E; unfold n; now rewrite firstn_app, Nat.sub_diag, firstn_all, firstn_O, app_nil_r).
    pose proof (Forall2_firstn _ n _ _ F) as F1. rewrite <- Ea in F1.
    assert (Eq : qls = firstn n qls ++ skipn n qls) by (now rewrite firstn_skipn).
    assert (Lg : Forall legal_label (skipn n qls)) by (rewrite Eq in L1; eapply legal_app_r; eauto).
    assert (EP : hd ++ wn qls ++ tail = (hd ++ wire_labels (firstn n qls)) ++ wn (skipn n qls) ++ tail).
    { rewrite Eq at 1. rewrite wn_app, <- !app_assoc. reflexivity. }
    assert (EO : ct_off t = length (hd ++ wire_labels (firstn n qls))).
    { rewrite X, app_length, H12. f_equal. symmetry. now apply wire_labels_len2. }
    assert (N2 : skipn n qls <> []).
    { intros Z. apply (f_equal (@length _)) in Z. rewrite skipn_length in Z. cbn [length] in Z.
      assert (FL : length qls = length qlow) by (clear -F; induction F; cbn [length]; congruence). rewrite FL in Z. unfold n in Z. lia. }
    destruct (skipn n qls) as [|l r] eqn:ES; [congruence|]. apply Forall_cons_iff in Lg. destruct Lg as [[Hl Hb] Hr]. assert (Lg : Forall legal_label (l :: r)) by (constructor; [split|]; assumption).
    exists (skipn n qlow), (l :: r), (length (hd ++ wire_labels (firstn n qls)) + wire_len (l :: r)), (N.of_nat (length l)).
    repeat split; auto; try lia.
    - now rewrite <- Ec.
    - rewrite <- (firstn_skipn n qlow) in L2. eapply legal_app_r; exact L2.
    - now rewrite <- Ec.
    - rewrite <- ES. apply HR.
    - rewrite EP, EO. unfold wn. apply name_at_full; [rewrite app_length; lia|]. now apply legal_lens.
    - rewrite EP, EO, nth_error_app2, Nat.sub_diag by lia. rewrite wn_cons. reflexivity.
  Qed.

  Lemma ptr_bytes p : (p < 16384)%N -> exists hi lo, be16 (N.lor 49152 p) = [hi; lo] /\ (192 <= hi < 256)%N /\ (lo < 256)%N /\
    ((hi - 192) * 256 + lo)%N = p.
  Proof.
    intros H. assert (E : N.lor 49152 p = (49152 + p)%N).
    { rewrite <- N.lxor_lor, <- N.add_nocarry_lxor; auto.
      all: change 49152%N with (3 * 2 ^ 14)%N; apply N.bits_inj; intros i; rewrite N.land_spec, N.bits_0;
        destruct (N.lt_ge_cases i 14) as [L|L].
      all: try (rewrite N.mul_pow2_bits_low by assumption; reflexivity).
      all: replace (N.testbit p i) with false; [apply andb_false_r|].
      all: symmetry; destruct (N.eq_dec p 0) as [->|Z]; [apply N.bits_0|]; apply N.bits_above_log2;
        apply N.log2_lt_pow2; [lia|]; apply N.lt_le_trans with (2 ^ 14)%N; [exact H|]; apply N.pow_le_mono_r; lia. }
    rewrite E. exists ((49152 + p) / 256)%N, ((49152 + p) mod 256)%N.
    pose proof (N.div_mod (49152 + p) 256). pose proof (N.mod_lt (49152 + p) 256).
    pose proof (N.div_le_mono 49152 (49152 + p) 256). pose proof (N.div_lt_upper_bound (49152 + p) 256 256).
    change (49152 / 256)%N with 192%N in *. unfold be16.
    repeat split; try lia.
    rewrite N.mod_small by lia. reflexivity.
  Qed.

  (** [store_dname_comp]: the name can be read back, everything stored before is
      unchanged, and the targets stay sound. *)
  Lemma store_dname_comp_ok lq cts out ls make :
    Forall legal_label ls -> Forall (target_ok out) cts -> length cts <= 16 -> question_at out lq ->
    (N.of_nat (length out) + N.of_nat (wire_len ls) <= MAX_BUF)%N ->
    exists data cts' ls', store_dname_comp lq cts out (wn ls) make = Ok (out ++ data, cts') /\
      1 <= length data <= wire_len ls /\ R ls' ls /\ name_at (out ++ data) (length out) ls' (length (out ++ data)) /\
      Forall (target_ok (out ++ data)) cts' /\ length cts' <= 16.
  Proof.
    intros HL HT HC HQ HB. pose proof (question_len _ _ HQ) as H12. unfold store_dname_comp. unfold MAX_BUF in HB.
    assert (EX : exists cts0, (match cts with [] => ctargets_add_qname lq | _ => Ok cts end) = Ok cts0 /\ Forall (target_ok out) cts0 /\ length cts0 <= 16).
    { destruct cts as [|t cts]; [|eauto]. destruct (add_qname_ok _ _ HQ) as (c & E1 & E2 & E3). eauto. }
    destruct EX as (cts0 & -> & HT0 & HC0). cbn [rbind].
    destruct (comp_search_ok make out (length out) ls cts0 [] [] ls HL eq_refl) as (f & cts1 & a & c & E1 & E2 & E3 & E4 & E5); auto.
    cbn [wire_labels length] in E1. rewrite Nat.add_0_r in E1. rewrite E1. cbn [rbind].
    assert (HLa : Forall (fun l => 1 <= length l <= 63) a).
    { apply legal_lens. rewrite E2 in HL. apply Forall_app in HL. apply HL. }
    assert (HLc : Forall legal_label c) by (rewrite E2 in HL; eapply legal_app_r; eauto).
    assert (EW : wn ls = wire_labels a ++ wn c) by (rewrite E2; apply wn_app).
    destruct f as [t|].
    - destruct E5 as [Ht Eo]. pose proof Ht as (rs & r' & e & b & N1 & N2 & N3 & N4 & N5 & N6 & N7).
      assert (Erc : rs = c) by (rewrite Eo in N3; symmetry; now apply wn_inj).
      subst rs.
      replace (length (wn ls) - length (wn c)) with (length (wire_labels a)) by (rewrite EW, app_length; lia).
      replace (firstn (length (wire_labels a)) (wn ls)) with (wire_labels a)
        by (rewrite EW, firstn_app, Nat.sub_diag, firstn_all, firstn_O, app_nil_r; reflexivity).
      assert (LC : 2 < length (wn c)) by (now apply wn_short).
      assert (LT : length (wire_labels a) + length (wn c) = wire_len ls) by (rewrite <- wn_len, EW, app_length; lia).
      assert (OT : ct_off t < length out) by (apply nth_error_Some; congruence).
      destruct (ptr_bytes (N.of_nat (ct_off t))) as (hi & lo & EP & H1 & H2 & H3); [lia|].
      rewrite emit_ok by (unfold MAX_BUF; lia). cbn [rbind]. rewrite EP.
      rewrite emit_ok by (unfold MAX_BUF; rewrite app_length; cbn [length]; lia). cbn [rbind].
      rewrite <- app_assoc. set (data := wire_labels a ++ [hi; lo]).
      assert (N6' : nth_error (out ++ data) (ct_off t) = Some b) by now apply nth_error_app_some.
      unfold rd. rewrite N6'. cbn [rbind].
      assert (L192 : N.land b 192 = 0%N).
      { destruct N7 as [_ N7]. change 192%N with (3 * 2 ^ 6)%N. apply N.bits_inj. intros i. rewrite N.land_spec, N.bits_0.
        destruct (N.lt_ge_cases i 6) as [L|L]; [rewrite N.mul_pow2_bits_low by assumption; apply andb_false_r|].
        destruct (N.eq_dec b 0) as [->|Z]; [now rewrite N.bits_0|].
        rewrite (N.bits_above_log2 b); [reflexivity|]. apply N.log2_lt_pow2; [lia|].
        apply N.lt_le_trans with (2 ^ 6)%N; [exact N7|]. apply N.pow_le_mono_r; lia. }
      rewrite L192. cbn [rassert N.eqb].
      assert (NC : name_at (out ++ data) (length out + length (wire_labels a)) r' (length (out ++ data))).
      { replace (length (out ++ data)) with (length out + length (wire_labels a) + 2)
          by (unfold data; rewrite !app_length; cbn [length]; lia).
        apply na_ptr with (hi := hi) (lo := lo) (e := e); auto.
        - unfold data. rewrite app_assoc, nth_error_app2; rewrite app_length; [|lia]. now rewrite Nat.sub_diag.
        - unfold data. rewrite app_assoc, nth_error_app2; rewrite app_length; [|lia].
          replace (S (length out + length (wire_labels a)) - (length out + length (wire_labels a))) with 1 by lia. reflexivity.
        - rewrite H3, Nat2N.id. lia.
        - rewrite H3, Nat2N.id. now apply name_at_app. }
      exists data, cts1, (a ++ r'). repeat split; auto.
      + unfold data. rewrite app_length. cbn [length]. lia.
      + unfold data. rewrite app_length. cbn [length]. lia.
      + rewrite E2. now apply R_app.
      + unfold data. apply name_at_labels; [assumption|assumption|]. exact NC.
      + eapply Forall_impl; [|exact E4]. intros x [Q|Q]; [now apply target_app|].
        unfold data. eapply pending_ok with (c := c); [exact H12|exact HL|exact E2|exact N4|exact NC|exact Q].
    - assert (EX : exists cts2, (if make then add_targets (S (length (wn c))) cts1 (wn c) (length out + length (wire_labels a)) else Ok cts1) = Ok cts2 /\
        length cts2 <= 16 /\ Forall (fun t => target_ok out t \/ pending (length out) ls (length ls) t) cts2).
      { assert (W : Forall (fun t => target_ok out t \/ pending (length out) ls (length ls) t) cts1).
        { eapply Forall_impl; [|exact E4]. intros x [Q|Q]; [now left|right]. eapply pending_mono; [|exact Q].
          rewrite E2, app_length. lia. }
        destruct make; [|eauto].
        destruct (add_targets_ok (S (length (wn c))) (length out) ls a c cts1) as (new & Q1 & Q2 & Q3); auto.
        eexists. split; [exact Q1|]. split; [exact Q2|]. apply Forall_app. split; [assumption|].
        eapply Forall_impl; [|exact Q3]. auto. }
      destruct EX as (cts2 & -> & C2 & F2). cbn [rbind].
      rewrite emit_ok by (rewrite wn_len; exact HB). cbn [rbind].
      assert (NF : name_at (out ++ wn ls) (length out) ls (length (out ++ wn ls))).
      { rewrite app_length, wn_len. rewrite <- (app_nil_r (wn ls)). unfold wn. apply name_at_full; [assumption|]. now apply legal_lens. }
      exists (wn ls), cts2, ls. rewrite wn_len. pose proof (wire_len_pos ls). repeat split; auto; try lia.
      eapply Forall_impl; [|exact F2]. intros x [Q|Q]; [now apply target_app|].
      unfold wn. eapply (pending_ok out ls ls [] [0%N] [] (S (length out + length (wire_labels ls)))); eauto.
      + now rewrite app_nil_r.
      + apply na_root; [lia|]. rewrite app_assoc, nth_error_app2; rewrite app_length; [|lia]. now rewrite Nat.sub_diag.
  Qed.
End Comp.

Lemma byte_top_clear b : (b < 64)%N -> N.land b 192 = 0%N.
Proof.
  intros N7. change 192%N with (3 * 2 ^ 6)%N. apply N.bits_inj. intros i. rewrite N.land_spec, N.bits_0.
  destruct (N.lt_ge_cases i 6) as [L|L]; [rewrite N.mul_pow2_bits_low by assumption; apply andb_false_r|].
  destruct (N.eq_dec b 0) as [->|Z]; [now rewrite N.bits_0|].
  rewrite (N.bits_above_log2 b); [reflexivity|]. apply N.log2_lt_pow2; [lia|].
  apply N.lt_le_trans with (2 ^ 6)%N; [exact N7|]. apply N.pow_le_mono_r; lia.
Qed.
Lemma byte_top_set b : (192 <= b < 256)%N -> N.land b 192 = 192%N.
Proof.
  intros H. replace b with (3 * 2 ^ 6 + (b - 192))%N by lia. set (c := (b - 192)%N). assert (c < 64)%N by lia.
  rewrite N.add_nocarry_lxor.
  - rewrite N.lxor_lor.
    + rewrite N.land_lor_distr_l. rewrite (byte_top_clear c) by assumption. reflexivity.
    + rewrite N.land_comm. change (3 * 2 ^ 6)%N with 192%N. now apply byte_top_clear.
  - rewrite N.land_comm. change (3 * 2 ^ 6)%N with 192%N. now apply byte_top_clear.
Qed.

Lemma name_at_start pkt off ls e : name_at pkt off ls e -> 12 <= off.
Proof. induction 1; lia. Qed.
Lemma name_at_byte pkt off ls e : name_at pkt off ls e ->
  exists b, nth_error pkt off = Some b /\
    ((b = 0%N /\ ls = []) \/ (1 <= b < 64)%N \/
     ((192 <= b < 256)%N /\ exists lo e', nth_error pkt (S off) = Some lo /\ (lo < 256)%N /\
        (N.to_nat ((b - 192) * 256 + lo) < off)%nat /\ name_at pkt (N.to_nat ((b - 192) * 256 + lo)) ls e')).
Proof.
  destruct 1.
  - exists 0%N. auto.
  - exists (N.of_nat (length l)). split; [assumption|]. right. left. lia.
  - exists hi. split; [assumption|]. right. right. split; [assumption|]. exists lo, e. auto.
Qed.

Lemma name_at_ptr_new out p ls e0 : name_at out p ls e0 -> (N.of_nat (length out) <= MAX_BUF)%N ->
  name_at (out ++ be16 (N.lor 49152 (N.of_nat p))) (length out) ls (length out + 2).
Proof.
  intros H HB. unfold MAX_BUF in HB. pose proof (name_at_end _ _ _ _ H) as HE.
  destruct (ptr_bytes (N.of_nat p)) as (hi & lo & EP & H1 & H2 & H3); [lia|]. rewrite EP.
  apply na_ptr with (hi := hi) (lo := lo) (e := e0); auto.
  - rewrite nth_error_app2, Nat.sub_diag by lia. reflexivity.
  - rewrite nth_error_app2 by lia. replace (S (length out) - length out) with 1 by lia. reflexivity.
  - rewrite H3, Nat2N.id. lia.
  - rewrite H3, Nat2N.id. now apply name_at_app.
Qed.

(** [repeat_name]: the same name again, in at most two bytes. *)
Lemma repeat_name_ok out off ls e : name_at out off ls e -> (N.of_nat (length out) + 2 <= MAX_BUF)%N ->
  exists data, repeat_name out off = Ok (out ++ data) /\ (1 <= length data <= 2)%nat /\
    name_at (out ++ data) (length out) ls (length (out ++ data)).
Proof.
  intros H HB. destruct (name_at_byte _ _ _ _ H) as (b & Eb & C). unfold repeat_name, rd. rewrite Eb. cbn [rbind].
  destruct C as [[-> ->]|[Hb|[Hb (lo & e' & E1 & E2 & E3 & E4)]]].
  - cbn [N.eqb]. rewrite emit_ok by (cbn [length]; lia). exists [0%N]. split; [reflexivity|]. split; [cbn; lia|].
    rewrite app_length. cbn [length]. replace (length out + 1) with (S (length out)) by lia.
    pose proof (name_at_start _ _ _ _ H). pose proof (name_at_end _ _ _ _ H). apply na_root; [lia|]. rewrite nth_error_app2, Nat.sub_diag by lia. reflexivity.
  - destruct (N.eqb_spec b 0) as [Z|_]; [lia|]. rewrite byte_top_clear by lia. cbn [N.eqb negb].
    assert (EL : length (be16 (N.lor 49152 (N.of_nat off))) = 2) by reflexivity.
    rewrite emit_ok by (rewrite EL; lia). eexists. split; [reflexivity|]. split; [rewrite EL; lia|].
    rewrite app_length, EL. eapply name_at_ptr_new; eauto. lia.
  - destruct (N.eqb_spec b 0) as [Z|_]; [lia|]. rewrite byte_top_set by lia. cbn [N.eqb Pos.eqb negb].
    assert (L2 : off + 2 <= length out) by (enough (S off < length out) by lia; apply nth_error_Some; congruence).
    assert (ER : rdn out off 2 = Ok [b; lo]).
    { rewrite rdn_ok by assumption. unfold sub. destruct (nth_error_split _ _ Eb) as (l1 & l2 & El & Ll). subst off.
      rewrite El in E1 |- *. rewrite nth_error_app2 in E1 by lia. replace (S (length l1) - length l1) with 1 in E1 by lia.
      rewrite skipn_app, skipn_all, Nat.sub_diag. destruct l2 as [|y l2]; [discriminate|]. cbn in E1. injection E1 as ->. reflexivity. }
    rewrite ER. cbn [rbind]. rewrite emit_ok by (cbn [length]; lia). exists [b; lo]. split; [reflexivity|]. split; [cbn; lia|].
    rewrite app_length. cbn [length].
    assert (off < length out) by lia.
    apply na_ptr with (hi := b) (lo := lo) (e := e'); auto.
    + rewrite nth_error_app2, Nat.sub_diag by lia. reflexivity.
    + rewrite nth_error_app2 by lia. replace (S (length out) - length out) with 1 by lia. reflexivity.
    + lia.
    + now apply name_at_app.
Qed.

Lemma ptr_value hi lo : (192 <= hi < 256)%N -> (lo < 256)%N -> N.ldiff (get16 hi lo) 49152 = ((hi - 192) * 256 + lo)%N.
Proof.
  intros H1 H2. unfold get16. set (c := ((hi - 192) * 256 + lo)%N). assert (Hc : (c < 16384)%N) by (unfold c; lia).
  replace (hi * 256 + lo)%N with (3 * 2 ^ 14 + c)%N by (unfold c; change (3 * 2 ^ 14)%N with (192 * 256)%N; lia).
  assert (D : N.land (3 * 2 ^ 14) c = 0%N).
  { apply N.bits_inj. intros i. rewrite N.land_spec, N.bits_0.
    destruct (N.lt_ge_cases i 14) as [L|L]; [rewrite N.mul_pow2_bits_low by assumption; reflexivity|].
    destruct (N.eq_dec c 0) as [->|Z]; [rewrite N.bits_0; apply andb_false_r|].
    rewrite (N.bits_above_log2 c); [apply andb_false_r|]. apply N.log2_lt_pow2; [lia|].
    apply N.lt_le_trans with (2 ^ 14)%N; [exact Hc|]. apply N.pow_le_mono_r; lia. }
  rewrite N.add_nocarry_lxor, N.lxor_lor by exact D.
  apply N.bits_inj. intros i. rewrite N.ldiff_spec, N.lor_spec. change 49152%N with (3 * 2 ^ 14)%N.
  assert (Di : (N.testbit (3 * 2 ^ 14) i && N.testbit c i = false)%bool) by (rewrite <- N.land_spec, D; apply N.bits_0).
  revert Di. generalize (N.testbit (3 * 2 ^ 14) i) (N.testbit c i). intros [|] [|]; cbn; congruence.
Qed.

(** [chase_auth_ptr]: skipping whole labels of a stored name reaches the rest
    of that name, at a place that is not a pointer. *)
Lemma chase_ok : forall fuel out off a b e, name_at out off (a ++ b) e ->
  length (wire_labels a) * S (length out) + off < fuel ->
  exists o e', chase_auth_ptr fuel out off (length (wire_labels a)) = Ok o /\ name_at out o b e' /\
    exists x, nth_error out o = Some x /\ (x < 64)%N.
Proof.
  induction fuel as [|fuel IH]; intros out off a b e H HF; [lia|]. cbn [chase_auth_ptr].
  pose proof (name_at_end _ _ _ _ H) as HE.
  pose proof H as H0. remember (a ++ b) as ab eqn:E1.
  destruct H0 as [off O12 Z|off l ls e O12 Hl Z B S1 H2|off hi lo ls e Z Z1 Q1 Q2 P H2]; unfold rd; rewrite Z; cbn [rbind].
  - symmetry in E1. apply app_eq_nil in E1. destruct E1 as [-> ->]. cbn [wire_labels length Nat.eqb andb]. cbn [N.land N.eqb].
    exists off, (S off). split; [reflexivity|]. split; [now apply na_root|]. exists 0%N. split; [assumption|lia].
  - rewrite byte_top_clear by lia. cbn [N.eqb negb]. destruct a as [|l0 a].
    + cbn [wire_labels length Nat.eqb andb]. exists off, e. split; [reflexivity|]. cbn [app] in *. subst b. split; [assumption|].
      exists (N.of_nat (length l)). split; [assumption|lia].
    + cbn [app] in E1. injection E1 as -> E1. subst ls.
      assert (EL : length (wire_labels (l0 :: a)) = S (length l0) + length (wire_labels a)).
      { cbn [wire_labels length]. rewrite app_length. lia. }
      rewrite EL in *. cbn [plus Nat.eqb andb]. rewrite Nat2N.id.
      destruct (Nat.leb_spec (S (length l0)) (S (length l0 + length (wire_labels a)))) as [_|Q]; [|lia]. cbn [rassert].
      replace (S (length l0 + length (wire_labels a)) - S (length l0)) with (length (wire_labels a)) by lia.
      replace (off + S (length l0)) with (off + 1 + length l0) by lia.
      eapply IH; [exact H2|]. nia.
  - rewrite byte_top_set by lia. cbn [N.eqb Pos.eqb]. rewrite andb_false_r. cbn [negb]. rewrite Z1. cbn [rbind].
    subst ls. rewrite ptr_value by assumption. eapply IH; [exact H2|]. lia.
Qed.
