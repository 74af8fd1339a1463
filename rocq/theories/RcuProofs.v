From Verif Require Import Base RcuModel.

Section P.
  Variable n : nat.

  Definition holds_ok (s : st) (r : nat) (x : reader) : Prop :=
    r_snap x = tbl s (r_tbl x) /\
    (forall i v, In (i, v) (r_got x) -> nth_error (r_snap x) i = Some v) /\
    match phase_ s with
    | PWait gone =>
        (r_tbl x = cons_ s /\ (In r (old_readers s) -> In r gone)) \/
        (r_tbl x = negb (cons_ s) /\ In r (old_readers s) /\ ~ In r gone)
    | _ => r_tbl x = cons_ s
    end.

  Definition writer_ok (s : st) : Prop :=
    match phase_ s with
    | PIdle => shadow s = tbl s (negb (cons_ s))
    | PWait gone => shadow s = tbl s (cons_ s) /\
        (exists older, published s = tbl s (cons_ s) :: tbl s (negb (cons_ s)) :: older) /\
        (forall r, In r (old_readers s) -> ~ In r gone -> exists x, readers s r = Some x /\ r_tbl x = negb (cons_ s))
    | PCopy k => shadow s = tbl s (cons_ s) /\ k <= length (tbl s (cons_ s)) /\
        forall i, i < k -> nth_error (tbl s (negb (cons_ s))) i = nth_error (tbl s (cons_ s)) i
    end.

  Definition Inv (s : st) : Prop :=
    length (t0 s) = length (t1 s) /\
    (exists older, published s = tbl s (cons_ s) :: older) /\
    writer_ok s /\
    (forall r x, readers s r = Some x -> r < n /\ holds_ok s r x).

  Lemma tbl_put_same s b l : tbl (put_tbl s b l) b = l.
  Proof. destruct b; reflexivity. Qed.
  Lemma tbl_put_other s b l : tbl (put_tbl s (negb b) l) b = tbl s b.
  Proof. destruct b; reflexivity. Qed.
  Lemma tbl_len s b : length (t0 s) = length (t1 s) -> length (tbl s (negb b)) = length (tbl s b).
  Proof. destruct b; cbn; congruence. Qed.

  Lemma negb_neq b : negb b = b -> False.
  Proof. destruct b; discriminate. Qed.

  Lemma list_ext {A} (a b : list A) : length a = length b ->
    (forall i, i < length a -> nth_error a i = nth_error b i) -> a = b.
  Proof.
    revert b; induction a as [|x a IH]; intros [|y b] HL H; try discriminate; auto.
    assert (E := H 0 ltac:(cbn; lia)). cbn in E. injection E as ->. f_equal. apply IH; [cbn in HL; lia|].
    intros i Hi. apply (H (S i)). cbn; lia.
  Qed.

  Lemma init_inv s : initial_st s -> Inv s.
  Proof.
    intros (H1 & H2 & H3 & H4 & H5). split; [congruence|]. split; [exists []; auto|]. split.
    - unfold writer_ok. rewrite H2. rewrite H5. unfold tbl. destruct (negb (cons_ s)); auto.
    - intros r x H. rewrite H3 in H. discriminate.
  Qed.

  Lemma step_inv s s' : Inv s -> stepr n s s' -> Inv s'.
  Proof.
    intros (HL & (older & HP) & HW & HR) Hs. destruct Hs as
      [s i v Hp Hi|s olds Hp Ho|s gone Hp Hg|s k v Hp Hk|s k Hp Hk|s r Hr Hn|s r x i v Hr Hx Hv|s r Hr Hx].
    - (* write *)
      unfold writer_ok in HW. rewrite Hp in HW.
      assert (T : forall b, tbl (set_shadow (put_tbl s (negb (cons_ s)) (upd (tbl s (negb (cons_ s))) i v)) (upd (shadow s) i v)) b
                 = if Bool.eqb b (cons_ s) then tbl s b else upd (tbl s b) i v).
      { intros b. destruct b, (cons_ s) eqn:E; cbn; unfold tbl; cbn; auto. }
      split; [destruct (cons_ s); cbn in *; rewrite ?upd_length; congruence|].
      split. { exists older. rewrite T. destruct (cons_ s) eqn:E; cbn in *; rewrite E in *; auto. }
      split.
      + unfold writer_ok. replace (phase_ _) with (phase_ s) by (destruct (cons_ s); auto). rewrite Hp.
        rewrite T. destruct (cons_ s) eqn:E; cbn in *; rewrite E in *; cbn; now rewrite HW.
      + intros r x Hx. assert (Hx' : readers s r = Some x) by (destruct (cons_ s); auto).
        destruct (HR _ _ Hx') as (Hr & A & B & C). split; auto. rewrite Hp in C.
        unfold holds_ok. replace (phase_ _) with (phase_ s) by (destruct (cons_ s); auto). rewrite Hp.
        assert (Cs : cons_ (set_shadow (put_tbl s (negb (cons_ s)) (upd (tbl s (negb (cons_ s))) i v)) (upd (shadow s) i v)) = cons_ s)
          by (destruct (negb (cons_ s)); reflexivity).
        rewrite Cs. split; [|split; auto]. rewrite T, C. now rewrite Bool.eqb_reflx, <- C.
    - (* swap *)
      unfold writer_ok in HW. rewrite Hp in HW.
      split; [auto|]. split; [eexists; reflexivity|]. split.
      + unfold writer_ok. cbn [phase_ shadow cons_ published old_readers readers]. unfold tbl in *. cbn in *.
        split; [auto|]. split.
        * exists older. rewrite HP. destruct (cons_ s); auto.
        * intros r Hr _. apply Ho in Hr as [Hr Hx]. destruct (readers s r) as [x|] eqn:E; [|congruence].
          exists x. split; auto. destruct (HR _ _ E) as (_ & _ & _ & C). rewrite Hp in C. now rewrite negb_involutive.
      + cbn [readers]. intros r x Hx. destruct (HR _ _ Hx) as (Hr & A & B & C). split; auto. rewrite Hp in C.
        unfold holds_ok. cbn. split; auto. split; auto. right. rewrite negb_involutive. split; auto. split; auto.
        apply Ho. split; auto. congruence.
    - (* return *)
      unfold writer_ok in HW. rewrite Hp in HW. destruct HW as (W1 & W2 & W3).
      split; [auto|]. split; [exists older; auto|]. split.
      + unfold writer_ok. cbn. split; auto. split; [lia|]. intros; lia.
      + intros r x Hx. destruct (HR _ _ Hx) as (Hr & A & B & C). split; auto. rewrite Hp in C.
        split; auto. split; auto. cbn. destruct C as [[C _]|(C & D & E)]; auto. exfalso; auto.
    - (* copy *)
      unfold writer_ok in HW. rewrite Hp in HW. destruct HW as (W1 & W2 & W3).
      assert (Hkl : k < length (tbl s (cons_ s))) by (apply nth_error_Some; congruence).
      assert (Tc : forall l, tbl (set_phase (put_tbl s (negb (cons_ s)) l) (PCopy (S k))) (cons_ s) = tbl s (cons_ s))
        by (intros; destruct (cons_ s); reflexivity).
      assert (To : forall l, tbl (set_phase (put_tbl s (negb (cons_ s)) l) (PCopy (S k))) (negb (cons_ s)) = l)
        by (intros; destruct (cons_ s); reflexivity).
      assert (Cc : forall l, cons_ (set_phase (put_tbl s (negb (cons_ s)) l) (PCopy (S k))) = cons_ s)
        by (intros; destruct (negb (cons_ s)); reflexivity).
      split; [destruct (cons_ s); cbn in *; rewrite ?upd_length; congruence|].
      split. { exists older. rewrite Cc, Tc. rewrite <- HP. destruct (cons_ s); auto. }
      split.
      + unfold writer_ok. rewrite Cc, Tc, To. replace (phase_ _) with (PCopy (S k)) by (destruct (cons_ s); auto).
        replace (shadow _) with (shadow s) by (destruct (cons_ s); auto).
        split; auto. split; [lia|]. intros i Hi. destruct (Nat.eq_dec i k) as [->|Hne].
        * rewrite nth_error_upd_eq; [auto|]. rewrite (tbl_len _ _ HL). auto.
        * rewrite nth_error_upd_neq by auto. apply W3. lia.
      + intros r x Hx. assert (Hx' : readers s r = Some x) by (destruct (cons_ s); auto).
        destruct (HR _ _ Hx') as (Hr & A & B & C). split; auto. rewrite Hp in C.
        unfold holds_ok. rewrite Cc. replace (phase_ _) with (PCopy (S k)) by (destruct (cons_ s); auto).
        rewrite C, Tc. rewrite C in A. auto.
    - (* copied *)
      unfold writer_ok in HW. rewrite Hp in HW. destruct HW as (W1 & W2 & W3).
      split; [auto|]. split; [exists older; auto|]. split.
      + unfold writer_ok. cbn. rewrite W1. symmetry. apply list_ext.
        * exact (tbl_len _ _ HL).
        * intros i Hi. apply W3. rewrite Hk, <- (tbl_len s (cons_ s) HL). exact Hi.
      + intros r x Hx. destruct (HR _ _ Hx) as (Hr & A & B & C). split; auto. rewrite Hp in C. split; auto.
    - (* enter *)
      split; [auto|]. split; [exists older; auto|]. split.
      + unfold writer_ok in *. cbn [phase_ set_reader]. destruct (phase_ s); auto.
        destruct HW as (W1 & W2 & W3). split; auto. split; auto.
        intros r0 H1 H2. destruct (W3 _ H1 H2) as (x & E & Hx). exists x. split; auto. cbn.
        destruct (Nat.eqb_spec r0 r); auto. congruence.
      + intros r0 x Hx. cbn in Hx. destruct (Nat.eqb_spec r0 r) as [->|Hne].
        * injection Hx as <-. split; auto. split; [reflexivity|]. split; [intros ? ? []|].
          cbn [phase_ set_reader r_tbl cons_ old_readers]. unfold writer_ok in HW. destruct (phase_ s); auto.
          destruct HW as (_ & _ & W3). left. split; auto. intros Ho.
          destruct (in_dec Nat.eq_dec r gone) as [Hi|Hi]; auto. destruct (W3 _ Ho Hi) as (x & E & _). congruence.
        * destruct (HR _ _ Hx) as (A & B). split; auto.
    - (* read *)
      split; [auto|]. split; [exists older; auto|]. split.
      + unfold writer_ok in *. cbn [phase_ set_reader]. destruct (phase_ s); auto.
        destruct HW as (W1 & W2 & W3). split; auto. split; auto.
        intros r0 H1 H2. destruct (W3 _ H1 H2) as (y & E & Hy). cbn.
        destruct (Nat.eqb_spec r0 r) as [->|]; eauto.
        rewrite Hx in E. injection E as ->. eexists. split; [reflexivity|]. auto.
      + intros r0 y Hy. cbn in Hy. destruct (Nat.eqb_spec r0 r) as [->|Hne].
        * injection Hy as <-. destruct (HR _ _ Hx) as (A & B & C & D). split; auto. split; [exact B|]. split; auto.
          intros j w [[= <- <-]|Hin]; auto. cbn [r_snap]. rewrite B. auto.
        * destruct (HR _ _ Hy) as (A & B). split; auto.
    - (* quiet *)
      destruct (phase_ s) eqn:Hp.
      + split; [auto|]. split; [exists older; auto|]. split.
        * unfold writer_ok in *. cbn [phase_ set_reader]. rewrite Hp in *. auto.
        * intros r0 y Hy. cbn in Hy. destruct (Nat.eqb_spec r0 r) as [->|Hne]; [discriminate|].
          destruct (HR _ _ Hy) as (A & B). split; auto.
      + split; [auto|]. split; [exists older; auto|]. split.
        * unfold writer_ok in *. rewrite Hp in HW. cbn [phase_ set_reader set_phase].
          destruct HW as (W1 & W2 & W3). split; auto. split; auto.
          intros r0 H1 H2. cbn in H1, H2. destruct (W3 r0 H1) as (y & E & Hy); [tauto|]. exists y. split; auto. cbn.
          destruct (Nat.eqb_spec r0 r); auto. exfalso. apply H2; auto.
        * intros r0 y Hy. cbn in Hy. destruct (Nat.eqb_spec r0 r) as [->|Hne]; [discriminate|].
          destruct (HR _ _ Hy) as (A & B & C & D). rewrite Hp in D. split; auto. split; auto. split; auto.
          cbn. destruct D as [[D E]|(D & E & F)]; [left|right]; auto. split; auto. split; auto. intros [?|?]; auto.
      + split; [auto|]. split; [exists older; auto|]. split.
        * unfold writer_ok in *. cbn [phase_ set_reader]. rewrite Hp in *. auto.
        * intros r0 y Hy. cbn in Hy. destruct (Nat.eqb_spec r0 r) as [->|Hne]; [discriminate|].
          destruct (HR _ _ Hy) as (A & B). split; auto.
  Qed.

  Lemma reach_inv s0 s : initial_st s0 -> reach n s0 s -> Inv s.
  Proof. intros H0 H. induction H; [now apply init_inv | eapply step_inv; eauto]. Qed.
End P.
