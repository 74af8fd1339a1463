(** C28: readers always see one complete, published state table. *)
From Verif Require Import Base RcuModel RcuProofs.

(** Everything a reader has read in its current section comes from one single
    published table. *)
Theorem C28_readers_see_one_published_table : forall n s0 s r x,
  initial_st s0 -> reach n s0 s -> readers s r = Some x ->
  exists table, In table (published s) /\ forall i v, In (i, v) (r_got x) -> nth_error table i = Some v.
Proof.
  intros n s0 s r x H0 H Hx. destruct (reach_inv n s0 s H0 H) as (_ & (older & HP) & HW & HR).
  destruct (HR _ _ Hx) as (_ & A & B & C). exists (r_snap x). split; auto. rewrite A.
  unfold writer_ok in HW. destruct (phase_ s).
  - rewrite C, HP. left; auto.
  - destruct HW as (_ & (o & HP') & _). rewrite HP'. destruct C as [[-> _]|[-> _]]; cbn; auto.
  - rewrite C, HP. left; auto.
Qed.
Print Assumptions C28_readers_see_one_published_table.

(** While the publisher may write (it is not waiting for readers), no reader
    holds the table it writes to. *)
Theorem C28_no_write_to_a_table_being_read : forall n s0 s r x,
  initial_st s0 -> reach n s0 s -> readers s r = Some x ->
  (forall gone, phase_ s <> PWait gone) -> r_tbl x <> negb (cons_ s).
Proof.
  intros n s0 s r x H0 H Hx Hp. destruct (reach_inv n s0 s H0 H) as (_ & _ & _ & HR).
  destruct (HR _ _ Hx) as (_ & _ & _ & C). destruct (phase_ s) as [|g|k].
  - rewrite C. destruct (cons_ s); discriminate.
  - exfalso; eapply Hp; reflexivity.
  - rewrite C. destruct (cons_ s); discriminate.
Qed.
Print Assumptions C28_no_write_to_a_table_being_read.

(** No step of any thread changes the contents of a table somebody reads. *)
Theorem C28_held_table_is_stable : forall n s0 s s' r x,
  initial_st s0 -> reach n s0 s -> stepr n s s' -> readers s r = Some x ->
  tbl s' (r_tbl x) = tbl s (r_tbl x).
Proof.
  intros n s0 s s' r x H0 H Hs Hx.
  assert (I := reach_inv n s0 s H0 H). destruct I as (_ & _ & _ & HR).
  destruct (HR _ _ Hx) as (_ & _ & _ & C).
  destruct Hs; try (rewrite H1 in C); try reflexivity.
  - rewrite C. destruct (cons_ s); reflexivity.
  - rewrite C. destruct (cons_ s); reflexivity.
  - destruct (phase_ s); reflexivity.
Qed.
Print Assumptions C28_held_table_is_stable.

(** Once the grace period is over every reader uses the newest table. *)
Theorem C28_after_grace_period_newest : forall n s0 s r x,
  initial_st s0 -> reach n s0 s -> readers s r = Some x ->
  (forall gone, phase_ s <> PWait gone) ->
  exists newest older, published s = newest :: older /\ r_snap x = newest /\
    forall i v, In (i, v) (r_got x) -> nth_error newest i = Some v.
Proof.
  intros n s0 s r x H0 H Hx Hp. destruct (reach_inv n s0 s H0 H) as (_ & (older & HP) & _ & HR).
  destruct (HR _ _ Hx) as (_ & A & B & C). exists (tbl s (cons_ s)), older. split; auto.
  assert (E : r_snap x = tbl s (cons_ s)).
  { rewrite A. destruct (phase_ s); try congruence. exfalso; eapply Hp; eauto. }
  split; auto. rewrite <- E. auto.
Qed.
Print Assumptions C28_after_grace_period_newest.

(** No update is lost or reordered by the table swapping: what a swap publishes
    is the effect of all updates made so far. *)
Theorem C28_publication_is_complete : forall n s0 s,
  initial_st s0 -> reach n s0 s -> phase_ s = PIdle ->
  shadow s = tbl s (negb (cons_ s)).
Proof.
  intros n s0 s H0 H Hp. destruct (reach_inv n s0 s H0 H) as (_ & _ & HW & _).
  unfold writer_ok in HW. now rewrite Hp in HW.
Qed.
Print Assumptions C28_publication_is_complete.

(** The publisher is not blocked for ever: when every reader that was inside a
    section at the swap has left it, the wait can end. *)
Theorem C28_grace_period_ends : forall n s0 s gone,
  initial_st s0 -> reach n s0 s -> phase_ s = PWait gone ->
  (forall r x, readers s r = Some x -> r_tbl x = cons_ s) ->
  exists s', stepr n s s' /\ phase_ s' = PCopy 0.
Proof.
  intros n s0 s gone H0 H Hp Hq. destruct (reach_inv n s0 s H0 H) as (_ & _ & HW & _).
  unfold writer_ok in HW. rewrite Hp in HW. destruct HW as (_ & _ & W3).
  exists (set_phase s (PCopy 0)). split; [|reflexivity]. apply S_return with gone; auto.
  intros r Hr. destruct (in_dec Nat.eq_dec r gone); auto.
  destruct (W3 r Hr n0) as (x & E & Hx). apply Hq in E. rewrite Hx in E. destruct (cons_ s); discriminate.
Qed.
Print Assumptions C28_grace_period_ends.

(** A run: a reader enters, the publisher changes both entries and swaps, the
    reader still reads the old pair. *)
Definition w0 : st :=
  {| t0 := [1%N; 2%N]; t1 := [1%N; 2%N]; cons_ := false; phase_ := PIdle; old_readers := [];
     shadow := [1%N; 2%N]; readers := fun _ => None; published := [[1%N; 2%N]] |}.
Definition w_rd (t : bool) (snap : list N) got :=
  fun j => if Nat.eqb j 0 then Some {| r_tbl := t; r_snap := snap; r_got := got |} else None.

Example C28_witness : exists s x, initial_st w0 /\ reach 1 w0 s /\ readers s 0 = Some x /\
  published s = [[7%N; 8%N]; [1%N; 2%N]] /\ r_got x = [(1, 2%N); (0, 1%N)] /\ phase_ s = PWait [].
Proof.
  eexists. eexists. split.
  { repeat split; auto. }
  split.
  { eapply RS. eapply RS. eapply RS. eapply RS. eapply RS. eapply RS. apply R0.
    - apply (S_enter 1 _ 0); [lia|reflexivity].
    - eapply (S_read 1 _ 0 _ 0 1%N); [lia|reflexivity|reflexivity].
    - apply (S_write 1 _ 0 7%N); [reflexivity|cbn; lia].
    - apply (S_write 1 _ 1 8%N); [reflexivity|cbn; lia].
    - apply (S_swap 1 _ [0]); [reflexivity|]. intros r. unfold in_section. cbn. split.
      + intros [<-|[]]. split; [lia|discriminate].
      + intros [? _]. left. lia.
    - eapply (S_read 1 _ 0 _ 1 2%N); [lia|reflexivity|reflexivity]. }
  split; [reflexivity|]. split; [reflexivity|]. split; reflexivity.
Qed.
