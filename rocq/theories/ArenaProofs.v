(** Arenas keep their blocks apart. *)
From Verif Require Import Base ArenaModel ArenaSpec.

Lemma anth_upd {A} (l : list A) k j x : nth_error (upd l k x) j = if Nat.eqb j k then (match nth_error l k with Some _ => Some x | None => None end) else nth_error l j.
Proof.
  revert k j. induction l as [|a l IH]; intros k j; cbn.
  - destruct j, k; cbn; try reflexivity. now destruct (Nat.eqb j k).
  - destruct k as [|k], j as [|j]; cbn; auto.
Qed.
Lemma aupd_length {A} (l : list A) k x : length (upd l k x) = length l.
Proof. revert k. induction l as [|a l IH]; intros [|k]; cbn; auto. Qed.
Lemma anth_skipn {A} n : forall (l : list A) i, nth_error (skipn n l) i = nth_error l (n + i).
Proof. induction n as [|n IH]; intros [|a l] i; cbn; auto. now destruct i. Qed.
Lemma anth_firstn {A} n : forall (l : list A) i, nth_error (firstn n l) i = if Nat.ltb i n then nth_error l i else None.
Proof. induction n as [|n IH]; intros [|a l] i; cbn [firstn]; try now destruct i. - destruct i; cbn [nth_error]; now destruct (Nat.ltb _ _). - destruct i as [|i]; [reflexivity|]. cbn. apply IH. Qed.
Lemma anth_wr {A} (l l' : list A) off d : wr l off d = Ok l' -> forall i, nth_error l' i = if Nat.ltb i off then nth_error l i else if Nat.ltb i (off + length d) then nth_error d (i - off) else nth_error l i.
Proof.
  unfold wr. destruct (Nat.leb_spec (off + length d) (length l)) as [L|]; [|discriminate]. intros [= <-] i. assert (LF : length (firstn off l) = off) by (rewrite firstn_length; lia).
  destruct (Nat.ltb_spec i off).
  - rewrite nth_error_app1 by lia. rewrite anth_firstn. destruct (Nat.ltb_spec i off); [reflexivity|lia].
  - rewrite nth_error_app2, LF by lia. destruct (Nat.ltb_spec i (off + length d)).
    + rewrite nth_error_app1 by lia. reflexivity.
    + rewrite nth_error_app2 by lia. rewrite anth_skipn. f_equal. lia.
Qed.
Lemma anth_realloc {A} (l : list (option A)) n i : i < length l -> i < n -> nth_error (realloc l n) i = nth_error l i.
Proof. intros H1 H2. unfold realloc. rewrite nth_error_app1 by (rewrite firstn_length; lia). rewrite anth_firstn. destruct (Nat.ltb_spec i n); [reflexivity|lia]. Qed.
Lemma realloc_length {A} (l : list (option A)) n : length (realloc l n) = n.
Proof. unfold realloc. rewrite app_length, firstn_length, repeat_length. lia. Qed.

(** the [i]th pool of arena [k] is [p] *)
Definition slot (l : list (option arena)) (k i p : nat) : Prop :=
  exists a, nth_error l k = Some (Some a) /\ i <= a_pool a /\ nth_error (a_pools a) i = Some (Some p).

Definition good_arena (s : status) (a : arena) : Prop :=
  a_pool a < length (a_pools a) /\ 0 < a_palloc a /\ a_poffs a <= POOL_SIZE /\ (s = Open -> length (a_pools a) = a_palloc a) /\
  forall i, i <= a_pool a -> exists p, nth_error (a_pools a) i = Some (Some p).
Record ainv (st : list status) (w : world) : Prop := {
  v_len : length st = length (w_arenas w);
  v_st : forall k s, nth_error st k = Some s -> match s with Gone => nth_error (w_arenas w) k = Some None | _ => exists a, nth_error (w_arenas w) k = Some (Some a) /\ good_arena s a end;
  v_inj : forall k k' i i' p, slot (w_arenas w) k i p -> slot (w_arenas w) k' i' p -> k = k' /\ i = i';
  v_live : forall p, In p (h_live (w_heap w)) <-> exists k i, slot (w_arenas w) k i p;
  v_nd : NoDup (h_live (w_heap w));
  v_next : forall p, In p (h_live (w_heap w)) -> p < h_next (w_heap w);
  v_blocks : forall b, In b (w_blocks w) -> 0 < b_size b /\ b_off b + b_size b <= POOL_SIZE /\
    exists a i, nth_error (w_arenas w) (b_arena b) = Some (Some a) /\ i <= a_pool a /\ nth_error (a_pools a) i = Some (Some (b_pool b)) /\ (i = a_pool a -> b_off b + b_size b <= a_poffs a);
  v_apart : ForallOrdPairs apart (w_blocks w) }.

Lemma inv0 : ainv [] world0.
Proof.
  assert (NS : forall k i p, ~ slot [] k i p) by (intros [|k] i p (a & E & _); discriminate E).
  constructor; cbn [w_arenas w_heap w_blocks world0 h_live h_next].
  - reflexivity.
  - intros [|k] s; discriminate.
  - intros k k' i i' p H. elim (NS _ _ _ H).
  - intros p. split; [intros []|]. intros (k & i & H). elim (NS _ _ _ H).
  - constructor.
  - intros p [].
  - intros b [].
  - constructor.
Qed.

Lemma fop_map {A} (R : A -> A -> Prop) (f : A -> A) l : (forall a b, R a b -> R (f a) (f b)) -> ForallOrdPairs R l -> ForallOrdPairs R (map f l).
Proof. intros H. induction 1 as [|a l F P IH]; cbn; constructor; auto. rewrite Forall_forall in *. intros x I. apply in_map_iff in I. destruct I as (y & <- & I). auto. Qed.
Lemma fop_filter {A} (R : A -> A -> Prop) (f : A -> bool) l : ForallOrdPairs R l -> ForallOrdPairs R (filter f l).
Proof. induction 1 as [|a l F P IH]; cbn; [constructor|]. destruct (f a); [|exact IH]. constructor; auto. rewrite Forall_forall in *. intros x I. apply filter_In in I. apply F, I. Qed.

Lemma double_ok n : forall fuel p, 0 < p -> n < fuel + p -> n < double fuel n p /\ p <= double fuel n p.
Proof.
  induction fuel as [|fuel IH]; intros p P H; cbn [double]; [lia|]. destruct (Nat.leb_spec p n); [|lia]. destruct (IH (2 * p) ltac:(lia) ltac:(lia)). lia.
Qed.

Lemma arena_at w k a : nth_error (w_arenas w) k = Some (Some a) -> arena_of w k = Ok a.
Proof. intros E. unfold arena_of. now rewrite E. Qed.

(** changing one arena without touching its pools *)
Lemma slot_same l k a a' : nth_error l k = Some (Some a) -> a_pool a' = a_pool a -> (forall i, i <= a_pool a -> nth_error (a_pools a') i = nth_error (a_pools a) i) ->
  forall j i p, slot (upd l k (Some a')) j i p <-> slot l j i p.
Proof.
  intros E EP EN j i p. unfold slot. rewrite anth_upd, E. destruct (Nat.eqb_spec j k) as [->|NE]; [|reflexivity]. rewrite E. split.
  - intros (x & [= <-] & L & N). exists a. rewrite EP in L. rewrite EN in N by exact L. auto.
  - intros (x & [= <-] & L & N). exists a'. rewrite EP, EN by exact L. auto.
Qed.

Lemma free_all_ok h : forall l, NoDup l -> (forall p, In p l -> In p (h_live h)) -> NoDup (h_live h) -> exists h', free_all h (map Some l) = Ok h' /\ NoDup (h_live h') /\ h_next h' = h_next h /\ forall p, In p (h_live h') <-> In p (h_live h) /\ ~ In p l.
Proof.
  intros l. revert h. induction l as [|p l IH]; intros h ND IN NH; cbn [map free_all].
  - exists h. split; [reflexivity|]. split; [exact NH|]. split; [reflexivity|]. intros p. cbn. tauto.
  - inversion ND; subst. unfold free. destruct (in_dec Nat.eq_dec p (h_live h)) as [I|NI]; [|elim NI; apply IN; cbn; auto]. cbn [rbind].
    assert (RM : forall q, In q (remove Nat.eq_dec p (h_live h)) <-> In q (h_live h) /\ q <> p).
    { intros q. split; [intros Q; apply in_remove in Q; exact Q|]. intros [Q N]. now apply in_in_remove. }
    destruct (IH {| h_live := remove Nat.eq_dec p (h_live h); h_next := h_next h |}) as (h' & -> & ND' & EN & LV); auto.
    + cbn [h_live]. intros q Q. apply RM. split; [apply IN; cbn; auto|]. intros ->. contradiction.
    + cbn [h_live]. clear - NH. induction (h_live h) as [|a m IHm]; cbn; [constructor|]. inversion NH; subst. destruct (Nat.eq_dec p a); auto. constructor; auto. intros X. apply in_remove in X. tauto.
    + exists h'. split; [reflexivity|]. split; [exact ND'|]. split; [exact EN|]. intros q. rewrite LV. cbn [h_live]. rewrite RM. cbn [In]. split; [intros [[A B] C]; split; [exact A|]; intros [X|X]; [congruence|auto]|]. intros [A B]. split; [split; [exact A|]; intros ->; apply B; auto|]. intros X. apply B. auto.
Qed.

Lemma step_inv st w o : ainv st w -> allowed st o -> exists w', astep w o = Ok w' /\ ainv (status_step st o) w'.
Proof.
  intros V AL. destruct V as [VL VS VI VV VN VX VB VA]. destruct o as [|k size|t s|k|k]; cbn [astep allowed status_step] in *.
  - (* New *)
    set (n := h_next (w_heap w)). eexists. split; [reflexivity|].
    set (a := {| a_pools := Some n :: repeat None (INIT_POOLS_ALLOC - 1); a_pool := 0; a_poffs := 0; a_palloc := INIT_POOLS_ALLOC |}).
    assert (SL : forall k i p, slot (w_arenas w ++ [Some a]) k i p <-> slot (w_arenas w) k i p \/ (k = length (w_arenas w) /\ i = 0 /\ p = n)).
    { intros k i p. unfold slot. destruct (Nat.lt_trichotomy k (length (w_arenas w))) as [LT|[->|GT]].
      - rewrite nth_error_app1 by exact LT. split; [auto|]. intros [H|(E & _)]; [exact H|lia].
      - rewrite nth_error_app2, Nat.sub_diag by lia. assert (NN : nth_error (w_arenas w) (length (w_arenas w)) = None) by (apply nth_error_None; lia). rewrite NN. cbn [nth_error]. split.
        + intros (x & [= <-] & L & N). right. cbn in L. assert (i = 0) by lia. subst i. cbn in N. injection N as <-. auto.
        + intros [(x & X & _)|(_ & -> & ->)]; [discriminate|]. exists a. auto.
      - assert (NN : nth_error (w_arenas w) k = None) by (apply nth_error_None; lia). assert (NN' : nth_error (w_arenas w ++ [Some a]) k = None) by (apply nth_error_None; rewrite app_length; cbn; lia). rewrite NN, NN'. split; [intros (x & X & _); discriminate|]. intros [(x & X & _)|(E & _)]; [discriminate|lia]. }
    assert (FR : forall k i, ~ slot (w_arenas w) k i n). { intros k i S. assert (I : In n (h_live (w_heap w))) by (apply VV; eauto). apply VX in I. unfold n in I. lia. }
    constructor; cbn [w_arenas w_heap w_blocks h_live h_next].
    + rewrite !app_length. cbn. lia.
    + intros k s E. destruct (Nat.lt_trichotomy k (length st)) as [LT|[->|GT]].
      * rewrite nth_error_app1 in E by exact LT. rewrite nth_error_app1 by (rewrite <- VL; exact LT). apply VS. exact E.
      * rewrite nth_error_app2, Nat.sub_diag in E by lia. injection E as <-. rewrite VL, nth_error_app2, Nat.sub_diag by lia. exists a. split; [reflexivity|]. split; [apply Nat.ltb_lt; reflexivity|]. split; [apply Nat.ltb_lt; reflexivity|]. split; [apply Nat.le_0_l|]. split; [reflexivity|]. intros i I. cbn in I. assert (i = 0) by lia. subst. exists n. reflexivity.
      * assert (X : nth_error (st ++ [Open]) k = None) by (apply nth_error_None; rewrite app_length; cbn; lia). congruence.
    + intros k k' i i' p H1 H2. apply SL in H1, H2. destruct H1 as [H1|(-> & -> & ->)], H2 as [H2|(-> & -> & E)]; auto; [eapply VI; eauto| |]; exfalso; [subst p|]; eapply FR; eauto.
    + intros p. cbn [In]. rewrite VV. split.
      * intros [<-|(k & i & S)]; [exists (length (w_arenas w)), 0; apply SL; auto|exists k, i; apply SL; auto].
      * intros (k & i & S). apply SL in S. destruct S as [S|(_ & _ & ->)]; eauto.
    + constructor; [|exact VN]. intros I. apply VX in I. lia.
    + intros p [<-|I]; [lia|]. apply VX in I. lia.
    + intros b IB. destruct (VB b IB) as (P1 & P2 & x & i & E & R). split; [exact P1|]. split; [exact P2|]. exists x, i. split; [|exact R]. rewrite nth_error_app1; [exact E|]. apply nth_error_Some. congruence.
    + exact VA.
  - (* Malloc *)
    destruct AL as [EO HS]. destruct (VS k Open EO) as (a & EA & GL & GP & GO & GC & GI). specialize (GC eq_refl). rewrite (arena_at w k a EA). cbn [rbind]. unfold lta_malloc, xcalloc. cbv beta iota zeta.
    assert (RA : (Nat.ltb 0 size && Nat.leb size MAX_OBJ)%bool = true) by (apply andb_true_iff; split; [apply Nat.ltb_lt|apply Nat.leb_le]; unfold MAX_OBJ; lia). rewrite RA. cbn [rassert].
    destruct (Nat.ltb_spec POOL_SIZE (a_poffs a + size)) as [SW|NS].
    + (* a new pool *)
      set (palloc := if Nat.eqb (S (a_pool a)) (a_palloc a) then 2 * a_palloc a else a_palloc a). set (pools := if Nat.eqb (S (a_pool a)) (a_palloc a) then realloc (a_pools a) palloc else a_pools a).
      set (n := h_next (w_heap w)).
      assert (LP : length pools = palloc /\ S (a_pool a) < palloc /\ forall i, i <= a_pool a -> nth_error pools i = nth_error (a_pools a) i).
      { unfold pools, palloc. destruct (Nat.eqb_spec (S (a_pool a)) (a_palloc a)) as [E|E].
        - rewrite realloc_length. split; [reflexivity|]. split; [lia|]. intros i I. apply anth_realloc; lia.
        - split; [exact GC|]. split; [lia|]. reflexivity. }
      destruct LP as (LP & LT & NP). clearbody pools palloc.
      assert (W : exists pools', wr pools (S (a_pool a)) [Some n] = Ok pools') by (unfold wr; destruct (Nat.leb_spec (S (a_pool a) + length [Some n]) (length pools)); [eauto|cbn in *; lia]). destruct W as (pools' & EW). rewrite EW. cbn [rbind a_pools a_pool].
      pose proof (wr_length _ _ _ _ EW) as LW. pose proof (anth_wr _ _ _ _ EW) as NW. cbn [length] in NW.
      assert (N1 : nth_error pools' (S (a_pool a)) = Some (Some n)) by (rewrite NW; destruct (Nat.ltb_spec (S (a_pool a)) (S (a_pool a))); [lia|]; destruct (Nat.ltb_spec (S (a_pool a)) (S (a_pool a) + 1)); [|lia]; now rewrite Nat.sub_diag).
      assert (N2 : forall i, i <= a_pool a -> nth_error pools' i = nth_error (a_pools a) i) by (intros i I; rewrite NW; destruct (Nat.ltb_spec i (S (a_pool a))); [|lia]; now apply NP).
      unfold rd at 1. rewrite N1. cbn [rbind a_poffs a_palloc]. eexists. split; [reflexivity|]. set (a' := {| a_pools := pools'; a_pool := S (a_pool a); a_poffs := 0 + size; a_palloc := palloc |}).
      assert (SL : forall j i p, slot (upd (w_arenas w) k (Some a')) j i p <-> slot (w_arenas w) j i p \/ (j = k /\ i = S (a_pool a) /\ p = n)).
      { intros j i p. unfold slot. rewrite anth_upd, EA. destruct (Nat.eqb_spec j k) as [->|NE].
        - rewrite EA. split.
          + intros (x & [= <-] & L & N). cbn [a' a_pool a_pools] in L, N. destruct (Nat.eq_dec i (S (a_pool a))) as [->|NI]; [right; rewrite N1 in N; injection N as <-; auto|]. left. exists a. rewrite N2 in N by lia. split; [reflexivity|]. split; [lia|exact N].
          + intros [(x & [= <-] & L & N)|(_ & -> & ->)]; exists a'; cbn [a' a_pool a_pools]; [rewrite N2 by lia; auto|auto].
        - split; [auto|]. intros [H|(-> & _)]; [exact H|congruence]. }
      assert (FR : forall j i, ~ slot (w_arenas w) j i n). { intros j i S. assert (I : In n (h_live (w_heap w))) by (apply VV; eauto). apply VX in I. unfold n in I. lia. }
      constructor; cbn [w_arenas w_heap w_blocks h_live h_next].
      * rewrite aupd_length. exact VL.
      * intros j s E. rewrite anth_upd, EA. destruct (Nat.eqb_spec j k) as [->|NE]; [|apply VS, E]. rewrite EO in E. injection E as <-. exists a'. split; [reflexivity|]. split; [cbn [a' a_pools a_pool]; lia|]. split; [cbn; lia|]. split; [cbn; unfold POOL_SIZE; lia|]. split; [intros _; cbn; lia|].
        intros i I. cbn [a' a_pools a_pool] in *. destruct (Nat.eq_dec i (S (a_pool a))) as [->|NI]; [eauto|]. rewrite N2 by lia. apply GI. lia.
      * intros j j' i i' p H1 H2. apply SL in H1, H2. destruct H1 as [H1|(-> & -> & ->)], H2 as [H2|(-> & -> & E)]; auto; [eapply VI; eauto| |]; exfalso; [subst p|]; eapply FR; eauto.
      * intros p. cbn [In]. rewrite VV. split.
        -- intros [<-|(j & i & S)]; [exists k, (S (a_pool a)); apply SL; auto|exists j, i; apply SL; auto].
        -- intros (j & i & S). apply SL in S. destruct S as [S|(_ & _ & ->)]; eauto.
      * constructor; [|exact VN]. intros I. apply VX in I. lia.
      * intros p [<-|I]; [lia|]. apply VX in I. lia.
      * intros b [<-|IB].
        -- cbn [b_size b_off b_arena b_pool]. split; [lia|]. split; [unfold POOL_SIZE; lia|]. exists a', (S (a_pool a)). rewrite anth_upd, EA, Nat.eqb_refl. split; [reflexivity|]. split; [cbn; lia|]. split; [exact N1|]. intros _. cbn. lia.
        -- destruct (VB b IB) as (P1 & P2 & x & i & E & L & N & C). split; [exact P1|]. split; [exact P2|]. destruct (Nat.eq_dec (b_arena b) k) as [EB|NB].
           ++ rewrite EB, EA in E. injection E as <-. exists a', i. rewrite EB, anth_upd, EA, Nat.eqb_refl. split; [reflexivity|]. cbn [a' a_pool a_pools]. split; [lia|]. rewrite N2 by lia. split; [exact N|]. intros ->. lia.
           ++ exists x, i. rewrite anth_upd. destruct (Nat.eqb_spec (b_arena b) k); [congruence|]. auto.
      * constructor; [|exact VA]. apply Forall_forall. intros b IB EP. cbn [b_pool] in EP. exfalso. destruct (VB b IB) as (_ & _ & x & i & E & L & N & _). apply (FR (b_arena b) i). exists x. rewrite EP. auto.
    + (* room in the current one *)
      cbn [rbind]. destruct (GI (a_pool a) ltac:(lia)) as (p & EP). unfold rd. rewrite EP. cbn [rbind]. eexists. split; [reflexivity|]. set (a' := {| a_pools := a_pools a; a_pool := a_pool a; a_poffs := a_poffs a + size; a_palloc := a_palloc a |}).
      assert (SL := slot_same (w_arenas w) k a a' EA eq_refl (fun i _ => eq_refl)).
      constructor; cbn [w_arenas w_heap w_blocks].
      * rewrite aupd_length. exact VL.
      * intros j s E. rewrite anth_upd, EA. destruct (Nat.eqb_spec j k) as [->|NE]; [|apply VS, E]. rewrite EO in E. injection E as <-. exists a'. split; [reflexivity|]. split; [exact GL|]. split; [exact GP|]. split; [cbn; lia|]. split; [intros _; exact GC|exact GI].
      * intros j j' i i' q H1 H2. apply SL in H1, H2. eapply VI; eauto.
      * intros q. rewrite VV. split; intros (j & i & S); exists j, i; apply SL; exact S.
      * exact VN.
      * exact VX.
      * intros b [<-|IB].
        -- cbn [b_size b_off b_arena b_pool]. split; [lia|]. split; [lia|]. exists a', (a_pool a). rewrite anth_upd, EA, Nat.eqb_refl. split; [reflexivity|]. split; [cbn; lia|]. split; [exact EP|]. intros _. cbn. lia.
        -- destruct (VB b IB) as (P1 & P2 & x & i & E & L & N & C). split; [exact P1|]. split; [exact P2|]. destruct (Nat.eq_dec (b_arena b) k) as [EB|NB].
           ++ rewrite EB, EA in E. injection E as <-. exists a', i. rewrite EB, anth_upd, EA, Nat.eqb_refl. split; [reflexivity|]. cbn [a' a_pool a_pools a_poffs]. split; [lia|]. split; [exact N|]. intros EI. specialize (C EI). lia.
           ++ exists x, i. rewrite anth_upd. destruct (Nat.eqb_spec (b_arena b) k); [congruence|]. auto.
      * constructor; [|exact VA]. apply Forall_forall. intros b IB E. cbn [b_pool b_off b_size] in *. right. destruct (VB b IB) as (_ & _ & x & i & EX & L & N & C).
        assert (S1 : slot (w_arenas w) (b_arena b) i p) by (exists x; rewrite E; auto). assert (S2 : slot (w_arenas w) k (a_pool a) p) by (exists a; auto).
        destruct (VI _ _ _ _ _ S1 S2) as [EK EI]. rewrite EK, EA in EX. injection EX as <-. auto.
  - (* Merge *)
    destruct AL as (NTS & ET & ES). destruct (VS t Open ET) as (a & EA & GL & GP & GO & GC & GI). destruct (VS s Open ES) as (b & EB & HL & HP & HO & HC & HI). specialize (GC eq_refl). specialize (HC eq_refl).
    rewrite (arena_at w t a EA), (arena_at w s b EB). cbn [rbind]. unfold lta_merge. cbv beta iota zeta. destruct (GI (a_pool a) ltac:(lia)) as (last & EL). unfold rd. rewrite EL. cbn [rbind].
    set (npc := a_pool b + 1 + a_pool a + 1). set (palloc := double (S npc) npc (a_palloc a)). set (pools := if Nat.leb (a_palloc a) npc then realloc (a_pools a) palloc else a_pools a).
    assert (LP : length pools = palloc /\ npc < palloc /\ forall i, i <= a_pool a -> nth_error pools i = nth_error (a_pools a) i).
    { destruct (double_ok npc (S npc) (a_palloc a) GP ltac:(lia)) as [D1 D2]. unfold pools. destruct (Nat.leb_spec (a_palloc a) npc) as [LE|GT].
      - rewrite realloc_length. split; [reflexivity|]. split; [exact D1|]. intros i I. apply anth_realloc; [lia|unfold palloc in *; lia].
      - split; [|split; [exact D1|reflexivity]]. unfold palloc. cbn [double]. destruct (Nat.leb_spec (a_palloc a) npc); [lia|]. exact GC. }
    destruct LP as (LP & LT & NP). clearbody pools palloc.
    rewrite rdn_ok by lia. cbn [rbind]. set (src := sub (a_pools b) 0 (a_pool b + 1)). assert (LS : length src = a_pool b + 1) by (unfold src, sub; cbn [skipn]; rewrite firstn_length; lia).
    assert (NS : forall i, i <= a_pool b -> nth_error src i = nth_error (a_pools b) i) by (intros i I; unfold src, sub; cbn [skipn]; rewrite anth_firstn; destruct (Nat.ltb_spec i (a_pool b + 1)); [reflexivity|lia]). clearbody src.
    assert (W : exists p1, wr pools (a_pool a) src = Ok p1) by (unfold wr; destruct (Nat.leb_spec (a_pool a + length src) (length pools)); [eauto|lia]). destruct W as (p1 & EW). rewrite EW. cbn [rbind]. pose proof (wr_length _ _ _ _ EW) as LW. pose proof (anth_wr _ _ _ _ EW) as NW.
    set (np := a_pool a + a_pool b + 1). assert (W : exists p2, wr p1 np [Some last] = Ok p2) by (unfold wr; destruct (Nat.leb_spec (np + length [Some last]) (length p1)); [eauto|cbn in *; lia]). destruct W as (p2 & EW2). rewrite EW2. cbn [rbind]. pose proof (wr_length _ _ _ _ EW2) as LW2. pose proof (anth_wr _ _ _ _ EW2) as NW2. cbn [length] in NW2.
    assert (X1 : forall i, i < a_pool a -> nth_error p2 i = nth_error (a_pools a) i).
    { intros i I. rewrite NW2. destruct (Nat.ltb_spec i np); [|lia]. rewrite NW. destruct (Nat.ltb_spec i (a_pool a)); [|lia]. apply NP. lia. }
    assert (X2 : forall i, i <= a_pool b -> nth_error p2 (a_pool a + i) = nth_error (a_pools b) i).
    { intros i I. rewrite NW2. destruct (Nat.ltb_spec (a_pool a + i) np); [|lia]. rewrite NW. destruct (Nat.ltb_spec (a_pool a + i) (a_pool a)); [lia|]. destruct (Nat.ltb_spec (a_pool a + i) (a_pool a + length src)); [|lia]. replace (a_pool a + i - a_pool a) with i by lia. now apply NS. }
    assert (X3 : nth_error p2 np = Some (Some last)).
    { rewrite NW2. destruct (Nat.ltb_spec np np); [lia|]. destruct (Nat.ltb_spec np (np + 1)); [|lia]. now rewrite Nat.sub_diag. }
    eexists. split; [reflexivity|]. set (a' := {| a_pools := p2; a_pool := np; a_poffs := a_poffs a; a_palloc := palloc |}).
    set (ar := upd (upd (w_arenas w) s None) t (Some a')).
    assert (AT : forall j, nth_error ar j = if Nat.eqb j t then Some (Some a') else if Nat.eqb j s then Some None else nth_error (w_arenas w) j).
    { intros j. unfold ar. rewrite !anth_upd. destruct (Nat.eqb_spec t s); [congruence|]. rewrite EA, EB. reflexivity. }
    (* where each slot goes *)
    set (from := fun j i => if Nat.eqb j t then if Nat.ltb i (a_pool a) then (t, i) else if Nat.eqb i np then (t, a_pool a) else (s, i - a_pool a) else (j, i)).
    assert (SL : forall j i p, slot ar j i p -> slot (w_arenas w) (fst (from j i)) (snd (from j i)) p /\ (j = t -> i <= np)).
    { intros j i p (x & EX & L & N). rewrite AT in EX. unfold from. destruct (Nat.eqb_spec j t) as [->|NT].
      - injection EX as <-. cbn [a' a_pool a_pools] in *. split; [|auto]. destruct (Nat.ltb_spec i (a_pool a)); cbn [fst snd]; [rewrite X1 in N by lia; exists a; split; [exact EA|split; [lia|exact N]]|].
        destruct (Nat.eqb_spec i np) as [->|NI]; cbn [fst snd]; [rewrite X3 in N; injection N as <-; exists a; auto|]. exists b. split; [exact EB|]. split; [lia|]. rewrite <- X2 by lia. replace (a_pool a + (i - a_pool a)) with i by lia. exact N.
      - split; [|congruence]. cbn [fst snd]. destruct (Nat.eqb_spec j s); [discriminate|]. exists x. auto. }
    assert (SR : forall j i p, slot (w_arenas w) j i p -> exists j' i', slot ar j' i' p).
    { intros j i p (x & EX & L & N). destruct (Nat.eq_dec j t) as [->|NT].
      - rewrite EA in EX. injection EX as <-. exists t. destruct (Nat.eq_dec i (a_pool a)) as [->|NI]; [exists np|exists i]; exists a'; rewrite AT, Nat.eqb_refl; (split; [reflexivity|]); cbn [a' a_pool a_pools]; [split; [lia|]; rewrite X3, <- EL; exact N|split; [lia|]; rewrite X1 by lia; exact N].
      - destruct (Nat.eq_dec j s) as [->|NS'].
        + rewrite EB in EX. injection EX as <-. exists t, (a_pool a + i), a'. rewrite AT, Nat.eqb_refl. split; [reflexivity|]. cbn [a' a_pool a_pools]. split; [lia|]. now rewrite X2.
        + exists j, i, x. rewrite AT. destruct (Nat.eqb_spec j t); [congruence|]. destruct (Nat.eqb_spec j s); [congruence|]. auto. }
    constructor; cbn [w_arenas w_heap w_blocks].
    + unfold ar. rewrite !aupd_length. exact VL.
    + intros j x E. rewrite anth_upd, ES in E. fold ar. rewrite AT. destruct (Nat.eqb_spec j s) as [->|NJ].
      * injection E as <-. destruct (Nat.eqb_spec s t); [congruence|reflexivity].
      * destruct (Nat.eqb_spec j t) as [->|NT]; [|apply VS, E]. rewrite ET in E. injection E as <-. exists a'. split; [reflexivity|]. split; [cbn [a' a_pool a_pools]; lia|]. split; [cbn [a' a_palloc]; lia|]. split; [exact GO|]. split; [cbn [a' a_pools a_palloc]; lia|].
        intros i I. cbn [a' a_pool a_pools] in *. destruct (Nat.lt_ge_cases i (a_pool a)); [rewrite X1 by lia; apply GI; lia|]. destruct (Nat.eq_dec i np) as [->|NI]; [eauto|]. replace i with (a_pool a + (i - a_pool a)) by lia. rewrite X2 by lia. apply HI. lia.
    + fold ar. intros j j' i i' p H1 H2. assert (H1' := H1). assert (H2' := H2). apply SL in H1, H2. destruct H1 as [H1 B1], H2 as [H2 B2]. destruct (VI _ _ _ _ _ H1 H2) as [E1 E2]. revert E1 E2. unfold from.
      assert (NSL : forall j i p, slot ar j i p -> j <> s) by (intros j0 i0 p0 (x & EX & _) ->; rewrite AT in EX; destruct (Nat.eqb_spec s t); [congruence|]; rewrite Nat.eqb_refl in EX; discriminate). apply NSL in H1', H2'.
      destruct (Nat.eqb_spec j t) as [->|J1], (Nat.eqb_spec j' t) as [->|J2]; cbn [fst snd].
      * specialize (B1 eq_refl). specialize (B2 eq_refl). destruct (Nat.ltb_spec i (a_pool a)), (Nat.ltb_spec i' (a_pool a)); cbn [fst snd]; repeat (match goal with |- context [Nat.eqb ?x np] => destruct (Nat.eqb_spec x np) end; cbn [fst snd]); intros; try congruence; split; auto; lia.
      * destruct (Nat.ltb i (a_pool a)); cbn [fst snd]; [congruence|]. destruct (Nat.eqb i np); cbn [fst snd]; congruence.
      * destruct (Nat.ltb i' (a_pool a)); cbn [fst snd]; [congruence|]. destruct (Nat.eqb i' np); cbn [fst snd]; congruence.
      * auto.
    + fold ar. intros p. rewrite VV. split; intros (j & i & S); [eauto|]. apply SL in S. destruct S as [S _]. eauto.
    + exact VN.
    + exact VX.
    + fold ar. intros b0 IB. apply in_map_iff in IB. destruct IB as (b1 & <- & IB). destruct (VB b1 IB) as (P1 & P2 & x & i & E & L & N & C). destruct (Nat.eqb_spec (b_arena b1) s) as [EBS|NBS]; cbn [b_size b_off b_arena b_pool].
      * split; [exact P1|]. split; [exact P2|]. rewrite EBS, EB in E. injection E as <-. exists a', (a_pool a + i). rewrite AT, Nat.eqb_refl. split; [reflexivity|]. cbn [a' a_pool a_pools a_poffs]. split; [lia|]. rewrite X2 by lia. split; [exact N|]. lia.
      * split; [exact P1|]. split; [exact P2|]. destruct (Nat.eq_dec (b_arena b1) t) as [EBT|NBT].
        -- rewrite EBT, EA in E. injection E as <-. rewrite EBT. exists a'. destruct (Nat.eq_dec i (a_pool a)) as [->|NI]; [exists np|exists i]; rewrite AT, Nat.eqb_refl; (split; [reflexivity|]); cbn [a' a_pool a_pools a_poffs].
           ++ split; [lia|]. rewrite X3, <- EL. split; [exact N|]. intros _. apply C. reflexivity.
           ++ split; [lia|]. rewrite X1 by lia. split; [exact N|]. lia.
        -- exists x, i. rewrite AT. destruct (Nat.eqb_spec (b_arena b1) t); [congruence|]. destruct (Nat.eqb_spec (b_arena b1) s); [congruence|]. auto.
    + apply fop_map; [|exact VA]. intros x y R. unfold apart in *. destruct (Nat.eqb (b_arena x) s), (Nat.eqb (b_arena y) s); exact R.
  - (* Close *)
    assert (EX : exists s, nth_error st k = Some s /\ s <> Gone) by (destruct AL as [E|E]; eexists; split; try exact E; discriminate). destruct EX as (s & ES & NG).
    assert (HA : exists a, nth_error (w_arenas w) k = Some (Some a) /\ good_arena s a) by (specialize (VS k s ES); destruct s; [exact VS|exact VS|congruence]). destruct HA as (a & EA & GL & GP & GO & GC & GI).
    rewrite (arena_at w k a EA). cbn [rbind]. eexists. split; [reflexivity|].
    assert (SL := slot_same (w_arenas w) k a (lta_close a) EA eq_refl (fun i I => anth_realloc (a_pools a) (a_pool a + 1) i ltac:(lia) ltac:(lia))).
    constructor; cbn [w_arenas w_heap w_blocks].
    + rewrite !aupd_length. exact VL.
    + intros j x E. rewrite anth_upd in E. rewrite anth_upd. rewrite ES in E. rewrite EA. destruct (Nat.eqb_spec j k) as [->|NE]; [|apply VS, E]. injection E as <-. exists (lta_close a). split; [reflexivity|].
      split; [cbn [lta_close a_pools a_pool]; rewrite realloc_length; lia|]. split; [exact GP|]. split; [exact GO|]. split; [discriminate|]. intros i I. cbn [lta_close a_pools a_pool] in *. rewrite anth_realloc by lia. apply GI. exact I.
    + intros j j' i i' q H1 H2. apply SL in H1, H2. eapply VI; eauto.
    + intros q. rewrite VV. split; intros (j & i & S); exists j, i; apply SL; exact S.
    + exact VN.
    + exact VX.
    + intros b IB. destruct (VB b IB) as (P1 & P2 & x & i & E & L & N & C). split; [exact P1|]. split; [exact P2|]. destruct (Nat.eq_dec (b_arena b) k) as [EB|NB].
      * rewrite EB, EA in E. injection E as <-. exists (lta_close a), i. rewrite EB, anth_upd, EA, Nat.eqb_refl. split; [reflexivity|]. cbn [lta_close a_pool a_pools a_poffs]. split; [lia|]. rewrite anth_realloc by lia. auto.
      * exists x, i. rewrite anth_upd. destruct (Nat.eqb_spec (b_arena b) k); [congruence|]. auto.
    + exact VA.
  - (* Destroy *)
    assert (EX : exists s, nth_error st k = Some s /\ s <> Gone) by (destruct AL as [E|E]; eexists; split; try exact E; discriminate). destruct EX as (s & ES & NG).
    assert (HA : exists a, nth_error (w_arenas w) k = Some (Some a) /\ good_arena s a) by (specialize (VS k s ES); destruct s; [exact VS|exact VS|congruence]). destruct HA as (a & EA & GL & GP & GO & GC & GI).
    rewrite (arena_at w k a EA). cbn [rbind]. unfold lta_destroy. rewrite rdn_ok by lia. cbn [rbind].
    assert (OWN : exists own, sub (a_pools a) 0 (a_pool a + 1) = map Some own /\ NoDup own /\ forall p, In p own <-> exists i, slot (w_arenas w) k i p).
    { unfold sub. cbn [skipn]. assert (G : forall n, n <= a_pool a + 1 -> exists own, firstn n (a_pools a) = map Some own /\ NoDup own /\ forall p, In p own <-> exists i, i < n /\ nth_error (a_pools a) i = Some (Some p)).
      { induction n as [|n IH]; intros LE; [exists []; cbn; split; [reflexivity|]; split; [constructor|]; intros p; split; [intros []|intros (i & I & _); lia]|]. destruct (IH ltac:(lia)) as (own & E & ND & IN). destruct (GI n ltac:(lia)) as (p & EP). exists (own ++ [p]).
        assert (EF : firstn (S n) (a_pools a) = firstn n (a_pools a) ++ [Some p]).
        { clear - EP. revert EP. generalize (a_pools a). induction n as [|n IH]; intros [|x l] EP; try discriminate; cbn in *; [congruence|]. f_equal. now apply IH. }
        rewrite EF, E, map_app. split; [reflexivity|]. split.
        - apply NoDup_rev in ND. rewrite <- (rev_involutive (own ++ [p])). apply NoDup_rev. rewrite rev_app_distr. cbn. constructor; [|exact ND]. rewrite <- in_rev. intros I. apply IN in I. destruct I as (i & LI & NI).
          destruct (VI k k i n p) as [_ EI]; [exists a; split; [exact EA|split; [lia|exact NI]]|exists a; split; [exact EA|split; [lia|exact EP]]|lia].
        - intros q. rewrite in_app_iff, IN. cbn [In]. split.
          + intros [(i & LI & NI)|[<-|[]]]; [exists i; split; [lia|exact NI]|exists n; split; [lia|exact EP]].
          + intros (i & LI & NI). destruct (Nat.eq_dec i n) as [->|NE]; [right; left; congruence|]. left. exists i. split; [lia|exact NI]. }
      destruct (G (a_pool a + 1) ltac:(lia)) as (own & E & ND & IN). exists own. split; [exact E|]. split; [exact ND|]. intros p. rewrite IN. split.
      - intros (i & LI & NI). exists i, a. split; [exact EA|]. split; [lia|exact NI].
      - intros (i & x & EX & LI & NI). rewrite EA in EX. injection EX as <-. exists i. split; [lia|exact NI]. }
    destruct OWN as (own & -> & NDO & INO). rewrite <- map_rev.
    destruct (free_all_ok (w_heap w) (rev own)) as (h' & -> & NH & EN & LV).
    { now apply NoDup_rev. } { intros p I. apply in_rev, INO in I. destruct I as (i & I). apply VV. eauto. } { exact VN. }
    cbn [rbind]. eexists. split; [reflexivity|].
    assert (SL : forall j i p, slot (upd (w_arenas w) k None) j i p <-> slot (w_arenas w) j i p /\ j <> k).
    { intros j i p. unfold slot. rewrite anth_upd, EA. destruct (Nat.eqb_spec j k) as [->|NE]; [split; [intros (x & X & _); discriminate|tauto]|tauto]. }
    constructor; cbn [w_arenas w_heap w_blocks].
    + rewrite !aupd_length. exact VL.
    + intros j x E. rewrite anth_upd in E. rewrite anth_upd. rewrite ES in E. rewrite EA. destruct (Nat.eqb_spec j k) as [->|NE]; [|apply VS, E]. injection E as <-. reflexivity.
    + intros j j' i i' q H1 H2. apply SL in H1, H2. eapply VI; [apply H1|apply H2].
    + intros p. rewrite LV, VV, <- in_rev, INO. split.
      * intros ((j & i & S) & N). exists j, i. apply SL. split; [exact S|]. intros ->. apply N. eauto.
      * intros (j & i & S). apply SL in S. destruct S as [S NK]. split; [eauto|]. intros (i' & S'). destruct (VI _ _ _ _ _ S S'). congruence.
    + exact NH.
    + intros p I. rewrite EN. apply VX. apply LV, I.
    + intros b IB. apply filter_In in IB. destruct IB as [IB NB]. destruct (Nat.eqb_spec (b_arena b) k) as [|NE]; [discriminate|]. destruct (VB b IB) as (P1 & P2 & x & i & E & R). split; [exact P1|]. split; [exact P2|]. exists x, i. split; [|exact R]. rewrite anth_upd. destruct (Nat.eqb_spec (b_arena b) k); [congruence|exact E].
    + apply fop_filter, VA.
Qed.

Lemma run_inv : forall ops st w, ainv st w -> obeys st ops -> exists w', arun w ops = Ok w' /\ ainv (fold_left status_step ops st) w'.
Proof.
  induction ops as [|o ops IH]; intros st w V OB; cbn [arun fold_left]; [eauto|]. destruct OB as [AL OB]. destruct (step_inv st w o V AL) as (w1 & -> & V1). cbn [rbind]. now apply IH.
Qed.

Lemma run_held : forall ops w w', arun w ops = Ok w' -> map (fun b => (b_arena b, b_size b)) (w_blocks w') = fold_left held_step ops (map (fun b => (b_arena b, b_size b)) (w_blocks w)).
Proof.
  induction ops as [|o ops IH]; intros w w'; cbn [arun fold_left]; [intros [= ->]; reflexivity|]. destruct (astep w o) as [w1|] eqn:E; cbn [rbind]; [|discriminate]. intros R. rewrite (IH _ _ R). f_equal. clear IH R.
  destruct o as [|k size|t s|k|k]; cbn [astep held_step] in *.
  - injection E as <-. reflexivity.
  - destruct (arena_of w k) as [a|]; cbn [rbind] in E; [|discriminate]. destruct (lta_malloc (w_heap w) a size) as [[[[p off] a'] h']|]; cbn [rbind] in E; [|discriminate]. injection E as <-. reflexivity.
  - destruct (arena_of w t) as [a|]; cbn [rbind] in E; [|discriminate]. destruct (arena_of w s) as [b|]; cbn [rbind] in E; [|discriminate]. destruct (lta_merge a b) as [c|]; cbn [rbind] in E; [|discriminate]. injection E as <-. cbn [w_blocks]. rewrite !map_map. apply map_ext. intros x. cbn [fst snd]. now destruct (Nat.eqb (b_arena x) s).
  - destruct (arena_of w k) as [a|]; cbn [rbind] in E; [|discriminate]. injection E as <-. reflexivity.
  - destruct (arena_of w k) as [a|]; cbn [rbind] in E; [|discriminate]. destruct (lta_destroy (w_heap w) a) as [h|]; cbn [rbind] in E; [|discriminate]. injection E as <-. cbn [w_blocks]. induction (w_blocks w) as [|b l IH]; [reflexivity|]. cbn. destruct (Nat.eqb (b_arena b) k); cbn; [exact IH|]. now rewrite IH.
Qed.
