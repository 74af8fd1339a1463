From Coq Require Import Permutation Sorted.
From Verif Require Import Base MonModel MonSpec MonProofs MonRun FileModel FileSpec.

(** ** strcmp *)
Lemma strcmp_refl a : strcmp a a = Eq.
Proof. induction a; cbn; auto. now rewrite N.compare_refl. Qed.
Lemma strcmp_eq a : forall b, strcmp a b = Eq -> a = b.
Proof.
  induction a as [|x a IH]; intros [|y b]; cbn; try discriminate; auto.
  destruct (N.compare_spec x y); try discriminate. intros H0. subst. f_equal. auto.
Qed.
Lemma strcmp_anti a : forall b, strcmp b a = CompOpp (strcmp a b).
Proof.
  induction a as [|x a IH]; intros [|y b]; cbn; auto.
  rewrite (N.compare_antisym x y). destruct (N.compare x y); cbn; auto.
Qed.
Lemma strcmp_trans a : forall b c, strcmp a b = Lt -> strcmp b c = Lt -> strcmp a c = Lt.
Proof.
  induction a as [|x a IH]; intros [|y b] [|z c]; cbn; try discriminate; auto.
  destruct (N.compare_spec x y) as [->|H|H]; try discriminate.
  - destruct (N.compare_spec y z); try discriminate; eauto.
  - intros _. destruct (N.compare_spec y z) as [->|H2|H2]; try discriminate; intros _.
    + destruct (N.compare_spec x z); auto; lia.
    + destruct (N.compare_spec x z); auto; lia.
Qed.

Definition lt_mon (x y : fmon) : Prop := strcmp (f_name x) (f_name y) = Lt.

Lemma insert_perm x l : Permutation (insert x l) (x :: l).
Proof.
  induction l as [|y l IH]; cbn; auto. destruct (moncmp x y); auto.
  rewrite IH. apply perm_swap.
Qed.
Lemma qsort_perm l : Permutation (qsort l) l.
Proof. induction l as [|x l IH]; cbn; auto. rewrite insert_perm. now constructor. Qed.

Lemma insert_sorted x l : StronglySorted lt_mon l -> ~ In (f_name x) (map f_name l) ->
  StronglySorted lt_mon (insert x l).
Proof.
  induction l as [|y l IH]; cbn; intros Hs Hn.
  - repeat constructor.
  - assert (Hs0 := Hs). apply StronglySorted_inv in Hs as [Hs Hy]. unfold moncmp.
    destruct (strcmp (f_name x) (f_name y)) eqn:E.
    + apply strcmp_eq in E. exfalso. apply Hn. now left.
    + constructor; auto. constructor; auto.
      eapply Forall_impl; [|exact Hy]. intros z Hz. eapply strcmp_trans; eauto.
    + constructor; [apply IH; auto|].
      eapply Permutation_Forall; [symmetry; apply insert_perm|]. constructor; auto.
      unfold lt_mon. rewrite strcmp_anti, E. reflexivity.
Qed.
Lemma qsort_sorted l : NoDup (map f_name l) -> StronglySorted lt_mon (qsort l).
Proof.
  induction l as [|x l IH]; cbn; intros H; [constructor|].
  inversion H as [|? ? Hn Hd]; subst. apply insert_sorted; auto.
  intros Hi. apply Hn. eapply Permutation_in; [|exact Hi]. apply Permutation_map, qsort_perm.
Qed.

Lemma sorted_nth l : StronglySorted lt_mon l -> forall i j x y, i < j ->
  nth_error l i = Some x -> nth_error l j = Some y -> lt_mon x y.
Proof.
  induction 1 as [|z l Hs IH Hz]; intros i j x y Hij Hx Hy; [now destruct i|].
  destruct j as [|j]; [lia|]. destruct i as [|i]; cbn in *.
  - injection Hx as <-. rewrite Forall_forall in Hz. apply Hz. eapply nth_error_In; eauto.
  - eapply (IH i j); [lia|eauto|eauto].
Qed.

Lemma bsearch_ok l key : StronglySorted lt_mon l ->
  forall fuel lo hi, hi <= length l -> hi - lo < fuel ->
  exists r, bsearch fuel l key lo hi = Ok r /\
    match r with
    | Some i => exists x, nth_error l i = Some x /\ f_name x = key
    | None => forall i x, lo <= i < hi -> nth_error l i = Some x -> f_name x <> key
    end.
Proof.
  intros Hs. induction fuel as [|fuel IH]; intros lo hi Hh Hf; [lia|].
  cbn [bsearch]. destruct (lo <? hi) eqn:E.
  - apply Nat.ltb_lt in E. set (mid := (lo + hi) / 2).
    assert (Hm : lo <= mid < hi).
    { subst mid. split; [apply Nat.div_le_lower_bound; lia|apply Nat.div_lt_upper_bound; lia]. }
    destruct (nth_error l mid) as [x|] eqn:Ex; [|apply nth_error_None in Ex; lia].
    assert (Er0 : rd l mid = Ok x) by (unfold rd; now rewrite Ex). rewrite Er0. cbn [rbind].
    destruct (strcmp key (f_name x)) eqn:Ec.
    + apply strcmp_eq in Ec. exists (Some mid). split; auto. exists x. auto.
    + destruct (IH lo mid) as (r & Er & Hr); [lia|lia|]. exists r. split; auto.
      destruct r; auto. intros i y Hi Hy He. destruct (lt_dec i mid) as [Hlt|Hge].
      * eapply Hr; eauto. lia.
      * subst key. destruct (Nat.eq_dec i mid) as [->|Hne].
        -- rewrite Ex in Hy. injection Hy as <-. rewrite strcmp_refl in Ec. discriminate.
        -- assert (Hl : lt_mon x y) by (eapply sorted_nth; [exact Hs| |exact Ex|exact Hy]; lia).
           unfold lt_mon in Hl. rewrite strcmp_anti, Ec in Hl. discriminate.
    + destruct (IH (S mid) hi) as (r & Er & Hr); [lia|lia|]. exists r. split; auto.
      destruct r; auto. intros i y Hi Hy He. destruct (lt_dec mid i) as [Hlt|Hge].
      * eapply Hr; eauto. lia.
      * subst key. destruct (Nat.eq_dec i mid) as [->|Hne].
        -- rewrite Ex in Hy. injection Hy as <-. rewrite strcmp_refl in Ec. discriminate.
        -- assert (Hl : lt_mon y x) by (eapply sorted_nth; [exact Hs| |exact Hy|exact Ex]; lia).
           unfold lt_mon in Hl. rewrite Hl in Ec. discriminate.
  - apply Nat.ltb_ge in E. exists None. split; auto. intros; lia.
Qed.

(** ** Entries *)
Lemma w_ttl_lt w : (w_ttl w < 2 ^ 28)%N.
Proof. apply N.mod_lt. discriminate. Qed.
Lemma sttl_text_lt def s d t : (def < 2 ^ 28)%N -> sttl_text def s d t -> (t < 2 ^ 28)%N.
Proof. intros H. destruct 1; auto. Qed.

Lemma wr_upd {A} (l : list A) i x : i < length l -> wr l i [x] = Ok (upd l i x).
Proof. intros H. rewrite wr_ok by (cbn; lia). rewrite upd_split by exact H. cbn [length app]. now replace (i + 1) with (S i) by lia. Qed.

Lemma names_nth l : StronglySorted lt_mon l -> forall i j x y, nth_error l i = Some x -> nth_error l j = Some y ->
  f_name x = f_name y -> i = j.
Proof.
  intros Hs i j x y Hx Hy E. destruct (lt_eq_lt_dec i j) as [[H|H]|H]; auto.
  - assert (L := sorted_nth l Hs i j x y H Hx Hy). unfold lt_mon in L. rewrite E, strcmp_refl in L. discriminate.
  - assert (L := sorted_nth l Hs j i y x H Hy Hx). unfold lt_mon in L. rewrite E, strcmp_refl in L. discriminate.
Qed.

Section Read.
  Variable svc : fsvc.
  Hypothesis Hs : StronglySorted lt_mon (f_mons svc).
  Notation ttl := (w_ttl (f_def svc)).

  Lemma entry_ok k v results : length results = length (f_mons svc) ->
    exists r, process_entry svc k v results = Ok r /\
    match r with
    | None => ~ exists s d t, v = ASimple s /\ sttl_text ttl s d t
    | Some results' => length results' = length (f_mons svc) /\
        exists s d t, v = ASimple s /\ sttl_text ttl s d t /\
          forall i m, nth_error (f_mons svc) i = Some m ->
            (f_name m = k -> nth_error results' i = Some (word d false t)) /\
            (f_name m <> k -> nth_error results' i = nth_error results i)
    end.
  Proof.
    intros Hl. unfold process_entry. destruct v as [s|].
    2:{ exists None. split; auto. intros (s & d & t & E & _). discriminate. }
    rewrite land_mask. destruct (parse_exact s ttl (w_ttl_lt _)) as (r & E & Hr). rewrite E. cbn [rbind].
    destruct r as [w|].
    2:{ exists None. split; auto. intros (s' & d & t & E' & Ht). injection E' as <-.
        assert (X : None = Some (word d false t)) by (apply Hr; eauto). discriminate. }
    destruct (proj1 (Hr w) eq_refl) as (d & t & Ht & ->).
    destruct (bsearch_ok (f_mons svc) k Hs (S (length (f_mons svc))) 0 (length (f_mons svc))) as (b & Eb & Hb); [lia|lia|].
    rewrite Eb. cbn [rbind]. destruct b as [i|].
    - destruct Hb as (x & Hx & Ek). assert (Hi : i < length results) by (rewrite Hl; apply nth_error_Some; congruence).
      rewrite (wr_upd results i) by auto. cbn [rbind]. eexists. split; [reflexivity|].
      split; [rewrite upd_length; auto|]. exists s, d, t. split; [auto|]. split; [auto|].
      intros j m Hj. split; intros Hn.
      + assert (j = i) by (eapply names_nth; eauto; congruence). subst j. now apply nth_error_upd_eq.
      + apply nth_error_upd_neq. intros ->. congruence.
    - eexists. split; [reflexivity|]. split; [auto|]. exists s, d, t. split; [auto|]. split; [auto|].
      intros j m Hj. split; auto. intros Hn. exfalso. eapply Hb; eauto. split; [lia|]. apply nth_error_Some. congruence.
  Qed.

  Lemma entries_ok es : forall results, length results = length (f_mons svc) ->
    exists r, process_entries svc es results = Ok r /\
    match r with
    | None => ~ file_fine ttl es
    | Some results' => file_fine ttl es /\ length results' = length (f_mons svc) /\
        forall i m, nth_error (f_mons svc) i = Some m ->
          (exists s d t, In (f_name m, ASimple s) es /\ sttl_text ttl s d t /\ nth_error results' i = Some (word d false t)) \/
          (~ In (f_name m) (map fst es) /\ nth_error results' i = nth_error results i)
    end.
  Proof.
    induction es as [|[k v] es IH]; intros results Hl.
    - exists (Some results). split; [reflexivity|]. split; [intros k v []|]. split; auto. 
    - cbn [process_entries]. destruct (entry_ok k v results Hl) as (r & E & Hr). rewrite E. cbn [rbind].
      destruct r as [results1|].
      2:{ exists None. split; auto. intros Hf. apply Hr. apply (Hf k v). now left. }
      destruct Hr as (Hl1 & s & d & t & -> & Ht & Hv).
      destruct (IH results1 Hl1) as (r & E2 & Hr2). exists r. split; auto. destruct r as [results'|].
      2:{ intros Hf. apply Hr2. intros k' v' Hi. apply (Hf k' v'). now right. }
      destruct Hr2 as (Hf & Hl2 & Hn). split; [|split; [auto|]].
      + intros k' v' [Hi|Hi]; [|eauto]. injection Hi as <- <-. eauto.
      + intros i m Hm. destruct (Hn i m Hm) as [(s' & d' & t' & Hi & Ht' & En)|(Hi & En)].
        * left. exists s', d', t'. split; [now right|auto].
        * destruct (Hv i m Hm) as [V1 V2]. destruct (list_eq_dec N.eq_dec (f_name m) k) as [Ek|Ek].
          -- left. exists s, d, t. split; [left; congruence|]. split; auto. rewrite En. auto.
          -- right. split; [|rewrite En; auto]. cbn. intros [H|H]; [congruence|auto].
  Qed.
End Read.

Lemma Forall2_len {A B} (R : A -> B -> Prop) l l' : Forall2 R l l' -> length l = length l'.
Proof. induction 1; cbn; auto. Qed.

(** ** The flag *)
Lemma plain_word w : plain w -> w = word (w_down w) false (w_ttl w).
Proof. intros [L F]. rewrite (word_split w L) at 1. now rewrite F. Qed.
Lemma word_plain d t : (t < 2 ^ 28)%N -> plain (word d false t).
Proof. intros H. destruct (word_parts d false t H) as (A & _ & B & _). split; auto. Qed.
Lemma flag_def w : plain w -> N.lor w STTL_FORCED = word (w_down w) true (w_ttl w).
Proof.
  intros H. rewrite (plain_word w H) at 1. rewrite !word_lor by apply w_ttl_lt.
  rewrite <- N.lor_assoc, (N.lor_comm (w_ttl w)), N.lor_assoc.
  f_equal. destruct (w_down w); reflexivity.
Qed.
Lemma unflag_def w : plain w -> N.ldiff (N.lor w STTL_FORCED) STTL_FORCED = w.
Proof.
  intros H. apply N.bits_inj. intros n. rewrite N.ldiff_spec, N.lor_spec.
  change STTL_FORCED with (2 ^ 30)%N. rewrite N.pow2_bits_eqb.
  destruct (30 =? n)%N eqn:E; cbn.
  - apply N.eqb_eq in E. subst n. rewrite andb_false_r. symmetry. destruct H as [_ F]. unfold w_forced in F.
    rewrite <- N.bit0_odd in F. change 30%N with (0 + 30)%N. rewrite <- N.div_pow2_bits. exact F.
  - now rewrite orb_false_r, andb_true_r.
Qed.
Lemma clear_ok def l : plain def ->
  Forall (fun r => plain r \/ r = N.lor def STTL_FORCED) l ->
  exists l', clear_flags def l = Ok l' /\
    Forall2 (fun r r' => (plain r -> r' = r) /\ (r = N.lor def STTL_FORCED -> r' = def)) l l'.
Proof.
  intros Hd. induction 1 as [|r l Hr Hl (l' & E & IH)].
  - exists []. split; [reflexivity|constructor].
  - cbn [clear_flags]. rewrite E.
    assert (Hf : has (N.lor def STTL_FORCED) STTL_FORCED = true).
    { rewrite has_forced, (flag_def def Hd). apply (word_parts _ true _ (w_ttl_lt def)). }
    destruct Hr as [Hr| ->].
    + assert (F : has r STTL_FORCED = false) by (rewrite has_forced; apply Hr).
      rewrite F. cbn [rbind]. eexists. split; [reflexivity|]. constructor; auto. split; auto.
      intros ->. congruence.
    + rewrite Hf. rewrite (unflag_def def Hd), N.eqb_refl. cbn [rassert rbind].
      eexists. split; [reflexivity|]. constructor; auto. split; auto.
      intros [_ F]. rewrite <- has_forced in F. congruence.
Qed.

Lemma process_ok svc es : StronglySorted lt_mon (f_mons svc) -> plain (f_def svc) ->
  (file_fine (w_ttl (f_def svc)) es ->
   exists ws, process_file svc (AHash es) = Ok (map (fun x => told (f_direct svc) (fst x) (snd x)) (combine (f_mons svc) ws)) /\
     Forall2 (fun m w => says es (f_def svc) (f_name m) w /\ plain w) (f_mons svc) ws) /\
  (~ file_fine (w_ttl (f_def svc)) es -> process_file svc (AHash es) = Ok []).
Proof.
  intros Hs Hd. unfold process_file. destruct (length (f_mons svc) =? 0) eqn:E0.
  { apply Nat.eqb_eq in E0. destruct (f_mons svc); [|discriminate]. split; auto.
    exists []. split; [reflexivity|constructor]. }
  set (n := length (f_mons svc)). set (r0 := repeat _ n).
  assert (L0 : length r0 = n) by apply repeat_length.
  destruct (entries_ok svc Hs es r0 L0) as (r & E & Hr). rewrite E. cbn [rbind]. destruct r as [rs|].
  2:{ split; auto. intros; contradiction. }
  destruct Hr as (Hf & Hl & Hn). split; [intros _|intros X; contradiction].
  assert (N0 : forall i, i < n -> nth_error r0 i = Some (N.lor (f_def svc) STTL_FORCED)).
  { intros i Hi. subst r0. now apply nth_error_repeat. }
  destruct (clear_ok (f_def svc) rs Hd) as (ws & Ec & Hc).
  { apply Forall_forall. intros w Hw. apply In_nth_error in Hw as [i Hi].
    assert (Hin : i < n) by (unfold n; rewrite <- Hl; apply nth_error_Some; congruence).
    destruct (nth_error (f_mons svc) i) as [m|] eqn:Em; [|apply nth_error_None in Em; unfold n in Hin; lia].
    destruct (Hn i m Em) as [(s & d & t & _ & Ht & En)|(_ & En)].
    - left. rewrite Hi in En. injection En as ->. apply word_plain. eapply sttl_text_lt; [|exact Ht]. apply w_ttl_lt.
    - right. rewrite Hi, (N0 i Hin) in En. now injection En as ->. }
  rewrite Ec. cbn [rbind]. exists ws. split.
  - f_equal. apply map_ext. intros [m w]. unfold told. cbn [fst snd]. now rewrite has_down.
  - assert (Hlw : length ws = n) by (unfold n; rewrite <- Hl; symmetry; apply (Forall2_len _ _ _ Hc)).
    clear E Ec E0. 
    assert (G : forall i m w, nth_error (f_mons svc) i = Some m -> nth_error ws i = Some w -> says es (f_def svc) (f_name m) w /\ plain w).
    { intros i m w Em Ew.
      assert (Hin : i < n) by (unfold n; apply nth_error_Some; congruence).
      assert (Hc' : forall r, nth_error rs i = Some r -> (plain r -> w = r) /\ (r = N.lor (f_def svc) STTL_FORCED -> w = f_def svc)).
      { clear -Hc Ew. revert i Ew. induction Hc as [|a b la lb H _ IH]; intros [|i] Ew r Er; try discriminate; cbn in *.
        - injection Er as <-. injection Ew as <-. auto.
        - eapply IH; eauto. }
      destruct (Hn i m Em) as [(s & d & t & Hi & Ht & En)|(Hi & En)].
      - assert (P : plain (word d false t)) by (apply word_plain; eapply sttl_text_lt; [|exact Ht]; apply w_ttl_lt).
        rewrite (proj1 (Hc' _ En) P). split; auto. econstructor; eauto.
      - rewrite (N0 i Hin) in En. rewrite (proj2 (Hc' _ En) eq_refl). split; auto. now constructor. }
    clear -G Hlw. subst n. revert ws Hlw G. induction (f_mons svc) as [|m l IH]; intros [|w ws] Hl G; try discriminate; constructor.
    + apply (G 0); reflexivity.
    + apply IH; [cbn in Hl; lia|]. intros i. apply (G (S i)).
Qed.
