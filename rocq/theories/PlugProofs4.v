(** Both families together; simplefo. *)
From Verif Require Import Base MonModel MonSpec MonProofs PlugModel PlugSpec PlugProofs PlugProofs2.
Local Open Scope N_scope.
Ltac Zify.zify_post_hook ::= idtac.

Lemma both_ok {S} (f : S -> dres -> bool -> res (N * dres)) (P : bool -> S -> Prop) R v4 v6 :
  (forall v s r, P v s -> x_cname r = None -> fam v r = [] -> exists d fo t l, t < 2 ^ 28 /\ R v s d fo t l /\ f s r v = Ok (word d fo t, with_fam v r l)) ->
  for_both P v4 v6 -> exists w r, both f v4 v6 dres0 = Ok (w, r) /\ two_families R v4 v6 w r.
Proof.
  intros HF (NE & H4 & H6). unfold both, two_families. destruct v4 as [s4|].
  - destruct (HF false s4 dres0 (H4 _ eq_refl) eq_refl eq_refl) as (d4 & f4 & t4 & l4 & T4 & R4 & ->). cbn [rbind]. destruct v6 as [s6|].
    + destruct (HF true s6 (with_fam false dres0 l4) (H6 _ eq_refl) eq_refl eq_refl) as (d6 & f6 & t6 & l6 & T6 & R6 & ->). cbn [rbind]. rewrite min2_words by auto.
      rewrite valid_word by lia. cbn [rassert]. do 2 eexists. split; [reflexivity|]. split; [reflexivity|]. split; [reflexivity|]. exists d4, f4, t4, d6, f6, t6. auto.
    + cbn [rbind]. rewrite valid_word by auto. cbn [rassert]. do 2 eexists. split; [reflexivity|]. split; [reflexivity|]. split; [reflexivity|]. exists d4, f4, t4. auto.
  - destruct v6 as [s6|]; [|destruct NE; congruence].
    destruct (HF true s6 dres0 (H6 _ eq_refl) eq_refl eq_refl) as (d6 & f6 & t6 & l6 & T6 & R6 & ->). cbn [rbind]. rewrite valid_word by auto.
    cbn [rassert]. do 2 eexists. split; [reflexivity|]. split; [reflexivity|]. split; [reflexivity|]. exists d6, f6, t6. auto.
Qed.

Lemma multifo_ok lim4 lim6 tbl v4 v6 : for_both (m_ok lim4 lim6 tbl) v4 v6 ->
  exists w r, multifo_resolve lim4 lim6 tbl v4 v6 dres0 = Ok (w, r) /\ two_families (m_says tbl) v4 v6 w r.
Proof.
  apply both_ok. intros v s r H C F. rewrite (m_resolve_eq lim4 lim6 tbl v s r H C F). cbv zeta. do 4 eexists. split; [|split; [|reflexivity]]; [apply least_lt|].
  unfold m_says, m_enough. auto.
Qed.

Lemma mask_word d f t : t < 2 ^ 28 -> N.land (word d f t) STTL_TTL_MASK = t.
Proof. intros H. rewrite land_mask. now destruct (word_parts d f t H) as (_ & _ & _ & ->). Qed.
Lemma word_bare t : t = word false false t.
Proof. unfold word. cbn. lia. Qed.
Lemma s_resolve_ok lim4 lim6 tbl v p r : s_ok lim4 lim6 tbl v p -> x_cname r = None -> fam v r = [] ->
  exists d fo t l, t < 2 ^ 28 /\ s_says tbl v p d fo t l /\ s_resolve lim4 lim6 tbl p r v = Ok (word d fo t, with_fam v r l).
Proof.
  intros (HL & A1 & A2 & K1 & K2) HC HF. unfold s_resolve, s_says. rewrite (sttl_min_eq _ _ K1). cbn [rbind].
  pose proof (ttl_of_lt tbl (sp_pidx p)) as T1. pose proof (ttl_of_lt tbl (sp_sidx p)) as T2. rewrite has_word by auto.
  assert (AD : forall a, is6 a = v -> add_anysin lim4 lim6 r a = Ok (with_fam v r [bytes_of a])).
  { intros a E. pose proof (add_fam lim4 lim6 v r [] a HC E) as X. cbn [length app] in X. rewrite <- HF in X at 1. rewrite with_same in X. apply X. lia. }
  destruct (down tbl (sp_pidx p)).
  - rewrite (sttl_min_eq _ _ K2). cbn [rbind]. rewrite has_word by auto. destruct (down tbl (sp_sidx p)); cbn [rbind].
    + rewrite (AD _ A1). cbn [rbind]. rewrite valid_word by auto. cbn [rassert]. do 4 eexists. split; [exact T2|]. split; [repeat split|reflexivity].
    + rewrite (AD _ A2). cbn [rbind]. rewrite !mask_word by auto.
      assert (EM : (if ttl tbl (sp_pidx p) <? ttl tbl (sp_sidx p) then ttl tbl (sp_pidx p) else ttl tbl (sp_sidx p)) = N.min (ttl tbl (sp_pidx p)) (ttl tbl (sp_sidx p))).
      { destruct (N.ltb_spec (ttl tbl (sp_pidx p)) (ttl tbl (sp_sidx p))); lia. }
      rewrite EM. set (t := N.min _ _). assert (T : t < 2 ^ 28) by (unfold t; lia). pose proof (valid_word false false t T) as V. rewrite <- word_bare in V. rewrite V. cbn [rassert].
      exists false, false, t. eexists. rewrite <- word_bare. split; [exact T|]. split; [repeat split|reflexivity].
  - cbn [rbind]. rewrite (AD _ A1). cbn [rbind]. rewrite valid_word by auto. cbn [rassert]. do 4 eexists. split; [exact T1|].
    split; [|reflexivity]. destruct (down tbl (sp_sidx p)); repeat split.
Qed.
Lemma simplefo_ok lim4 lim6 tbl v4 v6 : for_both (s_ok lim4 lim6 tbl) v4 v6 ->
  exists w r, simplefo_resolve lim4 lim6 tbl v4 v6 dres0 = Ok (w, r) /\ two_families (s_says tbl) v4 v6 w r.
Proof. apply both_ok. intros. now apply s_resolve_ok. Qed.

Definition mk_conf (c : w_conf) : w_set := mk_set (wf_scale c) (wf_multi c) (wf_groups c).
Lemma both_map {S T} (g : T -> S) f v4 v6 r : both f (option_map g v4) (option_map g v6) r = both (fun s => f (g s)) v4 v6 r.
Proof. destruct v4, v6; reflexivity. Qed.
Lemma weighted_ok lim4 lim6 tbl rand v4 v6 : (forall k m, 0 < m -> rand k m < m) ->
  for_both (fun v c => w_ok lim4 lim6 tbl v (wf_multi c) (wf_scale c) (wf_groups c)) v4 v6 ->
  exists w r, weighted_resolve lim4 lim6 tbl rand (option_map mk_conf v4) (option_map mk_conf v6) dres0 = Ok (w, r) /\ two_families (w_says tbl rand) v4 v6 w r.
Proof.
  intros RO FB. unfold weighted_resolve. rewrite both_map. revert FB. apply both_ok. intros v c r H C F.
  destruct (w_resolve_ok lim4 lim6 tbl rand RO v (wf_scale c) (wf_multi c) (wf_groups c) (if v then 129 else 0)%nat r H C F) as (out & E & A).
  unfold mk_conf. rewrite E. do 4 eexists. split; [|split; [|reflexivity]]; [apply least_lt|].
  assert (ED : (up_total tbl (wf_groups c) <? wf_scale c (all_total tbl (wf_groups c))) = negb (w_enough tbl c)).
  { unfold w_enough. rewrite N.leb_antisym. now rewrite negb_involutive. }
  rewrite ED in *. split; [reflexivity|]. split; [reflexivity|]. split; [reflexivity|]. exists out. split; [reflexivity|]. exact A.
Qed.

(** consequences *)
Lemma m_sub tbl s : incl (m_up tbl s) (ms_as s).
Proof. intros a. unfold m_up. rewrite filter_In. tauto. Qed.
Lemma m_says_fine lim4 lim6 tbl v s d f t l : m_ok lim4 lim6 tbl v s -> (1 <= ms_up s)%nat -> m_says tbl v s d f t l ->
  l <> [] /\ incl l (m_addrs (ms_as s)) /\ (NoDup (m_addrs (ms_as s)) -> NoDup l).
Proof.
  intros (NE & _) U (_ & _ & _ & ->). unfold m_enough.
  destruct (Nat.leb_spec (ms_up s) (length (m_up tbl s))) as [LE|_]; cbn [andb].
  2: { split; [|split; [apply incl_refl|auto]]. unfold m_addrs. now destruct (ms_as s). }
  destruct (ms_ignore s); cbn [negb].
  - split; [|split; [apply incl_refl|auto]]. unfold m_addrs. now destruct (ms_as s).
  - split; [unfold m_addrs; destruct (m_up tbl s); cbn in *; [lia|discriminate]|]. split.
    + intros b. unfold m_addrs. rewrite !in_map_iff. intros (a & <- & I). exists a. split; auto. now apply m_sub in I.
    + unfold m_addrs, m_up. apply (filter_nodup (fun a => bytes_of (ma_addr a))).
Qed.
