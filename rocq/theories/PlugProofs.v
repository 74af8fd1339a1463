(** Proofs about the resolver plugins. *)
From Verif Require Import Base MonModel MonSpec MonProofs PlugModel PlugSpec.
Local Open Scope N_scope.
Ltac Zify.zify_post_hook ::= idtac.

(** ** State words *)
Lemma ttl_lt w : w_ttl w < 2 ^ 28.
Proof. apply N.mod_lt. discriminate. Qed.
Lemma least_lt l : least l < 2 ^ 28.
Proof. induction l as [|x l IH]; cbn [least fold_right]; [reflexivity|]. fold (least l). lia. Qed.
Lemma least_min x l : N.min (least l) x = least (x :: l).
Proof. cbn [least fold_right]. fold (least l). lia. Qed.
Lemma least_app a b : least (a ++ b) = N.min (least a) (least b).
Proof. induction a as [|x a IH]; cbn [app least fold_right]; [fold (least b); pose proof (least_lt b); cbn in *; lia|]. fold (least (a ++ b)) (least a). lia. Qed.
Lemma word_max : STTL_TTL_MAX = word false false (2 ^ 28 - 1).
Proof. reflexivity. Qed.
Lemma min2_words d f t d' f' t' : t < 2 ^ 28 -> t' < 2 ^ 28 ->
  sttl_min2 (word d f t) (word d' f' t') = word (d || d') (f || f') (N.min t t').
Proof.
  intros H H'. destruct (word_parts d f t H) as (L & D & F & T). destruct (word_parts d' f' t' H') as (L' & D' & F' & T').
  rewrite min2_word by auto. now rewrite D, F, T, D', F', T'.
Qed.
Lemma legal_word d f t : t < 2 ^ 28 -> w_legal (word d f t).
Proof. intros H. apply (word_parts d f t H). Qed.
Lemma valid_word d f t : t < 2 ^ 28 -> valid_sttl (word d f t) = true.
Proof. intros H. apply legal_valid. now apply legal_word. Qed.
Lemma has_word d f t : t < 2 ^ 28 -> has (word d f t) STTL_DOWN = d.
Proof. intros H. rewrite has_down. apply (word_parts d f t H). Qed.
Lemma bits_low t n : t < 2 ^ 28 -> 28 <= n -> N.testbit t n = false.
Proof.
  intros H Hn. destruct (N.eq_dec t 0) as [->|NZ]; [apply N.bits_0|]. apply N.bits_above_log2.
  assert (N.log2 t < 28) by (apply N.log2_lt_pow2; lia). lia.
Qed.
Lemma set_down d f t : t < 2 ^ 28 -> N.lor (word d f t) STTL_DOWN = word true f t.
Proof.
  intros H. rewrite !word_lor by auto. destruct d; [|destruct f]; apply N.bits_inj; intro k; rewrite !N.lor_spec;
    change STTL_DOWN with (2 ^ 31); change STTL_FORCED with (2 ^ 30); rewrite ?N.bits_0; destruct (N.testbit (2 ^ 31) k), (N.testbit t k), (N.testbit (2 ^ 30) k); try reflexivity;
    destruct f; rewrite ?N.bits_0; try reflexivity; destruct (N.testbit (2 ^ 30) k); reflexivity.
Qed.
Lemma clear_down d f t : t < 2 ^ 28 -> N.ldiff (word d f t) STTL_DOWN = word false f t.
Proof.
  intros H. rewrite !word_lor by auto. apply N.bits_inj; intro k. rewrite N.ldiff_spec, !N.lor_spec.
  change STTL_DOWN with (2 ^ 31); change STTL_FORCED with (2 ^ 30).
  destruct (N.eq_dec k 31) as [->|NE].
  - rewrite (bits_low t 31 H) by lia. destruct d, f; reflexivity.
  - rewrite (N.pow2_bits_false 31 k) by auto. rewrite andb_true_r. destruct d; [|reflexivity]. rewrite (N.pow2_bits_false 31 k) by auto. rewrite N.bits_0. reflexivity.
Qed.
Lemma sttl_from tbl idx : known tbl idx -> forall d f t, t < 2 ^ 28 ->
  sttl_min_from tbl (word d f t) idx = Ok (word (d || down tbl idx) (f || forced tbl idx) (N.min t (ttl tbl idx))).
Proof.
  induction 1 as [|i idx [Hi Hl] K IH]; intros d f t Ht; cbn [sttl_min_from].
  - unfold ttl. cbn [down forced existsb map least fold_right]. rewrite !orb_false_r. do 2 f_equal. cbn in *. lia.
  - unfold rd. rewrite (nth_error_nth' tbl 0%N Hi). cbn [rbind]. rewrite (word_split _ Hl) at 1.
    rewrite min2_words by (auto using ttl_lt). pose proof (ttl_lt (nth i tbl 0)). rewrite IH by lia.
    cbn [down forced existsb]. fold (down tbl idx) (forced tbl idx). rewrite !orb_assoc. do 2 f_equal.
    unfold ttl. cbn [map]. rewrite <- least_min. lia.
Qed.
Lemma sttl_min_eq tbl idx : known tbl idx -> sttl_min tbl idx = Ok (word (down tbl idx) (forced tbl idx) (ttl tbl idx)).
Proof.
  intros K. unfold sttl_min. rewrite word_max, (sttl_from tbl idx K) by reflexivity. cbn [orb]. do 2 f_equal.
  unfold ttl. pose proof (least_lt (map (fun i => w_ttl (nth i tbl 0)) idx)). cbn in *. lia.
Qed.
Lemma ttl_of_lt tbl idx : ttl tbl idx < 2 ^ 28.
Proof. apply least_lt. Qed.
Global Hint Resolve ttl_of_lt least_lt : core.

(** ** Results *)
Lemma fam_with v6 r l : fam v6 (with_fam v6 r l) = l.
Proof. destruct v6; reflexivity. Qed.
Lemma with_with v6 r l l' : with_fam v6 (with_fam v6 r l) l' = with_fam v6 r l'.
Proof. destruct v6; reflexivity. Qed.
Lemma with_same v6 r : with_fam v6 r (fam v6 r) = r.
Proof. destruct v6, r; reflexivity. Qed.
Lemma cname_with v6 r l : x_cname (with_fam v6 r l) = x_cname r.
Proof. destruct v6; reflexivity. Qed.
Lemma add_fam lim4 lim6 v6 r l a : x_cname r = None -> is6 a = v6 -> (length l < lim lim4 lim6 v6)%nat ->
  add_anysin lim4 lim6 (with_fam v6 r l) a = Ok (with_fam v6 r (l ++ [bytes_of a])).
Proof.
  intros HC HA HL. apply Nat.ltb_lt in HL. unfold add_anysin. rewrite cname_with, HC. cbn [rassert].
  destruct a as [b|b]; cbn [is6] in HA; subst v6; cbn [with_fam x_v4 x_v6 lim bytes_of] in *; rewrite HL; cbn [rassert x_cname x_scope]; rewrite HC; reflexivity.
Qed.

(** ** multifo *)
Section Multifo.
  Variables lim4 lim6 : nat.
  Variable tbl : list N.
  Definition fine (v6 : bool) (a : m_addr) : Prop := is6 (ma_addr a) = v6 /\ known tbl (ma_idx a).
  Lemma add_all_eq v6 r as_ : x_cname r = None -> Forall (fine v6) as_ -> forall l, (length l + length as_ <= lim lim4 lim6 v6)%nat ->
    add_all lim4 lim6 (with_fam v6 r l) as_ = Ok (with_fam v6 r (l ++ m_addrs as_)).
  Proof.
    intros HC HF. induction HF as [|a as_ [A K] HF IH]; intros l HL; cbn [add_all m_addrs map].
    - now rewrite app_nil_r.
    - cbn [length] in HL. rewrite (add_fam lim4 lim6 v6 r l _ HC A) by lia. cbn [rbind]. rewrite IH by (rewrite app_length; cbn [length]; lia).
      rewrite <- app_assoc. reflexivity.
  Qed.
  Definition m_shown (ignore : bool) (as_ : list m_addr) : list m_addr := if ignore then as_ else filter (fun a => negb (down tbl (ma_idx a))) as_.
  Lemma m_loop_eq v6 ignore r as_ : x_cname r = None -> Forall (fine v6) as_ -> forall d f t n l, t < 2 ^ 28 -> (length l + length as_ <= lim lim4 lim6 v6)%nat ->
    m_loop lim4 lim6 tbl ignore as_ (word d f t) n (with_fam v6 r l) =
    Ok (word (d || existsb (fun a => down tbl (ma_idx a)) as_) (f || existsb (fun a => forced tbl (ma_idx a)) as_) (N.min t (least (map (fun a => ttl tbl (ma_idx a)) as_))),
        (n + length (filter (fun a => negb (down tbl (ma_idx a))) as_))%nat, with_fam v6 r (l ++ m_addrs (m_shown ignore as_))).
  Proof.
    intros HC HF. induction HF as [|a as_ [A K] HF IH]; intros d f t n l Ht HL.
    - cbn [m_loop existsb filter map least fold_right length]. rewrite !orb_false_r, Nat.add_0_r.
      replace (N.min t (2 ^ 28 - 1)) with t by (cbn in *; lia). unfold m_shown. destruct ignore; cbn [filter m_addrs map]; rewrite app_nil_r; reflexivity.
    - cbn [m_loop]. rewrite (sttl_min_eq _ _ K). cbn [rbind]. rewrite min2_words by auto. rewrite has_word by auto.
      pose proof (ttl_of_lt tbl (ma_idx a)) as LT. cbn [length] in HL. cbn [existsb map].
      rewrite <- least_min. unfold m_shown. cbn [filter]. destruct (down tbl (ma_idx a)) eqn:ED; cbn [negb].
      + destruct ignore.
        * rewrite (add_fam lim4 lim6 v6 r l _ HC A) by lia. cbn [rbind]. rewrite IH by (try lia; rewrite app_length; cbn [length]; lia).
          cbn [m_addrs map m_shown]. rewrite <- app_assoc, !orb_true_r, !orb_assoc. cbn [app orb]. rewrite (N.min_comm (least _) (ttl _ _)), N.min_assoc. reflexivity.
        * rewrite IH by lia. rewrite !orb_true_r, !orb_assoc. cbn [orb m_shown]. rewrite (N.min_comm (least _) (ttl _ _)), N.min_assoc. reflexivity.
      + rewrite (add_fam lim4 lim6 v6 r l _ HC A) by lia. cbn [rbind]. rewrite IH by (try lia; rewrite app_length; cbn [length]; lia).
        cbn [length m_shown]. rewrite !orb_assoc, !orb_false_r. cbn [orb]. rewrite Nat.add_succ_r. cbn [Nat.add].
        destruct ignore; cbn [m_addrs map]; rewrite <- app_assoc; cbn [app]; rewrite (N.min_comm (least _) (ttl _ _)), N.min_assoc; reflexivity.
  Qed.
  Lemma m_resolve_eq v6 s r : m_ok lim4 lim6 tbl v6 s -> x_cname r = None -> fam v6 r = [] ->
    m_resolve lim4 lim6 tbl s r v6 =
    let enough := Nat.leb (ms_up s) (length (m_up tbl s)) in
    Ok (word (negb enough) (existsb (fun a => forced tbl (ma_idx a)) (ms_as s)) (least (map (fun a => ttl tbl (ma_idx a)) (ms_as s))),
        with_fam v6 r (m_addrs (if enough && negb (ms_ignore s) then m_up tbl s else ms_as s))).
  Proof.
    intros (NE & HL & HF) HC HE. unfold m_resolve. destruct (Nat.eqb_spec (length (ms_as s)) 0) as [Z|_]; [apply length_zero_iff_nil in Z; contradiction|].
    cbn [negb rassert]. rewrite <- (with_same v6 r) at 1. rewrite HE, word_max. rewrite (m_loop_eq v6 _ _ _ HC HF) by (try reflexivity; cbn [length]; lia).
    cbn [rbind orb app]. rewrite Nat.add_0_l. fold (m_up tbl s).
    set (F := existsb _ (ms_as s)). set (T := least _). assert (HT : T < 2 ^ 28) by apply least_lt.
    replace (N.min (2 ^ 28 - 1) T) with T by (cbn in *; lia).
    destruct (Nat.ltb_spec (length (m_up tbl s)) (ms_up s)) as [LT|GE]; destruct (Nat.leb_spec (ms_up s) (length (m_up tbl s))); try lia; cbn [negb andb].
    - rewrite set_down by auto. destruct (ms_ignore s); cbn [negb rbind m_shown].
      + rewrite valid_word by auto. reflexivity.
      + assert (EW : (if v6 then wipe_v6 (with_fam v6 r (m_addrs (m_up tbl s))) else wipe_v4 (with_fam v6 r (m_addrs (m_up tbl s)))) = with_fam v6 r []) by (destruct v6; reflexivity).
        unfold m_shown. fold (m_up tbl s). rewrite EW. rewrite (add_all_eq v6 r _ HC HF) by (cbn [length]; lia). cbn [rbind app].
        rewrite valid_word by auto. reflexivity.
    - rewrite clear_down by auto. cbn [rbind]. rewrite valid_word by auto. cbn [rassert]. unfold m_shown. fold (m_up tbl s).
      destruct (ms_ignore s); reflexivity.
  Qed.
End Multifo.
