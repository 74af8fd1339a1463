From Coq Require Import Sorting.Permutation.
From Verif Require Import Base DnameSpec DnameProofs RandModel RandSpec RandProofs CompModel CompSpec CompProofs RespModel RespSpec RespProofs.
Ltac Zify.zify_post_hook ::= idtac.

  Lemma Forall2_map_r {A B C} (P : A -> C -> Prop) (f : B -> C) l1 l2 : Forall2 P l1 (map f l2) -> Forall2 (fun a b => P a (f b)) l1 l2.
  Proof.
    revert l1. induction l2 as [|b l2 IH]; intros l1 H; cbn in H; remember (_ : list C) as r in H; destruct H as [|x y l1 l3 H1 H2]; try discriminate; constructor.
    - now injection Heqr as -> ->.
    - injection Heqr as -> ->. auto.
  Qed.

  Lemma clamp_eq mx mn t : (mn <= mx)%N ->
    (if mx <? N.land t 268435455 then mx else if N.land t 268435455 <? mn then mn else N.land t 268435455)%N = clamp mx mn t.
  Proof.
    intros H. unfold clamp. change 268435455%N with (N.ones 28). rewrite N.land_ones. change (2 ^ 28)%N with 268435456%N.
    generalize (t mod 268435456)%N. intros v. destruct (N.ltb_spec mx v), (N.ltb_spec v mn); lia.
  Qed.

  Lemma Forall_map_in {A B} (P : B -> Prop) (f : A -> B) l : (forall x, In x l -> P (f x)) -> Forall P (map f l).
  Proof. intros H. apply Forall_forall. intros y Hy. apply in_map_iff in Hy. destruct Hy as (x & <- & Hx). auto. Qed.

Lemma Forall2_imp {A B} (P Q : A -> B -> Prop) l1 l2 : (forall a b, P a b -> Q a b) -> Forall2 P l1 l2 -> Forall2 Q l1 l2.
Proof. intros H. induction 1; constructor; auto. Qed.

Ltac wleg := repeat (apply Forall_cons; [|]); try apply Forall_nil; try exact I.

Section Sets.
  Variable R : list (list N) -> list (list N) -> Prop.
  Variable lq : bytes.

  Notation inv := (inv R lq).
  Definition wrote (s s' : st) (rs : list rr) : Prop :=
    exists d, s_out s' = s_out s ++ d /\ inv (s_out s') (s_cts s') /\ (N.of_nat (length d) <= rrs_size rs)%N /\
      rrs_at R (s_out s') (length (s_out s)) rs (length (s_out s')).
  Definition frame (s s' : st) : Prop :=
    s_qc s' = s_qc s /\ s_ac s' = s_ac s /\ s_aa s' = s_aa s /\ s_rcode s' = s_rcode s /\ s_qtype s' = s_qtype s /\ s_cn s' = s_cn s /\ s_ns s' = s_ns s.
  Definition owner_at (s : st) (off : nat) (q : name) : Prop := exists o e, name_at (s_out s) off o e /\ R o q.

  Lemma wrote_trans s1 s2 s3 a b : wrote s1 s2 a -> wrote s2 s3 b -> wrote s1 s3 (a ++ b).
  Proof.
    intros (d1 & E1 & I1 & L1 & R1) (d2 & E2 & I2 & L2 & R2). exists (d1 ++ d2).
    split; [rewrite E2, E1; now rewrite app_assoc|]. split; [assumption|].
    split; [rewrite app_length, rrs_size_app; lia|]. eapply rrs_at_cat; [|exact R2]. rewrite E2. apply rrs_at_app. exact R1.
  Qed.
  Lemma wrote_nil s s' : s_out s' = s_out s -> inv (s_out s') (s_cts s') -> wrote s s' [].
  Proof. intros E I. exists []. rewrite E, app_nil_r. split; [reflexivity|]. rewrite <- E. split; [assumption|]. split; [cbn; lia|]. rewrite E. constructor. Qed.
  Lemma wrote_len s s' a : wrote s s' a -> (N.of_nat (length (s_out s')) <= N.of_nat (length (s_out s)) + rrs_size a)%N.
  Proof. intros (d & -> & _ & L & _). rewrite app_length. lia. Qed.
  Lemma wrote_inv s s' a : wrote s s' a -> inv (s_out s') (s_cts s').
  Proof. intros (d & _ & I & _). exact I. Qed.
  Lemma owner_wrote s s' a off q : wrote s s' a -> owner_at s off q -> owner_at s' off q.
  Proof. intros (d & E & _) (o & e & H1 & H2). exists o, e. split; [|assumption]. rewrite E. now apply name_at_app. Qed.
  Lemma frame_refl s : frame s s. Proof. repeat split. Qed.
  Lemma frame_trans a b c : frame a b -> frame b c -> frame a c.
  Proof. intros (A1 & A2 & A3 & A4 & A5 & A6 & A7) (B1 & B2 & B3 & B4 & B5 & B6 & B7). repeat split; congruence. Qed.

  Hypothesis R_refl : forall ls, R ls ls.
  Hypothesis R_cons : forall l a b, R a b -> R (l :: a) (l :: b).
  Variable draws : nat -> nat -> list nat.
  Hypothesis draws_legal : forall off n, legal_draws (n - 1) (draws off n).
  Variable dyn : N -> dynres.
  Variable root : node.
  (** a set of ordinary records *)
  Lemma enc_set_ok s owner q ty ttl rds : inv (s_out s) (s_cts s) -> owner_at s owner q -> Forall (Forall wlegal) rds ->
    (N.of_nat (length (s_out s)) + rrs_size (map (fun ps => mk_rr q ty ttl (map to_d ps)) rds) <= MAX_BUF)%N ->
    exists out c, enc_set lq s owner ty ttl rds = Ok (set_out s out c) /\
      wrote s (set_out s out c) (map (fun ps => mk_rr q ty ttl (map to_d ps)) rds).
  Proof.
    intros HI (o & e & HN & HR) HL HB. unfold enc_set.
    destruct (enc_rrs_ok R lq R_refl R_cons owner o e q ty ttl rds (s_out s) (s_cts s)) as (d & c & al & E1 & E2 & E3 & E4 & E5); auto.
    rewrite E1. cbn [rbind]. exists (s_out s ++ d), c. split; [reflexivity|]. exists d. cbn [set_out s_out s_cts]. auto.
  Qed.

  (** addresses *)
  Lemma enc_addrs_ok2 s owner q ty ttl addrs : inv (s_out s) (s_cts s) -> owner_at s owner q ->
    (ty = 1%N /\ wf_addrs 4 addrs) \/ (ty = 28%N /\ wf_addrs 16 addrs) ->
    (N.of_nat (length (s_out s)) + rrs_size (addr_rrs q ty ttl addrs) <= MAX_BUF)%N ->
    exists out c rs, enc_addrs lq draws s owner ty ttl addrs = Ok (set_out s out c) /\ Permutation rs (addr_rrs q ty ttl addrs) /\
      wrote s (set_out s out c) rs.
  Proof.
    intros HI (o & e & HN & HR) HW HB.
    destruct (enc_addrs_ok R lq R_refl R_cons draws draws_legal s owner o e q ty ttl addrs HI HN HR HW HB) as (d & a' & E1 & E2 & E3 & E4 & E5).
    exists (s_out s ++ d), (s_cts s), (addr_rrs q ty ttl a'). split; [assumption|]. split; [apply Permutation_map; assumption|].
    exists d. cbn [set_out s_out s_cts]. split; [reflexivity|]. split; [assumption|]. split; [|assumption].
    rewrite (rrs_size_perm _ (addr_rrs q ty ttl addrs)); [assumption|]. now apply Permutation_map.
  Qed.

  Lemma wrote_add_an s s' a n : wrote s s' a -> wrote s (add_an s' n) a. Proof. intros H. exact H. Qed.
  Lemma wrote_add_ar s s' a n : wrote s s' a -> wrote s (add_ar s' n) a. Proof. intros H. exact H. Qed.

  Definition glue1 (x : name * option (N * list bytes) * option (N * list bytes)) : list rr :=
    let '(n, g4, g6) := x in
    match g4 with Some (ttl, a) => addr_rrs n 1 ttl a | None => [] end ++
    match g6 with Some (ttl, a) => addr_rrs n 28 ttl a | None => [] end.
  Lemma glue_rrs_flat rd : glue_rrs rd = flat_map glue1 rd.
  Proof. reflexivity. Qed.
  Lemma addr_rrs_len q ty ttl a : length (addr_rrs q ty ttl a) = length a.
  Proof. apply map_length. Qed.

  Lemma opt_glue_ok s owner q ty len g : inv (s_out s) (s_cts s) -> owner_at s owner q ->
    (ty = 1%N /\ len = 4) \/ (ty = 28%N /\ len = 16) -> wf_glue len g ->
    (N.of_nat (length (s_out s)) + rrs_size (match g with Some (ttl, a) => addr_rrs q ty ttl a | None => [] end) <= MAX_BUF)%N ->
    exists s' rs, (match g with None => Ok s | Some (ttl, addrs) => do s <- enc_addrs lq draws s owner ty ttl addrs; Ok (add_ar s (length addrs)) end) = Ok s' /\
      Permutation rs (match g with Some (ttl, a) => addr_rrs q ty ttl a | None => [] end) /\
      wrote s s' rs /\ frame s s' /\ s_an s' = s_an s /\ s_ar s' = (s_ar s + N.of_nat (length rs))%N.
  Proof.
    intros HI HO HT HW HB. destruct g as [[ttl a]|].
    - destruct (enc_addrs_ok2 s owner q ty ttl a) as (out & c & rs & E1 & E2 & E3); auto.
      { destruct HT as [[-> ->]|[-> ->]]; [left|right]; auto. }
      rewrite E1. cbn [rbind]. eexists _, rs. split; [reflexivity|]. split; [assumption|]. split; [now apply wrote_add_ar|].
      split; [repeat split|]. split; [reflexivity|]. cbn. apply Permutation_length in E2. rewrite E2, addr_rrs_len. reflexivity.
    - exists s, []. split; [reflexivity|]. split; [constructor|]. split; [now apply wrote_nil|]. split; [apply frame_refl|]. cbn. split; [reflexivity|lia].
  Qed.

  Lemma enc_glue_ok : forall rd at_ s, inv (s_out s) (s_cts s) ->
    Forall2 (fun a x => owner_at s a (fst (fst x))) at_ rd ->
    Forall (fun x => let '(n, g4, g6) := x in legal_name n /\ wf_glue 4 g4 /\ wf_glue 16 g6) rd ->
    (N.of_nat (length (s_out s)) + rrs_size (glue_rrs rd) <= MAX_BUF)%N ->
    exists s' rs, enc_glue lq draws s rd at_ = Ok s' /\ Permutation rs (glue_rrs rd) /\ wrote s s' rs /\ frame s s' /\
      s_an s' = s_an s /\ s_ar s' = (s_ar s + N.of_nat (length rs))%N.
  Proof.
    induction rd as [|[[n g4] g6] rd IH]; intros at_ s HI HO HW HB.
    - exists s, []. split; [reflexivity|]. split; [constructor|]. split; [now apply wrote_nil|]. split; [apply frame_refl|]. cbn. split; [reflexivity|lia].
    - pose proof HO as HO0. remember ((n, g4, g6) :: rd) as rd0 eqn:Erd. destruct HO0 as [|a x at1 rd1 HA HO1]; [discriminate|].
      injection Erd as -> ->. apply Forall_cons_iff in HW. destruct HW as [(W0 & W4 & W6) HW]. cbn [enc_glue]. unfold T_A, T_AAAA.
      rewrite glue_rrs_flat in HB. cbn [flat_map glue1] in HB. rewrite <- glue_rrs_flat in HB. rewrite !rrs_size_app in HB. cbn [fst] in HA.
      destruct (opt_glue_ok s a n 1%N 4 g4) as (s1 & r1 & E1 & E2 & E3 & E4 & E5 & E6); auto; [lia|].
      rewrite E1. cbn [rbind]. pose proof (wrote_len _ _ _ E3) as L1. rewrite (rrs_size_perm _ _ E2) in L1.
      destruct (opt_glue_ok s1 a n 28%N 16 g6) as (s2 & r2 & F1 & F2 & F3 & F4 & F5 & F6); auto.
      { eapply wrote_inv; eauto. } { eapply owner_wrote; eauto. } { lia. }
      rewrite F1. cbn [rbind]. pose proof (wrote_len _ _ _ F3) as L2. rewrite (rrs_size_perm _ _ F2) in L2.
      destruct (IH at1 s2) as (s3 & r3 & G1 & G2 & G3 & G4 & G5 & G6); auto.
      { eapply wrote_inv; eauto. }
      { eapply Forall2_imp; [|exact HO1]. intros y w Q. eapply owner_wrote; [exact F3|]. eapply owner_wrote; [exact E3|exact Q]. }
      { lia. }
      exists s3, ((r1 ++ r2) ++ r3). split; [assumption|].
      split; [rewrite glue_rrs_flat; cbn [flat_map glue1]; rewrite <- glue_rrs_flat; auto using Permutation_app|].
      split; [eapply wrote_trans; [eapply wrote_trans; eauto|assumption]|].
      split; [eapply frame_trans; [exact E4|]; eapply frame_trans; eauto|].
      split; [congruence|]. rewrite !app_length. lia.
  Qed.

  Lemma encode_rrs_ns_ok s q ttl rd : inv (s_out s) (s_cts s) -> owner_at s (s_ac s) q -> wf_rrset (RsNS ttl rd) ->
    (N.of_nat (length (s_out s)) + rrs_size (records_of dyn q (RsNS ttl rd)) + rrs_size (glue_rrs rd) <= MAX_BUF)%N ->
    exists s' ar, encode_rrs_ns lq draws s ttl rd = Ok s' /\ Permutation ar (glue_rrs rd) /\
      wrote s s' (records_of dyn q (RsNS ttl rd) ++ ar) /\ frame s s' /\
      s_an s' = (s_an s + N.of_nat (length rd))%N /\ s_ar s' = (s_ar s + N.of_nat (length ar))%N.
  Proof.
    intros HI (o & e & HN & HR) (NE & L64 & HW) HB. unfold encode_rrs_ns.
    replace (Nat.eqb (length rd) 0) with false by (destruct rd; [contradiction|reflexivity]). cbn [negb rassert].
    replace (Nat.leb (length rd) 64) with true by (symmetry; now apply Nat.leb_le). cbn [rassert].
    assert (ER : map (fun ps => mk_rr q 2 ttl (map to_d ps)) (map (fun x : name * option (N * list bytes) * option (N * list bytes) => [WComp true (fst (fst x))]) rd)
      = records_of dyn q (RsNS ttl rd)) by (rewrite map_map; reflexivity).
    destruct (enc_rrs_ok R lq R_refl R_cons (s_ac s) o e q T_NS ttl (map (fun x => [WComp true (fst (fst x))]) rd) (s_out s) (s_cts s))
      as (d & c & al & E1 & E2 & E3 & E4 & E5); auto.
    { apply Forall_forall. intros ps Hps. apply in_map_iff in Hps. destruct Hps as (x & <- & Hx). rewrite Forall_forall in HW.
      specialize (HW x Hx). destruct x as [[n g4] g6]. wleg. apply HW. }
    { unfold T_NS. rewrite ER. lia. }
    unfold T_NS in E3, E4. rewrite ER in E3, E4. rewrite E1. cbn [rbind].
    assert (W1 : wrote s (add_an (set_out s (s_out s ++ d) c) (length rd)) (records_of dyn q (RsNS ttl rd))).
    { exists d. cbn [add_an set_counts set_out s_out s_cts]. auto. }
    destruct (enc_glue_ok rd al (add_an (set_out s (s_out s ++ d) c) (length rd))) as (s' & ar & G1 & G2 & G3 & G4 & G5 & G6).
    - exact E2.
    - apply Forall2_map_r in E5. eapply Forall2_imp; [|exact E5]. intros a x (e2 & D). cbn [map to_d] in D.
      inversion D as [| |off n n' e1 ds e3 N1 HR1 D1]; subst. exists n', e1. split; assumption.
    - assumption.
    - cbn [add_an set_counts set_out s_out]. rewrite app_length. lia.
    - exists s', ar. split; [assumption|]. split; [assumption|]. split; [eapply wrote_trans; eauto|].
      split; [eapply frame_trans; [|exact G4]; repeat split|]. split; [rewrite G5; reflexivity|rewrite G6; reflexivity].
  Qed.

  Lemma do_dyn_ok s x mx mn : wf_dyn dyn root -> (mn <= mx)%N ->
    exists s', do_dyn_callback dyn s x mx mn = Ok (dyn x, clamp mx mn (d_sttl (dyn x)), s') /\
      frame s s' /\ s_out s' = s_out s /\ s_cts s' = s_cts s /\ s_an s' = s_an s /\ s_ar s' = s_ar s.
  Proof.
    intros [HD _] HM. unfold do_dyn_callback. destruct (HD x) as (_ & _ & H3 & _). rewrite H3. cbn [N.eqb rassert].
    rewrite clamp_eq by assumption. destruct (s_scope s <? d_scope (dyn x))%N; eexists; (split; [reflexivity|]); repeat split.
  Qed.

  (** how the encoder treats a set: what it adds to the sections *)
  Definition glue_of (r : rrset) : list rr := match r with RsNS _ rd => glue_rrs rd | _ => [] end.
  Lemma set_case s q ty ttl rds rs n : inv (s_out s) (s_cts s) -> owner_at s (s_qc s) q -> Forall (Forall wlegal) rds ->
    map (fun ps => mk_rr q ty ttl (map to_d ps)) rds = rs -> n = length rs ->
    (N.of_nat (length (s_out s)) + rrs_size rs + rrs_size [] <= MAX_BUF)%N ->
    exists s' an' ar', (do s <- enc_set lq s (s_qc s) ty ttl rds; Ok (add_an s n)) = Ok s' /\ frame s s' /\ Permutation an' rs /\
      Permutation ar' (@nil rr) /\ wrote s s' (an' ++ ar') /\ s_an s' = (s_an s + N.of_nat (length an'))%N /\ s_ar s' = (s_ar s + N.of_nat (length ar'))%N.
  Proof.
    intros HI HO HL ER EN HB. destruct (enc_set_ok s (s_qc s) q ty ttl rds) as (out & c & E1 & E2); auto.
    { rewrite ER. cbn in HB. lia. }
    rewrite E1. cbn [rbind]. eexists _, rs, []. split; [reflexivity|]. split; [repeat split|]. split; [reflexivity|]. split; [constructor|].
    rewrite app_nil_r. split; [rewrite <- ER; apply wrote_add_an; exact E2|]. split; [rewrite EN; reflexivity|]. cbn. lia.
  Qed.

  Lemma addr_case s0 s q ty ttl addrs : inv (s_out s) (s_cts s) -> owner_at s (s_qc s) q ->
    (ty = 1%N /\ wf_addrs 4 addrs) \/ (ty = 28%N /\ wf_addrs 16 addrs) ->
    frame s0 s -> s_out s = s_out s0 -> s_cts s = s_cts s0 -> s_an s = s_an s0 -> s_ar s = s_ar s0 ->
    (N.of_nat (length (s_out s)) + rrs_size (addr_rrs q ty ttl addrs) + rrs_size [] <= MAX_BUF)%N ->
    exists s' an' ar', (do s <- enc_addrs lq draws s (s_qc s) ty ttl addrs; Ok (add_an s (length addrs))) = Ok s' /\ frame s0 s' /\
      Permutation an' (addr_rrs q ty ttl addrs) /\ Permutation ar' (@nil rr) /\ wrote s0 s' (an' ++ ar') /\
      s_an s' = (s_an s0 + N.of_nat (length an'))%N /\ s_ar s' = (s_ar s0 + N.of_nat (length ar'))%N.
  Proof.
    intros HI HO HW HF E0 E1 E2 E3 HB. destruct (enc_addrs_ok2 s (s_qc s) q ty ttl addrs) as (out & c & rs & F1 & F2 & F3); auto.
    { cbn in HB. lia. }
    rewrite F1. cbn [rbind]. eexists _, rs, []. split; [reflexivity|]. split; [eapply frame_trans; [exact HF|repeat split]|].
    split; [assumption|]. split; [constructor|]. rewrite app_nil_r. split.
    - destruct F3 as (d & D1 & D2 & D3 & D4). exists d. cbn [add_an set_counts set_out s_out s_cts] in *. rewrite <- E0. auto.
    - cbn. apply Permutation_length in F2. rewrite addr_rrs_len in F2. split; lia.
  Qed.

  Lemma encode_rrset_ok s q r : inv (s_out s) (s_cts s) -> owner_at s (s_qc s) q ->
    (rrset_type r = 2%N \/ rrset_type r = 6%N -> owner_at s (s_ac s) q) ->
    wf_rrset r -> rrset_type r = s_qtype s -> rrset_type r <> 65295%N -> wf_dyn dyn root ->
    (match r with RsADyn _ _ x | RsAAAADyn _ _ x => d_cname (dyn x) = None | _ => True end) ->
    (N.of_nat (length (s_out s)) + rrs_size (records_of dyn q r) + rrs_size (glue_of r) <= MAX_BUF)%N ->
    exists s' an' ar', encode_rrset lq draws dyn s r = Ok s' /\ frame s s' /\ Permutation an' (records_of dyn q r) /\
      Permutation ar' (glue_of r) /\ wrote s s' (an' ++ ar') /\
      s_an s' = (s_an s + N.of_nat (length an'))%N /\ s_ar s' = (s_ar s + N.of_nat (length ar'))%N.
  Proof.
    intros HI HO HA HW HT HD HDY HC HB. destruct r; cbn [encode_rrset encode_rrs_a encode_rrs_aaaa records_of glue_of rrset_type wf_rrset] in *.
    - unfold encode_rrs_a, encode_rrs_aaaa; rewrite <- HT, N.eqb_refl. cbn [rassert]. eapply addr_case; eauto using frame_refl.
    - unfold encode_rrs_a, encode_rrs_aaaa; rewrite <- HT, N.eqb_refl. cbn [rassert]. destruct (do_dyn_ok s resource ttl_max ttl_min HDY HW) as (s1 & E1 & E2 & E3 & E4 & E5 & E6).
      rewrite E1. cbn [rbind]. rewrite HC. cbn [rassert]. destruct (d_v4 (dyn resource)) as [|a v4] eqn:EV.
      + exists s1, [], []. split; [reflexivity|]. split; [assumption|]. split; [constructor|]. split; [constructor|]. cbn [app length].
        split; [apply wrote_nil; [assumption|]; rewrite E3, E4; assumption|]. cbn. lia.
      + rewrite <- EV in *. eapply addr_case; eauto.
        * rewrite E3, E4. assumption.
        * destruct E2 as (Q1 & _). rewrite Q1. destruct HO as (o & e & H1 & H2). exists o, e. now rewrite E3.
        * left. split; [reflexivity|]. split; [rewrite EV; discriminate|]. apply HDY.
        * rewrite E3. exact HB.
    - unfold encode_rrs_a, encode_rrs_aaaa; rewrite <- HT, N.eqb_refl. cbn [rassert]. eapply addr_case; eauto using frame_refl.
    - unfold encode_rrs_a, encode_rrs_aaaa; rewrite <- HT, N.eqb_refl. cbn [rassert]. destruct (do_dyn_ok s resource ttl_max ttl_min HDY HW) as (s1 & E1 & E2 & E3 & E4 & E5 & E6).
      rewrite E1. cbn [rbind]. rewrite HC. cbn [rassert]. destruct (d_v6 (dyn resource)) as [|a v6] eqn:EV.
      + exists s1, [], []. split; [reflexivity|]. split; [assumption|]. split; [constructor|]. split; [constructor|]. cbn [app length].
        split; [apply wrote_nil; [assumption|]; rewrite E3, E4; assumption|]. cbn. lia.
      + rewrite <- EV in *. eapply addr_case; eauto.
        * rewrite E3, E4. assumption.
        * destruct E2 as (Q1 & _). rewrite Q1. destruct HO as (o & e & H1 & H2). exists o, e. now rewrite E3.
        * right. split; [reflexivity|]. split; [rewrite EV; discriminate|]. apply HDY.
        * rewrite E3. exact HB.
    - destruct (encode_rrs_ns_ok s q ttl rd) as (s' & ar & E1 & E2 & E3 & E4 & E5 & E6); auto.
      exists s', (records_of dyn q (RsNS ttl rd)), ar. split; [assumption|]. split; [assumption|]. split; [reflexivity|]. split; [assumption|].
      split; [assumption|]. split; [|assumption]. rewrite E5. cbn [records_of]. now rewrite map_length.
    - eapply set_case; eauto.
      + apply Forall_map_in. intros n Hn. destruct HW as [_ HW]. rewrite Forall_forall in HW. wleg. apply (HW n Hn).
      + rewrite map_map. reflexivity.
      + now rewrite map_length.
    - eapply set_case; eauto.
      + apply Forall_map_in. intros n Hn. destruct HW as [_ HW]. rewrite Forall_forall in HW. wleg. apply (HW n Hn).
      + rewrite map_map. reflexivity.
      + now rewrite map_length.
    - eapply set_case; eauto.
      + apply Forall_map_in. intros [[[a b] c] n] Hn. destruct HW as [_ HW]. rewrite Forall_forall in HW. wleg. apply (HW _ Hn).
      + rewrite map_map. apply map_ext. intros [[[a b] c] n]. reflexivity.
      + now rewrite map_length.
    - eapply set_case; eauto.
      + apply Forall_map_in. intros [[[a b] c] n] Hn. destruct HW as [_ HW]. rewrite Forall_forall in HW. wleg. apply (HW _ Hn).
      + rewrite map_map. apply map_ext. intros [[[a b] c] n]. reflexivity.
      + now rewrite map_length.
    - eapply set_case; eauto.
      + apply Forall_map_in. intros n Hn. wleg.
      + rewrite map_map. reflexivity.
      + now rewrite map_length.
    - unfold encode_rr_cname_common. destruct HO as (o & e & HN & HR).
      destruct (enc_rr_ok R lq R_refl R_cons (s_out s) (s_cts s) (s_qc s) o e q T_CNAME ttl [WComp false target]) as (d & c & a & E1 & E2 & E3 & E4 & E5); auto.
      { unfold rrs_size in HB. cbn in HB. unfold wsize. cbn. lia. }
      rewrite E1. cbn [rbind]. eexists _, _, []. split; [reflexivity|]. split; [repeat split|]. split; [reflexivity|]. split; [constructor|].
      rewrite app_nil_r. split; [|cbn; lia]. exists d. cbn [add_an set_counts set_out s_out s_cts]. split; [reflexivity|]. split; [assumption|].
      split; [unfold rrs_size; cbn; unfold wsize in E3; cbn in E3; lia|]. econstructor; [exact E4|constructor].
    - unfold encode_rr_soa. assert (HA' : owner_at s (s_ac s) q) by auto. destruct HW as (W1 & W2 & W3).
      destruct (enc_set_ok s (s_ac s) q T_SOA ttl [[WComp true mname; WComp false rname; WBytes times]]) as (out & c & E1 & E2); auto.
      { cbn [map to_d]. cbn in HB |- *. lia. }
      rewrite E1. cbn [rbind]. eexists _, _, []. split; [reflexivity|]. split; [repeat split|]. split; [reflexivity|]. split; [constructor|].
      rewrite app_nil_r. split; [apply wrote_add_an; exact E2|]. cbn. lia.
    - now contradiction HD.
    - eapply set_case; eauto.
      + apply Forall_map_in. intros n Hn. wleg.
      + rewrite map_map. reflexivity.
      + now rewrite map_length.
  Qed.
End Sets.
