From Coq Require Import Sorting.Permutation.
From Verif Require Import Base DnameSpec DnameProofs RandModel RandSpec RandProofs CompModel CompSpec CompProofs RespModel RespSpec RespProofs RespProofs2 RespProofs3.
Ltac Zify.zify_post_hook ::= idtac.

(** ** The outcomes of a lookup exclude each other *)
Section Unique.
  Variable root : node.
  Hypothesis WF : forall q n, at_name root q n -> wf_node n.

  Lemma suffix_eq {A} (a b z z' : list A) : a ++ z = b ++ z' -> length z = length z' -> z = z'.
  Proof.
    revert b. induction a as [|x a IH]; intros b E L.
    - destruct b as [|y b]; [exact E|]. cbn in E. subst z. cbn in L. rewrite app_length in L. lia.
    - destruct b as [|y b]; cbn in E; [subst z'; cbn in L; rewrite app_length in L; lia|]. injection E as _ E. eauto.
  Qed.
  Lemma cut_unique q z n z' n' : cut_above root q z n -> cut_above root q z' n' -> length z = length z' -> z = z' /\ n = n'.
  Proof.
    intros ((p & E) & A & Z) ((p' & E') & A' & Z') L. assert (z = z') by (eapply suffix_eq; [rewrite <- E; exact E'|exact L]).
    subst z'. split; [reflexivity|]. eapply at_unique; eauto.
  Qed.
  Lemma zone_unique q z n z' n' : zone_of root q z n -> zone_of root q z' n' -> z = z' /\ n = n'.
  Proof. intros [C1 M1] [C2 M2]. eapply cut_unique; eauto. pose proof (M1 _ _ C2). pose proof (M2 _ _ C1). lia. Qed.
  Lemma deleg_unique q z n z' n' : delegated root q z n -> delegated root q z' n' -> z = z' /\ n = n'.
  Proof.
    intros (a & an & A1 & A2 & A3 & A4) (b & bn & B1 & B2 & B3 & B4). destruct (zone_unique _ _ _ _ _ A1 B1) as [<- <-].
    eapply cut_unique; eauto. pose proof (A4 _ _ B2 B3). pose proof (B4 _ _ A2 A3). lia.
  Qed.
  Lemma deleg_not_in q d dn z zn f : delegated root q d dn -> in_zone root q z zn f -> False.
  Proof.
    intros (a & an & A1 & A2 & A3 & A4) (Z & U & _). pose proof (U _ _ A2). destruct A1 as [A1 _]. pose proof (U _ _ A1). subst. lia.
  Qed.
  Lemma none_not_zone q z zn : no_zone root q -> zone_of root q z zn -> False.
  Proof. intros H [C _]. exact (H _ _ C). Qed.
  Lemma closest_not_at q c cn n : closest root q c cn -> at_name root q n -> False.
  Proof. intros (p & l & -> & A & NE) H. destruct (at_parent _ _ _ _ H) as (m & M). exact (NE m M). Qed.
  Lemma closest_unique q c cn c' cn' : closest root q c cn -> closest root q c' cn' -> c = c' /\ cn = cn'.
  Proof.
    assert (LT : forall q c cn c' cn', closest root q c cn -> closest root q c' cn' -> length c < length c' -> False).
    { intros q0 x xn y yn (p & l & E & A & NE) (p' & l' & E' & A' & NE') L.
      destruct (app_suffix_cases root WF p (l :: x) (p' ++ [l']) y) as (w & W).
      - rewrite <- app_assoc. cbn [app]. rewrite <- E. exact E'.
      - cbn [length]. lia.
      - subst y. destruct (at_parent _ _ _ _ A') as (m & M). exact (NE m M). }
    intros H1 H2. assert (L : length c = length c').
    { destruct (Nat.lt_trichotomy (length c) (length c')) as [L|[L|L]]; [exfalso; eauto|assumption|exfalso; eauto]. }
    destruct H1 as (p & l & E & A & NE), H2 as (p' & l' & E' & A' & NE').
    assert (c = c').
    { eapply (suffix_eq (p ++ [l]) (p' ++ [l'])); [|exact L]. rewrite <- !app_assoc. cbn [app]. rewrite <- E. exact E'. }
    subst c'. split; [reflexivity|]. eapply at_unique; eauto.
  Qed.
  Lemma child_unique n q l a b : at_name root q n -> In (l, a) (n_children n) -> In (l, b) (n_children n) -> a = b.
  Proof.
    intros A I1 I2. destruct (WF _ _ A) as (ND & _). pose proof (assoc_some _ _ _ ND I1). pose proof (assoc_some _ _ _ ND I2). congruence.
  Qed.
  Lemma in_zone_unique q z zn f z' zn' f' : in_zone root q z zn f -> in_zone root q z' zn' f' -> z = z' /\ zn = zn' /\ f = f'.
  Proof.
    intros (Z & _ & F) (Z' & _ & F'). destruct (zone_unique _ _ _ _ _ Z Z') as [<- <-]. split; [reflexivity|]. split; [reflexivity|].
    destruct f as [n|], f' as [n'|].
    - destruct F as [A|(c & cn & C & I)], F' as [A'|(c' & cn' & C' & I')].
      + f_equal. eapply at_unique; eauto.
      + exfalso. eapply closest_not_at; eauto.
      + exfalso. eapply closest_not_at; eauto.
      + destruct (closest_unique _ _ _ _ _ C C') as [<- <-]. f_equal. destruct C as (p & l & E & A & NE). eapply child_unique; eauto.
    - destruct F' as (c' & cn' & C' & I'). destruct F as [A|(c & cn & C & I)]; exfalso.
      + eapply closest_not_at; eauto.
      + destruct (closest_unique _ _ _ _ _ C C') as [<- <-]. exact (I' _ I).
    - destruct F as (c' & cn' & C' & I'). destruct F' as [A|(c & cn & C & I)]; exfalso.
      + eapply closest_not_at; eauto.
      + destruct (closest_unique _ _ _ _ _ C C') as [<- <-]. exact (I' _ I).
    - reflexivity.
  Qed.
  Lemma found_at q z zn n : in_zone root q z zn (Some n) -> exists q', at_name root q' n /\ (n_zcut n = true -> wf_node n -> q' = q /\ q = z).
  Proof.
    intros (Z & U & F). destruct F as [A|(c & cn & C & I)].
    - exists q. split; [assumption|]. intros HZ _. split; [reflexivity|]. apply (U q n). split; [exists []; reflexivity|auto].
    - pose proof C as (p & l & E & A & NE). exists ([42%N] :: c). split; [econstructor; eauto|]. intros HZ _.
      destruct (WF _ _ A) as (_ & _ & _ & _ & _ & W). rewrite (W n I) in HZ. discriminate.
  Qed.
  Lemma type_unique rs r r' : NoDup (map rrset_type rs) -> In r rs -> In r' rs -> rrset_type r = rrset_type r' -> r = r'.
  Proof.
    induction rs as [|x rs IH]; intros ND H1 H2 E; [destruct H1|]. cbn [map] in ND. apply NoDup_cons_iff in ND. destruct ND as [N1 N2].
    destruct H1 as [->|H1], H2 as [->|H2]; auto.
    - exfalso. apply N1. rewrite E. now apply in_map.
    - exfalso. apply N1. rewrite <- E. now apply in_map.
  Qed.
End Unique.

Lemma select_type (t : N) : forall rs, NoDup (map rrset_type rs) ->
  filter (fun r => rrset_type r =? t)%N rs = [] /\ (forall r, In r rs -> rrset_type r <> t) \/
  exists r, filter (fun r => rrset_type r =? t)%N rs = [r] /\ In r rs /\ rrset_type r = t.
Proof.
  induction rs as [|x rs IH]; intros ND; [left; split; [reflexivity|intros r []]|].
  cbn [map] in ND. apply NoDup_cons_iff in ND. destruct ND as [N1 N2]. cbn [filter].
  destruct (N.eqb_spec (rrset_type x) t) as [E|E].
  - right. exists x. split; [|split; [now left|assumption]]. f_equal. destruct (IH N2) as [[F _]|(r & F & I & T)]; [assumption|].
    exfalso. apply N1. rewrite E, <- T. now apply in_map.
  - destruct (IH N2) as [[F A]|(r & F & I & T)].
    + left. split; [assumption|]. intros r [<-|I]; auto.
    + right. exists r. split; [assumption|]. split; [now right|assumption].
Qed.

Section Final.
  Variable R : list (list N) -> list (list N) -> Prop.
  Variable lq : bytes.
  Hypothesis R_refl : forall ls, R ls ls.
  Hypothesis R_cons : forall l a b, R a b -> R (l :: a) (l :: b).
  Variable draws : nat -> nat -> list nat.
  Hypothesis draws_legal : forall off n, legal_draws (n - 1) (draws off n).
  Variable dyn : N -> dynres.
  Variable chals : name -> list (N * bytes).
  Hypothesis chals_ok : forall n, Forall (fun c => length (snd c) = 44) (chals n).
  Variable max_response : N.
  Variable root : node.
  Hypothesis WFD : wf_db root.
  Hypothesis WFY : wf_dyn dyn root.
  Notation inv := (inv R lq).
  Notation wrote := (wrote R lq).
  Notation owner_at := (owner_at R).

  Lemma construct_ok s : forall rs, NoDup (map rrset_type rs) ->
    construct_normal_response lq draws dyn s rs =
      match filter (fun r => rrset_type r =? s_qtype s)%N rs with [] => Ok s | r :: _ => encode_rrset lq draws dyn s r end.
  Proof.
    induction rs as [|x rs IH]; intros ND; [reflexivity|]. cbn [construct_normal_response filter].
    cbn [map] in ND. apply NoDup_cons_iff in ND. destruct ND as [N1 N2].
    destruct (rrset_type x =? s_qtype s)%N; [reflexivity|auto].
  Qed.

  (** challenge records *)
  Lemma chal_rr_at s q c y : owner_at s (s_qc s) q -> (N.of_nat (length (s_out s)) + 56 <= MAX_BUF)%N -> length (snd c) = 44 ->
    rr_at R (s_out s ++ (be16 (N.lor 49152 (N.of_nat (s_qc s))) ++ mk_chal_rr c) ++ y) (length (s_out s)) (chal_rr q c) (length (s_out s) + 56).
  Proof.
    intros (o & e & HN & HR) HB HL. set (p := be16 _). set (out := s_out s) in *.
    assert (Lp : length p = 2) by reflexivity.
    set (h := be16 T_TXT ++ be16 1 ++ be32 (fst c) ++ be16 44). assert (Lh : length h = 10) by reflexivity.
    assert (EM : mk_chal_rr c = h ++ snd c) by (unfold mk_chal_rr, h; rewrite <- !app_assoc; reflexivity). rewrite EM.
    exists o, (length out + 2).
    assert (LT : length (out ++ (p ++ h ++ snd c) ++ y) = length out + 56 + length y) by (rewrite !app_length, Lp, Lh, HL; lia).
    split.
    { rewrite <- app_assoc, app_assoc. apply name_at_app. unfold p. eapply name_at_ptr_new; [exact HN|lia]. }
    split; [exact HR|]. split; [lia|].
    replace (length out + 56 - (length out + 2 + 10)) with 44 by lia. split; [reflexivity|]. split.
    - cbn [chal_rr mk_rr rr_type rr_ttl].
      replace (out ++ (p ++ h ++ snd c) ++ y) with ((out ++ p) ++ h ++ snd c ++ y) by (rewrite <- !app_assoc; reflexivity).
      replace (length out + 2) with (length (out ++ p) + 0) by (rewrite app_length, Lp; lia). rewrite sub_app_r, sub_app_l by lia.
      apply sub_all. exact Lh.
    - cbn [chal_rr mk_rr rr_data]. replace (length out + 56) with (length out + 2 + 10 + length (snd c)) by lia. constructor.
      + rewrite LT. lia.
      + replace (out ++ (p ++ h ++ snd c) ++ y) with ((out ++ p ++ h) ++ snd c ++ y) by (rewrite <- !app_assoc; reflexivity).
        replace (length out + 2 + 10) with (length (out ++ p ++ h) + 0) by (rewrite !app_length, Lp, Lh; lia). rewrite sub_app_r, sub_app_l by lia.
        apply sub_full.
      + constructor.
  Qed.

  Lemma chal_emit_ok q : forall cs s, inv (s_out s) (s_cts s) -> owner_at s (s_qc s) q -> Forall (fun c => length (snd c) = 44) cs ->
    (N.of_nat (length (s_out s)) + rrs_size (map (chal_rr q) cs) <= MAX_BUF)%N ->
    exists s' k, chal_emit max_response s cs = Ok s' /\ k <= length cs /\
      (k < length cs -> (max_response < N.of_nat (length (s_out s')) + 56)%N) /\
      frame s s' /\ wrote s s' (map (chal_rr q) (firstn k cs)) /\ s_an s' = (s_an s + N.of_nat k)%N /\ s_ar s' = s_ar s.
  Proof.
    induction cs as [|c cs IH]; intros s HI HO HL HB.
    - exists s, 0. cbn. split; [reflexivity|]. split; [lia|]. split; [lia|]. split; [apply frame_refl|]. split; [now apply wrote_nil|]. lia.
    - apply Forall_cons_iff in HL. destruct HL as [HL0 HL].
      assert (ES : rrs_size (map (chal_rr q) (c :: cs)) = (56 + rrs_size (map (chal_rr q) cs))%N).
      { unfold rrs_size, rr_size. cbn [map fold_right chal_rr mk_rr rr_data piece_size]. rewrite HL0. lia. }
      rewrite ES in HB. cbn [chal_emit]. destruct (N.ltb_spec max_response (N.of_nat (length (s_out s)) + 2 + 54)) as [L|L].
      + exists s, 0. cbn [firstn map]. split; [reflexivity|]. split; [lia|]. split; [intros _; lia|]. split; [apply frame_refl|]. split; [now apply wrote_nil|]. lia.
      + set (p := be16 (N.lor 49152 (N.of_nat (s_qc s)))). assert (Lp : length p = 2) by reflexivity.
        assert (Lc : length (mk_chal_rr c) = 54) by (unfold mk_chal_rr; rewrite !app_length, HL0; reflexivity).
        rewrite emit_ok by lia. cbn [rbind]. rewrite emit_ok by (rewrite app_length; lia). cbn [rbind].
        rewrite <- app_assoc. set (s1 := add_an (set_out s (s_out s ++ p ++ mk_chal_rr c) (s_cts s)) 1).
        assert (W1 : wrote s s1 [chal_rr q c]).
        { exists (p ++ mk_chal_rr c). cbn [s1 add_an set_counts set_out s_out s_cts]. split; [reflexivity|]. split; [now apply inv_app|].
          split; [rewrite app_length; unfold rrs_size, rr_size; cbn [fold_right chal_rr mk_rr rr_data piece_size]; rewrite HL0; lia|].
          econstructor; [|constructor].
          pose proof (chal_rr_at s q c [] HO ltac:(lia) HL0) as H. rewrite app_nil_r in H. fold p in H.
          replace (length (s_out s ++ p ++ mk_chal_rr c)) with (length (s_out s) + 56) by (rewrite !app_length; lia). exact H. }
        destruct (IH s1) as (s' & k & E1 & E2 & E3 & E4 & E5 & E6 & E7).
        * eapply wrote_inv; eauto.
        * change (s_qc s1) with (s_qc s). eapply owner_wrote; eauto.
        * assumption.
        * pose proof (wrote_len _ _ _ _ _ W1) as W. change (rrs_size [chal_rr q c]) with (rr_size (chal_rr q c) + 0)%N in W.
          unfold rr_size in W. cbn [chal_rr mk_rr rr_data fold_right piece_size] in W. rewrite HL0 in W. lia.
        * exists s', (S k). split; [exact E1|]. cbn [length firstn map]. split; [lia|]. split; [intros Q; apply E3; lia|].
          split; [eapply frame_trans; [|exact E4]; repeat split|]. split.
          { eapply (wrote_trans R lq s s1 s' [chal_rr q c]); eauto. }
          split; [rewrite E6; cbn; lia|rewrite E7; reflexivity].
  Qed.
  Lemma map_firstn {A B} (f : A -> B) n l : map f (firstn n l) = firstn n (map f l).
  Proof. revert l. induction n; intros [|x l]; cbn; f_equal; auto. Qed.

  Lemma is_acme_eq q : is_acme q = fst (chal_name q) /\ (if is_acme q then tl q else q) = snd (chal_name q).
  Proof. destruct q as [|l q]; [split; reflexivity|]. cbn [is_acme chal_name]. unfold acme_label, acme. destruct (bytes_eqb l _); split; reflexivity. Qed.

  (** ** The last step of an authoritative answer *)
  Definition gen (q : name) (qt : N) (z : name) (zn : node) (found : option node) (rs : list rrset) : rep :=
    let sel := filter (fun r => rrset_type r =? qt)%N rs in
    let cs := chals (snd (chal_name q)) in
    let known := match found, cs with None, [] => false | _, _ => true end in
    {| r_rcode := if known then 0 else 3; r_aa := true; r_chain := [];
       r_an := if (qt =? 255)%N then (if known then [hinfo_rr q] else []) else flat_map (records_of dyn q) sel;
       r_chal := if (fst (chal_name q) && (qt =? 16)%N)%bool then map (chal_rr q) cs else [];
       r_ns := flat_map (records_of dyn z) (filter (fun r => rrset_type r =? 6)%N (n_rrsets zn));
       r_ar := if (qt =? 255)%N then [] else flat_map glue_of sel |}.

  Lemma rrs_size_firstn k rs : (rrs_size (firstn k rs) <= rrs_size rs)%N.
  Proof. rewrite <- (firstn_skipn k rs) at 2. rewrite rrs_size_app. lia. Qed.
  Definition reply_in (s s' : st) (r : rep) : Prop :=
    exists d, s_out s' = s_out s ++ d /\ (N.of_nat (length d) <= rep_size r)%N /\ s_cn s' = (s_cn s + N.of_nat (length (r_chain r)))%N /\
      (s_aa s = false -> s_aa s' = r_aa r) /\ (s_aa s = true -> s_aa s' = true) /\
      reply_ok R max_response (length (s_out s)) (s_out s') (N.of_nat (length (r_chain r)) + s_an s') (s_ns s') (s_ar s') (s_rcode s') (r_aa r) r.

  Lemma get_soa_ok : forall rs, NoDup (map rrset_type rs) -> Forall wf_rrset rs -> (exists r, In r rs /\ rrset_type r = 6%N) ->
    exists ttl m r t, get_soa rs = Ok (ttl, m, r, t) /\ filter (fun r => rrset_type r =? 6)%N rs = [RsSOA ttl m r t] /\ In (RsSOA ttl m r t) rs.
  Proof.
    induction rs as [|x rs IH]; intros ND HW (r & I & T); [destruct I|].
    cbn [map] in ND. apply NoDup_cons_iff in ND. destruct ND as [N1 N2]. apply Forall_cons_iff in HW. destruct HW as [W1 W2].
    destruct (N.eq_dec (rrset_type x) 6) as [E|E].
    - destruct x as [| | | | | | | | | | |ttl m r0 t| |ty ttl rd]; try discriminate E.
      + exists ttl, m, r0, t. split; [reflexivity|]. split; [|now left].
        cbn [filter]. change (rrset_type (RsSOA ttl m r0 t) =? 6)%N with true. cbn iota. f_equal.
        destruct (select_type 6 rs N2) as [[F _]|(r' & F & I' & T')]; [assumption|]. exfalso. apply N1. cbn [rrset_type]. change T_SOA with 6%N. rewrite <- T'. now apply in_map.
      + cbn in E. subst ty. exfalso. apply W1. cbn. tauto.
    - destruct I as [->|I]; [contradiction|]. destruct (IH N2 W2 (ex_intro _ r (conj I T))) as (ttl & m & r0 & t & E1 & E2 & E3).
      exists ttl, m, r0, t. split; [destruct x; try exact E1; now contradiction E|]. split; [|now right].
      cbn [filter]. destruct (N.eqb_spec (rrset_type x) 6); [contradiction|exact E2].
  Qed.

  Definition base (s : st) (q z : name) : Prop :=
    inv (s_out s) (s_cts s) /\ owner_at s (s_qc s) q /\ owner_at s (s_ac s) z /\ s_an s = 0%N /\ s_ns s = 0%N /\ s_ar s = 0%N /\ s_rcode s = 0%N.

  Lemma final_ok s q z zn found rs : base s q z -> in_zone root q z zn found -> s_qtype s <> 255%N \/ True ->
    NoDup (map rrset_type rs) -> Forall wf_rrset rs ->
    (forall r, In r rs -> rrset_type r <> 65295%N) ->
    (forall r, In r rs -> rrset_type r = 5%N -> rs = [r]) ->
    (forall r, In r rs -> rrset_type r = 2%N \/ rrset_type r = 6%N -> q = z) ->
    (forall r, In r rs -> match r with RsADyn _ _ x | RsAAAADyn _ _ x => d_cname (dyn x) = None | _ => True end) ->
    (rs <> [] -> found <> None) ->
    forall qt, qt = (match rs with r :: _ => if ((s_qtype s =? 255) && (rrset_type r =? 5))%N%bool then 5%N else s_qtype s | [] => s_qtype s end) ->
    (N.of_nat (length (s_out s)) + rep_size (gen q qt z zn found rs) <= MAX_BUF)%N ->
    exists s', do_final_auth_response lq draws dyn chals max_response s q found zn rs = Ok s' /\ reply_in s s' (gen q qt z zn found rs).
  Proof.
    intros (HI & HO & HZ & A0 & NS0 & AR0 & RC0) HIN _ ND HW HNDY HCN HAP HDY HFO qt Eqt HB.
    unfold do_final_auth_response. cbv zeta. set (s0 := set_flags s true (s_rcode s)).
    (* the type finally looked for *)
    set (sq := match rs with r :: _ => if ((s_qtype s0 =? T_ANY) && (rrset_type r =? T_CNAME))%N%bool then set_qtype s0 T_CNAME else s0 | [] => s0 end).
    assert (Sq : s_out sq = s_out s /\ s_cts sq = s_cts s /\ s_qc sq = s_qc s /\ s_ac sq = s_ac s /\ s_an sq = 0%N /\ s_ns sq = 0%N /\ s_ar sq = 0%N /\
                 s_rcode sq = 0%N /\ s_aa sq = true /\ s_cn sq = s_cn s /\ s_qtype sq = qt).
    { unfold sq. destruct rs as [|r rs]; [subst qt; repeat split; assumption|].
      change (s_qtype s0) with (s_qtype s). unfold T_ANY, T_CNAME.
      destruct ((s_qtype s =? 255) && (rrset_type r =? 5))%N%bool; subst qt; repeat split; assumption. }
    destruct Sq as (Q1 & Q2 & Q3 & Q4 & Q5 & Q6 & Q7 & Q8 & Q9 & Q10 & Q11).
    set (G := gen q qt z zn found rs) in *.
    set (sel := filter (fun r => rrset_type r =? qt)%N rs).
    (* static and plugin data *)
    assert (ST1 : exists s1 an' ar', (match rs with [] => Ok s0 | r :: _ =>
          let s := if ((s_qtype s0 =? T_ANY) && (rrset_type r =? T_CNAME))%N%bool then set_qtype s0 T_CNAME else s0 in
          if (s_qtype s =? T_ANY)%N then Ok s else construct_normal_response lq draws dyn s rs end) = Ok s1 /\
        frame sq s1 /\ Permutation an' (if (qt =? 255)%N then [] else flat_map (records_of dyn q) sel) /\
        Permutation ar' (r_ar G) /\ wrote s s1 (an' ++ ar') /\ s_an s1 = N.of_nat (length an') /\ s_ar s1 = N.of_nat (length ar')).
    { assert (ID : exists an' ar', frame sq sq /\ Permutation an' (@nil rr) /\ Permutation ar' (@nil rr) /\ wrote s sq (an' ++ ar') /\
         s_an sq = N.of_nat (length an') /\ s_ar sq = N.of_nat (length ar')).
      { exists [], []. split; [apply frame_refl|]. split; [constructor|]. split; [constructor|]. cbn [app length].
        split; [apply wrote_nil; [assumption|rewrite Q1, Q2; assumption]|]. split; assumption. }
      assert (W0 : wrote s sq []) by (apply wrote_nil; [assumption|rewrite Q1, Q2; assumption]).
      assert (EM : (match rs with [] => Ok s0 | r :: _ =>
          let s := if ((s_qtype s0 =? T_ANY) && (rrset_type r =? T_CNAME))%N%bool then set_qtype s0 T_CNAME else s0 in
          if (s_qtype s =? T_ANY)%N then Ok s else construct_normal_response lq draws dyn s rs end) =
          if (qt =? 255)%N then Ok sq else construct_normal_response lq draws dyn sq rs).
      { rewrite <- Q11. unfold sq. clear. destruct rs; cbn [construct_normal_response]; [now destruct (s_qtype s0 =? 255)%N|reflexivity]. }
      rewrite EM. clear EM. destruct (N.eqb_spec qt 255) as [EA|EA].
      + destruct ID as (an' & ar' & I1 & I2 & I3 & I4 & I5 & I6). exists sq, an', ar'. split; [reflexivity|]. split; [assumption|].
        split; [exact I2|]. split; [unfold G, gen; cbn [r_ar]; destruct (N.eqb_spec qt 255); [exact I3|contradiction]|]. auto.
      + rewrite construct_ok by assumption. rewrite Q11. fold sel.
          assert (EG : r_ar G = flat_map glue_of sel) by (unfold G, gen, sel; cbn [r_ar]; destruct (N.eqb_spec qt 255); [contradiction|reflexivity]).
          assert (EN : r_an G = flat_map (records_of dyn q) sel) by (unfold G, gen, sel; cbn [r_an]; destruct (N.eqb_spec qt 255); [contradiction|reflexivity]).
          rewrite EG. destruct (select_type qt rs ND) as [[F _]|(r & F & I & T)].
          * unfold sel. rewrite F. cbn [flat_map]. destruct ID as (an' & ar' & I1 & I2 & I3 & I4 & I5 & I6). exists sq, an', ar'.
            repeat (split; [first [assumption|reflexivity]|]). assumption.
          * unfold sel in *. rewrite F in *. cbn [flat_map] in *. rewrite ?app_nil_r in *.
            destruct (encode_rrset_ok R lq R_refl R_cons draws draws_legal dyn root sq q r) as (s1 & an' & ar' & E1 & E2 & E3 & E4 & E5 & E6 & E7).
            -- rewrite Q1, Q2. assumption.
            -- rewrite Q3. eapply owner_wrote; eauto.
            -- intros HT. rewrite Q4. rewrite (HAP r I HT). eapply owner_wrote; eauto.
            -- rewrite Forall_forall in HW. auto.
            -- rewrite Q11. assumption.
            -- auto.
            -- assumption.
            -- apply (HDY r I).
            -- rewrite Q1. unfold rep_size in HB. rewrite EG, EN in HB. lia.
            -- exists s1, an', ar'. split; [assumption|]. split; [assumption|]. split; [assumption|]. split; [assumption|].
               split; [change (an' ++ ar') with ([] ++ an' ++ ar'); eapply wrote_trans; eauto|]. rewrite E6, E7, Q5, Q7. split; reflexivity. }
    destruct ST1 as (s1 & an1 & ar1 & E1 & (B1 & B2 & B3 & B4 & B5 & B6 & B7) & P1 & P2 & W1 & C1 & C2).
    cbv zeta in E1. rewrite E1. cbn [rbind]. clear E1.
    assert (LEN1 : length an1 = length (if (qt =? 255)%N then [] else flat_map (records_of dyn q) sel)) by now apply Permutation_length.
    (* challenges *)
    rewrite B5, Q11. unfold T_TXT at 1.
    destruct (is_acme_eq q) as [EA1 EA2].
    assert (SZ1 : (N.of_nat (length (s_out s1)) <= N.of_nat (length (s_out s)) + rrs_size an1 + rrs_size ar1)%N).
    { pose proof (wrote_len _ _ _ _ _ W1) as Q. rewrite rrs_size_app in Q. lia. }
    assert (KN : exists s2 cm k, (if ((qt =? 16) || (s_an s1 =? 0))%N%bool then chal_respond chals max_response s1 q else Ok (s1, false)) = Ok (s2, cm) /\
        k <= length (r_chal G) /\ (k < length (r_chal G) -> (max_response < N.of_nat (length (s_out s2)) + 56)%N) /\
        frame s1 s2 /\ wrote s1 s2 (firstn k (r_chal G)) /\ s_an s2 = (s_an s1 + N.of_nat k)%N /\ s_ar s2 = s_ar s1 /\
        (s_an s1 = 0%N -> cm = match chals (snd (chal_name q)) with [] => false | _ => true end)).
    { assert (WID : wrote s1 s1 []) by (apply wrote_nil; [reflexivity|eapply wrote_inv; eauto]).
      assert (EGC : r_chal G = if (fst (chal_name q) && (qt =? 16)%N)%bool then map (chal_rr q) (chals (snd (chal_name q))) else []) by reflexivity.
      destruct ((qt =? 16) || (s_an s1 =? 0))%N%bool eqn:EC.
      - unfold chal_respond. rewrite EA2, B5, Q11. rewrite EA1. unfold T_TXT.
        rewrite EGC. destruct (chals (snd (chal_name q))) as [|c cs] eqn:ECH.
        + exists s1, false, 0. split; [reflexivity|]. split; [lia|]. cbn [map length].
          split; [destruct (fst (chal_name q) && (qt =? 16)%N)%bool; cbn; lia|].
          split; [apply frame_refl|]. cbn [firstn]. split; [exact WID|]. split; [lia|]. auto.
        + destruct (fst (chal_name q) && (qt =? 16)%N)%bool eqn:EB.
          * assert (QT16 : qt = 16%N) by (apply andb_true_iff in EB; destruct EB as [_ EB]; now apply N.eqb_eq in EB).
            assert (OS : owner_at s1 (s_qc s1) q) by (rewrite B1, Q3; exact (owner_wrote _ _ _ _ _ _ _ W1 HO)).
            destruct (chal_emit_ok q (c :: cs) s1) as (s2 & k & F1 & F2 & F3 & F4 & F5 & F6 & F7).
            { exact (wrote_inv _ _ _ _ _ W1). }
            { exact OS. }
            { rewrite <- ECH. apply chals_ok. }
            { unfold rep_size in HB. rewrite EGC in HB.
              assert (EN : r_an G = flat_map (records_of dyn q) sel) by (unfold G, gen, sel; cbn [r_an]; now rewrite QT16).
              rewrite EN in HB. rewrite QT16 in P1. cbn [N.eqb Pos.eqb] in P1.
              rewrite (rrs_size_perm _ _ P1), (rrs_size_perm _ _ P2) in SZ1. subst qt. lia. }
            rewrite F1. cbn [rbind]. exists s2, true, k. split; [reflexivity|]. rewrite map_length. split; [assumption|]. split; [assumption|].
            split; [assumption|]. split; [rewrite <- map_firstn; exact F5|]. split; [assumption|]. split; [assumption|]. auto.
          * exists s1, true, 0. split; [reflexivity|]. cbn [length firstn]. split; [lia|]. split; [lia|]. split; [apply frame_refl|]. split; [exact WID|]. split; [lia|]. auto.
      - exists s1, false, 0. split; [reflexivity|]. split; [lia|].
        apply orb_false_iff in EC. destruct EC as [EC1 EC2]. rewrite EGC, EC1, andb_false_r. cbn [length firstn].
        split; [lia|]. split; [apply frame_refl|]. split; [exact WID|]. split; [lia|]. split; [reflexivity|]. intros Q. rewrite Q in EC2. discriminate. }
    destruct KN as (s2 & cm & k & E2 & K1 & K2 & (D1 & D2 & D3 & D4 & D5 & D6 & D7) & W2 & C3 & C4 & CM).
    rewrite E2. cbn [rbind]. clear E2.
    set (known := match found, chals (snd (chal_name q)) with None, [] => false | _, _ => true end).
    assert (KEQ : s_an s1 = 0%N -> (match found with Some _ => true | None => false end || cm)%bool = known).
    { intros Q. rewrite (CM Q). unfold known. destruct found, (chals (snd (chal_name q))); reflexivity. }
    (* ANY *)
    rewrite D5, B5, Q11. unfold T_ANY.
    assert (WS2 : wrote s s2 ((an1 ++ ar1) ++ firstn k (r_chal G))) by (eapply wrote_trans; eauto).
    assert (AR_CHAL : k <> 0 -> ar1 = []).
    { intros Q. assert (qt = 16%N).
      { unfold G, gen in K1. cbn [r_chal] in K1. destruct (fst (chal_name q)); cbn [andb] in K1; [|cbn in K1; lia].
        destruct (N.eqb_spec qt 16); [assumption|cbn in K1; lia]. }
      unfold G, gen in P2. cbn [r_ar] in P2. destruct (N.eqb_spec qt 255); [lia|].
      assert (EZ : flat_map glue_of (filter (fun r => rrset_type r =? qt)%N rs) = []).
      { destruct (select_type qt rs ND) as [[F _]|(r & F & I & T)]; rewrite F; [reflexivity|]. cbn [flat_map]. rewrite app_nil_r.
        destruct r; try reflexivity. cbn in T. unfold T_NS in T. congruence. }
      rewrite EZ in P2. apply Permutation_sym, Permutation_nil in P2. exact P2. }
    assert (ST3 : exists s3 an3, (if (qt =? 255)%N then rassert (s_an s2 =? 0)%N
              (if (match found with Some _ => true | None => false end || cm)%bool then
                 do out <- repeat_name (s_out s2) (s_qc s2); do out <- emit out hinfo_for_any;
                 Ok (set_counts (set_out s2 out (s_cts s2)) 1 (s_cn s2) (s_ns s2) (s_ar s2)) else Ok s2) else Ok s2) = Ok s3 /\
        frame s2 s3 /\ Permutation an3 (r_an G) /\ wrote s s3 ((an3 ++ ar1) ++ firstn k (r_chal G)) /\
        s_an s3 = N.of_nat (length an3 + k) /\ s_ar s3 = N.of_nat (length ar1) /\ length (s_out s2) <= length (s_out s3)).
    { destruct (N.eqb_spec qt 255) as [EA|EA].
      - cbn [length] in LEN1. apply length_zero_iff_nil in LEN1. subst an1.
        assert (K0 : k = 0). { unfold G, gen in K1. cbn [r_chal] in K1. destruct (N.eqb_spec qt 16); [lia|]. rewrite andb_false_r in K1. cbn in K1. lia. }
        assert (AR0' : ar1 = []). { unfold G, gen in P2. cbn [r_ar] in P2. destruct (N.eqb_spec qt 255); [|contradiction]. apply Permutation_sym, Permutation_nil in P2. exact P2. }
        subst k ar1. cbn [length firstn app] in *. rewrite C3, C1. cbn [N.eqb N.add N.of_nat rassert]. rewrite (KEQ C1).
        assert (EN : r_an G = if known then [hinfo_rr q] else []) by (unfold G, gen, known; cbn [r_an]; destruct (N.eqb_spec qt 255); [reflexivity|contradiction]).
        rewrite EN. destruct known eqn:EK.
        + pose proof (owner_wrote _ _ _ _ _ _ _ WS2 HO) as (o & e & HN & HR).
          assert (SB : (N.of_nat (length (s_out s)) + 21 <= MAX_BUF)%N).
          { unfold rep_size in HB. rewrite EN in HB. change (rrs_size [hinfo_rr q]) with 21%N in HB. lia. }
          assert (EO : length (s_out s2) = length (s_out s)).
          { destruct WS2 as (d & Ed & _ & Ld & _). rewrite Ed, app_length. change (rrs_size []) with 0%N in Ld. lia. }
          assert (EQC : s_qc s2 = s_qc s) by congruence. rewrite EQC.
          destruct (repeat_name_ok (s_out s2) (s_qc s) o e HN) as (od & F1 & F2 & F3); [lia|]. rewrite F1. cbn [rbind].
          assert (LH : length hinfo_for_any = 19) by reflexivity.
          rewrite emit_ok by (rewrite app_length, LH; lia). cbn [rbind].
          eexists _, [hinfo_rr q]. split; [reflexivity|]. split; [repeat split|]. split; [reflexivity|]. cbn [app set_counts set_out s_an s_ar length].
          split; [|split; [reflexivity|split; [rewrite C4, C2; reflexivity|unfold set_counts, set_out; cbn [s_out]; rewrite !app_length; lia]]].
          change [hinfo_rr q] with ([] ++ [hinfo_rr q]). eapply wrote_trans; [exact WS2|]. exists (od ++ hinfo_for_any).
          cbn [set_counts set_out s_out s_cts]. split; [now rewrite app_assoc|]. split; [apply inv_app, inv_app; eapply wrote_inv; exact WS2|].
          split; [rewrite app_length, LH; change (rrs_size [hinfo_rr q]) with 21%N; lia|].
          econstructor; [|constructor]. exists o, (length (s_out s2 ++ od)).
          assert (LT : length ((s_out s2 ++ od) ++ hinfo_for_any) = length (s_out s2 ++ od) + 19) by (rewrite app_length, LH; reflexivity).
          rewrite LT. split; [now apply name_at_app|]. split; [exact HR|]. split; [lia|].
          replace (length (s_out s2 ++ od) + 19 - (length (s_out s2 ++ od) + 10)) with 9 by lia. split; [reflexivity|]. split.
          * rewrite <- (Nat.add_0_r (length (s_out s2 ++ od))), sub_app_r. reflexivity.
          * cbn [hinfo_rr mk_rr rr_data]. replace (length (s_out s2 ++ od) + 19) with (length (s_out s2 ++ od) + 10 + length [7%N; 82%N; 70%N; 67%N; 56%N; 52%N; 56%N; 50%N; 0%N]) by (cbn [length]; lia).
            constructor; [rewrite LT; cbn [length]; lia| |constructor]. rewrite sub_app_r. reflexivity.
        + exists s2, []. split; [reflexivity|]. split; [apply frame_refl|]. split; [constructor|]. cbn [app length plus]. split; [exact WS2|]. split; [rewrite C3, C1; reflexivity|split; [rewrite C4, C2; reflexivity|lia]].
      - exists s2, an1. split; [reflexivity|]. split; [apply frame_refl|].
        split; [unfold G, gen; cbn [r_an]; destruct (N.eqb_spec qt 255); [contradiction|exact P1]|]. split; [exact WS2|].
        split; [rewrite C3, C1; lia|split; [rewrite C4, C2; reflexivity|lia]]. }
    destruct ST3 as (s3 & an3 & E3 & (F1 & F2 & F3 & F4 & F5 & F6 & F7) & P3 & W3 & C5 & C6 & LEQ).
    rewrite E3. cbn [rbind]. clear E3.
    assert (AAG : r_aa G = true) by reflexivity. assert (CHG : r_chain G = []) by reflexivity.
    assert (RC3 : s_rcode s3 = 0%N) by congruence.
    assert (CN3 : s_cn s3 = s_cn s) by congruence. assert (AA3 : s_aa s3 = true) by congruence. assert (NS3 : s_ns s3 = 0%N) by congruence.
    assert (KR : known = false -> r_an G = [] /\ k = 0).
    { intros EK. unfold known in EK. destruct found; [discriminate|]. destruct (chals (snd (chal_name q))) eqn:EC; [|discriminate].
      assert (rs = []) by (destruct rs; [reflexivity|exfalso; apply HFO; [discriminate|reflexivity]]). subst rs.
      split; [unfold G, gen; cbn [r_an filter flat_map]; rewrite EC; now destruct (qt =? 255)%N|].
      unfold G, gen in K1. cbn [r_chal] in K1. rewrite EC in K1. cbn [map] in K1. destruct (_ && _)%bool in K1; cbn in K1; lia. }
    rewrite C5. destruct (N.eqb_spec (N.of_nat (length an3 + k)) 0) as [Z|Z].
    - (* nothing: SOA in the authority section *)
      assert (an3 = []) by (destruct an3; [reflexivity|cbn in Z; lia]). assert (k = 0) by lia. subst an3 k. cbn [firstn app length] in *. rewrite app_nil_r in W3.
      apply Permutation_nil in P3.
      assert (ARN : ar1 = []).
      { destruct (N.eqb_spec qt 255) as [EA|EA].
        - unfold G, gen in P2. cbn [r_ar] in P2. destruct (N.eqb_spec qt 255); [|contradiction]. now apply Permutation_sym, Permutation_nil in P2.
        - unfold G, gen in P2, P3. cbn [r_ar r_an] in P2, P3. destruct (N.eqb_spec qt 255); [contradiction|].
          destruct (select_type qt rs ND) as [[F _]|(r & F & I & T)]; rewrite F in *; [now apply Permutation_sym, Permutation_nil in P2|].
          cbn [flat_map] in *. rewrite app_nil_r in *. destruct r; try (now apply Permutation_sym, Permutation_nil in P2).
          exfalso. rewrite Forall_forall in HW. destruct (HW _ I) as [NE _]. cbn [records_of] in P3. apply map_eq_nil in P3. contradiction. }
      subst ar1. cbn [app length] in *.
      destruct HIN as (HZO & HIN2 & HIN3). destruct WFD as (WF1 & WF2 & WF3). pose proof (WF2 _ _ _ HZO) as (rsoa & RS1 & RS2).
      pose proof HZO as [(_ & AZ & _) _]. destruct (WF1 _ _ AZ) as (_ & WR & WN & _).
      destruct (get_soa_ok (n_rrsets zn) WN WR (ex_intro _ rsoa (conj RS1 RS2))) as (ttl & m & r & t & G1 & G2 & G3).
      rewrite G1. cbn [rbind].
      assert (ENS : r_ns G = records_of dyn z (RsSOA ttl m r t)) by (unfold G, gen; cbn [r_ns]; rewrite G2; cbn [flat_map]; apply app_nil_r).
      assert (WSO : wf_rrset (RsSOA ttl m r t)) by (rewrite Forall_forall in WR; apply (WR _ G3)). destruct WSO as (WS1 & WS2' & WS3).
      unfold encode_rr_soa. assert (AC3 : s_ac s3 = s_ac s) by congruence. rewrite AC3.
      destruct (enc_set_ok R lq R_refl R_cons s3 (s_ac s) z T_SOA ttl [[WComp true m; WComp false r; WBytes t]]) as (out & c & H1 & H2).
      { eapply wrote_inv; eauto. } { eapply owner_wrote; eauto. } { repeat apply Forall_cons; try apply Forall_nil; try exact I; assumption. }
      { pose proof (wrote_len _ _ _ _ _ W3) as Q. change (rrs_size []) with 0%N in Q. unfold rep_size in HB. rewrite P3, ENS in HB. cbn [map to_d].
        change (rrs_size [mk_rr z T_SOA ttl [DName m; DName r; DBytes t]]) with (rrs_size (records_of dyn z (RsSOA ttl m r t))). lia. }
      rewrite H1. cbn [rbind add_an set_counts set_out s_an s_ns]. rewrite C5, NS3. cbn [N.of_nat N.add N.eqb Pos.eqb andb rassert].
      assert (CMK : (negb (match found with Some _ => true | None => false end) && negb cm)%bool = negb known).
      { rewrite <- negb_orb. f_equal. apply KEQ.
        destruct (N.eqb_spec qt 255); [rewrite C1, LEN1; reflexivity|].
        rewrite C1. apply Permutation_length in P1. rewrite P1. unfold G, gen in P3. cbn [r_an] in P3. destruct (N.eqb_spec qt 255); [contradiction|].
        fold sel in P3. rewrite P3. reflexivity. }
      rewrite CMK. set (s4 := set_counts _ _ _ _ _).
      assert (RG : r_rcode G = if known then 0%N else 3%N) by reflexivity.
      assert (ES : (if negb known then set_flags s4 (s_aa s4) 3 else s4) = set_flags s4 true (r_rcode G)).
      { rewrite RG. destruct known; cbn [negb]; unfold s4, set_flags, set_counts, set_out; cbn; rewrite ?RC3, ?AA3; reflexivity. }
      eexists. split; [reflexivity|]. rewrite ES.
      pose proof (wrote_trans R lq s s3 (set_out s3 out c) [] _ W3 H2) as W4. cbn [app map to_d] in W4. destruct W4 as (d & Y1 & Y2 & Y3 & Y4).
      exists d. unfold s4, add_an, set_flags, set_counts, set_out in *. cbn [s_out s_cn s_aa s_an s_ns s_ar s_rcode s_cts] in *. rewrite CHG. cbn [length].
      split; [assumption|]. split; [unfold rep_size; rewrite P3, ENS; change (rrs_size [mk_rr z T_SOA ttl [DName m; DName r; DBytes t]]) with (rrs_size (records_of dyn z (RsSOA ttl m r t))) in Y3; lia|]. split; [rewrite CN3; cbn; lia|]. split; [auto|]. split; [auto|].
      exists 0, [], (r_ns G), [], (length (s_out s)), (length out). rewrite CHG. cbn [firstn app length].
      split; [lia|]. split. { intros Q. specialize (K2 Q). destruct H2 as (d2 & X2 & _). cbn [s_out] in X2. rewrite X2, app_length. lia. }
      rewrite P3. split; [constructor|]. split; [exact P2|]. split; [reflexivity|]. split; [constructor|].
      split; [rewrite ENS; exact Y4|]. split; [constructor|]. split; [reflexivity|]. split; [rewrite ENS; reflexivity|].
      split; [exact C6|]. split; reflexivity.
    - exists s3. split; [reflexivity|]. pose proof W3 as (d & Y1 & Y2 & Y3 & Y4). exists d. rewrite CHG. cbn [length].
      split; [assumption|].
      split; [rewrite !rrs_size_app, (rrs_size_perm _ _ P3), (rrs_size_perm _ _ P2) in Y3; pose proof (rrs_size_firstn k (r_chal G)); unfold rep_size; lia|].
      split; [rewrite CN3; lia|]. split; [intros _; rewrite AAG; exact AA3|]. split; [auto|].
      assert (ARK : ar1 = [] \/ k = 0) by (destruct (Nat.eq_dec k 0); [now right|left; auto]).
      assert (SPL : exists e1, rrs_at R (s_out s3) (length (s_out s)) (an3 ++ firstn k (r_chal G)) e1 /\ rrs_at R (s_out s3) e1 ar1 (length (s_out s3))).
      { destruct ARK as [-> | ->].
        - rewrite app_nil_r in Y4. eexists. split; [exact Y4|constructor].
        - cbn [firstn] in *. rewrite app_nil_r in *. clear -Y4. revert Y4. generalize (length (s_out s)). induction an3 as [|x an3 IH]; intros off H.
          + eexists. split; [constructor|exact H].
          + cbn [app] in H. inversion H as [|o r e1 rs e H1 H2]; subst. destruct (IH _ H2) as (e & Q1 & Q2). eexists. split; [econstructor; eauto|exact Q2]. }
      destruct SPL as (e1 & Z1 & Z2).
      exists k, an3, [], ar1, e1, e1. rewrite CHG. cbn [app]. split; [assumption|].
      split. { intros Q. specialize (K2 Q). lia. }
      split; [assumption|]. split; [assumption|].
      split. { apply Permutation_length in P3. destruct (r_an G); [|reflexivity]. destruct k; [|reflexivity]. cbn in P3. lia. }
      split; [exact Z1|]. split; [constructor|]. split; [exact Z2|].
      split. { rewrite app_length, firstn_length. rewrite C5. rewrite Nat.min_l by assumption. lia. }
      split; [rewrite NS3; reflexivity|]. split; [exact C6|]. split; [|reflexivity].
      rewrite RC3. change (r_rcode G) with (if known then 0%N else 3%N). destruct known eqn:EK; [reflexivity|].
      destruct (KR eq_refl) as [KR1 KR2]. rewrite KR1 in P3. apply Permutation_sym, Permutation_nil in P3. subst. cbn in Z. lia.
  Qed.
End Final.
