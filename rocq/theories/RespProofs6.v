(** The whole lookup. *)
From Coq Require Import Sorting.Permutation.
From Verif Require Import Base DnameModel DnameSpec DnameProofs DnameProofs2 RandModel RandSpec RandProofs CompModel CompSpec CompProofs RespModel RespSpec RespProofs RespProofs2 RespProofs3 RespProofs4 RespProofs5.
Ltac Zify.zify_post_hook ::= idtac.

Lemma auth_depth_ok p z : auth_depth (p ++ z) (length p) = length (wire_labels p).
Proof.
  unfold auth_depth. rewrite firstn_app, Nat.sub_diag, firstn_all, firstn_O, app_nil_r.
  induction p as [|l p IH]; [reflexivity|]. cbn [map list_sum fold_right wire_labels length]. rewrite app_length. unfold list_sum in IH. lia.
Qed.
Lemma wire_labels_count p : length p <= length (wire_labels p).
Proof. induction p as [|l p IH]; [cbn; lia|]. cbn [wire_labels length]. rewrite app_length. lia. Qed.
Lemma legal_suffix p z : legal_name (p ++ z) -> legal_name z.
Proof. intros [H1 H2]. apply Forall_app in H1. split; [tauto|]. rewrite <- wn_len in *. rewrite wn_app, app_length in H2. lia. Qed.
Lemma effective_other dyn rs qt : (forall mx mn x, rs <> [RsDYNC mx mn x]) -> (forall ttl n, rs <> [RsCNAME ttl n]) -> effective dyn rs qt = (rs, qt).
Proof. intros H1 H2. destruct rs as [|r [|r2 rs]]; [reflexivity| |destruct r; reflexivity]. destruct r; try reflexivity; [now edestruct H2|now edestruct H1]. Qed.

Section Db.
  Variable R : list (list N) -> list (list N) -> Prop.
  Variable lq : bytes.
  Hypothesis R_refl : forall ls, R ls ls.
  Hypothesis R_cons : forall l a b, R a b -> R (l :: a) (l :: b).
  Variable draws : nat -> nat -> list nat.
  Hypothesis draws_legal : forall off n, legal_draws (n - 1) (draws off n).
  Variable dyn : N -> dynres.
  Variable chals : name -> list (N * bytes).
  Hypothesis chals_ok : forall n, Forall (fun c => length (snd c) = 44) (chals n).
  Variable max_response : N.
  Variable no_chain : bool.
  Variable root : node.
  Hypothesis WFD : wf_db root.
  Hypothesis WFY : wf_dyn dyn root.
  Hypothesis MODE : no_chain = true \/ (forall a b, R a b -> a = b).
  Notation inv := (inv R lq).
  Notation owner_at := (owner_at R).
  Notation reply_in := (reply_in R max_response).
  Notation lookup := (db_lookup lq draws dyn chals max_response no_chain root).

  Definition ready (s : st) (q : name) (via : bool) : Prop :=
    legal_name q /\ inv (s_out s) (s_cts s) /\ s_an s = 0%N /\ s_ns s = 0%N /\ s_ar s = 0%N /\ s_rcode s = 0%N /\
    (if via then
       no_chain = false /\ 12 <= s_qc s /\ owner_at s (s_qc s) q /\ qcts lq (s_cts s) /\
       exists q0 b p z zn, lq = wn q0 /\ legal_name q0 /\ q0 = b ++ z /\ q = p ++ z /\ zone_of root q z zn /\ zlit (s_out s) (s_qc s) p z
     else s_qc s = 12 /\ lq = wn q /\ s_cts s = []).

  Lemma question_shape out q : question_at R out lq -> lq = wn q -> legal_name q ->
    exists hd qls tail, out = hd ++ wn qls ++ tail /\ length hd = 12 /\ Forall legal_label qls /\ Forall2 (fun a b => length a = length b) qls q /\
      (forall n, R (skipn n qls) (skipn n q)) /\ (no_chain = false -> qls = q).
  Proof.
    intros (qls & qlow & H1 & H2 & H3 & H4 & H5 & hd & tail & H6 & H7) E [HL _].
    assert (qlow = q) by (apply wn_inj; auto; congruence). subst qlow.
    exists hd, qls, tail. repeat (split; [assumption|]). intros NC. destruct MODE as [M|M]; [congruence|]. apply M. apply (H5 0).
  Qed.
  Lemma split_at (qls q p z : name) : q = p ++ z -> Forall2 (fun a b : list N => length a = length b) qls q ->
    exists qp qz, qls = qp ++ qz /\ length (wire_labels qp) = length (wire_labels p) /\ qz = skipn (length p) qls.
  Proof.
    intros E F. exists (firstn (length p) qls), (skipn (length p) qls). split; [now rewrite firstn_skipn|]. split; [|reflexivity].
    apply (wire_labels_len2 R R_refl R_cons). pose proof (Forall2_firstn _ (length p) _ _ F) as F1. rewrite E in F1.
    rewrite firstn_app, Nat.sub_diag, firstn_all, firstn_O, app_nil_r in F1. exact F1.
  Qed.

  Lemma ready_owner s q via : ready s q via -> owner_at s (s_qc s) q.
  Proof.
    intros (HL & HI & _ & _ & _ & _ & H). destruct via; [tauto|]. destruct H as (-> & E & _). destruct HI as (HQ & _).
    destruct (question_shape _ _ HQ E HL) as (hd & qls & tail & EO & L & LL & F & HR & _).
    exists qls, (length hd + wire_len qls). rewrite EO, <- L. split; [unfold wn; apply name_at_full; [rewrite ?app_length; lia|now apply legal_lens]|]. apply (HR 0).
  Qed.

  Lemma ac_ok s q via p z : ready s q via -> q = p ++ z ->
    exists ac, (if via then chase_auth_ptr (S (length (wire_labels p) * S (length (s_out s)) + s_qc s)) (s_out s) (s_qc s) (length (wire_labels p))
                else Ok (s_qc s + length (wire_labels p))) = Ok ac /\ owner_at s ac z /\
      (no_chain = false -> forall zn, zone_of root q z zn -> lit (s_out s) ac (wn z)).
  Proof.
    intros HRD E. pose proof HRD as (HL & HI & _ & _ & _ & _ & H). destruct via.
    - destruct H as (NC & H12 & (o & e & HN & HR) & HC & q0 & b & p' & z' & zn' & E1 & E2 & E3 & E4 & E5 & E6).
      destruct MODE as [M|M]; [congruence|]. apply M in HR. subst o. rewrite E in HN.
      destruct (chase_ok (S (length (wire_labels p) * S (length (s_out s)) + s_qc s)) (s_out s) (s_qc s) p z e HN ltac:(lia)) as (ac & A2 & A1 & A3 & _).
      exists ac. split; [exact A1|]. split; [exists z, A2; split; [exact A3|apply R_refl]|].
      intros _ zn HZ. destruct (zone_unique _ (proj1 WFD) _ _ _ _ _ HZ E5) as [<- <-].
      assert (p' = p) by (apply (app_inv_tail z); congruence). subst p'.
      destruct (chase_zlit (s_out s) (s_qc s) p z (S (length (wire_labels p) * S (length (s_out s)) + s_qc s))) as (o & B1 & B2).
      + rewrite <- E. apply HL.
      + assumption.
      + pose proof (wire_labels_count p). nia.
      + rewrite A1 in B1. injection B1 as <-. exact B2.
    - destruct H as (Q & EQ & _). rewrite Q. destruct HI as (HQ & _).
      destruct (question_shape _ _ HQ EQ HL) as (hd & qls & tail & EO & L & LL & F & HR & HX).
      destruct (split_at qls q p z E F) as (qp & qz & S1 & S2 & S3).
      exists (12 + length (wire_labels p)). split; [reflexivity|].
      assert (EP : s_out s = (hd ++ wire_labels qp) ++ wn qz ++ tail) by (rewrite EO, S1, wn_app, <- !app_assoc; reflexivity).
      assert (LP : 12 + length (wire_labels p) = length (hd ++ wire_labels qp)) by (rewrite app_length; lia).
      assert (LZ : Forall legal_label qz) by (rewrite S1 in LL; apply Forall_app in LL; tauto).
      split.
      + exists qz, (length (hd ++ wire_labels qp) + wire_len qz). rewrite LP, EP. split; [unfold wn; apply name_at_full; [rewrite ?app_length; lia|now apply legal_lens]|].
        specialize (HR (length p)). rewrite <- S3 in HR. rewrite E in HR. rewrite skipn_app, Nat.sub_diag, skipn_all in HR. exact HR.
      + intros NC zn _. rewrite LP, EP. specialize (HX NC). replace z with qz; [apply lit_mid|].
        rewrite S3, HX, E, skipn_app, Nat.sub_diag, skipn_all. reflexivity.
  Qed.

  Lemma reply_in_eq s s1 s' r : s_out s1 = s_out s -> s_cn s1 = s_cn s -> s_aa s1 = s_aa s -> reply_in s1 s' r -> reply_in s s' r.
  Proof. intros E1 E2 E3 H. unfold RespProofs4.reply_in in *. rewrite E1, E2, E3 in H. exact H. Qed.

  (** the sets of the node found *)
  Lemma node_facts q z zn found rs : in_zone root q z zn found -> rs = match found with Some n => n_rrsets n | None => [] end ->
    NoDup (map rrset_type rs) /\ Forall wf_rrset rs /\
    (forall r, In r rs -> rrset_type r = 5%N \/ rrset_type r = 65295%N -> rs = [r]) /\
    (forall r, In r rs -> rrset_type r = 2%N \/ rrset_type r = 6%N -> q = z) /\
    (forall r, In r rs -> match r with RsADyn _ _ x | RsAAAADyn _ _ x => d_cname (dyn x) = None | _ => True end) /\
    (rs <> [] -> found <> None).
  Proof.
    intros HIN ->. destruct found as [n|].
    - destruct (found_at root (proj1 WFD) _ _ _ _ HIN) as (q' & A & B). pose proof (proj1 WFD _ _ A) as W. pose proof W as (W1 & W2 & W3 & W4 & W5 & W6).
      split; [assumption|]. split; [assumption|]. split; [assumption|]. split; [intros r I T; apply (B (W5 r I T) W)|]. split; [|discriminate].
      intros r I. destruct r; auto; eapply (proj2 WFY); eauto.
    - split; [constructor|]. split; [constructor|]. split; [intros r []|]. split; [intros r []|]. split; [intros r []|]. intros H. now contradiction H.
  Qed.

  Lemma cname_shape r : wf_rrset r -> rrset_type r = 5%N -> exists ttl n, r = RsCNAME ttl n.
  Proof. intros W T. destruct r; try discriminate T; [eauto|]. cbn in T. subst. exfalso. destruct W as [_ W]. apply W. cbn. tauto. Qed.
  Lemma dync_shape r : wf_rrset r -> rrset_type r = 65295%N -> exists mx mn x, r = RsDYNC mx mn x.
  Proof. intros W T. destruct r; try discriminate T; [eauto|]. cbn in T. subst. exfalso. destruct W as [_ W]. apply W. cbn. tauto. Qed.

  Lemma final_gen q qt z zn found rs' qt' :
    effective dyn (match found with Some n => n_rrsets n | None => [] end) qt = (rs', qt') ->
    final dyn chals q qt z zn found = gen dyn chals q qt' z zn found rs'.
  Proof. intros E. unfold final. rewrite E. reflexivity. Qed.

  (** the answer once no alias is followed *)
  Lemma auth_final s q z zn found : base R lq s q z -> legal_name q -> in_zone root q z zn found ->
    forall rs, rs = match found with Some n => n_rrsets n | None => [] end ->
    (N.of_nat (length (s_out s)) + rep_size (final dyn chals q (s_qtype s) z zn found) <= MAX_BUF)%N ->
    match rs with
    | RsDYNC mx mn x :: more =>
        exists s1 r s', process_dync dyn s x mx mn = Ok (s1, r) /\ more = [] /\
          do_final_auth_response lq draws dyn chals max_response (match r with Some (RsCNAME _ _) => set_qtype s1 T_CNAME | _ => s1 end) q found zn
            (match r with Some r => [r] | None => [] end) = Ok s' /\ reply_in s s' (final dyn chals q (s_qtype s) z zn found)
    | RsCNAME ttl t :: more =>
        more = [] /\ exists s', do_final_auth_response lq draws dyn chals max_response
          (if (negb (s_qtype s =? 5) && negb (s_qtype s =? 255))%N%bool then set_qtype s 5 else s) q found zn rs = Ok s' /\
          reply_in s s' (final dyn chals q (s_qtype s) z zn found)
    | _ => exists s', do_final_auth_response lq draws dyn chals max_response s q found zn rs = Ok s' /\ reply_in s s' (final dyn chals q (s_qtype s) z zn found)
    end.
  Proof.
    intros HB HL HIN rs Ers HSZ. pose proof (node_facts _ _ _ _ _ HIN Ers) as (F1 & F2 & F3 & F4 & F5 & F6).
    assert (GO : forall s1 rs1 qt1, s_out s1 = s_out s -> s_cts s1 = s_cts s -> s_qc s1 = s_qc s -> s_ac s1 = s_ac s -> s_an s1 = s_an s -> s_ns s1 = s_ns s ->
        s_ar s1 = s_ar s -> s_rcode s1 = s_rcode s -> s_cn s1 = s_cn s -> s_aa s1 = s_aa s ->
        NoDup (map rrset_type rs1) -> Forall wf_rrset rs1 -> (forall r, In r rs1 -> rrset_type r <> 65295%N) ->
        (forall r, In r rs1 -> rrset_type r = 5%N -> rs1 = [r]) ->
        (forall r, In r rs1 -> rrset_type r = 2%N \/ rrset_type r = 6%N -> q = z) ->
        (forall r, In r rs1 -> match r with RsADyn _ _ x | RsAAAADyn _ _ x => d_cname (dyn x) = None | _ => True end) ->
        (rs1 <> [] -> found <> None) ->
        qt1 = (match rs1 with r :: _ => if ((s_qtype s1 =? 255) && (rrset_type r =? 5))%N%bool then 5%N else s_qtype s1 | [] => s_qtype s1 end) ->
        final dyn chals q (s_qtype s) z zn found = gen dyn chals q qt1 z zn found rs1 ->
        exists s', do_final_auth_response lq draws dyn chals max_response s1 q found zn rs1 = Ok s' /\ reply_in s s' (final dyn chals q (s_qtype s) z zn found)).
    { intros s1 rs1 qt1 A1 A2 A3 A4 A5 A6 A7 A8 A9 A10 B1 B2 B3 B4 B5 B6 B7 B8 B9.
      destruct (final_ok R lq R_refl R_cons draws draws_legal dyn chals chals_ok max_response root WFD WFY s1 q z zn found rs1) with (qt := qt1) as (s' & E1 & E2); auto.
      - destruct HB as (X1 & (o & e & X2 & X2') & (o' & e' & X3 & X3') & X4 & X5 & X6 & X7).
        split; [rewrite A1, A2; assumption|]. split; [exists o, e; rewrite A1, A3; auto|]. split; [exists o', e'; rewrite A1, A4; auto|].
        rewrite A5, A6, A7, A8. auto.
      - rewrite A1, <- B9. assumption.
      - exists s'. split; [exact E1|]. rewrite B9. eapply reply_in_eq; [..|exact E2]; congruence. }
    destruct rs as [|r more].
    - eapply GO; try reflexivity; eauto; try (intros r []). apply final_gen. rewrite <- Ers. reflexivity.
    - assert (W0 : wf_rrset r) by (apply Forall_cons_iff in F2; tauto).
      assert (ALONE : rrset_type r = 5%N \/ rrset_type r = 65295%N -> more = []).
      { intros T. specialize (F3 r (or_introl eq_refl) T). now injection F3. }
      assert (OTHER : rrset_type r <> 5%N -> rrset_type r <> 65295%N ->
        exists s', do_final_auth_response lq draws dyn chals max_response s q found zn (r :: more) = Ok s' /\ reply_in s s' (final dyn chals q (s_qtype s) z zn found)).
      { intros T1 T2. eapply GO; try reflexivity; eauto.
        - intros r' I T. pose proof (F3 r' I (or_intror T)) as X. injection X as -> _. contradiction.
        - destruct (N.eqb_spec (rrset_type r) 5); [contradiction|]. rewrite andb_false_r. apply final_gen. rewrite <- Ers.
          apply effective_other; intros; intros X; injection X as -> _; [now apply T2|now apply T1]. }
      destruct r as [ttl a|mx mn x|ttl a|mx mn x|ttl rd|ttl rd|ttl rd|ttl rd|ttl rd|ttl rd|ttl t|ttl m r0 t|mx mn x|ty ttl rd]; try (apply OTHER; discriminate).
      + (* CNAME *)
        assert (more = []) by (apply ALONE; now left). subst more. split; [reflexivity|].
        set (s1 := if (negb (s_qtype s =? 5) && negb (s_qtype s =? 255))%N%bool then set_qtype s 5 else s).
        eapply (GO s1 [RsCNAME ttl t] 5%N); try (unfold s1; destruct (_ && _)%bool; reflexivity); eauto.
        * intros r' [<-|[]]. discriminate.
        * unfold s1. destruct (N.eqb_spec (s_qtype s) 5) as [Q|Q]; [|destruct (N.eqb_spec (s_qtype s) 255) as [Q2|Q2]]; cbn [negb andb set_qtype s_qtype].
          -- rewrite Q. reflexivity.
          -- rewrite Q2. reflexivity.
          -- reflexivity.
        * apply final_gen. rewrite <- Ers. reflexivity.
      + (* DYNC *)
        assert (more = []) by (apply ALONE; now right). subst more. unfold process_dync.
        destruct (do_dyn_ok dyn root s x mx mn WFY W0) as (s1 & E1 & E2 & E3 & E4 & E5 & E6). rewrite E1. cbn [rbind].
        destruct E2 as (G1 & G2 & G3 & G4 & G5 & G6 & G7).
        pose proof (proj1 WFY x) as (Y1 & Y2 & Y3 & Y4).
        assert (FN : found <> None) by (apply F6; discriminate).
        destruct (d_cname (dyn x)) as [n|] eqn:EC.
        * eexists s1, _. cbn [set_qtype].
          destruct (GO (set_qtype s1 T_CNAME) [RsCNAME (clamp mx mn (d_sttl (dyn x))) n] 5%N) as (s' & Z1 & Z2); try assumption; try reflexivity.
          { repeat constructor. intros []. }
          { apply Forall_cons; [cbn; apply Y4; reflexivity|apply Forall_nil]. }
          { intros r [<-|[]]. discriminate. }
          { intros r [<-|[]] _. reflexivity. }
          { intros r [<-|[]] [T|T]; discriminate. }
          { intros r [<-|[]]. exact I. }
          { intros _. exact FN. }
          { apply final_gen. rewrite <- Ers. cbn [effective]. rewrite EC. reflexivity. }
          exists s'. split; [reflexivity|]. split; [reflexivity|]. split; [exact Z1|exact Z2].
        * rewrite G5. set (A := RsA (clamp mx mn (d_sttl (dyn x))) (d_v4 (dyn x))). set (A6 := RsAAAA (clamp mx mn (d_sttl (dyn x))) (d_v6 (dyn x))).
          assert (EF : final dyn chals q (s_qtype s) z zn found = gen dyn chals q (s_qtype s) z zn found [A; A6]).
          { apply final_gen. rewrite <- Ers. cbn [effective]. rewrite EC. reflexivity. }
          set (r := if ((s_qtype s =? T_A)%N && negb (Nat.eqb (length (d_v4 (dyn x))) 0))%bool then Some A
                    else if ((s_qtype s =? T_AAAA)%N && negb (Nat.eqb (length (d_v6 (dyn x))) 0))%bool then Some A6 else None).
          assert (ER : r = None /\ gen dyn chals q (s_qtype s) z zn found [A; A6] = gen dyn chals q (s_qtype s) z zn found [] \/
                       exists a, r = Some a /\ wf_rrset a /\ (rrset_type a = 1%N \/ rrset_type a = 28%N) /\ match a with RsA _ _ | RsAAAA _ _ => True | _ => False end /\
                         gen dyn chals q (s_qtype s) z zn found [A; A6] = gen dyn chals q (s_qtype s) z zn found [a]).
          { unfold r, gen. unfold T_A, T_AAAA. cbn [filter A A6 rrset_type]. unfold T_A, T_AAAA. rewrite (N.eqb_sym 1), (N.eqb_sym 28).
            destruct (N.eqb_spec (s_qtype s) 1) as [Q|Q]; cbn [andb].
            - rewrite Q. cbn [N.eqb Pos.eqb]. destruct (Nat.eqb_spec (length (d_v4 (dyn x))) 0) as [EV|EV]; cbn [negb].
              + left. split; [reflexivity|]. apply length_zero_iff_nil in EV. unfold A. cbn. rewrite EV. reflexivity.
              + right. exists A. split; [reflexivity|]. split; [split; [intros Z; apply EV; rewrite Z; reflexivity|exact Y1]|]. split; [now left|]. split; [exact I|].
                unfold A. cbn [filter rrset_type]. unfold T_A. cbn [N.eqb Pos.eqb]. reflexivity.
            - destruct (N.eqb_spec (s_qtype s) 28) as [Q6|Q6]; cbn [andb].
              + rewrite Q6. destruct (Nat.eqb_spec (length (d_v6 (dyn x))) 0) as [EV|EV]; cbn [negb].
                * left. split; [reflexivity|]. apply length_zero_iff_nil in EV. unfold A6. cbn. rewrite EV. reflexivity.
                * right. exists A6. split; [reflexivity|]. split; [split; [intros Z; apply EV; rewrite Z; reflexivity|exact Y2]|]. split; [now right|]. split; [exact I|].
                  unfold A6. cbn [filter rrset_type]. unfold T_AAAA. cbn [N.eqb Pos.eqb]. reflexivity.
              + left. split; [reflexivity|]. reflexivity. }
          eexists s1, r. destruct ER as [[ER EG]|(a & ER & WA & TA & SA & EG)]; rewrite ER.
          -- destruct (GO s1 [] (s_qtype s)) as (s' & Z1 & Z2); try assumption; try reflexivity.
             { constructor. } { constructor. } { intros r' []. } { intros r' []. } { intros r' []. } { intros r' []. } { intros X. now contradiction X. }
             { now symmetry. } { congruence. }
             exists s'. split; [reflexivity|]. split; [reflexivity|]. split; [exact Z1|exact Z2].
          -- destruct (GO s1 [a] (s_qtype s)) as (s' & Z1 & Z2); try assumption; try reflexivity.
             { repeat constructor. intros []. } { apply Forall_cons; [assumption|apply Forall_nil]. }
             { intros r' [<-|[]]. lia. } { intros r' [<-|[]] _. reflexivity. } { intros r' [<-|[]] T. lia. } { intros r' [<-|[]]. destruct a; try contradiction; exact I. }
             { intros _. exact FN. }
             { destruct (N.eqb_spec (rrset_type a) 5); [lia|]. rewrite andb_false_r. now symmetry. } { congruence. }
             exists s'. split; [reflexivity|]. split; [reflexivity|]. split; [|exact Z2]. destruct a; try contradiction; exact Z1.
      + apply OTHER; intros T.
        * destruct (cname_shape _ W0 T) as (? & ? & X). discriminate X.
        * destruct (dync_shape _ W0 T) as (? & ? & ? & X). discriminate X.
  Qed.
  Lemma get_ns_ok : forall rs ttl rd, NoDup (map rrset_type rs) -> In (RsNS ttl rd) rs -> get_ns rs = Ok (ttl, rd).
  Proof.
    induction rs as [|x rs IH]; intros ttl rd ND I; [destruct I|]. cbn [map] in ND. apply NoDup_cons_iff in ND. destruct ND as [N1 N2].
    destruct I as [->|I]; [reflexivity|]. cbn [get_ns]. destruct x; auto.
    exfalso. apply N1. cbn [rrset_type]. change T_NS with (rrset_type (RsNS ttl rd)). now apply in_map.
  Qed.

  (** what the lookup does in a zone, up to the alias decision *)
  Definition auth_body (fuel : nat) (s : st) (q : name) (dom : option node) (a : node) : res st :=
    match match dom with Some d => n_rrsets d | None => [] end with
    | RsDYNC mx mn res :: more =>
        rassert (match more with [] => true | _ => false end)
        (do (s, r) <- process_dync dyn s res mx mn;
         let s := match r with Some (RsCNAME _ _) => set_qtype s T_CNAME | _ => s end in
         do_final_auth_response lq draws dyn chals max_response s q dom a (match r with Some r => [r] | None => [] end))
    | RsCNAME ttl target :: more =>
        if (negb (s_qtype s =? T_CNAME) && negb (s_qtype s =? T_ANY))%N%bool then
          rassert (match more with [] => true | _ => false end)
          (do inzone <- (if no_chain then Ok false else is_in_wire_zone (s_out s) (s_ac s) target);
           if inzone : bool then
             do s <- encode_rr_cname_common lq (set_flags s true (s_rcode s)) ttl target true;
             lookup fuel s target true
           else do_final_auth_response lq draws dyn chals max_response (set_qtype s T_CNAME) q dom a (RsCNAME ttl target :: more))
        else do_final_auth_response lq draws dyn chals max_response s q dom a (RsCNAME ttl target :: more)
    | rs => do_final_auth_response lq draws dyn chals max_response s q dom a rs
    end.
  Lemma lookup_auth fuel s q via z zn found : ready s q via -> in_zone root q z zn found ->
    exists ac, lookup (S fuel) s q via = auth_body fuel (set_comp s (s_qc s) ac) q found zn /\ base R lq (set_comp s (s_qc s) ac) q z /\
      (no_chain = false -> lit (s_out s) ac (wn z)).
  Proof.
    intros HRD HIN. pose proof (search_top root (proj1 WFD) q) as HS. cbn [db_lookup]. unfold search_ok in HS.
    pose proof HIN as (HZO & _).
    destruct (search root (rev q) None) as [[[st dom] auth] lc]. destruct st.
    - exfalso. eapply none_not_zone; eauto.
    - destruct auth as [a|]; [|destruct dom; contradiction].
      assert (HS' : exists p z0, q = p ++ z0 /\ length p = lc /\ in_zone root q z0 a dom) by (destruct dom; exact HS). clear HS.
      destruct HS' as (p & z0 & E & <- & HI0). destruct (in_zone_unique _ (proj1 WFD) _ _ _ _ _ _ _ HI0 HIN) as (-> & -> & ->).
      assert (AD : auth_depth q (length p) = length (wire_labels p)) by (rewrite E; apply auth_depth_ok). cbv zeta. rewrite !AD. destruct (ac_ok s q via p z HRD E) as (ac & A1 & A2 & A3).
      exists ac. split; [rewrite A1; reflexivity|]. pose proof (ready_owner _ _ _ HRD) as HO. destruct HRD as (R1 & R2 & R3 & R4 & R5 & R6 & _).
      split; [|intros NC; eapply A3; eauto]. split; [assumption|]. split; [exact HO|]. split; [exact A2|]. auto.
    - exfalso. destruct dom as [d|]; [|destruct auth; contradiction]. destruct auth as [a|]; [|contradiction]. destruct HS as (p & dn & _ & _ & HD). exact (deleg_not_in _ (proj1 WFD) _ _ _ _ _ _ HD HIN).
  Qed.

  Theorem db_ok : forall q qt r, resolves dyn chals no_chain root q qt r -> forall fuel s via, ready s q via -> s_qtype s = qt ->
    length (r_chain r) < fuel -> (N.of_nat (length (s_out s)) + rep_size r <= MAX_BUF)%N ->
    exists s', lookup fuel s q via = Ok s' /\ reply_in s s' r.
  Proof.
    induction 1 as [q qt HN|q qt d dn ttl rd HD HNS|q qt z zn found HIN HNF|q qt z zn found ttl t r HIN HFO HRES IH]; intros fuel s via HRD HQT HF HB;
      (destruct fuel as [|fuel]; [lia|]).
    - (* refused *)
      pose proof (search_top root (proj1 WFD) q) as HS. cbn [db_lookup]. unfold search_ok in HS.
      destruct (search root (rev q) None) as [[[st dom] auth] lc]. destruct st.
      + destruct via.
        * exfalso. destruct HRD as (_ & _ & _ & _ & _ & _ & _ & _ & _ & _ & q0 & b & p & z & zn & _ & _ & _ & _ & HZ & _). eapply none_not_zone; eauto.
        * cbn [negb rassert]. eexists. split; [reflexivity|]. destruct HRD as (R1 & R2 & R3 & R4 & R5 & R6 & _).
          exists []. cbn [set_flags s_out s_cn s_aa s_an s_ns s_ar s_rcode r_chain r_aa length].
          split; [now rewrite app_nil_r|]. split; [cbn; lia|]. split; [lia|]. split; [auto|]. split; [auto|].
          exists 0, [], [], [], (length (s_out s)), (length (s_out s)). cbn [r_chal r_an r_ar r_ns r_chain r_rcode firstn app length].
          rewrite R3, R4, R5. repeat split; try lia; constructor.
      + exfalso. destruct auth; [|destruct dom; contradiction].
        assert (HS' : exists p z0, q = p ++ z0 /\ length p = lc /\ in_zone root q z0 n dom) by (destruct dom; exact HS).
        destruct HS' as (p & z0 & _ & _ & HZ & _). eapply none_not_zone; eauto.
      + exfalso. destruct dom as [d|]; [|destruct auth; contradiction]. destruct auth; [|contradiction]. destruct HS as (p & dn & _ & _ & z & zn & HZ & _). eapply none_not_zone; eauto.
    - (* delegation *)
      pose proof (search_top root (proj1 WFD) q) as HS. cbn [db_lookup]. unfold search_ok in HS.
      destruct (search root (rev q) None) as [[[st dom] auth] lc]. destruct st.
      + exfalso. destruct HD as (z & zn & HZ & _). eapply none_not_zone; eauto.
      + exfalso. destruct auth; [|destruct dom; contradiction].
        assert (HS' : exists p z0, q = p ++ z0 /\ length p = lc /\ in_zone root q z0 n dom) by (destruct dom; exact HS).
        destruct HS' as (p & z0 & _ & _ & HZ). exact (deleg_not_in _ (proj1 WFD) _ _ _ _ _ _ HD HZ).
      + destruct dom as [d1|]; [|destruct auth; contradiction]. destruct auth as [a|]; [|contradiction]. destruct HS as (p & dn1 & E & <- & HD1).
        destruct (deleg_unique _ (proj1 WFD) _ _ _ _ _ HD1 HD) as [-> ->].
        assert (AD : auth_depth q (length p) = length (wire_labels p)) by (rewrite E; apply auth_depth_ok). cbv zeta. rewrite !AD. destruct (ac_ok s q via p d HRD E) as (ac & A1 & A2 & _). rewrite A1. cbn [rbind].
        assert (WN : wf_node dn) by (destruct HD as (z & zn & _ & (_ & HA & _) & _); apply (proj1 WFD _ _ HA)).
        destruct WN as (W1 & W2 & W3 & _). rewrite (get_ns_ok _ _ _ W3 HNS). cbn [rbind].
        assert (WR : wf_rrset (RsNS ttl rd)) by (rewrite Forall_forall in W2; auto).
        destruct HRD as (R1 & R2 & R3 & R4 & R5 & R6 & _).
        destruct (encode_rrs_ns_ok R lq R_refl R_cons draws draws_legal dyn (set_comp s (s_qc s) ac) d ttl rd) as (s' & ar & E1 & E2 & E3 & E4 & E5 & E6); auto.
        { cbn [set_comp s_out]. unfold rep_size in HB. cbn [r_chain r_an r_chal r_ns r_ar] in HB. change (rrs_size []) with 0%N in HB. lia. }
        rewrite E1. cbn [rbind]. eexists. split; [reflexivity|].
        destruct E3 as (dd & Y1 & Y2 & Y3 & Y4). destruct E4 as (G1 & G2 & G3 & G4 & G5 & G6 & G7).
        cbn [set_comp s_out s_an s_ar s_aa s_cn s_rcode s_ns] in *.
        exists dd. cbn [set_counts s_out s_cn s_aa s_an s_ns s_ar s_rcode r_chain r_aa length].
        split; [assumption|].
        split; [rewrite rrs_size_app, (rrs_size_perm _ _ E2) in Y3; unfold rep_size; cbn [r_chain r_an r_chal r_ns r_ar]; change (rrs_size []) with 0%N; lia|].
        split; [lia|]. split; [congruence|]. split; [congruence|].
        assert (SPL : exists e, rrs_at R (s_out s') (length (s_out s)) (records_of dyn d (RsNS ttl rd)) e /\ rrs_at R (s_out s') e ar (length (s_out s'))).
        { clear -Y4. revert Y4. generalize (length (s_out s)) (records_of dyn d (RsNS ttl rd)). intros off l. revert off. induction l as [|x l IHl]; intros off H.
          - eexists. split; [constructor|exact H].
          - cbn [app] in H. inversion H as [|o r e1 rs e H1 H2]; subst. destruct (IHl _ H2) as (e & Q1 & Q2). eexists. split; [econstructor; eauto|exact Q2]. }
        destruct SPL as (e & S1 & S2).
        exists 0, [], (records_of dyn d (RsNS ttl rd)), ar, (length (s_out s)), e. cbn [r_chal r_an r_ar r_ns r_chain r_rcode r_aa firstn app].
        split; [cbn; lia|]. split; [cbn; lia|]. split; [constructor|]. split; [assumption|]. split; [reflexivity|]. split; [constructor|].
        split; [exact S1|]. split; [exact S2|]. cbn [length]. split; [reflexivity|]. split; [rewrite E5, R3; cbn [records_of]; rewrite map_length; reflexivity|].
        split; [rewrite E6, R5; reflexivity|]. split; [congruence|reflexivity].
    - (* final *)
      destruct (lookup_auth fuel s q via z zn found HRD HIN) as (ac & E & HBASE & HLIT). rewrite E. set (s1 := set_comp s (s_qc s) ac) in *.
      assert (HT : s_qtype s1 = qt) by exact HQT. assert (HLQ : legal_name q) by apply HRD.
      pose proof (auth_final s1 q z zn found HBASE HLQ HIN _ eq_refl) as AF. rewrite HT in AF. specialize (AF HB).
      pose proof (node_facts _ _ _ _ _ HIN eq_refl) as (F1 & F2 & _).
      unfold auth_body. destruct (match found with Some d => n_rrsets d | None => [] end) as [|r0 more] eqn:ERS; [exact AF|].
      destruct r0 as [ttl a|mx mn x|ttl a|mx mn x|ttl rd|ttl rd|ttl rd|ttl rd|ttl rd|ttl rd|ttl t|ttl m r0 tt|mx mn x|ty ttl rd]; try exact AF.
      + destruct AF as (-> & s' & AF1 & AF2). rewrite HT. unfold T_CNAME, T_ANY in *.
        destruct (negb (qt =? 5) && negb (qt =? 255))%N%bool eqn:EQ; [|eauto].
        cbn [rassert].
        assert (IZ : (if no_chain then Ok false else is_in_wire_zone (s_out s1) (s_ac s1) t) = Ok false).
        { destruct no_chain eqn:NC; [reflexivity|].
          destruct (in_wire_zone_ok (s_out s1) (s_ac s1) z t) as (b & B1 & B2).
          - destruct HIN as ((((p & EP) & _) & _) & _). rewrite EP in HLQ. now apply legal_suffix in HLQ.
          - apply Forall_cons_iff in F2. apply F2.
          - apply HLIT. reflexivity.
          - rewrite B1. f_equal. destruct b; [|reflexivity]. exfalso. apply andb_true_iff in EQ. destruct EQ as [Q1 Q2].
            apply negb_true_iff, N.eqb_neq in Q1, Q2. apply (HNF ttl t). split; [reflexivity|]. split; [assumption|]. split; [assumption|].
            split; [now apply B2|]. destruct found as [n|]; [|discriminate]. exists n. auto. }
        rewrite IZ. cbn [rbind]. eauto.
      + destruct AF as (s2 & r & s' & AF1 & -> & AF2 & AF3). cbn [rassert]. rewrite AF1. cbn [rbind]. eauto.
    - (* alias followed *)
      destruct (lookup_auth fuel s q via z zn found HRD HIN) as (ac & E & HBASE & HLIT). rewrite E. set (s1 := set_comp s (s_qc s) ac) in *.
      destruct HFO as (NC & Q5 & Q255 & (pt & ET) & n & -> & ERS).
      pose proof (node_facts _ _ _ _ _ HIN eq_refl) as (F1 & F2 & _). cbn iota in F2. rewrite ERS in F2.
      assert (HLT : legal_name t) by (apply Forall_cons_iff in F2; apply F2).
      assert (HLQ : legal_name q) by apply HRD.
      assert (HLZ : legal_name z) by (rewrite ET in HLT; now apply legal_suffix in HLT).
      unfold auth_body. rewrite ERS. assert (HT : s_qtype s1 = qt) by exact HQT. rewrite HT. unfold T_CNAME, T_ANY.
      replace (negb (qt =? 5) && negb (qt =? 255))%N%bool with true
        by (symmetry; apply andb_true_iff; split; apply negb_true_iff, N.eqb_neq; assumption).
      cbn [rassert]. rewrite NC.
      destruct (in_wire_zone_ok (s_out s1) (s_ac s1) z t HLZ HLT (HLIT NC)) as (b & B1 & B2). rewrite B1. cbn [rbind].
      assert (b = true) by (apply B2; eauto). subst b.
      unfold encode_rr_cname_common. cbn [set_flags s_out s_cts s_qc].
      destruct HBASE as (HI & (o & e & HN & HR) & _ & R3 & R4 & R5 & R6).
      assert (SZ : rep_size {| r_rcode := r_rcode r; r_aa := true; r_chain := mk_rr q 5 ttl [DName t] :: r_chain r; r_an := r_an r; r_chal := r_chal r; r_ns := r_ns r; r_ar := r_ar r |}
                   = (12 + N.of_nat (wire_len t) + rep_size r)%N).
      { unfold rep_size. cbn [r_chain r_an r_chal r_ns r_ar]. unfold rrs_size at 1. cbn [fold_right]. fold (rrs_size (r_chain r)).
        unfold rr_size at 1. cbn [mk_rr rr_data fold_right piece_size]. lia. }
      rewrite SZ in HB.
      destruct (enc_rr_ok R lq R_refl R_cons (s_out s1) (s_cts s1) (s_qc s1) o e q T_CNAME ttl [WComp false t] HI HN HR) as (dd & c & a & G1 & G2 & G3 & G4 & G5).
      { apply Forall_cons; [exact HLT|apply Forall_nil]. }
      { change (wsize [WComp false t]) with (N.of_nat (wire_len t) + 0)%N. cbn [s1 set_comp s_out]. lia. }
      rewrite G1. cbn [rbind].
      set (s2 := set_counts _ _ _ _ _).
      assert (HC0 : qcts lq (s_cts s1) /\ exists q0 b, lq = wn q0 /\ legal_name q0 /\ q0 = b ++ z).
      { destruct HRD as (_ & _ & _ & _ & _ & _ & HV). destruct via.
        - destruct HV as (_ & _ & _ & HC & q0 & b & p & z' & zn' & X1 & X2 & X3 & X4 & X5 & _). split; [exact HC|].
          destruct HIN as (HZO & _). destruct (zone_unique _ (proj1 WFD) _ _ _ _ _ HZO X5) as [-> _]. eauto.
        - destruct HV as (_ & X & Y). split; [left; exact Y|]. destruct HIN as ((((p & EP) & _) & _) & _). eauto. }
      destruct HC0 as (HC & q0 & b0 & L1 & L2 & L3).
      destruct (enc_rr_cname_inv _ _ _ _ _ _ _ _ _ _ G1) as (out1 & pre & data & K1 & K2 & K3 & K4 & K5).
      rewrite L1 in K1. rewrite ET in K1.
      destruct (cname_stored q0 pt z (s_cts s1) out1 data c (proj1 L2)) as (M1 & M2); auto.
      { rewrite <- ET. apply HLT. } { eauto. } { rewrite <- L1. exact HC. }
      assert (LB : (N.of_nat (length (s_out s1 ++ dd)) <= MAX_BUF)%N).
      { change (wsize [WComp false t]) with (N.of_nat (wire_len t) + 0)%N in G3. rewrite app_length. cbn [s1 set_comp s_out]. lia. }
      assert (ZL : zlit (s_out s1 ++ dd) a pt z).
      { rewrite K2, <- K3. destruct M2 as [-> |(a0 & y & b1 & X1 & X2 & X3)].
        - left. apply lit_tail.
        - right. exists a0, y, (12 + length (wire_labels b1)). split; [assumption|].
          destruct (question_shape (s_out s1 ++ dd) q0 (proj1 G2) L1 L2) as (hd & qls & tail & EO & LH & _ & _ & _ & EX). rewrite (EX NC) in EO.
          assert (EQ : s_out s1 ++ dd = (hd ++ wire_labels b1) ++ wn (y ++ z) ++ tail) by (rewrite EO, X2, wn_app, <- !app_assoc; reflexivity).
          split.
          { rewrite EQ in LB. rewrite !app_length, LH in LB. unfold MAX_BUF in LB. lia. }
          split.
          + rewrite <- X3. apply lit_tail.
          + rewrite <- K2, EQ. replace (12 + length (wire_labels b1)) with (length (hd ++ wire_labels b1)) by (rewrite app_length; lia). apply lit_mid. }
      assert (OW : owner_at s2 a t).
      { cbn [map to_d] in G5. change (s_out s1 ++ dd) with (s_out s2) in G5. unfold RespProofs2.owner_at. clear -G5.
        remember [DName t] as ds eqn:ED. destruct G5 as [|off b ds e0 _ _ _|off n n' e1 ds e0 HN1 HR1 _]; try discriminate ED. injection ED as -> ->. eauto. }
      assert (ZT : zone_of root t z zn).
      { destruct HIN as ((HCU & HMIN) & HU & _). destruct HCU as ((pq & EPQ) & AZ & ZZ). split; [split; [eauto|auto]|].
        intros z' n' ((p' & E') & A' & Z'). destruct (Nat.le_gt_cases (length z) (length z')) as [LE|GT]; [exact LE|].
        destruct (app_suffix_cases root (proj1 WFD) p' z' pt z) as (w & W); [congruence|lia|].
        eapply HMIN. split; [|split; [exact A'|exact Z']]. exists (pq ++ w). rewrite EPQ, W. now rewrite app_assoc. }
      assert (HRD2 : ready s2 t true).
      { split; [exact HLT|]. split; [exact G2|]. split; [exact R3|]. split; [exact R4|]. split; [exact R5|]. split; [exact R6|].
        cbn iota. split; [exact NC|]. split; [change (s_qc s2) with a; destruct HI as ((? & ? & _ & _ & _ & _ & _ & hd & tail & LH & EH) & _); rewrite EH, app_length in K5; lia|]. split; [exact OW|]. split; [rewrite L1; exact M1|].
        exists q0, b0, pt, z, zn. repeat (split; [assumption|]). exact ZL. }
      destruct (IH fuel s2 true HRD2) as (s' & I1 & I2).
      { exact HQT. } { cbn [r_chain length] in HF. lia. }
      { change (s_out s2) with (s_out s1 ++ dd). rewrite app_length. change (wsize [WComp false t]) with (N.of_nat (wire_len t) + 0)%N in G3. cbn [s1 set_comp s_out]. lia. }
      exists s'. split; [rewrite NC in I1; exact I1|]. destruct I2 as (d2 & Y1 & YS & Y2 & _ & Y4 & k & an' & ns' & ar' & e1 & e2 & Z1 & Z2 & Z3 & Z4 & Z5 & Z6 & Z7 & Z8 & Z9 & Z10 & Z11 & Z12 & Z13).
      change (s_out s2) with (s_out s1 ++ dd) in *. change (s_out s1) with (s_out s) in *.
      exists (dd ++ d2). cbn [r_chain r_aa length]. split; [rewrite Y1; now rewrite app_assoc|].
      split; [rewrite SZ, app_length; change (wsize [WComp false t]) with (N.of_nat (wire_len t) + 0)%N in G3; lia|].
      split; [rewrite Y2; cbn [s2 set_counts set_comp set_out set_flags s_cn s1]; lia|].
      assert (AA : s_aa s' = true) by (apply Y4; reflexivity). split; [auto|]. split; [auto|].
      exists k, an', ns', ar', e1, e2. cbn [r_chal r_an r_ar r_ns r_chain r_rcode r_aa app length].
      repeat (split; [first [assumption|lia]|]).
      split; [econstructor; [|exact Z6]; rewrite Y1; apply rr_at_app; exact G4|].
      split; [assumption|]. split; [assumption|]. split; [lia|]. auto.
  Qed.
End Db.
