From Coq Require Import Sorting.Permutation.
From Verif Require Import Base DnameSpec DnameProofs RandModel RandSpec RandProofs CompModel CompSpec CompProofs RespModel RespSpec.
Ltac Zify.zify_post_hook ::= idtac.

Lemma wire_wn ls : (wire ls) = wn ls.
Proof. unfold wn. f_equal. induction ls as [|l ls IH]; [reflexivity|]. cbn [map concat wire_labels]. now rewrite IH. Qed.

Lemma be16_len v : length (be16 v) = 2. Proof. reflexivity. Qed.
Lemma be32_len v : length (be32 v) = 4. Proof. reflexivity. Qed.

  Lemma concat_const_len {A} (L : nat) (ls : list (list A)) : Forall (fun l => length l = L) ls -> length (concat ls) = length ls * L.
  Proof. induction 1 as [|l ls E H IH]; [reflexivity|]. cbn [concat length]. rewrite app_length, IH, E. reflexivity. Qed.
  Lemma records_concat_eq L : forall ls, Forall (fun l : bytes => length l = L) ls -> records L (length ls) (concat ls) = ls.
  Proof.
    induction ls as [|l ls IH]; intros H; [reflexivity|]. apply Forall_cons_iff in H. destruct H as [E H]. cbn [length records concat].
    rewrite <- E at 1. rewrite firstn_app, Nat.sub_diag, firstn_all, firstn_O, app_nil_r.
    rewrite <- E at 1 2. rewrite skipn_app, skipn_all, Nat.sub_diag. cbn [app skipn]. rewrite E. f_equal. now apply IH.
  Qed.
  Lemma concat_records L : forall n buf, length buf = n * L -> concat (records L n buf) = buf.
  Proof.
    induction n as [|n IH]; intros buf E; cbn [records concat].
    - destruct buf; [reflexivity|discriminate].
    - rewrite IH by (rewrite skipn_length; lia). apply firstn_skipn.
  Qed.
  Lemma rrs_size_app a b : rrs_size (a ++ b) = (rrs_size a + rrs_size b)%N.
  Proof. unfold rrs_size. induction a as [|r a IH]; cbn [app fold_right]; [lia|]. rewrite IH. lia. Qed.
  Lemma rrs_size_perm a b : Permutation a b -> rrs_size a = rrs_size b.
  Proof. unfold rrs_size. induction 1; cbn [fold_right]; lia. Qed.
  Lemma rrs_size_addr o o' ty ttl a : rrs_size (addr_rrs o ty ttl a) = rrs_size (addr_rrs o' ty ttl a).
  Proof. unfold addr_rrs, rrs_size. induction a as [|x a IH]; cbn [map fold_right]; [reflexivity|]. rewrite IH. reflexivity. Qed.

Section Enc.
  Variable R : list (list N) -> list (list N) -> Prop.
  Variable lq : bytes.

  (** ** Reading is stable under appending *)
  Lemma data_at_app pkt r off ds e : data_at R pkt off ds e -> data_at R (pkt ++ r) off ds e.
  Proof.
    induction 1.
    - constructor.
    - constructor; auto; [rewrite app_length; lia|]. now rewrite sub_app_l by lia.
    - econstructor; eauto using name_at_app.
  Qed.
  Lemma data_at_end pkt off ds e : data_at R pkt off ds e -> off <= e /\ (off <= length pkt -> e <= length pkt).
  Proof.
    induction 1 as [|off b ds e B S1 H IH|off n n' e1 ds e N1 HR H IH]; [lia| |].
    - lia.
    - pose proof (name_at_end _ _ _ _ N1). lia.
  Qed.
  Lemma data_at_cat pkt off d1 e1 d2 e2 : data_at R pkt off d1 e1 -> data_at R pkt e1 d2 e2 -> data_at R pkt off (d1 ++ d2) e2.
  Proof. induction 1; intros H2; cbn [app]; auto; econstructor; eauto. Qed.
  Lemma rr_at_app pkt x off r e : rr_at R pkt off r e -> rr_at R (pkt ++ x) off r e.
  Proof.
    intros (o & e1 & H1 & H2 & H3 & H4 & H5 & H6). exists o, e1.
    split; [now apply name_at_app|]. split; [assumption|]. split; [rewrite app_length; lia|]. split; [assumption|].
    split; [now rewrite sub_app_l by lia|now apply data_at_app].
  Qed.
  Lemma rrs_at_app pkt x off rs e : rrs_at R pkt off rs e -> rrs_at R (pkt ++ x) off rs e.
  Proof. induction 1; econstructor; eauto using rr_at_app. Qed.
  Lemma rrs_at_cat pkt off d1 e1 d2 e2 : rrs_at R pkt off d1 e1 -> rrs_at R pkt e1 d2 e2 -> rrs_at R pkt off (d1 ++ d2) e2.
  Proof. induction 1; intros H2; cbn [app]; auto; econstructor; eauto. Qed.

  (** ** The invariant of a packet under construction *)
  Definition inv (out : bytes) (cts : list ctarget) : Prop :=
    question_at R out lq /\ Forall (target_ok R out) cts /\ length cts <= 16.
  Lemma inv_app out cts x : inv out cts -> inv (out ++ x) cts.
  Proof.
    intros (H1 & H2 & H3). split; [now apply question_app|]. split; [|assumption].
    eapply Forall_impl; [|exact H2]. intros t. apply target_app.
  Qed.

  (** ** Record data *)
  Definition to_d (p : wpiece) : dpiece := match p with WBytes b => DBytes b | WComp _ n | WFull n => DName n end.
  Definition wlegal (p : wpiece) : Prop := match p with WBytes _ => True | WComp _ n | WFull n => legal_name n end.
  Definition wsize (ps : list wpiece) : N := fold_right (fun d a => piece_size d + a)%N 0%N (map to_d ps).

  Hypothesis R_refl : forall ls, R ls ls.
  Hypothesis R_cons : forall l a b, R a b -> R (l :: a) (l :: b).
  Lemma enc_pieces_ok : forall ps out cts, inv out cts -> Forall wlegal ps ->
    (N.of_nat (length out) + wsize ps <= MAX_BUF)%N ->
    exists d c, enc_pieces lq out cts ps = Ok (out ++ d, c) /\ inv (out ++ d) c /\ (N.of_nat (length d) <= wsize ps)%N /\
      data_at R (out ++ d) (length out) (map to_d ps) (length (out ++ d)).
  Proof.
    induction ps as [|p ps IH]; intros out cts HI HL HB.
    - exists [], cts. rewrite app_nil_r. cbn. split; [reflexivity|]. split; [assumption|]. split; [lia|constructor].
    - apply Forall_cons_iff in HL. destruct HL as [HP HL].
      change (wsize (p :: ps)) with (piece_size (to_d p) + wsize ps)%N in HB |- *.
      assert (STEP : forall d c, inv (out ++ d) c -> (N.of_nat (length d) <= piece_size (to_d p))%N ->
        (forall x, data_at R ((out ++ d) ++ x) (length out) [to_d p] (length (out ++ d))) ->
        exists d' c', enc_pieces lq (out ++ d) c ps = Ok (out ++ d', c') /\ inv (out ++ d') c' /\
          (N.of_nat (length d') <= piece_size (to_d p) + wsize ps)%N /\
          data_at R (out ++ d') (length out) (map to_d (p :: ps)) (length (out ++ d'))).
      { intros d c I1 S1 D1. destruct (IH (out ++ d) c) as (d2 & c2 & E1 & E2 & E3 & E4); auto.
        - rewrite app_length. lia.
        - exists (d ++ d2), c2. rewrite app_assoc. split; [assumption|]. split; [assumption|].
          split; [rewrite app_length; lia|]. eapply (data_at_cat _ _ [to_d p]); [apply D1|exact E4]. }
      destruct p as [b|mk n|n]; cbn [enc_pieces].
      + cbn [to_d piece_size] in *. rewrite emit_ok by lia. cbn [rbind]. apply STEP; [now apply inv_app|lia|].
        intros x. rewrite app_length. apply data_at_app. constructor.
        * rewrite app_length. lia.
        * rewrite <- (Nat.add_0_r (length out)), sub_app_r. apply sub_full.
        * constructor.
      + rewrite wire_wn. destruct HI as (I1 & I2 & I3). cbn [to_d piece_size wlegal] in *.
        destruct (store_dname_comp_ok R R_refl R_cons lq cts out n mk) as (d & c & n' & E1 & E2 & E3 & E4 & E5 & E6); auto.
        { apply HP. } { lia. }
        rewrite E1. cbn [rbind]. apply STEP.
        * split; [now apply question_app|]. split; assumption.
        * lia.
        * intros x. apply data_at_app. econstructor; [exact E4|exact E3|constructor].
      + rewrite wire_wn. unfold store_dname_nocomp. cbn [to_d piece_size wlegal] in *.
        rewrite emit_ok by (rewrite wn_len; lia). cbn [rbind]. apply STEP; [now apply inv_app|rewrite wn_len; lia|].
        intros x. apply data_at_app. rewrite app_length, wn_len. econstructor; [|apply R_refl|constructor].
        rewrite <- (app_nil_r (wn n)). apply name_at_full; [exact (question_len _ _ _ (proj1 HI))|]. apply legal_lens. apply HP.
  Qed.

  (** what is appended does not depend on what is already there, only on how much *)
  Lemma store_same cts out1 out2 dn mk o1 c1 o2 c2 : length out1 = length out2 ->
    store_dname_comp lq cts out1 dn mk = Ok (o1, c1) -> store_dname_comp lq cts out2 dn mk = Ok (o2, c2) ->
    exists d, o1 = out1 ++ d /\ o2 = out2 ++ d /\ c1 = c2.
  Proof.
    intros EL. unfold store_dname_comp. rewrite EL.
    destruct (match cts with [] => ctargets_add_qname lq | _ => Ok cts end) as [ct|]; [|discriminate]. cbn [rbind].
    destruct (comp_search mk [] ct dn (length out2)) as [[[[f ct'] nm] off]|]; [|discriminate]. cbn [rbind]. destruct f as [t|].
    - generalize (be16 (N.lor 49152 (N.of_nat (ct_off t)))). intros p.
      destruct (emit out1 _) as [x1|] eqn:X1; [|discriminate]. cbn [rbind].
      destruct (emit x1 p) as [y1|] eqn:Y1; [|discriminate]. cbn [rbind].
      destruct (rd y1 (ct_off t)) as [b|]; [|discriminate]. cbn [rbind].
      destruct (N.land b 192 =? 0)%N; [|discriminate]. cbn [rassert].
      destruct (emit out2 _) as [x2|] eqn:X2; [|discriminate]. cbn [rbind].
      destruct (emit x2 p) as [y2|] eqn:Y2; [|discriminate]. cbn [rbind].
      destruct (rd y2 (ct_off t)) as [b2|]; [|discriminate]. cbn [rbind].
      destruct (N.land b2 192 =? 0)%N; [|discriminate]. cbn [rassert].
      intros E1 E2. injection E1 as <- <-. injection E2 as <- <-.
      apply emit_inv in X1, X2, Y1, Y2. destruct X1 as [-> _], X2 as [-> _], Y1 as [-> _], Y2 as [-> _].
      eexists. rewrite <- !app_assoc. repeat split.
    - destruct (if mk then _ else _) as [ct2|]; [|discriminate]. cbn [rbind].
      destruct (emit out1 _) as [x1|] eqn:X1; [|discriminate]. destruct (emit out2 _) as [x2|] eqn:X2; [|discriminate]. cbn [rbind].
      intros E1 E2. injection E1 as <- <-. injection E2 as <- <-.
      apply emit_inv in X1, X2. destruct X1 as [-> _], X2 as [-> _]. eauto.
  Qed.
  Lemma emit_same out1 out2 b o1 o2 : emit out1 b = Ok o1 -> emit out2 b = Ok o2 -> o1 = out1 ++ b /\ o2 = out2 ++ b.
  Proof. intros H1 H2. apply emit_inv in H1. apply emit_inv in H2. split; [apply H1|apply H2]. Qed.
  Lemma enc_pieces_same : forall ps cts out1 out2 o1 c1 o2 c2, length out1 = length out2 ->
    enc_pieces lq out1 cts ps = Ok (o1, c1) -> enc_pieces lq out2 cts ps = Ok (o2, c2) ->
    exists d, o1 = out1 ++ d /\ o2 = out2 ++ d /\ c1 = c2.
  Proof.
    induction ps as [|p ps IH]; intros cts out1 out2 o1 c1 o2 c2 EL E1 E2.
    - cbn in E1, E2. injection E1 as <- <-. injection E2 as <- <-. exists []. rewrite !app_nil_r. auto.
    - assert (STEP : forall d c, enc_pieces lq (out1 ++ d) c ps = Ok (o1, c1) -> enc_pieces lq (out2 ++ d) c ps = Ok (o2, c2) ->
        exists d, o1 = out1 ++ d /\ o2 = out2 ++ d /\ c1 = c2).
      { intros d c F1 F2. destruct (IH c (out1 ++ d) (out2 ++ d) o1 c1 o2 c2) as (d2 & -> & -> & ->); auto.
        - rewrite !app_length. lia.
        - exists (d ++ d2). rewrite !app_assoc. auto. }
      destruct p as [b|mk n|n]; cbn [enc_pieces] in E1, E2.
      + destruct (emit out1 b) as [x1|] eqn:X1; [|discriminate]. destruct (emit out2 b) as [x2|] eqn:X2; [|discriminate].
        cbn [rbind] in *. destruct (emit_same _ _ _ _ _ X1 X2) as [-> ->]. eauto.
      + destruct (store_dname_comp lq cts out1 _ mk) as [[x1 y1]|] eqn:X1; [|discriminate].
        destruct (store_dname_comp lq cts out2 _ mk) as [[x2 y2]|] eqn:X2; [|discriminate].
        cbn [rbind] in *. destruct (store_same _ _ _ _ _ _ _ _ _ EL X1 X2) as (d & -> & -> & ->). eauto.
      + unfold store_dname_nocomp in *. destruct (emit out1 _) as [x1|] eqn:X1; [|discriminate]. destruct (emit out2 _) as [x2|] eqn:X2; [|discriminate].
        cbn [rbind] in *. destruct (emit_same _ _ _ _ _ X1 X2) as [-> ->]. eauto.
  Qed.

  (** ** One record *)
  Lemma enc_rr_ok out cts owner o e ow type ttl ps : inv out cts -> name_at out owner o e -> R o ow -> Forall wlegal ps ->
    (N.of_nat (length out) + (12 + wsize ps) <= MAX_BUF)%N ->
    exists d c a, enc_rr lq out cts owner type ttl ps = Ok (out ++ d, c, a) /\ inv (out ++ d) c /\
      (N.of_nat (length d) <= 12 + wsize ps)%N /\
      rr_at R (out ++ d) (length out) {| rr_owner := ow; rr_type := type; rr_ttl := ttl; rr_data := map to_d ps |} (length (out ++ d)) /\
      data_at R (out ++ d) a (map to_d ps) (length (out ++ d)).
  Proof.
    intros HI HN HR HL HB. unfold enc_rr.
    destruct (repeat_name_ok out owner o e HN) as (od & E1 & L1 & N1); [lia|]. rewrite E1. cbn [rbind].
    set (out1 := out ++ od) in *. assert (LO1 : length out1 = length out + length od) by (unfold out1; apply app_length).
    set (h0 := be16 type ++ be16 1 ++ be32 ttl).
    assert (Lh : length h0 = 8) by reflexivity.
    replace (be16 type ++ be16 1 ++ be32 ttl ++ [0%N; 0%N]) with (h0 ++ [0%N; 0%N]) by (unfold h0; rewrite <- !app_assoc; reflexivity).
    rewrite emit_ok by (rewrite app_length, Lh; cbn [length]; lia). cbn [rbind].
    assert (I1 : inv out1 cts) by now apply inv_app.
    destruct (enc_pieces_ok ps (out1 ++ h0 ++ [0; 0]%N) cts) as (d1 & c1 & F1 & _ & F3 & _); auto.
    { now apply inv_app. }
    { rewrite !app_length, Lh. cbn [length]. lia. }
    rewrite F1. cbn [rbind].
    assert (LL : (N.of_nat (length d1) < 65536)%N) by (unfold MAX_BUF in HB; lia).
    set (L := N.of_nat (length ((out1 ++ h0 ++ [0%N; 0%N]) ++ d1) - length (out1 ++ h0 ++ [0%N; 0%N]))).
    assert (EL : L = N.of_nat (length d1)) by (unfold L; rewrite (app_length _ d1); f_equal; lia).
    destruct (enc_pieces_ok ps (out1 ++ h0 ++ be16 L) cts) as (d2 & c2 & G1 & G2 & G3 & G4); auto.
    { now apply inv_app. }
    { rewrite !app_length, Lh, be16_len. lia. }
    destruct (enc_pieces_same ps cts (out1 ++ h0 ++ [0; 0]%N) (out1 ++ h0 ++ be16 L) _ _ _ _ ltac:(rewrite !app_length; reflexivity) F1 G1)
      as (d & X1 & X2 & X3).
    apply app_inv_head in X1, X2. subst d1 d2 c2.
    replace (length (out1 ++ h0 ++ [0%N; 0%N]) - 2) with (length (out1 ++ h0)) by (rewrite !app_length; cbn [length]; lia).
    replace ((out1 ++ h0 ++ [0%N; 0%N]) ++ d) with ((out1 ++ h0) ++ [0%N; 0%N] ++ d) by (rewrite !app_assoc; reflexivity).
    rewrite wr_prefix by (rewrite be16_len; cbn; lia). cbn [rbind]. rewrite be16_len.
    change (skipn 2 ([0%N; 0%N] ++ d)) with d.
    replace ((out1 ++ h0) ++ be16 L ++ d) with ((out1 ++ h0 ++ be16 L) ++ d) by (rewrite <- !app_assoc; reflexivity).
    exists (od ++ h0 ++ be16 L ++ d), c1, (length (out1 ++ h0 ++ [0%N; 0%N])).
    replace (out ++ od ++ h0 ++ be16 L ++ d) with ((out1 ++ h0 ++ be16 L) ++ d) by (unfold out1; rewrite <- !app_assoc; reflexivity).
    assert (LA : length (out1 ++ h0 ++ be16 L) = length out1 + 10) by (rewrite !app_length; reflexivity).
    split; [reflexivity|]. split; [assumption|]. split; [rewrite !app_length, Lh, be16_len; lia|].
    assert (EA : length (out1 ++ h0 ++ [0%N; 0%N]) = length (out1 ++ h0 ++ be16 L)) by (rewrite !app_length; reflexivity).
    split; [|rewrite EA; exact G4].
    exists o, (length out1). split.
    { rewrite <- app_assoc. apply name_at_app. exact N1. }
    split; [assumption|]. cbn [rr_type rr_ttl rr_data].
    assert (LB : length ((out1 ++ h0 ++ be16 L) ++ d) = length out1 + 10 + length d) by (rewrite app_length, LA; reflexivity).
    split; [lia|]. rewrite LB. replace (length out1 + 10 + length d - (length out1 + 10)) with (length d) by lia.
    split; [exact LL|]. split.
    - rewrite <- EL. rewrite sub_app_l by lia. rewrite <- (Nat.add_0_r (length out1)), sub_app_r.
      replace (be16 type ++ be16 1 ++ be32 ttl ++ be16 L) with (h0 ++ be16 L) by (unfold h0; rewrite <- !app_assoc; reflexivity).
      apply sub_all. reflexivity.
    - rewrite <- LB, <- LA. exact G4.
  Qed.

  Lemma enc_rrs_ok owner o e ow type ttl : forall rds out cts, inv out cts -> name_at out owner o e -> R o ow ->
    Forall (Forall wlegal) rds ->
    (N.of_nat (length out) + rrs_size (map (fun ps => mk_rr ow type ttl (map to_d ps)) rds) <= MAX_BUF)%N ->
    exists d c al, enc_rrs lq out cts owner type ttl rds = Ok (out ++ d, c, al) /\ inv (out ++ d) c /\
      (N.of_nat (length d) <= rrs_size (map (fun ps => mk_rr ow type ttl (map to_d ps)) rds))%N /\
      rrs_at R (out ++ d) (length out) (map (fun ps => mk_rr ow type ttl (map to_d ps)) rds) (length (out ++ d)) /\
      Forall2 (fun a ps => exists e, data_at R (out ++ d) a (map to_d ps) e) al rds.
  Proof.
    induction rds as [|ps rds IH]; intros out cts HI HN HR HL HB.
    - exists [], cts, []. rewrite app_nil_r. cbn. split; [reflexivity|]. split; [assumption|]. split; [lia|]. split; constructor.
    - apply Forall_cons_iff in HL. destruct HL as [HP HL].
      cbn [map] in HB |- *. unfold rrs_size in HB |- *. cbn [fold_right] in HB |- *. fold (rrs_size (map (fun ps => mk_rr ow type ttl (map to_d ps)) rds)) in HB |- *.
      assert (ES : rr_size (mk_rr ow type ttl (map to_d ps)) = (12 + wsize ps)%N) by reflexivity.
      rewrite ES in HB |- *. clear ES.
      cbn [enc_rrs].
      destruct (enc_rr_ok out cts owner o e ow type ttl ps) as (d1 & c1 & a & E1 & E2 & E3 & E4 & E5); auto; [lia|].
      rewrite E1. cbn [rbind].
      destruct (IH (out ++ d1) c1) as (d2 & c2 & al & F1 & F2 & F3 & F4 & F5); auto using name_at_app.
      { rewrite app_length. lia. }
      rewrite F1. cbn [rbind]. exists (d1 ++ d2), c2, (a :: al). rewrite app_assoc.
      split; [reflexivity|]. split; [assumption|]. split; [rewrite app_length; lia|]. split.
      + econstructor; [|exact F4]. apply rr_at_app. exact E4.
      + constructor; [|exact F5]. eexists. apply data_at_app. exact E5.
  Qed.

  (** ** Address sets *)
  Definition owner_bytes (out : bytes) (off : nat) (ob : bytes) : Prop :=
    (exists b t, ob = b :: t /\ (b = 0%N \/ N.land b 192 <> 0%N) /\ length ob = (if (b =? 0)%N then 1 else 2)) /\
    forall x, (N.of_nat (length (out ++ x)) + 2 <= MAX_BUF)%N -> repeat_name (out ++ x) off = Ok ((out ++ x) ++ ob).
  Lemma rdn_app {A} (l x : list A) i n r : rdn l i n = Ok r -> rdn (l ++ x) i n = Ok r.
  Proof.
    unfold rdn. destruct (Nat.leb_spec (i + n) (length l)) as [L|L]; [|discriminate].
    replace (Nat.leb (i + n) (length (l ++ x))) with true by (symmetry; apply Nat.leb_le; rewrite app_length; lia).
    intros [= <-]. f_equal. apply (sub_app_l l x i n). lia.
  Qed.
  Lemma rdn_inv {A} (l : list A) i n r : rdn l i n = Ok r -> length r = n.
  Proof.
    unfold rdn. destruct (Nat.leb_spec (i + n) (length l)) as [L|L]; [|discriminate].
    intros [= <-]. rewrite firstn_length, skipn_length. lia.
  Qed.
  Lemma owner_bytes_ok out off o e : name_at out off o e -> (N.of_nat (length out) <= MAX_BUF)%N -> exists ob, owner_bytes out off ob.
  Proof.
    intros HN HM. pose proof (name_at_end _ _ _ _ HN) as HE. destruct (name_at_byte _ _ _ _ HN) as (b & Eb & C).
    assert (Hb : forall x, nth_error (out ++ x) off = Some b) by (intros x; now apply nth_error_app_some).
    destruct C as [[-> ->]|[Hr|[Hr (lo & e' & E1 & E2 & E3 & E4)]]].
    - exists [0%N]. split; [exists 0%N, []; cbn; auto|]. intros x HB. unfold repeat_name, rd. rewrite Hb. cbn [rbind N.eqb].
      apply emit_ok. cbn [length]. lia.
    - destruct (ptr_bytes (N.of_nat off)) as (hi & lo & EP & P1 & P2 & P3); [unfold MAX_BUF in HM; lia|].
      exists [hi; lo]. split.
      + exists hi, [lo]. split; [reflexivity|]. rewrite byte_top_set by lia. split; [right; discriminate|].
        destruct (N.eqb_spec hi 0); [lia|reflexivity].
      + intros x HB. unfold repeat_name, rd. rewrite Hb. cbn [rbind].
        destruct (N.eqb_spec b 0) as [Z|_]; [lia|]. rewrite byte_top_clear by lia. cbn [N.eqb negb]. rewrite EP. apply emit_ok. cbn [length]. lia.
    - exists [b; lo]. split.
      + exists b, [lo]. split; [reflexivity|]. rewrite byte_top_set by lia. split; [right; discriminate|].
        destruct (N.eqb_spec b 0); [lia|reflexivity].
      + intros x HB. unfold repeat_name, rd. rewrite Hb. cbn [rbind].
        destruct (N.eqb_spec b 0) as [Z|_]; [lia|]. rewrite byte_top_set by lia. cbn [N.eqb Pos.eqb negb].
        assert (L2 : S off < length out) by (apply nth_error_Some; congruence).
        rewrite rdn_ok by (rewrite app_length; lia). cbn [rbind].
        replace (sub (out ++ x) off 2) with [b; lo]; [apply emit_ok; cbn [length]; lia|].
        symmetry. unfold sub. rewrite (skipn_nth_cons _ _ _ (Hb x)). cbn [firstn].
        rewrite (skipn_nth_cons _ (S off) lo) by now apply nth_error_app_some. reflexivity.
  Qed.

  Definition addr_rec (ob : bytes) (ty ttl : N) (a : bytes) : bytes :=
    ob ++ be16 ty ++ be16 1 ++ be32 ttl ++ be16 (N.of_nat (length a)) ++ a.

  Lemma enc_addr_one out cts owner ob ty ttl a x : owner_bytes out owner ob ->
    (N.of_nat (length (out ++ x)) + (12 + N.of_nat (length a)) <= MAX_BUF)%N ->
    exists k, enc_rr lq (out ++ x) cts owner ty ttl [WBytes a] = Ok ((out ++ x) ++ addr_rec ob ty ttl a, cts, k).
  Proof.
    intros [(b & t & E1 & E2 & E3) HO] HB. unfold enc_rr. rewrite HO by lia. cbn [rbind]. set (p := out ++ x) in *.
    assert (L2 : length ob <= 2) by (rewrite E3; destruct (b =? 0)%N; lia).
    rewrite emit_ok by (rewrite !app_length, !be16_len, be32_len; cbn [length]; lia). cbn [rbind enc_pieces].
    rewrite emit_ok by (rewrite !app_length, !be16_len, be32_len; cbn [length]; lia). cbn [rbind].
    set (h0 := be16 ty ++ be16 1 ++ be32 ttl).
    replace (be16 ty ++ be16 1 ++ be32 ttl ++ [0%N; 0%N]) with (h0 ++ [0%N; 0%N]) by (unfold h0; rewrite <- !app_assoc; reflexivity).
    replace (length ((p ++ ob) ++ h0 ++ [0%N; 0%N]) - 2) with (length ((p ++ ob) ++ h0)) by (rewrite !app_length; cbn [length]; lia).
    replace (length (((p ++ ob) ++ h0 ++ [0%N; 0%N]) ++ a) - length ((p ++ ob) ++ h0 ++ [0%N; 0%N])) with (length a)
      by (rewrite (app_length _ a); lia).
    replace (((p ++ ob) ++ h0 ++ [0%N; 0%N]) ++ a) with (((p ++ ob) ++ h0) ++ [0%N; 0%N] ++ a) by (rewrite !app_assoc; reflexivity).
    rewrite wr_prefix by (rewrite be16_len; cbn; lia). cbn [rbind]. rewrite be16_len.
    change (skipn 2 ([0%N; 0%N] ++ a)) with a.
    eexists. do 2 f_equal. f_equal. unfold addr_rec, h0. rewrite <- !app_assoc. reflexivity.
  Qed.

  Lemma enc_addr_many out cts owner ob ty ttl : owner_bytes out owner ob -> forall addrs x,
    (N.of_nat (length (out ++ x)) + rrs_size (addr_rrs [] ty ttl addrs) <= MAX_BUF)%N ->
    exists al, enc_rrs lq (out ++ x) cts owner ty ttl (map (fun a => [WBytes a]) addrs) =
      Ok ((out ++ x) ++ concat (map (addr_rec ob ty ttl) addrs), cts, al).
  Proof.
    intros HO. induction addrs as [|a addrs IH]; intros x HB.
    - exists []. cbn. now rewrite app_nil_r.
    - assert (ES : rrs_size (addr_rrs [] ty ttl (a :: addrs)) = (12 + N.of_nat (length a) + rrs_size (addr_rrs [] ty ttl addrs))%N).
      { unfold addr_rrs, rrs_size, rr_size. cbn [map fold_right mk_rr rr_data piece_size]. lia. }
      rewrite ES in HB. cbn [map enc_rrs].
      destruct (enc_addr_one out cts owner ob ty ttl a x HO) as (k & E1); [lia|]. rewrite E1. cbn [rbind].
      rewrite <- app_assoc. destruct (IH (x ++ addr_rec ob ty ttl a)) as (al & E2).
      { destruct HO as [(b & t & F1 & F2 & F3) _]. rewrite app_assoc, app_length. unfold addr_rec. rewrite !app_length, !be16_len, be32_len.
        assert (length ob <= 2) by (rewrite F3; destruct (b =? 0)%N; lia). rewrite app_length in HB. lia. }
      rewrite E2. cbn [rbind concat map]. eexists. do 2 f_equal. f_equal. rewrite <- !app_assoc. reflexivity.
  Qed.

  Lemma addr_rec_at out owner o e ob ow ty ttl a x y : name_at out owner o e -> R o ow -> owner_bytes out owner ob ->
    (N.of_nat (length (out ++ x)) + 2 <= MAX_BUF)%N -> (N.of_nat (length a) < 65536)%N ->
    rr_at R ((out ++ x) ++ addr_rec ob ty ttl a ++ y) (length (out ++ x)) (mk_rr ow ty ttl [DBytes a])
      (length (out ++ x) + length (addr_rec ob ty ttl a)).
  Proof.
    intros HN HR HO HB HA. destruct (repeat_name_ok (out ++ x) owner o e) as (d & E1 & E2 & E3); [now apply name_at_app|assumption|].
    destruct HO as [_ HO]. rewrite HO in E1 by assumption. injection E1 as E1. apply app_inv_head in E1. subst d.
    set (h := be16 ty ++ be16 1 ++ be32 ttl ++ be16 (N.of_nat (length a))).
    assert (Lh : length h = 10) by reflexivity.
    assert (EA : addr_rec ob ty ttl a = ob ++ h ++ a) by (unfold addr_rec, h; rewrite <- !app_assoc; reflexivity). rewrite EA.
    set (p := out ++ x) in *.
    assert (LL : length (p ++ (ob ++ h ++ a) ++ y) = length (p ++ ob) + 10 + length a + length y) by (rewrite !app_length, Lh; lia).
    exists o, (length (p ++ ob)). rewrite LL.
    replace (length p + length (ob ++ h ++ a)) with (length (p ++ ob) + 10 + length a) by (rewrite !app_length, Lh; lia).
    replace (length (p ++ ob) + 10 + length a - (length (p ++ ob) + 10)) with (length a) by lia.
    replace (p ++ (ob ++ h ++ a) ++ y) with ((p ++ ob) ++ h ++ a ++ y) by (rewrite <- !app_assoc; reflexivity).
    split; [now apply name_at_app|]. split; [assumption|]. split; [lia|]. split; [assumption|]. split.
    - cbn [mk_rr rr_type rr_ttl]. fold h. rewrite <- (Nat.add_0_r (length (p ++ ob))), sub_app_r. rewrite sub_app_l by lia. now apply sub_all.
    - cbn [mk_rr rr_data]. constructor.
      + rewrite !app_length, Lh. lia.
      + rewrite sub_app_r. rewrite <- (Nat.add_0_r 10), <- Lh, sub_app_r. rewrite sub_app_l by lia. now apply sub_all.
      + constructor.
  Qed.

  Lemma addr_recs_at out owner o e ob ow ty ttl : name_at out owner o e -> R o ow -> owner_bytes out owner ob ->
    forall addrs x, Forall (fun a => N.of_nat (length a) < 65536)%N addrs ->
    (N.of_nat (length (out ++ x)) + rrs_size (addr_rrs [] ty ttl addrs) <= MAX_BUF)%N ->
    rrs_at R ((out ++ x) ++ concat (map (addr_rec ob ty ttl) addrs)) (length (out ++ x)) (addr_rrs ow ty ttl addrs)
      (length ((out ++ x) ++ concat (map (addr_rec ob ty ttl) addrs))).
  Proof.
    intros HN HR HO. induction addrs as [|a addrs IH]; intros x HA HB.
    - cbn. rewrite app_nil_r. constructor.
    - apply Forall_cons_iff in HA. destruct HA as [HA HAs].
      assert (ES : rrs_size (addr_rrs [] ty ttl (a :: addrs)) = (12 + N.of_nat (length a) + rrs_size (addr_rrs [] ty ttl addrs))%N).
      { unfold addr_rrs, rrs_size, rr_size. cbn [map fold_right mk_rr rr_data piece_size]. lia. }
      rewrite ES in HB. cbn [map concat addr_rrs]. econstructor.
      + eapply addr_rec_at; eauto. lia.
      + fold (addr_rrs ow ty ttl addrs). specialize (IH (x ++ addr_rec ob ty ttl a) HAs).
        rewrite !app_assoc in IH. rewrite app_assoc. rewrite <- app_length. apply IH.
        destruct HO as [(b & t & F1 & F2 & F3) _]. rewrite app_length. unfold addr_rec. rewrite !app_length, !be16_len, be32_len.
        assert (length ob <= 2) by (rewrite F3; destruct (b =? 0)%N; lia). rewrite app_length in HB. lia.
  Qed.

  Variable draws : nat -> nat -> list nat.
  Hypothesis draws_legal : forall off n, legal_draws (n - 1) (draws off n).

  Lemma enc_addrs_ok s owner o e ow ty ttl addrs : inv (s_out s) (s_cts s) -> name_at (s_out s) owner o e -> R o ow ->
    (ty = 1%N /\ wf_addrs 4 addrs) \/ (ty = 28%N /\ wf_addrs 16 addrs) ->
    (N.of_nat (length (s_out s)) + rrs_size (addr_rrs ow ty ttl addrs) <= MAX_BUF)%N ->
    exists d addrs', Permutation addrs' addrs /\
      enc_addrs lq draws s owner ty ttl addrs = Ok (set_out s (s_out s ++ d) (s_cts s)) /\
      inv (s_out s ++ d) (s_cts s) /\ (N.of_nat (length d) <= rrs_size (addr_rrs ow ty ttl addrs))%N /\
      rrs_at R (s_out s ++ d) (length (s_out s)) (addr_rrs ow ty ttl addrs') (length (s_out s ++ d)).
  Proof.
    intros HI HN HR HT HB. set (out := s_out s) in *.
    destruct (owner_bytes_ok out owner o e HN) as (ob & HO); [lia|].
    set (L := if (ty =? T_A)%N then 16 else 28).
    assert (HW : exists l, wf_addrs l addrs /\ 12 + l = L /\ l < 20).
    { destruct HT as [[-> HW]|[-> HW]]; [exists 4|exists 16]; (split; [assumption|]); split; [reflexivity|lia|reflexivity|lia]. }
    destruct HW as (l & [NE HL] & EL & Ll).
    assert (HS : rrs_size (addr_rrs [] ty ttl addrs) = rrs_size (addr_rrs ow ty ttl addrs)) by apply rrs_size_addr.
    unfold enc_addrs. replace (Nat.eqb (length addrs) 0) with false by (destruct addrs; [contradiction|reflexivity]). cbn [negb rassert].
    fold out. fold L. destruct (enc_addr_many out (s_cts s) owner ob ty ttl HO addrs []) as (al & E1).
    { rewrite app_nil_r. lia. }
    rewrite app_nil_r in E1. rewrite E1. cbn [rbind].
    set (recs := map (addr_rec ob ty ttl) addrs) in *.
    rewrite skipn_app, skipn_all, Nat.sub_diag. cbn [skipn app].
    rewrite firstn_app, Nat.sub_diag, firstn_all, firstn_O, app_nil_r.
    pose proof HO as [(b & t & F1 & F2 & F3) _].
    assert (HRL : Forall (fun r => length r = length ob + 10 + l) recs).
    { unfold recs. apply Forall_forall. intros r Hr. apply in_map_iff in Hr. destruct Hr as (a & <- & Ha).
      rewrite Forall_forall in HL. unfold addr_rec. rewrite !app_length, !be16_len, be32_len, (HL a Ha). lia. }
    assert (HE : eff_len (concat recs) L = length ob + 10 + l).
    { unfold recs. destruct addrs as [|a addrs]; [contradiction|]. cbn [map concat]. unfold addr_rec at 1. rewrite F3. rewrite F1. cbn [app eff_len].
      destruct (N.eqb_spec b 0) as [->|Z]; [lia|]. destruct b; [contradiction|]. lia. }
    assert (LC : length (concat recs) = length addrs * (length ob + 10 + l)).
    { rewrite (concat_const_len _ _ HRL). unfold recs. now rewrite map_length. }
    destruct (shuffle_addrs_perm (draws (length out) (length addrs)) (concat recs) (length addrs) L) as (buf' & G1 & G2 & _ & G4).
    { unfold L. destruct (ty =? T_A)%N; auto. }
    { destruct addrs; [contradiction|cbn; lia]. }
    { unfold recs. destruct addrs as [|a addrs]; [contradiction|]. cbn [map concat]. unfold addr_rec at 1. rewrite F1. cbn [app]. eauto. }
    { rewrite HE, LC. lia. }
    { apply draws_legal. }
    rewrite G1. cbn [rbind]. rewrite HE in G2.
    replace (length addrs) with (length recs) in G2 by (unfold recs; apply map_length).
    rewrite records_concat_eq in G2 by assumption.
    unfold recs in G2 at 2. apply Permutation_map_inv in G2. destruct G2 as (addrs' & G2 & G3).
    assert (EB : buf' = concat (map (addr_rec ob ty ttl) addrs')).
    { rewrite <- G2. symmetry. apply concat_records. rewrite G4, LC. unfold recs. now rewrite map_length. }
    exists buf', addrs'. split; [now apply Permutation_sym|]. split; [reflexivity|]. split; [now apply inv_app|]. split.
    - rewrite G4, LC. rewrite <- HS. clear -HL F3. unfold addr_rrs, rrs_size, rr_size. induction HL as [|a addrs E H IH]; [cbn; lia|].
      cbn [map fold_right length mk_rr rr_data piece_size] in *. assert (length ob <= 2) by (rewrite F3; destruct (b =? 0)%N; lia). lia.
    - subst buf'. pose proof (addr_recs_at out owner o e ob ow ty ttl HN HR HO addrs' []) as H. rewrite app_nil_r in H. apply H.
      + apply Forall_forall. intros a Ha. rewrite Forall_forall in HL. rewrite (HL a); [lia|]. eapply Permutation_in; [apply Permutation_sym, G3|exact Ha].
      + rewrite (rrs_size_perm _ (addr_rrs [] ty ttl addrs)); [lia|]. unfold addr_rrs. apply Permutation_map. now apply Permutation_sym.
  Qed.
End Enc.
