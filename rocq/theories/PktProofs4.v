From Verif Require Import Base DnameModel DnameSpec DnameProofs PktModel PktSpec PktProofs PktProofs2 PktProofs3.
Ltac Zify.zify_post_hook ::= idtac.

Lemma small_byte_check (P : N -> bool) : forallb (fun n => P (N.of_nat n)) (seq 0 256) = true -> forall b, (b < 256)%N -> P b = true.
Proof.
  intros Q b H. rewrite forallb_forall in Q. specialize (Q (N.to_nat b)). rewrite N2Nat.id in Q.
  apply Q, in_seq. lia.
Qed.
Lemma qr_bit b : (b < 256)%N -> negb (N.land b 128 =? 0)%N = N.testbit b 7.
Proof.
  intros H. apply eqb_prop. revert b H.
  apply (small_byte_check (fun b => Bool.eqb (negb (N.land b 128 =? 0)%N) (N.testbit b 7))). vm_compute. reflexivity.
Qed.
Lemma opcode_bits b : (b < 256)%N -> N.shiftr (N.land b 120) 3 = ((b / 8) mod 16)%N.
Proof.
  intros H. apply N.eqb_eq. revert b H.
  apply (small_byte_check (fun b => N.shiftr (N.land b 120) 3 =? (b / 8) mod 16)%N). vm_compute. reflexivity.
Qed.
Lemma rd_nth pkt i : all_bytes pkt -> i < length pkt -> rd pkt i = Ok (nth i pkt 0%N) /\ (nth i pkt 0 < 256)%N.
Proof.
  intros HB H. destruct (rd_byte pkt i HB H) as (v & E & B & N). rewrite (nth_error_nth _ _ _ N). auto.
Qed.
Lemma rd16_nth pkt i : all_bytes pkt -> S i < length pkt -> rd16 pkt i = Ok (get16 (nth i pkt 0%N) (nth (S i) pkt 0%N)).
Proof.
  intros HB H. unfold rd16. destruct (rd_nth pkt i HB) as [-> _]; [lia|]. destruct (rd_nth pkt (S i) HB) as [-> _]; [lia|]. reflexivity.
Qed.

Section D.
  Variable cfg : pcfg.
  Variable ckp : bytes -> bool * bytes.
  Hypothesis ckp_len : forall d, length (snd (ckp d)) = 16.

  Lemma edns0_wf : ewf edns0.
  Proof. repeat split. Qed.

  Lemma query_rrs_ok dso pkt : all_bytes pkt -> 12 <= length pkt ->
    exists rv t off, parse_query_rrs cfg ckp dso pkt (txn_init cfg) = Ok (rv, t, off) /\
      (((~ exists q o, first_question pkt q o) /\ rv = DECODE_FORMERR /\ t = txn_init cfg /\ off = 12) \/
       (exists q rv1, first_question pkt q off /\ off <= length pkt /\ opt_effect cfg ckp dso pkt off (txn_start cfg q) rv1 t /\
                  (rv = rv1 \/ (rv1 = DECODE_OK /\ rv = DECODE_FORMERR)))).
  Proof.
    intros HB HL. unfold parse_query_rrs.
    destruct (Nat.leb_spec 12 (length pkt)); [|lia]. cbn [rassert txn_init t_qdcount]. rewrite N.eqb_refl. cbn [rassert].
    rewrite (rd16_nth pkt 4) by (auto; lia). rewrite (rd16_nth pkt 6) by (auto; lia).
    rewrite (rd16_nth pkt 8) by (auto; lia). rewrite (rd16_nth pkt 10) by (auto; lia). cbn [rbind].
    fold (qdcount_of pkt). set (an := get16 (nth 6 pkt 0%N) _). set (ns := get16 (nth 8 pkt 0%N) _). set (ar := get16 (nth 10 pkt 0%N) _).
    clearbody an ns ar.
    set (q := if (qdcount_of pkt =? 0)%N then _ else _).
    assert (HQ : ((~ exists q o, first_question pkt q o) /\ q = Ok None) \/
                 (exists qq off, first_question pkt qq off /\ off <= length pkt /\ q = Ok (Some (txn_start cfg qq, off)))).
    { unfold q. destruct (N.eqb_spec (qdcount_of pkt) 0) as [Z|NZ].
      - right. exists None, 12. split; [now apply fq_none|]. split; [lia|reflexivity].
      - assert (EP : pkt = firstn 12 pkt ++ skipn 12 pkt) by (now rewrite firstn_skipn).
        assert (LP : length (firstn 12 pkt) = 12) by (rewrite firstn_length; lia).
        assert (HBs : all_bytes (skipn 12 pkt)) by (rewrite EP in HB; apply Forall_app in HB; apply HB).
        pose proof (first_question_ok (firstn 12 pkt) (skipn 12 pkt) (txn_init cfg) HBs) as FQ.
        rewrite firstn_skipn, LP in FQ. destruct FQ as [(qq & rest & QO & E & R)|(NE & R)]; rewrite R; cbn [rbind].
        + right. exists (Some qq), (12 + length (question_wire qq)). split; [eapply fq_some; eauto|].
          split; [|reflexivity]. pose proof (skipn_length 12 pkt) as LS. rewrite E, app_length in LS. lia.
        + left. split; [|reflexivity]. intros (q0 & o & FQ). inversion FQ; subst; [congruence|]. apply NE. eauto. }
    destruct HQ as [[NQ ->]|(qq & off & FQ & LO & ->)]; cbn [rbind].
    { do 3 eexists; split; [reflexivity|]. left. auto. }
    assert (FM : forall rv1 t, opt_effect cfg ckp dso pkt off (txn_start cfg qq) rv1 t ->
      forall rv, (rv = rv1 \/ (rv1 = DECODE_OK /\ rv = DECODE_FORMERR)) ->
      exists rv0 t0 off0, Ok (rv, t, off) = Ok (rv0, t0, off0) /\
      (((~ exists q o, first_question pkt q o) /\ rv0 = DECODE_FORMERR /\ t0 = txn_init cfg /\ off0 = 12) \/
       (exists q rv1, first_question pkt q off0 /\ off0 <= length pkt /\ opt_effect cfg ckp dso pkt off0 (txn_start cfg q) rv1 t0 /\
                  (rv0 = rv1 \/ (rv1 = DECODE_OK /\ rv0 = DECODE_FORMERR))))).
    { intros rv1 t OE rv D. do 3 eexists; split; [reflexivity|]. right. eauto 10. }
    pose proof (oe_none cfg ckp dso pkt off (txn_start cfg qq)) as ON.
    destruct (rrs_minimal_ok (N.to_nat (qdcount_of pkt) - 1) pkt off false) as (r & -> & Hr); [lia|]. cbn [rbind].
    destruct r as [o1|]; [|eapply FM; eauto]. specialize (Hr o1 eq_refl).
    destruct (rrs_minimal_ok (N.to_nat an) pkt o1 true) as (r & -> & Hr2); [lia|]. cbn [rbind].
    destruct r as [o2|]; [|eapply FM; eauto]. specialize (Hr2 o2 eq_refl).
    destruct (rrs_minimal_ok (N.to_nat ns) pkt o2 true) as (r & -> & Hr3); [lia|]. cbn [rbind].
    destruct r as [o3|]; [|eapply FM; eauto]. specialize (Hr3 o3 eq_refl).
    destruct (additional_ok cfg ckp ckp_len dso pkt HB (N.to_nat ar) (txn_start cfg qq) o3 false) as (rv & t' & -> & D);
      [lia|apply edns0_wf|]. cbn [rbind].
    destruct D as [[-> D]|(_ & p & size & ext & rdlen & tail & rv1 & L1 & EP & Bs & O & D)].
    - eapply FM; [exact ON|]. destruct D; auto.
    - eapply FM; [eapply (oe_some _ _ _ _ _ _ p size ext rdlen tail); [lia|exact EP|exact Bs|exact O]|]. destruct D as [->|[-> ->]]; auto.
  Qed.

  Lemma decode_query_ok dso pkt : all_bytes pkt ->
    exists rv t off, decode_query cfg ckp dso pkt (txn_init cfg) = Ok (rv, t, off) /\
      ((length pkt < 12 \/ qr_set pkt = true) /\ rv = DECODE_IGNORE /\ t = txn_init cfg /\ off = 12 \/
       12 <= length pkt /\ qr_set pkt = false /\ off <= length pkt /\
       ((~ (exists q o, first_question pkt q o) /\ rv = DECODE_FORMERR /\ t = txn_init cfg /\ off = 12) \/
        exists q rv1, first_question pkt q off /\ opt_effect cfg ckp dso pkt off (txn_start cfg q) rv1 t /\
                  (rv = rv1 /\ rv1 <> DECODE_OK \/ rv1 = DECODE_OK /\ (rv = DECODE_FORMERR \/ rv = opcode_verdict cfg pkt t)))).
  Proof.
    intros HB. unfold decode_query. destruct (Nat.ltb_spec (length pkt) 12) as [L|L].
    { do 3 eexists; split; [reflexivity|]. left. auto. }
    destruct (rd_nth pkt 2 HB) as [-> B2]; [lia|]. cbn [rbind]. rewrite qr_bit by assumption. fold (qr_set pkt).
    destruct (qr_set pkt) eqn:EQ.
    { do 3 eexists; split; [reflexivity|]. left. auto. }
    destruct (query_rrs_ok dso pkt HB L) as (rv & t & off & -> & D). cbn [rbind].
    assert (LO : off <= length pkt).
    { destruct D as [(_ & _ & _ & ->)|(q & rv1 & _ & LO & _)]; [assumption|exact LO]. }
    rewrite (rd16_nth pkt 4) by (auto; lia). rewrite opcode_bits by assumption.
    fold (opcode_of pkt) (qdcount_of pkt). cbn [rbind].
    assert (EV : match rv with DECODE_OK =>
                   (if (opcode_of pkt =? 0)%N then
                     if ((1 <? qdcount_of pkt) || ((qdcount_of pkt =? 0) && negb (e_ck_recvd (t_edns t))))%N%bool then Ok (DECODE_FORMERR, t, off)
                     else if ((127 <? t_qtype t) && (t_qtype t <? 255))%N%bool then Ok (DECODE_NOTIMP, t, off) else Ok (DECODE_OK, t, off)
                    else if ((opcode_of pkt =? 6)%N && negb (c_disable_dso cfg))%bool then Ok (DECODE_DSO, t, off) else Ok (DECODE_NOTIMP, t, off))
                 | _ => Ok (rv, t, off) end =
                 Ok (match rv with DECODE_OK => opcode_verdict cfg pkt t | _ => rv end, t, off)).
    { destruct rv; try reflexivity. unfold opcode_verdict.
      replace ((128 <=? t_qtype t) && (t_qtype t <=? 254))%N%bool with ((127 <? t_qtype t) && (t_qtype t <? 255))%N%bool.
      2:{ f_equal; [destruct (N.ltb_spec 127 (t_qtype t)), (N.leb_spec 128 (t_qtype t))|destruct (N.ltb_spec (t_qtype t) 255), (N.leb_spec (t_qtype t) 254)]; try reflexivity; lia. }
      destruct (opcode_of pkt =? 0)%N; repeat match goal with |- context [if ?c then _ else _] => destruct c end; reflexivity. }
    rewrite EV. do 3 eexists; split; [reflexivity|]. right. split; [assumption|]. split; [reflexivity|]. split; [assumption|].
    destruct D as [(NQ & -> & -> & ->)|(q & rv1 & FQ & _ & OE & D)]; [left; auto|].
    right. exists q, rv1. split; [assumption|]. split; [assumption|].
    destruct D as [->|[-> ->]]; [|auto].
    destruct rv1; auto; left; split; auto; discriminate.
  Qed.

  (** *** Exactness on standard messages *)
  Lemma question_wire_len q : length (question_wire q) = wire_len (q_name q) + 4.
  Proof. unfold question_wire. rewrite !app_length, <- wire_labels_len. cbn [length be16]. lia. Qed.

  Lemma question_unique q q' r r' : question_ok q -> question_ok q' -> question_wire q ++ r = question_wire q' ++ r' -> q = q' /\ r = r'.
  Proof.
    intros (L & T & C) (L' & T' & C') E. unfold question_wire in E. rewrite <- !app_assoc in E. cbn [app] in E.
    apply wire_inj in E; [|apply legal_struct; auto|apply legal_struct; auto|now left|now left].
    destruct E as (E1 & _ & E2). unfold be16 in E2. cbn [app] in E2. injection E2 as A1 A2 A3 A4 A5.
    assert (q_type q = q_type q') by (rewrite <- (get16_be16 (q_type q)), A1, A2, get16_be16; auto).
    assert (q_class q = q_class q') by (rewrite <- (get16_be16 (q_class q)), A3, A4, get16_be16; auto).
    destruct q, q'; cbn in *. subst. auto.
  Qed.

  Lemma opt_wire_inj o o' r r' : opt_ok o -> opt_ok o' -> opt_wire o ++ r = opt_wire o' ++ r' -> o = o' /\ r = r'.
  Proof.
    intros (C & L & _) (C' & L' & _) E. unfold opt_wire in E. rewrite <- !app_assoc in E. unfold be16 in E. cbn [app] in E.
    injection E as A1 A2 A3 A4 E.
    assert (fst o = fst o') by (rewrite <- (get16_be16 (fst o)), A1, A2, get16_be16; auto).
    assert (N.of_nat (length (snd o)) = N.of_nat (length (snd o'))) by (rewrite <- (get16_be16 (N.of_nat (length (snd o)))), A3, A4, get16_be16; auto).
    assert (LL : length (snd o) = length (snd o')) by (now apply Nat2N.inj).
    assert (snd o = snd o' /\ r = r') as [E1 ->].
    { split.
      - apply (f_equal (firstn (length (snd o)))) in E. rewrite firstn_app, Nat.sub_diag, firstn_all, firstn_O, app_nil_r in E.
        rewrite LL, firstn_app, Nat.sub_diag, firstn_all, firstn_O, app_nil_r in E. exact E.
      - apply (f_equal (skipn (length (snd o)))) in E. rewrite skipn_app, Nat.sub_diag, skipn_all in E.
        rewrite LL, skipn_app, Nat.sub_diag, skipn_all in E. exact E. }
    destruct o, o'; cbn in *; subst; auto.
  Qed.

  (** Options given as a list. *)
  Inductive opts_list (dso : bool) : edns -> list (N * list N) -> rcode_rv -> edns -> Prop :=
  | ol_end e : opts_list dso e [] DECODE_OK e
  | ol_next e o os rv e1 e2 : opt_rel cfg ckp dso e o DECODE_OK e1 -> opts_list dso e1 os rv e2 -> opts_list dso e (o :: os) rv e2
  | ol_stop e o os rv e1 : opt_rel cfg ckp dso e o rv e1 -> rv <> DECODE_OK -> opts_list dso e (o :: os) rv e1.

  Lemma opts_rel_list dso e R rv e' : opts_rel cfg ckp dso e R rv e' -> forall os, Forall opt_ok os -> R = opts_wire os -> opts_list dso e os rv e'.
  Proof.
    induction 1 as [e|e R HN NO|e o R rv e1 e2 HO OR ORS IH|e o R rv e1 HO OR NE]; intros os HF E.
    - destruct os as [|o os]; [constructor|]. unfold opts_wire in E. cbn [map concat] in E. unfold opt_wire in E. discriminate E.
    - destruct os as [|o os]; [cbn in E; congruence|]. inversion HF; subst. exfalso.
      eapply NO; [eassumption|]. reflexivity.
    - destruct os as [|o' os]; [unfold opt_wire in E; discriminate E|]. inversion HF; subst.
      apply opt_wire_inj in E; auto. destruct E as [<- ->]. eapply ol_next; eauto.
    - destruct os as [|o' os]; [unfold opt_wire in E; discriminate E|]. inversion HF; subst.
      apply opt_wire_inj in E; auto. destruct E as [<- _]. eapply ol_stop; eauto.
  Qed.

  Lemma opt_rel_ecs dso e opt rv e' : opt_rel cfg ckp dso e (8%N, opt) rv e' -> c_ecs cfg = true ->
    (rv = DECODE_OK /\ ecs_ok opt) \/ (rv = DECODE_FORMERR /\ ~ ecs_ok opt).
  Proof.
    intros H C. inversion H; subst; try congruence.
    - left. split; [reflexivity|]. do 3 eexists; eassumption.
    - right; auto.
    - cbn in *. tauto.
  Qed.

  Lemma opts_list_ecs dso e os rv e' : opts_list dso e os rv e' -> c_ecs cfg = true -> rv = DECODE_OK ->
    forall opt, In (8%N, opt) os -> ecs_ok opt.
  Proof.
    induction 1 as [e|e o os rv e1 e2 OR ORS IH|e o os rv e1 OR NE]; intros C E opt HI; [destruct HI| |congruence].
    destruct HI as [->|HI]; [|auto]. apply opt_rel_ecs in OR; auto. destruct OR as [[_ Q]|[Q _]]; [exact Q|discriminate Q].
  Qed.

  Lemma opt_rel_rv dso e o rv e' : opt_rel cfg ckp dso e o rv e' ->
    rv = DECODE_OK \/ rv = DECODE_FORMERR \/ (rv = DECODE_IGNORE /\ fst o = 11%N /\ c_is_udp cfg = false /\ dso = true).
  Proof. inversion 1; subst; auto 10. Qed.
  Lemma opts_rel_rv dso e R rv e' : opts_rel cfg ckp dso e R rv e' ->
    rv = DECODE_OK \/ rv = DECODE_FORMERR \/ (rv = DECODE_IGNORE /\ c_is_udp cfg = false /\ dso = true).
  Proof. induction 1; subst; auto. apply opt_rel_rv in H0. tauto. Qed.
  Lemma optrr_rel_rv dso t a b c d rv t' : optrr_rel cfg ckp dso t a b c d rv t' ->
    rv = DECODE_OK \/ rv = DECODE_FORMERR \/ rv = DECODE_BADVERS \/ (rv = DECODE_IGNORE /\ c_is_udp cfg = false /\ dso = true).
  Proof. inversion 1; subst; auto. apply opts_rel_rv in H2. tauto. Qed.
  Lemma opt_effect_rv dso pkt off t rv t' : opt_effect cfg ckp dso pkt off t rv t' ->
    rv = DECODE_OK \/ rv = DECODE_FORMERR \/ rv = DECODE_BADVERS \/ (rv = DECODE_IGNORE /\ c_is_udp cfg = false /\ dso = true).
  Proof. inversion 1; subst; auto. eapply optrr_rel_rv; eauto. Qed.

  (** header fields of a message built from parts *)
  Lemma header_len id f1 f2 a b c d : length id = 2 -> length (header id f1 f2 a b c d) = 12.
  Proof. intros H. unfold header. rewrite !app_length, H. reflexivity. Qed.


  (** A standard message: one question, at most an OPT record behind it. *)
  Lemma optrr_wire_eq o : optrr_wire o = opt_header (o_size o) (o_ext o) (N.of_nat (length (opts_wire (o_opts o)))) ++ opts_wire (o_opts o).
  Proof. unfold optrr_wire, opt_header. rewrite <- !app_assoc. reflexivity. Qed.

  Lemma opts_wire_bytes os : Forall opt_ok os -> all_bytes (opts_wire os).
  Proof.
    induction 1 as [|o os (H1 & H2 & H3) _ IH]; [constructor|]. unfold opts_wire. cbn [map concat].
    apply Forall_app. split; [|exact IH]. unfold opt_wire. apply Forall_app. split; [apply be16_bytes|].
    apply Forall_app. split; [apply be16_bytes|exact H3].
  Qed.
  Lemma question_wire_bytes q : question_ok q -> all_bytes (question_wire q).
  Proof.
    intros (L & _). unfold question_wire. apply Forall_app. split.
    - destruct L as [L _]. induction L as [|l r [H1 H2] _ IH]; cbn [wire_labels]; constructor.
      + unfold is_byte. lia.
      + apply Forall_app. auto.
    - apply Forall_app. split; [constructor; [reflexivity|constructor]|]. apply Forall_app. split; apply be16_bytes.
  Qed.
  Lemma std_bytes id f1 f2 q o trail : length id = 2 -> all_bytes id -> (f1 < 256)%N -> (f2 < 256)%N -> question_ok q ->
    (forall x, o = Some x -> optrr_ok x) -> all_bytes trail -> all_bytes (std_msg id f1 f2 q o trail).
  Proof.
    intros Hi Hib H1 H2 HQ HO HT. unfold std_msg, header.
    apply Forall_app; split; [|apply Forall_app; split; [now apply question_wire_bytes|apply Forall_app; split; [|assumption]]].
    - apply Forall_app; split; [assumption|]. apply Forall_app; split; [constructor; [exact H1|constructor; [exact H2|constructor]]|].
      repeat (apply Forall_app; split); apply be16_bytes.
    - unfold add_wire. destruct o as [o|]; [|constructor]. destruct (HO o eq_refl) as (_ & _ & HF & _).
      rewrite optrr_wire_eq. apply Forall_app. split; [|now apply opts_wire_bytes].
      unfold opt_header. repeat (apply Forall_app; split); try apply be16_bytes; try apply be32_bytes;
      constructor; [reflexivity|constructor].
  Qed.

  Lemma standard_ok dso id f1 f2 q o trail : length id = 2 -> all_bytes id -> (f1 < 128)%N -> (f2 < 256)%N -> question_ok q ->
    (forall x, o = Some x -> optrr_ok x) -> all_bytes trail ->
    let pkt := std_msg id f1 f2 q o trail in
    exists rv1 t, decode_query cfg ckp dso pkt (txn_init cfg) =
      Ok (match rv1 with DECODE_OK => opcode_verdict cfg pkt t | _ => rv1 end, t, 12 + length (question_wire q)) /\
      match o with
      | None => rv1 = DECODE_OK /\ t = txn_start cfg (Some q)
      | Some x => optrr_rel cfg ckp dso (txn_start cfg (Some q)) (o_size x) (o_ext x) (N.of_nat (length (opts_wire (o_opts x))))
                    (opts_wire (o_opts x) ++ trail) rv1 t
      end.
  Proof.
    intros Hi Hib H1 H2 HQ HO HT pkt.
    assert (HB : all_bytes pkt) by (apply std_bytes; auto; lia).
    assert (EP : pkt = header id f1 f2 1 0 0 (add_count o) ++ question_wire q ++ add_wire o ++ trail) by reflexivity.
    assert (LH : length (header id f1 f2 1 0 0 (add_count o)) = 12) by (now apply header_len).
    assert (LP : 12 <= length pkt) by (rewrite EP, app_length, LH; lia).
    destruct id as [|i0 [|i1 [|? ?]]]; try discriminate Hi.
    assert (N2 : nth 2 pkt 0%N = f1) by reflexivity.
    assert (EQR : qr_set pkt = false).
    { unfold qr_set. rewrite N2. destruct (N.testbit f1 7) eqn:E; [|reflexivity].
      exfalso. assert (N.shiftr f1 7 = 0)%N by (rewrite N.shiftr_div_pow2; apply N.div_small; exact H1).
      rewrite <- (N.add_0_l 7), <- N.shiftr_spec, H, N.bits_0 in E by lia. discriminate E. }
    assert (EQD : qdcount_of pkt = 1%N) by reflexivity.
    assert (PQ : exists rv1 t, parse_query_rrs cfg ckp dso pkt (txn_init cfg) = Ok (rv1, t, 12 + length (question_wire q)) /\
      match o with
      | None => rv1 = DECODE_OK /\ t = txn_start cfg (Some q)
      | Some x => optrr_rel cfg ckp dso (txn_start cfg (Some q)) (o_size x) (o_ext x) (N.of_nat (length (opts_wire (o_opts x))))
                    (opts_wire (o_opts x) ++ trail) rv1 t
      end).
    { unfold parse_query_rrs. destruct (Nat.leb_spec 12 (length pkt)); [|lia]. cbn [rassert txn_init t_qdcount]. rewrite N.eqb_refl. cbn [rassert].
      rewrite (rd16_nth pkt 4), (rd16_nth pkt 6), (rd16_nth pkt 8), (rd16_nth pkt 10) by (auto; lia). cbn [rbind].
      fold (qdcount_of pkt). rewrite EQD.
      replace (get16 (nth 6 pkt 0%N) (nth 7 pkt 0%N)) with 0%N by reflexivity.
      replace (get16 (nth 8 pkt 0%N) (nth 9 pkt 0%N)) with 0%N by reflexivity.
      replace (get16 (nth 10 pkt 0%N) (nth 11 pkt 0%N)) with (add_count o) by (unfold pkt, std_msg; destruct o; reflexivity).
      change (1 =? 0)%N with false. cbn iota.
      assert (HBq : all_bytes (question_wire q ++ add_wire o ++ trail)) by (rewrite EP in HB; apply Forall_app in HB; apply HB).
      pose proof (first_question_ok (header [i0; i1] f1 f2 1 0 0 (add_count o)) (question_wire q ++ add_wire o ++ trail) (txn_init cfg) HBq) as FQ.
      rewrite <- EP, LH in FQ. destruct FQ as [(q' & r' & QO & E & R)|(NE & _)].
      2:{ exfalso. apply NE. eauto. }
      apply question_unique in E; auto. destruct E as [<- <-]. rewrite R. cbn [rbind].
      change (N.to_nat 1 - 1) with 0. change (N.to_nat 0) with 0. cbn [parse_rrs_minimal rbind].
      set (t0 := {| t_max := _ |}). assert (ET : t0 = txn_start cfg (Some q)) by reflexivity. rewrite ET. clear t0 ET.
      destruct o as [x|]; cbn [add_count].
      - destruct (HO x eq_refl) as (Hs & He & HF & Hr).
        change (N.to_nat 1) with 1. cbn [parse_additional].
        set (R0 := N.of_nat (length (opts_wire (o_opts x)))) in *.
        set (pre := header [i0; i1] f1 f2 1 0 0 (add_count (Some x)) ++ question_wire q).
        assert (EP2 : pkt = pre ++ opt_header (o_size x) (o_ext x) R0 ++ opts_wire (o_opts x) ++ trail).
        { rewrite EP. unfold pre, add_wire. rewrite optrr_wire_eq, <- !app_assoc. reflexivity. }
        assert (LPre : length pre = 12 + length (question_wire q)) by (unfold pre; now rewrite app_length, LH).
        rewrite <- LPre.
        assert (L11 : length pre + 11 <= length pkt).
        { rewrite EP2, !app_length. unfold opt_header. rewrite !app_length. cbn [length be16 be32]. lia. }
        apply Nat.leb_le in L11. rewrite L11.
        assert (R1 : rd pkt (length pre) = Ok 0%N) by (rewrite EP2, rd_at; reflexivity).
        assert (R2 : rd16 pkt (length pre + 1) = Ok 41%N) by (rewrite EP2, rd16_plus; reflexivity).
        rewrite R1. cbn [rbind]. rewrite N.eqb_refl, R2. cbn [rbind]. rewrite N.eqb_refl.
        assert (HBt : all_bytes (opts_wire (o_opts x) ++ trail)) by (apply Forall_app; split; [now apply opts_wire_bytes|assumption]).
        destruct (optrr_ok_run cfg ckp ckp_len dso pre (o_size x) (o_ext x) R0 (opts_wire (o_opts x) ++ trail) (txn_start cfg (Some q))
                    Hs He Hr HBt edns0_wf) as (rv & t' & off & RR & OR & _).
        rewrite <- EP2 in RR. rewrite RR. cbn [rbind].
        exists rv, t'. split; [|exact OR]. destruct rv; reflexivity.
      - change (N.to_nat 0) with 0. cbn [parse_additional rbind]. do 2 eexists; split; [reflexivity|]. auto. }
    destruct PQ as (rv1 & t & PQ & D). exists rv1, t. split; [|exact D].
    unfold decode_query. destruct (Nat.ltb_spec (length pkt) 12); [lia|].
    destruct (rd_nth pkt 2 HB) as [-> B2]; [lia|]. cbn [rbind]. rewrite qr_bit by assumption. fold (qr_set pkt). rewrite EQR, PQ. cbn [rbind].
    destruct rv1; try reflexivity.
    rewrite (rd16_nth pkt 4) by (auto; lia). rewrite opcode_bits by assumption. fold (opcode_of pkt) (qdcount_of pkt). cbn [rbind].
    unfold opcode_verdict.
    replace ((128 <=? t_qtype t) && (t_qtype t <=? 254))%N%bool with ((127 <? t_qtype t) && (t_qtype t <? 255))%N%bool.
    2:{ f_equal; [destruct (N.ltb_spec 127 (t_qtype t)), (N.leb_spec 128 (t_qtype t))|destruct (N.ltb_spec (t_qtype t) 255), (N.leb_spec (t_qtype t) 254)]; try reflexivity; lia. }
    destruct (opcode_of pkt =? 0)%N; repeat match goal with |- context [if ?c then _ else _] => destruct c end; reflexivity.
  Qed.
End D.
