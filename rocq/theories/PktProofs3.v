From Verif Require Import Base DnameModel DnameSpec DnameProofs PktModel PktSpec PktProofs PktProofs2.
Ltac Zify.zify_post_hook ::= idtac.

Lemma rr_name_minimal_ok : forall fuel pkt base len pos,
  base + len <= length pkt -> pos < len -> len - pos < fuel ->
  exists r, rr_name_minimal fuel pkt base len pos = Ok r /\ (r = 0 \/ pos < r <= len).
Proof.
  induction fuel as [|fuel IH]; intros pkt base len pos HL HP HF; [lia|]. cbn [rr_name_minimal].
  destruct (rd_ok pkt (base + pos)) as [x ->]; [lia|]. cbn [rbind].
  destruct (N.eqb_spec x 0); [eexists; split; [reflexivity|lia]|].
  destruct (negb (N.land x 192 =? 0)%N).
  { destruct (Nat.leb_spec len (pos + 1 + 1)); eexists; (split; [reflexivity|lia]). }
  destruct (Nat.leb_spec len (pos + 1 + N.to_nat x)); [eexists; split; [reflexivity|lia]|].
  destruct (IH pkt base len (pos + 1 + N.to_nat x)) as (r & -> & Hr); try lia.
  eexists; split; [reflexivity|lia].
Qed.

Lemma rr_minimal_ok pkt offset has_data : offset <= length pkt ->
  exists r, parse_rr_minimal pkt offset has_data = Ok r /\ (forall o, r = Some o -> offset < o <= length pkt).
Proof.
  intros H. unfold parse_rr_minimal. apply Nat.leb_le in H as H'. rewrite H'. cbn [rassert].
  destruct (Nat.eqb_spec (length pkt - offset) 0) as [Z|NZ]; [eexists; split; [reflexivity|discriminate]|].
  unfold parse_rr_name_minimal. destruct (Nat.eqb_spec (length pkt - offset) 0); [lia|]. cbn [negb rassert].
  remember 256 as F eqn:EF.
  set (len := if Nat.ltb 255 (length pkt - offset) then 255 else length pkt - offset).
  assert (HL : 0 < len <= length pkt - offset /\ len < F).
  { unfold len. rewrite EF. destruct (Nat.ltb_spec 255 (length pkt - offset)); lia. }
  clear EF. clearbody len.
  destruct (rr_name_minimal_ok F pkt offset len 0) as (r & -> & Hr); try lia. cbn [rbind].
  destruct (Nat.eqb_spec r 0); [eexists; split; [reflexivity|discriminate]|].
  destruct has_data.
  - destruct (Nat.ltb_spec (length pkt - offset) (r + 10)); [eexists; split; [reflexivity|discriminate]|].
    destruct (rd16_ok pkt (offset + r + 8)) as (v & -> & _); [lia|]. cbn [rbind].
    destruct (Nat.ltb_spec (length pkt - offset) (r + 10 + N.to_nat v)); eexists; (split; [reflexivity|]); [discriminate|].
    intros o [= <-]. lia.
  - destruct (Nat.ltb_spec (length pkt - offset) (r + 4)); eexists; (split; [reflexivity|]); [discriminate|].
    intros o [= <-]. lia.
Qed.

Lemma rrs_minimal_ok : forall n pkt offset has_data, offset <= length pkt ->
  exists r, parse_rrs_minimal n pkt offset has_data = Ok r /\ (forall o, r = Some o -> offset <= o <= length pkt).
Proof.
  induction n as [|n IH]; intros pkt offset hd H; cbn [parse_rrs_minimal].
  - eexists; split; [reflexivity|]. intros o [= <-]. lia.
  - destruct (rr_minimal_ok pkt offset hd H) as (r & -> & Hr). cbn [rbind].
    destruct r as [o|]; [|eexists; split; [reflexivity|discriminate]].
    specialize (Hr o eq_refl). destruct (IH pkt o hd) as (r & -> & Hr2); [lia|].
    eexists; split; [reflexivity|]. intros o2 E. specialize (Hr2 o2 E). lia.
Qed.

Ltac Zify.zify_post_hook ::= Z.div_mod_to_equations.
Lemma version_eq ext : N.shiftr (N.land ext 16711680) 16 = opt_version ext.
Proof.
  unfold opt_version. change 16711680%N with (N.shiftl (N.ones 8) 16).
  rewrite N.shiftr_land, N.shiftr_shiftl_l by lia. change (16 - 16)%N with 0%N. rewrite N.shiftl_0_r, N.land_ones, N.shiftr_div_pow2.
  reflexivity.
Qed.
Lemma do_eq ext : negb (N.land ext 32768 =? 0)%N = opt_do ext.
Proof.
  unfold opt_do. change 32768%N with (2 ^ 15)%N.
  destruct (N.testbit ext 15) eqn:E.
  - destruct (N.eqb_spec (N.land ext (2 ^ 15)) 0) as [Z|]; [|reflexivity].
    assert (Q : N.testbit (N.land ext (2 ^ 15)) 15 = false) by (rewrite Z; reflexivity).
    rewrite N.land_spec, E, N.pow2_bits_true in Q. discriminate Q.
  - assert (Z : N.land ext (2 ^ 15) = 0%N).
    { apply N.bits_inj. intros j. rewrite N.land_spec, N.bits_0.
      destruct (N.eq_dec j 15) as [->|Nj]; [now rewrite E|].
      rewrite N.pow2_bits_false by congruence. apply andb_false_r. }
    rewrite Z. reflexivity.
Qed.
Lemma be32_eq a b c d : (a < 256 -> b < 256 -> c < 256 -> d < 256 -> be32 (get32 a b c d) = [a; b; c; d])%N.
Proof. intros. unfold be32, get32. repeat f_equal; lia. Qed.
Ltac Zify.zify_post_hook ::= idtac.

Section D.
  Variable cfg : pcfg.
  Variable ckp : bytes -> bool * bytes.
  Hypothesis ckp_len : forall d, length (snd (ckp d)) = 16.

  Definition twf (t : txn) := ewf (t_edns t).

  Lemma optrr_rel_wf dso t size ext rdlen tail rv t' : optrr_rel cfg ckp dso t size ext rdlen tail rv t' -> twf t -> twf t'.
  Proof.
    intros H W. assert (W1 : twf (opt_seen t ext)) by exact W.
    assert (W2 : twf (opt_limits cfg dso (opt_seen t ext) size)).
    { unfold opt_limits. destruct (c_is_udp cfg); [exact W|destruct dso; exact W]. }
    destruct H; auto. eapply opts_rel_wf in H1; eauto.
  Qed.

  Lemma optrr_ok_run dso pre size ext rdlen tail t :
    (size < 65536)%N -> (ext < 4294967296)%N -> (rdlen < 65536)%N -> all_bytes tail -> twf t ->
    exists rv t' off, parse_optrr cfg ckp dso (pre ++ opt_header size ext rdlen ++ tail) t (length pre) = Ok (rv, t', off) /\
      optrr_rel cfg ckp dso t size ext rdlen tail rv t' /\
      (rv = DECODE_OK -> off = length pre + 11 + N.to_nat rdlen /\ N.to_nat rdlen <= length tail).
  Proof.
    intros Hs He Hr HB W. unfold parse_optrr.
    assert (HL : length (pre ++ opt_header size ext rdlen ++ tail) = length pre + 11 + length tail).
    { unfold opt_header. rewrite !app_length. cbn [length be16 be32]. lia. }
    rewrite HL. destruct (Nat.leb_spec (length pre + 11) (length pre + 11 + length tail)); [|lia]. cbn [rassert].
    set (hd := opt_header size ext rdlen).
    assert (R0 : rd (pre ++ hd ++ tail) (length pre) = Ok 0%N) by (rewrite rd_at; reflexivity).
    assert (R1 : rd16 (pre ++ hd ++ tail) (length pre + 1) = Ok 41%N) by (rewrite rd16_plus; reflexivity).
    assert (R3 : rd16 (pre ++ hd ++ tail) (length pre + 3) = Ok size).
    { rewrite rd16_plus. etransitivity; [|exact (f_equal (@Ok N) (get16_be16 size Hs))]. reflexivity. }
    assert (R5 : rd32 (pre ++ hd ++ tail) (length pre + 5) = Ok ext).
    { rewrite rd32_plus. etransitivity; [|exact (f_equal (@Ok N) (get32_be32 ext He))]. reflexivity. }
    assert (R9 : rd16 (pre ++ hd ++ tail) (length pre + 9) = Ok rdlen).
    { rewrite rd16_plus. etransitivity; [|exact (f_equal (@Ok N) (get16_be16 rdlen Hr))]. reflexivity. }
    replace (length pre + 3 + 2 + 4 + 2) with (length pre + 11) by lia.
    replace (length pre + 3 + 2 + 4) with (length pre + 9) by lia.
    replace (length pre + 3 + 2) with (length pre + 5) by lia.
    rewrite R0. cbn [rbind]. rewrite N.eqb_refl. cbn [rassert]. rewrite R1. cbn [rbind]. rewrite N.eqb_refl. cbn [rassert].
    rewrite R3. cbn [rbind]. rewrite R5. cbn [rbind]. rewrite R9. cbn [rbind].
    rewrite do_eq, version_eq.
    fold (opt_seen t ext).
    destruct (N.eqb_spec (opt_version ext) 0) as [V|V].
    2:{ do 3 eexists; split; [reflexivity|]. split; [now apply rr_version|discriminate]. }
    set (t1 := if c_is_udp cfg then _ else _).
    assert (E1 : t1 = opt_limits cfg dso (opt_seen t ext) size).
    { unfold t1, opt_limits. destruct (c_is_udp cfg).
      - f_equal. destruct (N.ltb_spec size 512); match goal with |- context [(?a <? ?b)%N] => destruct (N.ltb_spec a b) end; lia.
      - destruct dso; reflexivity. }
    rewrite E1. clear t1 E1. set (t1 := opt_limits cfg dso (opt_seen t ext) size).
    assert (W1 : twf t1).
    { unfold t1, opt_limits. destruct (c_is_udp cfg); [exact W|destruct dso; exact W]. }
    destruct (Nat.eqb_spec (N.to_nat rdlen) 0) as [Z|NZ].
    { do 3 eexists; split; [reflexivity|]. split.
      - replace t1 with (set_edns t1 (t_edns t1)) by (destruct t1; reflexivity).
        apply rr_run; [assumption|lia|]. rewrite Z. apply os_end.
      - intros _. lia. }
    destruct (Nat.ltb_spec (length pre + 11 + length tail) (length pre + 11 + N.to_nat rdlen)).
    { do 3 eexists; split; [reflexivity|]. split; [apply rr_short; auto; lia|discriminate]. }
    set (P := pre ++ _).
    assert (EP : P = (pre ++ hd) ++ firstn (N.to_nat rdlen) tail ++ skipn (N.to_nat rdlen) tail).
    { rewrite firstn_skipn. unfold P. now rewrite <- app_assoc. }
    rewrite EP. clear P EP.
    assert (LR : length (firstn (N.to_nat rdlen) tail) = N.to_nat rdlen) by (rewrite firstn_length; lia).
    assert (EO : length pre + 11 = length (pre ++ hd)) by (rewrite app_length; reflexivity).
    rewrite EO.
    destruct (options_ok cfg ckp ckp_len dso (S (N.to_nat rdlen)) (pre ++ hd) (firstn (N.to_nat rdlen) tail) (skipn (N.to_nat rdlen) tail) (t_edns t1)) as (rv & e' & R & O).
    - lia.
    - intros E. rewrite E in LR. cbn in LR. lia.
    - rewrite <- (firstn_skipn (N.to_nat rdlen) tail) in HB. apply Forall_app in HB. apply HB.
    - exact W1.
    - rewrite LR in R. rewrite R. cbn [rbind]. do 3 eexists; split; [reflexivity|]. split; [apply rr_run; auto; lia|].
      intros ->. rewrite <- EO. lia.
  Qed.

  (** The header bytes are there whenever the record is recognised. *)
  Lemma opt_header_split pkt o : all_bytes pkt -> o + 11 <= length pkt -> rd pkt o = Ok 0%N -> rd16 pkt (o + 1) = Ok 41%N ->
    exists size ext rdlen tail, (size < 65536 /\ ext < 4294967296 /\ rdlen < 65536)%N /\
      pkt = firstn o pkt ++ opt_header size ext rdlen ++ tail /\ length (firstn o pkt) = o /\ all_bytes tail.
  Proof.
    intros HB HL H0 H41.
    assert (LF : length (firstn o pkt) = o) by (rewrite firstn_length; lia).
    remember (skipn o pkt) as S eqn:ES.
    assert (EP : pkt = firstn o pkt ++ S) by (rewrite ES; now rewrite firstn_skipn).
    assert (HBS : all_bytes S) by (rewrite EP in HB; apply Forall_app in HB; apply HB).
    assert (LS : 11 <= length S) by (rewrite ES, skipn_length; lia).
    do 11 (destruct S as [|? S]; [cbn in LS; lia|]). clear LS.
    assert (rd pkt o = Ok n) by (rewrite EP; rewrite <- LF at 2; rewrite rd_at; reflexivity).
    assert (rd16 pkt (o + 1) = Ok (get16 n0 n1)) by (rewrite EP; rewrite <- LF at 2; rewrite rd16_plus; reflexivity).
    rewrite H in H0. rewrite H1 in H41. injection H0 as ->. injection H41 as E41.
    unfold all_bytes in HBS.
    repeat match goal with H : Forall is_byte (_ :: _) |- _ => apply Forall_cons_iff in H; destruct H as [? H] end.
    unfold is_byte in *.
    exists (get16 n2 n3), (get32 n4 n5 n6 n7), (get16 n8 n9), S. split; [unfold get16, get32; lia|]. split; [|auto].
    unfold opt_header. rewrite (be16_eq (get16 n2 n3) n2 n3), (be16_eq (get16 n8 n9) n8 n9), be32_eq by auto.
    rewrite <- E41, (be16_eq (get16 n0 n1) n0 n1) by auto. exact EP.
  Qed.

  Lemma additional_ok dso pkt : all_bytes pkt -> forall n t offset seen, offset <= length pkt -> twf t ->
    exists rv t', parse_additional cfg ckp n dso pkt t offset seen = Ok (rv, t') /\
      ((t' = t /\ (rv = DECODE_OK \/ rv = DECODE_FORMERR)) \/
       (seen = false /\ exists p size ext rdlen tail rv1, offset <= length p /\ pkt = p ++ opt_header size ext rdlen ++ tail /\
          (size < 65536 /\ rdlen < 65536)%N /\
          optrr_rel cfg ckp dso t size ext rdlen tail rv1 t' /\ (rv = rv1 \/ (rv1 = DECODE_OK /\ rv = DECODE_FORMERR)))).
  Proof.
    intros HB. induction n as [|n IH]; intros t offset seen HO W; cbn [parse_additional].
    { do 2 eexists; split; [reflexivity|]. left; auto. }
    assert (MIN : exists rv t', (do r <- parse_rr_minimal pkt offset true;
          match r with None => Ok (DECODE_FORMERR, t) | Some offset => parse_additional cfg ckp n dso pkt t offset seen end) = Ok (rv, t') /\
      ((t' = t /\ (rv = DECODE_OK \/ rv = DECODE_FORMERR)) \/
       (seen = false /\ exists p size ext rdlen tail rv1, offset <= length p /\ pkt = p ++ opt_header size ext rdlen ++ tail /\
          (size < 65536 /\ rdlen < 65536)%N /\
          optrr_rel cfg ckp dso t size ext rdlen tail rv1 t' /\ (rv = rv1 \/ (rv1 = DECODE_OK /\ rv = DECODE_FORMERR))))).
    { destruct (rr_minimal_ok pkt offset true HO) as (r & -> & Hr). cbn [rbind]. destruct r as [o|].
      - specialize (Hr o eq_refl). destruct (IH t o seen) as (rv & t' & -> & D); [lia|assumption|].
        do 2 eexists; split; [reflexivity|]. destruct D as [D|(S1 & p & sz & ex & rl & tl & rv1 & Q1 & Q2)]; [left; exact D|].
        right. split; [assumption|]. exists p, sz, ex, rl, tl, rv1. split; [lia|exact Q2].
      - do 2 eexists; split; [reflexivity|]. left; auto. }
    destruct (Nat.leb_spec (offset + 11) (length pkt)) as [L|L]; cbn [rbind]; [|exact MIN].
    destruct (rd_ok pkt offset) as [b0 Eb]; [lia|]. rewrite Eb. cbn [rbind].
    destruct (N.eqb_spec b0 0) as [->|]; cbn [rbind]; [|exact MIN].
    destruct (rd16_ok pkt (offset + 1)) as (ty & Ety & _); [lia|]. rewrite Ety. cbn [rbind].
    destruct (N.eqb_spec ty 41) as [->|]; [|exact MIN]. clear MIN.
    destruct seen; [do 2 eexists; split; [reflexivity|]; left; auto|].
    destruct (opt_header_split pkt offset HB L Eb Ety) as (size & ext & rdlen & tail & (Bs & Be & Br) & EP & LP & HBt).
    destruct (optrr_ok_run dso (firstn offset pkt) size ext rdlen tail t Bs Be Br HBt W) as (rv & t' & off & R & O & F).
    rewrite LP, <- EP in R. rewrite R. cbn [rbind].
    assert (W' : twf t') by (eapply optrr_rel_wf; eauto).
    assert (EX : forall rv2, (rv2 = rv \/ (rv = DECODE_OK /\ rv2 = DECODE_FORMERR)) ->
       ((t' = t /\ (rv2 = DECODE_OK \/ rv2 = DECODE_FORMERR)) \/
       (false = false /\ exists p size ext rdlen tail rv1, offset <= length p /\ pkt = p ++ opt_header size ext rdlen ++ tail /\
          (size < 65536 /\ rdlen < 65536)%N /\
          optrr_rel cfg ckp dso t size ext rdlen tail rv1 t' /\ (rv2 = rv1 \/ (rv1 = DECODE_OK /\ rv2 = DECODE_FORMERR))))).
    { intros rv2 D. right. split; [reflexivity|]. exists (firstn offset pkt), size, ext, rdlen, tail, rv. rewrite LP. auto 10. }
    destruct rv; try (do 2 eexists; split; [reflexivity|]; apply EX; auto).
    destruct (F eq_refl) as [F1 F2].
    destruct (IH t' off true) as (rv & t2 & -> & D); [|assumption|].
    { rewrite EP, !app_length, LP. unfold opt_header. rewrite !app_length. cbn [length be16 be32]. lia. }
    do 2 eexists; split; [reflexivity|]. destruct D as [[-> D]|[D _]]; [|discriminate D].
    apply EX. destruct D as [->| ->]; auto.
  Qed.

End D.
