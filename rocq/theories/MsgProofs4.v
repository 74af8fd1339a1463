(** Section counts, DSO messages, echo of the client subnet. *)
From Coq Require Import Sorting.Permutation.
From Verif Require Import Base DnameModel DnameSpec DnameProofs PktModel PktSpec PktProofs PktProofs2 PktProofs3 PktProofs4 RandModel RandSpec CompModel CompSpec CompProofs CompProps
  RespModel RespSpec RespProofs RespProofs5 RespProps MsgModel MsgSpec MsgProofs MsgProofs2 MsgProofs3.
Ltac Zify.zify_post_hook ::= idtac.

(** ** Counts *)
Lemma recs_min pkt off n e : recs_at pkt off n e -> off + 11 * n <= e.
Proof. induction 1 as [|off ls e1 fixed e n e' HN LF HE HL HS H IH]; [lia|]. apply name_at_end in HN. lia. Qed.
Lemma recs_app pkt x off n e : recs_at pkt off n e -> recs_at (pkt ++ x) off n e.
Proof.
  induction 1 as [|off ls e1 fixed e n e' HN LF HE HL HS H IH]; [constructor|].
  apply ra_cons with (ls := ls) (e1 := e1) (fixed := fixed) (e := e); [apply name_at_app; exact HN|exact LF|rewrite app_length; lia|exact HL|rewrite sub_app_l by lia; exact HS|exact IH].
Qed.
Lemma recs_cat pkt a n b m c : recs_at pkt a n b -> recs_at pkt b m c -> recs_at pkt a (n + m) c.
Proof. induction 1 as [|o ls e1 f e n e0 HN LF HE HL HS H IH]; intros Q; cbn [plus]; [exact Q|]. eapply ra_cons; [exact HN|exact LF|exact HE|exact HL|exact HS|exact (IH Q)]. Qed.
Lemma rrs_recs R pkt off rs e : rrs_at R pkt off rs e -> recs_at pkt off (length rs) e.
Proof.
  induction 1 as [|off r e1 rs e (o & f & HN & HR & HE & HL & HS & HD) H IH]; [constructor|]. cbn [length].
  eapply ra_cons with (fixed := be16 (rr_type r) ++ be16 1 ++ be32 (rr_ttl r)); [exact HN|reflexivity|exact HE|exact HL| |exact IH].
  rewrite <- !app_assoc. exact HS.
Qed.

Lemma count_be16 v : (v < 65536)%N -> N.to_nat (get16 ((v / 256) mod 256) (v mod 256)) = N.to_nat v.
Proof. intros H. f_equal. now apply get16_be16. Qed.

Section Counts.
  Variables (pkt : bytes) (off : nat) (qd : N) (m : rsp).
  Hypothesis HO : 12 <= off <= length pkt.
  Lemma id_shape : exists a b r, pkt = a :: b :: r.
  Proof. destruct pkt as [|a [|b r]]; cbn in HO; try lia. eauto. Qed.
  Lemma msg_counts : (m_an m < 65536)%N -> (m_ns m < 65536)%N -> (m_ar m < 65535)%N ->
    count_at (msg pkt off qd m) 6 = N.to_nat (m_an m) /\ count_at (msg pkt off qd m) 8 = N.to_nat (m_ns m) /\
    count_at (msg pkt off qd m) 10 = N.to_nat (m_ar m) + (match m_opt m with Some _ => 1 | None => 0 end).
  Proof.
    intros H1 H2 H3. destruct id_shape as (a & b & r & E). rewrite E. unfold count_at, msg, front, header, be16.
    cbn [firstn app nth]. rewrite !count_be16; [|destruct (m_opt m); lia|assumption|assumption].
    split; [reflexivity|]. split; [reflexivity|]. destruct (m_opt m); lia.
  Qed.
  Lemma counts_ok e1 e2 : recs_at (front pkt off qd m) off (N.to_nat (m_an m)) e1 -> recs_at (front pkt off qd m) e1 (N.to_nat (m_ns m)) e2 ->
    recs_at (front pkt off qd m) e2 (N.to_nat (m_ar m)) (length (front pkt off qd m)) ->
    (N.of_nat (length (msg pkt off qd m)) <= 16382)%N ->
    (forall o, m_opt m = Some o -> (N.of_nat (length (opts_wire (o_opts o))) < 65536)%N) ->
    counts_right (msg pkt off qd m) off.
  Proof.
    intros R1 R2 R3 HL HW. pose proof (recs_min _ _ _ _ R1). pose proof (recs_min _ _ _ _ R2). pose proof (recs_min _ _ _ _ R3).
    assert (LF : length (msg pkt off qd m) = length (front pkt off qd m) + length (opt_part m)) by (unfold msg; now rewrite app_length).
    destruct msg_counts as (C1 & C2 & C3); [lia|lia|lia|].
    exists e1, e2. rewrite C1, C2, C3. unfold msg at 1 2 3. split; [now apply recs_app|]. split; [now apply recs_app|].
    eapply recs_cat; [apply recs_app; exact R3|]. unfold msg, opt_part. destruct (m_opt m) as [o|]; [|rewrite app_nil_r; constructor].
    set (f := front pkt off qd m) in *. specialize (HW o eq_refl). set (L := length (opts_wire (o_opts o))) in *.
    assert (LO : length (optrr_wire o) = 11 + L).
    { unfold optrr_wire. rewrite !app_length. reflexivity. }
    assert (LFF : length f = off + length (m_body m)) by (apply front_len; exact HO).
    eapply ra_cons with (ls := []) (e1 := S (length f)) (fixed := be16 41 ++ be16 (o_size o) ++ be32 (o_ext o)).
    - apply na_root; [lia|]. rewrite nth_error_app2, Nat.sub_diag by lia. reflexivity.
    - reflexivity.
    - split; [|apply le_n]. rewrite app_length, LO. lia.
    - rewrite app_length, LO. replace (length f + (11 + L) - (S (length f) + 10)) with L by lia. exact HW.
    - rewrite app_length, LO. replace (length f + (11 + L) - (S (length f) + 10)) with L by lia.
      replace (S (length f)) with (length f + 1) by lia. rewrite sub_app_r. unfold optrr_wire. rewrite <- !app_assoc. reflexivity.
    - constructor.
  Qed.
End Counts.

Lemma front_question pkt off qd m q : 12 <= length pkt -> first_question pkt (Some q) off ->
  front pkt off qd m = header (firstn 2 pkt) (128 + 8 * opcode_of pkt + (if m_aa m then 4 else 0) + (if m_tc m then 2 else 0) + rd_bit pkt)
    (m_rcode m) qd (m_an m) (m_ns m) (m_ar m + match m_opt m with Some _ => 1 | None => 0 end) ++ question_wire q ++ m_body m /\
  sub pkt 12 (off - 12) = question_wire q.
Proof.
  intros HL H. inversion H as [|q0 rest Hq HQ E]; subst. unfold front.
  assert (ES : sub pkt 12 (12 + length (question_wire q) - 12) = question_wire q).
  { unfold sub. rewrite E. replace (12 + length (question_wire q) - 12) with (length (question_wire q)) by lia.
    rewrite firstn_app, firstn_all, Nat.sub_diag. cbn [firstn]. apply app_nil_r. }
  rewrite ES. split; reflexivity.
Qed.

Lemma content_counts cfg chaos dyn chals root pkt off rv t q m : 12 <= off <= length pkt ->
  (first_question pkt q off \/ q = None) ->
  (exists fixed d, length fixed = 8 /\ length d <= 256 /\ chaos = [192%N; 12%N] ++ fixed ++ be16 (N.of_nat (length d)) ++ d) ->
  content cfg chaos dyn chals root pkt off rv t q m ->
  (N.of_nat (length (msg pkt off (match q with Some _ => 1 | None => 0 end)%N m)) <= 16382)%N ->
  (forall o, m_opt m = Some o -> (N.of_nat (length (opts_wire (o_opts o))) < 65536)%N) ->
  counts_right (msg pkt off (match q with Some _ => 1 | None => 0 end)%N m) off.
Proof.
  intros HO HQ HCH HC HL HW.
  assert (PL : forall rc qd, plain rc m -> (N.of_nat (length (msg pkt off qd m)) <= 16382)%N -> counts_right (msg pkt off qd m) off).
  { intros rc qd (_ & _ & _ & P1 & P2 & P3 & P4) L. assert (LF : length (front pkt off qd m) = off) by (rewrite front_len, P4 by assumption; apply Nat.add_0_r).
    apply (counts_ok pkt off qd m HO off off); rewrite ?P1, ?P2, ?P3, ?LF; auto; constructor. }
  destruct rv; cbn [content] in HC; try contradiction; eauto.
  destruct q as [q|]; [|eauto].
  destruct ((q_class q =? 1) || (q_class q =? 255))%N%bool.
  - destruct HC as (r & HR & [(_ & RO & _)|(_ & _ & P1 & P2 & P3 & _ & P4 & _)]).
    + destruct RO as (k & an' & ns' & ar' & e1 & e2 & _ & _ & _ & _ & _ & R1 & R2 & R3 & A1 & A2 & A3 & _).
      apply (counts_ok pkt off 1%N m HO e1 e2); auto; rewrite ?A1, ?A2, ?A3, Nat2N.id; eapply rrs_recs; eassumption.
    + assert (LF : length (front pkt off 1 m) = off) by (rewrite front_len, P4 by assumption; apply Nat.add_0_r).
      apply (counts_ok pkt off 1%N m HO off off); rewrite ?P1, ?P2, ?P3, ?LF; auto; constructor.
  - destruct (N.eqb_spec (q_class q) 3) as [C3|_]; [|eauto].
    destruct HC as (_ & _ & _ & P1 & P2 & P3 & P4). destruct HCH as (fixed & d & LX & LD & EC).
    destruct HQ as [HQ|HQ]; [|discriminate HQ]. destruct (front_question pkt off 1 m q ltac:(lia) HQ) as [EF ES].
    assert (HLG : legal_name (q_name q) /\ off = 12 + length (question_wire q)) by (inversion HQ as [|q0 rest Hq (X & _) E]; auto).
    destruct HLG as [HLG HOF].
    assert (LF : length (front pkt off 1 m) = off + (12 + length d)).
    { rewrite front_len, P4, EC by assumption. rewrite !app_length, LX, be16_len. cbn [length]. lia. }
    apply (counts_ok pkt off 1%N m HO (length (front pkt off 1 m)) (length (front pkt off 1 m))); rewrite ?P1, ?P2, ?P3; auto; try constructor.
    change (N.to_nat 1) with 1. set (f := front pkt off 1 m) in *.
    assert (EF2 : exists pre, length pre = off /\ f = pre ++ chaos).
    { exists (firstn off f). rewrite firstn_length, LF. split; [lia|]. rewrite <- (firstn_skipn off f) at 1. f_equal.
      unfold f, front. rewrite app_assoc, skipn_app, skipn_all2.
      - cbn [app]. match goal with |- skipn ?k _ = _ => replace k with 0 end; [rewrite skipn_O; exact P4|].
        rewrite app_length, header_len, sub_length by (rewrite ?firstn_length; lia). lia.
      - rewrite app_length, header_len, sub_length by (rewrite ?firstn_length; lia). lia. }
    destruct EF2 as (pre & LP & EF2).
    eapply ra_cons with (ls := q_name q) (e1 := off + 2) (fixed := fixed) (e := length f).
    + apply na_ptr with (hi := 192%N) (lo := 12%N) (e := 12 + wire_len (q_name q)); try lia.
      * rewrite EF2, nth_error_app2, LP, Nat.sub_diag by lia. rewrite EC. reflexivity.
      * rewrite EF2, nth_error_app2, LP by lia. replace (S off - off) with 1 by lia. rewrite EC. reflexivity.
      * change (N.to_nat ((192 - 192) * 256 + 12)) with 12. pose proof (question_wire_len q) as QL. lia.
      * change (N.to_nat ((192 - 192) * 256 + 12)) with 12. rewrite EF. unfold question_wire.
        match goal with |- name_at (?h ++ _) _ _ _ => assert (LH : length h = 12) by (apply header_len; rewrite firstn_length; lia) end.
        rewrite <- LH at 1 2. rewrite (app_assoc (wire_labels (q_name q)) [0%N]), <- (app_assoc (wire_labels (q_name q) ++ [0%N])).
        apply name_at_full; [lia|]. destruct HLG as [HLG _]. eapply Forall_impl; [|exact HLG]. intros l Q. apply Q.
    + exact LX.
    + rewrite LF. lia.
    + rewrite LF. replace (off + (12 + length d) - (off + 2 + 10)) with (length d) by lia. lia.
    + rewrite LF. replace (off + (12 + length d) - (off + 2 + 10)) with (length d) by lia.
      rewrite EF2, <- LP, sub_app_r, EC. clear -LX. do 9 (destruct fixed as [|? fixed]; try discriminate LX). reflexivity.
    + constructor.
Qed.
