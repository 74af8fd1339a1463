From Coq Require Import Lia.
From Verif Require Import Base DnameModel DnameSpec PktModel PktSpec PktProofs PktProofs2 PktProofs3 PktProofs4 PktProps RandModel RandSpec CompModel CompSpec CompProofs CompProps
  RespModel RespSpec RespProofs RespProofs4 RespProofs5 RespProps MsgModel MsgSpec MsgProofs MsgProofs2 MsgProofs3 MsgProofs4 MsgProofs5 MsgProps CntModel CntSpec CntProofs CntProofs2 CntProofs3 CntProofs4.
Ltac Zify.zify_post_hook ::= idtac.
Local Open Scope nat_scope.

Section Opts.
  Variable cfg : pcfg.
  Variable ckp : bytes -> bool * bytes.
  Hypothesis ckp_len : forall d, length (snd (ckp d)) = 16.
  Variable dso : bool.

  (** the counters of one option *)
  Definition one (e : edns) (o : N * list N) : list counter :=
    if (fst o =? 8)%N then if c_ecs cfg then [EdnsClientsub] else []
    else if (fst o =? 11)%N then if negb (c_is_udp cfg) && dso then [DsoProtoerr] else []
    else if (fst o =? 10)%N then if negb (c_disable_cookies cfg) && negb (e_ck_recvd e) then [cookie_counter ckp (snd o)] else []
    else [].
  Inductive rel_counts : edns -> list (N * list N) -> list counter -> Prop :=
  | co_end e : rel_counts e [] []
  | co_next e o os e1 cs : opt_rel cfg ckp dso e o DECODE_OK e1 -> rel_counts e1 os cs -> rel_counts e (o :: os) (one e o ++ cs)
  | co_stop e o os rv e1 : opt_rel cfg ckp dso e o rv e1 -> rv <> DECODE_OK -> rel_counts e (o :: os) (one e o).

  Lemma one_ok pre d rest e code rv e' cs : all_bytes d -> ewf e -> option_c cfg ckp dso (pre ++ d ++ rest) e code (length d) (length pre) = Ok (rv, e', cs) ->
    opt_rel cfg ckp dso e (code, d) rv e' /\ cs = one e (code, d).
  Proof.
    intros HB W H. split.
    - destruct (option_ok cfg ckp ckp_len dso pre d rest e code HB W) as (rv1 & e1 & R & O). rewrite <- same_option, H in R. cbn [drop_c rbind] in R. injection R as <- <-. exact O.
    - unfold option_c in H. unfold one. cbn [fst snd]. change EDNS_ECS with 8%N in H. change EDNS_NSID with 3%N in H. change EDNS_KEEPALIVE with 11%N in H. change EDNS_PADDING with 12%N in H. change EDNS_COOKIE with 10%N in H.
      destruct (N.eqb_spec code 8) as [->|N8].
      { destruct (c_ecs cfg); [|now injection H as <- <- <-]. destruct (handle_edns_client_subnet _ _ _ _) as [[? ?]|]; [|discriminate H]. cbn [rbind] in H. now injection H as <- <- <-. }
      destruct (N.eqb_spec code 3) as [->|N3]. { cbn. destruct (Nat.eqb _ 0); now injection H as <- <- <-. }
      destruct (N.eqb_spec code 11) as [->|N11]. { destruct (_ && _)%bool; now injection H as <- <- <-. }
      destruct (N.eqb_spec code 12) as [->|N12]. { cbn. now injection H as <- <- <-. }
      destruct (N.eqb_spec code 10) as [->|N10]; [|now injection H as <- <- <-].
      destruct (negb (c_disable_cookies cfg) && negb (e_ck_recvd e))%bool; [|now injection H as <- <- <-].
      unfold cookie_c in H. unfold cookie_counter.
      destruct (negb (Nat.eqb (length d) 8) && (Nat.ltb (length d) 16 || Nat.ltb 40 (length d)))%bool eqn:BAD.
      + injection H as <- <- <-. destruct (Nat.eqb (length d) 8) eqn:E8; [discriminate BAD|]. cbn [negb andb orb] in *. 
        destruct (Nat.leb_spec 16 (length d)), (Nat.leb_spec (length d) 40), (Nat.ltb_spec (length d) 16), (Nat.ltb_spec 40 (length d)); cbn [andb orb] in *; try reflexivity; try discriminate BAD; lia.
      + rewrite <- (Nat.add_0_r (length pre)), rdn_plus, rdn_ok in H by (rewrite app_length; lia). cbn [rbind] in H. rewrite sub_app_l, sub_full in H by lia.
        destruct (ckp d) as [v out] eqn:EC. destruct (wr _ _ _); [|discriminate H]. cbn [rbind fst] in *. injection H as <- <- <-.
        assert (G : (Nat.eqb (length d) 8 || Nat.leb 16 (length d) && Nat.leb (length d) 40)%bool = true).
        { destruct (Nat.eqb (length d) 8); [reflexivity|]. cbn [negb andb orb] in *. 
          destruct (Nat.leb_spec 16 (length d)), (Nat.leb_spec (length d) 40), (Nat.ltb_spec (length d) 16), (Nat.ltb_spec 40 (length d)); cbn [andb orb] in *; try reflexivity; try discriminate BAD; lia. }
        rewrite G. reflexivity.
  Qed.

  Lemma opts_ok : forall os fuel pre rest e rv e' cs, os <> [] -> Forall opt_ok os -> ewf e ->
    options_c cfg ckp fuel dso (pre ++ opts_wire os ++ rest) e (length (opts_wire os)) (length pre) = Ok (rv, e', cs) -> rel_counts e os cs.
  Proof.
    induction os as [|[c d] os IH]; intros fuel pre rest e rv e' cs HN HF W H; [contradiction|]. apply Forall_cons_iff in HF. destruct HF as [(Hc & Hd & HB) HF]. cbn [fst snd] in *.
    assert (EW : opts_wire ((c, d) :: os) = opt_wire (c, d) ++ opts_wire os) by reflexivity.
    assert (LW : length (opts_wire ((c, d) :: os)) = 4 + length d + length (opts_wire os)) by (rewrite EW, app_length; reflexivity).
    destruct fuel as [|fuel]; [discriminate H|]. cbn [options_c] in H. rewrite LW in H. destruct (Nat.ltb_spec (4 + length d + length (opts_wire os)) 4); [lia|].
    rewrite rd16_at, rd16_plus in H. rewrite EW in H. unfold opt_wire in H. cbn [fst snd] in H.
    match type of H with (do x <- ?a; _) = _ => replace a with (Ok c) in H by (etransitivity; [exact (eq_sym (f_equal (@Ok N) (get16_be16 c Hc)))|reflexivity]) end. cbn [rbind] in H.
    match type of H with (do x <- ?a; _) = _ => replace a with (Ok (N.of_nat (length d))) in H by (etransitivity; [exact (eq_sym (f_equal (@Ok N) (get16_be16 _ Hd)))|reflexivity]) end. cbn [rbind] in H.
    cbv zeta in H. rewrite Nat2N.id in H. replace (4 + length d + length (opts_wire os) - 4) with (length d + length (opts_wire os)) in H by lia.
    destruct (Nat.ltb_spec (length d + length (opts_wire os)) (length d)); [lia|].
    set (h := be16 c ++ be16 (N.of_nat (length d))) in *.
    assert (EP : pre ++ ((be16 c ++ be16 (N.of_nat (length d)) ++ d) ++ opts_wire os) ++ rest = (pre ++ h) ++ d ++ (opts_wire os ++ rest)) by (unfold h; now rewrite <- !app_assoc).
    rewrite EP in H. replace (length pre + 4) with (length (pre ++ h)) in H by (rewrite app_length; reflexivity).
    destruct (option_c _ _ _ _ _ _ _ _) as [[[rv1 e1] c1]|] eqn:EO; [|discriminate H]. cbn [rbind] in H. apply one_ok in EO; auto. destruct EO as [OR ->].
    assert (SV : rv1 <> DECODE_OK -> cs = one e (c, d) -> rel_counts e ((c, d) :: os) cs) by (intros Q ->; eapply co_stop; eauto).
    destruct rv1; try (injection H as _ _ <-; apply SV; [discriminate|reflexivity]).
    replace (length d + length (opts_wire os) - length d) with (length (opts_wire os)) in H by lia.
    destruct (Nat.eqb_spec (length (opts_wire os)) 0) as [Z|NZ].
    - injection H as _ _ <-. destruct os as [|o os]; [|exfalso; cbn in Z; discriminate Z]. rewrite <- (app_nil_r (one e (c, d))). eapply co_next; [exact OR|constructor].
    - replace ((pre ++ h) ++ d ++ opts_wire os ++ rest) with ((pre ++ h ++ d) ++ opts_wire os ++ rest) in H by (now rewrite <- !app_assoc).
      replace (length (pre ++ h) + length d) with (length (pre ++ h ++ d)) in H by (rewrite !app_length; lia).
      destruct (options_c _ _ _ _ _ _ _ _) as [[[rv2 e2] c2]|] eqn:ES; [|discriminate H]. cbn [rbind] in H. injection H as _ _ <-. eapply co_next; [exact OR|].
      eapply IH; [|exact HF| |exact ES]. { intros ->. now apply NZ. } eapply opt_rel_wf; eauto.
  Qed.

  Lemma optrr_counts pre size ext os trail t rv t' off cs : (size < 65536)%N -> (ext < 4294967296)%N -> (N.of_nat (length (opts_wire os)) < 65536)%N -> Forall opt_ok os -> opt_version ext = 0%N ->
    ewf (t_edns t) -> e_ck_recvd (t_edns t) = false ->
    optrr_c cfg ckp dso (pre ++ opt_header size ext (N.of_nat (length (opts_wire os))) ++ opts_wire os ++ trail) t (length pre) = Ok (rv, t', off, cs) ->
    exists e c', e_ck_recvd e = false /\ rel_counts e os c' /\ cs = Edns :: (if opt_do ext then [EdnsDo] else []) ++ c'.
  Proof.
    intros Hs He Hr HF V W E0 H. set (rdlen := N.of_nat (length (opts_wire os))) in *. set (tail := opts_wire os ++ trail) in *. unfold optrr_c in H.
    assert (HL : length (pre ++ opt_header size ext rdlen ++ tail) = length pre + 11 + length tail).
    { unfold opt_header. rewrite !app_length. cbn [length be16 be32]. lia. }
    rewrite HL in H. destruct (Nat.leb_spec (length pre + 11) (length pre + 11 + length tail)); [|lia]. cbn [rassert] in H.
    set (hd := opt_header size ext rdlen) in *.
    assert (R0 : rd (pre ++ hd ++ tail) (length pre) = Ok 0%N) by (rewrite rd_at; reflexivity).
    assert (R1 : rd16 (pre ++ hd ++ tail) (length pre + 1) = Ok 41%N) by (rewrite rd16_plus; reflexivity).
    assert (R3 : rd16 (pre ++ hd ++ tail) (length pre + 3) = Ok size).
    { rewrite rd16_plus. etransitivity; [|exact (f_equal (@Ok N) (get16_be16 size Hs))]. reflexivity. }
    assert (R5 : rd32 (pre ++ hd ++ tail) (length pre + 5) = Ok ext).
    { rewrite rd32_plus. etransitivity; [|exact (f_equal (@Ok N) (get32_be32 ext He))]. reflexivity. }
    assert (R9 : rd16 (pre ++ hd ++ tail) (length pre + 9) = Ok rdlen).
    { rewrite rd16_plus. etransitivity; [|exact (f_equal (@Ok N) (get16_be16 rdlen Hr))]. reflexivity. }
    cbv zeta in H. replace (length pre + 3 + 2 + 4 + 2) with (length pre + 11) in H by lia. replace (length pre + 3 + 2 + 4) with (length pre + 9) in H by lia. replace (length pre + 3 + 2) with (length pre + 5) in H by lia.
    rewrite R0 in H. cbn [rbind] in H. rewrite N.eqb_refl in H. cbn [rassert] in H. rewrite R1 in H. cbn [rbind] in H. rewrite N.eqb_refl in H. cbn [rassert] in H.
    rewrite R3 in H. cbn [rbind] in H. rewrite R5 in H. cbn [rbind] in H. rewrite R9 in H. cbn [rbind] in H. rewrite do_eq, version_eq, V in H. change (0 =? 0)%N with true in H. cbv iota in H.
    assert (LO : N.to_nat rdlen = length (opts_wire os)) by apply Nat2N.id. rewrite LO in H.
    destruct (Nat.eqb_spec (length (opts_wire os)) 0) as [Z|NZ].
    { injection H as _ _ _ <-. exists (t_edns t), []. rewrite app_nil_r. split; [exact E0|]. split; [|reflexivity]. destruct os as [|o os]; [constructor|]. exfalso. cbn in Z. discriminate Z. }
    assert (LT : length tail = length (opts_wire os) + length trail) by (unfold tail; now rewrite app_length).
    destruct (Nat.ltb_spec (length pre + 11 + length tail) (length pre + 11 + length (opts_wire os))); [lia|].
    match type of H with context [options_c _ _ _ _ _ ?e _ _] => set (e1 := e) in * end.
    assert (W1 : ewf e1 /\ e_ck_recvd e1 = false) by (unfold e1; destruct (c_is_udp cfg); [split; [exact W|exact E0]|destruct (negb dso); split; [exact W|exact E0|exact W|exact E0]]).
    assert (EP : pre ++ hd ++ tail = (pre ++ hd) ++ opts_wire os ++ trail) by (unfold tail; now rewrite <- app_assoc).
    rewrite EP in H. replace (length pre + 11) with (length (pre ++ hd)) in H by (rewrite app_length; reflexivity).
    destruct (options_c _ _ _ _ _ _ _ _) as [[[rv2 e2] c2]|] eqn:ES; [|discriminate H]. cbn [rbind] in H. injection H as _ _ _ <-. exists e1, c2. split; [apply W1|]. split; [|reflexivity].
    eapply opts_ok; [|exact HF|apply W1|exact ES]. intros ->. now apply NZ.
  Qed.

  Lemma std_counts id f1 f2 q x trail rv t off cs : length id = 2 -> all_bytes id -> (f1 < 128)%N -> (f2 < 256)%N -> question_ok q -> optrr_ok x -> all_bytes trail -> opt_version (o_ext x) = 0%N ->
    decode_c cfg ckp dso (std_msg id f1 f2 q (Some x) trail) (txn_init cfg) = Ok (rv, t, off, cs) ->
    exists e c', e_ck_recvd e = false /\ rel_counts e (o_opts x) c' /\ cs = Edns :: (if opt_do (o_ext x) then [EdnsDo] else []) ++ c'.
  Proof.
    intros Hi Hib H1 H2 HQ HO HT V H. set (pkt := std_msg id f1 f2 q (Some x) trail) in *.
    assert (HB : all_bytes pkt) by (apply (std_bytes ckp ckp_len); auto; [lia|intros y Q; injection Q as <-; exact HO]).
    assert (EP : pkt = header id f1 f2 1 0 0 1 ++ question_wire q ++ optrr_wire x ++ trail) by reflexivity.
    assert (LH : length (header id f1 f2 1 0 0 1) = 12) by (now apply header_len).
    assert (LP : 12 <= length pkt) by (rewrite EP, app_length, LH; lia).
    destruct id as [|i0 [|i1 [|? ?]]]; try discriminate Hi.
    unfold decode_c in H. destruct (Nat.ltb_spec (length pkt) 12); [lia|]. change (rd pkt 2) with (Ok f1) in H. cbn [rbind] in H.
    assert (QR : negb (N.land f1 128 =? 0)%N = false).
    { rewrite qr_bit by lia. pose proof (small_byte_check (fun b => negb (b <? 128) || negb (N.testbit b 7))%N ltac:(vm_compute; reflexivity) f1 ltac:(lia)) as K. cbv beta in K.
      destruct (N.ltb_spec f1 128); [|lia]. cbn [negb orb] in K. now apply negb_true_iff in K. }
    rewrite QR in H. destruct (query_rrs_c cfg ckp dso pkt (txn_init cfg)) as [[[[rc t1] off1] c1]|] eqn:EQ; [|discriminate H]. cbn [rbind] in H.
    assert (EC : cs = c1).
    { destruct rc; try (now injection H as _ _ _ <-). cbv zeta in H. destruct (_ =? 0)%N.
      - destruct (rd16 pkt 4); [|discriminate H]. cbn [rbind] in H. destruct (_ || _)%bool; [now injection H as _ _ _ <-|]. destruct (_ && _)%bool; now injection H as _ _ _ <-.
      - destruct (_ && _)%bool; now injection H as _ _ _ <-. }
    subst c1. clear H. unfold query_rrs_c in EQ. destruct (Nat.leb_spec 12 (length pkt)); [|lia]. cbn [rassert txn_init t_qdcount] in EQ. rewrite N.eqb_refl in EQ. cbn [rassert] in EQ.
    change (rd16 pkt 4) with (Ok 1%N) in EQ. change (rd16 pkt 6) with (Ok 0%N) in EQ. change (rd16 pkt 8) with (Ok 0%N) in EQ. change (rd16 pkt 10) with (Ok 1%N) in EQ. cbn [rbind] in EQ.
    change (1 =? 0)%N with false in EQ. cbv iota in EQ.
    assert (HBq : all_bytes (question_wire q ++ optrr_wire x ++ trail)) by (rewrite EP in HB; apply Forall_app in HB; apply HB).
    pose proof (first_question_ok (header [i0; i1] f1 f2 1 0 0 1) (question_wire q ++ optrr_wire x ++ trail) (txn_init cfg) HBq) as FQ.
    rewrite <- EP, LH in FQ. destruct FQ as [(q' & r' & QO & E & R)|(NE & _)].
    2:{ exfalso. apply NE. eauto. }
    apply question_unique in E; auto. destruct E as [<- <-].
    rewrite R in EQ. cbn [rbind] in EQ. change (N.to_nat 1 - 1) with 0 in EQ. change (N.to_nat 0) with 0 in EQ. cbn [parse_rrs_minimal rbind] in EQ.
    change (N.to_nat 1) with 1 in EQ. cbn [additional_c] in EQ.
    destruct HO as (Hs & He & HF & Hr). set (R0 := N.of_nat (length (opts_wire (o_opts x)))) in *.
    set (pre := header [i0; i1] f1 f2 1 0 0 1 ++ question_wire q).
    assert (EP2 : pkt = pre ++ opt_header (o_size x) (o_ext x) R0 ++ opts_wire (o_opts x) ++ trail).
    { rewrite EP. unfold pre. rewrite optrr_wire_eq, <- !app_assoc. reflexivity. }
    assert (LPre : length pre = 12 + length (question_wire q)) by (unfold pre; now rewrite app_length, LH).
    rewrite <- LPre in EQ.
    assert (L11 : length pre + 11 <= length pkt).
    { rewrite EP2, !app_length. unfold opt_header. rewrite !app_length. cbn [length be16 be32]. lia. }
    apply Nat.leb_le in L11. rewrite L11 in EQ.
    assert (R1 : rd pkt (length pre) = Ok 0%N) by (rewrite EP2, rd_at; reflexivity).
    assert (R2 : rd16 pkt (length pre + 1) = Ok 41%N) by (rewrite EP2, rd16_plus; reflexivity).
    rewrite R1 in EQ. cbn [rbind] in EQ. rewrite N.eqb_refl, R2 in EQ. cbn [rbind] in EQ. rewrite N.eqb_refl in EQ.
    match type of EQ with context [optrr_c _ _ _ _ ?t0 _] => set (t0' := t0) in * end.
    destruct (optrr_c cfg ckp dso pkt t0' (length pre)) as [[[[rv3 t3] off3] c3]|] eqn:E3; [|discriminate EQ]. cbn [rbind] in EQ.
    assert (EC3 : cs = c3). { destruct rv3; cbn [rbind] in EQ; injection EQ as _ _ _ <-; try reflexivity. apply app_nil_r. }
    subst c3. rewrite EP2 in E3. eapply optrr_counts in E3; eauto. apply edns0_wf.
  Qed.

  (** cookies and client subnets in the options *)
  Lemma times_one_ck e o c : fst o <> 10%N -> In c [CookieFormerr; CookieOk; CookieInit; CookieBad] -> times c (one e o) = 0.
  Proof.
    intros N10 IC. unfold one. destruct (fst o =? 8)%N; [destruct (c_ecs cfg)|destruct (fst o =? 11)%N; [destruct (_ && _)%bool|destruct (N.eqb_spec (fst o) 10); [contradiction|]]]; try reflexivity;
      cbn in IC; repeat (destruct IC as [IC|IC]; [subst c; reflexivity|]); contradiction.
  Qed.
  Lemma ck_counts c : In c [CookieFormerr; CookieOk; CookieInit; CookieBad] -> forall l, times c l <= cookie_counts l.
  Proof. intros IC l. unfold cookie_counts. cbn in IC. repeat (destruct IC as [IC|IC]; [subst c; lia|]); contradiction. Qed.
  Lemma one_recvd e o : e_ck_recvd e = true -> cookie_counts (one e o) = 0.
  Proof.
    intros E. unfold one. rewrite E. cbn [negb]. rewrite andb_false_r. destruct (fst o =? 8)%N; [destruct (c_ecs cfg); reflexivity|]. destruct (fst o =? 11)%N; [destruct (_ && _)%bool; reflexivity|].
    destruct (fst o =? 10)%N; reflexivity.
  Qed.
  Lemma ckc_app a b : cookie_counts (a ++ b) = cookie_counts a + cookie_counts b.
  Proof. unfold cookie_counts. rewrite !times_app. lia. Qed.
  Lemma rel_recvd e o rv e1 : opt_rel cfg ckp dso e o rv e1 -> e_ck_recvd e = true -> e_ck_recvd e1 = true.
  Proof. intros R. inversion R; subst; auto. Qed.
  Lemma rel_recvd_f e o rv e1 : opt_rel cfg ckp dso e o rv e1 -> fst o <> 10%N -> e_ck_recvd e1 = e_ck_recvd e.
  Proof. intros R. inversion R; subst; auto; cbn [fst]; intros Q; exfalso; now apply Q. Qed.
  Lemma no_cookie_one e o : c_disable_cookies cfg = true \/ fst o <> 10%N -> cookie_counts (one e o) = 0.
  Proof.
    intros [Q|Q]; [|unfold cookie_counts; now rewrite !times_one_ck by (cbn; auto)].
    unfold one. rewrite Q. cbn [negb andb]. destruct (fst o =? 8)%N; [destruct (c_ecs cfg); reflexivity|]. destruct (fst o =? 11)%N; [destruct (_ && _)%bool; reflexivity|]. destruct (fst o =? 10)%N; reflexivity.
  Qed.
  Lemma after_ck e os cs : rel_counts e os cs -> e_ck_recvd e = true -> cookie_counts cs = 0.
  Proof.
    induction 1; intros E; [reflexivity| |now apply one_recvd]. rewrite ckc_app, one_recvd, IHrel_counts by (auto; eapply rel_recvd; eauto). reflexivity.
  Qed.
  Lemma harmless_ok e o rv e1 : opt_rel cfg ckp dso e o rv e1 -> harmless cfg dso o -> fst o <> 10%N -> rv = DECODE_OK.
  Proof.
    intros R (Q8 & Q3 & Q11) N10. inversion R; subst; cbn [fst snd] in *; auto.
    - exfalso. apply H0. now apply Q8.
    - exfalso. apply H. now apply Q3.
    - exfalso. destruct Q11 as [Q|Q]; auto; congruence.
    - exfalso. now apply N10.
  Qed.
  Lemma cookie_at d post : c_disable_cookies cfg = false -> forall pre e cs, Forall (fun o => harmless cfg dso o /\ fst o <> 10%N) pre -> e_ck_recvd e = false -> rel_counts e (pre ++ (10%N, d) :: post) cs ->
    times (cookie_counter ckp d) cs = 1 /\ cookie_counts cs = 1.
  Proof.
    intros EN. assert (CC : In (cookie_counter ckp d) [CookieFormerr; CookieOk; CookieInit; CookieBad]).
    { unfold cookie_counter. destruct (_ || _)%bool; [|cbn; auto]. destruct (fst (ckp d)); [cbn; auto|]. destruct (Nat.eqb _ 8); cbn; auto. }
    induction pre as [|o pre IH]; intros e cs HF E H.
    - cbn [app] in H. assert (O1 : one e (10%N, d) = [cookie_counter ckp d]) by (unfold one; cbn; now rewrite EN, E). 
      assert (G : times (cookie_counter ckp d) [cookie_counter ckp d] = 1 /\ cookie_counts [cookie_counter ckp d] = 1) by (cbn in CC; repeat (destruct CC as [CC|CC]; [rewrite <- CC; auto|]); contradiction).
      inversion H; subst.
      + match goal with R : opt_rel _ _ _ _ _ _ _ |- _ => assert (E1 : e_ck_recvd e1 = true) by (inversion R; subst; try reflexivity; [destruct H1; congruence|exfalso; match goal with Q : ~ In _ _ |- _ => apply Q; cbn; auto end]) end.
        match goal with C : rel_counts e1 _ _ |- _ => pose proof (after_ck _ _ _ C E1) as Z end. rewrite O1, ckc_app, times_app, Z. pose proof (ck_counts _ CC cs0). destruct G as [-> ->]. lia.
      + rewrite O1. exact G.
    - apply Forall_cons_iff in HF. destruct HF as [[HH N10] HF]. cbn [app] in H. inversion H; subst.
      + match goal with R : opt_rel _ _ _ _ _ _ _, C : rel_counts _ _ _ |- _ => pose proof (rel_recvd_f _ _ _ _ R N10) as E1; rewrite E in E1; destruct (IH _ _ HF E1 C) as [I1 I2] end.
        rewrite ckc_app, times_app, I1, I2, (times_one_ck e o) by auto. unfold cookie_counts. rewrite !(times_one_ck e o) by (cbn; auto). auto.
      + exfalso. match goal with R : opt_rel _ _ _ _ _ _ _ |- _ => apply harmless_ok in R; auto end.
  Qed.
  Lemma subnets_at : forall os e cs, Forall (well cfg dso) os -> rel_counts e os cs ->
    times EdnsClientsub cs = if c_ecs cfg then length (filter (fun o => fst o =? 8)%N os) else 0.
  Proof.
    assert (T1 : forall e o, times EdnsClientsub (one e o) = if c_ecs cfg then bit (fst o =? 8)%N else 0).
    { intros e o. unfold one. destruct (fst o =? 8)%N; [destruct (c_ecs cfg); reflexivity|]. transitivity 0; [|destruct (c_ecs cfg); reflexivity]. destruct (fst o =? 11)%N; [destruct (_ && _)%bool; reflexivity|].
      destruct (fst o =? 10)%N; [|reflexivity]. destruct (_ && _)%bool; [|reflexivity]. unfold cookie_counter. destruct (_ || _)%bool; [|reflexivity]. destruct (fst (ckp _)); [reflexivity|]. destruct (Nat.eqb _ 8); reflexivity. }
    induction os as [|o os IH]; intros e cs HF H; inversion H; subst.
    - destruct (c_ecs cfg); reflexivity.
    - apply Forall_cons_iff in HF. destruct HF as [_ HF]. rewrite times_app, T1, (IH _ _ HF H5). cbn [filter]. destruct (c_ecs cfg); [|reflexivity]. destruct (fst o =? 8)%N; reflexivity.
    - apply Forall_cons_iff in HF. destruct HF as [[HH HC] HF]. exfalso. destruct (N.eq_dec (fst o) 10) as [Q|Q].
      + specialize (HC Q). inversion H3; subst; cbn [fst snd] in *; try discriminate Q; try (now match goal with X : DECODE_OK <> DECODE_OK |- _ => apply X end). destruct HC as [HC|HC]; [congruence|contradiction].
      + match goal with X : _ <> DECODE_OK |- _ => apply X end. eapply harmless_ok; eauto.
  Qed.
End Opts.
