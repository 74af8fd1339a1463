(** Whole responses. *)
From Coq Require Import Sorting.Permutation.
From Verif Require Import Base DnameModel DnameSpec DnameProofs PktModel PktSpec PktProofs PktProofs2 PktProofs3 PktProofs4 RandModel RandSpec CompModel CompSpec CompProofs CompProps
  RespModel RespSpec RespProofs5 RespProps MsgModel MsgSpec MsgProofs MsgProofs2.
Ltac Zify.zify_post_hook ::= idtac.

  Lemma front_len pkt off qd m : 12 <= off <= length pkt -> length (front pkt off qd m) = off + length (m_body m).
  Proof.
    intros H. unfold front, header. unfold sub. rewrite !app_length, !be16_len, !firstn_length, skipn_length. cbn [length]. lia.
  Qed.

  Lemma fq_off pkt q off : first_question pkt q off -> 12 <= off <= 271.
  Proof.
    inversion 1 as [|q0 rest Hq (HL & _) E]; subst; [lia|]. rewrite question_wire_len. destruct HL as [_ HL]. lia.
  Qed.
  Lemma fq_out pkt q off : 12 <= length pkt -> first_question pkt (Some q) off ->
    question_ok q /\ firstn off pkt = firstn 12 pkt ++ wn (q_name q) ++ (be16 (q_type q) ++ be16 (q_class q)) /\ qdcount_of pkt <> 0%N.
  Proof.
    intros HL H. inversion H as [|q0 rest Hq HQ E]; subst. split; [exact HQ|]. split; [|exact Hq].
    replace pkt with (firstn 12 pkt ++ question_wire q ++ rest) at 1 by (rewrite <- E; apply firstn_skipn).
    rewrite app_assoc, firstn_app. replace (12 + length (question_wire q)) with (length (firstn 12 pkt ++ question_wire q)) by (rewrite app_length, firstn_length; lia).
    rewrite firstn_all, Nat.sub_diag. cbn [firstn]. rewrite app_nil_r. unfold question_wire, wn. rewrite <- !app_assoc. reflexivity.
  Qed.

Section Whole.
  Variable cfg : pcfg.
  Variable chaos : bytes.
  Variable ckp : bytes -> bool * bytes.
  Variable draws : nat -> nat -> list nat.
  Variable dyn : edns -> N -> dynres.
  Variable chals : name -> list (N * bytes).
  Variable root : node.
  Hypothesis ckp_len : forall d, length (snd (ckp d)) = 16.
  Hypothesis nsid_max : length (c_nsid cfg) <= 128.
  Hypothesis pad_tcp : c_tcp_pad cfg = true -> c_is_udp cfg = false.
  Hypothesis chaos_max : length chaos <= 300.
  Hypothesis WD : wf_db root.
  Hypothesis WY : forall e, wf_dyn (dyn e) root.
  Hypothesis chals_len : forall n, Forall (fun c => length (snd c) = 44) (chals n).
  Hypothesis draws_legal : forall off n, legal_draws (n - 1) (draws off n).
  Notation process := (process_dns_query cfg chaos ckp draws dyn chals true root 1).

  Definition asks (t : txn) (q : option question) : Prop := forall q', q = Some q' -> t_qtype t = q_type q' /\ t_qclass t = q_class q'.
  Definition mk_msg (p : resp) (body : bytes) (o : option optrr) : rsp :=
    {| m_rcode := p_rcode p; m_aa := p_aa p; m_tc := p_tc p; m_an := p_an p; m_ns := p_ns p; m_ar := p_ar p; m_body := body; m_opt := o |}.

  (** the end of [process_dns_query] *)
  Definition ending (dso : bool) (pkt : bytes) (rv : rcode_rv) (t : txn) (p : resp) : res (bool * option bytes) :=
    do (out, arcount) <-
      (if e_req (t_edns t) then
         do out <- do_edns_output cfg dso (t_edns t) (p_out p) (p_scope p) rv;
         Ok (out, p_ar p + 1)%N
       else Ok (p_out p, p_ar p));
    let flags1 := N.lor (N.lor (N.lor (N.land (nth 2 pkt 0%N) 121) 128) (if p_aa p then 4 else 0)) (if p_tc p then 2 else 0) in
    let hdr := firstn 2 pkt ++ [flags1; p_rcode p] ++
               be16 (t_qdcount t) ++ be16 (p_an p) ++ be16 (p_ns p) ++ be16 arcount in
    rassert (N.of_nat (length out) <=? 16382)%N
    (Ok (dso, Some (hdr ++ skipn 12 out))).

  Definition opt_is (dso : bool) (rv : rcode_rv) (t : txn) (scope : N) (o : option optrr) : Prop :=
    if e_req (t_edns t) then exists pad, pad < 468 /\ o = Some (response_opt cfg dso (t_edns t) scope rv pad) else o = None.

  Lemma finish dso rv t pkt off p body : good_txn cfg dso t -> all_bytes pkt -> 12 <= off <= length pkt -> qr_set pkt = false ->
    p_out p = firstn off pkt ++ body -> (N.of_nat (off + length body) + e_out_bytes (t_edns t) <= 16376)%N ->
    exists o, ending dso pkt rv t p = Ok (dso, Some (msg pkt off (t_qdcount t) (mk_msg p body o))) /\ opt_is dso rv t (p_scope p) o /\
      (N.of_nat (length (msg pkt off (t_qdcount t) (mk_msg p body o))) <= 16382)%N /\
      (if c_tcp_pad cfg then e_req (t_edns t) = true -> (N.of_nat (length (msg pkt off (t_qdcount t) (mk_msg p body o))) mod 468 = 0)%N
       else N.of_nat (length (msg pkt off (t_qdcount t) (mk_msg p body o))) = (N.of_nat (off + length body) + e_out_bytes (t_edns t))%N).
  Proof.
    intros (G1 & G2 & G3 & _) HB HO HQ EP HL.
    assert (LP : length (p_out p) = off + length body) by (rewrite EP, app_length, firstn_length; lia).
    assert (FL : forall aa tc : bool, N.lor (N.lor (N.lor (N.land (nth 2 pkt 0%N) 121) 128) (if aa : bool then 4 else 0)) (if tc : bool then 2 else 0) =
              (128 + 8 * opcode_of pkt + (if aa then 4 else 0) + (if tc then 2 else 0) + rd_bit pkt)%N).
    { intros aa tc. rewrite flags_eq; [reflexivity| |exact HQ]. destruct (rd_nth pkt 2 HB) as [_ Q]; [lia|exact Q]. }
    assert (SK : forall x, skipn 12 ((firstn off pkt ++ body) ++ x) = sub pkt 12 (off - 12) ++ body ++ x).
    { intros x. unfold sub. rewrite <- app_assoc, skipn_app, firstn_length, Nat.min_l by lia. replace (12 - off) with 0 by lia. rewrite skipn_O.
      rewrite firstn_skipn_comm. replace (12 + (off - 12)) with off by lia. reflexivity. }
    assert (LM : forall o, length (msg pkt off (t_qdcount t) (mk_msg p body o)) = off + length body + length (opt_part (mk_msg p body o))).
    { intros o. unfold msg. rewrite app_length, front_len by assumption. reflexivity. }
    unfold ending. destruct (e_req (t_edns t)) eqn:RQ.
    - destruct (do_edns_ok cfg pad_tcp dso (t_edns t) (p_out p) (p_scope p) rv G1 (G2 eq_refl)) as (pad & E & P1 & P2 & P3); [rewrite LP; lia|].
      set (ropt := response_opt cfg dso (t_edns t) (p_scope p) rv pad) in *.
      exists (Some ropt). rewrite E. cbn [rbind]. cbv zeta.
      destruct (N.leb_spec (N.of_nat (length (p_out p ++ optrr_wire ropt))) 16382) as [_|Q]; [|lia]. cbn [rassert].
      rewrite app_length, LP in P2, P3. split; [|split; [|split]].
      + f_equal. f_equal. f_equal. rewrite FL, EP, SK. unfold msg, front, header, opt_part, mk_msg. cbn [m_rcode m_aa m_tc m_an m_ns m_ar m_body m_opt].
        rewrite <- !app_assoc. reflexivity.
      + unfold opt_is. rewrite RQ. exists pad. split; [exact P1|reflexivity].
      + rewrite LM. exact P2.
      + rewrite LM. change (opt_part (mk_msg p body (Some ropt))) with (optrr_wire ropt). destruct (c_tcp_pad cfg); [intros _; exact P3|]. lia.
    - exists None. cbn [rbind]. cbv zeta. rewrite LP. rewrite (G3 eq_refl) in HL |- *. change (e_out_bytes edns0) with 0%N in HL |- *.
      destruct (N.leb_spec (N.of_nat (off + length body)) 16382) as [_|Q]; [|lia]. cbn [rassert]. split; [|split; [|split]].
      + f_equal. f_equal. f_equal. rewrite FL, EP. pose proof (SK []) as SK0. rewrite !app_nil_r in SK0. rewrite SK0.
        unfold msg, front, header, opt_part, mk_msg. cbn [m_rcode m_aa m_tc m_an m_ns m_ar m_body m_opt]. rewrite !app_nil_r, N.add_0_r, <- !app_assoc. reflexivity.
      + unfold opt_is. rewrite RQ. reflexivity.
      + rewrite LM. cbn [opt_part mk_msg m_opt length]. lia.
      + rewrite LM. cbn [opt_part mk_msg m_opt length]. destruct (c_tcp_pad cfg); [discriminate|]. lia.
  Qed.

  Lemma out_bytes_max dso t : good_txn cfg dso t -> (e_out_bytes (t_edns t) <= opt_room cfg)%N.
  Proof.
    intros (G1 & G2 & G3 & _). destruct (e_req (t_edns t)) eqn:RQ.
    - rewrite (G2 eq_refl). pose proof (base_opts_max cfg dso (t_edns t) 0%N G1). assert (17 <= opt_room cfg)%N by (unfold opt_room; lia). lia.
    - rewrite (G3 eq_refl). cbn. lia.
  Qed.

  Lemma dname_tl z : tl (dname z true) = wn z.
  Proof. rewrite dname_wn. reflexivity. Qed.

  Theorem response_ok dso pkt : all_bytes pkt -> length pkt <= 1024 -> tame cfg dso pkt -> fits cfg dyn chals root pkt ->
    exists rv t off, decode_query cfg ckp dso pkt (txn_init cfg) = Ok (rv, t, off) /\
      match rv with
      | DECODE_IGNORE => process dso pkt = Ok (dso, None)
      | DECODE_DSO => qr_set pkt = false /\ opcode_of pkt = 6%N /\ 12 <= length pkt /\
          process dso pkt = handle_dso_with_padding cfg dso (N.lor (N.land (nth 2 pkt 0%N) 121) 128) pkt
      | _ => exists q m scope, qr_set pkt = false /\ 12 <= off <= length pkt /\
          (first_question pkt q off \/ q = None /\ off = 12 /\ rv = DECODE_FORMERR) /\ t_qdcount t = (match q with Some _ => 1 | None => 0 end)%N /\
          asks t q /\
          good_txn cfg dso t /\
          process dso pkt = Ok (dso, Some (msg pkt off (t_qdcount t) m)) /\
          opt_is dso rv t scope (m_opt m) /\ content cfg chaos dyn chals root pkt off rv t q m /\
          (N.of_nat (length (msg pkt off (t_qdcount t) m)) <= 16382)%N /\
          (c_tcp_pad cfg = true -> m_opt m <> None -> (N.of_nat (length (msg pkt off (t_qdcount t) m)) mod 468 = 0)%N)
      end.
  Proof.
    intros HB HLEN HT HF.
    destruct (decode_query_ok cfg ckp ckp_len dso pkt HB) as (rv & t & off & ED & D). exists rv, t, off. split; [exact ED|].
    unfold process_dns_query. apply Nat.leb_le in HLEN. rewrite HLEN. clear HLEN. cbn [rassert]. rewrite ED. cbn [rbind].
    destruct D as [(_ & -> & _)|(L12 & HQ & HO & D)]; [reflexivity|].
    destruct (rd_nth pkt 2 HB) as [R2 _]; [lia|]. rewrite R2. cbn [rbind].
    (* what is known of the transaction *)
    assert (FACTS : exists q, (first_question pkt q off \/ q = None /\ off = 12 /\ rv = DECODE_FORMERR) /\ 12 <= off <= 271 /\ kept (txn_start cfg q) t /\ good_txn cfg dso t /\
        (rv <> DECODE_FORMERR -> rv <> DECODE_BADVERS -> rv <> DECODE_IGNORE -> rv = opcode_verdict cfg pkt t)).
    { destruct D as [(_ & -> & -> & ->)|(q & rv1 & FQ & OE & RV)].
      - exists None. split; [right; auto|]. split; [lia|]. split; [repeat split|]. split; [exact (start_good cfg dso None)|congruence].
      - pose proof (fq_off _ _ _ FQ) as FO. exists q. split; [left; exact FQ|]. split; [exact FO|]. split; [eapply effect_kept; eauto|].
        split; [eapply (effect_good cfg ckp ckp_len dso pkt off q rv1 t HT); [lia|exact OE]|]. intros N1 N2 N3. apply opt_effect_rv in OE.
        destruct RV as [[-> NO]|[-> [->| ->]]]; [|congruence|reflexivity]. destruct OE as [->|[->|[->|(-> & _)]]]; congruence. }
    destruct FACTS as (q & FQ & FO & (K1 & K2 & K3 & K4) & GT & RV).
    pose proof (out_bytes_max dso t GT) as OB. pose proof (opt_room_max cfg) as ORM.
    assert (QD : t_qdcount t = (match q with Some _ => 1 | None => 0 end)%N) by (rewrite K3; destruct q; reflexivity).
    assert (QT : asks t q) by (intros q' ->; split; assumption).
    (* plain responses *)
    assert (PLAIN : forall rc, exists o, ending dso pkt rv t (resp0 (firstn off pkt) rc) = Ok (dso, Some (msg pkt off (t_qdcount t) (mk_msg (resp0 [] rc) [] o))) /\
        opt_is dso rv t 0 o /\ (N.of_nat (length (msg pkt off (t_qdcount t) (mk_msg (resp0 [] rc) [] o))) <= 16382)%N /\
        (c_tcp_pad cfg = true -> o <> None -> (N.of_nat (length (msg pkt off (t_qdcount t) (mk_msg (resp0 [] rc) [] o))) mod 468 = 0)%N)).
    { intros rc. destruct (finish dso rv t pkt off (resp0 (firstn off pkt) rc) [] GT HB ltac:(lia) HQ) as (o & F1 & F2 & F3 & F4).
      { cbn [resp0 p_out]. now rewrite app_nil_r. } { cbn [length]. lia. }
      exists o. split; [exact F1|]. split; [exact F2|]. split; [exact F3|]. intros P NO. rewrite P in F4. apply F4.
      unfold opt_is in F2. destruct (e_req (t_edns t)); [reflexivity|]. contradiction. }
    assert (PDONE : forall rc, (content cfg chaos dyn chals root pkt off rv t q (mk_msg (resp0 [] rc) [] None) <-> True) ->
       (forall o, content cfg chaos dyn chals root pkt off rv t q (mk_msg (resp0 [] rc) [] o)) ->
       forall P, ending dso pkt rv t (resp0 (firstn off pkt) rc) = P ->
       exists q m scope, qr_set pkt = false /\ 12 <= off <= length pkt /\
          (first_question pkt q off \/ q = None /\ off = 12 /\ rv = DECODE_FORMERR) /\ t_qdcount t = (match q with Some _ => 1 | None => 0 end)%N /\
          asks t q /\ good_txn cfg dso t /\
          P = Ok (dso, Some (msg pkt off (t_qdcount t) m)) /\
          opt_is dso rv t scope (m_opt m) /\ content cfg chaos dyn chals root pkt off rv t q m /\
          (N.of_nat (length (msg pkt off (t_qdcount t) m)) <= 16382)%N /\
          (c_tcp_pad cfg = true -> m_opt m <> None -> (N.of_nat (length (msg pkt off (t_qdcount t) m)) mod 468 = 0)%N)).
    { intros rc _ HC P EP. destruct (PLAIN rc) as (o & E & F1 & F2 & F3). exists q, (mk_msg (resp0 [] rc) [] o), 0%N.
      split; [exact HQ|]. split; [lia|]. split; [exact FQ|]. split; [exact QD|]. split; [exact QT|]. split; [exact GT|]. split; [congruence|]. split; [exact F1|]. split; [apply HC|]. split; [exact F2|exact F3]. }
    assert (PL : forall rc o, plain rc (mk_msg (resp0 [] rc) [] o)) by (intros; repeat split).
    destruct rv.
    - reflexivity.
    - cbn [rbind]. apply (PDONE 1%N); [split; auto; intros _; apply PL|intros o; apply PL|reflexivity].
    - cbn [rbind]. apply (PDONE 0%N); [split; auto; intros _; apply PL|intros o; apply PL|reflexivity].
    - cbn [rbind]. apply (PDONE 4%N); [split; auto; intros _; apply PL|intros o; apply PL|reflexivity].
    - rewrite (rd16_nth pkt 4) by (auto; lia). fold (qdcount_of pkt). cbn [rbind].
      specialize (RV ltac:(discriminate) ltac:(discriminate) ltac:(discriminate)). unfold opcode_verdict in RV.
      destruct (N.eqb_spec (opcode_of pkt) 0) as [OP|_]; [|destruct (_ && _)%bool; discriminate RV].
      destruct (N.ltb_spec 1 (qdcount_of pkt)) as [|LQ]; [discriminate RV|]. cbn [orb] in RV.
      destruct FQ as [FQ|(_ & _ & FQ)]; [|discriminate FQ].
      destruct q as [q|].
      + destruct (fq_out _ _ _ L12 FQ) as (QO & EO & NZ). destruct (N.eqb_spec (qdcount_of pkt) 1) as [_|Q1]; [|lia].
        destruct (QT q eq_refl) as [ET EC]. rewrite EC.
        destruct ((q_class q =? 1) || (q_class q =? 255))%N%bool eqn:CIN.
        * (* database *)
          unfold answer_from_db. assert (LFO : length (firstn off pkt) = off) by (rewrite firstn_length; lia). rewrite LFO.
          destruct (Nat.eqb_spec off 0) as [|_]; [lia|]. cbn [negb rassert]. rewrite K4. cbn [txn_start t_lqname]. rewrite dname_tl.
          assert (LL : legal_name (map (map lower) (q_name q))) by (apply legal_lower; apply QO).
          rewrite labels_of_wn; [|apply LL|]. 2:{ pose proof (legal_count _ (proj1 LL)) as X. destruct LL as [_ LL]. lia. }
          rewrite ET. rewrite EO. set (tail := be16 (q_type q) ++ be16 (q_class q)).
          destruct (C42_answer_is_the_zone_data root (dyn (t_edns t)) chals draws (t_max t) (firstn 12 pkt) (q_name q) tail (q_type q) WD (WY _) chals_len draws_legal)
            as (r & HR & HRUN); [rewrite firstn_length; lia|apply QO|].
          pose proof (HF (t_edns t) q off r FQ HR) as HFIT.
          fold tail in EO. rewrite <- EO in HRUN. rewrite LFO in HRUN. destruct HRUN as (s & data & RUN & SO & SD & SR); [lia|].
          unfold start in RUN. fold (lower_name (q_name q)). rewrite RUN. cbn [rbind]. rewrite <- EO.
          set (lim := udp_limit cfg t).
          assert (EMAX : (if (negb (e_ck_valid (t_edns t)) && negb (c_nocookie_max cfg =? 0) && (c_nocookie_max cfg <? t_max t))%N%bool then c_nocookie_max cfg else t_max t) = lim).
          { unfold lim, udp_limit. destruct (e_ck_valid (t_edns t)); [reflexivity|]. cbn [negb andb orb]. destruct (N.eqb_spec (c_nocookie_max cfg) 0); [reflexivity|]. cbn [negb andb].
            destruct (N.ltb_spec (c_nocookie_max cfg) (t_max t)); lia. }
          rewrite EMAX. rewrite SO, app_length, LFO.
          pose proof (finish dso DECODE_OK t pkt off) as FIN.
          (* the complete answer *)
          set (pf := {| p_out := firstn off pkt ++ data; p_an := (s_an s + s_cn s)%N; p_ns := s_ns s; p_ar := s_ar s; p_aa := s_aa s; p_tc := false; p_rcode := s_rcode s; p_scope := s_scope s |}).
          destruct (finish dso DECODE_OK t pkt off pf data GT HB ltac:(lia) HQ eq_refl) as (o & F1 & F2 & F3 & F4); [lia|].
          assert (RO : reply_ok same_name (t_max t) off (front pkt off 1 (mk_msg pf data o)) (p_an pf) (p_ns pf) (p_ar pf) (p_rcode pf) (p_aa pf) r).
          { assert (LH : length (firstn 12 pkt) = 12) by (rewrite firstn_length; lia).
            assert (E1 : s_out s = firstn 12 pkt ++ (sub pkt 12 (off - 12) ++ data)).
            { rewrite SO, app_assoc. f_equal. unfold sub. rewrite firstn_skipn_comm. replace (12 + (off - 12)) with off by lia.
              rewrite <- (firstn_skipn 12 (firstn off pkt)) at 1. f_equal. rewrite firstn_firstn, Nat.min_l by lia. reflexivity. }
            rewrite E1 in SR. unfold front. eapply swap_reply; [exact LH| |].
            - apply header_len. rewrite firstn_length. lia.
            - cbn [pf p_an p_ns p_ar p_rcode p_aa mk_msg m_body]. rewrite N.add_comm. exact SR. }
          destruct (c_is_udp cfg) eqn:UDP; cbn [andb].
          -- assert (NP : c_tcp_pad cfg = false) by (destruct (c_tcp_pad cfg); [specialize (pad_tcp eq_refl); congruence|reflexivity]).
             rewrite NP in F4.
             destruct (N.ltb_spec lim (N.of_nat (off + length data) + e_out_bytes (t_edns t))) as [TR|NT].
             ++ (* truncated *)
                set (pt := {| p_out := firstn off pkt; p_an := 0%N; p_ns := 0%N; p_ar := 0%N; p_aa := s_aa s; p_tc := true; p_rcode := 0%N; p_scope := s_scope s |}).
                destruct (FIN pt [] GT HB ltac:(lia) HQ) as (o' & F1' & F2' & F3' & F4').
                { cbn [pt p_out]. now rewrite app_nil_r. } { cbn [length]. lia. }
                rewrite NP in F4'.
                assert (EOO : o' = o).
                { unfold opt_is in F2, F2'. destruct (e_req (t_edns t)); [|congruence].
                  destruct F2 as (pd & _ & ->). destruct F2' as (pd' & _ & ->). unfold response_opt. rewrite NP. reflexivity. }
                subst o'.
                exists (Some q), (mk_msg pt [] o), (s_scope s). split; [exact HQ|]. split; [lia|]. split; [left; exact FQ|]. split; [exact QD|]. split; [exact QT|]. split; [exact GT|]. split; [exact F1'|].
                split; [exact F2'|]. split; [|split; [exact F3'|congruence]].
                cbn [content]. rewrite CIN. exists r. split; [exact HR|]. right. cbn [mk_msg m_tc m_an m_ns m_ar m_rcode m_body m_aa m_opt pt p_an p_ns p_ar p_rcode p_aa p_tc].
                split; [reflexivity|]. split; [exact UDP|]. do 5 (split; [reflexivity|]).
                split; [destruct SR as (? & ? & ? & ? & ? & ? & _ & _ & _ & _ & _ & _ & _ & _ & _ & _ & _ & _ & Q); exact Q|].
                exists (mk_msg pf data o). split; [reflexivity|]. split; [exact RO|]. rewrite K3 in F4. cbn [txn_start t_qdcount] in F4. fold lim. rewrite F4. exact TR.
             ++ exists (Some q), (mk_msg pf data o), (s_scope s). split; [exact HQ|]. split; [lia|]. split; [left; exact FQ|]. split; [exact QD|]. split; [exact QT|]. split; [exact GT|]. split; [exact F1|].
                split; [exact F2|]. split; [|split; [exact F3|congruence]].
                cbn [content]. rewrite CIN. exists r. split; [exact HR|]. left. split; [reflexivity|]. split; [exact RO|].
                intros _. rewrite K3 in F4. cbn [txn_start t_qdcount] in F4. fold lim. rewrite F4. exact NT.
          -- exists (Some q), (mk_msg pf data o), (s_scope s). split; [exact HQ|]. split; [lia|]. split; [left; exact FQ|]. split; [exact QD|]. split; [exact QT|]. split; [exact GT|]. split; [exact F1|].
             split; [exact F2|]. split; [|split; [exact F3|]].
             ++ cbn [content]. rewrite CIN. exists r. split; [exact HR|]. left. split; [reflexivity|]. split; [exact RO|]. congruence.
             ++ intros P NO. rewrite P in F4. apply F4. unfold opt_is in F2. destruct (e_req (t_edns t)); [reflexivity|contradiction].
        * destruct (N.eqb_spec (q_class q) 3) as [C3|NC3].
          -- rewrite emit_ok by (unfold MAX_BUF; rewrite firstn_length; lia). cbn [rbind].
             set (pc := {| p_out := firstn off pkt ++ chaos; p_an := 1%N; p_ns := 0%N; p_ar := 0%N; p_aa := false; p_tc := false; p_rcode := 0%N; p_scope := 0%N |}).
             destruct (finish dso DECODE_OK t pkt off pc chaos GT HB ltac:(lia) HQ eq_refl) as (o & F1 & F2 & F3 & F4); [lia|].
             exists (Some q), (mk_msg pc chaos o), 0%N. split; [exact HQ|]. split; [lia|]. split; [left; exact FQ|]. split; [exact QD|]. split; [exact QT|]. split; [exact GT|]. split; [exact F1|].
             split; [exact F2|]. split; [|split; [exact F3|]].
             ++ cbn [content]. rewrite CIN. rewrite C3. cbn [N.eqb Pos.eqb]. repeat split.
             ++ intros P NO. rewrite P in F4. apply F4. unfold opt_is in F2. destruct (e_req (t_edns t)); [reflexivity|contradiction].
          -- cbn [rbind].
             assert (CT : forall o, content cfg chaos dyn chals root pkt off DECODE_OK t (Some q) (mk_msg (resp0 [] 5) [] o)).
             { intros o. cbn [content]. rewrite CIN. destruct (N.eqb_spec (q_class q) 3); [contradiction|]. apply PL. }
             apply (PDONE 5%N); [split; auto|exact CT|reflexivity].
      + inversion FQ as [Z0|]; subst. rewrite Z0. cbn [N.eqb]. rewrite Z0 in RV. cbn [N.eqb andb] in RV.
        destruct (e_ck_recvd (t_edns t)) eqn:CK; [|discriminate RV]. cbn [rassert rbind].
        apply (PDONE 0%N); [split; auto; intros _; apply PL|intros o; apply PL|reflexivity].
    - split; [exact HQ|]. specialize (RV ltac:(discriminate) ltac:(discriminate) ltac:(discriminate)). unfold opcode_verdict in RV.
      destruct (N.eqb_spec (opcode_of pkt) 0); [repeat match goal with H : context [if ?c then _ else _] |- _ => destruct c end; discriminate RV|].
      destruct (N.eqb_spec (opcode_of pkt) 6) as [->|]; [|discriminate RV]. split; [reflexivity|]. split; [exact L12|reflexivity].
  Qed.
End Whole.
