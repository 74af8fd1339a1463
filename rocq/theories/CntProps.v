(** C66: the counters of the DNS layer say what clients see. *)
From Coq Require Import Lia.
From Verif Require Import Base DnameModel DnameSpec PktModel PktSpec PktProofs PktProofs2 PktProofs3 PktProofs4 PktProps RandModel RandSpec CompModel CompSpec CompProofs CompProps
  RespModel RespSpec RespProofs RespProofs4 RespProofs5 RespProps MsgModel MsgSpec MsgProofs MsgProofs2 MsgProofs3 MsgProofs4 MsgProofs5 MsgProps MsgRefProps CntModel CntSpec CntProofs CntProofs2 CntProofs3 CntProofs4.
Ltac Zify.zify_post_hook ::= idtac.
Local Open Scope nat_scope.

(** ** Counting changes nothing *)
Theorem C66_same : forall cfg ckp chaos draws dyn chals no_chain root depth v6 dso pkt,
  match process_c cfg ckp chaos draws dyn chals no_chain root depth v6 dso pkt with Ok (st, r, _) => Ok (st, r) | UB => UB end =
  process_dns_query cfg chaos ckp draws dyn chals no_chain root depth dso pkt.
Proof. intros. rewrite <- (same_process cfg ckp chaos draws dyn chals no_chain root depth v6 dso pkt). destruct (process_c _ _ _ _ _ _ _ _ _ _ _ _) as [[[st r] cs]|]; reflexivity. Qed.

Notation counted cfg chaos ckp draws dyn chals root := (process_c cfg ckp chaos draws dyn chals true root 1).

(** ** Requests that are answered *)
(** number of options with the code [c] *)
Definition opts_in (c : N) (m : rsp) : nat := match m_opt m with Some o => length (filter (fun o => fst o =? c)%N (o_opts o)) | None => 0 end.

Lemma base_filter cfg dso e scope c : length (filter (fun o => fst o =? c)%N (base_opts cfg dso e scope)) =
  bit (e_respond_ecs e && (8 =? c)%N) + bit (e_ck_respond e && (10 =? c)%N) + bit (negb (c_is_udp cfg || dso) && (11 =? c)%N) + bit (e_respond_nsid e && (3 =? c)%N).
Proof.
  unfold base_opts. rewrite !filter_app, !app_length. destruct (e_respond_ecs e), (e_ck_respond e), (c_is_udp cfg || dso)%bool, (e_respond_nsid e); cbn [filter fst andb negb];
    destruct (8 =? c)%N, (10 =? c)%N, (11 =? c)%N, (3 =? c)%N; reflexivity.
Qed.
Lemma ext_bits (bv d : bool) : let x := ((if bv then 16777216 else 0) + (if d then 32768 else 0))%N in N.testbit x 15 = d /\ (16777216 <=? x)%N = bv.
Proof. destruct bv, d; split; reflexivity. Qed.

Theorem C66_answered : forall cfg chaos ckp draws dyn chals root, wf_server cfg chaos ckp draws dyn chals root ->
  forall v6 dso pkt st r cs, all_bytes pkt -> length pkt <= 1024 -> tame cfg dso pkt -> fits cfg dyn chals root pkt -> (opcode_of pkt = 6%N -> c_disable_dso cfg = true) ->
  counted cfg chaos ckp draws dyn chals root v6 dso pkt = Ok (st, Some r, cs) ->
  exists off qd m, r = msg pkt off qd m /\
    (* one of the seven for the code of the response; with the flag TC it is the one for success, and the code that the complete response would have had may count too *)
    (m_tc m = false -> total cs = 1 /\ times (outcome m) cs = 1) /\
    (m_tc m = true -> times Noerror cs = 1 /\ total cs = 1 + times Refused cs + times Nxdomain cs /\ total cs <= 2) /\
    (* EDNS: the request has an OPT record if the response has one; flags and options *)
    times Edns cs = bit (some (m_opt m)) /\ times EdnsDo cs = bit (has_do m) /\
    times CookieOk cs + times CookieInit cs + times CookieBad cs = cookies m /\ cookie_counts cs <= 1 /\
    (times CookieFormerr cs = 1 -> m_rcode m = 1%N /\ cookies m = 0) /\
    opts_in 8 m <= times EdnsClientsub cs /\ (c_ecs cfg = false -> times EdnsClientsub cs = 0) /\
    (* sizes *)
    times UdpTc cs = bit (m_tc m && negb (some (m_opt m))) /\ times UdpEdnsTc cs = bit (m_tc m && some (m_opt m)) /\ (m_tc m = true -> c_is_udp cfg = true) /\
    times UdpEdnsBig cs = bit (c_is_udp cfg && some (m_opt m) && (512 <? N.of_nat (length r))%N) /\
    (* the rest *)
    times V6 cs = bit v6 /\ times Dropped cs = 0 /\ times DsoEstab cs = 0 /\ times DsoProtoerr cs = 0 /\ times DsoTypeni cs = 0.
Proof.
  intros cfg chaos ckp draws dyn chals root WS v6 dso pkt st r cs HB HL TA FI ND H.
  destruct (replied _ _ _ _ _ _ _ WS pkt HB HL v6 dso st r cs TA FI ND H) as (rv & t & off & c0 & q & m & scope & p & c1 & c2 & ED & RA & _ & ER & OI & CO & S & MR & MT & -> & C2).
  exists off, (t_qdcount t), m. split; [exact ER|].
  destruct RA as [A1 A2 A3 A4 A5 A6 A7 A8 [A9 A9'] A10].
  assert (NI : rv <> DECODE_IGNORE /\ rv <> DECODE_DSO) by (split; intros ->; destruct CO). destruct NI as [NI ND'].
  assert (SO : some (m_opt m) = e_req (t_edns t)).
  { unfold opt_is in OI. destruct (e_req (t_edns t)); [destruct OI as (pad & _ & ->)|rewrite OI]; reflexivity. }
  assert (NR : e_req (t_edns t) = false -> e_do (t_edns t) = false /\ e_ck_respond (t_edns t) = false /\ e_respond_ecs (t_edns t) = false).
  { intros NR. destruct (read_none _ _ _ _ _ _ _ _ ED NR) as (B1 & B2 & B3). auto. }
  assert (DO : has_do m = e_do (t_edns t)).
  { unfold has_do. unfold opt_is in OI. destruct (e_req (t_edns t)) eqn:RQ; [|rewrite OI; symmetry; now apply NR]. destruct OI as (pad & _ & ->). cbn [response_opt o_ext].
    destruct rv; first [exact (proj1 (ext_bits true _)) | exact (proj1 (ext_bits false _))]. }
  assert (OF : forall c, c <> 12%N -> c <> 11%N -> c <> 3%N -> opts_in c m = bit (e_respond_ecs (t_edns t) && (8 =? c)%N) + bit (e_ck_respond (t_edns t) && (10 =? c)%N)).
  { intros c X1 X2 X3. unfold opts_in. unfold opt_is in OI. destruct (e_req (t_edns t)) eqn:RQ.
    - destruct OI as (pad & _ & ->). cbn [response_opt o_opts]. rewrite filter_app, app_length, base_filter.
      rewrite (proj2 (N.eqb_neq 11 c)) by congruence. rewrite (proj2 (N.eqb_neq 3 c)) by congruence. rewrite !andb_false_r. cbn [bit].
      destruct (c_tcp_pad cfg); cbn [filter fst length]; [rewrite (proj2 (N.eqb_neq 12 c)) by congruence; cbn [length]|]; lia.
    - rewrite OI. destruct (NR eq_refl) as (_ & -> & ->). reflexivity. }
  assert (CK : cookies m = bit (e_ck_respond (t_edns t))).
  { change (cookies m) with (opts_in 10 m). rewrite OF by discriminate. cbn [N.eqb Pos.eqb]. rewrite andb_false_r, andb_true_r. reflexivity. }
  assert (EC : opts_in 8 m = bit (e_respond_ecs (t_edns t))).
  { rewrite OF by discriminate. cbn [N.eqb Pos.eqb]. rewrite andb_false_r, andb_true_r. cbn [bit]. lia. }
  (* the counters of each part *)
  assert (T : forall c, times c ((v6c v6 ++ c0) ++ c1 ++ c2) = times c (v6c v6) + times c c0 + times c c1 + times c c2) by (intros c; rewrite !times_app; lia).
  assert (TV : forall c, c <> V6 -> times c (v6c v6) = 0) by (intros []; destruct v6; cbn; congruence).
  assert (T2 : forall c, c <> UdpEdnsBig -> times c c2 = 0).
  { intros c N0. rewrite C2. destruct (_ && _)%bool; [|reflexivity]. destruct c; try reflexivity. congruence. }
  assert (TB : times UdpEdnsBig c2 = bit (e_req (t_edns t) && c_is_udp cfg && (512 <? N.of_nat (length r))%N)) by (rewrite C2; destruct (_ && _)%bool; reflexivity).
  (* the counters of the answer *)
  assert (D1 : forall c, dec_counter c = true \/ In c [V6; Dropped; UdpEdnsBig; DsoEstab; DsoProtoerr; DsoTypeni] -> times c c1 = 0).
  { intros c IC. assert (Y : forall rc, times c (db_counts rc) = 0).
    { intros rc. unfold db_counts. destruct (rc =? 5)%N; [|destruct (rc =? 3)%N]; destruct c; try reflexivity; destruct IC as [IC|IC]; try discriminate IC; cbn in IC; intuition discriminate. }
    assert (Z : forall x, In x [Noerror; Refused; Nxdomain; Notimp; Badvers; Formerr; UdpTc; UdpEdnsTc] -> times c [x] = 0).
    { intros x IX. unfold times. cbn [count_occ]. destruct (counter_eq x c) as [->|]; [|reflexivity]. exfalso. cbn in IX. destruct IC as [IC|IC]; [|cbn in IC];
        repeat (destruct IX as [<-|IX]; [first [discriminate IC|intuition discriminate]|]); contradiction. }
    destruct rv; cbn [settled] in S; try contradiction; try (destruct S as (_ & _ & ->); apply Z; cbn; auto 10).
    destruct S as [(_ & ->)|(_ & _ & _ & rc & ->)]; rewrite ?times_app, Y; [destruct (p_rcode p =? 0)%N; [rewrite Z by (cbn; auto 10)|]; reflexivity|].
    rewrite (Z Noerror) by (cbn; auto). destruct (e_req (t_edns t)); rewrite Z by (cbn; auto 10); reflexivity. }
  assert (V : forall c, In c [Noerror; Refused; Nxdomain; Notimp; Badvers; Formerr; Dropped; UdpTc; UdpEdnsTc; DsoEstab; DsoTypeni] -> times c ((v6c v6 ++ c0) ++ c1 ++ c2) = times c c1).
  { intros c IC. rewrite T, TV, T2, A1; [lia| | |]; cbn in IC; repeat (destruct IC as [<-|IC]; [first [reflexivity|discriminate]|]); contradiction. }
  assert (W : forall c, dec_counter c = true -> times c ((v6c v6 ++ c0) ++ c1 ++ c2) = times c c0).
  { intros c IC. rewrite T, TV, T2, D1; [lia| | |]; auto; intros ->; discriminate IC. }
  unfold total, cookie_counts. rewrite (V Noerror), (V Refused), (V Nxdomain), (V Notimp), (V Badvers), (V Formerr), (V Dropped), (V UdpTc), (V UdpEdnsTc), (V DsoEstab), (V DsoTypeni) by (cbn; auto 20).
  rewrite (W Edns), (W EdnsDo), (W CookieOk), (W CookieInit), (W CookieBad), (W CookieFormerr), (W EdnsClientsub), (W DsoProtoerr) by reflexivity.
  rewrite (T V6), (T UdpEdnsBig), (T2 V6), (A1 V6), (D1 V6), (D1 UdpEdnsBig), (A1 UdpEdnsBig), (TV UdpEdnsBig), (D1 Dropped), (D1 DsoEstab), (D1 DsoTypeni) by (reflexivity || discriminate || (cbn; auto 10)).
  assert (OC : forall x, match rv with DECODE_BADVERS => x = Badvers | _ => x = match m_rcode m with 0%N => Noerror | 1%N => Formerr | 3%N => Nxdomain | 4%N => Notimp | _ => Refused end end -> outcome m = x).
  { intros x Hx. unfold outcome. unfold opt_is in OI. destruct (e_req (t_edns t)) eqn:RQ.
    - destruct OI as (pad & _ & ->). cbn [response_opt o_ext]. destruct rv; cbv beta iota in *;
        first [rewrite (proj2 (ext_bits true _)); congruence | rewrite (proj2 (ext_bits false _)); congruence].
    - rewrite OI. destruct rv; cbv beta iota in *; try (symmetry; exact Hx). specialize (A10 eq_refl). congruence. }
  split; [|split].
  { intros TC. destruct rv; cbn [settled] in S; try contradiction.
    - destruct S as (R & _ & ->). try rewrite MR, R in OC. specialize (OC _ eq_refl). rewrite OC. split; [reflexivity|]. rewrite V by (cbn; auto 20). reflexivity.
    - destruct S as (R & _ & ->). try rewrite MR, R in OC. specialize (OC _ eq_refl). rewrite OC. split; [reflexivity|]. rewrite V by (cbn; auto 20). reflexivity.
    - destruct S as (R & _ & ->). try rewrite MR, R in OC. specialize (OC _ eq_refl). rewrite OC. split; [reflexivity|]. rewrite V by (cbn; auto 20). reflexivity.
    - destruct S as [(_ & ->)|(X & _)]; [|congruence]. pose proof (content_three _ _ _ _ _ _ _ _ _ _ CO) as C3. specialize (OC _ eq_refl). rewrite MR in C3, OC.
      destruct C3 as [C3|[C3|C3]]; rewrite C3 in OC; cbv beta iota in OC; rewrite OC; rewrite V by (cbn; auto 20); rewrite C3; split; reflexivity. }
  { intros TC. destruct rv; cbn [settled] in S; try contradiction; try (destruct S as (_ & X & _); congruence). destruct S as [(X & _)|(_ & _ & _ & rc & ->)]; [congruence|].
    unfold db_counts. destruct (e_req (t_edns t)), (rc =? 5)%N, (rc =? 3)%N; cbn; lia. }
  rewrite SO, DO, CK, EC. split; [exact A2|]. split; [exact A3|]. split; [exact A5|]. unfold cookie_counts in A4. split; [rewrite A4; destruct (e_ck_recvd _); cbn; lia|].
  split. { intros E. destruct A7 as [A7|A7]; [lia|]. subst rv. cbn [settled] in S. destruct S as (R & _). split; [congruence|]. unfold answered in A5. destruct (e_ck_recvd _), (e_ck_respond _); cbn [bit] in *; lia. }
  split; [lia|]. split; [exact A9'|].
  assert (TCU : times UdpTc c1 = bit (m_tc m && negb (e_req (t_edns t))) /\ times UdpEdnsTc c1 = bit (m_tc m && e_req (t_edns t)) /\ (m_tc m = true -> c_is_udp cfg = true)).
  { rewrite MT. destruct rv; cbn [settled] in S; try contradiction; try (destruct S as (_ & -> & ->); split; [reflexivity|split; [reflexivity|discriminate]]).
    destruct S as [(-> & ->)|(-> & _ & U & rc & ->)].
    - unfold db_counts. destruct (p_rcode p =? 5)%N, (p_rcode p =? 3)%N, (p_rcode p =? 0)%N; cbn; repeat split; discriminate.
    - unfold db_counts. destruct (e_req (t_edns t)), (rc =? 5)%N, (rc =? 3)%N; cbn; auto. }
  destruct TCU as (U1 & U2 & U3). split; [exact U1|]. split; [exact U2|]. split; [exact U3|]. split; [rewrite TB; cbn [Nat.add]; f_equal; destruct (e_req _), (c_is_udp cfg); reflexivity|].
  split; [destruct v6; reflexivity|]. split; [reflexivity|]. split; [reflexivity|]. split; [|reflexivity]. rewrite A8. destruct rv; congruence || reflexivity.
Qed.

Print Assumptions C66_same.
Print Assumptions C66_answered.

(** ** Requests without an answer *)
(** What is no request counts as dropped, and as nothing else *)
Theorem C66_not_a_request : forall cfg chaos ckp draws dyn chals no_chain root depth v6 dso pkt,
  all_bytes pkt -> length pkt <= 1024 -> length pkt < 12 \/ qr_set pkt = true ->
  process_c cfg ckp chaos draws dyn chals no_chain root depth v6 dso pkt = Ok (dso, None, (if v6 then [V6] else []) ++ [Dropped]).
Proof.
  intros cfg chaos ckp draws dyn chals no_chain root depth v6 dso pkt HB HL H. unfold process_c. rewrite (proj2 (Nat.leb_le _ _) HL). cbn [rassert].
  assert (E : decode_c cfg ckp dso pkt (txn_init cfg) = Ok (DECODE_IGNORE, txn_init cfg, 12, [])); [|rewrite E; cbn [rbind]; rewrite app_nil_r; reflexivity].
  unfold decode_c. destruct (Nat.ltb_spec (length pkt) 12) as [L|L]; [reflexivity|]. destruct H as [H|H]; [lia|].
  assert (RD : rd pkt 2 = Ok (nth 2 pkt 0%N) /\ (nth 2 pkt 0 < 256)%N) by (apply (rd_nth pkt 2 HB); lia). destruct RD as [RD B]. rewrite RD. cbn [rbind]. rewrite qr_bit by exact B.
  unfold qr_set in H. rewrite H. reflexivity.
Qed.
(** Any request without an answer: dropped, once; the connection's end for a DSO message counts as a protocol error instead, and
    with a keepalive option inside a DSO session as one too *)
Theorem C66_dropped : forall cfg chaos ckp draws dyn chals root, wf_server cfg chaos ckp draws dyn chals root ->
  forall v6 dso pkt st cs, all_bytes pkt -> length pkt <= 1024 -> counted cfg chaos ckp draws dyn chals root v6 dso pkt = Ok (st, None, cs) ->
  times V6 cs = bit v6 /\ times DsoProtoerr cs <= 1 /\
  ((total cs = 1 /\ times Dropped cs = 1) \/ (opcode_of pkt = 6%N /\ c_disable_dso cfg = false /\ total cs = 0 /\ times DsoProtoerr cs = 1)) /\
  (times DsoProtoerr cs = 1 -> c_is_udp cfg = true -> False).
Proof.
  intros cfg chaos ckp draws dyn chals root WS v6 dso pkt st cs HB HL H. pose proof (dropped _ _ _ _ _ _ _ WS pkt HB HL v6 dso st cs H) as (rv & t & off & c0 & ED & D).
  assert (Z : forall c, dec_counter c = false -> times c c0 = 0) by (destruct (read_decode _ _ _ _ _ _ _ _ ED) as [(_ & _ & -> & _)|(_ & _ & RA)]; [reflexivity|apply RA]).
  assert (P : times DsoProtoerr c0 <= 1 /\ (rv = DECODE_DSO -> times DsoProtoerr c0 = 0)).
  { destruct (read_decode _ _ _ _ _ _ _ _ ED) as [(-> & _ & -> & _)|(_ & _ & RA)]; [split; [cbn; lia|discriminate]|]. rewrite (ra_proto _ _ _ _ RA). split; [destruct rv; lia|intros ->; reflexivity]. }
  assert (U : times DsoProtoerr c0 = 1 -> c_is_udp cfg = false) .
  { intros E1. destruct (read_decode _ _ _ _ _ _ _ _ ED) as [(_ & _ & -> & _)|(L & (f & RF & NF) & RA)]; [discriminate E1|]. rewrite (ra_proto _ _ _ _ RA) in E1. destruct rv; try discriminate E1.
    destruct (C06_what_is_dropped cfg ckp dso pkt t off (ws_cookie _ _ _ _ _ _ _ WS) HB (erased_decode cfg ckp pkt _ _ _ _ _ ED)) as [Q|[Q|(Q & _)]]; [lia| |exact Q].
    exfalso. assert (RD : rd pkt 2 = Ok (nth 2 pkt 0%N) /\ (nth 2 pkt 0 < 256)%N) by (apply (rd_nth pkt 2 HB); lia). destruct RD as [RD B]. rewrite RF in RD. injection RD as ->. rewrite qr_bit in NF by exact B. unfold qr_set in Q. congruence. }
  assert (X : forall c, times c (v6c v6) = match c with V6 => bit v6 | _ => 0 end) by (intros []; destruct v6; reflexivity).
  unfold total. destruct D as [(-> & ->)|(-> & O & DD & ->)]; rewrite !times_app, !X, ?(Z V6), ?(Z Noerror), ?(Z Refused), ?(Z Nxdomain), ?(Z Notimp), ?(Z Badvers), ?(Z Formerr), ?(Z Dropped) by reflexivity.
  - cbn. split; [lia|]. split; [lia|]. split; [left; lia|]. intros E UD. rewrite U in UD; [discriminate|lia].
  - destruct P as [_ P]. rewrite (P eq_refl). cbn. split; [lia|]. split; [lia|]. split; [right; auto|]. intros _ UD.
    (* over UDP a DSO message is answered *)
    destruct (dso_ok _ _ _ _ _ _ _ WS dso pkt HB HL t off (erased_decode cfg ckp pkt _ _ _ _ _ ED)) as (HQ & HO & L12 & _ & EP). pose proof (erased _ _ _ _ _ _ _ _ _ _ _ _ _ H) as HP. rewrite EP in HP.
    pose proof (dso_flags pkt HB L12 HQ HO) as FL. rewrite (padding_ok cfg dso pkt HB L12 _ (ws_pad _ _ _ _ _ _ _ WS) FL) in HP.
    destruct (handle_dso_ok cfg dso pkt HB L12 _ FL) as [[_ E]|(UF & _)]; [rewrite E in HP; discriminate HP|congruence].
Qed.

(** ** DSO *)
(** The counter of sessions counts the requests that establish one *)
Theorem C66_session : forall cfg chaos ckp draws dyn chals root v6 dso pkt st r cs, counted cfg chaos ckp draws dyn chals root v6 dso pkt = Ok (st, r, cs) ->
  (dso = true -> st = true) /\ times DsoEstab cs = bit (st && negb dso).
Proof.
  intros cfg chaos ckp draws dyn chals root v6 dso pkt st r cs H. destruct (parts _ _ _ _ _ _ _ _ _ _ _ _ _ H) as (rv & t & off & c0 & ED & P).
  assert (X : forall c, times c (v6c v6) = match c with V6 => bit v6 | _ => 0 end) by (intros []; destruct v6; reflexivity).
  destruct (read_decode _ _ _ _ _ _ _ _ ED) as [(-> & _ & -> & _)|(L12 & _ & RA)].
  { destruct P as (-> & _ & ->). split; [auto|]. rewrite !times_app, X. destruct dso; reflexivity. }
  pose proof (ra_other _ _ _ _ RA DsoEstab eq_refl) as Z.
  assert (K : forall c1 c2, settled cfg rv t c1 c2 -> times DsoEstab c2 = 0).
  { intros p c1 S. destruct rv; cbn [settled] in S; try contradiction; try (destruct S as (_ & _ & ->); reflexivity).
    destruct S as [(_ & ->)|(_ & _ & _ & rc & ->)]; unfold db_counts.
    - destruct (_ =? 5)%N; [|destruct (_ =? 3)%N]; destruct (_ =? 0)%N; reflexivity.
    - destruct (e_req _), (_ =? 5)%N; try reflexivity; destruct (_ =? 3)%N; reflexivity. }
  destruct rv; try (destruct P as (p & c1 & c2 & f & out & n & S & -> & -> & C2 & _); split; [auto|]; rewrite !times_app, X, Z, (K _ _ S); destruct C2 as [-> | ->]; destruct dso; reflexivity).
  - destruct P as (-> & _ & ->). split; [auto|]. rewrite !times_app, X, Z. destruct dso; reflexivity.
  - destruct P as (f & c' & EP & ->). apply dso_counts in EP; [|lia]. rewrite !times_app, X, Z.
    destruct EP as [(_ & -> & ->)|(m & _ & [(_ & -> & ->)|[(_ & -> & ->)|(_ & -> & ->)]])]; (split; [auto|]); destruct dso; reflexivity.
Qed.
(** A DSO request counts by its answer: a fault ends the connection, a type that is unknown, a keepalive in a session nothing.  None of the
    seven, except over UDP *)
Theorem C66_dso : forall cfg chaos ckp draws dyn chals root, wf_server cfg chaos ckp draws dyn chals root ->
  forall v6 dso id f1 f2 body st r cs, c_disable_dso cfg = false -> length id = 2 -> all_bytes id -> dso_f1 f1 -> (f2 < 256)%N -> all_bytes body ->
  counted cfg chaos ckp draws dyn chals root v6 dso (dso_request id f1 f2 body) = Ok (st, r, cs) ->
  cs = (if v6 then [V6] else []) ++
    match r with
    | None => [DsoProtoerr]
    | Some m => if c_is_udp cfg then [Formerr] else if (nth 3 m 0 =? 11)%N then [DsoTypeni] else if dso then [] else [DsoEstab]
    end.
Proof.
  intros cfg chaos ckp draws dyn chals root WS v6 dso id f1 f2 body st r cs CD Hi Hib HF H2 HBo H. pose proof H as H0.
  destruct (dso_request_facts cfg ckp dso id f1 f2 body Hi Hib HF H2 HBo CD) as (HB & L12 & SK & ID & CZ & ED).
  destruct (parts _ _ _ _ _ _ _ _ _ _ _ _ _ H) as (rv & t & off & c0 & ED' & P). pose proof (erased_decode cfg ckp _ _ _ _ _ _ ED') as E2. rewrite ED in E2. injection E2 as <- <- <-.
  assert (c0 = []) as ->.
  { clear - Hi L12 ED'. destruct id as [|i0 [|i1 [|? ?]]]; try discriminate Hi. set (pkt := dso_request [i0; i1] f1 f2 body) in *. unfold decode_c in ED'. destruct (Nat.ltb_spec (length pkt) 12); [lia|].
    change (rd pkt 2) with (Ok f1) in ED'. cbn [rbind] in ED'. destruct (negb _); [injection ED'; auto|].
    assert (PQ : query_rrs_c cfg ckp dso pkt (txn_init cfg) = Ok (DECODE_OK, txn_init cfg, 12, [])) by (unfold query_rrs_c; apply Nat.leb_le in L12; rewrite L12; reflexivity).
    rewrite PQ in ED'. cbn [rbind] in ED'. cbv zeta in ED'. destruct (_ =? 0)%N.
    - change (rd16 pkt 4) with (Ok 0%N) in ED'. cbn [rbind] in ED'. destruct (_ || _)%bool; [injection ED'; auto|]. destruct (_ && _)%bool; injection ED'; auto.
    - destruct (_ && _)%bool; injection ED'; auto. }
  destruct P as (f & c' & EP & ->). rewrite app_nil_r. change (v6c v6) with (if v6 then [V6] else []). f_equal. pose proof EP as EP'. apply dso_counts in EP'; [|lia].
  assert (U : c_is_udp cfg = true -> c' = [Formerr] /\ r <> None).
  { intros U. unfold dso_padding_c, dso_c in EP. clear - U EP Hi. destruct id as [|i0 [|i1 [|? ?]]]; try discriminate Hi. set (pkt := dso_request [i0; i1] f1 f2 body) in *.
    change (rd16 pkt 4) with (Ok 0%N) in EP. change (rd16 pkt 6) with (Ok 0%N) in EP. change (rd16 pkt 8) with (Ok 0%N) in EP. change (rd16 pkt 10) with (Ok 0%N) in EP. cbn [rbind] in EP. rewrite U in EP. cbn [orb rbind] in EP.
    cbv zeta in EP. destruct (Nat.leb _ 464); [|discriminate EP]. cbn [rassert] in EP. destruct (c_tcp_pad cfg); [discriminate EP|]. injection EP as _ <- <-. split; [reflexivity|discriminate]. }
  destruct EP' as [(-> & _ & ->)|(m & -> & K)]; [reflexivity|]. destruct (c_is_udp cfg) eqn:UD; [now apply U|].
  assert (NF : c' <> [Formerr]).
  { clear - UD EP Hi. intros ->. unfold dso_padding_c, dso_c in EP. destruct id as [|i0 [|i1 [|? ?]]]; try discriminate Hi. set (pkt := dso_request [i0; i1] f1 f2 body) in *.
    change (rd16 pkt 4) with (Ok 0%N) in EP. change (rd16 pkt 6) with (Ok 0%N) in EP. change (rd16 pkt 8) with (Ok 0%N) in EP. change (rd16 pkt 10) with (Ok 0%N) in EP. cbn [rbind] in EP. rewrite UD in EP.
    change (false || negb (N.lor (N.lor (N.lor 0 0) 0) 0 =? 0)%N)%bool with false in EP. cbv iota in EP.
    repeat (cbv zeta in EP; cbn [rbind rassert] in EP; match type of EP with
      | context [rd16 ?a ?b] => destruct (rd16 a b); [|discriminate EP] | context [dso_tlvs ?a ?b ?c] => destruct (dso_tlvs a b c); [|discriminate EP] | context [rdn ?a ?b ?c] => destruct (rdn a b c); [|discriminate EP]
      | context [rassert ?c _] => destruct c; [|discriminate EP] | context [if dso then [] else _] => destruct dso
      | context [if ?c then _ else _] => destruct c end); cbn [rbind rassert] in EP; try discriminate EP. }
  destruct K as [(_ & _ & ->)|[(-> & _ & ->)|(-> & _ & ->)]]; [congruence|reflexivity|reflexivity].
Qed.
Print Assumptions C66_not_a_request.
Print Assumptions C66_dropped.
Print Assumptions C66_session.
Print Assumptions C66_dso.

(** ** Any number of requests *)
Lemma times_flat_v6 l : forall v6, times V6 (v6c v6 ++ l) = bit v6 + times V6 l.
Proof. intros v6. rewrite times_app. destruct v6; reflexivity. Qed.
Definition plain_request cfg dyn chals root (x : bool * bool * bytes) : Prop :=
  let '(_, dso, pkt) := x in all_bytes pkt /\ length pkt <= 1024 /\ tame cfg dso pkt /\ fits cfg dyn chals root pkt /\ (opcode_of pkt = 6%N -> c_disable_dso cfg = true).
(** The sum of the seven is the number of requests, but for truncated answers that count twice *)
Theorem C66_history : forall cfg chaos ckp draws dyn chals root, wf_server cfg chaos ckp draws dyn chals root ->
  forall l cs, Forall (plain_request cfg dyn chals root) l -> history_c cfg ckp chaos draws dyn chals true root 1 l = Ok cs ->
  length l <= total cs <= length l + times UdpTc cs + times UdpEdnsTc cs /\ (c_is_udp cfg = false -> total cs = length l) /\ times V6 cs = length (filter (fun x => fst (fst x)) l).
Proof.
  intros cfg chaos ckp draws dyn chals root WS. induction l as [|[[v6 dso] pkt] l IH]; intros cs F H. { cbn in H. injection H as <-. cbn. repeat split; lia. }
  cbn [history_c] in H. destruct (process_c _ _ _ _ _ _ _ _ _ v6 dso pkt) as [[[st r] c]|] eqn:E; [|discriminate H]. cbn [rbind] in H.
  destruct (history_c _ _ _ _ _ _ _ _ _ l) as [c'|]; [|discriminate H]. cbn [rbind] in H. injection H as <-. apply Forall_cons_iff in F. destruct F as [(HB & HL & TA & FI & ND) F].
  destruct (IH c' F eq_refl) as (I1 & I2 & I3).
  assert (K : 1 <= total c <= 1 + times UdpTc c + times UdpEdnsTc c /\ (c_is_udp cfg = false -> total c = 1) /\ times V6 c = bit v6).
  { destruct r as [r|].
    - destruct (C66_answered _ _ _ _ _ _ _ WS _ _ _ _ _ _ HB HL TA FI ND E) as (off & qd & m & _ & A1 & A2 & _ & _ & _ & _ & _ & _ & _ & A3 & A4 & A5 & _ & A6 & _).
      split; [|split; [|exact A6]].
      + destruct (m_tc m); [|destruct (A1 eq_refl); lia]. destruct (A2 eq_refl) as (_ & B & C). rewrite A3, A4. destruct (some (m_opt m)); cbn; lia.
      + intros U. destruct (m_tc m); [rewrite A5 in U by reflexivity; discriminate U|]. now apply A1.
    - destruct (C66_dropped _ _ _ _ _ _ _ WS _ _ _ _ _ HB HL E) as (A1 & _ & [(A2 & A3)|(O & D & _)] & _); [|rewrite ND in D by exact O; discriminate D]. split; [lia|]. auto. }
  destruct K as (K1 & K2 & K3). unfold total in *. rewrite !times_app. cbn [length filter fst]. split; [lia|]. split.
  - intros U. specialize (K2 U). specialize (I2 U). lia.
  - rewrite K3, I3. destruct v6; reflexivity.
Qed.

(** ** The counters of EDNS, by the request *)
Lemma opt_rel_keeps cfg ckp dso e o rv e' : opt_rel cfg ckp dso e o rv e' -> e_req e' = e_req e /\ e_do e' = e_do e.
Proof. intros []; split; reflexivity. Qed.
Lemma opts_rel_keeps cfg ckp dso e R rv e' : opts_rel cfg ckp dso e R rv e' -> e_req e' = e_req e /\ e_do e' = e_do e.
Proof.
  induction 1 as [e|e R N1 N2|e o R rv e1 e2 HO H1 H2 IH|e o R rv e1 HO H1 HN]; auto.
  - apply opt_rel_keeps in H1. destruct H1, IH. split; congruence.
  - now apply opt_rel_keeps in H1.
Qed.
Lemma optrr_rel_keeps cfg ckp dso t size ext rdlen tail rv t' : t_edns t = edns0 -> optrr_rel cfg ckp dso t size ext rdlen tail rv t' -> e_req (t_edns t') = true /\ e_do (t_edns t') = opt_do ext.
Proof.
  intros E0 H.
  assert (K : e_req (t_edns (opt_seen t ext)) = true /\ e_do (t_edns (opt_seen t ext)) = opt_do ext) by (unfold opt_seen; rewrite E0; split; reflexivity).
  assert (K' : e_req (t_edns (opt_limits cfg dso (opt_seen t ext) size)) = true /\ e_do (t_edns (opt_limits cfg dso (opt_seen t ext) size)) = opt_do ext).
  { unfold opt_limits. destruct (c_is_udp cfg); [exact K|]. destruct dso; exact K. }
  destruct H as [| |rv e' V L O]; auto. apply opts_rel_keeps in O. destruct O as [O1 O2]. cbn [t_edns set_edns]. destruct K'. split; congruence.
Qed.
(** what follows the decoding adds none of these *)
Local Ltac fa := repeat (apply Forall_cons; [first [left; reflexivity|right; reflexivity]|]); apply Forall_nil.
Lemma decoded cfg chaos ckp draws dyn chals root v6 dso pkt st r cs : counted cfg chaos ckp draws dyn chals root v6 dso pkt = Ok (st, r, cs) ->
  exists rv t off c0, decode_c cfg ckp dso pkt (txn_init cfg) = Ok (rv, t, off, c0) /\ forall c, In c [Edns; EdnsDo; EdnsClientsub; CookieFormerr; CookieOk; CookieInit; CookieBad] -> times c cs = times c c0.
Proof.
  intros H. destruct (parts _ _ _ _ _ _ _ _ _ _ _ _ _ H) as (rv & t & off & c0 & ED & P). exists rv, t, off, c0. split; [exact ED|]. intros c IC.
  assert (Z : forall l, Forall (fun x => dec_counter x = false \/ x = DsoProtoerr) l -> times c l = 0).
  { induction l as [|x l IH]; intros F; [reflexivity|]. apply Forall_cons_iff in F. destruct F as [X F]. unfold times in *. cbn [count_occ]. destruct (counter_eq x c) as [->|]; [|now apply IH].
    exfalso. cbn in IC. destruct X as [X|X]; repeat (destruct IC as [IC|IC]; [rewrite <- IC in X; discriminate X|]); contradiction. }
  assert (ZV : times c (v6c v6) = 0) by (apply Z; destruct v6; fa).
  assert (ZS : forall p c1, settled cfg rv t p c1 -> times c c1 = 0).
  { intros p c1 S. apply Z. destruct rv; cbn [settled] in S; try contradiction; try (destruct S as (_ & _ & ->); fa).
    destruct S as [(_ & ->)|(_ & _ & _ & rc & ->)]; unfold db_counts.
    - destruct (_ =? 5)%N; [|destruct (_ =? 3)%N]; destruct (_ =? 0)%N; fa.
    - destruct (e_req _), (_ =? 5)%N; try fa; destruct (_ =? 3)%N; fa. }
  destruct rv; try (destruct P as (p & c1 & c2 & f & out & n & S & _ & -> & C2 & _); rewrite !times_app, ZV, (ZS _ _ S); destruct C2 as [-> | ->]; [rewrite (Z [UdpEdnsBig]) by fa|rewrite times_nil]; lia).
  - destruct P as (_ & _ & ->). rewrite !times_app, ZV, (Z [Dropped]) by fa. lia.
  - destruct P as (f & c' & EP & ->). rewrite !times_app, ZV, (Z c'); [lia|]. destruct (read_decode _ _ _ _ _ _ _ _ ED) as [(Q & _)|(L & _)]; [discriminate Q|].
    apply dso_counts in EP; [|lia]. destruct EP as [(_ & _ & ->)|(m & _ & [(_ & _ & ->)|[(_ & _ & ->)|(_ & _ & ->)]])]; try fa; destruct dso; fa.
Qed.
Theorem C66_edns : forall cfg chaos ckp draws dyn chals root, (forall d, length (snd (ckp d)) = 16) -> forall v6 dso id f1 f2 q o trail st r cs, std_ok id f1 f2 q o trail ->
  counted cfg chaos ckp draws dyn chals root v6 dso (std_msg id f1 f2 q o trail) = Ok (st, r, cs) ->
  times Edns cs = bit (some o) /\ times EdnsDo cs = bit (match o with Some x => opt_do (o_ext x) | None => false end).
Proof.
  intros cfg chaos ckp draws dyn chals root HC v6 dso id f1 f2 q o trail st r cs (Hi & Hib & H1 & H2 & HQ & HO & HT & HL) H.
  destruct (decoded _ _ _ _ _ _ _ _ _ _ _ _ _ H) as (rv & t & off & c0 & ED & D). rewrite !D by (cbn; auto).
  destruct (C05_standard_message cfg ckp dso id f1 f2 q o trail HC Hi Hib H1 H2 HQ HO HT) as (rv1 & t1 & E1 & OR). rewrite (erased_decode cfg ckp _ _ _ _ _ _ ED) in E1. injection E1 as ER <- EO.
  destruct (read_decode _ _ _ _ _ _ _ _ ED) as [(RI & _ & _ & X)|(_ & _ & RA)].
  { exfalso. destruct id as [|i0 [|i1 [|? ?]]]; try discriminate Hi. destruct X as [X|(f & RF & X)].
    - unfold std_msg in X. rewrite app_length, header_len in X by reflexivity. lia.
    - change (Ok f1 = Ok f) in RF. injection RF as <-. rewrite qr_bit in X by lia. revert X. pose proof (small_byte_check (fun b => negb (b <? 128) || negb (N.testbit b 7))%N ltac:(vm_compute; reflexivity) f1 ltac:(lia)) as K. cbv beta in K.
      destruct (N.ltb_spec f1 128); [|lia]. cbn [negb orb] in K. apply negb_true_iff in K. rewrite K. discriminate. }
  destruct RA as [A1 A2 A3 A4 A5 A6 A7 A8 [A9 A9'] A10]. rewrite A2, A3. destruct o as [x|].
  - apply optrr_rel_keeps in OR; [|reflexivity]. destruct OR as [-> ->]. split; reflexivity.
  - destruct OR as [_ ->]. split; reflexivity.
Qed.
Print Assumptions C66_history.
Print Assumptions C66_edns.
