From Coq Require Import Lia.
From Verif Require Import Base DnameModel DnameSpec PktModel PktSpec PktProofs RandModel CompModel RespModel MsgModel MsgSpec CntModel CntSpec CntProofs.
Local Open Scope nat_scope.

Lemma times_app c a b : times c (a ++ b) = times c a + times c b.
Proof. apply count_occ_app. Qed.
Lemma times_nil c : times c [] = 0.
Proof. reflexivity. Qed.

Definition opt_counter (c : counter) : bool := match c with EdnsClientsub | CookieFormerr | CookieOk | CookieInit | CookieBad | DsoProtoerr => true | _ => false end.
Definition inv (e : edns) : Prop := (e_ck_respond e = true -> e_ck_recvd e = true) /\ (e_ck_valid e = true -> e_ck_respond e = true).
Definition answered (cs : list counter) : nat := times CookieOk cs + times CookieInit cs + times CookieBad cs.
(** what options do to the record and to the counters *)
Record moved (cfg : pcfg) (e : edns) (rv : rcode_rv) (e' : edns) (cs : list counter) : Prop := {
  mv_inv : inv e';
  mv_other : forall c, opt_counter c = false -> times c cs = 0;
  mv_req : e_req e' = e_req e /\ e_do e' = e_do e;
  mv_recvd : cookie_counts cs + bit (e_ck_recvd e) = bit (e_ck_recvd e');
  mv_respond : answered cs + bit (e_ck_respond e) = bit (e_ck_respond e');
  mv_valid : times CookieOk cs + bit (e_ck_valid e) = bit (e_ck_valid e');
  mv_formerr : times CookieFormerr cs = 0 \/ rv = DECODE_FORMERR;
  mv_proto : times DsoProtoerr cs = match rv with DECODE_IGNORE => 1 | _ => 0 end;
  mv_ecs : bit (e_respond_ecs e') <= bit (e_respond_ecs e) + times EdnsClientsub cs /\ (c_ecs cfg = false -> times EdnsClientsub cs = 0);
  mv_rv : rv = DECODE_OK \/ rv = DECODE_FORMERR \/ rv = DECODE_IGNORE }.

Lemma moved_nil cfg e rv : inv e -> rv = DECODE_OK \/ rv = DECODE_FORMERR -> moved cfg e rv e [].
Proof. intros I R. constructor; auto; try (destruct R as [-> | ->]; reflexivity). - cbn. lia. - destruct R; auto. Qed.
Lemma moved_trans cfg e e1 e2 rv cs1 cs2 : moved cfg e DECODE_OK e1 cs1 -> moved cfg e1 rv e2 cs2 -> moved cfg e rv e2 (cs1 ++ cs2).
Proof.
  intros [A1 A2 [A3 A3'] A4 A5 A6 A7 A8 [A9 A9'] A10] [B1 B2 [B3 B3'] B4 B5 B6 B7 B8 [B9 B9'] B10]. unfold cookie_counts, answered in *.
  constructor; unfold cookie_counts, answered; rewrite ?times_app; auto; try lia.
  - intros c H. rewrite times_app, (A2 c H), (B2 c H). reflexivity.
  - split; congruence.
  - destruct A7 as [A7|A7]; [|discriminate A7]. destruct B7 as [B7|B7]; [left; lia|right; exact B7].
  - split; [lia|]. intros H. rewrite (A9' H), (B9' H). reflexivity.
Qed.

Section Moves.
  Variable cfg : pcfg.
  Variable ckp : bytes -> bool * bytes.

  Lemma ecs_shape pkt e l off rv e' : handle_edns_client_subnet pkt e l off = Ok (rv, e') ->
    (rv = DECODE_FORMERR /\ e' = e) \/ (rv = DECODE_OK /\ exists f m s v4 v6 o, e' = set_ecs e f m s v4 v6 o).
  Proof.
    unfold handle_edns_client_subnet. destruct (Nat.ltb _ _); [intros H; injection H as <- <-; auto|].
    destruct (rd16 pkt off) as [f|]; [|discriminate]. cbn [rbind]. destruct (rd pkt (off + 2)) as [m|]; [|discriminate]. cbn [rbind].
    destruct (rd pkt (off + 3)) as [s|]; [|discriminate]. cbn [rbind]. cbv zeta. destruct (negb _); [intros H; injection H as <- <-; auto|].
    destruct (if (f =? 1)%N then _ else _); [intros H; injection H as <- <-; auto|]. destruct (negb (Nat.eqb _ _)); [intros H; injection H as <- <-; auto|].
    match goal with |- context [rbind ?x _] => destruct x as [[]|] end; cbn [rbind]; [intros H; injection H as <- <-; auto| |discriminate].
    match goal with |- context [rbind ?x _] => destruct x as [[[sa v4] v6]|] end; cbn [rbind]; [|discriminate]. intros H. injection H as <- <-.
    right. split; [reflexivity|]. repeat eexists.
  Qed.
  Lemma move_option dso pkt e c l off rv e' cs : inv e -> option_c cfg ckp dso pkt e c l off = Ok (rv, e', cs) -> moved cfg e rv e' cs.
  Proof.
    intros I. unfold option_c. destruct (c =? EDNS_ECS)%N.
    { destruct (c_ecs cfg) eqn:CE; [|intros H; injection H as <- <- <-; apply moved_nil; auto].
      destruct (handle_edns_client_subnet _ _ _ _) as [[rv0 e0]|] eqn:E; [|discriminate]. cbn [rbind]. intros H. injection H as <- <- <-.
      destruct (ecs_shape _ _ _ _ _ _ E) as [[-> ->]|[-> (f & m & s & v4 & v6 & o & ->)]]; constructor; auto; try (now (intros []; cbn; intros; discriminate || reflexivity));
        try (cbn; destruct (e_respond_ecs e); cbn; lia); try (split; [cbn; destruct (e_respond_ecs e); cbn; lia|congruence]). }
    destruct (c =? EDNS_NSID)%N.
    { destruct (Nat.eqb l 0); intros H; injection H as <- <- <-; [|apply moved_nil; auto]. destruct (c_nsid cfg); [apply moved_nil; auto|].
      constructor; auto; cbn; lia. }
    destruct (c =? EDNS_KEEPALIVE)%N.
    { destruct (_ && _)%bool; intros H; injection H as <- <- <-; [|apply moved_nil; auto].
      constructor; auto; try (now (intros []; cbn; intros; discriminate || reflexivity)); cbn; lia. }
    destruct (c =? EDNS_PADDING)%N; [intros H; injection H as <- <- <-; apply moved_nil; auto|].
    destruct (c =? EDNS_COOKIE)%N; [|intros H; injection H as <- <- <-; apply moved_nil; auto].
    destruct (negb (c_disable_cookies cfg) && negb (e_ck_recvd e))%bool eqn:CC; [|intros H; injection H as <- <- <-; apply moved_nil; auto].
    apply andb_true_iff in CC. destruct CC as [_ CR]. apply negb_true_iff in CR. destruct I as [I1 I2].
    assert (RS : e_ck_respond e = false) by (destruct (e_ck_respond e); [rewrite I1 in CR by reflexivity; discriminate|reflexivity]).
    assert (VL : e_ck_valid e = false) by (destruct (e_ck_valid e); [rewrite I2 in RS by reflexivity; discriminate|reflexivity]).
    unfold cookie_c. destruct (_ && _)%bool.
    - intros H. injection H as <- <- <-. constructor; auto; try (now (intros []; cbn; intros; discriminate || reflexivity)); try (cbn; rewrite ?CR, ?RS, ?VL; cbn; lia).
      split; cbn; rewrite ?RS, ?VL; congruence.
    - destruct (rdn pkt off l) as [d|]; [|discriminate]. cbn [rbind]. destruct (ckp d) as [v o]. destruct (wr _ _ _); [|discriminate]. cbn [rbind]. intros H. injection H as <- <- <-.
      destruct v; [|destruct (Nat.eqb l 8)]; (constructor; auto; try (now (intros []; cbn; intros; discriminate || reflexivity)); try (cbn; rewrite ?CR, ?RS, ?VL; cbn; lia); split; cbn; auto).
  Qed.
  Lemma move_options dso pkt : forall fuel e l off rv e' cs, inv e -> options_c cfg ckp fuel dso pkt e l off = Ok (rv, e', cs) -> moved cfg e rv e' cs.
  Proof.
    induction fuel as [|fuel IH]; intros e l off rv e' cs I H; [discriminate H|]. cbn [options_c] in H.
    destruct (Nat.ltb l 4); [injection H as <- <- <-; apply moved_nil; auto|].
    destruct (rd16 pkt off) as [c|]; [|discriminate H]. cbn [rbind] in H. destruct (rd16 pkt (off + 2)) as [n|]; [|discriminate H]. cbn [rbind] in H. cbv zeta in H.
    destruct (Nat.ltb _ _); [injection H as <- <- <-; apply moved_nil; auto|].
    destruct (option_c _ _ _ _ _ _ _ _) as [[[rv1 e1] cs1]|] eqn:E1; [|discriminate H]. cbn [rbind] in H. pose proof (move_option _ _ _ _ _ _ _ _ _ I E1) as M1.
    destruct rv1; try (injection H as <- <- <-; exact M1).
    destruct (Nat.eqb _ 0); [injection H as <- <- <-; exact M1|].
    destruct (options_c _ _ _ _ _ _ _ _) as [[[rv2 e2] cs2]|] eqn:E2; [|discriminate H]. cbn [rbind] in H. injection H as <- <- <-.
    eapply moved_trans; [exact M1|]. eapply IH; [|exact E2]. apply (mv_inv _ _ _ _ _ M1).
  Qed.

  (** The counts of decoding, for the state it leaves *)
  Definition dec_counter (c : counter) : bool := match c with Edns | EdnsDo => true | _ => opt_counter c end.
  Record read_as (rv : rcode_rv) (t : txn) (cs : list counter) : Prop := {
    ra_other : forall c, dec_counter c = false -> times c cs = 0;
    ra_edns : times Edns cs = bit (e_req (t_edns t));
    ra_do : times EdnsDo cs = bit (e_do (t_edns t));
    ra_recvd : cookie_counts cs = bit (e_ck_recvd (t_edns t));
    ra_respond : answered cs = bit (e_ck_respond (t_edns t));
    ra_valid : times CookieOk cs = bit (e_ck_valid (t_edns t));
    ra_formerr : times CookieFormerr cs = 0 \/ rv = DECODE_FORMERR;
    ra_proto : times DsoProtoerr cs = match rv with DECODE_IGNORE => 1 | _ => 0 end;
    ra_ecs : bit (e_respond_ecs (t_edns t)) <= times EdnsClientsub cs /\ (c_ecs cfg = false -> times EdnsClientsub cs = 0);
    ra_badvers : rv = DECODE_BADVERS -> e_req (t_edns t) = true }.
  Lemma read_nil rv t : t_edns t = edns0 -> rv = DECODE_OK \/ rv = DECODE_FORMERR -> read_as rv t [].
  Proof. intros E R. constructor; rewrite ?E; auto; destruct R as [-> | ->]; reflexivity || congruence. Qed.

  Lemma read_optrr dso pkt t off rv t' off' cs : t_edns t = edns0 -> optrr_c cfg ckp dso pkt t off = Ok (rv, t', off', cs) -> read_as rv t' cs.
  Proof.
    intros E0. unfold optrr_c. destruct (Nat.leb _ _); [|discriminate]. cbn [rassert]. destruct (rd pkt off) as [b|]; [|discriminate]. cbn [rbind].
    destruct (b =? 0)%N; [|discriminate]. cbn [rassert]. destruct (rd16 pkt (off + 1)) as [ty|]; [|discriminate]. cbn [rbind]. destruct (ty =? 41)%N; [|discriminate]. cbn [rassert]. cbv zeta.
    destruct (rd16 pkt (off + 3)) as [mx|]; [|discriminate]. cbn [rbind]. destruct (rd32 pkt _) as [ex|]; [|discriminate]. cbn [rbind]. destruct (rd16 pkt (off + 3 + 2 + 4)) as [rl|]; [|discriminate]. cbn [rbind].
    set (D := negb (N.land ex 32768 =? 0)%N). rewrite E0. cbn [edns0 e_do orb].
    set (t1 := set_edns t (set_req edns0 11 D)).
    assert (BASE : forall rv t2, e_req (t_edns t2) = true -> e_do (t_edns t2) = D -> e_ck_recvd (t_edns t2) = false -> e_ck_respond (t_edns t2) = false -> e_ck_valid (t_edns t2) = false -> e_respond_ecs (t_edns t2) = false ->
        rv <> DECODE_IGNORE -> read_as rv t2 (Edns :: (if D then [EdnsDo] else []))).
    { intros rv0 t2 H1 H2 H3 H4 H5 H6 H7. constructor; rewrite ?H1, ?H2, ?H3, ?H4, ?H5, ?H6; try (destruct D; reflexivity); auto.
      - intros []; destruct D; cbn; intros; discriminate || reflexivity.
      - left. destruct D; reflexivity.
      - destruct rv0; try congruence; destruct D; reflexivity.
      - split; [cbn; lia|]. destruct D; reflexivity. }
    destruct (N.shiftr (N.land ex 16711680) 16 =? 0)%N.
    2:{ intros H. injection H as <- <- <- <-. apply BASE; try reflexivity. discriminate. }
    match goal with |- context [t_edns ?x] => match x with context [c_is_udp cfg] => set (t2 := x) end end.
    assert (E2 : e_req (t_edns t2) = true /\ e_do (t_edns t2) = D /\ e_ck_recvd (t_edns t2) = false /\ e_ck_respond (t_edns t2) = false /\ e_ck_valid (t_edns t2) = false /\ e_respond_ecs (t_edns t2) = false).
    { unfold t2. destruct (c_is_udp cfg); [|destruct (negb dso)]; repeat split. }
    destruct E2 as (F1 & F2 & F3 & F4 & F5 & F6).
    destruct (Nat.eqb _ 0). { intros H. injection H as <- <- <- <-. apply BASE; try assumption. discriminate. }
    destruct (Nat.ltb _ _). { intros H. injection H as <- <- <- <-. apply BASE; try assumption. discriminate. }
    destruct (options_c _ _ _ _ _ _ _ _) as [[[rv3 e3] cs3]|] eqn:E3; [|discriminate]. cbn [rbind]. intros H. injection H as <- <- <- <-.
    apply move_options in E3; [|split; congruence]. destruct E3 as [A1 A2 [A3 A3'] A4 A5 A6 A7 A8 [A9 A9'] A10]. rewrite F3 in A4. rewrite F4 in A5. rewrite F5 in A6. rewrite F6 in A9. rewrite F1 in A3. rewrite F2 in A3'. cbn [bit] in *.
    change (t_edns (set_edns t2 e3)) with e3. change (Edns :: (if D then [EdnsDo] else []) ++ cs3) with ((Edns :: (if D then [EdnsDo] else [])) ++ cs3).
    assert (Z : forall c, dec_counter c = false \/ opt_counter c = true -> times c (Edns :: (if D then [EdnsDo] else [])) = 0) by (intros []; cbn; intros [|]; try discriminate; destruct D; reflexivity).
    unfold cookie_counts, answered in *.
    constructor; unfold cookie_counts, answered; change (t_edns (set_edns t2 e3)) with e3; rewrite ?times_app, ?(Z CookieFormerr), ?(Z CookieOk), ?(Z CookieInit), ?(Z CookieBad), ?(Z DsoProtoerr), ?(Z EdnsClientsub) by (now right); try lia; auto.
    - intros c H. rewrite times_app, Z by (now left). apply A2. destruct c; cbn in *; congruence.
    - rewrite (A2 Edns) by reflexivity. rewrite A3. destruct D; reflexivity.
    - rewrite (A2 EdnsDo) by reflexivity. rewrite A3'. destruct D; reflexivity.
  Qed.

  Lemma optrr_req dso pkt t off rv t' off' cs : t_edns t = edns0 -> optrr_c cfg ckp dso pkt t off = Ok (rv, t', off', cs) -> e_req (t_edns t') = true.
  Proof.
    intros E0 H. pose proof (ra_edns _ _ _ (read_optrr _ _ _ _ _ _ _ _ E0 H)) as E. destruct (e_req (t_edns t')); [reflexivity|]. exfalso. revert H. unfold optrr_c.
    destruct (Nat.leb _ _); [|discriminate]. cbn [rassert]. destruct (rd pkt off) as [b|]; [|discriminate]. cbn [rbind].
    destruct (b =? 0)%N; [|discriminate]. cbn [rassert]. destruct (rd16 pkt (off + 1)) as [ty|]; [|discriminate]. cbn [rbind]. destruct (ty =? 41)%N; [|discriminate]. cbn [rassert]. cbv zeta.
    destruct (rd16 pkt (off + 3)) as [mx|]; [|discriminate]. cbn [rbind]. destruct (rd32 pkt _) as [ex|]; [|discriminate]. cbn [rbind]. destruct (rd16 pkt (off + 3 + 2 + 4)) as [rl|]; [|discriminate]. cbn [rbind].
    destruct (N.shiftr (N.land ex 16711680) 16 =? 0)%N; [|intros H; injection H as <- <- <- <-; discriminate E].
    destruct (Nat.eqb _ 0); [intros H; injection H as <- <- <- <-; discriminate E|]. destruct (Nat.ltb _ _); [intros H; injection H as <- <- <- <-; discriminate E|].
    destruct (options_c _ _ _ _ _ _ _ _) as [[[rv3 e3] cs3]|]; [|discriminate]. cbn [rbind]. intros H. injection H as <- <- <- <-. discriminate E.
  Qed.
  Lemma additional_seen dso pkt : forall n t off rv t' cs, additional_c cfg ckp n dso pkt t off true = Ok (rv, t', cs) -> t' = t /\ cs = [] /\ (rv = DECODE_OK \/ rv = DECODE_FORMERR).
  Proof.
    induction n as [|n IH]; intros t off rv t' cs H; cbn [additional_c] in H; [injection H as <- <- <-; auto|].
    match type of H with context [rbind ?x _] => destruct x as [[]|] end; cbn [rbind] in H; [injection H as <- <- <-; auto| |discriminate H].
    destruct (parse_rr_minimal _ _ _) as [[o|]|]; cbn [rbind] in H; [eapply IH; exact H|injection H as <- <- <-; auto|discriminate H].
  Qed.
  Lemma read_additional dso pkt : forall n t off rv t' cs, t_edns t = edns0 -> additional_c cfg ckp n dso pkt t off false = Ok (rv, t', cs) -> read_as rv t' cs.
  Proof.
    induction n as [|n IH]; intros t off rv t' cs E0 H; cbn [additional_c] in H; [injection H as <- <- <-; apply read_nil; auto|].
    match type of H with context [rbind ?x _] => destruct x as [[]|] end; cbn [rbind] in H; [| |discriminate H].
    - destruct (optrr_c _ _ _ _ _ _) as [[[[rc t1] off1] cs1]|] eqn:E1; [|discriminate H]. cbn [rbind] in H. pose proof (read_optrr _ _ _ _ _ _ _ _ E0 E1) as R.
      destruct rc; try (injection H as <- <- <-; exact R).
      destruct (additional_c _ _ _ _ _ _ _ _) as [[[rc2 t2] cs2]|] eqn:E2; [|discriminate H]. cbn [rbind] in H. injection H as <- <- <-.
      destruct (additional_seen _ _ _ _ _ _ _ _ E2) as (-> & -> & RV). rewrite app_nil_r. destruct R as [B1 B2 B3 B4 B5 B6 B7 B8 B9 B10].
      constructor; auto. { destruct B7 as [B7|B7]; [auto|discriminate B7]. } { rewrite B8. destruct RV as [-> | ->]; reflexivity. } destruct RV as [-> | ->]; discriminate.
    - destruct (parse_rr_minimal _ _ _) as [[o|]|]; cbn [rbind] in H; [eapply IH; eauto| |discriminate H]. injection H as <- <- <-. apply read_nil; auto.
  Qed.
  Lemma first_edns pkt t off t' off' : parse_first_question pkt t off = Ok (Some (t', off')) -> t_edns t' = t_edns t.
  Proof. unfold parse_first_question. intros H. unres; try reflexivity; congruence. Qed.
  Lemma read_query dso pkt t rv t' off cs : t_edns t = edns0 -> query_rrs_c cfg ckp dso pkt t = Ok (rv, t', off, cs) -> read_as rv t' cs.
  Proof.
    intros E0. unfold query_rrs_c. destruct (Nat.leb _ _); [|discriminate]. cbn [rassert]. destruct (_ =? 0)%N; [|discriminate]. cbn [rassert].
    destruct (rd16 pkt 4) as [qd|]; [|discriminate]. cbn [rbind]. destruct (rd16 pkt 6) as [an|]; [|discriminate]. cbn [rbind].
    destruct (rd16 pkt 8) as [ns|]; [|discriminate]. cbn [rbind]. destruct (rd16 pkt 10) as [ar|]; [|discriminate]. cbn [rbind].
    match goal with |- context [rbind ?x _] => destruct x as [[[t1 o]|]|] eqn:E1 end; cbn [rbind]; [| |discriminate].
    2:{ intros H. injection H as <- <- <- <-. apply read_nil; auto. }
    assert (E2 : t_edns t1 = edns0).
    { destruct (qd =? 0)%N; [injection E1 as <- _; exact E0|]. destruct (parse_first_question _ _ _) as [[[t2 o2]|]|] eqn:E3; [|discriminate E1|discriminate E1].
      cbn [rbind] in E1. injection E1 as <- _. cbn [t_edns]. rewrite (first_edns _ _ _ _ _ E3). exact E0. }
    assert (NIL : forall a, Ok (DECODE_FORMERR, t1, a, []) = Ok (rv, t', off, cs) -> read_as rv t' cs) by (intros a H; injection H as <- <- <- <-; apply read_nil; auto).
    destruct (parse_rrs_minimal _ _ _ _) as [[o1|]|]; cbn [rbind]; [|apply NIL|discriminate].
    destruct (parse_rrs_minimal _ _ o1 _) as [[o2|]|]; cbn [rbind]; [|apply NIL|discriminate].
    destruct (parse_rrs_minimal _ _ o2 _) as [[o3|]|]; cbn [rbind]; [|apply NIL|discriminate].
    destruct (additional_c _ _ _ _ _ _ _ _) as [[[rc t2] c]|] eqn:E3; [|discriminate]. cbn [rbind]. intros H. injection H as <- <- <- <-. eapply read_additional; eauto.
  Qed.
  (** a message that is too short or a response counts nothing *)
  Lemma read_decode dso pkt rv t off cs : decode_c cfg ckp dso pkt (txn_init cfg) = Ok (rv, t, off, cs) ->
    (rv = DECODE_IGNORE /\ t = txn_init cfg /\ cs = [] /\ (length pkt < 12 \/ (exists f, rd pkt 2 = Ok f /\ negb (N.land f 128 =? 0)%N = true))) \/
    (12 <= length pkt /\ (exists f, rd pkt 2 = Ok f /\ negb (N.land f 128 =? 0)%N = false) /\ read_as rv t cs).
  Proof.
    unfold decode_c. destruct (Nat.ltb_spec (length pkt) 12) as [L|L]. { intros H. injection H as <- <- <- <-. left. auto. }
    destruct (rd pkt 2) as [f|] eqn:RF; [|discriminate]. cbn [rbind]. destruct (negb _) eqn:NF. { intros H. injection H as <- <- <- <-. left. repeat split; auto. right. exists f. auto. }
    destruct (query_rrs_c _ _ _ _ _) as [[[[rc t1] o1] c1]|] eqn:E1; [|discriminate]. cbn [rbind]. apply read_query in E1; [|reflexivity].
    intros H. right. split; [lia|]. split; [exists f; auto|].
    destruct rc; try (injection H as <- <- <- <-; exact E1). cbv zeta in H.
    assert (CH : forall rv', rv' <> DECODE_IGNORE -> rv' <> DECODE_BADVERS -> read_as rv' t1 c1).
    { intros rv' N0 N1. destruct E1 as [B1 B2 B3 B4 B5 B6 B7 B8 B9 B10]. constructor; auto; try congruence; [destruct B7 as [B7|B7]; [auto|discriminate B7]|]. rewrite B8. destruct rv'; congruence || reflexivity. }
    destruct (N.shiftr (N.land f 120) 3 =? 0)%N.
    { destruct (rd16 pkt 4) as [q|]; [|discriminate H]. cbn [rbind] in H. destruct (_ || _)%bool; [injection H as <- <- <- <-; apply CH; discriminate|].
      destruct (_ && _)%bool; injection H as <- <- <- <-; apply CH; discriminate. }
    destruct (_ && _)%bool; injection H as <- <- <- <-; apply CH; discriminate.
  Qed.
  (** without an OPT record the transaction has no EDNS data *)
  Definition quiet (t : txn) : Prop := e_req (t_edns t) = false -> t_edns t = edns0.
  Lemma quiet_additional dso pkt : forall n t off rv t' cs, t_edns t = edns0 -> additional_c cfg ckp n dso pkt t off false = Ok (rv, t', cs) -> quiet t'.
  Proof.
    induction n as [|n IH]; intros t off rv t' cs Q H; cbn [additional_c] in H; [injection H as <- <- <-; unfold quiet; auto|].
    match type of H with context [rbind ?x _] => destruct x as [[]|] end; cbn [rbind] in H; [| |discriminate H].
    - destruct (optrr_c _ _ _ _ _ _) as [[[[rc t1] off1] cs1]|] eqn:E1; [|discriminate H]. cbn [rbind] in H.
      assert (Q1 : e_req (t_edns t1) = true) by (eapply optrr_req; eauto).
      destruct rc; try (injection H as <- <- <-; unfold quiet; congruence).
      destruct (additional_c _ _ _ _ _ _ _ _) as [[[rc2 t2] cs2]|] eqn:E2; [|discriminate H]. cbn [rbind] in H. injection H as <- <- <-.
      destruct (additional_seen _ _ _ _ _ _ _ _ E2) as (-> & _ & _). unfold quiet; congruence.
    - destruct (parse_rr_minimal _ _ _) as [[o|]|]; cbn [rbind] in H; [eapply IH; eauto| |discriminate H]. injection H as <- <- <-. unfold quiet; auto.
  Qed.
  Lemma read_none dso pkt rv t off cs : decode_c cfg ckp dso pkt (txn_init cfg) = Ok (rv, t, off, cs) -> e_req (t_edns t) = false ->
    e_do (t_edns t) = false /\ e_ck_respond (t_edns t) = false /\ e_respond_ecs (t_edns t) = false.
  Proof.
    intros H. assert (Q : quiet t); [|intros R; rewrite (Q R); auto]. revert H. unfold decode_c.
    destruct (Nat.ltb (length pkt) 12). { intros H. injection H as <- <- <- <-. unfold quiet. reflexivity. }
    destruct (rd pkt 2) as [f|]; [|discriminate]. cbn [rbind]. destruct (negb _). { intros H. injection H as <- <- <- <-. unfold quiet. reflexivity. }
    destruct (query_rrs_c _ _ _ _ _) as [[[[rc t1] o1] c1]|] eqn:E1; [|discriminate]. cbn [rbind]. intros H.
    assert (t1 = t) as ->.
    { destruct rc; try (injection H as _ <- _ _; reflexivity). cbv zeta in H. destruct (N.shiftr (N.land f 120) 3 =? 0)%N.
      - destruct (rd16 pkt 4) as [qd|]; [|discriminate H]. cbn [rbind] in H. destruct (_ || _)%bool; [injection H as _ <- _ _; reflexivity|].
        destruct (_ && _)%bool; injection H as _ <- _ _; reflexivity.
      - destruct (_ && _)%bool; injection H as _ <- _ _; reflexivity. }
    clear H. revert E1. unfold query_rrs_c. destruct (Nat.leb _ _); [|discriminate]. cbn [rassert]. destruct (_ =? 0)%N; [|discriminate]. cbn [rassert].
    destruct (rd16 pkt 4) as [qd|]; [|discriminate]. cbn [rbind]. destruct (rd16 pkt 6) as [an|]; [|discriminate]. cbn [rbind].
    destruct (rd16 pkt 8) as [ns|]; [|discriminate]. cbn [rbind]. destruct (rd16 pkt 10) as [ar|]; [|discriminate]. cbn [rbind].
    match goal with |- context [rbind ?x _] => destruct x as [[[t2 o]|]|] eqn:E1 end; cbn [rbind]; [| |discriminate].
    2:{ intros H. injection H as <- <- <- <-. unfold quiet. reflexivity. }
    assert (E2 : t_edns t2 = edns0).
    { destruct (qd =? 0)%N; [injection E1 as <- _; reflexivity|]. destruct (parse_first_question _ _ _) as [[[t3 o2]|]|] eqn:E3; [|discriminate E1|discriminate E1].
      cbn [rbind] in E1. injection E1 as <- _. cbn [t_edns]. rewrite (first_edns _ _ _ _ _ E3). reflexivity. }
    assert (Q2 : quiet t2) by (unfold quiet; auto).
    assert (NIL : forall a, Ok (DECODE_FORMERR, t2, a, []) = Ok (rc, t, o1, c1) -> quiet t) by (intros a H; injection H as <- <- <- <-; exact Q2).
    destruct (parse_rrs_minimal _ _ _ _) as [[o3|]|]; cbn [rbind]; [|apply NIL|discriminate].
    destruct (parse_rrs_minimal _ _ o3 _) as [[o4|]|]; cbn [rbind]; [|apply NIL|discriminate].
    destruct (parse_rrs_minimal _ _ o4 _) as [[o5|]|]; cbn [rbind]; [|apply NIL|discriminate].
    destruct (additional_c _ _ _ _ _ _ _ _) as [[[rc2 t4] c]|] eqn:E3; [|discriminate]. cbn [rbind]. intros H. injection H as <- <- <- <-. eapply quiet_additional; eauto.
  Qed.
End Moves.
