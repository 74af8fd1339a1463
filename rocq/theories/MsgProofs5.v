(** DSO messages; echo of the client subnet. *)
From Verif Require Import Base DnameModel DnameSpec DnameProofs PktModel PktSpec PktProofs PktProofs2 PktProofs3 PktProofs4 RandModel RandSpec CompModel CompSpec CompProofs CompProps
  RespModel RespSpec RespProofs RespProofs5 RespProps MsgModel MsgSpec MsgProofs MsgProofs2 MsgProofs3 MsgProofs4.
Ltac Zify.zify_post_hook ::= idtac.

(** ** DSO *)
Lemma tlvs_cons x xs : tlvs_wire (x :: xs) = opt_wire x ++ tlvs_wire xs.
Proof. reflexivity. Qed.
Lemma split4 (l : bytes) : 4 <= length l -> exists a b c d r, l = a :: b :: c :: d :: r.
Proof. intros H. destruct l as [|a [|b [|c [|d r]]]]; cbn in H; try lia. exists a, b, c, d, r. reflexivity. Qed.
Lemma get16_lt a b : (a < 256)%N -> (b < 256)%N -> (get16 a b < 65536)%N.
Proof. unfold get16. lia. Qed.
Lemma be16_get16 a b : (a < 256)%N -> (b < 256)%N -> be16 (get16 a b) = [a; b].
Proof. intros A B. apply be16_eq; auto. Qed.

(** first item of a byte string, or none *)
Lemma tlv_step S1 a b c d r : all_bytes S1 -> S1 = a :: b :: c :: d :: r ->
  (N.to_nat (get16 c d) <= length r -> S1 = opt_wire (get16 a b, firstn (N.to_nat (get16 c d)) r) ++ skipn (N.to_nat (get16 c d)) r /\
     opt_ok (get16 a b, firstn (N.to_nat (get16 c d)) r)) /\
  (length r < N.to_nat (get16 c d) -> forall xs, Forall opt_ok xs -> S1 <> tlvs_wire xs).
Proof.
  intros HB E. subst S1. apply Forall_cons_iff in HB. destruct HB as [A HB]. apply Forall_cons_iff in HB. destruct HB as [B HB].
  apply Forall_cons_iff in HB. destruct HB as [C HB]. apply Forall_cons_iff in HB. destruct HB as [D HB].
  pose proof (get16_lt a b A B). pose proof (get16_lt c d C D). split.
  - intros L. unfold opt_wire, opt_ok. cbn [fst snd]. rewrite firstn_length, Nat.min_l, N2Nat.id, !be16_get16 by assumption. cbn [app]. rewrite firstn_skipn.
    split; [reflexivity|]. split; [assumption|]. split; [assumption|]. apply Forall_forall; intros z Hz; eapply Forall_forall; [exact HB|]; rewrite <- (firstn_skipn (N.to_nat (get16 c d)) r); apply in_or_app; now left.
  - intros L xs HF E. destruct xs as [|x xs]; [discriminate E|]. rewrite tlvs_cons in E. unfold opt_wire in E. rewrite <- !app_assoc in E. unfold be16 in E. cbn [app] in E.
    injection E as _ _ E3 E4 E5. apply Forall_inv in HF. destruct HF as (_ & LX & _).
    assert (X : get16 c d = N.of_nat (length (snd x))) by (rewrite E3, E4; now apply get16_be16).
    rewrite E5, app_length, X, Nat2N.id in L. lia.
Qed.

Lemma dso_tlvs_ok pkt : all_bytes pkt -> forall fuel off, length pkt - off < fuel ->
  exists e, dso_tlvs fuel pkt off = Ok e /\ (e = length pkt <-> off <= length pkt /\ exists xs, Forall opt_ok xs /\ skipn off pkt = tlvs_wire xs).
Proof.
  intros HB. induction fuel as [|fuel IH]; intros off HF; [lia|]. cbn [dso_tlvs].
  destruct (Nat.leb_spec (off + 4) (length pkt)) as [L|L].
  - assert (HS : length (skipn off pkt) = length pkt - off) by apply skipn_length.
    destruct (split4 (skipn off pkt)) as (a & b & c & d & r & E); [lia|].
    assert (EP : pkt = (firstn off pkt ++ [a; b]) ++ c :: d :: r) by (rewrite <- app_assoc; cbn [app]; rewrite <- E; symmetry; apply firstn_skipn).
    assert (LP : length (firstn off pkt ++ [a; b]) = off + 2) by (rewrite app_length, firstn_length; cbn [length]; lia).
    assert (R : rd16 pkt (off + 2) = Ok (get16 c d)) by (rewrite EP, <- LP, rd16_at; reflexivity).
    rewrite R. cbn [rbind]. set (n := N.to_nat (get16 c d)).
    destruct (IH (off + (4 + n))) as (e & E1 & E2); [lia|]. exists e. split; [exact E1|]. rewrite E2.
    assert (HBS : all_bytes (skipn off pkt)) by (apply Forall_forall; intros z Hz; eapply Forall_forall; [exact HB|]; rewrite <- (firstn_skipn off pkt); apply in_or_app; now right).
    destruct (tlv_step _ a b c d r HBS E) as [T1 T2]. fold n in T1, T2. rewrite E in HS. cbn [length] in HS.
    assert (SK : skipn (off + (4 + n)) pkt = skipn n r).
    { replace (off + (4 + n)) with (4 + n + off) by lia.
      rewrite <- skipn_skipn_plus, E. reflexivity. }
    destruct (Nat.le_gt_cases n (length r)) as [LE|GT].
    + destruct (T1 LE) as [Q1 Q2]. rewrite SK. split.
      * intros (_ & xs & HX & EX). split; [lia|]. exists ((get16 a b, firstn n r) :: xs). split; [now constructor|]. rewrite tlvs_cons, <- EX. exact Q1.
      * intros (_ & xs & HX & EX). split; [lia|]. destruct xs as [|x xs]; [rewrite E in EX; discriminate EX|].
        rewrite Q1, tlvs_cons in EX. inversion HX; subst. apply opt_wire_inj in EX; auto. destruct EX as [_ EX]. eauto.
    + split; [intros (Q & _); lia|]. intros (_ & xs & HX & EX). exfalso. exact (T2 GT xs HX EX).
  - exists off. split; [reflexivity|]. split.
    + intros ->. split; [lia|]. exists []. split; [constructor|]. rewrite skipn_all. reflexivity.
    + intros (LO & xs & HX & EX). assert (HS : length (skipn off pkt) = length pkt - off) by apply skipn_length.
      destruct xs as [|x xs].
      * rewrite EX in HS. cbn in HS. lia.
      * rewrite EX, tlvs_cons, app_length, opt_wire_len in HS. lia.
Qed.

Lemma lor_zero a b c d : N.lor (N.lor (N.lor a b) c) d = 0%N <-> a = 0%N /\ b = 0%N /\ c = 0%N /\ d = 0%N.
Proof. rewrite !N.lor_eq_0_iff. intuition. Qed.
Lemma get16_zero a b : get16 a b = 0%N <-> a = 0%N /\ b = 0%N.
Proof. unfold get16. lia. Qed.
Lemma counts_zero_iff pkt : 12 <= length pkt -> (firstn 8 (skipn 4 pkt) = repeat 0%N 8 <->
  N.lor (N.lor (N.lor (get16 (nth 4 pkt 0) (nth 5 pkt 0)) (get16 (nth 6 pkt 0) (nth 7 pkt 0)))
                   (get16 (nth 8 pkt 0) (nth 9 pkt 0))) (get16 (nth 10 pkt 0) (nth 11 pkt 0)) = 0)%N.
Proof.
  intros L. rewrite lor_zero, !get16_zero. do 12 (destruct pkt as [|? pkt]; [cbn in L; lia|]). cbn [skipn firstn nth repeat]. clear L. split.
  - intros H. injection H as -> -> -> -> -> -> -> ->. auto 10.
  - intros ((-> & ->) & (-> & ->) & (-> & ->) & -> & ->). reflexivity.
Qed.
Lemma id_zero pkt : 2 <= length pkt -> (firstn 2 pkt = [0; 0] <-> get16 (nth 0 pkt 0) (nth 1 pkt 0) = 0)%N.
Proof.
  intros L. rewrite get16_zero. destruct pkt as [|a [|b r]]; cbn in L; try lia. cbn [firstn nth]. split; [intros E; injection E; auto|intros [-> ->]; reflexivity].
Qed.
Lemma skipn_nths (l : bytes) i : i + 4 <= length l ->
  skipn i l = nth i l 0%N :: nth (i + 1) l 0%N :: nth (i + 2) l 0%N :: nth (i + 3) l 0%N :: skipn (i + 4) l.
Proof.
  intros L. destruct (split4 (skipn i l)) as (a & b & c & d & r & E); [rewrite skipn_length; lia|].
  assert (N0 : forall k, nth (i + k) l 0%N = nth k (skipn i l) 0%N).
  { intros k. rewrite <- (firstn_skipn i l) at 1. rewrite app_nth2; rewrite firstn_length, Nat.min_l by lia; [|lia]. f_equal. lia. }
  rewrite <- (Nat.add_0_r i) at 2. rewrite !N0. replace (i + 4) with (4 + i) by lia. rewrite <- skipn_skipn_plus, E. reflexivity.
Qed.

Section Dso.
  Variable cfg : pcfg.
  Variable dso : bool.
  Variable pkt : bytes.
  Hypothesis HB : all_bytes pkt.
  Hypothesis L12 : 12 <= length pkt.

  (** a request the server takes: an ID, and items of which the first is not
      one it knows to be wrong there *)
  Definition dso_good (t : N) (d : bytes) (xs : list (N * list N)) : Prop :=
    Forall opt_ok ((t, d) :: xs) /\ skipn 12 pkt = tlvs_wire ((t, d) :: xs) /\ firstn 2 pkt <> [0; 0]%N /\
    t <> 2%N /\ t <> 3%N /\ (t = 1%N -> length d = 8).
  Definition counts_zero : Prop := firstn 8 (skipn 4 pkt) = repeat 0%N 8.
  Definition ka_msg : bytes := dso_msg pkt 0 (opt_wire (1%N, [255; 255; 255; 255]%N ++ be32 (c_inactivity cfg))).

  Lemma handle_dso_ok fl : N.land fl 248 = 176%N ->
    ((c_is_udp cfg = true \/ ~ counts_zero) /\ handle_dso cfg dso fl pkt = Ok (dso, Some (dso_msg pkt 1 []))) \/
    (c_is_udp cfg = false /\ counts_zero /\
     ((exists t d xs, dso_good t d xs /\
        handle_dso cfg dso fl pkt = Ok (if (t =? 1)%N then (true, Some ka_msg) else (dso, Some (dso_msg pkt 11 [])))) \/
      ((forall t d xs, ~ dso_good t d xs) /\ handle_dso cfg dso fl pkt = Ok (dso, None)))).
  Proof.
    intros HFL. unfold handle_dso. rewrite !rd16_nth by (auto; lia). cbn [rbind].
    assert (HD : forall rc, dso_hdr pkt fl rc = dso_msg pkt rc []).
    { intros rc. unfold dso_hdr, dso_msg, header. rewrite HFL, app_nil_r. reflexivity. }
    assert (CZ := counts_zero_iff pkt L12). fold counts_zero in CZ.
    set (cn := N.lor _ _) in *. destruct (c_is_udp cfg) eqn:EU.
    { left. split; [now left|]. cbn [orb]. rewrite HD. reflexivity. }
    cbn [orb]. destruct (N.eqb_spec cn 0) as [Z|NZ]; cbn [negb].
    2:{ left. split; [right; intros Q; apply NZ; now apply CZ|]. rewrite HD. reflexivity. }
    right. split; [reflexivity|]. split; [now apply CZ|].
    assert (IZ := id_zero pkt ltac:(lia)). set (id := get16 (nth 0 pkt 0%N) (nth 1 pkt 0%N)) in *.
    destruct (N.eqb_spec id 0) as [I0|I0].
    { right. split; [|reflexivity]. intros t d xs (_ & _ & NI & _). apply NI. now apply IZ. }
    assert (IN : firstn 2 pkt <> [0; 0]%N) by (intros Q; apply I0; now apply IZ).
    destruct (Nat.ltb_spec (length pkt) 16) as [L16|L16]; cbn [orb].
    { right. split; [|reflexivity]. intros t d xs (_ & E & _). apply (f_equal (@length N)) in E. rewrite skipn_length, tlvs_cons, app_length, opt_wire_len in E. lia. }
    rewrite (rd16_nth pkt 12), (rd16_nth pkt 14) by (auto; lia). cbn [rbind].
    pose proof (skipn_nths pkt 12 ltac:(lia)) as SK. cbn [Nat.add] in SK.
    assert (HBS : all_bytes (skipn 12 pkt)) by (apply Forall_forall; intros z Hz; eapply Forall_forall; [exact HB|]; rewrite <- (firstn_skipn 12 pkt); apply in_or_app; now right).
    destruct (tlv_step _ _ _ _ _ _ HBS SK) as [T1 T2].
    set (ty := get16 (nth 12 pkt 0%N) (nth 13 pkt 0%N)) in *. set (n := N.to_nat (get16 (nth 14 pkt 0%N) (nth 15 pkt 0%N))) in *.
    (* the type of the first item is fixed *)
    assert (TY : forall t d xs, dso_good t d xs -> t = ty /\ length d = n /\ n <= length pkt - 16 /\ skipn (16 + n) pkt = tlvs_wire xs).
    { intros t d xs (HF & E & _). assert (LE : n <= length (skipn 16 pkt)).
      { destruct (Nat.le_gt_cases n (length (skipn 16 pkt))); [assumption|]. exfalso. eapply T2; [eassumption|exact HF|exact E]. }
      destruct (T1 LE) as [Q1 Q2]. rewrite Q1, tlvs_cons in E. inversion HF; subst. apply opt_wire_inj in E; auto. destruct E as [E1 E2].
      rewrite skipn_length in LE. pose proof (f_equal fst E1) as E3. pose proof (f_equal snd E1) as E4. cbn [fst snd] in E3, E4. clear E1. split; [symmetry; exact E3|]. split; [rewrite <- E4, firstn_length, skipn_length; lia|]. split; [assumption|].
      rewrite skipn_skipn_plus in E2. rewrite Nat.add_comm. exact E2. }
    destruct (N.eqb_spec ty 2) as [T|NT2]; cbn [orb].
    { right. split; [|reflexivity]. intros t d xs G. destruct (TY _ _ _ G) as (-> & _). destruct G as (_ & _ & _ & Q & _). congruence. }
    destruct (N.eqb_spec ty 3) as [T|NT3].
    { right. split; [|reflexivity]. intros t d xs G. destruct (TY _ _ _ G) as (-> & _). destruct G as (_ & _ & _ & _ & Q & _). congruence. }
    destruct (dso_tlvs_ok pkt HB (S (length pkt)) (16 + n)) as (e & E1 & E2); [lia|]. rewrite E1. cbn [rbind].
    destruct (Nat.eqb_spec e (length pkt)) as [EE|NE]; cbn [negb].
    2:{ right. split; [|reflexivity]. intros t d xs G. destruct (TY _ _ _ G) as (_ & _ & LN & E3). apply NE, E2. split; [lia|]. exists xs.
        split; [destruct G as (HF & _); now apply Forall_inv_tail in HF|exact E3]. }
    apply E2 in EE. destruct EE as (LN & xs & HX & EX).
    destruct T1 as [Q1 Q2]; [rewrite skipn_length; lia|].
    assert (G : (ty = 1%N -> n = 8) -> dso_good ty (firstn n (skipn 16 pkt)) xs).
    { intros K. split; [now constructor|]. split; [rewrite Q1, tlvs_cons; f_equal; rewrite skipn_skipn_plus, Nat.add_comm; exact EX|].
      split; [exact IN|]. split; [assumption|]. split; [assumption|]. intros Q. rewrite firstn_length, skipn_length, (K Q). rewrite (K Q) in LN. lia. }
    destruct (N.eqb_spec ty 1) as [T|NT1].
    - destruct (N.eqb_spec (get16 (nth 14 pkt 0%N) (nth 15 pkt 0%N)) 8) as [T8|NT8]; cbn [negb].
      + left. exists ty, (firstn n (skipn 16 pkt)), xs. split; [apply G; intros _; unfold n; rewrite T8; reflexivity|]. rewrite T. cbn [N.eqb Pos.eqb].
        rewrite rdn_ok by lia. cbn [rbind]. unfold ka_msg. rewrite HD. unfold dso_msg. rewrite app_nil_r. do 4 f_equal.
        unfold sub. rewrite SK. cbn [firstn]. unfold opt_wire. cbn [fst snd].
        assert (B : forall i, i < length pkt -> (nth i pkt 0 < 256)%N) by (intros i Hi; apply (rd_nth pkt i HB Hi)).
        change (N.of_nat (length ([255; 255; 255; 255]%N ++ be32 (c_inactivity cfg)))) with 8%N.
        rewrite <- T, <- T8. unfold ty. rewrite !be16_get16 by (apply B; lia). reflexivity.
      + right. split; [|reflexivity]. intros t d ys G2. destruct (TY _ _ _ G2) as (-> & LD & _). destruct G2 as (_ & _ & _ & _ & _ & K).
        specialize (K T). apply NT8. unfold n in LD. lia.
    - left. exists ty, (firstn n (skipn 16 pkt)), xs. split; [apply G; congruence|]. apply N.eqb_neq in NT1. rewrite NT1, HD. reflexivity.
  Qed.

  Lemma dso_flags : qr_set pkt = false -> opcode_of pkt = 6%N -> N.land (N.lor (N.land (nth 2 pkt 0%N) 121) 128) 248 = 176%N.
  Proof.
    unfold qr_set, opcode_of. assert (B : (nth 2 pkt 0 < 256)%N) by (apply (rd_nth pkt 2 HB); lia). revert B. generalize (nth 2 pkt 0%N). intros b B.
    pose proof (small_byte_check (fun b => N.testbit b 7 || negb (b / 8 mod 16 =? 6) || (N.land (N.lor (N.land b 121) 128) 248 =? 176))%N eq_refl b B) as H. cbv beta in H.
    intros Q O. rewrite Q, O in H. cbn [orb negb N.eqb Pos.eqb] in H. now apply N.eqb_eq.
  Qed.

  Lemma padding_ok fl : (c_tcp_pad cfg = true -> c_is_udp cfg = false) -> N.land fl 248 = 176%N ->
    handle_dso_with_padding cfg dso fl pkt =
      match handle_dso cfg dso fl pkt with Ok (st, Some m) => Ok (st, Some (dso_padded cfg m)) | r => r end.
  Proof.
    intros HP HFL. unfold handle_dso_with_padding.
    assert (K : exists st r, handle_dso cfg dso fl pkt = Ok (st, r) /\ forall m, r = Some m -> 12 <= length m <= 24).
    { destruct (handle_dso_ok fl HFL) as [[_ ->]|(_ & _ & [(t & d & xs & _ & ->)|[_ ->]])].
      - do 2 eexists. split; [reflexivity|]. intros m E. injection E as <-. unfold dso_msg. rewrite app_nil_r, header_len; [lia|]. rewrite firstn_length. lia.
      - destruct (t =? 1)%N; do 2 eexists; (split; [reflexivity|]); intros m E; injection E as <-.
        + unfold ka_msg, dso_msg. rewrite app_length, header_len, opt_wire_len; [cbn; lia|]. rewrite firstn_length. lia.
        + unfold dso_msg. rewrite app_nil_r, header_len; [lia|]. rewrite firstn_length. lia.
      - do 2 eexists. split; [reflexivity|discriminate]. }
    destruct K as (st & r & -> & K). cbn [rbind]. destruct r as [m|]; [|reflexivity]. specialize (K m eq_refl).
    assert (L464 : Nat.leb (length m) 464 = true) by (apply Nat.leb_le; lia). rewrite L464. cbn [rassert]. unfold dso_padded.
    destruct (c_tcp_pad cfg) eqn:EP; [|now rewrite app_nil_r]. rewrite HP by reflexivity. cbn [negb rassert].
    assert (L2 : Nat.leb 12 (length m) = true) by (apply Nat.leb_le; lia). rewrite L2. cbn [rassert].
    replace (468 - length m - 4) with (464 - length m) by lia.
    assert (L3 : Nat.eqb (length (m ++ be16 3 ++ be16 (N.of_nat (464 - length m)) ++ repeat 0%N (464 - length m))) 468 = true).
    { apply Nat.eqb_eq. rewrite !app_length, !be16_len, repeat_length. lia. }
    rewrite L3. cbn [rassert]. unfold opt_wire. cbn [fst snd]. rewrite repeat_length. reflexivity.
  Qed.
End Dso.

(** ** Echo of the client subnet *)
Lemma ecs_addr_result e f s addr : ((f = 1 /\ s <= 32) \/ (f = 2 /\ s <= 128))%N -> length addr = (N.to_nat s + 7) / 8 ->
  ecs_addr (ecs_result e f s addr) = addr.
Proof.
  intros F L. unfold ecs_addr, ecs_result, set_ecs. cbn [e_ecs_mask e_ecs_family e_v4 e_v6]. rewrite <- L.
  destruct (N.eqb_spec s 0) as [->|NZ].
  { change (length addr = 0) in L. rewrite L. cbn [firstn]. destruct addr; [reflexivity|discriminate L]. }
  cbn [orb]. assert (P : forall b, firstn (length addr) (put b addr) = addr) by (intros b; unfold put; rewrite firstn_app, firstn_all, Nat.sub_diag; cbn [firstn]; apply app_nil_r).
  destruct F as [[-> _]|[-> _]]; cbn [N.eqb Pos.eqb negb]; apply P.
Qed.

Definition same_ecs (e e' : edns) : Prop :=
  e_respond_ecs e' = e_respond_ecs e /\ e_ecs_family e' = e_ecs_family e /\ e_ecs_mask e' = e_ecs_mask e /\ ecs_addr e' = ecs_addr e.
Lemma opt_other cfg ckp dso e o rv e' : opt_rel cfg ckp dso e o rv e' -> fst o <> 8%N -> same_ecs e e'.
Proof. inversion 1; subst; intros N8; cbn [fst] in N8; try congruence; repeat split. Qed.
Lemma opts_other cfg ckp dso e os rv e' : opts_list cfg ckp dso e os rv e' -> Forall (fun x => fst x <> 8%N) os -> same_ecs e e'.
Proof.
  induction 1 as [e|e o os rv e1 e2 OR ORS IH|e o os rv e1 OR NE]; intros HF; [repeat split| |].
  - inversion HF; subst. destruct (opt_other _ _ _ _ _ _ _ OR) as (A1 & A2 & A3 & A4); [assumption|]. destruct (IH ltac:(assumption)) as (B1 & B2 & B3 & B4).
    unfold same_ecs. rewrite B1, B2, B3, B4. auto.
  - inversion HF; subst. eapply opt_other; eauto.
Qed.
Lemma ecs_fields_fun opt f s a f' s' a' : ecs_fields opt f s a -> ecs_fields opt f' s' a' -> f = f' /\ s = s' /\ a = a'.
Proof.
  intros (E & F & _) (E' & F' & _). rewrite E in E'. unfold be16 in E'. cbn [app] in E'. injection E' as A1 A2 <- <-.
  assert (f < 65536)%N by (destruct F as [[-> _]|[-> _]]; lia). assert (f' < 65536)%N by (destruct F' as [[-> _]|[-> _]]; lia).
  rewrite <- (get16_be16 f), A1, A2, get16_be16 by assumption. auto.
Qed.
Lemma opts_ecs cfg ckp dso e os rv e' opt f s addr : opts_list cfg ckp dso e os rv e' -> rv = DECODE_OK -> c_ecs cfg = true -> once 8 os ->
  In (8%N, opt) os -> ecs_fields opt f s addr ->
  e_respond_ecs e' = true /\ e_ecs_family e' = f /\ e_ecs_mask e' = s /\ ecs_addr e' = addr.
Proof.
  induction 1 as [e|e o os rv e1 e2 OR ORS IH|e o os rv e1 OR NE]; intros RV CE ON HI HF; [destruct HI| |congruence].
  destruct HI as [->|HI].
  - pose proof (once_in _ _ _ ON eq_refl) as NO. destruct (opts_other _ _ _ _ _ _ _ ORS NO) as (B1 & B2 & B3 & B4).
    rewrite B1, B2, B3, B4. inversion OR as [opt' f' s' a' _ HF'| | | | | | | | | | |]; subst; try congruence.
    + destruct (ecs_fields_fun _ _ _ _ _ _ _ HF HF') as (<- & <- & <-). destruct HF as (_ & Q1 & Q2 & _).
      split; [reflexivity|]. split; [reflexivity|]. split; [reflexivity|]. now apply ecs_addr_result.
    + exfalso. match goal with H : ~ In 8%N _ |- _ => apply H end. cbn. auto.
  - apply IH; auto. eapply once_tail; eauto.
Qed.

  Lemma opt_len cfg dso rv t scope m o : good_txn cfg dso t -> opt_is cfg dso rv t scope (m_opt m) -> m_opt m = Some o ->
    length (opts_wire (o_opts o)) <= 54 + length (c_nsid cfg) + (if c_tcp_pad cfg then 472 else 0).
  Proof.
    intros (G1 & _) OI E. unfold opt_is in OI. destruct (e_req (t_edns t)); [|congruence]. destruct OI as (pad & LP & OI).
    rewrite E in OI. injection OI as ->. unfold response_opt. cbn [o_opts]. rewrite opts_wire_app, app_length.
    pose proof (base_opts_max cfg dso (t_edns t) scope G1) as B. pose proof (opt_room_max cfg). destruct (c_tcp_pad cfg); [|cbn; lia].
    rewrite opts_wire_1, opt_wire_len. cbn [snd]. rewrite repeat_length. lia.
  Qed.
  Lemma opt_part_len cfg dso rv t scope m : good_txn cfg dso t -> opt_is cfg dso rv t scope (m_opt m) -> c_tcp_pad cfg = false ->
    length (opt_part m) <= N.to_nat (opt_room cfg).
  Proof.
    intros G OI P. unfold opt_part. destruct (m_opt m) as [o|] eqn:E; [|cbn; lia].
    destruct G as (G1 & _). unfold opt_is in OI. destruct (e_req (t_edns t)); [|discriminate OI]. destruct OI as (pad & LP & OI). injection OI as ->.
    pose proof (base_opts_max cfg dso (t_edns t) scope G1) as B. pose proof (opt_room_max cfg). unfold optrr_wire, response_opt. cbn [o_opts o_size o_ext]. rewrite P, app_nil_r.
    rewrite !app_length. cbn [length be16 be32]. lia.
  Qed.

(** ** What an OPT record says is unique *)
Lemma opt_rel_fun cfg ckp dso e o rv e1 rv' e2 : opt_rel cfg ckp dso e o rv e1 -> opt_rel cfg ckp dso e o rv' e2 -> rv = rv' /\ e1 = e2.
Proof.
  intros A B. inversion A; subst; inversion B; subst; cbn [In] in *; try (split; [reflexivity|reflexivity]); try congruence;
  repeat match goal with
  | H : ecs_fields ?o _ _ _, H' : ecs_fields ?o _ _ _ |- _ => destruct (ecs_fields_fun _ _ _ _ _ _ _ H H') as (<- & <- & <-); auto
  | H : ecs_fields ?o ?a ?b ?c, H' : ~ ecs_ok ?o |- _ => exfalso; apply H'; exists a, b, c; exact H
  end; try tauto; try (exfalso; intuition congruence).
Qed.
Lemma opt_wire_nil o R : opt_wire o ++ R <> [].
Proof. unfold opt_wire, be16. discriminate. Qed.
Lemma opts_rel_fun cfg ckp dso e R rv e1 : opts_rel cfg ckp dso e R rv e1 -> forall rv' e2, opts_rel cfg ckp dso e R rv' e2 -> rv = rv' /\ e1 = e2.
Proof.
  induction 1 as [e|e R HN NO|e o R rv e1 e2 HO OR ORS IH|e o R rv e1 HO OR NE]; intros rv' e2' B.
  - inversion B as [|? ? Q|? o2 R2 ? ? ? ? ? ? EE|? o2 R2 ? ? ? ? ? EE]; subst; auto; try congruence; exfalso; eapply opt_wire_nil; eauto.
  - inversion B as [|? ? Q|? o2 R2 ? ? ? HO2 ? ? EE|? o2 R2 ? ? HO2 ? ? EE]; subst; auto; try congruence; exfalso; eapply NO; eauto.
  - remember (opt_wire o ++ R) as W eqn:EW. inversion B as [|? ? Q NO E1 E2|? o2 R2 ? x1 x2 HO2 OR2 OS2|? o2 R2 ? x1 HO2 OR2 NE2].
    + exfalso. eapply (opt_wire_nil o R). congruence.
    + exfalso. subst. eapply NO; [exact HO|reflexivity].
    + assert (EE : opt_wire o ++ R = opt_wire o2 ++ R2) by congruence. apply opt_wire_inj in EE; auto. destruct EE as [-> ->]. subst.
      destruct (opt_rel_fun _ _ _ _ _ _ _ _ _ OR OR2) as [_ <-]. apply IH. exact OS2.
    + assert (EE : opt_wire o ++ R = opt_wire o2 ++ R2) by congruence. apply opt_wire_inj in EE; auto. destruct EE as [-> ->]. subst.
      destruct (opt_rel_fun _ _ _ _ _ _ _ _ _ OR OR2) as [EQ _]. congruence.
  - remember (opt_wire o ++ R) as W eqn:EW. inversion B as [|? ? Q NO E1 E2|? o2 R2 ? x1 x2 HO2 OR2 OS2|? o2 R2 ? x1 HO2 OR2 NE2].
    + exfalso. eapply (opt_wire_nil o R). congruence.
    + exfalso. subst. eapply NO; [exact HO|reflexivity].
    + assert (EE : opt_wire o ++ R = opt_wire o2 ++ R2) by congruence. apply opt_wire_inj in EE; auto. destruct EE as [-> ->]. subst.
      destruct (opt_rel_fun _ _ _ _ _ _ _ _ _ OR OR2) as [EQ _]. congruence.
    + assert (EE : opt_wire o ++ R = opt_wire o2 ++ R2) by congruence. apply opt_wire_inj in EE; auto. destruct EE as [-> ->]. subst.
      exact (opt_rel_fun _ _ _ _ _ _ _ _ _ OR OR2).
Qed.
Lemma optrr_fun cfg ckp dso t a b c d rv t1 rv' t2 : optrr_rel cfg ckp dso t a b c d rv t1 -> optrr_rel cfg ckp dso t a b c d rv' t2 -> rv = rv' /\ t1 = t2.
Proof.
  intros A B. inversion A as [NV|EV SH|rv1 e' EV LE OS]; subst; inversion B as [NV'|EV' SH'|rv1' e'' EV' LE' OS']; subst; auto; try congruence; try lia.
  destruct (opts_rel_fun _ _ _ _ _ _ _ OS _ _ OS') as [-> ->]. auto.
Qed.

Section Uniform.
  Variable cfg : pcfg.
  Variable chaos : bytes.
  Variable ckp : bytes -> bool * bytes.
  Variable draws : nat -> nat -> list nat.
  Variable dyn : edns -> N -> dynres.
  Variable chals : name -> list (N * bytes).
  Variable root : node.
  Hypothesis WS : wf_server cfg chaos ckp draws dyn chals root.
  Notation process := (process_dns_query cfg chaos ckp draws dyn chals true root 1).
  Variables (dso : bool) (pkt : bytes).
  Hypothesis HB : all_bytes pkt.
  Hypothesis HLEN : length pkt <= 1024.

  Lemma process_drop : length pkt < 12 \/ qr_set pkt = true -> process dso pkt = Ok (dso, None).
  Proof.
    intros H. destruct (decode_query_ok cfg ckp (ws_cookie _ _ _ _ _ _ _ WS) dso pkt HB) as (rv & t & off & ED & D).
    unfold process_dns_query. apply Nat.leb_le in HLEN. rewrite HLEN. cbn [rassert]. rewrite ED. cbn [rbind].
    destruct D as [(_ & -> & _)|(L12 & HQ & _)]; [reflexivity|]. exfalso. destruct H; [lia|congruence].
  Qed.

  Lemma verdict_dso t : opcode_verdict cfg pkt t = DECODE_DSO -> c_disable_dso cfg = false.
  Proof.
    unfold opcode_verdict. destruct (c_disable_dso cfg); [|reflexivity]. rewrite andb_false_r.
    repeat match goal with |- context [if ?c then _ else _] => destruct c end; discriminate.
  Qed.

  (** DSO decisions come without the assumptions on OPT records *)
  Lemma dso_ok t off : decode_query cfg ckp dso pkt (txn_init cfg) = Ok (DECODE_DSO, t, off) ->
    qr_set pkt = false /\ opcode_of pkt = 6%N /\ 12 <= length pkt /\ c_disable_dso cfg = false /\
    process dso pkt = handle_dso_with_padding cfg dso (N.lor (N.land (nth 2 pkt 0%N) 121) 128) pkt.
  Proof.
    intros ED. destruct (decode_query_ok cfg ckp (ws_cookie _ _ _ _ _ _ _ WS) dso pkt HB) as (rv & t' & off' & ED' & D).
    rewrite ED in ED'. injection ED' as <- <- <-.
    destruct D as [(_ & D & _)|(L12 & HQ & HO & D)]; [discriminate D|].
    assert (OV : opcode_verdict cfg pkt t = DECODE_DSO).
    { destruct D as [(_ & D & _)|(q & rv1 & _ & OE & [[D NO]|[_ [D|D]]])]; try discriminate D; [|symmetry; exact D].
      subst rv1. apply opt_effect_rv in OE. destruct OE as [D|[D|[D|(D & _)]]]; discriminate D. }
    split; [exact HQ|]. split.
    { unfold opcode_verdict in OV. destruct (opcode_of pkt =? 0)%N.
      - repeat match type of OV with context [if ?c then _ else _] => destruct c end; discriminate OV.
      - destruct (N.eqb_spec (opcode_of pkt) 6); [assumption|discriminate OV]. }
    split; [exact L12|]. split; [eapply verdict_dso; exact OV|].
    unfold process_dns_query. apply Nat.leb_le in HLEN. rewrite HLEN. cbn [rassert]. rewrite ED. cbn [rbind].
    destruct (rd_nth pkt 2 HB) as [R2 _]; [lia|]. rewrite R2. reflexivity.
  Qed.

  Lemma dso_state st r : process dso pkt = Ok (st, r) -> st <> dso -> exists t off, decode_query cfg ckp dso pkt (txn_init cfg) = Ok (DECODE_DSO, t, off).
  Proof.
    intros E N0. destruct (decode_query_ok cfg ckp (ws_cookie _ _ _ _ _ _ _ WS) dso pkt HB) as (rv & t & off & ED & _).
    unfold process_dns_query in E. apply Nat.leb_le in HLEN. rewrite HLEN in E. cbn [rassert] in E. rewrite ED in E. cbn [rbind] in E.
    destruct rv; [injection E as <- _; congruence| | | | |exists t, off; exact ED]; exfalso;
    (destruct (rd pkt 2); [|discriminate E]; cbn [rbind] in E;
     repeat (match type of E with
       | rbind ?x _ = _ => destruct x as [?|]; [|discriminate E]
       | (let '(_, _) := ?x in _) = _ => destruct x
       | context [let '(_, _) := ?x in _] => destruct x
       end; cbn [rbind] in E);
     cbv zeta in E; match type of E with rassert ?c _ = _ => destruct c; [|discriminate E] end; cbn [rassert] in E; injection E as <- _; congruence).
  Qed.

  Hypothesis HT : tame cfg dso pkt.
  Hypothesis HF : fits cfg dyn chals root pkt.

  Lemma process_ok : exists rv t off, decode_query cfg ckp dso pkt (txn_init cfg) = Ok (rv, t, off) /\
      match rv with
      | DECODE_IGNORE => process dso pkt = Ok (dso, None)
      | DECODE_DSO => qr_set pkt = false /\ opcode_of pkt = 6%N /\ 12 <= length pkt /\
          process dso pkt = handle_dso_with_padding cfg dso (N.lor (N.land (nth 2 pkt 0%N) 121) 128) pkt
      | _ => exists q m scope, qr_set pkt = false /\ 12 <= off <= length pkt /\
          (first_question pkt q off \/ q = None /\ off = 12 /\ rv = DECODE_FORMERR) /\ t_qdcount t = (match q with Some _ => 1 | None => 0 end)%N /\
          asks t q /\
          good_txn cfg dso t /\
          process dso pkt = Ok (dso, Some (msg pkt off (t_qdcount t) m)) /\
          opt_is cfg dso rv t scope (m_opt m) /\ content cfg chaos dyn chals root pkt off rv t q m /\
          (N.of_nat (length (msg pkt off (t_qdcount t) m)) <= 16382)%N /\
          (c_tcp_pad cfg = true -> m_opt m <> None -> (N.of_nat (length (msg pkt off (t_qdcount t) m)) mod 468 = 0)%N)
      end.
  Proof.
    destruct WS as [W1 W2 W3 W4 (fx & d & LF & LD & EC) W6 W7 W8 W9].
    apply response_ok; auto. rewrite EC, !app_length, LF, be16_len. cbn [length]. lia.
  Qed.

  (** an answer that is not a DSO one *)
  Lemma process_msg st r : process dso pkt = Ok (st, Some r) -> (opcode_of pkt = 6%N -> c_disable_dso cfg = true) ->
    exists rv t off q m scope, decode_query cfg ckp dso pkt (txn_init cfg) = Ok (rv, t, off) /\ st = dso /\ r = msg pkt off (t_qdcount t) m /\
      qr_set pkt = false /\ 12 <= off <= length pkt /\
      (first_question pkt q off \/ q = None /\ off = 12 /\ rv = DECODE_FORMERR) /\ t_qdcount t = (match q with Some _ => 1 | None => 0 end)%N /\
      asks t q /\ good_txn cfg dso t /\
      opt_is cfg dso rv t scope (m_opt m) /\ content cfg chaos dyn chals root pkt off rv t q m /\
      (N.of_nat (length r) <= 16382)%N /\ (c_tcp_pad cfg = true -> m_opt m <> None -> (N.of_nat (length r) mod 468 = 0)%N).
  Proof.
    intros E ND. destruct process_ok as (rv & t & off & ED & D). exists rv, t, off.
    assert (K : forall P, (exists q m scope, qr_set pkt = false /\ 12 <= off <= length pkt /\
          (first_question pkt q off \/ q = None /\ off = 12 /\ rv = DECODE_FORMERR) /\ t_qdcount t = (match q with Some _ => 1 | None => 0 end)%N /\
          asks t q /\
          good_txn cfg dso t /\
          process dso pkt = Ok (dso, Some (msg pkt off (t_qdcount t) m)) /\
          opt_is cfg dso rv t scope (m_opt m) /\ content cfg chaos dyn chals root pkt off rv t q m /\
          (N.of_nat (length (msg pkt off (t_qdcount t) m)) <= 16382)%N /\ P (msg pkt off (t_qdcount t) m) m) ->
      exists q m scope, decode_query cfg ckp dso pkt (txn_init cfg) = Ok (rv, t, off) /\ st = dso /\ r = msg pkt off (t_qdcount t) m /\
      qr_set pkt = false /\ 12 <= off <= length pkt /\
      (first_question pkt q off \/ q = None /\ off = 12 /\ rv = DECODE_FORMERR) /\ t_qdcount t = (match q with Some _ => 1 | None => 0 end)%N /\
      asks t q /\ good_txn cfg dso t /\
      opt_is cfg dso rv t scope (m_opt m) /\ content cfg chaos dyn chals root pkt off rv t q m /\
      (N.of_nat (length r) <= 16382)%N /\ P r m).
    { intros P (q & m & scope & D1 & D2 & D3 & D4 & D5 & D6 & D7 & D8 & D9 & D10 & D11). rewrite E in D7. injection D7 as E1 E2.
      exists q, m, scope. rewrite E2. split; [exact ED|]. split; [exact E1|]. split; [reflexivity|]. repeat (split; [assumption|]). assumption. }
    destruct rv.
    1: rewrite E in D; discriminate D.
    5:{ exfalso. destruct (dso_ok t off ED) as (_ & O6 & _ & CD & _). specialize (ND O6). congruence. }
    all: apply (K (fun r m => c_tcp_pad cfg = true -> m_opt m <> None -> (N.of_nat (length r) mod 468 = 0)%N)) in D; exact D.
  Qed.

End Uniform.
