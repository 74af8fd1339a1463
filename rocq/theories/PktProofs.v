From Verif Require Import Base DnameModel DnameSpec DnameProofs PktModel PktSpec.
Ltac Zify.zify_post_hook ::= idtac.

(** ** Reading helpers *)
Lemma rd16_ok pkt off : S off < length pkt -> exists v, rd16 pkt off = Ok v /\ (all_bytes pkt -> v < 65536)%N.
Proof.
  intros H. unfold rd16.
  destruct (nth_some pkt off) as [a Ea]; [lia|]. destruct (nth_some pkt (S off)) as [b Eb]; [lia|].
  rewrite (rd_some _ _ _ Ea), (rd_some _ _ _ Eb). cbn [rbind]. eexists; split; [reflexivity|].
  intros HB. unfold all_bytes in HB. rewrite Forall_forall in HB.
  apply nth_error_In in Ea, Eb. apply HB in Ea, Eb. unfold is_byte, get16 in *. lia.
Qed.
Lemma rd32_ok pkt off : off + 3 < length pkt -> exists v, rd32 pkt off = Ok v.
Proof.
  intros H. unfold rd32.
  destruct (nth_some pkt off) as [a Ea]; [lia|]. destruct (nth_some pkt (off + 1)) as [b Eb]; [lia|].
  destruct (nth_some pkt (off + 2)) as [c Ec]; [lia|]. destruct (nth_some pkt (off + 3)) as [d Ed]; [lia|].
  rewrite (rd_some _ _ _ Ea), (rd_some _ _ _ Eb), (rd_some _ _ _ Ec), (rd_some _ _ _ Ed). cbn [rbind]. eauto.
Qed.
Lemma rd_byte pkt i : all_bytes pkt -> i < length pkt -> exists v, rd pkt i = Ok v /\ (v < 256)%N /\ nth_error pkt i = Some v.
Proof.
  intros HB H. destruct (nth_some pkt i H) as [x Hx]. exists x. split; [apply rd_some; auto|]. split; [|assumption].
  unfold all_bytes in HB. rewrite Forall_forall in HB. apply nth_error_In in Hx. apply HB in Hx. exact Hx.
Qed.
Lemma rd_plus {A} (p l : list A) i : rd (p ++ l) (length p + i) = rd l i.
Proof. apply rd_app_r. Qed.
Lemma rd16_plus p l i : rd16 (p ++ l) (length p + i) = rd16 l i.
Proof. unfold rd16. rewrite rd_plus. replace (S (length p + i)) with (length p + S i) by lia. now rewrite rd_plus. Qed.
Lemma rd16_at p l : rd16 (p ++ l) (length p) = rd16 l 0.
Proof. rewrite <- (rd16_plus p l 0). now rewrite Nat.add_0_r. Qed.
Lemma rd_at {A} (p l : list A) : rd (p ++ l) (length p) = rd l 0.
Proof. rewrite <- (rd_plus p l 0). now rewrite Nat.add_0_r. Qed.
Lemma rd32_plus p l i : rd32 (p ++ l) (length p + i) = rd32 l i.
Proof. unfold rd32. rewrite <- !Nat.add_assoc, !rd_plus. reflexivity. Qed.
Lemma rdn_plus {A} (p l : list A) i n : rdn (p ++ l) (length p + i) n = rdn l i n.
Proof.
  unfold rdn. rewrite app_length. destruct (Nat.leb_spec (i + n) (length l)).
  - destruct (Nat.leb_spec (length p + i + n) (length p + length l)); [|lia].
    rewrite skipn_app, skipn_all2 by lia. cbn [app]. now replace (length p + i - length p) with i by lia.
  - destruct (Nat.leb_spec (length p + i + n) (length p + length l)); [lia|]. reflexivity.
Qed.

(** ** Client subnet *)
Ltac Zify.zify_post_hook ::= Z.div_mod_to_equations.
Lemma shiftr3 n : N.shiftr n 3 = (n / 8)%N.
Proof. now rewrite N.shiftr_div_pow2. Qed.
Lemma land7 n : N.land n 7 = (n mod 8)%N.
Proof. change 7%N with (N.ones 3). now rewrite N.land_ones. Qed.
Lemma addr_bytes_eq n : N.to_nat (N.shiftr n 3 + (if (N.land n 7 =? 0)%N then 0 else 1)) = (N.to_nat n + 7) / 8.
Proof. rewrite shiftr3, land7. destruct (N.eqb_spec (n mod 8) 0); lia. Qed.

Lemma land_ones_zero b k : (N.land b (N.ones k) = 0 <-> forall j, j < k -> N.testbit b j = false)%N.
Proof.
  split.
  - intros H j Hj. assert (N.testbit (N.land b (N.ones k)) j = false) by (rewrite H; apply N.bits_0).
    rewrite N.land_spec, N.ones_spec_low in H0 by assumption. now rewrite andb_true_r in H0.
  - intros H. apply N.bits_inj. intros j. rewrite N.land_spec, N.bits_0.
    destruct (N.lt_ge_cases j k).
    + now rewrite H.
    + rewrite N.ones_spec_high by assumption. apply andb_false_r.
Qed.
Lemma final_mask_ones t : (t < 8 -> t <> 0 ->
  N.land (N.lxor 4294967295 (N.shiftl 255 (8 - t))) 255 = N.ones (8 - t))%N.
Proof.
  intros H H0.
  assert (t = 1 \/ t = 2 \/ t = 3 \/ t = 4 \/ t = 5 \/ t = 6 \/ t = 7)%N as Q by lia.
  destruct Q as [->|[->|[->|[->|[->|[->| ->]]]]]]; vm_compute; reflexivity.
Qed.

(** bits beyond [src] of an address of minimal length, seen on its last byte *)
Lemma tail_bits addr src : length addr = (N.to_nat src + 7) / 8 ->
  ((forall i, N.to_nat src <= i < 8 * length addr -> addr_bit addr i = false) <->
   ((src mod 8)%N = 0%N \/ forall j, (j < 8 - src mod 8)%N -> N.testbit (nth (N.to_nat (src / 8)) addr 0%N) j = false)).
Proof.
  intros Hl. split.
  - intros H. destruct (N.eq_dec (src mod 8) 0) as [E|E]; [now left|right].
    intros j Hj. set (i := 8 * N.to_nat (src / 8) + (7 - N.to_nat j)).
    assert (Q : addr_bit addr i = false) by (apply H; unfold i; lia).
    unfold addr_bit in Q. replace (i / 8) with (N.to_nat (src / 8)) in Q by (unfold i; lia).
    replace (N.of_nat (7 - i mod 8)) with j in Q by (unfold i; lia). exact Q.
  - intros [E|H] i Hi; [lia|].
    unfold addr_bit. replace (i / 8) with (N.to_nat (src / 8)) by lia. apply H. lia.
Qed.
Ltac Zify.zify_post_hook ::= idtac.

Definition ewf (e : edns) : Prop := length (e_v4 e) = 4 /\ length (e_v6 e) = 16 /\ length (e_ck_output e) = 16.
Lemma put_length buf data : length data <= length buf -> length (put buf data) = length buf.
Proof. intros. unfold put. rewrite app_length, skipn_length. lia. Qed.
Lemma wr0 buf data : length data <= length buf -> wr buf 0 data = Ok (put buf data).
Proof. intros. rewrite wr_ok by lia. reflexivity. Qed.

Lemma be16_eq v (a b : N) : (a < 256)%N -> (b < 256)%N -> v = get16 a b -> be16 v = [a; b].
Proof.
  intros Ha Hb ->. unfold be16, get16.
  replace ((a * 256 + b) / 256)%N with a by (apply (N.div_unique _ _ _ b); lia).
  rewrite (N.mod_small a) by lia. f_equal. f_equal. symmetry. apply (N.mod_unique _ _ a); lia.
Qed.

Lemma ecs_spec pre opt rest e :
  all_bytes opt -> ewf e ->
  let r := handle_edns_client_subnet (pre ++ opt ++ rest) e (length opt) (length pre) in
  (exists family src addr, ecs_fields opt family src addr /\ r = Ok (DECODE_OK, ecs_result e family src addr)) \/
  (~ ecs_ok opt /\ r = Ok (DECODE_FORMERR, e)).
Proof.
  intros HB (W4 & W6 & _) r. subst r. unfold handle_edns_client_subnet.
  destruct (Nat.ltb_spec (length opt) 4) as [L|L].
  { right. split; [|reflexivity]. intros (f & s & ad & -> & _). cbn in L. lia. }
  destruct opt as [|f0 [|f1 [|src [|scope addr]]]]; cbn in L; try lia.
  rewrite rd16_at.
  rewrite !rd_plus. cbn [app].
  replace (rd16 (f0 :: f1 :: src :: scope :: addr ++ rest) 0) with (Ok (get16 f0 f1)) by reflexivity.
  replace (rd (f0 :: f1 :: src :: scope :: addr ++ rest) 2) with (Ok src) by reflexivity.
  replace (rd (f0 :: f1 :: src :: scope :: addr ++ rest) 3) with (Ok scope) by reflexivity.
  cbn [rbind].
  inversion HB as [|? ? B0 HB1]; subst. inversion HB1 as [|? ? B1 HB2]; subst. unfold is_byte in *.
  assert (Hf : be16 (get16 f0 f1) = [f0; f1]) by (now apply be16_eq).
  set (family := get16 f0 f1) in *.
  assert (HF : forall f s ad, ecs_fields (f0 :: f1 :: src :: scope :: addr) f s ad -> f = family /\ s = src /\ scope = 0%N /\ ad = addr).
  { intros f s ad (E & Hfam & _). unfold be16 in E. cbn [app] in E. injection E as E0 E1 -> -> ->.
    split; [|auto]. assert (f < 65536)%N by (destruct Hfam as [[-> _]|[-> _]]; lia).
    unfold family. rewrite E0, E1. now rewrite get16_be16. }
  assert (NO : forall P : Prop, (forall f s ad, ecs_fields (f0 :: f1 :: src :: scope :: addr) f s ad -> ~ P) -> P ->
               ~ ecs_ok (f0 :: f1 :: src :: scope :: addr)).
  { intros P HP p (f & s & ad & Q). exact (HP _ _ _ Q p). }
  destruct (N.eqb_spec scope 0) as [->|Ns]; cbn [negb].
  2:{ right. split; [|reflexivity]. apply (NO (scope <> 0%N)); [|assumption].
      intros f s ad Q. apply HF in Q. tauto. }
  set (bad := (if (family =? 1)%N then _ else _)).
  assert (Hbad : bad = false <-> ((family = 1 /\ src <= 32) \/ (family = 2 /\ src <= 128))%N).
  { unfold bad. destruct (N.eqb_spec family 1); [|destruct (N.eqb_spec family 2)].
    - destruct (N.ltb_spec 32 src); intuition (try lia; try discriminate).
    - destruct (N.ltb_spec 128 src); intuition (try lia; try discriminate).
    - intuition (try lia; try discriminate). }
  destruct bad eqn:Ebad.
  { right. split; [|reflexivity]. apply (NO (true = true)); [|reflexivity].
    intros f s ad Q. pose proof (HF _ _ _ Q) as (-> & -> & _). destruct Q as (_ & Q & _).
    apply Hbad in Q. discriminate Q. }
  assert (Hfam : ((family = 1 /\ src <= 32) \/ (family = 2 /\ src <= 128))%N) by (now apply Hbad).
  rewrite addr_bytes_eq. cbn [length].
  destruct (Nat.eqb_spec (S (S (S (S (length addr))))) (4 + (N.to_nat src + 7) / 8)) as [El|Nl]; cbn [negb].
  2:{ right. split; [|reflexivity]. apply (NO (true = true)); [|reflexivity].
      intros f s ad Q. pose proof (HF _ _ _ Q) as (-> & -> & _ & ->). destruct Q as (_ & _ & Q & _). lia. }
  assert (El' : length addr = (N.to_nat src + 7) / 8) by lia.
  rewrite land7, shiftr3.
  set (tb := (if (src mod 8 =? 0)%N then Ok false else _)).
  assert (HT : exists b, tb = Ok b /\ (b = false <-> forall i, N.to_nat src <= i < 8 * length addr -> addr_bit addr i = false)).
  { unfold tb. pose proof (tail_bits addr src El') as TB.
    destruct (N.eqb_spec (src mod 8) 0) as [E|E].
    - exists false. split; [reflexivity|]. rewrite TB. tauto.
    - replace (length pre + 4 + N.to_nat (src / 8)) with (length pre + (4 + N.to_nat (src / 8))) by lia.
      rewrite rd_plus.
      assert (Hn : N.to_nat (src / 8) < length addr).
      { rewrite El'. clear -E. pose proof (N.div_mod src 8 ltac:(lia)). pose proof (N.mod_lt src 8 ltac:(lia)).
        apply Nat.div_le_lower_bound; lia. }
      replace (rd (f0 :: f1 :: src :: 0%N :: addr ++ rest) (4 + N.to_nat (src / 8)))
        with (rd (addr ++ rest) (N.to_nat (src / 8))) by reflexivity.
      rewrite rd_app_l by assumption.
      destruct (nth_some _ _ Hn) as [fb Hfb]. rewrite (rd_some _ _ _ Hfb). cbn [rbind].
      rewrite final_mask_ones by (pose proof (N.mod_lt src 8); lia).
      eexists. split; [reflexivity|]. rewrite TB, (nth_error_nth _ _ 0%N Hfb).
      rewrite <- land_ones_zero.
      destruct (N.eqb_spec (N.land fb (N.ones (8 - src mod 8))) 0); cbn [negb]; intuition (try congruence; try discriminate). }
  destruct HT as (b & -> & HTb). cbn [rbind].
  destruct b.
  { right. split; [|reflexivity]. apply (NO (true = true)); [|reflexivity].
    intros f s ad Q. pose proof (HF _ _ _ Q) as (-> & -> & _ & ->). destruct Q as (_ & _ & _ & Q).
    apply HTb in Q. discriminate Q. }
  left. exists family, src, addr. split.
  { split; [|split; [assumption|split; [assumption|now apply HTb]]].
    rewrite Hf. reflexivity. }
  unfold ecs_result. rewrite <- El'.
  destruct (N.eqb_spec src 0) as [Z|NZ]; cbn [rbind orb].
  { reflexivity. }
  rewrite rdn_plus. replace (rdn (f0 :: f1 :: src :: 0%N :: addr ++ rest) 4 (length addr)) with (rdn (addr ++ rest) 0 (length addr)) by reflexivity.
  rewrite rdn_ok by (rewrite app_length; lia). cbn [rbind].
  rewrite sub_app_l, sub_full by lia.
  assert (Hb : (src <= 32)%N -> length addr <= 4).
  { rewrite El'. intros Q. transitivity ((32 + 7) / 8); [apply Nat.div_le_mono; lia|reflexivity]. }
  assert (Hb6 : (src <= 128)%N -> length addr <= 16).
  { rewrite El'. intros Q. transitivity ((128 + 7) / 8); [apply Nat.div_le_mono; lia|]. apply Nat.leb_le. reflexivity. }
  destruct (N.eqb_spec family 1) as [F1|F1]; cbn [negb rbind].
  - rewrite wr0 by (rewrite W4; apply Hb; lia). cbn [rbind]. now rewrite F1.
  - assert (F2 : family = 2%N) by lia. rewrite F2, N.eqb_refl. cbn [rassert].
    rewrite wr0 by (rewrite W6; apply Hb6; lia). reflexivity.
Qed.

(** ** Options *)
Section Opts.
  Variable cfg : pcfg.
  Variable ckp : bytes -> bool * bytes.
  Hypothesis ckp_len : forall d, length (snd (ckp d)) = 16.

  Lemma ecs_result_wf e f s ad : ewf e -> ((f = 1 /\ s <= 32) \/ (f = 2 /\ s <= 128))%N -> length ad = (N.to_nat s + 7) / 8 ->
    ewf (ecs_result e f s ad).
  Proof.
    intros (W4 & W6 & WC) Hf Hl. unfold ecs_result, ewf, set_ecs; cbn.
    assert (Hb : (s <= 32)%N -> length ad <= 4).
    { rewrite Hl. intros Q. transitivity ((32 + 7) / 8); [apply Nat.div_le_mono; lia|reflexivity]. }
    assert (Hb6 : (s <= 128)%N -> length ad <= 16).
    { rewrite Hl. intros Q. transitivity ((128 + 7) / 8); [apply Nat.div_le_mono; lia|]. apply Nat.leb_le. reflexivity. }
    destruct (N.eqb_spec s 0); cbn [orb]; [auto|].
    destruct (N.eqb_spec f 1); cbn [negb]; rewrite ?put_length; auto; try (rewrite ?W4, ?W6; auto).
    - apply Hb; lia.
    - apply Hb6; lia.
  Qed.

  Lemma opt_rel_wf dso e o rv e' : opt_rel cfg ckp dso e o rv e' -> ewf e -> ewf e'.
  Proof.
    intros H W. inversion H; subst; auto.
    - destruct H1 as (_ & Hf & Hl & _). apply ecs_result_wf; auto.
    - destruct W as (? & ? & ?). repeat split; auto. cbn. apply ckp_len.
  Qed.

  Lemma option_ok dso pre opt rest e code : all_bytes opt -> ewf e ->
    exists rv e', handle_edns_option cfg ckp dso (pre ++ opt ++ rest) e code (length opt) (length pre) = Ok (rv, e') /\
                  opt_rel cfg ckp dso e (code, opt) rv e'.
  Proof.
    intros HB W. unfold handle_edns_option, EDNS_ECS, EDNS_NSID, EDNS_KEEPALIVE, EDNS_PADDING, EDNS_COOKIE.
    destruct (N.eqb_spec code 8) as [->|N8].
    { destruct (c_ecs cfg) eqn:E.
      - destruct (ecs_spec pre opt rest e HB W) as [(f & s & ad & Q & R)|(Q & R)]; rewrite R; eauto using opt_rel.
      - eauto using opt_rel. }
    destruct (N.eqb_spec code 3) as [->|N3].
    { destruct opt as [|x opt]; cbn [length Nat.eqb].
      - destruct (c_nsid cfg) eqn:E; do 2 eexists; (split; [reflexivity|]).
        + apply or_nsid_off; auto.
        + rewrite <- E. apply or_nsid. now rewrite E.
      - do 2 eexists; split; [reflexivity|]. apply or_nsid_bad. discriminate. }
    destruct (N.eqb_spec code 11) as [->|N11].
    { do 2 eexists; split; [reflexivity|].
      destruct (c_is_udp cfg) eqn:E; [apply or_keepalive; auto|].
      destruct dso; [apply or_keepalive_dso; auto|apply or_keepalive; auto]. }
    destruct (N.eqb_spec code 12) as [->|N12].
    { do 2 eexists; split; [reflexivity|]. apply or_other. cbn. intuition discriminate. }
    destruct (N.eqb_spec code 10) as [->|N10].
    2:{ do 2 eexists; split; [reflexivity|]. apply or_other. cbn. intuition congruence. }
    destruct (c_disable_cookies cfg) eqn:E1; cbn [negb andb].
    { do 2 eexists; split; [reflexivity|]. apply or_cookie_off; auto. }
    destruct (e_ck_recvd e) eqn:E2; cbn [negb andb].
    { do 2 eexists; split; [reflexivity|]. apply or_cookie_off; auto. }
    unfold handle_edns_cookie.
    destruct (Nat.eqb_spec (length opt) 8); destruct (Nat.ltb_spec (length opt) 16); destruct (Nat.ltb_spec 40 (length opt));
      cbn [negb andb orb]; try lia;
      try (do 2 eexists; split; [reflexivity|]; apply or_cookie_bad; auto; lia).
    all: rewrite <- (Nat.add_0_r (length pre)), rdn_plus, rdn_ok by (rewrite app_length; lia); cbn [rbind];
      rewrite sub_app_l, sub_full by lia; pose proof (ckp_len opt) as CL; destruct (ckp opt) as [v out] eqn:EC; cbn [snd] in CL;
      destruct W as (_ & _ & W); rewrite wr0 by lia; cbn [rbind]; do 2 eexists; (split; [reflexivity|]);
      unfold put; rewrite skipn_all2, app_nil_r by lia;
      replace v with (fst (ckp opt)) by (now rewrite EC); replace out with (snd (ckp opt)) by (now rewrite EC);
      apply or_cookie; auto; lia.
  Qed.

  Lemma opts_rel_wf dso e R rv e' : opts_rel cfg ckp dso e R rv e' -> ewf e -> ewf e'.
  Proof. induction 1; intros W; auto; eauto using opt_rel_wf. Qed.

  Lemma opt_wire_len o : length (opt_wire o) = 4 + length (snd o).
  Proof. reflexivity. Qed.

  Lemma options_ok dso : forall fuel pre R rest e, length R < fuel -> R <> [] -> all_bytes R -> ewf e ->
    exists rv e', handle_edns_options cfg ckp fuel dso (pre ++ R ++ rest) e (length R) (length pre) = Ok (rv, e') /\
                  opts_rel cfg ckp dso e R rv e'.
  Proof.
    induction fuel as [|fuel IH]; intros pre R rest e HF HN HB W; [lia|]. cbn [handle_edns_options].
    destruct (Nat.ltb_spec (length R) 4) as [L|L].
    { do 2 eexists; split; [reflexivity|]. apply os_bad; auto.
      intros o r _ ->. rewrite app_length, opt_wire_len in L. lia. }
    destruct R as [|c0 [|c1 [|l0 [|l1 R]]]]; cbn [length] in L; try lia.
    rewrite rd16_at, rd16_plus. cbn [app].
    replace (rd16 (c0 :: c1 :: l0 :: l1 :: R ++ rest) 0) with (Ok (get16 c0 c1)) by reflexivity.
    replace (rd16 (c0 :: c1 :: l0 :: l1 :: R ++ rest) 2) with (Ok (get16 l0 l1)) by reflexivity.
    cbn [rbind].
    unfold all_bytes in HB.
    repeat match goal with H : Forall is_byte (_ :: _) |- _ => apply Forall_cons_iff in H; destruct H as [? H] end.
    unfold is_byte in *.
    assert (Hc : (get16 c0 c1 < 65536)%N) by (unfold get16; lia).
    assert (Hl : (get16 l0 l1 < 65536)%N) by (unfold get16; lia).
    assert (Ec : be16 (get16 c0 c1) = [c0; c1]) by (apply be16_eq; auto).
    assert (El : be16 (get16 l0 l1) = [l0; l1]) by (apply be16_eq; auto).
    set (code := get16 c0 c1) in *. set (dl := get16 l0 l1) in *.
    cbn [length]. replace (S (S (S (S (length R)))) - 4) with (length R) by lia.
    destruct (Nat.ltb_spec (length R) (N.to_nat dl)) as [L2|L2].
    { do 2 eexists; split; [reflexivity|]. apply os_bad; auto.
      intros [c d] r (Hc' & Hd & _) E. unfold opt_wire in E. cbn [fst snd] in *.
      assert (E2 : [c0; c1; l0; l1] = be16 c ++ be16 (N.of_nat (length d)) /\ R = d ++ r).
      { unfold be16 in *. cbn [app] in E. injection E as -> -> -> -> ->. auto. }
      destruct E2 as [E2 ->]. unfold be16 in E2. cbn [app] in E2. injection E2 as _ _ E3 E4.
      assert (dl = N.of_nat (length d)) by (unfold dl; rewrite E3, E4; now apply get16_be16).
      rewrite app_length in L2. lia. }
    assert (HB' := HB).
    rewrite <- (firstn_skipn (N.to_nat dl) R) in HB'. apply Forall_app in HB'. destruct HB' as [HBd HBr].
    assert (Ldt : length (firstn (N.to_nat dl) R) = N.to_nat dl) by (rewrite firstn_length; lia).
    assert (Lr : length (skipn (N.to_nat dl) R) = length R - N.to_nat dl) by (rewrite skipn_length; lia).
    assert (EW : c0 :: c1 :: l0 :: l1 :: R = opt_wire (code, firstn (N.to_nat dl) R) ++ skipn (N.to_nat dl) R).
    { unfold opt_wire. cbn [fst snd]. rewrite Ldt, N2Nat.id, Ec, El. cbn [app].
      now rewrite firstn_skipn. }
    assert (OK : opt_ok (code, firstn (N.to_nat dl) R)).
    { split; [|split]; cbn [fst snd]; auto. rewrite Ldt. lia. }
    set (dt := firstn (N.to_nat dl) R) in *. set (R' := skipn (N.to_nat dl) R) in *.
    assert (EP : pre ++ c0 :: c1 :: l0 :: l1 :: R ++ rest = (pre ++ [c0; c1; l0; l1]) ++ dt ++ (R' ++ rest)).
    { unfold dt, R'. rewrite <- app_assoc. cbn [app]. now rewrite app_assoc, firstn_skipn. }
    rewrite EP. replace (length pre + 4) with (length (pre ++ [c0; c1; l0; l1])) by (rewrite app_length; reflexivity).
    destruct (option_ok dso (pre ++ [c0; c1; l0; l1]) dt (R' ++ rest) e code HBd W) as (rv & e1 & R1 & O1).
    rewrite Ldt in R1. rewrite R1. cbn [rbind].
    assert (SV : rv <> DECODE_OK -> exists rv0 e', Ok (rv, e1) = Ok (rv0, e') /\ opts_rel cfg ckp dso e (c0 :: c1 :: l0 :: l1 :: R) rv0 e').
    { intros Q. do 2 eexists; split; [reflexivity|]. rewrite EW. apply os_stop; auto. }
    destruct rv; try (apply SV; discriminate). clear SV.
    rewrite <- Lr.
    destruct (Nat.eqb_spec (length R') 0) as [Z|NZ].
    { do 2 eexists; split; [reflexivity|]. rewrite EW. eapply os_next; eauto.
      destruct R'; [apply os_end|discriminate Z]. }
    assert (E3 : (pre ++ [c0; c1; l0; l1]) ++ dt ++ R' ++ rest = (pre ++ [c0; c1; l0; l1] ++ dt) ++ R' ++ rest)
      by (now rewrite !app_assoc).
    rewrite E3.
    replace (length (pre ++ [c0; c1; l0; l1]) + N.to_nat dl) with (length (pre ++ [c0; c1; l0; l1] ++ dt))
      by (rewrite !app_length; cbn [length]; lia).
    destruct (IH (pre ++ [c0; c1; l0; l1] ++ dt) R' rest e1) as (rv & e2 & R2 & O2); auto.
    - cbn [length] in HF. lia.
    - intros E. rewrite E in NZ. now apply NZ.
    - eapply opt_rel_wf; eauto.
    - rewrite R2. do 2 eexists; split; [reflexivity|]. rewrite EW. eapply os_next; eauto.
  Qed.
End Opts.
