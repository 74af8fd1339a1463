From Verif Require Import Base DnameModel DnameSpec DnameProofs DnameProofs2 DnameProps CompModel RespModel RespSpec ChalModel ChalSpec ChalProofs ChalProofs2 ChalProofs3 ChalProofs4 ChalProofs5.
Local Open Scope nat_scope.

Definition put {A} (rv : list A) (off : nat) (l : list A) : list A := firstn off rv ++ l ++ skipn (off + length l) rv.

Lemma wr_put {A} (rv : list A) off l : off + length l <= length rv -> wr rv off l = Ok (put rv off l).
Proof. intros H. now rewrite wr_ok by auto. Qed.
Lemma put_length {A} (rv : list A) off l : off + length l <= length rv -> length (put rv off l) = length rv.
Proof. intros H. unfold put. rewrite !app_length, firstn_length, skipn_length. lia. Qed.
Lemma put_put {A} (rv : list A) off l m : off + length l + length m <= length rv -> put (put rv off l) (off + length l) m = put rv off (l ++ m).
Proof.
  intros H. unfold put. rewrite app_length.
  assert (L1 : length (firstn off rv) = off) by (rewrite firstn_length; lia).
  rewrite firstn_app, L1. replace (off + length l - off) with (length l) by lia.
  rewrite (firstn_all2 (firstn off rv)) by lia. rewrite firstn_app, Nat.sub_diag, firstn_O, app_nil_r, firstn_all.
  rewrite skipn_app, L1. rewrite (skipn_all2 (firstn off rv)) by lia. cbn [app].
  replace (off + length l + length m - off) with (length l + length m) by lia.
  rewrite skipn_app. rewrite (skipn_all2 l) by lia. replace (length l + length m - length l) with (length m) by lia. cbn [app].
  rewrite skipn_skipn_plus. rewrite <- !app_assoc. do 4 f_equal. lia.
Qed.
Lemma put_before {A} (rv : list A) off l m k : k = off + length m -> k + length l <= length rv ->
  put (put rv k l) off m = put rv off (m ++ l).
Proof.
  intros -> H. unfold put. rewrite app_length.
  assert (L1 : length (firstn (off + length m) rv) = off + length m) by (rewrite firstn_length; lia).
  rewrite firstn_app, L1. replace (off - (off + length m)) with 0 by lia. rewrite firstn_O, app_nil_r, firstn_firstn.
  replace (Nat.min off (off + length m)) with off by lia.
  rewrite skipn_app, L1. rewrite (skipn_all2 (firstn (off + length m) rv)) by lia. rewrite Nat.sub_diag. cbn [app skipn].
  rewrite <- app_assoc. do 4 f_equal. lia.
Qed.
Lemma put_firstn {A} (rv : list A) off l : off + length l <= length rv -> firstn (off + length l) (put rv off l) = firstn off rv ++ l.
Proof.
  intros H. unfold put. rewrite app_assoc. assert (L : length (firstn off rv ++ l) = off + length l) by (rewrite app_length, firstn_length; lia).
  rewrite firstn_app, L, Nat.sub_diag, firstn_O, app_nil_r. apply firstn_all2. lia.
Qed.

Lemma geth16_ok p v q : (v < 65536)%N -> geth16 (p ++ h16 v ++ q) (length p) = Ok v.
Proof.
  intros H. unfold geth16, h16. cbn [app]. rewrite (rd_mid p). cbn [rbind].
  replace (S (length p)) with (length (p ++ [(v mod 256)%N])) by (rewrite app_length; cbn; lia).
  replace (p ++ (v mod 256)%N :: (v / 256)%N :: q) with ((p ++ [(v mod 256)%N]) ++ (v / 256)%N :: q) by (rewrite <- app_assoc; reflexivity).
  rewrite rd_mid. cbn [rbind]. f_equal. pose proof (N.div_mod v 256). lia.
Qed.

Lemma enc_is_request cs : Forall ok_chal cs -> request cs (enc cs).
Proof.
  induction 1 as [|c cs [H1 H2] _ IH]; [constructor|]. cbn [enc flat_map]. change (flat_map _ cs) with (enc cs).
  rewrite <- !app_assoc. destruct c as [n t]. cbn [a_name a_text] in *. cbn [app]. constructor; auto.
Qed.

Lemma request_unique cs : forall cs' d, request cs d -> request cs' d -> length cs = length cs' -> cs = cs'.
Proof.
  induction cs as [|c cs IH]; intros [|c' cs'] d H H' L; try discriminate; auto. apply request_inv in H, H'.
  destruct H as (fq & z & d1 & Hn & Ht & Hr & ->), H' as (fq' & z' & d2 & Hn' & Ht' & Hr' & E).
  destruct (dname_split_len _ _ _ _ _ _ Hn Hn' E) as [W E'].
  assert (En : a_name c = a_name c').
  { rewrite !dname_unfold in E. cbn [app] in E. injection E as _ E. rewrite <- !app_assoc in E.
    destruct Hn as [Q1 _], Hn' as [Q2 _]. now destruct (wire_inj _ _ _ _ Q1 Q2 (term_cases _) (term_cases _) _ _ E). }
  apply text_split in E' as [E1 E2]; auto. subst d2. f_equal; [destruct c, c'; cbn in *; congruence|]. eapply IH; eauto.
Qed.

Section Handoff.
  Variable hash : bytes -> N.
  Variable ttl dns_ttl : N.
  Notation mk := (mk hash dns_ttl).
  Notation mkset := (mkset hash dns_ttl).

  Lemma txt_text a : length (a_text a) = 43 -> rdn (c_txt (mk a)) 11 43 = Ok (a_text a).
  Proof.
    intros H. cbn [c_txt ChalProofs.mk]. unfold txt_rr.
    replace ([0; 16; 0; 1]%N ++ be32 dns_ttl ++ [0; 44; 43]%N ++ a_text a) with (([0; 16; 0; 1]%N ++ be32 dns_ttl ++ [0; 44; 43]%N) ++ a_text a ++ [])
      by (now rewrite app_nil_r, <- !app_assoc).
    apply rdn_at; [|exact H]. reflexivity.
  Qed.

  Lemma serialize_ok acs : forall rv off, Forall ok_chal acs -> off + length (enc acs) <= length rv ->
    serialize_chals (map mk acs) rv off = Ok (put rv off (enc acs), off + length (enc acs)).
  Proof.
    induction acs as [|a acs IH]; intros rv off F H; cbn [map serialize_chals].
    - cbn [enc flat_map length]. unfold put. cbn [app length]. rewrite Nat.add_0_r, firstn_skipn. reflexivity.
    - inversion F as [|? ? [Hs Ht] F']; subst. cbn [c_dname ChalProofs.mk].
      cbn [enc flat_map] in H |- *. change (flat_map _ acs) with (enc acs) in *.
      rewrite !app_length, dname_length in H. cbn [length] in H.
      assert (S0 := status_dname (a_name a) true [] Hs). rewrite app_nil_r in S0. rewrite S0. cbn [rbind status_eqb rassert].
      assert (R0 := rd_dname0 (a_name a) true []). rewrite app_nil_r in R0. rewrite R0. cbn [rbind]. rewrite Nat2N.id.
      assert (Rn : rdn (dname (a_name a) true) 0 (wire_len (a_name a) + 1) = Ok (dname (a_name a) true)).
      { rewrite rdn_ok by (rewrite dname_length; lia). f_equal. apply sub_all. rewrite dname_length. lia. }
      rewrite Rn. cbn [rbind]. assert (Ld : length (dname (a_name a) true) = wire_len (a_name a) + 1) by (rewrite dname_length; lia).
      rewrite wr_put by lia. cbn [rbind]. change (c_txt _) with (c_txt (mk a)). rewrite (txt_text a Ht). cbn [rbind]. rewrite <- Ld.
      rewrite wr_put by (rewrite put_length; lia). cbn [rbind]. rewrite put_put by lia.
      rewrite wr_put by (rewrite put_length; rewrite ?app_length; cbn [length]; lia). cbn [rbind].
      replace (off + length (dname (a_name a) true) + 43) with (off + length (dname (a_name a) true ++ a_text a)) by (rewrite app_length; lia).
      rewrite put_put by (rewrite app_length; cbn [length]; lia).
      rewrite IH; [|auto|rewrite put_length; rewrite !app_length; cbn [length]; lia].
      replace (off + length (dname (a_name a) true ++ a_text a) + 1) with (off + length ((dname (a_name a) true ++ a_text a) ++ [0%N])) by (rewrite !app_length; cbn [length]; lia).
      rewrite put_put by (rewrite !app_length; cbn [length]; lia). rewrite <- !app_assoc. f_equal. f_equal.
      rewrite !app_length. lia.
  Qed.

  Definition left_secs (now : Z) (x : aset) : N := Z.to_N (Z.min (Z.of_N ttl) ((a_until x - now) / 1000)).
  Definition chunk (now : Z) (x : aset) : bytes :=
    h16 (N.of_nat (length (enc (a_chals x)))) ++ h16 (left_secs now x) ++ [N.of_nat (length (a_chals x))] ++ enc (a_chals x).

  Lemma chunk_length now x : length (chunk now x) = 5 + length (enc (a_chals x)).
  Proof. unfold chunk, h16. rewrite !app_length. reflexivity. Qed.

  Lemma cset_serialize_ok now x rv base : ok_set x -> (now + 3200 < a_until x)%Z -> (1 <= ttl <= 65535)%N ->
    base + max_serial <= length rv -> cset_serialize ttl now (mkset x) rv base = Ok (put rv base (chunk now x), length (chunk now x)).
  Proof.
    intros (F & L1 & L2 & B) Hn Ht Hl. unfold cset_serialize. cbn [s_chals s_expiry ChalProofs3.mkset]. rewrite map_length.
    assert (Em : max_serial = N.to_nat 28400 + 5) by (unfold max_serial; lia).
    assert (Hp : 1 <= length (enc (a_chals x))).
    { destruct (a_chals x) as [|c cs]; [cbn in L1; lia|]. cbn [enc flat_map]. rewrite !app_length. cbn [length]. lia. }
    replace ((length (a_chals x) <=? 100) && negb (length (a_chals x) =? 0)) with true.
    2: { symmetry. apply andb_true_intro. split; [apply Nat.leb_le; lia|]. apply negb_true_iff. apply Nat.eqb_neq. lia. }
    cbn [rassert]. replace (now <? a_until x)%Z with true by (symmetry; apply Z.ltb_lt; lia).
    replace (ttl <=? 65535)%N with true by (symmetry; apply N.leb_le; lia). cbn [rassert].
    assert (Er : (if (1000 * Z.of_N ttl <? a_until x - now)%Z then ttl else (Z.to_N ((a_until x - now) / 1000) mod 65536)%N) = left_secs now x).
    { unfold left_secs. destruct (1000 * Z.of_N ttl <? a_until x - now)%Z eqn:E.
      - apply Z.ltb_lt in E. assert (Z.of_N ttl <= (a_until x - now) / 1000)%Z by (apply Z.div_le_lower_bound; lia). rewrite Z.min_l by auto. lia.
      - apply Z.ltb_ge in E. assert ((a_until x - now) / 1000 <= Z.of_N ttl)%Z by (apply Z.div_le_upper_bound; lia).
        assert (0 <= (a_until x - now) / 1000)%Z by (apply Z.div_pos; lia).
        rewrite Z.min_r by auto. apply N.mod_small. lia. }
    rewrite Er. set (r := left_secs now x).
    rewrite wr_put by (cbn [length h16]; lia). cbn [rbind].
    assert (Lh : length (h16 r) = 2) by reflexivity.
    replace (base + 4) with (base + 2 + length (h16 r)) by (rewrite Lh; lia).
    assert (Ec : (N.of_nat (length (a_chals x)) mod 256)%N = N.of_nat (length (a_chals x))) by (apply N.mod_small; lia). rewrite Ec.
    rewrite wr_put by (rewrite put_length; cbn [length]; rewrite Lh; lia). cbn [rbind]. rewrite put_put by (cbn [length]; rewrite Lh; lia).
    set (hd := h16 r ++ [N.of_nat (length (a_chals x))]). assert (Lhd : length hd = 3) by reflexivity.
    rewrite serialize_ok; [|auto|rewrite put_length; rewrite ?Lhd; lia]. cbn [rbind].
    replace (base + 5) with (base + 2 + length hd) by (rewrite Lhd; lia). rewrite put_put by (rewrite Lhd; lia).
    replace (base + 2 + length hd + length (enc (a_chals x)) - base) with (5 + length (enc (a_chals x))) by (rewrite Lhd; lia).
    replace ((5 <? 5 + length (enc (a_chals x))) && (5 + length (enc (a_chals x)) <=? max_serial)) with true.
    2: { symmetry. apply andb_true_intro. split; [apply Nat.ltb_lt; lia|apply Nat.leb_le; lia]. }
    cbn [rassert]. replace (5 + length (enc (a_chals x)) - 5) with (length (enc (a_chals x))) by lia.
    replace (N.of_nat (length (enc (a_chals x))) <=? 65535)%N with true by (symmetry; apply N.leb_le; lia). cbn [rassert].
    rewrite wr_put by (rewrite put_length; rewrite ?app_length, ?Lhd; cbn [length h16]; lia). cbn [rbind].
    rewrite put_before with (off := base) (k := base + 2); [|reflexivity|rewrite app_length, Lhd; lia].
    rewrite chunk_length. unfold chunk, hd. fold r. rewrite <- !app_assoc. reflexivity.
  Qed.

  Definition stream (now : Z) (l : list aset) : bytes := concat (map (chunk now) l).

  Lemma csets_serialize_ok now l : (1 <= ttl <= 65535)%N -> forall rv used ct, Forall ok_set l -> used <= length rv ->
    (N.of_nat used + 28405 * N.of_nat (length l) <= 4294967295)%N -> (ct + N.of_nat (length l) < 16777215)%N ->
    exists rv', csets_serialize ttl now (map mkset l) rv used ct
      = Ok (rv', used + length (stream now (handed now l)), (ct + N.of_nat (length (handed now l)))%N) /\
    firstn (used + length (stream now (handed now l))) rv' = firstn used rv ++ stream now (handed now l) /\
    used + length (stream now (handed now l)) <= length rv'.
  Proof.
    intros Ht. induction l as [|x l IH]; intros rv used ct F Hu H1 H2; cbn [map csets_serialize].
    - exists rv. cbn. rewrite Nat.add_0_r, N.add_0_r, app_nil_r. auto.
    - inversion F as [|? ? Hx F']; subst. cbn [s_expiry ChalProofs3.mkset handed filter]. change (filter _ l) with (handed now l).
      cbn [length] in H1, H2.
      destruct (now + 3200 <? a_until x)%Z eqn:E.
      + apply Z.ltb_lt in E.
        replace ((16777215 <=? ct + 1)%N || (4294967295 <? N.of_nat used + 28405)%N) with false.
        2: { symmetry. apply orb_false_intro; [apply N.leb_gt; lia|apply N.ltb_ge; lia]. }
        set (rv1 := if length rv <? used + max_serial then _ else _).
        assert (Hr : used + max_serial <= length rv1 /\ firstn used rv1 = firstn used rv).
        { unfold rv1. destruct (length rv <? used + max_serial) eqn:El.
          - rewrite app_length, repeat_length. split; [lia|]. rewrite firstn_app. replace (used - length rv) with 0 by lia. now rewrite firstn_O, app_nil_r.
          - apply Nat.ltb_ge in El. auto. }
        destruct Hr as [Hr1 Hr2]. assert (Hc : length (chunk now x) <= max_serial).
        { rewrite chunk_length. destruct Hx as (_ & _ & Hx & _). unfold max_serial. lia. }
        rewrite cset_serialize_ok by auto. cbn [rbind].
        destruct (IH (put rv1 used (chunk now x)) (used + length (chunk now x)) (ct + 1)%N F') as (rv' & E' & Ef & El'); try (rewrite ?put_length; unfold max_serial in *; lia).
        clear H1 H2 IH Hx. clearbody rv1. generalize dependent max_serial. intros max_serial Hr1 Hc.
        exists rv'. rewrite E'. cbn [stream map concat length]. unfold stream in *. cbn [map concat]. rewrite app_length.
        replace (used + (length (chunk now x) + length (concat (map (chunk now) (handed now l))))) with (used + length (chunk now x) + length (concat (map (chunk now) (handed now l)))) by lia.
        split; [f_equal; f_equal; lia|]. split; [|exact El'].
        rewrite Ef, put_firstn by lia. rewrite Hr2. now rewrite <- app_assoc.
      + destruct (IH rv used ct F') as (rv' & E' & Ef & El'); auto; try lia. exists rv'. auto.
  Qed.

  (** ** Import *)
  Definition rest (g : gs) (l : list aset) : Prop :=
    sets_at g (oldest g) (map mkset l) /\ Forall ok_set l /\ NoDup (oldest g) /\ good g (oldest g) (cur g) (map mk (all_chals l)).

  Lemma rest_sim g l n : rest g l ->
    sim hash dns_ttl {| st := g; pn := Idle; rds := repeat None n |} {| live := l; due := timer g; busy := false; views := repeat None n |}.
  Proof.
    intros (R1 & R2 & R3 & R4). constructor; cbn; auto; try discriminate.
    intros r. destruct (lt_dec r n).
    - now rewrite !nth_error_repeat by auto.
    - rewrite !(proj2 (nth_error_None _ _)) by (rewrite repeat_length; lia). exact I.
  Qed.

  Lemma rest_g0 : rest g0 [].
  Proof. repeat constructor. Qed.

  (** adding one set while nobody reads *)
  Lemma rest_create g l now tr count data : all_bytes data -> rest g l ->
    exists g' fail, cset_create hash ttl dns_ttl g now tr count data = Ok (g', fail) /\
    (fail = true -> (forall cs, ~ legal_request count data cs) \/ exists cs, legal_request count data cs /\ crowded hash (all_chals l ++ cs)) /\
    (fail = false -> exists cs g2, legal_request count data cs /\ free_tbl g' (cur g) = Ok g2 /\
       rest g2 (l ++ [{| a_until := now + 1000 * Z.of_N (if (tr =? 0)%N || (ttl <? tr)%N then ttl else tr); a_chals := cs |}]) /\
       timer g2 = match oldest g with [] => Some (now + 1000 * Z.of_N ttl)%Z | _ => timer g end).
  Proof.
    intros Hb (R1 & R2 & R3 & R4).
    destruct (create_ok hash ttl dns_ttl g l now tr count data Hb R1 R2) as (g' & fail & E & HF & HT). exists g', fail. split; auto.
    split; [intros H; apply (HF H)|]. intros H. destruct (HT H) as (cs & Hleg & _ & Hx). cbv zeta in Hx.
    set (x := {| a_until := _; a_chals := cs |}) in *. destruct Hx as [(t & Eg & Ht) Hokx].
    assert (Eo : oldest g' = oldest g ++ [length (sets g)]) by now subst g'.
    assert (Ec : cur g' = Some (length (tbls g))) by now subst g'.
    assert (Etm : timer g' = match oldest g with [] => Some (now + 1000 * Z.of_N ttl)%Z | _ => timer g end) by now subst g'.
    assert (Fr : ~ In (length (sets g)) (oldest g)).
    { intros Hi. assert (X := sets_at_ok _ _ _ R1). rewrite Forall_forall in X. destruct (X _ Hi) as [y Ey]. apply get_set_lt in Ey. lia. }
    assert (Rg : rest g' (l ++ [x])).
    { split; [|split; [|split]].
      - rewrite Eo, map_app. apply Forall2_app; [eapply sets_at_mono; [exact R1|]|].
        + intros id s0 _ Hs. subst g'. now apply get_set_ext.
        + constructor; [|constructor]. subst g'. unfold get_set, rd. cbn [sets]. rewrite nth_error_app2, Nat.sub_diag by lia. reflexivity.
      - apply Forall_app. auto.
      - rewrite Eo. now apply NoDup_app_sn.
      - rewrite Ec. exists t. split; [|exact Ht]. subst g'. unfold get_tbl, rd. cbn [tbls]. rewrite nth_error_app2, Nat.sub_diag by lia. reflexivity. }
    exists cs. unfold free_tbl. destruct (cur g) as [i|] eqn:Ei.
    - destruct R4 as (t0 & Et0 & _). assert (Li := get_tbl_lt _ _ _ Et0).
      assert (Et' : get_tbl g' i = Ok t0). { subst g'. unfold get_tbl, rd in *. cbn [tbls]. rewrite nth_error_app1 by auto. exact Et0. }
      rewrite Et'. cbn [rbind]. eexists. split; [exact Hleg|]. split; [reflexivity|]. split; [|exact Etm].
      destruct Rg as (Q1 & Q2 & Q3 & Q4). split; [|split; [|split]]; auto.
      cbn [oldest cur]. eapply good_mono; [exact Q4|auto| |apply incl_refl].
      intros j tj Ej Hj. rewrite get_tbl_upd; auto. intros ->. rewrite Ec in Ej. injection Ej as Ej. lia.
    - exists g'. auto.
  Qed.
End Handoff.

Lemma stream_cons ttl now x l : stream ttl now (x :: l) = chunk ttl now x ++ stream ttl now l.
Proof. reflexivity. Qed.

(** A daemon with options [ttl'] and [dns_ttl'] takes over what one with [ttl] serialized. *)
Lemma import_ok hash ttl ttl' dns_ttl' now now' : (1 <= ttl <= 65535)%N ->
  forall l g lg pre, Forall ok_set l -> Forall (fun x => (now + 3200 < a_until x)%Z) l -> rest hash dns_ttl' g lg ->
  exists r, import hash ttl' dns_ttl' (length l) g now' (pre ++ stream ttl now l) (length pre) = Ok r /\
  match r with
  | None => exists l1 x l2, l = l1 ++ x :: l2 /\ crowded hash (all_chals lg ++ all_chals l1 ++ a_chals x)
  | Some g' => rest hash dns_ttl' g' (lg ++ map (taken ttl ttl' now now') l) /\
      timer g' = match l, oldest g with [], _ | _, _ :: _ => timer g | _, [] => Some (now' + 1000 * Z.of_N ttl')%Z end
  end.
Proof.
  intros Ht. induction l as [|x l IH]; intros g lg pre F U R; cbn [length import].
  - exists (Some g). split; auto. cbn. rewrite app_nil_r. auto.
  - inversion F as [|? ? Hx F']; subst. inversion U as [|? ? Hu U']; subst.
    rewrite stream_cons. set (rest_s := stream ttl now l). rewrite !app_length, chunk_length.
    replace (length pre + (5 + length (enc (a_chals x)) + length rest_s) <? length pre + 5) with false by (symmetry; apply Nat.ltb_ge; lia).
    destruct Hx as (Hx1 & Hx2 & Hx3 & Hx4).
    assert (Hleft : (1 <= left_secs ttl now x <= ttl)%N).
    { unfold left_secs. assert (3 <= (a_until x - now) / 1000)%Z by (apply Z.div_le_lower_bound; lia). lia. }
    assert (E1 : geth16 (pre ++ chunk ttl now x ++ rest_s) (length pre) = Ok (N.of_nat (length (enc (a_chals x))))).
    { unfold chunk. rewrite <- app_assoc. apply geth16_ok. lia. }
    rewrite E1. cbn [rbind].
    assert (E2 : geth16 (pre ++ chunk ttl now x ++ rest_s) (length pre + 2) = Ok (left_secs ttl now x)).
    { unfold chunk. rewrite <- !app_assoc. rewrite app_assoc. replace (length pre + 2) with (length (pre ++ h16 (N.of_nat (length (enc (a_chals x)))))) by (rewrite app_length; reflexivity).
      apply geth16_ok. lia. }
    rewrite E2. cbn [rbind].
    assert (E3 : rd (pre ++ chunk ttl now x ++ rest_s) (length pre + 4) = Ok (N.of_nat (length (a_chals x)))).
    { unfold chunk. rewrite <- !app_assoc. rewrite app_assoc, app_assoc.
      replace (length pre + 4) with (length ((pre ++ h16 (N.of_nat (length (enc (a_chals x))))) ++ h16 (left_secs ttl now x))) by (rewrite !app_length; cbn [length h16]; lia).
      cbn [app]. apply rd_mid. }
    rewrite E3. cbn [rbind]. rewrite !Nat2N.id.
    replace (length pre + (5 + length (enc (a_chals x)) + length rest_s) <? length pre + 5 + length (enc (a_chals x))) with false by (symmetry; apply Nat.ltb_ge; lia).
    assert (E4 : rdn (pre ++ chunk ttl now x ++ rest_s) (length pre + 5) (length (enc (a_chals x))) = Ok (enc (a_chals x))).
    { unfold chunk. rewrite <- !app_assoc.
      replace (pre ++ h16 (N.of_nat (length (enc (a_chals x)))) ++ h16 (left_secs ttl now x) ++ [N.of_nat (length (a_chals x))] ++ enc (a_chals x) ++ rest_s)
        with ((pre ++ h16 (N.of_nat (length (enc (a_chals x)))) ++ h16 (left_secs ttl now x) ++ [N.of_nat (length (a_chals x))]) ++ enc (a_chals x) ++ rest_s)
        by (now rewrite <- !app_assoc).
      apply rdn_at; [rewrite !app_length; cbn [length h16]; lia|reflexivity]. }
    rewrite E4. cbn [rbind].
    destruct (rest_create hash ttl' dns_ttl' g lg now' (left_secs ttl now x) (length (a_chals x)) (enc (a_chals x)) Hx4 R) as (g' & fail & Ec & HF & HT).
    rewrite Ec. cbn [rbind].
    assert (Hreq : request (a_chals x) (enc (a_chals x))) by now apply enc_is_request.
    assert (Huniq : forall cs, legal_request (length (a_chals x)) (enc (a_chals x)) cs -> cs = a_chals x).
    { intros cs (Q1 & Q2 & _). apply request_unique with (enc (a_chals x)); auto. }
    destruct fail.
    + exists None. split; auto. destruct (HF eq_refl) as [Hi|(cs & Hl & Hc)].
      * exfalso. apply (Hi (a_chals x)). unfold legal_request. auto.
      * rewrite (Huniq cs Hl) in Hc. exists [], x, l. split; auto.
    + destruct (HT eq_refl) as (cs & g2 & Hl & Ef & Rg & Etm). rewrite Ef. cbn [rbind]. rewrite (Huniq cs Hl) in Rg.
      assert (Etk : {| a_until := now' + 1000 * Z.of_N (if (left_secs ttl now x =? 0)%N || (ttl' <? left_secs ttl now x)%N then ttl' else left_secs ttl now x);
        a_chals := a_chals x |} = taken ttl ttl' now now' x).
      { unfold taken. f_equal. f_equal. f_equal. rewrite (proj2 (N.eqb_neq _ _)) by lia. cbn [orb].
        assert (El : Z.of_N (left_secs ttl now x) = Z.min (Z.of_N ttl) ((a_until x - now) / 1000)).
        { unfold left_secs in *. lia. }
        rewrite <- El. destruct (ttl' <? left_secs ttl now x)%N eqn:El2; [apply N.ltb_lt in El2|apply N.ltb_ge in El2]; lia. }
      rewrite Etk in Rg.
      destruct (IH g2 _ (pre ++ chunk ttl now x) F' U' Rg) as (r & Ei & Hr).
      exists r. replace (length pre + 5 + length (enc (a_chals x))) with (length (pre ++ chunk ttl now x)) by (rewrite app_length, chunk_length; lia).
      rewrite app_assoc. split; [exact Ei|]. destruct r as [g3|].
      * destruct Hr as [Hr1 Hr2]. rewrite <- app_assoc in Hr1. split; [exact Hr1|]. rewrite Hr2, Etm.
        destruct Rg as (Q1 & _). apply Forall2_len in Q1. rewrite map_length, app_length in Q1. cbn [length] in Q1.
        destruct (oldest g2) eqn:Eo2; [cbn in Q1; lia|]. destruct l; destruct (oldest g); reflexivity.
      * destruct Hr as (l1 & y & l2 & El & Hc). exists (x :: l1), y, l2. split; [now rewrite El|].
        cbn [all_chals flat_map]. unfold all_chals in *. rewrite flat_map_app in Hc. cbn [flat_map taken a_chals] in Hc. rewrite app_nil_r in Hc.
        rewrite <- !app_assoc in Hc |- *. exact Hc.
Qed.
