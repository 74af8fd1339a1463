(** PROXY headers, both forms. *)
From Verif Require Import Base ProxyModel ProxySpec LocProofs ProxyProofs.

Lemma split_at {A} n (b : list A) : n <= length b -> exists x y, b = x ++ y /\ length x = n.
Proof. intros L. exists (firstn n b), (skipn n b). split; [now rewrite firstn_skipn|now apply firstn_length_le]. Qed.
Lemma rdn_mid {A} (a x c : list A) i n : i = length a -> n = length x -> rdn (a ++ x ++ c) i n = Ok x.
Proof.
  intros -> ->. rewrite rdn_ok by (rewrite !app_length; lia). f_equal. unfold sub. rewrite skipn_app, skipn_all, Nat.sub_diag. cbn [app skipn]. rewrite firstn_app, firstn_all, Nat.sub_diag, firstn_O. apply app_nil_r.
Qed.

Lemma vc_cases vc : (vc < 256)%N -> N.land vc 240 = 32%N ->
  (N.land vc 15 = 1%N -> vc = 33%N) /\ (N.land vc 15 = 0%N -> vc = 32%N).
Proof.
  intros L E.
  assert (H : forallb (fun n => let v := N.of_nat n in implb (N.land v 240 =? 32)%N (implb (N.land v 15 =? 1)%N (v =? 33)%N && implb (N.land v 15 =? 0)%N (v =? 32)%N)) (seq 0 256) = true) by (vm_compute; reflexivity).
  rewrite forallb_forall in H. specialize (H (N.to_nat vc)). rewrite N2Nat.id in H. cbv zeta in H. rewrite E in H. rewrite N.eqb_refl in H. cbn [implb] in H. rewrite andb_true_iff in H.
  destruct H as [A B]; [apply in_seq; lia|]. split; intros X; rewrite X in *; rewrite N.eqb_refl in *; cbn [implb] in *; now apply N.eqb_eq.
Qed.

Section Proxy.
  Variable getaddrinfo : bytes -> bytes -> option peer.

  Lemma parse_v2 vc fam hi lo body sa : N.land vc 240 = 32%N ->
    let b := v2sig ++ [vc; fam; hi; lo] ++ body in
    proxy_parse getaddrinfo b sa =
      let skip := 16 + N.to_nat (get16 hi lo) in
      if length b <? skip then Ok (0, sa, b)
      else if (N.land vc 15 =? 1)%N then
        if (fam =? 17)%N && (28 <=? skip) then Ok (skip, Inet (firstn 4 body) (sub body 8 2), b)
        else if (fam =? 33)%N && (52 <=? skip) then Ok (skip, Inet6 (firstn 16 body) (sub body 32 2), b)
        else Ok (0, Zero, b)
      else if negb (N.land vc 15 =? 0)%N then Ok (0, sa, b) else Ok (skip, sa, b).
  Proof.
    intros E b. unfold proxy_parse. assert (LB : length b = 16 + length body) by (unfold b; reflexivity).
    replace (16 <=? length b) with true by (symmetry; apply Nat.leb_le; lia). rewrite cmp_at_ok by (cbn [length v2sig]; lia).
    replace (byte_eqb (sub b 0 (length v2sig)) v2sig) with true by (symmetry; apply byte_eqb_eq; reflexivity). cbn [rbind].
    change (rd b 12) with (@Ok N vc). change (rd b 13) with (@Ok N fam). change (rd b 14) with (@Ok N hi). change (rd b 15) with (@Ok N lo). cbn [rbind]. rewrite E, N.eqb_refl. cbv zeta.
    destruct (length b <? 16 + N.to_nat (get16 hi lo)) eqn:L; [reflexivity|]. apply Nat.ltb_ge in L. destruct (N.land vc 15 =? 1)%N; [|reflexivity].
    destruct ((fam =? 17)%N && (28 <=? 16 + N.to_nat (get16 hi lo))) eqn:L4.
    - apply andb_true_iff in L4. destruct L4 as [_ L4]. apply Nat.leb_le in L4. rewrite !rdn_ok by lia. cbn [rbind]. reflexivity.
    - destruct ((fam =? 33)%N && (52 <=? 16 + N.to_nat (get16 hi lo))) eqn:L6; [|reflexivity]. apply andb_true_iff in L6. destruct L6 as [_ L6]. apply Nat.leb_le in L6. rewrite !rdn_ok by lia. cbn [rbind]. reflexivity.
  Qed.
  Lemma is_v2 b : 16 <= length b -> firstn 12 b = v2sig -> exists vc fam hi lo body, b = v2sig ++ [vc; fam; hi; lo] ++ body.
  Proof.
    intros L E. rewrite <- (firstn_skipn 12 b), E. assert (LS : length (skipn 12 b) = length b - 12) by apply skipn_length.
    destruct (skipn 12 b) as [|vc [|fam [|hi [|lo body]]]]; cbn [length] in LS; try lia. now exists vc, fam, hi, lo, body.
  Qed.

  Definition is_text (b : bytes) : Prop := exists l t, b = l ++ 13%N :: 10%N :: t /\ ~ In 13%N l /\ 16 <= length l.
  Lemma parse_v1_cases b sa : 8 <= length b -> firstn 6 b = PROXY_ -> parse_v1 getaddrinfo b sa = Ok (0, sa, b) \/ is_text b.
  Proof.
    intros L8 EP. unfold parse_v1. unfold rassert at 1. replace (8 <=? length b) with true by (symmetry; now apply Nat.leb_le).
    rewrite cmp_at_ok by (cbn [length PROXY_]; lia). change (sub b 0 (length PROXY_)) with (firstn 6 b). rewrite EP. cbn [rbind]. replace (byte_eqb PROXY_ PROXY_) with true by (symmetry; now apply byte_eqb_eq). unfold rassert at 1.
    destruct (memchr_ok 13 (length b - 1) (firstn (length b - 1) b) [] (skipn (length b - 1) b)) as [[E N]|(a & t & EA & NA & E)].
    - apply firstn_length_le. lia.
    - cbn [app length] in E. rewrite firstn_skipn in E. rewrite E. cbn [rbind]. now left.
    - cbn [app length Nat.add] in E. rewrite firstn_skipn in E. rewrite E. cbn [rbind].
      assert (EB : b = a ++ 13%N :: t ++ skipn (length b - 1) b) by (rewrite <- (firstn_skipn (length b - 1) b) at 1; rewrite EA, <- app_assoc; reflexivity).
      destruct (t ++ skipn (length b - 1) b) as [|x r] eqn:ET.
      { apply (f_equal (@length N)) in ET. rewrite app_length, skipn_length in ET. cbn in ET. lia. }
      rewrite EB at 1. replace (a ++ 13%N :: x :: r) with ((a ++ [13%N]) ++ x :: r) by now rewrite <- app_assoc.
      replace (length a + 1) with (length (a ++ [13%N])) by (rewrite app_length; reflexivity). rewrite rd_mid. cbn [rbind].
      destruct (N.eqb_spec x 10) as [->|NX]; cbn [negb orb]; [|now left]. destruct (length a <? 16) eqn:L16; [now left|]. apply Nat.ltb_ge in L16. right. now exists a, r.
  Qed.
  Lemma text_parts b l t : b = l ++ 13%N :: 10%N :: t -> 16 <= length l -> firstn 6 b = PROXY_ -> exists p5 r, l = PROXY_ ++ p5 ++ r /\ length p5 = 5 /\ 5 <= length r.
  Proof.
    intros -> L E. rewrite firstn_app in E. replace (6 - length l) with 0 in E by lia. rewrite firstn_O, app_nil_r in E.
    exists (firstn 5 (skipn 6 l)), (skipn 5 (skipn 6 l)). split; [now rewrite firstn_skipn, <- E, firstn_skipn|]. split; [apply firstn_length_le; rewrite skipn_length; lia|rewrite !skipn_length; lia].
  Qed.
  Lemma fields_some l src dst sport rest : fields l = Some (src, dst, sport, rest) -> ~ In 13%N l ->
    l = src ++ 32%N :: dst ++ 32%N :: sport ++ 32%N :: rest /\ field src /\ field dst /\ field sport.
  Proof.
    unfold fields. destruct (cut l) as [[s r1]|] eqn:C1; [|discriminate]. destruct (cut r1) as [[d r2]|] eqn:C2; [|discriminate]. destruct (cut r2) as [[p r3]|] eqn:C3; [|discriminate]. intros [= <- <- <- <-] NI.
    apply cut_some in C1, C2, C3. destruct C1 as (-> & A1 & A2), C2 as (-> & B1 & B2), C3 as (-> & D1 & D2). split; [reflexivity|]. unfold field. rewrite !in_app_iff in NI. cbn [In] in NI. rewrite !in_app_iff in NI. cbn [In] in NI. rewrite !in_app_iff in NI. tauto.
  Qed.
  Lemma fields_app src dst sport rest : field src -> field dst -> field sport -> fields (src ++ 32%N :: dst ++ 32%N :: sport ++ 32%N :: rest) = Some (src, dst, sport, rest).
  Proof. intros (A & _ & A') (B & _ & B') (C & _ & C'). unfold fields. rewrite cut_app, cut_app, cut_app by assumption. reflexivity. Qed.

  (** where a parse goes *)
  Lemma parse_cases b sa :
    (exists vc fam hi lo body, b = v2sig ++ [vc; fam; hi; lo] ++ body /\ N.land vc 240 = 32%N) \/
    (8 <= length b /\ firstn 6 b = PROXY_ /\ proxy_parse getaddrinfo b sa = parse_v1 getaddrinfo b sa) \/
    proxy_parse getaddrinfo b sa = Ok (0, sa, b).
  Proof.
    unfold proxy_parse.
    assert (V1 : (8 <= length b /\ firstn 6 b = PROXY_ /\ (if 8 <=? length b then do m <- cmp_at b 0 PROXY_; (if m then parse_v1 getaddrinfo b sa else Ok (0, sa, b)) else Ok (0, sa, b)) = parse_v1 getaddrinfo b sa) \/
                 (if 8 <=? length b then do m <- cmp_at b 0 PROXY_; (if m then parse_v1 getaddrinfo b sa else Ok (0, sa, b)) else Ok (0, sa, b)) = Ok (0, sa, b)).
    { destruct (8 <=? length b) eqn:L8; [|now right]. apply Nat.leb_le in L8. rewrite cmp_at_ok by (cbn [length PROXY_]; lia). cbn [rbind]. change (sub b 0 (length PROXY_)) with (firstn 6 b).
      destruct (byte_eqb (firstn 6 b) PROXY_) eqn:E; [|now right]. apply byte_eqb_eq in E. left. auto. }
    destruct (16 <=? length b) eqn:L16; [|right; exact V1]. apply Nat.leb_le in L16. rewrite cmp_at_ok by (cbn [length v2sig]; lia). change (sub b 0 (length v2sig)) with (firstn 12 b). cbn [rbind].
    destruct (byte_eqb (firstn 12 b) v2sig) eqn:E; [|right; exact V1]. apply byte_eqb_eq in E. destruct (is_v2 b L16 E) as (vc & fam & hi & lo & body & EB).
    assert (R : rd b 12 = Ok vc) by (rewrite EB; reflexivity). rewrite R. cbn [rbind]. destruct (N.land vc 240 =? 32)%N eqn:EV; [|right; exact V1]. left. apply N.eqb_eq in EV. exists vc, fam, hi, lo, body. split; [exact EB|exact EV].
  Qed.

  Lemma parse_sound b sa n sa' b' : all_bytes b -> proxy_parse getaddrinfo b sa = Ok (n, sa', b') ->
    length b' = length b /\ n <= length b /\ (n <> 0 -> skipn n b' = skipn n b /\ header getaddrinfo sa (firstn n b) sa').
  Proof.
    intros AB E. destruct (parse_cases b sa) as [(vc & fam & hi & lo & body & EB & EV)|[(L8 & EP & EQ)|EQ]].
    - assert (LV : (vc < 256)%N) by (rewrite EB in AB; unfold all_bytes in AB; rewrite Forall_forall in AB; apply AB; rewrite !in_app_iff; right; left; now left).
      pose proof (parse_v2 vc fam hi lo body sa EV) as PV. cbv zeta in PV. rewrite <- EB in PV. rewrite PV in E. clear PV. remember (16 + N.to_nat (get16 hi lo)) as skip eqn:ES. destruct (vc_cases vc LV EV) as [V1 V0].
      assert (LB : length b = 16 + length body) by (rewrite EB; reflexivity).
      destruct (length b <? skip) eqn:L; [injection E as <- <- <-; split; [reflexivity|]; split; [lia|congruence]|]. apply Nat.ltb_ge in L.
      assert (SP : firstn skip b = v2sig ++ [vc; fam; hi; lo] ++ firstn (N.to_nat (get16 hi lo)) body) by (rewrite ES, EB; reflexivity).
      assert (LF : length (firstn (N.to_nat (get16 hi lo)) body) = N.to_nat (get16 hi lo)) by (apply firstn_length_le; lia).
      assert (PT : forall k x, k <= N.to_nat (get16 hi lo) -> firstn k (skipn x (firstn (N.to_nat (get16 hi lo)) body)) = firstn k (skipn x body) \/ N.to_nat (get16 hi lo) < x + k).
      { intros k x K. destruct (le_lt_dec (x + k) (N.to_nat (get16 hi lo))) as [X|X]; [left|now right]. rewrite skipn_firstn_comm, firstn_firstn. f_equal. lia. }
      destruct (N.eqb_spec (N.land vc 15) 1) as [C1|C1].
      + specialize (V1 C1). subst vc. destruct ((fam =? 17)%N && (28 <=? skip)) eqn:L4.
        * apply andb_true_iff in L4. destruct L4 as [F4 L4]. apply N.eqb_eq in F4. apply Nat.leb_le in L4. subst fam. injection E as <- <- <-. split; [reflexivity|]. split; [lia|]. intros _. split; [reflexivity|]. rewrite SP.
          set (f := firstn (N.to_nat (get16 hi lo)) body) in *.
          destruct (split_at 4 f) as (src & f1 & EF & LS); [lia|]. rewrite EF in LF. rewrite app_length in LF. destruct (split_at 4 f1) as (dst & f2 & -> & LD); [lia|]. rewrite app_length in LF. destruct (split_at 2 f2) as (sp & f3 & -> & LSP); [lia|]. rewrite app_length in LF. destruct (split_at 2 f3) as (dp & more & -> & LDP); [lia|]. rewrite app_length in LF.
          assert (EB1 : body = src ++ dst ++ sp ++ (dp ++ more) ++ skipn (N.to_nat (get16 hi lo)) body).
          { rewrite <- (firstn_skipn (N.to_nat (get16 hi lo)) body) at 1. fold f. rewrite EF. now rewrite <- !app_assoc. }
          match goal with |- header _ _ _ ?p => change p with (Inet (firstn 4 body) (sub body 8 2)) end.
          replace (Inet (firstn 4 body) (sub body 8 2)) with (Inet src sp).
          -- rewrite EF. apply tcp4_header; auto. rewrite !app_length. lia.
          -- rewrite EB1. f_equal; [rewrite firstn_app, firstn_all2, LS by lia; cbn [Nat.sub]; now rewrite firstn_O, app_nil_r|].
             unfold sub. rewrite app_assoc. rewrite skipn_app, skipn_all2 by (rewrite app_length; lia). rewrite app_length, LS, LD. cbn [Nat.sub Nat.add skipn app]. rewrite firstn_app, firstn_all2, LSP by lia. cbn [Nat.sub]. now rewrite firstn_O, app_nil_r.
        * destruct ((fam =? 33)%N && (52 <=? skip)) eqn:L6; [|injection E as <- <- <-; split; [reflexivity|]; split; [lia|congruence]].
          apply andb_true_iff in L6. destruct L6 as [F6 L6]. apply N.eqb_eq in F6. apply Nat.leb_le in L6. subst fam. injection E as <- <- <-. split; [reflexivity|]. split; [lia|]. intros _. split; [reflexivity|]. rewrite SP.
          set (f := firstn (N.to_nat (get16 hi lo)) body) in *.
          destruct (split_at 16 f) as (src & f1 & EF & LS); [lia|]. rewrite EF in LF. rewrite app_length in LF. destruct (split_at 16 f1) as (dst & f2 & -> & LD); [lia|]. rewrite app_length in LF. destruct (split_at 2 f2) as (sp & f3 & -> & LSP); [lia|]. rewrite app_length in LF. destruct (split_at 2 f3) as (dp & more & -> & LDP); [lia|]. rewrite app_length in LF.
          assert (EB1 : body = src ++ dst ++ sp ++ (dp ++ more) ++ skipn (N.to_nat (get16 hi lo)) body).
          { rewrite <- (firstn_skipn (N.to_nat (get16 hi lo)) body) at 1. fold f. rewrite EF. now rewrite <- !app_assoc. }
          match goal with |- header _ _ _ ?p => change p with (Inet6 (firstn 16 body) (sub body 32 2)) end.
          replace (Inet6 (firstn 16 body) (sub body 32 2)) with (Inet6 src sp).
          -- rewrite EF. apply tcp6_header; auto. rewrite !app_length. lia.
          -- rewrite EB1. f_equal; [rewrite firstn_app, firstn_all2, LS by lia; cbn [Nat.sub]; now rewrite firstn_O, app_nil_r|].
             unfold sub. rewrite app_assoc. rewrite skipn_app, skipn_all2 by (rewrite app_length; lia). rewrite app_length, LS, LD. cbn [Nat.sub Nat.add skipn app]. rewrite firstn_app, firstn_all2, LSP by lia. cbn [Nat.sub]. now rewrite firstn_O, app_nil_r.
      + destruct (N.eqb_spec (N.land vc 15) 0) as [C0|C0]; cbn [negb] in E; injection E as <- <- <-; (split; [reflexivity|]; split; [lia|]); [|congruence]. intros _. split; [reflexivity|]. rewrite SP. rewrite (V0 C0). apply local_header. exact LF.
    - rewrite EQ in E. destruct (parse_v1_cases b sa L8 EP) as [Z|(l & t & EB & NI & L16)]; [rewrite Z in E; injection E as <- <- <-; split; [reflexivity|]; split; [lia|congruence]|].
      destruct (text_parts b l t EB L16 EP) as (p5 & r & -> & L5 & LR). destruct (v1_line getaddrinfo p5 r t sa L5 NI LR) as (b4 & A & B & C). rewrite <- EB in A, C. rewrite C in E.
      destruct (if byte_eqb p5 TCP4_ || byte_eqb p5 TCP6_ then _ else None) as [sa1|] eqn:G; [|injection E as <- <- <-; split; [exact A|]; split; [lia|congruence]].
      unfold rassert in E. destruct (_ <=? 108); [|discriminate]. assert (X : n = length (PROXY_ ++ p5 ++ r) + 2 /\ sa' = sa1 /\ b' = b4) by (inversion E; auto). destruct X as (-> & -> & ->). split; [exact A|].
      assert (LB : length b = length (PROXY_ ++ p5 ++ r) + 2 + length t) by (rewrite EB, app_length; cbn [length]; lia). split; [lia|]. intros _.
      assert (EB2 : b = ((PROXY_ ++ p5 ++ r) ++ [13; 10]%N) ++ t) by (rewrite EB, <- !app_assoc; reflexivity).
      assert (LL : length (PROXY_ ++ p5 ++ r) + 2 = length ((PROXY_ ++ p5 ++ r) ++ [13; 10]%N)) by (rewrite (app_length _ [13; 10]%N); reflexivity).
      split; [rewrite B, EB2, LL, skipn_app, skipn_all, Nat.sub_diag; reflexivity|].
      rewrite EB2, LL, firstn_app, firstn_all, Nat.sub_diag, firstn_O, app_nil_r.
      destruct (byte_eqb p5 TCP4_ || byte_eqb p5 TCP6_) eqn:EP5; [|discriminate]. destruct (fields r) as [[[[src dst] sport] rest]|] eqn:EF; [|discriminate].
      apply fields_some in EF; [|intros X; apply NI; rewrite !in_app_iff; auto]. destruct EF as (-> & FS & FD & FP). apply (text_header getaddrinfo sa p5 src dst sport rest sa1); auto.
      + apply orb_true_iff in EP5. rewrite !byte_eqb_eq in EP5. exact EP5.
      + intros X. apply NI. repeat (rewrite ?in_app_iff; cbn [In]). tauto.
    - rewrite EQ in E. injection E as <- <- <-. split; [reflexivity|]. split; [lia|congruence].
  Qed.

  Lemma parse_bound b sa n sa' b' : proxy_parse getaddrinfo b sa = Ok (n, sa', b') -> n <= length b.
  Proof.
    intros E. destruct (parse_cases b sa) as [(vc & fam & hi & lo & body & EB & EV)|[(L8 & EP & EQ)|EQ]].
    - pose proof (parse_v2 vc fam hi lo body sa EV) as PV. cbv zeta in PV. rewrite <- EB in PV. rewrite PV in E. clear PV. remember (16 + N.to_nat (get16 hi lo)) as skip eqn:ES.
      destruct (length b <? skip) eqn:L; [injection E as <- <- <-; lia|]. apply Nat.ltb_ge in L.
      repeat match type of E with context [if ?c then _ else _] => destruct c end; injection E as <- _ _; lia.
    - rewrite EQ in E. destruct (parse_v1_cases b sa L8 EP) as [Z|(l & t & EB & NI & L16)]; [rewrite Z in E; injection E as <- _ _; lia|].
      destruct (text_parts b l t EB L16 EP) as (p5 & r & -> & L5 & LR). destruct (v1_line getaddrinfo p5 r t sa L5 NI LR) as (b4 & A & B & C). rewrite <- EB in C. rewrite C in E.
      destruct (if byte_eqb p5 TCP4_ || byte_eqb p5 TCP6_ then _ else None) as [sa1|] eqn:G; [|injection E as <- <- <-; lia].
      unfold rassert in E. destruct (_ <=? 108); [|discriminate]. assert (X : n = length (PROXY_ ++ p5 ++ r) + 2) by (inversion E; auto). rewrite X, EB, (app_length _ (13%N :: _)). cbn [length]. lia.
    - rewrite EQ in E. injection E as <- _ _. lia.
  Qed.

  Lemma header_long sa h sa' : header getaddrinfo sa h sa' -> 16 <= length h.
  Proof. intros [proto src dst sport rest sa1 P A B C D L G|fam hi lo body L|hi lo src dst sp dp more L|hi lo src dst sp dp more L]; [rewrite app_length; lia|cbn; lia|cbn; lia|cbn; lia]. Qed.

  Lemma parse_complete sa h sa' t : header getaddrinfo sa h sa' -> length h <= 108 \/ firstn 12 h = v2sig ->
    exists b', proxy_parse getaddrinfo (h ++ t) sa = Ok (length h, sa', b') /\ length b' = length (h ++ t) /\ skipn (length h) b' = t.
  Proof.
    intros H SH. assert (SK : forall (a b : bytes), skipn (length a) (a ++ b) = b) by (intros; rewrite skipn_app, skipn_all, Nat.sub_diag; reflexivity).
    destruct H as [proto src dst sport rest sa1 P A B C D L G|fam hi lo body L|hi lo src dst sp dp more L LS LD LSP LDP|hi lo src dst sp dp more L LS LD LSP LDP].
    - set (l := src ++ 32%N :: dst ++ 32%N :: sport ++ 32%N :: rest) in *.
      assert (LP : length proto = 5) by (destruct P as [-> | ->]; reflexivity).
      assert (NI : ~ In 13%N (PROXY_ ++ proto ++ l)).
      { unfold l. rewrite !in_app_iff. cbn [In]. rewrite !in_app_iff. cbn [In]. rewrite ?in_app_iff. cbn [In]. rewrite ?in_app_iff. cbn [In]. destruct A as (_ & A & _), B as (_ & B & _), C as (_ & C & _).
        intros [X|[X|X]]; [cbn in X; intuition discriminate|destruct P as [-> | ->]; cbn in X; intuition discriminate|]. intuition discriminate. }
      assert (LL : 5 <= length l) by (rewrite !app_length in L; cbn [length PROXY_] in L; lia).
      destruct (v1_line getaddrinfo proto l t sa LP NI LL) as (b' & B1 & B2 & B3). rewrite <- app_assoc. cbn [app].
      change (PROXY_ ++ proto ++ l) with (PROXY_ ++ proto ++ l) in *. set (line := PROXY_ ++ proto ++ l) in *.
      assert (EL : length (line ++ [13%N; 10%N]) = length line + 2) by (rewrite app_length; reflexivity).
      exists b'. rewrite EL. split; [|split; [exact B1|exact B2]].
      assert (EP : proxy_parse getaddrinfo (line ++ 13%N :: 10%N :: t) sa = parse_v1 getaddrinfo (line ++ 13%N :: 10%N :: t) sa).
      { unfold proxy_parse. replace (16 <=? length (line ++ 13%N :: 10%N :: t)) with true by (symmetry; apply Nat.leb_le; rewrite app_length; lia).
        rewrite !cmp_at_ok by (rewrite app_length; cbn [length v2sig PROXY_]; lia). cbn [rbind].
        replace (byte_eqb (sub (line ++ 13%N :: 10%N :: t) 0 (length v2sig)) v2sig) with false.
        2:{ symmetry. apply not_true_iff_false. rewrite byte_eqb_eq. unfold line. cbn [PROXY_ app]. unfold sub. cbn [skipn length v2sig firstn]. discriminate. }
        cbn [rbind]. replace (8 <=? length (line ++ 13%N :: 10%N :: t)) with true by (symmetry; apply Nat.leb_le; rewrite app_length; lia).
        replace (byte_eqb (sub (line ++ 13%N :: 10%N :: t) 0 (length PROXY_)) PROXY_) with true by (symmetry; apply byte_eqb_eq; reflexivity). reflexivity. }
      rewrite EP, B3. replace (byte_eqb proto TCP4_ || byte_eqb proto TCP6_) with true by (symmetry; apply orb_true_iff; rewrite !byte_eqb_eq; exact P).
      unfold l. rewrite fields_app, G by assumption. unfold rassert. destruct SH as [SH|SH]; [rewrite EL in SH; now apply Nat.leb_le in SH as ->|].
      exfalso. unfold line in SH. cbn [PROXY_ app firstn] in SH. discriminate.
    - exists ((v2sig ++ [32; fam; hi; lo]%N ++ body) ++ t). rewrite <- !app_assoc. pose proof (parse_v2 32 fam hi lo (body ++ t) sa eq_refl) as PV. cbv zeta in PV. rewrite PV.
      replace (length (v2sig ++ [32%N; fam; hi; lo] ++ body ++ t) <? 16 + N.to_nat (get16 hi lo)) with false by (symmetry; apply Nat.ltb_ge; rewrite !app_length; cbn [length v2sig]; lia).
      change (N.land 32 15) with 0%N. cbn [N.eqb negb]. replace (length (v2sig ++ [32%N; fam; hi; lo] ++ body)) with (16 + N.to_nat (get16 hi lo)) by (rewrite !app_length; cbn [length v2sig]; lia).
      split; [reflexivity|]. split; [reflexivity|]. replace (16 + N.to_nat (get16 hi lo)) with (length (v2sig ++ [32%N; fam; hi; lo] ++ body)) by (rewrite !app_length; cbn [length v2sig]; lia). rewrite <- (SK (v2sig ++ [32%N; fam; hi; lo] ++ body) t) at 2. now rewrite <- !app_assoc.
    - set (body := src ++ dst ++ sp ++ dp ++ more) in *. exists ((v2sig ++ [33; 17; hi; lo]%N ++ body) ++ t). rewrite <- !(app_assoc v2sig), <- (app_assoc [33%N; 17%N; hi; lo]). pose proof (parse_v2 33 17 hi lo (body ++ t) sa eq_refl) as PV. cbv zeta in PV. rewrite PV.
      assert (LB : 12 <= length body) by (unfold body; rewrite !app_length; lia).
      replace (length (v2sig ++ [33%N; 17%N; hi; lo] ++ body ++ t) <? 16 + N.to_nat (get16 hi lo)) with false by (symmetry; apply Nat.ltb_ge; rewrite !app_length; cbn [length v2sig]; lia).
      change (N.land 33 15 =? 1)%N with true. cbn [N.eqb Pos.eqb andb]. replace (28 <=? 16 + N.to_nat (get16 hi lo)) with true by (symmetry; apply Nat.leb_le; lia).
      replace (length (v2sig ++ [33%N; 17%N; hi; lo] ++ body)) with (16 + N.to_nat (get16 hi lo)) by (rewrite !app_length; cbn [length v2sig]; lia).
      split.
      + f_equal. f_equal. f_equal. unfold body. f_equal.
        * rewrite <- !app_assoc. rewrite firstn_app, firstn_all2, LS by lia. cbn [Nat.sub]. now rewrite firstn_O, app_nil_r.
        * unfold sub. rewrite <- !app_assoc. rewrite app_assoc. rewrite skipn_app, skipn_all2 by (rewrite app_length; lia). rewrite app_length, LS, LD. cbn [Nat.sub Nat.add skipn app]. rewrite firstn_app, firstn_all2, LSP by lia. cbn [Nat.sub]. now rewrite firstn_O, app_nil_r.
      + split; [reflexivity|]. replace (16 + N.to_nat (get16 hi lo)) with (length (v2sig ++ [33%N; 17%N; hi; lo] ++ body)) by (rewrite !app_length; cbn [length v2sig]; lia). rewrite <- (SK (v2sig ++ [33%N; 17%N; hi; lo] ++ body) t) at 2. now rewrite <- !(app_assoc v2sig), <- (app_assoc [33%N; 17%N; hi; lo]).
    - set (body := src ++ dst ++ sp ++ dp ++ more) in *. exists ((v2sig ++ [33; 33; hi; lo]%N ++ body) ++ t). rewrite <- !(app_assoc v2sig), <- (app_assoc [33%N; 33%N; hi; lo]). pose proof (parse_v2 33 33 hi lo (body ++ t) sa eq_refl) as PV. cbv zeta in PV. rewrite PV.
      assert (LB : 36 <= length body) by (unfold body; rewrite !app_length; lia).
      replace (length (v2sig ++ [33%N; 33%N; hi; lo] ++ body ++ t) <? 16 + N.to_nat (get16 hi lo)) with false by (symmetry; apply Nat.ltb_ge; rewrite !app_length; cbn [length v2sig]; lia).
      change (N.land 33 15 =? 1)%N with true. cbn [N.eqb Pos.eqb andb]. replace (52 <=? 16 + N.to_nat (get16 hi lo)) with true by (symmetry; apply Nat.leb_le; lia).
      replace (length (v2sig ++ [33%N; 33%N; hi; lo] ++ body)) with (16 + N.to_nat (get16 hi lo)) by (rewrite !app_length; cbn [length v2sig]; lia).
      split.
      + f_equal. f_equal. f_equal. unfold body. f_equal.
        * rewrite <- !app_assoc. rewrite firstn_app, firstn_all2, LS by lia. cbn [Nat.sub]. now rewrite firstn_O, app_nil_r.
        * unfold sub. rewrite <- !app_assoc. rewrite app_assoc. rewrite skipn_app, skipn_all2 by (rewrite app_length; lia). rewrite app_length, LS, LD. cbn [Nat.sub Nat.add skipn app]. rewrite firstn_app, firstn_all2, LSP by lia. cbn [Nat.sub]. now rewrite firstn_O, app_nil_r.
      + split; [reflexivity|]. replace (16 + N.to_nat (get16 hi lo)) with (length (v2sig ++ [33%N; 33%N; hi; lo] ++ body)) by (rewrite !app_length; cbn [length v2sig]; lia). rewrite <- (SK (v2sig ++ [33%N; 33%N; hi; lo] ++ body) t) at 2. now rewrite <- !(app_assoc v2sig), <- (app_assoc [33%N; 33%N; hi; lo]).
  Qed.

  Lemma parse_safe b sa : short_line b -> exists n sa' b', proxy_parse getaddrinfo b sa = Ok (n, sa', b').
  Proof.
    intros SL. destruct (parse_cases b sa) as [(vc & fam & hi & lo & body & EB & EV)|[(L8 & EP & EQ)|EQ]].
    - pose proof (parse_v2 vc fam hi lo body sa EV) as PV. cbv zeta in PV. rewrite <- EB in PV. rewrite PV. clear.
      repeat match goal with |- context [if ?c then _ else _] => destruct c end; eauto.
    - rewrite EQ. destruct (parse_v1_cases b sa L8 EP) as [Z|(l & t & EB & NI & L16)]; [rewrite Z; eauto|].
      destruct (text_parts b l t EB L16 EP) as (p5 & r & -> & L5 & LR). destruct (v1_line getaddrinfo p5 r t sa L5 NI LR) as (b4 & A & B & C). rewrite <- EB in C. rewrite C.
      specialize (SL _ _ EB NI). replace (length (PROXY_ ++ p5 ++ r) + 2 <=? 108) with true by (symmetry; apply Nat.leb_le; lia).
      destruct (if byte_eqb p5 TCP4_ || byte_eqb p5 TCP6_ then _ else None) as [sa1|]; unfold rassert; eauto.
    - rewrite EQ. eauto.
  Qed.
End Proxy.
