(** The scanner's actions, part 1: names. *)
From Coq Require Import String Ascii.
From Verif Require Import Base DnameSpec DnameModel DnameProofs DnameProofs2 CompModel RespModel LtreeModel ZscanModel ZscanSpec DnameProps.
Local Open Scope N_scope.
Local Notation length := List.length.
Local Arguments N.eqb : simpl never.

Definition holds (b : bytes) (n : name) : Prop := legal_name n /\ length b = 256%nat /\ exists r, b = dname n true ++ r.

Lemma buf_labels_ok ls : forall fuel pre rest, Forall struct_label ls -> (length ls < fuel)%nat ->
  buf_labels fuel (pre ++ wire_labels ls ++ 0 :: rest) (length pre) = Ok ls.
Proof.
  induction ls as [|l ls IH]; intros [|fuel] pre rest F Hf; try (cbn in Hf; lia); cbn [buf_labels wire_labels app].
  - rewrite rd_app_len. reflexivity.
  - inversion F as [|? ? Hl Hr]; subst. unfold struct_label in Hl. rewrite rd_app_len. cbn [rbind].
    destruct (N.eqb_spec (N.of_nat (length l)) 0); [lia|]. destruct (N.eqb_spec (N.of_nat (length l)) 255); [lia|]. rewrite Nat2N.id.
    assert (E : pre ++ N.of_nat (length l) :: (l ++ wire_labels ls) ++ 0 :: rest = (pre ++ N.of_nat (length l) :: l) ++ wire_labels ls ++ 0 :: rest) by (rewrite <- ?app_assoc; cbn [app]; now rewrite <- ?app_assoc).
    rewrite rdn_ok by (rewrite !app_length; cbn [length]; rewrite !app_length; lia).
    assert (Hsub : sub (pre ++ N.of_nat (length l) :: (l ++ wire_labels ls) ++ 0 :: rest) (S (length pre)) (length l) = l).
    { unfold sub. replace (pre ++ N.of_nat (length l) :: (l ++ wire_labels ls) ++ 0 :: rest) with ((pre ++ [N.of_nat (length l)]) ++ l ++ wire_labels ls ++ 0 :: rest) by (rewrite <- ?app_assoc; cbn [app]; now rewrite <- ?app_assoc).
      replace (S (length pre)) with (length (pre ++ [N.of_nat (length l)])) by (rewrite app_length; cbn; lia).
      rewrite skipn_app, skipn_all, Nat.sub_diag. cbn [skipn app]. rewrite firstn_app, firstn_all, Nat.sub_diag. cbn. apply app_nil_r. }
    rewrite Hsub. cbn [rbind]. rewrite E. replace (S (length pre) + length l)%nat with (length (pre ++ N.of_nat (length l) :: l)) by (rewrite app_length; cbn; lia).
    rewrite IH; [reflexivity|assumption|cbn in Hf; lia].
Qed.
Lemma wire_len_count ls : (length ls < wire_len ls)%nat.
Proof. induction ls as [|l ls IH]; [unfold wire_len; cbn; lia|]. rewrite wire_len_cons. cbn [length]. lia. Qed.
Lemma name_of_ok b n : holds b n -> name_of b = Ok n.
Proof.
  intros (L & Hl & r & ->). apply legal_struct in L as (F & W). unfold name_of. rewrite dname_unfold.
  assert (H := buf_labels_ok n 256 [N.of_nat (wire_len n)] r F). cbn [app] in *. rewrite <- app_assoc. cbn [app]. apply H. pose proof (wire_len_count n). lia.
Qed.
Lemma holds_fun b n1 n2 : holds b n1 -> holds b n2 -> n1 = n2.
Proof. intros H1 H2. apply name_of_ok in H1, H2. congruence. Qed.

Lemma copy_ok dst n r : length dst = 256%nat -> legal_name n -> exists b, dname_copy dst (dname n true ++ r) = Ok b /\ holds b n.
Proof.
  intros Hd L. assert (S := legal_struct _ L). destruct S as (F & W). unfold dname_copy. rewrite rd_dname0. cbn [rbind].
  replace (0 <? _) with true by (symmetry; apply N.ltb_lt; unfold wire_len; lia). replace (N.of_nat (wire_len n) <? 256) with true by (symmetry; apply N.ltb_lt; lia). cbn [rassert]. rewrite Nat2N.id.
  rewrite rdn_ok by (rewrite app_length, dname_length; lia).
  assert (E : sub (dname n true ++ r) 0 (wire_len n + 1) = dname n true).
  { unfold sub. cbn [skipn]. rewrite firstn_app, dname_length. replace (wire_len n + 1 - S (wire_len n))%nat with 0%nat by lia. cbn [firstn]. rewrite app_nil_r. apply firstn_all2. rewrite dname_length. lia. }
  rewrite E. cbn [rbind]. rewrite wr_ok by (rewrite dname_length; lia). cbn [firstn app Nat.add].
  exists (dname n true ++ skipn (length (dname n true)) dst). split; [reflexivity|]. split; [exact L|]. split; [|eauto].
  rewrite app_length, skipn_length, dname_length. lia.
Qed.

Lemma final_loop_ok q : forall x pre rest fuel, Forall struct_label (x :: q) -> (length q < fuel)%nat ->
  final_loop fuel (pre ++ wire_labels (x :: q) ++ 255 :: rest) (length pre) (length x + 1) = Ok (length (pre ++ wire_labels (removelast (x :: q)))).
Proof.
  induction q as [|y q IH]; intros x pre rest [|fuel] F Hf; try (cbn in Hf; lia); cbn [final_loop].
  - assert (R : rd (pre ++ wire_labels [x] ++ 255 :: rest) (length pre + (length x + 1)) = Ok 255).
    { rewrite rd_app_r. cbn [wire_labels]. rewrite app_nil_r. change ((N.of_nat (length x) :: x) ++ 255 :: rest) with (N.of_nat (length x) :: x ++ 255 :: rest).
      replace (length x + 1)%nat with (length (N.of_nat (length x) :: x)) by (cbn; lia). apply (rd_app_len (N.of_nat (length x) :: x)). }
    rewrite R. cbn [rbind]. rewrite N.eqb_refl. cbn [removelast wire_labels]. now rewrite app_nil_r.
  - inversion F as [|? ? Hx Hr]; subst. inversion Hr as [|? ? Hy Hq]; subst. unfold struct_label in Hx, Hy.
    assert (E : pre ++ wire_labels (x :: y :: q) ++ 255 :: rest = (pre ++ N.of_nat (length x) :: x) ++ wire_labels (y :: q) ++ 255 :: rest).
    { cbn [wire_labels]. repeat (rewrite <- ?app_assoc; cbn [app]). reflexivity. }
    rewrite E. replace (length pre + (length x + 1))%nat with (length (pre ++ N.of_nat (length x) :: x)) by (rewrite app_length; cbn; lia).
    assert (R : rd ((pre ++ N.of_nat (length x) :: x) ++ wire_labels (y :: q) ++ 255 :: rest) (length (pre ++ N.of_nat (length x) :: x)) = Ok (N.of_nat (length y))) by (cbn [wire_labels app]; apply rd_app_len).
    rewrite R. cbn [rbind]. destruct (N.eqb_spec (N.of_nat (length y)) 255); [lia|]. try rewrite R. cbn [rbind]. rewrite Nat2N.id.
    rewrite IH; [|assumption|cbn in Hf; lia]. f_equal. change (removelast (x :: y :: q)) with (x :: removelast (y :: q)). cbn [wire_labels]. rewrite !app_length. cbn [length]. rewrite app_length. lia.
Qed.
Lemma final_offset_ok p x r : struct_name (p ++ [x]) ->
  final_label_offset (dname (p ++ [x]) false ++ r) = Ok (S (length (wire_labels p))).
Proof.
  intros S. unfold final_label_offset. rewrite status_dname by exact S. cbn [rbind status_eqb rassert]. destruct S as (F & W).
  destruct (p ++ [x]) as [|y q] eqn:E; [now apply app_eq_nil in E as (_ & E)|].
  assert (Ed : dname (y :: q) false ++ r = [N.of_nat (wire_len (y :: q))] ++ wire_labels (y :: q) ++ 255 :: r) by (rewrite dname_unfold; cbn [app term]; now rewrite <- app_assoc).
  assert (R : rd (dname (y :: q) false ++ r) 1 = Ok (N.of_nat (length y))) by (rewrite Ed; reflexivity).
  rewrite R. cbn [rbind]. rewrite Nat2N.id, Ed. etransitivity; [apply (final_loop_ok q y [N.of_nat (wire_len (y :: q))] r 256 F); pose proof (wire_len_count (y :: q)); cbn [length] in *; lia|].
  rewrite <- E, removelast_last. reflexivity.
Qed.

(** ** Qualification *)
Lemma snoc_inj {A} (p q : list A) x y : p ++ [x] = q ++ [y] -> p = q /\ x = y.
Proof. apply app_inj_tail. Qed.
Section Names.
  Variable zone : bytes.
  Variable zn : name.
  Hypothesis Hzone : exists r, zone = dname zn true ++ r.
  Hypothesis Lzone : legal_name zn.

  Lemma qualified_cases k w n : qualified zn k w n ->
    (w = [[64]] /\ n = c_origin k) \/ (exists p, w = p ++ [[64; 122]] /\ n = p ++ zn) \/ (exists p, w = p ++ [[64; 102]] /\ n = p ++ c_file k) \/
    (w <> [[64]] /\ (forall p c, w <> p ++ [[64; c]]) /\ n = w ++ c_origin k).
  Proof. intros [|p|p|w' A B]; [left|right; left; exists p|right; right; left; exists p|right; right; right]; auto. Qed.
  Lemma one_snoc (x y : list N) p : [x] = p ++ [y] -> x = y.
  Proof. intros H. change [x] with ([] ++ [x]) in H. now apply snoc_inj in H as (_ & H). Qed.
  Lemma qualified_fun k w n1 n2 : qualified zn k w n1 -> qualified zn k w n2 -> n1 = n2.
  Proof.
    intros H1 H2. apply qualified_cases in H1, H2.
    destruct H1 as [(-> & ->)|[(p & -> & ->)|[(p & -> & ->)|(A & B & ->)]]]; destruct H2 as [(E & ->)|[(q & E & ->)|[(q & E & ->)|(A' & B' & ->)]]];
      try reflexivity; try congruence; try (apply one_snoc in E; discriminate E); try (symmetry in E; apply one_snoc in E; discriminate E);
      try (apply snoc_inj in E as (E1 & E2); congruence); try (exfalso; now apply (B q 122)); try (exfalso; now apply (B q 102)); try (exfalso; now apply (B' p 122)); try (exfalso; now apply (B' p 102)).
  Qed.
  Lemma name_means_fun k t n1 n2 : all_bytes t -> name_means zn k t n1 -> name_means zn k t n2 -> n1 = n2.
  Proof.
    intros Hb (N & L1 & w1 & fq1 & T1 & W1 & Q1) (_ & L2 & w2 & fq2 & T2 & W2 & Q2).
    destruct (C01_text_is_unambiguous _ _ _ _ _ Hb T1 T2 W1 W2) as (-> & ->). destruct fq2; [congruence|]. eapply qualified_fun; eauto.
  Qed.

  Lemma legal_app a b : legal_name a -> legal_name b -> (wire_len (a ++ b) <= 255)%nat -> legal_name (a ++ b).
  Proof. intros (A & _) (B & _) H. split; [now apply Forall_app|exact H]. Qed.
  Lemma legal_prefix a b : legal_name (a ++ b) -> legal_name a.
  Proof. intros (F & W). apply Forall_app in F as (Fa & _). split; [exact Fa|]. rewrite wire_len_app in W. pose proof (wire_len_pos b). lia. Qed.

  (** a name made of a relative one and another *)
  Lemma cat_holds p rp b rb : legal_name p -> legal_name b -> length (dname p false ++ rp) = 256%nat ->
    exists out s, dname_cat (dname p false ++ rp) (dname b true ++ rb) = Ok (s, out) /\ length out = 256%nat /\
      ((s = DNAME_VALID /\ holds out (p ++ b)) \/ (s = DNAME_INVALID /\ ~ legal_name (p ++ b))).
  Proof.
    intros Lp Lb Hl. destruct (cat_ok p false rp b true rb (legal_struct _ Lp) (legal_struct _ Lb) Hl) as (out & Ho & E & R).
    exists out. rewrite E. destruct (Nat.leb_spec (wire_len (p ++ b)) 255).
    - eexists. split; [reflexivity|]. split; [exact Ho|]. left. split; [reflexivity|]. split; [now apply legal_app|]. split; [exact Ho|exact R].
    - eexists. split; [reflexivity|]. split; [exact Ho|]. right. split; [reflexivity|]. intros (_ & W). lia.
  Qed.

  Lemma qualify_ok k w r origin forigin : legal_name w -> w <> [] -> length (dname w false ++ r) = 256%nat ->
    holds origin (c_origin k) -> holds forigin (c_file k) ->
    exists s b, dn_qualify zone (dname w false ++ r) origin forigin = Ok (s, b) /\ length b = 256%nat /\
      ((s = DNAME_VALID /\ exists n, qualified zn k w n /\ holds b n) \/
       (s = DNAME_INVALID /\ forall n, qualified zn k w n -> ~ legal_name n)).
  Proof.
    intros Lw Nw Hlen Ho Hf. assert (Sw := legal_struct _ Lw). unfold dn_qualify. rewrite status_dname by exact Sw. cbn [rbind status_eqb rassert].
    rewrite rd_dname0. cbn [rbind].
    destruct (exists_last Nw) as (p & x & ->).
    assert (Lx : legal_label x) by (destruct Lw as (F & _); apply Forall_app in F as (_ & F); now inversion F).
    assert (Lp : legal_name p) by (now apply legal_prefix in Lw).
    assert (Ed : dname (p ++ [x]) false ++ r = (N.of_nat (wire_len (p ++ [x])) :: wire_labels p) ++ N.of_nat (length x) :: x ++ 255 :: r).
    { rewrite dname_unfold, wire_labels_app. cbn [wire_labels app term]. rewrite app_nil_r. repeat (rewrite <- ?app_assoc; cbn [app]). reflexivity. }
    assert (Wl : wire_len (p ++ [x]) = (wire_len p + length x + 1)%nat) by (rewrite wire_len_app, wire_len_cons; unfold wire_len; cbn; lia).
    destruct Lx as (Lx & Bx).
    (* "@" *)
    assert (B2 : exists b2, rd (dname (p ++ [x]) false ++ r) 2 = Ok b2 /\ (N.of_nat (wire_len (p ++ [x])) = 3 -> p = [] /\ x = [b2])).
    { assert (K : is_ok (rd (dname (p ++ [x]) false ++ r) 2)) by (apply rd_ok; rewrite Hlen; lia). destruct K as (b2 & E2).
      exists b2. split; [exact E2|]. intros H3. destruct p as [|y p].
      - split; [reflexivity|]. rewrite Wl in H3. destruct x as [|c [|d x]]; [cbn in Lx; lia| |cbn [length] in H3; pose proof (wire_len_pos []); lia].
        assert (E3 : rd (dname ([] ++ [[c]]) false ++ r) 2 = Ok c) by reflexivity. congruence.
      - exfalso. rewrite Wl, wire_len_cons in H3. pose proof (wire_len_pos p). destruct Lp as (F & _). inversion F as [|? ? Hy _]; subst. destruct Hy. lia. }
    destruct B2 as (b2 & -> & B2). cbn [rbind].
    destruct ((N.of_nat (wire_len (p ++ [x])) =? 3) && (b2 =? 64)) eqn:Qat.
    - apply andb_true_iff in Qat as (Q3 & Q64). apply N.eqb_eq in Q3, Q64. destruct (B2 Q3) as (-> & ->). subst b2. cbn [app] in *.
      assert (R1 : rd (dname [[64]] false ++ r) 1 = Ok 1) by reflexivity. assert (R3 : rd (dname [[64]] false ++ r) 3 = Ok 255) by reflexivity.
      rewrite R1. cbn [rbind]. rewrite R3. cbn [rbind]. cbn [N.eqb Pos.eqb andb rassert].
      destruct Ho as (Lo & _ & ro & ->). destruct (copy_ok (dname [[64]] false ++ r) (c_origin k) ro Hlen Lo) as (b & -> & Hb). cbn [rbind].
      exists DNAME_VALID, b. split; [reflexivity|]. split; [apply Hb|]. left. split; [reflexivity|]. exists (c_origin k). split; [apply qu_at|exact Hb].
    - rewrite final_offset_ok by exact Sw. cbn [rbind].
      assert (Roff : forall j, rd (dname (p ++ [x]) false ++ r) (S (length (wire_labels p)) + j) = rd (N.of_nat (length x) :: x ++ 255 :: r) j).
      { intros j. rewrite Ed. change (S (length (wire_labels p))) with (length (N.of_nat (wire_len (p ++ [x])) :: wire_labels p)). apply rd_app_r. }
      assert (R0 : rd (dname (p ++ [x]) false ++ r) (S (length (wire_labels p))) = Ok (N.of_nat (length x))) by (rewrite <- (Nat.add_0_r (S _)), Roff; reflexivity).
      rewrite R0. cbn [rbind]. destruct (N.eqb_spec (N.of_nat (length x)) 0); [lia|]. cbn [negb rassert]. rewrite Roff.
      destruct x as [|x0 x]; [cbn in Lx; lia|]. assert (R1 : rd (N.of_nat (length (x0 :: x)) :: (x0 :: x) ++ 255 :: r) 1 = Ok x0) by reflexivity. rewrite R1. cbn [rbind].
      destruct ((N.of_nat (length (x0 :: x)) =? 2) && (x0 =? 64)) eqn:Q2.
      + apply andb_true_iff in Q2 as (Q2 & Q64). apply N.eqb_eq in Q2, Q64. subst x0. destruct x as [|c [|d x]]; [cbn in Q2; lia| |cbn in Q2; lia].
        rewrite Roff. assert (R2 : rd (N.of_nat (length [64; c]) :: [64; c] ++ 255 :: r) 2 = Ok c) by reflexivity. rewrite R2. cbn [rbind].
        rewrite Ed. change (S (length (wire_labels p))) with (length (N.of_nat (wire_len (p ++ [[64; c]])) :: wire_labels p)).
        rewrite wr_prefix by (cbn; lia). cbn [rbind length skipn app]. rewrite wr_head. cbn [rbind].
        assert (E2 : N.of_nat (wire_len (p ++ [[64; c]])) - 3 :: wire_labels p ++ 255 :: 64 :: c :: 255 :: r = dname p false ++ 64 :: c :: 255 :: r).
        { rewrite dname_unfold. cbn [app term]. rewrite <- app_assoc. cbn [app]. f_equal. rewrite Wl. cbn [length]. lia. }
        rewrite E2. assert (Hl2 : length (dname p false ++ 64 :: c :: 255 :: r) = 256%nat) by (rewrite <- Hlen, !app_length, !dname_length, Wl; cbn [length]; lia).
        destruct (N.eqb_spec c 122) as [->|N1]; [|destruct (N.eqb_spec c 102) as [->|N2]].
        * destruct Hzone as (rz & ->). destruct (cat_holds p _ zn rz Lp Lzone Hl2) as (out & s & E & Hout & R). exists s, out. split; [exact E|]. split; [exact Hout|].
          destruct R as [(-> & H)|(-> & H)]; [left|right]; (split; [reflexivity|]); [exists (p ++ zn); split; [apply qu_zone|exact H]|]. intros m Q. rewrite (qualified_fun _ _ _ _ Q (qu_zone zn k p)). exact H.
        * destruct Hf as (Lf & _ & rf & ->). destruct (cat_holds p _ (c_file k) rf Lp Lf Hl2) as (out & s & E & Hout & R). exists s, out. split; [exact E|]. split; [exact Hout|].
          destruct R as [(-> & H)|(-> & H)]; [left|right]; (split; [reflexivity|]); [exists (p ++ c_file k); split; [apply qu_file|exact H]|]. intros m Q. rewrite (qualified_fun _ _ _ _ Q (qu_file zn k p)). exact H.
        * exists DNAME_INVALID. eexists. split; [reflexivity|]. split; [exact Hl2|]. right. split; [reflexivity|]. intros m Q. exfalso.
          apply qualified_cases in Q. destruct Q as [(E & _)|[(q & E & _)|[(q & E & _)|(_ & B & _)]]]; [symmetry in E; apply one_snoc in E; discriminate|apply snoc_inj in E as (_ & E); congruence|apply snoc_inj in E as (_ & E); congruence|now apply (B p c)].
      + destruct Ho as (Lo & _ & ro & ->). destruct (cat_holds (p ++ [x0 :: x]) r (c_origin k) ro Lw Lo Hlen) as (out & s & E & Hout & R). exists s, out. split; [exact E|]. split; [exact Hout|].
        assert (Q : qualified zn k (p ++ [x0 :: x]) ((p ++ [x0 :: x]) ++ c_origin k)).
        { apply qu_rel.
          - intros H. change [codes "@"] with ([] ++ [codes "@"]) in H. apply snoc_inj in H as (-> & H). injection H as -> ->. cbn in Qat. destruct (B2 eq_refl) as (_ & X). injection X as <-. discriminate.
          - intros q c H. apply snoc_inj in H as (_ & H). injection H as -> ->. discriminate. }
        destruct R as [(-> & H)|(-> & H)]; [left|right]; (split; [reflexivity|]); [eauto|]. intros m Q'. rewrite (qualified_fun _ _ _ _ Q' Q). exact H.
  Qed.

  (** names on the right *)
  Lemma set_right k z dn t : all_bytes t -> t <> [] -> length dn = 256%nat -> holds (z_origin z) (c_origin k) -> holds (z_forigin z) (c_file k) ->
    exists x, dname_set zone z dn t false = Ok x /\
      match x with
      | Some (b, o) => o = false /\ exists n, name_means zn k t n /\ holds b n
      | None => forall n, ~ name_means zn k t n
      end.
  Proof.
    intros Hb Nt Hd Ho Hf. unfold dname_set. destruct t as [|c t]; [congruence|]. cbn [length Nat.eqb].
    destruct (from_string_total dn (c :: t) Hd Hb) as (s & out & E & Hl & Snd & Cmp). rewrite E. cbn [rbind]. destruct s.
    - eexists. split; [reflexivity|]. split; [reflexivity|]. destruct Snd as (ls & rest & T & L & ->); [discriminate|]. cbn [status_eqb] in *.
      exists ls. split; [|split; [exact L|split; [exact Hl|eauto]]]. split; [discriminate|]. split; [exact L|]. exists ls, true. auto.
    - destruct Snd as (ls & rest & T & L & ->); [discriminate|]. cbn [status_eqb] in *.
      assert (Nl : ls <> []). { intros ->. inversion T; subst. inversion H. }
      destruct (qualify_ok k ls rest (z_origin z) (z_forigin z) L Nl Hl Ho Hf) as (s & b & -> & Hlb & [(-> & n & Q & Hn)|(-> & Bad)]); cbn [rbind status_eqb rassert].
      + eexists. split; [reflexivity|]. split; [reflexivity|]. exists n. split; [|exact Hn]. split; [discriminate|]. split; [apply Hn|]. exists ls, false. auto.
      + eexists. split; [reflexivity|]. intros n (_ & Ln & w & fq & Tw & Lw & Q). destruct (C01_text_is_unambiguous _ _ _ _ _ Hb T Tw L Lw) as (<- & <-). now apply (Bad n).
    - eexists. split; [reflexivity|]. intros n (_ & Ln & w & fq & Tw & Lw & Q). destruct (Cmp _ _ Tw Lw) as (X & _). destruct fq; discriminate.
  Qed.

  Lemma qualified_in_zone k w n : (exists q, c_origin k = q ++ zn) -> (exists q, c_file k = q ++ zn) -> qualified zn k w n -> exists q, n = q ++ zn.
  Proof. intros (qo & Eo) (qf & Ef) [|p|p|w' _ _]; rewrite ?Eo, ?Ef; [eauto|eauto|exists (p ++ qf)|exists (w' ++ qo)]; now rewrite app_assoc. Qed.

  (** the owner *)
  Lemma set_left k z dn t : all_bytes t -> length dn = 256%nat -> holds (z_origin z) (c_origin k) -> holds (z_forigin z) (c_file k) ->
    (exists q, c_origin k = q ++ zn) -> (exists q, c_file k = q ++ zn) ->
    exists x, dname_set zone z dn t true = Ok x /\
      match x with
      | Some (b, o) => exists n, owner_means zn k t n o /\ holds b n
      | None => forall n o, ~ owner_means zn k t n o
      end.
  Proof.
    intros Hb Hd Ho Hf Io If.
    assert (Fin : forall b full, holds b full -> (if t then full = c_origin k else name_means zn k t full) ->
      exists x, (do inzone <- dname_isinzone zone b ; if (inzone : bool) then do dn <- dname_drop_zone b zone ; Ok (Some (dn, false)) else Ok (Some (b, true))) = Ok (Some x) /\
        exists n, owner_means zn k t n (snd x) /\ holds (fst x) n).
    { intros b full (Lb & Hlb & rb & ->) M. destruct Hzone as (rz & ->).
      destruct (isinzone_ok zn full rz rb (legal_struct _ Lzone) (legal_struct _ Lb)) as (i & -> & Ii). cbn [rbind]. destruct i.
      - destruct (proj1 Ii eq_refl) as (q & ->). destruct (drop_zone_ok q zn rb rz (legal_struct _ Lb) (legal_struct _ Lzone)) as (rest & -> & Hr). cbn [rbind].
        eexists. split; [reflexivity|]. cbn [fst snd]. exists q. split; [exists (q ++ zn); split; [exact M|reflexivity]|]. split; [now apply legal_prefix in Lb|]. split; [now rewrite Hr|eauto].
      - eexists. split; [reflexivity|]. cbn [fst snd]. exists full. split; [exists full; split; [exact M|split; [reflexivity|intros X; apply Ii in X; discriminate]]|]. split; [exact Lb|]. split; [exact Hlb|eauto]. }
    unfold dname_set. destruct t as [|c t].
    - cbn [length Nat.eqb rassert]. destruct Ho as (Lo & Hlo & ro & ->). destruct (copy_ok dn (c_origin k) ro Hd Lo) as (b & -> & Hbb). cbn [rbind].
      destruct (Fin b (c_origin k) Hbb eq_refl) as ((b' & o') & -> & n & M & H). eexists. split; [reflexivity|]. exists n. split; [exact M|exact H].
    - cbn [length Nat.eqb]. destruct (from_string_total dn (c :: t) Hd Hb) as (s & out & E & Hl & Snd & Cmp). rewrite E. cbn [rbind]. destruct s.
      + destruct Snd as (ls & rest & T & L & ->); [discriminate|]. cbn [status_eqb] in *.
        destruct (Fin (dname ls true ++ rest) ls) as ((b' & o') & -> & n & M & H).
        * split; [exact L|]. split; [exact Hl|eauto].
        * split; [discriminate|]. split; [exact L|]. exists ls, true. auto.
        * eexists. split; [reflexivity|]. exists n. split; [exact M|exact H].
      + destruct Snd as (ls & rest & T & L & ->); [discriminate|]. cbn [status_eqb] in *.
        assert (Nl : ls <> []). { intros ->. inversion T; subst. inversion H. }
        destruct (qualify_ok k ls rest (z_origin z) (z_forigin z) L Nl Hl Ho Hf) as (s & b & -> & Hlb & [(-> & n & Q & Hn)|(-> & Bad)]); cbn [rbind status_eqb rassert].
        * destruct (qualified_in_zone k ls n Io If Q) as (q & ->). destruct Hn as (Ln & _ & rb & ->). destruct Hzone as (rz & ->).
          destruct (drop_zone_ok q zn rb rz (legal_struct _ Ln) (legal_struct _ Lzone)) as (rest2 & -> & Hr). cbn [rbind].
          eexists. split; [reflexivity|]. exists q. split; [|split; [now apply legal_prefix in Ln|]; split; [now rewrite Hr|eauto]].
          exists (q ++ zn). split; [|reflexivity]. split; [discriminate|]. split; [exact Ln|]. exists ls, false. auto.
        * eexists. split; [reflexivity|]. intros n o (full & (_ & Ln & w & fq & Tw & Lw & Q) & _). destruct (C01_text_is_unambiguous _ _ _ _ _ Hb T Tw L Lw) as (<- & <-). now apply (Bad full).
      + eexists. split; [reflexivity|]. intros n o (full & (_ & Ln & w & fq & Tw & Lw & Q) & _). destruct (Cmp _ _ Tw Lw) as (X & _). destruct fq; discriminate.
  Qed.
  Lemma owner_means_fun k t n1 o1 n2 o2 : all_bytes t -> owner_means zn k t n1 o1 -> owner_means zn k t n2 o2 -> n1 = n2 /\ o1 = o2.
  Proof.
    intros Hb (f1 & M1 & O1) (f2 & M2 & O2). assert (E : f1 = f2) by (destruct t; [congruence|eapply name_means_fun; eauto]). subst f2.
    destruct o1, o2.
    - destruct O1, O2. split; congruence.
    - destruct O1 as (_ & N). exfalso. apply N. eauto.
    - destruct O2 as (_ & N). exfalso. apply N. eauto.
    - split; [|reflexivity]. subst f1. now apply app_inv_tail in O2.
  Qed.
End Names.
