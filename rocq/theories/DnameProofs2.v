(** Printing, concatenation, zone membership and stripping of names. *)
From Verif Require Import Base DnameModel DnameSpec DnameProofs.
Ltac Zify.zify_post_hook ::= idtac.
Local Open Scope nat_scope.

(** ** Printing *)
Definition show (l : label) : bytes := flat_map show_byte l.
Definition text_of (ls : list label) : bytes := flat_map (fun l => show l ++ [46%N]) ls.
Definition shown (ls : list label) (fq : bool) : bytes := if fq then text_of ls else removelast (text_of ls).

Lemma show_byte_len b : 1 <= length (show_byte b) <= 4.
Proof. unfold show_byte. destruct ((32 <? b)%N && (b <? 127)%N); cbn [length]; lia. Qed.

Lemma show_len l : length l <= length (show l) <= 4 * length l.
Proof.
  induction l as [|b l IH]; cbn [show flat_map length]; [lia|]. rewrite app_length.
  pose proof (show_byte_len b). unfold show in IH. lia.
Qed.

Lemma text_of_len ls : length (text_of ls) <= 4 * (wire_len ls - 1).
Proof.
  induction ls as [|l r IH]; [cbn; lia|]. unfold text_of in *. cbn [flat_map].
  rewrite !app_length, wire_len_cons. cbn [length]. pose proof (show_len l). pose proof (wire_len_pos r). lia.
Qed.

Lemma text_of_len2 ls : Forall struct_label ls -> ls <> [] -> length (text_of ls) <= 4 * (wire_len ls - 1) - 3.
Proof.
  intros H Hne. destruct ls as [|l r]; [congruence|]. pose proof (text_of_len r).
  unfold text_of in *. cbn [flat_map].
  rewrite !app_length, wire_len_cons. cbn [length]. pose proof (show_len l). pose proof (wire_len_pos r). lia.
Qed.

Lemma emit_ok cap out add : length out + length add <= cap -> emit cap out add = Ok (out ++ add).
Proof. intros H. unfold emit. apply Nat.leb_le in H. now rewrite H. Qed.

Lemma show_label_ok cap : forall l pre rest out, length out + length (show l) <= cap ->
  show_label (length l) cap (pre ++ l ++ rest) (length pre) out = Ok (length pre + length l, out ++ show l).
Proof.
  induction l as [|b l IH]; intros pre rest out Hc; cbn [length show_label show flat_map].
  - now rewrite Nat.add_0_r, app_nil_r.
  - cbn [app]. rewrite rd_app_len. cbn [rbind]. cbn [show flat_map] in Hc. rewrite app_length in Hc.
    rewrite emit_ok by lia. cbn [rbind].
    specialize (IH (pre ++ [b]) rest (out ++ show_byte b)).
    rewrite !app_length in IH. cbn [length] in IH. rewrite <- !app_assoc in IH. cbn [app] in IH.
    replace (length pre + 1) with (S (length pre)) in IH by lia.
    rewrite IH by (unfold show; lia). do 2 f_equal; try lia.
Qed.

Lemma text_of_cons l r : text_of (l :: r) = show l ++ 46%N :: text_of r.
Proof. unfold text_of. cbn [flat_map]. now rewrite <- app_assoc. Qed.

Lemma removelast_app_one {A} (l : list A) x : removelast (l ++ [x]) = l.
Proof. induction l as [|y l IH]; auto. cbn [app]. destruct (l ++ [x]) eqn:E; [destruct l; discriminate E|]. cbn [removelast]. rewrite <- IH. reflexivity. Qed.

Lemma removelast_len {A} (l : list A) : length (removelast l) <= length l.
Proof.
  induction l as [|y l IH]; auto. cbn [removelast length]. destruct l; cbn [length] in *; lia.
Qed.

Lemma to_string_loop_ok cap fq : forall ls pre rest out fuel, Forall struct_label ls -> length ls < fuel ->
  length out + length (text_of ls) + 1 <= cap ->
  to_string_loop fuel cap (pre ++ wire_labels ls ++ term fq :: rest) (length pre) out
  = Ok (if fq then out ++ text_of ls else removelast (out ++ text_of ls)).
Proof.
  induction ls as [|l r IH]; intros pre rest out fuel Hs Hf Hc; (destruct fuel as [|fuel]; [lia|]).
  - cbn [to_string_loop wire_labels app]. rewrite rd_app_len. cbn [rbind text_of flat_map]. rewrite app_nil_r.
    destruct fq; cbn [term N.eqb].
    + rewrite emit_ok by (cbn [length text_of flat_map] in *; lia). reflexivity.
    + replace (match out with [] => out | _ => removelast out end) with (removelast out) by (destruct out; reflexivity).
      pose proof (removelast_len out). cbn [text_of flat_map length] in Hc.
      rewrite emit_ok by (cbn [length]; lia). reflexivity.
  - inversion Hs as [|? ? Hl Hr]; subst. unfold struct_label in Hl.
    cbn [to_string_loop wire_labels app]. rewrite rd_app_len. cbn [rbind].
    destruct (N.eqb_spec (N.of_nat (length l)) 0); [lia|]. destruct (N.eqb_spec (N.of_nat (length l)) 255); [lia|].
    rewrite Nat2N.id. rewrite text_of_cons, app_length in Hc. cbn [length] in Hc.
    pose proof (show_label_ok cap l (pre ++ [N.of_nat (length l)]) (wire_labels r ++ term fq :: rest) out) as E.
    rewrite app_length in E. cbn [length] in E. rewrite <- !app_assoc in E. cbn [app] in E.
    replace (length pre + 1) with (S (length pre)) in E by lia. rewrite <- app_assoc. rewrite E by lia.
    cbn [rbind]. rewrite emit_ok by (rewrite app_length; cbn [length]; lia). cbn [rbind].
    specialize (IH (pre ++ N.of_nat (length l) :: l) rest ((out ++ show l) ++ [46%N]) fuel Hr).
    rewrite !app_length in IH. cbn [length] in IH, Hf. rewrite <- !app_assoc in IH. cbn [app] in IH.
    rewrite <- app_assoc. replace (S (length pre) + length l) with (length pre + S (length l)) by lia.
    rewrite IH by lia. rewrite text_of_cons. reflexivity.
Qed.

Lemma labels_lt_wire ls : length ls < wire_len ls.
Proof. induction ls as [|l r IH]; [unfold wire_len; cbn; lia|]. rewrite wire_len_cons. cbn [length]. lia. Qed.

Lemma to_string_ok ls fq rest : struct_name ls ->
  dname_to_string 1024 (dname ls fq ++ rest) = Ok (shown ls fq).
Proof.
  intros [Hs Hl]. unfold dname_to_string. rewrite status_dname by (split; assumption). cbn [rbind].
  replace (negb (status_eqb (if fq then DNAME_VALID else DNAME_PARTIAL) DNAME_INVALID)) with true by (destruct fq; reflexivity).
  cbn [rassert]. pose proof (labels_lt_wire ls).
  pose proof (to_string_loop_ok 1024 fq ls [N.of_nat (wire_len ls)] rest [] 256 Hs) as E.
  rewrite dname_unfold. cbn [length app] in *. rewrite <- app_assoc. cbn [app]. rewrite E; [reflexivity|lia|].
  pose proof (text_of_len ls). pose proof (text_of_len2 ls Hs).
  destruct ls; [cbn; lia|]. specialize (H1 ltac:(discriminate)). lia.
Qed.

(** ** Parsing the printed text *)
Lemma escaped_app a x b y : escaped a x -> escaped b y -> escaped (a ++ b) (x ++ y).
Proof. induction 1; intros Hb; cbn [app]; auto; constructor; auto. Qed.

Ltac Zify.zify_post_hook ::= Z.div_mod_to_equations.
Lemma show_byte_escaped b : is_byte b -> b <> 46%N -> b <> 92%N -> escaped (show_byte b) [b].
Proof.
  intros Hb H1 H2. unfold show_byte.
  destruct ((32 <? b)%N && (b <? 127)%N); [repeat constructor; auto|].
  unfold is_byte in Hb.
  assert (A : ((48 + b / 100 - 48) * 100 + (48 + (b / 10) mod 10 - 48) * 10 + (48 + b mod 10 - 48) = b)%N).
  { lia. }
  replace [b] with [((48 + b / 100 - 48) * 100 + (48 + (b / 10) mod 10 - 48) * 10 + (48 + b mod 10 - 48))%N] by (now rewrite A).
  apply esc_num; unfold is_digit; try lia. constructor.
Qed.
Ltac Zify.zify_post_hook ::= idtac.

Definition plain_label (l : label) : Prop := Forall (fun b => b <> 46 /\ b <> 92)%N l.

Lemma show_escaped l : all_bytes l -> plain_label l -> escaped (show l) l.
Proof.
  induction 1 as [|b l Hb Hl IH]; intros Hp; [constructor|]. inversion Hp as [|? ? [H1 H2] Hp2]; subst.
  cbn [show flat_map]. apply (escaped_app _ [b]); [now apply show_byte_escaped|auto].
Qed.

Lemma text_label_text ls : Forall legal_label ls -> Forall plain_label ls -> ls <> [] ->
  labels_text (text_of ls) (map (map lower) ls) true /\
  labels_text (removelast (text_of ls)) (map (map lower) ls) false.
Proof.
  induction 1 as [|l r Hl Hr IH]; intros Hp Hne; [congruence|]. inversion Hp as [|? ? P1 P2]; subst.
  assert (Ht : label_text (show l) (map lower l)).
  { exists l. destruct Hl as [Hl Hb]. split; [now apply show_escaped|]. split; auto. destruct l; [cbn in Hl; lia|discriminate]. }
  destruct r as [|l2 r2].
  - cbn [text_of flat_map map]. rewrite app_nil_r. split; [now apply lt_dot|].
    rewrite removelast_app_one. now apply lt_last.
  - destruct (IH P2) as [I1 I2]; [discriminate|]. rewrite text_of_cons. cbn [map]. split.
    + now apply lt_more.
    + pose proof (labels_text_ne _ _ _ I1) as [Hnn _].
      replace (show l ++ 46%N :: text_of (l2 :: r2)) with ((show l ++ [46%N]) ++ text_of (l2 :: r2)) by (now rewrite <- app_assoc).
      rewrite removelast_app by assumption. rewrite <- app_assoc. now apply lt_more.
Qed.

Lemma shown_name_text ls fq : legal_name ls -> Forall plain_label ls -> (ls <> [] \/ fq = false) ->
  name_text (shown ls fq) (map (map lower) ls) fq.
Proof.
  intros [Hf Hl] Hp Hc. destruct ls as [|l r].
  - destruct Hc as [Hc| ->]; [congruence|]. constructor.
  - apply nt_labels. destruct (text_label_text (l :: r) Hf Hp ltac:(discriminate)) as [H1 H2]. destruct fq; assumption.
Qed.

Lemma wire_len_map f ls : wire_len (map (map f) ls) = wire_len ls.
Proof.
  induction ls as [|l r IH]; auto. cbn [map]. rewrite !wire_len_cons, IH. now rewrite map_length.
Qed.

Lemma legal_lower ls : legal_name ls -> legal_name (map (map lower) ls).
Proof.
  intros [H1 H2]. split; [|now rewrite wire_len_map]. apply Forall_map. eapply Forall_impl; [|exact H1].
  intros l [Ha Hb]. split; [now rewrite map_length|]. apply Forall_map. eapply Forall_impl; [|exact Hb]. apply lower_byte.
Qed.

Ltac Zify.zify_post_hook ::= Z.div_mod_to_equations.
Lemma shown_bytes ls fq : Forall legal_label ls -> all_bytes (shown ls fq).
Proof.
  intros H. assert (G : all_bytes (text_of ls)).
  { induction H as [|l r [_ Hb] Hr IH]; [constructor|]. rewrite text_of_cons. apply Forall_app. split.
    - clear - Hb. induction Hb as [|b l H1 H2 IH]; [constructor|]. cbn [show flat_map]. apply Forall_app. split; [|exact IH].
      unfold show_byte, is_byte in *.
      destruct ((32 <? b)%N && (b <? 127)%N); repeat constructor; unfold is_byte; lia.
    - constructor; [unfold is_byte; lia|exact IH]. }
  destruct fq; [exact G|]. unfold shown. destruct (text_of ls) as [|x t] eqn:E using rev_ind; [constructor|].
  rewrite removelast_app_one. apply Forall_app in G as [G _]. exact G.
Qed.
Ltac Zify.zify_post_hook ::= idtac.

(** ** Concatenation *)
Lemma rdn_dname ls fq rest : rdn (dname ls fq ++ rest) 1 (wire_len ls) = Ok (wire_labels ls ++ [term fq]).
Proof.
  rewrite rdn_ok by (rewrite app_length, dname_length; lia).
  rewrite dname_unfold. unfold sub. cbn [app skipn]. f_equal.
  rewrite firstn_app, firstn_all2 by (rewrite app_length; cbn [length]; rewrite <- wire_labels_len; lia).
  rewrite app_length. cbn [length]. rewrite <- wire_labels_len.
  replace (S (length (wire_labels ls)) - (length (wire_labels ls) + 1)) with 0 by lia. now rewrite firstn_O, app_nil_r.
Qed.

Lemma rd_dname0 ls fq rest : rd (dname ls fq ++ rest) 0 = Ok (N.of_nat (wire_len ls)).
Proof. now rewrite dname_unfold. Qed.

Lemma valid_not_invalid (fq : bool) : negb (status_eqb (if fq then DNAME_VALID else DNAME_PARTIAL) DNAME_INVALID) = true.
Proof. destruct fq; reflexivity. Qed.

Lemma cat_ok a fa ra b fb rb : struct_name a -> struct_name b -> length (dname a fa ++ ra) = 256 ->
  exists out, length out = 256 /\
  dname_cat (dname a fa ++ ra) (dname b fb ++ rb) =
    Ok (if Nat.leb (wire_len (a ++ b)) 255 then if fb then DNAME_VALID else DNAME_PARTIAL else DNAME_INVALID, out) /\
  (if Nat.leb (wire_len (a ++ b)) 255 then exists rest, out = dname (a ++ b) fb ++ rest
   else out = dname a fa ++ ra).
Proof.
  intros Ha Hb Hlen. unfold dname_cat. rewrite !status_dname, !rd_dname0 by assumption. cbn [rbind].
  rewrite !valid_not_invalid. cbn [rassert]. rewrite !Nat2N.id. rewrite wire_len_app.
  destruct (Nat.ltb_spec (wire_len a + wire_len b - 1) 256) as [Hok|Hov].
  2:{ destruct (Nat.leb_spec (wire_len a + wire_len b - 1) 255); [lia|]. eexists. split; [|split; reflexivity]. exact Hlen. }
  destruct (Nat.leb_spec (wire_len a + wire_len b - 1) 255); [|lia].
  assert (Hda : dname a fa ++ ra = N.of_nat (wire_len a) :: (wire_labels a ++ [term fa]) ++ ra) by (now rewrite dname_unfold).
  rewrite Hda. rewrite wr_head. cbn [rbind]. rewrite rdn_dname. cbn [rbind].
  set (F := N.of_nat (wire_len a + wire_len b - 1)).
  rewrite app_length, dname_length in Hlen.
  pose proof (wr_prefix (F :: wire_labels a) (term fa :: ra) (wire_labels b ++ [term fb])) as W.
  cbn [length app] in W. rewrite wire_labels_len in W. rewrite <- app_assoc. cbn [app].
  rewrite W by (rewrite app_length; cbn [length]; rewrite Nat.add_1_r, wire_labels_len; lia). cbn [rbind].
  clear W. rewrite app_length. cbn [length]. rewrite Nat.add_1_r, wire_labels_len.
  set (tail := skipn (wire_len b) (term fa :: ra)).
  assert (Hd : F :: wire_labels a ++ (wire_labels b ++ [term fb]) ++ tail = dname (a ++ b) fb ++ tail).
  { rewrite dname_unfold, wire_labels_app, wire_len_app. cbn [app]. now rewrite !app_assoc. }
  rewrite Hd.
  assert (He : rd (dname (a ++ b) fb ++ tail) (wire_len a + wire_len b - 1) = Ok (term fb)).
  { rewrite dname_unfold. cbn [app]. rewrite <- app_assoc.
    pose proof (rd_app_len (N.of_nat (wire_len (a ++ b)) :: wire_labels (a ++ b)) (term fb) tail) as R.
    cbn [length app] in R. rewrite wire_labels_len, wire_len_app in R. rewrite wire_len_app. exact R. }
  rewrite He. cbn [rbind]. eexists. split; [|split].
  2:{ destruct fb; reflexivity. }
  - rewrite app_length, dname_length, wire_len_app. unfold tail. rewrite skipn_length. cbn [length].
    pose proof (wire_len_pos a). pose proof (wire_len_pos b). lia.
  - eauto.
Qed.

(** ** Zone membership *)
Lemma beqb_spec a : forall b, beqb a b = true <-> a = b.
Proof.
  induction a as [|x a IH]; intros [|y b]; cbn [beqb]; try (split; [discriminate|discriminate]); [tauto|].
  rewrite andb_true_iff, N.eqb_eq, IH. split; [intros [-> ->]; auto|intros [= -> ->]; auto].
Qed.

Lemma walk_ok b0 tl stop : forall r pre fuel, length r < fuel -> stop <= length (wire_labels (pre ++ r)) ->
  Forall struct_label r ->
  exists r1 r2, r = r1 ++ r2 /\
    label_walk fuel (b0 :: wire_labels (pre ++ r) ++ tl) (length (wire_labels pre)) stop = Ok (length (wire_labels (pre ++ r1))) /\
    (forall q s, r = q ++ s -> length (wire_labels (pre ++ q)) = stop -> length (wire_labels (pre ++ r1)) = stop).
Proof.
  induction r as [|l r IH]; intros pre fuel Hf Hs Hl; (destruct fuel as [|fuel]; [cbn in Hf; lia|]); cbn [label_walk].
  - rewrite app_nil_r in *. destruct (Nat.ltb_spec (length (wire_labels pre)) stop); [lia|].
    exists [], []. split; [reflexivity|]. split; [now rewrite app_nil_r|].
    intros q s E. symmetry in E. apply app_eq_nil in E as [-> ->]. auto.
  - destruct (Nat.ltb_spec (length (wire_labels pre)) stop) as [Hlt|Hge].
    + assert (E : rd (b0 :: wire_labels (pre ++ l :: r) ++ tl) (S (length (wire_labels pre))) = Ok (N.of_nat (length l))).
      { rewrite wire_labels_app. cbn [wire_labels]. rewrite <- app_assoc. cbn [app].
        apply (rd_app_len (b0 :: wire_labels pre)). }
      rewrite E. cbn [rbind]. rewrite Nat2N.id. inversion Hl; subst.
      destruct (IH (pre ++ [l]) fuel) as (r1 & r2 & E1 & E2 & E3); auto.
      { cbn [length] in Hf. lia. }
      { rewrite <- app_assoc. exact Hs. }
      exists (l :: r1), r2. split; [now rewrite E1|]. split.
      * replace (length (wire_labels pre) + 1 + length l) with (length (wire_labels (pre ++ [l]))).
        2:{ rewrite wire_labels_app, app_length. cbn [wire_labels length]. rewrite app_nil_r. lia. }
        rewrite <- app_assoc in E2. cbn [app] in E2. rewrite E2, <- app_assoc. reflexivity.
      * intros q s Eq Hq. destruct q as [|l2 q].
        { rewrite app_nil_r in Hq. lia. }
        cbn [app] in Eq. injection Eq as <- Eq. rewrite <- app_assoc in E3. cbn [app] in E3.
        eapply E3; eauto. now rewrite <- app_assoc.
    + exists [], (l :: r). split; [reflexivity|]. rewrite app_nil_r. split; [reflexivity|].
      intros q s Eq Hq. rewrite wire_labels_app, app_length in Hq. lia.
Qed.

Lemma isinzone_ok p c rp rc : struct_name p -> struct_name c ->
  exists b, dname_isinzone (dname p true ++ rp) (dname c true ++ rc) = Ok b /\
  (b = true <-> exists q, c = q ++ p).
Proof.
  intros Hp Hc. unfold dname_isinzone. rewrite !status_dname, !rd_dname0 by assumption.
  cbn [rbind status_eqb rassert]. rewrite !Nat2N.id.
  destruct (Nat.ltb_spec (wire_len c) (wire_len p)) as [Hlt|Hge].
  { exists false. split; [reflexivity|]. split; [discriminate|]. intros (q & ->). rewrite wire_len_app in Hlt.
    pose proof (wire_len_pos q). lia. }
  rewrite rdn_dname.
  rewrite rdn_ok by (rewrite app_length, dname_length; lia). cbn [rbind].
  set (stop := wire_len c - wire_len p). pose proof (wire_len_pos p) as Hpp.
  assert (Hsub : sub (dname c true ++ rc) (1 + stop) (wire_len p) = skipn stop (wire_labels c ++ [0%N])).
  { rewrite dname_unfold. unfold sub. cbn [app skipn Nat.add]. rewrite <- app_assoc. cbn [app term].
    replace (wire_labels c ++ 0%N :: rc) with ((wire_labels c ++ [0%N]) ++ rc) by (now rewrite <- app_assoc).
    pose proof (wire_labels_len c). pose proof (wire_labels_len p).
    assert (length (wire_labels c ++ [0%N]) = wire_len c) by (rewrite app_length; cbn [length]; lia).
    rewrite skipn_app, firstn_app. rewrite firstn_all2 by (rewrite skipn_length; lia).
    rewrite skipn_length. replace (wire_len p - (length (wire_labels c ++ [0%N]) - stop)) with 0 by lia.
    now rewrite firstn_O, app_nil_r. }
  destruct (walk_ok (N.of_nat (wire_len c)) (0%N :: rc) stop c [] 256) as (r1 & r2 & E1 & E2 & E3).
  { pose proof (labels_lt_wire c). destruct Hc. lia. }
  { cbn [app]. pose proof (wire_labels_len c). lia. }
  { apply Hc. }
  cbn [app length wire_labels] in E2, E3.
  assert (Hbuf : dname c true ++ rc = N.of_nat (wire_len c) :: wire_labels c ++ 0%N :: rc).
  { rewrite dname_unfold. cbn [app]. now rewrite <- app_assoc. }
  assert (Hin : (exists q, c = q ++ p) <-> skipn stop (wire_labels c ++ [0%N]) = wire_labels p ++ [0%N] /\ length (wire_labels r1) = stop).
  { split.
    - intros (q & ->). pose proof (wire_labels_len q).
      assert (Hst : stop = length (wire_labels q)).
      { unfold stop. rewrite wire_len_app. lia. }
      split.
      + rewrite Hst, wire_labels_app, <- app_assoc, skipn_app, skipn_all, Nat.sub_diag. reflexivity.
      + eapply E3; eauto.
    - intros [Hs Hr]. exists r1. subst c. f_equal. rewrite wire_labels_app, <- app_assoc, <- Hr, skipn_app, skipn_all, Nat.sub_diag in Hs.
      cbn [app skipn] in Hs. destruct Hc as [Hc _]. apply Forall_app in Hc as [_ Hc]. destruct Hp as [Hp _].
      eapply wire_inj in Hs as (? & _); eauto. }
  cbn [term]. rewrite Hsub.
  destruct (beqb (skipn stop (wire_labels c ++ [0%N])) (wire_labels p ++ [0%N])) eqn:Eb; cbn [negb].
  - rewrite Hbuf. rewrite E2. cbn [rbind]. eexists; split; [reflexivity|].
    rewrite Nat.eqb_eq, Hin. apply beqb_spec in Eb. tauto.
  - eexists; split; [reflexivity|]. split; [discriminate|]. rewrite Hin. intros [Hs _]. apply beqb_spec in Hs. congruence.
Qed.

Lemma drop_zone_ok q p rq rp : struct_name (q ++ p) -> struct_name p ->
  exists rest, dname_drop_zone (dname (q ++ p) true ++ rq) (dname p true ++ rp) = Ok (dname q true ++ rest)
    /\ length (dname q true ++ rest) = length (dname (q ++ p) true ++ rq).
Proof.
  intros Hq Hp. unfold dname_drop_zone. rewrite !status_dname, !rd_dname0 by assumption.
  cbn [rbind status_eqb rassert]. pose proof (wire_len_pos q). pose proof (wire_len_pos p).
  rewrite !Nat2N.id. rewrite wire_len_app.
  replace ((N.of_nat (wire_len p) <=? N.of_nat (wire_len q + wire_len p - 1))%N) with true by (symmetry; apply N.leb_le; lia).
  cbn [rassert]. replace (wire_len q + wire_len p - 1 - (wire_len p - 1)) with (wire_len q) by lia.
  assert (exists h t, wire_labels p ++ [0%N] = h :: t) as (h & t & Eh).
  { destruct (wire_labels p ++ [0%N]) eqn:E; [now apply app_eq_nil in E as [_ E]|eauto]. }
  assert (Eb : dname (q ++ p) true ++ rq = (N.of_nat (wire_len (q ++ p)) :: wire_labels q) ++ h :: t ++ rq).
  { rewrite dname_unfold, wire_labels_app. cbn [app term]. rewrite <- !app_assoc. rewrite (app_assoc (wire_labels p)).
    now rewrite Eh. }
  rewrite Eb. pose proof (rd_app_len (N.of_nat (wire_len (q ++ p)) :: wire_labels q) h (t ++ rq)) as R.
  cbn [length] in R. rewrite wire_labels_len in R. rewrite R. cbn [rbind].
  assert (R2 : rd (dname p true ++ rp) 1 = Ok h).
  { rewrite dname_unfold. cbn [term]. rewrite Eh. reflexivity. }
  rewrite R2. cbn [rbind]. rewrite N.eqb_refl. cbn [rassert app]. rewrite wr_head. cbn [rbind].
  pose proof (wr_prefix (N.of_nat (wire_len q) :: wire_labels q) (h :: t ++ rq) [0%N]) as W.
  cbn [length app] in W. rewrite wire_labels_len in W. rewrite W by (cbn [length]; lia). cbn [skipn].
  exists (t ++ rq). rewrite (dname_unfold q). cbn [app]. rewrite <- app_assoc. split; [reflexivity|].
  cbn [length]. rewrite !app_length. cbn [length]. rewrite !app_length. reflexivity.
Qed.

Lemma dname_eq_ok a fa ra b fb rb : struct_name a -> struct_name b ->
  exists r, dname_eq (dname a fa ++ ra) (dname b fb ++ rb) = Ok r /\ (r = true <-> a = b /\ fa = fb).
Proof.
  intros Ha Hb. unfold dname_eq. rewrite !status_dname, !rd_dname0 by assumption. cbn [rbind].
  rewrite !valid_not_invalid. cbn [rassert].
  destruct (N.eqb_spec (N.of_nat (wire_len a)) (N.of_nat (wire_len b))) as [E|E].
  - apply Nat2N.inj in E. rewrite Nat2N.id, rdn_dname. rewrite E, rdn_dname. cbn [rbind].
    eexists; split; [reflexivity|]. rewrite beqb_spec. split.
    + intros Eq. destruct Ha as [Ha _], Hb as [Hb _].
      eapply wire_inj in Eq as (-> & Et & _); eauto using term_cases. split; auto. destruct fa, fb; auto; discriminate Et.
    + intros [-> ->]; reflexivity.
  - eexists; split; [reflexivity|]. split; [discriminate|]. intros [-> _]. congruence.
Qed.

Lemma terminate_ok ls fq rest : struct_name ls ->
  dname_terminate (dname ls fq ++ rest) = Ok (dname ls true ++ rest).
Proof.
  intros [_ H]. unfold dname_terminate. rewrite rd_dname0. cbn [rbind]. pose proof (wire_len_pos ls).
  destruct (N.ltb_spec 0 (N.of_nat (wire_len ls))); [|lia]. cbn [rassert]. rewrite Nat2N.id, !dname_unfold. cbn [app].
  pose proof (wr_prefix (N.of_nat (wire_len ls) :: wire_labels ls) (term fq :: rest) [0%N]) as W.
  cbn [length app] in W. rewrite wire_labels_len in W. rewrite <- !app_assoc. cbn [app]. rewrite W by (cbn [length]; lia).
  reflexivity.
Qed.

Lemma iswild_ok ls fq rest : struct_name ls ->
  exists b, dname_iswild (dname ls fq ++ rest) = Ok b /\ (b = true <-> exists r, ls = [42%N] :: r).
Proof.
  intros Hs. unfold dname_iswild. rewrite status_dname by assumption. cbn [rbind]. rewrite valid_not_invalid. cbn [rassert].
  rewrite dname_unfold. destruct ls as [|l r].
  - exists false. split; [destruct fq; reflexivity|]. split; [discriminate|intros (r & E); discriminate E].
  - cbn [wire_labels app]. unfold rd at 1. cbn [nth_error rbind].
    destruct (N.eqb_spec (N.of_nat (length l)) 1) as [E|E].
    + destruct l as [|x [|y l]]; [discriminate E| |exfalso; cbn [length] in E; lia].
      cbn [app]. unfold rd. cbn [nth_error rbind]. eexists; split; [reflexivity|].
      rewrite N.eqb_eq. split; [intros ->; eauto|]. intros (r2 & [= ->]). reflexivity.
    + eexists; split; [reflexivity|]. split; [discriminate|]. intros (r2 & [= -> ->]). cbn in E. congruence.
Qed.
