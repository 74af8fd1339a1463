From Verif Require Import Base DnameModel DnameSpec DnameProofs PktModel PktSpec PktProofs.
Ltac Zify.zify_post_hook ::= idtac.

Lemma land192 (b : N) : (b < 256)%N -> (N.land b 192 = 0 <-> b < 64)%N.
Proof.
  intros H.
  assert (Q : forallb (fun n => Bool.eqb (N.land (N.of_nat n) 192 =? 0)%N (N.of_nat n <? 64)%N) (seq 0 256) = true)
    by (vm_compute; reflexivity).
  rewrite forallb_forall in Q. specialize (Q (N.to_nat b)). rewrite N2Nat.id in Q.
  assert (I : In (N.to_nat b) (seq 0 256)) by (apply in_seq; lia). apply Q in I. apply eqb_prop in I.
  destruct (N.eqb_spec (N.land b 192) 0); destruct (N.ltb_spec b 64); try discriminate I; split; intros; try assumption; try lia; contradiction.
Qed.

Lemma map_lower_legal l : legal_label l -> legal_label (map lower l).
Proof.
  intros [H1 H2]. split; [now rewrite map_length|]. apply Forall_map. eapply Forall_impl; [|exact H2]. apply lower_byte.
Qed.
Lemma wire_len_lower ls : wire_len (map (map lower) ls) = wire_len ls.
Proof. induction ls as [|l r IH]; [reflexivity|]. cbn [map]. rewrite !wire_len_cons, map_length, IH. reflexivity. Qed.
Lemma legal_lower ls : legal_name ls -> legal_name (map (map lower) ls).
Proof.
  intros [H1 H2]. split; [|now rewrite wire_len_lower]. apply Forall_map. eapply Forall_impl; [|exact H1]. apply map_lower_legal.
Qed.

Lemma question_name_ok : forall fuel pre done tail,
  length (wire_labels done) <= 254 -> 255 < fuel + length (wire_labels done) ->
  Forall legal_label done -> tail <> [] -> all_bytes tail ->
  let r := question_name fuel (pre ++ wire_labels done ++ tail) (length pre) (length (wire_labels done ++ tail))
             (length (wire_labels done)) (wire_labels (map (map lower) done)) in
  (exists ls rest, legal_name (done ++ ls) /\ tail = wire_labels ls ++ 0%N :: rest /\
     r = Ok (Some (wire_len (done ++ ls), wire_labels (map (map lower) (done ++ ls)) ++ [0%N]))) \/
  (~ (exists ls rest, legal_name (done ++ ls) /\ tail = wire_labels ls ++ 0%N :: rest) /\ r = Ok None).
Proof.
  induction fuel as [|fuel IH]; intros pre done tail HL HF HD HT HB r; subst r; [lia|]. cbn [question_name].
  destruct tail as [|x tail]; [congruence|]. apply Forall_cons_iff in HB. destruct HB as [Hx HB]. unfold is_byte in Hx.
  rewrite rd_plus, rd_app_len. cbn [rbind].
  assert (Elq : length (wire_labels (map (map lower) done)) = length (wire_labels done)).
  { pose proof (wire_labels_len (map (map lower) done)). rewrite wire_len_lower, <- wire_labels_len in H. lia. }
  rewrite Elq. destruct (Nat.ltb_spec (length (wire_labels done)) 255) as [_|]; [|lia]. cbn [rassert].
  destruct (N.eqb_spec x 0) as [->|Nx].
  { left. exists [], tail. rewrite app_nil_r. split; [|split; [reflexivity|]].
    - split; [assumption|]. rewrite <- wire_labels_len. lia.
    - do 3 f_equal. rewrite <- wire_labels_len. lia. }
  assert (SH : forall ls rest, legal_name (done ++ ls) -> x :: tail = wire_labels ls ++ 0%N :: rest ->
     exists l ls', ls = l :: ls' /\ N.to_nat x = length l /\ length l <= 63 /\ tail = l ++ wire_labels ls' ++ 0%N :: rest /\
       wire_len (done ++ [l] ++ ls') <= 255).
  { intros ls rest [LG1 LG2] E. destruct ls as [|l ls']; cbn [wire_labels app] in E; [injection E as -> _; congruence|].
    injection E as -> E. exists l, ls'. split; [reflexivity|]. split; [lia|].
    apply Forall_app in LG1. destruct LG1 as [_ LG1]. inversion LG1 as [|? ? [Q _] _]; subst. split; [lia|].
    split; [now rewrite app_assoc|exact LG2]. }
  destruct (N.eqb_spec (N.land x 192) 0) as [Hb|Hb]; cbn [negb].
  2:{ right. split; [|reflexivity]. intros (ls & rest & LG & E). destruct (SH ls rest LG E) as (l & ls' & _ & Q & Q2 & _).
      apply Hb. apply land192; [assumption|lia]. }
  apply land192 in Hb; [|assumption].
  rewrite app_length. cbn [length].
  destruct (Nat.leb_spec (length (wire_labels done) + S (length tail)) (length (wire_labels done) + 1 + N.to_nat x)) as [L|L].
  { right. split; [|reflexivity]. intros (ls & rest & LG & E). destruct (SH ls rest LG E) as (l & ls' & _ & Q & Q2 & -> & _).
    rewrite !app_length in L. cbn [length] in L. lia. }
  destruct (Nat.ltb_spec 254 (length (wire_labels done) + 1 + N.to_nat x)) as [L2|L2].
  { right. split; [|reflexivity]. intros (ls & rest & LG & E). destruct (SH ls rest LG E) as (l & ls' & _ & Q & Q2 & _ & Q3).
    rewrite !wire_len_app, <- !wire_labels_len in Q3. cbn [wire_labels length] in Q3. rewrite !app_length in Q3. cbn [length] in Q3. lia. }
  assert (Erd : forall k, k = length (wire_labels done) + 1 -> rdn (wire_labels done ++ x :: tail) k (N.to_nat x) = Ok (sub tail 0 (N.to_nat x))).
  { intros k ->. replace (length (wire_labels done) + 1) with (length (wire_labels done ++ [x]) + 0) by (rewrite app_length; cbn; lia).
    change (x :: tail) with ([x] ++ tail). rewrite app_assoc, rdn_plus. apply rdn_ok. lia. }
  rewrite rdn_plus, Erd by reflexivity. clear Erd. cbn [rbind]. rewrite app_length, Elq. cbn [length].
  destruct (Nat.leb_spec (length (wire_labels done) + 1 + N.to_nat x) 255) as [_|]; [|lia]. cbn [rassert].
  set (l := sub tail 0 (N.to_nat x)).
  assert (Ll : length l = N.to_nat x) by (apply sub_length; lia).
  assert (Et : tail = l ++ skipn (N.to_nat x) tail).
  { unfold l, sub. cbn [skipn]. now rewrite firstn_skipn. }
  set (tail' := skipn (N.to_nat x) tail) in *.
  assert (HB' := HB). rewrite Et in HB'. apply Forall_app in HB'. destruct HB' as [HBl HBt].
  assert (Elab : [x] ++ l = wire_labels [l]).
  { cbn [wire_labels app]. rewrite Ll, N2Nat.id, app_nil_r. reflexivity. }
  assert (Ed : wire_labels done ++ x :: tail = wire_labels (done ++ [l]) ++ tail').
  { rewrite wire_labels_app, <- Elab, Et at 1. rewrite <- !app_assoc. reflexivity. }
  rewrite Ed.
  assert (Elow : (wire_labels (map (map lower) done) ++ [x]) ++ map downcase l = wire_labels (map (map lower) (done ++ [l]))).
  { rewrite map_app, wire_labels_app. cbn [map wire_labels]. rewrite map_length, Ll, N2Nat.id, app_nil_r, <- app_assoc.
    rewrite (map_ext _ _ downcase_lower). reflexivity. }
  rewrite Elow.
  assert (Elen : length (wire_labels done) + S (length tail) = length (wire_labels (done ++ [l]) ++ tail')).
  { rewrite <- Ed. rewrite !app_length. reflexivity. }
  replace (length (wire_labels done) + S (length tail)) with (length (wire_labels (done ++ [l]) ++ tail'))
    by (rewrite <- Elen; reflexivity).
  assert (Epos : length (wire_labels done) + 1 + N.to_nat x = length (wire_labels (done ++ [l]))).
  { rewrite wire_labels_app, <- Elab, !app_length, Ll. cbn [length]. lia. }
  rewrite Epos.
  destruct (IH pre (done ++ [l]) tail') as [(ls & rest & LG & E & R)|(NE & R)]; clear IH.
  - lia.
  - lia.
  - apply Forall_app. split; [assumption|]. constructor; [|constructor]. split; [lia|assumption].
  - intros E. rewrite E, app_nil_r in Et. rewrite Et, Ll in L. lia.
  - assumption.
  - left. exists (l :: ls), rest. rewrite <- app_assoc in LG. split; [assumption|]. split.
    + cbn [wire_labels]. rewrite Ll, N2Nat.id, <- app_comm_cons, <- app_assoc, <- E, <- Et. reflexivity.
    + rewrite R. rewrite <- app_assoc. reflexivity.
  - right. split; [|exact R]. intros (ls & rest & LG & E). destruct (SH ls rest LG E) as (l2 & ls' & -> & Q & Q2 & Q3 & _).
    assert (l2 = l /\ tail' = wire_labels ls' ++ 0%N :: rest) as [-> Q4].
    { unfold l, tail', sub. cbn [skipn]. rewrite Q, Q3.
      split; [now rewrite firstn_app, Nat.sub_diag, firstn_all, firstn_O, app_nil_r|].
      now rewrite skipn_app, Nat.sub_diag, skipn_all2 by lia. }
    apply NE. exists ls', rest. rewrite <- app_assoc. split; [exact LG|exact Q4].
Qed.

(** The question at the front of [Q]. *)
Lemma first_question_ok pre Q t : all_bytes Q ->
  let r := parse_first_question (pre ++ Q) t (length pre) in
  (exists q rest, question_ok q /\ Q = question_wire q ++ rest /\
     r = Ok (Some ({| t_max := t_max t; t_qtype := q_type q; t_qclass := q_class q; t_qdcount := t_qdcount t;
                      t_lqname := dname (map (map lower) (q_name q)) true; t_edns := t_edns t |},
                   length pre + length (question_wire q)))) \/
  (~ (exists q rest, question_ok q /\ Q = question_wire q ++ rest) /\ r = Ok None).
Proof.
  intros HB r; subst r. unfold parse_first_question.
  assert (EL : length (pre ++ Q) - length pre = length Q) by (rewrite app_length; lia). rewrite EL.
  destruct (Nat.eqb_spec (length Q) 0) as [Z|NZ].
  { right. split; [|reflexivity]. intros (q & rest & _ & ->). unfold question_wire in Z. rewrite !app_length in Z. cbn in Z. lia. }
  assert (HQ : Q <> []) by (intros ->; now apply NZ).
  remember 256 as F eqn:EF. assert (HF : 255 < F) by (rewrite EF; apply Nat.lt_succ_diag_r). clear EF.
  pose proof (question_name_ok F pre [] Q) as QN. cbn [wire_labels app map length] in QN.
  specialize (QN (Nat.le_0_l _)). rewrite Nat.add_0_r in QN. specialize (QN HF (Forall_nil _) HQ HB).
  destruct QN as [(ls & rest & LG & E & R)|(NE & R)]; rewrite R; cbn [rbind].
  2:{ right. split; [|reflexivity]. intros (q & rest & QO & E). apply NE. exists (q_name q), (be16 (q_type q) ++ be16 (q_class q) ++ rest).
      split; [apply QO|]. rewrite E. unfold question_wire. rewrite <- !app_assoc. reflexivity. }
  cbn [app] in *. clear R NE || idtac.
  assert (LQ : length Q = wire_len ls + length rest).
  { rewrite E, app_length, <- wire_labels_len. cbn [length]. lia. }
  assert (Ewl : wire_len ls = length (wire_labels ls ++ [0%N])) by (rewrite app_length, <- wire_labels_len; cbn; lia).
  assert (EQ : pre ++ Q = (pre ++ wire_labels ls ++ [0%N]) ++ rest) by (rewrite E, <- !app_assoc; reflexivity).
  destruct (Nat.leb_spec (wire_len ls + 4) (length Q)) as [L|L].
  2:{ right. split; [|reflexivity]. intros (q & rest' & QO & E2).
      assert (wire_labels ls ++ 0%N :: rest = wire_labels (q_name q) ++ 0%N :: (be16 (q_type q) ++ be16 (q_class q) ++ rest')).
      { rewrite <- E, E2. unfold question_wire. rewrite <- !app_assoc. reflexivity. }
      apply (wire_inj ls (q_name q) 0%N 0%N) in H;
        [|eapply legal_struct; eassumption|eapply legal_struct; apply QO|now left|now left].
      destruct H as (_ & _ & ->). rewrite !app_length in LQ. cbn [length be16] in LQ. lia. }
  destruct rest as [|a [|b [|c [|d rest]]]]; cbn [length] in LQ; try lia.
  assert (EO : length pre + wire_len ls = length (pre ++ wire_labels ls ++ [0%N])) by (rewrite (app_length pre), <- Ewl; reflexivity).
  rewrite EQ, EO, rd16_at, rd16_plus.
  replace (rd16 (a :: b :: c :: d :: rest) 0) with (Ok (get16 a b)) by reflexivity.
  replace (rd16 (a :: b :: c :: d :: rest) 2) with (Ok (get16 c d)) by reflexivity. cbn [rbind].
  match goal with |- context [rassert (Nat.leb ?x ?y)] => destruct (Nat.leb_spec x y) as [_|B] end.
  2:{ exfalso. revert B. rewrite !app_length. cbn [length]. lia. }
  cbn [rassert].
  rewrite E in HB. apply Forall_app in HB. destruct HB as [_ HB].
  repeat match goal with H : Forall is_byte (_ :: _) |- _ => apply Forall_cons_iff in H; destruct H as [? H] end.
  unfold is_byte in *.
  left. exists {| q_name := ls; q_type := get16 a b; q_class := get16 c d |}, rest. split; [|split].
  - split; [assumption|]. cbn [q_type q_class]. unfold get16. lia.
  - unfold question_wire. cbn [q_name q_type q_class]. rewrite !be16_eq with (a := a) (b := b), !be16_eq with (a := c) (b := d) by auto.
    rewrite E, <- !app_assoc. reflexivity.
  - cbn [q_name q_type q_class]. do 3 f_equal.
    + f_equal. rewrite dname_unfold, wire_len_lower. reflexivity.
    + rewrite !app_length. unfold question_wire. cbn [q_name q_type q_class]. rewrite !app_length. cbn [length be16]. lia.
Qed.
