(** The scanner of configuration files: what has been read so far spells tokens. *)
From Verif Require Import Base DnameSpec DnameModel DnameProofs CompModel VscfModel VscfSpec VscfProofs VscfProofs2.
Local Open Scope N_scope.
Local Arguments N.eqb : simpl never.
Local Arguments N.leb : simpl never.

Lemma blank_app a b : blank a -> blank b -> blank (a ++ b).
Proof.
  induction 1 as [|c t I H IH|c d t I Nd H IH]; intros B; cbn [app]; auto.
  - apply bl_sp; auto.
  - rewrite <- app_assoc. cbn [app]. apply bl_com; auto.
Qed.
Lemma blank1 c : In c [32; 9; 10] -> blank [c].
Proof. intros. apply bl_sp; [assumption|constructor]. Qed.
Lemma blank_com c b : In c [59; 35] -> ~ In 10 b -> blank (c :: b ++ [10]).
Proof. intros. apply bl_com; auto. constructor. Qed.

Section Lex.
Variable ent_first : bool.
Variable isdir : bytes -> bool.
Variable glob : bool -> bytes -> option (list bytes).
Variable load : bytes -> res (option vnode).
Variable fn : option bytes.
Notation take := (take isdir glob load fn).
Notation step := (step ent_first isdir glob load fn).
Notation run := (run ent_first isdir glob load fn).
Notation tstep := (tstep isdir glob load fn).
Notation trun := (trun isdir glob load fn).
Notation spelled := (spelled (negb ent_first)).
Notation apart := (apart (negb ent_first)).
Notation pend := (pend isdir glob load fn).

Definition word : bytes := [36; 105; 110; 99; 108; 117; 100; 101; 123].
Definition st (l : lex) (s : scn) (t : option bytes) : scn := Scn l (defresh (s_kind s)) (s_cont s) (s_key s) (s_stk s) t.

(** Within [$include{...}]: [pre] has been read since the dollar. *)
Inductive ininc (s1 : scn) : bytes -> scn -> Prop :=
| ii_word n : (1 <= n <= 8)%nat -> ininc s1 (firstn n word) (st (LInc n) s1 None)
| ii_open w : blank w -> ininc s1 (word ++ w) (st (LPos PIncOpen) s1 None)
| ii_open_com w c b : blank w -> In c [59; 35] -> ~ In 10 b -> ininc s1 (word ++ w ++ c :: b) (st (LCom PIncOpen) s1 None)
| ii_u w e raw : blank w -> str_part plain e raw -> raw <> [] -> hd 0 raw <> 36 -> ininc s1 (word ++ w ++ raw) (st (LU RInc e) s1 (Some raw))
| ii_q w e raw : blank w -> str_part (fun c => c <> 34 /\ c <> 92) e raw -> ininc s1 (word ++ w ++ 34 :: raw) (st (LQ RInc e) s1 (Some (34 :: raw)))
| ii_qe w raw : blank w -> escaped (fun c => c <> 34 /\ c <> 92) raw -> ininc s1 (word ++ w ++ 34 :: raw ++ [34]) (st (LQE RInc) s1 (Some (34 :: raw ++ [34])))
| ii_end w x w2 raw e y : blank w -> str_text raw x e -> blank w2 -> take RInc raw (core s1) = Ok (Some y) ->
    ininc s1 (word ++ w ++ x ++ w2) (eff s1 (defresh (s_kind s1)) PIncEnd y)
| ii_end_com w x w2 raw e y c b : blank w -> str_text raw x e -> blank w2 -> take RInc raw (core s1) = Ok (Some y) -> In c [59; 35] -> ~ In 10 b ->
    ininc s1 (word ++ w ++ x ++ w2 ++ c :: b) (set_lex (LCom PIncEnd) (eff s1 (defresh (s_kind s1)) PIncEnd y)).

Inductive inv : bytes -> scn -> Prop :=
| in_pend ts t e s1 s : spelled ts t e -> trun ts scn0 = Ok (Some s1) -> pend s s1 e -> e = Free \/ e = AfterEq -> inv t s
| in_com ts t e s1 p c b : spelled ts t e -> trun ts scn0 = Ok (Some s1) -> s_lex s1 = LPos p -> In c [59; 35] -> ~ In 10 b ->
    inv (t ++ c :: b) (set_lex (LCom p) s1)
| in_u ts t e s1 p r x raw : spelled ts t e -> trun ts scn0 = Ok (Some s1) -> s_lex s1 = LPos p -> role_of (s_kind s1) p = Some r ->
    apart e (hd 0 raw) -> str_part plain x raw -> raw <> [] -> hd 0 raw <> 36 -> inv (t ++ raw) (st (LU r x) s1 (Some raw))
| in_q ts t e s1 p r x raw : spelled ts t e -> trun ts scn0 = Ok (Some s1) -> s_lex s1 = LPos p -> role_of (s_kind s1) p = Some r ->
    apart e 34 -> str_part (fun c => c <> 34 /\ c <> 92) x raw -> inv (t ++ 34 :: raw) (st (LQ r x) s1 (Some (34 :: raw)))
| in_qe ts t e s1 p r raw : spelled ts t e -> trun ts scn0 = Ok (Some s1) -> s_lex s1 = LPos p -> role_of (s_kind s1) p = Some r ->
    apart e 34 -> escaped (fun c => c <> 34 /\ c <> 92) raw -> inv (t ++ 34 :: raw ++ [34]) (st (LQE r) s1 (Some (34 :: raw ++ [34])))
| in_inc ts t e s1 p x s : spelled ts t e -> trun ts scn0 = Ok (Some s1) -> s_lex s1 = LPos p -> syn (s_kind s1) p 36 = Some ADollar ->
    apart e 36 -> ininc s1 x s -> inv (t ++ x) s
| in_doomed t s r : ent_first = true -> strings_touch t -> s_tok s = None -> (exists e, s_lex s = LQ r e) \/ s_lex s = LQE r -> inv t s.

Lemma touch_more t r : strings_touch t -> strings_touch (t ++ r).
Proof. intros (ts & u & e & c & r0 & -> & H). exists ts, u, e, c, (r0 ++ r). rewrite <- app_assoc. auto. Qed.
Lemma spelled_tok ts t e k x e' s1 s2 : spelled ts t e -> trun ts scn0 = Ok (Some s1) -> tok_text k x e' -> apart e (hd 0 x) -> tstep k s1 = Ok (Some s2) ->
  spelled (ts ++ [k]) (t ++ x) e' /\ trun (ts ++ [k]) scn0 = Ok (Some s2).
Proof. intros H R T A E. split; [econstructor; eassumption|]. rewrite trun_snoc, R. exact E. Qed.

(** What a byte that is no part of a string can be. *)
Lemma syn_cases k p c a : tpos p -> syn k p c = Some a ->
  (In c [32; 9; 10] /\ a = AGo p) \/ (In c [59; 35] /\ a = ACom p) \/
  (In c [91; 93; 123; 125; 44]) \/ (c = 61 /\ p = PKey /\ a = AGo PEq) \/ (c = 36 /\ a = ADollar) \/
  (exists r, role_of k p = Some r /\ ((c = 34 /\ a = AQuo r) \/ (c = 92 /\ a = AEsc r) \/ (plain c /\ c <> 36 /\ a = AStr r))).
Proof.
  intros P E. unfold syn in E. destruct (v_space c) eqn:V1.
  { left. apply v_space_spec in V1. split; [assumption|]. destruct p; cbn in P; try contradiction; now injection E as <-. }
  right. destruct (v_hash c) eqn:V2.
  { left. apply v_hash_spec in V2. split; [assumption|]. destruct p; cbn in P; try contradiction; now injection E as <-. }
  right.
  assert (S0 : forall r, str_start r c = Some a -> (c = 34 /\ a = AQuo r) \/ (c = 92 /\ a = AEsc r) \/ (plain c /\ c <> 36 /\ a = AStr r)).
  { intros r. unfold str_start. destruct (N.eqb_spec c 34) as [->|]; [intros F; injection F as <-; auto|]. destruct (N.eqb_spec c 92) as [->|]; [intros F; injection F as <-; auto|].
    unfold v_fchr. destruct (v_chr c) eqn:V; [|discriminate]. destruct (N.eqb_spec c 36); [discriminate|]. cbn. intros F; injection F as <-. apply v_chr_spec in V. auto. }
  assert (V0 : val_start c = Some a -> In c [91; 123] \/ (c = 36 /\ a = ADollar) \/ (c = 34 /\ a = AQuo RVal) \/ (c = 92 /\ a = AEsc RVal) \/ (plain c /\ c <> 36 /\ a = AStr RVal)).
  { unfold val_start. destruct (N.eqb_spec c 91) as [->|]; [cbn; auto|]. destruct (N.eqb_spec c 123) as [->|]; [cbn; auto|]. destruct (N.eqb_spec c 36) as [->|]; [intros F; injection F as <-; auto|]. intros F. right. right. auto. }
  destruct p as [b| | | | | |]; try (cbn in P; contradiction); try discriminate.
  - destruct (N.eqb_spec c 44) as [->|N44]; [left; cbn; auto 10|]. cbn [andb] in E. destruct k as [fr| | |].
    + destruct (N.eqb_spec c 91) as [->|]; [left; cbn; auto 10|]. cbn [andb] in E. destruct (N.eqb_spec c 36) as [->|]; [injection E as <-; auto|]. do 3 right. exists RKey. split; [destruct fr, b; reflexivity|auto].
    + destruct (N.eqb_spec c 93) as [->|]; [left; cbn; auto 10|]. destruct (V0 E) as [[<-|[<-|[]]]|[X|X]]; [left; cbn; auto 10|left; cbn; auto 10|auto|]. do 3 right. exists RVal. split; [destruct b; reflexivity|auto].
    + destruct (N.eqb_spec c 93) as [->|]; [left; cbn; auto 10|]. destruct (V0 E) as [[<-|[<-|[]]]|[X|X]]; [left; cbn; auto 10|left; cbn; auto 10|auto|]. do 3 right. exists RVal. split; [destruct b; reflexivity|auto].
    + destruct (N.eqb_spec c 125) as [->|]; [left; cbn; auto 10|]. destruct (N.eqb_spec c 36) as [->|]; [injection E as <-; auto|]. do 3 right. exists RKey. split; [destruct b; reflexivity|auto].
  - destruct (N.eqb_spec c 61) as [->|]; [|discriminate]. injection E as <-. auto.
  - destruct (V0 E) as [[<-|[<-|[]]]|[X|X]]; [left; cbn; auto 10|left; cbn; auto 10|auto|]. do 3 right. exists RVal. split; [destruct k; reflexivity|auto].
Qed.

Definition tok_of (c : N) : token := if c =? 91 then TOpenA else if c =? 93 then TCloseA else if c =? 123 then TOpenH else if c =? 125 then TCloseH else TComma.

(** A byte read between tokens. *)
Lemma from_pos ts t e s1 p c a s' : spelled ts t e -> trun ts scn0 = Ok (Some s1) -> s_lex s1 = LPos p -> syn (s_kind s1) p c = Some a -> apart e c ->
  do_act a c s1 = Ok (Some s') -> inv (t ++ [c]) s'.
Proof.
  intros H R L Y A E. destruct (trun_good _ _ _ _ _ _ _ _ good0 R) as (p' & L' & Tp & Tk). rewrite L in L'. injection L' as <-.
  destruct (syn_cases _ _ _ _ Tp Y) as [(I & ->)|[(I & ->)|[I|[(-> & -> & ->)|[(-> & ->)|(r & Ro & Q)]]]]].
  - cbn [do_act] in E. injection E as <-. rewrite (set_lex_same _ _ L). eapply in_pend; [eapply sp_blank; [exact H|apply blank1; exact I|discriminate]|exact R|constructor|auto].
  - cbn [do_act] in E. injection E as <-. eapply in_com; eauto.
  - assert (T : tok_text (tok_of c) [c] Free /\ tstep (tok_of c) s1 = Ok (Some s')).
    { unfold VscfProofs.tstep. rewrite L. cbn in I. destruct I as [<-|[<-|[<-|[<-|[<-|[]]]]]]; cbn [tok_of]; (split; [constructor|]); cbn in Y |- *; rewrite Y; exact E. }
    destruct T as (T & S). destruct (spelled_tok _ _ _ _ _ _ _ _ H R T A S) as (H' & R'). eapply in_pend; [exact H'|exact R'|constructor|auto].
  - cbn [do_act] in E. injection E as <-.
    assert (S : tstep TEq s1 = Ok (Some (set_lex (LPos PVal) s1))) by (unfold VscfProofs.tstep; rewrite L; reflexivity).
    destruct (spelled_tok _ _ _ _ _ _ _ _ H R tt_eq A S) as (H' & R'). eapply in_pend; [exact H'|exact R'| |auto]. apply (pe_eq _ _ _ _ (set_lex (LPos PVal) s1)). reflexivity.
  - cbn [do_act] in E. injection E as <-. eapply in_inc; [exact H|exact R|exact L|exact Y|exact A|].
    replace (set_lex (LInc 1) (set_kind (defresh (s_kind s1)) s1)) with (st (LInc 1) s1 None) by (unfold st, set_lex, set_kind; cbn; now rewrite Tk). apply (ii_word s1 1). lia.
  - destruct Q as [(-> & ->)|[(-> & ->)|(Pl & Nd & ->)]]; cbn [do_act] in E; injection E as <-.
    + refine (in_q ts t e s1 p r E0 [] H R L Ro A _). apply str_part_0. constructor.
    + refine (in_u ts t e s1 p r E1 [92] H R L Ro A _ _ _); [|discriminate|discriminate]. apply (str_part_back plain []). apply str_part_0. constructor.
    + refine (in_u ts t e s1 p r E0 [c] H R L Ro A _ _ _); [|discriminate|exact Nd]. apply str_part_0. apply es_char; [exact Pl|constructor].
Qed.

Lemma st_more l s t c : more c (st l s (Some t)) = st l s (Some (t ++ [c])).
Proof. reflexivity. Qed.
Lemma set_st l l' s t : set_lex l (st l' s t) = st l s t.
Proof. reflexivity. Qed.

(** Leaving a string that is not in an include. *)
Lemma from_u ts t e s1 p r raw c s' : spelled ts t e -> trun ts scn0 = Ok (Some s1) -> s_lex s1 = LPos p -> role_of (s_kind s1) p = Some r ->
  apart e (hd 0 raw) -> escaped plain raw -> raw <> [] -> hd 0 raw <> 36 -> ~ plain c -> c <> 92 ->
  leaving ent_first isdir glob load fn false r c (st (LU r E0) s1 (Some raw)) = Ok (Some s') -> inv ((t ++ raw) ++ [c]) s'.
Proof.
  intros H R L Ro A P Nr Nd Np Nb E. unfold leaving in E. destruct (syn _ (after r) c) as [a|] eqn:Y; [|discriminate].
  destruct (ent_first && starts_str a) eqn:EF.
  - apply andb_true_iff in EF as (EF & SS). destruct (leave isdir glob load fn false r (set_tok (Some []) (st (LU r E0) s1 (Some raw)))) as [[s2|]|] eqn:Lv; cbn [rbind] in E; try discriminate.
    assert (T2 : s_tok s2 = None).
    { rewrite (leave_u _ _ _ _ r _ []) in Lv by reflexivity. destruct (take r [] _) as [[y|]|]; try discriminate. injection Lv as <-. reflexivity. }
    destruct (syn_starts _ _ _ _ Y SS) as [->|[->|(Pl & _)]]; [|congruence|contradiction].
    destruct a; try discriminate SS; cbn [do_act rbind] in E; injection E as <-.
    + exfalso. unfold st in Y; cbn [s_kind] in Y. destruct (s_kind s1) as [[]| | |], r; vm_compute in Y; discriminate.
    + exfalso. unfold st in Y; cbn [s_kind] in Y. destruct (s_kind s1) as [[]| | |], r; vm_compute in Y; discriminate.
    + eapply in_doomed; [exact EF| |cbn; exact T2|left; eexists; reflexivity].
      pose proof (sp_tok _ _ _ _ _ _ _ H (tt_str _ _ _ (st_unquoted _ P Nr Nd)) A) as H'. rewrite EF in H'. eexists _, _, _, 34, []. split; [reflexivity|]. split; [exact H'|auto].
  - rewrite (leave_u _ _ _ _ r _ raw) in E by reflexivity. destruct (take r raw _) as [[y|]|] eqn:Ty; cbn [rmap rbind] in E; try discriminate.
    assert (S : tstep (TStr raw) s1 = Ok (Some (eff s1 (defresh (s_kind s1)) (after r) y))).
    { unfold VscfProofs.tstep. rewrite L, Ro. change (core s1) with (core (st (LU r E0) s1 (Some raw))). rewrite Ty. reflexivity. }
    destruct (spelled_tok _ _ _ _ _ _ _ _ H R (tt_str _ _ _ (st_unquoted _ P Nr Nd)) A S) as (H' & R').
    refine (from_pos _ _ _ _ (after r) c a s' H' R' eq_refl Y _ E). repeat split; auto.
    intros X. destruct ent_first; [|discriminate]. cbn [andb] in EF. intros ->.
    pose proof (role_not_inc (s_kind s1) p) as Ri. destruct (trun_good _ _ _ _ _ _ _ _ good0 R) as (p' & L' & Tp & _). rewrite L in L'. injection L' as <-.
    unfold st in Y; cbn [s_kind] in Y. destruct r; [| |now apply Ri].
    + destruct (s_kind s1) as [[]| | |]; vm_compute in Y; discriminate.
    + destruct (s_kind s1) as [[]| | |]; vm_compute in Y; injection Y as <-; discriminate EF.
Qed.
Lemma from_qe ts t e s1 p r raw c s' : spelled ts t e -> trun ts scn0 = Ok (Some s1) -> s_lex s1 = LPos p -> role_of (s_kind s1) p = Some r ->
  apart e 34 -> escaped (fun c => c <> 34 /\ c <> 92) raw ->
  leaving ent_first isdir glob load fn true r c (st (LQE r) s1 (Some (34 :: raw ++ [34]))) = Ok (Some s') -> inv ((t ++ 34 :: raw ++ [34]) ++ [c]) s'.
Proof.
  intros H R L Ro A P E. unfold leaving in E. destruct (syn _ (after r) c) as [a|] eqn:Y; [|discriminate].
  destruct (ent_first && starts_str a) eqn:EF; [discriminate E|].
  rewrite (leave_q _ _ _ _ r _ raw) in E by reflexivity. destruct (take r raw _) as [[y|]|] eqn:Ty; cbn [rmap rbind] in E; try discriminate.
  assert (S : tstep (TStr raw) s1 = Ok (Some (eff s1 (defresh (s_kind s1)) (after r) y))).
  { unfold VscfProofs.tstep. rewrite L, Ro. change (core s1) with (core (st (LQE r) s1 (Some (34 :: raw ++ [34])))). rewrite Ty. reflexivity. }
  destruct (spelled_tok _ _ _ _ _ _ _ _ H R (tt_str _ _ _ (st_quoted _ P)) A S) as (H' & R').
  refine (from_pos _ _ _ _ (after r) c a s' H' R' eq_refl Y _ E). cbn [VscfSpec.apart].
  intros X. destruct ent_first; [|discriminate]. cbn [andb] in EF.
  destruct (trun_good _ _ _ _ _ _ _ _ good0 R) as (p' & L' & Tp & _). rewrite L in L'. injection L' as <-.
  assert (Nr : r <> RInc) by (intros ->; now apply (role_not_inc _ _ Tp) in Ro).
  assert (Ta : tpos (after r)) by (destruct r; cbn; auto).
  destruct (syn_cases _ _ _ _ Ta Y) as [(I & Z)|[(I & Z)|[I|[(Z & _)|[(Z & _)|(r' & _ & [(Z & Z')|[(Z & Z')|(_ & _ & Z')]])]]]]]; subst; try discriminate EF.
  - split; [|split; intros ->; cbn in I; intuition discriminate]. intros Pl. exfalso. apply Pl. cbn in I |- *. intuition auto.
  - split; [|split; intros ->; cbn in I; intuition discriminate]. intros Pl. exfalso. apply Pl. cbn in I |- *. intuition auto.
  - split; [|split; intros ->; cbn in I; intuition discriminate]. intros Pl. exfalso. apply Pl. cbn in I |- *. intuition auto.
  - split; [|split; discriminate]. intros Pl. exfalso. apply Pl. cbn. auto 20.
  - split; [|split; discriminate]. auto.
Qed.

Lemma end_inc s1 w x w2 raw e y c a s' : blank w -> str_text raw x e -> blank w2 -> take RInc raw (core s1) = Ok (Some y) ->
  syn (defresh (s_kind s1)) PIncEnd c = Some a -> do_act a c (eff s1 (defresh (s_kind s1)) PIncEnd y) = Ok (Some s') ->
  ininc s1 (word ++ w ++ x ++ w2 ++ [c]) s' \/ (c = 125 /\ s' = eff s1 (defresh (s_kind s1)) (PItem true) y).
Proof.
  intros B T B2 Ty Y E. unfold syn in Y. destruct (v_space c) eqn:V1.
  { injection Y as <-. cbn [do_act] in E. injection E as <-. left. apply v_space_spec in V1.
    change (set_lex (LPos PIncEnd) (eff s1 (defresh (s_kind s1)) PIncEnd y)) with (eff s1 (defresh (s_kind s1)) PIncEnd y).
    eapply (ii_end s1 w x (w2 ++ [c])); eauto. apply blank_app; [assumption|now apply blank1]. }
  destruct (v_hash c) eqn:V2.
  { injection Y as <-. cbn [do_act] in E. injection E as <-. left. apply v_hash_spec in V2. eapply ii_end_com; eauto. }
  destruct (N.eqb_spec c 125) as [->|]; [|discriminate]. injection Y as <-. cbn [do_act] in E. injection E as <-. right. split; reflexivity.
Qed.
Lemma assoc4 (a b c d e : bytes) : (a ++ b ++ c ++ d) ++ e = a ++ b ++ c ++ d ++ e.
Proof. now rewrite <- !app_assoc. Qed.

Lemma ininc_step s1 x s c s' : ininc s1 x s -> step c s = Ok (Some s') ->
  ininc s1 (x ++ [c]) s' \/
  (exists w y2 w2 raw e y, x = word ++ w ++ y2 ++ w2 /\ c = 125 /\ blank w /\ str_text raw y2 e /\ blank w2 /\ take RInc raw (core s1) = Ok (Some y) /\ s' = eff s1 (defresh (s_kind s1)) (PItem true) y).
Proof.
  intros H E. destruct H as [n Hn|w B|w c0 b B I Nb|w e raw B P Nr Nd|w e raw B P|w raw B P|w x w2 raw e y B T B2 Ty|w x w2 raw e y c0 b B T B2 Ty I Nb].
  - left. unfold VscfModel.step in E. unfold st in E. cbn [s_lex] in E. destruct (N.eqb_spec c (nth n inc_word 0)) as [->|]; [|discriminate]. injection E as <-.
    assert (Hc : n = 1%nat \/ n = 2%nat \/ n = 3%nat \/ n = 4%nat \/ n = 5%nat \/ n = 6%nat \/ n = 7%nat \/ n = 8%nat) by lia.
    destruct Hc as [->|[->|[->|[->|[->|[->|[->| ->]]]]]]]; cbn [Nat.eqb].
    1: apply (ii_word s1 2); lia. 1: apply (ii_word s1 3); lia. 1: apply (ii_word s1 4); lia. 1: apply (ii_word s1 5); lia.
    1: apply (ii_word s1 6); lia. 1: apply (ii_word s1 7); lia. 1: apply (ii_word s1 8); lia.
    exact (ii_open s1 [] bl_nil).
  - left. unfold VscfModel.step in E. unfold st in E. cbn [s_lex s_kind] in E. destruct (syn (defresh (s_kind s1)) PIncOpen c) as [a|] eqn:Y; [|discriminate].
    unfold syn in Y. destruct (v_space c) eqn:V1.
    { injection Y as <-. cbn [do_act] in E. injection E as <-. apply v_space_spec in V1. rewrite <- app_assoc. apply (ii_open s1 (w ++ [c])). apply blank_app; [assumption|now apply blank1]. }
    destruct (v_hash c) eqn:V2.
    { injection Y as <-. cbn [do_act] in E. injection E as <-. apply v_hash_spec in V2. rewrite <- app_assoc. apply (ii_open_com s1 w c []); auto. }
    assert (K : defresh (defresh (s_kind s1)) = defresh (s_kind s1)) by (destruct (s_kind s1); reflexivity).
    rewrite <- app_assoc. unfold str_start in Y. destruct (N.eqb_spec c 34) as [->|N34].
    { injection Y as <-. cbn [do_act] in E. injection E as <-. unfold set_lex, set_tok, set_kind; cbn [s_lex s_kind s_cont s_key s_stk s_tok]. rewrite K. apply (ii_q s1 w E0 []); [assumption|]. apply str_part_0. constructor. }
    destruct (N.eqb_spec c 92) as [->|N92].
    { injection Y as <-. cbn [do_act] in E. injection E as <-. unfold set_lex, set_tok, set_kind; cbn [s_lex s_kind s_cont s_key s_stk s_tok]. rewrite K. apply (ii_u s1 w E1 [92]); [assumption| |discriminate|discriminate]. apply (str_part_back plain []). apply str_part_0. constructor. }
    unfold v_fchr in Y. destruct (v_chr c) eqn:V; [|discriminate]. destruct (N.eqb_spec c 36); [discriminate|]. cbn [andb negb] in Y. injection Y as <-. cbn [do_act] in E. injection E as <-.
    unfold set_lex, set_tok, set_kind; cbn [s_lex s_kind s_cont s_key s_stk s_tok]. rewrite K. apply (ii_u s1 w E0 [c]); [assumption| |discriminate|assumption]. apply str_part_0. apply es_char; [now apply v_chr_spec|constructor].
  - left. unfold VscfModel.step in E. unfold st in E. cbn [s_lex] in E. destruct (N.eqb_spec c 10) as [->|N10]; injection E as <-.
    + rewrite <- app_assoc. rewrite <- app_assoc. apply (ii_open s1 (w ++ (c0 :: b) ++ [10])). apply blank_app; [assumption|]. now apply blank_com.
    + rewrite <- app_assoc. rewrite <- app_assoc. apply (ii_open_com s1 w c0 (b ++ [c])); auto. rewrite in_app_iff. cbn. intuition.
  - unfold VscfModel.step in E. unfold st in E. cbn [s_lex] in E. rewrite <- !app_assoc.
    assert (H0 : hd 0 (raw ++ [c]) <> 36) by (destruct raw; [congruence|exact Nd]). assert (H1 : raw ++ [c] <> []) by (destruct raw; discriminate).
    destruct e as [| | |].
    + destruct (v_chr c) eqn:V; [injection E as <-; left; apply (ii_u s1 w E0 (raw ++ [c])); auto; apply str_part_char; [now apply v_chr_spec|assumption]|].
      destruct (N.eqb_spec c 92) as [->|N92]; [injection E as <-; left; apply (ii_u s1 w E1 (raw ++ [92])); auto; now apply str_part_back|].
      unfold leaving in E. cbn [s_kind after] in E. destruct (syn (defresh (s_kind s1)) PIncEnd c) as [a|] eqn:Y; [|discriminate].
      assert (SS : starts_str a = false). { unfold syn in Y. destruct (v_space c); [injection Y as <-; reflexivity|]. destruct (v_hash c); [injection Y as <-; reflexivity|]. destruct (c =? 125); [injection Y as <-; reflexivity|discriminate]. }
      rewrite SS, andb_false_r in E. rewrite (leave_u _ _ _ _ RInc _ raw) in E by reflexivity. destruct (take RInc raw _) as [[y|]|] eqn:Ty; cbn [rmap rbind] in E; try discriminate.
      apply str_part_0 in P. destruct (end_inc s1 w raw [] raw _ y c a s' B (st_unquoted _ P Nr Nd) bl_nil Ty Y E) as [X|(-> & X)]; [left; exact X|].
      right. exists w, raw, [], raw. eexists _, y. rewrite app_nil_r. repeat split; eauto using bl_nil. apply st_unquoted; assumption.
    + destruct (esc_step E1 c) as [e'|] eqn:X; [|discriminate]. injection E as <-. left. apply (ii_u s1 w e' (raw ++ [c])); auto. eapply str_part_esc; eauto.
    + destruct (esc_step (E2 two) c) as [e'|] eqn:X; [|discriminate]. injection E as <-. left. apply (ii_u s1 w e' (raw ++ [c])); auto. eapply str_part_esc; eauto.
    + destruct (esc_step (E3 five) c) as [e'|] eqn:X; [|discriminate]. injection E as <-. left. apply (ii_u s1 w e' (raw ++ [c])); auto. eapply str_part_esc; eauto.
  - left. unfold VscfModel.step in E. unfold st in E. cbn [s_lex] in E. rewrite <- !app_assoc. cbn [app].
    destruct e as [| | |].
    + destruct (N.eqb_spec c 34) as [->|N34]; [injection E as <-; apply (ii_qe s1 w raw); auto; now apply str_part_0|].
      destruct (N.eqb_spec c 92) as [->|N92]; injection E as <-; [apply (ii_q s1 w E1 (raw ++ [92])); auto; now apply str_part_back|].
      apply (ii_q s1 w E0 (raw ++ [c])); auto. apply (str_part_char (fun c => c <> 34 /\ c <> 92)); auto.
    + destruct (esc_step E1 c) as [e'|] eqn:X; [|discriminate]. injection E as <-. apply (ii_q s1 w e' (raw ++ [c])); auto. eapply str_part_esc; eauto.
    + destruct (esc_step (E2 two) c) as [e'|] eqn:X; [|discriminate]. injection E as <-. apply (ii_q s1 w e' (raw ++ [c])); auto. eapply str_part_esc; eauto.
    + destruct (esc_step (E3 five) c) as [e'|] eqn:X; [|discriminate]. injection E as <-. apply (ii_q s1 w e' (raw ++ [c])); auto. eapply str_part_esc; eauto.
  - unfold VscfModel.step in E. unfold st in E. cbn [s_lex] in E.
    unfold leaving in E. cbn [s_kind after] in E. destruct (syn (defresh (s_kind s1)) PIncEnd c) as [a|] eqn:Y; [|discriminate].
    assert (SS : starts_str a = false). { unfold syn in Y. destruct (v_space c); [injection Y as <-; reflexivity|]. destruct (v_hash c); [injection Y as <-; reflexivity|]. destruct (c =? 125); [injection Y as <-; reflexivity|discriminate]. }
    rewrite SS, andb_false_r in E. rewrite (leave_q _ _ _ _ RInc _ raw) in E by reflexivity. destruct (take RInc raw _) as [[y|]|] eqn:Ty; cbn [rmap rbind] in E; try discriminate.
    destruct (end_inc s1 w (34 :: raw ++ [34]) [] raw _ y c a s' B (st_quoted _ P) bl_nil Ty Y E) as [X|(-> & X)]; [left; rewrite <- !app_assoc; exact X|].
    right. exists w, (34 :: raw ++ [34]), [], raw. eexists _, y. rewrite app_nil_r. repeat split; eauto using bl_nil. apply st_quoted; assumption.
  - unfold VscfModel.step in E. unfold eff in E. cbn [s_lex s_kind] in E. destruct (syn (defresh (s_kind s1)) PIncEnd c) as [a|] eqn:Y; [|discriminate].
    destruct (end_inc s1 w x w2 raw _ y c a s' B T B2 Ty Y E) as [X|(-> & X)]; [left; rewrite <- !app_assoc; exact X|].
    right. exists w, x, w2, raw. eexists _, y. repeat split; eauto.
  - left. unfold VscfModel.step in E. unfold set_lex, eff in E. cbn [s_lex s_kind s_cont s_key s_stk s_tok] in E. destruct (N.eqb_spec c 10) as [->|N10]; injection E as <-.
    + rewrite assoc4, <- app_assoc. apply (ii_end s1 w x (w2 ++ (c0 :: b) ++ [10]) raw e y); auto. apply blank_app; [assumption|]. now apply blank_com.
    + rewrite assoc4, <- app_assoc. apply (ii_end_com s1 w x w2 raw e y c0 (b ++ [c])); auto. rewrite in_app_iff. cbn. intuition.
Qed.

Lemma spelled_eq ts t : spelled ts t AfterEq -> exists ts0 t0 e0, ts = ts0 ++ [TEq] /\ t = t0 ++ [61] /\ spelled ts0 t0 e0 /\ apart e0 61.
Proof. intros H. inversion H as [| |ts0 t0 e0 k x e' H0 T A]; subst. inversion T; subst; try (match goal with X : str_text _ _ AfterEq |- _ => inversion X end). repeat eexists; eauto. Qed.

Theorem inv_step t s c s' : inv t s -> step c s = Ok (Some s') -> inv (t ++ [c]) s'.
Proof.
  intros H E. destruct H as [ts t e s1 s H R P Q|ts t e s1 p c0 b H R L I Nb|ts t e s1 p r x raw H R L Ro A P Nr Nd|ts t e s1 p r x raw H R L Ro A P|ts t e s1 p r raw H R L Ro A P|ts t e s1 p x s H R L Y A J|t s r EF St T Lx].
  - destruct (trun_good _ _ _ _ _ _ _ _ good0 R) as (p & L & Tp & Tk). destruct Q as [->| ->].
    + inversion P; subst. unfold VscfModel.step in E. rewrite L in E. destruct (syn (s_kind s1) p c) as [a|] eqn:Y; [|discriminate].
      eapply from_pos; eauto. exact Logic.I.
    + inversion P as [|s0 L'| |]; subst. rewrite L in L'. injection L' as ->. unfold VscfModel.step in E. cbn [set_lex s_lex s_kind] in E.
      destruct (N.eqb_spec c 62) as [->|N62].
      * assert (Z : syn (s_kind s1) PEq 62 = Some (AGo PVal)) by (destruct (s_kind s1) as [[]| | |]; reflexivity). rewrite Z in E. cbn [do_act] in E. injection E as <-.
        apply spelled_eq in H as (ts0 & t0 & e0 & -> & -> & H0 & A0). rewrite <- app_assoc.
        eapply in_pend; [exact (sp_tok _ _ _ _ _ _ _ H0 tt_arrow A0)|exact R| |auto]. change (set_lex (LPos PVal) (set_lex (LPos PEq) s1)) with (set_lex (LPos PVal) s1). rewrite (set_lex_same _ _ L). constructor.
      * rewrite syn_eq in E by assumption. destruct (syn (s_kind s1) PVal c) as [a|] eqn:Y; [|discriminate]. rewrite do_act_lex in E. eapply from_pos; eauto.
  - unfold VscfModel.step in E. cbn [set_lex s_lex] in E. rewrite <- app_assoc. cbn [app]. destruct (N.eqb_spec c 10) as [->|N10]; injection E as <-.
    + eapply in_pend; [eapply sp_blank; [exact H|apply blank_com; eassumption|discriminate]|exact R| |auto]. unfold set_lex. cbn. change (Scn (LPos p) (s_kind s1) (s_cont s1) (s_key s1) (s_stk s1) (s_tok s1)) with (set_lex (LPos p) s1). rewrite (set_lex_same _ _ L). constructor.
    + change (set_lex (LCom p) s1) with (set_lex (LCom p) s1). eapply in_com; eauto. rewrite in_app_iff. cbn. intuition.
  - pose proof E as EE. unfold VscfModel.step in E. unfold st in E. cbn [s_lex] in E. 
    assert (H0 : hd 0 (raw ++ [c]) <> 36) by (destruct raw; [congruence|exact Nd]). assert (H1 : raw ++ [c] <> []) by (destruct raw; discriminate).
    assert (A1 : apart e (hd 0 (raw ++ [c]))) by (destruct raw; [congruence|exact A]).
    destruct x as [| | |].
    + destruct (v_chr c) eqn:V; [injection E as <-; rewrite <- app_assoc; apply (in_u ts t e s1 p r E0 (raw ++ [c])); auto; apply str_part_char; [now apply v_chr_spec|assumption]|].
      destruct (N.eqb_spec c 92) as [->|N92]; [injection E as <-; rewrite <- app_assoc; apply (in_u ts t e s1 p r E1 (raw ++ [92])); auto; now apply str_part_back|].
      apply str_part_0 in P. apply v_chr_false in V. eapply from_u; eauto.
    + destruct (esc_step E1 c) as [e'|] eqn:X; [|discriminate]. injection E as <-. rewrite <- app_assoc. apply (in_u ts t e s1 p r e' (raw ++ [c])); auto. eapply str_part_esc; eauto.
    + destruct (esc_step (E2 two) c) as [e'|] eqn:X; [|discriminate]. injection E as <-. rewrite <- app_assoc. apply (in_u ts t e s1 p r e' (raw ++ [c])); auto. eapply str_part_esc; eauto.
    + destruct (esc_step (E3 five) c) as [e'|] eqn:X; [|discriminate]. injection E as <-. rewrite <- app_assoc. apply (in_u ts t e s1 p r e' (raw ++ [c])); auto. eapply str_part_esc; eauto.
  - unfold VscfModel.step in E. unfold st in E. cbn [s_lex] in E. rewrite <- app_assoc. cbn [app].
    destruct x as [| | |].
    + destruct (N.eqb_spec c 34) as [->|N34]; [injection E as <-; apply (in_qe ts t e s1 p r raw); auto; now apply str_part_0|].
      destruct (N.eqb_spec c 92) as [->|N92]; injection E as <-; [apply (in_q ts t e s1 p r E1 (raw ++ [92])); auto; now apply str_part_back|].
      apply (in_q ts t e s1 p r E0 (raw ++ [c])); auto. apply (str_part_char (fun c => c <> 34 /\ c <> 92)); auto.
    + destruct (esc_step E1 c) as [e'|] eqn:X; [|discriminate]. injection E as <-. apply (in_q ts t e s1 p r e' (raw ++ [c])); auto. eapply str_part_esc; eauto.
    + destruct (esc_step (E2 two) c) as [e'|] eqn:X; [|discriminate]. injection E as <-. apply (in_q ts t e s1 p r e' (raw ++ [c])); auto. eapply str_part_esc; eauto.
    + destruct (esc_step (E3 five) c) as [e'|] eqn:X; [|discriminate]. injection E as <-. apply (in_q ts t e s1 p r e' (raw ++ [c])); auto. eapply str_part_esc; eauto.
  - eapply from_qe; eauto.
  - destruct (ininc_step _ _ _ _ _ J E) as [J'|(w & y2 & w2 & raw & e2 & y & -> & -> & B & T & B2 & Ty & ->)].
    + rewrite <- app_assoc. eapply in_inc; eauto.
    + assert (S : tstep (TInc raw) s1 = Ok (Some (eff s1 (defresh (s_kind s1)) (PItem true) y))).
      { unfold VscfProofs.tstep. rewrite L, Y, Ty. reflexivity. }
      destruct (spelled_tok _ _ _ _ _ _ _ _ H R (tt_inc _ _ _ _ _ T B B2) A S) as (H' & R').
      rewrite <- app_assoc, assoc4. eapply in_pend; [exact H'|exact R'|constructor|auto].
  - unfold VscfModel.step in E. destruct Lx as [(e & Lx)|Lx]; rewrite Lx in E.
    + destruct e.
      * destruct (c =? 34); [|destruct (c =? 92)]; injection E as <-; (apply (in_doomed _ _ r); [exact EF|now apply touch_more|cbn; rewrite ?T; auto|]; cbn; eauto).
      * destruct (esc_step E1 c) as [e'|]; [|discriminate]; injection E as <-; apply (in_doomed _ _ r); [exact EF|now apply touch_more|cbn; rewrite ?T; auto|]; left; cbn; eauto.
      * destruct (esc_step (E2 two) c) as [e'|]; [|discriminate]; injection E as <-; apply (in_doomed _ _ r); [exact EF|now apply touch_more|cbn; rewrite ?T; auto|]; left; cbn; eauto.
      * destruct (esc_step (E3 five) c) as [e'|]; [|discriminate]; injection E as <-; apply (in_doomed _ _ r); [exact EF|now apply touch_more|cbn; rewrite ?T; auto|]; left; cbn; eauto.
    + exfalso. unfold leaving in E. destruct (syn (s_kind s) (after r) c) as [a|]; [|discriminate]. destruct (ent_first && starts_str a).
      * discriminate E.
      * unfold leave in E. rewrite T in E. discriminate E.
Qed.

Theorem inv_run t s : run t scn0 = Ok (Some s) -> inv t s.
Proof.
  revert s. induction t as [|c t IH] using rev_ind; intros s E.
  - cbn in E. injection E as <-. eapply in_pend; [constructor|reflexivity|constructor|auto].
  - rewrite run_app in E. destruct (run t scn0) as [[s0|]|]; cbn [rbind] in E; try discriminate. rewrite run_one in E. eapply inv_step; eauto.
Qed.
End Lex.
