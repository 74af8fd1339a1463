(** The scanner of configuration files: texts that spell tokens are read as these tokens. *)
From Verif Require Import Base DnameSpec DnameModel DnameProofs CompModel VscfModel VscfSpec VscfProofs.
Local Open Scope N_scope.
Local Arguments N.eqb : simpl never.
Local Arguments N.leb : simpl never.

Section Lex.
Variable ent_first : bool.
Variable isdir : bytes -> bool.
Variable glob : bool -> bytes -> option (list bytes).
Variable load : bytes -> res (option vnode).
Variable fn : option bytes.
Notation take := (take isdir glob load fn).
Notation step := (step ent_first isdir glob load fn).
Notation run := (run ent_first isdir glob load fn).
Notation tstep := (tstep isdir glob load fn).
Notation trun := (trun isdir glob load fn).
Notation spelled := (spelled (negb ent_first)).
Notation apart := (apart (negb ent_first)).
Notation pend := (pend isdir glob load fn).

Lemma run_one c s : run [c] s = step c s.
Proof. cbn [VscfModel.run]. destruct (step c s) as [[x|]|]; reflexivity. Qed.
Lemma run_cons c t s : run (c :: t) s = do r <- step c s ; match r with None => Ok None | Some s' => run t s' end.
Proof. reflexivity. Qed.

(** Blanks *)
Lemma run_com b p s : ~ In 10 b -> run (b ++ [10]) (set_lex (LCom p) s) = Ok (Some (set_lex (LPos p) s)).
Proof.
  induction b as [|c b IH]; intros H; cbn [app]; rewrite run_cons.
  - reflexivity.
  - unfold VscfModel.step at 1. cbn [set_lex s_lex]. destruct (N.eqb_spec c 10) as [->|]; [exfalso; apply H; now left|]. cbn [rbind]. apply IH. intros X. apply H. now right.
Qed.
Lemma syn_space k p c : In c [32; 9; 10] -> p <> PEq -> syn k p c = Some (AGo p).
Proof. intros I H. apply v_space_spec in I. unfold syn. rewrite I. destruct p; try reflexivity. congruence. Qed.
Lemma syn_hash k p c : In c [59; 35] -> p <> PEq -> syn k p c = Some (ACom p).
Proof.
  intros I H. unfold syn. assert (X : v_space c = false) by (cbn in I; destruct I as [<-|[<-|[]]]; reflexivity). rewrite X.
  apply v_hash_spec in I. rewrite I. destruct p; try reflexivity. congruence.
Qed.
Lemma apart_blank e c : In c [32; 9; 10] \/ In c [59; 35] -> apart e c.
Proof.
  intros H. assert (C : In c [32; 9; 10; 59; 35]) by (cbn in *; intuition auto).
  assert (Np : ~ plain c) by (unfold plain; intros X; apply X; cbn in C; destruct C as [<-|[<-|[<-|[<-|[<-|[]]]]]]; cbn; auto 20).
  assert (c <> 92 /\ c <> 34 /\ c <> 62) as (X & Y & Z) by (cbn in C; intuition (subst; discriminate)).
  destruct e; cbn; auto. repeat split; auto. intros Pl. contradiction.
Qed.
Lemma run_blank w : blank w -> forall s p, s_lex s = LPos p -> p <> PEq -> run w s = Ok (Some s).
Proof.
  induction 1 as [|c t I H IH|c b t I Nb H IH]; intros s p L P.
  - reflexivity.
  - rewrite run_cons. unfold VscfModel.step at 1. rewrite L, (syn_space _ _ _ I P). cbn [do_act rbind]. rewrite (set_lex_same _ _ L). eauto.
  - rewrite run_cons. unfold VscfModel.step at 1. rewrite L, (syn_hash _ _ _ I P). cbn [do_act rbind].
    change (b ++ 10 :: t) with (b ++ [10] ++ t). rewrite app_assoc, run_app, run_com by assumption. cbn [rbind]. rewrite (set_lex_same _ _ L). eauto.
Qed.
Lemma pend_blank w s s1 e p : pend s s1 e -> s_lex s1 = LPos p -> p <> PEq -> blank w -> w <> [] -> run w s = Ok (Some s1).
Proof.
  intros P L Np B Nw. destruct B as [|c t I H|c b t I Nb H]; [congruence| |].
  - rewrite run_cons, (pend_step _ _ _ _ _ _ _ _ p c (AGo p) P); auto; [|apply apart_blank; auto|now apply syn_space].
    cbn [do_act rbind]. rewrite (set_lex_same _ _ L). eapply run_blank; eauto.
  - rewrite run_cons, (pend_step _ _ _ _ _ _ _ _ p c (ACom p) P); auto; [|apply apart_blank; auto|now apply syn_hash].
    cbn [do_act rbind]. change (b ++ 10 :: t) with (b ++ [10] ++ t). rewrite app_assoc, run_app, run_com by assumption. cbn [rbind]. rewrite (set_lex_same _ _ L). eapply run_blank; eauto.
Qed.

(** Strings *)
Definition mk (q : bool) (r : role) (e : esc) : lex := if q then LQ r e else LU r e.
Definition okc (q : bool) (c : N) : Prop := if q then c <> 34 /\ c <> 92 else plain c.
Lemma step_esc q r e e' c k ct key stk b : esc_step e c = Some e' ->
  step c (Scn (mk q r e) k ct key stk (Some b)) = Ok (Some (Scn (mk q r e') k ct key stk (Some (b ++ [c])))).
Proof. intros E. destruct e; [discriminate| | |]; destruct q; cbn [mk]; unfold VscfModel.step; cbn [s_lex]; rewrite E; reflexivity. Qed.
Lemma run_esc_num q r a b c k ct key stk t : is_digit a -> is_digit b -> is_digit c -> (a - 48) * 100 + (b - 48) * 10 + (c - 48) <= 255 ->
  run [a; b; c] (Scn (mk q r E1) k ct key stk (Some t)) = Ok (Some (Scn (mk q r E0) k ct key stk (Some (t ++ [a; b; c])))).
Proof.
  intros Da Db Dc V.
  assert (X : exists e1 e2, esc_step E1 a = Some e1 /\ esc_step e1 b = Some e2 /\ esc_step e2 c = Some E0).
  { pose proof Da as A. pose proof Db as B. pose proof Dc as C. apply digit_spec in A, B, C. unfold is_digit in *.
    destruct (N.leb_spec a 49) as [La|La].
    - exists (E2 false), (E3 false). cbn [esc_step]. rewrite A, B, C. destruct (N.leb_spec a 49); [auto|lia].
    - assert (a = 50) by lia. subst. destruct (N.leb_spec b 52) as [Lb|Lb].
      + exists (E2 true), (E3 false). cbn [esc_step]. rewrite A, B, C. destruct (N.leb_spec b 52); [|lia]. repeat split.
      + assert (b = 53) by lia. subst. exists (E2 true), (E3 true). cbn [esc_step]. rewrite C. destruct (N.leb_spec c 53); [|lia]. repeat split. }
  destruct X as (e1 & e2 & X1 & X2 & X3). rewrite run_cons, (step_esc _ _ _ _ _ _ _ _ _ _ X1). cbn [rbind]. rewrite run_cons, (step_esc _ _ _ _ _ _ _ _ _ _ X2). cbn [rbind]. rewrite run_cons, (step_esc _ _ _ _ _ _ _ _ _ _ X3).
  cbn [rbind VscfModel.run]. rewrite <- !app_assoc. reflexivity.
Qed.
Lemma esc_char c : ~ is_digit c -> esc_step E1 c = Some E0.
Proof. intros H. cbn [esc_step]. destruct (digit c) eqn:D; [apply digit_spec in D; contradiction|reflexivity]. Qed.
Lemma step_char q r c k ct key stk b : okc q c -> step c (Scn (mk q r E0) k ct key stk (Some b)) = Ok (Some (Scn (mk q r E0) k ct key stk (Some (b ++ [c])))).
Proof.
  intros O. destruct q; cbn [mk okc] in *; unfold VscfModel.step; cbn [s_lex].
  - destruct O as (O1 & O2). destruct (N.eqb_spec c 34); [contradiction|]. destruct (N.eqb_spec c 92); [contradiction|]. reflexivity.
  - apply v_chr_spec in O. rewrite O. reflexivity.
Qed.
Lemma step_back q r k ct key stk b : step 92 (Scn (mk q r E0) k ct key stk (Some b)) = Ok (Some (Scn (mk q r E1) k ct key stk (Some (b ++ [92])))).
Proof. destruct q; reflexivity. Qed.
Lemma run_str q r raw : escaped (okc q) raw -> forall k ct key stk b,
  run raw (Scn (mk q r E0) k ct key stk (Some b)) = Ok (Some (Scn (mk q r E0) k ct key stk (Some (b ++ raw)))).
Proof.
  induction 1 as [|c t O H IH|c t Nc H IH|x y z t Da Db Dc V H IH]; intros.
  - rewrite app_nil_r. reflexivity.
  - rewrite run_cons, step_char by assumption. cbn [rbind]. rewrite IH, <- app_assoc. reflexivity.
  - rewrite run_cons, step_back. cbn [rbind]. rewrite run_cons, (step_esc _ _ _ _ _ _ _ _ _ _ (esc_char c Nc)). cbn [rbind]. rewrite IH, <- !app_assoc. reflexivity.
  - rewrite run_cons, step_back. cbn [rbind]. change (x :: y :: z :: t) with ([x; y; z] ++ t). rewrite run_app, run_esc_num by assumption. cbn [rbind]. rewrite IH, <- !app_assoc. reflexivity.
Qed.

Lemma syn_str k p r c : syn k p 34 = Some (AQuo r) -> (p = PEq -> c <> 62) -> plain c -> c <> 36 -> syn k p c = Some (AStr r).
Proof.
  intros R P Pl Nd. assert (X : forall x, In x [125; 123; 59; 35; 32; 9; 10; 44; 34; 61; 92; 93; 91] -> c =? x = false).
  { intros x I. apply N.eqb_neq. intros ->. contradiction. }
  assert (S0 : str_start r c = Some (AStr r)).
  { unfold str_start. rewrite !X by (cbn; auto 20). apply v_chr_spec in Pl. unfold v_fchr. rewrite Pl. destruct (N.eqb_spec c 36); [contradiction|reflexivity]. }
  unfold syn, v_space, v_hash. rewrite !X by (cbn; auto 20). cbn [orb].
  destruct p as [b| | | | | |].
  - cbn [andb]. destruct k; cbn in R; try destruct fresh; try destruct b; cbn in R; injection R as <-; unfold val_start; rewrite ?X by (cbn; auto 20); cbn [andb]; destruct (N.eqb_spec c 36); try contradiction; exact S0.
  - destruct k; discriminate R.
  - assert (r = RVal) by (destruct k; vm_compute in R; congruence). subst r. destruct (N.eqb_spec c 62); [exfalso; apply P; auto|]. unfold val_start. rewrite ?X by (cbn; auto 20). destruct (N.eqb_spec c 36); try contradiction; exact S0.
  - assert (r = RVal) by (destruct k; vm_compute in R; congruence). subst r. unfold val_start. rewrite ?X by (cbn; auto 20). destruct (N.eqb_spec c 36); try contradiction; exact S0.
  - assert (r = RInc) by (destruct k; vm_compute in R; congruence). subst r. exact S0.
  - destruct k; discriminate R.
  - destruct k; discriminate R.
Qed.
Lemma syn_back k p r : syn k p 34 = Some (AQuo r) -> syn k p 92 = Some (AEsc r).
Proof. destruct k as [[]| | |], p as [[]| | | | | |]; cbn; intros E; try discriminate; injection E as <-; reflexivity. Qed.
Lemma role_syn k p r : role_of k p = Some r -> syn k p 34 = Some (AQuo r).
Proof. unfold role_of. destruct (syn k p 34) as [[]|]; try discriminate. intros E; now injection E as ->. Qed.

(** A string, read from a position where one may start. *)
Lemma run_string raw x e' s s1 e p r : str_text raw x e' -> pend s s1 e -> apart e (hd 0 x) -> s_lex s1 = LPos p -> p <> PEq -> syn (s_kind s1) p 34 = Some (AQuo r) ->
  exists s', run x s = Ok (Some s') /\
    (forall y, take r raw (core s1) = Ok (Some y) -> pend s' (eff s1 (defresh (s_kind s1)) (after r) y) e').
Proof.
  intros T P A L Np Y. destruct T as [raw H Nn Nd|raw H].
  - assert (R : run raw s = Ok (Some (Scn (LU r E0) (defresh (s_kind s1)) (s_cont s1) (s_key s1) (s_stk s1) (Some raw)))).
    { change (LU r E0) with (mk false r E0). destruct H as [|c t O H|c t Nc H|a b c t Da Db Dc V H]; [congruence| | |]; cbn [hd] in *.
      - rewrite run_cons, (pend_step _ _ _ _ _ _ _ _ p c (AStr r) P); auto; [|apply syn_str; auto; intros; contradiction].
        cbn [do_act rbind]. unfold set_lex, set_tok, set_kind; cbn [s_lex s_kind s_cont s_key s_stk s_tok]. change (LU r E0) with (mk false r E0). rewrite run_str; auto.
      - rewrite run_cons, (pend_step _ _ _ _ _ _ _ _ p 92 (AEsc r) P); auto; [|apply syn_back; auto].
        cbn [do_act rbind]. unfold set_lex, set_tok, set_kind; cbn [s_lex s_kind s_cont s_key s_stk s_tok]. change (LU r E1) with (mk false r E1).
        rewrite run_cons, (step_esc _ _ _ _ _ _ _ _ _ _ (esc_char c Nc)). cbn [rbind]. rewrite run_str; auto.
      - rewrite run_cons, (pend_step _ _ _ _ _ _ _ _ p 92 (AEsc r) P); auto; [|apply syn_back; auto].
        cbn [do_act rbind]. unfold set_lex, set_tok, set_kind; cbn [s_lex s_kind s_cont s_key s_stk s_tok]. change (LU r E1) with (mk false r E1).
        change (a :: b :: c :: t) with ([a; b; c] ++ t). rewrite run_app, run_esc_num by assumption. cbn [rbind]. rewrite run_str; auto. }
    eexists. split; [exact R|]. intros y Ty. apply pe_u. exact Ty.
  - cbn [hd] in A.
    assert (R : run (34 :: raw ++ [34]) s = Ok (Some (Scn (LQE r) (defresh (s_kind s1)) (s_cont s1) (s_key s1) (s_stk s1) (Some (34 :: raw ++ [34]))))).
    { rewrite run_cons, (pend_step _ _ _ _ _ _ _ _ p 34 (AQuo r) P); auto. cbn [do_act rbind]. unfold set_lex, set_tok, set_kind; cbn [s_lex s_kind s_cont s_key s_stk s_tok].
      change (LQ r E0) with (mk true r E0). rewrite run_app, run_str by assumption. cbn [rbind]. rewrite run_one. reflexivity. }
    eexists. split; [exact R|]. intros y Ty. apply pe_q. exact Ty.
Qed.

Lemma run_inc_word k ct key stk tk : run [105; 110; 99; 108; 117; 100; 101; 123] (Scn (LInc 1) k ct key stk tk) = Ok (Some (Scn (LPos PIncOpen) k ct key stk tk)).
Proof. reflexivity. Qed.

Lemma one_complete c s s1 s2 e p : pend s s1 e -> apart e c -> s_lex s1 = LPos p ->
  match syn (s_kind s1) p c with None => Ok None | Some a => do_act a c s1 end = Ok (Some s2) -> run [c] s = Ok (Some s2).
Proof.
  intros P A L E. rewrite run_one. destruct (syn (s_kind s1) p c) as [a|] eqn:Y; [|discriminate]. rewrite (pend_step _ _ _ _ _ _ _ _ p c a P); auto.
Qed.

Lemma tok_complete k x e' s s1 s2 e p : tok_text k x e' -> pend s s1 e -> apart e (hd 0 x) -> good s1 p -> tstep k s1 = Ok (Some s2) ->
  exists s', run x s = Ok (Some s') /\ pend s' s2 e'.
Proof.
  intros T P A (L & Tp & Tk) E. unfold VscfProofs.tstep in E. rewrite L in E.
  destruct T as [raw x e' T|raw x e1 w1 w2 T B1 B2| | | | | | |]; cbn [hd] in A.
  - destruct (role_of (s_kind s1) p) as [r|] eqn:R; [|discriminate]. apply role_syn in R. destruct (take r raw (core s1)) as [[y|]|] eqn:Ty; try discriminate. injection E as <-.
    destruct (run_string _ _ _ _ _ _ _ r T P A L) as (s' & R' & P'); auto; [intros ->; exact Tp|]. eauto.
  - destruct (syn (s_kind s1) p 36) as [a|] eqn:Y; [|discriminate].
    assert (Ha : a = ADollar). { destruct (s_kind s1) as [[]| | |], p as [[]| | | | | |]; cbn in Y; try discriminate; try (now injection Y as <-); cbn in Tp; contradiction. }
    subst a. destruct (take RInc raw (core s1)) as [[y|]|] eqn:Ty; try discriminate. injection E as <-.
    cbn [app]. change (36 :: 105 :: 110 :: 99 :: 108 :: 117 :: 100 :: 101 :: 123 :: w1 ++ x ++ w2 ++ [125]) with ([36] ++ [105; 110; 99; 108; 117; 100; 101; 123] ++ w1 ++ x ++ w2 ++ [125]).
    rewrite run_app. rewrite run_one, (pend_step _ _ _ _ _ _ _ _ p 36 ADollar P); auto. cbn [do_act rbind]. unfold set_lex, set_tok, set_kind; cbn [s_lex s_kind s_cont s_key s_stk s_tok].
    rewrite run_app, run_inc_word. cbn [rbind]. rewrite run_app, (run_blank _ B1 _ PIncOpen) by (try reflexivity; discriminate). cbn [rbind].
    set (s3 := Scn (LPos PIncOpen) (defresh (s_kind s1)) (s_cont s1) (s_key s1) (s_stk s1) (s_tok s1)).
    destruct (run_string _ _ _ s3 s3 Free PIncOpen RInc T) as (s' & R' & P'); [constructor|exact I|reflexivity|discriminate|destruct (s_kind s1) as [[]| | |]; reflexivity|].
    rewrite run_app, R'. cbn [rbind]. specialize (P' y Ty).
    assert (X : exists s4 e4, run w2 s' = Ok (Some s4) /\ pend s4 (eff s3 (defresh (s_kind s3)) (after RInc) y) e4 /\ apart e4 125).
    { destruct w2 as [|c w2].
      - exists s', e1. split; [reflexivity|]. split; [exact P'|]. destruct T; cbn; repeat split; try discriminate; unfold plain; cbn; intuition discriminate.
      - eexists _, Free. split; [eapply pend_blank; [exact P'|reflexivity|discriminate|exact B2|discriminate]|]. split; [constructor|exact I]. }
    destruct X as (s4 & e4 & R4 & P4 & A4). rewrite run_app, R4. cbn [rbind]. rewrite run_one, (pend_step _ _ _ _ _ _ _ _ PIncEnd 125 (AGo (PItem true)) P4); auto; try reflexivity.
    cbn [do_act]. eexists. split; [reflexivity|]. unfold s3, eff, set_lex. cbn. destruct (s_kind s1); constructor.
  - exists s2. split; [eapply one_complete; eauto|constructor].
  - exists s2. split; [eapply one_complete; eauto|constructor].
  - exists s2. split; [eapply one_complete; eauto|constructor].
  - exists s2. split; [eapply one_complete; eauto|constructor].
  - exists s2. split; [eapply one_complete; eauto|constructor].
  - destruct p; try discriminate. injection E as <-. rewrite run_one, (pend_step _ _ _ _ _ _ _ _ PKey 61 (AGo PEq) P); auto.
    cbn [do_act]. eexists. split; [reflexivity|]. apply (pe_eq _ _ _ _ (set_lex (LPos PVal) s1)). reflexivity.
  - destruct p; try discriminate. injection E as <-. rewrite run_cons, (pend_step _ _ _ _ _ _ _ _ PKey 61 (AGo PEq) P); auto.
    cbn [do_act rbind]. rewrite run_one. unfold VscfModel.step. cbn [set_lex s_lex s_kind].
    assert (Z : syn (s_kind s1) PEq 62 = Some (AGo PVal)) by (destruct (s_kind s1) as [[]| | |]; reflexivity). rewrite Z. cbn [do_act].
    eexists. split; [reflexivity|]. unfold set_lex. cbn. constructor.
Qed.

Lemma good0 : good scn0 (PItem false).
Proof. repeat split. Qed.
Theorem lex_complete ts t e : spelled ts t e -> forall s1, trun ts scn0 = Ok (Some s1) -> exists s, run t scn0 = Ok (Some s) /\ pend s s1 e.
Proof.
  induction 1 as [|ts t e w H IH B Nw|ts t e k x e' H IH T A]; intros s1 E.
  - cbn in E. injection E as <-. exists scn0. split; [reflexivity|constructor].
  - destruct (IH _ E) as (s & R & P). exists s1. split; [|constructor]. rewrite run_app, R. cbn [rbind].
    destruct (trun_good _ _ _ _ _ _ _ _ good0 E) as (p & L & Tp & _). eapply pend_blank; eauto. intros ->. exact Tp.
  - rewrite trun_snoc in E. destruct (trun ts scn0) as [[s0|]|] eqn:E0; cbn [rbind] in E; try discriminate.
    destruct (IH _ eq_refl) as (s & R & P). destruct (trun_good _ _ _ _ _ _ _ _ good0 E0) as (p & G).
    destruct (tok_complete _ _ _ _ _ _ _ _ T P A G E) as (s' & R' & P'). exists s'. split; [|assumption]. rewrite run_app, R. exact R'.
Qed.
End Lex.
