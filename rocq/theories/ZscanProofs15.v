(** The scanner, part 8: what makes the daemon die while it reads a file. *)
From Coq Require Import String Ascii.
From Verif Require Import Base DnameSpec DnameModel DnameProofs CompModel RespModel LtreeModel ZscanModel ZscanSpec ZscanProofs ZscanProofs2 ZscanProofs3 ZscanProofs4 ZscanProofs5 ZscanProofs6 ZscanProofs7 ZscanProofs8 ZscanProofs10 ZscanProofs11 ZscanProofs12 ZscanProofs14.
Local Open Scope N_scope.
Local Notation length := List.length.
Local Arguments N.lor : simpl never.
Local Arguments N.eqb : simpl never.
Local Arguments N.leb : simpl never.

(** ** $INCLUDE is done only for lines that say so *)
Definition quiet (L : lexer) : Prop := forall l a r, L l = (a, r) -> ~ In ProcessInclude a.
Lemma q_seq L M : quiet L -> quiet M -> quiet (L ;; M).
Proof.
  intros H1 H2 l a r. unfold lseq. destruct (L l) as (x, [r1|]) eqn:E; [|intros [= <- <-]; eauto]. destruct (M r1) as (y, r2) eqn:E2. intros [= <- <-] I0. apply in_app_or in I0 as [I0|I0]; [now apply (H1 _ _ _ E)|now apply (H2 _ _ _ E2)].
Qed.
Lemma q_tk rd f acts : (forall t, ~ In ProcessInclude (acts t)) -> quiet (tk rd f acts).
Proof. intros H l a r. unfold tk. destruct (rd l) as [(t, [|c r1])|]; [intros [= <- <-] []| |intros [= <- <-] []]. destruct (f c); intros [= <- <-]; [apply H|intros []]. Qed.
Lemma q_emit e : ~ In ProcessInclude e -> quiet (emit e).
Proof. intros H l a r [= <- <-]. exact H. Qed.
Lemma q_one p : quiet (one p).
Proof. intros [|c l] a r; unfold one; [intros [= <- <-] []|]. destruct (p c); intros [= <- <-] []. Qed.
Lemma q_ws : quiet ws.
Proof. apply q_seq; [apply q_one|]. intros l a r [= <- <-] []. Qed.
Lemma q_uval f acts : ~ In ProcessInclude acts -> quiet (uval f acts).
Proof. intros H. apply q_tk. intros t [X|X]; [discriminate|auto]. Qed.
Lemma q_ttl f acts : ~ In ProcessInclude acts -> quiet (ttl f acts).
Proof.
  intros H. unfold ttl. repeat apply q_seq; [now apply q_uval| |].
  - intros [|c l] a r; [intros [= <- <-] []|]. destruct (ismult c); intros [= <- <-]; [intros [X|[]]; discriminate|intros []].
  - intros [|c l] a r; [intros [= <- <-] []|]. destruct (f c); intros [= <- <-]; [exact H|intros []].
Qed.
Lemma q_nrec acts : ~ In ProcessInclude acts -> quiet (name_rec acts).
Proof. intros H. unfold name_rec. apply q_seq; [apply q_ws|]. apply q_tk. intros t [X|X]; [discriminate|auto]. Qed.
Lemma q_txt fuel : forall some l a r, txt_items fuel some l = (a, r) -> ~ In ProcessInclude a.
Proof.
  induction fuel as [|fuel IH]; intros some l a r E; cbn [txt_items] in E; [injection E as <- <-; auto|].
  destruct l as [|c l]; [injection E as <- <-; auto|]. destruct (c =? 10).
  - destruct some; injection E as <- <-; [intros [X|[]]; discriminate|auto].
  - destruct (isblank c); [eapply IH; eauto|]. revert E. apply (q_seq (tk txt_tok txt_follow (fun t => [PushTxt t])) (txt_items fuel true)); [apply q_tk; intros t [X|[]]; discriminate|exact (IH true)].
Qed.
Lemma q_octets n : forall some l a r, (length l <= n)%nat -> octets some l = (a, r) -> ~ In ProcessInclude a.
Proof.
  assert (No : forall a r, ([], None) = (a : list action, r : option bytes) -> ~ In ProcessInclude a) by (intros a r [= <- <-] []).
  assert (Yes : forall x a r, ([RecRfc3597], x) = (a : list action, r : option bytes) -> ~ In ProcessInclude a) by (intros x a r [= <- <-] [X|[]]; discriminate).
  induction n as [|n IH]; intros some [|c l] a r Hl; cbn [octets length] in *; try lia; try apply No.
  destruct (c =? 10); [apply Yes|]. destruct (isblank c); [destruct some; [apply IH; lia|apply Yes]|]. destruct (ishex c) eqn:Hc; [|apply No].
  destruct l as [|d [|e l]]; try apply No. destruct (ishex d && (ishex e || at_end e)) eqn:Q; [|apply No]. destruct (octets true (e :: l)) as (x, y) eqn:E. intros [= <- <-] [X|X]; [discriminate|].
  apply (IH true (e :: l) x y); auto. cbn [length] in *. lia.
Qed.
Ltac nopi := let X := fresh in intros X; cbn in X; repeat (destruct X as [X|X]; [discriminate|]); exact X.
Ltac quietly := repeat first [apply q_ws | apply q_one | apply q_nrec; nopi | apply q_ttl; nopi | apply q_uval; nopi | apply q_emit; nopi | apply q_tk; intros ?; nopi | apply q_seq].
Lemma q_rdata ty : quiet (rdata ty).
Proof.
  destruct ty; cbn [rdata]; quietly.
  - intros l a r E. exact (q_txt _ _ _ _ _ E).
  - intros l a r E. exact (q_octets _ _ _ _ _ (le_n _) E).
Qed.
Lemma q_rhs dyn : quiet (rr_rhs dyn).
Proof. intros l a r. unfold rr_rhs. destruct (span isalpha l). destruct (keyword _ _) as [ty|]; [|intros [= <- <-] []]. destruct (dyn && _); [intros [= <- <-] []|]. apply q_rdata. Qed.
Lemma q_opt_in k : quiet k -> quiet (opt_in k).
Proof. intros H l a r. unfold opt_in. destruct (span isalpha l). destruct (keyword _ _) as [ty|]; [|apply H]. apply q_seq; [apply q_ws|exact H]. Qed.
Lemma q_if (c : bytes -> bool) L M : quiet L -> quiet M -> quiet (fun l => if c l then L l else M l).
Proof. intros H1 H2 l a r. destruct (c l); [apply H1|apply H2]. Qed.
Lemma q_ttl_any k : (forall d, quiet (k d)) -> quiet (ttl_any k).
Proof. intros H. unfold ttl_any. apply q_seq; [apply q_ttl; auto|]. apply q_if; quietly; apply H. Qed.
Lemma q_rr : quiet rr.
Proof.
  unfold rr. apply q_seq; [apply q_if; [intros l a r [= <- <-] []|apply q_tk; intros ?; nopi]|]. quietly. unfold rr_rest. apply q_if.
  - apply q_ttl_any. intros d. apply q_opt_in, q_rhs.
  - apply q_opt_in. apply q_if; [apply q_ttl_any; intros d; apply q_rhs|apply q_rhs].
Qed.
Lemma q_eol : quiet eol.
Proof. intros l a r E. assert (Z0 : fst (eol l) = []) by (unfold eol, one; destruct (skip_blanks l) as [|c ?]; [reflexivity|]; now destruct (10 =? c)). rewrite E in Z0. cbn in Z0. subst a. auto. Qed.
Lemma cmd_include l a r : cmd l = (a, r) -> In ProcessInclude a -> r <> None.
Proof.
  unfold cmd. destruct (span isalpha l) as (w, r1). destruct (keyword w commands) as [[]|]; [| | |intros [= <- <-] []].
  - intros E I0. exfalso. revert E I0. apply (q_seq ws (ttl at_end [SetDefTtl])); quietly.
  - intros E I0. exfalso. revert E I0. apply q_nrec. nopi.
  - unfold lseq at 1, emit. match goal with |- (let (_, _) := ?f in _) = _ -> _ => destruct f as (y, r2) eqn:E end. intros [= <- <-] [X|I0]; [discriminate|].
    revert E. unfold lseq at 1. destruct (ws r1) as (b, [r3|]) eqn:Ew; [|intros [= <- <-]; exfalso; now apply (q_ws _ _ _ Ew)].
    match goal with |- (let (_, _) := ?f in _) = _ -> _ => destruct f as (y2, r4) eqn:E end. intros [= <- <-]. apply in_app_or in I0 as [I0|I0]; [exfalso; now apply (q_ws _ _ _ Ew)|].
    revert E. unfold lseq, tk. destruct (txt_tok r3) as [(t, [|c0 r5])|]; try (intros [= <- <-]; destruct I0). destruct (at_end c0); [|intros [= <- <-]; destruct I0].
    destruct (starts (N.eqb 10) (c0 :: r5)); [intros [= <- <-]; discriminate|]. destruct (name_rec [ProcessInclude] (c0 :: r5)) as (y, r6) eqn:En. intros [= <- <-].
    revert En. unfold name_rec, lseq. destruct (ws (c0 :: r5)) as (b2, [r7|]) eqn:Ew2.
    + unfold tk. destruct (name_tok r7) as [(n, [|c1 r8])|].
      * intros [= <- <-]. exfalso. rewrite app_nil_r in I0. cbn in I0. destruct I0 as [X|I0]; [discriminate|]. now apply (q_ws _ _ _ Ew2).
      * destruct (at_end c1); intros [= <- <-]; [discriminate|]. exfalso. rewrite app_nil_r in I0. cbn in I0. destruct I0 as [X|I0]; [discriminate|]. now apply (q_ws _ _ _ Ew2).
      * intros [= <- <-]. exfalso. rewrite app_nil_r in I0. cbn in I0. destruct I0 as [X|I0]; [discriminate|]. now apply (q_ws _ _ _ Ew2).
    + intros [= <- <-]. exfalso. cbn in I0. destruct I0 as [X|I0]; [discriminate|]. now apply (q_ws _ _ _ Ew2).
Qed.
Lemma in_dur d x : In ProcessInclude (dur_acts d ++ x) -> In ProcessInclude x.
Proof. destruct d as [t [c|]]; cbn; intros H; repeat (destruct H as [H|H]; [discriminate|]); exact H. Qed.
Lemma in_data d : ~ In ProcessInclude (data_acts d).
Proof.
  destruct d; cbn [data_acts]; intros X; try (cbn in X; repeat (destruct X as [X|X]; [discriminate|]); exact X).
  - destruct X as [X|X]; [discriminate|]. apply in_app_or in X as [X|[X|[]]]; [|discriminate]. apply in_map_iff in X as (t & X & _). discriminate.
  - cbn [app] in X. do 2 (destruct X as [X|X]; [discriminate|]). rewrite <- !app_assoc in X. do 5 (apply in_dur in X; cbn [app] in X; destruct X as [X|X]; [discriminate|]). destruct X as [X|[]]. discriminate.
  - cbn [app] in X. do 4 (destruct X as [X|X]; [discriminate|]). apply in_app_or in X as [X|[X|[]]]; [|discriminate]. apply in_map_iff in X as (t & X & _). discriminate.
Qed.
Lemma in_stmt s : In ProcessInclude (stmt_acts s) -> exists f o, s = Include f o.
Proof.
  destruct s as [|on topt d|d|n|f o]; eauto; intros X; exfalso; cbn [stmt_acts] in X.
  - destruct X.
  - apply in_app_or in X as [X|X]; [destruct on; [destruct X as [X|[]]; discriminate|destruct X]|]. cbn [app] in X. destruct X as [X|X]; [discriminate|]. apply in_app_or in X as [X|X]; [|now apply in_data in X].
    destruct topt as [(d1, [d2|])|]; cbn [opt_acts ttl_acts] in X; [| |destruct X].
    + apply in_dur in X. cbn [app] in X. destruct X as [X|X]; [discriminate|]. apply in_dur in X. cbn in X. destruct X as [X|[X|[]]]; discriminate.
    + apply in_dur in X. cbn in X. destruct X as [X|[X|[X|[]]]]; discriminate.
  - apply in_dur in X. destruct X as [X|[]]; discriminate.
  - cbn in X. destruct X as [X|[X|[]]]; discriminate.
Qed.
Lemma line_include l a r : line l = (a, r) -> In ProcessInclude a -> exists t y f o, l = t ++ y /\ (blank (hd 0 y) \/ hd 0 y = 10) /\ stmt_text t (Include f o) /\ a = stmt_acts (Include f o).
Proof.
  rewrite line_eq. intros E I0.
  assert (Other : (if starts (N.eqb 10) (skip_blanks l) then eol l else (rr;; eol) l) <> (a, r)).
  { intros E2. revert I0. destruct (starts (N.eqb 10) (skip_blanks l)); [eapply q_eol; eauto|]. revert E2. apply (q_seq rr eol); [apply q_rr|apply q_eol]. }
  destruct l as [|c l]; [congruence|]. destruct (c =? 36) eqn:Q; [|congruence]. apply N.eqb_eq in Q. subst c. clear Other.
  unfold lseq in E. destruct (cmd l) as (x, rx) eqn:Ec.
  assert (Ix : In ProcessInclude x).
  { destruct rx as [rx|]; [|injection E as <- <-; exact I0]. destruct (eol rx) as (y, r2) eqn:Ee. injection E as <- <-. apply in_app_or in I0 as [I0|I0]; [exact I0|]. exfalso. now apply (q_eol _ _ _ Ee). }
  destruct rx as [rx|]; [|exfalso; now apply (cmd_include _ _ _ Ec)]. destruct (eol rx) as (y, r2) eqn:Ee. injection E as <- <-.
  assert (y = []) by (assert (Z0 : fst (eol rx) = []) by (unfold eol, one; destruct (skip_blanks rx) as [|c ?]; [reflexivity|]; now destruct (10 =? c)); rewrite Ee in Z0; exact Z0). subst y. rewrite app_nil_r.
  apply lex_cmd in Ec as (t & -> & s & St & -> & Fo). destruct (in_stmt _ Ix) as (f & o & ->). exists (36 :: t), rx, f, o.
  split; [reflexivity|]. split; [|auto]. destruct rx as [|c rx]; [destruct o; destruct Fo|]. cbn. destruct o; cbn in Fo; [|now right]. unfold end_of in Fo. tauto.
Qed.

Section Dying.
  Variable zone : bytes.
  Variable zn : name.
  Hypothesis Hzone : exists r, zone = dname zn true ++ r.
  Hypothesis Lzone : legal_name zn.
  Variable autosplit : bool.
  Variable pton4 pton6 : bytes -> option bytes.

  (** actions other than $INCLUDE do not look at files *)
  Lemma run_quiet incl cur incl' cur' a : ~ In ProcessInclude a -> forall z, run zone autosplit pton4 pton6 incl cur a z = run zone autosplit pton4 pton6 incl' cur' a z.
  Proof.
    induction a as [|x a IH]; intros H z; [reflexivity|]. rewrite !run_cons.
    assert (E : act zone autosplit pton4 pton6 incl cur x z = act zone autosplit pton4 pton6 incl' cur' x z) by (destruct x; try reflexivity; exfalso; apply H; now left).
    rewrite E. destruct (act zone autosplit pton4 pton6 incl' cur' x z) as [[z'|]|]; cbn [zbind rbind]; auto. apply IH. intros I0. apply H. now right.
  Qed.

  Section Lines.
    Variable incl : bytes -> bytes -> N -> zres (list record).
    Variable cur : bytes.
    Variable inclS : name -> bytes -> N -> list record -> Prop.
    Variable idies : bytes -> Prop.
    Hypothesis Hincl : forall b n p ttl, holds b n -> (exists q, n = q ++ zn) ->
      (exists rs, incl b p ttl = Ok (Some rs) /\ inclS n p ttl rs) \/
      ((forall rs, ~ inclS n p ttl rs) /\ (incl b p ttl = Ok None \/ (incl b p ttl = UB /\ idies p))).
    Hypothesis Fincl : forall n p ttl r1 r2, inclS n p ttl r1 -> inclS n p ttl r2 -> r1 = r2.
    Hypothesis Slash : In 47 cur.
    Notation Run := (run zone autosplit pton4 pton6 incl cur).

    Definition culprit (l : bytes) : Prop :=
      (exists h y, l = h ++ y /\ deadly h) \/
      (exists t y f o d f' p, l = t ++ y /\ (blank (hd 0 y) \/ hd 0 y = 10) /\ stmt_text t (Include f o) /\ unescaped f d /\ cstring d f' /\ path cur f' p /\ idies p).
    Lemma include_deadly t f o : stmt_text t (Include f o) -> stmt_fatal (Include f o) -> exists h y, t = h ++ y /\ deadly h.
    Proof.
      intros S F. inversion S; subst; cbn in F.
      - destruct F as [->|X]; [|discriminate]. match goal with K : text_token _ [] |- _ => apply text_empty in K; subst end. eexists _, []. split; [now rewrite app_nil_r|now apply de_include].
      - destruct F as [->|X].
        + match goal with K : text_token _ [] |- _ => apply text_empty in K; subst end. exists (36 :: k ++ b ++ [34; 34]), (b1 ++ t1). split; [cbn [app]; now rewrite <- !app_assoc|now apply de_include].
        + injection X as ->. match goal with K : name_token _ [] |- _ => apply name_empty in K; subst end. eexists _, []. split; [now rewrite app_nil_r|eapply de_include_at; eauto].
    Qed.
    Lemma line_dies l a r z k : all_bytes l -> agree zn z k -> line l = (a, r) -> Run a z = UB -> culprit l.
    Proof.
      intros B A E U. destruct (in_dec (fun x y : bool => Bool.bool_dec x y) true [existsb (fun x => match x with ProcessInclude => true | _ => false end) a]) as [D|D].
      - destruct D as [D|[]]. apply existsb_exists in D as (x & Ix & Dx). destruct x; try discriminate.
        destruct (line_include _ _ _ E Ix) as (t & y & f & o & -> & Ey & St & ->).
        assert (G : stmt_good (Include f o)) by (eapply stmt_text_good; [exact St|]; now apply all_prefix in B).
        destruct (stmt_run zone zn Hzone Lzone autosplit pton4 pton6 incl cur inclS idies Hincl Fincl _ _ _ G A) as [(z' & k' & rs & E2 & _)|(_ & [E2|(_ & [F|(f2 & o2 & [= <- <-] & [N0|(d & f' & p & X)])])])]; try congruence.
        + left. destruct (include_deadly _ _ _ St F) as (h & y2 & -> & Dh). exists h, (y2 ++ y). split; [now rewrite <- app_assoc|exact Dh].
        + right. exists t, y, f, o, d, f', p. tauto.
      - assert (Q : ~ In ProcessInclude a) by (intros I0; apply D; left; apply existsb_exists; exists ProcessInclude; auto).
        destruct sh_line as (_ & H). destruct (H _ _ _ B E) as [(b & s & G & F & Es)|X]; [exfalso|left; exact X].
        set (incl' := fun (_ _ : bytes) (_ : N) => Ok None : zres (list record)). rewrite (run_quiet incl cur incl' [47] a Q) in U.
        assert (U2 : run zone autosplit pton4 pton6 incl' [47] (stmt_acts s) z = UB) by (rewrite <- Es, run_app, U; reflexivity).
        destruct (stmt_run zone zn Hzone Lzone autosplit pton4 pton6 incl' [47] (fun _ _ _ _ => False) (fun _ => False)
          (fun b n p ttl _ _ => or_intror (conj (fun _ x => x) (or_introl eq_refl))) (fun _ _ _ _ _ x => match x with end) s z k G A)
          as [(z' & k' & rs & E2 & _)|(_ & [E2|(_ & [F2|(f2 & o2 & _ & [N0|(d & f' & p & _ & _ & _ & [])])])])]; try congruence. apply N0. now left.
    Qed.
    Lemma scan_dies : forall fuel text z k, (length text < fuel)%nat -> all_bytes text -> agree zn z k -> Run (fst (scan fuel text)) z = UB ->
      exists x l, text = x ++ l /\ (x = [] \/ exists x', x = x' ++ [10]) /\ culprit l.
    Proof.
      induction fuel as [|fuel IH]; intros text z k Hl Hb A U; [lia|]. cbn [scan] in U. destruct text as [|c0 text0] eqn:Et; [discriminate|].
      rewrite <- Et in *. clear Et c0 text0. destruct (line text) as [a [r|]] eqn:El; cbn [fst] in U.
      - destruct (scan fuel r) as (b, ok) eqn:Es. cbn [fst] in U. rewrite run_app in U. assert (El' := El). apply lex_line in El' as (t & Etext & s & Ok1 & Ea).
        destruct (Run a z) as [[z1|]|] eqn:Ra; cbn [zbind rbind] in U; [|discriminate|].
        + rewrite Etext in Hb. assert (G := line_ok_good _ _ Ok1 (all_prefix _ _ Hb)).
          destruct (stmt_run zone zn Hzone Lzone autosplit pton4 pton6 incl cur inclS idies Hincl Fincl _ _ _ G A) as [(z' & k' & rs & E2 & _ & A2 & _)|(_ & X)]; [|rewrite <- Ea, Ra in X; destruct X as [X|(X & _)]; discriminate].
          rewrite <- Ea, Ra in E2. injection E2 as <-. assert (Nt := line_ok_nonempty _ _ Ok1).
          destruct (IH r z1 k') as (x & l & Er & Hx & C); [rewrite Etext, app_length in Hl; lia|now apply all_suffix in Hb|exact A2|rewrite Es; exact U|].
          exists (t ++ x), l. split; [now rewrite <- app_assoc, <- Er|]. split; [|exact C]. right. destruct Hx as [->|(x' & ->)]; [|exists (t ++ x'); now rewrite app_assoc].
          destruct Ok1 as (body & g & -> & _). exists (body ++ g). now rewrite app_nil_r, <- app_assoc.
        + exists [], text. split; [reflexivity|]. split; [now left|]. eapply line_dies; eauto.
      - exists [], text. split; [reflexivity|]. split; [now left|]. eapply line_dies; eauto.
    Qed.
  End Lines.

  Variable fs : bytes -> option bytes.
  Hypothesis Hfs : forall fn raw, fs fn = Some raw -> all_bytes raw.
  Notation Zdo := (zscan_do zone autosplit pton4 pton6 fs).
  Definition doomed (n : nat) (fn : bytes) : Prop := nested fs n fn \/ exists p, reads fs fn p /\ deadly_file fs p.
  Lemma path_slash cur f p : In 47 cur -> path cur f p -> In 47 p.
  Proof. intros _ [(H & ->)|(_ & d & b & _ & _ & ->)]; [destruct f; cbn in H; [discriminate|now left]|]. apply in_or_app. right. now left. Qed.
  Lemma file_dies n : forall b o fn ttl, holds b o -> (exists q, o = q ++ zn) -> In 47 fn -> Zdo n b fn ttl = UB -> doomed n fn.
  Proof.
    induction n as [|n IH]; intros b o fn ttl Hb Ho Sl U; [left; exact Logic.I|]. cbn [zscan_do] in U.
    destruct (fs fn) as [raw|] eqn:Ef; [|discriminate]. destruct (zst0_ok zn pton4 pton6 fs Hfs b o ttl Hb Ho) as (z & E0 & _ & A). rewrite E0 in U. cbn [rbind] in U.
    unfold scanner in U. destruct raw as [|c raw0] eqn:Er; [right; exists fn; split; [constructor|now left]|]. rewrite <- Er in *.
    assert (Lr : (length raw =? 0)%nat = false) by (rewrite Er; reflexivity). rewrite Lr in U. cbn [negb rassert] in U. clear Er c raw0 Lr.
    destruct (N.eqb_spec (last raw 0) 10) as [El|El]; cbn [negb] in U; [|discriminate].
    destruct (pre_layout (length raw) raw false false (le_n _) (or_intror El)) as [(text & Ep & Lay)|Ep]; rewrite Ep in U; cbn [zbind rbind] in U; [|discriminate].
    assert (Hb2 := layout_bytes _ _ _ _ Lay (Hfs _ _ Ef)). destruct (file_ok zone zn Hzone Lzone autosplit pton4 pton6 fs Hfs n) as (FO & FU).
    set (inclS := fun o p t rs => legal_name o /\ (exists q, o = q ++ zn) /\ zfile zn autosplit pton4 pton6 fs n o p t rs).
    assert (Hincl : forall b o p ttl, holds b o -> (exists q, o = q ++ zn) ->
      (exists rs, Zdo n b p ttl = Ok (Some rs) /\ inclS o p ttl rs) \/ ((forall rs, ~ inclS o p ttl rs) /\ (Zdo n b p ttl = Ok None \/ (Zdo n b p ttl = UB /\ (In 47 p -> doomed n p))))).
    { intros b' o' p ttl' Hb' Ho'. destruct (FO b' o' p ttl' Hb' Ho') as [(rs & E & Z)|(Z & E)]; [left; exists rs; split; [exact E|]; split; [apply Hb'|auto]|right].
      split; [intros rs (_ & _ & X); now apply (Z rs)|]. destruct (Zdo n b' p ttl') as [[rs|]|] eqn:Ez; [now destruct (E rs)|now left|right]. split; [reflexivity|]. intros Sp. eapply IH; eauto. }
    assert (Fincl : forall o p ttl r1 r2, inclS o p ttl r1 -> inclS o p ttl r2 -> r1 = r2) by (intros o' p ttl' r1 r2 (L & I0 & Z1) (_ & _ & Z2); eapply FU; eauto).
    assert (SD := scan_dies (Zdo n) fn inclS (fun p => In 47 p -> doomed n p) Hincl Fincl Sl (S (length text)) text z _ ltac:(lia) Hb2 A).
    destruct (scan (S (length text)) text) as (acts, ok). cbn [fst] in SD.
    destruct (run zone autosplit pton4 pton6 (Zdo n) fn acts z) as [[z2|]|]; cbn [zbind rbind] in U; [destruct ok; discriminate|discriminate|].
    destruct (SD eq_refl) as (x & l & Et & Hx & [(h & y & -> & D)|(t & y & f & o' & d & f' & p & -> & Ey & St & Un & C & P & I0)]).
    - right. exists fn. split; [constructor|]. right. exists raw, text. split; [exact Ef|]. split; [exact Lay|]. exists x, h, y. auto.
    - assert (Inc : includes fs fn p) by (exists raw, text, x, t, y, f, o', d, f'; exact (conj Ef (conj Lay (conj Et (conj Hx (conj Ey (conj St (conj Un (conj C P))))))))). specialize (I0 (path_slash _ _ _ Sl P)).
      destruct I0 as [I0|(q & R & D)]; [left; exists p; auto|right]. exists q. split; [econstructor; eauto|exact D].
  Qed.
End Dying.

(** What a file means does not need more depth than its nesting. *)
Lemma lines_shallow zn autosplit p4 p6 fs cur raw text (i1 i2 : name -> bytes -> N -> list record -> Prop) : fs cur = Some raw -> layout false false raw text ->
  (forall p, includes fs cur p -> forall o ttl rs, i1 o p ttl rs -> i2 o p ttl rs) ->
  forall k l rs, lines zn autosplit p4 p6 i1 cur k l rs -> forall x, text = x ++ l -> (x = [] \/ exists x', x = x' ++ [10]) -> lines zn autosplit p4 p6 i2 cur k l rs.
Proof.
  intros Ef Lay H k l rs X. induction X as [k|k t s k' rs1 l rs2 LT M X IH]; intros x Et Hx; [constructor|].
  assert (Lt := LT). destruct Lt as (body & g & Eb & St & G & _). eapply li_line; [exact LT| |].
  - destruct M as [|topt v m d r Tt D|o n ooz topt v m d r k1 O Ek Tt D|d v D|t0 q Nm|f o origin d f' p rs0 Or Iz Nf U C P Inc]; try (econstructor; eassumption).
    eapply me_include; eauto. eapply H; [|exact Inc]. exists raw, text, x, body, (g ++ [10] ++ l), f, o, d, f'. split; [exact Ef|]. split; [exact Lay|]. split; [rewrite Et, Eb; now rewrite <- !app_assoc|].
    split; [exact Hx|]. split; [destruct G; cbn; auto|]. auto.
  - apply (IH (x ++ t)); [now rewrite <- app_assoc|]. right. rewrite Eb. exists (x ++ body ++ g). now rewrite <- !app_assoc.
Qed.
Lemma zfile_shallow zn autosplit p4 p6 fs n : forall m o fn ttl rs, zfile zn autosplit p4 p6 fs m o fn ttl rs -> ~ nested fs n fn -> zfile zn autosplit p4 p6 fs n o fn ttl rs.
Proof.
  induction n as [|n IH]; intros m o fn ttl rs Z Nn; [exfalso; apply Nn; exact Logic.I|]. destruct m as [|m]; [destruct Z|]. cbn [zfile] in *.
  destruct Z as (raw & text & A & B & C & D & E). exists raw, text. repeat split; auto. eapply lines_shallow; [exact A|exact D| |exact E|exact (eq_refl : text = [] ++ text)|now left].
  intros p Inc o' ttl' rs' Z. eapply IH; [exact Z|]. intros Np. apply Nn. exists p. auto.
Qed.
