(** The scanner of configuration files: what can bring the process down. *)
From Verif Require Import Base DnameSpec DnameModel DnameProofs CompModel CompProofs VscfModel VscfSpec VscfProofs VscfProofs2 VscfProofs3 VscfProofs4 VscfProofs5 VscfProofs6.
Local Open Scope N_scope.
Local Arguments N.eqb : simpl never.
Local Arguments N.leb : simpl never.

Section Buf.
Variable ent_first : bool.
Variable isdir : bytes -> bool.
Variable glob : bool -> bytes -> option (list bytes).
Variable load : bytes -> res (option vnode).
Variable fn : option bytes.
Notation take := (take isdir glob load fn).
Notation step := (step ent_first isdir glob load fn).
Notation run := (run ent_first isdir glob load fn).
Notation at_eof := (at_eof isdir glob load fn).
Notation scan_buf := (scan_buf ent_first isdir glob load fn).
Notation tstep := (tstep isdir glob load fn).
Notation trun := (trun isdir glob load fn).
Notation spelled := (spelled (negb ent_first)).
Notation apart := (apart (negb ent_first)).
Notation sinv := (sinv isdir glob load fn).
Notation inv := (inv ent_first isdir glob load fn).
Notation ininc := (ininc isdir glob load fn).

(** An included file brings the process down, or holds a bare string. *)
Definition bad (raw : bytes) : Prop :=
  exists fs f, inc_files isdir glob fn raw = Some fs /\ In f fs /\ (load f = UB \/ exists r v, load f = Ok (Some (VS r v))).
Definition blame (t : bytes) : Prop :=
  (exists raw, has_include (negb ent_first) t raw /\ bad raw) \/ (ent_first = true /\ strings_touch t).

Lemma blame_more t r : blame t -> blame (t ++ r).
Proof.
  intros [(raw & (ts & u & e & w & x & e' & r0 & -> & H) & B)|(E & H)]; [left|right; split; [assumption|now apply touch_more]].
  exists raw. split; [|assumption]. exists ts, u, e, w, x, e', (r0 ++ r). rewrite <- !app_assoc. auto.
Qed.
Lemma include_files_ub fs : forall s, include_files load fs s = UB -> exists f, In f fs /\ (load f = UB \/ exists r v, load f = Ok (Some (VS r v))).
Proof.
  induction fs as [|f fs IH]; intros s E; cbn [include_files] in E; [discriminate|].
  unfold include_file in E. destruct (load f) as [[d|]|] eqn:Ld; try discriminate.
  - cbn [rbind] in E. destruct (merging s) eqn:M.
    + unfold merging in M. destruct (s_cont s) as [l|] eqn:C; [|discriminate]. destruct d as [r v|vs|es]; [exists f; split; [now left|right; eauto]|discriminate|].
      destruct (merge es l); [|discriminate]. cbn [rbind] in E. destruct (IH _ E) as (g & I & H). exists g. split; [now right|assumption].
    + unfold merging in M. unfold add_val in E. destruct (s_cont s) as [l|l].
      * destruct (s_key s); [|discriminate]. destruct (has_key _ _); [discriminate|]. cbn [rbind] in E. destruct (IH _ E) as (g & I & H). exists g. split; [now right|assumption].
      * cbn [rbind] in E. destruct (IH _ E) as (g & I & H). exists g. split; [now right|assumption].
  - exists f. split; [now left|auto].
Qed.
Lemma include_ub raw s : take RInc raw s = UB -> bad raw.
Proof.
  cbn [VscfModel.take]. unfold include. destruct (inc_files _ _ _ raw) as [fs|] eqn:I; [|discriminate]. destruct (_ && _); [discriminate|]. intros E.
  destruct (include_files_ub _ _ E) as (f & J & H). exists fs, f. auto.
Qed.
Lemma outer_close m k ts stk ct b key : outer isdir glob load fn m k ts stk -> k = KArr \/ k = KHash -> close (Scn (LPos (PItem b)) k ct key stk None) <> UB.
Proof. intros H K. unfold close. destruct H; cbn [s_stk s_cont]; try (destruct K; discriminate); discriminate. Qed.

Theorem tstep_ub ts s k : sinv ts s -> tstep k s = UB -> exists raw, k = TInc raw /\ bad raw.
Proof.
  intros H E. destruct H as [m1 m2 kd tso tsl ct b key stk Ho Lo Fr M|m1 m2 kd tso tsl es b key stk raw Ho Lo Nf M U|m1 m2 kd tso tsl es b key stk raw Ho Lo Nf M U|m vs tsl key b Lo M].
  - unfold VscfProofs.tstep in E. cbn [s_lex s_kind] in E. destruct (syn_item kd b) as (S1 & S2 & S3 & S4 & S5 & S6 & Ro). rewrite S1, S2, S3, S4, S5, S6, Ro in E.
    destruct k as [raw|raw| | | | | |].
    + exfalso. pose proof (unescape_never_ub raw) as Nu. destruct (is_array kd) eqn:A; cbn [VscfModel.take] in E; destruct (unescape raw) as [[u|]|]; try discriminate; try congruence.
      destruct ct; [inversion Lo; congruence|discriminate].
    + exists raw. split; [reflexivity|]. destruct (take RInc raw (core _)) as [[y|]|] eqn:T; try discriminate. eapply include_ub; eauto.
    + exfalso. destruct kd as [[]| | |]; try discriminate; cbn [do_act] in E; unfold open in E; (destruct ct; [inversion Lo; discriminate|discriminate]).
    + exfalso. destruct kd as [[]| | |]; try discriminate; cbn [do_act] in E. eapply outer_close; eauto.
    + exfalso. destruct kd as [[]| | |]; try discriminate; cbn [do_act] in E; unfold open in E; (destruct ct; [inversion Lo; discriminate|discriminate]).
    + exfalso. destruct kd as [[]| | |]; try discriminate; cbn [do_act] in E. eapply outer_close; eauto.
    + destruct b; discriminate.
    + discriminate.
  - exfalso. unfold VscfProofs.tstep in E. cbn [s_lex s_kind] in E. destruct (syn_pkey kd) as (S1 & S2 & S3 & S4 & S5 & S6 & Ro). rewrite S1, S2, S3, S4, S5, S6, Ro in E. destruct k; discriminate.
  - unfold VscfProofs.tstep in E. cbn [s_lex s_kind] in E. destruct (syn_pval kd) as (S1 & S2 & S3 & S4 & S5 & S6 & Ro). rewrite S1, S2, S3, S4, S5, S6, Ro in E.
    destruct k as [r2|r2| | | | | |]; try discriminate.
    + exfalso. pose proof (unescape_never_ub r2) as Nu. cbn [VscfModel.take] in E. destruct (unescape r2) as [[u|]|]; try discriminate; try congruence. cbn [rbind] in E. unfold add_val in E. cbn [set_tok core s_cont s_key] in E. destruct (has_key key es); discriminate.
    + exists r2. split; [reflexivity|]. destruct (take RInc r2 (core _)) as [[y|]|] eqn:T; try discriminate. eapply include_ub; eauto.
    + exfalso. cbn [do_act] in E. unfold open in E. cbn [s_cont s_key] in E. destruct (has_key key es); discriminate.
    + exfalso. cbn [do_act] in E. unfold open in E. cbn [s_cont s_key] in E. destruct (has_key key es); discriminate.
  - exfalso. unfold VscfProofs.tstep in E. cbn [s_lex s_kind] in E. destruct (syn_pend KTopArr) as (S1 & S2 & S3 & S4 & S5 & S6 & Ro). rewrite S1, S2, S3, S4, S5, S6, Ro in E. destruct k; discriminate.
Qed.

Lemma act_ub ts s1 p c a : trun ts scn0 = Ok (Some s1) -> s_lex s1 = LPos p -> syn (s_kind s1) p c = Some a -> do_act a c s1 <> UB.
Proof.
  intros R L Y E. destruct (trun_good _ _ _ _ _ _ _ _ good0 R) as (p' & L' & Tp & Tk). rewrite L in L'. injection L' as <-.
  destruct (syn_cases _ _ _ _ Tp Y) as [(I & ->)|[(I & ->)|[I|[(-> & -> & ->)|[(-> & ->)|(r & Ro & Q)]]]]]; try discriminate E.
  - assert (T : tstep (tok_of c) s1 = UB /\ forall raw, tok_of c <> TInc raw).
    { unfold VscfProofs.tstep. rewrite L. cbn in I. destruct I as [<-|[<-|[<-|[<-|[<-|[]]]]]]; cbn [tok_of]; (split; [|intros; discriminate]); cbn in Y |- *; rewrite Y; exact E. }
    destruct T as (T & Nt). destruct (tstep_ub _ _ _ (sinv_run _ _ _ _ _ _ R) T) as (raw & K & _). now apply Nt in K.
  - destruct Q as [(-> & ->)|[(-> & ->)|(Pl & Nd & ->)]]; discriminate E.
Qed.
Lemma leaving_ub ts t e s1 p r (q : bool) x raw e' c : spelled ts t e -> trun ts scn0 = Ok (Some s1) -> s_lex s1 = LPos p -> role_of (s_kind s1) p = Some r -> apart e (hd 0 x) ->
  str_text raw x e' -> e' = (if q then AfterQuoted else AfterUnquoted) -> x = (if q then 34 :: raw ++ [34] else raw) -> (q = false -> ~ plain c /\ c <> 92) ->
  leaving ent_first isdir glob load fn q r c (st (if q then LQE r else LU r E0) s1 (Some x)) = UB -> blame ((t ++ x) ++ [c]).
Proof.
  intros H R L Ro A T Ee Ex Nc E. unfold leaving in E. cbn [st s_kind] in E. destruct (syn (defresh (s_kind s1)) (after r) c) as [a|] eqn:Y; [|discriminate].
  destruct (ent_first && starts_str a) eqn:EF.
  - right. apply andb_true_iff in EF as (EF & SS). split; [exact EF|]. pose proof (sp_tok _ _ _ _ _ _ _ H (tt_str _ _ _ T) A) as H'. rewrite EF in H'.
    eexists _, _, _, c, []. split; [reflexivity|]. split; [exact H'|]. pose proof (syn_starts _ _ _ _ Y SS) as Sc. destruct q; subst e'; [right; auto|]. left. destruct (Nc eq_refl). intuition.
  - exfalso. assert (Lv : leave isdir glob load fn q r (st (if q then LQE r else LU r E0) s1 (Some x)) = rmap (put (st (if q then LQE r else LU r E0) s1 (Some x))) (take r raw (core s1))).
    { destruct q; subst x; [rewrite (leave_q _ _ _ _ r _ raw) by reflexivity|rewrite (leave_u _ _ _ _ r _ raw) by reflexivity]; reflexivity. }
    rewrite Lv in E. destruct (take r raw (core s1)) as [[y|]|] eqn:Ty; cbn [rmap rbind] in E; try discriminate.
    + assert (X : tstep (TStr raw) s1 = Ok (Some (eff s1 (defresh (s_kind s1)) (after r) y))) by (unfold VscfProofs.tstep; now rewrite L, Ro, Ty).
      destruct (spelled_tok _ _ _ _ _ _ _ _ _ _ _ _ _ H R (tt_str _ _ _ T) A X) as (H' & R'). exact (act_ub _ _ _ _ _ R' eq_refl Y E).
    + assert (X : tstep (TStr raw) s1 = UB) by (unfold VscfProofs.tstep; now rewrite L, Ro, Ty). destruct (tstep_ub _ _ _ (sinv_run _ _ _ _ _ _ R) X) as (raw' & K & _). discriminate K.
Qed.
Lemma inc_end_ub s1 y c a k : syn k PIncEnd c = Some a -> do_act a c (eff s1 k PIncEnd y) <> UB.
Proof. unfold syn. destruct (v_space c); [intros X; injection X as <-; discriminate|]. destruct (v_hash c); [intros X; injection X as <-; discriminate|]. destruct (c =? 125); [intros X; injection X as <-; discriminate|discriminate]. Qed.
Lemma inc_end_str k c a : syn k PIncEnd c = Some a -> starts_str a = false.
Proof. unfold syn. destruct (v_space c); [intros X; injection X as <-; reflexivity|]. destruct (v_hash c); [intros X; injection X as <-; reflexivity|]. destruct (c =? 125); [intros X; injection X as <-; reflexivity|discriminate]. Qed.
Lemma ininc_ub s1 x s c : ininc s1 x s -> step c s = UB -> exists w y raw e r, x ++ [c] = word ++ w ++ y ++ r /\ blank w /\ str_text raw y e /\ bad raw.
Proof.
  intros H E. destruct H as [n Hn|w B|w c0 b B I Nb|w e raw B P Nr Nd|w e raw B P|w raw B P|w x w2 raw e y B T B2 Ty|w x w2 raw e y c0 b B T B2 Ty I Nb]; unfold VscfModel.step in E; unfold st, eff, set_lex in E; cbn [s_lex s_kind] in E.
  - destruct (c =? _); discriminate.
  - exfalso. unfold syn in E. destruct (v_space c); [discriminate|]. destruct (v_hash c); [discriminate|]. unfold str_start in E. destruct (c =? 34); [discriminate|]. destruct (c =? 92); [discriminate|]. destruct (v_fchr c); discriminate.
  - destruct (c =? 10); discriminate.
  - destruct e as [| | |]; [|destruct (esc_step _ c); discriminate..]. destruct (v_chr c); [discriminate|]. destruct (c =? 92); [discriminate|].
    unfold leaving in E. cbn [s_kind after] in E. destruct (syn (defresh (s_kind s1)) PIncEnd c) as [a|] eqn:Y; [|discriminate]. rewrite (inc_end_str _ _ _ Y), andb_false_r in E.
    rewrite (leave_u _ _ _ _ RInc _ raw) in E by reflexivity. destruct (take RInc raw _) as [[y|]|] eqn:Ty; cbn [rmap rbind] in E; try discriminate.
    + exfalso. exact (inc_end_ub s1 y c a _ Y E).
    + apply str_part_0 in P. exists w, raw, raw. eexists _, [c]. split; [now rewrite <- !app_assoc|]. split; [assumption|]. split; [now apply st_unquoted|]. eapply include_ub; eauto.
  - destruct e as [| | |]; [|destruct (esc_step _ c); discriminate..]. destruct (c =? 34); [discriminate|]. destruct (c =? 92); discriminate.
  - unfold leaving in E. cbn [s_kind after] in E. destruct (syn (defresh (s_kind s1)) PIncEnd c) as [a|] eqn:Y; [|discriminate]. rewrite (inc_end_str _ _ _ Y), andb_false_r in E.
    rewrite (leave_q _ _ _ _ RInc _ raw) in E by reflexivity. destruct (take RInc raw _) as [[y|]|] eqn:Ty; cbn [rmap rbind] in E; try discriminate.
    + exfalso. exact (inc_end_ub s1 y c a _ Y E).
    + exists w, (34 :: raw ++ [34]), raw. eexists _, [c]. split; [now rewrite <- !app_assoc|]. split; [assumption|]. split; [now apply st_quoted|]. eapply include_ub; eauto.
  - exfalso. destruct (syn (defresh (s_kind s1)) PIncEnd c) as [a|] eqn:Y; [|discriminate]. exact (inc_end_ub s1 y c a _ Y E).
  - destruct (c =? 10); discriminate.
Qed.

Theorem step_ub t s c : inv t s -> step c s = UB -> blame (t ++ [c]).
Proof.
  intros H E. destruct H as [ts t e s1 s H R P Q|ts t e s1 p c0 b H R L I Nb|ts t e s1 p r x raw H R L Ro A P Nr Nd|ts t e s1 p r x raw H R L Ro A P|ts t e s1 p r raw H R L Ro A P|ts t e s1 p x s H R L Y A J|t s r EF St T Lx].
  - exfalso. destruct (trun_good _ _ _ _ _ _ _ _ good0 R) as (p & L & Tp & Tk). destruct Q as [->| ->].
    + inversion P; subst. unfold VscfModel.step in E. rewrite L in E. destruct (syn (s_kind s1) p c) as [a|] eqn:Y; [|discriminate]. exact (act_ub _ _ _ _ _ R L Y E).
    + inversion P as [|s0 L'| |]; subst. rewrite L in L'. injection L' as ->. unfold VscfModel.step in E. cbn [set_lex s_lex s_kind] in E.
      destruct (N.eqb_spec c 62) as [->|N62].
      * assert (Z : syn (s_kind s1) PEq 62 = Some (AGo PVal)) by (destruct (s_kind s1) as [[]| | |]; reflexivity). rewrite Z in E. discriminate E.
      * rewrite syn_eq in E by assumption. destruct (syn (s_kind s1) PVal c) as [a|] eqn:Y; [|discriminate]. rewrite do_act_lex in E. exact (act_ub _ _ _ _ _ R L Y E).
  - unfold VscfModel.step in E. cbn [set_lex s_lex] in E. destruct (c =? 10); discriminate.
  - unfold VscfModel.step in E. unfold st in E. cbn [s_lex] in E. destruct x as [| | |]; [|destruct (esc_step _ c); discriminate..].
    destruct (v_chr c) eqn:V; [discriminate|]. destruct (N.eqb_spec c 92) as [->|N92]; [discriminate|]. apply str_part_0 in P. apply v_chr_false in V.
    eapply (leaving_ub _ _ _ _ _ _ false); eauto. apply st_unquoted; assumption.
  - unfold VscfModel.step in E. unfold st in E. cbn [s_lex] in E. destruct x as [| | |]; [|destruct (esc_step _ c); discriminate..]. destruct (c =? 34); [discriminate|]. destruct (c =? 92); discriminate.
  - unfold VscfModel.step in E. unfold st in E. cbn [s_lex] in E. refine (leaving_ub _ _ _ _ _ _ true _ raw _ c H R L Ro _ (st_quoted _ P) eq_refl eq_refl _ E); [exact A|discriminate].
  - left. destruct (ininc_ub _ _ _ _ J E) as (w & y & raw & e' & r & Ex & B & T & Bd). exists raw. split; [|exact Bd]. exists ts, t, e, w, y, e', r. rewrite <- app_assoc, Ex. auto.
  - right. split; [exact EF|]. now apply touch_more.
Qed.

Lemma kmain_stk ts s : sinv ts s -> (exists b, s_kind s = KMain b) \/ s_kind s = KTopArr -> s_stk s = [].
Proof.
  intros H K. destruct H as [m1 m2 kd tso tsl ct b key stk Ho Lo Fr M|m1 m2 kd tso tsl es b key stk raw Ho Lo Nf M U|m1 m2 kd tso tsl es b key stk raw Ho Lo Nf M U|m vs tsl key b Lo M]; cbn in K |- *; try reflexivity;
    (destruct K as [(b' & ->)| ->]; [apply outer_main in Ho|apply outer_top in Ho]; now destruct Ho as (_ & _ & ->)).
Qed.
Theorem eof_ub t s : inv t s -> at_eof s = UB -> blame t.
Proof.
  intros H E. destruct H as [ts t e s1 s H R P Q|ts t e s1 p c0 b H R L I Nb|ts t e s1 p r x raw H R L Ro A P Nr Nd|ts t e s1 p r x raw H R L Ro A P|ts t e s1 p r raw H R L Ro A P|ts t e s1 p x s H R L Y A J|t s r EF St T Lx].
  - exfalso. destruct (trun_good _ _ _ _ _ _ _ _ good0 R) as (p & L & Tp & Tk). destruct Q as [->| ->]; inversion P; subst.
    + unfold VscfModel.at_eof in E. rewrite L in E. pose proof (kmain_stk _ _ (sinv_run _ _ _ _ _ _ R)) as Ks. destruct (s_kind s1) eqn:K; try discriminate; (rewrite Ks in E; [|eauto]); destruct p; discriminate.
    + unfold VscfModel.at_eof, set_lex in E. cbn in E. destruct (s_kind s1); discriminate.
  - exfalso. unfold VscfModel.at_eof, set_lex in E. cbn in E. destruct (s_kind s1); discriminate.
  - exfalso. unfold VscfModel.at_eof in E. unfold st in E. cbn [s_kind s_lex] in E. destruct (defresh (s_kind s1)) eqn:K; try discriminate. destruct r; try discriminate. destruct x; try discriminate.
    rewrite (leave_u _ _ _ _ RVal _ raw) in E by reflexivity. destruct (take RVal raw _) as [[y|]|] eqn:Ty; cbn [rmap rbind] in E; try discriminate.
    + pose proof (kmain_stk _ _ (sinv_run _ _ _ _ _ _ R)) as Ks. cbn in E. rewrite Ks in E; [discriminate|]. left. destruct (s_kind s1); try discriminate. eauto.
    + assert (X : tstep (TStr raw) s1 = UB). { unfold VscfProofs.tstep. rewrite L, Ro. change (core s1) with (core (Scn (LU RVal E0) (KMain fresh) (s_cont s1) (s_key s1) (s_stk s1) (Some raw))). now rewrite Ty. }
      destruct (tstep_ub _ _ _ (sinv_run _ _ _ _ _ _ R) X) as (raw' & K' & _). discriminate K'.
  - exfalso. unfold VscfModel.at_eof, st in E. cbn in E. destruct (defresh (s_kind s1)); try discriminate.
  - exfalso. unfold VscfModel.at_eof in E. unfold st in E. cbn [s_kind s_lex] in E. destruct (defresh (s_kind s1)) eqn:K; try discriminate. destruct r; try discriminate.
    rewrite (leave_q _ _ _ _ RVal _ raw) in E by reflexivity. destruct (take RVal raw _) as [[y|]|] eqn:Ty; cbn [rmap rbind] in E; try discriminate.
    + pose proof (kmain_stk _ _ (sinv_run _ _ _ _ _ _ R)) as Ks. cbn in E. rewrite Ks in E; [discriminate|]. left. destruct (s_kind s1); try discriminate. eauto.
    + assert (X : tstep (TStr raw) s1 = UB). { unfold VscfProofs.tstep. rewrite L, Ro. change (core s1) with (core (Scn (LQE RVal) (KMain fresh) (s_cont s1) (s_key s1) (s_stk s1) (Some (34 :: raw ++ [34])))). now rewrite Ty. }
      destruct (tstep_ub _ _ _ (sinv_run _ _ _ _ _ _ R) X) as (raw' & K' & _). discriminate K'.
  - exfalso. destruct J; unfold VscfModel.at_eof, st, eff, set_lex in E; cbn [s_kind s_lex] in E; destruct (defresh (s_kind s1)); try discriminate; destruct e; discriminate.
  - right. auto.
Qed.

Theorem scan_ub t : scan_buf t = UB -> blame t.
Proof.
  unfold VscfModel.scan_buf. intros E. destruct (run t scn0) as [[s|]|] eqn:R; cbn [rbind] in E; try discriminate.
  - apply inv_run in R. eapply eof_ub; eauto.
  - clear E. enough (X : exists pre c post s, t = pre ++ c :: post /\ run pre scn0 = Ok (Some s) /\ step c s = UB).
    { destruct X as (pre & c & post & s & -> & Rp & S). apply inv_run in Rp. apply (step_ub _ _ _ Rp) in S. apply (blame_more _ post) in S. now rewrite <- app_assoc in S. }
    induction t as [|c t IH] using rev_ind; [discriminate|]. rewrite run_app in R. destruct (run t scn0) as [[s|]|] eqn:Rt; cbn [rbind] in R; try discriminate.
    + rewrite run_one in R. exists t, c, [], s. auto.
    + destruct (IH eq_refl) as (pre & c' & post & s & -> & H). exists pre, c', (post ++ [c]), s. rewrite <- app_assoc. auto.
Qed.

(** What a file holds is an array or a hash. *)
Lemma scan_not_string t r v : scan_buf t <> Ok (Some (VS r v)).
Proof. intros E. apply scan_tokens in E as (ts & e & s1 & _ & _ & _ & Rs). unfold result in Rs. destruct (s_cont s1); discriminate. Qed.
End Buf.
