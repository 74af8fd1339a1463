(** The scanner of configuration files: keys are distinct, and all data can be written. *)
From Verif Require Import Base DnameSpec DnameModel DnameProofs CompModel CompProofs VscfModel VscfSpec VscfProofs VscfProofs2 VscfProofs3 VscfProofs4 VscfProofs5 VscfProofs6 VscfProofs7 VscfProofs8.
Local Open Scope N_scope.
Local Arguments N.eqb : simpl never.
Local Arguments N.leb : simpl never.

Definition wfc (c : cont) : Prop :=
  match c with
  | CH l => NoDup (map fst l) /\ Forall (fun e => distinct (snd e)) l
  | CA l => Forall distinct l
  end.
Definition wff (f : kind * cont * option bytes) : Prop :=
  let '(_, c, key) := f in wfc c /\ match c, key with CH l, Some k => ~ In k (map fst l) | _, _ => True end.
Definition wfs (s : scn) : Prop := wfc (s_cont s) /\ Forall wff (s_stk s).

Lemma NoDup_snoc {A} (l : list A) x : NoDup l -> ~ In x l -> NoDup (l ++ [x]).
Proof.
  induction 1 as [|a l Na Nl IH]; intros Nx; cbn [app]; [repeat constructor; easy|]. constructor.
  - rewrite in_app_iff. cbn. intros [X|[X|[]]]; [contradiction|]. subst. apply Nx. now left.
  - apply IH. intros X. apply Nx. now right.
Qed.
Lemma wfc_add l k v : wfc (CH l) -> ~ In k (map fst l) -> distinct v -> wfc (CH (l ++ [(k, v)])).
Proof.
  intros (Nd & F) Ni D. split; [rewrite map_app; now apply NoDup_snoc|]. apply Forall_app. split; [assumption|]. repeat constructor. exact D.
Qed.
Lemma wfc_arr l v : wfc (CA l) -> distinct v -> wfc (CA (l ++ [v])).
Proof. intros F D. apply Forall_app. auto. Qed.
Lemma add_val_wf v s s' : wfc (s_cont s) -> distinct v -> add_val v s = Ok (Some s') -> wfc (s_cont s').
Proof.
  intros W D. unfold add_val. destruct (s_cont s) as [l|l].
  - destruct (s_key s) as [k|]; [|discriminate]. destruct (has_key k l) eqn:Hk; [discriminate|]. apply has_key_false in Hk. intros E. injection E as <-. cbn. now apply wfc_add.
  - intros E. injection E as <-. cbn. now apply wfc_arr.
Qed.
Lemma merge_wf es : forall l l', wfc (CH l) -> Forall (fun e => distinct (snd e)) es -> merge es l = Some l' -> wfc (CH l').
Proof.
  induction es as [|[k v] es IH]; intros l l' W F E; cbn [merge fst] in E; [now injection E as <-|]. destruct (has_key k l) eqn:Hk; [discriminate|]. apply has_key_false in Hk.
  inversion F; subst. refine (IH _ _ _ _ E); [|assumption]. now apply wfc_add.
Qed.
Lemma wfc_distinct c : wfc c -> distinct (match c with CH l => VH l | CA l => VA l end).
Proof. destruct c; cbn; intros H; [destruct H|]; now constructor. Qed.

Section Tok.
Variable isdir : bytes -> bool.
Variable glob : bool -> bytes -> option (list bytes).
Variable load : bytes -> res (option vnode).
Variable fn : option bytes.
Hypothesis loaded : forall f d, load f = Ok (Some d) -> distinct d.
Notation take := (take isdir glob load fn).
Notation tstep := (tstep isdir glob load fn).
Notation trun := (trun isdir glob load fn).

Lemma include_wf fs : forall s s', wfc (s_cont s) -> include_files load fs s = Ok (Some s') -> wfc (s_cont s').
Proof.
  induction fs as [|f fs IH]; intros s s' W E; cbn [include_files] in E; [now injection E as <-|].
  destruct (include_file load f s) as [[s1|]|] eqn:I; try discriminate. cbn [rbind] in E. refine (IH _ _ _ E). unfold include_file in I. destruct (load f) as [[d|]|] eqn:Ld; try discriminate. apply loaded in Ld. cbn [rbind] in I.
  destruct (merging s); [|eapply add_val_wf; eauto]. destruct d as [| |es]; try discriminate. destruct (s_cont s) as [l|]; [|discriminate]. destruct (merge es l) as [l'|] eqn:M; [|discriminate]. injection I as <-. cbn [set_cont s_cont].
  inversion Ld; subst. eapply merge_wf; eauto.
Qed.
Lemma take_wf r raw s s' : wfc (s_cont s) -> take r raw s = Ok (Some s') -> wfc (s_cont s').
Proof.
  intros W. destruct r; cbn [VscfModel.take].
  - destruct (unescape raw) as [[u|]|]; try discriminate. intros E. now injection E as <-.
  - destruct (unescape raw) as [[u|]|]; try discriminate. cbn [rbind]. apply add_val_wf; [exact W|constructor].
  - unfold include. destruct (inc_files _ _ _ raw); [|discriminate]. destruct (_ && _); [discriminate|]. now apply include_wf.
Qed.
Lemma open_wf k c s s' : wfs s -> wfc c -> open k c s = Ok (Some s') -> wfs s'.
Proof.
  intros (W & F) Wc. unfold open. destruct (s_cont s) as [l|l] eqn:C.
  - destruct (s_key s) as [key|]; [|discriminate]. destruct (has_key key l) eqn:Hk; [discriminate|]. apply has_key_false in Hk. intros E. injection E as <-. split; [exact Wc|]. cbn. constructor; [split; auto|assumption].
  - intros E. injection E as <-. split; [exact Wc|]. cbn. constructor; [split; auto|assumption].
Qed.
Lemma close_wf s s' : wfs s -> close s = Ok (Some s') -> wfs s'.
Proof.
  intros (W & F). unfold close. destruct (s_stk s) as [|[[k c] key] stk]; [discriminate|]. inversion F as [|x y Wx F']; subst. destruct Wx as (Wc & Wk). apply wfc_distinct in W.
  destruct c as [l|l], key as [key|]; try discriminate; intros E; injection E as <-; (split; [|assumption]); cbn [s_cont]; [now apply wfc_add|now apply wfc_arr].
Qed.
Lemma act_wf a c s s' : wfs s -> do_act a c s = Ok (Some s') -> wfs s'.
Proof.
  intros W. destruct a; cbn [do_act]; try (intros E; injection E as <-; exact W).
  - apply open_wf; [assumption|constructor].
  - apply open_wf; [assumption|split; constructor].
  - now apply close_wf.
  - intros E. injection E as <-. split; [constructor|apply W].
Qed.
Lemma tstep_wf k s s' : wfs s -> tstep k s = Ok (Some s') -> wfs s'.
Proof.
  intros W E. unfold VscfProofs.tstep in E. destruct (s_lex s) as [p| | | | |]; try discriminate. destruct k as [raw|raw| | | | | |].
  - destruct (role_of (s_kind s) p) as [r|]; [|discriminate]. destruct (take r raw (core s)) as [[y|]|] eqn:T; try discriminate. cbn in E. injection E as <-. split; [|apply W]. cbn. eapply take_wf; [|exact T]. apply W.
  - destruct (syn _ p 36); [|discriminate]. destruct (take RInc raw (core s)) as [[y|]|] eqn:T; try discriminate. cbn in E. injection E as <-. split; [|apply W]. cbn. eapply take_wf; [|exact T]. apply W.
  - destruct (syn _ p 91); [|discriminate]. eapply act_wf; eauto.
  - destruct (syn _ p 93); [|discriminate]. eapply act_wf; eauto.
  - destruct (syn _ p 123); [|discriminate]. eapply act_wf; eauto.
  - destruct (syn _ p 125); [|discriminate]. eapply act_wf; eauto.
  - destruct (syn _ p 44); [|discriminate]. eapply act_wf; eauto.
  - destruct p; try discriminate. injection E as <-. exact W.
Qed.
Lemma trun_wf ts : forall s s', wfs s -> trun ts s = Ok (Some s') -> wfs s'.
Proof.
  induction ts as [|k ts IH]; intros s s' W E; cbn [VscfProofs.trun] in E; [now injection E as <-|]. destruct (tstep k s) as [[x|]|] eqn:T; try discriminate. cbn [rbind] in E. eapply IH; [|exact E]. eapply tstep_wf; eauto.
Qed.
Theorem scan_distinct ent_first t v : scan_buf ent_first isdir glob load fn t = Ok (Some v) -> distinct v.
Proof.
  intros E. apply scan_tokens in E as (ts & e & s1 & _ & R & _ & Rs). unfold result in Rs. injection Rs as <-. apply wfc_distinct. refine (proj1 (trun_wf _ _ _ _ R)). split; repeat constructor.
Qed.
End Tok.
Theorem file_distinct ent_first isdir glob fs n : forall f v, scan_file ent_first isdir glob fs n f = Ok (Some v) -> distinct v.
Proof.
  induction n as [|n IH]; intros f v E; cbn [scan_file] in E; [discriminate|]. destruct (fs f); [|discriminate]. eapply scan_distinct; eauto.
Qed.

(** ** Writing *)
Fixpoint vnode_all (P : vnode -> Prop) (Hs : forall raw v, P (VS raw v)) (Ha : forall l, Forall P l -> P (VA l)) (Hh : forall l, Forall (fun e => P (snd e)) l -> P (VH l)) (v : vnode) : P v :=
  match v with
  | VS raw x => Hs raw x
  | VA l => Ha l ((fix go l := match l return Forall P l with [] => Forall_nil _ | x :: l => Forall_cons _ (vnode_all P Hs Ha Hh x) (go l) end) l)
  | VH l => Hh l ((fix go l := match l return Forall (fun e => P (snd e)) l with [] => Forall_nil _ | x :: l => Forall_cons _ (vnode_all P Hs Ha Hh (snd x)) (go l) end) l)
  end.

Definition enc (c : N) : bytes := [92; 48 + c / 100; 48 + c / 10 mod 10; 48 + c mod 10].
Definition encs (t : bytes) : bytes := flat_map enc t.
Lemma enc_val c : c < 256 -> is_digit (48 + c / 100) /\ is_digit (48 + c / 10 mod 10) /\ is_digit (48 + c mod 10) /\
  (48 + c / 100 - 48) * 100 + (48 + c / 10 mod 10 - 48) * 10 + (48 + c mod 10 - 48) = c.
Proof.
  intros H. assert (c / 100 < 3) by (apply N.div_lt_upper_bound; lia). assert (c mod 10 < 10) by (apply N.mod_lt; lia). assert (c / 10 mod 10 < 10) by (apply N.mod_lt; lia).
  unfold is_digit. repeat split; try lia.
Qed.
Lemma encs_ok t : all_bytes t -> escaped (fun c => c <> 34 /\ c <> 92) (encs t) /\ unescaped (encs t) t.
Proof.
  induction 1 as [|c t B F (IH1 & IH2)]; [split; constructor|]. destruct (enc_val c B) as (D1 & D2 & D3 & E). unfold encs. cbn [flat_map enc app]. split.
  - apply es_num; auto. rewrite E. unfold is_byte in B. lia.
  - rewrite <- E at 4. apply ue_num; auto. rewrite E. unfold is_byte in B. lia.
Qed.
Definition writable (k : token) : Prop := match k with TStr raw => escaped (fun c => c <> 34 /\ c <> 92) raw | TInc _ => False | _ => True end.
Lemma write_tokens touch ts : Forall writable ts -> exists t e, spelled touch ts t e.
Proof.
  induction ts as [|k ts IH] using rev_ind; intros F; [exists [], Free; constructor|]. apply Forall_app in F as (F1 & F2). inversion F2 as [|x y W _]; subst. destruct (IH F1) as (t & e & H).
  assert (T : exists x e', tok_text k x e').
  { destruct k; cbn in W; try contradiction; try (eexists _, Free; constructor; fail). - eexists _, _. constructor. now apply st_quoted. }
  destruct T as (x & e' & T). exists ((t ++ [32]) ++ x), e'. refine (sp_tok _ _ _ Free _ _ _ _ T Logic.I). eapply sp_blank; [exact H|apply blank1; cbn; auto|discriminate].
Qed.
Section Write.
Variable docs : bytes -> list vnode -> Prop.
Definition written (v : vnode) : Prop := exists ts n v', value ts n /\ means docs n v' /\ same v v' /\ Forall writable ts.
Lemma write_all l : Forall written l -> exists ts ns vs, values ts ns /\ all_mean docs ns vs /\ Forall2 same l vs /\ Forall writable ts.
Proof.
  induction l as [|v l IH] using rev_ind; intros F; [exists [], [], []; repeat split; constructor|]. apply Forall_app in F as (F1 & F2). inversion F2 as [|x y Wx _]; subst. destruct Wx as (ts & n & v' & V & M & S & W).
  destruct (IH F1) as (ts0 & ns & vs & Vs & Am & F2' & W'). exists (ts0 ++ ts ++ []), (ns ++ [n]), (vs ++ [v']). repeat split.
  - apply vs_snoc; auto. now left.
  - now constructor.
  - apply Forall2_app; auto.
  - rewrite app_nil_r. apply Forall_app. auto.
Qed.
Lemma write_entries l : NoDup (map fst l) -> Forall (fun e => all_bytes (fst e) /\ written (snd e)) l ->
  exists ts ns es, entries ts ns /\ hash_means docs ns es /\ Forall2 (fun e e' => fst e = fst e' /\ same (snd e) (snd e')) l es /\ Forall writable ts.
Proof.
  induction l as [|[k v] l IH] using rev_ind; intros Nd F; [exists [], [], []; repeat split; constructor|]. apply Forall_app in F as (F1 & F2). inversion F2 as [|x y Wx _]; subst. destruct Wx as (Bk & ts & n & v' & V & M & S & W). cbn [fst snd] in *.
  rewrite map_app in Nd. cbn in Nd. apply NoDup_remove in Nd as (Nd & Ni). rewrite app_nil_r in Nd, Ni.
  destruct (IH Nd F1) as (ts0 & ns & es & Vs & Am & F2' & W'). destruct (encs_ok k Bk) as (Ek & Uk).
  assert (Em : map fst es = map fst l). { clear - F2'. induction F2' as [|a b l es (E & _) _ IH]; cbn; congruence. }
  exists (ts0 ++ TStr (encs k) :: TEq :: ts ++ []), (ns ++ [(Some (encs k), n)]), (es ++ [(k, v')]). repeat split.
  - apply en_key; auto. now left.
  - constructor; auto. now rewrite Em.
  - apply Forall2_app; auto.
  - rewrite app_nil_r. apply Forall_app. split; [assumption|]. constructor; [exact Ek|]. constructor; [exact Logic.I|assumption].
Qed.
Lemma write_value v : proper v -> written v.
Proof.
  induction v as [raw x|l IH|l IH] using vnode_all; intros P; inversion P; subst.
  - destruct (encs_ok x ltac:(assumption)) as (E & U). exists [TStr (encs x)], (NStr (encs x)), (VS (encs x) x). repeat split; now constructor.
  - destruct (write_all l) as (ts & ns & vs & Vs & Am & F2 & W).
    { clear P. induction IH; constructor; inversion H0; subst; auto. }
    eexists _, _, _. split; [exact (va_arr _ _ Vs)|]. split; [exact (me_arr _ _ _ Am)|]. split; [now constructor|]. constructor; [exact Logic.I|]. apply Forall_app. split; [assumption|]. repeat constructor.
  - destruct (write_entries l) as (ts & ns & es & Vs & Am & F2 & W); [assumption| |].
    { clear P H0. induction IH; constructor; inversion H1; subst; auto. split; [apply H3|]. apply H. apply H3. }
    eexists _, _, _. split; [exact (va_hash _ _ Vs)|]. split; [exact (me_hash _ _ _ Am)|]. split; [now constructor|]. constructor; [exact Logic.I|]. apply Forall_app. split; [assumption|]. repeat constructor.
Qed.
Lemma write_doc v : proper v -> (forall r x, v <> VS r x) -> exists ts a v', doc ts a /\ means docs a v' /\ same v v' /\ Forall writable ts.
Proof.
  intros P Ns. destruct v as [r x|l|l]; [now destruct (Ns r x)| |].
  - inversion P; subst. destruct (write_all l) as (ts & ns & vs & Vs & Am & F2 & W).
    { eapply Forall_impl; [|eassumption]. intros e Pe. now apply write_value. }
    eexists _, _, _. split; [exact (do_arr _ _ Vs)|]. split; [exact (me_arr _ _ _ Am)|]. split; [now constructor|]. constructor; [exact Logic.I|]. apply Forall_app. split; [assumption|]. repeat constructor.
  - inversion P; subst. destruct (write_entries l) as (ts & ns & es & Vs & Am & F2 & W); [assumption| |].
    { eapply Forall_impl; [|eassumption]. intros e (B & Pe). split; [assumption|now apply write_value]. }
    exists ts, (NHash ns), (VH es). repeat split; try (now constructor); assumption.
Qed.
End Write.
