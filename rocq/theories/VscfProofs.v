(** The scanner of configuration files: from bytes to tokens. *)
From Verif Require Import Base DnameSpec DnameModel DnameProofs DnameProofs2 CompModel VscfModel VscfSpec.
Local Open Scope N_scope.
Local Arguments N.eqb : simpl never.
Local Arguments N.leb : simpl never.

(** ** Characters *)
Lemma existsb_In c l : existsb (N.eqb c) l = true <-> In c l.
Proof.
  rewrite existsb_exists. split.
  - intros (x & Hx & E). apply N.eqb_eq in E. now subst.
  - intros H. exists c. split; [assumption|apply N.eqb_refl].
Qed.
Lemma v_chr_spec c : v_chr c = true <-> plain c.
Proof. unfold v_chr, plain. rewrite negb_true_iff, <- existsb_In. destruct (existsb _ _); split; congruence. Qed.
Lemma v_chr_false c : v_chr c = false <-> ~ plain c.
Proof. rewrite <- v_chr_spec. destruct (v_chr c); split; congruence. Qed.
Lemma v_space_spec c : v_space c = true <-> In c [32; 9; 10].
Proof.
  unfold v_space. rewrite !orb_true_iff, !N.eqb_eq. cbn. split.
  - intros [[->| ->]| ->]; auto.
  - intros [<-|[<-|[<-|[]]]]; auto.
Qed.
Lemma v_hash_spec c : v_hash c = true <-> In c [59; 35].
Proof.
  unfold v_hash. rewrite !orb_true_iff, !N.eqb_eq. cbn. split.
  - intros [->| ->]; auto.
  - intros [<-|[<-|[]]]; auto.
Qed.
Lemma digit_spec c : digit c = true <-> is_digit c.
Proof. unfold digit, is_digit. rewrite andb_true_iff, !N.leb_le. reflexivity. Qed.

(** ** Escapes *)
Lemma unescaped_dec t d : unescaped t d -> dec t = Some d.
Proof.
  induction 1 as [|c t d Nc H IH|c t d Nc H IH|a b c t d Da Db Dc V H IH]; cbn [dec].
  - reflexivity.
  - destruct (N.eqb_spec c 92); [contradiction|]. now rewrite IH.
  - rewrite N.eqb_refl. destruct (isdig c) eqn:E; [apply isdig_spec in E; contradiction|]. now rewrite IH.
  - rewrite N.eqb_refl. apply isdig_spec in Da, Db, Dc. rewrite Da, Db, Dc. apply N.leb_le in V. rewrite V. cbn [andb]. now rewrite IH.
Qed.
Lemma dec_unescaped n : forall t d, (length t <= n)%nat -> dec t = Some d -> unescaped t d.
Proof.
  induction n as [|n IH]; intros [|c t] d Hl E; cbn [dec length] in *; try lia; [injection E as <-; constructor|injection E as <-; constructor|].
  destruct (N.eqb_spec c 92) as [->|Nc].
  - destruct t as [|a t]; [discriminate|]. destruct (isdig a) eqn:Da.
    + destruct t as [|b [|e t]]; [discriminate|discriminate|].
      destruct (isdig b && isdig e && ((a - 48) * 100 + (b - 48) * 10 + (e - 48) <=? 255)) eqn:V; [|discriminate].
      apply andb_true_iff in V as (V & V2). apply andb_true_iff in V as (Db & De). apply isdig_spec in Da, Db, De. apply N.leb_le in V2.
      destruct (dec t) as [x|] eqn:Et; [|discriminate]. injection E as <-. apply ue_num; auto. apply IH; [cbn [length] in *; lia|assumption].
    + destruct (dec t) as [x|] eqn:Et; [|discriminate]. injection E as <-. apply ue_esc; [intros X; apply isdig_spec in X; congruence|]. apply IH; [cbn [length] in *; lia|assumption].
  - destruct (dec t) as [x|] eqn:Et; [|discriminate]. injection E as <-. apply ue_char; auto. apply IH; [lia|assumption].
Qed.
Lemma unescaped_iff t d : unescaped t d <-> dec t = Some d.
Proof. split; [apply unescaped_dec|apply (dec_unescaped (length t)); lia]. Qed.
Lemma unescaped_fun t d e : unescaped t d -> unescaped t e -> d = e.
Proof. rewrite !unescaped_iff. congruence. Qed.
Lemma unescape_iff t d : unescape t = Ok (Some d) <-> unescaped t d.
Proof.
  unfold unescape. destruct t as [|c t].
  - split; [intros E; injection E as <-; constructor|intros E; inversion E; reflexivity].
  - unfold dns_unescape. cbn [length Nat.eqb negb rassert]. change (S (length t)) with (length (c :: t)).
    rewrite unescape_dec by (cbn [length] in *; lia). rewrite Nat.add_0_l, Nat.sub_0_r, sub_full. rewrite unescaped_iff.
    destruct (dec (c :: t)) as [[|x y]|] eqn:E; cbn [rbind].
    + split; [discriminate|]. apply unescaped_iff in E. inversion E.
    + cbn [app]. split; intros F; injection F as <-; reflexivity.
    + split; discriminate.
Qed.
Lemma unescape_never_ub t : unescape t <> UB.
Proof.
  unfold unescape. destruct t as [|c t]; [discriminate|]. unfold dns_unescape. cbn [length Nat.eqb negb rassert]. change (S (length t)) with (length (c :: t)).
  rewrite unescape_dec by (cbn [length] in *; lia). destruct (dec _) as [[|x y]|]; cbn; discriminate.
Qed.
Lemma escaped_unescaped (ok : N -> Prop) t : (forall c, ok c -> c <> 92) -> escaped ok t -> exists d, unescaped t d.
Proof.
  intros Hok. induction 1 as [|c t O H (d & IH)|c t Nc H (d & IH)|a b c t Da Db Dc V H (d & IH)].
  - eexists. apply ue_nil.
  - eexists. apply ue_char; eauto.
  - eexists. apply ue_esc; eauto.
  - eexists. apply ue_num; eauto.
Qed.
Lemma escaped_app ok a b : escaped ok a -> escaped ok b -> escaped ok (a ++ b).
Proof.
  intros H Hb. induction H; cbn [app]; [assumption|apply es_char|apply es_esc|apply es_num]; auto.
Qed.

(** A string whose last escape may be unfinished. *)
Inductive part : esc -> bytes -> Prop :=
| pa_0 : part E0 []
| pa_1 : part E1 [92]
| pa_2 a two : is_digit a -> a <= 50 -> two = (a =? 50) -> part (E2 two) [92; a]
| pa_3 a b five : is_digit a -> is_digit b -> a <= 50 -> (a = 50 -> b <= 53) -> five = (a =? 50) && (b =? 53) -> part (E3 five) [92; a; b].
Definition str_part (ok : N -> Prop) (e : esc) (t : bytes) : Prop := exists b x, t = b ++ x /\ escaped ok b /\ part e x.

Lemma str_part_0 ok t : str_part ok E0 t <-> escaped ok t.
Proof.
  split.
  - intros (b & x & -> & H & P). inversion P. now rewrite app_nil_r.
  - intros H. exists t, []. rewrite app_nil_r. repeat split; auto. constructor.
Qed.
Lemma str_part_esc ok e c e' t : str_part ok e t -> esc_step e c = Some e' -> str_part ok e' (t ++ [c]).
Proof.
  intros (b & x & -> & H & P) E. destruct P as [| |a two Da La ->|a b0 five Da Db La Lb ->]; cbn [esc_step] in E; try discriminate.
  - destruct (digit c) eqn:D.
    + apply digit_spec in D. destruct (N.leb_spec c 49).
      * injection E as <-. exists b, [92; c]. rewrite <- app_assoc. repeat split; auto. constructor; [assumption|lia|symmetry; apply N.eqb_neq; lia].
      * destruct (N.eqb_spec c 50); [|discriminate]. injection E as <-. exists b, [92; c]. rewrite <- app_assoc. repeat split; auto. constructor; [assumption|lia|symmetry; apply N.eqb_eq; lia].
    + injection E as <-. apply str_part_0. rewrite <- app_assoc. apply escaped_app; [assumption|]. apply es_esc; [rewrite <- digit_spec; congruence|constructor].
  - destruct (N.eqb_spec a 50) as [->|Na].
    + destruct (digit c) eqn:D; [|discriminate]. apply digit_spec in D. destruct (N.leb_spec c 52).
      * injection E as <-. exists b, [92; 50; c]. rewrite <- app_assoc. repeat split; auto. constructor; auto; [intros; lia|]. symmetry. apply andb_false_iff. right. apply N.eqb_neq. lia.
      * destruct (N.eqb_spec c 53) as [->|]; [|discriminate]. injection E as <-. exists b, [92; 50; 53]. rewrite <- app_assoc. repeat split; auto. constructor; auto.
    + destruct (digit c) eqn:D; [|discriminate]. injection E as <-. apply digit_spec in D. exists b, [92; a; c]. rewrite <- app_assoc. repeat split; auto. constructor; auto; [intros; lia|].
      symmetry. apply andb_false_iff. left. now apply N.eqb_neq.
  - assert (E' : digit c = true /\ e' = E0 /\ (a = 50 -> b0 = 53 -> c <= 53)).
    { destruct (N.eqb_spec a 50) as [->|Na], (N.eqb_spec b0 53) as [->|Nb]; cbn [andb] in E; destruct (digit c) eqn:D; cbn in E; try discriminate.
      all: try (injection E as <-; split; [reflexivity|split; [reflexivity|intros; congruence]]).
      destruct (N.leb_spec c 53); [|discriminate]. injection E as <-. auto. }
    clear E. destruct E' as (D & -> & L). apply digit_spec in D. apply str_part_0. rewrite <- app_assoc. apply escaped_app; [assumption|].
    cbn [app]. apply es_num; auto; [|constructor]. unfold is_digit in *. destruct (N.eq_dec a 50) as [->|Na]; [|lia].
    specialize (Lb eq_refl). specialize (L eq_refl). lia.
Qed.
Lemma str_part_char (ok : N -> Prop) c t : ok c -> str_part ok E0 t -> str_part ok E0 (t ++ [c]).
Proof. rewrite !str_part_0. intros O H. apply escaped_app; [assumption|]. apply es_char; [assumption|constructor]. Qed.
Lemma str_part_back ok t : str_part ok E0 t -> str_part ok E1 (t ++ [92]).
Proof. rewrite str_part_0. intros H. exists t, [92]. repeat split; auto. constructor. Qed.

(** ** The machine on tokens *)
Definition rmap {A B} (f : A -> B) (x : res (option A)) : res (option B) :=
  match x with Ok (Some s) => Ok (Some (f s)) | Ok None => Ok None | UB => UB end.
Definition core (s : scn) : scn := Scn (LPos PEnd) KArr (s_cont s) (s_key s) [] None.
Definition put (s x : scn) : scn := Scn (s_lex s) (s_kind s) (s_cont x) (s_key x) (s_stk s) None.
Definition eff (s : scn) (k : kind) (p : pos) (x : scn) : scn := Scn (LPos p) k (s_cont x) (s_key x) (s_stk s) None.

Section Lex.
Variable ent_first : bool.
Variable isdir : bytes -> bool.
Variable glob : bool -> bytes -> option (list bytes).
Variable load : bytes -> res (option vnode).
Variable fn : option bytes.
Notation take := (take isdir glob load fn).
Notation include := (include isdir glob load fn).
Notation leave := (leave isdir glob load fn).
Notation leaving := (leaving ent_first isdir glob load fn).
Notation step := (step ent_first isdir glob load fn).
Notation run := (run ent_first isdir glob load fn).
Notation spelled := (spelled (negb ent_first)).
Notation apart := (apart (negb ent_first)).

Lemma add_val_core v s : s_tok s = None -> add_val v s = rmap (put s) (add_val v (core s)).
Proof.
  intros T. unfold add_val, core. cbn [s_cont s_key]. destruct (s_cont s) as [l|l]; [destruct (s_key s) as [k|]; [destruct (has_key k l)|]|]; cbn [rmap]; try reflexivity.
  - unfold put, set_key, set_cont. cbn. now rewrite T.
  - unfold put, set_key, set_cont. cbn. now rewrite T.
Qed.
Lemma put_core s x : put s (put (core s) x) = put s x.
Proof. reflexivity. Qed.
Lemma merging_core s : merging (core s) = merging s.
Proof. reflexivity. Qed.
Lemma include_file_core f s : s_tok s = None -> include_file load f s = rmap (put s) (include_file load f (core s)).
Proof.
  intros T. unfold include_file. destruct (load f) as [[d|]|]; cbn [rbind rmap]; try reflexivity. rewrite merging_core.
  destruct (merging s); [|now apply add_val_core]. cbn [core s_cont]. destruct d as [raw v|l|es], (s_cont s) as [l'|l']; cbn [rmap]; try reflexivity.
  destruct (merge es l'); cbn [rmap]; [|reflexivity]. unfold put, set_cont. cbn. now rewrite T.
Qed.
Lemma include_files_core fs : forall s, s_tok s = None -> include_files load fs s = rmap (put s) (include_files load fs (core s)).
Proof.
  induction fs as [|f fs IH]; intros s T; cbn [include_files].
  - cbn. unfold put, core. cbn. destruct s; cbn in *. now subst.
  - rewrite include_file_core by assumption. pose proof (include_file_core f (core s) eq_refl) as C. change (core (core s)) with (core s) in C.
    destruct (include_file load f (core s)) as [[s'|]|]; cbn [rmap rbind] in *; try reflexivity.
    assert (T' : s_tok s' = None) by (injection C as ->; reflexivity).
    rewrite (IH (put s s')) by reflexivity. rewrite (IH s') by assumption. change (core (put s s')) with (core s').
    destruct (include_files load fs (core s')) as [[x|]|]; reflexivity.
Qed.
Lemma include_core raw s : s_tok s = None -> include raw s = rmap (put s) (include raw (core s)).
Proof.
  intros T. unfold VscfModel.include. destruct (inc_files isdir glob fn raw) as [fs|]; [|reflexivity]. rewrite merging_core.
  destruct (negb (merging s) && Nat.ltb 1 (length fs)); [reflexivity|now apply include_files_core].
Qed.
Lemma take_core r raw s : take r raw s = rmap (put s) (take r raw (core s)).
Proof.
  destruct r; cbn [VscfModel.take].
  - destruct (unescape raw) as [[u|]|]; reflexivity.
  - destruct (unescape raw) as [[u|]|]; cbn [rbind rmap]; try reflexivity. change (set_tok None (core s)) with (core (set_tok None s)). now apply (add_val_core _ (set_tok None s)).
  - change (set_tok None (core s)) with (core (set_tok None s)). now apply (include_core _ (set_tok None s)).
Qed.
Lemma leave_u r s raw : s_tok s = Some raw -> leave false r s = rmap (put s) (take r raw (core s)).
Proof. intros T. unfold VscfModel.leave. rewrite T. apply take_core. Qed.
Lemma leave_q r s raw : s_tok s = Some (34 :: raw ++ [34]) -> leave true r s = rmap (put s) (take r raw (core s)).
Proof.
  intros T. unfold VscfModel.leave. rewrite T. rewrite <- (removelast_last raw 34) at 2. destruct raw as [|a raw]; cbn [app]; apply take_core.
Qed.

Definition role_of (k : kind) (p : pos) : option role := match syn k p 34 with Some (AQuo r) => Some r | _ => None end.

Definition tstep (tk : token) (s : scn) : res (option scn) :=
  match s_lex s with
  | LPos p =>
      let one c := match syn (s_kind s) p c with None => Ok None | Some a => do_act a c s end in
      match tk with
      | TStr raw => match role_of (s_kind s) p with
                    | Some r => rmap (eff s (defresh (s_kind s)) (after r)) (take r raw (core s))
                    | None => Ok None
                    end
      | TInc raw => match syn (s_kind s) p 36 with
                    | Some _ => rmap (eff s (defresh (s_kind s)) (PItem true)) (take RInc raw (core s))
                    | None => Ok None
                    end
      | TOpenA => one 91
      | TCloseA => one 93
      | TOpenH => one 123
      | TCloseH => one 125
      | TComma => one 44
      | TEq => match p with PKey => Ok (Some (set_lex (LPos PVal) s)) | _ => Ok None end
      end
  | _ => Ok None
  end.
Fixpoint trun (ts : list token) (s : scn) : res (option scn) :=
  match ts with
  | [] => Ok (Some s)
  | k :: ts => do r <- tstep k s ; match r with None => Ok None | Some s' => trun ts s' end
  end.
Lemma trun_snoc ts k s : trun (ts ++ [k]) s = do r <- trun ts s ; match r with None => Ok None | Some s' => tstep k s' end.
Proof.
  revert s. induction ts as [|a ts IH]; intros s; cbn [app trun].
  - cbn [rbind]. destruct (tstep k s) as [[x|]|]; reflexivity.
  - destruct (tstep a s) as [[x|]|]; cbn [rbind]; auto.
Qed.
Lemma trun_app a b s : trun (a ++ b) s = do r <- trun a s ; match r with None => Ok None | Some s' => trun b s' end.
Proof.
  revert s. induction a as [|k a IH]; intros s; cbn [app trun]; [reflexivity|].
  destruct (tstep k s) as [[x|]|]; cbn [rbind]; auto.
Qed.
Lemma run_app a b s : run (a ++ b) s = do r <- run a s ; match r with None => Ok None | Some s' => run b s' end.
Proof.
  revert s. induction a as [|k a IH]; intros s; cbn [app VscfModel.run]; [reflexivity|].
  destruct (step k s) as [[x|]|]; cbn [rbind]; auto.
Qed.

(** States between tokens. *)
Definition tpos (p : pos) : Prop := match p with PItem _ | PKey | PVal | PEnd => True | _ => False end.
Definition good (s : scn) (p : pos) : Prop := s_lex s = LPos p /\ tpos p /\ s_tok s = None.
Lemma set_lex_same s x : s_lex s = x -> set_lex x s = s.
Proof. destruct s; cbn. now intros ->. Qed.
Lemma good_one k p c a s s' : syn k p c = Some a -> tpos p -> In c [91; 93; 123; 125; 44] -> s_tok s = None -> do_act a c s = Ok (Some s') -> exists p', good s' p'.
Proof.
  intros E P I T D.
  assert (A : a = AOpenA \/ a = AOpenH \/ a = AClose \/ a = ATop \/ a = ATopEnd \/ a = AGo (PItem false)).
  { cbn in I. destruct I as [<-|[<-|[<-|[<-|[<-|[]]]]]]; destruct k as [[]| | |], p as [[]| | | | | |]; cbn in P; try contradiction; vm_compute in E; try discriminate; injection E as <-; auto 10. }
  destruct A as [->|[->|[->|[->|[->| ->]]]]]; cbn [do_act] in D.
  - unfold open in D. destruct (s_cont s); [destruct (s_key s); [destruct (has_key _ _)|]|]; try discriminate; injection D as <-; eexists; repeat split; assumption.
  - unfold open in D. destruct (s_cont s); [destruct (s_key s); [destruct (has_key _ _)|]|]; try discriminate; injection D as <-; eexists; repeat split; assumption.
  - unfold close in D. destruct (s_stk s) as [|[[k' [l'|l']] [key|]] stk]; try discriminate; injection D as <-; eexists; repeat split; assumption.
  - injection D as <-. eexists. repeat split; assumption.
  - injection D as <-. eexists. repeat split; assumption.
  - injection D as <-. eexists. repeat split; assumption.
Qed.
Lemma role_not_inc k p : tpos p -> role_of k p <> Some RInc.
Proof. unfold role_of. destruct p as [[]| | | | | |], k as [[]| | |]; cbn; intros; try contradiction; discriminate. Qed.
Lemma tstep_good k s p s' : good s p -> tstep k s = Ok (Some s') -> exists p', good s' p'.
Proof.
  intros (L & P & T) E. unfold tstep in E. rewrite L in E. destruct k.
  - pose proof (role_not_inc (s_kind s) p P) as R. destruct (role_of (s_kind s) p) as [r|]; [|discriminate]. destruct (take r raw (core s)) as [[x|]|]; try discriminate. injection E as <-.
    exists (after r). repeat split. destruct r; cbn; auto.
  - destruct (syn (s_kind s) p 36); [|discriminate]. destruct (take RInc raw (core s)) as [[x|]|]; try discriminate. injection E as <-. exists (PItem true). repeat split.
  - destruct (syn (s_kind s) p 91) eqn:Y; [|discriminate]. eapply good_one; eauto. cbn; auto 10.
  - destruct (syn (s_kind s) p 93) eqn:Y; [|discriminate]. eapply good_one; eauto. cbn; auto 10.
  - destruct (syn (s_kind s) p 123) eqn:Y; [|discriminate]. eapply good_one; eauto. cbn; auto 10.
  - destruct (syn (s_kind s) p 125) eqn:Y; [|discriminate]. eapply good_one; eauto. cbn; auto 10.
  - destruct (syn (s_kind s) p 44) eqn:Y; [|discriminate]. eapply good_one; eauto. cbn; auto 10.
  - destruct p; try discriminate. injection E as <-. exists PVal. repeat split. exact T.
Qed.
Lemma trun_good ts s p s' : good s p -> trun ts s = Ok (Some s') -> exists p', good s' p'.
Proof.
  revert s p. induction ts as [|k ts IH]; intros s p G E; cbn [trun] in E.
  - injection E as <-. eauto.
  - destruct (tstep k s) as [[x|]|] eqn:T; try discriminate. cbn [rbind] in E. destruct (tstep_good _ _ _ _ G T) as (p' & G'). eauto.
Qed.

(** [pend s s1 e]: the machine is in state [s] when the tokens read so far have led to [s1]. *)
Inductive pend : scn -> scn -> ending -> Prop :=
| pe_free s : pend s s Free
| pe_eq s : s_lex s = LPos PVal -> pend (set_lex (LPos PEq) s) s AfterEq
| pe_u r k c key stk raw x : take r raw (core (Scn (LU r E0) k c key stk (Some raw))) = Ok (Some x) ->
    pend (Scn (LU r E0) k c key stk (Some raw)) (Scn (LPos (after r)) k (s_cont x) (s_key x) stk None) AfterUnquoted
| pe_q r k c key stk raw x : take r raw (core (Scn (LQE r) k c key stk (Some (34 :: raw ++ [34])))) = Ok (Some x) ->
    pend (Scn (LQE r) k c key stk (Some (34 :: raw ++ [34]))) (Scn (LPos (after r)) k (s_cont x) (s_key x) stk None) AfterQuoted.

Lemma str_start_starts r c a : str_start r c = Some a -> c = 34 \/ c = 92 \/ (plain c /\ c <> 36).
Proof.
  unfold str_start. destruct (N.eqb_spec c 34); [auto|]. destruct (N.eqb_spec c 92); [auto|].
  unfold v_fchr. destruct (v_chr c) eqn:V; [|discriminate]. destruct (N.eqb_spec c 36); [discriminate|]. apply v_chr_spec in V. auto.
Qed.
Lemma syn_starts k p c a : syn k p c = Some a -> starts_str a = true -> c = 34 \/ c = 92 \/ (plain c /\ c <> 36).
Proof.
  unfold syn. intros E Y. destruct (v_space c); [injection E as <-; discriminate|]. destruct (v_hash c); [injection E as <-; discriminate|].
  assert (V : val_start c = Some a -> c = 34 \/ c = 92 \/ plain c /\ c <> 36).
  { unfold val_start. destruct (c =? 91); [intros F; injection F as <-; discriminate|]. destruct (c =? 123); [intros F; injection F as <-; discriminate|].
    destruct (c =? 36); [intros F; injection F as <-; discriminate|]. apply str_start_starts. }
  destruct p as [b| | | | | |].
  - destruct ((c =? 44) && b); [injection E as <-; discriminate|]. destruct k.
    + destruct ((c =? 91) && fresh); [injection E as <-; discriminate|]. destruct (c =? 36); [injection E as <-; discriminate|]. eapply str_start_starts; eauto.
    + destruct (c =? 93); [injection E as <-; discriminate|]. auto.
    + destruct (c =? 93); [injection E as <-; discriminate|]. auto.
    + destruct (c =? 125); [injection E as <-; discriminate|]. destruct (c =? 36); [injection E as <-; discriminate|]. eapply str_start_starts; eauto.
  - destruct (c =? 61); [injection E as <-; discriminate|discriminate].
  - destruct (c =? 62); [injection E as <-; discriminate|]. auto.
  - auto.
  - eapply str_start_starts; eauto.
  - destruct (c =? 125); [injection E as <-; discriminate|discriminate].
  - discriminate.
Qed.
Lemma do_act_lex a c x s : do_act a c (set_lex x s) = do_act a c s.
Proof. destruct a; reflexivity. Qed.
Lemma syn_eq k c : c <> 62 -> syn k PEq c = syn k PVal c.
Proof. intros H. unfold syn. destruct (v_space c), (v_hash c); try reflexivity. destruct (N.eqb_spec c 62); [contradiction|reflexivity]. Qed.

Lemma pend_step s s1 e p c a : pend s s1 e -> apart e c -> s_lex s1 = LPos p -> syn (s_kind s1) p c = Some a -> step c s = do_act a c s1.
Proof.
  intros P A L Y. destruct P as [s|s V|r k ct key stk raw x T|r k ct key stk raw x T].
  - unfold VscfModel.step. rewrite L, Y. reflexivity.
  - unfold VscfModel.step. cbn [set_lex s_lex s_kind]. rewrite V in L. injection L as <-. cbn in A. rewrite syn_eq by assumption. rewrite Y. apply do_act_lex.
  - cbn [s_lex s_kind] in *. injection L as <-. unfold VscfModel.step. cbn [s_lex]. destruct A as (A1 & A2 & A3).
    apply v_chr_false in A1. rewrite A1. destruct (N.eqb_spec c 92); [contradiction|].
    unfold VscfModel.leaving. cbn [s_kind]. rewrite Y.
    assert (X : ent_first && starts_str a = false).
    { destruct ent_first; [|reflexivity]. cbn [andb negb] in *. destruct (starts_str a) eqn:S'; [|reflexivity].
      destruct (syn_starts _ _ _ _ Y S') as [->|[->|(Pl & _)]]; [exfalso; exact (A3 eq_refl eq_refl)|congruence|]. apply v_chr_spec in Pl. congruence. }
    rewrite X. rewrite (leave_u _ _ raw) by reflexivity. rewrite T. cbn [rmap rbind]. apply f_equal. reflexivity.
  - cbn [s_lex s_kind] in *. injection L as <-. unfold VscfModel.step. cbn [s_lex].
    unfold VscfModel.leaving. cbn [s_kind]. rewrite Y.
    assert (X : ent_first && starts_str a = false).
    { destruct ent_first; [|reflexivity]. cbn [andb negb] in *. destruct (starts_str a) eqn:S'; [|reflexivity].
      destruct (A eq_refl) as (A1 & A2 & A3). destruct (syn_starts _ _ _ _ Y S') as [->|[->|(Pl & Nc)]]; [congruence|congruence|]. apply A1 in Pl. congruence. }
    rewrite X. rewrite (leave_q _ _ raw) by reflexivity. rewrite T. cbn [rmap rbind]. apply f_equal. reflexivity.
Qed.
End Lex.
