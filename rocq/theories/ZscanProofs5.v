(** The scanner's machine, part 5: whole lines. *)
From Coq Require Import String Ascii.
From Verif Require Import Base DnameSpec DnameModel DnameProofs CompModel RespModel LtreeModel ZscanModel ZscanSpec ZscanProofs ZscanProofs2 ZscanProofs3 ZscanProofs4.
Local Open Scope N_scope.
Local Notation length := List.length.
Local Arguments N.lor : simpl never.
Local Arguments N.eqb : simpl never.
Local Arguments N.leb : simpl never.

Definition Rh (dyn : bool) (t : bytes) (a : list action) (r : bytes) : Prop :=
  exists d, data_text t d /\ a = data_acts d /\ dfol d r /\ (dyn = true -> dynamic d).
Lemma firm_Rh dyn : firm (Rh dyn).
Proof. intros t a r (d & D & _). unfold nb. eapply begins_impl; [apply letter_nb|]. eapply data_first; eauto. Qed.
Lemma no_in_Rh dyn : no_in (Rh dyn).
Proof.
  intros t a r (d & D & _) w r1 E. apply data_letters in D as (k & ty & x & -> & N & K & F & B).
  rewrite <- app_assoc in E. rewrite span_letters in E; [|assumption|now apply begins_app]. injection E as <- <-. eapply kw_not_in; eauto.
Qed.
Definition In_ (P : bytes -> list action -> bytes -> Prop) (t : bytes) (a : list action) (r : bytes) : Prop :=
  P t a r \/ exists w b t2, t = w ++ b ++ t2 /\ spells "in" w /\ blanks b /\ P t2 a r.
Lemma in_first w : spells "in" w -> begins letter w.
Proof. intros S. assert (F := in_letters w S). destruct F; [discriminate|assumption]. Qed.
Lemma firm_In P : firm P -> firm (In_ P).
Proof. intros F t a r [H|(w & b & t2 & -> & S & _)]; [eauto|]. apply nb_app. unfold nb. eapply begins_impl; [apply letter_nb|now apply in_first]. Qed.
Definition Tt (P : bool -> bytes -> list action -> bytes -> Prop) (t : bytes) (a : list action) (r : bytes) : Prop :=
  exists tt o b t2 a2, t = tt ++ b ++ t2 /\ ttl_text tt o /\ blanks b /\ P (two o) t2 a2 r /\ a = ttl_acts o ++ a2.
Lemma dur_digit t d : dur_text t d -> begins is_digit t.
Proof. intros [n H|n c H _]; [now apply digits_b|apply begins_app; now apply digits_b]. Qed.
Lemma ttl_digit t o : ttl_text t o -> begins is_digit t.
Proof. intros [x d H|x d x2 d2 H _]; [|apply begins_app]; eapply dur_digit; eauto. Qed.
Lemma Tt_digit P t a r : Tt P t a r -> begins is_digit t.
Proof. intros (tt & o & b & t2 & a2 & -> & T & _). apply begins_app. eapply ttl_digit; eauto. Qed.
Lemma starts_digit t r : begins is_digit t -> starts isdig (t ++ r) = true.
Proof. destruct t; cbn; [contradiction|]. apply isdig_iff. Qed.
Lemma starts_no_digit t r : begins letter t -> starts isdig (t ++ r) = false.
Proof. destruct t; cbn; [contradiction|]. intros L. rewrite <- not_true_iff_false, isdig_iff. unfold letter, is_digit in *. lia. Qed.

Definition opt_acts (o : option (dur * option dur)) : list action := match o with None => [] | Some o => ttl_acts o end.
Definition Rest (t : bytes) (a : list action) (r : bytes) : Prop :=
  exists to topt td d, t = to ++ td /\ options_text to topt /\ data_text td d /\ dfol d r /\
    (forall d1 d2, topt = Some (d1, Some d2) -> dynamic d) /\ a = opt_acts topt ++ data_acts d.
Lemma two_iff o d : (two o = true -> dynamic d) <-> (forall d1 d2, Some o = Some (d1, Some d2) -> dynamic d).
Proof.
  destruct o as (d1, [d2|]); cbn; split; intros H.
  - intros ? ? _. auto.
  - intros _. eapply H. reflexivity.
  - intros ? ? X. discriminate.
  - discriminate.
Qed.
Lemma lex_rest : lex_is rr_rest Rest.
Proof.
  assert (LK : forall dyn, lex_is (opt_in (rr_rhs dyn)) (In_ (Rh dyn))) by (intros dyn; apply lex_opt_in; [apply lex_rhs|apply firm_Rh|apply no_in_Rh]).
  assert (LA : lex_is (ttl_any (fun dyn => opt_in (rr_rhs dyn))) (Tt (fun dyn => In_ (Rh dyn)))) by (apply lex_ttl_any; [exact LK|intros dyn; apply firm_In, firm_Rh]).
  assert (LB : lex_is (ttl_any rr_rhs) (Tt Rh)) by (apply lex_ttl_any; [apply lex_rhs|intros dyn; apply firm_Rh]).
  assert (LC : lex_is (fun l => if starts isdig l then ttl_any rr_rhs l else rr_rhs false l) (fun t a r => Tt Rh t a r \/ Rh false t a r)).
  { apply lex_if; [exact LB|apply lex_rhs| |].
    - intros t a r H. apply starts_digit. eapply Tt_digit; eauto.
    - intros t a r (d & D & _). apply starts_no_digit. eapply data_first; eauto. }
  assert (LD : lex_is (opt_in (fun l => if starts isdig l then ttl_any rr_rhs l else rr_rhs false l)) (In_ (fun t a r => Tt Rh t a r \/ Rh false t a r))).
  { apply lex_opt_in; [exact LC| |].
    - intros t a r [H|H]; [|eapply firm_Rh; eauto]. apply Tt_digit in H. unfold nb. eapply begins_impl; [|exact H]. intros c. unfold is_digit, blank. lia.
    - intros t a r [H|H]; [|eapply no_in_Rh; eauto]. apply Tt_digit in H. intros w r1 E S. apply span_spec in E as (E & F & _).
      apply in_first in S. destruct t as [|c t]; [contradiction|]. destruct w as [|c2 w]; [contradiction|]. cbn in *. injection E as <- E. unfold is_digit, letter in *. lia. }
  (* the first alternative of [LD] with a TTL first belongs to [LA] *)
  intros l a r. unfold rr_rest. destruct (starts isdig l) eqn:Sd.
  - rewrite (LA l a r). split; intros (t & -> & H); exists t; (split; [reflexivity|]).
    + destruct H as (tt & o & b & t2 & a2 & -> & T & B & [(d & D & -> & Fo & Dy)|(w & b2 & t3 & -> & W & B2 & d & D & -> & Fo & Dy)] & ->).
      * exists (tt ++ b), (Some o), t2, d. rewrite <- app_assoc. split; [reflexivity|]. split; [now constructor|]. repeat split; auto. now apply two_iff.
      * exists (tt ++ b ++ w ++ b2), (Some o), t3, d. rewrite <- !app_assoc. split; [reflexivity|]. split; [now constructor|]. repeat split; auto. now apply two_iff.
    + destruct H as (to & topt & td & d & -> & O & D & Fo & Dy & ->). destruct O as [|k b K B|t o b T B|t o b k b1 T B K B1|k b t o b1 K B T B1].
      * cbn [app] in Sd. rewrite starts_no_digit in Sd by (eapply data_first; eauto). discriminate.
      * rewrite <- !app_assoc in Sd. rewrite starts_no_digit in Sd by (now apply in_first). discriminate.
      * exists t, o, b, td, (data_acts d). rewrite <- app_assoc. repeat split; auto; try apply B. left. exists d. repeat split; auto. now apply two_iff.
      * exists t, o, b, (k ++ b1 ++ td), (data_acts d). rewrite <- !app_assoc. repeat split; auto; try apply B. right. exists k, b1, td. repeat split; auto; try apply B1. exists d. repeat split; auto. now apply two_iff.
      * rewrite <- !app_assoc in Sd. rewrite starts_no_digit in Sd by (now apply in_first). discriminate.
  - rewrite (LD l a r). split; intros (t & -> & H); exists t; (split; [reflexivity|]).
    + destruct H as [[H|(d & D & -> & Fo & Dy)]|(w & b & t2 & -> & W & B & [(tt & o & b2 & t3 & a2 & -> & T & B2 & (d & D & -> & Fo & Dy) & ->)|(d & D & -> & Fo & Dy)])].
      * exfalso. apply Tt_digit in H. rewrite starts_digit in Sd by exact H. discriminate.
      * exists [], None, t, d. repeat split; auto; [constructor|discriminate].
      * exists (w ++ b ++ tt ++ b2), (Some o), t3, d. rewrite <- !app_assoc. split; [reflexivity|]. split; [now constructor|]. repeat split; auto. now apply two_iff.
      * exists (w ++ b), None, t2, d. rewrite <- !app_assoc. split; [reflexivity|]. split; [now constructor|]. repeat split; auto. discriminate.
    + destruct H as (to & topt & td & d & -> & O & D & Fo & Dy & ->). destruct O as [|k b K B|t o b T B|t o b k b1 T B K B1|k b t o b1 K B T B1].
      * left. right. exists d. repeat split; auto. discriminate.
      * right. exists k, b, td. rewrite <- app_assoc. repeat split; auto; try apply B. right. exists d. repeat split; auto. discriminate.
      * exfalso. rewrite <- !app_assoc in Sd. rewrite starts_digit in Sd by (eapply ttl_digit; eauto). discriminate.
      * exfalso. rewrite <- !app_assoc in Sd. rewrite starts_digit in Sd by (eapply ttl_digit; eauto). discriminate.
      * right. exists k, b, (t ++ b1 ++ td). rewrite <- !app_assoc. repeat split; auto; try apply B. left. exists t, o, b1, td, (data_acts d). repeat split; auto; try apply B1. exists d. repeat split; auto. now apply two_iff.
Qed.

(** ** Statements *)
Definition lhs_acts (o : option bytes) : list action := match o with None => [] | Some n => [SetLhs n] end.
Definition stmt_acts (s : stmt) : list action :=
  match s with
  | Empty => []
  | Rec on topt d => lhs_acts on ++ [UseDefTtl] ++ opt_acts topt ++ data_acts d
  | SetDefault d => dur_acts d ++ [SetDefTtl]
  | SetOrigin n => [SetRhs n; ResetOrigin]
  | Include f None => [ResetRhsOrigin; SetFilename f; ProcessInclude]
  | Include f (Some n) => [ResetRhsOrigin; SetFilename f; SetRhs n; ProcessInclude]
  end.
Definition Rr (t : bytes) (a : list action) (r : bytes) : Prop :=
  exists o on b t2 topt td d, t = o ++ b ++ t2 ++ td /\ owner_text o on /\ blanks b /\ options_text t2 topt /\ data_text td d /\ dfol d r /\
    (forall d1 d2, topt = Some (d1, Some d2) -> dynamic d) /\ a = stmt_acts (Rec on topt d).
Lemma firm_Rest : firm Rest.
Proof.
  intros t a r (to & topt & td & d & -> & O & D & _). unfold nb.
  assert (L : forall x y, begins letter x -> begins (fun c => ~ blank c) (x ++ y)) by (intros x y H; apply begins_app; eapply begins_impl; [|exact H]; apply letter_nb).
  assert (G : forall x o y, ttl_text x o -> begins (fun c => ~ blank c) (x ++ y)).
  { intros x o y H. apply begins_app. apply ttl_digit in H. eapply begins_impl; [|exact H]. intros c. unfold is_digit, blank. lia. }
  destruct O as [|k b K B|t o b T B|t o b k b1 T B K B1|k b t o b1 K B T B1]; rewrite <- ?app_assoc.
  - cbn [app]. rewrite <- (app_nil_r td). apply L. eapply data_first; eauto.
  - apply L. now apply in_first.
  - eapply G; eauto.
  - eapply G; eauto.
  - apply L. now apply in_first.
Qed.
Lemma lex_rr : lex_is rr Rr.
Proof.
  assert (L1 : lex_is (fun l => if starts isblank l then ([], Some l) else tk name_tok isblank (fun t => [SetLhs t]) l)
    (fun t a r => (exists on, owner_text t on /\ a = lhs_acts on) /\ begins blank r)).
  { intros l a r. destruct (starts isblank l) eqn:S.
    - apply starts_blank in S. split.
      + intros [= <- <-]. exists []. split; [reflexivity|]. split; [|exact S]. exists None. split; [constructor|reflexivity].
      + intros (t & -> & (on & O & ->) & B). destruct O as [|t n T]; [reflexivity|]. exfalso. apply nb_name in T. apply (nb_not _ (nb_app _ r T)). exact S.
    - rewrite (p_name (fun t => [SetLhs t]) l a r). split; intros (t & -> & H & B); exists t; (split; [reflexivity|]); (split; [|exact B]).
      + destruct H as (n & T & ->). exists (Some n). split; [now constructor|reflexivity].
      + destruct H as (on & O & ->). destruct O as [|t n T]; [|eauto]. exfalso. cbn [app] in S. apply starts_blank in B. congruence. }
  unfold rr. eapply lex_ext; [apply lex_Sq; [exact L1|apply lex_Ws; [apply lex_Em, lex_rest|apply firm_em, firm_Rest]]|].
  unfold Sq, Ws, Em, Rest, Rr. intros t a r. split.
  - intros (t1 & t2 & a1 & a2 & -> & -> & (on & O & ->) & b & t3 & -> & B & a3 & -> & to & topt & td & d & -> & Op & D & Fo & Dy & ->).
    exists t1, on, b, to, topt, td, d. repeat split; auto; apply B.
  - intros (o & on & b & t2 & topt & td & d & -> & O & B & Op & D & Fo & Dy & ->).
    exists o, (b ++ t2 ++ td), (lhs_acts on), ([UseDefTtl] ++ opt_acts topt ++ data_acts d). split; [reflexivity|]. split; [reflexivity|]. split; [eauto|].
    exists b, (t2 ++ td). split; [reflexivity|]. split; [exact B|]. eexists. split; [reflexivity|]. exists t2, topt, td, d. auto 10.
Qed.

Definition sfol (s : stmt) (r : bytes) : Prop :=
  match s with Empty => True | Rec _ _ d => dfol d r | Include _ None => begins (eq 10) r | _ => begins end_of r end.
Lemma lex_cmd : lex_is cmd (fun t a r => exists s, stmt_text (36 :: t) s /\ a = stmt_acts s /\ sfol s r).
Proof.
  assert (LT : lex_is (ws ;; ttl at_end [SetDefTtl]) (Ws (fun t a r => exists d, dur_text t d /\ a = dur_acts d ++ [SetDefTtl] /\ begins end_of r))).
  { apply lex_Ws; [apply p_ttl_end|]. intros t a r (d & D & _). now apply nb_dur in D. }
  assert (LO := p_nrec [ResetOrigin]).
  assert (LI : lex_is (emit [ResetRhsOrigin] ;; ws ;; tk txt_tok at_end (fun t => [SetFilename t]) ;;
       fun l => if starts (N.eqb 10) l then ([ProcessInclude], Some l) else name_rec [ProcessInclude] l)
     (fun t a r => exists b x f, blanks b /\ text_token x f /\
        ((t = b ++ x /\ begins (eq 10) r /\ a = [ResetRhsOrigin; SetFilename f; ProcessInclude]) \/
         exists b1 t1 n, t = b ++ x ++ b1 ++ t1 /\ blanks b1 /\ name_token t1 n /\ begins end_of r /\ a = [ResetRhsOrigin; SetFilename f; SetRhs n; ProcessInclude]))).
  { assert (LX : lex_is (fun l => if starts (N.eqb 10) l then ([ProcessInclude], Some l) else name_rec [ProcessInclude] l)
       (fun t a r => (t = [] /\ begins (eq 10) r /\ a = [ProcessInclude]) \/
          exists b1 t1 n, t = b1 ++ t1 /\ blanks b1 /\ name_token t1 n /\ begins end_of r /\ a = [SetRhs n; ProcessInclude])).
    { intros l a r. destruct (starts (N.eqb 10) l) eqn:S.
      - assert (Sl : begins (eq 10) l) by (destruct l; [discriminate|]; cbn in *; now apply N.eqb_eq). split.
        + intros [= <- <-]. exists []. auto.
        + intros (t & -> & [(-> & B & ->)|(b1 & t1 & n & -> & B1 & _)]); [reflexivity|]. exfalso. apply (blanks_begin _ (t1 ++ r)) in B1. rewrite <- app_assoc in Sl. destruct (b1 ++ t1 ++ r); [contradiction|]. cbn in *. subst. unfold blank in B1. lia.
      - rewrite (p_nrec [ProcessInclude] l a r). split; intros (t & -> & H); exists t; (split; [reflexivity|]).
        + right. destruct H as (b & t2 & -> & B & n & T & -> & E). exists b, t2, n. auto.
        + destruct H as [(-> & B & ->)|(b1 & t1 & n & -> & B1 & T & E & ->)]; [exfalso; cbn [app] in S; destruct r; [contradiction|]; cbn in *; subst; discriminate|]. exists b1, t1. split; [reflexivity|]. split; [exact B1|]. exists n. auto. }
    eapply lex_ext; [apply lex_Em; apply lex_Ws; [apply lex_seq; [apply p_text_end|exact LX]|]|].
    - intros t a r (t1 & t2 & a1 & a2 & -> & -> & (n & T & _) & _). apply nb_app. now apply nb_text in T.
    - intros t a r. unfold Em, Ws. split.
      + intros (a0 & -> & b & t2 & -> & B & t3 & t4 & a3 & a4 & -> & -> & (f & T & -> & E) & [(-> & R & ->)|(b1 & t1 & n & -> & B1 & Tn & R & ->)]).
        * exists b, t3, f. split; [exact B|]. split; [exact T|]. left. rewrite app_nil_r. auto.
        * exists b, t3, f. split; [exact B|]. split; [exact T|]. right. exists b1, t1, n. auto.
      + intros (b & x & f & B & T & [(-> & R & ->)|(b1 & t1 & n & -> & B1 & Tn & R & ->)]).
        * eexists. split; [reflexivity|]. exists b, x. split; [reflexivity|]. split; [exact B|]. exists x, [], [SetFilename f], [ProcessInclude].
          split; [now rewrite app_nil_r|]. split; [reflexivity|]. split; [|left; auto]. exists f. repeat split; auto. cbn [app]. eapply begins_impl; [|exact R]. unfold end_of. auto.
        * eexists. split; [reflexivity|]. exists b, (x ++ b1 ++ t1). split; [reflexivity|]. split; [exact B|]. exists x, (b1 ++ t1), [SetFilename f], [SetRhs n; ProcessInclude].
          split; [reflexivity|]. split; [reflexivity|]. split; [|right; exists b1, t1, n; auto]. exists f. repeat split; auto. rewrite <- app_assoc. apply blank_end. now apply blanks_begin. }
  intros l a r. unfold cmd. destruct (span isalpha l) as (w, r1) eqn:E. split.
  - apply span_spec in E as (-> & F & N). destruct (keyword w commands) as [c|] eqn:K; [|discriminate]. apply kw_cmd in K. destruct c; cbn [cname] in K.
    + intros H. apply LT in H as (t & -> & b & t2 & -> & B & d & D & -> & R). exists (w ++ b ++ t2). split; [now rewrite <- !app_assoc|].
      exists (SetDefault d). split; [now apply st_ttl|]. auto.
    + intros H. apply LO in H as (t & -> & b & t2 & -> & B & n & D & -> & R). exists (w ++ b ++ t2). split; [now rewrite <- !app_assoc|].
      exists (SetOrigin n). split; [now apply st_origin|]. auto.
    + intros H. apply LI in H as (t & -> & b & x & f & B & T & [(-> & R & ->)|(b1 & t1 & n & -> & B1 & Tn & R & ->)]).
      * exists (w ++ b ++ x). split; [now rewrite <- !app_assoc|]. exists (Include f None). split; [now apply st_include|]. auto.
      * exists (w ++ b ++ x ++ b1 ++ t1). split; [now rewrite <- !app_assoc|]. exists (Include f (Some n)). split; [now apply st_include_at|]. auto.
  - intros (t & -> & s & S & -> & Fo).
    assert (G : forall c w1 b x, spells (cname c) w1 -> blanks b -> t ++ r = w1 ++ b ++ x -> w = w1 /\ r1 = b ++ x /\ keyword w commands = Some c).
    { intros c w1 b x K B Et. rewrite Et in E. rewrite span_letters in E; [|eapply cmd_letters; eauto|eapply begins_impl; [|apply blanks_begin; exact B]; intros y; unfold blank, letter; lia].
      injection E as <- <-. repeat split; auto. now apply kw_cmd. }
    inversion S; subst.
    + match goal with O : owner_text _ _, B : blanks _, X : _ = 36 :: t |- _ => rename O into Ow; rename B into Bl; rename X into Eq end.
      exfalso. destruct Ow as [|t' n T].
      * cbn [app] in Eq. apply blanks_b in Bl. destruct b; [contradiction|]. cbn in Eq. injection Eq as -> _. cbn in Bl. unfold blank in Bl. lia.
      * destruct T as [(B & -> & Hd)|(-> & _)]; [|discriminate]. destruct B as (N & _). destruct t' as [|c t']; [congruence|]. cbn in Eq. injection Eq as -> _. cbn in Hd. congruence.
    + destruct (G CTtl k b (t0 ++ r)) as (-> & -> & ->); auto; [now rewrite <- !app_assoc|]. apply LT. exists (b ++ t0). split; [now rewrite <- app_assoc|]. exists b, t0. split; [reflexivity|]. split; [assumption|]. eauto.
    + destruct (G COrigin k b (t0 ++ r)) as (-> & -> & ->); auto; [now rewrite <- !app_assoc|]. apply LO. exists (b ++ t0). split; [now rewrite <- app_assoc|]. exists b, t0. split; [reflexivity|]. split; [assumption|]. eauto.
    + destruct (G CInclude k b (t0 ++ r)) as (-> & -> & ->); auto; [now rewrite <- !app_assoc|]. apply LI. exists (b ++ t0). split; [now rewrite <- app_assoc|]. exists b, t0, f. split; [assumption|]. split; [assumption|]. left. auto.
    + destruct (G CInclude k b (t0 ++ b1 ++ t1 ++ r)) as (-> & -> & ->); auto; [now rewrite <- !app_assoc|]. apply LI. exists (b ++ t0 ++ b1 ++ t1). split; [now rewrite <- !app_assoc|]. exists b, t0, f. split; [assumption|]. split; [assumption|]. right. exists b1, t1, n. auto.
Qed.
