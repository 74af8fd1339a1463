(** The scanner's machine, part 6: lines, files and the preprocessor. *)
From Coq Require Import String Ascii.
From Verif Require Import Base DnameSpec DnameModel DnameProofs CompModel RespModel LtreeModel ZscanModel ZscanSpec ZscanProofs ZscanProofs2 ZscanProofs3 ZscanProofs4 ZscanProofs5.
Local Open Scope N_scope.
Local Notation length := List.length.
Local Arguments N.lor : simpl never.
Local Arguments N.eqb : simpl never.
Local Arguments N.leb : simpl never.

(** ** Blanks at the end of a line *)
Definition loose (s : stmt) : Prop := match s with Include _ None => False | Rec _ _ (DGen _ _ []) => False | _ => True end.
Definition line_ok (t : bytes) (s : stmt) : Prop :=
  exists body g, t = body ++ g ++ [10] /\ stmt_text body s /\ gap g /\ (~ loose s -> g = []).

Lemma absorb td d g r : data_text td d -> gap g -> (match d with DGen _ _ [] => g = [] | _ => True end) ->
  exists g1 g2, g = g1 ++ g2 /\ gap g2 /\ data_text (td ++ g1) d /\ dfol d (g2 ++ 10 :: r).
Proof.
  intros D G L.
  assert (Std : begins end_of (g ++ 10 :: r)) by (destruct G; cbn; unfold end_of; auto).
  assert (K : data_text td d -> match d with DTxt _ | DGen _ _ _ => True | _ => exists g1 g2, g = g1 ++ g2 /\ gap g2 /\ data_text (td ++ g1) d /\ dfol d (g2 ++ 10 :: r) end).
  { intros _. destruct d; auto; exists [], g; rewrite app_nil_r; auto. }
  specialize (K D). destruct D; try exact K; exists g, []; rewrite app_nil_r; (split; [reflexivity|]); (split; [constructor|]).
  - split; [|reflexivity]. rewrite <- app_assoc. cbn [app]. apply dt_txt; auto; [|now apply txt_body_gap]. intros E. apply app_eq_nil in E as (-> & _). congruence.
  - split; [|reflexivity]. rewrite <- !app_assoc. cbn [app]. rewrite <- !app_assoc. cbn [app]. apply dt_gen; auto; [|now apply octets_gap].
    destruct t as [|e t]; [|assumption]. match goal with O : octets_text [] _ |- _ => inversion O; subst end. cbn in L. subst g. cbn. unfold blank. lia.
Qed.

Lemma Rest_first t a r : Rest t a r -> begins (fun c => letter c \/ is_digit c) t.
Proof.
  intros (to & topt & td & d & -> & O & D & _).
  assert (L : forall x y, begins letter x -> begins (fun c => letter c \/ is_digit c) (x ++ y)) by (intros x y H; apply begins_app; eapply begins_impl; [|exact H]; auto).
  assert (G : forall x o y, ttl_text x o -> begins (fun c => letter c \/ is_digit c) (x ++ y)).
  { intros x o y H. apply begins_app. apply ttl_digit in H. eapply begins_impl; [|exact H]. auto. }
  destruct O as [|k b K B|t o b T B|t o b k b1 T B K B1|k b t o b1 K B T B1]; rewrite <- ?app_assoc.
  - cbn [app]. rewrite <- (app_nil_r td). apply L. eapply data_first; eauto.
  - apply L. now apply in_first.
  - eapply G; eauto.
  - eapply G; eauto.
  - apply L. now apply in_first.
Qed.
Lemma name_first t n : name_token t n -> begins (fun c => ~ blank c /\ c <> 10 /\ c <> 36) t.
Proof.
  intros [((N & U) & -> & H)|(-> & _)]; [|cbn; unfold blank; lia]. destruct U as [|c t P| |]; [congruence| | |]; cbn in *; unfold plain, blank in *; cbn in *; lia.
Qed.
Lemma Rr_first t a r : Rr t a r -> begins (fun c => c <> 36) t /\ starts (N.eqb 10) (skip_blanks (t ++ r)) = false.
Proof.
  intros (o & on & b & t2 & topt & td & d & -> & O & B & Op & D & Fo & Dy & ->).
  assert (R : begins (fun c => letter c \/ is_digit c) (t2 ++ td)).
  { apply (Rest_first (t2 ++ td) (opt_acts topt ++ data_acts d) r). exists t2, topt, td, d. auto 10. }
  destruct O as [|o n T].
  - cbn [app]. split; [apply begins_app; eapply begins_impl; [|apply blanks_b; exact B]; intros c; unfold blank; lia|].
    assert (E : skip_blanks ((b ++ t2 ++ td) ++ r) = (t2 ++ td) ++ r).
    { apply skip_spec. exists b. split; [now rewrite <- !app_assoc|]. split; [apply B|]. apply nb_not, nb_app. eapply begins_impl; [|exact R]. intros c. unfold letter, is_digit, blank. lia. }
    rewrite E. destruct (t2 ++ td) as [|c x]; [contradiction|]. cbn in *. apply N.eqb_neq. unfold letter, is_digit in R. lia.
  - apply name_first in T. split; [apply begins_app; eapply begins_impl; [|exact T]; intros c; cbv beta; tauto|].
    assert (E : skip_blanks ((o ++ b ++ t2 ++ td) ++ r) = (o ++ b ++ t2 ++ td) ++ r).
    { apply skip_spec. exists []. split; [reflexivity|]. split; [constructor|]. apply nb_not, nb_app, nb_app. eapply begins_impl; [|exact T]. intros c; cbv beta; tauto. }
    rewrite E. destruct o as [|c o]; [contradiction|]. cbn in *. apply N.eqb_neq. intros <-. tauto.
Qed.
Lemma line_eq l : line l = match l with
  | c :: r => if c =? 36 then (cmd ;; eol) r else if starts (N.eqb 10) (skip_blanks l) then eol l else (rr ;; eol) l
  | [] => if starts (N.eqb 10) (skip_blanks l) then eol l else (rr ;; eol) l end.
Proof. destruct l as [|c l]; [reflexivity|]. unfold line. destruct c as [|c]; [reflexivity|]. do 6 (destruct c as [c|c|]; try reflexivity). Qed.
Lemma gap_10 g r : gap g -> begins (eq 10) (g ++ 10 :: r) -> g = [].
Proof. intros [|c g' B]; [reflexivity|]. cbn. intros <-. unfold blank in B. lia. Qed.

Lemma lex_line : lex_is line (fun t a r => exists s, line_ok t s /\ a = stmt_acts s).
Proof.
  assert (LC := lex_seq _ _ _ _ lex_cmd lex_eol). assert (LR := lex_seq _ _ _ _ lex_rr lex_eol).
  intros l a r. rewrite line_eq. split.
  - assert (N36 : (if starts (N.eqb 10) (skip_blanks l) then eol l else (rr;; eol) l) = (a, Some r) -> exists t, l = t ++ r /\ exists s, line_ok t s /\ a = stmt_acts s).
    { destruct (starts (N.eqb 10) (skip_blanks l)).
      - intros H. apply lex_eol in H as (t & -> & -> & g & -> & G). exists (g ++ [10]). split; [reflexivity|]. exists Empty. split; [|reflexivity]. exists [], g. split; [reflexivity|]. split; [constructor|]. split; [exact G|]. cbn. tauto.
      - intros H. apply LR in H as (t & -> & t1 & t2 & a1 & a2 & -> & -> & (o & on & b & x & topt & td & d & -> & O & B & Op & D & Fo & Dy & ->) & -> & g & -> & G).
        eexists. split; [reflexivity|]. exists (Rec on topt d). split; [|now rewrite app_nil_r]. exists (o ++ b ++ x ++ td), g. split; [reflexivity|]. split; [now constructor|]. split; [exact G|].
        cbn [loose]. destruct d; try tauto. destruct octets; [|tauto]. intros _. apply (gap_10 g r G). rewrite <- app_assoc in Fo. exact Fo. }
    destruct l as [|c l]; [exact N36|]. destruct (N.eqb_spec c 36) as [->|]; [|exact N36]. clear N36.
    intros H. apply LC in H as (t & -> & t1 & t2 & a1 & a2 & -> & -> & (s & S & -> & Fo) & -> & g & -> & G).
    exists (36 :: t1 ++ g ++ [10]). split; [reflexivity|]. exists s. split; [|now rewrite app_nil_r]. exists (36 :: t1), g. split; [reflexivity|]. split; [exact S|]. split; [exact G|].
    rewrite <- app_assoc in Fo. cbn [app] in Fo. unfold loose. destruct s as [|o tt d|d|n|f [o|]]; try tauto.
    + destruct d; try tauto. destruct octets; [|tauto]. intros _. now apply (gap_10 g r G).
    + intros _. now apply (gap_10 g r G).
  - intros (t & -> & s & (body & g & -> & S & G & Lo) & ->).
    assert (Cm : forall t', body = 36 :: t' -> s <> Empty -> (forall o tt d, s <> Rec o tt d) -> (if (36 =? 36) then (cmd;; eol) (t' ++ (g ++ [10]) ++ r) else ([], None)) = (stmt_acts s, Some r)).
    { intros t' -> NE NR. rewrite N.eqb_refl. apply LC. exists (t' ++ g ++ [10]). split; [now rewrite <- !app_assoc|]. exists t', (g ++ [10]), (stmt_acts s), [].
      split; [reflexivity|]. split; [now rewrite app_nil_r|]. split; [|eauto]. exists s. split; [exact S|]. split; [reflexivity|].
      assert (Std : begins end_of ((g ++ [10]) ++ r)) by (destruct G; cbn; unfold end_of; auto).
      destruct s as [|o tt d|d|n|f [o|]]; cbn [sfol]; auto; [destruct (NR o tt d); reflexivity|]. cbn [loose] in Lo. rewrite Lo by tauto. reflexivity. }
    rewrite <- !app_assoc in *. cbn [app] in Cm.
    destruct S as [|o on b tt topt td d O B Op D Dy|k b tx d K B T|k b tx n K B T|k b tx f K B T|k b tx f b1 t1 n K B T B1 T1].
    + cbn [app stmt_acts].
      assert (E : skip_blanks (g ++ 10 :: r) = 10 :: r) by (apply skip_spec; exists g; repeat split; auto; cbn; unfold blank; lia).
      assert (Z : eol (g ++ 10 :: r) = ([], Some r)) by (apply lex_eol; exists (g ++ [10]); split; [now rewrite <- app_assoc|]; eauto).
      cbn [app] in *. rewrite E. cbn [starts]. rewrite N.eqb_refl. destruct (g ++ 10 :: r) as [|c l] eqn:Q; [exact Z|].
      destruct (N.eqb_spec c 36) as [->|]; [|exact Z]. exfalso. destruct g as [|c2 g]; cbn in Q; [discriminate|]. injection Q as -> _. inversion G; subst. unfold blank in H1. lia.
    + clear Cm. destruct (absorb td d g r D G) as (g1 & g2 & -> & G2 & D2 & Fo).
      { destruct d; auto. destruct octets; auto. }
      assert (HR : Rr (o ++ b ++ tt ++ td ++ g1) (stmt_acts (Rec on topt d)) (g2 ++ [10] ++ r)) by (exists o, on, b, tt, topt, (td ++ g1), d; auto 12).
      assert (E : (o ++ b ++ tt ++ td) ++ (g1 ++ g2) ++ [10] ++ r = (o ++ b ++ tt ++ td ++ g1) ++ g2 ++ [10] ++ r) by (now rewrite <- !app_assoc).
      destruct (Rr_first _ _ _ HR) as (F36 & F10).
      assert (Z : (rr ;; eol) ((o ++ b ++ tt ++ td ++ g1) ++ g2 ++ [10] ++ r) = (stmt_acts (Rec on topt d), Some r)).
      { apply LR. exists ((o ++ b ++ tt ++ td ++ g1) ++ g2 ++ [10]). split; [now rewrite <- !app_assoc|]. exists (o ++ b ++ tt ++ td ++ g1), (g2 ++ [10]), (stmt_acts (Rec on topt d)), [].
        split; [reflexivity|]. split; [now rewrite app_nil_r|]. split; [|eauto]. rewrite <- app_assoc. exact HR. }
      rewrite E. rewrite F10.
      destruct (o ++ b ++ tt ++ td ++ g1) as [|c l]; [contradiction|]. cbn [begins] in F36. cbn [app]. destruct (N.eqb_spec c 36); [congruence|]. exact Z.
    + apply (Cm (k ++ b ++ tx)); [reflexivity|discriminate|discriminate].
    + apply (Cm (k ++ b ++ tx)); [reflexivity|discriminate|discriminate].
    + apply (Cm (k ++ b ++ tx)); [reflexivity|discriminate|discriminate].
    + apply (Cm (k ++ b ++ tx ++ b1 ++ t1)); [reflexivity|discriminate|discriminate].
Qed.
