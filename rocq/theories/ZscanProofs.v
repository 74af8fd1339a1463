(** The scanner's machine, part 1: tokens. *)
From Coq Require Import String Ascii.
From Verif Require Import Base DnameSpec DnameModel DnameProofs CompModel RespModel LtreeModel ZscanModel ZscanSpec.
Local Open Scope N_scope.
Local Notation length := List.length.
Local Arguments N.lor : simpl never.
Local Arguments N.eqb : simpl never.
Local Arguments N.leb : simpl never.

(** ** What a lexer does, exactly *)
Definition lex_is (x : lexer) (P : bytes -> list action -> bytes -> Prop) : Prop :=
  forall l a r, x l = (a, Some r) <-> exists t, l = t ++ r /\ P t a r.

Lemma lex_ext x P Q : lex_is x P -> (forall t a r, P t a r <-> Q t a r) -> lex_is x Q.
Proof. intros H E l a r. rewrite (H l a r). split; intros (t & -> & Hp); exists t; (split; [reflexivity|]); now apply E. Qed.

Lemma lex_seq x y P Q : lex_is x P -> lex_is y Q ->
  lex_is (x ;; y) (fun t a r => exists t1 t2 a1 a2, t = t1 ++ t2 /\ a = a1 ++ a2 /\ P t1 a1 (t2 ++ r) /\ Q t2 a2 r).
Proof.
  intros Hx Hy l a r. unfold lseq. destruct (x l) as (a1, r1) eqn:E. split.
  - destruct r1 as [l1|]; [|discriminate]. destruct (y l1) as (a2, r2) eqn:E2. intros [= <- ->].
    apply Hx in E as (t1 & -> & H1). apply Hy in E2 as (t2 & -> & H2). exists (t1 ++ t2). rewrite app_assoc. split; [reflexivity|].
    exists t1, t2, a1, a2. auto.
  - intros (t & -> & t1 & t2 & b1 & b2 & -> & -> & H1 & H2). rewrite <- app_assoc in E.
    assert (E1 : x (t1 ++ t2 ++ r) = (b1, Some (t2 ++ r))) by (apply Hx; exists t1; auto). rewrite E1 in E. injection E as <- <-.
    assert (E2 : y (t2 ++ r) = (b2, Some r)) by (apply Hy; exists t2; auto). now rewrite E2.
Qed.
Lemma lex_emit a0 : lex_is (emit a0) (fun t a r => t = [] /\ a = a0).
Proof.
  intros l a r. unfold emit. split; [intros [= <- <-]; exists []; auto|]. intros (t & -> & -> & ->). reflexivity.
Qed.
Lemma lex_one p : lex_is (one p) (fun t a r => a = [] /\ exists c, t = [c] /\ p c = true).
Proof.
  intros l a r. unfold one. split.
  - destruct l as [|c l]; [discriminate|]. destruct (p c) eqn:E; [|discriminate]. intros [= <- <-]. exists [c]. eauto.
  - intros (t & -> & -> & c & -> & H). cbn. now rewrite H.
Qed.

(** ** Characters *)
Lemma isdig_iff c : isdig c = true <-> is_digit c.
Proof. unfold isdig, is_digit. rewrite andb_true_iff, !N.leb_le. lia. Qed.
Lemma isblank_iff c : isblank c = true <-> blank c.
Proof. unfold isblank, blank. rewrite !orb_true_iff, !N.eqb_eq. tauto. Qed.
Lemma isalpha_iff c : isalpha c = true <-> letter c.
Proof. unfold isalpha, letter. rewrite orb_true_iff, !andb_true_iff, !N.leb_le. lia. Qed.
Lemma ishex_iff c : ishex c = true <-> hexdigit c.
Proof. unfold ishex, hexdigit. rewrite !orb_true_iff, !andb_true_iff, !N.leb_le, isdig_iff. tauto. Qed.
Lemma isalnum_iff c : isalnum c = true <-> is_digit c \/ letter c.
Proof. unfold isalnum. now rewrite orb_true_iff, isdig_iff, isalpha_iff. Qed.
Lemma lit_iff c : lit_chr c = true <-> plain c.
Proof.
  unfold lit_chr, plain. rewrite negb_true_iff, !orb_false_iff, !N.eqb_neq. cbn [In].
  split.
  - intros ((((((A & B) & C) & D) & E) & F) & G). split; [rewrite <- isblank_iff, B; discriminate|]. intuition congruence.
  - intros (A & B). assert (isblank c = false) by (destruct (isblank c) eqn:Q; auto; exfalso; now apply A, isblank_iff). repeat split; auto; intros ->; intuition.
Qed.
Lemma v4_iff c : v4_chr c = true <-> is_digit c \/ c = 46.
Proof. unfold v4_chr. now rewrite orb_true_iff, isdig_iff, N.eqb_eq. Qed.
Lemma v6_iff c : v6_chr c = true <-> hexdigit c \/ c = 58 \/ c = 46.
Proof. unfold v6_chr. rewrite !orb_true_iff, ishex_iff, !N.eqb_eq. tauto. Qed.
Lemma lor32 c : letter c -> N.lor c 32 = lower c.
Proof.
  intros H. assert (L : c < 128) by (unfold letter in H; lia). unfold letter in H.
  pose proof (downcase_lower c) as D. unfold downcase in D. rewrite <- D.
  destruct ((c <? 91) && (64 <? c)) eqn:Q; [reflexivity|].
  assert (97 <= c <= 122) by (apply andb_false_iff in Q as [Q|Q]; apply N.ltb_ge in Q; lia).
  replace c with (N.lor (c - 32) 32); [now rewrite <- N.lor_assoc|].
  assert (forall n, (n < 26)%nat -> N.lor (65 + N.of_nat n) 32 = 97 + N.of_nat n).
  { intros n Hn. do 26 (destruct n as [|n]; [reflexivity|]). lia. }
  specialize (H1 (N.to_nat (c - 97))). rewrite N2Nat.id in H1. replace (65 + (c - 97)) with (c - 32) in H1 by lia. rewrite H1 by lia. lia.
Qed.
Lemma ismult_iff c : ismult c = true <-> unit_letter c.
Proof.
  unfold ismult, unit_letter. cbv zeta. split.
  - intros H. apply andb_true_iff in H as (A & B). apply isalpha_iff in A. rewrite (lor32 c A) in B. cbn.
    rewrite !orb_true_iff, !N.eqb_eq in B. intuition.
  - intros H. assert (A : letter c). { cbn in H. unfold lower in H. unfold letter. destruct (65 <=? c) eqn:Q; destruct (c <=? 90) eqn:Q2; cbn [andb] in H; apply N.leb_le in Q || apply N.leb_gt in Q; apply N.leb_le in Q2 || apply N.leb_gt in Q2; lia. }
    apply andb_true_iff. split; [now apply isalpha_iff|]. rewrite (lor32 c A). rewrite !orb_true_iff, !N.eqb_eq. cbn in H. intuition.
Qed.

Definition begins (P : N -> Prop) (r : bytes) : Prop := match r with c :: _ => P c | [] => False end.
Lemma begins_starts p P r : (forall c, p c = true <-> P c) -> (starts p r = true <-> begins P r).
Proof. intros H. destruct r as [|c r]; cbn; [split; [discriminate|tauto]|apply H]. Qed.

(** ** Runs of characters *)
Lemma span_spec p l : forall t r, span p l = (t, r) <-> l = t ++ r /\ Forall (fun c => p c = true) t /\ ~ begins (fun c => p c = true) r.
Proof.
  induction l as [|c l IH]; intros t r; cbn [span].
  - split; [intros [= <- <-]; cbn; auto|]. intros (E & F & _). symmetry in E. apply app_eq_nil in E as (-> & ->). reflexivity.
  - destruct (p c) eqn:Q.
    + destruct (span p l) as (a, b) eqn:E. split.
      * intros [= <- <-]. destruct (proj1 (IH a b) eq_refl) as (-> & F & N). auto.
      * intros (E2 & F & N). destruct t as [|c2 t]; cbn [app] in E2.
        { subst r. cbn in N. congruence. }
        injection E2 as <- ->. inversion F; subst. assert (X := proj2 (IH t r)). first [injection X as <- <-|injection X as -> ->]; auto.
    + split.
      * intros [= <- <-]. cbn. split; [reflexivity|]. split; [constructor|congruence].
      * intros (E2 & F & N). destruct t as [|c2 t]; cbn [app] in E2; [now subst r|]. injection E2 as <- ->. inversion F; congruence.
Qed.
Definition read_is (rd : bytes -> option (bytes * bytes)) (T : bytes -> bytes -> bytes -> Prop) : Prop :=
  forall l t r, rd l = Some (t, r) <-> exists tx, l = tx ++ r /\ T tx t r.
Lemma span1_read p : read_is (span1 p) (fun tx t r => tx = t /\ t <> [] /\ Forall (fun c => p c = true) t /\ ~ begins (fun c => p c = true) r).
Proof.
  intros l t r. unfold span1. destruct (span p l) as (a, b) eqn:E. split.
  - destruct a as [|c a]; [discriminate|]. intros [= <- <-]. apply span_spec in E as (-> & F & N). exists (c :: a). repeat split; auto. discriminate.
  - intros (tx & -> & -> & Nn & F & N). assert (X := proj2 (span_spec p (t ++ r) t r)). rewrite E in X. injection X as -> ->; auto. destruct t; congruence.
Qed.

Lemma word_spec ok P l : (forall c, ok c = true <-> P c) -> (forall c, P c -> c <> 92) -> forall t r,
  word ok l = Some (t, r) <-> l = t ++ r /\ units P t /\ ~ begins (fun c => P c \/ c = 92) r.
Proof.
  intros HP H92.
  assert (G : forall n l, (length l <= n)%nat -> forall t r, word ok l = Some (t, r) <-> l = t ++ r /\ units P t /\ ~ begins (fun c => P c \/ c = 92) r).
  { clear l. induction n as [|n IH]; intros l Hl t r.
    - destruct l; [|cbn in Hl; lia]. cbn [word]. split; [intros [= <- <-]; cbn; repeat split; auto; constructor|]. intros (E & _). symmetry in E. apply app_eq_nil in E as (-> & ->). reflexivity.
    - destruct l as [|c l]; [cbn [word]; split; [intros [= <- <-]; cbn; repeat split; auto; constructor|]; intros (E & _); symmetry in E; apply app_eq_nil in E as (-> & ->); reflexivity|].
      cbn [word]. cbn [length] in Hl. destruct (N.eqb_spec c 92) as [->|Hc].
      + destruct l as [|d l].
        { split; [discriminate|]. intros (E & U & N). destruct t as [|x t]; cbn [app] in E; [subst r; cbn in N; tauto|]. injection E as <- E. symmetry in E. apply app_eq_nil in E as (-> & ->). inversion U; subst. congruence. }
        cbn [length] in Hl. destruct (isdig d) eqn:Q.
        * destruct l as [|e [|f l]].
          1,2: split; [discriminate|]; intros (E & U & N); exfalso; destruct t as [|x t]; cbn [app] in E; [subst r; cbn in N; tauto|]; injection E as <- E; inversion U; subst; try congruence; cbn [app] in E;
               [injection E as <- E; match goal with H : ~ is_digit _ |- _ => apply H; now apply isdig_iff end|discriminate E].
          cbn [length] in Hl. destruct (isdig e && isdig f) eqn:Q2.
          -- apply andb_true_iff in Q2 as (Qe & Qf). specialize (IH l ltac:(lia)). destruct (word ok l) as [(t1, r1)|] eqn:W.
             ++ split.
                ** intros [= <- <-]. destruct (proj1 (IH t1 r1) eq_refl) as (-> & U & N). split; [reflexivity|]. split; [|exact N]. constructor; auto; now apply isdig_iff.
                ** intros (E & U & N). destruct t as [|x t]; cbn [app] in E; [subst r; cbn in N; tauto|]. injection E as <- E. inversion U; subst; try congruence.
                   { cbn [app] in E. injection E as <- E. exfalso. match goal with H : ~ is_digit _ |- _ => apply H; now apply isdig_iff end. }
                   cbn [app] in E. injection E as <- <- <- ->. assert (X := proj2 (IH t0 r)). first [injection X as <- <-|injection X as -> ->]; auto.
             ++ split; [discriminate|]. intros (E & U & N). destruct t as [|x t]; cbn [app] in E; [subst r; cbn in N; tauto|]. injection E as <- E. inversion U; subst; try congruence.
                { cbn [app] in E. injection E as <- E. exfalso. match goal with H : ~ is_digit _ |- _ => apply H; now apply isdig_iff end. }
                cbn [app] in E. injection E as <- <- <- ->. exfalso. specialize (proj2 (IH t0 r)). intros X. discriminate X; auto.
          -- split; [discriminate|]. intros (E & U & N). destruct t as [|x t]; cbn [app] in E; [subst r; cbn in N; tauto|]. injection E as <- E. inversion U; subst; try congruence.
             { cbn [app] in E. injection E as <- E. exfalso. match goal with H : ~ is_digit _ |- _ => apply H; now apply isdig_iff end. }
             cbn [app] in E. injection E as <- <- <- ->. exfalso. apply andb_false_iff in Q2. rewrite <- !not_true_iff_false, !isdig_iff in Q2. tauto.
        * assert (Qd : ~ is_digit d) by (rewrite <- isdig_iff; congruence). specialize (IH l ltac:(lia)). destruct (word ok l) as [(t1, r1)|] eqn:W.
          -- split.
             ++ intros [= <- <-]. destruct (proj1 (IH t1 r1) eq_refl) as (-> & U & N). split; [reflexivity|]. split; [|exact N]. now constructor.
             ++ intros (E & U & N). destruct t as [|x t]; cbn [app] in E; [subst r; cbn in N; tauto|]. injection E as <- E. inversion U; subst; try congruence.
                { cbn [app] in E. injection E as <- ->. assert (X := proj2 (IH t0 r)). first [injection X as <- <-|injection X as -> ->]; auto. }
                cbn [app] in E. injection E as <- ->. tauto.
          -- split; [discriminate|]. intros (E & U & N). destruct t as [|x t]; cbn [app] in E; [subst r; cbn in N; tauto|]. injection E as <- E. inversion U; subst; try congruence.
             { cbn [app] in E. injection E as <- ->. specialize (proj2 (IH t0 r)). intros X. discriminate X; auto. }
             cbn [app] in E. injection E as <- ->. tauto.
      + specialize (IH l ltac:(lia)). destruct (ok c) eqn:Q.
        * apply HP in Q. destruct (word ok l) as [(t1, r1)|] eqn:W.
          -- split.
             ++ intros [= <- <-]. destruct (proj1 (IH t1 r1) eq_refl) as (-> & U & N). split; [reflexivity|]. split; [|exact N]. now constructor.
             ++ intros (E & U & N). destruct t as [|x t]; cbn [app] in E; [subst r; cbn in N; tauto|]. injection E as <- E. inversion U; subst; try congruence. assert (X := proj2 (IH t r)). first [injection X as <- <-|injection X as -> ->]; auto.
          -- split; [discriminate|]. intros (E & U & N). destruct t as [|x t]; cbn [app] in E; [subst r; cbn in N; tauto|]. injection E as <- E. inversion U; subst; try congruence. specialize (proj2 (IH t r)). intros X. discriminate X; auto.
        * assert (Qn : ~ P c) by (rewrite <- HP; congruence). split.
          -- intros [= <- <-]. split; [reflexivity|]. split; [constructor|]. cbn. tauto.
          -- intros (E & U & N). destruct t as [|x t]; cbn [app] in E; [now subst r|]. injection E as <- E. inversion U; subst; tauto. }
  intros t r. now apply (G (length l)).
Qed.

Lemma units_ext P Q t : (forall c, c <> 92 -> (P c <-> Q c)) -> units P t -> units Q t.
Proof. intros H. induction 1; constructor; auto; now apply H. Qed.
Lemma units_92 P t : units P t <-> units (fun c => P c /\ c <> 92) t.
Proof. split; apply units_ext; tauto. Qed.

Lemma word1_read ok P : (forall c, ok c = true <-> P c) -> (forall c, P c -> c <> 92) ->
  read_is (word1 ok) (fun tx t r => tx = t /\ t <> [] /\ units P t /\ ~ begins (fun c => P c \/ c = 92) r).
Proof.
  intros H1 H2 l t r. unfold word1. pose proof (word_spec ok P l H1 H2) as W. destruct (word ok l) as [(t1, r1)|].
  - specialize (W t1 r1) as W1. destruct (proj1 W1 eq_refl) as (E & U & N). split.
    + destruct t1 as [|c t1]; [discriminate|]. intros [= <- <-]. exists (c :: t1). repeat split; auto. discriminate.
    + intros (tx & E2 & -> & Nn & U2 & N2). assert (X : Some (t1, r1) = Some (t, r)) by (apply W; auto). injection X as -> ->. destruct t; congruence.
  - split; [discriminate|]. intros (tx & E2 & -> & Nn & U2 & N2). exfalso. assert (X : None = Some (t, r)) by (apply W; auto). discriminate.
Qed.
Lemma qrest_read : read_is qrest (fun tx t r => tx = t ++ [34] /\ units (fun c => c <> 34) t).
Proof.
  assert (W := fun l => word_spec q_chr (fun c => c <> 34 /\ c <> 92) l). intros l t r. specialize (W l).
  assert (W' : forall t r, word q_chr l = Some (t, r) <-> l = t ++ r /\ units (fun c => c <> 34 /\ c <> 92) t /\ ~ begins (fun c => (c <> 34 /\ c <> 92) \/ c = 92) r).
  { apply W; [|tauto]. intros c. unfold q_chr. rewrite negb_true_iff, orb_false_iff, !N.eqb_neq. tauto. }
  clear W. unfold qrest. destruct (word q_chr l) as [(t1, r1)|].
  - destruct (proj1 (W' t1 r1) eq_refl) as (E & U & N).
    assert (R : (match r1 with 34 :: r => Some (t1, r) | _ => None end) = match r1 with c :: r => if c =? 34 then Some (t1, r) else None | [] => None end).
    { destruct r1 as [|c r1]; [reflexivity|]. destruct c as [|c]; [reflexivity|]. do 6 (destruct c as [c|c|]; try reflexivity). }
    rewrite R. split.
    + destruct r1 as [|c r1]; [discriminate|]. destruct (N.eqb_spec c 34) as [->|]; [|discriminate]. intros [= <- <-]. exists (t1 ++ [34]). rewrite <- app_assoc. split; [exact E|]. split; [reflexivity|]. now apply units_92.
    + intros (tx & E2 & -> & U2). rewrite <- app_assoc in E2. cbn [app] in E2.
      assert (X : Some (t1, r1) = Some (t, 34 :: r)). { apply W'. split; [exact E2|]. split; [now apply units_92 in U2|]. cbn. intros [[? ?]|?]; congruence. }
      injection X as -> ->. reflexivity.
  - split; [discriminate|]. intros (tx & E2 & -> & U2). exfalso. rewrite <- app_assoc in E2. cbn [app] in E2.
    assert (X : None = Some (t, 34 :: r)). { apply W'. split; [exact E2|]. split; [now apply units_92 in U2|]. cbn. intros [[? ?]|?]; congruence. } discriminate.
Qed.
Lemma plain_92 c : plain c -> c <> 92.
Proof. unfold plain. cbn. intuition. Qed.
Lemma plain_34 c : plain c -> c <> 34.
Proof. unfold plain. cbn. intuition. Qed.

(** after a bare word something that does not belong to it *)
Definition ends (r : bytes) : Prop := ~ begins (fun c => plain c \/ c = 92) r.

Lemma txt_tok_eq l : txt_tok l = match l with c :: r => if c =? 34 then qrest r else word1 lit_chr l | [] => word1 lit_chr l end.
Proof. destruct l as [|c r]; [reflexivity|]. unfold txt_tok. destruct c as [|c]; [reflexivity|]. do 6 (destruct c as [c|c|]; try reflexivity). Qed.
Lemma name_tok_eq l : name_tok l = match l with c :: r => if c =? 34 then qrest r else if c =? 36 then None else word1 lit_chr l | [] => word1 lit_chr l end.
Proof. destruct l as [|c r]; [reflexivity|]. unfold name_tok. destruct c as [|c]; [reflexivity|]. do 6 (destruct c as [c|c|]; try reflexivity). Qed.

Lemma quoted_read l t r : qrest l = Some (t, r) <-> exists tx, 34 :: l = tx ++ r /\ quoted tx t.
Proof.
  rewrite (qrest_read l t r). unfold quoted. split.
  - intros (tx & -> & -> & U). exists (34 :: t ++ [34]). auto.
  - intros (tx & E & -> & U). cbn [app] in E. injection E as ->. exists (t ++ [34]). auto.
Qed.
Lemma bare_hd t : bare t -> hd 0 t <> 34.
Proof. intros (N & U). destruct U; cbn; try congruence; try discriminate. now apply plain_34. Qed.
Lemma txt_tok_read : read_is txt_tok (fun tx t r => quoted tx t \/ (tx = t /\ bare t /\ ends r)).
Proof.
  intros l t r. rewrite txt_tok_eq. assert (W := word1_read lit_chr plain lit_iff plain_92).
  assert (B : word1 lit_chr l = Some (t, r) <-> exists tx, l = tx ++ r /\ tx = t /\ bare t /\ ends r).
  { rewrite (W l t r). unfold bare, ends. split; intros (tx & ? & ?); exists tx; tauto. }
  destruct l as [|c l].
  - rewrite B. split; intros (tx & E & H); exists tx; (split; [exact E|]); [tauto|]. symmetry in E. apply app_eq_nil in E as (-> & ->). destruct H as [(H & _)|H]; [discriminate|exact H].
  - destruct (N.eqb_spec c 34) as [->|Nc].
    + rewrite quoted_read. split; intros (tx & E & H); exists tx; (split; [exact E|]); [tauto|]. destruct H as [H|(-> & H & _)]; [exact H|]. exfalso. apply (bare_hd t H). destruct H as (N & _). destruct t; [congruence|]. cbn in E. injection E as <- E. reflexivity.
    + rewrite B. split; intros (tx & E & H); exists tx; (split; [exact E|]); [tauto|]. destruct H as [(-> & _)|H]; [|exact H]. cbn in E. injection E as -> _. congruence.
Qed.
Lemma name_tok_read : read_is name_tok (fun tx t r => quoted tx t \/ (tx = t /\ bare t /\ hd 0 t <> 36 /\ ends r)).
Proof.
  intros l t r. rewrite name_tok_eq. assert (T := txt_tok_read l t r). rewrite txt_tok_eq in T. destruct l as [|c l].
  - rewrite T. split; intros (tx & E & H); exists tx; (split; [exact E|]); [|tauto]. symmetry in E. apply app_eq_nil in E as (-> & ->). destruct H as [(H & _)|(<- & (H & _) & _)]; [discriminate|congruence].
  - destruct (N.eqb_spec c 34) as [->|Nc]; [|destruct (N.eqb_spec c 36) as [->|N36]].
    + rewrite T. split; intros (tx & E & H); exists tx; (split; [exact E|]); [|tauto]. destruct H as [H|(-> & H & ?)]; [tauto|]. exfalso. apply (bare_hd t H). destruct H as (N & _). destruct t; [congruence|]. cbn in E. injection E as <- E. reflexivity.
    + split; [discriminate|]. intros (tx & E & [(-> & _)|(-> & (N & _) & H & _)]); [cbn in E; discriminate|]. exfalso. destruct t; [congruence|]. cbn in E. injection E as <- _. now apply H.
    + rewrite T. split; intros (tx & E & H); exists tx; (split; [exact E|]); [|tauto]. destruct H as [H|(-> & H & ?)]; [tauto|]. right. repeat split; auto; try apply H. destruct H as (N & _). destruct t; [congruence|]. cbn in E. injection E as <- _. exact N36.
Qed.

Definition stops (r : bytes) : Prop := begins (fun c => ~ plain c /\ c <> 92) r.
Lemma stops_ends r : stops r -> ends r.
Proof. unfold stops, ends. destruct r; cbn; tauto. Qed.
Lemma plug_read l t r : stops r -> (plug_tok l = Some (t, r) <-> l = t ++ r /\ plugin_token t).
Proof.
  intros St.
  assert (HP : forall c, plug_chr c = true <-> (plain c /\ c <> 33)) by (intros c; unfold plug_chr; rewrite andb_true_iff, lit_iff, negb_true_iff, N.eqb_neq; tauto).
  assert (H92 : forall c, plain c /\ c <> 33 -> c <> 92) by (intros c (H & _); now apply plain_92).
  assert (W := word1_read plug_chr _ HP H92).
  assert (P33 : plain 33) by (unfold plain, blank; cbn; lia).
  assert (Sr : ~ begins (fun c => (plain c /\ c <> 33) \/ c = 92) r) by (unfold stops in St; destruct r; cbn in *; tauto).
  assert (S33 : ~ begins (fun c => c = 33) r) by (unfold stops in St; destruct r; cbn in *; [tauto|]; intros ->; tauto).
  assert (B33 : forall q, ~ begins (fun c => (plain c /\ c <> 33) \/ c = 92) (33 :: q)) by (cbn; intros q [(? & ?)|?]; congruence).
  assert (R : plug_tok l = match word1 plug_chr l with
     | Some (p, c :: r1) => if c =? 33 then match word1 plug_chr r1 with Some (q, r) => Some (p ++ 33 :: q, r) | None => None end else Some (p, c :: r1)
     | x => x end).
  { unfold plug_tok. destruct (word1 plug_chr l) as [(p, [|c r1])|]; [reflexivity| |reflexivity]. destruct c as [|c]; [reflexivity|]. do 6 (destruct c as [c|c|]; try reflexivity). }
  rewrite R. clear R. split.
  - destruct (word1 plug_chr l) as [(p, r1)|] eqn:E; [|discriminate]. apply W in E as (tx & -> & -> & N & U & B).
    destruct r1 as [|c r1]; [intros [= <- <-]; cbn in St; contradiction|]. destruct (N.eqb_spec c 33) as [->|N33].
    + destruct (word1 plug_chr r1) as [(q, r2)|] eqn:E2; [|discriminate]. intros [= <- <-]. apply W in E2 as (tx & -> & -> & N2 & U2 & B2).
      rewrite <- app_assoc. split; [reflexivity|]. right. exists p, q. repeat split; auto.
    + intros [= <- <-]. split; [reflexivity|]. left. split; auto.
  - intros (-> & [(N & U)|(p & q & -> & (N & U) & (N2 & U2))]).
    + assert (E : word1 plug_chr (t ++ r) = Some (t, r)) by (apply W; exists t; auto). rewrite E. destruct r as [|c r]; [reflexivity|]. destruct (N.eqb_spec c 33) as [->|]; [cbn in S33; tauto|reflexivity].
    + rewrite <- app_assoc. cbn [app]. assert (E : word1 plug_chr (p ++ 33 :: q ++ r) = Some (p, 33 :: q ++ r)) by (apply W; exists p; auto). rewrite E. cbn [N.eqb Pos.eqb].
      assert (E2 : word1 plug_chr (q ++ r) = Some (q, r)) by (apply W; exists q; auto). now rewrite E2.
Qed.

(** ** Tokens with what follows *)
Lemma lex_tk rd T follow acts : read_is rd T ->
  lex_is (tk rd follow acts) (fun tx a r => exists t, T tx t r /\ a = acts t /\ starts follow r = true).
Proof.
  intros H l a r. unfold tk. destruct (rd l) as [(t, [|c r1])|] eqn:E.
  - split; [discriminate|]. intros (tx & -> & t2 & HT & -> & F). assert (X : rd (tx ++ r) = Some (t2, r)) by (apply H; exists tx; auto). rewrite X in E. injection E as -> ->. discriminate.
  - apply H in E as E1. destruct E1 as (tx & -> & HT). split.
    + destruct (follow c) eqn:Q; [|discriminate]. intros [= <- <-]. exists tx. split; [reflexivity|]. exists t. auto.
    + intros (tx2 & E2 & t2 & HT2 & -> & F). assert (X : rd (tx ++ c :: r1) = Some (t2, r)) by (apply H; exists tx2; auto). rewrite X in E. injection E as -> ->. cbn in F. now rewrite F.
  - split; [discriminate|]. intros (tx & -> & t2 & HT & -> & F). assert (X : rd (tx ++ r) = Some (t2, r)) by (apply H; exists tx; auto). congruence.
Qed.
Definition end_of (c : N) : Prop := blank c \/ c = 10.
Lemma at_end_iff c : at_end c = true <-> end_of c.
Proof. unfold at_end, end_of. now rewrite orb_true_iff, isblank_iff, N.eqb_eq. Qed.
Lemma end_stops r : begins end_of r -> stops r.
Proof. unfold stops, end_of, plain, blank. destruct r; cbn; [tauto|]. intuition (subst; try lia; discriminate). Qed.
Lemma blank_end r : begins blank r -> begins end_of r.
Proof. unfold end_of. destruct r; cbn; tauto. Qed.
Lemma starts_blank r : starts isblank r = true <-> begins blank r.
Proof. apply begins_starts, isblank_iff. Qed.
Lemma starts_end r : starts at_end r = true <-> begins end_of r.
Proof. apply begins_starts, at_end_iff. Qed.

Lemma skip_spec l r : skip_blanks l = r <-> exists g, l = g ++ r /\ gap g /\ ~ begins blank r.
Proof.
  unfold skip_blanks. destruct (span isblank l) as (a, b) eqn:E. apply span_spec in E as (-> & F & N). cbn [snd].
  assert (Fa : gap a) by (eapply Forall_impl; [|exact F]; intros c; apply isblank_iff).
  assert (Nb : ~ begins blank b) by (destruct b; cbn in *; [tauto|]; rewrite <- isblank_iff; exact N).
  split; [intros <-; exists a; auto|]. intros (g & E & G & N2).
  assert (X : forall a g, gap a -> gap g -> a ++ b = g ++ r -> b = r).
  { clear - Nb N2. induction a as [|x a IH]; intros [|y g] Ga Gg E; cbn [app] in E; auto.
    - subst b. exfalso. apply Nb. now inversion Gg.
    - subst r. exfalso. apply N2. now inversion Ga.
    - injection E as _ E. inversion Ga; inversion Gg; subst. eapply IH; eauto. }
  exact (X a g Fa G E).
Qed.
Lemma lex_ws : lex_is ws (fun t a r => a = [] /\ blanks t /\ ~ begins blank r).
Proof.
  intros l a r. unfold ws, lseq, one. destruct l as [|c l].
  - split; [discriminate|]. intros (t & E & _ & (N & _) & _). symmetry in E. apply app_eq_nil in E as (-> & _). congruence.
  - destruct (isblank c) eqn:Q.
    + apply isblank_iff in Q. cbn [app]. split.
      * intros [= <- E]. apply skip_spec in E as (g & -> & G & N). exists (c :: g). repeat split; auto; try discriminate; constructor; auto.
      * intros (t & E & -> & (N & B) & Nr). destruct t as [|d t]; [congruence|]. cbn in E. injection E as <- ->. inversion B; subst. do 2 f_equal. apply skip_spec. exists t. auto.
    + split; [discriminate|]. intros (t & E & -> & (N & B) & Nr). destruct t as [|d t]; [congruence|]. cbn in E. injection E as <- ->. inversion B; subst. apply isblank_iff in H1. congruence.
Qed.
Lemma lex_eol : lex_is eol (fun t a r => a = [] /\ exists g, t = g ++ [10] /\ gap g).
Proof.
  intros l a r. unfold eol. remember (skip_blanks l) as s eqn:E. symmetry in E. apply skip_spec in E as E1. destruct E1 as (g & -> & G & N).
  rewrite (lex_one (N.eqb 10) s a r). split.
  - intros (t & -> & -> & c & -> & H). apply N.eqb_eq in H. subst c. exists (g ++ [10]). rewrite <- app_assoc. eauto.
  - intros (t & E2 & -> & g2 & -> & G2). rewrite <- app_assoc in E2. cbn [app] in E2. assert (X : s = 10 :: r).
    { rewrite <- E. apply skip_spec. exists g2. split; [exact E2|]. split; [exact G2|]. cbn. unfold blank. lia. }
    exists [10]. split; [exact X|]. split; [reflexivity|]. exists 10. auto.
Qed.
Lemma digits_of t : t <> [] /\ Forall (fun c => isdig c = true) t <-> digits t.
Proof. unfold digits. rewrite !Forall_forall. split; intros (N & H); (split; [exact N|]); intros x Hx; apply isdig_iff; auto. Qed.

(** a token of a set of characters with something else after it *)
Lemma lex_span p follow acts : (forall c, follow c = true -> p c = false) ->
  lex_is (tk (span1 p) follow acts) (fun t a r => t <> [] /\ Forall (fun c => p c = true) t /\ a = acts t /\ starts follow r = true).
Proof.
  intros D. eapply lex_ext; [apply lex_tk, span1_read|]. intros t a r. split.
  - intros (t2 & (-> & N & F & _) & -> & S). auto.
  - intros (N & F & -> & S). exists t. repeat split; auto. destruct r as [|c r]; cbn in *; [discriminate|]. now rewrite D.
Qed.
Lemma lex_uval follow acts : (forall c, follow c = true -> isdig c = false) ->
  lex_is (uval follow acts) (fun t a r => digits t /\ a = SetUval t :: acts /\ starts follow r = true).
Proof.
  intros D. eapply lex_ext; [apply (lex_span _ _ _ D)|]. intros t a r. rewrite <- digits_of. tauto.
Qed.
Definition dur_acts (d : dur) : list action :=
  match d with Dur n None => [SetUval n] | Dur n (Some c) => [SetUval n; MultUval c] end.
Lemma mult_letter c : ismult c = true -> letter c.
Proof. unfold ismult. cbv zeta. intros H. apply andb_true_iff in H as (H & _). now apply isalpha_iff. Qed.
Lemma lex_ttl follow acts : (forall c, follow c = true -> isdig c = false /\ ismult c = false) ->
  lex_is (ttl follow acts) (fun t a r => exists d, dur_text t d /\ a = dur_acts d ++ acts /\ starts follow r = true).
Proof.
  intros D. unfold ttl.
  assert (L1 := lex_uval (fun c => ismult c || follow c) []). 
  assert (L2 : lex_is (fun l => match l with c :: r => if ismult c then ([MultUval c], Some r) else ([], Some l) | [] => ([], None) end)
     (fun t a r => (exists c, t = [c] /\ ismult c = true /\ a = [MultUval c]) \/ (t = [] /\ a = [] /\ begins (fun c => ismult c = false) r))).
  { intros l a r. split.
    - destruct l as [|c l]; [discriminate|]. destruct (ismult c) eqn:Q; intros [= <- <-]; [exists [c]|exists []]; (split; [reflexivity|]); [left; exists c; auto|right; auto].
    - intros (t & -> & [(c & -> & Q & ->)|(-> & -> & B)]); cbn [app]; [now rewrite Q|]. destruct r as [|c r]; cbn in B; [contradiction|]. now rewrite B. }
  assert (L3 : lex_is (fun l => match l with c :: r => if follow c then (acts, Some l) else ([], None) | [] => ([], None) end)
     (fun t a r => t = [] /\ a = acts /\ starts follow r = true)).
  { intros l a r. split.
    - destruct l as [|c l]; [discriminate|]. destruct (follow c) eqn:Q; intros [= <- <-]. exists []. auto.
    - intros (t & -> & -> & -> & B). cbn [app]. destruct r as [|c r]; [discriminate|]. cbn in B. now rewrite B. }
  eapply lex_ext; [apply lex_seq; [apply L1|apply lex_seq; [apply L2|apply L3]]|].
  - intros c H. apply orb_true_iff in H as [H|H]; [|now apply D]. apply mult_letter in H. rewrite <- not_true_iff_false, isdig_iff. unfold letter, is_digit in *. lia.
  - intros t a r. split.
    + intros (t1 & t2 & a1 & a2 & -> & -> & (Dg & -> & S1) & t3 & t4 & a3 & a4 & -> & -> & H & -> & -> & S2).
      destruct H as [(c & -> & Q & ->)|(-> & -> & B)].
      * exists (Dur t1 (Some c)). split; [constructor; [exact Dg|now apply ismult_iff]|]. auto.
      * exists (Dur t1 None). cbn [app]. rewrite app_nil_r. split; [now constructor|]. auto.
    + intros (d & HD & -> & S). destruct HD as [n Hn|n c Hn Hc].
      * exists n, [], [SetUval n], acts. rewrite app_nil_r. split; [reflexivity|]. split; [reflexivity|]. split.
        { split; [exact Hn|]. split; [reflexivity|]. destruct r as [|c r]; [discriminate|]. cbn in *. now rewrite S, orb_true_r. }
        exists [], [], [], acts. repeat split; auto. right. repeat split; auto. destruct r as [|c r]; [discriminate|]. cbn in *. now apply D.
      * apply ismult_iff in Hc. exists n, [c], [SetUval n], (MultUval c :: acts). split; [reflexivity|]. split; [reflexivity|]. split.
        { split; [exact Hn|]. split; [reflexivity|]. cbn. now rewrite Hc. }
        exists [c], [], [MultUval c], acts. repeat split; auto. left. eauto.
Qed.

(** names and texts, followed by a blank or the line's end *)
Lemma lex_name follow acts : (forall c, follow c = true -> end_of c) ->
  lex_is (tk name_tok follow acts) (fun tx a r => exists t, name_token tx t /\ a = acts t /\ starts follow r = true).
Proof.
  intros D. eapply lex_ext; [apply lex_tk, name_tok_read|]. intros tx a r. unfold name_token. split.
  - intros (t & [H|(-> & B & H & E)] & -> & S); exists t; tauto.
  - intros (t & H & -> & S). exists t. repeat split; auto. destruct H as [(B & -> & H)|H]; [right|now left]. repeat split; auto; try apply B. apply stops_ends, end_stops. destruct r; [discriminate|]. cbn in *. now apply D.
Qed.
Lemma lex_text follow acts : (forall c, follow c = true -> end_of c) ->
  lex_is (tk txt_tok follow acts) (fun tx a r => exists t, text_token tx t /\ a = acts t /\ starts follow r = true).
Proof.
  intros D. eapply lex_ext; [apply lex_tk, txt_tok_read|]. intros tx a r. unfold text_token. split.
  - intros (t & [H|(-> & B & E)] & -> & S); exists t; tauto.
  - intros (t & H & -> & S). exists t. repeat split; auto. destruct H as [(B & ->)|H]; [right|now left]. repeat split; auto; try apply B. apply stops_ends, end_stops. destruct r; [discriminate|]. cbn in *. now apply D.
Qed.
Lemma lex_plug acts : lex_is (tk plug_tok at_end acts) (fun t a r => plugin_token t /\ a = acts t /\ begins end_of r).
Proof.
  intros l a r. unfold tk. split.
  - destruct (plug_tok l) as [(t, [|c r1])|] eqn:E; [discriminate| |discriminate]. destruct (at_end c) eqn:Q; [|discriminate]. intros [= <- <-]. apply at_end_iff in Q. apply plug_read in E as (-> & P); [|apply end_stops; exact Q]. exists t. auto.
  - intros (t & -> & P & -> & B). rewrite (proj2 (plug_read (t ++ r) t r (end_stops r B))) by auto. destruct r as [|c r]; [contradiction|]. cbn in B. apply at_end_iff in B. now rewrite B.
Qed.
