(** Nothing but the objects in force, and those an update is about to free, is alive. *)
From Verif Require Import Base MapsModel MapsSpec MapsProofs2 MapsProofs3.
Set Implicit Arguments.

Definition kept {Net Client} (s : state Net Client) : Prop :=
  (forall q t, nth_error (trees (h s)) q = Some (Some t) -> p_tree s = Some q \/ old_tree (w_pc s) = Some q) /\
  (forall q l, nth_error (arrays (h s)) q = Some (Some l) -> p_lists s = Some q \/ old_lists (w_pc s) = Some q) /\
  match w_pc s with Lists _ ot _ => ot = p_tree s | _ => True end.
Lemma kept_same Net Client (s s' : state Net Client) :
  trees (h s') = trees (h s) -> arrays (h s') = arrays (h s) -> p_tree s' = p_tree s -> p_lists s' = p_lists s ->
  w_pc s' = w_pc s -> kept s -> kept s'.
Proof. intros E1 E2 E3 E4 E5 (A & B & C). unfold kept. rewrite E1, E2, E3, E4, E5. auto. Qed.
Lemma load_file_keeps Net (f : file Net) : forall hp d nl hp' d', load_file hp d f = Ok (nl, hp', d') -> trees hp' = trees hp /\ arrays hp' = arrays hp.
Proof.
  induction f as [|[n l] f IH]; intros hp d nl hp' d' E; cbn [load_file] in E; [now injection E as <- <- <-|].
  unfold find_or_add in E. destruct (find_list hp (d_list d) 0 l) as [[i|]|]; cbn [rbind] in E; try discriminate.
  - destruct (load_file hp d f) as [[[a b] c]|] eqn:E1; [|discriminate]. cbn [rbind] in E. injection E as <- <- <-. eauto.
  - destruct (load_file _ _ f) as [[[a b] c]|] eqn:E1; [|discriminate]. cbn [rbind] in E. injection E as <- <- <-. apply IH in E1. exact E1.
Qed.
Lemma kill_opt_gone {A} (l l' : list (option A)) p q x : kill_opt l p = Ok l' -> nth_error l' q = Some (Some x) -> nth_error l q = Some (Some x) /\ p <> Some q.
Proof.
  destruct p as [p|]; cbn [kill_opt]; [|intros [= <-]; split; [assumption|discriminate]]. unfold kill, live. destruct (nth_error l p) as [[y|]|] eqn:E; cbn [rbind]; try discriminate. intros [= <-].
  assert (p < length l) by (apply nth_error_Some; congruence). destruct (Nat.eq_dec p q) as [<-|NE]; [rewrite nth_error_upd_eq by assumption; discriminate|]. rewrite nth_error_upd_neq by exact NE. split; [assumption|congruence].
Qed.
Lemma update_kept Net Client (s s' : state Net Client) : kept s -> do_update s = Ok s' -> kept s'.
Proof.
  intros (KT & KA & KL) E. unfold do_update in E. destruct (w_pc s) as [|t ot ol|ot ol|[|y w] ot ol] eqn:W.
  - destruct (pend s); injection E as <-; [|unfold kept; rewrite W; auto]. split; [|split; [|reflexivity]]; cbn.
    + intros q t X. destruct (KT q t X) as [Y|Y]; [auto|discriminate Y].
    + intros q l X. destruct (Nat.eq_dec q (length (arrays (h s)))) as [->|NE]; [auto|]. right.
      assert (q < length (arrays (h s) ++ [Some (d_list d)])) by (apply nth_error_Some; congruence). rewrite app_length in H. cbn in H. rewrite nth_error_app1 in X by lia. destruct (KA q l X) as [Y|Y]; [auto|discriminate Y].
  - injection E as <-. split; [|split; [exact KA|exact Logic.I]]; cbn.
    intros q u X. destruct (Nat.eq_dec q (length (trees (h s)))) as [->|NE]; [auto|]. right. assert (q < length (trees (h s) ++ [Some t])) by (apply nth_error_Some; congruence). rewrite app_length in H. cbn in H. rewrite nth_error_app1 in X by lia.
    destruct (KT q u X) as [Y|Y]; [congruence|exact Y].
  - injection E as <-. split; [exact KT|]. split; [exact KA|exact Logic.I].
  - destruct (kill_opt (trees (h s)) ot) as [tr|] eqn:E1; [|discriminate]. cbn [rbind] in E. destruct (kill_opt (arrays (h s)) ol) as [ar|] eqn:E2; [|discriminate]. cbn [rbind] in E. injection E as <-. split; [|split; [|exact Logic.I]]; cbn.
    + intros q t X. destruct (kill_opt_gone _ _ _ E1 X) as [Y N]. destruct (KT q t Y) as [Z|Z]; [auto|contradiction].
    + intros q l X. destruct (kill_opt_gone _ _ _ E2 X) as [Y N]. destruct (KA q l Y) as [Z|Z]; [auto|contradiction].
  - injection E as <-. unfold kept. rewrite W. auto.
Qed.
Lemma step_kept Net Client (choose : forall D : Type, option (list (Net * D)) -> list (Net * D) -> Client -> option D) (s s' : state Net Client) o :
  kept s -> step choose s o = Ok s' -> kept s'.
Proof.
  intros K E. destruct o as [g f ok| |r|r|r c|r|r]; cbn [step] in E.
  - destruct (w_pc s) eqn:W; try (injection E as <-; exact K). unfold do_load in E.
    destruct (match pend s with Some _ => _ | None => _ end) as [dl|]; [|discriminate]. cbn [rbind] in E. destruct (load_file (h s) dl f) as [[[nl hp] dl']|] eqn:EL; [|discriminate]. cbn [rbind] in E.
    apply load_file_keeps in EL. destruct EL as [E1 E2]. destruct ok; [|destruct (pend s)].
    + injection E as <-. apply kept_same with s; auto.
    + injection E as <-. apply kept_same with s; auto.
    + destruct (kill_strings _ _) as [st|]; [|discriminate]. cbn [rbind] in E. injection E as <-. apply kept_same with s; auto.
  - now apply update_kept with s.
  - destruct (nth_error _ r) as [x|]; [|now injection E as <-]. destruct (r_in x); injection E as <-; [exact K|]. apply kept_same with s; auto.
  - destruct (nth_error _ r) as [x|]; [|now injection E as <-]. cbv zeta in E. cbn [w_pc set_reader] in E. destruct K as (A & B & C). destruct (w_pc s) eqn:W; injection E as <-; unfold kept; cbn [w_pc set_reader h p_tree p_lists]; rewrite ?W; auto.
  - unfold do_read in E. destruct (nth_error _ r) as [x|]; [|now injection E as <-]. destruct (negb (r_in x)); [now injection E as <-|].
    destruct (r_pc x) as [|c0 q|c0 v i|c0 v i a|a|c0 q a].
    + destruct (p_tree s) eqn:P; injection E as <-; [|exact K]. apply kept_same with s; auto.
    + destruct (live _ q); [|discriminate]. cbn [rbind] in E. injection E as <-. apply kept_same with s; auto.
    + destruct (p_lists s) eqn:P; [|discriminate]. injection E as <-. apply kept_same with s; auto.
    + destruct (live _ a); [|discriminate]. cbn [rbind] in E. destruct (rd _ i); [|discriminate]. cbn [rbind] in E. injection E as <-. apply kept_same with s; auto.
    + destruct (p_tree s) eqn:P; injection E as <-; [|exact K]. apply kept_same with s; auto.
    + destruct (live _ q); [|discriminate]. cbn [rbind] in E. injection E as <-. apply kept_same with s; auto.
  - unfold do_prefetch in E. destruct (nth_error _ r) as [x|]; [|now injection E as <-]. destruct (negb (r_in x)); [now injection E as <-|].
    destruct (r_pc x), (p_lists s) eqn:P; injection E as <-; try exact K.
  - destruct (nth_error _ r) as [x|]; [|now injection E as <-]. destruct (use_all _ _ _); [|discriminate]. cbn [rbind] in E. injection E as <-. apply kept_same with s; auto.
Qed.
Lemma watch_kept Net Client (choose : forall D : Type, option (list (Net * D)) -> list (Net * D) -> Client -> option D) ops : forall (s s' : state Net Client) d d',
  kept s -> watch choose s d ops = Ok (s', d') -> kept s'.
Proof.
  induction ops as [|o ops IH]; intros s s' d d' K E; cbn [watch] in E; [now injection E as <- _|].
  destruct (step choose s o) as [s1|] eqn:E1; [|discriminate]. cbn [rbind] in E. apply (IH s1 s' (seen s s1 o d) d'); [|exact E]. now apply step_kept with choose s o.
Qed.

(** ** Nothing is put in force twice *)
Definition waiting {Net Client} (s : state Net Client) : nat :=
  match w_pc s, pend s with Idle, Some _ | Lists _ _ _, _ => 1 | _, _ => 0 end.
Lemma step_waiting Net Client (choose : forall D : Type, option (list (Net * D)) -> list (Net * D) -> Client -> option D) (s s' : state Net Client) o d :
  step choose s o = Ok s' ->
  length (pubs (seen s s' o d)) + waiting s' <= length (pubs d) + waiting s + (if good_load o then 1 else 0).
Proof.
  intros E. destruct o as [g f ok| |r|r|r c|r|r]; cbn [step] in E.
  - assert (P : pubs (seen s s' (Load g f ok) d) = pubs d) by (cbn [seen]; destruct g, ok, (idle s); reflexivity). rewrite P. cbn [good_load].
    destruct (w_pc s) eqn:W; try (injection E as <-; unfold waiting; rewrite W; lia). unfold do_load in E.
    destruct (match pend s with Some _ => _ | None => _ end) as [dl|]; [|discriminate]. cbn [rbind] in E. destruct (load_file (h s) dl f) as [[[nl hp] dl']|]; [|discriminate]. cbn [rbind] in E.
    destruct ok; [injection E as <-; unfold waiting; cbn; rewrite W; lia|]. destruct (pend s) eqn:PE.
    + injection E as <-. unfold waiting. cbn. rewrite W, PE. lia.
    + destruct (kill_strings _ _); [|discriminate]. cbn [rbind] in E. injection E as <-. unfold waiting. cbn. rewrite W, PE. lia.
  - cbn [good_load]. unfold do_update in E. destruct (w_pc s) as [|t ot ol|ot ol|[|y w] ot ol] eqn:W.
    + destruct (pend s) eqn:PE; injection E as <-.
      * rewrite seen_same by reflexivity. unfold waiting. cbn. rewrite W, PE. lia.
      * rewrite seen_same by reflexivity. lia.
    + injection E as <-. cbn [seen]. unfold waiting at 1 2. cbn [w_pc]. rewrite W. destruct (same_pointer _ _); cbn [pubs]; rewrite ?app_length; cbn [length]; lia.
    + injection E as <-. rewrite seen_same by reflexivity. unfold waiting. cbn. rewrite W. lia.
    + destruct (kill_opt _ ot); [|discriminate]. cbn [rbind] in E. destruct (kill_opt _ ol); [|discriminate]. cbn [rbind] in E. injection E as <-. rewrite seen_same by reflexivity. unfold waiting. cbn. rewrite W. lia.
    + injection E as <-. rewrite seen_same by reflexivity. lia.
  - cbn [seen good_load]. destruct (nth_error _ r) as [x|]; [destruct (r_in x)|]; injection E as <-; unfold waiting; cbn; lia.
  - cbn [seen good_load]. destruct (nth_error _ r) as [x|]; [|injection E as <-; lia]. cbv zeta in E. cbn [w_pc set_reader] in E. unfold waiting. destruct (w_pc s) eqn:W; injection E as <-; cbn; rewrite ?W; lia.
  - cbn [seen good_load]. assert (Q : w_pc s' = w_pc s /\ pend s' = pend s); [|unfold waiting; destruct Q as [-> ->]; lia].
    unfold do_read in E. destruct (nth_error _ r) as [x|]; [|now injection E as <-]. destruct (negb (r_in x)); [now injection E as <-|].
    destruct (r_pc x) as [|c0 q|c0 v i|c0 v i a|a|c0 q a].
    + destruct (p_tree s); injection E as <-; auto.
    + destruct (live _ q); [|discriminate]. cbn [rbind] in E. injection E as <-. auto.
    + destruct (p_lists s); [|discriminate]. injection E as <-. auto.
    + destruct (live _ a); [|discriminate]. cbn [rbind] in E. destruct (rd _ i); [|discriminate]. cbn [rbind] in E. injection E as <-. auto.
    + destruct (p_tree s); injection E as <-; auto.
    + destruct (live _ q); [|discriminate]. cbn [rbind] in E. injection E as <-. auto.
  - cbn [seen good_load]. assert (Q : w_pc s' = w_pc s /\ pend s' = pend s); [|unfold waiting; destruct Q as [-> ->]; lia].
    unfold do_prefetch in E. destruct (nth_error _ r) as [x|]; [|now injection E as <-]. destruct (negb (r_in x)); [now injection E as <-|].
    destruct (r_pc x), (p_lists s); injection E as <-; auto.
  - cbn [seen good_load]. destruct (nth_error _ r) as [x|]; [|injection E as <-; lia]. destruct (use_all _ _ _); [|discriminate]. cbn [rbind] in E. injection E as <-. unfold waiting. cbn. lia.
Qed.
Lemma watch_waiting Net Client (choose : forall D : Type, option (list (Net * D)) -> list (Net * D) -> Client -> option D) ops : forall (s s' : state Net Client) d d',
  watch choose s d ops = Ok (s', d') ->
  length (pubs d') + waiting s' <= length (pubs d) + waiting s + length (filter (@good_load Net Client) ops).
Proof.
  induction ops as [|o ops IH]; intros s s' d d' E; cbn [watch] in E; [injection E as <- <-; cbn; lia|].
  destruct (step choose s o) as [s1|] eqn:E1; [|discriminate]. cbn [rbind] in E. apply IH in E. pose proof (step_waiting _ _ _ d E1) as Q. cbn [filter]. destruct (good_load o); cbn [length] in *; lia.
Qed.
