(** Reloads and readers of a map: the updater's steps, the readers' steps, whole runs. *)
From Verif Require Import Base MapsModel MapsSpec MapsProofs MapsProofs2.
Set Implicit Arguments.

Lemma inside_in Client (l : list (reader Client)) i r x : nth_error l r = Some x -> r_in x = true -> In (i + r) (inside l i).
Proof.
  revert i r. induction l as [|y l IH]; intros i [|r] E R; cbn in E; try discriminate.
  - injection E as ->. cbn. rewrite R, Nat.add_0_r. now left.
  - specialize (IH (S i) r E R). rewrite <- plus_n_Sm. cbn [inside]. destruct (r_in y); [right|]; exact IH.
Qed.
Lemma kill_opt_ok {A} (l : list (option A)) p cur : alive l p cur ->
  exists l', kill_opt l p = Ok l' /\ forall q x, nth_error l q = Some (Some x) -> p <> Some q -> nth_error l' q = Some (Some x).
Proof.
  intros H. destruct p as [p|]; cbn [kill_opt]; [|now exists l]. destruct (H p eq_refl) as ((x & E) & _). unfold kill. rewrite (live_eq _ _ E). cbn [rbind].
  eexists. split; [reflexivity|]. intros q y Ey NE. rewrite nth_error_upd_neq by congruence. exact Ey.
Qed.
Lemma alive_app {A} (l t : list (option A)) p cur : alive l p cur -> alive (l ++ t) p cur.
Proof. intros H q E. destruct (H q E) as ((x & X) & N). split; [exists x; now apply nth_app1|exact N]. Qed.
Lemma same_pointer_eq a b : same_pointer a b = true <-> a = b.
Proof. destruct a, b; cbn; rewrite ?Nat.eqb_eq; split; congruence. Qed.

Section Steps.
  Variables Net Client : Type.
  Variable choose : forall D : Type, option (list (Net * D)) -> list (Net * D) -> Client -> option D.
  Hypothesis nat_choose : by_network choose.
  Variable default : dclist.
  Notation inv_at := (@inv_at Net Client choose default).
  Notation inv := (@inv Net Client choose default).

  Lemma seen_same (s s' : state Net Client) d : p_tree s = p_tree s' -> seen s s' Update d = d.
  Proof. intros E. cbn [seen]. now rewrite (proj2 (same_pointer_eq _ _) E). Qed.

  Lemma update_inv L M s d : inv_at L M s d -> exists s', do_update s = Ok s' /\ inv s' (seen s s' Update d).
  Proof.
    intros I. pose proof I as [IL ID IP IS IG IN IT IV IW IR IA]. unfold do_update. destruct (w_pc s) as [|t ot ol|ot ol|w ot ol] eqn:W.
    - destruct (pend s) as [x|] eqn:EP; [|exists s; split; [reflexivity|]; rewrite seen_same by reflexivity; now exists L, M].
      eexists. split; [reflexivity|]. rewrite seen_same by reflexivity. rewrite IP. exists M, M.
      assert (PL : forall a, p_lists s = Some a -> exists t, M = L ++ t) by (intros a Ea; now destruct (IS a Ea) as (_ & ? & _)).
      constructor; cbn [h strings arrays trees p_tree p_lists pend geo nets versions w_pc readers answers]; rewrite ?EP; auto.
      + intros a [= <-]. split; [apply nth_snoc|]. split; [exists []; now rewrite app_nil_r|exact ID].
      + intros t Et. destruct (IT t Et) as (NP & o & B & C & D). split; [discriminate|]. exists o. split; [exact B|]. split; [|exact D].
        destruct (p_lists s) as [a|] eqn:Ea; [|congruence]. destruct (PL a eq_refl) as (u & ->). now apply tree_mono with (strings (h s)) d.
      + unfold w_ok. cbn [h arrays p_tree p_lists pend geo nets versions w_pc]. split; [congruence|]. split; [reflexivity|]. split; [discriminate|]. split; [reflexivity|]. split; [reflexivity|].
        intros q Eq. destruct (IS q Eq) as (A & _). split; [exists L; now apply nth_app1|]. intros [= E]. assert (q < length (arrays (h s))) by (apply nth_error_Some; congruence). lia.
      + intros r x0 Ex. pose proof (IR r x0 Ex) as RO.
        destruct (p_lists s) as [a|] eqn:Ea.
        * destruct (PL a eq_refl) as (u & EM). rewrite EM. apply reader_mono with s d; cbn [h strings trees arrays p_lists versions]; auto; try congruence.
          -- intros q o [X|[X _]] Y; [|rewrite W in X; discriminate X]. split; [left; exact X|exact Y].
          -- intros q o [X|[X _]] Y; [|rewrite W in X; discriminate X]. split; [right; cbn [w_pc old_lists may]; split; [congruence|exact Logic.I]|now apply nth_app1].
        * (* no reader has anything before the first update *)
          destruct RO as (A & B & C & D). split; [exact A|]. split; [exact B|]. split; [|exact D].
          destruct (r_pc x0) as [|c q|c v i|c v i b|b|c q b]; cbn [pc_ok] in *; auto; try (destruct C as (C & _); congruence).
          destruct C as ([C|[C _]] & _); [congruence|]. rewrite W in C. discriminate C.
    - unfold w_ok in IW. rewrite W in IW. destruct IW as (NP & -> & NL & Et & Eot & AL).
      eexists. split; [reflexivity|]. cbn [seen p_tree].
      assert (FRESH : same_pointer (p_tree s) (Some (length (trees (h s)))) = false).
      { destruct (same_pointer _ _) eqn:E; [|reflexivity]. apply same_pointer_eq in E. destruct (IT _ E) as (_ & o & B & _). assert (length (trees (h s)) < length (trees (h s))) by (apply nth_error_Some; congruence). lia. }
      rewrite FRESH. set (d' := {| s_geo := s_geo d; s_nets := s_nets d; pubs := pubs d ++ [(s_geo d, s_nets d)] |}).
      assert (PB : forall v x, nth_error (pubs d) v = Some x -> nth_error (pubs d') v = Some x) by (intros; now apply nth_app1).
      exists M, M.
      constructor; cbn [h strings arrays trees p_tree p_lists pend geo nets versions w_pc readers answers]; auto.
      + intros q [= <-]. split; [exact NL|]. exists t. split; [apply nth_snoc|]. rewrite Et. split; [|reflexivity]. exists (s_geo d), (s_nets d). cbn [v_no t_geo t_nets]. split; [rewrite <- IV; apply nth_snoc|]. now split.
      + cbn [pubs d']. rewrite app_length. cbn. lia.
      + unfold w_ok. cbn [h arrays trees p_tree p_lists pend geo nets versions w_pc]. split; [exact NP|]. split; [reflexivity|]. split; [exact NL|]. split; [|exact AL].
        intros q Eq. rewrite Eot in Eq. destruct (IT q Eq) as (_ & o & B & _). split; [exists o; now apply nth_app1|]. intros [= E]. assert (q < length (trees (h s))) by (apply nth_error_Some; congruence). lia.
      + intros r x Ex. rewrite <- (app_nil_r M). apply reader_mono with s d; cbn [h strings trees arrays p_lists versions]; auto.
        * intros q o X Y. split; [|now apply nth_app1]. right. cbn [w_pc old_tree may]. split; [|exact Logic.I]. destruct X as [X|[X _]]; [congruence|]. rewrite W in X. exact X.
        * intros q o [X|[X _]] Y; (split; [|exact Y]); [left; exact X|]. right. cbn [w_pc old_lists may]. rewrite W in X. now split.
      + eapply Forall_impl; [|exact IA]. intros a. now apply right_mono.
    - unfold w_ok in IW. rewrite W in IW. destruct IW as (NP & LM & NL & AT & AL).
      eexists. split; [reflexivity|]. rewrite seen_same by reflexivity. exists L, M.
      constructor; cbn [h strings arrays trees p_tree p_lists pend geo nets versions w_pc readers answers]; auto.
      + unfold w_ok. cbn. auto.
      + intros r x Ex. rewrite <- (app_nil_r L).
        assert (IN' : r_in x = true -> In r (inside (readers s) 0)) by (intros R; exact (inside_in _ 0 _ Ex R)).
        pose proof (IR r x Ex) as RO. destruct (r_in x) eqn:R.
        * apply reader_mono with s d; cbn [h strings trees arrays p_lists versions]; auto.
          -- intros q o [X|[X _]] Y; (split; [|exact Y]); [left; exact X|]. right. cbn [w_pc old_tree may]. rewrite W in X. auto.
          -- intros q o [X|[X _]] Y; (split; [|exact Y]); [left; exact X|]. right. cbn [w_pc old_lists may]. rewrite W in X. auto.
        * destruct RO as (A & B & C & D). destruct (A R) as [A1 A2]. split; [exact A|]. split; [exact B|]. rewrite A1, A2. split; [exact Logic.I|constructor].
    - unfold w_ok in IW. rewrite W in IW. destruct IW as (NP & -> & NL & AT & AL).
      destruct w as [|y w]; [|exists s; split; [reflexivity|]; rewrite seen_same by reflexivity; now exists M, M].
      destruct (kill_opt_ok AT) as (tr & -> & KT). destruct (kill_opt_ok AL) as (ar & -> & KA). cbn [rbind].
      assert (NT : forall q, p_tree s = Some q -> ot <> Some q) by (intros q Eq E; destruct (AT q E) as (_ & X); congruence).
      assert (NA : forall q, p_lists s = Some q -> ol <> Some q) by (intros q Eq E; destruct (AL q E) as (_ & X); congruence).
      eexists. split; [reflexivity|]. rewrite seen_same by reflexivity. exists M, M.
      constructor; cbn [h strings arrays trees p_tree p_lists pend geo nets versions w_pc readers answers]; auto.
      + intros a Ea. destruct (IS a Ea) as (A & B & C). auto.
      + intros t Et. destruct (IT t Et) as (A & o & B & C). split; [exact A|]. exists o. auto.
      + exact Logic.I.
      + intros r x Ex. rewrite <- (app_nil_r M). apply reader_mono with s d; cbn [h strings trees arrays p_lists versions]; auto.
        * intros q o [X|[_ X]] Y; [|rewrite W in X; destruct X]. split; [left; exact X|auto].
        * intros q o [X|[_ X]] Y; [|rewrite W in X; destruct X]. split; [left; exact X|auto].
  Qed.

  (** A reader's step changes only that reader. *)
  Lemma set_reader_inv L M s d r x : inv_at L M s d -> reader_ok choose default L s d r x -> inv (set_reader s r x) d.
  Proof.
    intros [IL ID IP IS IG IN IT IV IW IR IA] RO. exists L, M. constructor; auto. cbn [readers set_reader]. intros r' x' E.
    change (reader_ok choose default L (set_reader s r x) d r' x') with (reader_ok choose default L s d r' x').
    destruct (Nat.eq_dec r r') as [<-|NE].
    - destruct (Nat.lt_ge_cases r (length (readers s))) as [LT|GE].
      + rewrite nth_error_upd_eq in E by exact LT. now injection E as <-.
      + rewrite upd_out in E by exact GE. auto.
    - rewrite nth_error_upd_neq in E by exact NE. auto.
  Qed.

  Lemma read_inv L M s d r c : inv_at L M s d -> exists s', do_read choose s r c = Ok s' /\ inv s' d.
  Proof.
    intros I. pose proof I as [IL ID IP IS IG IN IT IV IW IR IA]. unfold do_read. destruct (nth_error (readers s) r) as [x|] eqn:Ex; [|exists s; split; [reflexivity|now exists L, M]].
    destruct (IR r x Ex) as (A & B & C & D). destruct (r_in x) eqn:R; cbn [negb]; [|exists s; split; [reflexivity|now exists L, M]]. clear A.
    destruct (r_pc x) as [|c0 q|c0 v i|c0 v i a|a|c0 q a]; cbn [pc_ok] in C; try contradiction.
    - destruct (p_tree s) as [t|] eqn:Et; [|exists s; split; [reflexivity|now exists L, M]]. eexists. split; [reflexivity|]. apply set_reader_inv with L M; [exact I|].
      destruct (IT t eq_refl) as (NL & o & O1 & O2 & O3). split; [discriminate|]. split; [exact B|]. split; [|exact D]. cbn [r_pc r_from pc_ok]. split; [exact NL|]. split; [now left|]. exists o. split; [exact O1|]. split; [exact O2|lia].
    - destruct C as (NL & HT & o & O1 & O2 & O3). rewrite (live_eq _ _ O1). cbn [rbind]. eexists. split; [reflexivity|]. apply set_reader_inv with L M; [exact I|]. split; [discriminate|]. split; [exact B|]. split; [|exact D].
      cbn [r_pc r_from pc_ok]. split; [exact NL|]. destruct (p_lists s) as [a|]; [|congruence]. destruct (IS a eq_refl) as (_ & _ & DL).
      destruct (lookup_ok nat_choose c0 O2 DL) as (p & vv & V1 & V2 & V3). exists p. split; [exact V2|]. exists vv. auto.
    - destruct C as (NL & p & C1 & C2). destruct (p_lists s) as [a|] eqn:Ea; [|congruence]. eexists. split; [reflexivity|]. apply set_reader_inv with L M; [exact I|]. split; [discriminate|]. split; [exact B|]. split; [|exact D].
      cbn [r_pc r_from pc_ok]. split; [now left|]. exists L, p. split; [now destruct (IS a eq_refl)|]. now split.
    - destruct C as (HA & l & p & C1 & C2 & C3). rewrite (live_eq _ _ C1). cbn [rbind]. unfold rd. rewrite C2. cbn [rbind]. eexists. split; [reflexivity|]. apply set_reader_inv with L M; [exact I|]. split; [discriminate|]. split; [exact B|]. split; [exact Logic.I|]. cbn [r_held]. now constructor.
  Qed.

  Lemma use_ok d st from l : Forall (good choose default d st from) l -> exists a, use_all from st l = Ok a /\ Forall (right choose default d) a.
  Proof.
    induction 1 as [|[[c v] p] l (vv & A & B & C) F (a & E & RA)]; cbn [use_all]; [now exists []|]. rewrite (live_eq _ _ B). cbn [rbind]. rewrite E. cbn [rbind]. eexists. split; [reflexivity|]. constructor; [|exact RA].
    exists vv. cbn. auto.
  Qed.

  Lemma leave_inv L M s d r x : inv_at L M s d -> nth_error (readers s) r = Some x -> exists s', step choose s (Leave r) = Ok s' /\ inv s' d.
  Proof.
    intros I Ex. cbn [step]. rewrite Ex.
    set (out := {| r_in := false; r_from := 0; r_pc := Nothing; r_held := [] |}).
    assert (RO : reader_ok choose default L s d r out) by (split; [now split|]; split; [cbn; lia|]; split; [exact Logic.I|constructor]).
    destruct (set_reader_inv I RO) as (L' & M' & I'). cbv zeta. set (s1 := set_reader s r out) in *.
    destruct (w_pc s1) as [|t ot ol|ot ol|w ot ol] eqn:W; try (eexists; split; [reflexivity|now exists L', M']).
    eexists. split; [reflexivity|]. destruct I' as [IL ID IP IS IG IN IT IV IW IR IA]. exists L', M'.
    constructor; cbn [h strings arrays trees p_tree p_lists pend geo nets versions w_pc readers answers]; auto.
    - unfold w_ok in *. rewrite W in IW. cbn. exact IW.
    - intros r' x' Ex'. destruct (Nat.eq_dec r r') as [<-|NE].
      + unfold s1 in Ex'. cbn [readers set_reader] in Ex'. rewrite nth_error_upd_eq in Ex' by (apply nth_error_Some; congruence). injection Ex' as <-. split; [now split|]. split; [cbn; lia|]. split; [exact Logic.I|constructor].
      + rewrite <- (app_nil_r L'). apply reader_mono with s1 d; cbn [h strings trees arrays p_lists versions]; auto.
        * intros q o [X|[X Y]] Z; (split; [|exact Z]); [left; exact X|]. right. rewrite W in X, Y. cbn [w_pc old_tree may] in *. split; [exact X|]. apply in_in_remove; auto.
        * intros q o [X|[X Y]] Z; (split; [|exact Z]); [left; exact X|]. right. rewrite W in X, Y. cbn [w_pc old_lists may] in *. split; [exact X|]. apply in_in_remove; auto.
  Qed.

  Lemma step_inv s d o : inv s d -> in_order o -> exists s', step choose s o = Ok s' /\ inv s' (seen s s' o d).
  Proof.
    intros (L & M & I) IO. destruct o as [g f ok| |r|r|r c|r|r]; try contradiction.
    - cbn [step]. destruct (w_pc s) eqn:W; [exact (load_inv g f ok I W)|..]; exists s; (split; [reflexivity|]); unfold seen, idle; rewrite W; destruct g, ok; now exists L, M.
    - exact (update_inv I).
    - cbn [step seen]. destruct (nth_error (readers s) r) as [x|] eqn:Ex; [|exists s; split; [reflexivity|now exists L, M]]. destruct (r_in x) eqn:R; [exists s; split; [reflexivity|now exists L, M]|].
      eexists. split; [reflexivity|]. apply set_reader_inv with L M; [exact I|]. split; [discriminate|]. split; [cbn; lia|]. split; [exact Logic.I|constructor].
    - cbn [seen]. destruct (nth_error (readers s) r) as [x|] eqn:Ex; [exact (leave_inv _ I Ex)|]. cbn [step]. rewrite Ex. exists s. split; [reflexivity|now exists L, M].
    - exact (read_inv r c I).
    - cbn [step seen]. destruct (nth_error (readers s) r) as [x|] eqn:Ex; [|exists s; split; [reflexivity|now exists L, M]].
      pose proof I as [IL ID IP IS IG IN IT IV IW IR IA]. destruct (IR r x Ex) as (_ & _ & _ & D). destruct (use_ok D) as (a & -> & RA). cbn [rbind]. eexists. split; [reflexivity|].
      exists L, M. constructor; cbn [h strings arrays trees p_tree p_lists pend geo nets versions w_pc readers answers]; auto. apply Forall_app. now split.
  Qed.

  Lemma watch_inv ops : forall s d, inv s d -> Forall (@in_order Net Client) ops -> exists s' d', watch choose s d ops = Ok (s', d') /\ inv s' d'.
  Proof.
    induction ops as [|o ops IH]; intros s d I F; cbn [watch]; [now exists s, d|]. inversion F as [|? ? F1 F2]; subst.
    destruct (step_inv o I F1) as (s' & -> & I'). cbn [rbind]. now apply IH.
  Qed.

  Lemma start_inv more n : inv (start default more n) (none Net).
  Proof.
    exists [], (seq 0 (S (length more))). constructor; cbn [start h strings arrays trees p_tree p_lists pend geo nets versions w_pc readers answers none pubs s_geo s_nets].
    - apply Forall_forall. intros p I. apply in_seq in I. unfold cont. destruct p as [|p]; cbn [nth_error]; [eauto|]. rewrite nth_error_map. destruct (nth_error more p) eqn:E; [cbn; eauto|]. apply nth_error_None in E. lia.
    - exists 0. now split.
    - reflexivity.
    - discriminate.
    - exact Logic.I.
    - constructor.
    - discriminate.
    - reflexivity.
    - exact Logic.I.
    - intros r x E. apply nth_error_In, repeat_spec in E. subst x. split; [now split|]. split; [apply Nat.le_refl|]. split; [exact Logic.I|constructor].
    - constructor.
  Qed.
End Steps.
