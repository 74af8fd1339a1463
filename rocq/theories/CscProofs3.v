(** Giving sockets to threads. *)
From Coq Require Import Lia.
From Verif Require Import Base DnameSpec ChalSpec CtlModel CscModel CscSpec.

Lemma bytes_eqb_eq a b : bytes_eqb a b = true <-> a = b.
Proof.
  revert b. induction a as [|x a IH]; destruct b as [|y b]; cbn; split; intros H; try discriminate; auto.
  - apply Bool.andb_true_iff in H. destruct H as (H1 & H2). apply N.eqb_eq in H1. apply IH in H2. congruence.
  - injection H as -> ->. rewrite N.eqb_refl. now apply IH.
Qed.
Lemma anysin_same_iff a b : anysin_same a b = true <-> inet a /\ a = b.
Proof.
  unfold anysin_same, inet. destruct a as [la fa aa pa], b as [lb fb ab pb]. cbn [a_len a_family a_addr a_port]. rewrite !Bool.andb_true_iff. split.
  - intros ((H1 & H2) & H3). apply Nat.eqb_eq in H1. subst lb. assert (fa = fb) by (destruct fa, fb; discriminate || reflexivity). subst fb.
    destruct fa; [| |discriminate]; apply Bool.andb_true_iff in H3; destruct H3 as (H3 & H4); apply bytes_eqb_eq in H3; apply N.eqb_eq in H4; subst; auto.
  - intros (H & [= -> -> -> ->]). rewrite Nat.eqb_refl. split; [destruct fb; auto|]. destruct H as [-> | ->]; (apply Bool.andb_true_iff; split; [now apply bytes_eqb_eq|apply N.eqb_refl]).
Qed.

Definition key (t : dthread) : bool * anysin := (d_udp t, d_addr t).
Definition free_for (udp : bool) (a : anysin) (t : dthread) : Prop := d_sock t = None /\ d_udp t = udp /\ d_addr t = a /\ inet a.
Lemma free_test t udp a : match d_sock t with None => true | _ => false end && Bool.eqb (d_udp t) udp && anysin_same (d_addr t) a = true <-> free_for udp a t.
Proof.
  unfold free_for. rewrite !Bool.andb_true_iff, anysin_same_iff. split.
  - intros ((H1 & H2) & H3 & <-). apply Bool.eqb_prop in H2. destruct (d_sock t); [discriminate|]. auto.
  - intros (-> & -> & -> & H). rewrite Bool.eqb_reflx. auto.
Qed.
Definition give (t : dthread) (fd : N) : dthread := {| d_sock := Some fd; d_udp := d_udp t; d_addr := d_addr t |}.
Lemma first_free_some ts fd udp a ts' : first_free ts fd udp a = Some ts' -> exists l t r, ts = l ++ t :: r /\ ts' = l ++ give t fd :: r /\ free_for udp a t /\ (forall x, In x l -> ~ free_for udp a x).
Proof.
  revert ts'. induction ts as [|t ts IH]; cbn [first_free]; intros ts' H; [discriminate|]. destruct (_ && _) eqn:Q.
  - injection H as <-. exists [], t, ts. split; [reflexivity|]. split; [reflexivity|]. split; [now apply free_test|intros x []].
  - destruct (first_free ts fd udp a) as [ts''|]; [|discriminate]. injection H as <-. destruct (IH _ eq_refl) as (l & t' & r & -> & -> & Hf & Hn). exists (t :: l), t', r. split; [reflexivity|]. split; [reflexivity|]. split; [exact Hf|].
    intros x [<-|Ix]; [|now apply Hn]. intros X. apply free_test in X. congruence.
Qed.
Lemma first_free_none ts fd udp a : first_free ts fd udp a = None -> forall t, In t ts -> ~ free_for udp a t.
Proof.
  induction ts as [|t ts IH]; cbn [first_free]; intros H x I; [destruct I|]. destruct (_ && _) eqn:Q; [discriminate|]. destruct (first_free ts fd udp a); [discriminate|].
  destruct I as [<-|I]; [intros X; apply free_test in X; congruence|now apply IH].
Qed.

Section Import.
  Variable name_of : N -> sockname.
  Variable type_of : N -> socktype.
  Notation import_fd := (import_fd name_of type_of).
  Notation import_fds := (import_fds name_of type_of).
  Notation usable := (usable name_of type_of).

  (** Three things can happen to a socket. *)
  Inductive fate (ts : list dthread) (fd : N) : list dthread -> list N -> Prop :=
  | fate_given l t r : ts = l ++ t :: r -> d_sock t = None -> usable fd (d_udp t) (d_addr t) -> (forall x, In x l -> ~ free_for (d_udp t) (d_addr t) x) -> fate ts fd (l ++ give t fd :: r) []
  | fate_closed : (forall t udp a, In t ts -> usable fd udp a -> ~ free_for udp a t) -> fate ts fd ts [fd]
  | fate_left : (forall udp a, ~ usable fd udp a) -> name_of fd = NotOpen \/ name_of fd = NameTooLong true -> fate ts fd ts [].
  Lemma import_fate ts fd ts' c : import_fd ts fd = (ts', c) -> fate ts fd ts' c.
  Proof.
    unfold CscModel.import_fd. intros H. destruct (name_of fd) as [| |b|a] eqn:En.
    - injection H as <- <-. apply fate_left; [|auto]. intros udp a (X & _). congruence.
    - injection H as <- <-. apply fate_closed. intros t udp a _ (X & _). congruence.
    - destruct b; injection H as <- <-; [apply fate_left; [|auto]; intros udp a (X & _); congruence|]. apply fate_closed. intros t udp a _ (X & _). congruence.
    - assert (Gen : forall udp, type_of fd = (if (udp : bool) then Dgram else Stream) -> (match first_free ts fd udp a with Some ts => (ts, @nil N) | None => (ts, [fd]) end) = (ts', c) -> fate ts fd ts' c).
      { intros udp Ty E. destruct (first_free ts fd udp a) as [ts2|] eqn:Ef; injection E as <- <-.
        - destruct (first_free_some _ _ _ _ _ Ef) as (l & t & r & -> & -> & (S1 & S2 & S3 & S4) & Hn). subst udp a. apply (fate_given _ _ l t r); auto. repeat split; auto.
        - apply fate_closed. intros t udp' a' I (X1 & _ & X2). rewrite En in X1. injection X1 as <-. assert (udp' = udp) by (destruct udp, udp'; congruence). subst. now apply (first_free_none _ _ _ _ Ef). }
      destruct (type_of fd) eqn:Et.
      + injection H as <- <-. apply fate_closed. intros t udp a' _ (_ & _ & X). destruct udp; congruence.
      + injection H as <- <-. apply fate_closed. intros t udp a' _ (_ & _ & X). destruct udp; congruence.
      + apply (Gen true eq_refl H).
      + apply (Gen false eq_refl H).
  Qed.

  Definition socks (ts : list dthread) : list N := flat_map (fun t => match d_sock t with Some f => [f] | None => [] end) ts.
  Lemma socks_app a b : socks (a ++ b) = socks a ++ socks b.
  Proof. apply flat_map_app. Qed.
  (** What is true after some sockets. *)
  Record placed (ts : list dthread) (fds : list N) (ts' : list dthread) (closed : list N) : Prop := {
    p_key : map key ts' = map key ts;
    p_used : forall t f, In t ts' -> d_sock t = Some f -> In f fds /\ usable f (d_udp t) (d_addr t);
    p_once : NoDup (socks ts' ++ closed);
    p_in : incl (socks ts' ++ closed) fds;
    p_all : forall f, In f fds -> In f (socks ts') \/ In f closed \/ name_of f = NotOpen \/ name_of f = NameTooLong true;
    p_excess : forall f udp a t, In f closed -> usable f udp a -> In t ts' -> ~ free_for udp a t
  }.
  Lemma placed_start ts : (forall t, In t ts -> d_sock t = None) -> placed ts [] ts [].
  Proof.
    intros H. assert (S : socks ts = []). { induction ts as [|t ts IH]; [reflexivity|]. cbn. rewrite (H t) by now left. apply IH. intros x Hx. apply H. now right. }
    constructor; try reflexivity.
    - intros t f I E. rewrite (H t I) in E. discriminate.
    - rewrite S. constructor.
    - rewrite S. intros x [].
    - intros f [].
    - intros f udp a t [].
  Qed.
  Lemma placed_step ts fds ts1 c1 fd ts2 c2 : placed ts fds ts1 c1 -> ~ In fd fds -> fate ts1 fd ts2 c2 -> placed ts (fds ++ [fd]) ts2 (c1 ++ c2).
  Proof.
    intros [K U O I A X] Nf F. assert (Inf : forall f, In f fds -> In f (fds ++ [fd])) by (intros; apply in_or_app; auto).
    assert (Fresh : ~ In fd (socks ts1 ++ c1)) by (intros Q; now apply Nf, I). destruct F as [l t r E Sn Us Hn|Hc|Hl Hx].
    - subst ts1. rewrite app_nil_r. rewrite socks_app in *. cbn [socks flat_map] in *. rewrite Sn in *. cbn [give d_sock app] in *. fold (socks r) in *.
      constructor.
      + rewrite <- K, !map_app. reflexivity.
      + intros t' f I' E'. apply in_app_or in I'. destruct I' as [I'|[<-|I']].
        * destruct (U t' f); [apply in_or_app; auto|assumption|]. auto.
        * cbn in E'. injection E' as <-. split; [apply in_or_app; right; now left|]. exact Us.
        * destruct (U t' f); [apply in_or_app; right; now right|assumption|]. auto.
      + rewrite socks_app. cbn [socks flat_map give d_sock app]. fold (socks r). rewrite <- app_assoc in *. cbn [app] in *. apply NoDup_Add with (a := fd) (l := socks l ++ socks r ++ c1); [apply Add_app|]. auto.
      + rewrite socks_app. cbn [socks flat_map give d_sock app]. fold (socks r). intros f Q. rewrite <- app_assoc in Q. cbn [app] in Q. apply in_app_or in Q. destruct Q as [Q|[<-|Q]]; [apply Inf, I; rewrite <- app_assoc; apply in_or_app; auto|apply in_or_app; right; now left|apply Inf, I; rewrite <- app_assoc; apply in_or_app; auto].
      + intros f Q. rewrite socks_app. cbn [socks flat_map give d_sock app]. fold (socks r). apply in_app_or in Q. destruct Q as [Q|[<-|[]]]; [|left; apply in_or_app; right; now left].
        destruct (A f Q) as [Y|Y]; [|auto]. left. apply in_app_or in Y. apply in_or_app. destruct Y; [auto|right; now right].
      + intros f udp a t' Q Uf I' Ff. apply in_app_or in I'. destruct I' as [I'|[<-|I']].
        * apply (X f udp a t' Q Uf); [apply in_or_app; auto|exact Ff].
        * destruct Ff as (Z & _). discriminate.
        * apply (X f udp a t' Q Uf); [apply in_or_app; right; now right|exact Ff].
    - constructor; auto.
      + intros t' f I' E'. destruct (U t' f I' E'). auto.
      + rewrite app_assoc. apply NoDup_Add with (a := fd) (l := socks ts1 ++ c1); [|auto]. rewrite <- (app_nil_r (socks ts1 ++ c1)) at 1. apply Add_app.
      + intros f Q. rewrite app_assoc in Q. apply in_app_or in Q. destruct Q as [Q|[<-|[]]]; [auto|apply in_or_app; right; now left].
      + intros f Q. apply in_app_or in Q. destruct Q as [Q|[<-|[]]]; [|right; left; apply in_or_app; right; now left]. destruct (A f Q) as [Y|[Y|Y]]; auto. right. left. apply in_or_app. auto.
      + intros f udp a t' Q Uf I' Ff. apply in_app_or in Q. destruct Q as [Q|[<-|[]]]; [now apply (X f udp a t')|]. now apply (Hc t' udp a).
    - rewrite app_nil_r. constructor; auto.
      + intros t' f I' E'. destruct (U t' f I' E'). auto.
      + intros f Q. apply Inf, I, Q.
      + intros f Q. apply in_app_or in Q. destruct Q as [Q|[<-|[]]]; auto.
  Qed.
  Lemma import_placed : forall fds ts fds0 ts1 c1 ts2 c2, placed ts fds0 ts1 c1 -> NoDup (fds0 ++ fds) -> import_fds ts1 fds = (ts2, c2) -> placed ts (fds0 ++ fds) ts2 (c1 ++ c2).
  Proof.
    induction fds as [|fd fds IH]; cbn; intros ts fds0 ts1 c1 ts2 c2 P Nd H.
    - injection H as <- <-. now rewrite !app_nil_r.
    - destruct (import_fd ts1 fd) as (t1, d1) eqn:E1. destruct (import_fds t1 fds) as (t2, d2) eqn:E2. injection H as <- <-. apply import_fate in E1.
      replace (fds0 ++ fd :: fds) with ((fds0 ++ [fd]) ++ fds) by (now rewrite <- app_assoc). rewrite app_assoc. apply (IH ts _ t1); [|now rewrite <- app_assoc|exact E2].
      apply (placed_step _ _ ts1); [exact P| |exact E1]. intros Q. apply NoDup_remove_2 in Nd. apply Nd, in_or_app. auto.
  Qed.

  (** The same addresses in the same order: each thread gets its own. *)
  Lemma import_same : forall ts fds before, (forall t, In t before -> d_sock t <> None) -> length fds = length ts -> (forall t, In t ts -> d_sock t = None) ->
    (forall i t f, nth_error ts i = Some t -> nth_error fds i = Some f -> usable f (d_udp t) (d_addr t)) ->
    import_fds (before ++ ts) fds = (before ++ map (fun p => give (fst p) (snd p)) (combine ts fds), []).
  Proof.
    induction ts as [|t ts IH]; intros fds before Hb L Hf Hu; destruct fds as [|fd fds]; try discriminate L.
    - cbn. reflexivity.
    - injection L as L. cbn [CscModel.import_fds combine map]. assert (Us := Hu 0 t fd eq_refl eq_refl).
      assert (E1 : import_fd (before ++ t :: ts) fd = (before ++ give t fd :: ts, [])).
      { destruct (import_fd (before ++ t :: ts) fd) as (t1, c1) eqn:E1. apply import_fate in E1. assert (Ft : free_for (d_udp t) (d_addr t) t). { split; [apply Hf; now left|]. split; [reflexivity|]. split; [reflexivity|]. apply Us. }
        inversion E1 as [l t' r E Sn Us' Hn|Hc|Hl]; subst.
        - destruct Us' as (N1 & _ & T1). assert (Us2 := Us). destruct Us2 as (N2 & _ & T2). rewrite N1 in N2. injection N2 as N2. assert (Td : d_udp t' = d_udp t) by (destruct (d_udp t), (d_udp t'); congruence).
          rewrite N2, Td in *. clear N2 Td. f_equal. clear E1 IH. revert l E Hn. induction before as [|b before IHb]; intros l E Hn.
          + destruct l as [|x l]; [injection E as -> ->; reflexivity|]. cbn in E. injection E as <- E. exfalso. apply (Hn t); [now left|exact Ft].
          + destruct l as [|x l]; [cbn in E; injection E as -> E; exfalso; apply (Hb t'); [now left|exact Sn]|]. cbn in E. injection E as <- E. cbn. f_equal. apply IHb; [intros y Iy; apply Hb; now right|exact E|intros y Iy; apply Hn; now right].
        - exfalso. apply (Hc t (d_udp t) (d_addr t)); [apply in_or_app; right; now left|exact Us|exact Ft].
        - exfalso. apply (Hl _ _ Us). }
      rewrite E1. change (before ++ give t fd :: ts) with (before ++ [give t fd] ++ ts). rewrite app_assoc. rewrite (IH fds (before ++ [give t fd])); auto.
      + cbn. now rewrite <- app_assoc.
      + intros x Ix. apply in_app_or in Ix. destruct Ix as [Ix|[<-|[]]]; [now apply Hb|discriminate].
      + intros x Ix. apply Hf. now right.
      + intros i x f Ex Ef. apply (Hu (S i) x f Ex Ef).
  Qed.

  (** Counts. *)
  Definition is_for (udp : bool) (a : anysin) (t : dthread) : bool := Bool.eqb (d_udp t) udp && anysin_same (d_addr t) a.
  Definition has_sock (t : dthread) : bool := match d_sock t with Some _ => true | None => false end.
  Definition is_usable (udp : bool) (a : anysin) (fd : N) : bool :=
    match name_of fd, type_of fd with
    | Named b, Dgram => udp && anysin_same a b
    | Named b, Stream => negb udp && anysin_same a b
    | _, _ => false
    end.
  Lemma is_usable_iff udp a fd : is_usable udp a fd = true <-> usable fd udp a.
  Proof.
    unfold is_usable, CscSpec.usable. split.
    - destruct (name_of fd) as [| | |b]; try discriminate. destruct (type_of fd); try discriminate; intros H; apply Bool.andb_true_iff in H; destruct H as (H1 & H2); apply anysin_same_iff in H2; destruct H2 as (H2 & ->); destruct udp; try discriminate H1; auto.
    - intros (-> & Hi & ->). assert (anysin_same a a = true) by (apply anysin_same_iff; auto). destruct udp; rewrite H; reflexivity.
  Qed.
  Lemma count_app {A} (P : A -> bool) l r : count P (l ++ r) = count P l + count P r.
  Proof. unfold count. now rewrite filter_app, app_length. Qed.
  Lemma count_split (ts : list dthread) (P : dthread -> bool) : count P ts = count (fun t => P t && has_sock t) ts + count (fun t => P t && negb (has_sock t)) ts.
  Proof. unfold count. induction ts as [|t ts IH]; [reflexivity|]. cbn. destruct (P t), (has_sock t); cbn; lia. Qed.
  Lemma import_count udp a : forall fds ts ts' c, import_fds ts fds = (ts', c) ->
    count (is_for udp a) ts' = count (is_for udp a) ts /\
    count (fun t => is_for udp a t && has_sock t) ts' = Nat.min (count (is_for udp a) ts) (count (fun t => is_for udp a t && has_sock t) ts + count (is_usable udp a) fds).
  Proof.
    induction fds as [|fd fds IH]; cbn [CscModel.import_fds]; intros ts ts' c H.
    - injection H as <- <-. split; [reflexivity|]. assert (X := count_split ts (is_for udp a)). change (count (is_usable udp a) []) with 0. lia.
    - destruct (import_fd ts fd) as (t1, d1) eqn:E1. destruct (import_fds t1 fds) as (t2, d2) eqn:E2. injection H as <- <-. apply import_fate in E1. destruct (IH _ _ _ E2) as (K1 & K2). clear IH.
      change (count (is_usable udp a) (fd :: fds)) with (length (if is_usable udp a fd then fd :: filter (is_usable udp a) fds else filter (is_usable udp a) fds)).
      assert (X0 := count_split ts (is_for udp a)).
      inversion E1 as [l t r E Sn Us Hn|Hc|Hl]; subst.
      + set (Q := fun t => is_for udp a t && has_sock t) in *. assert (Ga : forall P, count P (l ++ t :: r) = count P l + (if P t then 1 else 0) + count P r) by (intros P; rewrite count_app; unfold count; cbn; destruct (P t); cbn; lia).
        assert (Gb : forall P, count P (l ++ give t fd :: r) = count P l + (if P (give t fd) then 1 else 0) + count P r) by (intros P; rewrite count_app; unfold count; cbn; destruct (P (give t fd)); cbn; lia).
        assert (Q1 : Q t = false) by (unfold Q, has_sock; rewrite Sn; apply Bool.andb_false_r). assert (Q2 : Q (give t fd) = is_for udp a t) by apply Bool.andb_true_r.
        rewrite (Gb (is_for udp a)) in K1, K2. rewrite (Gb Q) in K2. rewrite (Ga (is_for udp a)) in *. rewrite (Ga Q) in *. change (is_for udp a (give t fd)) with (is_for udp a t) in *. rewrite Q1 in *. rewrite Q2 in *.
        destruct (is_usable udp a fd) eqn:Qu.
        * apply is_usable_iff in Qu. destruct Us as (N1 & I1 & T1), Qu as (N2 & _ & T2). rewrite N1 in N2. injection N2 as N2. assert (Td : d_udp t = udp) by (destruct (d_udp t), udp; congruence).
          assert (is_for udp a t = true). { unfold is_for. rewrite Td, Bool.eqb_reflx. apply anysin_same_iff. rewrite N2 in I1. rewrite N2. auto. } rewrite H in *. cbn [length]. fold (count (is_usable udp a) fds) in *. unfold count in *. lia.
        * assert (is_for udp a t = false). { apply Bool.not_true_iff_false. intros Y. unfold is_for in Y. apply Bool.andb_true_iff in Y. destruct Y as (Y1 & Y2). apply Bool.eqb_prop in Y1. apply anysin_same_iff in Y2. destruct Y2 as (_ & Y2). subst udp a. apply is_usable_iff in Us. congruence. }
          rewrite H in *. fold (count (is_usable udp a) fds). lia.
      + split; [exact K1|]. rewrite K2. destruct (is_usable udp a fd) eqn:Qu; [|reflexivity]. cbn [length]. fold (count (is_usable udp a) fds). apply is_usable_iff in Qu.
        assert (Z : count (fun t => is_for udp a t && negb (has_sock t)) t1 = 0).
        { unfold count. destruct (filter _ t1) as [|t rest] eqn:Ef; [reflexivity|]. exfalso. assert (It : In t (filter (fun t => is_for udp a t && negb (has_sock t)) t1)) by (rewrite Ef; now left). apply filter_In in It. destruct It as (It & Y). apply Bool.andb_true_iff in Y. destruct Y as (Y1 & Y2).
          unfold is_for in Y1. apply Bool.andb_true_iff in Y1. destruct Y1 as (Y1 & Y3). apply Bool.eqb_prop in Y1. apply anysin_same_iff in Y3. destruct Y3 as (Y4 & Y5). apply (Hc t udp a It Qu). split; [unfold has_sock in Y2; destruct (d_sock t); [discriminate|reflexivity]|]. subst. auto. }
        lia.
      + split; [exact K1|]. rewrite K2. destruct (is_usable udp a fd) eqn:Qu; [|reflexivity]. apply is_usable_iff in Qu. exfalso. apply (Hl _ _ Qu).
  Qed.
End Import.
