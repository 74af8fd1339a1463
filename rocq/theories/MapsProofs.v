(** Reloads and readers of a map: the invariant. *)
From Verif Require Import Base MapsModel MapsSpec.
Set Implicit Arguments.

Lemma nth_app1 {A} (l r : list A) i x : nth_error l i = Some x -> nth_error (l ++ r) i = Some x.
Proof. intros E. rewrite nth_error_app1; [exact E|]. apply nth_error_Some. congruence. Qed.
Lemma nth_snoc {A} (l : list A) x : nth_error (l ++ [x]) (length l) = Some x.
Proof. rewrite nth_error_app2 by lia. now rewrite Nat.sub_diag. Qed.
Lemma nth_snoc' {A} (l r : list A) x : nth_error (l ++ x :: r) (length l) = Some x.
Proof. rewrite nth_error_app2 by lia. now rewrite Nat.sub_diag. Qed.
Lemma live_eq {A} (l : list (option A)) p x : nth_error l p = Some (Some x) -> live l p = Ok x.
Proof. unfold live. now intros ->. Qed.

Section Proofs.
  Variables Net Client : Type.
  Variable choose : forall D : Type, option (list (Net * D)) -> list (Net * D) -> Client -> option D.
  Hypothesis nat_choose : by_network choose.
  Variable default : dclist.

  Definition cont (st : list (option dclist)) (p : nat) (c : dclist) : Prop := nth_error st p = Some (Some c).
  Definition entry_ok (L : list nat) st (x : Net * nat) (y : Net * dclist) : Prop := fst x = fst y /\ exists p, nth_error L (snd x) = Some p /\ cont st p (snd y).
  Definition nl_ok L st nl f := Forall2 (entry_ok L st) nl f.
  Definition geo_ok L st g gf : Prop := match g, gf with Some a, Some b => nl_ok L st a b | None, None => True | _, _ => False end.
  Definition tree_ok L st (d : data Net) (o : tree Net) : Prop :=
    exists gf nf, nth_error (pubs d) (v_no o) = Some (gf, nf) /\ geo_ok L st (t_geo o) gf /\ nl_ok L st (t_nets o) nf.
  Definition has_default L st : Prop := exists p, nth_error L 0 = Some p /\ cont st p default.

  Lemma entry_mono L t st st' x y : (forall p c, cont st p c -> cont st' p c) -> entry_ok L st x y -> entry_ok (L ++ t) st' x y.
  Proof. intros H (E & p & A & B). split; [exact E|]. exists p. split; [now apply nth_app1|auto]. Qed.
  Lemma nl_mono L t st st' nl f : (forall p c, cont st p c -> cont st' p c) -> nl_ok L st nl f -> nl_ok (L ++ t) st' nl f.
  Proof. intros H F. induction F; constructor; auto. now apply entry_mono with st. Qed.
  Lemma geo_mono L t st st' g f : (forall p c, cont st p c -> cont st' p c) -> geo_ok L st g f -> geo_ok (L ++ t) st' g f.
  Proof. intros H. destruct g, f; cbn; auto. now apply nl_mono. Qed.

  (** a list of labelled networks whose labels are all good *)
  Lemma sublabels (P : nat -> Prop) (l : list (Net * nat)) : Forall (fun x => P (snd x)) l -> exists l' : list (Net * {i | P i}), relabel (@proj1_sig nat P) l' = l.
  Proof.
    induction 1 as [|[n i] l H F (l' & E)]; [now exists []|]. exists ((n, exist _ i H) :: l'). unfold relabel in *. cbn [map fst snd proj1_sig]. now rewrite E.
  Qed.
  Lemma labels_good L st nl f : nl_ok L st nl f -> Forall (fun x => exists p c, nth_error L (snd x) = Some p /\ cont st p c) nl.
  Proof. induction 1 as [|x y l l' (E & p & A & B) F IH]; constructor; eauto. Qed.
  Lemma relabel_nl L st nl f (g : nat -> dclist) :
    (forall i p c, nth_error L i = Some p -> cont st p c -> g i = c) -> nl_ok L st nl f -> relabel g nl = f.
  Proof.
    intros H F. induction F as [|x [n y] l l' (E & p & A & B) F IH]; [reflexivity|]. unfold relabel in *. cbn [map fst snd] in *. rewrite IH. f_equal. rewrite E. f_equal. eauto.
  Qed.

  Lemma lookup_ok L st d o c : tree_ok L st d o -> has_default L st ->
    exists p v, nth_error (pubs d) (v_no o) = Some v /\ nth_error L (lookup choose o c) = Some p /\ cont st p (says choose default v c).
  Proof.
    intros (gf & nf & EP & HG & HN) (p0 & E0 & C0).
    pose (g := fun i => match nth_error L i with Some p => match nth_error st p with Some (Some c) => c | _ => [] end | None => [] end).
    assert (GS : forall i p c, nth_error L i = Some p -> cont st p c -> g i = c) by (intros i p x A B; unfold g; rewrite A; unfold cont in B; now rewrite B).
    pose (P := fun i => exists p c, nth_error L i = Some p /\ cont st p c).
    destruct (sublabels P (labels_good HN)) as (n' & EN).
    assert (EG : exists g', option_map (relabel (@proj1_sig nat P)) g' = t_geo o).
    { destruct (t_geo o) as [tg|], gf as [gf|]; try contradiction; [|now exists None]. destruct (sublabels P (labels_good HG)) as (g' & E). exists (Some g'). cbn. now rewrite E. }
    destruct EG as (g' & EG).
    assert (EF : option_map (relabel g) (t_geo o) = gf).
    { destruct (t_geo o) as [tg|], gf as [gf|]; try contradiction; [|reflexivity]. cbn. f_equal. apply (relabel_nl g GS HG). }
    pose proof (relabel_nl g GS HN) as ENF.
    pose proof (nat_choose g (t_geo o) (t_nets o) c) as N1. rewrite EF, ENF in N1.
    pose proof (nat_choose (@proj1_sig nat P) g' n' c) as N2. rewrite EG, EN in N2.
    unfold lookup, says. cbn [fst snd]. destruct (choose g' n' c) as [[i (p & x & A & B)]|]; cbn in N2; rewrite N2 in N1 |- *; cbn in N1.
    - exists p, (gf, nf). split; [exact EP|]. split; [exact A|]. cbn [fst snd]. rewrite N1, (GS _ _ _ A B). exact B.
    - exists p0, (gf, nf). split; [exact EP|]. split; [exact E0|]. cbn [fst snd]. rewrite N1. exact C0.
  Qed.

  (** Loading a file adds strings behind those there are. *)
  Lemma find_list_ok (hp : heap Net) l : Forall (fun p => exists c, cont (strings hp) p c) l -> forall i new,
    exists r, find_list hp l i new = Ok r /\ match r with Some j => i <= j /\ exists p, nth_error l (j - i) = Some p /\ cont (strings hp) p new | None => True end.
  Proof.
    induction 1 as [|p l (c & E) F IH]; intros i new; cbn [find_list]; [now exists None|].
    rewrite (live_eq _ _ E). cbn [rbind]. destruct (list_eq_dec _ c new) as [->|NE].
    - exists (Some i). split; [reflexivity|]. split; [lia|]. exists p. now rewrite Nat.sub_diag.
    - destruct (IH (S i) new) as (r & -> & H). exists r. split; [reflexivity|]. destruct r as [j|]; [|exact H]. destruct H as (LE & q & A & B). split; [lia|]. exists q. replace (j - i) with (S (j - S i)) by lia. now split.
  Qed.
  Lemma cont_app st t p c : cont st p c -> cont (st ++ t) p c.
  Proof. apply nth_app1. Qed.
  Lemma live_app (st t : list (option dclist)) l : Forall (fun p => exists c, cont st p c) l -> Forall (fun p => exists c, cont (st ++ t) p c) l.
  Proof. intros F. eapply Forall_impl; [|exact F]. intros p (c & E). exists c. now apply cont_app. Qed.

  Lemma load_file_ok f : forall (hp : heap Net) dl, Forall (fun p => exists c, cont (strings hp) p c) (d_list dl) ->
    exists nl news, load_file hp dl f = Ok (nl, {| strings := strings hp ++ map Some news; arrays := arrays hp; trees := trees hp |},
       {| d_list := d_list dl ++ seq (length (strings hp)) (length news); d_old := d_old dl |}) /\
      nl_ok (d_list dl ++ seq (length (strings hp)) (length news)) (strings hp ++ map Some news) nl f.
  Proof.
    induction f as [|[n l] f IH]; intros hp dl F; cbn [load_file].
    - exists [], []. cbn. rewrite !app_nil_r. destruct hp, dl. split; [reflexivity|constructor].
    - unfold find_or_add. destruct (find_list_ok _ F 0 l) as (r & -> & H). cbn [rbind]. destruct r as [j|].
      + cbn [rbind]. destruct H as (_ & p & A & B). rewrite Nat.sub_0_r in A. destruct (IH hp dl F) as (nl & news & E & O). rewrite E. cbn [rbind]. exists ((n, j) :: nl), news. split; [reflexivity|]. constructor; [|exact O]. split; [reflexivity|]. exists p. split; [now apply nth_app1|now apply cont_app].
      + cbn [rbind].
        set (hp' := {| strings := strings hp ++ [Some l]; arrays := arrays hp; trees := trees hp |}).
        set (dl' := {| d_list := d_list dl ++ [length (strings hp)]; d_old := d_old dl |}).
        assert (F' : Forall (fun p => exists c, cont (strings hp') p c) (d_list dl')).
        { unfold hp', dl'. cbn [strings d_list]. apply Forall_app. split; [now apply live_app|]. constructor; [|constructor]. exists l. apply nth_snoc. }
        destruct (IH hp' dl' F') as (nl & news & E & O). rewrite E. cbn [rbind]. unfold hp', dl' in E, O |- *. cbn [strings d_list d_old arrays trees] in E, O |- *.
        exists ((n, length (d_list dl)) :: nl), (l :: news).
        assert (E1 : (strings hp ++ [Some l]) ++ map Some news = strings hp ++ map Some (l :: news)) by now rewrite <- app_assoc.
        assert (E2 : (d_list dl ++ [length (strings hp)]) ++ seq (length (strings hp ++ [Some l])) (length news) = d_list dl ++ seq (length (strings hp)) (length (l :: news))).
        { rewrite <- app_assoc. rewrite app_length. cbn [length seq app]. now rewrite Nat.add_1_r. }
        rewrite E1, E2 in O. rewrite E1, E2. split; [reflexivity|]. constructor; [|exact O]. split; [reflexivity|]. exists (length (strings hp)). cbn [snd].
        split; [cbn [length seq]; apply nth_snoc' |cbn [map]; apply nth_snoc'].
  Qed.
End Proofs.
