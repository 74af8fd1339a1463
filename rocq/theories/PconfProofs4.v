(** simplefo *)
From Coq Require Import String Permutation ZArith.
From Verif Require Import Base CompModel CompProofs VscfModel VscfSpec OptModel VhashModel VhashSpec PlugModel PlugSpec PconfModel PconfSpec PconfProofs2 PconfProofs3.
Local Open Scope nat_scope.
Local Open Scope list_scope.
Local Notation length := List.length.
Ltac Zify.zify_post_hook ::= idtac.

Lemma bequeath_one k t : snd (bequeath k t) = snd (bequeath_all [k] t).
Proof. unfold bequeath_all. destruct (bequeath k t) as (b, t'). reflexivity. Qed.
Lemma unmarked_length D t : marked_by D t -> length (unmarked t) = length (filter (fun e => negb (among D (key e))) t).
Proof. intros M. rewrite (unmarked_by D t M). apply map_length. Qed.
Lemma dyn_addr_max_gives {B} service s0 v4 v6 (b : B) (ok : bool) (R : state -> unit -> B -> Prop) :
  ok = negb ((360 <? v4)%N || (360 <? v6)%N) ->
  (forall s, later s0 s -> (v4 <= lim4 s)%N -> (v6 <= lim6 s)%N -> R s tt b) -> gives service s0 (dyn_addr_max v4 v6) (obind (need ok) (fun _ => Some b)) R.
Proof.
  intros -> H s L S. unfold dyn_addr_max. destruct ((360 <? v4)%N || (360 <? v6)%N) eqn:E; [reflexivity|]. exists b. split; [reflexivity|].
  set (s' := State _ _ _). assert (LS : later s s'). { split; [exists []; cbn; now rewrite app_nil_r|]. cbn. destruct (N.ltb_spec (lim4 s) v4), (N.ltb_spec (lim6 s) v6); split; lia. }
  split; [apply H; [eapply later_trans; eauto|cbn; destruct (N.ltb_spec (lim4 s) v4); lia|cbn; destruct (N.ltb_spec (lim6 s) v6); lia]|]. split; [exact LS|exact S].
Qed.
Lemma maybe_mono {A B} (R R' : A -> B -> Prop) a b : (forall x y, R x y -> R' x y) -> maybe R a b -> maybe R' a b.
Proof. intros H. destruct a, b; cbn; auto. Qed.
Lemma s_made_later s s' w p : later s s' -> s_made s w p -> s_made s' w p.
Proof. intros L (A & B & C & D). split; [exact A|]. split; [exact B|]. split; eapply all_monitors_later; eauto. Qed.

(** The resources of a plugin, and how many *)
Lemma resources_of ks h : NoDup ks -> distinct (VH h) -> exists t, bequeath_all ks (ftab h) = (length (filter (fun k => some (value k (ftab h))) ks), t) /\
  length (ftab h) - length (filter (fun k => some (value k (ftab h))) ks) = length (others ks h) /\ length (unmarked t) = length (others ks h) /\
  Forall2 (fun p e => fst e = fst p /\ rel1 ks (ftab h) (snd p) (snd e)) (others ks h) (unmarked t) /\ Forall2 (erel ks (ftab h)) (ftab h) t.
Proof.
  intros NK D. destruct (ftab_ok h D) as ((N & M) & I). destruct (bequeath_all_spec ks (ftab h) NK (conj N M) I) as (t & -> & E). exists t. split; [reflexivity|].
  pose proof (evolved_others _ _ _ _ E) as F. split; [|split; [|split; [exact F|exact E]]].
  - pose proof (count_params ks (ftab h) NK N) as C. assert (L : length (filter (fun e => negb (among ks (key e))) (ftab h)) = length (others ks h)). { rewrite <- (map_length (fun e => (key e, snd e))), others_ftab. apply map_length. } lia.
  - symmetry. clear -F. induction F; [reflexivity|]. cbn. now f_equal.
Qed.
Lemma others_distinct ks h : distinct (VH h) -> Forall (fun e => distinct (snd e)) (others ks h).
Proof. intros D. inversion D as [| |? _ F]; subst. unfold others. apply Forall_forall. intros e I. apply filter_In in I as (I & _). rewrite Forall_forall in F. now apply F. Qed.
Lemma Forall2_and_l {A B} (P : A -> Prop) (R : A -> B -> Prop) l l' : Forall P l -> Forall2 R l l' -> Forall2 (fun b a => P a /\ R a b) l' l.
Proof. intros F H. induction H; [constructor|]. inversion F; subst. constructor; auto. Qed.

Section Simplefo.
  Variable gai : bytes -> option addr.
  Variable service : bytes -> option (bool * bool).
  Notation gives := (gives service).

  Definition fam_ok (want : option bool) (a : addr) : bool := match want with None => true | Some v6 => Bool.eqb v6 (is6 a) end.
  Definition s_mid (want : option bool) (h : hash) (outer : list hash) : option (s_want * bool) :=
    let? svcs <- services (setting k_types (h :: outer)) ;
    let? p <- (let? a <- obind (get (txt "primary") h) (address gai) ; let? _ <- need (fam_ok want a) ; let? _ <- watched service svcs (OnAddr a) ; Some a) ;
    let? s <- (let? a <- obind (get (txt "secondary") h) (address gai) ; let? _ <- need (fam_ok want a) ; let? _ <- watched service svcs (OnAddr a) ; Some a) ;
    let w := {| sw_svcs := svcs; sw_pri := p; sw_sec := s |} in
    match want with
    | None => let? _ <- need (Bool.eqb (is6 p) (is6 s)) ; Some (w, is6 p)
    | Some v6 => let? _ <- need (only_b s_keys h) ; Some (w, v6)
    end.
  Definition s_marks (t : tab) : tab := mark (txt "secondary") (mark (txt "primary") (mark k_types t)).

  Lemma s_stanza_gives s0 want t h outer :
    as_said k_types (h :: outer) (value k_types t) ->
    (forall k, k <> k_types -> oerase (value k t) = oerase (option_map fresh (get k h))) ->
    (want <> None -> match unmarked (s_marks t) with [] => true | _ => false end = only_b s_keys h) ->
    gives s0 (s_stanza gai service want t) (s_mid want h outer) (fun s x w => s_made s (fst w) (fst (fst x)) /\ snd (fst x) = snd w /\ snd x = s_marks t /\ (want = None -> snd w = is6 (sw_pri (fst w)))).
  Proof.
    intros A V U. unfold s_stanza, s_mid. eapply gives_bind; [now apply svcs_give|]. intros s1 svcs ? L1 <-. cbn zeta.
    assert (One : forall k t' s0, value k t' = value k t -> k <> k_types -> gives s0
      (let* a <- match value k t' with Some x => read_addr gai x | None => fatal end ;
       let* _ <- check (match want with None => true | Some v6 => Bool.eqb v6 (a_is6 a) end) ;
       let* idx <- mapm (mon_thing service (OnAddr a)) svcs ; ret (a, idx))
      (let? a <- obind (get k h) (address gai) ; let? _ <- need (fam_ok want a) ; let? _ <- watched service svcs (OnAddr a) ; Some a)
      (fun s x a => fst x = a /\ Forall2 (monitors s (OnAddr a)) svcs (snd x))).
    { intros k t' s00 E NK. eapply gives_bind; [apply oaddr_gives; rewrite E; now apply V|]. intros s2 a ? L2 <-. apply (gives_check service s2 (fam_ok want a)). intros _.
      eapply gives_bind; [apply mons_give|]. intros s3 idx [] L3 M. apply gives_ret. intros s4 L4. cbn. split; [reflexivity|]. eapply all_monitors_later; eauto. }
    eapply gives_bind; [apply One; [apply value_mark|discriminate]|]. intros s2 (pa, pi) ? L2 (<- & MP). cbn [fst snd] in MP |- *.
    eapply gives_bind; [apply One; [rewrite !value_mark; reflexivity|discriminate]|]. intros s3 (sa, si) ? L3 (<- & MS). cbn [fst snd] in MS |- *. clear One.
    assert (F : forall s, later s3 s -> s_made s {| sw_svcs := svcs; sw_pri := pa; sw_sec := sa |} {| sp_pri := pa; sp_sec := sa; sp_pidx := pi; sp_sidx := si |}).
    { intros s L. split; [reflexivity|]. split; [reflexivity|]. cbn. split; [eapply all_monitors_later; [|exact MP]; eapply later_trans; eauto|eapply all_monitors_later; eauto]. }
    destruct want as [v6|].
    - apply gives_eq with (o := obind (need (match unmarked (s_marks t) with [] => true | _ => false end)) (fun _ => Some ({| sw_svcs := svcs; sw_pri := pa; sw_sec := sa |}, v6))). { rewrite U by discriminate. reflexivity. }
      apply (gives_check service s3). intros _. apply gives_ret. intros s L. cbn. split; [auto|]. split; [reflexivity|]. split; [reflexivity|]. first [discriminate|reflexivity].
    - apply (gives_check service s3 (Bool.eqb (is6 pa) (is6 sa))). intros _. apply gives_ret. intros s L. cbn. split; [auto|]. split; [reflexivity|]. split; [reflexivity|]. first [discriminate|reflexivity].
  Qed.

  Lemma s_mid_family v6 h outer : obind (s_mid (Some v6) h outer) (fun w => Some (Some (fst w))) = s_family_says gai service v6 (Some (VH h)) outer.
  Proof.
    unfold s_mid, s_family_says, s_pair_says. destruct (services _) as [svcs|]; [cbn [obind]|reflexivity].
    destruct (obind (get (txt "primary") h) (address gai)) as [p|]; [cbn [obind]|reflexivity].
    destruct (obind (get (txt "secondary") h) (address gai)) as [s|]; cbn [obind].
    - cbn [fam_ok]. destruct (watched service svcs (OnAddr p)); cbn [obind]; [|destruct (need (Bool.eqb v6 (is6 p))); reflexivity].
      destruct (watched service svcs (OnAddr s)); cbn [obind sw_pri sw_sec].
      + destruct (Bool.eqb v6 (is6 p)), (Bool.eqb v6 (is6 s)), (only_b s_keys h); reflexivity.
      + destruct (Bool.eqb v6 (is6 p)), (Bool.eqb v6 (is6 s)); reflexivity.
    - destruct (watched service svcs (OnAddr p)), (need (fam_ok (Some v6) p)); reflexivity.
  Qed.
  Lemma s_mid_direct h outer (f : s_want -> bool -> option (option s_want * option s_want)) :
    (forall w, f w true = Some (if is6 (sw_pri w) then (None, Some w) else (Some w, None))) -> (forall w, f w false = None) ->
    obind (s_mid None h outer) (fun w => f (fst w) (only_b s_keys h)) =
    (let? w <- s_pair_says gai service h outer ; let? _ <- need (Bool.eqb (is6 (sw_pri w)) (is6 (sw_sec w)) && only_b s_keys h) ; Some (if is6 (sw_pri w) then (None, Some w) else (Some w, None))).
  Proof.
    intros FT FF. unfold s_mid, s_pair_says. destruct (services _) as [svcs|]; [cbn [obind]|reflexivity].
    destruct (obind (get (txt "primary") h) (address gai)) as [p|]; [cbn [obind]|reflexivity].
    destruct (obind (get (txt "secondary") h) (address gai)) as [s|]; cbn [obind fam_ok need].
    - destruct (watched service svcs (OnAddr p)); cbn [obind]; [|reflexivity].
      destruct (watched service svcs (OnAddr s)); cbn [obind sw_pri sw_sec]; [|reflexivity].
      destruct (Bool.eqb (is6 p) (is6 s)); cbn [need obind andb fst]; [|reflexivity]. destruct (only_b s_keys h); cbn [need obind]; [now rewrite FT|now rewrite FF].
    - destruct (watched service svcs (OnAddr p)); reflexivity.
  Qed.

  Lemma s_family_gives s0 v6 o v outer P : match o with None => v = None | Some (TH x) => exists h, v = Some (VH h) /\ grown [k_types] P (ftab h) x | Some x => exists y, v = Some y /\ x = fresh y /\ (forall h, y <> VH h) end ->
    as_said k_types outer (value k_types P) ->
    gives s0 (s_family gai service v6 o) (s_family_says gai service v6 v outer) (fun s a b => maybe (s_made s) b a).
  Proof.
    intros H A. destruct o as [[r x|l|x]|].
    - destruct H as (y & -> & E & NH). destruct y; try discriminate. apply gives_fatal.
    - destruct H as (y & -> & E & NH). destruct y; try discriminate. apply gives_fatal.
    - destruct H as (h & -> & G). rewrite <- s_mid_family. cbn [s_family]. pose proof (grown_keys _ _ _ _ G) as (ek & K & I). pose proof (grown_marks _ _ _ _ (ftab_marks h) G) as (N & M). eapply gives_bind; [apply s_stanza_gives|].
      + eapply said_own; [|exact G|exact A]. cbn; auto.
      + intros k NK. rewrite (grown_other [k_types] _ _ _ k (fun H => match H with or_introl E => NK (eq_sym E) | or_intror F => F end) G), ftab_value. reflexivity.
      + intros _. erewrite unmarked_nil; [|do 3 apply marked_mark; exact M|unfold s_marks; rewrite !keys_mark; exact K|]. { unfold only_b. erewrite others_ext; [reflexivity|]. intros k. cbn. tauto. }
        intros k Ik. specialize (I k Ik). cbn in *. tauto.
      + intros s1 a b L1 (X & _). apply gives_ret. intros s L. cbn. eapply s_made_later; eauto.
    - subst v. apply gives_ret. intros; exact Logic.I.
  Qed.

  Lemma family_shape k v h x t : distinct (VH h) -> k <> k_types -> grown [k_types] v (ftab h) x -> Forall2 (erel [k_types] x) x t ->
    match value k t with None => get k h = None | Some (TH y) => exists g, get k h = Some (VH g) /\ grown [k_types] x (ftab g) y | Some y => exists z, get k h = Some z /\ y = fresh z /\ (forall g, z <> VH g) end.
  Proof.
    intros D NK G E. pose proof (evolved_get _ _ _ _ k E) as V. rewrite (grown_other [k_types] _ _ _ k (fun H => match H with or_introl E => NK (eq_sym E) | or_intror F => F end) G), ftab_value in V.
    destruct (get k h) as [[r s|l|g]|]; cbn in V.
    - rewrite V. eexists. split; [reflexivity|]. split; [reflexivity|discriminate].
    - rewrite V. eexists. split; [reflexivity|]. split; [reflexivity|discriminate].
    - destruct V as (x' & -> & G'). eauto.
    - now rewrite V.
  Qed.

  Definition fam2 (R : state -> s_want -> s_pair -> Prop) (s : state) (a : option s_pair * option s_pair) (b : option s_want * option s_want) : Prop :=
    maybe (R s) (fst b) (fst a) /\ maybe (R s) (snd b) (snd a).
  Lemma s_res_gives s0 plugin P k v x : distinct v -> rel1 [k_types] P v x -> as_said k_types [plugin] (value k_types P) ->
    gives s0 (s_config_res gai service (k, x)) (let? w <- s_res_says gai service plugin v ; Some (c_str k, w)) (fun s a b => families (s_made s) b a).
  Proof.
    intros D H A. destruct v as [r y|l|h]; [cbn in H; subst x; apply gives_fatal|cbn in H; subst x; apply gives_fatal|].
    destruct H as (x' & -> & G). unfold s_config_res. cbn [snd fst]. rewrite (surjective_pairing (bequeath k_types x')), bequeath_one.
    pose proof (grown_inner _ _ _ _ D G) as (TO & IO). destruct (bequeath_all_spec [k_types] x' ltac:(constructor; [intros []|constructor]) TO IO) as (t & -> & E). cbn [snd].
    pose proof (family_shape k_v4 P h x' t D ltac:(discriminate) G E) as S4. pose proof (family_shape k_v6 P h x' t D ltac:(discriminate) G E) as S6.
    assert (A' : as_said k_types [h; plugin] (value k_types x')) by (eapply said_own; [|exact G|exact A]; cbn; auto).
    pose proof (evolved_marks _ _ _ _ E) as M. pose proof (evolved_keys _ _ _ _ E) as K. destruct (grown_keys _ _ _ _ G) as (ek & KX & IE). rewrite KX in K.
    rewrite value_mark. cbn [s_res_says].
    assert (MID : gives s0
      (let* x <- match value k_v4 t, value k_v6 t with
                 | None, None => let* x <- s_stanza gai service None (mark k_v6 (mark k_v4 t)) ; let '(p, v6, t) := x in ret (if v6 then (None, Some p) else (Some p, None), t)
                 | _, _ => let* p4 <- s_family gai service false (value k_v4 t) ; let* p6 <- s_family gai service true (value k_v6 t) ; ret ((p4, p6), mark k_v6 (mark k_v4 t))
                 end ;
       let* _ <- check (match unmarked (snd x) with [] => true | _ => false end) ; ret (c_str k, fst x))
      (match get k_v4 h, get k_v6 h with
       | None, None => let? w <- s_mid None h [plugin] ; let? _ <- need (only_b s_keys h) ; Some (c_str k, if is6 (sw_pri (fst w)) then (None, Some (fst w)) else (Some (fst w), None))
       | c4, c6 => let? w4 <- s_family_says gai service false c4 [h; plugin] ; let? w6 <- s_family_says gai service true c6 [h; plugin] ;
                   let? _ <- need (only_b [k_v4; k_v6; k_types] h) ; Some (c_str k, (w4, w6))
       end) (fun s a b => families (s_made s) b a)).
    { assert (Both : (value k_v4 t = None /\ value k_v6 t = None /\ get k_v4 h = None /\ get k_v6 h = None) \/
        gives s0
        (let* x <- (let* p4 <- s_family gai service false (value k_v4 t) ; let* p6 <- s_family gai service true (value k_v6 t) ; ret ((p4, p6), mark k_v6 (mark k_v4 t))) ;
         let* _ <- check (match unmarked (snd x) with [] => true | _ => false end) ; ret (c_str k, fst x))
        (let? w4 <- s_family_says gai service false (get k_v4 h) [h; plugin] ; let? w6 <- s_family_says gai service true (get k_v6 h) [h; plugin] ;
         let? _ <- need (only_b [k_v4; k_v6; k_types] h) ; Some (c_str k, (w4, w6))) (fun s a b => families (s_made s) b a)).
      { right. apply gives_eq with (o := obind (let? w4 <- s_family_says gai service false (get k_v4 h) [h; plugin] ; let? w6 <- s_family_says gai service true (get k_v6 h) [h; plugin] ; Some (w4, w6))
          (fun w => let? _ <- need (only_b [k_v4; k_v6; k_types] h) ; Some (c_str k, w))).
        { destruct (s_family_says gai service false _ _); [cbn [obind]|reflexivity]. destruct (s_family_says gai service true _ _); reflexivity. }
        eapply gives_bind; [eapply gives_bind; [eapply s_family_gives; [exact S4|exact A']|]; intros s1 p4 w4 L1 R4; eapply gives_bind; [eapply s_family_gives; [exact S6|exact A']|]; intros s2 p6 w6 L2 R6; apply gives_ret;
          cbn beta in R4, R6; intros s3 L3; instantiate (1 := fun s a b => fam2 s_made s (fst a) b /\ snd a = mark k_v6 (mark k_v4 t)); cbn; split; [|reflexivity]; split; (eapply maybe_mono; [intros ? ? X; eapply s_made_later; [|exact X]|eassumption])|].
        - eapply later_trans; eauto.
        - exact L3.
        - intros s1 (pp, t') w L1 ((R4 & R6) & ET). cbn [fst snd] in *. subst t'.
          apply gives_eq with (o := obind (need (match unmarked (mark k_v6 (mark k_v4 t)) with [] => true | _ => false end)) (fun _ => Some (c_str k, w))).
          { erewrite unmarked_nil; [|do 2 apply marked_mark; exact M|rewrite !keys_mark; exact K|].
            - unfold only_b. erewrite others_ext; [reflexivity|]. intros k'. cbn. tauto.
            - intros k' I. specialize (IE k' I). cbn in *. tauto. }
          apply gives_check. intros _. apply gives_ret. intros s2 L2. split; [reflexivity|]. cbn. split; (eapply maybe_mono; [intros ? ? X; eapply s_made_later; [|exact X]; exact L2|eassumption]). }
      assert (E4 : value k_v4 t = None <-> get k_v4 h = None). { destruct (value k_v4 t) as [[| |]|], (get k_v4 h); try (destruct S4 as (? & S4 & _)); split; intros; congruence. }
      assert (E6 : value k_v6 t = None <-> get k_v6 h = None). { destruct (value k_v6 t) as [[| |]|], (get k_v6 h); try (destruct S6 as (? & S6 & _)); split; intros; congruence. }
      destruct (value k_v4 t) as [t4|] eqn:V4, (get k_v4 h) as [h4|] eqn:G4; try (discriminate (proj1 E4 eq_refl)); try (discriminate (proj2 E4 eq_refl)); [|destruct (value k_v6 t) as [t6|] eqn:V6, (get k_v6 h) as [h6|] eqn:G6; try (discriminate (proj1 E6 eq_refl)); try (discriminate (proj2 E6 eq_refl))].
      1, 2: (destruct Both as [(X & Y & _)|Both]; [discriminate|exact Both]).
      clear Both S4 S6 E4 E6.
      apply gives_eq with (o := obind (let? w <- s_mid None h [plugin] ; Some w) (fun w => let? _ <- need (only_b s_keys h) ; Some (c_str k, if is6 (sw_pri (fst w)) then (None, Some (fst w)) else (Some (fst w), None)))).
      { destruct (s_mid None h [plugin]); reflexivity. }
      eapply gives_bind; [eapply gives_bind; [apply s_stanza_gives with (h := h) (outer := [plugin])|]|].
      - rewrite !value_mark. unfold as_said. rewrite (evolved_value _ _ _ _ _ E). eapply said_own; [|exact G|exact A]. cbn; auto.
      - intros k' NK. rewrite !value_mark, (evolved_value _ _ _ _ _ E), (grown_other [k_types] _ _ _ k' (fun H => match H with or_introl E => NK (eq_sym E) | or_intror F => F end) G), ftab_value. reflexivity.
      - congruence.
      - intros s1 ((p, v6), t') (w, b) L1 (R & EV & ET & EB). cbn [fst snd] in *. apply gives_ret. intros s2 L2.
        instantiate (1 := fun s a b => snd a = s_marks (mark k_v6 (mark k_v4 t)) /\ exists p, s_made s (fst b) p /\ fst a = (if is6 (sw_pri (fst b)) then (None, Some p) else (Some p, None))). cbn. split; [exact ET|].
        exists p. subst v6. split; [eapply s_made_later; eauto|now rewrite EB].
      - intros s1 (pp, t') (w, b) L1 (ET & p & R & EP). cbn [fst snd] in *. subst t'.
        apply gives_eq with (o := obind (need (match unmarked (s_marks (mark k_v6 (mark k_v4 t))) with [] => true | _ => false end)) (fun _ => Some (c_str k, if is6 (sw_pri w) then (None, Some w) else (Some w, None)))).
        { erewrite unmarked_nil; [|unfold s_marks; do 5 apply marked_mark; exact M|unfold s_marks; rewrite !keys_mark; exact K|].
          - f_equal. unfold only_b. 
            erewrite (others_ext _ (k_v4 :: k_v6 :: s_keys)); [rewrite !others_cons_absent by assumption; reflexivity|]. intros k'. cbn. tauto.
          - intros k' I. specialize (IE k' I). cbn in *. tauto. }
        apply gives_check. intros _. apply gives_ret. intros s2 L2. split; [reflexivity|]. cbn [snd fst]. subst pp. destruct (is6 (sw_pri w)); cbn; (split; [try exact Logic.I|try exact Logic.I]); eapply s_made_later; eauto. }
    destruct (get k_v4 h) as [h4|] eqn:G4; [|destruct (get k_v6 h) as [h6|] eqn:G6].
    1, 2: (eapply gives_eq; [|exact MID]; destruct (only_b [k_v4; k_v6; k_types] h); cbn [need obind]; (destruct (s_family_says gai service false _ _); [cbn [obind]|reflexivity]); destruct (s_family_says gai service true _ _); reflexivity).
    eapply gives_eq; [|exact MID].
    rewrite <- (s_mid_direct h [plugin] (fun w b => if b then Some (if is6 (sw_pri w) then (None, Some w) else (Some w, None)) else None)) by reflexivity.
    destruct (s_mid None h [plugin]) as [w|]; [|reflexivity]. cbn [obind]. destruct (only_b s_keys h); reflexivity.
  Qed.

  Theorem simplefo_gives s0 h : distinct (VH h) ->
    gives s0 (simplefo_load gai service (Some (fresh (VH h)))) (simplefo_says gai service h)
      (fun s rs ws => Forall2 (families (s_made s)) ws rs /\ (rs <> [] -> 1 <= lim4 s /\ 1 <= lim6 s)%N).
  Proof.
    intros D. rewrite fresh_hash. cbn [simplefo_load]. destruct (resources_of [k_types] h ltac:(constructor; [intros []|constructor]) D) as (t & -> & L & LU & F & _). rewrite L. unfold simplefo_says.
    destruct (Nat.eqb_spec (length (others [k_types] h)) 0) as [Z|NZ].
    { destruct (others [k_types] h); [|discriminate]. apply gives_ret. intros s _. split; [constructor|congruence]. }
    apply gives_asserted; [now apply Nat.eqb_eq|].
    apply gives_eq with (o := obind (all (fun e => let? w <- s_res_says gai service h (snd e) ; Some (c_str (fst e), w)) (others [k_types] h)) (fun ws => obind (need true) (fun _ => Some ws))). { destruct (all _ _); reflexivity. }
    eapply gives_bind.
    - eapply (gives_mapm service _ _ _ (fun s a b => families (s_made s) b a)).
      + intros s s' a b LS (X & Y & Z). split; [exact X|]. split; (eapply maybe_mono; [intros ? ? W; eapply s_made_later; [exact LS|exact W]|assumption]).
      + eapply Forall2_and_l; [apply others_distinct; exact D|exact F].
      + cbn beta. intros s1 (k, x) (k', v) L1 (DV & K & R). cbn [fst snd] in *. subst k'. eapply s_res_gives; [exact DV|exact R|apply said_top].
    - cbn beta. intros s1 rs ws L1 R. apply gives_eq with (o := obind (obind (need true) (fun _ => Some tt)) (fun _ => Some ws)); [reflexivity|].
      eapply gives_bind; [apply (dyn_addr_max_gives service s1 1 1 tt true (fun s _ _ => 1 <= lim4 s /\ 1 <= lim6 s)%N); [reflexivity|auto]|].
      intros s2 [] [] L2 (A & B). apply gives_ret. intros s3 L3. split.
      + clear -R L2 L3. induction R as [|a b l l' (X & Y & Z) R IH]; constructor; [|exact IH]. split; [exact X|]. split; (eapply maybe_mono; [intros ? ? W; eapply s_made_later; [eapply later_trans; [exact L2|exact L3]|exact W]|assumption]).
      + intros _. destruct L3 as (_ & L4 & L6). lia.
  Qed.
End Simplefo.
