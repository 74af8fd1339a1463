(** All plugins *)
From Coq Require Import String ZArith Permutation.
From Verif Require Import Base DnameModel DnameSpec DnameProofs CompModel CompProofs RespModel MonModel VscfModel VscfSpec OptModel VhashModel VhashSpec VhashProofs2 PlugModel MsgModel LtreeModel PconfModel PconfSpec PconfProofs PconfProofs2 PconfProofs3 PconfProofs4 PconfProofs5 PconfProofs7 McfModel McfSpec McfProofs McfProofs2 McfProofs3 McfProofs5 PlcModel PlcSpec PlcProofs PlcProofs2 PlcProofs3 PlcProofs4.
Local Open Scope nat_scope.
Local Open Scope list_scope.
Local Notation length := List.length.
Ltac Zify.zify_post_hook ::= idtac.

(** ** Marks *)
Lemma value_names p (t : tab) : value p t <> None <-> In p (names t).
Proof.
  induction t as [|((a, m), x) t IH]; cbn; [intuition|]. destruct (same p a) as [->|N]; [split; [auto|discriminate]|]. rewrite IH. split; [auto|]. intros [->|I]; [congruence|exact I].
Qed.
Lemma mark_names n (t : tab) : names (mark n t) = names t.
Proof. unfold names, mark. rewrite map_map. apply map_ext. intros e. destruct (same n (fst (fst e))); reflexivity. Qed.
Lemma value_mark n p (t : tab) : value p (mark n t) = value p t.
Proof. induction t as [|((a, m), x) t IH]; [reflexivity|]. cbn. destruct (same n a); cbn; destruct (same p a); try reflexivity; exact IH. Qed.
Lemma mark_fst n (t : tab) a m : In (a, m) (map fst (mark n t)) -> exists m', In (a, m') (map fst t) /\ m = (m' || bytes_eqb a n).
Proof.
  unfold mark. rewrite map_map. intros I. apply in_map_iff in I as (e & E & I). destruct (same n (fst (fst e))) as [EN|NE]; cbn [fst] in E.
  - injection E as <- <-. exists (snd (fst e)). split; [apply in_map_iff; exists e; split; [now destruct (fst e)|exact I]|]. rewrite <- EN, eqb_refl', orb_true_r. reflexivity.
  - exists m. split; [apply in_map_iff; exists e; auto|]. rewrite eqb_false; [now rewrite orb_false_r|]. rewrite E in NE. cbn in NE. congruence.
Qed.
Lemma in_names a m (t : tab) : In (a, m) (map fst t) -> In a (names t).
Proof. intros I. apply in_map_iff in I as (e & E & I). unfold names. apply in_map_iff. exists e. split; [now rewrite E|exact I]. Qed.
Lemma mark_absent n (t : tab) : ~ In n (names t) -> mark n t = t.
Proof. intros NI. unfold mark. rewrite <- (map_id t) at 2. apply map_ext_in. intros e I. destruct (same n (fst (fst e))) as [E|]; [|reflexivity]. exfalso. apply NI. unfold names. apply in_map_iff. exists e. auto. Qed.
Lemma names_more n (t t' : tab) l : map fst t' = map fst (mark n t) ++ map (fun p => (p, false)) l -> names t' = names t ++ l.
Proof.
  assert (X : forall u : tab, names u = map fst (map fst u)) by (intros u; unfold names; now rewrite map_map). intros E. rewrite (X t'), E, map_app, <- (X (mark n t)), mark_names. f_equal. rewrite map_map. apply map_id.
Qed.
Lemma stage_marks (f : bytes -> bool) n (tops tops' : tab) : (forall a m, In (a, m) (map fst tops) -> m = f a) -> widened (mark n tops) tops' -> NoDup (names tops) ->
  (forall q, q = n \/ f q = true -> In q (names tops') -> In q (names tops)) -> forall a m, In (a, m) (map fst tops') -> m = f a || bytes_eqb a n.
Proof.
  intros H (l & E & _ & N & _) ND K a m I. rewrite E, in_app_iff in I. destruct I as [I|I].
  - apply mark_fst in I as (m' & I & ->). now rewrite (H _ _ I).
  - apply in_map_iff in I as (p & [= <- <-] & I). symmetry. apply not_true_is_false. intros T.
    assert (NT : NoDup (names tops')) by (apply N; now rewrite mark_names).
    pose proof (names_more _ _ _ _ E) as E'.
    assert (J : In p (names tops)). { apply K; [|rewrite E'; apply in_app_iff; auto]. apply orb_prop in T as [T|T]; [auto|left; now apply bytes_eqb_spec]. }
    rewrite E' in NT. clear -NT I J. induction (names tops) as [|x t IH]; [destruct J|]. cbn in NT. inversion NT as [|? ? NI NT']; subst. destruct J as [->|J]; [|now apply IH]. apply NI. apply in_app_iff. auto.
Qed.
(** What is not marked *)
Lemma value_unique (t : tab) n m x : NoDup (names t) -> In (n, m, x) t -> value n t = Some x.
Proof.
  induction t as [|((a, b), y) t IH]; [intros _ []|]. cbn. intros N I. inversion N as [|? ? NI N']; subst. destruct I as [[= -> -> ->]|I]; [destruct (same n n); [reflexivity|congruence]|]. destruct (same n a) as [->|_]; [|now apply IH]. exfalso. apply NI. unfold names. apply in_map_iff. exists (a, m, x). auto.
Qed.
Lemma unmarked_in (t : tab) n x : In (n, x) (unmarked t) <-> In (n, false, x) t.
Proof.
  unfold unmarked, entries. rewrite in_map_iff. split.
  - intros (((a, m), y) & [= -> ->] & I). apply filter_In in I as (I & B). cbn in B. destruct m; [discriminate|exact I].
  - intros I. exists (n, false, x). split; [reflexivity|]. apply filter_In. auto.
Qed.
Lemma unmarked_names (t : tab) : NoDup (names t) -> NoDup (map fst (unmarked t)).
Proof.
  unfold unmarked, entries. rewrite map_map. cbn. intros N. assert (X : NoDup (map (fun e : bytes * bool * tree => fst (fst e)) (filter (fun e => negb (true && snd (fst e))) t))) by now apply nodup_names_filter. exact X.
Qed.
Lemma left_over tops T : agree tops T -> NoDup (names tops) ->
  exists U, unmarked tops = map (fun u => (fst u, fresh (VH (snd u)))) U /\ NoDup (map fst U) /\ Forall (fun u => T (fst u) = Some (snd u)) U.
Proof.
  intros A N. assert (F : forall n x, In (n, x) (unmarked tops) -> exists h, T n = Some h /\ x = fresh (VH h)).
  { intros n x I. apply unmarked_in in I. pose proof (value_unique _ _ _ _ N I) as V. rewrite (A n) in V. destruct (T n) as [h|]; [|discriminate]. injection V as <-. eauto. }
  pose proof (unmarked_names tops N) as NU. assert (G : exists U, unmarked tops = map (fun u => (fst u, fresh (VH (snd u)))) U /\ Forall (fun u => T (fst u) = Some (snd u)) U).
  { clear NU. induction (unmarked tops) as [|(n, x) l IH]; [exists []; split; [reflexivity|constructor]|]. destruct IH as (U & E & FU); [intros; apply F; cbn; auto|]. destruct (F n x (or_introl eq_refl)) as (h & TH & ->). exists ((n, h) :: U). cbn. split; [now rewrite E|constructor; assumption]. }
  destruct G as (U & E & FU). exists U. split; [exact E|]. split; [|exact FU]. rewrite E, map_map in NU. exact NU.
Qed.

Section All.
  Variable gai : bytes -> option addr.
  Variable strtod : bytes -> option dbl.
  Variable service : bytes -> option (bool * bool).
  Variable fq_name : bytes -> option name.
  Hypothesis fq_name_is : forall t ls, all_bytes t -> (fq_name t = Some ls <-> name_text t ls true /\ legal_name ls).
  Variable junk : bytes.
  Hypothesis junk_len : length junk = 256.
  Variable gdmaps : tab -> option (list (bytes * list bytes)).
  Hypothesis gdmaps_some : forall t ms, gdmaps t = Some ms -> Forall (fun m => snd m <> []) ms.
  Variable types : list (bytes * plugin).
  Hypothesis types_fine : types_ok types.
  Local Notation gives := (gives service).
  Local Notation meta_step := (meta_step gai service fq_name gdmaps).

  (** What was made of geoip or metafo *)
  Definition first_made (k : kind) (s : state) (h : option hash) (o : option (list mc_want)) (l : list (bytes * piece)) : Prop :=
    match o with None => l = [] | Some ws => exists x, l = [(pn k, x)] /\ metas_made gdmaps k s h ws x end.
  Lemma first_later k s s' h o l : later s s' -> first_made k s h o l -> first_made k s' h o l.
  Proof. intros L. destruct o as [ws|]; [|auto]. intros (x & E & M). exists x. split; [exact E|eapply metas_later; eauto]. Qed.
  Lemma first_gives s0 k tops T : agree tops T -> all_whole strtod T -> open_confs T -> (forall h, T (pn k) = Some h -> all_steady h) ->
    gives s0 (first_of gai strtod service junk gdmaps (pn k) tops) (meta_step k T)
      (fun s y z => (agree (snd y) (snd z) /\ first_made k s (T (pn k)) (fst z) (fst y)) /\ widened (mark (pn k) tops) (snd y)).
  Proof.
    intros A W O ST. unfold first_of, PlcSpec.meta_step. rewrite (A (pn k)). destruct (T (pn k)) as [h|] eqn:TP; cbn [option_map].
    - assert (EC : forall t x, configure gai strtod service junk gdmaps (pn k) (TH t) x = (let* y <- (let* z <- meta_load gai service junk k gdmaps (Some (TH t)) x ; ret (PMeta (fst z), snd z)) ; ret (Some (pn k, fst y), snd y))) by (intros t x; destruct k; reflexivity).
      change (fresh (VH h)) with (TH (ftab h)). rewrite EC.
      apply gives_ext with (m' := let* z <- meta_load gai service junk k gdmaps (Some (fresh (VH h))) (mark (pn k) tops) ; ret ([(pn k, PMeta (fst z))], snd z)).
      { intros s. rewrite bind_assoc. unfold bind. change (fresh (VH h)) with (TH (ftab h)). destruct (meta_load gai service junk k gdmaps (Some (TH (ftab h))) (mark (pn k) tops) s) as [[(z, s1)|]|]; reflexivity. }
      pose proof (W _ _ TP) as WH. eapply gives_bind.
      + apply gives_run with (Q := fun y => widened (mark (pn k) tops) (snd y)).
        * apply meta_gives; [exact fq_name_is|exact junk_len|exact gdmaps_some|now apply whole_distinct with strtod|now apply whole_bytes with strtod|now apply whole_plain with strtod|now apply whole_safe with strtod|now apply ST| |exact O]. intros p. rewrite value_mark. apply A.
        * intros s y s' E. eapply meta_widens; exact E.
      + cbv beta. intros s1 y z L1 ((states & (maps & EM & SM) & M & N & A') & WD). apply gives_ret. intros s2 L2. cbn [fst snd]. split; [|exact WD]. split; [exact A'|]. eapply first_later; [exact L2|]. exists (PMeta (fst y)). split; [reflexivity|]. exists (fst y), states. split; [reflexivity|]. split; [exists h, maps; auto|]. split; [exact M|exact N].
    - apply gives_ret. intros s L. cbn [fst snd]. split; [split; [exact A|reflexivity]|]. rewrite mark_absent; [apply widened_refl|]. rewrite <- value_names, (A (pn k)), TP. cbn. tauto.
  Qed.

  (** Facts about a step of the meaning *)
  Lemma step_whole k T z : all_whole strtod T -> meta_step k T = Some z -> all_whole strtod (snd z).
  Proof.
    intros W. unfold PlcSpec.meta_step. destruct (T (pn k)) as [h|] eqn:TP; [|intros [= <-]; exact W]. destruct (meta_says gai service fq_name k gdmaps h T) as [y|] eqn:E; [|discriminate]. cbn [obind]. intros [= <-]. cbn [snd]. eapply meta_whole; [|exact W|exact E]. now apply (W (pn k)).
  Qed.
  Lemma step_grown k T z : meta_step k T = Some z -> grown T (news k (fst z)) (snd z).
  Proof.
    unfold PlcSpec.meta_step. destruct (T (pn k)) as [h|] eqn:TP; [|intros [= <-]; apply grown_refl]. destruct (meta_says gai service fq_name k gdmaps h T) as [y|] eqn:E; [|discriminate]. cbn [obind]. intros [= <-]. cbn [fst snd news]. destruct y as (ws, T'). apply meta_facts in E as (G & _); [exact G|exact gdmaps_some].
  Qed.
  Lemma step_foreign k T z p n data : all_whole strtod T -> meta_step k T = Some z -> In (p, n, data) (news k (fst z)) -> foreign k p.
  Proof.
    intros W. unfold PlcSpec.meta_step. destruct (T (pn k)) as [h|] eqn:TP; [|intros [= <-] []]. destruct (meta_says gai service fq_name k gdmaps h T) as [y|] eqn:E; [|discriminate]. cbn [obind]. intros [= <-]. cbn [fst news]. eapply meta_foreign; [|exact E]. now apply (W (pn k)).
  Qed.
  Lemma step_own k T z q : all_whole strtod T -> meta_step k T = Some z -> q = pn k \/ q = pn Geoip -> snd z q = T q.
  Proof. intros W E Q. apply (gr_none _ _ _ (step_grown _ _ _ E)). intros n data I. destruct (step_foreign _ _ _ _ _ _ W E I) as (N1 & N2 & _). destruct Q; congruence. Qed.
  (** A configuration that is there stays *)
  Lemma at_some T p n x : get n (at_plugin T p) = Some x -> T p <> None.
  Proof. unfold at_plugin. destruct (T p); [discriminate|]. intros E. exfalso. destruct (bytes_eqb p t_metafo); cbn in E; discriminate. Qed.
  Lemma add_keeps k rname n w T T' p : add_new k rname n w T = Some T' -> T p <> None -> T' p <> None.
  Proof.
    unfold add_new. destruct w as [c svcs|q rn|q data]; [intros [= <-]; auto|intros [= <-]; auto|]. assert (X : forall h, T p <> None -> with_conf q h T p <> None) by (intros h H; unfold with_conf; destruct (bytes_eqb p q); [discriminate|exact H]).
    destruct (bytes_eqb q t_metafo); destruct (added _ data _); try discriminate; cbn [obind]; intros [= <-]; apply X.
  Qed.
  Lemma dcs_keep k rname centers shared p : forall es T y, dcs_say gai service fq_name k rname centers shared es T = Some y -> T p <> None -> snd y p <> None.
  Proof.
    induction es as [|e es IH]; intros T y; cbn [dcs_say]; [intros [= <-]; auto|].
    destruct (need (among centers (c_str (fst e)))); [|discriminate]. cbn [obind]. destruct (dc_says gai service fq_name k rname shared (snd e)) as [w|]; [|discriminate]. cbn [obind].
    destruct (add_new k rname (c_str (fst e)) w T) as [T1|] eqn:E2; [|discriminate]. cbn [obind]. destruct (dcs_say gai service fq_name k rname centers shared es T1) as [y1|] eqn:E3; [|discriminate]. cbn [obind]. intros [= <-] H. cbn [snd]. eapply IH; [exact E3|]. eapply add_keeps; eauto.
  Qed.
  Lemma ress_keep k undef maps outer p : forall es T y, ress_say gai service fq_name k undef maps outer es T = Some y -> T p <> None -> snd y p <> None.
  Proof.
    induction es as [|e es IH]; intros T y; cbn [ress_say]; [intros [= <-]; auto|].
    destruct (res_says gai service fq_name k undef maps outer e T) as [x|] eqn:E1; [|discriminate]. cbn [obind]. destruct (ress_say gai service fq_name k undef maps outer es (snd x)) as [y1|] eqn:E2; [|discriminate]. cbn [obind]. intros [= <-] H. cbn [snd]. eapply IH; [exact E2|].
    revert E1. unfold res_says. destruct (snd e) as [| |r]; try discriminate. cbv zeta. intros E1. ob E1. ob E1. ob E1. ob E1. ob E1. injection E1 as <-. cbn [snd]. eapply dcs_keep; eauto.
  Qed.
  Lemma step_keeps k T z p : meta_step k T = Some z -> T p <> None -> snd z p <> None.
  Proof.
    unfold PlcSpec.meta_step. destruct (T (pn k)) as [h|] eqn:TP; [|intros [= <-]; auto]. destruct (meta_says gai service fq_name k gdmaps h T) as [y|] eqn:E; [|discriminate]. cbn [obind]. intros [= <-]. cbn [snd]. unfold meta_says in E. ob E. ob E. ob E. ob E. eapply ress_keep; exact E.
  Qed.
  Lemma step_keys k T z p : meta_step k T = Some z -> (snd z p <> None <-> T p <> None \/ In p (map (fun x => fst (fst x)) (news k (fst z)))).
  Proof.
    intros E. pose proof (step_grown _ _ _ E) as G. destruct (in_dec (list_eq_dec N.eq_dec) p (map (fun x => fst (fst x)) (news k (fst z)))) as [I|NI].
    - split; [auto|]. intros _. apply in_map_iff in I as (((q, n), data) & EQ & I). cbn in EQ. subst q. destruct (gr_new _ _ _ G _ _ _ I) as (_ & X). eapply at_some; exact X.
    - rewrite (gr_none _ _ _ G p); [tauto|]. intros n data I. apply NI. apply in_map_iff. exists (p, n, data). auto.
  Qed.

  Lemma stanza_agree P : tidy strtod P -> agree (ftab P) (stanza P).
  Proof.
    intros TD p. rewrite <- (mtab_nil P), value_mtab. unfold stanza. destruct (get p P) as [x|] eqn:E; [|reflexivity]. destruct (td_hashes _ _ TD p x (get_some_in _ _ _ E)) as (h & ->). reflexivity.
  Qed.
  Lemma stanza_whole P : tidy strtod P -> all_whole strtod (stanza P).
  Proof.
    intros TD p h. unfold stanza. destruct (get p P) as [[| |y]|] eqn:E; try discriminate. intros [= <-]. apply get_some_in in E.
    pose proof (td_distinct _ _ TD) as D. pose proof (td_bytes _ _ TD) as R. pose proof (td_plain _ _ TD) as PL. pose proof (td_nan _ _ TD) as NN. pose proof (td_labels _ _ TD) as LA. pose proof (td_safe _ _ TD) as SA.
    inversion D as [| |? _ FD]; subst. inversion R as [| |? FR]; subst. inversion PL as [| |? FP]; subst. inversion NN as [| |? FN]; subst. inversion LA as [| |? FL]; subst. rewrite Forall_forall in *.
    apply whole_is; [apply (FD _ E)|apply (FR _ E)|apply (FP _ E)|intros k; now apply (SA k p)|apply (FN _ E)|apply (FL _ E)].
  Qed.
  Lemma open_is T : all_whole strtod T -> (forall h x, T t_metafo = Some h -> get k_resources h = Some x -> exists rs, x = VH rs) -> open_confs T.
  Proof. intros W H h E. split; [apply (W _ _ E)|]. intros x. now apply H. Qed.
  (** The resources of metafo stay a hash *)
  Definition holds (T : confs) : Prop := forall h x, T t_metafo = Some h -> get k_resources h = Some x -> exists rs, x = VH rs.
  Lemma add_holds k rname n w T T' : add_new k rname n w T = Some T' -> holds T -> holds T'.
  Proof.
    unfold add_new. destruct w as [c svcs|q rn|q data]; [intros [= <-]; auto|intros [= <-]; auto|]. destruct (bytes_eqb q t_metafo) eqn:B.
    - destruct (added _ data _) as [rs|]; [|discriminate]. cbn [obind]. intros [= <-] _ h x. unfold with_conf. apply bytes_eqb_spec in B. subst q. rewrite eqb_refl'. intros [= <-]. rewrite get_with_key, eqb_refl'. intros [= <-]. eauto.
    - destruct (added _ data _) as [hh|]; [|discriminate]. cbn [obind]. intros [= <-] H h x. unfold with_conf. destruct (bytes_eqb t_metafo q) eqn:B'; [|apply H]. apply bytes_eqb_spec in B'. subst q. rewrite eqb_refl' in B. discriminate.
  Qed.
  Lemma dcs_hold k rname centers shared : forall es T y, dcs_say gai service fq_name k rname centers shared es T = Some y -> holds T -> holds (snd y).
  Proof.
    induction es as [|e es IH]; intros T y; cbn [dcs_say]; [intros [= <-]; auto|].
    destruct (need (among centers (c_str (fst e)))); [|discriminate]. cbn [obind]. destruct (dc_says gai service fq_name k rname shared (snd e)) as [w|]; [|discriminate]. cbn [obind].
    destruct (add_new k rname (c_str (fst e)) w T) as [T1|] eqn:E2; [|discriminate]. cbn [obind]. destruct (dcs_say gai service fq_name k rname centers shared es T1) as [y1|] eqn:E3; [|discriminate]. cbn [obind]. intros [= <-] H. cbn [snd]. eapply IH; [exact E3|]. eapply add_holds; eauto.
  Qed.
  Lemma ress_hold k undef maps outer : forall es T y, ress_say gai service fq_name k undef maps outer es T = Some y -> holds T -> holds (snd y).
  Proof.
    induction es as [|e es IH]; intros T y; cbn [ress_say]; [intros [= <-]; auto|].
    destruct (res_says gai service fq_name k undef maps outer e T) as [x|] eqn:E1; [|discriminate]. cbn [obind]. destruct (ress_say gai service fq_name k undef maps outer es (snd x)) as [y1|] eqn:E2; [|discriminate]. cbn [obind]. intros [= <-] H. cbn [snd]. eapply IH; [exact E2|].
    revert E1. unfold res_says. destruct (snd e) as [| |r]; try discriminate. cbv zeta. intros E1. ob E1. ob E1. ob E1. ob E1. ob E1. injection E1 as <-. cbn [snd]. eapply dcs_hold; eauto.
  Qed.
  Lemma step_holds k T z : meta_step k T = Some z -> holds T -> holds (snd z).
  Proof.
    unfold PlcSpec.meta_step. destruct (T (pn k)) as [h|] eqn:TP; [|intros [= <-]; auto]. destruct (meta_says gai service fq_name k gdmaps h T) as [y|] eqn:E; [|discriminate]. cbn [obind]. intros [= <-]. cbn [snd]. unfold meta_says in E. ob E. ob E. ob E. ob E. eapply ress_hold; exact E.
  Qed.

  Lemma made_first k s h o l l' : first_made k s h o l -> (forall x, In x l' -> fst x <> pn k) -> maybe (metas_made gdmaps k s h) o (option_map snd (List.find (fun x => bytes_eqb (pn k) (fst x)) (rev l' ++ l))).
  Proof.
    intros F N. assert (X : forall m, (forall x, In x m -> fst x <> pn k) -> List.find (fun x : bytes * piece => bytes_eqb (pn k) (fst x)) (m ++ l) = List.find (fun x => bytes_eqb (pn k) (fst x)) l).
    { induction m as [|a m IH]; intros H; [reflexivity|]. cbn. rewrite eqb_false; [apply IH; intros; apply H; cbn; auto|]. intros E. apply (H a); cbn; auto. }
    rewrite X by (intros x I; apply N; now apply in_rev in I). destruct o as [ws|]; cbn in F; [|subst; exact Logic.I]. destruct F as (x & -> & M). cbn. rewrite eqb_refl'. exact M.
  Qed.

  Lemma find_drop {A} (f : A -> bool) l l' : (forall x, In x l' -> f x = false) -> List.find f (l ++ l') = List.find f l.
  Proof. intros H. induction l as [|a l IH]; cbn; [|now rewrite IH]. induction l' as [|b l' IH]; [reflexivity|]. cbn. rewrite (H b) by (cbn; auto). apply IH. intros. apply H. cbn. auto. Qed.
  Theorem plugins_give s0 P : tidy strtod P -> tidy_later gai service fq_name gdmaps P ->
    gives s0 (plugins_load gai strtod service junk gdmaps types (Some (fresh (VH P)))) (plugins_say gai strtod service fq_name gdmaps types P)
      (fun s l d => plugins_made gdmaps P s d l).
  Proof.
    intros TD TL. unfold plugins_load. change (fresh (VH P)) with (TH (ftab P)). cbv iota.
    apply gives_ext with (m' := let* g <- first_of gai strtod service junk gdmaps (pn Geoip) (ftab P) ; let* m <- first_of gai strtod service junk gdmaps (pn Metafo) (snd g) ; tail gai strtod service junk gdmaps types (fst g ++ fst m) (snd m)).
    { intros s. change (txt "geoip") with (pn Geoip). change (txt "metafo") with (pn Metafo). unfold tail, bind, ret. destruct (first_of gai strtod service junk gdmaps (pn Geoip) (ftab P) s) as [[(g, s1)|]|]; try reflexivity.
      destruct (first_of gai strtod service junk gdmaps (pn Metafo) (snd g) s1) as [[(m, s2)|]|]; try reflexivity. destruct (the_rest gai strtod service junk gdmaps (snd m) s2) as [[(r, s3)|]|]; try reflexivity.
      rewrite <- app_assoc. reflexivity. }
    pose proof (stanza_agree P TD) as A0. pose proof (stanza_whole P TD) as W0.
    assert (H0 : holds (stanza P)). { intros h x. unfold stanza. destruct (get t_metafo P) as [[| |y]|] eqn:E; try discriminate. intros [= <-]. exact (td_resources _ _ TD _ _ E). }
    assert (ND0 : NoDup (names (ftab P))). { unfold names, ftab. rewrite map_map. cbn. pose proof (td_distinct _ _ TD) as D. inversion D; subst. assumption. }
    assert (M0 : forall a m, In (a, m) (map fst (ftab P)) -> m = false). { unfold ftab. rewrite map_map. cbn. intros a m I. apply in_map_iff in I as (e & [= <- <-] & _). reflexivity. }
    assert (Z0 : forall a, In a (names (ftab P)) -> ~ In 0%N a). { unfold names, ftab. rewrite map_map. cbn. intros a I. apply in_map_iff in I as (e & <- & I). pose proof (td_plain _ _ TD) as PL. inversion PL as [| |? FP]; subst. rewrite Forall_forall in FP. apply (FP _ I). }
    unfold plugins_say. eapply gives_bind'.
    { apply (first_gives s0 Geoip); [exact A0|exact W0|now apply open_is|]. intros h. unfold stanza. destruct (get (pn Geoip) P) as [[| |y]|] eqn:E; try discriminate. intros [= <-]. exact (td_geoip _ _ TD _ E). }
    cbv beta. intros s1 g zg L1 EG ((A1 & F1) & WD1). pose proof (step_whole _ _ _ W0 EG) as W1. pose proof (step_holds _ _ _ EG H0) as H1.
    eapply gives_bind'.
    { apply (first_gives s1 Metafo); [exact A1|exact W1|now apply open_is|]. intros h TH. destruct zg as (g0, T1). eapply (tl_metafo _ _ _ _ _ TL); [exact EG|exact TH]. }
    cbv beta. intros s2 m zm L2 EM ((A2 & F2) & WD2). pose proof (step_whole _ _ _ W1 EM) as W2.
    (* the table now *)
    assert (ND1 : NoDup (names (snd g))). { destruct WD1 as (l & _ & _ & N & _). apply N. now rewrite mark_names. }
    assert (ND2 : NoDup (names (snd m))). { destruct WD2 as (l & _ & _ & N & _). apply N. now rewrite mark_names. }
    assert (IN0 : forall q, In q (names (ftab P)) <-> stanza P q <> None). { intros q. rewrite <- value_names, (A0 q). destruct (stanza P q); cbn; intuition discriminate. }
    assert (IN1 : forall q, In q (names (snd g)) <-> snd zg q <> None). { intros q. rewrite <- value_names, (A1 q). destruct (snd zg q); cbn; intuition discriminate. }
    assert (IN2 : forall q, In q (names (snd m)) <-> snd zm q <> None). { intros q. rewrite <- value_names, (A2 q). destruct (snd zm q); cbn; intuition discriminate. }
    assert (M1 : forall a b, In (a, b) (map fst (snd g)) -> b = bytes_eqb a (pn Geoip)).
    { intros a b I. apply (stage_marks (fun _ => false) (pn Geoip) (ftab P) (snd g)) in I; [exact I|intros ? ? J; now apply M0 in J|exact WD1|exact ND0|]. intros q [->|D]; [|discriminate]. rewrite IN1, IN0. rewrite (step_own Geoip _ _ _ W0 EG); auto. }
    assert (M2 : forall a b, In (a, b) (map fst (snd m)) -> b = bytes_eqb a (pn Geoip) || bytes_eqb a (pn Metafo)).
    { intros a b I. apply (stage_marks (fun q => bytes_eqb q (pn Geoip)) (pn Metafo) (snd g) (snd m)) in I; [exact I|exact M1|exact WD2|exact ND1|]. intros q Q. rewrite IN2, IN1. rewrite (step_own Metafo _ _ _ W1 EM); [auto|]. destruct Q as [Q|Q]; [auto|apply bytes_eqb_spec in Q; auto]. }
    assert (ZN : forall k t t', widened (mark (pn k) t) t' -> (forall a, In a (names t) -> ~ In 0%N a) -> forall a, In a (names t') -> ~ In 0%N a).
    { intros k t t' (l & E & FZ & _) H a I. pose proof (names_more _ _ _ _ E) as E'.
      rewrite E', in_app_iff in I. destruct I as [I|I]; [now apply H|]. rewrite Forall_forall in FZ. now apply FZ. }
    pose proof (ZN _ _ _ WD1 Z0) as Z1. pose proof (ZN _ _ _ WD2 Z1) as Z2.
    destruct (left_over _ _ A2 ND2) as (U & EU & NU & FU).
    assert (UE : forall n h, In (n, h) U -> snd zm n = Some h /\ ~ In 0%N n /\ n <> txt "geoip" /\ n <> txt "metafo").
    { intros n h I. rewrite Forall_forall in FU. pose proof (FU _ I) as TN. cbn [fst snd] in TN. split; [exact TN|]. split; [apply Z2; rewrite IN2; congruence|].
      assert (J : In (n, fresh (VH h)) (unmarked (snd m))) by (rewrite EU; apply in_map_iff; exists (n, h); auto). apply unmarked_in in J. assert (J' : In (n, false) (map fst (snd m))) by (apply in_map_iff; exists (n, false, fresh (VH h)); auto). apply M2 in J'. symmetry in J'. apply orb_false_iff in J' as (B1 & B2).
      split; intros ->; [change (txt "geoip") with (pn Geoip) in B1|change (txt "metafo") with (pn Metafo) in B2]; rewrite eqb_refl' in *; discriminate. }
    (* the rest *)
    set (keys := map fst P ++ map (fun x => fst (fst x)) (news Geoip (fst zg) ++ news Metafo (fst zm))).
    apply gives_eq with (o := obind (tail_says gai strtod service fq_name types keys (snd zm)) (fun ws => Some {| sd_geoip := fst zg; sd_metafo := fst zm; sd_confs := snd zm; sd_rest := ws |})).
    { unfold tail_says. destruct (need (forallb known keys)); reflexivity. }
    assert (PRE : Forall (fun x : bytes * piece => fst x = txt "geoip" \/ fst x = txt "metafo") (fst g ++ fst m) /\ NoDup (map fst (fst g ++ fst m))).
    { destruct (fst zg) as [wg|]; cbn in F1; [destruct F1 as (x & -> & _)|rewrite F1]; (destruct (fst zm) as [wm|]; cbn in F2; [destruct F2 as (y & -> & _)|rewrite F2]); cbn [app map fst]; (split; [repeat constructor; cbn [fst]; auto|]); repeat constructor; cbn [In]; try tauto; intros [E|[]]; discriminate. }
    destruct PRE as (PR & NP).
    intros s L S.
    assert (G : gives s2 (tail gai strtod service junk gdmaps types (fst g ++ fst m) (snd m)) (tail_says gai strtod service fq_name types keys (snd zm)) (fun s l ws => exists r, l = (fst g ++ fst m) ++ r /\ Forall (fun x => fst x <> txt "geoip" /\ fst x <> txt "metafo") r /\ NoDup (map fst l) /\ forall p w, In (p, w) ws -> maybe (piece_made s) w (piece_of p l))).
    { apply (tail_gives gai strtod service fq_name fq_name_is junk junk_len gdmaps types types_fine s2 (fst g ++ fst m) (snd m) U (snd zm) keys); [exact EU|exact NU| | |exact W2| | |exact PR|exact NP].
      - apply Forall_forall. intros (n, h) I. cbn [fst snd]. now apply UE.
      - intros p h TP N1 N2. assert (V : value p (snd m) = Some (fresh (VH h))) by (rewrite (A2 p), TP; reflexivity). assert (J : In p (names (snd m))) by (rewrite IN2; congruence). unfold names in J. apply in_map_iff in J as (((a, b), x) & E & J). cbn in E. subst a.
        assert (b = false). { assert (J' : In (p, b) (map fst (snd m))) by (apply in_map_iff; exists (p, b, x); auto). apply M2 in J'. rewrite (eqb_false p (pn Geoip)), (eqb_false p (pn Metafo)) in J' by assumption. exact J'. } subst b.
        apply unmarked_in in J. rewrite EU in J. apply in_map_iff in J as ((n, h') & [= -> _] & J). destruct (UE _ _ J) as (X & _). congruence.
      - intros h TH. destruct zg as (g0, T1), zm as (m0, T2). eapply (tl_multifo _ _ _ _ _ TL); [exact EG|exact EM|exact TH].
      - intros p. unfold keys. rewrite in_app_iff, map_app, in_app_iff, (step_keys _ _ _ p EM), (step_keys _ _ _ p EG). assert (X : In p (map fst P) <-> stanza P p <> None). { rewrite <- IN0. unfold names, ftab. rewrite map_map. cbn. tauto. } rewrite X. tauto. }
    specialize (G s L S). destruct (tail gai strtod service junk gdmaps types (fst g ++ fst m) (snd m) s) as [[(l, s')|]|]; [|now rewrite G|exact G]. destruct G as (ws & E & (r & EL & FR & NL & H) & L' & S'). exists {| sd_geoip := fst zg; sd_metafo := fst zm; sd_confs := snd zm; sd_rest := ws |}. rewrite E. split; [reflexivity|]. split; [|auto].
    assert (L1' : later s1 s') by (eapply later_trans; [exact L2|]; eapply later_trans; [exact L|exact L']). assert (L2' : later s2 s') by (eapply later_trans; [exact L|exact L']).
    apply (first_later _ _ _ _ _ _ L1') in F1. apply (first_later _ _ _ _ _ _ L2') in F2. split; [exact NL|]. cbn [sd_geoip sd_metafo sd_confs sd_rest].
    rewrite Forall_forall in FR.
    assert (NM : forall x, In x (fst m) -> fst x = pn Metafo). { destruct (fst zm) as [wm|]; cbn in F2; [destruct F2 as (y & -> & _)|rewrite F2]; [intros x [<-|[]]; reflexivity|intros x []]. }
    assert (NG : forall x, In x (fst g) -> fst x = pn Geoip). { destruct (fst zg) as [wg|]; cbn in F1; [destruct F1 as (y & -> & _)|rewrite F1]; [intros x [<-|[]]; reflexivity|intros x []]. }
    split; [|split; [|exact H]].
    - unfold piece_of. rewrite EL, <- app_assoc, rev_app_distr. replace (rev (fst g)) with (fst g) by (destruct (fst zg); cbn in F1; [destruct F1 as (y & -> & _)|rewrite F1]; reflexivity).
      apply made_first; [exact F1|]. intros x I E'. apply in_app_iff in I as [I|I]; [rewrite (NM x I) in E'; discriminate|]. destruct (FR x I) as (X & _). now apply X.
    - exists (snd zg). split; [|split; [exact (step_grown _ _ _ EG)|exact (step_grown _ _ _ EM)]].
      unfold piece_of. rewrite EL, rev_app_distr, rev_app_distr, app_assoc. rewrite find_drop by (intros x I; apply in_rev in I; rewrite (NG x I); reflexivity).
      replace (rev (fst m)) with (fst m) by (destruct (fst zm); cbn in F2; [destruct F2 as (y & -> & _)|rewrite F2]; reflexivity).
      apply made_first; [exact F2|]. intros x I E'. destruct (FR x I) as (_ & X). now apply X.
  Qed.
End All.
