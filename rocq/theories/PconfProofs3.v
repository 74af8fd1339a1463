(** Steps and what they should give; values; monitors; simplefo *)
From Coq Require Import String Permutation ZArith.
From Verif Require Import Base CompModel CompProofs VscfModel VscfSpec OptModel VhashModel VhashSpec PlugModel PlugSpec PconfModel PconfSpec PconfProofs2.
Local Open Scope nat_scope.
Local Open Scope list_scope.
Local Notation length := List.length.
Ltac Zify.zify_post_hook ::= idtac.

(** ** More on tables *)
Lemma grown_inner ks T h x : distinct (VH h) -> grown ks T (ftab h) x -> tab_ok x /\ Forall (fun e => inner_ok (snd e)) x.
Proof.
  intros D G. pose proof (ftab_ok h D) as (_ & I). split; [eapply grown_marks; [apply ftab_marks|exact G]|]. destruct G as (ext & -> & F & _). apply Forall_app. split; [exact I|].
  eapply Forall_impl; [|exact F]. cbn. intros e (_ & _ & B). exact B.
Qed.
Lemma evolved_get done T' T t k : Forall2 (erel done T') T t ->
  match value k T with
  | None => value k t = None
  | Some (TH x) => exists x', value k t = Some (TH x') /\ grown done T' x x'
  | Some v => value k t = Some v
  end.
Proof.
  induction 1 as [|e e' ts t R H IH]; [reflexivity|]. destruct e as [[a m] v], e' as [[a' m'] v']. destruct R as (K & _ & V). cbn in K, V. subst a'. cbn.
  destruct (same k a); [|exact IH]. destruct v as [| |x]; [now rewrite V|now rewrite V|]. destruct V as (x' & -> & G). eauto.
Qed.
Lemma evolved_marks done T' T t : Forall2 (erel done T') T t -> marked_by done t.
Proof. induction 1 as [|e e' ts t (K & M & _) H IH]; [constructor|]. constructor; [now rewrite K|exact IH]. Qed.
(** What a resource's data look like at the top *)
Definition rel1 (ks : list bytes) (P : tab) (v : vnode) (x : tree) : Prop :=
  match v with VH h => exists x', x = TH x' /\ grown ks P (ftab h) x' | _ => x = fresh v end.
Lemma evolved_others ks P h t : Forall2 (erel ks P) (ftab h) t ->
  Forall2 (fun p e => fst e = fst p /\ rel1 ks P (snd p) (snd e)) (others ks h) (unmarked t).
Proof.
  intros H. rewrite (unmarked_by ks) by (eapply evolved_marks; exact H). unfold others. remember (ftab h) as T eqn:ET. revert h ET.
  induction H as [|e e' ts t (K & M & V) H IH]; intros h ET; [destruct h; [constructor|discriminate]|]. destruct h as [|(k, v) h]; [discriminate|]. injection ET as -> ->. cbn [filter fst]. cbn in K, V.
  rewrite K. destruct (among ks k); cbn [negb]; [now apply IH|]. cbn [map]. constructor; [|now apply IH]. cbn. split; [exact K|]. destruct v; exact V.
Qed.
Lemma others_ext a b h : (forall k, In k a <-> In k b) -> others a h = others b h.
Proof.
  intros H. unfold others. apply filter_ext. intros e. specialize (H (fst e)). rewrite <- !among_in in H. destruct (among a (fst e)), (among b (fst e)); intuition congruence.
Qed.
(** What is not marked, by keys only *)
Lemma unmarked_nil D t h ek : marked_by D t -> keys t = map fst h ++ ek -> (forall k, In k ek -> In k D) ->
  match unmarked t with [] => true | _ => false end = only_b D h.
Proof.
  intros M K I. rewrite (unmarked_by D t M). unfold only_b, others.
  assert (E : match map (fun e => (key e, snd e)) (filter (fun e => negb (among D (key e))) t) with [] => true | _ => false end =
              match filter (fun k => negb (among D k)) (keys t) with [] => true | _ => false end).
  { clear. induction t as [|e t IH]; [reflexivity|]. cbn. change (fst (fst e)) with (key e). destruct (among D (key e)); cbn; [exact IH|reflexivity]. }
  rewrite E, K, filter_app. assert (filter (fun k => negb (among D k)) ek = []) as ->. { clear -I. induction ek as [|k ek IH]; [reflexivity|]. cbn. rewrite (proj2 (among_in D k)) by (apply I; cbn; auto). apply IH. intros; apply I; cbn; auto. }
  rewrite app_nil_r. clear. induction h as [|e h IH]; [reflexivity|]. cbn. destruct (among D (fst e)); cbn; [exact IH|reflexivity].
Qed.
Lemma grown_keys ks T h x : grown ks T (ftab h) x -> exists ek, keys x = map fst h ++ ek /\ forall k, In k ek -> In k ks.
Proof.
  intros (ext & -> & F & _). exists (keys ext). split; [unfold keys; rewrite map_app; f_equal; apply ftab_keys|]. intros k I. apply in_map_iff in I as (e & <- & I). rewrite Forall_forall in F. now apply F.
Qed.
Lemma others_cons_absent k ks h : get k h = None -> others (k :: ks) h = others ks h.
Proof.
  intros G. unfold others. apply filter_ext_in. intros e I. cbn. destruct (bytes_eqb (fst e) k) eqn:B; [|reflexivity]. exfalso. apply bytes_eqb_spec in B. subst k. clear -G I.
  induction h as [|(a, v) h IH]; [destruct I|]. cbn in G. destruct (bytes_eqb (fst e) a) eqn:B; [discriminate|]. destruct I as [<-|I]; [|now apply IH]. cbn in B. rewrite (proj2 (bytes_eqb_spec a a) eq_refl) in B. discriminate.
Qed.

(** ** Steps *)
Lemma later_refl s : later s s.
Proof. split; [exists []; now rewrite app_nil_r|]. split; apply N.le_refl. Qed.
Lemma later_trans a b c : later a b -> later b c -> later a c.
Proof. intros ((l & E) & A & B) ((l' & E') & A' & B'). split; [exists (l ++ l'); now rewrite E', E, app_assoc|]. split; eapply N.le_trans; eauto. Qed.

Section Steps.
  Variable service : bytes -> option (bool * bool).
  Notation sound := (sound service).

  Definition gives {A B} (s0 : state) (m : cm A) (o : option B) (R : state -> A -> B -> Prop) : Prop :=
    forall s, later s0 s -> sound s ->
      match m s with
      | UB => False
      | Ok None => o = None
      | Ok (Some (a, s')) => exists b, o = Some b /\ R s' a b /\ later s s' /\ sound s'
      end.
  Definition mono {A B} (R : state -> A -> B -> Prop) : Prop := forall s s' a b, later s s' -> R s a b -> R s' a b.

  Lemma gives_later {A B} s0 s1 (m : cm A) (o : option B) R : later s0 s1 -> gives s0 m o R -> gives s1 m o R.
  Proof. intros L G s L' S. apply G; [eapply later_trans; eauto|exact S]. Qed.
  Lemma gives_ret {A B} s0 (a : A) (b : B) (R : state -> A -> B -> Prop) : (forall s, later s0 s -> R s a b) -> gives s0 (ret a) (Some b) R.
  Proof. intros H s L S. cbn. exists b. split; [reflexivity|]. split; [now apply H|]. split; [apply later_refl|exact S]. Qed.
  Lemma gives_fatal {A B} s0 (R : state -> A -> B -> Prop) : gives s0 fatal None R.
  Proof. intros s _ _. reflexivity. Qed.
  Lemma gives_bind {A B C D} s0 (m : cm A) (o : option B) R (f : A -> cm C) (g : B -> option D) R' :
    gives s0 m o R -> (forall s1 a b, later s0 s1 -> R s1 a b -> gives s1 (f a) (g b) R') -> gives s0 (bind m f) (obind o g) R'.
  Proof.
    intros G H s L S. unfold bind. specialize (G s L S). destruct (m s) as [[[a s1]|]|]; [|now rewrite G|exact G].
    destruct G as (b & -> & R1 & L1 & S1). cbn [obind]. specialize (H s1 a b (later_trans _ _ _ L L1) R1 s1 (later_refl s1) S1).
    destruct (f a s1) as [[[c s2]|]|]; [|exact H|exact H]. destruct H as (d & E & R2 & L2 & S2). exists d. split; [exact E|]. split; [exact R2|]. split; [eapply later_trans; eauto|exact S2].
  Qed.
  Lemma gives_eq {A B} s0 (m : cm A) (o o' : option B) R : o = o' -> gives s0 m o R -> gives s0 m o' R.
  Proof. now intros ->. Qed.
  Lemma gives_weaken {A B} s0 (m : cm A) (o : option B) (R R' : state -> A -> B -> Prop) : (forall s a b, R s a b -> R' s a b) -> gives s0 m o R -> gives s0 m o R'.
  Proof. intros H G s L S. specialize (G s L S). destruct (m s) as [[[a s1]|]|]; [|exact G|exact G]. destruct G as (b & E & R1 & X). exists b. auto. Qed.
  Lemma gives_check {B C} s0 b (f : unit -> cm B) (o : option C) R : (b = true -> gives s0 (f tt) o R) -> gives s0 (bind (check b) f) (obind (need b) (fun _ => o)) R.
  Proof. destruct b; intros H; [exact (H eq_refl)|]. intros s L S. reflexivity. Qed.
  Lemma gives_asserted {B C} s0 b (f : unit -> cm B) (o : option C) R : b = true -> gives s0 (f tt) o R -> gives s0 (bind (asserted b) f) o R.
  Proof. intros ->. intros G. exact G. Qed.
  Lemma gives_mapm {A A' B C} (P : A -> A' -> Prop) (f : A -> cm B) (g : A' -> option C) R l l' : mono R -> Forall2 P l l' -> forall s0,
    (forall s1 a a', later s0 s1 -> P a a' -> gives s1 (f a) (g a') R) -> gives s0 (mapm f l) (all g l') (fun s bs cs => Forall2 (fun c b => R s b c) cs bs).
  Proof.
    intros MR H. induction H as [|a a' l l' PA H IH]; intros s0 G; [apply gives_ret; constructor|]. cbn [mapm all].
    apply gives_eq with (o := obind (g a') (fun b => obind (all g l') (fun bs => Some (b :: bs)))). { destruct (g a'); [|reflexivity]. cbn. destruct (all g l'); reflexivity. }
    eapply gives_bind; [apply G; [apply later_refl|exact PA]|]. intros s1 b c L1 R1. eapply gives_bind; [apply IH; intros; apply G; [eapply later_trans; eauto|assumption]|].
    intros s2 bs cs L2 R2. apply gives_ret. intros s3 L3. constructor; [eapply MR; [|exact R1]; eapply later_trans; eauto|].
    clear -R2 L3 MR. induction R2; constructor; eauto.
  Qed.

  (** ** Monitors *)
  Lemma monitors_later s s' x svc i : later s s' -> monitors s x svc i -> monitors s' x svc i.
  Proof. intros ((l & E) & _) H. unfold monitors in *. rewrite E, nth_error_app1; [exact H|]. apply nth_error_Some. congruence. Qed.
  Lemma all_monitors_later s s' x svcs idx : later s s' -> Forall2 (monitors s x) svcs idx -> Forall2 (monitors s' x) svcs idx.
  Proof. intros L H. induction H; constructor; [eapply monitors_later; eauto|assumption]. Qed.
  Lemma same_thing_iff a b : same_thing a b = true <-> a = b.
  Proof.
    destruct a as [[x|x]|x], b as [[y|y]|y]; cbn; try rewrite bytes_eqb_spec; split; intros H; try discriminate; try (now f_equal; f_equal); try (now injection H); try now subst.
  Qed.
  Lemma mon_index_some svc w l : forall i j, mon_index svc w l i = Some j -> exists n, j = i + n /\ nth_error l n = Some (Some (svc, w)).
  Proof.
    induction l as [|[[svc' w']|] l IH]; intros i j; cbn; [discriminate| |].
    - destruct (same_thing w w' && bytes_eqb svc svc') eqn:E.
      + intros [= <-]. apply andb_prop in E as (E1 & E2). apply same_thing_iff in E1. apply bytes_eqb_spec in E2. subst. exists 0. split; [lia|reflexivity].
      + intros H. destruct (IH _ _ H) as (n & -> & E'). exists (S n). split; [lia|exact E'].
    - intros H. destruct (IH _ _ H) as (n & -> & E'). exists (S n). split; [lia|exact E'].
  Qed.
  Lemma mon_index_none svc w l : forall i, mon_index svc w l i = None -> forall n, nth_error l n <> Some (Some (svc, w)).
  Proof.
    induction l as [|[[svc' w']|] l IH]; intros i H [|n]; cbn in *; try discriminate.
    - destruct (same_thing w w' && bytes_eqb svc svc') eqn:E; [discriminate|]. intros [= -> ->]. rewrite (proj2 (same_thing_iff w w) eq_refl), (proj2 (bytes_eqb_spec svc svc) eq_refl) in E. discriminate.
    - destruct (same_thing w w' && bytes_eqb svc svc'); [discriminate|]. eapply IH; eauto.
    - eapply IH; eauto.
  Qed.
  Lemma mon_gives s0 w svc : gives s0 (mon_thing service w svc) (need (can_watch service w svc)) (fun s i _ => monitors s w svc i).
  Proof.
    intros s L S. unfold mon_thing. destruct (service svc) as [[ba bn]|] eqn:E; [|unfold can_watch; rewrite E; reflexivity].
    destruct (mon_index svc w (mons s) 0) as [i|] eqn:M.
    - apply mon_index_some in M as (n & -> & M). cbn [Nat.add]. destruct S as (S1 & S2). rewrite (S1 _ _ _ M). exists tt. split; [reflexivity|]. split; [exact M|]. split; [apply later_refl|split; assumption].
    - assert (C : can_watch service w svc = match w with OnAddr _ => ba | OnName _ => bn end) by (unfold can_watch; rewrite E; destruct w; reflexivity). rewrite C.
      destruct (match w with OnAddr _ => ba | OnName _ => bn end) eqn:EB; [|reflexivity]. exists tt. split; [reflexivity|].
      pose proof (mon_index_none _ _ _ _ M) as NM. split; [unfold monitors; cbn; rewrite nth_error_app2, Nat.sub_diag by lia; reflexivity|].
      split; [split; [eexists; reflexivity|split; apply N.le_refl]|]. destruct S as (S1 & S2). split; cbn.
      + intros i svc' x H. destruct (Nat.lt_ge_cases i (length (mons s))) as [LI|LI]; [rewrite nth_error_app1 in H by exact LI; now apply (S1 i)|].
        rewrite nth_error_app2 in H by exact LI. destruct (i - length (mons s)) as [|n]; [injection H as <- <-; exact C|destruct n; discriminate].
      + intros i j e H H'. destruct (Nat.lt_ge_cases i (length (mons s))) as [LI|LI]; [rewrite nth_error_app1 in H by exact LI|rewrite nth_error_app2 in H by exact LI];
          (destruct (Nat.lt_ge_cases j (length (mons s))) as [LJ|LJ]; [rewrite nth_error_app1 in H' by exact LJ|rewrite nth_error_app2 in H' by exact LJ]).
        * now apply (S2 i j e).
        * destruct (j - length (mons s)) as [|n]; [injection H' as <-; destruct (NM i H)|destruct n; discriminate].
        * destruct (i - length (mons s)) as [|n]; [injection H as <-; destruct (NM j H')|destruct n; discriminate].
        * destruct (i - length (mons s)) as [|n] eqn:EI; [|destruct n; discriminate]. destruct (j - length (mons s)) as [|n] eqn:EJ; [lia|destruct n; discriminate].
  Qed.
  Lemma mons_give s0 w svcs : gives s0 (mapm (mon_thing service w) svcs) (watched service svcs w) (fun s idx _ => Forall2 (monitors s w) svcs idx).
  Proof.
    revert s0. induction svcs as [|svc svcs IH]; intros s0; [apply gives_ret; constructor|]. unfold watched. cbn [mapm forallb].
    apply gives_eq with (o := obind (need (can_watch service w svc)) (fun _ => obind (watched service svcs w) (fun _ => Some tt))). { unfold watched. destruct (can_watch service w svc); [cbn|reflexivity]. destruct (forallb _ svcs); reflexivity. }
    eapply gives_bind; [apply mon_gives|]. intros s1 i [] L1 M1. eapply gives_bind; [apply IH|]. intros s2 idx [] L2 M2. apply gives_ret. intros s3 L3. constructor; [eapply monitors_later; [|exact M1]; eapply later_trans; eauto|eapply all_monitors_later; eauto].
  Qed.

  (** ** Values *)
  Lemma svcs_give s0 k hs o : as_said k hs o -> gives s0 (svc_names o) (services (setting k hs)) (fun _ a b => a = b).
  Proof.
    unfold as_said. generalize (setting k hs) as v. intros v E. destruct o as [t|], v as [v|]; try discriminate; [|apply gives_ret; reflexivity].
    cbn in E. injection E as E. cbn [svc_names services].
    assert (Fitems : Forall2 (fun a b => erase a = erase (fresh b)) (items t) (elements v)).
    { destruct t as [r s|l|x], v as [r' s'|l'|h']; try discriminate; cbn [items elements].
      - constructor; [exact E|constructor].
      - cbn in E. injection E as E. rewrite map_map in E. clear -E. revert l' E. induction l as [|a l IH]; intros [|b l'] E; try discriminate; [constructor|]. cbn in E. injection E as E1 E2. constructor; [exact E1|now apply IH].
      - constructor; [exact E|constructor]. }
    eapply gives_weaken; [|eapply (gives_mapm _ _ _ (fun _ a b => a = b)); [intros s s' a b _ H; exact H|exact Fitems|]].
    - cbn. intros s a b H. induction H as [|x y l l' -> H IH]; [reflexivity|]. now rewrite IH.
    - intros s1 a b _ EE. destruct a as [r s|l|x], b as [r' s'|l'|h']; try discriminate; try apply gives_fatal. injection EE as <- <-. apply gives_ret. reflexivity.
  Qed.
  Variable gai : bytes -> option addr.
  Lemma addr_gives s0 x v : erase x = erase (fresh v) -> gives s0 (read_addr gai x) (address gai v) (fun _ a b => a = b).
  Proof.
    intros E. destruct x as [r s|l|t], v as [r' s'|l'|h']; try discriminate; try apply gives_fatal. injection E as <- <-. cbn. destruct (gai (c_str s)); [apply gives_ret; reflexivity|apply gives_fatal].
  Qed.
  Lemma oaddr_gives s0 o v : oerase o = oerase (option_map fresh v) -> gives s0 (match o with Some x => read_addr gai x | None => fatal end) (obind v (address gai)) (fun _ a b => a = b).
  Proof. intros E. destruct o as [x|], v as [v|]; try discriminate; [|apply gives_fatal]. cbn in E. injection E as E. cbn [obind]. now apply addr_gives. Qed.
  Lemma le_zero_fin neg m e : le_zero (Fin neg m e) || gt_one (Fin neg m e) = negb (negb neg && in_range m e).
  Proof.
    unfold in_range. cbn [le_zero gt_one]. destruct neg; cbn [orb negb andb]; [reflexivity|]. destruct (N.eqb_spec m 0) as [->|N0]; cbn [orb].
    - reflexivity.
    - rewrite (proj2 (N.ltb_lt 0 m)) by lia. cbn [andb]. destruct (0 <=? e)%Z; rewrite N.ltb_antisym; reflexivity.
  Qed.
  Variable strtod : bytes -> option dbl.
  Definition calm (hs : list hash) : Prop := Forall (fun h => no_nan strtod (VH h)) hs.
  Lemma calm_get h k v : no_nan strtod (VH h) -> get k h = Some v -> no_nan strtod v /\ (k = k_thresh -> forall r x, v = VS r x -> strtod x <> Some NaN).
  Proof.
    intros N. inversion N as [| |? F]; subst. clear N. induction F as [|(k', v') h (A & B) F IH]; [discriminate|]. cbn in *. destruct (bytes_eqb k k') eqn:E; [|exact IH]. apply bytes_eqb_spec in E. subst k'. intros [= <-]. split; [exact A|exact B].
  Qed.
  Lemma calm_setting hs r v : calm hs -> setting k_thresh hs = Some (VS r v) -> strtod v <> Some NaN.
  Proof. induction 1 as [|h hs N C IH]; [discriminate|]. cbn [setting]. destruct (get k_thresh h) as [y|] eqn:E; [|exact IH]. intros [= ->]. eapply calm_get; eauto. Qed.
  Lemma calm_others ks h : no_nan strtod (VH h) -> Forall (fun e => no_nan strtod (snd e)) (others ks h).
  Proof. intros N. inversion N as [| |? F]; subst. unfold others. apply Forall_forall. intros e I. apply filter_In in I as (I & _). rewrite Forall_forall in F. now apply F. Qed.
  Lemma thresh_gives s0 hs o : calm hs -> as_said k_thresh hs o -> gives s0 (read_thresh strtod o) (fraction strtod (setting k_thresh hs)) (fun _ d p => d = Fin false (fst p) (snd p) /\ in_range (fst p) (snd p) = true).
  Proof.
    intros CA. pose proof (fun r v => calm_setting hs r v CA) as nonan. clear CA. revert nonan.
    unfold as_said. generalize (setting k_thresh hs) as v. intros v nonan E. destruct o as [t|], v as [v|]; try discriminate; [|apply gives_ret; split; reflexivity].
    cbn in E. injection E as E. destruct t as [r s|l|x], v as [r' s'|l'|h']; try discriminate; try apply gives_fatal. injection E as <- <-. cbn. destruct s as [|b s]; [apply gives_fatal|].
    destruct (strtod (b :: s)) as [d|] eqn:ED; [|apply gives_fatal]. destruct d as [|neg|neg m e]; [destruct (nonan _ _ eq_refl ED)|destruct neg; apply gives_fatal|]. rewrite le_zero_fin.
    destruct neg; cbn [negb andb]; [apply gives_fatal|]. destruct (in_range m e) eqn:ER; [apply gives_ret; auto|apply gives_fatal].
  Qed.
  Lemma bool_gives s0 k hs o : as_said k hs o -> gives s0 (read_bool o) (boolean (setting k hs)) (fun _ a b => a = b).
  Proof.
    unfold as_said. generalize (setting k hs) as v. intros v E. destruct o as [t|], v as [v|]; try discriminate; [|apply gives_ret; reflexivity].
    cbn in E. injection E as E. destruct t as [r s|l|x], v as [r' s'|l'|h']; try discriminate; try apply gives_fatal. injection E as <- <-. cbn. destruct (as_bool s); [apply gives_ret; reflexivity|apply gives_fatal].
  Qed.
End Steps.
