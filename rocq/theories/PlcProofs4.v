(** The rest of the plugins, after geoip and metafo *)
From Coq Require Import String ZArith Permutation.
From Verif Require Import Base DnameModel DnameSpec DnameProofs CompModel CompProofs RespModel MonModel VscfModel VscfSpec OptModel VhashModel VhashSpec VhashProofs2 PlugModel MsgModel LtreeModel PconfModel PconfSpec PconfProofs PconfProofs2 PconfProofs3 PconfProofs4 PconfProofs5 PconfProofs7 McfModel McfSpec McfProofs McfProofs2 McfProofs3 McfProofs5 PlcModel PlcSpec PlcProofs PlcProofs2 PlcProofs3.
Local Open Scope nat_scope.
Local Open Scope list_scope.
Local Notation length := List.length.
Ltac Zify.zify_post_hook ::= idtac.

(** ** Steps *)
Lemma gives_ext {A B} service s0 (m m' : cm A) (o : option B) R : (forall s, m s = m' s) -> gives service s0 m' o R -> gives service s0 m o R.
Proof. intros E G s L S. rewrite E. now apply G. Qed.
Lemma bind_assoc {A B C} (m : cm A) (f : A -> cm B) (g : B -> cm C) s : bind (bind m f) g s = bind m (fun x => bind (f x) g) s.
Proof. unfold bind. destruct (m s) as [[(a, s1)|]|]; reflexivity. Qed.
Lemma gives_iff {A B C} service s0 (m : cm A) (o : option B) (o' : option C) (R : state -> A -> B -> Prop) (R' : state -> A -> C -> Prop) : gives service s0 m o R -> (o = None <-> o' = None) ->
  (forall s a b b', o = Some b -> o' = Some b' -> R s a b -> R' s a b') -> gives service s0 m o' R'.
Proof.
  intros G I H s L S. specialize (G s L S). destruct (m s) as [[(a, s')|]|]; [|now apply I|exact G]. destruct G as (b & E & R1 & L' & S'). destruct o' as [c|]; [|rewrite (proj2 I eq_refl) in E; discriminate]. exists c. split; [reflexivity|]. split; [eapply H; eauto|auto].
Qed.
Lemma gives_run {A B} service s0 (m : cm A) (o : option B) R (Q : A -> Prop) : gives service s0 m o R -> (forall s a s', m s = Ok (Some (a, s')) -> Q a) -> gives service s0 m o (fun s a b => R s a b /\ Q a).
Proof. intros G H s L S. specialize (G s L S). specialize (H s). destruct (m s) as [[(a, s')|]|]; [|exact G|exact G]. destruct G as (b & E & R1 & X). exists b. split; [exact E|]. split; [split; [exact R1|eapply H; reflexivity]|exact X]. Qed.

(** ** Lists of options *)
Lemma all_none {A B} (f : A -> option B) l : all f l = None <-> exists x, In x l /\ f x = None.
Proof.
  induction l as [|a l IH]; cbn; [split; [discriminate|now intros (x & [] & _)]|]. destruct (f a) as [b|] eqn:E; cbn [obind]; [|split; [intros _; exists a; auto|reflexivity]].
  destruct (all f l); cbn [obind]; (split; [intros H|]).
  - discriminate.
  - intros (x & [->|I] & X); [congruence|]. assert (N : Some l0 = None) by (apply IH; eauto). discriminate.
  - destruct (proj1 IH eq_refl) as (x & I & X). eauto.
  - reflexivity.
Qed.
Lemma all_some {A B} (f : A -> option B) l ys : all f l = Some ys -> Forall2 (fun x y => f x = Some y) l ys.
Proof. revert ys. induction l as [|a l IH]; intros ys E; cbn in E; [injection E as <-; constructor|]. destruct (f a) as [b|] eqn:EF; [|discriminate]. destruct (all f l); [|discriminate]. injection E as <-. constructor; auto. Qed.
Lemma forall2_left {A B} (R : A -> B -> Prop) l l' a : Forall2 R l l' -> In a l -> exists b, In b l' /\ R a b.
Proof. intros F. induction F as [|x y l l' H F IH]; [intros []|]. intros [->|I]; [exists y; cbn; auto|]. destruct (IH I) as (b & J & X). exists b. cbn. auto. Qed.
Lemma forall2_right {A B} (R : A -> B -> Prop) l l' b : Forall2 R l l' -> In b l' -> exists a, In a l /\ R a b.
Proof. intros F. induction F as [|x y l l' H F IH]; [intros []|]. intros [->|I]; [exists x; cbn; auto|]. destruct (IH I) as (a & J & X). exists a. cbn. auto. Qed.
Lemma some_of_in {A} (l : list (option A)) a : In a (some_of l) <-> In (Some a) l.
Proof. unfold some_of. rewrite in_flat_map. split; [intros (o & I & J); destruct o; [destruct J as [->|[]]; exact I|destruct J]|intros I; exists (Some a); cbn; auto]. Qed.
Lemma among_in l p : among l p = true <-> In p l.
Proof. unfold among. rewrite existsb_exists. split; [intros (x & I & E); apply bytes_eqb_spec in E; now subst|intros I; exists p; split; [exact I|now apply bytes_eqb_spec]]. Qed.

(** ** The table of plugins *)
Definition loads_b (p : bytes) : bool := match find_plugin p with Some x => pl_load x | None => false end.
Lemma find_name n p : find_plugin n = Some p -> pl_name p = n.
Proof. intros E. apply find_some in E as (_ & E). apply bytes_eqb_spec in E. now symmetry. Qed.
Lemma find_table p : In p plugin_table -> find_plugin (pl_name p) = Some p.
Proof. unfold plugin_table. cbn [In]. intros I. repeat (destruct I as [<-|I]; [vm_compute; reflexivity|]). destruct I. Qed.
Lemma find_in n p : find_plugin n = Some p -> In p plugin_table.
Proof. intros E. now apply find_some in E as (I & _). Qed.
Lemma table_nodup : NoDup (map pl_name plugin_table).
Proof. vm_compute. repeat (constructor; [cbn; intuition discriminate|]). constructor. Qed.
Lemma rest_iff p : In p rest_names <-> known p = true /\ p <> txt "geoip" /\ p <> txt "metafo".
Proof.
  split.
  - unfold rest_names. cbn [map In]. intros I. repeat (destruct I as [<-|I]; [vm_compute; intuition discriminate|]). destruct I.
  - intros (K & N1 & N2). unfold known in K. destruct (find_plugin p) as [x|] eqn:E; [|discriminate]. pose proof (find_name _ _ E) as EN. apply find_in in E. subst p. clear K. unfold plugin_table in E. cbn [In] in E.
    repeat (destruct E as [<-|E]; [cbn [pl_name] in *; try congruence; unfold rest_names; cbn [map In]; tauto|]). destruct E.
Qed.
Lemma known_first : known (txt "geoip") = true /\ known (txt "metafo") = true.
Proof. vm_compute. auto. Qed.
Definition bare_names : list bytes := [txt "static"; txt "null"; txt "extmon"].
Definition types_ok (types : list (bytes * plugin)) : Prop := Forall (fun x => In (snd x) plugin_table /\ pl_mon (snd x) <> None) types.
Lemma used_bare types p : types_ok types -> In p (map (fun x => pl_name (snd x)) types) -> loads_b p = true -> In p bare_names.
Proof.
  intros F I L. apply in_map_iff in I as (x & E & I). unfold types_ok in F. rewrite Forall_forall in F. destruct (F x I) as (IT & M). clear F I. destruct x as (n, q). cbn [snd] in *. unfold loads_b in L. subst p. rewrite (find_table q IT) in L.
  unfold plugin_table in IT. cbn [In] in IT. repeat (destruct IT as [<-|IT]; [cbn [pl_load pl_mon pl_name] in *; try discriminate; try congruence; unfold bare_names; cbn [In]; tauto|]). destruct IT.
Qed.

Section Rest.
  Variable gai : bytes -> option addr.
  Variable strtod : bytes -> option dbl.
  Variable service : bytes -> option (bool * bool).
  Variable fq_name : bytes -> option name.
  Hypothesis fq_name_is : forall t ls, all_bytes t -> (fq_name t = Some ls <-> name_text t ls true /\ legal_name ls).
  Variable junk : bytes.
  Hypothesis junk_len : length junk = 256.
  Variable gdmaps : tab -> option (list (bytes * list bytes)).
  Variable types : list (bytes * plugin).
  Hypothesis types_fine : types_ok types.
  Local Notation gives := (gives service).
  Local Notation conf_piece := (conf_piece gai strtod service fq_name).
  Local Notation piece_says := (piece_says gai strtod service fq_name).

  Definition conf_opt (u : bytes * hash) : option (option (bytes * piece_want)) :=
    if known (fst u) then if loads_b (fst u) then option_map (fun w => Some (fst u, w)) (conf_piece (fst u) (snd u)) else Some None else None.
  Definition bare_opt (p : plugin) : option (bytes * piece_want) := option_map (fun w => (pl_name p, w)) (bare_piece (pl_name p)).
  Definition todo (done : list bytes) : list plugin :=
    filter (fun p => existsb (fun x => bytes_eqb (pl_name (snd x)) (pl_name p)) types && pl_load p && negb (existsb (bytes_eqb (pl_name p)) done)) plugin_table.
  Definition pairs (s : state) (w : bytes * piece_want) (x : bytes * piece) : Prop := fst w = fst x /\ piece_made s (snd w) (snd x).
  Lemma pairs_later s s' ws l : later s s' -> Forall2 (pairs s) ws l -> Forall2 (pairs s') ws l.
  Proof. intros L F. induction F as [|a b ws l (X & Y) F IH]; constructor; [|exact IH]. split; [exact X|eapply piece_later; eauto]. Qed.

  (** Meaning of a plugin, with and without a configuration *)
  Lemma says_some T p h : In p rest_names -> T p = Some h -> piece_says types T p = if loads_b p then option_map Some (conf_piece p h) else Some None.
  Proof.
    unfold rest_names. cbn [map In]. intros I E.
    assert (X : forall A (x : option A) (f : A -> piece_want), (let? a <- x ; Some (Some (f a))) = option_map Some (option_map f x)) by (intros A [a|] f; reflexivity).
    repeat (destruct I as [<-|I]; [unfold PlcSpec.piece_says; rewrite E; cbv zeta; rewrite ?X; reflexivity|]). destruct I.
  Qed.
  Lemma says_bare T p : In p bare_names -> T p = None -> In p (map (fun x => pl_name (snd x)) types) -> piece_says types T p = option_map Some (bare_piece p).
  Proof.
    unfold bare_names. cbn [In]. intros I E A. apply among_in in A. repeat (destruct I as [<-|I]; [unfold PlcSpec.piece_says; rewrite E; cbv zeta; rewrite A; reflexivity|]). destruct I.
  Qed.
  Lemma says_none T p : In p rest_names -> T p = None -> ~ (In p bare_names /\ In p (map (fun x => pl_name (snd x)) types)) -> piece_says types T p = Some None.
  Proof.
    intros I E A. unfold PlcSpec.piece_says. rewrite E. cbv zeta. destruct (among (map (fun x => pl_name (snd x)) types) p) eqn:AM; [|reflexivity]. apply among_in in AM.
    revert I A. unfold rest_names. cbn [map In]. intros I A. repeat (destruct I as [<-|I]; [first [reflexivity|exfalso; apply A; split; [cbn; tauto|exact AM]]|]). destruct I.
  Qed.

  (** The loop over the configurations that are left *)
  Lemma rest_gives s0 tops U T : unmarked tops = map (fun u => (fst u, fresh (VH (snd u)))) U -> Forall (fun u => T (fst u) = Some (snd u) /\ ~ In 0%N (fst u) /\ fst u <> txt "geoip" /\ fst u <> txt "metafo") U -> all_whole strtod T ->
    (forall h, T t_multifo = Some h -> sized (VH h)) ->
    gives s0 (the_rest gai strtod service junk gdmaps tops) (obind (all conf_opt U) (fun ws => Some (some_of ws))) (fun s l ws => Forall2 (pairs s) ws l).
  Proof.
    intros EU FU W SZ. unfold the_rest. rewrite EU. eapply gives_bind.
    - apply gives_mapm with (P := fun a u => a = (fst u, fresh (VH (snd u))) /\ In u U) (R := fun s y w => maybe (pairs s) w y).
      + intros s s' a b L. apply maybe_mono. intros w x (X & Y). split; [exact X|eapply piece_later; eauto].
      + assert (X : forall l m : list (bytes * hash), incl l m -> Forall2 (fun a u => a = (fst u, fresh (VH (snd u))) /\ In u m) (map (fun u => (fst u, fresh (VH (snd u)))) l) l).
        { intros l m. induction l as [|x l IH]; intros I; constructor; [split; [reflexivity|apply I; cbn; auto]|]. apply IH. intros y J. apply I. cbn. auto. }
        apply X, incl_refl.
      + intros s1 a (n, h) L1 (-> & I). cbn [fst snd]. rewrite Forall_forall in FU. destruct (FU _ I) as (ET & NZ & N1 & N2). cbn [fst snd] in *. rewrite (c_str_whole _ NZ). unfold configure, conf_opt, known, loads_b. cbn [fst snd]. change (fresh (VH h)) with (TH (ftab h)) at 1. cbv iota.
        destruct (find_plugin n) as [p|] eqn:EF; [|intros s L S; reflexivity]. pose proof (find_name _ _ EF) as EN. destruct (pl_load p).
        * rewrite EN. apply gives_eq with (o := obind (obind (conf_piece n h) (fun w => Some (Some (n, w)))) (fun x => Some x)); [destruct (conf_piece n h); reflexivity|]. eapply gives_bind with (R := fun s y x => maybe (pairs s) x (fst y)).
          -- eapply gives_bind; [apply one_gives; [exact fq_name_is|exact junk_len|apply (W n); exact ET|intros ->; now apply SZ|exact N1|exact N2]|]. cbv beta. intros s2 y w L2 (PM & _). apply gives_ret. intros s3 L3. cbn. split; [reflexivity|]. eapply piece_later; eauto.
          -- cbv beta. intros s2 y x L2 M. apply gives_ret. intros s3 L3. eapply maybe_mono; [|exact M]. intros w z (X & Y). split; [exact X|eapply piece_later; eauto].
        * apply gives_eq with (o := obind (Some (@None (bytes * piece_want))) (fun x => Some x)); [reflexivity|]. eapply gives_bind with (R := fun s y x => maybe (pairs s) x (fst y)); [apply gives_ret; intros; exact Logic.I|].
          cbv beta. intros s2 y x L2 M. apply gives_ret. intros s3 L3. eapply maybe_mono; [|exact M]. intros w z (X & Y). split; [exact X|eapply piece_later; eauto].
    - cbv beta. intros s1 l ws L1 F. apply gives_ret. intros s2 L2. clear -F L2. induction F as [|w x ws l M F IH]; [constructor|]. unfold some_of. cbn [flat_map]. apply Forall2_app; [|exact IH]. destruct w, x; cbn in M; try contradiction; constructor; [|constructor]. destruct M as (X & Y). split; [exact X|eapply piece_later; eauto].
  Qed.
  Lemma todo_in done p : In p (todo done) <-> In p plugin_table /\ In (pl_name p) (map (fun x => pl_name (snd x)) types) /\ pl_load p = true /\ ~ In (pl_name p) done.
  Proof.
    unfold todo. rewrite filter_In, !andb_true_iff, negb_true_iff. assert (X : existsb (fun x => bytes_eqb (pl_name (snd x)) (pl_name p)) types = true <-> In (pl_name p) (map (fun x => pl_name (snd x)) types)).
    { rewrite existsb_exists, in_map_iff. split; intros (x & A & B); exists x; [apply bytes_eqb_spec in B|split; [|apply bytes_eqb_spec]]; auto. }
    rewrite X. pose proof (among_in done (pl_name p)) as Y. unfold among in Y. destruct (existsb (bytes_eqb (pl_name p)) done); intuition congruence.
  Qed.
  Lemma todo_bare done p : In p (todo done) -> In (pl_name p) bare_names.
  Proof. intros I. apply todo_in in I as (A & B & C & _). apply (used_bare types); [exact types_fine|exact B|]. unfold loads_b. now rewrite (find_table p A). Qed.
  Lemma all_gives s0 done : gives s0 (configure_all gai strtod service junk gdmaps types done) (all bare_opt (todo done)) (fun s l ws => Forall2 (pairs s) ws l).
  Proof.
    unfold configure_all. fold (todo done). apply gives_mapm with (P := fun a u => a = u /\ In u (todo done)) (R := fun s y w => pairs s w y).
    - intros s s' a b L (X & Y). split; [exact X|eapply piece_later; eauto].
    - assert (X : forall l m : list plugin, incl l m -> Forall2 (fun a u => a = u /\ In u m) l l). { intros l m. induction l as [|x l IH]; intros I; constructor; [split; [reflexivity|apply I; cbn; auto]|]. apply IH. intros y J. apply I. cbn. auto. }
      apply X, incl_refl.
    - intros s1 a p L1 (-> & I). unfold bare_opt. apply gives_eq with (o := obind (bare_piece (pl_name p)) (fun w => Some (pl_name p, w))); [destruct (bare_piece (pl_name p)); reflexivity|].
      eapply gives_bind; [eapply bare_gives; [exact fq_name_is|exact junk_len|apply (todo_bare done); exact I]|]. cbv beta. intros s2 y w L2 PM. apply gives_ret. intros s3 L3. split; [reflexivity|]. eapply piece_later; eauto.
  Qed.

  (** All that is left to do, after geoip and metafo have made [pre] *)
  Definition tail (pre : list (bytes * piece)) (tops : tab) : cm (list (bytes * piece)) :=
    let* r <- the_rest gai strtod service junk gdmaps tops ;
    let* a <- configure_all gai strtod service junk gdmaps types (map fst (pre ++ r)) ;
    ret ((pre ++ r) ++ a).
  Definition tail_says (keys : list bytes) (T : confs) : option (list (bytes * option piece_want)) :=
    let? _ <- need (forallb known keys) ;
    all (fun p => let? w <- piece_says types T p ; Some (p, w)) rest_names.
  Lemma nodup_sub {A B C} (f : A -> option (option (B * C))) (g : A -> B) (l : list A) ws : (forall a b c, f a = Some (Some (b, c)) -> b = g a) -> NoDup (map g l) -> Forall2 (fun x y => f x = Some y) l ws -> NoDup (map fst (some_of ws)).
  Proof.
    intros H N F. induction F as [|a w l ws E F IH]; [constructor|]. cbn in N. inversion N as [|? ? NI N']; subst. unfold some_of. cbn [flat_map]. fold (some_of ws). destruct w as [(b, c)|]; [|now apply IH]. cbn. constructor; [|now apply IH].
    rewrite (H _ _ _ E). intros I. apply NI. apply in_map_iff in I as ((b', c') & EB & I). apply some_of_in in I. destruct (forall2_right _ _ _ _ F I) as (a' & IA & EA). cbn in EB. subst b'. rewrite (H _ _ _ EA). now apply in_map.
  Qed.
  Lemma nodup_app {A} (l l' : list A) : NoDup l -> NoDup l' -> (forall x, In x l -> In x l' -> False) -> NoDup (l ++ l').
  Proof. intros N N' D. induction l as [|a l IH]; [exact N'|]. inversion N as [|? ? NI N1]; subst. cbn. constructor; [|apply IH; [exact N1|]; intros x I; apply D; cbn; auto]. rewrite in_app_iff. intros [I|I]; [now apply NI|]. apply (D a); cbn; auto. Qed.
  Lemma nodup_names_filter {A B} (g : A -> B) P (l : list A) : NoDup (map g l) -> NoDup (map g (filter P l)).
  Proof. intros N. induction l as [|a l IH]; [constructor|]. cbn in N. inversion N as [|? ? NI N']; subst. cbn. destruct (P a); [|now apply IH]. cbn. constructor; [|now apply IH]. intros I. apply NI. apply in_map_iff in I as (x & E & I). apply filter_In in I as (I & _). rewrite <- E. now apply in_map. Qed.

  Lemma tail_gives s0 pre tops U T keys : unmarked tops = map (fun u => (fst u, fresh (VH (snd u)))) U -> NoDup (map fst U) ->
    Forall (fun u => T (fst u) = Some (snd u) /\ ~ In 0%N (fst u) /\ fst u <> txt "geoip" /\ fst u <> txt "metafo") U ->
    (forall p h, T p = Some h -> p <> txt "geoip" -> p <> txt "metafo" -> In (p, h) U) ->
    all_whole strtod T -> (forall h, T t_multifo = Some h -> sized (VH h)) -> (forall p, In p keys <-> T p <> None) ->
    Forall (fun x => fst x = txt "geoip" \/ fst x = txt "metafo") pre -> NoDup (map fst pre) ->
    gives s0 (tail pre tops) (tail_says keys T)
      (fun s l ws => exists r, l = pre ++ r /\ Forall (fun x => fst x <> txt "geoip" /\ fst x <> txt "metafo") r /\ NoDup (map fst l) /\ forall p w, In (p, w) ws -> maybe (piece_made s) w (piece_of p l)).
  Proof.
    intros EU NU FU CU W SZ KE PR NP. rewrite Forall_forall in FU.
    apply gives_iff with (o := obind (obind (all conf_opt U) (fun ws => Some (some_of ws))) (fun ws => obind (all bare_opt (todo (map fst pre ++ map fst ws))) (fun bs => Some (ws ++ bs)))) (R := fun s l ws => exists r, l = pre ++ r /\ Forall2 (pairs s) ws r).
    - unfold tail. eapply gives_bind; [apply (rest_gives s0 tops U T); try assumption; apply Forall_forall; exact FU|]. cbv beta. intros s1 r ws L1 F.
      assert (EN : map fst (pre ++ r) = map fst pre ++ map fst ws). { rewrite map_app. f_equal. clear -F. induction F as [|a b l l' (X & _) F IH]; [reflexivity|]. cbn. now rewrite X, IH. }
      rewrite EN. eapply gives_bind; [apply all_gives|]. cbv beta. intros s2 a bs L2 F2. apply gives_ret. intros s3 L3. exists (r ++ a). split; [now rewrite app_assoc|]. apply Forall2_app; [eapply (pairs_later s1); [eapply later_trans; [exact L2|exact L3]|exact F]|eapply (pairs_later s2); [exact L3|exact F2]].
    - (* both fail, or neither *)
      assert (IU : forall p h, In (p, h) U -> In p keys) by (intros p h I; apply KE; destruct (FU _ I) as (E & _); cbn in E; congruence).
      assert (ND : forall ws, all conf_opt U = Some ws -> forall p, In p bare_names -> T p = None -> ~ In p (map fst pre ++ map fst (some_of ws))).
      { intros ws A p B TN. rewrite in_app_iff. intros [I|I].
        - apply in_map_iff in I as (x & E & I). rewrite Forall_forall in PR. destruct (PR x I) as [X|X]; rewrite X in E; subst p; revert B; unfold bare_names; cbn; intuition discriminate.
        - apply in_map_iff in I as ((q, w) & E & I). cbn in E. subst q. apply some_of_in in I. destruct (forall2_right _ _ _ _ (all_some _ _ _ A) I) as ((n, h) & IN & EN). unfold conf_opt in EN. cbn [fst snd] in EN. destruct (known n); [|discriminate]. destruct (loads_b n); [|discriminate]. destruct (conf_piece n h); [|discriminate]. injection EN as <- _. destruct (FU _ IN) as (E & _). cbn in E. congruence. }
      unfold tail_says. split.
      + destruct (all conf_opt U) as [ws|] eqn:A; cbn [obind].
        * destruct (all bare_opt (todo (map fst pre ++ map fst (some_of ws)))) as [bs|] eqn:B; [discriminate|]. intros _. apply all_none in B as (p & I & E). destruct (forallb known keys); [|reflexivity]. cbn [need obind]. apply all_none. exists (pl_name p). pose proof (todo_bare _ _ I) as BN. apply todo_in in I as (I1 & I2 & I3 & I4).
          assert (RN : In (pl_name p) rest_names). { revert BN. unfold bare_names, rest_names. cbn [In map]. tauto. }
          split; [exact RN|]. destruct (T (pl_name p)) as [h|] eqn:TP.
          -- exfalso. apply I4. apply in_app_iff. right. apply rest_iff in RN as (K & N1 & N2). pose proof (CU _ _ TP N1 N2) as IN. destruct (forall2_left _ _ _ _ (all_some _ _ _ A) IN) as (w & IW & EW). unfold conf_opt in EW. cbn [fst snd] in EW. rewrite K in EW. unfold loads_b in EW. rewrite (find_table p I1), I3 in EW.
             destruct (conf_piece (pl_name p) h) as [w'|]; [|discriminate]. injection EW as <-. apply some_of_in in IW. apply in_map_iff. exists (pl_name p, w'). auto.
          -- rewrite (says_bare T _ BN TP I2). unfold bare_opt in E. destruct (bare_piece (pl_name p)); [discriminate|reflexivity].
        * intros _. apply all_none in A as ((n, h) & I & E). destruct (forallb known keys) eqn:FK; [|reflexivity]. cbn [need obind]. apply all_none. exists n. rewrite forallb_forall in FK. destruct (FU _ I) as (TP & _ & N1 & N2). cbn [fst snd] in *. pose proof (FK n (IU n h I)) as K.
          assert (RN : In n rest_names) by (apply rest_iff; auto). split; [exact RN|]. rewrite (says_some T n h RN TP). unfold conf_opt in E. cbn [fst snd] in E. rewrite K in E. destruct (loads_b n); [|discriminate]. destruct (conf_piece n h); [discriminate|reflexivity].
      + intros H. destruct (all conf_opt U) as [ws|] eqn:A; [|reflexivity]. cbn [obind]. destruct (all bare_opt (todo (map fst pre ++ map fst (some_of ws)))) as [bs|] eqn:B; [|reflexivity]. exfalso. revert H.
        assert (FK : forallb known keys = true).
        { apply forallb_forall. intros p IP. apply KE in IP. destruct (T p) as [h|] eqn:TP; [|congruence]. destruct known_first as (K1 & K2). destruct (bytes_eqb p (txt "geoip")) eqn:B1; [apply bytes_eqb_spec in B1; now subst|]. destruct (bytes_eqb p (txt "metafo")) eqn:B2; [apply bytes_eqb_spec in B2; now subst|].
          assert (IN : In (p, h) U) by (apply CU; [exact TP| |]; intros ->; rewrite eqb_refl' in *; discriminate). destruct (forall2_left _ _ _ _ (all_some _ _ _ A) IN) as (w & _ & EW). unfold conf_opt in EW. cbn [fst snd] in EW. destruct (known p); [reflexivity|discriminate]. }
        rewrite FK. cbn [need obind]. intros H. apply all_none in H as (p & RN & E). destruct (piece_says types T p) as [w|] eqn:PS; [discriminate|]. clear E. destruct (T p) as [h|] eqn:TP.
        * pose proof RN as RN'. apply rest_iff in RN' as (K & N1 & N2). pose proof (CU _ _ TP N1 N2) as IN. destruct (forall2_left _ _ _ _ (all_some _ _ _ A) IN) as (w & _ & EW). unfold conf_opt in EW. cbn [fst snd] in EW. rewrite K in EW. rewrite (says_some T p h RN TP) in PS. destruct (loads_b p); [|discriminate]. destruct (conf_piece p h); discriminate.
        * destruct (in_dec (list_eq_dec N.eq_dec) p bare_names) as [IB|NB]; [|rewrite (says_none T p RN TP) in PS; [discriminate|tauto]]. destruct (in_dec (list_eq_dec N.eq_dec) p (map (fun x => pl_name (snd x)) types)) as [IT|NT]; [|rewrite (says_none T p RN TP) in PS; [discriminate|tauto]].
          rewrite (says_bare T p IB TP IT) in PS. pose proof (ND ws eq_refl p IB TP) as NDP. assert (EP : exists q, In q plugin_table /\ pl_name q = p /\ pl_load q = true). { revert IB. unfold bare_names. cbn [In]. intros [<-|[<-|[<-|[]]]]; [exists (Plugin (txt "static") true true (Some (true, true)))|exists (Plugin (txt "null") true true (Some (true, true)))|exists (Plugin (txt "extmon") true false (Some (true, true)))]; cbn; tauto. }
          destruct EP as (q & IQ & EQ & LQ). subst p. assert (IT' : In q (todo (map fst pre ++ map fst (some_of ws)))) by (apply todo_in; auto). destruct (forall2_left _ _ _ _ (all_some _ _ _ B) IT') as (w & _ & EW). unfold bare_opt in EW. destruct (bare_piece (pl_name q)); discriminate.
    - (* what is made *)
      intros s l ws' ws E1 E2 (r & -> & F). exists r. split; [reflexivity|].
      destruct (all conf_opt U) as [cs|] eqn:A; [|discriminate]. cbn [obind] in E1. destruct (all bare_opt (todo (map fst pre ++ map fst (some_of cs)))) as [bs|] eqn:B; [|discriminate]. cbn [obind] in E1. injection E1 as <-.
      pose proof (all_some _ _ _ A) as FA. pose proof (all_some _ _ _ B) as FB.
      assert (ENR : map fst r = map fst (some_of cs ++ bs)). { clear -F. induction F as [|a b l l' (X & _) F IH]; [reflexivity|]. cbn [map]. now rewrite X, IH. }
      assert (EB : map fst bs = map pl_name (todo (map fst pre ++ map fst (some_of cs)))). { clear -FB. induction FB as [|p b l l' X FB IH]; [reflexivity|]. cbn [map]. rewrite IH. f_equal. unfold bare_opt in X. destruct (bare_piece (pl_name p)); [|discriminate]. now injection X as <-. }
      assert (CI : forall p w, In (p, w) (some_of cs) -> exists h, In (p, h) U /\ loads_b p = true /\ conf_piece p h = Some w).
      { intros p w I. apply some_of_in in I. destruct (forall2_right _ _ _ _ FA I) as ((n, h) & IN & EN). unfold conf_opt in EN. cbn [fst snd] in EN. destruct (known n); [|discriminate]. destruct (loads_b n) eqn:LB; [|discriminate]. destruct (conf_piece n h) eqn:CP; [|discriminate]. injection EN as <- <-. eauto. }
      assert (NDL : NoDup (map fst (pre ++ r))).
      { rewrite map_app, ENR, map_app, EB. apply nodup_app; [exact NP| |].
        - apply nodup_app; [|apply nodup_names_filter, table_nodup|].
          + apply (nodup_sub conf_opt fst U); [|exact NU|exact FA]. intros u b c. unfold conf_opt. destruct (known (fst u)); [|discriminate]. destruct (loads_b (fst u)); [|discriminate]. destruct (conf_piece (fst u) (snd u)); [|discriminate]. intros [= <- _]. reflexivity.
          + intros x I J. apply in_map_iff in J as (p & <- & J). apply todo_in in J as (_ & _ & _ & J). apply J. apply in_app_iff. auto.
        - intros x I J. apply in_app_iff in J as [J|J].
          + apply in_map_iff in J as ((p, w) & E & J). cbn in E. subst p. destruct (CI _ _ J) as (h & IU & _). destruct (FU _ IU) as (_ & _ & N1 & N2). cbn [fst] in N1, N2. apply in_map_iff in I as (y & E & I). rewrite Forall_forall in PR. destruct (PR y I) as [X|X]; congruence.
          + apply in_map_iff in J as (p & E & J). subst x. apply todo_in in J as (_ & _ & _ & J). apply J. apply in_app_iff. auto. }
      split.
      { apply Forall_forall. intros x I. assert (J : In (fst x) (map fst r)) by now apply in_map. rewrite ENR, map_app, in_app_iff in J. destruct J as [J|J].
        - apply in_map_iff in J as ((p, w) & E & J). cbn [fst] in E. destruct (CI _ _ J) as (h & IU & _). destruct (FU _ IU) as (_ & _ & N1 & N2). cbn [fst] in N1, N2. rewrite <- E. auto.
        - rewrite EB in J. apply in_map_iff in J as (p & <- & J). apply todo_bare in J. revert J. unfold bare_names. cbn [In]. intros [<-|[<-|[<-|[]]]]; split; discriminate. }
      split; [exact NDL|].
      assert (PO : forall p x, In (p, x) (pre ++ r) -> piece_of p (pre ++ r) = Some x).
      { intros p x I. unfold piece_of. rewrite <- (rev_involutive (pre ++ r)) in NDL, I. rewrite map_rev in NDL. apply NoDup_rev in NDL. rewrite rev_involutive in NDL. apply in_rev in I. clear -NDL I. induction (rev (pre ++ r)) as [|(n, y) l IH]; [destruct I|]. cbn in NDL. inversion NDL as [|? ? NI N']; subst. cbn. destruct I as [[= -> ->]|I]; [now rewrite eqb_refl'|].
        destruct (bytes_eqb p n) eqn:BB; [|now apply IH]. apply bytes_eqb_spec in BB. subst n. exfalso. apply NI. apply in_map_iff. now exists (p, x). }
      assert (PN : forall p, ~ In p (map fst (pre ++ r)) -> piece_of p (pre ++ r) = None).
      { intros p NI. unfold piece_of. destruct (List.find _ _) as [(n, y)|] eqn:EF; [|reflexivity]. apply find_some in EF as (I & E). apply bytes_eqb_spec in E. cbn in E. subst n. exfalso. apply NI. apply in_rev in I. apply in_map_iff. now exists (p, y). }
      intros p w I. unfold tail_says in E2. destruct (forallb known keys); [|discriminate]. cbn [need obind] in E2. destruct (forall2_right _ _ _ _ (all_some _ _ _ E2) I) as (q & RN & EQ). destruct (piece_says types T q) as [w'|] eqn:PS; [|discriminate]. injection EQ as -> ->.
      pose proof RN as RN'. apply rest_iff in RN' as (K & N1 & N2).
      assert (FIND : forall w0, In (p, w0) (some_of cs ++ bs) -> maybe (piece_made s) (Some w0) (piece_of p (pre ++ r))).
      { intros w0 I0. destruct (forall2_left _ _ _ _ F I0) as ((n, x) & IX & X & PM). cbn [fst snd] in *. subst n. rewrite (PO p x); [exact PM|apply in_app_iff; auto]. }
      assert (NPRE : ~ In p (map fst pre)). { intros J. apply in_map_iff in J as (y & E & J). rewrite Forall_forall in PR. destruct (PR y J) as [X|X]; congruence. }
      assert (GONE : (forall w0, ~ In (p, w0) (some_of cs)) -> ~ In p (map fst bs) -> maybe (piece_made s) None (piece_of p (pre ++ r))).
      { intros G1 G2. rewrite PN; [exact Logic.I|]. rewrite map_app, in_app_iff, ENR, map_app, in_app_iff. intros [J|[J|J]]; [now apply NPRE| |now apply G2]. apply in_map_iff in J as ((n, w0) & E & J). cbn in E. subst n. now apply (G1 w0). }
      destruct (T p) as [h|] eqn:TP.
      + pose proof (CU _ _ TP N1 N2) as IN. rewrite (says_some T p h RN TP) in PS. destruct (loads_b p) eqn:LB.
        * destruct (conf_piece p h) as [w0|] eqn:CP; [|discriminate]. injection PS as <-. apply FIND. apply in_app_iff. left. apply some_of_in. destruct (forall2_left _ _ _ _ FA IN) as (y & IY & EY). unfold conf_opt in EY. cbn [fst snd] in EY. rewrite K, LB, CP in EY. injection EY as <-. exact IY.
        * injection PS as <-. apply GONE.
          -- intros w0 I0. destruct (CI _ _ I0) as (h0 & _ & X & _). congruence.
          -- rewrite EB. intros J. apply in_map_iff in J as (q & EQ & J). apply todo_in in J as (J1 & _ & J3 & _). unfold loads_b in LB. rewrite <- EQ, (find_table q J1) in LB. congruence.
      + assert (G1 : forall w0, ~ In (p, w0) (some_of cs)). { intros w0 I0. destruct (CI _ _ I0) as (h0 & I1 & _). destruct (FU _ I1) as (X & _). cbn in X. congruence. }
        destruct (in_dec (list_eq_dec N.eq_dec) p (map fst bs)) as [IB|NB].
        * pose proof IB as IB'. rewrite EB in IB'. apply in_map_iff in IB' as (q & EQ & J). pose proof (todo_bare _ _ J) as BN. rewrite EQ in BN. apply todo_in in J as (J1 & J2 & _). rewrite EQ in J2. rewrite (says_bare T p BN TP J2) in PS.
          apply in_map_iff in IB as ((n, w0) & E & IB). cbn in E. subst n. destruct (forall2_right _ _ _ _ FB IB) as (q' & _ & EQ'). unfold bare_opt in EQ'. destruct (bare_piece (pl_name q')) as [w1|] eqn:BP; [|discriminate]. injection EQ' as EP <-. rewrite EP in BP. rewrite BP in PS. injection PS as <-. apply FIND. apply in_app_iff. auto.
        * rewrite (says_none T p RN TP) in PS; [injection PS as <-; now apply GONE|]. intros (BN & IT). apply NB. rewrite EB. assert (EP : exists q, In q plugin_table /\ pl_name q = p /\ pl_load q = true). { revert BN. unfold bare_names. cbn [In]. intros [<-|[<-|[<-|[]]]]; [exists (Plugin (txt "static") true true (Some (true, true)))|exists (Plugin (txt "null") true true (Some (true, true)))|exists (Plugin (txt "extmon") true false (Some (true, true)))]; cbn; tauto. }
          destruct EP as (q & IQ & EQ & LQ). apply in_map_iff. exists q. split; [exact EQ|]. apply todo_in. rewrite EQ. split; [exact IQ|]. split; [exact IT|]. split; [exact LQ|]. rewrite in_app_iff. intros [J|J]; [now apply NPRE|]. apply in_map_iff in J as ((n, w0) & E & J). cbn in E. subst n. now apply (G1 w0).
  Qed.
End Rest.
