(** One datacenter *)
From Coq Require Import Permutation String ZArith.
From Verif Require Import Base DnameModel DnameSpec DnameProofs CompModel CompProofs RespModel RespProofs5 MonModel VscfModel VscfSpec OptModel VhashModel VhashSpec PlugModel MsgModel MsgProofs2 MsgProofs3 ZdirProofs3 LtreeModel PconfModel PconfSpec PconfProofs2 PconfProofs3 PconfProofs4 PconfProofs5 PconfProofs6 PconfProofs McfModel McfSpec McfProofs.
Local Open Scope nat_scope.
Local Open Scope list_scope.
Local Notation length := List.length.
Ltac Zify.zify_post_hook ::= idtac.

Lemma eqb_refl' a : bytes_eqb a a = true.
Proof. now apply bytes_eqb_spec. Qed.
Lemma eqb_false a b : a <> b -> bytes_eqb a b = false.
Proof. intros N. destruct (bytes_eqb a b) eqn:E; [apply bytes_eqb_spec in E; contradiction|reflexivity]. Qed.

Section Steps.
  Variable gai : bytes -> option addr.
  Variable service : bytes -> option (bool * bool).
  Variable junk : bytes.
  Variable k : kind.
  Variable fq_name : bytes -> option name.
  Hypothesis fq_name_is : forall t ls, all_bytes t -> (fq_name t = Some ls <-> name_text t ls true /\ legal_name ls).
  Hypothesis junk_len : length junk = 256.
  Notation gives := (gives service).

  Lemma admin_later s s' i : later s s' -> admin s i -> admin s' i.
  Proof. intros ((l & E) & _) H. unfold admin in *. rewrite E, nth_error_app1; [exact H|]. apply nth_error_Some. congruence. Qed.
  Lemma later_length s s' : later s s' -> length (mons s) <= length (mons s').
  Proof. intros ((l & E) & _). rewrite E, app_length. lia. Qed.
  Lemma admin_gives s0 : gives s0 mon_admin (Some tt) (fun s i _ => admin s i /\ length (mons s0) <= i < length (mons s)).
  Proof.
    intros s L (S1 & S2). unfold mon_admin. exists tt. split; [reflexivity|]. pose proof (later_length _ _ L) as LE. cbn [mons]. rewrite app_length. cbn [List.length]. split; [|split].
    - split; [|lia]. unfold admin. cbn [mons]. rewrite nth_error_app2, Nat.sub_diag by lia. reflexivity.
    - split; [cbn; eexists; reflexivity|]. split; apply N.le_refl.
    - assert (X : forall i e, nth_error (mons s ++ [None]) i = Some (Some e) -> nth_error (mons s) i = Some (Some e)).
      { intros i e H. destruct (Nat.lt_ge_cases i (length (mons s))) as [LI|LI]; [now rewrite nth_error_app1 in H by exact LI|]. rewrite nth_error_app2 in H by exact LI. destruct (i - length (mons s)) as [|n]; [discriminate|destruct n; discriminate]. }
      split; cbn [mons]; intros; eauto.
  Qed.
  Lemma gives_pre {A B} s0 (m : cm A) (o : option B) R : (forall s, later s0 s -> gives s m o R) -> gives s0 m o R.
  Proof. intros H s L S. apply (H s L s (later_refl s) S). Qed.
  Lemma plug_name_gives s0 D H : gives s0 (plug_name (mtab D H)) (plugin_says H) (fun _ a b => a = b).
  Proof. unfold plug_name, plugin_says. rewrite value_mtab. destruct (get k_plugin H) as [[r v|l|h]|]; cbn; try (now apply gives_ret); apply gives_fatal. Qed.

  (** ** New resources *)
  Lemma agree_value tops T p : agree tops T -> p <> pn Geoip -> p <> pn k -> value p tops = option_map (fun h => TH (ftab h)) (T p).
  Proof. intros A _ _. apply (A p). Qed.
  Lemma made_or_there p tops T : agree tops T -> p <> pn Geoip -> p <> pn k ->
    exists tops1, get_or_make p tops = ret (ftab (conf_of (T p)), tops1) /\ value p tops1 <> None /\ forall q, q <> p -> value q tops1 = value q tops.
  Proof.
    intros A N1 N2. unfold get_or_make. rewrite (agree_value _ _ _ A N1 N2). destruct (T p) as [h|] eqn:E; cbn [option_map conf_of].
    - exists tops. split; [reflexivity|]. split; [|reflexivity]. rewrite (agree_value _ _ _ A N1 N2), E. discriminate.
    - exists (tops ++ [(p, false, TH [])]). split; [reflexivity|]. split.
      + rewrite value_app. cbn. destruct (same p p); [|congruence]. destruct (value p tops); discriminate.
      + intros q NQ. rewrite value_app. cbn. destruct (same q p); [congruence|]. destruct (value q tops); reflexivity.
  Qed.
  Lemma resources_there h : NoDup (map fst h) -> (forall x, get k_resources h = Some x -> exists rs, x = VH rs) ->
    exists outer, get_or_make k_resources (ftab h) = ret (ftab (resources_of h), outer) /\ forall v, put k_resources (fresh v) outer = ftab (with_key k_resources v h).
  Proof.
    intros N O. unfold get_or_make, resources_of. rewrite ftab_value. destruct (get k_resources h) as [x|] eqn:E.
    - destruct (O x eq_refl) as (rs & ->). cbn [option_map fresh]. exists (ftab h). split; [reflexivity|]. intros v. rewrite <- !mtab_nil. apply put_mtab; [exact N|]. rewrite E. discriminate.
    - cbn [option_map]. exists (ftab h ++ [(k_resources, false, TH [])]). split; [reflexivity|]. intros v. rewrite (with_key_new _ _ _ E).
      assert (X : ftab h ++ [(k_resources, false, TH [])] = mtab [] (h ++ [(k_resources, VH [])])) by (unfold ftab, mtab; rewrite map_app; reflexivity). rewrite X, <- (mtab_nil (h ++ [(k_resources, v)])).
      rewrite put_mtab.
      + f_equal. clear -E. induction h as [|(a, w) h IH]; [reflexivity|]. cbn [get app with_key fst] in *. destruct (bytes_eqb k_resources a); [discriminate|]. f_equal. now apply IH.
      + rewrite map_app. cbn. apply Permutation_NoDup with (l := k_resources :: map fst h); [apply Permutation_cons_append|]. constructor; [now apply get_none|exact N].
      + rewrite get_app, E. discriminate.
  Qed.
  Lemma agree_with tops tops1 T p h : agree tops T -> (forall q, q <> p -> value q tops1 = value q tops) -> value p tops1 <> None ->
    agree (put p (TH (ftab h)) tops1) (with_conf p h T).
  Proof.
    intros A O V q. rewrite value_put. unfold with_conf. destruct (bytes_eqb q p) eqn:B.
    - cbn. destruct (value p tops1); [reflexivity|congruence].
    - rewrite O; [now apply A|]. intros ->. rewrite eqb_refl' in B. discriminate.
  Qed.
  Definition is_new (rname dcname : bytes) (w : dc_want) (x : mc_kind) : Prop :=
    match w with MakeNew p _ => x = McSub p (Some (child_name k rname dcname)) | _ => False end.
  Definition new_want (x : vnode) (shared : hash) : option dc_want :=
    match x with VH h => new_says k h shared | VA l => list_says k l shared | VS _ _ => list_says k [x] shared end.
  Definition then_add (rname dcname : bytes) (o : option dc_want) (T : confs) : option (dc_want * confs) :=
    let? w <- o ; let? T' <- add_new k rname dcname w T ; Some (w, T').

  Lemma fine_plugin h p : fine k h -> plugin_says h = Some p -> k = Metafo -> p <> pn Geoip.
  Proof.
    intros F. unfold plugin_says. destruct (get k_plugin h) as [[r v|l|x]|] eqn:E; intros [= <-] K; [|discriminate]. apply get_some_in in E. destruct (fine_in _ _ _ F E) as (_ & _ & _ & _ & _ & _ & S). cbn in S. eapply S; eauto.
  Qed.
  Lemma all_fresh l : Forall (fun x => is_text x = is_simple x) l.
  Proof. apply Forall_forall. intros [| |] _; reflexivity. Qed.
  Lemma numbers_ftab l : forall i, ftab (numbered_from i l) = numbers i (map fresh l).
  Proof. induction l as [|x l IH]; intros i; [reflexivity|]. cbn. f_equal. apply IH. Qed.
  Lemma decimal_not_plugin i : decimal i <> k_plugin.
  Proof. intros E. destruct (decimal_other i (txt "plugi") 110) as [H|H]; [now apply H|]. lia. Qed.
  (** [numbered_is] after the plugin *)
  Lemma numbered_plugin l : forall i t, (forall q, In q (keys t) -> q = k_plugin \/ exists j, q = decimal j /\ (j < i)%N) ->
    numbered i (map fresh l) t = if forallb is_simple l then ret (t ++ numbers i (map fresh l)) else fatal.
  Proof.
    induction l as [|x l IH]; intros i t H; [cbn; now rewrite app_nil_r|]. destruct x as [r v|a|a]; [|reflexivity|reflexivity]. cbn [map numbered fresh forallb is_simple andb numbers copy].
    assert (V : value (decimal i) t = None). { apply value_none. intros I. destruct (H _ I) as [E|(j & E & L)]; [now apply decimal_not_plugin in E|]. apply decimal_inj in E. lia. }
    rewrite V, IH.
    - destruct (forallb is_simple l); [|reflexivity]. now rewrite <- app_assoc.
    - intros q I. unfold keys in I. rewrite map_app in I. apply in_app_iff in I as [I|[<-|[]]]; [destruct (H _ I) as [->|(j & E & L)]; [now left|right; exists j; split; [exact E|lia]]|]. right. exists i. split; [reflexivity|lia].
  Qed.
  Lemma bind_ret {A B} (a : A) (f : A -> cm B) : bind (ret a) f = f a.
  Proof. reflexivity. Qed.

  Lemma inject_rest s0 rname dcname h D H T tops : fine k H -> (k = Metafo -> forall p, plugin_says (filled h (others D H)) = Some p -> p <> pn Geoip) -> agree tops T -> open_confs T ->
    gives s0 (let t := inherit_all (mtab D H) (ftab h) in
              let* p <- plug_name t ;
              let t := mark k_plugin t in
              let* _ <- check (negb (bytes_eqb p (pn k))) ;
              let* pt <- get_or_make p tops ;
              let* rt <- (if bytes_eqb p t_metafo then let* y <- get_or_make k_resources (fst pt) ; ret (Some (snd y), fst y) else ret (None, fst pt)) ;
              let* _ <- check (match value (pn k ++ txt "_" ++ rname ++ txt "_" ++ dcname) (snd rt) with None => true | Some _ => false end) ;
              let target := snd rt ++ [(pn k ++ txt "_" ++ rname ++ txt "_" ++ dcname, false, copy true (TH t))] in
              let pc := match fst rt with Some outer => put k_resources (TH target) outer | None => target end in
              ret (McSub p (Some (pn k ++ txt "_" ++ rname ++ txt "_" ++ dcname)), put p (TH pc) (snd pt)))
      (then_add rname dcname (new_says k h (others D H)) T)
      (fun _ y z => is_new rname dcname (fst z) (fst y) /\ agree (snd y) (snd z) /\ open_confs (snd z)).
  Proof.
    intros FH GP A O. rewrite (fine_inherit k D H h FH). set (F := filled h (others D H)) in *. cbv zeta. unfold then_add, new_says. fold F.
    eapply gives_eq with (o := obind (plugin_says F) (fun p => obind (need (negb (bytes_eqb p (pn k)))) (fun _ => obind (add_new k rname dcname (MakeNew p (others [k_plugin] F)) T) (fun T' => Some (MakeNew p (others [k_plugin] F), T'))))).
    { destruct (plugin_says F) as [p|]; [|reflexivity]. cbn [obind]. destruct (need (negb (bytes_eqb p (pn k)))); reflexivity. }
    eapply gives_bind'; [rewrite <- (mtab_nil F); apply plug_name_gives|]. cbv beta. intros s1 a b L1 EP ->. apply gives_check. intros NE. apply negb_true_iff in NE.
    assert (N2 : b <> pn k). { intros ->. rewrite eqb_refl' in NE. discriminate. }
    assert (N1 : b <> pn Geoip) by (destruct k eqn:EK; [apply (GP eq_refl b EP)|exact N2]).
    destruct (made_or_there b tops T A N1 N2) as (tops1 & EG & V & OV). rewrite EG, bind_ret. cbn [fst snd].
    assert (EC : copy true (TH (mark k_plugin (ftab F))) = fresh (VH (others [k_plugin] F))) by (rewrite <- mtab_nil, mark_mtab; apply copy_mtab).
    rewrite EC. fold (child_name k rname dcname). cbn [add_new]. destruct (bytes_eqb b t_metafo) eqn:BM.
    - apply bytes_eqb_spec in BM. subst b. set (h0 := conf_of (T t_metafo)).
      assert (O0 : NoDup (map fst h0) /\ forall x, get k_resources h0 = Some x -> exists rs, x = VH rs). { unfold h0. destruct (T t_metafo) as [h1|] eqn:ET; [apply (O h1 ET)|]. split; [constructor|discriminate]. }
      destruct O0 as (ND & OR). destruct (resources_there h0 ND OR) as (outer & ER & EPUT). rewrite ER, !bind_ret. cbn [fst snd]. unfold added.
      eapply gives_eq with (o := obind (need (match get (child_name k rname dcname) (resources_of h0) with None => true | Some _ => false end)) (fun _ => Some (MakeNew t_metafo (others [k_plugin] F), with_conf t_metafo (with_key k_resources (VH (resources_of h0 ++ [(child_name k rname dcname, VH (others [k_plugin] F))])) h0) T))).
      { destruct (get (child_name k rname dcname) (resources_of h0)); reflexivity. }
      rewrite ftab_value. replace (match option_map fresh (get (child_name k rname dcname) (resources_of h0)) with None => true | Some _ => false end) with (match get (child_name k rname dcname) (resources_of h0) with None => true | Some _ => false end) by (destruct (get (child_name k rname dcname) (resources_of h0)); reflexivity).
      apply gives_check. intros _. apply gives_ret. intros s3 _. cbn [fst snd is_new]. split; [reflexivity|].
      assert (EE : TH (ftab (resources_of h0) ++ [(child_name k rname dcname, false, fresh (VH (others [k_plugin] F)))]) = fresh (VH (resources_of h0 ++ [(child_name k rname dcname, VH (others [k_plugin] F))]))) by (rewrite (fresh_hash (resources_of h0 ++ _)); f_equal; unfold ftab; now rewrite map_app).
      rewrite EE, EPUT. split; [now apply agree_with with (tops := tops)|]. intros h2. unfold with_conf. rewrite eqb_refl'. intros [= <-]. split.
      + now apply keys_with_key.
      + intros x. rewrite get_with_key, eqb_refl'. intros [= <-]. eauto.
    - rewrite bind_ret. cbn [fst snd]. unfold added. set (h0 := conf_of (T b)).
      eapply gives_eq with (o := obind (need (match get (child_name k rname dcname) h0 with None => true | Some _ => false end)) (fun _ => Some (MakeNew b (others [k_plugin] F), with_conf b (h0 ++ [(child_name k rname dcname, VH (others [k_plugin] F))]) T))).
      { destruct (get (child_name k rname dcname) h0); reflexivity. }
      rewrite ftab_value. replace (match option_map fresh (get (child_name k rname dcname) h0) with None => true | Some _ => false end) with (match get (child_name k rname dcname) h0 with None => true | Some _ => false end) by (destruct (get (child_name k rname dcname) h0); reflexivity).
      apply gives_check. intros _. apply gives_ret. intros s3 _. cbn [fst snd is_new]. split; [reflexivity|].
      assert (EE : ftab h0 ++ [(child_name k rname dcname, false, fresh (VH (others [k_plugin] F)))] = ftab (h0 ++ [(child_name k rname dcname, VH (others [k_plugin] F))])) by (unfold ftab; now rewrite map_app).
      rewrite EE. split; [now apply agree_with with (tops := tops)|]. intros h2. unfold with_conf. destruct (bytes_eqb t_metafo b) eqn:B; [|apply O]. apply bytes_eqb_spec in B. subst b. rewrite eqb_refl' in BM. discriminate.
  Qed.

  Lemma items_elements x : (forall h, x <> VH h) -> items (fresh x) = map fresh (elements x).
  Proof. destruct x as [r v|l|h]; intros N; [reflexivity|reflexivity|]. now destruct (N h). Qed.
  Lemma list_gives s0 rname dcname l D H T tops : fine k H -> agree tops T -> open_confs T ->
    gives s0 (let* t <- numbered 1 (map fresh l) [(k_plugin, false, TS t_multifo t_multifo)] ;
              let t := inherit_all (mtab D H) t in
              let* p <- plug_name t ;
              let t := mark k_plugin t in
              let* _ <- check (negb (bytes_eqb p (pn k))) ;
              let* pt <- get_or_make p tops ;
              let* rt <- (if bytes_eqb p t_metafo then let* y <- get_or_make k_resources (fst pt) ; ret (Some (snd y), fst y) else ret (None, fst pt)) ;
              let* _ <- check (match value (pn k ++ txt "_" ++ rname ++ txt "_" ++ dcname) (snd rt) with None => true | Some _ => false end) ;
              let target := snd rt ++ [(pn k ++ txt "_" ++ rname ++ txt "_" ++ dcname, false, copy true (TH t))] in
              let pc := match fst rt with Some outer => put k_resources (TH target) outer | None => target end in
              ret (McSub p (Some (pn k ++ txt "_" ++ rname ++ txt "_" ++ dcname)), put p (TH pc) (snd pt)))
      (then_add rname dcname (list_says k l (others D H)) T)
      (fun _ y z => is_new rname dcname (fst z) (fst y) /\ agree (snd y) (snd z) /\ open_confs (snd z)).
  Proof.
    intros FH A O. rewrite numbered_plugin by (intros q [<-|[]]; now left). unfold list_says. destruct (forallb is_simple l); [|apply gives_fatal].
    rewrite bind_ret. cbn [need obind].
    replace ([(k_plugin, false, TS t_multifo t_multifo)] ++ numbers 1 (map fresh l)) with (ftab ((k_plugin, VS t_multifo t_multifo) :: numbered_from 1 l)) by (cbn [ftab map fst snd fresh app]; f_equal; apply numbers_ftab).
    apply inject_rest; [exact FH| |exact A|exact O].
    intros K p. unfold plugin_says. rewrite get_filled. cbn [setting get]. rewrite eqb_refl'. intros [= <-]. discriminate.
  Qed.
  Lemma inject_gives s0 rname dcname x D H T tops : fine k H -> (forall h, x = VH h -> fine k h) -> agree tops T -> open_confs T ->
    gives s0 (inject k rname dcname (mtab D H) (fresh x) tops) (then_add rname dcname (new_want x (others D H)) T)
      (fun _ y z => is_new rname dcname (fst z) (fst y) /\ agree (snd y) (snd z) /\ open_confs (snd z)).
  Proof.
    intros FH FX A O. unfold inject. destruct x as [r v|l|h]; cbn [new_want].
    - apply (list_gives s0 rname dcname [VS r v]); assumption.
    - apply (list_gives s0 rname dcname l); assumption.
    - change (fresh (VH h)) with (TH (ftab h)). cbv iota. rewrite bind_ret. apply inject_rest; [exact FH| |exact A|exact O].
      intros K p EP. eapply fine_plugin; [|exact EP|exact K]. apply fine_filled; [now apply FX|now apply fine_others].
  Qed.

  (** The resource's plugin may have been marked *)
  Definition plus (seen : bool) (D : list bytes) : list bytes := if seen then k_plugin :: D else D.
  Lemma mark_plus seen D H : mark k_plugin (mtab (plus seen D) H) = mtab (plus true D) H.
  Proof.
    rewrite mark_mtab. destruct seen; [|reflexivity]. cbn [plus]. unfold mtab. apply map_ext. intros e. f_equal. f_equal. cbn [among existsb]. now destruct (bytes_eqb (fst e) k_plugin).
  Qed.
  Definition keeps_plugin (seen : bool) (H : hash) (x : vnode) : Prop :=
    match x with VH h => seen = true -> get k_plugin h <> None \/ get k_plugin H = None | _ => True end.
  Lemma filled_plus seen D H h : (seen = true -> get k_plugin h <> None \/ get k_plugin H = None) -> filled h (others (plus seen D) H) = filled h (others D H).
  Proof.
    destruct seen; [|reflexivity]. intros P. cbn [plus]. destruct (P eq_refl) as [G|G]; [|now rewrite (others_cons_absent _ _ _ G)].
    unfold filled. f_equal. clear P. unfold others. induction H as [|e H IH]; [reflexivity|]. cbn [filter]. cbn [among existsb]. fold (among D (fst e)). destruct (bytes_eqb (fst e) k_plugin) eqn:B; cbn [orb negb].
    - apply bytes_eqb_spec in B. destruct (among D (fst e)); cbn [negb filter]; [exact IH|]. rewrite B. destruct (get k_plugin h); [exact IH|congruence].
    - destruct (among D (fst e)); cbn [negb filter]; [exact IH|]. destruct (get (fst e) h); [exact IH|]. now f_equal.
  Qed.
  Lemma new_want_plus seen D H x : keeps_plugin seen H x -> new_want x (others (plus seen D) H) = new_want x (others D H).
  Proof.
    intros P. assert (L : forall l, list_says k l (others (plus seen D) H) = list_says k l (others D H)).
    { intros l. unfold list_says, new_says. rewrite (filled_plus seen D H); [reflexivity|]. intros _. left. cbn [get]. rewrite eqb_refl'. discriminate. }
    destruct x as [r v|l|h]; cbn [new_want]; [apply L|apply L|]. unfold new_says. rewrite (filled_plus seen D H); [reflexivity|exact P].
  Qed.

  Definition bang (x : vnode) : bool := match x with VS _ v => match c_str v with 33%N :: _ => true | _ => false end | _ => false end.
  Definition dc_post s0 rname dcname mapi (seen' : bool) D H (s : state) (y : mc_dc * tab * tab) (z : dc_want * confs) : Prop :=
    dc_made k s rname dcname (fst z) (fst (fst y)) /\ mc_map (fst (fst y)) = mapi /\ length (mons s0) <= mc_mon (fst (fst y)) < length (mons s) /\
    snd (fst y) = mtab (plus seen' D) H /\ agree (snd y) (snd z) /\ open_confs (snd z).
  Lemma split_none t : LtreeModel.split_bang t = (fst (LtreeModel.split_bang t), None) -> fst (LtreeModel.split_bang t) = t.
  Proof. induction t as [|c t IH]; [reflexivity|]. cbn. destruct (N.eqb c 33); [discriminate|]. destruct (LtreeModel.split_bang t) as (p, r). cbn in *. intros [= ->]. f_equal. apply IH. reflexivity. Qed.
  Lemma among_types seen D : among D k_types = false -> among (plus seen D) k_types = false.
  Proof. intros A. destruct seen; [|exact A]. cbn [plus among existsb]. fold (among D k_types). rewrite A. reflexivity. Qed.

  Lemma dc_gives s0 rname dcname mapi x seen D H T tops : fine k H -> kept k (dcname, x) -> keeps_plugin seen H x -> among D k_plugin = false -> among D k_types = false -> agree tops T -> open_confs T ->
    gives s0 (config_dc gai service junk k rname (mtab (plus seen D) H) dcname mapi (fresh x) tops)
      (then_add rname dcname (dc_says gai service fq_name k rname (others D H) x) T) (dc_post s0 rname dcname mapi (seen || bang x) D H).
  Proof.
    intros FH KX KP AP AT A O. unfold config_dc.
    apply gives_eq with (o := obind (Some tt) (fun _ => then_add rname dcname (dc_says gai service fq_name k rname (others D H) x) T)); [reflexivity|].
    eapply gives_bind; [apply admin_gives|]. intros s1 i [] L1 (AI & BI).
    set (dc := fun w => {| mc_name := dcname; mc_map := mapi; mc_mon := i; mc_what := w |}).
    assert (LE : forall s, later s1 s -> length (mons s0) <= i < length (mons s)). { intros s L. pose proof (later_length _ _ L). lia. }
    assert (INJ : bang x = false -> gives s1 (let* y <- inject k rname dcname (mtab (plus seen D) H) (fresh x) tops ; ret (dc (fst y), mtab (plus seen D) H, snd y))
                    (then_add rname dcname (new_want x (others D H)) T) (dc_post s0 rname dcname mapi (seen || bang x) D H)).
    { intros EB. rewrite EB, orb_false_r. rewrite <- (new_want_plus seen D H x KP).
      apply gives_eq with (o := obind (then_add rname dcname (new_want x (others (plus seen D) H)) T) (fun z => Some z)). { destruct (then_add rname dcname (new_want x (others (plus seen D) H)) T); reflexivity. }
      eapply gives_bind; [apply inject_gives; [exact FH| |exact A|exact O]|].
      - intros h ->. destruct KX as (K1 & K2 & K3 & K4 & _). now apply fine_is.
      - cbv beta. intros s2 y z L2 (N & A' & O'). apply gives_ret. intros s3 L3. unfold dc_post. cbn [fst snd dc mc_map mc_mon].
        assert (L13 : later s1 s3) by (eapply later_trans; eauto). split; [|split; [reflexivity|split; [now apply LE|split; [reflexivity|split; assumption]]]].
        unfold dc_made. cbn [mc_name mc_mon mc_what]. split; [reflexivity|]. split; [eapply admin_later; eauto|]. unfold is_new in N. destruct (fst z); try contradiction. rewrite N. split; reflexivity. }
    destruct x as [r v|l|h]; [|exact (INJ eq_refl)|exact (INJ eq_refl)].
    assert (MADE : forall w m s, later s1 s -> (forall n l, w = GoTo n l -> exists idx, m = McName n idx /\ Forall2 (monitors s (OnName (dname n true))) l idx) -> (forall p q, w = AskFor p q -> m = McSub p q) -> (forall p q, w <> MakeNew p q) ->
      dc_made k s rname dcname w (dc m)).
    { intros w m s L H1 H2 H3. unfold dc_made. cbn [dc mc_name mc_mon mc_what]. split; [reflexivity|]. split; [eapply admin_later; eauto|]. destruct w as [n l|p q|p q]; [|rewrite (H2 p q eq_refl); auto|now destruct (H3 p q)].
      destruct (H1 n l eq_refl) as (idx & -> & F). auto. }
    assert (NAME : bang (VS r v) = false -> gives s1 (match gai (c_str v) with
              | Some _ => let* y <- inject k rname dcname (mtab (plus seen D) H) (fresh (VS r v)) tops ; ret (dc (fst y), mtab (plus seen D) H, snd y)
              | None =>
                  let* d <- lift (dname_from_string junk r) ;
                  let '(status, buf) := d in
                  match status with
                  | DNAME_VALID =>
                      let* l <- lift (rd buf 0) ;
                      let* d <- lift (rdn buf 0 (S (N.to_nat l))) ;
                      let* svcs <- svc_names (value k_types (mtab (plus seen D) H)) ;
                      let* idx <- mapm (mon_thing service (OnName d)) svcs ;
                      ret (dc (McName (labels_of 256 (tl d)) idx), mtab (plus seen D) H, tops)
                  | _ => fatal
                  end
              end)
        (then_add rname dcname (match gai (c_str v) with
            | Some _ => list_says k [VS r v] (others D H)
            | None => let? d <- fq_name r ; let? svcs <- services (get k_types (others D H)) ; let? _ <- watched service svcs (OnName (dname d true)) ; Some (GoTo d svcs)
            end) T) (dc_post s0 rname dcname mapi (seen || bang (VS r v)) D H)).
    { intros EB. destruct (gai (c_str v)) eqn:EG; [exact (INJ EB)|]. rewrite EB, orb_false_r.
      assert (AB : all_bytes r). { destruct KX as (_ & K & _). cbn in K. inversion K; assumption. }
      destruct (from_string_total junk r junk_len AB) as (st & out & E & LO & SO & CO). eapply gives_lift; [exact E|]. cbv beta iota.
      destruct (status_eqb st DNAME_VALID) eqn:SE.
      - assert (SV : st = DNAME_VALID) by (destruct st; [reflexivity|discriminate|discriminate]). subst st. destruct SO as (ls & rest & TX & LL & EO); [discriminate|].
        cbn in TX, EO. rewrite (proj2 (fq_name_is r ls AB) (conj TX LL)). cbn [obind]. destruct (dup_ok ls rest) as (R1 & R2). rewrite EO.
        eapply gives_lift; [exact R1|]. cbn beta. eapply gives_lift; [rewrite Nat2N.id; exact R2|]. cbn beta.
        apply gives_eq with (o := obind (services (setting k_types [H])) (fun svcs => obind (watched service svcs (OnName (dname ls true))) (fun _ => Some (GoTo ls svcs, T)))).
        { rewrite (get_others k_types D H AT). cbn [setting]. unfold then_add. replace (match get k_types H with Some v0 => Some v0 | None => None end) with (get k_types H) by (destruct (get k_types H); reflexivity). destruct (services (get k_types H)) as [svcs|]; [|reflexivity]. cbn [obind]. destruct (watched service svcs (OnName (dname ls true))); reflexivity. }
        eapply gives_bind; [apply svcs_give; rewrite value_mtab; apply (f_equal oerase); cbn [setting]; destruct (get k_types H); reflexivity|]. intros s2 svcs svcs' L2 ->.
        eapply gives_bind; [apply mons_give|]. intros s3 idx [] L3 MO. apply gives_ret. intros s4 L4. assert (L14 : later s1 s4) by (repeat (eapply later_trans; [eassumption|]); apply later_refl).
        unfold dc_post. cbn [fst snd]. split; [|split; [reflexivity|split; [now apply LE|split; [reflexivity|split; assumption]]]].
        apply MADE; [exact L14| |intros ? ?; discriminate|intros ? ?; discriminate]. intros n l [= <- <-]. exists idx. split; [f_equal|eapply all_monitors_later; [exact L4|exact MO]].
        rewrite dname_tl. apply labels_of_wn; [apply LL|]. pose proof (legal_count _ (proj1 LL)) as X. destruct LL as (_ & LL). lia.
      - replace (fq_name r) with (@None name). { destruct st; [discriminate|apply gives_fatal|apply gives_fatal]. }
        symmetry. destruct (fq_name r) as [ls|] eqn:EF; [|reflexivity]. apply fq_name_is in EF; [|exact AB]. destruct EF as (TX & LL). destruct (CO ls true TX LL) as (-> & _). discriminate. }
    cbn [fresh]. unfold dc_says. cbn [bang] in *. destruct (c_str v) as [|c text] eqn:EC; [exact (NAME eq_refl)|].
    destruct (N.eq_dec c 37) as [->|N37]; [|destruct (N.eq_dec c 33) as [->|N33]].
    - (* a reference *)
      rewrite orb_false_r. destruct (LtreeModel.split_bang text) as (p, rn) eqn:ES. unfold then_add.
      apply gives_eq with (o := obind (other_res k rname p rn) (fun _ => Some (AskFor p rn, T))). { destruct (other_res k rname p rn); reflexivity. }
      assert (G : forall m, gives s1 m (other_res k rname p rn) (fun _ (_ _ : unit) => True) -> gives s1 (let* _ <- m ; ret (dc (McSub p rn), mtab (plus seen D) H, tops)) (obind (other_res k rname p rn) (fun _ => Some (AskFor p rn, T))) (dc_post s0 rname dcname mapi seen D H)).
      { intros m GM. eapply gives_bind; [exact GM|]. intros s2 [] [] L2 _. apply gives_ret. intros s3 L3. assert (L13 : later s1 s3) by (eapply later_trans; eauto). unfold dc_post. cbn [fst snd]. split; [|split; [reflexivity|split; [now apply LE|split; [reflexivity|split; assumption]]]].
        apply MADE; [exact L13|intros ? ?; discriminate|now intros ? ? [= <- <-]|intros ? ?; discriminate]. }
      apply G. unfold other_res. destruct (bytes_eqb p (pn k)) eqn:B; cbn [andb].
      + destruct rn as [n|]. { unfold check. destruct (bytes_eqb n rname); [apply gives_fatal|now apply gives_ret]. }
        exfalso. apply bytes_eqb_spec in B. subst p. destruct KX as (_ & _ & _ & K & _). cbn in K. inversion K as [? ? NE| |]; subst. apply NE. rewrite EC. f_equal.
        pose proof (split_none text) as X. rewrite ES in X. symmetry. now apply X.
      + now apply gives_ret.
    - (* a resource of the plugin of the resource *)
      rewrite orb_true_r. unfold then_add.
      apply gives_eq with (o := obind (plugin_says H) (fun p => obind (other_res k rname p (Some text)) (fun _ => Some (AskFor p (Some text), T)))).
      { unfold plugin_says. rewrite (get_others k_plugin D H AP). destruct (match get k_plugin H with None => Some t_multifo | Some (VS _ v0) => Some (c_str v0) | Some _ => None end) as [p|]; [|reflexivity]. cbn [obind]. destruct (other_res k rname p (Some text)); reflexivity. }
      eapply gives_bind; [apply plug_name_gives|]. cbv beta. intros s2 p p' L2 ->. unfold other_res. apply gives_check. intros _. apply gives_ret. intros s3 L3. assert (L13 : later s1 s3) by (eapply later_trans; eauto).
      unfold dc_post. cbn [fst snd]. rewrite mark_plus. split; [|split; [reflexivity|split; [now apply LE|split; [reflexivity|split; assumption]]]].
      apply MADE; [exact L13|intros ? ?; discriminate|now intros ? ? [= <- <-]|intros ? ?; discriminate].
    - assert (X1 : forall A (a b c' : A), match c with 37%N => a | 33%N => b | _ => c' end = c'). { intros. destruct c as [|q]; [reflexivity|]. repeat (destruct q as [q|q|]; try reflexivity; try congruence). }
      assert (EB : match c with 33%N => true | _ => false end = false). { destruct c as [|q]; [reflexivity|]. repeat (destruct q as [q|q|]; try reflexivity; try congruence). }
      specialize (NAME EB). clear INJ. revert NAME.
      destruct c as [|q]; [intros X; exact X|]. repeat (destruct q as [q|q|]; try (intros X; exact X); try congruence).
  Qed.
End Steps.
