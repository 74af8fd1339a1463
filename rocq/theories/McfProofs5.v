(** What the meaning of a configuration implies *)
From Coq Require Import String ZArith.
From Verif Require Import Base DnameModel DnameSpec CompModel CompProofs RespModel MonModel VscfModel VscfSpec OptModel VhashModel VhashSpec VhashProofs2 PlugModel MsgModel LtreeModel PconfModel PconfSpec PconfProofs PconfProofs2 PconfProofs7 McfModel McfSpec McfProofs McfProofs2 McfProofs3.
Local Open Scope nat_scope.
Local Open Scope list_scope.
Local Notation length := List.length.
Ltac Zify.zify_post_hook ::= idtac.

Definition new_of (k : kind) (rname : bytes) (x : bytes * dc_want) : list (bytes * bytes * hash) := match snd x with MakeNew p data => [(p, child_name k rname (fst x), data)] | _ => [] end.
Lemma grown_refl T : grown T [] T.
Proof. constructor; auto; try (intros ? ? ? []). Qed.
Lemma key_dec (p n : bytes) (l : list (bytes * bytes * hash)) : (exists data, In (p, n, data) l) \/ forall data, ~ In (p, n, data) l.
Proof.
  induction l as [|((p', n'), d) l IH]; [right; intros ? []|]. destruct IH as [(d' & I)|H]; [left; exists d'; cbn; auto|].
  destruct (bytes_eqb p p') eqn:B1; [destruct (bytes_eqb n n') eqn:B2|].
  - apply bytes_eqb_spec in B1, B2. subst. left. exists d. cbn. auto.
  - right. intros d' [[= _ -> _]|I]; [rewrite eqb_refl' in B2; discriminate|now apply H in I].
  - right. intros d' [[= -> _ _]|I]; [rewrite eqb_refl' in B1; discriminate|now apply H in I].
Qed.
Lemma grown_trans T a T1 b T2 : grown T a T1 -> grown T1 b T2 -> grown T (a ++ b) T2.
Proof.
  intros [A1 A2 A3 A4] [B1 B2 B3 B4]. constructor.
  - intros p n d I. apply in_app_iff in I as [I|I].
    + destruct (A1 p n d I) as (X & Y). split; [exact X|]. rewrite B2; [exact Y|]. intros d' I'. destruct (B1 p n d' I') as (Z & _). congruence.
    + destruct (B1 p n d I) as (X & Y). split; [|exact Y]. destruct (key_dec p n a) as [(d' & I')|H]; [destruct (A1 p n d' I') as (_ & Z); congruence|]. rewrite <- (A2 p n H). exact X.
  - intros p n H. rewrite B2, A2; [reflexivity| |]; intros d I; apply (H d), in_app_iff; auto.
  - intros n N. rewrite B3, A3 by exact N. reflexivity.
  - intros p H. rewrite B4, A4; [reflexivity| |]; intros n d I; apply (H n d), in_app_iff; auto.
Qed.
Lemma at_with p h T q : at_plugin (with_conf p h T) q = if bytes_eqb q p then (if bytes_eqb q t_metafo then resources_of h else h) else at_plugin T q.
Proof. unfold at_plugin, with_conf. destruct (bytes_eqb q p); destruct (bytes_eqb q t_metafo); reflexivity. Qed.
Lemma resources_with rs h : resources_of (with_key k_resources (VH rs) h) = rs.
Proof. unfold resources_of. rewrite get_with_key, eqb_refl'. reflexivity. Qed.
Lemma added_grows child data h h' : added child data h = Some h' -> get child h = None /\ h' = h ++ [(child, VH data)].
Proof. unfold added. destruct (get child h); [discriminate|]. intros [= <-]. auto. Qed.
Lemma get_snoc n child data h : get child h = None -> get n (h ++ [(child, VH data)]) = if bytes_eqb n child then Some (VH data) else get n h.
Proof.
  intros G. rewrite get_app. cbn [get]. destruct (bytes_eqb n child) eqn:B; [apply bytes_eqb_spec in B; subst; now rewrite G|]. destruct (get n h); reflexivity.
Qed.
Lemma add_grows k rname n w T T' : add_new k rname n w T = Some T' -> grown T (new_of k rname (n, w)) T'.
Proof.
  unfold add_new, new_of. cbn [fst snd]. destruct w as [c svcs|p rn|p data]; [intros [= <-]; apply grown_refl|intros [= <-]; apply grown_refl|].
  set (child := child_name k rname n). assert (NB : forall a b, bytes_eqb a b = false -> a <> b) by (intros a b B ->; rewrite eqb_refl' in B; discriminate).
  assert (G : forall h1, at_plugin (with_conf p h1 T) p = at_plugin T p ++ [(child, VH data)] -> get child (at_plugin T p) = None -> (forall q, q <> k_resources -> p = t_metafo -> get q h1 = get q (conf_of (T t_metafo))) -> grown T [(p, child, data)] (with_conf p h1 T)).
  { intros h1 E G RS. constructor.
    - intros q m d [[= <- <- <-]|[]]. rewrite E, get_snoc by exact G. rewrite eqb_refl'. auto.
    - intros q m H. destruct (bytes_eqb q p) eqn:B.
      + apply bytes_eqb_spec in B. subst q. rewrite E, get_snoc by exact G. destruct (bytes_eqb m child) eqn:B2; [|reflexivity]. apply bytes_eqb_spec in B2. subst m. exfalso. apply (H data). cbn. auto.
      + rewrite at_with, B. reflexivity.
    - intros q N. unfold with_conf. destruct (bytes_eqb t_metafo p) eqn:B; [|reflexivity]. apply bytes_eqb_spec in B. cbn [conf_of]. apply RS; [exact N|now symmetry].
    - intros q H. unfold with_conf. destruct (bytes_eqb q p) eqn:B; [|reflexivity]. apply bytes_eqb_spec in B. subst q. exfalso. apply (H child data). cbn. auto. }
  destruct (bytes_eqb p t_metafo) eqn:BM.
  - apply bytes_eqb_spec in BM. subst p. destruct (added child data (resources_of (conf_of (T t_metafo)))) as [rs|] eqn:EA; [|discriminate]. cbn [obind]. intros [= <-]. apply added_grows in EA as (GN & ->). apply G.
    + rewrite at_with, eqb_refl'. unfold at_plugin. rewrite eqb_refl', resources_with. reflexivity.
    + unfold at_plugin. rewrite eqb_refl'. exact GN.
    + intros q N _. rewrite get_with_key, eqb_false by exact N. reflexivity.
  - destruct (added child data (conf_of (T p))) as [rs|] eqn:EA; [|discriminate]. cbn [obind]. intros [= <-]. apply added_grows in EA as (GN & ->). apply G.
    + rewrite at_with, eqb_refl'. unfold at_plugin. rewrite BM. reflexivity.
    + unfold at_plugin. rewrite BM. exact GN.
    + intros q _ ->. rewrite eqb_refl' in BM. discriminate.
Qed.

Section Facts.
  Variable gai : bytes -> option addr.
  Variable service : bytes -> option (bool * bool).
  Variable fq_name : bytes -> option name.
  Variable k : kind.
  Variable gdmaps : tab -> option (list (bytes * list bytes)).

  Lemma dcs_facts rname centers shared : forall es T ws T', dcs_say gai service fq_name k rname centers shared es T = Some (ws, T') ->
    grown T (flat_map (new_of k rname) ws) T' /\ map fst ws = map (fun e => c_str (fst e)) es /\ incl (map fst ws) centers /\
    Forall2 (fun e w => dc_says gai service fq_name k rname shared (snd e) = Some (snd w)) es ws.
  Proof.
    induction es as [|e es IH]; intros T ws T' E; cbn [dcs_say] in E; [injection E as <- <-; split; [apply grown_refl|]; split; [reflexivity|]; split; [intros ? []|constructor]|].
    ob E. apply need_true in E0. ob E. ob E. ob E. destruct p as (ws', T2). cbn [fst snd] in E. injection E as <- <-. destruct (IH _ _ _ E3) as (G & M & I & F). cbn [flat_map map fst]. split; [|split; [|split]].
    - eapply grown_trans; [eapply add_grows; eauto|exact G].
    - now rewrite M.
    - intros x [<-|J]; [|now apply I]. cbn. unfold among in E0. apply existsb_exists in E0 as (y & J & B). apply bytes_eqb_spec in B. now subst.
    - constructor; [exact E1|exact F].
  Qed.
  Definition sources (maps : list (bytes * list bytes)) (outer : hash) (undef : bool) (e : bytes * vnode) (w : mc_want) : Prop :=
    exists r dm, snd e = VH r /\ setting k_dcmap [r; outer] = Some (VH dm) /\ xw_name w = c_str (fst e) /\
      map fst (xw_dcs w) = map (fun e => c_str (fst e)) dm /\ incl (map fst (xw_dcs w)) (xw_centers w) /\ (undef = false -> length (xw_dcs w) = length (xw_centers w)) /\ xw_dcs w <> [] /\
      Forall2 (fun e x => dc_says gai service fq_name k (xw_name w) (others (own_keys k) (filled r outer)) (snd e) = Some (snd x)) dm (xw_dcs w).
  Lemma centers_some maps h c : Forall (fun m => snd m <> []) maps -> centers_say k maps h = Some c -> snd c <> [].
  Proof.
    intros NE. unfold centers_say. destruct k.
    - destruct (get k_centers h) as [[r v|l|x]|]; try discriminate; intros E; ob E; ob E; injection E as <-; cbn; intros ->; discriminate.
    - intros E. ob E. ob E. injection E as <-. cbn. apply List.find_some in E1 as (I & _). rewrite Forall_forall in NE. now apply NE.
  Qed.
  Lemma ress_facts undef maps outer : Forall (fun m => snd m <> []) maps -> forall es T ws T', ress_say gai service fq_name k undef maps outer es T = Some (ws, T') ->
    grown T (news_of k ws) T' /\ Forall2 (sources maps outer undef) es ws.
  Proof.
    intros NE es. induction es as [|e es IH]; intros T ws T' E; cbn [ress_say] in E; [injection E as <- <-; split; [apply grown_refl|constructor]|].
    ob E. destruct p as (w, T1). ob E. destruct p as (ws', T2). cbn [fst snd] in E, E1. injection E as <- <-. destruct (IH _ _ _ E1) as (G & F). unfold res_says in E0. destruct (snd e) as [| |r] eqn:ES; try discriminate. ob E0. ob E0. ob E0. ob E0. ob E0. apply need_true in E4. destruct p0 as (ds, T3). cbn [fst snd] in E0. injection E0 as <- <-. destruct (dcs_facts _ _ _ _ _ _ _ E5) as (G1 & M1 & I1 & F1). split.
    - unfold news_of. cbn [flat_map xw_name xw_dcs]. eapply grown_trans; [exact G1|exact G].
    - constructor; [|exact F]. assert (ED : setting k_dcmap [r; outer] = Some (VH l)). { rewrite <- get_filled. destruct (get k_dcmap (filled r outer)) as [[| |x]|]; try discriminate. now injection E3 as ->. }
      pose proof (f_equal (@length _) M1) as LM. rewrite !map_length in LM. exists r, l. cbn [xw_name xw_dcs xw_centers]. split; [exact ES|]. split; [exact ED|]. split; [reflexivity|]. split; [exact M1|]. split; [exact I1|]. split; [|split; [|exact F1]].
      + intros ->. apply Nat.eqb_eq in E4. congruence.
      + apply (centers_some _ _ _ NE) in E. destruct ds; [|discriminate]. cbn in LM. rewrite <- LM in E4. destruct (snd p); [congruence|]. now destruct undef.
  Qed.
  Definition undef_of (h : hash) : bool := match undef_says k h with Some b => b | None => false end.
  Theorem meta_facts h T ws T' : (forall t ms, gdmaps t = Some ms -> Forall (fun m => snd m <> []) ms) -> meta_says gai service fq_name k gdmaps h T = Some (ws, T') ->
    grown T (news_of k ws) T' /\ exists maps, maps_say k gdmaps h = Some maps /\ Forall2 (sources maps (others (top_keys k) h) (undef_of h)) (resources_of h) ws /\ (N.of_nat (length ws) <= 2 ^ 24)%N /\ ws <> [].
  Proof.
    intros GM. unfold meta_says. intros E. ob E. ob E. ob E. ob E. apply need_true, andb_true_iff in E3 as (C1 & C2). assert (NE : Forall (fun m => snd m <> []) l). { unfold maps_say in E0. destruct k; [injection E0 as <-; constructor|]. destruct (get k_maps h) as [[| |[|e m]]|]; try discriminate. eapply GM; eauto. }
    destruct (ress_facts _ _ _ NE _ _ _ _ E) as (G & F). split; [exact G|]. exists l. split; [reflexivity|].
    assert (ER : resources_of h = l0). { unfold resources_of. destruct (get k_resources h) as [[| |x]|]; try discriminate. now injection E2 as ->. }
    assert (LF : length l0 = length ws) by (clear -F; induction F; cbn; congruence). rewrite ER. unfold undef_of. rewrite E1. split; [exact F|]. apply N.leb_le in C1. split; [rewrite <- LF; exact C1|]. intros ->. rewrite LF in C2. discriminate.
  Qed.

  (** ** The data of new resources *)
  Lemma new_facts h shared w : new_says k h shared = Some w -> exists p, w = MakeNew p (others [k_plugin] (filled h shared)) /\ p <> pn k /\
    (forall n, get n (others [k_plugin] (filled h shared)) = if bytes_eqb n k_plugin then None else setting n [h; shared]) /\
    match setting k_plugin [h; shared] with None => p = t_multifo | Some (VS _ v) => p = c_str v | Some _ => False end.
  Proof.
    unfold new_says, plugin_says. intros E. ob E. ob E. apply need_true in E1. injection E as <-. exists l. split; [reflexivity|]. split; [intros ->; rewrite eqb_refl' in E1; discriminate|]. split.
    - intros n. destruct (bytes_eqb n k_plugin) eqn:B; [apply bytes_eqb_spec in B; subst; apply get_others_in; reflexivity|]. rewrite get_others by (unfold among; cbn [existsb]; now rewrite B). apply get_filled.
    - rewrite get_filled in E0. destruct (setting k_plugin [h; shared]) as [[r v| |]|]; try discriminate; now injection E0 as <-.
  Qed.
  Lemma get_numbered n l : forall i, (forall j x, nth_error l j = Some x -> n = decimal (i + N.of_nat j) -> get n (numbered_from i l) = Some x) /\
    ((forall j, j < length l -> n <> decimal (i + N.of_nat j)) -> get n (numbered_from i l) = None).
  Proof.
    induction l as [|a l IH]; intros i; cbn [numbered_from get]; [split; [intros [|j]; discriminate|reflexivity]|]. destruct (IH (i + 1)%N) as (H1 & H2). split.
    - intros [|j] x E N; cbn in E.
      + injection E as ->. replace (i + N.of_nat 0)%N with i in N by lia. rewrite N, eqb_refl'. reflexivity.
      + rewrite eqb_false; [apply (H1 j x E); rewrite N; f_equal; lia|]. rewrite N. intros X. apply decimal_inj in X. lia.
    - intros H. rewrite eqb_false; [apply H2; intros j L; specialize (H (S j)); cbn [length] in H; intros X; apply H; [lia|]; rewrite X; f_equal; lia|]. specialize (H 0). cbn [length] in H. replace (i + N.of_nat 0)%N with i in H by lia. apply H. lia.
  Qed.
  Lemma list_facts' l shared w : list_says k l shared = Some w -> Forall (fun x => exists r v, x = VS r v) l /\ exists data, w = MakeNew t_multifo data /\
    (forall i x, nth_error l i = Some x -> get (decimal (N.of_nat (S i))) data = Some x) /\
    (forall n, (forall i, i < length l -> n <> decimal (N.of_nat (S i))) -> get n data = if bytes_eqb n k_plugin then None else get n shared).
  Proof.
    unfold list_says. intros E. ob E. apply need_true in E0. split. { rewrite forallb_forall in E0. apply Forall_forall. intros x I. specialize (E0 x I). destruct x; try discriminate. eauto. }
    apply new_facts in E as (p & -> & _ & G & P). cbn [setting get] in P. rewrite eqb_refl' in P. change (c_str t_multifo) with t_multifo in P. subst p. eexists. split; [reflexivity|].
    assert (NP : forall i, bytes_eqb (decimal i) k_plugin = false). { intros i. apply eqb_false. destruct (decimal_other i (txt "plugi") 110) as [N|N]; [exact N|discriminate]. }
    split.
    - intros i x E. rewrite G, NP. cbn [setting get]. rewrite NP. destruct (get_numbered (decimal (N.of_nat (S i))) l 1) as (H & _). rewrite (H i x E); [reflexivity|f_equal; lia].
    - intros n H. rewrite G. destruct (bytes_eqb n k_plugin) eqn:B; [reflexivity|]. cbn [setting get]. rewrite B. destruct (get_numbered n l 1) as (_ & H2). rewrite H2; [destruct (get n shared); reflexivity|]. intros j L X. apply (H j L). rewrite X. f_equal. lia.
  Qed.
End Facts.

(** All datacenters are there *)
Lemma all_there {A B} (centers : list A) (ws : list (A * B)) n : NoDup (map fst ws) -> incl (map fst ws) centers -> length ws = length centers -> In n centers -> In n (map fst ws) /\ NoDup centers.
Proof.
  intros N I L C. split; [|eapply NoDup_incl_NoDup; [exact N| |exact I]; rewrite map_length; lia]. assert (X : incl centers (map fst ws)) by (eapply NoDup_length_incl; [exact N| |exact I]; rewrite map_length; lia). now apply X.
Qed.
