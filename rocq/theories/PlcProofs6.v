(** What the plugins have, once they are configured *)
From Coq Require Import String ZArith Permutation.
From Verif Require Import Base DnameModel DnameSpec DnameProofs CompModel CompProofs RespModel MonModel VscfModel VscfSpec OptModel VhashModel VhashSpec VhashProofs2 PlugModel MsgModel LtreeModel PconfModel PconfSpec PconfProofs PconfProofs2 PconfProofs3 PconfProofs4 PconfProofs5 PconfProofs7 McfModel McfSpec McfProofs McfProofs2 McfProofs3 McfProofs5 PlcModel PlcSpec PlcProofs PlcProofs2 PlcProofs3 PlcProofs4 PlcProofs5.
Local Open Scope nat_scope.
Local Open Scope list_scope.
Local Notation length := List.length.
Ltac Zify.zify_post_hook ::= idtac.

(** ** Service types *)
Lemma mapm_pure {A B} (f : A -> cm B) (g : A -> option B) l s : (forall a, In a l -> f a s = Ok (option_map (fun b => (b, s)) (g a))) -> mapm f l s = Ok (option_map (fun bs => (bs, s)) (all g l)).
Proof.
  intros H. induction l as [|a l IH]; [reflexivity|]. cbn [mapm all]. unfold bind. rewrite (H a) by (cbn; auto). destruct (g a) as [b|]; [|reflexivity]. cbn. rewrite IH by (intros; apply H; cbn; auto). destruct (all g l); reflexivity.
Qed.
Lemma type_exact e s : svc_type (fst e, fresh (snd e)) s = Ok (option_map (fun b => (b, s)) (type_says e)).
Proof.
  unfold svc_type, type_says. cbn [fst snd]. unfold bind, check. assert (X : among [txt "up"; txt "down"] (c_str (fst e)) = bytes_eqb (c_str (fst e)) (txt "up") || bytes_eqb (c_str (fst e)) (txt "down")) by (unfold among; cbn [existsb]; now rewrite orb_false_r).
  rewrite X. destruct (bytes_eqb (c_str (fst e)) (txt "up") || bytes_eqb (c_str (fst e)) (txt "down")); [reflexivity|]. cbn [negb need obind]. destruct (snd e) as [r v|l|h]; try reflexivity. change (fresh (VH h)) with (TH (ftab h)). rewrite <- (mtab_nil h), value_mtab. destruct (get k_plugin h) as [[r v|l|g]|]; try reflexivity. cbn [option_map fresh].
  destruct v as [|b v]; [reflexivity|]. destruct (find_plugin (c_str (b :: v))) as [p|]; [|reflexivity]. cbn [obind]. destruct (pl_mon p); reflexivity.
Qed.
Lemma entries_ftab h : entries false (ftab h) = map (fun e => (fst e, fresh (snd e))) h.
Proof. unfold entries, ftab. induction h as [|e h IH]; [reflexivity|]. cbn. f_equal. exact IH. Qed.
Lemma all_map {A B C} (f : B -> option C) (g : A -> B) l : all f (map g l) = all (fun a => f (g a)) l.
Proof. induction l as [|a l IH]; [reflexivity|]. cbn. now rewrite IH. Qed.
Lemma mapm_map {A B C} (f : B -> cm C) (g : A -> B) l : mapm f (map g l) = mapm (fun a => f (g a)) l.
Proof. induction l as [|a l IH]; [reflexivity|]. cbn. now rewrite IH. Qed.
Theorem types_exact o s : svc_types (option_map fresh o) s = Ok (option_map (fun ts => (ts, s)) (types_say o)).
Proof.
  destruct o as [[r v|l|h]|]; try reflexivity. change (option_map fresh (Some (VH h))) with (Some (TH (ftab h))). cbn [svc_types types_say]. rewrite entries_ftab, mapm_map. apply mapm_pure. intros e _. apply type_exact.
Qed.
Lemma find_in n p : find_plugin n = Some p -> In p plugin_table /\ pl_name p = n.
Proof. unfold find_plugin. intros E. apply find_some in E as (I & E). apply bytes_eqb_spec in E. auto. Qed.
Lemma types_fine o ts : types_say o = Some ts -> Forall (fun x => (fst x <> txt "up" /\ fst x <> txt "down") /\ In (snd x) plugin_table /\ pl_mon (snd x) <> None) ts.
Proof.
  destruct o as [[r v|l|h]|]; cbn [types_say]; try discriminate; [|intros [= <-]; constructor]. revert ts. induction h as [|e h IH]; intros ts; cbn [all]; [intros [= <-]; constructor|].
  destruct (type_says e) as [x|] eqn:E; [|discriminate]. destruct (all type_says h) as [xs|]; [|discriminate]. intros [= <-]. constructor; [|now apply IH]. unfold type_says in E. ob E. apply need_true, negb_true_iff in E0. destruct (snd e) as [| |h0]; try discriminate. destruct (get k_plugin h0) as [[r v| |]|]; try discriminate. ob E. ob E. injection E as <-. cbn [fst snd]. apply need_true in E2.
  split; [split; intros X; rewrite X in E0; discriminate|]. split; [apply (find_in _ _ E1)|]. destruct (pl_mon _); discriminate.
Qed.
Lemma types_are_ok o ts : types_say o = Some ts -> types_ok ts.
Proof. intros E. apply types_fine in E. eapply Forall_impl; [|exact E]. intros x (_ & X). exact X. Qed.

(** ** An entry that is no hash *)
Lemma value_in (t : tab) q x : value q t = Some x -> exists m, In (q, m, x) t.
Proof. induction t as [|((a, m), y) t IH]; [discriminate|]. cbn. destruct (same q a) as [->|N]; [intros [= ->]; exists m; cbn; auto|]. intros E. destruct (IH E) as (m' & I). exists m'. auto. Qed.
Section NoHash.
  Variable gai : bytes -> option addr.
  Variable strtod : bytes -> option dbl.
  Variable service : bytes -> option (bool * bool).
  Variable junk : bytes.
  Variable gdmaps : tab -> option (list (bytes * list bytes)).
  Local Notation first_of := (first_of gai strtod service junk gdmaps).
  Lemma mapm_never {A B} (f : A -> cm B) l a : In a l -> (forall s y, f a s <> Ok (Some y)) -> forall s y, mapm f l s <> Ok (Some y).
  Proof.
    intros I H. induction l as [|b l IH]; [destruct I|]. intros s y E. cbn [mapm] in E. unfold bind in E. destruct I as [->|I].
    - destruct (f a s) as [[(v, s')|]|] eqn:F; try discriminate. exact (H _ _ F).
    - destruct (f b s) as [[(v, s')|]|]; try discriminate. destruct (mapm f l s') as [[(vs, s'')|]|] eqn:F; try discriminate. exact (IH I _ _ F).
  Qed.
  Lemma not_hash_fatal n x tops s y : (forall h, x <> TH h) -> configure gai strtod service junk gdmaps n x tops s <> Ok (Some y).
  Proof. intros H. unfold configure. destruct x as [| |h]; try discriminate. now destruct (H h). Qed.
  Lemma first_keeps k tops s y s' q x : first_of (pn k) tops s = Ok (Some (y, s')) -> value q tops = Some x -> (forall h, x <> TH h) -> q <> pn k /\ value q (snd y) = Some x /\
    (NoDup (names tops) -> NoDup (names (snd y))) /\ exists l, map fst (snd y) = map fst (mark (pn k) tops) ++ map (fun p => (p, false)) l.
  Proof.
    unfold PlcModel.first_of. destruct (value (pn k) tops) as [v|] eqn:V.
    - intros H Q X. apply bind_ok in H as (z & s1 & E & H). injection H as <- <-. cbn [fst snd].
      assert (EV : exists h, v = TH h). { destruct v as [| |h]; [| |eauto]; exfalso; (eapply not_hash_fatal; [|exact E]; discriminate). } destruct EV as (h & ->).
      split; [intros ->; rewrite V in Q; injection Q as <-; now destruct (X h)|]. assert (W : widened (mark (pn k) tops) (snd z)).
      { destruct k; unfold configure in E; cbv iota beta in E.
        - change (find_plugin (pn Metafo)) with (Some (Plugin (txt "metafo") true true None)) in E. cbn [pl_load pl_name] in E. apply bind_ok in E as (w & s2 & E & E2). injection E2 as <- <-. cbn [snd]. change (load_one gai strtod service junk gdmaps (txt "metafo") (Some (TH h)) (mark (pn Metafo) tops)) with (let* y <- meta_load gai service junk Metafo gdmaps (Some (TH h)) (mark (pn Metafo) tops) ; ret (PMeta (fst y), snd y)) in E. apply bind_ok in E as (u & s3 & E & E2). injection E2 as <- <-. cbn [snd]. eapply meta_widens; exact E.
        - change (find_plugin (pn Geoip)) with (Some (Plugin (txt "geoip") true true None)) in E. cbn [pl_load pl_name] in E. apply bind_ok in E as (w & s2 & E & E2). injection E2 as <- <-. cbn [snd]. change (load_one gai strtod service junk gdmaps (txt "geoip") (Some (TH h)) (mark (pn Geoip) tops)) with (let* y <- meta_load gai service junk Geoip gdmaps (Some (TH h)) (mark (pn Geoip) tops) ; ret (PMeta (fst y), snd y)) in E. apply bind_ok in E as (u & s3 & E & E2). injection E2 as <- <-. cbn [snd]. eapply meta_widens; exact E. }
      destruct W as (l & EL & _ & N & K). split; [apply K; [now rewrite value_mark|exact X]|]. rewrite mark_names in N. split; [exact N|]. exists l. exact EL.
    - intros [= <- <-] Q X. cbn [snd]. split; [congruence|]. split; [exact Q|]. split; [auto|]. exists []. rewrite app_nil_r, mark_absent; [reflexivity|]. rewrite <- value_names, V. tauto.
  Qed.
  Theorem never_loads types P p x s y : In (p, x) P -> NoDup (map fst P) -> (forall h, x <> VH h) -> plugins_load gai strtod service junk gdmaps types (Some (fresh (VH P))) s <> Ok (Some y).
  Proof.
    intros I ND X E. unfold plugins_load in E. change (fresh (VH P)) with (TH (ftab P)) in E. cbv iota in E. destruct y as (y & sy). apply bind_ok in E as (l & s1 & E & _). apply bind_ok in E as (g & s2 & EG & E). apply bind_ok in E as (m & s3 & EM & E). apply bind_ok in E as (r & s4 & ER & _).
    assert (N0 : NoDup (names (ftab P))) by (unfold names, ftab; rewrite map_map; exact ND).
    assert (X' : forall h, fresh x <> TH h) by (intros h; destruct x as [| |hh]; [discriminate|discriminate|now destruct (X hh)]).
    assert (V0 : value p (ftab P) = Some (fresh x)). { apply (value_unique (ftab P) p false); [exact N0|]. unfold ftab. apply in_map_iff. exists (p, x). auto. }
    change (txt "geoip") with (pn Geoip) in EG. change (txt "metafo") with (pn Metafo) in EM. destruct (first_keeps _ _ _ _ _ _ _ EG V0 X') as (NG & V1 & N1 & l1 & E1). destruct (first_keeps _ _ _ _ _ _ _ EM V1 X') as (NM & V2 & N2 & l2 & E2).
    assert (M0 : forall b, In (p, b) (map fst (ftab P)) -> b = false). { unfold ftab. rewrite map_map. intros b J. apply in_map_iff in J as (e & [= _ <-] & _). reflexivity. }
    assert (MK : forall k (t t' : tab) l0, p <> pn k -> map fst t' = map fst (mark (pn k) t) ++ map (fun p => (p, false)) l0 -> (forall b, In (p, b) (map fst t) -> b = false) -> forall b, In (p, b) (map fst t') -> b = false).
    { intros k t t' l0 NK EE H b J. rewrite EE, in_app_iff in J. destruct J as [J|J]; [|apply in_map_iff in J as (q & [= _ <-] & _); reflexivity]. apply mark_fst in J as (b' & J & ->). rewrite (H _ J), eqb_false; [reflexivity|exact NK]. }
    pose proof (MK _ _ _ _ NG E1 M0) as M1. pose proof (MK _ _ _ _ NM E2 M1) as M2. destruct (value_in _ _ _ V2) as (b & J). assert (b = false) by (apply M2; apply in_map_iff; exists (p, b, fresh x); auto). subst b.
    apply unmarked_in in J. unfold the_rest in ER. apply bind_ok in ER as (lr & s5 & ER & _). revert ER. apply (mapm_never _ _ _ J). intros s0 y0 F. cbn [fst snd] in F. destruct y0 as (y0 & sy0). apply bind_ok in F as (z & s6 & F & _). exact (not_hash_fatal _ _ _ _ _ X' F).
  Qed.
End NoHash.

(** ** The resources that metafo and geoip made *)
Lemma news_child k o p n data : In (p, n, data) (news k o) -> exists a b, n = child_name k a b.
Proof.
  destruct o as [ws|]; [|intros []]. cbn [news]. unfold news_of. intros I. apply in_flat_map in I as (w & _ & I). apply in_flat_map in I as (x & _ & I). destruct (snd x); [destruct I|destruct I|]. destruct I as [[= _ <- _]|[]]. eauto.
Qed.
Lemma child_not k a b D : Forall (fun d => firstn 5 d <> firstn 5 (pn k)) D -> among D (child_name k a b) = false.
Proof.
  intros F. unfold among. apply not_true_is_false. intros E. apply existsb_exists in E as (d & I & E). apply bytes_eqb_spec in E. rewrite Forall_forall in F. apply (F d I). rewrite <- E. unfold child_name. destruct k; reflexivity.
Qed.
Section Children.
  Variable gai : bytes -> option addr.
  Variable strtod : bytes -> option dbl.
  Variable service : bytes -> option (bool * bool).
  Variable fq_name : bytes -> option name.
  Variable gdmaps : tab -> option (list (bytes * list bytes)).
  Hypothesis gdmaps_some : forall t ms, gdmaps t = Some ms -> Forall (fun m => snd m <> []) ms.
  Variable types : list (bytes * plugin).
  Variable P : hash.
  Hypothesis TD : tidy strtod P.
  Variable d : said.
  Hypothesis SAY : plugins_say gai strtod service fq_name gdmaps types P = Some d.

  Lemma say_steps : exists T, PlcSpec.meta_step gai service fq_name gdmaps Geoip (stanza P) = Some (sd_geoip d, T) /\ PlcSpec.meta_step gai service fq_name gdmaps Metafo T = Some (sd_metafo d, sd_confs d) /\
    all (fun p => let? w <- piece_says gai strtod service fq_name types (sd_confs d) p ; Some (p, w)) rest_names = Some (sd_rest d).
  Proof.
    revert SAY. unfold plugins_say. intros E. ob E. ob E. ob E. ob E. injection E as <-. cbn [sd_geoip sd_metafo sd_confs sd_rest]. exists (snd p). split; [now destruct p|]. split; [rewrite E1; now destruct p0|]. exact E3.
  Qed.
  Lemma child_there p n data : In (p, n, data) (news Geoip (sd_geoip d) ++ news Metafo (sd_metafo d)) -> get n (at_plugin (sd_confs d) p) = Some (VH data).
  Proof.
    destruct say_steps as (T & E1 & E2 & _). pose proof (step_grown gai service fq_name gdmaps gdmaps_some _ _ _ E1) as G1. pose proof (step_grown gai service fq_name gdmaps gdmaps_some _ _ _ E2) as G2. cbn [fst snd] in G1, G2. intros I. apply in_app_iff in I as [I|I]; [|apply (gr_new _ _ _ G2 _ _ _ I)].
    destruct (gr_new _ _ _ G1 _ _ _ I) as (_ & X). rewrite (gr_old _ _ _ G2); [exact X|]. intros data' J. destruct (gr_new _ _ _ G2 _ _ _ J) as (Y & _). congruence.
  Qed.
  Lemma child_conf p n data : In (p, n, data) (news Geoip (sd_geoip d) ++ news Metafo (sd_metafo d)) -> p <> t_metafo ->
    exists h, sd_confs d p = Some h /\ In (n, VH data) h /\ ~ In 0%N n.
  Proof.
    intros I NM. pose proof (child_there _ _ _ I) as G. unfold at_plugin in G. rewrite (eqb_false _ _ NM) in G. destruct (sd_confs d p) as [h|] eqn:E; [|discriminate]. cbn [conf_of] in G. apply get_some_in in G. exists h. split; [reflexivity|]. split; [exact G|].
    destruct say_steps as (T & E1 & E2 & _). pose proof (stanza_whole strtod P TD) as W0. pose proof (step_whole gai strtod service fq_name gdmaps _ _ _ W0 E1) as W1. pose proof (step_whole gai strtod service fq_name gdmaps _ _ _ W1 E2) as W2. cbn [snd] in W2.
    pose proof (whole_plain strtod h (W2 _ _ E)) as PL. inversion PL as [| |? F]; subst. rewrite Forall_forall in F. apply (F _ G).
  Qed.
  Lemma rest_has p h : In p rest_names -> sd_confs d p = Some h -> exists w, piece_says gai strtod service fq_name types (sd_confs d) p = Some w /\ In (p, w) (sd_rest d).
  Proof.
    intros I E. destruct say_steps as (T & _ & _ & A). destruct (forall2_left _ _ _ _ (all_some _ _ _ A) I) as ((q, w) & IW & EW). destruct (piece_says gai strtod service fq_name types (sd_confs d) p) as [w'|]; [|discriminate]. injection EW as <- <-. eauto.
  Qed.
  Lemma listed {B} (f : bytes * vnode -> option B) h n x ws : all (fun e => let? w <- f e ; Some (c_str (fst e), w)) h = Some ws -> In (n, x) h -> ~ In 0%N n -> In n (map fst ws).
  Proof.
    intros A I Z. destruct (forall2_left _ _ _ _ (all_some _ _ _ A) I) as (w & IW & EW). cbn [fst] in EW. destruct (f (n, x)); [|discriminate]. injection EW as <-. apply in_map_iff. eexists. split; [|exact IW]. cbn. now apply c_str_whole.
  Qed.
  Lemma in_others D h n x : In (n, x) h -> among D n = false -> In (n, x) (others D h).
  Proof. intros I A. unfold others. apply filter_In. split; [exact I|]. cbn [fst]. now rewrite A. Qed.
  Lemma families_names {A B} (R : A -> B -> Prop) ws rs : Forall2 (families R) ws rs -> map fst ws = map fst rs.
  Proof. intros F. induction F as [|a b ws rs (X & _) F IH]; [reflexivity|]. cbn. now rewrite X, IH. Qed.
  Lemma is_child p n data : In (p, n, data) (news Geoip (sd_geoip d) ++ news Metafo (sd_metafo d)) -> exists k a b, n = child_name k a b.
  Proof. intros I. apply in_app_iff in I as [I|I]; apply news_child in I as (a & b & E); eauto. Qed.

  Variable s : state.
  Variable l : list (bytes * piece).
  Hypothesis MADE : plugins_made gdmaps P s d l.
  Theorem child_found p n data : In (p, n, data) (news Geoip (sd_geoip d) ++ news Metafo (sd_metafo d)) ->
    (p = t_metafo -> In n (map mx_name (of_metafo (metas_of l)))) /\
    (p = t_multifo -> exists rs, piece_of p l = Some (PMulti rs) /\ In n (map fst rs)) /\
    (p = txt "simplefo" -> exists rs, piece_of p l = Some (PSimple rs) /\ In n (map fst rs)) /\
    (p = txt "weighted" -> exists rs, piece_of p l = Some (PWeighted rs) /\ In n (map fst rs)).
  Proof.
    intros I. destruct MADE as (_ & _ & (T' & MM & _) & MR). pose proof (is_child _ _ _ I) as (k & a & b & EN). split.
    - intros ->. destruct say_steps as (T & E1 & E2 & _). apply in_app_iff in I as [I|I].
      2: { exfalso. pose proof (stanza_whole strtod P TD) as W0. pose proof (step_whole gai strtod service fq_name gdmaps _ _ _ W0 E1) as W1. destruct (step_foreign gai strtod service fq_name gdmaps _ _ _ _ _ _ W1 E2 I) as (X & _). now apply X. }
      pose proof (step_grown gai service fq_name gdmaps gdmaps_some _ _ _ E1) as G1. cbn [fst snd] in G1. destruct (gr_new _ _ _ G1 _ _ _ I) as (_ & X). unfold at_plugin in X. rewrite eqb_refl' in X.
      unfold PlcSpec.meta_step in E2. change (pn Metafo) with t_metafo in E2. destruct (T t_metafo) as [h|] eqn:TM; [|discriminate]. cbn [conf_of] in X. destruct (meta_says gai service fq_name Metafo gdmaps h T) as [(ws, T2)|] eqn:MS; [|discriminate]. cbn [obind fst snd] in E2. injection E2 as EM _. rewrite <- EM in MM. cbn [maybe] in MM.
      apply meta_facts in MS as (_ & maps & _ & F & _); [|exact gdmaps_some]. destruct (piece_of (pn Metafo) l) as [x|] eqn:EP; [|destruct MM]. destruct MM as (rs & states & -> & _ & FM & _). unfold metas_of. cbn [of_metafo]. change (txt "metafo") with (pn Metafo). rewrite EP.
      apply get_some_in in X. assert (Z : ~ In 0%N n). { pose proof (stanza_whole strtod P TD) as W0. pose proof (step_whole gai strtod service fq_name gdmaps _ _ _ W0 E1) as W1. pose proof (whole_plain strtod h (W1 _ _ TM)) as PL. revert X. unfold resources_of. destruct (get k_resources h) as [[| |hh]|] eqn:GR; try (intros []). intros X. apply get_some_in in GR. inversion PL as [| |? F1]; subst. rewrite Forall_forall in F1. destruct (F1 _ GR) as (_ & PH). inversion PH as [| |? F2]; subst. rewrite Forall_forall in F2. apply (F2 _ X). }
      clear -F FM X Z. revert rs FM X. induction F as [|e w es ws (r & dm & _ & _ & SN & _) F IH]; intros rs FM X; [destruct X|]. inversion FM as [|? r' ? rs' (MN & _) FM']; subst. cbn [map]. destruct X as [->|X]; [left; rewrite MN, SN; cbn; now apply c_str_whole|right; now apply IH].
    - split; [|split]; intros ->.
      + destruct (child_conf _ _ _ I) as (h & EC & IH & Z); [discriminate|]. destruct (rest_has t_multifo h) as (w & PS & IW); [cbn; tauto|exact EC|]. specialize (MR _ _ IW). unfold piece_says in PS. rewrite EC in PS. cbv zeta in PS. change (bytes_eqb t_multifo (txt "multifo")) with true in PS. cbv iota in PS. ob PS. injection PS as <-. cbn [maybe] in MR. destruct (piece_of t_multifo l) as [[]|]; cbn in MR; try contradiction. destruct MR as (F & _). eexists. split; [reflexivity|].
        rewrite <- (families_names _ _ _ F). unfold multifo_says in E. ob E. ob E. injection E as <-. eapply (listed (fun e => m_res_says gai strtod service h (snd e))); [exact E0|apply in_others; [exact IH|rewrite EN; apply child_not; destruct k; repeat constructor; discriminate]|exact Z].
      + destruct (child_conf _ _ _ I) as (h & EC & IH & Z); [discriminate|]. destruct (rest_has (txt "simplefo") h) as (w & PS & IW); [cbn; tauto|exact EC|]. specialize (MR _ _ IW). unfold piece_says in PS. rewrite EC in PS. cbv zeta in PS. change (bytes_eqb (txt "simplefo") (txt "multifo")) with false in PS. change (bytes_eqb (txt "simplefo") (txt "simplefo")) with true in PS. cbv iota in PS. ob PS. injection PS as <-. cbn [maybe] in MR. destruct (piece_of (txt "simplefo") l) as [[]|]; cbn in MR; try contradiction. destruct MR as (F & _). eexists. split; [reflexivity|].
        rewrite <- (families_names _ _ _ F). unfold simplefo_says in E. eapply (listed (fun e => s_res_says gai service h (snd e))); [exact E|apply in_others; [exact IH|rewrite EN; apply child_not; destruct k; repeat constructor; discriminate]|exact Z].
      + destruct (child_conf _ _ _ I) as (h & EC & IH & Z); [discriminate|]. destruct (rest_has (txt "weighted") h) as (w & PS & IW); [cbn; tauto|exact EC|]. specialize (MR _ _ IW). unfold piece_says in PS. rewrite EC in PS. cbv zeta in PS. change (bytes_eqb (txt "weighted") (txt "multifo")) with false in PS. change (bytes_eqb (txt "weighted") (txt "simplefo")) with false in PS. change (bytes_eqb (txt "weighted") (txt "weighted")) with true in PS. cbv iota in PS. ob PS. injection PS as <-. cbn [maybe] in MR. destruct (piece_of (txt "weighted") l) as [[]|]; cbn in MR; try contradiction. destruct MR as (F & _). eexists. split; [reflexivity|].
        replace (map fst rs) with (map fst l0) by (clear -F; induction F as [|x y ? ? (X & _) F IH]; [reflexivity|]; cbn; now rewrite X, IH). unfold weighted_says in E. eapply (listed (fun e => w_res_says gai strtod service fq_name h (snd e))); [exact E|apply in_others; [exact IH|rewrite EN; apply child_not; destruct k; repeat constructor; discriminate]|exact Z].
  Qed.
End Children.

(** ** What is offered *)
Lemma lower_is a b : (97 <= b <= 122)%N -> (lower a = b <-> a = b \/ (a + 32 = b)%N).
Proof.
  intros R. unfold lower. destruct (65 <=? a)%N eqn:E1; [|cbn; apply N.leb_gt in E1; lia]. destruct (a <=? 90)%N eqn:E2; cbn [andb]; [apply N.leb_le in E1, E2; lia|]. apply N.leb_gt in E2. lia.
Qed.
Lemma spelled_gen n w : Forall (fun b => (97 <= b <= 122)%N) w -> (same_ci n w = true <-> spelled n w).
Proof.
  intros F. unfold same_ci. rewrite bytes_eqb_spec. assert (EW : map lower w = w). { rewrite <- (map_id w) at 2. apply map_ext_in. intros b I. rewrite Forall_forall in F. apply lower_is; auto. } rewrite EW. clear EW. unfold spelled. revert n. induction F as [|b w R F IH]; intros n.
  - destruct n; cbn; split; try discriminate; [constructor|auto|intros X; inversion X].
  - destruct n as [|a n]; cbn; [split; [discriminate|intros X; inversion X]|]. split.
    + intros [= E1 E2]. constructor; [now apply lower_is|now apply IH].
    + intros X. inversion X as [|? ? ? ? X1 X2]; subst. f_equal; [now apply lower_is|now apply IH].
Qed.
Lemma spelled_is n w : In w (map txt ["dns"; "edns"; "best"; "both"]%string) -> (same_ci n w = true <-> spelled n w).
Proof. intros I. apply spelled_gen. cbn [map In] in I. destruct I as [<-|[<-|[<-|[<-|[]]]]]; repeat constructor; cbn; lia. Qed.
Lemma spelled_one n w w' : Forall (fun b => (97 <= b <= 122)%N) w -> Forall (fun b => (97 <= b <= 122)%N) w' -> spelled n w -> spelled n w' -> w = w'.
Proof. intros F F' S S'. apply spelled_gen in S; [|exact F]. apply spelled_gen in S'; [|exact F']. revert S S'. unfold same_ci. rewrite !bytes_eqb_spec. assert (EW : forall v, Forall (fun b => (97 <= b <= 122)%N) v -> map lower v = v). { intros v FV. rewrite <- (map_id v) at 2. apply map_ext_in. intros b I. rewrite Forall_forall in FV. apply lower_is; auto. } rewrite (EW w F), (EW w' F'). congruence. Qed.
Lemma map_res_is {A} n (rs : list (bytes * A)) : forall k i, map_res n rs k = Some i <-> exists j x, i = k + j /\ first_named rs n j x.
Proof.
  unfold first_named. induction rs as [|(m, x) l IH]; intros k i; cbn [map_res]; [split; [discriminate|intros ([|j] & y & _ & E & _); discriminate]|]. destruct (bytes_eqb (c_str n) m) eqn:B.
  - apply bytes_eqb_spec in B. subst m. split; [intros [= <-]; exists 0, x; split; [lia|split; [reflexivity|intros; lia]]|]. intros ([|j] & y & -> & E1 & H); [f_equal; lia|]. exfalso. apply (H 0 (c_str n) x); [reflexivity|lia|reflexivity].
  - assert (NE : m <> c_str n) by (intros ->; rewrite eqb_refl' in B; discriminate). rewrite IH. split.
    + intros (j & y & -> & E1 & H). exists (S j), y. split; [lia|]. split; [exact E1|]. intros [|j'] m' x' E' L; [injection E' as <- _; exact NE|]. apply (H j' m' x'); [exact E'|lia].
    + intros ([|j] & y & -> & E1 & H); [injection E1 as -> _; congruence|]. exists j, y. split; [lia|]. split; [exact E1|]. intros j' m' x' E' L. apply (H (S j') m' x'); [exact E'|lia].
Qed.
Lemma static_find_is n (rs : list (bytes * st_what)) : forall k i w, static_find (c_str n) rs k = Some (i, w) <-> exists j, i = (k + N.of_nat j)%N /\ first_named rs n j w.
Proof.
  unfold first_named. induction rs as [|(m, x) l IH]; intros k i w; cbn [static_find]; [split; [discriminate|intros ([|j] & _ & E & _); discriminate]|]. destruct (bytes_eqb (c_str n) m) eqn:B.
  - apply bytes_eqb_spec in B. subst m. split; [intros [= <- <-]; exists 0; split; [lia|split; [reflexivity|intros; lia]]|]. intros ([|j] & -> & E1 & H); [cbn in E1; injection E1 as <-; f_equal; f_equal; lia|]. exfalso. apply (H 0 (c_str n) x); [reflexivity|lia|reflexivity].
  - assert (NE : m <> c_str n) by (intros ->; rewrite eqb_refl' in B; discriminate). rewrite IH. split.
    + intros (j & -> & E1 & H). exists (S j). split; [lia|]. split; [exact E1|]. intros [|j'] m' x' E' L; [injection E' as <- _; exact NE|]. apply (H j' m' x'); [exact E'|lia].
    + intros ([|j] & -> & E1 & H); [injection E1 as -> _; congruence|]. exists j. split; [lia|]. split; [exact E1|]. intros j' m' x' E' L. apply (H (S j') m' x'); [exact E'|lia].
Qed.
Lemma first_same {A} (rs : list (bytes * A)) n i j x y : first_named rs n i x -> first_named rs n j y -> i = j /\ x = y.
Proof.
  intros (E1 & H1) (E2 & H2). assert (i = j). { destruct (Nat.lt_trichotomy i j) as [L|[->|L]]; [exfalso; eapply (H2 _ _ _ E1 L); reflexivity|reflexivity|exfalso; eapply (H1 _ _ _ E2 L); reflexivity]. } subst. split; [reflexivity|congruence].
Qed.
Section Offers.
  Variable in_zone : name -> name -> bool.
  Variable l : list (bytes * piece).
  Theorem plugs_are p :
    (plug_of in_zone l p = None <-> ~ In p (map txt ["geoip"; "metafo"; "http_status"; "multifo"; "null"; "reflect"; "simplefo"; "static"; "tcp_connect"; "weighted"; "extfile"; "extmon"]%string)) /\
    (plug_of in_zone l p = Some None <-> In p (map txt ["http_status"; "tcp_connect"; "extfile"; "extmon"]%string)).
  Proof.
    unfold plug_of. destruct (find_plugin p) as [q|] eqn:E.
    - pose proof (find_in _ _ E) as (I & EN). split.
      + split; [destruct (negb (pl_resolve q)); discriminate|]. intros H. exfalso. apply H. rewrite <- EN. unfold plugin_table in I. cbn [In] in I. cbn [map In]. repeat (destruct I as [<-|I]; [cbn [pl_name]; tauto|]). destruct I.
      + rewrite <- EN. unfold plugin_table in I. cbn [In] in I. repeat (destruct I as [<-|I]; [cbn [pl_name pl_resolve negb]; split; [first [discriminate|intros _; cbn [map In]; tauto]|first [reflexivity|intros H; cbn [map In] in H; repeat (destruct H as [H|H]; [discriminate H|]); destruct H]]|]). destruct I.
    - split; [split; [|reflexivity]|split; [discriminate|]].
      + intros _ I. cbn [map In] in I. repeat (destruct I as [<-|I]; [discriminate E|]). destruct I.
      + intros I. cbn [map In] in I. repeat (destruct I as [<-|I]; [discriminate E|]). destruct I.
  Qed.
  Ltac other := intros X; inversion X; subst; try discriminate; fail.
  Theorem offers_are p f rn zone i : plug_of in_zone l p = Some (Some f) -> (f rn zone = Some i <-> offers in_zone l p rn zone i).
  Proof.
    unfold plug_of. destruct (find_plugin p) as [q|] eqn:E; [|discriminate]. destruct (negb (pl_resolve q)) eqn:R; [discriminate|]. intros [= <-].
    destruct (bytes_eqb p (txt "null")) eqn:B1.
    { apply bytes_eqb_spec in B1. subst p. unfold null_map. split; [intros [= <-]; constructor|intros X; inversion X; reflexivity]. }
    destruct (bytes_eqb p (txt "reflect")) eqn:B2.
    { apply bytes_eqb_spec in B2. subst p. unfold reflect_map. destruct rn as [n|]; [|split; [intros [= <-]; constructor|intros X; inversion X; reflexivity]]. cbv zeta.
      pose proof (spelled_is (c_str n) (txt "dns") ltac:(cbn; tauto)) as S1. pose proof (spelled_is (c_str n) (txt "edns") ltac:(cbn; tauto)) as S2. pose proof (spelled_is (c_str n) (txt "best") ltac:(cbn; tauto)) as S3. pose proof (spelled_is (c_str n) (txt "both") ltac:(cbn; tauto)) as S4.
      split.
      - destruct (same_ci (c_str n) (txt "dns")); [intros [= <-]; apply of_dns; tauto|]. destruct (same_ci (c_str n) (txt "edns")); [intros [= <-]; apply of_edns; tauto|]. destruct (same_ci (c_str n) (txt "best")); [intros [= <-]; apply of_best; tauto|]. destruct (same_ci (c_str n) (txt "both")); [intros [= <-]; apply of_both; tauto|discriminate].
      - assert (D : forall a b, In a (map txt ["dns"; "edns"; "best"; "both"]%string) -> In b (map txt ["dns"; "edns"; "best"; "both"]%string) -> a <> b -> spelled (c_str n) a -> same_ci (c_str n) b = false).
        { intros a b IA IB NE SA. destruct (same_ci (c_str n) b) eqn:EB; [|reflexivity]. exfalso. apply NE. apply spelled_is in EB; [|exact IB]. assert (LW : forall w, In w (map txt ["dns"; "edns"; "best"; "both"]%string) -> Forall (fun b => (97 <= b <= 122)%N) w) by (intros w I; cbn [map In] in I; destruct I as [<-|[<-|[<-|[<-|[]]]]]; repeat constructor; cbn; lia). eapply spelled_one; [apply LW; exact IA|apply LW; exact IB|exact SA|exact EB]. }
        intros X. inversion X as [| |? ? H|? ? H|? ? H|? ? H| | | | | |]; subst.
        + apply S1 in H. now rewrite H.
        + rewrite (D (txt "edns") (txt "dns") ltac:(cbn; tauto) ltac:(cbn; tauto) ltac:(discriminate) H). apply S2 in H. now rewrite H.
        + rewrite (D (txt "best") (txt "dns") ltac:(cbn; tauto) ltac:(cbn; tauto) ltac:(discriminate) H), (D (txt "best") (txt "edns") ltac:(cbn; tauto) ltac:(cbn; tauto) ltac:(discriminate) H). apply S3 in H. now rewrite H.
        + rewrite (D (txt "both") (txt "dns") ltac:(cbn; tauto) ltac:(cbn; tauto) ltac:(discriminate) H), (D (txt "both") (txt "edns") ltac:(cbn; tauto) ltac:(cbn; tauto) ltac:(discriminate) H), (D (txt "both") (txt "best") ltac:(cbn; tauto) ltac:(cbn; tauto) ltac:(discriminate) H). apply S4 in H. now rewrite H. }
    assert (NB1 : p <> txt "null") by (intros ->; rewrite eqb_refl' in B1; discriminate). assert (NB2 : p <> txt "reflect") by (intros ->; rewrite eqb_refl' in B2; discriminate).
    assert (NO : (forall rs, piece_of p l = Some (PMulti rs) -> p <> txt "multifo") -> (forall rs, piece_of p l = Some (PSimple rs) -> p <> txt "simplefo") -> (forall rs, piece_of p l = Some (PWeighted rs) -> p <> txt "weighted") -> (forall rs, piece_of p l = Some (PStatic rs) -> p <> txt "static") -> no_map rn zone = Some i <-> offers in_zone l p rn zone i).
    { intros H1 H2 H3 H4. split; [discriminate|]. intros X. exfalso. inversion X; subst; try congruence; first [eapply H1; [eassumption|reflexivity]|eapply H2; [eassumption|reflexivity]|eapply H3; [eassumption|reflexivity]|eapply H4; [eassumption|reflexivity]]. }
    destruct (piece_of p l) as [[rs|rs|rs|rs|rs| |]|] eqn:EP; try (apply NO; congruence).
    - destruct (bytes_eqb p (txt "multifo")) eqn:B; [|apply NO; try congruence; intros ? ? ->; rewrite eqb_refl' in B; discriminate]. apply bytes_eqb_spec in B. subst p. destruct rn as [n|]; cbn [named_map]; [|split; [discriminate|intros X; inversion X]]. split.
      + destruct (map_res n rs 0) as [j|] eqn:M; [|discriminate]. intros [= <-]. apply map_res_is in M as (j' & x & -> & F). eapply of_multifo; eauto.
      + intros X. inversion X; subst. rewrite (proj2 (map_res_is n rs 0 i0)); [reflexivity|]. eexists _, _. split; [reflexivity|]. replace rs with rs0 by congruence. eassumption.
    - destruct (bytes_eqb p (txt "simplefo")) eqn:B; [|apply NO; try congruence; intros ? ? ->; rewrite eqb_refl' in B; discriminate]. apply bytes_eqb_spec in B. subst p. destruct rn as [n|]; cbn [named_map]; [|split; [discriminate|intros X; inversion X]]. split.
      + destruct (map_res n rs 0) as [j|] eqn:M; [|discriminate]. intros [= <-]. apply map_res_is in M as (j' & x & -> & F). eapply of_simplefo; eauto.
      + intros X. inversion X; subst. rewrite (proj2 (map_res_is n rs 0 i0)); [reflexivity|]. eexists _, _. split; [reflexivity|]. replace rs with rs0 by congruence. eassumption.
    - destruct (bytes_eqb p (txt "weighted")) eqn:B; [|apply NO; try congruence; intros ? ? ->; rewrite eqb_refl' in B; discriminate]. apply bytes_eqb_spec in B. subst p. destruct rn as [n|]; cbn [weighted_map]; [|split; [discriminate|intros X; inversion X]]. split.
      + destruct (map_res n rs 0) as [j|] eqn:M; [|discriminate]. apply map_res_is in M as (j' & x & -> & F). cbn [Nat.add]. rewrite (proj1 F). destruct x as [c|v4 v6].
        * destruct zone as [z|]; [|discriminate]. destruct (existsb _ _) eqn:EX; [discriminate|]. intros [= <-]. eapply of_names; eauto. intros x I. destruct (in_zone z (wc_name x)) eqn:EZ; [|reflexivity]. exfalso. assert (Y : existsb (fun x => in_zone z (wc_name x)) (wn_items c) = true) by (apply existsb_exists; eauto). congruence.
        * intros [= <-]. eapply of_weighted; eauto.
      + intros X. inversion X; subst; replace rs0 with rs in * by congruence; (rewrite (proj2 (map_res_is n rs 0 i0)); [|eexists _, _; split; [reflexivity|eassumption]]); match goal with F : first_named _ _ _ _ |- _ => rewrite (proj1 F) end; [reflexivity|].
        destruct (existsb _ _) eqn:EX; [|reflexivity]. apply existsb_exists in EX as (x & I & EZ). match goal with H : forall x, In x _ -> _ = false |- _ => rewrite (H _ I) in EZ end. discriminate.
    - destruct (bytes_eqb p (txt "static")) eqn:B; [|apply NO; try congruence; intros ? ? ->; rewrite eqb_refl' in B; discriminate]. apply bytes_eqb_spec in B. subst p. destruct rn as [n|]; cbn [static_map]; [|split; [discriminate|intros X; inversion X]]. split.
      + destruct (static_find (c_str n) rs 0) as [(j, w)|] eqn:M; [|discriminate]. apply static_find_is in M as (j' & -> & F). destruct w as [a|d].
        * intros [= <-]. eapply of_address; eauto.
        * destruct zone as [z|]; [|discriminate]. destruct (in_zone z d) eqn:EZ; [discriminate|]. intros [= <-]. eapply of_name; eauto. exists z. auto.
      + intros X. inversion X; subst; replace rs0 with rs in * by congruence.
        * rewrite (proj2 (static_find_is n rs 0%N (N.of_nat i0) (StAddr a))); [reflexivity|]. exists i0. split; [lia|assumption].
        * rewrite (proj2 (static_find_is n rs 0%N (N.of_nat i0) (StName d))); [|exists i0; split; [lia|assumption]]. match goal with O : outside _ _ _ |- _ => destruct O as (z & -> & ->) end. reflexivity.
  Qed.
End Offers.
