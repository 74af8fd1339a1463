(** The table of all configurations while metafo and geoip add to it *)
From Coq Require Import String ZArith Permutation.
From Verif Require Import Base DnameModel DnameSpec CompModel CompProofs RespModel MonModel VscfModel VscfSpec OptModel VhashModel VhashSpec VhashProofs2 PlugModel MsgModel LtreeModel PconfModel PconfSpec PconfProofs PconfProofs2 PconfProofs7 McfModel McfSpec McfProofs McfProofs2 McfProofs3 McfProofs5 PlcModel PlcSpec PlcProofs.
Local Open Scope nat_scope.
Local Open Scope list_scope.
Local Notation length := List.length.
Ltac Zify.zify_post_hook ::= idtac.

Definition names (t : tab) : list bytes := map (fun e => fst (fst e)) t.
(** Entries are added only, and are not marked; what is no hash is kept *)
Definition widened (t t' : tab) : Prop :=
  exists l, map fst t' = map fst t ++ map (fun p => (p, false)) l /\ Forall (fun p => ~ In 0%N p) l /\ (NoDup (names t) -> NoDup (names t')) /\ (forall q x, value q t = Some x -> (forall h, x <> TH h) -> value q t' = Some x).
Lemma widened_refl t : widened t t.
Proof. exists []. split; [now rewrite app_nil_r|]. split; [constructor|]. split; auto. Qed.
Lemma widened_trans a b c : widened a b -> widened b c -> widened a c.
Proof.
  intros (l & E & F & N & K) (l' & E' & F' & N' & K'). exists (l ++ l'). split; [now rewrite E', E, map_app, app_assoc|]. split; [apply Forall_app; auto|]. split; auto.
Qed.
Lemma fst_put p x t : map fst (put p x t) = map fst t.
Proof. unfold put. rewrite map_map. apply map_ext. intros e. destruct (same p (fst (fst e))); reflexivity. Qed.
Lemma names_fst t t' : map fst t = map fst t' -> names t = names t'.
Proof. assert (X : forall u : tab, names u = map fst (map fst u)) by (intros u; unfold names; now rewrite map_map). rewrite !X. now intros ->. Qed.
Lemma widened_put p x t t' : widened t t' -> (exists h, value p t' = Some (TH h)) -> widened t (put p x t').
Proof. intros (l & E & F & N & K) (h & V). exists l. rewrite fst_put. split; [exact E|]. split; [exact F|]. rewrite (names_fst (put p x t') t') by apply fst_put. split; [exact N|]. intros q y Q H. rewrite value_put. destruct (bytes_eqb q p) eqn:B; [|now apply K]. apply bytes_eqb_spec in B. subst q. rewrite (K _ _ Q H) in V. injection V as ->. now destruct (H h). Qed.
Lemma value_none_names p t : value p t = None -> ~ In p (names t).
Proof. induction t as [|((a, m), x) t IH]; cbn; [auto|]. destruct (same p a); [discriminate|]. intros E [->|I]; [congruence|now apply IH]. Qed.
Lemma bind_ok {A B} (m : cm A) (f : A -> cm B) s b s' : bind m f s = Ok (Some (b, s')) -> exists a s1, m s = Ok (Some (a, s1)) /\ f a s1 = Ok (Some (b, s')).
Proof. unfold bind. destruct (m s) as [[(a, s1)|]|]; try discriminate. eauto. Qed.
Lemma value_snoc q p (t : tab) : value q (t ++ [(p, false, TH [])]) = match value q t with Some x => Some x | None => if bytes_eqb q p then Some (TH []) else None end.
Proof.
  induction t as [|((a, m), y) t IH]; cbn [app value]; [|destruct (same q a); [reflexivity|exact IH]]. destruct (same q p) as [->|N]; [now rewrite eqb_refl'|now rewrite (eqb_false _ _ N)].
Qed.
Lemma made_widens p t x t' s s' : ~ In 0%N p -> get_or_make p t s = Ok (Some ((x, t'), s')) -> widened t t' /\ exists h, value p t' = Some (TH h).
Proof.
  intros Z. unfold get_or_make. destruct (value p t) as [[| |y]|] eqn:E; try discriminate; [intros [= _ <- _]; split; [apply widened_refl|eauto]|].
  intros [= _ <- _]. split; [|exists []; rewrite value_snoc, E, eqb_refl'; reflexivity]. exists [p]. rewrite map_app. split; [reflexivity|]. split; [constructor; [exact Z|constructor]|]. split; [intros N; unfold names; rewrite map_app; cbn; apply Permutation_NoDup with (l := p :: names t); [apply Permutation_cons_append|]; constructor; [now apply value_none_names|exact N]|].
  intros q y Q _. rewrite value_snoc, Q. reflexivity.
Qed.
Ltac step H := let x := fresh "x" in let s := fresh "s" in let E := fresh "E" in apply bind_ok in H as (x & s & E & H).
Section Widen.
  Variable gai : bytes -> option addr.
  Variable service : bytes -> option (bool * bool).
  Variable junk : bytes.
  Variable k : kind.
  Variable gdmaps : tab -> option (list (bytes * list bytes)).
  Lemma plug_name_zero t s p s' : plug_name t s = Ok (Some (p, s')) -> ~ In 0%N p.
  Proof. unfold plug_name. destruct (value k_plugin t) as [[r v| |]|]; try discriminate; intros [= <- _]; [apply c_str_zero|]. cbn. intuition discriminate. Qed.
  Lemma inject_widens rname dcname res x tops s y s' : inject k rname dcname res x tops s = Ok (Some (y, s')) -> widened tops (snd y).
  Proof.
    unfold inject. intros H. cbv zeta in H. step H. step H. step H. step H. step H. step H. injection H as <- _. cbn [snd]. destruct x3 as (a, b). apply made_widens in E2 as (W & V); [now apply widened_put|]. eapply plug_name_zero; exact E0.
  Qed.
  Lemma dc_widens rname res dcname mapi x tops s y s' : config_dc gai service junk k rname res dcname mapi x tops s = Ok (Some (y, s')) -> widened tops (snd y).
  Proof.
    unfold config_dc. intros H. step H. assert (I : forall z, (let* w <- inject k rname dcname res z tops ; ret ({| mc_name := dcname; mc_map := mapi; mc_mon := x0; mc_what := fst w |}, res, snd w)) s0 = Ok (Some (y, s')) -> widened tops (snd y)).
    { intros z H1. step H1. injection H1 as <- _. cbn [snd]. eapply inject_widens; exact E0. }
    destruct x as [r v|l|h]; [|now apply (I (TA l))|now apply (I (TH h))].
    assert (G : forall text, match gai text with Some _ => let* w <- inject k rname dcname res (TS r v) tops ; ret ({| mc_name := dcname; mc_map := mapi; mc_mon := x0; mc_what := fst w |}, res, snd w)
       | None => let* d <- lift (dname_from_string junk r) ; let '(status, buf) := d in match status with DNAME_VALID => let* l <- lift (rd buf 0) ; let* d <- lift (rdn buf 0 (S (N.to_nat l))) ; let* svcs <- svc_names (value k_types res) ; let* idx <- mapm (mon_thing service (OnName d)) svcs ; ret ({| mc_name := dcname; mc_map := mapi; mc_mon := x0; mc_what := McName (labels_of 256 (tl d)) idx |}, res, tops) | _ => fatal end end s0 = Ok (Some (y, s')) -> widened tops (snd y)).
    { intros text. destruct (gai text); [apply I|]. intros H1. step H1. destruct x as (st, buf). destruct st; try discriminate. step H1. step H1. step H1. step H1. injection H1 as <- _. apply widened_refl. }
    destruct (c_str v) as [|c t]; [now apply (G [])|].
    destruct (N.eq_dec c 37) as [->|N1]; [destruct (split_bang t) as (q, rn); step H; injection H as <- _; apply widened_refl|].
    destruct (N.eq_dec c 33) as [->|N2]; [step H; step H; injection H as <- _; apply widened_refl|].
    apply (G (c :: t)). rewrite <- H. clear -N1 N2. repeat (destruct c as [|c]; try reflexivity; try congruence). all: repeat (destruct c as [c|c|]; try reflexivity; try congruence).
  Qed.
  Lemma dcs_widens rname centers mapis es : forall res tops dcs s y s', config_dcs gai service junk k rname centers mapis es res tops dcs s = Ok (Some (y, s')) -> widened tops (snd y).
  Proof.
    induction es as [|e es IH]; intros res tops dcs s y s'; cbn [config_dcs]; [intros [= <- _]; apply widened_refl|]. cbv zeta. destruct (center_index (c_str (fst e)) centers 0); [|discriminate]. intros H. step H. destruct x as ((d, res1), tops1).
    apply dc_widens in E. cbn [snd] in E. eapply widened_trans; [exact E|]. eapply IH; exact H.
  Qed.
  Lemma resource_widens undef maps config e tops s y s' : make_resource gai service junk k undef maps config e tops s = Ok (Some (y, s')) -> widened tops (snd y).
  Proof.
    unfold make_resource. destruct (snd e) as [| |t]; try discriminate. cbv zeta. intros H. step H. step H. step H. match type of H with context [match ?v with _ => _ end] => destruct v as [[| |dm]|] end; try discriminate. step H. step H. injection H as <- _. cbn [snd]. eapply dcs_widens; exact E3.
  Qed.
  Lemma resources_widen undef maps config es : forall tops s y s', make_resources gai service junk k undef maps config es tops s = Ok (Some (y, s')) -> widened tops (snd y).
  Proof.
    induction es as [|e es IH]; intros tops s y s'; cbn [make_resources]; [intros [= <- _]; apply widened_refl|]. intros H. step H. step H. injection H as <- _. cbn [snd]. eapply widened_trans; [eapply resource_widens; exact E|eapply IH; exact E0].
  Qed.
  Lemma meta_widens config tops s y s' : meta_load gai service junk k gdmaps config tops s = Ok (Some (y, s')) -> widened tops (snd y).
  Proof.
    unfold meta_load. destruct config as [[| |t]|]; try discriminate. intros H. step H. destruct x as ((undef, maps), t'). destruct (value k_resources t') as [[| |rs]|]; try discriminate. step H. step H. eapply resources_widen; exact H.
  Qed.
End Widen.

(** Neither plugin adds to its own configuration, nor metafo to that of geoip *)
Section Own.
  Variable strtod : bytes -> option dbl.
  Variable gai : bytes -> option addr.
  Variable service : bytes -> option (bool * bool).
  Variable fq_name : bytes -> option name.
  Variable gdmaps : tab -> option (list (bytes * list bytes)).
  Variable k : kind.
  Local Notation whole := (whole strtod).
  Definition foreign (p : bytes) : Prop := p <> pn k /\ p <> pn Geoip /\ ~ In 0%N p.
  Lemma plugin_foreign h p : whole h -> plugin_says h = Some p -> p <> pn k -> foreign p.
  Proof.
    intros W E N. split; [exact N|]. split.
    - destruct k eqn:K; [|exact N]. exact (fine_plugin Metafo h p (whole_fine strtod Metafo h W) E eq_refl).
    - unfold plugin_says in E. destruct (get k_plugin h) as [[r v| |]|]; try discriminate; injection E as <-; [apply c_str_zero|]. cbn. intuition discriminate.
  Qed.
  Lemma new_foreign h shared p data : whole h -> whole shared -> new_says k h shared = Some (MakeNew p data) -> foreign p.
  Proof.
    intros W S. unfold new_says. destruct (plugin_says (filled h shared)) as [q|] eqn:E; [|discriminate]. cbn [obind]. destruct (bytes_eqb q (pn k)) eqn:B; [discriminate|]. cbn [need negb obind]. intros [= <- _].
    eapply plugin_foreign; [|exact E|]; [now apply whole_filled|]. intros ->. rewrite eqb_refl' in B. discriminate.
  Qed.
  Lemma list_foreign l shared p data : (forall x, In x l -> good strtod (decimal 1, x) \/ is_simple x = false) -> whole shared -> list_says k l shared = Some (MakeNew p data) -> foreign p.
  Proof.
    intros G S. unfold list_says. destruct (forallb is_simple l) eqn:SI; [|discriminate]. cbn [need obind]. apply new_foreign; [now apply whole_list|exact S].
  Qed.
  Lemma dc_foreign rname shared n x p data : good strtod (n, x) -> whole shared -> dc_says gai service fq_name k rname shared x = Some (MakeNew p data) -> foreign p.
  Proof.
    intros G S. destruct x as [r v|l|h]; cbn [dc_says].
    - assert (L : list_says k [VS r v] shared = Some (MakeNew p data) -> foreign p). { apply list_foreign; [|exact S]. intros x [<-|[]]. left. now apply good_number with n. }
      assert (GT : forall t, match gai t with Some _ => list_says k [VS r v] shared | None => let? d <- fq_name r; let? svcs <- services (get k_types shared); let? _ <- watched service svcs (OnName (dname d true)); Some (GoTo d svcs) end = Some (MakeNew p data) -> foreign p).
      { intros t. destruct (gai t); [exact L|]. destruct (fq_name r) as [d|]; [|discriminate]. cbn [obind]. destruct (services (get k_types shared)) as [sv|]; [|discriminate]. cbn [obind]. destruct (watched service sv (OnName (dname d true))); discriminate. }
      destruct (c_str v) as [|c t]; [apply GT|].
      destruct (N.eq_dec c 37) as [->|N1]; [destruct (split_bang t) as (q, rn); destruct (other_res k rname q rn); discriminate|].
      destruct (N.eq_dec c 33) as [->|N2]; [destruct (plugin_says shared) as [b|]; [|discriminate]; cbn [obind]; destruct (other_res k rname b (Some t)); discriminate|].
      intros E. apply (GT (c :: t)). rewrite <- E. clear -N1 N2. repeat (destruct c as [|c]; try reflexivity; try congruence). all: repeat (destruct c as [c|c|]; try reflexivity; try congruence).
    - apply list_foreign; [|exact S]. intros x I. eapply good_element; eauto.
    - apply new_foreign; [|exact S]. apply (whole_inner strtod [(n, VH h)] n); [|cbn; auto]. split; [constructor; [intros []|constructor]|constructor; [exact G|constructor]].
  Qed.
  Lemma dcs_foreign rname centers shared : whole shared -> forall es T y, Forall (good strtod) es -> dcs_say gai service fq_name k rname centers shared es T = Some y -> Forall (fun x => forall p data, snd x = MakeNew p data -> foreign p) (fst y).
  Proof.
    intros S es. induction es as [|e es IH]; intros T y F; cbn [dcs_say]; [intros [= <-]; constructor|]. inversion F as [|? ? GE F']; subst.
    destruct (need (among centers (c_str (fst e)))); [|discriminate]. cbn [obind]. destruct (dc_says gai service fq_name k rname shared (snd e)) as [w|] eqn:E1; [|discriminate]. cbn [obind].
    destruct (add_new k rname (c_str (fst e)) w T) as [T1|] eqn:E2; [|discriminate]. cbn [obind]. destruct (dcs_say gai service fq_name k rname centers shared es T1) as [y1|] eqn:E3; [|discriminate]. cbn [obind]. intros [= <-]. cbn [fst]. constructor; [|eapply IH; eauto].
    cbn [snd]. intros p data ->. destruct e as (n, x). eapply dc_foreign; eauto.
  Qed.
  Lemma res_foreign undef maps outer e T y : good strtod e -> whole outer -> res_says gai service fq_name k undef maps outer e T = Some y -> Forall (fun x => forall p data, snd x = MakeNew p data -> foreign p) (xw_dcs (fst y)).
  Proof.
    intros G O. unfold res_says. destruct e as (n, [| |r]); cbn [snd fst]; try discriminate.
    assert (WR : whole r). { apply (whole_inner strtod [(n, VH r)] n); [|cbn; auto]. split; [constructor; [intros []|constructor]|constructor; [exact G|constructor]]. }
    destruct (centers_say k maps (filled r outer)) as [c|]; [|discriminate]. cbn [obind]. destruct (boolean (get k_skip (filled r outer))); [|discriminate]. cbn [obind].
    destruct (get k_dcmap (filled r outer)) as [[| |dm]|] eqn:ED; try discriminate. cbn [obind]. match goal with |- context [need ?b] => destruct b end; [|discriminate]. cbn [need obind].
    destruct (dcs_say gai service fq_name k (c_str n) (snd c) (others (own_keys k) (filled r outer)) dm T) as [y1|] eqn:E; [|discriminate]. cbn [obind]. intros [= <-]. cbn [fst xw_dcs]. eapply dcs_foreign; [| |exact E].
    - now apply whole_others, whole_filled.
    - apply (whole_inner strtod (filled r outer) k_dcmap); [now apply whole_filled|]. now apply get_some_in.
  Qed.
  Lemma ress_foreign undef maps outer : whole outer -> forall es T y, Forall (good strtod) es -> ress_say gai service fq_name k undef maps outer es T = Some y -> Forall (fun w => Forall (fun x => forall p data, snd x = MakeNew p data -> foreign p) (xw_dcs w)) (fst y).
  Proof.
    intros O es. induction es as [|e es IH]; intros T y F; cbn [ress_say]; [intros [= <-]; constructor|]. inversion F as [|? ? GE F']; subst.
    destruct (res_says gai service fq_name k undef maps outer e T) as [x|] eqn:E1; [|discriminate]. cbn [obind]. destruct (ress_say gai service fq_name k undef maps outer es (snd x)) as [y1|] eqn:E2; [|discriminate]. cbn [obind]. intros [= <-]. cbn [fst].
    constructor; [eapply res_foreign; eauto|eapply IH; eauto].
  Qed.
  Lemma meta_foreign h T y p n data : whole h -> meta_says gai service fq_name k gdmaps h T = Some y -> In (p, n, data) (news_of k (fst y)) -> foreign p.
  Proof.
    intros WH. unfold meta_says. destruct (maps_say k gdmaps h) as [maps|]; [|discriminate]. cbn [obind]. destruct (undef_says k h) as [undef|]; [|discriminate]. cbn [obind].
    destruct (get k_resources h) as [[| |rs]|] eqn:E; try discriminate. cbn [obind]. match goal with |- context [need ?b] => destruct b end; [|discriminate]. cbn [need obind]. intros H I.
    apply ress_foreign in H; [|now apply whole_others|apply (whole_inner strtod h k_resources); [exact WH|now apply get_some_in]].
    unfold news_of in I. apply in_flat_map in I as (w & IW & I). apply in_flat_map in I as (x & IX & I). rewrite Forall_forall in H. specialize (H w IW). rewrite Forall_forall in H. specialize (H x IX). destruct (snd x) as [| |q d]; [destruct I|destruct I|]. destruct I as [[= <- _ _]|[]]. now apply (H q d).
  Qed.
End Own.
