(** Datacenters and their coordinates *)
From Coq Require Import ZArith String.
From Verif Require Import Base CompModel CompProofs DnameModel RespModel MonModel VscfModel VscfSpec OptModel VhashModel VhashSpec VhashProofs2 PlugModel MsgModel LtreeModel PconfModel PconfSpec PconfProofs2 PconfProofs3 McfModel McfSpec McfProofs GmapModel GmapSpec GmapProofs.
From Verif Require LocModel LocSpec LocProofs LocProofs2.
Local Open Scope list_scope.
Local Open Scope nat_scope.
Local Notation length := List.length.
Ltac Zify.zify_post_hook ::= idtac.

Lemma exp_neg e : (0 <=? e)%Z = false -> (0 <= - e)%Z /\ Z.max 0 e = 0%Z /\ Z.max 0 (- e) = (- e)%Z.
Proof. intros H. apply Z.leb_gt in H. lia. Qed.
Lemma in_range k d : above k d || below k d = negb (within k d).
Proof.
  destruct d as [|neg|neg m e]; [reflexivity|destruct neg; reflexivity|]. unfold below, flip, above, within.
  match goal with |- _ && ?c || _ && _ = negb ?w => assert (H : c = negb w) end.
  { destruct (0 <=? e)%Z eqn:B.
    - pose proof B as B'. apply Z.leb_le in B'. rewrite (Z.max_r 0 e), (Z.max_l 0 (- e)) by lia. rewrite Z.pow_0_r, Z.mul_1_r.
      assert (E : (Z.of_N m * 2 ^ e)%Z = Z.of_N (m * 2 ^ Z.to_N e)) by (rewrite N2Z.inj_mul, N2Z.inj_pow, Z2N.id by lia; reflexivity).
      rewrite E. destruct (N.ltb_spec k (m * 2 ^ Z.to_N e)), (Z.leb_spec (Z.of_N (m * 2 ^ Z.to_N e)) (Z.of_N k)); try reflexivity; lia.
    - destruct (exp_neg e B) as (P & -> & ->). rewrite Z.pow_0_r, Z.mul_1_r.
      assert (E : (Z.of_N k * 2 ^ (- e))%Z = Z.of_N (k * 2 ^ Z.to_N (- e))) by (rewrite N2Z.inj_mul, N2Z.inj_pow, Z2N.id by lia; reflexivity).
      rewrite E. destruct (N.ltb_spec (k * 2 ^ Z.to_N (- e)) m), (Z.leb_spec (Z.of_N m) (Z.of_N (k * 2 ^ Z.to_N (- e)))); try reflexivity; lia. }
  rewrite H. destruct neg; cbn [negb andb orb]; now rewrite ?orb_false_r.
Qed.
Lemma bad_is p : bad_point p = negb (within 90 (fst p) && within 180 (snd p)).
Proof. unfold bad_point. rewrite <- orb_assoc, !in_range, negb_andb. reflexivity. Qed.

Lemma upd_same {A} (l : list A) j v : j < length l -> nth_error (upd l j v) j = Some v.
Proof. revert j. induction l as [|a l IH]; intros [|j] L; cbn in *; try lia; [reflexivity|]. apply IH. lia. Qed.
Lemma upd_other {A} (l : list A) i j v : i <> j -> nth_error (upd l i v) j = nth_error l j.
Proof. revert i j. induction l as [|a l IH]; intros [|i] [|j] NE; cbn; auto; try lia. Qed.
Lemma upd_len {A} (l : list A) j v : length (upd l j v) = length l.
Proof. revert j. induction l as [|a l IH]; intros [|j]; cbn; auto. Qed.

Definition located (names : list bytes) (seen : list (bytes * point)) (c : list (option point)) : Prop :=
  length c = length names /\
  (forall n p, In (n, p) seen -> fst p <> NaN -> exists j, LocModel.index_name n names 0 = Some j /\ nth_error c j = Some (Some p)) /\
  (forall j p, nth_error c j = Some (Some p) -> exists n, LocModel.index_name n names 0 = Some j /\ In (n, p) seen).
Lemma init_auto_says names : forall cfg seen c, located names seen c -> NoDup (map fst (seen ++ cfg)) ->
  if forallb (fun e => among names (fst e) && negb (bad_point (snd e))) cfg then exists c', LocModel.init_auto bad_point nan_point names c cfg = Some c' /\ located names (seen ++ cfg) c'
  else LocModel.init_auto bad_point nan_point names c cfg = None.
Proof.
  induction cfg as [|(n, p) cfg IH]; intros seen c LO ND; cbn [forallb LocModel.init_auto fst snd].
  - exists c. rewrite app_nil_r. auto.
  - destruct (LocModel.index_name n names 0) as [j|] eqn:EI.
    + assert (A : among names n = true). { apply among_in. apply LocProofs.index_name_nth in EI as (_ & EI). eapply nth_error_In, EI. }
      rewrite A. cbn [andb]. destruct LO as (LL & L1 & L2).
      assert (FRESH : forall q, nth_error c j <> Some (Some q)).
      { intros q E. apply L2 in E as (m & EM & I). pose proof (LocProofs.index_name_nth _ _ _ EI) as (_ & E1). pose proof (LocProofs.index_name_nth _ _ _ EM) as (_ & E2). assert (m = n) by congruence. subst m.
        rewrite map_app in ND. cbn [map fst] in ND. apply NoDup_remove_2 in ND. apply ND, in_app_iff. left. apply (in_map fst) in I. exact I. }
      replace (match nth_error c j with Some (Some _) => None | _ => if bad_point p then None else LocModel.init_auto bad_point nan_point names (upd c j (if nan_point p then None else Some p)) cfg end)
        with (if bad_point p then None else LocModel.init_auto bad_point nan_point names (upd c j (if nan_point p then None else Some p)) cfg) by (destruct (nth_error c j) as [[q|]|] eqn:EN; [now destruct (FRESH q)|reflexivity|reflexivity]).
      destruct (bad_point p) eqn:BP; cbn [negb andb]; [reflexivity|].
      assert (JL : j < length c). { rewrite LL. apply LocProofs.index_name_nth in EI as (_ & EI). rewrite Nat.sub_0_r in EI. change LocModel.name with (list N) in EI. apply nth_error_Some. congruence. }
      specialize (IH (seen ++ [(n, p)]) (upd c j (if nan_point p then None else Some p))). rewrite <- app_assoc in IH. cbn [app] in IH. apply IH; [|exact ND].
      split; [now rewrite upd_len|]. split.
      * intros m q I NN. apply in_app_iff in I as [I|[[= <- <-]|[]]].
        -- destruct (L1 m q I NN) as (j' & E1 & E2). exists j'. split; [exact E1|]. destruct (Nat.eq_dec j j') as [<-|NE]; [now destruct (FRESH q)|]. rewrite upd_other by exact NE. exact E2.
        -- exists j. split; [exact EI|]. rewrite upd_same by exact JL. destruct (nan_point p) eqn:NP; [|reflexivity]. unfold nan_point in NP. destruct (fst p); congruence.
      * intros j' q E. destruct (Nat.eq_dec j j') as [<-|NE].
        -- rewrite upd_same in E by exact JL. destruct (nan_point p); [discriminate|]. injection E as <-. exists n. split; [exact EI|]. apply in_app_iff. cbn. auto.
        -- rewrite upd_other in E by exact NE. destruct (L2 _ _ E) as (m & E1 & I). exists m. split; [exact E1|]. apply in_app_iff. auto.
    + replace (among names n) with false; [reflexivity|]. symmetry. now apply (index_among n names 0).
Qed.

Lemma gmap_ok {A B} (f : A -> option B) l : gmap_all (fun a => Ok (f a)) l = Ok (all f l).
Proof. induction l as [|a l IH]; cbn [gmap_all all]; [reflexivity|]. unfold gbind. destruct (f a); [|reflexivity]. rewrite IH. now destruct (all f l). Qed.
Lemma gmap_ext {A B} (f g : A -> gm B) l : (forall a, In a l -> f a = g a) -> gmap_all f l = gmap_all g l.
Proof. induction l as [|a l IH]; intros H; cbn [gmap_all]; [reflexivity|]. rewrite H by (cbn; auto). unfold gbind. destruct (g a) as [[b|]|]; auto. rewrite IH; [reflexivity|]. intros x I. apply H. cbn; auto. Qed.
Lemma gmap_map {A B C} (f : B -> gm C) (g : A -> B) l : gmap_all f (map g l) = gmap_all (fun a => f (g a)) l.
Proof. induction l as [|a l IH]; cbn [gmap_all map]; [reflexivity|]. now rewrite IH. Qed.

Section Info.
  Variable strtod : bytes -> option dbl.

  Lemma center_names_is x : center_names (fresh x) = Ok (strings x).
  Proof.
    unfold center_names, strings. rewrite items_fresh, gmap_map, <- gmap_ok. apply gmap_ext. intros y _. now destruct y.
  Qed.
  Definition raw (e : bytes * vnode) : option (bytes * point) :=
    match snd e with VA [VS _ lat; VS _ lon] => let? a <- strtod lat ; let? o <- strtod lon ; Some (c_str (fst e), (a, o)) | _ => None end.
  Lemma coord_is e : coord strtod (fst e, fresh (snd e)) = Ok (raw e).
  Proof.
    destruct e as (k, y). unfold coord, raw. cbn [fst snd]. rewrite items_fresh. destruct y as [r v|l|h]; [reflexivity| |reflexivity]. cbn [elements].
    destruct l as [|[r1 v1|?|?] [|[r2 v2|?|?] [|? ?]]]; try reflexivity. cbn [map fresh]. unfold gbind, opt, obind. destruct (strtod v1); [|reflexivity]. now destruct (strtod v2).
  Qed.
  Lemma coords_is h : coords strtod (fresh (VH h)) = Ok (all raw h).
  Proof. change (fresh (VH h)) with (TH (ftab h)). unfold coords. rewrite <- mtab_nil, entries_mtab, gmap_map, <- gmap_ok. apply gmap_ext. intros e _. apply coord_is. Qed.
  Lemma raw_name e r : raw e = Some r -> fst r = c_str (fst e).
  Proof. unfold raw. destruct (snd e) as [?|l|?]; try discriminate. destruct l as [|[]]; try discriminate. destruct l as [|[] [|]]; try discriminate. unfold obind. destruct (strtod _); [|discriminate]. destruct (strtod _); [|discriminate]. now intros [= <-]. Qed.
  Lemma raw_keys h l : all raw h = Some l -> map fst l = map (fun e => c_str (fst e)) h.
  Proof. intros E. apply all_f2 in E. induction E as [|e r h l X F IH]; [reflexivity|]. cbn [map]. rewrite IH. f_equal. now apply raw_name. Qed.
  Lemma coords_say_is names h : coords_say strtod names (VH h) =
    match all raw h with Some l => if forallb (fun e => among names (fst e) && negb (bad_point (snd e))) l then Some l else None | None => None end.
  Proof.
    unfold coords_say. induction h as [|(k, y) h IH]; [reflexivity|]. cbn [all]. rewrite IH. clear IH. unfold raw at 2. cbn [fst snd].
    destruct y as [?|l|?]; try reflexivity. destruct l as [|[r1 v1|?|?] [|[r2 v2|?|?] [|? ?]]]; try reflexivity. unfold obind. destruct (strtod v1) as [a|]; [|reflexivity]. destruct (strtod v2) as [o|]; [|reflexivity].
    destruct (all raw h) as [l|]; cbn [forallb fst snd]; rewrite ?bad_is, ?negb_involutive; cbn [fst snd].
    - destruct (within 90 a && within 180 o), (among names (c_str k)); cbn [andb need]; try reflexivity. destruct (forallb _ l); reflexivity.
    - destruct (within 90 a && within 180 o && among names (c_str k)); reflexivity.
  Qed.

  (** What [dcinfo_init] makes of the three *)
  Definition info_says (c : vnode) (auto limit : option vnode) : option (list bytes * option (list (bytes * point)) * option N) :=
    let? names <- centers_say c ;
    let? a <- match auto with None => Some None | Some x => let? l <- coords_say strtod names x ; Some (Some l) end ;
    let? l <- match limit with None => Some None | Some (VS _ v) => let? n <- as_ulong v ; Some (Some n) | Some _ => None end ;
    Some (names, a, l).
  Definition info_is (names : list bytes) (auto : option (list (bytes * point))) (limit : option N) (i : LocModel.dcinfo point) : Prop :=
    LocModel.i_names i = names /\
    length (LocModel.i_coords i) = length names /\
    LocModel.i_limit i = LocSpec.limit_for (option_map N.to_nat limit) (match auto with Some l => length l | None => length names end) /\
    (forall n p, In p (match auto with Some l => l | None => [] end) -> fst p = n -> fst (snd p) <> NaN ->
       exists j, nth_error names j = Some n /\ nth_error (LocModel.i_coords i) j = Some (Some (snd p))) /\
    (forall j p, nth_error (LocModel.i_coords i) j = Some (Some p) -> exists n l, auto = Some l /\ In (n, p) l /\ nth_error names j = Some n) /\
    LocModel.dcinfo_init bad_point nan_point names auto (option_map N.to_nat limit) = Some i.
  Lemma located_nil names : located names [] (repeat None (length names)).
  Proof. split; [apply repeat_length|]. split; [intros n p []|]. intros j p E. apply nth_error_In, repeat_spec in E. discriminate. Qed.
  Lemma limit_is lim n : match lim with Some l => if (n <? l) || (l =? 0) then n else l | None => if 3 <? n then 3 else n end = LocSpec.limit_for lim n.
  Proof.
    unfold LocSpec.limit_for. destruct lim as [[|l]|].
    - cbn [Nat.eqb]. now rewrite orb_true_r.
    - cbn [Nat.eqb]. rewrite orb_false_r. destruct (Nat.ltb_spec n (S l)); lia.
    - destruct (Nat.ltb_spec 3 n); lia.
  Qed.
  Lemma read_info_says c auto limit : (forall y, auto = Some (VH y) -> NoDup (map (fun e => c_str (fst e)) y)) ->
    match info_says c auto limit with
    | Some (names, a, l) => exists i, read_info strtod (fresh c) (option_map fresh auto) (option_map fresh limit) = Ok (Some i) /\ info_is names a l i /\ Forall (fun n => ~ In 0%N n) names /\ among names t_auto = false
    | None => read_info strtod (fresh c) (option_map fresh auto) (option_map fresh limit) = Ok None
    end.
  Proof.
    intros ND. unfold info_says, read_info, centers_say. rewrite center_names_is. destruct (strings c) as [names|] eqn:ES; cbn [obind gbind]; [|reflexivity].
    assert (NZ : Forall (fun n => ~ In 0%N n) names). { apply all_f2 in ES. clear -ES. induction ES as [|y n ys ns E F IH]; constructor; auto. destruct y; try discriminate. injection E as <-. apply c_str_nz. }
    assert (DI : forall a l, LocModel.dcinfo_init bad_point nan_point names a l =
      if Nat.leb 1 (length names) && Nat.leb (length names) 254 && negb (among names t_auto) then
        match (match a with None => Some (repeat None (length names), length names) | Some cfg => match LocModel.init_auto bad_point nan_point names (repeat None (length names)) cfg with Some c => Some (c, length cfg) | None => None end end) with
        | None => None
        | Some (coords, num) => Some {| LocModel.i_names := names; LocModel.i_coords := coords; LocModel.i_limit := LocSpec.limit_for l num |}
        end else None).
    { intros a l. unfold LocModel.dcinfo_init. change LocModel.MAX_NUM_DCS with 254. change LocModel.auto_name with t_auto.
      replace (existsb (LocModel.name_eqb t_auto) names) with (among names t_auto) by (unfold among; clear; induction names as [|n names IH]; [reflexivity|cbn [existsb]; now rewrite name_eqb_is, IH]).
      assert (E : (length names =? 0) || (254 <? length names) = negb (Nat.leb 1 (length names) && Nat.leb (length names) 254)) by (destruct (Nat.eqb_spec (length names) 0), (Nat.ltb_spec 254 (length names)), (Nat.leb_spec 1 (length names)), (Nat.leb_spec (length names) 254); try reflexivity; lia).
      change LocModel.name with (list N). rewrite E. destruct (Nat.leb 1 (length names) && Nat.leb (length names) 254); cbn [negb andb]; [|reflexivity]. destruct (among names t_auto); cbn [negb]; [reflexivity|]. destruct a as [cfg|].
      - destruct (LocModel.init_auto _ _ _ _ cfg) as [cc|]; [|reflexivity]. now rewrite <- limit_is.
      - now rewrite <- limit_is. }
    destruct (Nat.leb 1 (length names) && Nat.leb (length names) 254 && negb (among names t_auto)) eqn:OKC; cbn [need obind].
    - assert (NA : among names t_auto = false) by (apply andb_prop in OKC as (_ & OKC); now apply negb_true_iff in OKC).
      assert (LIM : match option_map fresh limit with None => Ok (Some None) | Some (TS _ v) => gbind (opt (as_ulong v)) (fun n => Ok (Some (Some (N.to_nat n)))) | Some _ => Ok None end =
        Ok (option_map (option_map N.to_nat) (match limit with None => Some None | Some (VS _ v) => let? n <- as_ulong v ; Some (Some n) | Some _ => None end))).
      { destruct limit as [[r v|?|?]|]; cbn [option_map fresh]; try reflexivity. unfold gbind, opt, obind. now destruct (as_ulong v). }
      destruct auto as [x|]; cbn [option_map].
      + destruct x as [r v|l|h].
        * reflexivity.
        * reflexivity.
        * rewrite coords_is, coords_say_is. destruct (all raw h) as [cfg|] eqn:EC; cbn [gbind obind]; [|reflexivity].
          pose proof (init_auto_says names cfg [] _ (located_nil names)) as IA. cbn [app] in IA. rewrite (raw_keys h cfg EC) in IA. specialize (IA (ND h eq_refl)).
          unfold gbind at 1. rewrite LIM. destruct (match limit with None => Some None | Some (VS _ v) => let? n <- as_ulong v ; Some (Some n) | Some _ => None end) as [l|]; cbn [option_map].
          -- unfold opt. pose proof (DI (Some cfg) (option_map N.to_nat l)) as EI. change LocModel.name with (list N) in EI. rewrite ?OKC in EI. cbv beta iota in EI. destruct (forallb _ cfg) eqn:FA; cbn [obind gbind].
             ++ destruct IA as (cc & EA & (LL & L1 & L2)). match type of EI with context [LocModel.init_auto ?a ?b ?c ?d ?e] => replace (LocModel.init_auto a b c d e) with (Some cc) in EI by (symmetry; exact EA) end. cbv beta iota in EI. rewrite EI. eexists. split; [reflexivity|]. split; [|auto]. split; [reflexivity|]. split; [exact LL|]. split; [reflexivity|]. cbn [LocModel.i_coords]. split; [|split; [|exact EI]].
                ** intros n (m, p) I <- NN. destruct (L1 m p I NN) as (j & EJ & EN). exists j. split; [|exact EN]. apply LocProofs.index_name_nth in EJ as (_ & EJ). now rewrite Nat.sub_0_r in EJ.
                ** intros j p E. destruct (L2 j p E) as (n & EJ & I). exists n, cfg. split; [reflexivity|]. split; [exact I|]. apply LocProofs.index_name_nth in EJ as (_ & EJ). now rewrite Nat.sub_0_r in EJ.
             ++ match type of EI with context [LocModel.init_auto ?a ?b ?c ?d ?e] => replace (LocModel.init_auto a b c d e) with (@None (list (option point))) in EI by (symmetry; exact IA) end. rewrite EI. reflexivity.
          -- destruct (forallb _ cfg); reflexivity.
      + cbn [obind gbind]. rewrite LIM. destruct (match limit with None => Some None | Some (VS _ v) => let? n <- as_ulong v ; Some (Some n) | Some _ => None end) as [l|]; cbn [option_map obind gbind]; [|reflexivity].
        unfold opt. rewrite (DI None). eexists. split; [reflexivity|]. split; [|auto]. split; [reflexivity|]. split; [apply repeat_length|]. split; [reflexivity|]. split; [intros n p []|]. split; [intros j p E; cbn [LocModel.i_coords] in E; apply nth_error_In, repeat_spec in E; discriminate|]. rewrite DI. reflexivity.
    - assert (X : forall a l, opt (LocModel.dcinfo_init bad_point nan_point names a l) = Ok None) by (intros; unfold opt; now rewrite DI).
      destruct auto as [[r v|l|h]|]; cbn [option_map]; try reflexivity; [rewrite coords_is; destruct (all raw h) as [cfg|]; [|reflexivity]|]; cbn [gbind]; (destruct limit as [[r v|?|?]|]; cbn [option_map fresh gbind]; try reflexivity; [unfold opt at 1; destruct (as_ulong v); cbn [gbind]; [apply X|reflexivity]|apply X]).
  Qed.
End Info.
