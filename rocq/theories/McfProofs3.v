(** The datacenters of a resource, and the resources *)
From Coq Require Import Permutation String ZArith.
From Verif Require Import Base DnameModel DnameSpec CompModel CompProofs RespModel MonModel ArenaProofs VscfModel VscfSpec OptModel VhashModel VhashSpec VhashProofs2 PlugModel MsgModel LtreeModel PconfModel PconfSpec PconfProofs2 PconfProofs3 PconfProofs5 McfModel McfSpec McfProofs McfProofs2.
Local Open Scope nat_scope.
Local Open Scope list_scope.
Local Notation length := List.length.
Ltac Zify.zify_post_hook ::= idtac.

Lemma center_index_some n l : forall i j, center_index n l i = Some j -> exists m, j = i + m /\ nth_error l m = Some n /\ forall m', m' < m -> nth_error l m' <> Some n.
Proof.
  induction l as [|a l IH]; intros i j; cbn; [discriminate|]. destruct (bytes_eqb n a) eqn:B.
  - apply bytes_eqb_spec in B. subst. intros [= <-]. exists 0. split; [lia|]. split; [reflexivity|]. intros; lia.
  - intros E. destruct (IH _ _ E) as (m & -> & N & F). exists (S m). split; [lia|]. split; [exact N|]. intros [|m'] L; [cbn; intros [= ->]; rewrite eqb_refl' in B; discriminate|]. cbn. apply F. lia.
Qed.
Lemma center_index_none n l : forall i, center_index n l i = None -> ~ In n l.
Proof.
  induction l as [|a l IH]; intros i; cbn; [intros _ []|]. destruct (bytes_eqb n a) eqn:B; [discriminate|]. intros E [->|I]; [rewrite eqb_refl' in B; discriminate|eapply IH; eauto].
Qed.
Lemma center_among n l i : among l n = match center_index n l i with Some _ => true | None => false end.
Proof.
  destruct (center_index n l i) as [j|] eqn:E.
  - apply center_index_some in E as (m & _ & N & _). apply among_in. eapply nth_error_In; eauto.
  - apply center_index_none in E. now apply among_not.
Qed.

Lemma later_len s s' : later s s' -> length (mons s) <= length (mons s').
Proof. intros ((l & E) & _). rewrite E, app_length. lia. Qed.

Section Steps.
  Variable gai : bytes -> option addr.
  Variable service : bytes -> option (bool * bool).
  Variable junk : bytes.
  Variable k : kind.
  Variable fq_name : bytes -> option name.
  Variable gdmaps : tab -> option (list (bytes * list bytes)).
  Hypothesis fq_name_is : forall t ls, all_bytes t -> (fq_name t = Some ls <-> name_text t ls true /\ legal_name ls).
  Hypothesis junk_len : length junk = 256.
  Notation gives := (gives service).

  Lemma dc_made_later s s' rn n w d : later s s' -> dc_made k s rn n w d -> dc_made k s' rn n w d.
  Proof.
    intros L (A & B & C). split; [exact A|]. split; [eapply admin_later; eauto|]. destruct w as [c svcs|p q|p q], (mc_what d); try exact C. destruct C as (C1 & C2). split; [exact C1|]. eapply all_monitors_later; eauto.
  Qed.
  Definition bounded (dcs : list (option mc_dc)) (n : nat) : Prop := forall i d, nth_error dcs i = Some (Some d) -> mc_mon d < n.
  Definition apart (dcs : list (option mc_dc)) : Prop := forall i j d d', nth_error dcs i = Some (Some d) -> nth_error dcs j = Some (Some d') -> mc_mon d = mc_mon d' -> i = j.
  Fixpoint chain (seen : bool) (H : hash) (es : hash) : Prop :=
    match es with [] => True | e :: es' => keeps_plugin seen H (snd e) /\ chain (seen || bang (snd e)) H es' end.
  Record dcs_post (rname : bytes) (s0 : state) (centers : list bytes) (mapis : list (option nat)) (dcs : list (option mc_dc)) (es : hash) (s : state)
      (dcs' : list (option mc_dc)) (ws : list (bytes * dc_want)) : Prop := {
    dp_length : length dcs' = length dcs;
    dp_names : map fst ws = map (fun e => c_str (fst e)) es;
    dp_made : forall n w, In (n, w) ws -> exists i d, nth_error centers i = Some n /\ nth_error dcs' i = Some (Some d) /\ dc_made k s rname n w d /\ mc_map d = nth i mapis None;
    dp_kept : forall i, (exists n, nth_error centers i = Some n /\ In n (map fst ws)) \/ nth_error dcs' i = nth_error dcs i;
    dp_only : forall i d, nth_error dcs' i = Some (Some d) -> nth_error dcs i = Some (Some d) \/
      (nth_error centers i = Some (mc_name d) /\ In (mc_name d) (map fst ws) /\ length (mons s0) <= mc_mon d < length (mons s));
    dp_apart : bounded dcs (length (mons s0)) -> apart dcs -> apart dcs' }.
  Definition fresh_entries (es : hash) : list (bytes * tree) := map (fun e => (fst e, fresh (snd e))) es.

  Lemma dcs_give rname centers mapis D H : fine k H -> among D k_plugin = false -> among D k_types = false -> forall es s0 seen T tops dcs,
    Forall (kept k) es -> NoDup (map fst es) -> chain seen H es -> length dcs = length centers -> agree tops T -> open_confs T ->
    gives s0 (config_dcs gai service junk k rname centers mapis (fresh_entries es) (mtab (plus seen D) H) tops dcs)
      (dcs_say gai service fq_name k rname centers (others D H) es T)
      (fun s y z => dcs_post rname s0 centers mapis dcs es s (fst y) (fst z) /\ agree (snd y) (snd z) /\ open_confs (snd z)).
  Proof.
    intros FH AP AT es. induction es as [|(key, x) es IH]; intros s0 seen T tops dcs KE N CH LD A O.
    - cbn. apply gives_ret. intros s L. cbn [fst snd]. split; [|split; assumption]. constructor; cbn; auto; try (intros ? ? []).
    - cbn [fresh_entries map config_dcs dcs_say fst snd]. inversion KE as [|? ? KX KE']; subst. cbn in N. inversion N as [|? ? NI N']; subst. cbn [chain snd] in CH. destruct CH as (KP & CH).
      assert (CS : forall e, In e ((key, x) :: es) -> c_str (fst e) = fst e). { intros e I. rewrite Forall_forall in KE. destruct (KE e I) as (_ & _ & _ & _ & Z & _). now apply c_str_whole. }
      pose proof (CS (key, x) (or_introl eq_refl)) as CK. cbn [fst] in CK. rewrite CK. rewrite (center_among _ _ 0). destruct (center_index key centers 0) as [i0|] eqn:EI; [|apply gives_fatal]. cbn [need obind].
      apply center_index_some in EI as (m & EM & NC & _). cbn in EM. subst m.
      apply gives_eq with (o := obind (then_add k rname key (dc_says gai service fq_name k rname (others D H) x) T)
        (fun z => obind (dcs_say gai service fq_name k rname centers (others D H) es (snd z)) (fun y => Some ((key, fst z) :: fst y, snd y)))).
      { unfold then_add. destruct (dc_says gai service fq_name k rname (others D H) x) as [w|]; [|reflexivity]. cbn [obind]. destruct (add_new k rname key w T); reflexivity. }
      assert (KX' : kept k (key, x)) by exact KX.
      eapply gives_bind; [apply (dc_gives gai service junk k fq_name fq_name_is junk_len s0 rname key (nth i0 mapis None) x seen D H T tops); assumption|].
      intros s1 ((d, res1), tops1) (w, T1) L1 (MD & MM & BM & ER & A1 & O1). cbn [fst snd] in MD, MM, BM, ER, A1, O1 |- *. subst res1.
      assert (LU : length (upd dcs i0 (Some d)) = length centers) by (rewrite upd_length; exact LD).
      specialize (IH s1 (seen || bang x) T1 tops1 (upd dcs i0 (Some d)) KE' N' CH LU A1 O1).
      intros s2 L2 S2. specialize (IH s2 L2 S2). fold (fresh_entries es). destruct (config_dcs gai service junk k rname centers mapis (fresh_entries es) (mtab (plus (seen || bang x) D) H) tops1 (upd dcs i0 (Some d)) s2) as [[(y, s3)|]|]; [|now rewrite IH|exact IH].
      destruct IH as (z & EZ & (PO & A3 & O3) & L3 & S3). rewrite EZ. cbn [obind]. eexists. split; [reflexivity|]. split; [|split; [exact L3|exact S3]]. cbn [fst snd]. split; [|split; assumption].
      destruct PO as [P1 P2 P3 P4 P5 P6]. assert (L13 : later s1 s3) by (eapply later_trans; [exact L2|exact L3]). pose proof (later_len _ _ L13) as LL. pose proof (later_len _ _ L1) as LL0.
      assert (I0 : i0 < length dcs). { rewrite LD. apply nth_error_Some. congruence. }
      assert (U : forall j, nth_error (upd dcs i0 (Some d)) j = if Nat.eqb j i0 then Some (Some d) else nth_error dcs j). { intros j. rewrite anth_upd. destruct (Nat.eqb_spec j i0) as [->|_]; [|reflexivity]. destruct (nth_error dcs i0) eqn:E; [reflexivity|]. apply nth_error_None in E. lia. }
      assert (NW : ~ In key (map fst (fst z))). { rewrite P2. intros I. apply in_map_iff in I as (e & E & I). rewrite (CS e (or_intror I)) in E. apply NI. rewrite <- E. now apply in_map. }
      constructor.
      + rewrite P1, upd_length. reflexivity.
      + cbn. rewrite P2, CK. reflexivity.
      + intros n w' [[= <- <-]|I].
        * exists i0, d. split; [exact NC|]. split; [|split; [eapply dc_made_later; [exact L13|exact MD]|exact MM]]. destruct (P4 i0) as [(n & E & I)|E]; [exfalso; apply NW; congruence|]. rewrite E, U, Nat.eqb_refl. reflexivity.
        * now apply P3.
      + intros j. cbn [map fst]. destruct (P4 j) as [(n & E & I)|E]; [left; exists n; split; [exact E|cbn; auto]|]. rewrite U in E. destruct (Nat.eqb_spec j i0) as [EQJ|NE]; [subst j; left; exists key; split; [exact NC|cbn; auto]|now right].
      + intros j d' E. cbn [map fst]. destruct (P5 j d' E) as [E'|(E' & I & B)].
        * rewrite U in E'. destruct (Nat.eqb_spec j i0) as [EQJ|NE]; [subst j|now left]. injection E' as <-. right. destruct MD as (MN & _). rewrite MN. split; [exact NC|]. split; [cbn; auto|lia].
        * right. split; [exact E'|]. split; [cbn; auto|lia].
      + intros B AP'. apply P6.
        * intros j d' E. rewrite U in E. destruct (Nat.eqb_spec j i0) as [EQJ|NE]; [subst j; injection E as <-; lia|]. specialize (B j d' E). lia.
        * intros i j di dj Ei Ej EQ. rewrite U in Ei, Ej. destruct (Nat.eqb_spec i i0) as [->|Ni], (Nat.eqb_spec j i0) as [->|Nj]; [reflexivity| | |now apply (AP' i j di dj)].
          -- injection Ei as <-. specialize (B j dj Ej). lia.
          -- injection Ej as <-. specialize (B i di Ei). lia.
  Qed.
  Lemma steady_chain H dm : forall seen, get k_plugin H = None \/ steady seen dm -> chain seen H dm.
  Proof.
    induction dm as [|(n, x) dm IH]; intros seen S; [exact I|]. cbn [chain snd]. split.
    - destruct x as [r v|l|h]; [exact I|exact I|]. cbn. intros SE. destruct S as [G|S]; [now right|]. cbn in S. left. now apply S.
    - apply IH. destruct S as [G|S]; [now left|right]. destruct x as [r v|l|h]; cbn [steady bang] in *; [exact S|rewrite orb_false_r; exact S|rewrite orb_false_r; apply S].
  Qed.

  (** ** The list or map *)
  Lemma texts_give s0 l : gives s0 (mapm (fun y => match y with TS _ v => ret (c_str v) | _ => fatal end) (map fresh l)) (all text_of_node l) (fun _ a b => a = b).
  Proof.
    eapply gives_weaken; [|eapply (gives_mapm service (fun a b => a = fresh b) _ _ (fun _ a b => a = b)); [intros ? ? ? ? _ H; exact H| |]].
    - cbn. intros s a b H. induction H as [|x y l1 l2 -> H IH]; [reflexivity|]. now rewrite IH.
    - clear. induction l; constructor; auto.
    - intros s1 a b _ ->. destruct b; [now apply gives_ret|apply gives_fatal|apply gives_fatal].
  Qed.
  Definition shape (states : list (bytes * list (bytes * nat))) : list (bytes * list bytes) := map (fun x => (fst x, map fst (snd x))) states.
  Lemma find_shape n states : List.find (fun m => bytes_eqb n (fst m)) (shape states) = option_map (fun x => (fst x, map fst (snd x))) (List.find (fun x => bytes_eqb n (fst x)) states).
  Proof. unfold shape. induction states as [|x states IH]; [reflexivity|]. cbn [map List.find fst]. destruct (bytes_eqb n (fst x)); [reflexivity|exact IH]. Qed.
  Lemma nth_states (l : list (bytes * nat)) : forall i, nth i (map (fun x => Some (snd x)) l) None = option_map snd (nth_error l i).
  Proof. induction l as [|x l IH]; intros [|i]; cbn; try reflexivity. apply IH. Qed.
  Lemma nth_nones (l : list bytes) : forall i, nth i (map (fun _ => @None nat) l) None = None.
  Proof. induction l as [|x l IH]; intros [|i]; cbn; try reflexivity. apply IH. Qed.
  Lemma map_gives s0 states h : Forall (fun m => snd m <> []) (shape states) ->
    gives s0 (get_map k states (ftab h)) (centers_say k (shape states) h) (fun _ y c => fst y = snd c /\ snd c <> [] /\ forall i, nth i (snd y) None = map_state states (fst c) i).
  Proof.
    intros NE. unfold get_map, centers_say. destruct k.
    - rewrite ftab_value. destruct (get k_centers h) as [x|]; [|apply gives_fatal]. cbn [option_map].
      assert (G : forall l : list vnode, gives s0 (let* _ <- check (match map fresh l with [] => false | _ => true end) ; let* ns <- mapm (fun y => match y with TS _ v => ret (c_str v) | _ => fatal end) (map fresh l) ; ret (ns, map (fun _ => None) ns))
        (let? ns <- all text_of_node l ; let? _ <- need (match ns with [] => false | _ => true end) ; Some (None, ns)) (fun _ y c => fst y = snd c /\ snd c <> [] /\ forall i, nth i (snd y) None = map_state states (fst c) i)).
      { intros l. destruct l as [|x0 l]; [intros s _ _; reflexivity|]. eapply gives_eq with (o := obind (need true) (fun _ => obind (all text_of_node (x0 :: l)) (fun ns => Some (@None bytes, ns)))).
        { cbn [need obind all]. destruct (text_of_node x0); [|reflexivity]. cbn. destruct (all text_of_node l); reflexivity. }
        apply gives_check. intros _. eapply gives_bind'; [apply texts_give|]. cbv beta. intros s1 a b L1 EA ->. apply gives_ret. intros s2 L2. cbn [fst snd]. split; [reflexivity|]. split; [|intros i; apply nth_nones].
        cbn [all] in EA. destruct (text_of_node x0); [|discriminate]. destruct (all text_of_node l); [|discriminate]. injection EA as <-. discriminate. }
      destruct x as [r v|l|x]; [apply (G [VS r v])|apply (G l)|apply gives_fatal].
    - rewrite ftab_value. destruct (get k_map h) as [[r v|l|x]|]; cbn [option_map fresh obind text_of_node]; try apply gives_fatal. rewrite find_shape.
      destruct (List.find (fun x => bytes_eqb (c_str v) (fst x)) states) as [m|] eqn:EF; cbn [option_map obind]; [|apply gives_fatal]. apply gives_ret. intros s1 L1. cbn [fst snd]. split; [reflexivity|]. split.
      + rewrite Forall_forall in NE. apply List.find_some in EF as (I & _). specialize (NE (fst m, map fst (snd m))). apply NE. unfold shape. apply in_map_iff. now exists m.
      + intros i. cbn [map_state]. rewrite EF. apply nth_states.
  Qed.

  (** ** A resource *)
  Lemma mons_range r n m : (forall i d, nth_error (mx_dcs r) i = Some (Some d) -> n <= mc_mon d < m) -> Forall (fun j => n <= j < m) (mons_of r).
  Proof.
    intros H. apply Forall_forall. intros j I. unfold mons_of in I. apply in_flat_map in I as (o & I & J). destruct o as [d|]; [|destruct J]. destruct J as [<-|[]]. apply In_nth_error in I as (i & E). eapply H; eauto.
  Qed.
  Lemma apart_nodup (dcs : list (option mc_dc)) : apart dcs -> NoDup (flat_map (fun o => match o with Some d => [mc_mon d] | None => [] end) dcs).
  Proof.
    induction dcs as [|o dcs IH]; intros A; [constructor|]. cbn [flat_map].
    assert (A' : apart dcs). { intros i j d d' Ei Ej EQ. assert (S i = S j) by (apply (A (S i) (S j) d d'); assumption). lia. }
    destruct o as [d|]; cbn [app]; [|now apply IH]. constructor; [|now apply IH]. intros I. apply in_flat_map in I as (o & I & J). destruct o as [d'|]; [|destruct J]. destruct J as [E|[]]. apply In_nth_error in I as (i & Ei).
    assert (X : 0 = S i) by (apply (A 0 (S i) d d'); [reflexivity|exact Ei|congruence]). lia.
  Qed.
  Definition res_post states s0 s (y : mc_res * tab) (z : mc_want * confs) : Prop :=
    mc_made k states s (fst z) (fst y) /\ NoDup (mons_of (fst y)) /\ Forall (fun j => length (mons s0) <= j < length (mons s)) (mons_of (fst y)) /\ agree (snd y) (snd z) /\ open_confs (snd z).

  Lemma own_apart : among (own_keys k) k_plugin = false /\ among (own_keys k) k_types = false.
  Proof. destruct k; split; reflexivity. Qed.
  Lemma top_apart : among (top_keys k) k_plugin = false /\ among (top_keys k) k_dcmap = false.
  Proof. destruct k; split; reflexivity. Qed.

  Lemma resource_gives s0 undef states h e T tops : fine k h -> kept k e -> Forall (fun m => snd m <> []) (shape states) ->
    (forall r dm, snd e = VH r -> setting k_dcmap [r; h] = Some (VH dm) -> setting k_plugin [r; h] = None \/ steady false dm) -> agree tops T -> open_confs T ->
    gives s0 (make_resource gai service junk k undef states (mtab (top_keys k) h) (fst e, fresh (snd e)) tops)
      (res_says gai service fq_name k undef (shape states) (others (top_keys k) h) e T) (res_post states s0).
  Proof.
    intros FH KE NE ST A O. unfold make_resource, res_says. cbn [fst snd]. destruct (snd e) as [rr v|l|r] eqn:ES; [apply gives_fatal|apply gives_fatal|].
    change (fresh (VH r)) with (TH (ftab r)). cbv iota. rewrite (fine_inherit k (top_keys k) h r FH). set (F := filled r (others (top_keys k) h)).
    assert (FR : fine k r). { destruct KE as (K1 & K2 & K3 & K4 & _). rewrite ES in *. now apply fine_is. }
    assert (FF : fine k F) by (apply fine_filled; [exact FR|now apply fine_others]).
    eapply gives_bind; [apply map_gives; exact NE|]. intros s1 m c L1 (EM & NC & MS). cbv zeta.
    rewrite <- (mtab_nil F), !mark_mtab. fold (own_keys k).
    apply gives_asserted; [rewrite EM; destruct (snd c); [congruence|reflexivity]|]. rewrite !value_mtab.
    eapply gives_bind with (R := fun _ a b => a = b).
    { destruct (get k_skip F) as [x|] eqn:EK; [|now apply gives_ret]. pose proof (get_some_in _ _ _ EK) as IK. destruct (fine_in _ _ _ FF IK) as (_ & _ & _ & _ & _ & SK & _). destruct (SK eq_refl) as (r' & v' & EX). cbn in EX. subst x. cbn [option_map fresh boolean]. destruct (as_bool v'); [now apply gives_ret|apply gives_fatal]. }
    cbv beta. intros s2 skip skip' L2 ->. destruct (get k_dcmap F) as [[rr v|l|dm]|] eqn:ED; cbn [option_map fresh obind]; try apply gives_fatal.
    change (map (fun e => (fst e, false, fresh (snd e))) dm) with (ftab dm). rewrite <- (mtab_nil dm), !length_mtab, entries_mtab, EM. apply gives_check. intros CNT.
    pose proof (get_some_in _ _ _ ED) as ID. pose proof (fine_inner _ _ _ _ FF ID) as (ND & KD).
    assert (CH : chain false F dm).
    { apply steady_chain. unfold F in ED |- *. rewrite get_filled in *. destruct top_apart as (T1 & T2). cbn [setting] in ED |- *. rewrite (get_others _ _ _ T1). rewrite (get_others _ _ _ T2) in ED. apply (ST r dm eq_refl). cbn [setting]. exact ED. }
    destruct own_apart as (OA1 & OA2).
    eapply gives_bind; [apply (dcs_give (c_str (fst e)) (snd c) (snd m) (own_keys k) F FF OA1 OA2 dm s2 false T tops (map (fun _ => None) (snd c))); [exact KD|exact ND|exact CH|apply map_length|exact A|exact O]|].
    intros s3 y z L3 (PO & A3 & O3). apply gives_ret. intros s4 L4. unfold res_post. cbn [fst snd]. destruct PO as [P1 P2 P3 P4 P5 P6].
    assert (NN : forall i d, nth_error (map (fun _ : bytes => @None mc_dc) (snd c)) i <> Some (Some d)). { intros i d E. rewrite nth_error_map in E. destruct (nth_error (snd c) i); discriminate. }
    pose proof (later_len _ _ L1). pose proof (later_len _ _ L2). pose proof (later_len _ _ L4).
    split; [|split; [|split; [|split; assumption]]].
    - unfold mc_made. cbn [mx_name mx_centers mx_skip mx_defined mx_dcs xw_name xw_centers xw_skip xw_dcs xw_map]. split; [reflexivity|]. split; [reflexivity|]. split; [reflexivity|]. split.
      { rewrite <- (map_length fst (fst z)), P2, map_length. reflexivity. } split; [rewrite P1, map_length; reflexivity|]. split.
      + intros n x I. destruct (P3 n x I) as (i & d & E1 & E2 & E3 & E4). exists i, d. split; [exact E1|]. split; [exact E2|]. split; [eapply dc_made_later; eauto|]. rewrite E4. apply MS.
      + intros i d E. destruct (P5 i d E) as [E'|(E' & I & _)]; [now apply NN in E'|auto].
    - apply apart_nodup. apply P6; [intros i d E; now apply NN in E|intros i j d d' E; now apply NN in E].
    - apply mons_range. cbn [mx_dcs]. intros i d E. destruct (P5 i d E) as [E'|(_ & _ & B)]; [now apply NN in E'|lia].
  Qed.

  Lemma mc_made_later states s s' w r : later s s' -> mc_made k states s w r -> mc_made k states s' w r.
  Proof.
    intros L (A & B & C & D & E & F & G). repeat (split; [assumption|]). split; [|exact G]. intros n x I. destruct (F n x I) as (i & d & E1 & E2 & E3 & E4). exists i, d. split; [exact E1|]. split; [exact E2|]. split; [eapply dc_made_later; eauto|exact E4].
  Qed.
  Definition ress_post states s0 s (y : list mc_res * tab) (z : list mc_want * confs) : Prop :=
    Forall2 (mc_made k states s) (fst z) (fst y) /\ NoDup (flat_map mons_of (fst y)) /\ Forall (fun j => length (mons s0) <= j < length (mons s)) (flat_map mons_of (fst y)) /\ agree (snd y) (snd z) /\ open_confs (snd z).
  Lemma nodup_app {A} (a b : list A) : NoDup a -> NoDup b -> (forall x, In x a -> ~ In x b) -> NoDup (a ++ b).
  Proof.
    intros NA NB H. induction NA as [|x a NI NA IH]; [exact NB|]. cbn. constructor; [|apply IH; intros; apply H; cbn; auto]. intros I. apply in_app_iff in I as [I|I]; [contradiction|]. apply (H x); cbn; auto.
  Qed.
  Lemma ranges_apart (a b : list nat) n m p q : NoDup a -> NoDup b -> Forall (fun j => n <= j < m) a -> Forall (fun j => p <= j < q) b -> m <= p -> NoDup (a ++ b).
  Proof. intros NA NB FA FB L. apply nodup_app; [exact NA|exact NB|]. rewrite Forall_forall in FA, FB. intros x I J. specialize (FA x I). specialize (FB x J). cbn in *. lia. Qed.
  Lemma range_weaken (l : list nat) n m n' m' : n' <= n -> m <= m' -> Forall (fun j => n <= j < m) l -> Forall (fun j => n' <= j < m') l.
  Proof. intros A B F. eapply Forall_impl; [|exact F]. cbn. intros; lia. Qed.
  Lemma resources_give undef states h : fine k h -> Forall (fun m => snd m <> []) (shape states) -> forall es s0 T tops, Forall (kept k) es ->
    (forall n r dm, In (n, VH r) es -> setting k_dcmap [r; h] = Some (VH dm) -> setting k_plugin [r; h] = None \/ steady false dm) -> agree tops T -> open_confs T ->
    gives s0 (make_resources gai service junk k undef states (mtab (top_keys k) h) (fresh_entries es) tops)
      (ress_say gai service fq_name k undef (shape states) (others (top_keys k) h) es T) (ress_post states s0).
  Proof.
    intros FH NE es. induction es as [|e es IH]; intros s0 T tops KE ST A O.
    - apply gives_ret. intros s L. unfold ress_post. cbn. repeat (split; [constructor|]). split; assumption.
    - cbn [fresh_entries map make_resources ress_say]. inversion KE as [|? ? KX KE']; subst.
      eapply gives_bind; [apply resource_gives; [exact FH|exact KX|exact NE| |exact A|exact O]|]. { intros r dm E. apply (ST (fst e) r dm). left. rewrite <- E. now destruct e. }
      intros s1 x w L1 (M1 & N1 & R1 & A1 & O1). eapply gives_bind; [apply IH; [exact KE'| |exact A1|exact O1]|]. { intros n r dm I. apply (ST n r dm). now right. }
      intros s2 y z L2 (M2 & N2 & R2 & A2 & O2). apply gives_ret. intros s3 L3. pose proof (later_len _ _ L1). pose proof (later_len _ _ L2). pose proof (later_len _ _ L3). assert (L13 : later s1 s3) by (eapply later_trans; [exact L2|exact L3]). unfold ress_post. cbn [fst snd flat_map]. split; [|split; [|split; [|split; assumption]]].
      + constructor; [eapply mc_made_later; eauto|]. clear -M2 L3. induction M2; constructor; [eapply mc_made_later; eauto|assumption].
      + eapply ranges_apart; [exact N1|exact N2|exact R1|exact R2|lia].
      + apply Forall_app. split; [eapply range_weaken; [| |exact R1]; lia|eapply range_weaken; [| |exact R2]; lia].
  Qed.

  (** ** The plugin *)
  Lemma register_one l : forall s0, gives s0 (mapm (fun n => let* i <- mon_admin ; ret (n, i)) l) (Some tt)
    (fun s xs _ => map fst xs = l /\ Forall (fun y : bytes * nat => admin s (snd y)) xs /\ NoDup (map snd xs) /\ Forall (fun j => length (mons s0) <= j < length (mons s)) (map snd xs)).
  Proof.
    induction l as [|n l IH]; intros s0; [apply gives_ret; intros; repeat (split; [constructor|]); constructor|]. cbn [mapm].
    apply gives_eq with (o := obind (Some tt) (fun _ => obind (Some tt) (fun _ => Some tt))); [reflexivity|].
    eapply gives_bind with (R := fun s x _ => fst x = n /\ admin s (snd x) /\ length (mons s0) <= snd x < length (mons s)).
    { apply gives_eq with (o := obind (Some tt) (fun _ => Some tt)); [reflexivity|]. eapply gives_bind; [apply (admin_gives gai service junk fq_name fq_name_is junk_len)|]. intros s1 i [] L1 (AI & B). apply gives_ret. intros s2 L2. pose proof (later_len _ _ L2). cbn. split; [reflexivity|]. split; [eapply admin_later; eauto|lia]. }
    cbv beta. intros s1 x [] L1 (E1 & A1 & B1). eapply gives_bind; [apply IH|]. intros s2 xs [] L2 (E2 & A2 & N2 & R2). apply gives_ret. intros s3 L3. pose proof (later_len _ _ L1). pose proof (later_len _ _ L2). pose proof (later_len _ _ L3). assert (L13 : later s1 s3) by (eapply later_trans; [exact L2|exact L3]). cbn [map]. split; [now f_equal|]. split; [|split].
    - constructor; [exact (admin_later _ _ _ L13 A1)|]. eapply Forall_impl; [|exact A2]. intros ? HH; exact (admin_later _ _ _ L3 HH).
    - constructor; [|exact N2]. intros I. rewrite Forall_forall in R2. specialize (R2 _ I). cbn in R2. lia.
    - constructor; [lia|]. eapply range_weaken; [| |exact R2]; lia.
  Qed.
  Lemma register_gives maps : forall s0, gives s0 (register maps) (Some tt)
    (fun s xs _ => states_made s maps xs /\ NoDup (states_of xs) /\ Forall (fun j => length (mons s0) <= j < length (mons s)) (states_of xs)).
  Proof.
    induction maps as [|m maps IH]; intros s0; [apply gives_ret; intros; cbn; split; [split; [reflexivity|constructor]|split; constructor]|]. unfold register in *. cbn [mapm].
    apply gives_eq with (o := obind (Some tt) (fun _ => obind (Some tt) (fun _ => Some tt))); [reflexivity|].
    eapply gives_bind with (R := fun s x _ => (fst x, map fst (snd x)) = m /\ Forall (fun y : bytes * nat => admin s (snd y)) (snd x) /\ NoDup (map snd (snd x)) /\ Forall (fun j => length (mons s0) <= j < length (mons s)) (map snd (snd x))).
    { apply gives_eq with (o := obind (Some tt) (fun _ => Some tt)); [reflexivity|]. eapply gives_bind; [apply register_one|]. intros s1 xs [] L1 (E1 & A1 & N1 & R1). apply gives_ret. intros s2 L2. pose proof (later_len _ _ L2). cbn [fst snd]. split; [rewrite E1; now destruct m|]. split; [eapply Forall_impl; [|exact A1]; intros ? HH; exact (admin_later _ _ _ L2 HH)|]. split; [exact N1|]. eapply range_weaken; [| |exact R1]; lia. }
    cbv beta. intros s1 x [] L1 (E1 & A1 & N1 & R1). eapply gives_bind; [apply IH|]. intros s2 xs [] L2 ((E2 & A2) & N2 & R2). apply gives_ret. intros s3 L3. pose proof (later_len _ _ L1). pose proof (later_len _ _ L2). pose proof (later_len _ _ L3). assert (L13 : later s1 s3) by (eapply later_trans; [exact L2|exact L3]). unfold states_of in *. cbn [flat_map]. split; [split|split].
    - cbn [map]. now f_equal.
    - constructor; [eapply Forall_impl; [|exact A1]; intros ? HH; exact (admin_later _ _ _ L13 HH)|]. eapply Forall_impl; [|exact A2]. intros a F. eapply Forall_impl; [|exact F]. intros ? HH; exact (admin_later _ _ _ L3 HH).
    - eapply ranges_apart; [exact N1|exact N2|exact R1|exact R2|lia].
    - apply Forall_app. split; [eapply range_weaken; [| |exact R1]; lia|eapply range_weaken; [| |exact R2]; lia].
  Qed.
  Definition hook_keys : list bytes := match k with Metafo => [] | Geoip => [k_undef; k_maps] end.
  Lemma hook_gives s0 h : gives s0 (top_hook k gdmaps (ftab h)) (let? maps <- maps_say k gdmaps h ; let? undef <- undef_says k h ; Some (maps, undef))
    (fun s y z => fst (fst y) = snd z /\ states_made s (fst z) (snd (fst y)) /\ NoDup (states_of (snd (fst y))) /\ Forall (fun j => length (mons s0) <= j < length (mons s)) (states_of (snd (fst y))) /\ snd y = mtab hook_keys h).
  Proof.
    unfold top_hook, maps_say, undef_says, hook_keys. destruct k.
    - apply gives_ret. intros s L. cbn. split; [reflexivity|]. split; [split; [reflexivity|constructor]|]. split; [constructor|]. split; [constructor|reflexivity].
    - rewrite !ftab_value. destruct (get k_maps h) as [[r v|l|m]|]; cbn [option_map fresh]; try apply gives_fatal. destruct m as [|e m]; [apply gives_fatal|]. change (map (fun e => (fst e, false, fresh (snd e))) (e :: m)) with ((fst e, false, fresh (snd e)) :: map (fun e => (fst e, false, fresh (snd e))) m). cbv iota.
      change ((fst e, false, fresh (snd e)) :: map (fun e => (fst e, false, fresh (snd e))) m) with (map (fun e => (fst e, false, fresh (snd e))) (e :: m)).
      destruct (gdmaps (map (fun e => (fst e, false, fresh (snd e))) (e :: m))) as [maps|]; [|apply gives_fatal].
      apply gives_eq with (o := obind (Some tt) (fun _ => obind (boolean (get k_undef h)) (fun undef => Some (maps, undef)))); [reflexivity|].
      eapply gives_bind; [apply register_gives|]. intros s1 xs [] L1 (M1 & N1 & R1).
      apply gives_eq with (o := obind (boolean (setting k_undef [h])) (fun undef => Some (maps, undef))). { cbn [setting]. destruct (get k_undef h); reflexivity. }
      eapply gives_bind; [apply (bool_gives service s1 k_undef [h]); rewrite <- (ftab_value k_undef h); apply said_top|]. cbv beta. intros s2 b b' L2 ->. apply gives_ret. intros s3 L3. assert (L13 : later s1 s3) by (eapply later_trans; [exact L2|exact L3]). pose proof (later_len _ _ L13). cbn [fst snd]. split; [reflexivity|]. split.
      + destruct M1 as (E & F). split; [exact E|]. eapply Forall_impl; [|exact F]. intros a F1. eapply Forall_impl; [|exact F1]. intros ? HH; exact (admin_later _ _ _ L13 HH).
      + split; [exact N1|]. split; [eapply range_weaken; [| |exact R1]; lia|]. rewrite <- (mtab_nil h), !mark_mtab. reflexivity.
  Qed.

  Theorem meta_gives s0 h T tops : (forall t ms, gdmaps t = Some ms -> Forall (fun m => snd m <> []) ms) -> distinct (VH h) -> raw_bytes (VH h) -> plain (VH h) -> safe k (VH h) -> all_steady h -> agree tops T -> open_confs T ->
    gives s0 (meta_load gai service junk k gdmaps (Some (fresh (VH h))) tops) (meta_says gai service fq_name k gdmaps h T)
      (fun s y z => exists states, (exists maps, maps_say k gdmaps h = Some maps /\ states_made s maps states) /\ Forall2 (mc_made k states s) (fst z) (fst y) /\
        NoDup (states_of states ++ flat_map mons_of (fst y)) /\ agree (snd y) (snd z)).
  Proof.
    intros GM DI RB PL SA ST A O. pose proof (fine_is k h DI RB PL SA) as FH. unfold meta_load, meta_says. change (fresh (VH h)) with (TH (ftab h)). cbv iota.
    apply gives_eq with (o := obind (let? maps <- maps_say k gdmaps h ; let? undef <- undef_says k h ; Some (maps, undef)) (fun x =>
      obind (match get k_resources h with Some (VH rs) => Some rs | _ => None end) (fun rs => obind (need ((N.of_nat (length rs) <=? 16777216)%N && negb (Nat.eqb (length rs) 0))) (fun _ => ress_say gai service fq_name k (snd x) (fst x) (others (top_keys k) h) rs T)))).
    { destruct (maps_say k gdmaps h); [|reflexivity]. cbn [obind]. destruct (undef_says k h); reflexivity. }
    eapply gives_bind'; [apply hook_gives|]. intros s1 ((undef, states), t) (maps, undef') L1 EM (E1 & M1 & N1 & R1 & E2). cbn [fst snd] in E1, M1, N1, R1, E2 |- *. subst undef' t. rewrite value_mtab.
    assert (MS : maps_say k gdmaps h = Some maps). { destruct (maps_say k gdmaps h); [|discriminate]. cbn [obind] in EM. destruct (undef_says k h); [|discriminate]. injection EM as <- <-. reflexivity. }
    destruct (get k_resources h) as [[r v|l|rs]|] eqn:ER; cbn [option_map fresh obind]; try apply gives_fatal.
    change (map (fun e => (fst e, false, fresh (snd e))) rs) with (ftab rs). rewrite mark_mtab. replace (k_resources :: hook_keys) with (top_keys k) by (unfold hook_keys, top_keys; now destruct k). rewrite <- (mtab_nil rs), length_mtab, entries_mtab.
    apply gives_eq with (o := obind (need (N.of_nat (length rs) <=? 16777216)%N) (fun _ => obind (need (negb (Nat.eqb (length rs) 0))) (fun _ => ress_say gai service fq_name k undef maps (others (top_keys k) h) rs T))).
    { destruct (N.of_nat (length rs) <=? 16777216)%N; [cbn [need obind andb]|reflexivity]. reflexivity. }
    apply gives_check. intros _. apply gives_check. intros _. destruct M1 as (EMS & AM). fold (shape states) in EMS. subst maps. fold (fresh_entries rs).
    eapply gives_weaken with (R := fun s y z => ress_post states s1 s y z /\ later s1 s).
    - intros s y z ((M & N & R & A' & _) & L). exists states. split; [|split; [exact M|split; [|exact A']]].
      + exists (shape states). split; [exact MS|]. split; [reflexivity|]. eapply Forall_impl; [|exact AM]. intros a F1. eapply Forall_impl; [|exact F1]. intros ? HH; exact (admin_later _ _ _ L HH).
      + eapply ranges_apart; [exact N1|exact N|exact R1|exact R|lia].
    - pose proof (resources_give undef states h FH) as G.
      assert (NS : Forall (fun m => snd m <> []) (shape states)).
      { unfold maps_say in MS. destruct k; [injection MS as <-; constructor|]. destruct (get k_maps h) as [[| |[|e m]]|]; try discriminate. eapply GM; eauto. }
      specialize (G NS rs s1 T tops). assert (KR : Forall (kept k) rs) by (apply (fine_inner k h k_resources rs FH); now apply get_some_in). specialize (G KR).
      assert (ST' : forall n r dm, In (n, VH r) rs -> setting k_dcmap [r; h] = Some (VH dm) -> setting k_plugin [r; h] = None \/ steady false dm). { intros n r dm I. apply (ST n r dm). unfold resources_of. now rewrite ER. }
      specialize (G ST' A O). intros s L S. specialize (G s L S). destruct (make_resources gai service junk k undef states (mtab (top_keys k) h) (fresh_entries rs) tops s) as [[(y, s')|]|]; [|exact G|exact G].
      destruct G as (z & EZ & PO & L' & S'). exists z. split; [exact EZ|]. split; [split; [exact PO|eapply later_trans; eauto]|]. split; assumption.
  Qed.
End Steps.
