(** Histories of monitor updates and administrative files. *)
From Verif Require Import Base MonModel MonSpec MonProofs MonThresh.
Ltac Zify.zify_post_hook ::= idtac.
Local Open Scope N_scope.

Lemma map_upd {A B} (f : A -> B) l i x : map f (upd l i x) = upd (map f l) i (f x).
Proof. revert i; induction l as [|h l IH]; intros [|i]; cbn; auto. now rewrite IH. Qed.
Lemma upd_same {A} (l : list A) i x : nth_error l i = Some x -> upd l i x = l.
Proof. revert i; induction l as [|h l IH]; intros [|i] H; cbn in *; try discriminate; auto; [congruence|]. now rewrite IH. Qed.
Lemma upd_upd {A} (l : list A) i x y : upd (upd l i x) i y = upd l i y.
Proof. revert i; induction l as [|h l IH]; intros [|i]; cbn; auto. now rewrite IH. Qed.
Lemma In_upd {A} (l : list A) i x y : In y (upd l i x) -> y = x \/ In y l.
Proof.
  revert i; induction l as [|h l IH]; intros [|i]; cbn; auto.
  - intros [<-|H]; auto.
  - intros [<-|H]; auto. apply IH in H. tauto.
Qed.
Lemma nth_upd_cases {A} (l : list A) i j x y : nth_error (upd l i x) j = Some y ->
  (i = j /\ y = x /\ exists z, nth_error l i = Some z) \/ (i <> j /\ nth_error l j = Some y).
Proof.
  intros H. destruct (Nat.eq_dec i j) as [->|Hn].
  - left. destruct (nth_error l j) as [z|] eqn:E.
    + assert (L : (j < length l)%nat) by (apply nth_error_Some; congruence).
      rewrite nth_error_upd_eq in H by auto. injection H as ->. eauto.
    + apply nth_error_None in E. rewrite upd_out in H by auto. apply nth_error_None in E. congruence.
  - right. rewrite nth_error_upd_neq in H by auto. auto.
Qed.

Lemma steps_app fn m a b : steps fn m (a ++ b) = do m' <- steps fn m a; steps fn m' b.
Proof. revert m; induction a as [|o a IH]; intros m; cbn; [reflexivity|]. destruct (step fn m o); cbn; auto. Qed.
Lemma steps_snoc fn m a o : steps fn m (a ++ [o]) = do m' <- steps fn m a; step fn m' o.
Proof. rewrite steps_app. destruct (steps fn m a); cbn; auto. destruct (step fn a0 o); auto. Qed.

Section Run.
  Variable fn : bytes -> bytes -> fnm.
  Variable items : list (bytes * option svc * bool).

  Definition eff (g : bytes -> N) (s : smgr) : N := if g (desc s) =? 0 then real s else g (desc s).

  Record inv (m : mon) (g : bytes -> N) : Prop := {
    i_items : map (fun s => (desc s, typ s)) (smgrs m) = map fst items;
    i_sttl : sttl m = map (eff g) (smgrs m);
    i_real : forall s, In s (smgrs m) -> w_legal (real s) /\ w_forced (real s) = false;
    i_force : forall d, g d = 0 \/ (w_legal (g d) /\ w_forced (g d) = true);
    i_init : initial m = true -> (forall d, g d = 0) /\ forall s, In s (smgrs m) -> n_failure s = 0 /\ n_success s = 0;
    i_pub : initial m = false -> pending m = false -> consumer m = sttl m;
    i_len : length (consumer m) = length items
  }.

  Definition pure_real (m : mon) (i : nat) (s : smgr) (new : N) : mon :=
    {| smgrs := upd (smgrs m) i (with_real s new); sttl := sttl m; consumer := consumer m;
       pending := pending m; initial := initial m |}.

  Lemma with_real_same s : with_real s (real s) = s.
  Proof. destruct s; reflexivity. Qed.

  Lemma forced_nonzero w : w_forced w = true -> w <> 0.
  Proof. intros H ->. discriminate. Qed.

  Lemma raw_step m g i s new : inv m g -> nth_error (smgrs m) i = Some s ->
    w_legal new -> w_forced new = false ->
    exists m', raw_sttl_update m i new = Ok m' /\
      smgrs m' = upd (smgrs m) i (with_real s new) /\ initial m' = initial m /\ inv m' g.
  Proof.
    intros I Hs Hl Hf. destruct I as [I1 I2 I3 I4 I5 I6 I7].
    unfold raw_sttl_update. unfold rd at 1. rewrite Hs. cbn [rbind].
    rewrite (legal_valid _ Hl). cbn [rassert].
    rewrite has_forced, Hf. cbn [negb rassert].
    assert (Hc : nth_error (sttl m) i = Some (eff g s)).
    { rewrite I2. apply map_nth_error; auto. }
    unfold rd. rewrite Hc. cbn [rbind].
    assert (Hin : In s (smgrs m)) by (eapply nth_error_In; eauto).
    destruct (I3 _ Hin) as [Hrl Hrf].
    assert (Items : map (fun s => (desc s, typ s)) (upd (smgrs m) i (with_real s new)) = map fst items).
    { rewrite map_upd. cbn [desc typ with_real].
      rewrite (upd_same (map _ (smgrs m)) i (desc s, typ s)); auto.
      rewrite (map_nth_error _ _ _ Hs). reflexivity. }
    assert (Real : forall s0, In s0 (upd (smgrs m) i (with_real s new)) -> w_legal (real s0) /\ w_forced (real s0) = false).
    { intros s0 H. apply In_upd in H as [->|H]; auto. }
    assert (EffN : g (desc s) = 0 -> upd (sttl m) i new = map (eff g) (upd (smgrs m) i (with_real s new))).
    { intros Hg. rewrite map_upd, I2. unfold eff at 3. cbn [desc real with_real].
      rewrite Hg. cbn [N.eqb]. reflexivity. }
    assert (EffF : g (desc s) <> 0 -> sttl m = map (eff g) (upd (smgrs m) i (with_real s new))).
    { intros Hg. rewrite map_upd, I2. unfold eff at 3. cbn [desc real with_real].
      apply N.eqb_neq in Hg. rewrite Hg. symmetry. apply upd_same.
      rewrite (map_nth_error _ _ _ Hs). unfold eff. rewrite Hg. reflexivity. }
    destruct (initial m) eqn:Ei.
    - eexists. split; [reflexivity|]. cbn [smgrs set_sttl set_smgr initial]. split; [auto|]. split; [auto|].
      destruct (I5 eq_refl) as [G0 C0].
      constructor; cbn [smgrs set_sttl set_smgr initial sttl consumer pending]; auto; try congruence.
      intros _. split; auto. intros s0 H. apply In_upd in H as [->|H]; cbn [with_real n_failure n_success]; auto.
    - destruct (new =? real s) eqn:En; cbn [negb].
      + apply N.eqb_eq in En. subst new. rewrite with_real_same in *.
        eexists. split; [reflexivity|]. split; [symmetry; now apply upd_same|]. split; [auto|].
        constructor; auto. rewrite Ei; discriminate.
      + apply N.eqb_neq in En.
        assert (Cases : (g (desc s) = 0 /\ eff g s = real s) \/ (g (desc s) <> 0 /\ w_forced (eff g s) = true)).
        { unfold eff. destruct (g (desc s) =? 0) eqn:Eg.
          - apply N.eqb_eq in Eg. auto.
          - apply N.eqb_neq in Eg. right. split; auto. destruct (I4 (desc s)) as [?|[_ ?]]; [congruence|auto]. }
        rewrite has_forced. destruct Cases as [[Hg He]|[Hg He]].
        * rewrite He, Hrf. cbn [negb]. apply N.eqb_neq in En. rewrite En. cbn [negb andb].
          eexists. split; [reflexivity|]. cbn. split; [auto|]. split; [auto|].
          constructor; cbn; auto; try congruence.
        * rewrite He. cbn [negb]. rewrite andb_false_r.
          eexists. split; [reflexivity|]. cbn. split; [auto|]. split; [auto|].
          constructor; cbn; auto; try congruence.
  Qed.

  (** the simple-result interface *)
  Definition probe_smgr (ini : bool) (t : svc) (s : smgr) (b : bool) : smgr :=
    let '(d, nf, ns) := if ini then (negb b, 0, 0)
                        else count_result t (w_down (real s)) (n_failure s) (n_success s) b in
    {| desc := desc s; typ := typ s; n_failure := nf; n_success := ns; real := count_sttl t d nf ns |}.

  Lemma count_sttl_legal t d nf ns : svc_ok t ->
    w_legal (count_sttl t d nf ns) /\ w_forced (count_sttl t d nf ns) = false /\ w_down (count_sttl t d nf ns) = d.
  Proof.
    intros Ht. unfold count_sttl.
    set (x := (interval t * _) mod two32).
    set (y := if STTL_TTL_MAX <? x then STTL_TTL_MAX else x).
    assert (Hy : y < 2 ^ 28).
    { unfold y. destruct (N.ltb_spec STTL_TTL_MAX x); unfold STTL_TTL_MAX in *; change (2 ^ 28) with 268435456; lia. }
    assert (E : (if d then N.lor y STTL_DOWN else y) = word d false y).
    { rewrite word_lor by auto. destruct d; cbn [N.lor]; [rewrite N.lor_comm|]; reflexivity. }
    rewrite E. destruct (word_parts d false y Hy) as (A & B & C & _). auto.
  Qed.

  Lemma probe_step m g i s t b : inv m g -> nth_error (smgrs m) i = Some s -> typ s = Some t -> svc_ok t ->
    exists m', state_updater m i b = Ok m' /\
      smgrs m' = upd (smgrs m) i (probe_smgr (initial m) t s b) /\ initial m' = initial m /\ inv m' g.
  Proof.
    intros I Hs Hty Ht. unfold state_updater. unfold rd. rewrite Hs. cbn [rbind]. rewrite Hty.
    assert (Hin : In s (smgrs m)) by (eapply nth_error_In; eauto).
    set (tr := if initial m then (negb b, 0, 0)
               else count_result t (w_down (real s)) (n_failure s) (n_success s) b).
    assert (Etr : (if initial m then
           rassert (n_failure s =? 0) (rassert (n_success s =? 0) (Ok (negb b, 0, 0)))
         else Ok (count_result t (has (real s) STTL_DOWN) (n_failure s) (n_success s) b)) = Ok tr).
    { unfold tr. rewrite has_down. destruct (initial m) eqn:Ei; auto.
      destruct (i_init _ _ I Ei) as [_ C]. destruct (C _ Hin) as [-> ->]. reflexivity. }
    rewrite Etr. cbn [rbind].
    assert (Hini : initial m = true -> tr = (negb b, 0, 0)).
    { unfold tr. intros ->. auto. }
    destruct tr as [[d nf] ns] eqn:Et.
    set (s' := {| desc := desc s; typ := Some t; n_failure := nf; n_success := ns; real := real s |}).
    destruct (count_sttl_legal t d nf ns Ht) as (L & F & _).
    assert (I' : inv (set_smgr m i s') g).
    { destruct I as [I1 I2 I3 I4 I5 I6 I7].
      constructor; cbn; auto.
      - rewrite map_upd. cbn. rewrite upd_same; auto. rewrite <- Hty. now rewrite (map_nth_error _ _ _ Hs).
      - rewrite map_upd, I2. symmetry. apply upd_same. now rewrite (map_nth_error _ _ _ Hs).
      - intros s0 H. apply In_upd in H as [->|H]; auto. cbn. auto.
      - intros Ei. destruct (I5 Ei) as [G C]. split; auto. intros s0 H. apply In_upd in H as [->|H]; auto.
        cbn. specialize (Hini Ei). injection Hini as -> -> ->. auto. }
    destruct (raw_step (set_smgr m i s') g i s' (count_sttl t d nf ns) I') as (m' & E & Es & Ei & Ii); auto.
    { cbn. apply nth_error_upd_eq. apply nth_error_Some. congruence. }
    exists m'. split; [exact E|]. split; [|split; auto].
    rewrite Es. cbn. rewrite upd_upd. f_equal. unfold probe_smgr. fold tr in Et.
    assert (Et' : (if initial m then (negb b, 0, 0)
               else count_result t (w_down (real s)) (n_failure s) (n_success s) b) = (d, nf, ns)) by exact Et.
    rewrite Et'. unfold s', with_real. cbn. now rewrite Hty.
  Qed.

  (** ** Admin files *)
  Lemma word_force d t : t < 2 ^ 28 -> N.lor (word d false t) STTL_FORCED = word d true t.
  Proof.
    intros H. rewrite !word_lor by auto. rewrite <- N.lor_assoc, (N.lor_comm t), N.lor_assoc. destruct d; reflexivity.
  Qed.
  Definition fval (txt : bytes) : option N :=
    match mon_parse_sttl txt STTL_TTL_MAX with Ok (Some v) => Some (N.lor v STTL_FORCED) | _ => None end.
  Definition fstep (d : bytes) (acc : N) (e : bytes * aval) : N :=
    match snd e with
    | ASimple txt => match fn (fst e) d with
                     | FMatch => match fval txt with Some v => v | None => acc end
                     | _ => acc end
    | AOther => acc
    end.
  Definition gof (es : list (bytes * aval)) (d : bytes) : N := fold_left (fstep d) es 0.

  Lemma fval_spec txt : match fval txt with
    | Some v => exists d t, sttl_text (2 ^ 28 - 1) txt d t /\ v = word d true t /\ t < 2 ^ 28
    | None => forall d t, ~ sttl_text (2 ^ 28 - 1) txt d t
    end.
  Proof.
    unfold fval. destruct (parse_exact txt STTL_TTL_MAX) as (r & E & H); [reflexivity|].
    rewrite E. destruct r as [v|].
    - destruct (proj1 (H v) eq_refl) as (d & t & Ht & ->). exists d, t. split; [exact Ht|].
      assert (Hb : t < 2 ^ 28) by (inversion Ht; subst; auto; reflexivity).
      split; auto. now apply word_force.
    - intros d t Ht. assert (X : None = Some (word d false t)) by (apply H; eauto). discriminate.
  Qed.

  Lemma fval_parse txt : mon_parse_sttl txt STTL_TTL_MAX = Ok None /\ fval txt = None \/
    exists v, mon_parse_sttl txt STTL_TTL_MAX = Ok (Some v) /\ fval txt = Some (N.lor v STTL_FORCED).
  Proof.
    unfold fval. destruct (parse_exact txt STTL_TTL_MAX) as (r & E & _); [reflexivity|].
    rewrite E. destruct r; eauto.
  Qed.

  Lemma fval_good txt v : fval txt = Some v -> w_legal v /\ w_forced v = true.
  Proof.
    intros H. assert (S := fval_spec txt). rewrite H in S. destruct S as (d & t & _ & -> & Ht).
    destruct (word_parts d true t Ht) as (A & _ & B & _). auto.
  Qed.

  Definition eok (ss : list smgr) (e : bytes * aval) : bool :=
    match snd e with
    | ASimple txt => match fval txt with
        | Some _ => forallb (fun s => match fn (fst e) (desc s) with FError => false | _ => true end) ss
        | None => false end
    | AOther => false
    end.

  Lemma eok_iff ss e : eok ss e = true <-> entry_ok fn ss e.
  Proof.
    unfold eok, entry_ok. destruct e as [p [txt|]]; cbn [fst snd].
    - assert (S := fval_spec txt). destruct (fval txt) as [v|].
      + rewrite forallb_forall. destruct S as (d & t & Ht & _). split.
        * intros H. split; [exists txt, d, t; auto|]. intros s Hs. specialize (H s Hs). destruct (fn p (desc s)); congruence.
        * intros [_ H] s Hs. specialize (H s Hs). destruct (fn p (desc s)); congruence.
      + split; [discriminate|]. intros [(s & d & v & [= <-] & Ht) _]. exfalso. now apply (S d v).
    - split; [discriminate|]. intros [(s & d & v & [=] & _) _].
  Qed.

  Lemma process_entry_spec pat ss v : forall (h : smgr -> N),
    admin_process_entry fn pat ss (map h ss) v =
    if forallb (fun s => match fn pat (desc s) with FError => false | _ => true end) ss
    then Some (map (fun s => match fn pat (desc s) with FMatch => v | _ => h s end) ss) else None.
  Proof.
    induction ss as [|s ss IH]; intros h; cbn [map admin_process_entry forallb]; auto.
    rewrite IH. destruct (fn pat (desc s)); cbn [andb]; auto; destruct (forallb _ ss); auto.
  Qed.

  Lemma admin_parse_spec ss es : forall (h : bytes -> N),
    admin_parse fn ss es (map (fun s => h (desc s)) ss) =
    Ok (if forallb (eok ss) es then Some (map (fun s => fold_left (fstep (desc s)) es (h (desc s))) ss) else None).
  Proof.
    induction es as [|[p a] es IH]; intros h; cbn [admin_parse forallb fold_left]; auto.
    unfold eok at 1. cbn [fst snd]. destruct a as [txt|]; auto.
    destruct (fval_parse txt) as [[E1 E2]|(v & E1 & E2)]; rewrite E1, E2; cbn [rbind andb]; auto.
    assert (G := fval_good _ _ E2). destruct G as [G1 G2].
    rewrite (legal_valid _ G1), has_forced, G2. cbn [rassert].
    rewrite process_entry_spec. destruct (forallb _ ss) eqn:EF; cbn [andb]; auto.
    rewrite (map_ext _ (fun s => (fun d => fstep d (h d) (p, ASimple txt)) (desc s))).
    - rewrite (IH (fun d => fstep d (h d) (p, ASimple txt))). reflexivity.
    - intros s. unfold fstep. cbn [fst snd]. rewrite E2. reflexivity.
  Qed.

  Lemma eff_cases g : (forall d, g d = 0 \/ (w_legal (g d) /\ w_forced (g d) = true)) ->
    forall s, eff g s = real s \/ w_forced (eff g s) = true.
  Proof.
    intros HG s. unfold eff. destruct (g (desc s) =? 0) eqn:E; auto.
    apply N.eqb_neq in E. destruct (HG (desc s)) as [?|[_ ?]]; auto; congruence.
  Qed.

  Lemma admin_apply_spec ss (g g' : bytes -> N) :
    (forall s, In s ss -> w_legal (real s) /\ w_forced (real s) = false) ->
    (forall d, g d = 0 \/ (w_legal (g d) /\ w_forced (g d) = true)) ->
    exists aff, admin_apply ss (map (eff g) ss) (map (fun s => g' (desc s)) ss) = Ok (map (eff g') ss, aff) /\
      (aff = false -> map (eff g') ss = map (eff g) ss).
  Proof.
    intros HR HG. induction ss as [|s ss IH]; cbn [map admin_apply].
    - exists false. auto.
    - destruct IH as (aff & E & Ha); [intros; apply HR; cbn; auto|]. rewrite E. cbn [rbind].
      destruct (HR s (or_introl eq_refl)) as [R1 R2].
      assert (Hc : eff g s = real s \/ w_forced (eff g s) = true) by apply (eff_cases g HG).
      remember (eff g s) as c eqn:Ec. clear Ec.
      assert (He' : eff g' s = if g' (desc s) =? 0 then real s else g' (desc s)) by reflexivity.
      rewrite He'. destruct (g' (desc s) =? 0) eqn:E0; cbn [negb].
      + rewrite !has_forced, R2. cbn [negb rassert]. destruct (w_forced c) eqn:Ef.
        * exists true. split; auto. discriminate.
        * destruct Hc as [->|Hc]; [|congruence]. exists aff. split; auto. intros A. now rewrite Ha by auto.
      + destruct (c =? g' (desc s)) eqn:Ee; cbn [negb].
        * apply N.eqb_eq in Ee. exists aff. rewrite Ee. split; auto. intros A. now rewrite Ha by auto.
        * exists true. split; auto. discriminate.
  Qed.

  Lemma gof_good es d : gof es d = 0 \/ (w_legal (gof es d) /\ w_forced (gof es d) = true).
  Proof.
    unfold gof. induction es as [|e es IH] using rev_ind; cbn; auto.
    rewrite fold_left_app. cbn [fold_left]. generalize dependent (fold_left (fstep d) es 0). intros acc Ha.
    unfold fstep. destruct (snd e) as [txt|]; auto.
    destruct (fn (fst e) d); auto. destruct (fval txt) as [v|] eqn:E; auto. right. eapply fval_good; eauto.
  Qed.

  Lemma repeat_map {A B} (x : B) (l : list A) : repeat x (length l) = map (fun _ => x) l.
  Proof. induction l; cbn; congruence. Qed.

  Lemma inv_set_g m g g' (aff : bool) : inv m g ->
    (forall d, g' d = 0 \/ (w_legal (g' d) /\ w_forced (g' d) = true)) ->
    (aff = false -> map (eff g') (smgrs m) = map (eff g) (smgrs m)) ->
    initial m = false ->
    inv (let m' := {| smgrs := smgrs m; sttl := map (eff g') (smgrs m); consumer := consumer m;
                      pending := pending m; initial := initial m |} in
         if aff then kick m' else m') g'.
  Proof.
    intros [I1 I2 I3 I4 I5 I6 I7] HG Ha Hi. destruct aff.
    - constructor; cbn; auto; congruence.
    - constructor; cbn; auto; try congruence. intros _ Hp. rewrite I6; auto. rewrite I2. symmetry; auto.
  Qed.

  Lemma admin_step m g es : inv m g -> initial m = false ->
    exists m' ok, admin_process_hash fn m es = Ok (m', ok) /\
      smgrs m' = smgrs m /\ initial m' = false /\
      (ok = true -> inv m' (gof es)) /\ (ok = false -> m' = m) /\
      (smgrs m <> [] -> (ok = true <-> Forall (entry_ok fn (smgrs m)) es)).
  Proof.
    intros I Hi. unfold admin_process_hash.
    destruct (smgrs m) as [|s0 ss0] eqn:Ess.
    - exists m, true. split; [auto|]. split; [auto|]. split; [auto|]. split.
      + intros _. destruct I as [I1 I2 I3 I4 I5 I6 I7]. rewrite Ess in *. cbn in *.
        constructor; rewrite ?Ess; cbn; auto using gof_good. rewrite Hi; discriminate.
      + split; [discriminate|]. congruence.
    - rewrite <- Ess. rewrite repeat_map.
      rewrite (admin_parse_spec (smgrs m) es (fun _ => 0)). cbn [rbind].
      assert (EQ : forallb (eok (smgrs m)) es = true <-> Forall (entry_ok fn (smgrs m)) es).
      { rewrite forallb_forall, Forall_forall. split; intros H x Hx; apply eok_iff; auto. }
      destruct (forallb (eok (smgrs m)) es) eqn:EF.
      + destruct (admin_apply_spec (smgrs m) g (gof es)) as (aff & E & Ha); try apply I.
        rewrite (i_sttl _ _ I). unfold gof in E at 1. rewrite E. cbn [rbind].
        rewrite Hi. cbn [negb]. rewrite andb_true_r.
        eexists _, true. split; [reflexivity|]. split; [now destruct aff|]. split; [now destruct aff|].
        split; [|split; [discriminate|tauto]]. intros _.
        rewrite <- Hi. apply inv_set_g with (g := g); auto using gof_good.
      + exists m, false. split; [reflexivity|]. split; [auto|]. split; [auto|]. split; [discriminate|]. split; auto.
  Qed.

  Lemma unforce_spec ss (g : bytes -> N) :
    (forall s, In s ss -> w_legal (real s) /\ w_forced (real s) = false) ->
    (forall d, g d = 0 \/ (w_legal (g d) /\ w_forced (g d) = true)) ->
    exists aff, unforce ss (map (eff g) ss) = Ok (map (eff (fun _ => 0)) ss, aff) /\
      (aff = false -> map (eff (fun _ => 0)) ss = map (eff g) ss).
  Proof.
    intros HR HG. induction ss as [|s ss IH]; cbn [map unforce].
    - exists false. auto.
    - destruct IH as (aff & E & Ha); [intros; apply HR; cbn; auto|]. rewrite E. cbn [rbind].
      destruct (HR s (or_introl eq_refl)) as [R1 R2]. rewrite !has_forced.
      assert (Hc : eff g s = real s \/ w_forced (eff g s) = true) by apply (eff_cases g HG).
      remember (eff g s) as c eqn:Ec. clear Ec.
      change (eff (fun _ => 0) s) with (real s). rewrite R2. cbn [negb rassert].
      destruct (w_forced c) eqn:Ef.
      + exists true. split; auto. discriminate.
      + destruct Hc as [->|Hc]; [|congruence]. exists aff. split; auto. intros A. now rewrite Ha by auto.
  Qed.

  Lemma delete_step m g : inv m g -> initial m = false ->
    exists m', admin_deleted_file m = Ok m' /\ smgrs m' = smgrs m /\ initial m' = false /\ inv m' (gof []).
  Proof.
    intros I Hi. unfold admin_deleted_file.
    destruct (unforce_spec (smgrs m) g) as (aff & E & Ha); try apply I.
    rewrite (i_sttl _ _ I), E. cbn [rbind].
    eexists. split; [reflexivity|]. split; [now destruct aff|]. split; [destruct aff; auto|].
    change (gof []) with (fun _ : bytes => 0).
    apply inv_set_g with (g := g); auto.
  Qed.

  Lemma timer_step m g : inv m g -> inv (if pending m then sttl_table_update m else m) g.
  Proof.
    intros I. destruct (pending m) eqn:Ep; auto. destruct I as [I1 I2 I3 I4 I5 I6 I7].
    constructor; cbn; auto. rewrite I2, map_length. rewrite <- (map_length fst items), <- I1. now rewrite map_length.
  Qed.

  (** ** The file in force *)
  Definition foldok ss es := forallb (eok ss) es.
  Fixpoint force_of (ss : list smgr) (cur : list (bytes * aval)) (os : list op) : list (bytes * aval) :=
    match os with
    | [] => cur
    | OAdmin (AHash es) :: os' => force_of ss (if foldok ss es then es else cur) os'
    | ODelete :: os' => force_of ss [] os'
    | _ :: os' => force_of ss cur os'
    end.

  Lemma force_of_app ss cur a b : force_of ss cur (a ++ b) = force_of ss (force_of ss cur a) b.
  Proof.
    revert cur; induction a as [|x a IH]; intros cur; cbn [app force_of]; auto.
    destruct x as [| |[es|]| |]; auto.
  Qed.
  Lemma force_of_snoc ss cur os o : force_of ss cur (os ++ [o]) = force_of ss (force_of ss cur os) [o].
  Proof. apply force_of_app. Qed.

  Lemma foldok_iff ss es : foldok ss es = true <-> file_ok fn ss (AHash es).
  Proof. unfold foldok. cbn. rewrite forallb_forall, Forall_forall. split; intros H x Hx; apply eok_iff; auto. Qed.

  Lemma file_ok_ext ss ss' f : map desc ss = map desc ss' -> file_ok fn ss f -> file_ok fn ss' f.
  Proof.
    intros E. destruct f as [es|]; cbn; auto. intros H. eapply Forall_impl; [|exact H].
    intros e [A B]. split; auto. intros s Hs.
    assert (X : In (desc s) (map desc ss')) by (apply in_map; auto). rewrite <- E in X.
    apply in_map_iff in X as (s1 & E1 & H1). rewrite <- E1. auto.
  Qed.

  Lemma in_force_iff ss es0 os es : in_force fn ss es0 os es <-> es = force_of ss es0 os.
  Proof.
    split.
    - induction 1 as [|os es f H IH Hf|os es f H IH Hf|os es H IH|os es o H IH Ho]; cbn; auto;
        rewrite force_of_snoc; cbn; rewrite <- ?IH; auto.
      + apply foldok_iff in Hf. now rewrite Hf.
      + destruct f as [f|]; auto. destruct (foldok ss f) eqn:E; auto. apply foldok_iff in E. contradiction.
      + destruct o as [| |[]| |]; auto; contradiction.
    - revert es; induction os as [|o os IH] using rev_ind; intros es ->.
      + constructor.
      + rewrite force_of_snoc. specialize (IH _ eq_refl). cbn.
        destruct o as [| |[f|]| |].
        * eapply if_other; eauto.
        * eapply if_other; eauto.
        * destruct (foldok ss f) eqn:E.
          -- eapply if_load; eauto. now apply foldok_iff.
          -- eapply if_bad; eauto. rewrite <- foldok_iff. congruence.
        * eapply if_bad; eauto.
        * eapply if_delete; eauto.
        * eapply if_other; eauto.
  Qed.

  Lemma forced_to_gof ss es d : file_ok fn ss (AHash es) ->
    (exists o, forced_to fn es d o) /\
    (forall o, forced_to fn es d o -> o = if gof es d =? 0 then None else Some (gof es d)).
  Proof.
    cbn. intros HF. split.
    - induction es as [|[p a] es IH] using rev_ind.
      + exists None. constructor.
      + apply Forall_app in HF as [HF He]. inversion He as [|? ? [(s & dn & v & E & Ht) _] _]; subst.
        cbn in E. subst a. destruct (IH HF) as (o & Ho).
        destruct (fn p d) eqn:Ef.
        * eexists. eapply ft_match; eauto.
        * exists o. apply ft_skip; auto. congruence.
        * exists o. apply ft_skip; auto. congruence.
    - intros o H. induction H as [d|es p s d down ttl o H IH Hm Ht|es p x d o H IH Hm].
      + reflexivity.
      + unfold gof. rewrite fold_left_app. cbn [fold_left]. generalize (fold_left (fstep d) es 0). intros acc. unfold fstep. cbn [fst snd]. rewrite Hm.
        assert (S := fval_spec s). destruct (fval s) as [v|] eqn:E.
        * assert (G := proj2 (fval_good _ _ E)). apply forced_nonzero in G. apply N.eqb_neq in G. rewrite G.
          f_equal. unfold fval in E. destruct (parse_exact s STTL_TTL_MAX) as (r & Er & Hr); [reflexivity|].
          rewrite Er in E. destruct r as [w|]; [|discriminate]. injection E as <-.
          assert (Hw : Some w = Some (word down false ttl)) by (apply Hr; exists down, ttl; split; auto).
          injection Hw as ->.
          assert (Hb : ttl < 2 ^ 28) by (inversion Ht; subst; auto; reflexivity).
          symmetry. now apply word_force.
        * exfalso. now apply (S down ttl).
      + apply Forall_app in HF as [HF _]. rewrite (IH HF).
        assert (E : gof (es ++ [(p, x)]) d = gof es d).
        { unfold gof. rewrite fold_left_app. cbn [fold_left]. generalize (fold_left (fstep d) es 0). intros acc. unfold fstep. cbn [fst snd]. destruct x as [txt|]; auto.
          destruct (fn p d); auto. congruence. }
        now rewrite E.
  Qed.
End Run.

Section Top.
  Variable fn : bytes -> bytes -> fnm.
  Variable items : list (bytes * option svc * bool).

  (** effect of an operation on the monitored items *)
  Definition smgrs_step (ini : bool) (ss : list smgr) (o : op) : list smgr :=
    match o with
    | OProbe i b => match nth_error ss i with
        | Some s => match typ s with Some t => upd ss i (probe_smgr ini t s b) | None => ss end
        | None => ss end
    | OSttl i v => match nth_error ss i with Some s => upd ss i (with_real s v) | None => ss end
    | _ => ss
    end.

  Lemma item_at m g i s : inv items m g -> nth_error (smgrs m) i = Some s ->
    exists b, nth_error items i = Some (desc s, typ s, b).
  Proof.
    intros I H. assert (E := i_items _ _ _ I).
    assert (X : nth_error (map fst items) i = Some (desc s, typ s)).
    { rewrite <- E. now rewrite (map_nth_error _ _ _ H). }
    destruct (nth_error items i) as [[p b]|] eqn:Ei.
    - rewrite (map_nth_error _ _ _ Ei) in X. cbn in X. injection X as ->. eauto.
    - apply nth_error_None in Ei. rewrite (proj2 (nth_error_None _ _)) in X; [discriminate|]. now rewrite map_length.
  Qed.
  Lemma item_len m g : inv items m g -> length (smgrs m) = length items.
  Proof. intros I. assert (E := f_equal (@length _) (i_items _ _ _ I)). now rewrite !map_length in E. Qed.
  Lemma item_desc m g : inv items m g -> map desc (smgrs m) = map (fun x => fst (fst x)) items.
  Proof.
    intros I. assert (E := f_equal (map fst) (i_items _ _ _ I)). rewrite !map_map in E. exact E.
  Qed.

  Lemma monitor_step m g o : inv items m g -> legal_op items o -> monitor_op o ->
    exists m', step fn m o = Ok m' /\ initial m' = initial m /\ inv items m' g /\
      smgrs m' = smgrs_step (initial m) (smgrs m) o.
  Proof.
    intros I L M. destruct o as [i b|i v| | |]; try contradiction.
    - destruct L as (d & t & x & Hi & Ht).
      destruct (nth_error (smgrs m) i) as [s|] eqn:Es.
      2:{ apply nth_error_None in Es. rewrite (item_len _ _ I) in Es. apply nth_error_None in Es. congruence. }
      destruct (item_at _ _ _ _ I Es) as (y & Hy). assert (Hty : typ s = Some t) by congruence.
      destruct (probe_step _ _ _ _ _ _ b I Es Hty Ht) as (m' & E & E1 & E2 & E3).
      exists m'. split; [exact E|]. split; [auto|]. split; [auto|].
      cbn. now rewrite Es, Hty.
    - destruct L as (Hi & Hl & Hf).
      destruct (nth_error (smgrs m) i) as [s|] eqn:Es.
      2:{ apply nth_error_None in Es. rewrite (item_len _ _ I) in Es. lia. }
      destruct (raw_step _ _ _ _ _ _ I Es Hl Hf) as (m' & E & E1 & E2 & E3).
      exists m'. split; [exact E|]. split; [auto|]. split; [auto|]. cbn. now rewrite Es.
  Qed.

  Lemma foldok_ext ss ss' es : map desc ss = map desc ss' -> foldok fn ss es = foldok fn ss' es.
  Proof.
    intros E. destruct (foldok fn ss es) eqn:A, (foldok fn ss' es) eqn:B; auto.
    - apply foldok_iff in A. apply (file_ok_ext _ _ _ _ E) in A. apply foldok_iff in A. congruence.
    - apply foldok_iff in B. symmetry in E. apply (file_ok_ext _ _ _ _ E) in B. apply foldok_iff in B. congruence.
  Qed.

  Lemma inv_nil m g g' : smgrs m = [] -> initial m = false -> inv items m g ->
    (forall d, g' d = 0 \/ (w_legal (g' d) /\ w_forced (g' d) = true)) -> inv items m g'.
  Proof.
    intros E Hi [I1 I2 I3 I4 I5 I6 I7] HG. rewrite E in *. constructor; rewrite ?E; auto. rewrite Hi; discriminate.
  Qed.

  Variable ss0 : list smgr.
  Hypothesis Hss0 : map desc ss0 = map (fun x => fst (fst x)) items.

  Lemma run_step m es o : inv items m (gof fn es) -> initial m = false -> legal_op items o ->
    exists m', step fn m o = Ok m' /\ initial m' = false /\ inv items m' (gof fn (force_of fn ss0 es [o])) /\
      smgrs m' = smgrs_step false (smgrs m) o /\
      (forall f, o = OAdmin f -> smgrs m <> [] -> ~ file_ok fn ss0 f -> m' = m) /\
      (o = OTimer -> sttl m' = sttl m /\ consumer m' = sttl m').
  Proof.
    intros I Hi L.
    assert (MO : monitor_op o -> exists m', step fn m o = Ok m' /\ initial m' = false /\
      inv items m' (gof fn (force_of fn ss0 es [o])) /\ smgrs m' = smgrs_step false (smgrs m) o /\
      (forall f, o = OAdmin f -> smgrs m <> [] -> ~ file_ok fn ss0 f -> m' = m) /\
      (o = OTimer -> sttl m' = sttl m /\ consumer m' = sttl m')).
    { intros M. destruct (monitor_step _ _ _ I L M) as (m' & E & E1 & E2 & E3). exists m'. rewrite Hi in *.
      split; [auto|]. split; [auto|]. split; [|split; [auto|]].
      - destruct o; try contradiction; exact E2.
      - split; [intros f ->|intros ->]; contradiction. }
    destruct o as [i b|i v|[f|]| |]; try (apply MO; exact Logic.I); clear MO.
    - destruct (admin_step fn items _ _ f I Hi) as (m' & ok & E & E1 & E2 & E3 & E4 & E5).
      exists m'. cbn [step]. rewrite E. cbn [rbind]. split; [auto|]. split; [auto|]. split.
      2:{ split; [cbn; auto|]. split; [|discriminate]. intros f' [= <-] Hne Hnf. apply E4.
          destruct ok; auto. exfalso. apply Hnf. apply (file_ok_ext fn (smgrs m)).
          - rewrite Hss0. eapply item_desc; eauto.
          - cbn. apply E5; auto. }
      cbn [force_of]. destruct (smgrs m) as [|s1 ss1] eqn:Ess.
      + destruct ok.
        * apply (inv_nil m' (gof fn f)); auto. apply gof_good.
        * rewrite (E4 eq_refl) in *. apply (inv_nil m (gof fn es)); auto. apply gof_good.
      + rewrite (foldok_ext ss0 (smgrs m)) by (rewrite Hss0; symmetry; eapply item_desc; eauto).
        assert (E5' := E5 ltac:(discriminate)).
        destruct (foldok fn (smgrs m) f) eqn:EF.
        * apply foldok_iff in EF. rewrite <- Ess in E5'. apply E3. now apply E5'.
        * destruct ok.
          -- exfalso. assert (X : foldok fn (smgrs m) f = true); [|congruence].
             apply foldok_iff. rewrite <- Ess in E5'. now apply E5'.
          -- now rewrite (E4 eq_refl).
    - exists m. cbn. split; [auto|]. split; [auto|]. split; [auto|]. split; [auto|]. split; [auto|discriminate].
    - destruct (delete_step fn items _ _ I Hi) as (m' & E & E1 & E2 & E3).
      exists m'. split; [exact E|]. split; [auto|]. split; [auto|]. split; [auto|]. split; discriminate.
    - eexists. split; [reflexivity|]. split; [now destruct (pending m)|].
      split; [now apply timer_step|]. split; [now destruct (pending m)|]. split; [discriminate|].
      intros _. destruct (pending m) eqn:Ep; cbn; split; auto. apply (i_pub _ _ _ I); auto.
  Qed.

  Lemma run_steps os : forall m es, inv items m (gof fn es) -> initial m = false -> Forall (legal_op items) os ->
    exists m', steps fn m os = Ok m' /\ initial m' = false /\ inv items m' (gof fn (force_of fn ss0 es os)) /\
      smgrs m' = fold_left (smgrs_step false) os (smgrs m).
  Proof.
    induction os as [|o os IH]; intros m es I Hi HF; cbn [steps fold_left].
    - exists m. auto.
    - inversion HF; subst. destruct (run_step _ _ o I Hi) as (m1 & E & E1 & E2 & E3 & _); auto.
      rewrite E. cbn [rbind]. destruct (IH m1 _ E2 E1) as (m' & E' & E1' & E2' & E3'); auto.
      exists m'. split; auto. split; auto. split.
      + change (o :: os) with ([o] ++ os). now rewrite force_of_app.
      + rewrite E3', E3. auto.
  Qed.

  Lemma init_steps os : forall m, inv items m (fun _ => 0) -> initial m = true ->
    Forall (legal_op items) os -> Forall monitor_op os ->
    exists m', steps fn m os = Ok m' /\ initial m' = true /\ inv items m' (fun _ => 0) /\
      smgrs m' = fold_left (smgrs_step true) os (smgrs m).
  Proof.
    induction os as [|o os IH]; intros m I Hi HF HM; cbn [steps fold_left].
    - exists m. auto.
    - inversion HF; subst. inversion HM; subst.
      destruct (monitor_step _ _ o I) as (m1 & E & E1 & E2 & E3); auto.
      rewrite E. cbn [rbind]. rewrite Hi in *. destruct (IH m1 E2 E1) as (m' & E' & E1' & E2' & E3'); auto.
      exists m'. split; auto. split; auto. split; auto. rewrite E3', E3. auto.
  Qed.

  Definition unini (m : mon) : mon :=
    {| smgrs := smgrs m; sttl := sttl m; consumer := consumer m; pending := true; initial := false |}.
  Definition fin (m : mon) : mon :=
    sttl_table_update {| smgrs := smgrs m; sttl := sttl m; consumer := consumer m;
                         pending := pending m; initial := false |}.

  Lemma admin_unini m es : match admin_process_hash fn m es, admin_process_hash fn (unini m) es with
    | Ok (a, _), Ok (b, _) => fin a = fin b | UB, UB => True | _, _ => False end.
  Proof.
    unfold admin_process_hash. cbn [smgrs unini sttl]. destruct (smgrs m) as [|s ss]; [reflexivity|].
    destruct (admin_parse _ _ _ _) as [[us|]|]; cbn [rbind]; auto.
    destruct (admin_apply _ _ _) as [[tbl aff]|]; cbn [rbind]; auto.
    destruct aff, (initial m); reflexivity.
  Qed.

  Definition init_admin (f : option afile) : list op := match f with Some a => [OAdmin a] | None => [] end.

  Lemma start_ok m f : inv items m (fun _ => 0) -> initial m = true ->
    exists m2, match f with Some f => step fn m (OAdmin f) | None => Ok m end = Ok m2 /\
      inv items (fin m2) (gof fn (force_of fn ss0 [] (init_admin f))) /\ smgrs m2 = smgrs m.
  Proof.
    intros I Hi.
    assert (Iu : inv items (unini m) (gof fn [])).
    { destruct I as [I1 I2 I3 I4 I5 I6 I7]. constructor; cbn; auto; discriminate. }
    assert (Fin : forall x g, inv items x g -> initial x = false -> inv items (fin x) g).
    { intros x g [I1 I2 I3 I4 I5 I6 I7] Hx. constructor; cbn; auto; [discriminate|].
      rewrite I2, map_length. rewrite <- (map_length fst items), <- I1. now rewrite map_length. }
    assert (FinU : fin (unini m) = fin m) by reflexivity.
    destruct f as [[es|]|].
    - destruct (run_step (unini m) [] (OAdmin (AHash es)) Iu) as (m' & E & E1 & E2 & E3 & _); cbn; auto.
      cbn [step] in E |- *. assert (A := admin_unini m es).
      destruct (admin_process_hash fn (unini m) es) as [[b ok]|]; [|discriminate]. cbn in E. injection E as ->.
      destruct (admin_process_hash fn m es) as [[a ok']|]; [|contradiction].
      exists a. split; [reflexivity|]. rewrite A. split; [apply Fin; auto|].
      assert (X := f_equal smgrs A). cbn in X. rewrite X. exact E3.
    - exists m. split; [reflexivity|]. split; auto. rewrite <- FinU. apply Fin; auto.
    - exists m. split; [reflexivity|]. split; auto. rewrite <- FinU. apply Fin; auto.
  Qed.

  Lemma register_inv : inv items (register items) (fun _ => 0).
  Proof.
    constructor; cbn.
    - rewrite map_map. apply map_ext. intros [[d t] b]. reflexivity.
    - apply map_ext. intros s. reflexivity.
    - intros s H. apply in_map_iff in H as ([[d t] b] & <- & _). cbn.
      destruct b; split; auto; split; reflexivity.
    - auto.
    - intros _. split; auto. intros s H. apply in_map_iff in H as ([[d t] b] & <- & _). auto.
    - discriminate.
    - now rewrite !map_length.
  Qed.

  Lemma whole_run ips f os : Forall (legal_op items) ips -> Forall monitor_op ips -> Forall (legal_op items) os ->
    exists m0 m, mon_start fn (register items) ips f = Ok m0 /\ steps fn m0 os = Ok m /\
      initial m = false /\ inv items m (gof fn (force_of fn ss0 [] (init_admin f ++ os))) /\
      smgrs m = fold_left (smgrs_step false) os (fold_left (smgrs_step true) ips (smgrs (register items))).
  Proof.
    intros Hi Hm Ho. unfold mon_start.
    destruct (init_steps ips (register items) register_inv eq_refl Hi Hm) as (m1 & E1 & I1 & V1 & S1).
    rewrite E1. cbn [rbind]. destruct (start_ok m1 f V1 I1) as (m2 & E2 & V2 & S2). rewrite E2. cbn [rbind].
    destruct (run_steps os (fin m2) _ V2 eq_refl Ho) as (m & E & I & V & S).
    exists (fin m2), m. split; [reflexivity|]. split; [exact E|]. split; [auto|].
    rewrite force_of_app. split; auto. rewrite S. cbn. now rewrite S2, S1.
  Qed.
End Top.

(** ** One item's probe history *)
Lemma probes_of_app i a b : probes_of i (a ++ b) = probes_of i a ++ probes_of i b.
Proof.
  induction a as [|o a IH]; cbn; auto. destruct o; auto. destruct (Nat.eqb i i0); cbn; auto. now rewrite IH.
Qed.

Definition no_direct (i : nat) (os : list op) : Prop := forall v, ~ In (OSttl i v) os.

Lemma no_direct_app i a b : no_direct i (a ++ b) <-> no_direct i a /\ no_direct i b.
Proof.
  unfold no_direct. split.
  - intros H. split; intros v X; apply (H v); apply in_or_app; auto.
  - intros [H1 H2] v X. apply in_app_or in X as [X|X]; [apply (H1 v)|apply (H2 v)]; auto.
Qed.

Section Item.
  Variable t : svc.
  Hypothesis Ht : svc_ok t.
  Variable i : nat.

  Lemma step_other ini ss o s : nth_error ss i = Some s -> probes_of i [o] = [] -> no_direct i [o] ->
    nth_error (smgrs_step ini ss o) i = Some s.
  Proof.
    intros Hs Hp Hn. destruct o as [j b|j v|f| |]; cbn; auto.
    - cbn in Hp. destruct (Nat.eqb_spec i j) as [->|Hij]; [discriminate|].
      destruct (nth_error ss j) as [sj|] eqn:E; auto. destruct (typ sj); auto.
      now rewrite nth_error_upd_neq by congruence.
    - destruct (Nat.eq_dec i j) as [->|Hij].
      + exfalso. apply (Hn v). cbn; auto.
      + destruct (nth_error ss j) as [sj|] eqn:E; auto. now rewrite nth_error_upd_neq by congruence.
  Qed.

  Lemma step_mine ini ss b s : nth_error ss i = Some s -> typ s = Some t ->
    nth_error (smgrs_step ini ss (OProbe i b)) i = Some (probe_smgr ini t s b).
  Proof.
    intros Hs Hty. cbn. rewrite Hs, Hty. apply nth_error_upd_eq. apply nth_error_Some. congruence.
  Qed.

  Lemma probes_one o : probes_of i [o] = [] \/ exists b, o = OProbe i b.
  Proof. destruct o as [j b|j v|f| |]; cbn; auto. destruct (Nat.eqb_spec i j) as [->|]; eauto. Qed.

  Lemma init_item os : forall ss s, nth_error ss i = Some s -> typ s = Some t -> no_direct i os ->
    exists s', nth_error (fold_left (smgrs_step true) os ss) i = Some s' /\ typ s' = Some t /\ desc s' = desc s /\
      (probes_of i os = [] -> s' = s) /\
      (probes_of i os <> [] -> n_failure s' = 0 /\ n_success s' = 0 /\
         real s' = count_sttl t (negb (last (probes_of i os) false)) 0 0).
  Proof.
    induction os as [|o os IH] using rev_ind; intros ss s Hs Hty Hn.
    - exists s. cbn. repeat split; auto; congruence.
    - apply no_direct_app in Hn as [Hn1 Hn2].
      destruct (IH ss s Hs Hty Hn1) as (s1 & H1 & T1 & D1 & A1 & B1).
      rewrite fold_left_app. cbn [fold_left]. rewrite probes_of_app.
      destruct (probes_one o) as [Hp|(b & ->)].
      + rewrite Hp, app_nil_r. exists s1. split; [now apply step_other|]. auto.
      + exists (probe_smgr true t s1 b). split; [now apply step_mine|].
        cbn. rewrite Nat.eqb_refl. repeat split; auto.
        * intros X. destruct (probes_of i os); discriminate.
        * now rewrite last_last.
  Qed.

  Definition tracked (d0 : bool) (h : list bool) (probed : Prop) (s : smgr) : Prop :=
    exists w, phase t d0 h (w_down (real s)) w /\
      cnt t (w_down (real s)) (N.to_nat (n_failure s)) (N.to_nat (n_success s)) w /\
      (probed -> real s = count_sttl t (w_down (real s)) (n_failure s) (n_success s)).

  Lemma run_item (P0 : Prop) d0 os : forall ss s, nth_error ss i = Some s -> typ s = Some t -> no_direct i os ->
    tracked d0 [] P0 s ->
    exists s', nth_error (fold_left (smgrs_step false) os ss) i = Some s' /\ typ s' = Some t /\ desc s' = desc s /\
      tracked d0 (probes_of i os) (P0 \/ probes_of i os <> []) s'.
  Proof.
    induction os as [|o os IH] using rev_ind; intros ss s Hs Hty Hn H0.
    - exists s. cbn. split; auto. split; auto. split; auto. destruct H0 as (w & A & B & C).
      exists w. split; auto. split; auto. intros [?|?]; [auto|congruence].
    - apply no_direct_app in Hn as [Hn1 Hn2].
      destruct (IH ss s Hs Hty Hn1 H0) as (s1 & H1 & T1 & D1 & w & A & B & C).
      rewrite fold_left_app. cbn [fold_left]. rewrite probes_of_app.
      destruct (probes_one o) as [Hp|(b & ->)].
      + rewrite Hp, app_nil_r. exists s1. split; [now apply step_other|]. split; auto. split; auto. exists w. auto.
      + exists (probe_smgr false t s1 b). split; [now apply step_mine|].
        cbn [probes_of]. rewrite Nat.eqb_refl.
        unfold probe_smgr. destruct (count_result t (w_down (real s1)) (n_failure s1) (n_success s1) b) as [[d nf] ns] eqn:E.
        cbn [typ desc]. split; auto. split; auto. unfold tracked. cbn [real n_failure n_success].
        destruct (count_sttl_legal t d nf ns Ht) as (_ & _ & Ed). rewrite Ed.
        destruct (count_step t Ht _ _ _ _ _ _ _ _ B E) as [(-> & Hc & Hcnt)|(-> & Hc & -> & ->)].
        * exists (w ++ [b]). split; [now constructor|]. split; auto.
        * exists []. split; [now apply ph_flip with (w := w)|]. split; auto. apply cnt_start; auto.
  Qed.
End Item.
