(** The load as a machine: what every schedule leads to. *)
From Coq Require Import Permutation.
From Verif Require Import Base DnameModel CompModel RespModel LtreeModel LtreeSpec LtreeProofs LtreeProofs2 LtreeProofs3 LtreeProofs12 ZdirModel ZdirProofs.
Local Open Scope N_scope.

Lemma firstn_S {A} (l : list A) n x : nth_error l n = Some x -> firstn (S n) l = firstn n l ++ [x].
Proof. revert n. induction l as [|a l IH]; intros [|n] H; try discriminate; cbn in *; [congruence|]. now rewrite <- IH. Qed.
Lemma upd_same_nth {A} (l : list A) i j x : nth_error (upd l i x) j = if Nat.eqb i j then match nth_error l j with Some _ => Some x | None => None end else nth_error l j.
Proof.
  destruct (Nat.eqb_spec i j) as [<-|N]; [|now apply nth_error_upd_neq]. destruct (nth_error l i) as [y|] eqn:E.
  - apply nth_error_upd_eq. apply nth_error_Some. congruence.
  - apply nth_error_None. rewrite upd_length. now apply nth_error_None.
Qed.

Section Machine.
  Variable load_file : bytes -> res wout.
  Variable hash : list N -> N.
  Hypothesis hash64 : forall l, hash l < W64.
  (** what the workers make of each file *)
  Variable f : bytes -> wout.
  Variable L : list (list bytes).
  Hypothesis known : forall fn, In fn (concat L) -> load_file fn = Ok (f fn).
  Variable b : N.
  Hypothesis roots : forall fn z r, In fn (concat L) -> f fn = GoodZone z r -> fine_root hash b (z, r).
  Variable T0 : lnode.
  Variable zs0 : list (name * lnode).
  Hypothesis TI0 : tree_inv hash b zs0 T0.

  Definition is_good (fn : bytes) : Prop := exists z r, f fn = GoodZone z r.
  Definition goods (l : list bytes) : list (name * lnode) := flat_map (fun fn => match f fn with GoodZone z r => [(z, r)] | _ => [] end) l.
  Hypothesis room : b + N.of_nat (length (goods (concat L))) < 2 ^ 62.
  Hypothesis filled : forall l, In l L -> l <> [].
  Definition ent (fn : bytes) : bytes * wout := (fn, f fn).
  Definition zones (es : list (bytes * wout)) : list bytes := map fst (filter (fun e => zone_made (snd e)) es).

  Lemma goods_app l1 l2 : goods (l1 ++ l2) = goods l1 ++ goods l2.
  Proof. apply flat_map_app. Qed.
  Lemma goods_fine l : incl l (concat L) -> Forall (fine_root hash b) (goods l).
  Proof.
    intros I. apply Forall_forall. intros (z, r) X. apply in_flat_map in X. destruct X as (fn & IN & X). destruct (f fn) as [| |z1 r1] eqn:E; [destruct X|destruct X|]. destruct X as [X|[]]. injection X as -> ->. apply (roots fn); auto.
  Qed.
  Lemma zones_app x y : zones (x ++ y) = zones x ++ zones y.
  Proof. unfold zones. now rewrite filter_app, map_app. Qed.
  Lemma zones_good l : Forall is_good l -> zones (map ent l) = l.
  Proof. induction 1 as [|fn l (z & r & E) F IH]; [reflexivity|]. unfold zones in *. cbn. rewrite E. cbn. now rewrite IH. Qed.
  Lemma good_dec fn : is_good fn \/ ~ is_good fn.
  Proof. unfold is_good. destruct (f fn) as [| |z r] eqn:E; [right|right|left; eauto]; intros (z & r & X); congruence. Qed.

  Lemma merge_never_ub l rest : concat L = l ++ rest -> merge_all hash T0 (goods l) <> UB.
  Proof.
    intros E. assert (LN : (length (goods l) <= length (goods (concat L)))%nat) by (rewrite E, goods_app, app_length; lia).
    destruct (merge_all_exact hash hash64 (goods l) b zs0 T0 TI0) as [(T' & -> & _)|(-> & _)]; try discriminate.
    - apply goods_fine. rewrite E. apply incl_appl, incl_refl.
    - lia.
  Qed.

  (** ** One worker *)
  Definition winv (w : worker) (l : list bytes) : Prop :=
    exists p, w_done w = map ent p /\ l = p ++ w_todo w /\
      match w_exit w with
      | None => Forall is_good p
      | Some false => w_todo w = [] /\ Forall is_good p
      | Some true => exists fn, In fn p /\ ~ is_good fn
      end.

  Lemma work_ok w l : incl l (concat L) -> winv w l -> exists w', work load_file w = Ok w' /\ winv w' l /\ (exists more, w_done w' = w_done w ++ more) /\
    match w_exit w with
    | Some _ => w' = w
    | None => match w_todo w with [] => w_exit w' = Some false | _ :: t => w_exit w' = None /\ w_todo w' = t \/ w_exit w' = Some true end
    end.
  Proof.
    intros IC (p & D & E & X). unfold work. destruct (w_exit w) as [ex|] eqn:EX.
    - exists w. split; [reflexivity|]. split; [exists p; rewrite EX; auto|]. split; [exists []; now rewrite app_nil_r|reflexivity].
    - destruct (w_todo w) as [|fn todo] eqn:TD.
      + eexists. split; [reflexivity|]. cbn. split; [exists p; cbn; auto|]. split; [exists []; now rewrite app_nil_r|reflexivity].
      + rewrite known by (apply IC; rewrite E; apply in_app_iff; right; now left). cbn [rbind]. eexists. split; [reflexivity|].
        split; [|split; [exists [(fn, f fn)]; reflexivity|destruct (f fn); cbn; auto]].
        exists (p ++ [fn]). cbn [w_done w_todo w_exit]. split; [now rewrite D, map_app|]. split; [now rewrite <- app_assoc|].
        destruct (f fn) as [| |z r] eqn:EF.
        * exists fn. split; [apply in_app_iff; right; now left|]. intros (z & r & Y). congruence.
        * exists fn. split; [apply in_app_iff; right; now left|]. intros (z & r & Y). congruence.
        * apply Forall_app. split; [exact X|]. constructor; [|constructor]. exists z, r. exact EF.
  Qed.

  (** ** Collecting one worker *)
  Lemma harvest_failed es : forall T merged gone, harvest hash es T true merged gone = Ok (T, true, merged, gone ++ zones es).
  Proof.
    induction es as [|(fn, o) es IH]; intros T merged gone; cbn [harvest].
    - unfold zones. cbn. now rewrite app_nil_r.
    - rewrite IH. f_equal. f_equal. unfold zones. cbn [filter snd]. destruct o; cbn; [reflexivity| |]; now rewrite <- app_assoc.
  Qed.
  Lemma harvest_good l : forall T merged gone, Forall is_good l -> merge_all hash T (goods l) <> UB ->
    (exists T', merge_all hash T (goods l) = Ok (Some T') /\ harvest hash (map ent l) T false merged gone = Ok (T', false, merged ++ l, gone)) \/
    (exists T' p q, merge_all hash T (goods l) = Ok None /\ l = p ++ q /\ harvest hash (map ent l) T false merged gone = Ok (T', true, merged ++ p, gone ++ q)).
  Proof.
    induction l as [|fn l IH]; intros T merged gone F N; cbn [map harvest].
    - left. exists T. cbn. now rewrite app_nil_r.
    - inversion F as [|? ? (z & r & E) F']; subst. change (goods (fn :: l)) with (goods ([fn] ++ l)) in *. rewrite goods_app in *. cbn [goods flat_map] in *. rewrite E in *. cbn [app merge_all] in *.
      change (ent fn) with (fn, f fn). rewrite E. cbn [harvest]. destruct (merge_zone hash T z r) as [[T1|]|] eqn:M; cbn [zbind rbind] in *.
      + destruct (IH T1 (merged ++ [fn]) gone F' N) as [(T' & A & B)|(T' & p & q & A & -> & B)].
        * left. exists T'. split; [exact A|]. rewrite B. now rewrite <- app_assoc.
        * right. exists T', (fn :: p), q. split; [exact A|]. split; [reflexivity|]. rewrite B. now rewrite <- app_assoc.
      + right. exists T, [], (fn :: l). split; [reflexivity|]. split; [reflexivity|]. rewrite harvest_failed, zones_good by exact F'. now rewrite app_nil_r, <- app_assoc.
      + contradiction.
  Qed.

  (** ** The whole load *)
  Record inv (s : load) : Prop := {
    i_workers : Forall2 winv (d_workers s) L;
    i_next : (d_next s <= length L)%nat;
    i_done : forall i w, (i < d_next s)%nat -> nth_error (d_workers s) i = Some w -> w_exit w <> None;
    i_ok : d_failed s = false -> Forall is_good (concat (firstn (d_next s) L)) /\
      merge_all hash T0 (goods (concat (firstn (d_next s) L))) = Ok (Some (d_tree s)) /\ d_gone s = [] /\ d_merged s = concat (firstn (d_next s) L);
    i_fail : d_failed s = true -> (exists fn, In fn (concat L) /\ ~ is_good fn) \/
      (exists p q, concat L = p ++ q /\ Forall is_good p /\ merge_all hash T0 (goods p) = Ok None);
    i_made : Permutation (d_made s) (flat_map (fun w => zones (w_done w)) (d_workers s));
    i_kept : Permutation (d_merged s ++ d_gone s) (flat_map (fun w => zones (w_done w)) (firstn (d_next s) (d_workers s))) }.

  Lemma incl_list i l : nth_error L i = Some l -> incl l (concat L).
  Proof. intros E x I. apply in_concat. exists l. split; [eapply nth_error_In; eauto|exact I]. Qed.
  Lemma f2_nth {A B} (R : A -> B -> Prop) l1 l2 : Forall2 R l1 l2 -> forall i x, nth_error l1 i = Some x -> exists y, nth_error l2 i = Some y /\ R x y.
  Proof. induction 1 as [|x y l1 l2 H F IH]; intros [|i] z E; try discriminate; cbn in *; [injection E as <-; eauto|eauto]. Qed.
  Lemma f2_len {A B} (R : A -> B -> Prop) l1 l2 : Forall2 R l1 l2 -> length l1 = length l2.
  Proof. induction 1; cbn; congruence. Qed.
  Lemma f2_upd {A B} (R : A -> B -> Prop) l1 l2 : Forall2 R l1 l2 -> forall i x y, nth_error l2 i = Some y -> R x y -> Forall2 R (upd l1 i x) l2.
  Proof. induction 1 as [|x y l1 l2 H F IH]; intros [|i] z u E Q; try discriminate; cbn in *; constructor; auto; [congruence|eauto]. Qed.
  Lemma flat_upd {A B} (g : A -> list B) l : forall i x y more, nth_error l i = Some x -> g y = g x ++ more -> Permutation (flat_map g (upd l i y)) (flat_map g l ++ more).
  Proof.
    induction l as [|a l IH]; intros [|i] x y more E G; try discriminate; cbn in *.
    - injection E as ->. rewrite G, <- !app_assoc. apply Permutation_app_head, Permutation_app_comm.
    - rewrite <- app_assoc. apply Permutation_app_head. eauto.
  Qed.
  Lemma firstn_upd {A} (l : list A) n i x : (n <= i)%nat -> firstn n (upd l i x) = firstn n l.
  Proof. revert n i. induction l as [|a l IH]; intros [|n] [|i] H; cbn; auto; try lia. f_equal. apply IH. lia. Qed.
  Lemma first_concat i l : nth_error L i = Some l -> exists rest, concat L = concat (firstn i L) ++ l ++ rest.
  Proof.
    intros E. apply nth_error_split in E. destruct E as (l1 & l2 & E & <-). exists (concat l2). rewrite E, firstn_app, Nat.sub_diag, firstn_all, app_nil_r, concat_app. reflexivity.
  Qed.

  Lemma step_inv s a : inv s -> exists s', step load_file hash s a = Ok s' /\ inv s'.
  Proof.
    intros I. destruct a as [i|]; cbn [step].
    - destruct (nth_error (d_workers s) i) as [w|] eqn:E; [|eauto].
      destruct (f2_nth _ _ _ (i_workers s I) i w E) as (l & EL & W).
      destruct (work_ok w l (incl_list i l EL) W) as (w' & -> & W' & (more & MD) & CASE). cbn [rbind]. eexists. split; [reflexivity|].
      destruct I as [I1 I2 I3 I4 I5 I6 I7]. constructor; cbn.
      + eapply f2_upd; eauto.
      + exact I2.
      + intros j w0 LT E0. rewrite upd_same_nth in E0. destruct (Nat.eqb_spec i j) as [->|N]; [|eauto]. rewrite E in E0. injection E0 as <-.
        pose proof (I3 j w LT E) as X. destruct (w_exit w) as [ex|] eqn:EX; [|congruence]. rewrite CASE. congruence.
      + exact I4.
      + exact I5.
      + fold (zones (skipn (length (w_done w)) (w_done w'))). rewrite MD, skipn_app, skipn_all, Nat.sub_diag. cbn [app skipn].
        etransitivity; [apply Permutation_app_tail; exact I6|]. symmetry. eapply (flat_upd (fun w => zones (w_done w))); [exact E|]. rewrite MD. apply zones_app.
      + destruct (Nat.le_gt_cases (d_next s) i) as [LE|GT]; [now rewrite firstn_upd|].
        pose proof (I3 i w GT E) as X. assert (w' = w) as -> by (destruct (w_exit w); [exact CASE|congruence]).
        assert (upd (d_workers s) i w = d_workers s) as ->; [|exact I7]. clear - E. revert i E. induction (d_workers s) as [|a l IH]; intros [|i] E; try discriminate; cbn in *; [congruence|f_equal; auto].
    - destruct (nth_error (d_workers s) (d_next s)) as [w|] eqn:E; [|eauto]. destruct (w_exit w) as [ex|] eqn:EX; [|eauto].
      destruct (f2_nth _ _ _ (i_workers s I) (d_next s) w E) as (l & EL & (p & D & EP & X)). rewrite EX in X. destruct (first_concat _ _ EL) as (rest & EC).
      assert (NX : (S (d_next s) <= length L)%nat) by (apply nth_error_Some; congruence).
      assert (ZW : forall a c, firstn (S a) (d_workers s) = firstn a (d_workers s) ++ [c] -> flat_map (fun w => zones (w_done w)) (firstn (S a) (d_workers s)) = flat_map (fun w => zones (w_done w)) (firstn a (d_workers s)) ++ zones (w_done c)) by (intros a c ->; rewrite flat_map_app; cbn; now rewrite app_nil_r).
      assert (NE : negb (Nat.eqb (length (w_done w ++ map (fun fn => (fn, NoZone)) (w_todo w))) 0) = true).
      { rewrite app_length, D, !map_length, <- app_length, <- EP. destruct l as [|x l0]; [|reflexivity]. elim (filled []); [eapply nth_error_In; eauto|reflexivity]. }
      rewrite NE. cbn [rassert].
      specialize (ZW _ _ (firstn_S _ _ _ E)). pose proof (firstn_S _ _ _ EL) as FL.
      assert (DN : forall i w0, (i < S (d_next s))%nat -> nth_error (d_workers s) i = Some w0 -> w_exit w0 <> None).
      { intros i w0 LT E0. destruct (Nat.eq_dec i (d_next s)) as [->|N]; [rewrite E in E0; congruence|]. apply (i_done s I i w0); [lia|exact E0]. }
      assert (ZT : zones (w_done w ++ map (fun fn => (fn, NoZone)) (w_todo w)) = zones (w_done w)).
      { rewrite zones_app. assert (zones (map (fun fn => (fn, NoZone)) (w_todo w)) = []) as ->; [|apply app_nil_r]. clear. induction (w_todo w); [reflexivity|]. unfold zones in *. cbn. exact IHl. }
      destruct (d_failed s || ex) eqn:FE.
      + rewrite harvest_failed, ZT. cbn [rbind]. eexists. split; [reflexivity|]. destruct I as [I1 I2 I3 I4 I5 I6 I7]. constructor; cbn; auto; try discriminate.
        * intros _. apply orb_true_iff in FE. destruct FE as [FE| ->]; [now apply I5|]. destruct X as (fn & IN & NG). left. exists fn. split; [|exact NG]. rewrite EC, EP. rewrite !in_app_iff. auto.
        * change (Permutation (d_merged s ++ d_gone s ++ zones (w_done w)) (flat_map (fun w => zones (w_done w)) (firstn (S (d_next s)) (d_workers s)))). rewrite ZW, app_assoc. now apply Permutation_app_tail.
      + apply orb_false_iff in FE. destruct FE as (FE & ->). destruct X as (TD & FG). destruct (i_ok s I FE) as (O1 & O2 & O3 & O4). rewrite TD, app_nil_r in *. subst l. cbn [map]. rewrite D.
        assert (NU : merge_all hash (d_tree s) (goods p) <> UB).
        { intros U. apply (merge_never_ub (concat (firstn (d_next s) L) ++ p) rest); [now rewrite EC, <- app_assoc|]. rewrite goods_app, merge_all_app, O2. exact U. }
        destruct (harvest_good p (d_tree s) (d_merged s) (d_gone s) FG NU) as [(T' & A & B)|(T' & p1 & q1 & A & EQ & B)]; rewrite B; cbn [rbind]; (eexists; split; [reflexivity|]); destruct I as [I1 I2 I3 I4 I5 I6 I7]; constructor; cbn; auto; try discriminate.
        * intros _. change (match L with [] => [] | a :: l => a :: firstn (d_next s) l end) with (firstn (S (d_next s)) L). rewrite FL, concat_app. cbn [concat]. rewrite app_nil_r. split; [now apply Forall_app|]. split; [|split; [exact O3|now rewrite O4]].
          now rewrite goods_app, merge_all_app, O2.
        * change (Permutation ((d_merged s ++ p) ++ d_gone s) (flat_map (fun w => zones (w_done w)) (firstn (S (d_next s)) (d_workers s)))). rewrite ZW, D, zones_good by exact FG. rewrite O3 in *. rewrite app_nil_r in *. now apply Permutation_app_tail.
        * intros _. right. exists (concat (firstn (d_next s) L) ++ p), rest. split; [now rewrite EC, <- app_assoc|]. split; [now apply Forall_app|]. now rewrite goods_app, merge_all_app, O2.
        * change (Permutation ((d_merged s ++ p1) ++ d_gone s ++ q1) (flat_map (fun w => zones (w_done w)) (firstn (S (d_next s)) (d_workers s)))). rewrite ZW, D, zones_good by exact FG. rewrite O3 in *. cbn [app]. rewrite app_nil_r in *. rewrite EQ, <- app_assoc. now apply Permutation_app_tail.
  Qed.
  Lemma steps_inv acts : forall s, inv s -> exists s', steps load_file hash s acts = Ok s' /\ inv s'.
  Proof. induction acts as [|a acts IH]; intros s I; [exists s; auto|]. cbn [steps]. destruct (step_inv s a I) as (s1 & -> & I1). cbn [rbind]. auto. Qed.

  Definition fresh_worker (l : list bytes) : worker := {| w_todo := l; w_done := []; w_exit := None |}.
  Definition first_load : load :=
    {| d_workers := map fresh_worker L; d_next := 0; d_tree := T0; d_failed := false; d_made := []; d_merged := []; d_gone := [] |}.
  Lemma first_inv : inv first_load.
  Proof.
    constructor; cbn; try discriminate; auto.
    - clear. induction L as [|l L' IH]; cbn; constructor; [|exact IH]. exists []. cbn. split; [reflexivity|split; [reflexivity|constructor]].
    - apply Nat.le_0_l.
    - intros i w H. inversion H.
    - assert (forall l, flat_map (fun w => zones (w_done w)) (map fresh_worker l) = []) as -> by (induction l; auto). constructor.
  Qed.

  (** ** No schedule is a dead end *)
  Lemma finish_worker i : forall n s w, inv s -> nth_error (d_workers s) i = Some w -> (length (w_todo w) < n)%nat ->
    exists acts s' w', steps load_file hash s acts = Ok s' /\ inv s' /\ d_next s' = d_next s /\ length (d_workers s') = length (d_workers s) /\ nth_error (d_workers s') i = Some w' /\ w_exit w' <> None.
  Proof.
    induction n as [|n IH]; intros s w I E LN; [lia|]. destruct (w_exit w) as [ex|] eqn:EX.
    - exists [], s, w. cbn. rewrite EX. split; [reflexivity|]. split; [exact I|]. split; [reflexivity|]. split; [reflexivity|]. split; [exact E|discriminate].
    - destruct (f2_nth _ _ _ (i_workers s I) i w E) as (l & EL & W).
      destruct (work_ok w l (incl_list i l EL) W) as (w' & EW & W' & MD & CASE). rewrite EX in CASE.
      destruct (step_inv s (Work i) I) as (s1 & ES & I1). pose proof ES as ES0. cbn [step] in ES0. rewrite E, EW in ES0. cbn [rbind] in ES0. injection ES0 as ES0.
      assert (N1 : nth_error (d_workers s1) i = Some w') by (subst s1; cbn; apply nth_error_upd_eq, nth_error_Some; congruence).
      assert (N2 : d_next s1 = d_next s) by (now subst s1). assert (N3 : length (d_workers s1) = length (d_workers s)) by (subst s1; cbn; apply upd_length).
      assert (DONE : w_exit w' <> None -> exists acts s' w', steps load_file hash s acts = Ok s' /\ inv s' /\ d_next s' = d_next s /\ length (d_workers s') = length (d_workers s) /\ nth_error (d_workers s') i = Some w' /\ w_exit w' <> None).
      { intros X. exists [Work i], s1, w'. cbn [steps]. rewrite ES. cbn [rbind]. auto 10. }
      destruct (w_todo w) as [|fn t] eqn:TD; [apply DONE; congruence|]. destruct CASE as [(C1 & C2)|C]; [|apply DONE; congruence].
      destruct (IH s1 w' I1 N1) as (acts & s2 & w2 & A & B & C & D & F & G); [rewrite C2; cbn in LN; lia|].
      exists (Work i :: acts), s2, w2. cbn [steps]. rewrite ES. cbn [rbind]. split; [exact A|]. split; [exact B|]. split; [congruence|]. split; [congruence|]. auto.
  Qed.
  Lemma steps_app x : forall s y s1, steps load_file hash s x = Ok s1 -> steps load_file hash s (x ++ y) = steps load_file hash s1 y.
  Proof. induction x as [|a x IH]; intros s y s1 H; cbn [app steps] in *; [congruence|]. destruct (step load_file hash s a) as [s2|]; [|discriminate]. cbn [rbind] in *. now apply IH. Qed.
  Lemma finish : forall n s, inv s -> (length (d_workers s) - d_next s <= n)%nat -> exists acts s', steps load_file hash s acts = Ok s' /\ inv s' /\ (length (d_workers s') <= d_next s')%nat.
  Proof.
    induction n as [|n IH]; intros s I LN; [exists [], s; cbn; split; [reflexivity|]; split; [exact I|lia]|].
    destruct (Nat.le_gt_cases (length (d_workers s)) (d_next s)) as [LE|GT]; [exists [], s; cbn; auto|].
    destruct (nth_error (d_workers s) (d_next s)) as [w|] eqn:E; [|apply nth_error_None in E; lia].
    destruct (finish_worker (d_next s) (S (length (w_todo w))) s w I E ltac:(lia)) as (acts & s1 & w1 & A & I1 & N1 & L1 & E1 & X1).
    destruct (step_inv s1 Join I1) as (s2 & ES & I2). pose proof ES as E2. cbn [step] in E2. rewrite N1, E1 in E2. destruct (w_exit w1) as [ex|] eqn:EX; [|congruence].
    cbn zeta in E2. destruct (negb (Nat.eqb _ 0)); [|discriminate]. cbn [rassert] in E2. destruct (harvest hash _ (d_tree s1) (d_failed s1 || ex) (d_merged s1) (d_gone s1)) as [(((t, fl), m), g)|]; [|discriminate]. cbn [rbind] in E2. injection E2 as E2.
    destruct (IH s2 I2) as (acts2 & s3 & B & I3 & L3).
    { subst s2. cbn. lia. }
    exists (acts ++ Join :: acts2), s3. split; [|auto]. rewrite (steps_app _ _ _ _ A). cbn [steps]. rewrite ES. exact B.
  Qed.
End Machine.
