(** A map's first load as a whole, and a plain sort for the examples. *)
From Verif Require Import Base NetModel NetSpec NetBits NetProofs NetProofs2 NetProofs3 NetProofs4 NetProofs5 NetProofs6.
From Coq Require Import Permutation Sorted.
Ltac Zify.zify_post_hook ::= idtac.

Lemma same_starts p ip : same (length p) ip p = true <-> starts ip p.
Proof.
  rewrite same_iff. rewrite (firstn_all p). split.
  - intros E. exists (skipn (length p) ip). rewrite <- E at 1. symmetry. apply firstn_skipn.
  - intros (r & ->). rewrite firstn_app, Nat.sub_diag, firstn_all. cbn. apply app_nil_r.
Qed.
Lemma issues_iff ip m : check_v4_issues ip m = true <-> exists p, In p v4_prefixes /\ 8 * length p <= m /\ starts ip p.
Proof.
  assert (G : forall p mk, mk = 8 * length p -> v6_subnet_of ip m p mk = true <-> 8 * length p <= m /\ starts ip p).
  { intros p mk ->. unfold v6_subnet_of. rewrite Nat.mul_comm, Nat.div_mul by lia. rewrite andb_true_iff, Nat.leb_le, same_starts. reflexivity. }
  assert (G2 : forall p q k mk, length p = k -> firstn k q = p -> mk = 8 * k -> v6_subnet_of ip m q mk = true <-> 8 * length p <= m /\ starts ip p).
  { intros p q k mk LP EQ EM. rewrite <- (G p mk) by congruence. unfold v6_subnet_of. rewrite EM. replace (8 * k / 8) with k by (rewrite Nat.mul_comm, Nat.div_mul; lia).
    rewrite !andb_true_iff, !same_iff. assert (EK : firstn k p = firstn k q) by (rewrite <- EQ, firstn_firstn; f_equal; lia). rewrite EK. tauto. }
  unfold check_v4_issues. rewrite !orb_true_iff.
  rewrite (G2 (repeat 0 10 ++ [255; 255])%N start_v4mapped 12 96) by reflexivity.
  rewrite (G2 (repeat 0 8 ++ [255; 255; 0; 0])%N start_siit 12 96) by reflexivity.
  rewrite (G2 ([0; 100; 255; 155] ++ repeat 0 8)%N start_wkp 12 96) by reflexivity.
  rewrite (G2 [32; 1; 0; 0]%N start_teredo 4 32) by reflexivity.
  rewrite (G2 [32; 2]%N start_6to4 2 16) by reflexivity. unfold v4_prefixes. split.
  - intros [[[[H|H]|H]|H]|H]; eexists; (split; [|exact H]); cbn [In]; tauto.
  - intros (p & I & H). cbn [In] in I. destruct I as [<-|[<-|[<-|[<-|[<-|[]]]]]]; tauto.
Qed.
Lemma accepted_one c : accepted c -> nets_one c = Some (the_net c).
Proof.
  destruct c as [ip m d|ip m d]; cbn [accepted nets_one the_net].
  - intros H. destruct (Nat.ltb_spec 128 (m + 96)); [lia|]. now rewrite (Nat.add_comm m).
  - intros [H N]. destruct (Nat.ltb_spec 128 m); [lia|]. destruct (check_v4_issues ip m) eqn:E; [|reflexivity]. apply issues_iff in E. destruct E as (p & I & L & S). now apply N in S.
Qed.
Lemma one_accepted c n : nets_one c = Some n -> accepted c.
Proof.
  destruct c as [ip m d|ip m d]; cbn [accepted nets_one].
  - destruct (Nat.ltb_spec 128 (m + 96)); [discriminate|lia].
  - destruct (Nat.ltb_spec 128 m); [discriminate|]. destruct (check_v4_issues ip m) eqn:E; [discriminate|]. intros _. split; [lia|]. intros p I L S. apply not_true_iff_false in E. apply E, issues_iff. eauto.
Qed.
Lemma accepted_conf cfg : Forall accepted cfg -> conf_nets cfg = map the_net cfg.
Proof. unfold conf_nets. induction 1 as [|c cfg A F IH]; cbn [flat_map map]; [reflexivity|]. rewrite (accepted_one c A), IH. reflexivity. Qed.

Lemma db_bound rn gd (DC : forall off d, gd off = Some d -> (d < 2147483647)%N) : forall depth b node d, db_says rn gd depth b node = Some d -> (d < 2147483647)%N.
Proof.
  induction depth as [|nd IH]; intros b node d; cbn [db_says]; [discriminate|]. destruct (rn node) as [[z o]|]; [|discriminate]. destruct (if bit b (127 - nd) then o else z) as [n| |off|]; [apply IH|intros [= <-]; lia|apply DC|discriminate].
Qed.
Lemma canon_ips c : caddr_ok c -> is_ip (canon c).
Proof. apply canon_ip. Qed.

Definition tells (db : option geodb) (l : list net) (T : ntree) : Prop :=
  t_v4 T <> 0%N /\ forall c, caddr_ok c -> exists d k, lookup_inner T c = Ok (d, k) /\ answers db l (canon c) d /\ k <= 8 * length (raw c) /\
    forall c', caddr_ok c' -> same_family c c' -> share k (raw c) (raw c') -> lookup_inner T c' = Ok (d, k).

Lemma xlate_tells db l L :
  Forall wfn L -> dcs_ok L -> StronglySorted lt L ->
  (forall c, caddr_ok c -> (lm L 0 (bits (canon c)) < 2147483647)%N /\ answers db l (canon c) (lm L 0 (bits (canon c)))) ->
  (forall b, is_ip b -> special b -> lm L 0 (bits b) = NN_UNDEF) ->
  (xlate_tree {| l_nets := L; l_norm := true |} = UB /\ (2 ^ 24 < N.of_nat (1 + 127 * length L))%N) \/ exists T, xlate_tree {| l_nets := L; l_norm := true |} = Ok T /\ tells db l T.
Proof.
  intros W D S HA HS. destruct (xlate_ok L W D S) as [H|(st & v4 & t & c4 & t4 & E & H0 & NL & HH & HF & -> & H1 & HH4 & HF4)]; [left; exact H|right]. eexists. split; [exact E|]. split.
  - cbn [t_v4]. apply (child_nz _ _ _ _ H1). lia.
  - intros c HC. destruct (inner_ok {| t_store := st; t_v4 := c4 |} (lm L 0) t t4 H0 NL HH HF H1 HH4 HF4 HS (fun c HC => proj1 (HA c HC)) c HC) as (k & EK & LK & SK).
    exists (lm L 0 (bits (canon c))), k. split; [exact EK|]. split; [now apply HA|]. split; [exact LK|exact SK].
Qed.

Section Load.
  Variable sort : list net -> list net.
  Hypothesis SO : sort_ok sort.

  Theorem load_ok db cfg : Forall cnet_ok cfg -> Forall accepted cfg -> no_conflict (map the_net cfg) -> all_reached (map the_net cfg) ->
    (forall g, db = Some g -> db_fits g) ->
    (initial_load sort db cfg = UB /\ ~ fits db cfg) \/
    (initial_load sort db cfg = Ok None /\ exists g, db = Some g /\ ~ db_whole g) \/
    exists T, initial_load sort db cfg = Ok (Some (T, false)) /\ tells db (map the_net cfg) T.
  Proof.
    intros OK AC NC AR DF. unfold initial_load.
    assert (GEO : exists g, match db with None => Ok (Some None) | Some db => do o <- geo_list (g_node db) (g_dc db) sort (g_v4 db); Ok (match o with None => None | Some (g, _) => Some (Some g) end) end = Ok g /\
      match g, db with
      | None, Some db => ~ db_whole db
      | None, None => False
      | Some None, db => db = None
      | Some (Some g), None => False
      | Some (Some g), Some db => exists A, g = {| l_nets := A; l_norm := true |} /\ length A <= db_size (g_node db) (if g_v4 db then 32 else 128) 0 /\ Forall wfn A /\ StronglySorted lt A /\ dcs_ok A /\ (forall n m, In n A -> In m A -> ~ inside n m) /\
          forall b, is_ip b -> ~ special b -> geo_says (g_node db) (g_dc db) (g_v4 db) b (lm A 0 (bits b)) end).
    { destruct db as [db|]; [|exists (Some None); split; reflexivity]. destruct (geo_list_ok (g_node db) (g_dc db) (DF db eq_refl) sort (g_v4 db)) as (o & -> & H). cbn [rbind]. destruct o as [[g w]|].
      - exists (Some (Some g)). split; [reflexivity|]. apply H.
      - exists None. split; [reflexivity|]. intros DW. destruct H as (b & HB & E). now apply (DW b). }
    destruct GEO as (g & -> & HG). cbn [rbind]. destruct g as [geo|]; [|right; left; split; [reflexivity|]; destruct db as [db|]; [eauto|destruct HG]].
    rewrite <- (accepted_conf cfg AC) in *. destruct (make_list_ok sort SO cfg OK NC AR) as [(_ & c & IC & EC)|(L & LL & EL & FIN & DL & NK & HC & HU)].
    { exfalso. rewrite Forall_forall in AC. rewrite (accepted_one c (AC c IC)) in EC. discriminate. }
    rewrite EL. cbn [rbind]. pose proof FIN as (WL & SL & _).
    assert (BND : forall n, In n (conf_nets cfg) -> (n_dc n < 2147483647)%N) by (intros n I; eapply conf_in; eauto).
    destruct geo as [g|].
    - destruct db as [db|]; [|destruct HG]. destruct HG as (A & -> & LA & WA & SA & DA & PF & GS). unfold map_tree.
      destruct (merge_ok sort SO A L WA SA PF DA WL SL DL NK) as (M & -> & FM & DM & LM & HM). cbn [rbind]. pose proof FM as (WM & SM & _).
      assert (COV : forall x d, length x = 128 -> (exists n, In n L /\ pb (pre n) x = true) -> lm L d x = d -> forall d', lm L d' x = lm L d x) by (intros x d LX (n & I & P) _ d'; destruct (lm_top L x d (sorted_weak _ SL)) as [(m & TM & ->)|[NO _]]; [destruct (lm_top L x d' (sorted_weak _ SL)) as [(m' & TM' & ->)|[NO _]]; [f_equal; apply (sorted_unique L); auto; [apply TM'|apply TM|eapply top_unique; eauto]|rewrite NO in P by exact I; discriminate]|rewrite NO in P by exact I; discriminate]).
      destruct (xlate_tells (Some db) (conf_nets cfg) M WM DM SM) as [[E TB]|(T & E & HT)].
      + intros c HC'. specialize (HC c HC'). destruct (HM (bits (canon c)) 0%N (bits_len _)) as [[EX ->]|[NX ->]].
        * destruct HC as [(n & IN & CV & EN & MX & _)|[UN ID]].
          -- rewrite <- EN. split; [now apply BND|]. left. exists n. auto.
          -- exfalso. pose proof (COV (bits (canon c)) 0%N (bits_len _) EX (ID 0%N) 1%N) as X. rewrite !ID in X. discriminate.
        * destruct HC as [(n & IN & CV & EN & MX & AN)|[UN ID]].
          -- exfalso. assert (X : forall d, lm L d (bits (canon c)) = d) by (intros d; apply lm_none, Forall_forall; exact NX). pose proof (X (N.succ (n_dc n))) as Y. rewrite AN in Y. lia.
          -- assert (GC : geo_says (g_node db) (g_dc db) (g_v4 db) (canon c) (lm A 0 (bits (canon c)))) by (apply GS; [now apply canon_ip|now apply canon_plain]).
             split; [|right; split; [exact UN|exact GC]]. unfold geo_says in GC. destruct (g_v4 db); [destruct (same 12 (canon c) zeros)|]; try (eapply db_bound; [|exact GC]; exact (DF db eq_refl)). rewrite GC. lia.
      + intros b HB SP. destruct (HM (bits b) 0%N (bits_len _)) as [[EX ->]|[NX E]]; [now apply HU|]. exfalso. pose proof (HU b 0%N HB SP) as X. rewrite lm_none in X by (apply Forall_forall; exact NX). discriminate X.
      + left. rewrite E. split; [reflexivity|]. unfold fits. cbn iota. intros F. assert (X : 1 + 127 * length M <= 1 + 127 * (db_size (g_node db) (if g_v4 db then 32 else 128) 0 + length cfg + 5)) by lia. revert X TB F. generalize (1 + 127 * length M). intros u. match goal with |- u <= ?e -> _ => generalize e end. intros v. lia.
      + right. right. exists T. rewrite E. split; [reflexivity|exact HT].
    - subst db. unfold map_tree. destruct (xlate_tells None (conf_nets cfg) L WL DL SL) as [[E TB]|(T & E & HT)].
      + intros c HC'. destruct (HC c HC') as [(n & IN & CV & EN & MX & _)|[UN ID]].
        * rewrite <- EN. split; [now apply BND|]. left. exists n. auto.
        * rewrite ID. split; [lia|]. right. auto.
      + intros b HB SP. now apply HU.
      + left. rewrite E. split; [reflexivity|]. unfold fits. cbn iota. intros F. assert (X : 1 + 127 * length L <= 1 + 127 * (0 + length cfg + 5)) by lia. revert X TB F. generalize (1 + 127 * length L). intros u. match goal with |- u <= ?e -> _ => generalize e end. intros v. lia.
      + right. right. exists T. rewrite E. split; [reflexivity|exact HT].
  Qed.
End Load.

(** insertion sort *)
Definition net_leb (a b : net) : bool := match net_sorter a b with Gt => false | _ => true end.
Fixpoint insert (n : net) (l : list net) : list net :=
  match l with [] => [n] | m :: t => if net_leb n m then n :: m :: t else m :: insert n t end.
Definition isort (l : list net) : list net := fold_right insert [] l.
Lemma bcmp_anti : forall a b, bytes_cmp b a = CompOpp (bytes_cmp a b).
Proof. induction a as [|x a IH]; destruct b as [|y b]; cbn; auto. rewrite (N.compare_antisym x y). destruct (N.compare x y); cbn; auto. Qed.
Lemma bcmp_eq : forall a b, bytes_cmp a b = Eq -> a = b.
Proof. induction a as [|x a IH]; destruct b as [|y b]; cbn; try discriminate; auto. destruct (N.compare x y) eqn:C; try discriminate. apply N.compare_eq in C. intros H. f_equal; auto. Qed.
Lemma bcmp_lt : forall a b c, bytes_cmp a b = Lt -> bytes_cmp b c = Lt -> bytes_cmp a c = Lt.
Proof.
  induction a as [|x a IH]; destruct b as [|y b], c as [|z c]; cbn; try discriminate; auto.
  destruct (N.compare x y) eqn:C; try discriminate; destruct (N.compare y z) eqn:C'; try discriminate.
  - apply N.compare_eq in C, C'. subst. rewrite N.compare_refl. apply IH.
  - apply N.compare_eq in C. subst. now rewrite C'.
  - apply N.compare_eq in C'. subst. now rewrite C.
  - intros _ _. rewrite N.compare_lt_iff in C, C'. assert (x < z)%N by lia. now apply N.compare_lt_iff in H as ->.
Qed.
Lemma net_le_trans a b c : net_le a b -> net_le b c -> net_le a c.
Proof.
  unfold net_le, net_sorter. destruct (bytes_cmp (n_ip a) (n_ip b)) eqn:E1; try (intros X; now elim X); destruct (bytes_cmp (n_ip b) (n_ip c)) eqn:E2; try (intros _ X; now elim X).
  - apply bcmp_eq in E1, E2. rewrite E1, E2. assert (R : bytes_cmp (n_ip c) (n_ip c) = Eq) by (clear; induction (n_ip c); cbn; [reflexivity|now rewrite N.compare_refl]). rewrite R. rewrite !Nat.compare_le_iff. lia.
  - apply bcmp_eq in E1. rewrite E1, E2. congruence.
  - apply bcmp_eq in E2. rewrite <- E2, E1. congruence.
  - rewrite (bcmp_lt _ _ _ E1 E2). congruence.
Qed.
Lemma net_leb_total a b : net_leb a b = false -> net_le b a.
Proof.
  unfold net_leb, net_le, net_sorter. rewrite (bcmp_anti (n_ip a) (n_ip b)). destruct (bytes_cmp (n_ip a) (n_ip b)); cbn; try discriminate; try congruence. rewrite (Nat.compare_antisym (n_mask a) (n_mask b)). destruct (n_mask a ?= n_mask b); cbn; congruence.
Qed.
Lemma isort_ok : sort_ok isort.
Proof.
  intros l. induction l as [|n l [P S]]; [split; constructor|]. unfold isort. cbn [fold_right]. fold (isort l). revert P S. generalize (isort l). clear. intros s P S. split.
  - rewrite <- P. clear P S. induction s as [|m s IH]; cbn; [reflexivity|]. destruct (net_leb n m); [reflexivity|]. rewrite IH. constructor.
  - clear P. induction S as [|m s S IH F]; cbn; [repeat constructor|]. destruct (net_leb n m) eqn:E.
    + constructor; [constructor; auto|]. assert (H : net_le n m) by (unfold net_le; unfold net_leb in E; destruct (net_sorter n m); congruence). constructor; [exact H|]. rewrite Forall_forall in *. intros k I. eapply net_le_trans; eauto.
    + constructor; [exact IH|]. apply net_leb_total in E. clear IH. revert F. clear - E. induction s as [|k s IH]; intros F; cbn; [constructor; auto|]. inversion F; subst. destruct (net_leb n k); constructor; auto.
Qed.
