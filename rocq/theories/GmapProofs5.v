(** What clients get from a map without a database *)
From Coq Require Import ZArith String.
From Verif Require Import Base CompModel CompProofs DnameModel RespModel MonModel VscfModel VscfSpec OptModel VhashModel VhashSpec VhashProofs2 PlugModel MsgModel LtreeModel PconfModel PconfSpec PconfProofs2 PconfProofs3 McfModel McfSpec McfProofs GmapModel GmapSpec GmapProofs GmapProofs2 GmapProofs4.
From Verif Require LocModel LocSpec LocProofs LocProofs2 NetModel NetSpec NetProps.
Local Open Scope list_scope.
Local Open Scope nat_scope.
Local Notation length := List.length.
Ltac Zify.zify_post_hook ::= idtac.

Lemma f2_l {A B} (R : A -> B -> Prop) l l' : Forall2 R l l' -> forall a, In a l -> exists b, In b l' /\ R a b.
Proof. induction 1 as [|x y l l' H F IH]; intros a I; [destruct I|]. destruct I as [<-|I]; [exists y; cbn; auto|]. destruct (IH a I) as (b & IB & R'). exists b. cbn; auto. Qed.
Lemma f2_r {A B} (R : A -> B -> Prop) l l' : Forall2 R l l' -> forall b, In b l' -> exists a, In a l /\ R a b.
Proof. induction 1 as [|x y l l' H F IH]; intros a I; [destruct I|]. destruct I as [<-|I]; [exists x; cbn; auto|]. destruct (IH a I) as (b & IB & R'). exists b. cbn; auto. Qed.
Lemma f2_len {A B} (R : A -> B -> Prop) l l' : Forall2 R l l' -> length l = length l'.
Proof. induction 1; cbn; congruence. Qed.

Lemma line_same a n j : NetModel.n_ip (NetSpec.the_net (cnet_for a n j)) = NetModel.n_ip (NetSpec.the_net (cnet_for a n 0)) /\ NetModel.n_mask (NetSpec.the_net (cnet_for a n j)) = NetModel.n_mask (NetSpec.the_net (cnet_for a n 0)) /\ NetModel.n_dc (NetSpec.the_net (cnet_for a n j)) = N.of_nat j.
Proof. destruct a; auto. Qed.

Section Lookup.
  Variable names : list bytes.
  Variable d : LocModel.dclists.
  Hypothesis D0 : nth_error d 0 = Some (seq 1 (length names)).
  Variable l : list net_want.
  Variable cs : list NetModel.cnet.
  Hypothesis LE : Forall2 (leads names d) l cs.
  Hypothesis AO : Forall (fun w => addr_ok (fst (fst w)) /\ prefix_ok (fst (fst w)) (snd (fst w)) = true) l.
  Hypothesis AG : agreed l.
  Hypothesis AR : NetSpec.all_reached (map line_net l).
  Hypothesis FI : (N.of_nat (1 + 127 * (length l + 5)) <= 2 ^ 24)%N.
  Hypothesis SM : (N.of_nat (length d) < 2147483647)%N.

  Lemma leads_net w c : leads names d w c -> NetModel.n_ip (NetSpec.the_net c) = NetModel.n_ip (line_net w) /\ NetModel.n_mask (NetSpec.the_net c) = NetModel.n_mask (line_net w) /\
    exists j ns, NetModel.n_dc (NetSpec.the_net c) = N.of_nat j /\ nth_error d j = Some ns /\ (forall k, k < j -> nth_error d k <> Some ns) /\ Forall2 (numbered names) (snd w) ns.
  Proof. intros (j & ns & -> & EN & FS & F). destruct (line_same (fst (fst w)) (snd (fst w)) j) as (E1 & E2 & E3). unfold line_net. split; [exact E1|]. split; [exact E2|]. exists j, ns. auto. Qed.
  Lemma same_covers w c x : leads names d w c -> NetSpec.covers (NetSpec.the_net c) x <-> NetSpec.covers (line_net w) x.
  Proof. intros H. apply leads_net in H as (E1 & E2 & _). unfold NetSpec.covers. rewrite E1, E2. reflexivity. Qed.

  Lemma numbers_det ws a b : Forall2 (numbered names) ws a -> Forall2 (numbered names) ws b -> a = b.
  Proof.
    intros F. revert b. induction F as [|n i ws a (L & E & M) F IH]; intros b G; inversion G as [|? i' ? b' (L' & E' & M') G']; subst; [reflexivity|]. f_equal; [|auto].
    destruct (Nat.lt_trichotomy (i - 1) (i' - 1)) as [X|[X|X]]; [now apply M' in X|lia|now apply M in X].
  Qed.
  Lemma conf_ok : Forall NetSpec.cnet_ok cs.
  Proof.
    apply Forall_forall. intros c I. destruct (f2_r _ _ _ LE c I) as (w & IW & (j & ns & -> & EN & _)). rewrite Forall_forall in AO. destruct (AO w IW) as (A & _).
    assert (J : (N.of_nat j < 2147483647)%N) by (assert (j < length d) by (apply nth_error_Some; congruence); clear - SM H; lia).
    destruct (fst (fst w)) as [b|b]; cbn [cnet_for NetSpec.cnet_ok addr_ok] in *; [tauto|]. split; [split; apply A|exact J].
  Qed.
  Lemma conf_accepted : Forall NetSpec.accepted cs.
  Proof. apply Forall_forall. intros c I. destruct (f2_r _ _ _ LE c I) as (w & IW & (j & ns & -> & EN & _)). rewrite Forall_forall in AO. apply prefix_accepted. now apply AO. Qed.
  Lemma conf_agreed : NetSpec.no_conflict (map NetSpec.the_net cs).
  Proof.
    intros a b IA IB EM S. apply in_map_iff in IA as (ca & <- & IA). apply in_map_iff in IB as (cb & <- & IB). destruct (f2_r _ _ _ LE ca IA) as (wa & IWA & LA). destruct (f2_r _ _ _ LE cb IB) as (wb & IWB & LB).
    destruct (leads_net wa ca LA) as (EA1 & EA2 & ja & na & -> & NA & MA & FA). destruct (leads_net wb cb LB) as (EB1 & EB2 & jb & nb & -> & NB & MB & FB).
    assert (E : snd wa = snd wb). { apply AG; auto; [congruence|]. rewrite EA1, EA2, EB1 in S. exact S. }
    rewrite E in FA. pose proof (numbers_det _ _ _ FA FB) as EQ. subst na. f_equal. destruct (Nat.lt_trichotomy ja jb) as [X|[X|X]]; [exfalso; now apply (MB ja X)|exact X|exfalso; now apply (MA jb X)].
  Qed.
  Lemma conf_reached : NetSpec.all_reached (map NetSpec.the_net cs).
  Proof.
    intros n I. apply in_map_iff in I as (c & <- & I). destruct (f2_r _ _ _ LE c I) as (w & IW & LW). destruct (AR (line_net w) (in_map _ _ _ IW)) as (a & CA & CV & MX). exists a. split; [exact CA|]. split; [now apply (same_covers w c)|].
    intros n' I' CV'. apply in_map_iff in I' as (c' & <- & I'). destruct (f2_r _ _ _ LE c' I') as (w' & IW' & LW'). destruct (leads_net w c LW) as (_ & -> & _). destruct (leads_net w' c' LW') as (_ & -> & _). apply MX; [now apply in_map|]. now apply (same_covers w' c').
  Qed.

  Variable sort : list NetModel.net -> list NetModel.net.
  Hypothesis SO : NetSpec.sort_ok sort.
  Variables (nl : NetModel.nlist) (b : bool).
  Hypothesis MK : NetModel.nets_make_list sort cs = Ok (Some (nl, b)).

  Lemma all_numbered : Forall2 (fun n i => 1 <= i /\ nth_error names (i - 1) = Some n) names (seq 1 (length names)).
  Proof.
    assert (G : forall pre ns, names = pre ++ ns -> Forall2 (fun n i => 1 <= i /\ nth_error names (i - 1) = Some n) ns (seq (S (length pre)) (length ns))).
    { intros pre ns. revert pre. induction ns as [|n ns IH]; intros pre E; cbn [length seq]; constructor.
      - split; [lia|]. rewrite E. cbn [Nat.sub]. rewrite Nat.sub_0_r, nth_error_app2, Nat.sub_diag by (apply le_n). reflexivity.
      - specialize (IH (pre ++ [n])). rewrite app_length in IH. cbn [length] in IH. rewrite Nat.add_1_r in IH. apply IH. rewrite <- app_assoc. exact E. }
    apply (G [] names eq_refl).
  Qed.
  Theorem tree_says : b = false /\ exists T, NetModel.xlate_tree nl = Ok T /\ forall cl ign, NetSpec.client_ok cl -> exists ds k ns,
    (do (n, scope) <- NetModel.ntree_lookup T cl ign ; match nth_error d (N.to_nat n) with Some l => Ok (l, scope) | None => UB end) = Ok (ds, k) /\
    names_for names l (NetSpec.canon (NetSpec.known_by cl ign)) ns /\ Forall2 (fun n i => 1 <= i /\ nth_error names (i - 1) = Some n) ns ds.
  Proof.
    assert (FI' : NetSpec.fits None cs) by (unfold NetSpec.fits; rewrite <- (f2_len _ _ _ LE); exact FI).
    destruct (NetProps.C17_longest_network_wins sort cs SO conf_ok conf_accepted conf_agreed conf_reached FI') as (T & EI & TL).
    unfold NetModel.initial_load in EI. cbn [rbind] in EI. rewrite MK in EI. cbn [rbind] in EI. unfold NetModel.map_tree in EI. destruct (NetModel.xlate_tree nl) as [T'|]; cbn [rbind] in EI; [|discriminate].
    injection EI as -> EB. apply orb_false_iff in EB as (-> & _). split; [reflexivity|]. exists T. split; [reflexivity|]. intros cl ign CO. destruct (TL cl ign CO) as (n & k & -> & M). cbn [rbind].
    destruct M as [(net & I & CV & EN & MX)|(UN & ->)].
    - apply in_map_iff in I as (c & <- & I). destruct (f2_r _ _ _ LE c I) as (w & IW & LW). destruct (leads_net w c LW) as (E1 & E2 & j & ns & ED & NE & _ & F). rewrite <- EN, ED, Nat2N.id, NE. exists ns, k, (snd w). split; [reflexivity|]. split.
      + left. exists w. split; [exact IW|]. split; [now apply (same_covers w c)|]. split; [reflexivity|]. intros w' IW' CV'. destruct (f2_l _ _ _ LE w' IW') as (c' & IC' & LW'). destruct (leads_net w' c' LW') as (_ & EM' & _). rewrite <- EM', <- E2. apply MX; [now apply in_map|]. now apply (same_covers w' c').
      + clear - F. induction F as [|n i ws is (L & E & _) F IH]; constructor; auto.
    - change (N.to_nat 0) with 0. rewrite D0. exists (seq 1 (length names)), k, names. split; [reflexivity|]. split; [|exact all_numbered]. right. split; [|reflexivity]. intros w IW CV. destruct (f2_l _ _ _ LE w IW) as (c & IC & LW). apply (UN (NetSpec.the_net c)); [now apply in_map|]. now apply (same_covers w c).
  Qed.
End Lookup.
