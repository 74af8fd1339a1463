(** The list made from the database. *)
From Verif Require Import Base NetModel NetSpec NetBits NetProofs NetProofs2 NetProofs3 NetProofs4 NetProofs5.
From Coq Require Import Permutation Sorted.
Ltac Zify.zify_post_hook ::= idtac.

(** disjoint, and in order *)
Definition dis (p q : list bool) : Prop := exists c s t, p = c ++ false :: s /\ q = c ++ true :: t.
Definition disn (a b : net) : Prop := dis (pre a) (pre b).
Lemma dis_lt p q : dis p q -> lex p q = Lt.
Proof. intros (c & s & t & -> & ->). rewrite lex_app, lex_refl by reflexivity. reflexivity. Qed.
Lemma dis_pb p q : dis p q -> pb p q = false.
Proof.
  intros (c & s & t & -> & ->). apply not_true_iff_false. intros P. change (false :: s) with ([false] ++ s) in P. rewrite app_assoc in P. apply pb_app_l in P. rewrite pb_snoc in P. discriminate.
Qed.
Lemma dis_app_r p q s : dis p q -> dis p (q ++ s).
Proof. intros (c & a & b & -> & ->). exists c, a, (b ++ s). split; [reflexivity|]. now rewrite <- app_assoc. Qed.
Lemma dis_app_l p q s : dis p q -> dis (p ++ s) q.
Proof. intros (c & a & b & -> & ->). exists c, (a ++ s), b. split; [now rewrite <- app_assoc|reflexivity]. Qed.
Lemma dis_halves p : dis (p ++ [false]) (p ++ [true]).
Proof. exists p, [], []. auto. Qed.
Lemma snoc_cases {A} (l : list A) : l = [] \/ exists l' a, l = l' ++ [a].
Proof. destruct l as [|a l'] using rev_ind; eauto. Qed.
Lemma dis_parent_r n p : dis n (p ++ [false]) -> dis n p.
Proof.
  intros (c & s & t & -> & E). destruct (snoc_cases t) as [->|(t' & z & ->)]; [apply app_inj_tail in E; destruct E; discriminate|].
  rewrite app_comm_cons, app_assoc in E. apply app_inj_tail in E. destruct E as [-> _]. exists c, s, t'. auto.
Qed.
Lemma dis_parent_l p r : dis (p ++ [false]) r -> dis (p ++ [true]) r -> dis p r.
Proof.
  intros (c & s & t & E & ->) D. destruct (snoc_cases s) as [->|(s' & z & ->)].
  - apply app_inj_tail in E. destruct E as [-> _]. apply dis_pb in D. rewrite pb_snoc in D. discriminate.
  - rewrite app_comm_cons, app_assoc in E. apply app_inj_tail in E. destruct E as [-> _]. exists c, s', t. auto.
Qed.
Lemma dis_out p q x : dis p q -> pb p x = true -> pb q x = false.
Proof.
  intros (c & s & t & -> & ->) P. apply pb_iff in P. destruct P as (u & ->). rewrite <- app_assoc. cbn [app]. change (true :: t) with ([true] ++ t). rewrite app_assoc. apply not_true_iff_false. intros Q. apply pb_app_l in Q. rewrite pb_snoc in Q. discriminate.
Qed.

Lemma ssnoc {R : net -> net -> Prop} l a : StronglySorted R l -> (forall k, In k l -> R k a) -> StronglySorted R (l ++ [a]).
Proof.
  induction 1 as [|b l S IH F]; intros H; cbn; [repeat constructor|]. constructor; [apply IH; intros k I; apply H; cbn; auto|]. apply Forall_app. split; [exact F|]. constructor; [apply H; cbn; auto|constructor].
Qed.
Lemma ssnoc_inv {R : net -> net -> Prop} l a : StronglySorted R (l ++ [a]) -> forall k, In k l -> R k a.
Proof.
  induction l as [|b l IH]; intros S k I; [destruct I|]. cbn in S. apply StronglySorted_inv in S. destruct S as [S F]. destruct I as [<-|I]; [|auto]. rewrite Forall_forall in F. apply F, in_app_iff. cbn. auto.
Qed.

Lemma merge_back_ok P : forall rl nb, Forall wfn rl -> wfn nb -> StronglySorted disn (rev rl) -> (forall n, In n rl -> disn n nb) -> Forall (fun n => P (n_dc n)) (nb :: rl) -> exists out,
  merge_back nb rl = Ok out /\ length out <= S (length rl) /\ Forall wfn out /\ StronglySorted disn (rev out) /\ Forall (fun n => P (n_dc n)) out /\
  (forall d x, length x = 128 -> lm (rev out) d x = lm (rev rl ++ [nb]) d x) /\
  (forall r, (forall n, In n rl -> dis (pre n) r) -> dis (pre nb) r -> forall n, In n out -> dis (pre n) r).
Proof.
  induction rl as [|na rl IH]; intros nb W WN S D HP; cbn [merge_back].
  - exists [nb]. split; [reflexivity|]. split; [cbn; lia|]. split; [auto|]. split; [repeat constructor|]. split; [exact HP|]. split; [reflexivity|]. intros r _ DR n [<-|[]]. exact DR.
  - inversion W as [|? ? WA WR]; subst. pose proof (D na ltac:(cbn; auto)) as DN. destruct (mergeable_pre na nb WA WN (dis_lt _ _ DN)) as (m & -> & HT & HF). cbn [rbind]. cbn [rev] in S.
    inversion HP as [|? ? PB PR]; subst. inversion PR as [|? ? PA PR']; subst. destruct m.
    + destruct (HT eq_refl) as [WW KN]. pose proof KN as (ED & [[Q _]|(p & E1 & E2 & E)]); [apply dis_pb in DN; congruence|]. set (w := absorb na nb) in *.
      destruct (IH w WR WW (sorted_app_l _ _ S)) as (out & -> & LO & WO & SO & PO & LM & DR).
      { intros n I. unfold disn. rewrite E. apply dis_parent_r. rewrite <- E1. apply (ssnoc_inv _ _ S). now apply in_rev in I. }
      { constructor; auto. }
      exists out. split; [reflexivity|]. split; [cbn [length]; lia|]. split; [exact WO|]. split; [exact SO|]. split; [exact PO|]. split.
      * intros d x LX. rewrite LM by exact LX. cbn [rev]. rewrite !lm_app. change (lm [nb] (lm [na] (lm (rev rl) d x) x) x) with (lm [na; nb] (lm (rev rl) d x) x). symmetry. apply lm_kin; [exact KN|]. rewrite LX, pre_len by exact WA. apply WA.
      * intros r H1 H2. apply DR; [intros n I; apply H1; cbn; auto|]. rewrite E. apply dis_parent_l; [rewrite <- E1; apply H1; cbn; auto|rewrite <- E2; exact H2].
    + exists (nb :: na :: rl). split; [reflexivity|]. split; [cbn; lia|]. split; [constructor; auto|]. split; [|split; [exact HP|split; [reflexivity|]]].
      * change (rev (nb :: na :: rl)) with (rev (na :: rl) ++ [nb]). apply ssnoc; [exact S|]. intros k I. apply D. now apply in_rev.
      * intros r H1 H2 n [<-|I]; auto.
Qed.

Lemma append_norm P l n : Forall wfn l -> wfn n -> StronglySorted disn l -> (forall k, In k l -> disn k n) -> Forall (fun n => P (n_dc n)) (n :: l) -> exists L,
  nlist_append {| l_nets := l; l_norm := true |} (n_ip n) (n_mask n) (n_dc n) = Ok {| l_nets := L; l_norm := true |} /\ length L <= S (length l) /\ Forall wfn L /\ StronglySorted disn L /\ Forall (fun n => P (n_dc n)) L /\
  (forall d x, length x = 128 -> lm L d x = lm (l ++ [n]) d x) /\ (forall r, (forall k, In k l -> dis (pre k) r) -> dis (pre n) r -> forall k, In k L -> dis (pre k) r).
Proof.
  intros W WN S D HP. pose proof WN as (HI & HM & _). unfold nlist_append. destruct (clear_clean n HI HM) as (ip' & E & C). rewrite E. cbn [rbind l_norm l_nets].
  assert (EI : ip' = n_ip n). { destruct C as (W' & EM & ED & EP). pose proof (rec_eq _ n W' WN EP ED) as X. apply (f_equal n_ip) in X. exact X. } subst ip'.
  assert (ME : mem_eq (n_ip n) (n_ip n) = true) by now apply mem_eq_iff. rewrite ME. cbn [rassert].
  assert (EN : {| n_ip := n_ip n; n_mask := n_mask n; n_dc := n_dc n |} = n) by now destruct n. rewrite EN.
  destruct (merge_back_ok P (rev l) n) as (out & -> & LO & WO & SO & PO & LM & DR); auto.
  - apply Forall_rev. exact W.
  - now rewrite rev_involutive.
  - intros k I. apply D. now apply in_rev.
  - inversion HP; subst. constructor; [assumption|]. now apply Forall_rev.
  - cbn [rbind]. exists (rev out). split; [reflexivity|]. split; [rewrite rev_length in *; exact LO|]. split; [now apply Forall_rev|]. split; [exact SO|]. split; [now apply Forall_rev|]. rewrite rev_involutive in LM. split; [exact LM|].
    intros r H1 H2 k I. apply in_rev in I. apply (DR r); auto. intros k' I'. apply H1. now apply in_rev.
Qed.

Section Geo.
  Variable read_node : N -> option (mrec * mrec).
  Variable get_dc : N -> option N.
  Hypothesis DC : forall off d, get_dc off = Some d -> (d < 2147483647)%N.

  Definition rec_says (nd : nat) (b : bytes) (r : mrec) : option N :=
    match r with RNode n => db_says read_node get_dc nd b n | REmpty => Some 0%N | RData off => get_dc off | RBad => None end.
  Definition good (l : list net) (p : list bool) (sz : nat) (says : bytes -> option N) (o : option nlist) : Prop :=
    match o with
    | None => exists b, is_ip b /\ pb p (bits b) = true /\ says b = None
    | Some l' => exists L, l' = {| l_nets := L; l_norm := true |} /\ length L <= length l + sz /\ Forall wfn L /\ StronglySorted disn L /\ dcs_ok L /\
        (forall r, (forall n, In n l -> dis (pre n) r) -> dis p r -> forall n, In n L -> dis (pre n) r) /\
        (forall x d, length x = 128 -> pb p x = false -> lm L d x = lm l d x) /\
        (forall b d, is_ip b -> pb p (bits b) = true -> ~ special b -> says b = Some (lm L d (bits b)))
    end.
  Definition ready (l : list net) (ip : bytes) (p : list bool) (depth : nat) : Prop :=
    is_ip ip /\ length p + depth = 128 /\ bits ip = p ++ repeat false depth /\ Forall wfn l /\ StronglySorted disn l /\ dcs_ok l /\ forall n, In n l -> dis (pre n) p.

  Lemma add_ok l ip p nd d : ready l ip p nd -> (d < 2147483647)%N -> exists L,
    nlist_append {| l_nets := l; l_norm := true |} ip (128 - nd) d = Ok {| l_nets := L; l_norm := true |} /\ good l p 1 (fun _ => Some d) (Some {| l_nets := L; l_norm := true |}).
  Proof.
    intros (HI & LP & EB & W & S & DO & DP) HD. set (n := {| n_ip := ip; n_mask := 128 - nd; n_dc := d |}).
    assert (EP : pre n = p). { unfold pre, n. cbn [n_mask n_ip]. rewrite EB. replace (128 - nd) with (length p) by lia. rewrite firstn_app, Nat.sub_diag, firstn_all. cbn. apply app_nil_r. }
    assert (WN : wfn n). { split; [exact HI|]. split; [unfold n; cbn [n_mask]; lia|]. rewrite EP. unfold n. cbn [n_ip n_mask]. rewrite EB. do 2 f_equal. lia. }
    destruct (append_norm dcok l n W WN S) as (L & E & LL & WL & SL & DL & LM & DR). { intros k I. unfold disn. rewrite EP. auto. } { constructor; [left; exact HD|exact DO]. }
    exists L. split; [exact E|]. exists L. split; [reflexivity|]. split; [lia|]. split; [exact WL|]. split; [exact SL|]. split; [exact DL|]. rewrite EP in DR. split; [exact DR|]. split.
    - intros x d' LX NP. rewrite LM, lm_app by exact LX. unfold lm at 1. cbn [fold_left]. now rewrite EP, NP.
    - intros b d' HB PB _. rewrite LM, lm_app by apply bits_len. unfold lm at 1. cbn [fold_left]. rewrite EP, PB. reflexivity.
  Qed.

  Lemma walk_ok : forall depth l ip node p, ready l ip p depth ->
    exists o, geo_walk read_node get_dc depth {| l_nets := l; l_norm := true |} ip node = Ok o /\ good l p (db_size read_node depth node) (fun b => db_says read_node get_dc depth b node) o.
  Proof.
    induction depth as [|nd IH]; intros l ip node p R; pose proof R as (HI & LP & EB & W & S & DO & DP); [exists None; split; [reflexivity|]; exists ip; split; [exact HI|]; split; [rewrite EB; apply pb_app|reflexivity]|].
    cbn [geo_walk]. set (skip := (_ || _ || _)%bool). destruct skip eqn:SK.
    - (* left out *)
      exists (Some {| l_nets := l; l_norm := true |}). split; [reflexivity|]. exists l. split; [reflexivity|]. split; [lia|]. split; [exact W|]. split; [exact S|]. split; [exact DO|]. split; [auto|]. split; [reflexivity|].
      intros b d HB PB NS. exfalso. apply NS. assert (PRE : forall k, length p = 8 * k -> firstn k b = firstn k ip).
      { intros k EK. apply firstn_bits_8; auto. rewrite <- EK. apply pb_firstn in PB. rewrite PB, EB. rewrite firstn_app, Nat.sub_diag, firstn_all. cbn. now rewrite app_nil_r. }
      assert (SM : forall k st, length p = 8 * k -> same k ip st = true -> same k b st = true) by (intros k st EK H; apply same_iff in H; apply same_iff; rewrite (PRE k EK); exact H).
      unfold skip in SK. apply orb_prop in SK. destruct SK as [SK|SK]; [apply orb_prop in SK; destruct SK as [SK|SK]|]; apply andb_prop in SK; destruct SK as [ED SK]; apply Nat.eqb_eq in ED; unfold special.
      + apply orb_prop in SK. destruct SK as [SK|SK]; [apply orb_prop in SK; destruct SK as [SK|SK]|]; apply (SM 12) in SK; try lia; auto.
      + apply (SM 4) in SK; try lia. auto.
      + apply (SM 2) in SK; try lia. auto.
    - clear skip SK. destruct (read_node node) as [[lr rr]|] eqn:RN; [|exists None; split; [reflexivity|]; exists ip; split; [exact HI|]; split; [rewrite EB; apply pb_app|cbn [db_says]; now rewrite RN]]. cbn zeta.
      assert (SIDE : forall l ip q r, ready l ip q nd -> exists o,
        match r with RNode n => geo_walk read_node get_dc nd {| l_nets := l; l_norm := true |} ip n | REmpty => do l <- nlist_append {| l_nets := l; l_norm := true |} ip (128 - nd) 0; Ok (Some l)
        | RData off => match get_dc off with None => Ok None | Some d => do l <- nlist_append {| l_nets := l; l_norm := true |} ip (128 - nd) d; Ok (Some l) end | RBad => Ok None end = Ok o /\ good l q (match r with RNode n => db_size read_node nd n | _ => 1 end) (fun b => rec_says nd b r) o).
      { clear - IH DC. intros l ip q r R. destruct r as [n| |off|]; cbn [rec_says].
        - apply IH. exact R.
        - destruct (add_ok l ip q nd 0 R ltac:(lia)) as (L & -> & G). cbn [rbind]. eauto.
        - destruct (get_dc off) as [d|] eqn:ED; [|exists None; split; [reflexivity|]; exists ip; destruct R as (HI & _ & EB & _); split; [exact HI|]; split; [rewrite EB; apply pb_app|reflexivity]]. destruct (add_ok l ip q nd d R (DC _ _ ED)) as (L & -> & G). cbn [rbind]. eauto.
        - exists None; split; [reflexivity|]; exists ip; destruct R as (HI & _ & EB & _); split; [exact HI|]; split; [rewrite EB; apply pb_app|reflexivity]. }
      assert (HALF : forall lr' rr' (c : bool) l' sz sz', read_node node = Some (lr', rr') -> good l' (p ++ [c]) sz (fun b => rec_says nd b (if c then rr' else lr')) None -> good l p sz' (fun b => db_says read_node get_dc (Datatypes.S nd) b node) None).
      { intros lr' rr' c l' sz sz' RN' (b & HB & PB & SB). exists b. split; [exact HB|]. split; [now apply pb_app_l in PB|]. cbn [db_says]. rewrite RN'. apply pb_iff in PB. destruct PB as (u & EU).
        assert (EC : bit b (127 - nd) = c). { rewrite <- nth_bits by lia. rewrite EU. replace (127 - nd) with (length p) by lia. rewrite <- app_assoc, app_nth2 by lia. now rewrite Nat.sub_diag. }
        rewrite EC. destruct c; exact SB. }
      assert (R0 : ready l ip (p ++ [false]) nd).
      { split; [exact HI|]. split; [rewrite app_length; cbn; lia|]. split; [rewrite EB, <- app_assoc; reflexivity|]. repeat (split; [assumption|]). intros n I. apply dis_app_r. auto. }
      destruct (SIDE l ip (p ++ [false]) lr R0) as (o & EL & GL). rewrite EL. cbn [rbind]. destruct o as [l1|]; [|exists None; split; [reflexivity|]; apply (HALF lr rr false _ _ _ RN GL)].
      destruct GL as (L1 & -> & LL1 & W1 & S1 & D1 & DR1 & OUT1 & IN1).
      replace (128 - nd - 1) with (length p) by lia. destruct (set_bits ip (length p) HI ltac:(lia)) as (ip1 & -> & HI1 & EB1). cbn [rbind].
      assert (R1 : ready L1 ip1 (p ++ [true]) nd).
      { split; [exact HI1|]. split; [rewrite app_length; cbn; lia|]. split.
        - rewrite EB1, EB. cbn [repeat]. rewrite <- app_assoc. cbn [app]. clear. induction p as [|c p IHp]; cbn; [reflexivity|]. now rewrite IHp.
        - repeat (split; [assumption|]). intros n I. apply (DR1 (p ++ [true])); auto; [intros k K; apply dis_app_r; auto|apply dis_halves]. }
      destruct (SIDE L1 ip1 (p ++ [true]) rr R1) as (o & ER & GR). rewrite ER. exists o. split; [reflexivity|]. destruct o as [l2|]; [|apply (HALF lr rr true _ _ _ RN GR)]. destruct GR as (L2 & -> & LL2 & W2 & S2 & D2 & DR2 & OUT2 & IN2).
      exists L2. split; [reflexivity|]. split; [cbn [db_size]; rewrite RN; lia|]. split; [exact W2|]. split; [exact S2|]. split; [exact D2|]. split; [|split].
      + intros r H1 H2. apply (DR2 r); [apply (DR1 r); auto; now apply dis_app_l|now apply dis_app_l].
      + intros x d LX NP. assert (NP' : forall c, pb (p ++ [c]) x = false) by (intros c; apply not_true_iff_false; intros Q; apply pb_app_l in Q; congruence). rewrite OUT2, OUT1; auto.
      + intros b d HB PB NS. cbn [db_says]. rewrite RN.
        apply pb_iff in PB. destruct PB as (u & EU). destruct u as [|c u]; [exfalso; pose proof (bits_len b) as X; rewrite EU, app_nil_r in X; lia|].
        assert (EC : bit b (127 - nd) = c). { rewrite <- nth_bits by lia. rewrite EU. replace (127 - nd) with (length p) by lia. rewrite app_nth2 by lia. now rewrite Nat.sub_diag. }
        rewrite EC. assert (PC : pb (p ++ [c]) (bits b) = true) by (rewrite EU, pb_snoc; apply eqb_reflx). destruct c.
        * rewrite <- (IN2 b d HB PC NS). reflexivity.
        * assert (PN : pb (p ++ [true]) (bits b) = false) by (rewrite EU, pb_snoc; reflexivity). rewrite OUT2 by (auto; apply bits_len). rewrite <- (IN1 b d HB PC NS). reflexivity.
  Qed.

  Theorem geo_list_ok sort v4 : exists o, geo_list read_node get_dc sort v4 = Ok o /\
    match o with
    | None => exists b, is_ip b /\ db_says read_node get_dc (if v4 then 32 else 128) b 0 = None
    | Some (g, w) => w = false /\ exists L, g = {| l_nets := L; l_norm := true |} /\ length L <= db_size read_node (if v4 then 32 else 128) 0 /\ Forall wfn L /\ StronglySorted lt L /\ dcs_ok L /\ (forall n m, In n L -> In m L -> ~ inside n m) /\
        forall b, is_ip b -> ~ special b -> geo_says read_node get_dc v4 b (lm L 0 (bits b))
    end.
  Proof.
    unfold geo_list. set (depth := if v4 then 32 else 128). set (p := repeat false (128 - depth)).
    assert (R : ready [] zeros p depth).
    { split; [apply zeros_ip|]. split; [unfold p, depth; rewrite repeat_length; destruct v4; lia|]. split; [rewrite bits_zeros; unfold p, depth; destruct v4; reflexivity|]. split; [constructor|]. split; [constructor|]. split; [constructor|]. intros n []. }
    destruct (walk_ok depth [] zeros 0%N p R) as (o & E & G). rewrite E. cbn [rbind]. destruct o as [l|]; [|exists None; split; [reflexivity|]; destruct G as (b & HB & _ & SB); exists b; split; [exact HB|exact SB]]. destruct G as (L & -> & LL & W & S & D & _ & OUT & IN). unfold nlist_finish. cbn [l_norm rbind].
    exists (Some ({| l_nets := L; l_norm := true |}, false)). split; [reflexivity|]. split; [reflexivity|]. exists L. split; [reflexivity|]. split; [exact LL|]. split; [exact W|].
    assert (DN : forall l, StronglySorted disn l -> StronglySorted lt l /\ forall n m, In n l -> In m l -> ~ inside n m).
    { clear. induction 1 as [|a l S [IH1 IH2] F]; [split; [constructor|intros n m []]|]. rewrite Forall_forall in F. split.
      - constructor; [exact IH1|]. apply Forall_forall. intros n I. apply dis_lt. now apply F.
      - intros n m [<-|IN] [<-|IM] [P NE]; [congruence| | |now apply (IH2 n m)].
        + apply F in IM. apply dis_pb in IM. congruence.
        + apply F in IN. apply dis_lt in IN. apply lex_pb in P. rewrite lex_anti, IN in P. now apply P. }
    destruct (DN L S) as [SL PF]. split; [exact SL|]. split; [exact D|]. split; [exact PF|]. intros b HB NS. unfold geo_says.
    destruct v4; [|specialize (IN b 0%N HB eq_refl NS); exact IN].
    assert (SP : same 12 b zeros = true <-> pb p (bits b) = true).
    { rewrite same_iff, pb_firstn. unfold p, depth. rewrite repeat_length. change (128 - 32) with (8 * 12). change (repeat false (8 * 12)) with (firstn (8 * 12) (bits zeros)). symmetry. apply firstn_bits_8; [exact HB|apply zeros_ip]. }
    destruct (same 12 b zeros) eqn:SB.
    - apply (IN b 0%N HB); [now apply SP|exact NS].
    - rewrite OUT; [reflexivity|apply bits_len|]. apply not_true_iff_false. intros Q. apply SP in Q. congruence.
  Qed.
End Geo.
