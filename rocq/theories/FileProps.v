(** C34: states of resources from a file. *)
From Coq Require Import Permutation Sorted.
From Verif Require Import Base MonModel MonSpec MonProofs MonRun FileModel FileSpec FileProofs.

(** A file of legal entries: every resource is reported exactly once, with the state the file gives it. *)
Theorem C34_every_resource_gets_its_state : forall svc es,
  NoDup (map f_name (f_mons svc)) -> plain (f_def svc) -> file_fine (w_ttl (f_def svc)) es ->
  exists given, process_file (init_svc svc) (AHash es) = Ok (map (fun x => told (f_direct svc) (fst x) (snd x)) given) /\
    Permutation (map fst given) (f_mons svc) /\
    forall m w, In (m, w) given -> says es (f_def svc) (f_name m) w.
Proof.
  intros svc es Hn Hd Hf.
  assert (Hs : StronglySorted lt_mon (f_mons (init_svc svc))) by (apply qsort_sorted; auto).
  destruct (process_ok (init_svc svc) es Hs Hd) as [H _]. destruct (H Hf) as (ws & E & HW).
  exists (combine (f_mons (init_svc svc)) ws). split; [exact E|].
  assert (L := Forall2_len _ _ _ HW). split.
  - replace (map fst (combine (f_mons (init_svc svc)) ws)) with (f_mons (init_svc svc)); [apply qsort_perm|].
    clear -L. revert ws L. induction (f_mons (init_svc svc)) as [|m l IH]; intros [|w ws] L; try discriminate; auto.
    cbn. f_equal. apply IH. cbn in L. lia.
  - clear -HW. cbn [f_def] in HW. induction HW as [|m w l l' [H _] _ IH]; intros m' w'; cbn; [easy|].
    intros [Hi|Hi]; [|auto]. injection Hi as <- <-. exact H.
Qed.
Print Assumptions C34_every_resource_gets_its_state.

(** What a file says is never ambiguous (its keys are distinct: duplicate keys are a syntax error). *)
Theorem C34_one_state_per_resource : forall es def name w w', NoDup (map fst es) ->
  says es def name w -> says es def name w' -> w = w'.
Proof.
  intros es def name w w' Hd H H'. destruct H as [s d t Hi Ht|Hn], H' as [s' d' t' Hi' Ht'|Hn']; auto.
  - assert (E : ASimple s = ASimple s').
    { clear -Hd Hi Hi'. induction es as [|[k v] es IH]; [easy|]. cbn in Hd. inversion Hd as [|? ? Hn Hd']; subst.
      assert (K : forall x, In (name, x) es -> In name (map fst es)) by (intros x Hx; apply (in_map fst) in Hx; exact Hx).
      destruct Hi as [Hi|Hi], Hi' as [Hi'|Hi']; auto.
      - congruence.
      - injection Hi as -> ->. exfalso. eauto.
      - injection Hi' as -> ->. exfalso. eauto. }
    injection E as <-. destruct (parse_exact s (w_ttl def) (w_ttl_lt _)) as (r & _ & Hr).
    assert (A : r = Some (word d false t)) by (apply Hr; eauto).
    assert (B : r = Some (word d' false t')) by (apply Hr; eauto). congruence.
  - exfalso. apply Hn'. apply (in_map fst) in Hi. exact Hi.
  - exfalso. apply Hn. apply (in_map fst) in Hi'. exact Hi'.
Qed.
Print Assumptions C34_one_state_per_resource.

(** One bad entry anywhere, or a file that cannot be read: nothing is reported at all. *)
Theorem C34_bad_file_changes_nothing : forall svc f,
  NoDup (map f_name (f_mons svc)) -> plain (f_def svc) ->
  (forall es, f = AHash es -> ~ file_fine (w_ttl (f_def svc)) es) ->
  process_file (init_svc svc) f = Ok [].
Proof.
  intros svc [es|] Hn Hd Hf.
  - destruct (process_ok (init_svc svc) es (qsort_sorted _ Hn) Hd) as [_ H]. apply H, (Hf es eq_refl).
  - unfold process_file. now destruct (_ =? 0).
Qed.
Print Assumptions C34_bad_file_changes_nothing.

(** Direct mode, from any reachable state of the monitoring core: reading a legal file leaves every
    resource's own state exactly as the file says and touches no other resource. *)
Lemma sttl_fold ops : forall ss, NoDup (map fst ops) -> (forall i v, In (i, v) ops -> i < length ss) ->
  let ss' := fold_left (smgrs_step false) (map (fun x => OSttl (fst x) (snd x)) ops) ss in
  (forall i v, In (i, v) ops -> exists s, nth_error ss i = Some s /\ nth_error ss' i = Some (with_real s v)) /\
  (forall i, ~ In i (map fst ops) -> nth_error ss' i = nth_error ss i).
Proof.
  induction ops as [|[i v] ops IH]; intros ss Hd Hi; cbn [map fold_left fst snd].
  - split; [easy|auto].
  - inversion Hd as [|? ? Hn Hd']; subst. unfold smgrs_step at 2 4.
    destruct (nth_error ss i) as [s|] eqn:Es.
    2:{ apply nth_error_None in Es. assert (i < length ss) by (apply (Hi i v); now left). lia. }
    destruct (IH (upd ss i (with_real s v)) Hd') as [A B].
    { intros j w Hj. rewrite upd_length. apply (Hi j w). now right. }
    assert (Hl : i < length ss) by (apply nth_error_Some; congruence).
    split.
    + intros j w [Hj|Hj].
      * injection Hj as <- <-. exists s. split; auto. rewrite B by auto. now apply nth_error_upd_eq.
      * destruct (A j w Hj) as (s' & E1 & E2). exists s'. split; auto.
        rewrite nth_error_upd_neq in E1; auto. intros ->. apply Hn. apply (in_map fst) in Hj. exact Hj.
    + intros j Hj. cbn in Hj. rewrite B by tauto. apply nth_error_upd_neq. intros ->. apply Hj. now left.
Qed.

Theorem C34_direct_states_follow_the_file : forall fn items ips f os m0 m svc es,
  Forall (legal_op items) ips -> Forall monitor_op ips -> Forall (legal_op items) os ->
  mon_start fn (register items) ips f = Ok m0 -> steps fn m0 os = Ok m ->
  NoDup (map f_name (f_mons svc)) -> NoDup (map f_idx (f_mons svc)) ->
  (forall x, In x (f_mons svc) -> f_idx x < length items) ->
  f_direct svc = true -> plain (f_def svc) -> file_fine (w_ttl (f_def svc)) es ->
  exists ops m', process_file (init_svc svc) (AHash es) = Ok ops /\ Forall (legal_op items) ops /\
    steps fn m ops = Ok m' /\
    (forall x, In x (f_mons svc) -> exists s w, nth_error (smgrs m') (f_idx x) = Some s /\
       says es (f_def svc) (f_name x) w /\ real s = w) /\
    (forall i, ~ In i (map f_idx (f_mons svc)) -> nth_error (smgrs m') i = nth_error (smgrs m) i).
Proof.
  intros fn items ips f os m0 m svc es L1 M1 L2 E1 E2 Hn Hx Hb Hdir Hd Hf.
  assert (Hs : StronglySorted lt_mon (f_mons (init_svc svc))) by (apply qsort_sorted; auto).
  destruct (process_ok (init_svc svc) es Hs Hd) as [H _]. destruct (H Hf) as (ws & E & HW). clear H.
  change (f_direct (init_svc svc)) with (f_direct svc) in E. rewrite Hdir in E.
  change (f_mons (init_svc svc)) with (qsort (f_mons svc)) in *. change (f_def (init_svc svc)) with (f_def svc) in *.
  assert (P := qsort_perm (f_mons svc)). set (ms := qsort (f_mons svc)) in *.
  set (ops := map (fun x => OSttl (fst x) (snd x)) (combine (map f_idx ms) ws)).
  assert (Eo : map (fun x => told true (fst x) (snd x)) (combine ms ws) = ops).
  { subst ops. assert (L := Forall2_len _ _ _ HW). clear -L. revert ws L.
    induction ms as [|m l IH]; intros [|w ws] L; try discriminate; auto. cbn. f_equal. apply IH. cbn in L. lia. }
  rewrite Eo in E. assert (Lg : Forall (legal_op items) ops).
  { subst ops. apply Forall_map. apply Forall_forall. intros [i w] Hi. cbn.
    assert (exists x, In x ms /\ f_idx x = i /\ plain w) as (x & Hxi & <- & Hp).
    { clear -Hi HW. induction HW as [|x w' l l' [_ Hp] _ IH]; cbn in Hi; [easy|]. destruct Hi as [Hi|Hi].
      - injection Hi as <- <-. exists x. split; [now left|auto].
      - destruct (IH Hi) as (y & ? & ?). exists y. split; [now right|auto]. }
    split; [apply Hb; eapply Permutation_in; eauto|]. exact Hp. }
  assert (HD0 : map desc (smgrs (register items)) = map (fun x => fst (fst x)) items)
    by (eapply item_desc; apply register_inv).
  destruct (whole_run fn items (smgrs (register items)) HD0 ips f os) as (m0' & m1 & F1 & F2 & _ & V & S1); auto.
  rewrite E1 in F1. injection F1 as <-. rewrite E2 in F2. injection F2 as <-.
  destruct (whole_run fn items (smgrs (register items)) HD0 ips f (os ++ ops)) as (m0' & m' & F1 & F2 & _ & V' & S2); auto.
  { apply Forall_app. auto. }
  rewrite E1 in F1. injection F1 as <-. rewrite steps_app, E2 in F2. cbn [rbind] in F2.
  rewrite fold_left_app, <- S1 in S2.
  assert (Len : length (smgrs m) = length items) by (eapply item_len; eauto).
  exists ops, m'. split; [exact E|]. split; [exact Lg|]. split; [exact F2|].
  assert (Hfst : map fst (combine (map f_idx ms) ws) = map f_idx ms).
  { assert (L := Forall2_len _ _ _ HW). clear -L. revert ws L.
    induction ms as [|x l IH]; intros [|w ws] L; try discriminate; auto. cbn. f_equal. apply IH. cbn in L. lia. }
  destruct (sttl_fold (combine (map f_idx ms) ws) (smgrs m)) as [A B].
  { rewrite Hfst. eapply Permutation_NoDup; [|exact Hx]. apply Permutation_map. now symmetry. }
  { intros i v Hi. rewrite Len. rewrite Forall_forall in Lg.
    assert (X : In (OSttl i v) ops) by (subst ops; apply (in_map (fun x => OSttl (fst x) (snd x))) in Hi; exact Hi).
    apply (Lg _ X). }
  fold ops in A, B. rewrite S2. split.
  - intros x Hxi.
    assert (exists w, In (f_idx x, w) (combine (map f_idx ms) ws) /\ says es (f_def svc) (f_name x) w) as (w & Hw & Hsay).
    { assert (In x ms) by (eapply Permutation_in; [symmetry; eauto|auto]).
      clear -HW H. induction HW as [|y w l l' [Hy _] _ IH]; [easy|]. destruct H as [->|H].
      - exists w. split; [now left|auto].
      - destruct (IH H) as (w' & ? & ?). exists w'. split; [now right|auto]. }
    destruct (A _ _ Hw) as (s & _ & Es). exists (with_real s w), w. auto.
  - intros i Hi. apply B. rewrite Hfst. intros Hj. apply Hi. eapply Permutation_in; [|exact Hj]. now apply Permutation_map.
Qed.
Print Assumptions C34_direct_states_follow_the_file.

(** The default state comes from the options and is always legal. *)
Theorem C34_default_state : forall ttl down, (match ttl with Some t => t < 2 ^ 28 | None => True end)%N ->
  def_sttl ttl down = word down false (match ttl with Some t => t | None => 2 ^ 28 - 1 end) /\ plain (def_sttl ttl down).
Proof.
  intros ttl down H.
  set (t := match ttl with Some t => t | None => STTL_TTL_MAX end).
  assert (Ht : (t < 2 ^ 28)%N) by (subst t; destruct ttl; [exact H|reflexivity]).
  assert (E : def_sttl ttl down = word down false t).
  { unfold def_sttl. fold t. rewrite word_lor by auto. destruct down; [|reflexivity].
    rewrite N.lor_0_r. apply N.lor_comm. }
  split; [rewrite E; subst t; now destruct ttl|]. rewrite E. now apply word_plain.
Qed.
Print Assumptions C34_default_state.

(** Direct mode: the file is read 1.02 s after a change is seen, unless another one is seen before then. *)
Lemma settle_sound tie ts : forall timer t, Sorted.StronglySorted Z.le ts ->
  In t (settle tie timer ts) ->
  (timer = Some t /\ forall s, In s ts -> (t <= s)%Z) \/
  (In (t - 1020)%Z ts /\ forall s, In s ts -> (s <= t - 1020 \/ t <= s)%Z).
Proof.
  induction ts as [|u ts IH]; intros timer t Hs Hi.
  - cbn in Hi. destruct timer as [d|]; [|easy]. destruct Hi as [->|[]]. left. split; auto. easy.
  - apply StronglySorted_inv in Hs as [Hs Hu]. rewrite Forall_forall in Hu. cbn [settle] in Hi.
    assert (R : In t (settle tie (Some (u + 1020)%Z) ts) ->
      (In (t - 1020)%Z (u :: ts) /\ forall s, In s (u :: ts) -> (s <= t - 1020 \/ t <= s)%Z)).
    { intros H. destruct (IH _ t Hs H) as [[E G]|[A B]].
      - injection E as <-. split; [left; lia|]. intros s [->|H']; [lia|]. right. auto.
      - split; [now right|]. intros s [<-|H']; [left; auto|auto]. }
    destruct timer as [d|]; [|right; auto].
    destruct ((d <? u)%Z || (tie && (d =? u)%Z)) eqn:E; [|right; auto]. destruct Hi as [->|Hi]; [|right; auto].
    left. split; auto.
    assert (t <= u)%Z by (apply orb_prop in E as [E|E]; [lia|apply andb_prop in E as [_ E]; lia]).
    intros s [->|H']; auto. specialize (Hu s H'). lia.
Qed.
Lemma settle_head tie ts : forall d, (forall s, In s ts -> (d < s)%Z) -> In d (settle tie (Some d) ts).
Proof. intros d H. destruct ts as [|u ts]; cbn; [auto|]. destruct (d <? u)%Z eqn:E; [cbn; now left|]. specialize (H u (or_introl eq_refl)). lia. Qed.
Theorem C34_read_when_settled : forall tie ts t, StronglySorted Z.le ts ->
  (In t (settle tie None ts) -> In (t - 1020)%Z ts /\ forall s, In s ts -> (s <= t - 1020 \/ t <= s)%Z) /\
  (In (t - 1020)%Z ts -> (forall s, In s ts -> (s <= t - 1020 \/ t < s)%Z) -> In t (settle tie None ts)).
Proof.
  intros tie ts t Hs. split.
  - intros Hi. destruct (settle_sound tie ts None t Hs Hi) as [[E _]|H]; [discriminate|exact H].
  - intros Hi Hq. assert (G : forall timer, In t (settle tie timer ts)).
    { revert Hi Hq. induction Hs as [|u ts Hs IH Hu]; intros Hi Hq timer; [easy|].
      rewrite Forall_forall in Hu. cbn [settle].
      assert (X : In t (settle tie (Some (u + 1020)%Z) ts)).
      { destruct (in_dec Z.eq_dec (t - 1020)%Z ts) as [Hin|Hout].
        - apply IH; auto. intros s H. apply Hq. now right.
        - destruct Hi as [Hi|Hi]; [|contradiction]. subst u. replace (t - 1020 + 1020)%Z with t by lia. apply settle_head.
          intros s H. destruct (Hq s (or_intror H)) as [Hl|Hl]; [|exact Hl].
          specialize (Hu s H). exfalso. apply Hout. replace (t - 1020)%Z with s by lia. exact H. }
      destruct timer as [d|]; auto. destruct (_ || _); [right; exact X|exact X]. }
    apply G.
Qed.
Print Assumptions C34_read_when_settled.

(** An entry spelled exactly like the configuration, with a capital letter, is not found: the
    stored name is in lower case and the file's keys are compared as they are. *)
Theorem C34_spelling_refuted :
  exists name svc es, f_mons svc = [add_mon name 0] /\ plain (f_def svc) /\ f_direct svc = true /\
    es = [(name, ASimple [68; 79; 87; 78; 47; 57])%N] /\
    process_file (init_svc svc) (AHash es) = Ok [OSttl 0 (f_def svc)] /\ w_down (f_def svc) = false.
Proof.
  exists [87; 119]%N, {| f_mons := [add_mon [87; 119]%N 0]; f_direct := true; f_def := 60 |}, [([87; 119], ASimple [68; 79; 87; 78; 47; 57])%N].
  repeat split; vm_compute; reflexivity.
Qed.
Print Assumptions C34_spelling_refuted.

(** Three resources; one entry for an unknown one, one left out. *)
Definition ex_mons := [add_mon [99] 0; add_mon [97] 1; add_mon [98] 2]%N.
Definition ex_fsvc d := {| f_mons := ex_mons; f_direct := d; f_def := def_sttl (Some 60%N) true |}.
Definition ex_entries := [([120], ASimple [85; 80]); ([97], ASimple [85; 80; 47; 53]); ([99], ASimple [85; 80])]%N.
Example C34_witness :
  NoDup (map f_name ex_mons) /\ NoDup (map f_idx ex_mons) /\ plain (f_def (ex_fsvc true)) /\ file_fine 60 ex_entries /\
  process_file (init_svc (ex_fsvc true)) (AHash ex_entries) =
    Ok [OSttl 1 (word false false 5); OSttl 2 (word true false 60); OSttl 0 (word false false 60)] /\
  process_file (init_svc (ex_fsvc false)) (AHash ex_entries) = Ok [OProbe 1 true; OProbe 2 false; OProbe 0 true] /\
  process_file (init_svc (ex_fsvc true)) (AHash (ex_entries ++ [([98], ASimple [85; 79])%N])) = Ok [] /\
  settle true None [0; 500; 1600; 5000]%Z = [1520; 2620; 6020]%Z.
Proof.
  split; [repeat constructor; cbn; intuition discriminate|]. split; [repeat constructor; cbn; intuition discriminate|].
  split; [repeat split; vm_compute; reflexivity|]. split.
  - assert (U : state_text [85; 80]%N false) by (constructor; reflexivity).
    intros k v [H|[H|[H|[]]]]; injection H as <- <-.
    + exists [85; 80]%N, false, 60%N. split; auto. now constructor.
    + exists [85; 80; 47; 53]%N, false, 5%N. split; auto. apply (tx_ttl 60 [85; 80]%N false [53]%N 5%N U); [|reflexivity].
      apply (num_pos [] [53]%N 5%N); [constructor| |reflexivity]. apply (dec_one 53%N). lia.
    + exists [85; 80]%N, false, 60%N. split; auto. now constructor.
  - repeat split; vm_compute; reflexivity.
Qed.
