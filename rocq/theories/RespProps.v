(** C13: which node a query is answered from.  C42: what the answer holds.
    C43: following aliases. *)
From Coq Require Import Sorting.Permutation.
From Verif Require Import Base DnameModel DnameSpec DnameProofs DnameProofs2 RandModel RandSpec RandProofs PktProofs2 CompModel CompSpec CompProofs CompProps
  RespModel RespSpec RespProofs RespProofs2 RespProofs3 RespProofs4 RespProofs5 RespProofs6.
Ltac Zify.zify_post_hook ::= idtac.

(** ** C13 *)
(** The tree search gives: refused exactly when no cut is at or above the name;
    a delegation exactly when a second cut is there; else the node of that name
    or the wildcard of the closest ancestor, if there is one. *)
Theorem C13_lookup_follows_tree_rules : forall root q, wf_db root ->
  match search root (rev q) None with
  | (NOAUTH, _, _, _) => no_zone root q
  | (DELEG, Some d, Some _, n) => exists p dn, q = p ++ dn /\ length p = n /\ delegated root q dn d
  | (AUTH, found, Some zn, n) => exists p z, q = p ++ z /\ length p = n /\ in_zone root q z zn found
  | _ => False
  end.
Proof. intros root q [W _]. exact (search_top root W q). Qed.
Print Assumptions C13_lookup_follows_tree_rules.

(** Each name has one outcome only, so the search's answer is the only right one. *)
Theorem C13_outcomes_exclusive : forall root q, wf_db root ->
  (forall z zn, no_zone root q -> ~ zone_of root q z zn) /\
  (forall d dn z zn f, delegated root q d dn -> ~ in_zone root q z zn f) /\
  (forall d dn d' dn', delegated root q d dn -> delegated root q d' dn' -> d = d' /\ dn = dn') /\
  (forall z zn f z' zn' f', in_zone root q z zn f -> in_zone root q z' zn' f' -> z = z' /\ zn = zn' /\ f = f').
Proof.
  intros root q [W _]. split; [|split; [|split]].
  - intros z zn H1 H2. exact (none_not_zone _ _ _ _ H1 H2).
  - intros d dn z zn f H1 H2. exact (deleg_not_in _ W _ _ _ _ _ _ H1 H2).
  - intros d dn d' dn'. apply deleg_unique. exact W.
  - intros z zn f z' zn' f'. apply in_zone_unique. exact W.
Qed.
Print Assumptions C13_outcomes_exclusive.

(** ** C42 *)
(** The state when the lookup starts: the header, the question as the client
    sent it, type and class. *)
Definition start (hd : bytes) (q : name) (tail : bytes) (qt : N) : st :=
  {| s_out := hd ++ wn q ++ tail; s_cts := []; s_an := 0; s_cn := 0; s_ns := 0; s_ar := 0; s_qc := 12; s_ac := 0;
     s_aa := false; s_rcode := 0; s_qtype := qt; s_scope := 0 |}.
Definition lower_name (q : name) : name := map (map lower) q.

Lemma resolves_default dyn chals root q qt : wf_db root -> exists r, resolves dyn chals true root q qt r /\ r_chain r = [].
Proof.
  intros W. pose proof (search_top root (proj1 W) q) as H. unfold search_ok in H.
  destruct (search root (rev q) None) as [[[s dom] auth] lc]. destruct s.
  - eexists. split; [now apply res_refused|reflexivity].
  - destruct auth as [a|]; [|destruct dom; contradiction].
    assert (H' : exists p z0, q = p ++ z0 /\ length p = lc /\ in_zone root q z0 a dom) by (destruct dom; exact H).
    destruct H' as (p & z & _ & _ & HI). eexists. split; [eapply res_final; [exact HI|intros ttl t [X _]; discriminate]|].
    unfold final. destruct (effective _ _ _). reflexivity.
  - destruct dom as [d|]; [|destruct auth; contradiction]. destruct auth as [a|]; [|contradiction]. destruct H as (p & dn & _ & _ & HD).
    destruct (proj2 (proj2 W) _ _ _ HD) as (r & I & T).
    assert (WN : wf_node d) by (destruct HD as (z & zn & _ & (_ & HA & _) & _); apply (proj1 W _ _ HA)). destruct WN as (_ & WR & _).
    rewrite Forall_forall in WR. specialize (WR r I). destruct r; try discriminate T.
    + eexists. split; [eapply res_deleg; eauto|reflexivity].
    + cbn in T. subst. exfalso. destruct WR as [_ X]. apply X. cbn. tauto.
Qed.

(** With aliases not followed (the default): whatever the client asks and in
    whatever case, there is an answer by the rules of [resolves]; if it fits
    the buffer, the lookup ends without an error and writes exactly that
    answer after the question, names equal up to case. *)
Theorem C42_answer_is_the_zone_data : forall root dyn chals draws max_size hd q tail qt,
  wf_db root -> wf_dyn dyn root -> (forall n, Forall (fun c => length (snd c) = 44) (chals n)) ->
  (forall off n, legal_draws (n - 1) (draws off n)) ->
  length hd = 12 -> legal_name q ->
  exists r, resolves dyn chals true root (lower_name q) qt r /\
    ((N.of_nat (length (hd ++ wn q ++ tail)) + rep_size r <= 16382)%N ->
     exists s data, db_lookup (wn (lower_name q)) draws dyn chals max_size true root 1 (start hd q tail qt) (lower_name q) false = Ok s /\
       s_out s = (hd ++ wn q ++ tail) ++ data /\ (N.of_nat (length data) <= rep_size r)%N /\
       reply_ok same_name max_size (length (hd ++ wn q ++ tail)) (s_out s) (s_cn s + s_an s) (s_ns s) (s_ar s) (s_rcode s) (s_aa s) r).
Proof.
  intros root dyn chals draws max_size hd q tail qt W Y HC HD H12 HL. destruct (resolves_default dyn chals root (lower_name q) qt W) as (r & HR & HCH).
  exists r. split; [exact HR|]. intros HB.
  assert (SR : forall ls, same_name ls ls) by reflexivity.
  assert (SC : forall l a b, same_name a b -> same_name (l :: a) (l :: b)) by (unfold same_name; intros l a b E; cbn [map]; congruence).
  destruct (db_ok same_name (wn (lower_name q)) SR SC draws HD dyn chals HC max_size true root W Y (or_introl eq_refl) _ _ _ HR 1 (start hd q tail qt) false)
    as (s & E & d & E1 & ES & E2 & E3 & E4 & E5).
  - split; [now apply legal_lower|]. split; [|repeat split; reflexivity].
    split; [|split; [constructor|cbn; lia]]. apply question_at_start; auto. intros n. unfold same_name. now rewrite skipn_map2, lower_name_idem.
  - reflexivity.
  - rewrite HCH. cbn. lia.
  - exact HB.
  - exists s, d. split; [exact E|]. split; [exact E1|]. split; [exact ES|]. rewrite E2, (E3 eq_refl). rewrite HCH in *. cbn [start s_cn s_out length] in *. exact E5.
Qed.
Print Assumptions C42_answer_is_the_zone_data.

(** ** C43 *)
(** With aliases followed and a question in lower case: every answer the rules
    allow (so: every chain that ends) is written, the aliases in order. *)
Theorem C43_aliases_are_followed : forall root dyn chals draws max_size no_chain hd q tail qt r fuel,
  wf_db root -> wf_dyn dyn root -> (forall n, Forall (fun c => length (snd c) = 44) (chals n)) ->
  (forall off n, legal_draws (n - 1) (draws off n)) ->
  length hd = 12 -> legal_name q -> lower_name q = q ->
  resolves dyn chals no_chain root q qt r -> (length (r_chain r) < fuel)%nat ->
  (N.of_nat (length (hd ++ wn q ++ tail)) + rep_size r <= 16382)%N ->
  exists s data, db_lookup (wn q) draws dyn chals max_size no_chain root fuel (start hd q tail qt) q false = Ok s /\
    s_out s = (hd ++ wn q ++ tail) ++ data /\ (N.of_nat (length data) <= rep_size r)%N /\
    reply_ok eq max_size (length (hd ++ wn q ++ tail)) (s_out s) (s_cn s + s_an s) (s_ns s) (s_ar s) (s_rcode s) (s_aa s) r.
Proof.
  intros root dyn chals draws max_size no_chain hd q tail qt r fuel W Y HC HD H12 HL HLOW HR HF HB.
  destruct (db_ok eq (wn q) (@eq_refl _) ltac:(intros l a b ->; reflexivity) draws HD dyn chals HC max_size no_chain root W Y (or_intror (fun a b E => E)) _ _ _ HR fuel (start hd q tail qt) false)
    as (s & E & d & E1 & ES & E2 & E3 & E4 & E5).
  - split; [exact HL|]. split; [|repeat split; reflexivity].
    split; [|split; [constructor|cbn; lia]].
    pose proof (question_at_start eq hd q tail H12 HL) as Q. unfold lower_name in HLOW. rewrite HLOW in Q. apply Q. reflexivity.
  - reflexivity.
  - exact HF.
  - exact HB.
  - exists s, d. split; [exact E|]. split; [exact E1|]. split; [exact ES|]. rewrite E2, (E3 eq_refl). cbn [start s_cn s_out] in *. rewrite N.add_0_l. exact E5.
Qed.
Print Assumptions C43_aliases_are_followed.

(** ** A concrete zone [z.] with data, an alias, a wildcard, a delegation *)
Definition wA : rrset := RsA 300 [[192; 0; 2; 1]; [192; 0; 2; 2]]%N.
Definition z_w : node := Node false [wA] [].
Definition z_c : node := Node false [RsCNAME 60 [[119]; [122]]%N] [].
Definition z_star : node := Node false [RsTXT 60 [[1; 120]]%N] [].
Definition z_d : node := Node true [RsNS 60 [([[119]; [122]]%N, Some (60%N, [[192; 0; 2; 9]%N]), None)]] [].
Definition z_soa : rrset := RsSOA 900 [[119]; [122]]%N [[104]; [122]]%N (repeat 0%N 20).
Definition z_z : node := Node true [z_soa; RsNS 900 [([[119]; [122]]%N, None, None)]]
  [([119%N], z_w); ([99%N], z_c); ([42%N], z_star); ([100%N], z_d)].
Definition z_root : node := Node false [] [([122%N], z_z)].
Definition z_all : list (name * node) :=
  [([], z_root); ([[122]]%N, z_z); ([[119]; [122]]%N, z_w); ([[99]; [122]]%N, z_c); ([[42]; [122]]%N, z_star); ([[100]; [122]]%N, z_d)].
Lemma z_at q n : at_name z_root q n -> In (q, n) z_all.
Proof.
  induction 1 as [|q n l c H IH I]; [now left|].
  cbn in IH. destruct IH as [E|[E|[E|[E|[E|[E|[]]]]]]]; injection E as <- <-; cbn in I;
    repeat (destruct I as [I|I]; [injection I as <- <-; cbn; auto 10|]); contradiction.
Qed.
Lemma z_cut q z n : cut_above z_root q z n -> (z = [[122]]%N /\ n = z_z) \/ (z = [[100]; [122]]%N /\ n = z_d).
Proof.
  intros (_ & A & Z). apply z_at in A. cbn in A. destruct A as [E|[E|[E|[E|[E|[E|[]]]]]]]; injection E as <- <-; try discriminate Z; auto.
Qed.
Lemma w_legal : legal_name [[119]; [122]]%N.
Proof. split; [|apply Nat.leb_le; reflexivity]. repeat (apply Forall_cons; [split; [split; apply Nat.leb_le; reflexivity|apply Forall_cons; [reflexivity|apply Forall_nil]]|]). apply Forall_nil. Qed.
Lemma h_legal : legal_name [[104]; [122]]%N.
Proof. split; [|apply Nat.leb_le; reflexivity]. repeat (apply Forall_cons; [split; [split; apply Nat.leb_le; reflexivity|apply Forall_cons; [reflexivity|apply Forall_nil]]|]). apply Forall_nil. Qed.
Lemma z_wf : wf_db z_root.
Proof.
  pose proof w_legal as WL. pose proof h_legal as HL.
  assert (ND : forall a b : N, a <> b -> NoDup [a; b]) by (intros a b H; constructor; [intros [E|[]]; congruence|constructor; [intros []|constructor]]).
  split; [|split].
  - intros q n A. apply z_at in A. cbn in A. destruct A as [E|[E|[E|[E|[E|[E|[]]]]]]]; injection E as <- <-; unfold wf_node; cbn [n_children n_rrsets n_zcut z_root z_z z_w z_c z_star z_d map fst rrset_type].
    + split; [repeat constructor; intros []|]. split; [constructor|]. split; [constructor|]. split; [intros r []|]. split; [intros r []|]. intros w [E|[]]. discriminate E.
    + split; [repeat constructor; cbn; intuition discriminate|]. split.
      { apply Forall_cons; [split; [exact WL|split; [exact HL|reflexivity]]|]. apply Forall_cons; [|constructor]. split; [discriminate|]. split; [cbn; lia|].
        apply Forall_cons; [|constructor]. split; [exact WL|]. split; exact I. }
      split; [apply ND; discriminate|]. split; [intros r [<-|[<-|[]]] [T|T]; discriminate|]. split; [reflexivity|].
      intros w [E|[E|[E|[E|[]]]]]; try discriminate E. injection E as <-. reflexivity.
    + split; [constructor|]. split; [apply Forall_cons; [split; [discriminate|repeat constructor]|constructor]|]. split; [repeat constructor; intros []|].
      split; [intros r [<-|[]] [T|T]; discriminate|]. split; [intros r [<-|[]] [T|T]; discriminate|]. intros w [].
    + split; [constructor|]. split; [apply Forall_cons; [exact WL|constructor]|]. split; [repeat constructor; intros []|].
      split; [intros r [<-|[]] _; reflexivity|]. split; [intros r [<-|[]] [T|T]; discriminate|]. intros w [].
    + split; [constructor|]. split; [apply Forall_cons; [discriminate|constructor]|]. split; [repeat constructor; intros []|].
      split; [intros r [<-|[]] [T|T]; discriminate|]. split; [intros r [<-|[]] [T|T]; discriminate|]. intros w [].
    + split; [constructor|]. split.
      { apply Forall_cons; [|constructor]. split; [discriminate|]. split; [cbn; lia|]. apply Forall_cons; [|constructor].
        split; [exact WL|]. split; [split; [discriminate|repeat constructor]|exact I]. }
      split; [repeat constructor; intros []|]. split; [intros r [<-|[]] [T|T]; discriminate|]. split; [reflexivity|]. intros w [].
  - intros q z zn [C M]. destruct (z_cut _ _ _ C) as [[-> ->]|[-> ->]].
    + exists z_soa. split; [now left|reflexivity].
    + exfalso. destruct C as ((p & E) & _). specialize (M [[122]]%N z_z). cbn in M. enough (2 <= 1) by lia. apply M.
      split; [exists (p ++ [[100%N]]); rewrite E, <- app_assoc; reflexivity|]. split; [|reflexivity]. eapply at_child; [apply at_root|now left].
  - intros q d dn (z & zn & [C _] & CD & L & _). destruct (z_cut _ _ _ CD) as [[-> ->]|[-> ->]].
    + eexists. split; [right; left; reflexivity|reflexivity].
    + eexists. split; [left; reflexivity|reflexivity].
Qed.
Definition no_dyn (_ : N) : dynres := {| d_cname := None; d_v4 := []; d_v6 := []; d_scope := 0; d_sttl := 0 |}.
Lemma z_dyn : wf_dyn no_dyn z_root.
Proof. split; [|reflexivity]. intros x. cbn. split; [constructor|]. split; [constructor|]. split; [reflexivity|]. discriminate. Qed.

Example C13_witness : wf_db z_root /\
  match search z_root (rev [[120]; [122]]%N) None with (AUTH, Some n, Some zn, 1) => n = z_star /\ zn = z_z | _ => False end /\
  match search z_root (rev [[120]; [100]; [122]]%N) None with (DELEG, Some n, _, 1) => n = z_d | _ => False end.
Proof. split; [exact z_wf|]. vm_compute. auto. Qed.

(** the client asks for W.Z, type A *)
Definition ex_q : name := [[87]; [90]]%N.
Definition ex_hd : bytes := repeat 0%N 12.
Definition no_chals (_ : name) : list (N * bytes) := [].
Definition zero_draws (_ n : nat) : list nat := repeat 0 (n - 1).
Lemma zero_legal : forall off n, legal_draws (n - 1) (zero_draws off n).
Proof. intros off n. unfold zero_draws. induction (n - 1) as [|m IH]; cbn; [exact I|]. split; [lia|exact IH]. Qed.
Lemma ex_legal : legal_name ex_q.
Proof. split; [|apply Nat.leb_le; reflexivity]. repeat (apply Forall_cons; [split; [split; apply Nat.leb_le; reflexivity|apply Forall_cons; [reflexivity|apply Forall_nil]]|]). apply Forall_nil. Qed.
Lemma cz_legal : legal_name [[99]; [122]]%N.
Proof. split; [|apply Nat.leb_le; reflexivity]. repeat (apply Forall_cons; [split; [split; apply Nat.leb_le; reflexivity|apply Forall_cons; [reflexivity|apply Forall_nil]]|]). apply Forall_nil. Qed.

Definition outcome (r : res st) : option (N * N * N * N * N * bool * nat) :=
  match r with
  | Ok s => Some (s_cn s, s_an s, s_ns s, s_ar s, s_rcode s, s_aa s, length (s_out s))
  | _ => None
  end.

(** The hypotheses hold, and the answer to W.Z A has both addresses. *)
Example C42_witness : wf_db z_root /\ wf_dyn no_dyn z_root /\ legal_name ex_q /\
  (forall off n, legal_draws (n - 1) (zero_draws off n)) /\
  outcome (db_lookup (wn (lower_name ex_q)) zero_draws no_dyn no_chals 512 true z_root 1 (start ex_hd ex_q [0; 1; 0; 1]%N 1) (lower_name ex_q) false)
    = Some (0, 2, 0, 0, 0, true, 53%nat)%N.
Proof.
  split; [exact z_wf|]. split; [exact z_dyn|]. split; [exact ex_legal|]. split; [exact zero_legal|]. vm_compute. reflexivity.
Qed.
(** c.z A with aliases followed: the alias, then its two addresses. *)
Example C43_witness : legal_name [[99]; [122]]%N /\ lower_name [[99]; [122]]%N = [[99]; [122]]%N /\
  (exists r, resolves no_dyn no_chals false z_root [[99]; [122]]%N 1 r /\ length (r_chain r) = 1%nat /\ length (r_an r) = 2%nat /\ (rep_size r <= 100)%N) /\
  outcome (db_lookup (wn [[99]; [122]]%N) zero_draws no_dyn no_chals 512 false z_root 2 (start ex_hd [[99]; [122]]%N [0; 1; 0; 1]%N 1) [[99]; [122]]%N false)
    = Some (1, 2, 0, 0, 0, true, 69%nat)%N.
Proof.
  split; [exact cz_legal|]. split; [reflexivity|]. split; [|vm_compute; reflexivity].
  pose proof z_wf as W.
  assert (F : forall q, match search z_root (rev q) None with (AUTH, f, Some zn, _) => exists z, in_zone z_root q z zn f | _ => True end).
  { intros q. pose proof (C13_lookup_follows_tree_rules z_root q W) as H. destruct (search z_root (rev q) None) as [[[s f] a] lc].
    destruct s; [exact I| |exact I]. destruct a as [a|]; [|exact I].
    assert (H' : exists p z0, q = p ++ z0 /\ length p = lc /\ in_zone z_root q z0 a f) by (destruct f; exact H).
    destruct H' as (p & z & _ & _ & X). eauto. }
  pose proof (F [[99]; [122]]%N) as F1. pose proof (F [[119]; [122]]%N) as F2. cbn in F1, F2. destruct F1 as (z1 & F1). destruct F2 as (z2 & F2).
  assert (Z1 : z1 = [[122]]%N).
  { destruct F1 as [[C _] _]. destruct (z_cut _ _ _ C) as [[E _]|[E _]]; [exact E|]. destruct C as ((p & X) & _). rewrite E in X.
    destruct p as [|? [|? [|]]]; discriminate X. }
  subst z1.
  eexists. split; [eapply res_chain; [exact F1| |]|].
  - split; [reflexivity|]. split; [discriminate|]. split; [discriminate|]. split; [exists [[119]]%N; reflexivity|]. exists z_c. split; reflexivity.
  - eapply res_final; [exact F2|]. intros ttl t (_ & _ & _ & _ & n & E & E2). injection E as <-. discriminate E2.
  - split; [reflexivity|]. split; [reflexivity|]. apply N.leb_le. reflexivity.
Qed.

(** The statement for every letter case is false when aliases are followed:
    C.Z gets the alias alone where c.z also gets the addresses (the in-zone
    test of dnspacket.c:1728-1752 compares the target with the packet's own
    bytes). *)
Theorem C43_aliases_for_any_case_refuted :
  ~ (forall root dyn chals draws max_size hd q tail qt r fuel,
      wf_db root -> wf_dyn dyn root -> (forall n, Forall (fun c => length (snd c) = 44) (chals n)) ->
      (forall off n, legal_draws (n - 1) (draws off n)) ->
      length hd = 12 -> legal_name q ->
      resolves dyn chals false root (lower_name q) qt r -> (length (r_chain r) < fuel)%nat ->
      (N.of_nat (length (hd ++ wn q ++ tail)) + rep_size r <= 16382)%N ->
      exists s data, db_lookup (wn (lower_name q)) draws dyn chals max_size false root fuel (start hd q tail qt) (lower_name q) false = Ok s /\
        s_out s = (hd ++ wn q ++ tail) ++ data /\
        reply_ok same_name max_size (length (hd ++ wn q ++ tail)) (s_out s) (s_cn s + s_an s) (s_ns s) (s_ar s) (s_rcode s) (s_aa s) r).
Proof.
  intros H. destruct C43_witness as (_ & _ & (r & HR & HC & HA & HS) & _).
  assert (L : legal_name [[67]; [90]]%N).
  { split; [|apply Nat.leb_le; reflexivity]. repeat (apply Forall_cons; [split; [split; apply Nat.leb_le; reflexivity|apply Forall_cons; [reflexivity|apply Forall_nil]]|]). apply Forall_nil. }
  destruct (H z_root no_dyn no_chals zero_draws 512%N ex_hd [[67]; [90]]%N [0; 1; 0; 1]%N 1%N r 2%nat z_wf z_dyn ltac:(intros n; constructor) zero_legal eq_refl L HR)
    as (s & d & E & _ & R).
  - rewrite HC. lia.
  - eapply N.le_trans; [apply N.add_le_mono_l; exact HS|]. apply N.leb_le. reflexivity.
  - destruct R as (k & an' & ns' & ar' & e1 & e2 & _ & _ & P & _ & _ & _ & _ & _ & A & _). apply Permutation_length in P.
    assert (X : (s_cn s + s_an s)%N = 1%N).
    { assert (Y : match db_lookup (wn (lower_name [[67]; [90]]%N)) zero_draws no_dyn no_chals 512 false z_root 2 (start ex_hd [[67]; [90]]%N [0; 1; 0; 1]%N 1) (lower_name [[67]; [90]]%N) false
                  with Ok s => (s_cn s + s_an s)%N | _ => 0%N end = 1%N) by (vm_compute; reflexivity). rewrite E in Y. exact Y. }
    rewrite X, !app_length, HC, P, HA in A. lia.
Qed.
Print Assumptions C43_aliases_for_any_case_refuted.
