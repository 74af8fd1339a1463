(** The zone tree: theorems. *)
From Coq Require Import Sorting.Permutation.
From Verif Require Import Base DnameSpec DnameModel RandModel CompModel RespModel RespSpec LtreeModel LtreeSpec LtreeProofs LtreeProofs2 LtreeProofs3
  LtreeProofs9 LtreeProofs10 LtreeProofs11 LtreeProofs12 LtreeProofs13 LtreeProofs14.
Local Open Scope N_scope.

(** ** C12: the children of a node are a map from labels *)
(** for each (label, set) of [ops] in turn: find or add the child with that
    label and add the set to it *)
Fixpoint add_sets (hash : list N -> N) (n : lnode) (ops : list (list N * rrset)) : zres lnode :=
  match ops with
  | [] => Ok (Some n)
  | (l, s) :: ops => zdo n <- find_or_add_child hash n l (fun c => Ok (Some (set_rrsets c (l_rrsets c ++ [s])))) ; add_sets hash n ops
  end.
Definition sets_for (l : list N) (ops : list (list N * rrset)) : list rrset :=
  map snd (filter (fun o => if list_eq_dec N.eq_dec (fst o) l then true else false) ops).

Lemma add_sets_ok hash (H64 : forall l, hash l < W64) ops : forall b n, good hash b n -> b + N.of_nat (length ops) < 2 ^ 62 ->
  exists n', add_sets hash n ops = Ok (Some n') /\ good hash (b + N.of_nat (length ops)) n' /\
    forall l, match child n' l with
      | Some c => l_label c = Some l /\ l_rrsets c = match child n l with Some c0 => l_rrsets c0 | None => [] end ++ sets_for l ops /\ (child n l <> None \/ sets_for l ops <> [])
      | None => child n l = None /\ sets_for l ops = []
      end.
Proof.
  induction ops as [|(l, s) ops IH]; intros b n G B; cbn [add_sets length] in *.
  - exists n. split; [reflexivity|]. split; [now rewrite N.add_0_r|]. intros l. destruct (child n l) as [c|] eqn:E; [|split; reflexivity].
    apply (child_in hash b n l c G) in E. split; [apply E|]. split; [cbn; now rewrite app_nil_r|left; discriminate].
  - assert (B1 : b + 1 < 2 ^ 62) by lia.
    pose proof (find_or_add_child_ok hash H64 b n l (fun c => Ok (Some (set_rrsets c (l_rrsets c ++ [s])))) G B1) as H. cbn beta zeta in H.
    set (c0 := match child n l with Some c => c | None => fresh l end) in *.
    assert (G0 : good hash b c0). { unfold c0. destruct (child n l) as [c|] eqn:E; [|apply good_fresh; exact H64]. apply (child_in hash b n l c G) in E. now apply (good_kid hash b n c G). }
    assert (L0 : l_label c0 = Some l). { unfold c0. destruct (child n l) as [c|] eqn:E; [|reflexivity]. now apply (child_in hash b n l c G) in E. }
    destruct H as (n1 & E1 & G1 & _ & _ & _ & CH).
    { intros c' E. injection E as <-. split; [destruct c0; exact L0|]. apply (good_mono hash b); [|lia]. destruct G0 as [cc z X1 X2 X3 X4 X5 X6]. apply (Good hash b _ cc z); destruct c0; auto. }
    rewrite E1. unfold zbind. cbn [rbind].
    destruct (IH (b + 1) n1 G1 ltac:(lia)) as (n' & E' & G' & CH'). exists n'. split; [exact E'|]. split; [replace (b + N.of_nat (S (length ops))) with (b + 1 + N.of_nat (length ops)) by lia; exact G'|].
    intros l'. specialize (CH' l'). rewrite CH in CH'. unfold sets_for in *. cbn [filter fst].
    destruct (list_eq_dec N.eq_dec l l') as [<-|NE].
    + rewrite bytes_eqb_refl in CH'. cbn [map snd]. destruct (child n' l) as [c|].
      * destruct CH' as (A1 & A2 & _). split; [exact A1|]. split; [|right; discriminate]. rewrite A2. replace (l_rrsets (set_rrsets c0 (l_rrsets c0 ++ [s]))) with (l_rrsets c0 ++ [s]) by (destruct c0; reflexivity).
        rewrite <- app_assoc. unfold c0. now destruct (child n l).
      * destruct CH' as (A1 & _). discriminate.
    + destruct (bytes_eqb l l') eqn:BE; [apply bytes_eqb_iff in BE; contradiction|]. exact CH'.
Qed.

(** Whatever the hash function and the order: every label that was used is
    found, with everything that was added for it and nothing else, and no other
    label is found.  No operation goes wrong. *)
Theorem C12_child_table_is_a_map : forall hash ops, (forall l, hash l < W64) -> N.of_nat (length ops) < 2 ^ 62 ->
  exists n, add_sets hash new_node ops = Ok (Some n) /\
    forall l, (sets_for l ops = [] -> node_find_child hash n l = Ok None) /\
              (sets_for l ops <> [] -> exists c, node_find_child hash n l = Ok (Some c) /\ l_label c = Some l /\ l_rrsets c = sets_for l ops).
Proof.
  intros hash ops H64 B.
  assert (G : good hash 0 new_node) by (apply (Good hash 0 _ 0 false); [reflexivity|lia|reflexivity|reflexivity|intros c []|intros c []]).
  destruct (add_sets_ok hash H64 ops 0 new_node G ltac:(lia)) as (n & E & GN & CH). exists n. split; [exact E|].
  intros l. rewrite (node_find_child_ok hash H64 _ n l GN). specialize (CH l). change (child new_node l) with (@None lnode) in CH.
  destruct (child n l) as [c|] eqn:EC.
  - destruct CH as (A1 & A2 & A3). cbn [app] in A2. split; [|intros _; exists c; auto]. intros NIL. destruct A3; contradiction.
  - destruct CH as (_ & A2). split; [auto|congruence].
Qed.
Print Assumptions C12_child_table_is_a_map.

(** all labels collide; nine of them force three growths; one is used twice *)
Definition w12_ops : list (list N * rrset) := map (fun i => ([i; 7], RsTXT i [])) [1; 2; 3; 4; 2; 5; 6; 7; 8; 9].
Example C12_witness :
  (forall l : list N, (fun _ : list N => 18446744073709551615) l < W64) /\ N.of_nat (length w12_ops) < 2 ^ 62 /\
  sets_for [2; 7] w12_ops = [RsTXT 2 []; RsTXT 2 []] /\ sets_for [2] w12_ops = [] /\
  exists n, add_sets (fun _ => 18446744073709551615) new_node w12_ops = Ok (Some n) /\ get_ccount n = 9.
Proof.
  split; [intros; reflexivity|]. split; [reflexivity|]. split; [reflexivity|]. split; [reflexivity|].
  eexists. split; vm_compute; reflexivity.
Qed.

(** ** C14: a zone that loads keeps the rules *)
Theorem C14_loaded_zone_keeps_the_rules : forall cfg pl hash zname rs root,
  cfg_fine cfg -> (forall l, hash l < W64) -> Forall (rec_fine zname) rs -> N.of_nat (length rs) < 2 ^ 62 ->
  load_zone cfg pl hash zname rs = Ok (Some root) ->
  zone_rules cfg pl zname rs.
Proof.
  intros cfg pl hash zname rs root CF H64 RF LN H. destruct (load_zone_loaded cfg pl hash zname H64 rs root RF LN H) as (raw & L).
  exact (zone_rules_ok cfg pl hash zname H64 CF rs raw root L).
Qed.
Print Assumptions C14_loaded_zone_keeps_the_rules.

(** ** C47: what is served is what the zone files say *)
Lemma loaded_tree cfg pl hash zs tree : (forall l, hash l < W64) -> zones_fine zs -> load_zones cfg pl hash empty_tree zs = Ok (Some tree) ->
  exists b roots, tree_inv hash b roots tree /\ Forall2 (is_loaded cfg pl hash) (rev zs) roots /\ b < 2 ^ 62.
Proof.
  intros H64 (ZF & LN) H.
  destruct (load_zones_ok cfg pl hash H64 zs 0 [] [] empty_tree tree (tree_inv_start hash 0) ltac:(constructor)) as (b & roots & A & B & C).
  - eapply Forall_impl; [|exact ZF]. intros x (_ & X). exact X.
  - exact LN.
  - exact H.
  - rewrite app_nil_r in B. eauto.
Qed.

(** When all zones have loaded: the tree is sound; below each zone's name the
    names are those of its records and the names above them, each with what
    its records make; nothing is held outside the zones; no zone is given
    twice or lies inside another; and a lookup in the tables never goes wrong
    and finds what the tree (whose lookup C13 and C42 describe) holds. *)
Theorem C47_served_data_is_the_zone_files : forall cfg pl hash zs tree,
  cfg_fine cfg -> (forall l, hash l < W64) -> zones_fine zs ->
  load_zones cfg pl hash empty_tree zs = Ok (Some tree) ->
  wf_db (view tree) /\
  (forall z rs d, In (z, rs) zs -> legal_name (d ++ z) ->
     (name_exists rs d <-> exists n, at_name (view tree) (d ++ z) n) /\
     (forall n, at_name (view tree) (d ++ z) n -> name_holds cfg pl z rs d (n_zcut n) (n_rrsets n))) /\
  (forall q n, at_name (view tree) q n -> (forall z rs p, In (z, rs) zs -> q <> p ++ z) -> n_zcut n = false /\ n_rrsets n = []) /\
  (NoDup (map fst zs) /\ forall z1 rs1 z2 rs2 p, In (z1, rs1) zs -> In (z2, rs2) zs -> z1 = p ++ z2 -> p = []) /\
  (forall q, exists st dom auth k, lsearch hash tree (rev q) None = Ok (st, dom, auth, k) /\
     search (view tree) (rev q) None = (st, option_map view dom, option_map view auth, k)).
Proof.
  intros cfg pl hash zs tree CF H64 ZF H. destruct (loaded_tree cfg pl hash zs tree H64 ZF H) as (b & roots & TI & FL & B).
  split; [exact (tree_wf cfg pl hash H64 CF (rev zs) b roots tree TI FL)|].
  split; [|split; [|split]].
  - intros z rs d I LD. apply in_rev in I. apply (tree_holds cfg pl hash H64 CF (rev zs) b roots tree TI FL z rs d I).
    destruct LD as (LD & _). apply Forall_app in LD. destruct LD as (LD & _). apply Forall_forall. intros l IL E. rewrite Forall_forall in LD. destruct (LD l IL) as ((X & _) & _). subst l. cbn in X. lia.
  - intros q n A O. apply (at_out hash b roots tree TI q n); [|exact A]. intros p z r I. destruct (root_of cfg pl hash (rev zs) roots FL z r I) as (rs & _ & I2 & _). apply in_rev in I2. now apply (O z rs).
  - split.
    + pose proof (ti_once _ _ _ _ TI) as ND. replace (map fst roots) with (map fst (rev zs)) in ND.
      * rewrite map_rev in ND. apply NoDup_rev in ND. now rewrite rev_involutive in ND.
      * clear - FL. induction FL as [|x y l l' R FL IH]; [reflexivity|]. cbn. destruct R as (-> & _). now rewrite IH.
    + intros z1 rs1 z2 rs2 p I1 I2 E. apply in_rev in I1, I2. destruct (zone_root cfg pl hash (rev zs) roots FL z1 rs1 I1) as (r1 & _ & J1 & _). destruct (zone_root cfg pl hash (rev zs) roots FL z2 rs2 I2) as (r2 & _ & J2 & _).
      apply (ti_apart _ _ _ _ TI z1 r1 z2 r2 p J1 J2 E).
  - intros q. destruct (lsearch_view hash H64 b (rev q) tree None (ti_good _ _ _ _ TI)) as ((((st, dom), auth), k) & E & E'). exists st, dom, auth, k. split; [exact E|exact E'].
Qed.
Print Assumptions C47_served_data_is_the_zone_files.

(** Two zones: one with an alias, a wildcard, a plugin's addresses, a mail
    server, two delegations (one with a name server inside it, one with a
    server outside the zone whose address is given), one small. *)
Definition legalb (n : name) : bool :=
  forallb (fun l => Nat.leb 1 (length l) && Nat.leb (length l) 63 && forallb (fun b => b <? 256) l) n && Nat.leb (wire_len n) 255.
Lemma legalb_ok n : legalb n = true -> legal_name n.
Proof.
  unfold legalb. intros H. apply andb_prop in H. destruct H as (H & W). split; [|now apply Nat.leb_le]. rewrite forallb_forall in H. apply Forall_forall. intros l I.
  specialize (H l I). apply andb_prop in H. destruct H as (H & B). apply andb_prop in H. destruct H as (H1 & H2). apply Nat.leb_le in H1, H2. split; [lia|].
  apply Forall_forall. intros b IB. rewrite forallb_forall in B. now apply N.ltb_lt, B.
Qed.
Definition w47_cfg : zcfg := {| z_strict := false; z_max_ttl := 3600; z_min_ttl := 5; z_max_ncache_ttl := 600; z_acme_ttl := 0; z_ecs := true; z_nsid_len := 8; z_cookies := true; z_dyna_max := 500 |}.
Definition w47_pl : plugins := {| pl_find := fun p => match p with [112] => Some (true, Some (fun r _ => match r with Some [114] => 3%Z | _ => (-1)%Z end)) | _ => None end; pl_id := fun p i => 100 + i |}.
Definition w47_hash (l : list N) : N := (fold_right (fun b a => b + 3 * a) 0 l) mod 7.
Definition zn : name := [[101; 120]; [99]].                (* ex.c *)
Definition w47_rs : list record :=
  [ASoa [] ([110] :: zn) ([104] :: zn) 900 1 2 3 4 300; ANs [] ([110] :: zn) 900; AA [[110]] [192; 0; 2; 1] 900 false;
   ACname [[97]] ([119] :: zn) 60; AA [[119]] [192; 0; 2; 2] 300 false; AA [[119]] [192; 0; 2; 3] 300 false;
   ADyna [[120]] [112; 33; 114] 60 30; ATxt [[42]; [119]] [1; 65] 60; AMx [] ([119] :: zn) 60 10;
   ANs [[100]] ([110] :: [100] :: zn) 7200; AA [[110]; [100]] [192; 0; 2; 9] 300 false;
   ANs [[101]] [[120]; [111]] 300; AA [[120]; [111]] [192; 0; 2; 8] 300 true].
Definition w47_zs : list (name * list record) :=
  [(zn, w47_rs); ([[111]; [99]], [ASoa [] ([110] :: zn) ([104] :: zn) 900 1 2 3 4 300; ANs [] ([110] :: zn) 900])].
Lemma w47_fine : zones_fine w47_zs.
Proof.
  split; [|reflexivity].
  repeat (apply Forall_cons; [split; [apply legalb_ok; reflexivity|]; cbn [fst snd w47_rs]; repeat (apply Forall_cons; [|]); try apply Forall_nil; unfold rec_fine; cbn [owner app];
    (split; [try exact I; apply legalb_ok; reflexivity|]); repeat split; try discriminate; try reflexivity; try (intros _); apply legalb_ok; reflexivity|]); apply Forall_nil.
Qed.
Example C14_witness :
  cfg_fine w47_cfg /\ (forall l, w47_hash l < W64) /\ Forall (rec_fine zn) w47_rs /\ N.of_nat (length w47_rs) < 2 ^ 62 /\
  exists root, load_zone w47_cfg w47_pl w47_hash zn w47_rs = Ok (Some root).
Proof.
  split; [split; discriminate|]. split; [intros l; unfold w47_hash; apply (N.lt_trans _ 7); [now apply N.mod_lt|reflexivity]|].
  split; [destruct w47_fine as (F & _); now inversion F as [|? ? (_ & X) _]|]. split; [reflexivity|]. eexists. vm_compute. reflexivity.
Qed.
Example C47_witness :
  cfg_fine w47_cfg /\ (forall l, w47_hash l < W64) /\ zones_fine w47_zs /\
  exists tree, load_zones w47_cfg w47_pl w47_hash empty_tree w47_zs = Ok (Some tree) /\
    n_rrsets (match search (view tree) (rev ([100] :: zn)) None with (_, Some n, _, _) => n | _ => Node false [] [] end) =
      [RsNS 3600 [([110] :: [100] :: zn, Some (300, [[192; 0; 2; 9]]), None)]] /\
    n_rrsets (match search (view tree) (rev ([101] :: zn)) None with (_, Some n, _, _) => n | _ => Node false [] [] end) =
      [RsNS 300 [([[120]; [111]], Some (300, [[192; 0; 2; 8]]), None)]].
Proof.
  split; [split; discriminate|]. split; [intros l; unfold w47_hash; apply (N.lt_trans _ 7); [now apply N.mod_lt|reflexivity]|].
  split; [exact w47_fine|]. eexists. split; [vm_compute; reflexivity|]. split; vm_compute; reflexivity.
Qed.

(** ** C15: chains of aliases end *)
(** In the tree of any zones that have loaded, no chain of aliases is longer than
    16, whatever name it starts from (so there is no loop); and for every
    question, with aliases followed or not, the rules of [resolves] have an
    answer, after at most 16 aliases. *)
Theorem C15_alias_chains_end : forall cfg pl hash zs tree,
  cfg_fine cfg -> (forall l, hash l < W64) -> zones_fine zs ->
  load_zones cfg pl hash empty_tree zs = Ok (Some tree) ->
  forall q, (forall k, alias_chain (view tree) q k -> (k <= 16)%nat) /\
    forall dyn chals no_chain qt, exists r, resolves dyn chals no_chain (view tree) q qt r /\ (length (r_chain r) <= 16)%nat.
Proof.
  intros cfg pl hash zs tree CF H64 ZF H q. destruct (loaded_tree cfg pl hash zs tree H64 ZF H) as (b & roots & TI & FL & B).
  assert (AB : forall k, alias_chain (view tree) q k -> (k <= 16)%nat) by (intros k; exact (alias_bound cfg pl hash H64 CF (rev zs) b roots tree TI FL q k)).
  split; [exact AB|]. intros dyn chals no_chain qt. apply resolves_some; [|exact AB]. exact (tree_wf cfg pl hash H64 CF (rev zs) b roots tree TI FL).
Qed.
Print Assumptions C15_alias_chains_end.

(** [n] aliases in a row, the last one to [last] *)
Definition w15_rs (n : nat) (last : name) : list record :=
  [ASoa [] ([48] :: zn) ([49] :: zn) 900 1 2 3 4 300; ANs [] ([48] :: zn) 900; AA [[48]] [192; 0; 2; 1] 900 false] ++
  map (fun i => ACname [[N.of_nat i + 97]] (if Nat.eqb (S i) n then last else [N.of_nat i + 98] :: zn) 60) (seq 0 n).
Lemma w15_fine n last : (n <= 26)%nat -> legal_name last -> zones_fine [(zn, w15_rs n last)].
Proof.
  intros LE LL. assert (ZL : legal_name zn) by (apply legalb_ok; reflexivity).
  assert (SL : forall x, x < 256 -> legal_name ([x] :: zn)).
  { intros x LX. destruct ZL as (A & _). split; [constructor; [|exact A]; split; [split; apply Nat.leb_le; reflexivity|constructor; [exact LX|constructor]]|apply Nat.leb_le; reflexivity]. }
  split.
  - constructor; [|constructor]. cbn [fst snd]. split; [exact ZL|]. unfold w15_rs. apply Forall_app. split.
    + repeat (apply Forall_cons; [|]); try apply Forall_nil; unfold rec_fine; cbn [owner app]; (split; [apply legalb_ok; reflexivity|]); repeat split; try discriminate; apply legalb_ok; reflexivity.
    + apply Forall_forall. intros r I. apply in_map_iff in I. destruct I as (i & <- & I). apply in_seq in I. unfold rec_fine. cbn [owner app]. split; [apply SL; lia|]. destruct (Nat.eqb (S i) n); [exact LL|apply SL; lia].
  - cbn [length map snd concat]. rewrite app_nil_r. unfold w15_rs. rewrite app_length, map_length, seq_length. cbn [length]. lia.
Qed.
(** sixteen aliases load and the chain is that long; seventeen, or a loop, or an
    alias of itself, are refused *)
Example C15_witness :
  cfg_fine w47_cfg /\ (forall l, w47_hash l < W64) /\ zones_fine [(zn, w15_rs 16 ([48] :: zn))] /\
  (exists tree, load_zones w47_cfg w47_pl w47_hash empty_tree [(zn, w15_rs 16 ([48] :: zn))] = Ok (Some tree)) /\
  load_zones w47_cfg w47_pl w47_hash empty_tree [(zn, w15_rs 17 ([48] :: zn))] = Ok None /\
  load_zones w47_cfg w47_pl w47_hash empty_tree [(zn, w15_rs 5 ([97] :: zn))] = Ok None /\
  load_zones w47_cfg w47_pl w47_hash empty_tree [(zn, w15_rs 1 ([97] :: zn))] = Ok None.
Proof.
  split; [split; discriminate|]. split; [intros l; unfold w47_hash; apply (N.lt_trans _ 7); [now apply N.mod_lt|reflexivity]|].
  split; [apply w15_fine; [apply Nat.leb_le; reflexivity|apply legalb_ok; reflexivity]|]. split; [eexists; vm_compute; reflexivity|]. split; [vm_compute; reflexivity|]. split; vm_compute; reflexivity.
Qed.
