(** C61: the configurations of simplefo, multifo and weighted mean what they say *)
From Coq Require Import String ZArith.
From Verif Require Import Base MonSpec DnameModel DnameSpec DnameProofs CompModel RespModel MonModel VscfModel VscfSpec OptModel VhashModel VhashSpec PlugModel PlugSpec PlugProofs PlugProofs2 PlugProofs4 PlugProps MsgModel MsgProofs2 MsgProofs3 RespProofs5 PconfModel PconfSpec PconfProofs PconfProofs3 PconfProofs4 PconfProofs5 PconfProofs6 PconfProofs7 PconfProofs8.
Local Open Scope N_scope.
Local Open Scope list_scope.
Local Notation length := List.length.
Ltac Zify.zify_post_hook ::= idtac.

(** ** The tables *)
(** The handing down of parameters is that of the hash tables of vscf.rl (C59), whatever the parameter's value is *)
Theorem C61_hand_down : forall mm3 src k ts, made mm3 (DH src) -> Forall (fun e => VhashSpec.room (hval e)) (heap src) -> tree_of (DH src) = TH ts ->
  exists src', VhashModel.bequeath_all mm3 src k true false = Ok (fst (bequeath k ts), src') /\ tree_of (DH src') = TH (snd (bequeath k ts)).
Proof. exact bequeath_exact. Qed.

(** ** What is loaded *)
Theorem C61_simplefo : forall gai service s h, distinct (VH h) -> sound service s ->
  loads service (simplefo_load gai service (Some (fresh (VH h)))) s (simplefo_says gai service h)
    (fun s' ws rs => Forall2 (families (s_made s')) ws rs /\ (rs <> [] -> 1 <= lim4 s' /\ 1 <= lim6 s')).
Proof. intros. apply loads_gives; [|assumption]. now apply simplefo_gives. Qed.

Theorem C61_multifo : forall gai strtod service s h, no_nan strtod (VH h) -> distinct (VH h) -> sized (VH h) -> sound service s ->
  loads service (multifo_load gai strtod service (Some (fresh (VH h)))) s (multifo_says gai strtod service h)
    (fun s' ws rs => Forall2 (families (m_made s')) ws rs /\ Forall (fun w => roomy s' (fun w => length (mw_addrs w)) (snd w)) ws).
Proof. intros. apply loads_gives; [|assumption]. now apply multifo_gives. Qed.

Theorem C61_weighted : forall gai strtod service fq_name junk s h,
  (forall t ls, all_bytes t -> (fq_name t = Some ls <-> name_text t ls true /\ legal_name ls)) -> length junk = 256%nat ->
  no_nan strtod (VH h) -> distinct (VH h) -> labelled (VH h) -> raw_bytes (VH h) -> sound service s ->
  loads service (weighted_load gai strtod service junk (Some (fresh (VH h)))) s (weighted_says gai strtod service fq_name h)
    (fun s' ws rs => Forall2 (fun w r => fst w = fst r /\ what_made s' (snd w) (snd r)) ws rs /\ Forall (fun w => roomy s' w_size (sets_of (snd w))) ws).
Proof. intros. apply loads_gives; [|assumption]. now apply weighted_gives. Qed.

Lemma first_labels ls rest : legal_name ls -> labels_of 256 (firstn (N.to_nat (nth 0 (dname ls true ++ rest) 0)) (tl (dname ls true ++ rest))) = ls.
Proof.
  intros LL. assert (E : firstn (N.to_nat (nth 0 (dname ls true ++ rest) 0)) (tl (dname ls true ++ rest)) = tl (dname ls true)).
  { unfold dname. cbv zeta. set (w := wire_labels ls ++ [term true]). cbn [app nth tl]. rewrite Nat2N.id, firstn_app, Nat.sub_diag, firstn_O, app_nil_r. apply firstn_all. }
  rewrite E, dname_tl. apply labels_of_wn; [apply LL|]. pose proof (legal_count _ (proj1 LL)) as X. destruct LL as (_ & LL). lia.
Qed.
(** There is such a function of names *)
Theorem C61_names : exists fq_name, forall t ls, all_bytes t -> (fq_name t = Some ls <-> name_text t ls true /\ legal_name ls).
Proof.
  exists (fun t => match dname_from_string (repeat 0 256) t with Ok (DNAME_VALID, buf) => Some (labels_of 256 (firstn (N.to_nat (nth 0 buf 0)) (tl buf))) | _ => None end). intros t ls AB.
  destruct (from_string_total (repeat 0 256) t (repeat_length 0 256) AB) as (st & out & E & LO & SO & CO). rewrite E.
  assert (V : forall ls', name_text t ls' true -> legal_name ls' -> st = DNAME_VALID /\ labels_of 256 (firstn (N.to_nat (nth 0 out 0)) (tl out)) = ls').
  { intros ls' TX LL. destruct (CO ls' true TX LL) as (-> & rest & EO). split; [reflexivity|]. rewrite EO. apply first_labels. exact LL. }
  revert V. generalize (labels_of 256 (firstn (N.to_nat (nth 0 out 0)) (tl out))) as lab. intros lab V. split.
  - destruct st; try discriminate. intros [= <-]. destruct SO as (ls' & rest & TX & LL & EO); [discriminate|]. cbn in TX. destruct (V ls' TX LL) as (_ & ->). auto.
  - intros (TX & LL). destruct (V ls TX LL) as (-> & ->). reflexivity.
Qed.

(** One monitor for one service on one thing *)
Theorem C61_shared : forall service s x svc i j, sound service s -> monitors s x svc i -> monitors s x svc j -> i = j.
Proof. intros service s x svc i j (_ & U) A B. exact (U i j _ A B). Qed.

(** The number of a resource is that of the first one with its name *)
Theorem C61_resource : forall A name (rs : list (bytes * A)),
  match map_res name rs 0 with
  | Some i => exists r, nth_error rs i = Some (c_str name, r) /\ forall j n r, nth_error rs j = Some (n, r) -> (j < i)%nat -> n <> c_str name
  | None => forall n r, In (n, r) rs -> n <> c_str name
  end.
Proof.
  intros A name rs. assert (G : forall k, match map_res name rs k with
    | Some i => exists m r, i = (k + m)%nat /\ nth_error rs m = Some (c_str name, r) /\ forall j n r, nth_error rs j = Some (n, r) -> (j < m)%nat -> n <> c_str name
    | None => forall n r, In (n, r) rs -> n <> c_str name end).
  { induction rs as [|(n, r) rs IH]; intros k; [intros ? ? []|]. cbn [map_res]. destruct (bytes_eqb (c_str name) n) eqn:E.
    - apply CompProofs.bytes_eqb_spec in E. subst n. exists 0%nat, r. split; [lia|]. split; [reflexivity|]. intros; lia.
    - assert (NE : n <> c_str name) by (intros ->; rewrite (proj2 (CompProofs.bytes_eqb_spec _ _) eq_refl) in E; discriminate).
      specialize (IH (S k)). destruct (map_res name rs (S k)) as [i|].
      + destruct IH as (m & r' & -> & N & F). exists (S m), r'. split; [lia|]. split; [exact N|]. intros [|j] n' r'' NJ LJ; [injection NJ as <- _; exact NE|]. apply (F j n' r''); [exact NJ|lia].
      + intros n' r' [[= <- _]|I]; [exact NE|eauto]. }
  specialize (G O). destruct (map_res name rs 0); [|exact G]. destruct G as (m & r & -> & N & F). exists r. auto.
Qed.

(** The threshold is the part asked for, rounded up; half if nothing is said *)
Theorem C61_threshold : forall n m e, 0 < n < 2 ^ 32 -> in_range m e = true -> exists u, uscale_ceil n (Fin false m e) = Ok u /\ part_of n m e u.
Proof. exact uscale_ok. Qed.
Theorem C61_half : forall n u, part_of n 1 (-1) u -> n < 2 ^ 32 -> u = (n + 1) / 2.
Proof. exact half_up. Qed.
Theorem C61_weight : forall r v w, weight (VS r v) = Some w <-> weight_text v w.
Proof. exact weight_iff. Qed.

(** ** What is loaded can be used, whatever is monitored and loaded later: the answers are those of C21, C22 and C23 *)
Theorem C61_simplefo_serves : forall gai service s h rs s' s2 tbl n v4 v6, distinct (VH h) -> sound service s ->
  simplefo_load gai service (Some (fresh (VH h))) s = Ok (Some (rs, s')) -> later s' s2 -> tracks tbl s2 -> In (n, (v4, v6)) rs ->
  exists w r, simplefo_resolve (N.to_nat (lim4 s2)) (N.to_nat (lim6 s2)) tbl v4 v6 dres0 = Ok (w, r) /\ two_families (s_says tbl) v4 v6 w r.
Proof.
  intros gai service s h rs s' s2 tbl n v4 v6 D S E L T I. destruct (loads_ok _ _ _ _ _ _ _ (C61_simplefo gai service s h D S) E) as (ws & W & F & R).
  destruct (forall2_in _ _ _ _ F I) as ((n', (a, b)) & IW & _ & MA & MB). unfold simplefo_says in W. pose proof (forall_in _ _ _ (list_facts _ _ _ _ (s_res_facts gai service h) W) IW) as G. cbn in G, MA, MB.
  apply C23_simplefo. assert (R' : 1 <= lim4 s' /\ 1 <= lim6 s') by (apply R; destruct rs; [destruct I|discriminate]).
  eapply both_made; [exact G|exact MA|exact MB| |]; intros w p _ G1 M1; eapply s_serves; eauto.
Qed.
Theorem C61_multifo_serves : forall gai strtod service s h rs s' s2 tbl n v4 v6, no_nan strtod (VH h) -> distinct (VH h) -> sized (VH h) -> sound service s ->
  multifo_load gai strtod service (Some (fresh (VH h))) s = Ok (Some (rs, s')) -> later s' s2 -> tracks tbl s2 -> In (n, (v4, v6)) rs ->
  exists w r, multifo_resolve (N.to_nat (lim4 s2)) (N.to_nat (lim6 s2)) tbl v4 v6 dres0 = Ok (w, r) /\ two_families (m_says tbl) v4 v6 w r /\ (x_v4 r <> [] \/ x_v6 r <> []).
Proof.
  intros gai strtod service s h rs s' s2 tbl n v4 v6 NN D Z S E L T I. destruct (loads_ok _ _ _ _ _ _ _ (C61_multifo gai strtod service s h NN D Z S) E) as (ws & W & F & R).
  destruct (forall2_in _ _ _ _ F I) as ((n', (a, b)) & IW & _ & MA & MB). unfold multifo_says in W. ob W. ob W. injection W as ->. pose proof (forall_in _ _ _ (list_facts _ _ _ _ (m_res_facts gai strtod service h) E0) IW) as G. pose proof (forall_in _ _ _ R IW) as RO. cbn in G, MA, MB, RO.
  assert (H : for_both (fun v x => m_ok (N.to_nat (lim4 s2)) (N.to_nat (lim6 s2)) tbl v x /\ (1 <= ms_up x <= length (ms_as x))%nat) v4 v6).
  { eapply both_made; [exact G|exact MA|exact MB| |]; intros w p EW G1 M1; (eapply m_serves; eauto); [apply (roomy_lim s' s2 L m_size a b false)|apply (roomy_lim s' s2 L m_size a b true)]; auto. }
  destruct (C21_multifo (N.to_nat (lim4 s2)) (N.to_nat (lim6 s2)) tbl v4 v6) as (w & r & ER & TF). { destruct H as (A & B & C). split; [exact A|]. split; intros x X; [apply (B x X)|apply (C x X)]. }
  exists w, r. split; [exact ER|]. split; [exact TF|]. destruct H as (A & B & C), TF as (_ & _ & TF).
  destruct v4 as [x4|]; [left|destruct v6 as [x6|]; [right|destruct A as [A|A]; contradiction]].
  - destruct (B x4 eq_refl) as (M & U & _). destruct v6 as [x6|]; [destruct TF as (d & f & t & _ & _ & _ & Y & _)|destruct TF as (d & f & t & Y & _)]; eapply C21_addresses; eauto.
  - destruct (C x6 eq_refl) as (M & U & _). destruct TF as (d & f & t & Y & _). eapply C21_addresses; eauto.
Qed.
Theorem C61_weighted_serves : forall gai strtod service fq_name junk s h rs s' s2 tbl n x rand,
  (forall t ls, all_bytes t -> (fq_name t = Some ls <-> name_text t ls true /\ legal_name ls)) -> length junk = 256%nat ->
  no_nan strtod (VH h) -> distinct (VH h) -> labelled (VH h) -> raw_bytes (VH h) -> sound service s -> (forall k m, 0 < m -> rand k m < m) ->
  weighted_load gai strtod service junk (Some (fresh (VH h))) s = Ok (Some (rs, s')) -> later s' s2 -> tracks tbl s2 -> In (n, x) rs ->
  match x with
  | WAddrs v4 v6 => exists c4 c6 w r, v4 = option_map mk_conf c4 /\ v6 = option_map mk_conf c6 /\
      weighted_resolve (N.to_nat (lim4 s2)) (N.to_nat (lim6 s2)) tbl rand v4 v6 dres0 = Ok (w, r) /\ two_families (w_says tbl rand) c4 c6 w r
  | WNames c => exists scale items j i f t d, c = mk_cnset scale items /\
      w_resolve_cname tbl rand c dres0 = Ok (word d f t, {| x_cname := Some (wc_name i); x_v4 := []; x_v6 := []; x_scope := 0 |}) /\
      d = (total (map (cnow tbl false) items) <? scale (total (map (cnow tbl true) items))) /\
      nth_error items j = Some i /\ falls_to (map (cnow tbl d) items) (rand 0%nat (total (map (cnow tbl d) items))) j
  end.
Proof.
  intros gai strtod service fq_name junk s h rs s' s2 tbl n x rand FQ JL NN D LA RB S RO E L T I. destruct (loads_ok _ _ _ _ _ _ _ (C61_weighted gai strtod service fq_name junk s h FQ JL NN D LA RB S) E) as (ws & W & F & R).
  destruct (forall2_in _ _ _ _ F I) as ((n', w) & IW & _ & M). unfold weighted_says in W. pose proof (forall_in _ _ _ (list_facts _ _ _ _ (w_res_facts gai strtod service fq_name h) W) IW) as G. pose proof (forall_in _ _ _ R IW) as RM. cbn in G, M, RM.
  destruct w as [c|a b], x as [y|y4 y6]; try contradiction; cbn in G, M, RM.
  - destruct (c_serves s' s2 tbl L T c y G M) as (scale & its & -> & OK & _). destruct (C22_cname tbl rand scale its RO OK) as (j & i & EQ & N & FT & _). exists scale, its, j, i. do 3 eexists. split; [reflexivity|]. split; [exact EQ|]. split; [reflexivity|]. auto.
  - destruct M as (MA & MB). destruct G as (NE & GA & GB).
    assert (HA : exists c4, y4 = option_map mk_conf c4 /\ (y4 <> None <-> a <> None) /\ forall c, c4 = Some c -> w_ok (N.to_nat (lim4 s2)) (N.to_nat (lim6 s2)) tbl false (wf_multi c) (wf_scale c) (wf_groups c)).
    { destruct a as [w|], y4 as [y|]; try contradiction; [|exists None; split; [reflexivity|split; [tauto|discriminate]]].
      destruct (w_serves s' s2 tbl L T false w y) as (c & -> & OK & _); [apply (roomy_lim s' s2 L w_size (Some w) b false); auto|now apply GA|exact MA|]. exists (Some c). split; [reflexivity|]. split; [split; discriminate|]. intros ? [= <-]. exact OK. }
    assert (HB : exists c6, y6 = option_map mk_conf c6 /\ (y6 <> None <-> b <> None) /\ forall c, c6 = Some c -> w_ok (N.to_nat (lim4 s2)) (N.to_nat (lim6 s2)) tbl true (wf_multi c) (wf_scale c) (wf_groups c)).
    { destruct b as [w|], y6 as [y|]; try contradiction; [|exists None; split; [reflexivity|split; [tauto|discriminate]]].
      destruct (w_serves s' s2 tbl L T true w y) as (c & -> & OK & _); [apply (roomy_lim s' s2 L w_size a (Some w) true); auto|now apply GB|exact MB|]. exists (Some c). split; [reflexivity|]. split; [split; discriminate|]. intros ? [= <-]. exact OK. }
    destruct HA as (c4 & -> & N4 & OK4), HB as (c6 & -> & N6 & OK6).
    destruct (C22_weighted (N.to_nat (lim4 s2)) (N.to_nat (lim6 s2)) tbl rand c4 c6 RO) as (w & r & ER & TF).
    { split; [|split; [exact OK4|exact OK6]]. destruct NE as [NE|NE]; [left; apply (proj2 N4) in NE; intros ->; now apply NE|right; apply (proj2 N6) in NE; intros ->; now apply NE]. }
    exists c4, c6, w, r. auto.
Qed.

(** ** What fails an assertion *)
Definition ex_gai (t : bytes) : option addr :=
  if bytes_eqb t (txt "192.0.2.1") then Some (A4 [192; 0; 2; 1]) else
  if bytes_eqb t (txt "192.0.2.2") then Some (A4 [192; 0; 2; 2]) else
  if bytes_eqb t (txt "192.0.2.3") then Some (A4 [192; 0; 2; 3]) else
  if bytes_eqb t (txt "2001:db8::1") then Some (A6 [32; 1; 13; 184; 0; 0; 0; 0; 0; 0; 0; 0; 0; 0; 0; 1]) else None.
(** 0.7 is 6305039478318694 * 2^-53 *)
Definition ex_strtod (t : bytes) : option dbl :=
  if bytes_eqb t (txt "nan") then Some NaN else if bytes_eqb t (txt "0.7") then Some (Fin false 6305039478318694 (-53)) else None.
Definition ex_service (t : bytes) : option (bool * bool) :=
  if bytes_eqb t (txt "up") then Some (true, true) else if bytes_eqb t (txt "web") then Some (true, false) else None.
Definition str (t : string) : vnode := VS (txt t) (txt t).
Definition s_empty : state := State [] 0 0.
Lemma empty_sound service : sound service s_empty.
Proof. split; [intros [|i] svc x H; discriminate|intros [|i] j e H; discriminate]. Qed.

Definition ex_nan : list (bytes * vnode) := [(txt "res", VH [(txt "a", str "192.0.2.1"); (txt "up_thresh", str "nan")])].
Definition ex_wnan : list (bytes * vnode) := [(txt "res", VH [(txt "a", VA [str "192.0.2.1"; str "1"]); (txt "up_thresh", str "nan")])].
Ltac nice := repeat (constructor; cbn; try (intuition (discriminate || congruence || lia))); try (intros _ ? ? [= <- <-]; vm_compute; discriminate).
(** [up_thresh = nan] is neither refused nor used *)
Theorem C61_nan_refuted : exists strtod service gai s h h', distinct (VH h) /\ sized (VH h) /\ distinct (VH h') /\ sized (VH h') /\ labelled (VH h') /\ raw_bytes (VH h') /\ sound service s /\
  multifo_load gai strtod service (Some (fresh (VH h))) s = UB /\ weighted_load gai strtod service (repeat 0 256) (Some (fresh (VH h'))) s = UB.
Proof.
  exists ex_strtod, ex_service, ex_gai, s_empty, ex_nan, ex_wnan. split; [nice|]. split; [nice|]. split; [nice|]. split; [nice|]. split; [nice|]. split; [nice|]. split; [apply empty_sound|]. split; vm_compute; reflexivity.
Qed.
(** A group of addresses with an empty label *)
Definition ex_label : list (bytes * vnode) := [(txt "res", VH [(txt "group", VH [([], VA [str "192.0.2.1"; str "1"])])])].
Theorem C61_empty_label_refuted : exists strtod service gai s h, no_nan strtod (VH h) /\ distinct (VH h) /\ sized (VH h) /\ raw_bytes (VH h) /\ sound service s /\
  weighted_load gai strtod service (repeat 0 256) (Some (fresh (VH h))) s = UB.
Proof.
  exists ex_strtod, ex_service, ex_gai, s_empty, ex_label. split; [nice|]. split; [nice|]. split; [nice|]. split; [nice|]. split; [apply empty_sound|]. vm_compute; reflexivity.
Qed.

(** ** Witnesses *)
Definition ex_simplefo : list (bytes * vnode) :=
  [(txt "service_types", str "web");
   (txt "one", VH [(txt "primary", str "192.0.2.1"); (txt "secondary", str "192.0.2.2"); (txt "service_types", VA [str "up"; str "web"])]);
   (txt "two", VH [(txt "addrs_v4", VH [(txt "primary", str "192.0.2.1"); (txt "secondary", str "192.0.2.3")])])].
Example C61_witness : distinct (VH ex_simplefo) /\ sound ex_service s_empty /\
  simplefo_load ex_gai ex_service (Some (fresh (VH ex_simplefo))) s_empty =
    Ok (Some ([(txt "one", (Some {| sp_pri := A4 [192; 0; 2; 1]; sp_sec := A4 [192; 0; 2; 2]; sp_pidx := [0; 1]%nat; sp_sidx := [2; 3]%nat |}, None));
               (txt "two", (Some {| sp_pri := A4 [192; 0; 2; 1]; sp_sec := A4 [192; 0; 2; 3]; sp_pidx := [1]%nat; sp_sidx := [4]%nat |}, None))],
              State [Some (txt "up", OnAddr (A4 [192; 0; 2; 1])); Some (txt "web", OnAddr (A4 [192; 0; 2; 1]));
                     Some (txt "up", OnAddr (A4 [192; 0; 2; 2])); Some (txt "web", OnAddr (A4 [192; 0; 2; 2])); Some (txt "web", OnAddr (A4 [192; 0; 2; 3]))] 1 1)).
Proof. split; [nice|]. split; [apply empty_sound|]. vm_compute. reflexivity. Qed.

Definition ex_multifo : list (bytes * vnode) :=
  [(txt "up_thresh", str "0.7");
   (txt "one", VA [str "192.0.2.1"; str "192.0.2.2"; str "192.0.2.3"]);
   (txt "two", VH [(txt "ignore_health", str "true"); (txt "addrs_v6", VH [(txt "a", str "2001:db8::1")]); (txt "addrs_v4", str "192.0.2.1")])].
Example C61_witness_multifo : no_nan ex_strtod (VH ex_multifo) /\ distinct (VH ex_multifo) /\ sized (VH ex_multifo) /\
  exists s', multifo_load ex_gai ex_strtod ex_service (Some (fresh (VH ex_multifo))) s_empty =
    Ok (Some ([(txt "one", (Some {| ms_as := [{| ma_addr := A4 [192; 0; 2; 1]; ma_idx := [0%nat] |}; {| ma_addr := A4 [192; 0; 2; 2]; ma_idx := [1%nat] |};
                                              {| ma_addr := A4 [192; 0; 2; 3]; ma_idx := [2%nat] |}]; ms_up := 3; ms_ignore := false |}, None));
               (txt "two", (Some {| ms_as := [{| ma_addr := A4 [192; 0; 2; 1]; ma_idx := [0%nat] |}]; ms_up := 1; ms_ignore := true |},
                            Some {| ms_as := [{| ma_addr := A6 [32; 1; 13; 184; 0; 0; 0; 0; 0; 0; 0; 0; 0; 0; 0; 1]; ma_idx := [3%nat] |}]; ms_up := 1; ms_ignore := true |}))], s')) /\
    length (mons s') = 4%nat /\ lim4 s' = 3 /\ lim6 s' = 1.
Proof. split; [nice|]. split; [nice|]. split; [nice|]. eexists. split; [vm_compute; reflexivity|]. split; [reflexivity|]. split; reflexivity. Qed.

Definition ex_weighted : list (bytes * vnode) :=
  [(txt "multi", str "true");
   (txt "grouped", VH [(txt "a", VH [(txt "x", VA [str "192.0.2.1"; str "10"]); (txt "y", VA [str "192.0.2.2"; str "0x10"])]); (txt "b", VH [(txt "z", VA [str "192.0.2.3"; str "3"])])]);
   (txt "names", VH [(txt "n", VA [str "www.example."; str "7"]); (txt "up_thresh", str "0.7"); (txt "m", VA [str "x."; str "4"])])].
Example C61_witness_weighted : no_nan ex_strtod (VH ex_weighted) /\ distinct (VH ex_weighted) /\ labelled (VH ex_weighted) /\ raw_bytes (VH ex_weighted) /\
  exists s' g n, weighted_load ex_gai ex_strtod ex_service (repeat 0 256) (Some (fresh (VH ex_weighted))) s_empty = Ok (Some ([(txt "grouped", WAddrs (Some g) None); (txt "names", WNames n)], s')) /\
    ws_multi g = true /\ map (fun i => map (fun a => (wa_addr a, wa_weight a, wa_idx a)) (wi_as i)) (ws_items g) =
      [[(A4 [192; 0; 2; 1], 10, [0%nat]); (A4 [192; 0; 2; 2], 16, [1%nat])]; [(A4 [192; 0; 2; 3], 3, [2%nat])]] /\
    ws_weight g = 29 /\ ws_up g = 15 /\
    map (fun c => (wc_name c, wc_weight c, wc_idx c)) (wn_items n) = [([txt "www"; txt "example"], 7, [3%nat]); ([txt "x"], 4, [4%nat])] /\
    wn_weight n = 11 /\ wn_up n = 8 /\ lim4 s' = 2 /\ lim6 s' = 0.
Proof. split; [nice|]. split; [nice|]. split; [nice|]. split; [nice|]. do 3 eexists. split; [vm_compute; reflexivity|]. repeat split. Qed.
(** The table of states *)
Example C61_witness_serves : exists s' rs v4, simplefo_load ex_gai ex_service (Some (fresh (VH ex_simplefo))) s_empty = Ok (Some (rs, s')) /\ In (txt "two", (Some v4, None)) rs /\
  tracks (repeat (word false false 10) 5) s' /\
  simplefo_resolve 1 1 (repeat (word false false 10) 5) (Some v4) None dres0 = Ok (word false false 10, {| x_cname := None; x_v4 := [[192; 0; 2; 1]]; x_v6 := []; x_scope := 0 |}).
Proof.
  do 3 eexists. split; [vm_compute; reflexivity|]. split; [right; left; reflexivity|]. split; [|vm_compute; reflexivity].
  intros i e H. do 5 (destruct i as [|i]; [split; [cbn; lia|cbn [nth repeat]; now apply legal_word]|]). destruct i; discriminate.
Qed.

Print Assumptions C61_hand_down.
Print Assumptions C61_simplefo.
Print Assumptions C61_multifo.
Print Assumptions C61_weighted.
Print Assumptions C61_names.
Print Assumptions C61_shared.
Print Assumptions C61_resource.
Print Assumptions C61_threshold.
Print Assumptions C61_half.
Print Assumptions C61_weight.
Print Assumptions C61_simplefo_serves.
Print Assumptions C61_multifo_serves.
Print Assumptions C61_weighted_serves.
Print Assumptions C61_nan_refuted.
Print Assumptions C61_empty_label_refuted.
