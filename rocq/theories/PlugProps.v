(** C21-C24: what multifo, weighted, simplefo, metafo and geoip answer. *)
From Verif Require Import Base MonModel MonSpec MonProofs PlugModel PlugSpec PlugProofs PlugProofs2 PlugProofs3 PlugProofs4.
Local Open Scope N_scope.
Ltac Zify.zify_post_hook ::= idtac.

(** ** C21 *)
Theorem C21_multifo : forall lim4 lim6 tbl v4 v6, for_both (m_ok lim4 lim6 tbl) v4 v6 ->
  exists w r, multifo_resolve lim4 lim6 tbl v4 v6 dres0 = Ok (w, r) /\ two_families (m_says tbl) v4 v6 w r.
Proof. exact multifo_ok. Qed.

(** ... never empty, nothing invented, nothing repeated. *)
Theorem C21_addresses : forall lim4 lim6 tbl v6 s d f t l, m_ok lim4 lim6 tbl v6 s -> (1 <= ms_up s)%nat -> m_says tbl v6 s d f t l ->
  l <> [] /\ incl l (m_addrs (ms_as s)) /\ (NoDup (m_addrs (ms_as s)) -> NoDup l).
Proof. exact m_says_fine. Qed.

Definition ex_tbl : list N := [word false false 10; word true false 20; word true true 30; word false false 40].
Definition ex_v4 : m_set :=
  {| ms_as := [{| ma_addr := A4 [192; 0; 2; 1]; ma_idx := [0%nat] |}; {| ma_addr := A4 [192; 0; 2; 2]; ma_idx := [1%nat; 0%nat] |};
               {| ma_addr := A4 [192; 0; 2; 3]; ma_idx := [3%nat] |}]; ms_up := 2; ms_ignore := false |}.
Definition ex_v6 : m_set :=
  {| ms_as := [{| ma_addr := A6 [1]; ma_idx := [0%nat] |}; {| ma_addr := A6 [2]; ma_idx := [2%nat] |}]; ms_up := 2; ms_ignore := false |}.
Lemma ex_known i : (i < 4)%nat -> (i < length ex_tbl)%nat /\ w_legal (nth i ex_tbl 0).
Proof. intros H. split; [exact H|]. do 4 (destruct i as [|i]; [now apply legal_word|]). lia. Qed.
Example C21_witness : for_both (m_ok 8 8 ex_tbl) (Some ex_v4) (Some ex_v6) /\
  multifo_resolve 8 8 ex_tbl (Some ex_v4) (Some ex_v6) dres0 =
    Ok (word true true 10, {| x_cname := None; x_v4 := [[192; 0; 2; 1]; [192; 0; 2; 3]]; x_v6 := [[1]; [2]]; x_scope := 0 |}).
Proof.
  split; [|vm_compute; reflexivity]. split; [left; discriminate|].
  split; intros s [= <-]; (split; [discriminate|]); (split; [cbn; lia|]); cbn;
    repeat (constructor; [split; [reflexivity|repeat (constructor; [apply ex_known; lia|])]; constructor|]); constructor.
Qed.

(** ** C22 *)
Theorem C22_weighted : forall lim4 lim6 tbl rand v4 v6, (forall k m, 0 < m -> rand k m < m) ->
  for_both (fun v c => w_ok lim4 lim6 tbl v (wf_multi c) (wf_scale c) (wf_groups c)) v4 v6 ->
  exists w r, weighted_resolve lim4 lim6 tbl rand (option_map mk_conf v4) (option_map mk_conf v6) dres0 = Ok (w, r) /\
    two_families (w_says tbl rand) v4 v6 w r.
Proof. exact weighted_ok. Qed.

Lemma sums_pos lim4 lim6 tbl v c : w_ok lim4 lim6 tbl v (wf_multi c) (wf_scale c) (wf_groups c) ->
  0 < total (map (gsum tbl (negb (w_enough tbl c))) (wf_groups c)).
Proof.
  intros (NE & _ & HF & _ & HS).
  assert (A : 0 < all_total tbl (wf_groups c)).
  { destruct (wf_groups c) as [|g gs]; [congruence|]. apply Forall_inv in HF. destruct HF as (NG & _ & HG). destruct g as [|a g]; [congruence|].
    apply Forall_inv in HG. destruct HG as (_ & HW & _). unfold all_total, gsum. cbn [map total fold_right]. fold (total (map (now tbl true) g)). unfold now at 1. cbn [orb]. lia. }
  unfold w_enough. fold (up_total tbl (wf_groups c)) (all_total tbl (wf_groups c)). specialize (HS _ A).
  destruct (N.leb_spec (wf_scale c (all_total tbl (wf_groups c))) (up_total tbl (wf_groups c))) as [H|H]; cbn [negb]; [unfold up_total in H; lia|exact A].
Qed.
Theorem C22_never_empty : forall lim4 lim6 tbl rand v6 c d f t l, (forall k m, 0 < m -> rand k m < m) ->
  w_ok lim4 lim6 tbl v6 (wf_multi c) (wf_scale c) (wf_groups c) -> w_says tbl rand v6 c d f t l -> l <> [].
Proof.
  intros lim4 lim6 tbl rand v6 c d f t l RO H (-> & _ & _ & out & -> & A). pose proof (sums_pos _ _ _ _ _ H) as P.
  assert (out <> []) as NE; [|unfold w_bytes; now destruct out].
  destruct (wf_multi c).
  - eapply multi_nonempty in A; try exact A; auto using largest_pos. apply largest_in. intros E. rewrite E in P. cbn in P. lia.
  - eapply single_nonempty in A; eauto.
Qed.
(** Only configured addresses, and unless too little weight is up, only
    addresses that are up. *)
Theorem C22_only_eligible : forall tbl rand v6 c d f t l b, (forall k m, 0 < m -> rand k m < m) -> w_says tbl rand v6 c d f t l -> In b l ->
  exists g a, In g (wf_groups c) /\ In a g /\ b = bytes_of (wa_addr a) /\ (w_enough tbl c = true -> down tbl (wa_idx a) = false).
Proof.
  intros tbl rand v6 c d f t l b RO (-> & _ & _ & out & -> & A) I. unfold w_bytes in I. apply in_map_iff in I. destruct I as (a & <- & I).
  assert (exists g, In g (wf_groups c) /\ In a g /\ 0 < now tbl (negb (w_enough tbl c)) a) as (g & G & IA & P).
  { destruct (wf_multi c); [eapply multi_in|eapply single_in]; eauto. }
  exists g, a. split; [exact G|]. split; [exact IA|]. split; [reflexivity|]. intros E. rewrite E in P. unfold now in P. cbn [negb orb] in P. destruct (down tbl (wa_idx a)); [cbn in P; lia|reflexivity].
Qed.
Theorem C22_no_repeats : forall tbl rand v6 c d f t l, w_says tbl rand v6 c d f t l ->
  NoDup (w_bytes (concat (wf_groups c))) -> NoDup l.
Proof.
  intros tbl rand v6 c d f t l (_ & _ & _ & out & -> & A) ND. destruct (wf_multi c); [eapply multi_nodup|eapply single_nodup]; eauto.
Qed.
(** Shares: of the draws below the total, exactly one interval as long as the
    weight falls to each entry, and every draw falls to exactly one. *)
Theorem C22_share : forall ws,
  (forall j w, nth_error ws j = Some w -> exists a, a + w <= total ws /\ forall d, falls_to ws d j <-> a <= d < a + w) /\
  (forall d, d < total ws -> exists j, falls_to ws d j /\ forall i, falls_to ws d i -> i = j).
Proof.
  intros ws. split.
  - intros j w H. pose proof (firstn_S_nth _ _ _ H) as E. exists (total (firstn j ws)). split.
    + rewrite <- (firstn_skipn (S j) ws) at 2. rewrite total_app, E, total_app. cbn [total fold_right]. lia.
    + intros d. unfold falls_to. rewrite E, total_app. cbn [total fold_right]. assert (j < length ws)%nat by (apply nth_error_Some; congruence). split; [intros (_ & X)|intros X; split; [assumption|]]; lia.
  - assert (G : forall ws b d, b <= d < b + total ws -> exists j, (j < length ws)%nat /\ b + total (firstn j ws) <= d < b + total (firstn (S j) ws)).
    { clear. induction ws as [|w ws IH]; intros b d H; [cbn in H; lia|]. cbn [total fold_right] in H. fold (total ws) in H. destruct (N.ltb_spec d (b + w)) as [L|L].
      - exists O. cbn [length firstn total fold_right]. split; [lia|]. lia.
      - destruct (IH (b + w) d ltac:(lia)) as (j & J & B). exists (S j). split; [cbn [length]; lia|]. cbn [firstn] in B |- *. cbn [total fold_right].
        fold (total (firstn j ws)). destruct ws as [|w2 ws]; [cbn in J; lia|]. cbn [total fold_right] in *. fold (total (firstn j ws)) in *. lia. }
    intros d H. destruct (G ws 0 d ltac:(lia)) as (j & J & B). exists j. assert (F : falls_to ws d j) by (split; [exact J|lia]). split; [exact F|]. intros i FI. eapply falls_unique; eauto.
Qed.
Theorem C22_cname : forall tbl rand scale items, (forall k m, 0 < m -> rand k m < m) -> wc_ok tbl scale items ->
  let all := total (map (cnow tbl false) items) <? scale (total (map (cnow tbl true) items)) in
  exists j c, w_resolve_cname tbl rand (mk_cnset scale items) dres0 =
      Ok (word all (existsb (fun c => forced tbl (wc_idx c)) items) (least (map (fun c => ttl tbl (wc_idx c)) items)),
          {| x_cname := Some (wc_name c); x_v4 := []; x_v6 := []; x_scope := 0 |}) /\
    nth_error items j = Some c /\ falls_to (map (cnow tbl all) items) (rand 0%nat (total (map (cnow tbl all) items))) j /\
    (all = false -> down tbl (wc_idx c) = false).
Proof.
  intros tbl rand scale items RO H all. destruct (w_cname_ok 0%nat tbl rand RO scale items H) as (j & c & E & N & F). exists j, c. split; [exact E|]. split; [exact N|]. split; [exact F|].
  intros EA. fold all in F. rewrite EA in F. pose proof (falls_pos _ _ _ (cnow tbl false c) F) as P. rewrite nth_error_map, N in P. specialize (P eq_refl). unfold cnow in P. cbn [orb] in P.
  destruct (down tbl (wc_idx c)); [cbn in P; lia|reflexivity].
Qed.

Definition ex_conf (multi : bool) : w_conf :=
  {| wf_scale := fun w => (w + 1) / 2; wf_multi := multi;
     wf_groups := [[{| wa_addr := A4 [1]; wa_weight := 3; wa_idx := [0%nat] |}; {| wa_addr := A4 [2]; wa_weight := 5; wa_idx := [1%nat] |}];
                   [{| wa_addr := A4 [3]; wa_weight := 7; wa_idx := [3%nat] |}]] |}.
Lemma ex_conf_ok multi : w_ok 8 8 ex_tbl false (wf_multi (ex_conf multi)) (wf_scale (ex_conf multi)) (wf_groups (ex_conf multi)).
Proof.
  split; [discriminate|]. split; [cbn; lia|]. split.
  - repeat (constructor; [split; [discriminate|split; [cbn; lia|]]; repeat (constructor; [split; [reflexivity|split; [cbn; lia|constructor; [apply ex_known; lia|constructor]]]|]); constructor|]); constructor.
  - split; [destruct multi; [cbn; lia|repeat (constructor; [cbn; lia|]); constructor]|]. intros w W. cbn [wf_scale ex_conf].
    split; [apply N.div_str_pos; lia|]. apply N.div_le_upper_bound; lia.
Qed.
Example C22_witness :
  for_both (fun v c => w_ok 8 8 ex_tbl v (wf_multi c) (wf_scale c) (wf_groups c)) (Some (ex_conf true)) None /\
  (forall k m : N, 0 < m -> (fun (k : nat) (m : N) => m / 2) 0%nat m < m) /\
  weighted_resolve 8 8 ex_tbl (fun _ m => m / 2) (option_map mk_conf (Some (ex_conf true))) None dres0 =
    Ok (word false false 10, {| x_cname := None; x_v4 := [[3]]; x_v6 := []; x_scope := 0 |}) /\
  weighted_resolve 8 8 ex_tbl (fun _ _ => 0) (option_map mk_conf (Some (ex_conf false))) None dres0 =
    Ok (word false false 10, {| x_cname := None; x_v4 := [[1]]; x_v6 := []; x_scope := 0 |}).
Proof.
  split; [split; [left; discriminate|split; intros s [= <-]; apply ex_conf_ok]|].
  split; [intros _ m M; apply N.div_lt; lia|]. split; vm_compute; reflexivity.
Qed.

(** ** C23 *)
Theorem C23_simplefo : forall lim4 lim6 tbl v4 v6, for_both (s_ok lim4 lim6 tbl) v4 v6 ->
  exists w r, simplefo_resolve lim4 lim6 tbl v4 v6 dres0 = Ok (w, r) /\ two_families (s_says tbl) v4 v6 w r.
Proof. exact simplefo_ok. Qed.
Definition ex_pair : s_pair := {| sp_pri := A4 [1]; sp_sec := A4 [2]; sp_pidx := [1%nat]; sp_sidx := [3%nat; 0%nat] |}.
Example C23_witness : for_both (s_ok 1 1 ex_tbl) (Some ex_pair) None /\
  simplefo_resolve 1 1 ex_tbl (Some ex_pair) None dres0 = Ok (word false false 10, {| x_cname := None; x_v4 := [[2]]; x_v6 := []; x_scope := 0 |}).
Proof.
  split; [|vm_compute; reflexivity]. split; [left; discriminate|]. split; intros s [= <-]. split; [cbn; lia|]. split; [reflexivity|]. split; [reflexivity|].
  split; repeat (constructor; [apply ex_known; lia|]); constructor.
Qed.

(** ** C24 *)
Theorem C24_datacenter : forall tbl sub m synth dclist scope r, sub_ok sub -> mr_ok tbl m ->
  let l := if Nat.eqb synth 0 then dclist else [synth] in
  Forall (fun n => (1 <= n <= mr_num m)%nat) l -> NoDup l ->
  let dcs := usable m (defined m l) in
  exists ws o r', asked tbl sub 0 dcs ws o /\
    meta_resolve tbl sub m synth dclist scope r =
      Ok (word (match o with Some _ => false | None => negb (match dcs with [] => true | _ => false end) end) (existsb w_forced ws) (least (map w_ttl ws)),
          add_scope_mask r' (if Nat.eqb synth 0 then scope else 0)) /\
    match o, dcs with
    | Some x, _ => r' = x
    | None, first :: _ => exists w, own tbl sub (length dcs) first w r'
    | None, [] => r' = r
    end.
Proof. intros tbl sub m synth dclist scope r SO MO. now apply meta_ok. Qed.
(** What being asked means: the answer is that of the first one not down, and
    without an answer all are down. *)
Theorem C24_first : forall tbl sub ds k ws o, asked tbl sub k ds ws o ->
  match o with
  | Some r => exists before d after w, ds = before ++ d :: after /\ own tbl sub (k + length before) d w r /\ w_down (overruled tbl d w) = false /\
      (forall i b, nth_error before i = Some b -> exists w r, own tbl sub (k + i) b w r /\ w_down (overruled tbl b w) = true)
  | None => forall i b, nth_error ds i = Some b -> exists w r, own tbl sub (k + i) b w r /\ w_down (overruled tbl b w) = true
  end.
Proof.
  intros tbl sub ds k ws o A. induction A as [k|k d ds w r O U|k d ds w r ws o O D A IH].
  - intros i b H. destruct i; discriminate.
  - exists [], d, ds, w. rewrite Nat.add_0_r. repeat split; auto. intros i b H. destruct i; discriminate.
  - assert (EX : forall (l : list dc), (forall i b, nth_error l i = Some b -> exists w r, own tbl sub (S k + i) b w r /\ w_down (overruled tbl b w) = true) ->
      forall i b, nth_error (d :: l) i = Some b -> exists w r, own tbl sub (k + i) b w r /\ w_down (overruled tbl b w) = true).
    { intros l HL i b E. destruct i as [|i]; [injection E as <-; rewrite Nat.add_0_r; eauto|]. rewrite <- Nat.add_succ_comm. now apply HL. }
    destruct o as [x|].
    + destruct IH as (before & d' & after & w' & -> & O' & U' & B). exists (d :: before), d', after, w'. cbn [length app].
      rewrite <- Nat.add_succ_comm. split; [reflexivity|]. split; [exact O'|]. split; [exact U'|]. now apply EX.
    + now apply EX.
Qed.
(** A resource that lacks the datacenter named in "res/dc" answers nothing
    and calls itself up. *)
Definition ex_dc (i : nat) (n : N) : dc := {| dc_map_idx := None; dc_idx := i; dc_what := DcCname [[n]] [i] |}.
Definition ex_res : m_res := {| mr_dcs := [None; Some (ex_dc 1 97); None; Some (ex_dc 2 98); Some (ex_dc 3 99)]; mr_num := 4; mr_defined := 3; mr_skip := false |}.
Lemma ex_res_ok : mr_ok ex_tbl ex_res.
Proof.
  split; [cbn; lia|]. split; [reflexivity|]. split; [reflexivity|]. split; [reflexivity|]. intros n d.
  assert (G : forall i x, (i < 4)%nat -> dc_ok ex_tbl (ex_dc i x)).
  { intros i x L. split; [now apply ex_known|]. split; [discriminate|]. constructor; [now apply ex_known|constructor]. }
  do 5 (destruct n as [|n]; [cbn; intros E; try discriminate; try (injection E as <-; apply G; lia)|]).
  destruct n; discriminate.
Qed.
Theorem C24_answers_something_refuted : exists tbl sub m synth, sub_ok sub /\ mr_ok tbl m /\ (1 <= synth <= mr_num m)%nat /\
  meta_resolve tbl sub m synth [] 0 dres0 = Ok (word false false (2 ^ 28 - 1), dres0).
Proof.
  exists ex_tbl, (fun _ _ r => Ok (word false false 1, r)), ex_res, 2%nat. split; [intros p k; do 2 eexists; split; [reflexivity|now apply legal_word]|].
  split; [apply ex_res_ok|]. split; [cbn; lia|]. vm_compute. reflexivity.
Qed.
Example C24_witness : sub_ok (fun _ _ r => Ok (word false false 1, r)) /\ mr_ok ex_tbl ex_res /\
  meta_resolve ex_tbl (fun _ _ r => Ok (word false false 1, r)) ex_res 0 [2; 1; 3; 4]%nat 24 dres0 =
    Ok (word false true 20, {| x_cname := Some [[99]]; x_v4 := []; x_v6 := []; x_scope := 24 |}) /\
  meta_resolve ex_tbl (fun _ _ r => Ok (word false false 1, r)) ex_res 0 [2; 3; 1]%nat 24 dres0 =
    Ok (word true true 20, {| x_cname := Some [[98]]; x_v4 := []; x_v6 := []; x_scope := 24 |}).
Proof.
  split; [intros p k; do 2 eexists; split; [reflexivity|now apply legal_word]|]. split; [apply ex_res_ok|]. split; vm_compute; reflexivity.
Qed.

Print Assumptions C21_multifo.
Print Assumptions C21_addresses.
Print Assumptions C22_weighted.
Print Assumptions C22_never_empty.
Print Assumptions C22_only_eligible.
Print Assumptions C22_no_repeats.
Print Assumptions C22_share.
Print Assumptions C22_cname.
Print Assumptions C23_simplefo.
Print Assumptions C24_datacenter.
Print Assumptions C24_first.
Print Assumptions C24_answers_something_refuted.
