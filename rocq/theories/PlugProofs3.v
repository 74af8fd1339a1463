(** metafo and geoip. *)
From Verif Require Import Base MonModel MonSpec MonProofs PlugModel PlugSpec PlugProofs.
Local Open Scope N_scope.
Ltac Zify.zify_post_hook ::= idtac.

Definition is_def (o : option dc) : bool := match o with Some _ => true | None => false end.

Lemma filter_len_le {A} (p : A -> bool) l : (length (filter p l) <= length l)%nat.
Proof. induction l as [|x l IH]; cbn [filter length]; [lia|]. destruct (p x); cbn [length]; lia. Qed.
Lemma filter_all {A} (p : A -> bool) l : length (filter p l) = length l -> forall x, In x l -> p x = true.
Proof.
  induction l as [|y l IH]; intros H x I; [destruct I|]. cbn [filter length] in H. pose proof (filter_len_le p l). destruct (p y) eqn:E; cbn [length] in H; [|lia].
  destruct I as [<-|I]; [exact E|]. apply IH; [lia|exact I].
Qed.
Lemma positions_len l : forall i, length (filter (fun n => is_def (nth (n - i) l None)) (seq i (length l))) = length (filter is_def l).
Proof.
  induction l as [|o l IH]; intros i; [reflexivity|]. cbn [length seq filter]. rewrite Nat.sub_diag. change (nth 0 (o :: l) None) with o.
  assert (E : filter (fun n => is_def (nth (n - i) (o :: l) None)) (seq (S i) (length l)) = filter (fun n => is_def (nth (n - S i) l None)) (seq (S i) (length l))).
  { apply filter_ext_in. intros n I. apply in_seq in I. replace (n - i)%nat with (S (n - S i)) by lia. reflexivity. }
  rewrite E. specialize (IH (S i)). destruct (is_def o); cbn [length]; now rewrite IH.
Qed.

Section Meta.
  Variable tbl : list N.
  Variable sub : nat -> nat -> dres -> res (N * dres).
  Variable sub_fine : sub_ok sub.

  Lemma wiped r : set_xscope (wipe r) 0 = dres0.
  Proof. reflexivity. Qed.
  Lemma resolve_dc_ok d k : dc_ok tbl d -> exists w r, own tbl sub k d w r /\ resolve_dc tbl sub d k dres0 = Ok (overruled tbl d w, r) /\ w_legal (overruled tbl d w).
  Proof.
    intros ((HI & HL) & HM & HW). unfold resolve_dc, own.
    assert (E : exists w r, match dc_what d with
        | DcCname n idx => w = word (down tbl idx) (forced tbl idx) (ttl tbl idx) /\ r = {| x_cname := Some n; x_v4 := []; x_v6 := []; x_scope := 0 |}
        | DcSub p => sub p k dres0 = Ok (w, r) end /\
      match dc_what d with
      | DcCname n idx => do r <- add_cname dres0 n; do s <- sttl_min tbl idx; Ok (s, r)
      | DcSub p => sub p k dres0
      end = Ok (w, r) /\ w_legal w).
    { destruct (dc_what d) as [n idx|p].
      - cbn [add_cname dres0 x_cname x_v4 x_v6 x_scope rbind]. rewrite (sttl_min_eq _ _ HW). cbn [rbind]. eexists. eexists. split; [split; reflexivity|]. split; [reflexivity|]. now apply legal_word.
      - destruct (sub_fine p k) as (w & r & ES & L). exists w, r. rewrite ES. auto. }
    destruct E as (w & r & O & E & L). exists w, r. split; [exact O|]. rewrite E. cbn [rbind]. unfold overruled.
    assert (E2 : exists v, match dc_map_idx d with Some i => do w0 <- rd tbl i; Ok (if has w0 STTL_FORCED then w0 else w) | None => Ok w end = Ok v /\ w_legal v /\
      v = match dc_map_idx d with Some i => if w_forced (nth i tbl 0) then nth i tbl 0 else w | None => w end).
    { destruct (dc_map_idx d) as [i|]; [|eauto]. destruct (HM i eq_refl) as [H1 H2]. unfold rd. rewrite (nth_error_nth' tbl 0%N H1). cbn [rbind]. rewrite has_forced.
      destruct (w_forced (nth i tbl 0)); eauto. }
    destruct E2 as (v & -> & LV & EV). cbn [rbind]. unfold rd. rewrite (nth_error_nth' tbl 0%N HI). cbn [rbind]. rewrite has_forced, <- EV.
    destruct (w_forced (nth (dc_idx d) tbl 0)); auto.
  Qed.

  Variable m : m_res.
  Variable mok : mr_ok tbl m.
  Definition at_dc (n : nat) (d : dc) : Prop := (n <= mr_num m)%nat /\ nth_error (mr_dcs m) n = Some (Some d).
  Lemma get_at n d : at_dc n d -> get_dc m n = Ok d.
  Proof. intros [_ H]. unfold get_dc, rd. rewrite H. reflexivity. Qed.
  Lemma at_fine n d : at_dc n d -> dc_ok tbl d.
  Proof. intros [_ H]. destruct mok as (_ & _ & _ & _ & F). eapply F; exact H. Qed.

  Lemma dc_loop_ok ns ds : Forall2 at_dc ns ds -> forall k d f t r, t < 2 ^ 28 ->
    exists ws o r', asked tbl sub k ds ws o /\
      dc_loop tbl sub m ns k (word d f t) r =
      Ok (word (match o with Some _ => false | None => d || negb (match ns with [] => true | _ => false end) end) (f || existsb w_forced ws) (N.min t (least (map w_ttl ws))), r') /\
      (forall x, o = Some x -> r' = x).
  Proof.
    induction 1 as [|n d0 ns ds A HF IH]; intros k d f t r Ht.
    - exists [], None, r. split; [constructor|]. cbn [dc_loop existsb map least fold_right negb]. rewrite !orb_false_r. split; [|discriminate].
      replace (N.min t (2 ^ 28 - 1)) with t by (cbn in *; lia). reflexivity.
    - cbn [dc_loop]. destruct (Nat.leb_spec n (mr_num m)) as [_|C]; [|destruct A; lia]. cbn [rassert]. rewrite (get_at _ _ A). cbn [rbind]. rewrite wiped.
      destruct (resolve_dc_ok d0 k (at_fine _ _ A)) as (w & x & O & E & L). rewrite E. cbn [rbind]. rewrite (legal_valid _ L). cbn [rassert]. rewrite has_down.
      set (v := overruled tbl d0 w) in *. replace (sttl_min2 (word d f t) v) with (word (d || w_down v) (f || w_forced v) (N.min t (w_ttl v)))
        by (rewrite (word_split v L) at 4; symmetry; apply min2_words; auto using ttl_lt).
      destruct (w_down v) eqn:EV; cbn [negb].
      + pose proof (ttl_lt v) as LT. destruct (IH (S k) true (f || w_forced v)%bool (N.min t (w_ttl v)) x ltac:(lia)) as (ws & o & r' & AS & EL & RX).
        exists (v :: ws), o, r'. split; [now apply as_down with x|]. split; [|exact RX]. rewrite orb_true_r. rewrite EL. cbn [existsb map negb]. rewrite orb_assoc, <- least_min. cbn [orb].
        rewrite (N.min_comm (least _) (w_ttl v)), N.min_assoc. reflexivity.
      + exists [v], (Some x), x. split; [now apply as_up|]. split; [|intros y [= <-]; reflexivity]. pose proof (ttl_lt v) as LT. rewrite clear_down by lia. cbn [existsb map least fold_right].
        rewrite orb_false_r. do 3 f_equal. cbn in *. lia.
  Qed.

  Definition in_map (n : nat) : Prop := (1 <= n <= mr_num m)%nat.
  Lemma defined_pairs l : Forall in_map l -> exists ns, Forall2 at_dc ns (defined m l) /\ dc_filter m l = Ok ns /\ incl ns l /\ (NoDup l -> NoDup ns).
  Proof.
    destruct mok as (_ & LN & _). induction 1 as [|n l [H1 H2] HF IH]; cbn [defined dc_filter].
    - exists []. repeat split; [constructor|apply incl_refl|constructor].
    - destruct IH as (ns & F2 & E & I & ND). unfold rd. destruct (nth_error (mr_dcs m) n) as [o|] eqn:EN; [|apply nth_error_None in EN; lia]. cbn [rbind]. rewrite E. cbn [rbind].
      destruct o as [d|].
      + exists (n :: ns). split; [constructor; [split; auto|exact F2]|]. split; [reflexivity|]. split; [intros y [<-|Y]; [cbn; auto|right; auto]|].
        intros N1. inversion N1; subst. constructor; auto.
      + exists ns. split; [exact F2|]. split; [reflexivity|]. split; [intros y Y; right; auto|]. intros N1. inversion N1; auto.
  Qed.
  Lemma all_defined l : mr_num m = mr_defined m -> Forall in_map l -> Forall2 at_dc l (defined m l).
  Proof.
    destruct mok as (_ & LN & N0 & DE & _). intros E. rewrite DE in E. destruct (mr_dcs m) as [|o dcs] eqn:ED; [discriminate LN|]. cbn in N0. injection N0 as ->.
    cbn [filter length] in E, LN. assert (EA : length (filter is_def dcs) = length dcs) by (unfold is_def; lia). pose proof (filter_all _ _ EA) as A.
    induction 1 as [|n l [H1 H2] HF IH]; cbn [defined]; [constructor|]. destruct n as [|n]; [lia|]. rewrite ED. cbn [nth_error].
    destruct (nth_error dcs n) as [o|] eqn:EN; [|apply nth_error_None in EN; lia]. pose proof (A o (nth_error_In _ _ EN)) as D. destruct o as [d|]; [|discriminate].
    constructor; [|exact IH]. split; [exact H2|]. rewrite ED. exact EN.
  Qed.
  Lemma filtered_short ns ds : Forall2 at_dc ns ds -> NoDup ns -> (length ns <= mr_defined m)%nat.
  Proof.
    intros F2 ND. destruct mok as (_ & _ & _ & -> & _). change (fun o => match o with Some _ => true | None => false end) with is_def. rewrite <- (positions_len (mr_dcs m) 0).
    apply NoDup_incl_length; [exact ND|]. intros n I. apply filter_In. rewrite Nat.sub_0_r.
    assert (exists d, at_dc n d) as (d & _ & E). { clear ND. induction F2 as [|x y ns ds A F2 IH]; [destruct I|]. destruct I as [<-|I]; eauto. }
    split; [apply in_seq; split; [lia|apply nth_error_Some; congruence]|]. now rewrite (nth_error_nth _ _ None E).
  Qed.
  Lemma skip_pairs ns ds : Forall2 at_dc ns ds -> Forall2 at_dc (match ns with _ :: ((_ :: _) as rest) => if mr_skip m then rest else ns | _ => ns end) (usable m ds).
  Proof.
    intros F2. destruct F2 as [|n d ns ds A F2]; [constructor|]. destruct F2 as [|n2 d2 ns ds A2 F2]; cbn [usable]; [constructor; [exact A|constructor]|].
    destruct (mr_skip m); [constructor; auto|constructor; [exact A|constructor; auto]].
  Qed.
  Lemma meta_ok synth dclist scope r :
    let l := if Nat.eqb synth 0 then dclist else [synth] in
    Forall in_map l -> NoDup l ->
    let dcs := usable m (defined m l) in
    exists ws o r', asked tbl sub 0 dcs ws o /\
      meta_resolve tbl sub m synth dclist scope r =
        Ok (word (match o with Some _ => false | None => negb (match dcs with [] => true | _ => false end) end) (existsb w_forced ws) (least (map w_ttl ws)),
            add_scope_mask r' (if Nat.eqb synth 0 then scope else 0)) /\
      match o, dcs with
      | Some x, _ => r' = x
      | None, first :: _ => exists w, own tbl sub (length dcs) first w r'
      | None, [] => r' = r
      end.
  Proof.
    intros l HM ND dcs. unfold meta_resolve.
    set (sc := if Nat.eqb synth 0 then scope else 0).
    replace (if Nat.eqb synth 0 then (dclist, scope) else ([synth], 0)) with (l, sc) by (unfold l, sc; destruct (Nat.eqb synth 0); reflexivity).
    assert (E1 : exists ns, (if Nat.eqb (mr_num m) (mr_defined m) then Ok l else do f <- dc_filter m l; rassert (Nat.ltb (length f) 255) (Ok f)) = Ok ns /\ Forall2 at_dc ns (defined m l)).
    { destruct (Nat.eqb_spec (mr_num m) (mr_defined m)) as [E|NE].
      - exists l. split; [reflexivity|]. now apply all_defined.
      - destruct (defined_pairs l HM) as (ns & F2 & E & _ & N1). exists ns. rewrite E. cbn [rbind]. split; [|exact F2].
        pose proof (filtered_short _ _ F2 (N1 ND)) as LE. destruct mok as (L255 & LN & N0 & DE & _).
        assert (DL : (mr_defined m <= mr_num m)%nat).
        { rewrite DE. destruct (mr_dcs m) as [|o rest]; [discriminate LN|]. cbn in N0. injection N0 as ->. cbn [filter length] in *. pose proof (filter_len_le is_def rest). unfold is_def in *. lia. }
        destruct (Nat.ltb_spec (length ns) 255); [reflexivity|lia]. }
    destruct E1 as (ns & -> & F2). cbn [rbind]. apply skip_pairs in F2. fold dcs in F2.
    set (ns' := match ns with _ :: ((_ :: _) as rest) => if mr_skip m then rest else ns | _ => ns end) in *. clearbody ns' dcs. clear ns l HM ND. rename ns' into ns.
    destruct F2 as [|n d ns ds A F2].
    - exists [], None, r. split; [constructor|]. cbn [rbind existsb map least fold_right negb]. split; [reflexivity|reflexivity].
    - set (NS := n :: ns) in *. set (DS := d :: ds) in *. assert (F2' : Forall2 at_dc NS DS) by (constructor; auto).
      destruct (dc_loop_ok NS DS F2' 0 false false (2 ^ 28 - 1) r ltac:(reflexivity)) as (ws & o & r1 & AS & EL & RX). rewrite word_max.
      assert (LT : least (map w_ttl ws) < 2 ^ 28) by apply least_lt.
      replace (N.min (2 ^ 28 - 1) (least (map w_ttl ws))) with (least (map w_ttl ws)) in EL by (cbn in *; lia).
      cbn [orb] in EL. unfold NS at 1. cbn [rbind]. fold NS. rewrite EL. cbn [rbind]. rewrite has_word by auto. destruct o as [x|].
      + exists ws, (Some x), r1. split; [exact AS|]. cbn [rbind]. rewrite valid_word by auto. split; [reflexivity|]. now apply RX.
      + unfold NS at 1. cbn [negb]. rewrite (get_at _ _ A). cbn [rbind]. rewrite wiped.
        assert (EN : length NS = length DS) by (clear -F2'; induction F2'; cbn; congruence). rewrite EN.
        destruct (resolve_dc_ok d (length DS) (at_fine _ _ A)) as (w & x & O & E & L). rewrite E. cbn [rbind]. unfold NS at 1. cbn [negb]. rewrite valid_word by auto.
        exists ws, None, x. split; [exact AS|]. split; [reflexivity|]. exists w. exact O.
  Qed.
End Meta.
