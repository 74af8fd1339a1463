(** Lists from the configuration, and merging two lists. *)
From Verif Require Import Base NetModel NetSpec NetBits NetProofs NetProofs2 NetProofs3 NetProofs4.
From Coq Require Import Permutation Sorted.
Ltac Zify.zify_post_hook ::= idtac.

(** ** The last match is the longest *)
Definition top_match (l : list net) (x : list bool) (n : net) : Prop :=
  In n l /\ pb (pre n) x = true /\ forall m, In m l -> pb (pre m) x = true -> length (pre m) <= length (pre n).
Lemma lm_top l x d : StronglySorted le l -> (exists n, top_match l x n /\ lm l d x = n_dc n) \/ ((forall n, In n l -> pb (pre n) x = false) /\ lm l d x = d).
Proof.
  revert d. induction l as [|a l IH]; intros d S; [right; split; [intros n []|reflexivity]|]. apply StronglySorted_inv in S. destruct S as [S F]. rewrite Forall_forall in F. unfold lm. cbn [fold_left]. fold (lm l (if pb (pre a) x then n_dc a else d) x).
  destruct (IH (if pb (pre a) x then n_dc a else d) S) as [(n & (I & P & M) & E)|[NO E]].
  - left. exists n. split; [|exact E]. split; [cbn; auto|]. split; [exact P|]. intros m [<-|IM] PM; [|auto]. destruct (Nat.le_gt_cases (length (pre a)) (length (pre n))) as [L|L]; [exact L|]. exfalso.
    assert (Q : pb (pre n) (pre a) = true) by (eapply pb_chain; eauto; lia). specialize (F n I). apply pb_le in Q. assert (N : pre a <> pre n) by (intros X; rewrite X in L; lia). apply (lt_not_le a n); auto. now apply le_ne.
  - rewrite E. destruct (pb (pre a) x) eqn:PA; [left; exists a|right].
    + split; [|reflexivity]. split; [cbn; auto|]. split; [exact PA|]. intros m [<-|IM] PM; [lia|]. rewrite NO in PM by exact IM. discriminate.
    + split; [|reflexivity]. intros n [<-|I]; auto.
Qed.
Lemma top_unique l x n n' : top_match l x n -> top_match l x n' -> pre n = pre n'.
Proof.
  intros (I & P & M) (I' & P' & M'). assert (L : length (pre n) = length (pre n')) by (apply Nat.le_antisymm; auto). apply pb_firstn in P, P'. rewrite <- P, <- P', L. reflexivity.
Qed.
Lemma sorted_weak l : StronglySorted lt l -> StronglySorted le l.
Proof. induction 1 as [|a l S IH F]; constructor; auto. eapply Forall_impl; [|exact F]. intros b. apply lt_le. Qed.
Lemma sorted_unique l a b : StronglySorted lt l -> In a l -> In b l -> pre a = pre b -> a = b.
Proof.
  induction 1 as [|c l S IH F]; intros A B E; [destruct A|]. rewrite Forall_forall in F. destruct A as [<-|A], B as [<-|B]; auto.
  - specialize (F _ B). unfold lt in F. rewrite E, lex_refl in F. discriminate.
  - specialize (F _ A). unfold lt in F. rewrite E, lex_refl in F. discriminate.
Qed.

(** ** Cleared networks *)
Definition clean (n n' : net) : Prop := wfn n' /\ n_mask n' = n_mask n /\ n_dc n' = n_dc n /\ pre n' = firstn (n_mask n) (bits (n_ip n)).
Lemma clear_clean n : is_ip (n_ip n) -> n_mask n <= 128 -> exists ip', clear_mask_bits (n_ip n) (n_mask n) = Ok ip' /\ clean n {| n_ip := ip'; n_mask := n_mask n; n_dc := n_dc n |}.
Proof.
  intros HI HM. destruct (clear_bits _ _ HI HM) as (ip' & E & HI' & EB). exists ip'. split; [exact E|]. assert (EP : firstn (n_mask n) (bits ip') = firstn (n_mask n) (bits (n_ip n))).
  { rewrite EB, firstn_app, firstn_firstn, Nat.min_id, firstn_length, bits_len. rewrite Nat.min_l by lia. rewrite Nat.sub_diag. cbn. apply app_nil_r. }
  split; [|split; [reflexivity|split; [reflexivity|exact EP]]]. split; [exact HI'|]. split; [exact HM|]. unfold pre. cbn [n_ip n_mask]. rewrite EP. exact EB.
Qed.
Lemma clean_covers n n' x : is_ip (n_ip n) -> n_mask n <= 128 -> clean n n' -> is_ip x -> covers n x <-> pb (pre n') (bits x) = true.
Proof.
  intros HI HM (W & EM & ED & EP) HX. unfold covers. rewrite share_fl by (destruct HI, HX; lia). rewrite <- !fl_bits by auto. rewrite pb_firstn, pre_len by exact W. rewrite EM, EP. split; congruence.
Qed.
Lemma append_clean l n : is_ip (n_ip n) -> n_mask n <= 128 -> exists n', nlist_append {| l_nets := l; l_norm := false |} (n_ip n) (n_mask n) (n_dc n) = Ok {| l_nets := l ++ [n']; l_norm := false |} /\ clean n n'.
Proof. intros HI HM. destruct (clear_clean n HI HM) as (ip' & E & C). unfold nlist_append. rewrite E. cbn [rbind l_norm l_nets]. eauto. Qed.
Lemma append_wf l n : wfn n -> nlist_append {| l_nets := l; l_norm := false |} (n_ip n) (n_mask n) (n_dc n) = Ok {| l_nets := l ++ [n]; l_norm := false |}.
Proof.
  intros W. pose proof W as (HI & HM & _). destruct (append_clean l n HI HM) as (n' & -> & C). destruct C as (W' & EM & ED & EP). now rewrite (rec_eq n' n W' W EP ED).
Qed.
Lemma append_all_wf l : Forall wfn l -> forall m, append_all {| l_nets := m; l_norm := false |} l = Ok {| l_nets := m ++ l; l_norm := false |}.
Proof.
  induction 1 as [|n l W F IH]; intros m; cbn [append_all]; [now rewrite app_nil_r|]. rewrite append_wf by exact W. cbn [rbind]. rewrite IH. now rewrite <- app_assoc.
Qed.

(** ** The configured list *)
Lemma undef_wf : Forall wfn undef_nets.
Proof.
  assert (G : forall ip m d, is_ip ip -> m <= 128 -> bits ip = firstn m (bits ip) ++ repeat false (128 - m) -> wfn {| n_ip := ip; n_mask := m; n_dc := d |}) by (intros; split; [assumption|split; assumption]).
  repeat (constructor; [apply G; [split; [reflexivity|repeat (constructor; [unfold is_byte; lia|]); constructor]|lia|reflexivity]|]). constructor.
Qed.
Lemma nets_one_ok c n : cnet_ok c -> nets_one c = Some n -> is_ip (n_ip n) /\ n_mask n <= 128 /\ (n_dc n < 2147483647)%N.
Proof.
  destruct c as [ip m d|ip m d]; cbn [cnet_ok nets_one].
  - intros (L & B & D). destruct (Nat.ltb_spec 128 (m + 96)); [discriminate|]. intros [= <-]. cbn [n_ip n_mask n_dc]. split; [|split; [lia|exact D]]. apply (canon_ip (C4 ip)). split; auto.
  - intros (I & D). destruct (Nat.ltb_spec 128 m); [discriminate|]. destruct (check_v4_issues ip m); [discriminate|]. intros [= <-]. auto.
Qed.
(** no configured network lies in a space that stands for IPv4 *)
Lemma not_in_undef c n n' u : cnet_ok c -> nets_one c = Some n -> clean n n' -> In u undef_nets -> pb (pre u) (pre n') = false.
Proof.
  intros OK E C IU. apply not_true_iff_false. intros P. destruct (nets_one_ok c n OK E) as (HI & HM & _). pose proof C as (W & EM & _ & EP).
  assert (WU : wfn u) by (pose proof undef_wf as WU; rewrite Forall_forall in WU; auto). pose proof (pb_len _ _ P) as L. rewrite !pre_len in L by auto. rewrite EM in L.
  assert (K : exists k, n_mask u = 8 * k /\ k <= 16 /\ firstn k (n_ip u) = firstn k (n_ip n)).
  { assert (KK : exists k, n_mask u = 8 * k /\ k <= 16) by (cbn in IU; destruct IU as [<-|[<-|[<-|[<-|[<-|[]]]]]]; cbn [n_mask]; [exists 12|exists 12|exists 12|exists 2|exists 4]; split; (reflexivity || lia)).
    destruct KK as (k & EK & LK). exists k. split; [exact EK|]. split; [exact LK|]. apply firstn_bits_8; [apply WU|exact HI|]. apply pb_firstn in P. rewrite pre_len in P by exact WU. rewrite EP, firstn_firstn, Nat.min_l in P by exact L. rewrite <- EK. symmetry. exact P. }
  destruct K as (k & EK & LK & EF). destruct c as [ip m d|ip m d]; cbn [nets_one] in E.
  - destruct (Nat.ltb_spec 128 (m + 96)); [discriminate|]. injection E as <-. cbn [n_ip] in EF. cbn in IU. destruct IU as [<-|[<-|[<-|[<-|[<-|[]]]]]]; cbn [n_mask n_ip] in *;
      [assert (k = 12) by lia|assert (k = 12) by lia|assert (k = 12) by lia|assert (k = 2) by lia|assert (k = 4) by lia]; subst k; cbn in EF; discriminate.
  - destruct (Nat.ltb_spec 128 m); [discriminate|]. destruct (check_v4_issues ip m) eqn:V; [discriminate|]. injection E as <-. cbn [n_ip n_mask] in *. unfold check_v4_issues, v6_subnet_of in V.
    apply orb_false_iff in V. destruct V as [V V5]. apply orb_false_iff in V. destruct V as [V V4]. apply orb_false_iff in V. destruct V as [V V3]. apply orb_false_iff in V. destruct V as [V1 V2].
    assert (G : forall um ip0, um <= m -> firstn (um / 8) ip0 = firstn (um / 8) ip -> (Nat.leb um m && same (um / 8) ip ip0)%bool = false -> False).
    { intros um ip0 LU EU V0. apply andb_false_iff in V0. destruct V0 as [V0|V0]; [apply Nat.leb_gt in V0; lia|]. apply not_true_iff_false in V0. apply V0, same_iff. symmetry. exact EU. }
    cbn in IU. destruct IU as [<-|[<-|[<-|[<-|[<-|[]]]]]]; cbn [n_mask n_ip] in *;
      [assert (k = 12) by lia; subst k; now apply (G 96 start_v4mapped)|assert (k = 12) by lia; subst k; now apply (G 96 start_siit)|assert (k = 12) by lia; subst k; now apply (G 96 start_wkp)
      |assert (k = 2) by lia; subst k; now apply (G 16 start_6to4)|assert (k = 4) by lia; subst k; now apply (G 32 start_teredo)].
Qed.

Lemma special_undef b : is_ip b -> special b <-> exists u, In u undef_nets /\ pb (pre u) (bits b) = true.
Proof.
  intros HI. assert (G : forall u k, In u undef_nets -> n_mask u = 8 * k -> pb (pre u) (bits b) = true <-> same k b (n_ip u) = true).
  { intros u k IU EK. pose proof undef_wf as WU. rewrite Forall_forall in WU. specialize (WU u IU). rewrite pb_firstn, pre_len, same_iff by exact WU. unfold pre. rewrite EK. apply firstn_bits_8; [exact HI|apply WU]. }
  split.
  - intros [H|[H|[H|[H|H]]]];
      [exists {| n_ip := start_v4mapped; n_mask := 96; n_dc := NN_UNDEF |}|exists {| n_ip := start_siit; n_mask := 96; n_dc := NN_UNDEF |}|exists {| n_ip := start_wkp; n_mask := 96; n_dc := NN_UNDEF |}
      |exists {| n_ip := start_teredo; n_mask := 32; n_dc := NN_UNDEF |}|exists {| n_ip := start_6to4; n_mask := 16; n_dc := NN_UNDEF |}]; (split; [cbn; tauto|]);
      [apply (G _ 12)|apply (G _ 12)|apply (G _ 12)|apply (G _ 4)|apply (G _ 2)]; (exact H || reflexivity || (cbn; tauto)).
  - intros (u & IU & P). pose proof IU as IU'. cbn in IU. unfold special. destruct IU as [<-|[<-|[<-|[<-|[<-|[]]]]]];
      [apply (G _ 12) in P|apply (G _ 12) in P|apply (G _ 12) in P|apply (G _ 2) in P|apply (G _ 4) in P]; try exact IU'; try reflexivity; cbn [n_ip] in P; tauto.
Qed.
Lemma canon_plain c : caddr_ok c -> ~ special (canon c).
Proof.
  intros OK. assert (Z : forall q, ~ special (repeat 0%N 12 ++ q)) by (intros q [H|[H|[H|[H|H]]]]; apply same_iff in H; cbn in H; discriminate).
  destruct c as [b|b]; [apply Z|]. cbn [caddr_ok] in OK. destruct (fixup_canon b OK) as [(v & adj & _ & SP & _)|(_ & E & NS)]; [|now rewrite E].
  unfold canon. unfold startsb. unfold special in SP.
  change (same (length (repeat 0%N 10 ++ [255%N; 255%N])) b (repeat 0%N 10 ++ [255%N; 255%N])) with (same 12 b start_v4mapped).
  change (same (length (repeat 0%N 8 ++ [255%N; 255%N; 0%N; 0%N])) b (repeat 0%N 8 ++ [255%N; 255%N; 0%N; 0%N])) with (same 12 b start_siit).
  change (same (length ([0%N; 100%N; 255%N; 155%N] ++ repeat 0%N 8)) b ([0%N; 100%N; 255%N; 155%N] ++ repeat 0%N 8)) with (same 12 b start_wkp).
  change (same (length [32%N; 1%N; 0%N; 0%N]) b [32%N; 1%N; 0%N; 0%N]) with (same 4 b start_teredo).
  change (same (length [32%N; 2%N]) b [32%N; 2%N]) with (same 2 b start_6to4).
  repeat match goal with |- ~ special (if ?c then _ else _) => destruct c eqn:?; [apply Z|] end. destruct SP as [H|[H|[H|[H|H]]]]; congruence.
Qed.

Definition dcs_ok (l : list net) : Prop := Forall (fun n => dcok (n_dc n)) l.

Lemma nets_parse_ok cfg : Forall cnet_ok cfg -> forall l0,
  (nets_parse cfg {| l_nets := l0; l_norm := false |} = Ok None /\ exists c, In c cfg /\ nets_one c = None) \/
  exists cs, nets_parse cfg {| l_nets := l0; l_norm := false |} = Ok (Some {| l_nets := l0 ++ cs; l_norm := false |}) /\ length cs = length cfg /\
    Forall2 (fun c n' => exists n, nets_one c = Some n /\ clean n n') cfg cs /\ Forall2 clean (conf_nets cfg) cs.
Proof.
  induction 1 as [|c cfg OK F IH]; intros l0; cbn [nets_parse].
  - right. exists []. rewrite app_nil_r. repeat split; auto. constructor.
  - destruct (nets_one c) as [n|] eqn:E; [|left; split; [reflexivity|exists c; cbn; auto]]. destruct (nets_one_ok c n OK E) as (HI & HM & _). destruct (append_clean l0 n HI HM) as (n' & -> & C). cbn [rbind].
    destruct (IH (l0 ++ [n'])) as [(-> & c' & IC & EC)|(cs & -> & L & F2 & F3)]; [left; split; [reflexivity|exists c'; cbn; auto]|]. right. exists (n' :: cs). rewrite <- app_assoc. cbn [app]. split; [reflexivity|]. split; [cbn; congruence|]. split; [constructor; eauto|].
    unfold conf_nets. cbn [flat_map]. rewrite E. cbn [app]. constructor; auto.
Qed.

Lemma F2_in_l {A B} (R : A -> B -> Prop) l l' a : Forall2 R l l' -> In a l -> exists b, In b l' /\ R a b.
Proof. induction 1 as [|x y l l' H F IH]; [intros []|]. intros [<-|I]; [exists y; cbn; auto|]. destruct (IH I) as (b & IB & RB). exists b. cbn. auto. Qed.
Lemma F2_in_r {A B} (R : A -> B -> Prop) l l' b : Forall2 R l l' -> In b l' -> exists a, In a l /\ R a b.
Proof. induction 1 as [|x y l l' H F IH]; [intros []|]. intros [<-|I]; [exists x; cbn; auto|]. destruct (IH I) as (a & IA & RA). exists a. cbn. auto. Qed.
Lemma conf_in cfg n : Forall cnet_ok cfg -> In n (conf_nets cfg) -> is_ip (n_ip n) /\ n_mask n <= 128 /\ (n_dc n < 2147483647)%N.
Proof.
  intros F I. unfold conf_nets in I. apply in_flat_map in I. destruct I as (c & IC & IN). rewrite Forall_forall in F. destruct (nets_one c) as [m|] eqn:E; [|destruct IN]. destruct IN as [<-|[]]. eapply nets_one_ok; eauto.
Qed.

Lemma match_ne {A B} (l : list A) (x y : B) : l <> [] -> match l with [] => x | _ :: _ => y end = y.
Proof. destruct l; congruence. Qed.

Section Sort.
  Variable sort : list net -> list net.
  Hypothesis SO : sort_ok sort.

  Lemma passes_len : forall fuel l L w, passes sort fuel l = Ok (L, w) -> length L <= length l.
  Proof.
      induction fuel as [|fuel IH]; intros l L w; cbn [passes]; [discriminate|]. unfold normalize_1pass at 1. destruct l as [|n t]; [discriminate|]. destruct (pass1 n [] t) as [[[r k] w']|] eqn:E1; cbn [rbind]; [|discriminate].
      assert (LR : length r = length (n :: t)).
      { assert (Q : forall l na dels r k w, pass1 na dels l = Ok (r, k, w) -> length r = S (length l) + length dels).
        { clear. induction l as [|nb l IH]; intros na dels r k w; cbn [pass1]; [intros [= <- _ _]; cbn; lia|]. destruct (net_eq na nb).
          - destruct (pass1 na (dels ++ [deleted nb]) l) as [[[r' k'] w']|] eqn:E; cbn [rbind]; [|discriminate]. intros [= <- _ _]. apply IH in E. rewrite app_length in E. cbn in *. lia.
          - destruct (mergeable_nets na nb) as [[]|]; cbn [rbind]; [| |discriminate].
            + intros E. apply IH in E. rewrite app_length in E. cbn in *. lia.
            + destruct (pass1 nb [] l) as [[[r' k'] w']|] eqn:E; cbn [rbind]; [|discriminate]. intros [= <- _ _]. apply IH in E. cbn. rewrite app_length. cbn in *. lia. }
        apply Q in E1. cbn in *. lia. }
      destruct (Nat.eqb k 0); cbn [rbind]; [intros [= <- _]; lia|]. destruct (passes sort fuel _) as [[L' w'']|] eqn:E2; cbn [rbind]; [|discriminate]. intros [= <- _]. apply IH in E2. rewrite firstn_length in E2. cbn [length] in *. lia.
  Qed.

  Theorem make_list_ok cfg : Forall cnet_ok cfg -> no_conflict (conf_nets cfg) -> all_reached (conf_nets cfg) ->
    (nets_make_list sort cfg = Ok None /\ exists c, In c cfg /\ nets_one c = None) \/
    exists L, length L <= length cfg + 5 /\ nets_make_list sort cfg = Ok (Some ({| l_nets := L; l_norm := true |}, false)) /\ Fin L /\ dcs_ok L /\ (forall c d, adj c d L -> ~ kin c d) /\
      (forall c, caddr_ok c -> (exists n, In n (conf_nets cfg) /\ covers n (canon c) /\ n_dc n = lm L 0 (bits (canon c)) /\ (forall n', In n' (conf_nets cfg) -> covers n' (canon c) -> n_mask n' <= n_mask n) /\ forall d, lm L d (bits (canon c)) = n_dc n) \/
        (uncovered (conf_nets cfg) (canon c) /\ forall d, lm L d (bits (canon c)) = d)) /\
      (forall b d, is_ip b -> special b -> lm L d (bits b) = NN_UNDEF).
  Proof.
    intros OK NC AR. unfold nets_make_list. destruct (nets_parse_ok cfg OK []) as [(-> & c & IC & EC)|(cs & -> & LEN & F1 & F2)]; [left; split; [reflexivity|eauto]|right]. cbn [rbind app]. rewrite append_all_wf by apply undef_wf. cbn [rbind].
    set (L0 := cs ++ undef_nets). unfold nlist_finish. cbn [l_norm]. unfold nlist_normalize. cbn [l_nets]. assert (NE : L0 <> []) by (unfold L0; intros X; apply app_eq_nil in X; destruct X; discriminate).
    destruct (SO L0) as [PM SS]. set (s := sort L0) in *.
    assert (IFF : forall n, In n s <-> In n L0) by (intros n; split; apply Permutation_in; [exact PM|symmetry; exact PM]).
    assert (CSN : forall n', In n' cs -> exists n, In n (conf_nets cfg) /\ clean n n') by (intros n' I; apply (F2_in_r _ _ _ _ F2 I)).
    assert (W0 : Forall wfn L0). { apply Forall_app. split; [|apply undef_wf]. apply Forall_forall. intros n' I. destruct (CSN n' I) as (n & _ & C). apply C. }
    assert (WS : Forall wfn s) by (rewrite Forall_forall in *; intros n I; apply W0, IFF, I).
    assert (SL : StronglySorted le s).
    { clear - SS WS. induction SS as [|a l S IH F]; constructor; inversion WS; subst; auto. rewrite Forall_forall in *. intros b I. apply net_le_le; auto. }
    assert (NIU : forall n' u, In n' cs -> In u undef_nets -> pb (pre u) (pre n') = false).
    { intros n' u I IU. destruct (F2_in_r _ _ _ _ F1 I) as (c & IC & n & E & C). rewrite Forall_forall in OK. eapply not_in_undef; eauto. }
    assert (UU : forall u u', In u undef_nets -> In u' undef_nets -> pb (pre u) (pre u') = true -> u = u').
    { intros u u' IU IU'. cbn in IU, IU'. destruct IU as [<-|[<-|[<-|[<-|[<-|[]]]]]], IU' as [<-|[<-|[<-|[<-|[<-|[]]]]]]; try reflexivity; intros X; vm_compute in X; discriminate X. }
    assert (C0 : consistent L0).
    { intros a b IA IB E. unfold L0 in IA, IB. apply in_app_iff in IA, IB. destruct IA as [IA|IA], IB as [IB|IB].
      - destruct (CSN a IA) as (na & INA & (WA & MA & DA & PA)). destruct (CSN b IB) as (nb & INB & (WB & MB & DB & PB)). rewrite DA, DB. destruct (conf_in cfg na OK INA) as (HIA & HMA & _). destruct (conf_in cfg nb OK INB) as (HIB & HMB & _).
        assert (EM : n_mask na = n_mask nb). { rewrite <- MA, <- MB, <- (pre_len a WA), <- (pre_len b WB). congruence. }
        apply NC; auto. rewrite share_fl by (destruct HIA, HIB; lia). rewrite <- !fl_bits by auto. rewrite <- PA, E, PB, EM. reflexivity.
      - specialize (NIU a b IA IB). rewrite E, pb_refl in NIU. discriminate.
      - specialize (NIU b a IB IA). rewrite E, pb_refl in NIU. discriminate.
      - f_equal. apply UU; auto. rewrite E. apply pb_refl. }
    assert (NU : forall c u, caddr_ok c -> In u undef_nets -> pb (pre u) (bits (canon c)) = false).
    { intros c u HC IU. apply not_true_iff_false. intros P. apply (canon_plain c HC). apply special_undef; [now apply canon_ip|]. eauto. }
    assert (COV : forall n n' c, In n (conf_nets cfg) -> clean n n' -> caddr_ok c -> covers n (canon c) <-> pb (pre n') (bits (canon c)) = true).
    { intros n n' c I C HC. destruct (conf_in cfg n OK I) as (HI & HM & _). apply clean_covers; auto. now apply canon_ip. }
    assert (CLEN : forall n n', clean n n' -> length (pre n') = n_mask n) by (intros n n' (W' & EM & _); now rewrite pre_len, EM).
    assert (J0 : forall n, In n L0 -> seen n L0).
    { intros n' I. apply in_app_iff in I. destruct I as [I|I].
      - destruct (CSN n' I) as (n & IN & C). destruct (AR n IN) as (c & HC & CV & MX). exists (bits (canon c)). split; [apply bits_len|]. split; [apply (COV n n' c); auto|].
        intros m IM P. unfold L0 in IM. apply in_app_iff in IM. destruct IM as [IM|IM]; [|rewrite NU in P by auto; discriminate]. destruct (CSN m IM) as (nm & INM & CM). rewrite (CLEN nm m CM), (CLEN n n' C). apply MX; auto. apply (COV nm m c); auto.
      - pose proof undef_wf as WU. rewrite Forall_forall in WU. specialize (WU n' I). exists (bits (n_ip n')). split; [apply bits_len|]. split; [apply pb_firstn; rewrite pre_len by exact WU; reflexivity|].
        intros m IM P. destruct (Nat.le_gt_cases (length (pre m)) (length (pre n'))) as [L|L]; [exact L|exfalso]. assert (Q : pb (pre n') (pre m) = true) by (apply pb_chain with (x := bits (n_ip n')); [apply pb_firstn; rewrite pre_len by exact WU; reflexivity|exact P|lia]).
        unfold L0 in IM. apply in_app_iff in IM. destruct IM as [IM|IM]; [rewrite NIU in Q by auto; discriminate|]. apply UU in Q; auto. subst m. lia. }
    rewrite match_ne by exact NE. cbn zeta. fold s. clearbody s.
    destruct s as [|n s']. { exfalso. apply NE. destruct L0 as [|z L0']; [reflexivity|]. destruct (proj2 (IFF z) (or_introl eq_refl)). }
    assert (INV : Inv [] n s').
    { split; [exact WS|]. split; [constructor|]. split; [constructor|]. split; [exact SL|]. split; [intros a b A B; apply C0; apply IFF; assumption|]. intros m M. left. eapply seen_incl; [|apply J0, IFF, M]. intros z Z. now apply IFF. }
    assert (DC : Forall (fun m => dcok (n_dc m)) (n :: s')).
    { apply Forall_forall. intros m M. apply IFF in M. unfold L0 in M. apply in_app_iff in M. destruct M as [M|M].
      - destruct (CSN m M) as (nm & IN & (_ & _ & -> & _)). left. eapply conf_in; eauto.
      - right. cbn in M. destruct M as [<-|[<-|[<-|[<-|[<-|[]]]]]]; reflexivity. }
    destruct (passes_ok sort SO dcok (S (length (n :: s'))) n s' ltac:(lia) INV DC) as (L & E & NEL & FIN & FD & LM & NK). rewrite E. cbn [rbind]. exists L.
    split; [apply passes_len in E; rewrite (Permutation_length PM) in E; unfold L0 in E; rewrite app_length, LEN in E; exact E|]. split; [reflexivity|]. split; [exact FIN|]. split; [exact FD|]. split; [exact NK|]. split.
    - intros c HC. assert (LX : length (bits (canon c)) = 128) by apply bits_len. destruct (lm_top (n :: s') (bits (canon c)) 0 SL) as [(m & (IM & PMM & MX) & EM)|[NO EM]].
      + left. apply IFF in IM. unfold L0 in IM. apply in_app_iff in IM. destruct IM as [IM|IM]; [|rewrite NU in PMM by auto; discriminate]. destruct (CSN m IM) as (nm & INM & CM).
        assert (LD : forall d, lm L d (bits (canon c)) = n_dc nm).
        { intros d. rewrite LM by exact LX. destruct (lm_top (n :: s') (bits (canon c)) d SL) as [(m' & TM' & ->)|[NO _]].
          - assert (EP : pre m' = pre m) by (eapply top_unique; [exact TM'|]; split; [apply IFF; unfold L0; apply in_app_iff; auto|split; [exact PMM|exact MX]]). destruct CM as (_ & _ & <- & _). apply C0; [apply IFF, TM'|unfold L0; apply in_app_iff; auto|exact EP].
          - exfalso. rewrite (NO m) in PMM; [discriminate|]. apply IFF. unfold L0. apply in_app_iff. auto. }
        exists nm. split; [exact INM|]. split; [apply (COV nm m c); auto|]. split; [symmetry; apply LD|]. split; [|exact LD].
        intros n' IN' CV'. destruct (F2_in_l _ _ _ _ F2 IN') as (k & IK & CK). rewrite <- (CLEN n' k CK), <- (CLEN nm m CM). apply MX; [apply IFF; unfold L0; apply in_app_iff; auto|]. apply (COV n' k c); auto.
      + right. split.
        * intros n' IN' CV'. destruct (F2_in_l _ _ _ _ F2 IN') as (k & IK & CK). apply (COV n' k c) in CV'; auto. rewrite (NO k) in CV'; [discriminate|]. apply IFF. unfold L0. apply in_app_iff. auto.
        * intros d. rewrite LM by exact LX. apply lm_none. apply Forall_forall. exact NO.
    - intros b d HB SP. apply special_undef in SP; [|exact HB]. destruct SP as (u & IU & PU). rewrite LM by apply bits_len.
      destruct (lm_top (n :: s') (bits b) d SL) as [(m & (IM & PMM & MX) & ->)|[NO _]].
      + assert (LE : length (pre u) <= length (pre m)) by (apply MX; [apply IFF; unfold L0; apply in_app_iff; auto|exact PU]). assert (Q : pb (pre u) (pre m) = true) by (eapply pb_chain; eauto).
        apply IFF in IM. unfold L0 in IM. apply in_app_iff in IM. destruct IM as [IM|IM]; [rewrite NIU in Q by auto; discriminate|]. apply UU in Q; auto. subst m. cbn in IU. destruct IU as [<-|[<-|[<-|[<-|[<-|[]]]]]]; reflexivity.
      + exfalso. rewrite (NO u) in PU; [discriminate|]. apply IFF. unfold L0. apply in_app_iff. auto.
  Qed.

  (** ** Merging *)
  Lemma skip_sub_ok b : wfn b -> forall la, Forall wfn la -> exists dr la', skip_sub b la = Ok la' /\ la = dr ++ la' /\ Forall (fun a => pb (pre b) (pre a) = true) dr /\
    match la' with [] => True | h :: _ => pb (pre b) (pre h) = false end.
  Proof.
    intros WB. induction la as [|a la IH]; intros W; cbn [skip_sub]; [exists [], []; auto|]. inversion W; subst. rewrite subnet_pre by auto. cbn [rbind]. destruct (pb (pre b) (pre a)) eqn:P.
    - destruct (IH ltac:(assumption)) as (dr & la' & -> & -> & F & H). exists (a :: dr), la'. repeat split; auto.
    - exists [], (a :: la). repeat split; auto.
  Qed.
  Lemma merge_loop_ok : forall fuel la lb m, length la + length lb < fuel -> Forall wfn la -> Forall wfn lb -> StronglySorted lt la -> StronglySorted lt lb -> exists R,
    merge_loop fuel la lb {| l_nets := m; l_norm := false |} = Ok {| l_nets := m ++ R; l_norm := false |} /\ StronglySorted lt R /\
    forall n, In n R <-> In n lb \/ (In n la /\ forall b, In b lb -> pb (pre b) (pre n) = false).
  Proof.
    induction fuel as [|fuel IH]; intros la lb m LF WA WB SA SB; [lia|]. cbn [merge_loop].
    destruct la as [|a la].
    { rewrite append_all_wf by exact WB. cbn [rbind append_all]. exists lb. split; [reflexivity|]. split; [exact SB|]. intros n. cbn. tauto. }
    destruct lb as [|b lb].
    { cbn [append_all rbind]. pose proof (append_all_wf _ WA m) as E. cbn [append_all] in E. rewrite E. exists (a :: la). split; [reflexivity|]. split; [exact SA|]. intros n. cbn. split; [intros H; right; split; [exact H|intros b []]|tauto]. }
    inversion WA as [|? ? W1 W2]; inversion WB as [|? ? W3 W4]; subst. pose proof (StronglySorted_inv SA) as [SA' HA]. pose proof (StronglySorted_inv SB) as [SB' HB]. rewrite Forall_forall in HA, HB. rewrite sorter_lex by auto.
    destruct (lex (pre a) (pre b)) eqn:C.
    1, 3: assert (BA : le b a) by (unfold le; rewrite lex_anti, C; discriminate);
      rewrite append_wf by exact W3; cbn [rbind]; destruct (skip_sub_ok b W3 (a :: la) WA) as (dr & la' & -> & ED & FD & HD); cbn [rbind];
      destruct (IH la' lb (m ++ [b])) as (R & -> & SR & IR); [rewrite ED in LF; rewrite app_length in LF; cbn [length] in *; lia|rewrite ED in WA; apply Forall_app in WA; apply WA|exact W4|rewrite ED in SA; now apply sorted_app_r in SA|exact SB'|];
      assert (NOT : forall h, In h la' -> pb (pre b) (pre h) = false)
       by (intros h IH'; destruct la' as [|h0 la']; [destruct IH'|]; destruct IH' as [<-|IH']; [exact HD|]; apply not_true_iff_false; intros P;
           rewrite ED in SA; apply sorted_app_r in SA; apply StronglySorted_inv in SA; destruct SA as [_ FH]; rewrite Forall_forall in FH; specialize (FH h IH');
           assert (I0 : In h0 (a :: la)) by (rewrite ED; apply in_app_iff; cbn; auto);
           assert (B0 : le b h0) by (destruct I0 as [<-|I0]; [exact BA|eapply le_trans; [exact BA|apply lt_le, HA, I0]]);
           pose proof (lex_between _ _ _ B0 (lt_le _ _ FH) P); congruence);
      assert (LTB : forall h, In h la' -> lt b h)
       by (intros h IH'; apply le_ne; [|intros E; specialize (NOT h IH'); rewrite E, pb_refl in NOT; discriminate];
           assert (I0 : In h (a :: la)) by (rewrite ED; apply in_app_iff; auto); destruct I0 as [<-|I0]; [exact BA|eapply le_trans; [exact BA|apply lt_le, HA, I0]]);
      exists (b :: R); rewrite <- app_assoc; cbn [app]; split; [reflexivity|]; split;
      [constructor; [exact SR|]; apply Forall_forall; intros n I; apply IR in I; destruct I as [I|[I _]]; auto|];
      intros n; cbn [In]; rewrite IR; split;
      [ intros [<-|[I|[I N]]]; [auto|auto|]; right; split; [assert (I0 : In n (a :: la)) by (rewrite ED; apply in_app_iff; auto); exact I0|]; intros b' [<-|I']; auto
      | intros [[<-|I]|[I N]]; [auto|auto|]; right; right; change (In n (a :: la)) in I; rewrite ED in I; apply in_app_iff in I; destruct I as [I|I]; [|auto];
        rewrite Forall_forall in FD; specialize (FD n I); rewrite (N b) in FD by auto; discriminate ].
    rewrite append_wf by exact W1. cbn [rbind]. destruct (IH la (b :: lb) (m ++ [a])) as (R & -> & SR & IR); auto; [cbn [length] in *; lia|]. exists (a :: R). rewrite <- app_assoc. cbn [app]. split; [reflexivity|].
    assert (LB : forall b', In b' (b :: lb) -> lt a b') by (intros b' [<-|I]; [exact C|eapply lt_trans; [exact C|apply HB, I]]). split.
    - constructor; [exact SR|]. apply Forall_forall. intros n I. apply IR in I. destruct I as [I|[I _]]; [now apply LB|now apply HA].
    - intros n. split.
      + intros [<-|I]; [right; split; [cbn; auto|]|apply IR in I; cbn [In] in *; tauto]. intros b' I'. apply not_true_iff_false. intros P. apply pb_le in P. apply (lt_not_le a b'); auto.
      + intros [I|[[<-|I] N]]; [right; apply IR; auto|cbn; auto|right; apply IR; auto].
  Qed.

  Lemma adj_none c d l : StronglySorted lt l -> adj c d l -> lt c d /\ forall e, In e l -> ~ (lt c e /\ lt e d).
  Proof.
    intros S (l1 & l2 & ->). assert (S2 : StronglySorted lt (c :: d :: l2)) by now apply sorted_app_r in S. apply StronglySorted_inv in S2. destruct S2 as [S2 FC]. apply StronglySorted_inv in S2. destruct S2 as [S2 FD].
    assert (CD : lt c d) by (inversion FC; assumption). split; [exact CD|]. rewrite Forall_forall in FD. intros e IE [CE DE]. apply in_app_iff in IE. destruct IE as [IE|[<-|[<-|IE]]]; [|now apply lt_irrefl in CE|now apply lt_irrefl in DE|].
    - assert (EC : lt e c). { clear - S IE. induction l1 as [|a l1 IH]; [destruct IE|]. cbn in S. apply StronglySorted_inv in S. destruct S as [S F]. destruct IE as [<-|IE]; [|auto]. rewrite Forall_forall in F. apply F, in_app_iff. cbn. auto. }
      apply (lt_irrefl e). eapply lt_trans; eauto.
    - apply (lt_irrefl e). eapply lt_trans; [exact DE|]. auto.
  Qed.
  Lemma none_adj c d l : StronglySorted lt l -> In c l -> In d l -> lt c d -> (forall e, In e l -> ~ (lt c e /\ lt e d)) -> adj c d l.
  Proof.
    intros S. induction S as [|a l S IH F]; intros IC ID CD NB; [destruct IC|]. rewrite Forall_forall in F. destruct IC as [<-|IC].
    - destruct ID as [<-|ID]; [now apply lt_irrefl in CD|]. destruct l as [|e l]; [destruct ID|]. destruct ID as [<-|ID]; [exists [], l; reflexivity|]. exfalso. apply (NB e); [cbn; auto|]. split; [apply F; cbn; auto|]. apply StronglySorted_inv in S. destruct S as [_ F2]. rewrite Forall_forall in F2. auto.
    - destruct ID as [<-|ID]; [exfalso; apply (lt_irrefl a); eapply lt_trans; [apply F, IC|exact CD]|]. apply adj_cons. right. apply IH; auto. intros e IE. apply NB. cbn. auto.
  Qed.

  Theorem merge_ok a b : Forall wfn a -> StronglySorted lt a -> (forall n m, In n a -> In m a -> ~ inside n m) -> dcs_ok a ->
    Forall wfn b -> StronglySorted lt b -> dcs_ok b -> (forall c d, adj c d b -> ~ kin c d) -> exists L,
    nlist_merge sort {| l_nets := a; l_norm := true |} {| l_nets := b; l_norm := true |} = Ok ({| l_nets := L; l_norm := true |}, false) /\ Fin L /\ dcs_ok L /\ length L <= length a + length b /\
    forall x d, length x = 128 -> ((exists n, In n b /\ pb (pre n) x = true) /\ lm L d x = lm b d x) \/ ((forall n, In n b -> pb (pre n) x = false) /\ lm L d x = lm a d x).
  Proof.
    intros WA SA PF DA WB SB DB NK. unfold nlist_merge. cbn [l_norm l_nets andb rassert].
    destruct (merge_loop_ok (S (length a + length b)) a b [] ltac:(lia) WA WB SA SB) as (R & -> & SR & IR). cbn [rbind app]. unfold nlist_normalize. cbn [l_nets].
    assert (WR : Forall wfn R) by (rewrite Forall_forall in *; intros n I; apply IR in I; destruct I as [I|[I _]]; auto).
    assert (DR : dcs_ok R) by (unfold dcs_ok in *; rewrite Forall_forall in *; intros n I; apply IR in I; destruct I as [I|[I _]]; auto).
    assert (JR : J R).
    { intros n IN. right. intros c d A IC ID K. destruct (adj_none c d R SR A) as [CD NB].
      assert (INR : In c R /\ In d R) by (destruct A as (l1 & l2 & ->); split; apply in_app_iff; cbn; auto). destruct INR as [CR DR'].
      assert (INB : forall e, In e R -> inside n e -> In e b).
      { intros e IE IN'. apply IR in IE. destruct IE as [IE|[IE NE]]; [exact IE|]. exfalso. apply IR in IN. destruct IN as [IN|[IN _]]; [|now apply (PF n e)]. destruct IN' as [P _]. rewrite NE in P by exact IN. discriminate. }
      apply (NK c d); [|exact K]. apply none_adj; auto. intros e IE. apply NB. apply IR. auto. }
    assert (LR : length R <= length a + length b).
    { rewrite <- app_length. apply NoDup_incl_length.
      - clear - SR. induction SR as [|z R S IH F]; constructor; auto. intros I. rewrite Forall_forall in F. now apply lt_irrefl in F.
      - intros n I. apply IR in I. apply in_app_iff. tauto. }
    assert (LMR : forall x d, length x = 128 -> ((exists n, In n b /\ pb (pre n) x = true) /\ lm R d x = lm b d x) \/ ((forall n, In n b -> pb (pre n) x = false) /\ lm R d x = lm a d x)).
    { intros x d LX. destruct (lm_top b x d (sorted_weak _ SB)) as [(nb & (IB & PB & MB) & EB)|[NOB EB]].
      - left. split; [eauto|]. rewrite EB. destruct (lm_top R x d (sorted_weak _ SR)) as [(nr & (IN & PN & MN) & ->)|[NO _]]; [|exfalso; rewrite (NO nb) in PB; [discriminate|]; apply IR; auto].
        apply IR in IN. destruct IN as [IN|[IN NE]].
        + f_equal. apply (sorted_unique b); auto. apply (top_unique b x); [|split; auto]. split; [exact IN|]. split; [exact PN|]. intros m IM PM. apply MN; [apply IR; auto|exact PM].
        + exfalso. assert (LE : length (pre nb) <= length (pre nr)) by (apply MN; [apply IR; auto|exact PB]). specialize (NE nb IB). rewrite (pb_chain _ _ _ PB PN LE) in NE. discriminate.
      - right. split; [exact NOB|]. assert (INA : forall n, In n a -> pb (pre n) x = true -> In n R).
        { intros n I P. apply IR. right. split; [exact I|]. intros b' I'. apply not_true_iff_false. intros Q. specialize (NOB b' I'). rewrite (pb_trans _ _ _ Q P) in NOB. discriminate. }
        destruct (lm_top a x d (sorted_weak _ SA)) as [(na & (IA & PA & MA) & EA)|[NOA EA]]; rewrite EA.
        + destruct (lm_top R x d (sorted_weak _ SR)) as [(nr & (IN & PN & MN) & ->)|[NO _]]; [|exfalso; rewrite (NO na) in PA; [discriminate|auto]].
          assert (IN' : In nr a) by (pose proof IN as IN0; apply IR in IN0; destruct IN0 as [IN0|[IN0 _]]; [rewrite NOB in PN by exact IN0; discriminate|exact IN0]).
          f_equal. apply (sorted_unique a); auto. apply (top_unique a x); [|split; auto]. split; [exact IN'|]. split; [exact PN|]. intros m IM PM. apply MN; auto.
        + apply lm_none. apply Forall_forall. intros n I. apply IR in I. destruct I as [I|[I _]]; auto. }
    destruct R as [|n R'].
    - exists []. split; [reflexivity|]. split; [split; [constructor|split; [constructor|intros ? []]]|]. split; [constructor|]. split; [cbn; lia|]. exact LMR.
    - destruct (passes_ok sort SO dcok (S (length (n :: R'))) n R' ltac:(lia) (fin_inv n R' (conj WR (conj SR JR))) DR) as (L & E & NE & FIN & FD & LM & _). rewrite E. cbn [rbind]. exists L.
      split; [reflexivity|]. split; [exact FIN|]. split; [exact FD|]. split; [|intros x d LX; rewrite LM by exact LX; now apply LMR].
      etransitivity; [|exact LR]. apply (passes_len _ _ _ _ E).
  Qed.
End Sort.
