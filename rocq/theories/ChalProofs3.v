From Verif Require Import Base DnameModel DnameSpec DnameProofs DnameProofs2 DnameProps CompModel RespModel RespSpec ChalModel ChalSpec ChalProofs ChalProofs2.
Local Open Scope nat_scope.

Lemma NoDup_app_sn {A} (l : list A) x : NoDup l -> ~ In x l -> NoDup (l ++ [x]).
Proof.
  induction 1 as [|y l Hy _ IH]; cbn; intros Hx; constructor; auto; [constructor|].
  rewrite in_app_iff. intros [H|[H|[]]]; [auto|]. apply Hx. now left.
Qed.

Section Sim.
  Variable hash : bytes -> N.
  Variable ttl dns_ttl : N.
  Notation mk := (mk hash dns_ttl).
  Definition mkset (x : aset) : cset := {| s_expiry := a_until x; s_chals := map mk (a_chals x) |}.

  Lemma flat_mkset l : flat_map s_chals (map mkset l) = map mk (all_chals l).
  Proof. unfold all_chals. induction l as [|x l IH]; [reflexivity|]. cbn. rewrite map_app. now f_equal. Qed.

  Definition enc (cs : list achal) : bytes := flat_map (fun c => dname (a_name c) true ++ a_text c ++ [0%N]) cs.
  Definition ok_set (x : aset) : Prop := Forall ok_chal (a_chals x) /\ 1 <= length (a_chals x) <= 100 /\
    length (enc (a_chals x)) <= N.to_nat 28400 /\ all_bytes (enc (a_chals x)).

  Lemma enc_request cs data : request cs data -> length (enc cs) = length data /\ (all_bytes data -> all_bytes (enc cs)).
  Proof.
    induction 1 as [|n fq t z cs data Hn Ht _ [IH1 IH2]]; [split; auto|]. cbn [enc flat_map a_name a_text].
    change (flat_map _ cs) with (enc cs). split.
    - rewrite !app_length. cbn [length]. rewrite !dname_length. lia.
    - unfold all_bytes in *. rewrite !Forall_app. intros (H1 & H2 & H3). inversion H3; subst. repeat split; auto.
      + unfold dname in *. inversion H1 as [|? ? B1 B2]; subst. rewrite app_length in *. constructor; [exact B1|].
        rewrite Forall_app in *. split; [tauto|]. constructor; [reflexivity|constructor].
      + constructor; [reflexivity|constructor].
  Qed.

  Lemma ok_all l : Forall ok_set l -> Forall ok_chal (all_chals l).
  Proof. unfold all_chals. induction 1 as [|x l [H _] _ IH]; cbn; [constructor|]. apply Forall_app. auto. Qed.

  Definition deads (p : pend) : list nat :=
    match p with Idle => [] | Swapped _ d | Waiting _ _ d | Synced _ d | Freeing d => d end.
  Definition olds (p : pend) : option (option nat) :=
    match p with Swapped o _ | Waiting _ o _ | Synced o _ => Some o | _ => None end.
  Definition may_old (p : pend) (r : nat) : Prop :=
    match p with Swapped _ _ => True | Waiting on _ _ => In r on | _ => False end.
  Definition idle (p : pend) : bool := match p with Idle => true | _ => false end.

  Definition rgood (g : gs) (p : pend) (r : nat) (h : option nat) (v : list aset) : Prop :=
    Forall ok_set v /\
    ((h = cur g /\ good g (oldest g) h (map mk (all_chals v))) \/
     (may_old p r /\ olds p = Some h /\ good g (deads p ++ oldest g) h (map mk (all_chals v)))).
  Definition rrel (g : gs) (p : pend) (r : nat) (x : option (option (option nat))) (y : option (option (list aset))) : Prop :=
    match x, y with
    | None, None | Some None, Some None => True
    | Some (Some h), Some (Some v) => rgood g p r h v
    | _, _ => False
    end.

  Record sim (s : sys) (a : aserv) : Prop := {
    m_live : sets_at (st s) (oldest (st s)) (map mkset (live a));
    m_ok : Forall ok_set (live a);
    m_dead : Forall (fun id => is_ok (get_set (st s) id)) (deads (pn s));
    m_nodup : NoDup (deads (pn s) ++ oldest (st s));
    m_cur : good (st s) (oldest (st s)) (cur (st s)) (map mk (all_chals (live a)));
    m_old : forall i, olds (pn s) = Some (Some i) -> is_ok (get_tbl (st s) i) /\ cur (st s) <> Some i;
    m_timer : timer (st s) = due a;
    m_busy : busy a = negb (idle (pn s));
    m_rds : forall r, rrel (st s) (pn s) r (nth_error (rds s) r) (nth_error (views a) r) }.

  Lemma sim_start n : sim (start n) (astart n).
  Proof.
    constructor; cbn; try constructor; try discriminate.
    intros r. destruct (lt_dec r n).
    - now rewrite !nth_error_repeat by auto.
    - rewrite !(proj2 (nth_error_None _ _)) by (rewrite repeat_length; lia). exact I.
  Qed.

  Lemma good_mono g g' ids ids' h cs : good g ids h cs ->
    (forall id s, In id ids -> get_set g id = Ok s -> get_set g' id = Ok s) ->
    (forall i t, h = Some i -> get_tbl g i = Ok t -> get_tbl g' i = Ok t) -> incl ids ids' -> good g' ids' h cs.
  Proof.
    unfold good. destruct h as [i|]; [|auto]. intros (t & Et & k & l & Em & R & Es & Hd) Hs Ht Hi.
    exists t. split; [now apply Ht|]. exists k, l. repeat split; auto.
    - apply R. - intros; now apply R.
    - destruct (Hd _ _ H) as [D I]. unfold deref in *. destruct (get_set g (fst p)) eqn:E; [|discriminate].
      rewrite (Hs _ _ I E). exact D.
    - apply Hi. now apply (Hd _ _ H).
  Qed.

  Lemma get_set_ext g x y z w t i s : get_set g i = Ok s -> get_set {| sets := sets g ++ x; tbls := y; oldest := z; cur := w; timer := t |} i = Ok s.
  Proof.
    unfold get_set, rd. cbn. intros H. destruct (nth_error (sets g) i) eqn:E; [|discriminate]. rewrite nth_error_app1; [now rewrite E|].
    apply nth_error_Some. congruence.
  Qed.
  Lemma get_tbl_lt g i t : get_tbl g i = Ok t -> i < length (tbls g).
  Proof. unfold get_tbl, rd. intros H. destruct (nth_error (tbls g) i) eqn:E; [|discriminate]. apply nth_error_Some. congruence. Qed.
  Lemma get_set_lt g i t : get_set g i = Ok t -> i < length (sets g).
  Proof. unfold get_set, rd. intros H. destruct (nth_error (sets g) i) eqn:E; [|discriminate]. apply nth_error_Some. congruence. Qed.
  Lemma get_tbl_publish g t x y z i s : get_tbl g i = Ok s ->
    get_tbl {| sets := x; tbls := match t with Some t => tbls g ++ [Some t] | None => tbls g end; oldest := y; cur := z; timer := None |} i = Ok s.
  Proof.
    intros H. pose proof (get_tbl_lt _ _ _ H) as L. unfold get_tbl, rd in *. cbn. destruct t; [rewrite nth_error_app1 by auto|]; exact H.
  Qed.
  Lemma good_cur_lt g ids i cs : good g ids (Some i) cs -> i < length (tbls g).
  Proof. intros (t & E & _). eapply get_tbl_lt; eauto. Qed.

  Lemma sets_at_get g ids ss id s : sets_at g ids ss -> In (id, s) (combine ids ss) -> get_set g id = Ok s.
  Proof. induction 1 as [|i' s' ids ss E _ IH]; [easy|]. intros [H1|H1]; [|auto]. injection H1 as <- <-. exact E. Qed.
  Lemma sets_at_ok g ids ss : sets_at g ids ss -> Forall (fun id => is_ok (get_set g id)) ids.
  Proof. induction 1 as [|i' s' ids ss E _ IH]; constructor; auto. rewrite E. unfold is_ok. eauto. Qed.
  Lemma sets_at_mono g g' ids ss : sets_at g ids ss -> (forall id s, In id ids -> get_set g id = Ok s -> get_set g' id = Ok s) -> sets_at g' ids ss.
  Proof. induction 1 as [|i' s' ids ss E _ IH]; intros H; constructor; [apply H; auto; now left|apply IH; intros; apply H; auto; now right]. Qed.
  Lemma sets_at_app g a b s t : length a = length s -> sets_at g (a ++ b) (s ++ t) -> sets_at g a s /\ sets_at g b t.
  Proof.
    revert s. induction a as [|x a IH]; intros [|y s] L; try discriminate; cbn.
    - intros; split; [constructor|auto].
    - inversion 1; subst. destruct (IH s) as [H1 H2]; auto. split; [constructor; auto|auto].
  Qed.

  Lemma expired_ok g cutoff l : forall ids, sets_at g ids (map mkset l) ->
    exists dead keep ld lk, expired g cutoff ids = Ok (dead, keep) /\ ids = dead ++ keep /\ l = ld ++ lk /\
      length dead = length ld /\ Forall (fun s => (a_until s <= cutoff)%Z) ld /\ (forall s r, lk = s :: r -> (cutoff < a_until s)%Z).
  Proof.
    induction l as [|x l IH]; intros ids H; [inversion H; subst|inversion H as [|id ? ids' ? Eid Hr]; subst].
    - exists [], [], [], []. repeat split; auto. intros; discriminate.
    - rename ids' into ids. cbn [expired]. rewrite Eid. cbn [rbind]. cbn [s_expiry mkset].
      destruct (a_until x <=? cutoff)%Z eqn:E.
      + destruct (IH _ Hr) as (dead & keep & ld & lk & Ee & -> & -> & Ll & F & K). rewrite Ee. cbn [rbind].
        exists (id :: dead), keep, (x :: ld), lk. repeat split; auto; [cbn; auto|]. constructor; auto. now apply Z.leb_le.
      + exists [], (id :: ids), [], (x :: l). repeat split; auto. intros s r Es. injection Es as <- <-. now apply Z.leb_gt.
  Qed.

  Lemma bkt_mk k a : bkt (N.ones k) (mk a) = N.to_nat ((hash (wire_labels (a_name a)) mod 2 ^ 32) mod 2 ^ k).
  Proof. unfold bkt. cbn [c_hash ChalProofs.mk]. rewrite N.land_ones. reflexivity. Qed.

  Lemma filter_map_len {A B} (f : A -> B) (p : B -> bool) l : length (filter p (map f l)) = length (filter (fun x => p (f x)) l).
  Proof. induction l as [|x l IH]; cbn; auto. destruct (p (f x)); cbn; auto. Qed.
  Lemma filter_le {A} (p q : A -> bool) l : (forall x, p x = true -> q x = true) -> length (filter p l) <= length (filter q l).
  Proof.
    intros H. induction l as [|x l IH]; cbn; auto. destruct (p x) eqn:E; [rewrite (H x E); cbn; lia|]. destruct (q x); cbn; lia.
  Qed.

  Lemma mask_bounds n : 1 <= n -> let k := N.succ (N.log2 (N.lor (2 * N.of_nat n) 1)) in
    (2 * N.of_nat n < 2 ^ k <= 4 * N.of_nat n)%N.
  Proof.
    intros H k. assert (El : N.lor (2 * N.of_nat n) 1 = (2 * N.of_nat n + 1)%N).
    { destruct n; [lia|]. cbn [N.of_nat]. destruct (Pos.of_succ_nat n); reflexivity. }
    unfold k. rewrite El. destruct (N.log2_spec (2 * N.of_nat n + 1) ltac:(lia)) as [A B]. split; [lia|].
    rewrite N.pow_succ_r'. destruct (N.log2 (2 * N.of_nat n + 1)) as [|p] eqn:E.
    - exfalso. apply N.log2_null in E. lia.
    - assert (Ep : N.pos p = N.succ (N.pred (N.pos p))) by lia. rewrite Ep in *. rewrite N.pow_succ_r' in *. lia.
  Qed.

  Lemma crowded_intro cs j : 1 <= length cs ->
    201 < length (filter (fun c => bkt (count2mask (2 * N.of_nat (length (map mk cs)))) c =? j) (map mk cs)) -> crowded hash cs.
  Proof.
    intros Hl H. rewrite filter_map_len, map_length, count2mask_ones in H. set (k := N.succ _) in H.
    exists k, (N.of_nat j). cbv zeta. split; [now apply mask_bounds|]. eapply Nat.lt_le_trans; [exact H|]. apply filter_le.
    intros x E. apply Nat.eqb_eq in E. rewrite bkt_mk in E. apply N.eqb_eq. rewrite <- E. now rewrite N2Nat.id.
  Qed.

  Lemma parse_whole count data : all_bytes data ->
    exists r, parse_chals hash dns_ttl count data 0 = Ok r /\
    match r with
    | None => forall cs, request cs data -> length cs <> count
    | Some (l, e) => exists cs, length cs = count /\ l = map mk cs /\ (e = length data -> request cs data) /\
        (e <> length data -> forall cs', request cs' data -> length cs' <> count)
    end.
  Proof.
    intros Hb. destruct (parse_ok hash dns_ttl count [] data Hb) as (r & E & Hr). cbn [app length] in E. exists r. split; auto.
    destruct r as [[l e]|].
    - destruct Hr as (cs & r1 & r2 & -> & Hq & Hc & -> & ->). exists cs. repeat split; auto.
      + intros H. rewrite app_length in H. destruct r2; [now rewrite app_nil_r|cbn in H; lia].
      + intros H cs' Hq' Hl. apply H. assert (X := request_split cs r1 r2 cs' (r1 ++ r2) [] Hq Hq' ltac:(lia) ltac:(now rewrite app_nil_r)).
        exact X.
    - intros cs Hq. apply (Hr cs data []); auto. now rewrite app_nil_r.
  Qed.

  Lemma readers_swap g g' dead r x y : rrel g Idle r x y ->
    (forall i s, get_set g i = Ok s -> get_set g' i = Ok s) -> (forall i s, get_tbl g i = Ok s -> get_tbl g' i = Ok s) ->
    incl (oldest g) (dead ++ oldest g') -> rrel g' (Swapped (cur g) dead) r x y.
  Proof.
    unfold rrel. destruct x as [[h|]|], y as [[v|]|]; auto. intros [Hv [[E G]|[[] _]]] Hs Ht Hi.
    split; auto. right. split; [exact I|]. split; [cbn; now rewrite E|]. cbn [deads]. eapply good_mono; eauto.
  Qed.

  Lemma in_mid {A} (x : A) l : In x (l ++ [x]).
  Proof. apply in_app_iff. right. now left. Qed.

  Lemma legal_bounds count data cs : legal_request count data cs -> (count =? 0) || (length data =? 0) || (100 <? count) || (N.to_nat 28400 <? length data) = false.
  Proof.
    intros (Hr & Hl & Hc & Hd). repeat (apply orb_false_intro).
    - apply Nat.eqb_neq; lia.
    - apply Nat.eqb_neq. destruct Hr as [|n0 fq t z cs data Hn Ht Hr]; [cbn in Hl; lia|]. rewrite !app_length. cbn [length]. lia.
    - apply Nat.ltb_ge; lia.
    - apply Nat.ltb_ge; lia.
  Qed.

  (** what [cset_create] does, in a state that is at rest *)
  Lemma create_ok g l now tr count data : all_bytes data -> sets_at g (oldest g) (map mkset l) -> Forall ok_set l ->
    exists g' fail, cset_create hash ttl dns_ttl g now tr count data = Ok (g', fail) /\
    (fail = true -> g' = g /\ ((forall cs, ~ legal_request count data cs) \/ exists cs, legal_request count data cs /\ crowded hash (all_chals l ++ cs))) /\
    (fail = false -> exists cs, legal_request count data cs /\
       (forall c, In c cs -> length (filter (same_name (a_name c)) (all_chals l ++ cs)) <= 201) /\
       let r := if (tr =? 0)%N || (ttl <? tr)%N then ttl else tr in
       let x := {| a_until := now + 1000 * Z.of_N r; a_chals := cs |} in
       (exists t, g' = {| sets := sets g ++ [Some (mkset x)]; tbls := tbls g ++ [Some t]; oldest := oldest g ++ [length (sets g)];
                cur := Some (length (tbls g)); timer := match oldest g with [] => Some (now + 1000 * Z.of_N ttl)%Z | _ => timer g end |} /\
        tgood g' (oldest g') t (map mk (all_chals (l ++ [x])))) /\ ok_set x).
  Proof.
    intros Hb Hl Hok. unfold cset_create.
    destruct ((count =? 0) || (length data =? 0) || (100 <? count) || (N.to_nat 28400 <? length data)) eqn:E0.
    { exists g, true. split; auto. split; [|discriminate]. intros _. split; auto. left. intros cs H. apply legal_bounds in H. congruence. }
    destruct (parse_whole count data Hb) as (r & Ep & Hr). rewrite Ep. cbn [rbind].
    destruct r as [[cs0 e]|].
    2: { exists g, true. split; auto. split; [|discriminate]. intros _. split; auto. left. intros cs (H1 & H2 & _). now apply (Hr cs). }
    destruct Hr as (cs & Hc & -> & H1 & H2). destruct (e =? length data) eqn:Ee; cbn [negb].
    2: { exists g, true. split; auto. split; [|discriminate]. intros _. split; auto. left. intros cs' (H3 & H4 & _). apply Nat.eqb_neq in Ee. now apply (H2 Ee cs'). }
    apply Nat.eqb_eq in Ee. specialize (H1 Ee).
    assert (Hleg : legal_request count data cs).
    { apply orb_false_elim in E0 as [E0 E3]. apply orb_false_elim in E0 as [E0 E2]. apply orb_false_elim in E0 as [E0 E1].
      apply Nat.eqb_neq in E0. apply Nat.ltb_ge in E2, E3. unfold legal_request. repeat split; auto; lia. }
    set (tr' := if (tr =? 0)%N || (ttl <? tr)%N then ttl else tr).
    set (x := {| a_until := now + 1000 * Z.of_N tr'; a_chals := cs |}).
    change {| s_expiry := (now + 1000 * Z.of_N tr')%Z; s_chals := map mk cs |} with (mkset x).
    assert (Hx : ok_set x).
    { destruct (enc_request _ _ H1) as [X1 X2]. destruct Hleg as (_ & L & L2 & L3).
      split; [eapply request_ok; exact H1|]. split; [cbn [a_chals x]; lia|]. split; [cbn [a_chals x]; lia|]. cbn [a_chals x]. auto. }
    assert (Hne : s_chals (mkset x) <> []).
    { cbn. destruct cs; [|discriminate]. destruct Hx as (_ & Hx & _). cbn in Hx. lia. }
    destruct (tbl_create_add g (oldest g) (map mkset l) (length (sets g)) (mkset x) Hl Hne) as (o & Eo & Ho). rewrite Eo. cbn [rbind].
    rewrite flat_mkset in Ho. cbn [s_chals mkset] in Ho. rewrite <- map_app in Ho. cbn [a_chals x] in Ho.
    destruct o as [t|].
    - eexists _, false. split; [reflexivity|]. split; [discriminate|]. intros _. exists cs. split; auto. destruct Ho as [Ho1 Ho2].
      split; [|cbv zeta; fold tr'; fold x; split; [|exact Hx]].
      + intros c Hi. specialize (Ho1 (mk c) (in_map _ _ _ Hi)). rewrite filter_map_len in Ho1. eapply Nat.le_trans; [|exact Ho1].
        apply filter_le. intros y Ey. unfold same_name in Ey. destruct (list_eq_dec _ (a_name y) (a_name c)) as [En|]; [|discriminate].
        apply Nat.eqb_eq. unfold bkt. cbn [c_hash ChalProofs.mk]. now rewrite En.
      + exists t. split; [reflexivity|]. unfold all_chals. rewrite flat_map_app. cbn [flat_map]. rewrite app_nil_r. cbn [a_chals x]. apply Ho2.
        * intros i s0 H. unfold publish. cbn [sets tbls oldest cur timer]. now apply get_set_ext.
        * unfold publish, get_set, rd. cbn [sets]. rewrite nth_error_app2, Nat.sub_diag by lia. reflexivity.
    - exists g, true. split; auto. split; [|discriminate]. intros _. split; auto. right. exists cs. split; auto.
      destruct Ho as (j & Hj). eapply crowded_intro; [|exact Hj]. destruct Hx as (_ & Hx & _). rewrite app_length. cbn in Hx. lia.
  Qed.

  Lemma sim_create s a now count data : sim s a -> all_bytes data ->
    exists s' o a', step hash ttl dns_ttl s (ECreate now count data) = Ok (s', o) /\
      astep hash ttl dns_ttl a (ECreate now count data) o a' /\ sim s' a'.
  Proof.
    intros M Hb. unfold step. destruct (pn s) eqn:P.
    2-5: exists s, ONone, a; (split; [reflexivity|]); split; [apply a_busy; [rewrite (m_busy s a M), P; reflexivity|exact I]|exact M].
    destruct (create_ok (st s) (live a) now 0 count data Hb (m_live _ _ M) (m_ok _ _ M)) as (g' & fail & E & HF & HT).
    rewrite E. cbn [rbind]. assert (Bz : busy a = false) by (rewrite (m_busy _ _ M), P; reflexivity).
    destruct fail.
    - destruct (HF eq_refl) as [-> Hc]. eexists _, _, a. split; [reflexivity|]. split.
      + destruct Hc as [Hc|(cs & Hc & Hw)]; [now apply a_illegal|eapply a_crowd; eauto].
      + rewrite <- P. destruct s. exact M.
    - destruct (HT eq_refl) as (cs & Hleg & Hcap & Hx). cbv zeta in Hx. cbn [N.eqb orb] in Hx. destruct Hx as [(t & Eg & Ht) Hokx].
      eexists _, _, _. split; [reflexivity|]. split; [eapply a_add; eauto|].
      set (x := {| a_until := now + 1000 * Z.of_N ttl; a_chals := cs |}) in *.
      assert (Hs : forall i s0, get_set (st s) i = Ok s0 -> get_set g' i = Ok s0) by (intros i s0 H; subst g'; now apply get_set_ext).
      assert (Htb : forall i t0, get_tbl (st s) i = Ok t0 -> get_tbl g' i = Ok t0).
      { intros i t0 H. pose proof (get_tbl_lt _ _ _ H) as L. subst g'. unfold get_tbl, rd in *. cbn [tbls]. rewrite nth_error_app1 by auto. exact H. }
      assert (Eo : oldest g' = oldest (st s) ++ [length (sets (st s))]) by now subst g'.
      assert (Ec : cur g' = Some (length (tbls (st s)))) by now subst g'.
      assert (Nn : NoDup (oldest (st s))) by (assert (X := m_nodup _ _ M); rewrite P in X; exact X).
      assert (Fr : ~ In (length (sets (st s))) (oldest (st s))).
      { intros Hi. assert (X := sets_at_ok _ _ _ (m_live _ _ M)). rewrite Forall_forall in X. destruct (X _ Hi) as [y Ey].
        apply get_set_lt in Ey. lia. }
      constructor; cbn [st pn rds live due busy views deads olds idle negb].
      + rewrite Eo, map_app. apply Forall2_app; [eapply sets_at_mono; [apply (m_live _ _ M)|auto]|].
        constructor; [|constructor]. subst g'. unfold get_set, rd. cbn [sets]. rewrite nth_error_app2, Nat.sub_diag by lia. reflexivity.
      + apply Forall_app. split; [apply (m_ok _ _ M)|auto].
      + constructor.
      + cbn [app]. rewrite Eo. apply NoDup_app_sn; auto.
      + rewrite Ec. cbn. exists t. split; [|exact Ht]. subst g'. unfold get_tbl, rd. cbn [tbls]. rewrite nth_error_app2, Nat.sub_diag by lia. reflexivity.
      + intros i Ei. injection Ei as Ei. assert (G := m_cur _ _ M). rewrite Ei in G. destruct G as (t0 & Et & _). split; [exists t0; auto|].
        rewrite Ec. intros H. injection H as H. apply get_tbl_lt in Et. lia.
      + assert (Eol : timer g' = match oldest (st s) with [] => Some (now + 1000 * Z.of_N ttl)%Z | _ => timer (st s) end) by now subst g'.
        rewrite Eol. assert (X := m_live _ _ M). rewrite (m_timer _ _ M). destruct (oldest (st s)), (live a); inversion X; auto.
      + reflexivity.
      + intros r. apply readers_swap; auto; [assert (X := m_rds _ _ M r); now rewrite P in X|].
        rewrite Eo. intros y Hy. apply in_app_iff. right. apply in_app_iff. now left.
  Qed.
End Sim.
