From Coq Require Import Sorted.
From Verif Require Import Base DnameModel DnameSpec DnameProofs DnameProofs2 DnameProps CompModel RespModel RespSpec ChalModel ChalSpec ChalProofs ChalProofs2 ChalProofs3 ChalProofs4.
Local Open Scope nat_scope.

(** ** The abstract service *)
Section Abs.
  Variable hash : bytes -> N.
  Variable ttl dns_ttl : N.
  Notation astep := (astep hash ttl dns_ttl).
  Notation asteps := (asteps hash ttl dns_ttl).

  Definition cnt (n : list (list N)) (l : list aset) : nat := length (filter (same_name n) (all_chals l)).
  Definition cap (a : aserv) : Prop :=
    (forall n, cnt n (live a) <= 201) /\ forall r v n, nth_error (views a) r = Some (Some v) -> cnt n v <= 201.

  Lemma cnt_app n l l' : cnt n (l ++ l') = cnt n l + cnt n l'.
  Proof. unfold cnt, all_chals. now rewrite flat_map_app, filter_app, app_length. Qed.

  Lemma views_upd (P : list aset -> Prop) (vs : list (option (list aset))) r x :
    (forall r v, nth_error vs r = Some (Some v) -> P v) -> (forall v, x = Some v -> P v) ->
    forall r' v, nth_error (upd vs r x) r' = Some (Some v) -> P v.
  Proof.
    intros H Hx r' v E. destruct (lt_dec r (length vs)) as [L|L].
    - rewrite nth_upd in E by auto. destruct (r =? r'); [injection E as ->; auto|eapply H; eauto].
    - rewrite upd_out in E by lia. eapply H; eauto.
  Qed.

  Lemma cap_step a e o a' : astep a e o a' -> cap a -> cap a'.
  Proof.
    intros St [C1 C2]. destruct St; try (split; auto; fail); split; cbn [live views]; auto.
    - intros n. rewrite cnt_app. unfold cnt at 2. unfold all_chals. cbn [flat_map a_chals]. rewrite app_nil_r.
      destruct (filter (same_name n) cs) as [|c rest] eqn:E; [cbn; specialize (C1 n); lia|].
      assert (Hc : In c (filter (same_name n) cs)) by (rewrite E; now left). apply filter_In in Hc as [Hc1 Hc2].
      assert (En : a_name c = n) by (unfold same_name in Hc2; destruct (list_eq_dec _ (a_name c) n); [auto|discriminate]).
      assert (X := H1 c Hc1). rewrite En, filter_app, app_length, E in X. exact X.
    - intros n. specialize (C1 n). rewrite H2, cnt_app in C1. lia.
    - intros n. apply Nat.le_0_l.
    - intros r0 v n0 E. exact (views_upd (fun v => forall n, cnt n v <= 201) (views a) r (Some (live a)) (fun r v E n => C2 r v n E) ltac:(intros ? [= <-]; auto) r0 v E n0).
    - intros r0 v n0 E. exact (views_upd (fun v => forall n, cnt n v <= 201) (views a) r None (fun r v E n => C2 r v n E) ltac:(discriminate) r0 v E n0).
  Qed.

  Lemma cap_out a e acme rrs a' : cap a -> astep a e (OFound acme rrs) a' -> length rrs <= 201.
  Proof. intros [_ C] St. inversion St; subst. unfold answers. rewrite map_length. eapply C; eauto. Qed.

  Lemma cap_run a es os a' : asteps a es os a' -> cap a -> Forall (fun o => match o with OFound _ rrs => length rrs <= 201 | _ => True end) os.
  Proof.
    induction 1 as [|a e o a1 es os a2 St _ IH]; intros C; constructor.
    - destruct o; auto. eapply cap_out; eauto.
    - apply IH. eapply cap_step; eauto.
  Qed.
  Lemma cap_start n : cap (astart n).
  Proof.
    split; cbn; [intros; unfold cnt; cbn; lia|]. intros r v m E.
    destruct (lt_dec r n); [rewrite nth_error_repeat in E by auto; discriminate|].
    rewrite (proj2 (nth_error_None _ _)) in E by (rewrite repeat_length; lia). discriminate.
  Qed.

  (** times of the main thread's clock *)
  Definition ev_time (e : ev) : option Z := match e with ECreate t _ _ | ETimer t => Some t | _ => None end.
  Fixpoint clock (t0 : Z) (es : list ev) : Prop :=
    match es with
    | [] => True
    | e :: es => match ev_time e with Some t => (t0 <= t)%Z /\ clock t es | None => clock t0 es end
    end.
  Definition later (t0 : Z) (e : ev) : Z := match ev_time e with Some t => t | None => t0 end.

  Definition sorted (l : list aset) : Prop := StronglySorted (fun x y => (a_until x <= a_until y)%Z) l.
  Definition timed (T : Z) (a : aserv) : Prop :=
    sorted (live a) /\ Forall (fun x => (a_until x <= T + 1000 * Z.of_N ttl)%Z) (live a) /\
    due a = match live a with [] => None | x :: _ => Some (a_until x) end.

  Lemma sorted_app l l' : sorted (l ++ l') -> sorted l'.
  Proof. induction l as [|x l IH]; [auto|]. inversion 1; auto. Qed.
  Lemma sorted_sn l x : sorted l -> Forall (fun y => (a_until y <= a_until x)%Z) l -> sorted (l ++ [x]).
  Proof.
    induction 1 as [|y l Hl IH Hy]; intros F; [constructor; constructor|]. inversion F; subst. cbn. constructor; [apply IH; assumption|].
    apply Forall_app. split; auto.
  Qed.

  Lemma timed_step T a e o a' : astep a e o a' -> (forall t, ev_time e = Some t -> (T <= t)%Z) -> timed T a -> timed (later T e) a'.
  Proof.
    intros St Ht (S1 & S2 & S3).
    assert (Hm : Forall (fun x => (a_until x <= later T e + 1000 * Z.of_N ttl)%Z) (live a)).
    { eapply Forall_impl; [|exact S2]. cbn. intros x Hx. unfold later. destruct (ev_time e) as [t|]; [specialize (Ht t eq_refl)|]; lia. }
    destruct St; try (split; [exact S1|split; [exact Hm|exact S3]]); unfold timed; cbn [live due later ev_time] in *.
    - split; [|split].
      + apply sorted_sn; auto.
      + apply Forall_app. split; auto. constructor; [cbn; lia|constructor].
      + destruct (live a); [reflexivity|exact S3].
    - rewrite H2 in *. split; [eapply sorted_app; eauto|]. split; [apply Forall_app in Hm; tauto|reflexivity].
    - split; [constructor|]. split; [constructor|reflexivity].
  Qed.

  Lemma timed_run a es os a' : asteps a es os a' -> forall T, clock T es -> timed T a -> exists T', timed T' a'.
  Proof.
    induction 1 as [|a e o a1 es os a2 St _ IH]; intros T C Ti; [eauto|]. cbn [clock] in C.
    apply (IH (later T e)).
    - unfold later. destruct (ev_time e); tauto.
    - eapply timed_step; eauto. intros t Et. rewrite Et in C. tauto.
  Qed.

  Lemma timed_tick T a now o a' : timed T a -> busy a = false -> astep a (ETimer now) o a' -> Forall (fun x => (now < a_until x)%Z) (live a').
  Proof.
    intros (S1 & S2 & S3) B St. inversion St; subst; try congruence.
    - destruct (live a') as [|x l]; [constructor|]. assert (now < a_until x)%Z by auto. inversion S1; subst. constructor; auto.
      eapply Forall_impl; [|exact H5]. cbn. intros; lia.
    - cbn [live]. destruct keep as [|x l]; [constructor|]. assert (now + 3200 < a_until x)%Z by eauto.
      match goal with E : live a = _ |- _ => rewrite E in S1 end. apply sorted_app in S1.
      inversion S1; subst. constructor; [lia|]. eapply Forall_impl; [|eassumption]. cbn. intros; lia.
  Qed.

  Lemma stays a es os a' x : asteps a es os a' -> In x (live a) -> ~ In EFlush es -> (forall t, In (ETimer t) es -> (t + 3200 < a_until x)%Z) -> In x (live a').
  Proof.
    induction 1 as [|a e o a1 es os a2 St _ IH]; intros Hx Hf Ht; auto. apply IH; [|intros H; apply Hf; now right|intros; apply Ht; now right].
    assert (Ht' : forall t, ETimer t = e -> (t + 3200 < a_until x)%Z) by (intros; apply Ht; now left).
    assert (Hf' : EFlush <> e) by (intros E; apply Hf; now left).
    destruct St; cbn [live]; auto.
    - apply in_app_iff. now left.
    - rewrite H2 in Hx. apply in_app_iff in Hx as [Hx|Hx]; auto. rewrite Forall_forall in H3. specialize (H3 _ Hx). specialize (Ht' _ eq_refl). cbn in H3. lia.
    - congruence.
  Qed.
End Abs.

(** ** Nothing leaks, and the main thread gets on *)
Section Tight.
  Variable hash : bytes -> N.
  Variable ttl dns_ttl : N.
  Notation step := (step hash ttl dns_ttl).
  Notation sim := (sim hash dns_ttl).

  Record tight (s : sys) : Prop := {
    g_sets : forall i, is_ok (get_set (st s) i) -> In i (deads (pn s) ++ oldest (st s));
    g_tbls : forall i, is_ok (get_tbl (st s) i) -> cur (st s) = Some i \/ olds (pn s) = Some (Some i);
    g_wait : forall on old dead r, pn s = Waiting on old dead -> In r on -> exists h, nth_error (rds s) r = Some (Some h) }.

  Lemma tight_start n : tight (start n).
  Proof.
    constructor; cbn; try discriminate.
    - intros i [x E]. unfold get_set, rd in E. cbn in E. destruct i; discriminate.
    - intros i [x E]. unfold get_tbl, rd in E. cbn in E. destruct i; discriminate.
  Qed.

  Lemma get_set_snoc g x y z w t i : is_ok (get_set {| sets := sets g ++ [x]; tbls := y; oldest := z; cur := w; timer := t |} i) ->
    is_ok (get_set g i) \/ i = length (sets g).
  Proof.
    unfold get_set, rd. cbn [sets]. intros [v E]. destruct (lt_dec i (length (sets g))) as [L|L]; [left; rewrite nth_error_app1 in E by auto; exists v; auto|].
    destruct (Nat.eq_dec i (length (sets g))); auto. rewrite (proj2 (nth_error_None _ _)) in E by (rewrite app_length; cbn; lia). discriminate.
  Qed.
  Lemma get_tbl_snoc g x y z w t i : is_ok (get_tbl {| sets := y; tbls := tbls g ++ [x]; oldest := z; cur := w; timer := t |} i) ->
    is_ok (get_tbl g i) \/ i = length (tbls g).
  Proof.
    unfold get_tbl, rd. cbn [tbls]. intros [v E]. destruct (lt_dec i (length (tbls g))) as [L|L]; [left; rewrite nth_error_app1 in E by auto; exists v; auto|].
    destruct (Nat.eq_dec i (length (tbls g))); auto. rewrite (proj2 (nth_error_None _ _)) in E by (rewrite app_length; cbn; lia). discriminate.
  Qed.

  Lemma tight_publish s dead keep o tm : tight s -> pn s = Idle -> oldest (st s) = dead ++ keep ->
    tight {| st := {| sets := sets (st s); tbls := tbls (publish (st s) o); oldest := keep; cur := cur (publish (st s) o); timer := tm |};
             pn := Swapped (cur (st s)) dead; rds := rds s |}.
  Proof.
    intros [G1 G2 G3] P Eo. rewrite P in *. cbn [deads olds app] in *. constructor; cbn [st pn deads olds oldest cur]; try discriminate.
    - intros i H. rewrite <- Eo. now apply G1.
    - intros i H. destruct o as [t|]; cbn [publish tbls cur] in *.
      + apply get_tbl_snoc in H as [H| ->]; [|now left]. destruct (G2 _ H) as [E|E]; [right; now rewrite E|discriminate].
      + destruct (G2 i) as [E|E]; [exact H|right; now rewrite E|discriminate].
  Qed.

  Lemma get_set_upd' g i j y z w t : is_ok (get_set {| sets := upd (sets g) j None; tbls := y; oldest := z; cur := w; timer := t |} i) ->
    i <> j /\ is_ok (get_set g i).
  Proof.
    unfold get_set, rd. cbn [sets]. intros [v E]. destruct (Nat.eq_dec j i) as [->|Hn].
    - destruct (lt_dec i (length (sets g))); [rewrite nth_error_upd_eq in E by auto; discriminate|].
      rewrite (proj2 (nth_error_None _ _)) in E by (rewrite upd_length; lia). discriminate.
    - rewrite nth_error_upd_neq in E by auto. split; [auto|exists v; auto].
  Qed.
  Lemma get_tbl_upd' g i j x z w t : is_ok (get_tbl {| sets := x; tbls := upd (tbls g) j None; oldest := z; cur := w; timer := t |} i) ->
    i <> j /\ is_ok (get_tbl g i).
  Proof.
    unfold get_tbl, rd. cbn [tbls]. intros [v E]. destruct (Nat.eq_dec j i) as [->|Hn].
    - destruct (lt_dec i (length (tbls g))); [rewrite nth_error_upd_eq in E by auto; discriminate|].
      rewrite (proj2 (nth_error_None _ _)) in E by (rewrite upd_length; lia). discriminate.
    - rewrite nth_error_upd_neq in E by auto. split; [auto|exists v; auto].
  Qed.

  Lemma free_sets_gone ids : forall g g', free_sets g ids = Ok g' -> forall i, is_ok (get_set g' i) -> is_ok (get_set g i) /\ ~ In i ids.
  Proof.
    induction ids as [|j ids IH]; intros g g' E i H; cbn [free_sets] in E.
    - injection E as <-. split; auto.
    - destruct (get_set g j) eqn:Ej; [|discriminate]. cbn [rbind] in E. destruct (IH _ _ E i H) as [A B]. apply get_set_upd' in A as [A1 A2].
      split; auto. intros [Hi|Hi]; auto.
  Qed.

  Lemma in_section_inv l r : In r (in_section l) -> exists h, nth_error l r = Some (Some h).
  Proof. unfold in_section. rewrite filter_In. intros [_ H]. destruct (nth_error l r) as [[h|]|]; try discriminate. eauto. Qed.

  Lemma tight_step s a e s' o : sim s a -> ev_ok e -> tight s -> step s e = Ok (s', o) -> tight s'.
  Proof.
    intros M Hev G E. destruct e as [now count data|now| | |r|r q|r]; cbn in Hev.
    - unfold ChalModel.step in E. destruct (pn s) eqn:P; try (injection E as <- _; exact G).
      destruct (create_ok hash ttl dns_ttl (st s) (live a) now 0 count data Hev (m_live _ _ _ _ M) (m_ok _ _ _ _ M)) as (g' & fail & E' & HF & HT).
      rewrite E' in E. cbn [rbind] in E. destruct fail.
      + destruct (HF eq_refl) as [-> _]. injection E as <- _. rewrite <- P. destruct s; exact G.
      + destruct (HT eq_refl) as (cs & _ & _ & Hx). cbv zeta in Hx. destruct Hx as [(t & Eg & _) _]. injection E as <- _. subst g'.
        destruct G as [G1 G2 G3]. rewrite P in *. cbn [deads olds app] in *.
        constructor; cbn [st pn deads olds oldest cur app]; try discriminate.
        * intros i H. apply get_set_snoc in H as [H| ->]; apply in_app_iff; [left; auto|right; now left].
        * intros i H. apply get_tbl_snoc in H as [H| ->]; [|now left]. destruct (G2 _ H) as [X|X]; [right; now rewrite X|discriminate].
    - unfold ChalModel.step in E. destruct (pn s) eqn:P; try (injection E as <- _; exact G).
      destruct (timer (st s)) as [d|]; [|injection E as <- _; exact G]. destruct (d <=? now)%Z; [|injection E as <- _; exact G].
      unfold cset_expire in E.
      destruct (expired_ok hash dns_ttl (st s) (now + 3200) (live a) (oldest (st s)) (m_live _ _ _ _ M)) as (dead & keep & ld & lk & Ee & Eo & _).
      rewrite Ee in E. cbn [rbind] in E. destruct (tbl_create (st s) keep None) as [o0|]; [|discriminate]. cbn [rbind] in E.
      destruct (match keep with [] => Ok None | id :: _ => do s0 <- get_set (st s) id; Ok (Some (s_expiry s0)) end) as [tm|]; [|discriminate].
      cbn [rbind] in E. injection E as <- _. now apply (tight_publish s dead keep o0 tm).
    - unfold ChalModel.step in E. destruct (pn s) eqn:P; try (injection E as <- _; exact G).
      cbn [cset_flush] in E. injection E as <- _. apply (tight_publish s (oldest (st s)) [] None None); auto. now rewrite app_nil_r.
    - unfold ChalModel.step in E. destruct G as [G1 G2 G3]. destruct (pn s) as [|old dead|on old dead|old dead|dead] eqn:P.
      + injection E as <- _. constructor; rewrite ?P; auto.
      + injection E as <- _. constructor; cbn [st pn rds]; auto. intros on o' d' r [= <- <- <-]. apply in_section_inv.
      + destruct on; injection E as <- _; constructor; cbn [st pn rds]; rewrite ?P; auto; discriminate.
      + destruct old as [i|]; cbn [free_tbl] in E.
        * destruct (get_tbl (st s) i); [|discriminate]. cbn [rbind] in E. injection E as <- _. constructor; cbn [st pn rds]; auto; [|discriminate].
          intros j H. apply get_tbl_upd' in H as [H1 H2]. destruct (G2 _ H2) as [X|X]; [now left|]. cbn in X. congruence.
        * cbn [rbind] in E. injection E as <- _. constructor; cbn [st pn rds]; auto; [|discriminate].
          intros j H. destruct (G2 _ H) as [X|X]; [now left|discriminate].
      + assert (Fd := m_dead _ _ _ _ M). assert (Nd := m_nodup _ _ _ _ M). rewrite P in Fd, Nd. cbn [deads] in Fd, Nd.
        destruct (free_sets_ok dead (st s) Fd (NoDup_app_l _ _ Nd)) as (g' & E' & E1 & E2 & E3 & E4 & E5). rewrite E' in E. cbn [rbind] in E. injection E as <- _.
        constructor; cbn [st pn rds deads olds]; try discriminate; rewrite ?E2, ?E3.
        * intros i H. apply (free_sets_gone _ _ _ E') in H as [A B]. apply G1 in A. apply in_app_iff in A as [A|A]; [contradiction|exact A].
        * intros i H. apply G2. unfold get_tbl in *. now rewrite <- E1.
    - unfold ChalModel.step in E. destruct (nth_error (rds s) r) as [[h|]|] eqn:Er; injection E as <- _; try exact G.
      assert (L : r < length (rds s)) by (apply nth_error_Some; congruence). unfold set_rd. rewrite (proj2 (Nat.ltb_lt _ _) L).
      destruct G as [G1 G2 G3]. constructor; cbn [st pn rds]; auto. intros on old dead r' P Hi. rewrite nth_upd by auto.
      destruct (r =? r'); [eauto|]. eapply G3; eauto.
    - unfold ChalModel.step in E. destruct (nth_error (rds s) r) as [[h|]|] eqn:Er; try (injection E as <- _; exact G).
      destruct (chal_find hash (st s) h q) as [[b l]|]; [|discriminate]. injection E as <- _. exact G.
    - unfold ChalModel.step in E. injection E as <- _. destruct G as [G1 G2 G3]. constructor; cbn [st pn rds].
      + intros i H. apply G1 in H. destruct (pn s); exact H.
      + intros i H. apply G2 in H. destruct (pn s); exact H.
      + intros on old dead r' P Hi. destruct (pn s) as [|x y|on0 x y|x y|x] eqn:P0; try discriminate. injection P as <- <- <-.
        apply filter_In in Hi as [Hi Hr]. apply negb_true_iff, Nat.eqb_neq in Hr. destruct (G3 _ _ _ _ eq_refl Hi) as [h Eh]. exists h.
        unfold set_rd. destruct (r <? length (rds s)) eqn:L; [apply Nat.ltb_lt in L; rewrite nth_upd by auto|exact Eh].
        destruct (r =? r') eqn:Err; [apply Nat.eqb_eq in Err; congruence|exact Eh].
  Qed.

  Lemma tight_steps es : forall s a s' os, sim s a -> tight s -> Forall ev_ok es -> steps hash ttl dns_ttl s es = Ok (s', os) -> tight s'.
  Proof.
    induction es as [|e es IH]; intros s a s' os M G F E; cbn [steps] in E; [injection E as <- _; auto|].
    inversion F; subst. destruct (sim_step hash ttl dns_ttl s a e M H1) as (s1 & o & a1 & E1 & A1 & M1).
    rewrite E1 in E. cbn [rbind] in E. destruct (steps hash ttl dns_ttl s1 es) as [[s2 os2]|] eqn:E2; [|discriminate]. cbn [rbind] in E.
    injection E as <- _. exact (IH s1 a1 s2 os2 M1 (tight_step s a e s1 o M H1 G E1) H2 E2).
  Qed.

  Lemma main_done s a : sim s a -> tight s -> (forall r h, nth_error (rds s) r <> Some (Some h)) ->
    exists k s' os, k <= 4 /\ steps hash ttl dns_ttl s (repeat EMain k) = Ok (s', os) /\ pn s' = Idle.
  Proof.
    intros M G Hr. 
    assert (Hon : forall on old dead, pn s = Waiting on old dead -> on = []).
    { intros on old dead P. destruct on as [|r on]; auto. destruct (g_wait _ G _ _ _ r P (or_introl eq_refl)) as [h Eh]. now apply Hr in Eh. }
    assert (Hin : in_section (rds s) = []).
    { destruct (in_section (rds s)) as [|r l] eqn:E; auto. destruct (in_section_inv (rds s) r) as [h Eh]; [rewrite E; now left|]. now apply Hr in Eh. }
    destruct (sim_steps hash ttl dns_ttl [EMain; EMain; EMain; EMain] s a M ltac:(repeat constructor)) as (s' & os & a' & E & _ & M').
    exists 4, s', os. split; [auto|]. split; [exact E|]. clear M'.
    destruct s as [g p rd0]. cbn [pn rds] in *. cbn [steps] in E. destruct p as [|old dead|on old dead|old dead|dead].
    - cbn in E. injection E as <- _. reflexivity.
    - cbn [ChalModel.step pn st rds rbind] in E. rewrite Hin in E. cbn [rbind ChalModel.step pn st rds] in E.
      destruct (free_tbl g old) as [g1|]; [|discriminate]. cbn [rbind ChalModel.step pn st rds] in E. destruct (free_sets g1 dead); [|discriminate].
      cbn [rbind] in E. injection E as <- _. reflexivity.
    - rewrite (Hon _ _ _ eq_refl) in E. cbn [rbind ChalModel.step pn st rds] in E.
      destruct (free_tbl g old) as [g1|]; [|discriminate]. cbn [rbind ChalModel.step pn st rds] in E. destruct (free_sets g1 dead); [|discriminate].
      cbn [rbind ChalModel.step pn] in E. injection E as <- _. reflexivity.
    - cbn [rbind ChalModel.step pn st rds] in E.
      destruct (free_tbl g old) as [g1|]; [|discriminate]. cbn [rbind ChalModel.step pn st rds] in E. destruct (free_sets g1 dead); [|discriminate].
      cbn [rbind ChalModel.step pn] in E. injection E as <- _. reflexivity.
    - cbn [rbind ChalModel.step pn st rds] in E. destruct (free_sets g dead); [|discriminate].
      cbn [rbind ChalModel.step pn] in E. injection E as <- _. reflexivity.
  Qed.
End Tight.
