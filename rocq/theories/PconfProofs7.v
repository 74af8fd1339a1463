(** What an accepted configuration is good for *)
From Coq Require Import String ZArith.
From Verif Require Import Base MonSpec DnameModel DnameSpec CompModel RespModel MonModel VscfModel VscfSpec OptModel VhashModel VhashSpec PlugModel PlugSpec PlugProofs2 PlugProofs4 PconfModel PconfSpec PconfProofs PconfProofs3 PconfProofs5 PconfProofs6.
Local Open Scope nat_scope.
Local Open Scope list_scope.
Local Notation length := List.length.
Ltac Zify.zify_post_hook ::= idtac.

Ltac ob H := match type of H with obind ?o _ = Some _ => let E := fresh "E" in destruct o eqn:E; [cbn [obind] in H | discriminate H] end.
Lemma need_true b u : need b = Some u -> b = true.
Proof. destruct b; [reflexivity|discriminate]. Qed.
Lemma all_forall {A B} (f : A -> option B) (P : B -> Prop) l bs : (forall a b, f a = Some b -> P b) -> all f l = Some bs -> Forall P bs.
Proof.
  intros H. revert bs. induction l as [|a l IH]; intros bs E; [injection E as <-; constructor|]. cbn in E. destruct (f a) as [b|] eqn:EF; [|discriminate]. destruct (all f l) as [bs'|]; [|discriminate]. injection E as <-. constructor; eauto.
Qed.
Lemma loads_gives {A W} service (load : cm A) s (o : option W) R : gives service s load o (fun s rs w => R s w rs) -> sound service s -> loads service load s o R.
Proof.
  intros G S. specialize (G s (later_refl s) S). unfold loads. destruct (load s) as [[(rs, s')|]|]; [|now subst o|contradiction]. destruct G as (w & -> & R1 & L & S'). eauto 6.
Qed.
Lemma loads_ok {A W} service (load : cm A) s (o : option W) R rs s' : loads service load s o R -> load s = Ok (Some (rs, s')) -> exists w, o = Some w /\ R s' w rs.
Proof. unfold loads. destruct o as [w|]; [|intros ->; discriminate]. intros (rs' & s1 & -> & R1 & _) [= <- <-]. eauto. Qed.

Section Facts.
  Variable gai : bytes -> option addr.
  Variable strtod : bytes -> option dbl.
  Variable service : bytes -> option (bool * bool).
  Variable fq_name : bytes -> option name.

  Definition s_good (v6 : bool) (w : s_want) : Prop := is6 (sw_pri w) = v6 /\ is6 (sw_sec w) = v6.
  Lemma for_one {S} (P : bool -> S -> Prop) (v6 : bool) w : P v6 w -> for_both P (fst (if v6 then (None, Some w) else (Some w, None))) (snd (if v6 then (None, Some w) else (Some w, None))).
  Proof. intros H. destruct v6; cbn; split; try (now (left + right)); (split; intros ? [= <-]; exact H). Qed.
  Lemma s_family_facts v6 o outer r : s_family_says gai service v6 o outer = Some r -> (o <> None -> r <> None) /\ forall w, r = Some w -> s_good v6 w.
  Proof.
    destruct o as [[x y|l|h]|]; cbn; try discriminate; [|intros [= <-]; split; [congruence|discriminate]]. intros H. ob H. ob H. injection H as <-. apply need_true in E0. apply andb_prop in E0 as (E0 & _). apply andb_prop in E0 as (A & B).
    split; [discriminate|]. intros w [= <-]. split; [now destruct v6, (is6 (sw_pri s))|now destruct v6, (is6 (sw_sec s))].
  Qed.
  Lemma s_res_facts plugin x r : s_res_says gai service plugin x = Some r -> for_both s_good (fst r) (snd r).
  Proof.
    destruct x as [y z|l|h]; try discriminate. cbn [s_res_says].
    assert (D : (let? w <- s_pair_says gai service h [plugin] ; let? _ <- need (Bool.eqb (is6 (sw_pri w)) (is6 (sw_sec w)) && only_b s_keys h) ; Some (if is6 (sw_pri w) then (None, Some w) else (Some w, None))) = Some r -> for_both s_good (fst r) (snd r)).
    { intros H. ob H. ob H. injection H as <-. apply for_one. apply need_true in E0. apply andb_prop in E0 as (A & _). apply Bool.eqb_prop in A. split; [reflexivity|now symmetry]. }
    assert (F : forall c4 c6, c4 <> None \/ c6 <> None -> (let? _ <- need (only_b [k_v4; k_v6; k_types] h) ; let? w4 <- s_family_says gai service false c4 [h; plugin] ; let? w6 <- s_family_says gai service true c6 [h; plugin] ; Some (w4, w6)) = Some r -> for_both s_good (fst r) (snd r)).
    { intros c4 c6 NE H. ob H. ob H. ob H. injection H as <-. apply s_family_facts in E0 as (A & B). apply s_family_facts in E1 as (A' & B'). split; [cbn; tauto|]. split; assumption. }
    destruct (get k_v4 h) as [v4|]; [|destruct (get k_v6 h) as [v6|]; [|exact D]]; apply F; [left|right]; discriminate.
  Qed.
  Lemma address_in_facts v6 svcs x a : address_in gai service v6 svcs x = Some a -> is6 a = v6.
  Proof. unfold address_in. intros H. ob H. ob H. ob H. injection H as <-. apply need_true, Bool.eqb_prop in E0. now symmetry. Qed.
  Definition m_good (v6 : bool) (w : m_want) : Prop := mw_addrs w <> [] /\ Forall (fun a => is6 a = v6) (mw_addrs w).
  Lemma m_set_facts v6 x outer w : m_set_says gai strtod service v6 x outer = Some w -> m_good v6 w.
  Proof.
    unfold m_set_says. cbv zeta. intros H. ob H. ob H. ob H. ob H. ob H. injection H as <-. split; cbn [mw_addrs]; [destruct l0; [discriminate|discriminate]|]. eapply all_forall; [|exact E2]. cbn. intros ? ? X. eapply address_in_facts; exact X.
  Qed.
  Lemma m_family_facts v6 o outer r : m_family_says gai strtod service v6 o outer = Some r -> (o <> None -> r <> None) /\ forall w, r = Some w -> m_good v6 w.
  Proof. destruct o as [x|]; cbn; [|intros [= <-]; split; [congruence|discriminate]]. intros H. ob H. injection H as <-. split; [discriminate|]. intros w [= <-]. eapply m_set_facts; exact E. Qed.
  Lemma m_res_facts plugin x r : m_res_says gai strtod service plugin x = Some r -> for_both m_good (fst r) (snd r).
  Proof.
    assert (D : m_direct_says gai strtod service x plugin = Some r -> for_both m_good (fst r) (snd r)).
    { unfold m_direct_says. intros H. ob H. ob H. injection H as <-. apply for_one. eapply m_set_facts; exact E0. }
    destruct x as [y z|l|h]; try exact D. cbn [m_res_says].
    assert (F : forall c4 c6, c4 <> None \/ c6 <> None -> (let? _ <- need (only_b (k_v4 :: k_v6 :: m_keys) h) ; let? w4 <- m_family_says gai strtod service false c4 [h; plugin] ; let? w6 <- m_family_says gai strtod service true c6 [h; plugin] ; Some (w4, w6)) = Some r -> for_both m_good (fst r) (snd r)).
    { intros c4 c6 NE H. ob H. ob H. ob H. injection H as <-. apply m_family_facts in E0 as (A & B). apply m_family_facts in E1 as (A' & B'). split; [cbn; tauto|]. split; assumption. }
    destruct (get k_v4 h) as [v4|]; [|destruct (get k_v6 h) as [v6|]; [|exact D]]; apply F; [left|right]; discriminate.
  Qed.
  Definition p_good (v6 : bool) (p : addr * N) : Prop := is6 (fst p) = v6 /\ (1 <= snd p <= 1048575)%N.
  Definition g_good (v6 : bool) (g : list (addr * N)) : Prop := g <> [] /\ length g <= 64 /\ Forall (p_good v6) g.
  Definition ww_good (v6 : bool) (w : w_want) : Prop := ww_groups w <> [] /\ length (ww_groups w) <= 64 /\ Forall (g_good v6) (ww_groups w).
  Lemma weight_facts x n : weight x = Some n -> (1 <= n <= 1048575)%N.
  Proof. destruct x as [r s|l|h]; try discriminate. intros H. apply weight_iff in H. destruct H as (? & ? & ? & _ & _ & _ & _ & B). exact B. Qed.
  Lemma waddr_facts v6 svcs x p : weighted_addr gai service v6 svcs x = Some p -> p_good v6 p.
  Proof.
    destruct x as [r s|l|h]; try discriminate. destruct l as [|[r s|l1|h1] [|w [|w' l]]]; try discriminate. cbn [weighted_addr]. intros H. ob H. ob H. injection H as <-. split; [eapply address_in_facts; exact E0|eapply weight_facts; exact E].
  Qed.
  Lemma sizes {A} (g : list A) : Nat.leb 1 (length g) && Nat.leb (length g) 64 = true -> g <> [] /\ length g <= 64.
  Proof. intros H. apply andb_prop in H as (A1 & B). apply Nat.leb_le in B. split; [destruct g; discriminate|exact B]. Qed.
  Lemma group_facts v6 svcs x g : group_says gai service v6 svcs x = Some g -> g_good v6 g.
  Proof.
    destruct x as [r s|l|h]; try discriminate. cbn [group_says]. intros H. ob H. ob H. injection H as <-. apply need_true, sizes in E0 as (A & B). split; [exact A|]. split; [exact B|].
    eapply all_forall; [|exact E]. cbn. intros e p X. eapply waddr_facts; exact X.
  Qed.
  Lemma w_set_facts v6 h outer w : w_set_says gai strtod service v6 h outer = Some w -> ww_good v6 w.
  Proof.
    unfold w_set_says. intros H. ob H. ob H. ob H. ob H. ob H. injection H as <-. apply need_true, sizes in E3 as (A & B). split; [exact A|]. split; [exact B|]. cbn [ww_groups]. clear -E2. unfold groups_say in E2.
    assert (D : forall l' gs, all (fun x => let? a <- weighted_addr gai service v6 l x ; Some [a]) l' = Some gs -> Forall (g_good v6) gs).
    { intros l' gs X. eapply all_forall; [|exact X]. cbn. intros x g Y. ob Y. injection Y as <-. split; [discriminate|]. split; [cbn; lia|]. constructor; [eapply waddr_facts; exact E|constructor]. }
    destruct (map snd (others w_keys h)) as [|[r s|a|g] l']; try (eapply D; exact E2). eapply all_forall; [|exact E2]. cbn beta. intros x g' Y. eapply group_facts; exact Y.
  Qed.
  Lemma w_family_facts v6 o outer r : w_family_says gai strtod service v6 o outer = Some r -> (o <> None -> r <> None) /\ forall w, r = Some w -> ww_good v6 w.
  Proof. destruct o as [[x y|l|h]|]; cbn; try discriminate; [|intros [= <-]; split; [congruence|discriminate]]. intros H. ob H. injection H as <-. split; [discriminate|]. intros ? [= <-]. eapply w_set_facts; exact E. Qed.
  Definition cw_good (w : c_want) : Prop := cw_names w <> [] /\ length (cw_names w) <= 64 /\ Forall (fun p => 1 <= snd p <= 1048575)%N (cw_names w).
  Lemma c_set_facts h outer w : c_set_says strtod service fq_name h outer = Some w -> cw_good w.
  Proof.
    unfold c_set_says. intros H. ob H. ob H. ob H. ob H. injection H as <-. apply need_true, sizes in E2 as (A & B). split; [exact A|]. split; [exact B|]. cbn [cw_names]. eapply all_forall; [|exact E1]. cbn beta. clear. intros x p H.
    destruct x as [r s|l'|h]; try discriminate. destruct l' as [|[r s|l1|h1] [|w0 [|w' l']]]; try discriminate. cbn [weighted_name] in H. ob H. ob H. ob H. injection H as <-. eapply weight_facts; exact E.
  Qed.
  Definition what_fine (w : what_want) : Prop := match w with WantNames c => cw_good c | WantAddrs a b => for_both ww_good a b end.
  Lemma w_res_facts plugin x r : w_res_says gai strtod service fq_name plugin x = Some r -> what_fine r.
  Proof.
    destruct x as [y z|l|h]; try discriminate. cbn [w_res_says]. intros H. ob H. clear E.
    assert (A : forall a, (let? w <- w_set_says gai strtod service (is6 a) h [plugin] ; Some (if is6 a then WantAddrs None (Some w) else WantAddrs (Some w) None)) = Some r -> what_fine r).
    { intros a X. ob X. injection X as <-. pose proof (for_one ww_good (is6 a) w (w_set_facts _ _ _ _ E)) as F. destruct (is6 a); exact F. }
    assert (D : w_direct_says gai strtod service fq_name h plugin = Some r -> what_fine r).
    { unfold w_direct_says. assert (N : forall y, (let? t <- first_text y ; match gai t with Some a => let? w <- w_set_says gai strtod service (is6 a) h [plugin] ; Some (if is6 a then WantAddrs None (Some w) else WantAddrs (Some w) None) | None => let? c <- c_set_says strtod service fq_name h [plugin] ; Some (WantNames c) end) = Some r -> what_fine r).
      { intros y X. ob X. match type of X with context [gai ?b] => destruct (gai b) as [a|] end; [now apply (A a)|]. ob X. injection X as <-. cbn. eapply c_set_facts; exact E0. }
      destruct (map snd (others w_keys h)) as [|y ys]; [discriminate|]. destruct y as [y1 y2|y|[|(k, y) g]]; try apply N. intros X. ob X. ob X. now apply (A a). }
    assert (F : forall c4 c6, c4 <> None \/ c6 <> None -> (let? _ <- need (only_b (k_v4 :: k_v6 :: w_keys) h) ; let? w4 <- w_family_says gai strtod service false c4 [h; plugin] ; let? w6 <- w_family_says gai strtod service true c6 [h; plugin] ; Some (WantAddrs w4 w6)) = Some r -> what_fine r).
    { intros c4 c6 NE X. ob X. ob X. ob X. injection X as <-. apply w_family_facts in E0 as (B & C). apply w_family_facts in E1 as (B' & C'). split; [cbn; tauto|]. split; assumption. }
    destruct (get k_v4 h) as [v4|]; [|destruct (get k_v6 h) as [v6|]; [|now apply D]]; (eapply F; [|exact H]); [left|right]; discriminate.
  Qed.
  Lemma list_facts {W} (f : vnode -> option W) (P : W -> Prop) l ws : (forall x w, f x = Some w -> P w) -> all (fun e : bytes * vnode => let? w <- f (snd e) ; Some (c_str (fst e), w)) l = Some ws -> Forall (fun w => P (snd w)) ws.
  Proof. intros H E. eapply all_forall; [|exact E]. cbn. intros e w X. ob X. injection X as <-. cbn. eauto. Qed.
End Facts.

(** ** From what is meant to what is made *)
Lemma forall2_in {A B} (R : A -> B -> Prop) l l' b : Forall2 R l l' -> In b l' -> exists a, In a l /\ R a b.
Proof. induction 1 as [|x y l l' H F IH]; [intros []|]. intros [<-|I]; [exists x; split; [now left|exact H]|]. destruct (IH I) as (a & J & K). exists a. split; [now right|exact K]. Qed.
Lemma watched_known tbl s s2 x svcs idx : later s s2 -> tracks tbl s2 -> Forall2 (monitors s x) svcs idx -> known tbl idx.
Proof. intros ((l & E) & _) T F. unfold known. induction F as [|svc i svcs idx M F IH]; constructor; [|exact IH]. unfold monitors in M. apply (T i (svc, x)). rewrite E, nth_error_app1; [exact M|]. apply nth_error_Some. congruence. Qed.
Lemma both_made {W S} (R : W -> S -> Prop) (P : bool -> W -> Prop) (Q : bool -> S -> Prop) a b x y : for_both P a b -> maybe R a x -> maybe R b y ->
  (forall w s, a = Some w -> P false w -> R w s -> Q false s) -> (forall w s, b = Some w -> P true w -> R w s -> Q true s) -> for_both Q x y.
Proof.
  intros (NE & A & B) MA MB HA HB. split; [|split].
  - destruct NE as [NE|NE]; [left|right]; [destruct a, x|destruct b, y]; try contradiction; discriminate.
  - intros s ->. destruct a as [w|]; [|contradiction]. eapply HA; eauto.
  - intros s ->. destruct b as [w|]; [|contradiction]. eapply HB; eauto.
Qed.

Lemma forall_in {A} (P : A -> Prop) l a : Forall P l -> In a l -> P a.
Proof. intros F. rewrite Forall_forall in F. apply F. Qed.
Lemma room s s2 n : later s s2 -> (n <= lim4 s)%N -> (n <= lim4 s2)%N.
Proof. intros (_ & A & _) H. eapply N.le_trans; eauto. Qed.
Lemma room6 s s2 n : later s s2 -> (n <= lim6 s)%N -> (n <= lim6 s2)%N.
Proof. intros (_ & _ & A) H. eapply N.le_trans; eauto. Qed.
Lemma roomy_later {A} s s2 (count : A -> nat) w : later s s2 -> roomy s count w -> roomy s2 count w.
Proof. intros L (A4 & A6). split; intros a E; [eapply room; eauto|eapply room6; eauto]. Qed.
Lemma to_nat_le n k : (N.of_nat n <= k)%N -> n <= N.to_nat k.
Proof. intros. lia. Qed.

Section Serves.
  Variable s s2 : state.
  Variable tbl : list N.
  Hypothesis L : later s s2.
  Hypothesis T : tracks tbl s2.
  Notation l4 := (N.to_nat (lim4 s2)).
  Notation l6 := (N.to_nat (lim6 s2)).

  Lemma s_serves v6 w p : (1 <= lim4 s /\ 1 <= lim6 s)%N -> s_good v6 w -> s_made s w p -> s_ok l4 l6 tbl v6 p.
  Proof.
    intros (R4 & R6) (A & B) (C & D & E & F). apply (room s s2) in R4; [|exact L]. apply (room6 s s2) in R6; [|exact L]. split; [unfold lim; destruct v6; lia|]. rewrite C, D. split; [exact A|]. split; [exact B|].
    split; eapply watched_known; eauto.
  Qed.
  Lemma roomy_lim {A} (count : A -> nat) a b (v6 : bool) w : roomy s count (a, b) -> (if v6 then b else a) = Some w -> count w <= lim l4 l6 v6.
  Proof. intros R E. apply (roomy_later s s2) in R; [|exact L]. destruct R as (R4 & R6). cbn in R4, R6. destruct v6; cbn; apply to_nat_le; auto. Qed.
  Lemma m_serves v6 w x : m_size w <= lim l4 l6 v6 -> m_good v6 w -> m_made s w x -> m_ok l4 l6 tbl v6 x /\ 1 <= ms_up x <= length (ms_as x).
  Proof.
    intros R (NE & F) (M & _ & P). assert (LE : length (ms_as x) = length (mw_addrs w)) by (clear -M; induction M; cbn; congruence).
    split; [|destruct P as (P & _); lia]. split; [destruct (ms_as x), (mw_addrs w); cbn in LE; congruence|]. split; [rewrite LE; exact R|].
    clear LE R NE P. induction M as [|a y l l' (A & B) M IH]; [constructor|]. inversion F as [|? ? F1 F2]. constructor; [|now apply IH]. split; [congruence|]. eapply watched_known; eauto.
  Qed.
  Lemma w_serves v6 w x : w_size w <= lim l4 l6 v6 -> ww_good v6 w -> w_made s w x ->
    exists c, x = mk_conf c /\ w_ok l4 l6 tbl v6 (wf_multi c) (wf_scale c) (wf_groups c) /\ wf_multi c = ww_multi w /\ Forall2 (Forall2 (wa_made s (ww_svcs w))) (ww_groups w) (wf_groups c) /\
      part_of (total (map snd (concat (ww_groups w)))) (fst (ww_part w)) (snd (ww_part w)) (wf_scale c (total (map snd (concat (ww_groups w))))).
  Proof.
    intros R (NE & LE & F) (up & gs & -> & M & P). set (T0 := sum32 (map wi_weight (map mk_item gs))).
    assert (LG : map (@length _) gs = map (@length _) (ww_groups w)). { clear -M. induction M as [|g y l l' A M IH]; [reflexivity|]. cbn. f_equal; [clear -A; induction A; cbn; congruence|exact IH]. }
    assert (LL : length gs = length (ww_groups w)) by (apply (f_equal (@length _)) in LG; now rewrite !map_length in LG).
    assert (EW : map wa_weight (concat gs) = map snd (concat (ww_groups w))). { clear -M. induction M as [|g y l l' A M IH]; [reflexivity|]. cbn. rewrite !map_app, IH. f_equal. clear -A. induction A as [|a b g y (_ & B & _) A IH]; [reflexivity|]. cbn. congruence. }
    assert (FI : Forall (fun g => g <> [] /\ length g <= 64 /\ Forall (wa_ok tbl v6) g) gs).
    { clear -M F L T. induction M as [|g y l l' A M IH]; [constructor|]. inversion F as [|? ? (NE & LE & PG) F']; subst. constructor; [|now apply IH].
      assert (LY : length y = length g) by (clear -A; induction A; cbn; congruence). split; [destruct y, g; cbn in LY; congruence|]. split; [lia|]. clear -A PG L T. induction A as [|a b g y (A1 & B & C) A IH]; [constructor|]. inversion PG as [|? ? (G1 & G2) PG']; subst. constructor; [|now apply IH].
      split; [congruence|]. split; [now rewrite B|]. eapply watched_known; eauto. }
    assert (ST : T0 = total (map wa_weight (concat gs))).
    { unfold T0. apply set_total; [|lia|destruct gs, (ww_groups w); cbn in LL; congruence]. eapply Forall_impl; [|exact FI]. cbn. intros g (A & B & C). split; [exact A|]. split; [exact B|]. eapply Forall_impl; [|exact C]. cbn. intros a (_ & D & _). exact D. }
    exists {| wf_scale := fun t => if (t =? T0)%N then up else t; wf_multi := ww_multi w; wf_groups := gs |}. cbn [wf_scale wf_multi wf_groups]. split.
    { unfold mk_conf, mk_set. cbn [wf_scale wf_multi wf_groups]. fold T0. now rewrite N.eqb_refl. }
    split; [|split; [reflexivity|split; [exact M|rewrite <- EW, <- ST, N.eqb_refl, ST, EW; exact P]]].
    split; [destruct gs, (ww_groups w); cbn in LL; congruence|]. split; [lia|]. split; [exact FI|]. split.
    - unfold w_size in R. destruct (ww_multi w); [lia|]. apply Forall_forall. intros g I. assert (J : In (length g) (map (@length _) (ww_groups w))) by (rewrite <- LG; now apply in_map).
      pose proof (proj1 (list_max_le (map (@length _) (ww_groups w)) _) R) as X. rewrite Forall_forall in X. exact (X _ J).
    - intros t PT. destruct (N.eqb_spec t T0) as [->|]; [|lia]. destruct P as ((P1 & P2) & _). rewrite <- EW, <- ST in P2. lia.
  Qed.
  Lemma c_serves w x : cw_good w -> c_made s w x ->
    exists scale its, x = mk_cnset scale its /\ wc_ok tbl scale its /\
      Forall2 (fun p i => wc_name i = fst p /\ wc_weight i = snd p /\ Forall2 (monitors s (OnName (dname (fst p) true))) (cw_svcs w) (wc_idx i)) (cw_names w) its /\
      part_of (total (map snd (cw_names w))) (fst (cw_part w)) (snd (cw_part w)) (scale (total (map snd (cw_names w)))).
  Proof.
    intros (NE & LE & F) (up & its & -> & M & P). set (T0 := sum32 (map wc_weight its)).
    assert (LI : length its = length (cw_names w)) by (clear -M; induction M; cbn; congruence).
    assert (EW : map wc_weight its = map snd (cw_names w)). { clear -M. induction M as [|g y l l' (_ & A & _) M IH]; [reflexivity|]. cbn. congruence. }
    assert (FI : Forall (fun c => (1 <= wc_weight c <= 1048575)%N /\ known tbl (wc_idx c)) its).
    { clear -M F L T. induction M as [|g y l l' (A & B & C) M IH]; [constructor|]. inversion F; subst. constructor; [|now apply IH]. split; [rewrite B; assumption|]. eapply watched_known; eauto. }
    assert (ST : T0 = total (map wc_weight its)).
    { unfold T0. apply sum32_eq. assert (H := total_le (map wc_weight its) 1048575 64). rewrite map_length in H. change (N.of_nat 64) with 64%N in H. unfold two32. enough (total (map wc_weight its) <= 64 * 1048575)%N by lia. apply H; [|lia].
      apply Forall_map. eapply Forall_impl; [|exact FI]. cbn. intros c ((_ & X) & _). exact X. }
    exists (fun t => if (t =? T0)%N then up else t), its. split; [unfold mk_cnset; fold T0; now rewrite N.eqb_refl|]. split; [|split; [exact M|rewrite <- EW, <- ST, N.eqb_refl, ST, EW; exact P]].
    split; [destruct its, (cw_names w); cbn in LI; congruence|]. split; [lia|]. split; [exact FI|].
    intros t PT. destruct (N.eqb_spec t T0) as [->|]; [|lia]. destruct P as ((P1 & P2) & _). rewrite <- EW, <- ST in P2. lia.
  Qed.
End Serves.
