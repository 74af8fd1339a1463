(** The sets at a name are what the records of that name say. *)
From Coq Require Import Sorting.Permutation.
From Verif Require Import Base DnameSpec DnameModel RandModel CompModel RespModel RespSpec LtreeModel LtreeSpec LtreeProofs LtreeProofs2 LtreeProofs3 LtreeProofs4 LtreeProofs5.
Local Open Scope N_scope.
Ltac Zify.zify_post_hook ::= idtac.

Lemma get_in sets t s : get_rrset sets t = Some s -> In s sets /\ rrset_type s = t.
Proof. unfold get_rrset. intros H. apply find_some in H. destruct H as (H & E). apply N.eqb_eq in E. auto. Qed.
Lemma get_none sets t : get_rrset sets t = None -> forall s, In s sets -> rrset_type s <> t.
Proof. unfold get_rrset. intros H s IN E. apply (find_none _ _ H) in IN. apply N.eqb_neq in IN. contradiction. Qed.
Lemma get_some sets s : NoDup (map rrset_type sets) -> In s sets -> get_rrset sets (rrset_type s) = Some s.
Proof.
  induction sets as [|x sets IH]; intros ND IN; [destruct IN|]. cbn in ND. apply NoDup_cons_iff in ND. destruct ND as (NI & ND). unfold get_rrset. cbn [find].
  destruct IN as [->|IN]; [now rewrite N.eqb_refl|]. destruct (N.eqb_spec (rrset_type x) (rrset_type s)) as [E|E].
  - exfalso. apply NI. rewrite E. apply in_map_iff. eauto.
  - now apply IH.
Qed.
Lemma put_types sets t s' : rrset_type s' = t -> map rrset_type (put_rrset sets t s') = map rrset_type sets.
Proof.
  intros E. induction sets as [|x sets IH]; [reflexivity|]. cbn [put_rrset map]. destruct (N.eqb_spec (rrset_type x) t) as [X|X]; cbn [map]; [congruence|now rewrite IH].
Qed.
Lemma put_in sets t s' x : NoDup (map rrset_type sets) -> In x (put_rrset sets t s') -> x = s' \/ (In x sets /\ rrset_type x <> t).
Proof.
  induction sets as [|y sets IH]; intros ND IN; [destruct IN|]. cbn in ND. apply NoDup_cons_iff in ND. destruct ND as (NI & ND). cbn [put_rrset] in IN.
  destruct (N.eqb_spec (rrset_type y) t) as [X|X].
  - destruct IN as [<-|IN]; [now left|]. right. split; [now right|]. intros E. apply NI. rewrite X, <- E. now apply in_map.
  - destruct IN as [<-|IN]; [right; split; [now left|auto]|]. destruct (IH ND IN) as [->|(A & B)]; [now left|right; split; [now right|auto]].
Qed.

Definition special : list N := [T_A; T_AAAA; T_SOA; T_CNAME; T_NS; T_PTR; T_MX; T_SRV; T_NAPTR; T_TXT; T_DYNC].
(** what the sets made by adding records have in common *)
Definition sane (r : rrset) : Prop :=
  match r with
  | RsOther ty _ _ => ~ In ty [1; 2; 5; 6; 12; 13; 15; 16; 28; 33; 35; 65295] /\ ty < 65536 /\ ~ (127 < ty < 256)
  | RsNS _ rd => Forall (fun x => snd (fst x) = None /\ snd x = None) rd
  | RsADyn mx mn _ | RsAAAADyn mx mn _ | RsDYNC mx mn _ => mn <= mx
  | _ => True
  end.

Section Lists.
  Variable cfg : zcfg.
  Variable pl : plugins.
  Variable zname : name.
  Hypothesis CF : cfg_fine cfg.
  Notation rec_sets := (rec_sets cfg pl zname).
  Notation fold_sets := (fold_sets cfg pl zname).
  Notation set_is := (set_is cfg pl zname).
  Notation sets_are := (sets_are cfg pl zname).
  Notation rec_ttl := (rec_ttl cfg).

  Lemma clamp_limit x : clamp_ttl cfg x = limit (z_min_ttl cfg) (z_max_ttl cfg) x.
  Proof.
    destruct CF as (C & _). unfold clamp_ttl, limit. destruct (N.ltb_spec (z_max_ttl cfg) x); destruct (N.ltb_spec x (z_min_ttl cfg)); lia.
  Qed.
  Lemma clamp_min_ok {A} ttl mn (k : N -> zres A) x : z_min_ttl cfg <= ttl -> clamp_min cfg ttl mn k = Ok (Some x) ->
    k (N.min ttl (N.max (z_min_ttl cfg) mn)) = Ok (Some x).
  Proof.
    intros LO H. unfold clamp_min, zwarn_if, zwarn, zfatal in H.
    assert (E : (if ttl <? (if mn <? z_min_ttl cfg then z_min_ttl cfg else mn) then ttl else (if mn <? z_min_ttl cfg then z_min_ttl cfg else mn)) = N.min ttl (N.max (z_min_ttl cfg) mn)).
    { destruct (N.ltb_spec mn (z_min_ttl cfg)); [destruct (N.ltb_spec ttl (z_min_ttl cfg))|destruct (N.ltb_spec ttl mn)]; lia. }
    rewrite E in H. repeat match type of H with context [if ?b then _ else _] => destruct b end; try discriminate; exact H.
  Qed.
  Lemma clamp_min_ub {A} ttl mn (k : N -> zres A) : clamp_min cfg ttl mn k = UB -> exists m, k m = UB.
  Proof.
    intros H. unfold clamp_min, zwarn_if, zwarn, zfatal in H.
    repeat match type of H with context [if ?b then _ else _] => destruct b end; try discriminate; eauto.
  Qed.

  Lemma split_bang_ok s : match split_bang s with (p, q) => ~ In 33 p /\ s = p ++ match q with None => [] | Some r => 33 :: r end end.
  Proof.
    induction s as [|c s IH]; cbn [split_bang]; [split; [intros []|reflexivity]|]. destruct (N.eqb_spec c 33) as [->|NE].
    - split; [intros []|reflexivity].
    - destruct (split_bang s) as (p, q). destruct IH as (A & B). split; [intros [X|X]; [congruence|contradiction]|]. cbn. now rewrite B at 1.
  Qed.
  Lemma find_resource_ok rhs o id : find_resource pl rhs o = Ok (Some id) -> resource_is pl rhs o id.
  Proof.
    unfold find_resource. destruct (255 <? N.of_nat (length rhs)); [discriminate|]. pose proof (split_bang_ok rhs) as S0. destruct (split_bang rhs) as (p, q). destruct S0 as (NI & E).
    destruct (pl_find pl p) as [(resolve, mr)|] eqn:F; [|discriminate]. destruct resolve; [|discriminate]. cbn [negb]. intros H. exists p, q, mr. split; [exact NI|]. split; [exact E|]. split; [exact F|].
    destruct mr as [m|]; [|now injection H as <-]. destruct (Z.ltb_spec (m q o) 0); [discriminate|]. injection H as <-. auto.
  Qed.
  Lemma find_resource_ub rhs o : find_resource pl rhs o <> UB.
  Proof.
    unfold find_resource, zfatal. destruct (255 <? N.of_nat (length rhs)); [discriminate|]. destruct (split_bang rhs) as (p, q). destruct (pl_find pl p) as [(r, [m|])|]; try discriminate.
    - destruct r; cbn [negb]; [destruct (m q o <? 0)%Z|]; discriminate.
    - destruct r; discriminate.
  Qed.

  Definition P (l : list record) (sets : list rrset) : Prop := sets_are l sets /\ Forall sane sets.

  Lemma of_type_iff t r : of_type t r = true <-> In t (rtypes r).
  Proof.
    unfold of_type. rewrite existsb_exists. split.
    - intros (x & IN & E). apply N.eqb_eq in E. now subst.
    - intros IN. exists t. split; [exact IN|apply N.eqb_refl].
  Qed.
  Lemma recs_of_snoc t l r : recs_of t (l ++ [r]) = recs_of t l ++ (if of_type t r then [r] else []).
  Proof. unfold recs_of. rewrite filter_app. cbn [filter]. now destruct (of_type t r). Qed.
  Lemma recs_of_none t l sets : P l sets -> get_rrset sets t = None -> recs_of t l = [].
  Proof.
    intros ((_ & _ & C) & _) G. destruct (recs_of t l) as [|r x] eqn:E; [reflexivity|]. exfalso.
    assert (IN : In r (recs_of t l)) by (rewrite E; now left). unfold recs_of in IN. apply filter_In in IN. destruct IN as (IN & T). apply of_type_iff in T.
    destruct (C r t IN T) as (s & IS & TS). exact (get_none _ _ G s IS TS).
  Qed.

  Lemma NoDup_snoc {X} (l : list X) x : NoDup l -> ~ In x l -> NoDup (l ++ [x]).
  Proof.
    induction l as [|y l IH]; intros ND NI; [constructor; [intros []|constructor]|]. apply NoDup_cons_iff in ND. destruct ND as (A & B). cbn. constructor.
    - rewrite in_app_iff. intros [H|[->|[]]]; [contradiction|apply NI; now left].
    - apply IH; [exact B|]. intros H. apply NI. now right.
  Qed.

  (** a new set *)
  Lemma P_new l sets r s : P l sets -> rtypes r = [rrset_type s] -> get_rrset sets (rrset_type s) = None -> set_is [r] s -> sane s -> P (l ++ [r]) (sets ++ [s]).
  Proof.
    intros PP RT G SI SA. pose proof (recs_of_none _ _ _ PP G) as RN. destruct PP as ((ND & A & C) & F). split; [|apply Forall_app; auto].
    split; [|split].
    - rewrite map_app. apply NoDup_snoc; [exact ND|]. intros IN. apply in_map_iff in IN. destruct IN as (x & E & IN). exact (get_none _ _ G x IN E).
    - intros x IN. rewrite recs_of_snoc. apply in_app_iff in IN. destruct IN as [IN|[<-|[]]].
      + assert (T : of_type (rrset_type x) r = false).
        { destruct (of_type (rrset_type x) r) eqn:E; [|reflexivity]. apply of_type_iff in E. rewrite RT in E. destruct E as [E|[]]. exfalso. exact (get_none _ _ G x IN (eq_sym E)). }
        rewrite T, app_nil_r. now apply A.
      + assert (T : of_type (rrset_type s) r = true) by (apply of_type_iff; rewrite RT; now left). rewrite T, RN. exact SI.
    - intros r0 t IN IT. apply in_app_iff in IN. destruct IN as [IN|[<-|[]]].
      + destruct (C r0 t IN IT) as (x & IX & TX). exists x. split; [apply in_app_iff; now left|exact TX].
      + rewrite RT in IT. destruct IT as [<-|[]]. exists s. split; [apply in_app_iff; right; now left|reflexivity].
  Qed.
  Lemma P_two l sets r s1 s2 : P l sets -> rtypes r = [rrset_type s1; rrset_type s2] -> get_rrset sets (rrset_type s1) = None -> get_rrset sets (rrset_type s2) = None ->
    rrset_type s1 <> rrset_type s2 -> set_is [r] s1 -> set_is [r] s2 -> sane s1 -> sane s2 -> P (l ++ [r]) (sets ++ [s1; s2]).
  Proof.
    intros PP RT G1 G2 NE SI1 SI2 SA1 SA2. pose proof (recs_of_none _ _ _ PP G1) as RN1. pose proof (recs_of_none _ _ _ PP G2) as RN2. destruct PP as ((ND & A & C) & F). split; [|apply Forall_app; auto].
    split; [|split].
    - change [s1; s2] with ([s1] ++ [s2]). rewrite app_assoc, !map_app. apply NoDup_snoc; [apply NoDup_snoc; [exact ND|]|].
      + intros IN. apply in_map_iff in IN. destruct IN as (x & E & IN). exact (get_none _ _ G1 x IN E).
      + rewrite in_app_iff. intros [IN|[E|[]]]; [|contradiction]. apply in_map_iff in IN. destruct IN as (x & E & IN). exact (get_none _ _ G2 x IN E).
    - intros x IN. rewrite recs_of_snoc. apply in_app_iff in IN. destruct IN as [IN|[<-|[<-|[]]]].
      + assert (T : of_type (rrset_type x) r = false).
        { destruct (of_type (rrset_type x) r) eqn:E; [|reflexivity]. apply of_type_iff in E. rewrite RT in E. exfalso. destruct E as [E|[E|[]]]; [exact (get_none _ _ G1 x IN (eq_sym E))|exact (get_none _ _ G2 x IN (eq_sym E))]. }
        rewrite T, app_nil_r. now apply A.
      + assert (T : of_type (rrset_type s1) r = true) by (apply of_type_iff; rewrite RT; now left). rewrite T, RN1. exact SI1.
      + assert (T : of_type (rrset_type s2) r = true) by (apply of_type_iff; rewrite RT; right; now left). rewrite T, RN2. exact SI2.
    - intros r0 t IN IT. apply in_app_iff in IN. destruct IN as [IN|[<-|[]]].
      + destruct (C r0 t IN IT) as (x & IX & TX). exists x. split; [apply in_app_iff; now left|exact TX].
      + rewrite RT in IT. destruct IT as [<-|[<-|[]]]; [exists s1|exists s2]; (split; [apply in_app_iff; right; cbn; auto|reflexivity]).
  Qed.
  (** a longer set *)
  Lemma P_more l sets r s s' : P l sets -> rtypes r = [rrset_type s] -> In s sets -> rrset_type s' = rrset_type s ->
    (forall x, set_is x s -> set_is (x ++ [r]) s') -> sane s' -> P (l ++ [r]) (put_rrset sets (rrset_type s) s').
  Proof.
    intros ((ND & A & C) & F) RT IS TE SI SA. split; [split; [|split]|].
    - now rewrite put_types.
    - intros x IN. rewrite recs_of_snoc. apply put_in in IN; [|exact ND]. destruct IN as [->|(IN & NT)].
      + assert (T : of_type (rrset_type s') r = true) by (apply of_type_iff; rewrite RT, TE; now left). rewrite T, TE. apply SI. now apply A.
      + assert (T : of_type (rrset_type x) r = false).
        { destruct (of_type (rrset_type x) r) eqn:E; [|reflexivity]. apply of_type_iff in E. rewrite RT in E. destruct E as [E|[]]. congruence. }
        rewrite T, app_nil_r. now apply A.
    - intros r0 t IN IT.
      assert (X : In t (map rrset_type sets)).
      { apply in_app_iff in IN. destruct IN as [IN|[<-|[]]].
        - destruct (C r0 t IN IT) as (x & IX & TX). apply in_map_iff. eauto.
        - rewrite RT in IT. destruct IT as [<-|[]]. now apply in_map. }
      rewrite <- (put_types sets (rrset_type s) s' TE) in X. apply in_map_iff in X. destruct X as (x & TX & IX). eauto.
    - apply Forall_forall. intros x IN. apply put_in in IN; [|exact ND]. destruct IN as [->|(IN & _)]; [exact SA|]. rewrite Forall_forall in F. now apply F.
  Qed.

  (** adding to a set of which there may be several records *)
  Lemma P_next l sets r t ttl first ext sets' : P l sets -> rtypes r = [t] -> rrset_type first = t -> set_is [r] first -> sane first ->
    (forall s t0 c s', In s sets -> rrset_type s = t -> ext s = Some (t0, c, s') ->
       rrset_type s' = t /\ (forall x, set_is x s -> set_is (x ++ [r]) s') /\ (sane s -> sane s')) ->
    next_rr cfg sets t ttl first ext = Ok (Some sets') -> P (l ++ [r]) sets'.
  Proof.
    intros PP RT TF SF NF EX H. unfold next_rr in H. destruct (get_rrset sets t) as [s|] eqn:G.
    - destruct (get_in _ _ _ G) as (IS & TS). destruct (ext s) as [((t0, c), s')|] eqn:E; [|discriminate]. destruct (EX s t0 c s' IS TS E) as (T' & S' & N').
      assert (H' : Ok (Some (put_rrset sets t s')) = Ok (Some sets')).
      { unfold zwarn_if, zwarn, zfatal in H. repeat match type of H with context [if ?b then _ else _] => destruct b end; try discriminate; exact H. }
      injection H' as <-. rewrite <- TS. apply P_more; auto; try congruence. apply N'. destruct PP as (_ & F). rewrite Forall_forall in F. now apply F.
    - injection H as <-. apply P_new; auto; congruence.
  Qed.
  Lemma next_ub l sets t ttl first ext : P l sets -> (forall s, In s sets -> rrset_type s = t -> ext s <> None) -> next_rr cfg sets t ttl first ext <> UB.
  Proof.
    intros PP EX. unfold next_rr. destruct (get_rrset sets t) as [s|] eqn:G; [|discriminate]. destruct (get_in _ _ _ G) as (IS & TS). specialize (EX s IS TS).
    destruct (ext s) as [((t0, c), s')|]; [|congruence]. unfold zwarn_if, zwarn, zfatal. repeat match goal with |- context [if ?b then _ else _] => destruct b end; discriminate.
  Qed.
  (** a set of a special type is of that kind *)
  Lemma sane_other sets ty t rd : Forall sane sets -> In (RsOther ty t rd) sets -> ~ In ty special.
  Proof.
    intros F IN. rewrite Forall_forall in F. apply F in IN. destruct IN as (A & _). intros B. apply A. clear A.
    unfold special in B. cbn [In] in *. unfold T_A, T_AAAA, T_SOA, T_CNAME, T_NS, T_PTR, T_MX, T_SRV, T_NAPTR, T_TXT, T_DYNC in B.
    repeat (destruct B as [<-|B]; [auto 20|]). destruct B.
  Qed.


  (** the calls that use [next_rr] *)
  Lemma ext_kind sets (F : Forall sane sets) s : In s sets ->
    (rrset_type s = T_A -> (exists t a, s = RsA t a) \/ (exists t m i, s = RsADyn t m i)) /\
    (rrset_type s = T_AAAA -> (exists t a, s = RsAAAA t a) \/ (exists t m i, s = RsAAAADyn t m i)) /\
    (rrset_type s = T_SOA -> exists t m r n, s = RsSOA t m r n) /\ (rrset_type s = T_CNAME -> exists t n, s = RsCNAME t n) /\
    (rrset_type s = T_NS -> exists t rd, s = RsNS t rd) /\ (rrset_type s = T_PTR -> exists t rd, s = RsPTR t rd) /\
    (rrset_type s = T_MX -> exists t rd, s = RsMX t rd) /\ (rrset_type s = T_SRV -> exists t rd, s = RsSRV t rd) /\
    (rrset_type s = T_NAPTR -> exists t rd, s = RsNAPTR t rd) /\ (rrset_type s = T_TXT -> exists t rd, s = RsTXT t rd) /\
    (rrset_type s = T_DYNC -> exists t m i, s = RsDYNC t m i) /\
    (~ In (rrset_type s) special -> exists t rd, s = RsOther (rrset_type s) t rd).
  Proof.
    intros IN. destruct s; cbn [rrset_type];
      (match goal with |- context [RsOther ?ty ?t ?rd] => pose proof (sane_other sets ty t rd F IN) as NS end || pose proof I as NS);
      repeat apply conj; intros E; try discriminate E; eauto 8;
      try (exfalso; apply NS; rewrite E; unfold special; cbn [In]; tauto);
      try (exfalso; apply E; unfold special; cbn [In]; tauto).
  Qed.

  Ltac more_set := intros x HX; inversion HX; subst; cbn [app]; econstructor; rewrite app_comm_cons, !map_app;
    match goal with H : _ = _ |- _ => rewrite H; reflexivity end.
  Ltac first_set := match goal with |- set_is [?r] (?c ?ttl _) => replace ttl with (rec_ttl r) by (cbn [LtreeSpec.rec_ttl]; symmetry; apply clamp_limit) end;
    constructor; reflexivity.
  Ltac kind IN F K := pose proof (ext_kind _ F _ IN) as K.
  Ltac next_case F PP := match goal with H : next_rr _ _ ?t _ _ _ = Ok (Some _) |- _ => refine (P_next _ _ _ _ _ _ _ _ PP _ _ _ _ _ H); [reflexivity|reflexivity| | |] end.

  Lemma other_allowed rrtype :
    existsb (N.eqb rrtype) [T_A; T_AAAA; T_SOA; T_CNAME; T_NS; T_PTR; T_MX; T_SRV; T_NAPTR; T_TXT] = false ->
    (rrtype =? 13) || (rrtype =? T_DYNC) || ((127 <? rrtype) && (rrtype <? 256)) || (rrtype =? 0) = false ->
    ~ In rrtype [0; 1; 2; 5; 6; 12; 13; 15; 16; 28; 33; 35; 65295] /\ ~ (127 < rrtype < 256).
  Proof.
    intros A B. repeat rewrite orb_false_iff in B. destruct B as (((B1 & B2) & B3) & B4). apply N.eqb_neq in B1, B2, B4.
    assert (A' : forall x, In x [T_A; T_AAAA; T_SOA; T_CNAME; T_NS; T_PTR; T_MX; T_SRV; T_NAPTR; T_TXT] -> rrtype <> x).
    { intros x IN ->. rewrite (proj2 (existsb_exists _ _)) in A; [discriminate|]. exists x. split; [exact IN|apply N.eqb_refl]. }
    split.
    - intros IN. cbn [In] in IN. destruct IN as [<-|IN]; [congruence|].
      repeat (destruct IN as [<-|IN]; [try (now apply B1); try (now apply B2); try (eapply A'; [|reflexivity]; cbn [In]; unfold T_A, T_AAAA, T_SOA, T_CNAME, T_NS, T_PTR, T_MX, T_SRV, T_NAPTR, T_TXT; tauto)|]). destruct IN.
    - intros (X & Y). apply N.ltb_lt in X, Y. rewrite X, Y in B3. discriminate.
  Qed.

  Lemma rec_sets_P r l sets sets' : rec_fine zname r -> P l sets -> rec_sets r sets = Ok (Some sets') -> P (l ++ [r]) sets'.
  Proof.
    intros RF PP H. assert (F : Forall sane sets) by apply PP. destruct CF as (C1 & C2).
    assert (LOW : forall x, z_min_ttl cfg <= clamp_ttl cfg x) by (intros x; rewrite clamp_limit; unfold limit; lia).
    destruct r; cbn [LtreeProofs4.rec_sets] in H.
    - (* SOA *)
      destruct RF as (_ & -> & _). unfold zwarn_if, zwarn, zfatal, rassert in H.
      assert (NX : exists ttl' nc', ttl' = rec_ttl (ASoa [] mname rname ttl serial refresh retry expire ncache) /\
        nc' = limit (z_min_ttl cfg) (z_max_ncache_ttl cfg) ncache /\ get_rrset sets T_SOA = None /\
        sets' = sets ++ [RsSOA ttl' mname rname (be32 serial ++ be32 refresh ++ be32 retry ++ be32 expire ++ be32 nc')]).
      { set (nc := if z_max_ncache_ttl cfg <? ncache then z_max_ncache_ttl cfg else if ncache <? z_min_ttl cfg then z_min_ttl cfg else ncache) in *.
        assert (NC : nc = limit (z_min_ttl cfg) (z_max_ncache_ttl cfg) ncache).
        { unfold nc, limit. destruct (N.ltb_spec (z_max_ncache_ttl cfg) ncache); destruct (N.ltb_spec ncache (z_min_ttl cfg)); lia. }
        set (tt' := if nc <? ttl then nc else if ttl <? z_min_ttl cfg then z_min_ttl cfg else ttl) in *.
        assert (TT : tt' = limit (z_min_ttl cfg) nc ttl).
        { assert (z_min_ttl cfg <= nc) by (rewrite NC; unfold limit; lia). unfold tt', limit. destruct (N.ltb_spec nc ttl); destruct (N.ltb_spec ttl (z_min_ttl cfg)); lia. }
        exists tt', nc. split; [rewrite TT, NC; reflexivity|]. split; [exact NC|].
        destruct (get_rrset sets T_SOA); repeat match type of H with context [if ?b then _ else _] => destruct b end; try discriminate; injection H as <-; auto. }
      destruct NX as (t' & nc' & -> & -> & G & ->). apply P_new; [exact PP|reflexivity|exact G|constructor|exact I].
    - (* A *)
      assert (NX : next_rr cfg sets T_A (clamp_ttl cfg ttl) (RsA (clamp_ttl cfg ttl) [addr])
                     (fun r => match r with RsA t rd => Some (t, length rd, RsA t (rd ++ [addr])) | _ => None end) = Ok (Some sets')).
      { unfold next_rr. unfold zwarn_if, zwarn, zfatal in *. destruct (get_rrset sets T_A) as [[]|];
          repeat match type of H with context [if ?b then _ else _] => destruct b end; try discriminate; exact H. }
      clear H. next_case F PP; [first_set|exact I|]. intros s t0 c s' IN TS E. destruct s; try discriminate E.
      injection E as <- <- <-. split; [reflexivity|]. split; [more_set|trivial].
    - (* AAAA *)
      assert (NX : next_rr cfg sets T_AAAA (clamp_ttl cfg ttl) (RsAAAA (clamp_ttl cfg ttl) [addr])
                     (fun r => match r with RsAAAA t rd => Some (t, length rd, RsAAAA t (rd ++ [addr])) | _ => None end) = Ok (Some sets')).
      { unfold next_rr. unfold zwarn_if, zwarn, zfatal in *. destruct (get_rrset sets T_AAAA) as [[]|];
          repeat match type of H with context [if ?b then _ else _] => destruct b end; try discriminate; exact H. }
      clear H. next_case F PP; [first_set|exact I|]. intros s t0 c s' IN TS E. destruct s; try discriminate E.
      injection E as <- <- <-. split; [reflexivity|]. split; [more_set|trivial].
    - (* DYNA *)
      destruct (get_rrset sets T_A) eqn:GA; [discriminate|]. destruct (get_rrset sets T_AAAA) eqn:G6; [discriminate|].
      apply clamp_min_ok in H; [|apply LOW]. unfold zbind in H. destruct (find_resource pl rhs None) as [[id|]|] eqn:FR; try discriminate. cbn [rbind] in H. injection H as <-.
      apply find_resource_ok in FR. rewrite clamp_limit. change (limit (z_min_ttl cfg) (z_max_ttl cfg) ttl) with (rec_ttl (ADyna dname rhs ttl ttl_min)).
      apply P_two; [exact PP|reflexivity|exact GA|exact G6|discriminate| | | |]; try constructor; try exact FR; cbn [sane]; lia.
    - (* CNAME *)
      destruct sets as [|]; [|discriminate]. injection H as <-. rewrite clamp_limit. apply (P_new l [] _ (RsCNAME _ _)); [exact PP|reflexivity|reflexivity| |exact I]. constructor.
    - (* DYNC *)
      apply clamp_min_ok in H; [|apply LOW]. destruct sets as [|]; [|discriminate]. unfold zbind in H. destruct (find_resource pl rhs (Some zname)) as [[id|]|] eqn:FR; try discriminate. cbn [rbind] in H. injection H as <-.
      apply find_resource_ok in FR. rewrite clamp_limit. change (limit (z_min_ttl cfg) (z_max_ttl cfg) ttl) with (rec_ttl (ADync dname rhs ttl ttl_min)).
      apply (P_new l [] _ (RsDYNC _ _ _)); [exact PP|reflexivity|reflexivity|constructor; exact FR|cbn [sane]; lia].
    - (* PTR *) unfold zbind in H. destruct (next_rr cfg sets T_PTR (clamp_ttl cfg ttl) _ _) as [[x|]|] eqn:NX; try discriminate. cbn [rbind] in H.
      assert (x = sets') by (unfold zwarn_if, zwarn, zfatal in H; repeat match type of H with context [if ?b then _ else _] => destruct b end; try discriminate; now injection H). subst x. clear H.
      next_case F PP; [first_set|exact I|]. intros s t0 c s' IN TS E. destruct s; try discriminate E.
      injection E as <- <- <-. split; [reflexivity|]. split; [more_set|trivial].
    - (* NS *)
      destruct (match dname with [42] :: _ => true | _ => false end); [discriminate|]. unfold zbind in H.
      destruct (next_rr cfg sets T_NS (clamp_ttl cfg ttl) _ _) as [[x|]|] eqn:NX; try discriminate. cbn [rbind] in H.
      assert (x = sets') by (destruct (MAX_NS_COUNT <? _)%nat in H; [discriminate|now injection H]). subst x. clear H.
      next_case F PP; [first_set|cbn; auto|]. intros s t0 c s' IN TS E. destruct s; try discriminate E.
      injection E as <- <- <-. split; [reflexivity|]. split; [more_set|]. cbn [sane]. intros Q. apply Forall_app. cbn; auto.
    - (* MX *)
      destruct (65535 <? pref); [discriminate|]. next_case F PP; [first_set|exact I|]. intros s t0 c s' IN TS E. destruct s; try discriminate E.
      injection E as <- <- <-. split; [reflexivity|]. split; [more_set|trivial].
    - (* SRV *)
      destruct (_ || _); [discriminate|]. next_case F PP; [first_set|exact I|]. intros s t0 c s' IN TS E. destruct s; try discriminate E.
      injection E as <- <- <-. split; [reflexivity|]. split; [more_set|trivial].
    - (* NAPTR *)
      destruct (_ || _); [discriminate|]. destruct RF as (_ & _ & TL). rewrite (N.mod_small (N.of_nat (length text))) in H by exact TL. rewrite Nat2N.id, firstn_all in H.
      next_case F PP; [first_set|exact I|]. intros s t0 c s' IN TS E. destruct s; try discriminate E.
      injection E as <- <- <-. split; [reflexivity|]. split; [more_set|trivial].
    - (* TXT *)
      assert (NX : next_rr cfg sets T_TXT (rec_ttl (ATxt dname text ttl)) (RsTXT (rec_ttl (ATxt dname text ttl)) [text])
                     (fun r => match r with RsTXT t rd => Some (t, length rd, RsTXT t (rd ++ [text])) | _ => None end) = Ok (Some sets')).
      { destruct dname as [|l0 d]; cbn [is_acme LtreeSpec.rec_ttl] in *; [now rewrite <- clamp_limit|]. change acme_label with acme in H. destruct (bytes_eqb l0 acme).
        - unfold zwarn_if, zwarn, zfatal in H. repeat match type of H with context [if ?b then zfatal else _] => destruct b | context [if negb ?b then _ else _] => destruct b; cbn [negb] in H | context [if z_strict cfg then _ else _] => destruct (z_strict cfg) end; try discriminate; exact H.
        - now rewrite <- clamp_limit. }
      clear H. next_case F PP; [constructor; reflexivity|exact I|]. intros s t0 c s' IN TS E. destruct s; try discriminate E.
      injection E as <- <- <-. split; [reflexivity|]. split; [more_set|trivial].
    - (* others *)
      destruct (existsb _ _) eqn:X1; [discriminate|]. destruct ((rrtype =? 13) || _ || _ || _) eqn:X2; [discriminate|].
      destruct (other_allowed _ X1 X2) as (A1 & A2). destruct RF as (_ & TB & RL).
      rewrite (N.mod_small (N.of_nat (length rd))) in H by exact RL. rewrite Nat2N.id, firstn_all in H. rewrite (N.mod_small rrtype) in H by exact TB.
      next_case F PP; [first_set| |].
      + cbn [sane]. split; [|auto]. intros IN. apply A1. now right.
      + intros s t0 c s' IN TS E. destruct s; try discriminate E. cbn [rrset_type] in TS. subst rrtype.
        injection E as <- <- <-. split; [reflexivity|]. split; [more_set|trivial].
  Qed.

  Lemma zwarn_ok {A} c (k : zres A) x : zwarn_if cfg c k = Ok (Some x) -> k = Ok (Some x) /\ (z_strict cfg = true -> c = false).
  Proof. unfold zwarn_if, zwarn, zfatal. destruct c; [destruct (z_strict cfg); [discriminate|]|]; intros ->; auto. Qed.
  Lemma zwarn_ub {A} c (k : zres A) : zwarn_if cfg c k = UB -> k = UB.
  Proof. unfold zwarn_if, zwarn, zfatal. destruct c; [destruct (z_strict cfg); [discriminate|]|]; auto. Qed.
  Lemma clamp_min_strict {A} ttl mn (k : N -> zres A) x : clamp_min cfg ttl mn k = Ok (Some x) -> z_strict cfg = true -> z_min_ttl cfg <= mn <= ttl.
  Proof.
    intros H ST. unfold clamp_min in H. apply zwarn_ok in H. destruct H as (H & A1). apply zwarn_ok in H. destruct H as (_ & B1). specialize (A1 ST). specialize (B1 ST).
    rewrite A1 in B1. apply N.ltb_ge in A1, B1. lia.
  Qed.
  Lemma names_eqb_iff a : forall b, names_eqb a b = true <-> a = b.
  Proof.
    induction a as [|x a IH]; intros [|y b]; cbn [names_eqb]; try (split; congruence). rewrite andb_true_iff, bytes_eqb_iff, IH. split; [intros (-> & ->); reflexivity|intros E; injection E; auto].
  Qed.
  Lemma isinzone_iff z n : isinzone z n = true <-> exists p, n = p ++ z.
  Proof.
    unfold isinzone. rewrite andb_true_iff, Nat.leb_le, names_eqb_iff. split.
    - intros (L & E). exists (firstn (length n - length z) n). rewrite <- E at 2. symmetry. apply firstn_skipn.
    - intros (p & ->). rewrite app_length. split; [lia|]. replace (length p + length z - length z)%nat with (length p) by lia.
      rewrite skipn_app, skipn_all, Nat.sub_diag. reflexivity.
  Qed.
  Lemma wild_head (d : name) : (match d with [42] :: _ => true | _ => false end) = true <-> hd_error d = Some [42].
  Proof.
    destruct d as [|l d]; cbn [hd_error]; [split; congruence|]. destruct l as [|x l]; [split; congruence|]. destruct x as [|p]; [split; congruence|].
    repeat (destruct p as [p|p|]; try (split; congruence)). destruct l; split; congruence.
  Qed.

  Lemma rec_sets_allowed r sets sets' : rec_sets r sets = Ok (Some sets') -> rec_allowed pl zname r /\ (z_strict cfg = true -> rec_strict cfg zname r).
  Proof.
    intros H. destruct r; cbn [LtreeProofs4.rec_sets rec_allowed rec_strict] in *.
    - split; [exact I|]. intros ST. apply zwarn_ok in H. destruct H as (H & A). apply zwarn_ok in H. destruct H as (_ & B). specialize (A ST). apply orb_false_iff in A. destruct A as (A1 & A2).
      rewrite A1, A2 in B. specialize (B ST). apply orb_false_iff in B. destruct B as (B1 & B2). apply N.ltb_ge in A1, A2, B1, B2. lia.
    - split; [exact I|]. intros ST. apply zwarn_ok in H. destruct H as (_ & A). auto.
    - split; [exact I|]. intros ST. apply zwarn_ok in H. destruct H as (_ & A). auto.
    - destruct (get_rrset sets T_A); [discriminate|]. destruct (get_rrset sets T_AAAA); [discriminate|].
      assert (LOW : z_min_ttl cfg <= clamp_ttl cfg ttl) by (rewrite clamp_limit; destruct CF; unfold limit; lia).
      split; [|intros ST; pose proof (clamp_min_strict _ _ _ _ H ST) as X; rewrite clamp_limit in X; exact X].
      apply clamp_min_ok in H; [|exact LOW]. unfold zbind in H. destruct (find_resource pl rhs None) as [[id|]|] eqn:FR; try discriminate. exists id. now apply find_resource_ok.
    - auto.
    - assert (LOW : z_min_ttl cfg <= clamp_ttl cfg ttl) by (rewrite clamp_limit; destruct CF; unfold limit; lia).
      split; [|intros ST; pose proof (clamp_min_strict _ _ _ _ H ST) as X; rewrite clamp_limit in X; exact X].
      apply clamp_min_ok in H; [|exact LOW]. destruct sets; [|discriminate]. unfold zbind in H. destruct (find_resource pl rhs (Some zname)) as [[id|]|] eqn:FR; try discriminate. exists id. now apply find_resource_ok.
    - split; [exact I|]. intros ST. unfold zbind in H. destruct (next_rr _ _ _ _ _ _) as [[x|]|]; try discriminate. cbn [rbind] in H. apply zwarn_ok in H. destruct H as (_ & A). specialize (A ST).
      intros E. apply isinzone_iff in E. congruence.
    - split; [|auto]. intros E. apply wild_head in E. now rewrite E in H.
    - split; [|auto]. destruct (N.ltb_spec 65535 pref); [discriminate|lia].
    - split; [|auto]. destruct (N.ltb_spec 65535 priority); [discriminate|]. destruct (N.ltb_spec 65535 weight); [discriminate|]. destruct (N.ltb_spec 65535 port); [discriminate|lia].
    - split; [|auto]. destruct (N.ltb_spec 65535 order); [discriminate|]. destruct (N.ltb_spec 65535 pref); [discriminate|lia].
    - split; [exact I|]. intros ST. destruct dname as [|l d]; [exact I|]. cbn [is_acme] in H. intros ->. change acme_label with acme in H. rewrite (proj2 (bytes_eqb_iff acme acme)) in H by reflexivity.
      apply zwarn_ok in H. destruct H as (_ & A). specialize (A ST). apply negb_false_iff, N.eqb_eq in A. exact A.
    - split; [|auto]. destruct (existsb _ _) eqn:X1; [discriminate|]. destruct ((rrtype =? 13) || _ || _ || _) eqn:X2; [discriminate|]. now apply other_allowed.
  Qed.

  Lemma map_len {X Y Z} (f : X -> Z) (g : Y -> Z) a b : map f a = map g b -> length a = length b.
  Proof. intros E. apply (f_equal (@length _)) in E. now rewrite !map_length in E. Qed.
  Lemma ns_len l s t rd : set_is l s -> s = RsNS t rd -> length l = length rd.
  Proof. intros H E. destruct H; try discriminate. injection E as <- <-. now apply map_len in H. Qed.

  Lemma rec_sets_ns r l sets sets' : rec_fine zname r -> P l sets -> rec_sets r sets = Ok (Some sets') -> (length (recs_of 2 l) <= 64)%nat -> (length (recs_of 2 (l ++ [r])) <= 64)%nat.
  Proof.
    intros RF PP H L. pose proof (rec_sets_P _ _ _ _ RF PP H) as P'. pose proof (proj1 (rec_sets_allowed _ _ _ H)) as AL.
    destruct (of_type 2 r) eqn:T; [|rewrite recs_of_snoc, T, app_nil_r; exact L].
    assert (K : exists d n ttl, r = ANs d n ttl).
    { destruct r; try discriminate T; eauto. exfalso. cbn in AL. destruct AL as (AL & _). apply of_type_iff in T. destruct T as [->|[]]. apply AL. cbn; tauto. }
    destruct K as (d & n & ttl & ->). cbn [LtreeProofs4.rec_sets] in H. destruct (match d with [42] :: _ => true | _ => false end); [discriminate|]. unfold zbind in H.
    destruct (next_rr _ _ _ _ _ _) as [[x|]|]; try discriminate. cbn [rbind] in H. destruct (Nat.ltb_spec MAX_NS_COUNT match get_rrset x T_NS with Some (RsNS _ rd) => length rd | _ => 0%nat end) as [|LE]; [discriminate|].
    injection H as ->. destruct P' as ((ND & A & C) & F). destruct (C (ANs d n ttl) 2) as (s & IS & TS); [apply in_app_iff; right; now left|now left|].
    rewrite <- TS. pose proof (A s IS) as SI. pose proof (get_some _ _ ND IS) as G. destruct (ext_kind sets' F s IS) as (_ & _ & _ & _ & K & _).
    destruct (K TS) as (t & rd & ->). rewrite TS in G. change (get_rrset sets' 2) with (get_rrset sets' T_NS) in G. rewrite G in LE. change (rrset_type (RsNS t rd)) with 2 in *. rewrite (ns_len _ _ _ _ SI eq_refl). exact LE.
  Qed.

  Lemma fold_P l sets : Forall (rec_fine zname) l -> fold_sets l [] = Ok (Some sets) ->
    P l sets /\ (length (recs_of 2 l) <= 64)%nat /\ Forall (rec_allowed pl zname) l /\ (z_strict cfg = true -> Forall (rec_strict cfg zname) l).
  Proof.
    revert sets. induction l as [|r l IH] using rev_ind; intros sets RF H.
    - injection H as <-. split; [|cbn; auto with arith]. split; [|constructor]. split; [constructor|]. split; [intros s []|intros r t []].
    - apply Forall_app in RF. destruct RF as (RF & R1). inversion R1; subst. rewrite fold_snoc in H. unfold zbind in H. destruct (fold_sets l []) as [[x|]|] eqn:E; try discriminate. cbn [rbind] in H.
      destruct (IH x RF eq_refl) as (A & B & C & D). destruct (rec_sets_allowed _ _ _ H) as (G1 & G2).
      split; [eapply rec_sets_P; eauto|]. split; [eapply rec_sets_ns; eauto|]. split; [apply Forall_app; auto|]. intros ST. apply Forall_app. auto.
  Qed.

  (** adding never goes wrong *)
  Lemma rec_sets_no_ub r l sets : rec_fine zname r -> P l sets -> rec_sets r sets <> UB.
  Proof.
    intros RF PP H. assert (F : Forall sane sets) by apply PP.
    destruct r; cbn [LtreeProofs4.rec_sets] in H.
    - destruct RF as (_ & -> & _). apply zwarn_ub in H. apply zwarn_ub in H. cbn [rassert] in H. destruct (get_rrset sets T_SOA); discriminate.
    - apply zwarn_ub in H. destruct (get_rrset sets T_A) as [s|] eqn:G; [|discriminate]. destruct (get_in _ _ _ G) as (IS & TS). destruct (ext_kind _ F _ IS) as (K & _).
      destruct (K TS) as [(t & a & ->)|(t & m & i & ->)]; [|discriminate]. apply zwarn_ub in H. destruct (length a =? UINT16_MAX)%nat; discriminate.
    - apply zwarn_ub in H. destruct (get_rrset sets T_AAAA) as [s|] eqn:G; [|discriminate]. destruct (get_in _ _ _ G) as (IS & TS). destruct (ext_kind _ F _ IS) as (_ & K & _).
      destruct (K TS) as [(t & a & ->)|(t & m & i & ->)]; [|discriminate]. apply zwarn_ub in H. destruct (length a =? UINT16_MAX)%nat; discriminate.
    - destruct (get_rrset sets T_A); [discriminate|]. destruct (get_rrset sets T_AAAA); [discriminate|]. apply clamp_min_ub in H. destruct H as (m & H). unfold zbind in H.
      destruct (find_resource pl rhs None) as [[x|]|] eqn:E; try discriminate. exact (find_resource_ub _ _ E).
    - destruct sets; discriminate.
    - apply clamp_min_ub in H. destruct H as (m & H). destruct sets; [|discriminate]. unfold zbind in H. destruct (find_resource pl rhs (Some zname)) as [[x|]|] eqn:E; try discriminate. exact (find_resource_ub _ _ E).
    - unfold zbind in H. destruct (next_rr _ _ _ _ _ _) as [[x|]|] eqn:E; try discriminate; cbn [rbind] in H; [apply zwarn_ub in H; discriminate|]. revert E. apply (next_ub l); [exact PP|].
      intros s IS TS. destruct (ext_kind _ F _ IS) as (_ & _ & _ & _ & _ & K & _). destruct (K TS) as (t & rd & ->). discriminate.
    - destruct (match dname with [42] :: _ => true | _ => false end); [discriminate|]. unfold zbind in H. destruct (next_rr _ _ _ _ _ _) as [[x|]|] eqn:E; try discriminate; cbn [rbind] in H; [destruct (MAX_NS_COUNT <? _)%nat in H; discriminate|].
      revert E. apply (next_ub l); [exact PP|]. intros s IS TS. destruct (ext_kind _ F _ IS) as (_ & _ & _ & _ & K & _). destruct (K TS) as (t & rd & ->). discriminate.
    - destruct (65535 <? pref); [discriminate|]. revert H. apply (next_ub l); [exact PP|]. intros s IS TS. destruct (ext_kind _ F _ IS) as (_ & _ & _ & _ & _ & _ & K & _). destruct (K TS) as (t & rd & ->). discriminate.
    - destruct (_ || _); [discriminate|]. revert H. apply (next_ub l); [exact PP|]. intros s IS TS. destruct (ext_kind _ F _ IS) as (_ & _ & _ & _ & _ & _ & _ & K & _). destruct (K TS) as (t & rd & ->). discriminate.
    - destruct (_ || _); [discriminate|]. revert H. apply (next_ub l); [exact PP|]. intros s IS TS. destruct (ext_kind _ F _ IS) as (_ & _ & _ & _ & _ & _ & _ & _ & K & _). destruct (K TS) as (t & rd & ->). discriminate.
    - assert (X : forall ttl, next_rr cfg sets T_TXT ttl (RsTXT ttl [text]) (fun r => match r with RsTXT t rd => Some (t, length rd, RsTXT t (rd ++ [text])) | _ => None end) <> UB).
      { intros tl. apply (next_ub l); [exact PP|]. intros s IS TS. destruct (ext_kind _ F _ IS) as (_ & _ & _ & _ & _ & _ & _ & _ & _ & K & _). destruct (K TS) as (t & rd & ->). discriminate. }
      destruct (is_acme dname); [apply zwarn_ub in H|]; exact (X _ H).
    - destruct (existsb _ _) eqn:X1; [discriminate|]. destruct ((rrtype =? 13) || _ || _ || _) eqn:X2; [discriminate|].
      destruct (other_allowed _ X1 X2) as (A1 & A2). revert H. apply (next_ub l); [exact PP|]. intros s IS TS.
      destruct (ext_kind _ F _ IS) as (_ & _ & _ & _ & _ & _ & _ & _ & _ & _ & _ & K).
      destruct K as (t & rd0 & ->); [|discriminate]. rewrite TS. intros B. apply A1. clear - B. unfold special in B. cbn [In] in *. unfold T_A, T_AAAA, T_SOA, T_CNAME, T_NS, T_PTR, T_MX, T_SRV, T_NAPTR, T_TXT, T_DYNC in B.
      repeat (destruct B as [<-|B]; [auto 20|]). destruct B.
  Qed.
End Lists.
