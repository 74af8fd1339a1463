(** Well-formed sets in a loaded zone; merging zones into one tree. *)
From Coq Require Import Sorting.Permutation.
From Verif Require Import Base DnameSpec DnameModel RandModel CompModel RespModel RespSpec LtreeModel LtreeSpec LtreeProofs LtreeProofs2 LtreeProofs3 LtreeProofs4 LtreeProofs5 LtreeProofs6 LtreeProofs7 LtreeProofs8 LtreeProofs9 LtreeProofs10 LtreeProofs11.
Local Open Scope N_scope.
Ltac Zify.zify_post_hook ::= idtac.

Section Zone.
  Variable cfg : zcfg.
  Variable pl : plugins.
  Variable hash : list N -> N.
  Variable zname : name.
  Hypothesis hash64 : forall l, hash l < W64.
  Hypothesis CF : cfg_fine cfg.

  Lemma map_some_in {X Y} (f : X -> option Y) l x y : map f l = map Some x -> In y x -> exists r, In r l /\ f r = Some y.
  Proof. intros M I. apply (in_map Some) in I. rewrite <- M in I. apply in_map_iff in I. destruct I as (r & E & I). eauto. Qed.
  Lemma map_ne {X Y Z} (f : X -> Z) (g : Y -> Z) r l x : map f (r :: l) = map g x -> x <> [].
  Proof. intros M ->. discriminate. Qed.

  Lemma addrs_wf k (get : record -> option bytes) l g : (forall r a, In r l -> get r = Some a -> length a = k) -> addrs_are cfg get l g -> wf_glue k g.
  Proof.
    intros F A. destruct g as [(t, x)|]; [|exact I]. cbn in *. destruct A as (r & l' & -> & _ & M). split; [now apply map_ne in M|]. apply Forall_forall. intros a IA. destruct (map_some_in _ _ _ _ M IA) as (r0 & I0 & E). eapply F; eauto.
  Qed.

  Section Loaded.
    Variable rs : list record.
    Variable raw root' : lnode.
    Hypothesis L : loaded cfg pl hash zname rs raw root'.

    Lemma fine_a r a : In r rs -> a_of r = Some a -> length a = 4%nat.
    Proof. intros I E. destruct (fine_in _ _ _ _ _ _ _ L r I) as (_ & F). destruct r; try discriminate. cbn in *. injection E as <-. apply F. Qed.
    Lemma fine_aaaa r a : In r rs -> aaaa_of r = Some a -> length a = 16%nat.
    Proof. intros I E. destruct (fine_in _ _ _ _ _ _ _ L r I) as (_ & F). destruct r; try discriminate. cbn in *. injection E as <-. apply F. Qed.

    Lemma glue_wf n g4 g6 : glue_is cfg zname rs n g4 g6 -> wf_glue 4 g4 /\ wf_glue 16 g6.
    Proof.
      intros (l & (G1 & G2) & A4 & A6).
      assert (S : forall r, In r l -> In r rs).
      { intros r I. destruct (suffix_dec zname n) as [(rel & E)|NI].
        - destruct (G1 rel E) as (D1 & D2). destruct (suffix_dec zname n) as [_|X]; [|elim X; eauto].
          assert (DD : in_deleg rs rel \/ ~ in_deleg rs rel).
          { (* decidable: some suffix is the owner of a name server record *)
            assert (EX : forall d, (cut rs d) \/ ~ cut rs d).
            { intros d. destruct d as [|x d]; [right; intros (X & _); congruence|].
              destruct (existsb (fun r => match r with ANs o _ _ => if name_dec o (x :: d) then true else false | _ => false end) rs) eqn:E1.
              - left. split; [discriminate|]. apply existsb_exists in E1. destruct E1 as (r1 & I1 & E1). destruct r1; try discriminate. match type of E1 with (if ?c then _ else _) = _ => destruct c as [->|]; [|discriminate] end. eauto.
              - right. intros (_ & n0 & ttl & I1). assert (X : existsb (fun r => match r with ANs o _ _ => if name_dec o (x :: d) then true else false | _ => false end) rs = true); [|congruence].
                apply existsb_exists. exists (ANs (x :: d) n0 ttl). split; [exact I1|]. now destruct (name_dec (x :: d) (x :: d)). }
            clear - EX. induction rel as [|x rel IH].
            - right. intros (p & c & E & (C & _)). symmetry in E. apply app_eq_nil in E. destruct E as (_ & ->). congruence.
            - destruct (EX (x :: rel)) as [C|NC]; [left; exists [], (x :: rel); auto|]. destruct IH as [(p & c & -> & C)|NI]; [left; exists (x :: p), c; auto|]. right. intros (p & c & E & C). destruct p as [|y p]; [cbn in E; subst c; contradiction|]. injection E as -> ->. apply NI. exists p, c. auto. }
          destruct DD as [D|D]; [rewrite (D1 D) in I; now apply in_recs_at in I|rewrite (D2 D) in I; destruct I].
        - rewrite (G2 ltac:(intros rel X; apply NI; eauto)) in I. now apply filter_In in I. }
      split.
      - eapply addrs_wf; [|exact A4]. intros r a I E. apply in_recs_of in I. apply (fine_a r a); [apply S; apply I|exact E].
      - eapply addrs_wf; [|exact A6]. intros r a I E. apply in_recs_of in I. apply (fine_aaaa r a); [apply S; apply I|exact E].
    Qed.

    Lemma set_wf d c c' s : walk raw (rev d) = Some c -> walk root' (rev d) = Some c' -> In s (l_rrsets c') -> wf_rrset s.
    Proof.
      intros W W' IS. destruct (node_ok _ _ _ _ CF _ _ _ L d c c' W W') as ((_ & SI & _) & GL & _). destruct (at_raw _ _ _ _ CF _ _ _ L d c W) as ((_ & SN) & N64 & _).
      destruct (Forall2_in_r _ _ _ _ GL IS) as (s0 & IS0 & G). assert (SS : sane s0) by (revert s0 IS0 G; intros s0 IS0 _; revert s0 IS0; now apply Forall_forall).
      pose proof (SI s IS) as S.
      assert (IN : forall r, In r (recs_of (rrset_type s) (here d rs)) -> In r rs) by (intros r I; apply in_recs_of in I; destruct I as (I & _); apply in_here in I; apply I).
      assert (FI : forall r, In r (recs_of (rrset_type s) (here d rs)) -> rec_fine zname r) by (intros r I; apply (fine_in _ _ _ _ _ _ _ L); now apply IN).
      assert (NSG : forall t rd, s = RsNS t rd -> Forall (fun x => let '(n, g4, g6) := x in legal_name n /\ wf_glue 4 g4 /\ wf_glue 16 g6) rd).
      { intros t rd ->. apply Forall_forall. intros ((n, g4), g6) IX. destruct (ns_glue _ _ _ _ CF _ _ _ L _ _ _ _ _ _ _ W' IS IX) as (LN & used & PN). split; [exact LN|].
        apply (glue_wf n). exact (proj1 (proc_ns_spec _ _ _ _ hash64 CF _ _ _ L n g4 g6 used LN PN)). }
      assert (NSL : forall t rd, s = RsNS t rd -> (length rd <= 64)%nat) by (intros t rd ->; rewrite <- (ns_len cfg pl zname _ _ _ _ S eq_refl); exact N64).
      assert (SD : match s with RsADyn mx mn _ | RsAAAADyn mx mn _ | RsDYNC mx mn _ => mn <= mx | RsOther _ _ _ => sane s | _ => True end) by (inversion G; subst; [exact I|destruct s; try exact I; exact SS]).
      remember (recs_of (rrset_type s) (here d rs)) as rl eqn:ERL. clear ERL SI GL IS IS0 G SS.
      destruct S as [r l x M|r l x M|d0 rhs ttl mn id RI|d0 rhs ttl mn id RI|d0 n ttl|d0 rhs ttl mn id RI|d0 m rn ttl a b c0 e nc|r l x M|r l x M|r l x M|r l x M|r l x M|r l x M|ty r l x M]; cbn [wf_rrset].
      - split; [now apply map_ne in M|]. apply Forall_forall. intros y IY. destruct (map_some_in _ _ _ _ M IY) as (r0 & I0 & E). apply (fine_a r0 y); [now apply IN|exact E].
      - split; [now apply map_ne in M|]. apply Forall_forall. intros y IY. destruct (map_some_in _ _ _ _ M IY) as (r0 & I0 & E). apply (fine_aaaa r0 y); [now apply IN|exact E].
      - exact SD.
      - exact SD.
      - exact (proj2 (FI _ (or_introl eq_refl))).
      - exact SD.
      - destruct (FI _ (or_introl eq_refl)) as (_ & F). cbn in F. destruct F as (_ & F1 & F2). split; [exact F1|]. split; [exact F2|]. rewrite !app_length. reflexivity.
      - split; [now apply map_ne in M|]. apply Forall_forall. intros y IY. destruct (map_some_in _ _ _ _ M IY) as (r0 & I0 & E). destruct r0; try discriminate. cbn in E. injection E as <-. exact (proj2 (FI _ I0)).
      - split; [now apply map_ne in M|]. split; [eapply NSL; reflexivity|eapply NSG; reflexivity].
      - split; [now apply map_ne in M|]. apply Forall_forall. intros y IY. destruct (map_some_in _ _ _ _ M IY) as (r0 & I0 & E). destruct r0; try discriminate. cbn in E. injection E as <-. exact (proj2 (FI _ I0)).
      - split; [now apply map_ne in M|]. apply Forall_forall. intros y IY. destruct (map_some_in _ _ _ _ M IY) as (r0 & I0 & E). destruct r0; try discriminate. cbn in E. injection E as <-. exact (proj2 (FI _ I0)).
      - split; [now apply map_ne in M|]. apply Forall_forall. intros y IY. destruct (map_some_in _ _ _ _ M IY) as (r0 & I0 & E). destruct r0; try discriminate. cbn in E. injection E as <-. exact (proj1 (proj2 (FI _ I0))).
      - now apply map_ne in M.
      - split; [now apply map_ne in M|]. cbn [sane] in SD. destruct SD as (S1 & S2 & S3). intros I. cbn in I, S1. repeat (destruct I as [I|I]; [subst ty; first [apply S1; tauto|lia]|]). exact I.
    Qed.

    Lemma ns_zcut d c' s : walk root' (rev d) = Some c' -> In s (l_rrsets c') -> rrset_type s = 2 \/ rrset_type s = 6 -> get_zcut c' = true.
    Proof.
      intros W' IS T. destruct (both_some _ _ _ _ _ _ _ L d c' W') as (c & W & ind & g & g' & _ & _ & CA & _). destruct (node_ok _ _ _ _ CF _ _ _ L d c c' W W') as ((_ & SI & _) & _). specialize (SI s IS).
      assert (Z : get_zcut c = true); [|unfold get_zcut in *; now rewrite CA]. apply (zcut_raw _ _ _ _ _ _ _ L d c W). apply set_is_ne in SI. destruct (recs_of (rrset_type s) (here d rs)) as [|r l] eqn:E; [congruence|].
      assert (IR : In r (recs_of (rrset_type s) (here d rs))) by (rewrite E; now left). apply in_recs_of in IR. destruct IR as (IR & TR). pose proof IR as IH. apply in_here in IR. destruct IR as (IR & O).
      destruct (at_raw _ _ _ _ CF _ _ _ L d c W) as (_ & _ & AL & _). rewrite Forall_forall in AL. specialize (AL r IH). destruct (fine_in _ _ _ _ _ _ _ L r IR) as (_ & F).
      destruct T as [T|T]; rewrite T in TR; destruct r; cbn in TR; try (destruct TR as [TR|TR]; [discriminate|]); try contradiction; try (destruct TR as [TR|TR]; [discriminate|contradiction]).
      - cbn in O. subst. destruct d as [|x d]; [now left|]. right. split; [discriminate|]. eauto.
      - cbn in AL. destruct TR as [->|[]]. exfalso. apply AL. cbn. tauto.
      - cbn in F, O. left. rewrite <- O. apply F.
      - cbn in AL. destruct TR as [->|[]]. exfalso. apply AL. cbn. tauto.
    Qed.
    Lemma wild_no_cut d w : walk root' (rev ([42] :: d)) = Some w -> get_zcut w = false.
    Proof.
      intros W'. destruct (both_some _ _ _ _ _ _ _ L _ _ W') as (c & W & ind & g & g' & _ & _ & CA & _).
      assert (Z : get_zcut c = false); [|unfold get_zcut in *; now rewrite CA]. destruct (get_zcut c) eqn:Z; [|reflexivity]. apply (zcut_raw _ _ _ _ _ _ _ L _ c W) in Z. destruct Z as [Z|(_ & n & ttl & IN)]; [discriminate|].
      destruct (at_raw _ _ _ _ CF _ _ _ L _ c W) as (_ & _ & AL & _). rewrite Forall_forall in AL. specialize (AL _ (proj2 (in_here _ _ _) (conj IN eq_refl))). cbn in AL. congruence.
    Qed.
    Lemma root_zcut : get_zcut root' = true.
    Proof.
      destruct (both_some _ _ _ _ _ _ _ L [] root' eq_refl) as (c & W & ind & g & g' & _ & _ & CA & _). cbn in W. injection W as <-.
      assert (Z : get_zcut raw = true) by (apply (zcut_raw _ _ _ _ _ _ _ L [] raw eq_refl); now left). unfold get_zcut in *. now rewrite CA.
    Qed.
    Lemma root_label : l_label root' = hd_error zname.
    Proof. destruct (both_some _ _ _ _ _ _ _ L [] root' eq_refl) as (c & W & ind & g & g' & _ & _ & _ & LB & _). cbn in W. injection W as <-. rewrite LB. apply (ld_label _ _ _ _ _ _ _ L). Qed.
    Lemma root_soa : exists s, In s (l_rrsets root') /\ rrset_type s = 6.
    Proof.
      pose proof (ld_z1 _ _ _ _ _ _ _ L) as Z. unfold zroot_phase1 in Z. destruct (get_rrset (rev (l_rrsets raw)) T_SOA) as [s|] eqn:G; [|discriminate]. apply get_in in G. destruct G as (G1 & G2). apply in_rev in G1.
      destruct (both_some _ _ _ _ _ _ _ L [] root' eq_refl) as (c & W & _). destruct (node_ok _ _ _ _ CF _ _ _ L [] c root' W eq_refl) as (_ & GL & _). cbn in W. injection W as <-.
      destruct (Forall2_in_l _ _ _ _ GL G1) as (s' & I' & G'). exists s'. split; [exact I'|]. rewrite (glue_type _ _ _ _ _ G'). exact G2.
    Qed.
    Lemma cut_ns d c' : walk root' (rev d) = Some c' -> cut rs d -> exists s, In s (l_rrsets c') /\ rrset_type s = 2.
    Proof.
      intros W' (_ & n & ttl & IN). destruct (both_some _ _ _ _ _ _ _ L d c' W') as (c & W & _). destruct (node_ok _ _ _ _ CF _ _ _ L d c c' W W') as ((_ & _ & CO) & _). apply (CO (ANs d n ttl)); [apply in_here; auto|now left].
    Qed.
  End Loaded.
End Zone.

(** ** Merging *)
Section Merge.
  Variable hash : list N -> N.
  Hypothesis hash64 : forall l, hash l < W64.

  Lemma no_kids b n : good hash b n -> get_ccount n = 0 -> l_table n = None /\ forall l, child n l = None.
  Proof.
    intros G C. destruct (good_count hash b n G) as (cc & z & _ & E & _ & _ & _ & T). assert (cc = 0) by congruence. subst cc. destruct (l_table n) as [t|] eqn:TE; [cbn in T; lia|].
    split; [reflexivity|]. intros l. unfold child, kids. now rewrite TE.
  Qed.
  Lemma merge_path_ok b s zroot : forall n, good hash b n -> good hash b zroot -> b + 1 < 2 ^ 62 -> l_label zroot = l_label (target n s) ->
    (forall s1 s2 m, s = s1 ++ s2 -> walk n s1 = Some m -> (forall x y m', s1 = x ++ y -> walk n x = Some m' -> get_zcut m' = false) -> l_rrsets m = []) ->
    match merge_path hash n s zroot with
    | UB => False
    | Ok None => True
    | Ok (Some n') => good hash (b + 1) n' /\ l_label n' = l_label n /\
        (forall s1 s2 m, s = s1 ++ s2 -> walk n s1 = Some m -> get_zcut m = false) /\
        (forall m x, walk n s = Some m -> x <> [] -> walk m x = None) /\
        (forall x, walk n' (s ++ x) = walk zroot x) /\
        (forall s1 s2, s = s1 ++ s2 -> s2 <> [] -> exists m, walk n' s1 = Some m /\ l_rrsets m = l_rrsets (target n s1) /\ get_zcut m = get_zcut (target n s1)) /\
        (forall s', ~ prefix s s' -> ~ prefix s' s -> walk n' s' = walk n s')
    end.
  Proof.
    induction s as [|l s IH]; intros n G GZ B LB RR; cbn [merge_path target] in *.
    - destruct (get_zcut n) eqn:Z; [exact I|]. destruct (N.eqb_spec (get_ccount n) 0) as [C|C]; [|exact I]. cbn [negb].
      destruct (no_kids b n G C) as (T & NK). rewrite T, (RR [] [] n eq_refl eq_refl). 2: { intros x y m' E W. symmetry in E. apply app_eq_nil in E. destruct E as (-> & _). cbn in W. congruence. }
      cbn [rassert].
      split; [eapply good_mono; [exact GZ|lia]|]. split; [exact LB|]. split; [|split; [|split; [|split]]].
      + intros s1 s2 m E W. destruct s1; [|discriminate]. cbn in W. congruence.
      + intros m x W NE. cbn in W. injection W as <-. destruct x as [|l x]; [congruence|]. cbn. now rewrite NK.
      + reflexivity.
      + intros s1 s2 E NE. destruct s1; [destruct s2; [congruence|discriminate]|discriminate].
      + intros s' NP. exfalso. apply NP. exists s'. reflexivity.
    - destruct (get_zcut n) eqn:Z; [exact I|]. set (c0 := match child n l with Some c => c | None => fresh l end) in *.
      assert (G0 : good hash b c0). { unfold c0. destruct (child n l) as [c|] eqn:E; [|now apply good_fresh]. apply (child_in hash b n l c G) in E. now apply (good_kid hash b n c G). }
      assert (L0 : l_label c0 = Some l). { unfold c0. destruct (child n l) as [c|] eqn:E; [|reflexivity]. now apply (child_in hash b n l c G) in E. }
      assert (RR0 : forall s1 s2 m, s = s1 ++ s2 -> walk c0 s1 = Some m -> (forall x y m', s1 = x ++ y -> walk c0 x = Some m' -> get_zcut m' = false) -> l_rrsets m = []).
      { intros s1 s2 m E W ZM. destruct (child n l) as [c|] eqn:CE; unfold c0 in *.
        - apply (RR (l :: s1) s2 m); [cbn; congruence|cbn [walk]; now rewrite CE|]. intros x y m' EX WX. destruct x as [|l0 x]; [cbn in WX; congruence|]. cbn [app] in EX. injection EX as <- EX. cbn [walk] in WX. rewrite CE in WX. now apply (ZM x y m').
        - destruct s1 as [|x s1]; [cbn in W; injection W as <-; reflexivity|]. rewrite walk_fresh in W by discriminate. discriminate. }
      specialize (IH c0 G0 GZ B LB RR0).
      pose proof (find_or_add_child_ok hash hash64 b n l (fun c => merge_path hash c s zroot) G B) as H. cbn beta zeta in H. fold c0 in H.
      destruct (merge_path hash c0 s zroot) as [[c1|]|] eqn:E1; [| |contradiction].
      + destruct IH as (G1 & L1 & ZC & NK & WX & WP & WO).
        destruct H as (n' & E' & G' & L' & R' & Z' & CH).
        { intros c2 E2. injection E2 as <-. split; [congruence|exact G1]. }
        rewrite E'. assert (CL : child n' l = Some c1) by (rewrite CH, bytes_eqb_refl; reflexivity).
        split; [exact G'|]. split; [exact L'|]. split; [|split; [|split; [|split]]].
        * intros s1 s2 m E W. destruct s1 as [|x s1]; [cbn in W; congruence|]. cbn [app] in E. injection E as <- E. cbn [walk] in W. destruct (child n l) as [c|] eqn:CE; [|discriminate]. apply (ZC s1 s2 m E). exact W.
        * intros m x W NE. cbn [walk] in W. destruct (child n l) as [c|] eqn:CE; [|discriminate]. apply (NK m x); auto.
        * intros x. cbn [app walk]. rewrite CL. apply WX.
        * intros s1 s2 E NE. destruct s1 as [|l1 s1].
          -- exists n'. cbn. split; [reflexivity|]. split; [exact R'|congruence].
          -- cbn [app] in E. injection E as <- E. cbn [walk target]. rewrite CL. fold c0. now apply (WP s1 s2).
        * intros s' NP NP'. destruct s' as [|l1 s1]; [exfalso; apply NP'; exists (l :: s); reflexivity|].
          cbn [walk]. rewrite CH. destruct (bytes_eqb l l1) eqn:BE; [|reflexivity]. apply bytes_eqb_iff in BE. subst l1. rewrite WO.
          -- unfold c0. destruct (child n l); [reflexivity|]. apply walk_fresh. intros ->. apply NP'. exists s. reflexivity.
          -- intros (x & ->). apply NP. exists x. reflexivity.
          -- intros (x & ->). apply NP'. exists x. reflexivity.
      + rewrite H by discriminate. exact I.
  Qed.

  (** ** All zones *)
  Record tree_inv (b : N) (zs : list (name * lnode)) (T : lnode) : Prop := {
    ti_good : good hash b T;
    ti_label : l_label T = None;
    ti_zone : forall z r, In (z, r) zs -> get_zcut r = true /\ good hash b r;
    ti_in : forall z r p, In (z, r) zs -> walk T (rev (p ++ z)) = walk r (rev p);
    ti_out : forall q, (forall p z r, In (z, r) zs -> q <> p ++ z) ->
      match walk T (rev q) with
      | Some c => (q = [] \/ exists z r p, In (z, r) zs /\ z = p ++ q) /\ get_zcut c = false /\ l_rrsets c = []
      | None => q <> [] /\ forall z r p, In (z, r) zs -> z <> p ++ q
      end;
    ti_apart : forall z1 r1 z2 r2 p, In (z1, r1) zs -> In (z2, r2) zs -> z1 = p ++ z2 -> p = [] /\ r1 = r2;
    ti_once : NoDup (map fst zs) }.

  Lemma tree_inv_start b : tree_inv b [] (LNode 0 None None []).
  Proof.
    constructor; try (intros; contradiction).
    - apply (Good hash b _ 0 false); [reflexivity|lia|reflexivity|reflexivity|intros c []|intros c []].
    - reflexivity.
    - intros q _. destruct q as [|l q]; [cbn; auto|].
      assert (W : forall s, s <> [] -> walk (LNode 0 None None []) s = None) by (intros [|x s]; [congruence|reflexivity]).
      rewrite W by (cbn; intros X; apply app_eq_nil in X; now destruct X). split; [discriminate|]. intros z r p [].
    - constructor.
  Qed.
  Lemma two_suffixes (a b p q : name) : p ++ a = q ++ b -> (exists x, a = x ++ b) \/ (exists x, b = x ++ a).
  Proof. intros E. apply app_eq_app in E. destruct E as (x & [(_ & E)|(_ & E)]); eauto. Qed.

  Lemma merge_inv b zs T z r : tree_inv b zs T -> good hash b r -> b + 1 < 2 ^ 62 -> l_label r = hd_error z -> get_zcut r = true ->
    match merge_zone hash T z r with
    | UB => False
    | Ok None => True
    | Ok (Some T') => tree_inv (b + 1) ((z, r) :: zs) T'
    end.
  Proof.
    intros TI GR B LR ZR. unfold merge_zone. rewrite ZR, (ti_label _ _ _ TI). cbn [andb rassert].
    assert (LB : l_label r = l_label (target T (rev z))).
    { rewrite LR. destruct z as [|l z]; [symmetry; apply (ti_label _ _ _ TI)|]. rewrite (target_label_ok hash hash64 b (rev (l :: z)) T [] (ti_good _ _ _ TI)) by (cbn; intros X; apply app_eq_nil in X; now destruct X).
      now rewrite last_rev_hd. }
    assert (UNDER : forall q m, walk T (rev q) = Some m -> (exists z0 r0 p, In (z0, r0) zs /\ q = p ++ z0) \/ (get_zcut m = false /\ l_rrsets m = [] /\ (forall p z0 r0, In (z0, r0) zs -> q <> p ++ z0))).
    { intros q m W. assert (D : (exists z0 r0 p, In (z0, r0) zs /\ q = p ++ z0) \/ (forall p z0 r0, In (z0, r0) zs -> q <> p ++ z0)).
      { clear. induction zs as [|(z0, r0) zs IH]; [right; intros p z0 r0 []|]. destruct (suffix_dec z0 q) as [(p & E)|N]; [left; exists z0, r0, p; split; [now left|exact E]|].
        destruct IH as [(z1 & r1 & p & I & E)|H]; [left; exists z1, r1, p; split; [now right|exact E]|]. right. intros p z1 r1 [X|I]; [injection X as <- <-; intros E; apply N; eauto|now apply (H p z1 r1)]. }
      destruct D as [D|D]; [now left|]. right. pose proof (ti_out _ _ _ TI q D) as O. rewrite W in O. destruct O as (_ & O1 & O2). auto. }
    pose proof (merge_path_ok b (rev z) r T (ti_good _ _ _ TI) GR B LB) as GO.
    assert (RR : forall s1 s2 m, rev z = s1 ++ s2 -> walk T s1 = Some m -> (forall x y m', s1 = x ++ y -> walk T x = Some m' -> get_zcut m' = false) -> l_rrsets m = []).
    { intros s1 s2 m E W ZM. destruct (UNDER (rev s1) m ltac:(now rewrite rev_involutive)) as [(z0 & r0 & p & I0 & EQ)|(_ & R & _)]; [|exact R]. exfalso.
      pose proof (ti_in _ _ _ TI z0 r0 [] I0) as WI. cbn [app rev walk] in WI. destruct (ti_zone _ _ _ TI z0 r0 I0) as (ZC & _).
      assert (X : get_zcut r0 = false); [|congruence]. apply (ZM (rev z0) (rev p) r0); [|exact WI]. rewrite <- rev_app_distr, <- EQ. now rewrite rev_involutive. }
    specialize (GO RR). destruct (merge_path hash T (rev z) r) as [[T'|]|]; [|exact I|exact GO].
    destruct GO as (G' & L' & ZC & NK & WX & WP & WO).
    (* no zone above or below *)
    assert (A1 : forall z0 r0 p, In (z0, r0) zs -> z <> p ++ z0).
    { intros z0 r0 p I0 E. pose proof (ti_in _ _ _ TI z0 r0 [] I0) as WI. cbn [app rev walk] in WI. destruct (ti_zone _ _ _ TI z0 r0 I0) as (ZC0 & _).
      assert (X : get_zcut r0 = false); [|congruence]. apply (ZC (rev z0) (rev p) r0); [|exact WI]. now rewrite E, rev_app_distr. }
    assert (A2 : forall z0 r0 p, In (z0, r0) zs -> z0 <> p ++ z).
    { intros z0 r0 p I0 E. destruct p as [|l p]; [apply (A1 z0 r0 [] I0); now rewrite E|]. pose proof (ti_in _ _ _ TI z0 r0 [] I0) as WI. cbn [app walk] in WI. rewrite E, rev_app_distr, walk_app in WI.
      destruct (walk T (rev z)) as [m|] eqn:WZ; [|discriminate]. rewrite (NK m (rev (l :: p)) eq_refl) in WI; [discriminate|]. cbn. intros X. apply app_eq_nil in X. now destruct X. }
    assert (OUTZ : forall p z0 r0, In (z0, r0) zs -> ~ prefix (rev z) (rev (p ++ z0)) /\ ~ prefix (rev (p ++ z0)) (rev z)).
    { intros p z0 r0 I0. split; intros PX; apply rev_prefix in PX; destruct PX as (x & E).
      - apply two_suffixes in E. destruct E as [(y & E)|(y & E)]; [now apply (A2 z0 r0 y)|now apply (A1 z0 r0 y)].
      - apply (A1 z0 r0 (x ++ p) I0). now rewrite <- app_assoc. }
    constructor.
    - exact G'.
    - rewrite L'. apply (ti_label _ _ _ TI).
    - intros z0 r0 [E|I0]; [injection E as <- <-; split; [exact ZR|eapply good_mono; [exact GR|lia]]|]. destruct (ti_zone _ _ _ TI z0 r0 I0) as (Z0 & G0). split; [exact Z0|eapply good_mono; [exact G0|lia]].
    - intros z0 r0 p [E|I0]; [injection E as <- <-; rewrite rev_app_distr; apply WX|]. destruct (OUTZ p z0 r0 I0) as (O1 & O2). rewrite (WO _ O1 O2). now apply (ti_in _ _ _ TI).
    - intros q NQ. assert (NQ0 : forall p z0 r0, In (z0, r0) zs -> q <> p ++ z0) by (intros p z0 r0 I0; apply (NQ p z0 r0); now right).
      assert (NZ : forall p, q <> p ++ z) by (intros p; apply (NQ p z r); now left). pose proof (ti_out _ _ _ TI q NQ0) as O.
      destruct (suffix_dec q z) as [(p & E)|NS].
      + assert (NP : rev p <> []) by (intros X; apply (f_equal (@rev _)) in X; rewrite rev_involutive in X; cbn in X; subst p; apply (NZ []); now rewrite E).
        destruct (WP (rev q) (rev p) ltac:(now rewrite E, rev_app_distr) NP) as (m & W' & R' & Z'). rewrite W'. split; [right; exists z, r, p; split; [now left|exact E]|].
        destruct (walk T (rev q)) as [c|] eqn:W.
        * rewrite (target_walk _ _ _ W) in R', Z'. destruct O as (_ & O1 & O2). split; congruence.
        * rewrite (target_none T (rev q) [] W) in R', Z'. split; [now rewrite Z'|now rewrite R'].
      + rewrite WO.
        * destruct (walk T (rev q)) as [c|]; [|]; destruct O as (O1 & O2).
          -- split; [|exact O2]. destruct O1 as [O1|(z0 & r0 & p & I0 & E)]; [now left|]. right. exists z0, r0, p. split; [now right|exact E].
          -- split; [exact O1|]. intros z0 r0 p [E|I0]; [injection E as <- <-; intros E; apply NS; eauto|now apply (O2 z0 r0)].
        * intros PX. apply rev_prefix in PX. destruct PX as (x & E). now apply (NZ x).
        * intros PX. apply rev_prefix in PX. now apply NS.
    - intros z1 r1 z2 r2 p [E1|I1] [E2|I2] E.
      + injection E1 as <- <-. injection E2 as <- <-. split; [|reflexivity]. apply (f_equal (@length _)) in E. rewrite app_length in E. destruct p; [reflexivity|cbn in E; lia].
      + injection E1 as <- <-. exfalso. exact (A1 z2 r2 p I2 E).
      + injection E2 as <- <-. exfalso. exact (A2 z1 r1 p I1 E).
      + exact (ti_apart _ _ _ TI z1 r1 z2 r2 p I1 I2 E).
    - cbn [map fst]. constructor; [|apply (ti_once _ _ _ TI)]. intros I0. apply in_map_iff in I0. destruct I0 as ((z0, r0) & E & I0). cbn in E. subst z0. now apply (A1 z r0 [] I0).
  Qed.
End Merge.
