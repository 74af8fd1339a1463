(** multifo *)
From Coq Require Import String Permutation ZArith.
From Verif Require Import Base CompModel CompProofs VscfModel VscfSpec OptModel VhashModel VhashSpec PlugModel PlugSpec PconfModel PconfSpec PconfProofs PconfProofs2 PconfProofs3 PconfProofs4.
Local Open Scope nat_scope.
Local Open Scope list_scope.
Local Notation length := List.length.
Ltac Zify.zify_post_hook ::= idtac.

Lemma filter_all {A} (l : list A) : filter (fun _ => true) l = l.
Proof. induction l as [|e l IH]; [reflexivity|]. cbn. now rewrite IH. Qed.
Lemma filter_short {A} (f : A -> bool) l : length (filter f l) <= length l.
Proof. induction l as [|a l IH]; [reflexivity|]. cbn. destruct (f a); cbn; lia. Qed.
Lemma gives_bind' {A B C D} service s0 (m : cm A) (o : option B) R (f : A -> cm C) (g : B -> option D) R' :
  gives service s0 m o R -> (forall s1 a b, later s0 s1 -> o = Some b -> R s1 a b -> gives service s1 (f a) (g b) R') -> gives service s0 (bind m f) (obind o g) R'.
Proof.
  intros G H. apply gives_bind with (R := fun s a b => o = Some b /\ R s a b).
  - intros s L S. specialize (G s L S). destruct (m s) as [[[a s1]|]|]; [|exact G|exact G]. destruct G as (b & E & R1 & X). exists b. auto.
  - intros s1 a b L (E & R1). now apply H.
Qed.
Lemma all_length {A B} (f : A -> option B) l bs : all f l = Some bs -> length bs = length l.
Proof. revert bs. induction l as [|a l IH]; intros bs; cbn; [now intros [= <-]|]. destruct (f a); [|discriminate]. destruct (all f l); [|discriminate]. intros [= <-]. cbn. now rewrite (IH _ eq_refl). Qed.
Lemma gives_lift {A B C} service s0 (r : res A) u (f : A -> cm B) (o : option C) R : r = Ok u -> gives service s0 (f u) o R -> gives service s0 (bind (lift r) f) o R.
Proof. intros ->. intros G. exact G. Qed.
(** ** Entries that are no parameters *)
Definition plain (D : list bytes) (t : tab) : list (bytes * tree) := map (fun e => (key e, snd e)) (filter (fun e => negb (among D (key e))) t).
Lemma plain_mark D k t : plain D (mark k t) = plain D t.
Proof.
  unfold plain, mark. induction t as [|e t IH]; [reflexivity|]. cbn [map filter]. set (e' := if same k (fst (fst e)) then _ else e).
  assert (K : key e' = key e) by (unfold e'; destruct (same k (fst (fst e))); reflexivity). assert (S : snd e' = snd e) by (unfold e'; destruct (same k (fst (fst e))); reflexivity).
  rewrite K. destruct (among D (key e)); cbn [negb map]; [exact IH|]. rewrite K, S. f_equal. exact IH.
Qed.
Lemma plain_ext D D' t : (forall k, In k (keys t) -> (In k D <-> In k D')) -> plain D t = plain D' t.
Proof.
  intros H. unfold plain. f_equal. apply filter_ext_in. intros e I. specialize (H (key e) (in_map _ _ _ I)). rewrite <- !among_in in H. destruct (among D (key e)), (among D' (key e)); intuition congruence.
Qed.
Lemma plain_evolved ks P T t : Forall2 (erel ks P) T t -> Forall2 (fun a b => fst a = fst b /\ erase (snd b) = erase (snd a)) (plain ks T) (plain ks t).
Proof.
  unfold plain. induction 1 as [|e e' T t R H IH]; [constructor|]. pose proof (erel_value _ _ _ _ R) as EV. destruct R as (K & _). cbn [filter]. rewrite K. destruct (among ks (key e)); cbn [negb map]; [exact IH|]. constructor; [|exact IH]. cbn. auto.
Qed.
Lemma inherit_step done T x x' k : (forall v, value k T = Some v -> vok v) -> ~ In k done -> grown done T x x' -> grown (k :: done) T x (inherit k T x').
Proof.
  intros VO ND G. unfold inherit. destruct (value k T) as [v|] eqn:E; [|now apply grown_none]. apply grown_step; [now apply VO|exact ND|now rewrite E|exact G].
Qed.

Lemma family_rel ks k P h x t : ~ In k ks -> grown ks P (ftab h) x -> Forall2 (erel ks x) x t ->
  (value k t = None /\ get k h = None) \/ exists y v, value k t = Some y /\ get k h = Some v /\ rel1 ks x v y.
Proof.
  intros NK G E. pose proof (evolved_get _ _ _ _ k E) as V. rewrite (grown_other _ _ _ _ _ NK G), ftab_value in V.
  destruct (get k h) as [[r s|l|g]|]; cbn in V; [right; eexists _, _; split; [exact V|]; split; reflexivity|right; eexists _, _; split; [exact V|]; split; reflexivity| |left; auto].
  destruct V as (x' & -> & G'). right. eexists _, _. split; [reflexivity|]. split; [reflexivity|]. cbn. eauto.
Qed.
Lemma list_sized x : sized x -> (N.of_nat (length (m_list x)) < 2 ^ 32)%N.
Proof.
  intros S. destruct S as [r v|l L _|h L _]; cbn [m_list elements].
  - cbn [length]. reflexivity.
  - exact L.
  - rewrite map_length. unfold others. assert (length (filter (fun e => negb (among m_keys (fst e))) h) <= length h) by apply filter_short. lia.
Qed.
Lemma get_sized k h v : sized (VH h) -> get k h = Some v -> sized v.
Proof.
  intros S. inversion S as [| |? _ F]; subst. clear S. induction F as [|e h E F IH]; [discriminate|]. destruct e as [k' v']. cbn. destruct (bytes_eqb k k'); [intros [= <-]; exact E|exact IH].
Qed.
Lemma others_sized ks h : sized (VH h) -> Forall (fun e => sized (snd e)) (others ks h).
Proof. intros D. inversion D as [| |? _ F]; subst. unfold others. apply Forall_forall. intros e I. apply filter_In in I as (I & _). rewrite Forall_forall in F. now apply F. Qed.
(** The most of some numbers *)
Lemma most_iff l n : (most l <= n)%N <-> Forall (fun o => match o with Some c => (N.of_nat c <= n)%N | None => True end) l.
Proof.
  unfold most. assert (G : forall m, (fold_left (fun m o => match o with Some n => if (m <? N.of_nat n)%N then N.of_nat n else m | None => m end) l m <= n)%N <->
    (m <= n)%N /\ Forall (fun o => match o with Some c => (N.of_nat c <= n)%N | None => True end) l).
  { induction l as [|o l IH]; intros m; cbn [fold_left]; [split; [intros H; split; [exact H|constructor]|tauto]|]. rewrite IH. destruct o as [c|].
    - destruct (N.ltb_spec m (N.of_nat c)) as [L|L]; split; (intros (A & B); split; [try lia|]); try (constructor; [lia|exact B]); try (now inversion B); inversion B; subst; lia.
    - split; (intros (A & B); split; [exact A|]); [constructor; [exact Logic.I|exact B]|now inversion B]. }
  rewrite G. split; [tauto|]. intros H. split; [lia|exact H].
Qed.

(** ** A list of addresses *)
Fixpoint numbers (i : N) (l : list tree) : tab := match l with [] => [] | x :: l' => (decimal i, false, x) :: numbers (i + 1) l' end.
Lemma numbers_keys l i k : In k (keys (numbers i l)) -> exists j, k = decimal j /\ (i <= j)%N.
Proof. revert i. induction l as [|x l IH]; intros i; cbn; [intros []|]. intros [<-|I]; [exists i; split; [reflexivity|lia]|]. destruct (IH _ I) as (j & -> & L). exists j. split; [reflexivity|lia]. Qed.
Lemma numbers_nodup l i : NoDup (keys (numbers i l)).
Proof. revert i. induction l as [|x l IH]; intros i; cbn; [constructor|]. constructor; [|apply IH]. intros I. destruct (numbers_keys _ _ _ I) as (j & E & L). apply decimal_inj in E. lia. Qed.
Lemma numbers_marks l i : marked_by [] (numbers i l).
Proof. revert i. induction l as [|x l IH]; intros i; [constructor|]. constructor; [reflexivity|apply IH]. Qed.
Lemma numbers_snd l i : map snd (numbers i l) = l.
Proof. revert i. induction l as [|x l IH]; intros i; cbn; [reflexivity|]. f_equal. apply IH. Qed.
Definition is_text (v : vnode) : bool := match v with VS _ _ => true | _ => false end.
Lemma numbered_is l : forall i t, (forall k, In k (keys t) -> exists j, k = decimal j /\ (j < i)%N) ->
  numbered i (map fresh l) t = if forallb is_text l then ret (t ++ numbers i (map fresh l)) else fatal.
Proof.
  induction l as [|x l IH]; intros i t H; [cbn; now rewrite app_nil_r|]. destruct x as [r v|a|a]; [|reflexivity|reflexivity]. cbn [map numbered fresh forallb is_text andb numbers copy].
  assert (V : value (decimal i) t = None). { apply value_none. intros I. destruct (H _ I) as (j & E & L). apply decimal_inj in E. lia. }
  rewrite V, IH.
  - destruct (forallb is_text l); [|reflexivity]. now rewrite <- app_assoc.
  - intros k I. unfold keys in I. rewrite map_app in I. apply in_app_iff in I as [I|[<-|[]]]; [destruct (H _ I) as (j & E & L); exists j; split; [exact E|lia]|]. exists i. split; [reflexivity|lia].
Qed.
Lemma decimal_no_key i k : In k m_keys -> decimal i <> k.
Proof.
  intros I E. destruct I as [<-|[<-|[<-|[]]]].
  - destruct (decimal_other i (txt "up_thres") 104) as [H|H]; [now apply H|lia].
  - destruct (decimal_other i (txt "service_type") 115) as [H|H]; [now apply H|lia].
  - destruct (decimal_other i (txt "ignore_healt") 104) as [H|H]; [now apply H|lia].
Qed.

Lemma m_keys_nodup : NoDup m_keys.
Proof. repeat constructor; cbn; intuition discriminate. Qed.

(** ** The data of a set *)
Definition no_hash (x : vnode) : Prop := forall h, x <> VH h.
Record m_tab (x : vnode) (outer : list hash) (t : tab) : Prop := {
  mt_keys : NoDup (keys t);
  mt_said : forall k, In k m_keys -> as_said k (m_inner x ++ outer) (value k t);
  mt_marks : exists D, marked_by D t /\ forall k, In k D -> In k m_keys \/ ~ In k (keys t);
  mt_list : Forall2 (fun v e => erase (snd e) = erase (fresh v)) (m_list x) (plain m_keys t) }.
Lemma m_tab_mark x outer t k : In k m_keys \/ ~ In k (keys t) -> m_tab x outer t -> m_tab x outer (mark k t).
Proof.
  intros I [N S (D & M & DM) L]. split.
  - now rewrite keys_mark.
  - intros k' I'. rewrite value_mark. now apply S.
  - exists (k :: D). split; [now apply marked_mark|]. intros k' [<-|J]; rewrite keys_mark; auto.
  - now rewrite plain_mark.
Qed.
Lemma m_tab_hash h outer P y : distinct (VH h) -> grown m_keys P (ftab h) y -> (forall k, In k m_keys -> as_said k outer (value k P)) -> m_tab (VH h) outer y.
Proof.
  intros D G A. pose proof (grown_marks _ _ _ _ (ftab_marks h) G) as (N & M). split; [exact N| | |].
  - intros k I. eapply said_own; [exact I|exact G|now apply A].
  - exists []. split; [exact M|]. intros k [].
  - cbn [m_list]. unfold plain. rewrite (others_grown m_keys m_keys P h y (fun k I => I) G). clear. induction (others m_keys h) as [|e l IH]; constructor; [reflexivity|exact IH].
Qed.
Lemma m_tab_evolved h outer P x t : distinct (VH h) -> grown m_keys P (ftab h) x -> (forall k, In k m_keys -> as_said k outer (value k P)) -> Forall2 (erel m_keys x) x t -> m_tab (VH h) outer t.
Proof.
  intros D G A E. destruct (m_tab_hash h outer P x D G A) as [N S _ L]. split.
  - now rewrite (evolved_keys _ _ _ _ E).
  - intros k I. unfold as_said. rewrite (evolved_value _ _ _ _ _ E). now apply S.
  - exists m_keys. split; [eapply evolved_marks; exact E|auto].
  - pose proof (plain_evolved _ _ _ _ E) as PE. revert L. clear -PE. generalize (m_list (VH h)) as l. induction PE as [|a b la lb (_ & EV) PE IH]; intros l L; inversion L; subst; constructor; [congruence|now apply IH].
Qed.

Section Multifo.
  Variable gai : bytes -> option addr.
  Variable strtod : bytes -> option dbl.
  Variable service : bytes -> option (bool * bool).
  Notation gives := (gives service).
  Notation calm := (calm strtod).

  Lemma from_array_gives s0 x outer parent : no_hash x -> (forall k, In k m_keys -> as_said k outer (value k parent)) -> (forall k v, value k parent = Some v -> vok v) ->
    gives s0 (from_array (fresh x) parent) (need (forallb is_text (m_list x))) (fun _ t _ => m_tab x outer t).
  Proof.
    intros NH A VO. unfold from_array. assert (IT : items (fresh x) = map fresh (elements x)) by (destruct x as [| |h]; [reflexivity|reflexivity|destruct (NH h eq_refl)]).
    assert (ML : m_list x = elements x) by (destruct x as [| |h]; [reflexivity|reflexivity|destruct (NH h eq_refl)]). assert (MI : m_inner x = []) by (destruct x as [| |h]; [reflexivity|reflexivity|destruct (NH h eq_refl)]).
    rewrite IT, ML, numbered_is by (intros ? []). destruct (forallb is_text (elements x)) eqn:E; [|apply gives_fatal]. cbn [app need].
    eapply (gives_bind service s0 _ (Some tt) (fun _ t _ => t = numbers 1 (map fresh (elements x)))); [apply gives_ret; reflexivity|]. intros s1 t [] L1 ->. apply gives_ret. intros s L.
    set (nums := numbers 1 (map fresh (elements x))).
    assert (G : grown [k_ignore; k_types; k_thresh] parent nums (inherit k_ignore parent (inherit k_types parent (inherit k_thresh parent nums)))).
    { apply inherit_step; [apply VO|cbn; intuition discriminate|]. apply inherit_step; [apply VO|cbn; intuition discriminate|]. apply inherit_step; [apply VO|cbn; intuition|]. apply grown_start. split; [apply numbers_nodup|apply numbers_marks]. }
    set (t := inherit _ _ _) in *. clearbody t.
    assert (G' : grown m_keys parent nums t) by (eapply grown_ext; [|exact G]; intros k; cbn; tauto). clear G.
    assert (NK : forall k, In k m_keys -> value k nums = None). { intros k I. apply value_none. intros J. apply numbers_keys in J as (j & E' & _). symmetry in E'. now apply (decimal_no_key j k I). }
    pose proof (grown_marks _ _ _ _ (numbers_marks _ _) G') as (N & M). split; [exact N| | |].
    - intros k I. rewrite MI. cbn [app]. unfold as_said. destruct G' as (ext & _ & _ & _ & R). rewrite (R k I), (NK k I). cbn [orelse]. now apply A.
    - exists []. split; [exact M|]. intros k [].
    - rewrite ML. destruct G' as (ext & -> & F & _). unfold plain. rewrite filter_app, map_app, (filter_ext_out m_keys ext) by (eapply Forall_impl; [|exact F]; cbn; tauto). rewrite app_nil_r.
      assert (FE : filter (fun e => negb (among m_keys (key e))) nums = nums).
      { rewrite (filter_ext_in _ (fun _ => true)); [apply filter_all|]. intros e I. apply negb_true_iff, among_not. intros J. apply (NK (key e)) in J. apply value_none in J. apply J. now apply in_map. }
      rewrite FE. unfold nums. clear. generalize 1%N. induction (elements x) as [|v l IH]; intros i; cbn; constructor; [reflexivity|apply IH].
  Qed.

  Lemma m_made_later s s' w p : later s s' -> m_made s w p -> m_made s' w p.
  Proof.
    intros L (A & B). split; [|exact B]. clear B. induction A as [|x y l l' (E & M) A IH]; constructor; [|exact IH]. split; [exact E|]. eapply all_monitors_later; eauto.
  Qed.

  Lemma m_stanza_gives s0 v6 x outer t : calm (m_inner x ++ outer) -> m_tab x outer t -> (N.of_nat (length (m_list x)) < 2 ^ 32)%N ->
    gives s0 (m_stanza gai strtod service v6 t) (m_set_says gai strtod service v6 x outer) (fun s a w => m_made s w a).
  Proof.
    intros CA [N S (D & M & DM) LI] SZ. unfold m_stanza, m_set_says. cbn zeta.
    eapply gives_bind; [apply svcs_give, S; cbn; auto|]. intros s1 svcs ? L1 <-.
    eapply gives_bind; [apply thresh_gives; [exact CA|apply S; cbn; auto]|]. intros s2 d (m, e) L2 (-> & RG). cbn [fst snd] in RG.
    eapply gives_bind; [apply bool_gives, S; cbn; auto|]. intros s3 ignore ? L3 <-.
    set (num := match value k_ignore t with Some _ => _ | None => _ end).
    assert (NUM : num = length (m_list x)).
    { pose proof (count_params m_keys t m_keys_nodup N) as C. assert (LL : length (m_list x) = length (filter (fun e => negb (among m_keys (key e))) t)).
      { unfold plain in LI. rewrite <- (map_length (fun e => (key e, snd e)) (filter _ t)). clear -LI. induction LI; [reflexivity|]. cbn. now f_equal. }
      rewrite LL. unfold num. clear -C. unfold m_keys in *. cbn [filter] in C. destruct (value k_thresh t), (value k_types t), (value k_ignore t); cbn [some length] in C; lia. }
    clearbody num. rewrite NUM. clear num NUM.
    destruct (m_list x) as [|v0 vs] eqn:EM. { cbn. intros s _ _. reflexivity. }
    rewrite <- EM in *. assert (P : 0 < length (m_list x)) by (rewrite EM; cbn; lia). rewrite (proj2 (Nat.eqb_neq (length (m_list x)) 0)) by lia. cbn [negb check].
    destruct (uscale_ok (N.of_nat (length (m_list x))) m e) as (u & U & PU); [split; [lia|exact SZ]|exact RG|].
    apply gives_eq with (o := obind (need true) (fun _ => obind (all (address_in gai service v6 svcs) (m_list x)) (fun as_ => Some {| mw_svcs := svcs; mw_part := (m, e); mw_ignore := ignore; mw_addrs := as_ |}))).
    { rewrite EM. cbn [need obind]. destruct (all _ (v0 :: vs)) as [as_|] eqn:EA; [|reflexivity]. cbn [obind]. destruct as_; [|reflexivity]. exfalso. cbn in EA. destruct (address_in _ _ _ _ v0); [|discriminate]. destruct (all _ vs); discriminate. }
    apply (gives_check service s3 true). intros _. eapply gives_lift; [exact U|].
    assert (UM : unmarked (mark k_ignore (mark k_thresh (mark k_types t))) = plain m_keys t).
    { rewrite (unmarked_by (k_ignore :: k_thresh :: k_types :: D)) by (do 3 apply marked_mark; exact M). change (plain (k_ignore :: k_thresh :: k_types :: D) (mark k_ignore (mark k_thresh (mark k_types t))) = plain m_keys t). rewrite !plain_mark. apply plain_ext.
      intros k IK. split; [|intros J; cbn in J |- *; tauto]. intros [<-|[<-|[<-|J]]]; [cbn; tauto|cbn; tauto|cbn; tauto|]. destruct (DM k J) as [X|X]; [exact X|contradiction]. }
    rewrite UM. apply gives_asserted. { apply Nat.eqb_eq. clear -LI. induction LI; [reflexivity|]. cbn. now f_equal. }
    eapply gives_bind'.
    - eapply (gives_mapm service _ _ _ (fun s x a => ma_addr x = a /\ Forall2 (monitors s (OnAddr a)) svcs (ma_idx x))).
      + intros s s' a b LS (X & Y). split; [exact X|]. eapply all_monitors_later; eauto.
      + eapply (Forall2_and_l (fun _ => True)); [|exact LI]. apply Forall_forall. auto.
      + cbn beta. intros s4 (k, y) v L4 (_ & EV). cbn [snd] in *. unfold address_in. eapply gives_bind; [now apply addr_gives|]. intros s5 a ? L5 <-. apply (gives_check service s5 (Bool.eqb v6 (is6 a))). intros _.
        eapply gives_bind; [apply mons_give|]. intros s6 idx [] L6 MO. apply gives_ret. intros s7 L7. cbn. split; [reflexivity|]. eapply all_monitors_later; eauto.
    - cbn beta. intros s4 l as_ L4 EA R. apply gives_ret. intros s5 L5. split; [|split; [reflexivity|]].
      + cbn. clear -R L5. induction R as [|a b l l' (X & Y) R IH]; constructor; [|exact IH]. split; [exact X|]. eapply all_monitors_later; eauto.
      + cbn [mw_addrs mw_part ms_up fst snd]. rewrite N2Nat.id. replace (length as_) with (length (m_list x)); [exact PU|].
        apply all_length in EA. symmetry. exact EA.
  Qed.

  Lemma is_text_needed v6 x outer : obind (need (forallb is_text (m_list x))) (fun _ => m_set_says gai strtod service v6 x outer) = m_set_says gai strtod service v6 x outer.
  Proof.
    destruct (forallb is_text (m_list x)) eqn:E; [reflexivity|]. cbn. unfold m_set_says. cbn zeta. destruct (services _) as [svcs|]; [cbn|reflexivity]. destruct (fraction _ _); [cbn|reflexivity]. destruct (boolean _); [cbn|reflexivity].
    replace (all (address_in gai service v6 svcs) (m_list x)) with (@None (list addr)); [reflexivity|]. symmetry. induction (m_list x) as [|y l IH]; [discriminate|]. cbn in *.
    destruct y as [r v|a|a]; cbn in *; [|reflexivity|reflexivity]. rewrite (IH E). destruct (address_in _ _ _ _ _); reflexivity.
  Qed.
  (** Where the data of a set come from: a hash that was grown, or others *)
  Definition m_data (x : vnode) (outer : list hash) (parent : tab) (y : tree) : Prop :=
    match x with
    | VH h => exists t, y = TH t /\ m_tab x outer t
    | _ => y = fresh x
    end /\ (N.of_nat (length (m_list x)) < 2 ^ 32)%N /\ (forall k, In k m_keys -> as_said k outer (value k parent)) /\ (forall k v, value k parent = Some v -> vok v) /\ calm (m_inner x ++ outer).
  Definition texts (x : vnode) : option unit := match x with VH _ => Some tt | _ => need (forallb is_text (m_list x)) end.
  Lemma as_hash_gives s0 x outer parent y : m_data x outer parent y -> gives s0 (as_hash y parent) (texts x) (fun _ t _ => m_tab x outer t).
  Proof.
    intros (Y & _ & A & VO & _). destruct x as [r v|l|h].
    - subst y. apply from_array_gives; [discriminate|exact A|exact VO].
    - subst y. apply from_array_gives; [discriminate|exact A|exact VO].
    - destruct Y as (t & -> & T). apply gives_ret. auto.
  Qed.
  Lemma texts_needed v6 x outer : obind (texts x) (fun _ => m_set_says gai strtod service v6 x outer) = m_set_says gai strtod service v6 x outer.
  Proof. destruct x; [apply is_text_needed|apply is_text_needed|reflexivity]. Qed.

  Lemma m_family_gives s0 v6 o v outer parent : match o, v with None, None => True | Some y, Some x => m_data x outer parent y | _, _ => False end ->
    gives s0 (m_family gai strtod service v6 o parent) (m_family_says gai strtod service v6 v outer) (fun s a b => maybe (m_made s) b a).
  Proof.
    intros H. destruct o as [y|], v as [x|]; try contradiction; [|apply gives_ret; intros; exact Logic.I]. cbn [m_family m_family_says].
    apply gives_eq with (o := obind (texts x) (fun _ => obind (m_set_says gai strtod service v6 x outer) (fun w => Some (Some w)))). { rewrite <- (texts_needed v6 x outer). destruct (texts x); reflexivity. }
    eapply gives_bind; [eapply as_hash_gives; exact H|]. intros s1 t [] L1 T. eapply gives_bind; [apply m_stanza_gives; [apply H|exact T|apply H]|]. intros s2 p w L2 M. apply gives_ret. intros s L. cbn. eapply m_made_later; eauto.
  Qed.
  Definition mfam (s : state) (a : option m_set * option m_set) (b : option m_want * option m_want) : Prop := maybe (m_made s) (fst b) (fst a) /\ maybe (m_made s) (snd b) (snd a).
  Lemma copy_first D t : marked_by D t -> exists l, copy true (TH t) = TH l /\ map (fun e => erase (snd e)) l = map (fun e => erase (snd e)) (plain D t).
  Proof.
    intros M. cbn. eexists. split; [reflexivity|]. unfold plain. induction M as [|e t E M IH]; [reflexivity|]. cbn [flat_map filter]. rewrite E. destruct (among D (key e)); cbn [negb app map]; [exact IH|]. cbn [snd]. rewrite erase_copy. f_equal. exact IH.
  Qed.
  Lemma m_auto_gives s0 x plugin parent y : m_data x [plugin] parent y -> gives s0 (m_auto gai strtod service y parent) (m_direct_says gai strtod service x plugin) mfam.
  Proof.
    intros H. unfold m_auto, m_direct_says.
    apply gives_eq with (o := obind (texts x) (fun _ => obind (match m_list x with y :: _ => address gai y | [] => None end) (fun a => obind (m_set_says gai strtod service (is6 a) x [plugin]) (fun w => Some (if is6 a then (None, Some w) else (Some w, None)))))).
    { destruct (texts x) as [[]|] eqn:E; [reflexivity|]. destruct (match m_list x with [] => None | y0 :: _ => address gai y0 end) as [a|]; [|reflexivity]. cbn [obind]. rewrite <- texts_needed, E. reflexivity. }
    eapply gives_bind; [eapply as_hash_gives; exact H|]. intros s1 t [] L1 T. cbn zeta.
    set (t' := mark k_ignore (mark k_types (mark k_thresh t))). assert (T' : m_tab x [plugin] t') by (do 3 (apply m_tab_mark; [cbn; auto|]); exact T).
    assert (M : exists D, marked_by D t' /\ plain D t' = plain m_keys t').
    { destruct T as [_ _ (D & M & DM) _]. exists (k_ignore :: k_types :: k_thresh :: D). split; [do 3 apply marked_mark; exact M|]. unfold t'. rewrite !plain_mark. apply plain_ext. intros k IK.
      split; [|intros J; cbn in J |- *; tauto]. intros [<-|[<-|[<-|J]]]; [cbn; tauto|cbn; tauto|cbn; tauto|]. destruct (DM k J) as [X|X]; [exact X|contradiction]. }
    destruct M as (D & M & EP). destruct (copy_first D t' M) as (l & -> & EL). rewrite EP in EL. pose proof (mt_list _ _ _ T') as LI.
    assert (LE : map (fun e => erase (snd e)) l = map (fun v => erase (fresh v)) (m_list x)). { rewrite EL. clear -LI. induction LI; [reflexivity|]. cbn. now f_equal. }
    destruct l as [|(kk, e) l], (m_list x) as [|v vs] eqn:EM; try discriminate; [apply gives_fatal|]. injection LE as LE _. cbn [snd].
    eapply gives_bind; [apply addr_gives; exact LE|]. intros s2 a ? L2 <-. change (a_is6 a) with (is6 a).
    eapply gives_bind; [apply m_stanza_gives; [apply H|exact T'|rewrite EM; destruct H as (_ & H & _); rewrite EM in H; exact H]|]. intros s3 p w L3 R. apply gives_ret. intros s L. destruct (is6 a); (split; cbn; [try exact Logic.I|try exact Logic.I]); eapply m_made_later; eauto.
  Qed.


  Lemma m_data_of ks x v y outer parent : calm outer -> no_nan strtod v -> ks = m_keys -> distinct v -> sized v -> rel1 ks x v y -> (forall k, In k m_keys -> as_said k outer (value k x)) ->
    (forall k, In k m_keys -> as_said k outer (value k parent)) -> (forall k v, value k parent = Some v -> vok v) -> m_data v outer parent y.
  Proof.
    intros CO CV -> D SZ R A A' VO. split; [|split; [now apply list_sized|split; [exact A'|split; [exact VO|destruct v; [exact CO|exact CO|constructor; [exact CV|exact CO]]]]]].
    destruct v as [r s|l|g]; [exact R|exact R|]. destruct R as (y' & -> & G). exists y'. split; [reflexivity|]. now apply (m_tab_hash g outer x y').
  Qed.
  Lemma m_fam_later s s' a b : later s s' -> maybe (m_made s) a b -> maybe (m_made s') a b.
  Proof. intros L. apply maybe_mono. intros. eapply m_made_later; eauto. Qed.

  Lemma m_res_gives s0 plugin P T t1 k v x : no_nan strtod (VH plugin) -> no_nan strtod v -> distinct v -> sized v -> rel1 m_keys P v x -> (forall k, In k m_keys -> as_said k [plugin] (value k P)) -> Forall2 (erel m_keys P) T t1 -> T = P ->
    gives s0 (m_config_res gai strtod service t1 (k, x)) (let? w <- m_res_says gai strtod service plugin v ; Some (c_str k, w)) (fun s a b => families (m_made s) b a).
  Proof.
    intros CP CV D SZ H A ET ->. assert (CP1 : calm [plugin]) by (constructor; [exact CP|constructor]). unfold m_config_res. cbn [fst snd].
    assert (AT : forall k, In k m_keys -> as_said k [plugin] (value k t1)). { intros k' I. unfold as_said. rewrite (evolved_value _ _ _ _ _ ET). now apply A. }
    assert (VT : forall k v, value k t1 = Some v -> vok v) by (intros; eapply evolved_vok; eauto).
    assert (G : gives s0
      (match x with
       | TH t =>
          let '(_, t) := bequeath_all m_keys t in
          let c4 := value k_v4 t in
          let t := mark k_v4 t in
          let c6 := value k_v6 t in
          let t := mark k_v6 t in
          let* p4 <- m_family gai strtod service false c4 t ;
          let* p6 <- m_family gai strtod service true c6 t ;
          match c4, c6 with
          | None, None => m_auto gai strtod service (TH t) t1
          | _, _ => let* _ <- check (match unmarked t with [] => true | _ => false end) ; ret (p4, p6)
          end
       | x => m_auto gai strtod service x t1
       end) (m_res_says gai strtod service plugin v) mfam).
    { destruct v as [r y|l|h].
      - cbn in H. subst x. apply (m_auto_gives s0 (VS r y)). eapply m_data_of; eauto. reflexivity.
      - cbn in H. subst x. apply (m_auto_gives s0 (VA l)). eapply m_data_of; eauto. reflexivity.
      - destruct H as (x' & -> & G). pose proof (grown_inner _ _ _ _ D G) as (TO & IO). destruct (bequeath_all_spec m_keys x' m_keys_nodup TO IO) as (t & -> & E).
        assert (N4 : ~ In k_v4 m_keys) by (cbn; intuition discriminate). assert (N6 : ~ In k_v6 m_keys) by (cbn; intuition discriminate).
        pose proof (family_rel m_keys k_v4 P h x' t N4 G E) as S4. pose proof (family_rel m_keys k_v6 P h x' t N6 G E) as S6.
        assert (A' : forall k, In k m_keys -> as_said k [h; plugin] (value k x')) by (intros; eapply said_own; eauto).
        pose proof (evolved_marks _ _ _ _ E) as M. pose proof (evolved_keys _ _ _ _ E) as K. destruct (grown_keys _ _ _ _ G) as (ek & KX & IE). rewrite KX in K.
        cbn zeta. rewrite value_mark. set (t' := mark k_v6 (mark k_v4 t)).
        assert (AT' : forall k, In k m_keys -> as_said k [h; plugin] (value k t')). { intros k' I. unfold t', as_said. rewrite !value_mark, (evolved_value _ _ _ _ _ E). now apply A'. }
        assert (VT' : forall k v, value k t' = Some v -> vok v). { intros k' v'. unfold t'. rewrite !value_mark. intros. eapply evolved_vok; eauto. }
        assert (FAM : forall k, (value k t = None /\ get k h = None) \/ (exists y v, value k t = Some y /\ get k h = Some v /\ rel1 m_keys x' v y) ->
          match value k t, get k h with None, None => True | Some y, Some x => m_data x [h; plugin] t' y | _, _ => False end).
        { intros k' [(-> & ->)|(y & v & -> & GV & R)]; [exact Logic.I|]. rewrite GV. eapply m_data_of; [constructor; [exact CV|exact CP1]|eapply calm_get; eauto|reflexivity|eapply get_distinct; eauto|eapply get_sized; eauto|exact R|exact A'|exact AT'|exact VT']. }
        cbn [m_res_says].
        assert (UN : match unmarked t' with [] => true | _ => false end = only_b (k_v4 :: k_v6 :: m_keys) h).
        { erewrite unmarked_nil; [|unfold t'; do 2 apply marked_mark; exact M|unfold t'; rewrite !keys_mark; exact K|].
          - unfold only_b. erewrite others_ext; [reflexivity|]. intros k'. cbn. tauto.
          - intros k' I. specialize (IE k' I). cbn in *. tauto. }
        assert (MID : gives s0
          (let* p4 <- m_family gai strtod service false (value k_v4 t) t' ;
           let* p6 <- m_family gai strtod service true (value k_v6 t) t' ;
           match value k_v4 t, value k_v6 t with
           | None, None => m_auto gai strtod service (TH t') t1
           | _, _ => let* _ <- check (match unmarked t' with [] => true | _ => false end) ; ret (p4, p6)
           end)
          (let? w4 <- m_family_says gai strtod service false (get k_v4 h) [h; plugin] ; let? w6 <- m_family_says gai strtod service true (get k_v6 h) [h; plugin] ;
           match get k_v4 h, get k_v6 h with
           | None, None => m_direct_says gai strtod service (VH h) plugin
           | _, _ => let? _ <- need (match unmarked t' with [] => true | _ => false end) ; Some (w4, w6)
           end) mfam).
        { eapply gives_bind; [apply m_family_gives, FAM, S4|]. intros s1 p4 w4 L1 R4. cbn beta in R4. eapply gives_bind; [apply m_family_gives, FAM, S6|]. intros s2 p6 w6 L2 R6. cbn beta in R6.
          assert (END : gives s2 (let* _ <- check (match unmarked t' with [] => true | _ => false end) ; ret (p4, p6)) (let? _ <- need (match unmarked t' with [] => true | _ => false end) ; Some (w4, w6)) mfam).
          { apply gives_check. intros _. apply gives_ret. intros s3 L3. split; cbn; (eapply m_fam_later; [|eassumption]); [eapply later_trans; eauto|exact L3]. }
          destruct S4 as [(V4 & G4)|(y4 & v4 & V4 & G4 & _)]; rewrite V4, G4; [|exact END].
          destruct S6 as [(V6 & G6)|(y6 & v6 & V6 & G6 & _)]; rewrite V6, G6; [|exact END].
          apply m_auto_gives. split; [|split; [now apply list_sized|split; [exact AT|split; [exact VT|constructor; [exact CV|exact CP1]]]]]. exists t'. split; [reflexivity|].
          assert (NI : forall k, ~ In k m_keys -> get k h = None -> ~ In k (keys t)). { intros k' NK GN I. rewrite K in I. apply in_app_iff in I as [I|I]; [|apply NK, IE, I]. rewrite <- ftab_keys in I. apply value_in in I. apply I. now rewrite ftab_value, GN. }
          unfold t'. apply m_tab_mark; [right; rewrite keys_mark; now apply NI|]. apply m_tab_mark; [right; now apply NI|]. now apply (m_tab_evolved h [plugin] P x' t). }
        rewrite UN in MID. rewrite UN. eapply gives_eq; [|exact MID].
        destruct (get k_v4 h) as [h4|] eqn:G4; [|destruct (get k_v6 h) as [h6|] eqn:G6; [|reflexivity]];
          (destruct (only_b (k_v4 :: k_v6 :: m_keys) h); cbn [need obind]; (destruct (m_family_says gai strtod service false _ _); [cbn [obind]|reflexivity]); destruct (m_family_says gai strtod service true _ _); reflexivity). }
    eapply gives_bind; [destruct x; exact G|]. intros s1 a w L1 (R4 & R6). apply gives_ret. intros s2 L2. split; [reflexivity|]. split; cbn; eapply m_fam_later; eauto.
  Qed.

  Definition m_size (w : m_want) : nat := length (mw_addrs w).
  Theorem multifo_gives s0 h : no_nan strtod (VH h) -> distinct (VH h) -> sized (VH h) ->
    gives s0 (multifo_load gai strtod service (Some (fresh (VH h)))) (multifo_says gai strtod service h)
      (fun s rs ws => Forall2 (families (m_made s)) ws rs /\ Forall (fun w => roomy s m_size (snd w)) ws).
  Proof.
    intros CA D SZ. rewrite fresh_hash. cbn [multifo_load]. destruct (resources_of m_keys h m_keys_nodup D) as (t & -> & L & LU & F & E). rewrite L. unfold multifo_says. cbn zeta.
    destruct (Nat.eqb_spec (length (others m_keys h)) 0) as [Z|NZ].
    { destruct (others m_keys h); [|discriminate]. apply gives_ret. intros s _. split; constructor. }
    apply gives_asserted; [now apply Nat.eqb_eq|].
    eapply gives_bind.
    - eapply (gives_mapm service _ _ _ (fun s a b => families (m_made s) b a)).
      + intros s s' a b LS (X & Y & Z). split; [exact X|]. split; eapply m_fam_later; eauto.
      + eapply (Forall2_and_l (fun e => no_nan strtod (snd e) /\ distinct (snd e) /\ sized (snd e))); [|exact F]. apply Forall_forall. intros e I. split; [pose proof (calm_others strtod m_keys h CA) as FF; rewrite Forall_forall in FF; now apply FF|]. split; [pose proof (others_distinct m_keys h D) as FF|pose proof (others_sized m_keys h SZ) as FF]; rewrite Forall_forall in FF; now apply FF.
      + cbn beta. intros s1 (k, x) (k', v) L1 ((CV & DV & SV) & K & R). cbn [fst snd] in *. subst k'. eapply m_res_gives; [exact CA|exact CV|exact DV|exact SV|exact R|intros; apply said_top|exact E|reflexivity].
    - cbn beta. intros s1 rs ws L1 R. set (m4 := most _). set (m6 := most _). set (ok := forallb _ ws).
      assert (SAME : forall (sel : option m_want * option m_want -> option m_want) (sel' : option m_set * option m_set -> option m_set), (forall a b, families (m_made s1) a b -> maybe (m_made s1) (sel (snd a)) (sel' (snd b))) ->
        map (fun r => option_map (fun s => length (ms_as s)) (sel' (snd r))) rs = map (fun w => option_map m_size (sel (snd w))) ws).
      { intros sel sel' HS. clear -R HS. induction R as [|a b l l' X R IH]; [reflexivity|]. cbn. f_equal; [|exact IH]. specialize (HS _ _ X). destruct (sel (snd a)), (sel' (snd b)); try contradiction; [|reflexivity]. cbn. f_equal.
        destruct HS as (HS & _). unfold m_size. clear -HS. induction HS; [reflexivity|]. cbn. now f_equal. }
      assert (E4 : m4 = most (map (fun w => option_map m_size (fst (snd w))) ws)). { unfold m4. f_equal. apply (SAME fst fst). intros a b (_ & X & _). exact X. }
      assert (E6 : m6 = most (map (fun w => option_map m_size (snd (snd w))) ws)). { unfold m6. f_equal. apply (SAME snd snd). intros a b (_ & _ & X). exact X. }
      apply gives_eq with (o := obind (obind (need ok) (fun _ => Some tt)) (fun _ => Some ws)). { destruct ok; reflexivity. }
      eapply gives_bind; [apply (dyn_addr_max_gives service s1 m4 m6 tt ok (fun s _ _ => m4 <= lim4 s /\ m6 <= lim6 s)%N); [|auto]|].
      + apply eq_true_iff_eq. unfold ok. rewrite forallb_forall, negb_true_iff, orb_false_iff, !N.ltb_ge, E4, E6, !most_iff, !Forall_map, !Forall_forall.
        assert (W : forall o : option m_want, within m_size o = true <-> match option_map m_size o with Some c => (N.of_nat c <= 360)%N | None => True end). { intros [w|]; cbn; [apply N.leb_le|tauto]. }
        change (fun w0 : m_want => length (mw_addrs w0)) with m_size. split; [intros HH; split; intros w I|intros (HA & HB) w I].
        * specialize (HH w I). apply andb_prop in HH as (HH & _). now apply W.
        * specialize (HH w I). apply andb_prop in HH as (_ & HH). now apply W.
        * apply andb_true_intro. split; apply W; [now apply HA|now apply HB].
      + intros s2 [] [] L2 (B4 & B6). apply gives_ret. intros s3 L3. split.
        * clear -R L2 L3. induction R as [|a b l l' (X & Y & Z) R IH]; constructor; [|exact IH]. split; [exact X|]. split; (eapply m_fam_later; [eapply later_trans; [exact L2|exact L3]|assumption]).
        * destruct L3 as (_ & X4 & X6). rewrite E4 in B4. rewrite E6 in B6. apply most_iff in B4. apply most_iff in B6. rewrite Forall_map in B4, B6. rewrite Forall_forall in *. intros w I. specialize (B4 w I). specialize (B6 w I).
          split; intros a EA; rewrite EA in *; cbn in *; lia.
  Qed.
End Multifo.
