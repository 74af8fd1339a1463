(** How parameters come down through the hashes *)
From Coq Require Import Permutation ZArith.
From Verif Require Import Base CompModel CompProofs VscfModel VscfSpec OptModel VhashModel VhashSpec PlugModel PconfModel PconfSpec.
Local Open Scope nat_scope.
Local Notation length := List.length.
Ltac Zify.zify_post_hook ::= idtac.

Fixpoint tree_ind' (P : tree -> Prop) (HS : forall r v, P (TS r v)) (HA : forall l, Forall P l -> P (TA l))
  (HH : forall t, Forall (fun e => P (snd e)) t -> P (TH t)) (t : tree) : P t :=
  match t with
  | TS r v => HS r v
  | TA l => HA l ((fix go l := match l return Forall P l with [] => Forall_nil _ | x :: l' => Forall_cons _ (tree_ind' P HS HA HH x) (go l') end) l)
  | TH l => HH l ((fix go l := match l return Forall (fun e => P (snd e)) l with [] => Forall_nil _ | x :: l' => Forall_cons _ (tree_ind' P HS HA HH (snd x)) (go l') end) l)
  end.

(** Values that read the same as a parameter: no parameter is a hash *)
Fixpoint erase (t : tree) : tree :=
  match t with TS r v => TS r v | TA l => TA (map erase l) | TH _ => TH [] end.
Definition oerase (o : option tree) : option tree := option_map erase o.
Definition orelse {A} (a b : option A) : option A := match a with Some x => Some x | None => b end.

Lemma erase_copy ig t : erase (copy ig t) = erase t.
Proof.
  induction t as [r v|l IH|t _] using tree_ind'; [reflexivity| |reflexivity].
  cbn. f_equal. rewrite map_map. induction IH as [|x l E F IH]; [reflexivity|]. cbn. now rewrite E, IH.
Qed.

Definition key (e : bytes * bool * tree) : bytes := fst (fst e).
Lemma among_in ks k : among ks k = true <-> In k ks.
Proof.
  unfold among. rewrite existsb_exists. split.
  - intros (x & I & E). apply bytes_eqb_spec in E. now subst.
  - intros I. exists k. split; [exact I|]. now apply bytes_eqb_spec.
Qed.
Lemma among_not ks k : among ks k = false <-> ~ In k ks.
Proof. rewrite <- among_in. destruct (among ks k); intuition congruence. Qed.
Lemma same_eqb a b : (if same a b then true else false) = bytes_eqb a b.
Proof. destruct (same a b) as [->|N]; symmetry; [now apply bytes_eqb_spec|]. destruct (bytes_eqb a b) eqn:E; [|reflexivity]. apply bytes_eqb_spec in E. contradiction. Qed.

Section Tables.
  Implicit Types t x : tab.
  Definition marked_by (D : list bytes) t : Prop := Forall (fun e => snd (fst e) = among D (key e)) t.
  Definition tab_ok t : Prop := NoDup (keys t) /\ marked_by [] t.

  Lemma value_in k t : In k (keys t) <-> value k t <> None.
  Proof.
    induction t as [|((k', m), v) t IH]; cbn; [intuition|]. destruct (same k k') as [->|N]; [split; [discriminate|auto]|].
    rewrite <- IH. split; [intros [E|I]; [congruence|exact I]|auto].
  Qed.
  Lemma value_none k t : value k t = None <-> ~ In k (keys t).
  Proof. rewrite value_in. destruct (value k t); intuition congruence. Qed.
  Lemma value_app k t t' : value k (t ++ t') = orelse (value k t) (value k t').
  Proof. induction t as [|((k', m), v) t IH]; cbn; [reflexivity|]. destruct (same k k'); [reflexivity|exact IH]. Qed.
  Lemma value_mark k k' t : value k (mark k' t) = value k t.
  Proof. induction t as [|((a, m), v) t IH]; cbn; [reflexivity|]. destruct (same k' a); cbn; destruct (same k a); auto. Qed.
  Lemma value_of k t e : NoDup (keys t) -> In e t -> key e = k -> value k t = Some (snd e).
  Proof.
    induction t as [|((a, m), v) t IH]; cbn; [intros _ []|]. intros N I K. inversion N as [|? ? NI N']; subst.
    destruct I as [<-|I]; cbn [key fst snd].
    - destruct (same a a); congruence.
    - destruct (same (key e) a) as [E|_]; [|now apply IH]. exfalso. apply NI. rewrite <- E. now apply in_map.
  Qed.
  Lemma keys_mark k t : keys (mark k t) = keys t.
  Proof. unfold keys, mark. rewrite map_map. apply map_ext. intros e. destruct (same k (fst (fst e))); reflexivity. Qed.
  Lemma length_mark k t : length (mark k t) = length t.
  Proof. apply map_length. Qed.
  Lemma marked_mark D k t : marked_by D t -> marked_by (k :: D) (mark k t).
  Proof.
    intros H. induction H as [|e t E F IH]; [constructor|]. cbn. constructor; [|exact IH].
    unfold key. destruct (same k (fst (fst e))) as [->|N]; cbn [fst snd].
    - cbn. now rewrite (proj2 (bytes_eqb_spec _ _) eq_refl).
    - cbn. rewrite E. destruct (bytes_eqb (fst (fst e)) k) eqn:B; [apply bytes_eqb_spec in B; congruence|reflexivity].
  Qed.
  Lemma marked_ext D D' t : (forall k, In k D <-> In k D') -> marked_by D t -> marked_by D' t.
  Proof.
    intros H. unfold marked_by. rewrite !Forall_forall. intros F e I. rewrite (F e I). specialize (H (key e)). rewrite <- !among_in in H.
    destruct (among D (key e)), (among D' (key e)); intuition congruence.
  Qed.
  Lemma unmarked_by D t : marked_by D t -> unmarked t = map (fun e => (key e, snd e)) (filter (fun e => negb (among D (key e))) t).
  Proof.
    intros H. unfold unmarked, entries. f_equal. apply filter_ext_in. intros e I. cbn [andb]. unfold marked_by in H. rewrite Forall_forall in H. now rewrite (H e I).
  Qed.

  Definition inner_ok (v : tree) : Prop := match v with TH x => tab_ok x | _ => True end.
  Definition vok (v : tree) : Prop := match v with TH x => NoDup (keys x) | _ => True end.
  Lemma copy_ok v : vok v -> inner_ok (copy false v).
  Proof.
    destruct v as [| |x]; cbn; [auto|auto|]. intros N.
    assert (E : flat_map (fun e => [(fst (fst e), false, copy false (snd e))]) x = map (fun e => (fst (fst e), false, copy false (snd e))) x) by (clear; induction x as [|e x IH]; [reflexivity|]; cbn; now rewrite IH).
    rewrite E. split; [unfold keys; rewrite map_map; exact N|]. apply Forall_forall. intros e I. apply in_map_iff in I as (y & <- & _). reflexivity.
  Qed.
  (** A hash with what came down to it *)
  Definition grown (done : list bytes) (T : tab) (x x' : tab) : Prop :=
    exists ext, x' = x ++ ext /\ Forall (fun e => In (key e) done /\ snd (fst e) = false /\ inner_ok (snd e)) ext /\ NoDup (keys x') /\
      forall k, In k done -> oerase (value k x') = oerase (orelse (value k x) (value k T)).
  Definition erel (done : list bytes) (T : tab) (e e' : bytes * bool * tree) : Prop :=
    key e' = key e /\ snd (fst e') = among done (key e) /\
    match snd e with TH x => exists x', snd e' = TH x' /\ grown done T x x' | v => snd e' = v end.

  Lemma grown_step done T x x' k v : vok v -> ~ In k done -> oerase (Some v) = oerase (value k T) -> grown done T x x' -> grown (k :: done) T x (inherited k v x').
  Proof.
    intros VO ND V (ext & -> & F & N & R). unfold inherited.
    assert (VX : value k (x ++ ext) = value k x).
    { rewrite value_app. destruct (value k x); [reflexivity|]. cbn. apply value_none. intros I. apply in_map_iff in I as (e & E & I). rewrite Forall_forall in F. destruct (F e I) as (D & _). unfold key in D. rewrite E in D. contradiction. }
    assert (F' : Forall (fun e => In (key e) (k :: done) /\ snd (fst e) = false /\ inner_ok (snd e)) ext). { eapply Forall_impl; [|exact F]. cbn. intros e (A & B). auto. }
    destruct (value k (x ++ ext)) as [v'|] eqn:E.
    - exists ext. split; [reflexivity|]. split; [exact F'|]. split; [exact N|]. intros k' [->|I]; [|now apply R]. rewrite E, <- VX. reflexivity.
    - exists (ext ++ [(k, false, copy false v)]). split; [now rewrite app_assoc|]. split; [apply Forall_app; split; [exact F'|]; constructor; [|constructor]; cbn; split; [auto|]; split; [reflexivity|]; now apply copy_ok|].
      split. { unfold keys. rewrite map_app. apply Permutation_NoDup with (l := k :: keys (x ++ ext)). { apply Permutation_cons_append. } constructor; [now apply value_none|exact N]. }
      intros k' [->|I].
      + rewrite value_app, E. cbn [orelse value]. destruct (same k' k'); [|congruence]. cbn [oerase option_map]. rewrite erase_copy. rewrite <- VX. cbn [orelse]. exact V.
      + rewrite value_app, <- (R k' I). destruct (value k' (x ++ ext)) eqn:E'; [reflexivity|]. cbn [orelse value]. destruct (same k' k) as [->|_]; [contradiction|]. reflexivity.
  Qed.
  Lemma grown_none done T x x' k : ~ In k done -> value k T = None -> grown done T x x' -> grown (k :: done) T x x'.
  Proof.
    intros ND V (ext & -> & F & N & R). exists ext. split; [reflexivity|].
    split; [eapply Forall_impl; [|exact F]; cbn; intros e (A & B); auto|]. split; [exact N|]. intros k' [->|I]; [|now apply R].
    rewrite value_app, V. replace (value k' ext) with (@None tree); [destruct (value k' x); reflexivity|]. symmetry. apply value_none. intros I. apply in_map_iff in I as (e & E & I).
    rewrite Forall_forall in F. destruct (F e I) as (D & _). unfold key in D. rewrite E in D. contradiction.
  Qed.
  Lemma grown_start T x : tab_ok x -> grown [] T x x.
  Proof. intros (N & _). exists []. rewrite app_nil_r. split; [reflexivity|]. split; [constructor|]. split; [exact N|]. intros k []. Qed.
  Lemma grown_ext done done' T x x' : (forall k, In k done <-> In k done') -> grown done T x x' -> grown done' T x x'.
  Proof.
    intros H (ext & E & F & N & R). exists ext. split; [exact E|]. split; [eapply Forall_impl; [|exact F]; cbn; intros e (A & B); split; [now apply H|exact B]|]. split; [exact N|].
    intros k I. apply R. now apply H.
  Qed.
  Lemma grown_marks done T x x' : marked_by [] x -> grown done T x x' -> tab_ok x'.
  Proof. intros M (ext & -> & F & N & _). split; [exact N|]. apply Forall_app. split; [exact M|]. eapply Forall_impl; [|exact F]. cbn. intros e (_ & B & _). exact B. Qed.
  Lemma grown_other done T x x' k : ~ In k done -> grown done T x x' -> value k x' = value k x.
  Proof.
    intros ND (ext & -> & F & _). rewrite value_app. destruct (value k x); [reflexivity|]. cbn. apply value_none. intros I. apply in_map_iff in I as (e & E & I).
    rewrite Forall_forall in F. destruct (F e I) as (D & _). unfold key in D. rewrite E in D. contradiction.
  Qed.

  Lemma erel_value done T e e' : erel done T e e' -> erase (snd e') = erase (snd e).
  Proof. intros (_ & _ & V). destruct (snd e); [now rewrite V|now rewrite V|]. destruct V as (x' & -> & _). reflexivity. Qed.

  Lemma erel_vok done T e e' : erel done T e e' -> vok (snd e').
  Proof. intros (_ & _ & V). destruct (snd e); [now rewrite V|now rewrite V|]. destruct V as (x' & -> & (? & _ & _ & N & _)). exact N. Qed.
  Lemma hand_down_ok done T k : ~ In k done -> forall ts t, Forall2 (erel done T) ts t -> forall v, (forall e, In e ts -> key e = k -> value k T = Some (snd e)) ->
    vok v -> oerase (Some v) = oerase (value k T) -> Forall2 (erel (k :: done) T) ts (hand_down k v (mark k t)).
  Proof.
    intros ND ts t H. induction H as [|e e' ts t (K & M & V) H IH]; intros v U VO E; [constructor|]. cbn [mark map hand_down].
    set (e1 := if same k (fst (fst e')) then (fst (fst e'), true, snd e') else e').
    assert (S1 : snd e1 = snd e') by (unfold e1; destruct (same k (fst (fst e'))); reflexivity).
    assert (K1 : fst (fst e1) = key e) by (unfold e1; destruct (same k (fst (fst e'))); exact K).
    assert (M1 : snd (fst e1) = among (k :: done) (key e)).
    { cbn. fold (among done (key e)). unfold e1. fold (key e'). rewrite K. destruct (same k (key e)) as [<-|N]; cbn [fst snd].
      - now rewrite (proj2 (bytes_eqb_spec k k) eq_refl).
      - rewrite M. destruct (bytes_eqb (key e) k) eqn:B; [apply bytes_eqb_spec in B; congruence|reflexivity]. }
    assert (R : erel (k :: done) T e (match snd e1 with TH es => (fst e1, TH (inherited k v es)) | _ => e1 end)).
    { rewrite S1. destruct (snd e) as [r s|l|x] eqn:ES.
      - rewrite V. split; [exact K1|]. split; [exact M1|]. rewrite ES, S1, V. reflexivity.
      - rewrite V. split; [exact K1|]. split; [exact M1|]. rewrite ES, S1, V. reflexivity.
      - destruct V as (x' & V & G). rewrite V. split; [exact K1|]. split; [exact M1|]. rewrite ES. cbn [snd]. exists (inherited k v x'). split; [reflexivity|]. now apply grown_step. }
    constructor; [exact R|]. apply IH; [intros; apply U; cbn; auto| |].
    { destruct (same k (fst (fst e1))) as [E1|_]; [|exact VO]. eapply erel_vok. exact R. }
    destruct (same k (fst (fst e1))) as [E1|_]; [|exact E]. rewrite (U e (or_introl eq_refl)) by congruence. cbn [oerase option_map]. f_equal. eapply erel_value. exact R.
  Qed.

  Definition some {A} (o : option A) : bool := match o with Some _ => true | None => false end.
  Lemma evolved_keys done T' T t : Forall2 (erel done T') T t -> keys t = keys T.
  Proof. induction 1 as [|e e' ts t R H IH]; [reflexivity|]. cbn. f_equal; [apply R|exact IH]. Qed.
  Lemma evolved_value done T' T t k : Forall2 (erel done T') T t -> oerase (value k t) = oerase (value k T).
  Proof.
    induction 1 as [|e e' ts t R H IH]; [reflexivity|]. destruct e as [[a m] v], e' as [[a' m'] v']. pose proof (erel_value _ _ _ _ R) as EV. destruct R as (K & _). cbn in K, EV. subst a'. cbn.
    destruct (same k a); [|exact IH]. cbn. now rewrite EV.
  Qed.
  Lemma evolved_none done T' T t k : Forall2 (erel done T') T t -> some (value k t) = some (value k T).
  Proof. intros H. pose proof (evolved_value _ _ _ _ k H) as E. destruct (value k t), (value k T); try reflexivity; discriminate. Qed.

  Lemma evolved_vok done T' T t k v : Forall2 (erel done T') T t -> value k t = Some v -> vok v.
  Proof.
    induction 1 as [|e e' ts t R H IH]; [discriminate|]. destruct e' as [[a' m'] v']. pose proof (erel_vok _ _ _ _ R) as EV. cbn in *. destruct (same k a'); [intros [= <-]; exact EV|exact IH].
  Qed.
  Lemma bequeath_all_ok T : NoDup (keys T) -> forall ks done t, NoDup ks -> (forall k, In k ks -> ~ In k done) -> Forall2 (erel done T) T t ->
    exists t', bequeath_all ks t = (length (filter (fun k => some (value k T)) ks), t') /\ Forall2 (erel (rev ks ++ done) T) T t'.
  Proof.
    intros N ks. induction ks as [|k ks IH]; intros done t NK ND H; [exists t; split; [reflexivity|exact H]|].
    inversion NK as [|? ? NI NK']; subst. cbn [bequeath_all filter]. unfold bequeath. pose proof (evolved_value _ _ _ _ k H) as EV.
    assert (G : exists t1, (match value k t with Some v => (true, hand_down k v (mark k t)) | None => (false, t) end) = (some (value k T), t1) /\ Forall2 (erel (k :: done) T) T t1).
    { destruct (value k t) as [v|] eqn:E.
      - exists (hand_down k v (mark k t)). split; [destruct (value k T); [reflexivity|discriminate]|]. apply hand_down_ok; [apply ND; cbn; auto|exact H| | |exact EV].
        { intros e I K. now apply value_of. }
        eapply evolved_vok; eauto.
      - assert (VN : value k T = None) by (destruct (value k T); [discriminate|reflexivity]). exists t. split; [now rewrite VN|].
        assert (NI' : ~ In k (keys T)) by now apply value_none. assert (ND' : ~ In k done) by (apply ND; cbn; auto).
        assert (X : forall e, In e T -> key e <> k) by (intros e I EK; apply NI'; rewrite <- EK; now apply in_map).
        assert (G : forall ts, Forall2 (erel done T) ts t -> (forall e, In e ts -> key e <> k) -> Forall2 (erel (k :: done) T) ts t); [|now apply G].
        clear H X EV E IH. intros ts H. induction H as [|e e' ts t (K & M & V) H IH]; intros X; [constructor|]. constructor; [|apply IH; intros; apply X; cbn; auto].
        split; [exact K|]. split. { cbn. fold (among done (key e)). destruct (bytes_eqb (key e) k) eqn:B; [|exact M]. apply bytes_eqb_spec in B. exfalso. eapply X; [|exact B]. cbn; auto. }
        destruct (snd e) as [| |x]; [exact V|exact V|]. destruct V as (x' & V & G). exists x'. split; [exact V|]. now apply grown_none. }
    destruct G as (t1 & -> & G). destruct (IH (k :: done) t1 NK') as (t' & E & R); [|exact G|].
    - intros k' I [<-|J]; [contradiction|]. eapply ND; [|exact J]. cbn; auto.
    - rewrite E. exists t'. split; [destruct (some (value k T)); reflexivity|]. cbn [rev]. rewrite <- app_assoc. exact R.
  Qed.

  (** All keys at once *)
  Theorem bequeath_all_spec ks T : NoDup ks -> tab_ok T -> Forall (fun e => inner_ok (snd e)) T ->
    exists t', bequeath_all ks T = (length (filter (fun k => some (value k T)) ks), t') /\ Forall2 (erel ks T) T t'.
  Proof.
    intros NK (N & M) I. destruct (bequeath_all_ok T N ks [] T NK) as (t' & E & R).
    - intros k _ [].
    - assert (G : forall ts, marked_by [] ts -> Forall (fun e => inner_ok (snd e)) ts -> Forall2 (erel [] T) ts ts); [|now apply G].
      clear. intros ts. induction 1 as [|e t ME M IH]; intros I; [constructor|]. inversion I; subst. constructor; [|now apply IH].
      split; [reflexivity|]. split; [exact ME|]. destruct (snd e) eqn:ES; try reflexivity. eexists. split; [reflexivity|]. apply grown_start. match goal with X : inner_ok _ |- _ => exact X end.
    - exists t'. split; [exact E|]. rewrite app_nil_r in R. assert (X : forall k, In k (rev ks) <-> In k ks) by (intros; symmetry; apply in_rev).
      assert (G : forall ts, Forall2 (erel (rev ks) T) ts t' -> Forall2 (erel ks T) ts t'); [|now apply G].
      clear -X. intros ts R. induction R as [|e e' ts t (K & M & V) H IH]; [constructor|]. constructor; [|exact IH]. split; [exact K|]. split.
      + rewrite M. specialize (X (key e)). rewrite <- !among_in in X. destruct (among (rev ks) (key e)), (among ks (key e)); intuition congruence.
      + destruct (snd e) as [| |x]; [exact V|exact V|]. destruct V as (x' & V & G). exists x'. split; [exact V|]. eapply grown_ext; [|exact G]. exact X.
  Qed.

  (** As many entries are parameters as there are parameters *)
  Lemma count_params ks t : NoDup ks -> NoDup (keys t) ->
    length (filter (fun k => some (value k t)) ks) + length (filter (fun e => negb (among ks (key e))) t) = length t.
  Proof.
    intros NK N. assert (L : length (filter (fun k => some (value k t)) ks) = length (filter (fun e => among ks (key e)) t)).
    { rewrite <- (map_length key (filter _ t)). apply Permutation_length. apply NoDup_Permutation.
      - now apply NoDup_filter.
      - clear NK. induction t as [|e t IH]; [constructor|]. cbn in N. inversion N as [|? ? NI N']; subst. cbn [filter]. destruct (among ks (key e)); [|now apply IH]. cbn [map]. constructor; [|now apply IH].
        intros I. apply NI. apply in_map_iff in I as (e' & E & I). apply filter_In in I as (I & _). fold (key e). rewrite <- E. now apply in_map.
      - intros k. rewrite filter_In, in_map_iff. split.
        + intros (I & S). assert (VN : value k t <> None) by (destruct (value k t); [discriminate|cbn in S; discriminate]). apply value_in in VN. apply in_map_iff in VN as (e & E & J).
          exists e. split; [exact E|]. apply filter_In. split; [exact J|]. apply among_in. unfold key. now rewrite E.
        + intros (e & <- & I). apply filter_In in I as (I & A). apply among_in in A. split; [exact A|]. rewrite (value_of (key e) t e N I eq_refl). reflexivity. }
    rewrite L. clear. induction t as [|e t IH]; [reflexivity|]. cbn [filter]. destruct (among ks (key e)); cbn [length negb]; lia.
  Qed.
End Tables.

(** ** From what was read *)
Definition ftab (h : hash) : tab := map (fun e => (fst e, false, fresh (snd e))) h.
Lemma fresh_hash h : fresh (VH h) = TH (ftab h).
Proof. reflexivity. Qed.
Lemma ftab_keys h : keys (ftab h) = map fst h.
Proof. unfold keys, ftab. rewrite map_map. reflexivity. Qed.
Lemma ftab_marks h : marked_by [] (ftab h).
Proof. unfold ftab, marked_by. apply Forall_forall. intros e I. apply in_map_iff in I as (x & <- & _). reflexivity. Qed.
Lemma ftab_value k h : value k (ftab h) = option_map fresh (get k h).
Proof. induction h as [|(k', v) h IH]; [reflexivity|]. cbn. rewrite <- same_eqb. destruct (same k k'); [reflexivity|exact IH]. Qed.
Lemma ftab_ok h : distinct (VH h) -> tab_ok (ftab h) /\ Forall (fun e => inner_ok (snd e)) (ftab h).
Proof.
  intros D. inversion D as [| |? N F]; subst. split; [split; [now rewrite ftab_keys|apply ftab_marks]|].
  unfold ftab. apply Forall_forall. intros e I. apply in_map_iff in I as (x & <- & I). cbn. rewrite Forall_forall in F. specialize (F x I). destruct (snd x) as [| |h'] eqn:E; cbn; [exact Logic.I|exact Logic.I|].
  inversion F as [| |? N' _]; subst. split; [fold (ftab h'); now rewrite ftab_keys|apply ftab_marks].
Qed.
Lemma get_distinct k h v : distinct (VH h) -> get k h = Some v -> distinct v.
Proof.
  intros D. inversion D as [| |? N F]; subst. clear N D. induction F as [|e h E F IH]; [discriminate|]. destruct e as [k' v']. cbn. destruct (bytes_eqb k k'); [intros [= <-]; exact E|exact IH].
Qed.
(** A parameter [o] is what the hashes [hs] say *)
Definition as_said (k : bytes) (hs : list hash) (o : option tree) : Prop := oerase o = oerase (option_map fresh (setting k hs)).
Lemma said_own k h x ks T hs : In k ks -> grown ks T (ftab h) x -> as_said k hs (value k T) -> as_said k (h :: hs) (value k x).
Proof.
  intros I (ext & _ & _ & _ & R) S. unfold as_said. rewrite (R k I), ftab_value. cbn [setting]. destruct (get k h); [reflexivity|]. cbn [option_map orelse]. exact S.
Qed.
Lemma said_top k h : as_said k [h] (value k (ftab h)).
Proof. unfold as_said. rewrite ftab_value. cbn. destruct (get k h); reflexivity. Qed.

(** The entries that are not parameters *)
Lemma others_ftab ks h : map (fun e => (key e, snd e)) (filter (fun e => negb (among ks (key e))) (ftab h)) = map (fun e => (fst e, fresh (snd e))) (others ks h).
Proof.
  unfold ftab, others. induction h as [|e h IH]; [reflexivity|]. cbn [map filter]. change (key (fst e, false, fresh (snd e))) with (fst e). destruct (among ks (fst e)); cbn [negb map]; [exact IH|]. f_equal. exact IH.
Qed.
Lemma filter_ext_out ks (ext : tab) : Forall (fun e => In (key e) ks) ext -> filter (fun e => negb (among ks (key e))) ext = [].
Proof. induction 1 as [|e ext I F IH]; [reflexivity|]. cbn. apply among_in in I. rewrite I. exact IH. Qed.
Lemma others_grown ks ks' T h x : (forall k, In k ks -> In k ks') -> grown ks T (ftab h) x ->
  map (fun e => (key e, snd e)) (filter (fun e => negb (among ks' (key e))) x) = map (fun e => (fst e, fresh (snd e))) (others ks' h).
Proof.
  intros S (ext & -> & F & _). rewrite filter_app, map_app, others_ftab. rewrite filter_ext_out; [now rewrite app_nil_r|]. eapply Forall_impl; [|exact F]. cbn. intros e (A & B). auto.
Qed.
