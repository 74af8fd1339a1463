(** Lists of datacenters and maps of places *)
From Coq Require Import ZArith String.
From Verif Require Import Base CompModel CompProofs DnameModel RespModel MonModel VscfModel VscfSpec OptModel VhashModel VhashSpec VhashProofs2 PlugModel MsgModel LtreeModel PconfModel PconfSpec PconfProofs2 PconfProofs3 McfModel McfSpec McfProofs GmapModel GmapSpec.
From Verif Require LocModel LocSpec LocProofs LocProofs2.
Local Open Scope list_scope.
Local Open Scope nat_scope.
Local Notation length := List.length.
Ltac Zify.zify_post_hook ::= idtac.

Lemma beq_refl (a : bytes) : bytes_eqb a a = true.
Proof. now apply bytes_eqb_spec. Qed.
Lemma name_eqb_is a b : LocModel.name_eqb a b = bytes_eqb a b.
Proof.
  unfold LocModel.name_eqb. destruct (list_eq_dec N.eq_dec a b) as [->|NE]; [now rewrite beq_refl|]. destruct (bytes_eqb a b) eqn:B; [apply bytes_eqb_spec in B; congruence|reflexivity].
Qed.
Lemma all_length {A B} (f : A -> option B) l r : all f l = Some r -> length r = length l.
Proof. revert r. induction l as [|a l IH]; intros r E; cbn [all] in E; [now injection E as <-|]. destruct (f a); [|discriminate]. destruct (all f l) as [bs|]; [|discriminate]. injection E as <-. cbn. now rewrite (IH _ eq_refl). Qed.
Lemma all_none {A B} (f : A -> option B) l : all f l = None -> exists a, In a l /\ f a = None.
Proof. induction l as [|a l IH]; cbn [all]; [discriminate|]. destruct (f a) eqn:E; [|intros _; exists a; cbn; auto]. destruct (all f l); [discriminate|]. intros _. destruct (IH eq_refl) as (x & I & X). exists x. cbn. auto. Qed.
Lemma all_f2 {A B} (f : A -> option B) l r : all f l = Some r -> Forall2 (fun a b => f a = Some b) l r.
Proof. revert r. induction l as [|a l IH]; intros r E; cbn [all] in E; [injection E as <-; constructor|]. destruct (f a) eqn:EF; [|discriminate]. destruct (all f l) as [bs|]; [|discriminate]. injection E as <-. constructor; auto. Qed.

Lemma items_fresh x : items (fresh x) = map fresh (elements x).
Proof. now destruct x. Qed.
Lemma labels_len x : length (labels (fresh x)) = length (elements x).
Proof. unfold labels. rewrite map_length, items_fresh, map_length. reflexivity. Qed.
Lemma labels_some x l : strings x = Some l -> labels (fresh x) = l.
Proof.
  unfold strings, labels. rewrite items_fresh. revert l. induction (elements x) as [|y ys IH]; intros l E; cbn [all] in E; [now injection E as <-|]. destruct y as [r v|?|?]; try discriminate. destruct (all _ ys) as [bs|]; [|discriminate]. injection E as <-. cbn [map fresh label]. f_equal. now apply IH.
Qed.
Lemma labels_none x : strings x = None -> In [0%N] (labels (fresh x)).
Proof.
  unfold strings, labels. rewrite items_fresh. intros E. apply all_none in E as (y & I & E). apply in_map_iff. exists (fresh y). split; [|apply in_map; exact I]. destruct y; [discriminate|reflexivity|reflexivity].
Qed.
Lemma c_str_nz s : ~ In 0%N (c_str s).
Proof. induction s as [|c s IH]; cbn; [auto|]. destruct (c =? 0)%N eqn:B; [cbn; auto|]. intros [->|I]; [discriminate|auto]. Qed.

Lemma NoDup_app_snoc {A} (l : list A) x : NoDup l -> ~ In x l -> NoDup (l ++ [x]).
Proof. intros N I. apply (NoDup_Add (a := x) (l := l)); [|auto]. rewrite <- (app_nil_r l) at 1. apply Add_app. Qed.
Lemma find_list_none new : forall d k, LocModel.find_list d k new = None -> ~ In new d.
Proof. induction d as [|x d IH]; intros k E; cbn [LocModel.find_list] in E; [auto|]. destruct (list_eq_dec Nat.eq_dec x new); [discriminate|]. intros [->|I]; [congruence|]. now apply (IH _ E). Qed.
Lemma add_one d new : exists i t, LocModel.find_or_add d new = (i, d ++ t) /\ nth_error (d ++ t) i = Some new /\ length t <= 1 /\ (NoDup d -> NoDup (d ++ t)).
Proof.
  unfold LocModel.find_or_add. destruct (LocModel.find_list d 0 new) as [i|] eqn:E.
  - exists i, []. rewrite app_nil_r. split; [reflexivity|]. apply LocProofs.find_list_ok in E. rewrite Nat.sub_0_r in E. split; [apply E|]. split; [cbn; lia|auto].
  - exists (length d), [new]. split; [reflexivity|]. rewrite nth_error_app2, Nat.sub_diag by (apply le_n). split; [reflexivity|]. split; [cbn; lia|]. intros ND. apply NoDup_app_snoc; auto. now apply find_list_none in E.
Qed.

Lemma find_list_first new : forall d k j, LocModel.find_list d k new = Some j -> forall i, i < j - k -> nth_error d i <> Some new.
Proof.
  induction d as [|x d IH]; intros k j; cbn [LocModel.find_list]; [discriminate|]. destruct (list_eq_dec Nat.eq_dec x new) as [E|E].
  - intros [= <-] i L. lia.
  - intros F i L. destruct i as [|i]; cbn [nth_error].
    + intros [= X]. now apply E.
    + apply (IH _ _ F). lia.
Qed.
Lemma foa_first (i : LocModel.dcinfo point) d l a j d' : LocModel.find_or_add_cfg i d l a = Ok (Some (LocModel.Num j, d')) -> forall k, k < j -> nth_error d' k <> nth_error d' j.
Proof.
  unfold LocModel.find_or_add_cfg. destruct (LocModel.xlate i l a) as [[[r|]|]|]; cbn [rbind]; try discriminate. unfold LocModel.find_or_add. destruct (LocModel.find_list d 0 r) as [n|] eqn:E.
  - intros [= -> <-] k L. pose proof (find_list_first _ _ _ _ E k ltac:(lia)) as F. apply LocProofs.find_list_ok in E as (_ & E). rewrite Nat.sub_0_r in E. now rewrite E.
  - intros [= <- <-] k L. rewrite nth_error_app1 by exact L. rewrite nth_error_app2, Nat.sub_diag by (apply le_n). cbn [nth_error]. intros X. apply find_list_none in E. apply E. eapply nth_error_In; eauto.
Qed.

Section Lists.
  Variable i : LocModel.dcinfo point.
  Let names := LocModel.i_names i.
  Hypothesis NZ : Forall (fun n => ~ In 0%N n) names.
  Hypothesis NA : among names t_auto = false.

  Lemma index_among n : forall l k, LocModel.index_name n l k = None <-> among l n = false.
  Proof.
    induction l as [|x l IH]; intros k; cbn [LocModel.index_name among existsb]; [split; reflexivity|]. rewrite name_eqb_is. destruct (bytes_eqb n x); cbn [orb]; [split; discriminate|apply IH].
  Qed.
  Lemma num_zero n : LocModel.name2num i n = 0 <-> among names n = false.
  Proof. unfold LocModel.name2num. rewrite <- (index_among n names 0). destruct (LocModel.index_name n (LocModel.i_names i) 0) eqn:E; fold names in E; rewrite E; split; congruence. Qed.
  Lemma index_first n : forall l k j, LocModel.index_name n l k = Some j -> forall q, q < j - k -> nth_error l q <> Some n.
  Proof.
    induction l as [|x l IH]; intros k j E q L; cbn [LocModel.index_name] in E; [discriminate|]. rewrite name_eqb_is in E. destruct (bytes_eqb n x) eqn:B.
    - injection E as <-. lia.
    - destruct q as [|q]; cbn [nth_error].
      + intros [= ->]. rewrite beq_refl in B. discriminate.
      + apply (IH _ _ E). lia.
  Qed.
  Lemma num_nth n : among names n = true -> numbered names n (LocModel.name2num i n).
  Proof.
    intros A. unfold LocModel.name2num. destruct (LocModel.index_name n (LocModel.i_names i) 0) as [j|] eqn:E.
    - pose proof E as E0. fold names in E0. apply LocProofs.index_name_nth in E as (_ & E). rewrite Nat.sub_0_r in E. split; [lia|]. cbn [Nat.sub]. rewrite Nat.sub_0_r. split; [exact E|]. intros q LQ. apply (index_first n names 0 j E0). lia.
    - apply index_among in E. fold names in E. congruence.
  Qed.
  Lemma zero_no : among names [0%N] = false.
  Proof. apply among_not. intros I. rewrite Forall_forall in NZ. apply (NZ _ I). now left. Qed.
  Lemma xlate_names_is l : forall k, k + length l <= 255 -> LocModel.xlate_names i l k = Ok (if forallb (among names) l then Some (LocSpec.numbers i l) else None).
  Proof.
    induction l as [|n l IH]; intros k L; cbn [LocModel.xlate_names forallb length] in *.
    - unfold rassert. destruct (Nat.ltb_spec k 256); [reflexivity|lia].
    - destruct (LocModel.name2num i n) as [|x] eqn:E.
      + apply num_zero in E. rewrite E. reflexivity.
      + destruct (among names n) eqn:A; [|apply num_zero in A; congruence]. cbn [andb]. unfold rassert. destruct (Nat.ltb_spec k 256); [|lia]. rewrite IH by lia. cbn [rbind]. destruct (forallb (among names) l); [|reflexivity]. unfold LocSpec.numbers. cbn [map]. now rewrite E.
  Qed.
  Lemma xlate_says auto x : length (elements x) <= 255 -> exists o, LocModel.xlate i (labels (fresh x)) auto = Ok o /\
    match list_says names auto x with
    | Some l => labels (fresh x) = l /\ o = Some (LocSpec.rule_of i auto l) /\ (auto = false -> Forall (fun n => among names n = true) l)
    | None => o = None
    end.
  Proof.
    intros L. rewrite <- labels_len in L. unfold LocModel.xlate, list_says, LocSpec.rule_of; change LocModel.name with (list N) in *. destruct (strings x) as [l|] eqn:ES; cbn [obind].
    - apply labels_some in ES. rewrite ES in L |- *. rewrite xlate_names_is by (cbn [Nat.add]; exact L). cbn [rbind]; change LocModel.name with (list N) in *. change LocModel.auto_name with t_auto.
      destruct ((length l =? 1) && auto && match l with [n] => LocModel.name_eqb n t_auto | _ => false end) eqn:B.
      + apply andb_prop in B as (B1 & B2). apply andb_prop in B1 as (B1 & ->). eexists. split; [reflexivity|]. destruct l as [|n [|]]; try discriminate. rewrite name_eqb_is in *. cbn [andb]. rewrite B2, orb_true_r. cbn [need obind]. split; [reflexivity|]. split; [rewrite ?name_eqb_is, B2; reflexivity|discriminate].
      + eexists. split; [reflexivity|]. destruct (forallb (among names) l) eqn:F; cbn [orb need obind].
        * split; [reflexivity|]. split.
          -- destruct (auto && match l with [n] => LocModel.name_eqb n t_auto | _ => false end) eqn:B'; [|reflexivity]. exfalso. apply andb_prop in B' as (-> & B'). destruct l as [|n [|]]; try discriminate. cbn [length Nat.eqb andb] in B. congruence.
          -- intros _. apply Forall_forall. now apply forallb_forall.
        * destruct (auto && match l with [n] => bytes_eqb n t_auto | _ => false end) eqn:B'; cbn [need obind]; [|reflexivity]. exfalso. apply andb_prop in B' as (-> & B'). destruct l as [|n [|]]; try discriminate. rewrite name_eqb_is in B. cbn [length Nat.eqb andb] in B. congruence.
    - apply labels_none in ES. set (l := labels (fresh x)) in *.
      assert (F : forallb (among names) l = false). { destruct (forallb (among names) l) eqn:F; [|reflexivity]. rewrite forallb_forall in F. pose proof zero_no as Z. specialize (F _ ES). congruence. }
      assert (B : match l with [n] => LocModel.name_eqb n LocModel.auto_name | _ => false end = false). { destruct l as [|n [|]]; try reflexivity. destruct ES as [->|[]]. reflexivity. }
      rewrite B, andb_false_r, xlate_names_is by (cbn [Nat.add]; exact L). rewrite F. cbn [rbind]. eauto.
  Qed.
  Lemma foa_says auto x d : length (elements x) <= 255 ->
    match list_says names auto x with
    | Some l => labels (fresh x) = l /\ (auto = false -> Forall (fun n => among names n = true) l) /\ exists n t, LocModel.find_or_add_cfg i d l auto = Ok (Some (n, d ++ t)) /\ LocProofs2.num_ok (d ++ t) n (LocSpec.rule_of i auto l) /\ length t <= 1 /\ (NoDup d -> NoDup (d ++ t))
    | None => LocModel.find_or_add_cfg i d (labels (fresh x)) auto = Ok None
    end.
  Proof.
    intros L. destruct (xlate_says auto x L) as (o & E & S). unfold LocModel.find_or_add_cfg. destruct (list_says names auto x) as [l|].
    - destruct S as (EL & -> & A). split; [exact EL|]. split; [exact A|]. subst l. rewrite E. cbn [rbind]. destruct (LocSpec.rule_of i auto (labels (fresh x))) as [r|] eqn:ER.
      + destruct (add_one d r) as (j & t & EF & EN & LT & ND). rewrite EF. exists (LocModel.Num j), t. split; [reflexivity|]. split; [exact EN|]. split; [exact LT|exact ND].
      + exists LocModel.Auto, []. rewrite app_nil_r. split; [reflexivity|]. split; [exact I|]. split; [cbn; lia|auto].
    - subst o. rewrite E. reflexivity.
  Qed.

  (** ** Maps *)
  Definition mgo := fix go (es : list (bytes * bool * tree)) : LocModel.entries :=
    match es with
    | [] => LocModel.ENone
    | (k, m, y) :: es' =>
        if m || bytes_eqb k_default k then go es'
        else match y with
             | TH _ => LocModel.ESub (c_str k) (map_data y) (go es')
             | _ => LocModel.EList (c_str k) (labels y) (go es')
             end
    end.
  Lemma map_data_eq t : map_data (TH t) = LocModel.Hash (option_map labels (value k_default t)) (mgo t).
  Proof. reflexivity. Qed.
  Variable auto : bool.
  Definition pgo := fix go (es : list (bytes * vnode)) : option LocModel.entries :=
    match es with
    | [] => Some LocModel.ENone
    | (k, y) :: es' =>
        if bytes_eqb k_default k then go es'
        else match y with
             | VH _ => let? m <- places names auto y ; let? r <- go es' ; Some (LocModel.ESub (c_str k) m r)
             | _ => let? l <- list_says names auto y ; let? r <- go es' ; Some (LocModel.EList (c_str k) l r)
             end
    end.
  Lemma places_eq h : places names auto (VH h) =
    let? def <- match get k_default h with None => Some None | Some y => let? l <- list_says names auto y ; Some (Some l) end ;
    let? es <- pgo h ; Some (LocModel.Hash def es).
  Proof. reflexivity. Qed.

  Definition makes (m : LocModel.mapcfg) : Prop := forall d p k, exists dm d', LocModel.dcmap_new i auto m d p k = Ok (Some (dm, d')).
  Definition makes_es (es : LocModel.entries) : Prop := forall d p k, exists cs d', LocModel.new_entries i auto es d p k = Ok (Some (cs, d')).
  Lemma hash_or y : (exists h, y = VH h) \/ (forall h, y <> VH h).
  Proof. destruct y; [right|right|left; eauto]; discriminate. Qed.
  Lemma short_elements y : short y -> (forall h, y <> VH h) -> length (elements y) <= 255.
  Proof. intros S N. inversion S; subst; [exfalso; now apply (N h)|assumption]. Qed.
  Lemma default_list_hash h l : list_says names auto (VH h) = Some l -> False.
  Proof. unfold list_says, strings. cbn [elements all obind]. discriminate. Qed.
  Lemma hash_labels h : labels (fresh (VH h)) = [[0%N]].
  Proof. reflexivity. Qed.
  Lemma short_list y : short y -> length (elements y) <= 255.
  Proof. destruct (hash_or y) as [(h & ->)|N]; [intros _; cbn; lia|]. intros S. now apply short_elements. Qed.
  Definition defstep (l : list LocModel.name) (d : LocModel.dclists) (k : nat) : res (option (LocModel.num * LocModel.dclists)) :=
    if k =? 0 then do x <- LocModel.xlate i l auto; match x with None => Ok None | Some None => Ok (Some (LocModel.Auto, d)) | Some (Some r) => Ok (Some (LocModel.Num 0, upd d 0 r)) end
    else LocModel.find_or_add_cfg i d l auto.
  Lemma dcmap_some l es d p k : LocModel.dcmap_new i auto (LocModel.Hash (Some l) es) d p k =
    do o <- defstep l d k;
    match o with
    | None => Ok None
    | Some (def, d) => do o <- LocModel.new_entries i auto es d def k; Ok (match o with Some (cs, d) => Some (LocModel.DMap def cs, d) | None => None end)
    end.
  Proof. reflexivity. Qed.
  Theorem places_exact x : short x -> (exists h, x = VH h) ->
    match places names auto x with
    | Some m => map_data (fresh x) = m /\ makes m
    | None => forall d p k, LocModel.dcmap_new i auto (map_data (fresh x)) d p k = Ok None
    end.
  Proof.
    induction x as [r v|l IH|h IH] using vnode_ind'; intros S (h0 & E); try discriminate. clear h0 E.
    assert (SF : Forall (fun e => short (snd e)) h). { inversion S; subst; [assumption|]. match goal with H : forall h, _ <> _ |- _ => exfalso; now apply (H h) end. }
    change (fresh (VH h)) with (TH (ftab h)). rewrite places_eq, map_data_eq, ftab_value.
    assert (ES : match pgo h with
                 | Some es => mgo (ftab h) = es /\ makes_es es
                 | None => forall d p k, LocModel.new_entries i auto (mgo (ftab h)) d p k = Ok None
                 end).
    { clear S. induction h as [|(k, y) h IHh]; [split; [reflexivity|]; intros d p k; cbn; eauto|]. inversion IH as [|? ? IHy IH']; subst. inversion SF as [|? ? Sy SF']; subst. cbn [snd] in *. specialize (IHh IH' SF').
      change (ftab ((k, y) :: h)) with ((k, false, fresh y) :: ftab h). cbn [mgo pgo orb]. destruct (bytes_eqb k_default k); [exact IHh|].
      destruct (hash_or y) as [(hy & ->)|NH].
      - specialize (IHy Sy (ex_intro _ hy eq_refl)). cbn [fresh] in *. destruct (places names auto (VH hy)) as [m|] eqn:EP; cbn [obind].
        + destruct IHy as (-> & MK). destruct (pgo h) as [es|]; cbn [obind].
          * destruct IHh as (-> & ME). split; [reflexivity|]. intros d p q. rewrite LocProofs2.new_sub_eq. destruct (MK d p (S q)) as (dm & d1 & ->). cbn [rbind]. destruct (ME d1 p q) as (cs & d2 & ->). cbn [rbind]. eauto.
          * intros d p q. rewrite LocProofs2.new_sub_eq. destruct (MK d p (S q)) as (dm & d1 & ->). cbn [rbind]. rewrite IHh. reflexivity.
        + intros d p q. rewrite LocProofs2.new_sub_eq, IHy. reflexivity.
      - assert (GM : (match fresh y with TH _ => LocModel.ESub (c_str k) (map_data (fresh y)) (mgo (ftab h)) | _ => LocModel.EList (c_str k) (labels (fresh y)) (mgo (ftab h)) end) = LocModel.EList (c_str k) (labels (fresh y)) (mgo (ftab h))) by (destruct y as [? ?|?|hy]; [reflexivity|reflexivity|now destruct (NH hy)]).
        rewrite GM. assert (GP : (match y with VH _ => let? m <- places names auto y ; let? r <- pgo h ; Some (LocModel.ESub (c_str k) m r) | _ => let? l <- list_says names auto y ; let? r <- pgo h ; Some (LocModel.EList (c_str k) l r) end) = (let? l <- list_says names auto y ; let? r <- pgo h ; Some (LocModel.EList (c_str k) l r))) by (destruct y as [? ?|?|hy]; [reflexivity|reflexivity|now destruct (NH hy)]).
        rewrite GP. clear GM GP. pose proof (fun d => foa_says auto y d (short_elements y Sy NH)) as F. destruct (list_says names auto y) as [l|]; cbn [obind].
        + destruct (F []) as (EL & _). rewrite EL. destruct (pgo h) as [es|]; cbn [obind].
          * destruct IHh as (-> & ME). split; [reflexivity|]. intros d p q. rewrite LocProofs2.new_list_eq. destruct (F d) as (_ & _ & n & t & -> & _). cbn [rbind]. destruct (ME (d ++ t) p q) as (cs & d2 & ->). cbn [rbind]. eauto.
          * intros d p q. rewrite LocProofs2.new_list_eq. destruct (F d) as (_ & _ & n & t & -> & _). cbn [rbind]. rewrite IHh. reflexivity.
        + intros d p q. rewrite LocProofs2.new_list_eq, F. reflexivity. }
    destruct (get k_default h) as [y|] eqn:ED; cbn [option_map].
    - assert (SY : length (elements y) <= 255). { apply short_list. rewrite Forall_forall in SF. apply get_some_in in ED. apply (SF _ ED). }
      destruct (xlate_says auto y SY) as (o & EX & XS). pose proof (fun d => foa_says auto y d SY) as F. destruct (list_says names auto y) as [l|]; cbn [obind].
      + destruct XS as (EL & -> & _). rewrite EL in *.
        assert (DEF : forall d k, exists def d', defstep l d k = Ok (Some (def, d'))).
        { intros d k. unfold defstep. destruct (k =? 0); [rewrite EX; cbn [rbind]; destruct (LocSpec.rule_of i auto l); eauto|]. destruct (F d) as (_ & _ & n & t & -> & _). eauto. }
        destruct (pgo h) as [es|]; cbn [obind].
        * destruct ES as (-> & ME). split; [reflexivity|]. intros d p k. rewrite dcmap_some. destruct (DEF d k) as (def & d' & ->). cbn [rbind]. destruct (ME d' def k) as (cs & d2 & ->). cbn [rbind]. eauto.
        * intros d p k. rewrite dcmap_some. destruct (DEF d k) as (def & d' & ->). cbn [rbind]. rewrite ES. reflexivity.
      + subst o. intros d p k. rewrite dcmap_some. unfold defstep. destruct (k =? 0); [rewrite EX|rewrite F]; reflexivity.
    - cbn [obind]. destruct (pgo h) as [es|]; cbn [obind].
      + destruct ES as (-> & ME). split; [reflexivity|]. intros d p k. rewrite LocProofs2.dcmap_new_eq. cbn [rbind]. match goal with |- context [LocModel.new_entries _ _ _ ?d ?p ?k] => destruct (ME d p k) as (cs & d2 & ->) end. cbn [rbind]. eauto.
      + intros d p k. rewrite LocProofs2.dcmap_new_eq. cbn [rbind]. rewrite ES. reflexivity.
  Qed.
End Lists.
