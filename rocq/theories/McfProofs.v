(** Hashes with marks, and what comes down to them *)
From Coq Require Import Permutation ZArith.
From Verif Require Import Base CompModel CompProofs VscfModel VscfSpec OptModel VhashModel VhashSpec VhashProofs2 PlugModel PconfModel PconfSpec PconfProofs2 PconfProofs3 McfModel McfSpec.
Local Open Scope nat_scope.
Local Notation length := List.length.
Ltac Zify.zify_post_hook ::= idtac.

Fixpoint vnode_ind' (P : vnode -> Prop) (HS : forall r v, P (VS r v)) (HA : forall l, Forall P l -> P (VA l))
  (HH : forall t, Forall (fun e => P (snd e)) t -> P (VH t)) (t : vnode) : P t :=
  match t with
  | VS r v => HS r v
  | VA l => HA l ((fix go l := match l return Forall P l with [] => Forall_nil _ | x :: l' => Forall_cons _ (vnode_ind' P HS HA HH x) (go l') end) l)
  | VH l => HH l ((fix go l := match l return Forall (fun e => P (snd e)) l with [] => Forall_nil _ | x :: l' => Forall_cons _ (vnode_ind' P HS HA HH (snd x)) (go l') end) l)
  end.

Definition mtab (D : list bytes) (H : hash) : tab := map (fun e => (fst e, among D (fst e), fresh (snd e))) H.
Lemma mtab_nil H : mtab [] H = ftab H.
Proof. reflexivity. Qed.
Lemma value_mtab k D H : value k (mtab D H) = option_map fresh (get k H).
Proof. induction H as [|(k', v) h IH]; [reflexivity|]. cbn. rewrite <- same_eqb. destruct (same k k'); [reflexivity|exact IH]. Qed.
Lemma mark_mtab k D H : mark k (mtab D H) = mtab (k :: D) H.
Proof.
  unfold mark, mtab. rewrite map_map. apply map_ext. intros e. cbn [fst snd]. cbn [among existsb].
  destruct (same k (fst e)) as [->|N]; [now rewrite (proj2 (bytes_eqb_spec _ _) eq_refl)|].
  destruct (bytes_eqb (fst e) k) eqn:B; [apply bytes_eqb_spec in B; congruence|reflexivity].
Qed.
Lemma length_mtab D H : length (mtab D H) = length H.
Proof. apply map_length. Qed.
Lemma entries_mtab D H : entries false (mtab D H) = map (fun e => (fst e, fresh (snd e))) H.
Proof. unfold entries, mtab. rewrite (filter_ext _ (fun _ => true)) by reflexivity. induction H as [|e H IH]; [reflexivity|]. cbn. f_equal. exact IH. Qed.
Lemma unmarked_mtab D H : unmarked (mtab D H) = map (fun e => (fst e, fresh (snd e))) (others D H).
Proof.
  unfold unmarked, entries, mtab, others. induction H as [|e H IH]; [reflexivity|]. cbn [map filter fst snd andb]. destruct (among D (fst e)); cbn [negb map]; [exact IH|]. f_equal. exact IH.
Qed.
Lemma copy_fresh b v : copy b (fresh v) = fresh v.
Proof.
  induction v as [r v|l IH|t IH] using vnode_ind'; cbn [fresh copy]; [reflexivity| |]; f_equal.
  - rewrite map_map. induction IH as [|x l E F IH]; [reflexivity|]. cbn. now rewrite E, IH.
  - induction IH as [|x l E F IH]; [reflexivity|]. cbn [map flat_map fst snd]. rewrite andb_false_r, E, IH. reflexivity.
Qed.
Lemma copy_mtab D H : copy true (TH (mtab D H)) = fresh (VH (others D H)).
Proof.
  cbn [copy fresh]. f_equal. unfold mtab, others. induction H as [|e H IH]; [reflexivity|]. cbn [map flat_map filter fst snd andb]. destruct (among D (fst e)); cbn [negb map app]; cbn [andb] in IH; rewrite IH; [reflexivity|]. now rewrite copy_fresh.
Qed.

Lemma get_in k h : get k h <> None <-> In k (map fst h).
Proof.
  induction h as [|(a, v) h IH]; cbn; [intuition|]. destruct (bytes_eqb k a) eqn:B; [apply bytes_eqb_spec in B; subst; split; [auto|discriminate]|]. rewrite IH. split; [auto|]. intros [->|I]; [|exact I].
  rewrite (proj2 (bytes_eqb_spec k k) eq_refl) in B. discriminate.
Qed.
Lemma get_none k h : get k h = None <-> ~ In k (map fst h).
Proof. rewrite <- get_in. destruct (get k h); intuition congruence. Qed.
Lemma get_app k h h' : get k (h ++ h') = match get k h with Some v => Some v | None => get k h' end.
Proof. induction h as [|(a, v) h IH]; cbn; [reflexivity|]. destruct (bytes_eqb k a); [reflexivity|exact IH]. Qed.
Lemma get_some_in k h v : get k h = Some v -> In (k, v) h.
Proof. induction h as [|(a, w) h IH]; cbn; [discriminate|]. destruct (bytes_eqb k a) eqn:B; [apply bytes_eqb_spec in B; intros [= ->]; subst; auto|auto]. Qed.
Lemma get_unique k h v : NoDup (map fst h) -> In (k, v) h -> get k h = Some v.
Proof.
  induction h as [|(a, w) h IH]; cbn; [intros _ []|]. intros N I. inversion N as [|? ? NI N']; subst. destruct I as [[= <- <-]|I]; [now rewrite (proj2 (bytes_eqb_spec a a) eq_refl)|].
  destruct (bytes_eqb k a) eqn:B; [|now apply IH]. apply bytes_eqb_spec in B. subst. exfalso. apply NI. apply in_map_iff. now exists (a, v).
Qed.
Lemma get_filter k h P : (forall v, P (k, v) = true) -> get k (filter P h) = get k h.
Proof.
  intros H. induction h as [|(a, v) h IH]; [reflexivity|]. cbn. destruct (bytes_eqb k a) eqn:B.
  - apply bytes_eqb_spec in B. subst. rewrite H. cbn. now rewrite (proj2 (bytes_eqb_spec a a) eq_refl).
  - destruct (P (a, v)); cbn; [now rewrite B|]; exact IH.
Qed.
Lemma get_filled k h o : get k (filled h o) = setting k [h; o].
Proof.
  unfold filled. rewrite get_app. cbn [setting]. destruct (get k h) eqn:E; [reflexivity|]. rewrite get_filter by (intros; cbn; now rewrite E). destruct (get k o); reflexivity.
Qed.
Lemma get_others k D h : among D k = false -> get k (others D h) = get k h.
Proof. intros A. apply get_filter. intros v. cbn. now rewrite A. Qed.
Lemma get_others_in k D h : among D k = true -> get k (others D h) = None.
Proof. intros A. apply get_none. intros I. apply in_map_iff in I as (e & <- & I). apply filter_In in I as (_ & B). rewrite A in B. discriminate. Qed.

Lemma inherit_all_mtab D P H : NoDup (map fst P) -> Forall (fun e => ~ In 0%N (fst e)) P -> inherit_all (mtab D P) (ftab H) = ftab (filled H (others D P)).
Proof.
  intros N Z. unfold inherit_all. rewrite unmarked_mtab.
  assert (IN : forall e, In e (others D P) -> ~ In 0%N (fst e) /\ get (fst e) P = Some (snd e)).
  { intros (a, v) I. apply filter_In in I as (I & _). rewrite Forall_forall in Z. split; [now apply (Z _ I)|]. now apply get_unique. }
  assert (NO : NoDup (map fst (others D P))). { unfold others. clear Z IN. induction P as [|e P IH]; [constructor|]. cbn in N. inversion N as [|? ? NI N']; subst. cbn [filter]. destruct (negb (among D (fst e))); [|now apply IH]. cbn. constructor; [|now apply IH]. intros I. apply NI. apply in_map_iff in I as (x & E & I). apply filter_In in I as (I & _). rewrite <- E. now apply in_map. }
  revert IN NO. generalize (others D P) as es. clear Z. intros es. revert H. induction es as [|e es IH]; intros H IN NO; [cbn; unfold filled; cbn; now rewrite app_nil_r|].
  cbn [map fold_left fst]. cbn in NO. inversion NO as [|? ? NI NO']; subst. destruct (IN e (or_introl eq_refl)) as (NZ & G).
  assert (S : inherit (c_str (fst e)) (mtab D P) (ftab H) = match get (fst e) H with Some _ => ftab H | None => ftab (H ++ [e]) end).
  { rewrite (c_str_whole _ NZ). unfold inherit. rewrite value_mtab, G. cbn [option_map]. unfold inherited. rewrite ftab_value. destruct (get (fst e) H); [reflexivity|]. cbn [option_map]. unfold ftab. rewrite map_app, copy_fresh. reflexivity. }
  cbn [fst snd] in S |- *. rewrite S. clear S. unfold filled. cbn [filter]. destruct (get (fst e) H) eqn:E; [apply IH; [intros; apply IN; cbn; auto|exact NO']|].
  rewrite IH; [|intros; apply IN; cbn; auto|exact NO']. f_equal. unfold filled. rewrite <- app_assoc. f_equal. cbn [app]. f_equal. apply filter_ext_in. intros x I. rewrite get_app. destruct (get (fst x) H); [reflexivity|]. destruct e as (a, w). cbn.
  destruct (bytes_eqb (fst x) a) eqn:B; [|reflexivity]. apply bytes_eqb_spec in B. exfalso. apply NI. cbn. rewrite <- B. now apply in_map.
Qed.

(** Properties of all entries *)
Lemma nodup_others D h : NoDup (map fst h) -> NoDup (map fst (others D h)).
Proof.
  intros N. unfold others. induction h as [|e P IH]; [constructor|]. cbn in N. inversion N as [|? ? NI N']; subst. cbn [filter]. destruct (negb (among D (fst e))); [|now apply IH]. cbn. constructor; [|now apply IH].
  intros I. apply NI. apply in_map_iff in I as (x & E & I). apply filter_In in I as (I & _). rewrite <- E. now apply in_map.
Qed.
Lemma nodup_filled h o : NoDup (map fst h) -> NoDup (map fst o) -> NoDup (map fst (filled h o)).
Proof.
  intros N. unfold filled. rewrite map_app. induction o as [|e o IH]; intros NO; [cbn; now rewrite app_nil_r|]. cbn in NO. inversion NO as [|? ? NI NO']; subst. cbn [filter]. destruct (get (fst e) h) eqn:E; [now apply IH|]. cbn [map].
  apply Permutation_NoDup with (l := fst e :: (map fst h ++ map fst (filter (fun e => match get (fst e) h with None => true | Some _ => false end) o))); [apply Permutation_middle|].
  constructor; [|now apply IH]. intros I. apply in_app_iff in I as [I|I]; [now apply get_none in E|]. apply NI. apply in_map_iff in I as (x & EX & I). apply filter_In in I as (I & _). rewrite <- EX. now apply in_map.
Qed.
Lemma forall_others (Q : bytes * vnode -> Prop) D h : Forall Q h -> Forall Q (others D h).
Proof. rewrite !Forall_forall. intros F x I. apply filter_In in I as (I & _). auto. Qed.
Lemma forall_filled (Q : bytes * vnode -> Prop) h o : Forall Q h -> Forall Q o -> Forall Q (filled h o).
Proof. rewrite !Forall_forall. intros F G x I. apply in_app_iff in I as [I|I]; [auto|]. apply filter_In in I as (I & _). auto. Qed.
(** All that is asked of the data *)
Definition kept (k : kind) (e : bytes * vnode) : Prop :=
  distinct (snd e) /\ raw_bytes (snd e) /\ plain (snd e) /\ safe k (snd e) /\ ~ In 0%N (fst e) /\
  (fst e = k_skip -> exists r v, snd e = VS r v) /\ (fst e = k_plugin -> k = Metafo -> forall r v, snd e = VS r v -> c_str v <> pn Geoip).
Definition fine (k : kind) (h : hash) : Prop := NoDup (map fst h) /\ Forall (kept k) h.
Lemma fine_is k h : distinct (VH h) -> raw_bytes (VH h) -> plain (VH h) -> safe k (VH h) -> fine k h.
Proof.
  intros D R P S. inversion D as [| |? N FD]; subst. inversion R as [| |? FR]; subst. inversion P as [| |? FP]; subst. inversion S as [| |? FS]; subst. split; [exact N|].
  rewrite Forall_forall in *. intros e I. destruct (FP e I), (FS e I) as (? & ? & ?). repeat split; auto.
Qed.
Lemma fine_others k D h : fine k h -> fine k (others D h).
Proof. intros (N & F). split; [now apply nodup_others|now apply forall_others]. Qed.
Lemma fine_filled k h o : fine k h -> fine k o -> fine k (filled h o).
Proof. intros (N & F) (N' & F'). split; [now apply nodup_filled|now apply forall_filled]. Qed.
Lemma fine_in k h e : fine k h -> In e h -> kept k e.
Proof. intros (_ & F). rewrite Forall_forall in F. apply F. Qed.
Lemma fine_inner k h n x : fine k h -> In (n, VH x) h -> fine k x.
Proof. intros F I. destruct (fine_in _ _ _ F I) as (A & B & C & D & _). now apply fine_is. Qed.
Lemma fine_inherit k D P H : fine k P -> inherit_all (mtab D P) (ftab H) = ftab (filled H (others D P)).
Proof. intros (N & F). apply inherit_all_mtab; [exact N|]. eapply Forall_impl; [|exact F]. cbn. intros e (_ & _ & _ & _ & A & _). exact A. Qed.

(** A value in the place of another *)
Lemma put_mtab p v D H : NoDup (map fst H) -> get p H <> None -> put p (fresh v) (mtab D H) = mtab D (with_key p v H).
Proof.
  intros N. induction H as [|(a, w) H IH]; intros G; [now destruct G|]. cbn in N, G. inversion N as [|? ? NI N']; subst. cbn [mtab map fst snd put with_key].
  rewrite <- same_eqb in *. destruct (same p a) as [->|NE].
  - cbn [map fst snd]. f_equal. fold (mtab D H). fold (put a (fresh v) (mtab D H)). clear -NI. induction H as [|(b, w) H IH]; [reflexivity|]. cbn. destruct (same a b) as [->|_]; [exfalso; apply NI; cbn; auto|]. f_equal. apply IH. intros I. apply NI. cbn; auto.
  - cbn [map fst snd]. f_equal. apply IH; [exact N'|exact G].
Qed.
Lemma with_key_new p v H : get p H = None -> with_key p v H = H ++ [(p, v)].
Proof. induction H as [|(a, w) H IH]; intros G; [reflexivity|]. cbn in *. destruct (bytes_eqb p a); [discriminate|]. f_equal. now apply IH. Qed.
Lemma get_with_key p q v H : get q (with_key p v H) = if bytes_eqb q p then Some v else get q H.
Proof.
  induction H as [|(a, w) H IH]; cbn; [destruct (bytes_eqb q p); reflexivity|]. destruct (bytes_eqb p a) eqn:B; cbn.
  - apply bytes_eqb_spec in B. subst. destruct (bytes_eqb q a); reflexivity.
  - destruct (bytes_eqb q a) eqn:B'; [|exact IH]. apply bytes_eqb_spec in B'. subst. destruct (bytes_eqb a p) eqn:B''; [|reflexivity]. apply bytes_eqb_spec in B''. subst. rewrite (proj2 (bytes_eqb_spec p p) eq_refl) in B. discriminate.
Qed.
(** Looking up after a change *)
Lemma value_put p q v (t : tab) : value q (put p v t) = if bytes_eqb q p then match value p t with Some _ => Some v | None => None end else value q t.
Proof.
  induction t as [|((a, m), w) t IH]; cbn; [destruct (bytes_eqb q p); reflexivity|]. destruct (same p a) as [->|NE]; cbn.
  - rewrite <- same_eqb in *. destruct (same q a) as [->|NQ]; [destruct (same a a); [reflexivity|congruence]|exact IH].
  - rewrite <- same_eqb in *. destruct (same q a) as [->|NQ]; [|exact IH]. destruct (same a p); [congruence|reflexivity].
Qed.
Lemma keys_with_key k v h : NoDup (map fst h) -> NoDup (map fst (with_key k v h)).
Proof.
  intros N. destruct (get k h) as [w|] eqn:E.
  - replace (map fst (with_key k v h)) with (map fst h); [exact N|]. clear N. revert E. induction h as [|(a, x) h IH]; cbn; [discriminate|]. destruct (bytes_eqb k a) eqn:B; cbn; [apply bytes_eqb_spec in B; now subst|]. intros E. f_equal. now apply IH.
  - rewrite (with_key_new _ _ _ E), map_app. apply Permutation_NoDup with (l := k :: map fst h); [apply Permutation_cons_append|]. constructor; [now apply get_none|exact N].
Qed.
