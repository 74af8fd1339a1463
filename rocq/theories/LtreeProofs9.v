(** A loaded zone: what is at each name, and which records it was made of. *)
From Coq Require Import Sorting.Permutation.
From Verif Require Import Base DnameSpec DnameModel RandModel CompModel RespModel RespSpec LtreeModel LtreeSpec LtreeProofs LtreeProofs2 LtreeProofs3 LtreeProofs4 LtreeProofs5 LtreeProofs6 LtreeProofs7 LtreeProofs8.
From Verif Require DnameProofs.
Local Open Scope N_scope.
Ltac Zify.zify_post_hook ::= idtac.

Definition proper (d : name) : Prop := Forall (fun l => l <> []) d.

Lemma proper_app a b : proper (a ++ b) <-> proper a /\ proper b.
Proof. apply Forall_app. Qed.
Lemma legal_proper d : legal_name d -> proper d.
Proof. intros (F & _). induction F as [|l d H F IH]; constructor; auto. intros ->. destruct H as (H & _). cbn in H. lia. Qed.
Lemma wire_wire_labels d : wire d = wire_labels d ++ [0].
Proof. f_equal. induction d as [|l d IH]; [reflexivity|]. cbn [map concat wire_labels]. rewrite IH. reflexivity. Qed.
Lemma wire_eq a b : legal_name a -> legal_name b -> wire a = wire b -> a = b.
Proof.
  intros (A & _) (B & _). rewrite !wire_wire_labels. intros E.
  assert (S : forall l, Forall legal_label l -> Forall struct_label l).
  { intros l F. induction F as [|x l H F IH]; constructor; auto. destruct H as (H & _). unfold struct_label. lia. }
  exact (proj1 (DnameProofs.wire_inj a b 0 0 (S _ A) (S _ B) (or_introl eq_refl) (or_introl eq_refl) [] [] E)).
Qed.

Lemma owner_opath r d : proper d -> owner r = Some d \/ (exists n, owner r = None /\ opath r = [wire n; []]) \/ (owner r = Some (opath r) /\ opath r <> d).
Proof.
  intros PD. destruct (name_dec (opath r) d) as [E|NE].
  - destruct (owner r) as [o|] eqn:O.
    + left. destruct r; cbn in *; try (injection O as <-; congruence); match goal with o0 : bool |- _ => destruct o0; [discriminate|injection O as <-; congruence] end.
    + right. left. destruct r; cbn in *; try discriminate; match goal with o0 : bool |- _ => destruct o0; [|discriminate] end; eauto.
  - destruct (owner r) as [o|] eqn:O.
    + right. right. split; [|exact NE]. destruct r; cbn in *; try congruence; match goal with o0 : bool |- _ => destruct o0; [discriminate|congruence] end.
    + right. left. destruct r; cbn in *; try discriminate; match goal with o0 : bool |- _ => destruct o0; [|discriminate] end; eauto.
Qed.
Lemma owner_some r d : owner r = Some d -> opath r = d.
Proof. destruct r; cbn; try congruence; destruct ooz; congruence. Qed.
Lemma owner_none r : owner r = None -> exists n, opath r = [wire n; []].
Proof. destruct r; cbn; try discriminate; destruct ooz; try discriminate; eauto. Qed.
Lemma opath_proper r p d : proper d -> d <> [] -> opath r = p ++ d -> owner r = Some (p ++ d).
Proof.
  intros PD ND E. destruct (owner r) as [o|] eqn:O; [f_equal; rewrite <- E; symmetry; now apply owner_some|]. destruct (owner_none r O) as (n & E1). rewrite E1 in E. exfalso.
  destruct (exists_last ND) as (d0 & x & ->). rewrite app_assoc in E. change [wire n; []] with ([wire n] ++ [[]]) in E. apply app_inj_tail in E. destruct E as (_ & <-).
  apply proper_app in PD. destruct PD as (_ & PD). inversion PD. congruence.
Qed.
Lemma opath_nil r : opath r = [] -> owner r = Some [].
Proof. intros E. destruct (owner r) as [o|] eqn:O; [f_equal; rewrite <- E; symmetry; now apply owner_some|]. destruct (owner_none r O) as (n & E1). rewrite E1 in E. discriminate. Qed.
Lemma opath_eq r d : proper d -> (opath r = d <-> owner r = Some d).
Proof.
  intros PD. split; [|apply owner_some]. intros E. destruct d as [|l d]; [now apply opath_nil|]. apply (opath_proper r [] (l :: d)); [exact PD|discriminate|exact E].
Qed.
Lemma here_at d rs : proper d -> here d rs = recs_at d rs.
Proof.
  intros PD. unfold here, recs_at. apply filter_ext. intros r. unfold has_owner. destruct (name_dec (opath r) d) as [E|NE].
  - apply (opath_eq r d PD) in E. rewrite E. now destruct (name_dec d d).
  - destruct (owner r) as [o|] eqn:O; [|reflexivity]. destruct (name_dec o d) as [->|]; [|reflexivity]. exfalso. apply NE. now apply owner_some.
Qed.
Lemma in_recs_at d rs r : In r (recs_at d rs) <-> In r rs /\ owner r = Some d.
Proof.
  unfold recs_at. rewrite filter_In. unfold has_owner. destruct (owner r) as [o|]; [|split; intros (_ & H); discriminate].
  destruct (name_dec o d) as [->|NE]; split; intros (A & B); split; auto; congruence.
Qed.
Lemma in_recs_of t rs r : In r (recs_of t rs) <-> In r rs /\ In t (rtypes r).
Proof. unfold recs_of. now rewrite filter_In, of_type_iff. Qed.
Lemma in_here d rs r : In r (here d rs) <-> In r rs /\ opath r = d.
Proof. unfold here. rewrite filter_In. destruct (name_dec (opath r) d); split; intros (A & B); split; auto; congruence. Qed.

(** ** Aliases come first *)
Definition alias (t : N) : Prop := t = 5 \/ t = 65295.
Definition alias_first (ts : list N) : Prop := forall a t b, ts = a ++ t :: b -> alias t -> a = [].

Section Zone.
  Variable cfg : zcfg.
  Variable pl : plugins.
  Variable hash : list N -> N.
  Variable zname : name.
  Hypothesis hash64 : forall l, hash l < W64.
  Hypothesis CF : cfg_fine cfg.

  Lemma alias_first_snoc ts ts' : alias_first ts -> (forall t, In t ts' -> ~ alias t) -> alias_first (ts ++ ts').
  Proof.
    intros A N a t b E AL. apply app_eq_app in E. destruct E as (x & [(E1 & E2)|(E1 & E2)]).
    - destruct x as [|y x]; cbn in E2.
      + exfalso. apply (N t); [rewrite <- E2; now left|exact AL].
      + injection E2 as <- ->. apply (A a t x E1 AL).
    - exfalso. apply (N t); [rewrite E2; apply in_app_iff; right; now left|exact AL].
  Qed.
  Lemma next_types sets t ttl first ext sets' : rrset_type first = t -> (forall s t0 c s', ext s = Some (t0, c, s') -> rrset_type s' = rrset_type s) ->
    next_rr cfg sets t ttl first ext = Ok (Some sets') -> map rrset_type sets' = map rrset_type sets \/ map rrset_type sets' = map rrset_type sets ++ [t].
  Proof.
    intros T X H. unfold next_rr in H. destruct (get_rrset sets t) as [s|] eqn:G.
    - destruct (ext s) as [((t0, c), s')|] eqn:E; [|discriminate]. apply zwarn_ok in H. destruct H as (H & _). destruct (c =? UINT16_MAX)%nat; [discriminate|]. injection H as <-.
      left. apply put_types. rewrite (X _ _ _ _ E). now apply get_in in G.
    - injection H as <-. right. rewrite map_app. cbn. now rewrite T.
  Qed.
  Lemma rec_types r sets sets' : rec_fine zname r -> rec_sets cfg pl zname r sets = Ok (Some sets') -> alias_first (map rrset_type sets) -> alias_first (map rrset_type sets').
  Proof.
    intros RF H A.
    assert (B : forall t, ~ alias t -> map rrset_type sets' = map rrset_type sets \/ map rrset_type sets' = map rrset_type sets ++ [t] -> alias_first (map rrset_type sets')).
    { intros t NA [E|E]; rewrite E; [exact A|]. apply alias_first_snoc; [exact A|]. intros t' [<-|[]]; exact NA. }
    assert (O : forall t0 : N, alias_first [t0]).
    { intros t0 a t b E _. destruct a as [|x a]; [reflexivity|]. injection E as _ E. destruct a; discriminate. }
    destruct r; cbn [rec_sets] in H.
    - apply zwarn_ok in H. destruct H as (H & _). apply zwarn_ok in H. destruct H as (H & _). destruct dname; [|discriminate]. cbn [rassert] in H. destruct (get_rrset sets T_SOA); [discriminate|]. injection H as <-.
      apply (B 6); [intros [X|X]; discriminate|]. right. now rewrite map_app.
    - apply zwarn_ok in H. destruct H as (H & _). apply (B 1); [intros [X|X]; discriminate|]. destruct (get_rrset sets T_A) as [s|] eqn:G; [|injection H as <-; right; now rewrite map_app].
      destruct s; try discriminate. apply zwarn_ok in H. destruct H as (H & _). destruct (length addrs =? UINT16_MAX)%nat; [discriminate|]. injection H as <-. left. now apply put_types.
    - apply zwarn_ok in H. destruct H as (H & _). apply (B 28); [intros [X|X]; discriminate|]. destruct (get_rrset sets T_AAAA) as [s|] eqn:G; [|injection H as <-; right; now rewrite map_app].
      destruct s; try discriminate. apply zwarn_ok in H. destruct H as (H & _). destruct (length addrs =? UINT16_MAX)%nat; [discriminate|]. injection H as <-. left. now apply put_types.
    - destruct (get_rrset sets T_A); [discriminate|]. destruct (get_rrset sets T_AAAA); [discriminate|].
      unfold clamp_min in H. repeat (apply zwarn_ok in H; destruct H as (H & _)). apply zbind_ok in H. destruct H as (id & _ & H). injection H as <-. rewrite map_app.
      apply alias_first_snoc; [exact A|]. intros t [<-|[<-|[]]] [X|X]; discriminate.
    - destruct sets; [|discriminate]. injection H as <-. apply O.
    - unfold clamp_min in H. repeat (apply zwarn_ok in H; destruct H as (H & _)). destruct sets; [|discriminate]. apply zbind_ok in H. destruct H as (id & _ & H). injection H as <-. apply O.
    - apply zbind_ok in H. destruct H as (x & H & W). apply zwarn_ok in W. destruct W as (W & _). injection W as <-. apply (B 12); [intros [X|X]; discriminate|].
      eapply next_types; [|  |exact H]; [reflexivity|]. intros s t0 c s'. destruct s; try discriminate. now intros [= <- <- <-].
    - destruct (match dname with [42] :: _ => true | _ => false end); [discriminate|].
      apply zbind_ok in H. destruct H as (x & H & W). match type of W with (if ?c then _ else _) = _ => destruct c; [discriminate|] end. injection W as <-. apply (B 2); [intros [X|X]; discriminate|].
      eapply next_types; [|  |exact H]; [reflexivity|]. intros s t0 c s'. destruct s; try discriminate. now intros [= <- <- <-].
    - destruct (65535 <? pref); [discriminate|]. apply (B 15); [intros [X|X]; discriminate|].
      eapply next_types; [|  |exact H]; [reflexivity|]. intros s t0 c s'. destruct s; try discriminate. now intros [= <- <- <-].
    - destruct ((65535 <? priority) || (65535 <? weight) || (65535 <? port)); [discriminate|]. apply (B 33); [intros [X|X]; discriminate|].
      eapply next_types; [|  |exact H]; [reflexivity|]. intros s t0 c s'. destruct s; try discriminate. now intros [= <- <- <-].
    - destruct ((65535 <? order) || (65535 <? pref)); [discriminate|]. apply (B 35); [intros [X|X]; discriminate|].
      eapply next_types; [|  |exact H]; [reflexivity|]. intros s t0 c s'. destruct s; try discriminate. now intros [= <- <- <-].
    - apply (B 16); [intros [X|X]; discriminate|]. destruct (is_acme dname).
      + apply zwarn_ok in H. destruct H as (H & _). eapply next_types; [|  |exact H]; [reflexivity|]. intros s t0 c s'. destruct s; try discriminate. now intros [= <- <- <-].
      + eapply next_types; [|  |exact H]; [reflexivity|]. intros s t0 c s'. destruct s; try discriminate. now intros [= <- <- <-].
    - destruct RF as (_ & RT & _). destruct (existsb (N.eqb rrtype) [T_A; T_AAAA; T_SOA; T_CNAME; T_NS; T_PTR; T_MX; T_SRV; T_NAPTR; T_TXT]) eqn:X1; [discriminate|].
      destruct ((rrtype =? 13) || (rrtype =? T_DYNC) || ((127 <? rrtype) && (rrtype <? 256)) || (rrtype =? 0)) eqn:X2; [discriminate|].
      assert (NA : ~ alias rrtype).
      { rewrite !orb_false_iff in X2. destruct X2 as (((_ & X2) & _) & _). apply N.eqb_neq in X2. intros [E|E]; subst rrtype; [discriminate X1|now apply X2]. }
      apply (B rrtype NA). eapply next_types; [|  |exact H]; [cbn; now apply N.mod_small|]. intros s t0 c s'. destruct s; try discriminate. now intros [= <- <- <-].
  Qed.
  Lemma fold_types l : forall sets sets', Forall (rec_fine zname) l -> fold_sets cfg pl zname l sets = Ok (Some sets') -> alias_first (map rrset_type sets) -> alias_first (map rrset_type sets').
  Proof.
    induction l as [|r l IH]; intros sets sets' RF H A; cbn [fold_sets] in H; [now injection H as <-|]. inversion RF; subst. apply zbind_ok in H. destruct H as (x & H1 & H).
    eapply IH; eauto. eapply rec_types; eauto.
  Qed.
End Zone.
