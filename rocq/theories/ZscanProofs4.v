(** The scanner's machine, part 4: lines. *)
From Coq Require Import String Ascii.
From Verif Require Import Base DnameSpec DnameModel DnameProofs CompModel CompProofs RespModel LtreeModel ZscanModel ZscanSpec ZscanProofs ZscanProofs2 ZscanProofs3.
Local Open Scope N_scope.
Local Notation length := List.length.
Local Arguments N.lor : simpl never.
Local Arguments N.eqb : simpl never.
Local Arguments N.leb : simpl never.

(** ** Keywords *)
Lemma map_downcase w : map downcase w = map lower w.
Proof. apply map_ext, downcase_lower. Qed.
Lemma lookup_in {A} w (tab : list (bytes * A)) a : lookup w tab = Some a -> In (w, a) tab.
Proof.
  induction tab as [|(k, x) tab IH]; cbn; [discriminate|]. destruct (bytes_eqb w k) eqn:E; [|auto].
  intros [= ->]. left. f_equal. apply CompProofs.bytes_eqb_spec in E. auto.
Qed.
Lemma kw_iff w ty : keyword w keywords = Some ty <-> spells (kw ty) w.
Proof.
  unfold keyword, spells. rewrite map_downcase. split.
  - intros H. apply lookup_in in H. cbn in H. repeat (destruct H as [H|H]; [injection H as <- <-; reflexivity|]). contradiction.
  - intros ->. destruct ty; reflexivity.
Qed.
Lemma kw_in w : keyword w [([105; 110], tt)] = Some tt <-> spells "in" w.
Proof.
  unfold keyword, spells. rewrite map_downcase. split.
  - intros H. apply lookup_in in H. cbn in H. destruct H as [H|[]]. injection H as <-. reflexivity.
  - intros ->. reflexivity.
Qed.
Definition cname (c : command) : string := match c with CTtl => "ttl" | COrigin => "origin" | CInclude => "include" end%string.
Lemma kw_cmd w c : keyword w commands = Some c <-> spells (cname c) w.
Proof.
  unfold keyword, spells. rewrite map_downcase. split.
  - intros H. apply lookup_in in H. cbn in H. repeat (destruct H as [H|H]; [injection H as <- <-; reflexivity|]). contradiction.
  - intros ->. destruct c; reflexivity.
Qed.
Lemma spells_letters s w : spells s w -> Forall (fun c => 97 <= c <= 122) (codes s) -> Forall letter w.
Proof.
  unfold spells. intros <- F. induction w as [|c w IH]; [constructor|]. cbn in F. inversion F; subst. constructor; [|auto].
  unfold lower in H1. unfold letter. destruct ((65 <=? c) && (c <=? 90)) eqn:Q; [|lia]. apply andb_true_iff in Q as (A & B). apply N.leb_le in A, B. lia.
Qed.
Lemma kw_letters ty w : spells (kw ty) w -> Forall letter w.
Proof. intros H. apply (spells_letters _ _ H). destruct ty; cbn; repeat constructor; discriminate. Qed.
Lemma in_letters w : spells "in" w -> Forall letter w.
Proof. intros H. apply (spells_letters _ _ H). cbn; repeat constructor; discriminate. Qed.
Lemma cmd_letters c w : spells (cname c) w -> Forall letter w.
Proof. intros H. apply (spells_letters _ _ H). destruct c; cbn; repeat constructor; discriminate. Qed.
Lemma span_letters w x : Forall letter w -> begins (fun c => ~ letter c) x -> span isalpha (w ++ x) = (w, x).
Proof.
  intros F B. apply span_spec. repeat split; auto.
  - eapply Forall_impl; [|exact F]. intros c. apply isalpha_iff.
  - destruct x; cbn in *; [tauto|]. now rewrite isalpha_iff.
Qed.
Lemma kw_not_in ty w : spells (kw ty) w -> ~ spells "in" w.
Proof. unfold spells. intros -> H. destruct ty; discriminate. Qed.

Lemma begins_app P t r : begins P t -> begins P (t ++ r).
Proof. destruct t; cbn; [contradiction|auto]. Qed.
Lemma begins_impl (P Q : N -> Prop) t : (forall c, P c -> Q c) -> begins P t -> begins Q t.
Proof. intros H. destruct t; cbn; auto. Qed.
Lemma blanks_b b : blanks b -> begins blank b.
Proof. intros (N & F). destruct F; [congruence|exact H]. Qed.
Lemma digits_b b : digits b -> begins is_digit b.
Proof. intros (N & F). destruct F; [congruence|exact H]. Qed.
Lemma body_head ty t d : body ty t d -> begins (fun c => blank c \/ is_digit c) t.
Proof.
  assert (B : forall b x, blanks b -> begins (fun c => blank c \/ is_digit c) (b ++ x)) by (intros b x H; apply begins_app; eapply begins_impl; [|now apply blanks_b]; auto).
  destruct ty; cbn [body]; intros; open; auto.
  - cbn. auto.
  - apply begins_app. eapply begins_impl; [|apply digits_b; eassumption]. auto.
Qed.
Lemma bd_not_letter c : blank c \/ is_digit c -> ~ letter c.
Proof. unfold blank, is_digit, letter. lia. Qed.

(** ** The type and its data *)
Definition isdyn (ty : rrtype) : bool := match ty with TDYNA | TDYNC => true | _ => false end.
Lemma isdyn_iff ty t d : body ty t d -> (isdyn ty = true <-> dynamic d).
Proof. destruct ty; cbn [body isdyn]; intros; open; cbn; split; auto; try discriminate; contradiction. Qed.
Lemma lex_rhs dyn : lex_is (rr_rhs dyn) (fun t a r => exists d, data_text t d /\ a = data_acts d /\ dfol d r /\ (dyn = true -> dynamic d)).
Proof.
  intros l a r. unfold rr_rhs. destruct (span isalpha l) as (w, r1) eqn:E. split.
  - apply span_spec in E as (-> & F & N). destruct (keyword w keywords) as [ty|] eqn:K; [|discriminate]. apply kw_iff in K.
    destruct (dyn && _) eqn:Q; [discriminate|]. intros H. apply lex_rdata in H as (x & -> & d & B & -> & Fo).
    exists (w ++ x). rewrite app_assoc. split; [reflexivity|]. exists d. repeat split; auto.
    + apply data_body. exists w, ty, x. auto.
    + intros ->. apply (isdyn_iff _ _ _ B). destruct ty; try discriminate; reflexivity.
  - intros (t & -> & d & D & -> & Fo & Dy). apply data_body in D as (k & ty & x & -> & K & B).
    rewrite <- app_assoc in E. rewrite span_letters in E; [|eapply kw_letters; eauto|apply begins_app; eapply begins_impl; [|eapply body_head; eauto]; apply bd_not_letter].
    injection E as <- <-. apply kw_iff in K. rewrite K.
    assert (X : dyn && negb match ty with TDYNA | TDYNC => true | _ => false end = false).
    { destruct dyn; [|reflexivity]. specialize (Dy eq_refl). apply (isdyn_iff _ _ _ B) in Dy. destruct ty; try discriminate; reflexivity. }
    rewrite X. apply lex_rdata. exists x. split; [reflexivity|]. exists d. auto.
Qed.
Lemma data_letters t d : data_text t d -> exists k ty x, t = k ++ x /\ k <> [] /\ spells (kw ty) k /\ Forall letter k /\ begins (fun c => ~ letter c) x.
Proof.
  intros D. apply data_body in D as (k & ty & x & -> & K & B). exists k, ty, x. repeat split; auto.
  - intros ->. destruct ty; discriminate.
  - eapply kw_letters; eauto.
  - eapply begins_impl; [|eapply body_head; eauto]; apply bd_not_letter.
Qed.
Lemma data_first t d : data_text t d -> begins letter t.
Proof. intros D. apply data_letters in D as (k & ty & x & -> & N & K & F & B). apply begins_app. destruct F; [congruence|auto]. Qed.
Lemma letter_nb c : letter c -> ~ blank c.
Proof. unfold blank, letter. lia. Qed.

(** ** TTL and class *)
Lemma lex_if p x y P Q : lex_is x P -> lex_is y Q -> (forall t a r, P t a r -> starts p (t ++ r) = true) -> (forall t a r, Q t a r -> starts p (t ++ r) = false) ->
  lex_is (fun l => if starts p l then x l else y l) (fun t a r => P t a r \/ Q t a r).
Proof.
  intros Hx Hy Sx Sy l a r. split.
  - destruct (starts p l); intros H; [apply Hx in H|apply Hy in H]; destruct H as (t & -> & H); eauto.
  - intros (t & -> & [H|H]); [rewrite (Sx _ _ _ H); apply Hx|rewrite (Sy _ _ _ H); apply Hy]; eauto.
Qed.
Definition no_in (P : bytes -> list action -> bytes -> Prop) : Prop :=
  forall t a r, P t a r -> forall w r1, span isalpha (t ++ r) = (w, r1) -> ~ spells "in" w.
Lemma lex_opt_in k P : lex_is k P -> firm P -> no_in P ->
  lex_is (opt_in k) (fun t a r => P t a r \/ exists w b t2, t = w ++ b ++ t2 /\ spells "in" w /\ blanks b /\ P t2 a r).
Proof.
  intros Hk Fk Nk. assert (W := lex_Ws k P Hk Fk). intros l a r. unfold opt_in. destruct (span isalpha l) as (w, r1) eqn:E. split.
  - destruct (keyword w _) as [[]|] eqn:K.
    + apply kw_in in K. intros H. apply W in H as (t & -> & b & t2 & -> & B & H). apply span_spec in E as (-> & _). exists (w ++ b ++ t2).
      split; [now rewrite !app_assoc|]. right. exists w, b, t2. auto.
    + intros H. apply Hk in H as (t & -> & H). eauto.
  - intros (t & -> & [H|(w2 & b & t2 & -> & S & B & H)]).
    + assert (NI := Nk _ _ _ H _ _ E). destruct (keyword w _) as [[]|] eqn:K; [apply kw_in in K; tauto|]. apply Hk. eauto.
    + rewrite <- !app_assoc in E. rewrite span_letters in E; [|now apply in_letters|apply begins_app; eapply begins_impl; [|apply blanks_b; exact B]; intros c; unfold blank, letter; lia].
      injection E as <- <-. rewrite (proj2 (kw_in w2) S). apply W. exists (b ++ t2). split; [now rewrite app_assoc|]. exists b, t2. auto.
Qed.

Definition ttl_acts (o : dur * option dur) : list action :=
  match o with
  | (d, None) => dur_acts d ++ [SetTtl; SetUv 1; SetTtlDyn]
  | (d, Some d2) => dur_acts d ++ [SetUv 1] ++ dur_acts d2 ++ [SetUv 2; SetTtlDyn]
  end.
Definition two (o : dur * option dur) : bool := match snd o with Some _ => true | None => false end.
Lemma lex_ttl_any k P : (forall dyn, lex_is (k dyn) (P dyn)) -> (forall dyn, firm (P dyn)) ->
  lex_is (ttl_any k) (fun t a r => exists tt o b t2 a2, t = tt ++ b ++ t2 /\ ttl_text tt o /\ blanks b /\ P (two o) t2 a2 r /\ a = ttl_acts o ++ a2).
Proof.
  intros Hk Fk. unfold ttl_any.
  assert (L1 : lex_is (emit [SetUv 1] ;; one (N.eqb 47) ;; ttl isblank [SetUv 2; SetTtlDyn] ;; ws ;; k true)
    (fun t a r => exists t2 d2 b t3 a3, t = 47 :: t2 ++ b ++ t3 /\ dur_text t2 d2 /\ blanks b /\ P true t3 a3 r /\ a = [SetUv 1] ++ (dur_acts d2 ++ [SetUv 2; SetTtlDyn]) ++ a3)).
  { eapply lex_ext; [apply lex_Em; apply lex_seq; [apply lex_one|apply lex_Sq; [apply p_ttl|apply lex_Ws; [apply Hk|apply Fk]]]|].
    intros t a r. unfold Em, Sq, Ws. split.
    - intros (a0 & -> & t1 & t2 & a1 & a2 & -> & -> & (-> & c & -> & C) & t3 & t4 & a3 & a4 & -> & -> & (d & D & ->) & b & t5 & -> & B & HP).
      apply N.eqb_eq in C as <-. exists t3, d, b, t5, a4. repeat split; auto; apply B.
    - intros (t2 & d2 & b & t3 & a3 & -> & D & B & HP & ->). eexists. split; [reflexivity|]. exists [47], (t2 ++ b ++ t3), [], ((dur_acts d2 ++ [SetUv 2; SetTtlDyn]) ++ a3).
      split; [reflexivity|]. split; [reflexivity|]. split; [split; [reflexivity|]; exists 47; auto|]. exists t2, (b ++ t3), (dur_acts d2 ++ [SetUv 2; SetTtlDyn]), a3.
      split; [reflexivity|]. split; [reflexivity|]. split; [eauto|]. exists b, t3. auto. }
  assert (L2 : lex_is (emit [SetTtl; SetUv 1; SetTtlDyn] ;; ws ;; k false)
    (fun t a r => exists b t3 a3, t = b ++ t3 /\ blanks b /\ P false t3 a3 r /\ a = [SetTtl; SetUv 1; SetTtlDyn] ++ a3)).
  { eapply lex_ext; [apply lex_Em; apply lex_Ws; [apply Hk|apply Fk]|]. intros t a r. unfold Em, Ws. split.
    - intros (a0 & -> & b & t5 & -> & B & HP). exists b, t5, a0. auto.
    - intros (b & t3 & a3 & -> & B & HP & ->). exists a3. split; [reflexivity|]. exists b, t3. auto. }
  eapply lex_ext; [apply lex_seq; [apply lex_ttl|apply (lex_if _ _ _ _ _ L1 L2)]|].
  - intros c H. apply orb_true_iff in H as [H|H].
    + split; [now apply blank_not_digit|now apply end_not_mult, blank_end1].
    + apply N.eqb_eq in H as ->. split; reflexivity.
  - intros t a r (t2 & d2 & b & t3 & a3 & -> & _). reflexivity.
  - intros t a r (b & t3 & a3 & -> & B & _). rewrite <- app_assoc. apply (blanks_begin _ (t3 ++ r)) in B. destruct (b ++ t3 ++ r); [reflexivity|]. cbn in *. unfold blank in B. apply N.eqb_neq. lia.
  - intros t a r. split.
    + intros (t1 & t2 & a1 & a2 & -> & -> & (d & D & -> & S) & [(t3 & d2 & b & t4 & a3 & -> & D2 & B & HP & ->)|(b & t3 & a3 & -> & B & HP & ->)]).
      * exists (t1 ++ 47 :: t3), (d, Some d2), b, t4, a3. split; [now rewrite <- app_assoc|]. split; [now constructor|]. repeat split; auto; try apply B. cbn [ttl_acts]. now rewrite app_nil_r, <- !app_assoc.
      * exists t1, (d, None), b, t3, a3. split; [reflexivity|]. split; [now constructor|]. repeat split; auto; try apply B. cbn [ttl_acts]. now rewrite app_nil_r, <- !app_assoc.
    + intros (tt & o & b & t2 & a2 & -> & T & B & HP & ->). destruct T as [t d D|t d t3 d2 D D2]; cbn [two snd] in HP.
      * exists t, (b ++ t2), (dur_acts d), ([SetTtl; SetUv 1; SetTtlDyn] ++ a2). split; [reflexivity|]. split; [cbn [ttl_acts]; now rewrite <- app_assoc|]. split.
        -- exists d. rewrite app_nil_r. repeat split; auto. apply (blanks_begin _ (t2 ++ r)) in B. rewrite <- app_assoc. destruct (b ++ t2 ++ r); [contradiction|]. cbn in *. apply isblank_iff in B. now rewrite B.
        -- right. exists b, t2, a2. auto.
      * exists t, (47 :: t3 ++ b ++ t2), (dur_acts d), ([SetUv 1] ++ (dur_acts d2 ++ [SetUv 2; SetTtlDyn]) ++ a2). split; [now rewrite <- app_assoc|]. split; [cbn [ttl_acts]; now rewrite <- !app_assoc|]. split.
        -- exists d. rewrite app_nil_r. repeat split; auto.
        -- left. exists t3, d2, b, t2, a2. auto.
Qed.
