(** The scanner's machine, part 7: what it has done when it stops within a
    line is the beginning of what it does for some line. *)
From Coq Require Import String Ascii.
From Verif Require Import Base DnameSpec DnameModel DnameProofs CompModel RespModel LtreeModel ZscanModel ZscanSpec ZscanProofs ZscanProofs2 ZscanProofs3 ZscanProofs4 ZscanProofs5 ZscanProofs6 ZscanProofs8 ZscanProofs10 ZscanProofs11 ZscanProofs12.
Local Open Scope N_scope.
Local Notation length := List.length.
Local Arguments N.lor : simpl never.
Local Arguments N.eqb : simpl never.
Local Arguments N.leb : simpl never.

(** the actions of [L] begin a list in [A], or the text begins with one in [Z] *)
Definition sh (L : lexer) (A : list action -> Prop) (Z : bytes -> Prop) : Prop :=
  (exists b, A b) /\ forall l a r, all_bytes l -> L l = (a, r) -> (exists b, A (a ++ b)) \/ exists h y, l = h ++ y /\ Z h.
Lemma sh_weak L (A B : list action -> Prop) (Y Z : bytes -> Prop) : sh L A Y -> (forall a, A a -> B a) -> (forall h, Y h -> Z h) -> sh L B Z.
Proof. intros ((b & I) & H) W V. split; [eauto|]. intros l a r T E. destruct (H _ _ _ T E) as [(x & X)|(h & y & -> & X)]; eauto 6. Qed.
Lemma all_suffix (x y : bytes) : all_bytes (x ++ y) -> all_bytes y.
Proof. intros H. now apply Forall_app in H. Qed.
Lemma all_prefix (x y : bytes) : all_bytes (x ++ y) -> all_bytes x.
Proof. intros H. now apply Forall_app in H. Qed.

Lemma sh_tk rd follow acts (T : bytes -> bytes -> Prop) L A Z tx0 t0 :
  (forall l t r, rd l = Some (t, r) -> exists tx, l = tx ++ r /\ T tx t) -> T tx0 t0 -> all_bytes tx0 ->
  (forall tx t, T tx t -> all_bytes tx -> sh L (fun a => A (acts t ++ a)) (fun h => Z (tx ++ h))) ->
  sh (tk rd follow acts ;; L) A Z.
Proof.
  intros R T0 B0 H. assert (No : exists b, A b) by (destruct (H _ _ T0 B0) as ((b & X) & _); eauto). split; [exact No|]. intros l a r B.
  unfold lseq, tk. destruct (rd l) as [(t, [|c r1])|] eqn:E; try (intros [= <- <-]; now left).
  destruct (follow c); [|intros [= <- <-]; now left]. destruct (R _ _ _ E) as (tx & -> & Tx). destruct (L (c :: r1)) as (y, r2) eqn:E2. intros [= <- <-].
  destruct (H tx t Tx (all_prefix _ _ B)) as (_ & H2). destruct (H2 _ _ _ (all_suffix _ _ B) E2) as [(b & X)|(h & y2 & -> & X)].
  - left. exists b. now rewrite <- app_assoc.
  - right. exists (tx ++ h), y2. split; [now rewrite <- app_assoc|exact X].
Qed.
Lemma sh_tk_last rd follow acts (T : bytes -> bytes -> Prop) (A : list action -> Prop) (Z : bytes -> Prop) tx0 t0 :
  (forall l t r, rd l = Some (t, r) -> exists tx, l = tx ++ r /\ T tx t) -> T tx0 t0 -> all_bytes tx0 ->
  (forall tx t, T tx t -> all_bytes tx -> (exists b, A b) /\ (A (acts t) \/ Z tx)) -> sh (tk rd follow acts) A Z.
Proof.
  intros R T0 B0 H. assert (No : exists b, A b) by now apply (H _ _ T0 B0). split; [exact No|]. intros l a r B.
  unfold tk. destruct (rd l) as [(t, [|c r1])|] eqn:E; try (intros [= <- <-]; now left).
  destruct (follow c); [|intros [= <- <-]; now left]. destruct (R _ _ _ E) as (tx & -> & Tx). intros [= <- <-].
  destruct (H tx t Tx (all_prefix _ _ B)) as (_ & [X|X]); [left; exists []; now rewrite app_nil_r|right; eauto].
Qed.
Lemma sh_emit e L A Z : sh L (fun a => A (e ++ a)) Z -> sh (emit e ;; L) A Z.
Proof.
  intros ((b & I) & H). split; [eauto|]. intros l a r T. unfold lseq, emit. destruct (L l) as (y, r2) eqn:E. intros [= <- <-].
  destruct (H _ _ _ T E) as [(x & X)|X]; [left|now right]. exists x. now rewrite <- app_assoc.
Qed.
Lemma sh_one p L A Z : (exists b, A b) -> (forall c, p c = true -> sh L A (fun h => Z (c :: h))) -> sh (one p ;; L) A Z.
Proof.
  intros No H. split; [exact No|]. intros l a r T.
  unfold lseq, one. destruct l as [|c l]; [intros [= <- <-]; now left|]. destruct (p c) eqn:P; [|intros [= <- <-]; now left].
  destruct (L l) as (y, r2) eqn:E. intros [= <- <-]. cbn [app]. destruct (H c P) as (_ & H2). destruct (H2 _ _ _ (all_suffix [c] _ T) E) as [X|(h & y2 & -> & X)]; [now left|right].
  exists (c :: h), y2. auto.
Qed.
Lemma lseq_assoc x y z l : ((x ;; y) ;; z) l = (x ;; y ;; z) l.
Proof.
  unfold lseq. destruct (x l) as (a, [r|]); [|reflexivity]. destruct (y r) as (b, [r2|]); [|reflexivity]. destruct (z r2) as (c, r3). now rewrite app_assoc.
Qed.
Lemma sh_assoc x y z A Z : sh (x ;; y ;; z) A Z -> sh ((x ;; y) ;; z) A Z.
Proof. intros (I & H). split; [exact I|]. intros l a r T E. rewrite lseq_assoc in E. eauto. Qed.
Lemma sh_ws L A Z : (forall b, blanks b -> sh L A (fun h => Z (b ++ h))) -> sh (ws ;; L) A Z.
Proof.
  intros H. assert (No : exists b, A b) by (apply (H [32]); split; [discriminate|repeat constructor]).
  unfold ws. apply sh_assoc. apply sh_one; [exact No|]. intros c Hc. split; [exact No|]. intros l a r T. unfold lseq. destruct (L (skip_blanks l)) as (y, r2) eqn:E. intros [= <- <-]. cbn [app].
  destruct (proj1 (skip_spec l (skip_blanks l)) eq_refl) as (g & El & Gg & _). rewrite El in T. apply all_suffix in T.
  assert (B : blanks (c :: g)) by (split; [discriminate|constructor; [now apply isblank_iff|exact Gg]]). destruct (H _ B) as (_ & H2).
  destruct (H2 _ _ _ T E) as [X|(h & y2 & Eh & X)]; [now left|right]. exists (g ++ h), y2. split; [now rewrite <- app_assoc, <- Eh|exact X].
Qed.
Lemma sh_if (c : bytes -> bool) L M A Z : sh L A Z -> sh M A Z -> sh (fun l => if c l then L l else M l) A Z.
Proof. intros (I & H1) (_ & H2). split; [exact I|]. intros l a r T. destruct (c l); [now apply H1|now apply H2]. Qed.
Lemma sh_eol L A Z : sh L A Z -> sh (L ;; eol) A Z.
Proof.
  intros (I & H). split; [exact I|]. intros l a r T. unfold lseq. destruct (L l) as (x, [r1|]) eqn:E; [|intros [= <- <-]; eauto].
  assert (Z0 : fst (eol r1) = []) by (unfold eol, one; destruct (skip_blanks r1) as [|c ?]; [reflexivity|]; now destruct (10 =? c)).
  destruct (eol r1) as (y, r2). cbn in Z0. subst y. intros [= <- <-]. rewrite app_nil_r. eauto.
Qed.
(** *** Tokens *)
Lemma rd_text l t r : txt_tok l = Some (t, r) -> exists tx, l = tx ++ r /\ text_token tx t.
Proof. intros H. apply txt_tok_read in H as (tx & -> & K). exists tx. split; [reflexivity|]. destruct K as [K|(-> & K & _)]; [now right|now left]. Qed.
Lemma rd_name l t r : name_tok l = Some (t, r) -> exists tx, l = tx ++ r /\ name_token tx t.
Proof. intros H. apply name_tok_read in H as (tx & -> & K). exists tx. split; [reflexivity|]. destruct K as [K|(-> & K & K2 & _)]; [now right|now left]. Qed.
Lemma rd_span p l t r : span1 p l = Some (t, r) -> exists tx, l = tx ++ r /\ tx = t /\ t <> [] /\ Forall (fun c => p c = true) t.
Proof. intros H. apply span1_read in H as (tx & -> & -> & N0 & F & _). eauto 6. Qed.
Definition ok_name (t : bytes) : Prop := t <> [] /\ all_bytes t.
Lemma name_empty tx : name_token tx [] -> tx = [34; 34].
Proof. intros [((N0 & _) & E & _)|(-> & _)]; [congruence|reflexivity]. Qed.
Lemma text_empty tx : text_token tx [] -> tx = [34; 34].
Proof. intros [((N0 & _) & E)|(-> & _)]; [congruence|reflexivity]. Qed.
Lemma name_bytes tx t : name_token tx t -> all_bytes tx -> all_bytes t.
Proof. intros [(_ & -> & _)|(-> & _)]; [auto|]. intros B. inversion B as [|? ? _ B2]. now apply all_prefix in B2. Qed.
Lemma plain_a : plain 97.
Proof. unfold plain, blank. cbn. lia. Qed.
Lemma bare_a : bare [97].
Proof. split; [discriminate|]. constructor; [apply plain_a|discriminate|constructor]. Qed.
Lemma name_a : name_token [97] [97].
Proof. left. split; [apply bare_a|]. split; [reflexivity|discriminate]. Qed.
Lemma byte_a : all_bytes [97].
Proof. repeat constructor. Qed.
Lemma sh_name follow acts L A (Z : bytes -> Prop) : Z [34; 34] ->
  (forall tx t, name_token tx t -> ok_name t -> sh L (fun a => A (acts t ++ a)) (fun h => Z (tx ++ h))) -> sh (tk name_tok follow acts ;; L) A Z.
Proof.
  intros Z0 H. assert (Oa : ok_name [97]) by (split; [discriminate|exact byte_a]). assert (No : exists b, A b) by (destruct (H _ _ name_a Oa) as ((b & X) & _); eauto).
  split; [exact No|]. intros l a r B. unfold lseq, tk. destruct (name_tok l) as [(t, [|c r1])|] eqn:E; try (intros [= <- <-]; now left).
  destruct (follow c); [|intros [= <- <-]; now left]. destruct (rd_name _ _ _ E) as (tx & -> & Tx). destruct (L (c :: r1)) as (y, r2) eqn:E2. intros [= <- <-].
  destruct t as [|t0 t1]; [right; apply name_empty in Tx; subst tx; eauto|].
  destruct (H tx _ Tx) as (_ & H2); [split; [discriminate|eapply name_bytes; [eassumption|eapply all_prefix; eassumption]]|].
  destruct (H2 _ _ _ (all_suffix _ _ B) E2) as [(b & X)|(h & y2 & -> & X)].
  - left. exists b. now rewrite <- app_assoc.
  - right. exists (tx ++ h), y2. split; [now rewrite <- app_assoc|exact X].
Qed.
Lemma sh_name_last follow acts (A : list action -> Prop) (Z : bytes -> Prop) : Z [34; 34] -> (forall t, ok_name t -> A (acts t)) -> sh (tk name_tok follow acts) A Z.
Proof.
  intros Z0 H. apply (sh_tk_last _ _ _ name_token _ _ [97] [97]); [exact rd_name|apply name_a|apply byte_a|]. intros tx t Tx B.
  split; [exists (acts [97]); apply H; split; [discriminate|exact byte_a]|]. destruct t as [|t0 t1]; [right; apply name_empty in Tx; now subst tx|left]. apply H. split; [discriminate|]. eapply name_bytes; eauto.
Qed.
Lemma sh_nrec acts (A : list action -> Prop) (Z : bytes -> Prop) : (forall b, blanks b -> Z (b ++ [34; 34])) -> (forall t, ok_name t -> A (SetRhs t :: acts)) -> sh (name_rec acts) A Z.
Proof. intros Z0 H. unfold name_rec. apply sh_ws. intros b B. apply sh_name_last; [now apply Z0|exact H]. Qed.
Lemma sh_text follow acts L A Z : (forall tx t, text_token tx t -> sh L (fun a => A (acts t ++ a)) (fun h => Z (tx ++ h))) -> sh (tk txt_tok follow acts ;; L) A Z.
Proof. intros H. apply (sh_tk _ _ _ text_token _ _ _ [97] [97]); [exact rd_text|left; split; [apply bare_a|reflexivity]|exact byte_a|intros; now apply H]. Qed.
Lemma sh_any_last rd follow acts (A : list action -> Prop) Z : (forall t, A (acts t)) -> sh (tk rd follow acts) A Z.
Proof.
  intros H. split; [exists (acts []); apply H|]. intros l a r _. left. revert H0. unfold tk.
  destruct (rd l) as [(t, [|c r1])|]; try (intros [= <- <-]; exists (acts []); apply H). destruct (follow c); intros [= <- <-]; [exists []; rewrite app_nil_r; apply H|exists (acts []); apply H].
Qed.
Lemma sh_uval follow acts L A Z : (forall d, digits d -> sh L (fun a => A (SetUval d :: acts ++ a)) (fun h => Z (d ++ h))) -> sh (uval follow acts ;; L) A Z.
Proof.
  intros H. unfold uval. apply (sh_tk _ _ _ (fun tx t => tx = t /\ digits t) _ _ _ [49] [49]).
  - intros l t r E. apply rd_span in E as (tx & -> & -> & N0 & F). exists t. repeat split; auto. eapply Forall_impl; [|exact F]. intros c. apply isdig_iff.
  - split; [reflexivity|]. split; [discriminate|]. repeat constructor; unfold is_digit; lia.
  - repeat constructor.
  - intros tx t (-> & D) _. exact (H t D).
Qed.
Lemma sh_ttl follow acts L A Z : (forall x d, dur_text x d -> sh L (fun a => A ((dur_acts d ++ acts) ++ a)) (fun h => Z (x ++ h))) -> sh (ttl follow acts ;; L) A Z.
Proof.
  intros H. unfold ttl. apply sh_assoc, sh_uval. intros d D.
  assert (No : forall x y, dur_text y x -> exists b, A (dur_acts x ++ b)) by (intros x y X; destruct (H y x X) as ((b & B) & _); exists (acts ++ b); now rewrite app_assoc).
  assert (N1 : exists b, A (SetUval d :: [] ++ b)) by (exact (No (Dur d None) _ (du_plain _ D))).
  split; [exact N1|]. intros l a r T. cbn [app].
  assert (Fin : forall x m l2 a2 r2, dur_text x (Dur d m) -> all_bytes l2 -> ((fun l => match l with c :: _ => if follow c then (acts, Some l) else ([], None) | [] => ([], None) end) ;; L) l2 = (a2, r2) ->
    (exists b, A (dur_acts (Dur d m) ++ a2 ++ b)) \/ exists h y, l2 = h ++ y /\ Z (x ++ h)).
  { intros x m l2 a2 r2 Gm T2. unfold lseq. destruct l2 as [|c l2]; [intros [= <- <-]; left; now apply (No _ x)|]. destruct (follow c); [|intros [= <- <-]; left; now apply (No _ x)].
    destruct (L (c :: l2)) as (y, r3) eqn:E. intros [= <- <-]. destruct (H _ _ Gm) as (_ & H2). destruct (H2 _ _ _ T2 E) as [(b & X)|X]; [left; exists b; now rewrite !app_assoc in *|right; exact X]. }
  rewrite lseq_assoc. unfold lseq at 1. destruct l as [|c l]; [intros [= <- <-]; now left|].
  destruct (ismult c) eqn:Q.
  - match goal with |- context [?f l] => destruct (f l) as (y, r2) eqn:E end. intros [= <- <-]. apply ismult_iff in Q. destruct (Fin (d ++ [c]) (Some c) l y r2) as [X|(h & y2 & -> & X)]; [now constructor|now apply (all_suffix [c])|exact E|left; exact X|right].
    exists (c :: h), y2. split; [reflexivity|]. now rewrite <- app_assoc in X.
  - match goal with |- context [let (_, _) := ?f in _] => destruct f as (y, r2) eqn:E end. intros [= <- <-]. exact (Fin d None (c :: l) y r2 (du_plain _ D) T E).
Qed.
Lemma sh_ttl_last follow acts (A : list action -> Prop) Z : (forall x d, dur_text x d -> A (dur_acts d ++ acts)) -> sh (ttl follow acts) A Z.
Proof.
  intros H. assert (X : sh (ttl follow acts ;; emit []) A (fun _ => False)).
  { apply sh_ttl. intros x d G. split; [exists []; rewrite app_nil_r; eapply H; eauto|]. intros l2 a2 r2 _ [= <- <-]. left. exists []. rewrite !app_nil_r. eapply H; eauto. }
  destruct X as (I & X). split; [exact I|]. intros l a r T E.
  unfold lseq, emit in X. destruct (X l (a ++ []) r T) as [(b & B)|(h & y & _ & [])]; [|rewrite <- app_assoc in B; left; eauto]. cbv beta. rewrite E. destruct r; [reflexivity|]. now rewrite app_nil_r.
Qed.

(** *** Data *)
Lemma txt_shape : forall fuel some l a r, txt_items fuel some l = (a, r) -> exists b items, a ++ b = map PushTxt items ++ [RecTxt].
Proof.
  induction fuel as [|fuel IH]; intros some l a r E; cbn [txt_items] in E; [injection E as <- <-; exists [RecTxt], []; reflexivity|].
  destruct l as [|c l]; [injection E as <- <-; exists [RecTxt], []; reflexivity|]. destruct (c =? 10).
  - destruct some; injection E as <- <-; [exists [], []|exists [RecTxt], []]; reflexivity.
  - destruct (isblank c); [eapply IH; eauto|]. revert E. unfold lseq, tk. destruct (txt_tok (c :: l)) as [(t, [|d r1])|]; try (intros [= <- <-]; exists [RecTxt], []; reflexivity).
    destruct (txt_follow d); [|intros [= <- <-]; exists [RecTxt], []; reflexivity]. destruct (txt_items fuel true (d :: r1)) as (y, r2) eqn:E2. intros [= <- <-].
    destruct (IH _ _ _ _ E2) as (b & items & X). exists b, (t :: items). cbn. now rewrite X.
Qed.
Definition hex_pairs (ps : list (N * N)) : Prop := Forall (fun p => hexdigit (fst p) /\ hexdigit (snd p)) ps.
Lemma octets_shape : forall n some l a r, (length l <= n)%nat -> octets some l = (a, r) -> exists b ps, a ++ b = octet_acts ps ++ [RecRfc3597] /\ hex_pairs ps.
Proof.
  assert (No : forall a r, ([], None) = (a : list action, r : option bytes) -> exists b ps, a ++ b = octet_acts ps ++ [RecRfc3597] /\ hex_pairs ps) by (intros a r [= <- <-]; exists [RecRfc3597], []; split; [reflexivity|constructor]).
  assert (Yes : forall x a r, ([RecRfc3597], x) = (a : list action, r : option bytes) -> exists b ps, a ++ b = octet_acts ps ++ [RecRfc3597] /\ hex_pairs ps) by (intros x a r [= <- <-]; exists [], []; split; [reflexivity|constructor]).
  induction n as [|n IH]; intros some [|c l] a r Hl; cbn [octets length] in *; try lia; try apply No.
  destruct (c =? 10); [apply Yes|]. destruct (isblank c); [destruct some; [apply IH; lia|apply Yes]|]. destruct (ishex c) eqn:Hc; [|apply No].
  destruct l as [|d [|e l]]; try apply No. destruct (ishex d && (ishex e || at_end e)) eqn:Q; [|apply No]. destruct (octets true (e :: l)) as (x, y) eqn:E. intros [= <- <-].
  destruct (IH true (e :: l) x y) as (b & ps & X & P); [cbn [length] in *; lia|exact E|]. exists b, ((c, d) :: ps). split; [cbn; now rewrite X|]. constructor; [|exact P]. apply andb_true_iff in Q as (Q & _). split; now apply ishex_iff.
Qed.
Definition good_data (a : list action) : Prop := exists d, data_good d /\ ~ data_fatal d /\ a = data_acts d.
Lemma sh_gen L (A : list action -> Prop) (Z : bytes -> Prop) : (forall d, digits d -> ~ number d 0 -> sh L (fun a => A ([SetUval d; DataSetup] ++ a)) (fun _ => False)) ->
  (forall b len c, blanks b -> digits len -> number len 0 -> blank c -> Z (92 :: 35 :: b ++ len ++ [c])) ->
  sh (one (N.eqb 92) ;; one (N.eqb 35) ;; ws ;; uval isblank [DataSetup] ;; L) A Z.
Proof.
  intros H HZ. assert (No : exists b, A b).
  { destruct (H [49]) as ((b & X) & _); [split; [discriminate|repeat constructor; unfold is_digit; lia]|intros (_ & X); cbn in X; discriminate|]. eauto. }
  apply sh_one; [exact No|]. intros c Hc. apply N.eqb_eq in Hc. subst c. apply sh_one; [exact No|]. intros c Hc. apply N.eqb_eq in Hc. subst c.
  apply sh_ws. intros b B. split; [exact No|]. intros l a r T. unfold lseq, uval, tk. destruct (span1 isdig l) as [(d, [|c r1])|] eqn:E; try (intros [= <- <-]; now left).
  destruct (isblank c) eqn:Q; [|intros [= <- <-]; now left]. apply rd_span in E as (tx & -> & -> & N0 & F). apply isblank_iff in Q.
  assert (D : digits d) by (split; [exact N0|]; eapply Forall_impl; [|exact F]; intros x; apply isdig_iff).
  destruct (L (c :: r1)) as (y, r2) eqn:E2. intros [= <- <-].
  assert (Dec : number d 0 \/ ~ number d 0).
  { unfold number. destruct (N.lt_decidable (value d) (2 ^ 64)) as [X|X]; [|right; tauto]. destruct (N.eq_decidable 0 (value d mod 2 ^ 32)); [left|right]; tauto. }
  destruct Dec as [X|X].
  - right. exists (d ++ [c]), r1. split; [now rewrite <- app_assoc|]. now apply HZ.
  - left. destruct (H d D X) as (_ & H2). destruct (H2 _ _ _ (all_suffix _ _ T) E2) as [(b0 & Y)|(h & y2 & _ & [])]. exists b0. exact Y.
Qed.
Ltac fin d := exists d; split; [|split; [|reflexivity]].
Lemma sh_rdata ty k : map lower k = codes (kw ty) -> sh (rdata ty) good_data (fun h => deadly_data (k ++ h)).
Proof.
  intros K. destruct ty; cbn [rdata kw] in *.
  - apply sh_ws. intros b B. apply sh_any_last. intros t. fin (DA t); cbn; auto.
  - apply sh_ws. intros b B. apply sh_any_last. intros t. fin (DAaaa t); cbn; auto.
  - apply sh_nrec; [intros b B; apply (dd_name "ns"); cbn; auto|]. intros t (N0 & Ba). fin (DNs t); cbn; auto.
  - apply sh_nrec; [intros b B; apply (dd_name "cname"); cbn; auto|]. intros t (N0 & Ba). fin (DCname t); cbn; auto.
  - apply sh_nrec; [intros b B; apply (dd_name "ptr"); cbn; auto|]. intros t (N0 & Ba). fin (DPtr t); cbn; auto.
  - apply sh_ws. intros b B. apply sh_uval. intros d D. apply sh_nrec; [intros b1 B1; now apply dd_mx|]. intros t (N0 & Ba). fin (DMx d t); cbn; auto.
  - unfold txt_data.
    assert (No : exists a, good_data a) by (eexists; fin (DTxt []); cbn; auto).
    apply sh_one; [exact No|]. intros c Hc. apply sh_emit. split; [exists [RecTxt]; fin (DTxt []); cbn; auto|]. intros l a r _ E.
    left. apply txt_shape in E as (b & items & X). exists b. rewrite X. fin (DTxt items); cbn; auto.
  - apply sh_ws. intros b B. apply sh_uval. intros d D. apply sh_ws. intros b1 B1. apply sh_uval. intros d1 D1. apply sh_ws. intros b2 B2. apply sh_uval. intros d2 D2.
    apply sh_nrec; [intros b3 B3; now apply dd_srv|]. intros t (N0 & Ba). fin (DSrv d d1 d2 t); cbn; auto.
  - apply sh_ws. intros b B. apply sh_uval. intros d D. apply sh_ws. intros b1 B1. apply sh_uval. intros d1 D1. apply sh_ws. intros b2 B2. apply sh_emit.
    apply sh_text. intros x1 t1 T1. apply sh_ws. intros b3 B3. apply sh_text. intros x2 t2 T2. apply sh_ws. intros b4 B4. apply sh_text. intros x3 t3 T3.
    apply sh_nrec; [intros b5 B5; eapply dd_naptr; eauto|]. intros t (N0 & Ba). fin (DNaptr d d1 t1 t2 t3 t); cbn; auto.
  - apply sh_ws. intros b B. apply sh_name; [now apply dd_soa|]. intros x1 n1 X1 (Nn1 & Bn1). apply sh_ws. intros b1 B1. apply sh_name; [eapply dd_soa_mail; eauto|]. intros x2 n2 X2 (Nn2 & Bn2).
    apply sh_ws. intros b2 B2. apply sh_ttl. intros y1 d1 D1. apply sh_ws. intros b3 B3. apply sh_ttl. intros y2 d2 D2. apply sh_ws. intros b4 B4. apply sh_ttl. intros y3 d3 D3.
    apply sh_ws. intros b5 B5. apply sh_ttl. intros y4 d4 D4. apply sh_ws. intros b6 B6. apply sh_ttl_last. intros y5 d5 D5.
    fin (DSoa n1 n2 d1 d2 d3 d4 d5); [cbn|cbn; tauto]. repeat split; auto; eapply dur_text_good; eauto.
  - apply sh_uval. intros ty TY. apply sh_ws. intros b B. apply sh_gen.
    + intros d D Nz. assert (No : good_data ([SetUval ty; SetUv 1; SetUval d; DataSetup; RecRfc3597])) by (fin (DGen ty d []); [constructor|exact Nz]).
      apply sh_one; [eexists; exact No|]. intros c _. split; [eexists; exact No|]. intros l a r _ E. left. apply (octets_shape (length l)) in E as (b1 & ps & X & P); [|lia].
      exists b1. rewrite X. fin (DGen ty d ps); [exact P|exact Nz].
    + intros b1 len c B1 Dl Nl Bc. now apply dd_gen.
  - apply sh_ws. intros b B. apply sh_uval. intros d D. apply sh_ws. intros b1 B1.
    apply (sh_tk _ _ _ (fun tx t => ~ In 0 t) _ _ _ [97] [97]).
    + intros l t r E. apply rd_span in E as (tx & -> & -> & N0 & F). exists t. split; [reflexivity|]. intros I0. rewrite Forall_forall in F. apply F in I0. discriminate.
    + intros [X|[]]. discriminate.
    + exact byte_a.
    + intros tx t N0 _. apply sh_ws. intros b2 B2. apply sh_emit. apply sh_any_last. intros v. fin (DCaa d t v); cbn; auto.
  - apply sh_ws. intros b B. apply sh_any_last. intros t. fin (DDyna t); cbn; auto.
  - apply sh_ws. intros b B. apply sh_any_last. intros t. fin (DDync t); cbn; auto.
Qed.

(** *** Records *)
Lemma good_inh : exists a, good_data a.
Proof. eexists. fin (DA []); cbn; auto. Qed.
Lemma sh_rhs dyn : sh (rr_rhs dyn) good_data deadly_data.
Proof.
  split; [exact good_inh|]. intros l a r T E. unfold rr_rhs in E. destruct (span isalpha l) as (w, r1) eqn:Es. apply span_spec in Es as (-> & _ & _).
  destruct (keyword w keywords) as [ty|] eqn:Ek; [|injection E as <- <-; left; exact good_inh]. apply kw_iff in Ek.
  destruct (dyn && _); [injection E as <- <-; left; exact good_inh|]. destruct (sh_rdata ty w Ek) as (_ & H). destruct (H _ _ _ (all_suffix _ _ T) E) as [X|(h & y & -> & X)]; [now left|right].
  exists (w ++ h), y. split; [now rewrite <- app_assoc|exact X].
Qed.
Lemma sh_opt_in k A Z : sh k A Z -> (forall w b, spells "in" w -> blanks b -> sh k A (fun h => Z (w ++ b ++ h))) -> sh (opt_in k) A Z.
Proof.
  intros (I & H) H2. split; [exact I|]. intros l a r T E. unfold opt_in in E. destruct (span isalpha l) as (w, r1) eqn:Es.
  destruct (keyword w [([105; 110], tt)]) as [[]|] eqn:Ek; [|now apply H in E]. apply kw_in in Ek. apply span_spec in Es as (-> & _ & _).
  assert (S : sh (ws ;; k) A (fun h => Z (w ++ h))) by (apply sh_ws; intros b B; now apply H2). destruct S as (_ & S). destruct (S _ _ _ (all_suffix _ _ T) E) as [X|(h & y & -> & X)]; [now left|right].
  exists (w ++ h), y. split; [now rewrite <- app_assoc|exact X].
Qed.
Lemma sh_ttl_any k A Z : (forall t o b dyn, ttl_text t o -> blanks b -> sh (k dyn) (fun a => A (ttl_acts o ++ a)) (fun h => Z (t ++ b ++ h))) -> sh (ttl_any k) A Z.
Proof.
  intros H. unfold ttl_any. apply sh_ttl. intros x d D. apply sh_if.
  - apply sh_emit. apply sh_one.
    + assert (B32 : blanks [32]) by (split; [discriminate|repeat constructor]). destruct (H _ _ [32] false (tt_two x d x d D D) B32) as ((b & X) & _).
      eexists. cbn [ttl_acts] in X. rewrite app_nil_r. rewrite <- !app_assoc in X. exact X.
    + intros c Hc. apply N.eqb_eq in Hc. subst c. apply sh_ttl. intros x2 d2 D2. apply sh_ws. intros b B. eapply sh_weak; [exact (H _ _ b true (tt_two x d x2 d2 D D2) B)| |].
      * intros a. cbv beta. cbn [ttl_acts]. now rewrite app_nil_r, <- !app_assoc.
      * intros h. cbv beta. rewrite <- !app_assoc. cbn [app]. auto.
  - apply sh_emit. apply sh_ws. intros b B. eapply sh_weak; [exact (H _ _ b false (tt_one x d D) B)| |auto]. intros a. cbv beta. cbn [ttl_acts]. now rewrite app_nil_r, <- !app_assoc.
Qed.
Definition good_rest (a : list action) : Prop := exists topt d, ttl_good topt /\ data_good d /\ ~ data_fatal d /\ a = opt_acts topt ++ data_acts d.
Definition deadly_rest (h : bytes) : Prop := exists t topt td, h = t ++ td /\ options_text t topt /\ deadly_data td.
Lemma ttl_text_ok t o : ttl_text t o -> ttl_good (Some o).
Proof. intros [x d D|x d x2 d2 D D2]; cbn; split; auto; eapply dur_text_good; eauto. Qed.
Lemma sh_rest : sh rr_rest good_rest deadly_rest.
Proof.
  assert (R0 : forall dyn t, options_text t None -> sh (rr_rhs dyn) good_rest (fun h => deadly_rest (t ++ h))).
  { intros dyn t O. eapply sh_weak; [apply sh_rhs| |].
    - intros a (d & G & F & ->). exists None, d. repeat split; auto.
    - intros h X. exists t, None, h. auto. }
  assert (R1 : forall dyn t o, options_text t (Some o) -> ttl_good (Some o) -> sh (rr_rhs dyn) (fun a => good_rest (ttl_acts o ++ a)) (fun h => deadly_rest (t ++ h))).
  { intros dyn t o O Go. eapply sh_weak; [apply sh_rhs| |].
    - intros a (d & G & F & ->). exists (Some o), d. auto.
    - intros h X. exists t, (Some o), h. auto. }
  assert (As : forall L A (Y Z : bytes -> Prop), sh L A Y -> (forall h, Y h -> Z h) -> sh L A Z) by (intros L A Y Z S W; eapply sh_weak; eauto).
  unfold rr_rest. apply sh_if.
  - apply sh_ttl_any. intros t o b dyn To B. assert (Go := ttl_text_ok _ _ To). apply sh_opt_in.
    + eapply As; [apply (R1 dyn (t ++ b)); [now constructor|exact Go]|]. intros h. cbv beta. now rewrite <- !app_assoc.
    + intros w b1 W B1. eapply As; [apply (R1 dyn (t ++ b ++ w ++ b1)); [now constructor|exact Go]|]. intros h. cbv beta. now rewrite <- !app_assoc.
  - apply sh_opt_in.
    + apply sh_if; [|apply (R0 false []); constructor]. apply sh_ttl_any. intros t o b dyn To B.
      eapply As; [apply (R1 dyn (t ++ b)); [now constructor|eapply ttl_text_ok; eauto]|]. intros h. cbv beta. now rewrite <- !app_assoc.
    + intros w b W B. apply sh_if.
      * apply sh_ttl_any. intros t o b1 dyn To B1. eapply As; [apply (R1 dyn (w ++ b ++ t ++ b1)); [now constructor|eapply ttl_text_ok; eauto]|]. intros h. cbv beta. now rewrite <- !app_assoc.
      * eapply As; [apply (R0 false (w ++ b)); now constructor|]. intros h. cbv beta. now rewrite <- !app_assoc.
Qed.
Definition good_stmt (a : list action) : Prop := exists s, stmt_good s /\ ~ stmt_fatal s /\ a = stmt_acts s.
Lemma good_stmt_inh : exists a, good_stmt a.
Proof. exists []. exists Empty. cbn. auto. Qed.
Lemma sh_rr : sh rr good_stmt deadly.
Proof.
  split; [exact good_stmt_inh|]. intros l a r T E. unfold rr in E.
  assert (Tail : forall o on, owner_text o on -> (forall n, on = Some n -> all_bytes n) -> sh (ws ;; emit [UseDefTtl] ;; rr_rest) (fun a => good_stmt (lhs_acts on ++ a)) (fun h => deadly (o ++ h))).
  { intros o on O B. apply sh_ws. intros b Bl. apply sh_emit. eapply sh_weak; [exact sh_rest| |].
    - intros a0 (topt & d & Gt & Gd & F & ->). exists (Rec on topt d). cbn [stmt_good stmt_fatal stmt_acts]. repeat split; auto. destruct on; auto.
    - intros h (t & topt & td & -> & Op & D). eapply de_rec; eauto. }
  destruct (starts isblank l) eqn:S.
  - unfold lseq at 1 in E. rewrite S in E. destruct (Tail [] None ow_none) as (_ & H); [discriminate|]. match type of E with (let (_, _) := ?f in _) = _ => destruct f as (y, r2) eqn:E2 end. injection E as <- <-. exact (H _ _ _ T E2).
  - assert (X : sh (tk name_tok isblank (fun t => [SetLhs t]) ;; ws ;; emit [UseDefTtl] ;; rr_rest) good_stmt deadly).
    { apply (sh_tk _ _ _ name_token _ _ _ [97] [97]); [exact rd_name|exact name_a|exact byte_a|]. intros tx t Tx B. apply (Tail tx (Some t)); [now constructor|]. intros n [= <-]. eapply name_bytes; eauto. }
    destruct X as (_ & X). apply (X l a r T). rewrite <- E. unfold lseq. cbv beta. rewrite S. reflexivity.
Qed.
Lemma sh_cmd : sh cmd good_stmt (fun h => deadly (36 :: h)).
Proof.
  split; [exact good_stmt_inh|]. intros l a r T E. unfold cmd in E. destruct (span isalpha l) as (w, r1) eqn:Es. apply span_spec in Es as (-> & _ & _).
  assert (Use : forall L, sh L good_stmt (fun h => deadly (36 :: w ++ h)) -> L r1 = (a, r) -> (exists b, good_stmt (a ++ b)) \/ exists h y, w ++ r1 = h ++ y /\ deadly (36 :: h)).
  { intros L (_ & H) EL. destruct (H _ _ _ (all_suffix _ _ T) EL) as [X|(h & y & -> & X)]; [now left|right]. exists (w ++ h), y. split; [now rewrite <- app_assoc|exact X]. }
  destruct (keyword w commands) as [c|] eqn:Ek; [|injection E as <- <-; left; exact good_stmt_inh]. apply kw_cmd in Ek. destruct c; cbn [cname] in Ek.
  - apply Use in E; [exact E|]. apply sh_ws. intros b B. apply sh_ttl_last. intros x d D. exists (SetDefault d). cbn. repeat split; auto. eapply dur_text_good; eauto.
  - apply Use in E; [exact E|]. apply sh_nrec; [intros b B; now apply de_origin|]. intros t (N0 & B). exists (SetOrigin t). cbn. auto.
  - apply Use in E; [exact E|]. apply sh_emit. apply sh_ws. intros b B.
    assert (Gi : exists a0, good_stmt ([ResetRhsOrigin] ++ a0)) by (exists [SetFilename [97]; ProcessInclude]; exists (Include [97] None); cbn; repeat split; auto; intros [X|X]; discriminate).
    split; [exact Gi|]. intros l1 a1 r2 T1. unfold lseq, tk. destruct (txt_tok l1) as [(t, [|c0 r3])|] eqn:Et; try (intros [= <- <-]; left; exact Gi).
    destruct (at_end c0); [|intros [= <- <-]; left; exact Gi]. apply rd_text in Et as (tx & -> & Tx). destruct t as [|t0 t1].
    + intros _. right. apply text_empty in Tx. subst tx. exists [34; 34], (c0 :: r3). split; [reflexivity|now apply de_include].
    + destruct (starts (N.eqb 10) (c0 :: r3)).
      * intros [= <- <-]. left. exists []. exists (Include (t0 :: t1) None). cbn. repeat split; auto. intros [X|X]; discriminate.
      * destruct (name_rec [ProcessInclude] (c0 :: r3)) as (y, r4) eqn:En. intros [= <- <-].
        assert (SN : sh (name_rec [ProcessInclude]) (fun a0 => good_stmt ([ResetRhsOrigin] ++ [SetFilename (t0 :: t1)] ++ a0)) (fun h => deadly (36 :: w ++ b ++ tx ++ h))).
        { apply sh_nrec; [intros b1 B1; eapply de_include_at; eauto|]. intros n (Nn & Bn). exists (Include (t0 :: t1) (Some n)). cbn. repeat split; auto. intros [X|X]; [discriminate|]. now injection X as ->. }
        destruct SN as (_ & SN). destruct (SN _ _ _ (all_suffix _ _ T1) En) as [X|(h & y2 & Eh & X)]; [left; exact X|right]. exists (tx ++ h), y2. split; [now rewrite <- app_assoc, <- Eh|exact X].
Qed.
Lemma sh_line : sh line good_stmt deadly.
Proof.
  split; [exact good_stmt_inh|]. intros l a r T. rewrite line_eq.
  assert (Other : (if starts (N.eqb 10) (skip_blanks l) then eol l else (rr;; eol) l) = (a, r) -> (exists b, good_stmt (a ++ b)) \/ exists h y, l = h ++ y /\ deadly h).
  { destruct (starts (N.eqb 10) (skip_blanks l)).
    - intros E. left. assert (Z0 : fst (eol l) = []) by (unfold eol, one; destruct (skip_blanks l) as [|c ?]; [reflexivity|]; now destruct (10 =? c)). rewrite E in Z0. cbn in Z0. subst a. exact good_stmt_inh.
    - intros E. destruct (sh_eol _ _ _ sh_rr) as (_ & H). exact (H _ _ _ T E). }
  destruct l as [|c l]; [exact Other|]. destruct (c =? 36) eqn:Q; [|exact Other]. apply N.eqb_eq in Q. subst c. intros E.
  destruct (sh_eol _ _ _ sh_cmd) as (_ & H). destruct (H _ _ _ (all_suffix [36] _ T) E) as [X|(h & y & -> & X)]; [now left|right]. exists (36 :: h), y. auto.
Qed.
