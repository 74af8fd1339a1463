(** The scanner's machine, part 2: the data of records. *)
From Coq Require Import String Ascii.
From Verif Require Import Base DnameSpec DnameModel DnameProofs CompModel RespModel LtreeModel ZscanModel ZscanSpec ZscanProofs.
Local Open Scope N_scope.
Local Notation length := List.length.
Local Arguments N.lor : simpl never.
Local Arguments N.eqb : simpl never.
Local Arguments N.leb : simpl never.

(** ** Chains of words *)
Definition nb (t : bytes) : Prop := begins (fun c => ~ blank c) t.
Lemma nb_app t r : nb t -> nb (t ++ r).
Proof. destruct t; cbn; [contradiction|auto]. Qed.
Lemma nb_not t : nb t -> ~ begins blank t.
Proof. destruct t; cbn; auto. Qed.
Lemma blanks_begin b r : blanks b -> begins blank (b ++ r).
Proof. intros (N & F). destruct F; [congruence|exact H]. Qed.

Definition Ws (P : bytes -> list action -> bytes -> Prop) (t : bytes) (a : list action) (r : bytes) : Prop :=
  exists b t2, t = b ++ t2 /\ blanks b /\ P t2 a r.
Definition Sq (Q : bytes -> list action -> Prop) (P : bytes -> list action -> bytes -> Prop) (t : bytes) (a : list action) (r : bytes) : Prop :=
  exists t1 t2 a1 a2, t = t1 ++ t2 /\ a = a1 ++ a2 /\ Q t1 a1 /\ P t2 a2 r.
Definition Em (a0 : list action) (P : bytes -> list action -> bytes -> Prop) (t : bytes) (a : list action) (r : bytes) : Prop :=
  exists a1, a = a0 ++ a1 /\ P t a1 r.

Definition firm (P : bytes -> list action -> bytes -> Prop) : Prop := forall t a r, P t a r -> nb t.
Lemma firm_sq (Q : bytes -> list action -> Prop) P : (forall t a, Q t a -> nb t) -> firm (Sq Q P).
Proof. intros H t a r (t1 & t2 & a1 & a2 & -> & -> & HQ & _). apply nb_app. eauto. Qed.
Lemma firm_em a0 P : firm P -> firm (Em a0 P).
Proof. intros H t a r (a1 & -> & HP). eauto. Qed.

Lemma lex_Ws x P : lex_is x P -> firm P -> lex_is (ws ;; x) (Ws P).
Proof.
  intros Hx F. eapply lex_ext; [apply lex_seq; [apply lex_ws|apply Hx]|]. intros t a r. split.
  - intros (t1 & t2 & a1 & a2 & -> & -> & (-> & B & _) & HP). exists t1, t2. auto.
  - intros (b & t2 & -> & B & HP). exists b, t2, [], a. repeat split; auto; try apply B. apply nb_not, nb_app. eauto.
Qed.
Lemma lex_Em a0 x P : lex_is x P -> lex_is (emit a0 ;; x) (Em a0 P).
Proof.
  intros Hx. eapply lex_ext; [apply lex_seq; [apply lex_emit|apply Hx]|]. intros t a r. split.
  - intros (t1 & t2 & a1 & a2 & -> & -> & (-> & ->) & HP). exists a2. auto.
  - intros (a2 & -> & HP). exists [], t, a0, a2. auto.
Qed.
Lemma lex_Sq x y (Q : bytes -> list action -> Prop) P : lex_is x (fun t a r => Q t a /\ begins blank r) -> lex_is y (Ws P) -> lex_is (x ;; y) (Sq Q (Ws P)).
Proof.
  intros Hx Hy. eapply lex_ext; [apply lex_seq; [apply Hx|apply Hy]|]. intros t a r. split.
  - intros (t1 & t2 & a1 & a2 & -> & -> & (HQ & _) & HP). exists t1, t2, a1, a2. auto.
  - intros (t1 & t2 & a1 & a2 & -> & -> & HQ & HP). exists t1, t2, a1, a2. repeat split; auto. destruct HP as (b & t3 & -> & B & _). rewrite <- app_assoc. now apply blanks_begin.
Qed.

Lemma nb_digits t : digits t -> nb t.
Proof. intros (N & F). destruct F; [congruence|]. cbn. unfold is_digit, blank in *. lia. Qed.
Lemma nb_bare t : bare t -> nb t.
Proof. intros (N & U). destruct U as [|c t P| |]; [congruence|apply P|cbn; unfold blank; lia|cbn; unfold blank; lia]. Qed.
Lemma nb_quoted t i : quoted t i -> nb t.
Proof. intros (-> & _). cbn. unfold blank. lia. Qed.
Lemma nb_name t n : name_token t n -> nb t.
Proof. intros [(B & _)|Q]; [now apply nb_bare|now apply nb_quoted in Q]. Qed.
Lemma nb_text t n : text_token t n -> nb t.
Proof. intros [(B & _)|Q]; [now apply nb_bare|now apply nb_quoted in Q]. Qed.
Lemma nb_half t : half t -> nb t.
Proof. intros (N & U). destruct U as [|c t (P & _)| |]; [congruence|apply P|cbn; unfold blank; lia|cbn; unfold blank; lia]. Qed.
Lemma nb_plug t : plugin_token t -> nb t.
Proof. intros [H|(p & q & -> & H & _)]; [now apply nb_half|apply nb_app; now apply nb_half]. Qed.
Lemma nb_dur t d : dur_text t d -> nb t.
Proof. intros [n H|n c H _]; [now apply nb_digits|apply nb_app; now apply nb_digits]. Qed.
Lemma nb_all (P : N -> Prop) t : (forall c, P c -> ~ blank c) -> t <> [] -> Forall P t -> nb t.
Proof. intros H N F. destruct F; [congruence|]. cbn. auto. Qed.

(** ** The pieces *)
Lemma blank_not_digit c : isblank c = true -> isdig c = false.
Proof. rewrite isblank_iff, <- not_true_iff_false, isdig_iff. unfold blank, is_digit. lia. Qed.
Lemma end_not_digit c : at_end c = true -> isdig c = false.
Proof. rewrite at_end_iff, <- not_true_iff_false, isdig_iff. unfold end_of, blank, is_digit. lia. Qed.
Lemma end_not_mult c : at_end c = true -> ismult c = false.
Proof. rewrite at_end_iff, <- not_true_iff_false. intros H Q. apply mult_letter in Q. unfold end_of, blank, letter in *. lia. Qed.
Lemma blank_end1 c : isblank c = true -> at_end c = true.
Proof. unfold at_end. now intros ->. Qed.

Lemma p_uval acts : lex_is (uval isblank acts) (fun t a r => (digits t /\ a = SetUval t :: acts) /\ begins blank r).
Proof. eapply lex_ext; [apply lex_uval, blank_not_digit|]. intros t a r. cbv beta. rewrite starts_blank. tauto. Qed.
Lemma p_ttl acts : lex_is (ttl isblank acts) (fun t a r => (exists d, dur_text t d /\ a = dur_acts d ++ acts) /\ begins blank r).
Proof.
  eapply lex_ext; [apply lex_ttl; intros c H; split; [now apply blank_not_digit|apply end_not_mult, blank_end1, H]|].
  intros t a r. cbv beta. setoid_rewrite starts_blank. split; [intros (d & ?); intuition eauto|intros ((d & ?) & ?); exists d; tauto].
Qed.
Lemma p_ttl_end acts : lex_is (ttl at_end acts) (fun t a r => exists d, dur_text t d /\ a = dur_acts d ++ acts /\ begins end_of r).
Proof.
  eapply lex_ext; [apply lex_ttl; intros c H; split; [now apply end_not_digit|now apply end_not_mult]|].
  intros t a r. cbv beta. now setoid_rewrite starts_end.
Qed.
Lemma p_name acts : lex_is (tk name_tok isblank acts) (fun t a r => (exists n, name_token t n /\ a = acts n) /\ begins blank r).
Proof.
  eapply lex_ext; [apply lex_name; intros c H; now apply at_end_iff, blank_end1|]. intros t a r. cbv beta. setoid_rewrite starts_blank.
  split; [intros (n & ?); intuition eauto|intros ((n & ?) & ?); exists n; tauto].
Qed.
Lemma p_name_end acts : lex_is (tk name_tok at_end acts) (fun t a r => exists n, name_token t n /\ a = acts n /\ begins end_of r).
Proof. eapply lex_ext; [apply lex_name; intros c; apply at_end_iff|]. intros t a r. cbv beta. now setoid_rewrite starts_end. Qed.
Lemma p_text acts : lex_is (tk txt_tok isblank acts) (fun t a r => (exists n, text_token t n /\ a = acts n) /\ begins blank r).
Proof.
  eapply lex_ext; [apply lex_text; intros c H; now apply at_end_iff, blank_end1|]. intros t a r. cbv beta. setoid_rewrite starts_blank.
  split; [intros (n & ?); intuition eauto|intros ((n & ?) & ?); exists n; tauto].
Qed.
Lemma p_text_end acts : lex_is (tk txt_tok at_end acts) (fun t a r => exists n, text_token t n /\ a = acts n /\ begins end_of r).
Proof. eapply lex_ext; [apply lex_text; intros c; apply at_end_iff|]. intros t a r. cbv beta. now setoid_rewrite starts_end. Qed.
Lemma p_span p (P : N -> Prop) follow acts : (forall c, p c = true <-> P c) -> (forall c, follow c = true -> ~ P c) ->
  lex_is (tk (span1 p) follow acts) (fun t a r => (t <> [] /\ Forall P t /\ a = acts t) /\ starts follow r = true).
Proof.
  intros HP D. eapply lex_ext; [apply lex_span|].
  - intros c Hc. rewrite <- not_true_iff_false, HP. auto.
  - intros t a r. assert (E : Forall (fun c => p c = true) t <-> Forall P t) by (split; intros F; eapply Forall_impl; try exact F; intros c; apply HP). cbv beta. rewrite E. tauto.
Qed.
Lemma p_nrec acts : lex_is (name_rec acts) (Ws (fun t a r => exists n, name_token t n /\ a = SetRhs n :: acts /\ begins end_of r)).
Proof. apply lex_Ws; [apply p_name_end|]. intros t a r (n & H & _). now apply nb_name in H. Qed.

(** ** TXT *)
Lemma txt_body_head t l : txt_body t l -> t = [] \/ begins (fun c => blank c \/ c = 34 \/ plain c \/ c = 92) t.
Proof.
  intros [|c t' l' B|q i t' l' (-> & _)|w t' l' (N & U)]; [now left|right; cbn; auto|right; cbn; auto|right].
  destruct U; [congruence|cbn; auto|cbn; auto|cbn; auto].
Qed.
Lemma txt_body_gap t g l : txt_body t l -> gap g -> txt_body (t ++ g) l.
Proof.
  intros H G. induction H as [|c t l B H IH|q i t l Q H IH|w t l B E H IH]; cbn [app].
  - induction G; constructor; auto.
  - constructor; auto.
  - rewrite <- app_assoc. now apply tb_quoted.
  - rewrite <- app_assoc. apply tb_bare; auto. destruct t as [|c t]; [|cbn in *; destruct E as [E|E]; [discriminate|right; exact E]]. cbn. destruct G; auto.
Qed.
Lemma begins_10 r : begins (eq 10) r -> exists q, r = 10 :: q.
Proof. destruct r; cbn; [contradiction|]. intros <-. eauto. Qed.
Lemma txt_follow_ok t l r : txt_body t l -> begins (eq 10) r -> starts txt_follow (t ++ r) = true.
Proof.
  intros B R. apply txt_body_head in B as [->|B].
  - apply begins_10 in R as (q & ->). reflexivity.
  - destruct t as [|c t]; [contradiction|]. cbn in *. unfold txt_follow, at_end. destruct B as [B|[->|[B| ->]]].
    + apply isblank_iff in B. now rewrite B.
    + reflexivity.
    + apply lit_iff in B. rewrite B. now rewrite !orb_true_r.
    + reflexivity.
Qed.
Lemma txt_items_spec fuel : forall some l a r, (length l < fuel)%nat ->
  (txt_items fuel some l = (a, Some r) <->
   exists t items, l = t ++ r /\ txt_body t items /\ begins (eq 10) r /\ (some = false -> t <> []) /\ a = map PushTxt items ++ [RecTxt]).
Proof.
  induction fuel as [|fuel IH]; intros some l a r Hl; [lia|]. cbn [txt_items]. destruct l as [|c l].
  - split; [discriminate|]. intros (t & items & E & B & R & _). symmetry in E. apply app_eq_nil in E as (-> & ->). contradiction.
  - cbn [length] in Hl. destruct (N.eqb_spec c 10) as [->|N10]; [|destruct (isblank c) eqn:Qb].
    + split.
      * destruct some; [|discriminate]. intros [= <- <-]. exists [], []. repeat split; try constructor. discriminate.
      * intros (t & items & E & B & R & S & ->). destruct t as [|d t].
        { inversion B; subst; try (destruct some; [cbn in E; now subst r|exfalso; now apply S]); try discriminate.
          - destruct H0 as (-> & _); discriminate.
          - destruct H0 as (N & _). apply app_eq_nil in H as (-> & _). congruence. }
        exfalso. cbn in E. injection E as <- E. apply txt_body_head in B as [B|B]; [discriminate|]. cbn in B. unfold plain, blank in B. cbn in B. intuition discriminate.
    + apply isblank_iff in Qb. rewrite IH by lia. split.
      * intros (t & items & -> & B & R & S & ->). exists (c :: t), items. repeat split; auto; [now constructor|discriminate].
      * intros (t & items & E & B & R & S & ->). destruct t as [|d t].
        { cbn in E. subst r. cbn in R. congruence. }
        cbn in E. injection E as <- E. inversion B; subst.
        -- exists t, items. repeat split; auto. discriminate.
        -- exfalso. destruct H0 as (-> & _). cbn in H. injection H as <- _. unfold blank in Qb. lia.
        -- exfalso. apply nb_bare in H0. destruct w; [contradiction|]. cbn in H. injection H as <- _. now apply H0.
    + assert (Nb : ~ blank c) by (rewrite <- isblank_iff; congruence).
      assert (LT := lex_tk _ _ txt_follow (fun t => [PushTxt t]) txt_tok_read). unfold lseq.
      destruct (tk txt_tok txt_follow (fun t => [PushTxt t]) (c :: l)) as (a1, r1) eqn:E. split.
      * destruct r1 as [r1|]; [|discriminate]. apply LT in E as (tx & E & t1 & HT & -> & F).
        assert (Ln : (length r1 < fuel)%nat).
        { assert (tx <> []) by (destruct HT as [(-> & _)|(-> & (N & _) & _)]; [discriminate|exact N]). apply (f_equal (@length N)) in E. rewrite app_length in E. cbn in E. destruct tx; [congruence|]. cbn in E. lia. }
        destruct (txt_items fuel true r1) as (a2, r2) eqn:E2. intros [= <- ->]. apply IH in E2 as (t & items & -> & B & R & _ & ->); [|lia].
        exists (tx ++ t), (t1 :: items). rewrite <- app_assoc. split; [exact E|]. repeat split; auto.
        -- destruct HT as [Q|(-> & Bw & En)]; [now apply tb_quoted|]. apply tb_bare; auto. apply txt_body_head in B as [->|B]; [now left|]. right. destruct t as [|d t]; [contradiction|]. cbn in *. unfold ends in En. cbn in En. tauto.
        -- intros _ X. apply app_eq_nil in X as (-> & _). destruct HT as [(X & _)|(X & (N & _) & _)]; [discriminate|congruence].
      * intros (t & items & E1 & B & R & S & ->). destruct t as [|d t].
        { cbn in E1. subst r. cbn in R. congruence. }
        cbn in E1. injection E1 as <- E1. inversion B; subst.
        -- tauto.
        -- assert (X : c :: t ++ r = q ++ t0 ++ r) by (rewrite app_assoc, H; reflexivity).
           assert (Y : tk txt_tok txt_follow (fun t => [PushTxt t]) (c :: t ++ r) = ([PushTxt i], Some (t0 ++ r))).
           { apply LT. exists q. split; [exact X|]. exists i. repeat split; auto. eapply txt_follow_ok; eauto. }
           rewrite Y in E. injection E as <- <-.
           assert (Z : txt_items fuel true (t0 ++ r) = (map PushTxt l0 ++ [RecTxt], Some r)).
           { apply IH; [|exists t0, l0; repeat split; auto; discriminate]. destruct H0 as (-> & _). apply (f_equal (@length N)) in X. rewrite !app_length in X. cbn [length] in X. rewrite !app_length in X. cbn [length] in X. rewrite app_length in *. lia. }
           rewrite Z. reflexivity.
        -- assert (X : c :: t ++ r = w ++ t0 ++ r) by (rewrite app_assoc, H; reflexivity).
           assert (Y : tk txt_tok txt_follow (fun t => [PushTxt t]) (c :: t ++ r) = ([PushTxt w], Some (t0 ++ r))).
           { apply LT. exists w. split; [exact X|]. exists w. repeat split; auto; [|eapply txt_follow_ok; eauto]. right. repeat split; auto; try apply H0.
             unfold ends. destruct t0 as [|e t0]; cbn [app].
             - apply begins_10 in R as (q & ->). cbn. unfold plain, blank. cbn. intuition discriminate.
             - cbn [begins hd] in *. intros Hp. destruct H1 as [H1|[H1|H1]]; [discriminate| |]; destruct Hp as [(Hb & Hi)|Hp]; [tauto|subst e; unfold blank in H1; lia|subst e; apply Hi; cbn; tauto|congruence]. }
           rewrite Y in E. injection E as <- <-.
           assert (Z : txt_items fuel true (t0 ++ r) = (map PushTxt l0 ++ [RecTxt], Some r)).
           { apply IH; [|exists t0, l0; repeat split; auto; discriminate]. destruct H0 as (Nw & _). apply (f_equal (@length N)) in X. rewrite !app_length in X. cbn [length] in X. destruct w; [congruence|]. cbn [length] in X. rewrite !app_length in *. lia. }
           rewrite Z. reflexivity.
Qed.

(** ** Generic data *)
Lemma octets_gap t g l : octets_text t l -> gap g -> octets_text (t ++ g) l.
Proof. intros H G. induction H; cbn [app]; [|apply ot_blank; auto|apply ot_octet; auto]. induction G; constructor; auto. Qed.
Lemma hex_blank c : hexdigit c -> blank c -> False.
Proof. unfold hexdigit, is_digit, blank. lia. Qed.
Lemma octets_head t l : octets_text t l -> t = [] \/ begins (fun c => blank c \/ hexdigit c) t.
Proof. intros []; cbn; auto. Qed.
Definition octet_acts (l : list (N * N)) : list action := map (fun p => Octet (fst p) (snd p)) l.
Lemma octets_spec n : forall l some a r, (length l <= n)%nat ->
  (octets some l = (a, Some r) <->
   exists t ps, l = t ++ r /\ octets_text t ps /\ begins (eq 10) r /\ (some = false -> ~ blank (hd 0 t)) /\ a = octet_acts ps ++ [RecRfc3597]).
Proof.
  induction n as [|n IH]; intros l some a r Hl.
  - destruct l; [|cbn in Hl; lia]. cbn. split; [discriminate|]. intros (t & ps & E & _ & R & _). symmetry in E. apply app_eq_nil in E as (-> & ->). contradiction.
  - destruct l as [|c l].
    { cbn. split; [discriminate|]. intros (t & ps & E & _ & R & _). symmetry in E. apply app_eq_nil in E as (-> & ->). contradiction. }
    cbn [octets]. cbn [length] in Hl. destruct (N.eqb_spec c 10) as [->|N10]; [|destruct (isblank c) eqn:Qb; [|destruct (ishex c) eqn:Qh]].
    + split.
      * intros [= <- <-]. exists [], []. repeat split; try constructor. cbn. unfold blank. lia.
      * intros (t & ps & E & O & R & _ & ->). destruct t as [|d t].
        { inversion O; subst. cbn in E. now subst r. }
        cbn in E. injection E as <- _. apply octets_head in O as [O|O]; [discriminate|]. cbn in O. unfold blank, hexdigit, is_digit in O. lia.
    + apply isblank_iff in Qb. destruct some.
      * rewrite IH by lia. split.
        -- intros (t & ps & -> & O & R & _ & ->). exists (c :: t), ps. repeat split; auto; [now constructor|discriminate].
        -- intros (t & ps & E & O & R & S & ->). destruct t as [|d t]; [cbn in E; subst r; cbn in R; congruence|]. cbn in E. injection E as <- ->. inversion O; subst.
           ++ exists t, ps. repeat split; auto. discriminate.
           ++ exfalso. now apply (hex_blank c).
      * split; [discriminate|]. intros (t & ps & E & O & R & S & ->). destruct t as [|d t]; [cbn in E; subst r; cbn in R; congruence|]. cbn in E. injection E as <- ->. exfalso. now apply S.
    + apply ishex_iff in Qh. destruct l as [|d [|e l]].
      * split; [discriminate|]. intros (t & ps & E & O & R & S & ->). apply begins_10 in R as (q & ->). destruct O; cbn in E; [congruence|injection E as <- E; now destruct (hex_blank c)|discriminate].
      * split; [discriminate|]. intros (t & ps & E & O & R & S & ->). apply begins_10 in R as (q & ->). destruct O; cbn in E; [congruence|injection E as <- E; now destruct (hex_blank c)|injection E as <- <- E; symmetry in E; apply app_eq_nil in E as (_ & E); discriminate].
      * split.
        -- destruct (ishex d && (ishex e || at_end e)) eqn:Q; [|discriminate]. apply andb_true_iff in Q as (Qd & _). apply ishex_iff in Qd.
           destruct (octets true (e :: l)) as (x, y) eqn:E. intros [= <- ->]. apply IH in E as (t & ps & E & O & R & _ & ->); [|cbn in *; lia].
           exists (c :: d :: t), ((c, d) :: ps). rewrite E. repeat split; auto; [now apply ot_octet|]. intros _. cbn. intros Bc. now apply (hex_blank c).
        -- intros (t & ps & E & O & R & S & ->). destruct O as [|c' t ps B O|c' d' t ps Hc Hd O].
           ++ cbn in E. subst r. cbn in R. congruence.
           ++ cbn in E. injection E as <- E. now destruct (hex_blank c).
           ++ cbn in E. injection E as <- <- E. assert (Qd := proj2 (ishex_iff d) Hd). rewrite Qd.
              assert (Qe : ishex e || at_end e = true).
              { apply octets_head in O as [->|O]; [cbn in E; subst r; cbn in R; subst e; reflexivity|]. destruct t as [|e' t]; [contradiction|]. cbn in E, O. injection E as <- E. destruct O as [O|O]; [apply isblank_iff in O; unfold at_end; rewrite O; now rewrite orb_true_r|apply ishex_iff in O; now rewrite O]. }
              rewrite Qe. cbn [andb]. assert (Z : octets true (e :: l) = (octet_acts ps ++ [RecRfc3597], Some r)).
              { apply IH; [cbn in *; lia|]. exists t, ps. repeat split; auto. discriminate. }
              rewrite Z. reflexivity.
    + split; [discriminate|]. intros (t & ps & E & O & R & S & ->). assert (~ blank c) by (rewrite <- isblank_iff; congruence). assert (~ hexdigit c) by (rewrite <- ishex_iff; congruence).
      apply octets_head in O as [->|O]; [cbn in E; subst r; cbn in R; congruence|]. destruct t; [contradiction|]. cbn in E, O. injection E as <- _. tauto.
Qed.
