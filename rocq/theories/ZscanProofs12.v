(** Zone files: comments and parentheses, lines, files. *)
From Coq Require Import String Ascii.
From Verif Require Import Base DnameSpec DnameModel DnameProofs DnameProofs2 CompModel RespModel LtreeModel ZscanModel ZscanSpec ZscanProofs ZscanProofs2 ZscanProofs3 ZscanProofs4 ZscanProofs5 ZscanProofs6 ZscanProofs7 ZscanProofs8 ZscanProofs9 ZscanProofs10 ZscanProofs11.
Local Open Scope N_scope.
Local Notation length := List.length.
Local Arguments N.eqb : simpl never.

(** ** Comments and parentheses *)
Lemma pre_comment p body raw : ~ In 10 body ->
  preprocess PComment false p (body ++ 10 :: raw) = (zdo r <- preprocess PText false p raw ; Ok (Some (repeat 32 (length body) ++ (if p then 12 else 10) :: r))).
Proof.
  induction body as [|c body IH]; intros N; cbn [app preprocess length repeat].
  - rewrite N.eqb_refl. reflexivity.
  - destruct (N.eqb_spec c 10) as [->|Nc]; [exfalso; apply N; now left|]. rewrite IH by (intros H; apply N; now right).
    destruct (preprocess PText false p raw) as [[r|]|]; reflexivity.
Qed.
Lemma layout_pre q p raw t : layout q p raw t -> preprocess PText q p raw = Ok (Some t).
Proof.
  induction 1 as [|q p raw t H IH|p body raw t Nb H IH|q p raw t H IH|raw t H IH|raw t H IH|c p raw t Hc H IH|c q p raw t H IH|c q p raw t Hc H IH]; cbn [preprocess]; try rewrite ?N.eqb_refl.
  - reflexivity.
  - rewrite ?N.eqb_refl, IH. reflexivity.
  - change (59 =? 10) with false. rewrite ?N.eqb_refl. cbn [negb]. rewrite pre_comment, IH by exact Nb. reflexivity.
  - change (34 =? 10) with false. change (34 =? 59) with false. rewrite ?N.eqb_refl, IH. reflexivity.
  - change (40 =? 10) with false. change (40 =? 59) with false. change (40 =? 34) with false. rewrite ?N.eqb_refl, IH. reflexivity.
  - change (41 =? 10) with false. change (41 =? 59) with false. change (41 =? 34) with false. change (41 =? 40) with false. rewrite ?N.eqb_refl, IH. reflexivity.
  - cbn in Hc. destruct Hc as [<-|[<-|[<-|[<-|[]]]]]; rewrite IH; reflexivity.
  - change (92 =? 10) with false. change (92 =? 59) with false. change (92 =? 34) with false. change (92 =? 40) with false. change (92 =? 41) with false. rewrite ?N.eqb_refl.
    rewrite IH. reflexivity.
  - cbn in Hc. repeat match goal with |- context [c =? ?k] => destruct (N.eqb_spec c k); [exfalso; apply Hc; subst; tauto|] end. rewrite IH. reflexivity.
Qed.
Lemma first_newline raw : In 10 raw -> exists b r, raw = b ++ 10 :: r /\ ~ In 10 b.
Proof.
  induction raw as [|c raw IH]; intros H; [destruct H|]. destruct (N.eq_dec c 10) as [->|Nc]; [exists [], raw; auto|].
  destruct H as [H|H]; [congruence|]. destruct (IH H) as (b & r & -> & Nb). exists (c :: b), r. split; [reflexivity|]. intros [X|X]; [congruence|contradiction].
Qed.
Definition ends (raw : bytes) : Prop := raw = [] \/ last raw 0 = 10.
Lemma ends_cons c raw : ends (c :: raw) -> ends raw.
Proof. intros [H|H]; [discriminate|]. destruct raw as [|d raw]; [now left|right]. exact H. Qed.
Lemma ends_app a c raw : ends (a ++ c :: raw) -> ends (c :: raw).
Proof. induction a as [|x a IH]; intros H; [exact H|]. apply IH. now apply ends_cons in H. Qed.
Lemma ends_in c raw : ends (c :: raw) -> In 10 (c :: raw).
Proof.
  intros [H|H]; [discriminate|]. revert c H. induction raw as [|d raw IH]; intros c H; [left; exact H|]. right. apply IH. exact H.
Qed.
Lemma pre_layout n : forall raw q p, (length raw <= n)%nat -> ends raw ->
  (exists t, preprocess PText q p raw = Ok (Some t) /\ layout q p raw t) \/ preprocess PText q p raw = Ok None.
Proof.
  induction n as [|n IH]; intros [|c raw] q p Hl He; cbn [length] in Hl; try lia.
  1, 2: cbn [preprocess]; destruct q; [now right|]; destruct p; [now right|left; exists []; split; [reflexivity|constructor]].
  assert (He' := ends_cons _ _ He). cbn [preprocess].
  assert (Step : forall q' p' d, (forall t, layout q' p' raw t -> layout q p (c :: raw) (d :: t)) ->
    (exists t, (zdo r <- preprocess PText q' p' raw ; Ok (Some (d :: r))) = Ok (Some t) /\ layout q p (c :: raw) t) \/ (zdo r <- preprocess PText q' p' raw ; Ok (Some (d :: r))) = Ok None).
  { intros q' p' d Hd. destruct (IH raw q' p') as [(t & -> & L)| ->]; [lia|exact He'| |now right]. left. exists (d :: t). split; [reflexivity|now apply Hd]. }
  destruct (N.eqb_spec c 10) as [->|N1]; [apply Step; intros t L; now apply lay_newline|].
  destruct (N.eqb_spec c 59) as [->|N2].
  { destruct q; cbn [negb]; [apply Step; intros t L; apply lay_inside; cbn; auto|].
    assert (H10 : In 10 raw) by (apply ends_in in He; destruct He as [H|H]; [discriminate|exact H]). destruct (first_newline raw H10) as (b & r & -> & Nb).
    rewrite pre_comment by exact Nb. destruct (IH r false p) as [(t & -> & L)| ->]; [rewrite app_length in Hl; cbn [length] in Hl; lia|apply ends_app in He'; now apply ends_cons in He'| |now right].
    left. eexists. split; [reflexivity|]. now apply (lay_comment p b r t). }
  destruct (N.eqb_spec c 34) as [->|N3]; [apply Step; intros t L; now apply lay_quote|].
  destruct (N.eqb_spec c 40) as [->|N4].
  { destruct q; cbn [negb]; [apply Step; intros t L; apply lay_inside; cbn; auto|]. destruct p; [now right|]. apply Step. intros t L. now apply lay_open. }
  destruct (N.eqb_spec c 41) as [->|N5].
  { destruct q; cbn [negb]; [apply Step; intros t L; apply lay_inside; cbn; auto|]. destruct p; [|now right]. cbn [negb]. apply Step. intros t L. now apply lay_close. }
  destruct (N.eqb_spec c 92) as [->|N6].
  { destruct raw as [|d raw]; [destruct He as [H|H]; discriminate|]. cbn [preprocess]. destruct (IH raw q p) as [(t & -> & L)| ->]; [cbn [length] in Hl; lia|now apply ends_cons in He'| |now right].
    left. eexists. split; [reflexivity|]. now apply lay_escape. }
  destruct (N.eqb_spec c 12) as [->|N7].
  { destruct q; cbn [negb]; [apply Step; intros t L; apply lay_inside; cbn; auto 10|now right]. }
  apply Step. intros t L. apply lay_other; [cbn; intuition congruence|exact L].
Qed.
Lemma layout_fun q p raw t1 t2 : layout q p raw t1 -> layout q p raw t2 -> t1 = t2.
Proof. intros H1 H2. apply layout_pre in H1, H2. congruence. Qed.
Lemma layout_bytes q p raw t : layout q p raw t -> all_bytes raw -> all_bytes t.
Proof.
  assert (B : forall n l, all_bytes l -> all_bytes (repeat 32 n ++ l)) by (induction n as [|n IHn]; intros l Hl; [exact Hl|]; apply Forall_cons; [unfold is_byte; lia|exact (IHn l Hl)]).
  induction 1 as [|q p raw t H IH|p body raw t Nb H IH|q p raw t H IH|raw t H IH|raw t H IH|c p raw t Hc H IH|c q p raw t H IH|c q p raw t Hc H IH]; intros Hb.
  - constructor.
  - inversion Hb; subst. constructor; [destruct (p && negb q); unfold is_byte; lia|apply IH; assumption].
  - inversion Hb as [|? ? _ Hb']; subst. apply Forall_app in Hb' as (_ & Hb'). inversion Hb'; subst. apply B. constructor; [destruct p; unfold is_byte; lia|apply IH; assumption].
  - inversion Hb; subst. constructor; [assumption|apply IH; assumption].
  - inversion Hb; subst. constructor; [unfold is_byte; lia|apply IH; assumption].
  - inversion Hb; subst. constructor; [unfold is_byte; lia|apply IH; assumption].
  - inversion Hb; subst. constructor; [assumption|apply IH; assumption].
  - inversion Hb as [|? ? ? Hb']; subst. inversion Hb'; subst. constructor; [assumption|]. constructor; [assumption|apply IH; assumption].
  - inversion Hb; subst. constructor; [assumption|apply IH; assumption].
Qed.

(** ** What statements are made of *)
Lemma name_token_bytes t n : name_token t n -> all_bytes t -> all_bytes n.
Proof.
  intros [(_ & -> & _)|(-> & _)] H; [exact H|]. inversion H as [|? ? _ H']; subst. now apply Forall_app in H' as (H' & _).
Qed.
Lemma dur_text_good t d : dur_text t d -> dur_good d.
Proof. intros [n _|n c _ U]; cbn; auto. Qed.
Lemma ttl_text_good t o : ttl_text t o -> ttl_good (Some o).
Proof. intros [t' d D|t' d t2 d2 D D2]; cbn; apply dur_text_good in D; try apply dur_text_good in D2; auto. Qed.
Lemma options_good t o : options_text t o -> ttl_good o.
Proof. intros H. inversion H; subst; try exact I; eapply ttl_text_good; eauto. Qed.
Lemma octets_good t l : octets_text t l -> Forall (fun p => hexdigit (fst p) /\ hexdigit (snd p)) l.
Proof. induction 1; auto. Qed.
Ltac parts H := repeat (apply Forall_app in H as (? & H)).
Ltac split_bytes := unfold all_bytes in *; repeat match goal with H : Forall is_byte (_ ++ _) |- _ => apply Forall_app in H as (? & ?) | H : Forall is_byte (_ :: _) |- _ => inversion H; clear H; subst end.
Lemma data_text_good t d : data_text t d -> all_bytes t -> data_good d.
Proof.
  intros H Hb. inversion H; subst; cbn [data_good]; try exact I; split_bytes; try (eapply name_token_bytes; [eassumption|assumption]); try (eapply octets_good; eassumption).
  - repeat match goal with |- _ /\ _ => split end; try (eapply name_token_bytes; [eassumption|assumption]); eapply dur_text_good; eassumption.
  - intros X. match goal with F : Forall (fun c => is_digit c \/ letter c) _ |- _ => rewrite Forall_forall in F; specialize (F _ X) end. unfold is_digit, letter in *. lia.
Qed.
Lemma stmt_text_good t s : stmt_text t s -> all_bytes t -> stmt_good s.
Proof.
  intros H Hb. inversion H; subst; cbn [stmt_good]; try exact I; split_bytes.
  - split; [|split; [eapply options_good; eassumption|eapply data_text_good; eassumption]].
    match goal with O : owner_text _ _ |- _ => inversion O; subst; [exact I|eapply name_token_bytes; eassumption] end.
  - eapply dur_text_good; eassumption.
  - eapply name_token_bytes; eassumption.
  - eapply name_token_bytes; eassumption.
Qed.
Lemma line_ok_text t s : line_ok t s -> line_text t s.
Proof. intros (body & g & -> & S & G & L). exists body, g. repeat split; auto. intros f ->. apply L. cbn. auto. Qed.
Lemma line_ok_good t s : line_ok t s -> all_bytes t -> stmt_good s.
Proof. intros (body & g & -> & S & _) H. apply Forall_app in H as (H & _). eapply stmt_text_good; eauto. Qed.
Lemma line_ok_nonempty t s : line_ok t s -> (1 <= length t)%nat.
Proof. intros (body & g & -> & _). rewrite !app_length. cbn. lia. Qed.

Section Zone.
  Variable zone : bytes.
  Variable zn : name.
  Hypothesis Hzone : exists r, zone = dname zn true ++ r.
  Hypothesis Lzone : legal_name zn.
  Variable autosplit : bool.
  Variable pton4 pton6 : bytes -> option bytes.

  Section Lines.
    Variable incl : bytes -> bytes -> N -> zres (list record).
    Variable cur : bytes.
    Variable inclS : name -> bytes -> N -> list record -> Prop.
    Hypothesis Hincl : forall b n p ttl, holds b n -> (exists q, n = q ++ zn) ->
      (exists rs, incl b p ttl = Ok (Some rs) /\ inclS n p ttl rs) \/ ((forall rs, ~ inclS n p ttl rs) /\ forall rs, incl b p ttl <> Ok (Some rs)).
    Hypothesis Fincl : forall n p ttl r1 r2, inclS n p ttl r1 -> inclS n p ttl r2 -> r1 = r2.
    Notation Run := (run zone autosplit pton4 pton6 incl cur).
    Notation smeans := (means zn autosplit pton4 pton6 inclS cur).
    Notation Lines := (lines zn autosplit pton4 pton6 inclS cur).

    Lemma run_app a b z : Run (a ++ b) z = (zdo z <- Run a z ; Run b z).
    Proof.
      revert z. induction a as [|x a IH]; intros z; [reflexivity|]. cbn [app run]. destruct (act zone autosplit pton4 pton6 incl cur x z) as [[z'|]|]; cbn [zbind rbind]; [apply IH|reflexivity|reflexivity].
    Qed.
    (** the statements of lines that are not quite lines mean nothing *)
    Lemma text_line_ok t s k k' rs : line_text t s -> smeans k s k' rs -> line_ok t s.
    Proof.
      intros (body & g & -> & S & G & L) M. exists body, g. repeat split; auto. intros Lo. destruct s as [|on topt d|d|n|f o]; cbn [loose] in Lo; try tauto.
      - destruct d; try tauto. destruct octets; [|tauto]. exfalso. inversion M; subst; match goal with K : data_means _ _ _ _ _ _ _ (DGen _ _ []) _ |- _ => inversion K; congruence end.
      - destruct o; [tauto|]. now apply (L f).
    Qed.
    Ltac same := repeat match goal with
      | A : number ?d ?a, B : number ?d ?b |- _ => assert (a = b) by (exact (number_fun _ _ _ A B)); subst; clear B
      | A : duration ?d ?a, B : duration ?d ?b |- _ => assert (a = b) by (exact (duration_fun _ _ _ A B)); subst; clear B
      | A : unescaped ?d ?a, B : unescaped ?d ?b |- _ => assert (a = b) by (exact (unescaped_fun _ _ _ A B)); subst; clear B
      | A : cstring ?d ?a, B : cstring ?d ?b |- _ => assert (a = b) by (exact (cstring_fun _ _ _ A B)); subst; clear B
      | A : path ?c ?d ?a, B : path ?c ?d ?b |- _ => assert (a = b) by (exact (path_fun _ _ _ _ A B)); subst; clear B
      | A : name_means _ ?k ?d ?a, B : name_means _ ?k ?d ?b, G : Forall is_byte ?d |- _ => assert (a = b) by (exact (name_means_fun zn k d _ _ G A B)); subst; clear B
      | A : name_means _ ?k ?d ?a, B : name_means _ ?k ?d ?b, G : all_bytes ?d |- _ => assert (a = b) by (exact (name_means_fun zn k d _ _ G A B)); subst; clear B
      end.
    Lemma data_means_fun k ttl m d r1 r2 : data_good d -> data_means zn autosplit pton4 pton6 k ttl m d r1 -> data_means zn autosplit pton4 pton6 k ttl m d r2 -> r1 = r2.
    Proof.
      intros G M1 M2. destruct M1; inversion M2; subst; cbn [data_good] in G; unfold one_string in *; repeat match goal with H : _ /\ _ |- _ => destruct H end; same; try congruence.
      match goal with A : Forall2 _ ts sss, B : Forall2 _ ts ?s2 |- _ => assert (E : sss = s2); [clear - A B; revert s2 B; induction A; intros s2 F2; inversion F2; subst; [reflexivity|]; f_equal; [eapply strings_fun; eauto|auto]|now rewrite E] end.
    Qed.
    Lemma means_fun k s k1 r1 k2 r2 : stmt_good s -> smeans k s k1 r1 -> smeans k s k2 r2 -> k1 = k2 /\ r1 = r2.
    Proof.
      assert (T : forall k o v m v' m', ttl_means k o v m -> ttl_means k o v' m' -> v = v' /\ m = m') by (intros ? ? ? ? ? ? A B; inversion A; subst; inversion B; subst; same; auto).
      intros G M1 M2. destruct M1; inversion M2; subst; cbn [stmt_good] in G; repeat match goal with H : _ /\ _ |- _ => destruct H end.
      - auto.
      - match goal with A : ttl_means ?k1 topt ?a1 ?a2, B : ttl_means ?k1 topt ?b1 ?b2 |- _ => destruct (T _ _ _ _ _ _ A B); subst end. split; [reflexivity|]. f_equal. eapply data_means_fun; eauto.
      - match goal with A : owner_means zn ?k1 o _ _, B : owner_means zn ?k1 o ?x ?y, G : all_bytes o |- _ => destruct (owner_means_fun zn k1 _ _ _ _ _ G A B); subst end.
        match goal with A : ttl_means ?k1 topt ?a1 ?a2, B : ttl_means ?k1 topt ?b1 ?b2 |- _ => destruct (T _ _ _ _ _ _ A B); subst end. split; [reflexivity|]. f_equal. eapply data_means_fun; eauto.
      - same. auto.
      - match goal with A : name_means zn ?k1 t (?x ++ zn), B : name_means zn ?k1 t (?y ++ zn) |- _ => assert (E := name_means_fun zn k1 t _ _ G A B) end. rewrite E. auto.
      - same. split; [reflexivity|]. assert (E : origin = origin0) by (destruct o; [eapply name_means_fun; eauto|congruence]). subst. eapply Fincl; eauto.
    Qed.
    Definition finish (x : list action * bool) (z : zst) : zres zst := zdo z <- Run (fst x) z ; if snd x then Ok (Some z) else zfatal.
    Lemma scan_run : forall fuel text z k, (length text < fuel)%nat -> all_bytes text -> agree zn z k ->
      (exists z' rs, finish (scan fuel text) z = Ok (Some z') /\ Lines k text rs /\ z_out z' = z_out z ++ rs /\ forall rs', Lines k text rs' -> rs' = rs) \/
      ((forall rs, ~ Lines k text rs) /\ forall z', finish (scan fuel text) z <> Ok (Some z')).
    Proof.
      induction fuel as [|fuel IH]; intros text z k Hl Hb A; [lia|]. cbn [scan]. destruct text as [|c0 text0] eqn:Et.
      - left. exists z, []. split; [reflexivity|]. split; [constructor|]. split; [now rewrite app_nil_r|]. intros rs X. inversion X as [|? t ? ? ? ? ? LT]; [reflexivity|]. destruct LT as (bd & g & -> & _). destruct bd; [destruct g|]; discriminate.
      - rewrite <- Et in *. assert (Ne : text <> []) by (rewrite Et; discriminate). clear Et c0 text0.
        assert (Inv : forall rs, Lines k text rs -> exists t s k' rs1 rest rs2, text = t ++ rest /\ line_ok t s /\ smeans k s k' rs1 /\ Lines k' rest rs2 /\ rs = rs1 ++ rs2).
        { intros rs X. inversion X; subst; [congruence|]. eexists _, _, _, _, _, _. split; [reflexivity|]. split; [eapply text_line_ok; eassumption|]. eauto. }
        destruct (line text) as [a [r|]] eqn:El.
        + assert (El' := El). apply lex_line in El' as (t & -> & s & Ok1 & ->). assert (Hb' := Hb). apply Forall_app in Hb' as (Hbt & Hbr).
          assert (Nt := line_ok_nonempty _ _ Ok1).
          assert (Same : forall rs, Lines k (t ++ r) rs -> exists s' k' rs1 rs2, stmt_acts s' = stmt_acts s /\ line_ok t s' /\ smeans k s' k' rs1 /\ Lines k' r rs2 /\ rs = rs1 ++ rs2).
          { intros rs X. apply Inv in X as (t' & s' & k' & rs1 & rest & rs2 & E & O & M & X2 & ->).
            assert (E2 : line (t ++ r) = (stmt_acts s', Some rest)) by (apply lex_line; exists t'; split; [exact E|]; exists s'; auto).
            rewrite El in E2. injection E2 as E2 E3. subst rest. apply app_inv_tail in E. subst t'. exists s', k', rs1, rs2. auto 10. }
          assert (Run1 : forall s', line_ok t s' -> stmt_acts s' = stmt_acts s -> stmt_out zn autosplit pton4 pton6 cur inclS (fun _ => True) z k s' (Run (stmt_acts s) z)).
          { intros s' O E. rewrite <- E. eapply stmt_run; eauto; [|eapply line_ok_good; eauto].
            intros b n p ttl Hn Hi. destruct (Hincl b n p ttl Hn Hi) as [X|(X & Y)]; [now left|right]. split; [exact X|]. destruct (incl b p ttl) as [[rs|]|]; [exfalso; now apply (Y rs)|now left|now right]. }
          destruct (scan fuel r) as [b ok] eqn:Es. unfold finish. cbn [fst snd]. rewrite run_app.
          assert (Fin : forall z1 k1, agree zn z1 k1 ->
            (exists z' rs, (zdo z <- Run b z1 ; if ok then Ok (Some z) else zfatal) = Ok (Some z') /\ Lines k1 r rs /\ z_out z' = z_out z1 ++ rs /\ forall rs', Lines k1 r rs' -> rs' = rs) \/
            ((forall rs, ~ Lines k1 r rs) /\ forall z', (zdo z <- Run b z1 ; if ok then Ok (Some z) else zfatal) <> Ok (Some z'))).
          { intros z1 k1 A1. assert (X := IH r z1 k1). rewrite Es in X. unfold finish in X. cbn [fst snd] in X. apply X; auto. rewrite app_length in Hl. lia. }
          destruct (Run1 s Ok1 eq_refl) as [(z1 & k1 & rs1 & E1 & M & A1 & O1)|(M & E1)].
          * rewrite E1. cbn [zbind rbind].
            assert (Other : forall rs, Lines k (t ++ r) rs -> exists k2 q2, agree zn z1 k2 /\ Lines k2 r q2 /\ rs = rs1 ++ q2).
            { intros rs X. apply Same in X as (s' & k' & q1 & q2 & Ea & O & M' & L' & ->).
              destruct (Run1 s' O Ea) as [(z2 & k2 & rs2 & E2 & M2 & A2 & O2)|(M2 & _)]; [|exfalso; now apply (M2 k' q1)].
              rewrite E1 in E2. injection E2 as <-. destruct (means_fun k s' k' q1 k2 rs2 (line_ok_good _ _ O Hbt) M' M2) as (-> & ->).
              rewrite O1 in O2. apply app_inv_head in O2. subst rs2. eauto. }
            destruct (Fin z1 k1 A1) as [(z' & rs & E3 & L & O & U)|(L & E)].
            -- left. exists z', (rs1 ++ rs). split; [exact E3|]. split; [eapply li_line; eauto; now apply line_ok_text|]. split; [now rewrite O, O1, app_assoc|].
               intros rs' X. apply Other in X as (k2 & q2 & A2 & L2 & ->). destruct (Fin z1 k2 A2) as [(z2 & rs2 & E4 & _ & O2 & U2)|(L3 & _)]; [|exfalso; now apply (L3 q2)].
               rewrite E3 in E4. injection E4 as <-. rewrite O in O2. apply app_inv_head in O2. subst rs2. f_equal. now apply U2.
            -- right. split; [|exact E]. intros rs X. apply Other in X as (k2 & q2 & A2 & L2 & ->). destruct (Fin z1 k2 A2) as [(z2 & rs2 & E4 & _)|(L3 & _)]; [now apply (E z2)|now apply (L3 q2)].
          * right. split.
            -- intros rs X. apply Same in X as (s' & k' & q1 & q2 & Ea & O & M' & L' & ->). destruct (Run1 s' O Ea) as [(z2 & k2 & rs2 & E2 & _)|(M2 & _)]; [|now apply (M2 k' q1)].
               destruct E1 as [E1|(E1 & _)]; congruence.
            -- intros z' X. destruct E1 as [E1|(E1 & _)]; rewrite E1 in X; discriminate.
        + right. split.
          * intros rs X. apply Inv in X as (t' & s' & k' & rs1 & rest & rs2 & E & O & M & X2 & ->).
            assert (E2 : line text = (stmt_acts s', Some rest)) by (apply lex_line; exists t'; split; [exact E|]; exists s'; auto). congruence.
          * intros z' X. unfold finish in X. cbn [fst snd] in X. destruct (Run a z) as [[z2|]|]; discriminate.
    Qed.
  End Lines.

  Variable fs : bytes -> option bytes.
  Hypothesis Hfs : forall fn raw, fs fn = Some raw -> all_bytes raw.
  Lemma zst0_ok b n ttl : holds b n -> (exists q, n = q ++ zn) -> exists z, zst0 b ttl = Ok z /\ z_out z = [] /\
    agree zn z {| c_origin := n; c_file := n; c_ttl := ttl; c_owner := []; c_ooz := false |}.
  Proof.
    intros (L & Lb & r & ->) I. unfold zst0.
    destruct (copy_ok (repeat 0 256) n r eq_refl L) as (o & -> & Ho). cbn [rbind].
    assert (W : wr (repeat 0 256) 0 [1] = Ok (1 :: repeat 0 255)) by reflexivity. rewrite W. cbn [rbind]. eexists. split; [reflexivity|]. split; [reflexivity|].
    unfold agree. cbn [z_origin z_forigin z_lhs z_ooz z_def_ttl z_rhs z_eml z_uv z_text c_origin c_file c_owner c_ooz c_ttl].
    repeat match goal with |- _ /\ _ => split end; auto. split; [split; [constructor|unfold wire_len; cbn; lia]|]. split; [reflexivity|]. exists (repeat 0 254). reflexivity.
  Qed.
  Notation Zdo := (zscan_do zone autosplit pton4 pton6 fs).
  Notation Zfile := (zfile zn autosplit pton4 pton6 fs).
  Lemma file_ok n :
    (forall b o fn ttl, holds b o -> (exists q, o = q ++ zn) ->
      (exists rs, Zdo n b fn ttl = Ok (Some rs) /\ Zfile n o fn ttl rs) \/ ((forall rs, ~ Zfile n o fn ttl rs) /\ forall rs, Zdo n b fn ttl <> Ok (Some rs))) /\
    (forall o fn ttl r1 r2, legal_name o -> (exists q, o = q ++ zn) -> Zfile n o fn ttl r1 -> Zfile n o fn ttl r2 -> r1 = r2).
  Proof.
    induction n as [|n (IH & IF)]; [split; [intros; right; split; [intros rs []|intros rs; discriminate]|intros o fn ttl r1 r2 _ _ []]|].
    set (inclS := fun o p t rs => legal_name o /\ (exists q, o = q ++ zn) /\ Zfile n o p t rs).
    assert (Hincl : forall b o p ttl, holds b o -> (exists q, o = q ++ zn) ->
      (exists rs, Zdo n b p ttl = Ok (Some rs) /\ inclS o p ttl rs) \/ ((forall rs, ~ inclS o p ttl rs) /\ forall rs, Zdo n b p ttl <> Ok (Some rs))).
    { intros b o p ttl Hb Ho. destruct (IH b o p ttl Hb Ho) as [(rs & E & Z)|(Z & E)]; [left; exists rs; split; [exact E|]; split; [apply Hb|auto]|right]. split; [|exact E]. intros rs (_ & _ & X). now apply (Z rs). }
    assert (Fincl : forall o p ttl r1 r2, inclS o p ttl r1 -> inclS o p ttl r2 -> r1 = r2) by (intros o p ttl r1 r2 (L & I & Z1) (_ & _ & Z2); eapply IF; eauto).
    assert (Low : forall k s k' rs cur, (forall d, s = Include d None -> legal_name (c_origin k)) -> means zn autosplit pton4 pton6 (Zfile n) cur k s k' rs -> means zn autosplit pton4 pton6 inclS cur k s k' rs).
    { intros k s k' rs cur Lk M. destruct M; try (econstructor; eassumption). eapply me_include; eauto. split; [|split; assumption]. destruct o; [apply H|]. rewrite H. now apply (Lk t). }
    assert (Up : forall k s k' rs cur, means zn autosplit pton4 pton6 inclS cur k s k' rs -> means zn autosplit pton4 pton6 (Zfile n) cur k s k' rs).
    { intros k s k' rs cur M. destruct M; try (econstructor; eassumption). eapply me_include; eauto. now destruct H5 as (_ & _ & H5). }
    assert (Legal : forall k s k' rs cur, legal_name (c_origin k) -> means zn autosplit pton4 pton6 (Zfile n) cur k s k' rs -> legal_name (c_origin k')).
    { intros k s k' rs cur Lk M. destruct M; subst; auto. cbn. apply H. }
    assert (Lower : forall cur k text rs, legal_name (c_origin k) -> lines zn autosplit pton4 pton6 (Zfile n) cur k text rs -> lines zn autosplit pton4 pton6 inclS cur k text rs).
    { intros cur k text rs Lk X. induction X; [constructor|]. eapply li_line; eauto. }
    assert (Upper : forall cur k text rs, lines zn autosplit pton4 pton6 inclS cur k text rs -> lines zn autosplit pton4 pton6 (Zfile n) cur k text rs).
    { intros cur k text rs X. induction X; [constructor|]. eapply li_line; eauto. }
    assert (Main : forall b o fn ttl, holds b o -> (exists q, o = q ++ zn) ->
      (exists rs, Zdo (S n) b fn ttl = Ok (Some rs) /\ Zfile (S n) o fn ttl rs /\ forall rs', Zfile (S n) o fn ttl rs' -> rs' = rs) \/ ((forall rs, ~ Zfile (S n) o fn ttl rs) /\ forall rs, Zdo (S n) b fn ttl <> Ok (Some rs))).
    { intros b o fn ttl Hb Ho. cbn [zscan_do zfile]. destruct (fs fn) as [raw|] eqn:Ef; [|right; split; [intros rs (r & t & X & _); discriminate|intros rs; discriminate]].
      destruct (zst0_ok b o ttl Hb Ho) as (z & -> & Ez & A). cbn [rbind]. set (k := {| c_origin := o; c_file := o; c_ttl := ttl; c_owner := []; c_ooz := false |}) in *.
      unfold scanner. destruct raw as [|c raw0] eqn:Er; [right; split; [intros rs (r & t & [= <-] & X & _); congruence|intros rs; discriminate]|].
      rewrite <- Er in *. assert (Nr : raw <> []) by (rewrite Er; discriminate). assert (Lr : (length raw =? 0)%nat = false) by (rewrite Er; reflexivity). rewrite Lr. cbn [negb rassert].
      clear Er c raw0 Lr. destruct (N.eqb_spec (last raw 0) 10) as [El|El]; cbn [negb]; [|right; split; [intros rs (r & t & [= <-] & _ & X & _); congruence|intros rs; discriminate]].
      destruct (pre_layout (length raw) raw false false (le_n _) (or_intror El)) as [(text & -> & Lay)|Ep].
      - cbn [zbind rbind]. assert (Hb2 := layout_bytes _ _ _ _ Lay (Hfs _ _ Ef)).
        assert (SR := scan_run (Zdo n) fn inclS Hincl Fincl (S (length text)) text z k ltac:(lia) Hb2 A). unfold finish in SR. destruct (scan (S (length text)) text) as [acts ok]. cbn [fst snd] in SR.
        assert (Only : forall rs, (exists r t, Some raw = Some r /\ r <> [] /\ last r 0 = 10 /\ layout false false r t /\ lines zn autosplit pton4 pton6 (Zfile n) fn k t rs) -> lines zn autosplit pton4 pton6 inclS fn k text rs).
        { intros rs (r & t & [= <-] & _ & _ & L & X). rewrite (layout_fun _ _ _ _ _ Lay L). apply Lower; [apply Hb|exact X]. }
        destruct SR as [(z' & rs & E & L & O & U)|(L & E)].
        + left. rewrite Ez in O. cbn [app] in O. exists rs.
          destruct (run zone autosplit pton4 pton6 (Zdo n) fn acts z) as [[z2|]|]; cbn [zbind rbind] in *; [|discriminate|discriminate]. destruct ok; [|discriminate]. injection E as ->. rewrite <- O.
          split; [reflexivity|]. split; [exists raw, text; rewrite O; repeat split; auto|]. intros rs' X. rewrite O. apply U. now apply Only.
        + right. split; [intros rs X; apply (L rs); now apply Only|]. intros rs X. destruct (run zone autosplit pton4 pton6 (Zdo n) fn acts z) as [[z2|]|]; cbn [zbind rbind] in *; [|discriminate|discriminate].
          destruct ok; [|discriminate]. now apply (E z2).
      - rewrite Ep. cbn [zbind rbind]. right. split; [|intros rs; discriminate]. intros rs (r & t & [= <-] & _ & _ & L & X). apply layout_pre in L. congruence. }
    split.
    - intros b o fn ttl Hb Ho. destruct (Main b o fn ttl Hb Ho) as [(rs & E & Z & _)|X]; [left; eauto|now right].
    - intros o fn ttl r1 r2 L I Z1 Z2. destruct (legal_struct _ L) as (_ & W).
      assert (Hb : holds (dname o true ++ repeat 0 (256 - length (dname o true))) o).
      { split; [exact L|]. split; [|eauto]. rewrite app_length, repeat_length, dname_length. lia. }
      destruct (Main _ o fn ttl Hb I) as [(rs & _ & _ & U)|(X & _)]; [rewrite (U _ Z1), (U _ Z2); reflexivity|exfalso; now apply (X r1)].
  Qed.
End Zone.
