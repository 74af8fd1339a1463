(** Proofs about the name functions. *)
From Verif Require Import Base DnameModel DnameSpec.
Ltac Zify.zify_post_hook ::= idtac.
Local Open Scope nat_scope.

(** ** Wire form *)
Lemma wire_labels_len ls : S (length (wire_labels ls)) = wire_len ls.
Proof.
  unfold wire_len. f_equal. induction ls as [|l r IH]; cbn [wire_labels fold_right length]; auto.
  rewrite app_length. lia.
Qed.

Lemma wire_labels_app a b : wire_labels (a ++ b) = wire_labels a ++ wire_labels b.
Proof. induction a as [|l r IH]; cbn [wire_labels app]; auto. now rewrite IH, <- app_assoc. Qed.

Lemma wire_len_cons l r : wire_len (l :: r) = S (length l) + wire_len r.
Proof. unfold wire_len. cbn [fold_right]. lia. Qed.

Lemma wire_len_app a b : wire_len (a ++ b) = wire_len a + wire_len b - 1.
Proof.
  induction a as [|l r IH]; [unfold wire_len; cbn [app fold_right]; lia|]. cbn [app]. rewrite !wire_len_cons.
  rewrite IH. unfold wire_len. lia.
Qed.

Lemma wire_len_pos a : 1 <= wire_len a.
Proof. unfold wire_len. lia. Qed.

Lemma dname_unfold ls fq : dname ls fq = N.of_nat (wire_len ls) :: wire_labels ls ++ [term fq].
Proof. unfold dname. rewrite app_length. cbn [length]. now rewrite <- wire_labels_len, Nat.add_1_r. Qed.

Lemma dname_length ls fq : length (dname ls fq) = S (wire_len ls).
Proof. rewrite dname_unfold. cbn [length]. rewrite app_length. cbn [length]. rewrite <- wire_labels_len. lia. Qed.

Lemma wire_inj a b x y : Forall struct_label a -> Forall struct_label b ->
  (x = 0%N \/ x = 255%N) -> (y = 0%N \/ y = 255%N) ->
  forall ra rb, wire_labels a ++ x :: ra = wire_labels b ++ y :: rb -> a = b /\ x = y /\ ra = rb.
Proof.
  intros Ha. revert b. induction Ha as [|l r Hl Hr IH]; intros b Hb Hx Hy ra rb E.
  - destruct Hb as [|l2 r2 H2 Hb2]; cbn in E; inversion E; subst; auto.
    unfold struct_label in H2. exfalso. lia.
  - destruct Hb as [|l2 r2 H2 Hb2]; cbn [wire_labels] in E.
    + cbn in E. inversion E; subst. unfold struct_label in Hl. exfalso. lia.
    + cbn [app] in E. injection E as E1 E2. apply Nat2N.inj in E1.
      rewrite <- !app_assoc in E2.
      assert (l = l2 /\ wire_labels r ++ x :: ra = wire_labels r2 ++ y :: rb) as [-> E3].
      { split.
        - apply (f_equal (firstn (length l))) in E2. rewrite !firstn_app, E1, !Nat.sub_diag, !firstn_O, !app_nil_r, firstn_all in E2.
          rewrite <- E1, firstn_all in E2. exact E2.
        - apply (f_equal (skipn (length l))) in E2. rewrite !skipn_app, E1, !Nat.sub_diag in E2.
          rewrite skipn_all, <- E1, skipn_all in E2. exact E2. }
      destruct (IH r2 Hb2 Hx Hy ra rb E3) as (-> & ? & ?). auto.
Qed.

Lemma term_cases fq : term fq = 0%N \/ term fq = 255%N.
Proof. destruct fq; auto. Qed.

(** ** dname_status *)
Lemma rd_app_len {A} (p : list A) x r : rd (p ++ x :: r) (length p) = Ok x.
Proof. unfold rd. now rewrite nth_error_app2, Nat.sub_diag by lia. Qed.

Lemma status_loop_dname ls fq pre rest oal fuel :
  Forall struct_label ls -> 1 <= length pre ->
  oal = length pre - 1 + wire_len ls -> wire_len ls <= fuel ->
  dname_status_loop fuel (pre ++ wire_labels ls ++ term fq :: rest) oal (length pre - 1)
  = Ok (if fq then DNAME_VALID else DNAME_PARTIAL).
Proof.
  intros H. revert pre fuel. induction H as [|l r Hl Hr IH]; intros pre fuel Hp -> Hf.
  - destruct fuel as [|fuel]; [unfold wire_len in Hf; cbn in Hf; lia|]. cbn [dname_status_loop].
    replace (S (length pre - 1)) with (length pre) by lia. cbn [wire_labels app].
    rewrite rd_app_len. cbn [rbind].
    replace (length pre - 1 + wire_len []) with (length pre) by (unfold wire_len; cbn; lia).
    destruct fq; cbn [term N.eqb orb]; rewrite Nat.ltb_irrefl, Nat.eqb_refl; reflexivity.
  - rewrite wire_len_cons in *. destruct fuel as [|fuel]; [lia|]. cbn [dname_status_loop].
    replace (S (length pre - 1)) with (length pre) by lia. cbn [wire_labels app].
    rewrite rd_app_len. cbn [rbind]. unfold struct_label in Hl.
    destruct (N.eqb_spec (N.of_nat (length l)) 0); [lia|].
    destruct (N.eqb_spec (N.of_nat (length l)) 255); [lia|]. cbn [orb].
    rewrite Nat2N.id. pose proof (wire_len_pos r).
    destruct (Nat.leb_spec (length pre - 1 + (S (length l) + wire_len r)) (length pre + length l)); [lia|].
    specialize (IH (pre ++ N.of_nat (length l) :: l) fuel).
    rewrite app_length in IH. cbn [length] in IH.
    replace (length pre + S (length l) - 1) with (length pre + length l) in IH by lia.
    rewrite <- !app_assoc in *. cbn [app] in IH.
    apply IH; lia.
Qed.

Lemma status_dname ls fq rest : struct_name ls ->
  dname_status (dname ls fq ++ rest) = Ok (if fq then DNAME_VALID else DNAME_PARTIAL).
Proof.
  intros [H Hl]. rewrite dname_unfold. unfold dname_status, rd. cbn [nth_error app rbind].
  pose proof (wire_len_pos ls).
  destruct (N.eqb_spec (N.of_nat (wire_len ls)) 0); [lia|]. rewrite Nat2N.id.
  pose proof (status_loop_dname ls fq [N.of_nat (wire_len ls)] rest (wire_len ls) (S (wire_len ls)) H) as E.
  cbn [length] in E. rewrite <- app_assoc. cbn [app Nat.sub] in E |- *. apply E; lia.
Qed.

Lemma sub_cons {A} (l : list A) i n x : nth_error l i = Some x -> sub l i (S n) = x :: sub l (S i) n.
Proof. intros H. unfold sub. rewrite (skipn_nth_cons l i x H). reflexivity. Qed.

Lemma sub_split {A} (l : list A) i a b : sub l i (a + b) = sub l i a ++ sub l (i + a) b.
Proof.
  unfold sub. rewrite <- (firstn_skipn a (skipn i l)) at 1.
  rewrite firstn_app, firstn_firstn, skipn_skipn_plus.
  replace (Nat.min (a + b) a) with a by lia.
  rewrite (Nat.add_comm a i).
  destruct (Nat.le_gt_cases a (length (skipn i l))) as [Hc|Hc].
  - rewrite firstn_length. replace (a + b - Nat.min a (length (skipn i l))) with b by lia. reflexivity.
  - rewrite skipn_length in Hc. rewrite (skipn_all2 (n:=i+a) l) by lia. now rewrite !firstn_nil.
Qed.

Lemma status_loop_total fuel buf oal p : oal < length buf -> p < oal -> oal - p < fuel ->
  all_bytes buf ->
  exists s, dname_status_loop fuel buf oal p = Ok s /\
  match s with
  | DNAME_INVALID => True
  | _ => exists ls, Forall (fun l => 1 <= length l) ls /\
      sub buf (S p) (oal - p) = wire_labels ls ++ [term (status_eqb s DNAME_VALID)]
  end.
Proof.
  revert p. induction fuel as [|fuel IH]; intros p Ho Hp Hf Hb; [lia|]. cbn [dname_status_loop].
  unfold rd. destruct (nth_error buf (S p)) as [llen|] eqn:En.
  2:{ apply nth_error_None in En. lia. }
  cbn [rbind].
  destruct (N.eqb_spec llen 0) as [->|Hz]; [|destruct (N.eqb_spec llen 255) as [->|Hff]]; cbn [orb].
  1,2: destruct (Nat.ltb_spec (S p) oal); [eexists; split; [reflexivity|exact I]|];
    assert (oal = S p) as -> by lia; rewrite Nat.eqb_refl; cbn [rassert];
    eexists; split; [reflexivity|]; exists []; split; [constructor|];
    replace (S p - p) with 1 by lia; rewrite (sub_cons _ _ _ _ En); reflexivity.
  destruct (Nat.leb_spec oal (S p + N.to_nat llen)).
  - eexists; split; [reflexivity|exact I].
  - destruct (IH (S p + N.to_nat llen)) as (s & E & HS); [lia..|assumption|].
    exists s. split; [exact E|].
    assert (G : (exists ls, Forall (fun l => 1 <= length l) ls /\
       sub buf (S (S p + N.to_nat llen)) (oal - (S p + N.to_nat llen)) = wire_labels ls ++ [term (status_eqb s DNAME_VALID)]) ->
       exists ls, Forall (fun l => 1 <= length l) ls /\ sub buf (S p) (oal - p) = wire_labels ls ++ [term (status_eqb s DNAME_VALID)]).
    { intros (ls & HF & HE). exists (sub buf (S (S p)) (N.to_nat llen) :: ls).
      assert (Hl : length (sub buf (S (S p)) (N.to_nat llen)) = N.to_nat llen) by (apply sub_length; lia).
      split; [constructor; [lia|assumption]|].
      replace (oal - p) with (S (N.to_nat llen + (oal - (S p + N.to_nat llen)))) by lia.
      rewrite (sub_cons _ _ _ _ En), sub_split. cbn [wire_labels app]. rewrite Hl, N2Nat.id.
      f_equal. rewrite <- app_assoc. f_equal. rewrite <- HE. f_equal. }
    destruct s; auto.
Qed.

Lemma wire_label_bound ls : Forall (fun l => 1 <= length l) ls -> wire_len ls <= 255 -> struct_name ls.
Proof.
  intros H Hl. split; [|exact Hl]. induction H as [|l r H1 H2 IH]; constructor.
  - rewrite wire_len_cons in Hl. pose proof (wire_len_pos r). unfold struct_label. lia.
  - apply IH. rewrite wire_len_cons in Hl. lia.
Qed.

Lemma status_total buf oal : rd buf 0 = Ok oal -> N.to_nat oal < length buf -> all_bytes buf ->
  exists s, dname_status buf = Ok s /\
  match s with
  | DNAME_INVALID => True
  | _ => exists ls rest, struct_name ls /\ buf = dname ls (status_eqb s DNAME_VALID) ++ rest
  end.
Proof.
  intros E0 Hl Hb. unfold dname_status. rewrite E0. cbn [rbind].
  destruct (N.eqb_spec oal 0) as [->|Hz]; [eexists; split; [reflexivity|exact I]|].
  destruct (status_loop_total (S (N.to_nat oal)) buf (N.to_nat oal) 0) as (s & E & HS); [lia..|assumption|].
  exists s. split; [exact E|].
  destruct buf as [|x buf]; [cbn in Hl; lia|]. unfold rd in E0. cbn in E0. injection E0 as ->.
  inversion Hb as [|? ? Hb0 Hb1]; subst. unfold is_byte in Hb0.
  assert (G : (exists ls, Forall (fun l => 1 <= length l) ls /\
     sub (oal :: buf) 1 (N.to_nat oal - 0) = wire_labels ls ++ [term (status_eqb s DNAME_VALID)]) ->
     exists ls rest, struct_name ls /\ oal :: buf = dname ls (status_eqb s DNAME_VALID) ++ rest).
  { intros (ls & HF & HE). exists ls, (skipn (N.to_nat oal) buf).
    assert (Hw : wire_len ls = N.to_nat oal).
    { apply (f_equal (@length _)) in HE. rewrite sub_length, app_length in HE by (cbn [length] in *; lia).
      cbn [length] in HE. rewrite <- wire_labels_len. lia. }
    split; [apply wire_label_bound; [assumption|lia]|].
    rewrite dname_unfold, Hw, N2Nat.id. cbn [app]. f_equal. rewrite <- HE.
    unfold sub. cbn [skipn]. rewrite Nat.sub_0_r. now rewrite firstn_skipn. }
  destruct s; auto.
Qed.

(** ** Reading text *)
Lemma downcase_lower b : downcase b = lower b.
Proof.
  unfold downcase, lower.
  destruct (N.ltb_spec b 91), (N.ltb_spec 64 b), (N.leb_spec 65 b), (N.leb_spec b 90); cbn [andb]; try lia; auto.
  assert (In b (map (fun i => 65 + N.of_nat i)%N (seq 0 26))) as Hin.
  { apply in_map_iff. exists (N.to_nat (b - 65)). split; [lia|]. apply in_seq. lia. }
  cbn in Hin. repeat (destruct Hin as [<-|Hin]; [reflexivity|]). destruct Hin.
Qed.

Fixpoint dec (t : bytes) : option bytes :=
  match t with
  | [] => Some []
  | c :: t1 =>
      if (c =? 92)%N then
        match t1 with
        | [] => None
        | d :: t2 =>
            if isdig d then
              match t2 with
              | e :: f :: t3 =>
                  if isdig e && isdig f && (((d - 48) * 100 + (e - 48) * 10 + (f - 48) <=? 255)%N)
                  then option_map (cons ((d - 48) * 100 + (e - 48) * 10 + (f - 48))%N) (dec t3) else None
              | _ => None
              end
            else option_map (cons d) (dec t2)
        end
      else option_map (cons c) (dec t1)
  end.

Lemma sub_nil {A} (l : list A) i n : i + n <= length l -> sub l i n = [] -> n = 0.
Proof. intros H E. apply (f_equal (@length _)) in E. now rewrite sub_length in E. Qed.

Lemma sub_head {A} (l : list A) i n x : nth_error l i = Some x -> 1 <= n -> sub l i n = x :: sub l (S i) (n - 1).
Proof. intros H Hn. destruct n as [|n]; [lia|]. rewrite (sub_cons _ _ _ _ H). now replace (S n - 1) with n by lia. Qed.

Lemma nth_some {A} (l : list A) i : i < length l -> exists x, nth_error l i = Some x.
Proof. intros H. destruct (nth_error l i) eqn:E; eauto. apply nth_error_None in E. lia. Qed.

Lemma rd_some {A} (l : list A) i x : nth_error l i = Some x -> rd l i = Ok x.
Proof. unfold rd. now intros ->. Qed.

Lemma option_app out x (o : option bytes) :
  option_map (app (out ++ [x])) o = option_map (app out) (option_map (cons x) o).
Proof. destruct o; cbn; [now rewrite <- app_assoc|reflexivity]. Qed.

Lemma unescape_dec fuel : forall inb base len i cap out,
  base + len <= length inb -> len - i < fuel -> i <= len -> length out + (len - i) <= cap ->
  dns_unescape_loop fuel inb base len i cap out = Ok (option_map (app out) (dec (sub inb (base + i) (len - i)))).
Proof.
  induction fuel as [|fuel IH]; intros inb base len i cap out Hin Hf Hi Hc; [lia|].
  cbn [dns_unescape_loop]. destruct (Nat.ltb_spec i len) as [Hlt|Hge].
  2:{ replace (len - i) with 0 by lia. cbn [sub firstn dec option_map]. unfold sub. cbn [firstn dec option_map]. now rewrite app_nil_r. }
  destruct (nth_some inb (base + i)) as [c Ec]; [lia|]. rewrite (rd_some _ _ _ Ec). cbn [rbind].
  rewrite (sub_head _ _ _ _ Ec) by lia. cbn [dec].
  destruct (N.eqb_spec c 92) as [->|Hbs]; cbn [negb].
  - destruct (Nat.leb_spec len (i + 1)) as [Hd|Hd].
    { replace (len - i - 1) with 0 by lia. reflexivity. }
    replace (S (base + i)) with (base + (i + 1)) by lia.
    destruct (nth_some inb (base + (i + 1))) as [d Ed]; [lia|]. rewrite (rd_some _ _ _ Ed). cbn [rbind].
    rewrite (sub_head _ _ _ _ Ed) by lia.
    destruct (isdig d) eqn:Hdig.
    + destruct (Nat.leb_spec len (i + 1 + 2)) as [Hs|Hs].
      { destruct (sub inb (S (base + (i + 1))) (len - i - 1 - 1)) as [|e [|f t3]] eqn:Es; auto.
        apply (f_equal (@length _)) in Es. rewrite sub_length in Es by lia. cbn [length] in Es. exfalso. lia. }
      destruct (nth_some inb (base + (i + 1 + 1))) as [e Ee]; [lia|]. rewrite (rd_some _ _ _ Ee). cbn [rbind].
      destruct (nth_some inb (base + (i + 1 + 2))) as [f Ef]; [lia|]. rewrite (rd_some _ _ _ Ef). cbn [rbind].
      replace (S (base + (i + 1))) with (base + (i + 1 + 1)) by lia.
      rewrite (sub_head _ _ _ _ Ee) by lia.
      replace (S (base + (i + 1 + 1))) with (base + (i + 1 + 2)) by lia.
      rewrite (sub_head _ _ _ _ Ef) by lia.
      destruct (isdig e); cbn [negb andb]; [|reflexivity].
      destruct (isdig f); cbn [negb andb]; [|reflexivity].
      set (x := ((d - 48) * 100 + (e - 48) * 10 + (f - 48))%N).
      rewrite N.ltb_antisym. destruct (N.leb_spec x 255); cbn [negb]; [|reflexivity].
      destruct (Nat.ltb_spec (length out) cap); [|lia]. cbn [rassert].
      rewrite IH; [|lia|lia|lia|rewrite app_length; cbn [length]; lia].
      rewrite option_app. do 5 f_equal; lia.
    + destruct (Nat.ltb_spec (length out) cap); [|lia]. cbn [rassert].
      rewrite IH; [|lia|lia|lia|rewrite app_length; cbn [length]; lia].
      rewrite option_app. do 5 f_equal; lia.
  - destruct (Nat.ltb_spec (length out) cap); [|lia]. cbn [rassert].
    rewrite IH; [|lia|lia|lia|rewrite app_length; cbn [length]; lia].
    rewrite option_app. do 5 f_equal; lia.
Qed.

(** dot structure *)
Definition class (esc : bool) (c : N) : bool * bool :=
  if esc then (false, false) else if (c =? 92)%N then (true, false) else if (c =? 46)%N then (false, true) else (false, false).

Fixpoint nodot (esc : bool) (t : bytes) : option bool :=
  match t with
  | [] => Some esc
  | c :: t' => let '(e, dot) := class esc c in if dot then None else nodot e t'
  end.

Lemma nodot_app a : forall e b, nodot e (a ++ b) = match nodot e a with Some e' => nodot e' b | None => None end.
Proof. induction a as [|c a IH]; intros e b; cbn [app nodot]; auto. destruct (class e c) as [e' [|]]; auto. Qed.

Lemma isdig_spec b : isdig b = true <-> is_digit b.
Proof. unfold isdig, is_digit. rewrite andb_true_iff, !N.leb_le. lia. Qed.

Lemma isdig_class b : isdig b = true -> class false b = (false, false).
Proof.
  rewrite isdig_spec. unfold is_digit, class. intros H.
  destruct (N.eqb_spec b 92); [lia|]. destruct (N.eqb_spec b 46); [lia|]. reflexivity.
Qed.

Lemma escaped_dec t d : escaped t d -> dec t = Some d /\ nodot false t = Some false.
Proof.
  induction 1 as [|b t d H1 H2 He [IH1 IH2]|b t d Hn He [IH1 IH2]|b1 b2 b3 t d D1 D2 D3 Hx He [IH1 IH2]]; auto.
  - apply N.eqb_neq in H1, H2. cbn [dec nodot]. unfold class. rewrite H1, H2, IH1, IH2. auto.
  - cbn [dec nodot]. unfold class at 1. cbn [N.eqb Pos.eqb]. cbn [class].
    destruct (isdig b) eqn:E; [apply isdig_spec in E; contradiction|]. rewrite IH1. auto.
  - apply isdig_spec in D1, D2, D3. cbn [dec nodot N.eqb Pos.eqb]. rewrite D1, D2, D3.
    unfold class at 1. cbn [N.eqb Pos.eqb]. unfold class at 1.
    rewrite (isdig_class _ D2), (isdig_class _ D3). apply N.leb_le in Hx. rewrite Hx. cbn [andb].
    rewrite IH1, IH2. auto.
Qed.

Lemma dec_escaped_aux n : forall t d e, length t <= n -> dec t = Some d -> nodot false t = Some e -> escaped t d.
Proof.
  induction n as [|n IH]; intros t d e Hl Hd Hn.
  - destruct t; [|cbn in Hl; lia]. cbn in Hd. injection Hd as <-. constructor.
  - destruct t as [|c t]; [cbn in Hd; injection Hd as <-; constructor|].
    cbn [dec] in Hd. cbn [nodot] in Hn. cbn [length] in Hl.
    destruct (N.eqb_spec c 92) as [->|Hbs].
    + unfold class in Hn at 1. cbn [N.eqb Pos.eqb] in Hn.
      destruct t as [|a t]; [discriminate Hd|]. cbn [nodot class] in Hn. cbn [length] in Hl.
      destruct (isdig a) eqn:Ea.
      * destruct t as [|b [|f t]]; [discriminate Hd..|].
        destruct (isdig b) eqn:Eb; [|discriminate Hd]. destruct (isdig f) eqn:Ef; [|discriminate Hd].
        cbn [andb] in Hd. cbn [nodot length] in Hn, Hl.
        rewrite (isdig_class _ Eb), (isdig_class _ Ef) in Hn.
        destruct (N.leb_spec ((a - 48) * 100 + (b - 48) * 10 + (f - 48)) 255); [|discriminate Hd].
        destruct (dec t) as [d'|] eqn:Ed; [|discriminate Hd]. cbn in Hd. injection Hd as <-.
        apply esc_num; try (apply isdig_spec; assumption); auto. eapply IH; eauto. lia.
      * destruct (dec t) as [d'|] eqn:Ed; [|discriminate Hd]. cbn in Hd. injection Hd as <-.
        apply esc_char; [rewrite <- isdig_spec; congruence|]. eapply IH; eauto. lia.
    + unfold class in Hn. apply N.eqb_neq in Hbs. rewrite Hbs in Hn.
      destruct (N.eqb_spec c 46) as [->|Hdot]; [discriminate Hn|].
      destruct (dec t) as [d'|] eqn:Ed; [|discriminate Hd]. cbn in Hd. injection Hd as <-.
      apply N.eqb_neq in Hbs. apply esc_plain; auto. eapply IH; eauto. lia.
Qed.
Lemma dec_escaped t d e : dec t = Some d -> nodot false t = Some e -> escaped t d.
Proof. intros. eapply dec_escaped_aux; eauto. Qed.

Lemma escaped_len t d : escaped t d -> length d <= length t <= 4 * length d.
Proof. induction 1; cbn [length]; lia. Qed.

Lemma lower_byte b : is_byte b -> is_byte (lower b).
Proof. unfold is_byte, lower. destruct (N.leb_spec 65 b), (N.leb_spec b 90); cbn [andb]; lia. Qed.

Lemma escaped_bytes t d : escaped t d -> all_bytes t -> all_bytes d.
Proof.
  induction 1; intros Hb; auto.
  - inversion Hb; subst. constructor; auto. apply IHescaped; auto.
  - inversion Hb as [|? ? _ Hb2]; subst. inversion Hb2; subst. constructor; auto. apply IHescaped; auto.
  - constructor; [unfold is_byte; lia|]. apply IHescaped.
    do 4 (inversion Hb as [|? ? _ Hb2]; subst; clear Hb; rename Hb2 into Hb). exact Hb.
Qed.

Definition close (raw : bytes) (total : nat) : option label :=
  match raw with
  | [] => None
  | _ =>
      if Nat.leb (length raw) 252 then
        match dec raw with
        | None => None
        | Some d => if Nat.leb (length d) 63 then
                      match map lower d with
                      | [] => None
                      | lab => if Nat.leb (length lab + 1 + total) 255 then Some lab else None
                      end
                    else None
        end
      else None
  end.

Lemma close_ne raw total : raw <> [] -> close raw total =
  if Nat.leb (length raw) 252 then
    match dec raw with
    | None => None
    | Some d => if Nat.leb (length d) 63 then
                  match map lower d with
                  | [] => None
                  | lab => if Nat.leb (length lab + 1 + total) 255 then Some lab else None
                  end
                else None
    end
  else None.
Proof. destruct raw; [congruence|reflexivity]. Qed.

Fixpoint scan (rest raw : bytes) (esc : bool) (total : nat) : option (list label * bool) :=
  match rest with
  | [] => Some ([], false)
  | c :: rest' =>
      let '(esc', dot) := class esc c in
      if negb dot && negb (Nat.eqb (length rest') 0) then scan rest' (raw ++ [c]) esc' total
      else
        match close (if dot then raw else raw ++ [c]) total with
        | None => None
        | Some lab =>
            match rest' with
            | [] => Some ([lab], dot)
            | _ => match scan rest' [] esc' (total + 1 + length lab) with
                   | None => None
                   | Some (ls, d) => Some (lab :: ls, d)
                   end
            end
        end
  end.

Lemma unescape_label_spec instr base len : base + len <= length instr -> 1 <= len ->
  dns_unescape_label instr base len =
  Ok (if Nat.leb len 252 then
        match dec (sub instr base len) with
        | None => None
        | Some d => if Nat.leb (length d) 63 then Some (map lower d) else None
        end
      else None).
Proof.
  intros H1 H2. unfold dns_unescape_label. destruct (Nat.leb_spec len 252); [|reflexivity].
  unfold dns_unescape. destruct (Nat.eqb_spec len 0); [lia|]. cbn [negb rassert].
  rewrite unescape_dec by (cbn [length]; lia). cbn [rbind].
  rewrite Nat.add_0_r, Nat.sub_0_r. destruct (dec (sub instr base len)) as [d|]; cbn [option_map app]; auto.
  destruct (Nat.leb (length d) 63); auto. do 2 f_equal. apply map_ext. apply downcase_lower.
Qed.

Lemma wr_head {A} (x y : A) l : wr (x :: l) 0 [y] = Ok (y :: l).
Proof. reflexivity. Qed.

Lemma loop_scan : forall rest i pre raw esc dot0 instr buf w tail ls0,
  instr = pre ++ raw ++ rest -> i = length pre + length raw ->
  buf = N.of_nat (1 + length w) :: w ++ tail -> length buf = 256 -> w = wire_labels ls0 ->
  1 + length w <= 255 ->
  exists r, from_string_loop (length rest) i instr buf (1 + length w) esc dot0 (length pre) = Ok r /\
  (rest <> [] ->
   match scan rest raw esc (1 + length w) with
   | None => r = None
   | Some (ls, dot) => exists tail',
       r = Some (N.of_nat (wire_len (ls0 ++ ls)) :: wire_labels (ls0 ++ ls) ++ tail', wire_len (ls0 ++ ls), dot)
       /\ length tail' = 255 - length (wire_labels (ls0 ++ ls)) /\ wire_len (ls0 ++ ls) <= 255
   end).
Proof.
  induction rest as [|c rest IH]; intros i pre raw esc dot0 instr buf w tail ls0 Hin Hi Hb Hbl Hw Hwl.
  - cbn [length from_string_loop]. eexists; split; [reflexivity|]. congruence.
  - cbn [length from_string_loop].
    assert (Ec : rd instr i = Ok c).
    { subst instr i. rewrite app_assoc, <- app_length. apply rd_app_len. }
    rewrite Ec. cbn [rbind scan].
    change (if esc then (false, false) else if (c =? 92)%N then (true, false) else if (c =? 46)%N then (false, true) else (false, false)) with (class esc c).
    destruct (class esc c) as [esc' dot].
    destruct (negb dot && negb (Nat.eqb (length rest) 0)) eqn:Ecnt.
    + replace (i + 1) with (length pre + length (raw ++ [c])) by (rewrite app_length; cbn [length]; lia).
      destruct (IH (length pre + length (raw ++ [c])) pre (raw ++ [c]) esc' dot instr buf w tail ls0) as (r & E & HS);
        auto; [subst; now rewrite <- app_assoc|].
      exists r. split; [exact E|]. intros _. apply HS.
      intros ->. cbn in Ecnt. rewrite andb_false_r in Ecnt. discriminate Ecnt.
    + remember (if dot then raw else raw ++ [c]) as raw' eqn:Eraw'.
      assert (Hrl : (if dot then i - length pre else i - length pre + 1) = length raw').
      { subst raw' i. destruct dot; rewrite ?app_length; cbn [length]; lia. }
      rewrite Hrl.
      assert (Hlen : length pre + length raw' <= length instr).
      { subst raw' instr. rewrite !app_length. cbn [length]. destruct dot; rewrite ?app_length; cbn [length]; lia. }
      assert (Hsub : sub instr (length pre) (length raw') = raw').
      { subst instr. replace (length pre) with (length pre + 0) by lia. rewrite sub_app_r.
        subst raw'. destruct dot.
        - rewrite sub_app_l by lia. apply sub_full.
        - replace (raw ++ c :: rest) with ((raw ++ [c]) ++ rest) by (now rewrite <- app_assoc).
          rewrite sub_app_l by lia. apply sub_full. }
      destruct (Nat.eqb_spec (length raw') 0) as [Hz|Hz].
      { destruct raw'; [|discriminate Hz]. exists None. split; [reflexivity|intros _; reflexivity]. }
      assert (Hrp : 1 <= length raw') by lia.
      rewrite close_ne by (intros ->; apply Hz; reflexivity).
      rewrite unescape_label_spec by assumption. rewrite Hsub. cbn [rbind].
      destruct (Nat.leb (length raw') 252); [|exists None; auto].
      destruct (dec raw') as [d|]; [|exists None; auto].
      destruct (Nat.leb (length d) 63); [|exists None; auto].
      destruct (map lower d) as [|y lab'] eqn:El; [exists None; auto|]. rewrite <- El. remember (map lower d) as lab eqn:Elab.
      assert (Hlab : 1 <= length lab) by (rewrite El; cbn [length]; lia). clear El y lab' Elab.
      subst buf. unfold rd at 1. cbn [nth_error rbind].
      destruct (N.ltb_spec 255 (N.of_nat (length lab) + 1 + N.of_nat (1 + length w))) as [Hov|Hok];
      destruct (Nat.leb_spec (length lab + 1 + (1 + length w)) 255) as [Hok2|Hov2]; try lia; [exists None; auto|].
      cbn [length] in Hbl. rewrite app_length in Hbl.
      rewrite wr_head. cbn [rbind].
      remember (N.of_nat (1 + length w) + N.of_nat (length lab) + 1)%N as T eqn:HT.
      pose proof (wr_prefix (T :: w) tail [N.of_nat (length lab)]) as W1. cbn [length app] in W1.
      change (1 + length w) with (S (length w)) in *.
      rewrite W1 by lia. cbn [rbind].
      pose proof (wr_prefix (T :: w ++ [N.of_nat (length lab)]) (skipn 1 tail) lab) as W2.
      cbn [length app] in W2. rewrite app_length in W2. cbn [length] in W2. rewrite <- !app_assoc in W2. cbn [app] in W2.
      replace (S (length w) + 1) with (S (length w + 1)) by lia.
      rewrite W2 by (rewrite skipn_length; lia). cbn [rbind].
      specialize (IH (i + 1) (pre ++ raw ++ [c]) [] esc' dot instr
        (T :: w ++ N.of_nat (length lab) :: lab ++ skipn (length lab) (skipn 1 tail))
        (wire_labels (ls0 ++ [lab])) (skipn (length lab) (skipn 1 tail)) (ls0 ++ [lab])).
      assert (Hwlab : wire_labels (ls0 ++ [lab]) = w ++ N.of_nat (length lab) :: lab).
      { rewrite wire_labels_app. cbn [wire_labels]. now rewrite app_nil_r, <- Hw. }
      assert (Hwl2 : length (wire_labels (ls0 ++ [lab])) = length w + S (length lab)).
      { rewrite Hwlab, app_length. reflexivity. }
      rewrite Hwl2 in IH.
      replace (1 + (length w + S (length lab))) with (S (length w + 1) + length lab) in IH by lia.
      assert (Hls : length (pre ++ raw ++ [c]) = i + 1).
      { rewrite !app_length. cbn [length]. lia. }
      rewrite Hls in IH.
      destruct IH as (r & E & HS).
      { subst instr. rewrite <- !app_assoc. reflexivity. }
      { cbn [length]. lia. }
      { rewrite Hwlab, <- app_assoc. cbn [app]. f_equal. rewrite HT. lia. }
      { cbn [length]. rewrite app_length. cbn [length]. rewrite app_length, !skipn_length. lia. }
      { reflexivity. }
      { lia. }
      exists r. split; [exact E|]. intros _.
      destruct rest as [|c2 rest2].
      * cbn [length from_string_loop] in E. injection E as <-.
        exists (skipn (length lab) (skipn 1 tail)).
        assert (Hwll : wire_len (ls0 ++ [lab]) = S (length w + 1) + length lab).
        { rewrite <- wire_labels_len, Hwl2. lia. }
        rewrite Hwll, Hwl2, Hwlab. split; [|split].
        -- do 3 f_equal. f_equal; [rewrite HT; lia|]. rewrite <- app_assoc. reflexivity.
        -- rewrite !skipn_length. lia.
        -- lia.
      * specialize (HS ltac:(discriminate)).
        replace (S (length w) + 1 + length lab) with (S (length w + 1) + length lab) by lia.
        destruct (scan (c2 :: rest2) [] esc' (S (length w + 1) + length lab)) as [[ls d2]|]; auto.
        rewrite <- app_assoc in HS. exact HS.
Qed.

Lemma close_sound raw total lab e : close raw total = Some lab -> nodot false raw = Some e -> all_bytes raw ->
  label_text raw lab /\ legal_label lab /\ length lab + 1 + total <= 255.
Proof.
  unfold close. destruct raw as [|x raw']; [discriminate|]. remember (x :: raw') as raw. clear Heqraw x raw'.
  destruct (Nat.leb (length raw) 252); [|discriminate].
  destruct (dec raw) as [d|] eqn:Ed; [|discriminate].
  destruct (Nat.leb_spec (length d) 63); [|discriminate].
  remember (map lower d) as m. destruct m as [|y m']; [discriminate|].
  destruct (Nat.leb_spec (length (y :: m') + 1 + total) 255); [|discriminate].
  intros [= <-] Hn Hb. pose proof (dec_escaped _ _ _ Ed Hn) as He. split; [|split; auto].
  - exists d. repeat split; auto. discriminate.
  - split.
    + assert (length (y :: m') = length d) by (rewrite Heqm; apply map_length). cbn [length] in *. lia.
    + rewrite Heqm. apply Forall_map. eapply Forall_impl; [apply lower_byte|]. eapply escaped_bytes; eauto.
Qed.

Lemma close_complete raw total lab : label_text raw lab -> legal_label lab -> length lab + 1 + total <= 255 ->
  close raw total = Some lab.
Proof.
  intros (d & He & -> & Hne) [Hl _] Ht. rewrite map_length in *.
  pose proof (escaped_len _ _ He). pose proof (escaped_dec _ _ He) as [Hd _].
  unfold close. destruct raw as [|x raw']; [cbn [length] in *; lia|]. remember (x :: raw') as raw.
  destruct (Nat.leb_spec (length raw) 252); [|lia]. rewrite Hd.
  destruct (Nat.leb_spec (length d) 63); [|lia].
  rewrite <- (map_length lower d) in Ht.
  destruct (map lower d); [congruence|].
  destruct (Nat.leb_spec (length (n :: l) + 1 + total) 255); [reflexivity|lia].
Qed.

Lemma label_text_nodot t l : label_text t l -> nodot false t = Some false /\ t <> [].
Proof.
  intros (d & He & -> & Hne). split; [apply (escaped_dec _ _ He)|].
  intros ->. inversion He; subst. apply Hne. reflexivity.
Qed.

Lemma scan_sound : forall rest raw esc total ls fq,
  scan rest raw esc total = Some (ls, fq) -> rest <> [] -> nodot false raw = Some esc -> all_bytes (raw ++ rest) ->
  labels_text (raw ++ rest) ls fq /\ Forall legal_label ls /\ total + wire_len ls <= 256.
Proof.
  induction rest as [|c rest IH]; intros raw esc total ls fq Hs Hne Hn Hb; [congruence|]. cbn [scan] in Hs.
  assert (Hnc : nodot false (raw ++ [c]) = let '(e, dot) := class esc c in if dot then None else Some e).
  { rewrite nodot_app, Hn. cbn [nodot]. destruct (class esc c) as [e [|]]; auto. }
  destruct (class esc c) as [esc' dot] eqn:Ecl.
  assert (Hdot : dot = true -> c = 46%N /\ esc = false).
  { intros ->. unfold class in Ecl. destruct esc; [discriminate Ecl|]. destruct (N.eqb_spec c 92); [discriminate Ecl|].
    destruct (N.eqb_spec c 46); [auto|discriminate Ecl]. }
  assert (Hesc : dot = true -> esc' = false).
  { intros Hd. unfold class in Ecl. destruct esc; [congruence|]. destruct (N.eqb_spec c 92); [congruence|].
    destruct (N.eqb_spec c 46); congruence. }
  replace (raw ++ c :: rest) with ((raw ++ [c]) ++ rest) in * by (now rewrite <- app_assoc).
  destruct (negb dot && negb (Nat.eqb (length rest) 0)) eqn:Ecnt.
  - destruct dot; [discriminate Ecnt|].
    assert (rest <> []) by (intros ->; discriminate Ecnt).
    eapply IH; eauto.
  - destruct (close (if dot then raw else raw ++ [c]) total) as [lab|] eqn:Ecl2; [|discriminate Hs].
    assert (Hb2 : all_bytes (if dot then raw else raw ++ [c])).
    { apply Forall_app in Hb as [Hb _]. destruct dot; [|exact Hb]. apply Forall_app in Hb as [Hb _]. exact Hb. }
    assert (exists e, nodot false (if dot then raw else raw ++ [c]) = Some e) as (e & He).
    { destruct dot; eauto. }
    destruct (close_sound _ _ _ _ Ecl2 He Hb2) as (Hlt & Hll & Ht).
    destruct rest as [|c2 rest2].
    + injection Hs as <- <-. rewrite app_nil_r. split; [|split].
      * destruct dot; [destruct (Hdot eq_refl) as [-> ->]; now apply lt_dot|now apply lt_last].
      * constructor; auto.
      * rewrite wire_len_cons. unfold wire_len. cbn. lia.
    + destruct dot; [|discriminate Ecnt]. destruct (Hdot eq_refl) as [-> ->]. specialize (Hesc eq_refl). subst esc'.
      destruct (scan (c2 :: rest2) [] false (total + 1 + length lab)) as [[ls2 fq2]|] eqn:Es; [|discriminate Hs].
      injection Hs as <- <-.
      destruct (IH _ _ _ _ _ Es) as (H1 & H2 & H3); [discriminate|reflexivity| |].
      { apply Forall_app in Hb as [_ Hb]. exact Hb. }
      split; [|split].
      * rewrite <- app_assoc. cbn [app] in *. now apply lt_more.
      * constructor; auto.
      * rewrite wire_len_cons. lia.
Qed.

Lemma nodot_dot t r : nodot false t = Some false -> nodot false (t ++ 46%N :: r) = None.
Proof. intros H. rewrite nodot_app, H. reflexivity. Qed.

Lemma first_dot_unique a : forall b ra rb e, nodot e a = Some false -> nodot e b = Some false ->
  a ++ 46%N :: ra = b ++ 46%N :: rb -> a = b /\ ra = rb.
Proof.
  induction a as [|x a IH]; intros b ra rb e Ha Hb E.
  - cbn in Ha. injection Ha as ->. destruct b as [|y b]; cbn in E; [injection E as ->; auto|].
    injection E as <- E. cbn in Hb. discriminate Hb.
  - destruct b as [|y b].
    + cbn in E. injection E as -> E. cbn in Hb. injection Hb as ->. cbn in Ha. discriminate Ha.
    + cbn [app] in E. injection E as <- E. cbn [nodot] in Ha, Hb.
      destruct (class e x) as [e' [|]]; [discriminate Ha|]. destruct (IH b ra rb e' Ha Hb E) as [-> ->]. auto.
Qed.

Lemma labels_text_ne t ls fq : labels_text t ls fq -> t <> [] /\ ls <> [].
Proof.
  destruct 1 as [t l H|t l H|t l t2 ls fq H]; (split; [|discriminate]).
  - apply label_text_nodot in H as [_ H]. exact H.
  - intros E. now apply app_eq_nil in E as [_ E].
  - intros E. now apply app_eq_nil in E as [_ E].
Qed.

Lemma labels_text_cases t ls fq : labels_text t ls fq ->
  (exists l, label_text t l /\ ls = [l] /\ fq = false) \/
  (exists t1 r l, t = t1 ++ 46%N :: r /\ label_text t1 l /\
     ((r = [] /\ ls = [l] /\ fq = true) \/ (exists ls2, labels_text r ls2 fq /\ ls = l :: ls2))).
Proof.
  destruct 1 as [t l H|t l H|t l t2 ls fq H H2]; [left; eauto|right..].
  - exists t, [], l. split; [reflexivity|]. split; [assumption|]. left. auto.
  - exists t, t2, l. repeat split; auto. right. eauto.
Qed.

Lemma scan_complete : forall rest raw esc total ls fq,
  labels_text (raw ++ rest) ls fq -> rest <> [] -> nodot false raw = Some esc ->
  Forall legal_label ls -> total + wire_len ls <= 256 ->
  scan rest raw esc total = Some (ls, fq).
Proof.
  induction rest as [|c rest IH]; intros raw esc total ls fq Ht Hne Hn Hleg Hlen; [congruence|]. cbn [scan].
  assert (Hnc : nodot false (raw ++ [c]) = let '(e, dot) := class esc c in if dot then None else Some e).
  { rewrite nodot_app, Hn. cbn [nodot]. destruct (class esc c) as [e [|]]; auto. }
  destruct (class esc c) as [esc' dot] eqn:Ecl.
  destruct dot.
  - cbn [negb andb].
    assert (c = 46%N /\ esc = false /\ esc' = false) as (-> & -> & ->).
    { unfold class in Ecl. destruct esc; [discriminate Ecl|]. destruct (N.eqb_spec c 92); [discriminate Ecl|].
      destruct (N.eqb_spec c 46); [inversion Ecl; auto|discriminate Ecl]. }
    destruct (labels_text_cases _ _ _ Ht) as [(l & Hl & _)|(t1 & r & l & E & Hl & Hc)].
    { apply label_text_nodot in Hl as [Hl _]. rewrite nodot_dot in Hl by assumption. discriminate Hl. }
    pose proof (label_text_nodot _ _ Hl) as [Hl1 _].
    destruct (first_dot_unique _ _ _ _ _ Hn Hl1 E) as [<- <-].
    destruct Hc as [(-> & -> & ->)|(ls2 & H2 & ->)].
    + inversion Hleg; subst. rewrite wire_len_cons in Hlen. pose proof (wire_len_pos []).
      rewrite (close_complete _ _ _ Hl) by (auto; lia). reflexivity.
    + inversion Hleg; subst. rewrite wire_len_cons in Hlen. pose proof (wire_len_pos ls2).
      rewrite (close_complete _ _ _ Hl) by (auto; lia).
      pose proof (labels_text_ne _ _ _ H2) as [Hr _].
      destruct rest as [|c2 rest2]; [congruence|].
      rewrite (IH [] false (total + 1 + length l) ls2 fq); auto. lia.
  - cbn [negb andb]. destruct (Nat.eqb_spec (length rest) 0) as [Hz|Hz]; cbn [negb].
    + destruct rest; [|discriminate Hz].
      destruct (labels_text_cases _ _ _ Ht) as [(l & Hl & -> & ->)|(t1 & r & l & E & Hl & _)].
      * inversion Hleg; subst. rewrite wire_len_cons in Hlen. pose proof (wire_len_pos []).
        rewrite (close_complete _ _ _ Hl) by (auto; lia). reflexivity.
      * exfalso. apply label_text_nodot in Hl as [Hl _]. rewrite E in Hnc. rewrite (nodot_dot _ _ Hl) in Hnc.
        discriminate Hnc.
    + apply IH; auto; [|intros ->; apply Hz; reflexivity].
      now rewrite <- app_assoc.
Qed.

Lemma legal_struct ls : legal_name ls -> struct_name ls.
Proof.
  intros [H1 H2]. split; auto. eapply Forall_impl; [|exact H1]. intros l [H _]. unfold struct_label. lia.
Qed.

Lemma labels_text_len t ls fq : labels_text t ls fq -> Forall legal_label ls ->
  length t <= fold_right (fun l n => 4 * length l + 1 + n) 0 ls.
Proof.
  induction 1 as [t l H|t l H|t l t2 ls fq H H2 IH]; intros Hf; cbn [fold_right].
  1,2: destruct H as (d & He & -> & _); apply escaped_len in He; rewrite map_length, ?app_length; cbn [length]; lia.
  destruct H as (d & He & -> & _); apply escaped_len in He; rewrite map_length, ?app_length; cbn [length].
  inversion Hf; subst. specialize (IH ltac:(assumption)). lia.
Qed.

Lemma text_len t ls fq : name_text t ls fq -> legal_name ls -> length t <= 1004.
Proof.
  intros Ht [Hf Hl]. destruct Ht as [| |t ls fq Ht]; try (cbn; lia).
  pose proof (labels_text_len _ _ _ Ht Hf) as H.
  assert (G : exists n, fold_right (fun l n => 4 * length l + 1 + n) 0 ls = 4 * (wire_len ls - 1) - 3 * n
     /\ wire_len ls - 1 <= 64 * n /\ n <= wire_len ls - 1).
  { clear - Hf. induction Hf as [|l r Hl Hr IH].
    - exists 0. unfold wire_len. cbn. lia.
    - destruct IH as (n & E & H1 & H2). exists (S n). cbn [fold_right]. rewrite E, wire_len_cons.
      destruct Hl as [Hl _]. pose proof (wire_len_pos r). lia. }
  destruct G as (n & E & H1 & H2). lia.
Qed.

Lemma name_text_inv t ls fq : name_text t ls fq ->
  (t = [] /\ ls = [] /\ fq = false) \/ (t = [46%N] /\ ls = [] /\ fq = true) \/ labels_text t ls fq.
Proof. destruct 1; auto 6. Qed.

Lemma from_string_total buf instr : length buf = 256 -> all_bytes instr ->
  exists s out, dname_from_string buf instr = Ok (s, out) /\ length out = 256 /\
  (s <> DNAME_INVALID -> exists ls rest, name_text instr ls (status_eqb s DNAME_VALID) /\ legal_name ls
      /\ out = dname ls (status_eqb s DNAME_VALID) ++ rest) /\
  (forall ls fq, name_text instr ls fq -> legal_name ls -> s = (if fq then DNAME_VALID else DNAME_PARTIAL)
      /\ exists rest, out = dname ls fq ++ rest).
Proof.
  intros Hb Hi. unfold dname_from_string. cbv zeta.
  destruct (Nat.ltb_spec 1004 (length instr)) as [Hlong|Hshort].
  { exists DNAME_INVALID, buf. repeat split; auto; [congruence|..];
    intros; exfalso; match goal with H : name_text _ _ _ |- _ => eapply text_len in H; eauto; lia end. }
  destruct buf as [|b0 [|b1 btl]]; [discriminate Hb..|].
  unfold wr at 1. cbn [length Nat.add Nat.leb firstn skipn app rbind].
  assert (Hnil : legal_name []) by (split; [constructor|unfold wire_len; cbn; lia]).
  destruct instr as [|c0 t0].
  { cbn [length Nat.eqb]. unfold wr. cbn [length Nat.add Nat.leb firstn skipn app rbind].
    pose proof (status_dname [] false btl (legal_struct _ Hnil)) as Es. cbn [dname wire_labels app length term] in Es.
    change (N.of_nat 1) with 1%N in Es. rewrite Es. cbn [rbind status_eqb rassert].
    exists DNAME_PARTIAL, (1 :: 255 :: btl)%N. split; [reflexivity|]. split; [exact Hb|]. split.
    - intros _. exists [], btl. split; [constructor|]. split; auto.
    - intros ls fq Ht Hl. destruct (name_text_inv _ _ _ Ht) as [(_ & -> & ->)|[(Hx & _)|Ht2]]; [split; [reflexivity|exists btl; reflexivity]|discriminate Hx|]. apply labels_text_ne in Ht2 as [Hx _]. congruence. }
  remember (c0 :: t0) as instr eqn:Einstr. cbn [length].
  destruct (Nat.eqb_spec (length instr) 0) as [Hz|_]; [subst; discriminate Hz|].
  assert (E0 : rd instr 0 = Ok c0) by (subst; reflexivity). rewrite E0. cbn [rbind].
  destruct (Nat.eqb (length instr) 1 && (c0 =? 46)%N) eqn:Eroot.
  { apply andb_true_iff in Eroot as [E1 E2]. apply Nat.eqb_eq in E1. apply N.eqb_eq in E2. subst c0.
    destruct t0; [|subst; discriminate E1]. subst instr.
    unfold wr. cbn [length Nat.add Nat.leb firstn skipn app rbind].
    exists DNAME_VALID, (1 :: 0 :: btl)%N. split; [reflexivity|]. split; [exact Hb|]. split.
    - intros _. exists [], btl. split; [constructor|]. split; auto.
    - intros ls fq Ht Hl. destruct (name_text_inv _ _ _ Ht) as [(Hx & _)|[(_ & -> & ->)|Ht2]]; [discriminate Hx|split; [reflexivity|exists btl; reflexivity]|].
      exfalso. destruct (labels_text_cases _ _ _ Ht2) as [(l & H1 & _)|(t1 & r & l & E & H1 & _)].
      + apply label_text_nodot in H1 as [H1 _]. discriminate H1.
      + apply label_text_nodot in H1 as [H1 H2]. destruct t1; [congruence|]. cbn in E. injection E as <- E.
        destruct t1; discriminate E. }
  assert (Hnroot : instr <> [46%N]).
  { intros ->. injection Einstr as <- <-. discriminate Eroot. }
  destruct (loop_scan instr 0 [] [] false false instr (1 :: b1 :: btl)%N [] (b1 :: btl) []) as (r & E & HS); auto.
  { cbn [length]. lia. }
  cbn [length app Nat.add] in E. change (0 + 1) with 1 in E. rewrite E. cbn [rbind].
  specialize (HS ltac:(subst; discriminate)). cbn [length] in HS. change (1 + 0) with 1 in HS.
  assert (Hcomp : forall ls fq, name_text instr ls fq -> legal_name ls -> scan instr [] false 1 = Some (ls, fq)).
  { intros ls fq Ht [Hf Hl]. destruct (name_text_inv _ _ _ Ht) as [(Hx & _)|[(Hx & _)|Ht2]]; [congruence..|].
    apply scan_complete; auto; [subst; discriminate|lia]. }
  destruct (scan instr [] false 1) as [[ls dot]|] eqn:Es.
  - destruct HS as (tail' & -> & Htl & Hwl). cbn [app] in *.
    destruct (scan_sound _ _ _ _ _ _ Es) as (Hlt & Hleg & Htot); [subst; discriminate|reflexivity|exact Hi|].
    cbn [app] in Hlt.
    assert (Hln : legal_name ls) by (split; auto).
    pose proof (wire_labels_len ls) as Hwll.
    assert (Hw : forall x, wr (N.of_nat (wire_len ls) :: wire_labels ls ++ tail') (wire_len ls) [x]
       = Ok (N.of_nat (wire_len ls) :: wire_labels ls ++ x :: skipn 1 tail')).
    { intros x. pose proof (wr_prefix (N.of_nat (wire_len ls) :: wire_labels ls) tail' [x]) as W.
      cbn [length app] in W. rewrite Hwll in W. apply W. lia. }
    assert (Hst : forall fq, dname_status (N.of_nat (wire_len ls) :: wire_labels ls ++ term fq :: skipn 1 tail')
       = Ok (if fq then DNAME_VALID else DNAME_PARTIAL)).
    { intros fq. pose proof (status_dname ls fq (skipn 1 tail') (legal_struct _ Hln)) as Q.
      rewrite dname_unfold in Q. cbn [app] in Q. rewrite <- app_assoc in Q. exact Q. }
    destruct dot; cbn [negb].
    + rewrite Hw. cbn [rbind]. pose proof (Hst true) as Q. cbn [term] in Q. rewrite Q. cbn [rbind status_eqb rassert].
      eexists DNAME_VALID, _. split; [reflexivity|]. split.
      { cbn [length]. rewrite app_length. cbn [length]. rewrite skipn_length. lia. }
      split.
      * intros _. exists ls, (skipn 1 tail'). split; [now apply nt_labels|]. split; auto.
        rewrite dname_unfold. cbn [app]. now rewrite <- app_assoc.
      * intros ls2 fq2 Ht Hl. specialize (Hcomp _ _ Ht Hl). injection Hcomp as <- <-. split; auto.
        exists (skipn 1 tail'). rewrite dname_unfold. cbn [app]. now rewrite <- app_assoc.
    + rewrite Hw. cbn [rbind]. pose proof (Hst false) as Q. cbn [term] in Q. rewrite Q. cbn [rbind status_eqb rassert].
      eexists DNAME_PARTIAL, _. split; [reflexivity|]. split.
      { cbn [length]. rewrite app_length. cbn [length]. rewrite skipn_length. lia. }
      split.
      * intros _. exists ls, (skipn 1 tail'). split; [now apply nt_labels|]. split; auto.
        rewrite dname_unfold. cbn [app]. now rewrite <- app_assoc.
      * intros ls2 fq2 Ht Hl. specialize (Hcomp _ _ Ht Hl). injection Hcomp as <- <-. split; auto.
        exists (skipn 1 tail'). rewrite dname_unfold. cbn [app]. now rewrite <- app_assoc.
  - subst r. exists DNAME_INVALID, (1%N :: b1 :: btl). split; [reflexivity|]. split; [exact Hb|]. split; [congruence|].
    intros ls fq Ht Hl. specialize (Hcomp _ _ Ht Hl). discriminate Hcomp.
Qed.
