(** The scanner's actions, part 2: numbers and texts. *)
From Coq Require Import String Ascii.
From Verif Require Import Base DnameSpec DnameModel DnameProofs DnameProofs2 CompModel RespModel LtreeModel ZscanModel ZscanSpec ZscanProofs ZscanProofs2 ZscanProofs3 ZscanProofs7.
Local Open Scope N_scope.
Local Notation length := List.length.
Local Arguments N.eqb : simpl never.
Local Arguments N.leb : simpl never.
Local Arguments N.ltb : simpl never.
Local Arguments N.mul : simpl never.
Local Arguments N.add : simpl never.
Local Arguments N.modulo : simpl never.
Local Arguments N.div : simpl never.

(** ** Numbers *)
Lemma set_uval_ok d : (exists v, number d v /\ set_uval d = Ok (Some v)) \/ ((forall v, ~ number d v) /\ set_uval d = Ok None).
Proof.
  unfold set_uval, number. change (digits_val d) with (value d). change W64 with (2 ^ 64). change two32 with (2 ^ 32).
  destruct (N.leb_spec (2 ^ 64) (value d)) as [H|H]; [right|left].
  - split; [|reflexivity]. intros v (H1 & _). lia.
  - eexists. split; [split; [exact H|reflexivity]|reflexivity].
Qed.
Lemma number_fun d v w : number d v -> number d w -> v = w.
Proof. intros (_ & ->) (_ & ->). reflexivity. Qed.
Lemma unit_cases c : unit_letter c -> In c [109; 104; 100; 119; 77; 72; 68; 87].
Proof.
  unfold unit_letter, lower. intros H. destruct ((65 <=? c) && (c <=? 90)) eqn:E.
  - cbn in H. destruct H as [H|[H|[H|[H|[]]]]]; cbn; [assert (c = 77) by lia|assert (c = 72) by lia|assert (c = 68) by lia|assert (c = 87) by lia]; subst; auto 10.
  - cbn in *. destruct H as [H|[H|[H|[H|[]]]]]; subst; auto 10.
Qed.
Lemma mult_ok u c : unit_letter c -> mult_uval u c = Ok (u * seconds c mod 2 ^ 32).
Proof. intros H. apply unit_cases in H. cbn in H. destruct H as [<-|[<-|[<-|[<-|[<-|[<-|[<-|[<-|[]]]]]]]]]; reflexivity. Qed.
Definition dur_good (d : dur) : Prop := match d with Dur _ (Some c) => unit_letter c | _ => True end.
Lemma duration_fun d v w : duration d v -> duration d w -> v = w.
Proof.
  destruct d as [t [c|]]; cbn; [|apply number_fun]. intros (a & A & ->) (b & B & ->). now rewrite (number_fun _ _ _ A B).
Qed.

(** ** Escapes *)
Lemma unescaped_dec t d : unescaped t d -> dec t = Some d.
Proof.
  induction 1 as [|c t d Nc H IH|c t d Nc H IH|a b c t d Da Db Dc V H IH]; cbn [dec].
  - reflexivity.
  - destruct (N.eqb_spec c 92); [contradiction|]. now rewrite IH.
  - rewrite N.eqb_refl. destruct (isdig c) eqn:E; [apply isdig_spec in E; contradiction|]. now rewrite IH.
  - rewrite N.eqb_refl. apply isdig_spec in Da, Db, Dc. rewrite Da, Db, Dc. apply N.leb_le in V. rewrite V. cbn [andb]. now rewrite IH.
Qed.
Lemma dec_unescaped n : forall t d, (length t <= n)%nat -> dec t = Some d -> unescaped t d.
Proof.
  induction n as [|n IH]; intros [|c t] d Hl E; cbn [dec length] in *; try lia; [injection E as <-; constructor|injection E as <-; constructor|].
  destruct (N.eqb_spec c 92) as [->|Nc].
  - destruct t as [|a t]; [discriminate|]. destruct (isdig a) eqn:Da.
    + destruct t as [|b [|e t]]; [discriminate|discriminate|].
      destruct (isdig b && isdig e && ((a - 48) * 100 + (b - 48) * 10 + (e - 48) <=? 255)) eqn:V; [|discriminate].
      apply andb_true_iff in V as (V & V2). apply andb_true_iff in V as (Db & De). apply isdig_spec in Da, Db, De. apply N.leb_le in V2.
      destruct (dec t) as [x|] eqn:Et; [|discriminate]. injection E as <-. apply ue_num; auto. apply IH; [cbn [length] in *; lia|assumption].
    + destruct (dec t) as [x|] eqn:Et; [|discriminate]. injection E as <-. apply ue_esc; [intros X; apply isdig_spec in X; congruence|]. apply IH; [cbn [length] in *; lia|assumption].
  - destruct (dec t) as [x|] eqn:Et; [|discriminate]. injection E as <-. apply ue_char; auto. apply IH; [lia|assumption].
Qed.
Lemma unescaped_iff t d : unescaped t d <-> dec t = Some d.
Proof. split; [apply unescaped_dec|apply (dec_unescaped (length t)); lia]. Qed.
Lemma unescaped_fun t d e : unescaped t d -> unescaped t e -> d = e.
Proof. rewrite !unescaped_iff. congruence. Qed.
Lemma unescaped_len t d : unescaped t d -> (length d <= length t)%nat.
Proof. induction 1; cbn [length]; lia. Qed.
Lemma unescaped_nil t : unescaped t [] -> t = [].
Proof. intros H. inversion H. reflexivity. Qed.
Lemma dns_unescape_ok t cap : t <> [] -> (length t <= cap)%nat -> dns_unescape t 0 (length t) cap = Ok (dec t).
Proof.
  intros N H. unfold dns_unescape. destruct t as [|c t]; [congruence|]. cbn [length Nat.eqb negb rassert]. change (S (length t)) with (length (c :: t)).
  rewrite unescape_dec by (cbn [length] in *; lia). rewrite Nat.add_0_l, Nat.sub_0_r, sub_full. destruct (dec (c :: t)); reflexivity.
Qed.
Lemma unescape_tok_ok t : (exists d, unescaped t d /\ unescape_tok t = Ok (Some d)) \/ ((forall d, ~ unescaped t d) /\ unescape_tok t = Ok None).
Proof.
  unfold unescape_tok. destruct t as [|c t]; [left; exists []; split; [constructor|reflexivity]|]. cbn [length Nat.eqb]. change (S (length t)) with (length (c :: t)).
  rewrite dns_unescape_ok by (try discriminate; lia). cbn [rbind]. destruct (dec (c :: t)) as [d|] eqn:E.
  - left. exists d. apply unescaped_iff in E. split; [exact E|]. assert (L := unescaped_len _ _ E). destruct d as [|x d]; [apply unescaped_nil in E; discriminate|].
    apply Nat.leb_le in L. cbn [length Nat.eqb] in *. rewrite L. reflexivity.
  - right. split; [|reflexivity]. intros d H. apply unescaped_iff in H. congruence.
Qed.

(** ** Strings *)
Lemma wire_app a b : wire_strings (a ++ b) = wire_strings a ++ wire_strings b.
Proof. unfold wire_strings. now rewrite map_app, concat_app. Qed.
Lemma wire_one s : wire_strings [s] = N.of_nat (length s) :: s.
Proof. unfold wire_strings. cbn. now rewrite app_nil_r. Qed.

Lemma pieces_cut n : forall d r, length d = (255 * n + r)%nat -> (r <= 255)%nat -> (0 < r)%nat ->
  exists i l, pieces n d r = Ok (wire_strings (i ++ [l])) /\ concat (i ++ [l]) = d /\ Forall (fun s => length s = 255%nat) i /\ length l = r.
Proof.
  induction n as [|n IH]; intros d r Hl Hr Hp; cbn [pieces].
  - destruct (Nat.eqb_spec r 0); [lia|]. rewrite rdn_ok by lia. cbn [rbind]. exists [], d. cbn [app concat]. rewrite wire_one, app_nil_r. unfold sub. cbn [skipn].
    assert (E : length d = r) by lia. rewrite <- E at 2. rewrite firstn_all, E. rewrite N.mod_small by lia. auto.
  - rewrite rdn_ok by lia. cbn [rbind]. destruct (IH (skipn 255 d) r) as (i & l & -> & C & F & L); [rewrite skipn_length; lia|assumption|assumption|]. cbn [rbind].
    exists (firstn 255 d :: i), l. assert (E : length (firstn 255 d) = 255%nat) by (rewrite firstn_length; lia).
    assert (EW : wire_strings ((firstn 255 d :: i) ++ [l]) = 255 :: firstn 255 d ++ wire_strings (i ++ [l])).
    { cbn [app]. change (firstn 255 d :: i ++ [l]) with ([firstn 255 d] ++ (i ++ [l])). rewrite wire_app, wire_one, E. reflexivity. }
    rewrite EW. split; [reflexivity|]. split; [cbn [app concat]; rewrite C; apply firstn_skipn|]. split; [constructor; assumption|assumption].
Qed.
Lemma pieces_zero n : forall d, length d = (255 * S n)%nat -> pieces (S n) d 0 = pieces n d 255.
Proof.
  induction n as [|n IH]; intros d H.
  - cbn [pieces Nat.eqb]. rewrite rdn_ok by lia. cbn [rbind]. now rewrite app_nil_r.
  - change (pieces (S (S n)) d 0) with (do x <- rdn d 0 255 ; do r <- pieces (S n) (skipn 255 d) 0 ; Ok (255 :: x ++ r)).
    rewrite IH by (rewrite skipn_length; lia). reflexivity.
Qed.
Lemma app_inj_len {A} (a : list A) : forall b c d, length a = length b -> a ++ c = b ++ d -> a = b /\ c = d.
Proof. induction a as [|x a IH]; intros [|y b] c d L E; try discriminate; [auto|]. injection E as -> E. injection L as L. destruct (IH _ _ _ L E). now subst. Qed.
Lemma cut_fun_aux i1 : forall l1 i2 l2, concat (i1 ++ [l1]) = concat (i2 ++ [l2]) -> Forall (fun s : bytes => length s = 255%nat) i1 -> (1 <= length l1 <= 255)%nat ->
  Forall (fun s => length s = 255%nat) i2 -> (1 <= length l2 <= 255)%nat -> i1 ++ [l1] = i2 ++ [l2].
Proof.
  induction i1 as [|x i1 IH]; intros l1 [|y i2] l2 E F1 H1 F2 H2; cbn [app concat] in E.
  - rewrite !app_nil_r in E. now subst.
  - exfalso. rewrite app_nil_r, concat_app in E. apply (f_equal (@length _)) in E. inversion F2; subst. rewrite !app_length in E. cbn [concat] in E. rewrite app_length in E. lia.
  - exfalso. rewrite app_nil_r, concat_app in E. apply (f_equal (@length _)) in E. inversion F1; subst. rewrite !app_length in E. cbn [concat] in E. rewrite app_length in E. lia.
  - inversion F1 as [|? ? Hx F1']; subst. inversion F2 as [|? ? Hy F2']; subst. assert (X : x = y /\ concat (i1 ++ [l1]) = concat (i2 ++ [l2])) by (apply app_inj_len; [congruence|exact E]).
    destruct X as (-> & X). cbn [app]. f_equal. now apply IH.
Qed.
Lemma cut_fun d s1 s2 : cut d s1 -> cut d s2 -> s1 = s2.
Proof. intros (E1 & i1 & l1 & -> & F1 & H1) (E2 & i2 & l2 & -> & F2 & H2). apply cut_fun_aux; auto. congruence. Qed.
Lemma strings_fun b t s1 s2 : strings b t s1 -> strings b t s2 -> s1 = s2.
Proof.
  intros [(d & (U & L) & ->)|(d & U & _ & L & _ & C)] [(e & (U2 & L2) & ->)|(e & U2 & _ & L2 & _ & C2)]; assert (d = e) by (eapply unescaped_fun; eauto); subst e;
    [reflexivity|lia|lia|eapply cut_fun; eauto].
Qed.
Lemma strings_false t ss : strings false t ss <-> exists d, one_string t d /\ ss = [d].
Proof. split; [intros [H|(d & _ & X & _)]; [exact H|discriminate]|now left]. Qed.

Definition text_of (z : zst) : bytes := match z_text z with Some t => t | None => [] end.
Lemma N2n_eq a b : N.of_nat a = N.of_nat b -> a = b.
Proof. lia. Qed.
Lemma text_add_ok autosplit z t big :
  (exists ss, strings (big && autosplit) t ss /\ N.of_nat (length (text_of z ++ wire_strings ss)) <= 16000 /\
     text_add_tok autosplit z t big = Ok (Some (with_text z (Some (text_of z ++ wire_strings ss))))) \/
  ((forall ss, strings (big && autosplit) t ss -> 16000 < N.of_nat (length (text_of z ++ wire_strings ss))) /\ text_add_tok autosplit z t big = Ok None).
Proof.
  unfold text_add_tok. fold (text_of z). destruct (unescape_tok_ok t) as [(d & U & ->)|(U & ->)]; cbn [zbind rbind].
  2:{ right. split; [|reflexivity]. intros ss [(d & (H & _) & _)|(d & H & _)]; now apply U in H. }
  assert (One : (length d <= 255)%nat -> forall ss, strings (big && autosplit) t ss -> ss = [d]).
  { intros L ss S. eapply strings_fun; [exact S|]. left. exists d. split; [split; assumption|reflexivity]. }
  destruct (N.ltb_spec 255 (N.of_nat (length d))) as [Hb|Hs].
  - assert (Long : forall ss, strings (big && autosplit) t ss -> big && autosplit = true /\ N.of_nat (length d) <= 16000 /\ cut d ss).
    { intros ss [(e & (U2 & L2) & ->)|(e & U2 & A & L2 & M & C)]; assert (d = e) by (eapply unescaped_fun; eauto); subst e; [lia|]. split; [exact A|]. split; assumption. }
    destruct (negb big || negb autosplit) eqn:B.
    { right. split; [|reflexivity]. intros ss S. apply Long in S as (A & _). destruct big, autosplit; discriminate. }
    assert (A : big && autosplit = true) by (destruct big, autosplit; auto; discriminate).
    destruct (N.ltb_spec 16000 (N.of_nat (length d))) as [M|M]; [right; split; [|reflexivity]; intros ss S; apply Long in S as (_ & X & _); lia|].
    set (newlen := N.of_nat (length d)) in *. set (rem := newlen mod 255).
    assert (Hr : rem < 255) by (apply N.mod_lt; lia). assert (Hq := N.div_mod newlen 255 ltac:(lia)). fold rem in Hq. set (q := newlen / 255) in *.
    assert (Ew : (newlen - rem) / 255 = q) by (replace (newlen - rem) with (q * 255) by lia; apply N.div_mul; lia). rewrite Ew.
    assert (P : exists ss, pieces (N.to_nat q) d (N.to_nat rem) = Ok (wire_strings ss) /\ cut d ss /\ N.of_nat (length (wire_strings ss)) = newlen + q + (if rem =? 0 then 0 else 1)).
    { assert (Len : forall i (l : bytes), concat (i ++ [l]) = d -> Forall (fun s => length s = 255%nat) i -> (1 <= length l <= 255)%nat -> length (wire_strings (i ++ [l])) = (length d + S (length i))%nat).
      { intros i l C F H. rewrite <- C. rewrite wire_app, wire_one, concat_app, !app_length. cbn [concat length]. rewrite app_nil_r.
        assert (X : length (wire_strings i) = (length (concat i) + length i)%nat); [|lia]. clear - F. induction i as [|x i IH]; [reflexivity|]. inversion F; subst.
        change (x :: i) with ([x] ++ i). rewrite wire_app, wire_one, concat_app, !app_length. cbn [concat length app]. rewrite app_nil_r. rewrite IH by assumption. lia. }
      destruct (N.eqb_spec rem 0) as [Z|Z].
      - rewrite Z. destruct (N.to_nat q) as [|n] eqn:Eq; [lia|]. assert (Ld : length d = (255 * S n)%nat) by (unfold newlen in *; lia).
        rewrite pieces_zero by exact Ld. destruct (pieces_cut n d 255) as (i & l & -> & C & F & L); [lia|lia|lia|]. exists (i ++ [l]). split; [reflexivity|].
        split; [split; [exact C|]; exists i, l; repeat split; auto; lia|]. rewrite Len by (auto; lia).
        assert (Li : length i = n). { rewrite <- C, concat_app, app_length in Ld. cbn [concat] in Ld. rewrite app_nil_r in Ld. assert (X : length (concat i) = (255 * length i)%nat); [|lia].
          clear - F. induction i as [|x i IH]; [reflexivity|]. inversion F; subst. cbn [concat length]. rewrite app_length, IH by assumption. lia. }
        unfold newlen in *. lia.
      - assert (Ld : length d = (255 * N.to_nat q + N.to_nat rem)%nat) by (unfold newlen in *; lia). destruct (pieces_cut (N.to_nat q) d (N.to_nat rem)) as (i & l & -> & C & F & L); [exact Ld|lia|lia|].
        exists (i ++ [l]). split; [reflexivity|]. split; [split; [exact C|]; exists i, l; repeat split; auto; lia|]. rewrite Len by (auto; lia).
        assert (Li : length i = N.to_nat q). { rewrite <- C, concat_app, app_length in Ld. cbn [concat] in Ld. rewrite app_nil_r in Ld. assert (X : length (concat i) = (255 * length i)%nat); [|lia].
          clear - F. induction i as [|x i IH]; [reflexivity|]. inversion F; subst. cbn [concat length]. rewrite app_length, IH by assumption. lia. }
        unfold newlen in *. lia. }
    destruct P as (ss & -> & C & Lw). rewrite <- Lw. cbn [rbind]. rewrite N.eqb_refl. cbn [rassert].
    assert (S : strings (big && autosplit) t ss) by (right; exists d; rewrite A; repeat split; auto; unfold newlen in *; try lia; apply C).
    destruct (N.ltb_spec 16000 (N.of_nat (length (wire_strings ss)) + N.of_nat (length (text_of z)))) as [T|T].
    + right. split; [|reflexivity]. intros s2 S2. rewrite (strings_fun _ _ _ _ S2 S). rewrite app_length. lia.
    + left. exists ss. split; [exact S|]. split; [rewrite app_length; lia|reflexivity].
  - assert (L : (length d <= 255)%nat) by lia. destruct (N.ltb_spec 16000 (N.of_nat (length d) + 1 + N.of_nat (length (text_of z)))) as [T|T].
    + right. split; [|reflexivity]. intros ss S. rewrite (One L ss S), wire_one, app_length. cbn [length]. lia.
    + left. exists [d]. split; [left; exists d; split; [split; assumption|reflexivity]|]. rewrite wire_one. split; [rewrite app_length; cbn [length]; lia|reflexivity].
Qed.
