(** The scanner's actions, part 3: records and statements. *)
From Coq Require Import String Ascii.
From Verif Require Import Base DnameSpec DnameModel DnameProofs DnameProofs2 CompModel RespModel LtreeModel ZscanModel ZscanSpec ZscanProofs ZscanProofs2 ZscanProofs3 ZscanProofs4 ZscanProofs5 ZscanProofs7 ZscanProofs8.
Local Open Scope N_scope.
Local Notation length := List.length.
Local Arguments N.eqb : simpl never.
Local Arguments N.leb : simpl never.
Local Arguments N.ltb : simpl never.
Local Arguments N.mul : simpl never.
Local Arguments N.add : simpl never.
Local Arguments N.modulo : simpl never.
Local Arguments N.div : simpl never.
Local Arguments N.of_nat : simpl never.
Local Arguments N.shiftr : simpl never.

(** ** Small things *)
Lemma cstring_until d : cstring d (until_nul d).
Proof.
  induction d as [|c d (N & E)]; [split; [intros []|now left]|]. cbn [until_nul]. destruct (N.eqb_spec c 0) as [->|Nc]; [split; [intros []|right; now exists d]|].
  split; [intros [H|H]; [congruence|contradiction]|]. destruct E as [E|(r & E)]; [left; now rewrite <- E|right; exists r; cbn [app]; now rewrite <- E].
Qed.
Lemma cstring_fun d : forall f g, cstring d f -> cstring d g -> f = g.
Proof.
  induction d as [|c d IH]; intros f g (Nf & Ef) (Ng & Eg).
  - destruct Ef as [<-|(r & Ef)]; [|destruct f; discriminate]. destruct Eg as [<-|(r & Eg)]; [|destruct g; discriminate]. reflexivity.
  - destruct f as [|x f], g as [|y g]; [reflexivity| | |].
    + exfalso. destruct Ef as [Ef|(r & Ef)]; [discriminate|]. injection Ef as -> ->. destruct Eg as [Eg|(r2 & Eg)]; injection Eg as <- _; apply Ng; now left.
    + exfalso. destruct Eg as [Eg|(r & Eg)]; [discriminate|]. injection Eg as -> ->. destruct Ef as [Ef|(r2 & Ef)]; injection Ef as <- _; apply Nf; now left.
    + assert (X : c = x /\ (d = f \/ exists r, d = f ++ 0 :: r)) by (destruct Ef as [Ef|(r & Ef)]; injection Ef as -> ->; eauto).
      assert (Y : c = y /\ (d = g \/ exists r, d = g ++ 0 :: r)) by (destruct Eg as [Eg|(r & Eg)]; injection Eg as -> ->; eauto).
      destruct X as (-> & X), Y as (-> & Y). f_equal. apply IH; split; auto; intros H; [apply Nf|apply Ng]; now right.
Qed.
Lemma until_nul_id t : ~ In 0 t -> until_nul t = t.
Proof. induction t as [|c t IH]; intros H; [reflexivity|]. cbn [until_nul]. destruct (N.eqb_spec c 0) as [->|_]; [exfalso; apply H; now left|]. rewrite IH; [reflexivity|]. intros X. apply H. now right. Qed.

Lemma upto_slash_spec l : match upto_slash l with Some d => exists p b, d = p ++ [47] /\ l = p ++ 47 :: b /\ ~ In 47 b | None => ~ In 47 l end.
Proof.
  induction l as [|c l IH]; cbn [upto_slash]; [intros []|]. destruct (upto_slash l) as [d|].
  - destruct IH as (p & b & -> & -> & N). exists (c :: p), b. auto.
  - destruct (N.eqb_spec c 47) as [->|Nc]; [exists [], l; auto|]. intros [H|H]; contradiction || congruence.
Qed.
Lemma path_fun cur f p q : path cur f p -> path cur f q -> p = q.
Proof.
  intros [(H & ->)|(H & d & b & E & N & ->)] [(H2 & ->)|(H2 & d2 & b2 & E2 & N2 & ->)]; try reflexivity; try contradiction.
  assert (X : d = d2); [|now subst]. subst cur. revert d2 E2. induction d as [|x d IH]; intros [|y d2] E2; cbn [app] in E2; [reflexivity| | |].
  - exfalso. injection E2 as <- ->. apply N. apply in_or_app. right. now left.
  - exfalso. injection E2 as -> <-. apply N2. apply in_or_app. right. now left.
  - injection E2 as -> E2. f_equal. now apply IH.
Qed.
Lemma make_zfn_ok cur f : (exists p, path cur f p /\ make_zfn cur f = Ok p) \/ ((forall p, ~ path cur f p) /\ make_zfn cur f = UB /\ ~ In 47 cur).
Proof.
  destruct (N.eq_dec (hd 0 f) 47) as [E|E].
  - left. exists f. destruct f as [|c f]; [discriminate|]. cbn in E. subst c. split; [now left|reflexivity].
  - assert (M : make_zfn cur f = match upto_slash cur with Some d => Ok (d ++ f) | None => UB end).
    { unfold make_zfn. destruct f as [|c f]; [reflexivity|]. cbn in E. destruct c as [|c]; [reflexivity|]. do 6 (destruct c as [c|c|]; try reflexivity). exfalso. now apply E. }
    rewrite M. assert (U := upto_slash_spec cur). destruct (upto_slash cur) as [d|].
    + left. destruct U as (p & b & -> & -> & Nb). exists (p ++ 47 :: f). split; [right; split; [exact E|]; exists p, b; auto|]. now rewrite <- app_assoc.
    + right. split; [|auto]. intros p [(H & _)|(_ & d & b & -> & _)]; [contradiction|]. apply U. apply in_or_app. right. now left.
Qed.

Lemma hexval_ok c : hexdigit c -> hexval c = (if c <=? 57 then c - 48 else if c <=? 70 then c - 55 else c - 87).
Proof.
  unfold hexval. intros H. destruct (N.leb_spec c 57); [reflexivity|]. destruct (N.leb_spec c 70).
  - assert (X : In c [65; 66; 67; 68; 69; 70]) by (unfold hexdigit, is_digit in H; cbn; lia). cbn in X. destruct X as [<-|[<-|[<-|[<-|[<-|[<-|[]]]]]]]; reflexivity.
  - assert (X : In c [97; 98; 99; 100; 101; 102]) by (unfold hexdigit, is_digit in H; cbn; lia). cbn in X. destruct X as [<-|[<-|[<-|[<-|[<-|[<-|[]]]]]]]; reflexivity.
Qed.
Lemma hexbyte_ok a b : hexdigit a -> hexdigit b -> hexbyte a b = octet_value (a, b).
Proof. intros A B. unfold hexbyte, octet_value. cbn [fst snd]. now rewrite !hexval_ok. Qed.
