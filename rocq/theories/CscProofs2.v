(** Receiving sockets and data, sending data. *)
From Coq Require Import Lia.
From Verif Require Import Base DnameSpec ChalSpec CtlModel CtlSpec CscModel CscSpec CscProofs.

Definition fmsg (n : N) (c : list N) : rmsg := {| m_bytes := message RESP_ACK n 0; m_ctrunc := false; m_cmsgs := [Rights c 0] |}.

(** ** Sockets *)
Lemma getfds_step n fds c pre junk net : (2 <= n <= 16777215)%N -> length (pre ++ junk) = N.to_nat n -> 1 <= length c <= length junk ->
  getfds_loop (fmsg n c :: net) fds (length pre) = getfds_loop (fmsg n c :: net) (Some (pre ++ junk)) (length pre) ->
  getfds_loop (fmsg n c :: net) fds (length pre) =
    if (length c <? length junk) then getfds_loop net (Some ((pre ++ c) ++ skipn (length c) junk)) (length (pre ++ c)) else Ok (Done (pre ++ c)).
Proof.
  intros Hn Hl Hc ->. cbn [getfds_loop fmsg m_bytes m_ctrunc m_cmsgs message]. rewrite make_v_div by lia.
  rewrite N.eqb_refl. replace (N.of_nat (length (pre ++ junk))) with n by (rewrite Hl; lia). rewrite N.eqb_refl. cbn [negb orb].
  replace (2 <=? length (pre ++ junk)) with true by (symmetry; apply Nat.leb_le; lia). cbn [rassert get_control_fds].
  replace (length c =? 0) with false by (symmetry; apply Nat.eqb_neq; lia). rewrite Nat.eqb_refl. cbn [orb negb].
  replace (length (pre ++ junk) <? length c + length pre) with false by (symmetry; apply Nat.ltb_ge; rewrite app_length; lia).
  rewrite wr_prefix by lia. cbn [rbind rassert]. replace (length c =? 0) with false by (symmetry; apply Nat.eqb_neq; lia). cbn [negb rassert].
  assert (Ll : length (pre ++ c ++ skipn (length c) junk) = length pre + length junk) by (rewrite !app_length, skipn_length; lia).
  rewrite Ll. destruct (length c <? length junk) eqn:Q.
  - apply Nat.ltb_lt in Q. replace (length pre + length c <? length pre + length junk) with true by (symmetry; apply Nat.ltb_lt; lia). now rewrite app_length, app_assoc.
  - apply Nat.ltb_ge in Q. replace (length pre + length c <? length pre + length junk) with false by (symmetry; apply Nat.ltb_ge; lia).
    replace (length pre + length c =? length pre + length junk) with true by (symmetry; apply Nat.eqb_eq; lia). rewrite skipn_all2 by lia. now rewrite app_nil_r.
Qed.
(** Some messages, the rest of the sockets is missing. *)
Lemma getfds_more n net : (2 <= n <= 16777215)%N -> forall cs pre junk, length (pre ++ junk) = N.to_nat n -> Forall (fun c => 1 <= length c) cs -> length (concat cs) < length junk ->
  exists junk', length (concat cs) + length junk' = length junk /\ getfds_loop (map (fmsg n) cs ++ net) (Some (pre ++ junk)) (length pre) = getfds_loop net (Some ((pre ++ concat cs) ++ junk')) (length (pre ++ concat cs)).
Proof.
  intros Hn. induction cs as [|c cs IH]; intros pre junk Hl F L.
  - exists junk. cbn. now rewrite app_nil_r.
  - cbn [concat] in L. rewrite app_length in L. inversion F as [|? ? Fc Fs]; subst. cbn [map app concat]. rewrite (getfds_step n _ c pre junk) by (lia || reflexivity || assumption).
    replace (length c <? length junk) with true by (symmetry; apply Nat.ltb_lt; lia).
    destruct (IH (pre ++ c) (skipn (length c) junk)) as (j & Lj & Ej); [rewrite !app_length, skipn_length; rewrite app_length in Hl; lia|exact Fs|rewrite skipn_length; lia|].
    exists j. rewrite skipn_length in Lj. split; [rewrite app_length; lia|]. rewrite Ej. now rewrite app_assoc.
Qed.
Lemma getfds_done n net : (2 <= n <= 16777215)%N -> forall cs pre junk, length (pre ++ junk) = N.to_nat n -> Forall (fun c => 1 <= length c) cs -> cs <> [] -> length (concat cs) = length junk ->
  getfds_loop (map (fmsg n) cs ++ net) (Some (pre ++ junk)) (length pre) = Ok (Done (pre ++ concat cs)).
Proof.
  intros Hn. induction cs as [|c cs IH]; intros pre junk Hl F Nn L; [contradiction|]. cbn [concat] in L. rewrite app_length in L. inversion F as [|? ? Fc Fs]; subst. cbn [map app concat].
  rewrite (getfds_step n _ c pre junk) by (lia || reflexivity || assumption). destruct cs as [|c2 cs].
  - cbn [concat length] in *. rewrite app_nil_r. replace (length c <? length junk) with false by (symmetry; apply Nat.ltb_ge; lia). reflexivity.
  - assert (1 <= length (concat (c2 :: cs))) by (inversion Fs; subst; cbn; rewrite app_length; lia). replace (length c <? length junk) with true by (symmetry; apply Nat.ltb_lt; lia).
    rewrite IH; [now rewrite app_assoc|rewrite !app_length, skipn_length; rewrite app_length in Hl; lia|exact Fs|discriminate|rewrite skipn_length; lia].
Qed.
Lemma getfds_first n c net : (2 <= n <= 16777215)%N -> getfds_loop (fmsg n c :: net) None 0 = getfds_loop (fmsg n c :: net) (Some (repeat 0%N (N.to_nat n))) 0.
Proof.
  intros Hn. cbn [getfds_loop fmsg m_bytes m_ctrunc m_cmsgs message]. rewrite make_v_div by lia. rewrite N.eqb_refl. cbn [negb orb].
  replace (n <? 2)%N with false by (symmetry; apply N.ltb_ge; lia). rewrite repeat_length, N2Nat.id, N.eqb_refl. cbn [negb]. now rewrite repeat_length.
Qed.

(** ** Data *)
Lemma recv_loop_all : forall pieces pre junk net', Forall (fun p => p <> []) pieces -> length (concat pieces) = length junk ->
  recv_loop (map Piece pieces ++ net') (pre ++ junk) (length pre) (length pre + length junk) = Ok (Some (pre ++ concat pieces), net').
Proof.
  induction pieces as [|p pieces IH]; intros pre junk net' F L.
  - cbn in L. destruct junk; [|discriminate]. cbn [map app concat length]. rewrite Nat.add_0_r. destruct net'; cbn [recv_loop]; rewrite Nat.ltb_irrefl; reflexivity.
  - inversion F as [|? ? Fp Fs]; subst. cbn [concat] in *. rewrite app_length in L. cbn [map app recv_loop].
    assert (0 < length p) by (destruct p; [contradiction|cbn; lia]). replace (length pre <? length pre + length junk) with true by (symmetry; apply Nat.ltb_lt; lia).
    replace (length p <=? length pre + length junk - length pre) with true by (symmetry; apply Nat.leb_le; lia). destruct p as [|b p]; [contradiction|]. remember (b :: p) as q.
    rewrite wr_prefix by lia. cbn [rbind]. rewrite app_assoc. replace (length pre + length q) with (length (pre ++ q)) by apply app_length.
    replace (length pre + length junk) with (length (pre ++ q) + length (skipn (length q) junk)) by (rewrite app_length, skipn_length; lia).
    rewrite IH by (assumption || (rewrite skipn_length; lia)). now rewrite <- app_assoc.
Qed.
(** The data is followed by more. *)
Lemma recv_loop_cut : forall pieces pre junk, Forall (fun p => p <> []) pieces -> length junk <= length (concat pieces) ->
  exists net', recv_loop (map Piece pieces) (pre ++ junk) (length pre) (length pre + length junk) = Ok (Some (pre ++ firstn (length junk) (concat pieces)), net').
Proof.
  induction pieces as [|p pieces IH]; intros pre junk F L.
  - cbn in L. destruct junk; [|cbn in L; lia]. cbn [map concat length firstn recv_loop]. rewrite Nat.add_0_r, Nat.ltb_irrefl. eauto.
  - inversion F as [|? ? Fp Fs]; subst. cbn [concat] in *. rewrite app_length in L. cbn [map recv_loop].
    assert (0 < length p) by (destruct p; [contradiction|cbn; lia]). destruct (Nat.eq_dec (length junk) 0) as [Z|Z].
    { destruct junk; [|discriminate]. cbn [length firstn]. rewrite Nat.add_0_r, Nat.ltb_irrefl. eauto. }
    replace (length pre <? length pre + length junk) with true by (symmetry; apply Nat.ltb_lt; lia). replace (length pre + length junk - length pre) with (length junk) by lia.
    destruct (length p <=? length junk) eqn:Q.
    + apply Nat.leb_le in Q. destruct p as [|b p]; [contradiction|]. remember (b :: p) as q.
      rewrite wr_prefix by lia. cbn [rbind]. rewrite app_assoc. replace (length pre + length q) with (length (pre ++ q)) by apply app_length.
      replace (length pre + length junk) with (length (pre ++ q) + length (skipn (length q) junk)) by (rewrite app_length, skipn_length; lia).
      destruct (IH (pre ++ q) (skipn (length q) junk) Fs) as (n' & E); [rewrite skipn_length; lia|]. exists n'. rewrite E. do 3 f_equal. rewrite <- app_assoc. f_equal.
      rewrite skipn_length. rewrite firstn_app. f_equal. symmetry. apply firstn_all2. lia.
    + apply Nat.leb_gt in Q. rewrite wr_prefix by (rewrite firstn_length; lia). cbn [rbind]. eexists. do 3 f_equal. f_equal. rewrite firstn_length, Nat.min_l by lia. rewrite skipn_all2 by lia. rewrite app_nil_r.
      rewrite firstn_app. replace (length junk - length p) with 0 by lia. cbn. now rewrite app_nil_r.
Qed.

(** ** Sending *)
Lemma send_loop_spec data total : total <= length data -> forall sends done out, done <= total -> out = firstn done data ->
  exists r out', send_loop sends data done total out = Ok (r, out') /\ (exists k, done <= k <= total /\ out' = firstn k data) /\ (r = Some true -> out' = firstn total data).
Proof.
  intros Ht. induction sends as [|x sends IH]; intros done out Hd ->; cbn [send_loop]; destruct (done <? total) eqn:Q.
  - do 2 eexists. split; [reflexivity|]. split; [exists done; auto|discriminate].
  - apply Nat.ltb_ge in Q. assert (done = total) by lia. subst. do 2 eexists. split; [reflexivity|]. split; [exists total; auto|reflexivity].
  - apply Nat.ltb_lt in Q. destruct x as [n|].
    + rewrite rdn_ok by lia. cbn [rbind]. destruct (IH (done + Nat.min n (total - done)) (firstn done data ++ sub data done (Nat.min n (total - done)))) as (r & o & E & (k & K & Ko) & Hr); [lia| |].
      { unfold sub. rewrite <- (firstn_skipn done data) at 3. rewrite firstn_app. rewrite firstn_length, (Nat.min_l done) by lia. f_equal; [symmetry; apply firstn_all2; rewrite firstn_length; lia|]. f_equal. lia. }
      exists r, o. split; [exact E|]. split; [exists k; split; [lia|exact Ko]|exact Hr].
    + do 2 eexists. split; [reflexivity|]. split; [exists done; auto|discriminate].
  - apply Nat.ltb_ge in Q. assert (done = total) by lia. subst. do 2 eexists. split; [reflexivity|]. split; [exists total; auto|reflexivity].
Qed.
