(** Both ends together. *)
From Coq Require Import Lia.
From Verif Require Import Base DnameSpec ChalSpec CtlModel CtlSpec CtlProofs CtlProofs7 CtlProofs9 CscModel CscSpec CscProofs CscProofs2.

Lemma recv_loop_short : forall pieces pre junk, Forall (fun p => p <> []) pieces -> length (concat pieces) < length junk ->
  recv_loop (map Piece pieces) (pre ++ junk) (length pre) (length pre + length junk) = Ok (None, []).
Proof.
  induction pieces as [|p pieces IH]; intros pre junk F L; cbn [concat] in L; cbn [map recv_loop].
  - replace (length pre <? length pre + length junk) with true by (symmetry; apply Nat.ltb_lt; cbn in L; lia). reflexivity.
  - inversion F as [|? ? Fp Fs]; subst. rewrite app_length in L. replace (length pre <? length pre + length junk) with true by (symmetry; apply Nat.ltb_lt; lia).
    replace (length p <=? length pre + length junk - length pre) with true by (symmetry; apply Nat.leb_le; lia). destruct p as [|b p]; [contradiction|]. remember (b :: p) as q.
    rewrite wr_prefix by lia. cbn [rbind]. rewrite app_assoc. replace (length pre + length q) with (length (pre ++ q)) by apply app_length.
    replace (length pre + length junk) with (length (pre ++ q) + length (skipn (length q) junk)) by (rewrite app_length, skipn_length; lia). apply IH; [exact Fs|rewrite skipn_length; lia].
Qed.

(** What csc_txn makes of the first 8 bytes. *)
Definition verdict_of (key : N) : txn := if (key =? RESP_ACK)%N then TxOk else if (key =? RESP_LATR)%N then TxSoft else TxHard.
Lemma txn_arrives net key v d rest : (v <= 16777215)%N -> (d < 4294967296)%N -> arrives net (message key v d ++ rest) ->
  exists pieces, csc_txn true net = (verdict_of key, (key, v, d), map Piece pieces) /\ concat pieces = rest /\ Forall (fun p => p <> []) pieces.
Proof.
  intros Hv Hd (pieces & -> & E & F & H8). destruct pieces as [|p pieces]; [discriminate E|]. cbn [concat] in E. inversion F as [|? ? Fp Fs]; subst.
  assert (Lm : length (message key v d) = 8) by reflexivity.
  assert (Ep : firstn 8 p = message key v d).
  { assert (X : firstn 8 (p ++ concat pieces) = message key v d) by (rewrite E; reflexivity). rewrite firstn_app in X. replace (8 - length p) with 0 in X by lia. now rewrite firstn_O, app_nil_r in X. }
  assert (Er : skipn 8 p ++ concat pieces = rest). { assert (X : skipn 8 (p ++ concat pieces) = rest) by (rewrite E; reflexivity). rewrite skipn_app in X. replace (8 - length p) with 0 in X by lia. exact X. }
  unfold csc_txn. cbn [negb recv map].
  assert (R : (let (o, n) := (if length p <=? 8 then (Some p, map Piece pieces) else (Some (firstn 8 p), Piece (skipn 8 p) :: map Piece pieces)) in
    exists pieces', o = Some (message key v d) /\ n = map Piece pieces' /\ concat pieces' = rest /\ Forall (fun p => p <> []) pieces')).
  { destruct (length p <=? 8) eqn:Q.
    - apply Nat.leb_le in Q. exists pieces. rewrite firstn_all2 in Ep by lia. rewrite skipn_all2 in Er by lia. subst. auto.
    - apply Nat.leb_gt in Q. exists (skipn 8 p :: pieces). split; [now rewrite Ep|]. split; [reflexivity|]. split; [exact Er|]. constructor; [|exact Fs]. intros X. apply (f_equal (@length N)) in X. rewrite skipn_length in X. cbn in X. lia. }
  destruct (if length p <=? 8 then _ else _) as (o, n). destruct R as (pieces' & -> & -> & Ec & F'). exists pieces'. cbn [message]. rewrite make_v_div, make_d_div by assumption. auto.
Qed.
Lemma txn_nothing net : arrives net [] -> csc_txn true net = (TxSoft, (0, 0, 0)%N, []).
Proof.
  intros (pieces & -> & E & F & H8). destruct pieces as [|p pieces]; [reflexivity|]. cbn in E. apply app_eq_nil in E. destruct E as (-> & _). cbn in H8. lia.
Qed.

(** ** A challenge request on a quiet daemon *)
Section Chal.
  Variable fds : list N.
  Variables sv sd : N.
  Lemma read_pieces x i : x_chal_fails x = false -> forall pieces s c data, s_stop s = false -> s_join s = false -> s_pid s = 0%N -> s_conns s i = Some c -> k_state c = READING_DATA -> k_read c = true -> k_key c = REQ_CHAL ->
    k_data c = Some data -> k_done c = length data -> Forall (fun p => p <> []) pieces -> k_size c = length data + length (concat pieces) -> k_size c <> length data ->
    exists s' c', run fds sv sd s (map (fun p => ERead i (Recv p) x) pieces) = Ok s' /\ s_effects s' = s_effects s ++ [By i (DidChallenges (k_v c) (data ++ concat pieces))] /\
      s_conns s' i = Some c' /\ k_state c' = WRITING_RESP /\ k_write c' = true /\ k_wkey c' = RESP_ACK.
  Proof.
    intros Hx. induction pieces as [|p pieces IH]; intros s c data St Jn Pd Ec Ks Kr Kk Kd Kn F Sz Nz; [cbn in Sz; lia|]. inversion F as [|? ? Fp Fs]; subst. cbn [concat] in Sz. rewrite app_length in Sz.
    assert (Lp : 0 < length p) by (destruct p; [contradiction|cbn; lia]).
    cbn [map run]. unfold step at 1. rewrite St. unfold step_at. cbn [is_main]. rewrite Jn. cbn [main_step]. rewrite Ec, Kr. unfold conn_read. rewrite (get_some _ _ _ Ec). cbn [rbind]. rewrite Ks, Kk, N.eqb_refl. cbn [rassert].
    unfold recv_challenge_data. rewrite (get_some _ _ _ Ec). cbn [rbind]. rewrite Kd.
    replace (k_size c =? 0) with false by (symmetry; apply Nat.eqb_neq; lia). cbn [negb rassert]. replace (k_done c <? k_size c) with true by (symmetry; apply Nat.ltb_lt; lia). cbn [rassert].
    destruct p as [|b0 p0]; [contradiction|]. remember (b0 :: p0) as p. rewrite firstn_all2 by lia. cbn zeta.
    destruct (k_done c + length p =? k_size c) eqn:Q.
    - apply Nat.eqb_eq in Q. assert (pieces = []) by (destruct pieces as [|q pieces]; [reflexivity|]; exfalso; inversion Fs as [|? ? Fq ?]; subst; cbn [concat] in Sz; rewrite app_length in Sz; destruct q; [now apply Fq|cbn [length] in Sz, Q; lia]). subst pieces.
      change (s_pid (put_conn _ _ _)) with (s_pid s). rewrite Pd. cbn [N.eqb negb]. rewrite Hx. erewrite respond_run; [|cbn; apply set_same|reflexivity]. cbn [rbind run map]. do 2 eexists. split; [reflexivity|]. cbn [concat]. rewrite app_nil_r. split; [reflexivity|]. cbn. rewrite set_same. auto.
    - apply Nat.eqb_neq in Q. cbn [rbind]. match goal with |- context [run fds sv sd ?S1 (map _ pieces)] => destruct (IH S1 (set_data c (Some (data ++ p)) (k_size c) (k_done c + length p)) (data ++ p)) as (s' & c' & E & Ef & R) end.
      all: cbn; try assumption; try apply set_same; cbn; try assumption; try reflexivity; rewrite ?app_length; try lia.
      exists s', c'. split; [exact E|]. split; [rewrite Ef; cbn; now rewrite <- app_assoc|exact R].
  Qed.
End Chal.
