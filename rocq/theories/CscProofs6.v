(** Answers as they are seen by the clients. *)
From Coq Require Import Lia.
From Verif Require Import Base DnameSpec ChalSpec CtlModel CtlSpec CtlProofs CtlProofs7 CtlProofs9 CtlProps CscModel CscSpec CscProofs CscProofs2 CscProofs5.

Definition anything : nat -> N -> Prop := fun _ _ => True.
Section Both.
  Variable fds : list N.
  Variables sv sd : N.
  Notation exchange := (exchange fds sv sd anything).

  Lemma take_shape p t v d xs : exchange p (Got t REQ_TAKE v d :: xs) ->
    xs = [Wrote RESP_DENY 0 0] \/ exists chunks, concat chunks = fds /\ Forall (fun c => 1 <= length c) chunks /\ xs = map (WroteFds RESP_ACK (N.of_nat (length fds)) 0) chunks.
  Proof.
    intros X. inversion X as [? ? ? ? P|? ? ? ? P Nk| |? ? ? ? r P Nc I| |? ? ? ? b ch P K| |  |? ? ? ch P Ec F]; subst; try discriminate.
    - now left.
    - exfalso. apply Nk. cbn. auto 20.
    - destruct I.
    - destruct K; discriminate.
    - right. exists ch. split; [reflexivity|]. split; [|reflexivity]. eapply Forall_impl; [|exact F]. cbn. intros a (Q & _). exact Q.
  Qed.
  Definition text_key (k : N) : Prop := k = REQ_STAT \/ k = REQ_STATE \/ k = REQ_TAK2.
  Lemma text_shape p t k v d xs : text_key k -> exchange p (Got t k v d :: xs) ->
    xs = [Wrote RESP_DENY 0 0] \/ (k = REQ_TAK2 /\ exists n, xs = [Wrote RESP_ACK n 0]) \/
    exists b n chunks, (N.of_nat (length b) < 4294967296)%N /\ concat chunks = b /\ xs = [Made b; Wrote RESP_ACK n (N.of_nat (length b))] ++ map WroteData chunks.
  Proof.
    intros Hk X. inversion X as [? ? ? ? P|? ? ? ? P Nk| |? ? ? r r' P Nc I|?|? ? ? ? b ch P K Ec L|? ? ? n|? ? ? b n ch P L Ec|]; subst; try (destruct Hk as [Hk|[Hk|Hk]]; discriminate Hk).
    - now left.
    - exfalso. apply Nk. destruct Hk as [->|[->| ->]]; unfold known_keys; repeat (first [left; reflexivity|right]).
    - exfalso. match goal with H : In _ (short_answers _) |- _ => destruct Hk as [->|[->| ->]]; destruct H end.
    - right. right. do 3 eexists. split; [exact L|]. split; reflexivity.
    - right. left. eauto.
    - right. right. do 3 eexists. split; [exact L|]. split; reflexivity.
  Qed.
  Lemma prefix_map {A B} (f : A -> B) l xs rs : map f l = xs ++ rs -> exists a b, l = a ++ b /\ xs = map f a /\ rs = map f b.
  Proof.
    revert xs. induction l as [|x l IH]; intros xs E; destruct xs as [|y xs]; cbn in E; try discriminate.
    - exists [], []. auto.
    - exists [], (x :: l). auto.
    - injection E as <- E. destruct (IH _ E) as (a & b & -> & -> & ->). exists (x :: a), b. auto.
  Qed.
End Both.

(** The sockets of one answer. *)
Lemma delivered_fds n cs : flat_map delivered (map (WroteFds RESP_ACK n 0) cs) = map (fmsg n) cs.
Proof. induction cs as [|c cs IH]; [reflexivity|]. cbn [map flat_map app delivered]. rewrite IH. reflexivity. Qed.
Lemma getfds_whole (fds : list N) cs rest : (2 <= N.of_nat (length fds) <= 16777215)%N -> concat cs = fds -> Forall (fun c => 1 <= length c) cs ->
  csc_txn_getfds true (map (fmsg (N.of_nat (length fds))) cs ++ rest) = Ok (Done fds).
Proof.
  intros Hn Ec F. unfold csc_txn_getfds. cbn [negb]. destruct cs as [|c cs]; [subst fds; cbn in Hn; lia|].
  cbn [map app]. rewrite getfds_first by lia. change (fmsg _ c :: map _ cs ++ rest) with (map (fmsg (N.of_nat (length fds))) (c :: cs) ++ rest).
  set (z := repeat 0%N _). assert (X := getfds_done (N.of_nat (length fds)) rest Hn (c :: cs) [] z). cbn [app length] in X. rewrite X; [now rewrite Ec|unfold z; now rewrite repeat_length|exact F|discriminate|]. rewrite Ec. unfold z. rewrite repeat_length. lia.
Qed.
Lemma getfds_part (fds : list N) cs rest : (2 <= N.of_nat (length fds) <= 16777215)%N -> length (concat cs) < length fds -> Forall (fun c => 1 <= length c) cs ->
  rest = [] \/ rest = delivered Closed ->
  csc_txn_getfds true (map (fmsg (N.of_nat (length fds))) cs ++ rest) = Ok (match rest with [] => Waiting | _ => Fatal end).
Proof.
  intros Hn L F R. unfold csc_txn_getfds. cbn [negb]. destruct cs as [|c cs]; [destruct R as [->| ->]; reflexivity|].
  cbn [map app]. rewrite getfds_first by lia. change (fmsg _ c :: map _ cs ++ rest) with (map (fmsg (N.of_nat (length fds))) (c :: cs) ++ rest).
  set (z := repeat 0%N _). destruct (getfds_more (N.of_nat (length fds)) rest Hn (c :: cs) [] z) as (j & _ & X); [unfold z; cbn; now rewrite repeat_length|exact F|unfold z; rewrite repeat_length; lia|]. cbn [app length] in X. rewrite X. destruct R as [->| ->]; reflexivity.
Qed.

(** Data after an answer of success. *)
Lemma getdata_ack net n d rest : (n <= 16777215)%N -> (d < 4294967296)%N -> arrives net (message RESP_ACK n d ++ rest) ->
  exists net', csc_txn_getdata true net =
    Ok (if (d =? 0)%N then (TxOk, (RESP_ACK, n, d), None, net') else if N.to_nat d <=? length rest then (TxOk, (RESP_ACK, n, d), Some (firstn (N.to_nat d) rest), net') else (TxHard, (RESP_ACK, n, d), None, net')).
Proof.
  intros Hn Hd A. destruct (txn_arrives net RESP_ACK n d rest Hn Hd A) as (pieces & E & Ec & F). unfold csc_txn_getdata. rewrite E. cbn [verdict_of]. change (verdict_of RESP_ACK) with TxOk. cbn iota.
  destruct (d =? 0)%N eqn:Q; [eexists; reflexivity|]. apply N.eqb_neq in Q. set (z := repeat 0%N (N.to_nat d)). assert (Lz : length z = N.to_nat d) by apply repeat_length.
  destruct (N.to_nat d <=? length rest) eqn:L.
  - apply Nat.leb_le in L. destruct (recv_loop_cut pieces [] z F) as (net' & X); [rewrite Ec; lia|]. cbn [app length Nat.add] in X. rewrite Lz, Ec in X. rewrite X. cbn [rbind]. eauto.
  - apply Nat.leb_gt in L. assert (X := recv_loop_short pieces [] z F). cbn [app length Nat.add] in X. rewrite Lz in X. rewrite X by (rewrite Ec; lia). cbn [rbind]. eauto.
Qed.
Lemma stream_data cs : flat_map stream (map WroteData cs) = concat cs.
Proof. induction cs as [|c cs IH]; [reflexivity|]. cbn. now rewrite IH. Qed.

(** ** Any messages at all *)
Lemma control_fds_spec cs : forall fds recvd r, recvd <= length fds -> get_control_fds cs fds recvd (length fds) = r ->
  exists o, r = Ok o /\ match o with
    | None => True
    | Some (l, n) => exists p a b, cs = repeat OtherCmsg a ++ Rights p 0 :: b /\ p <> [] /\ n = length p /\ length l = length fds /\ recvd + n <= length fds /\
                      firstn (recvd + n) l = firstn recvd fds ++ p
    end.
Proof.
  induction cs as [|c cs IH]; intros fds recvd r Hr E; cbn [get_control_fds] in E; [exists None; auto|]. destruct c as [p extra|].
  - destruct (length p =? 0) eqn:Q0; cbn [orb] in E; [exists None; auto|]. destruct (extra =? 0) eqn:Q1; cbn [negb orb] in E; [|exists None; auto].
    destruct (length fds <? length p + recvd) eqn:Q2; [exists None; auto|]. apply Nat.eqb_neq in Q0. apply Nat.eqb_eq in Q1. apply Nat.ltb_ge in Q2. subst extra.
    rewrite wr_ok in E by lia. cbn [rbind] in E. exists (Some (firstn recvd fds ++ p ++ skipn (recvd + length p) fds, length p)). split; [auto|].
    exists p, 0, cs. split; [reflexivity|]. split; [now destruct p|]. split; [reflexivity|]. split; [rewrite !app_length, firstn_length, skipn_length; lia|]. split; [lia|].
    rewrite app_assoc, firstn_app. assert (L : length (firstn recvd fds ++ p) = recvd + length p) by (rewrite app_length, firstn_length; lia). rewrite L, Nat.sub_diag, firstn_O, app_nil_r. rewrite <- L. apply firstn_all.
  - destruct (IH fds recvd r Hr E) as (o & -> & H). exists o. split; [reflexivity|]. destruct o as [(l, n)|]; auto. destruct H as (p & a & b & -> & R). exists p, (S a), b. split; [reflexivity|exact R].
Qed.
Lemma make_v_sum a b c : is_byte a -> is_byte b -> is_byte c -> make_v a b c = (a * 65536 + b * 256 + c)%N.
Proof.
  unfold is_byte. intros Ha Hb Hc. rewrite <- (make_v_div (a * 65536 + b * 256 + c)) by lia. f_equal; lia.
Qed.
Lemma getfds_sound net : Forall (fun m => all_bytes (m_bytes m)) net -> forall fds recvd,
  match fds with None => recvd = 0 | Some l => 2 <= length l /\ recvd < length l end ->
  exists r, getfds_loop net fds recvd = Ok r /\
  forall l, r = Done l -> exists msgs rest ps, net = msgs ++ rest /\ Forall2 (sockets_in (length l)) msgs ps /\ firstn recvd (match fds with Some f => f | None => [] end) ++ concat ps = l /\ (forall f, fds = Some f -> length f = length l).
Proof.
  induction net as [|m net IH]; intros Hb fds recvd Hf; cbn [getfds_loop]; [exists Waiting; split; [reflexivity|discriminate]|].
  assert (B : exists r, Ok Fatal = Ok r /\ forall l, r = Done l -> exists msgs rest ps, m :: net = msgs ++ rest /\ Forall2 (sockets_in (length l)) msgs ps /\ firstn recvd (match fds with Some f => f | None => [] end) ++ concat ps = l /\ (forall f, fds = Some f -> length f = length l)) by (exists Fatal; split; [reflexivity|discriminate]).
  destruct (m_bytes m) as [|key [|v0 [|v1 [|v2 [|d0 [|d1 [|d2 [|d3 [|]]]]]]]]] eqn:Em; try exact B. destruct (m_ctrunc m) eqn:Et; [exact B|].
  set (fds' := match fds with None => _ | Some l => _ end). assert (F : match fds' with None => True | Some l => key = RESP_ACK /\ N.of_nat (length l) = make_v v0 v1 v2 /\ 2 <= length l /\ recvd < length l /\ firstn recvd l = firstn recvd (match fds with Some f => f | None => [] end) /\ (forall f, fds = Some f -> f = l) end).
  { unfold fds'. destruct fds as [l|].
    - destruct (N.eqb_spec key RESP_ACK); cbn [negb orb]; [|exact I]. destruct (N.eqb_spec (N.of_nat (length l)) (make_v v0 v1 v2)); cbn [negb]; [|exact I]. repeat split; try tauto. congruence.
    - subst recvd. destruct (N.eqb_spec key RESP_ACK); cbn [negb orb]; [|exact I]. destruct (N.ltb_spec (make_v v0 v1 v2) 2); [exact I|]. rewrite repeat_length. repeat split; try lia; try assumption. discriminate. }
  clearbody fds'. destruct fds' as [l|]; [|exact B]. destruct F as (Fk & Fv & F2 & Fr & Ff & Fe). replace (2 <=? length l) with true by (symmetry; apply Nat.leb_le; lia). cbn [rassert].
  destruct (control_fds_spec (m_cmsgs m) l recvd _ (Nat.lt_le_incl _ _ Fr) eq_refl) as (o & -> & Ho). cbn [rbind]. destruct o as [(l2, n)|]; [|exact B]. destruct Ho as (p & a & b & Hc & Hp & -> & Hl & Hle & Hfn).
  replace (length p =? 0) with false by (symmetry; apply Nat.eqb_neq; destruct p; [contradiction|discriminate]). cbn [negb rassert].
  assert (Bm : all_bytes (m_bytes m)) by now inversion Hb. rewrite Em in Bm. inversion Bm as [|? ? _ Bm1]; subst. inversion Bm1 as [|? ? B0 Bm2]; subst. inversion Bm2 as [|? ? B1 Bm3]; subst. inversion Bm3 as [|? ? B2 _]; subst.
  assert (S1 : forall x : list N, length x = length l -> sockets_in (length x) m p) by (intros x Hx; exists v0, v1, v2, [d0; d1; d2; d3], a, b; repeat split; [rewrite Em; try rewrite Fk; reflexivity|rewrite Hx, Fv; apply make_v_sum; assumption|exact Et|exact Hc|exact Hp]).
  destruct (Nat.ltb_spec (recvd + length p) (length l2)) as [Lt|Ge].
  - destruct (IH ltac:(now inversion Hb) (Some l2) (recvd + length p)) as (r & -> & Hr); [lia|]. exists r. split; [reflexivity|]. intros x Hx. destruct (Hr x Hx) as (msgs & rest & ps & -> & HF & He & Hlen). specialize (Hlen l2 eq_refl).
    exists (m :: msgs), rest, (p :: ps). split; [reflexivity|]. split; [constructor; [apply S1; congruence|exact HF]|]. split; [|intros f Q; apply Fe in Q; congruence]. cbn [concat]. rewrite Hfn, Ff in He. now rewrite app_assoc.
  - replace (recvd + length p =? length l2) with true by (symmetry; apply Nat.eqb_eq; lia). exists (Done l2). split; [reflexivity|]. intros x [= <-]. exists [m], net, [p]. split; [reflexivity|]. split; [constructor; [apply S1; congruence|constructor]|].
    split; [|intros f Q; apply Fe in Q; congruence]. cbn [concat]. rewrite app_nil_r, <- Ff, <- Hfn. apply firstn_all2. lia.
Qed.
