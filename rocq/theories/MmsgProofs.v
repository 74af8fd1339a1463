From Verif Require Import Base MmsgModel MmsgSpec.

Definition idx_from (d : nat) (lens : list nat) : list nat :=
  filter (fun i => negb (Nat.eqb (nth (i - d) lens 0) 0)) (seq d (length lens)).

Lemma filter_ext_in' {A} (f g : A -> bool) l :
  (forall x, In x l -> f x = g x) -> filter f l = filter g l.
Proof.
  induction l as [|h t IH]; intros H; simpl; auto.
  rewrite H by (simpl; auto). rewrite IH; auto. intros x Hx; apply H; simpl; auto.
Qed.

Lemma idx_from_cons d l rest :
  idx_from d (l :: rest) = (if Nat.eqb l 0 then [] else [d]) ++ idx_from (S d) rest.
Proof.
  unfold idx_from. cbn [length seq filter]. rewrite Nat.sub_diag. cbn [nth].
  rewrite (filter_ext_in' _ (fun i => negb (Nat.eqb (nth (i - S d) rest 0) 0)) (seq (S d) (length rest))).
  - destruct (Nat.eqb l 0); reflexivity.
  - intros x Hx. apply in_seq in Hx. replace (x - d) with (S (x - S d)) by lia. reflexivity.
Qed.

Lemma find_run_run : forall lens d k, 0 < k ->
  find_run lens d k = (d, k + run_length lens).
Proof.
  induction lens as [|l rest IH]; intros d k Hk; cbn [find_run run_length].
  - f_equal; lia.
  - destruct l as [|l]; cbn [Nat.eqb negb].
    + replace (Nat.eqb k 0) with false by (symmetry; apply Nat.eqb_neq; lia). f_equal; lia.
    + rewrite IH by lia. f_equal; lia.
Qed.

Lemma find_run_skip : forall lens d,
  find_run lens d 0 = (d + (length lens - length (skip_zeros lens)), run_length (skip_zeros lens)).
Proof.
  induction lens as [|l rest IH]; intros d; cbn [find_run skip_zeros].
  - cbn. f_equal; lia.
  - destruct l as [|l]; cbn [Nat.eqb negb].
    + rewrite IH. f_equal.
      assert (length (skip_zeros rest) <= length rest).
      { clear. induction rest as [|[|x] r IH]; cbn; lia. }
      cbn [length]; lia.
    + rewrite find_run_run by lia. cbn [run_length length]. f_equal; lia.
Qed.

Lemma skip_zeros_length lens : length (skip_zeros lens) <= length lens.
Proof. induction lens as [|[|x] r IH]; cbn; lia. Qed.

Lemma skip_zeros_skipn lens :
  skip_zeros lens = skipn (length lens - length (skip_zeros lens)) lens.
Proof.
  induction lens as [|[|x] r IH]; cbn [skip_zeros length]; auto.
  - replace (S (length r) - length (skip_zeros r)) with (S (length r - length (skip_zeros r)))
      by (pose proof (skip_zeros_length r); lia).
    exact IH.
  - now rewrite Nat.sub_diag.
Qed.

Lemma idx_skip_zeros : forall lens d,
  idx_from d lens = idx_from (d + (length lens - length (skip_zeros lens))) (skip_zeros lens).
Proof.
  induction lens as [|[|x] r IH]; intros d; cbn [skip_zeros length].
  - now rewrite Nat.add_0_r.
  - rewrite idx_from_cons. cbn [Nat.eqb app]. rewrite IH. f_equal.
    pose proof (skip_zeros_length r); lia.
  - now rewrite Nat.sub_diag, Nat.add_0_r.
Qed.

Lemma run_zero lens : run_length (skip_zeros lens) = 0 -> skip_zeros lens = [].
Proof. induction lens as [|[|x] r IH]; cbn; auto. discriminate. Qed.

Lemma idx_run : forall n lens d, n <= run_length lens ->
  idx_from d lens = seq d n ++ idx_from (d + n) (skipn n lens).
Proof.
  induction n as [|n IH]; intros lens d H.
  - now rewrite Nat.add_0_r.
  - destruct lens as [|[|l] rest]; cbn in H; try lia.
    rewrite idx_from_cons. cbn [Nat.eqb app seq skipn]. f_equal.
    rewrite (IH rest (S d)) by lia. do 2 f_equal; lia.
Qed.

Lemma event_index_sent d n : map event_index (sent_events d n) = seq d n.
Proof. unfold sent_events. rewrite map_map. cbn. apply map_id. Qed.

Lemma call_kernel_spec : forall oracle lens,
  kernel_ok oracle lens ->
  match call_kernel oracle with
  | None => answers oracle = 0
  | Some (k, rest) => k <> KIntr /\ answers oracle = S (answers rest) /\
      match k with
      | KSent n => (run_length (skip_zeros lens) = 0 \/ 1 <= n <= run_length (skip_zeros lens)) /\
                   kernel_ok rest (skipn n (skip_zeros lens))
      | KErr => kernel_ok rest (skipn 1 (skip_zeros lens))
      | KIntr => False
      end
  end /\ forall p, match call_kernel oracle with
                  | None => replay oracle p = []
                  | Some (k, rest) => replay oracle p = replay (k :: rest) p
                  end.
Proof.
  induction oracle as [|k rest IH]; intros lens H; cbn [call_kernel].
  - split; reflexivity.
  - destruct k as [n| |].
    + destruct H as [H1 H2]. repeat split; auto. discriminate.
    + specialize (IH lens H). destruct IH as [IH1 IH2].
      destruct (call_kernel rest) as [[k r]|]; auto.
    + repeat split; auto; discriminate.
Qed.

Lemma run_length_le lens : run_length lens <= length lens.
Proof. induction lens as [|[|x] r IH]; cbn; lia. Qed.

Lemma replay_nil oracle : replay oracle [] = [].
Proof.
  induction oracle as [|[n| |] r IH]; cbn [replay]; auto.
  rewrite firstn_nil, skipn_nil. exact IH.
Qed.

Lemma firstn_seq_app d n (l : list nat) : firstn n (seq d n ++ l) = seq d n.
Proof.
  rewrite firstn_app, seq_length, Nat.sub_diag, firstn_all2 by (rewrite seq_length; lia).
  cbn. apply app_nil_r.
Qed.

Lemma skipn_seq_app d n (l : list nat) : skipn n (seq d n ++ l) = l.
Proof. rewrite skipn_app, seq_length, Nat.sub_diag, skipn_all2 by (rewrite seq_length; lia). reflexivity. Qed.

(** Main induction: [rest] is the part of the batch still to do. *)
Lemma send_loop_ok : forall fuel oracle lens d,
  kernel_ok oracle (skipn d lens) -> d <= length lens -> length lens - d < fuel ->
  match send_loop fuel oracle lens d with
  | Done evs => map event_index evs = idx_from d (skipn d lens) /\
                evs = replay oracle (idx_from d (skipn d lens))
  | Waiting evs => answers oracle < length (skipn d lens) /\
                   (exists k, map event_index evs = firstn k (idx_from d (skipn d lens))) /\
                   evs = replay oracle (idx_from d (skipn d lens))
  | Broken => False
  end.
Proof.
  induction fuel as [|f IH]; intros oracle lens d Hk Hd Hf; [lia|].
  cbn [send_loop].
  destruct (Nat.ltb_spec d (length lens)) as [Hlt|Hge].
  2:{ replace d with (length lens) by lia. rewrite skipn_all. split; [reflexivity|]. symmetry; apply replay_nil. }
  rewrite find_run_skip.
  set (sz := skip_zeros (skipn d lens)) in *.
  pose proof (skip_zeros_length (skipn d lens)) as Hszl. fold sz in Hszl.
  rewrite skipn_length in Hszl.
  pose proof (skip_zeros_skipn (skipn d lens)) as Hszs. fold sz in Hszs.
  rewrite skipn_length, skipn_skipn_plus in Hszs.
  pose proof (idx_skip_zeros (skipn d lens) d) as Hidx. fold sz in Hidx.
  rewrite skipn_length in *.
  set (z := length lens - d - length sz) in *.
  assert (Hszlen : length sz = length lens - d - z) by lia.
  destruct (Nat.eqb_spec (run_length sz) 0) as [Hr|Hr].
  - assert (Esz : sz = []) by (apply run_zero; auto).
    rewrite Esz in *. cbn [length] in *.
    replace (Nat.eqb (d + z) (length lens)) with true by (symmetry; apply Nat.eqb_eq; lia).
    replace (d + z) with (length lens) by lia.
    destruct f as [|f']; [lia|]. cbn [send_loop].
    rewrite Nat.ltb_irrefl. rewrite Hidx. split; [reflexivity|]. symmetry; apply replay_nil.
  - pose proof (call_kernel_spec oracle (skipn d lens) Hk) as [CK CR]. fold sz in CK.
    destruct (call_kernel oracle) as [[k rest]|].
    2:{ split.
        - pose proof (run_length_le sz). lia.
        - split; [exists 0; reflexivity|]. symmetry; apply CR. }
    destruct CK as (Hki & Hans & CK). destruct k as [n| |]; [|congruence|].
    + destruct CK as [Hn Hk']. destruct Hn as [Hn|Hn]; [contradiction|].
      replace (Nat.ltb 0 n && Nat.leb n (run_length sz))%bool with true
        by (symmetry; apply andb_true_intro; split; [apply Nat.ltb_lt|apply Nat.leb_le]; lia).
      assert (Es : skipn n sz = skipn (d + z + n) lens).
      { rewrite Hszs, skipn_skipn_plus. f_equal; lia. }
      pose proof (run_length_le sz) as Hrl.
      specialize (IH rest lens (d + z + n)).
      rewrite <- Es in IH. specialize (IH Hk' ltac:(lia) ltac:(lia)).
      rewrite Hidx, (idx_run n) by lia.
      destruct (send_loop f rest lens (d + z + n)) as [evs|evs|]; cbn [add_events]; auto.
      * destruct IH as [IH IHr]. split; [rewrite map_app, event_index_sent, IH; reflexivity|].
        rewrite CR. cbn [replay]. rewrite firstn_seq_app, skipn_seq_app. unfold sent_events.
        now rewrite IHr.
      * destruct IH as (IH1 & [k IH2] & IHr). split.
        { rewrite skipn_length in IH1. lia. }
        split; [|rewrite CR; cbn [replay]; rewrite firstn_seq_app, skipn_seq_app; unfold sent_events; now rewrite IHr].
        exists (n + k). rewrite map_app, event_index_sent, IH2.
        rewrite firstn_app. rewrite seq_length.
        rewrite (firstn_all2 (n := n + k)) by (rewrite seq_length; lia).
        f_equal. f_equal. lia.
    + assert (Es : skipn 1 sz = skipn (d + z + 1) lens).
      { rewrite Hszs, skipn_skipn_plus. f_equal; lia. }
      pose proof (run_length_le sz) as Hrl.
      specialize (IH rest lens (d + z + 1)).
      rewrite <- Es in IH. specialize (IH CK ltac:(lia) ltac:(lia)).
      rewrite Hidx, (idx_run 1) by lia.
      destruct (send_loop f rest lens (d + z + 1)) as [evs|evs|]; cbn [add_events]; auto.
      * destruct IH as [IH IHr]. cbn [map app event_index seq]. rewrite IH. split; [reflexivity|].
        rewrite CR. cbn [replay]. now rewrite IHr.
      * destruct IH as (IH1 & [k IH2] & IHr). split.
        { rewrite skipn_length in IH1. lia. }
        split; [|rewrite CR; cbn [replay app seq]; now rewrite IHr].
        exists (S k). cbn [map app event_index seq firstn]. now rewrite IH2.
Qed.

Lemma process_mmsgs_ok oracle lens :
  kernel_ok oracle lens ->
  match process_mmsgs_send oracle lens with
  | Done evs => map event_index evs = to_transmit lens /\ evs = replay oracle (to_transmit lens)
  | Waiting evs => answers oracle < length lens /\
                   (exists k, map event_index evs = firstn k (to_transmit lens)) /\
                   evs = replay oracle (to_transmit lens)
  | Broken => False
  end.
Proof.
  intros H. unfold process_mmsgs_send.
  pose proof (send_loop_ok (S (length lens)) oracle lens 0 H ltac:(lia) ltac:(lia)) as P.
  replace (to_transmit lens) with (idx_from 0 (skipn 0 lens)).
  - exact P.
  - unfold idx_from, to_transmit. cbn [skipn]. apply filter_ext_in'.
    intros x _. now rewrite Nat.sub_0_r.
Qed.

Lemma to_transmit_spec lens :
  NoDup (to_transmit lens) /\
  forall i, In i (to_transmit lens) <-> i < length lens /\ nth i lens 0 <> 0.
Proof.
  split.
  - apply NoDup_filter, seq_NoDup.
  - intros i. unfold to_transmit. rewrite filter_In, in_seq.
    rewrite Bool.negb_true_iff, Nat.eqb_neq. intuition lia.
Qed.
