(** Proofs about the global options: the threads and the number of file descriptors *)
From Coq Require Import String Ascii Lia.
From Verif Require Import Base CompModel CompProofs VscfModel OptModel OptSpec OptProofs ProbeConfModel ProbeConfProofs CfgModel CfgSpec CfgProofs.
Local Open Scope N_scope.
Local Open Scope list_scope.
Local Notation length := List.length.

(** What is within bounds *)
Definition sane (o : dns_opts) : Prop :=
  1 <= tcp_threads o <= 1024 /\ udp_threads o <= 1024 /\ tcp_clients o <= 65535 /\ (tcp_proxy o = true -> udp_threads o = 0).

Lemma number_range l k lo hi d n : number l k lo hi d n -> n = d \/ lo <= n <= hi.
Proof. intros [[_ ->]|(? & ? & _ & _ & ?)]; auto. Qed.

Lemma threads_length i a : N.of_nat (length (threads_of i a)) = udp_threads (opts a) + tcp_threads (opts a).
Proof. unfold threads_of. rewrite app_length, !repeat_length. lia. Qed.

Lemma all_threads_flat l : forall i, all_threads i l =
  flat_map (fun ia => repeat (fst ia, true) (N.to_nat (udp_threads (opts (snd ia)))) ++
                      repeat (fst ia, false) (N.to_nat (tcp_threads (opts (snd ia))))) (combine (seq i (length l)) l).
Proof.
  induction l as [|a l IH]; intros i; [reflexivity|]. cbn [all_threads length seq combine flat_map fst snd].
  now rewrite IH.
Qed.

Lemma count_ok l : forall n i, n + 2048 * N.of_nat (length l) < two32 -> Forall (fun a => sane (opts a)) l ->
  fold_left (fun n a => (n + (udp_threads (opts a) + tcp_threads (opts a))) mod two32) l n =
    n + N.of_nat (length (all_threads i l)) /\ N.of_nat (length l) <= N.of_nat (length (all_threads i l)).
Proof.
  induction l as [|a l IH]; intros n i B F; cbn [fold_left all_threads length]; [lia|].
  inversion F as [|? ? (A1 & A2 & _) F']; subst. cbn [length] in B.
  pose proof (threads_length i a) as T. rewrite app_length.
  rewrite N.mod_small by lia. destruct (IH (n + (udp_threads (opts a) + tcp_threads (opts a))) (S i)) as [E L]; [lia|assumption|].
  rewrite E. lia.
Qed.

Lemma filter_repeat {A} (f : A -> bool) x n : filter f (repeat x n) = if f x then repeat x n else [].
Proof. induction n as [|n IH]; cbn; [now destruct (f x)|]. rewrite IH. now destruct (f x). Qed.

Lemma all_threads_count l i udp : forall b, length (filter (fun t => Nat.eqb (fst t) (b + i) && Bool.eqb (snd t) udp) (all_threads b l)) =
  match nth_error l i with
  | Some a => N.to_nat (if udp then udp_threads (opts a) else tcp_threads (opts a))
  | None => 0%nat
  end.
Proof.
  assert (Z : forall l b, (forall c, (c < b)%nat -> length (filter (fun t => Nat.eqb (fst t) c && Bool.eqb (snd t) udp) (all_threads b l)) = 0%nat)).
  { clear. induction l as [|a l IH]; intros b c H; [reflexivity|]. cbn [all_threads]. unfold threads_of.
    rewrite !filter_app, !filter_repeat. cbn [fst snd].
    assert (E : Nat.eqb b c = false) by (apply Nat.eqb_neq; lia). rewrite E. cbn. apply IH. lia. }
  revert i. induction l as [|a l IH]; intros i b; [now destruct i|]. cbn [all_threads]. unfold threads_of.
  rewrite !filter_app, !filter_repeat, !app_length. cbn [fst snd].
  destruct i as [|i]; cbn [nth_error].
  - replace (b + 0)%nat with b by lia. rewrite Nat.eqb_refl, Z by lia. destruct udp; cbn; rewrite repeat_length; lia.
  - assert (E : Nat.eqb b (b + S i) = false) by (apply Nat.eqb_neq; lia). rewrite E. cbn [andb length].
    specialize (IH i (S b)). replace (S b + i)%nat with (b + S i)%nat in IH by lia. rewrite IH. reflexivity.
Qed.

Lemma total_ok l : forall n, n + 2 ^ 28 * N.of_nat (length l) < two64 -> Forall (fun a => sane (opts a)) l ->
  fold_left (fun n a => (n + udp_threads (opts a) + (tcp_threads (opts a) * (tcp_clients (opts a) + 5)) mod two32) mod two64) l n =
  n + total (map (fun a => udp_threads (opts a) + tcp_threads (opts a) * (tcp_clients (opts a) + 5)) l) /\
  total (map (fun a => udp_threads (opts a) + tcp_threads (opts a) * (tcp_clients (opts a) + 5)) l) <= 2 ^ 28 * N.of_nat (length l).
Proof.
  induction l as [|a l IH]; intros n B F; cbn [fold_left map total fold_right length]; [lia|].
  inversion F as [|? ? (A1 & A2 & A3 & _) F']; subst. cbn [length] in B.
  assert (M : tcp_threads (opts a) * (tcp_clients (opts a) + 5) <= 1024 * 65540) by (apply N.mul_le_mono; lia).
  assert (W : (tcp_threads (opts a) * (tcp_clients (opts a) + 5)) mod two32 = tcp_threads (opts a) * (tcp_clients (opts a) + 5)).
  { apply N.mod_small. change two32 with 4294967296. lia. }
  rewrite W. rewrite N.mod_small by lia.
  destruct (IH (n + udp_threads (opts a) + tcp_threads (opts a) * (tcp_clients (opts a) + 5))) as [E L]; [lia|assumption|].
  rewrite E. fold (total (map (fun a => udp_threads (opts a) + tcp_threads (opts a) * (tcp_clients (opts a) + 5)) l)). lia.
Qed.

Section Gai.
  Variable gai : bytes -> option bytes -> option sockaddr.
  Hypothesis gai_port : forall h p a, gai h p = Some a -> port a < 65536.

  Definition in_range (o : option vnode) : Prop := match o with Some v => N.of_nat (entries v) < 2 ^ 20 | None => True end.

  Lemma Forall2_len {A B} (P : A -> B -> Prop) l1 l2 : Forall2 P l1 l2 -> length l1 = length l2.
  Proof. induction 1; cbn; congruence. Qed.

  Lemma Forall2_Forall {A B} (P : A -> B -> Prop) (Q : B -> Prop) l1 l2 :
    (forall a b, P a b -> Q b) -> Forall2 P l1 l2 -> Forall Q l2.
  Proof. intros H. induction 1; constructor; eauto. Qed.

  Lemma listens_sane d o l : sane d -> tcp_proxy d = false -> in_range o -> listens gai d o l ->
    Forall (fun a => sane (opts a)) l /\ N.of_nat (length l) < 2 ^ 20 /\ l <> [].
  Proof.
    intros (S1 & S2 & S3 & S4) NP R L. assert (SD : sane d) by (repeat split; auto; lia).
    assert (TX : forall t a, at_text gai d t a -> sane (opts a)) by (intros t a [_ ->]; assumption).
    assert (PL : forall v a, plain gai d v a -> sane (opts a)).
    { intros v a P. inversion P; subst. eapply TX; eassumption. }
    inversion L as [as_ F|raw s as_ _ F|raw s a _ P|vs as_ N F|es as_ N F]; subst.
    - split; [eapply Forall2_Forall; [|exact F]; exact TX|]. rewrite <- (Forall2_len _ _ _ F). split; [reflexivity|].
      intros ->. inversion F.
    - split; [eapply Forall2_Forall; [|exact F]; exact TX|]. rewrite <- (Forall2_len _ _ _ F). split; [reflexivity|].
      intros ->. inversion F.
    - split; [constructor; [eauto|constructor]|]. split; [reflexivity|discriminate].
    - split; [eapply Forall2_Forall; [|exact F]; assumption|]. rewrite <- (Forall2_len _ _ _ F). split; assumption.
    - split; [|rewrite <- (Forall2_len _ _ _ F); split; assumption].
      eapply Forall2_Forall; [|exact F]. intros e a T. inversion T as [k l' t a' Tx Ad Op Px]; subst.
      destruct Op as (O1 & O2 & O3 & O4 & O5 & O6 & O7 & O8).
      apply number_range in O5, O7. unfold sane. destruct (tcp_proxy (opts a)).
      + destruct O8 as (_ & _ & -> & _). split; [lia|]. split; [lia|]. split; [lia|auto].
      + destruct O8 as (_ & _ & U & _). apply number_range in U. split; [lia|]. split; [lia|]. split; [lia|discriminate].
  Qed.

  Lemma sockets_iff lo co d : dns_port d < 65536 -> sane d -> tcp_proxy d = false -> in_range lo -> in_range co ->
    sockets gai lo co d <> UB /\
    forall s, sockets gai lo co d = Ok (Some s) <->
      listens gai d lo (dns_addrs s) /\ controls gai co (ctl_addrs s) /\
      dns_threads s = flat_map (fun ia => repeat (fst ia, true) (N.to_nat (udp_threads (opts (snd ia)))) ++
                                          repeat (fst ia, false) (N.to_nat (tcp_threads (opts (snd ia)))))
                               (combine (seq 0 (length (dns_addrs s))) (dns_addrs s)) /\
      fd_estimate s = total (map (fun a => udp_threads (opts a) + tcp_threads (opts a) * (tcp_clients (opts a) + 5)) (dns_addrs s))
                      + 17 * N.of_nat (length (ctl_addrs s)).
  Proof.
    intros D SD NP RL RC. unfold sockets, process_listen. cbv zeta.
    destruct (fill_iff gai gai_port d lo D) as [FU FI].
    destruct (tcp_control_iff gai gai_port co) as [CU CI].
    destruct (fill_addrs gai lo d) as [[addrs|]|] eqn:FE; [| |contradiction].
    2:{ split; [discriminate|]. intros s. split; [discriminate|]. intros (L & _). apply FI in L. discriminate. }
    assert (L0 : listens gai d lo addrs) by now apply FI.
    destruct (listens_sane d lo addrs SD NP RL L0) as (FA & LA & NA).
    destruct (count_ok addrs 0 0%nat) as [CE CL]; [change two32 with 4294967296; lia|assumption|].
    rewrite CE, N.add_0_l.
    assert (LN : 1 <= N.of_nat (length addrs)) by (destruct addrs; [contradiction|cbn [length]; lia]).
    replace (N.of_nat (length (all_threads 0 addrs)) =? 0) with false by (symmetry; apply N.eqb_neq; lia).
    rewrite N.eqb_refl. cbn [negb rassert].
    replace (forallb (fun a => negb (tcp_proxy (opts a)) || (udp_threads (opts a) =? 0)) addrs) with true.
    2:{ symmetry. apply forallb_forall. intros a Ia. pose proof (proj1 (Forall_forall _ _) FA a Ia) as (_ & _ & _ & Z).
        destruct (tcp_proxy (opts a)); [|reflexivity]. rewrite Z by reflexivity. reflexivity. }
    cbn [rassert].
    destruct (match co with None => Ok (Some []) | Some v => tcp_control gai v end) as [[ctls|]|] eqn:CQ; [| |contradiction].
    2:{ split; [discriminate|]. intros s. split; [discriminate|]. intros (_ & C & _). apply CI in C. discriminate. }
    assert (C0 : controls gai co ctls) by now apply CI.
    assert (LC : N.of_nat (length ctls) < 2 ^ 20).
    { inversion C0 as [|raw s a ?|vs as_ F|es as_ F]; subst; try reflexivity;
        rewrite <- (Forall2_len _ _ _ F); exact RC. }
    assert (ES : estimate addrs ctls =
      total (map (fun a => udp_threads (opts a) + tcp_threads (opts a) * (tcp_clients (opts a) + 5)) addrs) + 17 * N.of_nat (length ctls)).
    { unfold estimate. destruct (total_ok addrs 0) as [E L]; [change two64 with 18446744073709551616; lia|assumption|].
      rewrite E, N.add_0_l. rewrite (N.mod_small (_ * 17)) by (change two32 with 4294967296; lia).
      rewrite N.mod_small by (change two64 with 18446744073709551616; lia). lia. }
    split; [discriminate|]. intros s. split.
    - intros [= <-]. cbn [dns_addrs ctl_addrs dns_threads fd_estimate]. rewrite <- all_threads_flat. auto.
    - intros (L & C & T & F). apply FI in L. injection L as ->. apply CI in C. injection C as ->.
      rewrite <- all_threads_flat in T. rewrite <- ES in F. destruct s as [x y z w]. cbn [dns_addrs ctl_addrs dns_threads fd_estimate] in *.
      subst. reflexivity.
  Qed.
End Gai.
