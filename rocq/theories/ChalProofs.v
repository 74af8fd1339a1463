From Coq Require Import Permutation.
From Verif Require Import Base DnameModel DnameSpec DnameProofs DnameProofs2 DnameProps CompModel RespModel RespSpec ChalModel ChalSpec.
Local Open Scope nat_scope.

(** ** Requests *)
Lemma dname_split_len a fa ra b fb rb : struct_name a -> struct_name b ->
  dname a fa ++ ra = dname b fb ++ rb -> wire_len a = wire_len b /\ ra = rb.
Proof.
  intros Ha Hb E.
  assert (L : wire_len a = wire_len b).
  { assert (X := rd_dname0 a fa ra). rewrite E, rd_dname0 in X. apply (f_equal (fun r => match r with Ok v => v | UB => 0%N end)) in X. cbv beta iota in X. lia. }
  split; auto. apply (f_equal (skipn (S (wire_len a)))) in E.
  rewrite <- (dname_length a fa) in E at 1. rewrite L, <- (dname_length b fb) in E.
  rewrite !skipn_app, !skipn_all, !Nat.sub_diag in E. exact E.
Qed.

Lemma request_inv cs r : request cs r -> match cs with
  | [] => r = []
  | c :: cs => exists fq z d, struct_name (a_name c) /\ length (a_text c) = 43 /\ request cs d /\ r = dname (a_name c) fq ++ a_text c ++ z :: d
  end.
Proof. destruct 1; [reflexivity|]. exists fq, z, data. cbn. auto. Qed.

Lemma text_split (t t' : bytes) z z' d d' : length t = 43 -> length t' = 43 -> t ++ z :: d = t' ++ z' :: d' -> t = t' /\ d = d'.
Proof.
  intros H H' E. assert (t = t').
  { apply (f_equal (firstn 43)) in E. rewrite !firstn_app, H, H', Nat.sub_diag, !firstn_O, !app_nil_r in E.
    rewrite (firstn_all2 t), (firstn_all2 t') in E by lia. exact E. }
  subst t'. split; auto. apply app_inv_head in E. now injection E.
Qed.

Lemma request_split cs : forall r1 r2 cs' r1' r2', request cs r1 -> request cs' r1' -> length cs = length cs' ->
  r1 ++ r2 = r1' ++ r2' -> length r1 = length r1'.
Proof.
  induction cs as [|c cs IH]; intros r1 r2 [|c' cs'] r1' r2' H H' L E; try discriminate; apply request_inv in H, H'.
  - now subst.
  - destruct H as (fq & z & d & Hn & Ht & Hr & ->), H' as (fq' & z' & d' & Hn' & Ht' & Hr' & ->).
    rewrite <- !app_assoc in E. apply dname_split_len in E as [W E]; auto.
    cbn in E. apply text_split in E as [E1 E2]; auto.
    rewrite !app_length, !dname_length, W. cbn [length]. rewrite (IH _ _ _ _ _ Hr Hr' ltac:(now inversion L) E2). rewrite Ht, Ht'. lia.
Qed.

Section Chal.
  Variable hash : bytes -> N.
  Variable ttl dns_ttl : N.

  Definition mk (a : achal) : chal :=
    {| c_hash := N.modulo (hash (wire_labels (a_name a))) two32; c_dname := dname (a_name a) true; c_txt := txt_rr dns_ttl a |}.
  Definition ok_chal (a : achal) : Prop := struct_name (a_name a) /\ length (a_text a) = 43.

  Lemma request_ok cs data : request cs data -> Forall ok_chal cs.
  Proof. induction 1; constructor; auto. split; auto. Qed.

  Lemma wire_labels_len ls : length (wire_labels ls) = wire_len ls - 1.
  Proof.
    induction ls as [|l ls IH]; [reflexivity|]. cbn [wire_labels length]. rewrite app_length, IH, wire_len_cons.
    pose proof (wire_len_pos ls). lia.
  Qed.

  Lemma rdn_at {A} (p m q : list A) i n : length p = i -> length m = n -> rdn (p ++ m ++ q) i n = Ok m.
  Proof.
    intros <- <-. rewrite rdn_ok by (rewrite !app_length; lia). f_equal.
    unfold sub. rewrite skipn_app, skipn_all, Nat.sub_diag. cbn [app skipn].
    rewrite firstn_app, firstn_all, Nat.sub_diag. cbn [firstn]. apply app_nil_r.
  Qed.
  Lemma wr_mid {A} (p : list A) x q y : wr (p ++ x :: q) (length p) [y] = Ok (p ++ y :: q).
  Proof.
    rewrite wr_ok by (rewrite app_length; cbn; lia). rewrite firstn_app, firstn_all, Nat.sub_diag, firstn_O, app_nil_r.
    cbn [length]. rewrite skipn_app. rewrite skipn_all2 by lia. replace (length p + 1 - length p) with 1 by lia. reflexivity.
  Qed.
  Lemma rd_mid {A} (p : list A) x q : rd (p ++ x :: q) (length p) = Ok x.
  Proof. unfold rd. now rewrite nth_error_app2, Nat.sub_diag by lia. Qed.

  Lemma dname_hash_ok ls rest : dname_hash hash (dname ls true ++ rest) = Ok (N.modulo (hash (wire_labels ls)) two32).
  Proof.
    unfold dname_hash. rewrite rd_dname0. cbn [rbind]. rewrite Nat2N.id. unfold dname.
    change ((N.of_nat (length (wire_labels ls ++ [term true])) :: wire_labels ls ++ [term true]) ++ rest)
      with ([N.of_nat (length (wire_labels ls ++ [term true]))] ++ (wire_labels ls ++ [term true]) ++ rest).
    rewrite <- app_assoc. rewrite (rdn_at _ (wire_labels ls)); [reflexivity|reflexivity|]. apply wire_labels_len.
  Qed.

  Lemma parse_ok n : forall pre rest, all_bytes rest ->
    exists r, parse_chals hash dns_ttl n (pre ++ rest) (length pre) = Ok r /\
    match r with
    | None => forall cs r1 r2, rest = r1 ++ r2 -> request cs r1 -> length cs <> n
    | Some (l, e) => exists cs r1 r2, rest = r1 ++ r2 /\ request cs r1 /\ length cs = n /\
        l = map mk cs /\ e = length pre + length r1
    end.
  Proof.
    induction n as [|n IH]; intros pre rest Hb.
    - exists (Some ([], length pre)). split; [reflexivity|]. exists [], [], rest. repeat split; auto. constructor.
    - cbn [parse_chals]. rewrite app_length.
      replace (length pre <=? length pre + length rest) with true by (symmetry; apply Nat.leb_le; lia). cbn [rassert].
      rewrite skipn_app, skipn_all, Nat.sub_diag. cbn [app skipn].
      replace (length pre + length rest - length pre) with (length rest) by lia.
      destruct (C04_status_of_arbitrary_bytes rest Hb) as (s & Es & HV & HP). rewrite Es. cbn [rbind].
      destruct (status_eqb s DNAME_INVALID) eqn:E0.
      + exists None. split; auto. intros cs r1 r2 -> Hr Hl. inversion Hr; subst; [discriminate|].
        destruct fq.
        * assert (s = DNAME_VALID) by (apply HV; exists n0; eexists; split; [assumption|]; rewrite <- app_assoc; reflexivity). subst; discriminate.
        * assert (s = DNAME_PARTIAL) by (apply HP; exists n0; eexists; split; [assumption|]; rewrite <- app_assoc; reflexivity). subst; discriminate.
      + assert (exists ls fq rest1, struct_name ls /\ rest = dname ls fq ++ rest1) as (ls & fq & rest1 & Hls & ->).
        { destruct s; try discriminate.
          - destruct (proj1 HV eq_refl) as (ls & r & ? & ?). exists ls, true, r. auto.
          - destruct (proj1 HP eq_refl) as (ls & r & ? & ?). exists ls, false, r. auto. }
        assert (Er : rd (pre ++ dname ls fq ++ rest1) (length pre) = Ok (N.of_nat (wire_len ls))).
        { assert (X := rd_dname0 ls fq rest1). unfold rd in *. rewrite nth_error_app2, Nat.sub_diag by lia. exact X. }
        rewrite Er. cbn [rbind]. rewrite Nat2N.id.
        rewrite (rdn_at pre (dname ls fq) rest1) by (auto; rewrite dname_length; lia). cbn [rbind].
        assert (Et := terminate_ok ls fq [] Hls). rewrite !app_nil_r in Et. rewrite Et. cbn [rbind].
        assert (Eh := dname_hash_ok ls []). rewrite app_nil_r in Eh. rewrite Eh. cbn [rbind].
        rewrite app_length, dname_length.
        replace (length pre + (wire_len ls + 1) <=? length pre + (S (wire_len ls) + length rest1)) with true by (symmetry; apply Nat.leb_le; lia).
        cbn [rassert]. replace (length pre + (S (wire_len ls) + length rest1) - (length pre + (wire_len ls + 1))) with (length rest1) by lia.
        destruct (length rest1 <? 44) eqn:E44.
        * apply Nat.ltb_lt in E44. exists None. split; auto. intros cs r1 r2 E Hr Hl. inversion Hr; subst; [discriminate|].
          rewrite <- app_assoc in E. apply dname_split_len in E as [_ ->]; auto. rewrite !app_length in E44. cbn in E44. lia.
        * apply Nat.ltb_ge in E44.
          assert (exists t z d, rest1 = t ++ z :: d /\ length t = 43) as (t & z & d & -> & Ht).
          { exists (firstn 43 rest1). assert (Lk := skipn_length 43 rest1).
            destruct (skipn 43 rest1) as [|z d] eqn:Ed; [change (length (@nil N)) with 0 in Lk; lia|].
            exists z, d. split; [rewrite <- Ed; symmetry; apply firstn_skipn|]. rewrite firstn_length. lia. }
          replace (pre ++ dname ls fq ++ t ++ z :: d) with ((pre ++ dname ls fq ++ t) ++ z :: d) by (rewrite <- !app_assoc; reflexivity).
          assert (Lp : length (pre ++ dname ls fq ++ t) = length pre + (wire_len ls + 1) + 43) by (rewrite !app_length, dname_length; lia).
          rewrite <- Lp. rewrite wr_mid. cbn [rbind].
          replace ((pre ++ dname ls fq ++ t) ++ 0%N :: d) with ((pre ++ dname ls fq) ++ t ++ 0%N :: d) by (rewrite <- !app_assoc; reflexivity).
          rewrite (rdn_at (pre ++ dname ls fq) t) by (auto; rewrite app_length, dname_length; lia). cbn [rbind].
          replace ((pre ++ dname ls fq) ++ t ++ 0%N :: d) with ((pre ++ dname ls fq ++ t ++ [0%N]) ++ d) by (rewrite <- !app_assoc; reflexivity).
          assert (Ld : length pre + (wire_len ls + 1) + 44 = length (pre ++ dname ls fq ++ t ++ [0%N])) by (rewrite !app_length, dname_length; cbn; lia).
          rewrite Ld.
          destruct (IH (pre ++ dname ls fq ++ t ++ [0%N]) d) as (r & E & Hr).
          { unfold all_bytes in *. apply Forall_app in Hb as [_ Hb]. apply Forall_app in Hb as [_ Hb]. now inversion Hb. }
          rewrite E. cbn [rbind]. destruct r as [[l e]|].
          -- eexists. split; [reflexivity|]. destruct Hr as (cs & r1 & r2 & -> & Hrq & Hl & -> & ->).
             exists ({| a_name := ls; a_text := t |} :: cs), (dname ls fq ++ t ++ z :: r1), r2.
             split; [rewrite <- !app_assoc; reflexivity|]. split; [constructor; auto|]. split; [cbn; auto|]. split.
             ++ cbn [map]. f_equal. 
             ++ rewrite <- Ld. rewrite !app_length, dname_length. cbn. lia.
          -- exists None. split; auto. intros cs r1 r2 E' Hrq Hl. inversion Hrq; subst; [discriminate|].
             rewrite <- app_assoc in E'. apply dname_split_len in E' as [_ E']; auto.
             rewrite <- app_assoc in E'. cbn [app] in E'. apply text_split in E' as [_ E']; auto.
             cbn in Hl. eapply Hr; [exact E'|eassumption|congruence].
  Qed.
End Chal.
