(** Challenges from the command line. *)
From Coq Require Import Lia.
From Verif Require Import Base DnameModel DnameSpec DnameProofs DnameProofs2 DnameProps ChalSpec CtlModel CtlSpec CscModel CscSpec CscProofs CscProofs3.

Lemma prefix_is : prefix = acme_prefix.
Proof. reflexivity. Qed.
Lemma base64url_is x : b64u_legal x = true <-> In x base64url.
Proof.
  assert (A : forall n, n < 123 -> b64u_legal (N.of_nat n) = existsb (N.eqb (N.of_nat n)) base64url).
  { assert (B : forallb (fun n => Bool.eqb (b64u_legal (N.of_nat n)) (existsb (N.eqb (N.of_nat n)) base64url)) (seq 0 123) = true) by (vm_compute; reflexivity).
    intros n Hn. rewrite forallb_forall in B. apply Bool.eqb_prop, B, in_seq. lia. }
  split; intros H.
  - assert (x < 123)%N. { unfold b64u_legal in H. rewrite !Bool.orb_true_iff, !Bool.andb_true_iff, !N.eqb_eq, !N.leb_le in H. lia. }
    rewrite <- (N2Nat.id x), A in H by lia. rewrite N2Nat.id in H. apply existsb_exists in H. destruct H as (y & I & E). apply N.eqb_eq in E. now subst.
  - assert (B : forallb b64u_legal base64url = true) by (vm_compute; reflexivity). rewrite forallb_forall in B. auto.
Qed.
Lemma strip_prefix_spec text : (exists t, text = prefix ++ t /\ strip_prefix text = t) \/ (strip_prefix text = text /\ ~ exists t, text = prefix ++ t).
Proof.
  unfold strip_prefix. rewrite <- prefix_is. destruct (bytes_eqb (firstn 16 text) prefix) eqn:Q.
  - apply bytes_eqb_eq in Q. left. exists (skipn 16 text). split; [|reflexivity]. rewrite <- Q. symmetry. apply firstn_skipn.
  - right. split; [reflexivity|]. intros (t & ->). assert (X : bytes_eqb (firstn 16 (prefix ++ t)) prefix = true); [|congruence]. apply bytes_eqb_eq. reflexivity.
Qed.
Lemma given_strip text ls : given_name text ls <-> exists fq, name_text (strip_prefix text) ls fq /\ legal_name ls /\ wire_len ls <= 239.
Proof.
  unfold given_name. destruct (strip_prefix_spec text) as [(t & E & St)|(St & No)]; rewrite St; split.
  - intros (t' & fq & [H|(-> & H)] & X); [|exfalso; apply H; eauto]. rewrite E in H. apply app_inv_head in H. subst t'. eauto.
  - intros (fq & X). exists t, fq. auto.
  - intros (t' & fq & [H|(-> & H)] & X); [exfalso; apply No; eauto|]. eauto.
  - intros (fq & X). exists text, fq. auto.
Qed.

Definition good_one (dn ch : bytes) (ls : list (list N)) : Prop := given_name dn ls /\ length ch = 43 /\ forall x, In x ch -> In x base64url.
Definition one_data (ls : list (list N)) (ch : bytes) : bytes := dname ls true ++ ch ++ [0%N].
Lemma one_data_length ls ch : length ch = 43 -> length (one_data ls ch) = wire_len ls + 45.
Proof. intros H. unfold one_data. rewrite !app_length, dname_length, H. cbn. lia. Qed.

Lemma chal_one_ok pre junk dn ch : all_bytes dn -> length (pre ++ junk) = N.to_nat 28400 -> 284 <= length junk ->
  exists r, chal_one (pre ++ junk) (length pre) dn ch = Ok r /\
    match r with
    | Some (buf, dlen) => exists ls junk', good_one dn ch ls /\ buf = (pre ++ one_data ls ch) ++ junk' /\ dlen = length (pre ++ one_data ls ch) /\ length buf = N.to_nat 28400 /\ length (one_data ls ch) <= 284
    | None => forall ls, ~ good_one dn ch ls
    end.
Proof.
  intros Hb Hl Hj. unfold chal_one. rewrite app_length in Hl. replace (284 <=? N.to_nat 28400 - length pre) with true by (symmetry; apply Nat.leb_le; lia). cbn [rassert].
  rewrite rdn_ok by (rewrite app_length; lia). cbn [rbind].
  assert (Ls : length (sub (pre ++ junk) (length pre) 256) = 256) by (apply sub_length; rewrite app_length; lia).
  assert (Hs : all_bytes (strip_prefix dn)). { unfold strip_prefix. destruct (bytes_eqb _ _); [|exact Hb]. unfold all_bytes in *. rewrite <- (firstn_skipn 16 dn) in Hb. now apply Forall_app in Hb. }
  destruct (C01_from_string_exact _ _ Ls Hs) as (st & out & E & Lo & Hv & Hp & Hout). rewrite E. cbn [rbind].
  assert (Good : forall ls fq, name_text (strip_prefix dn) ls fq -> legal_name ls ->
    exists r, (do l <- rd out 0 ;
       if (239 <? l)%N then Ok None
       else
         do b <- dname_terminate out ;
         do buf <- wr (pre ++ junk) (length pre) b ;
         let dlen := length pre + (N.to_nat l + 1) in
         if negb (length ch =? 43) then Ok None
         else if negb (forallb b64u_legal ch) then Ok None
         else
           do buf <- wr buf dlen ch ;
           let dlen := dlen + 43 in
           do buf <- wr buf dlen [0%N] ;
           let dlen := S dlen in
           rassert (dlen <=? N.to_nat 28400) (Ok (Some (buf, dlen)))) = Ok r /\
    match r with
    | Some (buf, dlen) => exists ls junk', good_one dn ch ls /\ buf = (pre ++ one_data ls ch) ++ junk' /\ dlen = length (pre ++ one_data ls ch) /\ length buf = N.to_nat 28400 /\ length (one_data ls ch) <= 284
    | None => forall ls, ~ good_one dn ch ls
    end).
  { intros ls fq Ht Hls. destruct (Hout ls fq Ht Hls) as (rest & Eo). rewrite Eo, rd_dname0. cbn [rbind]. assert (Lr : wire_len ls + 1 + length rest = 256) by (rewrite Eo, app_length, dname_length in Lo; lia).
    assert (Only : forall ls', good_one dn ch ls' -> ls' = ls). { intros ls' (G & _). apply given_strip in G. destruct G as (fq' & Ht' & Hl' & _). now apply (C01_text_is_unambiguous (strip_prefix dn) ls' fq' ls fq). }
    destruct (239 <? N.of_nat (wire_len ls))%N eqn:Q.
    { exists None. split; [reflexivity|]. intros ls' G. assert (ls' = ls) by auto. subst ls'. destruct G as (G & _). apply given_strip in G. destruct G as (_ & _ & _ & G). apply N.ltb_lt in Q. lia. }
    apply N.ltb_ge in Q. rewrite C03_terminate_qualifies by now apply legal_struct. cbn [rbind]. rewrite wr_prefix by (rewrite app_length, dname_length; lia). cbn [rbind].
    destruct (length ch =? 43) eqn:Q2; cbn [negb]; [|exists None; split; [reflexivity|]; intros ls' (_ & G & _); apply Nat.eqb_neq in Q2; contradiction].
    destruct (forallb b64u_legal ch) eqn:Q3; cbn [negb].
    2: { exists None. split; [reflexivity|]. intros ls' (_ & _ & G). assert (X : forallb b64u_legal ch = true); [|congruence]. apply forallb_forall. intros x Hx. now apply base64url_is, G. }
    apply Nat.eqb_eq in Q2. rewrite Nat2N.id.
    set (j1 := skipn (length (dname ls true ++ rest)) junk). replace (length pre + (wire_len ls + 1)) with (length (pre ++ dname ls true)) by (rewrite app_length, dname_length; lia).
    assert (Lj1 : length j1 = length junk - 256) by (unfold j1; rewrite skipn_length, app_length, dname_length; lia).
    replace (pre ++ (dname ls true ++ rest) ++ j1) with ((pre ++ dname ls true) ++ rest ++ j1) by (now rewrite <- !app_assoc).
    rewrite wr_prefix by (rewrite app_length; lia). cbn [rbind]. set (j2 := skipn (length ch) (rest ++ j1)). assert (Lj2 : length j2 = length rest + length j1 - 43) by (unfold j2; rewrite skipn_length, app_length; lia).
    replace (length (pre ++ dname ls true) + 43) with (length ((pre ++ dname ls true) ++ ch)) by (rewrite !app_length; lia). rewrite (app_assoc (pre ++ dname ls true) ch j2). rewrite wr_prefix by (cbn [length]; lia). cbn [rbind].
    set (j3 := skipn (length [0%N]) j2). assert (Lj3 : length j3 = length j2 - 1) by (unfold j3; rewrite skipn_length; reflexivity).
    assert (Ld : S (length ((pre ++ dname ls true) ++ ch)) = length (pre ++ one_data ls ch)) by (unfold one_data; rewrite !app_length; cbn; lia). rewrite Ld.
    assert (Lod := one_data_length ls ch Q2). replace (length (pre ++ one_data ls ch) <=? N.to_nat 28400) with true by (symmetry; apply Nat.leb_le; rewrite app_length; lia). cbn [rassert].
    eexists. split; [reflexivity|]. exists ls, j3. split.
    - split; [apply given_strip; exists fq; split; [exact Ht|split; [exact Hls|lia]]|]. split; [exact Q2|]. intros x Hx. apply base64url_is. rewrite forallb_forall in Q3. auto.
    - split; [unfold one_data; now rewrite <- !app_assoc|]. split; [reflexivity|]. split; [|lia]. rewrite !app_length. cbn [length]. rewrite dname_length in *. lia. }
  destruct st.
  - destruct Hv as (Hv & _). destruct (Hv eq_refl) as (ls & Ht & Hls). apply (Good ls true Ht Hls).
  - destruct Hp as (Hp & _). destruct (Hp eq_refl) as (ls & Ht & Hls). apply (Good ls false Ht Hls).
  - exists None. split; [reflexivity|]. intros ls (G & _). apply given_strip in G. destruct G as (fq & Ht & Hls & _). destruct fq; [assert (DNAME_INVALID = DNAME_VALID) by (apply Hv; eauto)|assert (DNAME_INVALID = DNAME_PARTIAL) by (apply Hp; eauto)]; discriminate.
Qed.

Fixpoint all_data (l : list (list (list N) * bytes)) : bytes := match l with [] => [] | (ls, ch) :: l => one_data ls ch ++ all_data l end.
Lemma chal_loop_ok : forall args pre junk, (forall a, In a args -> all_bytes (fst a)) -> length (pre ++ junk) = N.to_nat 28400 -> 284 * length args <= length junk ->
  exists r, chal_loop (pre ++ junk) (length pre) args = Ok r /\
    match r with
    | Some (buf, dlen) => exists cs data junk', given args cs /\ request cs data /\ buf = (pre ++ data) ++ junk' /\ dlen = length (pre ++ data) /\ length buf = N.to_nat 28400 /\ length data <= 284 * length args /\ (args <> [] -> data <> [])
    | None => forall cs, ~ given args cs
    end.
Proof.
  induction args as [|(dn, ch) args IH]; intros pre junk Hb Hl Hj; cbn [chal_loop].
  - eexists. split; [reflexivity|]. exists [], [], junk. rewrite app_nil_r. repeat split; auto; try constructor; try contradiction.
  - cbn [length] in Hj. destruct (chal_one_ok pre junk dn ch) as (r & E & Hr); [apply (Hb (dn, ch)); now left|exact Hl|lia|]. rewrite E. cbn [rbind]. destruct r as [(buf & dlen)|].
    2: { exists None. split; [reflexivity|]. intros cs G. inversion G; subst. apply (Hr ls). split; [assumption|]. auto. }
    destruct Hr as (ls & junk' & G & -> & -> & Lb & Lo). destruct (IH (pre ++ one_data ls ch) junk') as (r & E' & Hr'); [intros a Ia; apply Hb; now right|exact Lb| |].
    { rewrite !app_length in *. lia. }
    rewrite E'. destruct r as [(buf & dlen)|].
    + eexists. split; [reflexivity|]. destruct Hr' as (cs & data & j & Gs & Rq & -> & -> & Lb' & Ld & _). exists ({| a_name := ls; a_text := ch |} :: cs), (one_data ls ch ++ data), j.
      destruct G as (G1 & G2 & G3). split; [constructor; auto|]. split.
      { unfold one_data. replace ((dname ls true ++ ch ++ [0%N]) ++ data) with (dname ls true ++ ch ++ 0%N :: data) by (now rewrite <- !app_assoc). constructor; auto. apply given_strip in G1. destruct G1 as (fq & _ & G1 & _). now apply legal_struct. }
      split; [now rewrite !app_assoc|]. split; [now rewrite !app_assoc|]. split; [exact Lb'|]. split; [rewrite app_length; cbn [length]; lia|]. intros _. unfold one_data. rewrite dname_unfold. discriminate.
    + exists None. split; [reflexivity|]. intros cs Gs. inversion Gs; subst. now apply (Hr' cs0).
Qed.
Lemma given_length args cs : given args cs -> length cs = length args.
Proof. induction 1; cbn; auto. Qed.
