(** Proofs about the client side of the control socket. *)
From Coq Require Import Lia.
From Verif Require Import Base DnameSpec ChalSpec CtlModel CtlSpec CtlProofs9 CscModel CscSpec.

(** ** Messages *)
Lemma make_v_div v : (v <= 16777215 -> make_v (v / 65536) (v / 256 mod 256) (v mod 256) = v)%N.
Proof.
  intros H. unfold make_v. apply N.bits_inj. intros k. rewrite !N.lor_spec.
  change 65536%N with (2 ^ 16)%N. change (v / 256)%N with (v / 2 ^ 8)%N. change 256%N with (2 ^ 8)%N.
  rewrite <- !N.shiftr_div_pow2, <- !N.land_ones.
  destruct (N.lt_ge_cases k 8) as [K|K].
  - rewrite !N.shiftl_spec_low by lia. cbn [orb]. rewrite N.land_spec, N.ones_spec_low by lia. now rewrite Bool.andb_true_r.
  - rewrite (N.shiftl_spec_high' _ 8) by lia. rewrite !N.land_spec, (N.ones_spec_high 8 k) by lia. rewrite Bool.andb_false_r, Bool.orb_false_r.
    destruct (N.lt_ge_cases k 16) as [K2|K2].
    + rewrite N.shiftl_spec_low by lia. rewrite N.ones_spec_low by lia. rewrite Bool.andb_true_r, N.shiftr_spec'. cbn [orb]. f_equal. lia.
    + rewrite (N.shiftl_spec_high' _ 16) by lia. rewrite (N.ones_spec_high 8 (k - 8)) by lia. rewrite Bool.andb_false_r, Bool.orb_false_r, N.shiftr_spec'. f_equal. lia.
Qed.
Lemma make_d_div d : (d < 4294967296 -> make_d (d mod 256) (d / 256 mod 256) (d / 65536 mod 256) (d / 16777216 mod 256) = d)%N.
Proof.
  intros H. unfold make_d.
  assert (E1 := N.div_mod' d 256). assert (E2 := N.div_mod' (d / 256) 256). assert (E3 := N.div_mod' (d / 65536) 256).
  rewrite N.div_div in E2 by lia. rewrite N.div_div in E3 by lia. change (256 * 256)%N with 65536%N in E2. change (65536 * 256)%N with 16777216%N in E3.
  assert (d / 16777216 < 256)%N by (apply N.div_lt_upper_bound; lia). rewrite (N.mod_small (d / 16777216)) by assumption. lia.
Qed.
Lemma raw8_message key v d : (v <= 16777215)%N -> raw8 key v d = Ok (message key v d).
Proof.
  intros H. unfold raw8, csbuf_set_v, message. apply N.leb_le in H. rewrite H. cbn [rassert rbind]. apply N.leb_le in H.
  rewrite !N.shiftr_div_pow2. change (2 ^ 16)%N with 65536%N. change (2 ^ 8)%N with 256%N. rewrite (N.mod_small (v / 65536)); [reflexivity|]. apply N.div_lt_upper_bound; lia.
Qed.

(** ** From the daemon's log: the answer that follows a request *)
Section Log.
  Variable fds : list N.
  Variables sv sd : N.
  Variable R : nat -> N -> Prop.
  Notation exchange := (exchange fds sv sd R).
  Lemma at_request t k v d : forall p done part rest a b, Forall (exchange p) done -> exchange p (part ++ rest) ->
    concat done ++ part = a ++ [Got t k v d] ++ b ->
    exists xs, exchange p (Got t k v d :: xs) /\ ((exists b', b = xs ++ b') \/ (part <> [] /\ exists rs, xs = b ++ rs)).
  Proof.
    intros p done. induction done as [|x done IH]; intros part rs a b F X E.
    - cbn in E. subst part. destruct (exchange_shape _ _ _ _ _ _ X) as (t' & key & v' & d' & xs & Ex & Ng & _). rewrite <- !app_assoc in Ex. destruct a as [|g a].
      + cbn in X. exists (b ++ rs). split; [exact X|]. right. split; [discriminate|]. eauto.
      + exfalso. cbn in Ex. injection Ex as -> Ex. assert (Y : is_got (Got t k v d) = false); [|discriminate]. apply Ng. rewrite <- Ex. apply in_or_app. right. now left.
    - cbn in E. rewrite <- app_assoc in E. inversion F as [|? ? Fx Fd]; subst. destruct (exchange_shape _ _ _ _ _ _ Fx) as (t' & key & v' & d' & xs & -> & Ng & _).
      destruct (app_cases _ _ _ _ E) as (l & [(Ea & Eb)|(Ea & Eb & Nl)]).
      + destruct a as [|g a].
        * cbn in Ea. subst l. cbn in Eb. injection Eb as <- <- <- <- Eb. exists xs. split; [exact Fx|]. left. exists (concat done ++ part). exact Eb.
        * cbn in Ea. injection Ea as <- Ea. destruct l as [|x l].
          -- cbn in Eb. apply (IH part rs [] b Fd X). cbn. now rewrite <- Eb.
          -- cbn in Eb. injection Eb as <- Eb. exfalso. assert (Y : is_got (Got t k v d) = false); [|discriminate]. apply Ng. rewrite Ea. apply in_or_app. right. now left.
      + apply (IH part rs l b Fd X). exact Eb.
  Qed.
  Lemma log_at open l before t k v d after : connection_log fds sv sd R open l -> l = before ++ [Got t k v d] ++ after ->
    exists p,
      (exists xs b, exchange p (Got t k v d :: xs) /\ after = xs ++ b) \/
      (exists xs rs, exchange p (Got t k v d :: xs ++ rs) /\ after = xs ++ (if open then [] else [Closed])) \/
      (open = false /\ after = [Closed] /\ hung_up p [Got t k v d]).
  Proof.
    intros (p & done & part & F & El & X) E. rewrite E in El. clear E. destruct before as [|b0 before]; [discriminate|]. cbn [app] in El. injection El as -> El. symmetry in El. exists p. change (Got t k v d :: after) with ([Got t k v d] ++ after) in El.
    assert (E2 : (exists after', after = after' ++ (if open then [] else [Closed]) /\ concat done ++ part = before ++ [Got t k v d] ++ after')).
    { destruct open; [exists after; rewrite !app_nil_r in *; auto|]. destruct after as [|z after _] using rev_ind.
      - rewrite app_assoc in El. apply app_inj_tail in El. destruct El as (_ & El). discriminate.
      - exists after. change (Got t k v d :: after ++ [z]) with ([Got t k v d] ++ after ++ [z]) in El. rewrite !app_assoc in El. apply app_inj_tail in El. destruct El as (El & ->). split; [reflexivity|]. now rewrite El, <- app_assoc. }
    destruct E2 as (after' & -> & E2). destruct X as [(rs & X)|(-> & t' & key & v' & d' & -> & P & Hu)].
    - destruct (at_request t k v d p done part rs before after' F X E2) as (xs & Hx & [(b' & ->)|(_ & rs' & ->)]).
      + left. exists xs, (b' ++ (if open then [] else [Closed])). split; [exact Hx|]. now rewrite app_assoc.
      + right. left. eauto.
    - destruct after' as [|z after' _] using rev_ind.
      + cbn in E2. apply app_inj_tail in E2. destruct E2 as (_ & E2). right. right. cbn. split; [reflexivity|]. split; [reflexivity|]. injection E2 as <- <- <- <-. exists t', key, v', d'. auto.
      + rewrite !app_assoc in E2. apply app_inj_tail in E2. destruct E2 as (E2 & Ez). subst z. left.
        destruct (at_request t k v d p done [] [Got t' REQ_INFO v' d'; Wrote RESP_ACK sv sd] before after' F) as (xs & Hx & [(b' & ->)|(Np & _)]).
        * apply Xinfo. destruct p as [[? ?]|]; cbn; auto.
        * rewrite app_nil_r, E2. now rewrite <- app_assoc.
        * exists xs, (b' ++ [Got t' key v' d'; Closed]). split; [exact Hx|]. now rewrite <- !app_assoc.
        * contradiction.
  Qed.
End Log.
