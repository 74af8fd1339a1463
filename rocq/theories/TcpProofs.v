From Verif Require Import Base TcpModel TcpSpec.
Local Opaque TCP_READBUF.

Definition pending (c : conn) : bytes := sub (rb c) (head c) (cnt c).

Definition buf_ok (c : conn) : Prop :=
  length (rb c) = TCP_READBUF /\ head c + cnt c <= TCP_READBUF /\ all_bytes (rb c).

Lemma pending_length c : buf_ok c -> length (pending c) = cnt c.
Proof. intros (H1 & H2 & _). unfold pending. apply sub_length. lia. Qed.

Lemma nth_error_sub {A} (l : list A) i n k : k < n -> nth_error (sub l i n) k = nth_error l (i + k).
Proof.
  intros H. unfold sub.
  rewrite <- (firstn_skipn i l) at 2.
  destruct (le_lt_dec i (length l)) as [Hi|Hi].
  - rewrite nth_error_app2; rewrite firstn_length; [|lia].
    replace (i + k - Nat.min i (length l)) with k by lia.
    revert k H. generalize (skipn i l). clear. induction n as [|n IH]; intros l k H; [lia|].
    destruct l as [|h t]; [now destruct k|]. destruct k as [|k]; cbn; auto. apply IH; lia.
  - rewrite skipn_all2 by lia. rewrite firstn_nil, app_nil_r, firstn_all2 by lia.
    destruct k; cbn; symmetry; apply nth_error_None; lia.
Qed.

Lemma all_bytes_sub l i n : all_bytes l -> all_bytes (sub l i n).
Proof.
  intros H. apply Forall_forall. intros x Hx. unfold sub in Hx.
  assert (In x l) as Hin.
  { rewrite <- (firstn_skipn i l). apply in_or_app. right.
    rewrite <- (firstn_skipn n (skipn i l)). apply in_or_app. auto. }
  unfold all_bytes in H. rewrite Forall_forall in H. auto.
Qed.

Lemma all_bytes_firstn l n : all_bytes l -> all_bytes (firstn n l).
Proof. intros H. apply (all_bytes_sub l 0 n H). Qed.

Lemma all_bytes_skipn l n : all_bytes l -> all_bytes (skipn n l).
Proof.
  intros H. apply Forall_forall. intros x Hx. unfold all_bytes in H. rewrite Forall_forall in H.
  apply H. rewrite <- (firstn_skipn n l). apply in_or_app. auto.
Qed.

Lemma all_bytes_app l1 l2 : all_bytes l1 -> all_bytes l2 -> all_bytes (l1 ++ l2).
Proof. intros; apply Forall_app; auto. Qed.

Definition same_ghost (c c' : conn) : Prop :=
  out c' = out c /\ need_proxy c' = need_proxy c /\ active c' = active c /\
  buf_ok c' /\ pending c' = pending c.

Lemma ccnr_ok c : buf_ok c -> closed c = None ->
  exists rv c', conn_check_next_req c = Ok (rv, c') /\ same_ghost c c' /\
  match rv with
  | Killed => closed c' = Some BadLength /\ illegal (pending c)
  | NeedMore => closed c' = None /\ incomplete (pending c) /\ head c' = 0
  | Ready n => c' = c /\ has_request (pending c) /\
               exists a b t, pending c = a :: b :: t /\ n = N.to_nat (get16 a b)
  end.
Proof.
  intros Hb Hc. pose proof (pending_length c Hb) as Hl.
  destruct Hb as (Hb1 & Hb2 & Hb3).
  assert (Hpb : all_bytes (pending c)) by (apply all_bytes_sub; auto).
  unfold conn_check_next_req.
  destruct (Nat.eqb_spec (cnt c) 0) as [E0|E0].
  { exists NeedMore, (set_buf c (rb c) 0 (cnt c)). split; [reflexivity|].
    unfold same_ghost, buf_ok, pending, set_buf; cbn. rewrite E0 in *.
    repeat split; auto; try lia. }
  assert (P0 : nth_error (rb c) (head c) = nth_error (pending c) 0).
  { unfold pending. rewrite nth_error_sub by lia. now rewrite Nat.add_0_r. }
  unfold rd at 1. rewrite P0.
  destruct (pending c) as [|a p] eqn:Ep; [cbn in Hl; lia|]. cbn [nth_error rbind].
  assert (Ha : (a < 256)%N) by (inversion Hpb; auto).
  rewrite N.shiftl_mul_pow2. change (2 ^ 8)%N with 256%N.
  destruct (Nat.ltb_spec 1 (cnt c)) as [E1|E1].
  - assert (P1 : nth_error (rb c) (head c + 1) = nth_error (a :: p) 1).
    { rewrite <- Ep. unfold pending. rewrite nth_error_sub by lia. reflexivity. }
    unfold rd. rewrite P1. destruct p as [|b t]; [cbn in Hl; lia|]. cbn [nth_error rbind].
    assert (Hbb : (b < 256)%N) by (inversion Hpb as [|? ? ? Hp]; inversion Hp; auto).
    fold (get16 a b).
    destruct (N.ltb_spec (get16 a b) 12) as [S1|S1]; cbn [orb].
    { exists Killed, (close c BadLength). split; [reflexivity|].
      split; [|split; [reflexivity|cbn; lia]].
      unfold same_ghost, buf_ok, pending in *; cbn. rewrite Ep; auto 10. }
    destruct (N.ltb_spec DNS_RECV_SIZE (get16 a b)) as [S2|S2]; unfold DNS_RECV_SIZE in S2.
    { exists Killed, (close c BadLength). split; [reflexivity|].
      split; [|split; [reflexivity|cbn; lia]].
      unfold same_ghost, buf_ok, pending in *; cbn. rewrite Ep; auto 10. }
    cbn [length] in Hl.
    destruct (N.ltb_spec (N.of_nat (cnt c)) (get16 a b + 2)) as [S3|S3].
    + assert (Hinc : incomplete (a :: b :: t)) by (cbn; lia).
      destruct (Nat.eqb_spec (head c) 0) as [H0|H0].
      * exists NeedMore, c. split; [reflexivity|]. split; [|auto].
        unfold same_ghost, buf_ok; auto 10.
      * eexists NeedMore, _. split; [reflexivity|]. split; [|auto].
        unfold same_ghost, buf_ok, pending, set_buf; cbn.
        assert (Hpl : length (sub (rb c) (head c) (cnt c)) = cnt c) by (apply sub_length; lia).
        repeat split; auto.
        -- rewrite app_length, Hpl, skipn_length. lia.
        -- lia.
        -- apply all_bytes_app; [now apply all_bytes_sub|now apply all_bytes_skipn].
        -- rewrite sub_app_l by lia. apply sub_all; auto.
    + exists (Ready (N.to_nat (get16 a b))), c. split; [reflexivity|].
      split; [unfold same_ghost, buf_ok; auto 10|].
      split; [reflexivity|]. split; [cbn; lia|]. eauto 6.
  - assert (cnt c = 1) by lia. destruct p as [|b t]; [|cbn in Hl; lia]. cbn [rbind orb].
    destruct (N.ltb_spec DNS_RECV_SIZE (a * 256)) as [S2|S2]; unfold DNS_RECV_SIZE in S2.
    { exists Killed, (close c BadLength). split; [reflexivity|].
      split; [|split; [reflexivity|cbn; lia]].
      unfold same_ghost, buf_ok, pending in *; cbn. rewrite Ep; auto 10. }
    replace (N.of_nat (cnt c) <? a * 256 + 2)%N with true by (symmetry; apply N.ltb_lt; lia).
    assert (Hinc : incomplete [a]) by (cbn; lia).
    destruct (Nat.eqb_spec (head c) 0) as [H0|H0].
    * exists NeedMore, c. split; [reflexivity|]. split; [|auto].
      unfold same_ghost, buf_ok; auto 10.
    * eexists NeedMore, _. split; [reflexivity|]. split; [|auto].
      unfold same_ghost, buf_ok, pending, set_buf; cbn.
      assert (Hpl : length (sub (rb c) (head c) (cnt c)) = cnt c) by (apply sub_length; lia).
      repeat split; auto.
      -- rewrite app_length, Hpl, skipn_length. lia.
      -- lia.
      -- apply all_bytes_app; [now apply all_bytes_sub|now apply all_bytes_skipn].
      -- rewrite sub_app_l by lia. apply sub_all; auto.
Qed.

(** Invariant after the PROXY phase. *)
Definition Inv (stream : bytes) (c : conn) : Prop :=
  buf_ok c /\ need_proxy c = false /\
  stream = framed (out c) ++ pending c /\ Forall legal (out c) /\
  match closed c with
  | None => match active c with
            | ReadW => head c = 0 /\ incomplete (pending c)
            | CheckW => has_request (pending c)
            end
  | Some BadLength => illegal (pending c)
  | Some _ => True
  end.

Lemma framed_snoc l r : framed (l ++ [r]) = framed l ++ frame r.
Proof. unfold framed. rewrite map_app, concat_app. cbn. now rewrite app_nil_r. Qed.

Lemma be16_get a b : (a < 256)%N -> (b < 256)%N -> be16 (get16 a b) = [a; b].
Proof. intros. unfold be16, get16. f_equal; [|f_equal]; lia. Qed.

Section P.
  Variable served : nat -> bytes -> bool.

  (** One request taken from the buffer. *)
  Lemma conn_respond_ok stream c a b t :
    buf_ok c -> need_proxy c = false -> closed c = None ->
    stream = framed (out c) ++ pending c -> Forall legal (out c) ->
    pending c = a :: b :: t -> has_request (pending c) ->
    exists c', conn_respond served c (N.to_nat (get16 a b)) = Ok c' /\ Inv stream c' /\
      out c' = out c ++ [firstn (N.to_nat (get16 a b)) t] /\
      (closed c' = None -> served (length (out c)) (firstn (N.to_nat (get16 a b)) t) = true).
  Proof.
    intros Hb Hnp Hcl Hst Hleg Ep Hreq.
    pose proof (pending_length c Hb) as Hl. rewrite Ep in Hl, Hreq. cbn [length] in Hl.
    assert (Hpb : all_bytes (pending c)) by (apply all_bytes_sub; apply Hb).
    rewrite Ep in Hpb. inversion Hpb as [|? ? Ha Hpb']; subst. inversion Hpb' as [|? ? Hbb Hpt]; subst.
    unfold is_byte in Ha, Hbb.
    destruct Hreq as [[R1 R2] R3].
    destruct Hb as (Hb1 & Hb2 & Hb3).
    unfold conn_respond, rassert.
    set (n := N.to_nat (get16 a b)) in *.
    assert (En : N.of_nat n = get16 a b) by (unfold n; lia).
    replace (Nat.leb 12 n && (N.of_nat n <=? DNS_RECV_SIZE)%N)%bool with true
      by (symmetry; unfold DNS_RECV_SIZE; apply andb_true_intro; split; [apply Nat.leb_le|apply N.leb_le]; lia).
    replace (Nat.leb (head c + 2 + n) (length (rb c))) with true by (symmetry; apply Nat.leb_le; lia).
    replace (Nat.leb (n + 2) (cnt c)) with true by (symmetry; apply Nat.leb_le; lia).
    assert (Ereq : sub (rb c) (head c + 2) n = firstn n t).
    { assert (E : skipn 2 (pending c) = t) by (rewrite Ep; reflexivity).
      rewrite <- E. unfold pending, sub. rewrite skipn_firstn_comm, skipn_skipn_plus.
      rewrite firstn_firstn. f_equal; [lia|f_equal; lia]. }
    rewrite Ereq.
    set (req := firstn n t) in *.
    assert (Hrl : length req = n) by (unfold req; rewrite firstn_length; lia).
    set (c1 := {| rb := rb c; head := head c + (n + 2); cnt := cnt c - (n + 2); active := active c;
                  need_proxy := need_proxy c; closed := closed c; out := out c ++ [req] |}).
    assert (Hb1' : buf_ok c1) by (unfold buf_ok, c1; cbn; repeat split; auto; lia).
    assert (Hp1 : pending c1 = skipn n t).
    { unfold pending, c1; cbn.
      assert (E : skipn (n + 2) (pending c) = skipn n t).
      { rewrite Ep. replace (n + 2) with (S (S n)) by lia. reflexivity. }
      rewrite <- E. unfold pending, sub. rewrite skipn_firstn_comm, skipn_skipn_plus.
      f_equal. f_equal. lia. }
    assert (Hst1 : framed (out c) ++ pending c = framed (out c1) ++ pending c1).
    { rewrite Hp1. unfold c1; cbn [out]. rewrite framed_snoc, <- app_assoc. f_equal.
      unfold frame. rewrite Hrl, En, be16_get by auto. rewrite Ep. cbn [app].
      do 2 f_equal. unfold req. symmetry. apply firstn_skipn. }
    assert (Hleg1 : Forall legal (out c1)).
    { unfold c1; cbn. apply Forall_app. split; auto. constructor; auto.
      split; [lia|]. rewrite Hrl, En. exact R2. }
    destruct (served (length (out c)) req) eqn:Es; cbn [negb].
    - destruct (ccnr_ok c1 Hb1' Hcl) as (rv & c2 & E & G & H). rewrite E. cbn [rbind].
      destruct G as (G1 & G2 & G3 & G4 & G5).
      assert (Hst2 : framed (out c) ++ pending c = framed (out c2) ++ pending c2)
        by (rewrite G1, G5; exact Hst1).
      assert (Hleg2 : Forall legal (out c2)) by (rewrite G1; exact Hleg1).
      assert (Hnp2 : need_proxy c2 = false) by (rewrite G2; exact Hnp).
      destruct rv as [| |m].
      + exists c2. destruct H as [H1 H2]. split; [reflexivity|].
        split; [|split; [rewrite G1; reflexivity|auto]].
        unfold Inv. rewrite H1. rewrite G5 in *. auto.
      + exists (set_active c2 ReadW). destruct H as (H1 & H2 & H3). split; [reflexivity|].
        split; [|split; [cbn; rewrite G1; reflexivity|auto]].
        unfold Inv. change (pending (set_active c2 ReadW)) with (pending c2). cbn.
        rewrite H1. rewrite G5 in *. auto 10.
      + exists (set_active c2 CheckW). destruct H as (H1 & H2 & H3). split; [reflexivity|].
        split; [|split; [cbn; rewrite G1; reflexivity|auto]].
        unfold Inv. change (pending (set_active c2 CheckW)) with (pending c2). cbn.
        replace (closed c2) with (@None reason) by (rewrite H1; auto).
        rewrite G5 in *. auto 10.
    - exists (close c1 Dropped). split; [reflexivity|]. split.
      + unfold Inv; cbn. change (pending (close c1 Dropped)) with (pending c1).
        repeat split; auto; apply Hb1'.
      + split; [reflexivity|discriminate].
  Qed.

  Variable proxy_parse : bytes -> nat.
  Hypothesis proxy_bound : forall b, proxy_parse b <= length b.

  Lemma check_ok stream c : Inv stream c -> closed c = None -> active c = CheckW ->
    exists c', check_handler served c = Ok c' /\ Inv stream c' /\
      exists req, out c' = out c ++ [req] /\
        (closed c' = None -> served (length (out c)) req = true).
  Proof.
    intros (Hb & Hnp & Hst & Hleg & Hc) Hcl Ha. rewrite Hcl, Ha in Hc.
    pose proof (pending_length c Hb) as Hl.
    destruct (pending c) as [|a [|b t]] eqn:Ep; cbn in Hc; try contradiction.
    unfold check_handler, rassert. rewrite Hnp. cbn [negb]. cbn [length] in Hl.
    replace (Nat.ltb 2 (cnt c)) with true by (symmetry; apply Nat.ltb_lt; lia).
    assert (P0 : nth_error (rb c) (head c) = Some a).
    { pose proof (nth_error_sub (rb c) (head c) (cnt c) 0 ltac:(lia)) as E.
      fold (pending c) in E. rewrite Ep, Nat.add_0_r in E. cbn in E. congruence. }
    assert (P1 : nth_error (rb c) (head c + 1) = Some b).
    { pose proof (nth_error_sub (rb c) (head c) (cnt c) 1 ltac:(lia)) as E.
      fold (pending c) in E. rewrite Ep in E. cbn in E. congruence. }
    unfold rd. rewrite P0, P1. cbn [rbind].
    rewrite N.shiftl_mul_pow2. change (2 ^ 8)%N with 256%N. fold (get16 a b).
    replace ((12 <=? get16 a b) && (get16 a b <=? DNS_RECV_SIZE))%N%bool with true
      by (symmetry; unfold DNS_RECV_SIZE; apply andb_true_intro; split; apply N.leb_le; lia).
    replace (get16 a b + 2 <=? N.of_nat (cnt c))%N with true by (symmetry; apply N.leb_le; lia).
    assert (Hr : has_request (pending c)) by (rewrite Ep; exact Hc).
    rewrite <- Ep in Hst.
    destruct (conn_respond_ok stream c a b t Hb Hnp Hcl Hst Hleg Ep Hr)
      as (c' & E & I & O & S).
    eauto 10.
  Qed.

  (** Appending freshly received bytes to the buffer. *)
  Lemma append_ok c d : buf_ok c -> head c = 0 -> length d <= TCP_READBUF - cnt c -> all_bytes d ->
    let c1 := set_buf c (firstn (cnt c) (rb c) ++ d ++ skipn (cnt c + length d) (rb c))
                      (head c) (cnt c + length d) in
    buf_ok c1 /\ pending c1 = pending c ++ d.
  Proof.
    intros (H1 & H2 & H3) Hh Hd Hdb c1.
    assert (Hf : length (firstn (cnt c) (rb c)) = cnt c) by (rewrite firstn_length; lia).
    split.
    - unfold buf_ok, c1; cbn. repeat split.
      + rewrite !app_length, Hf, skipn_length. lia.
      + lia.
      + repeat apply all_bytes_app; auto; [now apply all_bytes_firstn|now apply all_bytes_skipn].
    - unfold pending, c1, set_buf; cbn. rewrite Hh, app_assoc.
      rewrite sub_app_l by (rewrite app_length; lia).
      rewrite sub_all by (rewrite app_length; lia). reflexivity.
  Qed.

  (** The second half of the read handler. *)
  Lemma after_recv_ok stream c : buf_ok c -> need_proxy c = false -> closed c = None ->
    active c = ReadW -> stream = framed (out c) ++ pending c -> Forall legal (out c) ->
    exists c',
      (do (rv2, c3) <- conn_check_next_req c;
       match rv2 with Ready n => conn_respond served c3 n | _ => Ok c3 end) = Ok c' /\
      Inv stream c'.
  Proof.
    intros Hb Hnp Hcl Ha Hst Hleg.
    destruct (ccnr_ok c Hb Hcl) as (rv & c2 & E & (G1 & G2 & G3 & G4 & G5) & H).
    rewrite E. cbn [rbind]. destruct rv as [| |n].
    - exists c2. split; auto. destruct H as [H1 H2]. unfold Inv. rewrite H1, G1, G2.
      rewrite G5 in *. auto.
    - exists c2. split; auto. destruct H as (H1 & H2 & H3). unfold Inv. rewrite H1, G1, G2, G3, Ha.
      rewrite G5 in *. auto 10.
    - destruct H as (-> & H2 & a & b & t & Ep & ->).
      destruct (conn_respond_ok stream c a b t Hb Hnp Hcl Hst Hleg Ep H2) as (c' & E' & I & _).
      eauto.
  Qed.

  Lemma inv_read_room stream c : Inv stream c -> closed c = None -> active c = ReadW ->
    cnt c < TCP_READBUF.
  Proof.
    intros (Hb & _ & _ & _ & Hc) Hcl Ha. rewrite Hcl, Ha in Hc. destruct Hc as [_ Hi].
    pose proof (pending_length c Hb) as Hl.
    assert (N.of_nat TCP_READBUF = 3840%N) by (vm_compute; reflexivity).
    destruct (pending c) as [|a [|b t]]; cbn [incomplete length] in *; lia.
  Qed.

  (** The invariant while the PROXY header is still awaited. *)
  Definition Inv0 (c : conn) : Prop :=
    buf_ok c /\ need_proxy c = true /\ head c = 0 /\ cnt c = 0 /\ active c = ReadW /\ out c = [].

  Lemma read_ok stream c rv : Inv stream c -> enabled c (EvRead rv) ->
    exists c', read_handler served proxy_parse c rv = Ok c' /\
      Inv (stream ++ match rv with RData d => d | _ => [] end) c'.
  Proof.
    intros I (Hcl & He).
    assert (Ha : active c = ReadW) by (destruct rv; tauto).
    pose proof (inv_read_room _ _ I Hcl Ha) as Hroom.
    unfold read_handler, rassert.
    replace (Nat.ltb (cnt c) TCP_READBUF) with true by (symmetry; apply Nat.ltb_lt; auto).
    pose proof I as (Hb & Hnp & Hst & Hleg & Hc). rewrite Hcl, Ha in Hc. destruct Hc as [Hh Hi].
    destruct rv as [| | |d].
    - eexists; split; [reflexivity|]. rewrite app_nil_r. unfold Inv; cbn. auto 10.
    - eexists; split; [reflexivity|]. rewrite app_nil_r. unfold Inv; cbn. auto 10.
    - eexists; split; [reflexivity|]. rewrite app_nil_r. exact I.
    - destruct He as (_ & Hd & Hdb).
      replace (Nat.ltb 0 (length d) && Nat.leb (length d) (TCP_READBUF - cnt c))%bool with true
        by (symmetry; apply andb_true_intro; split; [apply Nat.ltb_lt|apply Nat.leb_le]; lia).
      destruct (append_ok c d Hb Hh ltac:(lia) Hdb) as [Hb1 Hp1].
      set (c1 := set_buf c _ _ _) in *. cbv zeta.
      replace (need_proxy c1) with false by (symmetry; exact Hnp). cbn [rbind].
      apply after_recv_ok; auto.
      rewrite Hp1, Hst. unfold c1; cbn. now rewrite app_assoc.
  Qed.

  Lemma read_proxy_ok c d : Inv0 c -> enabled c (EvRead (RData d)) ->
    exists c', read_handler served proxy_parse c (RData d) = Ok c' /\
      ((proxy_parse d = 0 /\ closed c' = Some ProxyFail /\ out c' = []) \/
       (0 < proxy_parse d /\ Inv (skipn (proxy_parse d) d) c')).
  Proof.
    intros (Hb & Hnp & Hh & Hn & Ha & Ho) (Hcl & _ & Hd & Hdb).
    unfold read_handler, rassert.
    replace (Nat.ltb (cnt c) TCP_READBUF) with true by (symmetry; apply Nat.ltb_lt; lia).
    replace (Nat.ltb 0 (length d) && Nat.leb (length d) (TCP_READBUF - cnt c))%bool with true
      by (symmetry; apply andb_true_intro; split; [apply Nat.ltb_lt|apply Nat.leb_le]; lia).
    destruct (append_ok c d Hb Hh ltac:(lia) Hdb) as [Hb1 Hp1].
    set (c1 := set_buf c _ _ _) in *. cbv zeta.
    replace (need_proxy c1) with true by (symmetry; exact Hnp). cbn [rbind].
    assert (Hp0 : pending c = []) by (unfold pending; rewrite Hn; reflexivity).
    assert (Hd1 : sub (rb c1) 0 (cnt c1) = d).
    { assert (E : pending c1 = d) by (rewrite Hp1, Hp0; reflexivity).
      unfold pending in E. replace (head c1) with 0 in E by (symmetry; exact Hh). exact E. }
    rewrite Hd1.
    assert (Hc1 : cnt c1 = length d) by (unfold c1; cbn; lia).
    pose proof (proxy_bound d) as Hpb.
    replace (Nat.leb (proxy_parse d) (cnt c1)) with true by (symmetry; apply Nat.leb_le; lia).
    destruct (Nat.eqb_spec (proxy_parse d) 0) as [E|E].
    - eexists. split; [reflexivity|]. left. cbn. auto.
    - cbn [rbind].
      set (c2 := set_buf _ _ _ _).
      assert (Hb2 : buf_ok c2).
      { destruct Hb1 as (B1 & B2 & B3). unfold buf_ok, c2; cbn in *. repeat split; auto. lia. }
      assert (Hp2 : pending c2 = skipn (proxy_parse d) d).
      { transitivity (skipn (proxy_parse d) (sub (rb c1) 0 (cnt c1))); [|now rewrite Hd1].
        unfold pending, c2, set_buf; cbn [rb head cnt]. unfold sub.
        rewrite skipn_firstn_comm, skipn_skipn_plus.
        replace (head c1) with 0 by (symmetry; exact Hh). rewrite Nat.add_0_l, Nat.add_0_r.
        reflexivity. }
      destruct (after_recv_ok (skipn (proxy_parse d) d) c2) as (c' & E' & I); auto.
      + rewrite Hp2. unfold c2, c1; cbn. rewrite Ho. reflexivity.
      + unfold c2, c1; cbn. rewrite Ho. constructor.
      + exists c'. split; auto. right. split; [lia|auto].
  Qed.

  (** All executions after the PROXY phase. *)
  Lemma run_inv es : forall stream c r, Inv stream c -> run served proxy_parse c es r ->
    exists c', r = Ok c' /\ Inv (stream ++ received es) c'.
  Proof.
    induction es as [|e es IH]; intros stream c r I R; inversion R as [|? ? ? c1 ? En St R'|? ? ? En St]; subst.
    - exists c. rewrite app_nil_r. auto.
    - destruct e as [rv|].
      + destruct (read_ok stream c rv I En) as (c2 & E2 & I2).
        cbn [step] in St. rewrite E2 in St. injection St as <-.
        destruct (IH _ _ _ I2 R') as (c' & Er & Ir). exists c'. split; auto.
        rewrite <- app_assoc in Ir. destruct rv; exact Ir.
      + destruct En as [Hcl Ha]. destruct (check_ok stream c I Hcl Ha) as (c2 & E2 & I2 & _).
        cbn [step] in St. rewrite E2 in St. injection St as <-.
        destruct (IH _ _ _ I2 R') as (c' & Er & Ir). eauto.
    - destruct e as [rv|].
      + destruct (read_ok stream c rv I En) as (c2 & E2 & I2). cbn [step] in St. congruence.
      + destruct En as [Hcl Ha]. destruct (check_ok stream c I Hcl Ha) as (c2 & E2 & I2 & _).
        cbn [step] in St. congruence.
  Qed.

  Lemma closed_run c es r x : closed c = Some x -> run served proxy_parse c es r -> es = [] /\ r = Ok c.
  Proof. intros Hc R. inversion R as [|? ? ? c1 ? En St R'|? ? ? En St]; subst; auto; destruct En; congruence. Qed.

  (** What a run from a fresh connection with PROXY looks like. *)
  Lemma run_inv0 es : forall c r, Inv0 c -> run served proxy_parse c es r ->
    exists c', r = Ok c' /\
      (Inv0 c' /\ received es = [] \/
       (closed c' = Some ProxyFail /\ out c' = [] /\ proxy_parse (first_read es) = 0) \/
       (0 < proxy_parse (first_read es) /\ Inv (skipn (proxy_parse (first_read es)) (received es)) c')).
  Proof.
    induction es as [|e es IH]; intros c r I R; inversion R as [|? ? ? c1 ? En St R'|? ? ? En St]; subst.
    - exists c. split; auto.
    - destruct e as [rv|]; [|destruct En as [_ Ha]; destruct I as (_ & _ & _ & _ & Hr & _); congruence].
      destruct rv as [| | |d].
      + cbn [step] in St. unfold read_handler, rassert in St. destruct (Nat.ltb _ _); [|discriminate].
        injection St as <-. destruct (closed_run (close c PeerEof) _ _ PeerEof eq_refl R') as [-> ->].
        eexists; split; [reflexivity|]. left. split; auto.
      + cbn [step] in St. unfold read_handler, rassert in St. destruct (Nat.ltb _ _); [|discriminate].
        injection St as <-. destruct (closed_run (close c ReadError) _ _ ReadError eq_refl R') as [-> ->].
        eexists; split; [reflexivity|]. left. split; auto.
      + cbn [step] in St. unfold read_handler, rassert in St. destruct (Nat.ltb _ _); [|discriminate].
        injection St as <-. destruct (IH _ _ I R') as (c' & Er & H). exists c'. auto.
      + destruct (read_proxy_ok c d I En) as (c2 & E2 & H2).
        cbn [step] in St. rewrite E2 in St. injection St as <-. cbn [first_read received].
        destruct H2 as [(H1 & H2 & H3)|(H1 & H2)].
        * destruct (closed_run _ _ _ ProxyFail H2 R') as [-> ->]. eexists; split; [reflexivity|].
          right; left; auto.
        * destruct (run_inv _ _ _ _ H2 R') as (c' & Er & Ir). exists c'. split; auto.
          right; right. split; auto. rewrite skipn_app.
          replace (proxy_parse d - length d) with 0 by (pose proof (proxy_bound d); lia). exact Ir.
    - destruct e as [rv|]; [|destruct En as [_ Ha]; destruct I as (_ & _ & _ & _ & Hr & _); congruence].
      exfalso. assert (Hr : Nat.ltb (cnt c) TCP_READBUF = true).
      { destruct I as (_ & _ & _ & Hn & _). apply Nat.ltb_lt. rewrite Hn.
        apply Nat.ltb_lt. vm_compute. reflexivity. }
      destruct rv as [| | |d]; cbn [step] in St.
      1-3: unfold read_handler, rassert in St; rewrite Hr in St; discriminate.
      destruct (read_proxy_ok c d I En) as (c2 & E2 & H2). congruence.
  Qed.

  Lemma init_buf_ok p : buf_ok (conn_init p).
  Proof.
    unfold buf_ok, conn_init; cbn. split; [apply repeat_length|]. split; [lia|].
    apply Forall_forall. intros x Hx. apply repeat_spec in Hx. subst. reflexivity.
  Qed.

  Lemma init_inv : Inv [] (conn_init false).
  Proof.
    pose proof (init_buf_ok false) as Hb. unfold Inv. cbn.
    repeat split; auto; apply Hb.
  Qed.

  Lemma init_inv0 : Inv0 (conn_init true).
  Proof. pose proof (init_buf_ok true). unfold Inv0; cbn. auto 10. Qed.

  (** Main statement: for every schedule, the run is defined, and unless the
      PROXY header was bad or has not arrived, the requests processed are the
      frames at the start of the stream. *)
  Lemma run_main p es r : run served proxy_parse (conn_init p) es r ->
    exists c, r = Ok c /\ Forall legal (out c) /\
      ((p = true /\ out c = [] /\ (received es = [] \/ closed c = Some ProxyFail)) \/
       exists rest, request_stream p proxy_parse es = framed (out c) ++ rest /\
         match closed c with
         | None => incomplete rest /\ active c = ReadW \/ has_request rest /\ active c = CheckW
         | Some BadLength => illegal rest
         | Some _ => True
         end).
  Proof.
    intros R. destruct p.
    - destruct (run_inv0 _ _ _ init_inv0 R) as (c & -> & [(H1 & H2)|[(H1 & H2 & H3)|(H1 & H2)]]);
        exists c; (split; [reflexivity|]).
      + destruct H1 as (_ & _ & _ & _ & _ & Ho). rewrite Ho. split; [constructor|]. left; auto.
      + rewrite H2. split; [constructor|]. left; auto.
      + destruct H2 as (Hb & Hnp & Hst & Hleg & Hc). split; auto. right. exists (pending c).
        split; [exact Hst|]. destruct (closed c) as [[]|]; auto. destruct (active c); tauto.
    - destruct (run_inv _ _ _ _ init_inv R) as (c & -> & I).
      exists c. split; [reflexivity|].
      destruct I as (Hb & Hnp & Hst & Hleg & Hc). split; auto. right. exists (pending c).
      split; [exact Hst|]. destruct (closed c) as [[]|]; auto. destruct (active c); tauto.
  Qed.
End P.

(** ** Cutting a stream is unambiguous *)
Lemma frame_inj a b x y : legal a -> legal b -> frame a ++ x = frame b ++ y -> a = b /\ x = y.
Proof.
  intros [_ La] [_ Lb] H. unfold frame, be16 in H. cbn [app] in H.
  injection H as H1 H2 H3.
  assert (Hl : length a = length b) by lia.
  rewrite <- app_assoc in H3 || idtac.
  assert (Ha : firstn (length a) (a ++ x) = firstn (length a) (b ++ y)) by now rewrite H3.
  rewrite Hl in Ha at 2. rewrite !firstn_app, !firstn_all, !Nat.sub_diag in Ha. cbn in Ha.
  rewrite !app_nil_r in Ha. subst b. split; auto. now apply app_inv_head in H3.
Qed.

Lemma frame_has_request a x : legal a -> has_request (frame a ++ x).
Proof.
  intros [L1 L2]. unfold frame, be16. cbn [app has_request].
  rewrite get16_be16 by lia. rewrite app_length. lia.
Qed.

Lemma stuck_not_request r : incomplete r \/ illegal r -> ~ has_request r.
Proof. destruct r as [|a [|b t]]; cbn; lia. Qed.

Lemma framed_unique l1 : forall l2 r1 r2, Forall legal l1 -> Forall legal l2 ->
  incomplete r1 \/ illegal r1 -> incomplete r2 \/ illegal r2 ->
  framed l1 ++ r1 = framed l2 ++ r2 -> l1 = l2 /\ r1 = r2.
Proof.
  induction l1 as [|a l1 IH]; intros [|b l2] r1 r2 H1 H2 S1 S2 E.
  - auto.
  - exfalso. apply (stuck_not_request _ S1). cbn [framed map concat app] in E.
    change (framed []) with (@nil N) in E. cbn [app] in E. rewrite E. unfold framed; cbn [map concat].
    rewrite <- app_assoc. apply frame_has_request. now inversion H2.
  - exfalso. apply (stuck_not_request _ S2).
    change (framed []) with (@nil N) in E. cbn [app] in E. rewrite <- E. unfold framed; cbn [map concat].
    rewrite <- app_assoc. apply frame_has_request. now inversion H1.
  - unfold framed in E; cbn [map concat] in E. rewrite <- !app_assoc in E.
    inversion H1; inversion H2; subst.
    apply frame_inj in E; auto. destruct E as [-> E]. fold (framed l1) in E. fold (framed l2) in E.
    destruct (IH _ _ _ H4 H8 S1 S2 E) as [-> ->]. auto.
Qed.

Lemma framed_prefix_run l1 l2 r1 r2 : Forall legal l1 -> Forall legal l2 ->
  incomplete r2 \/ illegal r2 -> framed l1 ++ r1 = framed l2 ++ r2 -> exists l3, l2 = l1 ++ l3.
Proof.
  revert l2. induction l1 as [|a l1 IH]; intros [|b l2] H1 H2 S2 E.
  - now exists [].
  - now exists (b :: l2).
  - exfalso. apply (stuck_not_request _ S2).
    change (framed []) with (@nil N) in E. cbn [app] in E. rewrite <- E. unfold framed; cbn [map concat].
    rewrite <- app_assoc. apply frame_has_request. now inversion H1.
  - unfold framed in E; cbn [map concat] in E. rewrite <- !app_assoc in E.
    inversion H1; inversion H2; subst.
    apply frame_inj in E; auto. destruct E as [-> E].
    destruct (IH l2 H4 H8 S2 E) as [l3 ->]. now exists l3.
Qed.

(** Two connections that received the same stream, in whatever pieces, and
    both have nothing left to do, processed the same requests. *)
Lemma segmentation_main s1 s2 pp es1 es2 c1 c2 :
  run s1 pp (conn_init false) es1 (Ok c1) -> run s2 pp (conn_init false) es2 (Ok c2) ->
  (forall b, pp b <= length b) ->
  (closed c1 = None /\ active c1 = ReadW \/ closed c1 = Some BadLength) ->
  (closed c2 = None /\ active c2 = ReadW \/ closed c2 = Some BadLength) ->
  received es1 = received es2 -> out c1 = out c2 /\ closed c1 = closed c2.
Proof.
  intros R1 R2 Hp S1 S2 E.
  destruct (run_main _ _ Hp _ _ _ R1) as (c & [= <-] & L1 & [(? & _)|(r1 & E1 & H1)]); [discriminate|].
  destruct (run_main _ _ Hp _ _ _ R2) as (c & [= <-] & L2 & [(? & _)|(r2 & E2 & H2)]); [discriminate|].
  cbn [request_stream] in E1, E2.
  assert (T1 : incomplete r1 \/ illegal r1)
    by (destruct S1 as [[Sa Sb]|Sa]; rewrite Sa in H1; [rewrite Sb in H1; destruct H1 as [[? _]|[_ ?]]; [auto|discriminate]|auto]).
  assert (T2 : incomplete r2 \/ illegal r2)
    by (destruct S2 as [[Sa Sb]|Sa]; rewrite Sa in H2; [rewrite Sb in H2; destruct H2 as [[? _]|[_ ?]]; [auto|discriminate]|auto]).
  assert (EE : framed (out c1) ++ r1 = framed (out c2) ++ r2) by congruence.
  destruct (framed_unique _ _ _ _ L1 L2 T1 T2 EE) as [Eo Er]. split; auto. subst r2.
  destruct S1 as [[Sa Sb]|Sa], S2 as [[Sc Sd]|Sc]; rewrite Sa, Sc in *; auto; exfalso.
  - rewrite Sb in H1. destruct H1 as [[H1 _]|[_ H1]]; [|discriminate].
    destruct r1 as [|a [|b t]]; cbn in *; lia.
  - rewrite Sd in H2. destruct H2 as [[H2 _]|[_ H2]]; [|discriminate].
    destruct r1 as [|a [|b t]]; cbn in *; lia.
Qed.

(** Each turn of the check watcher processes exactly one more request. *)
Lemma check_progress served pp p es c :
  (forall b, pp b <= length b) ->
  run served pp (conn_init p) es (Ok c) -> enabled c EvCheck ->
  exists c' req, step served pp c EvCheck = Ok c' /\ out c' = out c ++ [req].
Proof.
  intros Hp R [Hcl Ha].
  assert (exists stream, Inv stream c) as [stream I].
  { destruct p.
    - destruct (run_inv0 _ _ Hp _ _ _ init_inv0 R) as (c' & [= <-] & [(H1 & H2)|[(H1 & H2 & H3)|(H1 & H2)]]).
      + destruct H1 as (_ & _ & _ & _ & Hr & _). congruence.
      + congruence.
      + eauto.
    - destruct (run_inv _ _ Hp _ _ _ _ init_inv R) as (c' & [= <-] & I). eauto. }
  destruct (check_ok served pp Hp stream c I Hcl Ha) as (c' & E & _ & req & Ho & _).
  exists c', req. auto.
Qed.
