From Coq Require Import Lia.
From Verif Require Import Base DnameModel DnameSpec PktModel PktSpec PktProofs PktProofs2 PktProofs3 PktProofs4 PktProps RandModel RandSpec CompModel CompSpec CompProofs CompProps
  RespModel RespSpec RespProofs RespProofs4 RespProofs5 RespProps MsgModel MsgSpec MsgProofs MsgProofs2 MsgProofs3 MsgProofs4 MsgProofs5 MsgProps CntModel CntSpec CntProofs CntProofs2.
Ltac Zify.zify_post_hook ::= idtac.
Local Open Scope nat_scope.

Section Parts.
  Variable cfg : pcfg.
  Variable chaos : bytes.
  Variable ckp : bytes -> bool * bytes.
  Variable draws : nat -> nat -> list nat.
  Variable dyn : edns -> N -> dynres.
  Variable chals : name -> list (N * bytes).
  Variable root : node.
  Notation process := (process_dns_query cfg chaos ckp draws dyn chals true root 1).
  Notation processc := (process_c cfg ckp chaos draws dyn chals true root 1).
  Definition v6c (v6 : bool) : list counter := if v6 then [V6] else [].

  (** the counters of the answer itself *)
  Definition settled (rv : rcode_rv) (t : txn) (p : resp) (c1 : list counter) : Prop :=
    match rv with
    | DECODE_FORMERR => p_rcode p = 1%N /\ p_tc p = false /\ c1 = [Formerr]
    | DECODE_NOTIMP => p_rcode p = 4%N /\ p_tc p = false /\ c1 = [Notimp]
    | DECODE_BADVERS => p_rcode p = 0%N /\ p_tc p = false /\ c1 = [Badvers]
    | DECODE_OK => (p_tc p = false /\ c1 = db_counts (p_rcode p) ++ (if (p_rcode p =? 0)%N then [Noerror] else [])) \/
                   (p_tc p = true /\ p_rcode p = 0%N /\ c_is_udp cfg = true /\ exists rc, c1 = (db_counts rc ++ [if e_req (t_edns t) then UdpEdnsTc else UdpTc]) ++ [Noerror])
    | _ => False
    end.
  Lemma parts v6 dso pkt st r cs : processc v6 dso pkt = Ok (st, r, cs) ->
    exists rv t off c0, decode_c cfg ckp dso pkt (txn_init cfg) = Ok (rv, t, off, c0) /\
    match rv with
    | DECODE_IGNORE => st = dso /\ r = None /\ cs = (v6c v6 ++ c0) ++ [Dropped]
    | DECODE_DSO => exists f c', dso_padding_c cfg dso f pkt = Ok (st, r, c') /\ cs = (v6c v6 ++ c0) ++ c'
    | _ => exists p c1 c2 f out n, settled rv t p c1 /\ st = dso /\ cs = (v6c v6 ++ c0) ++ c1 ++ c2 /\ (c2 = [UdpEdnsBig] \/ c2 = []) /\
        (c2 = [UdpEdnsBig] <-> e_req (t_edns t) = true /\ c_is_udp cfg = true /\ (512 < N.of_nat (length out))%N) /\
        r = Some ((firstn 2 pkt ++ [N.lor (N.lor (N.lor (N.land f 121) 128) (if p_aa p then 4 else 0)) (if p_tc p then 2 else 0); p_rcode p]%N ++
                   be16 (t_qdcount t) ++ be16 (p_an p) ++ be16 (p_ns p) ++ be16 n) ++ skipn 12 out)
    end.
  Proof.
    unfold process_c. destruct (Nat.leb _ _); [|discriminate]. cbn [rassert].
    destruct (decode_c _ _ _ _ _) as [[[[rv t] off] c0]|]; [|discriminate]. cbn [rbind]. intros H. exists rv, t, off, c0. split; [reflexivity|]. cbv zeta in H.
    assert (END : forall p c1 f1, settled rv t p c1 ->
      (do (out, arcount, c2) <-
               (if e_req (t_edns t) then
                  do out <- do_edns_output cfg dso (t_edns t) (p_out p) (p_scope p) rv;
                  Ok (out, p_ar p + 1, if c_is_udp cfg && (512 <? N.of_nat (length out)) then [UdpEdnsBig] else [])%N
                else Ok (p_out p, p_ar p, []));
             rassert (N.of_nat (length out) <=? 16382)%N
             (Ok (dso, Some ((firstn 2 pkt ++ [N.lor (N.lor (N.lor (N.land f1 121) 128) (if p_aa p then 4 else 0)) (if p_tc p then 2 else 0); p_rcode p]%N ++
                        be16 (t_qdcount t) ++ be16 (p_an p) ++ be16 (p_ns p) ++ be16 arcount) ++ skipn 12 out), (v6c v6 ++ c0) ++ c1 ++ c2))) = Ok (st, r, cs) ->
      exists p c1 c2 f out n, settled rv t p c1 /\ st = dso /\ cs = (v6c v6 ++ c0) ++ c1 ++ c2 /\ (c2 = [UdpEdnsBig] \/ c2 = []) /\
        (c2 = [UdpEdnsBig] <-> e_req (t_edns t) = true /\ c_is_udp cfg = true /\ (512 < N.of_nat (length out))%N) /\
        r = Some ((firstn 2 pkt ++ [N.lor (N.lor (N.lor (N.land f 121) 128) (if p_aa p then 4 else 0)) (if p_tc p then 2 else 0); p_rcode p]%N ++
                   be16 (t_qdcount t) ++ be16 (p_an p) ++ be16 (p_ns p) ++ be16 n) ++ skipn 12 out)).
    { intros p c1 f1 S. destruct (e_req (t_edns t)) eqn:RQ.
      - destruct (do_edns_output _ _ _ _ _ _) as [out|]; [|discriminate]. cbn [rbind]. destruct (_ <=? 16382)%N; [|discriminate]. cbn [rassert]. intros E. injection E as <- <- <-.
        exists p, c1, (if c_is_udp cfg && (512 <? N.of_nat (length out))%N then [UdpEdnsBig] else []), f1, out, (p_ar p + 1)%N. split; [exact S|]. split; [reflexivity|]. split; [reflexivity|].
        split; [destruct (_ && _)%bool; auto|]. split; [|reflexivity]. destruct (c_is_udp cfg); cbn [andb]; [|split; [discriminate|intros (_ & Q & _); discriminate Q]].
        destruct (N.ltb_spec 512 (N.of_nat (length out))); split; auto; try discriminate. intros (_ & _ & Q). lia.
      - cbn [rbind]. destruct (_ <=? 16382)%N; [|discriminate]. cbn [rassert]. intros E. injection E as <- <- <-. exists p, c1, [], f1, (p_out p), (p_ar p). split; [exact S|].
        split; [reflexivity|]. split; [reflexivity|]. split; [auto|]. split; [|reflexivity]. split; [discriminate|]. intros (Q & _). discriminate Q. }
    destruct rv.
    - injection H as <- <- <-. auto.
    - destruct (rd pkt 2) as [f1|]; [|discriminate H]. cbn [rbind] in H. eapply END; [|exact H]. cbn. auto.
    - destruct (rd pkt 2) as [f1|]; [|discriminate H]. cbn [rbind] in H. eapply END; [|exact H]. cbn. auto.
    - destruct (rd pkt 2) as [f1|]; [|discriminate H]. cbn [rbind] in H. eapply END; [|exact H]. cbn. auto.
    - destruct (rd pkt 2) as [f1|]; [|discriminate H]. cbn [rbind] in H. destruct (rd16 pkt 4) as [qd|]; [|discriminate H]. cbn [rbind] in H. destruct (qd =? 1)%N.
      + destruct (_ || _)%bool.
        * destruct (answer_c _ _ _ _ _ _ _ _ _) as [[p c1]|] eqn:EA; [|discriminate H]. cbn [rbind] in H. eapply END; [|exact H].
          unfold answer_c in EA. destruct (negb _); [|discriminate EA]. cbn [rassert] in EA. cbv zeta in EA. destruct (db_lookup _ _ _ _ _ _ _ _ _ _ _) as [s|]; [|discriminate EA]. cbn [rbind] in EA.
          match type of EA with context [andb (c_is_udp cfg) ?x] => destruct (andb (c_is_udp cfg) x) eqn:TC end; injection EA as <- <-; cbn [settled p_tc p_rcode].
          -- right. split; [reflexivity|]. split; [reflexivity|]. apply andb_true_iff in TC. destruct TC as [U _]. split; [exact U|]. exists (s_rcode s). reflexivity.
          -- left. split; reflexivity.
        * destruct (_ =? 3)%N. { destruct (emit _ _); [|discriminate H]. cbn [rbind] in H. eapply END; [|exact H]. left. split; reflexivity. }
          cbn [rbind] in H. eapply END; [|exact H]. left. split; reflexivity.
      + destruct (e_ck_recvd _); [|discriminate H]. cbn [rassert rbind] in H. eapply END; [|exact H]. left. split; reflexivity.
    - destruct (rd pkt 2) as [f1|]; [|discriminate H]. cbn [rbind] in H. destruct (dso_padding_c _ _ _ _) as [[[st' r'] c']|] eqn:ED; [|discriminate H]. cbn [rbind] in H. injection H as <- <- <-.
      exists (N.lor (N.land f1 121) 128), c'. auto.
  Qed.

End Parts.

  (** DSO responses and their counters *)
  Lemma dso_counts cfg dso f pkt st r c : dso_padding_c cfg dso f pkt = Ok (st, r, c) -> 2 <= length pkt ->
    (r = None /\ st = dso /\ c = [DsoProtoerr]) \/
    (exists m, r = Some m /\ ((nth 3 m 0%N = 1%N /\ st = dso /\ c = [Formerr]) \/ (nth 3 m 0%N = 11%N /\ st = dso /\ c = [DsoTypeni]) \/ (nth 3 m 0%N = 0%N /\ st = true /\ c = if dso then [] else [DsoEstab]))).
  Proof.
    intros H L. unfold dso_padding_c in H. destruct (dso_c cfg dso f pkt) as [[[st0 r0] c0]|] eqn:E; [|discriminate H]. cbn [rbind] in H.
    assert (K : (r0 = None /\ st0 = dso /\ c0 = [DsoProtoerr]) \/ (exists fl rc b, r0 = Some (dso_hdr pkt fl rc ++ b) /\
       ((rc = 1%N /\ st0 = dso /\ c0 = [Formerr]) \/ (rc = 11%N /\ st0 = dso /\ c0 = [DsoTypeni]) \/ (rc = 0%N /\ st0 = true /\ c0 = if dso then [] else [DsoEstab])))).
    { unfold dso_c in E. destruct (rd16 pkt 4); [|discriminate E]. cbn [rbind] in E. destruct (rd16 pkt 6); [|discriminate E]. cbn [rbind] in E.
      destruct (rd16 pkt 8); [|discriminate E]. cbn [rbind] in E. destruct (rd16 pkt 10); [|discriminate E]. cbn [rbind] in E.
      destruct (c_is_udp cfg || _)%bool. { injection E as <- <- <-. right. exists f, 1%N, []. rewrite app_nil_r. auto. }
      destruct (rd16 pkt 0) as [id|]; [|discriminate E]. cbn [rbind] in E. destruct ((id =? 0)%N || _)%bool; [injection E as <- <- <-; auto|].
      destruct (rd16 pkt 12) as [dt|]; [|discriminate E]. cbn [rbind] in E. destruct ((dt =? 2)%N || _)%bool; [injection E as <- <- <-; auto|].
      destruct (rd16 pkt 14) as [dl|]; [|discriminate E]. cbn [rbind] in E. destruct (dso_tlvs _ _ _) as [at_|]; [|discriminate E]. cbn [rbind] in E.
      destruct (negb (Nat.eqb at_ _)); [injection E as <- <- <-; auto|].
      destruct (dt =? 1)%N.
      - destruct (negb (dl =? 8)%N); [injection E as <- <- <-; auto|]. destruct (rdn pkt 12 4); [|discriminate E]. cbn [rbind] in E. injection E as <- <- <-.
        right. exists f, 0%N. eexists. split; [reflexivity|]. auto 10.
      - injection E as <- <- <-. right. exists f, 11%N, []. rewrite app_nil_r. auto 10. }
    destruct K as [(-> & -> & ->)|(fl & rc & b & -> & K)]; [injection H as <- <- <-; auto|]. cbv zeta in H.
    destruct (Nat.leb _ 464); [|discriminate H]. cbn [rassert] in H. right.
    assert (NT : forall x, nth 3 ((dso_hdr pkt fl rc ++ b) ++ x) 0%N = rc) by (destruct pkt as [|a1 [|a2 rest]]; cbn in L; try lia; reflexivity).
    destruct (c_tcp_pad cfg).
    - destruct (negb (c_is_udp cfg)); [|discriminate H]. cbn [rassert] in H. destruct (Nat.leb _ _); [|discriminate H]. cbn [rassert] in H. destruct (Nat.eqb _ _); [|discriminate H]. cbn [rassert] in H.
      injection H as <- <- <-. eexists. split; [reflexivity|]. rewrite NT. destruct K as [(-> & K)|[(-> & K)|(-> & K)]]; auto.
    - injection H as <- <- <-. eexists. split; [reflexivity|]. specialize (NT []). rewrite app_nil_r in NT. rewrite NT. destruct K as [(-> & K)|[(-> & K)|(-> & K)]]; auto.
  Qed.
