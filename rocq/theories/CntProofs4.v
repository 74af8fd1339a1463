From Coq Require Import Lia.
From Verif Require Import Base DnameModel DnameSpec PktModel PktSpec PktProofs PktProofs2 PktProofs3 PktProofs4 PktProps RandModel RandSpec CompModel CompSpec CompProofs CompProps
  RespModel RespSpec RespProofs RespProofs4 RespProofs5 RespProps MsgModel MsgSpec MsgProofs MsgProofs2 MsgProofs3 MsgProofs4 MsgProofs5 MsgProps CntModel CntSpec CntProofs CntProofs2 CntProofs3.
Ltac Zify.zify_post_hook ::= idtac.
Local Open Scope nat_scope.

Lemma resolves_three dyn chals b root q qt r : resolves dyn chals b root q qt r -> (r_rcode r = 0 \/ r_rcode r = 3 \/ r_rcode r = 5)%N.
Proof.
  induction 1 as [| |q qt z zn found IZ NF|]; cbn [r_rcode]; auto.
  unfold final. destruct (effective _ _) as [rs qt']. cbn [r_rcode]. destruct (match found with Some _ => true | None => _ end); auto.
Qed.
Lemma content_three cfg chaos dyn chals root pkt off t q m : content cfg chaos dyn chals root pkt off DECODE_OK t q m -> (m_rcode m = 0 \/ m_rcode m = 3 \/ m_rcode m = 5)%N.
Proof.
  cbn [content]. destruct q as [q|]; [|intros (-> & _); auto]. destruct ((q_class q =? 1) || (q_class q =? 255))%N%bool.
  - intros (r & HR & [(_ & RO & _)|(_ & _ & _ & _ & _ & -> & _)]); [|auto].
    destruct RO as (k & an' & ns' & ar' & e1 & e2 & _ & _ & _ & _ & _ & R1 & R2 & R3 & A1 & A2 & A3 & -> & _). eapply resolves_three; eauto.
  - destruct (q_class q =? 3)%N; intros (-> & _); auto.
Qed.

Lemma hdr12 (h out : bytes) : length h = 12 -> length (h ++ skipn 12 out) = Nat.max 12 (length out).
Proof. intros H. rewrite app_length, skipn_length, H. lia. Qed.

Section Facts.
  Variable cfg : pcfg.
  Variable chaos : bytes.
  Variable ckp : bytes -> bool * bytes.
  Variable draws : nat -> nat -> list nat.
  Variable dyn : edns -> N -> dynres.
  Variable chals : name -> list (N * bytes).
  Variable root : node.
  Notation process := (process_dns_query cfg chaos ckp draws dyn chals true root 1).
  Notation processc := (process_c cfg ckp chaos draws dyn chals true root 1).
  Hypothesis WS : wf_server cfg chaos ckp draws dyn chals root.
  Variable pkt : bytes.
  Hypothesis HB : all_bytes pkt.
  Hypothesis HLEN : length pkt <= 1024.

  Lemma erased v6 dso st r cs : processc v6 dso pkt = Ok (st, r, cs) -> process dso pkt = Ok (st, r).
  Proof. intros H. rewrite <- (same_process cfg ckp chaos draws dyn chals true root 1 v6 dso pkt), H. reflexivity. Qed.
  Lemma erased_decode dso rv t off c : decode_c cfg ckp dso pkt (txn_init cfg) = Ok (rv, t, off, c) -> decode_query cfg ckp dso pkt (txn_init cfg) = Ok (rv, t, off).
  Proof. intros H. rewrite <- (same_decode cfg ckp dso pkt (txn_init cfg)), H. reflexivity. Qed.

  Lemma tc_bit f (aa tc : bool) : N.testbit (N.lor (N.lor (N.lor (N.land f 121) 128) (if aa then 4 else 0)) (if tc then 2 else 0)) 1 = tc.
  Proof. rewrite !N.lor_spec, N.land_spec. change (N.testbit 121 1) with false. change (N.testbit 128 1) with false. rewrite andb_false_r. destruct aa, tc; reflexivity. Qed.

  (** a request without an answer *)
  Lemma dropped v6 dso st cs : processc v6 dso pkt = Ok (st, None, cs) ->
    exists rv t off c0, decode_c cfg ckp dso pkt (txn_init cfg) = Ok (rv, t, off, c0) /\
      ((rv = DECODE_IGNORE /\ cs = (v6c v6 ++ c0) ++ [Dropped]) \/ (rv = DECODE_DSO /\ opcode_of pkt = 6%N /\ c_disable_dso cfg = false /\ cs = (v6c v6 ++ c0) ++ [DsoProtoerr])).
  Proof.
    intros H. destruct (parts _ _ _ _ _ _ _ _ _ _ _ _ _ H) as (rv & t & off & c0 & ED & P). exists rv, t, off, c0. split; [exact ED|]. destruct rv.
    - left. destruct P as (_ & _ & ->). auto.
    - destruct P as (p & c1 & c2 & f & out & n & _ & _ & _ & _ & _ & Q); discriminate Q.
    - destruct P as (p & c1 & c2 & f & out & n & _ & _ & _ & _ & _ & Q); discriminate Q.
    - destruct P as (p & c1 & c2 & f & out & n & _ & _ & _ & _ & _ & Q); discriminate Q.
    - destruct P as (p & c1 & c2 & f & out & n & _ & _ & _ & _ & _ & Q); discriminate Q.
    - right. destruct P as (f & c' & EP & ->). destruct (dso_ok _ _ _ _ _ _ _ WS dso pkt HB HLEN t off (erased_decode _ _ _ _ _ ED)) as (_ & O & L & D & _).
      apply dso_counts in EP; [|lia]. destruct EP as [(_ & _ & ->)|(m & Q & _)]; [auto|discriminate Q].
  Qed.

  (** a request with an answer that is not about DSO *)
  Lemma replied v6 dso st r cs : tame cfg dso pkt -> fits cfg dyn chals root pkt -> (opcode_of pkt = 6%N -> c_disable_dso cfg = true) ->
    processc v6 dso pkt = Ok (st, Some r, cs) ->
    exists rv t off c0 q m scope p c1 c2, decode_c cfg ckp dso pkt (txn_init cfg) = Ok (rv, t, off, c0) /\ read_as cfg rv t c0 /\ st = dso /\
      r = msg pkt off (t_qdcount t) m /\ opt_is cfg dso rv t scope (m_opt m) /\ content cfg chaos dyn chals root pkt off rv t q m /\
      settled cfg rv t p c1 /\ m_rcode m = p_rcode p /\ m_tc m = p_tc p /\ cs = (v6c v6 ++ c0) ++ c1 ++ c2 /\
      c2 = (if e_req (t_edns t) && c_is_udp cfg && (512 <? N.of_nat (length r))%N then [UdpEdnsBig] else []).
  Proof.
    intros TA FI ND H. pose proof (erased _ _ _ _ _ H) as HP.
    destruct (process_msg _ _ _ _ _ _ _ WS dso pkt HB HLEN TA FI _ _ HP ND) as (rv & t & off & q & m & scope & ED & -> & ER & HQ & LO & FQ & QD & AS & GT & OI & CO & _ & _).
    destruct (parts _ _ _ _ _ _ _ _ _ _ _ _ _ H) as (rv' & t' & off' & c0 & ED' & P). pose proof (erased_decode _ _ _ _ _ ED') as ED2. rewrite ED in ED2. injection ED2 as <- <- <-.
    assert (RA : read_as cfg rv t c0).
    { destruct (read_decode _ _ _ _ _ _ _ _ ED') as [(-> & _)|(_ & _ & RA)]; [destruct P as (_ & Q & _); discriminate Q|exact RA]. }
    assert (K : exists p c1 c2 f out n, settled cfg rv t p c1 /\ dso = dso /\ cs = (v6c v6 ++ c0) ++ c1 ++ c2 /\ (c2 = [UdpEdnsBig] \/ c2 = []) /\
        (c2 = [UdpEdnsBig] <-> e_req (t_edns t) = true /\ c_is_udp cfg = true /\ (512 < N.of_nat (length out))%N) /\
        Some r = Some ((firstn 2 pkt ++ [N.lor (N.lor (N.lor (N.land f 121) 128) (if p_aa p then 4 else 0)) (if p_tc p then 2 else 0); p_rcode p]%N ++
                   be16 (t_qdcount t) ++ be16 (p_an p) ++ be16 (p_ns p) ++ be16 n) ++ skipn 12 out)).
    { destruct rv; try exact P; [destruct P as (_ & Q & _); discriminate Q|]. destruct CO. }
    destruct K as (p & c1 & c2 & f & out & n & S & _ & -> & C2 & C2' & Q). injection Q as Q.
    exists rv, t, off, c0, q, m, scope, p, c1, c2. split; [exact ED'|]. split; [exact RA|]. split; [reflexivity|]. split; [exact ER|]. split; [exact OI|]. split; [exact CO|]. split; [exact S|].
    assert (L2 : 2 <= length pkt) by lia.
    destruct (msg_head pkt off (t_qdcount t) m L2) as (_ & M2 & M3 & _). rewrite <- ER in M2, M3.
    assert (B2 : (nth 2 pkt 0 < 256)%N) by (apply (rd_nth pkt 2 HB); lia).
    destruct (head_bits (nth 2 pkt 0%N) (m_aa m) (m_tc m) B2) as (_ & _ & _ & TB & _). unfold opcode_of, rd_bit in M2. rewrite <- M2 in TB.
    assert (N2 : nth 2 r 0%N = N.lor (N.lor (N.lor (N.land f 121) 128) (if p_aa p then 4 else 0)) (if p_tc p then 2 else 0)).
    { rewrite Q. destruct pkt as [|a [|b rest]]; cbn in L2; try lia. reflexivity. }
    assert (N3 : nth 3 r 0%N = p_rcode p). { rewrite Q. destruct pkt as [|a [|b rest]]; cbn in L2; try lia. reflexivity. }
    assert (LR : length r = Nat.max 12 (length out)).
    { rewrite Q. clear -L2. destruct pkt as [|a [|b rest]]; cbn in L2; try lia.
      apply (hdr12 _ out). reflexivity. }
    split; [congruence|]. split; [rewrite <- TB, N2; apply tc_bit|]. split; [reflexivity|].
    assert (LL : (512 < N.of_nat (length out))%N <-> (512 < N.of_nat (length r))%N) by (rewrite LR; lia).
    destruct (e_req (t_edns t)), (c_is_udp cfg); cbn [andb]; try (destruct C2 as [C2|C2]; [|exact C2]; exfalso; apply C2' in C2; destruct C2 as (? & ? & _); discriminate).
    destruct (N.ltb_spec 512 (N.of_nat (length r))) as [G|G].
    - apply C2'. repeat split. now apply LL.
    - destruct C2 as [C2|C2]; [|exact C2]. exfalso. apply C2' in C2. destruct C2 as (_ & _ & C2). apply LL in C2. lia.
  Qed.
End Facts.
