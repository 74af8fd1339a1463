From Coq Require Import Lia.
From Verif Require Import Base DnameModel DnameSpec PktModel PktSpec PktProofs RandModel CompModel RespModel MsgModel CntModel CntSpec.
Local Open Scope nat_scope.

Definition drop_c {A} (x : res (A * list counter)) : res A := do (a, _) <- x; Ok a.

Ltac unres :=
  repeat (cbv beta iota zeta in *; cbn [rbind rassert drop_c fst snd] in *;
    match goal with
    | H : Ok _ = Ok _ |- _ => injection H; clear H; intros; subst
    | H : UB = Ok _ |- _ => discriminate H
    | H : rbind ?x _ = Ok _ |- _ => destruct x eqn:?; [|discriminate H]
    | H : rassert ?x _ = Ok _ |- _ => destruct x eqn:?; [|discriminate H]
    | H : (if ?x then _ else _) = Ok _ |- _ => destruct x eqn:?
    | H : (let (_, _) := ?x in _) = Ok _ |- _ => destruct x eqn:?
    | H : (match ?x with _ => _ end) = Ok _ |- _ => destruct x eqn:?
    end).

Section Same.
  Variable cfg : pcfg.
  Variable ckp : bytes -> bool * bytes.

  Lemma same_cookie pkt e l off : drop_c (cookie_c ckp pkt e l off) = handle_edns_cookie ckp pkt e l off.
  Proof.
    unfold cookie_c, handle_edns_cookie. destruct (_ && _)%bool; [reflexivity|]. destruct (rdn pkt off l) as [d|]; [|reflexivity]. cbn [rbind].
    destruct (ckp d) as [v o]. destruct (wr _ _ _); reflexivity.
  Qed.
  Lemma same_option dso pkt e c l off : drop_c (option_c cfg ckp dso pkt e c l off) = handle_edns_option cfg ckp dso pkt e c l off.
  Proof.
    unfold option_c, handle_edns_option. destruct (c =? EDNS_ECS)%N. { destruct (c_ecs cfg); [|reflexivity]. destruct (handle_edns_client_subnet _ _ _ _) as [[? ?]|]; reflexivity. }
    destruct (c =? EDNS_NSID)%N. { destruct (Nat.eqb l 0); reflexivity. }
    destruct (c =? EDNS_KEEPALIVE)%N. { destruct (_ && _)%bool; reflexivity. }
    destruct (c =? EDNS_PADDING)%N; [reflexivity|]. destruct (c =? EDNS_COOKIE)%N; [|reflexivity].
    destruct (_ && _)%bool; [apply same_cookie|reflexivity].
  Qed.
  Lemma same_options dso pkt : forall fuel e l off, drop_c (options_c cfg ckp fuel dso pkt e l off) = handle_edns_options cfg ckp fuel dso pkt e l off.
  Proof.
    induction fuel as [|fuel IH]; intros e l off; [reflexivity|]. cbn [options_c handle_edns_options].
    destruct (Nat.ltb l 4); [reflexivity|]. destruct (rd16 pkt off) as [c|]; [|reflexivity]. cbn [rbind]. destruct (rd16 pkt (off + 2)) as [n|]; [|reflexivity]. cbn [rbind]. cbv zeta.
    destruct (Nat.ltb _ _); [reflexivity|]. rewrite <- same_option. destruct (option_c _ _ _ _ _ _ _ _) as [[[rv e'] cs]|]; [|reflexivity]. cbn [rbind drop_c].
    destruct rv; try reflexivity. destruct (Nat.eqb _ 0); [reflexivity|]. rewrite <- IH. destruct (options_c _ _ _ _ _ _ _ _) as [[[? ?] ?]|]; reflexivity.
  Qed.
  Lemma same_optrr dso pkt t off : drop_c (optrr_c cfg ckp dso pkt t off) = parse_optrr cfg ckp dso pkt t off.
  Proof.
    unfold optrr_c, parse_optrr. destruct (Nat.leb _ _); [|reflexivity]. cbn [rassert]. destruct (rd pkt off) as [b|]; [|reflexivity]. cbn [rbind].
    destruct (b =? 0)%N; [|reflexivity]. cbn [rassert]. destruct (rd16 pkt (off + 1)) as [ty|]; [|reflexivity]. cbn [rbind]. destruct (ty =? 41)%N; [|reflexivity]. cbn [rassert]. cbv zeta.
    destruct (rd16 pkt (off + 3)) as [mx|]; [|reflexivity]. cbn [rbind]. destruct (rd32 pkt _) as [ex|]; [|reflexivity]. cbn [rbind]. destruct (rd16 pkt (off + 3 + 2 + 4)) as [rl|]; [|reflexivity]. cbn [rbind].
    destruct (_ =? 0)%N; [|reflexivity]. destruct (Nat.eqb _ 0); [reflexivity|]. destruct (Nat.ltb _ _); [reflexivity|]. rewrite <- same_options.
    destruct (options_c _ _ _ _ _ _ _ _) as [[[? ?] ?]|]; reflexivity.
  Qed.
  Lemma same_additional dso pkt : forall n t off seen, drop_c (additional_c cfg ckp n dso pkt t off seen) = parse_additional cfg ckp n dso pkt t off seen.
  Proof.
    induction n as [|n IH]; intros t off seen; [reflexivity|]. cbn [additional_c parse_additional].
    match goal with |- context [rbind ?x _] => destruct x as [[]|] end; cbn [rbind]; [| |reflexivity].
    - destruct seen; [reflexivity|]. rewrite <- same_optrr. destruct (optrr_c _ _ _ _ _ _) as [[[[rc t'] off'] cs]|]; [|reflexivity]. cbn [rbind drop_c].
      destruct rc; try reflexivity. rewrite <- IH. destruct (additional_c _ _ _ _ _ _ _ _) as [[[? ?] ?]|]; reflexivity.
    - destruct (parse_rr_minimal _ _ _) as [[o|]|]; try reflexivity. apply IH.
  Qed.
  Lemma same_query_rrs dso pkt t : drop_c (query_rrs_c cfg ckp dso pkt t) = parse_query_rrs cfg ckp dso pkt t.
  Proof.
    unfold query_rrs_c, parse_query_rrs. destruct (Nat.leb _ _); [|reflexivity]. cbn [rassert]. destruct (_ =? 0)%N; [|reflexivity]. cbn [rassert].
    destruct (rd16 pkt 4) as [qd|]; [|reflexivity]. cbn [rbind]. destruct (rd16 pkt 6) as [an|]; [|reflexivity]. cbn [rbind].
    destruct (rd16 pkt 8) as [ns|]; [|reflexivity]. cbn [rbind]. destruct (rd16 pkt 10) as [ar|]; [|reflexivity]. cbn [rbind].
    match goal with |- context [rbind ?x _] => destruct x as [[[t' o]|]|] end; cbn [rbind]; try reflexivity.
    destruct (parse_rrs_minimal _ _ _ _) as [[o1|]|]; try reflexivity. cbn [rbind].
    destruct (parse_rrs_minimal _ _ o1 _) as [[o2|]|]; try reflexivity. cbn [rbind].
    destruct (parse_rrs_minimal _ _ o2 _) as [[o3|]|]; try reflexivity. cbn [rbind]. rewrite <- same_additional.
    destruct (additional_c _ _ _ _ _ _ _ _) as [[[? ?] ?]|]; reflexivity.
  Qed.
  Lemma same_decode dso pkt t : drop_c (decode_c cfg ckp dso pkt t) = decode_query cfg ckp dso pkt t.
  Proof.
    unfold decode_c, decode_query. destruct (Nat.ltb _ _); [reflexivity|]. destruct (rd pkt 2) as [f|]; [|reflexivity]. cbn [rbind]. destruct (negb _); [reflexivity|].
    rewrite <- same_query_rrs. destruct (query_rrs_c _ _ _ _ _) as [[[[rc t'] off] cs]|]; [|reflexivity]. cbn [rbind drop_c]. destruct rc; try reflexivity. cbv zeta.
    destruct (_ =? 0)%N. { destruct (rd16 pkt 4) as [q|]; [|reflexivity]. cbn [rbind]. destruct (_ || _)%bool; [reflexivity|]. destruct (_ && _)%bool; reflexivity. }
    destruct (_ && _)%bool; reflexivity.
  Qed.
  Variable chaos : bytes.
  Variable draws : nat -> nat -> list nat.
  Variable dyn : edns -> N -> dynres.
  Variable chals : name -> list (N * bytes).
  Variable nc : bool.
  Variable root : node.
  Variable depth : nat.
  Lemma same_answer t out : drop_c (answer_c cfg draws dyn chals nc root depth t out) = answer_from_db cfg draws dyn chals nc root depth t out.
  Proof.
    unfold answer_c, answer_from_db. destruct (negb _); [|reflexivity]. cbn [rassert]. cbv zeta. destruct (db_lookup _ _ _ _ _ _ _ _ _ _ _); [|reflexivity]. cbn [rbind].
    unfold drop_c. cbn [rbind]. match goal with |- context [andb (c_is_udp cfg) ?x] => destruct (andb (c_is_udp cfg) x) end; reflexivity.
  Qed.
  Lemma same_dso dso f pkt : drop_c (dso_padding_c cfg dso f pkt) = handle_dso_with_padding cfg dso f pkt.
  Proof.
    unfold dso_padding_c, handle_dso_with_padding. assert (E : drop_c (dso_c cfg dso f pkt) = handle_dso cfg dso f pkt).
    { unfold dso_c, handle_dso. repeat (first [reflexivity | match goal with
        | |- context [rbind (rd16 ?a ?b) _] => destruct (rd16 a b); cbn [rbind] | |- context [rbind (dso_tlvs ?a ?b ?c) _] => destruct (dso_tlvs a b c); cbn [rbind]
        | |- context [rbind (rdn ?a ?b ?c) _] => destruct (rdn a b c); cbn [rbind] | |- context [if ?c then _ else _] => destruct c end]). }
    rewrite <- E. destruct (dso_c cfg dso f pkt) as [[[st r] c]|]; [|reflexivity]. cbn [drop_c rbind]. destruct r as [o|]; [|reflexivity].
    cbv zeta. destruct (Nat.leb _ 464); [|reflexivity]. cbn [rassert]. destruct (c_tcp_pad cfg); [|reflexivity].
    destruct (negb (c_is_udp cfg)); [|reflexivity]. cbn [rassert]. destruct (Nat.leb _ _); [|reflexivity]. cbn [rassert]. destruct (Nat.eqb _ _); reflexivity.
  Qed.
  Lemma same_process v6 dso pkt : drop_c (process_c cfg ckp chaos draws dyn chals nc root depth v6 dso pkt) = process_dns_query cfg chaos ckp draws dyn chals nc root depth dso pkt.
  Proof.
    unfold process_c, process_dns_query. destruct (Nat.leb _ _); [|reflexivity]. cbn [rassert]. rewrite <- same_decode.
    destruct (decode_c _ _ _ _ _) as [[[[rc t] off] cs]|]; [|reflexivity]. cbn [drop_c rbind]. cbv zeta.
    assert (END : forall rv p c1 f1, drop_c
      (do (out, arcount, c2) <-
               (if e_req (t_edns t) then
                  do out <- do_edns_output cfg dso (t_edns t) (p_out p) (p_scope p) rv;
                  Ok (out, p_ar p + 1, if c_is_udp cfg && (512 <? N.of_nat (length out)) then [UdpEdnsBig] else [])%N
                else Ok (p_out p, p_ar p, []));
             rassert (N.of_nat (length out) <=? 16382)%N
             (Ok (dso, Some ((firstn 2 pkt ++ [N.lor (N.lor f1 (if p_aa p then 4 else 0)) (if p_tc p then 2 else 0); p_rcode p]%N ++
                        be16 (t_qdcount t) ++ be16 (p_an p) ++ be16 (p_ns p) ++ be16 arcount) ++ skipn 12 out), ((if v6 then [V6] else []) ++ cs) ++ c1 ++ c2))) =
      (do (out, arcount) <-
               (if e_req (t_edns t) then
                  do out <- do_edns_output cfg dso (t_edns t) (p_out p) (p_scope p) rv;
                  Ok (out, p_ar p + 1)%N
                else Ok (p_out p, p_ar p));
             rassert (N.of_nat (length out) <=? 16382)%N
             (Ok (dso, Some ((firstn 2 pkt ++ [N.lor (N.lor f1 (if p_aa p then 4 else 0)) (if p_tc p then 2 else 0); p_rcode p]%N ++
                        be16 (t_qdcount t) ++ be16 (p_an p) ++ be16 (p_ns p) ++ be16 arcount) ++ skipn 12 out))))).
    { intros rv p c1 f1. destruct (e_req (t_edns t)).
      - destruct (do_edns_output _ _ _ _ _ _); [|reflexivity]. cbn [rbind]. destruct (_ <=? 16382)%N; reflexivity.
      - cbn [rbind]. destruct (_ <=? 16382)%N; reflexivity. }
    destruct rc; [reflexivity| | | | |]; (destruct (rd pkt 2) as [f1|]; [|reflexivity]); cbn [rbind]; try apply END.
    - destruct (rd16 pkt 4) as [qd|]; [|reflexivity]. cbn [rbind]. destruct (qd =? 1)%N.
      + destruct (_ || _)%bool.
        * rewrite <- same_answer. destruct (answer_c _ _ _ _ _ _ _ _ _) as [[p c1]|]; [|reflexivity]. cbn [rbind drop_c]. apply END.
        * destruct (_ =? 3)%N; [|apply END]. destruct (emit _ _); [|reflexivity]. cbn [rbind]. apply END.
      + destruct (e_ck_recvd _); [|reflexivity]. cbn [rassert rbind]. apply END.
    - rewrite <- same_dso. destruct (dso_padding_c _ _ _ _) as [[[? ?] ?]|]; reflexivity.
  Qed.
End Same.
