(** C05-C07: decoding of received messages. *)
From Verif Require Import Base DnameModel DnameSpec DnameProofs PktModel PktSpec PktProofs PktProofs2 PktProofs3 PktProofs4.
Ltac Zify.zify_post_hook ::= idtac.

(** C05: whatever was received, of any length and content, over UDP or TCP,
    with any configuration and any cookie state: decoding reads only received
    bytes, meets no failed assertion, and ends in a decision; the response
    will start behind the header and not behind the end of the message. *)
Theorem C05_decode_total cfg ckp dso pkt :
  (forall d, length (snd (ckp d)) = 16) -> all_bytes pkt ->
  exists rv t off, decode_query cfg ckp dso pkt (txn_init cfg) = Ok (rv, t, off) /\
    12 <= off /\ (12 <= length pkt -> off <= length pkt).
Proof.
  intros HC HB. destruct (decode_query_ok cfg ckp HC dso pkt HB) as (rv & t & off & R & D).
  exists rv, t, off. split; [exact R|].
  destruct D as [(_ & _ & _ & ->)|(L & _ & LO & D)]; [split; lia|].
  destruct D as [(_ & _ & _ & ->)|(q & rv1 & FQ & _)]; [split; lia|]. inversion FQ; subst; lia.
Qed.

(** and the decision is the one the message calls for: drop when too short or
    a response; FORMERR when the announced question is not there; otherwise
    what the OPT record leads to, and then what opcode, question count and
    question type lead to.  (FORMERR in place of the latter: another record
    could not be skipped, or a second OPT record was found.) *)
Theorem C05_decision cfg ckp dso pkt :
  (forall d, length (snd (ckp d)) = 16) -> all_bytes pkt ->
  exists rv t off, decode_query cfg ckp dso pkt (txn_init cfg) = Ok (rv, t, off) /\
    ((length pkt < 12 \/ qr_set pkt = true) /\ rv = DECODE_IGNORE /\ t = txn_start cfg None /\ off = 12 \/
     12 <= length pkt /\ qr_set pkt = false /\ off <= length pkt /\
     ((~ (exists q o, first_question pkt q o) /\ rv = DECODE_FORMERR /\ t = txn_start cfg None /\ off = 12) \/
      exists q rv1, first_question pkt q off /\ opt_effect cfg ckp dso pkt off (txn_start cfg q) rv1 t /\
                (rv = rv1 /\ rv1 <> DECODE_OK \/
                 rv1 = DECODE_OK /\ (rv = DECODE_FORMERR \/ rv = opcode_verdict cfg pkt t)))).
Proof. intros HC HB. exact (decode_query_ok cfg ckp HC dso pkt HB). Qed.

(** For a standard message the decision is exact: the question is understood
    with its name folded to lower case, whatever follows the last record. *)
Theorem C05_standard_message cfg ckp dso id f1 f2 q o trail :
  (forall d, length (snd (ckp d)) = 16) ->
  length id = 2 -> all_bytes id -> (f1 < 128)%N -> (f2 < 256)%N -> question_ok q ->
  (forall x, o = Some x -> optrr_ok x) -> all_bytes trail ->
  let pkt := std_msg id f1 f2 q o trail in
  exists rv1 t, decode_query cfg ckp dso pkt (txn_init cfg) =
    Ok (match rv1 with DECODE_OK => opcode_verdict cfg pkt t | _ => rv1 end, t, 12 + length (question_wire q)) /\
    match o with
    | None => rv1 = DECODE_OK /\ t = txn_start cfg (Some q)
    | Some x => optrr_rel cfg ckp dso (txn_start cfg (Some q)) (o_size x) (o_ext x) (N.of_nat (length (opts_wire (o_opts x))))
                  (opts_wire (o_opts x) ++ trail) rv1 t
    end.
Proof. intros HC. now apply standard_ok. Qed.

(** C06: exactly the short packets and the responses are dropped, plus, on a
    TCP connection with an established DSO session, queries whose OPT record
    carries a keepalive option. *)
Theorem C06_not_a_query_is_dropped cfg ckp dso pkt :
  (forall d, length (snd (ckp d)) = 16) -> all_bytes pkt -> length pkt < 12 \/ qr_set pkt = true ->
  exists t off, decode_query cfg ckp dso pkt (txn_init cfg) = Ok (DECODE_IGNORE, t, off).
Proof.
  intros HC HB H. destruct (decode_query_ok cfg ckp HC dso pkt HB) as (rv & t & off & R & D).
  destruct D as [(_ & -> & _)|(L & Q & _)]; [eauto|]. exfalso. destruct H; [lia|congruence].
Qed.
Theorem C06_what_is_dropped cfg ckp dso pkt t off :
  (forall d, length (snd (ckp d)) = 16) -> all_bytes pkt ->
  decode_query cfg ckp dso pkt (txn_init cfg) = Ok (DECODE_IGNORE, t, off) ->
  length pkt < 12 \/ qr_set pkt = true \/ (c_is_udp cfg = false /\ dso = true).
Proof.
  intros HC HB E. destruct (decode_query_ok cfg ckp HC dso pkt HB) as (rv & t' & off' & R & D).
  rewrite E in R. injection R as <- -> ->.
  destruct D as [([?|?] & _)|(_ & _ & _ & [(_ & D & _)|(q & rv1 & _ & OE & D)])]; auto; [discriminate D|].
  destruct D as [[<- _]|[_ [D|D]]]; [|discriminate D|].
  - apply opt_effect_rv in OE. destruct OE as [D|[D|[D|(_ & D)]]]; try discriminate D. auto.
  - exfalso. unfold opcode_verdict in D.
    repeat match goal with H : context [if ?c then _ else _] |- _ => destruct c end; discriminate D.
Qed.

(** C07: the option handler accepts exactly the well-formed options, wherever
    the option lies in the message. *)
Theorem C07_client_subnet_exact pre opt rest e :
  all_bytes opt -> length (e_v4 e) = 4 -> length (e_v6 e) = 16 -> length (e_ck_output e) = 16 ->
  exists rv e', handle_edns_client_subnet (pre ++ opt ++ rest) e (length opt) (length pre) = Ok (rv, e') /\
    (rv = DECODE_OK <-> ecs_ok opt) /\ (rv = DECODE_FORMERR <-> ~ ecs_ok opt) /\
    forall family src addr, ecs_fields opt family src addr -> e' = ecs_result e family src addr.
Proof.
  intros HB W4 W6 WC. destruct (ecs_spec pre opt rest e HB) as [(f & s & ad & Q & R)|(Q & R)]; [repeat split; auto| |]; cbn in R; rewrite R.
  - do 2 eexists; split; [reflexivity|]. assert (ecs_ok opt) by (do 3 eexists; exact Q).
    split; [tauto|]. split; [split; [discriminate|tauto]|].
    intros f' s' ad' (E' & F' & _). destruct Q as (E & F & _). rewrite E in E'. unfold be16 in E'. cbn [app] in E'.
    injection E' as A1 A2 <- <-. f_equal.
    assert (f < 65536)%N by (destruct F as [[-> _]|[-> _]]; lia). assert (f' < 65536)%N by (destruct F' as [[-> _]|[-> _]]; lia).
    rewrite <- (get16_be16 f), A1, A2, get16_be16 by assumption. reflexivity.
  - do 2 eexists; split; [reflexivity|]. split; [split; [discriminate|tauto]|]. split; [tauto|].
    intros f s ad Q'. exfalso. apply Q. do 3 eexists; exact Q'.
Qed.

(** A query with a malformed client-subnet option is not answered: FORMERR
    (or dropped, when a keepalive option in a DSO session comes first). *)
Theorem C07_bad_subnet_is_refused cfg ckp dso id f1 f2 q x trail opt :
  (forall d, length (snd (ckp d)) = 16) ->
  length id = 2 -> all_bytes id -> (f1 < 128)%N -> (f2 < 256)%N -> question_ok q -> optrr_ok x -> all_bytes trail ->
  c_ecs cfg = true -> opt_version (o_ext x) = 0%N -> In (8%N, opt) (o_opts x) -> ~ ecs_ok opt ->
  exists rv t off, decode_query cfg ckp dso (std_msg id f1 f2 q (Some x) trail) (txn_init cfg) = Ok (rv, t, off) /\
    (rv = DECODE_FORMERR \/ rv = DECODE_IGNORE /\ c_is_udp cfg = false /\ dso = true).
Proof.
  intros HC Hi Hib H1 H2 HQ HO HT CE HV HI NE.
  destruct (standard_ok cfg ckp HC dso id f1 f2 q (Some x) trail) as (rv1 & t & R & OR); auto; [intros ? [= <-]; exact HO|].
  cbn zeta in R. rewrite R. do 3 eexists; split; [reflexivity|].
  destruct HO as (Hs & He & HF & HL).
  assert (NOK : rv1 <> DECODE_OK).
  { intros ->. inversion OR; subst. rewrite Nat2N.id in *.
    rewrite firstn_app, Nat.sub_diag, firstn_all, firstn_O, app_nil_r in H3.
    apply opts_rel_list with (os := o_opts x) in H3; auto.
    apply NE. eapply opts_list_ecs in H3; eauto. }
  apply optrr_rel_rv in OR as RV. destruct RV as [->|[->|[->|(-> & D)]]]; auto; [congruence|].
  inversion OR; subst; try congruence. apply opts_rel_rv in H3. destruct H3 as [D|[D|(D & _)]]; discriminate D.
Qed.

Print Assumptions C05_decode_total.
Print Assumptions C05_decision.
Print Assumptions C05_standard_message.
Print Assumptions C06_not_a_query_is_dropped.
Print Assumptions C06_what_is_dropped.
Print Assumptions C07_client_subnet_exact.
Print Assumptions C07_bad_subnet_is_refused.

(** *** Concrete cases *)
Definition wit_cfg : pcfg :=
  {| c_ecs := true; c_nsid := [1; 2]%N; c_disable_cookies := false; c_disable_dso := false; c_is_udp := true; c_tcp_pad := false;
     c_udp_max := 1410%N; c_keepalive := 0%N; c_inactivity := 0%N; c_nocookie_max := 0%N |}.
Definition wit_ckp (d : bytes) : bool * bytes := (false, repeat 7%N 16).
Definition wit_q : question := {| q_name := [[87; 119; 119]; [69; 120]]%N; q_type := 1%N; q_class := 1%N |}.
Definition wit_ecs : bytes := [0; 1; 20; 0; 192; 0; 16]%N.
Definition wit_bad_ecs : bytes := [0; 1; 20; 0; 192; 0; 17]%N.
Definition wit_opt (d : bytes) : optrr := {| o_size := 4096%N; o_ext := 32768%N; o_opts := [(12%N, [0%N]); (8%N, d); (3%N, [])] |}.
Definition wit_run d := decode_query wit_cfg wit_ckp false (std_msg [18; 52]%N 1 0 wit_q (Some (wit_opt d)) [9%N]) (txn_init wit_cfg).

Example C05_witness :
  exists t off, wit_run wit_ecs = Ok (DECODE_OK, t, off) /\ t_lqname t = dname [[119; 119; 119]; [101; 120]]%N true /\
    t_max t = 1410%N /\ off = 24 /\ e_out_bytes (t_edns t) = 28%N.
Proof. do 2 eexists. split; [vm_compute; reflexivity|]. vm_compute. auto. Qed.
Example C05_witness_hyps : question_ok wit_q /\ optrr_ok (wit_opt wit_ecs).
Proof.
  split.
  - split; [|cbn; lia]. split; [repeat constructor; cbn; try lia; vm_compute; reflexivity|]. apply Nat.leb_le; reflexivity.
  - repeat split; try (repeat constructor); vm_compute; try reflexivity.
Qed.
Example C06_witness : qr_set (std_msg [18; 52]%N 129 0 wit_q None []) = true /\ qr_set (std_msg [18; 52]%N 1 0 wit_q None []) = false.
Proof. split; reflexivity. Qed.
Example C07_witness :
  ecs_fields wit_ecs 1%N 20%N [192; 0; 16]%N /\ (exists t off, wit_run wit_bad_ecs = Ok (DECODE_FORMERR, t, off)).
Proof.
  split; [|do 2 eexists; vm_compute; reflexivity].
  split; [reflexivity|]. split; [left; split; [reflexivity|discriminate]|]. split; [reflexivity|].
  change (N.to_nat 20) with 20. cbn [length]. intros i Hi.
  assert (i = 20 \/ i = 21 \/ i = 22 \/ i = 23) as Q by lia. destruct Q as [->|[->|[->| ->]]]; reflexivity.
Qed.
