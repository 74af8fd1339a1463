(** C06-C08, C39, C44: whole responses. *)
From Coq Require Import Sorting.Permutation.
From Verif Require Import Base DnameModel DnameSpec DnameProofs PktModel PktSpec PktProofs PktProofs2 PktProofs3 PktProofs4 PktProps RandModel RandSpec CompModel CompSpec CompProofs CompProps
  RespModel RespSpec RespProofs RespProofs4 RespProofs5 RespProps MsgModel MsgSpec MsgProofs MsgProofs2 MsgProofs3 MsgProofs4 MsgProofs5.
Ltac Zify.zify_post_hook ::= idtac.

Notation process cfg chaos ckp draws dyn chals root := (process_dns_query cfg chaos ckp draws dyn chals true root 1).

Lemma head_bits (b : N) (aa tc : bool) : (b < 256)%N ->
  let f := (128 + 8 * ((b / 8) mod 16) + (if aa then 4 else 0) + (if tc then 2 else 0) + b mod 2)%N in
  N.testbit f 7 = true /\ ((f / 8) mod 16 = (b / 8) mod 16)%N /\ (f mod 2 = b mod 2)%N /\ N.testbit f 1 = tc /\ N.testbit f 2 = aa.
Proof.
  intros B f.
  pose proof (small_byte_check (fun b => forallb (fun aa : bool => forallb (fun tc : bool =>
    let f := (128 + 8 * ((b / 8) mod 16) + (if aa then 4 else 0) + (if tc then 2 else 0) + b mod 2)%N in
    N.testbit f 7 && ((f / 8) mod 16 =? (b / 8) mod 16) && (f mod 2 =? b mod 2) && Bool.eqb (N.testbit f 1) tc && Bool.eqb (N.testbit f 2) aa)%N%bool [true; false]) [true; false])
    ltac:(vm_compute; reflexivity) b B) as H. cbv beta in H.
  rewrite forallb_forall in H. specialize (H aa ltac:(destruct aa; cbn; auto)). rewrite forallb_forall in H. specialize (H tc ltac:(destruct tc; cbn; auto)).
  cbv zeta in H. fold f in H. apply andb_true_iff in H. destruct H as [H H5]. apply andb_true_iff in H. destruct H as [H H4].
  apply andb_true_iff in H. destruct H as [H H3]. apply andb_true_iff in H. destruct H as [H1 H2].
  apply N.eqb_eq in H2, H3. apply Bool.eqb_prop in H4, H5. auto.
Qed.
Lemma msg_head pkt off qd m : 2 <= length pkt -> firstn 2 (msg pkt off qd m) = firstn 2 pkt /\ 
  nth 2 (msg pkt off qd m) 0%N = (128 + 8 * opcode_of pkt + (if m_aa m then 4 else 0) + (if m_tc m then 2 else 0) + rd_bit pkt)%N /\
  nth 3 (msg pkt off qd m) 0%N = m_rcode m /\ ((qd < 65536)%N -> count_at (msg pkt off qd m) 4 = N.to_nat qd).
Proof.
  intros L. destruct pkt as [|a [|b r]]; cbn in L; try lia. split; [reflexivity|]. split; [reflexivity|]. split; [reflexivity|].
  intros Q. unfold count_at, msg, front, header, be16. cbn [firstn app nth]. now apply count_be16.
Qed.
Lemma dso_head cfg pkt rc body : 2 <= length pkt -> let r := dso_padded cfg (dso_msg pkt rc body) in
  firstn 2 r = firstn 2 pkt /\ nth 2 r 0%N = 176%N /\ nth 3 r 0%N = rc.
Proof. intros L. destruct pkt as [|a [|b r]]; cbn in L; try lia. repeat split. Qed.

(** what a DSO decision leads to *)
Lemma dso_result cfg dso pkt r st : all_bytes pkt -> 12 <= length pkt -> (c_tcp_pad cfg = true -> c_is_udp cfg = false) -> qr_set pkt = false -> opcode_of pkt = 6%N ->
  handle_dso_with_padding cfg dso (N.lor (N.land (nth 2 pkt 0%N) 121) 128) pkt = Ok (st, Some r) ->
  exists rc body, r = dso_padded cfg (dso_msg pkt rc body) /\ (rc < 16)%N /\ length body <= 12 /\ (c_is_udp cfg = true -> body = [] /\ rc = 1%N).
Proof.
  intros HB L12 WP HQ HO. pose proof (dso_flags pkt HB L12 HQ HO) as FL. rewrite (padding_ok cfg dso pkt HB L12 _ WP FL).
  destruct (handle_dso_ok cfg dso pkt HB L12 _ FL) as [[C ->]|(U & _ & [(t & d & xs & _ & ->)|[_ ->]])].
  - intros E. injection E as _ <-. exists 1%N, []. split; [reflexivity|]. split; [lia|]. split; [cbn; lia|]. auto.
  - destruct (t =? 1)%N; intros E; injection E as _ <-; (do 2 eexists; split; [reflexivity|]); (split; [lia|]); (split; [cbn; lia|]); congruence.
  - discriminate.
Qed.

Lemma resolves_rcode dyn chals b root q qt r : resolves dyn chals b root q qt r -> (r_rcode r < 16)%N.
Proof.
  induction 1 as [| |q qt z zn found IZ NF|]; cbn [r_rcode]; try lia; auto.
  unfold final. destruct (effective _ _) as [rs qt']. cbn [r_rcode]. destruct (match found with Some _ => true | None => _ end); lia.
Qed.
Lemma content_rcode cfg chaos dyn chals root pkt off rv t q m : content cfg chaos dyn chals root pkt off rv t q m -> (m_rcode m < 16)%N.
Proof.
  destruct rv; cbn [content]; try contradiction; try (intros (-> & _); lia).
  destruct q as [q|]; [|intros (-> & _); lia]. destruct ((q_class q =? 1) || (q_class q =? 255))%N%bool.
  - intros (r & HR & [(_ & RO & _)|(_ & _ & _ & _ & _ & -> & _)]); [|lia].
    destruct RO as (k & an' & ns' & ar' & e1 & e2 & _ & _ & _ & _ & _ & R1 & R2 & R3 & A1 & A2 & A3 & -> & _). eapply resolves_rcode; eauto.
  - destruct (q_class q =? 3)%N; intros (-> & _); lia.
Qed.
Lemma no_first_question cfg ckp dso pkt rv t off : (forall d, length (snd (ckp d)) = 16) -> all_bytes pkt ->
  decode_query cfg ckp dso pkt (txn_init cfg) = Ok (rv, t, off) ->
  (first_question pkt None off \/ None = @None question /\ off = 12 /\ rv = DECODE_FORMERR) -> forall q o, ~ first_question pkt (Some q) o.
Proof.
  intros HC HB ED FQ q o F.
  assert (Z : forall o', first_question pkt None o' -> False) by (intros o' F'; inversion F'; inversion F; congruence).
  destruct FQ as [FQ|(_ & -> & ->)]; [eauto|].
  destruct (decode_query_ok cfg ckp HC dso pkt HB) as (rv' & t' & off' & ED' & D). rewrite ED in ED'. injection ED' as <- <- <-.
  destruct D as [(_ & D & _)|(L12 & HQ & HO & [(NQ & _)|(q' & rv1 & F' & _)])]; [discriminate D|apply NQ; eauto|].
  inversion F' as [Z0 EQ1 EQ2|q2 rest NZ QO SK EQ1 EQ2]; [apply (Z 12); now constructor|].
  unfold question_wire in EQ2. rewrite !app_length in EQ2. cbn [length be16] in EQ2. lia.
Qed.

(** C06: what is too short for a message, or is itself a response, gets no
    response and leaves the connection as it was. *)
Theorem C06_no_response_to_responses cfg chaos ckp draws dyn chals root dso pkt :
  wf_server cfg chaos ckp draws dyn chals root -> all_bytes pkt -> length pkt <= 1024 ->
  length pkt < 12 \/ qr_set pkt = true ->
  process cfg chaos ckp draws dyn chals root dso pkt = Ok (dso, None).
Proof. intros WS HB HL H. now apply process_drop. Qed.

(** Every response carries the response bit, so that two servers cannot keep
    answering each other. *)
Theorem C06_responses_are_marked cfg chaos ckp draws dyn chals root dso pkt st r :
  wf_server cfg chaos ckp draws dyn chals root -> all_bytes pkt -> length pkt <= 1024 ->
  tame cfg dso pkt -> fits cfg dyn chals root pkt ->
  process cfg chaos ckp draws dyn chals root dso pkt = Ok (st, Some r) ->
  qr_set pkt = false /\ qr_set r = true.
Proof.
  intros WS HB HL HT HF E. destruct (process_ok _ _ _ _ _ _ _ WS dso pkt HB HL HT HF) as (rv & t & off & ED & D).
  destruct rv; [rewrite E in D; discriminate D| | | | |].
  5:{ destruct D as (HQ & HO & L12 & D). split; [exact HQ|]. rewrite E in D. symmetry in D.
      destruct (dso_result cfg dso pkt r st HB L12 (ws_pad _ _ _ _ _ _ _ WS) HQ HO D) as (rc & body & -> & _).
      destruct (dso_head cfg pkt rc body ltac:(lia)) as (_ & H2 & _). unfold qr_set. rewrite H2. reflexivity. }
  all: destruct D as (q & m & scope & HQ & LO & _ & _ & _ & _ & D & _); split; [exact HQ|]; rewrite E in D; injection D as _ ->.
  all: destruct (msg_head pkt off (t_qdcount t) m ltac:(lia)) as (_ & H2 & _); unfold qr_set; rewrite H2; unfold opcode_of, rd_bit.
  all: apply head_bits; apply (rd_nth pkt 2 HB); lia.
Qed.

(** C08: a response to anything but a DSO message has the ID, opcode and RD
    bit of the query, a response code and otherwise clear flags in the second
    byte; the question section is the query's, byte for byte; and its three
    sections hold exactly as many records as announced and fill the message
    to its end. *)
Theorem C08_header_and_counts cfg chaos ckp draws dyn chals root dso pkt st r :
  wf_server cfg chaos ckp draws dyn chals root -> all_bytes pkt -> length pkt <= 1024 ->
  tame cfg dso pkt -> fits cfg dyn chals root pkt ->
  (opcode_of pkt = 6%N -> c_disable_dso cfg = true) ->
  process cfg chaos ckp draws dyn chals root dso pkt = Ok (st, Some r) ->
  st = dso /\ firstn 2 r = firstn 2 pkt /\ opcode_of r = opcode_of pkt /\ rd_bit r = rd_bit pkt /\ (nth 3 r 0 < 16)%N /\
  exists off q, 12 <= off <= length pkt /\ off <= length r /\ sub r 12 (off - 12) = sub pkt 12 (off - 12) /\ counts_right r off /\
    match q with
    | Some q => first_question pkt (Some q) off /\ count_at r 4 = 1
    | None => off = 12 /\ count_at r 4 = 0 /\ forall q o, ~ first_question pkt (Some q) o
    end.
Proof.
  intros WS HB HL HT HF ND E.
  destruct (process_msg _ _ _ _ _ _ _ WS dso pkt HB HL HT HF st r E ND) as
    (rv & t & off & q & m & scope & ED & -> & ER & HQ & LO & FQ & QD & AS & GT & OI & CO & L16 & _).
  assert (LF : length (front pkt off (t_qdcount t) m) = off + length (m_body m)) by (apply front_len; exact LO).
  assert (LR : length r = off + length (m_body m) + length (opt_part m)) by (rewrite ER; unfold msg; rewrite app_length, LF; reflexivity).
  destruct (msg_head pkt off (t_qdcount t) m ltac:(lia)) as (H1 & H2 & H3 & H4). rewrite <- ER in H1, H2, H3, H4.
  assert (B2 : (nth 2 pkt 0 < 256)%N) by (apply (rd_nth pkt 2 HB); lia).
  destruct (head_bits (nth 2 pkt 0%N) (m_aa m) (m_tc m) B2) as (K1 & K2 & K3 & _).
  split; [reflexivity|]. split; [exact H1|]. split; [unfold opcode_of; rewrite H2; exact K2|]. split; [unfold rd_bit; rewrite H2; exact K3|]. clear K1 K2 K3 B2 H1 H2.
  split; [rewrite H3; eapply content_rcode; exact CO|].
  exists off, q. split; [exact LO|]. split; [lia|]. split.
  { rewrite ER. unfold msg, sub, front. rewrite <- !app_assoc, skipn_app.
    assert (LH : length (header (firstn 2 pkt) (128 + 8 * opcode_of pkt + (if m_aa m then 4 else 0) + (if m_tc m then 2 else 0) + rd_bit pkt)%N (m_rcode m)
        (t_qdcount t) (m_an m) (m_ns m) (m_ar m + match m_opt m with Some _ => 1 | None => 0 end)%N) = 12) by (apply header_len; rewrite firstn_length; lia).
    rewrite skipn_all2 by lia. rewrite LH, Nat.sub_diag. cbn [app skipn].
    assert (LS : length (firstn (off - 12) (skipn 12 pkt)) = off - 12) by (rewrite firstn_length, skipn_length; lia).
    rewrite <- LS at 1. rewrite firstn_app, firstn_all, Nat.sub_diag. cbn [firstn]. apply app_nil_r. }
  split.
  { rewrite ER, QD. rewrite ER, QD in L16. eapply content_counts; [exact LO| |exact (ws_chaos _ _ _ _ _ _ _ WS)|exact CO|exact L16|].
    - destruct FQ as [FQ|[FQ _]]; auto.
    - intros o EO. pose proof (opt_len cfg dso rv t scope m o GT OI EO) as OL. pose proof (ws_nsid _ _ _ _ _ _ _ WS).
      destruct (c_tcp_pad cfg); lia. }
  rewrite QD in H4. destruct q as [q|].
  - split; [destruct FQ as [FQ|[FQ _]]; [exact FQ|discriminate FQ]|]. apply H4. lia.
  - split; [destruct FQ as [FQ|(_ & Q & _)]; [now inversion FQ|exact Q]|]. split; [apply H4; lia|].
    eapply no_first_question; [exact (ws_cookie _ _ _ _ _ _ _ WS)|exact HB|exact ED|exact FQ].
Qed.

(** ** Standard queries *)
Lemma std_facts id f1 f2 q o trail : std_ok id f1 f2 q o trail ->
  let pkt := std_msg id f1 f2 q o trail in
  all_bytes pkt /\ nth 2 pkt 0%N = f1 /\ qr_set pkt = false /\ 12 + length (question_wire q) <= length pkt /\ first_question pkt (Some q) (12 + length (question_wire q)) /\
  firstn 2 pkt = id.
Proof.
  intros (Hi & Hib & H1 & H2 & HQ & HO & HT & HL) pkt.
  assert (HB : all_bytes pkt) by (apply (std_bytes (fun _ => (false, repeat 0%N 16)) (fun _ => eq_refl)); auto; lia). split; [exact HB|].
  assert (LH : length (header id f1 f2 1 0 0 (add_count o)) = 12) by (now apply header_len).
  assert (EP : pkt = header id f1 f2 1 0 0 (add_count o) ++ question_wire q ++ add_wire o ++ trail) by reflexivity.
  destruct id as [|i0 [|i1 [|? ?]]]; try discriminate Hi.
  assert (N2 : nth 2 pkt 0%N = f1) by reflexivity. split; [exact N2|]. split.
  { unfold qr_set. rewrite N2. destruct (N.testbit f1 7) eqn:E; [|reflexivity].
    exfalso. assert (H : N.shiftr f1 7 = 0%N) by (rewrite N.shiftr_div_pow2; apply N.div_small; exact H1).
    rewrite <- (N.add_0_l 7), <- N.shiftr_spec, H, N.bits_0 in E by lia. discriminate E. }
  split; [rewrite EP, !app_length, LH; lia|]. split; [|reflexivity].
  apply fq_some with (rest := add_wire o ++ trail); [discriminate|exact HQ|].
  rewrite EP, skipn_app, LH, Nat.sub_diag. rewrite skipn_all2 by lia. reflexivity.
Qed.
Lemma fq_unique pkt q off q' off' : first_question pkt (Some q) off -> first_question pkt (Some q') off' -> q = q' /\ off = off'.
Proof.
  intros F F'. inversion F as [|a ra NZ QO SK EA EO]; inversion F' as [|b rb NZ' QO' SK' EB EO'].
  rewrite SK in SK'. apply question_unique in SK'; auto. destruct SK' as [SK' _]. rewrite SK'. auto.
Qed.
Lemma std_opt_max cfg ckp dso q o trail rv t : c_is_udp cfg = true ->
  match o with
  | None => rv = DECODE_OK /\ t = txn_start cfg (Some q)
  | Some x => optrr_rel cfg ckp dso (txn_start cfg (Some q)) (o_size x) (o_ext x) (N.of_nat (length (opts_wire (o_opts x)))) (opts_wire (o_opts x) ++ trail) rv t
  end -> t_max t = client_limit cfg o.
Proof.
  intros U. destruct o as [x|]; [|intros (_ & ->); cbn; now rewrite U]. intros H. unfold client_limit. inversion H as [NV|EV SH|rv1 e' EV LE OS]; subst.
  - destruct (N.eqb_spec (opt_version (o_ext x)) 0); [contradiction|]. cbn. now rewrite U.
  - rewrite EV, N.eqb_refl. unfold opt_limits. now rewrite U.
  - rewrite EV, N.eqb_refl. unfold opt_limits. rewrite U. reflexivity.
Qed.
Lemma std_edns cfg ckp dso q o trail t : accepted cfg ckp dso q o trail t -> e_req (t_edns t) = match o with Some _ => true | None => false end.
Proof.
  destruct o as [x|]; [|intros ->; reflexivity]. cbn [accepted]. intros H. inversion H as [|EV SH|rv1 e' EV LE OS]; subst.
  cbn [set_edns t_edns]. assert (K : forall e R rv e', opts_rel cfg ckp dso e R rv e' -> e_req e' = e_req e).
  { clear. induction 1 as [e|e R HN NO|e o R rv e1 e2 HO OR ORS IH|e o R rv e1 HO OR NE]; auto.
    - rewrite IH. inversion OR; reflexivity.
    - inversion OR; reflexivity. }
  rewrite (K _ _ _ _ OS). unfold opt_limits. destruct (c_is_udp cfg); [|destruct dso]; reflexivity.
Qed.

Lemma std_kept cfg ckp dso q o trail t : accepted cfg ckp dso q o trail t -> t_qtype t = q_type q /\ t_qclass t = q_class q.
Proof.
  destruct o as [x|]; cbn [accepted]; [|intros ->; split; reflexivity]. intros H. inversion H; subst.
  unfold opt_limits. destruct (c_is_udp cfg); [|destruct dso]; split; reflexivity.
Qed.

(** C08: a standard query (opcode 0) whose OPT record has no fault always gets
    a response, and its content is: for classes IN and ANY the answer from the
    zone data, or over UDP its truncated form (see [db_content]); for class CH
    the fixed answer; for other classes REFUSED; NOTIMP for the meta types
    128..254.  It has an OPT record exactly when the query had one. *)
Theorem C08_standard_query_is_answered cfg chaos ckp draws dyn chals root dso id f1 f2 q o trail t :
  wf_server cfg chaos ckp draws dyn chals root -> std_ok id f1 f2 q o trail -> (f1 < 8)%N ->
  let pkt := std_msg id f1 f2 q o trail in
  let off := 12 + length (question_wire q) in
  tame cfg dso pkt -> fits cfg dyn chals root pkt -> accepted cfg ckp dso q o trail t ->
  exists m, process cfg chaos ckp draws dyn chals root dso pkt = Ok (dso, Some (msg pkt off 1 m)) /\
    match o with
    | None => m_opt m = None
    | Some x => exists scope pad rv, pad < 468 /\ rv <> DECODE_BADVERS /\ m_opt m = Some (response_opt cfg dso (t_edns t) scope rv pad)
    end /\
    (c_is_udp cfg = true -> t_max t = client_limit cfg o) /\
    (if (128 <=? q_type q) && (q_type q <=? 254) then plain 4 m
     else if (q_class q =? 1) || (q_class q =? 255) then db_content cfg dyn chals root pkt off t q m
     else if q_class q =? 3 then
       m_rcode m = 0 /\ m_aa m = false /\ m_tc m = false /\ m_an m = 1 /\ m_ns m = 0 /\ m_ar m = 0 /\ m_body m = chaos
     else plain 5 m)%N.
Proof.
  intros WS SO F8 pkt off HT HF AC. destruct (std_facts id f1 f2 q o trail SO) as (HB & N2 & HQ & LO & FQ & _). fold pkt in HB, N2, HQ, LO, FQ. fold off in LO, FQ.
  destruct SO as (Hi & Hib & H1 & H2 & HQO & HO & HTR & HL). fold pkt in HL.
  pose proof (ws_cookie _ _ _ _ _ _ _ WS) as WC.
  assert (ED : decode_query cfg ckp dso pkt (txn_init cfg) = Ok (opcode_verdict cfg pkt t, t, off)).
  { destruct (standard_ok cfg ckp WC dso id f1 f2 q o trail Hi Hib H1 H2 HQO HO HTR) as (rv1 & t1 & R & OR). fold pkt in R. fold off in R.
    destruct o as [x|].
    - destruct (optrr_fun cfg ckp dso _ _ _ _ _ _ _ _ _ OR AC) as [-> ->]. exact R.
    - destruct OR as [-> ->]. cbn [accepted] in AC. subst t. exact R. }
  assert (KE : t_qtype t = q_type q /\ t_qclass t = q_class q).
  { eapply std_kept; eauto. }
  destruct KE as [KT KC].
  assert (OV : opcode_verdict cfg pkt t = if ((128 <=? q_type q) && (q_type q <=? 254))%N%bool then DECODE_NOTIMP else DECODE_OK).
  { unfold opcode_verdict. assert (O0 : opcode_of pkt = 0%N) by (unfold opcode_of; rewrite N2, N.div_small by exact F8; reflexivity). rewrite O0, KT. cbn [N.eqb].
    assert (QD : qdcount_of pkt = 1%N) by (destruct id as [|? [|? [|? ?]]]; try discriminate Hi; reflexivity). rewrite QD. reflexivity. }
  destruct (process_ok _ _ _ _ _ _ _ WS dso pkt HB HL HT HF) as (rv & t' & off' & ED' & D). rewrite ED in ED'. injection ED' as E1 <- <-.
  assert (D' : exists q0 m scope, qr_set pkt = false /\ 12 <= off <= length pkt /\
          (first_question pkt q0 off \/ q0 = None /\ off = 12 /\ rv = DECODE_FORMERR) /\ t_qdcount t = (match q0 with Some _ => 1 | None => 0 end)%N /\
          asks t q0 /\ good_txn cfg dso t /\ process cfg chaos ckp draws dyn chals root dso pkt = Ok (dso, Some (msg pkt off (t_qdcount t) m)) /\
          opt_is cfg dso rv t scope (m_opt m) /\ content cfg chaos dyn chals root pkt off rv t q0 m).
  { rewrite <- E1 in D |- *. rewrite OV in D |- *. destruct ((128 <=? q_type q) && (q_type q <=? 254))%N%bool;
    destruct D as (q0 & m & scope & D1 & D2 & D3 & D4 & D5 & D6 & D7 & D8 & D9 & _); exists q0, m, scope; auto 12. }
  clear D. destruct D' as (q0 & m & scope & _ & _ & FQ0 & QD & _ & _ & EP & OI & CO).
  assert (Q0 : q0 = Some q).
  { destruct FQ0 as [F|(_ & _ & F)].
    - destruct q0 as [q0|]; [destruct (fq_unique _ _ _ _ _ FQ F) as [-> _]; reflexivity|]. exfalso. inversion F; inversion FQ; congruence.
    - exfalso. rewrite F in E1. rewrite OV in E1. destruct ((128 <=? q_type q) && (q_type q <=? 254))%N%bool; discriminate E1. }
  subst q0. rewrite QD in EP. exists m. split; [exact EP|]. split.
  { unfold opt_is in OI. rewrite (std_edns _ _ _ _ _ _ _ AC) in OI. destruct o as [x|]; [|exact OI]. destruct OI as (pad & LP & OI). exists scope, pad, rv.
    split; [exact LP|]. split; [|exact OI]. rewrite <- E1, OV. destruct ((128 <=? q_type q) && (q_type q <=? 254))%N%bool; discriminate. }
  split.
  { intros U. apply (std_opt_max cfg ckp dso q o trail DECODE_OK); [exact U|]. destruct o as [x|]; [exact AC|]. split; [reflexivity|exact AC]. }
  rewrite <- E1, OV in CO. destruct ((128 <=? q_type q) && (q_type q <=? 254))%N%bool; exact CO.
Qed.

(** ** Sizes *)
Lemma udp_limit_max cfg t : (udp_limit cfg t <= t_max t)%N.
Proof. unfold udp_limit. destruct (_ || _)%bool; lia. Qed.
(** everything but answers from the zone data and the CHAOS answer is small *)
Lemma small_size cfg chaos dyn chals root dso pkt off rv t q m scope : c_tcp_pad cfg = false -> length (c_nsid cfg) <= 128 ->
  12 <= off <= length pkt -> off <= 271 -> good_txn cfg dso t -> opt_is cfg dso rv t scope (m_opt m) ->
  content cfg chaos dyn chals root pkt off rv t q m -> (forall q', q = Some q' -> q_class q' <> 3%N) ->
  (N.of_nat (length (msg pkt off (t_qdcount t) m)) <= 512)%N \/
  (rv = DECODE_OK /\ exists q', q = Some q' /\ m_tc m = false /\ ((q_class q' =? 1) || (q_class q' =? 255) = true)%N%bool /\ db_content cfg dyn chals root pkt off t q' m).
Proof.
  intros HP HN LO L271 GT OI CO NC. pose proof (opt_part_len cfg dso rv t scope m GT OI HP) as OL. pose proof (opt_room_max cfg) as ORM.
  assert (SM : m_body m = [] -> (N.of_nat (length (msg pkt off (t_qdcount t) m)) <= 512)%N).
  { intros E. unfold msg. rewrite app_length, front_len, E by assumption. cbn [length]. lia. }
  destruct rv; cbn [content] in CO; try contradiction; try (left; apply SM; apply CO).
  destruct q as [q|]; [|left; apply SM; apply CO].
  destruct ((q_class q =? 1) || (q_class q =? 255))%N%bool eqn:EC.
  - destruct (m_tc m) eqn:TC.
    + left. apply SM. destruct CO as (r & _ & [(Q & _)|CO]); [congruence|]. apply CO.
    + right. split; [reflexivity|]. exists q. auto.
  - destruct (N.eqb_spec (q_class q) 3) as [C3|_]; [exfalso; exact (NC q eq_refl C3)|]. left. apply SM. apply CO.
Qed.

(** C39: over UDP, whatever was received, a response is never larger than the
    configured maximum -- except for the fixed answer to class CH, which is
    not looked at for truncation. *)
Theorem C39_udp_maximum cfg chaos ckp draws dyn chals root dso pkt st r :
  wf_server cfg chaos ckp draws dyn chals root -> all_bytes pkt -> length pkt <= 1024 ->
  tame cfg dso pkt -> fits cfg dyn chals root pkt -> c_is_udp cfg = true ->
  (forall q off, first_question pkt (Some q) off -> q_class q <> 3%N) ->
  process cfg chaos ckp draws dyn chals root dso pkt = Ok (st, Some r) ->
  (N.of_nat (length r) <= c_udp_max cfg)%N.
Proof.
  intros WS HB HL HT HF U NC E. assert (HP : c_tcp_pad cfg = false) by (destruct (c_tcp_pad cfg) eqn:P; [apply (ws_pad _ _ _ _ _ _ _ WS) in P; congruence|reflexivity]).
  pose proof (ws_udp _ _ _ _ _ _ _ WS) as WU. pose proof (ws_nsid _ _ _ _ _ _ _ WS) as WN.
  destruct (process_ok _ _ _ _ _ _ _ WS dso pkt HB HL HT HF) as (rv & t & off & ED & D).
  destruct rv; [rewrite E in D; discriminate D| | | | |].
  5:{ destruct D as (HQ & HO & L12 & D). rewrite E in D. symmetry in D.
      destruct (dso_result cfg dso pkt r st HB L12 (ws_pad _ _ _ _ _ _ _ WS) HQ HO D) as (rc & body & -> & _ & LB & _).
      unfold dso_padded. rewrite HP, app_nil_r. unfold dso_msg. rewrite app_length, header_len by (rewrite firstn_length; lia). lia. }
  all: destruct D as (q & m & scope & HQ & LO & FQ & QD & AS & GT & D & OI & CO & _); rewrite E in D; injection D as _ ->.
  all: assert (L271 : off <= 271) by (destruct FQ as [FQ|(_ & -> & _)]; [apply fq_off in FQ; lia|lia]).
  all: destruct (small_size cfg chaos dyn chals root dso pkt off _ t q m scope HP WN LO L271 GT OI CO) as [S|(_ & q' & Q1 & Q2 & Q3 & DB)];
    [intros q' ->; destruct FQ as [FQ|(FQ & _)]; [eapply NC; exact FQ|discriminate FQ]|lia|].
  all: destruct DB as (r0 & HR & [(_ & _ & LIM)|(Q & _)]); [|congruence]; specialize (LIM U).
  all: assert (QD1 : t_qdcount t = 1%N) by (rewrite QD, Q1; reflexivity); rewrite QD1.
  all: pose proof (udp_limit_max cfg t) as LT.
  all: destruct GT as (_ & _ & _ & _ & GM); destruct (GM U) as [GM'|(sz & GM')]; lia.
Qed.

(** and to a standard query it is within what the client said it can take,
    clamped to 512 from below and to the configured maximum from above (512
    without an OPT record or for an unknown EDNS version) *)
Theorem C39_udp_client_size cfg chaos ckp draws dyn chals root dso id f1 f2 q o trail st r :
  wf_server cfg chaos ckp draws dyn chals root -> std_ok id f1 f2 q o trail ->
  let pkt := std_msg id f1 f2 q o trail in
  tame cfg dso pkt -> fits cfg dyn chals root pkt -> c_is_udp cfg = true -> q_class q <> 3%N ->
  process cfg chaos ckp draws dyn chals root dso pkt = Ok (st, Some r) ->
  (N.of_nat (length r) <= client_limit cfg o)%N.
Proof.
  intros WS SO pkt HT HF U NC E. destruct (std_facts id f1 f2 q o trail SO) as (HB & N2 & HQ & LO & FQ & _). fold pkt in HB, N2, HQ, LO, FQ.
  destruct SO as (Hi & Hib & H1 & H2 & HQO & HO & HTR & HL). fold pkt in HL.
  assert (HP : c_tcp_pad cfg = false) by (destruct (c_tcp_pad cfg) eqn:P; [apply (ws_pad _ _ _ _ _ _ _ WS) in P; congruence|reflexivity]).
  pose proof (ws_udp _ _ _ _ _ _ _ WS) as WU. pose proof (ws_nsid _ _ _ _ _ _ _ WS) as WN.
  assert (CL : (512 <= client_limit cfg o)%N) by (unfold client_limit; destruct o; [destruct (_ =? 0)%N|]; lia).
  pose proof (ws_cookie _ _ _ _ _ _ _ WS) as WC.
  destruct (standard_ok cfg ckp WC dso id f1 f2 q o trail Hi Hib H1 H2 HQO HO HTR) as (rv1 & t1 & ED1 & OR). fold pkt in ED1.
  pose proof (std_opt_max cfg ckp dso q o trail rv1 t1 U OR) as TM.
  destruct (process_ok _ _ _ _ _ _ _ WS dso pkt HB HL HT HF) as (rv & t & off & ED & D). rewrite ED1 in ED. injection ED as ERV ET EO. rewrite ET in TM. clear ED1 ERV ET OR t1 EO.
  destruct rv; [rewrite E in D; discriminate D| | | | |].
  5:{ destruct D as (_ & HO6 & L12 & D). rewrite E in D. symmetry in D.
      destruct (dso_result cfg dso pkt r st HB L12 (ws_pad _ _ _ _ _ _ _ WS) HQ HO6 D) as (rc & body & -> & _ & LB & _).
      unfold dso_padded. rewrite HP, app_nil_r. unfold dso_msg. rewrite app_length, header_len by (rewrite firstn_length; lia). lia. }
  all: destruct D as (q0 & m & scope & _ & LO' & FQ' & QD & AS & GT & D & OI & CO & _); rewrite E in D; injection D as _ ->.
  all: assert (L271 : off <= 271) by (destruct FQ' as [F|(_ & -> & _)]; [apply fq_off in F; lia|lia]).
  all: destruct (small_size cfg chaos dyn chals root dso pkt off _ t q0 m scope HP WN LO' L271 GT OI CO) as [S|(_ & q' & Q1 & Q2 & Q3 & DB)];
    [intros q' ->; destruct FQ' as [F|(F & _)]; [destruct (fq_unique _ _ _ _ _ FQ F) as [<- _]; exact NC|discriminate F]|lia|].
  all: destruct DB as (r0 & HR & [(_ & _ & LIM)|(Q & _)]); [|congruence]; specialize (LIM U).
  all: assert (QD1 : t_qdcount t = 1%N) by (rewrite QD, Q1; reflexivity); rewrite QD1.
  all: pose proof (udp_limit_max cfg t) as LT.
  all: lia.
Qed.

(** Truncation: a response has the TC bit only over UDP, only to a question
    of class IN or ANY, and only when the complete answer, with the same OPT
    record, would be over the limit; it then has no records but that OPT
    record. *)
Theorem C39_truncation cfg chaos ckp draws dyn chals root dso pkt st r :
  wf_server cfg chaos ckp draws dyn chals root -> all_bytes pkt -> length pkt <= 1024 ->
  tame cfg dso pkt -> fits cfg dyn chals root pkt -> (opcode_of pkt = 6%N -> c_disable_dso cfg = true) ->
  process cfg chaos ckp draws dyn chals root dso pkt = Ok (st, Some r) -> N.testbit (nth 2 r 0%N) 1 = true ->
  exists q off m full rep rv t, decode_query cfg ckp dso pkt (txn_init cfg) = Ok (rv, t, off) /\ rv = DECODE_OK /\
    c_is_udp cfg = true /\ first_question pkt (Some q) off /\ r = msg pkt off 1 m /\
    count_at r 6 = 0 /\ count_at r 8 = 0 /\ count_at r 10 = (if m_opt m then 1 else 0) /\ m_body m = [] /\
    m_opt full = m_opt m /\
    resolves (dyn (t_edns t)) chals true root (map (map lower) (q_name q)) (q_type q) rep /\
    reply_ok same_name (t_max t) off (front pkt off 1 full) (m_an full) (m_ns full) (m_ar full) (m_rcode full) (m_aa full) rep /\
    (udp_limit cfg t < N.of_nat (length (msg pkt off 1 full)))%N.
Proof.
  intros WS HB HL HT HF ND E TC.
  destruct (process_msg _ _ _ _ _ _ _ WS dso pkt HB HL HT HF st r E ND) as
    (rv & t & off & q & m & scope & ED & -> & ER & HQ & LO & FQ & QD & AS & GT & OI & CO & L16 & _).
  destruct (msg_head pkt off (t_qdcount t) m ltac:(lia)) as (_ & H2 & _). rewrite <- ER in H2.
  assert (MT : m_tc m = true).
  { rewrite H2 in TC. assert (B2 : (nth 2 pkt 0 < 256)%N) by (apply (rd_nth pkt 2 HB); lia).
    destruct (head_bits (nth 2 pkt 0%N) (m_aa m) (m_tc m) B2) as (_ & _ & _ & K & _). unfold opcode_of, rd_bit in TC. rewrite K in TC. exact TC. }
  destruct rv; cbn [content] in CO; try contradiction; try (destruct CO as (_ & _ & Q & _); congruence).
  destruct q as [q|]; [|destruct CO as (_ & _ & Q & _); congruence].
  destruct ((q_class q =? 1) || (q_class q =? 255))%N%bool; [|destruct (q_class q =? 3)%N; destruct CO as (_ & _ & Q & _); congruence].
  destruct CO as (rep & HR & [(Q & _)|(_ & U & P1 & P2 & P3 & P4 & P5 & P6 & full & F1 & F2 & F3)]); [congruence|].
  destruct FQ as [FQ|(FQ & _)]; [|discriminate FQ]. rewrite QD in ER.
  destruct (msg_counts pkt off 1 m LO) as (C1 & C2 & C3); [rewrite P1; lia|rewrite P2; lia|rewrite P3; lia|]. rewrite <- ER in C1, C2, C3. rewrite P1 in C1. rewrite P2 in C2. rewrite P3 in C3.
  exists q, off, m, full, rep, DECODE_OK, t. split; [exact ED|]. split; [reflexivity|]. split; [exact U|]. split; [exact FQ|]. split; [exact ER|].
  split; [exact C1|]. split; [exact C2|]. split; [exact C3|]. split; [exact P5|]. split; [exact F1|]. split; [exact HR|]. split; [exact F2|exact F3].
Qed.

(** Over TCP (and UDP) a response fits the buffer. *)
Theorem C39_fits_buffer cfg chaos ckp draws dyn chals root dso pkt st r :
  wf_server cfg chaos ckp draws dyn chals root -> all_bytes pkt -> length pkt <= 1024 ->
  tame cfg dso pkt -> fits cfg dyn chals root pkt ->
  process cfg chaos ckp draws dyn chals root dso pkt = Ok (st, Some r) ->
  (N.of_nat (length r) <= 16382)%N.
Proof.
  intros WS HB HL HT HF E.
  destruct (process_ok _ _ _ _ _ _ _ WS dso pkt HB HL HT HF) as (rv & t & off & ED & D).
  destruct rv; [rewrite E in D; discriminate D| | | | |].
  5:{ destruct D as (HQ & HO6 & L12 & D). rewrite E in D. symmetry in D.
      destruct (dso_result cfg dso pkt r st HB L12 (ws_pad _ _ _ _ _ _ _ WS) HQ HO6 D) as (rc & body & -> & _ & LB & _).
      unfold dso_padded. rewrite app_length. assert (LM : 12 <= length (dso_msg pkt rc body) <= 24) by (unfold dso_msg; rewrite app_length, header_len by (rewrite firstn_length; lia); lia).
      destruct (c_tcp_pad cfg); [rewrite opt_wire_len; cbn [snd]; rewrite repeat_length|cbn [length]]; lia. }
  all: destruct D as (q & m & scope & HQ & LO & FQ & QD & AS & GT & D & OI & CO & L16 & _); rewrite E in D; injection D as _ ->; exact L16.
Qed.

(** With padding on, every response to a query with an OPT record has a
    multiple of 468 bytes. *)
Lemma optrr_req cfg ckp dso t a b c d rv t' : optrr_rel cfg ckp dso t a b c d rv t' -> e_req (t_edns t') = true.
Proof.
  assert (K : forall e R rv e', opts_rel cfg ckp dso e R rv e' -> e_req e' = e_req e).
  { clear. induction 1 as [e|e R HN NO|e o R rv e1 e2 HO OR ORS IH|e o R rv e1 HO OR NE]; auto.
    - rewrite IH. inversion OR; reflexivity.
    - inversion OR; reflexivity. }
  inversion 1 as [NV|EV SH|rv1 e' EV LE OS]; subst; [reflexivity| |cbn [set_edns t_edns]; rewrite (K _ _ _ _ OS)]; unfold opt_limits; destruct (c_is_udp cfg); [|destruct dso| |destruct dso]; reflexivity.
Qed.
Theorem C39_padding cfg chaos ckp draws dyn chals root dso id f1 f2 q x trail st r :
  wf_server cfg chaos ckp draws dyn chals root -> std_ok id f1 f2 q (Some x) trail -> (f1 < 8)%N ->
  let pkt := std_msg id f1 f2 q (Some x) trail in
  tame cfg dso pkt -> fits cfg dyn chals root pkt -> c_tcp_pad cfg = true ->
  process cfg chaos ckp draws dyn chals root dso pkt = Ok (st, Some r) ->
  (N.of_nat (length r) mod 468 = 0)%N.
Proof.
  intros WS SO F8 pkt HT HF P E. destruct (std_facts id f1 f2 q (Some x) trail SO) as (HB & N2 & HQ & LO & FQ & _). fold pkt in HB, N2, HQ, LO, FQ.
  destruct SO as (Hi & Hib & H1 & H2 & HQO & HO & HTR & HL). fold pkt in HL.
  pose proof (ws_cookie _ _ _ _ _ _ _ WS) as WC.
  destruct (standard_ok cfg ckp WC dso id f1 f2 q (Some x) trail Hi Hib H1 H2 HQO HO HTR) as (rv1 & t1 & ED1 & OR). fold pkt in ED1.
  apply optrr_req in OR.
  destruct (process_msg _ _ _ _ _ _ _ WS dso pkt HB HL HT HF st r E) as
      (rv & t & off & q0 & m & scope & ED & _ & ER & _ & _ & _ & _ & _ & GT & OI & CO & L16 & PD).
  { intros O6. exfalso. unfold opcode_of in O6. rewrite N2, N.div_small in O6 by exact F8. discriminate O6. }
  rewrite ED1 in ED. injection ED as _ ET _. apply PD; [exact P|]. unfold opt_is in OI. rewrite <- ET, OR in OI. destruct OI as (pad & _ & ->). discriminate.
Qed.

(** ** Client subnet *)
(** C07: an accepted client subnet comes back in the response with the same
    family, source length and address bytes (and scope 0 for source length 0),
    unless the response is FORMERR. *)
Theorem C07_subnet_echoed cfg chaos ckp draws dyn chals root dso id f1 f2 q x trail st r opt f s addr :
  wf_server cfg chaos ckp draws dyn chals root -> std_ok id f1 f2 q (Some x) trail ->
  let pkt := std_msg id f1 f2 q (Some x) trail in
  tame cfg dso pkt -> fits cfg dyn chals root pkt ->
  c_ecs cfg = true -> opt_version (o_ext x) = 0%N -> In (8%N, opt) (o_opts x) -> ecs_fields opt f s addr ->
  process cfg chaos ckp draws dyn chals root dso pkt = Ok (st, Some r) ->
  nth 3 r 0%N = 1%N \/
  exists p o scope, r = p ++ optrr_wire o /\ In (8%N, be16 f ++ [s; scope] ++ addr) (o_opts o) /\ (s = 0%N -> scope = 0%N) /\ (scope < 256)%N.
Proof.
  intros WS SO pkt HT HF CE HV HI HE E. destruct (std_facts id f1 f2 q (Some x) trail SO) as (HB & N2 & HQ & LO & FQ & _). fold pkt in HB, N2, HQ, LO, FQ.
  destruct SO as (Hi & Hib & H1 & H2 & HQO & HO & HTR & HL). fold pkt in HL.
  pose proof (ws_cookie _ _ _ _ _ _ _ WS) as WC.
  destruct (standard_ok cfg ckp WC dso id f1 f2 q (Some x) trail Hi Hib H1 H2 HQO HO HTR) as (rv1 & t1 & ED1 & OR). fold pkt in ED1.
  destruct (HO x eq_refl) as (Hs & He & HFO & HR).
  assert (ON : once 8 (o_opts x)).
  { set (pre := header id f1 f2 1 0 0 1 ++ question_wire q).
    assert (EP2 : pkt = pre ++ opt_header (o_size x) (o_ext x) (N.of_nat (length (opts_wire (o_opts x)))) ++ opts_wire (o_opts x) ++ trail).
    { unfold pkt, std_msg, pre, add_wire. rewrite optrr_wire_eq, <- !app_assoc. reflexivity. }
    destruct (HT _ _ _ _ _ EP2) as [_ K]; [unfold pre; rewrite app_length, header_len by exact Hi; lia|exact Hs|exact HR|].
    apply (K (o_opts x) []); [exact HFO|]. rewrite Nat2N.id, firstn_app, firstn_all, Nat.sub_diag, firstn_O. reflexivity. }
  assert (EC : rv1 = DECODE_OK -> e_respond_ecs (t_edns t1) = true /\ e_ecs_family (t_edns t1) = f /\ e_ecs_mask (t_edns t1) = s /\ ecs_addr (t_edns t1) = addr).
  { intros EO. inversion OR as [NV E1|EV SH E1|rv2 e' EV LE OS E1 E2]; try congruence. cbn [set_edns t_edns].
    rewrite Nat2N.id, firstn_app, firstn_all, Nat.sub_diag, firstn_O, app_nil_r in OS.
    eapply opts_ecs; [eapply opts_rel_list; [exact OS|exact HFO|reflexivity]|exact EO|exact CE|exact ON|exact HI|exact HE]. }
  pose proof (optrr_req _ _ _ _ _ _ _ _ _ _ OR) as RQ.
  pose proof (optrr_rel_rv _ _ _ _ _ _ _ _ _ _ OR) as RV1.
  assert (NB : rv1 <> DECODE_BADVERS).
  { intros B. inversion OR as [NV E1|EV SH E1|rv2 e' EV LE OS E1 E2]; try congruence. apply opts_rel_rv in OS. destruct OS as [D|[D|(D & _)]]; congruence. }
  clear OR.
  destruct (process_ok _ _ _ _ _ _ _ WS dso pkt HB HL HT HF) as (rv & t & off & ED & D). rewrite ED1 in ED. injection ED as ERV ET EO. rewrite ET in RQ, EC.
  assert (C1 : rv1 <> DECODE_OK -> nth 3 r 0%N = 1%N).
  { intros NO. assert (rv1 = DECODE_FORMERR \/ rv1 = DECODE_IGNORE) as [Q|Q] by (destruct RV1 as [Q|[Q|[Q|(Q & _)]]]; auto; contradiction).
    - rewrite Q in ERV. rewrite <- ERV in D. destruct D as (q0 & m & scope & _ & LO' & _ & _ & _ & _ & D & _ & CO & _). rewrite E in D. injection D as _ ->.
      destruct (msg_head pkt off (t_qdcount t) m ltac:(lia)) as (_ & _ & H3 & _). rewrite H3. apply CO.
    - rewrite Q in ERV. rewrite <- ERV, E in D. discriminate D. }
  destruct rv1; try (left; apply C1; discriminate). specialize (EC eq_refl). destruct EC as (K1 & K2 & K3 & K4). clear C1 RV1 NB.
  destruct rv; [rewrite E in D; discriminate D| | | | |].
  5:{ left. destruct D as (_ & HO6 & L12 & D). rewrite E in D. symmetry in D.
      pose proof (dso_flags pkt HB L12 HQ HO6) as FL. rewrite (padding_ok cfg dso pkt HB L12 _ (ws_pad _ _ _ _ _ _ _ WS) FL) in D.
      destruct (handle_dso_ok cfg dso pkt HB L12 _ FL) as [[_ EH]|(_ & CZ & _)].
      - rewrite EH in D. injection D as _ <-. apply dso_head. lia.
      - exfalso. unfold counts_zero in CZ. destruct id as [|? [|? [|? ?]]]; try discriminate Hi. discriminate CZ. }
  all: right; destruct D as (q0 & m & scope & _ & LO' & _ & _ & _ & GT & D & OI & CO & _); rewrite E in D; injection D as _ ->.
  all: unfold opt_is in OI; rewrite RQ in OI; destruct OI as (pad & _ & OI).
  all: eexists _, _, (if (s =? 0)%N then 0%N else (scope mod 256)%N); split; [unfold msg, opt_part; rewrite OI; reflexivity|].
  all: split; [unfold response_opt, base_opts; cbn [o_opts]; rewrite K1, K2, K3, K4; apply in_or_app; left; left; reflexivity|].
  all: split; [intros ->; reflexivity|]; destruct (s =? 0)%N; [lia|apply N.mod_lt; discriminate].
Qed.

(** ** DSO (RFC 8490) *)
Lemma header_pkt pkt : 12 <= length pkt -> firstn 8 (skipn 4 pkt) = repeat 0%N 8 ->
  pkt = header (firstn 2 pkt) (nth 2 pkt 0%N) (nth 3 pkt 0%N) 0 0 0 0 ++ skipn 12 pkt.
Proof.
  intros L. do 12 (destruct pkt as [|? pkt]; [cbn in L; lia|]). cbn [skipn firstn repeat]. intros H. injection H as -> -> -> -> -> -> -> ->. reflexivity.
Qed.
(** a DSO message without records *)
Definition dso_request (id : bytes) (f1 f2 : N) (body : bytes) : bytes := header id f1 f2 0 0 0 0 ++ body.
(** f1 of a DSO request: response bit clear, opcode 6 *)
Definition dso_f1 (f1 : N) : Prop := (48 <= f1 < 56)%N.

Lemma dso_request_facts cfg ckp dso id f1 f2 body : length id = 2 -> all_bytes id -> dso_f1 f1 -> (f2 < 256)%N -> all_bytes body -> c_disable_dso cfg = false ->
  let pkt := dso_request id f1 f2 body in
  all_bytes pkt /\ 12 <= length pkt /\ skipn 12 pkt = body /\ firstn 2 pkt = id /\ firstn 8 (skipn 4 pkt) = repeat 0%N 8 /\
  decode_query cfg ckp dso pkt (txn_init cfg) = Ok (DECODE_DSO, txn_init cfg, 12).
Proof.
  intros Hi Hib HF H2 HBo CD pkt. unfold dso_f1 in HF. destruct id as [|i0 [|i1 [|? ?]]]; try discriminate Hi.
  apply Forall_cons_iff in Hib. destruct Hib as [I0 Hib]. apply Forall_cons_iff in Hib. destruct Hib as [I1 _].
  assert (HB : all_bytes pkt).
  { unfold pkt, dso_request. apply Forall_app. split; [|exact HBo]. unfold header, be16. cbn [app].
    repeat (apply Forall_cons; [first [exact I0|exact I1|exact H2|unfold is_byte; lia|reflexivity]|]). apply Forall_nil. }
  assert (L12 : 12 <= length pkt) by (unfold pkt, dso_request; rewrite app_length, header_len by reflexivity; lia).
  split; [exact HB|]. split; [exact L12|]. split; [reflexivity|]. split; [reflexivity|]. split; [reflexivity|].
  unfold decode_query. destruct (Nat.ltb_spec (length pkt) 12); [lia|]. change (rd pkt 2) with (Ok f1). cbn [rbind].
  assert (F256 : (f1 < 256)%N) by lia. rewrite qr_bit by exact F256. rewrite opcode_bits by exact F256.
  assert (Q : N.testbit f1 7 = false /\ ((f1 / 8) mod 16 = 6)%N).
  { pose proof (small_byte_check (fun b => negb ((48 <=? b) && (b <? 56)) || (negb (N.testbit b 7) && ((b / 8) mod 16 =? 6)))%N%bool ltac:(vm_compute; reflexivity) f1 F256) as K.
    cbv beta in K. destruct (N.leb_spec 48 f1); [|lia]. destruct (N.ltb_spec f1 56); [|lia]. cbn [andb negb orb] in K. apply andb_true_iff in K.
    destruct K as [K1 K2]. apply N.eqb_eq in K2. apply negb_true_iff in K1. auto. }
  destruct Q as [-> Q].
  assert (PQ : parse_query_rrs cfg ckp dso pkt (txn_init cfg) = Ok (DECODE_OK, txn_init cfg, 12)).
  { unfold parse_query_rrs. apply Nat.leb_le in L12. rewrite L12. reflexivity. }
  rewrite PQ. cbn [rbind]. rewrite Q, CD. reflexivity.
Qed.

(** C44: the response to a DSO request.  Over UDP it is FORMERR.  Over TCP the
    connection is closed ([None]) unless the request has an ID and is a list
    of items that fills the message, of which the first is neither a retry
    delay (type 2) nor padding (type 3) nor a keepalive (type 1) with other
    than 8 bytes.  A keepalive establishes the session and is answered with
    one that announces no keepalive interval and the configured inactivity
    timeout; any other type gets DSOTYPENI (11) and changes nothing.
    Responses are padded to 468 bytes when padding is on. *)
Theorem C44_dso_request cfg chaos ckp draws dyn chals root dso id f1 f2 body :
  wf_server cfg chaos ckp draws dyn chals root -> c_disable_dso cfg = false ->
  length id = 2 -> all_bytes id -> dso_f1 f1 -> (f2 < 256)%N -> all_bytes body -> length (dso_request id f1 f2 body) <= 1024 ->
  let run := process cfg chaos ckp draws dyn chals root dso (dso_request id f1 f2 body) in
  let reply rc b := header id 176 rc 0 0 0 0 ++ b in
  let pad m := m ++ (if c_tcp_pad cfg then opt_wire (3, repeat 0 (464 - length m)) else [])%N in
  if c_is_udp cfg then run = Ok (dso, Some (reply 1%N []))
  else
    (forall t d xs, Forall opt_ok ((t, d) :: xs) -> body = tlvs_wire ((t, d) :: xs) -> id <> [0; 0]%N ->
       t <> 2%N -> t <> 3%N -> (t = 1%N -> length d = 8) ->
       run = if (t =? 1)%N then Ok (true, Some (pad (reply 0%N (opt_wire (1, [255; 255; 255; 255] ++ be32 (c_inactivity cfg)))%N)))
             else Ok (dso, Some (pad (reply 11%N [])))) /\
    ((forall t d xs, Forall opt_ok ((t, d) :: xs) -> body = tlvs_wire ((t, d) :: xs) ->
        id = [0; 0]%N \/ t = 2%N \/ t = 3%N \/ (t = 1%N /\ length d <> 8)) -> run = Ok (dso, None)).
Proof.
  intros WS CD Hi Hib HF H2 HBo HL run reply pad.
  destruct (dso_request_facts cfg ckp dso id f1 f2 body Hi Hib HF H2 HBo CD) as (HB & L12 & SK & ID & CZ & ED).
  assert (R : forall rc b, reply rc b = dso_msg (dso_request id f1 f2 body) rc b) by (intros rc b; unfold dso_msg; rewrite ID; reflexivity).
  assert (PP : forall m, pad m = dso_padded cfg m) by reflexivity. clearbody reply pad.
  destruct (dso_ok _ _ _ _ _ _ _ WS dso _ HB HL _ _ ED) as (HQ & HO6 & _ & _ & EP).
  pose proof (dso_flags _ HB L12 HQ HO6) as FL.
  unfold run. rewrite EP. rewrite (padding_ok cfg dso _ HB L12 _ (ws_pad _ _ _ _ _ _ _ WS) FL).
  assert (G : forall t d xs, dso_good (dso_request id f1 f2 body) t d xs <->
    (Forall opt_ok ((t, d) :: xs) /\ body = tlvs_wire ((t, d) :: xs) /\ id <> [0; 0]%N /\ t <> 2%N /\ t <> 3%N /\ (t = 1%N -> length d = 8))).
  { intros t d xs. unfold dso_good. rewrite SK, ID. reflexivity. }
  assert (UP : c_is_udp cfg = true -> c_tcp_pad cfg = false).
  { intros U. destruct (c_tcp_pad cfg) eqn:P; [|reflexivity]. rewrite (ws_pad _ _ _ _ _ _ _ WS P) in U. discriminate U. }
  destruct (handle_dso_ok cfg dso _ HB L12 _ FL) as [[C EH]|(U & _ & [(t & d & xs & GD & EH)|[ND EH]])]; rewrite EH.
  - destruct C as [U|C]; [|exfalso; apply C; exact CZ]. rewrite U. rewrite R. unfold dso_padded. rewrite (UP U), app_nil_r. reflexivity.
  - rewrite U. split.
    + intros t' d' xs' A1 A2 A3 A4 A5 A6. apply G in GD. destruct GD as (B1 & B2 & _).
      assert (TE : t = t').
      { rewrite B2, !tlvs_cons in A2. apply opt_wire_inj in A2; [|now apply Forall_inv in B1|now apply Forall_inv in A1]. destruct A2 as [A2 _]. congruence. }
      subst t'. destruct (t =? 1)%N; rewrite R, PP; reflexivity.
    + intros H. exfalso. apply G in GD. destruct GD as (B1 & B2 & B3 & B4 & B5 & B6). destruct (H t d xs B1 B2) as [Q|[Q|[Q|[Q1 Q2]]]]; auto.
  - rewrite U. split; [|intros _; reflexivity].
    intros t' d' xs' A1 A2 A3 A4 A5 A6. exfalso. apply (ND t' d' xs'). apply G. auto 10.
Qed.

(** and nothing else establishes a session *)
Theorem C44_session_only_by_keepalive cfg chaos ckp draws dyn chals root dso pkt st r :
  wf_server cfg chaos ckp draws dyn chals root -> all_bytes pkt -> length pkt <= 1024 ->
  process cfg chaos ckp draws dyn chals root dso pkt = Ok (st, r) -> st <> dso ->
  dso = false /\ st = true /\ c_is_udp cfg = false /\ c_disable_dso cfg = false /\
  exists id f1 f2 d xs, pkt = dso_request id f1 f2 (tlvs_wire ((1%N, d) :: xs)) /\ length id = 2 /\ id <> [0; 0]%N /\ dso_f1 f1 /\
    length d = 8 /\ Forall opt_ok ((1%N, d) :: xs).
Proof.
  intros WS HB HL E NE. destruct (dso_state _ _ _ _ _ _ _ WS dso pkt HB HL st r E NE) as (t & off & ED).
  destruct (dso_ok _ _ _ _ _ _ _ WS dso pkt HB HL _ _ ED) as (HQ & HO6 & L12 & CD & EP). rewrite EP in E.
  pose proof (dso_flags _ HB L12 HQ HO6) as FL. rewrite (padding_ok cfg dso _ HB L12 _ (ws_pad _ _ _ _ _ _ _ WS) FL) in E.
  destruct (handle_dso_ok cfg dso _ HB L12 _ FL) as [[_ EH]|(U & CZ & [(ty & d & xs & GD & EH)|[_ EH]])]; rewrite EH in E.
  - injection E as E1 _. congruence.
  - destruct (N.eqb_spec ty 1) as [T1|_]; injection E as E1 _; [|congruence]. rewrite T1 in GD. clear T1 EH. subst st.
    split; [destruct dso; [contradiction NE; reflexivity|reflexivity]|]. split; [reflexivity|]. split; [exact U|]. split; [exact CD|].
    destruct GD as (B1 & B2 & B3 & _ & _ & B6). exists (firstn 2 pkt), (nth 2 pkt 0%N), (nth 3 pkt 0%N), d, xs.
    split; [unfold dso_request; rewrite <- B2; now apply header_pkt|]. split; [rewrite firstn_length; lia|]. split; [exact B3|]. split.
    { unfold dso_f1, qr_set, opcode_of in *. assert (B : (nth 2 pkt 0 < 256)%N) by (apply (rd_nth pkt 2 HB); lia). revert B HQ HO6. clear. generalize (nth 2 pkt 0%N). intros b B Q O.
      pose proof (small_byte_check (fun b => N.testbit b 7 || negb ((b / 8) mod 16 =? 6) || ((48 <=? b) && (b <? 56)))%N%bool ltac:(vm_compute; reflexivity) b B) as K.
      cbv beta in K. rewrite Q, O in K. cbn [N.eqb Pos.eqb negb orb] in K. apply andb_true_iff in K. destruct K as [K1 K2]. apply N.leb_le in K1. apply N.ltb_lt in K2. lia. }
    split; [now apply B6|exact B1].
  - injection E as E1 _. congruence.
Qed.

Print Assumptions C06_no_response_to_responses.
Print Assumptions C06_responses_are_marked.
Print Assumptions C07_subnet_echoed.
Print Assumptions C08_header_and_counts.
Print Assumptions C08_standard_query_is_answered.
Print Assumptions C39_udp_maximum.
Print Assumptions C39_udp_client_size.
Print Assumptions C39_truncation.
Print Assumptions C39_fits_buffer.
Print Assumptions C39_padding.
Print Assumptions C44_dso_request.
Print Assumptions C44_session_only_by_keepalive.
