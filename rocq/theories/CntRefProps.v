(** C66: concrete cases, and what the comments in the header file say that does not hold. *)
From Coq Require Import Lia.
From Verif Require Import Base DnameModel DnameSpec PktModel PktSpec PktProofs PktProofs2 PktProofs3 PktProofs4 PktProps RandModel RandSpec CompModel CompSpec CompProofs CompProps
  RespModel RespSpec RespProofs RespProofs4 RespProofs5 RespProps MsgModel MsgSpec MsgProofs MsgProofs2 MsgProofs3 MsgProofs4 MsgProofs5 MsgProps MsgRefProps CntModel CntSpec CntProofs CntProofs2 CntProofs3 CntProofs4 CntProps.
Ltac Zify.zify_post_hook ::= idtac.
Local Open Scope nat_scope.

Definition ex_counted cfg := counted cfg ex_chaos wit_ckp zero_draws ex_dyn no_chals z_root.
Definition counts_of (x : res (bool * option bytes * list counter)) : option (list counter) := match x with Ok (_, _, cs) => Some cs | UB => None end.

(** A query with client subnet and the flag DO, over UDP from an IPv6 address and over TCP *)
Example C66_witness : forall cfg, cfg = wit_cfg \/ cfg = tcp_cfg ->
  wf_server cfg ex_chaos wit_ckp zero_draws ex_dyn no_chals z_root /\ std_ok [18; 52]%N 1 0 wz_q (Some (wit_opt wit_ecs)) [9%N] /\
  plain_request cfg ex_dyn no_chals z_root (true, false, wz_pkt) /\
  counts_of (ex_counted cfg true false wz_pkt) = Some [V6; Edns; EdnsDo; EdnsClientsub; Noerror] /\
  history_c cfg wit_ckp ex_chaos zero_draws ex_dyn no_chals true z_root 1 [(true, false, wz_pkt); (false, false, wz_pkt)] = Ok [V6; Edns; EdnsDo; EdnsClientsub; Noerror; Edns; EdnsDo; EdnsClientsub; Noerror].
Proof.
  intros cfg C. destruct (C08_witness cfg C) as (WS & SO & TA & FI & _ & _). split; [exact WS|]. split; [exact SO|]. split.
  - destruct (std_facts _ _ _ _ _ _ SO) as (HB & _). destruct SO as (_ & _ & _ & _ & _ & _ & _ & HL). unfold plain_request. split; [exact HB|]. split; [exact HL|]. split; [exact TA|]. split; [exact FI|]. intros O. vm_compute in O. discriminate O.
  - destruct C as [-> | ->]; split; vm_compute; reflexivity.
Qed.
(** something that is too short, a cookie without and with server part, a bad one, a version that is unknown *)
Definition ck_opt (d : bytes) : optrr := {| o_size := 4096%N; o_ext := 0%N; o_opts := [(10%N, d)] |}.
Definition ck_pkt (d : bytes) : bytes := std_msg [18; 52]%N 1 0 wz_q (Some (ck_opt d)) [].
Definition valid_ckp (d : bytes) : bool * bytes := (Nat.eqb (length d) 16, repeat 7%N 16).
Example C66_cookie_witness : let run pkt := counts_of (process_c wit_cfg valid_ckp ex_chaos zero_draws ex_dyn no_chals true z_root 1 false false pkt) in
  run [1; 2; 3]%N = Some [Dropped] /\ run (ck_pkt (repeat 1%N 8)) = Some [Edns; CookieInit; Noerror] /\ run (ck_pkt (repeat 1%N 16)) = Some [Edns; CookieOk; Noerror] /\
  run (ck_pkt (repeat 1%N 17)) = Some [Edns; CookieBad; Noerror] /\ run (ck_pkt (repeat 1%N 9)) = Some [Edns; CookieFormerr; Formerr] /\
  run (std_msg [18; 52]%N 1 0 wz_q (Some {| o_size := 512%N; o_ext := 65536%N; o_opts := [] |}) []) = Some [Edns; Badvers].
Proof. split; [|split; [|split; [|split; [|split]]]]; vm_compute; reflexivity. Qed.
(** a DSO keepalive establishes a session; over UDP it is an error *)
Definition ka_pkt : bytes := dso_request [18; 52]%N 48 0 (tlvs_wire [(1, [0; 0; 0; 1; 0; 0; 0; 1])])%N.
Example C66_dso_witness : dso_f1 48 /\ counts_of (ex_counted tcp_cfg false false ka_pkt) = Some [DsoEstab] /\ counts_of (ex_counted tcp_cfg false true ka_pkt) = Some [] /\
  counts_of (ex_counted wit_cfg false false ka_pkt) = Some [Formerr].
Proof. split; [unfold dso_f1; lia|]. repeat split; vm_compute; reflexivity. Qed.

(** ** Comments that do not hold *)
(** src/dnspacket.h:62-66: the sum of the seven is not the number of requests.  A truncated answer with an error code counts twice (a name outside
    of all zones, for a client without a cookie under max_nocookie_response = 128), a DSO keepalive not at all *)
Definition long_q : question := {| q_name := [repeat 97%N 60; repeat 98%N 60]; q_type := 1%N; q_class := 1%N |}.
Definition long_pkt : bytes := std_msg [18; 52]%N 1 0 long_q None [].
Lemma long_ok : std_ok [18; 52]%N 1 0 long_q None [].
Proof.
  apply std_dec; [|vm_compute; reflexivity]. split; [|cbn; lia]. split; [|apply Nat.leb_le; reflexivity].
  repeat (apply Forall_cons; [split; [split; apply Nat.leb_le; reflexivity|apply bytesb; reflexivity]|]). apply Forall_nil.
Qed.
Theorem C66_sum_refuted :
  ~ (forall cfg chaos ckp draws dyn chals root, wf_server cfg chaos ckp draws dyn chals root -> forall v6 dso pkt st r cs, all_bytes pkt -> length pkt <= 1024 ->
     c_is_udp cfg = true -> counted cfg chaos ckp draws dyn chals root v6 dso pkt = Ok (st, r, cs) -> total cs = 1) /\
  ~ (forall cfg chaos ckp draws dyn chals root, wf_server cfg chaos ckp draws dyn chals root -> forall v6 dso pkt st r cs, all_bytes pkt -> length pkt <= 1024 ->
     c_is_udp cfg = false -> counted cfg chaos ckp draws dyn chals root v6 dso pkt = Ok (st, r, cs) -> total cs = 1).
Proof.
  split; intros A.
  - assert (K : counts_of (ex_counted low_cfg false false long_pkt) = Some [Refused; UdpTc; Noerror]) by (vm_compute; reflexivity).
    destruct (ex_counted low_cfg false false long_pkt) as [[[st r] cs]|] eqn:E; [|discriminate K]. cbn [counts_of] in K. injection K as ->.
    destruct (std_facts _ _ _ _ _ _ long_ok) as (HB & _). specialize (A _ _ _ _ _ _ _ low_server false false long_pkt st r _ HB ltac:(apply long_ok) eq_refl E). discriminate A.
  - assert (K : counts_of (ex_counted tcp_cfg false false ka_pkt) = Some [DsoEstab]) by (vm_compute; reflexivity).
    destruct (ex_counted tcp_cfg false false ka_pkt) as [[[st r] cs]|] eqn:E; [|discriminate K]. cbn [counts_of] in K. injection K as ->.
    specialize (A _ _ _ _ _ _ _ (ex_server tcp_cfg (or_intror eq_refl)) false false ka_pkt st r _ ltac:(apply bytesb; vm_compute; reflexivity) ltac:(apply Nat.leb_le; vm_compute; reflexivity) eq_refl E). discriminate A.
Qed.
(** src/dnspacket.h:86-92: not every request with a cookie counts as one of the four, though cookies are on: options after a faulty one are not read.
    And a request can count twice in edns_clientsub, so that it is no part of edns *)
Definition bad_first : optrr := {| o_size := 4096%N; o_ext := 0%N; o_opts := [(8%N, wit_bad_ecs); (10%N, repeat 1%N 8)] |}.
Definition two_subnets : optrr := {| o_size := 4096%N; o_ext := 0%N; o_opts := [(8%N, wit_ecs); (8%N, wit_bad_ecs)] |}.
Theorem C66_cookie_refuted :
  ~ (forall cfg chaos ckp draws dyn chals root, wf_server cfg chaos ckp draws dyn chals root -> forall v6 dso id f1 f2 q x d st r cs, std_ok id f1 f2 q (Some x) [] ->
     opt_version (o_ext x) = 0%N -> c_disable_cookies cfg = false -> In (10%N, d) (o_opts x) -> counted cfg chaos ckp draws dyn chals root v6 dso (std_msg id f1 f2 q (Some x) []) = Ok (st, r, cs) -> cookie_counts cs = 1) /\
  ~ (forall cfg chaos ckp draws dyn chals root, wf_server cfg chaos ckp draws dyn chals root -> forall v6 dso id f1 f2 q x st r cs, std_ok id f1 f2 q (Some x) [] ->
     counted cfg chaos ckp draws dyn chals root v6 dso (std_msg id f1 f2 q (Some x) []) = Ok (st, r, cs) -> times EdnsClientsub cs <= times Edns cs).
Proof.
  split; intros A.
  - assert (SO : std_ok [18; 52]%N 1 0 wz_q (Some bad_first) []) by (apply std_dec; [exact wz_qok|vm_compute; reflexivity]). set (pkt := std_msg [18; 52]%N 1 0 wz_q (Some bad_first) []).
    assert (K : counts_of (ex_counted wit_cfg false false pkt) = Some [Edns; EdnsClientsub; Formerr]) by (vm_compute; reflexivity).
    destruct (ex_counted wit_cfg false false pkt) as [[[st r] cs]|] eqn:E; [|discriminate K]. cbn [counts_of] in K. injection K as ->.
    specialize (A _ _ _ _ _ _ _ (ex_server wit_cfg (or_introl eq_refl)) false false _ _ _ _ _ (repeat 1%N 8) st r _ SO eq_refl eq_refl ltac:(cbn; auto) E). discriminate A.
  - assert (SO : std_ok [18; 52]%N 1 0 wz_q (Some two_subnets) []) by (apply std_dec; [exact wz_qok|vm_compute; reflexivity]). set (pkt := std_msg [18; 52]%N 1 0 wz_q (Some two_subnets) []).
    assert (K : counts_of (ex_counted wit_cfg false false pkt) = Some [Edns; EdnsClientsub; EdnsClientsub; Formerr]) by (vm_compute; reflexivity).
    destruct (ex_counted wit_cfg false false pkt) as [[[st r] cs]|] eqn:E; [|discriminate K]. cbn [counts_of] in K. injection K as ->.
    specialize (A _ _ _ _ _ _ _ (ex_server wit_cfg (or_introl eq_refl)) false false _ _ _ _ _ st r _ SO E). cbn in A. lia.
Qed.
Print Assumptions C66_sum_refuted.
Print Assumptions C66_cookie_refuted.
