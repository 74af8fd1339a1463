(** C48: answers from loaded zones fit. *)
From Coq Require Import Sorting.Permutation.
From Verif Require Import Base DnameModel DnameSpec DnameProofs DnameProofs2 PktModel PktSpec PktProofs PktProofs2 PktProofs3 PktProofs4 PktProps RandModel RandSpec CompModel CompSpec
  RespModel RespSpec RespProps MsgModel MsgSpec MsgProofs MsgProofs3 MsgProofs4 MsgProofs5 MsgProps MsgRefProps
  LtreeModel LtreeSpec LtreeProofs12 LtreeProofs13 LtreeProofs14 LtreeProofs15 LtreeProps.
Local Open Scope N_scope.
Ltac Zify.zify_post_hook ::= idtac.

(** For any zones the loader accepts, with the settings of the server and the
    limits of its plugins, any question (in any letter case; with aliases
    followed or not) and the answer the rules of [resolves] give it: header,
    question, answer and the largest OPT record together take at most 16376
    bytes, not counting challenge records. *)
Theorem C48_answers_leave_room : forall cfg pl hash zs tree pc dyn chals no_chain,
  cfg_fine cfg -> (forall l, hash l < W64) -> zones_fine zs ->
  load_zones cfg pl hash empty_tree zs = Ok (Some tree) ->
  same_server cfg pc -> (length (c_nsid pc) <= 128)%nat -> dyn_within cfg dyn -> wf_dyn dyn (view tree) ->
  forall q qt r, legal_name q -> resolves dyn chals no_chain (view tree) q qt r ->
    16 + N.of_nat (wire_len q) + rep_size r + opt_room pc <= 16376 + rrs_size (r_chal r).
Proof.
  intros cfg pl hash zs tree pc dyn chals no_chain CF H64 ZF H SS NS DW WD q qt r LQ R. destruct (loaded_tree cfg pl hash zs tree H64 ZF H) as (b & roots & TI & FL & B).
  rewrite <- dlen_wl. apply (answer_size cfg pl hash H64 CF (rev zs) b roots tree TI FL dyn DW) with (no_chain := no_chain) (chals := chals) (qt := qt); auto.
  intros x. destruct (proj1 WD x) as (A & A2 & _ & C). auto.
Qed.
Print Assumptions C48_answers_leave_room.

Lemma no_chal_rrs dyn chals root q qt r : (forall n, chals n = []) -> resolves dyn chals true root q qt r -> rrs_size (r_chal r) = 0.
Proof.
  intros NC R. inversion R; subst; try reflexivity.
  - unfold final. destruct (effective dyn _ qt) as (ss, qt'). cbn [r_chal]. rewrite NC. destruct (fst (chal_name q) && (qt' =? 16))%bool; reflexivity.
  - match goal with H : followed _ _ _ _ _ _ |- _ => destruct H as (X & _); congruence end.
Qed.
(** So a server with such settings and such zones is one the theorems of
    MsgProps.v (C08, C39, C44, ...) are about, and while it holds no challenges
    their condition on sizes is met for every packet. *)
Theorem C48_loaded_server_fits : forall cfg pl hash zs tree pc chaos ckp draws dyn chals,
  cfg_fine cfg -> (forall l, hash l < W64) -> zones_fine zs ->
  load_zones cfg pl hash empty_tree zs = Ok (Some tree) ->
  same_server cfg pc -> (forall e, dyn_within cfg (dyn e)) -> (forall e, wf_dyn (dyn e) (view tree)) -> (forall n, chals n = []) ->
  (forall d, length (snd (ckp d)) = 16%nat) -> (length (c_nsid pc) <= 128)%nat -> (c_tcp_pad pc = true -> c_is_udp pc = false) -> 512 <= c_udp_max pc ->
  (exists fixed d, length fixed = 8%nat /\ (length d <= 256)%nat /\ chaos = [192; 12] ++ fixed ++ be16 (N.of_nat (length d)) ++ d) ->
  (forall off n, legal_draws (n - 1) (draws off n)) ->
  wf_server pc chaos ckp draws dyn chals (view tree) /\ forall pkt, fits pc dyn chals (view tree) pkt.
Proof.
  intros cfg pl hash zs tree pc chaos ckp draws dyn chals CF H64 ZF H SS DW WD NC CK NS TP UM CH DR. split.
  - constructor; auto.
    + destruct (loaded_tree cfg pl hash zs tree H64 ZF H) as (b & roots & TI & FL & B). exact (tree_wf cfg pl hash H64 CF (rev zs) b roots tree TI FL).
    + intros n. rewrite NC. constructor.
  - intros pkt e q off r FQ R.
    assert (LQ : legal_name (map (map lower) (q_name q)) /\ N.of_nat off = 16 + N.of_nat (wire_len (map (map lower) (q_name q)))).
    { inversion FQ as [|q0 rest Hq (HL & _) E]; subst. assert (WL : wire_len (map (map lower) (q_name q)) = wire_len (q_name q)).
      { generalize (q_name q). intros n. unfold wire_len. f_equal. induction n as [|l n IH]; [reflexivity|]. cbn [map fold_right]. now rewrite IH, map_length. }
      split; [now apply legal_lower|]. rewrite WL. pose proof (question_wire_len q). lia. }
    destruct LQ as (LQ & ->). pose proof (C48_answers_leave_room cfg pl hash zs tree pc (dyn e) chals true CF H64 ZF H SS NS (DW e) (WD e) _ _ _ LQ R) as B.
    rewrite (no_chal_rrs _ _ _ _ _ _ NC R) in B. lia.
Qed.
Print Assumptions C48_loaded_server_fits.

(** Whatever packet such a server is sent (with at most one client-subnet and
    one NSID option, see C39): no assertion fails, no byte outside the buffers
    is read or written, and a response has at most 16382 bytes. *)
Theorem C48_loaded_server_never_fails : forall cfg pl hash zs tree pc chaos ckp draws dyn chals dso pkt,
  cfg_fine cfg -> (forall l, hash l < W64) -> zones_fine zs ->
  load_zones cfg pl hash empty_tree zs = Ok (Some tree) ->
  same_server cfg pc -> (forall e, dyn_within cfg (dyn e)) -> (forall n, chals n = []) ->
  wf_server pc chaos ckp draws dyn chals (view tree) ->
  all_bytes pkt -> (length pkt <= 1024)%nat -> tame pc dso pkt ->
  exists st o, process pc chaos ckp draws dyn chals (view tree) dso pkt = Ok (st, o) /\
    forall r, o = Some r -> N.of_nat (length r) <= 16382.
Proof.
  intros cfg pl hash zs tree pc chaos ckp draws dyn chals dso pkt CF H64 ZF H SS DW NC WS AB LP TM.
  assert (FT : fits pc dyn chals (view tree) pkt).
  { refine (proj2 (C48_loaded_server_fits cfg pl hash zs tree pc chaos ckp draws dyn chals CF H64 ZF H SS DW _ NC _ _ _ _ _ _) pkt); destruct WS; auto. }
  destruct (process_ok _ _ _ _ _ _ _ WS dso pkt AB LP TM FT) as (rv & t & off & ED & D).
  assert (X : exists st o, process pc chaos ckp draws dyn chals (view tree) dso pkt = Ok (st, o)).
  { destruct rv.
    - eauto.
    - destruct D as (q & m & scope & _ & _ & _ & _ & _ & _ & D & _). eauto.
    - destruct D as (q & m & scope & _ & _ & _ & _ & _ & _ & D & _). eauto.
    - destruct D as (q & m & scope & _ & _ & _ & _ & _ & _ & D & _). eauto.
    - destruct D as (q & m & scope & _ & _ & _ & _ & _ & _ & D & _). eauto.
    - destruct D as (HQ & HO6 & L12 & D). rewrite D, (padding_ok pc dso pkt AB L12 _ (ws_pad _ _ _ _ _ _ _ WS) (dso_flags pkt AB L12 HQ HO6)).
      destruct (handle_dso_ok pc dso pkt AB L12 _ (dso_flags pkt AB L12 HQ HO6)) as [[_ ->]|(_ & _ & [(ty & d & xs & _ & ->)|[_ ->]])]; [eauto|destruct (ty =? 1); eauto|eauto]. }
  destruct X as (st & o & X). exists st, o. split; [exact X|]. intros r ->. exact (C39_fits_buffer _ _ _ _ _ _ _ _ _ _ _ WS AB LP TM FT X).
Qed.
Print Assumptions C48_loaded_server_never_fails.

(** The example zones of C47, a server with the same settings, and a query for
    W.ex.c A. *)
Definition w48_pc : pcfg :=
  {| c_ecs := true; c_nsid := [1; 2; 3; 4; 5; 6; 7; 8]; c_disable_cookies := false; c_disable_dso := false; c_is_udp := false; c_tcp_pad := true;
     c_udp_max := 1410; c_keepalive := 300; c_inactivity := 5000; c_nocookie_max := 0 |}.
Definition w48_dyn (_ : edns) (_ : N) : dynres := {| d_v4 := [[192; 0; 2; 7]; [192; 0; 2; 8]]; d_v6 := [repeat 1 16]; d_cname := None; d_sttl := 7; d_scope := 0 |}.
Definition w48_opt : optrr := {| o_size := 4096; o_ext := 0; o_opts := [(8, wit_ecs); (3, [])] |}.
Definition w48_pkt (q : question) : bytes := std_msg [18; 52] 1 0 q (Some w48_opt) [].
Lemma w48_dynwf e root : wf_dyn (w48_dyn e) root.
Proof. split; [intros x; repeat split; try discriminate; repeat constructor|reflexivity]. Qed.
Example C48_witness :
  cfg_fine w47_cfg /\ (forall l, w47_hash l < W64) /\ zones_fine w47_zs /\ same_server w47_cfg w48_pc /\ (forall e, dyn_within w47_cfg (w48_dyn e)) /\
  exists tree, load_zones w47_cfg w47_pl w47_hash empty_tree w47_zs = Ok (Some tree) /\
    wf_server w48_pc ex_chaos wit_ckp zero_draws w48_dyn no_chals (view tree) /\
    let pkt := w48_pkt {| q_name := [87] :: zn; q_type := 1; q_class := 1 |} in
    all_bytes pkt /\ tame w48_pc false pkt /\ run_len (process w48_pc ex_chaos wit_ckp zero_draws w48_dyn no_chals (view tree) false pkt) = Some (false, 468%nat).
Proof.
  assert (CF : cfg_fine w47_cfg) by (split; discriminate).
  assert (H64 : forall l, w47_hash l < W64) by (intros l; unfold w47_hash; apply (N.lt_trans _ 7); [now apply N.mod_lt|reflexivity]).
  assert (SS : same_server w47_cfg w48_pc) by (repeat split).
  assert (DW : forall e, dyn_within w47_cfg (w48_dyn e)) by (intros e x; repeat split; cbn; lia).
  repeat (split; [assumption || exact w47_fine|]).
  assert (L : exists tree, load_zones w47_cfg w47_pl w47_hash empty_tree w47_zs = Ok (Some tree) /\
    run_len (process w48_pc ex_chaos wit_ckp zero_draws w48_dyn no_chals (view tree) false (w48_pkt {| q_name := [87] :: zn; q_type := 1; q_class := 1 |})) = Some (false, 468%nat)).
  { eexists. split; [vm_compute; reflexivity|vm_compute; reflexivity]. }
  destruct L as (tree & L & R). exists tree. split; [exact L|]. split.
  - refine (proj1 (C48_loaded_server_fits w47_cfg w47_pl w47_hash w47_zs tree w48_pc ex_chaos wit_ckp zero_draws w48_dyn no_chals CF H64 w47_fine L SS DW _ _ _ _ _ _ _ zero_legal)).
    + intros e. apply w48_dynwf.
    + reflexivity.
    + reflexivity.
    + cbn. lia.
    + reflexivity.
    + discriminate.
    + exists [0; 16; 0; 3; 0; 0; 0; 0]%N, [5; 103; 100; 110; 115; 100]%N. split; [reflexivity|]. split; [cbn; lia|reflexivity].
  - intros pkt. split; [repeat constructor|]. split; [apply tame_dec; vm_compute; reflexivity|]. exact R.
Qed.

(** The condition on challenges cannot be dropped: with 201 challenges (the most
    one name can have, C35) and a TXT record of 5070 bytes at the same name, a
    query over TCP with an OPT record makes the server write past the end of its
    buffer.  [chal_respond] stops at the size limit of the response without
    leaving room for the OPT record. *)
Definition w48_zs : list (name * list record) :=
  [(zn, [ASoa [] ([110] :: zn) ([104] :: zn) 900 1 2 3 4 300; ANs [] ([110] :: zn) 900; AA [[110]] [192; 0; 2; 1] 900 false;
         ATxt [acme_label] (concat (repeat (255 :: repeat 65 255) 19) ++ 205 :: repeat 65 205) 0])].
Definition w48_chals (n : name) : list (N * bytes) :=
  match n with [[101; 120]; [99]] => repeat (5, 43 :: repeat 66 43) 201 | _ => [] end.
Theorem C48_with_challenges_refuted :
  ~ (forall cfg pl hash zs tree pc chaos ckp draws dyn chals dso pkt,
  cfg_fine cfg -> (forall l, hash l < W64) -> zones_fine zs ->
  load_zones cfg pl hash empty_tree zs = Ok (Some tree) ->
  same_server cfg pc -> (forall e, dyn_within cfg (dyn e)) -> (forall n, (length (chals n) <= 201)%nat) ->
  wf_server pc chaos ckp draws dyn chals (view tree) ->
  all_bytes pkt -> (length pkt <= 1024)%nat -> tame pc dso pkt ->
  process pc chaos ckp draws dyn chals (view tree) dso pkt <> UB).
Proof.
  intros F. assert (CF : cfg_fine w47_cfg) by (split; discriminate).
  assert (H64 : forall l, w47_hash l < W64) by (intros l; unfold w47_hash; apply (N.lt_trans _ 7); [now apply N.mod_lt|reflexivity]).
  assert (SS : same_server w47_cfg w48_pc) by (repeat split).
  assert (DW : forall e, dyn_within w47_cfg (w48_dyn e)) by (intros e x; repeat split; cbn; lia).
  assert (ZF : zones_fine w48_zs).
  { split; [|reflexivity]. apply Forall_cons; [|apply Forall_nil]. split; [apply legalb_ok; reflexivity|]. cbn [fst snd w48_zs].
    repeat (apply Forall_cons; [|]); try apply Forall_nil; unfold rec_fine; cbn [owner app]; (split; [try exact I; apply legalb_ok; reflexivity|]);
      repeat split; try discriminate; try (intros _); apply legalb_ok; reflexivity. }
  assert (L : exists tree, load_zones w47_cfg w47_pl w47_hash empty_tree w48_zs = Ok (Some tree) /\
    process w48_pc ex_chaos wit_ckp zero_draws w48_dyn w48_chals (view tree) false (w48_pkt {| q_name := acme_label :: zn; q_type := 16; q_class := 1 |}) = UB).
  { eexists. split; [vm_compute; reflexivity|vm_compute; reflexivity]. }
  destruct L as (tree & L & U). refine (F w47_cfg w47_pl w47_hash w48_zs tree w48_pc ex_chaos wit_ckp zero_draws w48_dyn w48_chals false _ CF H64 ZF L SS DW _ _ _ _ _ U).
  - intros n. unfold w48_chals. destruct (list_eq_dec (list_eq_dec N.eq_dec) n zn) as [->|NE]; [apply Nat.leb_le; reflexivity|].
    assert (E : w48_chals n = []).
    { unfold w48_chals. repeat match goal with |- context [match ?x with _ => _ end] => is_var x; destruct x; try reflexivity end. now destruct NE. }
    unfold w48_chals in E. rewrite E. apply Nat.le_0_l.
  - clear F U. constructor.
    + reflexivity.
    + cbn. lia.
    + reflexivity.
    + discriminate.
    + exists [0; 16; 0; 3; 0; 0; 0; 0]%N, [5; 103; 100; 110; 115; 100]%N. split; [reflexivity|]. split; [cbn; lia|reflexivity].
    + destruct (loaded_tree w47_cfg w47_pl w47_hash w48_zs tree H64 ZF L) as (b & roots & TI & FL & B). exact (tree_wf w47_cfg w47_pl w47_hash H64 CF (rev w48_zs) b roots tree TI FL).
    + intros e. apply w48_dynwf.
    + intros n. unfold w48_chals. repeat match goal with |- context [match ?x with _ => _ end] => is_var x; destruct x; try apply Forall_nil end.
      apply Forall_forall. intros c I. apply repeat_spec in I. subst. reflexivity.
    + exact zero_legal.
  - repeat constructor.
  - apply Nat.leb_le. reflexivity.
  - apply tame_dec. vm_compute. reflexivity.
Qed.
Print Assumptions C48_with_challenges_refuted.
