(** C66: which counters the options of a request increment. *)
From Coq Require Import Lia.
From Verif Require Import Base DnameModel DnameSpec PktModel PktSpec PktProofs PktProofs2 PktProofs3 PktProofs4 PktProps RandModel RandSpec CompModel CompSpec CompProofs CompProps
  RespModel RespSpec RespProofs RespProofs4 RespProofs5 RespProps MsgModel MsgSpec MsgProofs MsgProofs2 MsgProofs3 MsgProofs4 MsgProofs5 MsgProps MsgRefProps CntModel CntSpec CntProofs CntProofs2 CntProofs3 CntProofs4 CntProps CntProofs5 CntRefProps.
Ltac Zify.zify_post_hook ::= idtac.
Local Open Scope nat_scope.

Lemma of_options cfg chaos ckp draws dyn chals root v6 dso id f1 f2 q x trail st r cs : (forall d, length (snd (ckp d)) = 16) -> std_ok id f1 f2 q (Some x) trail -> opt_version (o_ext x) = 0%N ->
  counted cfg chaos ckp draws dyn chals root v6 dso (std_msg id f1 f2 q (Some x) trail) = Ok (st, r, cs) ->
  exists e c', e_ck_recvd e = false /\ rel_counts cfg ckp dso e (o_opts x) c' /\ forall c, In c [EdnsClientsub; CookieFormerr; CookieOk; CookieInit; CookieBad] -> times c cs = times c c'.
Proof.
  intros HC (Hi & Hib & H1 & H2 & HQ & HO & HT & HL) V H. destruct (decoded _ _ _ _ _ _ _ _ _ _ _ _ _ H) as (rv & t & off & c0 & ED & D).
  apply std_counts in ED; auto. destruct ED as (e & c' & E & CO & ->). exists e, c'. split; [exact E|]. split; [exact CO|]. intros c IC. rewrite D by (cbn in *; intuition auto).
  change (Edns :: (if opt_do (o_ext x) then [EdnsDo] else []) ++ c') with ([Edns] ++ (if opt_do (o_ext x) then [EdnsDo] else []) ++ c'). rewrite !times_app.
  cbn in IC. repeat (destruct IC as [IC|IC]; [subst c; destruct (opt_do (o_ext x)); reflexivity|]). contradiction.
Qed.

(** The first cookie option that the server gets to is counted by what it is, and no other one *)
Theorem C66_cookie : forall cfg chaos ckp draws dyn chals root, (forall d, length (snd (ckp d)) = 16) -> forall v6 dso id f1 f2 q x trail pre d post st r cs,
  std_ok id f1 f2 q (Some x) trail -> opt_version (o_ext x) = 0%N -> c_disable_cookies cfg = false ->
  o_opts x = pre ++ (10%N, d) :: post -> Forall (fun o => harmless cfg dso o /\ fst o <> 10%N) pre ->
  counted cfg chaos ckp draws dyn chals root v6 dso (std_msg id f1 f2 q (Some x) trail) = Ok (st, r, cs) ->
  times (cookie_counter ckp d) cs = 1 /\ cookie_counts cs = 1.
Proof.
  intros cfg chaos ckp draws dyn chals root HC v6 dso id f1 f2 q x trail pre d post st r cs SO V EN EO HF H.
  destruct (of_options _ _ _ _ _ _ _ _ _ _ _ _ _ _ _ _ _ _ HC SO V H) as (e & c' & E & CO & T). rewrite EO in CO. destruct (cookie_at _ _ HC _ _ _ EN _ _ _ HF E CO) as [K1 K2].
  split.
  - rewrite T; [exact K1|]. unfold cookie_counter. destruct (_ || _)%bool; [|cbn; auto]. destruct (fst (ckp d)); [cbn; auto|]. destruct (Nat.eqb _ 8); cbn; auto 6.
  - unfold cookie_counts in *. rewrite !T by (cbn; auto 6). exact K2.
Qed.
(** A request without a cookie is not counted as one with a cookie *)
Theorem C66_no_cookie : forall cfg chaos ckp draws dyn chals root, (forall d, length (snd (ckp d)) = 16) -> forall v6 dso id f1 f2 q x trail st r cs,
  std_ok id f1 f2 q (Some x) trail -> opt_version (o_ext x) = 0%N -> c_disable_cookies cfg = true \/ (forall o, In o (o_opts x) -> fst o <> 10%N) ->
  counted cfg chaos ckp draws dyn chals root v6 dso (std_msg id f1 f2 q (Some x) trail) = Ok (st, r, cs) -> cookie_counts cs = 0.
Proof.
  intros cfg chaos ckp draws dyn chals root HC v6 dso id f1 f2 q x trail st r cs SO V NO H.
  destruct (of_options _ _ _ _ _ _ _ _ _ _ _ _ _ _ _ _ _ _ HC SO V H) as (e & c' & E & CO & T). unfold cookie_counts. rewrite !T by (cbn; auto 6). fold (cookie_counts c'). clear - CO NO.
  induction CO as [|e o os e1 cs R CO IH|e o os rv e1 R NR]; [reflexivity| |].
  - rewrite ckc_app, (no_cookie_one cfg ckp dso e o), IH; [reflexivity| |]; (destruct NO as [NO|NO]; [left; exact NO|right]); [intros y Y; apply NO; now right|apply NO; now left].
  - apply (no_cookie_one cfg ckp dso e o). destruct NO as [NO|NO]; [now left|right; apply NO; now left].
Qed.
(** Every client subnet that the server reads is counted *)
Theorem C66_subnet : forall cfg chaos ckp draws dyn chals root, (forall d, length (snd (ckp d)) = 16) -> forall v6 dso id f1 f2 q x trail st r cs,
  std_ok id f1 f2 q (Some x) trail -> opt_version (o_ext x) = 0%N -> Forall (well cfg dso) (o_opts x) ->
  counted cfg chaos ckp draws dyn chals root v6 dso (std_msg id f1 f2 q (Some x) trail) = Ok (st, r, cs) ->
  times EdnsClientsub cs = if c_ecs cfg then length (filter (fun o => fst o =? 8)%N (o_opts x)) else 0.
Proof.
  intros cfg chaos ckp draws dyn chals root HC v6 dso id f1 f2 q x trail st r cs SO V HF H.
  destruct (of_options _ _ _ _ _ _ _ _ _ _ _ _ _ _ _ _ _ _ HC SO V H) as (e & c' & E & CO & T). rewrite T by (cbn; auto). eapply subnets_at; eauto.
Qed.
Print Assumptions C66_cookie.
Print Assumptions C66_no_cookie.
Print Assumptions C66_subnet.

(** a client subnet, a cookie with a server part that is wrong, and a second cookie *)
Definition two_opt : optrr := {| o_size := 4096%N; o_ext := 0%N; o_opts := [(8%N, wit_ecs)] ++ (10%N, repeat 1%N 17) :: [(10%N, repeat 1%N 8)] |}.
Example C66_options_witness : let pkt := std_msg [18; 52]%N 1 0 wz_q (Some two_opt) [] in
  std_ok [18; 52]%N 1 0 wz_q (Some two_opt) [] /\ opt_version (o_ext two_opt) = 0%N /\ c_disable_cookies wit_cfg = false /\
  Forall (fun o => harmless wit_cfg false o /\ fst o <> 10%N) [(8%N, wit_ecs)] /\ Forall (well wit_cfg false) (o_opts two_opt) /\
  CntRefProps.counts_of (process_c wit_cfg valid_ckp ex_chaos zero_draws ex_dyn no_chals true z_root 1 false false pkt) = Some [Edns; EdnsClientsub; CookieBad; Noerror].
Proof.
  assert (EO : ecs_ok wit_ecs) by (exists 1%N, 20%N, [192; 0; 16]%N; apply C07_witness).
  split; [apply std_dec; [exact wz_qok|vm_compute; reflexivity]|]. split; [reflexivity|]. split; [reflexivity|]. split; [|split].
  - constructor; [|constructor]. split; [|discriminate]. split; [intros _ _; exact EO|]. split; discriminate.
  - cbn [o_opts two_opt app]. constructor; [|constructor; [|constructor; [|constructor]]]; (split; [split; [|split]; try discriminate; intros _ _; exact EO|]); cbn [fst snd]; try discriminate;
      intros _; right; [right; split; apply Nat.leb_le; reflexivity|left; reflexivity].
  - vm_compute. reflexivity.
Qed.
