(** Concrete cases for the theorems of MsgProps.v, and counterexamples to what
    they do not say. *)
From Coq Require Import Sorting.Permutation.
From Verif Require Import Base DnameModel DnameSpec DnameProofs PktModel PktSpec PktProofs PktProofs2 PktProofs3 PktProofs4 PktProps RandModel RandSpec CompModel CompSpec CompProofs CompProps
  RespModel RespSpec RespProofs RespProofs4 RespProofs5 RespProps MsgModel MsgSpec MsgProofs MsgProofs2 MsgProofs3 MsgProofs4 MsgProofs5 MsgProps.
Ltac Zify.zify_post_hook ::= idtac.

(** *** Concrete cases *)
(** [tame] can be decided by reading: every place with the bytes 0 0 41. *)
Fixpoint parse_opts (fuel : nat) (R : bytes) : list (N * list N) :=
  match fuel, R with
  | S fuel, a :: b :: c :: d :: r =>
      let n := N.to_nat (get16 c d) in
      if Nat.leb n (length r) then (get16 a b, firstn n r) :: parse_opts fuel (skipn n r) else []
  | _, _ => []
  end.
Lemma parse_opts_prefix : forall os rest fuel, Forall opt_ok os -> length (opts_wire os ++ rest) < fuel ->
  exists tl, parse_opts fuel (opts_wire os ++ rest) = os ++ tl.
Proof.
  induction os as [|[c d] os IH]; intros rest fuel HF HL; [eexists; reflexivity|]. destruct fuel as [|fuel]; [lia|].
  inversion HF as [|? ? (C & L & _) HF']; subst. cbn [fst snd] in C, L. unfold opts_wire in *. cbn [map concat] in *. unfold opt_wire at 1. unfold opt_wire at 1 in HL.
  cbn [fst snd] in *. rewrite <- !app_assoc in *. unfold be16 in *. cbn [app parse_opts length] in *.
  assert (E1 : get16 ((N.of_nat (length d) / 256) mod 256) (N.of_nat (length d) mod 256) = N.of_nat (length d)) by (now apply get16_be16). rewrite E1, Nat2N.id.
  assert (E2 : get16 ((c / 256) mod 256) (c mod 256) = c) by (now apply get16_be16). rewrite E2.
  assert (LL : Nat.leb (length d) (length (d ++ concat (map opt_wire os) ++ rest)) = true) by (apply Nat.leb_le; rewrite app_length; lia). rewrite LL.
  rewrite firstn_app, firstn_all, Nat.sub_diag, skipn_app, skipn_all, Nat.sub_diag. cbn [firstn skipn app]. rewrite app_nil_r.
  destruct (IH rest fuel HF') as [tl ->]; [rewrite !app_length in *; lia|]. eexists; reflexivity.
Qed.
Definition onceb (c : N) (os : list (N * list N)) : bool := Nat.leb (length (filter (fun o => N.eqb (fst o) c) os)) 1.
Lemma onceb_ok c os tl : onceb c (os ++ tl) = true -> once c os.
Proof. unfold onceb, once. intros H. apply Nat.leb_le in H. rewrite filter_app, app_length in H. lia. Qed.
Definition tame_at (cfg : pcfg) (dso : bool) (R : bytes) : bool :=
  match R with
  | 0 :: 0 :: 41 :: _ :: _ :: _ :: v :: _ :: _ :: r1 :: r2 :: tail =>
      ((v =? 0) || c_is_udp cfg || dso) &&
      (let os := parse_opts (S (length tail)) (firstn (N.to_nat (get16 r1 r2)) tail) in onceb 8 os && onceb 3 os)
  | _ => true
  end%N%bool.
Lemma tame_dec cfg dso pkt : forallb (fun i => tame_at cfg dso (skipn i pkt)) (seq 12 (length pkt - 12)) = true -> tame cfg dso pkt.
Proof.
  intros H p size ext rdlen tail E LP HS HR. rewrite forallb_forall in H. specialize (H (length p)).
  assert (I : In (length p) (seq 12 (length pkt - 12))).
  { apply in_seq. rewrite E, !app_length. unfold opt_header. rewrite !app_length. cbn [length be16 be32]. lia. }
  specialize (H I). rewrite E, skipn_app, skipn_all, Nat.sub_diag in H. cbn [skipn app] in H. unfold opt_header, be16, be32 in H. cbn [app tame_at] in H.
  change ((41 / 256) mod 256)%N with 0%N in H. change (41 mod 256)%N with 41%N in H. cbn [tame_at] in H.
  assert (E1 : get16 ((rdlen / 256) mod 256) (rdlen mod 256) = rdlen) by (now apply get16_be16). rewrite E1 in H.
  apply andb_true_iff in H. destruct H as [H1 H2]. apply andb_true_iff in H2. destruct H2 as [H2 H3]. split.
  - apply orb_true_iff in H1. destruct H1 as [H1|H1]; [|auto]. apply orb_true_iff in H1. destruct H1 as [H1|H1]; [|auto]. left. apply N.eqb_eq in H1. exact H1.
  - intros os rest HO EO. destruct (parse_opts_prefix os rest (S (length tail)) HO) as [tl EP].
    { rewrite <- EO, firstn_length. lia. }
    rewrite <- EO in EP. rewrite EP in H2, H3. split; eapply onceb_ok; eauto.
Qed.

Definition ex_chaos : bytes := [192; 12; 0; 16; 0; 3; 0; 0; 0; 0; 0; 6; 5; 103; 100; 110; 115; 100]%N.
Definition ex_dyn (_ : edns) := no_dyn.
Definition tcp_cfg : pcfg :=
  {| c_ecs := true; c_nsid := [1; 2]%N; c_disable_cookies := false; c_disable_dso := false; c_is_udp := false; c_tcp_pad := true;
     c_udp_max := 1410%N; c_keepalive := 300%N; c_inactivity := 5000%N; c_nocookie_max := 0%N |}.
Lemma ex_server cfg : cfg = wit_cfg \/ cfg = tcp_cfg -> wf_server cfg ex_chaos wit_ckp zero_draws ex_dyn no_chals z_root.
Proof.
  intros C. constructor.
  - reflexivity.
  - destruct C as [-> | ->]; cbn; lia.
  - destruct C as [-> | ->]; [discriminate|reflexivity].
  - destruct C as [-> | ->]; cbn; lia.
  - exists [0; 16; 0; 3; 0; 0; 0; 0]%N, [5; 103; 100; 110; 115; 100]%N. split; [reflexivity|]. split; [cbn; lia|reflexivity].
  - exact z_wf.
  - intros e. exact z_dyn.
  - intros n. constructor.
  - exact zero_legal.
Qed.
(** the question w.z A, in mixed case *)
Definition wz_q : question := {| q_name := [[87]; [122]]%N; q_type := 1%N; q_class := 1%N |}.
Lemma wz_qok : question_ok wz_q.
Proof.
  split; [|cbn; lia]. split; [|apply Nat.leb_le; reflexivity]. repeat (apply Forall_cons; [split; [split; apply Nat.leb_le; reflexivity|apply Forall_cons; [reflexivity|apply Forall_nil]]|]). apply Forall_nil.
Qed.
Definition std_okb (id : bytes) (f1 f2 : N) (q : question) (o : option optrr) (trail : bytes) : bool :=
  (Nat.eqb (length id) 2 && forallb (fun b => b <? 256) (id ++ trail) && (f1 <? 128) && (f2 <? 256) &&
   match o with None => true | Some x => (o_size x <? 65536) && (o_ext x <? 4294967296) && (N.of_nat (length (opts_wire (o_opts x))) <? 65536) &&
     forallb (fun o => (fst o <? 65536) && (N.of_nat (length (snd o)) <? 65536) && forallb (fun b => b <? 256) (snd o)) (o_opts x) end &&
   Nat.leb (length (std_msg id f1 f2 q o trail)) 1024)%N%bool.
Lemma bytesb l : forallb (fun b => b <? 256)%N l = true -> all_bytes l.
Proof. intros H. rewrite forallb_forall in H. apply Forall_forall. intros x I. apply N.ltb_lt. now apply H. Qed.
Lemma std_dec id f1 f2 q o trail : question_ok q -> std_okb id f1 f2 q o trail = true -> std_ok id f1 f2 q o trail.
Proof.
  intros HQ H. unfold std_okb in H. repeat match type of H with (_ && _ = true)%bool => apply andb_true_iff in H; let H' := fresh "H" in destruct H as [H H'] end.
  rewrite forallb_app in H4. apply andb_true_iff in H4. destruct H4 as [H4 H5].
  split; [now apply Nat.eqb_eq|]. split; [now apply bytesb|]. split; [now apply N.ltb_lt|]. split; [now apply N.ltb_lt|]. split; [exact HQ|].
  split; [|split; [now apply bytesb|now apply Nat.leb_le]].
  intros x ->. repeat match type of H1 with (_ && _ = true)%bool => apply andb_true_iff in H1; let H' := fresh "K" in destruct H1 as [H1 H'] end.
  split; [now apply N.ltb_lt|]. split; [now apply N.ltb_lt|]. split; [|now apply N.ltb_lt].
  rewrite forallb_forall in K. apply Forall_forall. intros y I. specialize (K y I).
  repeat match type of K with (_ && _ = true)%bool => apply andb_true_iff in K; let H' := fresh "J" in destruct K as [K H'] end.
  split; [now apply N.ltb_lt|]. split; [now apply N.ltb_lt|now apply bytesb].
Qed.
Lemma wz_fits cfg id f1 f2 o trail : std_ok id f1 f2 wz_q o trail -> length (c_nsid cfg) <= 128 -> fits cfg ex_dyn no_chals z_root (std_msg id f1 f2 wz_q o trail).
Proof.
  intros SO HN e q off r FQ HR. destruct (std_facts _ _ _ _ _ _ SO) as (_ & _ & _ & _ & FQ' & _).
  destruct (fq_unique _ _ _ _ _ FQ' FQ) as [<- <-].
  assert (F : exists z, in_zone z_root [[119]; [122]]%N z z_z (Some z_w)).
  { pose proof (C13_lookup_follows_tree_rules z_root [[119]; [122]]%N z_wf) as H. cbn in H. destruct H as (p & z & _ & _ & X). eauto. }
  destruct F as (z & IZ). change (map (map lower) (q_name wz_q)) with [[119]; [122]]%N in HR. change (q_type wz_q) with 1%N in HR.
  assert (EQ : exists z', r = final (ex_dyn e) no_chals [[119]; [122]]%N 1 z' z_z (Some z_w)).
  { inversion HR as [q qt NZ|q qt d dn ttl rd DE|q qt z' zn f IZ' NF|q qt z' zn f ttl t r' IZ' FO]; subst.
    - exfalso. destruct IZ as [[C _] _]. eapply NZ. exact C.
    - exfalso. eapply deleg_not_in; [exact (proj1 z_wf)|exact DE|exact IZ].
    - destruct (in_zone_unique _ (proj1 z_wf) _ _ _ _ _ _ _ IZ IZ') as (-> & <- & <-). eauto.
    - exfalso. destruct FO as (Q & _). discriminate Q. }
  destruct EQ as (z' & ->).
  assert (S : (rep_size (final (ex_dyn e) no_chals [[119]; [122]]%N 1 z' z_z (Some z_w)) <= 1000)%N) by (apply N.leb_le; vm_compute; reflexivity).
  change (length (question_wire wz_q)) with 9. pose proof (opt_room_max cfg). lia.
Qed.

Definition run_len (r : res (bool * option bytes)) : option (bool * nat) := match r with Ok (st, Some m) => Some (st, length m) | _ => None end.
Definition wz_pkt := std_msg [18; 52]%N 1 0 wz_q (Some (wit_opt wit_ecs)) [9%N].
Lemma wz_std : std_ok [18; 52]%N 1 0 wz_q (Some (wit_opt wit_ecs)) [9%N].
Proof. apply std_dec; [exact wz_qok|vm_compute; reflexivity]. Qed.
Definition ex_process cfg := process cfg ex_chaos wit_ckp zero_draws ex_dyn no_chals z_root false.

(** A query with client subnet over UDP and TCP: 81 bytes, and 468. *)
Example C08_witness : forall cfg, cfg = wit_cfg \/ cfg = tcp_cfg ->
  wf_server cfg ex_chaos wit_ckp zero_draws ex_dyn no_chals z_root /\ std_ok [18; 52]%N 1 0 wz_q (Some (wit_opt wit_ecs)) [9%N] /\
  tame cfg false wz_pkt /\ fits cfg ex_dyn no_chals z_root wz_pkt /\
  (exists t, accepted cfg wit_ckp false wz_q (Some (wit_opt wit_ecs)) [9%N] t) /\
  run_len (ex_process cfg wz_pkt) = Some (false, if c_is_udp cfg then 81 else 468).
Proof.
  intros cfg C. pose proof wz_std as SO. split; [now apply ex_server|]. split; [exact SO|].
  split; [apply tame_dec; destruct C as [-> | ->]; vm_compute; reflexivity|].
  split; [apply wz_fits; [exact SO|destruct C as [-> | ->]; cbn; lia]|].
  split; [|destruct C as [-> | ->]; vm_compute; reflexivity].
  destruct SO as (Hi & Hib & H1 & H2 & HQO & HO & HTR & HL).
  destruct (C05_standard_message cfg wit_ckp false [18; 52]%N 1 0 wz_q (Some (wit_opt wit_ecs)) [9%N] (fun _ => eq_refl) Hi Hib H1 H2 HQO HO HTR) as (rv1 & t1 & ED & OR).
  exists t1. cbn [accepted]. assert (rv1 = DECODE_OK) as <-; [|exact OR].
  assert (K : match decode_query cfg wit_ckp false (std_msg [18; 52]%N 1 0 wz_q (Some (wit_opt wit_ecs)) [9%N]) (txn_init cfg) with Ok (DECODE_OK, _, _) => True | _ => False end)
    by (destruct C as [-> | ->]; vm_compute; exact I).
  rewrite ED in K. destruct rv1; try contradiction. reflexivity.
Qed.
(** its option comes back *)
Example C07_echo_witness : In (8%N, wit_ecs) (o_opts (wit_opt wit_ecs)) /\ ecs_fields wit_ecs 1 20 [192; 0; 16]%N /\
  exists p, ex_process wit_cfg wz_pkt = Ok (false, Some (p ++ optrr_wire {| o_size := 1024; o_ext := 32768; o_opts := [(8%N, [0; 1; 20; 0; 192; 0; 16]%N); (3%N, [1; 2]%N)] |})).
Proof.
  split; [cbn; auto|]. split; [apply C07_witness|].
  assert (K : match ex_process wit_cfg wz_pkt with Ok (false, Some r) => skipn 53 r = optrr_wire {| o_size := 1024; o_ext := 32768; o_opts := [(8%N, [0; 1; 20; 0; 192; 0; 16]%N); (3%N, [1; 2]%N)] |} | _ => False end)
    by (vm_compute; reflexivity).
  destruct (ex_process wit_cfg wz_pkt) as [[[|] [r|]]|]; try contradiction. exists (firstn 53 r). rewrite <- K, firstn_skipn. reflexivity.
Qed.

(** Truncation, with a low limit for clients without a cookie and a long NSID:
    the complete response would have 169 bytes, the limit is 128, the truncated
    response has 137.  So the limit for clients without a cookie is not one
    for truncated responses. *)
Definition low_cfg : pcfg :=
  {| c_ecs := true; c_nsid := repeat 78%N 90; c_disable_cookies := false; c_disable_dso := false; c_is_udp := true; c_tcp_pad := false;
     c_udp_max := 1410%N; c_keepalive := 0%N; c_inactivity := 0%N; c_nocookie_max := 128%N |}.
Lemma low_server : wf_server low_cfg ex_chaos wit_ckp zero_draws ex_dyn no_chals z_root.
Proof.
  destruct (ex_server wit_cfg (or_introl eq_refl)) as [A1 A2 A3 A4 A5 A6 A7 A8 A9]. constructor; auto; try discriminate.
  apply Nat.leb_le. reflexivity.
Qed.
Example C39_witness : wf_server low_cfg ex_chaos wit_ckp zero_draws ex_dyn no_chals z_root /\
  tame low_cfg false wz_pkt /\ fits low_cfg ex_dyn no_chals z_root wz_pkt /\
  exists r, ex_process low_cfg wz_pkt = Ok (false, Some r) /\ N.testbit (nth 2 r 0%N) 1 = true /\ length r = 137.
Proof.
  split; [exact low_server|]. split; [apply tame_dec; vm_compute; reflexivity|]. split; [apply wz_fits; [exact wz_std|change (length (c_nsid low_cfg)) with 90; lia]|].
  assert (K : match ex_process low_cfg wz_pkt with Ok (false, Some r) => (N.testbit (nth 2 r 0%N) 1, length r) = (true, 137) | _ => False end) by (vm_compute; reflexivity).
  destruct (ex_process low_cfg wz_pkt) as [[[|] [r|]]|]; try contradiction. exists r. injection K as K1 K2. auto.
Qed.
Theorem C39_limit_without_cookie_refuted :
  ~ (forall cfg chaos ckp draws dyn chals root id f1 f2 q x trail st r,
      wf_server cfg chaos ckp draws dyn chals root -> std_ok id f1 f2 q (Some x) trail ->
      tame cfg false (std_msg id f1 f2 q (Some x) trail) -> fits cfg dyn chals root (std_msg id f1 f2 q (Some x) trail) ->
      c_is_udp cfg = true -> q_class q = 1%N -> (c_nocookie_max cfg <> 0)%N -> ~ (exists d, In (10%N, d) (o_opts x)) ->
      process cfg chaos ckp draws dyn chals root false (std_msg id f1 f2 q (Some x) trail) = Ok (st, Some r) ->
      (N.of_nat (length r) <= c_nocookie_max cfg)%N).
Proof.
  intros H. destruct C39_witness as (W & T & F & r & E & _ & L).
  assert (K : (N.of_nat (length r) <= c_nocookie_max low_cfg)%N).
  { eapply H; [exact W|exact wz_std|exact T|exact F|reflexivity|reflexivity|discriminate| |exact E].
    intros (d & I). cbn in I. destruct I as [I|[I|[I|[]]]]; discriminate I. }
  rewrite L in K. cbn in K. lia.
Qed.

(** The fixed CHAOS answer is not looked at for truncation: without an OPT
    record a response over UDP may have up to 538 bytes. *)
Definition ch_q : question := {| q_name := [repeat 97%N 63; repeat 97%N 63; repeat 97%N 63; repeat 97%N 61]; q_type := 16%N; q_class := 3%N |}.
Definition ch_chaos : bytes := [192; 12; 0; 16; 0; 3; 0; 0; 0; 0]%N ++ be16 255 ++ 254%N :: repeat 98%N 254.
Lemma ch_qok : question_ok ch_q.
Proof.
  split; [|cbn; lia]. split; [|apply Nat.leb_le; vm_compute; reflexivity].
  repeat (apply Forall_cons; [split; [split; apply Nat.leb_le; vm_compute; reflexivity|apply bytesb; vm_compute; reflexivity]|]). apply Forall_nil.
Qed.
Lemma ch_std : std_ok [18; 52]%N 0 0 ch_q None [].
Proof. apply std_dec; [exact ch_qok|vm_compute; reflexivity]. Qed.
Theorem C39_chaos_fits_512_refuted :
  ~ (forall cfg chaos ckp draws dyn chals root id f1 f2 q trail st r,
      wf_server cfg chaos ckp draws dyn chals root -> std_ok id f1 f2 q None trail ->
      tame cfg false (std_msg id f1 f2 q None trail) -> fits cfg dyn chals root (std_msg id f1 f2 q None trail) ->
      c_is_udp cfg = true ->
      process cfg chaos ckp draws dyn chals root false (std_msg id f1 f2 q None trail) = Ok (st, Some r) ->
      (N.of_nat (length r) <= 512)%N).
Proof.
  intros H.
  assert (W : wf_server wit_cfg ch_chaos wit_ckp zero_draws ex_dyn no_chals z_root).
  { destruct (ex_server wit_cfg (or_introl eq_refl)) as [A1 A2 A3 A4 A5 A6 A7 A8 A9]. constructor; auto. clear A5.
    exists [0; 16; 0; 3; 0; 0; 0; 0]%N, (254%N :: repeat 98%N 254). split; [reflexivity|]. split; [apply Nat.leb_le; vm_compute; reflexivity|vm_compute; reflexivity]. }
  pose proof ch_std as SO.
  assert (F : fits wit_cfg ex_dyn no_chals z_root (std_msg [18; 52]%N 0 0 ch_q None [])).
  { intros e q off r FQ HR. destruct (std_facts _ _ _ _ _ _ SO) as (_ & _ & _ & _ & FQ' & _). destruct (fq_unique _ _ _ _ _ FQ' FQ) as [<- <-].
    assert (NC : forall z n, ~ cut_above z_root (map (map lower) (q_name ch_q)) z n).
    { intros z n C. pose proof (z_cut _ _ _ C) as Z. destruct C as ((p & X) & _). apply (f_equal (@rev _)) in X. rewrite rev_app_distr in X.
      destruct Z as [(-> & _)|(-> & _)]; vm_compute in X; discriminate X. }
    inversion HR as [q qt NZ|q qt d dn ttl rd DE|q qt z' zn f IZ' NF|q qt z' zn f ttl t r' IZ' FO]; subst.
    - apply N.leb_le. vm_compute. reflexivity.
    - exfalso. destruct DE as (z & n & [C _] & _). eapply NC. exact C.
    - exfalso. destruct IZ' as [[C _] _]. eapply NC. exact C.
    - exfalso. destruct IZ' as [[C _] _]. eapply NC. exact C. }
  assert (K : match process wit_cfg ch_chaos wit_ckp zero_draws ex_dyn no_chals z_root false (std_msg [18; 52]%N 0 0 ch_q None []) with Ok (_, Some r) => N.of_nat (length r) = 538%N | _ => False end)
    by (vm_compute; reflexivity).
  destruct (process wit_cfg ch_chaos wit_ckp zero_draws ex_dyn no_chals z_root false (std_msg [18; 52]%N 0 0 ch_q None [])) as [[st [r|]]|] eqn:E; try contradiction.
  assert (Q : (N.of_nat (length r) <= 512)%N) by (eapply H; [exact W|exact SO|apply tame_dec; vm_compute; reflexivity|exact F|reflexivity|exact E]).
  rewrite K in Q. lia.
Qed.

(** The assertion on the predicted size of the OPT record (dnspacket.c:2005)
    fails for some queries: two NSID options, two client-subnet options, and,
    over TCP outside a DSO session, an EDNS version other than 0.  With
    assertions compiled to [__builtin_unreachable] this is undefined
    behaviour; so the responses above are stated for the other queries. *)
Definition no_fail : Prop := forall cfg chaos ckp draws dyn chals root id f1 f2 q x trail,
  wf_server cfg chaos ckp draws dyn chals root -> std_ok id f1 f2 q (Some x) trail ->
  fits cfg dyn chals root (std_msg id f1 f2 q (Some x) trail) ->
  process cfg chaos ckp draws dyn chals root false (std_msg id f1 f2 q (Some x) trail) <> UB.
Lemma no_fail_wz cfg x : cfg = wit_cfg \/ cfg = tcp_cfg -> std_okb [18; 52]%N 1 0 wz_q (Some x) [] = true -> no_fail ->
  ex_process cfg (std_msg [18; 52]%N 1 0 wz_q (Some x) []) <> UB.
Proof.
  intros C B H. pose proof (std_dec _ _ _ _ _ _ wz_qok B) as SO. apply H; [now apply ex_server|exact SO|].
  apply wz_fits; [exact SO|]. destruct C as [-> | ->]; cbn; lia.
Qed.
Definition two_nsid : optrr := {| o_size := 4096; o_ext := 0; o_opts := [(3%N, []); (3%N, [])] |}.
Definition two_ecs : optrr := {| o_size := 4096; o_ext := 0; o_opts := [(8%N, wit_ecs); (8%N, wit_ecs)] |}.
Definition version_1 : optrr := {| o_size := 4096; o_ext := 65536; o_opts := [] |}.
Theorem C39_size_prediction_refuted : ~ no_fail.
Proof. intros H. apply (no_fail_wz wit_cfg two_nsid (or_introl eq_refl) ltac:(vm_compute; reflexivity) H). vm_compute. reflexivity. Qed.
Theorem C39_size_prediction_subnet_refuted : ~ no_fail.
Proof. intros H. apply (no_fail_wz wit_cfg two_ecs (or_introl eq_refl) ltac:(vm_compute; reflexivity) H). vm_compute. reflexivity. Qed.
Theorem C39_size_prediction_version_refuted : ~ no_fail.
Proof. intros H. apply (no_fail_wz tcp_cfg version_1 (or_intror eq_refl) ltac:(vm_compute; reflexivity) H). vm_compute. reflexivity. Qed.

(** A keepalive (followed by an unknown item) over TCP. *)
Example C44_witness : let body := tlvs_wire [(1, repeat 0 8); (77, [1; 2; 3])]%N in
  Forall opt_ok [(1, repeat 0 8); (77, [1; 2; 3])]%N /\ dso_f1 48 /\
  run_len (ex_process tcp_cfg (dso_request [18; 52]%N 48 0 body)) = Some (true, 468) /\
  run_len (ex_process tcp_cfg (dso_request [18; 52]%N 48 0 (tlvs_wire [(77, [1; 2; 3])]%N))) = Some (false, 468) /\
  ex_process tcp_cfg (dso_request [18; 52]%N 48 0 (tlvs_wire [(3, [0])]%N)) = Ok (false, None) /\
  run_len (ex_process wit_cfg (dso_request [18; 52]%N 48 0 body)) = Some (false, 12).
Proof.
  split; [repeat (apply Forall_cons; [split; [reflexivity|split; [reflexivity|apply bytesb; reflexivity]]|]); apply Forall_nil|].
  split; [unfold dso_f1; lia|]. split; [vm_compute; reflexivity|]. split; [vm_compute; reflexivity|]. split; vm_compute; reflexivity.
Qed.
Print Assumptions C39_limit_without_cookie_refuted.
Print Assumptions C39_chaos_fits_512_refuted.
Print Assumptions C39_size_prediction_refuted.
