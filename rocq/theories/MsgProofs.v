(** Lemmas about whole responses. *)
From Coq Require Import Sorting.Permutation.
From Verif Require Import Base DnameModel DnameSpec DnameProofs PktModel PktSpec PktProofs PktProofs2 PktProofs3 PktProofs4 RandModel RandSpec CompModel CompSpec CompProofs CompProps
  RespModel RespSpec RespProofs5 MsgModel MsgSpec.
Ltac Zify.zify_post_hook ::= idtac.

(** ** The header does not matter for reading records *)
Section Swap.
  Variables h1 h2 x : bytes.
  Hypothesis L1 : length h1 = 12.
  Hypothesis L2 : length h2 = 12.
  Lemma swap_nth off : 12 <= off -> nth_error (h2 ++ x) off = nth_error (h1 ++ x) off.
  Proof. intros H. rewrite !nth_error_app2 by lia. now rewrite L1, L2. Qed.
  Lemma swap_sub off n : 12 <= off -> sub (h2 ++ x) off n = sub (h1 ++ x) off n.
  Proof. intros H. unfold sub. rewrite !skipn_app, L1, L2, (skipn_all2 h1), (skipn_all2 h2) by lia. reflexivity. Qed.
  Lemma swap_len : length (h2 ++ x) = length (h1 ++ x).
  Proof. rewrite !app_length. lia. Qed.
  Lemma swap_name off ls e : name_at (h1 ++ x) off ls e -> name_at (h2 ++ x) off ls e.
  Proof.
    induction 1 as [off O Z|off l ls e O L Z B S1 H IH|off hi lo ls e Z Z1 Q1 Q2 P H IH].
    - apply na_root; [assumption|]. now rewrite swap_nth.
    - apply na_label; auto; [now rewrite swap_nth|now rewrite swap_len|rewrite swap_sub by lia; assumption].
    - assert (12 <= N.to_nat ((hi - 192) * 256 + lo)) by (eapply name_at_start; exact H).
      apply na_ptr with (hi := hi) (lo := lo) (e := e); auto; rewrite swap_nth by lia; assumption.
  Qed.
  Lemma swap_data R off ds e : data_at R (h1 ++ x) off ds e -> 12 <= off -> data_at R (h2 ++ x) off ds e.
  Proof.
    induction 1 as [off|off b ds e B S1 H IH|off n n' e1 ds e HN HR H IH]; intros O.
    - constructor.
    - constructor; [now rewrite swap_len|rewrite swap_sub by lia; assumption|apply IH; lia].
    - econstructor; [apply swap_name; exact HN|exact HR|]. apply IH. apply name_at_end in HN. lia.
  Qed.
  Lemma swap_rr R off r e : rr_at R (h1 ++ x) off r e -> rr_at R (h2 ++ x) off r e.
  Proof.
    intros (o & e1 & HN & HR & HE & HL & HS & HD). pose proof (name_at_end _ _ _ _ HN) as E. pose proof (name_at_start _ _ _ _ HN).
    exists o, e1. split; [now apply swap_name|]. split; [assumption|]. split; [now rewrite swap_len|]. split; [assumption|].
    split; [rewrite swap_sub by lia; assumption|]. apply swap_data; [assumption|lia].
  Qed.
  Lemma swap_rrs R off rs e : rrs_at R (h1 ++ x) off rs e -> rrs_at R (h2 ++ x) off rs e.
  Proof. induction 1; [constructor|]. econstructor; [apply swap_rr|]; eassumption. Qed.
  Lemma swap_reply R mx start an ns ar rc aa r : reply_ok R mx start (h1 ++ x) an ns ar rc aa r -> reply_ok R mx start (h2 ++ x) an ns ar rc aa r.
  Proof.
    intros (k & an' & ns' & ar' & e1 & e2 & H1 & H2 & H3 & H4 & H5 & H6 & H7 & H8 & H9 & H10 & H11 & H12 & H13).
    exists k, an', ns', ar', e1, e2. rewrite swap_len. repeat (split; [assumption || (apply swap_rrs; assumption)|]). assumption.
  Qed.
End Swap.

(** ** The flags byte *)
Lemma flags_eq b aa tc : (b < 256)%N -> N.testbit b 7 = false ->
  N.lor (N.lor (N.lor (N.land b 121) 128) (if aa : bool then 4 else 0)) (if tc : bool then 2 else 0) =
  (128 + 8 * ((b / 8) mod 16) + (if aa then 4 else 0) + (if tc then 2 else 0) + b mod 2)%N.
Proof.
  intros H Q.
  pose proof (small_byte_check (fun b => N.testbit b 7 || forallb (fun a => forallb (fun c =>
     N.eqb (N.lor (N.lor (N.lor (N.land b 121) 128) a) c) (128 + 8 * ((b / 8) mod 16) + a + c + b mod 2)) [0; 2]%N) [0; 4]%N)%bool) as S.
  specialize (S ltac:(vm_compute; reflexivity) b H). cbv beta in S. rewrite Q in S. cbn [orb forallb] in S.
  rewrite !andb_true_iff, !N.eqb_eq in S. destruct aa, tc; intuition.
Qed.

(** ** The OPT record *)
Definition ewf2 (cfg : pcfg) (e : edns) : Prop :=
  ewf e /\ ((e_respond_ecs e = true -> c_ecs cfg = true) /\ (e_ck_respond e = true -> c_disable_cookies cfg = false)) /\ (e_respond_ecs e = true -> (e_ecs_family e = 1 /\ e_ecs_mask e <= 32)%N \/ (e_ecs_family e = 2 /\ e_ecs_mask e <= 128)%N) /\
  (e_respond_nsid e = true -> c_nsid cfg <> []) /\ (e_ck_respond e = true -> e_ck_recvd e = true).
Definition predicted (cfg : pcfg) (dso : bool) (e : edns) : Prop :=
  e_out_bytes e = (11 + N.of_nat (length (opts_wire (base_opts cfg dso e 0))))%N.

Lemma opts_wire_app a b : opts_wire (a ++ b) = opts_wire a ++ opts_wire b.
Proof. unfold opts_wire. now rewrite map_app, concat_app. Qed.
Lemma opts_wire_1 o : opts_wire [o] = opt_wire o.
Proof. unfold opts_wire. cbn [map concat]. apply app_nil_r. Qed.
Lemma base_opts_len cfg dso e scope scope' : length (opts_wire (base_opts cfg dso e scope)) = length (opts_wire (base_opts cfg dso e scope')).
Proof.
  unfold base_opts. rewrite !opts_wire_app, !app_length. f_equal. destruct (e_respond_ecs e); [|reflexivity].
  rewrite !opts_wire_1, !opt_wire_len. cbn [snd]. rewrite !app_length. reflexivity.
Qed.

Lemma be16_len v : length (be16 v) = 2. Proof. reflexivity. Qed.
Lemma be32_len v : length (be32 v) = 4. Proof. reflexivity. Qed.

Lemma pad_arith (n : N) : let pad := (((n + 4 + 468 - 1) / 468) * 468 - 4 - n)%N in
  ((n + 4 + pad) mod 468 = 0)%N /\ (pad < 468)%N /\ (n + 4 + pad = ((n + 4 + 468 - 1) / 468) * 468)%N.
Proof.
  cbv zeta. set (k := ((n + 4 + 468 - 1) / 468)%N).
  pose proof (N.div_mod (n + 4 + 468 - 1) 468 ltac:(lia)) as D. pose proof (N.mod_lt (n + 4 + 468 - 1) 468 ltac:(lia)) as M. fold k in D.
  assert (E : (n + 4 + (k * 468 - 4 - n) = k * 468)%N) by lia. split; [rewrite E; apply N.mod_mul; lia|]. split; lia.
Qed.

Section Edns.
  Variable cfg : pcfg.

  Lemma ecs_addr_ok e : ewf2 cfg e -> e_respond_ecs e = true ->
    length (ecs_addr e) = (N.to_nat (e_ecs_mask e) + 7) / 8 /\ length (ecs_addr e) <= 16.
  Proof.
    intros ((W4 & W6 & _) & _ & HF & _) HR. specialize (HF HR). unfold ecs_addr. rewrite firstn_length.
    assert (B4 : (e_ecs_mask e <= 32)%N -> (N.to_nat (e_ecs_mask e) + 7) / 8 <= 4).
    { intros Q. transitivity ((32 + 7) / 8); [apply Nat.div_le_mono; lia|reflexivity]. }
    assert (B6 : (e_ecs_mask e <= 128)%N -> (N.to_nat (e_ecs_mask e) + 7) / 8 <= 16).
    { intros Q. transitivity ((128 + 7) / 8); [apply Nat.div_le_mono; lia|]. apply Nat.leb_le. reflexivity. }
    destruct HF as [[-> Q]|[-> Q]]; cbn [N.eqb Pos.eqb].
    - rewrite W4. specialize (B4 Q). lia.
    - rewrite W6. specialize (B6 Q). lia.
  Qed.

  Lemma opt_room_max : (17 <= opt_room cfg <= 65 + N.of_nat (length (c_nsid cfg)))%N.
  Proof. unfold opt_room. destruct (c_ecs cfg), (c_disable_cookies cfg), (c_nsid cfg); cbn [length]; lia. Qed.
  Lemma base_opts_max dso e scope : ewf2 cfg e -> length (opts_wire (base_opts cfg dso e scope)) <= N.to_nat (opt_room cfg) - 11.
  Proof.
    intros W. pose proof (ecs_addr_ok e W) as A. destruct W as ((_ & _ & WC) & (WE & WK) & _ & WN & _). unfold base_opts. rewrite !opts_wire_app, !app_length.
    assert (H1 : length (opts_wire (if e_respond_ecs e then [(8%N, be16 (e_ecs_family e) ++ [e_ecs_mask e; if (e_ecs_mask e =? 0)%N then 0%N else (scope mod 256)%N] ++ ecs_addr e)] else [])) <= if c_ecs cfg then 24 else 0).
    { destruct (e_respond_ecs e); [|cbn; lia]. rewrite (WE eq_refl). specialize (A eq_refl). rewrite opts_wire_1, opt_wire_len. cbn [snd]. rewrite !app_length, be16_len. cbn [length]. lia. }
    assert (H2 : length (opts_wire (if e_ck_respond e then [(10%N, e_ck_output e)] else [])) <= if c_disable_cookies cfg then 0 else 20).
    { destruct (e_ck_respond e); [|cbn; lia]. rewrite (WK eq_refl). rewrite opts_wire_1, opt_wire_len. cbn [snd]. lia. }
    assert (H3 : length (opts_wire (if c_is_udp cfg || dso then [] else [(11%N, be16 (c_keepalive cfg))])) <= 6).
    { destruct (c_is_udp cfg || dso); [cbn; lia|]. rewrite opts_wire_1, opt_wire_len. cbn [snd]. rewrite be16_len. lia. }
    assert (H4 : length (opts_wire (if e_respond_nsid e then [(3%N, c_nsid cfg)] else [])) <= match c_nsid cfg with [] => 0 | _ => 4 + length (c_nsid cfg) end).
    { destruct (e_respond_nsid e); [|cbn; lia]. rewrite opts_wire_1, opt_wire_len. cbn [snd]. specialize (WN eq_refl). destruct (c_nsid cfg); [congruence|]. lia. }
    unfold opt_room. destruct (c_ecs cfg), (c_disable_cookies cfg), (c_nsid cfg); cbn [length] in *; lia.
  Qed.

  Hypothesis pad_tcp : c_tcp_pad cfg = true -> c_is_udp cfg = false.
  Lemma do_edns_ok dso e out scope rv : ewf2 cfg e -> predicted cfg dso e ->
    (N.of_nat (length out) + e_out_bytes e <= 16376)%N ->
    exists pad, do_edns_output cfg dso e out scope rv = Ok (out ++ optrr_wire (response_opt cfg dso e scope rv pad)) /\
      pad < 468 /\ (N.of_nat (length (out ++ optrr_wire (response_opt cfg dso e scope rv pad))) <= 16382)%N /\
      (if c_tcp_pad cfg then (N.of_nat (length (out ++ optrr_wire (response_opt cfg dso e scope rv pad))) mod 468 = 0)%N
       else N.of_nat (length (optrr_wire (response_opt cfg dso e scope rv pad))) = e_out_bytes e).
  Proof.
    intros W HP HB. unfold predicted in HP. rewrite (base_opts_len _ _ _ 0%N scope) in HP.
    set (ext := ((match rv with DECODE_BADVERS => 16777216 | _ => 0 end) + (if e_do e then 32768 else 0))%N).
    assert (EX : N.lor (match rv with DECODE_BADVERS => 16777216 | _ => 0 end) (if e_do e then 32768 else 0) = ext)
      by (unfold ext; destruct rv, (e_do e); reflexivity).
    pose proof (ecs_addr_ok e W) as A.
    destruct W as ((W4 & W6 & WC) & _ & HF & HN & HC).
    unfold do_edns_output. cbv zeta. rewrite EX.
    unfold base_opts in *. 
    set (o1 := if e_respond_ecs e then _ else _) in *. set (o2 := if e_ck_respond e then _ else _) in *.
    set (o3 := if c_is_udp cfg || dso then _ else _) in *. set (o4 := if e_respond_nsid e then _ else _) in *.
    rewrite !opts_wire_app, !app_length in HP.
    set (hd := [0%N] ++ be16 41 ++ be16 1024 ++ be32 ext). assert (LH : length hd = 9) by reflexivity.
    rewrite emit_ok by (unfold MAX_BUF; rewrite LH; lia). cbn [rbind].
    rewrite emit_ok by (unfold MAX_BUF; rewrite app_length, LH; cbn [length]; lia). cbn [rbind].
    set (b0 := (out ++ hd) ++ [0; 0]%N). assert (L0 : length b0 = length out + 11) by (unfold b0; rewrite !app_length, LH; cbn [length]; lia).
    (* client subnet *)
    match goal with |- context [rbind (if e_respond_ecs e then ?X else ?Y) _] =>
      assert (E1 : (if e_respond_ecs e then X else Y) = Ok (b0 ++ opts_wire o1, N.of_nat (length (opts_wire o1)))) end.
    { unfold o1 in *. destruct (e_respond_ecs e); [|cbn; now rewrite app_nil_r]. specialize (HF eq_refl). specialize (A eq_refl).
      rewrite opts_wire_1 in *. rewrite opt_wire_len in *. cbn [snd] in *. rewrite !app_length, be16_len in *. cbn [length] in HP |- *.
      assert (EB : (N.shiftr (e_ecs_mask e) 3 + (if (N.land (e_ecs_mask e) 7 =? 0)%N then 0 else 1))%N = N.of_nat (length (ecs_addr e))).
      { apply N2Nat.inj. rewrite addr_bytes_eq, Nat2N.id. symmetry. apply A. }
      rewrite EB. rewrite emit_ok by (unfold MAX_BUF; rewrite !app_length, !be16_len; cbn [length]; lia). cbn [rbind].
      assert (EM : (e_ecs_mask e mod 256 = e_ecs_mask e)%N) by (apply N.mod_small; lia). rewrite EM.
      replace ((if (e_ecs_mask e =? 0)%N then 0 else scope) mod 256)%N with (if (e_ecs_mask e =? 0)%N then 0%N else (scope mod 256)%N)
        by (destruct (e_ecs_mask e =? 0)%N; reflexivity).
      set (sc := if (e_ecs_mask e =? 0)%N then 0%N else (scope mod 256)%N).
      match goal with |- context [rbind (if (e_ecs_mask e =? 0)%N then Ok ?x else ?Y) _] =>
        assert (E : (if (e_ecs_mask e =? 0)%N then Ok x else Y) = Ok (x ++ ecs_addr e)) end.
      { destruct (N.eqb_spec (e_ecs_mask e) 0) as [Z|Z].
        - replace (ecs_addr e) with (@nil N); [now rewrite app_nil_r|]. unfold ecs_addr. rewrite Z. reflexivity.
        - assert (NZ : length (ecs_addr e) <> 0).
          { destruct A as [A _]. rewrite A. intros Q. assert (1 <= (N.to_nat (e_ecs_mask e) + 7) / 8); [|lia].
            apply (Nat.div_le_lower_bound _ 8 1); lia. }
          destruct (N.eqb_spec (N.of_nat (length (ecs_addr e))) 0) as [Q|_]; [lia|]. cbn [negb rassert]. rewrite Nat2N.id.
          destruct HF as [[F Q]|[F Q]]; rewrite F; cbn [N.eqb Pos.eqb rassert].
          + unfold rdn. destruct A as [A1 A2]. assert (length (ecs_addr e) <= 4).
            { unfold ecs_addr. rewrite F. cbn [N.eqb Pos.eqb]. rewrite firstn_length. lia. }
            destruct (Nat.leb_spec (0 + length (ecs_addr e)) (length (e_v4 e))) as [_|X]; [|lia]. cbn [rbind skipn].
            replace (firstn (length (ecs_addr e)) (e_v4 e)) with (ecs_addr e) by (rewrite A1; unfold ecs_addr; rewrite F; reflexivity).
            apply emit_ok. unfold MAX_BUF. rewrite !app_length, !be16_len. cbn [length]. lia.
          + unfold rdn. destruct A as [A1 A2].
            destruct (Nat.leb_spec (0 + length (ecs_addr e)) (length (e_v6 e))) as [_|X]; [|lia]. cbn [rbind skipn].
            replace (firstn (length (ecs_addr e)) (e_v6 e)) with (ecs_addr e) by (rewrite A1; unfold ecs_addr; rewrite F; reflexivity).
            apply emit_ok. unfold MAX_BUF. rewrite !app_length, !be16_len. cbn [length]. lia. }
      rewrite E. cbn [rbind]. f_equal. f_equal; [|lia].
      unfold opt_wire. cbn [fst snd]. rewrite !app_length, be16_len. cbn [length].
      match goal with |- context [be16 (N.of_nat ?k)] => replace (N.of_nat k) with (4 + N.of_nat (length (ecs_addr e)))%N by lia end.
      rewrite <- !app_assoc. reflexivity. }
    rewrite E1. cbn [rbind]. clear E1.
    set (b1 := b0 ++ opts_wire o1). assert (L1 : length b1 = length out + 11 + length (opts_wire o1)) by (unfold b1; rewrite app_length; lia).
    (* cookie *)
    match goal with |- context [rbind (if e_ck_respond e then ?X else ?Y) _] =>
      assert (E1 : (if e_ck_respond e then X else Y) = Ok (b1 ++ opts_wire o2, (N.of_nat (length (opts_wire o1)) + N.of_nat (length (opts_wire o2)))%N)) end.
    { unfold o2 in *. destruct (e_ck_respond e); [|cbn; now rewrite app_nil_r, N.add_0_r]. rewrite HC by reflexivity. cbn [rassert].
      rewrite opts_wire_1 in *. rewrite opt_wire_len in *. cbn [snd] in *. rewrite WC in *.
      rewrite emit_ok by (unfold MAX_BUF; rewrite !app_length, !be16_len, WC; cbn [length]; lia). cbn [rbind]. f_equal.
      unfold opt_wire. cbn [fst snd]. rewrite WC. reflexivity. }
    rewrite E1. cbn [rbind]. clear E1.
    set (b2 := b1 ++ opts_wire o2). assert (L2 : length b2 = length out + 11 + length (opts_wire o1) + length (opts_wire o2)) by (unfold b2; rewrite app_length; lia).
    (* keepalive *)
    match goal with |- context [rbind (if (negb (c_is_udp cfg) && negb dso)%bool then ?X else ?Y) _] =>
      assert (E1 : (if (negb (c_is_udp cfg) && negb dso)%bool then X else Y) =
        Ok (b2 ++ opts_wire o3, (N.of_nat (length (opts_wire o1)) + N.of_nat (length (opts_wire o2)) + N.of_nat (length (opts_wire o3)))%N)) end.
    { unfold o3 in *. rewrite <- negb_orb. destruct (c_is_udp cfg || dso)%bool; [cbn; now rewrite app_nil_r, N.add_0_r|]. cbn [negb].
      rewrite opts_wire_1 in *. rewrite opt_wire_len in *. cbn [snd] in *. rewrite be16_len in *.
      rewrite emit_ok by (unfold MAX_BUF; rewrite !app_length, !be16_len; cbn [length]; lia). cbn [rbind]. f_equal. }
    rewrite E1. cbn [rbind]. clear E1.
    set (b3 := b2 ++ opts_wire o3). assert (L3 : length b3 = length out + 11 + length (opts_wire o1) + length (opts_wire o2) + length (opts_wire o3)) by (unfold b3; rewrite app_length; lia).
    (* NSID *)
    match goal with |- context [rbind (if e_respond_nsid e then ?X else ?Y) _] =>
      assert (E1 : (if e_respond_nsid e then X else Y) =
        Ok (b3 ++ opts_wire o4, (N.of_nat (length (opts_wire o1)) + N.of_nat (length (opts_wire o2)) + N.of_nat (length (opts_wire o3)) + N.of_nat (length (opts_wire o4)))%N)) end.
    { unfold o4 in *. destruct (e_respond_nsid e); [|cbn; now rewrite app_nil_r, N.add_0_r]. specialize (HN eq_refl).
      assert (length (c_nsid cfg) <> 0) by (destruct (c_nsid cfg); [congruence|discriminate]).
      destruct (N.eqb_spec (N.of_nat (length (c_nsid cfg))) 0) as [Q|_]; [lia|]. cbn [negb rassert].
      rewrite opts_wire_1 in *. rewrite opt_wire_len in *. cbn [snd] in *.
      rewrite emit_ok by (unfold MAX_BUF; rewrite !app_length, !be16_len; cbn [length]; lia). cbn [rbind]. f_equal. f_equal; lia. }
    rewrite E1. cbn [rbind]. clear E1.
    set (b4 := b3 ++ opts_wire o4). assert (L4 : length b4 = length out + 11 + length (opts_wire o1) + length (opts_wire o2) + length (opts_wire o3) + length (opts_wire o4)) by (unfold b4; rewrite app_length; lia).
    destruct (N.eqb_spec (e_out_bytes e) (11 + (N.of_nat (length (opts_wire o1)) + N.of_nat (length (opts_wire o2)) + N.of_nat (length (opts_wire o3)) + N.of_nat (length (opts_wire o4))))) as [_|Q]; [|lia].
    cbn [rassert].
    set (os := o1 ++ o2 ++ o3 ++ o4). assert (LO : length (opts_wire os) = length (opts_wire o1) + length (opts_wire o2) + length (opts_wire o3) + length (opts_wire o4)).
    { unfold os. rewrite !opts_wire_app, !app_length. lia. }
    assert (EB4 : b4 = (out ++ hd) ++ [0; 0]%N ++ opts_wire os).
    { unfold b4, b3, b2, b1, b0, os. rewrite !opts_wire_app, <- !app_assoc. reflexivity. }
    set (n := N.of_nat (length b4)). destruct (pad_arith n) as (P1 & P2 & P3). set (pad := (((n + 4 + 468 - 1) / 468) * 468 - 4 - n)%N) in *.
    assert (FIN : forall (os' : list (N * list N)), wr ((out ++ hd) ++ [0; 0]%N ++ opts_wire os') (length (out ++ hd)) (be16 (N.of_nat (length (opts_wire os'))))
       = Ok (out ++ optrr_wire {| o_size := 1024; o_ext := ext; o_opts := os' |})).
    { intros os'. rewrite wr_prefix by (rewrite be16_len; cbn; lia). rewrite be16_len. cbn [skipn app]. f_equal.
      unfold optrr_wire. cbn [o_size o_ext o_opts]. unfold hd. rewrite <- !app_assoc. reflexivity. }
    assert (EMPTY : forall (os' : list (N * list N)), length (optrr_wire {| o_size := 1024; o_ext := ext; o_opts := os' |}) = 11 + length (opts_wire os')).
    { intros os'. unfold optrr_wire. cbn [o_size o_ext o_opts]. rewrite !app_length, !be16_len, be32_len. cbn [length]. lia. }
    unfold response_opt. fold ext. unfold base_opts. fold o1 o2 o3 o4. fold os.
    destruct (c_tcp_pad cfg) eqn:TP.
    - exists (N.to_nat pad). rewrite pad_tcp by reflexivity. cbn [negb rassert].
      destruct (N.leb_spec n 16376) as [_|Q]; [|unfold n in Q; lia]. cbn [rassert].
      assert (N16 : (n + 4 + pad <= 16380)%N).
      { rewrite P3. apply N.le_trans with (35 * 468)%N; [|lia]. apply N.mul_le_mono_r. enough ((n + 4 + 468 - 1) / 468 < 36)%N by lia.
        apply N.div_lt_upper_bound; [lia|]. unfold n. lia. }
      destruct (N.leb_spec (n + 4 + pad) 16382) as [_|Q]; [|lia]. cbn [rassert].
      assert (LP : length (be16 EDNS_PADDING ++ be16 pad ++ repeat 0%N (N.to_nat pad)) = 4 + N.to_nat pad) by (rewrite !app_length, !be16_len, repeat_length; lia).
      rewrite emit_ok by (unfold MAX_BUF; rewrite LP; lia). cbn [rbind].
      set (pd := be16 EDNS_PADDING ++ be16 pad ++ repeat 0%N (N.to_nat pad)) in *.
      assert (EP : pd = opts_wire [(12%N, repeat 0%N (N.to_nat pad))]).
      { rewrite opts_wire_1. unfold opt_wire. cbn [fst snd]. rewrite repeat_length, N2Nat.id. reflexivity. }
      assert (LN : N.of_nat (length (b4 ++ pd)) = (n + 4 + pad)%N) by (rewrite app_length, LP; unfold n; lia).
      rewrite LN, P1. cbn [N.eqb rassert rbind].
      replace (b4 ++ pd) with ((out ++ hd) ++ [0; 0]%N ++ opts_wire (os ++ [(12%N, repeat 0%N (N.to_nat pad))])) by (rewrite EB4, opts_wire_app, EP, <- !app_assoc; reflexivity).
      assert (LR : length (opts_wire (os ++ [(12%N, repeat 0%N (N.to_nat pad))])) = length (opts_wire os) + (4 + N.to_nat pad)) by (rewrite opts_wire_app, app_length, <- EP; lia).
      match goal with |- context [wr _ _ (be16 ?r)] => replace r with (N.of_nat (length (opts_wire (os ++ [(12%N, repeat 0%N (N.to_nat pad))])))) by (rewrite LR; lia) end.
      rewrite FIN. split; [reflexivity|]. split; [lia|].
      assert (LF : N.of_nat (length (out ++ optrr_wire {| o_size := 1024; o_ext := ext; o_opts := os ++ [(12%N, repeat 0%N (N.to_nat pad))] |})) = (n + 4 + pad)%N).
      { rewrite app_length, EMPTY, LR. unfold n. lia. }
      rewrite LF. split; [lia|exact P1].
    - exists 0. cbn [rbind].
      match goal with |- context [wr _ _ (be16 ?r)] => replace r with (N.of_nat (length (opts_wire os))) by (rewrite LO; lia) end.
      rewrite app_nil_r, EB4, FIN. split; [reflexivity|]. split; [lia|]. rewrite app_length, EMPTY. split; lia.
  Qed.
End Edns.
