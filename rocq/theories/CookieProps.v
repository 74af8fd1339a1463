(** Cookies: C16. *)
From Verif Require Import Base CookieModel CookieSpec.
Open Scope N_scope.
Ltac Zify.zify_post_hook ::= idtac.

Section Crypto.
  Variable kdf : N -> bytes.
  Variable hash : bytes -> bytes -> bytes.
  Hypothesis hash_len : forall k m, length (hash k m) = 8%nat.

  Lemma input_ok a data : addr_ok a -> (8 <= length data)%nat -> scookie_input a data = Ok (signed a (firstn 8 data)).
  Proof.
    intros HA HL. unfold scookie_input. assert (EC : rdn data 0 CCOOKIE_LEN = Ok (firstn 8 data)) by (rewrite rdn_ok by (unfold CCOOKIE_LEN; lia); reflexivity).
    assert (LF : length (firstn 8 data) = 8%nat) by (rewrite firstn_length; lia). destruct a as [ip|ip]; cbn [addr_ok] in HA.
    - destruct ip as [|a [|b [|c [|d [|]]]]]; try discriminate HA. cbn [rdn wr rbind]. cbn -[CCOOKIE_LEN firstn]. rewrite EC. cbn [rbind]. destruct (firstn 8 data) as [|b0 [|b1 [|b2 [|b3 [|b4 [|b5 [|b6 [|b7 [|]]]]]]]]]; try discriminate LF. reflexivity.
    - do 16 (destruct ip as [|? ip]; [discriminate HA|]). destruct ip; [|discriminate HA]. cbn -[CCOOKIE_LEN firstn]. rewrite EC. cbn [rbind]. destruct (firstn 8 data) as [|b0 [|b1 [|b2 [|b3 [|b4 [|b5 [|b6 [|b7 [|]]]]]]]]]; try discriminate LF. reflexivity.
  Qed.

  Lemma process_ok keys a data : addr_ok a -> (length data = 8 \/ 16 <= length data <= 40)%nat ->
    exists v, cookie_process hash keys a data = Ok (v, firstn 8 data ++ hash (k_current keys) (signed a (firstn 8 data))) /\
      (v = true <-> exists sent k, data = firstn 8 data ++ sent /\ length sent = 8%nat /\ In k [k_previous keys; k_current keys; k_next keys] /\ sent = hash k (signed a (firstn 8 data))).
  Proof.
    intros HA HL. unfold cookie_process.
    replace (Nat.eqb (length data) CCOOKIE_LEN || (Nat.leb (CCOOKIE_LEN + SCOOKIE_LEN) (length data) && Nat.leb (length data) 40))%bool with true.
    2:{ symmetry. unfold CCOOKIE_LEN, SCOOKIE_LEN. destruct HL as [->|[L1 L2]]; [reflexivity|]. apply orb_true_iff. right. apply andb_true_iff. split; apply Nat.leb_le; lia. }
    cbn [rassert]. rewrite input_ok by (auto; lia). cbn [rbind]. set (m := signed a (firstn 8 data)).
    assert (EC : rdn data 0 CCOOKIE_LEN = Ok (firstn 8 data)) by (rewrite rdn_ok by (unfold CCOOKIE_LEN; lia); reflexivity). rewrite EC.
    destruct (Nat.ltb_spec CCOOKIE_LEN (length data)) as [LT|GE]; unfold CCOOKIE_LEN in *.
    - destruct HL as [HL|HL]; [lia|]. rewrite rdn_ok by (unfold SCOOKIE_LEN; lia). cbn [rbind]. eexists. split; [reflexivity|].
      unfold SCOOKIE_LEN. set (sent := sub data 8 8). assert (LS : length sent = 8%nat) by (unfold sent, sub; rewrite firstn_length, skipn_length; lia).
      assert (CMP : forall x, sodium_memcmp x sent = if list_eq_dec N.eq_dec x sent then 0%Z else (-1)%Z) by reflexivity.
      assert (AND : Z.land (Z.land (sodium_memcmp (hash (k_previous keys) m) sent) (sodium_memcmp (hash (k_current keys) m) sent)) (sodium_memcmp (hash (k_next keys) m) sent) = 0%Z <-> exists k, In k [k_previous keys; k_current keys; k_next keys] /\ sent = hash k m).
      { rewrite !CMP. destruct (list_eq_dec N.eq_dec (hash (k_previous keys) m) sent) as [E1|E1]; [split; [intros _; exists (k_previous keys); cbn; auto|reflexivity]|].
        destruct (list_eq_dec N.eq_dec (hash (k_current keys) m) sent) as [E2|E2]; [split; [intros _; exists (k_current keys); cbn; auto|destruct (list_eq_dec N.eq_dec (hash (k_next keys) m) sent); reflexivity]|].
        destruct (list_eq_dec N.eq_dec (hash (k_next keys) m) sent) as [E3|E3]; [split; [intros _; exists (k_next keys); cbn; auto|reflexivity]|].
        split; [discriminate|]. intros (k & IK & E). cbn in IK. destruct IK as [<-|[<-|[<-|[]]]]; congruence. }
      rewrite Z.eqb_eq, Z.lor_eq_0_iff, AND, Z.lxor_eq_0_iff.
      assert (DEC : data = firstn 8 data ++ skipn 8 data) by (symmetry; apply firstn_skipn). split.
      + intros [(k & IK & E) LEN]. exists sent, k. split; [|auto]. rewrite DEC at 1. f_equal. unfold sent, sub. symmetry. apply firstn_all2. rewrite skipn_length. lia.
      + intros (s & k & E & LS' & IK & ES). assert (LD : length data = 16%nat). { rewrite E, app_length, firstn_length. lia. }
        assert (s = sent). { assert (X : skipn 8 data = s) by (rewrite E, skipn_app, firstn_length; replace (8 - Nat.min 8 (length data))%nat with 0%nat by lia; rewrite skipn_all2 by (rewrite firstn_length; lia); reflexivity). unfold sent, sub. rewrite X. symmetry. apply firstn_all2. lia. }
        subst s. split; [eauto|]. rewrite LD. reflexivity.
    - cbn [rbind]. eexists. split; [reflexivity|]. split; [discriminate|]. intros (s & k & E & LS & _). exfalso. assert (X : length data = (8 + 8)%nat) by (rewrite E, app_length, firstn_length; lia). lia.
  Qed.

  (** *** C16 *)
  (** For every option a client may send, the answer repeats the client's part
      and carries the current key's hash of it and the address; the option is
      valid exactly if it is 16 bytes long and its second half is that hash
      under the key of this hour, the one before or the one after. *)
  Theorem C16_validity (now : N) (client : addr) (data : bytes) :
    addr_ok client -> (length data = 8 \/ 16 <= length data <= 40)%nat -> 3600 <= now < two64 ->
    exists v, cookie_process hash (rotate_timekeys kdf now) client data
        = Ok (v, firstn 8 data ++ hash (kdf (now / 3600)) (signed client (firstn 8 data))) /\
      (v = true <-> exists ccookie sent h, data = ccookie ++ sent /\ length ccookie = 8%nat /\
         now / 3600 - 1 <= h <= now / 3600 + 1 /\ sent = hash (kdf h) (signed client ccookie)).
  Proof.
    intros HA HL HN. destruct (process_ok (rotate_timekeys kdf now) client data HA HL) as (v & E & V). exists v. split; [exact E|]. rewrite V. clear E V.
    cbn [rotate_timekeys k_previous k_current k_next]. set (c := now / 3600). assert (HC : 1 <= c < two64 - 1).
    { unfold c, two64 in *. split; [apply N.div_le_lower_bound; lia|]. apply N.div_lt_upper_bound; lia. }
    assert (EP : (c + (two64 - 1)) mod two64 = c - 1). { replace (c + (two64 - 1)) with (c - 1 + 1 * two64) by lia. rewrite N.mod_add by (unfold two64; lia). apply N.mod_small. lia. }
    assert (EX : (c + 1) mod two64 = c + 1) by (apply N.mod_small; lia). rewrite EP, EX. split.
    - intros (sent & k & ED & LS & IK & ES). exists (firstn 8 data), sent. assert (LF : length (firstn 8 data) = 8%nat) by (rewrite firstn_length; lia). cbn [In] in IK.
      destruct IK as [<-|[<-|[<-|[]]]]; [exists (c - 1)|exists c|exists (c + 1)]; (split; [exact ED|]); (split; [exact LF|]); (split; [lia|exact ES]).
    - intros (cc & sent & h & -> & LC & HH & ES). assert (EF : firstn 8 (cc ++ sent) = cc) by (rewrite firstn_app, LC, Nat.sub_diag, firstn_O, app_nil_r; apply firstn_all2; lia). rewrite EF.
      exists sent, (kdf h). split; [reflexivity|]. split; [rewrite ES; apply hash_len|]. split; [|exact ES]. assert (h = c - 1 \/ h = c \/ h = c + 1) as [-> | [-> | ->]] by lia; cbn; auto.
  Qed.

  (** A cookie that one server gave out is accepted by any server with the same
      primary key (itself included, restarted or not), if the second one's
      clock then shows at most an hour, less 2.02 s and the timer's delay,
      more or less than the first one's did. *)
  Theorem C16_issued_cookies_accepted (delay t1 t2 : N) (rots1 rots2 : list N) (client : addr) (ccookie : bytes) :
    addr_ok client -> length ccookie = 8%nat ->
    punctual delay t1 rots1 -> punctual delay t2 rots2 ->
    HOUR <= latest rots1 -> HOUR <= latest rots2 -> t1 < two64 -> t2 < two64 ->
    t1 + 202 + delay <= t2 + HOUR -> t2 + 202 + delay <= t1 + HOUR ->
    exists v out, cookie_process hash (rotate_timekeys kdf (latest rots1 / 100)) client ccookie = Ok (v, out) /\
      exists out', cookie_process hash (rotate_timekeys kdf (latest rots2 / 100)) client out = Ok (true, out').
  Proof.
    intros HA LC P1 P2 B1 B2 W1 W2 D1 D2.
    assert (G : forall t rots, punctual delay t rots -> latest rots <= t /\ (forall k, k * HOUR + 202 + delay <= t -> k * HOUR + 202 <= latest rots)).
    { assert (GE : forall l r, In r l -> r <= latest l) by (induction l as [|x l IH]; intros r []; cbn; [subst; lia|]; specialize (IH r H); unfold latest in IH; lia).
      assert (IN : forall l, l <> [] -> In (latest l) l).
      { induction l as [|x l IH]; [congruence|]. intros _. cbn. destruct l as [|y l]; [left; cbn; lia|]. destruct (N.max_spec x (latest (y :: l))) as [[_ E]|[_ E]]; unfold latest in *; cbn [fold_right] in *; rewrite E; [right; apply IH; congruence|auto]. }
      intros t rots (NE & LE & TK). split; [apply LE, IN, NE|]. intros k K. destruct (TK k K) as (r & IR & R). apply GE in IR. lia. }
    destruct (G t1 rots1 P1) as [U1 T1]. destruct (G t2 rots2 P2) as [U2 T2]. clear G.
    set (n1 := latest rots1 / 100). set (n2 := latest rots2 / 100).
    assert (EH : forall x, x / 100 / 3600 = x / HOUR) by (intros x; rewrite N.div_div by lia; reflexivity).
    assert (N1 : 3600 <= n1 < two64). { unfold n1. unfold HOUR in *. split; [apply N.div_le_lower_bound; lia|]. apply N.div_lt_upper_bound; lia. }
    assert (N2 : 3600 <= n2 < two64). { unfold n2. unfold HOUR in *. split; [apply N.div_le_lower_bound; lia|]. apply N.div_lt_upper_bound; lia. }
    destruct (C16_validity n1 client ccookie HA ltac:(lia) N1) as (v & E & _). exists v. eexists. split; [exact E|].
    assert (FC : firstn 8 ccookie = ccookie) by (apply firstn_all2; lia). rewrite FC in *.
    set (out := ccookie ++ hash (kdf (n1 / 3600)) (signed client ccookie)). assert (LO : length out = 16%nat) by (unfold out; rewrite app_length, hash_len; lia).
    destruct (C16_validity n2 client out HA ltac:(lia) N2) as (v' & E' & V'). assert (v' = true); [|subst v'; eauto]. apply V'. exists ccookie, (hash (kdf (n1 / 3600)) (signed client ccookie)), (n1 / 3600).
    split; [reflexivity|]. split; [exact LC|]. split; [|reflexivity]. unfold n1, n2. rewrite !EH.
    (* the hours differ by at most one *)
    assert (LOW : forall t x, (forall k, k * HOUR + 202 + delay <= t -> k * HOUR + 202 <= x) -> HOUR <= x -> x <= t -> forall y, y + 202 + delay <= t + HOUR -> y / HOUR <= x / HOUR + 1).
    { clear. intros t x T B U y D. destruct (N.le_gt_cases (y / HOUR) (x / HOUR + 1)) as [|GT]; [assumption|exfalso].
      set (k := y / HOUR) in *. assert (KY : k * HOUR <= y) by (unfold k; rewrite N.mul_comm; apply N.mul_div_le; discriminate).
      clearbody k. set (q := x / HOUR) in *. assert (QX : forall j, j * HOUR <= x -> j <= q) by (intros j J; apply N.div_le_lower_bound; [discriminate|]; lia). clearbody q.
      specialize (T (k - 1)). assert (K1 : 1 <= k) by lia. assert ((k - 1) * HOUR + 202 + delay <= t) as H by (unfold HOUR in *; lia). apply T in H.
      assert (Q : k - 1 <= q) by (apply QX; lia). lia. }
    split.
    - pose proof (LOW t1 (latest rots1) T1 B1 U1 (latest rots2) ltac:(lia)). lia.
    - pose proof (LOW t2 (latest rots2) T2 B2 U2 (latest rots1) ltac:(lia)). lia.
  Qed.
End Crypto.
Print Assumptions C16_validity.
Print Assumptions C16_issued_cookies_accepted.

(** The key is kept over restarts: a configured file, or the one in the run
    directory, gives the same key each time; a first start that can write its
    file gives the key to all later ones. *)
Theorem C16_key_survives_restart (random random' : bytes) (n n' : nat) (auto : option bytes) key file :
  length random = KDF_KEYBYTES ->
  cookie_config None auto random n = Some (key, file, false) ->
  cookie_config None file random' n' = Some (key, file, false).
Proof.
  unfold cookie_config. intros LR. destruct (safe_read_keyfile auto) as [k|] eqn:E.
  - intros [= <- <-]. now rewrite E.
  - unfold safe_write_keyfile. destruct auto as [b|]; [discriminate|]. destruct (Nat.eqb_spec n KDF_KEYBYTES) as [->|]; [|discriminate]. cbn [negb]. intros H. assert (K : key = random /\ file = Some (firstn KDF_KEYBYTES random)) by (split; congruence). destruct K as [-> ->]. cbn [safe_read_keyfile].
    assert (FA : firstn KDF_KEYBYTES random = random) by (apply firstn_all2; lia). rewrite !FA. destruct (Nat.leb_spec KDF_KEYBYTES (length random)); [reflexivity|lia].
Qed.
Print Assumptions C16_key_survives_restart.
Theorem C16_configured_key (f : bytes) auto random n random' n' auto' :
  (KDF_KEYBYTES <= length f)%nat -> exists key,
  cookie_config (Some (Some f)) auto random n = Some (key, auto, false) /\ cookie_config (Some (Some f)) auto' random' n' = Some (key, auto', false) /\ key = firstn KDF_KEYBYTES f.
Proof. intros L. exists (firstn KDF_KEYBYTES f). unfold cookie_config, safe_read_keyfile. apply Nat.leb_le in L. rewrite L. auto. Qed.
Print Assumptions C16_configured_key.

(** Finding: a first start that is cut short while writing its key file (a full
    disk, a crash) leaves a short file that no later start can use or replace,
    so every later start makes a new key. *)
Theorem C16_short_key_file_refuted (random random' random'' : bytes) (n n' n'' : nat) :
  length random = KDF_KEYBYTES -> (n < KDF_KEYBYTES)%nat ->
  let file := Some (firstn n random) in
  cookie_config None None random n = Some (random, file, true) /\
  cookie_config None file random' n' = Some (random', file, true) /\ cookie_config None file random'' n'' = Some (random'', file, true).
Proof.
  intros LR LN. cbv zeta. unfold cookie_config. cbn [safe_read_keyfile safe_write_keyfile]. destruct (Nat.eqb_spec n KDF_KEYBYTES); [lia|]. split; [reflexivity|].
  assert (L : Nat.leb KDF_KEYBYTES (length (firstn n random)) = false) by (apply Nat.leb_gt; rewrite firstn_length; lia). rewrite L. auto.
Qed.
Print Assumptions C16_short_key_file_refuted.

Example C16_witness :
  let kdf h := [h mod 256; h / 256] in
  let hash k m := firstn 8 (k ++ m ++ repeat 0 8) in
  (* two servers: one rotated at 10:00:02, one was started at 10:59:59.5 *)
  let rots1 := [37 * HOUR; 38 * HOUR + 210] in let rots2 := [39 * HOUR - 50] in
  punctual 100 (38 * HOUR + 5000) rots1 /\ punctual 100 (39 * HOUR) rots2 /\
  cookie_process hash (rotate_timekeys kdf (latest rots1 / 100)) (A4 [192; 0; 2; 1]) [1;2;3;4;5;6;7;8] = Ok (false, [1;2;3;4;5;6;7;8; 38;0;192;0;2;1;0;0]) /\
  cookie_process hash (rotate_timekeys kdf (latest rots2 / 100)) (A4 [192; 0; 2; 1]) [1;2;3;4;5;6;7;8; 38;0;192;0;2;1;0;0] = Ok (true, [1;2;3;4;5;6;7;8; 38;0;192;0;2;1;0;0]) /\
  cookie_process hash (rotate_timekeys kdf (latest rots2 / 100)) (A4 [192; 0; 2; 2]) [1;2;3;4;5;6;7;8; 38;0;192;0;2;1;0;0] = Ok (false, [1;2;3;4;5;6;7;8; 38;0;192;0;2;2;0;0]).
Proof.
  cbv zeta. split; [|split].
  - split; [discriminate|]. split; [intros r [<-|[<-|[]]]; unfold HOUR; lia|]. intros k K. exists (38 * HOUR + 210). split; [cbn; auto|]. unfold HOUR in *. assert (k <= 38) by lia. nia.
  - split; [discriminate|]. split; [intros r [<-|[]]; unfold HOUR; lia|]. intros k K. exists (39 * HOUR - 50). split; [cbn; auto|]. unfold HOUR in *. assert (k <= 38) by lia. nia.
  - repeat split; vm_compute; reflexivity.
Qed.
