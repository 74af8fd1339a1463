(** Reports fit, and handoffs arrive. *)
From Verif Require Import Base StatModel StatSpec StatProofs.
From Coq Require Import String Ascii DecimalString DecimalFacts DecimalPos DecimalN.
Import List. Import ListNotations. Open Scope list_scope.
Open Scope N_scope.
Ltac Zify.zify_post_hook ::= idtac.

(** *** at most twenty digits *)
Lemma string_len u : String.length (NilEmpty.string_of_uint u) = Decimal.nb_digits u.
Proof. induction u; cbn; auto. Qed.
Lemma acc_big u : forall p, N.pos p * 10 ^ N.of_nat (Decimal.nb_digits u) <= N.pos (Pos.of_uint_acc u p).
Proof.
  induction u; intros p; cbn [Decimal.nb_digits Pos.of_uint_acc]; [rewrite N.mul_1_r; lia|..];
    (etransitivity; [|apply IHu]); rewrite Nat2N.inj_succ, N.pow_succ_r'; try (replace (N.pos (10 * p)) with (10 * N.pos p) by reflexivity); try nia.
Qed.
Lemma decimal_len n : n < two64 -> (String.length (decimal n) <= 20)%nat.
Proof.
  intros B. unfold decimal. rewrite string_len. remember (N.to_uint n) as u eqn:EU.
  assert (EN : N.of_uint u = n) by (subst u; apply DecimalN.Unsigned.of_to).
  assert (EN' : Decimal.unorm u = u) by (rewrite <- DecimalN.Unsigned.to_of, EN; auto).
  assert (BIG : forall l p, n = N.pos (Pos.of_uint_acc l p) -> (S (Decimal.nb_digits l) <= 20)%nat).
  { intros l p E. pose proof (acc_big l p) as A. rewrite <- E in A. destruct (Nat.le_gt_cases (S (Decimal.nb_digits l)) 20) as [H|H]; [exact H|exfalso].
    assert (10 ^ 20 <= 10 ^ N.of_nat (Decimal.nb_digits l)) by (apply N.pow_le_mono_r; lia). assert (two64 < 10 ^ 20) by reflexivity. nia. }
  destruct u as [|l|l|l|l|l|l|l|l|l|l]; cbn [Decimal.nb_digits]; [lia| |..]; try (eapply BIG; symmetry; exact EN).
  cbn [Decimal.unorm] in EN'. unfold Decimal.unorm in EN'. cbn [Decimal.nzhead] in EN'. destruct (Decimal.nzhead l) eqn:EZ; try discriminate.
  - injection EN' as <-. cbn. lia.
  - elim (DecimalFacts.nzhead_nonzero l u EZ).
Qed.

Lemma format_len f : forall args out, Forall (fun a => a < two64) args -> format f args = Ok out -> (String.length out <= String.length f + 17 * List.length args)%nat.
Proof.
  remember (String.length f) as n eqn:EN. assert (LE : (String.length f <= n)%nat) by lia. clear EN. revert f LE.
  assert (G : forall n f, (String.length f <= n)%nat -> forall args out, Forall (fun a => a < two64) args -> format f args = Ok out -> (String.length out <= String.length f + 17 * List.length args)%nat).
  { clear n. induction n as [|n IH]; intros f LE args out FA; (destruct f as [|c f]; [cbn; intros [= <-]; cbn; lia|]; cbn [String.length] in LE); [lia|].
    assert (PL : (do r <- format f args; Ok (String c r)) = Ok out -> (String.length out <= String.length (String c f) + 17 * List.length args)%nat).
    { destruct (format f args) as [r|] eqn:E; cbn [rbind]; [|discriminate]. intros [= <-]. apply IH in E; [|lia|exact FA]. cbn [String.length]. lia. }
    destruct c as [[] [] [] [] [] [] [] []]; try exact PL. destruct f as [|c1 f]; [exact PL|]. destruct c1 as [[] [] [] [] [] [] [] []]; try exact PL. destruct f as [|c2 f]; [exact PL|]. destruct c2 as [[] [] [] [] [] [] [] []]; try exact PL. clear PL.
    cbn [format]. destruct args as [|a args]; [discriminate|]. destruct (format f args) as [r|] eqn:E; cbn [rbind]; [|discriminate]. intros [= <-]. inversion FA; subst. cbn [String.length] in LE. apply IH in E; [|lia|assumption]. rewrite append_length_s. pose proof (decimal_len a H1). cbn [String.length List.length]. lia. }
  intros f LE args out FA E. pose proof (G n f LE args out FA E). lia.
Qed.

Lemma get_json s threads from start now : starts_from s from start -> (forall st, from st < two64) ->
  statio_get_json s threads now = Ok (json ((now + (two64 - start)) mod two64) (fun st => (from st + total threads st) mod two64)).
Proof.
  intros S B. destruct (format_json s threads from start now S B) as (args & FA & LA & -> & EF). cbv zeta in EF. rewrite EF. cbn [rbind].
  pose proof (format_len _ _ _ FA EF) as LN. rewrite LA in LN. set (out := json _ _) in *.
  assert (H1 : Nat.ltb 0 (String.length out) = true) by reflexivity. clearbody out.
  assert (H2 : Nat.ltb (String.length out) json_buffer_max = true). { apply Nat.ltb_lt. unfold json_buffer_max. unfold SLOT_COUNT. lia. }
  now rewrite H1, H2.
Qed.

(** *** words in memory *)
Lemma le_length k : forall v, List.length (le k v) = k.
Proof. induction k as [|k IH]; intros v; cbn; auto. Qed.
Lemma unle_le k : forall v, v < 256 ^ N.of_nat k -> unle (le k v) = v.
Proof.
  induction k as [|k IH]; intros v B; cbn [le unle]; [cbn in B; lia|]. rewrite IH.
  - pose proof (N.div_mod v 256 ltac:(discriminate)). lia.
  - apply N.div_lt_upper_bound; [discriminate|]. rewrite Nat2N.inj_succ, N.pow_succ_r' in B. exact B.
Qed.
Lemma unle8 v : v < two64 -> unle (le 8 v) = v. Proof. intros B. apply unle_le. exact B. Qed.

Lemma sub_words tail : forall ws i, (i < List.length ws)%nat -> sub (List.concat (map (le 8) ws) ++ tail) (8 * i) 8 = le 8 (nth i ws 0).
Proof.
  induction ws as [|w ws IH]; intros i L; cbn [List.length] in L; [lia|]. cbn [map List.concat]. rewrite <- app_assoc. destruct i as [|i].
  - change (8 * 0)%nat with 0%nat. unfold sub. rewrite skipn_O, firstn_app, le_length, Nat.sub_diag, firstn_O. rewrite firstn_all2 by (rewrite le_length; lia). apply app_nil_r.
  - cbn [nth]. rewrite <- IH by lia. unfold sub. f_equal. rewrite skipn_app, le_length. rewrite skipn_all2 by (rewrite le_length; lia). cbn [app]. f_equal. lia.
Qed.
Lemma concat_length ws : List.length (List.concat (map (le 8) ws)) = (8 * List.length ws)%nat.
Proof. induction ws as [|w ws IH]; cbn [map List.concat List.length]; [reflexivity|]. rewrite app_length, le_length, IH. lia. Qed.
Lemma message_length ws t : List.length (message ws t) = (8 * (List.length ws + 1))%nat.
Proof. unfold message. rewrite app_length, concat_length, le_length. lia. Qed.
Lemma word_slot ws t i : Forall (fun w => w < two64) ws -> (i < List.length ws)%nat -> word (message ws t) (N.of_nat i) = Ok (nth i ws 0).
Proof.
  intros F L. unfold word. replace (N.to_nat (8 * N.of_nat i)) with (8 * i)%nat by lia. rewrite rdn_ok by (rewrite message_length; lia). cbn [rbind]. unfold message. rewrite sub_words by exact L. rewrite unle8; [reflexivity|]. rewrite Forall_forall in F. apply F. now apply nth_In.
Qed.
Lemma word_start ws t : t < two64 -> word (message ws t) (N.of_nat (List.length ws)) = Ok t.
Proof.
  intros B. unfold word. replace (N.to_nat (8 * N.of_nat (List.length ws))) with (8 * List.length ws)%nat by lia. rewrite rdn_ok by (rewrite message_length; lia). cbn [rbind]. unfold message, sub.
  rewrite skipn_app, concat_length, Nat.sub_diag, skipn_all2 by (rewrite concat_length; lia). cbn [app skipn]. rewrite firstn_all2 by (rewrite le_length; lia). now rewrite unle8.
Qed.

Lemma import_ok ws t : Forall (fun w => w < two64) ws -> forall count i b, (i + count <= List.length ws)%nat -> (i + count <= List.length b)%nat ->
  exists b', import_slots (message ws t) count i b = Ok b' /\ List.length b' = List.length b /\ forall j, nth j b' 0 = if (Nat.leb i j && Nat.ltb j (i + count))%bool then nth j ws 0 else nth j b 0.
Proof.
  intros F. induction count as [|count IH]; intros i b L1 L2; cbn [import_slots].
  - exists b. split; [reflexivity|]. split; [reflexivity|]. intros j. destruct (Nat.leb_spec i j); cbn [andb]; [|reflexivity]. destruct (Nat.ltb_spec j (i + 0)); [lia|reflexivity].
  - rewrite word_slot by (auto; lia). cbn [rbind]. destruct (IH (S i) (upd b i (nth i ws 0))) as (b' & -> & LB & NB); [lia|rewrite upd_length; lia|]. exists b'. split; [reflexivity|]. rewrite LB, upd_length. split; [reflexivity|]. intros j. rewrite NB. rewrite upd_nth. rewrite (Nat.eqb_sym i j).
    destruct (Nat.leb_spec (S i) j), (Nat.leb_spec i j); cbn [andb]; try lia; [|assert (j = i) by lia; subst j|].
    + replace (S i + count)%nat with (i + S count)%nat by lia. destruct (Nat.ltb_spec j (i + S count)); [reflexivity|]. destruct (Nat.eqb_spec j i); [lia|cbn [andb]; reflexivity].
    + destruct (Nat.ltb_spec i (i + S count)); [|lia]. rewrite Nat.eqb_refl. cbn [andb]. destruct (Nat.ltb_spec i (List.length b)); [reflexivity|lia].
    + destruct (Nat.eqb_spec j i); [lia|cbn [andb]; reflexivity].
Qed.

(** *** messages *)
Lemma land4 k : N.land (8 * k) 4 = 0.
Proof.
  change 4 with (N.land (N.ones 3) 4) at 1. rewrite N.land_assoc, N.land_ones. change (2 ^ 3) with 8. rewrite N.mul_comm, N.mod_mul by discriminate. reflexivity.
Qed.
Lemma deser_message s ws t : List.length (base s) = SLOT_COUNT -> Forall (fun w => w < two64) ws -> t < two64 -> N.of_nat (List.length ws) < two32 ->
  exists b, statio_deserialize s (message ws t) = Ok {| base := b; start_time := t |} /\ List.length b = SLOT_COUNT /\
    forall j, nth j b 0 = if Nat.ltb j (Nat.min SLOT_COUNT (List.length ws)) then nth j ws 0 else nth j (base s) 0.
Proof.
  intros LB F BT SM. unfold statio_deserialize. rewrite message_length. replace (N.of_nat (8 * (List.length ws + 1))) with (8 * (N.of_nat (List.length ws) + 1)) by lia.
  rewrite land4. destruct (N.eqb_spec (8 * (N.of_nat (List.length ws) + 1)) 0); [lia|]. cbn [orb negb N.eqb]. rewrite (N.mul_comm 8), N.div_mul by discriminate.
  replace (N.of_nat (List.length ws) + 1 + (two64 - 1)) with (N.of_nat (List.length ws) + 1 * two64) by (unfold two64; lia). rewrite N.mod_add, N.mod_small by (try discriminate; unfold two32, two64 in *; lia).
  rewrite word_start by exact BT. cbn [rbind]. replace (N.to_nat (N.min (N.of_nat SLOT_COUNT) (N.of_nat (List.length ws)))) with (Nat.min SLOT_COUNT (List.length ws)) by lia.
  destruct (import_ok ws t F (Nat.min SLOT_COUNT (List.length ws)) 0 (base s)) as (b & -> & L & NB); [lia|lia|]. cbn [rbind]. exists b. split; [reflexivity|]. split; [lia|]. intros j. rewrite NB. reflexivity.
Qed.

Lemma firstn_split {A} a : forall b (l : list A), (a <= b)%nat -> firstn a l ++ firstn (b - a) (skipn a l) = firstn b l.
Proof. induction a as [|a IH]; intros b l L; [cbn [skipn firstn app]; now rewrite Nat.sub_0_r|]. destruct b as [|b]; [lia|]. destruct l as [|x l]; [cbn; now destruct (b - a)%nat|]. cbn [firstn skipn app Nat.sub]. now rewrite IH by lia. Qed.
Lemma recv_ok : forall fuel splits wanted stream got, (wanted < fuel)%nat -> (wanted <= List.length stream)%nat -> recv_all fuel splits wanted stream got = Some (got ++ firstn wanted stream).
Proof.
  induction fuel as [|fuel IH]; intros splits wanted stream got LF LS; [lia|]. cbn [recv_all]. destruct wanted as [|w]; [now rewrite firstn_O, app_nil_r|].
  set (k := Nat.min (S w) _). assert (K : (0 < k <= S w /\ k <= List.length stream)%nat) by (unfold k; lia). clearbody k. destruct k as [|k]; [lia|]. rewrite IH by (rewrite ?skipn_length; lia). rewrite <- app_assoc. f_equal. f_equal.
  apply firstn_split. lia.
Qed.
Lemma recv_short : forall fuel splits wanted stream got, (List.length stream < wanted)%nat -> recv_all fuel splits wanted stream got = None.
Proof.
  induction fuel as [|fuel IH]; intros splits wanted stream got L; [reflexivity|]. cbn [recv_all]. destruct wanted as [|w]; [lia|]. set (k := Nat.min (S w) _). assert (K : (k <= S w /\ k <= List.length stream)%nat) by (unfold k; lia). clearbody k. destruct k as [|k]; [reflexivity|]. apply IH. rewrite skipn_length. lia.
Qed.
Lemma handoff_ok splits data : (0 < List.length data)%nat -> N.of_nat (List.length data) <= 65535 -> csc_get_stats_handoff splits (css_send_stats_handoff data) = Some data.
Proof.
  intros P B. unfold csc_get_stats_handoff, css_send_stats_handoff. assert (L4 := le_length 4 (N.of_nat (List.length data))). assert (U4 : unle (le 4 (N.of_nat (List.length data))) = N.of_nat (List.length data)) by (apply unle_le; change (256 ^ N.of_nat 4) with 4294967296; lia).
  destruct (le 4 (N.of_nat (List.length data))) as [|a [|b [|c [|d [|]]]]]; try discriminate L4. cbn [app List.length hd skipn firstn].
  destruct (Nat.ltb_spec (S (S (S (S (S (S (S (S (List.length data))))))))) 8); [lia|]. cbn [N.eqb negb]. rewrite U4. replace (PSH_SHAND =? PSH_SHAND) with true by reflexivity. cbn [negb].
  destruct (N.eqb_spec (N.of_nat (List.length data)) 0); [lia|]. destruct (N.ltb_spec 65535 (N.of_nat (List.length data))); [lia|]. cbn [orb]. rewrite Nat2N.id. rewrite recv_ok by lia. cbn [app]. now rewrite firstn_all.
Qed.
Lemma handoff_cut splits data n : (0 < List.length data)%nat -> N.of_nat (List.length data) <= 65535 -> (n < List.length (css_send_stats_handoff data))%nat -> csc_get_stats_handoff splits (firstn n (css_send_stats_handoff data)) = None.
Proof.
  intros P B LN. unfold csc_get_stats_handoff, css_send_stats_handoff in *. assert (L4 := le_length 4 (N.of_nat (List.length data))). assert (U4 : unle (le 4 (N.of_nat (List.length data))) = N.of_nat (List.length data)) by (apply unle_le; change (256 ^ N.of_nat 4) with 4294967296; lia).
  destruct (le 4 (N.of_nat (List.length data))) as [|a [|b [|c [|d [|]]]]]; try discriminate L4. cbn [app List.length] in LN |- *.
  rewrite firstn_length. cbn [List.length]. destruct (Nat.ltb_spec (Nat.min n (S (S (S (S (S (S (S (S (List.length data)))))))))) 8) as [|LG]; [reflexivity|].
  assert (E : exists m, n = (8 + m)%nat /\ (m < List.length data)%nat) by (exists (n - 8)%nat; lia). destruct E as (m & -> & LM). cbn [Nat.add firstn skipn hd]. rewrite U4. replace (PSH_SHAND =? PSH_SHAND) with true by reflexivity. cbn [negb].
  destruct (N.eqb_spec (N.of_nat (List.length data)) 0); [lia|]. destruct (N.ltb_spec 65535 (N.of_nat (List.length data))); [lia|]. cbn [orb]. rewrite Nat2N.id. apply recv_short. rewrite firstn_length. lia.
Qed.

Lemma takeover_ok splits now s threads from start : starts_from s from start -> (forall st, from st < two64) -> start < two64 ->
  exists new, takeover splits now (css_send_stats_handoff (statio_serialize s threads)) = Ok new /\ starts_from new (fun st => (from st + total threads st) mod two64) start.
Proof.
  intros [EB ES] B BS. unfold statio_serialize. rewrite EB, ES, (acc_all threads from B). set (v := fun st => (from st + total threads st) mod two64). fold (message (map v wire) start).
  unfold takeover. rewrite handoff_ok by (rewrite message_length; cbn; lia).
  destruct (deser_message (statio_init now) (map v wire) start) as (b & -> & LB & NB); [reflexivity| |exact BS|reflexivity|].
  { apply Forall_forall. intros x I. apply in_map_iff in I. destruct I as (st & <- & _). apply N.mod_upper_bound. discriminate. }
  eexists. split; [reflexivity|]. split; [|reflexivity]. cbn [base]. apply nth_ext with (d := 0) (d' := 0); [rewrite LB; reflexivity|]. intros j L. rewrite NB. rewrite LB in L. change (List.length (map v wire)) with SLOT_COUNT. rewrite Nat.min_id. apply Nat.ltb_lt in L. now rewrite L.
Qed.
