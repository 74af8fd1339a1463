(** Statistics add up. *)
From Verif Require Import Base StatModel StatSpec.
From Coq Require Import String Ascii DecimalString DecimalFacts DecimalPos DecimalN.
Import List. Import ListNotations. Open Scope list_scope.
Open Scope N_scope.
Ltac Zify.zify_post_hook ::= idtac.

Lemma two64_pos : two64 <> 0. Proof. discriminate. Qed.

(** *** adding up *)
Lemma acc_one from t : (forall st, from st < two64) -> accumulate_statio (map from wire) t = map (fun st => (from st + contribution st t) mod two64) wire.
Proof.
  intros B. assert (Z : forall st, (from st + 0) mod two64 = from st) by (intros st; rewrite N.add_0_r; apply N.mod_small, B).
  assert (R : forall x, add64 x (add64 (add64 (add64 (add64 (add64 (add64 (stats_get t noerror) (stats_get t refused)) (stats_get t nxdomain)) (stats_get t notimp)) (stats_get t badvers)) (stats_get t formerr)) (stats_get t dropped)) = (x + requests t) mod two64).
  { intros x. assert (L : forall a b c, add64 (add64 a b) c = add64 a (b + c)) by (intros a b c; unfold add64; rewrite N.add_mod_idemp_l by discriminate; f_equal; lia).
    rewrite !L. unfold add64, requests. cbn [map fold_right]. rewrite N.add_mod_idemp_r by discriminate. f_equal. lia. }
  unfold accumulate_statio, wire. cbn [map contribution]. destruct (is_udp t); cbv beta zeta; cbn [bump upd nth UDP_RECVFAIL UDP_SENDFAIL UDP_TC UDP_EDNS_BIG UDP_EDNS_TC TCP_RECVFAIL TCP_SENDFAIL TCP_CONNS TCP_CLOSE_C TCP_CLOSE_S_OK TCP_CLOSE_S_ERR TCP_CLOSE_S_KILL DNS_NOERROR DNS_REFUSED DNS_NXDOMAIN DNS_NOTIMP DNS_BADVERS DNS_FORMERR DNS_DROPPED DNS_V6 DNS_EDNS DNS_EDNS_CLIENTSUB UDP_REQS TCP_REQS DNS_EDNS_DO DNS_EDNS_COOKIE_ERR DNS_EDNS_COOKIE_OK DNS_EDNS_COOKIE_INIT DNS_EDNS_COOKIE_BAD TCP_PROXY TCP_PROXY_FAIL TCP_DSO_ESTAB TCP_DSO_PROTOERR TCP_DSO_TYPENI TCP_ACCEPTFAIL];
    rewrite !Z, !R; reflexivity.
Qed.

Lemma acc_all threads : forall from, (forall st, from st < two64) -> populate_statio (map from wire) threads = map (fun st => (from st + total threads st) mod two64) wire.
Proof.
  unfold populate_statio. induction threads as [|t threads IH]; intros from B; cbn [fold_left].
  - apply map_ext. intros st. cbn [total map fold_right]. rewrite N.add_0_r. symmetry. apply N.mod_small, B.
  - rewrite acc_one by exact B. rewrite IH by (intros st; apply N.mod_upper_bound; discriminate). apply map_ext. intros st. unfold total. cbn [map fold_right]. rewrite N.add_mod_idemp_l by discriminate. f_equal. lia.
Qed.

(** *** text *)
Lemma append_assoc_s a b c : ((a ++ b) ++ c = a ++ b ++ c)%string.
Proof. induction a as [|x a IH]; cbn; [reflexivity|now rewrite IH]. Qed.
Lemma append_nil_s a : (a ++ "" = a)%string.
Proof. induction a as [|x a IH]; cbn; [reflexivity|now rewrite IH]. Qed.
Lemma append_length_s a b : (String.length (a ++ b) = String.length a + String.length b)%nat.
Proof. induction a as [|x a IH]; cbn; [reflexivity|now rewrite IH]. Qed.

Lemma format_json s threads from start now : starts_from s from start -> (forall st, from st < two64) ->
  let v st := (from st + total threads st) mod two64 in
  exists args, Forall (fun a => a < two64) args /\ List.length args = 36%nat /\ statio_get_json s threads now = (do out <- format json_fixed args; rassert (Nat.ltb 0 (String.length out) && Nat.ltb (String.length out) json_buffer_max) (Ok out)) /\
    format json_fixed args = Ok (json ((now + (two64 - start)) mod two64) v).
Proof.
  intros [EB <-] B v. unfold statio_get_json. rewrite EB, (acc_all threads from B). fold v. assert (VB : forall st, v st < two64) by (intros st; apply N.mod_upper_bound; discriminate).
  set (up := (now + (two64 - start_time s)) mod two64). assert (UB' : up < two64) by (apply N.mod_upper_bound; discriminate). change (map (fun st : stat => (from st + total threads st) mod two64) wire) with (map v wire). clearbody v up. cbv zeta.
  eexists. split; [|split; [|split; [reflexivity|]]].
  - unfold wire. cbn [map nth UDP_RECVFAIL UDP_SENDFAIL UDP_TC UDP_EDNS_BIG UDP_EDNS_TC TCP_RECVFAIL TCP_SENDFAIL TCP_CONNS TCP_CLOSE_C TCP_CLOSE_S_OK TCP_CLOSE_S_ERR TCP_CLOSE_S_KILL DNS_NOERROR DNS_REFUSED DNS_NXDOMAIN DNS_NOTIMP DNS_BADVERS DNS_FORMERR DNS_DROPPED DNS_V6 DNS_EDNS DNS_EDNS_CLIENTSUB UDP_REQS TCP_REQS DNS_EDNS_DO DNS_EDNS_COOKIE_ERR DNS_EDNS_COOKIE_OK DNS_EDNS_COOKIE_INIT DNS_EDNS_COOKIE_BAD TCP_PROXY TCP_PROXY_FAIL TCP_DSO_ESTAB TCP_DSO_PROTOERR TCP_DSO_TYPENI TCP_ACCEPTFAIL].
    repeat (constructor; [solve [auto]|]). constructor.
  - reflexivity.
  - unfold wire, json, report. cbn [map nth fst snd UDP_RECVFAIL UDP_SENDFAIL UDP_TC UDP_EDNS_BIG UDP_EDNS_TC TCP_RECVFAIL TCP_SENDFAIL TCP_CONNS TCP_CLOSE_C TCP_CLOSE_S_OK TCP_CLOSE_S_ERR TCP_CLOSE_S_KILL DNS_NOERROR DNS_REFUSED DNS_NXDOMAIN DNS_NOTIMP DNS_BADVERS DNS_FORMERR DNS_DROPPED DNS_V6 DNS_EDNS DNS_EDNS_CLIENTSUB UDP_REQS TCP_REQS DNS_EDNS_DO DNS_EDNS_COOKIE_ERR DNS_EDNS_COOKIE_OK DNS_EDNS_COOKIE_INIT DNS_EDNS_COOKIE_BAD TCP_PROXY TCP_PROXY_FAIL TCP_DSO_ESTAB TCP_DSO_PROTOERR TCP_DSO_TYPENI TCP_ACCEPTFAIL].
    cbv [object member String.concat]. rewrite !append_assoc_s.
    cbv [json_fixed jnum tab2 tab nl quoted].
    cbv -[decimal NilEmpty.string_of_uint N.to_uint]. fold decimal.
    reflexivity.
Qed.
