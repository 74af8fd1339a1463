(** The control socket's monitored-state listing. *)
From Verif Require Import Base MonModel MonSpec MonProofs MonRun.
Ltac Zify.zify_post_hook ::= idtac.

Fixpoint joined (sep : bytes) (l : list bytes) : bytes :=
  match l with [] => [] | [x] => x | x :: l' => x ++ sep ++ joined sep l' end.

Definition rest_of (sep : bytes) (l : list bytes) : bytes := concat (map (fun x => sep ++ x) l).

Lemma joined_cons sep x l : joined sep (x :: l) = x ++ rest_of sep l.
Proof.
  revert x; induction l as [|y l IH]; intros x; cbn [joined rest_of map concat].
  - now rewrite app_nil_r.
  - f_equal. rewrite <- app_assoc. f_equal. apply IH.
Qed.

Definition ent (p : smgr * N) : bytes :=
  json_t1 ++ desc (fst p) ++ json_t2 ++ state_of (fst p) (snd p) ++ json_t3 ++
  state_of (fst p) (real (fst p)) ++ json_t4.

Lemma state_txt_len a b c : length (state_txt a b c) <= 5.
Proof. destruct a, b, c; cbn; lia. Qed.

Definition need (ss : list smgr) : nat :=
  fold_right (fun s n => json_tmpl_len + 10 + length json_sep + length (desc s) + n) 0 ss.

Lemma ent_len s w : length (ent (s, w)) <= json_tmpl_len + 10 + length (desc s).
Proof.
  unfold ent. rewrite !app_length. cbn [fst snd]. unfold state_of.
  assert (A := state_txt_len (match typ s with Some _ => true | None => false end) (has w STTL_FORCED) (has w STTL_DOWN)).
  assert (B := state_txt_len (match typ s with Some _ => true | None => false end) (has (real s) STTL_FORCED) (has (real s) STTL_DOWN)).
  unfold json_tmpl_len. lia.
Qed.

Lemma put_ok room out add : length add <= room -> put room out add = Ok (room - length add, out ++ add).
Proof. intros H. unfold put. apply Nat.leb_le in H. now rewrite H. Qed.

Lemma entries_rest ss : forall tbl room out, length tbl = length ss -> need ss < room ->
  json_entries false room out ss tbl =
  Ok (room - length (rest_of json_sep (map ent (combine ss tbl))), out ++ rest_of json_sep (map ent (combine ss tbl))) /\
  length (rest_of json_sep (map ent (combine ss tbl))) <= need ss.
Proof.
  induction ss as [|s ss IH]; intros [|w tbl] room out HL Hn; try discriminate; cbn [json_entries combine map].
  - cbn. rewrite app_nil_r, Nat.sub_0_r. auto.
  - injection HL as HL. cbn [need fold_right] in Hn. fold (need ss) in Hn.
    assert (Le := ent_len s w).
    rewrite put_ok by lia. cbn [rbind].
    change (json_t1 ++ desc s ++ json_t2 ++ state_of s w ++ json_t3 ++ state_of s (real s) ++ json_t4) with (ent (s, w)).
    destruct (Nat.ltb_spec (length (ent (s, w))) (room - length json_sep)) as [L|L]; [|lia]. cbn [rassert].
    rewrite put_ok by lia. cbn [rbind].
    destruct (IH tbl (room - length json_sep - length (ent (s, w))) ((out ++ json_sep) ++ ent (s, w)) HL) as [E1 E2]; [lia|].
    rewrite E1. unfold rest_of. cbn [map concat]. fold (rest_of json_sep (map ent (combine ss tbl))).
    rewrite !app_length. rewrite <- !app_assoc. split.
    + f_equal. f_equal. lia.
    + cbn [need fold_right]. fold (need ss). lia.
Qed.

Lemma need_sum ss : need ss = length ss * (json_tmpl_len + 10 + length json_sep) +
  fold_right plus 0 (map (fun s => length (desc s)) ss).
Proof.
  induction ss as [|s ss IH]; [reflexivity|].
  cbn [need fold_right map length]. fold (need ss). rewrite IH. generalize (json_tmpl_len + 10 + length json_sep). intros; lia.
Qed.

Lemma states_json_ok m : length (sttl m) = length (smgrs m) ->
  states_json m = Ok (json_head ++ joined json_sep (map ent (combine (smgrs m) (sttl m))) ++ json_foot).
Proof.
  intros HL. unfold states_json.
  set (max := max_states_len m).
  assert (Hmax : max = 2 * (length json_head + length json_foot + need (smgrs m) + 1)).
  { unfold max, max_states_len. rewrite need_sum. lia. }
  rewrite put_ok by lia. cbn [rbind]. cbn [app].
  assert (X : exists r, json_entries true (max - length json_head) json_head (smgrs m) (sttl m) =
     Ok (r, json_head ++ joined json_sep (map ent (combine (smgrs m) (sttl m)))) /\
     length json_foot < r /\
     length (joined json_sep (map ent (combine (smgrs m) (sttl m)))) <= need (smgrs m)).
  { destruct (smgrs m) as [|s ss]; [|destruct (sttl m) as [|w tbl]; [discriminate|]].
    - cbn [json_entries combine map joined]. exists (max - length json_head). rewrite app_nil_r. split; auto. split; [|cbn; lia]. cbn [need fold_right] in Hmax. lia.
    - injection HL as HL. cbn [json_entries rbind combine map]. cbn [need fold_right] in Hmax |- *. fold (need ss) in Hmax |- *.
      assert (Le := ent_len s w).
      change (json_t1 ++ desc s ++ json_t2 ++ state_of s w ++ json_t3 ++ state_of s (real s) ++ json_t4) with (ent (s, w)).
      destruct (Nat.ltb_spec (length (ent (s, w))) (max - length json_head)) as [L|L]; [|lia]. cbn [rassert].
      rewrite put_ok by lia. cbn [rbind].
      destruct (entries_rest ss tbl (max - length json_head - length (ent (s, w))) (json_head ++ ent (s, w)) HL) as [E1 E2]; [lia|].
      rewrite E1. eexists. rewrite joined_cons, <- app_assoc. split; [reflexivity|]. rewrite app_length. split; [|lia]. lia. }
  destruct X as (r & E & Hr & Hl). rewrite E. cbn [rbind].
  rewrite put_ok by lia. cbn [rbind].
  destruct (Nat.ltb_spec (length ((json_head ++ joined json_sep (map ent (combine (smgrs m) (sttl m)))) ++ json_foot)) max) as [L|L].
  - cbn [rassert]. now rewrite <- app_assoc.
  - rewrite !app_length in L. lia.
Qed.
