(** C09: name compression loses nothing. *)
From Verif Require Import Base DnameSpec DnameProofs PktProofs2 CompModel CompSpec CompProofs.
Ltac Zify.zify_post_hook ::= idtac.

Definition to_op (p : piece) : wop :=
  match p with
  | PRaw d => Raw d
  | PName true make ls => Name make (wire_labels ls ++ [0%N])
  | PName false _ ls => Plain (wire_labels ls ++ [0%N])
  | PAgain k => Again k
  end.

Section Run.
  Variable R : list (list N) -> list (list N) -> Prop.
  Hypothesis R_refl : forall ls, R ls ls.
  Hypothesis R_cons : forall l a b, R a b -> R (l :: a) (l :: b).

  Definition stored (out : bytes) (off : nat) (ls : list (list N)) : Prop := exists ls' e, R ls' ls /\ name_at out off ls' e.

  Lemma stored_app out r off ls : stored out off ls -> stored (out ++ r) off ls.
  Proof. intros (ls' & e & H1 & H2). exists ls', e. split; auto using name_at_app. Qed.

  Lemma Forall2_app_stored out r log acc : Forall2 (stored out) log acc -> Forall2 (stored (out ++ r)) log acc.
  Proof. induction 1; constructor; auto using stored_app. Qed.

  Lemma run_ok lq : forall ps out cts log acc,
    pieces_ok ps (length acc) -> (N.of_nat (length out) + room ps <= 16382)%N ->
    question_at R out lq -> Forall (target_ok R out) cts -> length cts <= 16 -> Forall2 (stored out) log acc ->
    exists data log', run_wops lq (map to_op ps) out cts log = Ok (out ++ data, log') /\
      (N.of_nat (length data) <= room ps)%N /\ Forall2 (stored (out ++ data)) log' (asked ps acc).
  Proof.
    induction ps as [|p ps IH]; intros out cts log acc HP HB HQ HT HC HF.
    - exists [], log. rewrite app_nil_r. cbn. repeat split; auto. lia.
    - assert (STEP : forall d c lg ac rm, (N.of_nat (length d) + room ps <= rm)%N -> (N.of_nat (length out) + rm <= 16382)%N ->
        pieces_ok ps (length ac) -> Forall (target_ok R (out ++ d)) c -> length c <= 16 -> Forall2 (stored (out ++ d)) lg ac ->
        exists data log', run_wops lq (map to_op ps) (out ++ d) c lg = Ok (out ++ data, log') /\
          (N.of_nat (length data) <= rm)%N /\ Forall2 (stored (out ++ data)) log' (asked ps ac)).
      { intros d c lg ac rm B1 B2 P1 T1 C1 F1.
        destruct (IH (out ++ d) c lg ac) as (data & log' & E1 & E2 & E3); auto.
        - rewrite app_length. lia.
        - now apply question_app.
        - exists (d ++ data), log'. rewrite app_assoc. rewrite app_length. repeat split; auto. lia. }
      destruct p as [d|cm mk ls|k]; cbn [map to_op run_wops pieces_ok room asked] in *.
      + rewrite emit_ok by (unfold MAX_BUF; lia). cbn [rbind]. apply STEP; auto; try lia.
        * eapply Forall_impl; [|exact HT]. intros t. apply target_app.
        * now apply Forall2_app_stored.
      + destruct HP as [HL HP]. destruct cm; cbn [run_wops].
        * destruct (store_dname_comp_ok R R_refl R_cons lq cts out ls mk) as (d & cts' & ls' & E1 & E2 & E3 & E4 & E5 & E6); auto.
          { apply HL. } { unfold MAX_BUF. lia. }
          unfold wn in E1. rewrite E1. cbn [rbind]. apply STEP; auto; try lia.
          { rewrite app_length. cbn. now rewrite Nat.add_1_r. }
          apply Forall2_app; [now apply Forall2_app_stored|]. constructor; [|constructor]. exists ls'. eauto.
        * unfold store_dname_nocomp. assert (EL : length (wire_labels ls ++ [0%N]) = wire_len ls) by apply wn_len.
          rewrite emit_ok by (unfold MAX_BUF; rewrite EL; lia). cbn [rbind]. apply STEP; auto; try lia.
          { rewrite app_length. cbn. now rewrite Nat.add_1_r. }
          { eapply Forall_impl; [|exact HT]. intros t. apply target_app. }
          apply Forall2_app; [now apply Forall2_app_stored|]. constructor; [|constructor].
          exists ls, (length out + wire_len ls). split; [auto|]. rewrite <- (app_nil_r (wire_labels ls ++ [0%N])).
          apply name_at_full; [exact (question_len _ _ _ HQ)|]. apply legal_lens. apply HL.
      + destruct HP as [HK HP].
        assert (X : exists off, nth_error log k = Some off /\ stored out off (nth k acc [])).
        { clear -HF HK. revert k HK. induction HF as [|o l log acc H HF IH]; intros k HK; cbn [length] in HK; [lia|].
          destruct k; cbn; [eauto|apply IH; lia]. }
        destruct X as (off & Eo & ls' & e & HR & HN). rewrite Eo.
        destruct (repeat_name_ok out off ls' e) as (d & E1 & E2 & E3); [assumption|unfold MAX_BUF; lia|].
        rewrite E1. cbn [rbind]. apply STEP; auto; try lia.
        { rewrite app_length. cbn. now rewrite Nat.add_1_r. }
        { eapply Forall_impl; [|exact HT]. intros t. apply target_app. }
        apply Forall2_app; [now apply Forall2_app_stored|]. constructor; [|constructor]. exists ls'. eauto.
  Qed.
End Run.

Lemma lower_lower b : lower (lower b) = lower b.
Proof.
  unfold lower. destruct ((65 <=? b) && (b <=? 90))%N eqn:E; [|now rewrite E].
  apply andb_true_iff in E. destruct E as [E1 E2]. apply N.leb_le in E1, E2.
  destruct (N.leb_spec (b + 32) 90)%N; [lia|]. rewrite andb_false_r. reflexivity.
Qed.
Lemma lower_name_idem ls : map (map lower) (map (map lower) ls) = map (map lower) ls.
Proof. rewrite map_map. apply map_ext. intros l. rewrite map_map. apply map_ext. exact lower_lower. Qed.
Lemma skipn_map2 {A B} (f : A -> B) n l : skipn n (map f l) = map f (skipn n l).
Proof. revert l. induction n; intros [|x l]; cbn; auto. Qed.
Lemma question_at_start (R : list (list N) -> list (list N) -> Prop) hd q tail : length hd = 12 -> legal_name q ->
  (forall n, R (skipn n q) (skipn n (map (map lower) q))) ->
  question_at R (hd ++ (wire_labels q ++ [0%N]) ++ tail) (wire_labels (map (map lower) q) ++ [0%N]).
Proof.
  intros H HL HR. exists q, (map (map lower) q). repeat split; auto.
  - apply HL.
  - apply legal_lower. exact HL.
  - clear. induction q; constructor; auto. now rewrite map_length.
  - exists hd, tail. auto.
Qed.

(** Whatever names and data are written after a question, within the buffer:
    nothing already written changes, and every name asked for can be read back
    at the place it was written, with at most the case of letters different
    (the question keeps the client's case). *)
Theorem C09_names_read_back : forall hd q tail ps,
  length hd = 12 -> legal_name q -> pieces_ok ps 0 ->
  (N.of_nat (length (hd ++ (wire_labels q ++ [0%N]) ++ tail)) + room ps <= 16382)%N ->
  exists data offs,
    run_wops (wire_labels (map (map lower) q) ++ [0%N]) (map to_op ps) (hd ++ (wire_labels q ++ [0%N]) ++ tail) [] []
      = Ok ((hd ++ (wire_labels q ++ [0%N]) ++ tail) ++ data, offs) /\
    (N.of_nat (length data) <= room ps)%N /\
    Forall2 (fun off ls => exists ls' e, same_name ls' ls /\ name_at ((hd ++ (wire_labels q ++ [0%N]) ++ tail) ++ data) off ls' e)
            offs (asked ps []).
Proof.
  intros hd q tail ps H12 HQ HP HB. apply (run_ok same_name); auto; try (cbn; lia).
  - intros ls. reflexivity.
  - unfold same_name. intros l a b E. cbn [map]. congruence.
  - apply question_at_start; auto. intros n. unfold same_name. now rewrite skipn_map2, lower_name_idem.
Qed.

(** When the client's question has no capital letters, every name is read back
    exactly as given. *)
Theorem C09_names_read_back_exactly : forall hd q tail ps,
  length hd = 12 -> legal_name q -> map (map lower) q = q -> pieces_ok ps 0 ->
  (N.of_nat (length (hd ++ (wire_labels q ++ [0%N]) ++ tail)) + room ps <= 16382)%N ->
  exists data offs,
    run_wops (wire_labels (map (map lower) q) ++ [0%N]) (map to_op ps) (hd ++ (wire_labels q ++ [0%N]) ++ tail) [] []
      = Ok ((hd ++ (wire_labels q ++ [0%N]) ++ tail) ++ data, offs) /\
    (N.of_nat (length data) <= room ps)%N /\
    Forall2 (fun off ls => exists e, name_at ((hd ++ (wire_labels q ++ [0%N]) ++ tail) ++ data) off ls e) offs (asked ps []).
Proof.
  intros hd q tail ps H12 HQ EQ HP HB.
  destruct (run_ok eq (fun _ => eq_refl) (fun l a b E => f_equal (cons l) E) (wire_labels (map (map lower) q) ++ [0%N]) ps
    (hd ++ (wire_labels q ++ [0%N]) ++ tail) [] [] []) as (data & offs & E1 & E2 & E3); auto; try (cbn; lia).
  - apply question_at_start; auto. intros n. now rewrite EQ.
  - exists data, offs. repeat split; auto. clear -E3. induction E3 as [|o l ol ll (ls' & e & -> & H) _ IH]; constructor; eauto.
Qed.

(** Reading a name out of a packet has one outcome. *)
Theorem C09_reading_is_unambiguous : forall pkt off a b e e',
  name_at pkt off a e -> name_at pkt off b e' -> a = b /\ e = e'.
Proof. intros. eapply name_at_unique; eauto. Qed.

(** Following a stored name past its leading labels [a] ends at the rest of
    that name, outside any pointer. *)
Theorem C09_zone_part_found : forall out off a b e, name_at out off (a ++ b) e ->
  exists fuel o e', chase_auth_ptr fuel out off (length (wire_labels a)) = Ok o /\ name_at out o b e' /\
    exists x, nth_error out o = Some x /\ (x < 64)%N.
Proof. intros out off a b e H. exists (S (length (wire_labels a) * S (length out) + off)). eapply chase_ok; eauto. Qed.

(** a response of three names: MX-like targets under the question's zone *)
Definition wit_hd : bytes := repeat 0%N 12.
Definition wit_q : list (list N) := [[77; 120]; [101; 120]; [99; 111; 109]]%N.     (* Mx.ex.com *)
Definition wit_ps : list piece :=
  [PName true true [[97]; [109; 120]; [101; 120]; [99; 111; 109]];                    (* a.mx.ex.com *)
   PRaw [1; 2; 3]; PName true true [[98]; [97]; [109; 120]; [101; 120]; [99; 111; 109]]; (* b.a.mx.ex.com *)
   PAgain 1; PName false false [[97]]; PName true false []; PAgain 4]%N.
Example C09_witness_hyps : length wit_hd = 12 /\ legal_name wit_q /\ pieces_ok wit_ps 0 /\
  (N.of_nat (length (wit_hd ++ (wire_labels wit_q ++ [0%N]) ++ [0; 1; 0; 1]%N)) + room wit_ps <= 16382)%N.
Proof.
  split; [reflexivity|]. split; [|split].
  - split; [|vm_compute; lia]. repeat (constructor; [split; [cbn; lia|repeat constructor]|]). constructor.
  - cbn [pieces_ok wit_ps]. repeat split; try (vm_compute; lia);
      repeat (constructor; [split; [cbn; lia|repeat constructor]|]); constructor.
  - vm_compute. discriminate.
Qed.
Example C09_witness :
  run_wops (wire_labels (map (map lower) wit_q) ++ [0%N]) (map to_op wit_ps) (wit_hd ++ (wire_labels wit_q ++ [0%N]) ++ [0; 1; 0; 1]%N) [] []
  = Ok (wit_hd ++ [2; 77; 120; 2; 101; 120; 3; 99; 111; 109; 0; 0; 1; 0; 1; 1; 97; 192; 12; 1; 2; 3; 1; 98; 192; 27;
                   192; 34; 1; 97; 0; 0; 0]%N, [27; 34; 38; 40; 43; 44])%nat.
Proof. vm_compute. reflexivity. Qed.

Print Assumptions C09_names_read_back.
Print Assumptions C09_names_read_back_exactly.
Print Assumptions C09_reading_is_unambiguous.
Print Assumptions C09_zone_part_found.
