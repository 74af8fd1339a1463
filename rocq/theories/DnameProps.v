(** C01-C04: domain names. *)
From Verif Require Import Base DnameModel DnameSpec DnameProofs DnameProofs2.
Local Open Scope nat_scope.

(** C01.  For every text: no memory error and no failed assertion; the answer is
    a legal name exactly when the text denotes one, it is that name, with the
    right qualification. *)
Theorem C01_from_string_exact : forall buf text,
  length buf = 256 -> all_bytes text ->
  exists s out, dname_from_string buf text = Ok (s, out) /\ length out = 256 /\
    (s = DNAME_VALID <-> exists ls, name_text text ls true /\ legal_name ls) /\
    (s = DNAME_PARTIAL <-> exists ls, name_text text ls false /\ legal_name ls) /\
    (forall ls fq, name_text text ls fq -> legal_name ls -> exists rest, out = dname ls fq ++ rest).
Proof.
  intros buf text Hb Ht. destruct (from_string_total buf text Hb Ht) as (s & out & E & Hl & Hsound & Hcomp).
  exists s, out. split; [exact E|]. split; [exact Hl|]. split; [|split].
  - split; [intros ->|intros (ls & H1 & H2); now apply (Hcomp _ _ H1 H2)].
    destruct Hsound as (ls & rest & H1 & H2 & _); [discriminate|]. exists ls. auto.
  - split; [intros ->|intros (ls & H1 & H2); now apply (Hcomp _ _ H1 H2)].
    destruct Hsound as (ls & rest & H1 & H2 & _); [discriminate|]. exists ls. auto.
  - intros ls fq H1 H2. now apply (Hcomp _ _ H1 H2).
Qed.
Print Assumptions C01_from_string_exact.

(** a text denotes at most one legal name *)
Theorem C01_text_is_unambiguous : forall text ls1 fq1 ls2 fq2,
  all_bytes text -> name_text text ls1 fq1 -> name_text text ls2 fq2 -> legal_name ls1 -> legal_name ls2 ->
  ls1 = ls2 /\ fq1 = fq2.
Proof.
  intros text ls1 fq1 ls2 fq2 Hb H1 H2 L1 L2.
  destruct (from_string_total (repeat 0%N 256) text eq_refl Hb) as (s & out & _ & _ & _ & Hc).
  destruct (Hc _ _ H1 L1) as [S1 [r1 E1]]. destruct (Hc _ _ H2 L2) as [S2 [r2 E2]].
  rewrite E1 in E2. rewrite !dname_unfold in E2. cbn [app] in E2. injection E2 as _ E2.
  rewrite <- !app_assoc in E2. destruct (legal_struct _ L1) as [Q1 _]. destruct (legal_struct _ L2) as [Q2 _].
  destruct (wire_inj _ _ _ _ Q1 Q2 (term_cases _) (term_cases _) _ _ E2) as (-> & Et & _).
  split; auto. destruct fq1, fq2; auto; discriminate Et.
Qed.
Print Assumptions C01_text_is_unambiguous.

(* "Ww\046\.x.Com." : labels  w w . . x  and  c o m, fully qualified *)
Definition c01_text : bytes := [87;119;92;48;52;54;92;46;120;46;67;111;109;46]%N.
Example C01_witness :
  name_text c01_text [[119;119;46;46;120]; [99;111;109]]%N true /\ legal_name [[119;119;46;46;120]; [99;111;109]]%N
  /\ exists out, dname_from_string (repeat 7%N 256) c01_text = Ok (DNAME_VALID, out)
     /\ firstn 12 out = [11;5;119;119;46;46;120;3;99;111;109;0]%N.
Proof.
  split; [|split].
  - apply nt_labels. apply (lt_more [87;119;92;48;52;54;92;46;120]%N _ [67;111;109;46]%N).
    + exists [87;119;46;46;120]%N. split; [|split; [reflexivity|discriminate]].
      repeat (apply esc_plain; [discriminate..|]).
      apply (esc_num 48 52 54); unfold is_digit; try lia.
      apply esc_char; [unfold is_digit; lia|]. repeat (apply esc_plain; [discriminate..|]). constructor.
    + apply (lt_dot [67;111;109]%N). exists [67;111;109]%N. split; [|split; [reflexivity|discriminate]].
      repeat (apply esc_plain; [discriminate..|]). constructor.
  - split; [|unfold wire_len; cbn; lia]. repeat constructor; cbn; lia.
  - eexists. split; [vm_compute; reflexivity|]. reflexivity.
Qed.

Example C01_witness_bad :
  map (fun t => match dname_from_string (repeat 7%N 256) t with Ok (s, _) => Some s | UB => None end)
    [[97;46;46;98]; [46;97]; [97;92]; [92;50;53;54]; repeat 97 64; [97;92;49;50]]%N
  = repeat (Some DNAME_INVALID) 6.
Proof. vm_compute. reflexivity. Qed.

(** C02.  Printing fits the 1024-byte buffer the callers provide, and parsing the
    printed text gives the lower-cased name back, for names without the
    two bytes the printer does not escape.  The root name is the other exception. *)
Theorem C02_print_parse_round_trip : forall ls fq rest buf,
  legal_name ls -> Forall (Forall (fun b => b <> 46 /\ b <> 92)%N) ls -> (ls <> [] \/ fq = false) ->
  length buf = 256 ->
  exists t out rest', dname_to_string 1024 (dname ls fq ++ rest) = Ok t /\
    dname_from_string buf t = Ok (if fq then DNAME_VALID else DNAME_PARTIAL, out) /\
    out = dname (map (map lower) ls) fq ++ rest'.
Proof.
  intros ls fq rest buf Hl Hp Hne Hb.
  pose proof (shown_name_text ls fq Hl Hp Hne) as Ht.
  destruct (from_string_total buf (shown ls fq) Hb (shown_bytes _ _ (proj1 Hl))) as (s & out & E & _ & _ & Hc).
  destruct (Hc _ _ Ht (legal_lower _ Hl)) as [-> [rest' ->]].
  exists (shown ls fq), (dname (map (map lower) ls) fq ++ rest'), rest'. split; [|auto].
  apply to_string_ok. now apply legal_struct.
Qed.
Print Assumptions C02_print_parse_round_trip.

(** Printing is memory-safe for every structurally valid name. *)
Theorem C02_print_in_bounds : forall ls fq rest, struct_name ls ->
  exists t, dname_to_string 1024 (dname ls fq ++ rest) = Ok t /\ length t < 1024.
Proof.
  intros ls fq rest Hs. exists (shown ls fq). split; [now apply to_string_ok|].
  destruct Hs as [H1 H2]. pose proof (text_of_len ls). pose proof (removelast_len (text_of ls)).
  unfold shown. destruct fq; lia.
Qed.
Print Assumptions C02_print_in_bounds.

(** Without the byte restriction the round trip fails: a dot inside a label is
    printed as a separator, and a backslash starts an escape. *)
Theorem C02_round_trip_any_label_refuted :
  ~ (forall ls fq buf, legal_name ls -> length buf = 256 -> ls <> [] ->
     exists t out rest', dname_to_string 1024 (dname ls fq) = Ok t /\
       dname_from_string buf t = Ok (if fq then DNAME_VALID else DNAME_PARTIAL, out) /\
       out = dname (map (map lower) ls) fq ++ rest').
Proof.
  intros H. destruct (H [[97;46;98]]%N true (repeat 0%N 256)) as (t & out & rest' & E1 & E2 & E3).
  - split; [repeat constructor; cbn; lia|unfold wire_len; cbn; lia].
  - reflexivity.
  - discriminate.
  - vm_compute in E1. injection E1 as <-. vm_compute in E2. injection E2 as <-. discriminate E3.
Qed.
Print Assumptions C02_round_trip_any_label_refuted.

(** The root name prints as the empty text, which parses as the empty partial name. *)
Theorem C02_root_prints_empty_refuted :
  dname_to_string 1024 (dname [] true) = Ok [] /\
  exists out, dname_from_string (repeat 0%N 256) [] = Ok (DNAME_PARTIAL, out).
Proof. split; [vm_compute; reflexivity|]. eexists. vm_compute. reflexivity. Qed.
Print Assumptions C02_root_prints_empty_refuted.

Example C02_witness :
  dname_to_string 1024 (dname [[119;32;200]; [120]]%N true) = Ok [119;92;48;51;50;92;50;48;48;46;120;46]%N.
Proof. vm_compute. reflexivity. Qed.

(** C03.  *)
Theorem C03_cat_appends_labels : forall a fa ra b fb rb,
  struct_name a -> struct_name b -> length (dname a fa ++ ra) = 256 ->
  exists s out, dname_cat (dname a fa ++ ra) (dname b fb ++ rb) = Ok (s, out) /\ length out = 256 /\
    (wire_len (a ++ b) <= 255 -> s = (if fb then DNAME_VALID else DNAME_PARTIAL) /\ exists rest, out = dname (a ++ b) fb ++ rest) /\
    (wire_len (a ++ b) > 255 -> s = DNAME_INVALID /\ out = dname a fa ++ ra).
Proof.
  intros a fa ra b fb rb Ha Hb Hl. destruct (cat_ok a fa ra b fb rb Ha Hb Hl) as (out & Hlo & E & H).
  eexists _, out. split; [exact E|]. split; [exact Hlo|].
  destruct (Nat.leb_spec (wire_len (a ++ b)) 255); split; intros; try lia; auto.
Qed.
Print Assumptions C03_cat_appends_labels.

Theorem C03_isinzone_is_label_suffix : forall zone name rz rn,
  struct_name zone -> struct_name name ->
  exists b, dname_isinzone (dname zone true ++ rz) (dname name true ++ rn) = Ok b /\
  (b = true <-> exists q, name = q ++ zone).
Proof. intros. now apply isinzone_ok. Qed.
Print Assumptions C03_isinzone_is_label_suffix.

Theorem C03_drop_zone_removes_the_suffix : forall q zone rn rz,
  struct_name (q ++ zone) -> struct_name zone ->
  exists rest, dname_drop_zone (dname (q ++ zone) true ++ rn) (dname zone true ++ rz) = Ok (dname q true ++ rest).
Proof. intros q zone rn rz H1 H2. destruct (drop_zone_ok q zone rn rz H1 H2) as (rest & E & _). eauto. Qed.
Print Assumptions C03_drop_zone_removes_the_suffix.

(** dropping a zone and re-appending it restores the name *)
Theorem C03_drop_then_cat_restores : forall q zone rn rz,
  struct_name (q ++ zone) -> struct_name zone -> length (dname (q ++ zone) true ++ rn) = 256 ->
  exists mid out rest, dname_drop_zone (dname (q ++ zone) true ++ rn) (dname zone true ++ rz) = Ok mid /\
    dname_cat mid (dname zone true ++ rz) = Ok (DNAME_VALID, out) /\ out = dname (q ++ zone) true ++ rest.
Proof.
  intros q zone rn rz H1 H2 Hl. destruct (drop_zone_ok q zone rn rz H1 H2) as (rest & E & Hl2).
  assert (Hq : struct_name q).
  { destruct H1 as [H1 H3]. split; [apply Forall_app in H1; tauto|]. rewrite wire_len_app in H3. pose proof (wire_len_pos zone). lia. }
  destruct (cat_ok q true rest zone true rz Hq H2) as (out & _ & E2 & H); [congruence|].
  destruct H1 as [_ H1]. destruct (Nat.leb_spec (wire_len (q ++ zone)) 255); [|lia]. destruct H as [r ->].
  exists (dname q true ++ rest), (dname (q ++ zone) true ++ r), r. auto.
Qed.
Print Assumptions C03_drop_then_cat_restores.

(** name comparison is equality of label lists and qualification *)
Theorem C03_cmp_is_equality : forall a fa ra b fb rb, struct_name a -> struct_name b ->
  exists r, dname_eq (dname a fa ++ ra) (dname b fb ++ rb) = Ok r /\ (r = true <-> a = b /\ fa = fb).
Proof. intros. now apply dname_eq_ok. Qed.
Print Assumptions C03_cmp_is_equality.

Theorem C03_iswild_is_star_first : forall ls fq rest, struct_name ls ->
  exists b, dname_iswild (dname ls fq ++ rest) = Ok b /\ (b = true <-> exists r, ls = [42%N] :: r).
Proof. intros. now apply iswild_ok. Qed.
Print Assumptions C03_iswild_is_star_first.

Theorem C03_terminate_qualifies : forall ls fq rest, struct_name ls ->
  dname_terminate (dname ls fq ++ rest) = Ok (dname ls true ++ rest).
Proof. intros. now apply terminate_ok. Qed.
Print Assumptions C03_terminate_qualifies.

(* "xb.c." is not in zone "b.c." although the wire bytes of a crafted label end the same way *)
Example C03_witness :
  struct_name [[120;1;98]; [99]]%N /\
  dname_isinzone (dname [[98];[99]]%N true) (dname [[120];[98];[99]]%N true) = Ok true /\
  dname_isinzone (dname [[98];[99]]%N true) (dname [[120;1;98];[99]]%N true) = Ok false.
Proof. split; [split; [repeat constructor; cbn; lia|unfold wire_len; cbn; lia]|]. split; vm_compute; reflexivity. Qed.

(** C04.  Every buffer and every length not beyond the allocation: no access
    outside [buflen] bytes (the accesses of the model are checked against
    the list of [buflen] bytes), no failed assertion, and the exact meaning of
    the verdict. *)
Theorem C04_status_of_arbitrary_bytes : forall buf, all_bytes buf ->
  exists s, dname_status_buflen buf (length buf) = Ok s /\
    (s = DNAME_VALID <-> exists ls rest, struct_name ls /\ buf = dname ls true ++ rest) /\
    (s = DNAME_PARTIAL <-> exists ls rest, struct_name ls /\ buf = dname ls false ++ rest).
Proof.
  intros buf Hb. unfold dname_status_buflen.
  assert (Hback : forall ls fq rest, struct_name ls -> buf = dname ls fq ++ rest ->
    Nat.eqb (length buf) 0 = false /\ rd buf 0 = Ok (N.of_nat (wire_len ls)) /\ wire_len ls + 1 <= length buf).
  { intros ls fq rest Hs ->. rewrite rd_dname0, app_length, dname_length. repeat split; try lia. }
  destruct (Nat.eqb_spec (length buf) 0) as [Hz|Hz].
  { eexists; split; [reflexivity|]. split; (split; [discriminate|]); intros (ls & rest & Hs & E); destruct (Hback _ _ _ Hs E); discriminate. }
  destruct (rd_ok buf 0 ltac:(lia)) as [l El]. rewrite El. cbn [rbind].
  destruct (Nat.ltb_spec (length buf) (N.to_nat l + 1)) as [Hlt|Hge].
  { eexists; split; [reflexivity|]. split; (split; [discriminate|]); intros (ls & rest & Hs & E);
    destruct (Hback _ _ _ Hs E) as (_ & E2 & E3); assert (l = N.of_nat (wire_len ls)) by congruence; subst l; rewrite Nat2N.id in Hlt; lia. }
  destruct (status_total buf l El ltac:(lia) Hb) as (s & E & HS). exists s. split; [exact E|].
  assert (Hc : forall ls fq rest, struct_name ls -> buf = dname ls fq ++ rest -> s = if fq then DNAME_VALID else DNAME_PARTIAL).
  { intros ls fq rest Hs ->. rewrite status_dname in E by assumption. congruence. }
  split; (split; [intros ->; exact HS|intros (ls & rest & Hs & Eb); exact (Hc _ _ _ Hs Eb)]).
Qed.
Print Assumptions C04_status_of_arbitrary_bytes.

(** Labels of more than 63 bytes are accepted by the checker, so VALID is weaker
    than being a legal DNS name. *)
Theorem C04_valid_means_legal_refuted :
  ~ (forall ls, dname_status (dname ls true) = Ok DNAME_VALID -> legal_name ls).
Proof.
  intros H. specialize (H [repeat 97%N 64] ltac:(vm_compute; reflexivity)). destruct H as [H _].
  inversion H as [|? ? [[_ H1] _] _]; subst. cbn in H1. lia.
Qed.
Print Assumptions C04_valid_means_legal_refuted.

Example C04_witness :
  map (fun b => dname_status_buflen b (length b))
    [[4;2;97;98;0;9]; [4;2;97;98;255]; [4;2;97;98]; [4;3;97;98;0]; [5;2;97;98;0;0]; []]%N
  = map Ok [DNAME_VALID; DNAME_PARTIAL; DNAME_INVALID; DNAME_INVALID; DNAME_INVALID; DNAME_INVALID].
Proof. vm_compute. reflexivity. Qed.
