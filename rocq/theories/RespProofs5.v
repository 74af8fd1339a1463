(** Where the names of a followed alias chain are, and the zone check on them. *)
From Coq Require Import Sorting.Permutation.
From Verif Require Import Base DnameModel DnameSpec DnameProofs DnameProofs2 CompModel CompSpec CompProofs RespModel RespSpec RespProofs.
Ltac Zify.zify_post_hook ::= idtac.

(** the targets of the question: its non-empty suffixes, longest first *)
Fixpoint suffs (q : list (list N)) (off : nat) : list ctarget :=
  match q with [] => [] | l :: r => {| ct_orig := wn q; ct_off := off |} :: suffs r (off + S (length l)) end.

Lemma wn_step l r : length (wn (l :: r)) - length (wn r) = S (length l).
Proof. rewrite wn_cons. cbn [length]. rewrite app_length. lia. Qed.
Lemma wn_cons_len l r : length (wn (l :: r)) = S (length l) + length (wn r).
Proof. rewrite wn_cons. cbn [length]. rewrite app_length. lia. Qed.
Lemma wn_nil_len : length (wn []) = 1. Proof. reflexivity. Qed.
Lemma wn_pos q : 1 <= length (wn q). Proof. destruct q; [cbn; lia|rewrite wn_cons_len; lia]. Qed.

Lemma add_targets_exact : forall q fuel cts off, Forall legal_label q -> length (wn q) < fuel ->
  add_targets fuel cts (wn q) off = Ok (cts ++ firstn (16 - length cts) (suffs q off)).
Proof.
  induction q as [|l q IH]; intros fuel cts off HL HF; destruct fuel as [|fuel]; try lia; cbn [add_targets].
  - cbn [wn wire_labels app length Nat.ltb Nat.leb andb suffs]. now rewrite firstn_nil, app_nil_r.
  - pose proof HL as HL0. apply Forall_cons_iff in HL. destruct HL as [H1 H2].
    replace (Nat.ltb 2 (length (wn (l :: q)))) with true by (symmetry; apply Nat.ltb_lt; apply wn_short; [assumption|discriminate]).
    cbn [andb]. unfold COMPTARGETS_MAX. destruct (Nat.ltb_spec (length cts) 16) as [L|L].
    + rewrite next_label_wn. cbn [rbind]. rewrite wn_step. rewrite wn_cons_len in HF. rewrite IH by (auto; lia).
      rewrite app_length. cbn [length]. rewrite <- app_assoc. f_equal. f_equal.
      replace (16 - length cts) with (S (16 - (length cts + 1))) by lia. reflexivity.
    + replace (16 - length cts) with 0 by lia. cbn [firstn]. now rewrite app_nil_r.
Qed.
Lemma question_targets q : Forall legal_label q -> ctargets_add_qname (wn q) = Ok (firstn 16 (suffs q 12)).
Proof. intros H. unfold ctargets_add_qname. rewrite add_targets_exact by (auto; lia). reflexivity. Qed.

Lemma skip_false : forall p fuel tlen done rest z off, length (wn z) <= tlen -> length (wn (p ++ z)) < fuel ->
  exists x p' off', p = x ++ p' /\ skip_longer fuel tlen false done rest (wn (p ++ z)) off = Ok (done, wn (p' ++ z), off') /\ length (wn (p' ++ z)) <= tlen.
Proof.
  induction p as [|l p IH]; intros fuel tlen done rest z off HZ HF; destruct fuel as [|fuel]; try lia; cbn [skip_longer].
  - cbn [app]. destruct (Nat.ltb_spec tlen (length (wn z))); [lia|]. exists [], [], off. auto.
  - destruct (Nat.ltb_spec tlen (length (wn ((l :: p) ++ z)))) as [L|L].
    + cbn [andb rbind app]. rewrite next_label_wn. cbn [rbind]. cbn [app] in HF. rewrite wn_cons_len in HF.
      destruct (IH fuel tlen done rest z (off + (length (wn (l :: p ++ z)) - length (wn (p ++ z)))) HZ ltac:(lia)) as (x & p' & off' & -> & E & B).
      exists (l :: x), p', off'. split; [reflexivity|]. split; [exact E|exact B].
    + exists [], (l :: p), off. auto.
Qed.

(** Looking for a name that shares the suffix [z] with the question finds
    nothing, or a suffix that contains [z]. *)
Lemma search_false z : forall b n done off0 p off, Forall legal_label (b ++ z) -> Forall legal_label (p ++ z) ->
  (exists nm off', comp_search false done (firstn n (suffs (b ++ z) off0)) (wn (p ++ z)) off = Ok (NotFound, done ++ firstn n (suffs (b ++ z) off0), nm, off')) \/
  (exists a y b1 off', p = a ++ y /\ b ++ z = b1 ++ y ++ z /\ y ++ z <> [] /\
    comp_search false done (firstn n (suffs (b ++ z) off0)) (wn (p ++ z)) off =
      Ok (Found {| ct_orig := wn (y ++ z); ct_off := off0 + length (wire_labels b1) |}, done ++ firstn n (suffs (b ++ z) off0), wn (y ++ z), off')).
Proof.
  induction b as [|l b IH]; intros n done off0 p off HB HP.
  - cbn [app] in *. destruct n as [|n]; [left; cbn [firstn comp_search]; rewrite ?app_nil_r; solve [eauto]|].
    destruct z as [|l z]; [left; cbn [suffs firstn comp_search]; rewrite ?app_nil_r; solve [eauto]|].
    right. cbn [suffs firstn comp_search]. unfold ct_len. cbn [ct_orig].
    destruct (skip_false p (S (length (wn (p ++ l :: z)))) (length (wn (l :: z))) done
       (length ({| ct_orig := wn (l :: z); ct_off := off0 |} :: firstn n (suffs z (off0 + S (length l))))) (l :: z) off) as (x & p' & off' & -> & E & B); [lia|lia|].
    assert (p' = []). { destruct p' as [|m p']; [reflexivity|]. cbn [app] in B. rewrite wn_cons_len in B. rewrite wn_app, app_length in B. lia. }
    subst p'. rewrite app_nil_r in *. rewrite E. cbn [rbind app]. rewrite (proj2 (bytes_eqb_spec _ _) eq_refl).
    exists x, [], [], off'. cbn [app wire_labels length]. rewrite app_nil_r, Nat.add_0_r. split; [reflexivity|]. split; [reflexivity|]. split; [discriminate|reflexivity].
  - destruct n as [|n]; [left; cbn [firstn comp_search]; rewrite ?app_nil_r; solve [eauto]|].
    cbn [app] in HB. pose proof HB as HB0. apply Forall_cons_iff in HB. destruct HB as [HB1 HB2].
    cbn [app suffs firstn comp_search]. unfold ct_len. cbn [ct_orig].
    set (T := {| ct_orig := wn (l :: b ++ z); ct_off := off0 |}). set (todo := firstn n (suffs (b ++ z) (off0 + S (length l)))).
    destruct (skip_false p (S (length (wn (p ++ z)))) (length (wn (l :: b ++ z))) done (length (T :: todo)) z off) as (x & p' & off' & -> & E & B); [|lia|].
    { rewrite wn_cons_len, wn_app, app_length. lia. }
    rewrite E. cbn [rbind]. destruct (bytes_eqb (wn (p' ++ z)) (wn (l :: b ++ z))) eqn:EQ.
    + right. apply bytes_eqb_spec in EQ. rewrite <- app_assoc in HP.
      assert (X : p' ++ z = l :: b ++ z) by (apply wn_inj; [eapply legal_app_r; exact HP|assumption|exact EQ]).
      exists x, p', [], off'. split; [reflexivity|]. split; [cbn [app]; now symmetry|]. split; [rewrite X; discriminate|].
      unfold T. cbn [wire_labels length]. rewrite Nat.add_0_r, X. reflexivity.
    + rewrite <- app_assoc in HP. assert (HP' : Forall legal_label (p' ++ z)) by (eapply legal_app_r; exact HP).
      destruct (IH n (done ++ [T]) (off0 + S (length l)) p' off' HB2 HP') as [(nm & o' & F)|(a & y & b1 & o' & -> & F1 & F2 & F3)].
      * left. exists nm, o'. fold todo in F. rewrite F, <- app_assoc. reflexivity.
      * right. exists (x ++ a), y, (l :: b1), o'. split; [now rewrite app_assoc|]. split; [cbn [app]; now rewrite F1|]. split; [assumption|].
        fold todo in F3. rewrite F3, <- app_assoc. cbn [app]. do 4 f_equal. f_equal. f_equal. cbn [wire_labels length]. rewrite app_length. lia.
Qed.

(** ** Names written out *)
Definition lit (out : bytes) (off : nat) (w : bytes) : Prop := off + length w <= length out /\ sub out off (length w) = w.
Lemma lit_app out r off w : lit out off w -> lit (out ++ r) off w.
Proof. intros [H1 H2]. split; [rewrite app_length; lia|]. now rewrite sub_app_l by assumption. Qed.
Lemma lit_mid pre w tail : lit (pre ++ w ++ tail) (length pre) w.
Proof.
  split; [rewrite !app_length; lia|]. rewrite <- (Nat.add_0_r (length pre)), sub_app_r, sub_app_l by lia. apply sub_full.
Qed.
Lemma lit_tail pre w : lit (pre ++ w) (length pre) w.
Proof. pose proof (lit_mid pre w []) as H. now rewrite app_nil_r in H. Qed.
Lemma skipn2 {A} n m (l : list A) : skipn m (skipn n l) = skipn (n + m) l.
Proof. revert l. induction n as [|n IH]; intros l; [reflexivity|]. destruct l; cbn [skipn plus]; [now rewrite !skipn_nil|apply IH]. Qed.
Lemma lit_split out off w : lit out off w -> exists pre tail, out = pre ++ w ++ tail /\ length pre = off.
Proof.
  intros [H1 H2]. exists (firstn off out), (skipn (off + length w) out). split; [|rewrite firstn_length; lia].
  rewrite <- H2 at 1. unfold sub. rewrite <- (firstn_skipn off out) at 1. f_equal.
  rewrite <- (firstn_skipn (length w) (skipn off out)) at 1. f_equal. now rewrite skipn2.
Qed.
Lemma lit_sub out off a b : lit out off (a ++ b) -> lit out off a /\ lit out (off + length a) b.
Proof.
  intros H. destruct (lit_split _ _ _ H) as (pre & tail & -> & <-). split.
  - rewrite <- app_assoc. apply lit_mid.
  - replace (pre ++ (a ++ b) ++ tail) with ((pre ++ a) ++ b ++ tail) by (rewrite <- !app_assoc; reflexivity).
    rewrite <- app_length. apply lit_mid.
Qed.
Lemma lit_cons out off x w : lit out off (x :: w) -> nth_error out off = Some x.
Proof. intros H. destruct (lit_split _ _ _ H) as (pre & tail & -> & <-). rewrite nth_error_app2, Nat.sub_diag by lia. reflexivity. Qed.
(** The name [p ++ z] starts at [off] with [z] in one piece: all written
    out, or some labels and a pointer to the rest written out. *)
Definition zlit (out : bytes) (off : nat) (p z : name) : Prop :=
  lit out off (wn (p ++ z)) \/
  exists a y o, p = a ++ y /\ (N.of_nat o < 16384)%N /\ lit out off (wire_labels a ++ be16 (N.lor 49152 (N.of_nat o))) /\ lit out o (wn (y ++ z)).
Lemma zlit_app out r off p z : zlit out off p z -> zlit (out ++ r) off p z.
Proof. intros [H|(a & y & o & H1 & H2 & H3 & H4)]; [left; now apply lit_app|right; exists a, y, o; auto using lit_app]. Qed.

Lemma chase_labels out : forall a fuel off d, Forall legal_label a -> lit out off (wire_labels a) ->
  chase_auth_ptr (length a + fuel) out off (length (wire_labels a) + d) = chase_auth_ptr fuel out (off + length (wire_labels a)) d.
Proof.
  induction a as [|l a IH]; intros fuel off d HL H; [cbn [length wire_labels plus]; now rewrite Nat.add_0_r|].
  apply Forall_cons_iff in HL. destruct HL as [[HL _] HA]. cbn [length plus chase_auth_ptr].
  assert (Hb : nth_error out off = Some (N.of_nat (length l))) by (eapply lit_cons; exact H).
  unfold rd. rewrite Hb. cbn [rbind]. rewrite byte_top_clear by lia. cbn [N.eqb negb].
  assert (LW : length (wire_labels (l :: a)) = S (length l) + length (wire_labels a)) by (cbn [wire_labels length]; rewrite app_length; lia).
  rewrite LW. cbn [plus Nat.eqb andb]. rewrite Nat2N.id.
  destruct (Nat.leb_spec (S (length l)) (S (length l + length (wire_labels a) + d))); [|lia]. cbn [rassert].
  replace (S (length l + length (wire_labels a) + d) - S (length l)) with (length (wire_labels a) + d) by lia.
  rewrite IH; auto.
  - f_equal. lia.
  - change (wire_labels (l :: a)) with ((N.of_nat (length l) :: l) ++ wire_labels a) in H. apply lit_sub in H. destruct H as [_ H]. exact H.
Qed.
Lemma chase_stop out off z fuel : Forall legal_label z -> lit out off (wn z) -> chase_auth_ptr (S fuel) out off 0 = Ok off.
Proof.
  intros HL H. cbn [chase_auth_ptr]. unfold rd. destruct z as [|l z].
  - rewrite (lit_cons _ _ _ _ H). reflexivity.
  - rewrite wn_cons in H. rewrite (lit_cons _ _ _ _ H). cbn [rbind Nat.eqb andb]. apply Forall_cons_iff in HL. destruct HL as [[HL _] _].
    rewrite byte_top_clear by lia. reflexivity.
Qed.
Lemma legal_app_l a b : Forall legal_label (a ++ b) -> Forall legal_label a.
Proof. intros H. apply Forall_app in H. tauto. Qed.

Lemma chase_zlit out off p z fuel : Forall legal_label (p ++ z) -> zlit out off p z -> length p + 2 <= fuel ->
  exists o, chase_auth_ptr fuel out off (length (wire_labels p)) = Ok o /\ lit out o (wn z).
Proof.
  intros HL HZ HF. pose proof (legal_app_l _ _ HL) as HLp. assert (HLz : Forall legal_label z) by (apply Forall_app in HL; tauto).
  destruct HZ as [H|(a & y & o & -> & Ho & H1 & H2)].
  - rewrite wn_app in H. apply lit_sub in H. destruct H as [Ha Hz].
    exists (off + length (wire_labels p)). split; [|assumption].
    replace fuel with (length p + S (fuel - length p - 1)) by lia. rewrite <- (Nat.add_0_r (length (wire_labels p))) at 1.
    rewrite chase_labels by assumption. now apply (chase_stop out _ z).
  - apply Forall_app in HLp. destruct HLp as [HLa HLy]. apply lit_sub in H1. destruct H1 as [Ha Hp].
    rewrite wn_app in H2. apply lit_sub in H2. destruct H2 as [Hy Hz].
    exists (o + length (wire_labels y)). split; [|assumption]. rewrite app_length in HF.
    replace fuel with (length a + S (length y + S (fuel - length a - length y - 2))) by lia.
    rewrite wire_labels_app, app_length. rewrite chase_labels by assumption.
    destruct (ptr_bytes (N.of_nat o) Ho) as (hi & lo & EP & B1 & B2 & B3). rewrite EP in Hp.
    cbn [chase_auth_ptr]. unfold rd. rewrite (lit_cons _ _ _ _ Hp). cbn [rbind].
    change [hi; lo] with ([hi] ++ [lo]) in Hp. apply lit_sub in Hp. destruct Hp as [_ Hp]. cbn [length] in Hp. rewrite Nat.add_1_r in Hp.
    rewrite (lit_cons _ _ _ _ Hp). rewrite byte_top_set by lia. cbn [N.eqb negb rbind]. rewrite andb_false_r.
    rewrite ptr_value by lia. rewrite B3, Nat2N.id.
    rewrite <- (Nat.add_0_r (length (wire_labels y))) at 1. rewrite chase_labels by assumption. now apply (chase_stop out _ z).
Qed.

(** ** The zone check *)
Lemma wire_zone_ok out pos : forall z fuel pre, Forall legal_label z -> lit out (pos + pre) (wn z) -> length z < fuel ->
  wire_zone_len fuel out pos pre = Ok (pre + wire_len z).
Proof.
  induction z as [|l z IH]; intros fuel pre HL H HF; (destruct fuel as [|fuel]; [cbn [length] in HF; lia|]); cbn [wire_zone_len]; unfold rd.
  - rewrite (lit_cons _ _ _ _ H). cbn [rbind N.eqb]. replace (pre + wire_len []) with (S pre) by (change (wire_len []) with 1; lia). reflexivity.
  - pose proof H as H0. rewrite wn_cons in H0. rewrite (lit_cons _ _ _ _ H0). cbn [rbind].
    apply Forall_cons_iff in HL. destruct HL as [[HL _] HZ]. destruct (N.eqb_spec (N.of_nat (length l)) 0); [lia|]. rewrite Nat2N.id.
    rewrite IH; auto.
    + apply f_equal. change (wire_len (l :: z)) with (S (S (length l) + fold_right (fun (x : list N) n => S (length x) + n) 0 z)). unfold wire_len. lia.
    + rewrite app_comm_cons in H0. apply lit_sub in H0. destruct H0 as [_ H0]. cbn [length] in H0. replace (pos + (pre + S (length l))) with (pos + pre + S (length l)) by lia. exact H0.
    + cbn [length] in HF. lia.
Qed.
Lemma legal_count z : Forall legal_label z -> 2 * length z < wire_len z.
Proof. unfold wire_len. induction 1 as [|l z [H _] HF IH]; cbn [length fold_right]; lia. Qed.
Lemma legal_struct_name z : legal_name z -> struct_name z.
Proof. intros [H1 H2]. split; [|assumption]. eapply Forall_impl; [|exact H1]. exact legal_struct_label. Qed.
Lemma dname_wn z : dname z true = N.of_nat (wire_len z) :: wn z.
Proof. unfold dname. cbv zeta. change (wire_labels z ++ [term true]) with (wn z). now rewrite wn_len. Qed.
Lemma in_wire_zone_ok out pos z t : legal_name z -> legal_name t -> lit out pos (wn z) ->
  exists b, is_in_wire_zone out pos t = Ok b /\ (b = true <-> exists p, t = p ++ z).
Proof.
  intros HZ HT H. unfold is_in_wire_zone. remember 256 as F. pose proof (legal_count z (proj1 HZ)) as LC. pose proof (proj2 HZ) as LZ.
  rewrite (wire_zone_ok out pos z F 0); [|apply HZ|now rewrite Nat.add_0_r|lia]. cbn [rbind plus].
  destruct (Nat.ltb_spec (wire_len z) F); [|lia]. cbn [rassert]. destruct H as [H1 H2]. rewrite wn_len in H1, H2.
  rewrite rdn_ok by assumption. cbn [rbind]. rewrite H2.
  destruct (isinzone_ok z t [] [] (legal_struct_name _ HZ) (legal_struct_name _ HT)) as (b & E & B).
  rewrite !app_nil_r, !dname_wn in E. exists b. split; [|exact B].
  rewrite wire_wn, wn_len. exact E.
Qed.

(** ** The data of an alias record *)
Lemma enc_rr_cname_inv lq out cts owner type ttl t out' c a :
  enc_rr lq out cts owner type ttl [WComp false t] = Ok (out', c, a) ->
  exists out1 pre data, store_dname_comp lq cts out1 (wn t) false = Ok (out1 ++ data, c) /\ out' = pre ++ data /\ length pre = a /\ length out1 = a /\
    length out <= a.
Proof.
  unfold enc_rr. destruct (repeat_name out owner) as [o1|] eqn:E1; [|discriminate]. cbn [rbind].
  assert (L1 : length out <= length o1).
  { unfold repeat_name in E1. destruct (rd out owner); [|discriminate]. cbn [rbind] in E1.
    destruct (_ =? 0)%N in E1; [apply emit_inv in E1; destruct E1 as [-> _]; rewrite app_length; lia|].
    destruct (negb _) in E1; [destruct (rdn out owner 2); [cbn [rbind] in E1|discriminate]|];
      apply emit_inv in E1; destruct E1 as [-> _]; rewrite app_length; lia. }
  set (h := be16 type ++ be16 1 ++ be32 ttl ++ [0%N; 0%N]). assert (Lh : length h = 10) by reflexivity. clearbody h.
  destruct (emit o1 h) as [o2|] eqn:E2; [|discriminate]. cbn [rbind]. apply emit_inv in E2. destruct E2 as [-> _].
  cbn [enc_pieces]. rewrite wire_wn. set (o2 := o1 ++ h) in *. assert (L2 : length o2 = length o1 + 10) by (unfold o2; rewrite app_length; lia).
  destruct (store_dname_comp lq cts o2 (wn t) false) as [[o3 c3]|] eqn:E3; [|discriminate]. cbn [rbind].
  pose proof E3 as E3'. destruct (store_same lq cts o2 o2 (wn t) false o3 c3 o3 c3 eq_refl E3 E3') as (data & -> & _ & _).
  generalize (be16 (N.of_nat (length (o2 ++ data) - length o2))) (be16_len (N.of_nat (length (o2 ++ data) - length o2))). intros w Lw.
  intros H. exists o2.
  assert (ES : o2 = firstn (length o2 - 2) o2 ++ skipn (length o2 - 2) o2) by (now rewrite firstn_skipn).
  assert (LS : length (skipn (length o2 - 2) o2) = 2) by (rewrite skipn_length; lia).
  set (x := firstn (length o2 - 2) o2) in *. set (y := skipn (length o2 - 2) o2) in *.
  assert (LX : length o2 - 2 = length x) by (unfold x; rewrite firstn_length; lia).
  rewrite LX in H. rewrite ES in H at 1. rewrite <- app_assoc in H. rewrite wr_prefix in H by (rewrite Lw, app_length, LS; lia). cbn [rbind] in H.
  rewrite Lw, skipn_app, LS in H. replace (skipn 2 y) with (@nil N) in H by (symmetry; apply length_zero_iff_nil; rewrite skipn_length; lia).
  change (skipn (2 - 2) data) with data in H. cbn [app] in H.
  injection H as <- <- <-. exists (x ++ w), data. rewrite <- app_assoc, (app_length x w), Lw.
  split; [assumption|]. split; [reflexivity|]. lia.
Qed.

Definition qcts (lq : bytes) (cts : list ctarget) : Prop := cts = [] \/ ctargets_add_qname lq = Ok cts.

Lemma cname_stored q p z cts out1 data c : Forall legal_label q -> Forall legal_label (p ++ z) -> (exists b, q = b ++ z) -> qcts (wn q) cts ->
  store_dname_comp (wn q) cts out1 (wn (p ++ z)) false = Ok (out1 ++ data, c) ->
  qcts (wn q) c /\ (data = wn (p ++ z) \/
    exists a y b1, p = a ++ y /\ q = b1 ++ y ++ z /\ data = wire_labels a ++ be16 (N.lor 49152 (N.of_nat (12 + length (wire_labels b1))))).
Proof.
  intros HQ HP (b & ->) HC. unfold store_dname_comp.
  assert (EC : (match cts with [] => ctargets_add_qname (wn (b ++ z)) | _ => Ok cts end) = Ok (firstn 16 (suffs (b ++ z) 12))).
  { pose proof (question_targets _ HQ) as QT. revert QT. generalize (firstn 16 (suffs (b ++ z) 12)). intros F QT.
    destruct HC as [-> |HC]; [exact QT|]. rewrite HC in QT. injection QT as <-. destruct cts; [exact HC|reflexivity]. }
  rewrite EC. cbn [rbind].
  assert (QC : qcts (wn (b ++ z)) (firstn 16 (suffs (b ++ z) 12))) by (right; now apply question_targets).
  destruct (search_false z b 16 [] 12 p (length out1) HQ HP) as [(nm & off' & E)|(a & y & b1 & off' & E1 & E2 & E3 & E)]; rewrite E; cbn [rbind app].
  - destruct (emit out1 _) as [o|] eqn:EO; [|discriminate]. cbn [rbind]. intros H. injection H as -> <-.
    apply emit_inv in EO. destruct EO as [EO _]. apply app_inv_head in EO. split; [assumption|]. left. congruence.
  - cbn [ct_off]. remember (be16 (N.lor 49152 (N.of_nat (12 + length (wire_labels b1))))) as w eqn:Ew.
    assert (FN : firstn (length (wn (p ++ z)) - length (wn (y ++ z))) (wn (p ++ z)) = wire_labels a).
    { rewrite E1, <- app_assoc, (wn_app a), app_length. replace (length (wire_labels a) + length (wn (y ++ z)) - length (wn (y ++ z))) with (length (wire_labels a)) by lia.
      now rewrite firstn_app, Nat.sub_diag, firstn_all, firstn_O, app_nil_r. }
    rewrite FN. destruct (emit out1 _) as [o|] eqn:EO; [|discriminate]. cbn [rbind]. apply emit_inv in EO. destruct EO as [-> _].
    destruct (emit _ w) as [o|] eqn:EO; [|discriminate]. cbn [rbind]. apply emit_inv in EO. destruct EO as [-> _].
    destruct (rd _ _) as [x|]; [|discriminate]. cbn [rbind]. unfold rassert. destruct (_ =? _)%N; [|discriminate].
    intros H. injection H as H <-. rewrite <- app_assoc in H. apply app_inv_head in H. split; [assumption|]. right. exists a, y, b1. rewrite <- Ew. split; [assumption|]. split; [assumption|]. now symmetry.
Qed.
