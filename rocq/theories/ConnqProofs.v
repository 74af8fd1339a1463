From Verif Require Import Base ConnqModel ConnqSpec.
Ltac Zify.zify_post_hook ::= idtac.
Local Open Scope Z_scope.

(** ** Linked-list segments *)
Definition first (q : queue) (n : ptr) : ptr := match q with [] => n | (c, _) :: _ => Some c end.
Fixpoint lastp (q : queue) (p : ptr) : ptr :=
  match q with [] => p | (c, _) :: q' => lastp q' (Some c) end.

Fixpoint dseg (h : heap) (p : ptr) (q : queue) (n : ptr) : Prop :=
  match q with
  | [] => True
  | (c, z) :: q' => h c = Some {| nxt := first q' n; prv := p; idle := z |} /\ dseg h (Some c) q' n
  end.

Lemma first_app q1 q2 n : first (q1 ++ q2) n = first q1 (first q2 n).
Proof. destruct q1 as [|[c z] q1]; reflexivity. Qed.

Lemma lastp_app q1 : forall q2 p, lastp (q1 ++ q2) p = lastp q2 (lastp q1 p).
Proof. induction q1 as [|[c z] q1 IH]; intros; cbn; auto. Qed.

Lemma lastp_snoc q c z p : lastp (q ++ [(c, z)]) p = Some c.
Proof. now rewrite lastp_app. Qed.

Lemma dseg_app h q1 : forall p q2 n,
  dseg h p (q1 ++ q2) n <-> dseg h p q1 (first q2 n) /\ dseg h (lastp q1 p) q2 n.
Proof.
  induction q1 as [|[c z] q1 IH]; intros p q2 n; cbn [app dseg lastp].
  - tauto.
  - rewrite IH, first_app. tauto.
Qed.

Lemma dseg_frame h h' q : forall p n,
  (forall j, In j (ids q) -> h' j = h j) -> dseg h p q n -> dseg h' p q n.
Proof.
  induction q as [|[c z] q IH]; intros p n Hf H; cbn in *; auto.
  destruct H as [H1 H2]. split; [rewrite Hf; auto|]. apply IH; auto.
Qed.

Lemma hset_same h i v : hset h i v i = v.
Proof. unfold hset. now rewrite Nat.eqb_refl. Qed.
Lemma hset_other h i v j : j <> i -> hset h i v j = h j.
Proof. intros H. unfold hset. destruct (Nat.eqb_spec i j); congruence. Qed.

Definition live_eq (h h' : heap) : Prop := forall j, h' j = None <-> h j = None.

Lemma live_eq_set h i n v : h i = Some n -> live_eq h (hset h i (Some v)).
Proof.
  intros H j. destruct (Nat.eq_dec j i) as [->|E].
  - rewrite hset_same. split; congruence.
  - now rewrite hset_other.
Qed.

Lemma live_eq_trans h1 h2 h3 : live_eq h1 h2 -> live_eq h2 h3 -> live_eq h1 h3.
Proof. intros A B j. now rewrite (B j), (A j). Qed.

Lemma set_prev_ok h p p' x z q n :
  dseg h p ((x, z) :: q) n -> NoDup (ids ((x, z) :: q)) ->
  exists h', set_prev h x p' = Ok h' /\ dseg h' p' ((x, z) :: q) n /\
    (forall j, j <> x -> h' j = h j) /\ live_eq h h'.
Proof.
  cbn [dseg ids map fst]. intros [H1 H2] Hn. unfold set_prev, deref. rewrite H1. cbn [rbind].
  eexists. split; [reflexivity|]. split; [|split].
  - rewrite hset_same. cbn. split; auto. inversion Hn as [|? ? Hx Hn']; subst.
    eapply dseg_frame; [|exact H2]. intros j Hj. apply hset_other. intros ->. auto.
  - intros j Hj. now apply hset_other.
  - eapply live_eq_set; eauto.
Qed.

Lemma set_next_ok h p q y z n n' :
  dseg h p (q ++ [(y, z)]) n -> NoDup (ids (q ++ [(y, z)])) ->
  exists h', set_next h y n' = Ok h' /\ dseg h' p (q ++ [(y, z)]) n' /\
    (forall j, j <> y -> h' j = h j) /\ live_eq h h'.
Proof.
  intros H Hn. apply dseg_app in H. destruct H as [H1 [H2 _]].
  unfold set_next, deref. rewrite H2. cbn [rbind].
  eexists. split; [reflexivity|]. split; [|split].
  - apply dseg_app. split.
    + eapply dseg_frame; [|exact H1]. intros j Hj. apply hset_other. intros ->.
      unfold ids in Hn. rewrite map_app in Hn. apply NoDup_remove_2 in Hn. apply Hn.
      rewrite app_nil_r. exact Hj.
    + cbn. rewrite hset_same. cbn. auto.
  - intros j Hj. now apply hset_other.
  - eapply live_eq_set; eauto.
Qed.

(** ** The thread structure for a given queue *)
Definition mk (t : thr) (h : heap) (q : queue) (tm : option Z) : thr :=
  {| mem := h; qhead := first q None; qtail := lastp q None; num := length q;
     max_clients := max_clients t; server_timeout := server_timeout t; now := now t;
     timer := tm; grace := grace t |}.

Definition Lt (t : thr) (q : queue) : Prop :=
  t = mk t (mem t) q (timer t) /\ dseg (mem t) None q None /\ NoDup (ids q).

Lemma lastp_some q : forall p, q <> [] -> exists q' c z, q = q' ++ [(c, z)] /\ lastp q p = Some c.
Proof.
  intros p H. destruct (exists_last H) as (q' & [c z] & ->).
  exists q', c, z. split; auto. apply lastp_snoc.
Qed.

Lemma ids_app a b : ids (a ++ b) = ids a ++ ids b.
Proof. apply map_app. Qed.

Lemma walk_ok h hd q : forall p fuel ct,
  dseg h p q None -> NoDup (ids q) -> (length q <= fuel)%nat ->
  (p = None -> first q None = hd) ->
  forall tl, tl = lastp q p ->
  walk h hd tl fuel (first q None) ct = Ok (length q + ct)%nat.
Proof.
  induction q as [|[c z] q IH]; intros p fuel ct Hd Hn Hf Hh tl ->; cbn [walk first].
  - destruct fuel; reflexivity.
  - destruct fuel as [|fuel]; [cbn in Hf; lia|].
    destruct Hd as [H1 H2]. cbn [walk]. unfold deref. rewrite H1. cbn [rbind nxt prv].
    assert (E1 : (peq (Some c) (lastp ((c, z) :: q) p) || negb (isnull (first q None)))%bool = true).
    { destruct q as [|[c' z'] q]; cbn; [now rewrite Nat.eqb_refl|apply orb_true_r]. }
    assert (E2 : (peq (Some c) hd || negb (isnull p))%bool = true).
    { destruct p as [p|]; [cbn; apply orb_true_r|]. rewrite <- Hh by auto. cbn. now rewrite Nat.eqb_refl. }
    unfold rassert. rewrite E1, E2. inversion Hn; subst.
    rewrite (IH (Some c)); auto; try (cbn in Hf; lia); try discriminate.
    f_equal. cbn. lia.
Qed.

Lemma sane_ok t q : Lt t q -> (length q <= max_clients t)%nat -> connq_assert_sane t = Ok tt.
Proof.
  intros (E & Hd & Hn) Hm. rewrite E. unfold connq_assert_sane, mk. cbn [num qhead qtail mem max_clients].
  destruct (Nat.eqb_spec (length q) 0) as [E0|E0].
  { destruct q; [reflexivity|cbn in E0; lia]. }
  unfold rassert. replace (Nat.leb (length q) (max_clients t)) with true by (symmetry; apply Nat.leb_le; auto).
  assert (Hq : q <> []) by (destruct q; cbn in E0; congruence).
  destruct (lastp_some q None Hq) as (q' & y & zy & Eq & El). rewrite El.
  destruct q as [|[c z] q0]; [congruence|]. cbn [first].
  assert (Hc := Hd). destruct Hc as [Hc _]. unfold deref at 1. rewrite Hc. cbn [rbind prv isnull].
  rewrite Eq in Hd. apply dseg_app in Hd. destruct Hd as [Hd1 [Hd2 _]].
  unfold deref at 1. rewrite Hd2. cbn [rbind nxt first isnull].
  rewrite <- El. change (Some c) with (first ((c, z) :: q0) None).
  rewrite (walk_ok (mem t) (first ((c, z) :: q0) None) ((c, z) :: q0) None); auto.
  - cbn [rbind]. rewrite Nat.add_0_r, Nat.eqb_refl. reflexivity.
  - rewrite Eq. apply dseg_app. split; auto. split; auto. constructor.
Qed.

(** What [connq_adjust_timer] sets. *)
Definition adj (t : thr) (q : queue) : option Z :=
  match q with
  | [] => None
  | (c, z) :: _ => if grace t then timer t
                   else Some (Z.max (now t) (z + server_timeout t) + TIMEOUT_FUDGE)
  end.

Lemma adjust_ok t q : Lt t q -> (length q <= max_clients t)%nat ->
  connq_adjust_timer t = Ok (mk t (mem t) q (adj t q)).
Proof.
  intros L Hm. unfold connq_adjust_timer. rewrite (sane_ok t q L Hm). cbn [rbind].
  destruct L as (E & Hd & Hn).
  assert (Eh : qhead t = first q None) by (rewrite E; reflexivity).
  assert (En : num t = length q) by (rewrite E; reflexivity).
  assert (Et : qtail t = lastp q None) by (rewrite E; reflexivity).
  rewrite Eh, En. destruct q as [|[c z] q]; cbn [first length adj] in *.
  - cbn. unfold with_timer, mk. cbn. rewrite Eh, Et, En. reflexivity.
  - destruct (grace t) eqn:Eg.
    + rewrite E at 1. reflexivity.
    + destruct Hd as [Hc _]. unfold deref. rewrite Hc. cbn [rbind idle]. unfold with_timer, mk.
      rewrite Eh, Et, En. do 3 f_equal.
      destruct (Z.ltb_spec (server_timeout t + TIMEOUT_FUDGE - (now t - z)) TIMEOUT_FUDGE); lia.
Qed.

Lemma nodup_mid (q1 q2 : queue) c z : NoDup (ids (q1 ++ (c, z) :: q2)) ->
  NoDup (ids (q1 ++ q2)) /\ ~ In c (ids (q1 ++ q2)).
Proof.
  rewrite !ids_app. cbn. intros H. split; [now apply NoDup_remove_1 in H|now apply NoDup_remove_2 in H].
Qed.

Lemma nodup_l (a b : queue) : NoDup (ids (a ++ b)) -> NoDup (ids a).
Proof.
  induction a as [|[c z] a IH]; cbn; intros H; [constructor|].
  inversion H as [|? ? Hc H']; subst. constructor.
  - intros Hi. apply Hc. fold (ids (a ++ b)). rewrite ids_app. apply in_or_app; auto.
  - apply IH. exact H'.
Qed.
Lemma nodup_r (a b : queue) : NoDup (ids (a ++ b)) -> NoDup (ids b).
Proof. induction a as [|[c z] a IH]; cbn; auto. intros H; inversion H; auto. Qed.
Lemma nodup_sep (a b : queue) x : NoDup (ids (a ++ b)) -> In x (ids a) -> In x (ids b) -> False.
Proof.
  induction a as [|[c z] a IH]; cbn; auto. intros H Ha Hb. inversion H as [|? ? Hc H']; subst.
  destruct Ha as [->|Ha].
  - apply Hc. fold (ids (a ++ b)). rewrite ids_app. apply in_or_app; auto.
  - auto.
Qed.

Lemma peq_refl x : peq (Some x) (Some x) = true.
Proof. apply Nat.eqb_refl. Qed.
Lemma peq_neq x y : x <> y -> peq (Some x) (Some y) = false.
Proof. intros H. cbn. now apply Nat.eqb_neq. Qed.

Lemma nil_or_snoc (q : queue) : q = [] \/ exists q' y z, q = q' ++ [(y, z)].
Proof.
  destruct q as [|a q]; [auto|right]. destruct (@exists_last _ (a :: q) ltac:(discriminate)) as (q' & [y z] & ->).
  eauto.
Qed.

(** ** Pulling a connection out *)
Lemma pull_ok t q1 c z q2 : Lt t (q1 ++ (c, z) :: q2) ->
  (length (q1 ++ (c, z) :: q2) <= max_clients t)%nat ->
  exists h', connq_pull_conn t c =
    Ok (mk t h' (q1 ++ q2) (match q1 with [] => adj t q2 | _ => timer t end)) /\
    dseg h' None (q1 ++ q2) None /\
    h' c = mem t c /\ (forall j, ~ In j (ids (q1 ++ q2)) -> h' j = mem t j) /\
    live_eq (mem t) h'.
Proof.
  intros L Hm. pose proof (sane_ok _ _ L Hm) as Hs. destruct L as (E & Hd & Hn).
  destruct (nodup_mid _ _ _ _ Hn) as [Hn' Hc'].
  unfold connq_pull_conn. rewrite Hs. cbn [rbind].
  assert (Eh : qhead t = first (q1 ++ (c, z) :: q2) None) by (rewrite E; reflexivity).
  assert (En : num t = length (q1 ++ (c, z) :: q2)) by (rewrite E; reflexivity).
  assert (Et : qtail t = lastp (q1 ++ (c, z) :: q2) None) by (rewrite E; reflexivity).
  rewrite En. replace (Nat.eqb (length (q1 ++ (c, z) :: q2)) 0) with false
    by (symmetry; apply Nat.eqb_neq; rewrite app_length; cbn; lia).
  cbn [rassert negb]. cbv zeta.
  assert (Elen : (length (q1 ++ (c, z) :: q2) - 1 = length (q1 ++ q2))%nat)
    by (rewrite !app_length; cbn; lia).
  rewrite Elen.
  assert (Hd0 := Hd). apply dseg_app in Hd0. destruct Hd0 as [D1 [Dc D2]]. cbn [first] in D1.
  unfold deref at 1. cbn [mem with_num]. rewrite Dc. cbn [rbind nxt prv].
  (* first half: the right neighbour *)
  assert (S1 : exists h1,
    (match first q2 None with
     | Some x =>
         rassert (negb (peq (Some c) (qtail t)))
           (do h <- set_prev (mem t) x (lastp q1 None);
            Ok (with_mem (with_num t (length (q1 ++ q2))) h))
     | None => rassert (peq (Some c) (qtail t)) (Ok (with_tail (with_num t (length (q1 ++ q2))) (lastp q1 None)))
     end) = Ok {| mem := h1; qhead := qhead t; qtail := lastp (q1 ++ q2) None; num := length (q1 ++ q2);
                  max_clients := max_clients t; server_timeout := server_timeout t; now := now t;
                  timer := timer t; grace := grace t |} /\
    dseg h1 (lastp q1 None) q2 None /\ (forall j, ~ In j (ids q2) -> h1 j = mem t j) /\ live_eq (mem t) h1).
  { destruct q2 as [|[x zx] q2].
    - cbn [first]. exists (mem t). rewrite Et, lastp_app. cbn [lastp]. rewrite peq_refl.
      rewrite app_nil_r. cbn. split; [reflexivity|]. repeat split; auto.
    - cbn [first]. rewrite Et. rewrite lastp_app. cbn [lastp].
      destruct (lastp_some ((x, zx) :: q2) (Some c) ltac:(discriminate)) as (q' & y & zy & Eq & El).
      cbn [lastp] in El. rewrite El.
      assert (c <> y).
      { intros ->. apply Hc'. rewrite ids_app, Eq, ids_app. apply in_or_app. right. apply in_or_app. right. left. reflexivity. }
      rewrite peq_neq by auto. cbn [negb rassert].
      destruct (set_prev_ok (mem t) _ (lastp q1 None) x zx q2 None D2) as (h1 & E1 & Dd & Df & Dl).
      { apply (nodup_r q1). exact Hn'. }
      rewrite E1. cbn [rbind]. exists h1. split; [|split; [exact Dd|split; [|exact Dl]]].
      + unfold with_mem, with_num; cbn [qhead qtail num max_clients server_timeout now timer grace mem].
        rewrite Et, !lastp_app. reflexivity.
      + intros j Hj. apply Df. intros ->. apply Hj. cbn. auto. }
  destruct S1 as (h1 & E1 & D2' & F1 & L1).
  match goal with |- context [rbind ?a _] => replace a with
    (Ok {| mem := h1; qhead := qhead t; qtail := lastp (q1 ++ q2) None; num := length (q1 ++ q2);
           max_clients := max_clients t; server_timeout := server_timeout t; now := now t;
           timer := timer t; grace := grace t |}) end.
  clear E1. cbn [rbind mem]. unfold deref.
  assert (Hcq2 : ~ In c (ids q2)) by (intros Hi; apply Hc'; rewrite ids_app; apply in_or_app; auto).
  assert (Hcq1 : ~ In c (ids q1)) by (intros Hi; apply Hc'; rewrite ids_app; apply in_or_app; auto).
  rewrite (F1 c Hcq2), Dc. cbn [rbind prv nxt].
  assert (D1' : dseg h1 None q1 (Some c)).
  { eapply dseg_frame; [|exact D1]. intros j Hj. apply F1. intros Hj2. apply (nodup_sep q1 q2 j Hn' Hj Hj2). }
  destruct (nil_or_snoc q1) as [->|(q1' & y & zy & ->)].
  - cbn [lastp app first] in *. rewrite Eh, peq_refl. cbn [rassert].
    set (t2 := with_head _ _).
    assert (L2 : Lt t2 q2).
    { split; [|split; [exact D2'|exact Hn']]. reflexivity. }
    rewrite (adjust_ok t2 q2 L2) by (unfold t2; cbn; cbn in Hm; lia). cbn [rbind].
    exists h1. set (t3 := mk t2 _ _ _).
    assert (L3 : Lt t3 q2) by (split; [reflexivity|split; [exact D2'|exact Hn']]).
    rewrite (sane_ok t3 q2 L3) by (unfold t3; cbn; cbn in Hm; lia). cbn [rbind].
    split; [|split; [exact D2'|split; [rewrite F1 by auto; exact Dc|split; auto]]].
    reflexivity.
  - rewrite lastp_snoc. rewrite Eh.
    assert (Ef : exists f, first ((q1' ++ [(y, zy)]) ++ (c, z) :: q2) None = Some f /\ f <> c).
    { destruct q1' as [|[f zf] q1'].
      - exists y. split; auto. intros ->. apply Hcq1. left. reflexivity.
      - exists f. split; auto. intros ->. apply Hcq1. left. reflexivity. }
    destruct Ef as (f & Ef & Hfc). rewrite Ef. cbn [qhead]. rewrite peq_neq by auto. cbn [negb rassert].
    destruct (set_next_ok h1 None q1' y zy _ (first q2 None) D1') as (h2 & E2 & D1'' & F2 & L2).
    { apply (nodup_l _ q2). exact Hn'. }
    rewrite E2. cbn [rbind]. exists h2.
    assert (Hyq2 : ~ In y (ids q2)).
    { intros Hi. apply (nodup_sep (q1' ++ [(y, zy)]) q2 y Hn'); auto. rewrite ids_app. apply in_or_app. right. left. reflexivity. }
    assert (D : dseg h2 None ((q1' ++ [(y, zy)]) ++ q2) None).
    { apply dseg_app. split; auto. eapply dseg_frame; [|exact D2']. intros j Hj. apply F2. intros ->. auto. }
    set (t3 := with_mem _ _).
    assert (Et3 : t3 = mk t h2 ((q1' ++ [(y, zy)]) ++ q2) (timer t)).
    { unfold t3, with_mem, mk. cbn [qhead qtail num max_clients server_timeout now timer grace mem].
      f_equal. rewrite <- Ef. rewrite !first_app. destruct q1' as [|[? ?] ?]; reflexivity. }
    assert (L3 : Lt t3 ((q1' ++ [(y, zy)]) ++ q2)).
    { rewrite Et3. split; [reflexivity|split; [exact D|exact Hn']]. }
    rewrite (sane_ok t3 _ L3) by (rewrite Et3; cbn [mk max_clients]; rewrite <- Elen; lia). cbn [rbind].
    assert (Hyq : In y (ids ((q1' ++ [(y, zy)]) ++ q2))).
    { rewrite !ids_app. apply in_or_app; left. apply in_or_app; right; left; reflexivity. }
    split; [|split; [exact D|split; [|split]]].
    + rewrite Et3. f_equal. destruct q1'; reflexivity.
    + rewrite lastp_snoc in Dc. rewrite F2, F1; auto. intros ->. apply Hc'. exact Hyq.
    + intros j Hj. rewrite F2, F1; auto.
      * intros Hi. apply Hj. rewrite ids_app. apply in_or_app; auto.
      * intros ->. auto.
    + eapply live_eq_trans; eauto.
Qed.

(** ** Whole operations *)
Definition livein (h : heap) (q : queue) : Prop := forall j, h j = None <-> ~ In j (ids q).

Definition Good (t : thr) (q : queue) : Prop := Lt t q /\ livein (mem t) q.

Lemma mk_lt t h q tm : dseg h None q None -> NoDup (ids q) -> Lt (mk t h q tm) q.
Proof. intros. split; [reflexivity|split; auto]. Qed.

Lemma in_mid_iff (q1 q2 : queue) c z j : NoDup (ids (q1 ++ (c, z) :: q2)) ->
  (In j (ids (q1 ++ q2)) <-> In j (ids (q1 ++ (c, z) :: q2)) /\ j <> c).
Proof.
  intros H. destruct (nodup_mid _ _ _ _ H) as [_ Hc].
  rewrite !ids_app in *. cbn in *. rewrite !in_app_iff in *. cbn. split.
  - intros Hj. split; [tauto|]. intros ->. tauto.
  - intros [[Hj|[Hj|Hj]] Hne]; auto. congruence.
Qed.

Lemma destruct_ok t q1 c z q2 : Good t (q1 ++ (c, z) :: q2) ->
  (length (q1 ++ (c, z) :: q2) <= max_clients t)%nat ->
  exists h', connq_destruct_conn t c true =
    Ok (mk t h' (q1 ++ q2) (match q1 with [] => adj t q2 | _ => timer t end)) /\
    Good (mk t h' (q1 ++ q2) (match q1 with [] => adj t q2 | _ => timer t end)) (q1 ++ q2).
Proof.
  intros [L Hl] Hm. destruct (pull_ok t q1 c z q2 L Hm) as (h' & E & D & Hc & Hf & Hv).
  destruct L as (Et & Hd & Hn). destruct (nodup_mid _ _ _ _ Hn) as [Hn' Hc'].
  unfold connq_destruct_conn.
  assert (En : num t = length (q1 ++ (c, z) :: q2)) by (rewrite Et; reflexivity).
  rewrite En. replace (Nat.eqb (length (q1 ++ (c, z) :: q2)) 0) with false
    by (symmetry; apply Nat.eqb_neq; rewrite app_length; cbn; lia).
  cbn [negb rassert]. rewrite E. cbn [rbind mem mk].
  apply dseg_app in Hd. destruct Hd as [_ [Dc _]].
  unfold deref. rewrite Hc, Dc. cbn [rbind].
  exists (hset h' c None). split; [reflexivity|]. split; [apply mk_lt; auto|].
  - eapply dseg_frame; [|exact D]. intros j Hj. apply hset_other. intros ->. auto.
  - cbn [mem mk]. intros j. rewrite (in_mid_iff _ _ _ _ j Hn).
    destruct (Nat.eq_dec j c) as [->|Hj].
    + rewrite hset_same. tauto.
    + rewrite hset_other by auto. rewrite (Hv j), (Hl j). tauto.
Qed.

Lemma relink_ok h q' y zy c n : dseg h None (q' ++ [(y, zy)]) None -> NoDup (ids (q' ++ [(y, zy)])) ->
  h c = Some n -> ~ In c (ids (q' ++ [(y, zy)])) ->
  exists h1 h2 h3, set_prev h c (Some y) = Ok h1 /\ set_next h1 c None = Ok h2 /\
    set_next h2 y (Some c) = Ok h3 /\
    dseg h3 None ((q' ++ [(y, zy)]) ++ [(c, idle n)]) None /\ live_eq h h3.
Proof.
  intros D Hn Hc Hi.
  assert (Hyc : y <> c) by (intros ->; apply Hi; rewrite ids_app; apply in_or_app; right; left; auto).
  set (h1 := hset h c (Some {| nxt := nxt n; prv := Some y; idle := idle n |})).
  set (h2 := hset h1 c (Some {| nxt := None; prv := Some y; idle := idle n |})).
  assert (E1 : set_prev h c (Some y) = Ok h1) by (unfold set_prev, deref; rewrite Hc; reflexivity).
  assert (E2 : set_next h1 c None = Ok h2)
    by (unfold set_next, deref, h1; rewrite hset_same; reflexivity).
  assert (D2 : dseg h2 None (q' ++ [(y, zy)]) None).
  { eapply dseg_frame; [|exact D]. intros j Hj. unfold h2, h1. rewrite !hset_other; auto; intros ->; auto. }
  destruct (set_next_ok h2 None q' y zy None (Some c) D2 Hn) as (h3 & E3 & D3 & F3 & L3).
  exists h1, h2, h3. split; [exact E1|]. split; [exact E2|]. split; [exact E3|]. split.
  - apply dseg_app. split; [exact D3|]. cbn [dseg]. split; auto. rewrite F3 by auto.
    unfold h2. rewrite hset_same, lastp_snoc. cbn. reflexivity.
  - eapply live_eq_trans; [|exact L3]. intros j. unfold h2, h1.
    destruct (Nat.eq_dec j c) as [->|Hj].
    + rewrite hset_same, Hc. split; discriminate.
    + now rewrite !hset_other.
Qed.

Lemma set_idle_ok h p q1 c z q2 n z' : dseg h p (q1 ++ (c, z) :: q2) n ->
  NoDup (ids (q1 ++ (c, z) :: q2)) ->
  exists h', set_idle h c z' = Ok h' /\ dseg h' p (q1 ++ (c, z') :: q2) n /\ live_eq h h'.
Proof.
  intros D Hn. destruct (nodup_mid _ _ _ _ Hn) as [Hn' Hc'].
  apply dseg_app in D. destruct D as [D1 [Dc D2]].
  unfold set_idle, deref. rewrite Dc. cbn [rbind]. eexists. split; [reflexivity|]. split.
  - apply dseg_app. cbn [first] in *. split; [|split].
    + eapply dseg_frame; [|exact D1]. intros j Hj. apply hset_other. intros ->. apply Hc'.
      rewrite ids_app; apply in_or_app; auto.
    + rewrite hset_same. reflexivity.
    + eapply dseg_frame; [|exact D2]. intros j Hj. apply hset_other. intros ->. apply Hc'.
      rewrite ids_app; apply in_or_app; auto.
  - eapply live_eq_set; eauto.
Qed.

Lemma remove_mid q1 c z q2 : NoDup (ids (q1 ++ (c, z) :: q2)) -> remove c (q1 ++ (c, z) :: q2) = q1 ++ q2.
Proof.
  intros H. destruct (nodup_mid _ _ _ _ H) as [_ Hc]. unfold remove. rewrite filter_app. cbn.
  rewrite Nat.eqb_refl. cbn.
  assert (forall q, ~ In c (ids q) -> filter (fun x => negb (Nat.eqb (fst x) c)) q = q) as F.
  { induction q as [|[a b] q IH]; cbn; intros Hi; auto.
    destruct (Nat.eqb_spec a c); [subst; tauto|]. cbn. f_equal. apply IH. tauto. }
  rewrite !F; auto; intros Hi; apply Hc; rewrite ids_app; apply in_or_app; auto.
Qed.

(** [timer] relation of a running thread. *)
Definition timer_ok (t : thr) (q : queue) : Prop :=
  match q with
  | [] => timer t = None
  | (c, z) :: _ =>
      if grace t then timer t <> None
      else exists a, a <= now t /\ timer t = Some (Z.max a (z + server_timeout t) + TIMEOUT_FUDGE)
  end.

Lemma adj_timer_ok t h q : timer_ok t q \/ grace t = false \/ timer t <> None ->
  timer_ok (mk t h q (adj t q)) q.
Proof.
  intros H. destruct q as [|[c z] q]; cbn; auto. destruct (grace t) eqn:Eg.
  - destruct H as [H|[H|H]]; [|congruence|auto]. cbn in H. rewrite Eg in H. auto.
  - exists (now t). split; auto. lia.
Qed.

Lemma Lt_tail_some t q : Lt t q -> q <> [] ->
  exists q' y zy, q = q' ++ [(y, zy)] /\ qtail t = Some y.
Proof.
  intros (E & _) H. destruct (lastp_some q None H) as (q' & y & zy & Eq & El).
  exists q', y, zy. split; auto. rewrite E. exact El.
Qed.

Lemma accept_ok t q c : Good t q -> timer_ok t q -> (length q < max_clients t)%nat ->
  (2 <= max_clients t)%nat -> mem t c = None -> grace t = false ->
  exists h' tm', accept t c =
    Ok (mk t h' (qstep (max_clients t) (server_timeout t) (now t) (grace t) q (Accept c)) tm') /\
    Good (mk t h' (qstep (max_clients t) (server_timeout t) (now t) (grace t) q (Accept c)) tm')
         (qstep (max_clients t) (server_timeout t) (now t) (grace t) q (Accept c)) /\
    timer_ok (mk t h' (qstep (max_clients t) (server_timeout t) (now t) (grace t) q (Accept c)) tm')
         (qstep (max_clients t) (server_timeout t) (now t) (grace t) q (Accept c)) /\
    (forall a, In a q -> In a (qstep (max_clients t) (server_timeout t) (now t) (grace t) q (Accept c)) \/
                         (exists q', q = a :: q')).
Proof.
  intros [L Hl] Ht Hm H2 Hc Hg.
  assert (Hcq : ~ In c (ids q)) by (apply Hl; auto).
  pose proof L as (E & Hd & Hn).
  unfold accept. set (t0 := with_mem t _).
  assert (L0 : Lt t0 q).
  { split; [|split; auto].
    - unfold t0, with_mem, mk; cbn. rewrite E; reflexivity.
    - unfold t0; cbn. eapply dseg_frame; [|exact Hd]. intros j Hj. apply hset_other. intros ->. auto. }
  unfold connq_append_new_conn.
  rewrite (sane_ok t0 q L0) by (unfold t0; cbn; lia). cbn [rbind].
  assert (Eh : qhead t0 = first q None) by (unfold t0; rewrite E; reflexivity).
  assert (En : num t0 = length q) by (unfold t0; rewrite E; reflexivity).
  assert (Et : qtail t0 = lastp q None) by (unfold t0; rewrite E; reflexivity).
  assert (N1 : peq (qhead t0) (Some c) = false).
  { rewrite Eh. destruct q as [|[a b] q]; auto. cbn. apply Nat.eqb_neq. intros ->. apply Hcq. left; auto. }
  assert (N2 : peq (qtail t0) (Some c) = false).
  { rewrite Et. destruct (nil_or_snoc q) as [->|(q' & y & zy & ->)]; auto. rewrite lastp_snoc.
    cbn. apply Nat.eqb_neq. intros ->. apply Hcq. rewrite ids_app. apply in_or_app; right; left; auto. }
  rewrite N1, N2. cbn [negb rassert].
  unfold deref at 1. replace (mem t0 c) with (Some {| nxt := None; prv := None; idle := 0 |})
    by (unfold t0; cbn; now rewrite hset_same).
  cbn [rbind nxt prv isnull rassert].
  replace (grace t0) with false by (symmetry; exact Hg). cbn [negb rassert].
  set (cell := {| nxt := None; prv := None; idle := now t |}).
  assert (Ei : set_idle (mem t0) c (now t0) = Ok (hset (mem t0) c (Some cell))).
  { unfold set_idle, deref. replace (mem t0 c) with (Some {| nxt := None; prv := None; idle := 0 |})
      by (unfold t0; cbn; now rewrite hset_same). reflexivity. }
  rewrite Ei. cbn [rbind]. cbv zeta.
  set (h1 := hset (mem t0) c (Some cell)).
  set (t1 := with_num (with_mem t0 h1) (S (num t0))).
  assert (Hd1 : dseg h1 None q None).
  { eapply dseg_frame; [|exact Hd]. intros j Hj. unfold h1, t0; cbn. rewrite !hset_other; auto; intros ->; auto. }
  assert (Hl1 : forall j, j <> c -> (h1 j = None <-> ~ In j (ids q))).
  { intros j Hj. unfold h1, t0; cbn. rewrite !hset_other by auto. apply Hl. }
  assert (Hc1 : h1 c = Some cell) by (unfold h1; apply hset_same).
  destruct (nil_or_snoc q) as [->|(q' & y & zy & Eq)].
  - (* empty queue *)
    replace (qhead t1) with (@None nat) by (symmetry; exact Eh).
    assert (En1 : num t1 = 1%nat) by (unfold t1; cbn [num with_num]; rewrite En; reflexivity).
    rewrite En1. cbn [Nat.eqb].
    replace (qtail t1) with (@None nat) by (symmetry; exact Et). cbn [isnull rassert].
    set (t2 := with_tail _ _).
    assert (Dn : dseg h1 None [(c, now t)] None) by (cbn; auto).
    assert (Nn : NoDup (ids [(c, now t)])) by (cbn; constructor; [auto|constructor]).
    assert (L2 : Lt t2 [(c, now t)]).
    { split; [|split; auto]. unfold t2, t1, with_tail, with_head, mk; cbn. cbn in En. rewrite En. reflexivity. }
    rewrite (adjust_ok t2 _ L2) by (unfold t2; cbn; lia).
    cbn [qstep app length]. replace (Nat.eqb 1 (max_clients t)) with false by (symmetry; apply Nat.eqb_neq; lia).
    exists h1, (adj t2 [(c, now t)]).
    split; [reflexivity|]. split; [|split].
    + split; [apply mk_lt; auto|]. intros j. cbn [mem mk].
      destruct (Nat.eq_dec j c) as [->|Hj].
      * rewrite Hc1. cbn. split; [discriminate|tauto].
      * rewrite Hl1 by auto. cbn. split; [intros _ [->|[]]; auto|intros _ []].
    + apply (adj_timer_ok t2 h1 [(c, now t)]). right; left. exact Hg.
    + intros a [].
  - (* append at the tail *)
    assert (Hq : q <> []) by (rewrite Eq; destruct q'; discriminate).
    assert (Ehd : exists f zf q0, q = (f, zf) :: q0).
    { destruct q as [|[f zf] q0]; [congruence|eauto]. }
    destruct Ehd as (f & zf & q0 & Eq0).
    replace (qhead t1) with (Some f) by (unfold t1; cbn [qhead with_num with_mem]; rewrite Eh, Eq0; reflexivity).
    assert (Etl : qtail t1 = Some y) by (unfold t1; cbn [qtail with_num with_mem]; rewrite Et, Eq; apply lastp_snoc).
    rewrite Etl. cbn [mem t1 with_num with_mem].
    assert (Dy := Hd1). rewrite Eq in Dy. apply dseg_app in Dy. destruct Dy as [_ [Dy _]].
    unfold deref at 1. change (mem (with_mem t0 h1)) with h1. rewrite Dy. cbn [rbind nxt first isnull rassert].
    assert (Hd1' := Hd1). rewrite Eq in Hd1'.
    assert (Hn' := Hn). rewrite Eq in Hn'. assert (Hcq' := Hcq). rewrite Eq in Hcq'.
    destruct (relink_ok h1 q' y zy c cell Hd1' Hn' Hc1 Hcq') as (h2 & h3 & h4 & R1 & R2 & R3 & D4 & L4).
    rewrite R1. cbn [rbind]. rewrite R2. cbn [rbind]. rewrite R3. cbn [rbind].
    rewrite <- Eq in D4. change (idle cell) with (now t) in D4.
    set (t2 := with_tail _ _).
    assert (Nn : NoDup (ids (q ++ [(c, now t)]))).
    { rewrite ids_app. cbn.
      clear -Hn Hcq. induction q as [|[a b] q IH]; cbn in *.
      - constructor; auto; constructor.
      - inversion Hn; subst. constructor; [|apply IH; auto].
        rewrite in_app_iff. cbn. intros [Hi|[->|[]]]; tauto. }
    assert (Len : length (q ++ [(c, now t)]) = S (length q)) by (rewrite app_length; cbn; lia).
    assert (Et2 : t2 = mk t h4 (q ++ [(c, now t)]) (timer t)).
    { unfold t2, with_tail, with_mem, mk, t1; cbn [with_num with_mem qhead qtail num max_clients server_timeout now timer grace mem].
      rewrite lastp_snoc, Len, En, Eh. f_equal. rewrite Eq0. reflexivity. }
    assert (L2 : Lt t2 (q ++ [(c, now t)])) by (rewrite Et2; apply mk_lt; auto).
    rewrite (sane_ok t2 _ L2) by (rewrite Et2; cbn [max_clients mk]; rewrite Len; lia). cbn [rbind].
    assert (G2 : Good t2 (q ++ [(c, now t)])).
    { split; auto. rewrite Et2. cbn [mem mk]. intros j. rewrite (L4 j). rewrite ids_app, in_app_iff. cbn.
      destruct (Nat.eq_dec j c) as [->|Hj].
      - rewrite Hc1. split; [discriminate|tauto].
      - rewrite Hl1 by auto. split; [intros Hi [Hk|[Hk|[]]]; [tauto|congruence]|tauto]. }
    cbn [qstep]. replace (num t2) with (length (q ++ [(c, now t)])) by (rewrite Et2; reflexivity).
    replace (max_clients t2) with (max_clients t) by (rewrite Et2; reflexivity).
    destruct (Nat.eqb_spec (length (q ++ [(c, now t)])) (max_clients t)) as [Em|Em].
    + replace (qhead t2) with (Some f) by (rewrite Et2, Eq0; reflexivity).
      rewrite Eq0 in *. cbn [app] in *.
      destruct (destruct_ok t2 [] f zf (q0 ++ [(c, now t)]) G2) as (h5 & E5 & G5).
      { rewrite Et2; cbn [max_clients mk app]. lia. }
      rewrite E5. cbn [app tl] in *. exists h5, (adj t2 (q0 ++ [(c, now t)])).
      split; [rewrite Et2; reflexivity|]. split; [rewrite Et2 in G5 |- *; exact G5|]. split.
      * assert (T : timer_ok (mk t2 h5 (q0 ++ [(c, now t)]) (adj t2 (q0 ++ [(c, now t)]))) (q0 ++ [(c, now t)])).
        { apply adj_timer_ok. right; left. rewrite Et2. exact Hg. }
        rewrite Et2 in T at 1. exact T.
      * intros a [<-|Ha]; [right; eauto|left; apply in_or_app; auto].
    + exists h4, (timer t). rewrite <- Et2. split; [reflexivity|]. split; [exact G2|]. split.
      * rewrite Et2, Eq0 in *. cbn in Ht |- *. exact Ht.
      * intros a Ha. left. apply in_or_app; auto.
Qed.

Lemma in_split_q c (q : queue) : In c (ids q) -> exists q1 z q2, q = q1 ++ (c, z) :: q2.
Proof.
  intros H. unfold ids in H. apply in_map_iff in H. destruct H as ([c' z] & Ec & Hi). cbn in Ec. subst c'.
  destruct (in_split _ _ Hi) as (q1 & q2 & ->). eauto.
Qed.

Lemma close_ok t q c : Good t q -> timer_ok t q -> (length q <= max_clients t)%nat -> mem t c <> None ->
  exists h' tm', connq_destruct_conn t c true = Ok (mk t h' (remove c q) tm') /\
    Good (mk t h' (remove c q) tm') (remove c q) /\ timer_ok (mk t h' (remove c q) tm') (remove c q).
Proof.
  intros G Ht Hm Hc.
  assert (Hi : In c (ids q)).
  { destruct (in_dec Nat.eq_dec c (ids q)) as [|Hn]; auto. exfalso. apply Hc. now apply (proj2 G). }
  destruct (in_split_q _ _ Hi) as (q1 & z & q2 & ->).
  rewrite (remove_mid q1 c z q2) by apply G.
  destruct (destruct_ok t q1 c z q2 G Hm) as (h' & E & G').
  exists h', (match q1 with [] => adj t q2 | _ => timer t end). split; [exact E|]. split; [exact G'|].
  destruct q1 as [|[a b] q1]; cbn [app].
  - apply adj_timer_ok. cbn in Ht. destruct (grace t) eqn:Eg; auto.
  - cbn in Ht |- *. exact Ht.
Qed.

Lemma refresh_ok t q c : Good t q -> timer_ok t q -> (length q <= max_clients t)%nat -> mem t c <> None ->
  exists h' tm', connq_refresh_conn t c = Ok (mk t h' (remove c q ++ [(c, now t)]) tm') /\
    Good (mk t h' (remove c q ++ [(c, now t)]) tm') (remove c q ++ [(c, now t)]) /\
    timer_ok (mk t h' (remove c q ++ [(c, now t)]) tm') (remove c q ++ [(c, now t)]).
Proof.
  intros G Ht Hm Hc.
  assert (Hi : In c (ids q)).
  { destruct (in_dec Nat.eq_dec c (ids q)) as [|Hn]; auto. exfalso. apply Hc. now apply (proj2 G). }
  destruct (in_split_q _ _ Hi) as (q1 & z & q2 & ->).
  rewrite (remove_mid q1 c z q2) by apply G.
  unfold connq_refresh_conn. rewrite (sane_ok t _ (proj1 G) Hm). cbn [rbind].
  destruct G as [(E & Hd & Hn) Hl].
  destruct (set_idle_ok (mem t) None q1 c z q2 None (now t) Hd Hn) as (h1 & E1 & D1 & L1).
  rewrite E1. cbn [rbind]. cbv zeta.
  assert (Hn1 : NoDup (ids (q1 ++ (c, now t) :: q2))) by (rewrite ids_app in *; exact Hn).
  assert (Et1 : with_mem t h1 = mk t h1 (q1 ++ (c, now t) :: q2) (timer t)).
  { rewrite E at 1. unfold with_mem, mk. cbn [qhead qtail num max_clients server_timeout now timer grace mem].
    rewrite !first_app, !lastp_app, !app_length. reflexivity. }
  assert (Lv1 : livein h1 (q1 ++ (c, now t) :: q2)).
  { intros j. rewrite (L1 j), (Hl j), !ids_app. cbn. tauto. }
  rewrite Et1. set (t1 := mk t h1 _ _).
  assert (Lt1 : Lt t1 (q1 ++ (c, now t) :: q2)) by (apply mk_lt; auto).
  assert (Hm1 : (length (q1 ++ (c, now t) :: q2) <= max_clients t1)%nat)
    by (rewrite app_length in *; exact Hm).
  change (num t1) with (length (q1 ++ (c, now t) :: q2)).
  change (qtail t1) with (lastp (q1 ++ (c, now t) :: q2) None).
  change (qhead t1) with (first (q1 ++ (c, now t) :: q2) None).
  destruct (Nat.eqb_spec (length (q1 ++ (c, now t) :: q2)) 1) as [E0|E0].
  { assert (q1 = [] /\ q2 = []) as [-> ->].
    { rewrite app_length in E0. cbn in E0. destruct q1, q2; cbn in E0; auto; lia. }
    cbn [app first lastp]. rewrite peq_refl. cbn [rassert].
    rewrite (adjust_ok t1 _ Lt1 Hm1). exists h1, (adj t1 [(c, now t)]). split; [reflexivity|].
    split; [split; [apply mk_lt; auto|exact Lv1]|].
    apply (adj_timer_ok t1). cbn in Ht. change (grace t1) with (grace t). change (timer t1) with (timer t).
    destruct (grace t); auto. }
  destruct q2 as [|[x zx] q2].
  { rewrite lastp_app. cbn [lastp]. rewrite peq_refl. rewrite app_nil_r.
    exists h1, (timer t). split; [reflexivity|]. split; [split; [apply mk_lt; auto|exact Lv1]|].
    destruct q1 as [|[a b] q1]; [cbn in E0; lia|]. cbn in Ht |- *. exact Ht. }
  destruct (lastp_some ((x, zx) :: q2) None ltac:(discriminate)) as (qt & y & zy & Eq2 & Ely).
  assert (Hlast : lastp (q1 ++ (c, now t) :: (x, zx) :: q2) None = Some y).
  { rewrite lastp_app. cbn [lastp]. cbn [lastp] in Ely. exact Ely. }
  rewrite Hlast.
  destruct (nodup_mid _ _ _ _ Hn1) as [Hn2 Hc2].
  assert (Hcy : c <> y).
  { intros ->. apply Hc2. rewrite ids_app, Eq2, ids_app. apply in_or_app; right. apply in_or_app; right. left; auto. }
  rewrite (peq_neq c y Hcy).
  destruct (pull_ok t1 q1 c (now t) ((x, zx) :: q2) Lt1 Hm1) as (h2 & E2 & D2 & Hc3 & Hf2 & Lv2).
  rewrite E2. cbn [rbind]. set (t2 := mk t1 h2 _ _).
  assert (Ety : qtail t2 = Some y).
  { unfold t2; cbn [qtail mk]. rewrite lastp_app. cbn [lastp]. cbn [lastp] in Ely. exact Ely. }
  rewrite Ety. change (mem t2) with h2.
  assert (Eqq : q1 ++ (x, zx) :: q2 = (q1 ++ qt) ++ [(y, zy)]) by (rewrite Eq2, app_assoc; reflexivity).
  assert (Hcell : exists n, h2 c = Some n /\ idle n = now t).
  { rewrite Hc3. change (mem t1) with h1. apply dseg_app in D1. destruct D1 as [_ [Dc _]].
    rewrite Dc. eauto. }
  destruct Hcell as (n & Hcn & Hin).
  rewrite Eqq in D2, Hn2, Hc2.
  destruct (relink_ok h2 (q1 ++ qt) y zy c n D2 Hn2 Hcn Hc2) as (h3 & h4 & h5 & R1 & R2 & R3 & D5 & L5).
  rewrite R1. cbn [rbind]. rewrite R2. cbn [rbind]. rewrite R3. cbn [rbind].
  rewrite <- Eqq, Hin in D5.
  set (tm := timer t2). set (q' := (q1 ++ (x, zx) :: q2) ++ [(c, now t)]) in *.
  set (t3 := with_num _ _).
  assert (Hnq : NoDup (ids q')).
  { unfold q'. rewrite ids_app. cbn. rewrite <- Eqq in Hn2, Hc2. clear -Hn2 Hc2.
    induction (q1 ++ (x, zx) :: q2) as [|[a b] l IH]; cbn in *.
    - constructor; auto; constructor.
    - inversion Hn2; subst. constructor; [|apply IH; auto].
      rewrite in_app_iff. cbn. intros [Hj|[->|[]]]; tauto. }
  assert (Et3 : t3 = mk t h5 q' tm).
  { unfold t3, t2, tm, t1, with_num, with_tail, with_mem, mk;
      cbn [qhead qtail num max_clients server_timeout now timer grace mem].
    unfold q'. rewrite lastp_snoc, (app_length (q1 ++ _)), first_app. cbn [length].
    rewrite Nat.add_1_r. f_equal. destruct q1 as [|[? ?] ?]; reflexivity. }
  assert (L3 : Lt t3 q') by (rewrite Et3; apply mk_lt; auto).
  assert (Hm3 : (length q' <= max_clients t3)%nat).
  { rewrite Et3; cbn [max_clients mk]. unfold q'. rewrite !app_length in *. cbn in *. lia. }
  rewrite (sane_ok t3 q' L3 Hm3). cbn [rbind]. exists h5, tm.
  split; [rewrite Et3; reflexivity|]. split.
  - split; [apply mk_lt; auto|]. cbn [mem mk]. intros j. rewrite (L5 j), (Lv2 j).
    change (mem t1) with h1. rewrite (Lv1 j). unfold q'. rewrite !ids_app. cbn. rewrite !in_app_iff. cbn.
    tauto.
  - unfold tm, t2, q'. cbn [timer mk]. destruct q1 as [|[a b] q1]; cbn [app].
    + apply (adj_timer_ok t1 h5 ((x, zx) :: q2 ++ [(c, now t)])). cbn in Ht.
      change (grace t1) with (grace t). change (timer t1) with (timer t).
      destruct (grace t); auto.
    + cbn in Ht |- *. exact Ht.
Qed.

(** ** Timeouts *)
Fixpoint dropold (cutoff : Z) (q : queue) : queue :=
  match q with
  | [] => []
  | (c, z) :: q' => if z <=? cutoff then dropold cutoff q' else q
  end.

Lemma dropold_filter cutoff q : sorted q -> dropold cutoff q = filter (fun x => negb (snd x <=? cutoff)) q.
Proof.
  induction q as [|[c z] q IH]; cbn; auto. intros [Hf Hs].
  destruct (Z.leb_spec z cutoff); cbn; auto. f_equal.
  clear IH. induction q as [|[c' z'] q IH]; cbn in *; auto.
  inversion Hf; subst; cbn in *. destruct (Z.leb_spec z' cutoff); [lia|]. cbn. f_equal.
  apply IH; [auto|apply Hs].
Qed.

Lemma expire_ok cutoff q : forall p t fuel,
  dseg (mem t) p q None -> NoDup (ids q) -> livein (mem t) q -> num t = length q ->
  (length q <= fuel)%nat ->
  exists h' p', expire t fuel cutoff (first q None) =
      Ok (with_num (with_mem t h') (length (dropold cutoff q)), first (dropold cutoff q) None) /\
    dseg h' p' (dropold cutoff q) None /\ NoDup (ids (dropold cutoff q)) /\ livein h' (dropold cutoff q).
Proof.
  induction q as [|[c z] q IH]; intros p t fuel Hd Hn Hl Hnum Hf.
  - cbn. exists (mem t), p. destruct fuel; cbn; (split; [|auto]); do 2 f_equal; cbn in Hnum;
      unfold with_num, with_mem; rewrite <- Hnum; destruct t; reflexivity.
  - destruct fuel as [|fuel]; [cbn in Hf; lia|]. cbn [first expire]. destruct Hd as [Hc Hd].
    unfold deref at 1. rewrite Hc. cbn [rbind idle nxt dropold].
    destruct (Z.leb_spec z cutoff) as [Hz|Hz].
    + unfold connq_destruct_conn at 1. rewrite Hnum. cbn [length Nat.eqb negb rassert rbind].
      unfold deref at 1. rewrite Hc. cbn [rbind].
      change (num (with_mem t (hset (mem t) c None))) with (num t). rewrite Hnum.
      cbn [length Nat.eqb negb rassert]. replace (S (length q) - 1)%nat with (length q) by lia.
      inversion Hn as [|? ? Hcq Hn']; subst.
      set (t1 := with_num _ _).
      destruct (IH (Some c) t1 fuel) as (h' & p' & E & D & N & Lv).
      * unfold t1; cbn. eapply dseg_frame; [|exact Hd]. intros j Hj. apply hset_other. intros ->. auto.
      * exact Hn'.
      * unfold t1; cbn. intros j. destruct (Nat.eq_dec j c) as [->|Hj].
        -- rewrite hset_same. tauto.
        -- rewrite hset_other by auto. rewrite (Hl j). cbn. split; [tauto|intros Hi [->|Hk]; tauto].
      * reflexivity.
      * cbn in Hf. lia.
      * rewrite E. exists h', p'. split; auto.
    + exists (mem t), p. split; [|split; [|split]]; auto.
      * do 2 f_equal. unfold with_num, with_mem. rewrite <- Hnum. destruct t; reflexivity.
      * cbn. auto.
Qed.

Lemma destroy_all_ok q : forall p t fuel,
  dseg (mem t) p q None -> NoDup (ids q) -> livein (mem t) q -> num t <> 0%nat ->
  (length q <= fuel)%nat ->
  exists h', destroy_all t fuel (first q None) = Ok (with_mem t h') /\ forall j, h' j = None.
Proof.
  induction q as [|[c z] q IH]; intros p t fuel Hd Hn Hl Hnum Hf.
  - exists (mem t). split; [destruct fuel; cbn; f_equal; destruct t; reflexivity|].
    intros j. apply Hl. intros [].
  - destruct fuel as [|fuel]; [cbn in Hf; lia|]. cbn [first destroy_all]. destruct Hd as [Hc Hd].
    unfold deref at 1. rewrite Hc. cbn [rbind nxt].
    unfold connq_destruct_conn at 1. replace (Nat.eqb (num t) 0) with false by (symmetry; now apply Nat.eqb_neq).
    cbn [negb rassert rbind]. unfold deref at 1. rewrite Hc. cbn [rbind].
    inversion Hn as [|? ? Hcq Hn']; subst.
    set (t1 := with_mem t _).
    destruct (IH (Some c) t1 fuel) as (h' & E & D).
    + unfold t1; cbn. eapply dseg_frame; [|exact Hd]. intros j Hj. apply hset_other. intros ->. auto.
    + exact Hn'.
    + unfold t1; cbn. intros j. destruct (Nat.eq_dec j c) as [->|Hj].
      * rewrite hset_same. tauto.
      * rewrite hset_other by auto. rewrite (Hl j). cbn. split; [tauto|intros Hi [->|Hk]; tauto].
    + exact Hnum.
    + cbn in Hf. lia.
    + rewrite E. exists h'. auto.
Qed.

Lemma lastp_indep (q : queue) p p' : q <> [] -> lastp q p = lastp q p'.
Proof. destruct q as [|[c z] q]; [congruence|reflexivity]. Qed.

Lemma dropold_suffix cutoff q : exists q0, q = q0 ++ dropold cutoff q.
Proof.
  induction q as [|[c z] q [q0 IH]]; cbn; [now exists []|].
  destruct (z <=? cutoff); [|now exists []]. exists ((c, z) :: q0). cbn. now rewrite IH at 1.
Qed.

Lemma timeout_ok t q : Good t q -> timer_ok t q -> (length q <= max_clients t)%nat -> sorted q ->
  q <> [] ->
  exists h' tm',
    timeout_handler t = Ok (mk t h' (qstep (max_clients t) (server_timeout t) (now t) (grace t) q Timeout) tm') /\
    Good (mk t h' (qstep (max_clients t) (server_timeout t) (now t) (grace t) q Timeout) tm')
      (qstep (max_clients t) (server_timeout t) (now t) (grace t) q Timeout) /\
    timer_ok (mk t h' (qstep (max_clients t) (server_timeout t) (now t) (grace t) q Timeout) tm')
      (qstep (max_clients t) (server_timeout t) (now t) (grace t) q Timeout).
Proof.
  intros G Ht Hm Hs Hq. unfold timeout_handler. rewrite (sane_ok t q (proj1 G) Hm). cbn [rbind].
  destruct G as [(E & Hd & Hn) Hl].
  assert (Eh : qhead t = first q None) by (rewrite E; reflexivity).
  assert (En : num t = length q) by (rewrite E; reflexivity).
  assert (Et : qtail t = lastp q None) by (rewrite E; reflexivity).
  rewrite Eh. replace (isnull (first q None)) with false by (destruct q as [|[? ?] ?]; [congruence|reflexivity]).
  cbn [negb rassert qstep].
  destruct (grace t) eqn:Eg.
  - destruct (destroy_all_ok q None t (S (num t)) Hd Hn Hl) as (h' & E' & Hdead).
    + rewrite En. destruct q; cbn; congruence.
    + rewrite En. lia.
    + rewrite E'. cbn [rbind]. exists h', None. split; [|split].
      * reflexivity.
      * split; [apply mk_lt; [exact I|constructor]|]. intros j. cbn. split; auto.
      * cbn. reflexivity.
  - cbv zeta. destruct (expire_ok (now t - server_timeout t) q None t (S (num t)) Hd Hn Hl En ltac:(lia))
      as (h' & p' & E' & D & N & Lv).
    rewrite E'. cbn [rbind]. rewrite <- dropold_filter by auto.
    destruct (dropold_suffix (now t - server_timeout t) q) as [q0 Esuf].
    remember (dropold (now t - server_timeout t) q) as q' eqn:Edrop.
    assert (Hlen : (length q' <= max_clients t)%nat) by (rewrite Esuf, app_length in Hm; lia).
    assert (S1 : exists h2, (match first q' None with
      | None => rassert (Nat.eqb (num (with_num (with_mem t h') (length q'))) 0)
                  (Ok (with_tail (with_head (with_num (with_mem t h') (length q')) None) None))
      | Some i => rassert (negb (Nat.eqb (num (with_num (with_mem t h') (length q'))) 0))
                  (do h <- set_prev (mem (with_num (with_mem t h') (length q'))) i None;
                   Ok (with_head (with_mem (with_num (with_mem t h') (length q')) h) (first q' None)))
      end) = Ok (mk t h2 q' (timer t)) /\ dseg h2 None q' None /\ livein h2 q').
    { clear Edrop Hlen. destruct q' as [|[x zx] q1].
      - exists h'. cbn [first length rassert Nat.eqb]. split; [reflexivity|split]; auto.
      - cbn [first]. change (num (with_num (with_mem t h') (length ((x, zx) :: q1)))) with (S (length q1)).
        cbn [Nat.eqb negb rassert]. change (mem (with_num (with_mem t h') (length ((x, zx) :: q1)))) with h'.
        destruct (set_prev_ok h' p' None x zx q1 None D N) as (h2 & E2 & D2 & F2 & L2).
        rewrite E2. cbn [rbind]. exists h2. split; [|split; [exact D2|]].
        + f_equal. unfold with_head, with_num, with_mem, mk; cbn [qhead qtail num max_clients server_timeout now timer grace mem].
          f_equal. rewrite Et, Esuf, lastp_app. apply lastp_indep. discriminate.
        + intros j. rewrite (L2 j). apply Lv. }
    destruct S1 as (h2 & E2 & D2 & L2). rewrite E2. cbn [rbind].
    assert (L3 : Lt (mk t h2 q' (timer t)) q') by (apply mk_lt; auto).
    rewrite (adjust_ok _ q' L3) by exact Hlen.
    exists h2, (adj (mk t h2 q' (timer t)) q'). split; [reflexivity|]. split.
    + split; [apply mk_lt; auto|exact L2].
    + apply (adj_timer_ok (mk t h2 q' (timer t)) h2 q'). right; left. exact Eg.
Qed.

(** ** Stopping *)
Lemma stop_loop_ok fails rest : forall done t fuel,
  Good t (done ++ rest) -> (length (done ++ rest) <= max_clients t)%nat -> grace t = true ->
  (done ++ rest = [] -> timer t = None) -> (length rest <= fuel)%nat ->
  let q' := done ++ filter (fun x => negb (fails (fst x))) rest in
  exists h' tm', stop_loop fails t fuel (first rest None) = Ok (mk t h' q' tm') /\
    Good (mk t h' q' tm') q' /\ (q' = [] -> tm' = None).
Proof.
  induction rest as [|[c z] rest IH]; intros done t fuel G Hm Hg Ht Hf.
  - cbn [filter]. exists (mem t), (timer t). destruct G as [(E & D & N) Lv].
    split; [|split; [split; [apply mk_lt; auto|exact Lv]|auto]].
    destruct fuel; cbn; f_equal; exact E.
  - destruct fuel as [|fuel]; [cbn in Hf; lia|]. cbn [first stop_loop].
    assert (Dc : mem t c = Some {| nxt := first rest None; prv := lastp done None; idle := z |}).
    { destruct G as [(E & D & N) Lv]. apply dseg_app in D. destruct D as [_ [Dc _]]. exact Dc. }
    unfold deref at 1. rewrite Dc. cbn [rbind nxt filter fst].
    destruct (fails c) eqn:Ef; cbn [negb].
    + destruct (destruct_ok t done c z rest G Hm) as (h' & E' & G'). rewrite E'. cbn [rbind].
      set (t1 := mk t h' (done ++ rest) _) in *.
      assert (H := IH done t1 fuel G').
      destruct H as (h2 & tm2 & E2 & G2 & T2).
      * unfold t1; cbn [max_clients mk]. rewrite app_length in *. cbn in Hm. lia.
      * exact Hg.
      * intros En. unfold t1. cbn [timer mk]. destruct done; [|discriminate]. cbn in En. subst rest. reflexivity.
      * cbn in Hf; lia.
      * exists h2, tm2. auto.
    + cbn [rbind].
      assert (Ea : done ++ (c, z) :: rest = (done ++ [(c, z)]) ++ rest) by (rewrite <- app_assoc; reflexivity).
      rewrite Ea in G, Hm.
      destruct (IH (done ++ [(c, z)]) t fuel G Hm Hg) as (h2 & tm2 & E2 & G2 & T2).
      * intros En. destruct done; discriminate.
      * cbn in Hf; lia.
      * assert (Eb : done ++ (c, z) :: filter (fun x => negb (fails (fst x))) rest =
                     (done ++ [(c, z)]) ++ filter (fun x => negb (fails (fst x))) rest)
          by (rewrite <- app_assoc; reflexivity).
        cbv zeta. rewrite Eb. exists h2, tm2. auto.
Qed.

(** Everything about a running thread. *)
Definition Inv (s : bool) (t : thr) (q : queue) : Prop :=
  Good t q /\ timer_ok t q /\ (length q < max_clients t)%nat /\ (2 <= max_clients t)%nat /\
  sorted q /\ Forall (fun x => snd x <= now t) q /\ (grace t = true -> s = true).

Lemma sorted_app q1 q2 : sorted q1 -> sorted q2 ->
  (forall x y, In x q1 -> In y q2 -> snd x <= snd y) -> sorted (q1 ++ q2).
Proof.
  induction q1 as [|x q1 IH]; cbn; auto. intros [H1 H2] H3 H4. split.
  - apply Forall_app. split; auto. apply Forall_forall. intros y Hy. apply H4; auto.
  - apply IH; auto.
Qed.

Lemma sorted_filter f q : sorted q -> sorted (filter f q).
Proof.
  induction q as [|x q IH]; cbn; auto. intros [H1 H2]. destruct (f x); auto. cbn. split; auto.
  apply Forall_forall. intros y Hy. apply filter_In in Hy. rewrite Forall_forall in H1. apply H1. tauto.
Qed.

Lemma Forall_filter {A} (P : A -> Prop) f l : Forall P l -> Forall P (filter f l).
Proof.
  intros H. apply Forall_forall. intros x Hx. apply filter_In in Hx. rewrite Forall_forall in H. apply H. tauto.
Qed.

Lemma sorted_tl q : sorted q -> sorted (tl q).
Proof. destruct q; cbn; tauto. Qed.

Lemma sorted_snoc q c z : sorted q -> Forall (fun x => snd x <= z) q -> sorted (q ++ [(c, z)]).
Proof.
  intros H1 H2. apply sorted_app; auto; [cbn; auto|]. intros x y Hx [<-|[]]. rewrite Forall_forall in H2. auto.
Qed.

Lemma filter_length_le {A} f (l : list A) : (length (filter f l) <= length l)%nat.
Proof. induction l as [|x l IH]; cbn; auto. destruct (f x); cbn; lia. Qed.

Lemma remove_length_lt c q : In c (ids q) -> (length (remove c q) < length q)%nat.
Proof.
  unfold remove. induction q as [|[a b] q IH]; cbn; [tauto|].
  destruct (Nat.eqb_spec a c) as [->|Hne]; cbn; intros Hi.
  - pose proof (filter_length_le (fun x : nat * Z => negb (Nat.eqb (fst x) c)) q). lia.
  - destruct Hi as [->|Hi]; [congruence|]. specialize (IH Hi). lia.
Qed.

Definition stable (q : queue) (e : event) (t t' : thr) : Prop :=
  max_clients t' = max_clients t /\ server_timeout t' = server_timeout t /\
  now t' = anow_step (now t) e /\ grace t' = agrace_step (grace t) q e.

Lemma step_ok s t q e : Inv s t q -> enabled s t e ->
  exists t', step t e = Ok t' /\ stable q e t t' /\
    Inv (s || is_stop e) t' (qstep (max_clients t) (server_timeout t) (now t) (grace t) q e).
Proof.
  intros (G & Ht & Hlen & H2 & Hs & Hf & Hg) He.
  destruct e as [d|c| |c|c| |fails]; cbn [enabled] in He; cbn [step is_stop]; rewrite ?orb_false_r.
  - (* Tick *)
    eexists. split; [reflexivity|]. split; [repeat split; cbn; try rewrite orb_false_r; reflexivity|]. cbn [qstep].
    destruct G as [(E & D & N) Lv].
    split; [split; [split; [|split]|]; auto|].
    { rewrite E. reflexivity. }
    split.
    { unfold timer_ok in *. cbn. destruct q as [|[c z] q]; [exact Ht|]. destruct (grace t); [exact Ht|].
      destruct Ht as (a & Ha & Hb). exists a. split; auto. lia. }
    repeat split; auto.
    + cbn. eapply Forall_impl; [|exact Hf]. cbn. intros; lia.
  - (* Accept *)
    destruct He as [Hc Hst].
    assert (Eg : grace t = false) by (destruct (grace t); auto; rewrite Hg in Hst; auto).
    destruct (accept_ok t q c G Ht Hlen H2 Hc Eg) as (h' & tm' & E & G' & T' & _).
    eexists. split; [exact E|]. split; [repeat split; cbn; try rewrite orb_false_r; reflexivity|].
    split; [exact G'|]. split; [exact T'|]. cbn [max_clients mk now grace].
    assert (Hsn : sorted (q ++ [(c, now t)])) by (apply sorted_snoc; auto).
    assert (Hfn : Forall (fun x => snd x <= now t) (q ++ [(c, now t)]))
      by (apply Forall_app; split; auto; constructor; auto; cbn; lia).
    cbn [qstep]. destruct (Nat.eqb_spec (length (q ++ [(c, now t)])) (max_clients t)) as [El|El].
    + repeat split; auto; try (now apply sorted_tl).
      * destruct (q ++ [(c, now t)]); cbn in *; lia.
      * destruct (q ++ [(c, now t)]); cbn in *; auto. now inversion Hfn.
    + repeat split; auto. rewrite app_length in *. cbn in *. lia.
  - (* AcceptNoFd *)
    destruct q as [|[c z] q].
    + assert (Eh : qhead t = None) by (destruct G as [(E & _) _]; rewrite E; reflexivity).
      rewrite Eh. exists t. split; auto. split; [repeat split; cbn; try rewrite orb_false_r; reflexivity|]. cbn [qstep tl]. unfold Inv; auto 10.
    + assert (Eh : qhead t = Some c) by (destruct G as [(E & _) _]; rewrite E; reflexivity).
      rewrite Eh. destruct (destruct_ok t [] c z q G ltac:(cbn in *; lia)) as (h' & E & G').
      cbn [app] in *. eexists. split; [exact E|]. split; [repeat split; cbn; try rewrite orb_false_r; reflexivity|]. cbn [qstep tl].
      split; [exact G'|]. split.
      { apply adj_timer_ok. cbn in Ht. destruct (grace t); auto. }
      cbn [max_clients mk now grace]. cbn in Hs, Hlen. inversion Hf; subst. repeat split; auto; try tauto. lia.
  - (* Refresh *)
    assert (Hi : In c (ids q)).
    { destruct (in_dec Nat.eq_dec c (ids q)) as [|Hn]; auto. exfalso. apply He. now apply (proj2 G). }
    destruct (refresh_ok t q c G Ht ltac:(lia) He) as (h' & tm' & E & G' & T').
    eexists. split; [exact E|]. split; [repeat split; cbn; try rewrite orb_false_r; reflexivity|]. cbn [qstep].
    split; [exact G'|]. split; [exact T'|]. cbn [max_clients mk now grace].
    pose proof (remove_length_lt c q Hi).
    repeat split; auto.
    + rewrite app_length; cbn; lia.
    + apply sorted_snoc; [now apply sorted_filter|now apply Forall_filter].
    + apply Forall_app; split; [now apply Forall_filter|]. constructor; auto. cbn; lia.
  - (* Close *)
    destruct (close_ok t q c G Ht ltac:(lia) He) as (h' & tm' & E & G' & T').
    eexists. split; [exact E|]. split; [repeat split; cbn; try rewrite orb_false_r; reflexivity|]. cbn [qstep].
    split; [exact G'|]. split; [exact T'|]. cbn [max_clients mk now grace].
    pose proof (filter_length_le (fun x : nat * Z => negb (Nat.eqb (fst x) c)) q).
    repeat split; auto; [unfold remove; lia|now apply sorted_filter|now apply Forall_filter].
  - (* Timeout *)
    destruct He as (x & Hx & _).
    assert (Hq : q <> []) by (intros ->; cbn in Ht; congruence).
    destruct (timeout_ok t q G Ht ltac:(lia) Hs Hq) as (h' & tm' & E & G' & T').
    eexists. split; [exact E|]. split; [repeat split; cbn; try rewrite orb_false_r; reflexivity|].
    split; [exact G'|]. split; [exact T'|]. cbn [max_clients mk now grace qstep].
    destruct (grace t) eqn:Eg.
    + repeat split; auto. cbn; lia.
    + pose proof (filter_length_le (fun x : nat * Z => negb (snd x <=? now t - server_timeout t)) q).
      repeat split; auto; [lia|now apply sorted_filter|now apply Forall_filter].
  - (* Stop *)
    subst s. cbn [orb].
    assert (Eg : grace t = false) by (destruct (grace t); auto; discriminate (Hg eq_refl)).
    unfold stop_handler. rewrite Eg. cbn [negb rassert].
    rewrite (sane_ok t q (proj1 G) ltac:(lia)). cbn [rbind].
    pose proof G as [(E & D & N) Lv].
    assert (En : num t = length q) by (rewrite E; reflexivity).
    assert (Eh : qhead t = first q None) by (rewrite E; reflexivity).
    rewrite En. destruct (Nat.eqb_spec (length q) 0) as [E0|E0].
    + destruct q; [|cbn in E0; lia]. cbn in Ht. rewrite Ht. cbn [rassert].
      exists t. split; auto. split; [repeat split; cbn; try rewrite orb_false_r; reflexivity|]. cbn [qstep filter]. unfold Inv; auto 10.
    + cbv zeta. change (qhead (with_grace t true)) with (qhead t). rewrite Eh.
      replace (isnull (first q None)) with false
        by (destruct q as [|[? ?] ?]; [cbn in E0; congruence|reflexivity]).
      cbn [negb rassert]. change (num (with_grace t true)) with (num t). rewrite En.
      destruct (stop_loop_ok fails q [] (with_grace t true) (S (length q))) as (h' & tm' & E' & G' & T').
      * cbn [app]. split; auto. split; [|split; auto]. rewrite E at 1. reflexivity.
      * cbn. lia.
      * reflexivity.
      * cbn. intros ->. cbn in E0. congruence.
      * lia.
      * rewrite E'. cbn [rbind app] in *. cbn [qstep].
        set (q' := filter (fun x => negb (fails (fst x))) q) in *.
        assert (Hlq : (length q' <= length q)%nat) by apply filter_length_le.
        change (num (mk (with_grace t true) h' q' tm')) with (length q').
        assert (Hsq : sorted q') by now apply sorted_filter.
        assert (Hfq : Forall (fun x => snd x <= now t) q') by now apply Forall_filter.
        destruct (Nat.eqb_spec (length q') 0) as [E1|E1].
        -- assert (q' = []) as Eq' by (destruct q'; [auto|cbn in E1; lia]).
           rewrite Eq' in *. rewrite (T' eq_refl). cbn [timer mk rassert].
           eexists. split; [reflexivity|]. split; [repeat split; cbn; rewrite Eg; destruct q; [cbn in E0; congruence|reflexivity]|].
           rewrite (T' eq_refl) in G'. split; [exact G'|]. cbn. repeat split; auto. lia.
        -- eexists. split; [reflexivity|]. split; [repeat split; cbn; rewrite Eg; destruct q; [cbn in E0; congruence|reflexivity]|].
           assert (G2 : Good (with_timer (mk (with_grace t true) h' q' tm')
             (Some (now (mk (with_grace t true) h' q' tm') + GRACE))) q').
           { destruct G' as [(Ea & Eb & Ec) Ed]. split; [split; [reflexivity|split; auto]|exact Ed]. }
           split; [exact G2|]. split.
           ++ unfold timer_ok. destruct q' as [|[c z] q']; [cbn in E1; congruence|]. cbn. discriminate.
           ++ cbn. repeat split; auto. lia.
Qed.

Lemma run_ok es : forall s t q s' r, Inv s t q -> run s t es s' r ->
  exists t', r = Ok t' /\ max_clients t' = max_clients t /\ server_timeout t' = server_timeout t /\
    let a := arun (max_clients t) (server_timeout t) {| aq := q; anow := now t; agrace := grace t |} es in
    now t' = anow a /\ grace t' = agrace a /\ Inv s' t' (aq a).
Proof.
  induction es as [|e es IH]; intros s t q s' r I R; inversion R as [|? ? ? ? t1 ? ? En St R'|? ? ? ? En St]; subst.
  - exists t. cbn. auto 10.
  - destruct (step_ok s t q e I En) as (t2 & E2 & (S1 & S2 & S3 & S4) & I2).
    rewrite E2 in St. injection St as <-.
    destruct (IH _ _ _ _ _ I2 R') as (t' & Er & M1 & M2 & M3).
    exists t'. rewrite S1, S2 in *. cbn [arun fold_left]. unfold arun in M3. cbn zeta in M3 |- *.
    unfold astep at 2 4 6. cbn [aq anow agrace]. rewrite S3, S4 in M3. auto.
  - destruct (step_ok _ t q e I En) as (t2 & E2 & _). congruence.
Qed.

Lemma init_inv maxc tmo start : (2 <= maxc)%nat -> Inv false (init maxc tmo start) [].
Proof.
  intros H. split; [|split; [reflexivity|]].
  - split; [split; [reflexivity|split; [exact I|constructor]]|]. intros j. cbn. tauto.
  - cbn. repeat split; auto; try lia; discriminate.
Qed.

Lemma dseg_open h p q n : dseg h p q n -> forall c z, In (c, z) q -> exists nd, h c = Some nd /\ idle nd = z.
Proof.
  revert p. induction q as [|[a b] q IH]; intros p D c z Hi; [destruct Hi|].
  destruct D as [D1 D2]. destruct Hi as [Hi|Hi]; [|eapply IH; eauto].
  inversion Hi; subst. rewrite D1. eauto.
Qed.

Lemma in_ids c z (q : queue) : In (c, z) q -> In c (ids q).
Proof. intros H. unfold ids. apply in_map_iff. exists (c, z). auto. Qed.

Lemma nodup_fun (q : queue) c z z' : NoDup (ids q) -> In (c, z) q -> In (c, z') q -> z = z'.
Proof.
  induction q as [|[a b] q IH]; cbn; [tauto|]. intros Hn H1 H2. inversion Hn as [|? ? Ha Hn']; subst.
  destruct H1 as [H1|H1], H2 as [H2|H2].
  - congruence.
  - inversion H1; subst. exfalso. apply Ha. eapply in_ids; eauto.
  - inversion H2; subst. exfalso. apply Ha. eapply in_ids; eauto.
  - eauto.
Qed.

Lemma good_represents t q : Good t q -> represents t q.
Proof.
  intros [(E & D & N) Lv]. split; auto. intros c z. split.
  - intros (nd & H1 & H2).
    assert (Hi : In c (ids q)).
    { destruct (in_dec Nat.eq_dec c (ids q)) as [|Hn]; auto. apply Lv in Hn. congruence. }
    destruct (in_split_q _ _ Hi) as (q1 & z' & q2 & Eq).
    assert (Hi2 : In (c, z') q) by (rewrite Eq; apply in_or_app; right; left; auto).
    destruct (dseg_open _ _ _ _ D _ _ Hi2) as (nd' & H3 & H4).
    assert (nd = nd') by congruence. subst nd'. rewrite <- H2, H4. exact Hi2.
  - intros Hi. destruct (dseg_open _ _ _ _ D _ _ Hi) as (nd & H1 & H2). exists nd. auto.
Qed.

(** All histories: no failed assertion or stray pointer, and the open
    connections are those of the abstract queue. *)
Lemma main maxc tmo start es s r : (2 <= maxc)%nat -> run false (init maxc tmo start) es s r ->
  exists t, r = Ok t /\
    let a := arun maxc tmo {| aq := []; anow := start; agrace := false |} es in
    represents t (aq a) /\ sorted (aq a) /\ (length (aq a) < maxc)%nat /\ num t = length (aq a) /\
    now t = anow a /\
    (aq a = [] <-> timer t = None) /\
    (agrace a = false -> forall c z q, aq a = (c, z) :: q ->
       exists x, timer t = Some x /\ z + tmo + TIMEOUT_FUDGE <= x <= Z.max (anow a) (z + tmo) + TIMEOUT_FUDGE).
Proof.
  intros Hm R. destruct (run_ok _ _ _ _ _ _ (init_inv maxc tmo start Hm) R) as (t & -> & M1 & M2 & M3).
  cbn [max_clients server_timeout now grace init] in *.
  exists t. split; auto. cbn zeta in *.
  set (a := arun maxc tmo _ es) in *. destruct M3 as (M3 & M4 & I).
  destruct I as (G & Ht & Hlen & _ & Hs & Hf & _).
  split; [now apply good_represents|]. split; auto. split; [lia|].
  split; [destruct G as [(E & _) _]; rewrite E; reflexivity|].
  split; auto. unfold timer_ok in Ht. rewrite M4, M2, M3 in Ht. split.
  - destruct (aq a) as [|[c z] q]; [tauto|]. split; [discriminate|].
    destruct (agrace a); [tauto|]. destruct Ht as (x & _ & Hx). congruence.
  - intros Ha c z q Eq. rewrite Eq, Ha in Ht. destruct Ht as (x & Hx & Hy).
    eexists. split; [exact Hy|]. lia.
Qed.

(** Consequences for single events, stated on the abstract queue. *)
Lemma abstract_reach maxc tmo start es s t : (2 <= maxc)%nat -> run false (init maxc tmo start) es s (Ok t) ->
  exists q, Inv s t q /\ max_clients t = maxc /\ server_timeout t = tmo.
Proof.
  intros Hm R. destruct (run_ok _ _ _ _ _ _ (init_inv maxc tmo start Hm) R) as (t' & [= <-] & M1 & M2 & M3).
  cbn zeta in M3. destruct M3 as (_ & _ & I). eauto.
Qed.

Lemma kill_most_idle maxc tmo start es s t c t' k zk :
  (2 <= maxc)%nat -> run false (init maxc tmo start) es s (Ok t) -> enabled s t (Accept c) ->
  step t (Accept c) = Ok t' -> open t k zk -> ~ open t' k zk ->
  S (num t) = maxc /\ (forall j zj, open t j zj -> zk <= zj) /\ open t' c (now t) /\
  (forall j zj, open t j zj -> j <> k -> open t' j zj).
Proof.
  intros Hm R En St Ho Hno.
  destruct (abstract_reach _ _ _ _ _ _ Hm R) as (q & I & M1 & M2).
  destruct (step_ok s t q _ I En) as (t2 & E2 & _ & I2). rewrite E2 in St. injection St as <-.
  pose proof (good_represents _ _ (proj1 I)) as [N Rp].
  pose proof (good_represents _ _ (proj1 I2)) as [N2 Rp2].
  assert (En' : num t = length q) by (destruct I as ([(E & _) _] & _); rewrite E; reflexivity).
  destruct I as (G & _ & _ & _ & Hs & _).
  cbn [qstep] in Rp2. rewrite M1 in *. rewrite app_length in Rp2. cbn [length] in Rp2.
  assert (Hi : In (k, zk) q) by (now apply Rp).
  destruct (Nat.eqb_spec (length q + 1) maxc) as [El|El].
  - destruct q as [|[h zh] q]; [destruct Hi|]. cbn [app tl] in Rp2.
    assert (Hk : (k, zk) = (h, zh)).
    { destruct Hi as [Hi|Hi]; auto. exfalso. apply Hno. apply Rp2. apply in_or_app; auto. }
    inversion Hk; subst h zh. split; [lia|]. split; [|split].
    + intros j zj Hj. apply Rp in Hj. destruct Hj as [Hj|Hj]; [inversion Hj; lia|].
      destruct Hs as [Hs _]. rewrite Forall_forall in Hs. apply (Hs _ Hj).
    + apply Rp2. apply in_or_app; right; left; auto.
    + intros j zj Hj Hne. apply Rp2. apply Rp in Hj. destruct Hj as [Hj|Hj]; [congruence|].
      apply in_or_app; auto.
  - exfalso. apply Hno. apply Rp2. apply in_or_app; auto.
Qed.

Lemma timeout_exact maxc tmo start es s t t' :
  (2 <= maxc)%nat -> run false (init maxc tmo start) es s (Ok t) -> enabled s t Timeout ->
  grace t = false -> step t Timeout = Ok t' ->
  (forall c z, open t' c z <-> open t c z /\ now t - tmo < z) /\
  (exists c z, open t c z /\ z <= now t - tmo).
Proof.
  intros Hm R En Hg St.
  destruct (abstract_reach _ _ _ _ _ _ Hm R) as (q & I & M1 & M2).
  destruct (step_ok s t q _ I En) as (t2 & E2 & _ & I2). rewrite E2 in St. injection St as <-.
  pose proof (good_represents _ _ (proj1 I)) as [N Rp].
  pose proof (good_represents _ _ (proj1 I2)) as [N2 Rp2].
  cbn [qstep] in Rp2. rewrite Hg, M2 in Rp2. split.
  - intros c z. rewrite Rp2, Rp, filter_In. cbn. rewrite negb_true_iff, Z.leb_gt. tauto.
  - destruct En as (x & Hx & Hle). destruct I as (_ & Ht & _).
    destruct q as [|[c z] q]; cbn in Ht; [congruence|]. rewrite Hg, M2 in Ht.
    destruct Ht as (a & Ha & Hb). exists c, z. split; [apply Rp; left; auto|].
    unfold TIMEOUT_FUDGE in *. rewrite Hx in Hb. inversion Hb. lia.
Qed.
