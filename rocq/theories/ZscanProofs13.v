(** Deeper nesting changes nothing; what the records of a file are like. *)
From Coq Require Import Lia String.
From Verif Require Import Base DnameModel DnameSpec DnameProofs DnameProofs2 RespModel LtreeModel LtreeSpec ZscanModel ZscanSpec ZscanProofs7 ZscanProofs12.
Local Open Scope N_scope.
Local Notation length := List.length.

(** the origin's name need not be followed by anything *)
Lemma copy_pad dst n x : length dst = 256%nat -> legal_name n -> dname_copy dst (dname n true ++ x) = dname_copy dst (dname n true).
Proof.
  intros Hd L. destruct (legal_struct _ L) as (F & W). unfold dname_copy.
  assert (A : rd (dname n true ++ x) 0 = rd (dname n true) 0) by reflexivity. rewrite A.
  assert (B : rd (dname n true) 0 = Ok (N.of_nat (wire_len n))) by (rewrite <- (app_nil_r (dname n true)); apply rd_dname0). rewrite B. cbn [rbind].
  replace (rdn (dname n true ++ x) 0 (N.to_nat (N.of_nat (wire_len n)) + 1)) with (rdn (dname n true) 0 (N.to_nat (N.of_nat (wire_len n)) + 1)); [reflexivity|].
  rewrite !rdn_ok by (rewrite ?app_length, dname_length; lia). f_equal. unfold sub. cbn [skipn]. rewrite firstn_app, dname_length.
  replace (N.to_nat (N.of_nat (wire_len n)) + 1 - Datatypes.S (wire_len n))%nat with 0%nat by lia. cbn [firstn]. now rewrite app_nil_r.
Qed.
Definition padded (n : name) : bytes := dname n true ++ repeat 0 (256 - length (dname n true)).
Lemma padded_holds n : legal_name n -> holds (padded n) n.
Proof.
  intros L. destruct (legal_struct _ L) as (_ & W). split; [exact L|]. split; [|unfold padded; eauto]. unfold padded. rewrite app_length, repeat_length, dname_length. lia.
Qed.
Lemma zscan_pad zone autosplit p4 p6 fs n o fn ttl : legal_name o ->
  zscan_do zone autosplit p4 p6 fs n (dname o true) fn ttl = zscan_do zone autosplit p4 p6 fs n (padded o) fn ttl.
Proof.
  intros L. destruct n; [reflexivity|]. cbn [zscan_do]. destruct (fs fn); [|reflexivity]. unfold zst0, padded.
  rewrite !copy_pad by (try apply repeat_length; assumption). reflexivity.
Qed.

Lemma file_right zn autosplit p4 p6 fs n fn ttl rs : legal_name zn -> (forall f raw, fs f = Some raw -> all_bytes raw) ->
  zscan_rfc1035 (dname zn true) autosplit p4 p6 fs n fn ttl = Ok (Some rs) <-> zfile zn autosplit p4 p6 fs n zn fn ttl rs.
Proof.
  intros L Hfs. unfold zscan_rfc1035. rewrite zscan_pad by exact L.
  destruct (file_ok (dname zn true) zn (ex_intro _ [] (eq_sym (app_nil_r _))) L autosplit p4 p6 fs Hfs n) as (A & U).
  destruct (A (padded zn) zn fn ttl (padded_holds _ L) (ex_intro _ [] eq_refl)) as [(rs' & E & Z)|(Z & E)].
  - split.
    + rewrite E. intros [= <-]. exact Z.
    + intros Z2. now rewrite (U _ _ _ _ _ L (ex_intro _ [] eq_refl) Z2 Z).
  - split; intros X; exfalso; [now apply (E rs)|now apply (Z rs)].
Qed.

Lemma means_mono zn autosplit p4 p6 (i1 i2 : name -> bytes -> N -> list record -> Prop) cur k s k' rs : (forall o f t r, i1 o f t r -> i2 o f t r) ->
  means zn autosplit p4 p6 i1 cur k s k' rs -> means zn autosplit p4 p6 i2 cur k s k' rs.
Proof. intros H M. destruct M; try (econstructor; eassumption). eapply me_include; eauto. Qed.
Lemma lines_mono zn autosplit p4 p6 (i1 i2 : name -> bytes -> N -> list record -> Prop) cur k t rs : (forall o f t r, i1 o f t r -> i2 o f t r) ->
  lines zn autosplit p4 p6 i1 cur k t rs -> lines zn autosplit p4 p6 i2 cur k t rs.
Proof. intros H M. induction M; [constructor|]. eapply li_line; eauto using means_mono. Qed.
Lemma zfile_deeper zn autosplit p4 p6 fs n : forall m o fn ttl rs, (n <= m)%nat -> zfile zn autosplit p4 p6 fs n o fn ttl rs -> zfile zn autosplit p4 p6 fs m o fn ttl rs.
Proof.
  induction n as [|n IH]; intros m o fn ttl rs H X; [destruct X|]. destruct m as [|m]; [lia|]. cbn [zfile] in *. destruct X as (raw & text & A & B & C & D & E).
  exists raw, text. repeat split; auto. eapply lines_mono; [|exact E]. intros. apply IH; [lia|assumption].
Qed.

(** ** The records *)
Definition generic_fits (r : record) : Prop := match r with AOther _ t _ d => t < 65536 /\ N.of_nat (length d) < 65536 | _ => True end.
Section Fine.
  Variable zn : name.
  Variable autosplit : bool.
  Variable p4 p6 : bytes -> option bytes.
  Hypothesis H4 : forall t a, p4 t = Some a -> length a = 4%nat.
  Hypothesis H6 : forall t a, p6 t = Some a -> length a = 16%nat.
  Definition sound (k : ctx) : Prop := legal_name (c_origin k) /\ if c_ooz k then legal_name (c_owner k) else legal_name (c_owner k ++ zn).
  Lemma data_fine k ttl m d r : sound k -> data_means zn autosplit p4 p6 k ttl m d r -> generic_fits r -> rec_fine zn r.
  Proof.
    unfold sound. intros (_ & Sk) D G. destruct D; unfold rec_fine; cbn [owner]; try rewrite H in Sk; try (split; [exact Sk|]); try exact I; try (apply H0); try (apply H1); try (apply H2).
    - destruct (c_ooz k); (split; [auto|]; split; [eauto|]; intros; congruence || assumption).
    - destruct (c_ooz k); (split; [auto|]; split; [eauto|]; intros; congruence || assumption).
    - apply H3.
    - split; [apply H7|]. destruct H2 as (_ & L1). destruct H3 as (_ & L2). destruct H5 as (_ & L3).
      unfold wire_strings. cbn [map concat]. repeat (rewrite ?app_length; cbn [length app]). lia.
    - rewrite H0 in Sk. split; [exact Sk|]. split; [reflexivity|]. split; [apply H1|apply H2].
    - exact G.
    - exact G.
  Qed.
  Lemma means_fine (incl : name -> bytes -> N -> list record -> Prop) cur k s k' rs : sound k ->
    (forall o f t r, legal_name o -> incl o f t r -> Forall generic_fits r -> Forall (rec_fine zn) r) ->
    means zn autosplit p4 p6 incl cur k s k' rs -> Forall generic_fits rs -> Forall (rec_fine zn) rs /\ sound k'.
  Proof.
    intros Sk Hi M G. destruct M.
    - split; [constructor|exact Sk].
    - inversion G; subst. split; [constructor; [|constructor]; eapply data_fine; eauto|exact Sk].
    - assert (Sk' : sound k').
      { subst k'. unfold sound. cbn. split; [apply Sk|]. destruct H as (full & Hf & Ho).
        assert (Lf : legal_name full) by (destruct o; [rewrite Hf; apply Sk|apply Hf]).
        destruct ooz; [destruct Ho as (-> & _)|rewrite <- Ho]; exact Lf. }
      inversion G; subst. split; [constructor; [|constructor]; eapply data_fine; eauto|exact Sk'].
    - split; [constructor|exact Sk].
    - split; [constructor|]. split; [apply H|apply Sk].
    - split; [|exact Sk]. eapply Hi; [|eassumption|assumption]. destruct o; [apply H|rewrite H; apply Sk].
  Qed.
  Lemma zfile_fine fs n : forall o fn ttl rs, legal_name zn -> legal_name o -> zfile zn autosplit p4 p6 fs n o fn ttl rs -> Forall generic_fits rs -> Forall (rec_fine zn) rs.
  Proof.
    induction n as [|n IH]; intros o fn ttl rs Lz Lo X G; [destruct X|]. cbn [zfile] in X. destruct X as (raw & text & _ & _ & _ & _ & X).
    match type of X with lines _ _ _ _ _ _ ?k _ _ => assert (Sk : sound k) by (split; [exact Lo|exact Lz]) end. revert Sk G. induction X as [|k t s k' rs text rs' Lt M X IHX]; intros Sk G; [constructor|].
    apply Forall_app in G. destruct G as (G1 & G2). edestruct means_fine as (A & B); [exact Sk| |exact M|exact G1|]; [intros; eapply IH; eauto|].
    apply Forall_app. split; [exact A|]. now apply IHX.
  Qed.
End Fine.
