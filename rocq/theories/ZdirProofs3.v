(** Dealing out the files; one file. *)
From Coq Require Import Permutation.
From Verif Require Import Base DnameModel DnameSpec DnameProofs DnameProofs2 DnameProps CompModel CompProofs RespModel MsgModel MsgProofs2 MsgProofs3 RespProofs5 LtreeModel LtreeSpec LtreeProofs ZscanModel ZscanSpec ZscanProofs13 ZscanProofs ZscanProps ZdirModel ZdirSpec ZdirProofs ZdirProofs2.
Local Open Scope N_scope.

(** ** Dealing out *)
Record dealt (threads : nat) (files : list bytes) (x : list (list bytes) * nat) (count : nat) : Prop := {
  de_len : length (fst x) = threads;
  de_next : (snd x < threads)%nat;
  de_perm : Permutation (concat (fst x)) files;
  de_count : count = length files;
  de_turn : (count < threads)%nat -> snd x = count;
  de_empty : forall i l, nth_error (fst x) i = Some l -> ((count <= i)%nat <-> l = []) }.

Lemma concat_upd {A} (L : list (list A)) : forall i l x, nth_error L i = Some l -> Permutation (concat (upd L i (l ++ [x]))) (concat L ++ [x]).
Proof.
  induction L as [|a L IH]; intros [|i] l x E; try discriminate; cbn in *.
  - injection E as ->. rewrite <- !app_assoc. apply Permutation_app_head, Permutation_app_comm.
  - rewrite <- app_assoc. apply Permutation_app_head. eauto.
Qed.

Lemma add_dealt threads files x count fn : dealt threads files x count -> exists x', add_zone threads x fn = Ok x' /\ dealt threads (files ++ [fn]) x' (S count).
Proof.
  destruct x as (L, next). intros [D1 D2 D3 D4 D5 D6]. cbn [fst snd] in *. unfold add_zone. destruct (Nat.ltb_spec next threads) as [LT|LE]; [|lia]. cbn [rassert].
  destruct (nth_error L next) as [l|] eqn:E; [|apply nth_error_None in E; lia]. eexists. split; [reflexivity|]. constructor; cbn [fst snd].
  - now rewrite upd_length.
  - apply Nat.mod_upper_bound. lia.
  - etransitivity; [apply concat_upd; exact E|]. now apply Permutation_app_tail.
  - rewrite app_length. cbn. lia.
  - intros C. rewrite (D5 ltac:(lia)). now apply Nat.mod_small.
  - intros i k EK. rewrite upd_same_nth in EK. destruct (Nat.eqb_spec next i) as [<-|N].
    + rewrite E in EK. injection EK as <-. split; [|intros X; apply app_eq_nil in X; destruct X; discriminate]. intros LE. destruct (Nat.lt_ge_cases count threads) as [C|C]; [rewrite (D5 C) in LE; lia|lia].
    + rewrite <- (D6 i k EK). split; [lia|]. intros LE. destruct (Nat.eq_dec count i) as [->|N2]; [|lia]. destruct (Nat.lt_ge_cases i threads) as [C|C]; [rewrite (D5 C) in N; lia|]. assert (i < length L)%nat by (apply nth_error_Some; congruence). lia.
Qed.

Definition trouble (es : list (bytes * stat_result)) : Prop := exists fn, In (fn, StatFails) es /\ hd_error fn <> Some 46.
Lemma dot_first (fn : bytes) : match fn with 46 :: _ => true | _ => false end = match hd_error fn with Some c => c =? 46 | None => false end.
Proof.
  destruct fn as [|a fn]; [reflexivity|]. cbn [hd_error]. destruct (N.eqb_spec a 46) as [->|N]; [reflexivity|].
  destruct a as [|p]; [reflexivity|]. do 6 (destruct p as [p|p|]; try reflexivity). congruence.
Qed.

Lemma counts_eq fn st : counts (fn, st) = negb (match fn with 46 :: _ => true | _ => false end) && match st with Regular => true | _ => false end.
Proof.
  rewrite dot_first. destruct fn as [|a fn]; [destruct st; reflexivity|]. cbn [hd_error]. destruct (N.eqb_spec a 46) as [->|N]; [destruct st; reflexivity|].
  destruct a as [|p]; [destruct st; reflexivity|]. do 6 (destruct p as [p|p|]; try (destruct st; reflexivity)). congruence.
Qed.

Lemma list_dir_ok threads es rf : forall x count files, dealt threads files x count ->
  exists r, list_dir threads es rf x count = Ok r /\
    match r with
    | None => rf = true \/ trouble es
    | Some (x', c') => rf = false /\ ~ trouble es /\ dealt threads (files ++ map fst (filter counts es)) x' c'
    end.
Proof.
  induction es as [|(fn, st) es IH]; intros x count files D; cbn [list_dir].
  - destruct rf; eexists; (split; [reflexivity|]); [now left|]. split; [reflexivity|]. split; [intros (fn & [] & _)|]. cbn. now rewrite app_nil_r.
  - pose proof (dot_first fn) as DF. pose proof (counts_eq fn st) as CE. destruct (match fn with 46 :: _ => true | _ => false end) eqn:DOT.
    + assert (HD : hd_error fn = Some 46). { destruct (hd_error fn) as [c|]; [|discriminate]. symmetry in DF. apply N.eqb_eq in DF. congruence. }
      destruct (IH x count files D) as (r & E & R). exists r. split; [exact E|]. cbn [filter]. rewrite CE. cbn [negb andb].
      assert (TT : trouble ((fn, st) :: es) <-> trouble es). { split; [intros (g & [X|I] & H); [injection X as -> _; congruence|exists g; auto]|intros (g & I & H); exists g; split; [now right|exact H]]. }
      destruct r as [(x', c')|]; rewrite TT; exact R.
    + assert (HD : hd_error fn <> Some 46). { destruct (hd_error fn) as [c|]; [|discriminate]. symmetry in DF. apply N.eqb_neq in DF. congruence. }
      assert (TT : st <> StatFails -> (trouble ((fn, st) :: es) <-> trouble es)). { intros N. split; [intros (g & [X|I] & H); [injection X as _ X; congruence|exists g; auto]|intros (g & I & H); exists g; split; [now right|exact H]]. }
      cbn [filter]. rewrite CE. cbn [negb andb]. destruct st.
      * eexists. split; [reflexivity|]. right. exists fn. split; [now left|exact HD].
      * destruct (add_dealt threads files x count fn D) as (x1 & -> & D1). cbn [rbind]. destruct (IH x1 (S count) _ D1) as (r & E & R). exists r. split; [exact E|].
        cbn [map fst]. destruct r as [(x', c')|]; rewrite (TT ltac:(discriminate)); [|exact R]. now rewrite <- app_assoc in R.
      * destruct (IH x count files D) as (r & E & R). exists r. split; [exact E|]. destruct r as [(x', c')|]; rewrite (TT ltac:(discriminate)); exact R.
Qed.

Lemma dealt_start threads : threads <> O -> dealt threads [] (repeat [] threads, O) 0.
Proof.
  intros N. constructor; cbn [fst snd].
  - apply repeat_length.
  - lia.
  - clear. induction threads; cbn; [constructor|exact IHthreads].
  - reflexivity.
  - reflexivity.
  - intros i l E. split; [intros _|lia]. apply nth_error_In, repeat_spec in E. exact E.
Qed.

Lemma nil_concat {A} (l : list (list A)) : (forall x, In x l -> x = []) -> concat l = [].
Proof. induction l as [|a l IH]; intros H; cbn; [reflexivity|]. rewrite (H a) by now left. apply IH. intros x I. apply H. now right. Qed.

Lemma begin_ok threads d T : threads <> O ->
  exists r, begin threads d T = Ok r /\
    match r with
    | inr Refused => unseen d
    | inr (Loaded t) => t = T /\ d = Missing
    | inr Unfinished => False
    | inl s => ~ unseen d /\ exists L, s = first_load L T /\ Permutation (concat L) (files_of d) /\ (forall l, In l L -> l <> [])
    end.
Proof.
  intros N. destruct d as [| |es rf cf]; cbn [begin].
  - eexists. split; [reflexivity|]. cbn. auto.
  - eexists. split; [reflexivity|]. exact I.
  - destruct (Nat.eqb_spec threads 0) as [E|_]; [contradiction|]. cbn [negb rassert].
    destruct (list_dir_ok threads es rf _ _ _ (dealt_start threads N)) as (r & -> & R). cbn [rbind]. cbn [app] in R. destruct r as [((lists, nx), count)|].
    + destruct R as (-> & NT & D). destruct cf; eexists; (split; [reflexivity|]); [cbn; auto|]. split.
      { cbn. intros [X|[X|X]]; [discriminate|discriminate|]. now apply NT. }
      destruct D as [D1 D2 D3 D4 D5 D6]. cbn [fst snd] in *. set (u := if Nat.ltb count threads then count else threads).
      assert (UB : (u <= count /\ u <= threads)%nat /\ (u = count \/ u = threads)) by (unfold u; destruct (Nat.ltb_spec count threads); lia).
      exists (firstn u lists). split; [reflexivity|]. split.
      * cbn [files_of]. rewrite <- D3. rewrite <- (firstn_skipn u lists) at 2. rewrite concat_app. rewrite (nil_concat (skipn u lists)); [now rewrite app_nil_r|].
        intros x I. apply In_nth_error in I. destruct I as (i & I). assert (I2 : nth_error lists (u + i) = Some x).
        { clear - I. revert lists I. induction u as [|u IH]; intros lists I; [exact I|]. destruct lists as [|a lists]; [destruct i; discriminate|]. exact (IH lists I). }
        apply (D6 _ _ I2). assert (u + i < length lists)%nat by (apply nth_error_Some; congruence). lia.
      * intros l I E. apply In_nth_error in I. destruct I as (i & I). assert (LI : (i < length (firstn u lists))%nat) by (apply nth_error_Some; congruence). rewrite firstn_length in LI.
        assert (I2 : nth_error lists i = Some l). { rewrite <- (firstn_skipn u lists). rewrite nth_error_app1; [exact I|]. rewrite firstn_length. lia. }
        apply (D6 _ _ I2) in E. lia.
    + eexists. split; [reflexivity|]. cbn. destruct R as [->|R]; auto.
Qed.

(** ** One file *)
Lemma rest_inj a b fq ra rb : legal_name a -> legal_name b -> dname a fq ++ ra = dname b fq ++ rb -> a = b.
Proof.
  intros LA LB E. assert (LE : wire_len a = wire_len b). { rewrite !dname_unfold in E. cbn [app] in E. apply (f_equal (hd 0)) in E. cbn [hd] in E. now apply Nat2N.inj. }
  assert (dname a fq = dname b fq) as D. { apply (f_equal (firstn (S (wire_len a)))) in E. rewrite LE in E at 2. rewrite <- (dname_length a fq), <- (dname_length b fq) in E. rewrite !firstn_app, !firstn_all, !Nat.sub_diag in E. cbn in E. now rewrite !app_nil_r in E. }
  rewrite !dname_unfold in D. apply (f_equal (@tl _)) in D. cbn [tl] in D. apply app_inv_tail in D. apply (wn_inj a b); [apply LA|apply LB|]. unfold wn. now rewrite D.
Qed.
Lemma name_text_one text a fa b fb : all_bytes text -> name_text text a fa -> legal_name a -> name_text text b fb -> legal_name b -> a = b.
Proof.
  intros AB TA LA TB LB. destruct (from_string_total (repeat 0 256) text (repeat_length _ _) AB) as (s & out & _ & _ & _ & C).
  destruct (C a fa TA LA) as (S1 & r1 & E1). destruct (C b fb TB LB) as (S2 & r2 & E2).
  assert (fa = fb) as <- by (rewrite S1 in S2; destruct fa, fb; (reflexivity || discriminate)). exact (rest_inj a b fa r1 r2 LA LB (eq_trans (eq_sym E1) E2)).
Qed.

Definition zone_name (text : bytes) (z : name) : Prop := legal_name z /\ (forall r, z <> [42] :: r) /\ exists fq, name_text text z fq.

Lemma dup_ok z rest : rd (dname z true ++ rest) 0 = Ok (N.of_nat (wire_len z)) /\ rdn (dname z true ++ rest) 0 (S (wire_len z)) = Ok (dname z true).
Proof.
  split; [rewrite dname_unfold; reflexivity|]. rewrite rdn_ok by (rewrite app_length, dname_length; lia). f_equal. unfold sub. cbn [skipn]. rewrite <- (dname_length z true), firstn_app, firstn_all, Nat.sub_diag, firstn_O. apply app_nil_r.
Qed.
Lemma new_zone_ok junk text : length junk = 256%nat -> all_bytes text ->
  exists r, new_zone junk text = Ok r /\ match r with None => forall z, ~ zone_name text z | Some d => exists z, zone_name text z /\ d = dname z true end.
Proof.
  intros LJ AB. destruct (from_string_total junk text LJ AB) as (s & out & E & LO & SO & CO). unfold new_zone. rewrite E. cbn [rbind].
  destruct (status_eqb s DNAME_INVALID) eqn:SE.
  - destruct s; try discriminate. eexists. split; [reflexivity|]. cbn. intros z (LZ & _ & fq & TZ). destruct (CO z fq TZ LZ) as (X & _). destruct fq; discriminate.
  - assert (SN : s <> DNAME_INVALID) by (intros ->; discriminate). destruct (SO SN) as (z & rest & TZ & LZ & EO). pose proof (legal_struct z LZ) as SZ.
    destruct (iswild_ok z (status_eqb s DNAME_VALID) rest SZ) as (w & EW & W).
    assert (GO : exists r, (do w <- dname_iswild out ; if w then Ok None else do dname <- match s with DNAME_PARTIAL => dname_terminate out | _ => Ok out end ; do l <- rd dname 0 ; do d <- rdn dname 0 (S (N.to_nat l)) ; Ok (Some d)) = Ok r /\
        match r with None => forall z, ~ zone_name text z | Some d => exists z, zone_name text z /\ d = dname z true end).
    { rewrite EO, EW. cbn [rbind]. destruct w.
      - eexists. split; [reflexivity|]. cbn. intros z' (LZ' & NW & fq & TZ'). assert (z' = z) as -> by (eapply name_text_one; eauto). destruct (proj1 W eq_refl) as (r & ER). now apply (NW r).
      - assert (ED : match s with DNAME_PARTIAL => dname_terminate (dname z (status_eqb s DNAME_VALID) ++ rest) | _ => Ok (dname z (status_eqb s DNAME_VALID) ++ rest) end = Ok (dname z true ++ rest)).
        { destruct s; [reflexivity| |congruence]. now apply terminate_ok. }
        rewrite ED. cbn [rbind]. destruct (dup_ok z rest) as (R1 & R2). rewrite R1. cbn [rbind]. rewrite Nat2N.id, R2. cbn [rbind]. eexists. split; [reflexivity|]. cbn. exists z. split; [|reflexivity].
        split; [exact LZ|]. split; [|eauto]. intros r ER. destruct W as (_ & W). specialize (W (ex_intro _ r ER)). discriminate. }
    destruct s; [exact GO|exact GO|congruence].
Qed.


Lemma root_legal : legal_name [].
Proof. split; [apply Forall_nil|]. apply Nat.leb_le. reflexivity. Qed.
Lemma make_name_ok fn : match make_zone_name fn with
  | None => forall z, ~ file_zone fn z
  | Some text => (all_bytes fn -> all_bytes text) /\ forall z, file_zone fn z <-> zone_name text z
  end.
Proof.
  unfold make_zone_name. destruct (N.ltb_spec 1004 (N.of_nat (length fn))) as [LG|SH].
  - intros z [(-> & _)|(_ & L & _)]; [cbn in LG; lia|lia].
  - assert (RE : (Nat.eqb (length fn) 9 && bytes_eqb (firstn 9 fn) root_zone_text) = true <-> fn = root_zone_text).
    { rewrite andb_true_iff, Nat.eqb_eq, bytes_eqb_iff. split; [intros (L & E)|intros ->; split; reflexivity]. rewrite <- L, firstn_all in E. exact E. }
    destruct (Nat.eqb (length fn) 9 && bytes_eqb (firstn 9 fn) root_zone_text).
    + assert (FN : fn = root_zone_text) by now apply RE. split; [intros _; repeat constructor|]. intros z. split.
      * intros [(_ & ->)|(N & _)]; [|contradiction]. split; [exact root_legal|]. split; [discriminate|]. exists true. constructor.
      * intros (LZ & _ & fq & TZ). left. split; [exact FN|]. apply (name_text_one [46] z fq [] true); [repeat constructor|exact TZ|exact LZ|constructor|exact root_legal].
    + assert (FN : fn <> root_zone_text) by (intros X; apply RE in X; discriminate). split.
      * intros AB. apply Forall_map. eapply Forall_impl; [|exact AB]. intros c C. destruct (c =? 64); [reflexivity|exact C].
      * intros z. unfold file_zone, zone_name. split.
        -- intros [(X & _)|(_ & L & LZ & NW & TZ)]; [contradiction|auto].
        -- intros (LZ & NW & TZ). right. split; [exact FN|]. split; [lia|auto].
Qed.

Section File.
  Variable cfg : zcfg.
  Variable pl : plugins.
  Variable hash : list N -> N.
  Variable autosplit : bool.
  Variable pton4 : bytes -> option bytes.
  Variable pton6 : bytes -> option bytes.
  Variable fs : bytes -> option bytes.
  Variable depth : nat.
  Variable ttl : N.
  Variable junk : bytes.
  Variable dir : bytes.
  Hypothesis fs_bytes : forall f raw, fs f = Some raw -> all_bytes raw.
  Hypothesis junk_len : length junk = 256%nat.
  Notation lf := (load_file cfg pl hash autosplit pton4 pton6 fs depth ttl junk dir).
  Notation says := (says autosplit pton4 pton6 fs depth ttl dir).

  Lemma says_one fn x y : all_bytes fn -> says fn x -> says fn y -> x = y.
  Proof.
    intros AB (Z1 & F1) (Z2 & F2). destruct x as (z, r), y as (z', r'). cbn [fst snd] in *. pose proof (make_name_ok fn) as M. destruct (make_zone_name fn) as [text|]; [|exfalso; exact (M z Z1)].
    destruct M as (MB & M). pose proof (proj1 (M z) Z1) as (L1 & _ & f1 & T1). pose proof (proj1 (M z') Z2) as (L2 & _ & f2 & T2).
    assert (z = z') as <- by (eapply (name_text_one text); eauto). f_equal. eapply C54_one_meaning; eauto.
  Qed.

  Lemma load_file_ok fn o : all_bytes fn -> lf fn = Ok o ->
    match o with
    | GoodZone z root => exists rs, says fn (z, rs) /\ legal_name z /\ load_zone cfg pl hash z rs = Ok (Some root)
    | _ => ~ sound_file cfg pl hash autosplit pton4 pton6 fs depth ttl dir fn
    end.
  Proof.
    intros AB H. unfold load_file in H. pose proof (make_name_ok fn) as M. destruct (make_zone_name fn) as [text|].
    2: { injection H as <-. intros (x & root & (Z & _) & _). exact (M _ Z). }
    destruct M as (MB & M). destruct (new_zone_ok junk text junk_len (MB AB)) as (r & E & R). rewrite E in H. cbn [rbind] in H. destruct r as [d|].
    2: { injection H as <-. intros (x & root & (Z & _) & _). apply M in Z. exact (R _ Z). }
    destruct R as (z & ZN & ->). pose proof ZN as (LZ & _). pose proof (proj2 (M z) ZN) as FZ.
    destruct (zscan_rfc1035 (dname z true) autosplit pton4 pton6 fs depth (dir ++ fn) ttl) as [rs|] eqn:EZ; [|discriminate]. cbn [rbind] in H. destruct rs as [rs|].
    2: { injection H as <-. intros (x & root & (Z & F) & _). assert (fst x = z). { pose proof (proj1 (M (fst x)) Z) as (L1 & _ & f1 & T1). destruct ZN as (_ & _ & f2 & T2). eapply (name_text_one text); eauto. }
         rewrite H in F. apply file_right in F; [congruence|exact LZ|exact fs_bytes]. }
    apply file_right in EZ; [|exact LZ|exact fs_bytes].
    assert (LO : labels_of 256 (tl (dname z true)) = z). { rewrite dname_tl. apply labels_of_wn; [apply LZ|]. pose proof (legal_count _ (proj1 LZ)) as X. destruct LZ as (_ & LZ). lia. }
    rewrite LO in H. assert (SY : says fn (z, rs)) by (split; assumption).
    destruct (load_zone cfg pl hash z rs) as [[root|]|] eqn:EL; [| |discriminate]; cbn [rbind] in H; injection H as <-.
    - eauto.
    - intros (x & root & SX & LX). rewrite (says_one fn x (z, rs) AB SX SY) in LX. cbn [fst snd] in LX. congruence.
  Qed.
End File.
