(** C60: the directory of zone files. *)
From Coq Require Import Permutation String.
From Verif Require Import Base DnameModel DnameSpec CompModel RespModel RespSpec LtreeModel LtreeSpec LtreeProofs LtreeProofs3 LtreeProofs12 LtreeProps ZscanModel ZscanSpec ZscanProofs ZscanProofs13 ZscanProps ZdirModel ZdirSpec ZdirProofs ZdirProofs2 ZdirProofs3 ZdirProofs4.
Local Open Scope N_scope.
Local Open Scope list_scope.
Local Notation length := List.length.

Section C60.
  Variable cfg : zcfg.
  Variable pl : plugins.
  Variable hash : list N -> N.
  Variable autosplit : bool.
  Variable pton4 : bytes -> option bytes.
  Variable pton6 : bytes -> option bytes.
  Variable fs : bytes -> option bytes.
  Variable depth : nat.
  Variable ttl : N.
  Variable junk : bytes.
  Variable dir : bytes.
  Hypothesis hash64 : forall l, hash l < W64.
  Hypothesis p4 : forall t a, pton4 t = Some a -> length a = 4%nat.
  Hypothesis p6 : forall t a, pton6 t = Some a -> length a = 16%nat.
  Hypothesis fs_bytes : forall f raw, fs f = Some raw -> all_bytes raw.
  Hypothesis junk_len : length junk = 256%nat.
  Notation lf := (load_file cfg pl hash autosplit pton4 pton6 fs depth ttl junk dir).
  Notation says := (says autosplit pton4 pton6 fs depth ttl dir).
  Notation sound := (sound_file cfg pl hash autosplit pton4 pton6 fs depth ttl dir).

  (** No file brings the daemon down by itself (C55 says which files do), and
      what the files say fits in memory. *)
  Definition tame (d : directory) : Prop :=
    Forall all_bytes (files_of d) /\ (forall fn, In fn (files_of d) -> lf fn <> UB) /\
    fits autosplit pton4 pton6 fs depth ttl dir (files_of d).

  (** ** C60 *)
  (** Whatever the number of threads and whatever the order in which they run:
      nothing goes wrong in the load, and once it is done it has given up exactly
      when the directory could not be read, some file is not a proper zone file
      for the zone it is named after, or two files' zones overlap; otherwise the
      result is what loading the files' records, one zone after the other, gives. *)
  Theorem C60_load_is_the_directory : forall threads d acts, threads <> O -> tame d ->
    exists ans, load_zone_dir lf hash threads d empty_tree acts = Ok ans /\
    match ans with
    | Unfinished => True
    | Refused => unseen d \/ (exists fn, In fn (files_of d) /\ ~ sound fn) \/ two_clash file_zone (files_of d)
    | Loaded tree =>
        ~ unseen d /\ (forall fn, In fn (files_of d) -> sound fn) /\ ~ two_clash file_zone (files_of d) /\
        exists order zs, Permutation order (files_of d) /\ Forall2 says order zs /\ load_zones cfg pl hash empty_tree zs = Ok (Some tree)
    end.
  Proof.
    intros threads d acts NT (NM & AL & SM). unfold load_zone_dir. destruct (begin_ok threads d empty_tree NT) as (r & -> & R). cbn [rbind]. destruct r as [s|a].
    - destruct R as (NU & L & -> & P & FI).
      destruct (load_inv cfg pl hash autosplit pton4 pton6 fs depth ttl junk dir hash64 p4 p6 fs_bytes junk_len (files_of d) NM AL SM L P FI acts) as (s & ES & _ & _ & FIN).
      rewrite ES. cbn [rbind]. eexists. split; [reflexivity|]. unfold answer_of. destruct (Nat.ltb_spec (d_next s) (length (d_workers s))) as [LT|LE]; [exact I|].
      destruct (FIN LE) as (F1 & F2). destruct (d_failed s); [right; now apply F1|]. destruct (F2 eq_refl) as (A & B & _ & _ & C & _). auto.
    - eexists. split; [reflexivity|]. destruct a as [|t|]; [now left| |destruct R]. destruct R as (-> & ->). cbn [unseen files_of]. split; [tauto|]. split; [intros fn []|].
      split; [|exists [], []; split; [constructor|split; [constructor|reflexivity]]]. intros (f1 & f2 & rest & z1 & z2 & P & _). apply Permutation_nil in P. discriminate.
  Qed.

  (** From wherever a schedule has got to, the load can be brought to its end. *)
  Theorem C60_load_ends : forall threads d acts, threads <> O -> tame d ->
    exists more ans, load_zone_dir lf hash threads d empty_tree (acts ++ more) = Ok ans /\ ans <> Unfinished.
  Proof.
    intros threads d acts NT (NM & AL & SM). unfold load_zone_dir. destruct (begin_ok threads d empty_tree NT) as (r & -> & R). cbn [rbind]. destruct r as [s|a].
    - destruct R as (NU & L & -> & P & FI).
      destruct (load_inv cfg pl hash autosplit pton4 pton6 fs depth ttl junk dir hash64 p4 p6 fs_bytes junk_len (files_of d) NM AL SM L P FI acts) as (s & ES & _ & (more & s' & EM & LE) & _).
      exists more, (answer_of s'). rewrite (steps_app lf hash _ _ _ _ ES), EM. split; [reflexivity|]. unfold answer_of. destruct (Nat.ltb_spec (d_next s') (length (d_workers s'))) as [LT|_]; [lia|]. destruct (d_failed s'); discriminate.
    - exists [], a. split; [reflexivity|]. intros ->. exact R.
  Qed.

  (** The answer, and every lookup of a name afterwards, is the same for every
      number of threads, every schedule and every order in which the system lists
      the files. *)
  Theorem C60_order_does_not_matter : forall threads1 threads2 d1 d2 acts1 acts2 a1 a2, threads1 <> O -> threads2 <> O ->
    tame d1 -> tame d2 -> Permutation (files_of d1) (files_of d2) -> (unseen d1 <-> unseen d2) ->
    load_zone_dir lf hash threads1 d1 empty_tree acts1 = Ok a1 -> load_zone_dir lf hash threads2 d2 empty_tree acts2 = Ok a2 ->
    a1 <> Unfinished -> a2 <> Unfinished ->
    match a1, a2 with
    | Refused, Refused => True
    | Loaded t1, Loaded t2 => forall q,
        lsearch hash t1 (rev q) None = lsearch hash t2 (rev q) None \/
        exists n1 n2, lsearch hash t1 (rev q) None = Ok (NOAUTH, n1, None, O) /\ lsearch hash t2 (rev q) None = Ok (NOAUTH, n2, None, O)
    | _, _ => False
    end.
  Proof.
    assert (RUN : forall threads d acts a, threads <> O -> tame d -> load_zone_dir lf hash threads d empty_tree acts = Ok a -> a <> Unfinished ->
      match a with
      | Loaded t => exists b zs, tree_inv hash b zs t /\ forall x, In x zs <-> In x (goods (outcome cfg pl hash autosplit pton4 pton6 fs depth ttl junk dir) (files_of d))
      | _ => True
      end).
    { intros threads d acts a NT (NM & AL & SM) H NU. unfold load_zone_dir in H. destruct (begin_ok threads d empty_tree NT) as (r & E & R). rewrite E in H. cbn [rbind] in H. destruct r as [s|a'].
      - destruct R as (_ & L & -> & P & FI).
        destruct (load_inv cfg pl hash autosplit pton4 pton6 fs depth ttl junk dir hash64 p4 p6 fs_bytes junk_len (files_of d) NM AL SM L P FI acts) as (s & ES & _ & _ & FIN).
        rewrite ES in H. cbn [rbind] in H. injection H as <-. unfold answer_of in *. destruct (Nat.ltb_spec (d_next s) (length (d_workers s))) as [LT|LE]; [congruence|].
        destruct (FIN LE) as (_ & F2). destruct (d_failed s); [exact I|]. destruct (F2 eq_refl) as (_ & _ & _ & _ & _ & b & TI). exists b, (rev (goods (outcome cfg pl hash autosplit pton4 pton6 fs depth ttl junk dir) (concat L))). split; [exact TI|].
        intros x. rewrite <- in_rev. unfold goods. split; apply Permutation_in, Permutation_flat_map; [exact P|symmetry; exact P].
      - injection H as <-. destruct a' as [|t|]; [exact I| |exact I]. destruct R as (-> & ->). exists 0, []. split; [apply (tree_inv_start hash 0)|]. intros x. cbn. tauto. }
    intros th1 th2 d1 d2 acts1 acts2 a1 a2 N1 N2 T1 T2 P U E1 E2 F1 F2.
    assert (CL : forall f g, Permutation f g -> two_clash file_zone f -> two_clash file_zone g).
    { intros f g PF (f1 & f2 & rest & z1 & z2 & X & Y). exists f1, f2, rest, z1, z2. split; [|exact Y]. etransitivity; [symmetry; exact PF|exact X]. }
    destruct (C60_load_is_the_directory th1 d1 acts1 N1 T1) as (b1 & X1 & R1). destruct (C60_load_is_the_directory th2 d2 acts2 N2 T2) as (b2 & X2 & R2).
    assert (b1 = a1) by congruence. assert (b2 = a2) by congruence. subst b1 b2. pose proof (RUN _ _ _ _ N1 T1 E1 F1) as Q1. pose proof (RUN _ _ _ _ N2 T2 E2 F2) as Q2.
    destruct a1 as [|t1|], a2 as [|t2|]; try contradiction; try exact I; try congruence.
    - destruct R2 as (A & B & C & _). destruct R1 as [R1|[(fn & IN & NS)|R1]]; [apply A; now apply U| |].
      + apply NS, B. eapply Permutation_in; eauto.
      + apply C. eapply CL; eauto.
    - destruct R1 as (A & B & C & _). destruct R2 as [R2|[(fn & IN & NS)|R2]]; [apply A; now apply U| |].
      + apply NS, B. eapply Permutation_in; [symmetry; eauto|eauto].
      + apply C. eapply CL; [symmetry; eauto|eauto].
    - destruct Q1 as (b1 & zs1 & TI1 & S1). destruct Q2 as (b2 & zs2 & TI2 & S2). apply (same_lookups hash hash64 b1 b2 zs1 zs2 t1 t2 TI1 TI2).
      intros x. rewrite S1, S2. unfold goods. split; apply Permutation_in, Permutation_flat_map; [exact P|symmetry; exact P].
  Qed.

  (** Every zone that was made during a load ends up either in the tree or freed,
      once, and not both; when the load succeeds, each file's zone is in the tree
      and none was freed. *)
  Theorem C60_no_zone_is_lost : forall threads d acts s0 s, threads <> O -> tame d ->
    begin threads d empty_tree = Ok (inl s0) -> steps lf hash s0 acts = Ok s -> answer_of s <> Unfinished ->
    Permutation (d_made s) (d_merged s ++ d_gone s) /\
    (NoDup (files_of d) -> NoDup (d_merged s ++ d_gone s)) /\
    (forall tree, answer_of s = Loaded tree -> d_gone s = [] /\ Permutation (d_merged s) (files_of d)).
  Proof.
    intros threads d acts s0 s NT (NM & AL & SM) EB ES NU. destruct (begin_ok threads d empty_tree NT) as (r & E & R). rewrite EB in E. injection E as <-. destruct R as (_ & L & -> & P & FI).
    destruct (load_inv cfg pl hash autosplit pton4 pton6 fs depth ttl junk dir hash64 p4 p6 fs_bytes junk_len (files_of d) NM AL SM L P FI acts) as (s' & ES' & IV & _ & FIN).
    rewrite ES in ES'. injection ES' as <-. unfold answer_of in *. destruct (Nat.ltb_spec (d_next s) (length (d_workers s))) as [LT|LE]; [congruence|]. destruct (FIN LE) as (_ & F2).
    assert (PM : Permutation (d_merged s ++ d_gone s) (flat_map (fun w => zones (w_done w)) (d_workers s))).
    { pose proof (i_kept _ _ _ _ _ IV) as K. now rewrite firstn_all2 in K by lia. }
    split; [|split].
    - etransitivity; [apply (i_made _ _ _ _ _ IV)|]. symmetry. exact PM.
    - intros ND. eapply Permutation_NoDup; [symmetry; exact PM|]. assert (NL : NoDup (concat L)) by (eapply Permutation_NoDup; [symmetry; exact P|exact ND]).
      pose proof (i_workers _ _ _ _ _ IV) as F. clear - F NL. induction F as [|w l ws L (p & D & EP & _) F IH]; [constructor|]. cbn [concat flat_map] in *.
      assert (SUB : incl (flat_map (fun w => zones (w_done w)) ws) (concat L)).
      { clear - F. induction F as [|w l ws L (p & D & EP & _) F IH]; [intros x []|]. cbn [concat flat_map]. intros x I. apply in_app_iff in I. apply in_app_iff. destruct I as [I|I]; [left|right; now apply IH].
        unfold zones in I. apply in_map_iff in I. destruct I as ((fn, o) & <- & I). apply filter_In in I. destruct I as (I & _). rewrite D in I. apply in_map_iff in I. destruct I as (fn' & X & I). injection X as <- _. rewrite EP. apply in_app_iff. now left. }
      assert (W : incl (zones (w_done w)) l /\ (NoDup l -> NoDup (zones (w_done w)))).
      { rewrite D, EP. clear. induction p as [|fn p (IH1 & IH2)]; [split; [intros x []|constructor]|]. unfold zones in *. cbn [map filter ent snd]. destruct (zone_made _); cbn [map fst app].
        - split; [intros x [<-|I]; [now left|right; now apply IH1]|]. intros ND. inversion ND as [|? ? N1 N2]; subst. constructor; [|now apply IH2]. intros I. apply N1.
          apply in_map_iff in I. destruct I as ((g, o) & X0 & I). cbn in X0. subst g. apply filter_In in I. destruct I as (I & _). apply in_map_iff in I. destruct I as (g' & X & I). injection X as -> _. apply in_app_iff. now left.
        - split; [intros x I; right; now apply IH1|]. intros ND. inversion ND; subst. now apply IH2. }
      destruct W as (W1 & W2). assert (SP : NoDup l /\ NoDup (concat L) /\ forall x, In x l -> ~ In x (concat L)).
      { clear - NL. induction l as [|a l IH]; [split; [constructor|split; [exact NL|intros x []]]|]. cbn [app] in NL. inversion NL as [|? ? N1 N2]; subst. destruct (IH N2) as (A & B & C). split; [constructor; [intros X; apply N1, in_app_iff; now left|exact A]|]. split; [exact B|].
        intros x [<-|I]; [intros X; apply N1, in_app_iff; now right|now apply C]. }
      destruct SP as (S1 & S2 & S3). specialize (W2 S1). specialize (IH S2). clear - W1 W2 IH SUB S3. induction (zones (w_done w)) as [|a z IHz]; [exact IH|]. cbn [app]. inversion W2 as [|? ? N1 N2]; subst. constructor.
      + intros X. apply in_app_iff in X. destruct X as [X|X]; [contradiction|]. apply (S3 a); [apply W1; now left|now apply SUB].
      + apply IHz; [intros x X; apply W1; now right|exact N2].
    - intros tree A. destruct (d_failed s); [discriminate|]. destruct (F2 eq_refl) as (_ & _ & G & M & _). auto.
  Qed.

  (** A file's name stands for one zone at most. *)
  Theorem C60_one_zone_per_file : forall fn z1 z2, all_bytes fn -> file_zone fn z1 -> file_zone fn z2 -> z1 = z2.
  Proof.
    intros fn z1 z2 AB F1 F2. pose proof (make_name_ok fn) as M. destruct (make_zone_name fn) as [text|]; [|exfalso; exact (M z1 F1)]. destruct M as (MB & M).
    pose proof (proj1 (M z1) F1) as (L1 & _ & g1 & T1). pose proof (proj1 (M z2) F2) as (L2 & _ & g2 & T2). eapply (name_text_one text); eauto.
  Qed.

  (** A worker that gets through a file leaves a zone behind for it, which then has
      to be kept or freed, exactly when the file's name stands for a zone. *)
  Theorem C60_zone_made : forall fn o, all_bytes fn -> lf fn = Ok o -> (o <> NoZone <-> exists z, file_zone fn z).
  Proof.
    clear hash64 p4 p6 fs_bytes. intros fn o AB H. unfold load_file in H. pose proof (make_name_ok fn) as M. destruct (make_zone_name fn) as [text|].
    2: { injection H as <-. split; [congruence|]. intros (z & Z). destruct (M z Z). }
    destruct M as (MB & M). destruct (new_zone_ok junk text junk_len (MB AB)) as (r & E & R). rewrite E in H. cbn [rbind] in H. destruct r as [d|].
    2: { injection H as <-. split; [congruence|]. intros (z & Z). destruct (R z). now apply M. }
    destruct R as (z & ZN & ->). split; [intros _; exists z; now apply M|intros _ ->].
    destruct (zscan_rfc1035 _ _ _ _ _ _ _ _) as [[rs|]|]; cbn [rbind] in H; try discriminate. destruct (load_zone _ _ _ _ _) as [[root|]|]; cbn [rbind] in H; discriminate.
  Qed.

  (** Files of limited length fit. *)
  Lemma fits_if k files : (forall fn x, In fn files -> says fn x -> Forall generic_fits (snd x) /\ (length (snd x) <= k)%nat) ->
    N.of_nat (length files * S k) < 2 ^ 62 -> fits autosplit pton4 pton6 fs depth ttl dir files.
  Proof.
    clear hash64 p4 p6 fs_bytes junk_len. intros H LN l rest zs P F. assert (IN : forall fn, In fn l -> In fn files) by (intros fn I; eapply Permutation_in; [symmetry; exact P|apply in_app_iff; now left]).
    assert (LL : (length l <= length files)%nat) by (rewrite (Permutation_length P), app_length; lia).
    assert (X : Forall (fun z => Forall generic_fits (snd z)) zs /\ (length zs + length (concat (map snd zs)) <= length l * S k)%nat).
    { clear - H F IN. induction F as [|fn x l zs S F IH]; [split; [constructor|cbn; lia]|]. destruct IH as (A & B); [intros g I; apply IN; now right|]. destruct (H fn x (IN fn (or_introl eq_refl)) S) as (C & D).
      split; [now constructor|]. cbn [map concat length]. rewrite app_length. lia. }
    destruct X as (A & B). split; [exact A|]. assert (length l * S k <= length files * S k)%nat by (apply Nat.mul_le_mono_r; exact LL). lia.
  Qed.
End C60.
Print Assumptions C60_load_is_the_directory.
Print Assumptions C60_load_ends.
Print Assumptions C60_order_does_not_matter.
Print Assumptions C60_no_zone_is_lost.
Print Assumptions C60_one_zone_per_file.
Print Assumptions C60_zone_made.

(** A directory with two zones, a hidden file and a directory, loaded by two
    threads and by one; and one with a zone inside another. *)
Definition w60_zone : string := ("@ SOA n h 1 2 3 4 5" ++ nl ++ " NS n" ++ nl ++ "n A 192.0.2.1" ++ nl)%string.
Definition w60_fs (f : bytes) : option bytes :=
  if bytes_eqb f (codes "/z/ex.c") || bytes_eqb f (codes "/z/1@2.d") || bytes_eqb f (codes "/z/s.ex.c") then Some (codes w60_zone) else None.
Definition w60_lf : bytes -> res wout := load_file w47_cfg w47_pl w47_hash true w54_pton4 (fun _ => None) w60_fs 2 86400 (repeat 7 256) (codes "/z/").
Definition w60_dir : directory := Entries [(codes ".x", StatFails); (codes "ex.c", Regular); (codes "old", NotRegular); (codes "1@2.d", Regular)] false false.
Definition w60_bad : directory := Entries [(codes "ex.c", Regular); (codes "s.ex.c", Regular)] false false.
Definition loaded_ok (r : res answer) : bool := match r with Ok (Loaded _) => true | _ => false end.
Example C60_witness :
  (forall l, w47_hash l < W64) /\ (forall f raw, w60_fs f = Some raw -> all_bytes raw) /\
  tame w47_cfg w47_pl w47_hash true w54_pton4 (fun _ => None) w60_fs 2 86400 (repeat 7 256) (codes "/z/") w60_dir /\
  loaded_ok (load_zone_dir w60_lf w47_hash 2 w60_dir empty_tree [Work 1; Join; Work 0; Work 0; Join; Work 1; Join]) = true /\
  loaded_ok (load_zone_dir w60_lf w47_hash 1 w60_dir empty_tree [Work 0; Work 0; Work 0; Join]) = true /\
  load_zone_dir w60_lf w47_hash 2 w60_dir empty_tree [Work 1; Join; Work 0] = Ok Unfinished /\
  load_zone_dir w60_lf w47_hash 2 w60_bad empty_tree [Work 1; Work 1; Work 0; Work 0; Join; Join] = Ok Refused /\
  file_zone (codes "1@2.d") [[49; 47; 50]; [100]].
Proof.
  assert (FS : forall f raw, w60_fs f = Some raw -> all_bytes raw).
  { intros f raw. unfold w60_fs. assert (B : forall s, all_bytes (codes s)).
    { intros s. unfold codes. apply Forall_forall. intros c I. apply in_map_iff in I. destruct I as (a & <- & _). apply Ascii.N_ascii_bounded. }
    destruct (_ || _); [intros [= <-]; apply B|discriminate]. }
  assert (FZ : file_zone (codes "1@2.d") [[49; 47; 50]; [100]]).
  { pose proof (make_name_ok (codes "1@2.d")) as M. destruct (make_zone_name (codes "1@2.d")) as [text|] eqn:E; [|vm_compute in E; discriminate]. destruct M as (_ & M). apply M. vm_compute in E. injection E as <-.
    split; [apply legalb_ok; reflexivity|]. split; [discriminate|]. exists false. apply nt_labels. apply (lt_more [49; 47; 50] [49; 47; 50] [100] [[100]] false).
    - exists [49; 47; 50]. split; [repeat (apply esc_plain; [discriminate|discriminate|]); constructor|split; [reflexivity|discriminate]].
    - apply lt_last. exists [100]. split; [repeat (apply esc_plain; [discriminate|discriminate|]); constructor|split; [reflexivity|discriminate]]. }
  assert (FE : file_zone (codes "ex.c") zn).
  { pose proof (make_name_ok (codes "ex.c")) as M. destruct (make_zone_name (codes "ex.c")) as [text|] eqn:E; [|vm_compute in E; discriminate]. destruct M as (_ & M). apply M. vm_compute in E. injection E as <-.
    split; [apply legalb_ok; reflexivity|]. split; [discriminate|]. exists false. apply nt_labels. apply (lt_more [101; 120] [101; 120] [99] [[99]] false).
    - exists [101; 120]. split; [repeat (apply esc_plain; [discriminate|discriminate|]); constructor|split; [reflexivity|discriminate]].
    - apply lt_last. exists [99]. split; [repeat (apply esc_plain; [discriminate|discriminate|]); constructor|split; [reflexivity|discriminate]]. }
  assert (AB : Forall all_bytes (files_of w60_dir)) by (repeat constructor).
  assert (FF : files_of w60_dir = [codes "ex.c"; codes "1@2.d"]) by reflexivity.
  split; [intros l; unfold w47_hash; apply (N.lt_trans _ 7); [now apply N.mod_lt|reflexivity]|]. split; [exact FS|]. split.
  - split; [exact AB|]. split.
    + rewrite FF. intros fn [<-|[<-|[]]]; vm_compute; discriminate.
    + apply fits_if with (k := 3%nat); [exact w47_hash| |reflexivity]. rewrite FF. intros fn x I (Z & F).
      assert (GO : forall z, legal_name z -> file_zone fn z -> all_bytes fn ->
        match zscan_rfc1035 (dname z true) true w54_pton4 (fun _ => None) w60_fs 2 (codes "/z/" ++ fn) 86400 with Ok (Some rs) => Forall generic_fits rs /\ (length rs <= 3)%nat | _ => False end ->
        Forall generic_fits (snd x) /\ (length (snd x) <= 3)%nat).
      { intros z LZ FZ1 AB1 H. assert (fst x = z) by (eapply C60_one_zone_per_file; eauto). subst z. apply file_right in F; [|exact LZ|exact FS]. now rewrite F in H. }
      destruct I as [<-|[<-|[]]]; [apply (GO zn)|apply (GO [[49; 47; 50]; [100]])].
      * apply legalb_ok. reflexivity.
      * exact FE.
      * repeat constructor.
      * vm_compute. split; repeat constructor.
      * apply legalb_ok. reflexivity.
      * exact FZ.
      * repeat constructor.
      * vm_compute. split; repeat constructor.
  - split; [vm_compute; reflexivity|]. split; [vm_compute; reflexivity|]. split; [vm_compute; reflexivity|]. split; [vm_compute; reflexivity|]. exact FZ.
Qed.
