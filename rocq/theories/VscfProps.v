(** Properties of the scanner of configuration files (libgdnsd/vscf.rl). *)
From Verif Require Import Base DnameSpec VscfModel VscfSpec VscfProofs VscfProofs3 VscfProofs5 VscfProofs6 VscfProofs7 VscfProofs8 VscfProofs9.
Local Open Scope N_scope.

(** C56: a configuration file is read as it is written.  A file that holds the
    data [v] according to the documented syntax is read as [v].  A file that
    is read as [v] holds [v], except that a value that is an include of an
    empty directory may have been passed over. *)
Theorem C56_files_are_read_as_written ent_first isdir glob fs n f v :
  (reads (negb ent_first) isdir glob fs n f v -> scan_file ent_first isdir glob fs n f = Ok (Some v)) /\
  (scan_file ent_first isdir glob fs n f = Ok (Some v) ->
     reads (negb ent_first) isdir glob fs n f v \/ hollow (negb ent_first) isdir glob fs n f).
Proof. split; [apply file_complete|apply file_sound]. Qed.
Print Assumptions C56_files_are_read_as_written.

(** A file has one reading, however deep one looks. *)
Theorem C56_one_reading touch isdir glob fs n m f v w :
  reads touch isdir glob fs n f v -> reads touch isdir glob fs m f w -> v = w.
Proof.
  assert (Mono : forall n f v, reads touch isdir glob fs n f v -> reads touch isdir glob fs (S n) f v).
  { clear. induction n as [|n IH]; intros f v H; [contradiction|]. destruct H as (t & a & F & T & M). exists t, a. split; [assumption|]. split; [assumption|].
    eapply means_mono; [|exact M]. intros raw ds (l & St & Fa). exists l. split; [assumption|]. clear - Fa IH. induction Fa; constructor; auto. }
  assert (Up : forall k n f v, reads touch isdir glob fs n f v -> reads touch isdir glob fs (k + n) f v) by (induction k; intros; cbn [Nat.add]; auto).
  intros H1 H2. apply (Up m) in H1. apply (Up n) in H2. rewrite Nat.add_comm in H2.
  rewrite <- (negb_involutive touch) in H1, H2. apply file_complete in H1, H2. congruence.
Qed.
Print Assumptions C56_one_reading.

(** A file that is refused holds no data. *)
Theorem C56_refused_files_hold_nothing ent_first isdir glob fs n f v :
  scan_file ent_first isdir glob fs n f = Ok None -> ~ reads (negb ent_first) isdir glob fs n f v.
Proof. intros E H. apply file_complete in H. congruence. Qed.
Print Assumptions C56_refused_files_hold_nothing.

(** Whatever the files hold, the scan of a file ends well unless includes are
    nested as deep as the stack allows, or (if Ragel puts the action of
    the second string first) a file has two strings next to each other. *)
Theorem C56_scanning_ends_well ent_first isdir glob fs n f :
  (forall g, ~ included (negb ent_first) isdir glob fs n f g) ->
  (ent_first = true -> forall m g t, included (negb ent_first) isdir glob fs m f g -> fs g = Some t -> ~ strings_touch t) ->
  scan_file ent_first isdir glob fs n f <> UB.
Proof.
  intros N1 N2 E. apply file_ub in E as [(g & H)|(EF & m & g & t & H & F & St)]; [now apply (N1 g)|]. now apply (N2 EF m g t).
Qed.
Print Assumptions C56_scanning_ends_well.

(** Whatever is read, no hash in it has a key twice. *)
Theorem C56_keys_are_distinct ent_first isdir glob fs n f v :
  scan_file ent_first isdir glob fs n f = Ok (Some v) -> distinct v.
Proof. apply file_distinct. Qed.
Print Assumptions C56_keys_are_distinct.

(** All data can be written: any strings and keys, empty ones too, nested as deep as one likes. *)
Theorem C56_all_data_can_be_written ent_first v : proper v -> (forall r x, v <> VS r x) ->
  exists t v', same v v' /\ forall isdir glob fs n f, fs f = Some t -> scan_file ent_first isdir glob fs (S n) f = Ok (Some v').
Proof.
  intros P Ns. destruct (write_doc (fun _ _ => False) v P Ns) as (ts & a & v' & D & M & Sm & W). destruct (write_tokens (negb ent_first) ts W) as (t & e & Sp).
  exists t, v'. split; [assumption|]. intros isdir glob fs n f F. apply file_complete. exists t, a. split; [assumption|]. split; [exists ts, e; auto|]. eapply means_mono; [|exact M]. contradiction.
Qed.
Print Assumptions C56_all_data_can_be_written.

(** The depth of includes is not bounded: a file that includes itself is never read to its end. *)
Definition self_text : bytes := [36; 105; 110; 99; 108; 117; 100; 101; 123; 47; 102; 125; 10].   (* $include{/f} *)
Lemma self_step ent_first load : load [47; 102] = UB ->
  scan_buf ent_first (fun _ => false) (fun _ p => Some [p]) load (Some [47; 102]) self_text = UB.
Proof.
  intros H. unfold scan_buf. change self_text with ([36; 105; 110; 99; 108; 117; 100; 101; 123; 47; 102] ++ [125; 10]). rewrite run_app.
  replace (run _ _ _ _ _ _ _) with (Ok (Some (Scn (LU RInc E0) (KMain false) (CH []) None [] (Some [47; 102])))) by (destruct ent_first; vm_compute; reflexivity).
  cbn [rbind run]. assert (L : leaving ent_first (fun _ => false) (fun _ p => Some [p]) load (Some [47; 102]) false RInc 125 (Scn (LU RInc E0) (KMain false) (CH []) None [] (Some [47; 102])) = UB).
  { unfold leaving. change (syn _ _ 125) with (Some (AGo (PItem true))). cbn [starts_str]. rewrite andb_false_r. unfold leave. cbn [s_tok take]. unfold include.
    replace (inc_files _ _ _ _) with (Some [[47; 102]]) by reflexivity. cbn [negb merging set_tok s_cont s_key andb include_files]. unfold include_file. rewrite H. reflexivity. }
  change (step ent_first (fun _ => false) (fun _ p => Some [p]) load (Some [47; 102]) 125 _) with (leaving ent_first (fun _ => false) (fun _ p => Some [p]) load (Some [47; 102]) false RInc 125 (Scn (LU RInc E0) (KMain false) (CH []) None [] (Some [47; 102]))). now rewrite L.
Qed.
Theorem C56_include_depth_is_bounded_refuted ent_first :
  ~ (forall isdir glob fs f, exists n, scan_file ent_first isdir glob fs n f <> UB).
Proof.
  intros H. destruct (H (fun _ => false) (fun _ p => Some [p]) (fun _ => Some self_text) [47; 102]) as (n & E). apply E. clear.
  induction n as [|n IH]; [reflexivity|]. cbn [scan_file]. now apply self_step.
Qed.
Print Assumptions C56_include_depth_is_bounded_refuted.

(** A key whose value is an include of an empty directory is lost, and the
    next include without a key is stored under it: [a=$include{/d}] followed by
    [$include{/e}], where [/e] holds [x=y], is read as [a={x=y}]. *)
Definition stale_text : bytes :=
  [97; 61; 36; 105; 110; 99; 108; 117; 100; 101; 123; 47; 100; 125; 10;
   36; 105; 110; 99; 108; 117; 100; 101; 123; 47; 101; 125; 10].
Definition stale_fs (f : bytes) : option bytes :=
  if CompModel.bytes_eqb f [47; 101] then Some [120; 61; 121] else Some stale_text.
Definition stale_glob (nocheck : bool) (p : bytes) : option (list bytes) := if nocheck then Some [p] else Some [].
Definition stale_dir (p : bytes) : bool := CompModel.bytes_eqb p [47; 100].
Theorem C56_included_entries_stay_in_their_hash_refuted ent_first :
  exists isdir glob fs f raw key, fs [47; 101] = Some [120; 61; 121] /\
    text_of (negb ent_first) stale_text (NHash [(Some key, NInc raw); (None, NInc [47; 101])]) /\
    fs f = Some stale_text /\
    scan_file ent_first isdir glob fs 2 f = Ok (Some (VH [(key, VH [([120], VS [121] [121])])])).
Proof.
  exists stale_dir, stale_glob, stale_fs, [47; 102], [47; 100], [97]. split; [reflexivity|]. split; [|split; [reflexivity|destruct ent_first; vm_compute; reflexivity]].
  assert (Pl : forall c, v_chr c = true -> plain c) by (intros c; apply v_chr_spec).
  assert (S1 : forall c d, v_chr c = true -> v_chr d = true -> c <> 36 -> str_text [c; d] [c; d] AfterUnquoted).
  { intros c d Hc Hd N. apply st_unquoted; [|discriminate|exact N]. apply es_char; [now apply Pl|]. apply es_char; [now apply Pl|constructor]. }
  exists [TStr [97]; TEq; TInc [47; 100]; TInc [47; 101]], Free. split.
  - change stale_text with ((((([] ++ [97]) ++ [61]) ++ ([36; 105; 110; 99; 108; 117; 100; 101; 123] ++ [] ++ [47; 100] ++ [] ++ [125])) ++ [10]) ++ ([36; 105; 110; 99; 108; 117; 100; 101; 123] ++ [] ++ [47; 101] ++ [] ++ [125]) ++ [10]).
    rewrite app_assoc. apply sp_blank with Free; [|apply blank1; cbn; auto|discriminate].
    refine (sp_tok _ [TStr [97]; TEq; TInc [47; 100]] _ Free (TInc [47; 101]) _ _ _ _ Logic.I); [|eapply tt_inc; [now apply S1|constructor|constructor]].
    apply sp_blank with Free; [|apply blank1; cbn; auto|discriminate].
    refine (sp_tok _ [TStr [97]; TEq] _ AfterEq (TInc [47; 100]) _ _ _ _ _); [|eapply tt_inc; [now apply S1|constructor|constructor]|discriminate].
    refine (sp_tok _ [TStr [97]] _ AfterUnquoted TEq _ _ _ tt_eq _); [|split; [|split; [discriminate|discriminate]]; cbn; intros X; apply X; cbn; auto 20].
    refine (sp_tok _ [] _ Free (TStr [97]) _ _ (sp_nil _) _ Logic.I). constructor. apply st_unquoted; [|discriminate|discriminate]. apply es_char; [now apply Pl|constructor].
  - apply do_hash. apply (en_inc [TStr [97]; TEq; TInc [47; 100]] [(Some [97], NInc [47; 100])] [47; 101] []); [|now left].
    apply (en_key [] [] [97] [TInc [47; 100]] (NInc [47; 100]) []); [constructor|constructor|now left].
Qed.
Print Assumptions C56_included_entries_stay_in_their_hash_refuted.

(** If Ragel puts the action of the second string first, the array [[a"b"]]
    brings the process down; otherwise it has two elements. *)
Theorem C56_touching_strings_are_read_refuted isdir glob load fn :
  scan_buf true isdir glob load fn [91; 97; 34; 98; 34; 93] = UB /\
  scan_buf false isdir glob load fn [91; 97; 34; 98; 34; 93] = Ok (Some (VA [VS [97] [97]; VS [98] [98]])).
Proof. split; reflexivity. Qed.
Print Assumptions C56_touching_strings_are_read_refuted.

(** The name of an included file is not unescaped, although the manual says so:
    [$include{/f}] and [$include{\/f}] name different files. *)
Theorem C56_include_names_are_unescaped_refuted :
  exists f raw1 raw2 d, unescaped raw1 d /\ unescaped raw2 d /\ inc_path (Some f) raw1 <> inc_path (Some f) raw2.
Proof.
  exists [47; 109], [47; 102], [92; 47; 102], [47; 102]. split; [repeat (apply ue_char; [discriminate|]); constructor|]. split; [|vm_compute; discriminate].
  apply ue_esc; [unfold is_digit; lia|]. apply ue_char; [discriminate|constructor].
Qed.
Print Assumptions C56_include_names_are_unescaped_refuted.

(** Witnesses. *)
Example C56_witness :
  (* opts = { listen => [ 127.0.0.1, "a b\032c" ] ; comment / $include{sub} } with sub holding x=y *)
  let main := [111; 112; 116; 115; 32; 61; 32; 123; 32; 108; 61; 62; 91; 49; 44; 34; 97; 32; 92; 48; 51; 50; 34; 93; 59; 99; 10; 36; 105; 110; 99; 108; 117; 100; 101; 123; 115; 125; 125] in
  scan_file true (fun _ => false) (fun _ p => Some [p]) (fun f => if CompModel.bytes_eqb f [47; 115] then Some [120; 61; 121] else Some main) 2 [47; 109] =
    Ok (Some (VH [([111; 112; 116; 115], VH [([108], VA [VS [49] [49]; VS [97; 32; 92; 48; 51; 50] [97; 32; 32]]); ([120], VS [121] [121])])])).
Proof. vm_compute. reflexivity. Qed.
(** The hypothesis of the completeness part can be met ... *)
Example C56_witness_reads : reads true (fun _ => false) (fun _ p => Some [p]) (fun _ => Some [97; 61; 98]) 1 [47; 109] (VH [([97], VS [98] [98])]).
Proof.
  exists [97; 61; 98], (NHash [(Some [97], NStr [98])]). split; [reflexivity|]. split.
  - exists [TStr [97]; TEq; TStr [98]], AfterUnquoted. split.
    + refine (sp_tok _ [TStr [97]; TEq] [97; 61] AfterEq (TStr [98]) [98] _ _ _ _); [|constructor; apply st_unquoted; [apply es_char; [now apply v_chr_spec|constructor]|discriminate|discriminate]|discriminate].
      refine (sp_tok _ [TStr [97]] [97] AfterUnquoted TEq _ _ _ tt_eq _); [|split; [|split; [discriminate|discriminate]]; cbn; intros X; apply X; cbn; auto 20].
      refine (sp_tok _ [] [] Free (TStr [97]) _ _ (sp_nil _) _ Logic.I). constructor. apply st_unquoted; [|discriminate|discriminate]. apply es_char; [now apply v_chr_spec|constructor].
    + apply do_hash. apply (en_key [] [] [97] [TStr [98]] (NStr [98]) []); [constructor|constructor|now left].
  - constructor. apply (hm_key _ [] [] [97] [97] (NStr [98]) (VS [98] [98])); [constructor| |constructor|easy]; (apply ue_char; [discriminate|constructor]).
Qed.
(** ... and so can the one on nesting: a file without includes has no chain of length 1 ... *)
Example C56_witness_no_chain g : ~ included true (fun _ => false) (fun _ p => Some [p]) (fun _ => Some [97; 61; 98]) 1 [47; 109] g.
Proof.
  intros (h & (t & raw & l & F & (ts & u & e & w & x & e' & r & E & _) & _) & _). injection F as <-.
  assert (I : In 36 [97; 61; 98]) by (rewrite E, in_app_iff; cbn; auto). cbn in I. intuition discriminate.
Qed.
(** ... and the one on data that can be written. *)
Example C56_witness_writable : proper (VH [([0; 34], VA [VS [] []; VH []]); ([], VS [] [92; 255])]).
Proof. repeat constructor; cbn; try (intuition discriminate); unfold is_byte; try lia. Qed.
