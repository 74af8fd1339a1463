(** The scanner of configuration files: files and the files they include. *)
From Verif Require Import Base DnameSpec DnameModel DnameProofs CompModel CompProofs VscfModel VscfSpec VscfProofs VscfProofs2 VscfProofs3 VscfProofs4 VscfProofs5 VscfProofs6 VscfProofs7.
Local Open Scope N_scope.
Local Arguments N.eqb : simpl never.
Local Arguments N.leb : simpl never.

(** ** Names of included files *)
Lemma cstr_spec t p : cstr t = p <-> c_string t p.
Proof.
  split.
  - intros <-. induction t as [|c t IH]; cbn [cstr]; [split; [easy|now left]|]. destruct (N.eqb_spec c 0) as [->|Nz].
    + split; [easy|]. right. now exists t.
    + destruct IH as (Ni & H). split; [intros [X|X]; [congruence|contradiction]|]. destruct H as [H|(r & H)]; [left; now rewrite <- H|right; exists r; cbn; now rewrite <- H].
  - revert p. induction t as [|c t IH]; intros p (Ni & H); cbn [cstr].
    + destruct H as [H|(r & H)]; [assumption|destruct p; discriminate].
    + destruct (N.eqb_spec c 0) as [->|Nz].
      * destruct p as [|x p]; [reflexivity|]. exfalso. apply Ni. left. destruct H as [H|(r & H)]; injection H; auto.
      * destruct p as [|x p]; [exfalso; destruct H as [H|(r & H)]; [discriminate|injection H; auto]|].
        assert (c = x) as -> by (destruct H as [H|(r & H)]; now injection H). f_equal. apply IH. split; [intros X; apply Ni; now right|].
        destruct H as [H|(r & H)]; [left; now injection H|right; exists r; now injection H].
Qed.
Lemma up_to_slash_none r : ~ In 47 r -> up_to_slash r = [].
Proof. induction r as [|c r IH]; intros H; [reflexivity|]. cbn [up_to_slash]. rewrite IH by (intros X; apply H; now right). destruct (N.eqb_spec c 47) as [->|]; [exfalso; apply H; now left|reflexivity]. Qed.
Lemma up_to_slash_nil r : up_to_slash r = [] -> ~ In 47 r.
Proof.
  induction r as [|c r IH]; intros E; [easy|]. cbn [up_to_slash] in E. destruct (up_to_slash r) eqn:U; [|discriminate]. destruct (N.eqb_spec c 47); [discriminate|]. intros [X|X]; [congruence|now apply IH].
Qed.
Lemma up_to_slash_ex f : exists r, f = up_to_slash f ++ r /\ ~ In 47 r /\ (up_to_slash f = [] \/ last (up_to_slash f) 0 = 47).
Proof.
  induction f as [|c f IH]; [exists []; cbn; auto|]. destruct IH as (r & E & Ni & L). cbn [up_to_slash].
  destruct (up_to_slash f) as [|x u] eqn:U.
  - destruct (N.eqb_spec c 47) as [->|Nc]; [exists f; repeat split; auto; now apply up_to_slash_nil|]. exists (c :: f). repeat split; auto. intros [X|X]; [congruence|]. now apply (up_to_slash_nil _ U).
  - exists r. split; [cbn in E |- *; now rewrite E|]. split; [assumption|]. right. destruct L as [L|L]; [discriminate|]. exact L.
Qed.
Lemma up_to_slash_unique f d r : f = d ++ r -> ~ In 47 r -> d = [] \/ last d 0 = 47 -> up_to_slash f = d.
Proof.
  intros -> Ni H. induction d as [|c d IH]; cbn [app up_to_slash]; [now apply up_to_slash_none|].
  destruct H as [H|H]; [discriminate|]. destruct d as [|x d].
  - rewrite IH by now left. cbn in H. subst c. reflexivity.
  - rewrite IH by (right; exact H). reflexivity.
Qed.
Lemma inc_path_abs fn t : inc_path fn (47 :: t) = Some (cstr (47 :: t)).
Proof. reflexivity. Qed.
Lemma inc_path_rel f t : hd 0 t <> 47 -> inc_path (Some f) t = Some (cstr (up_to_slash f ++ t)).
Proof.
  destruct t as [|c t]; [reflexivity|]. cbn [hd]. intros H. unfold inc_path.
  destruct c as [|p]; [reflexivity|]. do 6 (destruct p as [p|p|]; try reflexivity). congruence.
Qed.
Lemma inc_path_named f raw p : inc_path (Some f) raw = Some p <-> named f raw p.
Proof.
  destruct (N.eq_dec (hd 0 raw) 47) as [E|E].
  - destruct raw as [|c t]; [discriminate|]. cbn in E. subst c. rewrite inc_path_abs. split.
    + intros X. injection X as <-. constructor. now apply cstr_spec.
    + intros H. inversion H as [t0 p0 C|t0 p0 d r Hd]; subst; [|cbn in Hd; congruence]. apply cstr_spec in C. now rewrite C.
  - rewrite (inc_path_rel _ _ E). split.
    + intros X. injection X as <-. destruct (up_to_slash_ex f) as (r & Ef & Ni & L). eapply na_rel; eauto. now apply cstr_spec.
    + intros H. inversion H as [t0 p0 C|t0 p0 d r Hd Ef Ni L C]; subst; [cbn in E; congruence|]. apply cstr_spec in C. now rewrite (up_to_slash_unique _ _ _ eq_refl Ni L), C.
Qed.
Lemma inc_files_spec isdir glob f raw l : inc_files isdir glob (Some f) raw = Some l <-> stands_for isdir glob f raw l.
Proof.
  unfold stands_for. split.
  - unfold inc_files. destruct (inc_path (Some f) raw) as [p|] eqn:P; [|discriminate]. apply inc_path_named in P. intros E. exists p. split; [assumption|].
    destruct (isdir p) eqn:D; [|now apply fo_pat]. destruct p as [|x p]; [apply fo_dir with []; auto|]. cbn [length Nat.ltb Nat.leb andb] in E.
    destruct (N.eqb_spec (last (x :: p) 0) 47) as [Z|Z]; cbn [negb] in E; [apply fo_dir with []; auto|apply fo_dir with [47]; auto]. right. repeat split; auto. discriminate.
  - intros (p & P & F). apply inc_path_named in P. unfold inc_files. rewrite P. destruct F as [s l D H G|l D G]; rewrite D; [|assumption].
    destruct H as [(-> & [->|L])|(-> & Np & L)]; [exact G| |].
    + destruct p as [|x p]; [discriminate|]. cbn [length Nat.ltb Nat.leb andb]. rewrite L. exact G.
    + destruct p as [|x p]; [congruence|]. cbn [length Nat.ltb Nat.leb andb]. apply N.eqb_neq in L. rewrite L. exact G.
Qed.

(** ** Meaning with other files *)
Scheme means_mind := Minimality for means Sort Prop
  with all_mean_mind := Minimality for all_mean Sort Prop
  with hash_means_mind := Minimality for hash_means Sort Prop.
Combined Scheme means_mutind from means_mind, all_mean_mind, hash_means_mind.

Lemma means_or (d1 d2 : bytes -> list vnode -> Prop) (B : bytes -> Prop) : (forall raw ds, d1 raw ds -> d2 raw ds \/ B raw) ->
  (forall n v, means d1 n v -> means d2 n v \/ mentions B n) /\
  (forall l vs, all_mean d1 l vs -> all_mean d2 l vs \/ exists n, In n l /\ mentions B n) /\
  (forall l es, hash_means d1 l es -> hash_means d2 l es \/ exists k n, In (k, n) l /\ mentions B n).
Proof.
  intros H. apply means_mutind.
  - left. now constructor.
  - intros l vs _ [M|(n & I & M)]; [left; now constructor|right]. eapply mn_arr; eauto.
  - intros l es _ [M|(k & n & I & M)]; [left; now constructor|right]. eapply mn_hash; eauto.
  - intros raw d D. destruct (H _ _ D); [left; now constructor|right; now constructor].
  - left. constructor.
  - intros l vs n v _ [M|(x & I & M)] _ [N|N].
    + left. now constructor.
    + right. exists n. rewrite in_app_iff. cbn. auto.
    + right. exists x. rewrite in_app_iff. auto.
    + right. exists x. rewrite in_app_iff. auto.
  - left. constructor.
  - intros l es k key n v _ [M|(x & y & I & M)] U _ [N|N] Ni.
    + left. now constructor.
    + right. exists (Some k), n. rewrite in_app_iff. cbn. auto.
    + right. exists x, y. rewrite in_app_iff. auto.
    + right. exists x, y. rewrite in_app_iff. auto.
  - intros l es raw hs es' _ [M|(x & y & I & M)] D A.
    + destruct (H _ _ D) as [D'|Bd]; [left; eapply hm_inc; eauto|]. right. exists None, (NInc raw). rewrite in_app_iff. split; [cbn; auto|now constructor].
    + right. exists x, y. rewrite in_app_iff. auto.
Qed.
Lemma mentions_false n : ~ mentions (fun _ => False) n.
Proof. intros H. induction H; auto. Qed.
Lemma means_mono (d1 d2 : bytes -> list vnode -> Prop) n v : (forall raw ds, d1 raw ds -> d2 raw ds) -> means d1 n v -> means d2 n v.
Proof. intros H M. destruct (means_or d1 d2 (fun _ => False)) as (X & _); [auto|]. destruct (X _ _ M) as [|F]; [assumption|]. now apply mentions_false in F. Qed.
Lemma lost_mono (d1 d2 : bytes -> list vnode -> Prop) n : (forall raw, d1 raw [] -> d2 raw []) -> lost d1 n -> lost d2 n.
Proof. intros H M. induction M; [constructor; auto|eapply lo_arr; eauto|eapply lo_hash; eauto]. Qed.

Section Files.
Variable ent_first : bool.
Variable isdir : bytes -> bool.
Variable glob : bool -> bytes -> option (list bytes).
Variable fs : bytes -> option bytes.
Notation scan_file := (scan_file ent_first isdir glob fs).
Notation reads := (reads (negb ent_first) isdir glob fs).
Notation hollow := (hollow (negb ent_first) isdir glob fs).
Notation stands_for := (stands_for isdir glob).
Notation included := (included (negb ent_first) isdir glob fs).

Theorem file_complete n : forall f v, reads n f v -> scan_file n f = Ok (Some v).
Proof.
  induction n as [|n IH]; intros f v H; [contradiction|]. destruct H as (t & a & F & T & M). cbn [VscfModel.scan_file]. rewrite F.
  eapply scan_complete; [exact T|]. eapply means_mono; [|exact M]. intros raw ds (l & S & Fa). exists l. split; [now apply inc_files_spec|].
  clear - Fa IH. induction Fa; constructor; auto.
Qed.
Theorem file_sound n : forall f v, scan_file n f = Ok (Some v) -> reads n f v \/ hollow n f.
Proof.
  induction n as [|n IH]; intros f v E; cbn [VscfModel.scan_file] in E; [discriminate|]. destruct (fs f) as [t|] eqn:F; [|discriminate].
  destruct (scan_sound _ _ _ _ _ _ _ E) as (a & T & [M|L]).
  - destruct (means_or (docs isdir glob (scan_file n) (Some f)) (fun raw ds => exists l, stands_for f raw l /\ Forall2 (reads n) l ds) (fun raw => exists l g, stands_for f raw l /\ In g l /\ hollow n g)) as (X & _).
    + intros raw ds (l & S & Fa). apply inc_files_spec in S.
      assert (Y : Forall2 (reads n) l ds \/ exists g, In g l /\ hollow n g).
      { clear - Fa IH. induction Fa as [|g d l ds Hd Fa IHf]; [left; constructor|]. destruct (IH _ _ Hd) as [R|H]; [|right; exists g; cbn; auto]. destruct IHf as [IHf|(g' & I & H)]; [left; now constructor|right; exists g'; cbn; auto]. }
      destruct Y as [Y|(g & I & H)]; [left; eauto|right; exists l, g; auto].
    + destruct (X _ _ M) as [M'|Mn]; [left; exists t, a; auto|right; exists t, a; auto].
  - right. exists t, a. split; [assumption|]. split; [assumption|]. left. eapply lost_mono; [|exact L]. intros raw (l & S & Fa). inversion Fa; subst. apply inc_files_spec in S. auto.
Qed.
Lemma file_not_string n f r v : scan_file n f <> Ok (Some (VS r v)).
Proof. destruct n; cbn; [discriminate|]. destruct (fs f); [apply scan_not_string|discriminate]. Qed.
Theorem file_ub n : forall f, scan_file n f = UB ->
  (exists g, included n f g) \/ (ent_first = true /\ exists m g t, included m f g /\ fs g = Some t /\ strings_touch t).
Proof.
  induction n as [|n IH]; intros f E; [left; exists f; reflexivity|]. cbn [VscfModel.scan_file] in E. destruct (fs f) as [t|] eqn:F; [|discriminate].
  apply scan_ub in E as [(raw & Hi & (l & g & S & I & Ld))|(EF & St)].
  - destruct Ld as [Ld|(r & v & Ld)]; [|now apply file_not_string in Ld]. apply inc_files_spec in S.
    assert (Inc : includes (negb ent_first) isdir glob fs f g) by (exists t, raw, l; auto).
    destruct (IH _ Ld) as [(h & H)|(EF & m & h & u & H & Fu & St)].
    + left. exists h, g. auto.
    + right. split; [assumption|]. exists (Datatypes.S m), h, u. split; [exists g; auto|auto].
  - right. split; [assumption|]. exists 0%nat, f, t. cbn. auto.
Qed.
End Files.
