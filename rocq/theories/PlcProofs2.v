(** Plugins one by one *)
From Coq Require Import String ZArith Permutation.
From Verif Require Import Base DnameModel DnameSpec DnameProofs CompModel CompProofs RespModel MonModel VscfModel VscfSpec OptModel VhashModel VhashSpec VhashProofs2 PlugModel MsgModel MsgProofs2 MsgProofs3 RespProofs5 ZdirProofs3 LtreeModel PconfModel PconfSpec PconfProofs PconfProofs2 PconfProofs3 PconfProofs4 PconfProofs5 PconfProofs6 PconfProofs7 McfModel McfSpec McfProofs McfProofs2 McfProofs3 McfProofs5 PlcModel PlcSpec PlcProofs.
Local Open Scope nat_scope.
Local Open Scope list_scope.
Local Notation length := List.length.
Ltac Zify.zify_post_hook ::= idtac.

(** ** The results stay *)
Lemma families_later {W S} (R R' : W -> S -> Prop) ws rs : (forall w x, R w x -> R' w x) -> Forall2 (families R) ws rs -> Forall2 (families R') ws rs.
Proof. intros H F. induction F as [|a b l l' (X & Y & Z) F IH]; constructor; [|exact IH]. split; [exact X|]. split; (eapply maybe_mono; [exact H|assumption]). Qed.
Lemma what_made_later s s' w x : later s s' -> what_made s w x -> what_made s' w x.
Proof.
  intros L. destruct w as [c|a4 a6], x as [y|y4 y6]; cbn; try tauto; [now apply c_made_later|]. intros (A & B). split; (eapply maybe_mono; [|eassumption]); intros ? ?; now apply w_made_later.
Qed.
Lemma roomy_later' {W} s s' (f : W -> nat) o : later s s' -> roomy s f o -> roomy s' f o.
Proof. intros (_ & A & B) (X & Y). split; intros w E; [specialize (X w E)|specialize (Y w E)]; lia. Qed.
Lemma piece_later s s' w x : later s s' -> piece_made s w x -> piece_made s' w x.
Proof.
  intros L. pose proof L as (_ & L4 & L6). destruct w, x; cbn; try tauto.
  - intros (A & B). split; [eapply families_later; [|exact A]; intros; eapply m_made_later; eauto|]. eapply Forall_impl; [|exact B]. intros a. now apply roomy_later'.
  - intros (A & B). split; [eapply families_later; [|exact A]; intros; eapply s_made_later; eauto|]. intros N. specialize (B N). lia.
  - intros (A & B). split; [|eapply Forall_impl; [|exact B]; intros a; now apply roomy_later']. clear -A L. induction A as [|a b l l' (X & Y) A IH]; constructor; [|exact IH]. split; [exact X|eapply what_made_later; eauto].
  - intros (A & B). split; [exact A|]. intros N. specialize (B N). lia.
  - lia.
Qed.
Lemma admin_states_later s s' maps states : later s s' -> states_made s maps states -> states_made s' maps states.
Proof. intros L (E & F). split; [exact E|]. eapply Forall_impl; [|exact F]. intros a F1. eapply Forall_impl; [|exact F1]. intros ? HH; exact (admin_later _ _ _ L HH). Qed.
Lemma metas_later k gdmaps s s' h ws x : later s s' -> metas_made gdmaps k s h ws x -> metas_made gdmaps k s' h ws x.
Proof.
  intros L (rs & states & E & (h' & maps & E1 & E2 & E3) & F & N). exists rs, states. split; [exact E|]. split; [exists h', maps; split; [exact E1|]; split; [exact E2|now apply (admin_states_later s)]|]. split; [|exact N].
  clear -F L. induction F; constructor; [eapply mc_made_later; eauto|assumption].
Qed.

Section Pieces.
  Variable gai : bytes -> option addr.
  Variable strtod : bytes -> option dbl.
  Variable service : bytes -> option (bool * bool).
  Variable fq_name : bytes -> option name.
  Hypothesis fq_name_is : forall t ls, all_bytes t -> (fq_name t = Some ls <-> name_text t ls true /\ legal_name ls).
  Variable junk : bytes.
  Hypothesis junk_len : length junk = 256.
  Variable gdmaps : tab -> option (list (bytes * list bytes)).
  Local Notation gives := (gives service).

  Lemma static_res_gives s0 n x : raw_bytes x ->
    gives s0 (st_config_res gai junk (n, fresh x))
      (match x with VS r v => let? w <- match gai (c_str v) with Some a => Some (StAddr a) | None => let? d <- fq_name r ; Some (StName d) end ; Some (c_str n, w) | _ => None end)
      (fun _ y z => y = z).
  Proof.
    intros RB. destruct x as [r v|l|h]; cbn [st_config_res fst snd fresh]; try apply gives_fatal. destruct (gai (c_str v)) as [a|]; [now apply gives_ret|]. cbn [obind].
    assert (AB : all_bytes r) by (inversion RB; assumption).
    destruct (from_string_total junk r junk_len AB) as (st & out & E & LO & SO & CO). eapply gives_lift; [exact E|]. cbn beta.
    destruct (status_eqb st DNAME_VALID) eqn:SE.
    - assert (SV : st = DNAME_VALID) by (destruct st; [reflexivity|discriminate|discriminate]). subst st. destruct SO as (ls & rest & TX & LL & EO); [discriminate|].
      cbn in TX, EO. rewrite (proj2 (fq_name_is r ls AB) (conj TX LL)). cbn [obind]. destruct (dup_ok ls rest) as (R1 & R2). rewrite EO.
      eapply gives_lift; [exact R1|]. cbn beta. eapply gives_lift; [rewrite Nat2N.id; exact R2|]. cbn beta. apply gives_ret. intros s1 L1.
      rewrite dname_tl. rewrite labels_of_wn; [reflexivity|apply LL|]. pose proof (legal_count _ (proj1 LL)) as X. destruct LL as (_ & LL). lia.
    - replace (fq_name r) with (@None name). { destruct st; [discriminate|apply gives_fatal|apply gives_fatal]. }
      symmetry. destruct (fq_name r) as [ls|] eqn:EF; [|reflexivity]. apply fq_name_is in EF; [|exact AB]. destruct EF as (TX & LL). destruct (CO ls true TX LL) as (-> & _). discriminate.
  Qed.
  Lemma static_gives s0 h : raw_bytes (VH h) ->
    gives s0 (static_load gai junk (Some (fresh (VH h)))) (static_says gai fq_name h) (fun s rs ws => rs = ws /\ (rs <> [] -> 1 <= lim4 s /\ 1 <= lim6 s)%N).
  Proof.
    intros RB. change (fresh (VH h)) with (TH (ftab h)). unfold static_load. destruct h as [|e h]; [apply gives_ret; intros s L; split; [reflexivity|congruence]|]. cbn [ftab map]. fold (ftab (e :: h)).
    change ((fst e, false, fresh (snd e)) :: map (fun e => (fst e, false, fresh (snd e))) h) with (ftab (e :: h)). rewrite <- (mtab_nil (e :: h)), entries_mtab.
    apply gives_eq with (o := obind (static_says gai fq_name (e :: h)) (fun ws => obind (obind (need true) (fun _ => Some tt)) (fun _ => Some ws))). { destruct (static_says gai fq_name (e :: h)); reflexivity. }
    eapply gives_bind.
    - unfold static_says. apply gives_mapm with (P := fun a b => a = (fst b, fresh (snd b)) /\ In b (e :: h)) (R := fun _ y z => y = z).
      + intros ? ? ? ? _ E. exact E.
      + assert (X : forall l m : hash, incl l m -> Forall2 (fun a b => a = (fst b, fresh (snd b)) /\ In b m) (map (fun e => (fst e, fresh (snd e))) l) l).
        { intros l m. induction l as [|x l IH]; intros I; constructor; [split; [reflexivity|apply I; cbn; auto]|]. apply IH. intros y J. apply I. cbn. auto. }
        apply X, incl_refl.
      + intros s1 a (n, x) L1 (-> & I). cbn [fst snd]. apply static_res_gives. inversion RB as [| |? F]; subst. rewrite Forall_forall in F. apply (F _ I).
    - cbv beta. intros s1 rs ws L1 F. assert (EQ : rs = ws) by (clear -F; induction F; congruence). subst ws.
      eapply gives_bind; [apply (dyn_addr_max_gives service s1 1 1 tt true (fun s _ _ => 1 <= lim4 s /\ 1 <= lim6 s)%N); [reflexivity|auto]|].
      intros s2 [] [] L2 (A & B). apply gives_ret. intros s3 (_ & L4 & L6). split; [reflexivity|]. intros _. lia.
  Qed.
  Lemma extmon_gives s0 h : gives s0 (extmon_load (Some (fresh (VH h)))) (extmon_says h) (fun _ y z => y = z).
  Proof.
    change (fresh (VH h)) with (TH (ftab h)). unfold extmon_load, extmon_says. rewrite <- (mtab_nil h). eapply gives_bind with (R := fun _ a b => a = b).
    { rewrite value_mtab. destruct (get (txt "helper_path") h) as [[r v|l|x]|]; cbn [option_map fresh]; try apply gives_fatal; now apply gives_ret. }
    cbv beta. intros s1 a b L1 ->. cbv zeta. rewrite !mark_mtab, value_mtab, unmarked_mtab. eapply gives_bind with (R := fun _ a b => a = b).
    { destruct (get (txt "helper_failure_action") h) as [[r v|l|x]|]; cbn [option_map fresh]; try apply gives_fatal; [|now apply gives_ret]. destruct (bytes_eqb (c_str v) (txt "stasis")); [now apply gives_ret|]. destruct (bytes_eqb (c_str v) (txt "kill_daemon")); [now apply gives_ret|apply gives_fatal]. }
    cbv beta. intros s2 c d L2 ->.
    assert (X : match map (fun e => (fst e, fresh (snd e))) (others [txt "helper_failure_action"; txt "helper_path"] h) with [] => true | _ :: _ => false end = only_b [txt "helper_path"; txt "helper_failure_action"] h).
    { unfold only_b. replace (others [txt "helper_path"; txt "helper_failure_action"] h) with (others [txt "helper_failure_action"; txt "helper_path"] h); [destruct (others _ h); reflexivity|]. apply filter_ext. intros e. unfold among. cbn [existsb]. f_equal. rewrite !orb_false_r. apply orb_comm. }
    rewrite X. apply gives_check. intros _. now apply gives_ret.
  Qed.
  Lemma room_gives s0 n : (n <= 360)%N -> gives s0 (dyn_addr_max n n) (Some tt) (fun s _ _ => n <= lim4 s /\ n <= lim6 s)%N.
  Proof.
    intros L. apply gives_eq with (o := obind (need true) (fun _ => Some tt)); [reflexivity|]. apply dyn_addr_max_gives; [|auto]. symmetry. apply negb_true_iff, orb_false_iff. split; now apply N.ltb_ge.
  Qed.

  (** One plugin, with a configuration *)
  Definition conf_piece (p : bytes) (h : hash) : option piece_want :=
    let is (s : bytes) := bytes_eqb p s in
    if is (txt "multifo") then option_map WMulti (multifo_says gai strtod service h)
    else if is (txt "simplefo") then option_map WSimple (simplefo_says gai service h)
    else if is (txt "weighted") then option_map WWeighted (weighted_says gai strtod service fq_name h)
    else if is (txt "static") then option_map WStatic (static_says gai fq_name h)
    else if is (txt "extmon") then option_map (fun x => WExtmon (fst x) (snd x)) (extmon_says h)
    else if is (txt "null") then Some (WRoom 1) else Some (WRoom 2).
  Lemma alone_gives {A B} s0 (m : cm A) (o : option B) (R : state -> A -> B -> Prop) (f : A -> piece) (g : B -> piece_want) (tops : tab) :
    gives s0 m o R -> (forall s a b, R s a b -> piece_made s (g b) (f a)) -> (forall s s' a b, later s s' -> R s a b -> R s' a b) ->
    gives s0 (let* x <- m ; ret (f x, tops)) (option_map g o) (fun s y w => piece_made s w (fst y) /\ snd y = tops).
  Proof.
    intros G H M. apply gives_eq with (o := obind o (fun b => Some (g b))); [destruct o; reflexivity|]. eapply gives_bind; [exact G|]. intros s1 a b L1 R1. apply gives_ret. intros s2 L2. cbn [fst snd]. split; [|reflexivity]. apply H. eapply M; eauto.
  Qed.
  Lemma one_gives s0 p h tops : whole strtod h -> (p = t_multifo -> sized (VH h)) -> p <> txt "geoip" -> p <> txt "metafo" ->
    gives s0 (load_one gai strtod service junk gdmaps p (Some (fresh (VH h))) tops) (conf_piece p h) (fun s y w => piece_made s w (fst y) /\ snd y = tops).
  Proof.
    intros W SZ N1 N2. unfold load_one, conf_piece. cbv beta zeta. rewrite (eqb_false p (txt "geoip") N1), (eqb_false p (txt "metafo") N2).
    destruct (bytes_eqb p (txt "multifo")) eqn:B1.
    { apply bytes_eqb_spec in B1. eapply alone_gives; [apply multifo_gives; [now apply whole_nan|now apply whole_distinct with strtod|now apply SZ]|intros s a b X; exact X|]. cbv beta. intros s s' a b L (X & Y). apply (piece_later s s' (WMulti b) (PMulti a) L). split; assumption. }
    destruct (bytes_eqb p (txt "simplefo")) eqn:B2.
    { eapply alone_gives; [apply simplefo_gives; now apply whole_distinct with strtod|intros s a b X; exact X|]. cbv beta. intros s s' a b L X. exact (piece_later s s' (WSimple b) (PSimple a) L X). }
    destruct (bytes_eqb p (txt "weighted")) eqn:B3.
    { eapply alone_gives; [apply weighted_gives; [exact fq_name_is|exact junk_len|now apply whole_nan|now apply whole_distinct with strtod|now apply whole_labels with strtod|now apply whole_bytes with strtod]|intros s a b X; exact X|]. cbv beta. intros s s' a b L X. exact (piece_later s s' (WWeighted b) (PWeighted a) L X). }
    destruct (bytes_eqb p (txt "static")) eqn:B4.
    { eapply alone_gives; [apply static_gives; now apply whole_bytes with strtod|intros s a b X; exact X|]. cbv beta. intros s s' a b L X. exact (piece_later s s' (WStatic b) (PStatic a) L X). }
    destruct (bytes_eqb p (txt "extmon")) eqn:B5.
    { eapply alone_gives; [apply extmon_gives|cbn; intros s a b ->; auto|auto]. }
    destruct (bytes_eqb p (txt "null")) eqn:B6.
    { apply gives_eq with (o := option_map (fun _ => WRoom 1) (Some tt)); [reflexivity|]. eapply alone_gives; [apply (room_gives s0 1); discriminate|cbn; auto|]. cbv beta. intros s s' a b (_ & L4 & L6). lia. }
    apply gives_eq with (o := option_map (fun _ => WRoom 2) (Some tt)); [reflexivity|]. eapply alone_gives; [apply (room_gives s0 2); discriminate|cbn; auto|]. cbv beta. intros s s' a b (_ & L4 & L6). lia.
  Qed.
  (** A plugin that is used for a service type, without one *)
  Definition bare_piece (p : bytes) : option piece_want :=
    let is (s : bytes) := bytes_eqb p s in
    if is (txt "static") then None else if is (txt "null") then Some (WRoom 1) else Some (WExtmon None false).
  Lemma bare_gives s0 p : In p [txt "static"; txt "null"; txt "extmon"] ->
    gives s0 (load_one gai strtod service junk gdmaps p None []) (bare_piece p) (fun s y w => piece_made s w (fst y)).
  Proof.
    intros [<-|[<-|[<-|[]]]]; unfold load_one, bare_piece; cbn -[dyn_addr_max piece_made].
    - intros s L S. reflexivity.
    - apply gives_eq with (o := obind (Some tt) (fun _ => Some (WRoom 1))); [reflexivity|]. eapply gives_bind; [apply (room_gives s0 1); discriminate|]. cbv beta. intros s1 _ _ L1 X. apply gives_ret. intros s2 (_ & L4 & L6). cbn. lia.
    - apply gives_ret. intros s1 L1. cbn. auto.
  Qed.
End Pieces.
