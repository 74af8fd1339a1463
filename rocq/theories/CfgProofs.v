(** Proofs about the global options: addresses, listening, control sockets *)
From Coq Require Import String Ascii Lia.
From Verif Require Import Base CompModel CompProofs VscfModel OptModel OptSpec OptProofs ProbeConfModel ProbeConfProofs CfgModel CfgSpec.
Local Open Scope N_scope.
Local Open Scope list_scope.
Local Notation length := List.length.

(** ** Addresses *)

Lemma cut_none c s : cut c s = None -> ~ In c s.
Proof.
  induction s as [|x s IH]; cbn; [auto|].
  destruct (N.eqb_spec x c) as [->|N]; [discriminate|].
  destruct (cut c s) as [[a b]|]; [discriminate|]. intros _ [?|?]; [congruence|]. now apply IH.
Qed.

Lemma cut_some c s a b : cut c s = Some (a, b) -> s = a ++ c :: b /\ ~ In c a.
Proof.
  revert a b. induction s as [|x s IH]; cbn; intros a b; [discriminate|].
  destruct (N.eqb_spec x c) as [->|N].
  - intros [= <- <-]. auto.
  - destruct (cut c s) as [[a' b']|]; [|discriminate]. intros [= <- <-].
    destruct (IH _ _ eq_refl) as [-> H]. split; [reflexivity|]. intros [?|?]; auto.
Qed.

Lemma cut_go c a b : ~ In c a -> cut c (a ++ c :: b) = Some (a, b).
Proof.
  induction a as [|x a IH]; cbn; intros H.
  - now rewrite N.eqb_refl.
  - destruct (N.eqb_spec x c) as [->|N]; [exfalso; auto|]. rewrite IH by auto. reflexivity.
Qed.

Lemma cut_gone c a : ~ In c a -> cut c a = None.
Proof.
  induction a as [|x a IH]; cbn; intros H; [reflexivity|].
  destruct (N.eqb_spec x c) as [->|N]; [exfalso; auto|]. rewrite IH by auto. reflexivity.
Qed.

Lemma names_split t h p : names t h p -> split_spec t = (h, p).
Proof.
  intros H. unfold split_spec. destruct H as [h p N1 N2|h N1|h N1|c h p Nc N1 N2 N3|t N1 N2|c h Nc N1|t a b c Nh E|h x r N1 N2|h N1|p N1].
  - cbn [app]. rewrite N.eqb_refl. rewrite cut_go by assumption. cbn. destruct p; [contradiction|reflexivity].
  - rewrite N.eqb_refl, cut_go by assumption. reflexivity.
  - rewrite N.eqb_refl, cut_go by assumption. reflexivity.
  - cbn [app]. rewrite (proj2 (N.eqb_neq c 91)) by assumption.
    change (c :: h ++ 58 :: p) with ((c :: h) ++ 58 :: p). rewrite cut_go, cut_gone by assumption.
    destruct p; [contradiction|reflexivity].
  - destruct t as [|c t]; [reflexivity|].
    rewrite (cut_gone 58 (c :: t)) by assumption. destruct (N.eqb_spec c 91); [subst; exfalso; now apply N1|reflexivity].
  - cbn [app]. rewrite (proj2 (N.eqb_neq c 91)) by assumption.
    change (c :: h ++ [58]) with ((c :: h) ++ 58 :: []). rewrite cut_go by assumption. reflexivity.
  - assert (B : match cut 58 t with
                | None => (t, None)
                | Some (a, p) => match cut 58 p with
                                 | Some _ => (t, None)
                                 | None => match a with [] => (txt "!!invalid!!", Some t)
                                           | _ => (a, match p with [] => None | _ => Some p end) end
                                 end end = (t, None)).
    { destruct (cut 58 t) as [[a' p']|] eqn:C1; [|reflexivity].
      destruct (cut 58 p') as [q|] eqn:C2; [reflexivity|]. exfalso.
      apply cut_some in C1 as [C1 N1]. apply cut_none in C2. rewrite E in C1. clear - C1 N1 C2.
      revert a C1. induction a' as [|x a' IH]; intros a C1.
      - destruct a as [|y a]; cbn in C1.
        + injection C1 as C1. subst p'. apply C2. apply in_or_app. right. now left.
        + injection C1 as C0 C1. subst p'. apply C2. apply in_or_app. right. right. apply in_or_app. right. now left.
      - destruct a as [|y a]; cbn in C1; injection C1 as C0 C1.
        + apply N1. left. congruence.
        + apply (IH (fun H => N1 (or_intror H)) a C1). }
    destruct t as [|x t]; [exact B|]. destruct (N.eqb_spec x 91); [subst x; exfalso; now apply Nh|exact B].
  - rewrite N.eqb_refl, cut_go by assumption. destruct r as [|y r]; [reflexivity|].
    now rewrite (proj2 (N.eqb_neq x 58)).
  - rewrite N.eqb_refl, cut_gone by assumption. reflexivity.
  - rewrite (proj2 (N.eqb_neq 58 91)) by discriminate. cbn [cut]. rewrite N.eqb_refl, cut_gone by assumption. reflexivity.
Qed.

Lemma split_names t : exists h p, names t h p.
Proof.
  destruct t as [|c t].
  { exists [], None. apply NHost; [discriminate|auto]. }
  destruct (N.eq_dec c 91) as [->|Nc].
  - destruct (cut 93 t) as [[h r]|] eqn:C.
    + apply cut_some in C as [-> N]. destruct r as [|x r].
      * exists h, None. now apply NBracket.
      * destruct (N.eq_dec x 58) as [->|Nx].
        -- destruct r as [|y r]; [exists h, None; now apply NBracketColon|].
           exists h, (Some (y :: r)). now apply NBoth.
        -- exists h, None. now apply NJunk.
    + apply cut_none in C. exists (91 :: t), None. now apply NOpen.
  - assert (Nh : hd_error (c :: t) <> Some 91) by (cbn; congruence).
    destruct (cut 58 (c :: t)) as [[h p]|] eqn:C.
    + apply cut_some in C as [E N]. destruct (cut 58 p) as [[x y]|] eqn:C2.
      * apply cut_some in C2 as [-> _]. exists (c :: t), None. eapply NV6; eauto.
      * apply cut_none in C2. rewrite E. destruct h as [|c' h].
        -- exists (txt "!!invalid!!"), (Some (58 :: p)). now apply NNoHost.
        -- assert (c' = c) by (cbn in E; congruence). subst c'.
           destruct p as [|y p]; [exists (c :: h), None; now apply NHostColon|].
           exists (c :: h), (Some (y :: p)). now apply NPort.
    + apply cut_none in C. exists (c :: t), None. now apply NHost.
Qed.

Section Gai.
  Variable gai : bytes -> option bytes -> option sockaddr.
  Hypothesis gai_port : forall h p a, gai h p = Some a -> port a < 65536.

  Lemma fromstr_iff t def a : def < 65536 -> anysin_fromstr gai t def = Some a <-> address gai t def a.
  Proof.
    intros D. unfold anysin_fromstr, address. split.
    - destruct (split_names t) as (h & p & N). rewrite (names_split _ _ _ N).
      destruct (gai h p) as [sa|] eqn:G; [|discriminate]. intros E. exists h, p, sa. split; [assumption|]. split; [assumption|].
      destruct p; [congruence|]. rewrite N.mod_small in E by assumption. destruct (def =? 0); injection E as <-; reflexivity.
    - intros (h & p & sa & N & G & ->). rewrite (names_split _ _ _ N), G. destruct p; [reflexivity|].
      rewrite N.mod_small by assumption. destruct (def =? 0); reflexivity.
  Qed.

  Lemma address_port t def a : def < 65536 -> address gai t def a -> port a < 65536.
  Proof.
    intros D (h & p & sa & _ & G & ->). pose proof (gai_port _ _ _ G). destruct p; [assumption|]. destruct (def =? 0); assumption.
  Qed.

  (** ** Lists *)

  Lemma each_iff {A B} (f : A -> res (option B)) l : (forall a, In a l -> f a <> UB) ->
    each f l <> UB /\ forall bs, each f l = Ok (Some bs) <-> Forall2 (fun a b => f a = Ok (Some b)) l bs.
  Proof.
    induction l as [|a l IH]; intros H; cbn [each].
    - split; [discriminate|]. intros bs. split; [intros [= <-]; constructor|inversion 1; reflexivity].
    - destruct IH as [U I]; [intros; apply H; now right|].
      destruct (f a) as [[b|]|] eqn:F.
      + destruct (each f l) as [[bs'|]|] eqn:E.
        * split; [discriminate|]. intros bs. split.
          -- intros [= <-]. constructor; [assumption|]. now apply I.
          -- inversion 1 as [|? b' ? bs2 F1 F2]; subst. apply I in F2. congruence.
        * split; [discriminate|]. intros bs. split; [discriminate|].
          inversion 1 as [|? b' ? bs2 F1 F2]; subst. apply I in F2. discriminate.
        * contradiction.
      + split; [discriminate|]. intros bs. split; [discriminate|].
        inversion 1 as [|? b' ? bs2 F1 F2]; subst. congruence.
      + exfalso. apply (H a); [now left|assumption].
  Qed.

  Lemma Forall2_iff {A B} (P Q : A -> B -> Prop) l l' : (forall a b, P a b <-> Q a b) -> Forall2 P l l' <-> Forall2 Q l l'.
  Proof. intros H. split; induction 1; constructor; auto; now apply H. Qed.

  Lemma apart_iff {A} (m : reader A) (spec : A -> Prop) :
    (forall X, m [] = X -> X <> Ok None -> exists a ks, spec a /\ X = Ok (Some (a, ks))) ->
    (forall a, spec a -> exists ks, m [] = Ok (Some (a, ks))) ->
    apart m <> UB /\ forall a, apart m = Ok (Some a) <-> spec a.
  Proof. intros T G. exact (run_iff (m []) spec T G). Qed.

  Lemma lift_through {A B} (r : res (option A)) (f : A -> reader B) ks X :
    rseq (lift r) f ks = X -> X <> Ok None -> r <> UB -> exists a, r = Ok (Some a) /\ f a ks = X.
  Proof. unfold rseq, lift. destruct r as [[a|]|]; intros E NN NU; [eauto|congruence|contradiction]. Qed.

  Lemma lift_go {A B} (a : A) (f : A -> reader B) ks : rseq (lift (Ok (Some a))) f ks = f a ks.
  Proof. reflexivity. Qed.

  (** ** Listening *)

  Lemma with_addr_iff d t a : dns_port d < 65536 ->
    with_addr gai t d <> UB /\ (with_addr gai t d = Ok (Some a) <-> at_text gai d t a).
  Proof.
    intros D. unfold with_addr, make_addr, at_text. destruct (anysin_fromstr gai t (dns_port d)) as [sa|] eqn:E.
    - split; [discriminate|]. apply fromstr_iff in E; [|assumption]. split.
      + intros [= <-]. auto.
      + intros (A & O). destruct a as [a o]. cbn in *. subst o.
        apply fromstr_iff in E; [|assumption]. apply fromstr_iff in A; [|assumption]. congruence.
    - split; [discriminate|]. split; [discriminate|]. intros (A & _). apply fromstr_iff in A; [|assumption]. congruence.
  Qed.

  Lemma any_iff d : dns_port d < 65536 ->
    listen_any gai d <> UB /\ forall l, listen_any gai d = Ok (Some l) <-> Forall2 (at_text gai d) [txt "0.0.0.0"; txt "::"] l.
  Proof.
    intros D. unfold listen_any.
    destruct (each_iff (fun t => with_addr gai t d) [txt "0.0.0.0"; txt "::"]) as [U I].
    - intros t _. apply (with_addr_iff d t (DnsAddr (Sockaddr false [] 0) d) D).
    - split; [exact U|]. intros l. rewrite I. apply Forall2_iff. intros. now apply with_addr_iff.
  Qed.

  Lemma string_iff d v a : dns_port d < 65536 ->
    listen_string gai d v <> UB /\ (listen_string gai d v = Ok (Some a) <-> plain gai d v a).
  Proof.
    intros D. unfold listen_string. destruct v as [raw s|?|?].
    - destruct (with_addr_iff d (c_str s) a D) as [U I]. split; [exact U|]. rewrite I. split.
      + intros H. econstructor; [now apply c_str_iff|exact H].
      + inversion 1 as [? ? t ? T H1]; subst. apply c_str_iff in T. now subst t.
    - split; [discriminate|]. split; [discriminate|inversion 1].
    - split; [discriminate|]. split; [discriminate|inversion 1].
  Qed.

  Lemma sin_port_0 a : port a < 65536 -> (sin_port a =? 0) = (port a =? 0).
  Proof.
    unfold sin_port. intros H. pose proof (N.div_mod (port a) 256 ltac:(discriminate)).
    pose proof (N.mod_lt (port a) 256 ltac:(discriminate)). lia.
  Qed.

  Lemma sin_port_53 a : port a < 65536 -> (sin_port a =? 53) = (port a =? 13568).
  Proof.
    unfold sin_port. intros H. pose proof (N.div_mod (port a) 256 ltac:(discriminate)).
    pose proof (N.mod_lt (port a) 256 ltac:(discriminate)). lia.
  Qed.

  Lemma removed_through l k {B} (f : unit -> reader B) ks X :
    rseq (opt_removed (VH l) k) f ks = X -> f tt (k :: ks) = X.
  Proof. now rewrite removed_seq. Qed.

  Ltac thr1 :=
    repeat match goal with
      | E : rseq (rseq _ _) _ _ = _ |- _ => rewrite rseq_assoc in E
      | E : rseq (opt_uint _ _ _ _ _) _ _ = _ |- _ =>
          apply uint_through in E; [destruct E as (? & ? & E)|reflexivity|assumption]
      | E : rseq (opt_str _ _ _) _ _ = _ |- _ =>
          apply str_through in E; [destruct E as (? & ? & E)|assumption]
      | E : rseq (opt_bool _ _ _) _ _ = _ |- _ =>
          apply bool_through in E; [destruct E as (? & ? & E)|assumption]
      | E : rseq (opt_removed _ _) _ _ = _ |- _ => apply removed_through in E
      | E : rseq (need _) _ _ = _ |- _ => apply need_through in E; [destruct E as (? & E)|assumption]
      | E : rseq (no_others _) _ _ = _ |- _ => apply others_through in E; [destruct E as (? & E)|assumption]
      | E : rseq (rret _) _ _ = _ |- _ => rewrite seq_ret in E
      | E : rseq (look _ _) _ _ = _ |- _ => rewrite look_seq in E
      | E : rseq (lift (make_addr _ _ _)) _ _ = _ |- _ =>
          apply lift_through in E; [destruct E as (? & ? & E)|assumption|discriminate]
      end.

  Lemma entry_iff d e a : dns_port d < 65536 ->
    listen_entry gai d e <> UB /\ (listen_entry gai d e = Ok (Some a) <-> tuned gai d e a).
  Proof.
    intros D. destruct e as [k v]. unfold listen_entry. cbn [fst snd].
    destruct v as [?|?|l]; try (split; [discriminate|]; split; [discriminate|inversion 1]).
    match goal with |- apart ?m <> UB /\ _ => destruct (apart_iff m (fun a => tuned gai d (k, VH l) a)) as [U I] end;
      [| |split; [exact U|apply I]].
    - intros X E NN. thr1. destruct x.
      + thr1. eexists _, _. split; [|symmetry; exact E].
        match goal with H : make_addr _ _ _ = _ |- _ => unfold make_addr in H; injection H as H; apply fromstr_iff in H; [|assumption] end.
        eapply Tuned; [now apply c_str_iff|eassumption| |].
        * unfold addr_options. cbn. split; [reflexivity|]. repeat (split; [assumption || reflexivity|]).
          eapply only_same; [| |eassumption]; in_list.
        * intros _. cbn. match goal with H : negb (sin_port ?x =? 53) = true, A : address _ _ _ ?x |- _ =>
            rewrite sin_port_53 in H by (eapply address_port; eassumption); apply negb_true_iff, N.eqb_neq in H; exact H end.
      + thr1. eexists _, _. split; [|symmetry; exact E].
        match goal with H : make_addr _ _ _ = _ |- _ => unfold make_addr in H; injection H as H; apply fromstr_iff in H; [|assumption] end.
        eapply Tuned; [now apply c_str_iff|eassumption| |discriminate].
        unfold addr_options. cbn. split; [reflexivity|]. repeat (split; [assumption || reflexivity|]).
        eapply only_same; [| |eassumption]; in_list.
    - intros b T. inversion T as [k' l' t a' Tx Ad Op Px]; subst.
      destruct b as [sa o]. cbn [addr opts] in *.
      destruct Op as (O1 & O2 & O3 & O4 & O5 & O6 & O7 & O8).
      rewrite removed_seq, (bool_go _ _ _ _ _ _ O2), (uint_go _ _ _ _ _ _ _ _ O3 eq_refl), (uint_go _ _ _ _ _ _ _ _ O4 eq_refl),
        (uint_go _ _ _ _ _ _ _ _ O5 eq_refl), (uint_go _ _ _ _ _ _ _ _ O6 eq_refl), (uint_go _ _ _ _ _ _ _ _ O7 eq_refl).
      apply c_str_iff in Tx. pose proof (address_port _ _ _ D Ad) as PA.
      apply fromstr_iff in Ad; [|assumption]. unfold make_addr. rewrite Tx, Ad.
      destruct (tcp_proxy o) eqn:PR.
      + destruct O8 as (R1 & R2 & R3 & R4 & R5). rewrite seq_ret, (bool_go _ _ _ _ _ _ R4), lift_go, need_go.
        2:{ rewrite sin_port_53 by assumption. apply negb_true_iff, N.eqb_neq. now apply Px. }
        rewrite others_go; [|eapply only_same; [| |exact R5]; in_list].
        eexists. unfold rret. rewrite <- O1, <- R1, <- R2, <- R3, <- PR. destruct o. reflexivity.
      + destruct O8 as (R1 & R2 & R3 & R4 & R5).
        rewrite rseq_assoc, (uint_go _ _ _ _ _ _ _ _ R1 eq_refl), rseq_assoc, (uint_go _ _ _ _ _ _ _ _ R2 eq_refl),
          rseq_assoc, (uint_go _ _ _ _ _ _ _ _ R3 eq_refl), seq_ret, (bool_go _ _ _ _ _ _ R4), lift_go, seq_ret.
        rewrite others_go; [|eapply only_same; [| |exact R5]; in_list].
        eexists. unfold rret. rewrite <- O1, <- PR. destruct o. reflexivity.
  Qed.

  Lemma fill_iff d o : dns_port d < 65536 ->
    fill_addrs gai o d <> UB /\ forall l, fill_addrs gai o d = Ok (Some l) <-> listens gai d o l.
  Proof.
    intros D. destruct (any_iff d D) as [AU AI]. unfold fill_addrs. destruct o as [v|].
    2:{ split; [exact AU|]. intros l. rewrite AI. split; [now constructor|now inversion 1]. }
    destruct v as [raw s|vs|es].
    - destruct (bytes_eqb (c_str s) (txt "any")) eqn:E.
      + apply bytes_eqb_spec, c_str_iff in E. split; [exact AU|]. intros l. rewrite AI.
        split; [now constructor|]. inversion 1; subst; [assumption|contradiction].
      + assert (NA : ~ text_of s (txt "any")).
        { rewrite <- c_str_iff. intros H. apply bytes_eqb_spec in H. congruence. }
        destruct (each_iff (listen_string gai d) [VS raw s]) as [U I].
        { intros v _. apply (string_iff d v (DnsAddr (Sockaddr false [] 0) d) D). }
        split; [exact U|]. intros l. rewrite I. split.
        * inversion 1 as [|? a ? l' F F']; subst. inversion F'; subst. apply LOne; [assumption|]. now apply string_iff.
        * inversion 1; subst; [contradiction|]. constructor; [now apply string_iff|constructor].
    - assert (G : each (listen_string gai d) vs <> UB /\ forall l, each (listen_string gai d) vs = Ok (Some l) <-> Forall2 (plain gai d) vs l).
      { destruct (each_iff (listen_string gai d) vs) as [U I].
        { intros v _. apply (string_iff d v (DnsAddr (Sockaddr false [] 0) d) D). }
        split; [exact U|]. intros l. rewrite I. apply Forall2_iff. intros. now apply string_iff. }
      destruct vs as [|v vs].
      + split; [discriminate|]. intros l. split; [discriminate|]. inversion 1 as [| | |? ? N F|]; subst. inversion F; subst. contradiction.
      + destruct G as [U I]. split; [exact U|]. intros l. rewrite I. split.
        * intros F. constructor; [|assumption]. intros ->. inversion F.
        * now inversion 1.
    - assert (G : each (listen_entry gai d) es <> UB /\ forall l, each (listen_entry gai d) es = Ok (Some l) <-> Forall2 (tuned gai d) es l).
      { destruct (each_iff (listen_entry gai d) es) as [U I].
        { intros v _. apply (entry_iff d v (DnsAddr (Sockaddr false [] 0) d) D). }
        split; [exact U|]. intros l. rewrite I. apply Forall2_iff. intros. now apply entry_iff. }
      destruct es as [|e es].
      + split; [discriminate|]. intros l. split; [discriminate|]. inversion 1 as [| | | |? ? N F]; subst. inversion F; subst. contradiction.
      + destruct G as [U I]. split; [exact U|]. intros l. rewrite I. split.
        * intros F. constructor; [|assumption]. intros ->. inversion F.
        * now inversion 1.
  Qed.

  (** ** Control sockets *)

  Lemma control_iff k o a :
    control_item gai (c_str k) o <> UB /\ (control_item gai (c_str k) o = Ok (Some a) <-> control gai k o a).
  Proof.
    unfold control_item.
    set (tail := fun chal ctl : bool => match anysin_fromstr gai (c_str k) 0 with
      | None => Ok None | Some a => if sin_port a =? 0 then Ok None else Ok (Some (CtlAddr a chal ctl)) end).
    assert (T : forall chal ctl, tail chal ctl <> UB /\
      forall a, tail chal ctl = Ok (Some a) <-> exists sa, a = CtlAddr sa chal ctl /\ address gai (c_str k) 0 sa /\ port sa <> 0).
    { intros chal ctl. unfold tail. destruct (anysin_fromstr gai (c_str k) 0) as [sa|] eqn:E.
      - apply fromstr_iff in E; [|reflexivity].
        assert (P : port sa < 65536) by (eapply address_port; [|exact E]; reflexivity).
        rewrite (sin_port_0 _ P). destruct (N.eqb_spec (port sa) 0).
        + split; [discriminate|]. intros b. split; [discriminate|]. intros (sa' & _ & A & N).
          apply fromstr_iff in E, A; try reflexivity. congruence.
        + split; [discriminate|]. intros b. split; [intros [= <-]; eauto|]. intros (sa' & -> & A & N).
          apply fromstr_iff in E, A; try reflexivity. congruence.
      - split; [discriminate|]. intros b. split; [discriminate|]. intros (sa' & _ & A & _).
        apply fromstr_iff in A; [congruence|reflexivity]. }
    destruct o as [v|].
    2:{ change (tail false false <> UB /\ (tail false false = Ok (Some a) <-> control gai k None a)).
        destruct (T false false) as [U I]. split; [exact U|]. rewrite I. split.
        - intros (sa & -> & A & N). econstructor; [now apply c_str_iff|eassumption|assumption|auto].
        - inversion 1 as [? t ? sa chal ctl Tx Ad Pz Q]; subst. cbn in Q. destruct Q as [-> ->]. apply c_str_iff in Tx. subst t. eauto. }
    cbv zeta.
    destruct v as [?|?|l]; try (split; [discriminate|]; split; [discriminate|]; inversion 1 as [? ? ? ? ? ? ? ? ? Q]; cbn in Q; destruct Q as (l' & ? & _); discriminate).
    match goal with |- context [apart ?m] =>
      destruct (apart_iff m (fun cc => flag l (txt "chal_ok") false (fst cc) /\ flag l (txt "ctl_ok") false (snd cc) /\
                            only l [txt "chal_ok"; txt "ctl_ok"])) as [U I]; [| |set (M := m) in *] end.
    - intros X E NN. thr1. eexists _, _. split; [|symmetry; exact E]. cbn. split; [assumption|]. split; [assumption|].
      eapply only_same; [| |eassumption]; in_list.
    - intros [x y] (F1 & F2 & O). cbn [fst snd] in *. rewrite (bool_go _ _ _ _ _ _ F1), (bool_go _ _ _ _ _ _ F2), others_go.
      + eexists. reflexivity.
      + eapply only_same; [| |exact O]; in_list.
    - destruct (apart M) as [[[x y]|]|].
      + change (tail x y <> UB /\ (tail x y = Ok (Some a) <-> control gai k (Some (VH l)) a)).
        destruct (T x y) as [U2 I2]. split; [exact U2|]. rewrite I2.
        destruct (proj1 (I (x, y)) eq_refl) as (F1 & F2 & O). cbn [fst snd] in *. split.
        * intros (sa & -> & A & N). econstructor; [now apply c_str_iff|eassumption|assumption|]. exists l. auto.
        * inversion 1 as [? t ? sa chal ctl Tx Ad Pz Q]; subst. cbn in Q. destruct Q as (l' & E & G1 & G2 & O'). injection E as <-.
          pose proof (proj2 (I (chal, ctl)) (conj G1 (conj G2 O'))) as E. injection E as <- <-.
          apply c_str_iff in Tx. subst t. eauto.
      + split; [discriminate|]. split; [discriminate|].
        inversion 1 as [? t ? sa chal ctl Tx Ad Pz Q]; subst. cbn in Q. destruct Q as (l' & E & G1 & G2 & O'). injection E as <-.
        pose proof (proj2 (I (chal, ctl)) (conj G1 (conj G2 O'))) as E. discriminate.
      + contradiction.
  Qed.

  Lemma str_control_iff v a :
    (match v with VS _ s => control_item gai (c_str s) None | _ => Ok None end) <> UB /\
    ((match v with VS _ s => control_item gai (c_str s) None | _ => Ok None end) = Ok (Some a) <->
     exists raw s, v = VS raw s /\ control gai s None a).
  Proof.
    destruct v as [raw s|?|?].
    - destruct (control_iff s None a) as [U I]. split; [exact U|]. rewrite I. split; [eauto|].
      intros (r & s' & [= <- <-] & C). assumption.
    - split; [discriminate|]. split; [discriminate|]. intros (? & ? & ? & _). discriminate.
    - split; [discriminate|]. split; [discriminate|]. intros (? & ? & ? & _). discriminate.
  Qed.

  Lemma tcp_control_iff o :
    (match o with None => Ok (Some []) | Some v => tcp_control gai v end) <> UB /\
    forall l, (match o with None => Ok (Some []) | Some v => tcp_control gai v end) = Ok (Some l) <-> controls gai o l.
  Proof.
    set (a0 := CtlAddr (Sockaddr false [] 0) false false).
    destruct o as [v|].
    2:{ split; [discriminate|]. intros l. split; [intros [= <-]; constructor|inversion 1; reflexivity]. }
    unfold tcp_control. destruct v as [raw s|vs|es].
    - destruct (each_iff (fun v => match v with VS _ s => control_item gai (c_str s) None | _ => Ok None end) [VS raw s]) as [U I].
      { intros v _. apply (str_control_iff v a0). }
      split; [exact U|]. intros l. rewrite I. split.
      + inversion 1 as [|? a ? l' F F']; subst. inversion F'; subst. constructor. now apply control_iff.
      + inversion 1; subst. constructor; [now apply control_iff|constructor].
    - destruct (each_iff (fun v => match v with VS _ s => control_item gai (c_str s) None | _ => Ok None end) vs) as [U I].
      { intros v _. apply (str_control_iff v a0). }
      split; [exact U|]. intros l. rewrite I.
      rewrite (Forall2_iff _ (fun v a => exists raw s, v = VS raw s /\ control gai s None a)) by (intros; apply str_control_iff).
      split; [now constructor|now inversion 1].
    - destruct (each_iff (fun e => control_item gai (c_str (fst e)) (Some (snd e))) es) as [U I].
      { intros e _. apply (control_iff (fst e) (Some (snd e)) a0). }
      split; [exact U|]. intros l. rewrite I.
      rewrite (Forall2_iff _ (fun e a => control gai (fst e) (Some (snd e)) a)) by (intros; apply control_iff).
      split; [now constructor|now inversion 1].
  Qed.
End Gai.
