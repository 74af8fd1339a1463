(** Proofs about the global options: the rest of the options, and the file as a whole *)
From Coq Require Import String Ascii Lia.
From Verif Require Import Base CompModel CompProofs VscfModel OptModel OptSpec OptProofs ProbeConfModel ProbeConfProofs
  CfgModel CfgSpec CfgProofs CfgProofs2.
Local Open Scope N_scope.
Local Open Scope list_scope.
Local Notation length := List.length.

(** ** CHAOS and NSID *)

Lemma chaos_iff t : set_chaos t <> UB /\ forall r, set_chaos t = Ok (Some r) <-> (length t <= 254)%nat /\ r = chaos_record t.
Proof.
  unfold set_chaos. cbv zeta. destruct (N.ltb_spec 254 (N.of_nat (length t))).
  - split; [discriminate|]. intros r. split; [discriminate|]. intros [L _]. lia.
  - split; [discriminate|]. intros r. rewrite !N.mod_small by lia. unfold chaos_record, chaos_prefix. cbv zeta. split.
    + intros [= <-]. split; [lia|reflexivity].
    + intros [_ ->]. reflexivity.
Qed.

Lemma hex_digit c : is_hex c = true -> exists x, digit c x /\ x < 16 /\ ahex_of c = Ok x.
Proof.
  unfold is_hex. intros H. apply existsb_exists in H as (y & Hy & E). apply N.eqb_eq in E. subst y.
  cbn in Hy.
  repeat (destruct Hy as [<-|Hy];
    [match goal with |- exists x, digit ?c x /\ _ =>
       let v := eval vm_compute in (digit_of c) in
       match v with Some ?x => exists x; split; [apply digit_of_iff; reflexivity|split; reflexivity] end end|]).
  contradiction.
Qed.

Lemma digit_hex c x : digit c x -> is_hex c = true /\ ahex_of c = Ok x /\ x < 16.
Proof.
  intros D.
  assert (H : is_hex c = true /\ x < 16).
  { unfold is_hex. inversion D; subst; split; try lia; apply existsb_exists;
      (eexists; split; [|apply N.eqb_refl]); cbn.
    - assert (x = 0 \/ x = 1 \/ x = 2 \/ x = 3 \/ x = 4 \/ x = 5 \/ x = 6 \/ x = 7 \/ x = 8 \/ x = 9) as C by lia.
      repeat (destruct C as [->|C]; [tauto|]). subst. tauto.
    - assert (x = 10 \/ x = 11 \/ x = 12 \/ x = 13 \/ x = 14 \/ x = 15) as C by lia.
      repeat (destruct C as [->|C]; [tauto|]). subst. tauto.
    - assert (x = 10 \/ x = 11 \/ x = 12 \/ x = 13 \/ x = 14 \/ x = 15) as C by lia.
      repeat (destruct C as [->|C]; [tauto|]). subst. tauto. }
  destruct H as [H L]. split; [assumption|]. split; [|assumption].
  destruct (hex_digit c H) as (y & Dy & _ & E). apply digit_of_iff in D, Dy. congruence.
Qed.

Lemma nibbles x y : x < 16 -> y < 16 -> N.lor (N.shiftl x 4 mod 256) y = 16 * x + y.
Proof.
  intros X Y. rewrite N.shiftl_mul_pow2. change (2 ^ 4) with 16. rewrite N.mod_small by lia.
  replace (x * 16) with (N.shiftl x 4) by (rewrite N.shiftl_mul_pow2; reflexivity).
  rewrite <- N.lxor_lor.
  - rewrite <- N.add_nocarry_lxor; [rewrite N.shiftl_mul_pow2; change (2 ^ 4) with 16; lia|].
    apply N.bits_inj_0. intros n. rewrite N.land_spec. destruct (N.lt_ge_cases n 4) as [L|L].
    + rewrite N.shiftl_spec_low by assumption. reflexivity.
    + assert (Z : N.testbit y n = false); [|rewrite Z; apply andb_false_r].
      destruct (N.eq_dec y 0) as [->|Ny]; [apply N.bits_0|]. apply N.bits_above_log2.
      apply N.lt_le_trans with 4; [|assumption]. apply N.log2_lt_pow2; [lia|]. exact Y.
  - apply N.bits_inj_0. intros n. rewrite N.land_spec. destruct (N.lt_ge_cases n 4) as [L|L].
    + rewrite N.shiftl_spec_low by assumption. reflexivity.
    + assert (Z : N.testbit y n = false); [|rewrite Z; apply andb_false_r].
      destruct (N.eq_dec y 0) as [->|Ny]; [apply N.bits_0|]. apply N.bits_above_log2.
      apply N.lt_le_trans with 4; [|assumption]. apply N.log2_lt_pow2; [lia|]. exact Y.
Qed.

Lemma two_ind {A} (P : list A -> Prop) : P [] -> (forall a, P [a]) -> (forall a b l, P l -> P (a :: b :: l)) -> forall l, P l.
Proof.
  intros H0 H1 H2 l. enough (P l /\ forall a, P (a :: l)) by tauto.
  induction l as [|x l [I1 I2]]; split; auto.
Qed.

Lemma hex_pairs_ok s : Nat.odd (length s) = false -> forallb is_hex s = true -> exists r, hex_pairs s = Ok r /\ hex_text s r.
Proof.
  induction s as [|a|a b s IH] using two_ind; intros O F.
  - exists []. split; [reflexivity|constructor].
  - discriminate.
  - cbn [forallb] in F. apply andb_prop in F as [Fa F]. apply andb_prop in F as [Fb F].
    destruct IH as (r & E & H); [exact O|assumption|].
    destruct (hex_digit a Fa) as (x & Dx & Lx & Ex), (hex_digit b Fb) as (y & Dy & Ly & Ey).
    cbn [hex_pairs]. rewrite Ex, Ey, E. cbn [rbind]. eexists. split; [reflexivity|].
    rewrite nibbles by assumption. now constructor.
Qed.

Lemma hex_text_ok s r : hex_text s r -> hex_pairs s = Ok r /\ forallb is_hex s = true /\ length s = (2 * length r)%nat.
Proof.
  induction 1 as [|a b x y s r Da Db H (E & F & L)]; [auto|].
  apply digit_hex in Da as (Ha & Ea & La), Db as (Hb & Eb & Lb).
  cbn [hex_pairs forallb length]. rewrite Ea, Eb, E, Ha, Hb, F. cbn [rbind andb]. rewrite nibbles by assumption.
  split; [reflexivity|]. split; [reflexivity|]. lia.
Qed.

Lemma nsid_iff t : set_nsid t <> UB /\ forall n, set_nsid t = Ok (Some n) <-> hex_text t n /\ (1 <= length n <= 128)%nat.
Proof.
  unfold set_nsid. cbv zeta.
  destruct (Nat.eqb_spec (length t) 0) as [L0|L0]; cbn [orb].
  { split; [discriminate|]. intros n. split; [discriminate|]. intros [H L]. apply hex_text_ok in H as (_ & _ & E). lia. }
  destruct (Nat.ltb_spec 256 (length t)) as [L1|L1]; cbn [orb].
  { split; [discriminate|]. intros n. split; [discriminate|]. intros [H L]. apply hex_text_ok in H as (_ & _ & E). lia. }
  destruct (Nat.odd (length t)) eqn:O; cbn [orb].
  { split; [discriminate|]. intros n. split; [discriminate|]. intros [H L]. apply hex_text_ok in H as (_ & _ & E).
    rewrite E in O. rewrite Nat.odd_mul in O. discriminate. }
  destruct (forallb is_hex t) eqn:F; cbn [negb].
  - destruct (hex_pairs_ok t O F) as (r & E & H). rewrite E. cbn [rbind]. split; [discriminate|]. intros n. split.
    + intros [= <-]. apply hex_text_ok in H as H'. destruct H' as (_ & _ & L). split; [assumption|]. lia.
    + intros [H' _]. apply hex_text_ok in H' as (E' & _). congruence.
  - split; [discriminate|]. intros n. split; [discriminate|]. intros [H L]. apply hex_text_ok in H as (_ & E & _). congruence.
Qed.

Lemma nsid_ascii_iff t : set_nsid_ascii t <> UB /\
  forall n, set_nsid_ascii t = Ok (Some n) <-> n = t /\ (1 <= length t <= 128)%nat /\ Forall (fun c => 32 <= c <= 126) t.
Proof.
  unfold set_nsid_ascii. cbv zeta.
  destruct (Nat.eqb_spec (length t) 0) as [L0|L0]; cbn [orb].
  { split; [discriminate|]. intros n. split; [discriminate|]. lia. }
  destruct (Nat.ltb_spec 128 (length t)) as [L1|L1]; cbn [orb].
  { split; [discriminate|]. intros n. split; [discriminate|]. lia. }
  match goal with |- context [forallb ?f t] => set (g := f) end.
  assert (G : forall c, g c = true <-> 32 <= c <= 126) by (intros c; unfold g; lia).
  destruct (forallb g t) eqn:F; cbn [negb].
  - split; [discriminate|]. intros n. split.
    + intros [= <-]. split; [reflexivity|]. split; [lia|]. apply Forall_forall. intros c Hc.
      apply G. exact (proj1 (forallb_forall _ _) F c Hc).
    + intros (-> & _). reflexivity.
  - split; [discriminate|]. intros n. split; [discriminate|]. intros (_ & _ & A). exfalso.
    assert (forallb g t = true); [|congruence]. apply forallb_forall. intros c Hc. apply G. exact (proj1 (Forall_forall _ _) A c Hc).
Qed.

Definition nsid_of (x y o : option bytes) : Prop :=
  match x, y with
  | None, None => o = None
  | Some t, None => exists n, o = Some n /\ hex_text t n /\ (1 <= length n <= 128)%nat
  | None, Some t => o = Some t /\ (1 <= length t <= 128)%nat /\ Forall (fun c => 32 <= c <= 126) t
  | Some _, Some _ => False
  end.

Lemma finish_iff t x y : finish t x y <> UB /\
  forall ch ns, finish t x y = Ok (Some (ch, ns)) <-> (length t <= 254)%nat /\ ch = chaos_record t /\ nsid_of x y ns.
Proof.
  unfold finish. destruct (chaos_iff t) as [U I]. destruct (set_chaos t) as [[r|]|]; [| |contradiction].
  2:{ split; [discriminate|]. intros ch ns. split; [discriminate|]. intros (L & E & _).
      pose proof (proj2 (I ch) (conj L E)). discriminate. }
  destruct (proj1 (I r) eq_refl) as [L E]. destruct x as [x|], y as [y|]; cbn [nsid_of].
  - split; [discriminate|]. intros ch ns. split; [discriminate|]. tauto.
  - destruct (nsid_iff x) as [U2 I2]. destruct (set_nsid x) as [[n|]|]; [| |contradiction].
    + destruct (proj1 (I2 n) eq_refl). split; [discriminate|]. intros ch ns. split.
      * intros [= <- <-]. split; [assumption|]. split; [assumption|]. eauto.
      * intros (_ & -> & n' & -> & H'). apply I2 in H'. congruence.
    + split; [discriminate|]. intros ch ns. split; [discriminate|]. intros (_ & -> & n' & -> & H'). apply I2 in H'. discriminate.
  - destruct (nsid_ascii_iff y) as [U2 I2]. destruct (set_nsid_ascii y) as [[n|]|]; [| |contradiction].
    + destruct (proj1 (I2 n) eq_refl) as (-> & H1 & H2). split; [discriminate|]. intros ch ns. split.
      * intros [= <- <-]. auto.
      * intros (_ & -> & -> & _). congruence.
    + split; [discriminate|]. intros ch ns. split; [discriminate|]. intros (_ & -> & -> & H').
      pose proof (proj2 (I2 y) (conj eq_refl H')). discriminate.
  - split; [discriminate|]. intros ch ns. split.
    + intros [= <- <-]. auto.
    + intros (_ & -> & ->). congruence.
Qed.

Lemma read_removed_seq l ns {B} (f : unit -> reader B) : forall ks,
  rseq (read_removed (VH l) ns) f ks = f tt (rev ns ++ ks).
Proof.
  induction ns as [|n ns IH]; intros ks; [reflexivity|]. cbn [read_removed rev].
  rewrite rseq_assoc, removed_seq, IH, <- app_assoc. reflexivity.
Qed.

Lemma incl_check (a b : list bytes) : forallb (fun k => existsb (bytes_eqb k) b) a = true -> incl a b.
Proof.
  intros H k Hk. apply (proj1 (forallb_forall _ _) H) in Hk. apply existsb_exists in Hk as (x & Hx & E).
  apply bytes_eqb_spec in E. now subst.
Qed.

Ltac thr2 :=
  repeat match goal with
    | E : rseq (rseq _ _) _ _ = _ |- _ => rewrite rseq_assoc in E
    | E : rseq (opt_uint _ _ _ _ _) _ _ = _ |- _ =>
        apply uint_through in E; [destruct E as (? & ? & E)|reflexivity|assumption]
    | E : rseq (opt_str _ _ _) _ _ = _ |- _ =>
        apply str_through in E; [destruct E as (? & ? & E)|assumption]
    | E : rseq (opt_bool _ _ _) _ _ = _ |- _ =>
        apply bool_through in E; [destruct E as (? & ? & E)|assumption]
    | E : rseq (opt_removed _ _) _ _ = _ |- _ => rewrite removed_seq in E
    | E : rseq (read_removed _ _) _ _ = _ |- _ => rewrite read_removed_seq in E
    | E : rseq (need _) _ _ = _ |- _ => apply need_through in E; [destruct E as (? & E)|assumption]
    | E : rseq (no_others _) _ _ = _ |- _ => apply others_through in E; [destruct E as (? & E)|assumption]
    | E : rseq (rret _) _ _ = _ |- _ => rewrite seq_ret in E
    | E : rseq (look _ _) _ _ = _ |- _ => rewrite look_seq in E
    end.

Section Gai.
  Variable gai : bytes -> option bytes -> option sockaddr.
  Hypothesis gai_port : forall h p a, gai h p = Some a -> port a < 65536.

  Lemma options_iff l force : in_range (get (txt "listen") l) -> in_range (get (txt "tcp_control") l) ->
    apart (read_options gai (VH l) force) <> UB /\
    forall sc, apart (read_options gai (VH l) force) = Ok (Some sc) <-> sockets_spec gai l (fst sc) /\ conf_spec l force (snd sc).
  Proof.
    intros RL RC. apply apart_iff.
    - intros X E NN. unfold read_options, read_socks in E. thr2.
      match type of E with rseq (lift (sockets gai ?lo ?co ?d)) _ _ = _ => pose (dd := d); destruct (sockets_iff gai gai_port lo co dd) as [SU SI] end.
      { unfold dd. cbn [dns_port]. match goal with H : number _ (txt "dns_port") _ _ _ _ |- _ => apply number_range in H end. lia. }
      { unfold dd, sane. cbn [tcp_threads udp_threads tcp_clients tcp_proxy].
        repeat match goal with H : number _ _ _ _ _ _ |- _ => apply number_range in H end.
        split; [lia|]. split; [lia|]. split; [lia|discriminate]. }
      { reflexivity. } { assumption. } { assumption. }
      apply lift_through in E as (s & ES & E); [|assumption|assumption].
      apply SI in ES. destruct ES as (S1 & S2 & S3 & S4).
      unfold read_conf in E. thr2.
      match type of E with rseq (lift (finish ?a ?b ?c)) _ _ = _ => destruct (finish_iff a b c) as [FU FI] end.
      apply lift_through in E as ([ch ns] & EF & E); [|assumption|assumption].
      apply FI in EF as (F1 & F2 & F3).
      eexists _, _. split; [|symmetry; exact E]. cbn [fst snd]. split.
      + exists dd, (get (txt "listen") l), (get (txt "tcp_control") l). unfold dd. cbn.
        repeat (split; [assumption || reflexivity|]). split; [now apply get_given|]. split; [exact S1|].
        split; [now apply get_given|]. split; [exact S2|]. split; [exact S3|exact S4].
      + unfold conf_spec. cbn -[chaos_record].
        repeat match goal with H : negb _ = true |- _ => apply negb_true_iff in H end.
        repeat (split; [assumption || lia || (eexists; split; [eassumption|reflexivity])|]).
        split.
        { match goal with H : text l (txt "chaos_response") _ ?o |- _ =>
            destruct o as [t|]; [exists t; auto|exfalso; destruct H as [[_ H]|(? & ? & ? & _ & _ & H)]; discriminate] end. }
        split; [eexists _, _; split; [eassumption|]; split; [eassumption|]; exact F3|].
        eapply only_same; [| |eassumption]; apply incl_check; vm_compute; reflexivity.
    - intros [s c] [(d & lo & co & Q1 & Q2 & Q3 & Q4 & Q5 & Q6 & Q7 & Q8 & Q9 & Q10 & Q11 & GL & L & GC & C & T & F) R]. cbn [fst snd] in *.
      destruct (sockets_iff gai gai_port lo co d) as [SU SI].
      { apply number_range in Q1. lia. }
      { unfold sane. apply number_range in Q4, Q7, Q9. split; [lia|]. split; [lia|]. split; [lia|congruence]. }
      { assumption. }
      { apply get_given in GL. rewrite <- GL. assumption. }
      { apply get_given in GC. rewrite <- GC. assumption. }
      pose proof (proj2 (SI s) (conj L (conj C (conj T F)))) as ES.
      unfold conf_spec in R.
      destruct R as (R1 & R2 & R3 & R4 & R5 & (zb & R6 & R6') & R7 & R8 & R9 & R10 & R11 & R12 & R13 & R14 & R15 & R16 & R17 & R18
        & R19 & R20 & R21 & R22 & R23 & (t & R24 & R25 & R26) & (x & y & R27 & R28 & R29) & R30).
      destruct (finish_iff t x y) as [FU FI].
      pose proof (proj2 (FI (chaos c) (nsid c)) (conj R25 (conj R26 R29))) as EF.
      unfold read_options, read_socks.
      rewrite (str_go _ _ _ _ _ _ R1), (str_go _ _ _ _ _ _ R2), rseq_assoc, removed_seq.
      rewrite rseq_assoc, (uint_go _ _ _ _ _ _ _ _ Q1 eq_refl).
      rewrite rseq_assoc, (uint_go _ _ _ _ _ _ _ _ Q2 eq_refl).
      rewrite rseq_assoc, (uint_go _ _ _ _ _ _ _ _ Q3 eq_refl).
      rewrite rseq_assoc, (uint_go _ _ _ _ _ _ _ _ Q4 eq_refl).
      rewrite rseq_assoc, (uint_go _ _ _ _ _ _ _ _ Q5 eq_refl).
      rewrite rseq_assoc, (uint_go _ _ _ _ _ _ _ _ Q6 eq_refl).
      rewrite rseq_assoc, (uint_go _ _ _ _ _ _ _ _ Q7 eq_refl).
      rewrite rseq_assoc, (uint_go _ _ _ _ _ _ _ _ Q8 eq_refl).
      rewrite rseq_assoc, (uint_go _ _ _ _ _ _ _ _ Q9 eq_refl).
      rewrite rseq_assoc, look_seq, rseq_assoc, look_seq.
      apply get_given in GL. apply get_given in GC. rewrite GL, GC.
      match goal with |- context [lift (sockets gai lo co ?o)] => replace o with d end.
      2:{ rewrite <- Q10 at 1. rewrite <- Q11. destruct d; reflexivity. }
      rewrite ES, lift_go. unfold read_conf.
      rewrite rseq_assoc, read_removed_seq.
      rewrite rseq_assoc, (bool_go _ _ _ _ _ _ R3).
      rewrite rseq_assoc, (bool_go _ _ _ _ _ _ R4).
      rewrite rseq_assoc, (bool_go _ _ _ _ _ _ R5).
      rewrite rseq_assoc, (uint_go _ _ _ _ _ _ _ _ R10 eq_refl).
      rewrite rseq_assoc, (uint_go _ _ _ _ _ _ _ _ R11 eq_refl).
      rewrite rseq_assoc, (uint_go _ _ _ _ _ _ _ _ R12 eq_refl).
      rewrite rseq_assoc, need_go by (apply negb_true_iff, N.ltb_ge; assumption).
      rewrite rseq_assoc, (uint_go _ _ _ _ _ _ _ _ R13 eq_refl).
      rewrite rseq_assoc, need_go by (apply negb_true_iff, N.ltb_ge; assumption).
      rewrite rseq_assoc, (uint_go _ _ _ _ _ _ _ _ R16 eq_refl).
      rewrite rseq_assoc, (uint_go _ _ _ _ _ _ _ _ R17 eq_refl).
      rewrite rseq_assoc, (uint_go _ _ _ _ _ _ _ _ R18 eq_refl).
      rewrite rseq_assoc, (uint_go _ _ _ _ _ _ _ _ R19 eq_refl).
      rewrite rseq_assoc, (uint_go _ _ _ _ _ _ _ _ R20 eq_refl).
      rewrite rseq_assoc, (bool_go _ _ _ _ _ _ R6).
      rewrite rseq_assoc, (bool_go _ _ _ _ _ _ R7).
      rewrite rseq_assoc, (bool_go _ _ _ _ _ _ R8).
      rewrite rseq_assoc, (bool_go _ _ _ _ _ _ R9).
      rewrite rseq_assoc, (uint_go _ _ _ _ _ _ _ _ R21 eq_refl).
      rewrite rseq_assoc, need_go by lia.
      rewrite rseq_assoc, (str_go _ _ _ _ _ _ R23).
      rewrite rseq_assoc, (str_go _ _ _ _ _ _ R24).
      rewrite rseq_assoc, (str_go _ _ _ _ _ _ R27).
      rewrite rseq_assoc, (str_go _ _ _ _ _ _ R28).
      rewrite rseq_assoc, others_go.
      2:{ eapply only_same; [| |exact R30]; apply incl_check; vm_compute; reflexivity. }
      rewrite rseq_assoc, EF, lift_go, seq_ret. eexists. unfold rret. cbn [fst snd]. rewrite <- R6'. destruct c. reflexivity.
  Qed.

  Lemma read_socks_nil ks : exists ks', read_socks gai (VH []) ks = lift (sockets gai None None dns_defaults) ks'.
  Proof. eexists. reflexivity. Qed.

  Lemma no_options_read force : no_options gai force = apart (read_options gai (VH []) force).
  Proof.
    unfold no_options, apart, read_options.
    rewrite (str_go [] (txt "run_dir") None None) by (left; split; [intros []|reflexivity]).
    rewrite (str_go [] (txt "state_dir") None None) by (left; split; [intros []|reflexivity]).
    unfold rseq at 1. destruct (read_socks_nil [txt "state_dir"; txt "run_dir"]) as (ks & ->).
    unfold lift. destruct (sockets gai None None dns_defaults) as [[s|]|]; [|reflexivity|reflexivity].
    destruct force; vm_compute; reflexivity.
  Qed.


  (** ** The file *)

  Theorem load_ok root force : (forall raw s, root <> Some (VS raw s)) -> few_addresses root ->
    load gai root force <> UB /\ forall s c, load gai root force = Ok (Some (s, c)) <-> config gai root force s c.
  Proof.
    intros NS FEW.
    assert (RUN : forall l, options_of root l -> (forall l', options_of root l' -> l' = l) ->
      load gai root force = apart (read_options gai (VH l) force) ->
      load gai root force <> UB /\ forall s c, load gai root force = Ok (Some (s, c)) <-> config gai root force s c).
    { intros l O UN ->.
      destruct (options_iff l force) as [U I].
      { unfold in_range. destruct (get (txt "listen") l) as [v|] eqn:G; [|exact Logic.I]. apply get_given in G.
        exact (FEW l v _ O (or_introl eq_refl) G). }
      { unfold in_range. destruct (get (txt "tcp_control") l) as [v|] eqn:G; [|exact Logic.I]. apply get_given in G.
        exact (FEW l v _ O (or_intror eq_refl) G). }
      split; [exact U|]. intros s c. rewrite I. cbn [fst snd]. split.
      - intros [A B]. exists l. auto.
      - intros (l' & O' & A & B). apply UN in O'. subst. auto. }
    destruct root as [[raw s|vs|l]|].
    - exfalso. eapply NS. reflexivity.
    - split; [discriminate|]. intros s c. split; [discriminate|]. intros (l & O & _). inversion O.
    - cbn [load] in *.
      destruct (forallb (fun e => existsb (bytes_eqb (fst e)) [txt "options"; txt "service_types"; txt "plugins"]) l) eqn:ON.
      2:{ split; [discriminate|]. intros s c. split; [discriminate|]. intros (l' & O & _).
          inversion O as [|? ON'|? ? ON']; subst; apply only_iff in ON'; congruence. }
      apply only_iff in ON.
      destruct (get (txt "options") l) as [v|] eqn:G; apply get_given in G.
      + destruct v as [raw s|vs|o].
        1,2: split; [discriminate|]; intros s' c; split; [discriminate|]; intros (l' & O & _);
             inversion O as [|? ? G'|? ? ? G']; subst; pose proof (given_det _ _ _ _ G G'); discriminate.
        apply (RUN o).
        * now apply OOptions.
        * intros l' O. inversion O as [|? ? G'|? ? ? G']; subst; pose proof (given_det _ _ _ _ G G'); congruence.
        * reflexivity.
      + apply (RUN []).
        * now apply ONoOptions.
        * intros l' O. inversion O as [|? ? G'|? ? ? G']; subst; [reflexivity|]. pose proof (given_det _ _ _ _ G G'); congruence.
        * apply no_options_read.
    - apply (RUN []).
      + constructor.
      + intros l' O. inversion O. reflexivity.
      + apply no_options_read.
  Qed.

  (** ** Threads *)

  Theorem config_workers root force s c : config gai root force s c -> workers (dns_addrs s) (dns_threads s).
  Proof.
    intros (l & _ & (d & lo & co & _ & _ & _ & _ & _ & _ & _ & _ & _ & _ & _ & _ & _ & _ & _ & T & _) & _) i udp.
    rewrite T, <- all_threads_flat. exact (all_threads_count (dns_addrs s) i udp 0%nat).
  Qed.
End Gai.
