(** What metafo and geoip add to the configurations of others is as orderly as the file *)
From Coq Require Import String ZArith Permutation.
From Verif Require Import Base DnameModel DnameSpec CompModel CompProofs RespModel MonModel VscfModel VscfSpec OptModel VhashModel VhashSpec VhashProofs2 PlugModel MsgModel LtreeModel PconfModel PconfSpec PconfProofs PconfProofs2 PconfProofs7 McfModel McfSpec McfProofs McfProofs2 McfProofs3 McfProofs5.
Local Open Scope nat_scope.
Local Open Scope list_scope.
Local Notation length := List.length.
Ltac Zify.zify_post_hook ::= idtac.

Section Whole.
  Variable strtod : bytes -> option dbl.
  (** All that is asked of an entry *)
  Definition good (e : bytes * vnode) : Prop :=
    (forall k, kept k e) /\ (no_nan strtod (snd e) /\ (fst e = k_thresh -> forall r v, snd e = VS r v -> strtod v <> Some NaN)) /\ (fst e <> [] /\ labelled (snd e)).
  Definition whole (h : hash) : Prop := NoDup (map fst h) /\ Forall good h.

  Lemma whole_fine k h : whole h -> fine k h.
  Proof. intros (N & F). split; [exact N|]. eapply Forall_impl; [|exact F]. intros e (K & _). apply K. Qed.
  Lemma whole_nan h : whole h -> no_nan strtod (VH h).
  Proof. intros (_ & F). constructor. eapply Forall_impl; [|exact F]. intros e (_ & X & _). exact X. Qed.
  Lemma whole_labels h : whole h -> labelled (VH h).
  Proof. intros (_ & F). constructor. eapply Forall_impl; [|exact F]. intros e (_ & _ & X). exact X. Qed.
  Lemma whole_distinct h : whole h -> distinct (VH h).
  Proof. intros (N & F). constructor; [exact N|]. eapply Forall_impl; [|exact F]. intros e (K & _). apply (K Metafo). Qed.
  Lemma whole_bytes h : whole h -> raw_bytes (VH h).
  Proof. intros (N & F). constructor. eapply Forall_impl; [|exact F]. intros e (K & _). apply (K Metafo). Qed.
  Lemma whole_plain h : whole h -> plain (VH h).
  Proof. intros (N & F). constructor. eapply Forall_impl; [|exact F]. intros e (K & _). destruct (K Metafo) as (_ & _ & P & _ & Z & _). auto. Qed.
  Lemma whole_safe k h : whole h -> safe k (VH h).
  Proof. intros (N & F). constructor. eapply Forall_impl; [|exact F]. intros e (K & _). destruct (K k) as (_ & _ & _ & S & _ & A & B). auto. Qed.
  Lemma whole_is h : distinct (VH h) -> raw_bytes (VH h) -> plain (VH h) -> (forall k, safe k (VH h)) -> no_nan strtod (VH h) -> labelled (VH h) -> whole h.
  Proof.
    intros D R P S NN LA. assert (F : forall k, fine k h) by (intros k; now apply fine_is). split; [apply (F Metafo)|]. inversion NN as [| |? FN]; subst. inversion LA as [| |? FL]; subst.
    rewrite Forall_forall in *. intros e I. split; [intros k; now apply (fine_in k h)|]. split; auto.
  Qed.
  Lemma whole_inner h n x : whole h -> In (n, VH x) h -> whole x.
  Proof.
    intros (_ & F) I. rewrite Forall_forall in F. destruct (F _ I) as (K & (NN & _) & (_ & LA)). destruct (K Metafo) as (A & B & C & _). apply whole_is; try assumption. intros k. apply (K k).
  Qed.
  Lemma whole_others D h : whole h -> whole (others D h).
  Proof. intros (N & F). split; [now apply nodup_others|now apply forall_others]. Qed.
  Lemma whole_filled h o : whole h -> whole o -> whole (filled h o).
  Proof. intros (N & F) (N' & F'). split; [now apply nodup_filled|now apply forall_filled]. Qed.
  (** A hash under a name *)
  Lemma good_hash n h : whole h -> ~ In 0%N n -> n <> [] -> n <> k_skip -> good (n, VH h).
  Proof.
    intros W Z NE NS. split; [|split; split; cbn [fst snd]; [now apply whole_nan|discriminate|exact NE|now apply whole_labels]].
    intros k. split; [now apply whole_distinct|]. split; [now apply whole_bytes|]. split; [now apply whole_plain|]. split; [now apply whole_safe|]. split; [exact Z|]. cbn [fst snd]. split; [congruence|discriminate].
  Qed.
  Lemma whole_snoc n x h : whole h -> get n h = None -> good (n, x) -> whole (h ++ [(n, x)]).
  Proof.
    intros (N & F) G E. split; [|apply Forall_app; split; [exact F|constructor; [exact E|constructor]]]. rewrite map_app. cbn. apply Permutation_NoDup with (l := n :: map fst h); [apply Permutation_cons_append|]. constructor; [now apply get_none|exact N].
  Qed.
  Lemma forall_with_key (Q : bytes * vnode -> Prop) n x h : Forall Q h -> Q (n, x) -> Forall Q (with_key n x h).
  Proof. intros F H. induction F as [|e h QE F IH]; cbn; [constructor; [exact H|constructor]|]. destruct (bytes_eqb n (fst e)); constructor; assumption. Qed.
  Lemma whole_with_key n x h : whole h -> good (n, x) -> whole (with_key n x h).
  Proof. intros (N & F) E. split; [now apply keys_with_key|now apply forall_with_key]. Qed.
  Lemma whole_nil : whole [].
  Proof. split; constructor. Qed.

End Whole.

(** Names of numbers *)
Lemma decimal_digits f : forall n c, In c (decimal_aux f n) -> (48 <= c < 58)%N.
Proof.
  induction f as [|f IH]; intros n c; [intros []|]. cbn [decimal_aux]. pose proof (N.mod_upper_bound n 10 ltac:(discriminate)) as M.
  rewrite in_app_iff. intros [I|[<-|[]]]; [destruct (n <? 10)%N; [destruct I|now apply (IH _ _ I)]|]. split; [apply N.le_add_r|]. change 58%N with (48 + 10)%N. apply N.add_lt_mono_l. exact M.
Qed.
Lemma decimal_some n : decimal n <> [].
Proof. unfold decimal. cbn [decimal_aux]. intros E. now apply app_eq_nil in E as (_ & E). Qed.
Lemma decimal_no_zero n : ~ In 0%N (decimal n).
Proof. intros I. apply decimal_digits in I as (A & _). now apply A. Qed.
Lemma decimal_other n (l : bytes) : (exists c, In c l /\ (58 <= c)%N) -> decimal n <> l.
Proof. intros (c & I & G) <-. apply decimal_digits in I as (_ & L). apply N.lt_nge in L. now apply L. Qed.
Ltac letter := apply decimal_other; eexists; split; [left; reflexivity|discriminate].

Section Whole2.
  Variable strtod : bytes -> option dbl.
  Variable gai : bytes -> option addr.
  Variable service : bytes -> option (bool * bool).
  Variable fq_name : bytes -> option name.
  Variable gdmaps : tab -> option (list (bytes * list bytes)).
  Variable k : kind.
  Local Notation good := (good strtod).
  Local Notation whole := (whole strtod).

  (** Elements of a list, and a value alone, under a number *)
  Lemma good_number n x i : good (n, x) -> is_simple x = true -> good (decimal i, x).
  Proof.
    intros (K & (NN & _) & (_ & LA)) SI. cbn [fst snd] in *. split; [|split; split; cbn [fst snd]; [exact NN| |apply decimal_some|exact LA]].
    - intros k'. destruct (K k') as (A & B & C & D & _). cbn [fst snd] in *. split; [exact A|]. split; [exact B|]. split; [exact C|]. split; [exact D|]. split; [apply decimal_no_zero|]. split; intros E; exfalso; revert E; letter.
    - intros E. exfalso. revert E. letter.
  Qed.
  Lemma good_element n l x : good (n, VA l) -> In x l -> good (decimal 1, x) \/ is_simple x = false.
  Proof.
    intros (K & (NN & _) & (_ & LA)) I. destruct (is_simple x) eqn:SI; [left|now right]. cbn [fst snd] in *. inversion NN as [|? FN|]; subst. inversion LA as [|? FL|]; subst. rewrite Forall_forall in *.
    split; [|split; split; cbn [fst snd]; [auto| |apply decimal_some|auto]].
    - intros k'. destruct (K k') as (A & B & C & D & _). cbn [fst snd] in *. inversion A as [|? FA|]; subst. inversion B as [|? FB|]; subst. inversion C as [|? FC|]; subst. inversion D as [|? FD|]; subst. rewrite Forall_forall in *.
      split; [auto|]. split; [auto|]. split; [auto|]. split; [auto|]. split; [apply decimal_no_zero|]. cbn [fst snd]. split; intros E; exfalso; revert E; letter.
    - intros E. exfalso. revert E. letter.
  Qed.
  Lemma numbered_keys l : forall i n, In n (map fst (numbered_from i l)) -> exists j, n = decimal j /\ (i <= j)%N.
  Proof.
    induction l as [|x l IH]; intros i n; [intros []|]. cbn [numbered_from map fst In]. intros [<-|I]; [exists i; split; [reflexivity|apply N.le_refl]|].
    destruct (IH _ _ I) as (j & -> & L). exists j. split; [reflexivity|]. rewrite N.add_1_r in L. apply N.le_trans with (N.succ i); [apply N.le_succ_diag_r|exact L].
  Qed.
  Lemma numbered_nodup l : forall i, NoDup (map fst (numbered_from i l)).
  Proof.
    induction l as [|x l IH]; intros i; [constructor|]. cbn [numbered_from map fst]. constructor; [|apply IH]. intros I. apply numbered_keys in I as (j & E & L). apply decimal_inj in E. subst j. rewrite N.add_1_r in L. now apply N.nle_succ_diag_l in L.
  Qed.
  Lemma whole_list l : forallb is_simple l = true -> (forall x, In x l -> good (decimal 1, x) \/ is_simple x = false) -> whole ((k_plugin, VS t_multifo t_multifo) :: numbered_from 1 l).
  Proof.
    intros SI G. split.
    - cbn [map fst]. constructor; [|apply numbered_nodup]. intros I. apply numbered_keys in I as (j & E & _). symmetry in E. revert E. letter.
    - constructor.
      + split; [|split; split; cbn [fst snd]; [constructor|discriminate|discriminate|constructor]]. intros k'. split; [constructor|]. split; [constructor; repeat (constructor; [reflexivity|]); constructor|]. split; [constructor|]. split; [constructor; now destruct k'|].
        split; [cbn; intuition discriminate|]. cbn [fst snd]. split; [discriminate|]. intros _ _ r v [= <- <-]. discriminate.
      + assert (X : forall i, Forall good (numbered_from i l)).
        { rewrite forallb_forall in SI. clear -SI G. induction l as [|x l IH]; intros i; [constructor|]. cbn [numbered_from]. constructor; [|apply IH; intros; [apply SI|apply G]; cbn; auto].
          destruct (G x (or_introl eq_refl)) as [G1|F]; [|rewrite SI in F by (cbn; auto); discriminate]. eapply good_number; [exact G1|apply SI; cbn; auto]. }
        apply X.
  Qed.

  Lemma new_whole h shared p data : whole h -> whole shared -> new_says k h shared = Some (MakeNew p data) -> whole data.
  Proof.
    intros W S. unfold new_says. destruct (plugin_says (filled h shared)) as [q|]; [|discriminate]. cbn [obind]. destruct (bytes_eqb q (pn k)); [discriminate|]. cbn [need negb obind]. intros [= _ <-]. now apply whole_others, whole_filled.
  Qed.
  Lemma list_whole l shared p data : (forall x, In x l -> good (decimal 1, x) \/ is_simple x = false) -> whole shared -> list_says k l shared = Some (MakeNew p data) -> whole data.
  Proof.
    intros G S. unfold list_says. destruct (forallb is_simple l) eqn:SI; [|discriminate]. cbn [need obind]. apply new_whole; [now apply whole_list|exact S].
  Qed.
  Lemma dc_whole rname shared n x p data : good (n, x) -> whole shared -> dc_says gai service fq_name k rname shared x = Some (MakeNew p data) -> whole data.
  Proof.
    intros G S. destruct x as [r v|l|h]; cbn [dc_says].
    - assert (L : list_says k [VS r v] shared = Some (MakeNew p data) -> whole data). { apply list_whole; [|exact S]. intros x [<-|[]]. left. now apply good_number with n. }
      assert (GT : forall t, match gai t with Some _ => list_says k [VS r v] shared | None => let? d <- fq_name r; let? svcs <- services (get k_types shared); let? _ <- watched service svcs (OnName (dname d true)); Some (GoTo d svcs) end = Some (MakeNew p data) -> whole data).
      { intros t. destruct (gai t); [exact L|]. destruct (fq_name r) as [d|]; [|discriminate]. cbn [obind]. destruct (services (get k_types shared)) as [sv|]; [|discriminate]. cbn [obind]. destruct (watched service sv (OnName (dname d true))); discriminate. }
      destruct (c_str v) as [|c t]; [apply GT|].
      destruct (N.eq_dec c 37) as [->|N1]; [destruct (split_bang t) as (q, rn); destruct (other_res k rname q rn); discriminate|].
      destruct (N.eq_dec c 33) as [->|N2]; [destruct (plugin_says shared) as [b|]; [|discriminate]; cbn [obind]; destruct (other_res k rname b (Some t)); discriminate|].
      intros E. apply (GT (c :: t)). rewrite <- E. clear -N1 N2. repeat (destruct c as [|c]; try reflexivity; try congruence). all: repeat (destruct c as [c|c|]; try reflexivity; try congruence).
    - apply list_whole; [|exact S]. intros x I. eapply good_element; eauto.
    - apply new_whole; [|exact S]. apply (whole_inner strtod [(n, VH h)] n); [|cbn; auto]. split; [constructor; [intros []|constructor]|constructor; [exact G|constructor]].
  Qed.

  Definition all_whole (T : confs) : Prop := forall p h, T p = Some h -> whole h.
  Lemma c_str_zero l : ~ In 0%N (c_str l).
  Proof. induction l as [|c l IH]; [intros []|]. cbn [c_str]. destruct (c =? 0)%N eqn:E; [intros []|]. intros [->|I]; [discriminate|now apply IH]. Qed.
  Lemma good_child rname n data : ~ In 0%N rname -> ~ In 0%N n -> whole data -> good (child_name k rname n, VH data).
  Proof.
    intros Z1 Z2 W. apply good_hash; [exact W| | |].
    - unfold child_name. rewrite !in_app_iff. intros [I|[I|[I|[I|I]]]]; try (now apply Z1); try (now apply Z2); revert I; try destruct k; cbn; intuition discriminate.
    - unfold child_name. destruct k; discriminate.
    - unfold child_name. destruct k; discriminate.
  Qed.
  Lemma resources_whole h : whole h -> whole (resources_of h).
  Proof. intros W. unfold resources_of. destruct (get k_resources h) as [[r v|l|rs]|] eqn:E; try apply whole_nil. eapply whole_inner; [exact W|]. apply get_some_in. exact E. Qed.
  Lemma conf_whole T p : all_whole T -> whole (conf_of (T p)).
  Proof. intros W. destruct (T p) as [h|] eqn:E; [now apply (W p)|apply whole_nil]. Qed.
  Lemma with_whole T p h : all_whole T -> whole h -> all_whole (with_conf p h T).
  Proof. intros W H q x. unfold with_conf. destruct (bytes_eqb q p); [intros [= <-]; exact H|apply W]. Qed.
  Lemma add_whole rname n w T T' : all_whole T -> ~ In 0%N rname -> ~ In 0%N n -> (forall p data, w = MakeNew p data -> whole data) -> add_new k rname n w T = Some T' -> all_whole T'.
  Proof.
    intros W Z1 Z2 D. unfold add_new. destruct w as [c svcs|p rn|p data]; [intros [= <-]; exact W|intros [= <-]; exact W|]. specialize (D _ _ eq_refl).
    pose proof (good_child rname n data Z1 Z2 D) as G.
    assert (A : forall h h', whole h -> added (child_name k rname n) data h = Some h' -> whole h'). { intros h h' WH E. apply added_grows in E as (GN & ->). now apply whole_snoc. }
    destruct (bytes_eqb p t_metafo).
    - destruct (added (child_name k rname n) data (resources_of (conf_of (T p)))) as [rs|] eqn:E; [|discriminate]. cbn [obind]. intros [= <-]. apply A in E; [|now apply resources_whole, conf_whole]. apply with_whole; [exact W|]. apply whole_with_key; [now apply conf_whole|].
      apply good_hash; [exact E| |discriminate|discriminate]. cbn. intuition discriminate.
    - destruct (added (child_name k rname n) data (conf_of (T p))) as [h|] eqn:E; [|discriminate]. cbn [obind]. intros [= <-]. apply A in E; [|now apply conf_whole]. now apply with_whole.
  Qed.
  Lemma dcs_whole rname centers shared : ~ In 0%N rname -> whole shared -> forall es T y, Forall good es -> all_whole T -> dcs_say gai service fq_name k rname centers shared es T = Some y -> all_whole (snd y).
  Proof.
    intros Z S es. induction es as [|e es IH]; intros T y F W; cbn [dcs_say]; [intros [= <-]; exact W|]. inversion F as [|? ? GE F']; subst.
    destruct (need (among centers (c_str (fst e)))); [|discriminate]. cbn [obind]. destruct (dc_says gai service fq_name k rname shared (snd e)) as [w|] eqn:E1; [|discriminate]. cbn [obind].
    destruct (add_new k rname (c_str (fst e)) w T) as [T1|] eqn:E2; [|discriminate]. cbn [obind]. destruct (dcs_say gai service fq_name k rname centers shared es T1) as [y1|] eqn:E3; [|discriminate]. cbn [obind]. intros [= <-]. cbn [snd]. apply (IH T1); [exact F'| |exact E3].
    apply (add_whole rname (c_str (fst e)) w T); [exact W|exact Z|apply c_str_zero| |exact E2]. intros p data ->. destruct e as (n, x). eapply dc_whole; eauto.
  Qed.
  Lemma res_whole undef maps outer e T y : good e -> whole outer -> all_whole T -> res_says gai service fq_name k undef maps outer e T = Some y -> all_whole (snd y).
  Proof.
    intros G O W. unfold res_says. destruct e as (n, [| |r]); cbn [snd fst]; try discriminate.
    assert (WR : whole r). { apply (whole_inner strtod [(n, VH r)] n); [|cbn; auto]. split; [constructor; [intros []|constructor]|constructor; [exact G|constructor]]. }
    destruct (centers_say k maps (filled r outer)) as [c|]; [|discriminate]. cbn [obind]. destruct (boolean (get k_skip (filled r outer))); [|discriminate]. cbn [obind].
    destruct (get k_dcmap (filled r outer)) as [[| |dm]|] eqn:ED; try discriminate. cbn [obind]. match goal with |- context [need ?b] => destruct b end; [|discriminate]. cbn [need obind].
    destruct (dcs_say gai service fq_name k (c_str n) (snd c) (others (own_keys k) (filled r outer)) dm T) as [y1|] eqn:E; [|discriminate]. cbn [obind]. intros [= <-]. cbn [snd]. eapply dcs_whole; [| | |exact W|exact E].
    - apply c_str_zero.
    - now apply whole_others, whole_filled.
    - apply (whole_inner strtod (filled r outer) k_dcmap); [now apply whole_filled|]. now apply get_some_in.
  Qed.
  Lemma ress_whole undef maps outer : whole outer -> forall es T y, Forall good es -> all_whole T -> ress_say gai service fq_name k undef maps outer es T = Some y -> all_whole (snd y).
  Proof.
    intros O es. induction es as [|e es IH]; intros T y F W; cbn [ress_say]; [intros [= <-]; exact W|]. inversion F as [|? ? GE F']; subst.
    destruct (res_says gai service fq_name k undef maps outer e T) as [x|] eqn:E1; [|discriminate]. cbn [obind]. destruct (ress_say gai service fq_name k undef maps outer es (snd x)) as [y1|] eqn:E2; [|discriminate]. cbn [obind]. intros [= <-]. cbn [snd].
    apply (IH (snd x)); [exact F'| |exact E2]. eapply res_whole; eauto.
  Qed.
  Lemma meta_whole h T y : whole h -> all_whole T -> meta_says gai service fq_name k gdmaps h T = Some y -> all_whole (snd y).
  Proof.
    intros WH W. unfold meta_says. destruct (maps_say k gdmaps h) as [maps|]; [|discriminate]. cbn [obind]. destruct (undef_says k h) as [undef|]; [|discriminate]. cbn [obind].
    destruct (get k_resources h) as [[| |rs]|] eqn:E; try discriminate. cbn [obind]. match goal with |- context [need ?b] => destruct b end; [|discriminate]. cbn [need obind]. apply ress_whole; [now apply whole_others| |exact W].
    apply (whole_inner strtod h k_resources); [exact WH|]. now apply get_some_in.
  Qed.
End Whole2.
