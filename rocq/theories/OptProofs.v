(** Proofs about reading options *)
From Coq Require Import Lia.
From Verif Require Import Base CompModel CompProofs MonModel VscfModel OptModel OptSpec.
Local Open Scope N_scope.

(** ** Numbers *)

Lemma digit_of_iff c d : digit_of c = Some d <-> digit c d.
Proof.
  unfold digit_of. split.
  - destruct ((48 <=? c) && (c <=? 57)) eqn:E1.
    { intros [= <-]. replace c with (48 + (c - 48)) at 1 by lia. apply Digit. lia. }
    destruct ((97 <=? c) && (c <=? 102)) eqn:E2.
    { intros [= <-]. replace c with (87 + (c - 87)) at 1 by lia. apply Lower; lia. }
    destruct ((65 <=? c) && (c <=? 70)) eqn:E3; [|discriminate].
    intros [= <-]. replace c with (55 + (c - 55)) at 1 by lia. apply Upper; lia.
  - intros H. inversion H; subst.
    + replace ((48 <=? 48 + d) && (48 + d <=? 57)) with true by lia. f_equal. lia.
    + replace ((48 <=? 87 + d) && (87 + d <=? 57)) with false by lia.
      replace ((97 <=? 87 + d) && (87 + d <=? 102)) with true by lia. f_equal. lia.
    + replace ((48 <=? 55 + d) && (55 + d <=? 57)) with false by lia.
      replace ((97 <=? 55 + d) && (55 + d <=? 102)) with false by lia.
      replace ((65 <=? 55 + d) && (55 + d <=? 70)) with true by lia. f_equal. lia.
Qed.

Lemma digit_in_iff base c d : digit_in base c = Some d <-> digit c d /\ d < base.
Proof.
  unfold digit_in. rewrite <- digit_of_iff. destruct (digit_of c) as [x|].
  - destruct (N.ltb_spec x base); split; intros H1.
    + injection H1 as <-. auto.
    + destruct H1 as [[= <-] ?]. auto.
    + discriminate.
    + destruct H1 as [[= <-] ?]. lia.
  - split; [discriminate|intros [? _]; discriminate].
Qed.

Lemma digits_in_sound base s : forall acc v pre, digits base pre acc -> digits_in base acc s = (v, []) ->
  digits base (pre ++ s) v.
Proof.
  induction s as [|c s IH]; intros acc v pre P E; cbn in E.
  - injection E as <-. now rewrite app_nil_r.
  - destruct (digit_in base c) as [d|] eqn:D; [|discriminate].
    apply digit_in_iff in D as [D L].
    replace (pre ++ c :: s) with ((pre ++ [c]) ++ s) by now rewrite <- app_assoc.
    eapply IH; [|exact E]. now apply DS.
Qed.

Lemma digits_in_app base ds v : digits base ds v -> forall r, digits_in base 0 (ds ++ r) = digits_in base v r.
Proof.
  induction 1 as [|ds v c d H IH Hd L]; intros r; [reflexivity|].
  rewrite <- app_assoc, IH. cbn. rewrite (proj2 (digit_in_iff base c d)) by auto. reflexivity.
Qed.

Lemma digits_in_iff base s v : digits_in base 0 s = (v, []) <-> digits base s v.
Proof.
  split; intros H.
  - apply (digits_in_sound base s 0 v [] (D0 base) H).
  - rewrite <- (app_nil_r s), (digits_in_app _ _ _ H). reflexivity.
Qed.

Lemma digits_head base c ds v : digits base (c :: ds) v -> exists d, digit_in base c = Some d.
Proof.
  intros H. apply digits_in_iff in H. cbn in H. destruct (digit_in base c) as [d|]; [eauto|discriminate].
Qed.

Lemma skip_space_app sp s : forallb isspace sp = true -> skip_space (sp ++ s) = skip_space s.
Proof.
  induction sp as [|c sp IH]; cbn; [reflexivity|]. intros H. apply andb_prop in H as [-> H]. auto.
Qed.

Lemma skip_space_id s c t : s = c :: t -> isspace c = false -> skip_space s = s.
Proof. intros -> H. cbn. now rewrite H. Qed.

Lemma skip_space_split s : exists sp, s = sp ++ skip_space s /\ forallb isspace sp = true.
Proof.
  induction s as [|c s (sp & E & F)]; [exists []; auto|]. cbn.
  destruct (isspace c) eqn:I.
  - exists (c :: sp). cbn. rewrite I. split; [now f_equal|assumption].
  - exists []. auto.
Qed.

Definition u64 (neg : bool) (v : N) : N := if neg then (two64 - v) mod two64 else v.

(** What is read after the sign *)
Definition unsig (neg : bool) (s0 s : bytes) : bool * N * bytes :=
  let fin (base : N) (ds : bytes) :=
    let '(v, rest) := digits_in base 0 ds in
    if two64 <=? v then (true, two64 - 1, rest) else (false, u64 neg v, rest) in
  match s with
  | [] => (false, 0, s0)
  | c :: t =>
      if c =? 48 then
        match t with
        | x :: y :: _ =>
            if ((x =? 120) || (x =? 88)) && match digit_in 16 y with Some _ => true | None => false end
            then fin 16 (tl t) else fin 8 s
        | _ => fin 8 s
        end
      else match digit_in 10 c with Some _ => fin 10 s | None => (false, 0, s0) end
  end.

Lemma strtoul0_unsig s : strtoul0 s =
  match skip_space s with
  | b :: t => if b =? 45 then unsig true s t else if b =? 43 then unsig false s t
              else unsig false s (skip_space s)
  | [] => unsig false s []
  end.
Proof.
  unfold strtoul0. destruct (skip_space s) as [|b t]; [reflexivity|].
  destruct (b =? 45); [reflexivity|]. destruct (b =? 43); reflexivity.
Qed.

Lemma fin_iff (neg : bool) base ds n :
  (let '(v, rest) := digits_in base 0 ds in
   if two64 <=? v then (true, two64 - 1, rest) else (false, u64 neg v, rest)) = (false, n, []) <->
  exists v, digits base ds v /\ v < two64 /\ n = u64 neg v.
Proof.
  destruct (digits_in base 0 ds) as [v rest] eqn:E. destruct (N.leb_spec two64 v) as [L|L].
  - split; [discriminate|]. intros (w & D & W & _). apply digits_in_iff in D. rewrite D in E.
    injection E as -> _. lia.
  - split.
    + intros H. assert (rest = []) as -> by (apply (f_equal snd) in H; exact H).
      apply (f_equal (fun p => snd (fst p))) in H. cbn [fst snd] in H.
      exists v. rewrite <- digits_in_iff. auto.
    + intros (w & D & W & ->). apply digits_in_iff in D. rewrite D in E. now injection E as -> <-.
Qed.

Lemma zero_digit : digit_in 8 48 = Some 0.
Proof. reflexivity. Qed.

Lemma oct_iff t v : digits 8 (48 :: t) v <-> digits 8 t v.
Proof. rewrite <- !digits_in_iff. cbn [digits_in]. rewrite zero_digit. reflexivity. Qed.

Lemma unsig_iff neg s0 s n : s0 <> [] ->
  unsig neg s0 s = (false, n, []) <-> exists v, c_unsigned s v /\ v < two64 /\ n = u64 neg v.
Proof.
  intros N0. destruct s as [|c t].
  { cbn. split; [intros [= _ ?]; contradiction|]. intros (v & H & _). inversion H. }
  cbn [unsig].
  assert (O8 : digits_in 8 0 (48 :: t) = digits_in 8 0 t) by reflexivity.
  destruct (N.eqb_spec c 48) as [->|Nc].
  - assert (oct : forall P : Prop, (P <-> exists v, digits 8 (48 :: t) v /\ v < two64 /\ n = u64 neg v) ->
      (forall x ds v, t = x :: ds -> (x = 120 \/ x = 88) -> ds <> [] -> digits 16 ds v -> False) ->
      P <-> exists v, c_unsigned (48 :: t) v /\ v < two64 /\ n = u64 neg v).
    { intros P -> X. split; intros (v & D & L & E); exists v; (split; [|auto]).
      - apply COct. now apply oct_iff.
      - inversion D; subst; [contradiction|now apply oct_iff|].
        exfalso. eapply X; eauto. }
    destruct t as [|x [|y t]].
    + apply oct; [apply fin_iff|discriminate].
    + apply oct; [apply fin_iff|]. intros x' ds v [= <- <-] _ W. contradiction.
    + destruct (((x =? 120) || (x =? 88)) && match digit_in 16 y with Some _ => true | None => false end) eqn:E.
      * apply andb_prop in E as [Ex Ey]. cbn [tl]. rewrite fin_iff.
        assert (Hx : x = 120 \/ x = 88) by lia.
        split; intros (v & D & L & E); exists v; (split; [|auto]).
        -- now apply CHex.
        -- inversion D as [? ? ? Z|ds w D8|x' ds w X W D16]; subst; [contradiction| |assumption].
           apply digits_head in D8 as [d D8]. destruct Hx; subst x; discriminate.
      * apply oct; [apply fin_iff|]. intros x' ds v [= <- <-] X W D16.
        apply digits_head in D16 as [d D16]. rewrite D16 in E.
        replace ((x =? 120) || (x =? 88)) with true in E by lia. discriminate.
  - destruct (digit_in 10 c) as [d|] eqn:D.
    + rewrite fin_iff. split; intros (v & H & L & E); exists v; (split; [|auto]).
      * now apply CDec.
      * inversion H; subst; [assumption|contradiction|contradiction].
    + split; [intros [= _ ?]; contradiction|]. intros (v & H & _). exfalso.
      inversion H; subst; [|contradiction|contradiction].
      match goal with X : digits 10 _ _ |- _ => apply digits_head in X as [x X]; rewrite X in D end. discriminate.
Qed.

Lemma digit_no_space base c d : digit_in base c = Some d -> isspace c = false /\ c <> 45 /\ c <> 43.
Proof.
  intros H. apply digit_in_iff in H as [H _]. unfold isspace. inversion H; subst; lia.
Qed.

Lemma unsigned_head u v : c_unsigned u v -> exists c t, u = c :: t /\ isspace c = false /\ c <> 45 /\ c <> 43.
Proof.
  intros H. inversion H as [c ds w ? D|ds w D|x ds w ? ? D]; subst.
  - apply digits_head in D as [d D]. exists c, ds. split; [reflexivity|]. eapply digit_no_space; eauto.
  - exists 48, ds. repeat split; try discriminate.
  - exists 48, (x :: ds). repeat split; try discriminate.
Qed.

Theorem as_ulong_iff s n : as_ulong s = Some n <-> c_integer s n.
Proof.
  unfold as_ulong. destruct s as [|b0 s0].
  { split; [discriminate|]. intros (sp & sg & u & v & E & _ & U & _).
    destruct (unsigned_head u v U) as (c & t & -> & _). destruct sp; [destruct sg|]; discriminate. }
  set (s := b0 :: s0) in *.
  assert (N0 : s <> []) by discriminate.
  transitivity (strtoul0 s = (false, n, [])).
  { destruct (strtoul0 s) as [[err m] rest]. destruct rest; [destruct err|]; split; intros H; try discriminate.
    - injection H as ->; reflexivity.
    - apply (f_equal (fun p => snd (fst p))) in H. cbn [fst snd] in H. now rewrite H. }
  rewrite strtoul0_unsig. split.
  - intros H. destruct (skip_space_split s) as (sp & E & F).
    destruct (skip_space s) as [|b t] eqn:K.
    { apply (unsig_iff _ _ _ _ N0) in H as (v & U & _). inversion U. }
    destruct (N.eqb_spec b 45) as [->|N45]; [|destruct (N.eqb_spec b 43) as [->|N43]];
      apply (unsig_iff _ _ _ _ N0) in H as (v & U & L & ->).
    + exists sp, [45], t, v. do 4 (split; [assumption|]). cbn [u64]. auto.
    + exists sp, [43], t, v. do 4 (split; [assumption|]). cbn [u64]. auto.
    + exists sp, [], (b :: t), v. do 4 (split; [assumption|]). cbn [u64]. auto.
  - intros (sp & sg & u & v & E & F & U & L & R).
    destruct (unsigned_head u v U) as (c & t & Eu & I & N45 & N43).
    assert (K : skip_space (sg ++ u) = sg ++ u).
    { destruct R as [[[-> | ->] _]|[-> _]]; cbn [app].
      - eapply skip_space_id; eauto.
      - reflexivity.
      - reflexivity. }
    assert (KS : skip_space s = sg ++ u) by (rewrite E, skip_space_app; assumption).
    rewrite KS.
    destruct R as [[[-> | ->] ->]|[-> ->]]; cbn [app].
    + subst u. rewrite (proj2 (N.eqb_neq c 45)), (proj2 (N.eqb_neq c 43)) by assumption.
      apply unsig_iff; [assumption|]. exists v. auto.
    + apply unsig_iff; [assumption|]. exists v. auto.
    + apply unsig_iff; [assumption|]. exists v. auto.
Qed.

Lemma c_integer_det s n m : c_integer s n -> c_integer s m -> n = m.
Proof. rewrite <- !as_ulong_iff. congruence. Qed.

(** ** true and false *)

Lemma one_iff a c : 97 <= a <= 122 -> one (a - 32) a c = true <-> (if (65 <=? c) && (c <=? 90) then c + 32 else c) = a.
Proof. unfold one. destruct ((65 <=? c) && (c <=? 90)) eqn:E; lia. Qed.

Theorem as_bool_iff s b : as_bool s = Some b <-> c_bool s b.
Proof.
  unfold c_bool. split.
  - unfold as_bool. destruct s as [|? [|? [|? [|? [|? [|? s]]]]]]; try discriminate;
    match goal with |- context [if ?x then _ else _] => destruct x eqn:E end; try discriminate; intros [= <-];
    repeat (apply andb_prop in E as [E ?]);
    repeat match goal with H : one _ ?a _ = true |- _ =>
      apply (one_iff a) in H; [|lia] end; cbn [map]; congruence.
  - destruct b; intros H.
    + destruct s as [|? [|? [|? [|? [|? s]]]]]; try discriminate. cbn [map] in H. injection H as H1 H2 H3 H4.
      cbn [as_bool]. apply (one_iff 116) in H1; [|lia]. apply (one_iff 114) in H2; [|lia].
      apply (one_iff 117) in H3; [|lia]. apply (one_iff 101) in H4; [|lia].
      cbn in H1, H2, H3, H4. now rewrite H1, H2, H3, H4.
    + destruct s as [|? [|? [|? [|? [|? [|? s]]]]]]; try discriminate. cbn [map] in H. injection H as H1 H2 H3 H4 H5.
      cbn [as_bool]. apply (one_iff 102) in H1; [|lia]. apply (one_iff 97) in H2; [|lia].
      apply (one_iff 108) in H3; [|lia]. apply (one_iff 115) in H4; [|lia]. apply (one_iff 101) in H5; [|lia].
      cbn in H1, H2, H3, H4, H5. now rewrite H1, H2, H3, H4, H5.
Qed.

(** ** Entries *)

Lemma get_given l k o : get k l = o <-> given l k o.
Proof.
  revert o. induction l as [|[k' v] l IH]; intros o; cbn [get].
  - split.
    + intros <-. cbn. auto.
    + destruct o; cbn; [|reflexivity]. intros (l1 & l2 & E & _). destruct l1; discriminate.
  - destruct (bytes_eqb k k') eqn:E.
    + apply bytes_eqb_spec in E as ->. split.
      * intros <-. cbn. exists [], l. auto.
      * destruct o as [w|]; cbn.
        -- intros (l1 & l2 & E & Nin). destruct l1 as [|[k1 v1] l1]; cbn in *; [congruence|].
           exfalso. apply Nin. left. congruence.
        -- intros Nin. exfalso. apply Nin. auto.
    + assert (D : k' <> k) by (intros ->; assert (bytes_eqb k k = true) by (now apply bytes_eqb_spec); congruence).
      rewrite IH. destruct o as [w|]; cbn.
      * split; intros (l1 & l2 & E1 & Nin).
        -- exists ((k', v) :: l1), l2. split; [cbn; congruence|]. cbn. intros [?|?]; auto.
        -- destruct l1 as [|[k1 v1] l1]; cbn in *; [congruence|].
           injection E1 as E1 E2 E3. exists l1, l2. split; [assumption|]. intros ?. apply Nin. auto.
      * split; [intros ? [?|?]|intros ? ?]; auto.
Qed.

Lemma c_str_iff s t : c_str s = t <-> text_of s t.
Proof.
  unfold text_of. revert t. induction s as [|c s IH]; intros t; cbn [c_str].
  - split; [intros <-; auto|]. intros (_ & [<-|(r & E)]); [reflexivity|]. destruct t; discriminate.
  - destruct (N.eqb_spec c 0) as [->|Nc].
    + split.
      * intros <-. split; [auto|]. right. exists s. reflexivity.
      * intros (Nin & [<-|(r & E)]); [exfalso; apply Nin; now left|].
        destruct t as [|x t]; [reflexivity|]. exfalso. apply Nin. left. cbn in E. congruence.
    + split.
      * intros <-. destruct (proj1 (IH _) eq_refl) as (Nin & R). split.
        -- intros [?|?]; [congruence|auto].
        -- destruct R as [R|(r & R)]; [left; congruence|right; exists r; cbn; congruence].
      * intros (Nin & R). destruct t as [|x t].
        { destruct R as [R|(r & R)]; [discriminate|]. cbn in R. congruence. }
        assert (x = c /\ text_of s t) as [-> T].
        { destruct R as [R|(r & R)]; cbn in R; injection R as R1 R2; (split; [auto|]);
          (split; [intros ?; apply Nin; now right|]); [left|right]; eauto. }
        f_equal. apply IH. exact T.
Qed.

(** ** Readers *)

(** Getting through an option: it was acceptable, and reading went on *)

Lemma look_seq l k {B} (f : option vnode -> reader B) ks : rseq (look (VH l) k) f ks = f (get k l) (k :: ks).
Proof. reflexivity. Qed.

Lemma uint_through l k lo hi d {B} (f : N -> reader B) ks X : hi < two32 ->
  rseq (opt_uint (VH l) k lo hi d) f ks = X -> X <> Ok None ->
  exists n, number l k lo hi d n /\ f n (k :: ks) = X.
Proof.
  intros Hhi E NN. unfold opt_uint in E. unfold rseq at 1 in E. rewrite look_seq in E.
  destruct (get k l) as [[raw v|?|?]|] eqn:G; cbn in E; try congruence.
  - destruct (as_ulong v) as [n|] eqn:U; cbn in E; try congruence.
    destruct ((n <? lo) || (hi <? n)) eqn:R; cbn in E; try congruence.
    apply get_given in G. apply as_ulong_iff in U. exists n.
    rewrite N.mod_small in E by lia.
    split; [|exact E]. right. exists raw, v. split; [assumption|]. split; [assumption|]. lia.
  - apply get_given in G. exists d. split; [left; auto|exact E].
Qed.

Lemma given_det l k o o' : given l k o -> given l k o' -> o = o'.
Proof. rewrite <- !get_given. congruence. Qed.

Lemma number_get l k lo hi d n : number l k lo hi d n ->
  (get k l = None /\ n = d) \/ (exists raw s, get k l = Some (VS raw s) /\ as_ulong s = Some n /\ lo <= n <= hi).
Proof.
  intros [[G ->]|(raw & s & G & C & R)]; [left|right; exists raw, s]; rewrite get_given, ?as_ulong_iff; auto.
Qed.

Lemma uint_go l k lo hi d n {B} (f : N -> reader B) ks :
  number l k lo hi d n -> hi < two32 -> rseq (opt_uint (VH l) k lo hi d) f ks = f n (k :: ks).
Proof.
  intros H Hhi. unfold opt_uint. unfold rseq at 1. rewrite look_seq.
  apply number_get in H as [[-> ->]|(raw & s & -> & -> & R)]; [reflexivity|].
  replace ((n <? lo) || (hi <? n)) with false by lia. cbn. now rewrite N.mod_small by lia.
Qed.

Lemma number_det l k lo hi d n m : number l k lo hi d n -> number l k lo hi d m -> n = m.
Proof.
  intros H H'. apply number_get in H, H'.
  destruct H as [[? ?]|(r & s & ? & ? & _)], H' as [[? ?]|(r' & s' & ? & ? & _)]; congruence.
Qed.

Lemma bool_through l k d {B} (f : bool -> reader B) ks X :
  rseq (opt_bool (VH l) k d) f ks = X -> X <> Ok None ->
  exists b, flag l k d b /\ f b (k :: ks) = X.
Proof.
  intros E NN. unfold opt_bool in E. unfold rseq at 1 in E. rewrite look_seq in E.
  destruct (get k l) as [[raw v|?|?]|] eqn:G; cbn in E; try congruence.
  - destruct (as_bool v) as [b|] eqn:U; cbn in E; try congruence.
    apply get_given in G. apply as_bool_iff in U. exists b.
    split; [|exact E]. right. exists raw, v. auto.
  - apply get_given in G. exists d. split; [left; auto|exact E].
Qed.

Lemma bool_go l k d b {B} (f : bool -> reader B) ks :
  flag l k d b -> rseq (opt_bool (VH l) k d) f ks = f b (k :: ks).
Proof.
  intros H. unfold opt_bool. unfold rseq at 1. rewrite look_seq.
  destruct H as [[G ->]|(raw & s & G & U)]; apply get_given in G; rewrite G; [reflexivity|].
  apply as_bool_iff in U. now rewrite U.
Qed.

Lemma str_through l k d {B} (f : option bytes -> reader B) ks X :
  rseq (opt_str (VH l) k d) f ks = X -> X <> Ok None ->
  exists o, text l k d o /\ f o (k :: ks) = X.
Proof.
  intros E NN. unfold opt_str in E. unfold rseq at 1 in E. rewrite look_seq in E.
  destruct (get k l) as [[raw v|?|?]|] eqn:G; cbn in E; try congruence.
  - apply get_given in G. exists (Some (c_str v)). split; [|exact E].
    right. exists raw, v, (c_str v). split; [assumption|]. split; [now apply c_str_iff|reflexivity].
  - apply get_given in G. exists d. split; [left; auto|exact E].
Qed.

Lemma str_go l k d o {B} (f : option bytes -> reader B) ks :
  text l k d o -> rseq (opt_str (VH l) k d) f ks = f o (k :: ks).
Proof.
  intros H. unfold opt_str. unfold rseq at 1. rewrite look_seq.
  destruct H as [[G ->]|(raw & s & t & G & U & ->)]; apply get_given in G; rewrite G; [reflexivity|].
  apply c_str_iff in U. cbn. now rewrite U.
Qed.

Lemma removed_seq l k {B} (f : unit -> reader B) ks : rseq (opt_removed (VH l) k) f ks = f tt (k :: ks).
Proof. reflexivity. Qed.

Lemma need_through b {B} (f : unit -> reader B) ks X :
  rseq (need b) f ks = X -> X <> Ok None -> b = true /\ f tt ks = X.
Proof. destruct b; cbn; [auto|congruence]. Qed.

Lemma need_go b {B} (f : unit -> reader B) ks : b = true -> rseq (need b) f ks = f tt ks.
Proof. intros ->. reflexivity. Qed.

Lemma seq_ret {A B} (a : A) (f : A -> reader B) ks : rseq (rret a) f ks = f a ks.
Proof. reflexivity. Qed.

Lemma rseq_assoc {A B C} (m : reader A) (f : A -> reader B) (g : B -> reader C) ks :
  rseq (rseq m f) g ks = rseq m (fun a => rseq (f a) g) ks.
Proof. unfold rseq. destruct (m ks) as [[[a ks']|]|]; reflexivity. Qed.

Lemma only_iff l ks : forallb (fun e => existsb (bytes_eqb (fst e)) ks) l = true <-> only l ks.
Proof.
  rewrite forallb_forall. unfold only. split.
  - intros H k Hk. apply in_map_iff in Hk as (e & <- & He). specialize (H e He).
    apply existsb_exists in H as (x & Hx & E). apply bytes_eqb_spec in E as ->. exact Hx.
  - intros H e He. apply existsb_exists. exists (fst e). split; [|now apply bytes_eqb_spec].
    apply H. now apply in_map.
Qed.

Lemma others_through l {B} (f : unit -> reader B) ks X :
  rseq (no_others (VH l)) f ks = X -> X <> Ok None -> only l ks /\ f tt ks = X.
Proof.
  unfold rseq, no_others. destruct (forallb _ l) eqn:E; [|congruence].
  apply only_iff in E. auto.
Qed.

Lemma others_go l {B} (f : unit -> reader B) ks :
  only l ks -> rseq (no_others (VH l)) f ks = f tt ks.
Proof. intros H. unfold rseq, no_others. apply only_iff in H. now rewrite H. Qed.

Lemma only_perm l ks ks' : (forall k, In k ks <-> In k ks') -> only l ks -> only l ks'.
Proof. intros H O k Hk. apply H, O, Hk. Qed.
