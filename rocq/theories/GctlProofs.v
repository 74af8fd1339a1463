From Coq Require Import Lia String.
From Verif Require Import Base MonModel CtlModel CscModel GctlModel GctlSpec.
Local Open Scope nat_scope.
Local Notation length := List.length.

Lemma same_bytes_iff a : forall b, same_bytes a b = true <-> a = b.
Proof.
  induction a as [|x a IH]; intros [|y b]; cbn; try (split; [discriminate|discriminate]); [now split|].
  rewrite Bool.andb_true_iff, N.eqb_eq, IH. split; [intros [-> ->]; reflexivity|intros E; injection E; auto].
Qed.

Definition apply (o : opts) (s : setting) : opts :=
  match s with
  | SCfg v => {| o_cfg := Some v; o_addr := o_addr o; o_debug := o_debug o; o_syslog := o_syslog o; o_oneshot := o_oneshot o; o_dead := o_dead o; o_timeo := o_timeo o |}
  | SAddr v => {| o_cfg := o_cfg o; o_addr := Some v; o_debug := o_debug o; o_syslog := o_syslog o; o_oneshot := o_oneshot o; o_dead := o_dead o; o_timeo := o_timeo o |}
  | SDebug => {| o_cfg := o_cfg o; o_addr := o_addr o; o_debug := true; o_syslog := o_syslog o; o_oneshot := o_oneshot o; o_dead := o_dead o; o_timeo := o_timeo o |}
  | SSyslog => {| o_cfg := o_cfg o; o_addr := o_addr o; o_debug := o_debug o; o_syslog := true; o_oneshot := o_oneshot o; o_dead := o_dead o; o_timeo := o_timeo o |}
  | SOneshot => {| o_cfg := o_cfg o; o_addr := o_addr o; o_debug := o_debug o; o_syslog := o_syslog o; o_oneshot := true; o_dead := o_dead o; o_timeo := o_timeo o |}
  | SDead => {| o_cfg := o_cfg o; o_addr := o_addr o; o_debug := o_debug o; o_syslog := o_syslog o; o_oneshot := o_oneshot o; o_dead := true; o_timeo := o_timeo o |}
  | STimeo v n => {| o_cfg := o_cfg o; o_addr := o_addr o; o_debug := o_debug o; o_syslog := o_syslog o; o_oneshot := o_oneshot o; o_dead := o_dead o; o_timeo := n |}
  end.
Notation applies ss o := (fold_left apply ss o).

Lemma flag_plain s o : plain s -> flag (letter s) o = Some (apply o s).
Proof. destruct s; cbn; intros P; try discriminate P; reflexivity. Qed.
Lemma flag_arg s v o : argument s = Some v -> flag (letter s) o = None /\ with_arg (letter s) = true.
Proof. destruct s; cbn; intros P; try discriminate P; split; reflexivity. Qed.
Lemma set_legal s v o : argument s = Some v -> legal s -> set_arg (letter s) v o = Some (apply o s).
Proof.
  destruct s; cbn [argument letter]; intros P L; try discriminate P; injection P as <-; try reflexivity.
  destruct L as ((junk & E) & L). unfold set_arg. change (116 =? 99)%N with false. change (116 =? 115)%N with false. cbv iota. rewrite E. cbn [orb].
  destruct (N.ltb_spec n 5); [lia|]. destruct (N.ltb_spec 300 n); [lia|]. reflexivity.
Qed.
Lemma flag_inv c o o' : flag c o = Some o' -> exists s, plain s /\ letter s = c /\ o' = apply o s.
Proof.
  unfold flag. destruct (N.eqb_spec c 68) as [->|]. { intros E. injection E as <-. exists SDebug. repeat split. }
  destruct (N.eqb_spec c 108) as [->|]. { intros E. injection E as <-. exists SSyslog. repeat split. }
  destruct (N.eqb_spec c 111) as [->|]. { intros E. injection E as <-. exists SOneshot. repeat split. }
  destruct (N.eqb_spec c 105) as [->|]; [|discriminate]. intros E. injection E as <-. exists SDead. repeat split.
Qed.
Lemma set_inv c v o o' : with_arg c = true -> set_arg c v o = Some o' -> exists s, argument s = Some v /\ legal s /\ letter s = c /\ o' = apply o s.
Proof.
  unfold with_arg, set_arg. destruct (N.eqb_spec c 99) as [->|N1]. { intros _ E. injection E as <-. exists (SCfg v). repeat split. }
  destruct (N.eqb_spec c 115) as [->|N2]. { intros _ E. injection E as <-. exists (SAddr v). repeat split. }
  cbn [orb]. rewrite N.eqb_eq. intros -> E. destruct (strtoul v) as [[err n] junk] eqn:S. destruct err; cbn [orb] in E; [discriminate E|].
  destruct (N.ltb_spec n 5); cbn [orb] in E; [discriminate E|]. destruct (N.ltb_spec 300 n); [discriminate E|]. injection E as <-.
  exists (STimeo v n). split; [reflexivity|]. split; [|split; reflexivity]. split; [exists junk; exact S|lia].
Qed.

Lemma cluster_flags fs : Forall plain fs -> forall cs o, cluster (map letter fs ++ cs) o = cluster cs (applies fs o).
Proof.
  induction 1 as [|s fs P F IH]; intros cs o; [reflexivity|]. cbn [map app cluster]. rewrite (flag_plain s o P). apply IH.
Qed.
Lemma letter45 s : letter s <> 45%N.
Proof. destruct s; discriminate. Qed.

Lemma words_head fs tl : (fs <> [] \/ exists s t, tl = letter s :: t) -> exists c t, map letter fs ++ tl = c :: t /\ c <> 45%N.
Proof.
  destruct fs as [|f fs]; intros [H|(s & t & ->)]; try contradiction; cbn [map app]; do 2 eexists; (split; [reflexivity|]); apply letter45.
Qed.
Lemma parse_word w c t rest o : w = c :: t -> c <> 45%N -> parse_args ((45%N :: w) :: rest) o =
  match cluster w o with Bad => None | Done o => parse_args rest o
  | Need c o => match rest with [] => None | v :: r => match set_arg c v o with Some o => parse_args r o | None => None end end end.
Proof.
  intros -> N45. cbn [parse_args]. change (45 =? 45)%N with true. cbv iota.
  assert (S : same_bytes (45 :: c :: t)%N [45; 45]%N = false). { apply Bool.not_true_iff_false. rewrite same_bytes_iff. intros E. injection E as E _. now apply N45. }
  rewrite S. reflexivity.
Qed.
Lemma parse_words ss ws : words ss ws -> forall o tail, parse_args (ws ++ tail) o = parse_args tail (applies ss o).
Proof.
  induction 1 as [|fs ss ws NF PF W IH|fs s v ss ws PF A NV LG W IH|fs s v ss ws PF A LG W IH]; intros o tail; [reflexivity| | |]; cbn [app].
  - destruct (words_head fs [] (or_introl NF)) as (c & t & E & N45). rewrite app_nil_r in E. rewrite (parse_word _ c t _ _ E N45).
    rewrite <- (app_nil_r (map letter fs)), cluster_flags by assumption. cbn [cluster]. now rewrite IH, fold_left_app.
  - destruct (words_head fs (letter s :: v)) as (c & t & E & N45); [right; eauto|]. rewrite (parse_word _ c t _ _ E N45), cluster_flags by assumption. cbn [cluster].
    destruct (flag_arg s v (applies fs o) A) as [-> ->]. destruct v as [|v0 v]; [contradiction|]. rewrite (set_legal s _ _ A LG). now rewrite IH, fold_left_app.
  - destruct (words_head fs [letter s]) as (c & t & E & N45); [right; eauto|]. rewrite (parse_word _ c t _ _ E N45), cluster_flags by assumption. cbn [cluster].
    destruct (flag_arg s v (applies fs o) A) as [-> ->]. rewrite (set_legal s _ _ A LG). now rewrite IH, fold_left_app.
Qed.

Lemma cluster_inv : forall cs o, match cluster cs o with
  | Bad => True
  | Done o' => exists fs, Forall plain fs /\ ((cs = map letter fs /\ o' = applies fs o) \/
      exists s v, argument s = Some v /\ v <> [] /\ legal s /\ cs = map letter fs ++ letter s :: v /\ o' = applies (fs ++ [s]) o)
  | Need c o' => exists fs, Forall plain fs /\ cs = map letter fs ++ [c] /\ with_arg c = true /\ o' = applies fs o
  end.
Proof.
  induction cs as [|c cs IH]; intros o; cbn [cluster].
  - exists []. split; [constructor|]. left. split; reflexivity.
  - destruct (flag c o) as [o1|] eqn:F.
    + apply flag_inv in F. destruct F as (s & P & <- & ->). specialize (IH (apply o s)). destruct (cluster cs (apply o s)) as [|o'|c' o']; [exact I| |].
      * destruct IH as (fs & PF & [(-> & ->)|(s2 & v & A & NV & LG & -> & ->)]); exists (s :: fs); (split; [now constructor|]); [left; split; reflexivity|right; exists s2, v; repeat split; auto].
      * destruct IH as (fs & PF & -> & WA & ->). exists (s :: fs). split; [now constructor|]. repeat split; auto.
    + destruct (with_arg c) eqn:WA; [|exact I]. destruct cs as [|c2 cs].
      * exists []. repeat split; auto.
      * destruct (set_arg c (c2 :: cs) o) as [o1|] eqn:S; [|exact I]. apply set_inv in S; auto. destruct S as (s & A & LG & <- & ->). exists []. split; [constructor|]. right.
        exists s, (c2 :: cs). repeat split; auto. discriminate.
Qed.
Lemma parse_inv : forall n args o o' action rest, length args <= n -> parse_args args o = Some (o', action, rest) ->
  exists ss, command_line args ss action rest /\ o' = applies ss o.
Proof.
  induction n as [|n IH]; intros [|a args] o o' action rest L H; try discriminate H; cbn [List.length] in L; [lia|].
  assert (PL : (forall x y, a <> 45%N :: x :: y) -> Some (o, a, args) = Some (o', action, rest) -> exists ss, command_line (a :: args) ss action rest /\ o' = applies ss o).
  { intros NO E. injection E as <- <- <-. exists []. split; [|reflexivity]. exists []. split; [constructor|]. left. split; [reflexivity|exact NO]. }
  destruct a as [|b [|c cs]].
  - apply PL; [discriminate|exact H].
  - apply PL; [discriminate|exact H].
  - destruct (N.eq_dec b 45) as [->|NB].
    2:{ apply PL; [intros x y E; injection E as E _ _; now apply NB|]. cbn [parse_args] in H. destruct (N.eqb_spec b 45); [contradiction|exact H]. }
    clear PL. destruct (N.eq_dec c 45) as [->|NC].
    + destruct cs as [|d cs].
      * cbn in H. destruct args as [|x r]; [discriminate H|]. injection H as <- <- <-. exists []. split; [|reflexivity]. exists []. split; [constructor|]. right. reflexivity.
      * exfalso. cbn in H. discriminate H.
    + rewrite (parse_word _ c cs _ _ eq_refl NC) in H. pose proof (cluster_inv (c :: cs) o) as CI. destruct (cluster (c :: cs) o) as [|o1|k o1]; [discriminate H| |].
      * apply IH in H; [|lia]. destruct H as (ss & (ws & W & CL) & ->). destruct CI as (fs & PF & [(EC & ->)|(s & v & A & NV & LG & EC & ->)]).
        -- exists (fs ++ ss). split; [|now rewrite fold_left_app]. exists ((45%N :: map letter fs) :: ws). split; [constructor; auto; intros ->; discriminate EC|].
           rewrite EC. destruct CL as [(-> & NO)| ->]; [left; split; [reflexivity|exact NO]|right; reflexivity].
        -- exists (fs ++ s :: ss). split; [|rewrite !fold_left_app; reflexivity]. exists ((45%N :: map letter fs ++ letter s :: v) :: ws). split; [now constructor|].
           rewrite EC. destruct CL as [(-> & NO)| ->]; [left; split; [reflexivity|exact NO]|right; reflexivity].
      * destruct args as [|v r]; [discriminate H|]. destruct (set_arg k v o1) as [o2|] eqn:S; [|discriminate H]. destruct CI as (fs & PF & EC & WA & ->).
        apply set_inv in S; auto. destruct S as (s & A & LG & <- & ->). apply IH in H; [|cbn [List.length] in L; lia]. destruct H as (ss & (ws & W & CL) & ->).
        exists (fs ++ s :: ss). split; [|rewrite fold_left_app; reflexivity]. exists ((45%N :: map letter fs ++ [letter s]) :: v :: ws). split; [now constructor|].
        rewrite EC. destruct CL as [(-> & NO)| ->]; [left; split; [reflexivity|exact NO]|right; reflexivity].
Qed.

Lemma applies_fields ss : forall o, let o' := applies ss o in
  o_cfg o' = last_of (fun s => match s with SCfg v => Some (Some v) | _ => None end) (o_cfg o) ss /\
  o_addr o' = last_of (fun s => match s with SAddr v => Some (Some v) | _ => None end) (o_addr o) ss /\
  o_timeo o' = last_of (fun s => match s with STimeo _ n => Some n | _ => None end) (o_timeo o) ss /\
  (o_debug o' = true <-> o_debug o = true \/ In SDebug ss) /\ (o_syslog o' = true <-> o_syslog o = true \/ In SSyslog ss) /\
  (o_oneshot o' = true <-> o_oneshot o = true \/ In SOneshot ss) /\ (o_dead o' = true <-> o_dead o = true \/ In SDead ss).
Proof.
  induction ss as [|s ss IH]; intros o; cbn zeta.
  - cbn. tauto.
  - destruct (IH (apply o s)) as (A & B & C & D & E & F & G). cbn [fold_left last_of In].
    rewrite A, B, C, D, E, F, G. destruct s; cbn [apply o_cfg o_addr o_debug o_syslog o_oneshot o_dead o_timeo];
      (split; [reflexivity|]; split; [reflexivity|]; split; [reflexivity|]); intuition (try discriminate; auto).
Qed.
Lemma meant_applies ss : meant ss (applies ss defaults).
Proof. destruct (applies_fields ss defaults) as (A & B & C & D & E & F & G). cbn [defaults o_debug o_syslog o_oneshot o_dead] in *. unfold meant, given. intuition (try discriminate; auto). Qed.
Lemma meant_unique ss o o' : meant ss o -> meant ss o' -> o = o'.
Proof.
  intros (A & B & C & D & E & F & G) (A' & B' & C' & D' & E' & F' & G'). destruct o as [a b c d e f g], o' as [a' b' c' d' e' f' g']. cbn in *.
  assert (Q : forall x y (P : Prop), (x = true <-> P) -> (y = true <-> P) -> x = y) by (intros [] [] P ? ?; intuition).
  f_equal; try congruence; eapply Q; eauto.
Qed.

(** ** The loop *)
Section Loop.
  Variable buf : bytes.
  Variable o : opts.
  Variable action : bytes.
  Variable args : list bytes.
  Variable stp : attempt -> step.
  Variable rq : list bytes.
  Variable again : bool.
  Variable ok : attempt -> Prop.
  Hypothesis DO : forall a, do_action buf o action args a = Ok (stp a, rq).
  Hypothesis RETRY : forall a, stp a = Retry <-> o_oneshot o = false /\ again = true /\ a_txn a = TxnSoft.
  Hypothesis OK : forall a, stp a = Success <-> ok a.
  Hypothesis NZ : forall a, stp a <> Exit 0.
  Definition sent (l : list attempt) : list bytes := concat (map (fun _ => rq) l).
  Lemma loop_success : forall l rs, loop buf o action args l = Ok (Some 0%N, rs) <->
    exists earlier a later, l = earlier ++ a :: later /\ Forall soft earlier /\ (earlier <> [] -> o_oneshot o = false /\ again = true) /\
      ((a_conn a = false /\ o_dead o = true /\ can_ignore_dead action = true /\ rs = sent earlier) \/ (a_conn a = true /\ ok a /\ rs = sent earlier ++ rq)).
  Proof.
    induction l as [|a l IH]; intros rs.
    { cbn. split; [discriminate|]. intros ([|] & ? & ? & E & _); discriminate E. }
    cbn [loop]. split.
    - intros H. destruct (a_conn a) eqn:EC; cbn [negb] in H.
      2:{ destruct (o_dead o && can_ignore_dead action)%bool eqn:ED; [|discriminate H]. apply Bool.andb_true_iff in ED. destruct ED as [E1 E2]. injection H as <-. exists [], a, l. repeat split; auto; try contradiction. }
      rewrite DO in H. cbn [rbind] in H. destruct (stp a) as [| |n] eqn:ES.
      + destruct (o_oneshot o || a_alarm a)%bool eqn:EO; [discriminate H|]. apply Bool.orb_false_iff in EO. destruct EO as [E1 E2].
        destruct (loop buf o action args l) as [[x rs']|] eqn:EL; [|discriminate H]. cbn [rbind] in H. injection H as -> <-.
        destruct (proj1 (IH rs') eq_refl) as (earlier & b & later & -> & F & NE & C). apply RETRY in ES. destruct ES as (S1 & S2 & S3).
        exists (a :: earlier), b, later. split; [reflexivity|]. split; [constructor; [repeat split; auto|exact F]|]. split; [auto|].
        destruct C as [(C1 & C2 & C3 & ->)|(C1 & C2 & ->)]; [left|right]; repeat split; auto. unfold sent. cbn [map concat]. now rewrite <- app_assoc.
      + injection H as <-. exists [], a, l. repeat split; auto; try contradiction. right. repeat split; auto. now apply OK.
      + injection H as -> <-. exfalso. now apply (NZ a).
    - intros (earlier & b & later & E & F & NE & C). destruct earlier as [|a0 earlier].
      + cbn [app] in E. injection E as -> ->. destruct C as [(C1 & C2 & C3 & ->)|(C1 & C2 & ->)]; rewrite C1; cbn [negb].
        * rewrite C2, C3. reflexivity.
        * rewrite DO. cbn [rbind]. apply OK in C2. rewrite C2. reflexivity.
      + cbn [app] in E. injection E as <- ->. apply Forall_cons_iff in F. destruct F as [(S1 & S2 & S3) F]. destruct (NE ltac:(discriminate)) as [N1 N2].
        rewrite S1. cbn [negb]. rewrite DO. cbn [rbind]. assert (ES : stp a = Retry) by (apply RETRY; auto). rewrite ES, N1, S3. cbn [orb].
        assert (EL : loop buf o action args (earlier ++ b :: later) = Ok (Some 0%N, match a_conn b with true => sent earlier ++ rq | false => sent earlier end)).
        { apply IH. exists earlier, b, later. split; [reflexivity|]. split; [exact F|]. split; [auto|]. destruct C as [(C1 & C2 & C3 & _)|(C1 & C2 & _)]; rewrite C1; [left|right]; auto. }
        rewrite EL. cbn [rbind]. destruct C as [(C1 & _ & _ & ->)|(C1 & _ & ->)]; rewrite C1; unfold sent; cbn [map concat]; rewrite ?app_assoc; reflexivity.
  Qed.
  Lemma loop_running : forall l rs, loop buf o action args l = Ok (None, rs) <-> Forall soft l /\ (l <> [] -> o_oneshot o = false /\ again = true) /\ rs = sent l.
  Proof.
    induction l as [|a l IH]; intros rs.
    { cbn. split; [intros E; injection E as <-; repeat split; [constructor|contradiction|contradiction]|intros (_ & _ & ->); reflexivity]. }
    cbn [loop]. split.
    - intros H. destruct (a_conn a) eqn:EC; cbn [negb] in H; [|discriminate H]. rewrite DO in H. cbn [rbind] in H. destruct (stp a) as [| |n] eqn:ES; try discriminate H.
      destruct (o_oneshot o || a_alarm a)%bool eqn:EO; [discriminate H|]. apply Bool.orb_false_iff in EO. destruct EO as [E1 E2].
      destruct (loop buf o action args l) as [[x rs']|] eqn:EL; [|discriminate H]. cbn [rbind] in H. injection H as -> <-. destruct (proj1 (IH rs') eq_refl) as (F & _ & ->).
      apply RETRY in ES. destruct ES as (S1 & S2 & S3). split; [constructor; [repeat split; auto|exact F]|]. split; [auto|reflexivity].
    - intros (F & NE & ->). apply Forall_cons_iff in F. destruct F as [(S1 & S2 & S3) F]. destruct (NE ltac:(discriminate)) as [N1 N2].
      rewrite S1. cbn [negb]. rewrite DO. cbn [rbind]. assert (ES : stp a = Retry) by (apply RETRY; auto). rewrite ES, N1, S3. cbn [orb].
      rewrite (proj2 (IH (sent l))) by (repeat split; auto). reflexivity.
  Qed.
End Loop.

Definition repeats (k : act) : bool := match k with Status => false | _ => true end.
Definition step_of (o : opts) (k : act) (a : attempt) : step :=
  match k with Status => Success | Stop => action_stop o a | Replace => action_replace o a | _ => simple_action o a end.
Lemma do_named buf o k action a : named k action -> do_action buf o action [] a = Ok (step_of o k a, request k).
Proof. intros E. unfold named in E. unfold do_action, ceq. rewrite !E. destruct k; reflexivity. Qed.
Lemma ignore_named k action : named k action -> (can_ignore_dead action = true <-> may_ignore k).
Proof. intros E. unfold named in E. unfold can_ignore_dead, ceq. rewrite !E. destruct k; vm_compute; intuition discriminate. Qed.
Lemma step_retry o k a : step_of o k a = Retry <-> o_oneshot o = false /\ repeats k = true /\ a_txn a = TxnSoft.
Proof.
  unfold step_of, action_stop, action_replace, simple_action, judge. destruct k; cbn [repeats]; destruct (a_txn a), (o_oneshot o); cbn [negb andb]; try (destruct (a_exits a)); cbn [negb]; try (destruct (a_new a)); intuition discriminate.
Qed.
Lemma step_ok o k a : step_of o k a = Success <-> obeyed k a.
Proof.
  unfold step_of, action_stop, action_replace, simple_action, judge. destruct k; cbn [obeyed]; destruct (a_txn a); cbn [negb andb]; try (destruct (o_oneshot o)); cbn [negb andb]; try (destruct (a_exits a)); cbn [negb]; try (destruct (a_new a)); intuition discriminate.
Qed.
Lemma step_nz o k a : step_of o k a <> Exit 0.
Proof.
  unfold step_of, action_stop, action_replace, simple_action, judge. destruct k; destruct (a_txn a); cbn [negb andb]; try (destruct (o_oneshot o)); cbn [negb andb]; try (destruct (a_exits a)); cbn [negb]; try (destruct (a_new a)); discriminate.
Qed.
