(** The scanner of configuration files: the end of the text. *)
From Verif Require Import Base DnameSpec DnameModel DnameProofs CompModel VscfModel VscfSpec VscfProofs VscfProofs2 VscfProofs3.
Local Open Scope N_scope.
Local Arguments N.eqb : simpl never.
Local Arguments N.leb : simpl never.

Section Lex.
Variable ent_first : bool.
Variable isdir : bytes -> bool.
Variable glob : bool -> bytes -> option (list bytes).
Variable load : bytes -> res (option vnode).
Variable fn : option bytes.
Notation take := (take isdir glob load fn).
Notation run := (run ent_first isdir glob load fn).
Notation at_eof := (at_eof isdir glob load fn).
Notation scan_buf := (scan_buf ent_first isdir glob load fn).
Notation tstep := (tstep isdir glob load fn).
Notation trun := (trun isdir glob load fn).
Notation pend := (pend isdir glob load fn).
Notation spelled := (spelled (negb ent_first)).
Notation inv := (inv ent_first isdir glob load fn).

(** The tokens make up a whole file. *)
Definition fin (s : scn) : Prop :=
  s_stk s = [] /\ match s_kind s, s_lex s with KMain _, LPos (PItem _) | KTopArr, LPos PEnd => True | _, _ => False end.

Lemma fin_eof s v : fin s -> result s = Some v -> at_eof s = Ok (Some v).
Proof.
  intros (K & F) R. unfold VscfModel.at_eof. rewrite K. destruct (s_kind s); try contradiction; destruct (s_lex s) as [[]| | | | |]; try contradiction; cbn; now rewrite R.
Qed.

Theorem scan_tokens t v : scan_buf t = Ok (Some v) <->
  exists ts e s1, spelled ts t e /\ trun ts scn0 = Ok (Some s1) /\ fin s1 /\ result s1 = Some v.
Proof.
  split.
  - unfold VscfModel.scan_buf. intros E. destruct (run t scn0) as [[s|]|] eqn:R; try discriminate. cbn [rbind] in E. apply inv_run in R.
    destruct R as [ts t e s1 s H R P Q|ts t e s1 p c0 b H R L I Nb|ts t e s1 p r x raw H R L Ro A P Nr Nd|ts t e s1 p r x raw H R L Ro A P|ts t e s1 p r raw H R L Ro A P|ts t e s1 p x s H R L Y A J|t s r EF St T Lx].
    + destruct Q as [->| ->]; inversion P; subst.
      * exists ts, Free, s1. split; [assumption|]. split; [assumption|]. destruct (trun_good _ _ _ _ _ _ _ _ good0 R) as (p & L & Tp & Tk).
        unfold VscfModel.at_eof in E. unfold fin. rewrite L in *. destruct (s_kind s1); try discriminate; destruct p; try discriminate; destruct (s_stk s1); try discriminate; cbn in E; injection E as <-; auto.
      * exfalso. unfold VscfModel.at_eof, set_lex in E. cbn in E. destruct (s_kind s1); discriminate.
    + exfalso. unfold VscfModel.at_eof, set_lex in E. cbn in E. destruct (s_kind s1); discriminate.
    + unfold VscfModel.at_eof in E. unfold st in E. cbn [s_kind s_lex] in E. destruct (defresh (s_kind s1)) eqn:K; try discriminate. destruct r; try discriminate. destruct x; try discriminate.
      rewrite (leave_u _ _ _ _ RVal _ raw) in E by reflexivity. destruct (take RVal raw _) as [[y|]|] eqn:Ty; cbn [rmap rbind] in E; try discriminate.
      apply str_part_0 in P. assert (X : tstep (TStr raw) s1 = Ok (Some (eff s1 (defresh (s_kind s1)) (PItem true) y))). { unfold VscfProofs.tstep. rewrite L, Ro. change (core s1) with (core (Scn (LU RVal E0) (KMain fresh) (s_cont s1) (s_key s1) (s_stk s1) (Some raw))). now rewrite Ty. }
      destruct (spelled_tok _ _ _ _ _ _ _ _ _ _ _ _ _ H R (tt_str _ _ _ (st_unquoted _ P Nr Nd)) A X) as (H' & R').
      eexists _, _, _. split; [exact H'|]. split; [exact R'|]. unfold fin, eff. cbn. rewrite K. cbn in E. destruct (s_stk s1); [|discriminate]. cbn in E. split; auto. now injection E as <-.
    + exfalso. unfold VscfModel.at_eof, st in E. cbn in E. destruct (defresh (s_kind s1)); try discriminate.
    + unfold VscfModel.at_eof in E. unfold st in E. cbn [s_kind s_lex] in E. destruct (defresh (s_kind s1)) eqn:K; try discriminate. destruct r; try discriminate.
      rewrite (leave_q _ _ _ _ RVal _ raw) in E by reflexivity. destruct (take RVal raw _) as [[y|]|] eqn:Ty; cbn [rmap rbind] in E; try discriminate.
      assert (X : tstep (TStr raw) s1 = Ok (Some (eff s1 (defresh (s_kind s1)) (PItem true) y))). { unfold VscfProofs.tstep. rewrite L, Ro. change (core s1) with (core (Scn (LQE RVal) (KMain fresh) (s_cont s1) (s_key s1) (s_stk s1) (Some (34 :: raw ++ [34])))). now rewrite Ty. }
      destruct (spelled_tok _ _ _ _ _ _ _ _ _ _ _ _ _ H R (tt_str _ _ _ (st_quoted _ P)) A X) as (H' & R').
      eexists _, _, _. split; [exact H'|]. split; [exact R'|]. unfold fin, eff. cbn. rewrite K. cbn in E. destruct (s_stk s1); [|discriminate]. cbn in E. split; auto. now injection E as <-.
    + exfalso. destruct J; unfold VscfModel.at_eof, st, eff, set_lex in E; cbn [s_kind s_lex] in E; destruct (defresh (s_kind s1)); try discriminate; destruct e; discriminate.
    + exfalso. unfold VscfModel.at_eof in E. destruct Lx as [(e & Lx)|Lx]; rewrite Lx in E; destruct (s_kind s); try discriminate. destruct r; try discriminate. unfold leave in E. rewrite T in E. discriminate.
  - intros (ts & e & s1 & H & R & F & V). destruct (lex_complete _ _ _ _ _ _ _ _ H _ R) as (s & Rs & P). unfold VscfModel.scan_buf. rewrite Rs. cbn [rbind].
    destruct P.
    + now apply fin_eof.
    + exfalso. destruct F as (_ & F). rewrite H0 in F. destruct (s_kind s); contradiction.
    + destruct F as (K & F). cbn in K, F. destruct k; try contradiction; destruct r; try contradiction. subst stk.
      unfold VscfModel.at_eof. cbn [s_kind s_lex]. rewrite (leave_u _ _ _ _ RVal _ raw) by reflexivity. rewrite H0. cbn. unfold put; cbn. unfold result in *; cbn in *. now rewrite V.
    + destruct F as (K & F). cbn in K, F. destruct k; try contradiction; destruct r; try contradiction. subst stk.
      unfold VscfModel.at_eof. cbn [s_kind s_lex]. rewrite (leave_q _ _ _ _ RVal _ raw) by reflexivity. rewrite H0. cbn. unfold put; cbn. unfold result in *; cbn in *. now rewrite V.
Qed.
End Lex.
