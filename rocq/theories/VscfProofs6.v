(** The scanner of configuration files: documents are read as they are meant. *)
From Verif Require Import Base DnameSpec DnameModel DnameProofs CompModel CompProofs VscfModel VscfSpec VscfProofs VscfProofs2 VscfProofs3 VscfProofs4 VscfProofs5.
Local Open Scope N_scope.
Local Arguments N.eqb : simpl never.
Local Arguments N.leb : simpl never.

Scheme value_mind := Minimality for value Sort Prop
  with values_mind := Minimality for values Sort Prop
  with entries_mind := Minimality for entries Sort Prop.
Combined Scheme value_mutind from value_mind, values_mind, entries_mind.

Section Tok.
Variable isdir : bytes -> bool.
Variable glob : bool -> bytes -> option (list bytes).
Variable load : bytes -> res (option vnode).
Variable fn : option bytes.
Notation take := (take isdir glob load fn).
Notation tstep := (tstep isdir glob load fn).
Notation trun := (trun isdir glob load fn).
Notation docs := (docs isdir glob load fn).
Notation sinv := (sinv isdir glob load fn).

Lemma sinv_run ts s : trun ts scn0 = Ok (Some s) -> sinv ts s.
Proof.
  revert s. induction ts as [|k ts IH] using rev_ind; intros s E.
  - cbn in E. injection E as <-. apply (si_item _ _ _ _ Good Good (KMain true) [] [] (CH []) false None []).
    + constructor.
    + now apply level_nil_h.
    + auto.
    + left. split; reflexivity.
  - rewrite trun_snoc in E. destruct (trun ts scn0) as [[s0|]|]; cbn [rbind] in E; try discriminate. eapply sinv_step; eauto.
Qed.
Lemma sinv_fin ts s v : sinv ts s -> fin s -> result s = Some v -> exists a, doc ts a /\ (means docs a v \/ lost docs a).
Proof.
  intros H (F1 & F2) R. destruct H as [m1 m2 k tso tsl ct b key stk Ho Lo Fr M|m1 m2 k tso tsl es b key stk raw Ho Lo Nf M U|m1 m2 k tso tsl es b key stk raw Ho Lo Nf M U|m vs tsl key b Lo M];
    cbn in F1, F2; try (destruct k; contradiction).
  - destruct k; try contradiction. apply outer_main in Ho as (-> & -> & ->). inversion Lo as [? ? ? ? ? A|k0 ts0 l es b0 A Vs C X]; subst; [discriminate|].
    unfold result in R. cbn in R. injection R as <-. exists (NHash l). split; [now constructor|].
    destruct m2; cbn in M; [left; now constructor| |destruct M as [(? & _)|?]; discriminate]. right. destruct X as (x & n & I & L). eapply lo_hash; eauto.
  - inversion Lo as [k0 ts0 l vs0 b0 A Vs C X|]; subst. unfold result in R. cbn in R. injection R as <-. exists (NArr l). split; [now constructor|].
    destruct m; [left; now constructor| |congruence]. right. destruct X as (n & I & L). eapply lo_arr; eauto.
Qed.

(** ** Completeness *)
Inductive ready : scn -> vnode -> scn -> Prop :=
| rd_a k vs stk b v : is_array k = true -> ready (Scn (LPos (PItem b)) k (CA vs) None stk None) v (Scn (LPos (PItem true)) k (CA (vs ++ [v])) None stk None)
| rd_h k es stk key v : defresh k = k -> ~ In key (map fst es) ->
    ready (Scn (LPos PVal) k (CH es) (Some key) stk None) v (Scn (LPos (PItem true)) k (CH (es ++ [(key, v)])) None stk None).

Lemma ready_add s v s' : ready s v s' -> exists x, add_val v (core s) = Ok (Some x) /\ s' = eff s (defresh (s_kind s)) (PItem true) x.
Proof.
  intros H. destruct H as [k vs stk b v A|k es stk key v D Ni]; unfold add_val; cbn [core s_cont s_key].
  - eexists. split; [reflexivity|]. unfold eff. cbn. assert (defresh k = k) as -> by (destruct k; try discriminate; reflexivity). reflexivity.
  - apply has_key_false in Ni. rewrite Ni. eexists. split; [reflexivity|]. unfold eff. cbn. now rewrite D.
Qed.
Lemma ready_at s v s' : ready s v s' -> exists p, s_lex s = LPos p /\ role_of (s_kind s) p = Some RVal /\ syn (s_kind s) p 36 = Some ADollar /\ syn (s_kind s) p 91 = Some AOpenA /\ syn (s_kind s) p 123 = Some AOpenH /\ merging (core s) = false.
Proof.
  intros H. destruct H as [k vs stk b v A|k es stk key v D Ni]; eexists; (split; [reflexivity|]); cbn [s_kind].
  - destruct (syn_item k b) as (S1 & S2 & S3 & S4 & S5 & S6 & Ro). rewrite S1, S3, S6, Ro, A. destruct k; try discriminate; auto.
  - destruct (syn_pval k) as (S1 & S2 & S3 & S4 & S5 & S6 & Ro). auto 10.
Qed.
Lemma trun_comma c k ct stk : comma c -> exists b, trun c (Scn (LPos (PItem true)) k ct None stk None) = Ok (Some (Scn (LPos (PItem b)) k ct None stk None)).
Proof.
  intros [->| ->].
  - exists true. reflexivity.
  - exists false. cbn [VscfProofs.trun]. unfold VscfProofs.tstep. cbn [s_lex s_kind]. destruct (syn_item k true) as (_ & _ & _ & _ & S5 & _). rewrite S5. reflexivity.
Qed.
Lemma include_files_merge_c fs : forall hs l l', Forall2 (fun f d => load f = Ok (Some d)) fs (map VH hs) -> added l (concat hs) l' ->
  forall x k stk tk, include_files load fs (Scn x k (CH l) None stk tk) = Ok (Some (Scn x k (CH l') None stk tk)).
Proof.
  induction fs as [|f fs IH]; intros hs l l' F A x k stk tk; destruct hs as [|h hs]; inversion F; subst; cbn [include_files].
  - inversion A; subst. reflexivity.
  - unfold include_file. rewrite H2. cbn [rbind merging s_cont s_key]. cbn [concat] in A.
    assert (Z : exists l1, added l h l1 /\ added l1 (concat hs) l').
    { clear - A. revert l A. induction h as [|[k v] h IHh]; intros l A; cbn [app] in A.
      - exists l. split; [constructor|assumption].
      - inversion A as [|? ? ? ? ? Nk A0]; subst. destruct (IHh _ A0) as (l1 & A1 & A2). exists l1. split; [now constructor|assumption]. }
    destruct Z as (l1 & A1 & A2). apply merge_added in A1. rewrite A1. cbn [rbind]. now apply IH with hs.
Qed.
Lemma defresh_kind k k' : defresh k' = defresh k -> is_array k' = is_array k.
Proof. destruct k, k'; cbn; congruence. Qed.

Theorem doc_complete :
  (forall t n, value t n -> forall v, means docs n v -> forall s s', ready s v s' -> trun t s = Ok (Some s')) /\
  (forall t l, values t l -> forall vs, all_mean docs l vs -> forall k stk, is_array k = true -> exists b,
     trun t (Scn (LPos (PItem false)) k (CA []) None stk None) = Ok (Some (Scn (LPos (PItem b)) k (CA vs) None stk None))) /\
  (forall t l, entries t l -> forall es, hash_means docs l es -> forall k stk, is_array k = false -> exists b k', defresh k' = defresh k /\
     trun t (Scn (LPos (PItem false)) k (CH []) None stk None) = Ok (Some (Scn (LPos (PItem b)) k' (CH es) None stk None))).
Proof.
  apply value_mutind.
  - intros raw v M s s' Rd. inversion M; subst. destruct (ready_at _ _ _ Rd) as (p & Lx & Ro & _). destruct (ready_add _ _ _ Rd) as (x & Ad & ->).
    cbn [VscfProofs.trun]. unfold VscfProofs.tstep. rewrite Lx, Ro. cbn [VscfModel.take after]. match goal with U : unescaped _ _ |- _ => apply unescape_iff in U; rewrite U end.
    cbn [rbind]. change (set_tok None (core s)) with (core s). rewrite Ad. reflexivity.
  - intros raw v M s s' Rd. inversion M as [| | |raw0 d (fs & If & F)]; subst. destruct (ready_at _ _ _ Rd) as (p & Lx & Ro & Sd & _ & _ & Mg). destruct (ready_add _ _ _ Rd) as (x & Ad & ->).
    cbn [VscfProofs.trun]. unfold VscfProofs.tstep. rewrite Lx, Sd. cbn [VscfModel.take]. unfold include. rewrite If. inversion F as [|f d fs0 ds Lf F0]; subst. inversion F0; subst.
    change (set_tok None (core s)) with (core s). rewrite Mg. cbn [negb andb length Nat.ltb Nat.leb include_files]. unfold include_file. rewrite Lf. cbn [rbind]. rewrite Mg, Ad. reflexivity.
  - intros ts l Vs IH v M s s' Rd. inversion M as [|l0 vs Am| |]; subst. destruct (ready_at _ _ _ Rd) as (p & Lx & _ & _ & So & _ & _).
    cbn [VscfProofs.trun]. unfold VscfProofs.tstep at 1. rewrite Lx, So. cbn [do_act]. inversion Rd as [k vs0 stk b0 v A Q0 Q1|k es stk key v D Ni Q0 Q1]; subst; unfold open; cbn [s_cont s_key s_kind s_stk s_tok].
    + cbn [rbind]. rewrite trun_app. destruct (IH _ Am KArr ((k, CA vs0, None) :: stk) eq_refl) as (b & ->). cbn [rbind VscfProofs.trun]. unfold VscfProofs.tstep. cbn [s_lex s_kind].
      destruct (syn_item KArr b) as (_ & S2 & _). rewrite S2. reflexivity.
    + apply has_key_false in Ni. rewrite Ni. cbn [rbind]. rewrite trun_app. destruct (IH _ Am KArr ((k, CH es, Some key) :: stk) eq_refl) as (b & ->). cbn [rbind VscfProofs.trun]. unfold VscfProofs.tstep. cbn [s_lex s_kind].
      destruct (syn_item KArr b) as (_ & S2 & _). rewrite S2. reflexivity.
  - intros ts l Vs IH v M s s' Rd. inversion M as [| |l0 vs Am|]; subst. destruct (ready_at _ _ _ Rd) as (p & Lx & _ & _ & _ & So & _).
    cbn [VscfProofs.trun]. unfold VscfProofs.tstep at 1. rewrite Lx, So. cbn [do_act]. inversion Rd as [k vs0 stk b0 v A Q0 Q1|k es stk key v D Ni Q0 Q1]; subst; unfold open; cbn [s_cont s_key s_kind s_stk s_tok].
    + cbn [rbind]. rewrite trun_app. destruct (IH _ Am KHash ((k, CA vs0, None) :: stk) eq_refl) as (b & k' & D' & ->). assert (k' = KHash) as -> by (destruct k'; try discriminate; reflexivity). cbn [rbind VscfProofs.trun]. unfold VscfProofs.tstep. cbn [s_lex s_kind].
      destruct (syn_item KHash b) as (_ & _ & _ & S4 & _). rewrite S4. reflexivity.
    + apply has_key_false in Ni. rewrite Ni. cbn [rbind]. rewrite trun_app. destruct (IH _ Am KHash ((k, CH es, Some key) :: stk) eq_refl) as (b & k' & D' & ->). assert (k' = KHash) as -> by (destruct k'; try discriminate; reflexivity). cbn [rbind VscfProofs.trun]. unfold VscfProofs.tstep. cbn [s_lex s_kind].
      destruct (syn_item KHash b) as (_ & _ & _ & S4 & _). rewrite S4. reflexivity.
  - intros vs M k stk A. inversion M as [|l0 vs0 n v Am Mn E0 E1]; subst; [exists false; reflexivity|]. destruct l0; discriminate.
  - intros ts l t n c Vs IH V IHv C vs M k stk A. inversion M as [E0 E1|l0 vs0 n0 v Am Mn E0 E1]; subst; [destruct l; discriminate|]. apply app_inj_tail in E0 as (-> & ->).
    destruct (IH _ Am k stk A) as (b & R). rewrite trun_app, R. cbn [rbind]. rewrite trun_app. rewrite (IHv _ Mn _ _ (rd_a k vs0 stk b v A)). cbn [rbind]. now apply trun_comma.
  - intros es M k stk A. inversion M; subst; [exists false, k; auto| |]; match goal with X : _ ++ [_] = [] |- _ => destruct (app_cons_not_nil _ _ _ (eq_sym X)) end.
  - intros ts l kr t n c En IH V IHv C es M k stk A. inversion M as [E0 E1|l0 es0 k0 key n0 v Hm U Mn Ni E0 E1|l0 es0 raw hs es' Hm D Ad E0 E1]; subst; [destruct l; discriminate| |apply app_inj_tail in E0 as (_ & E0); discriminate].
    apply app_inj_tail in E0 as (-> & E0). injection E0 as -> ->.
    destruct (IH _ Hm k stk A) as (b & k' & Dk & R). rewrite trun_app, R. cbn [rbind]. cbn [VscfProofs.trun]. unfold VscfProofs.tstep at 1. cbn [s_lex s_kind]. destruct (syn_item k' b) as (_ & _ & _ & _ & _ & _ & Ro). rewrite Ro, (defresh_kind _ _ Dk), A.
    cbn [VscfModel.take]. apply unescape_iff in U. rewrite U. cbn [rbind rmap]. unfold eff. cbn [s_cont s_key s_stk set_tok set_key core after rbind]. unfold VscfProofs.tstep at 1. cbn [s_lex rbind set_lex s_kind s_cont s_key s_stk s_tok].
    unfold set_lex. cbn [s_kind s_cont s_key s_stk s_tok]. rewrite trun_app. rewrite (IHv _ Mn _ _ (rd_h (defresh k') es0 stk key v (defresh_twice _) Ni)). cbn [rbind].
    destruct (trun_comma c (defresh k') (CH (es0 ++ [(key, v)])) stk C) as (b' & ->). exists b', (defresh k'). split; [now rewrite defresh_twice|reflexivity].
  - intros ts l raw c En IH C es M k stk A. inversion M as [E0 E1|l0 es0 k0 key n0 v Hm U Mn Ni E0 E1|l0 es0 raw0 hs es' Hm (fs & If & F) Ad E0 E1]; subst; [destruct l; discriminate|apply app_inj_tail in E0 as (_ & E0); discriminate|].
    apply app_inj_tail in E0 as (-> & E0). injection E0 as ->.
    destruct (IH _ Hm k stk A) as (b & k' & Dk & R). rewrite trun_app, R. cbn [rbind]. cbn [VscfProofs.trun]. unfold VscfProofs.tstep at 1. cbn [s_lex s_kind]. destruct (syn_item k' b) as (_ & _ & _ & _ & _ & S6 & Ro). rewrite S6.
    cbn [VscfModel.take]. unfold include. rewrite If. cbn [merging core set_tok s_cont s_key negb andb s_lex s_kind s_stk s_tok]. unfold set_tok, core. cbn [s_lex s_kind s_cont s_key s_stk s_tok merging negb andb]. rewrite (include_files_merge_c fs hs es0 es F Ad). cbn [rmap rbind]. unfold eff. cbn [s_cont s_key s_stk].
    destruct (trun_comma c (defresh k') (CH es) stk C) as (b' & ->). exists b', (defresh k'). split; [now rewrite defresh_twice|reflexivity].
Qed.

Theorem trun_doc ts a v : doc ts a -> means docs a v -> exists s, trun ts scn0 = Ok (Some s) /\ fin s /\ result s = Some v.
Proof.
  destruct doc_complete as (_ & Cv & Ce). intros D M. destruct D as [ts l En|ts l Vs].
  - inversion M as [| |l0 es Hm|]; subst. destruct (Ce _ _ En _ Hm (KMain true) [] eq_refl) as (b & k' & Dk & R). eexists. split; [exact R|]. split; [|reflexivity].
    split; [reflexivity|]. cbn. destruct k'; try discriminate. exact Logic.I.
  - inversion M as [|l0 vs Am| |]; subst. destruct (Cv _ _ Vs _ Am KTopArr [] eq_refl) as (b & R). cbn [VscfProofs.trun]. unfold VscfProofs.tstep at 1. cbn [scn0 s_lex s_kind]. destruct (syn_item (KMain true) false) as (-> & _).
    cbn [do_act rbind scn0 s_key s_stk s_tok]. rewrite trun_app, R. cbn [rbind VscfProofs.trun]. unfold VscfProofs.tstep at 1. cbn [s_lex s_kind]. destruct (syn_item KTopArr b) as (_ & -> & _). cbn [do_act rbind]. eexists. split; [reflexivity|]. split; [|reflexivity]. split; reflexivity.
Qed.
End Tok.

Section Buf.
Variable ent_first : bool.
Variable isdir : bytes -> bool.
Variable glob : bool -> bytes -> option (list bytes).
Variable load : bytes -> res (option vnode).
Variable fn : option bytes.
Notation scan_buf := (scan_buf ent_first isdir glob load fn).
Notation docs := (docs isdir glob load fn).

Theorem scan_sound t v : scan_buf t = Ok (Some v) -> exists a, text_of (negb ent_first) t a /\ (means docs a v \/ lost docs a).
Proof.
  intros E. apply scan_tokens in E as (ts & e & s1 & H & R & F & Rs). destruct (sinv_fin _ _ _ _ _ _ _ (sinv_run _ _ _ _ _ _ R) F Rs) as (a & D & M). exists a. split; [exists ts, e; auto|assumption].
Qed.
Theorem scan_complete t a v : text_of (negb ent_first) t a -> means docs a v -> scan_buf t = Ok (Some v).
Proof.
  intros (ts & e & H & D) M. destruct (trun_doc _ _ _ _ _ _ _ D M) as (s & R & F & Rs). apply scan_tokens. exists ts, e, s. auto.
Qed.
End Buf.
