(** The scanner of configuration files: the tokens it takes make up a document. *)
From Verif Require Import Base DnameSpec DnameModel DnameProofs CompModel CompProofs VscfModel VscfSpec VscfProofs VscfProofs2 VscfProofs3 VscfProofs4.
Local Open Scope N_scope.
Local Arguments N.eqb : simpl never.
Local Arguments N.leb : simpl never.

Lemma has_key_spec k l : has_key k l = true <-> In k (map fst l).
Proof.
  unfold has_key. rewrite existsb_exists, in_map_iff. split.
  - intros (e & I & E). apply bytes_eqb_spec in E. exists e. now split.
  - intros (e & E & I). exists e. split; [assumption|]. now apply bytes_eqb_spec.
Qed.
Lemma has_key_false k l : has_key k l = false <-> ~ In k (map fst l).
Proof. rewrite <- has_key_spec. destruct (has_key k l); split; congruence. Qed.
Lemma merge_added es : forall l l', merge es l = Some l' <-> added l es l'.
Proof.
  induction es as [|[k v] es IH]; intros l l'; cbn [merge fst].
  - split; intros H; [injection H as <-; constructor|inversion H; reflexivity].
  - destruct (has_key k l) eqn:E.
    + apply has_key_spec in E. split; [discriminate|]. intros H. inversion H; contradiction.
    + apply has_key_false in E. rewrite IH. split; [now constructor|]. intros H. now inversion H.
Qed.
Lemma added_app l a l1 : added l a l1 -> forall b l2, added l1 b l2 -> added l (a ++ b) l2.
Proof. induction 1; intros c l2 H2; cbn [app]; [assumption|constructor; auto]. Qed.

Section Tok.
Variable isdir : bytes -> bool.
Variable glob : bool -> bytes -> option (list bytes).
Variable load : bytes -> res (option vnode).
Variable fn : option bytes.
Notation take := (take isdir glob load fn).
Notation tstep := (tstep isdir glob load fn).
Notation trun := (trun isdir glob load fn).

(** What the included files hold. *)
Definition docs (raw : bytes) (ds : list vnode) : Prop :=
  exists fs, inc_files isdir glob fn raw = Some fs /\ Forall2 (fun f d => load f = Ok (Some d)) fs ds.

Inductive mode := Good | Hurt | Any.
Definition both (a b : mode) : mode := match a, b with Hurt, _ | _, Hurt => Hurt | Good, Good => Good | _, _ => Any end.
Lemma both_assoc a b c : both (both a b) c = both a (both b c).
Proof. destruct a, b, c; reflexivity. Qed.
Lemma both_good a : both a Good = a.
Proof. destruct a; reflexivity. Qed.

(** The contents of a container that is still open. *)
Inductive level (m : mode) : kind -> list token -> cont -> bool -> Prop :=
| lv_arr k ts l vs b : is_array k = true -> values ts l -> (b = true -> values (ts ++ [TComma]) l) ->
    match m with Good => all_mean docs l vs | Hurt => exists n, In n l /\ lost docs n | Any => True end ->
    level m k ts (CA vs) b
| lv_hash k ts l es b : is_array k = false -> entries ts l -> (b = true -> entries (ts ++ [TComma]) l) ->
    match m with Good => hash_means docs l es | Hurt => exists k n, In (Some k, n) l /\ lost docs n | Any => True end ->
    level m k ts (CH es) b.

Inductive opens : token -> kind -> Prop :=
| op_a : opens TOpenA KArr
| op_h : opens TOpenH KHash.

(** The enclosing containers, and the tokens before the contents of the current one. *)
Inductive outer : mode -> kind -> list token -> list (kind * cont * option bytes) -> Prop :=
| ou_main b : outer Good (KMain b) [] []
| ou_top : outer Good KTopArr [TOpenA] []
| ou_in_arr m1 m2 k ts stk ts2 vs b tk k' : outer m1 k ts stk -> level m2 k ts2 (CA vs) b -> opens tk k' ->
    outer (both m1 m2) k' (ts ++ ts2 ++ [tk]) ((k, CA vs, None) :: stk)
| ou_in_hash m1 m2 k ts stk ts2 es b tk k' raw key : outer m1 k ts stk -> level m2 k ts2 (CH es) b -> opens tk k' ->
    k <> KMain true -> unescaped raw key -> ~ In key (map fst es) ->
    outer (both m1 m2) k' (ts ++ ts2 ++ [TStr raw; TEq; tk]) ((k, CH es, Some key) :: stk).

Inductive sinv : list token -> scn -> Prop :=
| si_item m1 m2 k tso tsl ct b key stk : outer m1 k tso stk -> level m2 k tsl ct b -> (k = KMain true -> tsl = [] /\ key = None /\ b = false) ->
    (both m1 m2 = Good /\ key = None) \/ both m1 m2 = Hurt -> sinv (tso ++ tsl) (Scn (LPos (PItem b)) k ct key stk None)
| si_key m1 m2 k tso tsl es b key stk raw : outer m1 k tso stk -> level m2 k tsl (CH es) b -> k <> KMain true ->
    both m1 m2 <> Any -> unescaped raw key ->
    sinv (tso ++ tsl ++ [TStr raw]) (Scn (LPos PKey) k (CH es) (Some key) stk None)
| si_val m1 m2 k tso tsl es b key stk raw : outer m1 k tso stk -> level m2 k tsl (CH es) b -> k <> KMain true ->
    both m1 m2 <> Any -> unescaped raw key ->
    sinv (tso ++ tsl ++ [TStr raw; TEq]) (Scn (LPos PVal) k (CH es) (Some key) stk None)
| si_end m vs tsl key b : level m KTopArr tsl (CA vs) b -> m <> Any ->
    sinv (TOpenA :: tsl ++ [TCloseA]) (Scn (LPos PEnd) KTopArr (CA vs) key [] None).

Definition vmode (m : mode) (n : node) (v : vnode) : Prop :=
  match m with Good => means docs n v | Hurt => lost docs n | Any => True end.

Lemma level_kind m k k' ts ct b : level m k ts ct b -> is_array k = is_array k' -> level m k' ts ct b.
Proof. intros H E. destruct H; [eapply lv_arr|eapply lv_hash]; eauto; congruence. Qed.

Lemma level_comma m k ts ct : level m k ts ct true -> level m k (ts ++ [TComma]) ct false.
Proof. intros H. inversion H; subst; [eapply lv_arr|eapply lv_hash]; eauto; discriminate. Qed.
Lemma level_arr m m2 k ts vs b t n v : level m k ts (CA vs) b -> value t n -> vmode m2 n v -> level (both m m2) k (ts ++ t) (CA (vs ++ [v])) true.
Proof.
  intros H V M. inversion H as [k0 ts0 l vs0 b0 A Vs C X|]; subst.
  apply lv_arr with (l ++ [n]).
  - assumption.
  - rewrite <- (app_nil_r t). apply vs_snoc; [assumption|assumption|now left].
  - intros _. rewrite <- app_assoc. apply vs_snoc; [assumption|assumption|now right].
  - destruct m, m2; cbn in *; auto.
    + now apply am_snoc.
    + exists n. rewrite in_app_iff. cbn. auto.
    + destruct X as (x & I & L). exists x. rewrite in_app_iff. auto.
    + destruct X as (x & I & L). exists x. rewrite in_app_iff. auto.
    + destruct X as (x & I & L). exists x. rewrite in_app_iff. auto.
    + exists n. rewrite in_app_iff. cbn. auto.
Qed.
Lemma level_arr_lost m k ts vs b t n : level m k ts (CA vs) b -> value t n -> lost docs n -> level Hurt k (ts ++ t) (CA vs) true.
Proof.
  intros H V L. inversion H as [k0 ts0 l vs0 b0 A Vs C X|]; subst.
  apply lv_arr with (l ++ [n]).
  - assumption.
  - rewrite <- (app_nil_r t). apply vs_snoc; [assumption|assumption|now left].
  - intros _. rewrite <- app_assoc. apply vs_snoc; [assumption|assumption|now right].
  - exists n. rewrite in_app_iff. cbn. auto.
Qed.
Lemma entries_key ts l raw t n : entries ts l -> value t n -> entries (ts ++ TStr raw :: TEq :: t) (l ++ [(Some raw, n)]) /\ entries ((ts ++ TStr raw :: TEq :: t) ++ [TComma]) (l ++ [(Some raw, n)]).
Proof.
  intros H V. split.
  - rewrite <- (app_nil_r t). apply en_key; [assumption|assumption|now left].
  - rewrite <- app_assoc. cbn [app]. apply en_key; [assumption|assumption|now right].
Qed.
Lemma level_hash m m2 k ts es b t n v raw key : level m k ts (CH es) b -> value t n -> vmode m2 n v -> unescaped raw key -> ~ In key (map fst es) ->
  level (both m m2) k (ts ++ TStr raw :: TEq :: t) (CH (es ++ [(key, v)])) true.
Proof.
  intros H V M U Nk. inversion H as [|k0 ts0 l vs0 b0 A Vs C X]; subst.
  destruct (entries_key _ _ raw _ _ Vs V) as (Y1 & Y2). apply lv_hash with (l ++ [(Some raw, n)]); auto.
  destruct m, m2; cbn in *; auto.
  - now apply hm_key.
  - exists raw, n. rewrite in_app_iff. cbn. auto.
  - destruct X as (x & y & I & L). exists x, y. rewrite in_app_iff. auto.
  - destruct X as (x & y & I & L). exists x, y. rewrite in_app_iff. auto.
  - destruct X as (x & y & I & L). exists x, y. rewrite in_app_iff. auto.
  - exists raw, n. rewrite in_app_iff. cbn. auto.
Qed.
Lemma level_hash_lost m k ts es b t n raw : level m k ts (CH es) b -> value t n -> lost docs n ->
  level Hurt k (ts ++ TStr raw :: TEq :: t) (CH es) true.
Proof.
  intros H V L. inversion H as [|k0 ts0 l vs0 b0 A Vs C X]; subst.
  destruct (entries_key _ _ raw _ _ Vs V) as (Y1 & Y2). apply lv_hash with (l ++ [(Some raw, n)]); auto.
  exists raw, n. rewrite in_app_iff. cbn. auto.
Qed.
Lemma entries_inc ts l raw : entries ts l -> entries (ts ++ [TInc raw]) (l ++ [(None, NInc raw)]) /\ entries ((ts ++ [TInc raw]) ++ [TComma]) (l ++ [(None, NInc raw)]).
Proof.
  intros H. split.
  - apply en_inc; [assumption|now left].
  - rewrite <- app_assoc. cbn [app]. apply en_inc; [assumption|now right].
Qed.

(** Includes. *)
Lemma include_files_merge fs : forall s s' l, s_cont s = CH l -> s_key s = None -> include_files load fs s = Ok (Some s') ->
  exists hs l', Forall2 (fun f d => load f = Ok (Some d)) fs (map VH hs) /\ added l (concat hs) l' /\ s_cont s' = CH l' /\ s_key s' = None.
Proof.
  induction fs as [|f fs IH]; intros s s' l C K E; cbn [include_files] in E.
  - injection E as <-. exists [], l. repeat split; auto; constructor.
  - unfold include_file in E. destruct (load f) as [[d|]|] eqn:Ld; try discriminate. cbn [rbind] in E. unfold merging in E. rewrite C, K in E.
    destruct d as [| |es]; try discriminate. destruct (merge es l) as [l1|] eqn:M; [|discriminate]. cbn [rbind] in E.
    destruct (IH (set_cont (CH l1) s) s' l1 eq_refl K E) as (hs & l' & F & A & C' & K'). exists (es :: hs), l'. apply merge_added in M. repeat split; auto.
    + constructor; auto.
    + cbn [concat]. eapply added_app; eauto.
Qed.
Lemma include_files_shape fs : forall s s', include_files load fs s = Ok (Some s') -> match s_cont s, s_cont s' with CH _, CH _ | CA _, CA _ => True | _, _ => False end.
Proof.
  induction fs as [|f fs IH]; intros s s' E; cbn [include_files] in E.
  - injection E as <-. now destruct (s_cont s).
  - unfold include_file in E. destruct (load f) as [[d|]|]; try discriminate. cbn [rbind] in E. destruct (merging s) eqn:M.
    + destruct d as [| |es]; try discriminate. destruct (s_cont s) as [l|]; try discriminate. destruct (merge es l); try discriminate. cbn [rbind] in E. apply IH in E. exact E.
    + unfold add_val in E. destruct (s_cont s).
      * destruct (s_key s); try discriminate. destruct (has_key _ _); try discriminate. cbn [rbind] in E. apply IH in E. exact E.
      * cbn [rbind] in E. apply IH in E. exact E.
Qed.
Lemma include_shape raw s s' : take RInc raw s = Ok (Some s') -> match s_cont s, s_cont s' with CH _, CH _ | CA _, CA _ => True | _, _ => False end.
Proof.
  cbn [VscfModel.take]. unfold include. destruct (inc_files _ _ _ raw); [|discriminate]. destruct (_ && _); [discriminate|]. intros E. now apply include_files_shape in E.
Qed.
Lemma include_merge raw s s' l : s_cont s = CH l -> s_key s = None -> take RInc raw s = Ok (Some s') ->
  exists hs l', docs raw (map VH hs) /\ added l (concat hs) l' /\ s_cont s' = CH l' /\ s_key s' = None.
Proof.
  cbn [VscfModel.take]. unfold include. intros C K E. destruct (inc_files _ _ _ raw) as [fs|] eqn:I; [|discriminate]. destruct (_ && _); [discriminate|].
  destruct (include_files_merge fs (set_tok None s) s' l C K E) as (hs & l' & F & A & C' & K'). exists hs, l'. repeat split; auto. exists fs. auto.
Qed.
Lemma include_value raw s s' : (forall l, s_cont s = CH l -> s_key s <> None) -> take RInc raw s = Ok (Some s') ->
  (docs raw [] /\ s_cont s' = s_cont s /\ s_key s' = s_key s) \/
  (exists d, docs raw [d] /\ match s_cont s with
     | CA l => s_cont s' = CA (l ++ [d]) /\ s_key s' = s_key s
     | CH l => exists key, s_key s = Some key /\ ~ In key (map fst l) /\ s_cont s' = CH (l ++ [(key, d)]) /\ s_key s' = None
     end).
Proof.
  cbn [VscfModel.take]. unfold include. intros K E. destruct (inc_files _ _ _ raw) as [fs|] eqn:I; [|discriminate].
  assert (M : merging (set_tok None s) = false). { unfold merging. cbn [set_tok s_cont s_key]. destruct (s_cont s) as [l|]; [|reflexivity]. specialize (K l eq_refl). destruct (s_key s); congruence. }
  rewrite M in E. destruct fs as [|f [|f2 fs]]; cbn [negb andb Nat.ltb Nat.leb length] in E; [| |discriminate].
  - left. cbn in E. injection E as <-. repeat split. exists []. split; [assumption|constructor].
  - right. cbn [include_files] in E. unfold include_file in E. destruct (load f) as [[d|]|] eqn:Ld; try discriminate. cbn [rbind] in E. rewrite M in E.
    exists d. split; [exists [f]; split; [assumption|repeat constructor; assumption]|].
    unfold add_val in E. cbn [set_tok s_cont s_key] in E. destruct (s_cont s) as [l|l].
    + destruct (s_key s) as [key|]; [|discriminate]. destruct (has_key key l) eqn:Hk; [discriminate|]. apply has_key_false in Hk. cbn [rbind] in E. injection E as <-. exists key. auto.
    + cbn [rbind] in E. injection E as <-. auto.
Qed.

Lemma syn_item k b : syn k (PItem b) 91 = match k with KArr | KTopArr => Some AOpenA | KMain true => Some ATop | _ => None end
  /\ syn k (PItem b) 93 = match k with KArr => Some AClose | KTopArr => Some ATopEnd | _ => None end
  /\ syn k (PItem b) 123 = match k with KArr | KTopArr => Some AOpenH | _ => None end
  /\ syn k (PItem b) 125 = match k with KHash => Some AClose | _ => None end
  /\ syn k (PItem b) 44 = (if b then Some (AGo (PItem false)) else None)
  /\ syn k (PItem b) 36 = Some ADollar
  /\ role_of k (PItem b) = Some (if is_array k then RVal else RKey).
Proof. destruct k as [[]| | |], b; repeat split; vm_compute; reflexivity. Qed.
Lemma syn_pval k : syn k PVal 91 = Some AOpenA /\ syn k PVal 93 = None /\ syn k PVal 123 = Some AOpenH /\ syn k PVal 125 = None
  /\ syn k PVal 44 = None /\ syn k PVal 36 = Some ADollar /\ role_of k PVal = Some RVal.
Proof. destruct k as [[]| | |]; repeat split; vm_compute; reflexivity. Qed.
Lemma syn_pkey k : syn k PKey 91 = None /\ syn k PKey 93 = None /\ syn k PKey 123 = None /\ syn k PKey 125 = None
  /\ syn k PKey 44 = None /\ syn k PKey 36 = None /\ role_of k PKey = None.
Proof. destruct k as [[]| | |]; repeat split; vm_compute; reflexivity. Qed.
Lemma syn_pend k : syn k PEnd 91 = None /\ syn k PEnd 93 = None /\ syn k PEnd 123 = None /\ syn k PEnd 125 = None
  /\ syn k PEnd 44 = None /\ syn k PEnd 36 = None /\ role_of k PEnd = None.
Proof. destruct k as [[]| | |]; repeat split; vm_compute; reflexivity. Qed.

Lemma outer_kind m k k' ts stk : outer m k ts stk -> defresh k = defresh k' -> outer m k' ts stk.
Proof.
  intros H E. destruct H.
  - destruct k'; try discriminate. constructor.
  - destruct k'; try discriminate. constructor.
  - assert (k'0 = k') as <- by (destruct H1, k'; try discriminate; reflexivity). eapply ou_in_arr; eauto.
  - assert (k'0 = k') as <- by (destruct H1, k'; try discriminate; reflexivity). eapply ou_in_hash; eauto.
Qed.
Lemma outer_main m b ts stk : outer m (KMain b) ts stk -> m = Good /\ ts = [] /\ stk = [].
Proof. intros H. inversion H as [|  |? ? ? ? ? ? ? ? ? ? ? ? O|? ? ? ? ? ? ? ? ? ? ? ? ? ? O]; [auto|inversion O|inversion O]. Qed.
Lemma outer_top m ts stk : outer m KTopArr ts stk -> m = Good /\ ts = [TOpenA] /\ stk = [].
Proof. intros H. inversion H as [|  |? ? ? ? ? ? ? ? ? ? ? ? O|? ? ? ? ? ? ? ? ? ? ? ? ? ? O]; [auto|inversion O|inversion O]. Qed.
Lemma defresh_twice k : defresh (defresh k) = defresh k.
Proof. now destruct k. Qed.
Lemma defresh_not k : defresh k <> KMain true.
Proof. now destruct k. Qed.
Lemma defresh_array k : is_array (defresh k) = is_array k.
Proof. now destruct k. Qed.
Lemma not_any m : m <> Any -> m = Good \/ m = Hurt.
Proof. destruct m; auto. congruence. Qed.
Lemma not_fresh k (P : Prop) : defresh k = KMain true -> P.
Proof. now destruct k. Qed.

Lemma level_nil_a k : is_array k = true -> level Good k [] (CA []) false.
Proof. intros A. apply lv_arr with []; auto; try constructor. discriminate. Qed.
Lemma level_nil_h k : is_array k = false -> level Good k [] (CH []) false.
Proof. intros A. apply lv_hash with []; auto; try constructor. discriminate. Qed.
Lemma opened m k tk ts stk ct : opens tk k -> outer m k ts stk -> ct = (match k with KArr => CA [] | _ => CH [] end) -> m = Good \/ m = Hurt -> forall key, (m = Good -> key = None) ->
  sinv ts (Scn (LPos (PItem false)) k ct key stk None).
Proof.
  intros O H C M key K. rewrite <- (app_nil_r ts). apply si_item with m Good; auto.
  - destruct O; subst ct; [apply level_nil_a|apply level_nil_h]; reflexivity.
  - destruct O; discriminate.
  - rewrite both_good. destruct M as [->| ->]; auto.
Qed.
Lemma closed m1 m2 k ts stk tsl ct b key s' tk : outer m1 k ts stk -> level m2 k tsl ct b -> (both m1 m2 = Good /\ key = None) \/ both m1 m2 = Hurt ->
  tk = (match k with KArr => TCloseA | _ => TCloseH end) -> k = KArr \/ k = KHash ->
  close (Scn (LPos (PItem b)) k ct key stk None) = Ok (Some s') -> sinv ((ts ++ tsl) ++ [tk]) s'.
Proof.
  intros H L M -> K E.
  assert (V : exists n v, v = (match ct with CH l => VH l | CA l => VA l end) /\ vmode m2 n v /\
             forall t0, opens t0 k -> value (t0 :: tsl ++ [match k with KArr => TCloseA | _ => TCloseH end]) n).
  { inversion L as [k0 ts0 l vs b0 A Vs C X|k0 ts0 l es b0 A Vs C X]; subst.
    - destruct K as [->| ->]; [|discriminate]. exists (NArr l). eexists. split; [reflexivity|]. split.
      + destruct m2; cbn in *; auto; [now constructor|]. destruct X as (n & I & Ln). eapply lo_arr; eauto.
      + intros t0 O. inversion O; subst. now apply va_arr.
    - destruct K as [->| ->]; [discriminate|]. exists (NHash l). eexists. split; [reflexivity|]. split.
      + destruct m2; cbn in *; auto; [now constructor|]. destruct X as (k1 & n & I & Ln). eapply lo_hash; eauto.
      + intros t0 O. inversion O; subst. now apply va_hash. }
  destruct V as (n & v & Ev & Vm & Vv). unfold close in E. cbn [s_stk s_cont s_key s_tok] in E. rewrite <- Ev in E.
  destruct H as [b1| |m1 m3 k ts stk ts2 vs b1 tk k' Ho Lo O|m1 m3 k ts stk ts2 es b1 tk k' raw key1 Ho Lo O Nk U Ni].
  - destruct K; discriminate.
  - destruct K; discriminate.
  - injection E as <-. specialize (Vv _ O). rewrite <- !app_assoc. cbn [app]. rewrite both_assoc in M.
    apply si_item with m1 (both m3 m2); auto.
    + eapply level_arr; eauto.
    + intros ->. inversion Lo. discriminate.
  - injection E as <-. specialize (Vv _ O). rewrite <- !app_assoc. cbn [app]. rewrite both_assoc in M.
    apply si_item with m1 (both m3 m2); auto.
    + eapply level_hash; eauto.
    + intros ->. congruence.
Qed.

Theorem sinv_step ts s k s' : sinv ts s -> tstep k s = Ok (Some s') -> sinv (ts ++ [k]) s'.
Proof.
  intros H E. destruct H as [m1 m2 kd tso tsl ct b key stk Ho Lo Fr M|m1 m2 kd tso tsl es b key stk raw Ho Lo Nf M U|m1 m2 kd tso tsl es b key stk raw Ho Lo Nf M U|m vs tsl key b Lo M].
  - unfold VscfProofs.tstep in E. cbn [s_lex s_kind] in E. destruct (syn_item kd b) as (S1 & S2 & S3 & S4 & S5 & S6 & Ro). rewrite S1, S2, S3, S4, S5, S6, Ro in E.
    assert (Ho' : outer m1 (defresh kd) tso stk) by (eapply outer_kind; [exact Ho|now rewrite defresh_twice]).
    destruct k as [raw|raw| | | | | |].
    + destruct (is_array kd) eqn:A.
      * destruct Lo as [kd tsl l vs b _ Vs C X|kd tsl l es b A' Vs C X]; [|congruence].
        cbn [VscfModel.take] in E. destruct (unescape raw) as [[u|]|] eqn:Ue; try discriminate. apply unescape_iff in Ue. cbn in E. injection E as <-.
        rewrite <- app_assoc. unfold eff. cbn. apply si_item with m1 m2; auto.
        -- rewrite <- (both_good m2). eapply level_arr; [|apply va_str|now apply me_str]. eapply lv_arr; eauto. now rewrite defresh_array.
        -- intros X'. revert X'. apply not_fresh.
      * cbn [VscfModel.take] in E. destruct (unescape raw) as [[u|]|] eqn:Ue; try discriminate. apply unescape_iff in Ue. cbn in E. injection E as <-.
        destruct Lo as [kd tsl l vs b A' Vs C X|kd tsl l es b A' Vs C X]; [congruence|].
        rewrite <- app_assoc. unfold eff. cbn. apply si_key with m1 m2 b; auto.
        -- eapply lv_hash; eauto. now rewrite defresh_array.
        -- apply defresh_not.
        -- destruct M as [(-> & _)| ->]; discriminate.
    + destruct (take RInc raw (core _)) as [[y|]|] eqn:T; try discriminate. cbn in E. injection E as <-. rewrite <- app_assoc. unfold eff. cbn [s_stk].
      assert (F : forall P : Prop, defresh kd = KMain true -> P) by (intros P; apply not_fresh).
      destruct Lo as [kd tsl l vs b A Vs C X|kd tsl l es b A Vs C X].
      * apply include_value in T; [|intros l0 Z; cbn in Z; discriminate Z]. destruct T as [(D & C' & K')|(d & D & C' & K')]; cbn [core s_cont s_key] in C', K'; rewrite C', K'.
        -- apply si_item with m1 Hurt; [assumption| |apply F|].
           ++ eapply level_arr_lost; [|apply va_inc|now constructor]. eapply lv_arr with (m := m2); eauto. now rewrite defresh_array.
           ++ right. destruct m1; reflexivity.
        -- apply si_item with m1 m2; [assumption| |apply F|assumption]. rewrite <- (both_good m2). eapply level_arr; [|apply va_inc|now apply me_inc]. eapply lv_arr; eauto. now rewrite defresh_array.
      * destruct (entries_inc _ _ raw Vs) as (Y1 & Y2). destruct M as [(M & ->)|M].
        -- assert (m2 = Good) as -> by (destruct m1, m2; try discriminate; reflexivity).
           apply include_merge with (l := es) in T; [|reflexivity|reflexivity]. destruct T as (hs & l' & D & Ad & C' & K'). rewrite C', K'. apply si_item with m1 Good; [assumption| |apply F|auto].
           apply lv_hash with (l ++ [(None, NInc raw)]); auto; [now rewrite defresh_array|]. eapply hm_inc; eauto.
        -- pose proof (include_shape _ _ _ T) as Sh. cbn [core s_cont] in Sh. destruct (s_cont y) as [es'|] eqn:Cy; [|contradiction].
           apply si_item with m1 (match m2 with Hurt => Hurt | _ => Any end); [assumption| |apply F|].
           ++ apply lv_hash with (l ++ [(None, NInc raw)]); auto; [now rewrite defresh_array|]. destruct m2; auto. destruct X as (k1 & n & I & Ln). exists k1, n. rewrite in_app_iff. auto.
           ++ right. destruct m1, m2; try discriminate; reflexivity.
    + destruct kd as [[]| | |]; try discriminate; cbn [do_act] in E.
      * destruct (Fr eq_refl) as (-> & -> & _). apply outer_main in Ho as (-> & -> & ->). injection E as <-. cbn [app s_key s_stk s_tok]. apply (si_item Good Good KTopArr [TOpenA] [] (CA []) false None []).
        -- constructor.
        -- now apply level_nil_a.
        -- discriminate.
        -- left. split; reflexivity.
      * unfold open in E. destruct ct as [l|vs]; [inversion Lo; discriminate|]. cbn [s_cont s_key s_kind s_stk s_tok] in E. injection E as <-. rewrite <- app_assoc. eapply opened with (m := both m1 m2) (tk := TOpenA); [constructor| |reflexivity| |].
        -- eapply ou_in_arr; eauto. constructor.
        -- tauto.
        -- destruct M as [(_ & ->)|M]; [reflexivity|congruence].
      * unfold open in E. destruct ct as [l|vs]; [inversion Lo; discriminate|]. cbn [s_cont s_key s_kind s_stk s_tok] in E. injection E as <-. rewrite <- app_assoc. eapply opened with (m := both m1 m2) (tk := TOpenA); [constructor| |reflexivity| |].
        -- eapply ou_in_arr; eauto. constructor.
        -- tauto.
        -- destruct M as [(_ & ->)|M]; [reflexivity|congruence].
    + destruct kd as [[]| | |]; try discriminate; cbn [do_act] in E.
      * apply outer_top in Ho as (-> & -> & ->). destruct ct as [es|vs]; [inversion Lo; discriminate|]. injection E as <-. cbn [app]. unfold set_lex. cbn [s_kind s_cont s_key s_stk s_tok].
        apply si_end with m2 b; [assumption|]. destruct m2, M as [(M & _)|M]; discriminate.
      * eapply closed; eauto.
    + destruct kd as [[]| | |]; try discriminate; cbn [do_act] in E.
      all: unfold open in E; destruct ct as [l|vs]; [inversion Lo; discriminate|]; cbn [s_cont s_key s_kind s_stk s_tok] in E; injection E as <-; rewrite <- app_assoc; eapply opened with (m := both m1 m2) (tk := TOpenH); [constructor| |reflexivity| |].
      all: try (eapply ou_in_arr; eauto; constructor). all: try tauto. all: destruct M as [(_ & ->)|M]; [reflexivity|congruence].
    + destruct kd as [[]| | |]; try discriminate; cbn [do_act] in E. eapply closed; eauto.
    + destruct b; try discriminate. cbn in E. injection E as <-. rewrite <- app_assoc. unfold set_lex. cbn. apply si_item with m1 m2; auto.
      * now apply level_comma.
      * intros ->. destruct (Fr eq_refl) as (_ & _ & X). discriminate X.
    + discriminate.
  - unfold VscfProofs.tstep in E. cbn [s_lex s_kind] in E. destruct (syn_pkey kd) as (S1 & S2 & S3 & S4 & S5 & S6 & Ro). rewrite S1, S2, S3, S4, S5, S6, Ro in E.
    destruct k; try discriminate. injection E as <-. rewrite <- !app_assoc. cbn. eapply si_val; eauto.
  - unfold VscfProofs.tstep in E. cbn [s_lex s_kind] in E. destruct (syn_pval kd) as (S1 & S2 & S3 & S4 & S5 & S6 & Ro). rewrite S1, S2, S3, S4, S5, S6, Ro in E.
    assert (Dk : defresh kd = kd) by (destruct kd as [[]| | |]; try reflexivity; congruence). rewrite Dk in E.
    assert (F : forall P : Prop, kd = KMain true -> P) by (intros P X; congruence).
    apply not_any in M.
    destruct k as [r2|r2| | | | | |]; try discriminate.
    + cbn [VscfModel.take] in E. destruct (unescape r2) as [[u|]|] eqn:Ue; try discriminate. apply unescape_iff in Ue. cbn [rbind] in E. unfold add_val in E. cbn [set_tok core s_cont s_key] in E.
      destruct (has_key key es) eqn:Hk; [discriminate|]. apply has_key_false in Hk. cbn in E. injection E as <-. rewrite <- !app_assoc. cbn [app]. unfold eff. cbn. apply si_item with m1 m2; [assumption| |apply F|].
      * rewrite <- (both_good m2). eapply level_hash with (t := [TStr r2]); eauto; [apply va_str|now apply me_str].
      * tauto.
    + destruct (take RInc r2 (core _)) as [[y|]|] eqn:T; try discriminate. cbn in E. injection E as <-. rewrite <- !app_assoc. cbn [app]. unfold eff. cbn [s_stk].
      apply include_value in T; [|intros l0 Z; discriminate]. destruct T as [(D & C' & K')|(d & D & X)]; cbn [core s_cont s_key] in *.
      * rewrite C', K'. apply si_item with m1 Hurt; [assumption| |apply F|].
        -- eapply level_hash_lost with (t := [TInc r2]); eauto; [apply va_inc|now constructor].
        -- right. now destruct m1.
      * destruct X as (key' & Ek & Ni & C' & K'). injection Ek as <-. rewrite C', K'. apply si_item with m1 m2; [assumption| |apply F|].
        -- rewrite <- (both_good m2). eapply level_hash with (t := [TInc r2]); eauto; [apply va_inc|now apply me_inc].
        -- tauto.
    + cbn [do_act] in E. unfold open in E. cbn [s_cont s_key s_kind s_stk s_tok] in E. destruct (has_key key es) eqn:Hk; [discriminate|]. apply has_key_false in Hk. injection E as <-.
      rewrite <- !app_assoc. cbn [app]. eapply opened with (m := both m1 m2) (tk := TOpenA); [constructor| |reflexivity|tauto|auto]. eapply ou_in_hash; eauto. constructor.
    + cbn [do_act] in E. unfold open in E. cbn [s_cont s_key s_kind s_stk s_tok] in E. destruct (has_key key es) eqn:Hk; [discriminate|]. apply has_key_false in Hk. injection E as <-.
      rewrite <- !app_assoc. cbn [app]. eapply opened with (m := both m1 m2) (tk := TOpenH); [constructor| |reflexivity|tauto|auto]. eapply ou_in_hash; eauto. constructor.
  - unfold VscfProofs.tstep in E. cbn [s_lex s_kind] in E. destruct (syn_pend KTopArr) as (S1 & S2 & S3 & S4 & S5 & S6 & Ro). rewrite S1, S2, S3, S4, S5, S6, Ro in E. destruct k; discriminate.
Qed.
End Tok.
