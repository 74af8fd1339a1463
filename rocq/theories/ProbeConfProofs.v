(** Proofs about service types *)
From Coq Require Import String Ascii Lia.
From Verif Require Import Base CompModel VscfModel OptModel OptSpec OptProofs ProbeModel ProbeConfModel ProbeConfSpec.
Local Open Scope N_scope.
Local Open Scope list_scope.
Local Notation length := List.length.

Lemma request_ok url vhost : make_req_data url vhost = request url vhost.
Proof.
  unfold make_req_data, request, line. destruct vhost as [v|].
  - transitivity (fill req_tmpl_vhost [url; v]).
    + match goal with |- firstn ?n ?l = _ => replace n with (length l); [apply firstn_all|] end.
      cbn. rewrite !app_length. cbn. rewrite ?app_length. cbn. lia.
    + cbn. repeat (rewrite <- !app_assoc; cbn). reflexivity.
  - transitivity (fill req_tmpl [url]).
    + match goal with |- firstn ?n ?l = _ => replace n with (length l); [apply firstn_all|] end.
      cbn. rewrite !app_length. cbn. lia.
    + cbn. rewrite <- !app_assoc. reflexivity.
Qed.

Lemma codes_through {B} vs : (Forall (fun e => match e with VS _ _ => True | _ => False end) vs) ->
  forall (f : list N -> reader B) ks X,
  rseq (read_codes vs) f ks = X -> X <> Ok None -> exists ns, Forall2 code vs ns /\ f ns ks = X.
Proof.
  induction 1 as [|v vs Hv H IH]; intros f ks X E NN.
  - exists []. auto.
  - destruct v as [raw v|?|?]; try contradiction. cbn [read_codes] in E.
    destruct (as_ulong v) as [n|] eqn:U; [|cbn in E; congruence].
    rewrite rseq_assoc in E. apply need_through in E as [R E]; [|assumption].
    rewrite rseq_assoc in E. apply IH in E as (ns & F & E); [|assumption].
    rewrite seq_ret in E. exists (n :: ns).
    assert (n < two32) by (unfold two32; lia). rewrite N.mod_small in E by assumption.
    split; [|exact E]. constructor; [|assumption]. apply as_ulong_iff in U. constructor; [assumption|lia].
Qed.

Lemma codes_go {B} vs ns : Forall2 code vs ns -> forall (f : list N -> reader B) ks,
  rseq (read_codes vs) f ks = f ns ks.
Proof.
  induction 1 as [|v n vs ns Hv H IH]; intros f ks; [reflexivity|].
  destruct Hv as [raw s n U R]. cbn [read_codes]. apply as_ulong_iff in U. rewrite U.
  rewrite rseq_assoc, need_go by lia. rewrite rseq_assoc, IH, seq_ret.
  rewrite N.mod_small by (unfold two32; lia). reflexivity.
Qed.

Ltac thr :=
  repeat first
    [ rewrite rseq_assoc in *
    | match goal with
      | E : rseq (opt_uint _ _ _ _ _) _ _ = _ |- _ =>
          apply uint_through in E; [destruct E as (? & ? & E)|reflexivity|assumption]
      | E : rseq (opt_str _ _ _) _ _ = _ |- _ =>
          apply str_through in E; [destruct E as (? & ? & E)|assumption]
      | E : rseq (opt_bool _ _ _) _ _ = _ |- _ =>
          apply bool_through in E; [destruct E as (? & ? & E)|assumption]
      | E : rseq (need _) _ _ = _ |- _ => apply need_through in E; [destruct E as (? & E)|assumption]
      | E : rseq (no_others _) _ _ = _ |- _ => apply others_through in E; [destruct E as (? & E)|assumption]
      | E : rseq (rret _) _ _ = _ |- _ => rewrite seq_ret in E
      | E : rseq (look _ _) _ _ = _ |- _ => rewrite look_seq in E
      end ].

Lemma half i : N.shiftr i 1 = i / 2.
Proof. now rewrite N.shiftr_div_pow2. Qed.

Lemma mon_through {B} l (f : mon_svc -> reader B) ks X :
  rseq (mon_options (VH l)) f ks = X -> X <> Ok None ->
  exists m, mon_spec l m /\ f m (rev [txt "up_thresh"; txt "ok_thresh"; txt "down_thresh"; txt "interval"; txt "timeout"] ++ ks) = X.
Proof.
  intros E NN. unfold mon_options in E. thr. rewrite half in *.
  eexists. split; [|exact E]. unfold mon_spec. cbn. repeat (split; [assumption|]). lia.
Qed.

Lemma mon_go {B} l m (f : mon_svc -> reader B) ks : mon_spec l m ->
  rseq (mon_options (VH l)) f ks =
  f m (rev [txt "up_thresh"; txt "ok_thresh"; txt "down_thresh"; txt "interval"; txt "timeout"] ++ ks).
Proof.
  intros (H1 & H2 & H3 & H4 & H5 & H6). unfold mon_options.
  rewrite rseq_assoc, (uint_go _ _ _ _ _ _ _ _ H1 eq_refl), rseq_assoc, (uint_go _ _ _ _ _ _ _ _ H2 eq_refl),
    rseq_assoc, (uint_go _ _ _ _ _ _ _ _ H3 eq_refl), rseq_assoc, (uint_go _ _ _ _ _ _ _ _ H4 eq_refl), half,
    rseq_assoc, (uint_go _ _ _ _ _ _ _ _ H5 eq_refl), rseq_assoc, need_go by lia.
  rewrite seq_ret. destruct m. reflexivity.
Qed.

Lemma codes_elements o v : given o (txt "ok_codes") (Some v) -> plain_codes o ->
  Forall (fun e => match e with VS _ _ => True | _ => False end) (elements v).
Proof.
  intros G P. specialize (P v G). destruct v; cbn in *; [repeat constructor|assumption|contradiction].
Qed.

Lemma codes_of v ns : Forall2 code (elements v) ns -> elements v <> [] -> codes (Some v) ns.
Proof.
  intros F N. destruct v as [raw s|l|l]; cbn in *.
  - inversion F as [|? n ? ns' C F']; subst. inversion F'; subst. now constructor.
  - constructor; [assumption|]. intros ->. inversion F; subst. contradiction.
  - inversion F as [|? n ? ns' C F']; subst. inversion C.
Qed.

Lemma of_codes v ns : codes (Some v) ns -> Forall2 code (elements v) ns /\ elements v <> [].
Proof.
  intros H. inversion H as [|? n C|l ? F N]; subst.
  - inversion C; subst. cbn. split; [constructor; auto|discriminate].
  - cbn. split; [assumption|]. intros ->. inversion F; subst. contradiction.
Qed.


Lemma run_iff {A} (R : res (option (A * list bytes))) (spec : A -> Prop) :
  (forall X, R = X -> X <> Ok None -> exists a ks, spec a /\ X = Ok (Some (a, ks))) ->
  (forall a, spec a -> exists ks, R = Ok (Some (a, ks))) ->
  match R with Ok (Some (r, _)) => Ok (Some r) | Ok None => Ok None | UB => UB end <> UB /\
  forall a, match R with Ok (Some (r, _)) => Ok (Some r) | Ok None => Ok None | UB => UB end = Ok (Some a) <-> spec a.
Proof.
  intros T G. split.
  - destruct R as [[[r ks]|]|] eqn:E; try discriminate.
    destruct (T UB eq_refl) as (a & ks & _ & X); discriminate.
  - intros a. split.
    + destruct R as [[[r ks]|]|] eqn:E; try discriminate. intros [= ->].
      destruct (T (Ok (Some (a, ks))) eq_refl) as (a' & ks' & S & X); [discriminate|].
      now injection X as -> _.
    + intros S. destruct (G a S) as (ks & ->). reflexivity.
Qed.

Lemma only_same l ks ks' : incl ks ks' -> incl ks' ks -> only l ks <-> only l ks'.
Proof. intros A B. unfold only. split; intros H k Hk; auto. Qed.

Ltac in_list := let k := fresh in let H := fresh in
  intros k H; cbn [In app rev common_keys] in H |- *;
  repeat (destruct H as [<-|H]; [repeat (first [left; reflexivity|right])|]); contradiction.

Theorem http_type_ok l : plain_codes l ->
  http_type l <> UB /\ forall m s, http_type l = Ok (Some (m, s)) <-> http_spec l m s.
Proof.
  intros P. unfold http_type, service_type.
  match goal with |- context [match ?X with _ => _ end] => set (R := X) end.
  destruct (run_iff R (fun ms => http_spec l (fst ms) (snd ms))) as [U I].
  - intros X E NN. unfold R in E.
    apply mon_through in E as (m & M & E); [|assumption].
    unfold http_options in E. thr.
    match type of E with rseq _ ?f ?k = X => set (ff := f) in E; set (kk := k) in E end.
    assert (C : exists ns, codes (get (txt "ok_codes") l) ns /\ ff ns kk = X).
    { destruct (get (txt "ok_codes") l) as [v|] eqn:G.
      - rewrite rseq_assoc in E. apply need_through in E as [N E]; [|assumption].
        apply codes_through in E as (ns & F & E); [| |assumption].
        + exists ns. split; [|assumption]. apply codes_of; [assumption|].
          intros K. rewrite K in N. discriminate.
        + eapply codes_elements; [apply get_given; exact G|assumption].
      - exists [200]. split; [constructor|exact E]. }
    clear E. destruct C as (ns & C & E). unfold ff, kk in E. clear ff kk. thr.
    match goal with H : text _ _ (Some _) ?o |- _ =>
      assert (exists url, o = Some url) as [url ->]
        by (destruct H as [[_ ->]|(? & ? & ? & _ & _ & ->)]; eauto) end.
    unfold rret in E. eexists; eexists. split; [|symmetry; exact E]. cbn [fst snd].
    unfold http_spec. cbn [req_data h_port ok_codes h_timeout h_interval].
    split; [assumption|]. split; [eexists; eexists; split; [eassumption|split; [eassumption|apply request_ok]]|].
    split; [assumption|]. split; [eexists; split; [apply get_given; reflexivity|assumption]|].
    split; [reflexivity|]. split; [reflexivity|].
    eapply only_same; [| |eassumption]; in_list.
  - intros [m s] (M & (url & vhost & T1 & T2 & RQ) & Pt & (o & G & C) & TO & IV & ON). cbn [fst snd] in *.
    unfold R. rewrite (mon_go _ _ _ _ M). unfold http_options.
    rewrite rseq_assoc, (str_go _ _ _ _ _ _ T1), rseq_assoc, (str_go _ _ _ _ _ _ T2), rseq_assoc,
      (uint_go _ _ _ _ _ _ _ _ Pt eq_refl), rseq_assoc, look_seq.
    apply get_given in G. rewrite G. rewrite rseq_assoc.
    match goal with |- context [rseq _ ?f ?k] => set (ff := f); set (kk := k) end.
    assert (E : rseq match o with
                     | Some v => rseq (need match elements v with [] => false | _ => true end) (fun _ => read_codes (elements v))
                     | None => rret [200] end ff kk = ff (ok_codes s) kk).
    { destruct o as [v|].
      - apply of_codes in C as [F N]. rewrite rseq_assoc, need_go by (destruct (elements v); congruence).
        now apply codes_go.
      - inversion C. reflexivity. }
    rewrite E. unfold ff. rewrite seq_ret. rewrite others_go.
    + rewrite request_ok, <- RQ, <- TO, <- IV. destruct s. eexists. reflexivity.
    + eapply only_same; [| |exact ON]; unfold kk; in_list.
  - split; [exact U|]. intros m s. apply (I (m, s)).
Qed.

Theorem tcp_type_ok l :
  tcp_type l <> UB /\ forall m s, tcp_type l = Ok (Some (m, s)) <-> tcp_spec l m s.
Proof.
  unfold tcp_type, service_type.
  match goal with |- context [match ?X with _ => _ end] => set (R := X) end.
  destruct (run_iff R (fun ms => tcp_spec l (fst ms) (snd ms))) as [U I].
  - intros X E NN. unfold R in E.
    apply mon_through in E as (m & M & E); [|assumption].
    unfold tcp_options in E. thr.
    unfold rret in E. eexists; eexists. split; [|symmetry; exact E]. cbn [fst snd].
    unfold tcp_spec. cbn [t_port t_timeout t_interval].
    split; [assumption|]. split.
    { match goal with H : number _ (txt "port") _ _ _ _ |- _ => destruct H as [[_ ->]|(? & ? & ? & _)]; [discriminate|eauto] end. }
    split; [assumption|]. split; [reflexivity|]. split; [reflexivity|].
    eapply only_same; [| |eassumption]; in_list.
  - intros [m s] (M & (v & G) & Pt & TO & IV & ON). cbn [fst snd] in *.
    unfold R. rewrite (mon_go _ _ _ _ M). unfold tcp_options.
    rewrite rseq_assoc, (uint_go _ _ _ _ _ _ _ _ Pt eq_refl), rseq_assoc, need_go, seq_ret, others_go.
    + rewrite <- TO, <- IV. destruct s. eexists. reflexivity.
    + eapply only_same; [| |exact ON]; in_list.
    + destruct Pt as [[G' _]|(? & ? & _ & _ & L)].
      * exfalso. pose proof (given_det _ _ _ _ G G'). discriminate.
      * lia.
  - split; [exact U|]. intros m s. apply (I (m, s)).
Qed.

(** What the checks need *)
Lemma http_type_usable l m s : http_spec l m s ->
  req_data s <> [] /\ Forall (fun c => 100 <= c <= 999) (ok_codes s) /\ 0 < h_interval s /\ h_timeout s < h_interval s.
Proof.
  intros (M & (url & vhost & _ & _ & RQ) & _ & (o & _ & C) & TO & IV & _).
  split; [rewrite RQ; destruct vhost; discriminate|]. split.
  - inversion C as [|v n Cv|vs ns F]; subst.
    + repeat constructor; lia.
    + inversion Cv; subst. repeat constructor; lia.
    + clear - F. induction F as [|v n vs ns Cv F IH]; constructor; [inversion Cv; subst; lia|exact IH].
  - rewrite TO, IV. destruct M as (_ & _ & _ & I & _ & L). lia.
Qed.

Lemma tcp_type_usable l m s : tcp_spec l m s -> 0 < t_interval s /\ t_timeout s < t_interval s.
Proof. intros (M & _ & _ & TO & IV & _). rewrite TO, IV. destruct M as (_ & _ & _ & I & _ & L). lia. Qed.
