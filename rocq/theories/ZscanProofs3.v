(** The scanner's machine, part 3: records, commands and lines. *)
From Coq Require Import String Ascii.
From Verif Require Import Base DnameSpec DnameModel DnameProofs CompModel RespModel LtreeModel ZscanModel ZscanSpec ZscanProofs ZscanProofs2.
Local Open Scope N_scope.
Local Notation length := List.length.
Local Arguments N.lor : simpl never.
Local Arguments N.eqb : simpl never.
Local Arguments N.leb : simpl never.

(** ** The actions a text stands for *)
Definition data_acts (d : data) : list action :=
  match d with
  | DA t => [SetIpv4 t; RecA]
  | DAaaa t => [SetIpv6 t; RecAaaa]
  | DNs n => [SetRhs n; RecNs]
  | DCname n => [SetRhs n; RecCname]
  | DPtr n => [SetRhs n; RecPtr]
  | DMx p n => [SetUval p; SetRhs n; RecMx]
  | DTxt l => TextStart :: map PushTxt l ++ [RecTxt]
  | DSrv p w o n => [SetUval p; SetUv 1; SetUval w; SetUv 2; SetUval o; SetUv 3; SetRhs n; RecSrv]
  | DNaptr o p a b c n => [SetUval o; SetUv 1; SetUval p; SetUv 2; TextStart; PushTxt255 a; PushTxt255 b; PushTxt255 c; SetRhs n; RecNaptr]
  | DSoa m r d1 d2 d3 d4 d5 =>
      [SetRhs m; SetEml r] ++ (dur_acts d1 ++ [SetUv 1]) ++ (dur_acts d2 ++ [SetUv 2]) ++ (dur_acts d3 ++ [SetUv 3]) ++
      (dur_acts d4 ++ [SetUv 4]) ++ dur_acts d5 ++ [SetUv 5; RecSoa]
  | DGen ty len l => [SetUval ty; SetUv 1; SetUval len; DataSetup] ++ octet_acts l ++ [RecRfc3597]
  | DCaa f p v => [SetUval f; SetCaaProp p; TextStart; PushTxtHuge v; RecCaa]
  | DDyna t => [SetDyna t; RecDyna]
  | DDync t => [SetDyna t; RecDync]
  end.
(** what may follow *)
Definition dfol (d : data) (r : bytes) : Prop :=
  match d with DTxt _ | DGen _ _ _ => begins (eq 10) r | _ => begins end_of r end.

Definition kw (ty : rrtype) : string :=
  match ty with
  | TA => "a" | TAAAA => "aaaa" | TNS => "ns" | TCNAME => "cname" | TPTR => "ptr" | TMX => "mx" | TTXT => "txt" | TSRV => "srv"
  | TNAPTR => "naptr" | TSOA => "soa" | TTYPE => "type" | TCAA => "caa" | TDYNA => "dyna" | TDYNC => "dync"
  end%string.
Definition body (ty : rrtype) (t : bytes) (d : data) : Prop :=
  match ty with
  | TA => exists b x, t = b ++ x /\ blanks b /\ x <> [] /\ Forall (fun c => is_digit c \/ c = 46) x /\ d = DA x
  | TAAAA => exists b x, t = b ++ x /\ blanks b /\ x <> [] /\ Forall (fun c => hexdigit c \/ c = 58 \/ c = 46) x /\ d = DAaaa x
  | TNS => exists b x n, t = b ++ x /\ blanks b /\ name_token x n /\ d = DNs n
  | TCNAME => exists b x n, t = b ++ x /\ blanks b /\ name_token x n /\ d = DCname n
  | TPTR => exists b x n, t = b ++ x /\ blanks b /\ name_token x n /\ d = DPtr n
  | TMX => exists b p b1 x n, t = b ++ p ++ b1 ++ x /\ blanks b /\ digits p /\ blanks b1 /\ name_token x n /\ d = DMx p n
  | TTXT => exists c x l, t = c :: x /\ blank c /\ x <> [] /\ txt_body x l /\ d = DTxt l
  | TSRV => exists b p b1 w b2 o b3 x n, t = b ++ p ++ b1 ++ w ++ b2 ++ o ++ b3 ++ x /\ blanks b /\ digits p /\ blanks b1 /\ digits w /\
      blanks b2 /\ digits o /\ blanks b3 /\ name_token x n /\ d = DSrv p w o n
  | TNAPTR => exists b o b1 p b2 ta xa b3 tb xb b4 tc xc b5 x n,
      t = b ++ o ++ b1 ++ p ++ b2 ++ ta ++ b3 ++ tb ++ b4 ++ tc ++ b5 ++ x /\ blanks b /\ digits o /\ blanks b1 /\ digits p /\ blanks b2 /\
      text_token ta xa /\ blanks b3 /\ text_token tb xb /\ blanks b4 /\ text_token tc xc /\ blanks b5 /\ name_token x n /\ d = DNaptr o p xa xb xc n
  | TSOA => exists b tm m b1 tr r b2 t1 d1 b3 t2 d2 b4 t3 d3 b5 t4 d4 b6 t5 d5,
      t = b ++ tm ++ b1 ++ tr ++ b2 ++ t1 ++ b3 ++ t2 ++ b4 ++ t3 ++ b5 ++ t4 ++ b6 ++ t5 /\ blanks b /\ name_token tm m /\ blanks b1 /\
      name_token tr r /\ blanks b2 /\ dur_text t1 d1 /\ blanks b3 /\ dur_text t2 d2 /\ blanks b4 /\ dur_text t3 d3 /\ blanks b5 /\
      dur_text t4 d4 /\ blanks b6 /\ dur_text t5 d5 /\ d = DSoa m r d1 d2 d3 d4 d5
  | TTYPE => exists y b b1 len c x l, t = y ++ b ++ 92 :: 35 :: b1 ++ len ++ c :: x /\ digits y /\ blanks b /\ blanks b1 /\ digits len /\
      blank c /\ ~ blank (hd 0 x) /\ octets_text x l /\ d = DGen y len l
  | TCAA => exists b f b1 p b2 x v, t = b ++ f ++ b1 ++ p ++ b2 ++ x /\ blanks b /\ digits f /\ blanks b1 /\ p <> [] /\
      Forall (fun c => is_digit c \/ letter c) p /\ blanks b2 /\ text_token x v /\ d = DCaa f p v
  | TDYNA => exists b x, t = b ++ x /\ blanks b /\ plugin_token x /\ d = DDyna x
  | TDYNC => exists b x, t = b ++ x /\ blanks b /\ plugin_token x /\ d = DDync x
  end.

Ltac open := repeat match goal with
  | H : exists _, _ |- _ => destruct H as (? & H)
  | H : _ /\ _ |- _ => destruct H as (? & H)
  end; subst.
Ltac fill := repeat match goal with
  | |- exists _, _ => eexists
  | |- _ /\ _ => split
  end; eauto.

Lemma data_body t d : data_text t d <-> exists k ty x, t = k ++ x /\ spells (kw ty) k /\ body ty x d.
Proof.
  split.
  - intros []; do 1 eexists;
    [exists TA|exists TAAAA|exists TNS|exists TCNAME|exists TPTR|exists TMX|exists TTXT|exists TSRV|exists TNAPTR|exists TSOA|exists TTYPE|exists TCAA|exists TDYNA|exists TDYNC];
    eexists; (split; [reflexivity|]); (split; [eassumption|]); cbn [body]; fill.
  - intros (k & ty & x & -> & K & B). destruct ty; cbn [body kw] in *; open; econstructor; eassumption.
Qed.

Lemma lex_A : lex_is (rdata TA) (fun t a r => exists d, body TA t d /\ a = data_acts d /\ dfol d r).
Proof.
  cbn [rdata]. eapply lex_ext; [apply lex_Ws|].
  - eapply (p_span v4_chr); [apply v4_iff|]. intros c H. apply at_end_iff in H. unfold end_of, blank, is_digit in *. lia.
  - intros t a r ((N & F & _) & _). eapply nb_all; [|exact N|exact F]. intros c. cbv beta. unfold blank, is_digit. lia.
  - unfold Ws. intros t a r. cbv beta. setoid_rewrite starts_end. cbn [body]. split; intros; open; fill.
Qed.
Lemma lex_AAAA : lex_is (rdata TAAAA) (fun t a r => exists d, body TAAAA t d /\ a = data_acts d /\ dfol d r).
Proof.
  cbn [rdata]. eapply lex_ext; [apply lex_Ws|].
  - eapply (p_span v6_chr); [apply v6_iff|]. intros c H. apply at_end_iff in H. unfold end_of, blank, hexdigit, is_digit in *. lia.
  - intros t a r ((N & F & _) & _). eapply nb_all; [|exact N|exact F]. intros c. cbv beta. unfold blank, hexdigit, is_digit. lia.
  - unfold Ws. intros t a r. cbv beta. setoid_rewrite starts_end. cbn [body]. split; intros; open; fill.
Qed.
Lemma lex_NS : lex_is (rdata TNS) (fun t a r => exists d, body TNS t d /\ a = data_acts d /\ dfol d r).
Proof. cbn [rdata]. eapply lex_ext; [apply p_nrec|]. unfold Ws. intros t a r. cbn [body]. split; intros; open; fill. Qed.
Lemma lex_CNAME : lex_is (rdata TCNAME) (fun t a r => exists d, body TCNAME t d /\ a = data_acts d /\ dfol d r).
Proof. cbn [rdata]. eapply lex_ext; [apply p_nrec|]. unfold Ws. intros t a r. cbn [body]. split; intros; open; fill. Qed.
Lemma lex_PTR : lex_is (rdata TPTR) (fun t a r => exists d, body TPTR t d /\ a = data_acts d /\ dfol d r).
Proof. cbn [rdata]. eapply lex_ext; [apply p_nrec|]. unfold Ws. intros t a r. cbn [body]. split; intros; open; fill. Qed.

Ltac firmly := first
  [ apply firm_em; firmly
  | apply firm_sq; intros ? ? ?; open; eauto using nb_digits, nb_name, nb_text, nb_dur ].
Lemma f_digits acts P : firm (Sq (fun t a => digits t /\ a = SetUval t :: acts) P).
Proof. apply firm_sq. intros t a (H & _). now apply nb_digits. Qed.
Lemma f_name acts P : firm (Sq (fun t a => exists n, name_token t n /\ a = acts n) P).
Proof. apply firm_sq. intros t a (n & H & _). now apply nb_name in H. Qed.
Lemma f_text acts P : firm (Sq (fun t a => exists n, text_token t n /\ a = acts n) P).
Proof. apply firm_sq. intros t a (n & H & _). now apply nb_text in H. Qed.
Lemma f_dur acts P : firm (Sq (fun t a => exists d, dur_text t d /\ a = dur_acts d ++ acts) P).
Proof. apply firm_sq. intros t a (n & H & _). now apply nb_dur in H. Qed.

Lemma lex_MX : lex_is (rdata TMX) (fun t a r => exists d, body TMX t d /\ a = data_acts d /\ dfol d r).
Proof.
  cbn [rdata]. eapply lex_ext; [apply lex_Ws; [apply lex_Sq; [apply p_uval|apply p_nrec]|apply f_digits]|].
  unfold Ws, Sq. intros t a r. cbn [body]. split; intros; open; fill. all: try reflexivity.
Qed.
Lemma lex_SRV : lex_is (rdata TSRV) (fun t a r => exists d, body TSRV t d /\ a = data_acts d /\ dfol d r).
Proof.
  cbn [rdata]. eapply lex_ext; [apply lex_Ws; [apply lex_Sq; [apply p_uval|apply lex_Ws; [apply lex_Sq; [apply p_uval|apply lex_Ws; [apply lex_Sq; [apply p_uval|apply p_nrec]|apply f_digits]]|apply f_digits]]|apply f_digits]|].
  unfold Ws, Sq. intros t a r. cbn [body]. split; intros; open; fill. all: try reflexivity.
Qed.
Lemma lex_NAPTR : lex_is (rdata TNAPTR) (fun t a r => exists d, body TNAPTR t d /\ a = data_acts d /\ dfol d r).
Proof.
  cbn [rdata]. eapply lex_ext; [apply lex_Ws; [apply lex_Sq; [apply p_uval|apply lex_Ws; [apply lex_Sq; [apply p_uval|apply lex_Ws; [apply lex_Em; apply lex_Sq; [apply p_text|apply lex_Ws; [apply lex_Sq; [apply p_text|apply lex_Ws; [apply lex_Sq; [apply p_text|apply p_nrec]|apply f_text]]|apply f_text]]|apply firm_em, f_text]]|apply f_digits]]|apply f_digits]|].
  unfold Ws, Sq, Em. intros t a r. cbn [body]. split; intros; open; fill. all: try reflexivity.
Qed.
Lemma lex_SOA : lex_is (rdata TSOA) (fun t a r => exists d, body TSOA t d /\ a = data_acts d /\ dfol d r).
Proof.
  cbn [rdata]. eapply lex_ext; [apply lex_Ws; [apply lex_Sq; [apply p_name|apply lex_Ws; [apply lex_Sq; [apply p_name|
    apply lex_Ws; [apply lex_Sq; [apply p_ttl|apply lex_Ws; [apply lex_Sq; [apply p_ttl|apply lex_Ws; [apply lex_Sq; [apply p_ttl|apply lex_Ws; [apply lex_Sq; [apply p_ttl|
      apply lex_Ws; [apply p_ttl_end|intros ? ? ? (? & H & _); now apply nb_dur in H]]|apply f_dur]]|apply f_dur]]|apply f_dur]]|apply f_dur]]|apply f_name]]|apply f_name]|].
  unfold Ws, Sq, Em. intros t a r. cbn [body]. split; intros; open; fill. all: try reflexivity.
Qed.
Lemma lex_CAA : lex_is (rdata TCAA) (fun t a r => exists d, body TCAA t d /\ a = data_acts d /\ dfol d r).
Proof.
  assert (S : lex_is (tk (span1 isalnum) isblank (fun t => [SetCaaProp t]))
     (fun t a r => (t <> [] /\ Forall (fun c => is_digit c \/ letter c) t /\ a = [SetCaaProp t]) /\ begins blank r)).
  { eapply lex_ext; [eapply (p_span isalnum); [apply isalnum_iff|]|].
    - intros c H. apply isblank_iff in H. unfold blank, is_digit, letter in *. lia.
    - intros t a r. cbv beta. rewrite starts_blank. tauto. }
  cbn [rdata]. eapply lex_ext; [apply lex_Ws; [apply lex_Sq; [apply p_uval|apply lex_Ws; [apply lex_Sq; [exact S|apply lex_Ws; [apply lex_Em, p_text_end|]]|]]|apply f_digits]|].
  - apply firm_em. intros t a r (n & H & _). now apply nb_text in H.
  - apply firm_sq. intros t a (N & F & _). eapply nb_all; [|exact N|exact F]. intros c. cbv beta. unfold blank, letter, is_digit. lia.
  - unfold Ws, Sq, Em. intros t a r. cbn [body]. split; intros; open; fill. all: try reflexivity.
Qed.
Lemma lex_DYNA : lex_is (rdata TDYNA) (fun t a r => exists d, body TDYNA t d /\ a = data_acts d /\ dfol d r).
Proof.
  cbn [rdata]. eapply lex_ext; [apply lex_Ws; [apply lex_plug|]|].
  - intros t a r (H & _). now apply nb_plug.
  - unfold Ws. intros t a r. cbn [body]. split; intros; open; fill. all: try reflexivity.
Qed.
Lemma lex_DYNC : lex_is (rdata TDYNC) (fun t a r => exists d, body TDYNC t d /\ a = data_acts d /\ dfol d r).
Proof.
  cbn [rdata]. eapply lex_ext; [apply lex_Ws; [apply lex_plug|]|].
  - intros t a r (H & _). now apply nb_plug.
  - unfold Ws. intros t a r. cbn [body]. split; intros; open; fill. all: try reflexivity.
Qed.
Lemma lex_TXT : lex_is (rdata TTXT) (fun t a r => exists d, body TTXT t d /\ a = data_acts d /\ dfol d r).
Proof.
  cbn [rdata]. unfold txt_data. eapply lex_ext; [apply lex_seq; [apply lex_one|apply lex_Em]|].
  - instantiate (1 := fun t a r => exists items, txt_body t items /\ begins (eq 10) r /\ t <> [] /\ a = map PushTxt items ++ [RecTxt]).
    intros l a r. rewrite txt_items_spec by lia. split; [intros (t & items & -> & B & R & S & ->); exists t; split; [reflexivity|]; exists items; auto|].
    intros (t & -> & items & B & R & S & ->). exists t, items. auto.
  - unfold Em. intros t a r. cbn [body]. setoid_rewrite isblank_iff. split; [intros; open|].
    + eexists. split; [do 3 eexists; split; [reflexivity|]; repeat split; eassumption|]. split; [reflexivity|assumption].
    + intros (d & (c & x & l & -> & B & N & H & ->) & -> & F). exists [c], x, [], (TextStart :: map PushTxt l ++ [RecTxt]). split; [reflexivity|]. split; [reflexivity|]. split; [eauto|]. eexists. split; [reflexivity|]. exists l. auto.
Qed.
Lemma lex_TYPE : lex_is (rdata TTYPE) (fun t a r => exists d, body TTYPE t d /\ a = data_acts d /\ dfol d r).
Proof.
  assert (O : lex_is (octets false) (fun t a r => exists ps, octets_text t ps /\ begins (eq 10) r /\ ~ blank (hd 0 t) /\ a = octet_acts ps ++ [RecRfc3597])).
  { intros l a r. rewrite (octets_spec (length l)) by lia. split; [intros (t & items & -> & B & R & S & ->); exists t; split; [reflexivity|]; exists items; auto|].
    intros (t & -> & items & B & R & S & ->). exists t, items. auto. }
  assert (L : lex_is (uval isblank [DataSetup] ;; one isblank ;; octets false)
    (fun t a r => exists len c x l, t = len ++ c :: x /\ digits len /\ blank c /\ ~ blank (hd 0 x) /\ octets_text x l /\ begins (eq 10) r /\
       a = [SetUval len; DataSetup] ++ octet_acts l ++ [RecRfc3597])).
  { eapply lex_ext; [apply lex_seq; [apply p_uval|apply lex_seq; [apply lex_one|exact O]]|]. intros t a r. cbv beta. setoid_rewrite isblank_iff. split; [intros; open; fill; reflexivity|].
      intros (x & x0 & x1 & x2 & -> & D & B & N & H & F & ->). exists x, (x0 :: x1), [SetUval x; DataSetup], (octet_acts x2 ++ [RecRfc3597]). split; [reflexivity|]. split; [reflexivity|]. split; [cbn; auto|].
      exists [x0], x1, [], (octet_acts x2 ++ [RecRfc3597]). fill. }
  cbn [rdata]. eapply lex_ext; [apply lex_Sq; [apply p_uval|apply lex_Ws; [apply lex_seq; [apply lex_one|apply lex_seq; [apply lex_one|apply lex_Ws; [exact L|]]]|]]|].
  - intros t a r H. open. apply nb_app. now apply nb_digits.
  - intros t a r H. open. apply N.eqb_eq in H5. subst. cbn. unfold blank. lia.
  - unfold Ws, Sq. intros t a r. cbn [body]. setoid_rewrite N.eqb_eq. split; [intros; open|].
    + eexists. split; [cbn [body]; do 7 eexists; split; [reflexivity|]; repeat match goal with |- _ /\ _ => split end; try eassumption; reflexivity|]. split; [reflexivity|assumption].
    + intros (d & (x & x0 & x1 & x2 & x3 & x4 & x5 & -> & D & B & B1 & D1 & B2 & N & H & ->) & -> & F). exists x, (x0 ++ 92 :: 35 :: x1 ++ x2 ++ x3 :: x4). do 2 eexists. split; [reflexivity|]. split; [|split; [split; [assumption|reflexivity]|]]; cycle 1.
      * exists x0, (92 :: 35 :: x1 ++ x2 ++ x3 :: x4). split; [reflexivity|]. split; [assumption|].
        exists [92], (35 :: x1 ++ x2 ++ x3 :: x4), []. eexists. split; [reflexivity|]. split; [reflexivity|]. split; [eauto|].
        exists [35], (x1 ++ x2 ++ x3 :: x4), []. eexists. split; [reflexivity|]. split; [reflexivity|]. split; [eauto|].
        exists x1, (x2 ++ x3 :: x4). split; [reflexivity|]. split; [assumption|]. exists x2, x3, x4, x5. repeat match goal with |- _ /\ _ => split end; try eassumption; reflexivity.
      * reflexivity.
Qed.
Lemma lex_rdata ty : lex_is (rdata ty) (fun t a r => exists d, body ty t d /\ a = data_acts d /\ dfol d r).
Proof.
  destruct ty; [apply lex_A|apply lex_AAAA|apply lex_NS|apply lex_CNAME|apply lex_PTR|apply lex_MX|apply lex_TXT|apply lex_SRV|apply lex_NAPTR|apply lex_SOA|apply lex_TYPE|apply lex_CAA|apply lex_DYNA|apply lex_DYNC].
Qed.
