(** The scanner's actions, part 4: the data of records. *)
From Coq Require Import String Ascii.
From Verif Require Import Base DnameSpec DnameModel DnameProofs DnameProofs2 CompModel RespModel LtreeModel ZscanModel ZscanSpec ZscanProofs ZscanProofs2 ZscanProofs3 ZscanProofs4 ZscanProofs5 ZscanProofs7 ZscanProofs8 ZscanProofs9.
Local Open Scope N_scope.
Local Notation length := List.length.
Local Arguments N.eqb : simpl never.
Local Arguments N.leb : simpl never.
Local Arguments N.ltb : simpl never.
Local Arguments N.mul : simpl never.
Local Arguments N.add : simpl never.
Local Arguments N.modulo : simpl never.
Local Arguments N.div : simpl never.
Local Arguments N.of_nat : simpl never.
Local Arguments N.shiftr : simpl never.
Local Arguments dname_set : simpl never.
Local Arguments set_uval : simpl never.
Local Arguments mult_uval : simpl never.
Local Arguments text_add_tok : simpl never.
Local Arguments text_add_tok_huge : simpl never.
Local Arguments name_of : simpl never.
Local Arguments rd : simpl never.
Local Arguments Nat.ltb : simpl never.
Local Arguments until_nul : simpl never.
Local Arguments dname_isinzone : simpl never.
Local Arguments dname_copy : simpl never.
Local Arguments make_zfn : simpl never.
Local Arguments dns_unescape : simpl never.

(** what the text of a statement is made of *)
Definition data_good (d : data) : Prop :=
  match d with
  | DA _ | DAaaa _ | DDyna _ | DDync _ | DTxt _ => True
  | DNs n | DCname n | DPtr n | DMx _ n | DSrv _ _ _ n | DNaptr _ _ _ _ _ n => all_bytes n
  | DSoa m r d1 d2 d3 d4 d5 => all_bytes m /\ all_bytes r /\ dur_good d1 /\ dur_good d2 /\ dur_good d3 /\ dur_good d4 /\ dur_good d5
  | DGen _ _ l => Forall (fun p => hexdigit (fst p) /\ hexdigit (snd p)) l
  | DCaa _ p _ => ~ In 0 p
  end.
(** data that make the daemon die *)
Definition data_fatal (d : data) : Prop :=
  match d with
  | DNs n | DCname n | DPtr n | DMx _ n | DSrv _ _ _ n | DNaptr _ _ _ _ _ n => n = []
  | DSoa m r _ _ _ _ _ => m = [] \/ r = []
  | DGen _ len _ => number len 0
  | _ => False
  end.

Section Runs.
  Variable zone : bytes.
  Variable zn : name.
  Hypothesis Hzone : exists r, zone = dname zn true ++ r.
  Hypothesis Lzone : legal_name zn.
  Variable autosplit : bool.
  Variable pton4 pton6 : bytes -> option bytes.
  Variable incl : bytes -> bytes -> N -> zres (list record).
  Variable cur : bytes.
  Notation Run := (run zone autosplit pton4 pton6 incl cur).

  Definition agree (z : zst) (k : ctx) : Prop :=
    holds (z_origin z) (c_origin k) /\ holds (z_forigin z) (c_file k) /\ holds (z_lhs z) (c_owner k) /\ z_ooz z = c_ooz k /\ z_def_ttl z = c_ttl k /\
    length (z_rhs z) = 256%nat /\ length (z_eml z) = 256%nat /\ length (z_uv z) = 5%nat /\ z_text z = None /\
    (exists q, c_origin k = q ++ zn) /\ (exists q, c_file k = q ++ zn).

  Definition with_uval z v := set_nums z (z_def_ttl z) v (z_ttl z) (z_ttl_mn z) (z_uv z).
  Lemma run_uval d l z : (exists v, number d v /\ Run (SetUval d :: l) z = Run l (with_uval z v)) \/ ((forall v, ~ number d v) /\ Run (SetUval d :: l) z = Ok None).
  Proof. cbn [run act]. destruct (set_uval_ok d) as [(v & H & ->)|(H & ->)]; [left; exists v|right]; split; auto. Qed.
  Lemma run_dur d l z : dur_good d -> (exists v, duration d v /\ Run (dur_acts d ++ l) z = Run l (with_uval z v)) \/ ((forall v, ~ duration d v) /\ Run (dur_acts d ++ l) z = Ok None).
  Proof.
    destruct d as [t [c|]]; intros G; cbn [dur_acts app duration].
    - destruct (run_uval t (MultUval c :: l) z) as [(v & H & ->)|(H & ->)].
      + left. exists (v * seconds c mod 2 ^ 32). split; [eauto|]. cbn [run act]. change (z_uval (with_uval z v)) with v. rewrite mult_ok by exact G. reflexivity.
      + right. split; [|reflexivity]. intros v (w & W & _). now apply (H w).
    - apply run_uval.
  Qed.
  Definition with_rhs_buf z b := set_names z (z_origin z) (z_lhs z) (z_ooz z) b (z_eml z).
  Definition with_eml_buf z b := set_names z (z_origin z) (z_lhs z) (z_ooz z) (z_rhs z) b.
  Lemma run_rhs k t l z : all_bytes t -> holds (z_origin z) (c_origin k) -> holds (z_forigin z) (c_file k) -> length (z_rhs z) = 256%nat ->
    (exists b n, name_means zn k t n /\ holds b n /\ Run (SetRhs t :: l) z = Run l (with_rhs_buf z b)) \/
    ((forall n, ~ name_means zn k t n) /\ (Run (SetRhs t :: l) z = Ok None \/ (t = [] /\ Run (SetRhs t :: l) z = UB))).
  Proof.
    intros Hb Ho Hf Hl. cbn [run act]. destruct t as [|c t].
    - right. split; [intros n (X & _); congruence|]. right. split; [reflexivity|]. unfold dname_set. reflexivity.
    - destruct (set_right zone zn Hzone Lzone k z (z_rhs z) (c :: t) Hb ltac:(discriminate) Hl Ho Hf) as (x & -> & X). destruct x as [(b & o)|]; cbn [zbind rbind].
      + left. destruct X as (-> & n & M & H). exists b, n. auto.
      + right. auto.
  Qed.
  Lemma run_eml k t l z : all_bytes t -> holds (z_origin z) (c_origin k) -> holds (z_forigin z) (c_file k) -> length (z_eml z) = 256%nat ->
    (exists b n, name_means zn k t n /\ holds b n /\ Run (SetEml t :: l) z = Run l (with_eml_buf z b)) \/
    ((forall n, ~ name_means zn k t n) /\ (Run (SetEml t :: l) z = Ok None \/ (t = [] /\ Run (SetEml t :: l) z = UB))).
  Proof.
    intros Hb Ho Hf Hl. cbn [run act]. destruct t as [|c t].
    - right. split; [intros n (X & _); congruence|]. right. split; [reflexivity|]. unfold dname_set. reflexivity.
    - destruct (set_right zone zn Hzone Lzone k z (z_eml z) (c :: t) Hb ltac:(discriminate) Hl Ho Hf) as (x & -> & X). destruct x as [(b & o)|]; cbn [zbind rbind].
      + left. destruct X as (-> & n & M & H). exists b, n. auto.
      + right. auto.
  Qed.
  Lemma run_push big t l z a : a = (if big : bool then PushTxt t else PushTxt255 t) ->
    (exists ss, strings (big && autosplit) t ss /\ N.of_nat (length (text_of z ++ wire_strings ss)) <= 16000 /\
       Run (a :: l) z = Run l (with_text z (Some (text_of z ++ wire_strings ss)))) \/
    ((forall ss, strings (big && autosplit) t ss -> 16000 < N.of_nat (length (text_of z ++ wire_strings ss))) /\ Run (a :: l) z = Ok None).
  Proof.
    intros ->. destruct (text_add_ok autosplit z t big) as [(ss & S & L & E)|(S & E)]; [left; exists ss|right]; (split; [exact S|]); [split; [exact L|]|]; destruct big; cbn [run act]; rewrite E; reflexivity.
  Qed.
  Lemma run_pushes ts : forall l z, N.of_nat (length (text_of z)) <= 16000 ->
    (exists sss tx, Forall2 (strings autosplit) ts sss /\ N.of_nat (length (text_of z ++ wire_strings (concat sss))) <= 16000 /\
       Run (map PushTxt ts ++ l) z = Run l (with_text z tx) /\ match tx with Some t => t | None => [] end = text_of z ++ wire_strings (concat sss)) \/
    ((forall sss, Forall2 (strings autosplit) ts sss -> 16000 < N.of_nat (length (text_of z ++ wire_strings (concat sss)))) /\ Run (map PushTxt ts ++ l) z = Ok None).
  Proof.
    induction ts as [|t ts IH]; intros l z Hz; cbn [map app].
    - left. exists [], (z_text z). cbn [concat]. change (wire_strings []) with (@nil N). rewrite app_nil_r. split; [constructor|]. split; [exact Hz|]. split; [destruct z; reflexivity|reflexivity].
    - assert (W : forall s ss, wire_strings (concat (s :: ss)) = wire_strings s ++ wire_strings (concat ss)) by (intros; cbn [concat]; apply wire_app).
      destruct (run_push true t (map PushTxt ts ++ l) z _ eq_refl) as [(ss & S & L & ->)|(S & ->)].
      + destruct (IH l (with_text z (Some (text_of z ++ wire_strings ss))) L) as [(sss & tx & F & L2 & -> & E)|(F & ->)].
        * left. exists (ss :: sss), tx. rewrite W, app_assoc. split; [constructor; assumption|]. split; [exact L2|]. split; [reflexivity|exact E].
        * right. split; [|reflexivity]. intros sss F2. inversion F2 as [|? s2 ? sss2 S2 F3]; subst. rewrite W, app_assoc. rewrite (strings_fun _ _ _ _ S2 S). now apply F.
      + right. split; [|reflexivity]. intros sss F2. inversion F2 as [|? s2 ? sss2 S2 F3]; subst. apply S in S2. rewrite W, app_assoc. rewrite app_length. lia.
  Qed.
  Lemma run_push255 t l z : N.of_nat (length (text_of z)) <= 15000 ->
    (exists d, one_string t d /\ Run (PushTxt255 t :: l) z = Run l (with_text z (Some (text_of z ++ N.of_nat (length d) :: d)))) \/
    ((forall d, ~ one_string t d) /\ Run (PushTxt255 t :: l) z = Ok None).
  Proof.
    intros H. destruct (run_push false t l z _ eq_refl) as [(ss & S & L & ->)|(S & ->)]; cbn [andb] in S.
    - left. apply strings_false in S as (d & O & ->). exists d. rewrite wire_one. auto.
    - right. split; [|reflexivity]. intros d O. assert (X := S [d] (proj2 (strings_false _ _) (ex_intro _ d (conj O eq_refl)))). rewrite wire_one, app_length in X. cbn [length] in X. destruct O. lia.
  Qed.
  Definition with_uv z j := set_nums z (z_def_ttl z) (z_uval z) (z_ttl z) (z_ttl_mn z) (upd (z_uv z) (j - 1) (z_uval z)).
  Lemma run_uv j l z : Run (SetUv j :: l) z = Run l (with_uv z j).
  Proof. reflexivity. Qed.
  Lemma run_start l z : z_text z = None -> Run (TextStart :: l) z = Run l z.
  Proof. intros H. cbn [run act]. now rewrite H. Qed.
  Lemma uv_five z : length (z_uv z) = 5%nat -> exists a b c d e, z_uv z = [a; b; c; d; e].
  Proof. destruct (z_uv z) as [|a [|b [|c [|d [|e [|f l]]]]]]; try discriminate. intros _. exists a, b, c, d, e. reflexivity. Qed.
  Definition with_data z x := set_heap z (z_text z) x (z_fname z) (z_out z).
  Lemma run_octets ps : forall l z len d, Forall (fun p => hexdigit (fst p) /\ hexdigit (snd p)) ps -> N.of_nat (length d) <= len -> z_data z = Some (len, d) ->
    (N.of_nat (length d + length ps) <= len /\ Run (octet_acts ps ++ l) z = Run l (with_data z (Some (len, d ++ map octet_value ps)))) \/
    (len < N.of_nat (length d + length ps) /\ Run (octet_acts ps ++ l) z = Ok None).
  Proof.
    induction ps as [|(a, b) ps IH]; intros l z len d F Hd Ez.
    - left. cbn [length map octet_acts app]. rewrite Nat.add_0_r, app_nil_r. split; [exact Hd|]. rewrite <- Ez. now destruct z.
    - inversion F as [|? ? (Ha & Hb) F']; subst. cbn [octet_acts map app run act fst snd] in *. rewrite Ez. fold (octet_acts ps).
      destruct (N.eqb_spec (N.of_nat (length d)) len) as [E|E].
      + right. split; [cbn [length]; lia|reflexivity].
      + cbn [zbind rbind]. destruct (IH l (with_data z (Some (len, d ++ [hexbyte a b]))) len (d ++ [hexbyte a b]) F') as [(L & R)|(L & R)]; [rewrite app_length; cbn [length]; lia|reflexivity| |].
        * left. rewrite app_length in L. cbn [length] in *. split; [lia|]. unfold with_data in R at 1. cbn in R. rewrite R, hexbyte_ok, <- app_assoc by assumption. reflexivity.
        * right. rewrite app_length in L. cbn [length] in *. split; [lia|]. exact R.
  Qed.

  Notation dmeans := (data_means zn autosplit pton4 pton6).
  Definition data_out z k ttl m d (x : zres zst) : Prop :=
    (exists z' r, x = Ok (Some z') /\ dmeans k ttl m d r /\ agree z' k /\ z_out z' = z_out z ++ [r]) \/
    ((forall r, ~ dmeans k ttl m d r) /\ (x = Ok None \/ (x = UB /\ data_fatal d))).
  Lemma rec_in_zone k f z z' : holds (z_lhs z) (c_owner k) -> z_ooz z = c_ooz k ->
    (c_ooz k = true /\ in_zone_rec z f z' = Ok None) \/
    (c_ooz k = false /\ in_zone_rec z f z' = (do r <- f (c_owner k) ; Ok (Some (set_heap z' (z_text z') (z_data z') (z_fname z') (z_out z' ++ [r]))))).
  Proof.
    intros Hl Ho. unfold in_zone_rec. rewrite Ho, (name_of_ok _ _ Hl). destruct (c_ooz k); [left|right]; auto.
  Qed.
  Ltac agr := unfold agree; repeat match goal with |- _ /\ _ => split end; try assumption; try reflexivity; try (match goal with H : holds _ _ |- length _ = 256%nat => exact (proj1 (proj2 H)) end).
  Ltac bad := right; split; [let r := fresh in let H := fresh in intros r H; inversion H; subst; (congruence || (match goal with K : forall v, ~ _ |- _ => now (eapply K; eauto) end) || idtac)|].
  Ltac good := left; eexists _, _; split; [reflexivity|]; split.
  Lemma data_name (a : action) d z k n (f : name -> name -> N -> record) : agree z k -> all_bytes n ->
    (forall z, act zone autosplit pton4 pton6 incl cur a z = in_zone_rec z (fun d => with_rhs z (fun n => f d n (z_ttl z))) z) ->
    data_acts d = [SetRhs n; a] -> (forall ttl m r, dmeans k ttl m d r <-> c_ooz k = false /\ exists x, name_means zn k n x /\ r = f (c_owner k) x ttl) ->
    (n = [] -> data_fatal d) ->
    data_out z k (z_ttl z) (z_ttl_mn z) d (Run (data_acts d) z).
  Proof.
    intros A Hb Ha -> M Fa. assert (A' := A). destruct A' as (Ho & Hf & Hl & Hz & Hd & Lr & Le & Lu & Ht & Io & If).
    destruct (run_rhs k n [a] z Hb Ho Hf Lr) as [(b & x & Nm & Hx & ->)|(Nm & R)].
    - cbn [run]. rewrite Ha. destruct (rec_in_zone k (fun d => with_rhs (with_rhs_buf z b) (fun n => f d n (z_ttl (with_rhs_buf z b)))) (with_rhs_buf z b) (with_rhs_buf z b) Hl Hz) as [(C & ->)|(C & ->)].
      + right. split; [|now left]. intros r H. apply M in H as (X & _). congruence.
      + unfold with_rhs. change (z_rhs (with_rhs_buf z b)) with b. rewrite (name_of_ok _ _ Hx). cbn [rbind zbind]. left. eexists _, _. split; [reflexivity|]. split; [apply M; split; [exact C|]; eexists; split; [exact Nm|reflexivity]|].
        split; [agr|reflexivity].
    - right. split; [intros r H; apply M in H as (_ & x & X & _); now apply (Nm x)|]. destruct R as [R|(-> & R)]; [now left|right; auto].
  Qed.
  Lemma data_run d z k : data_good d -> agree z k -> data_out z k (z_ttl z) (z_ttl_mn z) d (Run (data_acts d) z).
  Proof.
    intros G A. assert (A' := A). destruct A' as (Ho & Hf & Hl & Hz & Hd & Lr & Le & Lu & Ht & Io & If). destruct d as [t|t|n|n|n|p n|items|p w o n|o p a b c n|m r d1 d2 d3 d4 d5|ty len l|f p v|t|t].
    - (* A *) cbn [data_acts run act]. destruct (Nat.ltb_spec 15 (length t)); [bad; [lia|now left]|]. destruct (pton4 t) as [a|] eqn:E; [|bad; now left].
      cbn [zbind rbind zfatal]. change (z_lhs (set_small z (z_dyn z) (z_caa z) a (z_v6 z))) with (z_lhs z). rewrite (name_of_ok _ _ Hl). cbn. good; [constructor; eassumption|]. split; [exact A|cbn; now rewrite Hz].
    - (* AAAA *) cbn [data_acts run act]. destruct (Nat.ltb_spec 46 (length t)); [bad; [lia|now left]|]. destruct (pton6 t) as [a|] eqn:E; [|bad; now left].
      cbn [zbind rbind zfatal]. change (z_lhs (set_small z (z_dyn z) (z_caa z) (z_v4 z) a)) with (z_lhs z). rewrite (name_of_ok _ _ Hl). cbn. good; [constructor; eassumption|]. split; [exact A|cbn; now rewrite Hz].
    - (* NS *) apply data_name with (a := RecNs) (n := n) (f := fun d n t => ANs d n t); auto. intros ttl m r. split; [intros H; inversion H; subst; eauto|intros (C & x & X & ->); now constructor].
    - (* CNAME *) apply data_name with (a := RecCname) (n := n) (f := fun d n t => ACname d n t); auto. intros ttl m r. split; [intros H; inversion H; subst; eauto|intros (C & x & X & ->); now constructor].
    - (* PTR *) apply data_name with (a := RecPtr) (n := n) (f := fun d n t => APtr d n t); auto. intros ttl m r. split; [intros H; inversion H; subst; eauto|intros (C & x & X & ->); now constructor].
    - (* MX *) cbn [data_acts data_good] in *. destruct (run_uval p [SetRhs n; RecMx] z) as [(pv & Np & ->)|(Np & ->)]; [|bad; now left].
      destruct (run_rhs k n [RecMx] (with_uval z pv) G Ho Hf Lr) as [(b & x & Nm & Hx & ->)|(Nm & R)].
      + cbn [run act]. match goal with |- context [in_zone_rec ?z1 ?f ?z2] => destruct (rec_in_zone k f z1 z2 Hl Hz) as [(C & ->)|(C & ->)] end.
        * bad. now left.
        * unfold with_rhs. change (z_rhs (with_rhs_buf (with_uval z pv) b)) with b. rewrite (name_of_ok _ _ Hx). cbn [rbind zbind]. good; [econstructor; eassumption|].
          split; [agr|reflexivity].
      + bad. destruct R as [R|(-> & R)]; [now left|right; split; [exact R|reflexivity]].
    - (* TXT *) cbn [data_acts]. cbn [run act]. rewrite Ht. cbn [zbind rbind]. assert (T0 : text_of z = []) by (unfold text_of; now rewrite Ht). destruct (run_pushes items [RecTxt] z) as [(sss & tx & F & L & -> & E)|(F & ->)].
      + rewrite T0. cbn. lia.
      + rewrite T0 in *. cbn [app] in *. cbn [run act]. match goal with |- context [in_zone_rec ?z1 ?f ?z2] => destruct (rec_in_zone k f z1 z2 Hl Hz) as [(C & ->)|(C & ->)] end.
        * bad. now left.
        * cbn [rbind zbind]. good; [econstructor; eassumption|]. split; [agr|]. cbn. now rewrite <- E.
      + right. split; [|now left]. intros r H. inversion H; subst. rewrite T0 in F. cbn [app] in F. match goal with K : Forall2 _ _ _ |- _ => apply F in K end. lia.
    - (* SRV *) cbn [data_acts data_good] in *.
      destruct (run_uval p (SetUv 1 :: [SetUval w; SetUv 2; SetUval o; SetUv 3; SetRhs n; RecSrv]) z) as [(pv & Np & ->)|(Np & ->)]; [rewrite run_uv|bad; now left].
      match goal with |- context [Run (SetUval w :: ?l) ?z] => destruct (run_uval w l z) as [(wv & Nw & ->)|(Nw & ->)] end; [rewrite run_uv|bad; now left].
      match goal with |- context [Run (SetUval o :: ?l) ?z] => destruct (run_uval o l z) as [(ov & No & ->)|(No & ->)] end; [rewrite run_uv|bad; now left].
      match goal with |- context [Run (SetRhs n :: ?l) ?z1] => destruct (run_rhs k n l z1 G Ho Hf Lr) as [(b & x & Nm & Hx & ->)|(Nm & R)] end.
      + cbn [run act]. match goal with |- context [in_zone_rec ?z1 ?f ?z2] => destruct (rec_in_zone k f z1 z2 Hl Hz) as [(C & ->)|(C & ->)] end.
        * bad. now left.
        * unfold with_rhs. match goal with |- context [name_of (z_rhs ?zz)] => change (z_rhs zz) with b end. rewrite (name_of_ok _ _ Hx). cbn [rbind zbind]. good; [econstructor; eassumption|].
          destruct (uv_five z Lu) as (u1 & u2 & u3 & u4 & u5 & Eu). split; [agr; cbn; now rewrite Eu|]. cbn. now rewrite Eu.
      + bad. destruct R as [R|(-> & R)]; [now left|right; split; [exact R|reflexivity]].
    - (* NAPTR *) cbn [data_acts data_good] in *. assert (T0 : text_of z = []) by (unfold text_of; now rewrite Ht).
      destruct (run_uval o (SetUv 1 :: [SetUval p; SetUv 2; TextStart; PushTxt255 a; PushTxt255 b; PushTxt255 c; SetRhs n; RecNaptr]) z) as [(ov & No & ->)|(No & ->)]; [rewrite run_uv|bad; now left].
      match goal with |- context [Run (SetUval p :: ?l) ?z] => destruct (run_uval p l z) as [(pv & Np & ->)|(Np & ->)] end; [rewrite run_uv|bad; now left].
      rewrite run_start by exact Ht. 
      match goal with |- context [Run (PushTxt255 a :: ?l) ?z] => destruct (run_push255 a l z) as [(da & Sa & ->)|(Sa & ->)] end; [change (N.of_nat (length (text_of z)) <= 15000); rewrite T0; cbn; lia| |bad; now left].
      match goal with |- context [Run (PushTxt255 b :: ?l) ?z] => destruct (run_push255 b l z) as [(db & Sb & ->)|(Sb & ->)] end; [| |bad; now left].
      { destruct Sa as (_ & Sa). change (N.of_nat (length (text_of z ++ N.of_nat (length da) :: da)) <= 15000). rewrite T0. cbn [app length]. lia. }
      match goal with |- context [Run (PushTxt255 c :: ?l) ?z] => destruct (run_push255 c l z) as [(dc & Sc & ->)|(Sc & ->)] end; [| |bad; now left].
      { destruct Sa as (_ & Sa), Sb as (_ & Sb). change (N.of_nat (length ((text_of z ++ N.of_nat (length da) :: da) ++ N.of_nat (length db) :: db)) <= 15000). rewrite T0. cbn [app length]. rewrite app_length. cbn [length]. lia. }
      match goal with |- context [Run (SetRhs n :: ?l) ?z1] => destruct (run_rhs k n l z1 G Ho Hf Lr) as [(bb & x & Nm & Hx & ->)|(Nm & R)] end.
      + cbn [run act]. match goal with |- context [in_zone_rec ?z1 ?f ?z2] => destruct (rec_in_zone k f z1 z2 Hl Hz) as [(C & ->)|(C & ->)] end.
        * bad. now left.
        * unfold with_rhs. match goal with |- context [name_of (z_rhs ?zz)] => change (z_rhs zz) with bb end. rewrite (name_of_ok _ _ Hx). cbn [rbind zbind]. good; [econstructor; eassumption|].
          destruct (uv_five z Lu) as (u1 & u2 & u3 & u4 & u5 & Eu). split; [agr; cbn; now rewrite Eu|]. cbn. rewrite Eu. match goal with |- context [text_of ?zz] => change (text_of zz) with (text_of z) end. rewrite T0. cbn [upd nth app]. rewrite app_nil_r, <- ?app_assoc. cbn [app]. rewrite <- ?app_assoc. reflexivity.
      + bad. destruct R as [R|(-> & R)]; [now left|right; split; [exact R|reflexivity]].
    - (* SOA *) cbn [data_acts data_good app] in *. destruct G as (Gm & Gr & G1 & G2 & G3 & G4 & G5). rewrite <- ?app_assoc. cbn [app].
      match goal with |- context [Run (SetRhs m :: ?l) ?z1] => destruct (run_rhs k m l z1 Gm Ho Hf Lr) as [(bm & mn & Nm & Hm & ->)|(Nm & R)] end; [|bad; destruct R as [R|(-> & R)]; [now left|right; split; [exact R|now left]]].
      match goal with |- context [Run (SetEml r :: ?l) ?z1] => destruct (run_eml k r l z1 Gr Ho Hf Le) as [(br & rn & Nr & Hr & ->)|(Nr & R)] end; [|bad; destruct R as [R|(-> & R)]; [now left|right; split; [exact R|now right]]].
      match goal with |- context [Run (dur_acts d1 ++ ?l) ?z1] => destruct (run_dur d1 l z1 G1) as [(v1 & D1 & ->)|(D1 & ->)] end; [rewrite run_uv|bad; now left].
      match goal with |- context [Run (dur_acts d2 ++ ?l) ?z1] => destruct (run_dur d2 l z1 G2) as [(v2 & D2 & ->)|(D2 & ->)] end; [rewrite run_uv|bad; now left].
      match goal with |- context [Run (dur_acts d3 ++ ?l) ?z1] => destruct (run_dur d3 l z1 G3) as [(v3 & D3 & ->)|(D3 & ->)] end; [rewrite run_uv|bad; now left].
      match goal with |- context [Run (dur_acts d4 ++ ?l) ?z1] => destruct (run_dur d4 l z1 G4) as [(v4 & D4 & ->)|(D4 & ->)] end; [rewrite run_uv|bad; now left].
      match goal with |- context [Run (dur_acts d5 ++ ?l) ?z1] => destruct (run_dur d5 l z1 G5) as [(v5 & D5 & ->)|(D5 & ->)] end; [rewrite run_uv|bad; now left].
      cbn [run act]. match goal with |- context [z_ooz ?zz] => change (z_ooz zz) with (z_ooz z) end. rewrite Hz. destruct (c_ooz k) eqn:C; [bad; now left|].
      match goal with |- context [rd (z_lhs ?zz) 0] => change (z_lhs zz) with (z_lhs z) end.
      assert (R0 : rd (z_lhs z) 0 = Ok (N.of_nat (wire_len (c_owner k)))) by (destruct Hl as (_ & _ & rl & ->); apply rd_dname0). rewrite R0. cbn [rbind].
      destruct (N.eqb_spec (N.of_nat (wire_len (c_owner k))) 1) as [E1|E1]; cbn [negb].
      + assert (O : c_owner k = []). { destruct (c_owner k) as [|x y] eqn:E; [reflexivity|]. rewrite wire_len_cons in E1. pose proof (wire_len_pos y). lia. }
        match goal with |- context [in_zone_rec ?z1 ?f ?z2] => destruct (rec_in_zone k f z1 z2 Hl (eq_trans Hz (eq_sym C))) as [(C2 & ->)|(C2 & ->)] end; [congruence|].
        match goal with |- context [name_of (z_rhs ?zz)] => change (z_rhs zz) with bm end. match goal with |- context [name_of (z_eml ?zz)] => change (z_eml zz) with br end.
        rewrite (name_of_ok _ _ Hm), (name_of_ok _ _ Hr). cbn [rbind zbind]. good; [econstructor; eassumption|].
        destruct (uv_five z Lu) as (u1 & u2 & u3 & u4 & u5 & Eu). rewrite <- C in Hz. split; [agr; cbn; now rewrite Eu|]. cbn. now rewrite Eu, O.
      + bad; [|now left]. match goal with K : c_owner k = [] |- _ => rewrite K in E1; now apply E1 end.
    - (* TYPE *) cbn [data_acts data_good app] in *.
      destruct (run_uval ty (SetUv 1 :: SetUval len :: DataSetup :: octet_acts l ++ [RecRfc3597]) z) as [(tv & Nt & ->)|(Nt & ->)]; [rewrite run_uv; cbn [app]|bad; now left].
      match goal with |- context [Run (SetUval len :: ?l) ?z] => destruct (run_uval len l z) as [(lv & Nl & ->)|(Nl & ->)] end; [|bad; now left].
      cbn [run act]. match goal with |- context [z_uval (with_uval ?zz lv)] => change (z_uval (with_uval zz lv)) with lv end.
      destruct (N.eqb_spec lv 0) as [->|Nz].
      { bad; [|right; auto]. match goal with K : number len (N.of_nat _) |- _ => assert (X := number_fun _ _ _ K Nl) end. destruct l; [congruence|cbn [length] in X; lia]. }
      cbn [zbind rbind].
      match goal with |- context [Run (octet_acts l ++ ?ll) ?z1] => destruct (run_octets l ll z1 lv [] G) as [(L & ->)|(L & ->)] end; [cbn; lia|reflexivity| |].
      + cbn [run act]. match goal with |- context [z_data ?zz] => change (z_data zz) with (Some (lv, map octet_value l)) end. cbv iota.
        rewrite map_length. cbn [length Nat.add] in L. destruct (N.ltb_spec (N.of_nat (length l)) lv) as [Ls|Ls].
        * bad; [|now left]. match goal with K : number len (N.of_nat _) |- _ => assert (X := number_fun _ _ _ K Nl) end. lia.
        * assert (E : lv = N.of_nat (length l)) by lia. match goal with |- context [in_zone_rec ?z1 ?f ?z2] => destruct (rec_in_zone k f z1 z2 Hl Hz) as [(C & ->)|(C & ->)] end; [bad; now left|].
          cbn [rbind zbind]. good; [econstructor; [exact C|exact Nt|rewrite <- E; exact Nl|intros ->; cbn in E; lia]|].
          destruct (uv_five z Lu) as (u1 & u2 & u3 & u4 & u5 & Eu). split; [agr; cbn; now rewrite Eu|]. cbn. now rewrite Eu.
      + bad; [|now left]. match goal with K : number len (N.of_nat _) |- _ => assert (X := number_fun _ _ _ K Nl) end. cbn [length] in L. lia.
    - (* CAA *) cbn [data_acts data_good] in *. destruct (run_uval f [SetCaaProp p; TextStart; PushTxtHuge v; RecCaa] z) as [(fv & Nf & ->)|(Nf & ->)]; [|bad; now left].
      cbn [run act]. destruct (Nat.ltb_spec 255 (length p)); [bad; [lia|now left]|]. cbn [zbind rbind].
      match goal with |- context [z_text ?zz] => change (z_text zz) with (z_text z) end. rewrite Ht. cbn [zbind rbind]. rewrite until_nul_id by exact G.
      unfold text_add_tok_huge at 1. destruct (unescape_tok_ok v) as [(d & U & ->)|(U & ->)]; cbn [zbind rbind]; [|bad; now left].
      destruct (N.ltb_spec 16000 (N.of_nat (length d))) as [B|B].
      { bad; [|now left]. match goal with K : unescaped v _ |- _ => rewrite (unescaped_fun _ _ _ U K) in B end. lia. }
      match goal with |- context [z_text ?zz] => change (z_text zz) with (z_text z) end. rewrite Ht. cbn [zbind rbind].
      match goal with |- context [255 <? z_uval ?zz] => change (z_uval zz) with fv end.
      destruct (N.ltb_spec 255 fv) as [B2|B2].
      { bad; [|now left]. match goal with K : number f _ |- _ => rewrite (number_fun _ _ _ Nf K) in B2 end. lia. }
      match goal with |- context [in_zone_rec ?z1 ?f ?z2] => destruct (rec_in_zone k f z1 z2 Hl Hz) as [(C & ->)|(C & ->)] end; [bad; now left|].
      match goal with |- context [z_caa ?zz] => change (z_caa zz) with p end. destruct (N.ltb_spec (N.of_nat (length p)) 256); [|lia]. cbn [rassert rbind zbind].
      good; [econstructor; eassumption|]. split; [agr|reflexivity].
    - (* DYNA *) cbn [data_acts run act]. destruct (Nat.ltb_spec 255 (length t)); [bad; [lia|now left]|]. cbn [zbind rbind].
      match goal with |- context [in_zone_rec ?z1 ?f ?z2] => destruct (rec_in_zone k f z1 z2 Hl Hz) as [(C & ->)|(C & ->)] end; [bad; now left|].
      cbn [rbind zbind]. good; [econstructor; [exact C|lia|apply cstring_until]|]. split; [agr|reflexivity].
    - (* DYNC *) cbn [data_acts run act]. destruct (Nat.ltb_spec 255 (length t)); [bad; [lia|now left]|]. cbn [zbind rbind].
      match goal with |- context [in_zone_rec ?z1 ?f ?z2] => destruct (rec_in_zone k f z1 z2 Hl Hz) as [(C & ->)|(C & ->)] end; [bad; now left|].
      cbn [rbind zbind]. good; [econstructor; [exact C|lia|apply cstring_until]|]. split; [agr|reflexivity].
  Qed.
End Runs.
