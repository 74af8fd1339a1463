(** The scanner's actions, part 5: statements. *)
From Coq Require Import String Ascii.
From Verif Require Import Base DnameSpec DnameModel DnameProofs DnameProofs2 CompModel RespModel LtreeModel ZscanModel ZscanSpec ZscanProofs ZscanProofs2 ZscanProofs3 ZscanProofs4 ZscanProofs5 ZscanProofs7 ZscanProofs8 ZscanProofs9 ZscanProofs10.
Local Open Scope N_scope.
Local Notation length := List.length.
Local Arguments N.eqb : simpl never.
Local Arguments N.leb : simpl never.
Local Arguments N.ltb : simpl never.
Local Arguments N.mul : simpl never.
Local Arguments N.add : simpl never.
Local Arguments N.modulo : simpl never.
Local Arguments N.div : simpl never.
Local Arguments N.of_nat : simpl never.
Local Arguments N.shiftr : simpl never.
Local Arguments dname_set : simpl never.
Local Arguments set_uval : simpl never.
Local Arguments mult_uval : simpl never.
Local Arguments text_add_tok : simpl never.
Local Arguments text_add_tok_huge : simpl never.
Local Arguments name_of : simpl never.
Local Arguments rd : simpl never.
Local Arguments Nat.ltb : simpl never.
Local Arguments until_nul : simpl never.
Local Arguments dname_isinzone : simpl never.
Local Arguments dname_copy : simpl never.
Local Arguments make_zfn : simpl never.
Local Arguments dns_unescape : simpl never.

Definition ttl_good (o : option (dur * option dur)) : Prop :=
  match o with None => True | Some (d, o2) => dur_good d /\ match o2 with Some d2 => dur_good d2 | None => True end end.
Definition stmt_good (s : stmt) : Prop :=
  match s with
  | Empty => True
  | Rec o topt d => match o with Some n => all_bytes n | None => True end /\ ttl_good topt /\ data_good d
  | SetDefault d => dur_good d
  | SetOrigin n => all_bytes n
  | Include f o => match o with Some n => all_bytes n | None => True end
  end.
(** statements that make the daemon die *)
Definition stmt_fatal (s : stmt) : Prop :=
  match s with
  | Rec _ _ d => data_fatal d
  | SetOrigin n => n = []
  | Include f o => f = [] \/ o = Some []
  | _ => False
  end.

Section Stmts.
  Variable zone : bytes.
  Variable zn : name.
  Hypothesis Hzone : exists r, zone = dname zn true ++ r.
  Hypothesis Lzone : legal_name zn.
  Variable autosplit : bool.
  Variable pton4 pton6 : bytes -> option bytes.
  Variable incl : bytes -> bytes -> N -> zres (list record).
  Variable cur : bytes.
  Variable inclS : name -> bytes -> N -> list record -> Prop.
  Variable idies : bytes -> Prop.
  Hypothesis Hincl : forall b n p ttl, holds b n -> (exists q, n = q ++ zn) ->
    (exists rs, incl b p ttl = Ok (Some rs) /\ inclS n p ttl rs) \/
    ((forall rs, ~ inclS n p ttl rs) /\ (incl b p ttl = Ok None \/ (incl b p ttl = UB /\ idies p))).
  Hypothesis Fincl : forall n p ttl r1 r2, inclS n p ttl r1 -> inclS n p ttl r2 -> r1 = r2.
  Notation Run := (run zone autosplit pton4 pton6 incl cur).
  Notation agree := (agree zn).
  Notation dmeans := (data_means zn autosplit pton4 pton6).
  Notation smeans := (means zn autosplit pton4 pton6 inclS cur).

  Ltac agr := unfold ZscanProofs10.agree; repeat match goal with |- _ /\ _ => split end; try assumption; try reflexivity; try (match goal with H : holds _ _ |- length _ = 256%nat => exact (proj1 (proj2 H)) end).

  Lemma run_cons a l z : Run (a :: l) z = zbind (act zone autosplit pton4 pton6 incl cur a z) (Run l).
  Proof. reflexivity. Qed.
  Lemma half x : N.shiftr x 1 = x / 2.
  Proof. rewrite N.shiftr_div_pow2. reflexivity. Qed.
  Lemma run_ttl k topt l z : ttl_good topt -> agree z k ->
    (exists v m z', ttl_means k topt v m /\ Run (UseDefTtl :: opt_acts topt ++ l) z = Run l z' /\ agree z' k /\ z_ttl z' = v /\ z_ttl_mn z' = m /\ z_out z' = z_out z) \/
    ((forall v m, ~ ttl_means k topt v m) /\ Run (UseDefTtl :: opt_acts topt ++ l) z = Ok None).
  Proof.
    intros G A. assert (A' := A). destruct A' as (Ho & Hf & Hl & Hz & Hd & Lr & Le & Lu & Ht & Io & If). destruct (uv_five z Lu) as (u1 & u2 & u3 & u4 & u5 & Eu).
    cbn [run act zbind rbind]. match goal with |- context [Run _ ?zz] => set (z1 := zz) end.
    destruct topt as [(d, [d2|])|]; cbn [opt_acts ttl_acts ttl_good] in *.
    - destruct G as (G1 & G2). rewrite <- !app_assoc. cbn [app].
      match goal with |- context [Run (dur_acts d ++ ?ll) ?zz] => destruct (run_dur zone autosplit pton4 pton6 incl cur d ll zz G1) as [(v & D & ->)|(D & ->)] end.
      + rewrite run_uv, <- ?app_assoc. cbn [app]. match goal with |- context [Run (dur_acts d2 ++ ?ll) ?zz] => destruct (run_dur zone autosplit pton4 pton6 incl cur d2 ll zz G2) as [(m & D2 & ->)|(D2 & ->)] end.
        * left. exists v, (if m =? 0 then v / 2 else m). rewrite run_uv. cbn [run act zbind rbind]. eexists. split; [constructor; assumption|]. split; [reflexivity|]. unfold z1.
          split; [agr; cbn; now rewrite Eu|]. unfold uvk. cbn. rewrite Eu. cbn. rewrite half. auto.
        * right. split; [|reflexivity]. intros w m X. inversion X; subst. eapply D2; eauto.
      + right. split; [|reflexivity]. intros w m X. inversion X; subst. eapply D; eauto.
    - destruct G as (G1 & _). rewrite <- !app_assoc. cbn [app].
      match goal with |- context [Run (dur_acts d ++ ?ll) ?zz] => destruct (run_dur zone autosplit pton4 pton6 incl cur d ll zz G1) as [(v & D & ->)|(D & ->)] end.
      + left. exists v, (v / 2). cbn [run act zbind rbind]. eexists. split; [constructor; assumption|]. split; [reflexivity|]. unfold z1.
        split; [agr; cbn; now rewrite Eu|]. unfold uvk. cbn. rewrite Eu. cbn. rewrite half. auto.
      + right. split; [|reflexivity]. intros w m X. inversion X; subst. eapply D; eauto.
    - left. exists (c_ttl k), (c_ttl k / 2), z1. split; [constructor|]. split; [reflexivity|]. unfold z1. split; [agr; cbn; now rewrite Eu|]. cbn. rewrite Hd, half. auto.
  Qed.

  Definition stmt_dies (s : stmt) : Prop :=
    stmt_fatal s \/ exists f o, s = Include f o /\ (~ In 47 cur \/ exists d f' p, unescaped f d /\ cstring d f' /\ path cur f' p /\ idies p).
  Definition stmt_out z k s (x : zres zst) : Prop :=
    (exists z' k' rs, x = Ok (Some z') /\ smeans k s k' rs /\ agree z' k' /\ z_out z' = z_out z ++ rs) \/
    ((forall k' rs, ~ smeans k s k' rs) /\ (x = Ok None \/ (x = UB /\ stmt_dies s))).

  (** the end of $INCLUDE *)
  Lemma run_include k f o z1 z origin fn d : agree z k -> agree z1 k -> z_out z1 = z_out z -> holds (z_rhs z1) origin ->
    match o with None => origin = c_origin k | Some n => all_bytes n /\ name_means zn k n origin end ->
    f <> [] -> unescaped f d -> z_fname z1 = Some fn -> fn = d ->
    stmt_out z k (Include f o) (Run [ProcessInclude] z1).
  Proof.
    intros A A1 Eo Hr M Nf U Ef ->. destruct A1 as (Ho & Hf & Hl & Hz & Hd & Lr & Le & Lu & Ht & Io & If). cbn [run act]. rewrite Ef.
    assert (Uo : forall o2, match o with None => o2 = c_origin k | Some n => name_means zn k n o2 end -> o2 = origin).
    { intros o2 H. destruct o as [n|]; [destruct M as (B & M); eapply name_means_fun; eauto|congruence]. }
    assert (Hr' := Hr). destruct Hr' as (Lo & Lb & rb & Er). rewrite Er. assert (Hz' := Hzone). destruct Hz' as (rz & Ez). rewrite Ez.
    destruct (isinzone_ok zn origin rz rb (legal_struct _ Lzone) (legal_struct _ Lo)) as (i & -> & Ii). cbn [rbind]. destruct i.
    - assert (Iz := proj1 Ii eq_refl). destruct (make_zfn_ok cur (until_nul d)) as [(p & P & ->)|(P & -> & Nc)]; cbn [rbind].
      + rewrite Hd. rewrite <- Er. destruct (Hincl (z_rhs z1) origin p (c_ttl k) Hr Iz) as [(rs & -> & R)|(R & E)]; cbn [zbind rbind].
        * left. eexists _, k, rs. split; [reflexivity|]. split.
          -- eapply me_include with (d := d); eauto; [destruct o as [n|]; [apply M|exact M]|apply cstring_until].
          -- split; [|cbn; now rewrite Eo]. agr.
        * right. split.
          -- intros k' rs X. inversion X; subst. match goal with K : unescaped f _ |- _ => assert (Ed := unescaped_fun _ _ _ K U); subst end.
             match goal with K : cstring _ _ |- _ => assert (Ec := cstring_fun _ _ _ K (cstring_until _)); subst end.
             match goal with K : path cur _ _ |- _ => assert (Ep := path_fun _ _ _ _ K P); subst end.
             match goal with K : inclS ?o2 _ _ _ |- _ => rewrite (Uo o2) in K by assumption; now apply (R _ K) end.
          -- destruct E as [->|(-> & I)]; [now left|right]. split; [reflexivity|]. right. exists f, o. split; [reflexivity|]. right. exists d, (until_nul d), p. split; [exact U|]. split; [apply cstring_until|]. auto.
      + right. split; [|right; split; [reflexivity|]; right; exists f, o; auto].
        intros k' rs X. inversion X; subst. match goal with K : unescaped f _ |- _ => assert (Ed := unescaped_fun _ _ _ K U); subst end.
        match goal with K : cstring _ _ |- _ => assert (Ec := cstring_fun _ _ _ K (cstring_until _)); subst end. eapply P; eauto.
    - right. split; [|now left]. intros k' rs X. inversion X; subst. match goal with K : exists q, ?o2 = q ++ zn |- _ => rewrite (Uo o2) in K by assumption; apply Ii in K; discriminate end.
  Qed.

  Lemma stmt_run s z k : stmt_good s -> agree z k -> stmt_out z k s (Run (stmt_acts s) z).
  Proof.
    intros G A. assert (A' := A). destruct A' as (Ho & Hf & Hl & Hz & Hd & Lr & Le & Lu & Ht & Io & If). destruct s as [|on topt d|d|n|f o].
    - left. exists z, k, []. split; [reflexivity|]. split; [constructor|]. split; [exact A|]. now rewrite app_nil_r.
    - cbn [stmt_good] in G. destruct G as (Gn & Gt & Gd). cbn [stmt_acts].
      assert (Main : forall z1 k1, agree z1 k1 -> z_out z1 = z_out z ->
        (forall v m r, ttl_means k1 topt v m -> dmeans k1 v m d r -> smeans k (Rec on topt d) k1 [r]) ->
        (forall k' rs, smeans k (Rec on topt d) k' rs -> exists v m r, ttl_means k1 topt v m /\ dmeans k1 v m d r) ->
        stmt_out z k (Rec on topt d) (Run (UseDefTtl :: opt_acts topt ++ data_acts d) z1)).
      { intros z1 k1 A1 E1 Mk Inv. destruct (run_ttl k1 topt (data_acts d) z1 Gt A1) as [(v & m & z2 & T & -> & A2 & Ev & Em & Eo)|(T & ->)].
        - destruct (data_run zone zn Hzone Lzone autosplit pton4 pton6 incl cur d z2 k1 Gd A2) as [(z3 & r & -> & M & A3 & E3)|(M & E)]; rewrite Ev, Em in M.
          + left. exists z3, k1, [r]. split; [reflexivity|]. split; [eapply Mk; eauto|]. split; [exact A3|]. rewrite E3, Eo, E1. reflexivity.
          + right. split.
            * intros k' rs X. apply Inv in X as (v' & m' & r & T' & M'). assert (v' = v /\ m' = m).
              { inversion T; subst; inversion T'; subst; auto; repeat match goal with K : duration ?d ?a, K2 : duration ?d ?b |- _ => assert (a = b) by (eapply duration_fun; eauto); subst; clear K2 end; auto. }
              destruct H as (-> & ->). now apply (M r).
            * destruct E as [->|(-> & F)]; [now left|right]. split; [reflexivity|]. left. exact F.
        - right. split; [|now left]. intros k' rs X. apply Inv in X as (v' & m' & r & T' & _). now apply (T v' m'). }
      destruct on as [n|]; cbn [lhs_acts app].
      + rewrite run_cons. cbn [act]. destruct (set_left zone zn Hzone Lzone k z (z_lhs z) n Gn (proj1 (proj2 Hl)) Ho Hf Io If) as (x & -> & X). destruct x as [(b & oo)|]; cbn [zbind rbind fst snd].
        * destruct X as (nn & O & Hn). match goal with |- context [Run _ ?zz] => set (z1 := zz) end.
          set (k1 := {| c_origin := c_origin k; c_file := c_file k; c_ttl := c_ttl k; c_owner := nn; c_ooz := oo |}).
          apply (Main z1 k1).
          -- unfold z1, k1. agr.
          -- reflexivity.
          -- intros v m r T M. eapply me_rec; eauto.
          -- intros k' rs Y. inversion Y; subst. match goal with K : owner_means _ _ _ _ _ |- _ => destruct (owner_means_fun zn k _ _ _ _ _ Gn K O) as (-> & ->) end. unfold k1. eauto 10.
        * right. split; [|now left]. intros k' rs Y. inversion Y; subst. eapply X; eauto.
      + apply (Main z k A eq_refl).
        * intros v m r T M. eapply me_rec_same; eauto.
        * intros k' rs Y. inversion Y; subst. eauto 10.
    - cbn [stmt_acts stmt_good] in *. destruct (run_dur zone autosplit pton4 pton6 incl cur d [SetDefTtl] z G) as [(v & D & ->)|(D & ->)].
      + left. eexists _, _, []. split; [reflexivity|]. split; [econstructor; eassumption|]. split; [agr|]. cbn. now rewrite app_nil_r.
      + right. split; [|now left]. intros k' rs X. inversion X; subst. eapply D; eauto.
    - cbn [stmt_acts stmt_good] in *. destruct (run_rhs zone zn Hzone Lzone autosplit pton4 pton6 incl cur k n [ResetOrigin] z G Ho Hf Lr) as [(b & x & M & Hb & ->)|(M & E)].
      + cbn [run act]. change (z_rhs (with_rhs_buf z b)) with b. change (z_origin (with_rhs_buf z b)) with (z_origin z).
        assert (Hb' := Hb). destruct Hb' as (Lx & Lb & rb & Eb). rewrite Eb at 1. assert (Hz' := Hzone). destruct Hz' as (rz & Ez). rewrite Ez at 1.
        destruct (isinzone_ok zn x rz rb (legal_struct _ Lzone) (legal_struct _ Lx)) as (i & -> & Ii). cbn [rbind]. destruct i.
        * destruct (proj1 Ii eq_refl) as (q & ->). destruct (copy_ok (z_origin z) (q ++ zn) rb (proj1 (proj2 Ho)) Lx) as (ob & E1 & E2). rewrite <- Eb in E1. rewrite E1. cbn [rbind zbind].
          left. eexists _, _, []. split; [reflexivity|]. split; [econstructor; eassumption|]. split; [agr; cbn; eauto|]. cbn. now rewrite app_nil_r.
        * right. split; [|now left]. intros k' rs X. inversion X; subst. match goal with K : name_means zn k n _ |- _ => assert (Q := name_means_fun zn k n _ _ G M K) end.
          assert (false = true) by (apply Ii; eauto). discriminate.
      + right. split; [intros k' rs X; inversion X; subst; eapply M; eauto|]. destruct E as [E|(-> & E)]; [now left|right]. split; [exact E|]. left. reflexivity.
    - cbn [stmt_good] in G. destruct (copy_ok (z_rhs z) (c_origin k) (skipn (length (dname (c_origin k) true)) (z_origin z)) Lr (proj1 Ho)) as (b0 & Eb & Hb0).
      assert (Eo : dname (c_origin k) true ++ skipn (length (dname (c_origin k) true)) (z_origin z) = z_origin z).
      { destruct Ho as (_ & _ & ro & ->). rewrite skipn_app, skipn_all, Nat.sub_diag. reflexivity. }
      rewrite Eo in Eb.
      destruct f as [|c f].
      { right. split; [intros k' rs X; inversion X; subst; congruence|]. right. split; [|left; now left]. destruct o; cbn [stmt_acts run act]; rewrite Eb; reflexivity. }
      assert (Ef : forall l, Run (ResetRhsOrigin :: SetFilename (c :: f) :: l) z = match dec (c :: f) with
        | None => Ok None | Some fn => Run l (set_heap (with_rhs_buf z b0) (z_text z) (z_data z) (Some fn) (z_out z)) end).
      { intros l. cbn [run act]. rewrite Eb. cbn [rbind zbind]. rewrite dns_unescape_ok by (try discriminate; lia). cbn [rbind]. destruct (dec (c :: f)) as [fn|] eqn:Ed; [|reflexivity].
        apply unescaped_iff, unescaped_len, Nat.leb_le in Ed. rewrite Ed. reflexivity. }
      assert (Es : exists l, stmt_acts (Include (c :: f) o) = ResetRhsOrigin :: SetFilename (c :: f) :: l /\ l = match o with None => [ProcessInclude] | Some n => [SetRhs n; ProcessInclude] end) by (destruct o; eexists; split; reflexivity).
      destruct Es as (l & -> & El). rewrite Ef. destruct (dec (c :: f)) as [fn|] eqn:Ed.
      + apply unescaped_iff in Ed. destruct o as [n|]; subst l.
        * match goal with |- context [Run _ ?zz] => set (z1 := zz) end.
          destruct (run_rhs zone zn Hzone Lzone autosplit pton4 pton6 incl cur k n [ProcessInclude] z1 G Ho Hf (proj1 (proj2 Hb0))) as [(b & x & M & Hb & ->)|(M & E)].
          -- eapply run_include with (origin := x) (d := fn); eauto; [unfold z1; agr|discriminate|reflexivity].
          -- right. split; [intros k' rs X; inversion X; subst; eapply M; eauto|]. destruct E as [E|(-> & E)]; [now left|right]. split; [exact E|]. left. now right.
        * eapply run_include with (origin := c_origin k) (d := fn); eauto; [agr|discriminate|reflexivity].
      + right. split; [|now left]. intros k' rs X. inversion X; subst. match goal with K : unescaped _ _ |- _ => apply unescaped_iff in K; congruence end.
  Qed.
End Stmts.
