(** Which resources zones can use *)
From Coq Require Import String ZArith.
From Verif Require Import Base DnameModel DnameSpec CompModel CompProofs RespModel MonModel VscfModel VscfSpec OptModel VhashModel VhashSpec PlugModel MsgModel LtreeModel PconfModel PconfSpec McfModel McfSpec McfProofs McfProofs2 McfProofs3.
Local Open Scope nat_scope.
Local Open Scope list_scope.
Local Notation length := List.length.
Ltac Zify.zify_post_hook ::= idtac.

Lemma slash_none t a : at_slash t = (a, None) -> t = a /\ ~ In 47%N a.
Proof.
  revert a. induction t as [|c t IH]; intros a; cbn; [intros [= <-]; auto|]. destruct (N.eqb_spec c 47) as [->|N]; [discriminate|]. destruct (at_slash t) as (x, y). intros [= <- ->]. destruct (IH x eq_refl) as (-> & NI). split; [reflexivity|]. intros [E|I]; [congruence|contradiction].
Qed.
Lemma slash_some t a b : at_slash t = (a, Some b) -> t = a ++ [47%N] ++ b /\ ~ In 47%N a.
Proof.
  revert a. induction t as [|c t IH]; intros a; cbn; [discriminate|]. destruct (N.eqb_spec c 47) as [->|N]; [intros [= <- <-]; auto|]. destruct (at_slash t) as (x, y). intros [= <- ->]. destruct (IH x eq_refl) as (-> & NI). split; [reflexivity|]. intros [E|I]; [congruence|contradiction].
Qed.
Lemma at_slash_none n : ~ In 47%N n -> at_slash n = (n, None).
Proof. induction n as [|c n IH]; intros NI; [reflexivity|]. cbn. destruct (N.eqb_spec c 47) as [->|N]; [exfalso; apply NI; cbn; auto|]. rewrite IH; [reflexivity|]. intros I. apply NI. cbn. auto. Qed.
Lemma at_slash_some n d : ~ In 47%N n -> at_slash (n ++ [47%N] ++ d) = (n, Some d).
Proof. induction n as [|c n IH]; intros NI; [reflexivity|]. cbn. destruct (N.eqb_spec c 47) as [->|N]; [exfalso; apply NI; cbn; auto|]. cbn in IH. rewrite IH; [reflexivity|]. intros I. apply NI. cbn. auto. Qed.

Lemma find_first n rs : forall i0 i r, find_res n rs i0 = Some (i, r) -> exists m, i = i0 + m /\ first_res n rs m r.
Proof.
  induction rs as [|x rs IH]; intros i0 i r; cbn; [discriminate|]. destruct (bytes_eqb n (mx_name x)) eqn:B.
  - intros [= <- <-]. apply bytes_eqb_spec in B. exists 0. split; [lia|]. split; [reflexivity|]. split; [now symmetry|]. intros; lia.
  - intros E. destruct (IH _ _ _ E) as (m & -> & N & Q & F). exists (S m). split; [lia|]. split; [exact N|]. split; [exact Q|]. intros [|j] r' L J; [injection J as <-; intros E'; rewrite E', eqb_refl' in B; discriminate|]. apply (F j); [lia|exact J].
Qed.
Lemma first_find n rs : forall i0 m r, first_res n rs m r -> find_res n rs i0 = Some (i0 + m, r).
Proof.
  induction rs as [|x rs IH]; intros i0 m r (N & Q & F); [destruct m; discriminate|]. cbn. destruct m as [|m].
  - injection N as ->. rewrite Q, eqb_refl', Nat.add_0_r. reflexivity.
  - rewrite eqb_false by (intros E'; apply (F 0 x); [lia|reflexivity|now symmetry]). rewrite (IH (S i0) m r); [do 2 f_equal; lia|]. split; [exact N|]. split; [exact Q|]. intros j r' L J. apply (F (S j)); [lia|exact J].
Qed.
Lemma first_center_index n l : forall i0 m, first_center n l m -> center_index n l i0 = Some (i0 + m).
Proof.
  induction l as [|x l IH]; intros i0 m (N & F); [destruct m; discriminate|]. cbn. destruct m as [|m].
  - injection N as ->. rewrite eqb_refl', Nat.add_0_r. reflexivity.
  - rewrite eqb_false by (intros ->; apply (F 0); [lia|reflexivity]). rewrite (IH (S i0) m); [f_equal; lia|]. split; [exact N|]. intros j L. apply (F (S j)). lia.
Qed.

Lemma lor_add i j : (i < 2 ^ 24)%N -> N.lor i (N.shiftl j 24) = (i + 2 ^ 24 * j)%N.
Proof.
  intros L. assert (Z : N.land i (N.shiftl j 24) = 0%N).
  { apply N.bits_inj. intros b. rewrite N.land_spec, N.bits_0. destruct (N.ltb_spec b 24) as [B|B]; [rewrite (N.shiftl_spec_low _ _ _ B); apply andb_false_r|].
    destruct (N.eq_dec i 0) as [->|NZ]; [rewrite N.bits_0; reflexivity|]. rewrite (N.bits_above_log2 i b); [reflexivity|]. apply N.log2_lt_pow2; [lia|]. eapply N.lt_le_trans; [exact L|]. apply N.pow_le_mono_r; lia. }
  rewrite <- N.lxor_lor, <- N.add_nocarry_lxor by exact Z. rewrite N.shiftl_mul_pow2. lia.
Qed.
Lemma decoded i j : (i < 2 ^ 24)%N -> N.land (i + 2 ^ 24 * j) 16777215 = i /\ N.shiftr (i + 2 ^ 24 * j) 24 = j.
Proof.
  intros L. change 16777215%N with (N.ones 24). rewrite N.land_ones, N.shiftr_div_pow2. split.
  - rewrite N.mul_comm, N.mod_add by discriminate. now apply N.mod_small.
  - rewrite N.mul_comm, N.div_add by discriminate. rewrite N.div_small by exact L. reflexivity.
Qed.

Lemma dcs_mapped one dcs n m : map_dcs one dcs n = Ok (Mapped m) -> m = n /\ forall d, In (Some d) dcs -> exists x, one d = Ok (Mapped x).
Proof.
  induction dcs as [|[d|] dcs IH]; cbn; [intros [= <-]; split; [reflexivity|intros ? []]| |].
  - destruct (one d) as [[x| |]|] eqn:E; cbn; try discriminate. intros H. destruct (IH H) as (-> & A). split; [reflexivity|]. intros d' [[= <-]|I]; [eauto|auto].
  - intros H. destruct (IH H) as (-> & A). split; [reflexivity|]. intros d' [X|I]; [discriminate|auto].
Qed.
Lemma dcs_all one dcs n : (forall d, In (Some d) dcs -> exists x, one d = Ok (Mapped x)) -> map_dcs one dcs n = Ok (Mapped n).
Proof.
  induction dcs as [|[d|] dcs IH]; intros A; cbn; [reflexivity| |].
  - destruct (A d (or_introl eq_refl)) as (x & ->). cbn. apply IH. intros; apply A; cbn; auto.
  - apply IH. intros; apply A; cbn; auto.
Qed.
Lemma dcs_total one dcs n : (forall d, In (Some d) dcs -> exists x, one d = Ok x) -> exists o, map_dcs one dcs n = Ok o.
Proof.
  induction dcs as [|[d|] dcs IH]; intros A; cbn; [eauto| |].
  - destruct (A d (or_introl eq_refl)) as (x & ->). cbn. destruct x; eauto. apply IH. intros; apply A; cbn; auto.
  - apply IH. intros; apply A; cbn; auto.
Qed.
Lemma one_of {A} (l : list A) j : firstn 1 (skipn j l) = match nth_error l j with Some x => [x] | None => [] end.
Proof. revert j. induction l as [|x l IH]; intros [|j]; cbn; try reflexivity. apply IH. Qed.

Scheme usable_ind' := Minimality for usable Sort Prop with dc_usable_ind' := Minimality for dc_usable Sort Prop.
Combined Scheme both_ind from usable_ind', dc_usable_ind'.

Section Use.
  Variable ms : metas.
  Variable plug : bytes -> option (option (option bytes -> option name -> option N)).
  Variable in_zone : name -> name -> bool.
  Variable zone : option name.
  Notation mapm f k t := (map_meta ms plug in_zone f k t zone).
  Definition one (f : nat) (d : mc_dc) : res mapped :=
    match mc_what d with
    | McName c _ => Ok (match zone with None => Refused | Some z => if in_zone z c then Refused else Mapped 0 end)
    | McSub p rn =>
        if bytes_eqb p t_metafo then mapm f Metafo rn
        else if bytes_eqb p (pn Geoip) then mapm f Geoip rn
        else Ok (match plug p with None => Ends | Some None => Refused | Some (Some g) => match g rn zone with Some n => Mapped n | None => Refused end end)
    end.
  Lemma map_step f k t : mapm (S f) k t =
    match t with
    | None => Ok Refused
    | Some t =>
        let '(n, dcn) := at_slash t in
        match find_res n (of_kind k ms) 0 with
        | None => Ok Refused
        | Some (i, r) =>
            match dcn with
            | None => do o <- map_dcs (one f) (mx_dcs r) (N.of_nat i) ; Ok (match o with Mapped m => as_int m | x => x end)
            | Some d =>
                match center_index d (mx_centers r) 1 with
                | None => Ok Refused
                | Some j => rassert (Nat.ltb j 256) (do o <- map_dcs (one f) (firstn 1 (skipn (j - 1) (mx_dcs r))) (N.lor (N.of_nat i) (N.shiftl (N.of_nat j) 24)) ;
                                                      Ok (match o with Mapped m => as_int m | x => x end))
                end
            end
        end
    end.
  Proof. reflexivity. Qed.

  (** Room for the number of a resource, and a place for each datacenter *)
  Definition fits (rs : list mc_res) : Prop := (N.of_nat (length rs) <= 2 ^ 24)%N /\ Forall (fun r => length (mx_dcs r) = length (mx_centers r)) rs.

  Lemma int_mapped o n : match o with Mapped m => as_int m | x => x end = Mapped n -> o = Mapped n /\ (n < 2 ^ 31)%N.
  Proof. destruct o as [m| |]; try discriminate. unfold as_int. destruct (N.ltb_spec m (2 ^ 31)); [|discriminate]. intros [= <-]. auto. Qed.
  Lemma as_int_small n : (n < 2 ^ 31)%N -> as_int n = Mapped n.
  Proof. intros L. unfold as_int. now rewrite (proj2 (N.ltb_lt n (2 ^ 31)) L). Qed.
  Lemma pn_one p k : bytes_eqb p (pn k) = true -> p = pn k.
  Proof. apply bytes_eqb_spec. Qed.

  Theorem map_sound : fits (of_metafo ms) -> fits (of_geoip ms) -> forall f k t n, mapm f k (Some t) = Ok (Mapped n) -> usable ms plug in_zone zone k t n.
  Proof.
    intros FM FG. assert (FK : forall k, fits (of_kind k ms)) by (intros []; assumption). clear FM FG. intros f. induction f as [|f IH]; intros k t n; [discriminate|]. rewrite map_step.
    assert (ONE : forall d x, one f d = Ok (Mapped x) -> dc_usable ms plug in_zone zone d).
    { intros d x. unfold one. destruct (mc_what d) as [c idx|p rn] eqn:EW.
      - destruct zone as [z|] eqn:EZ; [|discriminate]. destruct (in_zone z c) eqn:EI; [discriminate|]. intros _. eapply du_name; eauto.
      - destruct (bytes_eqb p t_metafo) eqn:B1; [|destruct (bytes_eqb p (pn Geoip)) eqn:B2].
        + apply (pn_one p Metafo) in B1. subst p. destruct rn as [t'|]; [|destruct f; discriminate]. intros E. eapply (du_meta ms plug in_zone zone d Metafo); eauto.
        + apply pn_one in B2. subst p. destruct rn as [t'|]; [|destruct f; discriminate]. intros E. eapply (du_meta ms plug in_zone zone d Geoip); eauto.
        + destruct (plug p) as [[g|]|] eqn:EP; try discriminate. destruct (g rn zone) as [n'|] eqn:EG; try discriminate. intros _. eapply du_sub; eauto; intros ->; [change (pn Metafo) with t_metafo in B1; rewrite eqb_refl' in B1|rewrite eqb_refl' in B2]; discriminate. }
    destruct (at_slash t) as (nm, [dn|]) eqn:ES; cbv iota beta; (destruct (find_res nm (of_kind k ms) 0) as [(i, r)|] eqn:EF; [|discriminate]).
    - apply slash_some in ES as (-> & NI). apply find_first in EF as (m & -> & FR). cbn [Nat.add]. destruct (center_index dn (mx_centers r) 1) as [j|] eqn:EC; [|discriminate]. apply center_index_some in EC as (j0 & -> & NC & FC).
      unfold rassert. destruct (Nat.ltb (1 + j0) 256) eqn:LT; [|discriminate]. replace (1 + j0 - 1) with j0 by lia. rewrite one_of.
      destruct (FK k) as (LE & LD). assert (IR : In r (of_kind k ms)) by (eapply nth_error_In; apply FR). rewrite Forall_forall in LD. specialize (LD r IR).
      destruct (nth_error (mx_dcs r) j0) as [o|] eqn:EO. 2:{ exfalso. apply nth_error_None in EO. assert (j0 < length (mx_centers r)) by (apply nth_error_Some; congruence). lia. }
      assert (LM : m < length (of_kind k ms)) by (apply nth_error_Some; destruct FR as (E & _); congruence). assert (LI : (N.of_nat m < 2 ^ 24)%N) by lia. rewrite (lor_add _ _ LI).
      destruct (map_dcs (one f) [o] (N.of_nat m + 2 ^ 24 * N.of_nat (1 + j0))%N) as [y|] eqn:EM; [|discriminate]. cbn [rbind]. intros [= EY]. apply int_mapped in EY as (-> & LN). apply dcs_mapped in EM as (-> & AL).
      eapply us_dc; eauto; [split; [exact NC|exact FC]| |].
      + change (2 ^ 31)%N with (2 ^ 24 * 128)%N in LN. assert (2 ^ 24 * N.of_nat (1 + j0) < 2 ^ 24 * 128)%N by lia. apply N.mul_lt_mono_pos_l in H; [lia|reflexivity].
      + intros d ->. destruct (AL d (or_introl eq_refl)) as (x & EX). eauto.
    - apply slash_none in ES as (-> & NI). apply find_first in EF as (m & -> & FR). cbn [Nat.add]. destruct (map_dcs (one f) (mx_dcs r) (N.of_nat m)) as [y|] eqn:EM; [|discriminate]. cbn [rbind]. intros [= EY]. apply int_mapped in EY as (-> & LN). apply dcs_mapped in EM as (-> & AL).
      eapply us_res; eauto. intros d I. destruct (AL d I) as (x & EX). eauto.
  Qed.

  Lemma enough (P : nat -> mc_dc -> Prop) (dcs : list (option mc_dc)) : (forall d, In (Some d) dcs -> exists f, forall f', f <= f' -> P f' d) -> exists f, forall f', f <= f' -> forall d, In (Some d) dcs -> P f' d.
  Proof.
    induction dcs as [|o dcs IH]; intros A; [exists 0; intros ? _ ? []|]. destruct IH as (f1 & H1); [intros; apply A; cbn; auto|]. destruct o as [d0|].
    - destruct (A d0 (or_introl eq_refl)) as (f0 & H0). exists (f0 + f1). intros f' L d [[= <-]|I]; [apply H0; lia|apply H1; [lia|exact I]].
    - exists f1. intros f' L d [X|I]; [discriminate|now apply H1].
  Qed.
  Theorem map_complete : (forall k t n, usable ms plug in_zone zone k t n -> exists f, forall f', f <= f' -> mapm f' k (Some t) = Ok (Mapped n)) /\
    (forall d, dc_usable ms plug in_zone zone d -> exists f, forall f', f <= f' -> exists x, one f' d = Ok (Mapped x)).
  Proof.
    apply both_ind.
    - intros k n i r NI FR LI _ IH. destruct (enough (fun f d => exists x, one f d = Ok (Mapped x)) _ IH) as (f & H). exists (S f). intros [|f'] L; [lia|]. rewrite map_step, (at_slash_none _ NI), (first_find _ _ 0 _ _ FR). cbn [Nat.add]. rewrite dcs_all by (apply H; lia). cbn [rbind]. rewrite as_int_small by exact LI. reflexivity.
    - intros k n dn i r j o NI FR FC LI LJ EO _ IH. destruct (enough (fun f d => exists x, one f d = Ok (Mapped x)) [o]) as (f & H). { intros d [->|[]]. now apply IH. } exists (S f). intros [|f'] L; [lia|]. rewrite map_step, (at_slash_some _ _ NI), (first_find _ _ 0 _ _ FR). cbn [Nat.add]. rewrite (first_center_index _ _ 1 _ FC). unfold rassert. rewrite (proj2 (Nat.ltb_lt (1 + j) 256)) by lia. replace (1 + j - 1) with j by lia. rewrite one_of, EO, lor_add by exact LI.
      rewrite dcs_all by (apply H; lia). cbn [rbind]. rewrite as_int_small; [reflexivity|]. change (2 ^ 31)%N with (2 ^ 24 * 128)%N. change (2 ^ 24)%N with 16777216%N in *. cbn [Nat.add]. lia.
    - intros d z c idx EW EZ EI. exists 0. intros f' _. unfold one. rewrite EW, EZ, EI. eauto.
    - intros d k t n EW _ (f & H). exists f. intros f' L. unfold one. rewrite EW. destruct k; cbn [pn]; [rewrite eqb_refl'|change (bytes_eqb (txt "geoip") t_metafo) with false; cbv iota; rewrite eqb_refl']; eauto.
    - intros d p rn g n EW N1 N2 EP EG. exists 0. intros f' _. unfold one. rewrite EW, (eqb_false p t_metafo N1), (eqb_false p (pn Geoip) N2), EP, EG. eauto.
  Qed.
  (** Without a circle it ends *)
  Theorem map_total rank : ranked ms rank -> Forall (fun r => length (mx_centers r) < 256) (of_metafo ms ++ of_geoip ms) ->
    forall f k t, S (rank k (fst (at_slash t))) < f -> exists o, mapm f k (Some t) = Ok o.
  Proof.
    intros RK FC. assert (FK : forall k r, In r (of_kind k ms) -> length (mx_centers r) < 256). { rewrite Forall_forall in FC. intros [] r I; apply FC, in_app_iff; auto. } clear FC.
    intros f. induction f as [|f IH]; intros k t L; [lia|]. rewrite map_step. destruct (at_slash t) as (nm, dcn) eqn:ES. cbv beta iota. cbn [fst] in L. destruct (find_res nm (of_kind k ms) 0) as [(i, r)|] eqn:EF; [|eauto]. apply find_first in EF as (m & -> & FR).
    assert (IR : In r (of_kind k ms)) by (eapply nth_error_In; apply FR). assert (NM : mx_name r = nm) by apply FR.
    assert (ONE : forall d, In (Some d) (mx_dcs r) -> exists o, one f d = Ok o).
    { intros d I. unfold one. destruct (mc_what d) as [c idx|p rn] eqn:EW; [eauto|]. destruct (bytes_eqb p t_metafo) eqn:B1; [|destruct (bytes_eqb p (pn Geoip)) eqn:B2; [|eauto]].
      - apply (pn_one p Metafo) in B1. subst p. destruct rn as [t'|]; [|destruct f; [lia|cbn; eauto]]. apply IH. specialize (RK k r d Metafo t' IR I EW). rewrite NM in RK. lia.
      - apply pn_one in B2. subst p. destruct rn as [t'|]; [|destruct f; [lia|cbn; eauto]]. apply IH. specialize (RK k r d Geoip t' IR I EW). rewrite NM in RK. lia. }
    destruct dcn as [dn|].
    - destruct (center_index dn (mx_centers r) 1) as [j|] eqn:EC; [|eauto]. apply center_index_some in EC as (j0 & -> & NC & _). assert (j0 < length (mx_centers r)) by (apply nth_error_Some; congruence). specialize (FK k r IR). unfold rassert. rewrite (proj2 (Nat.ltb_lt (1 + j0) 256)) by lia.
      match goal with |- context [map_dcs (one f) ?l ?x] => destruct (dcs_total (one f) l x) as (o & ->) end; [|cbn [rbind]; eauto]. intros d I. apply ONE. rewrite one_of in I. destruct (nth_error (mx_dcs r) (1 + j0 - 1)) eqn:EO; [|destruct I]. destruct I as [->|[]]. eapply nth_error_In; eauto.
    - destruct (dcs_total (one f) (mx_dcs r) (N.of_nat (0 + m)) ONE) as (o & ->). cbn [rbind]. eauto.
  Qed.
  (** More fuel changes nothing *)
  Theorem map_more : forall f k t o, mapm f k t = Ok o -> forall f', f <= f' -> mapm f' k t = Ok o.
  Proof.
    intros f. induction f as [|f IH]; intros k t o; [discriminate|]. intros E [|f'] L; [lia|]. revert E. rewrite !map_step.
    assert (ONE : forall d x, one f d = Ok x -> one f' d = Ok x). { intros d x. unfold one. destruct (mc_what d); [auto|]. destruct (bytes_eqb plugin t_metafo); [intros E; eapply IH; [exact E|lia]|]. destruct (bytes_eqb plugin (pn Geoip)); [intros E; eapply IH; [exact E|lia]|auto]. }
    assert (DCS : forall l n x, map_dcs (one f) l n = Ok x -> map_dcs (one f') l n = Ok x). { induction l as [|[d|] l IHl]; intros n x; cbn; [auto| |apply IHl]. destruct (one f d) as [y|] eqn:E1; [|discriminate]. rewrite (ONE _ _ E1). cbn. destruct y; auto. }
    destruct t as [t|]; [|auto]. destruct (at_slash t) as (nm, dcn). cbv beta iota. destruct (find_res nm (of_kind k ms) 0) as [(i, r)|]; [|auto]. destruct dcn as [dn|].
    - destruct (center_index dn (mx_centers r) 1) as [j|]; [|auto]. unfold rassert. destruct (Nat.ltb j 256); [|auto].
      match goal with |- context [map_dcs (one f) ?l ?x] => destruct (map_dcs (one f) l x) as [y|] eqn:EM; [|discriminate]; rewrite (DCS _ _ _ EM) end. auto.
    - destruct (map_dcs (one f) (mx_dcs r) (N.of_nat i)) as [y|] eqn:EM; [|discriminate]. rewrite (DCS _ _ _ EM). auto.
  Qed.
End Use.

(** ** The order of metafo *)
Lemma up_to_zero_id l : Forall (fun n => n <> 0) l -> forall l', up_to_zero (l ++ 0 :: l') = l.
Proof. induction 1 as [|n l N F IH]; intros l'; [reflexivity|]. cbn. destruct n; [congruence|]. now rewrite IH. Qed.
Lemma metafo_order centers : length centers < 256 -> metafo_list centers = seq 1 (length centers).
Proof.
  intros L. unfold metafo_list. rewrite (map_ext_in _ (fun i => i)).
  - rewrite map_id. apply up_to_zero_id. apply Forall_forall. intros n I. apply in_seq in I. lia.
  - intros i I. apply in_seq in I. apply Nat.mod_small. lia.
Qed.
