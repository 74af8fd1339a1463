From Coq Require Import Permutation.
From Verif Require Import Base DnameModel DnameSpec DnameProofs DnameProofs2 DnameProps CompModel RespModel RespSpec ChalModel ChalSpec ChalProofs.
Local Open Scope nat_scope.

Lemma Forall2_len {A B} (R : A -> B -> Prop) l l' : Forall2 R l l' -> length l = length l'.
Proof. induction 1; cbn; auto. Qed.

Lemma bytes_eqb_iff a : forall b, bytes_eqb a b = true <-> a = b.
Proof.
  induction a as [|x a IH]; intros [|y b]; cbn; [split; auto|split; discriminate|split; discriminate|].
  rewrite andb_true_iff, N.eqb_eq, IH. split; [intros [-> ->]; auto|intros E; injection E; auto].
Qed.

Lemma count2mask_ones x : count2mask x = N.ones (N.succ (N.log2 (N.lor x 1))).
Proof. unfold count2mask. rewrite N.ones_equiv, N.pow_succ_r', N.sub_1_r. reflexivity. Qed.

Section Tables.
  Variable hash : bytes -> N.
  Variable ttl dns_ttl : N.
  Notation mk := (mk hash dns_ttl).

  Definition bkt (mask : N) (c : chal) : nat := N.to_nat (N.land (c_hash c) mask).
  Definition at_slot (mask : N) (j : nat) (x : ptr * chal) : bool := bkt mask (snd x) =? j.
  Definition rep (slots : list (list ptr)) (mask : N) (l : list (ptr * chal)) : Prop :=
    length slots = N.to_nat (mask + 1) /\
    forall j, j < length slots -> nth_error slots j = Some (map fst (filter (at_slot mask j) l)).

  Lemma bkt_lt k c : bkt (N.ones k) c < N.to_nat (N.ones k + 1).
  Proof.
    unfold bkt. rewrite N.land_ones, N.ones_equiv, N.add_1_r, N.succ_pred by (apply N.pow_nonzero; discriminate).
    assert (H := N.mod_lt (c_hash c) (2 ^ k) ltac:(apply N.pow_nonzero; discriminate)). lia.
  Qed.

  Lemma rep_empty mask : rep (repeat [] (N.to_nat (mask + 1))) mask [].
  Proof.
    split; [apply repeat_length|]. intros j Hj. rewrite repeat_length in Hj. now apply nth_error_repeat.
  Qed.

  Definition items (id i : nat) (cs : list chal) : list (ptr * chal) := combine (map (pair id) (seq i (length cs))) cs.

  Lemma rep_add slots k l c p : rep slots (N.ones k) l ->
    rep (upd slots (bkt (N.ones k) c) (map fst (filter (at_slot (N.ones k) (bkt (N.ones k) c)) l) ++ [p])) (N.ones k) (l ++ [(p, c)]).
  Proof.
    intros [L H]. split; [now rewrite upd_length|]. intros j Hj. rewrite upd_length in Hj.
    rewrite filter_app, map_app. cbn [filter]. unfold at_slot at 3. cbn [snd].
    destruct (bkt (N.ones k) c =? j) eqn:E.
    - apply Nat.eqb_eq in E. subst j. rewrite nth_error_upd_eq by auto. reflexivity.
    - apply Nat.eqb_neq in E. rewrite nth_error_upd_neq by auto. rewrite H by auto. cbn [map]. now rewrite app_nil_r.
  Qed.

  Lemma wr_upd {A} (l : list A) i x : i < length l -> wr l i [x] = Ok (upd l i x).
  Proof. intros H. rewrite wr_ok by (cbn; lia). rewrite upd_split by exact H. cbn [length app]. now replace (i + 1) with (S i) by lia. Qed.

  Lemma hash_chals_ok check k id cs : forall i slots l, rep slots (N.ones k) l ->
    exists r, hash_chals check (N.ones k) id i cs slots = Ok r /\
    match r with
    | Some slots' => rep slots' (N.ones k) (l ++ items id i cs) /\
        (check = true -> forall c, In c cs -> length (filter (at_slot (N.ones k) (bkt (N.ones k) c)) (l ++ items id i cs)) <= 201)
    | None => check = true /\ exists c, In c cs /\ 201 < length (filter (at_slot (N.ones k) (bkt (N.ones k) c)) (l ++ items id i cs))
    end.
  Proof.
    induction cs as [|c cs IH]; intros i slots l R.
    - eexists. split; [reflexivity|]. unfold items. cbn. rewrite app_nil_r. split; [auto|]. easy.
    - cbn [hash_chals]. destruct R as [L H].
      assert (Hb : bkt (N.ones k) c < length slots) by (rewrite L; apply bkt_lt).
      fold (bkt (N.ones k) c). 
      assert (Er : rd slots (bkt (N.ones k) c) = Ok (map fst (filter (at_slot (N.ones k) (bkt (N.ones k) c)) l)))
        by (unfold rd; now rewrite (H _ Hb)).
      rewrite Er. cbn [rbind]. rewrite map_length.
      assert (Ei : items id i (c :: cs) = ((id, i), c) :: items id (S i) cs) by reflexivity.
      assert (Ea : l ++ items id i (c :: cs) = (l ++ [((id, i), c)]) ++ items id (S i) cs) by (rewrite Ei, <- app_assoc; reflexivity).
      destruct (check && (200 <? length (filter (at_slot (N.ones k) (bkt (N.ones k) c)) l))) eqn:E.
      + apply andb_prop in E as [-> E]. apply Nat.ltb_lt in E. exists None. split; auto. split; auto.
        exists c. split; [now left|]. rewrite filter_app, app_length, Ei. cbn [filter]. unfold at_slot at 2. cbn [snd].
        rewrite Nat.eqb_refl. cbn [length]. lia.
      + rewrite wr_upd by auto. cbn [rbind].
        destruct (IH (S i) _ _ (rep_add slots k l c (id, i) (conj L H))) as (r & E1 & Hr). exists r. split; [exact E1|].
        rewrite Ea. destruct r as [slots'|].
        * destruct Hr as [R' C]. split; auto. intros Hc c' [<-|Hi]; [|apply C; auto].
          destruct (existsb (fun x => bkt (N.ones k) x =? bkt (N.ones k) c) cs) eqn:Ex.
          -- apply existsb_exists in Ex as (x & Hx & Ex). apply Nat.eqb_eq in Ex. rewrite <- Ex. apply C; auto.
          -- assert (Fz : filter (at_slot (N.ones k) (bkt (N.ones k) c)) (items id (S i) cs) = []).
             { assert (K : forall cs i, existsb (fun x => bkt (N.ones k) x =? bkt (N.ones k) c) cs = false ->
                 filter (at_slot (N.ones k) (bkt (N.ones k) c)) (items id i cs) = []).
               { clear. induction cs as [|x cs IH]; intros i H; [reflexivity|]. cbn [existsb] in H. apply orb_false_elim in H as [H1 H2].
                 change (items id i (x :: cs)) with (((id, i), x) :: items id (S i) cs). cbn [filter]. unfold at_slot at 1. cbn [snd].
                 rewrite H1. auto. }
               now apply K. }
             rewrite !filter_app, Fz. cbn [filter]. unfold at_slot at 2. cbn [snd]. rewrite Nat.eqb_refl. rewrite app_nil_r, app_length. cbn [length].
             subst check. cbn [andb] in E. apply Nat.ltb_ge in E. lia.
        * destruct Hr as (Hc & c' & Hi & Hx). split; auto. exists c'. split; [now right|auto].
  Qed.

  (** ** All sets *)
  Definition sets_at (g : gs) (ids : list nat) (ss : list cset) : Prop := Forall2 (fun id s => get_set g id = Ok s) ids ss.
  Definition its (ids : list nat) (ss : list cset) : list (ptr * chal) :=
    flat_map (fun x => items (fst x) 0 (s_chals (snd x))) (combine ids ss).

  Lemma hash_sets_ok g k ids ss : sets_at g ids ss -> forall slots l, rep slots (N.ones k) l ->
    exists slots', hash_sets g (N.ones k) ids slots = Ok slots' /\ rep slots' (N.ones k) (l ++ its ids ss).
  Proof.
    induction 1 as [|id s ids ss E _ IH]; intros slots l R; cbn [hash_sets].
    - exists slots. cbn. rewrite app_nil_r. auto.
    - rewrite E. cbn [rbind]. destruct (hash_chals_ok false k id (s_chals s) 0 slots l R) as (r & E1 & Hr). rewrite E1. cbn [rbind].
      destruct r as [slots1|]; [|destruct Hr; discriminate]. destruct Hr as [R1 _].
      destruct (IH _ _ R1) as (slots' & E2 & R2). exists slots'. split; auto.
      unfold its in *. cbn [combine flat_map fst snd]. rewrite app_assoc. exact R2.
  Qed.
  Lemma count_sets_ok g ids ss : sets_at g ids ss -> count_sets g ids = Ok (N.of_nat (length (its ids ss))).
  Proof.
    induction 1 as [|id s ids ss E _ IH]; cbn [count_sets]; [reflexivity|]. rewrite E, IH. cbn [rbind].
    unfold its. cbn [combine flat_map fst snd]. rewrite app_length.
    assert (Hi : length (items id 0 (s_chals s)) = length (s_chals s)) by (unfold items; rewrite combine_length, map_length, seq_length; lia).
    f_equal. lia.
  Qed.

  Lemma its_snd ids ss : length ids = length ss -> map snd (its ids ss) = flat_map s_chals ss.
  Proof.
    unfold its. revert ss. induction ids as [|id ids IH]; intros [|s ss] L; try discriminate; auto.
    cbn [combine flat_map fst snd]. rewrite map_app. f_equal; [|apply IH; cbn in L; lia].
    unfold items. generalize 0. generalize (s_chals s). clear. induction l as [|c l IH]; intros i; [reflexivity|].
    cbn. f_equal. apply IH.
  Qed.
  Lemma items_nth id c : forall cs i p, In (p, c) (items id i cs) -> exists j, p = (id, i + j) /\ nth_error cs j = Some c.
  Proof.
    induction cs as [|x cs IH]; intros i p H; [easy|].
    change (items id i (x :: cs)) with (((id, i), x) :: items id (S i) cs) in H. destruct H as [H|H].
    - injection H as <- <-. exists 0. rewrite Nat.add_0_r. auto.
    - destruct (IH _ _ H) as (j & -> & E). exists (S j). split; [f_equal; lia|auto].
  Qed.
  Lemma its_deref g ids ss : sets_at g ids ss -> forall p c, In (p, c) (its ids ss) -> deref g p = Ok c /\ In (fst p) ids.
  Proof.
    intros H p c Hi. unfold its in Hi. apply in_flat_map in Hi as ([id s] & H1 & H2). cbn [fst snd] in H2.
    apply items_nth in H2 as (j & -> & E). cbn [fst]. split; [|eapply in_combine_l; eauto].
    assert (Eg : get_set g id = Ok s).
    { clear -H H1. induction H as [|i' s' ids ss E _ IH]; [easy|]. destruct H1 as [H1|H1]; [|auto]. injection H1 as <- <-. exact E. }
    unfold deref. cbn [fst snd]. rewrite Eg. cbn [rbind]. unfold rd. cbn. now rewrite E.
  Qed.

  (** a table as a reader finds it: the challenges it leads to, all of them in the sets [ids] *)
  Definition tgood (g : gs) (ids : list nat) (t : tbl) (cs : list chal) : Prop :=
    exists k l, t_mask t = N.ones k /\ rep (t_slots t) (t_mask t) l /\ map snd l = cs /\
      forall p c, In (p, c) l -> deref g p = Ok c /\ In (fst p) ids.
  Definition good (g : gs) (ids : list nat) (h : option nat) (cs : list chal) : Prop :=
    match h with
    | None => cs = []
    | Some i => exists t, get_tbl g i = Ok t /\ tgood g ids t cs
    end.

  Lemma total_zero (n : N) : (n =? 0)%N = true -> n = 0%N.
  Proof. apply N.eqb_eq. Qed.

  Lemma tbl_create_none g ids ss : sets_at g ids ss ->
    exists o, tbl_create g ids None = Ok o /\
    match o with None => flat_map s_chals ss = [] | Some t => tgood g ids t (flat_map s_chals ss) /\ flat_map s_chals ss <> [] end.
  Proof.
    intros H. unfold tbl_create. rewrite (count_sets_ok g ids ss H). cbn [rbind]. rewrite N.add_0_r.
    assert (L := Forall2_len _ _ _ H). assert (Es := its_snd ids ss L).
    destruct (N.of_nat (length (its ids ss)) =? 0)%N eqn:E.
    - exists None. split; auto. rewrite <- Es. apply N.eqb_eq in E. destruct (its ids ss); [reflexivity|discriminate].
    - rewrite count2mask_ones. set (k := N.succ _).
      destruct (hash_sets_ok g k ids ss H _ _ (rep_empty (N.ones k))) as (slots & E1 & R). rewrite E1. cbn [rbind].
      eexists. split; [reflexivity|]. split.
      + exists k, (its ids ss). split; [reflexivity|]. split; [exact R|]. split; [auto|]. now apply its_deref.
      + rewrite <- Es. apply N.eqb_neq in E. destruct (its ids ss); [now exfalso|discriminate].
  Qed.

  Lemma length_flat ids ss : length ids = length ss -> length (its ids ss) = length (flat_map s_chals ss).
  Proof. intros L. rewrite <- (its_snd ids ss L). now rewrite map_length. Qed.

  Lemma filter_snd mask j (l : list (ptr * chal)) :
    length (filter (at_slot mask j) l) = length (filter (fun c => bkt mask c =? j) (map snd l)).
  Proof. induction l as [|[p c] l IH]; cbn; auto. unfold at_slot at 1. cbn [snd]. destruct (_ =? _); cbn; auto. Qed.

  Lemma tbl_create_add g ids ss id s : sets_at g ids ss -> s_chals s <> [] ->
    let all := flat_map s_chals ss ++ s_chals s in
    let mask := count2mask (2 * N.of_nat (length all)) in
    exists o, tbl_create g ids (Some (id, s)) = Ok o /\
    match o with
    | None => exists j, 201 < length (filter (fun c => bkt mask c =? j) all)
    | Some t => (forall c, In c (s_chals s) -> length (filter (fun x => bkt mask x =? bkt mask c) all) <= 201) /\
        forall g', (forall i x, get_set g i = Ok x -> get_set g' i = Ok x) -> get_set g' id = Ok s -> tgood g' (ids ++ [id]) t all
    end.
  Proof.
    intros H Hne all mask. unfold tbl_create. rewrite (count_sets_ok g ids ss H). cbn [rbind].
    assert (L := Forall2_len _ _ _ H). assert (Es := its_snd ids ss L).
    set (total := (_ + _)%N). assert (Et : total = N.of_nat (length all)).
    { unfold total, all. rewrite length_flat by auto. rewrite app_length. lia. }
    destruct (total =? 0)%N eqn:E.
    { apply N.eqb_eq in E. rewrite Et in E. unfold all in E. rewrite app_length in E. destruct (s_chals s); [congruence|cbn in E; lia]. }
    rewrite Et. fold mask. assert (Em : mask = N.ones (N.succ (N.log2 (N.lor (2 * N.of_nat (length all)) 1)))) by (apply count2mask_ones).
    set (k := N.succ _) in Em. rewrite Em.
    destruct (hash_sets_ok g k ids ss H _ _ (rep_empty (N.ones k))) as (slots & E1 & R). rewrite E1. cbn [rbind app] in *.
    destruct (hash_chals_ok true k id (s_chals s) 0 slots _ R) as (r & E2 & Hr). rewrite E2. cbn [rbind].
    assert (Ei : map snd (items id 0 (s_chals s)) = s_chals s).
    { assert (X := its_snd [id] [s] eq_refl). unfold its in X. cbn in X. now rewrite !app_nil_r in X. }
    assert (Ea : map snd (its ids ss ++ items id 0 (s_chals s)) = all) by (rewrite map_app, Es, Ei; reflexivity).
    destruct r as [slots'|].
    - destruct Hr as [R' C]. eexists. split; [reflexivity|]. split.
      + intros c Hc. specialize (C eq_refl c Hc). rewrite filter_snd, Ea in C. exact C.
      + intros g' Hg Hid. exists k, (its ids ss ++ items id 0 (s_chals s)). split; [reflexivity|]. split; [exact R'|]. split; [exact Ea|].
        intros p c Hi. apply in_app_iff in Hi as [Hi|Hi].
        * apply (its_deref g ids ss H) in Hi as [D I]. split; [|apply in_app_iff; now left].
          unfold deref in *. destruct (get_set g (fst p)) eqn:Eg; [|discriminate]. rewrite (Hg _ _ Eg). exact D.
        * apply items_nth in Hi as (j & -> & Ej). cbn [fst]. split; [|apply in_app_iff; right; now left].
          unfold deref. cbn [fst snd]. rewrite Hid. cbn [rbind]. unfold rd. cbn. now rewrite Ej.
    - destruct Hr as (_ & c & Hc & Hx). exists None. split; auto. exists (bkt (N.ones k) c). rewrite filter_snd, Ea in Hx. exact Hx.
  Qed.

  (** ** Finding *)
  Lemma is_chal_ok n : struct_name n -> is_chal (dname n true) = Ok (fst (chal_q n)).
  Proof.
    intros H. unfold is_chal. assert (S0 := status_dname n true [] H). rewrite app_nil_r in S0. rewrite S0. cbn [rbind status_eqb negb rassert].
    assert (R0 := rd_dname0 n true []). rewrite app_nil_r in R0. rewrite R0. cbn [rbind].
    destruct n as [|l r]; [reflexivity|]. unfold chal_q, chal_name.
    destruct (16 <? N.of_nat (wire_len (l :: r)))%N eqn:E.
    - assert (R1 : rd (dname (l :: r) true) 1 = Ok (N.of_nat (length l))) by reflexivity. rewrite R1. cbn [rbind].
      destruct (N.of_nat (length l) =? 15)%N eqn:E15.
      + assert (R2 : rdn (dname (l :: r) true) 2 15 = Ok l).
        { unfold dname. cbn [wire_labels].
          replace (N.of_nat (length ((N.of_nat (length l) :: l ++ wire_labels r) ++ [term true])) :: (N.of_nat (length l) :: l ++ wire_labels r) ++ [term true])
            with ([N.of_nat (length ((N.of_nat (length l) :: l ++ wire_labels r) ++ [term true])); N.of_nat (length l)] ++ l ++ (wire_labels r ++ [term true])).
          - apply rdn_at; [reflexivity|]. apply N.eqb_eq in E15. lia.
          - cbn [app]. now rewrite <- app_assoc. }
        rewrite R2. cbn [rbind]. change acme_label with acme. destruct (bytes_eqb l acme); reflexivity.
      + destruct (bytes_eqb l acme) eqn:Ea; [|reflexivity]. apply bytes_eqb_iff in Ea. subst l. discriminate.
    - destruct (bytes_eqb l acme) eqn:Ea; [|reflexivity]. apply bytes_eqb_iff in Ea. subst l.
      rewrite wire_len_cons in E. apply N.ltb_ge in E. change (length acme) with 15 in E. pose proof (wire_len_pos r). lia.
  Qed.

  Lemma strip_ok r : struct_name (acme :: r) -> strip (dname (acme :: r) true) = Ok (dname r true).
  Proof.
    intros H. unfold strip. assert (R0 := rd_dname0 (acme :: r) true []). rewrite app_nil_r in R0. rewrite R0. cbn [rbind].
    rewrite Nat2N.id. assert (Rn : rdn (dname (acme :: r) true) 0 (wire_len (acme :: r) + 1) = Ok (dname (acme :: r) true)).
    { rewrite rdn_ok by (rewrite dname_length; lia). f_equal. apply sub_all. rewrite dname_length. lia. }
    rewrite Rn. cbn [rbind].
    assert (Ed : dname (acme :: r) true = (N.of_nat (wire_len (acme :: r)) :: firstn 15 (15%N :: acme)) ++ 101%N :: wire_labels r ++ [0%N]).
    { unfold dname. rewrite app_length, (wire_labels_len hash).
      replace (wire_len (acme :: r) - 1 + length [term true]) with (wire_len (acme :: r)) by (pose proof (wire_len_pos (acme :: r)); cbn [length]; lia).
      reflexivity. }
    rewrite Ed. change 16 with (length (N.of_nat (wire_len (acme :: r)) :: firstn 15 (15%N :: acme))) at 1.
    rewrite wr_mid. cbn [rbind]. f_equal.
    assert (Es : skipn 16 ((N.of_nat (wire_len (acme :: r)) :: firstn 15 (15%N :: acme)) ++ (N.of_nat (wire_len (acme :: r)) - 16)%N :: wire_labels r ++ [0%N])
      = (N.of_nat (wire_len (acme :: r)) - 16)%N :: wire_labels r ++ [0%N]) by reflexivity.
    rewrite Es. unfold dname. f_equal. rewrite app_length, (wire_labels_len hash), wire_len_cons. pose proof (wire_len_pos r). change (length acme) with 15. cbn [length]. lia.
  Qed.

  Lemma matches_ok g n k j : struct_name n ->
    let h := N.modulo (hash (wire_labels n)) two32 in
    j = N.to_nat (N.land h (N.ones k)) ->
    forall l acs, (forall p c, In (p, c) l -> deref g p = Ok c) -> map snd l = map mk acs -> Forall ok_chal acs ->
    matches g (dname n true) h (map fst (filter (at_slot (N.ones k) j) l)) = Ok (answers dns_ttl acs n).
  Proof.
    intros Hn h Hj. induction l as [|[p c] l IH]; intros acs Hd Em Ha.
    - destruct acs; [reflexivity|discriminate].
    - destruct acs as [|a acs]; [discriminate|]. cbn in Em. injection Em as Ec Em. inversion Ha as [|? ? [Hs Ht] Ha']; subst.
      assert (IH' := IH acs ltac:(intros; apply Hd; now right) Em Ha').
      assert (Dp : deref g p = Ok (mk a)) by (apply Hd; now left).
      destruct (C03_cmp_is_equality n true [] (a_name a) true [] Hn Hs) as (b & Eb & Hb). rewrite !app_nil_r in Eb.
      assert (Ean : answers dns_ttl (a :: acs) n = if same_name n a then txt_rr dns_ttl a :: answers dns_ttl acs n else answers dns_ttl acs n).
      { unfold answers. cbn [filter]. now destruct (same_name n a). }
      rewrite Ean. unfold same_name. cbn [filter]. unfold at_slot at 1. cbn [snd].
      destruct (list_eq_dec (list_eq_dec N.eq_dec) (a_name a) n) as [En|En].
      + assert (c_hash (mk a) = h) by (cbn; now rewrite En).
        assert (bkt (N.ones k) (mk a) =? N.to_nat (N.land h (N.ones k)) = true) by (apply Nat.eqb_eq; unfold bkt; now rewrite H).
        rewrite H0. cbn [map fst matches]. rewrite Dp. cbn [rbind]. rewrite H, N.eqb_refl. cbn [c_dname ChalProofs.mk]. rewrite Eb. cbn [rbind].
        rewrite IH'. cbn [rbind]. destruct b; [reflexivity|]. assert (false = true) by (apply Hb; auto). discriminate.
      + destruct (bkt _ _ =? _); [|exact IH'].
        cbn [map fst matches]. rewrite Dp. cbn [rbind].
        assert (b = false) by (destruct b; auto; exfalso; apply En; symmetry; now apply Hb). subst b.
        destruct (c_hash (mk a) =? h)%N; [cbn [c_dname ChalProofs.mk]; rewrite Eb|]; cbn [rbind]; rewrite IH'; reflexivity.
  Qed.

  Lemma find_ok g ids h acs n : good g ids h (map mk acs) -> Forall ok_chal acs -> struct_name n ->
    chal_find hash g h (dname n true) = Ok (fst (chal_q n), answers dns_ttl acs (snd (chal_q n))).
  Proof.
    intros G Ha Hn. unfold chal_find. rewrite is_chal_ok by auto. cbn [rbind].
    destruct h as [i|].
    - destruct G as (t & Et & k & l & Em & R & Es & Hd).
      assert (Eq : (if fst (chal_q n) then strip (dname n true) else Ok (dname n true)) = Ok (dname (snd (chal_q n)) true) /\ struct_name (snd (chal_q n))).
      { unfold chal_q, chal_name. destruct n as [|l0 r]; [auto|]. destruct (bytes_eqb l0 acme) eqn:E; cbn [fst snd]; auto.
        apply bytes_eqb_iff in E. subst l0. split; [now apply strip_ok|]. destruct Hn as [F L]. inversion F; subst. split; auto.
        rewrite wire_len_cons in L. lia. }
      destruct Eq as [Eq Hq]. rewrite Eq. cbn [rbind]. assert (Eh := dname_hash_ok hash (snd (chal_q n)) []). rewrite app_nil_r in Eh. rewrite Eh. cbn [rbind].
      rewrite Et. cbn [rbind]. destruct R as [L R]. rewrite Em in *.
      set (hh := N.modulo _ two32). set (j := N.to_nat (N.land hh (N.ones k))).
      assert (Hj : j < length (t_slots t)).
      { rewrite L. unfold j. apply (bkt_lt k {| c_hash := hh; c_dname := []; c_txt := [] |}). }
      unfold rd. rewrite (R j Hj). cbn [rbind].
      assert (X := matches_ok g (snd (chal_q n)) k j Hq eq_refl l acs (fun p c Hi => proj1 (Hd p c Hi)) Es Ha). cbv zeta in X. fold hh in X.
      rewrite X. reflexivity.
    - cbn in G. destruct acs; [|discriminate]. reflexivity.
  Qed.
End Tables.
