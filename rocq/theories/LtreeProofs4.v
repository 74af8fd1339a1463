(** Adding a record changes the sets at one name only. *)
From Coq Require Import Sorting.Permutation.
From Verif Require Import Base DnameModel RandModel CompModel RespModel LtreeModel LtreeProofs LtreeProofs2 LtreeProofs3.
Local Open Scope N_scope.
Ltac Zify.zify_post_hook ::= idtac.

Section Rec.
  Variable cfg : zcfg.
  Variable pl : plugins.
  Variable hash : list N -> N.
  Variable zname : name.
  Hypothesis hash64 : forall l, hash l < W64.

  (** where a record goes *)
  Definition opath (r : record) : name :=
    match r with
    | AA d _ _ ooz | AAaaa d _ _ ooz => if ooz then [wire d; []] else d
    | ASoa d _ _ _ _ _ _ _ _ | ADyna d _ _ _ | ACname d _ _ | ADync d _ _ _ | APtr d _ _ | ANs d _ _ | AMx d _ _ _
    | ASrv d _ _ _ _ _ | ANaptr d _ _ _ _ _ | ATxt d _ _ | AOther d _ _ _ => d
    end.
  Definition ns_below (r : record) : bool := match r with ANs (_ :: _) _ _ => true | _ => false end.

  (** the list part of [insert_next_rr] *)
  Definition next_rr (sets : list rrset) (t ttl : N) (first : rrset) (ext : rrset -> option (N * nat * rrset)) : zres (list rrset) :=
    match get_rrset sets t with
    | None => Ok (Some (sets ++ [first]))
    | Some r =>
        match ext r with
        | None => UB
        | Some (t0, count, r') => zwarn_if cfg (negb (t0 =? ttl)) (if (count =? UINT16_MAX)%nat then zfatal else Ok (Some (put_rrset sets t r')))
        end
    end.

  (** what a record does to the sets of its name *)
  Definition rec_sets (r : record) (sets : list rrset) : zres (list rrset) :=
    match r with
    | ASoa d m rn ttl serial refresh retry expire ncache =>
        let big := z_max_ncache_ttl cfg <? ncache in
        let small := ncache <? z_min_ttl cfg in
        zwarn_if cfg (big || small)
          (let ncache := if big then z_max_ncache_ttl cfg else if small then z_min_ttl cfg else ncache in
           let tbig := ncache <? ttl in
           let tsmall := ttl <? z_min_ttl cfg in
           zwarn_if cfg (tbig || tsmall)
             (let ttl := if tbig then ncache else if tsmall then z_min_ttl cfg else ttl in
              rassert (match d with [] => true | _ => false end)
                match get_rrset sets T_SOA with
                | Some _ => zfatal
                | None => Ok (Some (sets ++ [RsSOA ttl m rn (be32 serial ++ be32 refresh ++ be32 retry ++ be32 expire ++ be32 ncache)]))
                end))
    | AA d a ttl ooz =>
        zwarn_if cfg ooz
          (let ttl := clamp_ttl cfg ttl in
           match get_rrset sets T_A with
           | None => Ok (Some (sets ++ [RsA ttl [a]]))
           | Some (RsADyn _ _ _) => zfatal
           | Some (RsA t addrs) =>
               zwarn_if cfg (negb (t =? ttl)) (if (length addrs =? UINT16_MAX)%nat then zfatal else Ok (Some (put_rrset sets T_A (RsA t (addrs ++ [a])))))
           | Some _ => UB
           end)
    | AAaaa d a ttl ooz =>
        zwarn_if cfg ooz
          (let ttl := clamp_ttl cfg ttl in
           match get_rrset sets T_AAAA with
           | None => Ok (Some (sets ++ [RsAAAA ttl [a]]))
           | Some (RsAAAADyn _ _ _) => zfatal
           | Some (RsAAAA t addrs) =>
               zwarn_if cfg (negb (t =? ttl)) (if (length addrs =? UINT16_MAX)%nat then zfatal else Ok (Some (put_rrset sets T_AAAA (RsAAAA t (addrs ++ [a])))))
           | Some _ => UB
           end)
    | ADyna d rhs ttl ttl_min =>
        match get_rrset sets T_A, get_rrset sets T_AAAA with
        | None, None =>
            let ttl := clamp_ttl cfg ttl in
            clamp_min cfg ttl ttl_min (fun ttl_min =>
              zdo r <- find_resource pl rhs None ; Ok (Some (sets ++ [RsADyn ttl ttl_min r; RsAAAADyn ttl ttl_min r])))
        | _, _ => zfatal
        end
    | ACname d rhs ttl => match sets with _ :: _ => zfatal | [] => Ok (Some [RsCNAME (clamp_ttl cfg ttl) rhs]) end
    | ADync d rhs ttl ttl_min =>
        let ttl := clamp_ttl cfg ttl in
        clamp_min cfg ttl ttl_min (fun ttl_min =>
          match sets with
          | _ :: _ => zfatal
          | [] => zdo r <- find_resource pl rhs (Some zname) ; Ok (Some [RsDYNC ttl ttl_min r])
          end)
    | APtr d rhs ttl =>
        let ttl := clamp_ttl cfg ttl in
        zdo sets <- next_rr sets T_PTR ttl (RsPTR ttl [rhs])
                      (fun r => match r with RsPTR t rd => Some (t, length rd, RsPTR t (rd ++ [rhs])) | _ => None end) ;
        zwarn_if cfg (isinzone zname rhs) (Ok (Some sets))
    | ANs d rhs ttl =>
        if match d with [42] :: _ => true | _ => false end then zfatal
        else
          let ttl := clamp_ttl cfg ttl in
          zdo sets <- next_rr sets T_NS ttl (RsNS ttl [(rhs, None, None)])
                        (fun r => match r with RsNS t rd => Some (t, length rd, RsNS t (rd ++ [(rhs, None, None)])) | _ => None end) ;
          if (MAX_NS_COUNT <? match get_rrset sets T_NS with Some (RsNS _ rd) => length rd | _ => 0 end)%nat then zfatal else Ok (Some sets)
    | AMx d rhs ttl pref =>
        if 65535 <? pref then zfatal
        else let ttl := clamp_ttl cfg ttl in
             next_rr sets T_MX ttl (RsMX ttl [(pref, rhs)])
               (fun r => match r with RsMX t rd => Some (t, length rd, RsMX t (rd ++ [(pref, rhs)])) | _ => None end)
    | ASrv d rhs ttl priority weight port =>
        if (65535 <? priority) || (65535 <? weight) || (65535 <? port) then zfatal
        else let ttl := clamp_ttl cfg ttl in
             next_rr sets T_SRV ttl (RsSRV ttl [(priority, weight, port, rhs)])
               (fun r => match r with RsSRV t rd => Some (t, length rd, RsSRV t (rd ++ [(priority, weight, port, rhs)])) | _ => None end)
    | ANaptr d rhs ttl order pref text =>
        if (65535 <? order) || (65535 <? pref) then zfatal
        else let ttl := clamp_ttl cfg ttl in
             let x := (order, pref, firstn (N.to_nat (N.of_nat (length text) mod 65536)) text, rhs) in
             next_rr sets T_NAPTR ttl (RsNAPTR ttl [x])
               (fun r => match r with RsNAPTR t rd => Some (t, length rd, RsNAPTR t (rd ++ [x])) | _ => None end)
    | ATxt d text ttl =>
        let go ttl :=
          next_rr sets T_TXT ttl (RsTXT ttl [text])
            (fun r => match r with RsTXT t rd => Some (t, length rd, RsTXT t (rd ++ [text])) | _ => None end) in
        if is_acme d then zwarn_if cfg (negb (ttl =? z_acme_ttl cfg)) (go (z_acme_ttl cfg)) else go (clamp_ttl cfg ttl)
    | AOther d rrtype ttl rd =>
        if existsb (N.eqb rrtype) [T_A; T_AAAA; T_SOA; T_CNAME; T_NS; T_PTR; T_MX; T_SRV; T_NAPTR; T_TXT] then zfatal
        else if (rrtype =? 13) || (rrtype =? T_DYNC) || ((127 <? rrtype) && (rrtype <? 256)) || (rrtype =? 0) then zfatal
        else
          let ttl := clamp_ttl cfg ttl in
          let x := firstn (N.to_nat (N.of_nat (length rd) mod 65536)) rd in
          next_rr sets rrtype ttl (RsOther (rrtype mod 65536) ttl [x])
            (fun r => match r with RsOther ty t l => Some (t, length l, RsOther ty t (l ++ [x])) | _ => None end)
    end.

  Definition node_sets (r : record) (n : lnode) (sets : list rrset) : lnode :=
    set_rrsets (if ns_below r then set_zcut n else n) sets.

  Lemma set_set n a b : set_rrsets (set_rrsets n a) b = set_rrsets n b.
  Proof. destruct n; reflexivity. Qed.
  Lemma zwarn_if_bind {X Y} c (k : zres X) (f : X -> zres Y) : zbind (zwarn_if cfg c k) f = zwarn_if cfg c (zbind k f).
  Proof. unfold zwarn_if, zwarn. destruct c; [destruct (z_strict cfg); reflexivity|reflexivity]. Qed.

  (** the function applied to a node, as a function on its sets *)
  Definition lift (r : record) (n : lnode) (x : zres (list rrset)) : zres lnode :=
    zdo sets <- x ; Ok (Some (node_sets r n sets)).

  Lemma set_rrsets_same_caf n sets : l_caf (set_rrsets n sets) = l_caf n.
  Proof. destruct n; reflexivity. Qed.
  Lemma set_rrsets_table n sets : l_table (set_rrsets n sets) = l_table n.
  Proof. destruct n; reflexivity. Qed.
  Lemma set_zcut_table n : l_table (set_zcut n) = l_table n.
  Proof. destruct n; reflexivity. Qed.
  Lemma node_sets_table r n sets : l_table (node_sets r n sets) = l_table n.
  Proof. unfold node_sets. rewrite set_rrsets_table. destruct (ns_below r); [apply set_zcut_table|reflexivity]. Qed.
  Lemma node_sets_label r n sets : l_label (node_sets r n sets) = l_label n.
  Proof. unfold node_sets. destruct (ns_below r), n; reflexivity. Qed.
  Lemma node_sets_rrsets r n sets : l_rrsets (node_sets r n sets) = sets.
  Proof. unfold node_sets. destruct (ns_below r), n; reflexivity. Qed.
  Lemma node_sets_good b r n sets : good hash b n -> good hash b (node_sets r n sets).
  Proof.
    intros G. destruct G as [cc z E C1 C2 T KL K].
    assert (KE : kids (node_sets r n sets) = kids n) by (unfold kids; now rewrite node_sets_table).
    apply (Good hash b _ cc (z || ns_below r)); auto.
    - unfold node_sets. rewrite set_rrsets_same_caf. destruct (ns_below r).
      + unfold set_zcut. assert (l_caf (set_caf n (N.lor (l_caf n) (2 ^ 63))) = N.lor (l_caf n) (2 ^ 63)) as -> by (destruct n; reflexivity).
        rewrite E, caf_set by exact C2. now rewrite orb_true_r.
      + now rewrite orb_false_r.
    - now rewrite node_sets_table.
    - now rewrite KE.
    - now rewrite KE.
  Qed.
  Lemma node_sets_zcut b r n sets : good hash b n -> get_zcut (node_sets r n sets) = get_zcut n || ns_below r.
  Proof.
    intros G. destruct (good_count hash b n G) as (cc & z & E & _ & Z & _ & C2 & _). unfold get_zcut in *.
    unfold node_sets. rewrite set_rrsets_same_caf. destruct (ns_below r); [|now rewrite orb_false_r].
    unfold set_zcut. assert (l_caf (set_caf n (N.lor (l_caf n) (2 ^ 63))) = N.lor (l_caf n) (2 ^ 63)) as -> by (destruct n; reflexivity).
    rewrite E, caf_set, !caf_zcut by exact C2. now rewrite orb_true_r.
  Qed.

  Lemma insert_next_lift r n t ttl first ext : ns_below r = false ->
    insert_next_rr cfg n t ttl first ext = lift r n (next_rr (l_rrsets n) t ttl first ext).
  Proof.
    intros NB. unfold insert_next_rr, next_rr, lift, node_sets. rewrite NB. destruct (get_rrset (l_rrsets n) t) as [x|]; [|reflexivity].
    destruct (ext x) as [[[t0 count] r']|]; [|reflexivity]. rewrite zwarn_if_bind. f_equal. now destruct (count =? UINT16_MAX)%nat.
  Qed.

  (** [out]: the outcome of adding a record that turns the sets of its name into [x] *)
  Definition added (b : N) (root : lnode) (r : record) (x : zres (list rrset)) (out : zres lnode) : Prop :=
    let s := rev (opath r) in
    match x with
    | UB => out = UB
    | Ok None => out = Ok None
    | Ok (Some sets) => exists root', out = Ok (Some root') /\ good hash (b + 1) root' /\ l_label root' = l_label root /\
        (forall x, walk root' (s ++ x) = walk (node_sets r (target root s) sets) x) /\
        (forall s1 s2, s = s1 ++ s2 -> s2 <> [] -> exists m, walk root' s1 = Some m /\ l_rrsets m = l_rrsets (target root s1) /\ get_zcut m = get_zcut (target root s1) /\ l_label m = l_label (target root s1)) /\
        (forall s', ~ prefix s s' -> ~ prefix s' s -> walk root' s' = walk root s')
    end.
  Lemma added_warn b root r c x out : added b root r x out -> added b root r (zwarn_if cfg c x) (zwarn_if cfg c out).
  Proof. intros H. unfold zwarn_if, zwarn. destruct c; [|exact H]. destruct (z_strict cfg); [reflexivity|exact H]. Qed.
  Lemma added_path b root r s f x : good hash b root -> b + 1 < 2 ^ 62 -> s = rev (opath r) -> f (target root s) = lift r (target root s) x ->
    added b root r x (find_or_add_path hash root s f).
  Proof.
    intros G B -> F. pose proof (find_or_add_path_ok hash hash64 b (rev (opath r)) f root G B) as H. rewrite F in H. unfold lift, zbind in H.
    unfold added. destruct x as [[sets|]|]; cbn [rbind] in H.
    - destruct H as (root' & E & G' & L' & W1 & W2 & W3).
      + intros c' E. injection E as <-. split; [apply node_sets_label|]. apply node_sets_good. apply (good_mono hash b); [apply target_good; auto|apply N.le_add_r].
      + exists root'. auto 7.
    - apply H. discriminate.
    - apply H. discriminate.
  Qed.
  Lemma lift_eq r n x : ns_below r = false -> lift r n x = zdo sets <- x ; Ok (Some (set_rrsets n sets)).
  Proof. intros E. unfold lift, node_sets. now rewrite E. Qed.
  Lemma zbind_warn_in {X Y} c (k : zres X) (f : X -> zres Y) : zwarn_if cfg c (zbind k f) = zbind (zwarn_if cfg c k) f.
  Proof. symmetry. apply zwarn_if_bind. Qed.

  Lemma target_label_ok b : forall s root d, good hash b root -> s <> [] -> l_label (target root s) = Some (last s d).
  Proof.
    induction s as [|l s IH]; intros root d G NE; [congruence|]. cbn [target].
    set (c0 := match child root l with Some c => c | None => fresh l end).
    assert (G0 : good hash b c0 /\ l_label c0 = Some l).
    { unfold c0. destruct (child root l) as [c|] eqn:E.
      - apply (child_in hash b root l c G) in E. split; [now apply (good_kid hash b root c G)|apply E].
      - split; [now apply good_fresh|reflexivity]. }
    destruct G0 as [G0 L0]. destruct s as [|l' s]; [exact L0|]. rewrite last_cons. apply IH; [exact G0|discriminate].
  Qed.
  Lemma last_rev_hd (d : name) l x : last (rev (l :: d)) x = l.
  Proof. cbn [rev]. apply last_last. Qed.

  Lemma add_rec_ok b root r : good hash b root -> b + 1 < 2 ^ 62 ->
    added b root r (rec_sets r (l_rrsets (target root (rev (opath r))))) (add_rec cfg pl hash zname root r).
  Proof.
    intros G B. destruct r; cbn [add_rec rec_sets]; unfold add_rec_soa, add_rec_a, add_rec_aaaa, add_rec_dynaddr, add_rec_cname, add_rec_dync,
      add_rec_ptr, add_rec_ns, add_rec_mx, add_rec_srv, add_rec_naptr, add_rec_txt, add_rec_rfc3597, clamp_min, find_or_add_dname.
    - cbn zeta. apply added_warn, added_warn. apply added_path; auto. cbn [opath].
      set (n := target root (rev dname)). rewrite lift_eq by reflexivity. unfold add_rrset, rassert, zbind, rbind.
      destruct dname; [|reflexivity]. now destruct (get_rrset (l_rrsets n) T_SOA).
    - unfold addr_node. destruct ooz; cbn [opath].
      + change (zwarn cfg ?x) with (zwarn_if cfg true x). apply added_warn.
        change (find_or_add_child hash root ooz_glue_label (fun o => find_or_add_child hash o (dname_label dname) ?f)) with (find_or_add_path hash root (rev [wire dname; []]) f).
        apply added_path; auto. set (n := target root _). rewrite lift_eq by reflexivity. cbn zeta.
        destruct (get_rrset (l_rrsets n) T_A) as [[]|]; try reflexivity. rewrite zwarn_if_bind. now destruct (_ =? UINT16_MAX)%nat.
      + cbn [zwarn_if]. apply added_path; auto. cbn [opath]. set (n := target root _). rewrite lift_eq by reflexivity. cbn zeta.
        destruct (get_rrset (l_rrsets n) T_A) as [[]|]; try reflexivity. rewrite zwarn_if_bind. now destruct (_ =? UINT16_MAX)%nat.
    - unfold addr_node. destruct ooz; cbn [opath].
      + change (zwarn cfg ?x) with (zwarn_if cfg true x). apply added_warn.
        change (find_or_add_child hash root ooz_glue_label (fun o => find_or_add_child hash o (dname_label dname) ?f)) with (find_or_add_path hash root (rev [wire dname; []]) f).
        apply added_path; auto. set (n := target root _). rewrite lift_eq by reflexivity. cbn zeta.
        destruct (get_rrset (l_rrsets n) T_AAAA) as [[]|]; try reflexivity. rewrite zwarn_if_bind. now destruct (_ =? UINT16_MAX)%nat.
      + cbn [zwarn_if]. apply added_path; auto. cbn [opath]. set (n := target root _). rewrite lift_eq by reflexivity. cbn zeta.
        destruct (get_rrset (l_rrsets n) T_AAAA) as [[]|]; try reflexivity. rewrite zwarn_if_bind. now destruct (_ =? UINT16_MAX)%nat.
    - apply added_path; auto. cbn [opath]. set (n := target root _). rewrite lift_eq by reflexivity. cbn zeta.
      destruct (get_rrset (l_rrsets n) T_A), (get_rrset (l_rrsets n) T_AAAA); try reflexivity.
      rewrite !zwarn_if_bind. f_equal. f_equal. unfold zbind. destruct (find_resource pl rhs None) as [[x|]|]; cbn [rbind]; try reflexivity.
      unfold add_rrset. rewrite set_set. destruct n; cbn [set_rrsets l_rrsets]. now rewrite <- app_assoc.
    - cbn zeta. apply added_path; auto. cbn [opath]. set (n := target root _). rewrite lift_eq by reflexivity.
      destruct (l_rrsets n) eqn:E; [|reflexivity]. unfold add_rrset. now rewrite E.
    - cbn zeta. apply added_warn, added_warn. apply added_path; auto. cbn [opath]. set (n := target root _). rewrite lift_eq by reflexivity.
      destruct (l_rrsets n) eqn:E; [|reflexivity]. unfold zbind. destruct (find_resource pl rhs (Some zname)) as [[x|]|]; cbn [rbind]; try reflexivity.
      unfold add_rrset. now rewrite E.
    - apply added_path; auto. cbn [opath]. set (n := target root _). cbn zeta. rewrite (insert_next_lift (APtr dname rhs ttl)) by reflexivity.
      rewrite !lift_eq by reflexivity. unfold zbind. destruct (next_rr _ _ _ _ _) as [[x|]|]; cbn [rbind]; try reflexivity. unfold zwarn_if, zwarn.
      destruct (isinzone zname rhs), (z_strict cfg); reflexivity.
    - apply added_path; auto. cbn [opath]. set (n := target root _). cbn zeta.
      assert (W : (match dname with [] => false | _ => true end) && is_wild (l_label (if match dname with [] => false | _ => true end then set_zcut n else n)) = match dname with [42] :: _ => true | _ => false end).
      { destruct dname as [|l d]; [reflexivity|]. cbn [andb]. assert (LE : l_label (set_zcut n) = Some l).
        { assert (l_label (set_zcut n) = l_label n) as -> by (destruct n; reflexivity). unfold n. rewrite (target_label_ok b _ _ []); auto.
          - now rewrite last_rev_hd.
          - cbn. intros X. apply app_eq_nil in X. now destruct X. }
        rewrite LE. reflexivity. }
      rewrite W. set (n2 := if match dname with [] => false | _ => true end then set_zcut n else n).
      assert (N2 : l_rrsets n2 = l_rrsets n) by (unfold n2; destruct dname, n; reflexivity).
      destruct (match dname with [42] :: _ => true | _ => false end); [reflexivity|].
      unfold insert_next_rr, next_rr, lift, zbind, node_sets, ns_count. rewrite N2.
      assert (NB : (if ns_below (ANs dname rhs ttl) then set_zcut n else n) = n2) by (unfold n2; destruct dname; reflexivity). rewrite NB.
      assert (RR : forall x, l_rrsets (set_rrsets n2 x) = x) by (intros; destruct n2; reflexivity).
      destruct (get_rrset (l_rrsets n) T_NS) as [x|].
      + destruct x; try reflexivity. unfold zwarn_if, zwarn. destruct (negb _), (z_strict cfg), (length rd =? UINT16_MAX)%nat; cbn [rbind]; try reflexivity; rewrite RR; now destruct (_ <? _)%nat.
      + cbn [rbind]. unfold add_rrset. rewrite RR, N2. now destruct (_ <? _)%nat.
    - destruct (65535 <? pref); [reflexivity|]. apply added_path; auto. apply insert_next_lift. reflexivity.
    - destruct ((65535 <? priority) || (65535 <? weight) || (65535 <? port)); [reflexivity|]. apply added_path; auto. apply insert_next_lift. reflexivity.
    - destruct ((65535 <? order) || (65535 <? pref)); [reflexivity|]. apply added_path; auto. apply insert_next_lift. reflexivity.
    - apply added_path; auto. cbn [opath]. destruct (is_acme dname).
      + rewrite lift_eq by reflexivity. rewrite zwarn_if_bind. f_equal. rewrite (insert_next_lift (ATxt dname text ttl)) by reflexivity. rewrite lift_eq by reflexivity. reflexivity.
      + apply insert_next_lift. reflexivity.
    - apply added_path; auto. cbn [opath]. destruct (existsb _ _); [reflexivity|]. destruct (_ || _); [reflexivity|]. apply insert_next_lift. reflexivity.
  Qed.
End Rec.
