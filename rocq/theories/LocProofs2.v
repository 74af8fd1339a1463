(** The map of places. *)
From Coq Require Import Permutation Sorted.
From Verif Require Import Base LocModel LocSpec LocProofs.
Set Implicit Arguments.

Scheme mapcfg_mut := Induction for mapcfg Sort Prop with entries_mut := Induction for entries Sort Prop.
Combined Scheme map_ind2 from mapcfg_mut, entries_mut.

Definition num_ok (d : dclists) (n : num) (r : option (list nat)) : Prop :=
  match n, r with Auto, None => True | Num i, Some l => nth_error d i = Some l | _, _ => False end.
Lemma num_mono d t n r : num_ok d n r -> num_ok (d ++ t) n r.
Proof. destruct n as [i|], r as [l|]; cbn; auto. intros E. rewrite nth_error_app1; [exact E|]. apply nth_error_Some. congruence. Qed.

Section Map.
  Variables P D : Type.
  Variables (geodist : P -> P -> D) (ltb : D -> D -> bool).
  Hypothesis ord : orders ltb.
  Variable info : dcinfo P.
  Variable auto : bool.

  Definition mine (def : option (list name)) (inh : option (list nat)) : option (list nat) := match def with Some l => rule_of info auto l | None => inh end.
  Fixpoint rep (d : dclists) (m : mapcfg) (inh : option (list nat)) (dm : dcmap) : Prop :=
    match m, dm with Hash def es, DMap dn cs => num_ok d dn (mine def inh) /\ rep_es d es (mine def inh) cs end
  with rep_es (d : dclists) (es : entries) (my : option (list nat)) (cs : children) : Prop :=
    match es, cs with
    | ENone, KNone => True
    | EList n l es, KList k i cs => n = k /\ num_ok d i (rule_of info auto l) /\ rep_es d es my cs
    | ESub n m es, KMap k dm cs => n = k /\ rep d m my dm /\ rep_es d es my cs
    | _, _ => False
    end.
  Lemma rep_mono d t : (forall m inh dm, rep d m inh dm -> rep (d ++ t) m inh dm) /\ (forall es my cs, rep_es d es my cs -> rep_es (d ++ t) es my cs).
  Proof.
    apply map_ind2.
    - intros def es IH inh [dn cs] [A B]. split; [now apply num_mono|auto].
    - intros my [| |] H; exact H.
    - intros n l es IH my [|k i cs|k m cs] H; try exact H. destruct H as (A & B & C). split; [exact A|]. split; [now apply num_mono|auto].
    - intros n m IHm es IH my [|k i cs|k dm cs] H; try exact H. destruct H as (A & B & C). split; [exact A|]. split; auto.
  Qed.

  Lemma xlate_names_ok l : forall i r, xlate_names info l i = Ok (Some r) -> r = numbers info l.
  Proof.
    induction l as [|n l IH]; intros i r E; cbn [xlate_names] in E.
    - unfold rassert in E. destruct (i <? 256); [now injection E as <-|discriminate].
    - unfold numbers. cbn [map]. destruct (name2num info n) as [|x] eqn:EN; [discriminate|]. unfold rassert in E. destruct (i <? 256); [|discriminate].
      destruct (xlate_names info l (S i)) as [[r'|]|] eqn:E1; cbn [rbind] in E; try discriminate. injection E as <-. now rewrite (IH _ _ E1).
  Qed.
  Lemma xlate_ok l o : xlate info l auto = Ok (Some o) -> o = rule_of info auto l.
  Proof.
    unfold xlate, rule_of.
    replace ((length l =? 1) && auto && match l with [n] => name_eqb n auto_name | _ => false end) with (auto && match l with [n] => name_eqb n auto_name | _ => false end) by (destruct l as [|a [|b l]]; cbn; rewrite ?andb_false_r; reflexivity).
    destruct (auto && _); [now intros [= <-]|]. destruct (xlate_names info l 0) as [[r|]|] eqn:E; cbn [rbind]; try discriminate. intros [= <-]. now rewrite (xlate_names_ok _ _ E).
  Qed.
  Lemma find_or_add_cfg_ok d l i d' : find_or_add_cfg info d l auto = Ok (Some (i, d')) -> exists t, d' = d ++ t /\ num_ok d' i (rule_of info auto l).
  Proof.
    unfold find_or_add_cfg. destruct (xlate info l auto) as [[o|]|] eqn:E; cbn [rbind]; try discriminate. apply xlate_ok in E. rewrite <- E. destruct o as [r|].
    - destruct (find_or_add_ok d r) as (j & t & -> & EN). intros [= <- <-]. exists t. now split.
    - intros [= <- <-]. exists []. now rewrite app_nil_r.
  Qed.

  Lemma dcmap_new_eq def es d parent depth : dcmap_new info auto (Hash def es) d parent depth =
    do o <- match def with
            | Some l =>
                if depth =? 0 then
                  do x <- xlate info l auto;
                  match x with
                  | None => Ok None
                  | Some None => Ok (Some (Auto, d))
                  | Some (Some r) => Ok (Some (Num 0, upd d 0 r))
                  end
                else find_or_add_cfg info d l auto
            | None => Ok (Some ((if depth =? 0 then (if auto then Auto else Num 0) else parent), d))
            end;
    match o with
    | None => Ok None
    | Some (def, d) => do o <- new_entries info auto es d def depth; Ok (match o with Some (cs, d) => Some (DMap def cs, d) | None => None end)
    end.
  Proof. reflexivity. Qed.
  Lemma new_list_eq n l es d def depth : new_entries info auto (EList n l es) d def depth =
    do o <- find_or_add_cfg info d l auto;
    match o with
    | None => Ok None
    | Some (i, d) => do r <- new_entries info auto es d def depth; Ok (match r with Some (cs, d) => Some (KList n i cs, d) | None => None end)
    end.
  Proof. reflexivity. Qed.
  Lemma new_sub_eq n m es d def depth : new_entries info auto (ESub n m es) d def depth =
    do o <- dcmap_new info auto m d def (S depth);
    match o with
    | None => Ok None
    | Some (m, d) => do r <- new_entries info auto es d def depth; Ok (match r with Some (cs, d) => Some (KMap n m cs, d) | None => None end)
    end.
  Proof. reflexivity. Qed.

  Lemma dcmap_new_ok :
    (forall m d parent depth dm d' inh, num_ok d parent inh -> dcmap_new info auto m d parent (S depth) = Ok (Some (dm, d')) -> exists t, d' = d ++ t /\ rep d' m inh dm) /\
    (forall es d def depth cs d' my, num_ok d def my -> new_entries info auto es d def depth = Ok (Some (cs, d')) -> exists t, d' = d ++ t /\ rep_es d' es my cs).
  Proof.
    apply map_ind2.
    - intros def es IH d parent depth dm d' inh NP E. rewrite dcmap_new_eq in E. cbn [Nat.eqb] in E.
      destruct (match def with Some l => _ | None => _ end) as [[[dn d1]|]|] eqn:E1; cbn [rbind] in E; try discriminate.
      assert (H : exists t, d1 = d ++ t /\ num_ok d1 dn (mine def inh)).
      { destruct def as [l|]; [now apply find_or_add_cfg_ok in E1|]. injection E1 as <- <-. exists []. now rewrite app_nil_r. }
      destruct H as (t & -> & ND). destruct (new_entries info auto es (d ++ t) dn (S depth)) as [[[cs d2]|]|] eqn:E2; cbn [rbind] in E; try discriminate. injection E as <- <-.
      destruct (IH _ _ _ _ _ _ ND E2) as (t2 & -> & RE). exists (t ++ t2). rewrite app_assoc. split; [reflexivity|]. split; [now apply num_mono|exact RE].
    - intros d def depth cs d' my ND E. cbn [new_entries] in E. injection E as <- <-. exists []. now rewrite app_nil_r.
    - intros n l es IH d def depth cs d' my ND E. rewrite new_list_eq in E. destruct (find_or_add_cfg info d l auto) as [[[i d1]|]|] eqn:E1; cbn [rbind] in E; try discriminate.
      apply find_or_add_cfg_ok in E1. destruct E1 as (t & -> & NI). destruct (new_entries info auto es (d ++ t) def depth) as [[[cs' d2]|]|] eqn:E2; cbn [rbind] in E; try discriminate. injection E as <- <-.
      destruct (IH _ _ _ _ _ my (num_mono _ _ _ _ ND) E2) as (t2 & -> & RE). exists (t ++ t2). rewrite app_assoc. split; [reflexivity|]. split; [reflexivity|]. split; [now apply num_mono|exact RE].
    - intros n m IHm es IH d def depth cs d' my ND E. rewrite new_sub_eq in E. destruct (dcmap_new info auto m d def (S depth)) as [[[dm d1]|]|] eqn:E1; cbn [rbind] in E; try discriminate.
      destruct (IHm _ _ _ _ _ _ ND E1) as (t & -> & RM). destruct (new_entries info auto es (d ++ t) def depth) as [[[cs' d2]|]|] eqn:E2; cbn [rbind] in E; try discriminate. injection E as <- <-.
      destruct (IH _ _ _ _ _ my (num_mono _ _ _ _ ND) E2) as (t2 & -> & RE). exists (t ++ t2). rewrite app_assoc. split; [reflexivity|]. split; [reflexivity|]. split; [now apply rep_mono|exact RE].
  Qed.
  Lemma root_ok m x dm d : dcmap_new info auto m (dclists_new info) x 0 = Ok (Some (dm, d)) ->
    rep d m (if auto then None else Some (all_dcs info)) dm /\ nth_error d 0 = Some (default_list info auto (Some m)).
  Proof.
    destruct m as [def es]. intros E. rewrite dcmap_new_eq in E. cbn [Nat.eqb] in E.
    destruct (match def with Some l => _ | None => _ end) as [[[dn d1]|]|] eqn:E1; cbn [rbind] in E; try discriminate.
    assert (H : num_ok d1 dn (mine def (if auto then None else Some (all_dcs info))) /\ nth_error d1 0 = Some (default_list info auto (Some (Hash def es)))).
    { unfold mine, default_list. destruct def as [l|].
      - destruct (xlate info l auto) as [[o|]|] eqn:EX; cbn [rbind] in E1; try discriminate. apply xlate_ok in EX. rewrite <- EX. destruct o as [r|]; injection E1 as <- <-; now split.
      - injection E1 as <- <-. destruct auto; now split. }
    destruct H as [ND N0]. destruct (new_entries info auto es d1 dn 0) as [[[cs d2]|]|] eqn:E2; cbn [rbind] in E; try discriminate. injection E as <- <-.
    destruct (proj2 dcmap_new_ok _ _ _ _ _ _ _ ND E2) as (t & -> & RE). split; [split; [now apply num_mono|exact RE]|]. rewrite nth_error_app1; [exact N0|]. apply nth_error_Some. congruence.
  Qed.

  (** Lookups.  The names from a level on. *)
  Variable is_city : bool.
  Variable e : entry P.
  Hypothesis EO : entry_ok e.
  Definition rest (level : nat) : list name :=
    match level with
    | 0 => heard (e_continent e) :: heard (e_country e) :: (if is_city then divisions e 0 10 else [])
    | 1 => heard (e_country e) :: (if is_city then divisions e 0 10 else [])
    | S (S k) => divisions e k (10 - k)
    end.
  Definition left (level : nat) (out : bool) : list name := if out then [] else upto (rest level).

  Lemma fetch_ok g : fits g -> fetch g = Ok (Some (heard g)).
  Proof. destruct g as [b| |]; unfold fits, fetch; [|reflexivity|intros []]. intros L. unfold rassert, LOOKUP_MAXLEN. now apply Nat.ltb_lt in L as ->. Qed.
  Lemma cb_ok level out : out = false -> level = 1 \/ level = 0 \/ is_city = true ->
    exists n out', dcmap_cb is_city e level out = Ok (Some (n, out')) /\ (n = [] -> left level out = []) /\ (n <> [] -> left level out = n :: left (S level) out' /\ level <= 11 /\ (out' = false -> level = 0 \/ is_city = true)).
  Proof.
    intros -> LC. destruct EO as (F1 & F2 & F3 & F4 & _). unfold dcmap_cb, left. destruct level as [|[|k]]; cbn [Nat.eqb].
    - rewrite (fetch_ok _ F1). cbn [rbind]. exists (heard (e_continent e)), false. split; [reflexivity|]. cbn [rest upto]. destruct (heard (e_continent e)) as [|c n]; [split; [reflexivity|congruence]|]. split; [discriminate|]. intros _. split; [reflexivity|]. split; [lia|auto].
    - rewrite (fetch_ok _ F2). cbn [rbind]. exists (heard (e_country e)), (negb is_city). split; [reflexivity|]. cbn [rest upto]. destruct (heard (e_country e)) as [|c n]; [split; [reflexivity|congruence]|]. split; [discriminate|]. intros _. split; [destruct is_city; reflexivity|]. split; [lia|]. destruct is_city; auto.
    - destruct LC as [X|[X|IC]]; [discriminate|discriminate|]. destruct (11 <? S (S k)) eqn:L.
      + apply Nat.ltb_lt in L. exists [], true. split; [reflexivity|]. split; [|congruence]. intros _. cbn [rest]. now replace (10 - k) with 0 by lia.
      + apply Nat.ltb_ge in L. replace (S (S k) - 2) with k by lia. cbn [rest]. destruct (10 - k) as [|j] eqn:EJ; [lia|]. cbn [divisions]. specialize (F4 k). destruct (e_subdivision e k) as [b| |] eqn:ES.
        * rewrite (fetch_ok (Got b) F4). cbn [rbind heard]. exists (cstr b), false. split; [reflexivity|]. cbn [upto]. destruct (cstr b) as [|c n]; [split; [reflexivity|congruence]|]. split; [discriminate|]. intros _. split; [cbn [rest]; now replace (10 - S k) with j by lia|]. split; [lia|auto].
        * rewrite (fetch_ok _ F3). cbn [rbind]. exists (heard (e_city e)), true. split; [reflexivity|]. cbn [upto]. destruct (heard (e_city e)) as [|c n]; [split; [reflexivity|congruence]|]. split; [discriminate|]. intros _. split; [reflexivity|]. split; [lia|discriminate].
        * destruct F4.
  Qed.

  Lemma rule_none def inh names : forall level, rule_at info auto (Hash def ENone) inh level names = mine def inh.
  Proof. induction names as [|n names IH]; intros level; [reflexivity|]. cbn [rule_at entry_for]. destruct (level <? 2); [reflexivity|]. apply IH. Qed.
  Lemma find_child_ok d n es : forall my cs, rep_es d es my cs ->
    match find_child n cs, entry_for n es with
    | None, None => True
    | Some (FList i), Some (IList l) => num_ok d i (rule_of info auto l)
    | Some (FMap dm), Some (ISub m) => rep d m my dm
    | _, _ => False
    end.
  Proof.
    induction es as [|k l es IH|k m es IH]; intros my [|k' i cs|k' dm cs] H; cbn [rep_es] in H; try contradiction; cbn [find_child entry_for]; auto.
    - destruct H as (<- & A & B). destruct (name_eq_ci n k); [exact A|exact (IH _ _ B)].
    - destruct H as (<- & A & B). destruct (name_eq_ci n k); [exact A|exact (IH _ _ B)].
  Qed.
  Lemma llc_ok d fuel : forall m inh dm level out, rep d m inh dm -> 14 <= fuel + level -> level <= 12 -> (out = false -> level = 1 \/ level = 0 \/ is_city = true) ->
    exists n, dcmap_llc is_city e fuel dm level out = Ok (Some n) /\ num_ok d n (rule_at info auto m inh level (left level out)).
  Proof.
    induction fuel as [|fuel IH]; intros m inh dm level out RP FU LV LC; [lia|]. destruct m as [def es], dm as [dn cs]. destruct RP as [ND RE]. cbn [dcmap_llc].
    destruct cs as [|k0 i0 cs0|k0 m0 cs0].
    - exists dn. split; [reflexivity|]. destruct es; try contradiction. now rewrite rule_none.
    - set (cs := KList k0 i0 cs0) in *. clearbody cs. clear k0 i0 cs0.
      destruct out.
      { cbn [dcmap_cb rbind]. exists dn. split; [reflexivity|]. exact ND. }
      destruct (cb_ok eq_refl (LC eq_refl)) as (n & out' & -> & N1 & N2). cbn [rbind]. destruct n as [|c n]; [exists dn; split; [reflexivity|]; rewrite N1 by reflexivity; exact ND|].
      destruct N2 as (EL & L11 & LC'); [discriminate|]. rewrite EL. cbn [rule_at]. fold (mine def inh). pose proof (find_child_ok d (c :: n) es _ _ RE) as FC.
      destruct (find_child (c :: n) cs) as [[i|dm]|], (entry_for (c :: n) es) as [[l|m]|]; try contradiction.
      + exists i. now split.
      + apply IH; [exact FC|lia|lia|]. intros X. destruct (LC' X) as [->|X2]; auto.
      + cbn [Nat.ltb Nat.leb]. destruct level as [|[|level]]; cbn [Nat.ltb Nat.leb]; [now exists dn|now exists dn|]. apply (IH (Hash def es) inh (DMap dn cs)); [now split|lia|lia|]. intros X. destruct (LC' X) as [X1|X2]; [discriminate|auto].
    - set (cs := KMap k0 m0 cs0) in *. clearbody cs. clear k0 m0 cs0.
      destruct out.
      { cbn [dcmap_cb rbind]. exists dn. split; [reflexivity|]. exact ND. }
      destruct (cb_ok eq_refl (LC eq_refl)) as (n & out' & -> & N1 & N2). cbn [rbind]. destruct n as [|c n]; [exists dn; split; [reflexivity|]; rewrite N1 by reflexivity; exact ND|].
      destruct N2 as (EL & L11 & LC'); [discriminate|]. rewrite EL. cbn [rule_at]. fold (mine def inh). pose proof (find_child_ok d (c :: n) es _ _ RE) as FC.
      destruct (find_child (c :: n) cs) as [[i|dm]|], (entry_for (c :: n) es) as [[l|m]|]; try contradiction.
      + exists i. now split.
      + apply IH; [exact FC|lia|lia|]. intros X. destruct (LC' X) as [->|X2]; auto.
      + cbn [Nat.ltb Nat.leb]. destruct level as [|[|level]]; cbn [Nat.ltb Nat.leb]; [now exists dn|now exists dn|]. apply (IH (Hash def es) inh (DMap dn cs)); [now split|lia|lia|]. intros X. destruct (LC' X) as [X1|X2]; [discriminate|auto].
  Qed.
End Map.

Section All.
  Variables P D : Type.
  Variables (geodist : P -> P -> D) (ltb : D -> D -> bool).
  Hypothesis ord : orders ltb.
  Variable info : dcinfo P.
  Hypothesis IO : info_ok info.
  Variables auto is_city : bool.
  (** without auto no rule is automatic *)
  Lemma rule_of_some l : auto = false -> rule_of info auto l <> None.
  Proof. intros ->. discriminate. Qed.
  Lemma rule_at_some names : auto = false -> forall c inh level, inh <> None -> rule_at info auto c inh level names <> None.
  Proof.
    intros NA. induction names as [|n names IH]; intros [def es] inh level NI; cbn [rule_at].
    - destruct def; [now apply rule_of_some|exact NI].
    - assert (MI : match def with Some l => rule_of info auto l | None => inh end <> None) by (destruct def; [now apply rule_of_some|exact NI]).
      destruct (entry_for n es) as [[l|c']|]; [now apply rule_of_some|now apply IH|]. destruct (level <? 2); [exact MI|now apply IH].
  Qed.

  Variable m : option mapcfg.
  Hypothesis AUTO : auto = true -> is_city = true /\ Permutation (default_list info auto m) (all_dcs info).
  Hypothesis SOME : auto = true \/ m <> None.

  (** the lists [d] and the map [dm] made from the configuration *)
  Definition made (d : dclists) (dm : option dcmap) : Prop :=
    nth_error d 0 = Some (default_list info auto m) /\
    match m, dm with
    | None, None => True
    | Some m, Some dm => rep info auto d m (if auto then None else Some (all_dcs info)) dm
    | _, _ => False
    end.
  Lemma made_mono d t dm : made d dm -> made (d ++ t) dm.
  Proof.
    intros [A B]. split; [rewrite nth_error_app1; [exact A|]; apply nth_error_Some; congruence|]. destruct m, dm; auto. now apply rep_mono.
  Qed.

  Lemma get_dclist_ok d dm e : made d dm -> entry_ok e ->
    exists i t out, get_dclist geodist ltb info auto is_city dm d e = Ok (Some (i, d ++ t)) /\ nth_error (d ++ t) i = Some out /\ right_list geodist ltb info auto is_city m e out.
  Proof.
    intros [M0 MD] EO. unfold get_dclist.
    assert (H : exists n, match dm with None => Ok (Some Auto) | Some m => dcmap_llc is_city e 16 m 0 false end = Ok (Some n) /\ num_ok d n (rule_for info auto is_city m e)).
    { unfold rule_for. destruct m as [c|], dm as [dm'|]; try contradiction; [|now exists Auto].
      destruct (@llc_ok P info auto is_city e EO d 16 c _ dm' 0 false MD) as (n & E & N); [lia|lia|auto|]. exists n. split; [exact E|exact N]. }
    destruct H as (n & -> & N). cbn [rbind]. unfold right_list. destruct n as [i|], (rule_for info auto is_city m e) as [r|] eqn:ER; try contradiction.
    - exists i, [], r. rewrite app_nil_r. split; [reflexivity|]. now split.
    - assert (A : auto = true).
      { apply not_false_iff_true. intros A. destruct SOME as [X|X]; [congruence|]. unfold rule_for in ER. destruct m as [c|]; [|congruence]. revert ER. apply rule_at_some; [exact A|]. now rewrite A. }
      destruct (AUTO A) as [IC PM]. rewrite A, IC. cbn [andb rassert]. destruct EO as (_ & _ & _ & _ & NB). rewrite <- A.
      destruct (e_lat_lon e) as [p| |] eqn:EL; [|exists 0, [], (default_list info auto m); rewrite app_nil_r; auto|congruence].
      destruct (city_auto_ok (fun _ => false) (fun _ => false) geodist ord d p IO M0 PM) as (i & t & out & -> & EN & NE). cbn [rbind]. exists i, t, out. auto.
  Qed.

  Lemma get_all_ok dm (entries : nat -> entry P) : (forall o, entry_ok (entries o)) -> forall offs d c,
    made d dm -> (forall o i, cached c o = Some i -> exists out, nth_error d i = Some out /\ right_list geodist ltb info auto is_city m (entries o) out) ->
    exists is t, get_all geodist ltb info auto is_city dm entries d c offs = Ok (Some (is, d ++ t)) /\
      Forall2 (fun o i => exists out, nth_error (d ++ t) i = Some out /\ right_list geodist ltb info auto is_city m (entries o) out) offs is.
  Proof.
    intros EO. induction offs as [|o offs IH]; intros d c MD HC; cbn [get_all]; [exists [], []; rewrite app_nil_r; split; [reflexivity|constructor]|].
    assert (H : exists i t c', get_cached geodist ltb info auto is_city dm entries d c o = Ok (Some (i, d ++ t, c')) /\
              (exists out, nth_error (d ++ t) i = Some out /\ right_list geodist ltb info auto is_city m (entries o) out) /\
              (forall o i, cached c' o = Some i -> exists out, nth_error (d ++ t) i = Some out /\ right_list geodist ltb info auto is_city m (entries o) out)).
    { unfold get_cached. destruct (cached c o) as [i|] eqn:EC.
      - exists i, [], c. rewrite app_nil_r. split; [reflexivity|]. split; [now apply HC|exact HC].
      - destruct (get_dclist_ok MD (EO o)) as (i & t & out & -> & EN & RL). cbn [rbind]. exists i, t, (c ++ [(o, i)]). split; [reflexivity|]. split; [now exists out|].
        intros o' i' EC'. assert (X : cached c o' = Some i' \/ (o' = o /\ i' = i)).
        { clear - EC'. induction c as [|[a b] c IHc]; cbn [cached app] in *; [destruct (Nat.eqb_spec o o') as [->|]; [injection EC' as <-; auto|discriminate]|]. destruct (a =? o'); [auto|auto]. }
        destruct X as [X|[-> ->]]; [|now exists out]. destruct (HC _ _ X) as (out' & A & B). exists out'. split; [|exact B]. rewrite nth_error_app1; [exact A|]. apply nth_error_Some. congruence. }
    destruct H as (i & t & c' & -> & (out & EN & RL) & HC'). cbn [rbind]. destruct (IH (d ++ t) c' (made_mono t MD) HC') as (is & t2 & -> & F). cbn [rbind].
    exists (i :: is), (t ++ t2). rewrite app_assoc. split; [reflexivity|]. constructor; [|exact F]. exists out. split; [|exact RL]. rewrite nth_error_app1; [exact EN|]. apply nth_error_Some. congruence.
  Qed.
End All.
