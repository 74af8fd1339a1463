(** The walk through a database that makes lists on the way *)
From Coq Require Import ZArith String Permutation.
From Verif Require Import Base CompModel CompProofs DnameModel RespModel MonModel VscfModel VscfSpec OptModel VhashModel VhashSpec VhashProofs2 PlugModel MsgModel LtreeModel PconfModel PconfSpec PconfProofs2 PconfProofs3 McfModel McfSpec McfProofs GmapModel GmapSpec GmapProofs GmapProofs2 GmapProofs4 GmapProofs5 GdbModel GdbSpec.
From Verif Require LocModel LocSpec LocProofs LocProofs2 NetModel NetSpec NetProps.
Local Open Scope list_scope.
Local Open Scope nat_scope.
Local Notation length := List.length.
Ltac Zify.zify_post_hook ::= idtac.

Lemma cached_app c o i o' : LocModel.cached (c ++ [(o, i)]) o' = match LocModel.cached c o' with Some j => Some j | None => if o =? o' then Some i else None end.
Proof. induction c as [|(a, x) c IH]; cbn [app LocModel.cached]; [reflexivity|]. destruct (a =? o'); [reflexivity|exact IH]. Qed.

(** strstr finds *)
Lemma leads_with_app p s : leads_with p s = true <-> exists r, s = p ++ r.
Proof.
  revert s. induction p as [|c p IH]; intros s; cbn [leads_with]; [split; [intros _; now exists s|reflexivity]|]. destruct s as [|x s]; [split; [discriminate|intros (r & E); discriminate]|].
  rewrite andb_true_iff, N.eqb_eq, IH. split; [intros (-> & r & ->); now exists r|intros (r & E); injection E as <- ->; split; [reflexivity|now exists r]].
Qed.
Lemma has_part_app p s : has_part p s = true <-> exists a r, s = a ++ p ++ r.
Proof.
  induction s as [|x s IH].
  - cbn [has_part]. rewrite orb_false_r, leads_with_app. split; [intros (r & E); now exists [], r|]. intros (a & r & E). destruct a; [now exists r|discriminate].
  - cbn [has_part]. rewrite orb_true_iff, leads_with_app, IH. split.
    + intros [(r & E)|(a & r & ->)]; [now exists [], r|now exists (x :: a), r].
    + intros (a & r & E). destruct a as [|y a]; [left; now exists r|]. injection E as <- ->. right. now exists a, r.
Qed.
Lemma city_is b : has_part t_city (c_str (b_type b)) = true <-> city b.
Proof. apply has_part_app. Qed.

Section Walk.
  Context {D : Type}.
  Variable geodist : point -> point -> D.
  Variable ltb : D -> D -> bool.
  Hypothesis ord : LocSpec.orders ltb.
  Variable i : info.
  Hypothesis IO : LocProofs.info_ok i.
  Variables auto is_city : bool.
  Variable m : option LocModel.mapcfg.
  Hypothesis AUTO : auto = true -> is_city = true /\ Permutation (LocSpec.default_list i auto m) (LocSpec.all_dcs i).
  Hypothesis SOME : auto = true \/ m <> None.
  Variable dm : option LocModel.dcmap.
  Variable b : mmdb.
  Hypothesis EO : forall o, LocSpec.entry_ok (b_entry b o).

  Definition right_cache (d : LocModel.dclists) (c : LocModel.cache) : Prop :=
    forall o j, LocModel.cached c o = Some j -> exists out, nth_error d j = Some out /\ LocSpec.right_list geodist ltb i auto is_city m (b_entry b o) out.
  Definition more (c c' : LocModel.cache) : Prop := forall o j, LocModel.cached c o = Some j -> LocModel.cached c' o = Some j.
  Definition knows (gd : N -> option N) (c : LocModel.cache) : Prop := forall off j, LocModel.cached c (N.to_nat off) = Some j -> gd off = Some (N.of_nat j).

  Lemma one_list d e r : LocModel.get_dclist geodist ltb i auto is_city dm d e = Ok (Some r) -> length (snd r) <= S (length d).
  Proof.
    unfold LocModel.get_dclist. destruct (match dm with None => _ | Some _ => _ end) as [[[j|]|]|]; cbn [rbind]; try discriminate; [intros [= <-]; cbn; lia|].
    destruct (auto && is_city); cbn [rassert]; [|discriminate]. destruct (LocModel.e_lat_lon e) as [p| |]; try discriminate; [|intros [= <-]; cbn; lia].
    unfold LocModel.city_auto_map. destruct (_ <=? _); cbn [rassert rbind]; [|discriminate]. destruct (rd d 0); cbn [rbind]; [|discriminate]. destruct (rdn _ _ _); cbn [rbind]; [|discriminate]. destruct (LocModel.sort _ _ _ _ _); cbn [rbind]; [|discriminate]. destruct (wr _ _ _); cbn [rbind]; [|discriminate].
    match goal with |- context [LocModel.find_or_add d ?x] => destruct (add_one d x) as (j & t & -> & _ & L & _) end. intros [= <-]. cbn [snd]. rewrite app_length. lia.
  Qed.
  Lemma get_one d c o : LocProofs2.made i auto m d dm -> right_cache d c ->
    exists j t c', LocModel.get_cached geodist ltb i auto is_city dm (b_entry b) d c o = Ok (Some (j, d ++ t, c')) /\ length t <= 1 /\ more c c' /\ right_cache (d ++ t) c' /\ LocModel.cached c' o = Some j.
  Proof.
    intros MD RC. unfold LocModel.get_cached. destruct (LocModel.cached c o) as [j|] eqn:EC.
    - exists j, [], c. rewrite app_nil_r. split; [reflexivity|]. split; [cbn; lia|]. split; [intros ? ?; auto|]. auto.
    - destruct (LocProofs2.get_dclist_ok geodist ord IO AUTO SOME MD (EO o)) as (j & t & out & E & EN & RL). rewrite E. cbn [rbind]. exists j, t, (c ++ [(o, j)]). split; [reflexivity|]. split.
      + apply one_list in E. cbn [snd] in E. rewrite app_length in E. lia.
      + split; [intros o' j' X; rewrite cached_app, X; reflexivity|]. split; [|rewrite cached_app, EC, Nat.eqb_refl; reflexivity].
        intros o' j'. rewrite cached_app. destruct (LocModel.cached c o') as [j1|] eqn:E1.
        * intros [= <-]. destruct (RC _ _ E1) as (out' & A & B). exists out'. split; [|exact B]. rewrite nth_error_app1; [exact A|]. apply nth_error_Some. congruence.
        * destruct (Nat.eqb_spec o o') as [<-|]; [|discriminate]. intros [= <-]. now exists out.
  Qed.

  Definition strip (r : res (option carried)) : res (option NetModel.nlist) :=
    match r with UB => UB | Ok None => Ok None | Ok (Some s) => Ok (Some (fst (fst s))) end.
  (** With what the cache knows in the end, the walk is that of NetModel.v *)
  Definition follows (d : LocModel.dclists) (c : LocModel.cache) (n : nat) (r : res (option carried)) (plain : (N -> option N) -> res (option NetModel.nlist)) : Prop :=
    exists t c', length t <= n /\ more c c' /\ right_cache (d ++ t) c' /\ (forall gd, knows gd c' -> plain gd = strip r) /\ (forall s, r = Ok (Some s) -> snd (fst s) = d ++ t /\ snd s = c').

  Lemma walk_follows : forall depth l d c ip node, LocProofs2.made i auto m d dm -> right_cache d c ->
    follows d c (NetSpec.db_size (b_node b) depth node) (walk geodist ltb i auto is_city dm b depth (l, d, c) ip node) (fun gd => NetModel.geo_walk (b_node b) gd depth l ip node).
  Proof.
    assert (STAY : forall d c n r l, right_cache d c -> (forall s, r = Ok (Some s) -> snd (fst s) = d /\ snd s = c) -> (forall gd : N -> option N, l gd = strip r) -> follows d c n r l).
    { intros d c n r l RC S E. exists [], c. rewrite app_nil_r. split; [cbn; lia|]. split; [intros ? ?; auto|]. auto. }
    induction depth as [|nd IH]; intros l d c ip node MD RC.
    - apply STAY; [exact RC|discriminate|reflexivity].
    - cbn [walk NetModel.geo_walk NetSpec.db_size]. set (skip := (_ || _ || _)%bool). destruct skip.
      { apply STAY; [exact RC|intros s [= <-]; auto|reflexivity]. }
      destruct (b_node b node) as [(lr, rr)|]; [|apply STAY; [exact RC|discriminate|reflexivity]].
      set (mask := 128 - nd).
      set (side := fun (s : carried) (ip : bytes) (r : NetModel.mrec) => match r with
                | NetModel.RNode n => walk geodist ltb i auto is_city dm b nd s ip n
                | NetModel.REmpty => do l <- NetModel.nlist_append (fst (fst s)) ip mask 0%N; Ok (Some (l, snd (fst s), snd s))
                | NetModel.RData off =>
                    do o <- LocModel.get_cached geodist ltb i auto is_city dm (b_entry b) (snd (fst s)) (snd s) (N.to_nat off);
                    match o with
                    | None => Ok None
                    | Some (n, d, c) => do l <- NetModel.nlist_append (fst (fst s)) ip mask (N.of_nat n); Ok (Some (l, d, c))
                    end
                | NetModel.RBad => Ok None
                end).
      set (pside := fun (gd : N -> option N) (l : NetModel.nlist) (ip : bytes) (r : NetModel.mrec) => match r with
                | NetModel.RNode n => NetModel.geo_walk (b_node b) gd nd l ip n
                | NetModel.REmpty => do l <- NetModel.nlist_append l ip mask 0%N; Ok (Some l)
                | NetModel.RData off => match gd off with None => Ok None | Some d => do l <- NetModel.nlist_append l ip mask d; Ok (Some l) end
                | NetModel.RBad => Ok None
                end).
      set (one := fun r => match r with NetModel.RNode n => NetSpec.db_size (b_node b) nd n | _ => 1 end).
      assert (SIDE : forall r l d c ip, LocProofs2.made i auto m d dm -> right_cache d c -> follows d c (one r) (side (l, d, c) ip r) (fun gd => pside gd l ip r)).
      { clear l d c ip MD RC. intros r l d c ip MD RC. destruct r as [n| |off|]; cbn [side pside one fst snd].
        - apply IH; auto.
        - apply STAY; [exact RC| |]; destruct (NetModel.nlist_append l ip mask 0%N); cbn [rbind]; try discriminate; auto. intros s [= <-]. auto.
        - destruct (get_one d c (N.to_nat off) MD RC) as (j & t & c' & -> & LT & MO & RC' & KN). cbn [rbind]. exists t, c'. split; [exact LT|]. split; [exact MO|]. split; [exact RC'|]. split.
          + intros gd KG. rewrite (KG _ _ KN). destruct (NetModel.nlist_append l ip mask (N.of_nat j)); reflexivity.
          + intros s. destruct (NetModel.nlist_append l ip mask (N.of_nat j)); cbn [rbind]; [|discriminate]. intros [= <-]. auto.
        - apply STAY; [exact RC|discriminate|reflexivity]. }
      change (follows d c (one lr + one rr)
        (do o <- side (l, d, c) ip lr; match o with None => Ok None | Some s => do ip <- NetModel.set_bit ip (mask - 1); side s ip rr end)
        (fun gd => do o <- pside gd l ip lr; match o with None => Ok None | Some l => do ip <- NetModel.set_bit ip (mask - 1); pside gd l ip rr end)).
      clearbody side pside. destruct (SIDE lr l d c ip MD RC) as (t1 & c1 & L1 & M1 & R1 & K1 & S1).
      destruct (side (l, d, c) ip lr) as [[((l1, d1), c1')|]|] eqn:E1; cbn [rbind].
      + destruct (S1 _ eq_refl) as (X1 & X2). cbn [fst snd] in X1, X2. subst d1 c1'. destruct (NetModel.set_bit ip (mask - 1)) as [ip2|]; cbn [rbind].
        * destruct (SIDE rr l1 (d ++ t1) c1 ip2 (LocProofs2.made_mono AUTO SOME t1 MD) R1) as (t2 & c2 & L2 & M2 & R2 & K2 & S2). exists (t1 ++ t2), c2. rewrite app_assoc. split; [rewrite app_length; lia|]. split; [intros ? ? X; auto|]. split; [exact R2|]. split; [|exact S2].
          intros gd KG. rewrite (K1 gd) by (intros off j X; apply KG; auto). cbn [strip rbind fst]. apply K2, KG.
        * exists t1, c1. split; [lia|]. split; [exact M1|]. split; [exact R1|]. split; [|discriminate]. intros gd KG. rewrite (K1 gd KG). reflexivity.
      + exists t1, c1. split; [lia|]. split; [exact M1|]. split; [exact R1|]. split; [|discriminate]. intros gd KG. rewrite (K1 gd KG). reflexivity.
      + exists t1, c1. split; [lia|]. split; [exact M1|]. split; [exact R1|]. split; [|discriminate]. intros gd KG. rewrite (K1 gd KG). reflexivity.
  Qed.
End Walk.

(** What [NetSpec.db_says] says, by records *)
Lemma says_record nodes gd : forall depth x node, NetSpec.db_says nodes gd depth x node = match record_for nodes depth x node with None => None | Some Nothing => Some 0%N | Some (At off) => gd off end.
Proof.
  induction depth as [|nd IH]; intros x node; cbn [NetSpec.db_says record_for]; [reflexivity|]. destruct (nodes node) as [(z, o)|]; [|reflexivity]. destruct (if NetSpec.bit x (127 - nd) then o else z); auto.
Qed.
