(** Networks, the database and client subnets: C17, C18, C19. *)
From Verif Require Import Base NetModel NetSpec NetBits NetProofs NetProofs2 NetProofs3 NetProofs4 NetProofs5 NetProofs6 NetProofs7.
From Coq Require Import Permutation Sorted.
Ltac Zify.zify_post_hook ::= idtac.

Lemma tree_lookup db l T cl ign : tells db l T -> client_ok cl -> exists d k,
  ntree_lookup T cl ign = Ok (d, if (c_ecs_mask cl =? 0)%N || ign then 0 else k) /\ answers db l (canon (known_by cl ign)) d /\
  lookup_inner T (known_by cl ign) = Ok (d, k) /\ k <= 8 * length (raw (known_by cl ign)) /\
  forall c', caddr_ok c' -> same_family (known_by cl ign) c' -> share k (raw (known_by cl ign)) (raw c') -> lookup_inner T c' = Ok (d, k).
Proof.
  intros [NZ HT] [C1 C2]. unfold ntree_lookup, known_by. apply N.eqb_neq in NZ. rewrite NZ. cbn [negb rassert]. destruct (c_ecs_mask cl =? 0)%N, ign; cbn [negb andb orb].
  1-3: destruct (HT (c_source cl) C1) as (d & k & -> & A & LK & SK); exists d, k; cbn [rbind]; auto.
  destruct (HT (c_ecs cl) C2) as (d & k & -> & A & LK & SK). exists d, k. auto.
Qed.

(** *** C17 *)
(** A map made of networks alone: whatever the order they are listed in, each
    client gets the list of the longest network that holds its address, and
    the default if none does. *)
Theorem C17_longest_network_wins (sort : list net -> list net) (cfg : list cnet) :
  sort_ok sort -> Forall cnet_ok cfg -> Forall accepted cfg ->
  no_conflict (map the_net cfg) -> all_reached (map the_net cfg) -> fits None cfg ->
  exists T, initial_load sort None cfg = Ok (Some (T, false)) /\
  forall cl ign, client_ok cl -> exists d k, ntree_lookup T cl ign = Ok (d, k) /\ maps_to (map the_net cfg) (canon (known_by cl ign)) d.
Proof.
  intros SO OK AC NC AR FI. destruct (load_ok sort SO None cfg OK AC NC AR ltac:(discriminate)) as [[_ NF]|[(_ & g & X & _)|(T & E & HT)]]; [now elim NF|discriminate|].
  exists T. split; [exact E|]. intros cl ign HC. destruct (tree_lookup _ _ _ cl ign HT HC) as (d & k & EL & A & _). eauto.
Qed.
Print Assumptions C17_longest_network_wins.

(** A network that lies within the spaces that stand for IPv4, or whose prefix
    is too long, makes the load fail. *)
Theorem C17_bad_networks_refused (sort : list net -> list net) (db : option geodb) (cfg : list cnet) c :
  sort_ok sort -> Forall cnet_ok cfg -> (forall g, db = Some g -> db_fits g) -> In c cfg -> ~ accepted c -> initial_load sort db cfg = Ok None.
Proof.
  intros SO OK DF IC NA. unfold initial_load.
  assert (GEO : exists g, match db with None => Ok (Some None) | Some db => do o <- geo_list (g_node db) (g_dc db) sort (g_v4 db); Ok (match o with None => None | Some (g, _) => Some (Some g) end) end = Ok g).
  { destruct db as [db|]; [|eauto]. destruct (geo_list_ok (g_node db) (g_dc db) (DF db eq_refl) sort (g_v4 db)) as (o & -> & _). cbn [rbind]. eauto. }
  destruct GEO as (g & ->). cbn [rbind]. destruct g as [g|]; [|reflexivity]. unfold nets_make_list.
  destruct (nets_parse_ok cfg OK []) as [(-> & _)|(cs & _ & _ & F & _)]; [reflexivity|]. exfalso. destruct (F2_in_l _ _ _ _ F IC) as (n & _ & n' & E & _). now apply NA, (one_accepted c n').
Qed.
Print Assumptions C17_bad_networks_refused.

Example C17_witness :
  let cfg := [CN4 [10; 0; 0; 0] 8 1; CN4 [10; 64; 0; 0] 10 2; CN4 [11; 0; 0; 0] 8 1; CN6 [32; 1; 13; 184; 0; 0; 0; 0; 0; 0; 0; 0; 0; 0; 0; 0] 32 3]%N in
  Forall cnet_ok cfg /\ Forall accepted cfg /\ no_conflict (map the_net cfg) /\ all_reached (map the_net cfg) /\ fits None cfg /\
  exists T, initial_load isort None cfg = Ok (Some (T, false)) /\
    ntree_lookup T {| c_source := C4 [10; 65; 1; 2]; c_ecs := C4 [0; 0; 0; 0]; c_ecs_mask := 0 |}%N false = Ok (2%N, 0) /\
    ntree_lookup T {| c_source := C4 [192; 0; 2; 1]; c_ecs := C4 [10; 128; 1; 2]; c_ecs_mask := 24 |}%N false = Ok (1%N, 9).
Proof.
  cbv zeta. split; [|split; [|split; [|split; [|split]]]].
  - repeat constructor; cbn; try reflexivity; repeat constructor.
  - repeat constructor; cbn [accepted]; try lia. intros p I L (r & E). cbn [In v4_prefixes] in I. destruct I as [<-|[<-|[<-|[<-|[<-|[]]]]]]; discriminate E.
  - intros a b IA IB. cbn [map the_net In] in IA, IB. destruct IA as [<-|[<-|[<-|[<-|[]]]]], IB as [<-|[<-|[<-|[<-|[]]]]]; cbn [n_mask n_dc]; intros EM S; try reflexivity; try discriminate EM. 
  - intros n I. cbn [map the_net In] in I.
    assert (G : forall q, all_bytes q -> length q = 4 -> caddr_ok (C4 q)) by (intros q A B; split; auto).
    destruct I as [<-|[<-|[<-|[<-|[]]]]];
      [exists (C4 [10; 0; 0; 1]%N)|exists (C4 [10; 64; 0; 1]%N)|exists (C4 [11; 0; 0; 1]%N)|exists (C6 [32; 1; 13; 184; 0; 0; 0; 0; 0; 0; 0; 0; 0; 0; 0; 1]%N)];
      (split; [repeat constructor|]); (split; [intros i Hi; cbn [n_mask] in Hi; do 128 (destruct i as [|i]; [first [reflexivity|lia]|]); lia|]);
      intros n' I'; cbn [map the_net In] in I'; destruct I' as [<-|[<-|[<-|[<-|[]]]]]; intros CV; cbn [n_mask];
      first [lia|exfalso; specialize (CV 105 ltac:(cbn; lia)); discriminate CV|exfalso; specialize (CV 2 ltac:(cbn; lia)); discriminate CV|exfalso; specialize (CV 103 ltac:(cbn; lia)); discriminate CV].
  - unfold fits. cbn. lia.
  - eexists. split; [vm_compute; reflexivity|]. split; vm_compute; reflexivity.
Qed.

(** Finding.  Without the demand that each network is the longest match of
    some address, this is false, and nothing is logged: two networks that
    together replace a third one are merged with a neighbour into a wider
    network, and the third one then overrides them. *)
Theorem C17_shadowed_network_refuted :
  let cfg := [CN4 [10; 0; 0; 0] 9 2; CN4 [10; 0; 0; 0] 10 1; CN4 [10; 64; 0; 0] 10 1; CN4 [10; 128; 0; 0] 9 1]%N in
  let cl := {| c_source := C4 [10; 1; 2; 3]; c_ecs := C4 [0; 0; 0; 0]; c_ecs_mask := 0 |}%N in
  sort_ok isort /\ Forall cnet_ok cfg /\ Forall accepted cfg /\ no_conflict (map the_net cfg) /\ fits None cfg /\
  exists T, initial_load isort None cfg = Ok (Some (T, false)) /\ ntree_lookup T cl false = Ok (2%N, 0) /\ maps_to (map the_net cfg) (canon (known_by cl false)) 1.
Proof.
  cbv zeta. split; [exact isort_ok|]. split; [repeat constructor|]. split; [repeat constructor; cbn [accepted]; lia|]. split; [|split].
  - intros a b IA IB. cbn [map the_net In] in IA, IB. destruct IA as [<-|[<-|[<-|[<-|[]]]]], IB as [<-|[<-|[<-|[<-|[]]]]]; cbn [n_mask n_dc]; intros EM S; try reflexivity; try discriminate EM.
    + specialize (S 104 ltac:(cbn; lia)). discriminate S.
    + specialize (S 104 ltac:(cbn; lia)). discriminate S.
  - unfold fits. cbn. lia.
  - eexists. split; [vm_compute; reflexivity|]. split; [vm_compute; reflexivity|]. left. exists {| n_ip := (repeat 0 12 ++ [10; 0; 0; 0])%N; n_mask := 106; n_dc := 1 |}. split; [cbn; auto|]. split; [intros i Hi; cbn [n_mask] in Hi; do 106 (destruct i as [|i]; [reflexivity|]); lia|]. split; [reflexivity|].
    intros n' I. cbn [map the_net In] in I. destruct I as [<-|[<-|[<-|[<-|[]]]]]; cbn [n_mask]; lia.
Qed.
Print Assumptions C17_shadowed_network_refuted.

(** *** C18 *)
(** A map with a database: the networks decide where one of them holds the
    address, the database everywhere else. *)
Theorem C18_networks_override_database (sort : list net -> list net) (db : geodb) (cfg : list cnet) :
  sort_ok sort -> Forall cnet_ok cfg -> Forall accepted cfg ->
  no_conflict (map the_net cfg) -> all_reached (map the_net cfg) -> fits (Some db) cfg -> db_fits db -> db_whole db ->
  exists T, initial_load sort (Some db) cfg = Ok (Some (T, false)) /\
  forall cl ign, client_ok cl -> exists d k, ntree_lookup T cl ign = Ok (d, k) /\
    (longest (map the_net cfg) (canon (known_by cl ign)) d \/
     (uncovered (map the_net cfg) (canon (known_by cl ign)) /\ geo_says (g_node db) (g_dc db) (g_v4 db) (canon (known_by cl ign)) d)).
Proof.
  intros SO OK AC NC AR FI DF DW. destruct (load_ok sort SO (Some db) cfg OK AC NC AR ltac:(intros ? [= <-]; exact DF)) as [[_ NF]|[(_ & g & [= <-] & X)|(T & E & HT)]]; [now elim NF|now elim X|].
  exists T. split; [exact E|]. intros cl ign HC. destruct (tree_lookup _ _ _ cl ign HT HC) as (d & k & EL & A & _). exists d. eexists. split; [exact EL|exact A].
Qed.
Print Assumptions C18_networks_override_database.

(** A damaged database stops the load: the server never runs on the part of it
    that was read. *)
Theorem C18_broken_database (sort : list net -> list net) (db : geodb) (cfg : list cnet) :
  sort_ok sort -> Forall cnet_ok cfg -> Forall accepted cfg ->
  no_conflict (map the_net cfg) -> all_reached (map the_net cfg) -> fits (Some db) cfg -> db_fits db ->
  (exists c, caddr_ok c /\ (g_v4 db = true -> same 12 (canon c) zeros = true) /\ uncovered (map the_net cfg) (canon c) /\ db_says (g_node db) (g_dc db) (if g_v4 db then 32 else 128) (canon c) 0 = None) ->
  initial_load sort (Some db) cfg = Ok None.
Proof.
  intros SO OK AC NC AR FI DF (c & HC & V4 & UN & DB). destruct (load_ok sort SO (Some db) cfg OK AC NC AR ltac:(intros ? [= <-]; exact DF)) as [[_ NF]|[(E & _)|(T & E & _ & HT)]]; [now elim NF|exact E|]. exfalso.
  destruct (HT c HC) as (d & k & _ & [(n & IN & CV & _)|[_ GS]] & _); [now apply (UN n)|]. unfold geo_says in GS. destruct (g_v4 db); [rewrite V4 in GS by reflexivity|]; congruence.
Qed.
Print Assumptions C18_broken_database.

Example C18_witness :
  let db := {| g_node := fun n => if (n =? 0)%N then Some (RNode 1, RData 7) else if (n =? 1)%N then Some (REmpty, RData 8) else None;
               g_dc := fun off => if (off =? 7)%N then Some 4%N else if (off =? 8)%N then Some 5%N else None; g_v4 := true |} in
  let cfg := [CN4 [10; 0; 0; 0] 8 1]%N in
  fits (Some db) cfg /\ db_fits db /\ db_whole db /\
  exists T, initial_load isort (Some db) cfg = Ok (Some (T, false)) /\
    map (fun a => ntree_lookup T {| c_source := C4 [0; 0; 0; 0]; c_ecs := C4 a; c_ecs_mask := 32 |}%N false) [[10; 1; 2; 3]; [11; 1; 2; 3]; [64; 0; 0; 1]; [200; 0; 0; 1]]%N
    = [Ok (1%N, 8); Ok (0%N, 8); Ok (5%N, 2); Ok (4%N, 1)].
Proof.
  cbv zeta. split; [unfold fits; cbn; lia|]. split; [|split].
  - intros off d. cbn [g_dc]. destruct (off =? 7)%N; [intros [= <-]; lia|]. destruct (off =? 8)%N; [intros [= <-]; lia|discriminate].
  - intros b HB. cbn [g_v4 g_node g_dc db_says N.eqb]. destruct (bit b (127 - 31)); [discriminate|]. cbn. destruct (bit b 97); discriminate.
  - eexists. split; vm_compute; reflexivity.
Qed.

(** *** C19 *)
(** The scope that is reported: 0 for a client known by where it sends from;
    for a client known by its subnet option, no more than its address has
    bits, and every client of the same family whose option agrees in that many
    bits gets the same list and the same scope. *)
Theorem C19_scope_covers_equal_answers (sort : list net -> list net) (db : option geodb) (cfg : list cnet) T w :
  sort_ok sort -> Forall cnet_ok cfg -> Forall accepted cfg ->
  no_conflict (map the_net cfg) -> all_reached (map the_net cfg) -> (forall g, db = Some g -> db_fits g) ->
  initial_load sort db cfg = Ok (Some (T, w)) ->
  forall cl ign, client_ok cl -> exists d k, ntree_lookup T cl ign = Ok (d, k) /\
    (~ by_subnet cl ign -> k = 0) /\
    (by_subnet cl ign -> k <= 8 * length (raw (c_ecs cl)) /\
      forall cl', client_ok cl' -> by_subnet cl' ign -> same_family (c_ecs cl) (c_ecs cl') -> share k (raw (c_ecs cl)) (raw (c_ecs cl')) -> ntree_lookup T cl' ign = Ok (d, k)).
Proof.
  intros SO OK AC NC AR DF EL cl ign HC. destruct (load_ok sort SO db cfg OK AC NC AR DF) as [[X _]|[(X & _)|(T' & E & HT)]]; try congruence. assert (T' = T) by congruence. subst T'.
  destruct (tree_lookup _ _ _ cl ign HT HC) as (d & k & E1 & _ & E2 & LK & SK). exists d. eexists. split; [exact E1|]. unfold by_subnet, known_by in *. split.
  - intros NB. destruct (N.eqb_spec (c_ecs_mask cl) 0); [reflexivity|]. destruct ign; [reflexivity|]. elim NB. auto.
  - intros [NZ ->]. apply N.eqb_neq in NZ. rewrite NZ in *. cbn [orb] in *. split; [exact LK|]. intros cl' [_ HC'] [NZ' _] FA SH. specialize (SK (c_ecs cl') HC' FA SH). destruct HT as [T0 _]. unfold ntree_lookup. apply N.eqb_neq in NZ', T0. rewrite T0, NZ'. exact SK.
Qed.
Print Assumptions C19_scope_covers_equal_answers.

Example C19_witness :
  let cfg := [CN4 [10; 0; 0; 0] 8 1; CN4 [10; 64; 0; 0] 10 2]%N in
  exists T, initial_load isort None cfg = Ok (Some (T, false)) /\
    map (fun a => ntree_lookup T {| c_source := C4 [0; 0; 0; 0]; c_ecs := a; c_ecs_mask := 24 |}%N false)
      [C4 [10; 64; 2; 3]; C4 [10; 127; 2; 3]; C4 [10; 0; 0; 1]; C6 [32; 2; 10; 64; 1; 1; 0; 0; 0; 0; 0; 0; 0; 0; 0; 0]; C4 [1; 2; 3; 4]]%N
    = [Ok (2%N, 10); Ok (2%N, 10); Ok (1%N, 10); Ok (2%N, 26); Ok (0%N, 5)].
Proof. cbv zeta. eexists. split; vm_compute; reflexivity. Qed.
