(** C38: reloading a map's networks or database while queries are answered. *)
From Verif Require Import Base MapsModel MapsSpec MapsProofs MapsProofs2 MapsProofs3 MapsProofs4.
Set Implicit Arguments.

(** Whatever is loaded, in whatever order, however loads fail and however
    updates and lookups interleave: no freed memory is touched, no list number
    is out of range, and every lookup answers from the data of one update that
    was in force during the reader's section. *)
Theorem C38_readers_see_whole_updates Net Client (choose : forall D : Type, option (list (Net * D)) -> list (Net * D) -> Client -> option D)
    (default : dclist) (more : list dclist) (n : nat) (ops : list (op Net Client)) :
  by_network choose -> Forall (@in_order Net Client) ops ->
  exists s d, watch choose (start default more n) (none Net) ops = Ok (s, d) /\ Forall (right choose default d) (answers s).
Proof.
  intros N F. destruct (watch_inv N (start_inv choose default more n) F) as (s & d & E & L & M & I). exists s, d. split; [exact E|]. apply (i_a I).
Qed.
Print Assumptions C38_readers_see_whole_updates.

(** A load that succeeds takes effect with the next update, whatever readers do;
    one that fails changes nothing that is in force or that comes into force. *)
Theorem C38_good_reload_takes_effect Net Client (choose : forall D : Type, option (list (Net * D)) -> list (Net * D) -> Client -> option D)
    (default : dclist) (more : list dclist) (n : nat) (ops : list (op Net Client)) g f s d :
  by_network choose -> Forall (@in_order Net Client) ops ->
  watch choose (start default more n) (none Net) ops = Ok (s, d) -> idle s = true ->
  (exists s' d', watch choose s d [Load g f true; Update; Update] = Ok (s', d') /\
    pubs d' = pubs d ++ [if g then (Some f, s_nets d) else (s_geo d, f)] /\ versions s' = S (versions s)) /\
  (exists s' d', watch choose s d [Load g f false; Update; Update] = Ok (s', d') /\
    (pubs d' = pubs d \/ pubs d' = pubs d ++ [(s_geo d, s_nets d)])).
Proof.
  intros N F E ID. destruct (watch_inv N (start_inv choose default more n) F) as (s0 & d0 & E0 & I). rewrite E in E0. injection E0 as <- <-.
  assert (W : w_pc s = Idle) by (unfold idle in ID; now destruct (w_pc s)). split.
  - destruct (watch_inv N I (ops := [Load g f true; Update; Update])) as (s' & d' & Ew & _); [repeat constructor|]. exists s', d'. split; [exact Ew|].
    destruct I as (L & M & I). destruct (load_inv g f true I W) as (s1 & E1 & L1 & M1 & I1). cbn [watch step] in Ew. rewrite W, E1 in Ew. cbn [rbind] in Ew.
    assert (S1 : w_pc s1 = Idle /\ (exists x, pend s1 = Some x) /\ versions s1 = versions s).
    { unfold do_load in E1. destruct (match pend s with Some _ => _ | None => _ end) as [dl|]; [|discriminate]. cbn [rbind] in E1. destruct (load_file (h s) dl f) as [[[nl hp] dl']|]; [|discriminate]. cbn [rbind] in E1. injection E1 as <-. cbn. eauto. }
    destruct S1 as (W1 & (x & P1) & V1).
    set (d1 := seen s s1 (Load g f true) d) in *. assert (D1 : pubs d1 = pubs d /\ (s_geo d1, s_nets d1) = if g then (Some f, s_nets d) else (s_geo d, f)) by (unfold d1, seen; rewrite ID; now destruct g). clearbody d1.
    unfold do_update at 1 in Ew. rewrite W1, P1 in Ew. cbn [rbind] in Ew. rewrite seen_same in Ew by reflexivity. unfold do_update in Ew. cbn [w_pc h strings arrays trees p_tree p_lists pend geo nets versions readers answers rbind] in Ew.
    injection Ew as <- <-. cbn [seen p_tree versions].
    assert (FRESH : same_pointer (p_tree s1) (Some (length (trees (h s1)))) = false).
    { destruct (same_pointer _ _) eqn:Q; [|reflexivity]. apply same_pointer_eq in Q. destruct (i_tree I1 Q) as (_ & o & B & _). assert (length (trees (h s1)) < length (trees (h s1))) by (apply nth_error_Some; congruence). lia. }
    rewrite FRESH. cbn [pubs]. destruct D1 as [-> ->]. now rewrite V1.
  - destruct (watch_inv N I (ops := [Load g f false; Update; Update])) as (s' & d' & Ew & _); [repeat constructor|]. exists s', d'. split; [exact Ew|].
    cbn [watch] in Ew. destruct (step choose s _) as [s1|]; [|discriminate]. cbn [rbind] in Ew. rewrite seen_failed in Ew.
    destruct (step choose s1 Update) as [s2|] eqn:E2; [|discriminate]. cbn [rbind] in Ew. destruct (step choose s2 Update) as [s3|] eqn:E3; [|discriminate]. cbn [rbind] in Ew. injection Ew as <- <-.
    cbn [seen]. destruct (same_pointer (p_tree s1) (p_tree s2)) eqn:Q1; destruct (same_pointer (p_tree s2) (p_tree s3)) eqn:Q2; auto.
    (* the tree is assigned once in two steps *)
    exfalso. cbn [step] in E2, E3. unfold do_update in E2, E3.
    destruct (w_pc s1) as [|t ot ol|ot ol|[|y w] ot ol] eqn:W1.
    + destruct (pend s1); injection E2 as <-; cbn in Q1; rewrite (proj2 (same_pointer_eq _ _) eq_refl) in Q1; discriminate.
    + injection E2 as <-. cbn in E3. injection E3 as <-. cbn in Q2. rewrite Nat.eqb_refl in Q2. discriminate.
    + injection E2 as <-. cbn in Q1. rewrite (proj2 (same_pointer_eq _ _) eq_refl) in Q1. discriminate.
    + destruct (kill_opt _ ot); [|discriminate]. cbn [rbind] in E2. destruct (kill_opt _ ol); [|discriminate]. cbn [rbind] in E2. injection E2 as <-. cbn in Q1. rewrite (proj2 (same_pointer_eq _ _) eq_refl) in Q1. discriminate.
    + injection E2 as <-. rewrite (proj2 (same_pointer_eq _ _) eq_refl) in Q1. discriminate.
Qed.
Print Assumptions C38_good_reload_takes_effect.

(** Between updates only the tree and the lists in force are left: old ones are freed. *)
Theorem C38_old_data_is_freed Net Client (choose : forall D : Type, option (list (Net * D)) -> list (Net * D) -> Client -> option D)
    (default : dclist) (more : list dclist) (n : nat) (ops : list (op Net Client)) s d :
  watch choose (start default more n) (none Net) ops = Ok (s, d) -> idle s = true ->
  (forall q t, nth_error (trees (h s)) q = Some (Some t) -> p_tree s = Some q) /\
  (forall q l, nth_error (arrays (h s)) q = Some (Some l) -> p_lists s = Some q).
Proof.
  intros E ID. assert (K : kept (@start Net Client default more n)) by (split; [|split; [|exact Logic.I]]; intros [|q] t X; discriminate X). destruct (watch_kept _ _ _ K E) as (KT & KA & _).
  unfold idle in ID. destruct (w_pc s) eqn:W; try discriminate. split.
  - intros q t X. destruct (KT q t X) as [|Y]; [assumption|]. discriminate Y.
  - intros q t X. destruct (KA q t X) as [|Y]; [assumption|]. discriminate Y.
Qed.
Print Assumptions C38_old_data_is_freed.

(** Nothing is put in force without a cause: once for the configuration, and
    at most once for every load without error. *)
Theorem C38_no_update_without_load Net Client (choose : forall D : Type, option (list (Net * D)) -> list (Net * D) -> Client -> option D)
    (default : dclist) (more : list dclist) (n : nat) (ops : list (op Net Client)) s d :
  watch choose (start default more n) (none Net) ops = Ok (s, d) ->
  length (pubs d) <= 1 + length (filter (@good_load Net Client) ops).
Proof. intros E. apply watch_waiting in E. cbn [pubs none length] in E. unfold waiting at 2 in E. cbn [w_pc pend start] in E. lia. Qed.
Print Assumptions C38_no_update_without_load.

(** A lookup for the examples: the first network that is the client. *)
Definition first (D : Type) (g : option (list (nat * D))) (n : list (nat * D)) (c : nat) : option D :=
  match find (fun x => fst x =? c) n with
  | Some x => Some (snd x)
  | None => match g with Some g => option_map snd (find (fun x => fst x =? c) g) | None => None end
  end.
Lemma find_relabel D E (f : D -> E) (l : list (nat * D)) c :
  find (fun x => fst x =? c) (relabel f l) = option_map (fun x => (fst x, f (snd x))) (find (fun x => fst x =? c) l).
Proof. induction l as [|[n x] l IH]; [reflexivity|]. unfold relabel in *. cbn [map find fst snd]. destruct (n =? c); [reflexivity|exact IH]. Qed.
Lemma first_by_network : by_network first.
Proof.
  intros D E f g n c. unfold first. rewrite find_relabel. destruct (find _ n) as [x|]; [reflexivity|]. cbn [option_map]. destruct g as [g|]; [|reflexivity]. cbn [option_map]. rewrite find_relabel. now destruct (find _ g).
Qed.

(** With two loads out of order a reader can use a new list number in the old
    lists: nothing but the order of the two loads prevents it. *)
Theorem C38_loads_out_of_order_refuted :
  run first (start [1; 2] [] 1)
    [Load false [] true; Update; Update; Update; Update; Enter 0; Prefetch 0;
     Load false [(5, [2])] true; Update; Update; Read 0 5; Read 0 5; Read 0 5] = UB.
Proof. reflexivity. Qed.
Print Assumptions C38_loads_out_of_order_refuted.

(** A reader that began before an update and one that began after it, a load
    that failed, and an update that waits for the first reader. *)
Example C38_witness :
  let ops :=
    [Load true [(5, [2]); (6, [1])] true; Load false [(7, [2; 1])] true; Update; Update; Update; Update;
     Enter 0; Read 0 5; Load false [(9, [9])] false; Load true [(5, [3]); (6, [1])] true; Update; Read 0 5; Update; Enter 1; Update; Update;
     Read 0 5; Read 0 5; Use 0; Read 1 5; Read 1 5; Read 1 5; Read 1 5; Use 1; Leave 0; Update; Leave 1; Update] in
  by_network first /\ Forall (@in_order nat nat) ops /\
  exists s d, watch first (start [1; 2] [[1]] 2) (none nat) ops = Ok (s, d) /\ idle s = true /\
    answers s = [{| a_client := 5; a_from := 2; a_version := 1; a_list := [3] |}; {| a_client := 5; a_from := 1; a_version := 0; a_list := [2] |}] /\
    pubs d = [(Some [(5, [2]); (6, [1])], [(7, [2; 1])]); (Some [(5, [3]); (6, [1])], [(7, [2; 1])])] /\
    trees (h s) <> [] /\ nth_error (trees (h s)) 0 = Some None /\ nth_error (arrays (h s)) 0 = Some None.
Proof.
  cbv zeta. split; [exact first_by_network|]. split; [repeat constructor|]. eexists. eexists. split; [vm_compute; reflexivity|]. repeat split. discriminate.
Qed.
