(** C37: label arenas. *)
From Verif Require Import Base ArenaModel ArenaSpec ArenaProofs.

(** C37.  A program that uses arenas as documented never makes them step
    outside their arrays or free twice.  At every moment, all the blocks it
    holds, from all arenas, whatever was merged or closed, lie within pools
    that are still allocated and share no byte; they are exactly the blocks it
    asked for, with the sizes it asked for. *)
Theorem C37_blocks_apart : forall ops, obeys [] ops ->
  exists w, arun world0 ops = Ok w /\
    ForallOrdPairs apart (w_blocks w) /\
    (forall b, In b (w_blocks w) -> 0 < b_size b /\ b_off b + b_size b <= POOL_SIZE /\ In (b_pool b) (h_live (w_heap w))) /\
    map (fun b => (b_arena b, b_size b)) (w_blocks w) = held ops.
Proof.
  intros ops OB. destruct (run_inv ops [] world0 inv0 OB) as (w & R & V). exists w. split; [exact R|]. split; [apply (v_apart _ _ V)|]. split; [|exact (run_held _ _ _ R)].
  intros b I. destruct (v_blocks _ _ V b I) as (P1 & P2 & a & i & E & L & N & _). split; [exact P1|]. split; [exact P2|]. apply (v_live _ _ V). exists (b_arena b), i, a. auto.
Qed.

(** C37.  Once every arena was destroyed or merged into one that was, no pool
    is left: nothing leaks. *)
Theorem C37_nothing_leaks : forall ops w, obeys [] ops -> (forall s, In s (statuses ops) -> s = Gone) ->
  arun world0 ops = Ok w -> h_live (w_heap w) = [] /\ w_blocks w = [].
Proof.
  intros ops w OB GONE R. destruct (run_inv ops [] world0 inv0 OB) as (w' & R' & V). rewrite R in R'. injection R' as <-.
  assert (NONE : forall k a, nth_error (w_arenas w) k <> Some (Some a)).
  { intros k a E. assert (L : k < length (fold_left status_step ops [])) by (rewrite (v_len _ _ V); apply nth_error_Some; congruence).
    destruct (nth_error (fold_left status_step ops []) k) as [s|] eqn:ES; [|apply nth_error_None in ES; lia].
    pose proof (v_st _ _ V k s ES) as H. rewrite (GONE s (nth_error_In _ _ ES)) in H. congruence. }
  split.
  - destruct (h_live (w_heap w)) as [|p l] eqn:EH; [reflexivity|]. assert (I : In p (h_live (w_heap w))) by (rewrite EH; now left). apply (v_live _ _ V) in I. destruct I as (k & i & a & E & _). elim (NONE k a E).
  - destruct (w_blocks w) as [|b l] eqn:EB; [reflexivity|]. assert (I : In b (w_blocks w)) by (rewrite EB; now left). destruct (v_blocks _ _ V b I) as (_ & _ & a & i & E & _). elim (NONE _ _ E).
Qed.

(** C37.  A block stays where it is: no later call other than destroying the
    arena that holds it moves or resizes it. *)
Theorem C37_blocks_stay : forall ops o w w', obeys [] (ops ++ [o]) -> arun world0 ops = Ok w -> arun world0 (ops ++ [o]) = Ok w' ->
  forall b, In b (w_blocks w) -> o <> Destroy (b_arena b) ->
  exists b', In b' (w_blocks w') /\ b_pool b' = b_pool b /\ b_off b' = b_off b /\ b_size b' = b_size b.
Proof.
  intros ops o w w' _ R R' b I ND.
  assert (S1 : forall l w0, arun w0 (l ++ [o]) = rbind (arun w0 l) (fun w => astep w o)).
  { induction l as [|x l IH]; intros w0; cbn [app arun]; [cbn [rbind]; destruct (astep w0 o); reflexivity|]. destruct (astep w0 x); cbn [rbind]; [apply IH|reflexivity]. }
  rewrite S1, R in R'. cbn [rbind] in R'. destruct o as [|k size|t s|k|k]; cbn [astep] in R'.
  - injection R' as <-. exists b. auto.
  - destruct (arena_of w k) as [a|]; cbn [rbind] in R'; [|discriminate]. destruct (lta_malloc (w_heap w) a size) as [[[[p off] a'] h']|]; cbn [rbind] in R'; [|discriminate]. injection R' as <-. exists b. cbn. auto.
  - destruct (arena_of w t) as [a|]; cbn [rbind] in R'; [|discriminate]. destruct (arena_of w s) as [x|]; cbn [rbind] in R'; [|discriminate]. destruct (lta_merge a x) as [c|]; cbn [rbind] in R'; [|discriminate]. injection R' as <-. cbn [w_blocks].
    eexists. split; [apply in_map, I|]. destruct (Nat.eqb (b_arena b) s); auto.
  - destruct (arena_of w k) as [a|]; cbn [rbind] in R'; [|discriminate]. injection R' as <-. exists b. auto.
  - destruct (arena_of w k) as [a|]; cbn [rbind] in R'; [|discriminate]. destruct (lta_destroy (w_heap w) a) as [h|]; cbn [rbind] in R'; [|discriminate]. injection R' as <-. exists b. split; [|auto]. cbn [w_blocks]. apply filter_In. split; [exact I|]. destruct (Nat.eqb_spec (b_arena b) k); [congruence|reflexivity].
Qed.

(** C37.  The rule that a closed arena takes no more requests is needed: after
    [lta_close] the recorded capacity is stale, and a request that needs a new
    pool writes past the array. *)
Theorem C37_malloc_after_close_refuted :
  ~ (forall ops k size, obeys [] ops -> nth_error (statuses ops) k = Some Closed -> 0 < size <= 256 -> exists w, arun world0 (ops ++ [Malloc k size]) = Ok w).
Proof.
  intros H. destruct (H [New; Malloc 0 256; Malloc 0 256; Malloc 0 256; Malloc 0 256; Close 0] 0 1) as (w & E); [repeat split; first [lia|left; reflexivity|right; reflexivity]|reflexivity|lia|]. vm_compute in E. discriminate.
Qed.

(** Two arenas, one merged into the other; a third destroyed. *)
Definition ex_ops : list aop :=
  [New; New; Malloc 0 200; Malloc 1 256; Malloc 1 256; Malloc 1 256; Malloc 1 250; Malloc 1 7; Merge 0 1; Malloc 0 30; New; Malloc 2 9; Destroy 2; Close 0].
Example C37_witness : obeys [] ex_ops /\
  (exists w, arun world0 ex_ops = Ok w /\ map (fun b => (b_pool b, b_off b, b_size b)) (w_blocks w) = [(0, 200, 30); (2, 0, 7); (1, 768, 250); (1, 512, 256); (1, 256, 256); (1, 0, 256); (0, 0, 200)] /\ h_live (w_heap w) = [2; 1; 0]) /\
  obeys [] (ex_ops ++ [Destroy 0]) /\ statuses (ex_ops ++ [Destroy 0]) = [Gone; Gone; Gone] /\
  exists w, arun world0 (ex_ops ++ [Destroy 0]) = Ok w.
Proof.
  split; [repeat split; first [lia|left; reflexivity|right; reflexivity]|]. split; [eexists; split; [vm_compute; reflexivity|]; split; reflexivity|].
  split; [repeat split; first [lia|left; reflexivity|right; reflexivity]|]. split; [reflexivity|]. eexists. vm_compute. reflexivity.
Qed.

Print Assumptions C37_blocks_apart.
Print Assumptions C37_nothing_leaks.
Print Assumptions C37_blocks_stay.
Print Assumptions C37_malloc_after_close_refuted.
