(** The label arena: src/ltarena.c. *)
From Verif Require Import Base.

Definition MAX_OBJ : nat := 256.
Definition POOL_SIZE : nat := 1024.
Definition INIT_POOLS_ALLOC : nat := 4.

(** [struct ltarena], ltarena.c:57-62.  [a_pools]: the array as it is
    allocated; a pool is known by a number; [None] is not yet written. *)
Record arena := { a_pools : list (option nat); a_pool : nat; a_poffs : nat; a_palloc : nat }.
(** The heap: pools in use, and the number of the next one. *)
Record heap := { h_live : list nat; h_next : nat }.
Definition xcalloc (h : heap) : nat * heap := (h_next h, {| h_live := h_next h :: h_live h; h_next := S (h_next h) |}).
Definition free (h : heap) (p : option nat) : res heap :=
  match p with
  | Some p => if in_dec Nat.eq_dec p (h_live h) then Ok {| h_live := remove Nat.eq_dec p (h_live h); h_next := h_next h |} else UB
  | None => UB
  end.
(** xrealloc_n on the array *)
Definition realloc {A} (l : list (option A)) (n : nat) : list (option A) := firstn n l ++ repeat None (n - length l).

(** [lta_new], ltarena.c:64-71. *)
Definition lta_new (h : heap) : arena * heap :=
  let (p, h) := xcalloc h in
  ({| a_pools := Some p :: repeat None (INIT_POOLS_ALLOC - 1); a_pool := 0; a_poffs := 0; a_palloc := INIT_POOLS_ALLOC |}, h).

(** [lta_close], ltarena.c:73-76. *)
Definition lta_close (a : arena) : arena :=
  {| a_pools := realloc (a_pools a) (a_pool a + 1); a_pool := a_pool a; a_poffs := a_poffs a; a_palloc := a_palloc a |}.

(** [lta_destroy], ltarena.c:78-85. *)
Fixpoint free_all (h : heap) (l : list (option nat)) : res heap :=
  match l with
  | [] => Ok h
  | p :: l => do h <- free h p; free_all h l
  end.
Definition lta_destroy (h : heap) (a : arena) : res heap :=
  do l <- rdn (a_pools a) 0 (a_pool a + 1);
  free_all h (rev l).

(** the loop of [lta_merge]: size_t does not overflow; [n] doublings do *)
Fixpoint double (fuel n palloc : nat) : nat :=
  match fuel with
  | O => palloc
  | S fuel => if Nat.leb palloc n then double fuel n (2 * palloc) else palloc
  end.
(** [lta_merge], ltarena.c:87-105. *)
Definition lta_merge (t s : arena) : res arena :=
  do last <- rd (a_pools t) (a_pool t);
  let source_pool_count := a_pool s + 1 in
  let new_pool_count := source_pool_count + a_pool t + 1 in
  let palloc := double (S new_pool_count) new_pool_count (a_palloc t) in
  let pools := if Nat.leb (a_palloc t) new_pool_count then realloc (a_pools t) palloc else a_pools t in
  do src <- rdn (a_pools s) 0 source_pool_count;
  do pools <- wr pools (a_pool t) src;
  let pool := a_pool t + a_pool s + 1 in
  do pools <- wr pools pool [last];
  Ok {| a_pools := pools; a_pool := pool; a_poffs := a_poffs t; a_palloc := palloc |}.

(** [lta_malloc], ltarena.c:107-132: the pool and the offset. *)
Definition lta_malloc (h : heap) (a : arena) (size : nat) : res (nat * nat * arena * heap) :=
  rassert (Nat.ltb 0 size && Nat.leb size MAX_OBJ)
  (do (a, h) <-
     (if Nat.ltb POOL_SIZE (a_poffs a + size) then
        let pool := S (a_pool a) in
        let palloc := if Nat.eqb pool (a_palloc a) then 2 * a_palloc a else a_palloc a in
        let pools := if Nat.eqb pool (a_palloc a) then realloc (a_pools a) palloc else a_pools a in
        let (p, h) := xcalloc h in
        do pools <- wr pools pool [Some p];
        Ok ({| a_pools := pools; a_pool := pool; a_poffs := 0; a_palloc := palloc |}, h)
      else Ok (a, h));
   do p <- rd (a_pools a) (a_pool a);
   match p with
   | None => UB
   | Some p => Ok (p, a_poffs a, {| a_pools := a_pools a; a_pool := a_pool a; a_poffs := a_poffs a + size; a_palloc := a_palloc a |}, h)
   end).

(** ** Programs that use arenas *)
(** An arena is named by the order in which it was made. *)
Inductive aop := New | Malloc (k size : nat) | Merge (into from : nat) | Close (k : nat) | Destroy (k : nat).
(** a block that was given out: for which arena, pool, offset, size *)
Record block := { b_arena : nat; b_pool : nat; b_off : nat; b_size : nat }.
Record world := { w_arenas : list (option arena); w_heap : heap; w_blocks : list block }.
Definition arena_of (w : world) (k : nat) : res arena :=
  match nth_error (w_arenas w) k with Some (Some a) => Ok a | _ => UB end.
(** One call.  The blocks are only a record of what was handed out: a merge
    makes the source's blocks the target's, a destroy ends them. *)
Definition astep (w : world) (o : aop) : res world :=
  match o with
  | New => let (a, h) := lta_new (w_heap w) in Ok {| w_arenas := w_arenas w ++ [Some a]; w_heap := h; w_blocks := w_blocks w |}
  | Malloc k size =>
      do a <- arena_of w k;
      do (p, off, a, h) <- lta_malloc (w_heap w) a size;
      Ok {| w_arenas := upd (w_arenas w) k (Some a); w_heap := h; w_blocks := {| b_arena := k; b_pool := p; b_off := off; b_size := size |} :: w_blocks w |}
  | Merge t s =>
      do a <- arena_of w t;
      do b <- arena_of w s;
      do a <- lta_merge a b;
      Ok {| w_arenas := upd (upd (w_arenas w) s None) t (Some a); w_heap := w_heap w;
            w_blocks := map (fun b => if Nat.eqb (b_arena b) s then {| b_arena := t; b_pool := b_pool b; b_off := b_off b; b_size := b_size b |} else b) (w_blocks w) |}
  | Close k => do a <- arena_of w k; Ok {| w_arenas := upd (w_arenas w) k (Some (lta_close a)); w_heap := w_heap w; w_blocks := w_blocks w |}
  | Destroy k =>
      do a <- arena_of w k;
      do h <- lta_destroy (w_heap w) a;
      Ok {| w_arenas := upd (w_arenas w) k None; w_heap := h; w_blocks := filter (fun b => negb (Nat.eqb (b_arena b) k)) (w_blocks w) |}
  end.
Fixpoint arun (w : world) (ops : list aop) : res world :=
  match ops with
  | [] => Ok w
  | o :: ops => do w <- astep w o; arun w ops
  end.
Definition world0 : world := {| w_arenas := []; w_heap := {| h_live := []; h_next := 0 |}; w_blocks := [] |}.
