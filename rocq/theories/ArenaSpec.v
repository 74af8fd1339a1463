(** What users of arenas must obey and may expect. *)
From Verif Require Import Base ArenaModel.

(** An arena can be used until it is closed, merged into another or destroyed. *)
Inductive status := Open | Closed | Gone.
Definition status_step (st : list status) (o : aop) : list status :=
  match o with
  | New => st ++ [Open]
  | Malloc _ _ => st
  | Merge _ s => upd st s Gone
  | Close k => upd st k Closed
  | Destroy k => upd st k Gone
  end.
Definition allowed (st : list status) (o : aop) : Prop :=
  match o with
  | New => True
  | Malloc k size => nth_error st k = Some Open /\ 0 < size <= 256
  | Merge t s => t <> s /\ nth_error st t = Some Open /\ nth_error st s = Some Open
  | Close k | Destroy k => nth_error st k = Some Open \/ nth_error st k = Some Closed
  end.
Fixpoint obeys (st : list status) (ops : list aop) : Prop :=
  match ops with
  | [] => True
  | o :: ops => allowed st o /\ obeys (status_step st o) ops
  end.
Definition statuses (ops : list aop) : list status := fold_left status_step ops [].

(** Two blocks share no byte. *)
Definition apart (a b : block) : Prop := b_pool a = b_pool b -> b_off a + b_size a <= b_off b \/ b_off b + b_size b <= b_off a.

(** The blocks a program was given and still holds, told from its calls alone:
    for whom, and how big. *)
Definition held_step (held : list (nat * nat)) (o : aop) : list (nat * nat) :=
  match o with
  | Malloc k size => (k, size) :: held
  | Merge t s => map (fun b => (if Nat.eqb (fst b) s then t else fst b, snd b)) held
  | Destroy k => filter (fun b => negb (Nat.eqb (fst b) k)) held
  | _ => held
  end.
Definition held (ops : list aop) : list (nat * nat) := fold_left held_step ops [].
