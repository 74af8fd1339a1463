(** What the hash tables of the configuration are: lists of entries in the order they were added,
    with a mark for each *)
From Coq Require Import Permutation.
From Verif Require Import Base VhashModel.
Local Open Scope N_scope.

Definition same (a b : bytes) : {a = b} + {a <> b} := list_eq_dec N.eq_dec a b.

Section Table.
  Context {V : Type}.
  Definition table := list (bytes * bool * V).
  Implicit Types t : table.

  Definition keys t : list bytes := map (fun e => fst (fst e)) t.

  Fixpoint value (k : bytes) t : option V :=
    match t with
    | [] => None
    | (k', _, v) :: t' => if same k k' then Some v else value k t'
    end.
  Fixpoint place (k : bytes) t : option N :=
    match t with
    | [] => None
    | (k', _, _) :: t' => if same k k' then Some 0 else option_map N.succ (place k t')
    end.
  Definition mark (k : bytes) t : table :=
    map (fun e => if same k (fst (fst e)) then (fst (fst e), true, snd e) else e) t.

  (** What a callback is given: all entries, or the ones without a mark, until it says stop *)
  Fixpoint visits (f : list (bytes * V) -> bool) (seen l : list (bytes * V)) : list (bytes * V) :=
    match l with
    | [] => seen
    | e :: l' => if f (seen ++ [e]) then visits f (seen ++ [e]) l' else seen ++ [e]
    end.
  Definition entries (unmarked_only : bool) t : list (bytes * V) :=
    map (fun e => (fst (fst e), snd e)) (filter (fun e => negb (unmarked_only && snd (fst e))) t).

  Definition at_place {A} (l : list A) (i : N) : option A :=
    if i <? N.of_nat (length l) then nth_error l (N.to_nat i) else None.

  Definition moved {A} (l : list A) (ps : list nat) : list A :=
    flat_map (fun p => match nth_error l p with Some a => [a] | None => [] end) ps.

  Definition sstep (o : op (V := V)) t : out * table :=
    match o with
    | Add k v => match value k t with Some _ => (Added false, t) | None => (Added true, t ++ [(k, false, v)]) end
    | Get k m => (Value (value k t), if m then mark k t else t)
    | Len => (Count (N.of_nat (length t)), t)
    | KeyAt i => (Key (at_place (keys t) i), t)
    | DataAt i => (Value (at_place (map snd t) i), t)
    | IndexOf k => (Index (place k t), t)
    | Each ig f => (Seen (visits f [] (entries ig t)), t)
    | Sort srt => (Done, moved t (srt (keys t)))
    end.
  Fixpoint srun (os : list op) t : list out :=
    match os with [] => [] | o :: os' => let '(r, t') := sstep o t in r :: srun os' t' end.

  (** qsort moves, and neither loses nor doubles *)
  Definition sorts (o : op (V := V)) : Prop :=
    match o with
    | Sort srt => forall ks, Permutation (srt ks) (seq 0 (length ks))
    | _ => True
    end.
End Table.
Arguments table : clear implicits.

(** ** Trees *)

Inductive tree := TS (rval val : bytes) | TA (l : list tree) | TH (t : list (bytes * bool * tree)).

(** A copy: no marks; and without what was marked, if so wished *)
Fixpoint copy (unmarked_only : bool) (t : tree) : tree :=
  match t with
  | TS r v => TS r v
  | TA l => TA (map (copy unmarked_only) l)
  | TH es => TH (flat_map (fun e => if unmarked_only && snd (fst e) then [] else [(fst (fst e), false, copy unmarked_only (snd e))]) es)
  end.

(** The key and a copy of its value, unless there is one already *)
Definition inherited (k : bytes) (v : tree) (t : list (bytes * bool * tree)) : list (bytes * bool * tree) :=
  match value k t with Some _ => t | None => t ++ [(k, false, copy false v)] end.

(** Everything that is missing *)
Definition inherited_all (unmarked_only : bool) (src dest : list (bytes * bool * tree)) : list (bytes * bool * tree) :=
  dest ++ flat_map (fun e => if unmarked_only && snd (fst e) then [] else
                             match value (fst (fst e)) dest with Some _ => [] | None => [(fst (fst e), false, copy false (snd e))] end) src.

(** All other entries that are hashes inherit [k] *)
Definition bequeathed (k : bytes) (v : tree) (unmarked_only : bool) (t : list (bytes * bool * tree)) : list (bytes * bool * tree) :=
  map (fun e => if same k (fst (fst e)) then e else
                match snd e with
                | TH es => if unmarked_only && snd (fst e) then e else (fst e, TH (inherited k v es))
                | _ => e
                end) t.

(** What a data structure stands for *)
Section Meaning.
  Fixpoint tree_of (d : vdata) : tree :=
    match d with
    | DS r v => TS r v
    | DA l => TA (map tree_of l)
    | DH h => TH (flat_map (fun o => match o with
                                     | Some id => match nth_error (map (fun e => (hkey e, hmark e, tree_of (hval e))) (heap h)) id with
                                                  | Some x => [x] | None => []
                                                  end
                                     | None => []
                                     end) (ordered h))
    end.
End Meaning.

(** Every data structure there can be: what the functions of the interface make of one another.
    A value deep inside may be changed too ([M_inside]). *)
Section Made.
  Variable mm3 : bytes -> N.
  Definition room (d : vdata) : Prop := match d with DH h => child_count h < 2 ^ 31 - 1 | _ => True end.
  Inductive made : vdata -> Prop :=
  | M_simple r v : made (DS r v)
  | M_array l : (forall x, In x l -> made x) -> made (DA l)
  | M_new : made (DH hash_new)
  | M_op h o r h' : made (DH h) -> room (DH h) -> sorts o -> (forall k v, o = Add k v -> made v) ->
      step mm3 o h = Ok (r, h') -> made (DH h')
  | M_inside h id e d : made (DH h) -> nth_error (heap h) id = Some e -> made d ->
      made (DH (Vh (child_count h) (children h) (ordered h) (upd (heap h) id (He (hkey e) (hindex e) (hmark e) d))))
  | M_clone ig d d' : made d -> val_clone mm3 ig d = Ok d' -> made d'
  | M_inherit_src src dest k m src' dest' : made (DH src) -> made (DH dest) -> room (DH dest) ->
      inherit mm3 src dest k m = Ok (src', dest') -> made (DH src')
  | M_inherit_dest src dest k m src' dest' : made (DH src) -> made (DH dest) -> room (DH dest) ->
      inherit mm3 src dest k m = Ok (src', dest') -> made (DH dest')
  | M_inherit_all src dest ig dest' : made (DH src) -> made (DH dest) -> child_count src + child_count dest < 2 ^ 31 ->
      inherit_all mm3 src dest ig = Ok dest' -> made (DH dest')
  | M_bequeath src k m ig b src' : made (DH src) -> Forall (fun e => room (hval e)) (heap src) ->
      bequeath_all mm3 src k m ig = Ok (b, src') -> made (DH src').
End Made.
