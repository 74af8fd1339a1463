(** What the map of places and the automatic lists promise. *)
From Verif Require Import Base LocModel.
From Coq Require Import Permutation.
Set Implicit Arguments.

Definition has {A} (o : option A) : bool := match o with Some _ => true | None => false end.
(** the limit: configured, or 3; never more than the datacenters with coordinates *)
Definition limit_for (lim : option nat) (n : nat) : nat := match lim with None => Nat.min 3 n | Some 0 => n | Some l => Nat.min l n end.

Section Spec.
  Variables P D : Type.
  Variables (geodist : P -> P -> D) (ltb : D -> D -> bool).

  (** [ltb] orders distances: a strict weak order. *)
  Definition orders : Prop :=
    (forall a, ltb a a = false) /\
    (forall a b c, ltb a b = true -> ltb b c = true -> ltb a c = true) /\
    (forall a b c, ltb a c = true -> ltb a b = true \/ ltb b c = true).

  (** How far datacenter number [dc] is from [p]: [None] without coordinates, which is
      farther than anything. *)
  Definition away (info : dcinfo P) (p : P) (dc : nat) : option D := match nth_error (i_coords info) (dc - 1) with Some (Some q) => Some (geodist p q) | _ => None end.
  Definition nearer (a b : option D) : Prop :=
    match a, b with Some a, Some b => ltb a b = true | Some _, None => True | None, _ => False end.

  (** datacenter number [dc] has coordinates *)
  Definition located (info : dcinfo P) (dc : nat) : bool := has (nth (dc - 1) (i_coords info) None).

  (** [s] is [l] in order of distance from [p]; what is equally far stays in the order of [l]. *)
  Definition before (l : list nat) (a b : nat) : Prop := exists x y z, l = x ++ a :: y ++ b :: z.
  Definition by_distance (info : dcinfo P) (p : P) (l s : list nat) : Prop :=
    Permutation s l /\
    forall a b, before s a b -> nearer (away info p a) (away info p b) \/ (~ nearer (away info p b) (away info p a) /\ before l a b).
  (** the list for a client at [p]: the nearest ones, as many as the limit allows *)
  Definition nearest (info : dcinfo P) (default : list nat) (p : P) (out : list nat) : Prop :=
    exists s, by_distance info p default s /\ out = firstn (i_limit info) s.

  (** Names of a place, from the continent down; what follows a missing one is unknown. *)
  Definition heard (g : got (list N)) : name := match g with Got b => cstr b | _ => [] end.
  Fixpoint upto (l : list name) : list name := match l with [] => [] | [] :: _ => [] | n :: l => n :: upto l end.
  Fixpoint divisions (e : entry P) (i todo : nat) : list name :=
    match todo with
    | 0 => []
    | S todo => match e_subdivision e i with
                | Got b => cstr b :: divisions e (S i) todo
                | _ => [heard (e_city e)]
                end
    end.
  Definition place (is_city : bool) (e : entry P) : list name :=
    upto (heard (e_continent e) :: heard (e_country e) :: if is_city then divisions e 0 10 else []).

  (** What a list in the configuration stands for: datacenters, or ([None]) "auto". *)
  Definition numbers (info : dcinfo P) (l : list name) : list nat := map (name2num info) l.
  Definition rule_of (info : dcinfo P) (auto : bool) (l : list name) : option (list nat) :=
    if auto && match l with [n] => name_eqb n auto_name | _ => false end then None else Some (numbers info l).
  Inductive item := IList (l : list name) | ISub (m : mapcfg).
  Fixpoint entry_for (n : name) (es : entries) : option item :=
    match es with
    | ENone => None
    | EList k l es => if name_eq_ci n k then Some (IList l) else entry_for n es
    | ESub k m es => if name_eq_ci n k then Some (ISub m) else entry_for n es
    end.
  (** The rule for a place.  In a map of continents or of countries the place must
      be listed by that name; below the country any deeper name will do.  Else
      the map's default, or that of the map around it. *)
  Fixpoint rule_at (info : dcinfo P) (auto : bool) (m : mapcfg) (inherited : option (list nat)) (level : nat) (names : list name) : option (list nat) :=
    match m with
    | Hash def es =>
        let mine := match def with Some l => rule_of info auto l | None => inherited end in
        match names with
        | [] => mine
        | n :: names =>
            match entry_for n es with
            | Some (IList l) => rule_of info auto l
            | Some (ISub m') => rule_at info auto m' mine (S level) names
            | None => if level <? 2 then mine else rule_at info auto m inherited (S level) names
            end
        end
    end.
  (** the list for places that are unknown *)
  Definition all_dcs (info : dcinfo P) : list nat := seq 1 (length (i_names info)).
  Definition default_list (info : dcinfo P) (auto : bool) (m : option mapcfg) : list nat :=
    match m with
    | Some (Hash (Some l) _) => match rule_of info auto l with Some r => r | None => all_dcs info end
    | _ => all_dcs info
    end.
  Definition rule_for (info : dcinfo P) (auto is_city : bool) (m : option mapcfg) (e : entry P) : option (list nat) :=
    match m with
    | None => None
    | Some m => rule_at info auto m (if auto then None else Some (all_dcs info)) 0 (place is_city e)
    end.
  (** the list a database entry leads to *)
  Definition right_list (info : dcinfo P) (auto is_city : bool) (m : option mapcfg) (e : entry P) (l : list nat) : Prop :=
    match rule_for info auto is_city m e with
    | Some r => l = r
    | None => match e_lat_lon e with
              | Got p => nearest info (default_list info auto m) p l
              | _ => l = default_list info auto m
              end
    end.

  (** an entry without damage and without names that do not fit the buffer *)
  Definition fits (g : got (list N)) : Prop := match g with Got b => length b < 128 | Absent => True | Broken => False end.
  Definition entry_ok (e : entry P) : Prop :=
    fits (e_continent e) /\ fits (e_country e) /\ fits (e_city e) /\ (forall i, fits (e_subdivision e i)) /\ e_lat_lon e <> Broken.
End Spec.
