(** What users of a map may rely on while its data is reloaded. *)
From Verif Require Import Base MapsModel.
Set Implicit Arguments.

Definition same_pointer (a b : option nat) : bool :=
  match a, b with Some a, Some b => a =? b | None, None => true | _, _ => false end.

Section Spec.
  Variables Net Client : Type.
  Variable choose : forall D : Type, option (list (Net * D)) -> list (Net * D) -> Client -> option D.

  (** Lookups decide by network; what a network is labelled with does not matter. *)
  Definition relabel {D E} (f : D -> E) (l : list (Net * D)) : list (Net * E) := map (fun x => (fst x, f (snd x))) l.
  Definition by_network : Prop :=
    forall D E (f : D -> E) g n c, choose (option_map (relabel f) g) (relabel f n) c = option_map f (choose g n c).

  (** The data last loaded without error, and the data every update put in force, in order. *)
  Record data := { s_geo : option (file Net); s_nets : file Net; pubs : list (option (file Net) * file Net) }.
  Definition none : data := {| s_geo := None; s_nets := []; pubs := [] |}.
  (** the list a client gets from such data *)
  Definition says (default : dclist) (v : option (file Net) * file Net) (c : Client) : dclist :=
    match choose (fst v) (snd v) c with Some l => l | None => default end.

  Definition idle (s : state Net Client) : bool := match w_pc s with Idle => true | _ => false end.
  (** A step [o] from [s] to [s'] as seen from outside. *)
  Definition seen (s s' : state Net Client) (o : op Net Client) (d : data) : data :=
    match o with
    | Load true f true => if idle s then {| s_geo := Some f; s_nets := s_nets d; pubs := pubs d |} else d
    | Load false f true => if idle s then {| s_geo := s_geo d; s_nets := f; pubs := pubs d |} else d
    | Update =>
        if same_pointer (p_tree s) (p_tree s') then d  (* nothing new in force *)
        else {| s_geo := s_geo d; s_nets := s_nets d; pubs := pubs d ++ [(s_geo d, s_nets d)] |}
    | _ => d
    end.
  Fixpoint watch (s : state Net Client) (d : data) (ops : list (op Net Client)) : res (state Net Client * data) :=
    match ops with
    | [] => Ok (s, d)
    | o :: ops => do s' <- step choose s o; watch s' (seen s s' o d) ops
    end.

  (** A right answer: what the data of one update says, and that update was in
      force when the reader's section began, or came into force later. *)
  Definition right (default : dclist) (d : data) (a : answer Client) : Prop :=
    exists v, nth_error (pubs d) (a_version a) = Some v /\ a_list a = says default v (a_client a) /\ a_from a <= S (a_version a).

  (** loads without error *)
  Definition good_load (o : op Net Client) : bool := match o with Load _ _ ok => ok | _ => false end.

  (** The processor keeps the reader's two loads in order. *)
  Definition in_order (o : op Net Client) : Prop := match o with Prefetch _ => False | _ => True end.
End Spec.
