(** What the clients of a map with a database get *)
From Coq Require Import String ZArith Permutation.
From Verif Require Import Base DnameModel CompModel RespModel MonModel VscfModel VscfSpec OptModel VhashModel VhashSpec PlugModel MsgModel LtreeModel PconfModel PconfSpec McfModel McfSpec GmapModel GmapSpec GdbModel.
From Verif Require LocModel LocSpec NetModel NetSpec.
Local Open Scope N_scope.
Local Open Scope list_scope.
Local Notation length := List.length.

(** What a database has for an address of 128 bits, from the bit [128 - depth] on: nothing, or the offset of an entry.
    [None]: it is broken there. *)
Inductive found := Nothing | At (off : N).
Fixpoint record_for (nodes : N -> option (NetModel.mrec * NetModel.mrec)) (depth : nat) (x : bytes) (node : N) : option found :=
  match depth with
  | O => None
  | S nd =>
      match nodes node with
      | None => None
      | Some (zero, one) =>
          match (if NetSpec.bit x (127 - nd) then one else zero) with
          | NetModel.RNode n => record_for nodes nd x n
          | NetModel.REmpty => Some Nothing
          | NetModel.RData off => Some (At off)
          | NetModel.RBad => None
          end
      end
  end.
(** A database for IPv4 has nothing for other addresses *)
Definition db_has (b : mmdb) (x : bytes) : option found :=
  if b_ip b =? 4 then (if NetModel.same 12 x NetModel.zeros then record_for (b_node b) 32 x 0 else Some Nothing)
  else record_for (b_node b) 128 x 0.

(** A City database names City in its type *)
Definition city (b : mmdb) : Prop := exists p s, c_str (b_type b) = p ++ txt "City" ++ s.
(** The databases that are used *)
Definition usable (b : mmdb) (auto : bool) : Prop :=
  b_dated b = true /\ b_major b = 2 /\ b_record_size b <= 32 /\ (b_ip b = 4 \/ b_ip b = 6) /\ (auto = true -> city b).
(** A database without damage *)
Definition undamaged (b : mmdb) : Prop :=
  (forall x, NetSpec.is_ip x -> record_for (b_node b) (if b_ip b =? 4 then 32 else 128) x 0 <> None) /\ (forall o, LocSpec.entry_ok (b_entry b o)).
(** how many networks it holds *)
Definition networks (b : mmdb) : nat := NetSpec.db_size (b_node b) (if b_ip b =? 4 then 32 else 128) 0.

Section Clients.
  Context {D : Type}.
  Variable geodist : point -> point -> D.
  Variable ltb : D -> D -> bool.
  (** The numbers of the datacenters for an address: those of a longest network in the configuration that covers it; without one
      those for the place of its entry in the database; without an entry the default *)
  Definition list_for (w : map_want) (i : info) (b : mmdb) (l : list net_want) (x : bytes) (ds : list nat) : Prop :=
    (exists n, In n l /\ NetSpec.covers (line_net n) x /\ Forall2 (numbered (w_names w)) (snd n) ds /\
      forall n', In n' l -> NetSpec.covers (line_net n') x -> (NetModel.n_mask (line_net n') <= NetModel.n_mask (line_net n))%nat) \/
    ((forall n, In n l -> ~ NetSpec.covers (line_net n) x) /\
     match db_has b x with
     | None => False
     | Some Nothing => ds = LocSpec.default_list i (LocSpec.has (w_coords w)) (w_map w)
     | Some (At off) => exists is_city, (is_city = true <-> city b) /\
         LocSpec.right_list geodist ltb i (LocSpec.has (w_coords w)) is_city (w_map w) (b_entry b (N.to_nat off)) ds
     end).
End Clients.
