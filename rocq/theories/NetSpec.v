(** What a map of networks promises, without the lists and trees. *)
From Verif Require Import Base NetModel.
From Coq Require Import Permutation Sorted.

Definition is_ip (ip : bytes) : Prop := length ip = 16 /\ all_bytes ip.
(** bit [i] of an address, counted from the front *)
Definition bit (ip : bytes) (i : nat) : bool := N.testbit (nth (i / 8) ip 0%N) (N.of_nat (7 - i mod 8)).
Definition share (m : nat) (x y : bytes) : Prop := forall i, i < m -> bit x i = bit y i.
Definition covers (n : net) (x : bytes) : Prop := share (n_mask n) (n_ip n) x.

(** the list number of a longest network covering [x] *)
Definition longest (l : list net) (x : bytes) (d : N) : Prop :=
  exists n, In n l /\ covers n x /\ n_dc n = d /\ forall n', In n' l -> covers n' x -> n_mask n' <= n_mask n.
Definition uncovered (l : list net) (x : bytes) : Prop := forall n, In n l -> ~ covers n x.
(** ... and 0, the default, without one *)
Definition maps_to (l : list net) (x : bytes) (d : N) : Prop := longest l x d \/ (uncovered l x /\ d = 0%N).

(** qsort: a sorted rearrangement *)
Definition sort_ok (sort : list net -> list net) : Prop :=
  forall l, Permutation (sort l) l /\ StronglySorted net_le (sort l).

(** what is configured *)
Definition cnet_ok (c : cnet) : Prop :=
  match c with
  | CN4 ip _ d => length ip = 4 /\ all_bytes ip /\ (d < 2147483647)%N
  | CN6 ip _ d => is_ip ip /\ (d < 2147483647)%N
  end.
Definition conf_nets (cfg : list cnet) : list net :=
  flat_map (fun c => match nets_one c with Some n => [n] | None => [] end) cfg.

(** no network is given twice with different lists *)
Definition no_conflict (l : list net) : Prop :=
  forall a b, In a l -> In b l -> n_mask a = n_mask b -> share (n_mask a) (n_ip a) (n_ip b) -> n_dc a = n_dc b.

(** addresses *)
Definition caddr_ok (c : caddr) : Prop :=
  match c with C4 b => length b = 4 /\ all_bytes b | C6 b => is_ip b end.
Definition starts (b p : bytes) : Prop := exists r, b = p ++ r.
Definition startsb (b p : bytes) : bool := same (length p) b p.
(** The IPv6 address that stands for a client: IPv4 lives at ::/96; mapped,
    SIIT, well-known prefix, Teredo and 6to4 addresses are taken as the IPv4
    address they contain. *)
Definition canon (c : caddr) : bytes :=
  match c with
  | C4 b => repeat 0%N 12 ++ b
  | C6 b =>
      if startsb b (repeat 0%N 10 ++ [255; 255]%N) then repeat 0%N 12 ++ skipn 12 b
      else if startsb b (repeat 0%N 8 ++ [255; 255; 0; 0]%N) then repeat 0%N 12 ++ skipn 12 b
      else if startsb b ([0; 100; 255; 155]%N ++ repeat 0%N 8) then repeat 0%N 12 ++ skipn 12 b
      else if startsb b [32; 1; 0; 0]%N then repeat 0%N 12 ++ map (fun v => 255 - v)%N (skipn 12 b)
      else if startsb b [32; 2]%N then repeat 0%N 12 ++ firstn 4 (skipn 2 b)
      else b
  end.
(** every network is the longest match of some client *)
Definition all_reached (l : list net) : Prop :=
  forall n, In n l -> exists c, caddr_ok c /\ covers n (canon c) /\ forall n', In n' l -> covers n' (canon c) -> n_mask n' <= n_mask n.
(** the bytes of a client's address as it came *)
Definition raw (c : caddr) : bytes := match c with C4 b => b | C6 b => b end.
Definition same_family (c c' : caddr) : Prop :=
  match c, c' with C4 _, C4 _ => True | C6 _, C6 _ => True | _, _ => False end.

(** What the database says about [x], [depth] bits from the end, at a node.
    [None]: it is broken there. *)
Fixpoint db_says (read_node : N -> option (mrec * mrec)) (get_dc : N -> option N) (depth : nat) (x : bytes) (node : N) : option N :=
  match depth with
  | O => None
  | S nd =>
      match read_node node with
      | None => None
      | Some (z, o) =>
          match (if bit x (127 - nd) then o else z) with
          | RNode n => db_says read_node get_dc nd x n
          | REmpty => Some 0%N
          | RData off => get_dc off
          | RBad => None
          end
      end
  end.
(** the whole database: all of the space, or IPv4 only *)
Definition geo_says read_node get_dc (v4 : bool) (x : bytes) (d : N) : Prop :=
  if v4 then (if same 12 x zeros then db_says read_node get_dc 32 x 0 = Some d else d = 0%N)
  else db_says read_node get_dc 128 x 0 = Some d.

(** The network a configuration line names, and which lines are accepted:
    none may lie inside a space that stands for IPv4. *)
Definition the_net (c : cnet) : net :=
  match c with
  | CN4 ip m d => {| n_ip := repeat 0%N 12 ++ ip; n_mask := 96 + m; n_dc := d |}
  | CN6 ip m d => {| n_ip := ip; n_mask := m; n_dc := d |}
  end.
Definition v4_prefixes : list bytes :=
  [repeat 0%N 10 ++ [255; 255]; repeat 0%N 8 ++ [255; 255; 0; 0]; [0; 100; 255; 155] ++ repeat 0%N 8; [32; 1; 0; 0]; [32; 2]]%N.
Definition accepted (c : cnet) : Prop :=
  match c with
  | CN4 _ m _ => m <= 32
  | CN6 ip m _ => m <= 128 /\ forall p, In p v4_prefixes -> 8 * length p <= m -> ~ starts ip p
  end.

(** What a client is known by: its subnet option if it sent one with a
    prefix, and that is not to be ignored; else where it sends from. *)
Definition by_subnet (cl : client) (ign : bool) : Prop := c_ecs_mask cl <> 0%N /\ ign = false.
Definition known_by (cl : client) (ign : bool) : caddr :=
  if (c_ecs_mask cl =? 0)%N || ign then c_source cl else c_ecs cl.
Definition client_ok (cl : client) : Prop := caddr_ok (c_source cl) /\ caddr_ok (c_ecs cl).

(** the database has an entry for every address, and its list numbers fit *)
Definition db_whole (db : geodb) : Prop :=
  forall b, is_ip b -> db_says (g_node db) (g_dc db) (if g_v4 db then 32 else 128) b 0 <> None.
Definition db_fits (db : geodb) : Prop := forall off d, g_dc db off = Some d -> (d < 2147483647)%N.
(** how many networks the database holds *)
Fixpoint db_size (read_node : N -> option (mrec * mrec)) (depth : nat) (node : N) : nat :=
  match depth with
  | O => 0
  | S nd =>
      match read_node node with
      | None => 0
      | Some (z, o) =>
          let one r := match r with RNode n => db_size read_node nd n | _ => 1 end in one z + one o
      end
  end.
(** The tree has room for 2^24 nodes; each network takes at most 127. *)
Definition fits (db : option geodb) (cfg : list cnet) : Prop :=
  let g := match db with None => 0 | Some db => db_size (g_node db) (if g_v4 db then 32 else 128) 0 end in
  (N.of_nat (1 + 127 * (g + length cfg + 5)) <= 2 ^ 24)%N.

(** What a map answers: the configured networks first, then the database; the
    default without either. *)
Definition answers (db : option geodb) (l : list net) (x : bytes) (d : N) : Prop :=
  longest l x d \/ (uncovered l x /\ match db with None => d = 0%N | Some db => geo_says (g_node db) (g_dc db) (g_v4 db) x d end).
