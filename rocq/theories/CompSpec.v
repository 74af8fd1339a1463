(** RFC 1035 name decompression as a relation.  Independent of the code. *)
From Verif Require Import Base DnameSpec.
Local Open Scope N_scope.

(** [name_at pkt off ls e]: the name starting at [off] reads as [ls], and its
    own bytes end before [e].  A pointer must point strictly backwards (and so
    below 2^14), hence reading always ends; no part of a name lies in the
    12-byte header. *)
Inductive name_at (pkt : bytes) : nat -> list (list N) -> nat -> Prop :=
| na_root off : (12 <= off)%nat -> nth_error pkt off = Some 0 -> name_at pkt off [] (S off)
| na_label off l ls e : (12 <= off)%nat -> (1 <= length l <= 63)%nat -> nth_error pkt off = Some (N.of_nat (length l)) ->
    (off + 1 + length l <= length pkt)%nat -> sub pkt (S off) (length l) = l ->
    name_at pkt (off + 1 + length l) ls e -> name_at pkt off (l :: ls) e
| na_ptr off hi lo ls e : nth_error pkt off = Some hi -> nth_error pkt (S off) = Some lo ->
    192 <= hi < 256 -> lo < 256 -> (N.to_nat ((hi - 192) * 256 + lo) < off)%nat ->
    name_at pkt (N.to_nat ((hi - 192) * 256 + lo)) ls e -> name_at pkt off ls (off + 2).

(** Names that differ only in the case of ASCII letters. *)
Definition same_name (a b : list (list N)) : Prop := map (map lower) a = map (map lower) b.

(** A response being written: the names in it, in order. *)
Inductive piece := PRaw (data : list N) | PName (compress make : bool) (ls : list (list N)) | PAgain (k : nat).
(** names that the pieces ask for *)
Fixpoint asked (ps : list piece) (acc : list (list (list N))) : list (list (list N)) :=
  match ps with
  | [] => acc
  | PRaw _ :: ps => asked ps acc
  | PName _ _ ls :: ps => asked ps (acc ++ [ls])
  | PAgain k :: ps => asked ps (acc ++ [nth k acc []])
  end.
Fixpoint pieces_ok (ps : list piece) (n : nat) : Prop :=
  match ps with
  | [] => True
  | PRaw _ :: ps => pieces_ok ps n
  | PName _ _ ls :: ps => legal_name ls /\ pieces_ok ps (S n)
  | PAgain k :: ps => (k < n)%nat /\ pieces_ok ps (S n)
  end.
(** room needed if nothing could be compressed *)
Fixpoint room (ps : list piece) : N :=
  match ps with
  | [] => 0
  | PRaw d :: ps => N.of_nat (length d) + room ps
  | PName _ _ ls :: ps => N.of_nat (wire_len ls) + room ps
  | PAgain _ :: ps => 2 + room ps
  end.
