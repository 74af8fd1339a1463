(** Domain names as lists of labels, their wire form and their text form.
    Independent of the code. *)
From Verif Require Import Base.
Local Open Scope N_scope.

(** ** Wire form *)
Notation label := (list N) (only parsing).

Fixpoint wire_labels (ls : list label) : bytes :=
  match ls with [] => [] | l :: r => N.of_nat (length l) :: l ++ wire_labels r end.

Definition term (fq : bool) : N := if fq then 0 else 255.

(** gdnsd's "dname": length byte, labels, and 0 (fully qualified) or 255. *)
Definition dname (ls : list label) (fq : bool) : bytes :=
  let w := wire_labels ls ++ [term fq] in N.of_nat (length w) :: w.

(** Encoded length, without the length byte. *)
Definition wire_len (ls : list label) : nat := S (fold_right (fun l n => S (length l) + n) 0 ls)%nat.

(** Legal names: labels of 1 to 63 bytes, at most 255 encoded bytes. *)
Definition legal_label (l : label) : Prop := (1 <= length l <= 63)%nat /\ all_bytes l.
Definition legal_name (ls : list label) : Prop := Forall legal_label ls /\ (wire_len ls <= 255)%nat.

(** What the name checker accepts as structure (label lengths up to 254). *)
Definition struct_label (l : label) : Prop := (1 <= length l <= 254)%nat.
Definition struct_name (ls : list label) : Prop := Forall struct_label ls /\ (wire_len ls <= 255)%nat.

(** ** Text form *)
Definition lower (b : N) : N := if (65 <=? b) && (b <=? 90) then b + 32 else b.
Definition is_digit (b : N) : Prop := 48 <= b <= 57.

(** [escaped t d]: the text [t] of one label denotes the bytes [d]. *)
Inductive escaped : bytes -> bytes -> Prop :=
| esc_nil : escaped [] []
| esc_plain b t d : b <> 92 -> b <> 46 -> escaped t d -> escaped (b :: t) (b :: d)
| esc_char b t d : ~ is_digit b -> escaped t d -> escaped (92 :: b :: t) (b :: d)
| esc_num b1 b2 b3 t d : is_digit b1 -> is_digit b2 -> is_digit b3 ->
    (b1 - 48) * 100 + (b2 - 48) * 10 + (b3 - 48) <= 255 ->
    escaped t d ->
    escaped (92 :: b1 :: b2 :: b3 :: t) ((b1 - 48) * 100 + (b2 - 48) * 10 + (b3 - 48) :: d).

(** the text of one label, letters folded to lower case *)
Definition label_text (t : bytes) (l : label) : Prop := exists d, escaped t d /\ l = map lower d /\ l <> [].

(** [labels_text t ls fq]: labels separated by dots, with or without a final one *)
Inductive labels_text : bytes -> list label -> bool -> Prop :=
| lt_last t l : label_text t l -> labels_text t [l] false
| lt_dot t l : label_text t l -> labels_text (t ++ [46]) [l] true
| lt_more t l t2 ls fq : label_text t l -> labels_text t2 ls fq -> labels_text (t ++ 46 :: t2) (l :: ls) fq.

Inductive name_text : bytes -> list label -> bool -> Prop :=
| nt_empty : name_text [] [] false
| nt_root : name_text [46] [] true
| nt_labels t ls fq : labels_text t ls fq -> name_text t ls fq.
