(** Shared notation and small list helpers used by all model files.
    Nothing in this file models gdnsd code. *)
From Coq Require Export List Arith NArith ZArith Lia Bool.
From Coq Require Export ZifyBool ZifyNat ZifyN.
Export ListNotations.
Ltac Zify.zify_post_hook ::= Z.div_mod_to_equations.

(** Bytes are numbers below 256. *)
Notation byte := N (only parsing).
Notation bytes := (list N) (only parsing).
Definition is_byte (b : N) : Prop := (b < 256)%N.
Definition all_bytes (l : bytes) : Prop := Forall is_byte l.

(** Machine moduli. *)
Definition two8  : N := 256%N.
Definition two16 : N := 65536%N.
Definition two32 : N := 4294967296%N.
Definition two64 : N := 18446744073709551616%N.

(** The possible ends of a modelled C computation: a normal value, or a
    violated [gdnsd_assert] / out-of-bounds access / other undefined
    behaviour.  In debug builds the former aborts, in release builds
    [gdnsd_assert] is [__builtin_unreachable] (include/gdnsd/log.h), so both
    are one outcome here. *)
Inductive res (A : Type) : Type :=
| Ok (a : A)
| UB.
Arguments Ok {A} a.
Arguments UB {A}.

Definition rbind {A B} (x : res A) (f : A -> res B) : res B :=
  match x with Ok a => f a | UB => UB end.
Notation "'do' x <- a ; b" := (rbind a (fun x => b))
  (at level 200, x pattern, a at level 100, b at level 200, right associativity).
Definition rassert {A} (c : bool) (k : res A) : res A := if c then k else UB.

Definition is_ok {A} (x : res A) : Prop := exists a, x = Ok a.

(** Checked read of one element. *)
Definition rd {A} (l : list A) (i : nat) : res A :=
  match nth_error l i with Some x => Ok x | None => UB end.

(** Checked write of a run of elements into a fixed-size buffer. *)
Definition wr {A} (l : list A) (off : nat) (data : list A) : res (list A) :=
  if Nat.leb (off + length data) (length l)
  then Ok (firstn off l ++ data ++ skipn (off + length data) l) else UB.

(** Checked read of a run. *)
Definition rdn {A} (l : list A) (off n : nat) : res (list A) :=
  if Nat.leb (off + n) (length l) then Ok (firstn n (skipn off l)) else UB.

(** [l] with element [i] replaced (unchanged when out of range). *)
Fixpoint upd {A} (l : list A) (i : nat) (x : A) : list A :=
  match l, i with
  | [], _ => []
  | _ :: t, O => x :: t
  | h :: t, S i' => h :: upd t i' x
  end.

(** Sub-list [l[i .. i+n)]. *)
Definition sub {A} (l : list A) (i n : nat) : list A := firstn n (skipn i l).
Global Arguments sub : simpl never.

(** Big-endian 16- and 32-bit values. *)
Definition be16 (v : N) : bytes := [(v / 256) mod 256; v mod 256]%N.
Definition be32 (v : N) : bytes :=
  [(v / 16777216) mod 256; (v / 65536) mod 256; (v / 256) mod 256; v mod 256]%N.
Definition get16 (a b : byte) : N := (a * 256 + b)%N.
Definition get32 (a b c d : byte) : N :=
  (((a * 256 + b) * 256 + c) * 256 + d)%N.

Section ListFacts.
  Context {A : Type}.

  Lemma upd_length (l : list A) i x : length (upd l i x) = length l.
  Proof. revert i; induction l as [|h t IH]; intros [|i]; simpl; auto. Qed.

  Lemma nth_error_upd_eq (l : list A) i x :
    i < length l -> nth_error (upd l i x) i = Some x.
  Proof.
    revert i; induction l as [|h t IH]; intros [|i] H; simpl in *; try lia; auto.
    apply IH; lia.
  Qed.

  Lemma nth_error_upd_neq (l : list A) i j x :
    i <> j -> nth_error (upd l i x) j = nth_error l j.
  Proof.
    revert i j; induction l as [|h t IH]; intros [|i] [|j] H; simpl; auto; try lia.
  Qed.

  Lemma upd_nth (l : list A) i j x d :
    nth j (upd l i x) d =
    if (Nat.eqb i j && Nat.ltb i (length l))%bool then x else nth j l d.
  Proof.
    revert i j; induction l as [|h t IH]; intros i j.
    - cbn. now rewrite andb_false_r.
    - destruct i as [|i], j as [|j]; cbn [upd nth length]; auto.
      rewrite IH. reflexivity.
  Qed.

  Lemma upd_out (l : list A) i x : length l <= i -> upd l i x = l.
  Proof.
    revert i; induction l as [|h t IH]; intros [|i] H; simpl in *; auto; try lia.
    f_equal; apply IH; lia.
  Qed.

  Lemma upd_app_r (l1 l2 : list A) i x :
    upd (l1 ++ l2) (length l1 + i) x = l1 ++ upd l2 i x.
  Proof. induction l1 as [|h t IH]; simpl; auto. f_equal; auto. Qed.

  Lemma upd_app_l (l1 l2 : list A) i x :
    i < length l1 -> upd (l1 ++ l2) i x = upd l1 i x ++ l2.
  Proof.
    revert i; induction l1 as [|h t IH]; intros [|i] H; simpl in *; auto; try lia.
    f_equal; apply IH; lia.
  Qed.

  Lemma upd_split (l : list A) i x :
    i < length l -> upd l i x = firstn i l ++ x :: skipn (S i) l.
  Proof.
    revert i; induction l as [|h t IH]; intros [|i] H; simpl in *; auto; try lia.
    f_equal; apply IH; lia.
  Qed.

  Lemma sub_length (l : list A) i n : i + n <= length l -> length (sub l i n) = n.
  Proof. intros H. unfold sub. rewrite firstn_length, skipn_length. lia. Qed.

  Lemma sub_app_l (l1 l2 : list A) i n :
    i + n <= length l1 -> sub (l1 ++ l2) i n = sub l1 i n.
  Proof.
    intros H. unfold sub. rewrite skipn_app, firstn_app, skipn_length.
    replace (n - (length l1 - i)) with 0 by lia. simpl. now rewrite app_nil_r.
  Qed.

  Lemma sub_app_r (l1 l2 : list A) i n :
    sub (l1 ++ l2) (length l1 + i) n = sub l2 i n.
  Proof.
    unfold sub. rewrite skipn_app, skipn_all2 by lia.
    simpl. now replace (length l1 + i - length l1) with i by lia.
  Qed.

  Lemma sub_full (l : list A) : sub l 0 (length l) = l.
  Proof. unfold sub; simpl. apply firstn_all. Qed.

  Lemma rd_ok (l : list A) i : i < length l -> is_ok (rd l i).
  Proof.
    intros H. unfold rd, is_ok. destruct (nth_error l i) eqn:E; eauto.
    apply nth_error_None in E; lia.
  Qed.

  Lemma skipn_nth_cons (l : list A) i x :
    nth_error l i = Some x -> skipn i l = x :: skipn (S i) l.
  Proof.
    revert i; induction l as [|h t IH]; intros [|i] H; simpl in *; try discriminate.
    - now inversion H.
    - apply IH; auto.
  Qed.
End ListFacts.

Lemma skipn_skipn_plus {A} (l : list A) a b : skipn a (skipn b l) = skipn (a + b) l.
Proof.
  revert b l; induction b as [|b IH]; intros l.
  - simpl. now rewrite Nat.add_0_r.
  - replace (a + S b) with (S (a + b)) by lia.
    destruct l as [|h t]; simpl; [now rewrite !skipn_nil | apply IH].
Qed.

Lemma get16_be16 v : (v < 65536 -> get16 ((v / 256) mod 256) (v mod 256) = v)%N.
Proof. unfold get16; lia. Qed.

Lemma get32_be32 v : (v < 4294967296 ->
  get32 ((v / 16777216) mod 256) ((v / 65536) mod 256) ((v / 256) mod 256) (v mod 256) = v)%N.
Proof. unfold get32; lia. Qed.

Lemma be16_bytes v : all_bytes (be16 v).
Proof. unfold all_bytes, be16, is_byte. repeat constructor; lia. Qed.

Lemma be32_bytes v : all_bytes (be32 v).
Proof. unfold all_bytes, be32, is_byte. repeat constructor; lia. Qed.

Lemma sub_all {A} (l : list A) n : length l = n -> sub l 0 n = l.
Proof. intros <-. apply sub_full. Qed.

Lemma wr_ok {A} (l : list A) off data : off + length data <= length l ->
  wr l off data = Ok (firstn off l ++ data ++ skipn (off + length data) l).
Proof. intros H. unfold wr. apply Nat.leb_le in H. now rewrite H. Qed.

Lemma wr_length {A} (l l' : list A) off data : wr l off data = Ok l' -> length l' = length l.
Proof.
  unfold wr. destruct (Nat.leb_spec (off + length data) (length l)); [|discriminate].
  intros [= <-]. rewrite !app_length, firstn_length, skipn_length. lia.
Qed.

(** writing right behind a known prefix *)
Lemma wr_prefix {A} (p rest data : list A) : length data <= length rest ->
  wr (p ++ rest) (length p) data = Ok (p ++ data ++ skipn (length data) rest).
Proof.
  intros H. rewrite wr_ok by (rewrite app_length; lia).
  rewrite firstn_app, Nat.sub_diag, firstn_all, firstn_O, app_nil_r.
  rewrite skipn_app, skipn_all2 by lia.
  now replace (length p + length data - length p) with (length data) by lia.
Qed.

Lemma rdn_ok {A} (l : list A) off n : off + n <= length l -> rdn l off n = Ok (sub l off n).
Proof. intros H. unfold rdn. apply Nat.leb_le in H. now rewrite H. Qed.

Lemma rd_app_r {A} (p l : list A) i : rd (p ++ l) (length p + i) = rd l i.
Proof. unfold rd. rewrite nth_error_app2 by lia. now replace (length p + i - length p) with i by lia. Qed.

Lemma rd_app_l {A} (p l : list A) i : i < length p -> rd (p ++ l) i = rd p i.
Proof. intros H. unfold rd. now rewrite nth_error_app1. Qed.
