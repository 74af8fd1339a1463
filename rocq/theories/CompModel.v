(** Model of name output, src/dnspacket.c:762-892, and of following a
    compression pointer, src/dnspacket.c:1585-1609.

    The response under construction is the list of bytes before the current
    offset, so the offset is its length; bytes beyond it are never read.
    Appending checks the size of the packet buffer (MAX_RESPONSE_BUF,
    src/dnswire.h:45). *)
From Verif Require Import Base.
Local Open Scope N_scope.

Definition MAX_BUF : N := 16382.
Definition emit (out data : bytes) : res bytes :=
  rassert (N.of_nat (length out) + N.of_nat (length data) <=? MAX_BUF) (Ok (out ++ data)).

(** [ctarget_t], src/dnspacket.c:48-58: the bytes [orig] points at (from there
    to the end of the name) and where they are in the packet.  [len] is the
    length of [ct_orig]. *)
Record ctarget := { ct_orig : bytes; ct_off : nat }.
Definition ct_len (t : ctarget) : nat := length (ct_orig t).

Definition COMPTARGETS_MAX : nat := 16.

(** One step to the next label. *)
Definition next_label (nm : bytes) : res bytes :=
  match nm with
  | [] => UB
  | l :: r => rassert (Nat.leb (N.to_nat l) (length r)) (Ok (skipn (N.to_nat l) r))
  end.

(** [ctargets_add_qname], src/dnspacket.c:762-782; also the final loop of
    [store_dname_comp] (:835-846), which does the same from another start. *)
Fixpoint add_targets (fuel : nat) (cts : list ctarget) (nm : bytes) (off : nat) : res (list ctarget) :=
  match fuel with
  | O => UB
  | S fuel =>
      if Nat.ltb 2 (length nm) && Nat.ltb (length cts) COMPTARGETS_MAX then
        do nm' <- next_label nm;
        add_targets fuel (cts ++ [{| ct_orig := nm; ct_off := off |}]) nm' (off + (length nm - length nm'))
      else Ok cts
  end.
Definition ctargets_add_qname (lqname_wire : bytes) : res (list ctarget) :=
  add_targets (S (length lqname_wire)) [] lqname_wire 12.

(** The inner while loop of [store_dname_comp], src/dnspacket.c:809-824:
    [done] are the targets before index i (new ones are inserted there), [rest]
    counts the targets from i on. *)
Fixpoint skip_longer (fuel : nat) (tlen : nat) (make : bool) (done : list ctarget) (rest : nat) (nm : bytes) (off : nat)
  : res (list ctarget * bytes * nat) :=
  match fuel with
  | O => UB
  | S fuel =>
      if Nat.ltb tlen (length nm) then
        do done <- (if make && Nat.ltb (length done + rest) COMPTARGETS_MAX
                    then rassert (Nat.ltb 2 (length nm)) (Ok (done ++ [{| ct_orig := nm; ct_off := off |}]))
                    else Ok done);
        do nm' <- next_label nm;
        skip_longer fuel tlen make done rest nm' (off + (length nm - length nm'))
      else Ok (done, nm, off)
  end.

Fixpoint bytes_eqb (a b : bytes) : bool :=
  match a, b with
  | [], [] => true
  | x :: a, y :: b => (x =? y) && bytes_eqb a b
  | _, _ => false
  end.

(** The search loop, src/dnspacket.c:804-833: a match, or the position the name
    was reduced to. *)
Inductive comp_found := Found (t : ctarget) | NotFound.
Fixpoint comp_search (make : bool) (done todo : list ctarget) (nm : bytes) (off : nat)
  : res (comp_found * list ctarget * bytes * nat) :=
  match todo with
  | [] => Ok (NotFound, done, nm, off)
  | t :: todo' =>
      do (done, nm, off) <- skip_longer (S (length nm)) (ct_len t) make done (length todo) nm off;
      if bytes_eqb nm (ct_orig t) then Ok (Found t, done ++ todo, nm, off)
      else comp_search make (done ++ [t]) todo' nm off
  end.

(** [store_dname_comp], src/dnspacket.c:784-857: new packet and targets.
    [lq] is the query name (without length byte), [dn] the name to store
    (likewise); the returned length is the growth of the packet. *)
Definition store_dname_comp (lq : bytes) (cts : list ctarget) (out dn : bytes) (make : bool) : res (bytes * list ctarget) :=
  do cts <- (match cts with [] => ctargets_add_qname lq | _ => Ok cts end);
  do (found, cts, nm, off) <- comp_search make [] cts dn (length out);
  match found with
  | Found t =>
      let match_depth := (length dn - length nm)%nat in
      do out1 <- emit out (firstn match_depth dn);
      do out2 <- emit out1 (be16 (N.lor 49152 (N.of_nat (ct_off t))));
      do b <- rd out2 (ct_off t);
      rassert (N.land b 192 =? 0) (Ok (out2, cts))
  | NotFound =>
      do cts <- (if make then add_targets (S (length nm)) cts nm off else Ok cts);
      do out <- emit out dn;
      Ok (out, cts)
  end.

(** [store_dname_nocomp], src/dnspacket.c:859-866. *)
Definition store_dname_nocomp (out dn : bytes) : res bytes := emit out dn.

(** [repeat_name], src/dnspacket.c:868-892. *)
Definition repeat_name (out : bytes) (orig_offset : nat) : res bytes :=
  do b <- rd out orig_offset;
  if b =? 0 then emit out [0]
  else if negb (N.land b 192 =? 0) then
    do p <- rdn out orig_offset 2; emit out p
  else emit out (be16 (N.lor 49152 (N.of_nat orig_offset))).

(** [chase_auth_ptr], src/dnspacket.c:1585-1609. *)
Fixpoint chase_auth_ptr (fuel : nat) (out : bytes) (offset auth_depth : nat) : res nat :=
  match fuel with
  | O => UB
  | S fuel =>
      do llen <- rd out offset;
      if Nat.eqb auth_depth 0 && (N.land llen 192 =? 0) then Ok offset
      else if negb (N.land llen 192 =? 0) then
        do lo <- rd out (S offset);
        chase_auth_ptr fuel out (N.to_nat (N.ldiff (get16 llen lo) 49152)) auth_depth
      else
        let move := S (N.to_nat llen) in
        rassert (Nat.leb move auth_depth) (chase_auth_ptr fuel out (offset + move) (auth_depth - move))
  end.

(** Building a response: how the record encoders (src/dnspacket.c:930-1562) use
    the functions above.  [Raw] stands for fixed fields and record data (with
    the values they end up with); [Again k] repeats the k-th name stored. *)
Inductive wop := Raw (data : bytes) | Name (make : bool) (dn : bytes) | Plain (dn : bytes) | Again (k : nat).
Fixpoint run_wops (lq : bytes) (ops : list wop) (out : bytes) (cts : list ctarget) (log : list nat) : res (bytes * list nat) :=
  match ops with
  | [] => Ok (out, log)
  | Raw data :: ops => do out <- emit out data; run_wops lq ops out cts log
  | Name make dn :: ops =>
      do (out', cts) <- store_dname_comp lq cts out dn make; run_wops lq ops out' cts (log ++ [length out])
  | Plain dn :: ops => do out' <- store_dname_nocomp out dn; run_wops lq ops out' cts (log ++ [length out])
  | Again k :: ops =>
      match nth_error log k with
      | None => UB
      | Some off => do out' <- repeat_name out off; run_wops lq ops out' cts (log ++ [length out])
      end
  end.
