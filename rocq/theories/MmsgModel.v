(** Model of the sending half of [process_mmsgs], src/dnsio_udp.c:446-494. *)
From Verif Require Import Base.

(** One return of sendmmsg(2): a positive number of datagrams accepted, EINTR,
    or another error (which concerns the first datagram of the call). *)
Inductive kret := KSent (n : nat) | KIntr | KErr.

(** What happened to the datagram with the given index in the batch. *)
Inductive event := Sent (i : nat) | Failed (i : nat).

(** The for-loop of lines 454-462.  [lens] are the iov_len values from index
    [done] on; it skips leading zeros (advancing [pkts_done]) and counts the
    first run of non-zeros. *)
Fixpoint find_run (lens : list nat) (pkts_done to_send : nat) : nat * nat :=
  match lens with
  | [] => (pkts_done, to_send)
  | l :: rest =>
      if negb (Nat.eqb l 0) then find_run rest pkts_done (S to_send)
      else if Nat.eqb to_send 0 then find_run rest (S pkts_done) 0
      else (pkts_done, to_send)
  end.

(** The do/while of lines 469-474: the call is repeated on EINTR. *)
Fixpoint call_kernel (oracle : list kret) : option (kret * list kret) :=
  match oracle with
  | [] => None
  | KIntr :: rest => call_kernel rest
  | k :: rest => Some (k, rest)
  end.

Definition sent_events (first n : nat) : list event := map Sent (seq first n).

Inductive outcome := Done (evs : list event) | Waiting (evs : list event) | Broken.

Definition add_events (e : list event) (o : outcome) : outcome :=
  match o with Done l => Done (e ++ l) | Waiting l => Waiting (e ++ l) | Broken => Broken end.

(** The outer while of lines 451-494.  [Waiting] means the kernel oracle has
    not answered yet (the thread is still inside sendmmsg); [Broken] is a
    failed assertion (lines 472, 473, 492) or exhausted fuel. *)
Fixpoint send_loop (fuel : nat) (oracle : list kret) (lens : list nat) (pkts_done : nat) : outcome :=
  if Nat.ltb pkts_done (length lens) then
    match fuel with
    | O => Broken
    | S f =>
      let (d, to_send) := find_run (skipn pkts_done lens) pkts_done 0 in
      if Nat.eqb to_send 0 then
        (* line 492 *)
        if Nat.eqb d (length lens) then send_loop f oracle lens d else Broken
      else
        match call_kernel oracle with
        | None => Waiting []
        | Some (KSent n, oracle') =>
            if (Nat.ltb 0 n && Nat.leb n to_send)%bool
            then add_events (sent_events d n) (send_loop f oracle' lens (d + n))
            else Broken
        | Some (KErr, oracle') => add_events [Failed d] (send_loop f oracle' lens (d + 1))
        | Some (KIntr, _) => Broken
        end
    end
  else Done [].

Definition process_mmsgs_send (oracle : list kret) (lens : list nat) : outcome :=
  send_loop (S (length lens)) oracle lens 0.
