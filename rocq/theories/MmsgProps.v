(** Property theorem C31 (batched UDP sending). *)
From Verif Require Import Base MmsgModel MmsgSpec MmsgProofs.

(** C31: whatever the kernel answers (within its contract), no assertion
    fails; when the loop ends, the datagrams reported sent or failed are
    exactly those holding a response, each once and in order, and each is
    reported sent or failed as the kernel answered; if it is still
    waiting, the ones handled so far are a prefix of those, and the kernel has
    answered fewer times than there are datagrams (so the loop ends after at
    most one answer per datagram). *)
Theorem C31_each_response_once : forall oracle lens,
  kernel_ok oracle lens ->
  match process_mmsgs_send oracle lens with
  | Done evs => map event_index evs = to_transmit lens /\ evs = replay oracle (to_transmit lens)
  | Waiting evs => answers oracle < length lens /\
                   (exists k, map event_index evs = firstn k (to_transmit lens)) /\
                   evs = replay oracle (to_transmit lens)
  | Broken => False
  end.
Proof. exact process_mmsgs_ok. Qed.
Print Assumptions C31_each_response_once.

Theorem C31_transmit_set : forall lens,
  NoDup (to_transmit lens) /\
  forall i, In i (to_transmit lens) <-> i < length lens /\ nth i lens 0 <> 0.
Proof. exact to_transmit_spec. Qed.
Print Assumptions C31_transmit_set.

(** Six packets, two dropped; a partial send, an interrupt and an error. *)
Example C31_witness :
  let lens := [40; 0; 51; 52; 0; 60] in
  let oracle := [KSent 1; KIntr; KSent 1; KErr; KSent 1] in
  kernel_ok oracle lens /\
  process_mmsgs_send oracle lens = Done [Sent 0; Sent 2; Failed 3; Sent 5].
Proof. cbn. split; [|reflexivity]. repeat (split; [right; lia|]). auto. Qed.
