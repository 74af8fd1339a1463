(** Property theorem C29 (TCP request framing). *)
From Verif Require Import Base TcpModel TcpSpec TcpProofs.

(** C29: for every schedule of reads (of any sizes) and check-watcher turns on
    a connection, no assertion fails and no access leaves the buffer.  Unless
    the PROXY header is missing or bad, the requests processed are exactly the
    first frames of the received stream, in order, each once; what remains of
    the stream is: not yet a request (waiting for data), a further complete
    request (check watcher armed to process it), or, exactly when the
    connection was closed for a bad length, something that can no longer
    become a legal request. *)
Theorem C29_requests_are_the_frames : forall served proxy_parse p es r,
  (forall b, proxy_parse b <= length b) ->
  run served proxy_parse (conn_init p) es r ->
  exists c, r = Ok c /\ Forall legal (out c) /\
    ((p = true /\ out c = [] /\ (received es = [] \/ closed c = Some ProxyFail)) \/
     exists rest, request_stream p proxy_parse es = framed (out c) ++ rest /\
       match closed c with
       | None => incomplete rest /\ active c = ReadW \/ has_request rest /\ active c = CheckW
       | Some BadLength => illegal rest
       | Some _ => True
       end).
Proof. intros served proxy_parse p es r Hp. exact (run_main served proxy_parse Hp p es r). Qed.
Print Assumptions C29_requests_are_the_frames.

(** Segmentation independence: two connections that received the same bytes,
    cut in any ways and with any interleaving of check turns, and that are both
    quiescent (waiting for data, or closed for a bad length), have processed the
    same requests and are in the same state. *)
Theorem C29_segmentation_independent : forall served1 served2 proxy_parse es1 es2 c1 c2,
  run served1 proxy_parse (conn_init false) es1 (Ok c1) ->
  run served2 proxy_parse (conn_init false) es2 (Ok c2) ->
  (forall b, proxy_parse b <= length b) ->
  (closed c1 = None /\ active c1 = ReadW \/ closed c1 = Some BadLength) ->
  (closed c2 = None /\ active c2 = ReadW \/ closed c2 = Some BadLength) ->
  received es1 = received es2 -> out c1 = out c2 /\ closed c1 = closed c2.
Proof. exact segmentation_main. Qed.
Print Assumptions C29_segmentation_independent.

(** The cut of a stream into requests is unique, so "the frames of the stream"
    above is one well-defined list. *)
Theorem C29_framing_is_unique : forall l1 l2 r1 r2, Forall legal l1 -> Forall legal l2 ->
  incomplete r1 \/ illegal r1 -> incomplete r2 \/ illegal r2 ->
  framed l1 ++ r1 = framed l2 ++ r2 -> l1 = l2 /\ r1 = r2.
Proof. exact framed_unique. Qed.
Print Assumptions C29_framing_is_unique.

(** A connection with a complete request waiting makes progress: one more
    request per turn. *)
Theorem C29_progress : forall served proxy_parse p es c,
  (forall b, proxy_parse b <= length b) ->
  run served proxy_parse (conn_init p) es (Ok c) -> enabled c EvCheck ->
  exists c' req, step served proxy_parse c EvCheck = Ok c' /\ out c' = out c ++ [req].
Proof. exact check_progress. Qed.
Print Assumptions C29_progress.

(** Two 12-byte requests and the start of a bad length, once in one read and
    once split inside the second length field. *)
Definition C29_req (x : N) : list N := [x; 0; 0; 0; 0; 1; 0; 0; 0; 0; 0; 0]%N.
Definition C29_stream : list N := [0; 12]%N ++ C29_req 7 ++ [0; 12]%N ++ C29_req 8 ++ [9]%N.
Definition C29_es1 : list event := [EvRead (RData C29_stream); EvCheck].
Definition C29_es2 : list event :=
  [EvRead (RData (firstn 15 C29_stream)); EvRead RWouldBlock; EvRead (RData (skipn 15 C29_stream))].

Definition C29_summary (r : res conn) :=
  match r with Ok c => Some (out c, closed c, cnt c) | UB => None end.

Fixpoint C29_exec (c : conn) (es : list event) : res conn :=
  match es with
  | [] => Ok c
  | e :: es' => match step (fun _ _ => true) (fun _ => 0) c e with Ok c' => C29_exec c' es' | UB => UB end
  end.

Example C29_witness :
  C29_summary (C29_exec (conn_init false) C29_es1) =
    Some ([C29_req 7; C29_req 8], Some BadLength, 1) /\
  C29_summary (C29_exec (conn_init false) C29_es2) =
    Some ([C29_req 7; C29_req 8], Some BadLength, 1).
Proof. vm_compute. auto. Qed.

Example C29_witness_enabled :
  enabled (conn_init false) (EvRead (RData C29_stream)).
Proof.
  split; [reflexivity|]. split; [reflexivity|]. split.
  - split; [apply Nat.ltb_lt|apply Nat.leb_le]; vm_compute; reflexivity.
  - unfold all_bytes. repeat constructor; vm_compute; reflexivity.
Qed.
