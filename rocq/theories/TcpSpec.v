(** What it means to cut a byte stream into DNS-over-TCP requests.
    Independent of the buffering code. *)
From Verif Require Import Base TcpModel.
Local Open Scope N_scope.

(** RFC 1035 4.2.2 framing: two length bytes, then the message. *)
Definition frame (req : bytes) : bytes := be16 (N.of_nat (length req)) ++ req.

(** The sizes gdnsd accepts. *)
Definition legal (req : bytes) : Prop := (12 <= length req)%nat /\ N.of_nat (length req) <= 1024.

Definition framed (reqs : list bytes) : bytes := concat (map frame reqs).

(** The rest of a stream that does not yet contain a further request, but
    could still become one. *)
Definition incomplete (rest : bytes) : Prop :=
  match rest with
  | [] => True
  | [a] => a * 256 <= 1024
  | a :: b :: t => 12 <= get16 a b <= 1024 /\ N.of_nat (length t) < get16 a b
  end.

(** The rest of a stream that can no longer begin with a legal request. *)
Definition illegal (rest : bytes) : Prop :=
  match rest with
  | [] => False
  | [a] => 1024 < a * 256
  | a :: b :: _ => ~ (12 <= get16 a b <= 1024)
  end.

(** The rest of a stream that begins with a complete request. *)
Definition has_request (rest : bytes) : Prop :=
  match rest with
  | a :: b :: t => 12 <= get16 a b <= 1024 /\ get16 a b <= N.of_nat (length t)
  | _ => False
  end.

(** The bytes received from the client during a list of events. *)
Fixpoint received (es : list event) : bytes :=
  match es with
  | [] => []
  | EvRead (RData d) :: es' => d ++ received es'
  | _ :: es' => received es'
  end.

(** The first non-empty read. *)
Fixpoint first_read (es : list event) : bytes :=
  match es with
  | [] => []
  | EvRead (RData d) :: _ => d
  | _ :: es' => first_read es'
  end.

(** The request stream of a connection: everything received, after the PROXY
    header that the first read must contain on PROXY listeners. *)
Definition request_stream (do_proxy : bool) (proxy_parse : bytes -> nat) (es : list event) : bytes :=
  if do_proxy then skipn (proxy_parse (first_read es)) (received es) else received es.
